(** The buffered output of scpp.c: model and what is written (C44). *)
From Coq Require Import ZArith List Bool Lia.
From Verif Require Import Base.
Import ListNotations.
Open Scope Z_scope.

Definition BUF := 512.   (* sizeof OutFile->Buf, scpp.c:296, 367 *)
(** OutFile->Buf, OutFile->BufPtr (an index) and the blocks passed to write, last first.
    write is assumed to write all it is given; scpp.c does not look at its result. *)
Record wr := mkwr { w_buf : arr Z; w_ptr : Z; w_done : list (list Z) }.
Fixpoint slice (b : arr Z) (i : Z) (n : nat) : list Z :=
  match n with O => [] | S n => aget b i :: slice b (i + 1) n end.
(** scpp.c:1469-1480; the string ends with a NUL, which is stored but not counted *)
Fixpoint OutputStr (l : list Z) (w : wr) : wr :=
  match l with
  | [] => mkwr (aset (w_buf w) (w_ptr w) 0) (w_ptr w) (w_done w)
  | c :: l =>
      let b := aset (w_buf w) (w_ptr w) c in
      let p := w_ptr w + 1 in
      if negb (p =? BUF) then OutputStr l (mkwr b p (w_done w))
      else OutputStr l (mkwr b 0 (slice b 0 (Z.to_nat BUF) :: w_done w))
  end.
(** the write at the end of main, scpp.c:1619 *)
Definition finish (w : wr) : list (list Z) := slice (w_buf w) 0 (Z.to_nat (w_ptr w)) :: w_done w.
Definition start : wr := mkwr (ainit 0) 0 [].
(** the blocks written for a sequence of strings, in order *)
Definition written (strs : list (list Z)) : list (list Z) := rev (finish (fold_left (fun w s => OutputStr s w) strs start)).

Definition good (w : wr) : Prop := 0 <= w_ptr w < BUF.
Definition text (w : wr) : list Z := List.concat (rev (w_done w)) ++ slice (w_buf w) 0 (Z.to_nat (w_ptr w)).
Lemma slice_snoc n : forall b i c, slice (aset b (i + Z.of_nat n) c) i (S n) = slice b i n ++ [c].
Proof.
  induction n as [|n IH]; intros b i c.
  - cbn [slice]. change (Z.of_nat 0) with 0. rewrite Z.add_0_r, aget_aset_same. reflexivity.
  - cbn [slice app]. rewrite Nat2Z.inj_succ. rewrite aget_aset_other by lia. f_equal.
    replace (i + Z.succ (Z.of_nat n)) with (i + 1 + Z.of_nat n) by lia. exact (IH b (i + 1) c).
Qed.
Lemma slice_beyond n : forall b i p c, i + Z.of_nat n <= p -> slice (aset b p c) i n = slice b i n.
Proof.
  induction n as [|n IH]; intros b i p c H; [reflexivity|]. rewrite Nat2Z.inj_succ in H. cbn [slice].
  rewrite aget_aset_other by lia. f_equal. apply IH. lia.
Qed.
Lemma slice_length n : forall b i, length (slice b i n) = n.
Proof. induction n; intros; cbn [slice length]; auto. Qed.
Lemma OutputStr_spec l : forall w, good w -> Forall (fun x => length x = Z.to_nat BUF) (w_done w) ->
  let w' := OutputStr l w in
  good w' /\ text w' = text w ++ l /\ Forall (fun x => length x = Z.to_nat BUF) (w_done w').
Proof.
  induction l as [|c l IH]; intros w G F; cbn zeta.
  - cbn [OutputStr]. unfold good, text in *. cbn [w_ptr w_buf w_done]. rewrite app_nil_r. split; [exact G|]. split; [|exact F].
    f_equal. apply slice_beyond. lia.
  - cbn [OutputStr]. unfold good in G.
    assert (E : slice (aset (w_buf w) (w_ptr w) c) 0 (Z.to_nat (w_ptr w + 1)) = slice (w_buf w) 0 (Z.to_nat (w_ptr w)) ++ [c]).
    { replace (Z.to_nat (w_ptr w + 1)) with (S (Z.to_nat (w_ptr w))) by lia.
      rewrite <- slice_snoc. do 2 f_equal. lia. }
    destruct (Z.eqb_spec (w_ptr w + 1) BUF) as [B|B]; cbn [negb].
    + destruct (IH (mkwr (aset (w_buf w) (w_ptr w) c) 0 (slice (aset (w_buf w) (w_ptr w) c) 0 (Z.to_nat BUF) :: w_done w))) as (I1 & I2 & I3).
      * unfold good; cbn [w_ptr]. unfold BUF. lia.
      * cbn [w_done]. constructor; [apply slice_length|exact F].
      * split; [exact I1|]. split; [|exact I3]. rewrite I2. unfold text. cbn [w_done w_buf w_ptr rev Z.to_nat slice].
        rewrite <- B, E, concat_app. cbn [List.concat]. rewrite !app_nil_r, <- !app_assoc. reflexivity.
    + destruct (IH (mkwr (aset (w_buf w) (w_ptr w) c) (w_ptr w + 1) (w_done w))) as (I1 & I2 & I3).
      * unfold good; cbn [w_ptr]. lia.
      * exact F.
      * split; [exact I1|]. split; [|exact I3]. rewrite I2. unfold text. cbn [w_done w_buf w_ptr].
        rewrite E, <- !app_assoc. reflexivity.
Qed.
Lemma fold_spec strs : forall w, good w -> Forall (fun x => length x = Z.to_nat BUF) (w_done w) ->
  let w' := fold_left (fun w s => OutputStr s w) strs w in
  good w' /\ text w' = text w ++ List.concat strs /\ Forall (fun x => length x = Z.to_nat BUF) (w_done w').
Proof.
  induction strs as [|l strs IH]; intros w G F; cbn zeta; cbn [fold_left List.concat].
  - rewrite app_nil_r. auto.
  - destruct (OutputStr_spec l w G F) as (A & B & C). destruct (IH _ A C) as (A' & B' & C').
    split; [exact A'|]. split; [|exact C']. rewrite B', B, <- app_assoc. reflexivity.
Qed.
