(** The buffered reader of scpp.c: model and what it delivers (C45). *)
From Coq Require Import ZArith List Bool Lia.
From Verif Require Import Base.
Import ListNotations.
Open Scope Z_scope.

(** FILE_BUF_SIZE, scpp.c:296: sizeof CurFile->Buf *)
Definition BUF := 512.
(** the reader's variables: Buf, CurFileBuf (an index), what read has not delivered yet,
    the number of reads made, CurrentChar and Line; scpp.c:352-368, 427 *)
Record rd := mkrd { r_buf : arr Z; r_ptr : Z; r_file : list Z; r_reads : nat; r_char : Z; r_line : Z }.
Fixpoint fill (b : arr Z) (i : Z) (l : list Z) : arr Z :=
  match l with [] => b | c :: l => fill (aset b i c) (i + 1) l end.
(** read(): the operating system delivers at least one byte unless at the end of the file, and
    at most the number asked for; [sched k] is what it would deliver the k-th time *)
Definition chunk (sched : nat -> nat) (r : rd) : nat :=
  Nat.min (Nat.max 1 (sched (r_reads r))) (Nat.min (Z.to_nat (BUF - 1)) (length (r_file r))).
(** scpp.c:457-472 *)
Definition ReadChar (sched : nat -> nat) (r : rd) : rd :=
  let line := if r_char r =? 10 then r_line r + 1 else r_line r in
  let c := aget (r_buf r) (r_ptr r) in
  if negb (c =? 0) then mkrd (r_buf r) (r_ptr r + 1) (r_file r) (r_reads r) c line
  else
    let n := chunk sched r in
    let got := firstn n (r_file r) in
    let b := fill (r_buf r) 0 (map s8 got) in
    let b' := aset b (Z.of_nat n) 0 in
    match n with
    | O => mkrd b' 0 (r_file r) (S (r_reads r)) 0 line
    | S _ => mkrd b' 1 (skipn n (r_file r)) (S (r_reads r)) (aget b 0) line
    end.
(** the part of ReadToTokenData that reads, scpp.c:478-481; also the loops in lines 637-641,
    707-713, 723-728, 735-740 *)
Definition ReadNext (sched : nat -> nat) (r : rd) : rd :=
  let c := aget (r_buf r) (r_ptr r) in
  if negb (c =? 0) then mkrd (r_buf r) (r_ptr r + 1) (r_file r) (r_reads r) c (r_line r)
  else ReadChar sched (mkrd (r_buf r) (r_ptr r) (r_file r) (r_reads r) 0 (r_line r)).
(** OpenFile clears the buffer, scpp.c:438 *)
Definition opened (file : list Z) : rd := mkrd (ainit 0) 0 file 0 0 1.
Fixpoint read_chars (sched : nat -> nat) (k : nat) (r : rd) : rd :=
  match k with O => r | S k => ReadChar sched (read_chars sched k r) end.

(** ** What is delivered *)
Fixpoint held (b : arr Z) (i : Z) (l : list Z) : Prop :=
  match l with [] => aget b i = 0 | c :: l => aget b i = c /\ c <> 0 /\ held b (i + 1) l end.
(** the reader is about to deliver l *)
Definition ahead (r : rd) (l : list Z) : Prop :=
  exists a, held (r_buf r) (r_ptr r) a /\ l = a ++ map s8 (r_file r) /\ Forall (fun c => c <> 0) (map s8 (r_file r)).

Lemma fill_below l : forall b i j, j < i -> aget (fill b i l) j = aget b j.
Proof.
  induction l as [|c l IH]; intros b i j H; cbn; [reflexivity|]. rewrite IH by lia.
  apply aget_aset_other. lia.
Qed.
Lemma fill_held l : forall b i, Forall (fun c => c <> 0) l ->
  held (aset (fill b i l) (i + Z.of_nat (length l)) 0) i l.
Proof.
  induction l as [|c l IH]; intros b i F; cbn [fill length held].
  - rewrite Z.add_0_r. apply aget_aset_same.
  - inversion F; subst. split; [|split; [assumption|]].
    + rewrite aget_aset_other by lia. rewrite fill_below by lia. apply aget_aset_same.
    + rewrite Nat2Z.inj_succ. replace (i + Z.succ (Z.of_nat (length l))) with (i + 1 + Z.of_nat (length l)) by lia.
      apply IH. assumption.
Qed.
Lemma firstn_s8 n l : map s8 (firstn n l) ++ map s8 (skipn n l) = map s8 l.
Proof. rewrite <- map_app. now rewrite firstn_skipn. Qed.

Lemma ReadChar_ahead sched r l : ahead r l ->
  r_char (ReadChar sched r) = hd 0 l /\ ahead (ReadChar sched r) (tl l) /\
  r_line (ReadChar sched r) = (if r_char r =? 10 then r_line r + 1 else r_line r).
Proof.
  intros (a & H & -> & F). unfold ReadChar. destruct a as [|c a].
  - cbn [held app] in *. rewrite H. rewrite Z.eqb_refl. cbn [negb].
    remember (chunk sched r) as n eqn:N.
    assert (L : (n <= length (r_file r))%nat) by (subst n; unfold chunk; lia).
    destruct n as [|n].
    + assert (E : r_file r = []).
      { destruct (r_file r) as [|x y] eqn:E; [reflexivity|]. unfold chunk in N. rewrite E in N. cbn [length] in N.
        change (Z.to_nat (BUF - 1)) with (Pos.to_nat 511) in N. lia. }
      cbn [r_char r_line]. rewrite E. cbn. split; [reflexivity|]. split; [|reflexivity].
      exists []. cbn. split; [apply aget_aset_same|]. split; [reflexivity|constructor].
    + cbn [r_char r_line].
      pose proof (firstn_s8 (S n) (r_file r)) as P. rewrite <- P in F. apply Forall_app in F. destruct F as [F1 F2].
      pose proof (fill_held (map s8 (firstn (S n) (r_file r))) (r_buf r) 0 F1) as G.
      rewrite map_length, firstn_length in G. rewrite Nat.min_l in G by exact L. rewrite Z.add_0_l in G.
      rewrite <- P. destruct (r_file r) as [|x y] eqn:E; [cbn in L; lia|].
      cbn [firstn map held app hd tl] in *. destruct G as (G1 & G2 & G3). split; [|split; [|reflexivity]].
      * rewrite aget_aset_other in G1 by lia. exact G1.
      * exists (map s8 (firstn n y)). cbn [r_buf r_ptr r_file]. split; [exact G3|]. split; [|exact F2]. reflexivity.
  - cbn [held] in H. destruct H as (H1 & H2 & H3). rewrite H1.
    destruct (Z.eqb_spec c 0); [contradiction|]. cbn [negb r_char r_line app hd tl]. split; [reflexivity|]. split; [|reflexivity].
    exists a. cbn [r_buf r_ptr r_file]. auto.
Qed.
Lemma opened_ahead file : Forall (fun c => c <> 0) (map s8 file) -> ahead (opened file) (map s8 file).
Proof. intro F. exists []. cbn. split; [apply aget_init|auto]. Qed.
Lemma tl_skipn {A} k : forall (l : list A), tl (skipn k l) = skipn (S k) l.
Proof. induction k as [|k IH]; intros [|x l]; try reflexivity. cbn [skipn]. rewrite IH. reflexivity. Qed.
Lemma hd_skipn k : forall l, hd 0 (skipn k l) = nth k l 0.
Proof. induction k as [|k IH]; intros [|x l]; try reflexivity. cbn [skipn nth]. apply IH. Qed.
Definition newlines (l : list Z) : Z := Z.of_nat (count_occ Z.eq_dec l 10).
Lemma firstn_S_nth k : forall (l : list Z), firstn (S k) l = firstn k l ++ (if (k <? length l)%nat then [nth k l 0] else []).
Proof.
  induction k as [|k IH]; intros [|x l]; try reflexivity.
  change (firstn (S (S k)) (x :: l)) with (x :: firstn (S k) l). rewrite IH. reflexivity.
Qed.
Lemma newlines_snoc l c : newlines (l ++ [c]) = newlines l + (if c =? 10 then 1 else 0).
Proof. unfold newlines. rewrite count_occ_app. cbn [count_occ]. destruct (Z.eq_dec c 10) as [->|N]; [cbn; lia|].
  destruct (Z.eqb_spec c 10); [contradiction|lia]. Qed.
(** after k+1 calls CurrentChar is the character at position k, whatever the reads deliver; and
    Line counts the newlines before it *)
Lemma read_chars_spec sched file k : Forall (fun c => c <> 0) (map s8 file) ->
  let r := read_chars sched (S k) (opened file) in
  r_char r = nth k (map s8 file) 0 /\ ahead r (skipn (S k) (map s8 file)) /\
  r_line r = 1 + newlines (firstn k (map s8 file)).
Proof.
  intro F. induction k as [|k IH]; cbn zeta in *.
  - change (read_chars sched 1 (opened file)) with (ReadChar sched (opened file)).
    destruct (ReadChar_ahead sched _ _ (opened_ahead file F)) as (A & B & C). split; [|split].
    + rewrite A. destruct (map s8 file); reflexivity.
    + rewrite <- tl_skipn. exact B.
    + rewrite C. reflexivity.
  - destruct IH as (A & B & C).
    change (read_chars sched (S (S k)) (opened file)) with (ReadChar sched (read_chars sched (S k) (opened file))).
    destruct (ReadChar_ahead sched _ _ B) as (A' & B' & C'). split; [|split].
    + rewrite A'. apply hd_skipn.
    + rewrite <- tl_skipn. exact B'.
    + rewrite C', A, C, firstn_S_nth.
      destruct (Nat.ltb_spec k (length (map s8 file))).
      * rewrite newlines_snoc. destruct (nth k (map s8 file) 0 =? 10); lia.
      * rewrite nth_overflow by lia. rewrite app_nil_r. reflexivity.
Qed.
Lemma ReadNext_ReadChar sched r : r_char r <> 10 -> ReadNext sched r = ReadChar sched r.
Proof.
  intro N. unfold ReadNext, ReadChar. destruct (Z.eqb_spec (r_char r) 10); [contradiction|].
  cbn [r_buf r_ptr r_file r_reads r_char r_line].
  destruct (aget (r_buf r) (r_ptr r) =? 0) eqn:E; cbn [negb]; reflexivity.
Qed.
