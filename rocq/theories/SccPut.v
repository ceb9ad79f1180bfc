(** What the output functions of scc.c append to the code buffer. *)
From Verif Require Import Base Bits Spec8086 SccRun SccState SccEmit SccInput.

(** ** Appending bytes *)
Definition put1 (b : Z) (e : emst) : emst :=
  set_CodeAddress (CodeAddress e + 1) (set_Output (aset (Output e) (CodeAddress e - CODESTART) (u8 b)) e).
Fixpoint put (bs : list Z) (e : emst) : emst :=
  match bs with [] => e | b :: r => put r (put1 b e) end.

(** n more bytes fit in the output buffer *)
Definition room (e : emst) (n : Z) : Prop :=
  CODESTART <= CodeAddress e /\ CodeAddress e + n <= CODESTART + OUTPUT_MAX.
(** code is reachable and no stack adjustment or push is postponed *)
Definition live (e : emst) : Prop := IsDeadCode e = false /\ Pending e = 0 /\ room e 0.

Lemma put_app a : forall b e, put (a ++ b) e = put b (put a e).
Proof. induction a; cbn [app put]; auto. Qed.
Lemma put_addr bs : forall e, CodeAddress (put bs e) = CodeAddress e + Z.of_nat (length bs).
Proof. induction bs as [|b r IH]; intro e; cbn [put length]; [lia|]. rewrite IH. cbn [put1 CodeAddress set_CodeAddress]. lia. Qed.
Lemma put_dead bs : forall e, IsDeadCode (put bs e) = IsDeadCode e.
Proof. induction bs as [|b r IH]; intros e; cbn [put]; auto. rewrite IH. reflexivity. Qed.
Lemma put_pending bs : forall e, Pending (put bs e) = Pending e.
Proof. induction bs as [|b r IH]; intros e; cbn [put]; auto. rewrite IH. reflexivity. Qed.
Lemma put_unsigned bs : forall e, IsUnsignedOp (put bs e) = IsUnsignedOp e.
Proof. induction bs as [|b r IH]; intros e; cbn [put]; auto. rewrite IH. reflexivity. Qed.
Lemma put_live bs e : live e -> room e (Z.of_nat (length bs)) -> live (put bs e).
Proof. intros (D & P & R) Q. repeat split; rewrite ?put_dead, ?put_pending, ?put_addr; auto; unfold room in *; lia. Qed.
Lemma live_room bs e : live (put bs e) -> CodeAddress e + Z.of_nat (length bs) <= 24832.
Proof. intros (D & P & R). unfold room, CODESTART, OUTPUT_MAX in R. rewrite put_addr in R. lia. Qed.
Lemma live_lo e : live e -> 256 <= CodeAddress e.
Proof. intros (D & P & R). unfold room, CODESTART, OUTPUT_MAX in R. lia. Qed.

Lemma put_before bs : forall e a, a < CodeAddress e - CODESTART -> aget (Output (put bs e)) a = aget (Output e) a.
Proof.
  induction bs as [|b r IH]; intros e a L; cbn [put]; [reflexivity|].
  rewrite IH by (cbn [put1 CodeAddress set_CodeAddress]; lia).
  cbn [put1 Output set_CodeAddress set_Output]. rewrite aget_aset_other by lia. reflexivity.
Qed.
Lemma put_after bs : forall e a, CodeAddress e + Z.of_nat (length bs) - CODESTART <= a ->
  aget (Output (put bs e)) a = aget (Output e) a.
Proof.
  induction bs as [|b r IH]; intros e a L; cbn [put]; [reflexivity|]. cbn [length] in L.
  rewrite IH by (cbn [put1 CodeAddress set_CodeAddress]; lia).
  cbn [put1 Output set_CodeAddress set_Output]. rewrite aget_aset_other by lia. reflexivity.
Qed.
Lemma put_at bs : forall e k, (k < length bs)%nat ->
  aget (Output (put bs e)) (CodeAddress e + Z.of_nat k - CODESTART) = u8 (nth k bs 0).
Proof.
  induction bs as [|b r IH]; intros e k L; cbn [put length] in *; [lia|].
  destruct k as [|k]; cbn [nth].
  - rewrite put_before by (cbn [put1 CodeAddress set_CodeAddress]; lia).
    cbn [put1 Output set_CodeAddress set_Output]. replace (CodeAddress e + Z.of_nat 0 - CODESTART) with (CodeAddress e - CODESTART) by lia.
    apply aget_aset_same.
  - rewrite <- (IH (put1 b e) k) by lia. cbn [put1 CodeAddress set_CodeAddress]. f_equal. lia.
Qed.

(** ** The emitted code, in the memory of the machine that runs it *)
(** what the compiler appended between e and e' is loaded at its address in segment seg *)
Definition loaded (e e' : emst) (m : arr Z) (seg : Z) : Prop :=
  forall a, CodeAddress e <= a < CodeAddress e' -> rd8 m seg a = aget (Output e') (a - CODESTART).

Lemma loaded_put bs e m seg : loaded e (put bs e) m seg -> code m seg (CodeAddress e) (map u8 bs).
Proof.
  intros H k L. rewrite map_length in L. rewrite H by (rewrite put_addr; lia).
  rewrite put_at by lia. change 0 with (u8 0) at 2. symmetry. apply map_nth.
Qed.

(** ** Inversion of the output functions *)
Lemma putb_inv b e x e' : putb b e = Ok (x, e') -> e' = put1 b e /\ room e 1.
Proof.
  unfold putb. mgo. unfold bind at 1. unfold poke, in_output.
  destruct (Z.leb_spec CODESTART (CodeAddress e)), (Z.ltb_spec (CodeAddress e) (CODESTART + OUTPUT_MAX)); cbn [andb]; try discriminate.
  unfold upd. intro E. injection E as <- <-. split; [reflexivity|]. unfold room. lia.
Qed.
Lemma putb_ok b e : room e 1 -> putb b e = Ok (tt, put1 b e).
Proof.
  intros [A B]. unfold putb. mgo. unfold bind at 1. unfold poke, in_output.
  destruct (Z.leb_spec CODESTART (CodeAddress e)), (Z.ltb_spec (CodeAddress e) (CODESTART + OUTPUT_MAX)); cbn [andb]; try lia.
  reflexivity.
Qed.

Lemma guarded_live chk m e : live e -> guarded chk m e = m e.
Proof. intros (D & P & _). unfold guarded. mgo. rewrite D, P. reflexivity. Qed.

Ltac mgoin H := repeat first [rewrite bind_gets in H | rewrite bind_upd in H | rewrite bind_ret in H | rewrite bind_assoc in H].
Ltac minv H x e E := apply bind_inv in H; destruct H as (x & e & E & H).

Lemma ok_inj {S A} (a b : A) (s t : S) : Ok (a, s) = Ok (b, t) -> a = b /\ s = t.
Proof. intro H. split; [exact (f_equal (fun o => match o with Ok (x, _) => x | _ => a end) H)|exact (f_equal (fun o => match o with Ok (_, x) => x | _ => s end) H)]. Qed.
(** the result of a computation ending in ret or upd *)
Ltac oki H := unfold ret, upd in H; apply ok_inj in H; let K := fresh in destruct H as [K H];
  try match type of K with ?a = ?b => first [is_var b; subst b | is_var a; subst a] end;
  try match type of H with ?a = ?b => first [is_var b; subst b | is_var a; subst a] end.

Section W.
Variable W : Z.

Lemma out1 b e x e' : live e -> Output1Byte W b e = Ok (x, e') -> e' = put [b] e /\ live e'.
Proof.
  intros L H. unfold Output1Byte, Output1Byte_ in H. rewrite guarded_live in H by exact L.
  apply putb_inv in H. destruct H as [-> R]. split; [reflexivity|]. apply (put_live [b]); assumption.
Qed.
Lemma out2 b0 b1 e x e' : live e -> Output2Bytes W b0 b1 e = Ok (x, e') -> e' = put [b0; b1] e /\ live e'.
Proof.
  intros L H. unfold Output2Bytes, Output2Bytes_ in H. rewrite guarded_live in H by exact L.
  minv H y e1 E. apply putb_inv in E, H. destruct E as [-> R], H as [-> R2]. split; [reflexivity|].
  apply (put_live [b0; b1]); [exact L|]. unfold room in *. cbn [put1 CodeAddress set_CodeAddress length] in *. lia.
Qed.
Lemma out3 b0 b1 b2 e x e' : live e -> Output3Bytes W b0 b1 b2 e = Ok (x, e') -> e' = put [b0; b1; b2] e /\ live e'.
Proof.
  intros L H. unfold Output3Bytes, Output3Bytes_ in H. rewrite guarded_live in H by exact L.
  minv H y e1 E. minv H z e2 E2. apply putb_inv in E, E2, H. destruct E as [-> R], E2 as [-> R2], H as [-> R3]. split; [reflexivity|].
  apply (put_live [b0; b1; b2]); [exact L|]. unfold room in *. cbn [put1 CodeAddress set_CodeAddress length] in *. lia.
Qed.
Lemma outw w e x e' : live e -> OutputWord W w e = Ok (x, e') -> e' = put [w; Z.shiftr w 8] e /\ live e'.
Proof.
  intros L H. unfold OutputWord, OutputWord_ in H. rewrite guarded_live in H by exact L.
  minv H y e1 E. apply putb_inv in E, H. destruct E as [-> R], H as [-> R2]. split; [reflexivity|].
  apply (put_live [w; Z.shiftr w 8]); [exact L|]. unfold room in *. cbn [put1 CodeAddress set_CodeAddress length] in *. lia.
Qed.
Lemma out1_ok b e : live e -> room e 1 -> Output1Byte W b e = Ok (tt, put [b] e).
Proof. intros L R. unfold Output1Byte, Output1Byte_. rewrite guarded_live by exact L. apply putb_ok; exact R. Qed.
Lemma out2_ok b0 b1 e : live e -> room e 2 -> Output2Bytes W b0 b1 e = Ok (tt, put [b0; b1] e).
Proof.
  intros L R. unfold Output2Bytes, Output2Bytes_. rewrite guarded_live by exact L. unfold room in R.
  rewrite (bind_ok _ _ _ _ _ (putb_ok b0 e ltac:(unfold room; lia))). apply putb_ok. unfold room; cbn [put1 CodeAddress set_CodeAddress]; lia.
Qed.
Lemma out3_ok b0 b1 b2 e : live e -> room e 3 -> Output3Bytes W b0 b1 b2 e = Ok (tt, put [b0; b1; b2] e).
Proof.
  intros L R. unfold Output3Bytes, Output3Bytes_. rewrite guarded_live by exact L. unfold room in R.
  rewrite (bind_ok _ _ _ _ _ (putb_ok b0 e ltac:(unfold room; lia))).
  rewrite (bind_ok _ _ _ _ _ (putb_ok b1 (put1 b0 e) ltac:(unfold room; cbn [put1 CodeAddress set_CodeAddress]; lia))).
  apply putb_ok. unfold room; cbn [put1 CodeAddress set_CodeAddress]; lia.
Qed.
Lemma outw_ok w e : live e -> room e 2 -> OutputWord W w e = Ok (tt, put [w; Z.shiftr w 8] e).
Proof.
  intros L R. unfold OutputWord, OutputWord_. rewrite guarded_live by exact L. unfold room in R.
  rewrite (bind_ok _ _ _ _ _ (putb_ok w e ltac:(unfold room; lia))). apply putb_ok. unfold room; cbn [put1 CodeAddress set_CodeAddress]; lia.
Qed.
End W.
