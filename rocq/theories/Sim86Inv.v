(** In the 16-bit build every register of the simulator always holds a 16-bit
    signed value: preserved by every step that does not stop. *)
From Verif Require Import Base Bits Spec8086 Sim86 Sim86Alu Sim86Base Sim86Refine Sim86Refine2.
Local Open Scope out_scope.

Definition i16 (x : Z) : Prop := -32768 <= x < 32768.
Definition inv (s : sim) : Prop := int16_regs (reg s) /\ i16 (addr s).

Lemma i16_int x : i16 (int_ 16 x). Proof. rewrite int16. unfold i16. pose proof (s16_range x). lia. Qed.
Lemma i16_s8 x : i16 (s8 x). Proof. unfold i16. pose proof (s8_range x). lia. Qed.
Lemma i16_rget s r : inv s -> i16 (rget (reg s) r).
Proof. intros [H _]. apply H. Qed.
Lemma inv_rset s r v : inv s -> i16 v -> inv (set_reg_ s (rset (reg s) r v)).
Proof.
  intros [H A] Hv. split; [|exact A]. intro i. cbn [reg set_reg_].
  assert (E : rget (rset (reg s) r v) i = v \/ rget (rset (reg s) r v) i = rget (reg s) i).
  { destruct r as [|p|p]; [|do 3 (try destruct p as [p|p|])|]; destruct i as [|q|q]; cbn; auto; do 3 (try destruct q as [q|q|]; cbn; auto). }
  destruct E as [-> | ->]; [exact Hv|apply H].
Qed.
Lemma inv_upd s r v : inv s -> inv (upd 16 s r v).
Proof. intro. apply inv_rset; auto using i16_int. Qed.

Ltac triv := solve [auto using i16_int, i16_s8, i16_rget, inv_rset, inv_upd].

Lemma inv_ReadIByte s b s' : ReadIByte 16 s = (b, s') -> inv s -> inv s' /\ i16 b.
Proof.
  unfold ReadIByte. intros [= <- <-] H. split; [exact H|]. unfold Read8. rewrite land_255. unfold i16. lia.
Qed.
Lemma inv_Imm16 s b s' : Imm16 16 s = (b, s') -> inv s -> inv s' /\ i16 b.
Proof.
  unfold Imm16. destruct (ReadIByte 16 s) as [l s1] eqn:E1. destruct (ReadIByte 16 s1) as [h s2] eqn:E2.
  intros [= <- <-] H. split; [|apply i16_int].
  eapply inv_ReadIByte in E1; [|exact H]. eapply inv_ReadIByte in E2; tauto.
Qed.
Lemma inv_default_seg s sr : inv s -> inv (default_seg s sr).
Proof. unfold default_seg. destruct (seg s =? -1); auto. Qed.
Lemma inv_addaddr s v : inv s -> inv (addaddr 16 s v).
Proof. intros [H _]. split; [exact H|apply i16_int]. Qed.
Lemma inv_ModRM_regs s : inv s -> inv (ModRM_regs 16 s).
Proof.
  intro H. unfold ModRM_regs. destruct (Z.land (modrm s) 7) as [|p|p]; do 3 (try destruct p as [p|p|]); auto using inv_default_seg, inv_addaddr.
Qed.
Lemma inv_ModRM s s' : ModRM 16 s = Ok s' -> inv s -> inv s'.
Proof.
  unfold ModRM. destruct (modrm s =? -1); cbn [oassert obind]; [|discriminate].
  destruct (ReadIByte 16 s) as [m s1] eqn:E. intros X H. apply inv_ReadIByte in E; [|exact H]. destruct E as [H1 _].
  assert (H2 : inv (set_modrm_ s1 m)) by exact H1. revert X.
  destruct (Z.shiftr m 6) as [|p|p].
  - destruct (Z.land m 7 =? 6).
    + destruct (Imm16 16 _) as [i s2] eqn:E. intros [= <-]. apply inv_Imm16 in E; [|exact H2]. apply inv_default_seg, inv_addaddr. tauto.
    + intros [= <-]. apply inv_ModRM_regs. exact H2.
  - destruct p as [p|[p|p|]|].
    + intros [= <-]. exact H2.
    + intros [= <-]. exact H2.
    + intros [= <-]. exact H2.
    + destruct (Imm16 16 _) as [i s2] eqn:E. intros [= <-]. apply inv_Imm16 in E; [|exact H2].
      apply inv_ModRM_regs, inv_addaddr. tauto.
    + destruct (ReadIByte 16 _) as [i s2] eqn:E. intros [= <-]. apply inv_ReadIByte in E; [|exact H2].
      apply inv_ModRM_regs, inv_addaddr. tauto.
  - intros [= <-]. exact H2.
Qed.
Lemma inv_WriteReg s r v : inv s -> inv (WriteReg 16 s r v).
Proof.
  intro H. unfold WriteReg. destruct (dsize s =? 0); [destruct (Z.land r 4 =? 0)|]; apply inv_rset; auto using i16_int.
Qed.
Lemma inv_Write8 s sr o v : inv s -> inv (Write8 s sr o v). Proof. exact (fun H => H). Qed.
Lemma inv_Write16 s sr o v : inv s -> inv (Write16 16 s sr o v). Proof. exact (fun H => H). Qed.
Lemma i16_shiftr x n : i16 x -> 0 <= n -> i16 (Z.shiftr x n).
Proof. unfold i16. intros H Hn. rewrite Z.shiftr_div_pow2 by lia. assert (0 < 2 ^ n) by (apply Z.pow_pos_nonneg; lia). nia. Qed.
Lemma i16_Read8 s sr o : i16 (Read8 s sr o).
Proof. unfold Read8. rewrite land_255. unfold i16. lia. Qed.
Lemma i16_ReadReg s r : inv s -> i16 (ReadReg s r).
Proof.
  intro H. unfold ReadReg. destruct (dsize s =? 0); [|triv]. apply i16_shiftr; [triv|].
  apply Z.shiftl_nonneg. apply Z.land_nonneg. right. lia.
Qed.
Lemma i16_ReadRM s v : inv s -> ReadRM 16 s = Ok v -> i16 v.
Proof.
  intro H. unfold ReadRM. destruct (modrm s =? -1); cbn [negb oassert obind]; [discriminate|].
  destruct (Z.shiftr (modrm s) 6 =? 3).
  - intros [= <-]. now apply i16_ReadReg.
  - destruct (seg s =? -1); cbn [negb oassert obind]; [discriminate|]. intros [= <-].
    destruct (dsize s =? 0); [apply i16_Read8|apply i16_int].
Qed.
Lemma inv_WriteRM s v s' : inv s -> WriteRM 16 s v = Ok s' -> inv s'.
Proof.
  intro H. unfold WriteRM. destruct (Z.shiftr (modrm s) 6 =? 3).
  - intros [= <-]. now apply inv_WriteReg.
  - destruct (seg s =? -1); cbn [negb oassert obind]; [discriminate|]. intros [= <-].
    destruct (dsize s =? 0); exact H.
Qed.
Lemma inv_DoPush s v : inv s -> inv (DoPush 16 s v).
Proof. intro H. unfold DoPush. cbv zeta. apply inv_Write16, inv_rset; [exact H|apply i16_int]. Qed.
Lemma inv_DoPop s v s' : DoPop 16 s = (v, s') -> inv s -> inv s' /\ i16 v.
Proof. unfold DoPop. intros [= <- <-] H. split; [apply (inv_rset s 4 _ H)|]; apply i16_int. Qed.
Lemma inv_DoOp s op l r s' : inv s -> DoOp 16 s op l r = Ok s' -> inv s'.
Proof.
  intro H. unfold DoOp. destruct (op_result _ _ _ _ _) as [[res c]|]; [|discriminate].
  destruct (op =? OP_CMP); [intros [= <-]; exact H|]. apply inv_WriteRM. exact H.
Qed.
Ltac ob X := let a := fresh "a" in let E := fresh "E" in apply obind_ok in X; destruct X as (a & E & X).
Lemma inv_ALUOp s op sw s' : inv s -> ALUOp 16 s op sw = Ok s' -> inv s'.
Proof.
  intros H X. unfold ALUOp in X. ob X. ob X. apply inv_ModRM in E; [|exact H]. revert X.
  destruct (sw =? 0); intro X; eapply inv_DoOp; try exact X; exact E.
Qed.
Lemma inv_MOV s sw s' : inv s -> MOV 16 s sw = Ok s' -> inv s'.
Proof.
  intros H X. unfold MOV in X. ob X. apply inv_ModRM in E; [|exact H]. destruct (sw =? 0).
  - eapply inv_WriteRM; eauto.
  - ob X. injection X as <-. now apply inv_WriteReg.
Qed.
Lemma inv_POP s r : inv s -> inv (POP 16 s r).
Proof.
  intro H. unfold POP. destruct (DoPop 16 s) as [v s1] eqn:E. apply inv_DoPop in E; [|exact H]. apply inv_rset; tauto.
Qed.
Lemma inv_JCC s cc s' : inv s -> JCC 16 s cc = Ok s' -> inv s'.
Proof.
  intro H. unfold JCC. destruct (ReadIByte 16 s) as [b s1] eqn:E. apply inv_ReadIByte in E; [|exact H].
  destruct E as [E _].
  assert (G : forall j e, inv (if Bool.eqb j e then set_ip_ s1 (int_ 16 (sip s1 + s8 b)) else s1))
    by (intros j e; destruct (Bool.eqb j e); exact E).
  destruct (Z.shiftr cc 1) as [|p|p]; try discriminate; [intros [= <-]; apply G|].
  do 3 (try destruct p as [p|p|]; try discriminate; try (intros [= <-]; apply G)).
Qed.
Lemma inv_DoIncDec s v s' : inv s -> DoIncDec 16 s v = Ok s' -> inv s'.
Proof. intros H X. unfold DoIncDec in X. ob X. eapply inv_WriteRM; eauto. Qed.
Lemma inv_rep_movsb n : forall s, inv s -> inv (rep_movsb 16 n s).
Proof. induction n; intros s H; cbn [rep_movsb]; auto. apply IHn. do 3 apply inv_upd. exact H. Qed.
Lemma inv_rep_movsw n : forall s, inv s -> inv (rep_movsw 16 n s).
Proof. induction n; intros s H; cbn [rep_movsw]; auto. apply IHn. do 3 apply inv_upd. exact H. Qed.
Lemma inv_rep_stosb v n : forall s, inv s -> inv (rep_stosb 16 n v s).
Proof. induction n; intros s H; cbn [rep_stosb]; auto. apply IHn. apply inv_upd. exact H. Qed.
Lemma inv_rep_stosw v n : forall s, inv s -> inv (rep_stosw 16 n v s).
Proof. induction n; intros s H; cbn [rep_stosw]; auto. apply IHn. apply inv_upd. exact H. Qed.
Lemma inv_rep_cmpsb n : forall s s', inv s -> rep_cmpsb 16 n s = Ok s' -> inv s'.
Proof.
  induction n; intros s s' H; cbn [rep_cmpsb]; [now intros [= <-]|].
  destruct (flag_set s FZ); [|now intros [= <-]]. intro X. ob X. eapply IHn; [|exact X].
  do 3 apply inv_upd. eapply inv_DoOp; eauto.
Qed.
Lemma inv_rep_scasb n : forall s s', inv s -> rep_scasb 16 n s = Ok s' -> inv s'.
Proof.
  induction n; intros s s' H; cbn [rep_scasb]; [now intros [= <-]|].
  destruct (flag_set s FZ); [now intros [= <-]|]. intro X. ob X. eapply IHn; [|exact X].
  do 2 apply inv_upd. eapply inv_DoOp; eauto.
Qed.
Lemma inv_do_shift s a s' : inv s -> do_shift 16 s a = Ok s' -> inv s'.
Proof.
  intros H X. unfold do_shift in X. ob X. ob X. apply inv_ModRM in E; [|exact H].
  destruct (shift_result _ _ _ _) as [[r c]|]; [|discriminate]. ob X. injection X as <-.
  apply inv_WriteRM in E1; [exact E1|exact E].
Qed.
Lemma quot_i16 a d : i16 a -> i16 d -> d <> 0 -> (a =? - 2 ^ (16 - 1)) && (d =? -1) = false ->
  i16 (Z.quot a d) /\ i16 (Z.rem a d).
Proof.
  intros Ha Hd Nd C. unfold i16 in *. change (- 2 ^ (16 - 1)) with (-32768) in C.
  pose proof (Z.quot_rem a d Nd) as E.
  assert (Z.abs (Z.rem a d) < Z.abs d) by (apply Z.rem_bound_abs; lia).
  split; [|split; lia].
  assert (0 <= Z.rem a d * a) by (apply Z.rem_sign_mul; exact Nd).
  assert (Q : Z.abs (Z.quot a d) = Z.abs a / Z.abs d) by (rewrite <- Z.quot_div_nonneg by lia; now rewrite Z.quot_abs by lia).
  assert (Hle : Z.abs a / Z.abs d <= Z.abs a) by (rewrite <- (Z.div_1_r (Z.abs a)) at 2; apply Z.div_le_compat_l; clear -Nd; lia).
  clear E H H0.
  destruct (Z.eq_dec a (-32768)) as [->|Na]; [|lia].
  assert (d <> -1) by lia.
  destruct (Z.eq_dec d 1) as [->|N1]; [rewrite Z.quot_1_r; lia|].
  assert (Z.abs (-32768) / Z.abs d <= 32767); [|lia].
  assert (Z.abs (-32768) / Z.abs d <= Z.abs (-32768) / 2) by (apply Z.div_le_compat_l; lia).
  change (Z.abs (-32768) / 2) with 16384 in *. lia.
Qed.
Lemma Ok_inj {A} (a b : A) : Ok a = Ok b -> a = b. Proof. congruence. Qed.
Lemma Ok_inj2 {A B} (a c : A) (b d : B) : Ok (a, b) = Ok (c, d) -> b = d. Proof. congruence. Qed.
Ltac oinj X := first [apply Ok_inj2 in X | apply Ok_inj in X]; rewrite <- X; clear X.
Lemma inv_do_f7 s s' : inv s -> do_f7 16 s = Ok s' -> inv s'.
Proof.
  intros H X. unfold do_f7 in X. ob X. apply inv_ModRM in E; [|exact H]. revert X.
  destruct (Z.land _ 7) as [|p|p]; try discriminate. intro X.
  do 3 (try destruct p as [p|p|]; try discriminate X); ob X; pose proof (i16_ReadRM _ _ E E0) as Hv;
    try (eapply inv_WriteRM; eassumption).
  - ob X. destruct ((a0 =? 0) || ((ax (reg a) =? - 2 ^ (16 - 1)) && (a0 =? -1))) eqn:G; [discriminate|]. oinj X.
    apply orb_false_iff in G. destruct G as [G1 G2]. apply Z.eqb_neq in G1.
    destruct (quot_i16 (ax (reg a)) a0 (i16_rget a 0 E) Hv G1 G2).
    apply (inv_rset (set_reg_ a (rset (reg a) 2 (Z.rem (ax (reg a)) a0)))); auto. apply inv_rset; auto.
  - oinj X. apply (inv_rset (set_reg_ a _)); [apply inv_rset; triv|unfold i16; lia].
  - ob X. destruct (uns 16 a0 =? 0); [discriminate|]. oinj X.
    apply (inv_rset (set_reg_ a _)); [apply inv_rset; triv|triv].
  - oinj X. apply (inv_rset (set_reg_ a _)); [apply inv_rset; triv|unfold i16; lia].
Qed.
Lemma inv_do_fe s s' : inv s -> do_fe 16 s = Ok s' -> inv s'.
Proof.
  intros H X. unfold do_fe in X. ob X. apply inv_ModRM in E; [|exact H]. revert X.
  destruct (Z.land _ 7) as [|p|p]; try discriminate.
  - apply inv_DoIncDec. exact E.
  - do 2 (try destruct p as [p|p|]; try discriminate); try (apply inv_DoIncDec; exact E).
    intro X. ob X. injection X as <-. apply inv_DoPush. exact E.
Qed.
Lemma inv_ret1 x e s' : (forall s, x = Ok s -> inv s) -> ret1 x = Ok (e, s') -> inv s'.
Proof. intros H X. unfold ret1 in X. ob X. injection X as <- <-. auto. Qed.

Ltac rb := match goal with
  | |- context [ReadIByte 16 ?s] => let b := fresh "b" in let s' := fresh "s" in let E := fresh "E" in
      destruct (ReadIByte 16 s) as [b s'] eqn:E; apply inv_ReadIByte in E; [destruct E|]
  | |- context [Imm16 16 ?s] => let b := fresh "b" in let s' := fresh "s" in let E := fresh "E" in
      destruct (Imm16 16 s) as [b s'] eqn:E; apply inv_Imm16 in E; [destruct E|]
  | |- context [DoPop 16 ?s] => let b := fresh "b" in let s' := fresh "s" in let E := fresh "E" in
      destruct (DoPop 16 s) as [b s'] eqn:E; apply inv_DoPop in E; [destruct E|]
  end.

Lemma inv_exec_switch rep inst s e s' : inv s -> exec_switch 16 rep inst s = Ok (e, s') -> inv s'.
Proof.
  intro H.
  assert (N : forall x, exec_switch 16 rep inst s = x -> x = Ok (e, s') -> inv s').
  { intros x <-.
    unfold exec_switch.
    destruct inst as [|p|p]; try discriminate.
    do 8 (try destruct p as [p|p|]; try discriminate).
    all: try (apply inv_ret1; intros s1 X).
    all: try (first [ eapply inv_MOV; [|exact X]; exact H | eapply inv_do_shift; [|exact X]; exact H
                    | eapply inv_do_f7; [|exact X]; exact H | eapply inv_do_fe; [|exact X]; exact H ]).
    all: try (ob X; apply inv_ModRM in E; [|exact H]).
    all: try (ob X; eapply inv_WriteRM; [|exact X]; exact E).
    all: match goal with
      | |- INT _ _ = _ -> _ => idtac
      | |- (let (_, _) := _ in _) = _ -> _ => idtac
      | _ => idtac end.
    all: try (revert X; cbn [Z.eqb Pos.eqb]; repeat rb; try exact E; try exact H; intro X).
    all: try (match type of X with DoOp _ _ _ _ _ = _ => idtac | obind _ _ = _ => ob X end; eapply inv_DoOp; [|exact X]; assumption).
    all: try (eapply inv_WriteRM; [|exact X]; assumption).
    all: try (oinj X).
    all: try (let X := fresh in intro X; oinj X).
    all: try (apply inv_rset; try triv).
    all: try (destruct (Z.land _ _ =? 0); unfold i16; lia).
    all: try exact H.
    all: try apply i16_int.
    all: try (apply E).
    all: try (match type of X with obind (oassert _) _ = _ => ob X | _ => idtac end;
              match type of X with obind (loop_count _ _) _ = _ => ob X | _ => idtac end;
              first [ eapply inv_rep_cmpsb; [|exact X]; exact H
                    | eapply inv_rep_scasb; [|exact X]; exact H
                    | oinj X; first [ apply inv_rep_movsb; exact H | apply inv_rep_movsw; exact H
                                    | apply inv_upd, inv_WriteReg; exact H] ]).
    all: try (destruct (rep =? 243); [ob X|]; oinj X;
              first [apply inv_rep_stosb | apply inv_rep_stosw]; try apply inv_upd; exact H).
    - unfold INT. rb; [|exact H]. repeat match goal with |- (if ?b then _ else _) = _ -> _ => destruct b end; try discriminate;
        let X := fresh in intro X; oinj X; assumption.
    - ob X. ob X. oinj X. exact E. }
  intro X. exact (N _ eq_refl X).
Qed.

Lemma inv_restart fuel : forall rep s e s', inv s -> restart 16 fuel rep s = Ok (e, s') -> inv s'.
Proof.
  induction fuel as [|n IH]; intros rep s e s' H; [discriminate|].
  cbn [restart]. rb; [|exact H].
  destruct (b <? 64).
  { cbv zeta. destruct (Z.land b 6 <? 4).
    { apply inv_ret1. intros s1 X. eapply inv_ALUOp; [|exact X]. exact H0. }
    destruct (Z.land b 6 =? 4).
    { destruct (dsize _ =? 0); rb; try exact H0; apply inv_ret1; intros s3 X; (eapply inv_DoOp; [|exact X]); assumption. }
    destruct (b <? 38).
    - destruct (Z.land b 1 =? 0).
      + intro X; oinj X. apply inv_DoPush. exact H0.
      + rb; [|exact H0]. intro X; oinj X. assumption.
    - destruct (Z.land b 1 =? 0); [|discriminate]. apply IH. exact H0. }
  destruct (b <? 72). { apply inv_ret1. intros s1 X. eapply inv_DoIncDec; [|exact X]. exact H0. }
  destruct (b <? 80). { apply inv_ret1. intros s1 X. eapply inv_DoIncDec; [|exact X]. exact H0. }
  destruct (b <? 88). { intro X; oinj X. apply inv_DoPush. exact H0. }
  destruct (b <? 96). { intro X; oinj X. apply inv_POP. exact H0. }
  destruct ((112 <=? b) && (b <? 128)). { apply inv_ret1. intros s1 X. eapply inv_JCC; [|exact X]. exact H0. }
  destruct ((144 <=? b) && (b <? 152)).
  { intro X; oinj X. apply (inv_rset (set_reg_ s0 _)); [apply inv_rset|]; auto using i16_rget. exact (i16_rget s0 0 H0). }
  destruct ((176 <=? b) && (b <? 184)). { rb; [|exact H0]. intro X; oinj X. now apply inv_WriteReg. }
  destruct ((184 <=? b) && (b <? 192)). { rb; [|exact H0]. intro X; oinj X. now apply inv_rset. }
  destruct ((b =? 242) || (b =? 243)). { apply IH. exact H0. }
  apply inv_exec_switch. exact H0.
Qed.

Theorem int16_regs_step fuel s e s' :
  int16_regs (reg s) -> sim_step 16 fuel s = Ok (e, s') -> int16_regs (reg s').
Proof.
  intros H X. unfold sim_step in X. apply inv_restart in X; [apply X|].
  split; [exact H|]. cbn [addr begin_instr]. unfold i16. lia.
Qed.
