(** The conditional operator: what the compiler emits for (c) ? a : b leaves one of two values in AX. *)
From Verif Require Import Base Bits Spec8086 SpecWf SccRun SccState SccEmit SccLex SccDecl SccExpr SccStmt SccInput SccPut SccArith SccOps SccJump SccMem SccFix SccHold SccFlush SccSem SccBin SccVal SccComp SccBody SccParse SccWhole SccImg SccStep SccAsn SccMach SccPiece SccStm SccHead SccLeft ExprSpec StmtSpec.
From Verif Require SccLoc.

(** how (c) ? a : b is written *)
Definition quest : token := (ch_quest, 13, 0).
Definition tern_toks (c a b : exp) : list token := toks c ++ quest :: toks a ++ kw ch_colon :: toks b.

(** *** Placing a label keeps the type of the current value *)
Definition kt {A} (m : M emst A) : Prop := forall e x e', m e = Ok (x, e') -> CurrentType e' = CurrentType e.
Lemma kt_bind {A B} (m : M emst A) (f : A -> M emst B) : kt m -> (forall a, kt (f a)) -> kt (bind m f).
Proof. intros H1 H2 e x e' H. minv H y e1 E. rewrite (H2 _ _ _ _ H). exact (H1 _ _ _ E). Qed.
Lemma kt_ret {A} (a : A) : kt (ret a). Proof. intros e x e' H. oki H. reflexivity. Qed.
Lemma kt_gets {A} (f : emst -> A) : kt (gets f). Proof. intros e x e' H. unfold gets in H. apply ok_inj in H. destruct H as [_ <-]. reflexivity. Qed.
Lemma kt_upd f : (forall e, CurrentType (f e) = CurrentType e) -> kt (upd f). Proof. intros Q e x e' H. unfold upd in H. apply ok_inj in H. destruct H as [_ <-]. apply Q. Qed.
Lemma kt_failif c : kt (failif c). Proof. intros e x e' H. unfold failif in H. destruct c; [discriminate H|oki H; reflexivity]. Qed.
Lemma kt_peek a : kt (peek a). Proof. intros e x e' H. unfold peek in H. destruct (in_output a); [|discriminate H]. apply ok_inj in H. destruct H as [_ <-]. reflexivity. Qed.
Lemma kt_poke a v : kt (poke a v). Proof. intros e x e' H. unfold poke in H. destruct (in_output a); [|discriminate H]. apply ok_inj in H. destruct H as [_ <-]. reflexivity. Qed.
Ltac ktt := repeat first [apply kt_bind; [|intro]|apply kt_ret|apply kt_gets|apply kt_failif|apply kt_upd; reflexivity|
  match goal with |- kt (if ?c then _ else _) => destruct c | |- kt (when ?c _) => destruct c; cbn [when] | |- kt (peek _) => apply kt_peek | |- kt (poke _ _) => apply kt_poke end].
Lemma kt_fix1 r b : kt (DoFixup1 r b). Proof. unfold DoFixup1. cbv zeta. ktt. Qed.
Lemma kt_loop n : forall r b, kt (fixup_loop n r b).
Proof. induction n as [|n IH]; intros r b; cbn [fixup_loop]; [intros e x e' H; discriminate H|]. destruct (r =? 0); [apply kt_ret|]. apply kt_bind; [apply kt_fix1|]. intro. apply IH. Qed.
Lemma label_type W l e x e' : Pending e = 0 -> EmitLocalLabel W l e = Ok (x, e') -> CurrentType e' = CurrentType e.
Proof.
  intros PD H. unfold EmitLocalLabel in H. mgoin H. minv H y e1 E. unfold failif in E. destruct (_ || _); [discriminate E|]. oki E.
  minv H y e1 E. unfold FlushSpAdj, FlushSpAdj_ in E. mgoin E. rewrite PD in E. change (hasb 0 (-2)) with false in E. cbn [when] in E. oki E.
  mgoin H. minv H y e1 E. unfold DoFixups in E. minv E y2 e2 E2. apply kt_loop in E2. mgoin E. oki E. mgoin H. oki H. exact E2.
Qed.

Section W.
Variables (W : Z) (F : nat).
Hypothesis HW : 16 <= W.
Variables (X : list Z) (D : nat).

(** *** An operand, in AX *)
Lemma force_const s x s' : CurrentType (em s) = INTLIT -> ForceToReg W s = Ok (x, s') -> GetVal W s = Ok (x, s').
Proof.
  intros T H. unfold ForceToReg, gete in H. mgoin H. rewrite T in H. change (Z.land INTLIT VT_BASEMASK =? VT_ARRAY) with false in H. cbn [when] in H. mgoin H. rewrite T in H.
  exact H.
Qed.
Lemma force_int s x s' : CurrentType (em s) = VT_INT -> ForceToReg W s = Ok (x, s') -> GetVal W s = Ok (x, s').
Proof.
  intros T H. unfold ForceToReg, gete in H. mgoin H. rewrite T in H. change (Z.land VT_INT VT_BASEMASK =? VT_ARRAY) with false in H. cbn [when] in H. mgoin H. rewrite T in H.
  change (Z.land VT_INT VT_LOCMASK =? 0) with true in H. cbv iota in H. oki H. unfold GetVal, gete. rewrite bind_gets, T. change (VT_INT =? VT_BOOL) with false. cbv iota.
  rewrite (bind_ok _ _ _ _ _ (lval_not W _ ltac:(rewrite T; reflexivity))). rewrite bind_gets, T. reflexivity.
Qed.
Lemma isint_kvar a : isint a = true -> kvar a = None.
Proof. induction a; cbn [isint kvar]; intros; auto; discriminate. Qed.
(** an operand: a constant, or an expression whose outermost operator is arithmetic *)
Definition operand (a : exp) : Prop := good_exp a /\ (constant a = true \/ isint a = true).
Lemma arm_ok n a l e d P x s' rest : operand a -> decls X d (VOff e) -> Book e P -> live e -> RegUse e = false -> incl (vars a) X ->
  stream W F l (toks a ++ rest) -> ends rest -> prec_over PREC_ASSIGN rest -> (pAssign (tie W F n) ;; ForceToReg W) (mkcc l e d) = Ok (x, s') ->
  exists l' e', s' = mkcc l' e' d /\ stream W F l' rest /\ live e' /\ CurrentType e' = VT_INT /\ St [] [] e P e' P /\ LAddr e' = LAddr e /\ LocalLabelCounter e' = LocalLabelCounter e /\
  forall K env v t, (depth a <= D)%nat -> Into X D d e e' P K -> value env a v -> MRel X K env t -> ip t = CodeAddress e ->
    (forall t', MRel X K env t' -> ip t' = CodeAddress e' -> ax (rg t') = v mod 65536 -> reaches (k_fin K) t') -> reaches (k_fin K) t.
Proof.
  intros [GE C] DC BK L RU IX ST EN PO H.
  assert (H' : (pAssign (tie W F n) ;; GetVal W) (mkcc l e d) = Ok (x, s')).
  { minv H y s1 E. destruct n as [|n]; [discriminate E|]. pose proof E as E0. cbn [tie pAssign] in E. unfold ParseAssignmentExpression in E.
    pose proof GE as [WF (env & v & EO & EV & R)]. destruct (parses W F HW d env EO n) as (PC & _ & _ & PL).
    destruct (upto_ok W F d env n PREC_ASSIGN a v (mkcc l e d) y s1 rest ltac:(unfold PREC_ASSIGN; lia) PC PL (conj WF (conj EV (conj R (decls_exp _ _ _ _ DC IX)))) eq_refl (live_gen _ L) ST EN PO E)
      as (e1 & l1 & -> & _ & (_ & _ & _ & S)). rewrite (bind_ok _ _ _ _ _ E0). destruct (constant a) eqn:CA.
    - destruct S as (_ & T & _). apply force_const; [exact T|exact H].
    - destruct C as [C|C]; [discriminate C|]. rewrite (isint_kvar a C) in S. destruct S as (_ & _ & (_ & _ & T) & _). apply force_int; [exact (T C)|exact H]. }
  destruct (SccLoc.init_piece W F HW X n a (mkcc l e d) x s' rest GE IX DC L RU ST EN PO H') as (e' & l' & -> & ST' & L' & XT & SL & IR). cbn [em dc lx] in *.
  destruct (st_ext e e' P BK L L' XT SL) as (S1 & S2 & S3).
  exists l', e'. split; [reflexivity|]. split; [exact ST'|]. split; [exact L'|]. split.
  { destruct GE as [_ (env & v & EO & V)]. apply (IR env v EO V). }
  split; [exact S1|]. split; [exact S2|]. split; [exact S3|].
  intros K env v t DX (KO & LO & M) V R IP FIN. destruct (IR env v (r_env _ _ _ _ R) V) as (_ & _ & _ & _ & _ & AC).
  eapply reaches_trans; [exact (acts_run X D d (VOff e) K KO a P env e e' _ t L RU L' XT IX DX eq_refl AC (bk_ord _ _ BK) LO M R IP)|].
  cbv beta. intros t' (R' & IP' & AX). exact (FIN t' R' IP' AX).
Qed.

Lemma make_cur e l e' : MakeLabel e = Ok (l, e') -> CurrentType e' = CurrentType e /\ CurrentVal e' = CurrentVal e /\ LastFixup e' = LastFixup e /\ Output e' = Output e.
Proof. intro H. unfold MakeLabel in H. mgoin H. unfold failif in H. destruct (_ =? LABEL_MAX); [discriminate H|]. mgoin H. oki H. repeat split. Qed.

(** *** The whole expression *)
Lemma tern_ok n c a b b0 Lv l e d P x s' rest : good_exp c -> constant c = false -> isbool c = true -> incl (vars c) X -> (depth c <= D)%nat ->
  operand a -> incl (vars a) X -> (depth a <= D)%nat -> operand b -> incl (vars b) X -> (depth b <= D)%nat ->
  Pre X Lv b0 e d P -> stream W F l (tern_toks c a b ++ rest) -> ends rest -> prec_over PREC_COMMA rest -> pExpr (tie W F n) (mkcc l e d) = Ok (x, s') ->
  exists l' e' P', s' = mkcc l' e' d /\ stream W F l' rest /\ live e' /\ CurrentType e' = VT_INT /\ St [] [] e P e' P' /\
  forall K env i v t, Into X D d e e' P' K -> test env c i -> value env (if i then a else b) v -> MRel X K env t -> ip t = CodeAddress e ->
    (forall t', MRel X K env t' -> ip t' = CodeAddress e' -> ax (rg t') = v mod 65536 -> reaches (k_fin K) t') -> reaches (k_fin K) t.
Proof.
  intros GE C IB IX DX KA VA DA KB VB DB PR ST EN PO H.
  pose proof (p_live _ _ _ _ _ _ PR) as LV. pose proof (p_book _ _ _ _ _ _ PR) as BK. pose proof (bk_cnt _ _ BK) as CN. pose proof (p_reg _ _ _ _ _ _ PR) as RU. pose proof (p_decl _ _ _ _ _ _ PR) as DC.
  unfold tern_toks in ST. rewrite <- app_assoc in ST. cbn [Datatypes.app] in ST. rewrite <- app_assoc in ST. cbn [Datatypes.app] in ST.
  destruct (left_ok W F HW X D n c l e d P x s' _ _ GE C IB IX DX DC BK LV RU ST ltac:(split; [reflexivity|discriminate]) H) as (n1 & s1 & (l1 & e1 & -> & ST1 & L1 & TB & CR & S1 & A1 & C1 & RUN1) & H1).
  clear H n. rename H1 into H, n1 into n.
  destruct n as [|n]; [discriminate H|]. cbn [tie pExpr1] in H. unfold ParseExpr1 in H. minv H y2 s2 E2. unfold expr1_body, getl in E2. mgoin E2. cbn [lx] in E2.
  rewrite (proj1 ST1) in E2. minv E2 y3 s3 E3. apply (next_mk _ _ _ _ _ _ _ _ _ ST1) in E3; [|destruct (toks a); discriminate]. destruct E3 as (l3 & -> & ST3).
  change (t_type quest =? ch_quest) with true in E2. cbv iota in E2. unfold HandleCondOp, gete in E2. mgoin E2. cbn [em] in E2. rewrite TB in E2. change (VT_BOOL =? INTLIT) with false in E2. cbv iota in E2.
  minv E2 kf s4 E4. apply inem_mk in E4. destruct E4 as (e4 & E4 & ->). destruct (st_make e1 P kf e4 (t_book _ _ _ _ _ _ S1) E4) as (S4 & F4 & C4 & A4 & CA4 & DE4).
  minv E2 kn s5 E5. apply inem_mk in E5. destruct E5 as (e5 & E5 & ->). destruct (st_make e4 P kn e5 (t_book _ _ _ _ _ _ S4) E5) as (S5 & F5 & C5 & A5 & CA5 & DE5).
  destruct (make_cur _ _ _ E4) as (CT4 & CV4 & _). destruct (make_cur _ _ _ E5) as (CT5 & CV5 & _).
  pose proof (st_trans _ _ _ _ _ _ _ _ _ _ S1 S4) as T4. pose proof (st_trans _ _ _ _ _ _ _ _ _ _ T4 S5) as T5. cbn [Datatypes.app] in T4, T5.
  assert (L5 : live e5).
  { apply (live_still _ _ (t_book _ _ _ _ _ _ S5)); [rewrite DE5, DE4; apply L1|]. rewrite (proj1 (t_still _ _ _ _ _ _ S5)), (proj1 (t_still _ _ _ _ _ _ S4)). apply L1. }
  minv E2 y6 s6 E6. unfold DoCondHasExpr, gete in E6. mgoin E6. cbn [em] in E6. rewrite CT5, CT4, TB in E6. change (VT_BOOL =? INTLIT) with false in E6. change (VT_BOOL =? VT_BOOL) with true in E6. cbn [negb when] in E6. cbv iota in E6. mgoin E6. cbn [em] in E6.
  rewrite CV5, CV4 in E6. apply inem_mk in E6. destruct E6 as (e6 & E6 & ->).
  set (c' := Z.lxor (CurrentVal e1) (zb true)) in *.
  assert (CR' : 0 <= c' < 16) by apply (cc16 _ CR).
  assert (A45 : aget (LAddr e5) kf = 0) by (rewrite (t_addr _ _ _ _ _ _ S5); [exact A4|lia|auto]).
  destruct (jcc_piece W HW c' kf e5 P _ e6 CR' (t_book _ _ _ _ _ _ S5) L5 ltac:(left; exact A45) ltac:(lia) ltac:(pose proof (live_lo _ L5); lia) E6) as (P6 & BK6 & MK6 & L6 & ST6 & [KL6 KC6] & BB6 & GO6).
  assert (S6 : St [] [kf] e5 P e6 P6).
  { split; auto; [lia|intros k _ _; rewrite KL6; reflexivity|]. intros k z I. destruct (MK6 k z I); [auto|right; left; auto]. }
  pose proof (st_trans _ _ _ _ _ _ _ _ _ _ T5 S6) as T6. cbn [Datatypes.app] in T6.
  assert (PR6 : forall Q eQ L0 K0, St L0 K0 e P eQ Q -> RegUse eQ = false /\ decls X d (VOff eQ)).
  { intros Q eQ L0 K0 S. pose proof (t_still _ _ _ _ _ _ S) as (_ & Q2 & _ & Q4). split; [congruence|rewrite Q4; exact DC]. }
  assert (E7 : exists y7 s7, (pAssign (tie W F n) ;; ForceToReg W) (mkcc l3 e6 d) = Ok (y7, s7) /\
    (let! lhstype := gete CurrentType in inem (EmitJmp W kn) ;; Expect W F ch_colon ;; inem (EmitLocalLabel W kf) ;; pAssign (tie W F n) ;; ForceToReg W ;;
     let! ct := gete CurrentType in let diff := Z.lxor lhstype ct in
     if hasb diff VT_LVAL || (hasb diff VT_BASEMASK && negb (hasb ct VT_PTRMASK)) then
      let! realend := inem MakeLabel in LvalToRval W ;; inem (EmitJmp W realend) ;; inem (EmitLocalLabel W kn) ;; setT lhstype ;; LvalToRval W ;; inem (EmitLocalLabel W realend)
     else inem (EmitLocalLabel W kn)) s7 = Ok (y2, s2)).
  { minv E2 z1 u1 Z1. minv E2 z2 u2 Z2. exists z2, u2. split; [rewrite (bind_ok _ _ _ _ _ Z1); exact Z2|exact E2]. }
  clear E2. destruct E7 as (y7 & s7 & E7 & E2).
  destruct (PR6 _ _ _ _ T6) as [RU6 DC6].
  destruct (arm_ok n a l3 e6 d P6 y7 s7 _ KA DC6 BK6 L6 RU6 VA ST3 ltac:(right; right; right; right; reflexivity) ltac:(reflexivity) E7) as (l7 & e7 & -> & ST7 & L7 & CT7 & S7 & LA7 & LC7 & RUN7).
  pose proof (st_trans _ _ _ _ _ _ _ _ _ _ T6 S7) as T7.
  unfold gete in E2. mgoin E2. cbn [em] in E2. rewrite CT7 in E2.
  minv E2 y8 t8 E8. apply inem_mk in E8. destruct E8 as (e8 & E8 & ->).
  assert (A87 : aget (LAddr e7) kn = 0) by (rewrite LA7, KL6; exact A5).
  destruct (st_jmp_at W HW X D kn e7 P6 y8 e8 (t_book _ _ _ _ _ _ S7) (proj1 (proj2 L7)) ltac:(left; exact A87) E8) as (P8 & S8 & DE8 & A8 & C8 & RUN8).
  pose proof (st_trans _ _ _ _ _ _ _ _ _ _ T7 S8) as T8.
  minv E2 y9 s9 E9. apply (expect_mk _ _ _ _ _ _ _ _ _ _ ST7) in E9; [|destruct (toks b); cbn [Datatypes.app]; [destruct rest; [destruct EN|discriminate]|discriminate]]. destruct E9 as (l9 & -> & ST9).
  minv E2 y10 s10 E10. apply inem_mk in E10. destruct E10 as (e10 & E10 & ->).
  destruct (st_label W kf e8 P8 y10 e10 (t_book _ _ _ _ _ _ S8) ltac:(rewrite (proj1 (t_still _ _ _ _ _ _ S8)); apply L7) ltac:(lia) E10) as (S10 & LV10 & C10 & A10 & _ & R10).
  pose proof (st_trans _ _ _ _ _ _ _ _ _ _ T8 S10) as T10. destruct (PR6 _ _ _ _ T10) as [RU10 DC10].
  assert (E11 : exists y11 s11, (pAssign (tie W F n) ;; ForceToReg W) (mkcc l9 e10 d) = Ok (y11, s11) /\
    (let! ct := gete CurrentType in let diff := Z.lxor VT_INT ct in
     if hasb diff VT_LVAL || (hasb diff VT_BASEMASK && negb (hasb ct VT_PTRMASK)) then
      let! realend := inem MakeLabel in LvalToRval W ;; inem (EmitJmp W realend) ;; inem (EmitLocalLabel W kn) ;; setT VT_INT ;; LvalToRval W ;; inem (EmitLocalLabel W realend)
     else inem (EmitLocalLabel W kn)) s11 = Ok (y2, s2)).
  { minv E2 z1 u1 Z1. minv E2 z2 u2 Z2. exists z2, u2. split; [rewrite (bind_ok _ _ _ _ _ Z1); exact Z2|exact E2]. }
  clear E2. destruct E11 as (y11 & s11 & E11 & E2).
  assert (PO2 : prec_over PREC_ASSIGN rest) by (destruct rest; [destruct PO|]; cbn [prec_over] in *; unfold PREC_COMMA, PREC_ASSIGN in *; lia).
  destruct (arm_ok n b l9 e10 d _ y11 s11 _ KB DC10 (t_book _ _ _ _ _ _ S10) LV10 RU10 VB ST9 EN PO2 E11) as (l11 & e11 & -> & ST11 & L11 & CT11 & S11 & LA11 & LC11 & RUN11).
  pose proof (st_trans _ _ _ _ _ _ _ _ _ _ T10 S11) as T11.
  unfold gete in E2. mgoin E2. cbn [em] in E2. rewrite CT11 in E2. change (hasb (Z.lxor VT_INT VT_INT) VT_LVAL || (hasb (Z.lxor VT_INT VT_INT) VT_BASEMASK && negb (hasb VT_INT VT_PTRMASK))) with false in E2. cbv iota in E2.
  apply inem_mk in E2. destruct E2 as (e12 & E12 & ->).
  destruct (st_label W kn e11 _ y2 e12 (t_book _ _ _ _ _ _ S11) (proj1 (proj2 L11)) ltac:(lia) E12) as (S12 & LV12 & C12 & A12 & CA12 & R12).
  pose proof (st_trans _ _ _ _ _ _ _ _ _ _ T11 S12) as T12.
  assert (CT12 : CurrentType e12 = VT_INT) by (rewrite (label_type _ _ _ _ _ (proj1 (proj2 L11)) E12); exact CT11).
  unfold getl in H. mgoin H. cbn [lx] in H. destruct rest as [|tr rest]; [destruct EN|]. rewrite (proj1 (proj2 ST11)) in H. cbn [prec_over] in PO.
  destruct (Z.leb_spec (t_prec tr) PREC_COMMA); [lia|]. oki H.
  assert (AF : aget (LAddr e12) kf = CodeAddress e10) by (rewrite (t_addr _ _ _ _ _ _ S12), LA11; [exact A10|lia|intros [Q|[]]; lia]).
  exists l11, e12, (without kn (without kf P8)). split; [reflexivity|]. split; [exact ST11|]. split; [exact LV12|]. split; [exact CT12|]. split.
  - apply (st_close _ _ _ _ _ _ _ T12 BK).
    + cbn [Datatypes.app In]. intros k I. lia.
    + cbn [Datatypes.app In]. intros k I. right. assert (k = kf \/ k = kn) as [-> | ->] by intuition; lia.
  - intros K env i vr t IN TE V1 R IP FIN.
    pose proof (st_trans _ _ _ _ _ _ _ _ _ _ S11 S12) as U10. pose proof (st_trans _ _ _ _ _ _ _ _ _ _ S10 U10) as U8. pose proof (st_trans _ _ _ _ _ _ _ _ _ _ S8 U8) as U7.
    pose proof (st_trans _ _ _ _ _ _ _ _ _ _ S7 U7) as U6. pose proof (st_trans _ _ _ _ _ _ _ _ _ _ S6 U6) as U5. pose proof (st_trans _ _ _ _ _ _ _ _ _ _ S5 U5) as U4. pose proof (st_trans _ _ _ _ _ _ _ _ _ _ S4 U4) as U1.
    assert (LE : aget (LAddr (k_ef K)) kf = CodeAddress e10) by (rewrite <- A10; apply (lab_final X D _ _ d e e10 _ e12 _ K kf IN U10); lia).
    assert (LN : aget (LAddr (k_ef K)) kn = CodeAddress e12) by (rewrite <- A12; apply (lab_final X D _ _ d e e12 _ e12 _ K kn IN (st_refl _ _ (t_book _ _ _ _ _ _ T12))); lia).
    pose proof (into_part X D _ _ _ _ d _ _ _ _ _ _ _ _ K IN (proj1 LV) (st_refl _ _ BK) U1) as I1.
    pose proof (into_part X D _ _ _ _ d _ _ _ _ _ _ _ _ K IN (proj1 LV) T5 U6) as I6.
    pose proof (into_part X D _ _ _ _ d _ _ _ _ _ _ _ _ K IN (proj1 LV) T6 U7) as I7.
    pose proof (into_part X D _ _ _ _ d _ _ _ _ _ _ _ _ K IN (proj1 LV) T7 U8) as I8.
    pose proof (into_part X D _ _ _ _ d _ _ _ _ _ _ _ _ K IN (proj1 LV) T10 S12) as I11.
    apply (RUN1 K env i t I1 TE R IP). intros t1 R1 IP1 HO. destruct I1 as (KO & LO & M1).
    destruct I6 as (KO6 & LO6 & M6).
    pose proof (live_lo _ L1) as LL1. pose proof (match_live _ _ _ _ M1 (proj1 L1)) as ME.
    pose proof (rel_img X D d (VOff e) K KO env t1 R1 ltac:(lia)) as IM.
    assert (CX : cond c' (fl t1) = Some (xorb i true) /\ cond (Z.lxor c' 1) (fl t1) = Some (negb (xorb i true))).
    { destruct HO as [H1 H2]. unfold c'. cbn [zb]. rewrite (proj1 (proj2 (proj2 (cc16 _ CR)))). rewrite xorb_true_r, negb_involutive. auto. }
    rewrite <- CA4, <- CA5 in IP1.
    destruct t1 as [r g ii f m]. cbn [ip fl mem sg] in *. subst ii.
    apply (GO6 (k_lo K) (k_ef K) (k_fin K) r g f m (xorb i true) LO6 M6 (ko_out _ _ _ _ _ KO) IM (proj1 CX) (proj2 CX)).
    pose proof (fun j => rel_move _ _ _ _ _ _ _ _ _ R1 : MRel X K env (mkst r g j f m)) as RM.
    destruct i; cbn [xorb].
    + apply (RUN7 K env vr _ DA I7 V1 (RM _) eq_refl). intros t2 R2 IP2 AX2.
      apply (RUN8 (proj1 L7) d K env t2 I8 R2 IP2). intros t3 R3 IP3 RG3. rewrite LN in IP3. apply (FIN t3 R3 IP3). rewrite RG3. exact AX2.
    + apply (RUN11 K env vr _ DB I11 V1 (RM _) LE). intros t2 R2 IP2 AX2.
      apply (FIN t2 R2); [|exact AX2]. rewrite (CA12 (proj1 L11)). exact IP2.
Qed.
End W.
