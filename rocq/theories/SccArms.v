(** Comparisons as operands of the conditional operator: which condition code tells their truth. *)
From Verif Require Import Base Bits Spec8086 SpecWf SccRun SccState SccEmit SccLex SccDecl SccExpr SccStmt SccInput SccPut SccArith SccOps SccJump SccMem SccFix SccHold SccFlush SccSem SccBin SccVal SccComp SccBody SccParse SccWhole SccImg SccStep SccAsn SccMach SccPiece SccStm SccHead SccLeft SccTern SccLogic ExprSpec StmtSpec.

Section W.
Variables (W : Z) (F : nat).
Hypothesis HW : 16 <= W.
Variables (X : list Z) (D : nat).

(** *** An operand, in the flags: ForceToReg does nothing to it *)
Lemma force_bool s x s' : CurrentType (em s) = VT_BOOL -> ForceToReg W s = Ok (x, s') -> s' = s.
Proof.
  intros T H. unfold ForceToReg, gete in H. mgoin H. rewrite T in H. change (Z.land VT_BOOL VT_BASEMASK =? VT_ARRAY) with false in H. cbn [when] in H. mgoin H. rewrite T in H.
  change (Z.land VT_BOOL VT_LOCMASK =? 0) with true in H. cbv iota in H. oki H. reflexivity.
Qed.
Lemma barm_ok n a l e d P x s' rest : good_exp a -> constant a = false -> isbool a = true -> incl (vars a) X -> (depth a <= D)%nat -> decls X d (VOff e) ->
  Book e P -> live e -> RegUse e = false -> stream W F l (toks a ++ rest) -> ends rest -> prec_over PREC_ASSIGN rest ->
  (pAssign (tie W F n) ;; ForceToReg W) (mkcc l e d) = Ok (x, s') -> facts W F X D a l e d P s' rest.
Proof.
  intros GE C IB IX DX DC BK L RU ST EN PO H. minv H y s1 E.
  assert (FA : facts W F X D a l e d P s1 rest).
  { apply bool_ok; auto. intros env v EO [EV R]. destruct n as [|n]; [discriminate E|]. cbn [tie pAssign] in E. unfold ParseAssignmentExpression in E.
    destruct (parses W F HW d env EO n) as (PC & _ & _ & PL).
    exact (upto_ok W F d env n PREC_ASSIGN a v (mkcc l e d) y s1 rest ltac:(unfold PREC_ASSIGN; lia) PC PL (conj (proj1 GE) (conj EV (conj R (decls_exp _ _ _ _ DC IX)))) eq_refl (live_gen _ L) ST EN PO E). }
  pose proof FA as (l1 & e1 & -> & _ & _ & TB & _). apply force_bool in H; [|exact TB]. subst s'. exact FA.
Qed.

(** *** A jump keeps the flags *)
Lemma jmp_fl l e P x e' : Book e P -> Pending e = 0 -> placed e l -> EmitJmp W l e = Ok (x, e') ->
  exists P', St [] [l] e P e' P' /\ IsDeadCode e' = true /\ LAddr e' = LAddr e /\ LocalLabelCounter e' = LocalLabelCounter e /\
  (IsDeadCode e = false -> forall d K env t, Into X D d e e' P' K -> MRel X K env t -> ip t = CodeAddress e ->
   (forall t', MRel X K env t' -> ip t' = aget (LAddr (k_ef K)) l -> fl t' = fl t -> reaches (k_fin K) t') -> reaches (k_fin K) t).
Proof.
  intros B PD PL H. destruct (IsDeadCode e) eqn:DE.
  - pose proof (jmp_dead W l e x e' DE PD H) as ->. exists P. split; [|split; [exact DE|split; [reflexivity|split; [reflexivity|discriminate]]]].
    destruct (st_refl e P B). split; auto.
  - destruct (jmp_piece W HW l e P x e' B (live_still _ _ B DE PD) PL H) as (P' & B1 & B2 & B3 & B4 & [B5 B5'] & B6 & B7 & B8).
    exists P'. split; [split; auto|].
    + lia.
    + intros k R _. rewrite B5. reflexivity.
    + intros k y I. destruct (B2 k y I); [auto|right; left; auto].
    + split; [exact B3|]. split; [exact B5|]. split; [exact B5'|]. intros _ d K env t (KO & LO & M) R IP G.
      pose proof (bk_room _ _ B) as RM. unfold room, CODESTART in RM. pose proof (bk_room _ _ B1) as RM1. unfold room, CODESTART in RM1.
      assert (HC : 0 <= CodeAddress (k_ef K)).
      { destruct (mt_end _ _ _ _ (proj1 B7 _ _ M)) as [E|(? & ? & _ & _ & _ & E)]; [lia|congruence]. }
      pose proof (rel_img X D d (VOff e) K KO env t R HC) as IM.
      destruct t as [r g i f m]. cbn [ip mem sg] in *. subst i. apply (B8 (k_lo K) (k_ef K) (k_fin K) r g f m LO M (ko_out _ _ _ _ _ KO) IM).
      apply G; [exact (rel_move _ _ _ _ _ _ _ _ _ R)|reflexivity|reflexivity].
Qed.

(** *** c ? a : b with comparisons a and b *)
Lemma arms_ok n c a b b0 Lv l e d P x s' rest : good_exp c -> constant c = false -> isbool c = true -> incl (vars c) X -> (depth c <= D)%nat ->
  good_exp a -> constant a = false -> isbool a = true -> incl (vars a) X -> (depth a <= D)%nat -> good_exp b -> constant b = false -> isbool b = true -> incl (vars b) X -> (depth b <= D)%nat ->
  Pre X Lv b0 e d P -> stream W F l (tern_toks c a b ++ rest) -> ends rest -> prec_over PREC_COMMA rest -> pExpr (tie W F n) (mkcc l e d) = Ok (x, s') ->
  exists l' e' P' k, s' = mkcc l' e' d /\ stream W F l' rest /\ live e' /\ CurrentType e' = VT_BOOL /\ 0 <= k < 16 /\ 0 <= CurrentVal e' < 16 /\ St [] [] e P e' P' /\
  forall K env i j t, Into X D d e e' P' K -> test env c i -> test env (if i then a else b) j -> MRel X K env t -> ip t = CodeAddress e ->
    (forall t', MRel X K env t' -> ip t' = CodeAddress e' -> holds (if i then k else CurrentVal e') j t' -> reaches (k_fin K) t') -> reaches (k_fin K) t.
Proof.
  intros GE C IB IX DX KA1 KA2 KA3 VA DA KB1 KB2 KB3 VB DB PR ST EN PO H.
  pose proof (p_live _ _ _ _ _ _ PR) as LV. pose proof (p_book _ _ _ _ _ _ PR) as BK. pose proof (bk_cnt _ _ BK) as CN. pose proof (p_reg _ _ _ _ _ _ PR) as RU. pose proof (p_decl _ _ _ _ _ _ PR) as DC.
  unfold tern_toks in ST. rewrite <- app_assoc in ST. cbn [Datatypes.app] in ST. rewrite <- app_assoc in ST. cbn [Datatypes.app] in ST.
  destruct (left_ok W F HW X D n c l e d P x s' _ _ GE C IB IX DX DC BK LV RU ST ltac:(split; [reflexivity|discriminate]) H) as (n1 & s1 & (l1 & e1 & -> & ST1 & L1 & TB & CR & S1 & A1 & C1 & RUN1) & H1).
  clear H n. rename H1 into H, n1 into n.
  destruct n as [|n]; [discriminate H|]. cbn [tie pExpr1] in H. unfold ParseExpr1 in H. minv H y2 s2 E2. unfold expr1_body, getl in E2. mgoin E2. cbn [lx] in E2.
  rewrite (proj1 ST1) in E2. minv E2 y3 s3 E3. apply (next_mk _ _ _ _ _ _ _ _ _ ST1) in E3; [|destruct (toks a); discriminate]. destruct E3 as (l3 & -> & ST3).
  change (t_type quest =? ch_quest) with true in E2. cbv iota in E2. unfold HandleCondOp, gete in E2. mgoin E2. cbn [em] in E2. rewrite TB in E2. change (VT_BOOL =? INTLIT) with false in E2. cbv iota in E2.
  minv E2 kf s4 E4. apply inem_mk in E4. destruct E4 as (e4 & E4 & ->). destruct (st_make e1 P kf e4 (t_book _ _ _ _ _ _ S1) E4) as (S4 & F4 & C4 & A4 & CA4 & DE4).
  minv E2 kn s5 E5. apply inem_mk in E5. destruct E5 as (e5 & E5 & ->). destruct (st_make e4 P kn e5 (t_book _ _ _ _ _ _ S4) E5) as (S5 & F5 & C5 & A5 & CA5 & DE5).
  destruct (make_cur _ _ _ E4) as (CT4 & CV4 & _). destruct (make_cur _ _ _ E5) as (CT5 & CV5 & _).
  pose proof (st_trans _ _ _ _ _ _ _ _ _ _ S1 S4) as T4. pose proof (st_trans _ _ _ _ _ _ _ _ _ _ T4 S5) as T5. cbn [Datatypes.app] in T4, T5.
  assert (L5 : live e5).
  { apply (live_still _ _ (t_book _ _ _ _ _ _ S5)); [rewrite DE5, DE4; apply L1|]. rewrite (proj1 (t_still _ _ _ _ _ _ S5)), (proj1 (t_still _ _ _ _ _ _ S4)). apply L1. }
  minv E2 y6 s6 E6. unfold DoCondHasExpr, gete in E6. mgoin E6. cbn [em] in E6. rewrite CT5, CT4, TB in E6. change (VT_BOOL =? INTLIT) with false in E6. change (VT_BOOL =? VT_BOOL) with true in E6. cbn [negb when] in E6. cbv iota in E6. mgoin E6. cbn [em] in E6.
  rewrite CV5, CV4 in E6. apply inem_mk in E6. destruct E6 as (e6 & E6 & ->).
  set (c' := Z.lxor (CurrentVal e1) (zb true)) in *.
  assert (CR' : 0 <= c' < 16) by apply (cc16 _ CR).
  assert (A45 : aget (LAddr e5) kf = 0) by (rewrite (t_addr _ _ _ _ _ _ S5); [exact A4|lia|auto]).
  destruct (jcc_piece W HW c' kf e5 P _ e6 CR' (t_book _ _ _ _ _ _ S5) L5 ltac:(left; exact A45) ltac:(lia) ltac:(pose proof (live_lo _ L5); lia) E6) as (P6 & BK6 & MK6 & L6 & ST6 & [KL6 KC6] & BB6 & GO6).
  assert (S6 : St [] [kf] e5 P e6 P6).
  { split; auto; [lia|intros k _ _; rewrite KL6; reflexivity|]. intros k z I. destruct (MK6 k z I); [auto|right; left; auto]. }
  pose proof (st_trans _ _ _ _ _ _ _ _ _ _ T5 S6) as T6. cbn [Datatypes.app] in T6.
  assert (PR6 : forall Q eQ L0 K0, St L0 K0 e P eQ Q -> RegUse eQ = false /\ decls X d (VOff eQ)).
  { intros Q eQ L0 K0 S. pose proof (t_still _ _ _ _ _ _ S) as (_ & Q2 & _ & Q4). split; [congruence|rewrite Q4; exact DC]. }
  assert (E7 : exists y7 s7, (pAssign (tie W F n) ;; ForceToReg W) (mkcc l3 e6 d) = Ok (y7, s7) /\
    (let! lhstype := gete CurrentType in inem (EmitJmp W kn) ;; Expect W F ch_colon ;; inem (EmitLocalLabel W kf) ;; pAssign (tie W F n) ;; ForceToReg W ;;
     let! ct := gete CurrentType in let diff := Z.lxor lhstype ct in
     if hasb diff VT_LVAL || (hasb diff VT_BASEMASK && negb (hasb ct VT_PTRMASK)) then
      let! realend := inem MakeLabel in LvalToRval W ;; inem (EmitJmp W realend) ;; inem (EmitLocalLabel W kn) ;; setT lhstype ;; LvalToRval W ;; inem (EmitLocalLabel W realend)
     else inem (EmitLocalLabel W kn)) s7 = Ok (y2, s2)).
  { minv E2 z1 u1 Z1. minv E2 z2 u2 Z2. exists z2, u2. split; [rewrite (bind_ok _ _ _ _ _ Z1); exact Z2|exact E2]. }
  clear E2. destruct E7 as (y7 & s7 & E7 & E2).
  destruct (PR6 _ _ _ _ T6) as [RU6 DC6].
  destruct (barm_ok n a l3 e6 d P6 y7 s7 _ KA1 KA2 KA3 VA DA DC6 BK6 L6 RU6 ST3 ltac:(right; right; right; right; reflexivity) ltac:(reflexivity) E7) as (l7 & e7 & -> & ST7 & L7 & CT7 & CR7 & S7 & LA7 & LC7 & RUN7).
  pose proof (st_trans _ _ _ _ _ _ _ _ _ _ T6 S7) as T7.
  unfold gete in E2. mgoin E2. cbn [em] in E2. rewrite CT7 in E2.
  minv E2 y8 t8 E8. apply inem_mk in E8. destruct E8 as (e8 & E8 & ->).
  assert (A87 : aget (LAddr e7) kn = 0) by (rewrite LA7, KL6; exact A5).
  destruct (jmp_fl kn e7 P6 y8 e8 (t_book _ _ _ _ _ _ S7) (proj1 (proj2 L7)) ltac:(left; exact A87) E8) as (P8 & S8 & DE8 & A8 & C8 & RUN8).
  pose proof (st_trans _ _ _ _ _ _ _ _ _ _ T7 S8) as T8.
  minv E2 y9 s9 E9. apply (expect_mk _ _ _ _ _ _ _ _ _ _ ST7) in E9; [|destruct (toks b); cbn [Datatypes.app]; [destruct rest; [destruct EN|discriminate]|discriminate]]. destruct E9 as (l9 & -> & ST9).
  minv E2 y10 s10 E10. apply inem_mk in E10. destruct E10 as (e10 & E10 & ->).
  destruct (st_label W kf e8 P8 y10 e10 (t_book _ _ _ _ _ _ S8) ltac:(rewrite (proj1 (t_still _ _ _ _ _ _ S8)); apply L7) ltac:(lia) E10) as (S10 & LV10 & C10 & A10 & _ & R10).
  pose proof (st_trans _ _ _ _ _ _ _ _ _ _ T8 S10) as T10. destruct (PR6 _ _ _ _ T10) as [RU10 DC10].
  assert (E11 : exists y11 s11, (pAssign (tie W F n) ;; ForceToReg W) (mkcc l9 e10 d) = Ok (y11, s11) /\
    (let! ct := gete CurrentType in let diff := Z.lxor VT_BOOL ct in
     if hasb diff VT_LVAL || (hasb diff VT_BASEMASK && negb (hasb ct VT_PTRMASK)) then
      let! realend := inem MakeLabel in LvalToRval W ;; inem (EmitJmp W realend) ;; inem (EmitLocalLabel W kn) ;; setT VT_BOOL ;; LvalToRval W ;; inem (EmitLocalLabel W realend)
     else inem (EmitLocalLabel W kn)) s11 = Ok (y2, s2)).
  { minv E2 z1 u1 Z1. minv E2 z2 u2 Z2. exists z2, u2. split; [rewrite (bind_ok _ _ _ _ _ Z1); exact Z2|exact E2]. }
  clear E2. destruct E11 as (y11 & s11 & E11 & E2).
  assert (PO2 : prec_over PREC_ASSIGN rest) by (destruct rest; [destruct PO|]; cbn [prec_over] in *; unfold PREC_COMMA, PREC_ASSIGN in *; lia).
  destruct (barm_ok n b l9 e10 d _ y11 s11 _ KB1 KB2 KB3 VB DB DC10 (t_book _ _ _ _ _ _ S10) LV10 RU10 ST9 EN PO2 E11) as (l11 & e11 & -> & ST11 & L11 & CT11 & CR11 & S11 & LA11 & LC11 & RUN11).
  pose proof (st_trans _ _ _ _ _ _ _ _ _ _ T10 S11) as T11.
  unfold gete in E2. mgoin E2. cbn [em] in E2. rewrite CT11 in E2. change (hasb (Z.lxor VT_BOOL VT_BOOL) VT_LVAL || (hasb (Z.lxor VT_BOOL VT_BOOL) VT_BASEMASK && negb (hasb VT_BOOL VT_PTRMASK))) with false in E2. cbv iota in E2.
  apply inem_mk in E2. destruct E2 as (e12 & E12 & ->).
  destruct (st_label W kn e11 _ y2 e12 (t_book _ _ _ _ _ _ S11) (proj1 (proj2 L11)) ltac:(lia) E12) as (S12 & LV12 & C12 & A12 & CA12 & R12).
  pose proof (st_trans _ _ _ _ _ _ _ _ _ _ T11 S12) as T12.
  assert (CT12 : CurrentType e12 = VT_BOOL) by (rewrite (label_type _ _ _ _ _ (proj1 (proj2 L11)) E12); exact CT11).
  assert (CV12 : CurrentVal e12 = CurrentVal e11) by exact (label_val _ _ _ _ _ (proj1 (proj2 L11)) E12).
  unfold getl in H. mgoin H. cbn [lx] in H. destruct rest as [|tr rest]; [destruct EN|]. rewrite (proj1 (proj2 ST11)) in H. cbn [prec_over] in PO.
  destruct (Z.leb_spec (t_prec tr) PREC_COMMA); [lia|]. oki H.
  assert (AF : aget (LAddr e12) kf = CodeAddress e10) by (rewrite (t_addr _ _ _ _ _ _ S12), LA11; [exact A10|lia|intros [Q|[]]; lia]).
  exists l11, e12, (without kn (without kf P8)), (CurrentVal e7). split; [reflexivity|]. split; [exact ST11|]. split; [exact LV12|]. split; [exact CT12|]. split; [exact CR7|]. split; [rewrite CV12; exact CR11|]. split.
  - apply (st_close _ _ _ _ _ _ _ T12 BK).
    + cbn [Datatypes.app In]. intros k I. lia.
    + cbn [Datatypes.app In]. intros k I. right. assert (k = kf \/ k = kn) as [-> | ->] by intuition; lia.
  - intros K env i j t IN TE V1 R IP FIN.
    pose proof (st_trans _ _ _ _ _ _ _ _ _ _ S11 S12) as U10. pose proof (st_trans _ _ _ _ _ _ _ _ _ _ S10 U10) as U8. pose proof (st_trans _ _ _ _ _ _ _ _ _ _ S8 U8) as U7.
    pose proof (st_trans _ _ _ _ _ _ _ _ _ _ S7 U7) as U6. pose proof (st_trans _ _ _ _ _ _ _ _ _ _ S6 U6) as U5. pose proof (st_trans _ _ _ _ _ _ _ _ _ _ S5 U5) as U4. pose proof (st_trans _ _ _ _ _ _ _ _ _ _ S4 U4) as U1.
    assert (LE : aget (LAddr (k_ef K)) kf = CodeAddress e10) by (rewrite <- A10; apply (lab_final X D _ _ d e e10 _ e12 _ K kf IN U10); lia).
    assert (LN : aget (LAddr (k_ef K)) kn = CodeAddress e12) by (rewrite <- A12; apply (lab_final X D _ _ d e e12 _ e12 _ K kn IN (st_refl _ _ (t_book _ _ _ _ _ _ T12))); lia).
    pose proof (into_part X D _ _ _ _ d _ _ _ _ _ _ _ _ K IN (proj1 LV) (st_refl _ _ BK) U1) as I1.
    pose proof (into_part X D _ _ _ _ d _ _ _ _ _ _ _ _ K IN (proj1 LV) T5 U6) as I6.
    pose proof (into_part X D _ _ _ _ d _ _ _ _ _ _ _ _ K IN (proj1 LV) T6 U7) as I7.
    pose proof (into_part X D _ _ _ _ d _ _ _ _ _ _ _ _ K IN (proj1 LV) T7 U8) as I8.
    pose proof (into_part X D _ _ _ _ d _ _ _ _ _ _ _ _ K IN (proj1 LV) T10 S12) as I11.
    apply (RUN1 K env i t I1 TE R IP). intros t1 R1 IP1 HO. destruct I1 as (KO & LO & M1).
    destruct I6 as (KO6 & LO6 & M6).
    pose proof (live_lo _ L1) as LL1. pose proof (match_live _ _ _ _ M1 (proj1 L1)) as ME.
    pose proof (rel_img X D d (VOff e) K KO env t1 R1 ltac:(lia)) as IM.
    assert (CX : cond c' (fl t1) = Some (xorb i true) /\ cond (Z.lxor c' 1) (fl t1) = Some (negb (xorb i true))).
    { destruct HO as [H1 H2]. unfold c'. cbn [zb]. rewrite (proj1 (proj2 (proj2 (cc16 _ CR)))). rewrite xorb_true_r, negb_involutive. auto. }
    rewrite <- CA4, <- CA5 in IP1.
    destruct t1 as [r g ii f m]. cbn [ip fl mem sg] in *. subst ii.
    apply (GO6 (k_lo K) (k_ef K) (k_fin K) r g f m (xorb i true) LO6 M6 (ko_out _ _ _ _ _ KO) IM (proj1 CX) (proj2 CX)).
    pose proof (fun j => rel_move _ _ _ _ _ _ _ _ _ R1 : MRel X K env (mkst r g j f m)) as RM.
    destruct i; cbn [xorb].
    + apply (RUN7 K env j _ I7 V1 (RM _) eq_refl). intros t2 R2 IP2 H2.
      apply (RUN8 (proj1 L7) d K env t2 I8 R2 IP2). intros t3 R3 IP3 RG3. rewrite LN in IP3. apply (FIN t3 R3 IP3). unfold holds in *. rewrite RG3. exact H2.
    + apply (RUN11 K env j _ I11 V1 (RM _) LE). intros t2 R2 IP2 H2.
      apply (FIN t2 R2); [|rewrite CV12; exact H2]. rewrite (CA12 (proj1 L11)). exact IP2.
Qed.
End W.
