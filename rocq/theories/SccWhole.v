(** A whole expression: ParseExpr and GetVal, and what the machine does with the code. *)
From Verif Require Import Base Bits Spec8086 SpecWf SccRun SccState SccEmit SccLex SccDecl SccExpr SccStmt SccInput SccPut SccArith SccOps SccJump SccMem SccHold SccFlush SccSem SccBin SccVal SccComp SccBody SccParse ExprSpec.

Section W.
Variable W : Z.
Hypothesis HW : 16 <= W.

(** a constant is loaded into AX *)
Lemma getval_const s x0 s' v : live (em s) -> CurrentType (em s) = INTLIT -> CurrentVal (em s) = v -> GetVal W s = Ok (x0, s') ->
  exists e', s' = set_em e' s /\ grown (em s) e' /\ CurrentType e' = VT_INT /\
  forall f, frame_ok f -> acts f (em s) e' (fun _ => True) (fun t => ax (rg t) = v mod 65536).
Proof.
  intros L T CV H. unfold GetVal, gete in H. mgoin H. rewrite T in H. change (INTLIT =? VT_BOOL) with false in H. cbv iota in H.
  rewrite (bind_ok _ _ s tt s) in H by (apply lval_not; rewrite T; reflexivity). mgoin H. rewrite T in H. change (hasb INTLIT VT_LOCMASK) with true in H. cbn [when] in H.
  change (negb (INTLIT =? INTLIT)) with false in H. cbn [failif] in H. rewrite (bind_ok _ _ s tt s) in H by reflexivity. unfold setT, upde in H. mgoin H. rewrite set_em_em in H.
  change (CurrentVal (set_CurrentType VT_INT (em s))) with (CurrentVal (em s)) in H. rewrite CV in H.
  set (e0 := set_CurrentType VT_INT (em s)) in *. assert (K0 : kin (em s) e0) by apply set_type_kin. pose proof (kin_live _ _ K0 L) as L0.
  assert (HH : exists bs, s' = set_em (put bs e0) s /\ live (put bs e0) /\ okhead bs /\
    forall r g f m, regs_ok r -> code m (cs g) (CodeAddress e0) (map u8 bs) ->
      reaches (fun t' => ip t' = CodeAddress e0 + Z.of_nat (length bs) /\ ax (rg t') = v mod 65536 /\ keeps_but [R_AX] (mkst r g (CodeAddress e0) f m) t') (mkst r g (CodeAddress e0) f m)).
  { pose proof (live_lo _ L0) as LO. destruct (Z.eqb_spec v 0) as [->|NV]; cbn [negb] in H.
    - apply o2_inv in H; [|exact L0]. destruct H as [-> L']. rewrite em_app, set_em_em in L'. exists [49; 192]. split; [unfold app_code; rewrite set_em_em; reflexivity|]. split; [exact L'|]. split; [cbn; unfold u8; lia|].
      intros r g f m RO C. pose proof (live_room _ _ L') as LR. cbn [length map] in *.
      runop [49; 192] (IAlu (alu_of 6) true (Reg 0) (Reg 0)) 2. apply reach_now. cbn [ip rg]. split; [reflexivity|]. split; [cbn [rset ax rget]; rewrite Z.lxor_nilpotent; reflexivity|].
      unfold keeps_but. cbn [rg sg mem]. split; [|auto]. intros q Hq N. cbn [In] in N. unfold R_AX in N. reg8 q; try (exfalso; tauto); reflexivity.
    - apply inem_inv in H. destruct H as (e1 & E & ->). rewrite set_em_em in E. apply movimm_emits in E; [|exact L0]. destruct E as [-> L'].
      exists [Z.lor 184 R_AX; v; Z.shiftr v 8]. split; [reflexivity|]. split; [exact L'|]. split; [cbn; unfold u8; lia|].
      intros r g f m RO C. pose proof (live_room _ _ L') as LR. cbn [length map] in *.
      runop [u8 (Z.lor 184 R_AX); u8 v; u8 (Z.shiftr v 8)] (IMov true (Reg 0) (Imm (v mod 65536))) 3.
      + intro. rewrite <- word_bytes. reflexivity.
      + apply reach_now. cbn [ip rg]. split; [reflexivity|]. split; [reflexivity|]. unfold keeps_but. cbn [rg sg mem]. split; [|auto].
        intros q Q N. cbn [In] in N. unfold R_AX in N. reg8 q; try (exfalso; tauto); reflexivity. }
  destruct HH as (bs & -> & L' & OK & RUN). pose proof (grown_put _ _ L' OK) as G1.
  assert (G : grown (em s) (put bs e0)) by (apply (grown_trans _ e0); [apply (grown_kin _ (em s)); [exact K0|apply grown_refl; exact L]|exact G1]).
  exists (put bs e0). split; [reflexivity|]. split; [exact G|]. split; [rewrite put_ctype; reflexivity|]. intros f FO.
  apply (acts_kin_l f e0); [apply kin_sym; exact K0|].
  apply (step_acts f FO (fun _ => True) [R_AX] e0 _ (fun t t' => ax (rg t') = v mod 65536 /\ keeps_but [R_AX] t t') _ _ L0 G1); clobs.
  - apply does_of; auto.
  - intros t t' [_ K]. exact K.
  - intros t t' I _ Wt [A _]. exact A.
Qed.

(** an expression and the load of its value *)
Lemma sem_value d env ex e s x0 s' v : eval env ex = Some v -> live e -> Sem d env ex e (em s) v -> GetVal W s = Ok (x0, s') ->
  exists e', s' = set_em e' s /\ InReg d env ex e e' v.
Proof.
  intros EV L SM H. destruct (constant ex) eqn:C.
  - destruct SM as (G & VO & X & S). rewrite C in S. destruct S as (K & T & CV).
    destruct (getval_const s x0 s' v (kin_live _ _ K L) T CV H) as (e' & -> & GR & T' & A). pose proof GR as (G1 & G2 & G3 & _). exists e'. split; [reflexivity|].
    split; [exact G1|]. split; [congruence|]. split; [exact (ext_trans _ _ _ X G3)|]. split; [exact T'|]. split; [exact (bal_trans _ _ _ (bal_kin _ _ K) (grown_bal _ _ (kin_live _ _ K L) GR))|]. intros f FO _.
    apply acts_Acts. apply (acts_kin_l f (em s)); [apply kin_sym; exact K|]. apply A. exact FO.
  - destruct (sem_getval W HW d env ex e s x0 s' v EV C (live_gen _ L) SM H) as (e' & -> & IR & _). exists e'. auto.
Qed.

(** ** On the machine *)
(** the bytes emitted from e to e' are in memory *)
Definition loaded (e e' : emst) (t : state) : Prop :=
  forall a, CodeAddress e <= a < CodeAddress e' -> rd8 (mem t) (cs (sg t)) a = aget (Output e') (a - CODESTART).
(** the variable x is at the offset a of the data segment *)
Definition lies (s : cc) (bp x a : Z) : Prop :=
  exists Loc Val, int_var (dc s) (VOff (em s)) x Loc Val /\
    a = if Loc =? VT_LOCOFF then (bp + Val) mod 65536 else aget (VOff (em s)) Val mod 65536.

Lemma phys_inj seg a b : 0 <= a < 65536 -> 0 <= b < 65536 -> phys seg a = phys seg b -> a = b.
Proof. unfold phys. intros. lia. Qed.
Lemma int_var_fun d vo x L1 V1 L2 V2 : int_var d vo x L1 V1 -> int_var d vo x L2 V2 -> L1 = L2 /\ V1 = V2.
Proof.
  intros (_ & A & B) (_ & A' & B'). assert (L1 = L2) by lia. subst L2. split; [reflexivity|]. clear A A'.
  destruct B as [[-> ->]|(-> & -> & _)], B' as [[? ->]|(? & -> & _)]; try reflexivity; discriminate.
Qed.
Lemma inreg_runs d env ex e e' v t : InReg d env ex e e' v -> live e -> RegUse e = false -> d = d ->
  wf t -> ss (sg t) = cs (sg t) -> ds (sg t) = cs (sg t) -> ip t = CodeAddress e -> loaded e e' t ->
  CodeAddress e' <= sp (rg t) - 2 * Z.of_nat (depth ex) ->
  (forall x Loc Val, In x (vars ex) -> int_var d (VOff e) x Loc Val ->
     let a := if Loc =? VT_LOCOFF then (bp (rg t) + Val) mod 65536 else aget (VOff e) Val mod 65536 in
     a + 1 < 65536 /\ (a + 1 < sp (rg t) - 2 * Z.of_nat (depth ex) \/ sp (rg t) <= a) /\ env x = signed true (rd16 (mem t) (cs (sg t)) a)) ->
  reaches (fun t' => wf t' /\ ip t' = CodeAddress e' /\ ax (rg t') = v mod 65536 /\ sp (rg t') = sp (rg t) /\ bp (rg t') = bp (rg t) /\ sg t' = sg t /\
    forall a, (forall o, sp (rg t) - 2 * Z.of_nat (depth ex) <= o < sp (rg t) -> a <> phys (cs (sg t)) o) -> aget (mem t') a = aget (mem t) a) t.
Proof.
  intros (L' & VO & X & T & _ & A) L RU _ Wt SS DS IP LD ROOM VARS.
  set (dep := 2 * Z.of_nat (depth ex)) in *.
  set (f := mkframe e' (CodeAddress e) (sg t) (bp (rg t)) (sp (rg t)) (sp (rg t) - dep) (mem t) (LocalOffset e)).
  assert (SPR : 0 <= sp (rg t) < 65536) by (exact (proj1 (proj2 (proj2 (proj2 (proj2 (proj1 Wt))))))).
  assert (FO : frame_ok f).
  { split; [exact SS|]. split; [exact DS|]. destruct X as [X1 X2]. pose proof (live_lo _ L). cbn [f f_lo f_fin f_low f_top].
    split; [lia|]. split; [exact ROOM|]. split; [unfold dep; lia|]. split; [lia|]. exact LD. }
  assert (SA : sees_all f d (VOff e) env (vars ex)).
  { intros x I Loc Val IV. specialize (VARS x Loc Val I IV). cbv zeta in VARS. unfold vaddr. cbn [f f_bp f_seg f_sg f_mem].
    set (a := if Loc =? VT_LOCOFF then (bp (rg t) + Val) mod 65536 else aget (VOff e) Val mod 65536) in *.
    destruct VARS as (V1 & V2 & V3). assert (R : 0 <= a) by (unfold a; destruct (Loc =? VT_LOCOFF); apply Z.mod_pos_bound; lia).
    split; [|split; [|exact V3]]; intros (o & O1 & O2); cbn [f f_low f_top f_seg f_sg] in O1, O2; pose proof (live_lo _ L); destruct X; apply phys_inj in O2; lia. }
  assert (SP : space f [] (depth ex)) by (unfold space; cbn [f f_low f_top length]; unfold dep; lia).
  assert (HO : hold f e [] t).
  { exists []. rewrite (proj1 (proj2 L)), RU. split; [reflexivity|]. split; [|cbn [f f_off length]; lia]. split; [cbn [f f_top length]; lia|]. intros k K. cbn [length] in K. lia. }
  assert (IV : inv f t) by (split; [exact Wt|]; split; [reflexivity|]; split; reflexivity).
  pose proof (A f FO SA (Z.le_refl _) (ext_refl e') [] SP t IV IP (conj HO I)) as R.
  eapply reaches_imp; [exact R|]. cbv beta. intros t' ((Wt' & SG & BP & ME) & IP' & HO' & AX).
  split; [exact Wt'|]. split; [exact IP'|]. split; [exact AX|]. split.
  { destruct HO' as (l & EL & S1 & _). rewrite (proj1 (proj2 L')) in EL, S1. change (0 =? -8) with false in S1. cbv iota in S1. destruct S1 as [S1 _]. change (0 =? 0) with true in EL. cbv iota in EL. cbn [app] in EL.
    assert (l = []) by (destruct (RegUse e'); [discriminate EL|symmetry; exact EL]). subst l. rewrite S1. cbn [f f_top length]. lia. }
  split; [exact BP|]. split; [exact SG|]. intros a NA. apply ME. intros (o & O1 & O2). exact (NA o O1 O2).
Qed.

(** the expression parser leaves what follows the expression *)
Theorem expression_runs F n env ex v s x0 s' rest :
  env_ok env -> wf_exp ex -> eval env ex = Some v -> right env ex -> declared (dc s) (VOff (em s)) ex -> live (em s) -> RegUse (em s) = false ->
  stream W F (lx s) (toks ex ++ rest) -> ends rest -> prec_over PREC_COMMA rest ->
  (pExpr (tie W F n) ;; GetVal W) s = Ok (x0, s') ->
  dc s' = dc s /\ stream W F (lx s') rest /\ InReg (dc s) env ex (em s) (em s') v.
Proof.
  intros EO WF EV R DC L RU ST EN PO H. minv H y s1 E.
  destruct (parses W F HW (dc s) env EO n) as (_ & _ & PE & _).
  pose proof (PE ex v s y s1 rest (conj WF (conj EV (conj R DC))) eq_refl (live_gen _ L) ST EN PO E) as (e1 & l1 & -> & ST1 & SM).
  destruct (sem_value (dc s) env ex (em s) (set_lx l1 (set_em e1 s)) x0 s' v EV L SM H) as (e' & -> & IR). split; [reflexivity|]. split; [exact ST1|exact IR].
Qed.
End W.
