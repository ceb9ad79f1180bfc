(** The parts of statements that are expressions: a value, a condition, an assignment; compiled once, right for all values of the variables. *)
From Verif Require Import Base Bits Spec8086 SpecWf SccRun SccState SccEmit SccLex SccDecl SccExpr SccStmt SccInput SccPut SccArith SccOps SccJump SccMem SccFix SccHold SccFlush SccSem SccBin SccVal SccComp SccBody SccParse SccWhole SccImg SccStep SccAsn SccMach ExprSpec StmtSpec.

Section W.
Variables (W : Z) (F : nat).
Hypothesis HW : 16 <= W.
Variables (X : list Z) (D : nat).
(** the variables are declared *)
Definition decls (d : dcst) (vo : arr Z) : Prop := forall x, In x X -> TOK_ID <= TOK_KEYWORD + x /\ exists Loc Val, int_var d vo x Loc Val.
Lemma decls_exp d vo ex : decls d vo -> incl (vars ex) X -> declared d vo ex.
Proof. intros H I x Ix. apply H. apply I. exact Ix. Qed.
Lemma same_st l1 e1 l2 e2 s : set_lx l1 (set_em e1 s) = set_lx l2 (set_em e2 s) -> l1 = l2 /\ e1 = e2.
Proof. unfold set_lx, set_em. cbn [lx em dc]. intro H. injection H as -> ->. auto. Qed.

(** *** Parsing *)
Lemma expr_piece n ex s x s' rest : good_exp ex -> incl (vars ex) X -> decls (dc s) (VOff (em s)) -> gen (em s) ->
  stream W F (lx s) (toks ex ++ rest) -> ends rest -> prec_over PREC_COMMA rest -> pExpr (tie W F n) s = Ok (x, s') ->
  exists e1 l1, s' = set_lx l1 (set_em e1 s) /\ stream W F l1 rest /\ forall env v, env_ok env -> value env ex v -> Sem (dc s) env ex (em s) e1 v.
Proof.
  intros [WF (env0 & v0 & EO0 & EV0 & R0)] IX DC G ST EN PO H.
  assert (P : forall env v, env_ok env -> value env ex v -> after W F (dc s) env s s' ex (em s) v rest).
  { intros env v EO [EV R]. destruct (parses W F HW (dc s) env EO n) as (_ & _ & PE & _).
    exact (PE ex v s x s' rest (conj WF (conj EV (conj R (decls_exp _ _ _ DC IX)))) eq_refl G ST EN PO H). }
  destruct (P env0 v0 EO0 (conj EV0 R0)) as (e1 & l1 & -> & ST1 & _). exists e1, l1. split; [reflexivity|]. split; [exact ST1|].
  intros env v EO V. destruct (P env v EO V) as (e2 & l2 & E & _ & SM). apply same_st in E. destruct E as [_ <-]. exact SM.
Qed.
(** the right side of an assignment *)
Lemma rhs_piece n ex s x s' rest : good_exp ex -> incl (vars ex) X -> decls (dc s) (VOff (em s)) -> gen (em s) ->
  stream W F (lx s) (toks ex ++ rest) -> ends rest -> prec_over PREC_COMMA rest -> (pCast (tie W F n) ;; rhs_loop F (tie W F n) PREC_ASSIGN) s = Ok (x, s') ->
  exists e1 l1, s' = set_lx l1 (set_em e1 s) /\ stream W F l1 rest /\ forall env v, env_ok env -> value env ex v -> Sem (dc s) env ex (em s) e1 v.
Proof.
  intros [WF (env0 & v0 & EO0 & EV0 & R0)] IX DC G ST EN PO H.
  assert (P : forall env v, env_ok env -> value env ex v -> after W F (dc s) env s s' ex (em s) v rest).
  { intros env v EO [EV R]. destruct (parses W F HW (dc s) env EO n) as (PC & _ & _ & PL).
    minv H y s1 E. rewrite toks_head, <- app_assoc in ST.
    assert (GD : Good (dc s) env (build (head ex) (tail ex)) v (VOff (em s))) by (rewrite head_tail; exact (conj WF (conj EV (conj R (decls_exp _ _ _ DC IX))))).
    destruct (good_build _ _ _ _ _ _ GD) as (vh & Gh).
    pose proof (PC (head ex) vh s y s1 _ Gh (top_head ex) eq_refl G ST (ktoks_ends _ _ EN) E) as A1.
    destruct (after_at _ _ _ _ _ _ _ _ _ _ A1 eq_refl) as (D1 & ST1 & SM & _ & _). apply (after_trans _ _ _ _ _ _ _ _ _ _ _ _ _ _ _ A1).
    rewrite <- (head_tail ex). unfold rhs_loop in H.
    assert (WB : wf_exp (build (head ex) (tail ex))) by (rewrite head_tail; exact WF).
    assert (PO2 : prec_over PREC_ASSIGN rest /\ prec_over (PREC_ASSIGN - 1) rest) by (destruct rest; [destruct PO|]; cbn [prec_over] in *; unfold PREC_COMMA, PREC_ASSIGN in *; lia).
    eapply (rhs_ok W F (dc s) env n PL F (tail ex) (head ex) (em s) vh v s1 x s' rest PREC_ASSIGN (top (head ex))); try eassumption.
    - apply Forall_forall. intros ob _. pose proof (prec_range (fst ob)). unfold PREC_ASSIGN. lia.
    - apply wf_loosens. exact WB.
    - right. apply PO2.
    - apply Gh.
    - apply PO2. }
  destruct (P env0 v0 EO0 (conj EV0 R0)) as (e1 & l1 & -> & ST1 & _). exists e1, l1. split; [reflexivity|]. split; [exact ST1|].
  intros env v EO V. destruct (P env v EO V) as (e2 & l2 & E & _ & SM). apply same_st in E. destruct E as [_ <-]. exact SM.
Qed.

(** *** A value in AX *)
Lemma still_of e e' : live e -> live e' -> RegUse e = false -> bal e e' -> VOff e' = VOff e -> still e e'.
Proof.
  intros L L' RU B V. destruct (bal_none e e' B (proj1 (proj2 L)) RU (proj1 (proj2 L'))) as [B1 B2]. split; [rewrite (proj1 (proj2 L)), (proj1 (proj2 L')); reflexivity|].
  split; [congruence|]. split; [exact B2|exact V].
Qed.
Lemma value_piece n ex s x s' rest : good_exp ex -> incl (vars ex) X -> decls (dc s) (VOff (em s)) -> live (em s) -> RegUse (em s) = false ->
  stream W F (lx s) (toks ex ++ rest) -> ends rest -> prec_over PREC_COMMA rest -> (pExpr (tie W F n) ;; GetVal W) s = Ok (x, s') ->
  exists e1 l1, s' = set_lx l1 (set_em e1 s) /\ stream W F l1 rest /\ live e1 /\ ext (em s) e1 /\ still (em s) e1 /\
  forall env v, env_ok env -> value env ex v -> InReg (dc s) env ex (em s) e1 v.
Proof.
  intros GE IX DC L RU ST EN PO H. minv H y s1 E. destruct (expr_piece n ex s y s1 rest GE IX DC (live_gen _ L) ST EN PO E) as (e1 & l1 & -> & ST1 & SM).
  assert (P : forall env v, env_ok env -> value env ex v -> exists e', s' = set_em e' (set_lx l1 (set_em e1 s)) /\ InReg (dc s) env ex (em s) e' v).
  { intros env v EO V. apply (sem_value W HW (dc s) env ex (em s) _ x s' v (proj1 V) L); [exact (SM env v EO V)|exact H]. }
  destruct GE as [WF (env0 & v0 & EO0 & V0)]. destruct (P env0 v0 EO0 V0) as (e' & -> & IR). exists e', l1. split; [destruct s; reflexivity|]. split; [exact ST1|].
  pose proof IR as (L' & VO & XT & _ & BA & _). split; [exact L'|]. split; [exact XT|]. split; [exact (still_of _ _ L L' RU BA VO)|].
  intros env v EO V. destruct (P env v EO V) as (e2 & E2 & IR2). unfold set_em, set_lx in E2. cbn [lx em dc] in E2. injection E2 as ->. exact IR2.
Qed.

(** *** The value of a right side, stored *)
Lemma lval_then d env ex e s x1 s1 v : eval env ex = Some v -> constant ex = false -> gen e -> Sem d env ex e (em s) v -> LvalToRval W s = Ok (x1, s1) ->
  CurrentType (em s1) <> INTLIT /\ (CurrentType (em s1) = VT_INT \/ CurrentType (em s1) = VT_BOOL) /\ IsUnsignedOp (em s1) = IsUnsignedOp (em s) /\ VOff (em s1) = VOff e /\ dc s1 = dc s /\ forall x2 s2, GetVal W s1 = Ok (x2, s2) -> exists e2, s2 = set_em e2 s /\ InReg d env ex e e2 v.
Proof.
  intros EV C Ge SM H. destruct (kvar ex) as [y|] eqn:KV.
  - pose proof SM as (G & VO & XT & S). rewrite C, KV in S. destruct S as (K & Loc & Val & IV & LV). destruct (kvar_eval env ex y v KV EV) as [-> VS].
    assert (IV' : int_var d (VOff (em s)) y Loc Val) by (rewrite VO; exact IV).
    destruct (lval_var W HW d y Loc Val s x1 s1 G IV' LV H) as (e' & -> & A1 & A2 & A3 & A4 & A5 & A7 & A6). rewrite set_em_em. split; [rewrite A4; discriminate|]. split; [left; exact A4|]. split; [exact A5|]. split; [congruence|]. split; [reflexivity|].
    intros x2 s2 H2. apply getval_int in H2; [|rewrite set_em_em; exact A4]. subst s2. exists e'. split; [reflexivity|].
    split; [exact A1|]. split; [congruence|]. split; [exact (ext_trans _ _ _ XT A3)|]. split; [exact A4|]. split; [exact (bal_trans _ _ _ (bal_kin _ _ K) A7)|].
    intros f FO SA. apply (Acts_kin_l f _ (em s)); [apply kin_sym; exact K|]. apply acts_Acts. apply A6; [exact FO|]. rewrite VO. apply SA. rewrite VS. left. reflexivity.
  - pose proof SM as (G & VO & XT & S). rewrite C, KV in S. destruct S as (P & T & _).
    assert (NL : hasb (CurrentType (em s)) VT_LVAL = false /\ CurrentType (em s) <> INTLIT) by (destruct T as [T|[T _]]; rewrite T; (split; [reflexivity|discriminate])).
    rewrite (lval_not W s (proj1 NL)) in H. apply ok_inj in H. destruct H as [_ <-]. split; [apply NL|]. split; [destruct T as [T|[T _]]; auto|]. split; [reflexivity|]. split; [exact VO|]. split; [reflexivity|]. intros x2 s2 H2.
    destruct (sem_getval W HW d env ex e s x2 s2 v EV C Ge SM H2) as (e' & -> & IR & _). exists e'. auto.
Qed.
Lemma ext_piece e e' P : Book e P -> live e -> live e' -> ext e e' -> Book e' P /\ back e P e' P /\ keepl e e'.
Proof.
  intros BK L L' XT. pose proof (ext_app _ _ XT) as A. split; [exact (book_app e e' P BK (proj1 L) (proj2 (proj2 L')) A)|].
  split; [exact (app_back e e' P (bk_ord _ _ BK) (proj1 L) (or_introl (proj1 L')) A)|]. destruct (lab_eq e e' (proj1 (proj2 (proj2 A)))) as (_ & E2 & E3 & _). split; assumption.
Qed.
(** what was compiled between e and e' does a *)
Definition assigned (d : dcst) (a : act) (e e' : emst) : Prop :=
  live e' /\ ext e e' /\ still e e' /\
  forall P K env env' t, env_ok env -> act_step a env env' -> k_ok X D d (VOff e) K -> ordered (CodeAddress e) P -> k_lo K <= CodeAddress e -> Match (k_lo K) (k_ef K) e' P ->
  MRel X K env t -> ip t = CodeAddress e -> reaches (fun t' => MRel X K env' t' /\ ip t' = CodeAddress e') t.
Lemma assigned_kin d a e e1 e2 : assigned d a e e1 -> kin e1 e2 -> assigned d a e e2.
Proof.
  intros (L & XT & ST & GO) KI. pose proof KI as (K1 & K2 & K3 & K4 & K5 & K6 & K7 & K8). pose proof (kin_live _ _ KI L) as L2.
  split; [exact L2|]. split; [exact (ext_trans _ _ _ XT (ext_kin _ _ KI))|]. split.
  { eapply still_trans; [exact ST|]. split; [exact K4|]. split; [exact K3|]. split; assumption. }
  intros P K env env' t EO SP KO OR LO M R IP. rewrite K1. apply (GO P K env env' t EO SP KO OR LO); auto.
  apply (match_app _ _ e1 e2 P (ordered_le _ _ _ OR (ext_le _ _ XT)) (or_introl (proj1 L2)) (ext_app _ _ (ext_kin _ _ KI)) M).
Qed.
(** the new value is worked out, then one instruction stores it *)
Lemma finish_piece d a x Loc Val vs n e e2 bs (u : state -> Z) : live e -> RegUse e = false -> live e2 -> VOff e2 = VOff e -> ext e e2 -> bal e e2 -> live (put bs e2) -> okhead bs ->
  In x X -> int_var d (VOff e) x Loc Val -> does e2 (put bs e2) (fun t t' => stores e2 2 Loc Val (u t) t t') -> incl vs X -> (n <= D)%nat ->
  (forall env env', env_ok env -> act_step a env env' -> exists w Q, int_range w /\ env' = assign env x w /\
    (forall f, frame_ok f -> sees_all f d (VOff e) env vs -> Acts f n e e2 (fun _ => True) Q) /\
    forall K t, k_ok X D d (VOff e) K -> MRel X K env t -> Q t -> u t = w mod 65536) ->
  assigned d a e (put bs e2).
Proof.
  intros L RU L2 VO XT BA L' OK Ix IV DO IX DX SM. pose proof (ext_put bs e2 OK) as XP. split; [exact L'|]. split; [exact (ext_trans _ _ _ XT XP)|].
  split; [exact (still_trans _ _ _ (still_of _ _ L L2 RU BA VO) (put_still bs e2))|].
  intros P K env env' t EO SP KO OR LO M R IP. destruct (SM env env' EO SP) as (w & Q & IR & -> & AC & UQ).
  pose proof (ext_le _ _ XT) as XL. pose proof (ordered_le _ _ _ OR XL) as OR2. pose proof (match_app _ _ _ _ _ OR2 (or_introl (proj1 L')) (ext_app _ _ XP) M) as M2.
  eapply reaches_trans; [exact (acts_run_pre X D d (VOff e) K KO vs n (fun _ => True) P env e e2 Q t L RU L2 XT IX DX eq_refl AC OR LO M2 R IP I)|].
  cbv beta. intros t' (R' & IP' & QT). apply (store_run X D d (VOff e) K KO x Loc Val P env e2 bs w u); auto.
  - exact (UQ K t' KO R' QT).
  - lia.
Qed.
Lemma acts_none f n e (Q : state -> Prop) : (forall t, Q t) -> Acts f n e e (fun _ => True) Q.
Proof. intro H. apply acts_Acts. apply acts_here. auto. Qed.
Lemma assign_piece x Loc Val ex LX e s x0 s' : In x X -> int_var (dc s) (VOff e) x Loc Val -> good_exp ex -> incl (vars ex) X -> (depth ex <= D)%nat -> live e -> RegUse e = false ->
  (forall env v, env_ok env -> value env ex v -> Sem (dc s) env ex e (em s) v) -> assign_op W ch_eq VT_INT LX Val Loc s = Ok (x0, s') ->
  exists e', s' = set_em e' s /\ assigned (dc s) (ASet x ex) e e'.
Proof.
  intros Ix IV [WF (env0 & v0 & EO0 & V0)] IX DX L RU SM H. unfold assign_op in H.
  assert (LC := loc_cases _ _ _ _ _ IV).
  assert (HL : HandleLhsLvalLoc W Loc s = Ok (tt, s)) by (destruct LC as [->| ->]; reflexivity). rewrite (bind_ok _ _ _ _ _ HL) in H.
  change (VT_INT =? VT_STRUCT) with false in H. cbv iota in H. change (clr VT_INT VT_UNSIGNED =? VT_CHAR) with false in H. change (ch_eq =? ch_eq) with true in H. cbn [negb] in H. cbv zeta iota in H.
  assert (NL : (Loc =? 0) = false) by (destruct LC as [->| ->]; reflexivity). rewrite NL in H.
  minv H y s1 E. destruct (constant ex) eqn:C.
  - pose proof (SM env0 v0 EO0 V0) as (G & VO & XT & S). rewrite C in S. destruct S as (KI & T & CV).
    rewrite (lval_not W s) in E by (rewrite T; reflexivity). apply ok_inj in E. destruct E as [_ <-]. unfold gete in H. mgoin H. rewrite T in H. change (INTLIT =? INTLIT) with true in H. cbv iota in H.
    apply inem_inv in H. destruct H as (e' & E & ->). pose proof (kin_live _ _ KI L) as L1.
    assert (IVs : is_var (em s) Loc Val) by (apply (int_is_var (dc s) (em s) x); rewrite VO; exact IV).
    destruct (const_put W Loc Val (em s) e' _ L1 IVs E) as (bs & -> & L' & OK & DO). exists (put bs (em s)). split; [reflexivity|].
    apply (finish_piece (dc s) _ x Loc Val [] 0 e (em s) bs (fun _ => CurrentVal (em s) mod 65536)); auto; [exact (bal_kin _ _ KI)|intros z []|lia|].
    intros env env' EO (v & V & ->). destruct (SM env v EO V) as (_ & _ & _ & S2). rewrite C in S2. destruct S2 as (_ & _ & CV2).
    exists v, (fun _ => True). split; [exact (eval_range env ex v EO WF (proj1 V))|]. split; [reflexivity|]. split.
    + intros f _ _. apply (Acts_kin f 0 e e); [exact KI|]. apply acts_none. auto.
    + intros. congruence.
  - pose proof (lval_then (dc s) env0 ex e s y s1 v0 (proj1 V0) C (live_gen _ L) (SM env0 v0 EO0 V0) E) as [NI _].
    unfold gete in H. mgoin H. destruct (Z.eqb_spec (CurrentType (em s1)) INTLIT) as [|_]; [contradiction|]. minv H z s2 E2.
    assert (P : forall env v, env_ok env -> value env ex v -> exists e2, s2 = set_em e2 s /\ InReg (dc s) env ex e e2 v).
    { intros env v EO V. destruct (lval_then (dc s) env ex e s y s1 v (proj1 V) C (live_gen _ L) (SM env v EO V) E) as (_ & _ & _ & _ & _ & Q). exact (Q z s2 E2). }
    destruct (P env0 v0 EO0 V0) as (e2 & -> & IR). pose proof IR as (L2 & VO & XT & _ & BA & _).
    apply inem_inv in H. rewrite set_em_em in H. destruct H as (e' & E3 & ->).
    assert (IVs : is_var e2 Loc Val) by (apply (int_is_var (dc s) e2 x); rewrite VO; exact IV).
    destruct (store_put W Loc Val e2 e' _ L2 IVs E3) as (bs & -> & L' & OK & DO). exists (put bs e2). split; [destruct s; reflexivity|].
    apply (finish_piece (dc s) _ x Loc Val (vars ex) (depth ex) e e2 bs (fun t => ax (rg t))); auto.
    intros env env' EO (v & V & ->). destruct (P env v EO V) as (e3 & E4 & IR3). unfold set_em in E4. cbn [lx dc] in E4. injection E4 as <-.
    pose proof IR3 as (_ & _ & _ & _ & _ & AC).
    exists v, (fun t => ax (rg t) = v mod 65536). split; [exact (eval_range env ex v EO WF (proj1 V))|]. split; [reflexivity|]. split; [exact AC|auto].
Qed.

(** x o= ex *)
Lemma getval_same s : CurrentType (em s) = VT_INT -> GetVal W s = Ok (tt, s).
Proof.
  intro T. unfold GetVal, gete. rewrite bind_gets, T. change (VT_INT =? VT_BOOL) with false. cbv iota.
  rewrite (bind_ok _ _ s tt s) by (apply lval_not; rewrite T; reflexivity). rewrite bind_gets, T. reflexivity.
Qed.
Lemma place_piece o x Loc Val ex e s x0 s' : in_place o = true -> In x X -> int_var (dc s) (VOff e) x Loc Val -> good_exp ex -> incl (vars ex) X -> (depth ex <= D)%nat -> live e -> RegUse e = false ->
  (forall env v, env_ok env -> value env ex v -> Sem (dc s) env ex e (em s) v) ->
  (LvalToRval W ;; let! ct := gete CurrentType in
   if ct =? INTLIT then inem (EmitModrm W I_ALU_RM16_IMM16 (Z.shiftr (place_byte o) 3) Loc Val) ;; let! v := gete CurrentVal in ow W v
   else GetVal W ;; inem (EmitModrm W (place_byte o) R_AX Loc Val)) s = Ok (x0, s') ->
  exists e', s' = set_em e' s /\ assigned (dc s) (AOp o x ex) e e'.
Proof.
  intros IP Ix IV [WF (env0 & v0 & EO0 & V0)] IX DX L RU SM H.
  minv H y s1 E. destruct (constant ex) eqn:C.
  - pose proof (SM env0 v0 EO0 V0) as (G & VO & XT & S). rewrite C in S. destruct S as (KI & T & CV).
    rewrite (lval_not W s) in E by (rewrite T; reflexivity). apply ok_inj in E. destruct E as [_ <-]. unfold gete in H. mgoin H. rewrite T in H. change (INTLIT =? INTLIT) with true in H. cbv iota in H.
    pose proof (kin_live _ _ KI L) as L1. assert (IVs : is_var (em s) Loc Val) by (apply (int_is_var (dc s) (em s) x); rewrite VO; exact IV).
    assert (H2 : (inem (EmitModrm W I_ALU_RM16_IMM16 (Z.shiftr (place_byte o) 3) Loc Val) ;; ow W (CurrentVal (em s))) s = Ok (x0, s')).
    { minv H z s2 E2. mgoin H. rewrite (bind_ok _ _ _ _ _ E2). rewrite <- H. apply inem_inv in E2. destruct E2 as (e2 & E2 & ->). rewrite set_em_em. f_equal.
      apply rm_put in E2; auto; [|destruct o; try discriminate IP; cbn; lia]. destruct E2 as [-> _]. symmetry. apply put_cval. }
    apply (opimm_put W o Loc Val) in H2; auto. destruct H2 as (bs & -> & L' & OK & DO). exists (put bs (em s)). split; [reflexivity|].
    apply (finish_piece (dc s) _ x Loc Val [] 0 e (em s) bs (fun t => binval false o (var_get (em s) 2 Loc Val t) (CurrentVal (em s) mod 65536))); auto; [exact (bal_kin _ _ KI)|intros z []|lia|].
    intros env env' EO (b & v & V & A & _ & ->). destruct (SM env b EO V) as (_ & _ & _ & S2). rewrite C in S2. destruct S2 as (_ & _ & CV2).
    pose proof (eval_range env ex b EO WF (proj1 V)) as Rb.
    exists v, (fun _ => True). split; [exact (apply_range (Arith o) _ _ v (EO x) Rb A)|]. split; [reflexivity|]. split.
    + intros f _ _. apply (Acts_kin f 0 e e); [exact KI|]. apply acts_none. auto.
    + intros K t KO R _. rewrite (var_has X D (dc s) (VOff e) K KO x Loc Val env (em s) t VO Ix IV R), CV2. apply arith_word; auto. destruct o; try discriminate IP; exact I.
  - pose proof (lval_then (dc s) env0 ex e s y s1 v0 (proj1 V0) C (live_gen _ L) (SM env0 v0 EO0 V0) E) as [NI _].
    unfold gete in H. mgoin H. destruct (Z.eqb_spec (CurrentType (em s1)) INTLIT) as [|_]; [contradiction|]. minv H z s2 E2.
    assert (P : forall env v, env_ok env -> value env ex v -> exists e2, s2 = set_em e2 s /\ InReg (dc s) env ex e e2 v).
    { intros env v EO V. destruct (lval_then (dc s) env ex e s y s1 v (proj1 V) C (live_gen _ L) (SM env v EO V) E) as (_ & _ & _ & _ & _ & Q). exact (Q z s2 E2). }
    destruct (P env0 v0 EO0 V0) as (e2 & -> & IR). pose proof IR as (L2 & VO & XT & _ & BA & _).
    apply inem_inv in H. rewrite set_em_em in H. destruct H as (e' & E3 & ->).
    assert (IVs : is_var e2 Loc Val) by (apply (int_is_var (dc s) e2 x); rewrite VO; exact IV).
    destruct (opax_put W o Loc Val e2 e' _ IP L2 IVs E3) as (bs & -> & L' & OK & DO). exists (put bs e2). split; [destruct s; reflexivity|].
    apply (finish_piece (dc s) _ x Loc Val (vars ex) (depth ex) e e2 bs (fun t => binval false o (var_get e2 2 Loc Val t) (ax (rg t)))); auto.
    intros env env' EO (b & v & V & A & _ & ->). destruct (P env b EO V) as (e3 & E4 & IR3). unfold set_em in E4. cbn [lx dc] in E4. injection E4 as <-.
    pose proof IR3 as (_ & _ & _ & _ & _ & AC). pose proof (eval_range env ex b EO WF (proj1 V)) as Rb.
    exists v, (fun t => ax (rg t) = b mod 65536). split; [exact (apply_range (Arith o) _ _ v (EO x) Rb A)|]. split; [reflexivity|]. split; [exact AC|].
    intros K t KO R AX. rewrite (var_has X D (dc s) (VOff e) K KO x Loc Val env e2 t VO Ix IV R), AX. apply arith_word; auto. destruct o; try discriminate IP; exact I.
Qed.
Lemma far_piece o x Loc Val ex e s x0 s' : in_place o = false -> In x X -> int_var (dc s) (VOff e) x Loc Val -> good_exp ex -> (exists env env', env_ok env /\ act_step (AOp o x ex) env env') ->
  incl (vars ex) X -> (depth ex <= D)%nat -> live e -> RegUse e = false -> IsUnsignedOp (em s) = false ->
  (forall env v, env_ok env -> value env ex v -> Sem (dc s) env ex e (em s) v) ->
  (LvalToRval W ;; let! ct := gete CurrentType in
   when (negb (ct =? INTLIT)) (failif (negb (clr ct VT_UNSIGNED =? VT_INT)) ;; o1 W (Z.lor I_XCHG_AX R_CX)) ;;
   inem (EmitLoadAx W 2 Loc Val) ;;
   (if ct =? INTLIT then DoRhsConstBinOp W (bintok o) ;; upde (fun e => set_CurrentType (clr (CurrentType e) VT_LOCMASK) e) else DoBinOp W (bintok o) R_CX) ;;
   upde (fun e => set_LastZFInst (CodeAddress e) e) ;;
   inem (EmitStoreAx W 2 Loc Val)) s = Ok (x0, s') ->
  exists e', s' = set_em e' s /\ assigned (dc s) (AOp o x ex) e e'.
Proof.
  intros NP Ix IV [WF _] (env0 & env0' & EO0 & (b0 & v0 & V0 & A0 & RA0 & _)) IX DX L RU US SM H.
  assert (RT : forall a b, right_asn o x ex a b -> right_op (Arith o) (EVar x) ex a b) by (intros a b; destruct o; try discriminate NP; auto).
  minv H y s1 E. destruct (constant ex) eqn:C.
  - pose proof (SM env0 b0 EO0 V0) as (G & VO & XT & S). rewrite C in S. destruct S as (KI & T & CV).
    rewrite (lval_not W s) in E by (rewrite T; reflexivity). apply ok_inj in E. destruct E as [_ <-]. unfold gete in H. mgoin H. rewrite T in H. change (INTLIT =? INTLIT) with true in H. cbn [negb when] in H. mgoin H.
    pose proof (kin_live _ _ KI L) as L1. minv H z s2 E2. apply inem_inv in E2. destruct E2 as (e2 & E2 & ->).
    assert (IVs : int_var (dc s) (VOff (em s)) x Loc Val) by (rewrite VO; exact IV).
    destruct (load_acts W (dc s) _ x Loc Val (em s) e2 z L1 eq_refl IVs E2) as (GR2 & T2 & CV2 & U2 & AC2). rewrite T in T2. rewrite CV in CV2. rewrite US in U2.
    minv H z2 s3 E3. minv E3 z3 s4 E4.
    assert (CK : forall a b, right_asn o x ex a b -> const_ok (Arith o) a b).
    { intros a b Q. apply RT in Q. destruct o; try discriminate NP; cbn [right_op const_ok] in *; rewrite ?C in Q; auto. apply Q; reflexivity. }
    assert (P : forall env v, env_ok env -> apply_arith o (env x) b0 = Some v -> right_asn o x ex (env x) b0 ->
      exists e3, s4 = set_em e3 (set_em e2 s) /\ grown e2 e3 /\ CurrentType e3 = INTLIT /\ forall f, frame_ok f -> acts f e2 e3 (fun t => ax (rg t) = env x mod 65536) (fun t => ax (rg t) = v mod 65536)).
    { intros env v EO A RA. destruct (const_acts_gen W HW (Arith o) (set_em e2 s) z3 s4 (env x) b0 v) as (e3 & B1 & B2 & B3 & B4); rewrite ?set_em_em; auto.
      - apply GR2.
      - rewrite T2. discriminate.
      - exact (eval_range env0 ex b0 EO0 WF (proj1 V0)).
      - rewrite set_em_em in B2, B3, B4. exists e3. split; [exact B1|]. split; [exact B2|]. assert (T3 : CurrentType e3 = INTLIT) by (rewrite <- T2; exact B3). split; [exact T3|].
        intros f FO. eapply acts_imp; [exact (B4 f FO)|auto|]. intros t _ Q. unfold res in Q. rewrite T3 in Q. exact Q. }
    destruct (P env0 v0 EO0 A0 RA0) as (e3 & -> & GR3 & T3 & _). unfold upde in E3. oki E3. unfold upde in H. mgoin H.
    match type of H with inem _ ?ss = _ => set (s5 := ss) in *; set (e5 := em s5) in * end.
    assert (KE : kin e3 e5) by (repeat split). assert (ES : s5 = set_em e5 s) by (unfold e5, s5; destruct s; reflexivity). clearbody e5. clearbody s5.
    apply inem_inv in H. rewrite ES, set_em_em in H. destruct H as (e' & E5 & ->).
    pose proof (grown_kin _ _ _ KE (grown_trans _ _ _ GR2 GR3)) as GR5. pose proof GR5 as (L5 & VO5 & XT5 & _).
    assert (IV5 : is_var e5 Loc Val) by (apply (int_is_var (dc s) e5 x); rewrite VO5, VO; exact IV).
    destruct (store_put W Loc Val e5 e' _ L5 IV5 E5) as (bs & -> & L' & OK & DO). exists (put bs e5). split; [destruct s; reflexivity|].
    apply (finish_piece (dc s) _ x Loc Val [x] 0 e e5 bs (fun t => ax (rg t))); auto; [congruence|exact (ext_trans _ _ _ XT XT5)|exact (bal_trans _ _ _ (bal_kin _ _ KI) (grown_bal _ _ L1 GR5))|intros q [<-|[]]; exact Ix|lia|].
    intros env env' EO (b & v & V & A & RA & ->). destruct (SM env b EO V) as (_ & _ & _ & S2). rewrite C in S2. destruct S2 as (_ & _ & CVb). rewrite CV in CVb. subst b.
    destruct (P env v EO A RA) as (e3' & E3' & _ & _ & AC3). unfold set_em in E3'. cbn [lx dc] in E3'. injection E3' as <-.
    exists v, (fun t => ax (rg t) = v mod 65536). split; [exact (apply_range (Arith o) _ _ v (EO x) (eval_range env ex b0 EO WF (proj1 V)) A)|]. split; [reflexivity|]. split; [|auto].
    intros f FO SA. apply acts_Acts. apply (acts_kin_l f (em s)); [apply kin_sym; exact KI|]. apply (acts_kin f (em s) e3); [exact KE|].
    apply (acts_seq f (em s) e2 e3 _ (fun t => ax (rg t) = env x mod 65536)); [apply GR2|apply GR3| |exact (AC3 f FO)].
    apply acts_any. intro c. eapply acts_imp; [exact (AC2 f env c FO ltac:(rewrite VO; apply SA; left; reflexivity))|cbv beta; tauto|cbv beta; tauto].
  - destruct (lval_then (dc s) env0 ex e s y s1 b0 (proj1 V0) C (live_gen _ L) (SM env0 b0 EO0 V0) E) as (NI & TT & U1 & VO1 & D1 & _).
    unfold gete in H. mgoin H. destruct (Z.eqb_spec (CurrentType (em s1)) INTLIT) as [|_]; [contradiction|]. cbn [negb when] in H. minv H z s2 E2. minv E2 z2 s9 E9.
    assert (T1 : CurrentType (em s1) = VT_INT) by (destruct TT as [TT|TT]; [exact TT|]; rewrite TT in E9; discriminate E9).
    rewrite T1 in E9. apply ok_inj in E9. destruct E9 as [_ <-].
    assert (P : forall env v, env_ok env -> value env ex v -> exists e2, s1 = set_em e2 s /\ InReg (dc s) env ex e e2 v).
    { intros env v EO V. destruct (lval_then (dc s) env ex e s y s1 v (proj1 V) C (live_gen _ L) (SM env v EO V) E) as (_ & _ & _ & _ & _ & Q). exact (Q tt s1 (getval_same s1 T1)). }
    destruct (P env0 b0 EO0 V0) as (e1 & -> & IR). rewrite set_em_em in *. pose proof IR as (L1 & VO & XT & _ & BA & _).
    destruct (xchgcx_acts W (set_em e1 s) z s2) as (ES & GR2 & AC2); [exact L1|exact E2|]. rewrite set_em_em in GR2, AC2.
    set (e2 := put [145] e1) in *. assert (ES2 : s2 = set_em e2 s) by (rewrite ES; unfold e2, app_code; destruct s; reflexivity). rewrite ES2 in *. rewrite set_em_em in GR2, AC2. clear ES.
    assert (T2 : CurrentType e2 = VT_INT) by (unfold e2; rewrite put_ctype; exact T1). assert (U2 : IsUnsignedOp e2 = false) by (unfold e2; rewrite put_unsigned; congruence).
    clearbody e2. minv H z3 s3 E3. apply inem_inv in E3. rewrite set_em_em in E3. destruct E3 as (e3 & E3 & ->).
    assert (IV2 : int_var (dc s) (VOff e2) x Loc Val) by (destruct GR2 as (_ & -> & _); rewrite VO; exact IV).
    destruct (load_acts W (dc s) _ x Loc Val e2 e3 z3 (proj1 GR2) eq_refl IV2 E3) as (GR3 & T3 & _ & U3 & AC3). rewrite T2 in T3. rewrite U2 in U3.
    minv H z4 s4 E4. destruct z4. destruct (op_acts_gen W (Arith o) R_CX (set_em e3 (set_em e2 s)) s4) as (e4 & -> & GR4 & T4 & AC4); [left; reflexivity|apply GR3|exact U3|rewrite set_em_em, T3; discriminate|exact E4|]. change (CurrentType e4 = CurrentType e3) in T4. rewrite T3 in T4.
    rewrite set_em_em in GR4, AC4. unfold upde in H. mgoin H.
    match type of H with inem _ ?ss = _ => set (s5 := ss) in *; set (e5 := em s5) in * end.
    assert (KE : kin e4 e5) by (repeat split). assert (ES : s5 = set_em e5 s) by (unfold e5, s5; destruct s; reflexivity). clearbody e5. clearbody s5.
    apply inem_inv in H. rewrite ES, set_em_em in H. destruct H as (e' & E5 & ->).
    pose proof (grown_kin _ _ _ KE (grown_trans _ _ _ GR2 (grown_trans _ _ _ GR3 GR4))) as GR5. pose proof GR5 as (L5 & VO5 & XT5 & _).
    assert (IV5 : is_var e5 Loc Val) by (apply (int_is_var (dc s) e5 x); rewrite VO5, VO; exact IV).
    destruct (store_put W Loc Val e5 e' _ L5 IV5 E5) as (bs & -> & L' & OK & DO). exists (put bs e5). split; [destruct s; reflexivity|].
    apply (finish_piece (dc s) _ x Loc Val (x :: vars ex) (depth ex) e e5 bs (fun t => ax (rg t))); auto; [congruence|exact (ext_trans _ _ _ XT XT5)|exact (bal_trans _ _ _ BA (grown_bal _ _ L1 GR5))|intros q [<-|I2]; [exact Ix|apply IX; exact I2]|].
    intros env env' EO (b & v & V & A & RA & ->). destruct (P env b EO V) as (e1' & E1' & IR'). unfold set_em in E1'. cbn [lx dc] in E1'. injection E1' as <-. pose proof IR' as (_ & _ & _ & _ & _ & AC1).
    pose proof (eval_range env ex b EO WF (proj1 V)) as Rb.
    assert (DK : div_ok (Arith o) (env x) b) by (apply RT in RA; destruct o; try discriminate NP; cbn [right_op div_ok] in *; rewrite ?C in RA; auto).
    exists v, (fun t => ax (rg t) = v mod 65536). split; [exact (apply_range (Arith o) _ _ v (EO x) Rb A)|]. split; [reflexivity|]. split; [|auto].
    intros f FO SA. apply (Acts_kin f _ e e4); [exact KE|].
    apply (Acts_seq f (depth ex) e e1 e4 _ (fun t => ax (rg t) = b mod 65536)); [exact XT|exact (ext_trans _ _ _ (proj1 (proj2 (proj2 GR2))) (ext_trans _ _ _ (proj1 (proj2 (proj2 GR3))) (proj1 (proj2 (proj2 GR4)))))| |].
    { apply (AC1 f FO). intros q Iq. apply SA. right. exact Iq. }
    apply acts_Acts. apply (acts_seq f e1 e2 e4 _ (fun t => cx (rg t) = b mod 65536)); [apply GR2|exact (ext_trans _ _ _ (proj1 (proj2 (proj2 GR3))) (proj1 (proj2 (proj2 GR4))))| |].
    { apply acts_any. intro c. eapply acts_imp; [exact (AC2 f (b mod 65536) c FO)|cbv beta; tauto|cbv beta; tauto]. }
    apply (acts_seq f e2 e3 e4 _ (fun t => ax (rg t) = env x mod 65536 /\ cx (rg t) = b mod 65536)); [apply GR3|apply GR4| |].
    { apply (AC3 f env (b mod 65536) FO). destruct GR2 as (_ & -> & _). rewrite VO. apply SA. left. reflexivity. }
    eapply acts_imp; [exact (AC4 f (env x) b v FO (EO x) Rb A DK)|auto|]. intros t _ Q. unfold res in Q. rewrite T4 in Q. exact Q.
Qed.
Lemma op_piece o x Loc Val ex LX e s x0 s' : In x X -> int_var (dc s) (VOff e) x Loc Val -> good_exp ex -> (exists env env', env_ok env /\ act_step (AOp o x ex) env env') ->
  incl (vars ex) X -> (depth ex <= D)%nat -> live e -> RegUse e = false -> IsUnsignedOp (em s) = false ->
  (forall env v, env_ok env -> value env ex v -> Sem (dc s) env ex e (em s) v) -> assign_op W (bintok o) VT_INT LX Val Loc s = Ok (x0, s') ->
  exists e', s' = set_em e' s /\ assigned (dc s) (AOp o x ex) e e'.
Proof.
  intros Ix IV GE SN IX DX L RU US SM H. unfold assign_op in H.
  assert (LC := loc_cases _ _ _ _ _ IV).
  assert (HL : HandleLhsLvalLoc W Loc s = Ok (tt, s)) by (destruct LC as [->| ->]; reflexivity). rewrite (bind_ok _ _ _ _ _ HL) in H.
  assert (N1 : (bintok o =? ch_eq) = false) by (destruct o; reflexivity).
  change (VT_INT =? VT_STRUCT) with false in H. cbv iota in H. change (clr VT_INT VT_UNSIGNED =? VT_CHAR) with false in H. rewrite N1 in H. cbn [negb] in H. cbv zeta iota in H.
  assert (NL : (Loc =? 0) = false) by (destruct LC as [->| ->]; reflexivity). rewrite NL in H. cbn [when] in H.
  destruct GE as [WF (env0 & v0 & EO0 & V0)]. minv H y s1 E. rewrite (bind_ok _ _ s1 tt s1) in H by reflexivity.
  assert (U1 : IsUnsignedOp (em s1) = false).
  { destruct (constant ex) eqn:C.
    - pose proof (SM env0 v0 EO0 V0) as (G & VO & XT & S). rewrite C in S. destruct S as (KI & T & CV).
      rewrite (lval_not W s) in E by (rewrite T; reflexivity). apply ok_inj in E. destruct E as [_ <-]. exact US.
    - destruct (lval_then (dc s) env0 ex e s y s1 v0 (proj1 V0) C (live_gen _ L) (SM env0 v0 EO0 V0) E) as (_ & _ & U1 & _). congruence. }
  unfold gete, GetSimpleALU in H. unfold gete in H. mgoin H. rewrite U1 in H. destruct (in_place o) eqn:IP.
  - rewrite (place_inst o IP) in H. assert (NZ : (place_byte o =? 0) = false) by (destruct o; try discriminate IP; reflexivity).
    change (2 =? 2) with true in H. rewrite NZ in H. cbn [negb andb] in H. minv H y2 s2 E2. mgoin H. unfold setT, setV, upde in H. mgoin H. oki H.
    destruct (place_piece o x Loc Val ex e s y2 s2 IP Ix IV (conj WF (ex_intro _ env0 (ex_intro _ v0 (conj EO0 V0)))) IX DX L RU SM) as (e' & -> & A).
    { rewrite (bind_ok _ _ _ _ _ E). unfold gete. rewrite bind_gets. exact E2. }
    eexists. split; [destruct s; reflexivity|]. apply (assigned_kin _ _ _ e'); [exact A|]. repeat split.
  - rewrite (place_none o IP) in H. change ((2 =? 2) && negb (0 =? 0)) with false in H. change (2 =? 1) with false in H. cbn [when] in H. cbv iota in H.
    apply (far_piece o x Loc Val ex e s x0 s' IP Ix IV (conj WF (ex_intro _ env0 (ex_intro _ v0 (conj EO0 V0)))) SN IX DX L RU US SM).
    rewrite (bind_ok _ _ _ _ _ E). unfold gete. rewrite bind_gets. minv H z s3 E3. rewrite (bind_ok _ _ _ _ _ E3). minv H z4 s4 E4. rewrite (bind_ok _ _ _ _ _ E4). mgoin H. exact H.
Qed.
(** x++ and the like *)
Lemma inc_piece pre up x Loc Val e s x0 s' : In x X -> int_var (dc s) (VOff e) x Loc Val -> live e -> RegUse e = false -> kin e (em s) -> lvar (em s) Loc Val ->
  DoIncDecOp W (inc_tok up) (negb pre) s = Ok (x0, s') -> exists e', s' = set_em e' s /\ assigned (dc s) (AInc pre up x) e e'.
Proof.
  intros Ix IV L RU KI [LT LV] H. unfold DoIncDecOp, gete in H. mgoin H. rewrite LT in H.
  assert (LC := loc_cases _ _ _ _ _ IV).
  assert (Q1 : hasb (VT_INT + VT_LVAL + Loc) VT_LVAL = true /\ (Z.land (VT_INT + VT_LVAL + Loc) (Z.lor VT_BASEMASK VT_PTRMASK) =? VT_CHAR) = false /\ hasb (VT_INT + VT_LVAL + Loc) VT_PTRMASK = false /\
    Z.land (VT_INT + VT_LVAL + Loc) VT_LOCMASK = Loc /\ (Loc =? 0) = false) by (destruct LC as [->| ->]; repeat split).
  destruct Q1 as (Q1 & Q2 & Q3 & Q4 & Q5). cbv zeta in H. rewrite Q1, Q2, Q3, Q4, Q5 in H. cbn [negb failif when] in H. rewrite (bind_ok _ _ s tt s) in H by reflexivity.
  rewrite (bind_ok _ _ s 1 s) in H by reflexivity. change (1 <? 1) with false in H. cbv iota in H. mgoin H.
  minv H y s1 E. mgoin H. pose proof (kin_live _ _ KI L) as L0. pose proof KI as (K1 & K2 & K3 & K4 & K5 & K6 & K7 & K8).
  assert (IVs : int_var (dc s) (VOff (em s)) x Loc Val) by (rewrite K6; exact IV).
  assert (P1 : exists e1, s1 = set_em e1 s /\ grown (em s) e1 /\ CurrentVal e1 = Val /\ forall f env, frame_ok f -> sees_all f (dc s) (VOff e) env [x] -> Acts f 0 (em s) e1 (fun _ => True) (fun _ => True)).
  { destruct pre; cbn [negb when] in E.
    - oki E. exists (em s). split; [destruct s; reflexivity|]. split; [exact (grown_refl _ L0)|]. split; [exact LV|]. intros. apply acts_none. auto.
    - mgoin E. rewrite LV in E. minv E z s2 E2. change (1 + zb true) with 2 in E2. apply inem_inv in E2. destruct E2 as (e2 & E2 & ->).
      destruct (load_acts W (dc s) _ x Loc Val (em s) e2 z L0 eq_refl IVs E2) as (GR2 & T2 & CV2 & U2 & AC2). mgoin E. unfold setT, upde in E. oki E. rewrite set_em_em.
      eexists. split; [destruct s; reflexivity|]. split; [apply (grown_kin _ e2); [repeat split|exact GR2]|]. split; [exact (eq_trans CV2 LV)|].
      intros f env FO SA. apply (Acts_kin f 0 (em s) e2); [repeat split|]. apply acts_Acts. apply acts_any. intro c.
      eapply acts_imp; [exact (AC2 f env c FO ltac:(rewrite K6; apply SA; left; reflexivity))|cbv beta; tauto|auto]. }
  destruct P1 as (e1 & -> & GR & CV & AC). rewrite set_em_em in H. rewrite CV in H. apply inem_inv in H. rewrite set_em_em in H. destruct H as (e' & H & ->). pose proof GR as (L1 & VO1 & XT1 & _).
  assert (IV1 : is_var e1 Loc Val) by (apply (int_is_var (dc s) e1 x); rewrite VO1; exact IVs).
  assert (TK : zb (inc_tok up =? TOK_MINUSMINUS) = zb (negb up)) by (destruct up; reflexivity). rewrite TK in H. change (Z.lor 254 (zb true)) with 255 in H.
  destruct (inc_put W up Loc Val e1 e' _ L1 IV1 H) as (bs & -> & L' & OK & DO). exists (put bs e1). split; [destruct s; reflexivity|].
  apply (finish_piece (dc s) _ x Loc Val [x] 0 e e1 bs (fun t => (var_get e1 2 Loc Val t + (if up then 1 else -1)) mod 65536)); auto; [congruence|exact (ext_trans _ _ _ (ext_kin _ _ KI) XT1)|exact (bal_trans _ _ _ (bal_kin _ _ KI) (grown_bal _ _ L0 GR))|intros q [<-|[]]; exact Ix|lia|].
  intros env env' EO (v & A & ->). apply int16_some in A. destruct A as [EV RV]. rewrite <- EV in RV. exists v, (fun _ => True). split; [exact RV|]. split; [reflexivity|]. split.
  - intros f FO SA. apply (Acts_kin_l f 0 (em s)); [apply kin_sym; exact KI|]. exact (AC f env FO SA).
  - intros K t KO R _. rewrite (var_has X D (dc s) (VOff e) K KO x Loc Val env e1 t ltac:(congruence) Ix IV R), EV. apply Zplus_mod_idemp_l.
Qed.
Lemma Sem_from d env ex e e0 e1 v : kin e e0 -> Sem d env ex e0 e1 v -> Sem d env ex e e1 v.
Proof.
  intros K (G & VO & XT & S). pose proof K as (K1 & K2 & K3 & K4 & K5 & K6 & K7 & K8).
  split; [exact G|]. split; [congruence|]. split; [exact (ext_trans _ _ _ (ext_kin _ _ K) XT)|]. destruct (constant ex).
  - split; [exact (kin_trans _ _ _ K (proj1 S))|apply S].
  - destruct (kvar ex).
    + destruct S as (S1 & Loc & Val & S2 & S3). split; [exact (kin_trans _ _ _ K S1)|]. exists Loc, Val. rewrite <- K6. auto.
    + destruct S as (S1 & S2 & (S4 & S5) & S3). split; [exact S1|]. split; [exact S2|]. split; [split; [exact (bal_trans _ _ _ (bal_kin _ _ K) S4)|exact S5]|].
      intros f FO SA. apply (Acts_kin_l f _ e0); [apply kin_sym; exact K|]. apply S3; [exact FO|]. rewrite K6. exact SA.
Qed.
(** with an operator or without *)
Definition tok_of (k : option binop) : Z := match k with None => ch_eq | Some o => asn_tok o end.
Definition opr_of (k : option binop) : Z := match k with None => ch_eq | Some o => bintok o end.
Definition act_of (k : option binop) (x : Z) (ex : exp) : act := match k with None => ASet x ex | Some o => AOp o x ex end.
Lemma asn_core k n x Loc Val ex e s x0 s' rest : good_act (act_of k x ex) -> In x X -> int_var (dc s) (VOff e) x Loc Val -> incl (vars ex) X -> (depth ex <= D)%nat -> decls (dc s) (VOff e) ->
  live e -> RegUse e = false -> kin e (em s) -> lvar (em s) Loc Val ->
  stream W F (lx s) ((tok_of k, PREC_ASSIGN, 0) :: toks ex ++ rest) -> ends rest -> prec_over PREC_COMMA rest -> pExpr1 (tie W F n) PREC_COMMA s = Ok (x0, s') ->
  exists e' l', s' = set_lx l' (set_em e' s) /\ stream W F l' rest /\ assigned (dc s) (act_of k x ex) e e'.
Proof.
  intros GA Ix IV IX DX DC L RU KI LV ST EN PO H. assert (GE : good_exp ex) by (destruct k; apply GA). destruct n as [|n]; [discriminate H|]. cbn [tie pExpr1] in H. unfold ParseExpr1 in H. minv H y s9 E.
  unfold expr1_body, getl in E. mgoin E. pose proof ST as (T & P & _). cbn [t_type t_prec fst snd] in T, P. rewrite T, P in E.
  assert (NT : toks ex ++ rest <> []) by (destruct rest; [destruct EN|]; intro Q; apply app_eq_nil in Q; destruct Q as [_ Q]; discriminate Q).
  destruct (stream_next _ _ _ _ _ ST NT) as (l1 & G1 & ST1). unfold next in E. rewrite (bind_ok _ _ _ _ _ G1) in E.
  assert (TQ : (tok_of k =? ch_quest) = false /\ (opr_of k =? TOK_OROR) = false /\ (opr_of k =? TOK_ANDAND) = false /\ (opr_of k =? ch_comma) = false) by (destruct k as [[]|]; repeat split).
  destruct TQ as (TQ1 & TQ2 & TQ3 & TQ4).
  assert (RA : forall st, (if tok_of k =? ch_eq then ret (tok_of k) else RemoveAssign (tok_of k)) st = Ok (opr_of k, st)) by (intro; destruct k as [[]|]; reflexivity).
  rewrite TQ1 in E. change (PREC_ASSIGN =? PREC_ASSIGN) with true in E. cbv iota in E. set (s1 := set_lx l1 s) in *.
  unfold gete, setT, upde in E. mgoin E. change (em s1) with (em s) in E. destruct LV as [LT LVal].
  assert (LC := loc_cases _ _ _ _ _ IV).
  assert (Q1 : hasb (VT_INT + VT_LVAL + Loc) VT_LVAL = true /\ clr (VT_INT + VT_LVAL + Loc) VT_LVAL = VT_INT + Loc /\ (VT_INT + Loc =? VT_BOOL) = false /\ hasb (VT_INT + Loc) VT_LOCMASK = true /\
    Z.land (VT_INT + Loc) VT_LOCMASK = Loc /\ clr (VT_INT + Loc) VT_LOCMASK = VT_INT /\ (Loc =? VT_LOCLIT) = false) by (destruct LC as [->| ->]; repeat split).
  destruct Q1 as (Q1 & Q2 & Q3 & Q4 & Q5 & Q6 & Q7). rewrite LT, Q1, Q2 in E. cbn [negb failif] in E. rewrite (bind_ok _ _ s1 tt s1) in E by reflexivity.
  mgoin E. change (em s1) with (em s) in E. set (e2 := set_CurrentType (VT_INT + Loc) (em s)) in *. set (s2 := set_em e2 s1) in *.
  rewrite (bind_ok _ _ _ _ _ (RA s2)) in E. rewrite TQ2, TQ3 in E. cbn [orb] in E. cbv iota zeta in E.
  mgoin E. change (CurrentType (em s2)) with (VT_INT + Loc) in E. rewrite Q3 in E. cbn [when] in E. mgoin E. change (CurrentType (em s2)) with (VT_INT + Loc) in E. rewrite Q4 in E. cbn [negb andb when] in E. mgoin E.
  change (CurrentType (em s2)) with (VT_INT + Loc) in E. change (CurrentVal (em s2)) with (CurrentVal (em s)) in E. rewrite LVal, Q5, Q6, Q7 in E. cbn [andb] in E.
  rewrite TQ4 in E. cbv iota in E.
  rewrite <- bind_assoc in E. minv E y2 s3 E2.
  assert (K2 : kin e e2) by (apply (kin_trans _ _ _ KI); apply set_type_kin). pose proof (kin_live _ _ K2 L) as L2. pose proof K2 as (_ & _ & _ & _ & _ & VO2 & _).
  assert (DC2 : decls (dc s2) (VOff (em s2))) by (change (VOff (em s2)) with (VOff e2); rewrite VO2; exact DC).
  destruct (rhs_piece n ex s2 y2 s3 rest GE IX DC2 (live_gen _ L2) ST1 EN PO E2) as (e3 & l3 & -> & ST3 & SM).
  change (0 <=? -1) with false in E. cbv iota in E. mgoin E. change (em (set_lx l3 (set_em e3 s2))) with e3 in E. 
  match type of E with assign_op _ _ _ _ _ _ (set_em ?ee ?ss) = _ => set (e4 := ee) in *; set (s4 := set_em e4 ss) in * end.
  assert (K4 : kin e3 e4) by (repeat split).
  assert (SM4 : forall env v, env_ok env -> value env ex v -> Sem (dc s4) env ex e (em s4) v).
  { intros env v EO V. apply (Sem_from _ _ _ _ e2 _ _ K2). apply (Sem_same _ _ _ _ e3 e4); [exact (SM env v EO V)|exact K4|reflexivity|reflexivity]. }
  assert (US : IsUnsignedOp (em s4) = false).
  { destruct GE as [_ (env0 & v0 & EO0 & V0)]. change (IsUnsignedOp (em s4)) with ((VT_INT =? VT_UNSIGNED + VT_INT) || (Z.land (CurrentType e3) (Z.lor (Z.lor VT_UNSIGNED VT_PTRMASK) VT_BASEMASK) =? VT_UNSIGNED + VT_INT)).
    change (VT_INT =? VT_UNSIGNED + VT_INT) with false. cbn [orb]. pose proof (SM env0 v0 EO0 V0) as SM0. destruct (constant ex) eqn:C.
    - pose proof SM0 as (_ & _ & _ & S). rewrite C in S. destruct S as (_ & -> & _). reflexivity.
    - destruct (sem_type _ _ _ _ _ _ SM0 C) as [_ NQ]. apply Z.eqb_neq. exact NQ. }
  assert (AP : exists e', s9 = set_em e' s4 /\ assigned (dc s) (act_of k x ex) e e').
  { destruct k as [o|].
    - destruct GA as (_ & _ & env0 & env1 & EO0 & SP0).
      exact (op_piece o x Loc Val ex _ e s4 y s9 Ix IV GE (ex_intro _ env0 (ex_intro _ env1 (conj EO0 SP0))) IX DX L RU US SM4 E).
    - exact (assign_piece x Loc Val ex _ e s4 y s9 Ix IV GE IX DX L RU SM4 E). }
  destruct AP as (e' & -> & A).
  assert (ST9 : stream W F (lx (set_em e' s4)) rest) by exact ST3. unfold getl in H. mgoin H.
  assert (PR : OperatorPrecedence (lx (set_em e' s4)) <=? PREC_COMMA = false).
  { destruct rest as [|t rest]; [destruct EN|]. destruct ST9 as (_ & P9 & _). rewrite P9. cbn [prec_over] in PO. apply Z.leb_gt. exact PO. }
  rewrite PR in H. oki H. exists e', l3. split; [unfold s4, s2, s1; destruct s; reflexivity|]. split; [exact ST3|exact A].
Qed.
(** as an expression *)
Lemma set_toks k x ex : atoks (act_of k x ex) = kw (TOK_KEYWORD + x) :: (tok_of k, PREC_ASSIGN, 0) :: toks ex.
Proof. destruct k; reflexivity. Qed.
Lemma set_expr k n x ex s x0 s' rest : good_act (act_of k x ex) -> In x X -> incl (vars ex) X -> (depth ex <= D)%nat -> decls (dc s) (VOff (em s)) -> live (em s) -> RegUse (em s) = false ->
  stream W F (lx s) (atoks (act_of k x ex) ++ rest) -> ends rest -> prec_over PREC_COMMA rest -> pExpr (tie W F n) s = Ok (x0, s') ->
  exists e' l', s' = set_lx l' (set_em e' s) /\ stream W F l' rest /\ assigned (dc s) (act_of k x ex) (em s) e'.
Proof.
  intros GA Ix IX DX DC L RU ST EN PO H. rewrite set_toks in ST. destruct n as [|n]; [discriminate H|]. cbn [tie pExpr] in H. unfold ParseExpr in H. minv H y s1 E.
  set (env := fun _ : Z => 0). assert (EO : env_ok env) by (intro; unfold env, int_range; lia).
  destruct (parses W F HW (dc s) env EO n) as (PC & _ & _ & _). cbn [Datatypes.app] in ST.
  assert (GD : Good (dc s) env (EVar x) 0 (VOff (em s))).
  { split; [cbn [wf_exp]; destruct (DC x Ix) as [TX _]; unfold TOK_ID, TOK_KEYWORD in TX; lia|]. split; [reflexivity|]. split; [exact I|]. intros z [<-|[]]. apply DC. exact Ix. }
  assert (E1 : ends ((tok_of k, PREC_ASSIGN, 0) :: toks ex ++ rest)) by (left; discriminate).
  pose proof (PC (EVar x) 0 s y s1 ((tok_of k, PREC_ASSIGN, 0) :: toks ex ++ rest) GD eq_refl eq_refl (live_gen _ L) ST E1 E) as (e1 & l1 & -> & ST1 & (_ & _ & _ & KI & Loc & Val & IV & LV)).
  unfold getl in H. mgoin H. assert (ST1' : stream W F (lx (set_lx l1 (set_em e1 s))) ((tok_of k, PREC_ASSIGN, 0) :: toks ex ++ rest)) by exact ST1. pose proof ST1' as (_ & P1 & _). cbn [t_prec fst snd] in P1. rewrite P1 in H.
  change (PREC_ASSIGN <=? PREC_COMMA) with true in H. cbn [when] in H.
  destruct (asn_core k n x Loc Val ex (em s) (set_lx l1 (set_em e1 s)) x0 s' rest GA Ix IV IX DX DC L RU KI LV ST1' EN PO H) as (e' & l' & -> & ST2 & A).
  exists e', l'. split; [destruct s; reflexivity|]. split; [exact ST2|exact A].
Qed.

(** x++ *)
Lemma post_inc n up x Loc Val e s x0 s' rest : In x X -> int_var (dc s) (VOff e) x Loc Val -> live e -> RegUse e = false -> kin e (em s) -> lvar (em s) Loc Val ->
  stream W F (lx s) (kw (inc_tok up) :: rest) -> ends rest -> pPostfix (tie W F n) s = Ok (x0, s') ->
  exists e' l', s' = set_lx l' (set_em e' s) /\ stream W F l' rest /\ assigned (dc s) (AInc false up x) e e'.
Proof.
  intros Ix IV L RU KI LV ST EN H. destruct n as [|n]; [discriminate H|]. cbn [tie pPostfix] in H. unfold ParsePostfixExpression, getl in H. mgoin H.
  pose proof ST as (T & P & _). cbn [t_type t_prec fst snd kw] in T, P. rewrite P in H. change (negb (PREC_STOP =? PREC_STOP)) with false in H. cbv iota in H. mgoin H. rewrite T in H.
  assert (B : DoIncDecOp W (inc_tok up) true s = DoIncDecOp W (inc_tok up) (negb false) s) by reflexivity.
  assert (H2 : (DoIncDecOp W (inc_tok up) true ;; next W F ;; pPostfix (tie W F n)) s = Ok (x0, s')) by (destruct up; exact H). clear H. minv H2 y s1 E.
  destruct (inc_piece false up x Loc Val e s y s1 Ix IV L RU KI LV E) as (e' & -> & A).
  assert (ST1 : stream W F (lx (set_em e' s)) (kw (inc_tok up) :: rest)) by exact ST.
  destruct (stream_next _ _ _ _ _ ST1 (ends_nil _ EN)) as (l1 & G1 & ST2). unfold next in H2. rewrite (bind_ok _ _ _ _ _ G1) in H2.
  apply (postfix_ends W F n _ _ _ rest) in H2; [|exact ST2|exact EN]. subst s'. exists e', l1. auto.
Qed.
Lemma inc_unary n pre up x s x0 s' rest : In x X -> decls (dc s) (VOff (em s)) -> live (em s) -> RegUse (em s) = false ->
  stream W F (lx s) (atoks (AInc pre up x) ++ rest) -> ends rest -> pUnary (tie W F n) s = Ok (x0, s') ->
  exists e' l', s' = set_lx l' (set_em e' s) /\ stream W F l' rest /\ assigned (dc s) (AInc pre up x) (em s) e'.
Proof.
  intros Ix DC L RU ST EN H. destruct n as [|n]; [discriminate H|]. cbn [tie pUnary] in H. unfold ParseUnaryExpression, getl in H. mgoin H.
  destruct (DC x Ix) as (TX & _). assert (DX : declared (dc s) (VOff (em s)) (EVar x)) by (intros z [<-|[]]; apply DC; exact Ix).
  destruct pre; cbn [atoks Datatypes.app] in ST; pose proof ST as (T & _); cbn [t_type fst snd kw] in T; rewrite T in H.
  - assert (H2 : (next W F ;; pUnary (tie W F n) ;; DoIncDecOp W (inc_tok up) false) s = Ok (x0, s')) by (destruct up; exact H). clear H.
    destruct (stream_next _ _ _ _ _ ST ltac:(discriminate)) as (l1 & G1 & ST1). unfold next in H2. rewrite (bind_ok _ _ _ _ _ G1) in H2. minv H2 y s1 E.
    set (env := fun _ : Z => 0). assert (EO : env_ok env) by (intro; unfold env, int_range; lia).
    destruct (parses W F HW (dc s) env EO n) as (_ & PU & _ & _).
    assert (GD : Good (dc s) env (EVar x) 0 (VOff (em s))).
    { split; [cbn [wf_exp]; unfold TOK_ID, TOK_KEYWORD in TX; lia|]. split; [reflexivity|]. split; [exact I|exact DX]. }
    pose proof (PU (EVar x) 0 (set_lx l1 s) y s1 rest GD eq_refl ltac:(discriminate) eq_refl (live_gen _ L) ST1 EN E) as (e2 & l2 & -> & ST2 & (_ & _ & _ & KI & Loc & Val & IV & LV)).
    destruct (inc_piece true up x Loc Val (em s) (set_lx l2 (set_em e2 (set_lx l1 s))) x0 s' Ix IV L RU KI LV H2) as (e' & -> & A).
    exists e', l2. split; [destruct s; reflexivity|]. split; [exact ST2|exact A].
  - unfold TOK_ID, TOK_KEYWORD in TX. assert (NE : forall y, y < 187 -> (TOK_KEYWORD + x =? y) = false) by (intros; unfold TOK_KEYWORD; lia).
    rewrite !NE in H by reflexivity. cbn [orb] in H. minv H y s1 E.
    destruct (var_primary W F (dc s) n x s y s1 (kw (inc_tok up) :: rest) DX eq_refl ST ltac:(discriminate) E) as (Loc & Val & e1 & l1 & IV & -> & ST1 & KI & LV).
    destruct (post_inc n up x Loc Val (em s) (set_lx l1 (set_em e1 s)) x0 s' rest Ix IV L RU KI LV ST1 EN H) as (e' & l' & -> & ST2 & A).
    exists e', l'. split; [destruct s; reflexivity|]. split; [exact ST2|exact A].
Qed.
Lemma inc_expr n pre up x s x0 s' rest : In x X -> decls (dc s) (VOff (em s)) -> live (em s) -> RegUse (em s) = false ->
  stream W F (lx s) (atoks (AInc pre up x) ++ rest) -> ends rest -> prec_over PREC_COMMA rest -> pExpr (tie W F n) s = Ok (x0, s') ->
  exists e' l', s' = set_lx l' (set_em e' s) /\ stream W F l' rest /\ assigned (dc s) (AInc pre up x) (em s) e'.
Proof.
  intros Ix DC L RU ST EN PO H. destruct n as [|[|n]]; [discriminate H|discriminate H|]. cbn [tie pExpr] in H. unfold ParseExpr in H. minv H y s1 E.
  cbn [pCast] in E. unfold ParseCastExpression, getl in E. mgoin E.
  assert (NP : (TokenType (lx s) =? ch_lpar) = false).
  { destruct (DC x Ix) as (TX & _). unfold TOK_ID, TOK_KEYWORD in TX. destruct pre; cbn [atoks Datatypes.app] in ST; destruct ST as (T & _); cbn [t_type fst snd kw] in T; rewrite T; [destruct up; reflexivity|].
    apply Z.eqb_neq. unfold TOK_KEYWORD, ch_lpar. lia. }
  rewrite NP in E. destruct (inc_unary n pre up x s y s1 rest Ix DC L RU ST EN E) as (e' & l' & -> & ST1 & A).
  unfold getl in H. mgoin H. assert (ST9 : stream W F (lx (set_lx l' (set_em e' s))) rest) by exact ST1.
  assert (PR : OperatorPrecedence (lx (set_lx l' (set_em e' s))) <=? PREC_COMMA = false).
  { destruct rest as [|t rest]; [destruct EN|]. destruct ST9 as (_ & P9 & _). rewrite P9. cbn [prec_over] in PO. apply Z.leb_gt. exact PO. }
  rewrite PR in H. cbn [when] in H. oki H. exists e', l'. auto.
Qed.
Lemma asn_expr n a s x0 s' rest : good_act a -> incl (act_vars a) X -> (act_depth a <= D)%nat -> decls (dc s) (VOff (em s)) -> live (em s) -> RegUse (em s) = false ->
  stream W F (lx s) (atoks a ++ rest) -> ends rest -> prec_over PREC_COMMA rest -> pExpr (tie W F n) s = Ok (x0, s') ->
  exists e' l', s' = set_lx l' (set_em e' s) /\ stream W F l' rest /\ assigned (dc s) a (em s) e'.
Proof.
  intros GA IX DX DC L RU ST EN PO H. destruct a as [x ex|o x ex|pre up x]; cbn [act_vars act_depth] in *.
  - apply (set_expr None n x ex s x0 s' rest GA (IX x (or_introl eq_refl))); auto. intros z Iz. apply IX. right. exact Iz.
  - apply (set_expr (Some o) n x ex s x0 s' rest GA (IX x (or_introl eq_refl))); auto. intros z Iz. apply IX. right. exact Iz.
  - apply (inc_expr n pre up x s x0 s' rest (IX x (or_introl eq_refl))); auto.
Qed.

(** as a statement *)
Lemma primary_id x Loc Val e s y s' : CurrentVal (em s) = x -> kin e (em s) -> int_var (dc s) (VOff e) x Loc Val -> HandlePrimaryId s = Ok (y, s') ->
  exists e', s' = set_em e' s /\ kin e e' /\ lvar e' Loc Val.
Proof.
  intros CV KI IV E. unfold HandlePrimaryId, gete, getd in E. mgoin E. rewrite CV in E. pose proof KI as (_ & _ & _ & _ & _ & VO & _).
  pose proof IV as (NZ & VT & LC). destruct (Z.eqb_spec (aget (VarLookup (dc s)) x) 0) as [|_]; [contradiction|]. cbv zeta in E. mgoin E. rewrite VO in E. unfold upde in E. mgoin E.
  set (v := aget (VarLookup (dc s)) x - 1) in *.
  match type of E with context [dc ?st] => change (dc st) with (dc s) in E end. rewrite VT in E.
  set (e1 := set_CurrentVal (aget (VOff e) v) (em s)) in *. set (t1 := set_em e1 s) in *. set (ty := Z.lor (VT_INT + Loc) VT_LVAL) in *.
  set (e2 := set_CurrentType ty (em t1)) in *. set (t2 := set_em e2 t1) in *.
  assert (TY : ty = VT_INT + VT_LVAL + Loc /\ Z.land ty VT_LOCMASK = Loc) by (unfold ty; destruct (loc_cases _ _ _ _ _ IV) as [->| ->]; split; reflexivity).
  destruct TY as [TY1 TY2]. rewrite TY2 in E. destruct LC as [[-> ->]|(-> & -> & _)].
  - change (VT_LOCOFF =? VT_LOCLIT) with false in E. change (VT_LOCOFF =? VT_LOCGLOB) with false in E. cbv iota in E. cbn [when] in E. rewrite (bind_ok _ _ t2 tt t2) in E by reflexivity. mgoin E. oki E.
    eexists. split; [unfold t2, t1; destruct s; reflexivity|]. split; [apply (kin_trans _ _ _ KI); repeat split|]. split; [exact TY1|reflexivity].
  - change (VT_LOCGLOB =? VT_LOCLIT) with false in E. change (VT_LOCGLOB =? VT_LOCGLOB) with true in E. cbv iota in E. cbn [when] in E. unfold upde in E. mgoin E. oki E.
    eexists. split; [unfold t2, t1; destruct s; reflexivity|]. split; [apply (kin_trans _ _ _ KI); repeat split|]. split; [exact TY1|reflexivity].
Qed.
Lemma set_stmt k n x ex s x0 s' rest : good_act (act_of k x ex) -> In x X -> incl (vars ex) X -> (depth ex <= D)%nat -> decls (dc s) (VOff (em s)) -> live (em s) -> RegUse (em s) = false ->
  stream W F (lx s) (atoks (act_of k x ex) ++ kw ch_semi :: rest) -> rest <> [] -> simple_stmt W F (tie W F n) s = Ok (x0, s') ->
  exists e' l', s' = set_lx l' (set_em e' s) /\ stream W F l' rest /\ assigned (dc s) (act_of k x ex) (em s) e'.
Proof.
  intros GA Ix IX DX DC L RU ST NR H. rewrite set_toks in ST. unfold simple_stmt in H. destruct (DC x Ix) as (TX & Loc & Val & IV). cbn [Datatypes.app] in ST.
  assert (NT : IsTypeStart s = Ok (false, s)).
  { apply (not_type W F (dc s) (EVar x) ((tok_of k, PREC_ASSIGN, 0) :: toks ex ++ kw ch_semi :: rest)); [intros z [<-|[]]; apply DC; exact Ix|reflexivity|exact ST]. }
  rewrite (bind_ok _ _ _ _ _ NT) in H. unfold getl in H. mgoin H. pose proof ST as (T & _). cbn [t_type fst snd kw] in T. rewrite T in H.
  rewrite (proj2 (Z.leb_le _ _) TX) in H. unfold setV, upde in H. mgoin H. replace (TOK_KEYWORD + x - TOK_KEYWORD) with x in H by lia. set (e1 := set_CurrentVal x (em s)) in *.
  assert (ST0 : stream W F (lx (set_em e1 s)) (kw (TOK_KEYWORD + x) :: (tok_of k, PREC_ASSIGN, 0) :: toks ex ++ kw ch_semi :: rest)) by exact ST.
  destruct (stream_next _ _ _ _ _ ST0 ltac:(discriminate)) as (l1 & G1 & ST1). unfold next in H. rewrite (bind_ok _ _ _ _ _ G1) in H. mgoin H.
  set (s1 := set_lx l1 (set_em e1 s)) in *. assert (ST1' : stream W F (lx s1) ((tok_of k, PREC_ASSIGN, 0) :: toks ex ++ kw ch_semi :: rest)) by exact ST1.
  pose proof ST1' as (T1 & P1 & _). cbn [t_type t_prec fst snd] in T1, P1. rewrite T1 in H. assert (NC : (tok_of k =? ch_colon) = false) by (destruct k as [[]|]; reflexivity). rewrite NC in H.
  minv H y2 s2 E. assert (K1 : kin (em s) (em s1)) by apply set_val_kin.
  destruct (primary_id x Loc Val (em s) s1 y2 s2 eq_refl K1 IV E) as (e2 & -> & K2 & LV).
  minv H y3 s3 E3. apply (postfix_ends W F n _ _ _ ((tok_of k, PREC_ASSIGN, 0) :: toks ex ++ kw ch_semi :: rest)) in E3; [|exact ST1|left; discriminate]. subst s3.
  unfold getl in H. mgoin H. change (lx (set_em e2 s1)) with (lx s1) in H. rewrite P1 in H. change (PREC_ASSIGN <=? PREC_COMMA) with true in H. cbn [when] in H. minv H y4 s4 E4.
  assert (EN : ends (kw ch_semi :: rest)) by (right; left; reflexivity). assert (PO : prec_over PREC_COMMA (kw ch_semi :: rest)) by reflexivity.
  destruct (asn_core k n x Loc Val ex (em s) (set_em e2 s1) y4 s4 _ GA Ix IV IX DX DC L RU K2 LV ST1' EN PO E4) as (e' & l' & -> & ST4 & A).
  set (s4 := set_lx l' (set_em e' (set_em e2 s1))) in *. unfold GetSemicolon, getl in H. mgoin H. assert (ST4' : stream W F (lx s4) (kw ch_semi :: rest)) by exact ST4.
  pose proof ST4' as (T4 & _). rewrite T4 in H. change (negb (t_type (kw ch_semi) =? ch_semi)) with false in H. cbn [when] in H. mgoin H.
  destruct (stream_next _ _ _ _ _ ST4' NR) as (l5 & G5 & ST5). unfold next in H. rewrite G5 in H. apply ok_inj in H. destruct H as [_ <-].
  exists e', l5. split; [unfold s4, s1; destruct s; reflexivity|]. split; [exact ST5|exact A].
Qed.

Lemma semi_end s x0 s' rest : stream W F (lx s) (kw ch_semi :: rest) -> rest <> [] -> GetSemicolon W F s = Ok (x0, s') -> exists l, s' = set_lx l s /\ stream W F l rest.
Proof.
  intros ST NR H. unfold GetSemicolon, getl in H. mgoin H. pose proof ST as (T4 & _). rewrite T4 in H. change (negb (t_type (kw ch_semi) =? ch_semi)) with false in H. cbn [when] in H. mgoin H.
  destruct (stream_next _ _ _ _ _ ST NR) as (l5 & G5 & ST5). unfold next in H. rewrite G5 in H. apply ok_inj in H. destruct H as [_ <-]. exists l5. auto.
Qed.
Lemma inc_stmt n pre up x s x0 s' rest : In x X -> decls (dc s) (VOff (em s)) -> live (em s) -> RegUse (em s) = false ->
  stream W F (lx s) (atoks (AInc pre up x) ++ kw ch_semi :: rest) -> rest <> [] -> simple_stmt W F (tie W F n) s = Ok (x0, s') ->
  exists e' l', s' = set_lx l' (set_em e' s) /\ stream W F l' rest /\ assigned (dc s) (AInc pre up x) (em s) e'.
Proof.
  intros Ix DC L RU ST NR H. unfold simple_stmt in H. destruct (DC x Ix) as (TX & Loc & Val & IV).
  assert (EN : ends (kw ch_semi :: rest)) by (right; left; reflexivity). assert (PO : prec_over PREC_COMMA (kw ch_semi :: rest)) by reflexivity.
  destruct pre; pose proof ST as ST0; cbn [atoks Datatypes.app] in ST0; pose proof ST0 as (T & _); cbn [t_type fst snd kw] in T.
  - assert (NT : IsTypeStart s = Ok (false, s)).
    { unfold IsTypeStart, LookupTypedef, getl, getd. rewrite bind_gets, T. assert (C2 : existsb (Z.eqb (inc_tok up)) type_tokens = false) by (destruct up; reflexivity).
      rewrite C2. rewrite bind_assoc, bind_gets, T. assert (B : inc_tok up <? TOK_ID = true) by (destruct up; reflexivity). rewrite B. reflexivity. }
    rewrite (bind_ok _ _ _ _ _ NT) in H. unfold getl in H. mgoin H. rewrite T in H. assert (B : TOK_ID <=? inc_tok up = false) by (destruct up; reflexivity). rewrite B in H.
    minv H y s1 E. destruct (inc_expr n true up x s y s1 _ Ix DC L RU ST EN PO E) as (e' & l' & -> & ST1 & A).
    destruct (semi_end (set_lx l' (set_em e' s)) x0 s' rest ST1 NR H) as (l2 & -> & ST2). exists e', l2. split; [destruct s; reflexivity|]. split; [exact ST2|exact A].
  - assert (NT : IsTypeStart s = Ok (false, s)).
    { apply (not_type W F (dc s) (EVar x) (kw (inc_tok up) :: kw ch_semi :: rest)); [intros z [<-|[]]; apply DC; exact Ix|reflexivity|exact ST0]. }
    rewrite (bind_ok _ _ _ _ _ NT) in H. unfold getl in H. mgoin H. rewrite T in H.
    rewrite (proj2 (Z.leb_le _ _) TX) in H. unfold setV, upde in H. mgoin H. replace (TOK_KEYWORD + x - TOK_KEYWORD) with x in H by lia. set (e1 := set_CurrentVal x (em s)) in *.
    assert (ST9 : stream W F (lx (set_em e1 s)) (kw (TOK_KEYWORD + x) :: kw (inc_tok up) :: kw ch_semi :: rest)) by exact ST0.
    destruct (stream_next _ _ _ _ _ ST9 ltac:(discriminate)) as (l1 & G1 & ST1). unfold next in H. rewrite (bind_ok _ _ _ _ _ G1) in H. mgoin H.
    set (s1 := set_lx l1 (set_em e1 s)) in *. assert (ST1' : stream W F (lx s1) (kw (inc_tok up) :: kw ch_semi :: rest)) by exact ST1.
    pose proof ST1' as (T1 & P1 & _). cbn [t_type t_prec fst snd kw] in T1, P1. rewrite T1 in H. assert (NC : (inc_tok up =? ch_colon) = false) by (destruct up; reflexivity). rewrite NC in H.
    minv H y2 s2 E. assert (K1 : kin (em s) (em s1)) by apply set_val_kin.
    destruct (primary_id x Loc Val (em s) s1 y2 s2 eq_refl K1 IV E) as (e2 & -> & K2 & LV).
    minv H y3 s3 E3. destruct (post_inc n up x Loc Val (em s) (set_em e2 s1) y3 s3 _ Ix IV L RU K2 LV ST1' EN E3) as (e' & l' & -> & ST4 & A).
    unfold getl in H. mgoin H. set (s4 := set_lx l' (set_em e' (set_em e2 s1))) in *. assert (ST4' : stream W F (lx s4) (kw ch_semi :: rest)) by exact ST4.
    pose proof ST4' as (_ & P4 & _). rewrite P4 in H. change (t_prec (kw ch_semi) <=? PREC_COMMA) with false in H. cbn [when] in H. mgoin H.
    destruct (semi_end s4 x0 s' rest ST4' NR H) as (l2 & -> & ST2). exists e', l2. split; [unfold s4, s1; destruct s; reflexivity|]. split; [exact ST2|exact A].
Qed.
Lemma asn_stmt n a s x0 s' rest : good_act a -> incl (act_vars a) X -> (act_depth a <= D)%nat -> decls (dc s) (VOff (em s)) -> live (em s) -> RegUse (em s) = false ->
  stream W F (lx s) (atoks a ++ kw ch_semi :: rest) -> rest <> [] -> simple_stmt W F (tie W F n) s = Ok (x0, s') ->
  exists e' l', s' = set_lx l' (set_em e' s) /\ stream W F l' rest /\ assigned (dc s) a (em s) e'.
Proof.
  intros GA IX DX DC L RU ST NR H. destruct a as [x ex|o x ex|pre up x]; cbn [act_vars act_depth] in *.
  - apply (set_stmt None n x ex s x0 s' rest GA (IX x (or_introl eq_refl))); auto. intros z Iz. apply IX. right. exact Iz.
  - apply (set_stmt (Some o) n x ex s x0 s' rest GA (IX x (or_introl eq_refl))); auto. intros z Iz. apply IX. right. exact Iz.
  - apply (inc_stmt n pre up x s x0 s' rest (IX x (or_introl eq_refl))); auto.
Qed.

(** *** A condition *)
Definition cond_ok (Fw : bool) (c : exp) : Prop := if Fw then good_cond c else good_end c.
Lemma cond_piece n c l Fw s x0 s' rest P : cond_ok Fw c -> incl (vars c) X -> (depth c <= D)%nat -> decls (dc s) (VOff (em s)) -> Book (em s) P -> live (em s) -> RegUse (em s) = false ->
  0 <= l < LocalLabelCounter (em s) -> placed (em s) l -> aget (LAddr (em s)) l <= CodeAddress (em s) ->
  stream W F (lx s) (toks c ++ rest) -> ends rest -> prec_over PREC_COMMA rest -> DoCond W (tie W F n) l Fw s = Ok (x0, s') ->
  exists e' l' P', s' = set_lx l' (set_em e' s) /\ stream W F l' rest /\ live e' /\ Book e' P' /\ (forall k t, In (k, t) P' -> In (k, t) P \/ k = l) /\ still (em s) e' /\ keepl (em s) e' /\ back (em s) P e' P' /\
  forall K env b t, k_ok X D (dc s) (VOff (em s)) K -> k_lo K <= CodeAddress (em s) -> Match (k_lo K) (k_ef K) e' P' -> env_ok env -> test env c b -> MRel X K env t -> ip t = CodeAddress (em s) ->
    (forall t', MRel X K env t' -> ip t' = (if xorb b Fw then aget (LAddr (k_ef K)) l else CodeAddress e') -> reaches (k_fin K) t') -> reaches (k_fin K) t.
Proof.
  intros CO IX DX DC BK L RU LR PL LA ST EN PO H. unfold DoCond in H. minv H y s1 E.
  assert (GE : good_exp c) by (destruct Fw; apply CO).
  destruct (expr_piece n c s y s1 rest GE IX DC (live_gen _ L) ST EN PO E) as (e1 & l1 & -> & ST1 & SM).
  unfold DoCondHasExpr, gete in H. mgoin H. change (em (set_lx l1 (set_em e1 s))) with e1 in H.
  destruct GE as [WF (env0 & v0 & EO0 & V0)]. pose proof (SM env0 v0 EO0 V0) as (G & VO & XT & S).
  assert (CC : (constant c = false /\ isbool c = true) \/ (constant c = true /\ forall env v, eval env c = Some v -> (v =? 0) && Fw = false /\ xorb (negb (v =? 0)) Fw = false)).
  { destruct Fw; destruct CO as [_ [[C1 C2]|[C1 C2]]]; auto; right; (split; [exact C1|]); intros env v EV; specialize (C2 env v EV).
    - rewrite (proj2 (Z.eqb_neq _ _) C2). auto.
    - rewrite C2. auto. }
  destruct CC as [[C IB]|[C CV]].
  - rewrite C, (isbool_kvar c IB) in S. destruct S as (PD & TY & (BA & TB & _) & _). specialize (TB IB). rewrite TB in H. change (VT_BOOL =? INTLIT) with false in H. change (VT_BOOL =? VT_BOOL) with true in H. cbn [negb when] in H. cbv iota in H. mgoin H.
    change (em (set_lx l1 (set_em e1 s))) with e1 in H. apply inem_inv in H. change (em (set_lx l1 (set_em e1 s))) with e1 in H. destruct H as (e' & E1 & ->).
    assert (CR : 0 <= CurrentVal e1 < 16) by (destruct TY as [T|[_ T]]; [rewrite T in TB; discriminate TB|exact T]).
    pose proof (gen_live _ G PD) as L1. destruct (ext_piece _ _ P BK L L1 XT) as (BK1 & BB1 & [KL1 KL2]).
    set (c' := Z.lxor (CurrentVal e1) (zb Fw)) in *.
    assert (CR' : 0 <= c' < 16) by (unfold c'; destruct Fw; cbn [zb]; [apply (cc16 _ CR)|rewrite Z.lxor_0_r; exact CR]).
    assert (PL1 : placed e1 l) by (unfold placed; rewrite KL1; exact PL). pose proof (ext_le _ _ XT) as XL.
    destruct (jcc_piece W HW c' l e1 P _ e' CR' BK1 L1 PL1 ltac:(rewrite KL2; exact LR) ltac:(rewrite KL1; lia) E1) as (P' & BK' & MK & L' & ST' & [KL1' KL2'] & BB' & GO).
    exists e', l1, P'. split; [destruct s; reflexivity|]. split; [exact ST1|]. split; [exact L'|]. split; [exact BK'|]. split; [exact MK|].
    split; [exact (still_trans _ _ _ (still_of _ _ L L1 RU BA VO) ST')|]. split; [split; congruence|]. split; [exact (back_trans _ _ _ _ _ _ BB1 BB')|].
    intros K env b t KO LO M EO (v & V & EB) R IP FIN. destruct (SM env v EO V) as (_ & _ & _ & S2). rewrite C, (isbool_kvar c IB) in S2. destruct S2 as (_ & _ & _ & AC).
    pose proof (proj1 BB' _ _ M) as M1.
    eapply reaches_trans; [exact (acts_run X D (dc s) (VOff (em s)) K KO c P env (em s) e1 _ t L RU L1 XT IX DX eq_refl AC (bk_ord _ _ BK) LO M1 R IP)|].
    cbv beta. intros t1 (R1 & IP1 & RS). unfold res in RS. rewrite TB in RS. change (VT_BOOL =? VT_BOOL) with true in RS. cbv iota in RS. destruct RS as (b1 & VB & HO).
    assert (B1 : b1 = b) by (rewrite EB, VB; destruct b1; reflexivity). subst b1.
    assert (LO1 : k_lo K <= CodeAddress e1) by lia. pose proof (live_lo _ L1) as LL1. pose proof (match_live _ _ _ _ M1 (proj1 L1)) as ME.
    pose proof (rel_img X D (dc s) (VOff (em s)) K KO env t1 R1 ltac:(lia)) as IM.
    assert (CX : cond c' (fl t1) = Some (xorb b Fw) /\ cond (Z.lxor c' 1) (fl t1) = Some (negb (xorb b Fw))).
    { destruct HO as [H1 H2]. unfold c'. destruct Fw; cbn [zb].
      - rewrite (proj1 (proj2 (proj2 (cc16 _ CR)))). rewrite xorb_true_r, negb_involutive. auto.
      - rewrite Z.lxor_0_r, xorb_false_r. auto. }
    destruct t1 as [r g i f m]. cbn [ip fl mem sg] in *. subst i.
    apply (GO (k_lo K) (k_ef K) (k_fin K) r g f m (xorb b Fw) LO1 M (ko_out _ _ _ _ _ KO) IM (proj1 CX) (proj2 CX)).
    apply FIN; [exact (rel_move _ _ _ _ _ _ _ _ _ R1)|reflexivity].
  - rewrite C in S. destruct S as (KI & TI & VI). rewrite TI in H. change (INTLIT =? INTLIT) with true in H. cbv iota in H. mgoin H. change (em (set_lx l1 (set_em e1 s))) with e1 in H.
    rewrite VI in H. rewrite (proj1 (CV env0 v0 (proj1 V0))) in H. cbn [when] in H. oki H. pose proof (kin_live _ _ KI L) as L1. destruct (ext_piece _ _ P BK L L1 XT) as (BK1 & BB1 & KL).
    exists e1, l1, P. split; [destruct s; reflexivity|]. split; [exact ST1|]. split; [exact L1|]. split; [exact BK1|]. split; [auto|]. pose proof KI as (K1 & K2 & K3 & K4 & K5 & K6 & K7 & K8).
    split; [split; [exact K4|]; split; [exact K3|]; split; assumption|]. split; [exact KL|]. split; [exact BB1|].
    intros K env b t KO LO M EO (v & V & EB) R IP FIN. apply FIN; [exact R|]. subst b. rewrite (proj2 (CV env v (proj1 V))). congruence.
Qed.
End W.
