(** What follows a call: the arguments come off the stack, and the value is stored. *)
From Verif Require Import Base Bits Spec8086 SpecWf SccRun SccState SccEmit SccLex SccDecl SccExpr SccStmt SccInput SccPut SccArith SccOps SccJump SccMem SccFix SccHold SccFlush SccSem SccBin SccVal SccComp SccBody SccParse SccWhole SccAsn SccCall SccCall2 ExprSpec.
From Verif Require SccLoc3.

Section W.
Variables (W : Z) (F : nat).
Hypothesis HW : 16 <= W.

Definition freed (e : emst) : emst := put (add_code 4 8) (set_Pending 0 e).
Lemma guarded_pend p m e x e' : 0 < p -> Z.even p = true -> p < 2 ^ (W - 1) -> IsDeadCode e = false -> Pending e = p -> room e 0 -> guarded (EmitChecks W) m e = Ok (x, e') ->
  let e1 := put (add_code 4 p) (set_Pending 0 e) in live (set_Pending 0 e) /\ live e1 /\ m e1 = Ok (x, e').
Proof.
  intros P0 P1 P2 DE PE R H. unfold guarded in H. mgoin H. rewrite DE, PE in H. rewrite (proj2 (Z.eqb_neq p 0)) in H by lia. cbn [orb negb] in H.
  minv H r e0 E. unfold EmitChecks in E. set (n := 1%nat) in E. change 2%nat with (S n) in E. cbn [EmitChecks_n] in E. unfold n in E. mgoin E. rewrite DE in E. mgoin E. rewrite PE in E. rewrite (proj2 (Z.eqb_neq p 0)) in E by lia. cbn [negb when] in E. mgoin E.
  minv E y e1 E1. apply (SccLoc3.flush_any W HW 0 p) in E1; auto. unfold SccLoc3.settled in E1. rewrite DE in E1. destruct E1 as (-> & L0 & L1).
  cbv zeta. split; [exact L0|]. split; [exact L1|]. minv E z e2 E2. unfold FlushPushAx_ in E2. mgoin E2. rewrite (proj1 (proj2 L1)) in E2. change (hasb 0 1) with false in E2. cbn [when] in E2. oki E2.
  mgoin E. minv E w e3 E3. unfold failif in E3. destruct (_ <? _); [discriminate E3|]. oki E3. oki E. exact H.
Qed.
Lemma guarded_back m e x e' : IsDeadCode e = false -> Pending e = 8 -> room e 0 -> guarded (EmitChecks W) m e = Ok (x, e') ->
  live (set_Pending 0 e) /\ live (freed e) /\ guarded (EmitChecks W) m (freed e) = Ok (x, e').
Proof.
  intros DE PE R H. assert (P2 : 8 < 2 ^ (W - 1)) by (assert (2 ^ 15 <= 2 ^ (W - 1)) by (apply Z.pow_le_mono_r; lia); lia).
  destruct (guarded_pend 8 m e x e' ltac:(lia) eq_refl P2 DE PE R H) as (L0 & L1 & H1). split; [exact L0|]. split; [exact L1|]. rewrite guarded_live by exact L1. exact H1.
Qed.
Lemma store_back Loc Val e x e' : is_var e Loc Val -> IsDeadCode e = false -> Pending e = 8 -> room e 0 -> EmitStoreAx W 2 Loc Val e = Ok (x, e') ->
  live (set_Pending 0 e) /\ live (freed e) /\ EmitStoreAx W 2 Loc Val (freed e) = Ok (x, e').
Proof.
  intros HV DE PE R H. unfold EmitStoreAx, EmitModrm, Output1Byte, Output1Byte_, Output3Bytes, Output3Bytes_ in *. destruct HV as [->|[-> _]].
  - change (VT_LOCOFF =? 0) with false in *. change (VT_LOCOFF =? VT_LOCGLOB) with false in *. change (VT_LOCOFF =? VT_LOCOFF) with true in *. cbv iota zeta in *.
    minv H y e1 E. apply guarded_back in E; auto. destruct E as (L0 & L1 & E). split; [exact L0|]. split; [exact L1|]. rewrite (bind_ok _ _ _ _ _ E). exact H.
  - change (VT_LOCGLOB =? 0) with false in *. change (VT_LOCGLOB =? VT_LOCGLOB) with true in *. cbv iota zeta in *.
    minv H y e1 E. apply guarded_back in E; auto. destruct E as (L0 & L1 & E). split; [exact L0|]. split; [exact L1|]. rewrite (bind_ok _ _ _ _ _ E). exact H.
Qed.
Lemma freed_runs e t : live (freed e) -> wf t -> ip t = CodeAddress e -> loaded e (freed e) t -> 256 <= CodeAddress e ->
  reaches (fun t' => wf t' /\ ip t' = CodeAddress (freed e) /\ rg t' = rset (rg t) 4 ((sp (rg t) + 8) mod 65536) /\ sg t' = sg t /\ mem t' = mem t) t.
Proof.
  intros L1 Wt IP LD LO. assert (A3 : CodeAddress (freed e) = CodeAddress e + 3) by (unfold freed; rewrite put_addr; reflexivity).
  assert (LR : CodeAddress (freed e) <= 24832) by (destruct L1 as (_ & _ & R & R2); unfold room, CODESTART, OUTPUT_MAX in *; lia).
  apply reaches_wf; [exact Wt|]. destruct t as [r g i f m]. cbn [rg sg ip mem] in *. subst i.
  assert (CD : code m (cs g) (CodeAddress e) (map u8 (add_code 4 8))) by (apply (loaded_put (add_code 4 8) (set_Pending 0 e) m (cs g)); exact LD).
  eapply reaches_imp; [apply (add_runs 4 8 ltac:(lia) g m (CodeAddress e) r f CD ltac:(lia))|].
  - change (Z.of_nat (length (add_code 4 8))) with 3. lia.
  - apply Wt.
  - cbv beta. intros t' (I & R & S & M). cbn [rg sg mem] in *. change (Z.of_nat (length (add_code 4 8))) with 3 in I. split; [lia|]. auto.
Qed.

(** from the return of the function to the end of the assignment *)
Definition stored_at (e2 e' : emst) (n : nat) (Loc Val : Z) : Prop :=
  forall t, wf t -> ss (sg t) = cs (sg t) -> ds (sg t) = cs (sg t) -> ip t = CodeAddress e2 -> loaded e2 e' t -> sp (rg t) + arg_room n < 65536 ->
  let a := if Loc =? VT_LOCOFF then (bp (rg t) + Val) mod 65536 else aget (VOff e2) Val mod 65536 in
  reaches (fun t' => wf t' /\ ip t' = CodeAddress e' /\ sp (rg t') = sp (rg t) + arg_room n /\ bp (rg t') = bp (rg t) /\ ax (rg t') = ax (rg t) /\ sg t' = sg t /\
    mem t' = wr16 (mem t) (cs (sg t)) a (ax (rg t))) t.
Lemma store_only Loc Val e e' t : live e -> is_var e Loc Val -> does e e' (fun t t' => stores e 2 Loc Val (ax (rg t)) t t') -> wf t -> ss (sg t) = cs (sg t) -> ds (sg t) = cs (sg t) -> ip t = CodeAddress e -> loaded e e' t ->
  let a := if Loc =? VT_LOCOFF then (bp (rg t) + Val) mod 65536 else aget (VOff e) Val mod 65536 in
  reaches (fun t' => wf t' /\ ip t' = CodeAddress e' /\ rg t' = rg t /\ sg t' = sg t /\ mem t' = wr16 (mem t) (cs (sg t)) a (ax (rg t))) t.
Proof.
  cbv zeta. intros L HV D Wt SS DS IP LD. apply reaches_wf; [exact Wt|]. eapply reaches_imp; [apply (D t Wt IP LD I)|]. cbv beta. intros t' (I' & M & R & S). split; [exact I'|]. split; [exact R|]. split; [exact S|].
  rewrite M. unfold var_set. change (2 =? 2) with true. cbv iota. unfold var_seg, var_off. destruct HV as [->|[-> _]]; [rewrite <- SS|rewrite <- DS]; reflexivity.
Qed.
Lemma stored_ok n xt e2 Loc Val x e' : live e2 -> is_var e2 Loc Val -> EmitStoreAx W 2 Loc Val (returned n xt e2) = Ok (x, e') ->
  live e' /\ VOff e' = VOff e2 /\ RegUse e' = RegUse e2 /\ LocalOffset e' = LocalOffset e2 + arg_room n /\ ext e2 e' /\ stored_at e2 e' n Loc Val.
Proof.
  intros L HV H. set (e3 := returned n xt e2) in *. assert (HV3 : is_var e3 Loc Val) by exact HV. pose proof (live_lo _ L) as LO. destruct n as [|n].
  - assert (L3 : live e3) by (destruct L as (A & B & C); split; [exact A|split; [reflexivity|exact C]]).
    destruct (store_put W Loc Val e3 e' x L3 HV3 H) as (bs & -> & L' & OK & DO). split; [exact L'|]. split; [rewrite put_voff; reflexivity|]. split; [rewrite put_reg; reflexivity|]. split; [rewrite put_local; reflexivity|].
    split; [exact (ext_put bs e3 OK)|]. intros t Wt SS DS IP LD SP. cbv zeta. cbn [arg_room]. rewrite Z.add_0_r.
    eapply reaches_imp; [apply (store_only Loc Val e3 _ t L3 HV3 DO Wt SS DS IP LD)|]. cbv beta. intros t' (W' & I' & R' & S' & M'). rewrite R'. auto 10.
  - assert (R3 : room e3 0) by apply L. destruct (store_back Loc Val e3 x e' HV3 ltac:(apply L) eq_refl R3 H) as (L0 & L1 & H1).
    assert (HV1 : is_var (freed e3) Loc Val) by exact HV3.
    destruct (store_put W Loc Val (freed e3) e' x L1 HV1 H1) as (bs & -> & L' & OK & DO).
    assert (X1 : ext e2 (freed e3)) by (apply (ext_put (add_code 4 8) (set_Pending 0 e3)); vm_compute; intuition discriminate).
    assert (X2 : ext (freed e3) (put bs (freed e3))) by (apply ext_put; exact OK).
    split; [exact L'|]. split; [rewrite put_voff; reflexivity|]. split; [rewrite put_reg; reflexivity|]. split; [rewrite put_local; reflexivity|]. split; [exact (ext_trans _ _ _ X1 X2)|].
    intros t Wt SS DS IP LD SP. cbv zeta. destruct (loaded_ext _ _ _ _ X1 X2 LD) as [LD1 LD2]. cbn [arg_room] in *.
    assert (SPR : 0 <= sp (rg t) < 65536) by (exact (proj1 (proj2 (proj2 (proj2 (proj2 (proj1 Wt))))))).
    eapply reaches_trans; [apply (freed_runs e3 t L1 Wt IP LD1 LO)|]. cbv beta. intros t1 (W1 & I1 & R1 & S1 & M1). rewrite Z.mod_small in R1 by lia.
    assert (LD3 : loaded (freed e3) (put bs (freed e3)) t1) by (intros b B; rewrite M1, S1; apply LD2; exact B).
    eapply reaches_imp; [apply (store_only Loc Val (freed e3) _ t1 L1 HV1 DO W1 ltac:(congruence) ltac:(congruence) I1 LD3)|]. cbv beta. intros t2 (W2 & I2 & R2 & S2 & M2).
    split; [exact W2|]. split; [exact I2|]. rewrite R2, M2, S2, S1, M1, R1. split; [reflexivity|]. split; [reflexivity|]. split; [reflexivity|]. split; [reflexivity|]. reflexivity.
Qed.

(** ** The assignment *)
Section E.
Variables (d : dcst) (env : Z -> Z).
Hypothesis EO : env_ok env.
Definition asn_toks (x f : Z) (l : list exp) : list token := (TOK_KEYWORD + x, PREC_STOP, 0) :: (ch_eq, PREC_ASSIGN, 0) :: call_toks f l.
(** q is where the function returns to *)
Definition asn_called (s s' : cc) (x Loc Val : Z) (l : list exp) (vs : list Z) (a : Z) (rest : list token) : Prop :=
  exists e' l' e2, s' = set_lx l' (set_em e' s) /\ stream W F l' rest /\ live e' /\ VOff e' = VOff (em s) /\ RegUse e' = false /\ LocalOffset e' = LocalOffset (em s) /\
    ext (em s) e2 /\ ext e2 e' /\ VOff e2 = VOff (em s) /\ calls d env (em s) e2 l vs a /\ stored_at e2 e' (length l) Loc Val.
Lemma calls_kin e e1 e2 l vs a : kin e e1 -> calls d env e1 e2 l vs a -> calls d env e e2 l vs a.
Proof.
  intros (KA & _ & _ & _ & KL & KV & _) CL t0 low. cbv zeta. specialize (CL t0 low). cbv zeta in CL. unfold loaded in *. rewrite KA, KL, KV in CL. exact CL.
Qed.
Lemma asn_store LX Loc Val s y s' : Loc = VT_LOCOFF \/ Loc = VT_LOCGLOB -> CurrentType (em s) = VT_INT -> assign_op W ch_eq VT_INT LX Val Loc s = Ok (y, s') ->
  exists z e', EmitStoreAx W 2 Loc Val (em s) = Ok (z, e') /\ s' = set_em e' s.
Proof.
  intros LC T H. unfold assign_op in H.
  assert (HL : HandleLhsLvalLoc W Loc s = Ok (tt, s)) by (destruct LC as [->| ->]; reflexivity). rewrite (bind_ok _ _ _ _ _ HL) in H.
  change (VT_INT =? VT_STRUCT) with false in H. cbv iota in H. change (clr VT_INT VT_UNSIGNED =? VT_CHAR) with false in H. change (ch_eq =? ch_eq) with true in H. cbn [negb] in H. cbv zeta iota in H.
  rewrite (bind_ok _ _ s tt s) in H by (apply lval_not; rewrite T; reflexivity). unfold gete in H. mgoin H. rewrite T in H. change (VT_INT =? INTLIT) with false in H. cbv iota in H.
  minv H z s1 E. apply getval_int in E; [|exact T]. subst s1. apply inem_inv in H. destruct H as (e' & H & ->). eauto.
Qed.
Lemma asn_call n x Loc Val f a l vs e s x0 s' rest : int_var d (VOff e) x Loc Val -> fun_at d (VOff e) f a -> Forall2 (Arg d env (VOff e)) l vs -> (length l <= 4)%nat -> dc s = d ->
  live e -> RegUse e = false -> kin e (em s) -> lvar (em s) Loc Val ->
  stream W F (lx s) ((ch_eq, PREC_ASSIGN, 0) :: call_toks f l ++ rest) -> ends rest -> prec_over PREC_COMMA rest -> pExpr1 (tie W F n) PREC_COMMA s = Ok (x0, s') ->
  exists e' l' e2, s' = set_lx l' (set_em e' s) /\ stream W F l' rest /\ live e' /\ VOff e' = VOff e /\ RegUse e' = false /\ LocalOffset e' = LocalOffset e /\
    ext e e2 /\ ext e2 e' /\ VOff e2 = VOff e /\ calls d env e e2 l vs a /\ stored_at e2 e' (length l) Loc Val.
Proof.
  intros IV FA F2 L4 D L RU KI LV ST EN PO H. destruct n as [|n]; [discriminate H|]. cbn [tie pExpr1] in H. unfold ParseExpr1 in H. minv H y s9 E.
  unfold expr1_body, getl in E. mgoin E. pose proof ST as (T & P & _). cbn [t_type t_prec fst snd] in T, P. rewrite T, P in E.
  assert (NT : call_toks f l ++ rest <> []) by discriminate.
  destruct (stream_next _ _ _ _ _ ST NT) as (l1 & G1 & ST1). unfold next in E. rewrite (bind_ok _ _ _ _ _ G1) in E.
  change (ch_eq =? ch_quest) with false in E. change (PREC_ASSIGN =? PREC_ASSIGN) with true in E. cbv iota in E. set (s1 := set_lx l1 s) in *.
  unfold gete, setT, upde in E. mgoin E. change (em s1) with (em s) in E. destruct LV as [LT LVal].
  assert (LC := loc_cases _ _ _ _ _ IV).
  assert (Q1 : hasb (VT_INT + VT_LVAL + Loc) VT_LVAL = true /\ clr (VT_INT + VT_LVAL + Loc) VT_LVAL = VT_INT + Loc /\ (VT_INT + Loc =? VT_BOOL) = false /\ hasb (VT_INT + Loc) VT_LOCMASK = true /\
    Z.land (VT_INT + Loc) VT_LOCMASK = Loc /\ clr (VT_INT + Loc) VT_LOCMASK = VT_INT /\ (Loc =? VT_LOCLIT) = false) by (destruct LC as [->| ->]; repeat split).
  destruct Q1 as (Q1 & Q2 & Q3 & Q4 & Q5 & Q6 & Q7). rewrite LT, Q1, Q2 in E. cbn [negb failif] in E. rewrite (bind_ok _ _ s1 tt s1) in E by reflexivity.
  mgoin E. change (em s1) with (em s) in E. set (e2 := set_CurrentType (VT_INT + Loc) (em s)) in *. set (s2 := set_em e2 s1) in *.
  change (ch_eq =? ch_eq) with true in E. cbv iota in E. mgoin E. change (ch_eq =? TOK_OROR) with false in E. change (ch_eq =? TOK_ANDAND) with false in E. cbn [orb] in E. cbv iota zeta in E.
  mgoin E. change (CurrentType (em s2)) with (VT_INT + Loc) in E. rewrite Q3 in E. cbn [when] in E. mgoin E. change (CurrentType (em s2)) with (VT_INT + Loc) in E. rewrite Q4 in E. cbn [negb andb when] in E. mgoin E.
  change (CurrentType (em s2)) with (VT_INT + Loc) in E. change (CurrentVal (em s2)) with (CurrentVal (em s)) in E. rewrite LVal, Q5, Q6, Q7 in E. cbn [andb] in E.
  change (ch_eq =? ch_comma) with false in E. cbv iota in E.
  rewrite <- bind_assoc in E. minv E y2 s3 E2.
  assert (K2 : kin e e2) by (apply (kin_trans _ _ _ KI); apply set_type_kin). pose proof (kin_live _ _ K2 L) as L2. pose proof K2 as (_ & _ & KR & _ & KL & VO2 & _).
  change (em s2) with e2 in *.
  assert (CD : called W F d env s2 s3 l vs a rest).
  { apply (rhs_call W F HW d env EO n f a l vs s2 y2 s3 rest); auto; [change (em s2) with e2; rewrite VO2; exact FA|change (em s2) with e2; rewrite VO2; exact F2|change (em s2) with e2; rewrite KR; exact RU]. }
  destruct CD as (e3 & xt & l3 & -> & ST3 & L3 & VO3 & RU3 & LO3 & X3 & CL). change (em s2) with e2 in *.
  change (0 <=? -1) with false in E. cbv iota in E. mgoin E.
  match type of E with context [set_IsUnsignedOp ?b _] => set (un := b) in E end. change (em (set_lx l3 (set_em (returned (length l) xt e3) s2))) with (returned (length l) xt e3) in E.
  set (e4 := set_IsUnsignedOp un e3) in *. assert (RE : set_IsUnsignedOp un (returned (length l) xt e3) = returned (length l) xt e4) by reflexivity. rewrite RE in E.
  assert (K4 : kin e3 e4) by (repeat split). clearbody e4. clear RE.
  set (s4 := set_em (returned (length l) xt e4) (set_lx l3 (set_em (returned (length l) xt e3) s2))) in *.
  apply asn_store in E; [|exact LC|reflexivity]. destruct E as (z & e' & E & ->). change (em s4) with (returned (length l) xt e4) in E.
  assert (L4' : live e4) by exact (kin_live _ _ K4 L3). pose proof K4 as (K41 & K42 & K43 & _ & K45 & K46 & _).
  assert (IS : is_var e4 Loc Val) by (apply (int_is_var d e4 x); rewrite K46, VO3, VO2; exact IV).
  destruct (stored_ok _ xt e4 Loc Val z e' L4' IS E) as (L' & VO' & RU' & LO' & X' & SA).
  assert (ST9 : stream W F (lx (set_em e' s4)) rest) by exact ST3. unfold getl in H. mgoin H.
  assert (PR : OperatorPrecedence (lx (set_em e' s4)) <=? PREC_COMMA = false).
  { destruct rest as [|t rest]; [destruct EN|]. destruct ST9 as (_ & P9 & _). rewrite P9. cbn [prec_over] in PO. apply Z.leb_gt. exact PO. }
  rewrite PR in H. oki H. exists e', l3, e4. split; [unfold s4, s2, s1; destruct s; reflexivity|]. split; [exact ST3|]. split; [exact L'|]. split; [congruence|]. split; [congruence|].
  split; [rewrite LO', K45, LO3, KL; lia|]. split; [exact (ext_trans _ _ _ (ext_kin _ _ K2) (ext_trans _ _ _ X3 (ext_kin _ _ K4)))|]. split; [exact X'|]. split; [congruence|]. split; [|exact SA].
  apply (calls_kin e e2); [exact K2|]. intros t0 low. cbv zeta. specialize (CL t0 low). cbv zeta in CL. unfold loaded in *. rewrite K41, K42. exact CL.
Qed.
Lemma set_call n x f a l vs s x0 s' rest : declared d (VOff (em s)) (EVar x) -> fun_at d (VOff (em s)) f a -> Forall2 (Arg d env (VOff (em s))) l vs -> (length l <= 4)%nat -> dc s = d ->
  live (em s) -> RegUse (em s) = false -> stream W F (lx s) (asn_toks x f l ++ rest) -> ends rest -> prec_over PREC_COMMA rest -> pExpr (tie W F n) s = Ok (x0, s') ->
  exists Loc Val, int_var d (VOff (em s)) x Loc Val /\ asn_called s s' x Loc Val l vs a rest.
Proof.
  intros DX FA F2 L4 D L RU ST EN PO H. destruct n as [|n]; [discriminate H|]. cbn [tie pExpr] in H. unfold ParseExpr in H. minv H y s1 E. unfold asn_toks in ST. cbn [app] in ST.
  destruct (parses W F HW d env EO n) as (PC & _ & _ & _).
  assert (GD : Good d env (EVar x) (env x) (VOff (em s))).
  { split; [cbn [wf_exp]; destruct (DX x (or_introl eq_refl)) as [TX _]; unfold TOK_ID, TOK_KEYWORD in TX; lia|]. split; [reflexivity|]. split; [exact I|exact DX]. }
  assert (E1 : ends ((ch_eq, PREC_ASSIGN, 0) :: call_toks f l ++ rest)) by (left; discriminate).
  destruct (PC (EVar x) (env x) s y s1 _ GD eq_refl D (live_gen _ L) ST E1 E) as (e1 & l1 & -> & ST1 & G1 & VO1 & XT1 & SM). cbn [constant kvar] in SM. destruct SM as (KI & Loc & Val & IV & LV).
  unfold getl in H. mgoin H. pose proof ST1 as (_ & P1 & _). cbn [t_prec fst snd] in P1. match type of H with context [OperatorPrecedence (lx ?st)] => change (lx st) with l1 in H end. rewrite P1 in H.
  change (PREC_ASSIGN <=? PREC_COMMA) with true in H. cbn [when] in H. exists Loc, Val. split; [exact IV|].
  destruct (asn_call n x Loc Val f a l vs (em s) (set_lx l1 (set_em e1 s)) x0 s' rest IV FA F2 L4 D L RU KI LV ST1 EN PO H) as (e' & l' & e2 & -> & R). exists e', l', e2. split; [destruct s; reflexivity|exact R].
Qed.
End E.
End W.
