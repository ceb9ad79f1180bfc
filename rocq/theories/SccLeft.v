(** Conditions as operands of ?:, && and ||: what parsing them gives, and what their code does. *)
From Verif Require Import Base Bits Spec8086 SpecWf SccRun SccState SccEmit SccLex SccDecl SccExpr SccStmt SccInput SccPut SccArith SccOps SccJump SccMem SccFix SccHold SccFlush SccSem SccBin SccVal SccComp SccBody SccParse SccWhole SccImg SccStep SccAsn SccMach SccPiece SccStm SccHead ExprSpec StmtSpec.

Section W.
Variables (W : Z) (F : nat).
Hypothesis HW : 16 <= W.
Variables (X : list Z) (D : nat).
(** *** The first operand: the loop of ParseExpr1, scc.c:2403-2632, goes through its operators one by one *)
Fixpoint iter (k n : nat) (s : cc) : option (nat * cc) :=
  match k, n with
  | O, _ => Some (n, s)
  | S _, O => None
  | S k, S n => match expr1_body W F (tie W F n) s with Ok (_, s2) => iter k n s2 | _ => None end
  end.
Lemma iter_ok d env : env_ok env -> forall K n a e va v s x0 s' t rest Outer, 10 < t_prec t <= Outer -> SccParse.Good d env (build a K) v (VOff e) -> eval env a = Some va -> dc s = d -> gen e -> Sem d env a e (em s) va ->
  stream W F (lx s) (ktoks K ++ t :: rest) -> ends (t :: rest) -> pExpr1 (tie W F n) Outer s = Ok (x0, s') ->
  exists n1 s1, iter (length K) n s = Some (n1, s1) /\ after W F d env s s1 (build a K) e v (t :: rest) /\ pExpr1 (tie W F n1) Outer s1 = Ok (x0, s').
Proof.
  intro EO. induction K as [|[o b] K IH]; intros n a e va v s x0 s' t rest Outer TP GD EA D0 Ge SM ST EN H.
  - exists n, s. split; [reflexivity|]. split; [|exact H]. cbn [build fold_left ktoks Datatypes.app] in *. destruct GD as (_ & E & _). rewrite EA in E. injection E as <-.
    exists (em s), (lx s). split; [destruct s; reflexivity|]. auto.
  - destruct n as [|n]; [discriminate H|]. destruct (parses W F HW d env EO n) as (PC & _ & _ & PL).
    cbn [tie pExpr1] in H. unfold ParseExpr1 in H. minv H y s1 E.
    assert (G1 : exists v1, SccParse.Good d env (EOp o a b) v1 (VOff e)) by (apply (good_build d env (EOp o a b) K v); exact GD). destruct G1 as (v1 & G1).
    cbn [ktoks] in ST. rewrite <- app_assoc in ST. pose proof (prec_range o) as PR.
    assert (EK : ends (ktoks K ++ t :: rest)) by (apply ktoks_ends; exact EN).
    assert (LS : loosens (prec o) K) by (apply (wf_loosens (EOp o a b)); apply GD).
    assert (PK : prec_over (prec o - 1) (ktoks K ++ t :: rest)).
    { destruct K as [|[o2 b2] K]; cbn [ktoks Datatypes.app prec_over loosens] in *; [lia|]. cbn [t_prec fst snd]. lia. }
    assert (A1 : after W F d env s s1 (EOp o a b) e v1 (ktoks K ++ t :: rest)).
    { apply (body_ok W F HW d env EO n PC PL o b a e v1 s y s1); auto. intros w Ew. rewrite EA in Ew. injection Ew as <-. exact SM. }
    destruct (after_at _ _ _ _ _ _ _ _ _ _ A1 D0) as (D1 & ST1 & SM1 & _ & _). unfold getl in H. mgoin H.
    assert (LE : OperatorPrecedence (lx s1) <=? Outer = true).
    { destruct K as [|[o2 b2] K]; pose proof ST1 as (_ & P1 & _); rewrite P1; [lia|]. cbn [t_prec fst snd]. pose proof (prec_range o2). lia. }
    rewrite LE in H.
    destruct (IH n (EOp o a b) e v1 v s1 x0 s' t rest Outer TP GD (proj1 (proj2 G1)) D1 Ge SM1 ST1 EN H) as (n1 & s2 & I1 & A2 & H2).
    exists n1, s2. split; [cbn [length iter]; rewrite E; exact I1|]. split; [|exact H2]. exact (after_trans _ _ _ _ _ _ _ _ _ _ _ _ _ _ _ A1 A2).
Qed.

(** what follows from what an operand does for each value of the variables *)
Definition facts (c : exp) (l : lexst) (e : emst) (d : dcst) (P : list mark) (s1 : cc) (rest : list token) : Prop :=
  exists l1 e1, s1 = mkcc l1 e1 d /\ stream W F l1 rest /\ live e1 /\ CurrentType e1 = VT_BOOL /\ 0 <= CurrentVal e1 < 16 /\
  St [] [] e P e1 P /\ LAddr e1 = LAddr e /\ LocalLabelCounter e1 = LocalLabelCounter e /\
  forall K env i t, Into X D d e e1 P K -> test env c i -> MRel X K env t -> ip t = CodeAddress e ->
    (forall t', MRel X K env t' -> ip t' = CodeAddress e1 -> holds (CurrentVal e1) i t' -> reaches (k_fin K) t') -> reaches (k_fin K) t.
Lemma bool_ok c l e d P s1 rest : good_exp c -> constant c = false -> isbool c = true -> incl (vars c) X -> (depth c <= D)%nat ->
  Book e P -> live e -> RegUse e = false ->
  (forall env v, env_ok env -> value env c v -> after W F d env (mkcc l e d) s1 c e v rest) -> facts c l e d P s1 rest.
Proof.
  intros GE C IB IX DX BK LV RU P1.
  pose proof GE as [WF (env0 & v0 & EO0 & V0)].
  destruct (P1 env0 v0 EO0 V0) as (e1 & l1 & -> & ST1 & _).
  assert (SM : forall env v, env_ok env -> value env c v -> Sem d env c e e1 v).
  { intros env v EO V. destruct (P1 env v EO V) as (e2 & l2 & E2 & _ & S2). apply same_st in E2. destruct E2 as [_ <-]. exact S2. }
  pose proof (SM env0 v0 EO0 V0) as (G & VO & XT & S).
  rewrite C, (isbool_kvar c IB) in S. destruct S as (PD & TY & (BA & TB & _) & _). specialize (TB IB).
  assert (CR : 0 <= CurrentVal e1 < 16) by (destruct TY as [T|[_ T]]; [rewrite T in TB; discriminate TB|exact T]).
  pose proof (gen_live _ G PD) as L1.
  destruct (st_ext e e1 P BK LV L1 XT (still_of _ _ LV L1 RU BA VO)) as (S1 & A1 & C1).
  exists l1, e1. split; [reflexivity|]. split; [exact ST1|]. split; [exact L1|]. split; [exact TB|]. split; [exact CR|]. split; [exact S1|]. split; [exact A1|]. split; [exact C1|].
  intros K env i t (KO & LO & M1) TE R IP FIN. destruct TE as (v & V & EB). destruct (SM env v (r_env _ _ _ _ R) V) as (_ & _ & _ & S2).
  rewrite C, (isbool_kvar c IB) in S2. destruct S2 as (_ & _ & _ & AC).
  eapply reaches_trans; [exact (acts_run X D d (VOff e) K KO c P env e e1 _ t LV RU L1 XT IX DX eq_refl AC (bk_ord _ _ BK) LO M1 R IP)|].
  cbv beta. intros t1 (R1 & IP1 & RS). unfold res in RS. rewrite TB in RS. change (VT_BOOL =? VT_BOOL) with true in RS. cbv iota in RS. destruct RS as (b1 & VB1 & HO).
  assert (B1 : b1 = i) by (rewrite EB, VB1; destruct b1; reflexivity). subst b1. exact (FIN t1 R1 IP1 HO).
Qed.
Lemma left_ok n c l e d P x s' t rest : good_exp c -> constant c = false -> isbool c = true -> incl (vars c) X -> (depth c <= D)%nat -> decls X d (VOff e) ->
  Book e P -> live e -> RegUse e = false -> stream W F l (toks c ++ t :: rest) -> 10 < t_prec t <= PREC_COMMA -> pExpr (tie W F n) (mkcc l e d) = Ok (x, s') ->
  exists n1 s1, facts c l e d P s1 (t :: rest) /\ pExpr1 (tie W F n1) PREC_COMMA s1 = Ok (x, s').
Proof.
  intros GE C IB IX DX DC BK LV RU ST TP H. destruct n as [|n]; [discriminate H|]. cbn [tie pExpr] in H. unfold ParseExpr in H.
  assert (EN : ends (t :: rest)) by (left; unfold PREC_COMMA, PREC_STOP in *; lia).
  minv H y sh EH. rewrite toks_head, <- app_assoc in ST.
  assert (HD : forall env v, env_ok env -> value env c v -> SccParse.Good d env (build (head c) (tail c)) v (VOff e) /\ exists vh, SccParse.Good d env (head c) vh (VOff e) /\ after W F d env (mkcc l e d) sh (head c) e vh (ktoks (tail c) ++ t :: rest)).
  { intros env v EO [EV R]. assert (GD : SccParse.Good d env (build (head c) (tail c)) v (VOff e)) by (rewrite head_tail; exact (conj (proj1 GE) (conj EV (conj R (decls_exp _ _ _ _ DC IX))))).
    split; [exact GD|]. destruct (good_build _ _ _ _ _ _ GD) as (vh & Gh). exists vh. split; [exact Gh|]. destruct (parses W F HW d env EO n) as (PC & _ & _ & _).
    exact (PC (head c) vh (mkcc l e d) y sh _ Gh (top_head c) eq_refl (live_gen _ LV) ST ltac:(apply ktoks_ends; exact EN) EH). }
  assert (IT : forall env v, env_ok env -> value env c v -> exists n1 s1, iter (length (tail c)) n sh = Some (n1, s1) /\ after W F d env (mkcc l e d) s1 c e v (t :: rest) /\ pExpr1 (tie W F n1) PREC_COMMA s1 = Ok (x, s')).
  { intros env v EO V. destruct (HD env v EO V) as (GD & vh & Gh & A1). destruct (after_at _ _ _ _ _ _ _ _ _ _ A1 eq_refl) as (D1 & ST1 & SM & _ & _).
    pose proof H as H1. unfold getl in H1. mgoin H1.
    assert (LE : OperatorPrecedence (lx sh) <=? PREC_COMMA = true).
    { destruct (tail c) as [|[o b] K]; pose proof ST1 as (_ & Q1 & _); rewrite Q1; [lia|]. cbn [t_prec fst snd]. pose proof (prec_range o). unfold PREC_COMMA. lia. }
    rewrite LE in H1. cbn [when] in H1.
    destruct (iter_ok d env EO (tail c) n (head c) e vh v sh x s' t rest PREC_COMMA TP GD (proj1 (proj2 Gh)) D1 (live_gen _ LV) SM ST1 EN H1) as (n1 & s1 & I1 & A2 & H2).
    rewrite head_tail in A2. exists n1, s1. split; [exact I1|]. split; [exact (after_trans _ _ _ _ _ _ _ _ _ _ _ _ _ _ _ A1 A2)|exact H2]. }
  pose proof GE as [WF (env0 & v0 & EO0 & V0)]. destruct (IT env0 v0 EO0 V0) as (n1 & s1 & I1 & _ & H1). exists n1, s1. split; [|exact H1].
  apply bool_ok; auto. intros env v EO V. destruct (IT env v EO V) as (n2 & s2 & I2 & A2 & _). rewrite I1 in I2. injection I2 as <- <-. exact A2.
Qed.
Lemma right_ok n c l e d P y sm y' s1 rest Prec : good_exp c -> constant c = false -> isbool c = true -> incl (vars c) X -> (depth c <= D)%nat -> decls X d (VOff e) ->
  Book e P -> live e -> RegUse e = false -> stream W F l (toks c ++ rest) -> ends rest -> 10 < Prec -> prec_over Prec rest ->
  pCast (tie W F n) (mkcc l e d) = Ok (y, sm) -> rhs_loop F (tie W F n) Prec sm = Ok (y', s1) -> facts c l e d P s1 rest.
Proof.
  intros GE C IB IX DX DC BK LV RU ST EN PP PO E1 E2. apply bool_ok; auto. intros env v EO [EV R]. rewrite toks_head, <- app_assoc in ST.
  assert (GD : SccParse.Good d env (build (head c) (tail c)) v (VOff e)) by (rewrite head_tail; exact (conj (proj1 GE) (conj EV (conj R (decls_exp _ _ _ _ DC IX))))).
  destruct (good_build _ _ _ _ _ _ GD) as (vh & Gh). destruct (parses W F HW d env EO n) as (PC & _ & _ & PL).
  pose proof (PC (head c) vh (mkcc l e d) y sm _ Gh (top_head c) eq_refl (live_gen _ LV) ST ltac:(apply ktoks_ends; exact EN) E1) as A1.
  destruct (after_at _ _ _ _ _ _ _ _ _ _ A1 eq_refl) as (D1 & ST1 & SM & _ & _).
  assert (A2 : after W F d env sm s1 c e v rest).
  { rewrite <- (head_tail c). apply (rhs_ok W F d env n PL F (tail c) (head c) e vh v sm y' s1 rest Prec 0); auto.
    - apply Forall_forall. intros ob _. pose proof (prec_range (fst ob)). lia.
    - pose proof (wf_loosens (head c) (tail c) (proj1 GD)) as L. rewrite top_head in L. exact L.
    - apply Gh.
    - apply live_gen. exact LV.
    - destruct rest; [destruct EN|]. cbn [prec_over] in *. lia. }
  exact (after_trans _ _ _ _ _ _ _ _ _ _ _ _ _ _ _ A1 A2).
Qed.
End W.
