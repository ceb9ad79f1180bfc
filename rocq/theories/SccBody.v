(** The operators of ParseExpr1 and ParseUnaryExpression on operands already compiled. *)
From Verif Require Import Base Bits Spec8086 SpecWf SccRun SccState SccEmit SccLex SccDecl SccExpr SccInput SccPut SccArith SccOps SccJump SccMem SccHold SccFlush SccSem SccBin SccVal SccComp ExprSpec.

Lemma Ok_inj {A} (x y : A) : Ok x = Ok y -> x = y.
Proof. congruence. Qed.
Section W.
Variable W : Z.
Hypothesis HW : 16 <= W.

Lemma Left_gen d env a e e2 va : gen e -> Left d env a e e2 va -> gen e2 /\ VOff e2 = VOff e /\ ext e e2.
Proof.
  unfold Left. intros G H. destruct (constant a).
  - destruct H as (K & _). split; [exact (kin_gen _ _ K G)|]. split; [apply K|apply ext_kin; exact K].
  - destruct H as (e1 & (L & VO & X & _) & ->). split; [|split; [exact VO|exact X]]. destruct L as (B1 & B2 & B3). split; [exact B1|]. split; [right; left; reflexivity|exact B3].
Qed.

Lemma zf_kin e : kin e (set_LastZFInst (CodeAddress e) e).
Proof. repeat split. Qed.
Lemma sem_type d env ex e e' v : Sem d env ex e e' v -> constant ex = false ->
  CurrentType e' <> INTLIT /\ Z.land (CurrentType e') (Z.lor (Z.lor VT_UNSIGNED VT_PTRMASK) VT_BASEMASK) <> VT_UNSIGNED + VT_INT.
Proof.
  intros (_ & _ & _ & S) C. rewrite C in S. destruct (kvar ex).
  - destruct S as (_ & Loc & Val & IV & T & _). rewrite T. destruct (loc_cases _ _ _ _ _ IV) as [->| ->]; split; discriminate.
  - destruct S as (_ & [->|[-> _]] & _); split; discriminate.
Qed.
Lemma Sem_pending_or d env ex e e' v : Sem d env ex e e' v -> constant ex = false -> kvar ex = None -> Pending e' = 0.
Proof. intros (_ & _ & _ & S) C K. rewrite C, K in S. apply S. Qed.

Section op.
Variables (d : dcst) (env : Z -> Z) (o : oper) (a b : exp) (e : emst) (va vb v : Z).
Hypothesis EO : env_ok env.
Hypothesis Ge : gen e.
Hypothesis Ea : eval env a = Some va.
Hypothesis Eb : eval env b = Some vb.
Hypothesis Ra : int_range va.
Hypothesis Rb : int_range vb.
Hypothesis Ao : apply o va vb = Some v.

(** scc.c:2547-2628 *)
Lemma binary_sem e2 s X LV x0 s' : right_op o a b va vb -> constant a && constant b = false -> Left d env a e e2 va -> Sem d env b e2 (em s) vb -> IsUnsignedOp (em s) = false ->
  (constant a = true -> LV = va) ->
  binary_op W (op_tok o) VT_INT X LV (if constant a then VT_LOCLIT else 0) s = Ok (x0, s') ->
  exists e', s' = set_em e' s /\ Sem d env (EOp o a b) e e' v.
Proof.
  intros Ro CC LF SM U LVE H. unfold binary_op in H. change (hasb VT_INT VT_PTRMASK) with false in H. cbv iota in H. rewrite (bind_ok _ _ s 0 s) in H by reflexivity.
  change (negb (0 =? 0)) with false in H. rewrite !andb_false_r in H. cbv iota in H. unfold gete at 1 in H. mgoin H.
  minv H z s1 E. cbn [when] in H. rewrite (bind_ok _ _ s1 tt s1) in H by reflexivity. unfold upde in H. oki H.
  cut (exists e', s1 = set_em e' s /\ Sem d env (EOp o a b) e e' v).
  { intros (e' & -> & S). rewrite set_em_em. exists (set_LastZFInst (CodeAddress e') e'). split; [reflexivity|]. apply (Sem_same _ _ _ _ e'); [exact S|apply zf_kin|reflexivity|reflexivity]. }
  unfold Left in LF. destruct (constant a) eqn:Ca.
  - cbn [andb] in CC. destruct (sem_type _ _ _ _ _ _ SM CC) as [NT _]. destruct (Z.eqb_spec (CurrentType (em s)) INTLIT) as [EQ|_]; [contradiction|].
    change (VT_LOCLIT =? VT_LOCLIT) with true in E. cbv iota in E. change (negb (VT_INT =? VT_INT)) with false in E. cbn [failif] in E.
    rewrite (bind_ok _ _ s tt s) in E by reflexivity. rewrite (LVE eq_refl) in E.
    apply (lit_left_sem W HW d env o a b e va vb v Ge Eb Ra Rb Ao Ro e2 s z s1 Ca CC (proj1 LF) SM U E).
  - destruct LF as (e1 & IR & ->). destruct (constant b) eqn:Cb.
    + destruct SM as (G & VO & X' & SM). rewrite Cb in SM. destruct SM as (K & T & CV). rewrite T in E. change (INTLIT =? INTLIT) with true in E. cbv iota in E.
      unfold hasPushAx, gete in E. mgoin E. pose proof K as (_ & _ & _ & K4 & _). rewrite K4 in E. change (hasb (Pending (set_Pending 1 e1)) 1) with true in E.
      cbn [orb negb failif] in E. rewrite (bind_ok _ _ s tt s) in E by reflexivity.
      apply (lit_right_sem W HW d env o a b e va vb v Ra Rb Ao Ro e1 s z s1 Ca Cb IR K CV U).
      clear - E. minv E y t E1. rewrite (bind_ok _ _ _ _ _ E1). clear E1. minv E y' t' E1. rewrite (bind_ok _ _ _ _ _ E1).
      change (hasb VT_INT VT_PTRMASK) with false in E. cbn [when] in E. rewrite (bind_ok _ _ t' tt t') in E by reflexivity. exact E.
    + destruct (sem_type _ _ _ _ _ _ SM Cb) as [NT _]. destruct (Z.eqb_spec (CurrentType (em s)) INTLIT) as [EQ|_]; [contradiction|].
      change (0 =? VT_LOCLIT) with false in E. change (negb (clr VT_INT VT_UNSIGNED =? VT_INT)) with false in E. cbn [andb failif] in E.
      rewrite (bind_ok _ _ s tt s) in E by reflexivity. unfold hasPushAx, gete in E. mgoin E.
      destruct (kvar b) as [x|] eqn:KV.
      * pose proof SM as (G & VO & X' & SM'). rewrite Cb, KV in SM'. destruct SM' as (K & Loc & Val & IV & LVr).
        pose proof K as (_ & _ & _ & K4 & _). rewrite K4 in E. change (hasb (Pending (set_Pending 1 e1)) 1) with true in E.
        assert (TT : Z.land (CurrentType (em s)) VT_BASEMASK =? VT_ARRAY = false /\ Z.land (CurrentType (em s)) (Z.lor VT_BASEMASK VT_PTRMASK) =? VT_CHAR = false /\ hasb (CurrentType (em s)) VT_LVAL = true)
          by (rewrite (proj1 LVr); destruct (loc_cases _ _ _ _ _ IV) as [->| ->]; repeat split).
        destruct TT as (T1 & T2 & T3). rewrite T1, T2, T3 in E. cbn [andb negb failif] in E. rewrite (bind_ok _ _ s tt s) in E by reflexivity.
        assert (IV' : int_var d (VOff (em s)) x Loc Val) by (rewrite VO; exact IV).
        apply (var_right_sem W d env o a b e va vb v EO Eb Ra Rb Ao Ro e1 s z s1 x Loc Val Ca Cb KV IR K IV' LVr U E).
      * rewrite (Sem_pending_or _ _ _ _ _ _ SM Cb KV) in E. change (hasb 0 1) with false in E. cbn [andb] in E.
        apply (other_right_sem W HW d env o a b e va vb v Eb Ra Rb Ao Ro e1 s z s1 Ca Cb IR SM U E).
Qed.

(** two constants, scc.c:2258-2273 *)
Lemma fold_const n : apply o va vb = Some v -> DoConstBinOp W (op_tok o) va vb = Ok n -> n = v.
Proof.
  intros A H. clear Ao. assert (P : 2 ^ 15 <= 2 ^ (W - 1)) by (apply Z.pow_le_mono_r; lia). change (2 ^ 15) with 32768 in P.
  assert (CI : forall x, int_range x -> ci W x = x) by (intros; apply ci_small; unfold int_range in *; lia).
  unfold int_range in *. destruct o as [[]|[]]; cbn [apply apply_arith] in A; unfold DoConstBinOp in H; cbn [op_tok bintok cmptok] in H;
  repeat match type of H with context [?x =? ?y] => let r := eval compute in (x =? y) in match r with true => change (x =? y) with true in H; cbv iota in H | false => change (x =? y) with false in H; cbv iota in H end end;
  try discriminate H.
  all: try (apply Ok_inj in H; subst n; first [congruence|apply int16_some in A as [-> R]; apply CI; unfold int_range; lia]).
  all: try (destruct (Z.eqb_spec vb 0); [discriminate A|]; cbn [orb] in H; destruct ((vb =? -1) && (va =? - 2 ^ (W - 1))); [discriminate H|]; apply Ok_inj in H; subst n;
    first [apply int16_some in A as [-> R]; reflexivity|destruct (Z.quot va vb =? 32768); [discriminate A|]; congruence]).
  - destruct ((vb <? 0) || (W <=? vb)) eqn:EB; [discriminate H|]. apply Ok_inj in H.
    destruct (Z.leb_spec 0 va), (Z.leb_spec 0 vb), (Z.ltb_spec vb 16); cbn [andb] in A; try discriminate A. apply int16_some in A as [-> R]. rewrite Z.shiftl_mul_pow2 in H by lia. rewrite <- H. apply CI. unfold int_range. lia.
  - destruct ((vb <? 0) || (W <=? vb)) eqn:EB; [discriminate H|]. injection H as <-.
    destruct (Z.leb_spec 0 vb), (Z.ltb_spec vb 16); cbn [andb] in A; try discriminate A. injection A as <-. rewrite Z.shiftr_div_pow2 by lia. reflexivity.
Qed.

(** what ParseExpr1 does once the right operand is compiled, scc.c:2456-2628, for a plain binary operator *)
Definition after_rhs (LhsType LhsTypeExtra LhsVal : Z) : M cc unit :=
  let LhsLoc := Z.land LhsType VT_LOCMASK in
  let LhsType := clr LhsType VT_LOCMASK in
  let! ct := gete CurrentType in
  let! cv := gete CurrentVal in
  if (LhsLoc =? VT_LOCLIT) && (ct =? INTLIT) then
    failif (negb (LhsType =? VT_INT)) ;;
    let! n := lift_out (DoConstBinOp W (op_tok o) LhsVal cv) in
    setV n
  else
    upde (set_IsUnsignedOp ((LhsType =? VT_UNSIGNED + VT_INT)
            || (Z.land ct (Z.lor (Z.lor VT_UNSIGNED VT_PTRMASK) VT_BASEMASK) =? VT_UNSIGNED + VT_INT))) ;;
    binary_op W (op_tok o) LhsType LhsTypeExtra LhsVal LhsLoc.
Lemma after_sem e2 s X x0 s' : (constant a && constant b = true \/ right_op o a b va vb) -> Left d env a e e2 va -> Sem d env b e2 (em s) vb ->
  after_rhs (CurrentType e2) X (CurrentVal e2) s = Ok (x0, s') -> exists e', s' = set_em e' s /\ Sem d env (EOp o a b) e e' v.
Proof.
  intros Ro LF SM H. unfold after_rhs in H. cbv zeta in H. unfold gete in H. mgoin H.
  assert (LT : CurrentType e2 = if constant a then INTLIT else VT_INT).
  { unfold Left in LF. destruct (constant a); [apply LF|]. destruct LF as (e1 & (_ & _ & _ & T & _) & ->). exact T. }
  assert (LC : Z.land (CurrentType e2) VT_LOCMASK = (if constant a then VT_LOCLIT else 0) /\ clr (CurrentType e2) VT_LOCMASK = VT_INT) by (rewrite LT; destruct (constant a); split; reflexivity).
  destruct LC as [LC1 LC2]. rewrite LC1, LC2 in H. clear LC1 LC2.
  destruct (constant a && constant b) eqn:CC.
  - apply andb_prop in CC as CC'. destruct CC' as [Ca Cb]. unfold Left in LF. rewrite Ca in *. pose proof SM as (G & VO & XX & S). rewrite Cb in S. destruct S as (K & T & CV).
    rewrite T in H. change ((VT_LOCLIT =? VT_LOCLIT) && (INTLIT =? INTLIT)) with true in H. change (negb (VT_INT =? VT_INT)) with false in H. cbv iota in H. cbn [failif] in H.
    rewrite (bind_ok _ _ s tt s) in H by reflexivity. destruct LF as (K0 & _ & LV). rewrite LV, CV in H.
    destruct (DoConstBinOp W (op_tok o) va vb) as [n| | |] eqn:EN; unfold lift_out in H; try (unfold SccState.bind in H; discriminate H).
    rewrite (bind_ok _ _ s n s) in H by reflexivity. unfold setV, upde in H. oki H. apply fold_const in EN; [|exact Ao]. subst n.
    exists (set_CurrentVal v (em s)). split; [reflexivity|].
    split; [exact (kin_gen _ _ (set_val_kin v (em s)) G)|]. split; [transitivity (VOff e2); [exact VO|apply K0]|]. split; [exact (ext_trans _ _ _ (ext_kin _ _ K0) XX)|].
    cbn [constant]. rewrite ?Ca, Cb. cbn [andb]. split; [exact (kin_trans _ _ _ K0 (kin_trans _ _ _ K (set_val_kin v (em s))))|]. split; [exact T|reflexivity].
  - destruct Ro as [Ro|Ro]; [discriminate Ro|].
    assert (NB : ((if constant a then VT_LOCLIT else 0) =? VT_LOCLIT) && (CurrentType (em s) =? INTLIT) = false).
    { destruct (constant a); [|reflexivity]. cbn [andb] in CC. destruct (sem_type _ _ _ _ _ _ SM CC) as [NT _]. destruct (Z.eqb_spec (CurrentType (em s)) INTLIT); [contradiction|reflexivity]. }
    rewrite NB in H. unfold upde in H. mgoin H.
    assert (UF : (VT_INT =? VT_UNSIGNED + VT_INT) || (Z.land (CurrentType (em s)) (Z.lor (Z.lor VT_UNSIGNED VT_PTRMASK) VT_BASEMASK) =? VT_UNSIGNED + VT_INT) = false).
    { change (VT_INT =? VT_UNSIGNED + VT_INT) with false. cbn [orb]. destruct (constant b) eqn:Cb.
      - pose proof SM as (_ & _ & _ & S). rewrite Cb in S. destruct S as (_ & -> & _). reflexivity.
      - destruct (sem_type _ _ _ _ _ _ SM Cb) as [_ NT]. apply Z.eqb_neq. exact NT. }
    rewrite UF in H. destruct (binary_sem e2 (set_em (set_IsUnsignedOp false (em s)) s) X (CurrentVal e2) x0 s' Ro CC LF) as (e' & -> & S); [|reflexivity| |exact H|].
    + apply (Sem_same _ _ _ _ (em s)); [exact SM|repeat split|reflexivity|reflexivity].
    + intro Ca. unfold Left in LF. rewrite Ca in LF. apply LF.
    + exists e'. split; [reflexivity|exact S].
Qed.
End op.

(** ** Unary operators *)
Lemma Sem_un d env u ex e e' v : constant ex = false -> VOff e' = VOff e -> ext e e' -> live e' -> typ e' -> bal e e' -> (isbool (EUn u ex) = true -> CurrentType e' = VT_BOOL) /\ (isint (EUn u ex) = true -> CurrentType e' = VT_INT) ->
  (forall f, frame_ok f -> sees_all f d (VOff e) env (vars ex) -> Acts f (depth ex) e e' (fun _ => True) (res e' v)) ->
  Sem d env (EUn u ex) e e' v.
Proof.
  intros C VO X L T BA IB A. split; [apply live_gen; exact L|]. split; [exact VO|]. split; [exact X|]. cbn [constant kvar]. rewrite C. split; [apply L|]. split; [exact T|]. split; [split; [exact BA|exact IB]|]. exact A.
Qed.
Lemma isbool_kvar ex : isbool ex = true -> kvar ex = None.
Proof. induction ex; cbn [isbool kvar]; intros; auto; discriminate. Qed.
Lemma unary_sem d env u ex e s x0 s' w v : eval env ex = Some w -> apply_un u w = Some v -> int_range w -> right_un u ex -> gen e -> Sem d env ex e (em s) w ->
  unary_op W (t_type (un_tok u)) s = Ok (x0, s') -> exists e', s' = set_em e' s /\ Sem d env (EUn u ex) e e' v.
Proof.
  intros EV A R RU Ge SM H. unfold unary_op, gete in H. mgoin H.
  assert (NA : t_type (un_tok u) =? ch_amp = false) by (destruct u; reflexivity). rewrite NA in H. cbv zeta in H.
  destruct (constant ex) eqn:C.
  - pose proof SM as (G & VO & X & S). rewrite C in S. destruct S as (K & T & CV). rewrite T in H.
    change (Z.land INTLIT VT_LOCMASK =? VT_LOCLIT) with true in H. change (negb (INTLIT =? INTLIT)) with false in H. cbv iota in H. cbn [failif] in H.
    rewrite (bind_ok _ _ s tt s) in H by reflexivity. mgoin H. rewrite CV in H.
    assert (HH : s' = set_em (set_CurrentVal v (em s)) s \/ (s' = s /\ v = w)).
    { assert (P : 2 ^ 15 <= 2 ^ (W - 1)) by (apply Z.pow_le_mono_r; lia). change (2 ^ 15) with 32768 in P. unfold int_range in R.
      destruct u; cbn [un_tok t_type fst apply_un] in *; repeat match type of H with context [?x =? ?y] => let r := eval compute in (x =? y) in match r with true => change (x =? y) with true in H; cbv iota in H | false => change (x =? y) with false in H; cbv iota in H end end; cbn [negb failif] in H.
      - apply int16_some in A as [-> RR]. rewrite ci_small in H by lia. unfold setV, upde in H. oki H. left. reflexivity.
      - injection A as <-. rewrite ci_small in H by (unfold Z.lnot, Z.pred; lia). unfold setV, upde in H. oki H. left. replace (- w - 1) with (Z.lnot w) by (unfold Z.lnot, Z.pred; lia). reflexivity.
      - oki H. right. injection A as <-. auto.
      - unfold setV, upde in H. oki H. left. injection A as <-. destruct (w =? 0); reflexivity. }
    destruct HH as [->|[-> ->]].
    + exists (set_CurrentVal v (em s)). split; [reflexivity|]. split; [exact (kin_gen _ _ (set_val_kin v (em s)) G)|]. split; [exact VO|]. split; [exact X|].
      cbn [constant]. rewrite C. split; [exact (kin_trans _ _ _ K (set_val_kin v (em s)))|]. split; [exact T|reflexivity].
    + exists (em s). split; [destruct s; reflexivity|]. split; [exact G|]. split; [exact VO|]. split; [exact X|]. cbn [constant]. rewrite C. auto.
  - assert (NL : Z.land (CurrentType (em s)) VT_LOCMASK =? VT_LOCLIT = false).
    { pose proof SM as (_ & _ & _ & S). rewrite C in S. destruct (kvar ex).
      - destruct S as (_ & Loc & Val & IV & T & _). rewrite T. destruct (loc_cases _ _ _ _ _ IV) as [->| ->]; reflexivity.
      - destruct S as (_ & [->|[-> _]] & _); reflexivity. }
    rewrite NL in H. minv H z s1 E.
    assert (HH : exists e1, s1 = set_em e1 s /\ live e1 /\ VOff e1 = VOff e /\ ext e e1 /\ typ e1 /\ bal e e1 /\ (isbool ex = true -> CurrentType e1 = VT_BOOL) /\ forall f, frame_ok f -> sees_all f d (VOff e) env (vars ex) -> Acts f (depth ex) e e1 (fun _ => True) (res e1 w)).
    { pose proof SM as (G & VO & X & S). rewrite C in S. destruct (kvar ex) as [x|] eqn:KV.
      - destruct S as (K & Loc & Val & IV & LV). destruct (kvar_eval env ex x w KV EV) as [-> VS].
        assert (IV' : int_var d (VOff (em s)) x Loc Val) by (rewrite VO; exact IV).
        destruct (lval_var W HW d x Loc Val s z s1 G IV' LV E) as (e' & -> & A1 & A2 & A3 & A4 & A5 & A7 & A6).
        exists e'. split; [reflexivity|]. split; [exact A1|]. split; [congruence|]. split; [exact (ext_trans _ _ _ X A3)|]. split; [left; exact A4|].
        split; [exact (bal_trans _ _ _ (bal_kin _ _ K) A7)|]. split; [intro IB; rewrite (isbool_kvar _ IB) in KV; discriminate KV|].
        intros f FO SA. apply (Acts_kin_l f _ (em s)); [apply kin_sym; exact K|]. apply acts_Acts. eapply acts_imp; [apply (A6 f env FO); rewrite VO; apply SA; rewrite VS; left; reflexivity|auto|].
        intros t _. apply res_int. rewrite A4. discriminate.
      - destruct S as (P & T & (BA & IB & _) & AA). assert (NV : hasb (CurrentType (em s)) VT_LVAL = false) by (destruct T as [->|[-> _]]; reflexivity).
        rewrite lval_not in E by exact NV. oki E. exists (em s). split; [destruct s; reflexivity|]. split; [apply gen_live; assumption|]. auto 7. }
    destruct HH as (e1 & -> & L1 & V1 & X1 & T1 & BA1 & IB1 & A1). mgoin H. rewrite set_em_em in H.
    assert (NEG : forall c (un : u = Neg \/ u = Com), c = (match u with Neg => 216 | _ => 208 end) -> (failif (negb (clr (CurrentType e1) VT_UNSIGNED =? VT_INT)) ;; o2 W 247 c) (set_em e1 s) = Ok (x0, s') ->
      exists e', s' = set_em e' s /\ Sem d env (EUn u ex) e e' v).
    { intros c un -> HN. destruct T1 as [T1|[T1 _]]; rewrite T1 in HN.
      2:{ change (negb (clr VT_BOOL VT_UNSIGNED =? VT_INT)) with true in HN. cbn [failif] in HN. unfold SccState.bind in HN. discriminate HN. }
      change (negb (clr VT_INT VT_UNSIGNED =? VT_INT)) with false in HN. cbn [failif] in HN. rewrite (bind_ok _ _ _ tt (set_em e1 s)) in HN by reflexivity.
      destruct (neg_acts W u (set_em e1 s) x0 s' un L1 T1 HN) as (e' & -> & GR & T2 & AN). pose proof GR as (G1 & G2 & G3 & _). rewrite set_em_em in *.
      exists e'. split; [reflexivity|]. apply Sem_un; [exact C|congruence|exact (ext_trans _ _ _ X1 G3)|exact G1|left; exact T2|exact (bal_trans _ _ _ BA1 (grown_bal _ _ L1 GR))|split; [destruct un as [->| ->]; discriminate|intros _; exact T2]|].
      intros f FO SA. apply (Acts_seq f _ e e1 e' _ (fun t => ax (rg t) = w mod 65536) _ X1 G3).
      - eapply Acts_imp; [apply A1; assumption|auto|]. unfold res. rewrite T1. auto.
      - apply acts_Acts. eapply acts_imp; [apply (AN f w v FO A)|auto|]. intros t _. apply res_int. rewrite T2. discriminate. }
    destruct u; cbn [un_tok t_type fst] in H; repeat match type of H with context [?x =? ?y] => let r := eval compute in (x =? y) in match r with true => change (x =? y) with true in H; cbv iota in H | false => change (x =? y) with false in H; cbv iota in H end end.
    + apply (NEG 216); auto.
    + apply (NEG 208); auto.
    + cbn [negb failif] in H. oki H. injection A as <-. exists e1. split; [reflexivity|]. apply Sem_un; auto. split; discriminate.
    + destruct RU as [RU|RU]; [congruence|]. specialize (IB1 RU). rewrite IB1 in H. change (negb (VT_BOOL =? VT_BOOL)) with false in H. cbn [when] in H.
      rewrite (bind_ok _ _ _ tt (set_em e1 s)) in H by reflexivity. unfold upde in H. oki H. rewrite !set_em_em. injection A as <-.
      destruct T1 as [T1|[_ R1]]; [rewrite IB1 in T1; discriminate T1|].
      assert (K : kin e1 (set_CurrentVal (Z.lxor (CurrentVal e1) 1) e1)) by apply set_val_kin. set (e2 := set_CurrentVal _ e1) in *. exists e2. split; [reflexivity|].
      destruct (cc16 (CurrentVal e1) R1) as (_ & R2 & X2 & _).
      apply Sem_un; [exact C|exact V1|exact (ext_trans _ _ _ X1 (ext_kin _ _ K))|exact (kin_live _ _ K L1)|right; split; [exact IB1|exact R2]|exact (bal_trans _ _ _ BA1 (bal_kin _ _ K))|split; [intros _; exact IB1|discriminate]|].
      intros f FO SA. apply (Acts_kin f _ _ e1 e2 _ _ K). eapply Acts_imp; [apply (A1 f FO SA)|auto|]. intro t. unfold res.
      change (CurrentType e2) with (CurrentType e1). rewrite IB1. change (VT_BOOL =? VT_BOOL) with true. cbv iota. intros (b & -> & Hb1 & Hb2). exists (negb b). split; [destruct b; reflexivity|].
      unfold e2. cbn [CurrentVal set_CurrentVal]. split; [exact Hb2|]. rewrite X2, Bool.negb_involutive. exact Hb1.
Qed.
End W.
