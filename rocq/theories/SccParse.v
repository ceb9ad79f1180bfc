(** The expression parser reads the tokens of an expression as the tree the C grammar gives them. *)
From Verif Require Import Base Bits Spec8086 SpecWf SccRun SccState SccEmit SccLex SccDecl SccExpr SccStmt SccInput SccPut SccArith SccOps SccJump SccMem SccHold SccFlush SccSem SccBin SccVal SccComp SccBody ExprSpec.

(** ** A tree as its leftmost operand and the operators applied to it one after the other *)
Fixpoint head (ex : exp) : exp := match ex with EOp _ a _ => head a | _ => ex end.
Fixpoint tail (ex : exp) : list (oper * exp) := match ex with EOp o a b => tail a ++ [(o, b)] | _ => [] end.
Definition build (a : exp) (K : list (oper * exp)) : exp := fold_left (fun a ob => EOp (fst ob) a (snd ob)) K a.
Fixpoint ktoks (K : list (oper * exp)) : list token :=
  match K with [] => [] | (o, b) :: K => ((op_tok o, prec o, 0) :: toks b) ++ ktoks K end.
Lemma build_app a K L : build a (K ++ L) = build (build a K) L.
Proof. apply fold_left_app. Qed.
Lemma head_tail ex : build (head ex) (tail ex) = ex.
Proof. induction ex; cbn [head tail]; try reflexivity. rewrite build_app, IHex1. reflexivity. Qed.
Lemma ktoks_app K L : ktoks (K ++ L) = ktoks K ++ ktoks L.
Proof. induction K as [|[o b] K IH]; cbn [ktoks app]; [reflexivity|]. rewrite IH, app_assoc. reflexivity. Qed.
Lemma toks_head ex : toks ex = toks (head ex) ++ ktoks (tail ex).
Proof.
  induction ex; cbn [head tail toks ktoks]; rewrite ?app_nil_r; try reflexivity.
  rewrite ktoks_app, IHex1. cbn [ktoks]. rewrite app_nil_r, <- app_assoc. reflexivity.
Qed.
Lemma top_head ex : top (head ex) = 0.
Proof. induction ex; cbn [head top]; auto. Qed.
Lemma prec_range o : 3 <= prec o <= 10.
Proof. destruct o as [[]|[]]; cbn [prec]; lia. Qed.

(** what holds of the whole tree holds of its left parts *)
Lemma build_eval env a K v : eval env (build a K) = Some v -> exists va, eval env a = Some va.
Proof.
  revert a v. induction K as [|[o b] K IH]; intros a v H; cbn [build fold_left] in H; [eauto|].
  apply IH in H. destruct H as [w H]. cbn [eval fst snd] in H. destruct (eval env a); [eauto|discriminate H].
Qed.
Lemma build_right env a K : right env (build a K) -> right env a.
Proof. revert a. induction K as [|[o b] K IH]; intros a H; [exact H|]. apply (IH (EOp o a b)) in H. cbn [right] in H. apply H. Qed.
Lemma build_wf a K : wf_exp (build a K) -> wf_exp a.
Proof. revert a. induction K as [|[o b] K IH]; intros a H; [exact H|]. apply (IH (EOp o a b)) in H. cbn [wf_exp] in H. apply H. Qed.
Lemma build_vars a K x : In x (vars a) -> In x (vars (build a K)).
Proof. revert a. induction K as [|[o b] K IH]; intros a H; [exact H|]. apply (IH (EOp o a b)). cbn [vars]. apply in_or_app. auto. Qed.
(** the operators get looser from left to right *)
Fixpoint loosens (p : Z) (K : list (oper * exp)) : Prop :=
  match K with [] => True | (o, _) :: K => p <= prec o /\ loosens (prec o) K end.
Lemma wf_loosens a K : wf_exp (build a K) -> loosens (top a) K.
Proof.
  revert a. induction K as [|[o b] K IH]; intros a H; [exact I|]. cbn [loosens]. pose proof (IH (EOp o a b) H) as L. split; [|exact L].
  apply (build_wf (EOp o a b)) in H. cbn [wf_exp] in H. apply H.
Qed.
Lemma tail_bound ex p : wf_exp ex -> top ex < p -> Forall (fun ob => prec (fst ob) < p) (tail ex).
Proof.
  revert p. induction ex; intros p H T; cbn [tail]; try constructor. cbn [wf_exp top] in *. apply Forall_app. split; [apply IHex1; [apply H|lia]|].
  constructor; [exact T|constructor].
Qed.
(** the longest prefix of one level *)
Lemma split_level p K : loosens p K -> exists K1 K2, K = K1 ++ K2 /\ Forall (fun ob => prec (fst ob) <= p) K1 /\
  match K2 with [] => True | (o, _) :: _ => p < prec o end.
Proof.
  induction K as [|[o b] K IH]; intro L; [exists [], []; auto|]. cbn [loosens] in L. destruct (Z.eq_dec (prec o) p) as [E|N].
  - rewrite E in L. destruct (IH (proj2 L)) as (K1 & K2 & -> & F1 & F2). exists ((o, b) :: K1), K2. split; [reflexivity|]. split; [|exact F2]. constructor; [cbn [fst]; lia|exact F1].
  - exists [], ((o, b) :: K). split; [reflexivity|]. split; [constructor|]. lia.
Qed.

Section W.
Variables (W : Z) (F : nat).
Hypothesis HW : 16 <= W.

(** ** The tokens ahead *)
(** the current token and those GetToken will deliver *)
Fixpoint stream (l : lexst) (ts : list token) : Prop :=
  match ts with
  | [] => True
  | t :: rest =>
      TokenType l = t_type t /\ OperatorPrecedence l = t_prec t /\ (t_type t = TOK_NUM -> TokenNumVal l = snd t) /\
      (rest <> [] -> forall s, lx s = l -> exists l', GetToken W F s = Ok (tt, set_lx l' s) /\ stream l' rest)
  end.
(** a token that does not continue a postfix expression *)
Definition ends (ts : list token) : Prop :=
  match ts with
  | [] => False
  | t :: _ => t_prec t <> PREC_STOP \/ t_type t = ch_semi \/ t_type t = ch_rpar \/ t_type t = ch_rbrack \/ t_type t = ch_colon
  end.
Definition prec_over (p : Z) (ts : list token) : Prop := match ts with [] => False | t :: _ => p < t_prec t end.
Lemma ktoks_ends K rest : ends rest -> ends (ktoks K ++ rest).
Proof. destruct K as [|[o b] K]; cbn [ktoks app]; [auto|]. intros _. left. cbn [t_prec fst snd]. pose proof (prec_range o). unfold PREC_STOP. lia. Qed.
Lemma ends_nil ts : ends ts -> ts <> [].
Proof. destruct ts; [intros []|discriminate]. Qed.

Lemma stream_next s t ts : stream (lx s) (t :: ts) -> ts <> [] -> exists l', GetToken W F s = Ok (tt, set_lx l' s) /\ stream l' ts.
Proof. intros (_ & _ & _ & H) N. apply H; auto. Qed.

Variable d : dcst.
Variable env : Z -> Z.
Hypothesis EO : env_ok env.
(** the variables are declared as ints *)
Definition declared (vo : arr Z) (ex : exp) : Prop := forall x, In x (vars ex) -> TOK_ID <= TOK_KEYWORD + x /\ exists Loc Val, int_var d vo x Loc Val.

Definition after (s s' : cc) (ex : exp) (e : emst) (v : Z) (rest : list token) : Prop :=
  exists e' l', s' = set_lx l' (set_em e' s) /\ stream l' rest /\ Sem d env ex e e' v.

Lemma after_at s s' ex e v rest : after s s' ex e v rest -> dc s = d -> dc s' = d /\ stream (lx s') rest /\ Sem d env ex e (em s') v /\ gen (em s') /\ VOff (em s') = VOff e.
Proof. intros (e' & l' & -> & S & M) D. split; [exact D|]. split; [exact S|]. split; [exact M|]. split; apply M. Qed.
Lemma after_trans s s1 s' ex e v rest ex1 e1 v1 rest1 : after s s1 ex1 e1 v1 rest1 -> after s1 s' ex e v rest -> after s s' ex e v rest.
Proof. intros (e2 & l2 & -> & _) (e' & l' & -> & H). exists e', l'. split; [destruct s; reflexivity|exact H]. Qed.

(** ** What each function of the parser does *)
Definition Good (ex : exp) (v : Z) (vo : arr Z) : Prop := wf_exp ex /\ eval env ex = Some v /\ right env ex /\ declared vo ex.
Definition PCast (n : nat) : Prop := forall ex v s x0 s' rest, Good ex v (VOff (em s)) -> top ex = 0 -> dc s = d -> gen (em s) ->
  stream (lx s) (toks ex ++ rest) -> ends rest -> pCast (tie W F n) s = Ok (x0, s') -> after s s' ex (em s) v rest.
Definition PUnary (n : nat) : Prop := forall ex v s x0 s' rest, Good ex v (VOff (em s)) -> top ex = 0 -> (forall e, ex <> EPar e) -> dc s = d -> gen (em s) ->
  stream (lx s) (toks ex ++ rest) -> ends rest -> pUnary (tie W F n) s = Ok (x0, s') -> after s s' ex (em s) v rest.
Definition PExpr (n : nat) : Prop := forall ex v s x0 s' rest, Good ex v (VOff (em s)) -> dc s = d -> gen (em s) ->
  stream (lx s) (toks ex ++ rest) -> ends rest -> prec_over PREC_COMMA rest -> pExpr (tie W F n) s = Ok (x0, s') -> after s s' ex (em s) v rest.
Definition PLoop (n : nat) : Prop := forall K a e va v s x0 s' rest Outer, K <> [] -> Forall (fun ob => prec (fst ob) <= Outer) K ->
  Good (build a K) v (VOff e) -> eval env a = Some va -> dc s = d -> gen e -> Sem d env a e (em s) va ->
  stream (lx s) (ktoks K ++ rest) -> ends rest -> prec_over Outer rest -> pExpr1 (tie W F n) Outer s = Ok (x0, s') -> after s s' (build a K) e v rest.

Lemma postfix_ends n s x0 s' rest : stream (lx s) rest -> ends rest -> pPostfix (tie W F n) s = Ok (x0, s') -> s' = s.
Proof.
  intros ST E H. destruct n; [discriminate H|]. cbn [tie pPostfix] in H. unfold ParsePostfixExpression, getl in H. mgoin H.
  destruct rest as [|t rest]; [destruct E|]. destruct ST as (T & P & _). rewrite P in H. cbn [ends] in E.
  destruct (Z.eqb_spec (t_prec t) PREC_STOP) as [|_]; cbn [negb] in H; [|oki H; reflexivity].
  destruct E as [N|E]; [contradiction|]. mgoin H.
  assert (B : (t_type t =? ch_semi) || (t_type t =? ch_rpar) || (t_type t =? ch_rbrack) || (t_type t =? ch_colon) = true) by (destruct E as [->|[->|[->| ->]]]; reflexivity).
  rewrite T, B in H. oki H. reflexivity.
Qed.

Lemma good_op o a b v vo : Good (EOp o a b) v vo -> exists va vb, Good a va vo /\ Good b vb vo /\ apply o va vb = Some v /\ top a <= prec o /\ top b < prec o /\
  (constant a && constant b = true \/ right_op o a b va vb) /\ int_range va /\ int_range vb.
Proof.
  intros (WF & E & R & D). cbn [wf_exp eval right] in *. destruct (eval env a) as [va|] eqn:Ea; [|discriminate E]. destruct (eval env b) as [vb|] eqn:Eb; [|discriminate E].
  destruct WF as (W1 & W2 & W3 & W4). destruct R as (R1 & R2 & R3). exists va, vb.
  split. { split; [exact W3|]. split; [exact Ea|]. split; [exact R1|]. intros x I. apply D. cbn [vars]. apply in_or_app. auto. }
  split. { split; [exact W4|]. split; [exact Eb|]. split; [exact R2|]. intros x I. apply D. cbn [vars]. apply in_or_app. auto. }
  split; [exact E|]. split; [exact W1|]. split; [exact W2|]. split. { destruct R3 as [R3|R3]; [left; exact R3|right; apply R3; reflexivity]. }
  split; [exact (eval_range env a va EO W3 Ea)|exact (eval_range env b vb EO W4 Eb)].
Qed.
Lemma good_build a K v vo : Good (build a K) v vo -> exists va, Good a va vo.
Proof.
  intros (WF & E & R & D). destruct (build_eval _ _ _ _ E) as [va Ea]. exists va. split; [exact (build_wf _ _ WF)|]. split; [exact Ea|]. split; [exact (build_right _ _ _ R)|].
  intros x I. apply D. apply build_vars. exact I.
Qed.

(** *** The loop over tighter operators, scc.c:2449-2455 *)
Lemma rhs_ok n : PLoop n -> forall fuel K a e va v s x0 s' rest Prec p, Forall (fun ob => prec (fst ob) < Prec) K -> loosens p K -> Prec <= 10 \/ prec_over Prec rest ->
  Good (build a K) v (VOff e) -> eval env a = Some va -> dc s = d -> gen e -> Sem d env a e (em s) va ->
  stream (lx s) (ktoks K ++ rest) -> ends rest -> prec_over (Prec - 1) rest ->
  loopM fuel (fun _ : unit =>
    let! p := getl OperatorPrecedence in
    if (Prec <? p) || ((p =? Prec) && negb (p =? PREC_ASSIGN)) then ret (inr tt)
    else pExpr1 (tie W F n) p ;; ret (inl tt)) tt s = Ok (x0, s') -> after s s' (build a K) e v rest.
Proof.
  intro PL. induction fuel as [|fuel IH]; intros K a e va v s x0 s' rest Prec p FP LS P10 GD EA D Ge SM ST EN PO H; [discriminate H|].
  cbn [loopM] in H. unfold getl in H. mgoin H. destruct K as [|[o b] K].
  - cbn [ktoks app] in ST. destruct rest as [|t rest]; [destruct EN|]. cbn [prec_over] in PO. pose proof ST as (T & P & _). rewrite P in H.
    assert (B : (Prec <? t_prec t) || ((t_prec t =? Prec) && negb (t_prec t =? PREC_ASSIGN)) = true) by (cbn [prec_over] in P10; unfold PREC_ASSIGN; lia).
    rewrite B in H. mgoin H. oki H. cbn [build fold_left] in *. destruct GD as (_ & E & _). rewrite EA in E. injection E as <-.
    exists (em s), (lx s). split; [destruct s; reflexivity|]. auto.
  - pose proof ST as (T & P & _). cbn [t_prec fst snd] in P. rewrite P in H. inversion FP as [|? ? FP1 FP2]; subst. cbn [fst] in FP1.
    assert (B : (Prec <? prec o) || ((prec o =? Prec) && negb (prec o =? PREC_ASSIGN)) = false) by (unfold PREC_ASSIGN; lia). rewrite B in H.
    cbn [loosens] in LS. assert (LS' : loosens (prec o) ((o, b) :: K)) by (cbn [loosens]; split; [lia|apply LS]).
    destruct (split_level _ _ LS') as (K1 & K2 & EK & F1 & F2).
    assert (N1 : K1 <> []) by (intros ->; cbn [app] in EK; subst K2; lia).
    rewrite EK in *. rewrite build_app in *. rewrite ktoks_app, <- app_assoc in ST.
    assert (O2 : ends (ktoks K2 ++ rest)) by (apply ktoks_ends; exact EN).
    assert (P2 : prec_over (prec o) (ktoks K2 ++ rest)).
    { destruct K2 as [|[o2 b2] K2]; [cbn [ktoks app]; destruct rest; [destruct EN|cbn [prec_over] in *; lia]|]. cbn [ktoks app prec_over t_prec fst snd]. exact F2. }
    minv H y s1 E1. minv E1 y1 s2 E2. oki E1.
    destruct (good_build (build a K1) K2 v (VOff e) GD) as (v1 & G1).
    pose proof (PL K1 a e va v1 s y1 s2 (ktoks K2 ++ rest) (prec o) N1 F1 G1 EA D Ge SM ST O2 P2 E2) as A1.
    destruct (after_at _ _ _ _ _ _ A1 D) as (D1 & ST1 & SM1 & _ & V1).
    assert (LS2 : loosens (prec o) K2). { clear - LS' EK F1 F2 LS. destruct K2 as [|[o2 b2] K2]; [exact I|]. cbn [loosens]. split; [lia|].
      assert (Q : forall (L : list (oper * exp)) q, loosens q (L ++ (o2, b2) :: K2) -> loosens (prec o2) K2) by (induction L as [|[? ?] L IHK]; cbn [app loosens]; intros q [_ Q]; [exact Q|exact (IHK _ Q)]).
      exact (Q K1 _ LS'). }
    assert (FP3 : Forall (fun ob => prec (fst ob) < Prec) K2) by (apply Forall_app in FP; apply FP).
    apply (after_trans s s2 s' _ _ _ _ _ _ _ _ A1). apply (IH K2 (build a K1) e v1 v s2 x0 s' rest Prec (prec o) FP3 LS2 P10 GD (proj1 (proj2 G1)) D1 Ge SM1 ST1 EN PO H).
Qed.

(** *** One operator, scc.c:2403-2628 *)
Lemma sem_start ex e e' v : Sem d env ex e e' v -> gen e'.
Proof. intros H. apply H. Qed.
Lemma body_ok n : PCast n -> PLoop n -> forall o b a e v s x0 s' rest,
  Good (EOp o a b) v (VOff e) -> dc s = d -> gen e -> (forall va, eval env a = Some va -> Sem d env a e (em s) va) ->
  stream (lx s) (((op_tok o, prec o, 0) :: toks b) ++ rest) -> ends rest -> prec_over (prec o - 1) rest ->
  expr1_body W F (tie W F n) s = Ok (x0, s') -> after s s' (EOp o a b) e v rest.
Proof.
  intros PC PL o b a e v s x0 s' rest GD D Ge SM ST EN PO H.
  destruct (good_op _ _ _ _ _ GD) as (va & vb & Ga & Gb & Ao & Ta & Tb & Ro & Ra & Rb). specialize (SM va (proj1 (proj2 Ga))).
  cbn [app] in ST. pose proof (prec_range o) as PR. unfold expr1_body, getl in H. mgoin H.
  pose proof ST as (T & P & _). cbn [t_type t_prec fst snd] in T, P. rewrite T, P in H.
  assert (N0 : toks b ++ rest <> []) by (destruct rest; [destruct EN|]; destruct (toks b); discriminate).
  destruct (stream_next _ _ _ ST N0) as (l1 & G1 & ST1). unfold next in H. rewrite (bind_ok _ _ _ _ _ G1) in H. clear G1 ST. set (s1 := set_lx l1 s) in *.
  assert (Q1 : op_tok o =? ch_quest = false) by (destruct o as [[]|[]]; reflexivity).
  assert (Q2 : prec o =? PREC_ASSIGN = false) by (unfold PREC_ASSIGN; lia).
  assert (Q3 : op_tok o =? TOK_OROR = false) by (destruct o as [[]|[]]; reflexivity).
  assert (Q4 : op_tok o =? TOK_ANDAND = false) by (destruct o as [[]|[]]; reflexivity).
  assert (Q5 : op_tok o =? ch_comma = false) by (destruct o as [[]|[]]; reflexivity).
  rewrite Q1, Q2 in H. mgoin H. minv H y1 s2 E1. mgoin H. rewrite Q3, Q4 in H. cbn [orb] in H. mgoin H.
  unfold gete in H. mgoin H. minv H y2 s3 E2. mgoin H. minv H y3 s4 E3. mgoin H. rewrite Q5 in H.
  assert (LP : left_prep W s1 = Ok (tt, s4)).
  { unfold left_prep. destruct y1, y2, y3. rewrite (bind_ok _ _ _ _ _ E1). unfold gete. rewrite bind_gets. rewrite (bind_ok _ _ _ _ _ E2). rewrite !bind_gets.
    rewrite Q5 in E3. cbn [negb] in E3. rewrite andb_true_r in E3. exact E3. }
  destruct (left_sem W HW d env a e s1 tt s4 va (proj1 (proj2 Ga)) Ge SM LP) as (e2 & -> & LF). clear LP E1 E2 E3 y1 y2 y3 s2 s3.
  destruct (Left_gen _ _ _ _ _ _ Ge LF) as (G2 & V2 & X2).
  minv H y1 s2 E1.
  assert (TB : Forall (fun ob => prec (fst ob) < prec o) (tail b)) by (apply tail_bound; [apply Gb|exact Tb]).
  assert (Gb' : Good (build (head b) (tail b)) vb (VOff e2)) by (rewrite head_tail, V2; exact Gb).
  destruct (good_build _ _ _ _ Gb') as (vh & Gh).
  rewrite toks_head, <- app_assoc in ST1. set (s4 := set_em e2 s1) in *.
  assert (EH : ends (ktoks (tail b) ++ rest)) by (apply ktoks_ends; exact EN).
  pose proof (PC (head b) vh s4 y1 s2 (ktoks (tail b) ++ rest) Gh (top_head b) D G2 ST1 EH E1) as A1.
  destruct (after_at _ _ _ _ _ _ A1 D) as (D2 & ST2 & SM2 & _ & V3). change (em s4) with e2 in *.
  minv H y2 s3 E2.
  assert (A2 : after s2 s3 b e2 vb rest).
  { rewrite <- (head_tail b). apply (rhs_ok n PL F (tail b) (head b) e2 vh vb s2 y2 s3 rest (prec o) 0 TB); auto.
    - pose proof (wf_loosens (head b) (tail b) (proj1 Gb')) as L. rewrite top_head in L. exact L.
    - lia.
    - apply Gh. }
  destruct (after_at _ _ _ _ _ _ A2 D2) as (D3 & ST3 & SM3 & _ & V4).
  change (0 <=? -1) with false in H. cbv zeta in H. 
  destruct (after_sem W HW d env o a b e va vb v EO Ge (proj1 (proj2 Gb)) Ra Rb Ao e2 s3 (CurrentTypeExtra e2) x0 s' Ro LF SM3 H) as (e' & -> & SM').
  destruct A1 as (? & ? & -> & _). destruct A2 as (? & l3 & -> & _). exists e', l3. split; [unfold s4, s1; destruct s; reflexivity|]. split; [exact ST3|exact SM'].
Qed.

Lemma loop_step n : PCast n -> PLoop n -> PLoop (S n).
Proof.
  intros PC PL K a e va v s x0 s' rest Outer NE FK GD EA D Ge SM ST EN PO H.
  cbn [tie pExpr1] in H. unfold ParseExpr1 in H. minv H y s1 E. destruct K as [|[o b] K]; [destruct NE; reflexivity|].
  inversion FK as [|? ? F1 F2]; subst. cbn [fst] in F1.
  assert (G1 : exists v1, Good (EOp o a b) v1 (VOff e)) by (apply (good_build (EOp o a b) K v); exact GD). destruct G1 as (v1 & G1).
  cbn [ktoks] in ST. rewrite <- app_assoc in ST.
  assert (EK : ends (ktoks K ++ rest)) by (apply ktoks_ends; exact EN).
  assert (LS : loosens (prec o) K) by (apply (wf_loosens (EOp o a b)); apply GD).
  assert (PK : prec_over (prec o - 1) (ktoks K ++ rest)).
  { destruct K as [|[o2 b2] K]; cbn [ktoks app prec_over loosens] in *; [destruct rest; [destruct EN|cbn [prec_over] in *; lia]|]. cbn [t_prec fst snd]. lia. }
  assert (A1 : after s s1 (EOp o a b) e v1 (ktoks K ++ rest)).
  { apply (body_ok n PC PL o b a e v1 s y s1); auto. intros w Ew. rewrite EA in Ew. injection Ew as <-. exact SM. }
  destruct (after_at _ _ _ _ _ _ A1 D) as (D1 & ST1 & SM1 & _ & _). unfold getl in H. mgoin H.
  destruct K as [|[o2 b2] K].
  - cbn [ktoks app] in *. destruct rest as [|t rest]; [destruct EN|]. cbn [prec_over] in PO. pose proof ST1 as (_ & P1 & _). rewrite P1 in H.
    destruct (Z.leb_spec (t_prec t) Outer); [lia|]. oki H. cbn [build fold_left fst snd] in *.
    assert (v1 = v) by (destruct G1 as (_ & X1 & _), GD as (_ & X2 & _); congruence). subst v1. exact A1.
  - pose proof ST1 as (_ & P1 & _). cbn [t_prec fst snd ktoks app] in P1. rewrite P1 in H. inversion F2 as [|? ? F3 F4]; subst. cbn [fst] in F3.
    destruct (Z.leb_spec (prec o2) Outer); [|lia].
    apply (after_trans s s1 s' _ _ _ _ _ _ _ _ A1).
    apply (PL ((o2, b2) :: K) (EOp o a b) e v1 v s1 x0 s' rest Outer ltac:(discriminate) F2 GD (proj1 (proj2 G1)) D1 Ge SM1 ST1 EN PO H).
Qed.

(** *** Operands *)
Lemma after_start s s1 s' e1 l1 ex e v rest : s1 = set_lx l1 (set_em e1 s) -> after s1 s' ex e v rest -> after s s' ex e v rest.
Proof. intros -> (e' & l' & -> & H). exists e', l'. split; [destruct s; reflexivity|exact H]. Qed.

Lemma num_ok n v s x0 s' rest : 0 <= v < 32768 -> gen (em s) -> stream (lx s) (toks (ENum v) ++ rest) -> ends rest ->
  (ParsePrimaryExpression W F (tie W F n) ;; pPostfix (tie W F n)) s = Ok (x0, s') -> after s s' (ENum v) (em s) v rest.
Proof.
  intros R G ST EN H. minv H y s1 E. unfold ParsePrimaryExpression, getl in E. mgoin E. cbn [toks app] in ST. pose proof ST as (T & _ & NV & _). cbn [t_type fst snd] in T, NV.
  rewrite T in E. change (TOK_NUM =? ch_lpar) with false in E. change (TOK_NUM =? TOK_NUM) with true in E. cbv iota in E. unfold setT, setV, upde in E. mgoin E.
  change (TokenNumVal (lx (set_em (set_CurrentType (VT_LOCLIT + VT_INT) (em s)) s))) with (TokenNumVal (lx s)) in E. rewrite (NV eq_refl) in E. rewrite set_em_em in E.
  match type of E with next _ _ ?st = _ => set (st1 := st) in * end.
  destruct (stream_next st1 _ _ ST (ends_nil _ EN)) as (l1 & G1 & ST1). unfold next in E. rewrite G1 in E. oki E.
  apply (postfix_ends n _ _ _ rest) in H; [|exact ST1|exact EN]. subst s'.
  set (e' := set_CurrentVal v (set_CurrentType (VT_LOCLIT + VT_INT) (em s))). exists e', l1. split; [unfold st1, e'; destruct s; reflexivity|]. split; [exact ST1|].
  assert (K : kin (em s) e') by (repeat split). split; [exact (kin_gen _ _ K G)|]. split; [reflexivity|]. split; [exact (ext_refl (em s))|]. cbn [constant]. auto.
Qed.

Lemma var_primary n x s y s1 rest : declared (VOff (em s)) (EVar x) -> dc s = d -> stream (lx s) (toks (EVar x) ++ rest) -> rest <> [] ->
  ParsePrimaryExpression W F (tie W F n) s = Ok (y, s1) ->
  exists Loc Val e' l1, int_var d (VOff (em s)) x Loc Val /\ s1 = set_lx l1 (set_em e' s) /\ stream l1 rest /\ kin (em s) e' /\ lvar e' Loc Val.
Proof.
  intros DC D ST EN E. destruct (DC x (or_introl eq_refl)) as (TX & Loc & Val & IV). exists Loc, Val. unfold ParsePrimaryExpression, getl in E. mgoin E. cbn [toks app] in ST. pose proof ST as (T & _ & _ & _). cbn [t_type fst snd] in T.
  rewrite T in E. unfold TOK_ID, TOK_KEYWORD in TX.
  assert (B1 : TOK_KEYWORD + x =? ch_lpar = false) by (unfold TOK_KEYWORD, ch_lpar; lia). assert (B2 : TOK_KEYWORD + x =? TOK_NUM = false) by (unfold TOK_KEYWORD, TOK_NUM; lia).
  assert (B3 : TOK_KEYWORD + x =? TOK_STRLIT = false) by (unfold TOK_KEYWORD, TOK_STRLIT; lia).
  assert (B4 : (TOK_KEYWORD + x =? TOK_VA_ARG) || (TOK_KEYWORD + x =? TOK_VA_START) || (TOK_KEYWORD + x =? TOK_VA_END) = false) by (unfold TOK_KEYWORD, TOK_VA_ARG, TOK_VA_START, TOK_VA_END; lia).
  rewrite B1, B2, B3, B4 in E. unfold ExpectId, getl in E. mgoin E. rewrite T in E. assert (B5 : TOK_ID <=? TOK_KEYWORD + x = true) by (unfold TOK_KEYWORD, TOK_ID; lia). rewrite B5 in E.
  destruct (stream_next _ _ _ ST EN) as (l1 & G1 & ST1). rewrite bind_assoc in E. rewrite (bind_ok _ _ _ _ _ G1) in E. mgoin E.
  replace (TOK_KEYWORD + x - TOK_KEYWORD) with x in E by lia. unfold setV, upde, HandlePrimaryId, gete, getd in E. mgoin E.
  set (e0 := set_CurrentVal x (em (set_lx l1 s))) in *. set (s0 := set_em e0 (set_lx l1 s)) in *.
  change (CurrentVal (em s0)) with x in E. change (dc s0) with (dc s) in E. rewrite D in E.
  pose proof IV as (NZ & VT & LC). destruct (Z.eqb_spec (aget (VarLookup d) x) 0) as [|_]; [contradiction|]. cbv zeta in E. mgoin E.
  change (VOff (em s0)) with (VOff (em s)) in E. unfold upde in E. mgoin E.
  set (v := aget (VarLookup d) x - 1) in *.
  match type of E with context [dc ?st] => change (dc st) with (dc s) in E end. rewrite D, VT in E.
  set (e1 := set_CurrentVal (aget (VOff (em s)) v) (em s0)) in *. set (t1 := set_em e1 s0) in *. set (ty := Z.lor (VT_INT + Loc) VT_LVAL) in *.
  set (e2 := set_CurrentType ty (em t1)) in *. set (t2 := set_em e2 t1) in *.
  assert (TY : ty = VT_INT + VT_LVAL + Loc /\ Z.land ty VT_LOCMASK = Loc) by (unfold ty; destruct (loc_cases _ _ _ _ _ IV) as [->| ->]; split; reflexivity).
  destruct TY as [TY1 TY2]. rewrite TY2 in E. 
  assert (R : exists e', s1 = set_lx l1 (set_em e' s) /\ kin (em s) e' /\ lvar e' Loc Val).
  { destruct LC as [[-> ->]|(-> & -> & _)].
    - change (VT_LOCOFF =? VT_LOCLIT) with false in E. change (VT_LOCOFF =? VT_LOCGLOB) with false in E. cbv iota in E. cbn [when] in E. rewrite (bind_ok _ _ t2 tt t2) in E by reflexivity. mgoin E. oki E.
      eexists. split; [unfold t2, t1, s0; destruct s; reflexivity|]. split; [repeat split|]. split; [exact TY1|reflexivity].
    - change (VT_LOCGLOB =? VT_LOCLIT) with false in E. change (VT_LOCGLOB =? VT_LOCGLOB) with true in E. cbv iota in E. cbn [when] in E. unfold upde in E. mgoin E. oki E.
      eexists. split; [unfold t2, t1, s0; destruct s; reflexivity|]. split; [repeat split|]. split; [exact TY1|reflexivity]. }
  destruct R as (e' & -> & K & LV). exists e', l1. auto.
Qed.
Lemma var_ok n x s x0 s' rest : declared (VOff (em s)) (EVar x) -> dc s = d -> gen (em s) -> stream (lx s) (toks (EVar x) ++ rest) -> ends rest ->
  (ParsePrimaryExpression W F (tie W F n) ;; pPostfix (tie W F n)) s = Ok (x0, s') -> after s s' (EVar x) (em s) (env x) rest.
Proof.
  intros DC D G ST EN H. minv H y s1 E. destruct (var_primary n x s y s1 rest DC D ST (ends_nil _ EN) E) as (Loc & Val & e' & l1 & IV & -> & ST1 & K & LV).
  apply (postfix_ends n _ _ _ rest) in H; [|exact ST1|exact EN]. subst s'.
  exists e', l1. split; [reflexivity|]. split; [exact ST1|]. split; [exact (kin_gen _ _ K G)|]. split; [apply K|]. split; [apply ext_kin; exact K|].
  cbn [constant kvar]. split; [exact K|]. exists Loc, Val. auto.
Qed.

Lemma unary_step n : PCast n -> PUnary (S n).
Proof.
  intros PC ex v s x0 s' rest (WF & EV & R & DC) TP NP D G ST EN H. cbn [tie pUnary] in H. unfold ParseUnaryExpression, getl in H. mgoin H.
  destruct ex as [z|x|ex|u ex|o a b]; [| |destruct (NP ex eq_refl)| |pose proof (prec_range o); cbn [top] in TP; lia].
  - cbn [toks app] in ST. pose proof ST as (T & _). cbn [t_type fst snd] in T. rewrite T in H.
    repeat match type of H with context [TOK_NUM =? ?y] => change (TOK_NUM =? y) with false in H end. cbn [orb] in H.
    cbn [eval wf_exp] in *. injection EV as <-. apply (num_ok n z s x0 s' rest WF G); assumption.
  - pose proof ST as (T & _). cbn [t_type fst snd] in T. rewrite T in H. destruct (DC x (or_introl eq_refl)) as (TX & _). unfold TOK_ID, TOK_KEYWORD in TX.
    assert (NE : forall y, y < 187 -> (TOK_KEYWORD + x =? y) = false) by (intros; unfold TOK_KEYWORD; lia).
    rewrite !NE in H by reflexivity. cbn [orb] in H. cbn [eval] in EV. injection EV as <-. apply (var_ok n x s x0 s' rest DC D G ST EN H).
  - cbn [toks app wf_exp eval right] in *. destruct (eval env ex) as [w|] eqn:EW; [|discriminate EV]. destruct WF as [TT WF], R as [R RUN].
    pose proof ST as (T & _). rewrite T in H.
    assert (B : (t_type (un_tok u) =? ch_minus) || (t_type (un_tok u) =? ch_bang) || (t_type (un_tok u) =? ch_star) || (t_type (un_tok u) =? ch_amp) || (t_type (un_tok u) =? ch_tilde) || (t_type (un_tok u) =? ch_plus) = true) by (destruct u; reflexivity).
    rewrite B in H.
    assert (N0 : toks ex ++ rest <> []) by (destruct rest; [destruct EN|]; destruct (toks ex); discriminate).
    destruct (stream_next _ _ _ ST N0) as (l1 & G1 & ST1). unfold next in H. rewrite (bind_ok _ _ _ _ _ G1) in H. minv H y s1 E.
    assert (A1 : after (set_lx l1 s) s1 ex (em s) w rest) by (apply (PC ex w (set_lx l1 s) y s1 rest); auto; split; [exact WF|]; split; [exact EW|]; split; [exact R|exact DC]).
    destruct (after_at _ _ _ _ _ _ A1 D) as (D1 & ST2 & SM & _ & _).
    destruct (unary_sem W HW d env u ex (em s) s1 x0 s' w v EW EV (eval_range _ _ _ EO WF EW) RUN G SM H) as (e' & -> & SM').
    destruct A1 as (? & l' & -> & _). exists e', l'. split; [destruct s; reflexivity|]. split; [exact ST2|exact SM'].
Qed.

(** the tokens that can begin an expression begin no type *)
Lemma not_type ex rest s : declared (VOff (em s)) ex -> dc s = d -> stream (lx s) (toks ex ++ rest) -> IsTypeStart s = Ok (false, s).
Proof.
  intros DC D ST. unfold IsTypeStart, LookupTypedef, getl, getd.
  assert (FT : exists t ts, toks ex ++ rest = t :: ts /\ (t_type t < 150 /\ existsb (Z.eqb (t_type t)) type_tokens = false \/ exists x, In x (vars ex) /\ t_type t = TOK_KEYWORD + x)).
  { clear ST. induction ex as [z|x|ex IH|u ex IH|o a IHa b IHb] in rest, DC |- *.
    - eexists _, _. split; [reflexivity|]. left. split; reflexivity.
    - eexists _, _. split; [reflexivity|]. right. exists x. split; [left; reflexivity|reflexivity].
    - eexists _, _. split; [reflexivity|]. left. split; reflexivity.
    - eexists _, _. split; [reflexivity|]. left. destruct u; split; reflexivity.
    - cbn [toks]. rewrite <- app_assoc. destruct (IHa (((op_tok o, prec o, 0) :: toks b) ++ rest)) as (t & ts & E & C); [intros x I; apply DC; cbn [vars]; apply in_or_app; auto|].
      exists t, ts. split; [exact E|]. destruct C as [C|(x & I & C)]; [left; exact C|right; exists x; split; [cbn [vars]; apply in_or_app; auto|exact C]]. }
  destruct FT as (t & ts & E & C). rewrite E in ST. destruct ST as (T & _). rewrite bind_gets, T. destruct C as [[C1 C2]|(x & I & C)].
  - rewrite C2. rewrite bind_assoc, bind_gets, T. assert (B : t_type t <? TOK_ID = true) by (unfold TOK_ID; lia). rewrite B. reflexivity.
  - destruct (DC x I) as (TX & Loc & Val & NZ & VT & LC). rewrite C. unfold TOK_ID, TOK_KEYWORD in TX.
    assert (B1 : existsb (Z.eqb (TOK_KEYWORD + x)) type_tokens = false).
    { apply Bool.not_true_is_false. intro B. apply existsb_exists in B. destruct B as (y & Iy & Ey). apply Z.eqb_eq in Ey.
      assert (LT : forallb (fun y => y <? 187) type_tokens = true) by reflexivity. rewrite forallb_forall in LT. specialize (LT y Iy). unfold TOK_KEYWORD in Ey. lia. }
    rewrite B1, bind_assoc, bind_gets, T, C. assert (B : TOK_KEYWORD + x <? TOK_ID = false) by (unfold TOK_ID, TOK_KEYWORD; lia). rewrite B.
    rewrite bind_assoc, bind_gets. replace (TOK_KEYWORD + x - TOK_KEYWORD) with x by lia. rewrite D. destruct (Z.eqb_spec (aget (VarLookup d) x) 0) as [|_]; [contradiction|].
    rewrite bind_assoc, bind_gets, D, VT. replace (hasb (VT_INT + Loc) VT_TYPEDEF) with false by (destruct LC as [[-> _]|[-> _]]; reflexivity). reflexivity.
Qed.

Lemma cast_step n : PExpr n -> PUnary n -> PCast (S n).
Proof.
  intros PE PU ex v s x0 s' rest GD TP D G ST EN H. cbn [tie pCast] in H. unfold ParseCastExpression, getl in H. mgoin H.
  destruct ex as [z|x|ex|u ex|o a b]; [| | | |pose proof (prec_range o); cbn [top] in TP; lia].
  - pose proof ST as (T & _). cbn [t_type fst snd] in T. rewrite T in H. change (TOK_NUM =? ch_lpar) with false in H. apply (PU (ENum z) v s x0 s' rest); auto; discriminate.
  - pose proof ST as (T & _). cbn [t_type fst snd] in T. rewrite T in H. pose proof GD as (WF & _ & _ & DC). destruct (DC x (or_introl eq_refl)) as (TX & _).
    assert (B1 : TOK_KEYWORD + x =? ch_lpar = false) by (unfold TOK_ID, TOK_KEYWORD, ch_lpar in *; lia). rewrite B1 in H. apply (PU (EVar x) v s x0 s' rest); auto; discriminate.
  - cbn [toks app] in ST. rewrite <- app_assoc in ST. cbn [app] in ST. pose proof ST as (T & _). cbn [t_type fst snd] in T. rewrite T in H. change (ch_lpar =? ch_lpar) with true in H. cbv iota in H.
    assert (N0 : toks ex ++ (ch_rpar, PREC_STOP, 0) :: rest <> []) by (destruct (toks ex); discriminate).
    destruct (stream_next _ _ _ ST N0) as (l1 & G1 & ST1). unfold next in H. rewrite (bind_ok _ _ _ _ _ G1) in H.
    destruct GD as (WF & EV & R & DC). set (s1 := set_lx l1 s) in *.
    assert (NT : IsTypeStart s1 = Ok (false, s1)) by (apply (not_type ex ((ch_rpar, PREC_STOP, 0) :: rest)); [exact DC|exact D|exact ST1]).
    rewrite (bind_ok _ _ _ _ _ NT) in H. minv H y s2 E.
    assert (A1 : after s1 s2 ex (em s) v ((ch_rpar, PREC_STOP, 0) :: rest)).
    { apply (PE ex v s1 y s2); [split; [exact WF|]; split; [exact EV|]; split; [exact R|exact DC]|exact D|exact G|exact ST1| | |exact E].
      - right. right. left. reflexivity.
      - reflexivity. }
    destruct (after_at _ _ _ _ _ _ A1 D) as (D2 & ST2 & SM & _ & _). unfold Expect, getl in H. mgoin H. pose proof ST2 as (T2 & _). cbn [t_type fst snd] in T2. rewrite T2 in H.
    change (ch_rpar =? ch_rpar) with true in H. cbv iota in H. destruct (stream_next _ _ _ ST2 (ends_nil _ EN)) as (l2 & G2 & ST3). rewrite (bind_ok _ _ _ _ _ G2) in H.
    apply (postfix_ends n _ _ _ rest) in H; [|exact ST3|exact EN]. subst s'. destruct A1 as (e' & l' & -> & _).
    exists e', l2. split; [unfold s1; destruct s; reflexivity|]. split; [exact ST3|exact SM].
  - pose proof ST as (T & _). rewrite T in H. assert (B : t_type (un_tok u) =? ch_lpar = false) by (destruct u; reflexivity). rewrite B in H.
    apply (PU (EUn u ex) v s x0 s' rest); auto; discriminate.
Qed.

(** an expression up to operators of level p, as ParseExpr and ParseAssignmentExpression *)
Lemma upto_ok n p ex v s x0 s' rest : 10 <= p -> PCast n -> PLoop n -> Good ex v (VOff (em s)) -> dc s = d -> gen (em s) ->
  stream (lx s) (toks ex ++ rest) -> ends rest -> prec_over p rest ->
  (pCast (tie W F n) ;; let! q := getl OperatorPrecedence in when (q <=? p) (pExpr1 (tie W F n) p)) s = Ok (x0, s') -> after s s' ex (em s) v rest.
Proof.
  intros P10 PC PL GD D G ST EN PO H. minv H y s1 E. rewrite toks_head, <- app_assoc in ST.
  assert (GD' : Good (build (head ex) (tail ex)) v (VOff (em s))) by (rewrite head_tail; exact GD).
  destruct (good_build _ _ _ _ GD') as (vh & Gh).
  assert (EH : ends (ktoks (tail ex) ++ rest)) by (apply ktoks_ends; exact EN).
  pose proof (PC (head ex) vh s y s1 _ Gh (top_head ex) D G ST EH E) as A1.
  destruct (after_at _ _ _ _ _ _ A1 D) as (D1 & ST1 & SM & _ & _). unfold getl in H. mgoin H.
  rewrite <- (head_tail ex). destruct (tail ex) as [|[o b] K] eqn:TE.
  - cbn [ktoks app] in ST1. destruct rest as [|t rest]; [destruct EN|]. pose proof ST1 as (_ & P1 & _). rewrite P1 in H. cbn [prec_over] in PO.
    destruct (Z.leb_spec (t_prec t) p); [lia|]. cbn [when] in H. oki H. cbn [build fold_left] in *.
    assert (vh = v) by (destruct Gh as (_ & X1 & _), GD' as (_ & X2 & _); congruence). subst vh. exact A1.
  - pose proof ST1 as (_ & P1 & _). cbn [t_prec fst snd ktoks app] in P1. rewrite P1 in H. pose proof (prec_range o).
    destruct (Z.leb_spec (prec o) p); [|lia]. cbn [when] in H. apply (after_trans s s1 s' _ _ _ _ _ _ _ _ A1).
    apply (PL ((o, b) :: K) (head ex) (em s) vh v s1 x0 s' rest p); auto; [discriminate| |apply Gh].
    apply Forall_forall. intros ob _. pose proof (prec_range (fst ob)). lia.
Qed.

Theorem parses n : PCast n /\ PUnary n /\ PExpr n /\ PLoop n.
Proof.
  induction n as [|n (IC & IU & IE & IL)].
  - repeat split; intro; intros; discriminate.
  - split; [apply cast_step; assumption|]. split; [apply unary_step; assumption|]. split; [|apply loop_step; assumption].
    intros ex v s x0 s' rest GD D G ST EN PO H. apply (upto_ok n PREC_COMMA ex v s x0 s' rest); auto. discriminate.
Qed.
End W.
