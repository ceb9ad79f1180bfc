(** Two runs of the compiler on the same characters, delivered in different reads and
    with different bounds on the loops, agree unless one of them exhausts its bound. *)
From Verif Require Import Base SccState SccEmit SccLex SccInput SccDecl SccExpr SccStmt.

(** related states: same remaining characters, same everything else (but the line number) *)
Definition Rl (l1 l2 : lexst) : Prop := (exists cs, sees l1 cs /\ sees l2 cs) /\ view l1 = view l2.
Definition Rcc (RL : lexst -> lexst -> Prop) (s1 s2 : cc) : Prop := RL (lx s1) (lx s2) /\ em s1 = em s2 /\ dc s1 = dc s2.
Notation Rc := (Rcc Rl).

Definition orel {S A} (R : S -> S -> Prop) (o1 o2 : outcome (A * S)) : Prop :=
  o1 = OutOfFuel \/ o2 = OutOfFuel \/
  match o1, o2 with
  | Ok (a1, s1), Ok (a2, s2) => a1 = a2 /\ R s1 s2
  | Fatal, Fatal => True
  | UB, UB => True
  | _, _ => False
  end.
Definition rel {S A} (R : S -> S -> Prop) (m1 m2 : M S A) : Prop :=
  forall s1 s2, R s1 s2 -> orel R (m1 s1) (m2 s2).

Section Rules.
Context {S : Type} (R : S -> S -> Prop).
Lemma rel_ret {A} (a : A) : rel R (ret a) (ret a).
Proof. intros s1 s2 H. right. right. cbn. auto. Qed.
Lemma rel_bind {A B} (m1 m2 : M S A) (f1 f2 : A -> M S B) :
  rel R m1 m2 -> (forall a, rel R (f1 a) (f2 a)) -> rel R (bind m1 f1) (bind m2 f2).
Proof.
  intros H G s1 s2 HR. unfold bind. destruct (H s1 s2 HR) as [->|[->|HH]].
  - left; reflexivity.
  - right; left; reflexivity.
  - destruct (m1 s1) as [[a1 t1]| | |], (m2 s2) as [[a2 t2]| | |]; cbn in HH; try tauto.
    all: first [right; right; exact I | left; reflexivity | destruct HH as [-> HR']; apply G; exact HR'].
Qed.
Lemma rel_fatal {A} : rel R (@fatal S A) fatal.
Proof. intros s1 s2 _. right. right. exact I. Qed.
Lemma rel_undef {A} : rel R (@undef S A) undef.
Proof. intros s1 s2 _. right. right. exact I. Qed.
Lemma rel_nofuel {A} (m : M S A) : rel R nofuel m.
Proof. intros s1 s2 _. left. reflexivity. Qed.
Lemma rel_nofuel2 {A} (m : M S A) : rel R m nofuel.
Proof. intros s1 s2 _. right. left. reflexivity. Qed.
Lemma rel_gets {A} (f : S -> A) : (forall s1 s2, R s1 s2 -> f s1 = f s2) -> rel R (gets f) (gets f).
Proof. intros H s1 s2 HR. right. right. cbn. auto. Qed.
Lemma rel_upd (f : S -> S) : (forall s1 s2, R s1 s2 -> R (f s1) (f s2)) -> rel R (upd f) (upd f).
Proof. intros H s1 s2 HR. right. right. cbn. auto. Qed.
Lemma rel_if {A} (b : bool) (m1 m2 n1 n2 : M S A) : rel R m1 m2 -> rel R n1 n2 -> rel R (if b then m1 else n1) (if b then m2 else n2).
Proof. destruct b; auto. Qed.
Lemma rel_when (b : bool) (m1 m2 : M S unit) : rel R m1 m2 -> rel R (when b m1) (when b m2).
Proof. destruct b; cbn; auto. intros _. apply rel_ret. Qed.
Lemma rel_failif (b : bool) : rel R (failif b) (failif b).
Proof. destruct b; [apply rel_fatal|apply rel_ret]. Qed.
Lemma rel_loop {X A} n1 : forall n2 (b1 b2 : X -> M S (X + A)) x, (forall x, rel R (b1 x) (b2 x)) ->
  rel R (loopM n1 b1 x) (loopM n2 b2 x).
Proof.
  induction n1 as [|n1 IH]; intros n2 b1 b2 x H; [apply rel_nofuel|].
  destruct n2 as [|n2]; [apply rel_nofuel2|]. cbn [loopM].
  apply rel_bind; [apply H|]. intros [x'|a]; [apply IH; auto|apply rel_ret].
Qed.
End Rules.

(** ** Lifting to the compiler state *)
Section Lift.
Context (RL : lexst -> lexst -> Prop).
Notation R := (Rcc RL).
Lemma rel_inlx {A} (m1 m2 : M lexst A) : rel RL m1 m2 -> rel R (inlx m1) (inlx m2).
Proof.
  intros H s1 s2 (HL & HE & HD). unfold inlx. destruct (H _ _ HL) as [->|[->|HH]]; [left; reflexivity|right; left; reflexivity|].
  destruct (m1 (lx s1)) as [[a1 t1]| | |], (m2 (lx s2)) as [[a2 t2]| | |]; cbn in HH; try tauto;
    try (left; reflexivity); try (right; right; exact I).
  destruct HH as [-> HR']. right; right. split; [reflexivity|]. split; [exact HR'|auto].
Qed.
Lemma rel_inem {A} (m : M emst A) : rel R (inem m) (inem m).
Proof.
  intros s1 s2 (HL & HE & HD). unfold inem. rewrite HE.
  destruct (m (em s2)) as [[a t]| | |]; [|right; right; exact I|right; right; exact I|left; reflexivity].
  right; right. split; [reflexivity|]. split; [exact HL|auto].
Qed.
Lemma rel_indc {A} (m : M dcst A) : rel R (indc m) (indc m).
Proof.
  intros s1 s2 (HL & HE & HD). unfold indc. rewrite HD.
  destruct (m (dc s2)) as [[a t]| | |]; [|right; right; exact I|right; right; exact I|left; reflexivity].
  right; right. split; [reflexivity|]. split; [exact HL|auto].
Qed.
Lemma rel_gete {A} (f : emst -> A) : rel R (gete f) (gete f).
Proof. apply rel_gets. intros s1 s2 (_ & -> & _). reflexivity. Qed.
Lemma rel_getd {A} (f : dcst -> A) : rel R (getd f) (getd f).
Proof. apply rel_gets. intros s1 s2 (_ & _ & ->). reflexivity. Qed.
Lemma rel_getl {A} (f : lexst -> A) : (forall l1 l2, RL l1 l2 -> f l1 = f l2) -> rel R (getl f) (getl f).
Proof. intro H. apply rel_gets. intros s1 s2 (HL & _). apply H. exact HL. Qed.
Lemma rel_upde (f : emst -> emst) : rel R (upde f) (upde f).
Proof. apply rel_upd. intros s1 s2 (HL & HE & HD). split; [exact HL|]. cbn. rewrite HE. auto. Qed.
Lemma rel_updd (f : dcst -> dcst) : rel R (updd f) (updd f).
Proof. apply rel_upd. intros s1 s2 (HL & HE & HD). split; [exact HL|]. cbn. rewrite HD. auto. Qed.
Lemma rel_updl (f : lexst -> lexst) : (forall l1 l2, RL l1 l2 -> RL (f l1) (f l2)) -> rel R (updl f) (updl f).
Proof. intro H. apply rel_upd. intros s1 s2 (HL & HE & HD). split; [apply H, HL|]. auto. Qed.
Lemma rel_lift_out {A} (o : outcome A) : rel R (lift_out o) (lift_out o).
Proof.
  intros s1 s2 H. unfold lift_out. destruct o; [right; right; cbn; auto|right; right; exact I|right; right; exact I|left; reflexivity].
Qed.
End Lift.

(** ** The lexer *)
Lemma Rl_view l1 l2 : Rl l1 l2 -> view l1 = view l2. Proof. intros [_ H]; exact H. Qed.
Lemma Rl_cur l1 l2 : Rl l1 l2 -> CurChar l1 = CurChar l2.
Proof. intros [(cs & [-> _] & [-> _]) _]. reflexivity. Qed.
Lemma Rl_upd f : (forall l, sees (f l) = sees l) -> (forall l1 l2, view l1 = view l2 -> view (f l1) = view (f l2)) ->
  forall l1 l2, Rl l1 l2 -> Rl (f l1) (f l2).
Proof. intros H1 H2 l1 l2 [(cs & S1 & S2) V]. split; [|auto]. exists cs. rewrite !H1. auto. Qed.

Ltac rl_get := let l1 := fresh in let l2 := fresh in let H := fresh in
  intros l1 l2 H; first
  [ exact (Rl_cur _ _ H)
  | exact (f_equal vTok (Rl_view _ _ H)) | exact (f_equal vNum (Rl_view _ _ H)) | exact (f_equal vStr (Rl_view _ _ H))
  | exact (f_equal vPrec (Rl_view _ _ H)) | exact (f_equal vIdPtr (Rl_view _ _ H)) | exact (f_equal vIdText (Rl_view _ _ H))
  | exact (f_equal vIdHash (Rl_view _ _ H)) | exact (f_equal vIdCount (Rl_view _ _ H))
  | exact (f_equal (fun v => aget (vIdText v) _) (Rl_view _ _ H)) | exact (f_equal (fun v => aget (vIdHash v) _) (Rl_view _ _ H)) ].
Ltac rl_upd := apply Rl_upd; [reflexivity|
  let l1 := fresh "l" in let l2 := fresh "l" in let H := fresh "V" in intros l1 l2 H;
  destruct l1, l2; unfold view in *; cbn in *; injection H; intros; subst; reflexivity].

Ltac rl :=
  cbv zeta;
  lazymatch goal with
  | |- rel _ (bind _ _) (bind _ _) => apply rel_bind; [rl | intro; rl]
  | |- rel _ (ret _) (ret _) => apply rel_ret
  | |- rel _ fatal fatal => apply rel_fatal
  | |- rel _ undef undef => apply rel_undef
  | |- rel _ nofuel _ => apply rel_nofuel
  | |- rel _ _ nofuel => apply rel_nofuel2
  | |- rel _ (when _ _) (when _ _) => apply rel_when; rl
  | |- rel _ (failif _) (failif _) => apply rel_failif
  | |- rel _ (gete _) (gete _) => apply rel_gete
  | |- rel _ (getd _) (getd _) => apply rel_getd
  | |- rel _ (upde _) (upde _) => apply rel_upde
  | |- rel _ (updd _) (updd _) => apply rel_updd
  | |- rel _ (inem _) (inem _) => apply rel_inem
  | |- rel _ (indc _) (indc _) => apply rel_indc
  | |- rel _ (inlx _) (inlx _) => apply rel_inlx; rl
  | |- rel _ (getl _) (getl _) => apply rel_getl; rl_get
  | |- rel _ (updl _) (updl _) => apply rel_updl; rl_upd
  | |- rel Rl (gets _) (gets _) => apply rel_gets; rl_get
  | |- rel Rl (upd _) (upd _) => apply rel_upd; rl_upd
  | |- rel _ (lift_out _) (lift_out _) => apply rel_lift_out
  | |- rel _ (loopM _ _ _) (loopM _ _ _) => apply rel_loop; intro; rl
  | |- rel _ (if _ then _ else _) (if _ then _ else _) => apply rel_if; rl
  | |- rel _ (match ?x with _ => _ end) (match ?x with _ => _ end) => destruct x; rl
  | |- _ => solve [auto with relh]
  end.

Lemma Rl_later l1 l2 : Rl l1 l2 -> exists cs, later l1 cs /\ later l2 cs.
Proof. intros [(cs & [_ H1] & [_ H2]) _]. eauto. Qed.
Lemma r_NextChar : rel Rl NextChar NextChar.
Proof.
  intros l1 l2 H. destruct (Rl_later _ _ H) as (cs & L1 & L2).
  destruct (NextChar_spec _ _ L1) as (k1 & E1 & S1 & V1 & _). destruct (NextChar_spec _ _ L2) as (k2 & E2 & S2 & V2 & _).
  rewrite E1, E2. right; right. split; [reflexivity|]. split; [eauto|]. rewrite V1, V2. apply H.
Qed.
Lemma r_nextc : rel Rl nextc nextc.
Proof.
  intros l1 l2 H. destruct (Rl_later _ _ H) as (cs & L1 & L2).
  destruct (nextc_spec _ _ L1) as (k1 & E1 & S1 & V1). destruct (nextc_spec _ _ L2) as (k2 & E2 & S2 & V2).
  rewrite E1, E2. right; right. split; [reflexivity|]. split; [eauto|]. rewrite V1, V2. apply H.
Qed.
Lemma r_Skip F1 F2 : rel Rl (SkipWhitespace F1) (SkipWhitespace F2).
Proof.
  intros l1 l2 [(cs & S1 & S2) V].
  destruct (SkipWhitespace_spec F1 _ _ S1) as [[_ ->]|E1]; [left; reflexivity|].
  destruct (SkipWhitespace_spec F2 _ _ S2) as [[_ ->]|E2]; [right; left; reflexivity|].
  right; right. destruct (skipws cs) as [[b r]|].
  - destruct E1 as (k1 & -> & T1 & V1), E2 as (k2 & -> & T2 & V2). split; [reflexivity|]. split; [eauto|]. congruence.
  - rewrite E1, E2. exact I.
Qed.
#[export] Hint Resolve r_NextChar r_nextc r_Skip : relh.

Section Two.
Variable W : Z.
Variables F1 F2 : nat.
Lemma r_GetNum n : forall i b, rel Rl (GetNum W i b n) (GetNum W i b n).
Proof. induction n as [|n IH]; intros i b; cbn [GetNum]; rl. Qed.
#[local] Hint Resolve r_GetNum : relh.
Lemma r_Unescape : rel Rl (Unescape W) (Unescape W).
Proof. unfold Unescape. rl. Qed.
#[local] Hint Resolve r_Unescape : relh.
Lemma r_GetStringLiteral : rel Rc (GetStringLiteral W F1) (GetStringLiteral W F2).
Proof. unfold GetStringLiteral. rl. Qed.
Lemma r_read_ident c : rel Rl (read_ident W F1 c) (read_ident W F2 c).
Proof. unfold read_ident. rl. Qed.
Lemma r_intern sp h : rel Rl (intern W sp h) (intern W sp h).
Proof. unfold intern. rl. Qed.
#[local] Hint Resolve r_GetStringLiteral r_read_ident r_intern : relh.
Lemma r_Identifier c : rel Rl (Identifier W F1 c) (Identifier W F2 c).
Proof. unfold Identifier. rl. Qed.
Lemma r_slash_op : rel Rl slash_op slash_op.
Proof. unfold slash_op, op2, op1. rl. Qed.
#[local] Hint Resolve r_slash_op r_Identifier : relh.
Lemma r_operator t : rel Rl (operator W t) (operator W t).
Proof. unfold operator, op2, op2k, op1. rl. Qed.
Lemma r_Number t : rel Rl (Number W t) (Number W t).
Proof. unfold Number. rl. Qed.
#[local] Hint Resolve r_operator r_Number : relh.
Lemma r_GetToken : rel Rc (GetToken W F1) (GetToken W F2).
Proof. unfold GetToken. rl. Qed.
#[local] Hint Resolve r_GetToken : relh.

(** ** The parser *)
Definition Rrec (r1 r2 : recs) : Prop :=
  rel Rc (pExpr r1) (pExpr r2) /\ rel Rc (pAssign r1) (pAssign r2) /\ rel Rc (pCast r1) (pCast r2) /\
  rel Rc (pUnary r1) (pUnary r2) /\ rel Rc (pPostfix r1) (pPostfix r2) /\ (forall n, rel Rc (pExpr1 r1 n) (pExpr1 r2 n)) /\
  rel Rc (pDeclSpecs r1) (pDeclSpecs r2) /\ (forall p, rel Rc (pDeclarator r1 p) (pDeclarator r2 p)) /\
  rel Rc (pStatement r1) (pStatement r2).

(* declarations *)
Lemma r_SizeofCurrentType : rel Rc SizeofCurrentType SizeofCurrentType.
Proof. unfold SizeofCurrentType. rl. Qed.
Lemma r_Expect t : rel Rc (Expect W F1 t) (Expect W F2 t).
Proof. unfold Expect. rl. Qed.
Lemma r_ExpectId : rel Rc (ExpectId W F1) (ExpectId W F2).
Proof. unfold ExpectId. rl. Qed.
Lemma r_LookupTypedef : rel Rc LookupTypedef LookupTypedef.
Proof. unfold LookupTypedef. rl. Qed.
#[local] Hint Resolve r_SizeofCurrentType r_Expect r_ExpectId r_LookupTypedef : relh.
Lemma r_IsTypeStart : rel Rc IsTypeStart IsTypeStart.
Proof. unfold IsTypeStart. rl. Qed.
Lemma r_AddVarDeclScope s i : rel Rc (AddVarDeclScope s i) (AddVarDeclScope s i).
Proof. unfold AddVarDeclScope. rl. Qed.
#[local] Hint Resolve r_IsTypeStart r_AddVarDeclScope : relh.
Lemma r_AddVarDecl i : rel Rc (AddVarDecl i) (AddVarDecl i).
Proof. unfold AddVarDecl. rl. Qed.
Lemma r_AddLateGlobalVar i : rel Rc (AddLateGlobalVar i) (AddLateGlobalVar i).
Proof. unfold AddLateGlobalVar. rl. Qed.
Lemma r_PushScope : rel Rc PushScope PushScope.
Proof. unfold PushScope. rl. Qed.
#[local] Hint Resolve r_AddVarDecl r_AddLateGlobalVar r_PushScope : relh.
Lemma r_pop_loop n : forall i, rel Rc (pop_loop n i) (pop_loop n i).
Proof. induction n; intro i; cbn [pop_loop]; rl. Qed.
#[local] Hint Resolve r_pop_loop : relh.
Lemma r_PopScope : rel Rc PopScope PopScope.
Proof. unfold PopScope. rl. Qed.
Lemma r_HandlePrimaryId : rel Rc HandlePrimaryId HandlePrimaryId.
Proof. unfold HandlePrimaryId. rl. Qed.
Lemma r_GetNamedLabel i : rel Rc (GetNamedLabel i) (GetNamedLabel i).
Proof. unfold GetNamedLabel. rl. Qed.
Lemma r_EmitGlobalLabel i : rel Rc (EmitGlobalLabel i) (EmitGlobalLabel i).
Proof. unfold EmitGlobalLabel. rl. Qed.
#[local] Hint Resolve r_PopScope r_HandlePrimaryId r_GetNamedLabel r_EmitGlobalLabel : relh.

(* expressions *)
Ltac un := unfold pushreg, next, o1, o2, o3, ow, setT, setV, setX, addOffset, addPending, clrPushAx, setPushAx, hasPushAx.
Lemma r_LvalToRval : rel Rc (LvalToRval W) (LvalToRval W).
Proof. unfold LvalToRval. un. rl. Qed.
Lemma r_DoIncDecOp o p : rel Rc (DoIncDecOp W o p) (DoIncDecOp W o p).
Proof. unfold DoIncDecOp. un. rl. Qed.
Lemma r_copy_literal n : rel Rc (copy_literal W n) (copy_literal W n).
Proof. induction n; cbn [copy_literal]; un; rl. Qed.
#[local] Hint Resolve r_LvalToRval r_DoIncDecOp r_copy_literal : relh.
Lemma r_GetVal : rel Rc (GetVal W) (GetVal W).
Proof. unfold GetVal. un. rl. Qed.
#[local] Hint Resolve r_GetVal : relh.
Lemma r_GetStoredVal r : rel Rc (GetStoredVal W r) (GetStoredVal W r).
Proof. unfold GetStoredVal. un. rl. Qed.
Lemma r_ToBool : rel Rc (ToBool W) (ToBool W).
Proof. unfold ToBool. un. rl. Qed.
#[local] Hint Resolve r_GetStoredVal r_ToBool : relh.
Lemma r_unary_op o : rel Rc (unary_op W o) (unary_op W o).
Proof. unfold unary_op. un. rl. Qed.
Lemma r_RemoveAssign o : rel Rc (RemoveAssign o) (RemoveAssign o).
Proof. unfold RemoveAssign. un. rl. Qed.
Lemma r_GetSimpleALU o : rel Rc (GetSimpleALU o) (GetSimpleALU o).
Proof. unfold GetSimpleALU. un. rl. Qed.
#[local] Hint Resolve r_unary_op r_RemoveAssign r_GetSimpleALU : relh.
Lemma r_FinishOp i : rel Rc (FinishOp i) (FinishOp i).
Proof. unfold FinishOp. un. rl. Qed.
#[local] Hint Resolve r_FinishOp : relh.
Lemma r_DoBinOp o r : rel Rc (DoBinOp W o r) (DoBinOp W o r).
Proof. unfold DoBinOp. un. rl. Qed.
Lemma r_DoRhsLvalBinOp o : rel Rc (DoRhsLvalBinOp W o) (DoRhsLvalBinOp W o).
Proof. unfold DoRhsLvalBinOp. un. rl. Qed.
#[local] Hint Resolve r_DoBinOp r_DoRhsLvalBinOp : relh.
Lemma r_DoRhsConstBinOp o : rel Rc (DoRhsConstBinOp W o) (DoRhsConstBinOp W o).
Proof. unfold DoRhsConstBinOp. un. rl. Qed.
Lemma r_DoCondHasExpr l f : rel Rc (DoCondHasExpr W l f) (DoCondHasExpr W l f).
Proof. unfold DoCondHasExpr. un. rl. Qed.
Lemma r_ForceToReg : rel Rc (ForceToReg W) (ForceToReg W).
Proof. unfold ForceToReg. un. rl. Qed.
Lemma r_HandleLhsLvalLoc o : rel Rc (HandleLhsLvalLoc W o) (HandleLhsLvalLoc W o).
Proof. unfold HandleLhsLvalLoc. un. rl. Qed.
Lemma r_member_expr : rel Rc (member_expr W F1) (member_expr W F2).
Proof. unfold member_expr. un. rl. Qed.
#[local] Hint Resolve r_DoRhsConstBinOp r_DoCondHasExpr r_ForceToReg r_HandleLhsLvalLoc r_member_expr : relh.
Lemma r_assign_op a b c d e : rel Rc (assign_op W a b c d e) (assign_op W a b c d e).
Proof. unfold assign_op. un. rl. Qed.
Lemma r_binary_op a b c d e : rel Rc (binary_op W a b c d e) (binary_op W a b c d e).
Proof. unfold binary_op. un. rl. Qed.
#[local] Hint Resolve r_assign_op r_binary_op : relh.

Section Recs.
Variables r1 r2 : recs.
Hypothesis HR : Rrec r1 r2.
Lemma h_pExpr : rel Rc (pExpr r1) (pExpr r2). Proof. apply HR. Qed.
Lemma h_pAssign : rel Rc (pAssign r1) (pAssign r2). Proof. apply HR. Qed.
Lemma h_pCast : rel Rc (pCast r1) (pCast r2). Proof. apply HR. Qed.
Lemma h_pUnary : rel Rc (pUnary r1) (pUnary r2). Proof. apply HR. Qed.
Lemma h_pPostfix : rel Rc (pPostfix r1) (pPostfix r2). Proof. apply HR. Qed.
Lemma h_pExpr1 n : rel Rc (pExpr1 r1 n) (pExpr1 r2 n). Proof. apply HR. Qed.
Lemma h_pDeclSpecs : rel Rc (pDeclSpecs r1) (pDeclSpecs r2). Proof. apply HR. Qed.
Lemma h_pDeclarator p : rel Rc (pDeclarator r1 p) (pDeclarator r2 p). Proof. apply HR. Qed.
Lemma h_pStatement : rel Rc (pStatement r1) (pStatement r2). Proof. apply HR. Qed.
#[local] Hint Resolve h_pExpr h_pAssign h_pCast h_pUnary h_pPostfix h_pExpr1 h_pDeclSpecs h_pDeclarator h_pStatement : relh.
Lemma r_HandleVarArg : rel Rc (HandleVarArg W F1 r1) (HandleVarArg W F2 r2).
Proof. unfold HandleVarArg. un. rl. Qed.
#[local] Hint Resolve r_HandleVarArg : relh.
Lemma r_ParsePrimaryExpression : rel Rc (ParsePrimaryExpression W F1 r1) (ParsePrimaryExpression W F2 r2).
Proof. unfold ParsePrimaryExpression. un. rl. Qed.
Lemma r_call_args : rel Rc (call_args W F1 r1) (call_args W F2 r2).
Proof. unfold call_args. un. rl. Qed.
#[local] Hint Resolve r_ParsePrimaryExpression r_call_args : relh.
Lemma r_call_expr : rel Rc (call_expr W F1 r1) (call_expr W F2 r2).
Proof. unfold call_expr. un. rl. Qed.
Lemma r_index_expr : rel Rc (index_expr W F1 r1) (index_expr W F2 r2).
Proof. unfold index_expr. un. rl. Qed.
#[local] Hint Resolve r_call_expr r_index_expr : relh.
Lemma r_ParsePostfixExpression : rel Rc (ParsePostfixExpression W F1 r1) (ParsePostfixExpression W F2 r2).
Proof. unfold ParsePostfixExpression. un. rl. Qed.
Lemma r_ParseUnaryExpression : rel Rc (ParseUnaryExpression W F1 r1) (ParseUnaryExpression W F2 r2).
Proof. unfold ParseUnaryExpression. un. rl. Qed.
Lemma r_ParseCastExpression : rel Rc (ParseCastExpression W F1 r1) (ParseCastExpression W F2 r2).
Proof. unfold ParseCastExpression. un. rl. Qed.
Lemma r_DoCond l f : rel Rc (DoCond W r1 l f) (DoCond W r2 l f).
Proof. unfold DoCond. un. rl. Qed.
Lemma r_ParseMaybeDead b : rel Rc (ParseMaybeDead r1 b) (ParseMaybeDead r2 b).
Proof. unfold ParseMaybeDead. un. rl. Qed.
#[local] Hint Resolve r_DoCond r_ParseMaybeDead : relh.
Lemma r_HandleCondOp : rel Rc (HandleCondOp W F1 r1) (HandleCondOp W F2 r2).
Proof. unfold HandleCondOp. un. rl. Qed.
Lemma r_rhs_loop n : rel Rc (rhs_loop F1 r1 n) (rhs_loop F2 r2 n).
Proof. unfold rhs_loop. un. rl. Qed.
#[local] Hint Resolve r_HandleCondOp r_rhs_loop : relh.
Lemma r_expr1_body : rel Rc (expr1_body W F1 r1) (expr1_body W F2 r2).
Proof. unfold expr1_body. un. rl. Qed.
#[local] Hint Resolve r_expr1_body : relh.
Lemma r_ParseExpr1 n : rel Rc (ParseExpr1 W F1 r1 n) (ParseExpr1 W F2 r2 n).
Proof. unfold ParseExpr1. un. rl. Qed.
Lemma r_ParseExpr : rel Rc (ParseExpr r1) (ParseExpr r2).
Proof. unfold ParseExpr. un. rl. Qed.
Lemma r_ParseAssignmentExpression : rel Rc (ParseAssignmentExpression r1) (ParseAssignmentExpression r2).
Proof. unfold ParseAssignmentExpression. un. rl. Qed.

(* statements *)
Lemma r_SaveBaseType : rel Rc SaveBaseType SaveBaseType.
Proof. unfold SaveBaseType. un. rl. Qed.
Lemma r_set_last a b c : rel Rc (set_last a b c) (set_last a b c).
Proof. unfold set_last. un. rl. Qed.
#[local] Hint Resolve r_SaveBaseType r_set_last : relh.
Lemma r_enum_spec : rel Rc (enum_spec W F1 r1) (enum_spec W F2 r2).
Proof. unfold enum_spec. un. rl. Qed.
Lemma r_struct_spec b : rel Rc (struct_spec W F1 r1 b) (struct_spec W F2 r2 b).
Proof. unfold struct_spec, open_struct, alloc_member, record_member. un. rl. Qed.
#[local] Hint Resolve r_enum_spec r_struct_spec : relh.
Lemma r_ParseDeclSpecs : rel Rc (ParseDeclSpecs W F1 r1) (ParseDeclSpecs W F2 r2).
Proof. unfold ParseDeclSpecs. un. rl. Qed.
Lemma r_param_list : rel Rc (param_list W F1 r1) (param_list W F2 r2).
Proof. unfold param_list. un. rl. Qed.
Lemma r_array_suffix : rel Rc (array_suffix W F1 r1) (array_suffix W F2 r2).
Proof. unfold array_suffix, open_array, set_bound, close_array. un. rl. Qed.
#[local] Hint Resolve r_param_list r_array_suffix : relh.
Lemma r_ParseDeclarator p : rel Rc (ParseDeclarator W F1 r1 p) (ParseDeclarator W F2 r2 p).
Proof. unfold ParseDeclarator, store_id. un. rl. Qed.
Lemma r_DoDecl : rel Rc (DoDecl r1) (DoDecl r2).
Proof. unfold DoDecl. un. rl. Qed.
#[local] Hint Resolve r_DoDecl : relh.
Lemma r_ParseFirstDecl : rel Rc (ParseFirstDecl r1) (ParseFirstDecl r2).
Proof. unfold ParseFirstDecl. un. rl. Qed.
Lemma r_NextDecl : rel Rc (NextDecl W F1 r1) (NextDecl W F2 r2).
Proof. unfold NextDecl. un. rl. Qed.
Lemma r_DoLoop a b : rel Rc (DoLoopStatements r1 a b) (DoLoopStatements r2 a b).
Proof. unfold DoLoopStatements. un. rl. Qed.
Lemma r_Ensure : rel Rc (EnsureSwitchStmt W) (EnsureSwitchStmt W).
Proof. unfold EnsureSwitchStmt. un. rl. Qed.
#[local] Hint Resolve r_ParseFirstDecl r_NextDecl r_DoLoop r_Ensure : relh.
Lemma r_GetSemicolon : rel Rc (GetSemicolon W F1) (GetSemicolon W F2).
Proof. unfold GetSemicolon. un. rl. Qed.
#[local] Hint Resolve r_GetSemicolon : relh.
Lemma r_compound_stmt : rel Rc (compound_stmt W F1 r1) (compound_stmt W F2 r2).
Proof. unfold compound_stmt. un. rl. Qed.
Lemma r_switch_stmt_label : rel Rc (switch_stmt_label W r1) (switch_stmt_label W r2).
Proof. unfold switch_stmt_label. un. rl. Qed.
Lemma r_case_list : rel Rc (case_list W F1 r1) (case_list W F2 r2).
Proof. unfold case_list. un. rl. Qed.
Lemma r_case_tests cs : forall o, rel Rc (case_tests W cs o) (case_tests W cs o).
Proof. induction cs; intro o; cbn [case_tests]; un; rl. Qed.
#[local] Hint Resolve r_compound_stmt r_switch_stmt_label r_case_list r_case_tests : relh.
Lemma r_case_stmt : rel Rc (case_stmt W F1 r1) (case_stmt W F2 r2).
Proof. unfold case_stmt. un. rl. Qed.
Lemma r_return_stmt : rel Rc (return_stmt W F1 r1) (return_stmt W F2 r2).
Proof. unfold return_stmt. un. rl. Qed.
Lemma r_if_stmt : rel Rc (if_stmt W F1 r1) (if_stmt W F2 r2).
Proof. unfold if_stmt. un. rl. Qed.
Lemma r_for_stmt : rel Rc (for_stmt W F1 r1) (for_stmt W F2 r2).
Proof. unfold for_stmt. un. rl. Qed.
Lemma r_while_stmt : rel Rc (while_stmt W F1 r1) (while_stmt W F2 r2).
Proof. unfold while_stmt. un. rl. Qed.
Lemma r_do_stmt : rel Rc (do_stmt W F1 r1) (do_stmt W F2 r2).
Proof. unfold do_stmt. un. rl. Qed.
Lemma r_switch_stmt : rel Rc (switch_stmt W F1 r1) (switch_stmt W F2 r2).
Proof. unfold switch_stmt. un. rl. Qed.
Lemma r_local_decl : rel Rc (local_decl W F1 r1) (local_decl W F2 r2).
Proof. unfold local_decl. un. rl. Qed.
#[local] Hint Resolve r_case_stmt r_return_stmt r_if_stmt r_for_stmt r_while_stmt r_do_stmt r_switch_stmt r_local_decl : relh.
Lemma r_simple_stmt : rel Rc (simple_stmt W F1 r1) (simple_stmt W F2 r2).
Proof. unfold simple_stmt. un. rl. Qed.
#[local] Hint Resolve r_simple_stmt : relh.
Lemma r_ParseStatement : rel Rc (ParseStatement W F1 r1) (ParseStatement W F2 r2).
Proof. unfold ParseStatement. un. rl. Qed.

(* external definitions *)
Lemma r_bind_args n : forall i, rel Rc (bind_args n i) (bind_args n i).
Proof. induction n; intro i; cbn [bind_args]; un; rl. Qed.
Lemma r_reserve n : forall i, rel Rc (reserve n i) (reserve n i).
Proof. induction n; intro i; cbn [reserve]; un; rl. Qed.
#[local] Hint Resolve r_bind_args r_reserve : relh.
Lemma r_function_def v : rel Rc (function_def W r1 v) (function_def W r2 v).
Proof. unfold function_def, enter_function. un. rl. Qed.
Lemma r_global_vars v : rel Rc (global_vars W F1 r1 v) (global_vars W F2 r2 v).
Proof. unfold global_vars. un. rl. Qed.
#[local] Hint Resolve r_function_def r_global_vars : relh.
Lemma r_ParseExternal : rel Rc (ParseExternalDefition W F1 r1) (ParseExternalDefition W F2 r2).
Proof. unfold ParseExternalDefition. un. rl. Qed.
End Recs.

Lemma r_tie n1 : forall n2, Rrec (tie W F1 n1) (tie W F2 n2).
Proof.
  induction n1 as [|n1 IH]; intro n2.
  { repeat split; intros; apply rel_nofuel. }
  destruct n2 as [|n2]. { repeat split; intros; apply rel_nofuel2. }
  specialize (IH n2). repeat split; cbn [tie pExpr pAssign pCast pUnary pPostfix pExpr1 pDeclSpecs pDeclarator pStatement].
  - apply r_ParseExpr; exact IH.
  - apply r_ParseAssignmentExpression; exact IH.
  - apply r_ParseCastExpression; exact IH.
  - apply r_ParseUnaryExpression; exact IH.
  - apply r_ParsePostfixExpression; exact IH.
  - intro n. apply r_ParseExpr1; exact IH.
  - apply r_ParseDeclSpecs; exact IH.
  - intro p. apply r_ParseDeclarator; exact IH.
  - apply r_ParseStatement; exact IH.
Qed.
Lemma r_place_bss n : forall v e, rel Rc (place_bss n v e) (place_bss n v e).
Proof. induction n; intros v e; cbn [place_bss]; un; rl. Qed.
End Two.

(** ** The driver *)
(** before the first character is read *)
Definition R0 (l1 l2 : lexst) : Prop := Rl l1 l2 /\ InBufPtr l1 = 0 /\ InBufPtr l2 = 0.
Lemma R0_gets {A} (f : lexst -> A) : (forall l1 l2, Rl l1 l2 -> f l1 = f l2) -> rel R0 (gets f) (gets f).
Proof. intro H. apply rel_gets. intros l1 l2 [HR _]. auto. Qed.
Lemma R0_upd f : (forall l1 l2, Rl l1 l2 -> Rl (f l1) (f l2)) -> (forall l, InBufPtr (f l) = InBufPtr l) -> rel R0 (upd f) (upd f).
Proof. intros H G. apply rel_upd. intros l1 l2 (HR & P1 & P2). split; [auto|]. rewrite !G. auto. Qed.
Lemma r0_add_builtin W sp : rel R0 (add_builtin W sp) (add_builtin W sp).
Proof.
  unfold add_builtin. apply rel_bind; [apply R0_gets; rl_get|]. intro n.
  apply rel_bind; [apply R0_upd; [rl_upd|reflexivity]|]. intros _.
  apply rel_bind.
  - apply rel_loop. intro x. cbv zeta. apply rel_bind; [apply R0_gets; rl_get|]. intro t. apply rel_if; apply rel_ret.
  - intro h. apply rel_bind; [apply R0_upd; [rl_upd|reflexivity]|]. intros _. apply R0_upd; [rl_upd|reflexivity].
Qed.
Lemma r0_AddBuiltins W : rel R0 (AddBuiltins W) (AddBuiltins W).
Proof.
  unfold AddBuiltins. apply rel_bind.
  - induction builtins as [|sp r IH]; cbn [add_builtins]; [apply rel_ret|].
    apply rel_bind; [apply r0_add_builtin|]. intros _. exact IH.
  - intros _. apply rel_bind; [apply R0_gets; rl_get|]. intro n. apply rel_failif.
Qed.
Ltac r0 :=
  cbv zeta;
  lazymatch goal with
  | |- rel _ (bind _ _) (bind _ _) => apply rel_bind; [r0 | intro; r0]
  | |- rel _ (ret _) (ret _) => apply rel_ret
  | |- rel _ fatal fatal => apply rel_fatal
  | |- rel _ undef undef => apply rel_undef
  | |- rel _ (when _ _) (when _ _) => apply rel_when; r0
  | |- rel _ (failif _) (failif _) => apply rel_failif
  | |- rel _ (gete _) (gete _) => apply rel_gete
  | |- rel _ (getd _) (getd _) => apply rel_getd
  | |- rel _ (upde _) (upde _) => apply rel_upde
  | |- rel _ (updd _) (updd _) => apply rel_updd
  | |- rel _ (inem _) (inem _) => apply rel_inem
  | |- rel _ (indc _) (indc _) => apply rel_indc
  | |- rel _ (if _ then _ else _) (if _ then _ else _) => apply rel_if; r0
  | |- rel _ (match ?x with _ => _ end) (match ?x with _ => _ end) => destruct x; r0
  | |- _ => idtac
  end.

Lemma rel_weaken {S A} (R R' : S -> S -> Prop) (m1 m2 : M S A) :
  (forall s1 s2, R s1 s2 -> R' s1 s2) -> rel R' m1 m2 -> forall s1 s2, R s1 s2 -> orel R' (m1 s1) (m2 s2).
Proof. intros H G s1 s2 HR. apply G, H, HR. Qed.
Lemma rel_app {S A} (R : S -> S -> Prop) (m1 m2 : M S A) s1 s2 : rel R m1 m2 -> R s1 s2 -> orel R (m1 s1) (m2 s2).
Proof. intros H; apply H. Qed.
(** a first part preserving R, a second one preserving R' *)
Lemma orel_bind {S A B} (R R' : S -> S -> Prop) (m1 m2 : M S A) (f1 f2 : A -> M S B) s1 s2 :
  orel R (m1 s1) (m2 s2) -> (forall a t1 t2, R t1 t2 -> orel R' (f1 a t1) (f2 a t2)) ->
  orel R' (bind m1 f1 s1) (bind m2 f2 s2).
Proof.
  intros H G. unfold bind. destruct H as [->|[->|HH]]; [left; reflexivity|right; left; reflexivity|].
  destruct (m1 s1) as [[a1 t1]| | |], (m2 s2) as [[a2 t2]| | |]; cbn in HH; try tauto.
  all: first [right; right; exact I | left; reflexivity | destruct HH as [-> HR']; apply G; exact HR'].
Qed.

Lemma set_ptr0 l : InBufPtr l = 0 -> set_InBufPtr 0 l = l.
Proof. destruct l. cbn. intros ->. reflexivity. Qed.

Section Main.
Variable W : Z.
Variables F1 F2 n1 n2 : nat.
Lemma r_main s1 s2 : Rcc R0 s1 s2 -> orel Rc (scc_main W F1 n1 s1) (scc_main W F2 n2 s2).
Proof.
  intro H. unfold scc_main.
  eapply orel_bind; [apply (rel_inlx _ _ _ (r0_AddBuiltins W)); exact H|]. clear s1 s2 H. intros _ s1 s2 H.
  unfold o1, o2, setT, next, AddVarDecl, AddVarDeclScope.
  Ltac st H s1 s2 := eapply orel_bind; [apply (rel_app (Rcc R0) _ _ s1 s2); [r0|exact H]|];
    clear s1 s2 H; intro; intros s1 s2 H.
  st H s1 s2. st H s1 s2. st H s1 s2. st H s1 s2. st H s1 s2. st H s1 s2. st H s1 s2. st H s1 s2.
  eapply (orel_bind Rc).
  { unfold updl, upd. right; right. split; [reflexivity|]. destruct H as ((HR & P1 & P2) & HE & HD).
    rewrite (set_ptr0 _ P1), (set_ptr0 _ P2). split; [exact HR|auto]. }
  clear s1 s2 H.
  intros _. match goal with |- forall t1 t2, _ -> orel _ (?a _) (?b _) => enough (HH : rel Rc a b) by exact HH end.
  pose proof (r_GetToken W F1 F2). pose proof (r_ParseExternal W F1 F2 _ _ (r_tie W F1 F2 n1 n2)).
  pose proof r_EmitGlobalLabel. pose proof r_place_bss. rl.
Qed.
End Main.

Definition no_nul (src : list Z) : Prop := Forall (fun b => s8 b <> 0) src.

Theorem compile_agree W F1 F2 n1 n2 src sched1 sched2 : no_nul src ->
  compile W F1 n1 src sched1 = OutOfFuel \/ compile W F2 n2 src sched2 = OutOfFuel \/
  compile W F1 n1 src sched1 = compile W F2 n2 src sched2.
Proof.
  intro N. unfold compile.
  assert (H : Rcc R0 (cc0 src sched1) (cc0 src sched2)).
  { assert (L : forall sc, sees (lx0 src sc) (0 :: map s8 src)).
    { intro sc. split; [reflexivity|]. exists nil. cbn.
      rewrite aget_init. repeat split; try lia; [constructor| |].
      - unfold INBUF_MAX. lia.
      - unfold nz. rewrite Forall_map. exact N. }
    split; [|split; reflexivity]. split; [|split; reflexivity]. split; [|reflexivity]. cbn. eauto. }
  destruct (r_main W F1 F2 n1 n2 _ _ H) as [->|[->|HH]]; [left; reflexivity|right; left; reflexivity|].
  right; right.
  destruct (scc_main W F1 n1 (cc0 src sched1)) as [[a1 t1]| | |], (scc_main W F2 n2 (cc0 src sched2)) as [[a2 t2]| | |]; cbn in HH; try tauto.
  destruct HH as (_ & _ & HE & HD). rewrite HE, HD. reflexivity.
Qed.
