(** Property C68: the type of the result of an operator.

    C gives the result of + - * / % & ^ | the type unsigned as soon as one operand is unsigned, and the result
    of a shift the type of the left operand (C11 6.3.1.8, 6.5.7).  [c_type] says so; true stands for unsigned. *)
From Verif Require Import Base Spec8086 SccRun SccState SccEmit SccLex SccDecl SccExpr SccStmt SccInput SccPut SccTok2 SccTok3 SccScan SccWhole SccWitness Props_SccExpr Props_SccFun Props_SccStmt.
From Coq Require Import String.

(** ** What C prescribes *)
Inductive arith : Z -> bool -> Prop :=
| ar_plus : arith ch_plus false | ar_minus : arith ch_minus false | ar_star : arith ch_star false | ar_slash : arith ch_slash false | ar_percent : arith ch_percent false
| ar_amp : arith ch_amp false | ar_caret : arith ch_caret false | ar_bar : arith ch_bar false | ar_lsh : arith TOK_LSH true | ar_rsh : arith TOK_RSH true.
(** the signedness of the result, when the operator is a shift or not *)
Definition c_type (shift ul ur : bool) : bool := if shift then ul else ul || ur.

(** ** Types of the compiler *)
Definition int_type (u : bool) : Z := if u then VT_UNSIGNED + VT_INT else VT_INT.
(** an int or unsigned operand: in AX, its address in AX, or a variable *)
Definition operand (u : bool) (t : Z) : Prop :=
  t = int_type u \/ t = int_type u + VT_LVAL \/ t = int_type u + VT_LVAL + VT_LOCOFF \/ t = int_type u + VT_LVAL + VT_LOCGLOB.

(** ** Code generation does not change the type *)
Definition kp {S A T} (f : S -> T) (m : M S A) : Prop := forall s a s', m s = Ok (a, s') -> f s' = f s.
Lemma kp_ret {S A T} (f : S -> T) (a : A) : kp f (ret a).
Proof. intros s x s' H. oki H. reflexivity. Qed.
Lemma kp_bind {S A B T} (f : S -> T) (m : M S A) (k : A -> M S B) : kp f m -> (forall a, kp f (k a)) -> kp f (bind m k).
Proof. intros H1 H2 s x s' H. minv H y s1 E. rewrite (H2 _ _ _ _ H). exact (H1 _ _ _ E). Qed.
Lemma kp_fatal {S A T} (f : S -> T) : kp f (@fatal S A).
Proof. intros s x s' H. discriminate. Qed.
Lemma kp_nofuel {S A T} (f : S -> T) : kp f (@nofuel S A).
Proof. intros s x s' H. discriminate. Qed.
Lemma kp_fail {S T} (f : S -> T) b : kp f (@failif S b).
Proof. destruct b; [apply kp_fatal|apply kp_ret]. Qed.
Lemma kp_gets {S A T} (f : S -> T) (g : S -> A) : kp f (gets g).
Proof. intros s x s' H. unfold gets in H. oki H. reflexivity. Qed.
Lemma kp_upd {S T} (f : S -> T) g : (forall s, f (g s) = f s) -> kp f (upd g).
Proof. intros Q s x s' H. oki H. apply Q. Qed.
Lemma kp_when {S T} (f : S -> T) b m : kp f m -> kp f (when b m).
Proof. intros H. destruct b; [exact H|apply kp_ret]. Qed.
Lemma kp_if {S A T} (f : S -> T) (b : bool) (m m' : M S A) : kp f m -> kp f m' -> kp f (if b then m else m').
Proof. destruct b; auto. Qed.
Lemma kp_peek {T} (f : emst -> T) a : kp f (peek a).
Proof. intros s x s' H. unfold peek in H. destruct (in_output a); [|discriminate]. oki H. reflexivity. Qed.
Lemma kp_poke a v : kp CurrentType (poke a v).
Proof. intros s x s' H. unfold poke in H. destruct (in_output a); [|discriminate]. oki H. reflexivity. Qed.
Ltac kps := repeat match goal with
  | |- kp _ (bind _ _) => apply kp_bind; [|intro] | |- kp _ (ret _) => apply kp_ret | |- kp _ fatal => apply kp_fatal | |- kp _ nofuel => apply kp_nofuel | |- kp _ (failif _) => apply kp_fail
  | |- kp _ (gets _) => apply kp_gets | |- kp _ (when _ _) => apply kp_when | |- kp _ (if _ then _ else _) => apply kp_if | |- kp _ (peek _) => apply kp_peek | |- kp _ (poke _ _) => apply kp_poke
  | |- kp _ (upd _) => apply kp_upd; intro; reflexivity | |- kp _ ?m => is_var m; assumption end.
Lemma kp_putb b : kp CurrentType (putb b).
Proof. unfold putb. kps. Qed.
Section Emit.
Variable W : Z.
Section Chk.
Variable chk : M emst bool.
Hypothesis C : kp CurrentType chk.
Lemma kp_guarded m : kp CurrentType m -> kp CurrentType (guarded chk m).
Proof. intro H. unfold guarded. kps. Qed.
Lemma kp_o1_ a : kp CurrentType (Output1Byte_ chk a).
Proof. apply kp_guarded. apply kp_putb. Qed.
Lemma kp_o2_ a b : kp CurrentType (Output2Bytes_ chk a b).
Proof. apply kp_guarded. kps; apply kp_putb. Qed.
Lemma kp_ow_ a : kp CurrentType (OutputWord_ chk a).
Proof. apply kp_guarded. kps; apply kp_putb. Qed.
Lemma kp_o3_ a b c : kp CurrentType (Output3Bytes_ chk a b c).
Proof. apply kp_guarded. kps; apply kp_putb. Qed.
Lemma kp_add_ r a : kp CurrentType (EmitAddRegConst_ W chk r a).
Proof. unfold EmitAddRegConst_. cbv zeta. kps; first [apply kp_o1_|apply kp_o2_|apply kp_o3_|apply kp_ow_]. Qed.
Lemma kp_flushsp_ : kp CurrentType (FlushSpAdj_ W chk).
Proof. unfold FlushSpAdj_. kps; apply kp_add_. Qed.
Lemma kp_flushax_ : kp CurrentType (FlushPushAx_ chk).
Proof. unfold FlushPushAx_. kps; apply kp_o1_. Qed.
End Chk.
Lemma kp_chk_n n : kp CurrentType (EmitChecks_n W n).
Proof. induction n as [|n IH]; cbn [EmitChecks_n]; kps; first [apply kp_flushsp_|apply kp_flushax_]; exact IH. Qed.
Lemma kp_chk : kp CurrentType (EmitChecks W).
Proof. apply kp_chk_n. Qed.
Lemma kp_o1 a : kp CurrentType (Output1Byte W a).
Proof. apply kp_o1_, kp_chk. Qed.
Lemma kp_o2 a b : kp CurrentType (Output2Bytes W a b).
Proof. apply kp_o2_, kp_chk. Qed.
Lemma kp_o3 a b c : kp CurrentType (Output3Bytes W a b c).
Proof. apply kp_o3_, kp_chk. Qed.
Lemma kp_ow a : kp CurrentType (OutputWord W a).
Proof. apply kp_ow_, kp_chk. Qed.
Lemma kp_add r a : kp CurrentType (EmitAddRegConst W r a).
Proof. apply kp_add_, kp_chk. Qed.
Lemma kp_fix v : kp CurrentType (AddFixupVar W v).
Proof. unfold AddFixupVar. kps; apply kp_ow. Qed.
Lemma kp_ref v : kp CurrentType (EmitGlobalRef W v).
Proof. unfold EmitGlobalRef. kps; first [apply kp_ow|apply kp_fix]. Qed.
Lemma kp_modrm i r l v : kp CurrentType (EmitModrm W i r l v).
Proof. unfold EmitModrm. cbv zeta. kps; first [apply kp_o1|apply kp_o2|apply kp_o3|apply kp_ref]. Qed.
Lemma kp_load n l v : kp CurrentType (EmitLoadAx W n l v).
Proof. unfold EmitLoadAx. kps; first [apply kp_o1|apply kp_ref|apply kp_modrm]. Qed.
Lemma kp_imm r v : kp CurrentType (EmitMovRImm W r v).
Proof. apply kp_o3. Qed.
Lemma kp_rr r v : kp CurrentType (EmitMovRR W r v).
Proof. apply kp_o2. Qed.
Lemma kp_halve n : forall x m, kp CurrentType m -> kp CurrentType (halve_loop n x m).
Proof. induction n as [|n IH]; intros x m H; cbn [halve_loop]; cbv zeta; kps; apply IH; exact H. Qed.
Lemma kp_scale v : kp CurrentType (EmitScaleAx W v).
Proof. unfold EmitScaleAx. kps; first [apply kp_imm|apply kp_o2|apply kp_halve, kp_o2]. Qed.
Lemma kp_divcx : kp CurrentType (EmitDivCX W).
Proof. unfold EmitDivCX. kps; first [apply kp_o2|apply kp_o3]. Qed.
Lemma kp_div v : kp CurrentType (EmitDivAxConst W v).
Proof. unfold EmitDivAxConst. cbv zeta. kps; first [apply kp_imm|apply kp_divcx|apply kp_halve, kp_o2]. Qed.
End Emit.

(** ** The type from state to state *)
Definition becomes {A} (t t' : Z) (m : M cc A) : Prop := forall s a s', CurrentType (em s) = t -> m s = Ok (a, s') -> CurrentType (em s') = t'.
Definition ty (s : cc) : Z := CurrentType (em s).
Lemma b_keep {A} t (m : M cc A) : kp ty m -> becomes t t m.
Proof. intros K s a s' E H. rewrite <- E. exact (K s a s' H). Qed.
Lemma b_bind {A B} t t1 t2 (m : M cc A) (k : A -> M cc B) : becomes t t1 m -> (forall a, becomes t1 t2 (k a)) -> becomes t t2 (bind m k).
Proof. intros H1 H2 s x s' E H. minv H y s1 E1. apply (H2 y s1 x s'); [|exact H]. apply (H1 s y s1); assumption. Qed.
Lemma b_seq {A B} t t2 (m : M cc A) (k : A -> M cc B) : kp ty m -> (forall a, becomes t t2 (k a)) -> becomes t t2 (bind m k).
Proof. intros H1 H2. apply (b_bind t t); [apply b_keep; exact H1|exact H2]. Qed.
Lemma b_type {B} t t2 (k : Z -> M cc B) : becomes t t2 (k t) -> becomes t t2 (bind (gete CurrentType) k).
Proof. intros H s x s' E H1. unfold gete in H1. rewrite bind_gets, E in H1. exact (H s x s' E H1). Qed.
Lemma b_const {A B} t t2 (f : emst -> A) c (k : A -> M cc B) : (forall e, f e = c) -> becomes t t2 (k c) -> becomes t t2 (bind (gete f) k).
Proof. intros Q H s x s' E H1. unfold gete in H1. rewrite bind_gets, Q in H1. exact (H s x s' E H1). Qed.
Lemma b_set t t1 t2 {B} (k : unit -> M cc B) : becomes t1 t2 (k tt) -> becomes t t2 (bind (setT t1) k).
Proof. intros H s x s' E H1. unfold setT, upde in H1. rewrite bind_upd in H1. refine (H _ x s' _ H1). reflexivity. Qed.
Lemma b_set1 t t1 : becomes t t1 (setT t1).
Proof. intros s x s' E H. unfold setT, upde in H. oki H. reflexivity. Qed.
Lemma b_fatal {A} t t' : becomes t t' (@fatal cc A).
Proof. intros s x s' E H. discriminate. Qed.
Lemma b_assoc {A B C} t t' (m : M cc A) (f : A -> M cc B) (g : B -> M cc C) : becomes t t' (bind m (fun a => bind (f a) g)) -> becomes t t' (bind (bind m f) g).
Proof. intros H s x s' E H1. rewrite bind_assoc in H1. exact (H s x s' E H1). Qed.
Lemma b_retb {A B} t t' (a : A) (k : A -> M cc B) : becomes t t' (k a) -> becomes t t' (bind (ret a) k).
Proof. intros H s x s' E H1. rewrite bind_ret in H1. exact (H s x s' E H1). Qed.
Lemma kp_inem {A} (m : M emst A) : kp CurrentType m -> kp ty (inem m).
Proof. intros K s x s' H. unfold inem in H. destruct (m (em s)) as [[a e]| | |] eqn:E; try discriminate. oki H. exact (K _ _ _ E). Qed.
Lemma kp_upde f : (forall e, CurrentType (f e) = CurrentType e) -> kp ty (upde f).
Proof. intros Q s x s' H. unfold upde in H. oki H. apply Q. Qed.
Lemma kp_gete {A} (f : emst -> A) : kp ty (gete f).
Proof. apply kp_gets. Qed.

Section Ops.
Variables (W : Z) (F : nat).
Ltac kem := match goal with
  | |- kp _ (Output1Byte _ _) => apply kp_o1 | |- kp _ (Output2Bytes _ _ _) => apply kp_o2 | |- kp _ (Output3Bytes _ _ _ _) => apply kp_o3 | |- kp _ (OutputWord _ _) => apply kp_ow
  | |- kp _ (EmitAddRegConst _ _ _) => apply kp_add | |- kp _ (EmitModrm _ _ _ _ _) => apply kp_modrm | |- kp _ (EmitLoadAx _ _ _ _) => apply kp_load | |- kp _ (EmitMovRImm _ _ _) => apply kp_imm
  | |- kp _ (EmitMovRR _ _ _) => apply kp_rr | |- kp _ (EmitScaleAx _ _) => apply kp_scale | |- kp _ (EmitDivCX _) => apply kp_divcx | |- kp _ (EmitDivAxConst _ _) => apply kp_div end.
Ltac kcc := repeat match goal with
  | |- kp _ (bind _ _) => apply kp_bind; [|intro] | |- kp _ (ret _) => apply kp_ret | |- kp _ fatal => apply kp_fatal | |- kp _ (failif _) => apply kp_fail
  | |- kp _ (gete _) => apply kp_gete | |- kp _ (when _ _) => apply kp_when | |- kp _ (if _ then _ else _) => apply kp_if
  | |- kp _ (upde _) => apply kp_upde; intro; reflexivity | |- kp _ (inem _) => apply kp_inem; kem end.
Lemma kp_po1 b : kp ty (SccExpr.o1 W b).
Proof. unfold o1. kcc. Qed.
Lemma kp_po2 a b : kp ty (SccExpr.o2 W a b).
Proof. unfold o2. kcc. Qed.
Lemma kp_po3 a b c : kp ty (SccExpr.o3 W a b c).
Proof. unfold o3. kcc. Qed.
Lemma kp_setV v : kp ty (setV v).
Proof. unfold setV. kcc. Qed.
Lemma kp_clr : kp ty clrPushAx.
Proof. unfold clrPushAx. kcc. Qed.
Lemma kp_has : kp ty hasPushAx.
Proof. unfold hasPushAx. kcc. Qed.
Lemma kp_addo n : kp ty (addOffset n).
Proof. unfold addOffset. kcc. Qed.
Lemma kp_stored r : kp ty (GetStoredVal W r).
Proof. unfold GetStoredVal. cbv zeta. kcc; first [apply kp_has|apply kp_po1|apply kp_addo|idtac]. Qed.
(** conditions that can be decided *)
Ltac dec1 := match goal with
  | |- context [hasb ?a ?b] => let v := eval vm_compute in (hasb a b) in match v with true => idtac | false => idtac end; change (hasb a b) with v
  | |- context [?a =? ?b] => let v := eval vm_compute in (a =? b) in match v with true => idtac | false => idtac end; change (a =? b) with v
  | |- context [clr ?a ?b] => let v := eval vm_compute in (clr a b) in match v with Zpos _ => idtac | Z0 => idtac end; change (clr a b) with v
  | |- context [Z.land ?a ?b] => let v := eval vm_compute in (Z.land a b) in match v with Zpos _ => idtac | Z0 => idtac end; change (Z.land a b) with v end.
Ltac dec := repeat dec1; cbn [negb andb orb]; unfold when, failif; cbv iota.
Lemma b_lval u t : operand u t -> becomes t (int_type u) (LvalToRval W).
Proof.
  intros [->|[->|[->| ->]]]; destruct u; unfold LvalToRval; apply b_type; cbv zeta; dec;
  try (apply b_keep, kp_ret); apply b_set; try (apply b_seq; [|intro; apply b_keep, kp_ret]); kcc; try apply kp_po2.
Qed.
Lemma b_val u t : operand u t -> becomes t (int_type u) (GetVal W).
Proof.
  intro O. unfold GetVal. apply b_type. replace (t =? VT_BOOL) with false by (destruct O as [->|[->|[->| ->]]], u; reflexivity). cbv iota.
  apply (b_bind t (int_type u)); [apply b_lval; exact O|]. intros _. apply b_type. destruct u; dec; apply b_keep, kp_ret.
Qed.
Lemma b_finish t n : Z.shiftr n 8 = 0 -> becomes t t (FinishOp n).
Proof. intro E. unfold FinishOp. cbv zeta. rewrite E. apply b_keep, kp_ret. Qed.
Lemma b_binop op sh r t : arith op sh -> becomes t t (DoBinOp W op r).
Proof.
  intro A. unfold DoBinOp, GetSimpleALU. destruct A; (eapply b_const; [intro e; destruct (IsUnsignedOp e); reflexivity|]); cbv zeta; dec;
  repeat match goal with
  | |- becomes _ _ (bind (FinishOp _) _) => apply (b_bind t t); [apply b_finish; vm_compute; reflexivity|intros _]
  | |- becomes _ _ (FinishOp (if ?b then _ else _)) => destruct b
  | |- becomes _ _ (FinishOp _) => apply b_finish; vm_compute; reflexivity
  | |- becomes _ _ (bind (if _ then fatal else _) _) => apply b_seq; [apply kp_if; [apply kp_fatal|apply kp_ret]|intro]
  | |- becomes _ _ (bind _ _) => apply b_seq; [kcc; first [apply kp_po1|apply kp_po2|idtac]|intro]
  | |- becomes _ _ (ret _) => apply b_keep, kp_ret
  | |- becomes _ _ (SccExpr.o1 _ _) => apply b_keep, kp_po1
  end.
Qed.
Lemma b_const_op op sh t : arith op sh -> becomes t t (DoRhsConstBinOp W op).
Proof.
  intro A. pose proof A as A0. unfold DoRhsConstBinOp, GetSimpleALU. apply b_seq; [apply kp_gete|intro v]. destruct A; dec; try (apply b_keep; kcc; fail);
  (eapply b_const; [intro e; destruct (IsUnsignedOp e); reflexivity|]); dec;
  try (apply b_seq; [apply kp_po3|intro; apply b_finish; vm_compute; reflexivity]);
  (apply b_seq; [first [apply kp_po2|kcc]|intro; apply (b_binop _ _ _ _ A0)]).
Qed.
Lemma b_lval_op op sh u t {B} t2 (k : bool -> M cc B) : arith op sh -> operand u t -> (forall b, becomes (int_type u) t2 (k b)) -> becomes t t2 (bind (DoRhsLvalBinOp W op) k).
Proof.
  intros A O K. apply (b_bind t (int_type u)); [|exact K]. clear K. unfold DoRhsLvalBinOp, GetSimpleALU. apply b_type. cbv zeta.
  replace (clr t (Z.lor VT_LOCMASK VT_LVAL)) with (int_type u) by (destruct O as [->|[->|[->| ->]]], u; reflexivity). apply b_set.
  destruct A; (eapply b_const; [intro e; destruct (IsUnsignedOp e); reflexivity|]); (apply b_seq; [apply kp_gete|intro v]); dec;
  repeat match goal with
  | |- becomes _ _ (bind (FinishOp _) _) => apply (b_bind (int_type u) (int_type u)); [apply b_finish; vm_compute; reflexivity|intros _]
  | |- becomes _ _ (bind _ _) => apply b_seq; [kcc; first [apply kp_po1|idtac]|intro]
  | |- becomes _ _ (ret _) => apply b_keep, kp_ret
  end.
Qed.
(** the left operand: a value in AX, or a literal *)
Definition left_operand (ul : bool) (loc : Z) : Prop := loc = 0 \/ loc = VT_LOCLIT /\ ul = false.
Lemma b_end op sh t : arith op sh -> becomes t t (when ((op =? ch_minus) && negb (0 =? 0)) (inem (EmitDivAxConst W 0) ;; setT VT_INT) ;; upde (fun e => set_LastZFInst (CodeAddress e) e))%m.
Proof. intros A. rewrite andb_false_r. apply b_seq; [apply kp_ret|]. intros _. apply b_keep. kcc. Qed.
Lemma b_binary_lit op sh ul loc x v : arith op sh -> becomes INTLIT VT_INT (binary_op W op (int_type ul) x v loc).
Proof.
  intro A. unfold binary_op. replace (hasb (int_type ul) VT_PTRMASK) with false by (destruct ul; reflexivity). cbv iota. apply b_retb. apply b_type. dec.
  apply (b_bind INTLIT VT_INT); [|intros _; apply (b_end op sh); exact A].
  apply b_seq; [apply kp_has|intro p]. apply b_seq; [apply kp_gete|intro d]. apply b_seq; [apply kp_if; [apply kp_fatal|apply kp_ret]|intros _]. apply b_seq; [apply kp_clr|intros _]. apply b_set.
  apply b_seq; [apply kp_ret|intros _]. apply (b_const_op op sh). exact A.
Qed.
Lemma b_binary op sh ul ur loc x v t : arith op sh -> left_operand ul loc -> operand ur t -> becomes t (int_type ur) (binary_op W op (int_type ul) x v loc).
Proof.
  intros A LL O. unfold binary_op. replace (hasb (int_type ul) VT_PTRMASK) with false by (destruct ul; reflexivity). cbv iota. apply b_retb. apply b_type.
  replace (t =? INTLIT) with false by (destruct O as [->|[->|[->| ->]]], ur; reflexivity). cbv iota.
  apply (b_bind t (int_type ur)); [|intros _; apply (b_end op sh); exact A]. cbv zeta.
  assert (NR : forall b R, becomes (int_type ur) (int_type ur) (when (negb b) (SccExpr.o1 W (Z.lor I_XCHG_AX R)) ;; DoBinOp W op R)%m).
  { intros b R. apply b_seq; [apply kp_when, kp_po1|]. intros _. apply (b_binop op sh). exact A. }
  destruct LL as [->|[-> ->]].
  - change (0 =? VT_LOCLIT) with false. cbv iota. apply b_seq; [apply kp_fail|intros _]. change (0 =? 0) with true. cbn [negb]. rewrite andb_false_r.
    assert (GN : becomes t (int_type ur) (GetVal W ;; (if negb (OpCommutes op) then SccExpr.o1 W (Z.lor I_XCHG_AX R_CX) ;; GetStoredVal W R_AX ;; when (negb true) (SccExpr.o1 W (Z.lor I_XCHG_AX R_CX)) ;; DoBinOp W op R_CX else let! R := GetStoredVal W (-1) in when (negb true) (SccExpr.o1 W (Z.lor I_XCHG_AX R)) ;; DoBinOp W op R))%m).
    { apply (b_bind t (int_type ur)); [apply b_val; exact O|intros _]. destruct (negb (OpCommutes op)).
      - apply b_seq; [apply kp_po1|intros _]. apply b_seq; [apply kp_stored|intros _]. apply NR.
      - apply b_seq; [apply kp_stored|intros R]. apply NR. }
    apply b_seq; [apply kp_has|intro p]. apply b_type. destruct (_ && _ && _); [|exact GN].
    apply b_seq; [apply kp_fail|intros _]. apply b_seq; [apply kp_clr|intros _]. apply (b_lval_op op sh ur); [exact A|exact O|]. intros [|]; [apply b_keep, kp_ret|apply NR].
  - change (VT_LOCLIT =? VT_LOCLIT) with true. cbv iota. apply b_seq; [apply kp_fail|intros _]. apply (b_bind t (int_type ur)); [apply b_val; exact O|intros _]. destruct (OpCommutes op).
    + apply b_seq; [apply kp_setV|intros _]. apply (b_const_op op sh). exact A.
    + apply b_seq; [apply kp_inem, kp_imm|intros _]. apply NR.
Qed.

(** ** Reading a token does not change the type *)
Lemma kp_inlx {A} (m : M lexst A) : kp ty (inlx m).
Proof. intros s x s' H. unfold inlx in H. destruct (m (lx s)) as [[a e]| | |]; try discriminate. oki H. reflexivity. Qed.
Lemma kp_updl f : kp ty (updl f).
Proof. intros s x s' H. unfold updl in H. oki H. reflexivity. Qed.
Lemma kp_getl {A} (f : lexst -> A) : kp ty (getl f).
Proof. apply kp_gets. Qed.
Lemma kp_loop {X A} n : forall (body : X -> M cc (X + A)) x, (forall y, kp ty (body y)) -> kp ty (loopM n body x).
Proof. induction n as [|n IH]; intros body x H; cbn [loopM]; [apply kp_nofuel|]. apply kp_bind; [apply H|]. intros [y|a]; [apply IH; exact H|apply kp_ret]. Qed.
Ltac klx := repeat match goal with
  | |- kp _ (bind _ _) => apply kp_bind; [|intro] | |- kp _ (ret _) => apply kp_ret | |- kp _ (failif _) => apply kp_fail | |- kp _ (loopM _ _ _) => apply kp_loop; intro
  | |- kp _ (gete _) => apply kp_gete | |- kp _ (getl _) => apply kp_getl | |- kp _ (updl _) => apply kp_updl | |- kp _ (inlx _) => apply kp_inlx | |- kp _ (when _ _) => apply kp_when | |- kp _ (if _ then _ else _) => apply kp_if
  | |- kp _ (inem (poke _ _)) => apply kp_inem, kp_poke end.
Lemma kp_string : kp ty (GetStringLiteral W F).
Proof. unfold GetStringLiteral. cbv zeta. klx. Qed.
Lemma kp_token : kp ty (GetToken W F).
Proof. unfold GetToken. klx; apply kp_string. Qed.

(** the left operand as the parser finds it *)
Definition is_left (ul : bool) (t : Z) : Prop := operand ul t \/ t = INTLIT /\ ul = false.
(** ** C68: what the type of the result is *)
Lemma op_parts op sh : arith op sh -> (op =? ch_quest) = false /\ (op =? TOK_OROR) = false /\ (op =? TOK_ANDAND) = false /\ (op =? ch_comma) = false.
Proof. intros []; auto. Qed.
Lemma lit_no u : operand u INTLIT -> False.
Proof. intros [E|[E|[E|E]]]; destruct u; discriminate E. Qed.
Theorem C68_result : forall r s s' x op sh ul,
  (* the operator op, between a left operand that has been read and the right operand *)
  arith op sh -> TokenType (lx s) = op -> OperatorPrecedence (lx s) <> PREC_ASSIGN -> is_left ul (CurrentType (em s)) ->
  expr1_body W F r s = Ok (x, s') ->
  (* s2: when the right operand has been read *)
  exists s1 y s2, (pCast r ;; rhs_loop F r (OperatorPrecedence (lx s)))%m s1 = Ok (y, s2) /\
    (* the result has the type of the right operand *)
    (forall ur, operand ur (CurrentType (em s2)) -> CurrentType (em s') = int_type ur) /\
    (* and is an int if that is a literal *)
    (CurrentType (em s2) = INTLIT -> CurrentType (em s') = if CurrentType (em s) =? INTLIT then INTLIT else VT_INT).
Proof.
  intros r s s' x op sh ul A TT NA IL H. destruct (op_parts op sh A) as (Q1 & Q2 & Q3 & Q4). unfold expr1_body in H. unfold getl in H. rewrite !bind_gets, TT in H.
  set (pr := OperatorPrecedence (lx s)) in *. minv H u0 s0 E0. pose proof (kp_token _ _ _ E0) as T0. change (CurrentType (em s0) = CurrentType (em s)) in T0.
  rewrite Q1 in H. replace (pr =? PREC_ASSIGN) with false in H by (symmetry; apply Z.eqb_neq; exact NA). cbv iota in H. rewrite bind_assoc in H. minv H u1 s1 E1. rewrite bind_ret in H. cbv zeta in H. rewrite Q2, Q3, Q4 in H. cbn [orb] in H.
  assert (LT : exists loc, left_operand ul loc /\ CurrentType (em s1) = int_type ul + loc /\ (CurrentType (em s) =? INTLIT) = (loc =? VT_LOCLIT)).
  { destruct IL as [O|[L ->]].
    - exists 0. split; [left; reflexivity|]. split; [rewrite Z.add_0_r; apply (b_lval ul _ O s0 u1 s1 T0 E1)|]. destruct (Z.eqb_spec (CurrentType (em s)) INTLIT) as [E|_]; [|reflexivity]. rewrite E in O. destruct (lit_no ul O).
    - exists VT_LOCLIT. split; [right; auto|]. rewrite L. split; [|reflexivity]. unfold LvalToRval, gete in E1. rewrite bind_gets, T0, L in E1. change (when (hasb INTLIT VT_LVAL)) with (fun m : M cc unit => @ret cc unit tt) in E1. cbv beta in E1. oki E1. rewrite T0, L. reflexivity. }
  destruct LT as (loc & LO & T1 & LL). rewrite LL. clear IL T0 LL E0 E1.
  unfold gete in H. rewrite bind_assoc in H. rewrite bind_gets in H. rewrite T1 in H. replace (int_type ul + loc =? VT_BOOL) with false in H by (destruct LO as [->|[-> ->]]; try destruct ul; reflexivity). unfold when at 1 in H. cbv iota in H.
  rewrite !bind_assoc, bind_ret, bind_assoc, bind_gets, T1, bind_assoc, bind_gets in H. rewrite bind_assoc in H. minv H u2 s2 E2. rewrite bind_ret in H.
  assert (T2 : CurrentType (em s2) = int_type ul + loc). { rewrite <- T1. refine (kp_when ty _ _ _ s1 u2 s2 E2). unfold setPushAx. kcc. }
  rewrite !bind_gets, T2 in H. minv H u3 s3 E3. minv H u4 s4 E4. exists s2, u4, s4. split; [unfold bind at 1; rewrite E3; exact E4|].
  replace (Z.land (int_type ul + loc) VT_LOCMASK) with loc in H by (destruct LO as [->|[-> ->]]; try destruct ul; reflexivity). replace (clr (int_type ul + loc) VT_LOCMASK) with (int_type ul) in H by (destruct LO as [->|[-> ->]]; try destruct ul; reflexivity).
  rewrite !bind_gets in H. change (0 <=? -1) with false in H. clear E3 E4 T2 E2 T1. split.
  - intros ur O. replace (CurrentType (em s4) =? INTLIT) with false in H by (destruct O as [->|[->|[->| ->]]], ur; reflexivity). rewrite andb_false_r in H. cbv iota in H.
    minv H u5 s5 E5. assert (T5 : CurrentType (em s5) = CurrentType (em s4)) by (unfold upde in E5; oki E5; reflexivity).
    replace (pr =? PREC_ASSIGN) with false in H by (symmetry; apply Z.eqb_neq; exact NA). cbv iota in H. exact (b_binary op sh ul ur loc _ _ _ A LO O s5 x s' T5 H).
  - intro L. rewrite L in H. change (INTLIT =? INTLIT) with true in H. rewrite andb_true_r in H. destruct (loc =? VT_LOCLIT).
    + minv H u5 s5 E5. assert (X : ty s5 = ty s4) by exact (kp_fail ty _ _ _ _ E5). minv H n s6 E6. assert (Y : ty s6 = ty s5). { unfold lift_out in E6. destruct (DoConstBinOp W op _ _); try discriminate E6. oki E6. reflexivity. }
      assert (Z0 : ty s' = ty s6) by exact (kp_setV n _ _ _ H). unfold ty in *. congruence.
    + cbv iota in H. minv H u5 s5 E5. assert (T5 : CurrentType (em s5) = INTLIT) by (unfold upde in E5; oki E5; exact L).
      replace (pr =? PREC_ASSIGN) with false in H by (symmetry; apply Z.eqb_neq; exact NA). cbv iota in H. exact (b_binary_lit op sh ul loc _ _ A s5 x s' T5 H).
Qed.
End Ops.
(** so it is the type C prescribes only if the right operand has that type *)
Theorem C68_agrees : forall W F r s s' x op sh ul,
  arith op sh -> TokenType (lx s) = op -> OperatorPrecedence (lx s) <> PREC_ASSIGN -> is_left ul (CurrentType (em s)) -> expr1_body W F r s = Ok (x, s') ->
  exists s1 y s2, (pCast r ;; rhs_loop F r (OperatorPrecedence (lx s)))%m s1 = Ok (y, s2) /\
    forall ur, operand ur (CurrentType (em s2)) -> (CurrentType (em s') = int_type (c_type sh ul ur) <-> c_type sh ul ur = ur).
Proof.
  intros W F r s s' x op sh ul A TT NA IL H. destruct (C68_result W F r s s' x op sh ul A TT NA IL H) as (s1 & y & s2 & E & R & _). exists s1, y, s2. split; [exact E|]. intros ur O. rewrite (R ur O).
  destruct (c_type sh ul ur), ur; split; intro X; first [reflexivity|vm_compute in X; discriminate X].
Qed.

(** *** Programs on which this shows: the quotients are 40001 / 3 and 40003 / 3 in C, and -8 >> 1 is -4 *)
Theorem C68_refuted :
  (returns "unsigned u; int i; int _start() { u = 40000; i = 3; return (u + 1) / i; }" zset 1000 = Some 57025 /\ 40001 / 3 <> 57025) /\
  (returns "unsigned u; int i; int _start() { u = 40000; i = 3; return (u + i) / i; }" zset 1000 = Some 57025 /\ 40003 / 3 <> 57025) /\
  (returns "unsigned u; int i; int _start() { u = 1; i = -8; return i >> u; }" zset 1000 = Some 32764 /\ (-8) / 2 <> 32764 - 65536) /\
  (* the other way round it is right *)
  returns "unsigned u; int i; int _start() { u = 40000; i = 3; return (i + u) / i; }" zset 1000 = Some (40003 / 3).
Proof. vm_compute. repeat split; discriminate. Qed.

(** *** A case: u + 1 and u + i, with u unsigned *)
Definition c68_lx (text : string) : lexst :=
  match add_builtins 16 (builtins ++ [bytes_of "u"; bytes_of "i"])%list (lx0 nil nil) with Ok (_, l) => with_input (bytes_of text) l | _ => lx0 nil nil end.
Definition c68_start (text : string) : cc :=
  mkcc (c68_lx text) (set_LocalOffset (-4) (set_VOff (aset (aset (ainit 0) 0 (-2)) 1 (-4)) em0))
    (set_VType (aset (aset (ainit 0) 0 (VT_UNSIGNED + VT_INT + VT_LOCOFF)) 1 (VT_INT + VT_LOCOFF)) (set_VarLookup (aset (aset (ainit 0) 40 1) 41 2) dc0)).
Definition c68_state (text : string) : cc := match (GetToken 16 60 ;; pCast (tie 16 60 30))%m (c68_start text) with Ok (_, s) => s | _ => c68_start text end.
Definition c68_after (text : string) : option Z := match expr1_body 16 60 (tie 16 60 30) (c68_state text) with Ok (_, s) => Some (CurrentType (em s)) | _ => None end.
Example C68_ex :
  TokenType (lx (c68_state "u + 1;")) = ch_plus /\ OperatorPrecedence (lx (c68_state "u + 1;")) <> PREC_ASSIGN /\ is_left true (CurrentType (em (c68_state "u + 1;"))) /\
  c68_after "u + 1;" = Some VT_INT /\ c68_after "u + i;" = Some VT_INT /\ c68_after "i + u;" = Some (VT_UNSIGNED + VT_INT) /\ c68_after "1 + u;" = Some (VT_UNSIGNED + VT_INT) /\ c68_after "1 + 2;" = Some INTLIT.
Proof.
  split; [vm_compute; reflexivity|]. split; [vm_compute; discriminate|]. split; [left; right; right; left; vm_compute; reflexivity|]. repeat split; vm_compute; reflexivity.
Qed.

Print Assumptions C68_result.
Print Assumptions C68_agrees.
