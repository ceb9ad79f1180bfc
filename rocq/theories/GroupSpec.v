(** How C groups a sequence of operands and binary operators, independently of the compiler:
    among all the trees over a sequence, the one whose levels are those of the C grammar. *)
From Verif Require Import Base SccState SccOps ExprSpec.

(** the operands and operators of a tree from left to right, without regard to the grouping *)
Fixpoint flat (e : exp) : exp * list (oper * exp) :=
  match e with
  | EOp o a b => (fst (flat a), snd (flat a) ++ (o, fst (flat b)) :: snd (flat b))
  | _ => (e, [])
  end.
(** an operand: a number, a variable, a parenthesised or a unary expression *)
Definition operand_ok (e : exp) : Prop := top e = 0 /\ wf_exp e.
Definition operands_ok (q : exp * list (oper * exp)) : Prop := operand_ok (fst q) /\ Forall (fun p => operand_ok (snd p)) (snd q).
(** the tokens of a sequence *)
Fixpoint more_toks (l : list (oper * exp)) : list token :=
  match l with [] => [] | (o, c) :: l => (op_tok o, prec o, 0) :: toks c ++ more_toks l end.
Definition seq_toks (q : exp * list (oper * exp)) : list token := toks (fst q) ++ more_toks (snd q).

(** one more operator and operand at the end of a tree *)
Fixpoint extend (e : exp) (o : oper) (c : exp) : exp :=
  match e with
  | EOp p a b => if prec p <=? prec o then EOp o e c else EOp p a (extend b o c)
  | _ => EOp o e c
  end.

Lemma prec_pos o : 3 <= prec o.
Proof. destruct o as [o|o]; destruct o; cbn [prec]; lia. Qed.
Lemma top_nonneg e : 0 <= top e.
Proof. destruct e; cbn [top]; try lia. pose proof (prec_pos o). lia. Qed.
Lemma top_extend e o c : top (extend e o c) = Z.max (top e) (prec o).
Proof.
  pose proof (prec_pos o). destruct e as [| | | |p a b]; cbn [extend top]; try lia.
  destruct (Z.leb_spec (prec p) (prec o)); cbn [top]; lia.
Qed.
Lemma extend_wf o c : operand_ok c -> forall e, wf_exp e -> wf_exp (extend e o c).
Proof.
  intros [TC WC]. pose proof (prec_pos o). induction e as [v|x|e _|u e _|p a _ b IH]; intro WE; cbn [extend];
    try (cbn [wf_exp top]; cbn [wf_exp top] in WE; repeat split; try lia; try tauto; fail).
  destruct (Z.leb_spec (prec p) (prec o)) as [L|L].
  - cbn [wf_exp]. cbn [top]. repeat split; try lia; try exact WC; apply WE.
  - destruct WE as (A & B & C & D). cbn [wf_exp]. split; [exact A|]. split; [rewrite top_extend; lia|]. split; [exact C|apply IH; exact D].
Qed.
Lemma flat_extend o c : top c = 0 -> forall e, flat (extend e o c) = (fst (flat e), snd (flat e) ++ [(o, c)]).
Proof.
  intros TC. assert (FC : flat c = (c, [])) by (destruct c; cbn [top] in TC; try reflexivity; pose proof (prec_pos o0); lia).
  induction e as [v|x|e _|u e _|p a _ b IH]; cbn [extend]; try (cbn [flat fst snd app]; rewrite FC; reflexivity).
  destruct (prec p <=? prec o).
  - cbn [flat fst snd]. rewrite FC. reflexivity.
  - cbn [flat fst snd]. rewrite IH. cbn [fst snd]. rewrite <- app_assoc. reflexivity.
Qed.
Lemma flat_operand e : top e = 0 -> flat e = (e, []).
Proof. destruct e; cbn [top]; intro T; try reflexivity. pose proof (prec_pos o). lia. Qed.
(** the last operator of a tree is not looser than its top, and the rest is a tree *)
Lemma unextend e : wf_exp e -> top e <> 0 -> exists e' o c, e = extend e' o c /\ wf_exp e' /\ operand_ok c /\ top e' <= top e /\ prec o <= top e.
Proof.
  induction e as [v|x|e _|u e _|p a _ b IH]; intros WE T; cbn [top] in T; try (exfalso; lia).
  destruct WE as (A & B & C & D). destruct (Z.eq_dec (top b) 0) as [TB|TB].
  - exists a, p, b. split; [|split; [exact C|split; [split; assumption|cbn [top]; lia]]].
    destruct a as [| | | |q a1 a2]; cbn [extend]; try reflexivity. cbn [top] in A. destruct (Z.leb_spec (prec q) (prec p)); [reflexivity|lia].
  - destruct (IH D TB) as (b' & o & c & E & WB & OC & T1 & T2). exists (EOp p a b'), o, c. split; [|split; [|split; [exact OC|cbn [top]; lia]]].
    + cbn [extend]. destruct (Z.leb_spec (prec p) (prec o)); [lia|]. rewrite <- E. reflexivity.
    + cbn [wf_exp]. repeat split; try assumption. lia.
Qed.

(** every sequence has one and only one tree *)
Theorem grouping : forall q, operands_ok q -> exists e, (wf_exp e /\ flat e = q) /\ forall e', wf_exp e' -> flat e' = q -> e' = e.
Proof.
  intros [a0 l] [OA OL]. cbn [fst snd] in *. induction l as [|[o c] l IH] using rev_ind.
  - exists a0. split; [split; [apply OA|apply flat_operand; apply OA]|]. intros e' WE FE.
    destruct (Z.eq_dec (top e') 0) as [T|T]; [rewrite (flat_operand _ T) in FE; congruence|].
    destruct (unextend e' WE T) as (e2 & o & c & -> & _ & OC & _). rewrite flat_extend in FE by apply OC. injection FE as _ FE. destruct (snd (flat e2)); discriminate.
  - apply Forall_app in OL. destruct OL as [OL OC]. apply Forall_inv in OC. cbn [snd] in OC.
    destruct (IH OL) as (e & (WE & FE) & U). exists (extend e o c). split; [split; [apply extend_wf; assumption|rewrite flat_extend by apply OC; rewrite FE; reflexivity]|].
    intros e' WE' FE'. destruct (Z.eq_dec (top e') 0) as [T|T].
    { rewrite (flat_operand _ T) in FE'. injection FE' as _ FE'. destruct l; discriminate. }
    destruct (unextend e' WE' T) as (e2 & o2 & c2 & -> & W2 & OC2 & _). rewrite flat_extend in FE' by apply OC2.
    injection FE' as F1 F2. apply app_inj_tail in F2. destruct F2 as [F2 F3]. injection F3 as -> ->. f_equal. apply U; [exact W2|].
    rewrite (surjective_pairing (flat e2)). congruence.
Qed.
(** a tree is written as its sequence *)
Lemma more_app l1 : forall l2, more_toks (l1 ++ l2) = more_toks l1 ++ more_toks l2.
Proof. induction l1 as [|[o c] l1 IH]; intro l2; cbn [more_toks app]; [reflexivity|]. rewrite IH, app_comm_cons, app_assoc. reflexivity. Qed.
Theorem written e : toks e = seq_toks (flat e).
Proof.
  unfold seq_toks. induction e as [v|x|e _|u e _|p a IHa b IHb]; try (cbn [flat fst snd more_toks]; rewrite app_nil_r; reflexivity).
  cbn [toks flat fst snd]. rewrite more_app. cbn [more_toks]. rewrite IHa, IHb, <- app_assoc. reflexivity.
Qed.
