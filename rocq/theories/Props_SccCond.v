(** Properties C69 and C70: operands that are not evaluated, and operands that are evaluated only sometimes.

    C11 6.5.3.4: the operand of sizeof is not evaluated.  C11 6.5.15: of the second and third operand of ?:
    only one is evaluated; with a constant condition it is known which one. *)
From Verif Require Import Base Spec8086 SccRun SccState SccEmit SccLex SccDecl SccExpr SccStmt SccInput SccPut SccTok2 SccTok3 SccScan SccWhole SccWitness SccDead Props_SccExpr Props_SccFun Props_SccStmt.
From Coq Require Import String.

(** ** What is asked for *)
(** the program emitted so far is the same: as long, and byte by byte *)
Definition same_program (s s' : cc) : Prop :=
  CodeAddress (em s') = CodeAddress (em s) /\
  forall a, CODESTART <= a < CodeAddress (em s) -> aget (Output (em s')) (a - CODESTART) = aget (Output (em s)) (a - CODESTART).
(** the operand at hand: its type and its value *)
Definition same_operand (s s' : cc) : Prop :=
  CurrentType (em s') = CurrentType (em s) /\ CurrentVal (em s') = CurrentVal (em s) /\ CurrentTypeExtra (em s') = CurrentTypeExtra (em s).

Lemma same_prog s s' : same (em s) (em s') -> same_program s s'.
Proof. intros [H1 H2]. split; [exact H1|]. intros a A. apply H2. lia. Qed.
Lemma prog_trans a b c : same_program a b -> same_program b c -> same_program a c.
Proof. intros [E1 H1] [E2 H2]. split; [congruence|]. intros x X. rewrite H2 by (rewrite E1; exact X). apply H1. exact X. Qed.

Section Dead.
Variables (W : Z) (F n : nat).
Notation r := (tie W F n).

(** ** C69: an operand parsed while the code is marked dead leaves the program as it was *)
Lemma maybe_dead s a s' : ParseMaybeDead r false s = Ok (a, s') ->
  same_program s s' /\ same_operand s s' /\ IsDeadCode (em s') = IsDeadCode (em s).
Proof.
  intro H. unfold ParseMaybeDead in H. cbn [negb] in H. unfold gete, upde in H. rewrite !bind_gets, bind_upd in H.
  minv H y s1 E. destruct y. rewrite bind_gets in H.
  destruct (IsDeadCode (em s1)) eqn:D; [|discriminate]. cbn [negb] in H. unfold failif in H. rewrite bind_ret, bind_upd in H.
  unfold setT, setV, setX, upde in H. rewrite !bind_upd in H. oki H.
  destruct (d_tie W F n) as (_ & K & _). destruct (K _ _ _ E) as [_ Q]. specialize (Q eq_refl D). apply same_prog in Q.
  split; [exact Q|]. split; [|reflexivity]. repeat split.
Qed.
(** with a constant condition: [s] is the state behind the ?, [s'] the one behind the third operand *)
Theorem C69_constant s a s' : IsDeadCode (em s) = false -> CurrentType (em s) = INTLIT -> HandleCondOp W F r s = Ok (a, s') ->
  if CurrentVal (em s) =? 0
  then (** the second operand adds nothing; the rest is exactly the third operand *)
    exists s1 s2, Expect W F ch_colon s1 = Ok (tt, s2) /\ same_program s s2 /\ IsDeadCode (em s2) = false /\ pAssign r s2 = Ok (a, s')
  else (** after the second operand nothing is added *)
    exists s1 s2, pAssign r s = Ok (tt, s1) /\ Expect W F ch_colon s1 = Ok (tt, s2) /\ same_program s1 s' /\ same_operand s2 s' /\ IsDeadCode (em s') = IsDeadCode (em s1).
Proof.
  intros D T H. unfold HandleCondOp in H. unfold gete in H. rewrite bind_gets, T in H. rewrite Z.eqb_refl in H. rewrite bind_gets in H.
  minv H y s1 E1. destruct y. minv H y s2 E2. destruct y. destruct (CurrentVal (em s) =? 0).
  - exists s1, s2. destruct (maybe_dead _ _ _ E1) as (P1 & _ & D1), (k_Expect W F _ _ _ _ E2) as [D2 P2]. apply same_prog in P2.
    split; [exact E2|]. split; [exact (prog_trans _ _ _ P1 P2)|]. split; [congruence|]. exact H.
  - exists s1, s2. destruct (maybe_dead _ _ _ H) as (P1 & O1 & D1), (k_Expect W F _ _ _ _ E2) as [D2 P2]. apply same_prog in P2.
    split; [exact E1|]. split; [exact E2|]. split; [exact (prog_trans _ _ _ P2 P1)|]. split; [exact O1|congruence].
Qed.

(** sizeof adds nothing to the program, and is an integer constant *)
Theorem C69_sizeof s a s' : TokenType (lx s) = TOK_SIZEOF -> ParseUnaryExpression W F r s = Ok (a, s') -> IsDeadCode (em s) = false ->
  same_program s s' /\ CurrentType (em s') = INTLIT /\ IsDeadCode (em s') = false.
Proof.
  intros T H D. assert (E : sizeof_part W F r s = Ok (a, s')).
  { unfold ParseUnaryExpression in H. unfold getl at 1 in H. rewrite bind_gets, T in H. exact H. }
  destruct (k_sizeof W F r (d_tie W F n) _ _ _ E) as [D1 P1]. split; [exact (same_prog _ _ P1)|]. split; [|congruence].
  unfold sizeof_part in E. do 9 (let y := fresh in let t := fresh in let Q := fresh in minv E y t Q; clear Q).
  unfold setT, upde in E. oki E. reflexivity.
Qed.
End Dead.

(** behind the declaration of a function: with a condition that is the constant v, and one operand that calls it *)
Definition behind (txt : string) (v : Z) : outcome (unit * cc) :=
  (inlx (AddBuiltins 16) ;; updl (set_InBufPtr 0) ;; GetToken 16 100 ;; ParseExternalDefition 16 100 (tie 16 100 30) ;; setT INTLIT ;; setV v)
    (cc0 (bytes_of ("int x(int a, int b); " ++ txt)) nil).
Definition then_ (o : outcome (unit * cc)) (m : M cc unit) : outcome (unit * cc) := match o with Ok (_, s) => m s | Fatal => Fatal | UB => UB | OutOfFuel => OutOfFuel end.
(** the number of bytes emitted so far, the type and the value of the operand *)
Definition emitted (o : outcome (unit * cc)) : option (Z * Z * Z) :=
  match o with Ok (_, s) => if IsDeadCode (em s) then None else Some (CodeAddress (em s) - CODESTART, CurrentType (em s), CurrentVal (em s)) | _ => None end.
Definition cond (txt : string) (v : Z) : option (Z * Z * Z) := emitted (then_ (behind txt v) (HandleCondOp 16 100 (tie 16 100 30))).
Example C69_ex :
  emitted (behind "x(4,5) : 7 ;" 0) = Some (0, INTLIT, 0) /\
  cond "x(4,5) : 7 ;" 0 = Some (0, INTLIT, 7) /\ cond "7 : x(4,5) ;" 1 = Some (0, INTLIT, 7) /\
  cond "x(4,5) : 7 ;" 1 = Some (16, VT_INT, 5) /\ cond "7 : x(4,5) ;" 0 = Some (16, VT_INT, 5) /\
  emitted (then_ (behind "sizeof(x(4,5)) ;" 0) (ParseUnaryExpression 16 100 (tie 16 100 30))) = Some (0, INTLIT, 2).
Proof. vm_compute. repeat split. Qed.

(** ** What it does not leave as it was
    The book-keeping of the stack moves on in dead code: the place of the next variable is wrong by one word, so that c and b share their place.
    Operands with &&, || or ?: are refused altogether, and so is an operator whose left operand is already waiting when the dead operand needs one. *)
Definition rejected (src : string) : Prop := compile 16 100 30 (bytes_of src) nil = Fatal.
Theorem C69_refuted :
  returns "int a; int _start() { int b = 7; int c = 1 ? 2 : (a+1)*(a+2); return c; }" zset 100 = Some 7 /\
  returns "int a; int _start() { int b = 7; int c = sizeof((a+1)*(a+2)); return c; }" zset 100 = Some 7 /\
  rejected "int a; int _start() { return 1 ? 2 : (a && a); }" /\ rejected "int a; int _start() { return 0 ? (a ? 3 : 4) : 2; }" /\
  rejected "int a; int _start() { return sizeof(a || a); }" /\ rejected "int a; int _start() { return (a+1) + (1 ? 2 : a+1); }".
Proof. vm_compute. repeat split. Qed.
(** the same without the operand in question *)
Example C69_refuted_ex :
  returns "int a; int _start() { int b = 7; int c = 1 ? 2 : a+1; return c; }" zset 100 = Some 2 /\
  returns "int a; int _start() { int b = 7; int c = sizeof(a+2); return c; }" zset 100 = Some 2 /\
  returns "int a; int _start() { return (a+1) + (1 ? 2 : a); }" zset 100 = Some 3.
Proof. vm_compute. repeat split. Qed.

(** ** C70: x op (c ? a : b) and x op (c && a)
    C computes x op a or x op b.  When an operand that is evaluated only sometimes is a call, the saved x is put on the stack in that branch
    but is taken from there in both. *)
Open Scope string_scope.
Definition with_f (body : string) : string := "int i; int f(int x) { return x; } int _start() { " ++ body ++ " }".
Theorem C70_refuted :
  (** 1 * (0 ? 3 : f(7)) = 7, but 2 * (1 ? 3 : f(7)) = 0 *)
  returns (with_f "i = 0; return (i + 1) * (i ? 3 : f(7));") zset 1000 = Some 7 /\
  returns (with_f "i = 1; return (i + 1) * (i ? 3 : f(7));") zset 1000 = Some 0 /\
  (** 5 - (5 ? 3 : f(7)) = -3 *)
  returns (with_f "i = 5; return i - (i ? 3 : f(7));") zset 1000 = Some 65533 /\
  (** 5 + (5 && f(7)) = 6, but 5 + 0 + (0 && f(7)) = 0 *)
  returns (with_f "i = 5; return i + (i && f(7));") zset 1000 = Some 6 /\
  returns (with_f "i = 0; return 5 + i + (i && f(7));") zset 1000 = Some 0.
Proof. vm_compute. repeat split. Qed.
(** without a call, or with the conditional on the left, the values are right *)
Example C70_ex :
  returns (with_f "i = 1; return (i + 1) * (i ? 3 : i + 7);") zset 1000 = Some 6 /\
  returns (with_f "i = 1; return (i ? 3 : f(7)) * (i + 1);") zset 1000 = Some 6.
Proof. vm_compute. repeat split. Qed.

Print Assumptions C69_constant.
Print Assumptions C69_sizeof.
Print Assumptions C69_refuted.
Print Assumptions C70_refuted.
