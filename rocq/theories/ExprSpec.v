(** What an int expression of C is and means, independently of the compiler: the abstract syntax,
    how it is written as tokens (parentheses only where the programmer writes them: the operators
    group by precedence, and to the left), and its value on a machine with 16-bit int. *)
From Verif Require Import Base SccState SccOps.

Inductive unop := Neg | Com | Pos | Not.               (* -e  ~e  +e  !e *)
Inductive oper := Arith (o : binop) | Rel (o : cmpop). (* the ten arithmetic and six relational operators *)
Inductive exp :=
| ENum (v : Z)
| EVar (x : Z)
| EPar (e : exp)
| EUn (u : unop) (e : exp)
| EOp (o : oper) (a b : exp).

(** ** Syntax *)
(** precedence levels of the C grammar: a smaller number binds tighter; 0: not a binary operator *)
Definition prec (o : oper) : Z :=
  match o with
  | Arith Mul | Arith Div | Arith Mod => 3
  | Arith Add | Arith Sub => 4
  | Arith Shl | Arith Shr => 5
  | Rel Lt | Rel Le | Rel Gt | Rel Ge => 6
  | Rel Eq | Rel Ne => 7
  | Arith And => 8
  | Arith Xor => 9
  | Arith Or => 10
  end.
Definition top (e : exp) : Z := match e with EOp o _ _ => prec o | _ => 0 end.
(** the tree is the one the C grammar gives its tokens: a left operand may have an operator of the same
    level at its top, a right operand only tighter ones, the operand of a unary operator none *)
Fixpoint wf_exp (e : exp) : Prop :=
  match e with
  | ENum v => 0 <= v < 32768
  | EVar x => 0 <= x
  | EPar e => wf_exp e
  | EUn _ e => top e = 0 /\ wf_exp e
  | EOp o a b => top a <= prec o /\ top b < prec o /\ wf_exp a /\ wf_exp b
  end.

(** tokens: token number, precedence as an infix operator, value of a number *)
Definition token : Type := Z * Z * Z.
Definition t_type (t : token) : Z := fst (fst t).
Definition t_prec (t : token) : Z := snd (fst t).
Definition op_tok (o : oper) : Z := match o with Arith o => bintok o | Rel o => cmptok o end.
Definition un_tok (u : unop) : token :=
  match u with Neg => (ch_minus, 4, 0) | Com => (ch_tilde, PREC_STOP, 0) | Pos => (ch_plus, 4, 0) | Not => (ch_bang, PREC_STOP, 0) end.
Fixpoint toks (e : exp) : list token :=
  match e with
  | ENum v => [(TOK_NUM, PREC_STOP, v)]
  | EVar x => [(TOK_KEYWORD + x, PREC_STOP, 0)]
  | EPar e => (ch_lpar, PREC_STOP, 0) :: toks e ++ [(ch_rpar, PREC_STOP, 0)]
  | EUn u e => un_tok u :: toks e
  | EOp o a b => toks a ++ (op_tok o, prec o, 0) :: toks b
  end.

(** ** Meaning *)
(** an int, if it fits *)
Definition int16 (v : Z) : option Z := if (-32768 <=? v) && (v <=? 32767) then Some v else None.
(** None: undefined in C (overflow, division by zero, shift of a negative number or by a bad count);
    >> of a negative number is arithmetic, as on the usual compilers *)
Definition apply_arith (o : binop) (a b : Z) : option Z :=
  match o with
  | Add => int16 (a + b)
  | Sub => int16 (a - b)
  | Mul => int16 (a * b)
  | Div => if b =? 0 then None else int16 (Z.quot a b)
  | Mod => if b =? 0 then None else if Z.quot a b =? 32768 then None else Some (Z.rem a b)
  | And => Some (Z.land a b)
  | Or => Some (Z.lor a b)
  | Xor => Some (Z.lxor a b)
  | Shl => if (0 <=? a) && (0 <=? b) && (b <? 16) then int16 (a * 2 ^ b) else None
  | Shr => if (0 <=? b) && (b <? 16) then Some (a / 2 ^ b) else None
  end.
Definition compare (o : cmpop) (a b : Z) : bool :=
  match o with
  | Lt => a <? b | Le => a <=? b | Gt => b <? a | Ge => b <=? a | Eq => a =? b | Ne => negb (a =? b)
  end.
Definition apply (o : oper) (a b : Z) : option Z :=
  match o with Arith o => apply_arith o a b | Rel o => Some (if compare o a b then 1 else 0) end.
Definition apply_un (u : unop) (a : Z) : option Z :=
  match u with Neg => int16 (- a) | Com => Some (- a - 1) | Pos => Some a | Not => Some (if a =? 0 then 1 else 0) end.
Fixpoint eval (env : Z -> Z) (e : exp) : option Z :=
  match e with
  | ENum v => Some v
  | EVar x => Some (env x)
  | EPar e => eval env e
  | EUn u e => match eval env e with Some a => apply_un u a | None => None end
  | EOp o a b => match eval env a, eval env b with Some x, Some y => apply o x y | _, _ => None end
  end.

(** ** Where the compiler is known to be right *)
(** no variable in it: evaluated during compilation *)
Fixpoint constant (e : exp) : bool :=
  match e with
  | ENum _ => true | EVar _ => false | EPar e => constant e | EUn _ e => constant e
  | EOp _ a b => constant a && constant b
  end.
(** the operands with which the compiled operator is right; each exclusion is refuted elsewhere or
    is a limit of the machine:
    - adding or subtracting the constant -32768;
    - multiplying by the constant 0 (C22_zero_refuted: it is not multiplied at all);
    - dividing by a constant power of two a negative number it does not divide (C23_pow2_refuted), or by
      the constant -32768;
    - at run time -32768 / 1 and -32768 % 1, which the processor refuses *)
Definition right_op (o : oper) (a b : exp) (x y : Z) : Prop :=
  match o with
  | Arith Add => (constant a = true -> x <> -32768) /\ (constant b = true -> y <> -32768)
  | Arith Sub => constant b = true -> y <> -32768
  | Arith Mul => (constant a = true -> x <> 0) /\ (constant b = true -> y <> 0)
  | Arith Div => if constant b then y <> -32768 /\ ((exists k, 0 <= k /\ y = 2 ^ k) -> 0 <= x \/ x mod y = 0)
                 else x = -32768 -> y <> 1
  | Arith Mod => x = -32768 -> y <> 1
  | _ => True
  end.
(** a comparison or the negation of something: true or false *)
Fixpoint isbool (e : exp) : bool :=
  match e with EPar e => isbool e | EUn Not _ => true | EOp (Rel _) _ _ => true | _ => false end.
(** ! of an int that is not constant is left out: whether it is tested depends on the instruction before *)
Definition right_un (u : unop) (e : exp) : Prop :=
  match u with Not => constant e = true \/ isbool e = true | _ => True end.
Fixpoint right (env : Z -> Z) (e : exp) : Prop :=
  match e with
  | EPar e => right env e
  | EUn u e => right env e /\ right_un u e
  | EOp o a b => right env a /\ right env b /\
      (constant a && constant b = true \/ forall x y, eval env a = Some x -> eval env b = Some y -> right_op o a b x y)
  | _ => True
  end.

(** stack words needed below the ones in use: one for each operator that waits for its right operand *)
Fixpoint depth (e : exp) : nat :=
  match e with
  | ENum _ | EVar _ => 0
  | EPar e | EUn _ e => depth e
  | EOp _ a b => Nat.max (depth a) (S (depth b))
  end.
(** the variables it mentions *)
Fixpoint vars (e : exp) : list Z :=
  match e with
  | ENum _ => [] | EVar x => [x] | EPar e | EUn _ e => vars e | EOp _ a b => vars a ++ vars b
  end.

Lemma int16_some v x : int16 v = Some x -> x = v /\ -32768 <= v <= 32767.
Proof. unfold int16. destruct (Z.leb_spec (-32768) v), (Z.leb_spec v 32767); cbn [andb]; intro E; try discriminate. injection E as <-. lia. Qed.
