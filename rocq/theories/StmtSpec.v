(** What a statement of C is and means, independently of the compiler: statements over int variables, how they
    are written as tokens, and what they do to the variables. *)
From Verif Require Import Base SccState SccOps ExprSpec.

(** what changes a variable *)
Inductive act :=
| ASet (x : Z) (e : exp)                             (* x = e                      *)
| AOp (o : binop) (x : Z) (e : exp)                  (* x += e and the like        *)
| AInc (pre up : bool) (x : Z).                      (* ++x  --x  x++  x--         *)
Inductive stmt :=
| SSkip                                              (* ;                          *)
| SAsn (a : act)                                     (* x = e;  x += e;  x++;      *)
| SIf (c : exp) (a : stmt)                           (* if (c) a                   *)
| SIfElse (c : exp) (a b : stmt)                     (* if (c) a else b            *)
| SWhile (c : exp) (b : stmt)                        (* while (c) b                *)
| SDo (b : stmt) (c : exp)                           (* do b while (c);            *)
| SFor (i : option act) (c : option exp) (s : option act) (b : stmt)
                                                     (* for (x = e; c; y++) b, each part may be missing *)
| SBreak | SContinue                                 (* break;  continue;          *)
| SReturn (e : exp)                                  (* return e;                  *)
| SBlock (l : list stmt).                            (* { ... }                    *)

(** ** Syntax *)
Definition kw (k : Z) : token := (k, PREC_STOP, 0).
Definition asn_tok (o : binop) : Z :=
  match o with
  | Add => TOK_PLUSEQ | Sub => TOK_MINUSEQ | Mul => TOK_STAREQ | Div => TOK_SLASHEQ | Mod => TOK_MODEQ
  | And => TOK_ANDEQ | Or => TOK_OREQ | Xor => TOK_XOREQ | Shl => TOK_LSHEQ | Shr => TOK_RSHEQ
  end.
Definition inc_tok (up : bool) : Z := if up then TOK_PLUSPLUS else TOK_MINUSMINUS.
Definition atoks (a : act) : list token :=
  match a with
  | ASet x e => kw (TOK_KEYWORD + x) :: (ch_eq, PREC_ASSIGN, 0) :: toks e
  | AOp o x e => kw (TOK_KEYWORD + x) :: (asn_tok o, PREC_ASSIGN, 0) :: toks e
  | AInc true up x => [kw (inc_tok up); kw (TOK_KEYWORD + x)]
  | AInc false up x => [kw (TOK_KEYWORD + x); kw (inc_tok up)]
  end.
Definition otoks (a : option act) : list token := match a with Some a => atoks a | None => [] end.
Definition ctoks (c : option exp) : list token := match c with Some c => toks c | None => [] end.
Fixpoint stoks (st : stmt) : list token :=
  match st with
  | SSkip => [kw ch_semi]
  | SAsn a => atoks a ++ [kw ch_semi]
  | SIf c a => kw TOK_IF :: kw ch_lpar :: toks c ++ kw ch_rpar :: stoks a
  | SIfElse c a b => kw TOK_IF :: kw ch_lpar :: toks c ++ kw ch_rpar :: stoks a ++ kw TOK_ELSE :: stoks b
  | SWhile c b => kw TOK_WHILE :: kw ch_lpar :: toks c ++ kw ch_rpar :: stoks b
  | SDo b c => kw TOK_DO :: stoks b ++ kw TOK_WHILE :: kw ch_lpar :: toks c ++ [kw ch_rpar; kw ch_semi]
  | SFor i c s b => kw TOK_FOR :: kw ch_lpar :: otoks i ++ kw ch_semi :: ctoks c ++ kw ch_semi :: otoks s ++ kw ch_rpar :: stoks b
  | SBreak => [kw TOK_BREAK; kw ch_semi]
  | SContinue => [kw TOK_CONTINUE; kw ch_semi]
  | SReturn e => kw TOK_RETURN :: toks e ++ [kw ch_semi]
  | SBlock l => kw ch_lbrace :: flat_map stoks l ++ [kw ch_rbrace]
  end.
(** an else that follows would belong to an if in it *)
Fixpoint open (st : stmt) : bool :=
  match st with SIf _ _ => true | SIfElse _ _ b | SWhile _ b | SFor _ _ _ b => open b | _ => false end.
(** control may go on behind it, as far as its form shows *)
Fixpoint falls (st : stmt) : bool :=
  match st with
  | SBreak | SContinue | SReturn _ => false
  | SBlock l => (fix go l := match l with [] => true | [a] => falls a | _ :: r => go r end) l
  | _ => true
  end.

(** ** Meaning *)
Definition assign (env : Z -> Z) (x v : Z) : Z -> Z := fun y => if y =? x then v else env y.
(** e has the value v, and the compiler is known to be right about it *)
Definition value (env : Z -> Z) (e : exp) (v : Z) : Prop := eval env e = Some v /\ right env e.
Definition test (env : Z -> Z) (c : exp) (b : bool) : Prop := exists v, value env c v /\ b = negb (v =? 0).
Definition tests (env : Z -> Z) (c : option exp) : Prop := match c with Some c => test env c true | None => True end.
(** the compiler is known to be right about x o= e, where x holds a and e has the value b *)
Definition right_asn (o : binop) (x : Z) (e : exp) (a b : Z) : Prop :=
  match o with Add | Sub | And | Or | Xor => True | _ => right_op (Arith o) (EVar x) e a b end.
Definition act_step (a : act) (env env' : Z -> Z) : Prop :=
  match a with
  | ASet x e => exists v, value env e v /\ env' = assign env x v
  | AOp o x e => exists b v, value env e b /\ apply_arith o (env x) b = Some v /\ right_asn o x e (env x) b /\ env' = assign env x v
  | AInc _ up x => exists v, int16 (env x + if up then 1 else -1) = Some v /\ env' = assign env x v
  end.
Definition astep (a : option act) (env env' : Z -> Z) : Prop := match a with Some a => act_step a env env' | None => env' = env end.

Inductive outcome := Normal | Broke | Continued | Returned (v : Z).
(** the loop ends, with this outcome *)
Definition leaves (o o' : outcome) : Prop :=
  match o with Broke => o' = Normal | Returned v => o' = Returned v | _ => False end.
Definition goes_on (o : outcome) : Prop := o = Normal \/ o = Continued.
Inductive sexec : stmt -> (Z -> Z) -> (Z -> Z) -> outcome -> Prop :=
| x_skip env : sexec SSkip env env Normal
| x_asn a env env' : act_step a env env' -> sexec (SAsn a) env env' Normal
| x_if c a env env' o : test env c true -> sexec a env env' o -> sexec (SIf c a) env env' o
| x_if_not c a env : test env c false -> sexec (SIf c a) env env Normal
| x_then c a b env env' o : test env c true -> sexec a env env' o -> sexec (SIfElse c a b) env env' o
| x_else c a b env env' o : test env c false -> sexec b env env' o -> sexec (SIfElse c a b) env env' o
| x_while_end c b env : test env c false -> sexec (SWhile c b) env env Normal
| x_while_out c b env env' o o' : test env c true -> sexec b env env' o -> leaves o o' -> sexec (SWhile c b) env env' o'
| x_while c b env env1 env' o o' : test env c true -> sexec b env env1 o -> goes_on o -> sexec (SWhile c b) env1 env' o' -> sexec (SWhile c b) env env' o'
| x_do_out c b env env' o o' : sexec b env env' o -> leaves o o' -> sexec (SDo b c) env env' o'
| x_do_end c b env env' o : sexec b env env' o -> goes_on o -> test env' c false -> sexec (SDo b c) env env' Normal
| x_do c b env env1 env' o o' : sexec b env env1 o -> goes_on o -> test env1 c true -> sexec (SDo b c) env1 env' o' -> sexec (SDo b c) env env' o'
| x_for i c s b env env1 env' o : astep i env env1 -> sfor c s b env1 env' o -> sexec (SFor i c s b) env env' o
| x_break env : sexec SBreak env env Broke
| x_continue env : sexec SContinue env env Continued
| x_return e env v : value env e v -> sexec (SReturn e) env env (Returned v)
| x_block l env env' o : sexecs l env env' o -> sexec (SBlock l) env env' o
with sfor : option exp -> option act -> stmt -> (Z -> Z) -> (Z -> Z) -> outcome -> Prop :=
| f_end c s b env : test env c false -> sfor (Some c) s b env env Normal
| f_out c s b env env' o o' : tests env c -> sexec b env env' o -> leaves o o' -> sfor c s b env env' o'
| f_next c s b env env1 env2 env' o o' : tests env c -> sexec b env env1 o -> goes_on o -> astep s env1 env2 -> sfor c s b env2 env' o' -> sfor c s b env env' o'
with sexecs : list stmt -> (Z -> Z) -> (Z -> Z) -> outcome -> Prop :=
| l_end env : sexecs [] env env Normal
| l_next a l env env1 env' o : sexec a env env1 Normal -> sexecs l env1 env' o -> sexecs (a :: l) env env' o
| l_out a l env env' o : sexec a env env' o -> o <> Normal -> sexecs (a :: l) env env' o.

(** ** Where the compiler is known to be right *)
(** some values of the variables give it a value *)
Definition sane (e : exp) : Prop := exists env v, (forall x, -32768 <= env x <= 32767) /\ value env e v.
Definition good_exp (e : exp) : Prop := wf_exp e /\ sane e.
(** a condition: a comparison or negation that depends on variables, or a constant other than 0 *)
Definition good_cond (c : exp) : Prop :=
  good_exp c /\ (constant c = false /\ isbool c = true \/ constant c = true /\ forall env v, eval env c = Some v -> v <> 0).
(** a constant at the end of a do loop must be 0: do ... while (1) does not loop (C40_do_while_refuted) *)
Definition good_end (c : exp) : Prop :=
  good_exp c /\ (constant c = false /\ isbool c = true \/ constant c = true /\ forall env v, eval env c = Some v -> v = 0).
(** some values of the variables allow it *)
Definition good_act (a : act) : Prop :=
  match a with
  | ASet x e => 0 <= x /\ good_exp e
  | AOp o x e => 0 <= x /\ good_exp e /\ exists env env', (forall y, -32768 <= env y <= 32767) /\ act_step a env env'
  | AInc _ _ x => 0 <= x
  end.
Definition good_asn (a : option act) : Prop := match a with Some a => good_act a | None => True end.
(** loop: inside a loop, where break and continue have a meaning; nothing follows a break, continue or return in its block *)
Fixpoint wf_stmt (loop : bool) (st : stmt) : Prop :=
  match st with
  | SSkip => True
  | SAsn a => good_act a
  | SIf c a => good_cond c /\ wf_stmt loop a
  | SIfElse c a b => good_cond c /\ wf_stmt loop a /\ open a = false /\ wf_stmt loop b
  | SWhile c b => good_cond c /\ wf_stmt true b
  | SDo b c => good_end c /\ wf_stmt true b
  | SFor i c s b => good_asn i /\ (match c with Some c => good_cond c | None => True end) /\ good_asn s /\ wf_stmt true b
  | SBreak | SContinue => loop = true
  | SReturn e => good_exp e
  | SBlock l => (fix all l := match l with [] => True | a :: r => wf_stmt loop a /\ (r = [] \/ falls a = true) /\ all r end) l
  end.
(** the variables it mentions *)
Definition act_vars (a : act) : list Z := match a with ASet x e | AOp _ x e => x :: vars e | AInc _ _ x => [x] end.
Definition avars (a : option act) : list Z := match a with Some a => act_vars a | None => [] end.
Definition cvars (c : option exp) : list Z := match c with Some c => vars c | None => [] end.
Fixpoint svars (st : stmt) : list Z :=
  match st with
  | SSkip | SBreak | SContinue => []
  | SAsn a => act_vars a
  | SIf c a => vars c ++ svars a
  | SIfElse c a b => vars c ++ svars a ++ svars b
  | SWhile c b | SDo b c => vars c ++ svars b
  | SFor i c s b => avars i ++ cvars c ++ avars s ++ svars b
  | SReturn e => vars e
  | SBlock l => flat_map svars l
  end.
(** stack words its expressions need *)
Definition act_depth (a : act) : nat := match a with ASet _ e | AOp _ _ e => depth e | AInc _ _ _ => O end.
Definition adepth (a : option act) : nat := match a with Some a => act_depth a | None => O end.
Definition cdepth (c : option exp) : nat := match c with Some c => depth c | None => O end.
Fixpoint sdepth (st : stmt) : nat :=
  match st with
  | SSkip | SBreak | SContinue => O
  | SAsn a => act_depth a
  | SReturn e => depth e
  | SIf c a => Nat.max (depth c) (sdepth a)
  | SIfElse c a b => Nat.max (depth c) (Nat.max (sdepth a) (sdepth b))
  | SWhile c b | SDo b c => Nat.max (depth c) (sdepth b)
  | SFor i c s b => Nat.max (adepth i) (Nat.max (cdepth c) (Nat.max (adepth s) (sdepth b)))
  | SBlock l => fold_right (fun a n => Nat.max (sdepth a) n) O l
  end.

Lemma falls_block l : falls (SBlock l) = match l with [] => true | [a] => falls a | _ :: r => falls (SBlock r) end.
Proof. destruct l; reflexivity. Qed.
(** a statement that ends normally falls *)
Scheme sexec_mut := Minimality for sexec Sort Prop with sfor_mut := Minimality for sfor Sort Prop with sexecs_mut := Minimality for sexecs Sort Prop.
Lemma normal_falls st env env' : sexec st env env' Normal -> falls st = true.
Proof.
  intro H. enough (Q : Normal = Normal -> falls st = true) by (apply Q; reflexivity). revert H. generalize Normal at 1 2. intros o H EO.
  apply (sexec_mut (fun st _ _ o => o = Normal -> falls st = true) (fun _ _ _ _ _ _ => True) (fun l _ _ o => o = Normal -> falls (SBlock l) = true)) in H; auto; clear; intros; try reflexivity; try discriminate.
  - rewrite falls_block. destruct l; auto.
Qed.
Lemma if_inv c a env env' o : sexec (SIf c a) env env' o -> test env c true /\ sexec a env env' o \/ test env c false /\ env' = env /\ o = Normal.
Proof. intro H. inversion H; subst; auto. Qed.
Lemma ifelse_inv c a b env env' o : sexec (SIfElse c a b) env env' o -> test env c true /\ sexec a env env' o \/ test env c false /\ sexec b env env' o.
Proof. intro H. inversion H; subst; auto. Qed.
Lemma for_inv i c s b env env' o : sexec (SFor i c s b) env env' o -> exists env1, astep i env env1 /\ sfor c s b env1 env' o.
Proof. intro H. inversion H; subst. eauto. Qed.
Lemma block_inv l env env' o : sexec (SBlock l) env env' o -> sexecs l env env' o.
Proof. intro H. inversion H; subst. auto. Qed.
Lemma cons_inv a l env env' o : sexecs (a :: l) env env' o -> (exists env1, sexec a env env1 Normal /\ sexecs l env1 env' o) \/ sexec a env env' o /\ o <> Normal.
Proof. intro H. inversion H; subst; eauto. Qed.
Lemma nil_inv env env' o : sexecs [] env env' o -> env' = env /\ o = Normal.
Proof. intro H. inversion H; subst; auto. Qed.
