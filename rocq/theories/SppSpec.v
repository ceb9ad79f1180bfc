(** What the preprocessor should do, without reference to scpp.c: source text as a sequence of
    lexemes, macro environments, macro expansion with hidden names, #if expressions as trees,
    and the meaning of a file built from text lines, definitions and conditional groups. *)
From Coq Require Import ZArith List Bool Lia String.
From Verif Require Import Base.
From Verif Require SccLex.
Import ListNotations.
Open Scope Z_scope.
Notation length := List.length.
Notation bytes := SccLex.bytes_of.

(** * Lexemes *)
Inductive lexeme :=
| Ws (l : list Z)              (* blanks *)
| Nl                           (* end of line *)
| Id (w : list Z)
| Num (w : list Z)
| Lit (q : Z) (w : list Z)     (* string or character literal; q is the quote *)
| Op (w : list Z).             (* operator or punctuation *)
Definition text (x : lexeme) : list Z :=
  match x with Ws l => l | Nl => [10] | Id w | Num w | Op w => w | Lit q w => q :: w ++ [q] end.
Definition texts (l : list lexeme) : list Z := List.concat (map text l).
Definition digit (c : Z) : bool := (48 <=? c) && (c <=? 57).
Definition letter (c : Z) : bool := ((65 <=? c) && (c <=? 90)) || ((97 <=? c) && (c <=? 122)) || (c =? 95).
Definition wordchar (c : Z) : bool := digit c || letter c.
Definition blank (c : Z) : bool := (1 <=? c) && (c <=? 32) && negb (c =? 10).
Definition singles : list Z := bytes "*%+-^()?:,;{}[].~#=!<>&|/".
Definition doubles : list (list Z) := map bytes ["##"; "=="; "!="; "<="; ">="; "&&"; "||"]%string.
(** no newline, no quote that is not escaped, no escape at the end *)
Fixpoint literal_ok (q : Z) (esc : bool) (w : list Z) : bool :=
  match w with
  | [] => negb esc
  | c :: w => (1 <=? c) && (c <=? 127) && negb (c =? 10) && (esc || negb (c =? q)) &&
              literal_ok q (if c =? 92 then negb esc else false) w
  end.
Definition wf_lexeme (x : lexeme) : bool :=
  match x with
  | Ws l => negb (Nat.eqb (length l) 0) && forallb blank l
  | Nl => true
  | Id w => match w with c :: r => letter c && forallb wordchar r | [] => false end
  | Num w => match w with c :: r => digit c && forallb wordchar r | [] => false end
  | Lit q w => ((q =? 34) || (q =? 39)) && literal_ok q false w
  | Op w => match w with [c] => existsb (Z.eqb c) singles | _ => if in_dec (list_eq_dec Z.eq_dec) w doubles then true else false end
  end.
(** a lexeme ends before the character c (0: end of the file) *)
Definition ends_before (x : lexeme) (c : Z) : bool :=
  match x with
  | Id _ | Num _ => negb (wordchar c)
  | Ws _ => negb (blank c)
  | Op [o] => (if in_dec (list_eq_dec Z.eq_dec) [o; c] doubles then false else true) && negb ((o =? 47) && ((c =? 47) || (c =? 42)))
  | _ => true
  end.
Fixpoint separated (l : list lexeme) : bool :=
  match l with
  | [] => true
  | x :: r => wf_lexeme x && ends_before x (hd 0 (texts r)) && separated r
  end.

(** * Macros *)
Definition keywords : list (list Z) :=
  map bytes ["define"; "undef"; "if"; "ifdef"; "ifndef"; "elif"; "else"; "endif"; "include"; "line"; "error"; "pragma"; "defined";
   "__FILE__"; "__LINE__"; "__SCC__"]%string.
(** every name defined so far, in order, with its body unless it has been removed *)
Definition env := list (list Z * option (list lexeme)).
Definition word_eq (a b : list Z) : bool := if list_eq_dec Z.eq_dec a b then true else false.
Fixpoint lookup (e : env) (n : list Z) : option (option (list lexeme)) :=
  match e with [] => None | (m, b) :: e => if word_eq m n then Some b else lookup e n end.
Fixpoint update (e : env) (n : list Z) (b : option (list lexeme)) : env :=
  match e with
  | [] => [(n, b)]
  | (m, c) :: e => if word_eq m n then (m, b) :: e else (m, c) :: update e n b
  end.
Definition defined (e : env) (n : list Z) : bool :=
  match lookup e n with
  | Some (Some _) => true
  | _ => existsb (word_eq n) (map bytes ["__FILE__"; "__LINE__"; "__SCC__"]%string)
  end.
(** a body: blanks at both ends go, blanks between lexemes become one *)
Fixpoint squeeze (pend : Z) (l : list lexeme) : list lexeme :=
  match l with
  | [] => []
  | Ws _ :: r => squeeze (if pend =? 0 then 1 else pend) r
  | x :: r => (if pend =? 1 then [Ws [32]] else []) ++ x :: squeeze 0 r
  end.
Definition is_hash (x : lexeme) : bool := match x with Op w => word_eq w (bytes "#") || word_eq w (bytes "##") | _ => false end.
Definition is_nl (x : lexeme) : bool := match x with Nl => true | _ => false end.
Definition is_ws (x : lexeme) : bool := match x with Ws _ => true | _ => false end.

Definition oapp {A} (a b : option (list A)) : option (list A) :=
  match a, b with Some a, Some b => Some (a ++ b) | _, _ => None end.
(** expansion: a macro is replaced by the expansion of its body in which its own name is hidden;
    None if the nesting gets deeper than d, or for __FILE__ and __LINE__ *)
Fixpoint expand (e : env) (d : nat) : list (list Z) -> list lexeme -> option (list lexeme) :=
  let fix go (hid : list (list Z)) (l : list lexeme) : option (list lexeme) :=
    match l with
    | [] => Some []
    | Id w :: r =>
        if word_eq w (bytes "__SCC__") then oapp (Some [Num [49]]) (go hid r)
        else if word_eq w (bytes "__FILE__") || word_eq w (bytes "__LINE__") then None
        else match lookup e w with
             | Some (Some body) =>
                 if existsb (word_eq w) hid then oapp (Some [Id w]) (go hid r)
                 else match body with
                      | [] => go hid r
                      | _ => match d with
                             | O => None
                             | S d => oapp (expand e d (w :: hid) body) (go hid r)
                             end
                      end
             | _ => oapp (Some [Id w]) (go hid r)
             end
    | x :: r => oapp (Some [x]) (go hid r)
    end in go.
(** the nesting scpp supports *)
Definition NEST : nat := 10.

(** * #if expressions *)
(** the lexemes of an expression after expansion; [ED b]: a use of defined that yields b *)
Inductive etok := EL (x : lexeme) | ED (b : bool).
Fixpoint ifexpand (e : env) (l : list lexeme) : option (list etok) :=
  match l with
  | [] => Some []
  | x :: r =>
      match x, r with
      | Id d, Ws _ :: Id w :: r' =>
          if word_eq d (bytes "defined") then oapp (Some [ED (defined e w)]) (ifexpand e r')
          else oapp (option_map (map EL) (expand e NEST [] [x])) (ifexpand e r)
      | Id d, Op p :: Id w :: Op q :: r' =>
          if word_eq d (bytes "defined") then
            if word_eq p (bytes "(") && word_eq q (bytes ")") then oapp (Some [ED (defined e w)]) (ifexpand e r') else None
          else oapp (option_map (map EL) (expand e NEST [] [x])) (ifexpand e r)
      | Id d, _ =>
          if word_eq d (bytes "defined") then None
          else oapp (option_map (map EL) (expand e NEST [] [x])) (ifexpand e r)
      | _, _ => oapp (Some [EL x]) (ifexpand e r)
      end
  end.
Definition e_ws (t : etok) : bool := match t with EL x => is_ws x | ED _ => false end.
Inductive binop := Mul | Div | Mod | Add | Sub | Lt | Gt | Le | Ge | Eq | Ne | And | Xor | Or | LAnd | LOr.
Inductive expr :=
| XNum (w : list Z)
| XId (w : list Z)
| XDef (b : bool)
| XNot (a : expr)
| XPar (a : expr)
| XBin (o : binop) (a b : expr)
| XCond (c a b : expr).
Definition op_text (o : binop) : list Z :=
  bytes (match o with
  | Mul => "*" | Div => "/" | Mod => "%" | Add => "+" | Sub => "-" | Lt => "<" | Gt => ">" | Le => "<=" | Ge => ">="
  | Eq => "==" | Ne => "!=" | And => "&" | Xor => "^" | Or => "|" | LAnd => "&&" | LOr => "||" end)%string.
Fixpoint toks (x : expr) : list etok :=
  match x with
  | XNum w => [EL (Num w)]
  | XId w => [EL (Id w)]
  | XDef b => [ED b]
  | XNot a => EL (Op (bytes "!")) :: toks a
  | XPar a => EL (Op (bytes "(")) :: toks a ++ [EL (Op (bytes ")"))]
  | XBin o a b => toks a ++ EL (Op (op_text o)) :: toks b
  | XCond c a b => toks c ++ EL (Op (bytes "?")) :: toks a ++ EL (Op (bytes ":")) :: toks b
  end.
(** precedence in C: the smaller the tighter *)
Definition level (o : binop) : Z :=
  match o with
  | Mul | Div | Mod => 3 | Add | Sub => 4 | Lt | Gt | Le | Ge => 6 | Eq | Ne => 7
  | And => 8 | Xor => 9 | Or => 10 | LAnd => 11 | LOr => 12
  end.
Definition level_of (x : expr) : Z := match x with XBin o _ _ => level o | XCond _ _ _ => 13 | _ => 0 end.
Definition in_base (base c : Z) : bool :=
  if base =? 16 then digit c || ((65 <=? c) && (c <=? 70)) || ((97 <=? c) && (c <=? 102)) else (48 <=? c) && (c <? 48 + base).
Definition digit_value (c : Z) : Z := if digit c then c - 48 else if c <? 97 then c - 55 else c - 87.
Definition positional (base : Z) (w : list Z) : Z := fold_left (fun n c => n * base + digit_value c) w 0.
(** a decimal, octal or hexadecimal constant without suffix *)
Definition constant (w : list Z) : option Z :=
  match w with
  | 48 :: x :: r =>
      if (x =? 120) || (x =? 88) then if forallb (in_base 16) r then Some (positional 16 r) else None
      else if forallb (in_base 8) (x :: r) then Some (positional 8 (x :: r)) else None
  | _ => if forallb (in_base 10) w then Some (positional 10 w) else None
  end.
(** the tree is the one that the lexemes stand for: as in C, but operators of one level group to the right *)
Fixpoint grouped (e : env) (x : expr) : bool :=
  match x with
  | XNum w => match constant w with Some _ => true | None => false end
  | XId w => negb (existsb (word_eq w) keywords) && match lookup e w with Some (Some _) => false | _ => true end
  | XDef _ => true
  | XNot a => grouped e a && (level_of a =? 0)
  | XPar a => grouped e a
  | XBin o a b => grouped e a && grouped e b && (level_of a <? level o) && (level_of b <=? level o)
  | XCond c a b => grouped e c && grouped e a && grouped e b && (level_of c <? 13)
  end.
Section Width.
Variable W : Z.
Definition truth (b : bool) : Z := if b then 1 else 0.
(** the value of an operator on W-bit integers; None: division by zero.  > is what scpp computes: < *)
Definition op_value (o : binop) (a b : Z) : option Z :=
  match o with
  | Mul => Some (ws W (a * b))
  | Div => if b =? 0 then None else Some (ws W (Z.quot a b))
  | Mod => if b =? 0 then None else Some (Z.rem a b)
  | Add => Some (ws W (a + b))
  | Sub => Some (ws W (a - b))
  | Lt => Some (truth (a <? b))
  | Gt => Some (truth (a <? b))
  | Le => Some (truth (a <=? b))
  | Ge => Some (truth (b <=? a))
  | Eq => Some (truth (a =? b))
  | Ne => Some (truth (negb (a =? b)))
  | And => Some (Z.land a b)
  | Xor => Some (Z.lxor a b)
  | Or => Some (Z.lor a b)
  | LAnd => Some (truth (negb (a =? 0) && negb (b =? 0)))
  | LOr => Some (truth (negb (a =? 0) || negb (b =? 0)))
  end.
(** all operands are evaluated *)
Fixpoint value (x : expr) : option Z :=
  match x with
  | XNum w => option_map (ws W) (constant w)
  | XId _ => Some 0
  | XDef b => Some (truth b)
  | XNot a => option_map (fun v => truth (v =? 0)) (value a)
  | XPar a => value a
  | XBin o a b => match value a, value b with Some u, Some v => op_value o u v | _, _ => None end
  | XCond c a b => match value c, value a, value b with Some u, Some v, Some w => Some (if u =? 0 then w else v) | _, _, _ => None end
  end.
(** the lexemes l after #if or #elif stand for an expression of value v *)
Definition condition (e : env) (l : list lexeme) (v : Z) : Prop :=
  exists ts x, ifexpand e l = Some ts /\ filter (fun t => negb (e_ws t)) ts = toks x /\ grouped e x = true /\ value x = Some v.


(** * Files *)
Definition blanks (t : list lexeme) : Prop := Forall (fun x => is_ws x = true) t.
(** what opens a conditional group: #if with an expression, or #ifdef / #ifndef with a name
    between blanks [a] and [t] *)
Inductive opening := OIf (l : list lexeme) | OIfdef (a : list Z) (n : list Z) (t : list lexeme) | OIfndef (a : list Z) (n : list Z) (t : list lexeme).
(** a file: text lines, #define and #undef lines, conditional groups; every line ends with a newline *)
Inductive items :=
| Done
| Line (l : list lexeme) (r : items)
| Define (a : list Z) (n : list Z) (b : list lexeme) (r : items)
| Undef (a : list Z) (n : list Z) (t : list lexeme) (r : items)
| Group (o : opening) (b : items) (m : more) (r : items)
with more :=
| Endif (t : list lexeme)
| Else (t : list lexeme) (b : items) (u : list lexeme)
| Elif (l : list lexeme) (b : items) (m : more).
Definition hash (d : string) : list lexeme := [Op (bytes "#"); Id (bytes d)].
Definition open_line (o : opening) : list lexeme :=
  match o with
  | OIf l => hash "if" ++ l ++ [Nl]
  | OIfdef a n t => hash "ifdef" ++ Ws a :: Id n :: t ++ [Nl]
  | OIfndef a n t => hash "ifndef" ++ Ws a :: Id n :: t ++ [Nl]
  end.
(** the lexemes of a file *)
Fixpoint lexemes (i : items) : list lexeme :=
  match i with
  | Done => []
  | Line l r => l ++ Nl :: lexemes r
  | Define a n b r => hash "define" ++ Ws a :: Id n :: b ++ Nl :: lexemes r
  | Undef a n t r => hash "undef" ++ Ws a :: Id n :: t ++ Nl :: lexemes r
  | Group o b m r => open_line o ++ lexemes b ++ more_lexemes m ++ lexemes r
  end
with more_lexemes (m : more) : list lexeme :=
  match m with
  | Endif t => hash "endif" ++ t ++ [Nl]
  | Else t b u => hash "else" ++ t ++ Nl :: lexemes b ++ hash "endif" ++ u ++ [Nl]
  | Elif l b m => hash "elif" ++ l ++ Nl :: lexemes b ++ more_lexemes m
  end.

(** what is written for the lexemes: their texts, with a newline between two of them if there was a line end,
    otherwise a blank if there were blanks; nothing after the last one.
    [p]: 0 nothing passed since the last lexeme, 1 blanks, 2 a line end *)
Definition separator (p : Z) : list Z := if p =? 0 then [] else if p =? 1 then [32] else [13; 10].
Fixpoint emit (p : Z) (l : list lexeme) : list Z :=
  match l with
  | [] => []
  | Ws _ :: r => emit (Z.max p 1) r
  | Nl :: r => emit 2 r
  | x :: r => separator p ++ text x ++ emit 0 r
  end.
Fixpoint pending (p : Z) (l : list lexeme) : Z :=
  match l with
  | [] => p
  | Ws _ :: r => pending (Z.max p 1) r
  | Nl :: r => pending 2 r
  | _ :: r => pending 0 r
  end.

(** ** Limits *)
(** scpp keeps the names and bodies of all macros ever defined in 2048 bytes; [used] of them are
    taken, and the lexemes of a line need room for their text one at a time *)
Definition TEXT := 2048.
Definition size (x : lexeme) : Z := match x with Ws _ | Nl => 0 | Id w | Num w | Op w | Lit _ w => Z.of_nat (length w) + 1 end.
Definition sizes (l : list lexeme) : Z := fold_right (fun x n => size x + n) 0 l.
Definition fits (used : Z) (l : list lexeme) : Prop := Forall (fun x => used + size x <= TEXT) l.
(** the tokens of all bodies: at most 128 *)
Definition stored (e : env) : Z :=
  fold_right (fun '(_, b) n => match b with Some l => Z.of_nat (length l) | None => 0 end + n) 0 e.
Definition POOL := 128.
Definition NAMES := 16.       (* user-defined names *)
Definition GROUPS : nat := 16.

(** ** Meaning *)
Definition is_def (e : env) (o : opening) (v : bool) : Prop :=
  match o with
  | OIf l => exists x, condition e l x /\ v = negb (x =? 0)
  | OIfdef _ n _ => v = defined e n
  | OIfndef _ n _ => v = negb (defined e n)
  end.
Definition opening_ok (used : Z) (o : opening) : Prop :=
  fits used (open_line o) /\
  match o with OIf l => Forall (fun x => is_nl x = false) l | OIfdef _ _ t | OIfndef _ _ t => blanks t end.
(** a text line: no newline inside and no # *)
Definition plain (l : list lexeme) : Prop := Forall (fun x => is_nl x = false /\ x <> Op (bytes "#")) l.

(** [means d e u i e' u' out]: with d more levels of groups possible, the file i changes the
    environment from e to e', the space used from u to u', and [out] is what it puts out, after expansion.
    [skips d e u i]: the file i is passed over. *)
Inductive means : nat -> env -> Z -> items -> env -> Z -> list lexeme -> Prop :=
| MDone d e u : means d e u Done e u []
| MLine d e u l y r e' u' out :
    plain l -> fits u l -> expand e NEST [] l = Some y -> means d e u r e' u' out ->
    means d e u (Line l r) e' u' (y ++ Nl :: out)
| MDefine d e u a n b r e1 u1 e' u' out :
    Forall (fun x => is_nl x = false /\ is_hash x = false) b -> (b = [] \/ exists a' b', b = Ws a' :: b') ->
    ~ In n keywords ->
    e1 = (match lookup e n with Some (Some _) => e | _ => update e n (Some (squeeze (-1) b)) end) ->
    u1 = (match lookup e n with Some (Some _) => u | Some None => u + sizes b | None => u + size (Id n) + sizes b end) ->
    fits u (hash "define" ++ [Id n]) ->
    (match lookup e n with Some (Some _) => fits u b | _ => u1 <= TEXT end) -> stored e1 <= POOL -> Z.of_nat (length e1) <= NAMES ->
    means d e1 u1 r e' u' out ->
    means d e u (Define a n b r) e' u' out
| MUndef d e u a n t r e1 e' u' out :
    blanks t -> fits u (hash "undef" ++ [Id n]) -> ~ In n keywords ->
    e1 = (match lookup e n with None => e | Some _ => update e n None end) ->
    lookup e n <> Some None ->
    means d e1 u r e' u' out ->
    means d e u (Undef a n t r) e' u' out
| MTrue d e u o b m r e1 u1 e' u' out1 out2 :
    opening_ok u o -> is_def e o true -> means d e u b e1 u1 out1 -> skips_more d e1 u1 m ->
    means (S d) e1 u1 r e' u' out2 ->
    means (S d) e u (Group o b m r) e' u' (out1 ++ out2)
| MFalse d e u o b m r e1 u1 e' u' out1 out2 :
    opening_ok u o -> is_def e o false -> skips d e u b -> means_more d e u m e1 u1 out1 ->
    means (S d) e1 u1 r e' u' out2 ->
    means (S d) e u (Group o b m r) e' u' (out1 ++ out2)
(** what follows a group that has not been taken *)
with means_more : nat -> env -> Z -> more -> env -> Z -> list lexeme -> Prop :=
| MEndif d e u t : blanks t -> fits u (hash "endif") -> means_more d e u (Endif t) e u []
| MElse d e u t b t' e' u' out :
    blanks t -> blanks t' -> fits u (hash "else") -> fits u' (hash "endif") -> means d e u b e' u' out ->
    means_more d e u (Else t b t') e' u' out
| MElifTrue d e u l b m e' u' out v :
    Forall (fun x => is_nl x = false) l -> fits u (hash "elif" ++ l) ->
    condition e l v -> v <> 0 -> means d e u b e' u' out -> skips_more d e' u' m ->
    means_more d e u (Elif l b m) e' u' out
| MElifFalse d e u l b m e' u' out :
    Forall (fun x => is_nl x = false) l -> fits u (hash "elif" ++ l) ->
    condition e l 0 -> skips d e u b -> means_more d e u m e' u' out ->
    means_more d e u (Elif l b m) e' u' out
(** skipped text; lines are still expanded, and the expressions of #if still evaluated *)
with skips : nat -> env -> Z -> items -> Prop :=
| SDone d e u : skips d e u Done
| SLine d e u l y r : plain l -> fits u l -> expand e NEST [] l = Some y -> skips d e u r -> skips d e u (Line l r)
| SDefine d e u a n b r : Forall (fun x => is_nl x = false) b -> fits u (hash "define" ++ Id n :: b) -> skips d e u r -> skips d e u (Define a n b r)
| SUndef d e u a n t r : blanks t -> fits u (hash "undef" ++ [Id n]) -> skips d e u r -> skips d e u (Undef a n t r)
| SGroup d e u o v b m r :
    opening_ok u o -> is_def e o v -> skips d e u b -> skips_more d e u m -> skips (S d) e u r -> skips (S d) e u (Group o b m r)
(** the rest of a group is passed over *)
with skips_more : nat -> env -> Z -> more -> Prop :=
| SEndif d e u t : blanks t -> fits u (hash "endif") -> skips_more d e u (Endif t)
| SElse d e u t b t' :
    blanks t -> blanks t' -> fits u (hash "else") -> fits u (hash "endif") -> skips d e u b -> skips_more d e u (Else t b t')
| SElif d e u l b m :
    Forall (fun x => is_nl x = false) l -> fits u (hash "elif" ++ l) ->
    skips d e u b -> skips_more d e u m -> skips_more d e u (Elif l b m).
End Width.
