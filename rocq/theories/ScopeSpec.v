(** What block scoping means, independently of the compiler: a stack of blocks, each a list of
    declarations; the outermost block holds the globals.  A name means its declaration in the
    innermost block that has one. *)
From Verif Require Import Base.

(** type, type extra, place (for a local variable the frame offset) *)
Record decl := mkdecl { d_type : Z; d_extra : Z; d_place : Z; d_used : bool }.
Definition block := list (Z * decl).

Inductive action :=
| Global (id t x : Z)          (* a declaration outside functions *)
| Function                     (* start of a function definition *)
| Enter                        (* { *)
| Local (id t x place : Z)     (* a declaration in a block (or a parameter) *)
| Refer (id r : Z)             (* the code refers to a static variable that has no address yet *)
| Implicit (id : Z)            (* a name never declared is used: a function *)
| Leave.                       (* } *)

Fixpoint find (b : block) (id : Z) : option decl :=
  match b with nil => None | (i, d) :: r => if i =? id then Some d else find r id end.
(** the innermost block first *)
Fixpoint means (bs : list block) (id : Z) : option decl :=
  match bs with nil => None | b :: r => match find b id with Some d => Some d | None => means r id end end.

Fixpoint mark (b : block) (id : Z) : block :=
  match b with nil => nil | (i, d) :: r => (i, if i =? id then mkdecl (d_type d) (d_extra d) (d_place d) true else d) :: mark r id end.
Fixpoint mark_innermost (bs : list block) (id : Z) : list block :=
  match bs with nil => nil | b :: r => match find b id with Some _ => mark b id :: r | None => b :: mark_innermost r id end end.
Fixpoint add_global (bs : list block) (id : Z) (d : decl) : list block :=
  match bs with nil => nil | [g] => [g ++ [(id, d)]] | b :: r => b :: add_global r id d end.
Definition used (b : block) : Z := Z.of_nat (length (filter (fun p => d_used (snd p)) b)).

(** blocks, number of table entries taken by globals, and of those left in the reserve for names
    that turn out to be global inside a function (4 when a function starts) *)
Record scoping := mksc { blocks : list block; taken : Z; left : Z }.
Definition inside (s : scoping) : Prop := (2 <= length (blocks s))%nat.
Definition locals (bs : list block) : Z := Z.of_nat (length (concat (removelast bs))).
(** table entries in use: must stay below 380 *)
Definition entries (s : scoping) : Z := taken s + left s + locals (blocks s).

Definition fresh : scoping := mksc [nil] 0 0.
(** a name never declared is a function returning int, VT_LOCGLOB + VT_FUN + VT_INT) *)
Definition implicit_type : Z := 1536 + 32 + 3.
(** what each action does, when it is within the compiler's limits *)
Inductive act : scoping -> action -> scoping -> Prop :=
| act_global g k id t x : 0 <= id -> find g id = None -> k < 380 ->
    act (mksc [g] k 0) (Global id t x) (mksc [g ++ [(id, mkdecl t x 0 false)]] (k + 1) 0)
| act_again g k id t x d : 0 <= id -> find g id = Some d -> k < 380 ->
    act (mksc [g] k 0) (Global id t x) (mksc [g] k 0)
| act_function g k : k + 4 <= 380 ->
    act (mksc [g] k 0) Function (mksc [nil; g] k 4)
| act_enter bs k l : (2 <= length bs < 16)%nat ->
    act (mksc bs k l) Enter (mksc (nil :: bs) k l)
| act_local b bs k l id t x p : bs <> nil -> 0 <= id -> find b id = None -> entries (mksc (b :: bs) k l) < 380 ->
    act (mksc (b :: bs) k l) (Local id t x p) (mksc ((b ++ [(id, mkdecl t x p false)]) :: bs) k l)
| act_refer bs k l id r d : 0 <= id -> r <> 0 -> means bs id = Some d ->
    act (mksc bs k l) (Refer id r) (mksc (mark_innermost bs id) k l)
| act_implicit bs k l id : 0 <= id -> means bs id = None -> (2 <= length bs)%nat -> 0 < l ->
    act (mksc bs k l) (Implicit id) (mksc (add_global bs id (mkdecl implicit_type 0 0 false)) (k + 1) (l - 1))
| act_leave b c bs k l : bs <> nil -> used b <= l ->
    act (mksc (b :: c :: bs) k l) Leave (mksc (c :: bs) (k + used b) (l - used b))
| act_leave_function b g k l : used b <= l ->
    act (mksc [b; g] k l) Leave (mksc [g] (k + used b) 0).
Inductive acts : scoping -> list action -> scoping -> Prop :=
| acts_nil s : acts s nil s
| acts_cons s a s' l s'' : act s a s' -> acts s' l s'' -> acts s (a :: l) s''.
