(** C types as the 16-bit target lays them out: no padding, char 1 byte, int and pointers 2. *)
From Verif Require Import Base.

(** [TRec u ms]: a union (u = true) or struct with the named members ms, in order *)
Inductive cty :=
| TChar | TInt | TPtr
| TArr (n : Z) (e : cty)
| TRec (u : bool) (ms : list (Z * cty)).

Fixpoint size (t : cty) : Z :=
  match t with
  | TChar => 1 | TInt => 2 | TPtr => 2
  | TArr n e => n * size e
  | TRec false ms => (fix sum l := match l with nil => 0 | (_, m) :: r => size m + sum r end) ms
  | TRec true ms => (fix mx l := match l with nil => 0 | (_, m) :: r => Z.max (size m) (mx r) end) ms
  end.
Fixpoint sum_sizes (l : list (Z * cty)) : Z := match l with nil => 0 | (_, m) :: r => size m + sum_sizes r end.
Fixpoint max_sizes (l : list (Z * cty)) : Z := match l with nil => 0 | (_, m) :: r => Z.max (size m) (max_sizes r) end.

(** the member called [id]: its type and where it starts in a struct (u = false) or union *)
Fixpoint member (u : bool) (ms : list (Z * cty)) (id : Z) : option (Z * cty) :=
  match ms with
  | nil => None
  | (i, t) :: r => if i =? id then Some (0, t)
                   else option_map (fun p => ((if u then 0 else size t) + fst p, snd p)) (member u r id)
  end.

(** arrays: int a[d1][d2]...[dk] is an array of d1 arrays of d2 ... *)
Fixpoint array_of (dims : list Z) (t : cty) : cty :=
  match dims with nil => t | n :: r => TArr n (array_of r t) end.
Fixpoint prod (l : list Z) : Z := match l with nil => 1 | n :: r => n * prod r end.
(** byte offset of a[i1]...[ik] *)
Fixpoint row_major (dims idx : list Z) (sz : Z) : Z :=
  match dims, idx with
  | _ :: ds, i :: is_ => i * (prod ds * sz) + row_major ds is_ sz
  | _, _ => 0
  end.
Fixpoint in_bounds (dims idx : list Z) : Prop :=
  match dims, idx with
  | nil, nil => True
  | n :: ds, i :: is_ => 0 <= i < n /\ in_bounds ds is_
  | _, _ => False
  end.

(** nesting and number of members *)
Fixpoint depth (t : cty) : nat :=
  match t with
  | TArr _ e => S (depth e)
  | TRec _ ms => S ((fix go l := match l with nil => O | (_, m) :: r => Nat.max (depth m) (go r) end) ms)
  | _ => O
  end.
Fixpoint depths (l : list (Z * cty)) : nat := match l with nil => O | (_, m) :: r => Nat.max (depth m) (depths r) end.
