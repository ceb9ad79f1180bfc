(** Whole programs run from source text to machine state: the model of the compiler
    followed by the 8086 specification.  Used for the refutations and the examples. *)
From Coq Require Import String.
From Verif Require Import Base Spec8086 SccRun SccState SccEmit SccLex SccStmt.
Local Open Scope list_scope.

(** a loaded COM program whose caller put the return address 0 on the stack *)
Fixpoint load_bytes (bs : list Z) (a : Z) (m : arr Z) : arr Z :=
  match bs with nil => m | b :: r => load_bytes r (a + 1) (aset m a b) end.
Definition com (bs : list Z) : state :=
  mkst (mkregs 0 0 0 0 65532 0 0 0) (mksregs 4096 4096 4096 4096) 256 (mkflags false false false false)
       (load_bytes bs (phys 4096 256) (mkarr 0 Leaf)).
(** run until the program returns to address 0; the undefined flags are always u *)
Fixpoint until0 (u : flags) (n : nat) (s : state) : option state :=
  match n with
  | O => None
  | S n' => match step u s with
            | Some s' => if ip s' =? 0 then Some s' else until0 u n' s'
            | None => None
            end
  end.
(** the value returned in AX by a program (its function _start), if it returns within n steps *)
Definition returns (src : string) (u : flags) (n : nat) : option Z :=
  match compile 16 100 30 (bytes_of src) nil with
  | Ok (bs, _) => option_map (fun s => ax (rg s)) (until0 u n (com bs))
  | _ => None
  end.
Definition code_of (src : string) : option (list Z) :=
  match compile 16 100 30 (bytes_of src) nil with Ok (bs, _) => Some bs | _ => None end.

(** undefined flags that set, or clear, the zero flag *)
Definition zset := mkflags false true false false.
Definition zclear := mkflags false false false false.
(** the bytes an emitting function appends *)
Definition appends (f : M emst unit) (e : emst) : option (list Z) :=
  match f e with Ok (_, e') => Some (out_bytes (Z.to_nat (CodeAddress e' - CodeAddress e)) (CodeAddress e - CODESTART) (Output e')) | _ => None end.
