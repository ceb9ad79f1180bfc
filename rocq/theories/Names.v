(** Model of the three MakeOutputFilename functions (scc.c:3369-3379, scpp.c:1561-1572,
    sas.c:1568-1578) and of the choice of the output name in the three main functions.
    Names are lists of non-zero character codes; the C strings are NUL-terminated copies of
    them.  [room] is the size of the destination buffer: writing past it is undefined. *)
From Coq Require Import ZArith List Bool Lia.
From Verif Require Import Base.
Import ListNotations.
Open Scope Z_scope.

(** the copying loop, scc.c:3373-3377: dest holds what was written so far, last the position
    of the last '.' seen *)
Fixpoint copy_name (n : list Z) (dest : list Z) (last : option nat) : list Z * option nat :=
  match n with
  | [] => (dest, last)
  | c :: n => copy_name n (dest ++ [c]) (if c =? 46 then Some (length dest) else last)
  end.
(** scc.c:3369-3379; scpp.c:1561-1572 with ext ".i"; sas.c:1568-1578 with ext ".com".
    The extension is copied at the last dot, or at the end *)
Definition MakeOutputFilename (room : Z) (n ext : list Z) : outcome (list Z) :=
  let (dest, last) := copy_name n [] None in
  let p := match last with Some p => p | None => length dest end in
  let out := firstn p dest ++ ext in
  if (Z.of_nat (length dest) <=? room) && (Z.of_nat (length out) + 1 <=? room) then Ok out else UB.

(** scc.c:169 IDBUFFER_MAX, scpp.c:297 FNAME_MAX, sas.c StringBuf *)
Definition scc_room : Z := 5000.
Definition scpp_room : Z := 64.
Definition ext_com : list Z := [46; 99; 111; 109]. (* ".com" *)
Definition ext_map : list Z := [46; 109; 97; 112]. (* ".map" *)
Definition ext_i : list Z := [46; 105].            (* ".i" *)

(** scc.c:3423 and 3466-3469: the names of the map file and of the program *)
Definition scc_map_name (arg1 : list Z) (arg2 : option (list Z)) : outcome (list Z) :=
  MakeOutputFilename scc_room (match arg2 with Some a => a | None => arg1 end) ext_map.
Definition scc_out_name (arg1 : list Z) (arg2 : option (list Z)) : outcome (list Z) :=
  match arg2 with
  | Some a => if Z.of_nat (length a) + 1 <=? scc_room then Ok a else UB
  | None => MakeOutputFilename scc_room arg1 ext_com
  end.
(** scpp.c:1581-1586 *)
Definition scpp_out_name (arg1 : list Z) (arg2 : option (list Z)) : outcome (list Z) :=
  match arg2 with
  | Some a => Ok a
  | None => MakeOutputFilename scpp_room arg1 ext_i
  end.
