(** Model of the declaration tables of scc.c: types and sizes (1482-1516), scopes
    (1585-1644), names (1447-1480, 1646-1670), named labels (1049-1063), and the
    map file (1156-1161).  Only definitions.  Error message output is not modelled:
    Fatal/Fail/Unexpected are the outcome [Fatal]. *)
From Verif Require Import Base SccState SccEmit SccLex.

(** ** Sizes.  scc.c:1482-1511; [n] bounds the nesting of types and the length of a
       member list (a struct containing itself runs out, in C it overflows the stack) *)
Fixpoint members_size (sz : Z -> Z -> outcome Z) (d : dcst) (isunion : bool) (k : nat) (sm acc : Z) : outcome Z :=
  match k with
  | O => OutOfFuel
  | S k' =>
      if sm =? 0 then Ok acc else
      match sz (aget (SMType d) (sm - 1)) (aget (SMExtra d) (sm - 1)) with
      | Ok m =>
          let acc' := if isunion then (if acc <? m then m else acc) else acc + m in
          members_size sz d isunion k' (aget (SMNext d) (sm - 1)) acc'
      | e => e
      end
  end.

Fixpoint SizeofType_ (n : nat) (d : dcst) (Type_ Extra : Z) : outcome Z :=
  match n with
  | O => OutOfFuel
  | S n' =>
      if hasb Type_ (Z.lor VT_PTRMASK VT_FUNPTR) then Ok 2
      else
        let b := Z.land Type_ VT_BASEMASK in
        if b =? VT_INT then Ok 2
        else if b =? VT_CHAR then Ok 1
        else if b =? VT_ARRAY then
          let bound := aget (ADBound d) Extra in
          if bound =? 0 then Fatal else
          match SizeofType_ n' d (aget (ADType d) Extra) (aget (ADExtra d) Extra) with
          | Ok m => Ok (bound * m)
          | e => e
          end
        else if b =? VT_STRUCT then
          members_size (SizeofType_ n' d) d (hasb (aget (SDId d) Extra) IS_UNION_FLAG)
                       (S (Z.to_nat STRUCT_MEMBER_MAX)) (aget (SDMembers d) Extra) 0
        else Fatal
  end.
(** nesting: each level uses up one of the 32 array or 8 struct declarations *)
Definition sizeof_fuel : nat := 48.
Definition SizeofType (Type_ Extra : Z) : M dcst Z := fun d =>
  match SizeofType_ sizeof_fuel d Type_ Extra with
  | Ok n => Ok (n, d) | Fatal => Fatal | UB => UB | OutOfFuel => OutOfFuel
  end.

Section Decl.
Variable W : Z.
Variable F : nat.

(** scc.c:1513-1516 *)
Definition SizeofCurrentType : M cc Z :=
  let! t := gete CurrentType in
  let! x := gete CurrentTypeExtra in
  indc (SizeofType t x).

(** scc.c:1425-1434 *)
Definition Expect (type : Z) : M cc unit :=
  let! t := getl TokenType in
  if t =? type then GetToken W F else fatal.

(** scc.c:1436-1445 *)
Definition ExpectId : M cc Z :=
  let! id := getl TokenType in
  if TOK_ID <=? id then GetToken W F ;; ret (id - TOK_KEYWORD) else fatal.

(** scc.c:1447-1455; 0 is NULL, otherwise index + 1 *)
Definition LookupTypedef : M cc Z :=
  let! t := getl TokenType in
  if t <? TOK_ID then ret 0 else
  let! vd := getd (fun d => aget (VarLookup d) (t - TOK_KEYWORD)) in
  if vd =? 0 then ret 0 else
  let! ty := getd (fun d => aget (VType d) (vd - 1)) in
  ret (if hasb ty VT_TYPEDEF then vd else 0).

Definition type_tokens : list Z :=
  [TOK_AUTO; TOK_CONST; TOK_VOID; TOK_CHAR; TOK_INT; TOK_ENUM; TOK_EXTERN; TOK_REGISTER; TOK_SHORT;
   TOK_SIGNED; TOK_STATIC; TOK_STRUCT; TOK_TYPEDEF; TOK_UNION; TOK_UNSIGNED; TOK_VOLATILE; TOK_VA_LIST].
(** scc.c:1457-1480 *)
Definition IsTypeStart : M cc bool :=
  let! t := getl TokenType in
  if existsb (Z.eqb t) type_tokens then ret true
  else let! v := LookupTypedef in ret (negb (v =? 0)).

(** ** Scopes *)
(** scc.c:1585-1594; returns the index of the new declaration *)
Definition AddVarDeclScope (Scope Id : Z) : M cc Z :=
  let! i := getd (fun d => aget (Scopes d) Scope) in
  updd (fun d => set_Scopes (aset (Scopes d) Scope (i + 1)) d) ;;
  let! t := gete CurrentType in
  let! x := gete CurrentTypeExtra in
  updd (fun d => set_VType (aset (VType d) i t) d) ;;
  updd (fun d => set_VExtra (aset (VExtra d) i x) d) ;;
  updd (fun d => set_VId (aset (VId d) i Id) d) ;;
  upde (fun e => set_VOff (aset (VOff e) i 0) e) ;;
  upde (fun e => set_VRef (aset (VRef e) i 0) e) ;;
  ret i.

(** scc.c:1596-1610 *)
Definition AddVarDecl (Id : Z) : M cc Z :=
  let! sc := getd ScopeCount in
  let! n := getd (fun d => aget (Scopes d) (sc - 1)) in
  failif (VARDECL_MAX <=? n) ;;
  let! prev := getd (fun d => aget (VarLookup d) Id) in
  let! ir := getd IgnoreRedef in
  if (ir =? 0) && negb (prev =? 0) then ret (prev - 1) else
  let! i := AddVarDeclScope (sc - 1) Id in
  updd (fun d => set_VPrev (aset (VPrev d) i prev) d) ;;
  updd (fun d => set_VarLookup (aset (VarLookup d) Id (i + 1)) d) ;;
  ret i.

(** scc.c:1612-1616 *)
Definition AddLateGlobalVar (Id : Z) : M cc Z :=
  let! n := getd (fun d => aget (Scopes d) 0) in
  upde (set_CurrentVal n) ;;
  let! m := getd (fun d => aget (Scopes d) 1) in
  failif (m <=? n) ;;
  AddVarDeclScope 0 Id.

(** scc.c:1618-1624 *)
Definition PushScope : M cc unit :=
  let! sc := getd ScopeCount in
  failif (sc =? SCOPE_MAX) ;;
  updd (fun d => set_Scopes (aset (Scopes d) sc (aget (Scopes d) (sc - 1))) d) ;;
  updd (set_ScopeCount (sc + 1)) ;;
  updd (fun d => set_IgnoreRedef (IgnoreRedef d + 1) d).

(** loop of PopScope, scc.c:1631-1643 *)
Fixpoint pop_loop (n : nat) (i : Z) : M cc unit :=
  match n with
  | O => ret tt
  | S n' =>
      let! id := getd (fun d => aget (VId d) i) in
      (if id <? 0 then ret tt else
       let! r := gete (fun e => aget (VRef e) i) in
       when (negb (r =? 0))
         (let! t := getd (fun d => aget (VType d) i) in
          let! x := getd (fun d => aget (VExtra d) i) in
          upde (set_CurrentType t) ;;
          upde (set_CurrentTypeExtra x) ;;
          let! g := AddLateGlobalVar (-2) in
          upde (fun e => set_VRef (aset (VRef e) g r) e)) ;;
       updd (fun d => set_VarLookup (aset (VarLookup d) id (aget (VPrev d) i)) d)) ;;
      pop_loop n' (i + 1)
  end.
(** scc.c:1626-1644 *)
Definition PopScope : M cc unit :=
  let! sc := getd ScopeCount in
  failif (sc =? 1) ;;
  updd (set_ScopeCount (sc - 1)) ;;
  updd (fun d => set_IgnoreRedef (IgnoreRedef d - 1) d) ;;
  let! i := getd (fun d => aget (Scopes d) (sc - 2)) in
  let! e := getd (fun d => aget (Scopes d) (sc - 1)) in
  pop_loop (Z.to_nat (e - i)) i.

(** scc.c:1646-1670 *)
Definition HandlePrimaryId : M cc unit :=
  let! id := gete CurrentVal in
  let! vd := getd (fun d => aget (VarLookup d) id) in
  if vd =? 0 then
    upde (set_CurrentType (VT_LOCGLOB + VT_FUN + VT_INT)) ;;
    upde (set_CurrentTypeExtra 0) ;;
    let! dead := gete IsDeadCode in
    if dead then upde (set_CurrentVal 0)
    else
      let! n := getd (fun d => aget (Scopes d) 0) in
      updd (fun d => set_VarLookup (aset (VarLookup d) id (n + 1)) d) ;;
      AddLateGlobalVar id ;; ret tt
  else
    let v := vd - 1 in
    let! off := gete (fun e => aget (VOff e) v) in
    upde (set_CurrentVal off) ;;
    let! ty := getd (fun d => aget (VType d) v) in
    let t := Z.lor ty VT_LVAL in
    upde (set_CurrentType t) ;;
    let loc := Z.land t VT_LOCMASK in
    if loc =? VT_LOCLIT then upde (set_CurrentType (VT_LOCLIT + VT_INT))
    else
      when (loc =? VT_LOCGLOB) (upde (set_CurrentVal v)) ;;
      let! x := getd (fun d => aget (VExtra d) v) in
      upde (set_CurrentTypeExtra x).

(** ** Named labels, scc.c:1049-1063; returns the label *)
Fixpoint find_named (n : nat) (i : Z) (Id : Z) (d : dcst) : option Z :=
  match n with
  | O => None
  | S n' => if aget (NLId d) i =? Id then Some (aget (NLLabel d) i) else find_named n' (i + 1) Id d
  end.
Definition GetNamedLabel (Id : Z) : M cc Z :=
  let! n := getd NamedLabelCount in
  let! r := getd (find_named (Z.to_nat n) 0 Id) in
  match r with
  | Some l => ret l
  | None =>
      failif (n =? NAMED_LABEL_MAX) ;;
      updd (set_NamedLabelCount (n + 1)) ;;
      updd (fun d => set_NLId (aset (NLId d) n Id) d) ;;
      let! l := inem MakeLabel in
      updd (fun d => set_NLLabel (aset (NLLabel d) n l) d) ;;
      ret l
  end.

(** ** Global labels with their map file line, scc.c:1149-1162 *)
(** "@static", scc.c:1148 *)
Definition StaticName : list Z := [64;115;116;97;116;105;99].
(** one digit of HexD, scc.c:436 *)
Definition hexd (n : Z) : Z := if n <? 10 then 48 + n else 55 + n.
(** scc.c:437-444 *)
Definition CvtHex (n : Z) : list Z :=
  map (fun i => hexd (Z.land (Z.shiftr n (i * 4)) 15)) [3;2;1;0].
Definition EmitGlobalLabel (v : Z) : M cc unit :=
  let! t := getd (fun d => aget (VType d) v) in
  inem (EmitGlobalLabel_ v (hasb t VT_FUN)) ;;
  let! ca := gete CodeAddress in
  let! id := getd (fun d => aget (VId d) v) in
  let! name := (if id =? -2 then ret StaticName else getl (fun l => aget (IdText l) id)) in
  updd (fun d => set_MapOut (rev_append (CvtHex ca ++ [32] ++ name ++ [13; 10]) (MapOut d)) d).
End Decl.
