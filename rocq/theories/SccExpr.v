(** Model of the expression parser / code generator of scc.c (lines 1518-1583 and
    1675-2646).  Only definitions.

    The functions are mutually recursive in C.  Each is modelled by a definition
    over a record [recs] of the functions it calls recursively; SccMain.v ties the
    knot with a fuel bound.  Loops that only repeat a function's body call the
    function itself again. *)
From Verif Require Import Base SccState SccEmit SccLex SccDecl.

(** where a declarator stores the identifier (the [int* Id] of scc.c:2806) *)
Inductive idptr := IdNull | IdLocal | IdMember (i : Z) | IdArg (i : Z).

Record recs : Type := mkrecs {
  pExpr : M cc unit;              (* ParseExpr *)
  pAssign : M cc unit;            (* ParseAssignmentExpression *)
  pCast : M cc unit;              (* ParseCastExpression *)
  pUnary : M cc unit;             (* ParseUnaryExpression *)
  pPostfix : M cc unit;           (* ParsePostfixExpression *)
  pExpr1 : Z -> M cc unit;        (* ParseExpr1 *)
  pDeclSpecs : M cc unit;         (* ParseDeclSpecs *)
  pDeclarator : idptr -> M cc Z;  (* ParseDeclarator; result: the identifier *)
  pStatement : M cc unit          (* ParseStatement *)
}.

Section Expr.
Variable W : Z.
Variable F : nat.

Definition next : M cc unit := GetToken W F.
Definition o1 (b : Z) : M cc unit := inem (Output1Byte W b).
Definition o2 (b0 b1 : Z) : M cc unit := inem (Output2Bytes W b0 b1).
Definition o3 (b0 b1 b2 : Z) : M cc unit := inem (Output3Bytes W b0 b1 b2).
Definition ow (w : Z) : M cc unit := inem (OutputWord W w).
Definition setT (t : Z) : M cc unit := upde (set_CurrentType t).
Definition setV (v : Z) : M cc unit := upde (set_CurrentVal v).
Definition setX (x : Z) : M cc unit := upde (set_CurrentTypeExtra x).
Definition INTLIT := VT_INT + VT_LOCLIT.
Definition addOffset (d : Z) : M cc unit := upde (fun e => set_LocalOffset (LocalOffset e + d) e).
Definition addPending (d : Z) : M cc unit := upde (fun e => set_Pending (Pending e + d) e).
Definition clrPushAx : M cc unit := upde (fun e => set_Pending (clr (Pending e) 1) e).
Definition setPushAx : M cc unit := upde (fun e => set_Pending (Z.lor (Pending e) 1) e).
Definition hasPushAx : M cc bool := gete (fun e => hasb (Pending e) 1).

(** scc.c:1518-1548 *)
Definition LvalToRval : M cc unit :=
  let! t := gete CurrentType in
  when (hasb t VT_LVAL)
    (let loc := Z.land t VT_LOCMASK in
     let t := clr t (Z.lor VT_LVAL VT_LOCMASK) in
     setT t ;;
     let loadaddr : M cc unit :=
       when (negb (loc =? 0)) (let! v := gete CurrentVal in inem (EmitLoadAddr W R_AX loc v)) in
     if t =? VT_ARRAY then
       let! x := gete CurrentTypeExtra in
       let! at_ := getd (fun d => aget (ADType d) x) in
       let! ax := getd (fun d => aget (ADExtra d) x) in
       setT (at_ + VT_PTR1) ;;
       setX ax ;;
       loadaddr
     else if hasb t VT_FUNPTR then loadaddr
     else
       let sz := negb (clr t VT_UNSIGNED =? VT_CHAR) in
       (if loc =? 0 then o2 (Z.lor I_XCHG_AX R_SI) (Z.lor I_LODSB (zb sz))
        else let! v := gete CurrentVal in inem (EmitLoadAx W (zb sz + 1) loc v)) ;;
       when (negb sz)
         (inem (EmitExtend W (hasb t VT_UNSIGNED)) ;; setT VT_INT)).

(** scc.c:1550-1583 *)
Definition DoIncDecOp (Op : Z) (Post : bool) : M cc unit :=
  let! t := gete CurrentType in
  failif (negb (hasb t VT_LVAL)) ;;
  let wordop := negb (Z.land t (Z.lor VT_BASEMASK VT_PTRMASK) =? VT_CHAR) in
  let loc := Z.land t VT_LOCMASK in
  let! size := (if hasb t VT_PTRMASK
                then let! x := gete CurrentTypeExtra in indc (SizeofType (t - VT_PTR1) x)
                else ret 1) in
  when (loc =? 0) (o1 (Z.lor I_XCHG_AX R_SI)) ;;
  when Post
    (let! v := gete CurrentVal in
     inem (EmitLoadAx W (1 + zb wordop) loc v) ;;
     when (negb wordop) (inem (EmitExtend W (hasb t VT_UNSIGNED))) ;;
     when (loc =? 0) (inem (EmitAddRegConst W R_SI (- zb wordop - 1))) ;;
     setT (if wordop then clr t (Z.lor VT_LVAL VT_LOCMASK) else VT_INT)) ;;
  let op := zb (Op =? TOK_MINUSMINUS) in
  let! v := gete CurrentVal in
  if 1 <? size then
    inem (EmitModrm W I_ALU_RM16_IMM8 (op * Z.shiftr I_SUB 3) loc v) ;;
    o1 size
  else inem (EmitModrm W (Z.lor 254 (zb wordop)) op loc v).

(** scc.c:1675-1701 *)
Definition HandleVarArg (r : recs) : M cc unit :=
  let! func := getl TokenType in
  next ;;
  Expect W F ch_lpar ;;
  let! id := ExpectId W F in
  let! vd := getd (fun d => aget (VarLookup d) id) in
  let! ty := getd (fun d => aget (VType d) (vd - 1)) in
  failif ((vd =? 0) || negb (ty =? VT_LOCOFF + VT_CHAR + VT_PTR1)) ;;
  let! offset := gete (fun e => aget (VOff e) (vd - 1)) in
  (if func =? TOK_VA_START then
     Expect W F ch_comma ;;
     let! id := ExpectId W F in
     let! vd := getd (fun d => aget (VarLookup d) id) in
     let! ty := getd (fun d => aget (VType d) (vd - 1)) in
     failif ((vd =? 0) || negb (Z.land ty VT_LOCMASK =? VT_LOCOFF)) ;;
     let! o := gete (fun e => aget (VOff e) (vd - 1)) in
     inem (EmitModrm W I_LEA R_AX VT_LOCOFF o) ;;
     inem (EmitStoreAx W 2 VT_LOCOFF offset)
   else when (func =? TOK_VA_ARG)
     (Expect W F ch_comma ;;
      inem (EmitLoadAx W 2 VT_LOCOFF offset) ;;
      inem (EmitAddRegConst W R_AX 2) ;;
      inem (EmitStoreAx W 2 VT_LOCOFF offset) ;;
      (* ParseAbstractDecl, scc.c:2910-2914 *)
      pDeclSpecs r ;; pDeclarator r IdNull ;;
      upde (fun e => set_CurrentType (Z.lor (CurrentType e) VT_LVAL) e))) ;;
  Expect W F ch_rpar.

(** while (TokenNumVal--) Output1Byte( *TokenStrLit++ ), scc.c:1732-1733 *)
Fixpoint copy_literal (n : nat) : M cc unit :=
  match n with
  | O => ret tt
  | S n' =>
      let! p := getl TokenStrLit in
      let! b := inem (peek (p + CODESTART)) in
      updl (set_TokenStrLit (p + 1)) ;;
      o1 b ;;
      copy_literal n'
  end.

(** scc.c:1703-1747 *)
Definition ParsePrimaryExpression (r : recs) : M cc unit :=
  let! t := getl TokenType in
  if t =? ch_lpar then
    next ;; pExpr r ;; Expect W F ch_rpar
  else if t =? TOK_NUM then
    setT (VT_LOCLIT + VT_INT) ;;
    let! v := getl TokenNumVal in
    setV v ;; next
  else if t =? TOK_STRLIT then
    let! ac := getd ArrayCount in
    failif (ac =? ARRAY_MAX) ;;
    let! n := getl TokenNumVal in
    updd (fun d => set_ADBound (aset (ADBound d) ac n) d) ;;
    updd (fun d => set_ADType (aset (ADType d) ac VT_CHAR) d) ;;
    updd (fun d => set_ADExtra (aset (ADExtra d) ac 0) d) ;;
    setT (VT_ARRAY + VT_LVAL) ;;
    setX ac ;;
    updd (set_ArrayCount (ac + 1)) ;;
    let! dead := gete IsDeadCode in
    when (negb dead)
      (let! sc := getd ScopeCount in
       let! endlab :=
         (if negb (sc =? 1) then
            o1 I_MOV_R_IMM16 ;;
            let! ca := gete CodeAddress in
            ow (ca + 5) ;;
            let! l := inem MakeLabel in
            inem (EmitJmp W l) ;;
            upde (set_IsDeadCode false) ;;
            ret l
          else ret (-1)) in
       copy_literal (Z.to_nat n) ;;
       updl (set_TokenNumVal (-1)) ;;
       when (negb (endlab =? -1)) (inem (EmitLocalLabel W endlab))) ;;
    next
  else if (t =? TOK_VA_ARG) || (t =? TOK_VA_START) || (t =? TOK_VA_END) then
    HandleVarArg r
  else
    let! id := ExpectId W F in
    setV id ;;
    HandlePrimaryId.

(** scc.c:1750-1768 *)
Definition GetVal : M cc unit :=
  let! t := gete CurrentType in
  if t =? VT_BOOL then
    inem (EmitMovRImm W R_AX 0) ;;
    let! v := gete CurrentVal in
    o3 (Z.lor 112 (Z.lxor v 1)) 1 I_INC ;;
    setT VT_INT
  else
    LvalToRval ;;
    let! t := gete CurrentType in
    when (hasb t VT_LOCMASK)
      (failif (negb (t =? INTLIT)) ;;
       setT VT_INT ;;
       let! v := gete CurrentVal in
       if negb (v =? 0) then inem (EmitMovRImm W R_AX v) else o2 (Z.lor I_XOR 1) 192).

(** scc.c:1772-1794 *)
Definition GetStoredVal (Reg : Z) : M cc Z :=
  let! p := hasPushAx in
  failif p ;;
  let! ru := gete RegUse in
  if ru then
    upde (set_RegUse false) ;;
    if (Reg =? -1) || (Reg =? R_BX) then ret R_BX
    else if Reg =? R_AX then o1 (Z.lor I_XCHG_AX R_BX) ;; ret R_AX
    else inem (EmitMovRR W Reg R_BX) ;; ret Reg
  else
    let Reg := if Reg <? 0 then R_CX else Reg in
    o1 (Z.lor I_POP Reg) ;;
    addOffset 2 ;;
    ret Reg.

(** ** Postfix expressions *)
Definition ArgChunkSize := 8.   (* scc.c:1843 *)

(** Output1Byte(I_PUSH|Reg); LocalOffset -= 2 *)
Definition pushreg (Reg : Z) : M cc unit := o1 (Z.lor I_PUSH Reg) ;; addOffset (-2).

(** the argument loop, scc.c:1844-1873; returns ArgSize *)
Definition call_args (r : recs) : M cc Z :=
  loopM F (fun argsize : Z =>
    let! t := getl TokenType in
    if t =? ch_rpar then ret (inr argsize) else
    when (Z.land argsize (ArgChunkSize - 1) =? 0)
      (inem (FlushPushAx W) ;;
       addOffset (- ArgChunkSize) ;;
       addPending (- ArgChunkSize) ;;
       when (negb (argsize =? 0))
         (let! lo := gete LocalOffset in
          inem (EmitModrm W I_LEA R_SI VT_LOCOFF (lo + ArgChunkSize)) ;;
          let! lo := gete LocalOffset in
          inem (EmitModrm W I_LEA R_DI VT_LOCOFF lo) ;;
          inem (EmitMovRImm W R_CX (Z.quot argsize 2)) ;;
          o2 243 165)) ;;
    pAssign r ;;
    let! ct := gete CurrentType in
    (if ct =? INTLIT then
       let! lo := gete LocalOffset in
       inem (EmitStoreConst W 2 VT_LOCOFF (lo + argsize))
     else
       GetVal ;;
       let! ct := gete CurrentType in
       failif (negb (clr ct VT_UNSIGNED =? VT_INT) && negb (hasb ct VT_PTRMASK)) ;;
       let! lo := gete LocalOffset in
       inem (EmitStoreAx W 2 VT_LOCOFF (lo + argsize))) ;;
    let argsize := argsize + 2 in
    let! t := getl TokenType in
    if t =? ch_comma then next ;; ret (inl argsize) else ret (inr argsize)) 0.

(** function call, scc.c:1802-1897 *)
Definition call_expr (r : recs) : M cc unit :=
  next ;;
  let! t := gete CurrentType in
  failif (negb (hasb t VT_FUNPTR)) ;;
  let rettype := clr t (Z.lor VT_FUNPTR (Z.lor VT_LOCMASK VT_LVAL)) in
  let loc := Z.land t VT_LOCMASK in
  let! v := gete CurrentVal in
  let! retextra :=
    (if loc =? VT_LOCGLOB then getd (fun d => aget (VExtra d) v)
     else
       when (loc =? 0) (o1 (Z.lor I_XCHG_AX R_SI)) ;;
       inem (EmitLoadAx W 2 loc v) ;;
       pushreg R_AX ;;
       gete CurrentTypeExtra) in
  let! ru := gete RegUse in
  let! p := hasPushAx in
  when p
    (clrPushAx ;;
     when ru (pushreg R_BX ;; upde (set_RegUse false)) ;;
     pushreg R_AX) ;;
  let! ru := gete RegUse in
  when ru (pushreg R_BX ;; upde (set_RegUse false)) ;;
  let! argsize := call_args r in
  Expect W F ch_rpar ;;
  let argsize := Z.land (argsize + (ArgChunkSize - 1)) (- ArgChunkSize) in
  let! argsize :=
    (if loc =? VT_LOCGLOB then
       o1 232 ;; inem (EmitGlobalRefRel W v) ;; ret argsize
     else
       let! lo := gete LocalOffset in
       inem (EmitLoadAx W 2 VT_LOCOFF (lo + argsize)) ;;
       o2 255 (Z.lor MODRM_REG (Z.shiftl 2 3)) ;;
       ret (argsize + 2)) in
  addPending argsize ;;
  addOffset argsize ;;
  setT (if clr rettype VT_UNSIGNED =? VT_CHAR then VT_INT else rettype) ;;
  setX retextra.

(** subscript, scc.c:1898-1944 *)
Definition index_expr (r : recs) : M cc unit :=
  next ;;
  let! t := gete CurrentType in
  let! x := gete CurrentTypeExtra in
  let! garr :=
    (if Z.land t (Z.lor VT_BASEMASK VT_LOCMASK) =? VT_ARRAY + VT_LOCGLOB then
       let! v := gete CurrentVal in
       let! at_ := getd (fun d => aget (ADType d) x) in
       let! ax := getd (fun d => aget (ADExtra d) x) in
       setT at_ ;; setX ax ;;
       ret (v + 1)
     else
       LvalToRval ;;
       let! t := gete CurrentType in
       failif (negb (hasb t VT_PTRMASK)) ;;
       setT (t - VT_PTR1) ;;
       let! dead := gete IsDeadCode in
       when (negb dead) setPushAx ;;
       ret 0) in
  let! scale := SizeofCurrentType in
  let! rt := gete CurrentType in
  let restype := Z.lor rt VT_LVAL in
  let! resextra := gete CurrentTypeExtra in
  pExpr r ;;
  Expect W F ch_rbrack ;;
  let! dead := gete IsDeadCode in
  when (negb dead)
    (let! ct := gete CurrentType in
     if ct =? INTLIT then
       (if negb (garr =? 0) then
          o1 (Z.lor I_MOV_R_IMM16 R_AX) ;; inem (EmitGlobalRef W (garr - 1))
        else
          let! p := hasPushAx in
          failif (negb p) ;;
          clrPushAx) ;;
       let! v := gete CurrentVal in
       inem (EmitAddRegConst W R_AX (ci W (v * scale)))
     else
       LvalToRval ;;
       let! ct := gete CurrentType in
       let! p := hasPushAx in
       failif (negb (clr ct VT_UNSIGNED =? VT_INT) || p) ;;
       inem (EmitScaleAx W scale) ;;
       if negb (garr =? 0) then
         o1 (Z.lor I_ADD 5) ;; inem (EmitGlobalRef W (garr - 1))
       else
         let! reg := GetStoredVal (-1) in
         o2 (Z.lor I_ADD 1) (Z.lor MODRM_REG (Z.shiftl reg 3))) ;;
  setT restype ;;
  setX resextra ;;
  failif (hasb restype VT_LOCMASK).

(** the member search of scc.c:1957-1959; returns the member (index+1, or 0) and its offset *)
Fixpoint find_member (n : nat) (sm id off : Z) : M dcst (Z * Z) :=
  match n with
  | O => nofuel
  | S n' =>
      if sm =? 0 then ret (0, off) else
      let! i := gets (fun d => aget (SMId d) (sm - 1)) in
      if i =? id then ret (sm, off) else
      let! t := gets (fun d => aget (SMType d) (sm - 1)) in
      let! x := gets (fun d => aget (SMExtra d) (sm - 1)) in
      let! sz := SizeofType t x in
      let! nx := gets (fun d => aget (SMNext d) (sm - 1)) in
      find_member n' nx id (off + sz)
  end.

(** DoStructMem, scc.c:1947-1979 *)
Definition member_expr : M cc unit :=
  next ;;
  let! memid := ExpectId W F in
  let! x := gete CurrentTypeExtra in
  let! sc := getd StructCount in
  failif ((x <? 0) || (sc <=? x)) ;;
  let! first := getd (fun d => aget (SDMembers d) x) in
  let! r := indc (find_member (S (Z.to_nat STRUCT_MEMBER_MAX)) first memid 0) in
  let '(sm, off) := r in
  failif (sm =? 0) ;;
  let! t := gete CurrentType in
  let loc := Z.land t VT_LOCMASK in
  let! sid := getd (fun d => aget (SDId d) x) in
  let! loc :=
    (if negb (off =? 0) && negb (hasb sid IS_UNION_FLAG) then
       if loc =? VT_LOCOFF then
         upde (fun e => set_CurrentVal (CurrentVal e + off) e) ;; ret loc
       else
         (if negb (loc =? 0) then let! v := gete CurrentVal in inem (EmitLoadAddr W R_AX loc v) else ret tt) ;;
         inem (EmitAddRegConst W R_AX off) ;;
         ret 0
     else ret loc) in
  let! mt := getd (fun d => aget (SMType d) (sm - 1)) in
  let! mx := getd (fun d => aget (SMExtra d) (sm - 1)) in
  setT (Z.lor (Z.lor mt VT_LVAL) loc) ;;
  setX mx.

(** scc.c:1796-1986 *)
Definition ParsePostfixExpression (r : recs) : M cc unit :=
  let! p := getl OperatorPrecedence in
  if negb (p =? PREC_STOP) then ret tt else
  let! t := getl TokenType in
  if (t =? ch_semi) || (t =? ch_rpar) || (t =? ch_rbrack) || (t =? ch_colon) then ret tt
  else if t =? ch_lpar then call_expr r ;; pPostfix r
  else if t =? ch_lbrack then index_expr r ;; pPostfix r
  else if t =? ch_dot then
    let! ct := gete CurrentType in
    failif (negb (clr ct VT_LOCMASK =? VT_STRUCT + VT_LVAL)) ;;
    member_expr ;; pPostfix r
  else if t =? TOK_ARROW then
    LvalToRval ;;
    let! ct := gete CurrentType in
    failif (negb (clr ct VT_LOCMASK =? VT_STRUCT + VT_PTR1)) ;;
    setT (ct - VT_PTR1) ;;
    member_expr ;; pPostfix r
  else if (t =? TOK_PLUSPLUS) || (t =? TOK_MINUSMINUS) then
    DoIncDecOp t true ;; next ;; pPostfix r
  else ret tt.

(** scc.c:1990-1997 *)
Definition ToBool : M cc unit :=
  LvalToRval ;;
  let! ca := gete CodeAddress in
  let! z := gete LastZFInst in
  when (negb (ca =? z)) (o2 (Z.lor I_AND 1) MODRM_REG) ;;
  setT VT_BOOL ;;
  setV JNZ.

(** unary operators applied after their operand, scc.c:2018-2076 *)
Definition unary_op (Op : Z) : M cc unit :=
  let! t := gete CurrentType in
  if Op =? ch_amp then
    failif (negb (hasb t VT_LVAL)) ;;
    if hasb t VT_FUNPTR then ret tt else
    let loc := Z.land t VT_LOCMASK in
    when (negb (loc =? 0)) (let! v := gete CurrentVal in inem (EmitLoadAddr W R_AX loc v)) ;;
    setT (clr t (Z.lor VT_LVAL VT_LOCMASK) + VT_PTR1)
  else
  let isconst := Z.land t VT_LOCMASK =? VT_LOCLIT in
  (if isconst then failif (negb (t =? INTLIT)) else LvalToRval) ;;
  let! t := gete CurrentType in
  let! v := gete CurrentVal in
  if Op =? ch_minus then
    if isconst then setV (ci W (- v))
    else failif (negb (clr t VT_UNSIGNED =? VT_INT)) ;; o2 247 216
  else if Op =? ch_bang then
    if isconst then setV (zb (v =? 0))
    else
      when (negb (t =? VT_BOOL)) ToBool ;;
      upde (fun e => set_CurrentVal (Z.lxor (CurrentVal e) 1) e)
  else if Op =? ch_star then
    if hasb t VT_FUNPTR then ret tt else
    failif (negb (hasb t VT_PTRMASK)) ;;
    setT (Z.lor (t - VT_PTR1) VT_LVAL)
  else if Op =? ch_tilde then
    if isconst then setV (ci W (Z.lnot v))
    else failif (negb (clr t VT_UNSIGNED =? VT_INT)) ;; o2 247 208
  else failif (negb (Op =? ch_plus)).

(** scc.c:1999-2105 *)
Definition ParseUnaryExpression (r : recs) : M cc unit :=
  let! t := getl TokenType in
  if (t =? ch_minus) || (t =? ch_bang) || (t =? ch_star) || (t =? ch_amp) || (t =? ch_tilde) || (t =? ch_plus) then
    next ;; pCast r ;; unary_op t
  else if (t =? TOK_PLUSPLUS) || (t =? TOK_MINUSMINUS) then
    next ;; pUnary r ;; DoIncDecOp t false
  else if t =? TOK_SIZEOF then
    next ;;
    let! wasdead := gete IsDeadCode in
    upde (set_IsDeadCode true) ;;
    let! t := getl TokenType in
    (if t =? ch_lpar then
       next ;;
       let! ty := IsTypeStart in
       (if ty then
          pDeclSpecs r ;; pDeclarator r IdNull ;;
          let! n := SizeofCurrentType in setV n
        else pAssign r) ;;
       Expect W F ch_rpar
     else pUnary r) ;;
    let! dead := gete IsDeadCode in
    failif (negb dead) ;;
    upde (set_IsDeadCode wasdead) ;;
    let! n := SizeofCurrentType in
    setV n ;;
    setT (VT_LOCLIT + VT_INT)
  else
    ParsePrimaryExpression r ;;
    pPostfix r.

(** scc.c:2107-2133 *)
Definition ParseCastExpression (r : recs) : M cc unit :=
  let! t := getl TokenType in
  if t =? ch_lpar then
    next ;;
    let! ty := IsTypeStart in
    if ty then
      pDeclSpecs r ;; pDeclarator r IdNull ;;
      Expect W F ch_rpar ;;
      let! T := gete CurrentType in
      let! E := gete CurrentTypeExtra in
      failif (hasb T VT_LOCMASK) ;;
      pCast r ;;
      GetVal ;;
      setT T ;;
      setX E ;;
      when (clr T VT_UNSIGNED =? VT_CHAR)
        (inem (EmitExtend W (hasb T VT_UNSIGNED)) ;; setT VT_INT)
    else
      pExpr r ;; Expect W F ch_rpar ;; pPostfix r
  else pUnary r.

(** ** Binary operators *)
(** scc.c:2135-2150 *)
Definition RemoveAssign (Op : Z) : M cc Z :=
  if Op =? TOK_PLUSEQ then ret ch_plus
  else if Op =? TOK_MINUSEQ then ret ch_minus
  else if Op =? TOK_STAREQ then ret ch_star
  else if Op =? TOK_SLASHEQ then ret ch_slash
  else if Op =? TOK_MODEQ then ret ch_percent
  else if Op =? TOK_LSHEQ then ret TOK_LSH
  else if Op =? TOK_RSHEQ then ret TOK_RSH
  else if Op =? TOK_ANDEQ then ret ch_amp
  else if Op =? TOK_XOREQ then ret ch_caret
  else if Op =? TOK_OREQ then ret ch_bar
  else fatal.

(** scc.c:2152-2168 *)
Definition GetSimpleALU_ (u : bool) (Op : Z) : Z :=
  let cmp (cc_ : Z) := I_CMP + 1 + Z.shiftl cc_ 8 in
  if Op =? ch_plus then I_ADD + 1
  else if Op =? ch_minus then I_SUB + 1
  else if Op =? ch_amp then I_AND + 1
  else if Op =? ch_caret then I_XOR + 1
  else if Op =? ch_bar then I_OR + 1
  else if Op =? ch_lt then cmp (if u then JC else JL)
  else if Op =? TOK_LTEQ then cmp (if u then JNA else JNG)
  else if Op =? ch_gt then cmp (if u then JA else JG)
  else if Op =? TOK_GTEQ then cmp (if u then JNC else JNL)
  else if Op =? TOK_EQEQ then cmp JZ
  else if Op =? TOK_NOTEQ then cmp JNZ
  else 0.
Definition GetSimpleALU (Op : Z) : M cc Z := gete (fun e => GetSimpleALU_ (IsUnsignedOp e) Op).

(** scc.c:2170-2176 *)
Definition FinishOp (Inst : Z) : M cc unit :=
  let i := Z.shiftr Inst 8 in
  when (negb (i =? 0)) (setT VT_BOOL ;; setV i).

(** scc.c:2179-2219 *)
Definition DoBinOp (Op Reg : Z) : M cc unit :=
  let! inst := GetSimpleALU Op in
  let hasinst (inst rm : Z) : M cc unit := o2 inst rm ;; FinishOp inst in
  if negb (inst =? 0) then hasinst inst (Z.lor MODRM_REG (Z.shiftl Reg 3))
  else if Op =? ch_star then hasinst 247 (Z.lor (Z.lor MODRM_REG 32) Reg)
  else
    failif (negb (Reg =? R_CX)) ;;
    if (Op =? ch_slash) || (Op =? ch_percent) then
      inem (EmitDivCX W) ;;
      when (Op =? ch_percent) (o1 (Z.lor I_XCHG_AX R_DX))
    else if Op =? TOK_LSH then hasinst 211 (Z.lor MODRM_REG (Z.shiftl SHROT_SHL 3))
    else
      failif (negb (Op =? TOK_RSH)) ;;
      let! u := gete IsUnsignedOp in
      hasinst 211 (if u then Z.lor MODRM_REG (Z.shiftl SHROT_SHR 3)
                   else Z.lor MODRM_REG (Z.shiftl SHROT_SAR 3)).

(** scc.c:2221-2234 *)
Definition DoRhsLvalBinOp (Op : Z) : M cc bool :=
  let! t := gete CurrentType in
  let loc := Z.land t VT_LOCMASK in
  setT (clr t (Z.lor VT_LOCMASK VT_LVAL)) ;;
  let! inst := GetSimpleALU Op in
  let! v := gete CurrentVal in
  if inst =? 0 then
    o1 (Z.lor I_XCHG_AX R_CX) ;;
    inem (EmitLoadAx W 2 loc v) ;;
    ret false
  else
    inem (EmitModrm W (Z.lor inst 3) R_AX loc v) ;;
    FinishOp inst ;;
    ret true.

(** scc.c:2236-2256 *)
Definition DoRhsConstBinOp (Op : Z) : M cc unit :=
  let! v := gete CurrentVal in
  if Op =? ch_plus then inem (EmitAddRegConst W R_AX v)
  else if Op =? ch_minus then inem (EmitAddRegConst W R_AX (ci W (- v)))
  else if Op =? ch_star then inem (EmitScaleAx W v)
  else if Op =? ch_slash then inem (EmitDivAxConst W v)
  else
    let! inst := GetSimpleALU Op in
    if negb (inst =? 0) then
      o3 (Z.lor inst 5) v (Z.shiftr v 8) ;; FinishOp inst
    else
      (if hasb Op 128 then o2 177 v else inem (EmitMovRImm W R_CX v)) ;;
      DoBinOp Op R_CX.

(** scc.c:2258-2273; division by zero (and INT_MIN / -1) and shift counts outside the
    int width are undefined in C; signed overflow wraps *)
Definition DoConstBinOp (Op L R : Z) : outcome Z :=
  if Op =? ch_plus then Ok (ci W (L + R))
  else if Op =? ch_minus then Ok (ci W (L - R))
  else if Op =? ch_star then Ok (ci W (L * R))
  else if Op =? ch_slash then
    if (R =? 0) || ((R =? -1) && (L =? - 2 ^ (W - 1))) then UB else Ok (Z.quot L R)
  else if Op =? ch_percent then
    if (R =? 0) || ((R =? -1) && (L =? - 2 ^ (W - 1))) then UB else Ok (Z.rem L R)
  else if Op =? ch_amp then Ok (Z.land L R)
  else if Op =? ch_caret then Ok (Z.lxor L R)
  else if Op =? ch_bar then Ok (Z.lor L R)
  else if Op =? TOK_LSH then
    if (R <? 0) || (W <=? R) then UB else Ok (ci W (Z.shiftl L R))
  else if Op =? TOK_RSH then
    if (R <? 0) || (W <=? R) then UB else Ok (Z.shiftr L R)
  else Fatal.
Definition lift_out {S A} (o : outcome A) : M S A := fun s =>
  match o with Ok a => Ok (a, s) | Fatal => Fatal | UB => UB | OutOfFuel => OutOfFuel end.

(** scc.c:2275-2288 *)
Definition OpCommutes (Op : Z) : bool :=
  (Op =? ch_plus) || (Op =? ch_star) || (Op =? TOK_EQEQ) || (Op =? TOK_NOTEQ)
  || (Op =? ch_amp) || (Op =? ch_caret) || (Op =? ch_bar).

(** scc.c:2290-2302 *)
Definition DoCondHasExpr (Label : Z) (Forward : bool) : M cc unit :=
  let! t := gete CurrentType in
  if t =? INTLIT then
    let! v := gete CurrentVal in
    when ((v =? 0) && Forward) (inem (EmitJmp W Label))
  else
    when (negb (t =? VT_BOOL)) ToBool ;;
    let! v := gete CurrentVal in
    inem (EmitJcc W (Z.lxor v (zb Forward)) Label).

(** scc.c:2305-2309 *)
Definition DoCond (r : recs) (Label : Z) (Forward : bool) : M cc unit :=
  pExpr r ;; DoCondHasExpr Label Forward.

(** scc.c:2311-2325 *)
Definition ForceToReg : M cc unit :=
  let! t := gete CurrentType in
  when (Z.land t VT_BASEMASK =? VT_ARRAY) LvalToRval ;;
  let! t := gete CurrentType in
  let loc := Z.land t VT_LOCMASK in
  if loc =? 0 then ret tt
  else if (loc =? VT_LOCGLOB) || (loc =? VT_LOCOFF) then
    let! v := gete CurrentVal in
    inem (EmitLoadAddr W R_AX loc v) ;;
    upde (fun e => set_CurrentType (clr (CurrentType e) VT_LOCMASK) e)
  else GetVal.

(** scc.c:2327-2344 *)
Definition ParseMaybeDead (r : recs) (Live : bool) : M cc unit :=
  if Live then pAssign r
  else
    let! t := gete CurrentType in
    let! v := gete CurrentVal in
    let! x := gete CurrentTypeExtra in
    let! wasdead := gete IsDeadCode in
    upde (set_IsDeadCode true) ;;
    pAssign r ;;
    let! dead := gete IsDeadCode in
    failif (negb dead) ;;
    upde (set_IsDeadCode wasdead) ;;
    setT t ;; setV v ;; setX x.

(** scc.c:2346-2383 *)
Definition HandleCondOp (r : recs) : M cc unit :=
  let! t := gete CurrentType in
  if t =? INTLIT then
    let! v := gete CurrentVal in
    ParseMaybeDead r (negb (v =? 0)) ;;
    Expect W F ch_colon ;;
    ParseMaybeDead r (v =? 0)
  else
    let! falselabel := inem MakeLabel in
    let! endlabel := inem MakeLabel in
    DoCondHasExpr falselabel true ;;
    pAssign r ;;
    ForceToReg ;;
    let! lhstype := gete CurrentType in
    inem (EmitJmp W endlabel) ;;
    Expect W F ch_colon ;;
    inem (EmitLocalLabel W falselabel) ;;
    pAssign r ;;
    ForceToReg ;;
    let! ct := gete CurrentType in
    let diff := Z.lxor lhstype ct in
    if hasb diff VT_LVAL || (hasb diff VT_BASEMASK && negb (hasb ct VT_PTRMASK)) then
      let! realend := inem MakeLabel in
      LvalToRval ;;
      inem (EmitJmp W realend) ;;
      inem (EmitLocalLabel W endlabel) ;;
      setT lhstype ;;
      LvalToRval ;;
      inem (EmitLocalLabel W realend)
    else inem (EmitLocalLabel W endlabel).

(** scc.c:2385-2401 *)
Definition HandleLhsLvalLoc (LhsLoc : Z) : M cc unit :=
  if (LhsLoc =? VT_LOCOFF) || (LhsLoc =? VT_LOCGLOB) then ret tt
  else if LhsLoc =? 0 then
    let! p := hasPushAx in
    if p then clrPushAx ;; o1 (Z.lor I_XCHG_AX R_DI)
    else GetStoredVal R_DI ;; ret tt
  else fatal.

(** assignment, scc.c:2488-2561 *)
Definition assign_op (Op LhsType LhsTypeExtra LhsVal LhsLoc : Z) : M cc unit :=
  HandleLhsLvalLoc LhsLoc ;;
  if LhsType =? VT_STRUCT then
    let! ct := gete CurrentType in
    let! cx := gete CurrentTypeExtra in
    failif (negb (clr ct VT_LOCMASK =? VT_STRUCT + VT_LVAL) || negb (cx =? LhsTypeExtra)) ;;
    let loc := Z.land ct VT_LOCMASK in
    when (negb (LhsLoc =? 0)) (inem (EmitLoadAddr W R_DI LhsLoc LhsVal)) ;;
    (if negb (loc =? 0) then let! v := gete CurrentVal in inem (EmitLoadAddr W R_SI loc v)
     else o1 (Z.lor I_XCHG_AX R_SI)) ;;
    let! n := SizeofCurrentType in
    inem (EmitMovRImm W R_CX n) ;;
    o2 243 164
  else
  LvalToRval ;;
  let size := if clr LhsType VT_UNSIGNED =? VT_CHAR then 1 else 2 in
  if negb (Op =? ch_eq) then
    when (LhsLoc =? 0) (inem (EmitMovRR W R_SI R_DI)) ;;
    let! ct := gete CurrentType in
    let isconst := ct =? INTLIT in
    let! inst := GetSimpleALU Op in
    if (size =? 2) && negb (inst =? 0) then
      (if isconst then
         inem (EmitModrm W I_ALU_RM16_IMM16 (Z.shiftr inst 3) LhsLoc LhsVal) ;;
         let! v := gete CurrentVal in ow v
       else
         GetVal ;;
         inem (EmitModrm W inst R_AX LhsLoc LhsVal)) ;;
      when (LhsLoc =? 0) (o1 (Z.lor I_XCHG_AX R_DI)) ;;
      setT (Z.lor (Z.lor LhsType LhsLoc) VT_LVAL) ;;
      setV LhsVal
    else
      when (negb isconst)
        (failif (negb (clr ct VT_UNSIGNED =? VT_INT)) ;; o1 (Z.lor I_XCHG_AX R_CX)) ;;
      inem (EmitLoadAx W size LhsLoc LhsVal) ;;
      when (size =? 1) (inem (EmitExtend W (hasb LhsType VT_UNSIGNED))) ;;
      (if isconst then
         DoRhsConstBinOp Op ;;
         upde (fun e => set_CurrentType (clr (CurrentType e) VT_LOCMASK) e)
       else DoBinOp Op R_CX) ;;
      upde (fun e => set_LastZFInst (CodeAddress e) e) ;;
      inem (EmitStoreAx W size LhsLoc LhsVal)
  else
    let! ct := gete CurrentType in
    if ct =? INTLIT then
      if LhsLoc =? 0 then GetVal ;; o1 (I_STOSB - 1 + size)
      else inem (EmitStoreConst W size LhsLoc LhsVal)
    else
      GetVal ;;
      inem (EmitStoreAx W size LhsLoc LhsVal).

(** other binary operators, scc.c:2562-2630 *)
Definition binary_op (Op LhsType LhsTypeExtra LhsVal LhsLoc : Z) : M cc unit :=
  let! pointee :=
    (if hasb LhsType VT_PTRMASK then
       let! n := indc (SizeofType (LhsType - VT_PTR1) LhsTypeExtra) in
       let! ct := gete CurrentType in
       when (Z.land ct VT_BASEMASK =? VT_ARRAY) LvalToRval ;;
       setX LhsTypeExtra ;;
       upde (set_IsUnsignedOp true) ;;
       ret n
     else ret 0) in
  let! ct := gete CurrentType in
  (if ct =? INTLIT then
     let! p := hasPushAx in
     let! dead := gete IsDeadCode in
     failif (negb (p || dead)) ;;
     clrPushAx ;;
     setT VT_INT ;;
     when (hasb LhsType VT_PTRMASK)
       (upde (fun e => set_CurrentVal (ci W (CurrentVal e * pointee)) e) ;; setT LhsType) ;;
     DoRhsConstBinOp Op
   else
     let commutes := OpCommutes Op in
     let normal (temp : bool) (R : Z) : M cc unit :=
       when (negb temp) (o1 (Z.lor I_XCHG_AX R)) ;; DoBinOp Op R in
     if LhsLoc =? VT_LOCLIT then
       failif (negb (LhsType =? VT_INT)) ;;
       GetVal ;;
       if commutes then setV LhsVal ;; DoRhsConstBinOp Op
       else inem (EmitMovRImm W R_CX LhsVal) ;; normal commutes R_CX
     else
       failif (negb (clr LhsType VT_UNSIGNED =? VT_INT) && (pointee =? 0)) ;;
       let general : M cc unit :=
         GetVal ;;
         if negb commutes then
           o1 (Z.lor I_XCHG_AX R_CX) ;;
           GetStoredVal R_AX ;;
           normal true R_CX
         else
           let! R := GetStoredVal (-1) in
           normal true R in
       if (Op =? ch_plus) && negb (pointee =? 0) then
         GetVal ;;
         inem (EmitScaleAx W pointee) ;;
         setT LhsType ;;
         general
       else
         let! p := hasPushAx in
         let! ct := gete CurrentType in
         if p && negb (Z.land ct VT_BASEMASK =? VT_ARRAY)
            && negb (Z.land ct (Z.lor VT_BASEMASK VT_PTRMASK) =? VT_CHAR) then
           failif (negb (hasb ct VT_LVAL)) ;;
           clrPushAx ;;
           let! done := DoRhsLvalBinOp Op in
           if done then ret tt else normal commutes R_CX
         else general) ;;
  when ((Op =? ch_minus) && negb (pointee =? 0))
    (inem (EmitDivAxConst W pointee) ;; setT VT_INT) ;;
  upde (fun e => set_LastZFInst (CodeAddress e) e).

(** the inner loop over tighter operators, scc.c:2449-2453 *)
Definition rhs_loop (r : recs) (Prec : Z) : M cc unit :=
  loopM F (fun _ : unit =>
    let! p := getl OperatorPrecedence in
    if (Prec <? p) || ((p =? Prec) && negb (p =? PREC_ASSIGN)) then ret (inr tt)
    else pExpr1 r p ;; ret (inl tt)) tt.

(** one iteration of the loop of ParseExpr1, scc.c:2414-2630 *)
Definition expr1_body (r : recs) : M cc unit :=
  let! Op := getl TokenType in
  let! Prec := getl OperatorPrecedence in
  next ;;
  if Op =? ch_quest then HandleCondOp r
  else
  let! Op :=
    (if Prec =? PREC_ASSIGN then
       let! t := gete CurrentType in
       failif (negb (hasb t VT_LVAL)) ;;
       setT (clr t VT_LVAL) ;;
       if Op =? ch_eq then ret Op else RemoveAssign Op
     else LvalToRval ;; ret Op) in
  let isor := Op =? TOK_OROR in
  let! LEnd :=
    (if isor || (Op =? TOK_ANDAND) then
       let! l := inem MakeLabel in
       let! t := gete CurrentType in
       when (negb (t =? VT_BOOL)) ToBool ;;
       let! v := gete CurrentVal in
       inem (EmitJcc W (Z.lxor v (zb (negb isor))) l) ;;
       ret l
     else
       let! t := gete CurrentType in
       when (t =? VT_BOOL) GetVal ;;
       let! t := gete CurrentType in
       let! dead := gete IsDeadCode in
       when (negb (hasb t VT_LOCMASK) && negb (Op =? ch_comma) && negb dead) setPushAx ;;
       ret (-1)) in
  let! LhsType := gete CurrentType in
  let! LhsTypeExtra := gete CurrentTypeExtra in
  let! LhsVal := gete CurrentVal in
  pCast r ;;
  rhs_loop r Prec ;;
  if Op =? ch_comma then ret tt
  else
  let LhsLoc := Z.land LhsType VT_LOCMASK in
  let LhsType := clr LhsType VT_LOCMASK in
  let! ct := gete CurrentType in
  let! cv := gete CurrentVal in
  if (LhsLoc =? VT_LOCLIT) && (ct =? INTLIT) then
    failif (negb (LhsType =? VT_INT)) ;;
    let! n := lift_out (DoConstBinOp Op LhsVal cv) in
    setV n
  else if 0 <=? LEnd then
    when (negb (ct =? VT_BOOL)) ToBool ;;
    let! cv := gete CurrentVal in
    if negb (LhsVal =? cv) then
      o2 176 (zb (negb isor)) ;;
      o2 (Z.lor 112 (Z.lxor cv (zb isor))) 2 ;;
      inem (EmitLocalLabel W LEnd) ;;
      o3 176 (zb isor) 152 ;;
      setT VT_INT
    else inem (EmitLocalLabel W LEnd)
  else
    upde (set_IsUnsignedOp ((LhsType =? VT_UNSIGNED + VT_INT)
            || (Z.land ct (Z.lor (Z.lor VT_UNSIGNED VT_PTRMASK) VT_BASEMASK) =? VT_UNSIGNED + VT_INT))) ;;
    if Prec =? PREC_ASSIGN then assign_op Op LhsType LhsTypeExtra LhsVal LhsLoc
    else binary_op Op LhsType LhsTypeExtra LhsVal LhsLoc.

(** scc.c:2403-2632 *)
Definition ParseExpr1 (r : recs) (Outer : Z) : M cc unit :=
  expr1_body r ;;
  let! p := getl OperatorPrecedence in
  if p <=? Outer then pExpr1 r Outer else ret tt.

(** scc.c:2634-2639 *)
Definition ParseExpr (r : recs) : M cc unit :=
  pCast r ;;
  let! p := getl OperatorPrecedence in
  when (p <=? PREC_COMMA) (pExpr1 r PREC_COMMA).

(** scc.c:2641-2646 *)
Definition ParseAssignmentExpression (r : recs) : M cc unit :=
  pCast r ;;
  let! p := getl OperatorPrecedence in
  when (p <=? PREC_ASSIGN) (pExpr1 r PREC_ASSIGN).
End Expr.
