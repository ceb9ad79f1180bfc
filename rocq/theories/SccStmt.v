(** Model of the declaration and statement parser and of the driver of scc.c
    (lines 2648-3475).  Only definitions. *)
From Verif Require Import Base SccState SccEmit SccLex SccDecl SccExpr.

Section Stmt.
Variable W : Z.
Variable F : nat.
Notation next := (next W F).
Notation Expect := (Expect W F).
Notation ExpectId := (ExpectId W F).
Notation o1 := (o1 W).
Notation o2 := (o2 W).
Notation ow := (ow W).

(** scc.c:2648-2657 *)
Definition SaveBaseType : M cc unit :=
  let! t := gete CurrentType in
  let! x := gete CurrentTypeExtra in
  if Z.land t VT_BASEMASK =? VT_ARRAY then
    let! at_ := getd (fun d => aget (ADType d) x) in
    let! ax := getd (fun d => aget (ADExtra d) x) in
    updd (set_BaseType at_) ;; updd (set_BaseTypeExtra ax)
  else updd (set_BaseType (clr t VT_PTRMASK)) ;; updd (set_BaseTypeExtra x).

(** ** Declaration specifiers *)
(** enum specifier, scc.c:2699-2732 *)
Definition enum_spec (r : recs) : M cc unit :=
  next ;;
  let! t := getl TokenType in
  when (TOK_ID <=? t) next ;;
  let! t := getl TokenType in
  when (t =? ch_lbrace)
    (next ;;
     updd (fun d => set_IgnoreRedef (IgnoreRedef d + 1) d) ;;
     loopM F (fun enumval : Z =>
       let! t := getl TokenType in
       if t =? ch_rbrace then ret (inr tt) else
       let! id := ExpectId in
       let! t := getl TokenType in
       let! enumval := (if t =? ch_eq then
                          next ;; pAssign r ;;
                          let! ct := gete CurrentType in
                          failif (negb (ct =? INTLIT)) ;;
                          gete CurrentVal
                        else ret enumval) in
       setT INTLIT ;;
       let! v := AddVarDecl id in
       upde (fun e => set_VOff (aset (VOff e) v enumval) e) ;;
       let! t := getl TokenType in
       if t =? ch_comma then next ;; ret (inl (ci W (enumval + 1))) else ret (inr tt)) 0 ;;
     Expect ch_rbrace ;;
     updd (fun d => set_IgnoreRedef (IgnoreRedef d - 1) d)) ;;
  setT VT_INT.

(** the search of scc.c:2746-2751, from the last struct backwards *)
Fixpoint find_struct (n : nat) (id : Z) (d : dcst) : Z :=
  match n with
  | O => -1
  | S n' => if aget (SDId d) (Z.of_nat n') =? id then Z.of_nat n' else find_struct n' id d
  end.

(** *Last = SM: [last] is 0 for &SD->Members, otherwise index+1 of the previous member *)
Definition set_last (si last v : Z) : M cc unit :=
  if last =? 0 then updd (fun d => set_SDMembers (aset (SDMembers d) si v) d)
  else updd (fun d => set_SMNext (aset (SMNext d) (last - 1) v) d).

(** a new entry of the struct table, scc.c:2755-2758 *)
Definition open_struct (id : Z) : M cc Z :=
  let! si := getd StructCount in
  failif (si =? STRUCT_MAX) ;;
  updd (set_StructCount (si + 1)) ;;
  updd (fun d => set_SDId (aset (SDId d) si id) d) ;;
  ret si.
(** a new entry of the member table, scc.c:2765-2766 *)
Definition alloc_member : M cc Z :=
  let! sm := getd StructMemCount in
  failif (sm =? STRUCT_MEMBER_MAX) ;;
  updd (set_StructMemCount (sm + 1)) ;;
  ret sm.
(** filling it in and linking it, scc.c:2768-2771 *)
Definition record_member (si last sm : Z) : M cc unit :=
  let! i := getd (fun d => aget (SMId d) sm) in
  failif (i <? 0) ;;
  let! ct := gete CurrentType in
  let! cx := gete CurrentTypeExtra in
  updd (fun d => set_SMType (aset (SMType d) sm ct) d) ;;
  updd (fun d => set_SMExtra (aset (SMExtra d) sm cx) d) ;;
  set_last si last (sm + 1).
(** struct/union specifier, scc.c:2733-2790 *)
Definition struct_spec (r : recs) (isunion : bool) : M cc unit :=
  let id0 := if isunion then IS_UNION_FLAG else 0 in
  next ;;
  setX (-1) ;;
  let! t := getl TokenType in
  let! id :=
    (if TOK_ID <=? t then
       let! i := ExpectId in
       let id := Z.lor id0 i in
       let! n := getd StructCount in
       let! k := getd (find_struct (Z.to_nat n) id) in
       when (0 <=? k) (setX k) ;;
       ret id
     else ret (Z.lor id0 ID_MAX)) in
  let! t := getl TokenType in
  when (t =? ch_lbrace)
    (next ;;
     let! si := open_struct id in
     let! last :=
       loopM F (fun last : Z =>
         let! t := getl TokenType in
         if t =? ch_rbrace then ret (inr last) else
         pDeclSpecs r ;;
         SaveBaseType ;;
         let! last :=
           loopM F (fun last : Z =>
             let! t := getl TokenType in
             if t =? ch_semi then ret (inr last) else
             let! sm := alloc_member in
             pDeclarator r (IdMember sm) ;;
             record_member si last sm ;;
             let! t := getl TokenType in
             if t =? ch_comma then
               next ;;
               let! bt := getd BaseType in
               let! bx := getd BaseTypeExtra in
               setT bt ;; setX bx ;;
               ret (inl (sm + 1))
             else ret (inr (sm + 1))) last in
         Expect ch_semi ;;
         ret (inl last)) 0 in
     next ;;
     set_last si last 0 ;;
     setX si) ;;
  setT VT_STRUCT.

(** scc.c:2661-2804; the loop state is Flags *)
Definition ParseDeclSpecs (r : recs) : M cc unit :=
  setT VT_INT ;;
  loopM F (fun flags : Z =>
    let! t := getl TokenType in
    let brk (fl : Z) : M cc (Z + unit) := next ;; ret (inl fl) in
    if t =? TOK_VOID then setT VT_VOID ;; brk flags
    else if t =? TOK_CHAR then setT VT_CHAR ;; brk flags
    else if (t =? TOK_SHORT) || (t =? TOK_INT) then setT VT_INT ;; brk flags
    else if t =? TOK_VA_LIST then setT (VT_CHAR + VT_PTR1) ;; brk flags
    else if (t =? TOK_AUTO) || (t =? TOK_CONST) || (t =? TOK_EXTERN) || (t =? TOK_REGISTER) || (t =? TOK_VOLATILE)
      then brk flags
    else if t =? TOK_STATIC then brk (Z.lor flags VT_STATIC)
    else if t =? TOK_SIGNED then brk (clr flags VT_UNSIGNED)
    else if t =? TOK_TYPEDEF then brk (Z.lor flags VT_TYPEDEF)
    else if t =? TOK_UNSIGNED then brk (Z.lor flags VT_UNSIGNED)
    else if t =? TOK_ENUM then enum_spec r ;; ret (inl flags)
    else if (t =? TOK_STRUCT) || (t =? TOK_UNION) then struct_spec r (t =? TOK_UNION) ;; ret (inl flags)
    else
      let! td := LookupTypedef in
      if negb (td =? 0) then
        let! ty := getd (fun d => aget (VType d) (td - 1)) in
        let! tx := getd (fun d => aget (VExtra d) (td - 1)) in
        setT (clr ty VT_TYPEDEF) ;; setX tx ;; brk flags
      else
        upde (fun e => set_CurrentType (Z.lor (CurrentType e) flags) e) ;;
        ret (inr tt)) 0.

(** ** Declarators *)
(** *Id = v *)
Definition store_id (p : idptr) (v : Z) : M cc unit :=
  match p with
  | IdNull | IdLocal => ret tt
  | IdMember i => updd (fun d => set_SMId (aset (SMId d) i v) d)
  | IdArg i => updd (fun d => set_ArgId (aset (ArgId d) i v) d)
  end.

(** the parameter list, scc.c:2844-2871 *)
Definition param_list (r : recs) : M cc unit :=
  next ;;
  let! t0 := gete CurrentType in
  let T := Z.lor t0 VT_FUN in
  let! E := gete CurrentTypeExtra in
  updd (set_ArgsCount 0) ;;
  loopM F (fun _ : unit =>
    let! t := getl TokenType in
    if t =? ch_rpar then ret (inr tt)
    else if t =? TOK_ELLIPSIS then next ;; ret (inr tt)
    else
      pDeclSpecs r ;;
      let! t := getl TokenType in
      if t =? ch_rpar then ret (inr tt) else
      let! a := getd ArgsCount in
      failif (a =? ARGS_MAX) ;;
      updd (set_ArgsCount (a + 1)) ;;
      pDeclarator r (IdArg a) ;;
      let! ct := gete CurrentType in
      let! cx := gete CurrentTypeExtra in
      updd (fun d => set_ArgType (aset (ArgType d) a ct) d) ;;
      updd (fun d => set_ArgExtra (aset (ArgExtra d) a cx) d) ;;
      let! t := getl TokenType in
      if t =? ch_comma then next ;; ret (inl tt) else ret (inr tt)) tt ;;
  Expect ch_rpar ;;
  setT T ;;
  setX E.

(** moving the bounds inwards, scc.c:2899-2905 *)
Fixpoint move_bounds (n : nat) (ad : Z) : M dcst unit :=
  match n with
  | O => nofuel
  | S n' =>
      let! t := gets (fun d => aget (ADType d) ad) in
      if t =? VT_ARRAY then
        let! ad2 := gets (fun d => aget (ADExtra d) ad) in
        let! b := gets (fun d => aget (ADBound d) ad) in
        let! b2 := gets (fun d => aget (ADBound d) ad2) in
        upd (fun d => set_ADBound (aset (ADBound d) ad b2) d) ;;
        upd (fun d => set_ADBound (aset (ADBound d) ad2 b) d) ;;
        move_bounds n' ad2
      else ret tt
  end.

(** the new entry of the array table takes over the type so far, scc.c:2877-2881; its index and the static flag *)
Definition open_array : M cc (Z * Z) :=
  let! ad := getd ArrayCount in
  failif (ad =? ARRAY_MAX) ;;
  let! ct := gete CurrentType in
  let! cx := gete CurrentTypeExtra in
  updd (fun d => set_ADType (aset (ADType d) ad (clr ct VT_STATIC)) d) ;;
  updd (fun d => set_ADExtra (aset (ADExtra d) ad cx) d) ;;
  ret (ad, Z.land ct VT_STATIC).
(** scc.c:2885-2886 *)
Definition set_bound (ad v : Z) : M cc unit :=
  updd (fun d => set_ADBound (aset (ADBound d) ad v) d) ;;
  failif (v <=? 0).
(** scc.c:2891-2906 *)
Definition close_array (ad f : Z) : M cc unit :=
  setT (Z.lor VT_ARRAY f) ;;
  let! ac := getd ArrayCount in
  setX ac ;;
  updd (set_ArrayCount (ac + 1)) ;;
  indc (move_bounds (S (Z.to_nat ARRAY_MAX)) ad).
(** array bounds, scc.c:2873-2907 *)
Definition array_suffix (r : recs) : M cc unit :=
  loopM F (fun _ : unit =>
    let! t := getl TokenType in
    if negb (t =? ch_lbrack) then ret (inr tt) else
    next ;;
    let! af := open_array in
    let! t := getl TokenType in
    (if negb (t =? ch_rbrack) then
       pExpr r ;;
       let! ct := gete CurrentType in
       failif (negb (ct =? INTLIT)) ;;
       let! v := gete CurrentVal in
       set_bound (fst af) v
     else updd (fun d => set_ADBound (aset (ADBound d) (fst af) 0) d)) ;;
    Expect ch_rbrack ;;
    close_array (fst af) (snd af) ;;
    ret (inl tt)) tt.

(** scc.c:2806-2908 *)
Definition ParseDeclarator (r : recs) (p : idptr) : M cc Z :=
  loopM F (fun _ : unit =>
    let! t := getl TokenType in
    if t =? ch_star then
      next ;; upde (fun e => set_CurrentType (CurrentType e + VT_PTR1) e) ;; ret (inl tt)
    else if (t =? TOK_CONST) || (t =? TOK_VOLATILE) then next ;; ret (inl tt)
    else ret (inr tt)) tt ;;
  let! t := getl TokenType in
  let isfunptr := t =? ch_lpar in
  when isfunptr
    (next ;; Expect ch_star ;;
     upde (fun e => set_CurrentType (Z.lor (CurrentType e) VT_FUNPTR) e)) ;;
  let! id :=
    match p with
    | IdNull => ret (-1)
    | _ =>
        let! t := getl TokenType in
        if TOK_ID <=? t then
          let id := t - TOK_KEYWORD in
          store_id p id ;; next ;; ret id
        else store_id p (-1) ;; ret (-1)
    end in
  when isfunptr (Expect ch_rpar) ;;
  let! t := getl TokenType in
  (if t =? ch_lpar then param_list r else array_suffix r) ;;
  ret id.

(** scc.c:2916-2922 *)
Definition DoDecl (r : recs) : M cc Z :=
  let! id := pDeclarator r IdLocal in
  failif (id <? 0) ;;
  AddVarDecl id.

(** scc.c:2924-2932; index + 1, or 0 for NULL *)
Definition ParseFirstDecl (r : recs) : M cc Z :=
  pDeclSpecs r ;;
  let! t := getl TokenType in
  if t =? ch_semi then ret 0 else
  let! v := DoDecl r in
  SaveBaseType ;;
  ret (v + 1).

(** scc.c:2935-2943 *)
Definition NextDecl (r : recs) : M cc Z :=
  let! t := getl TokenType in
  if negb (t =? ch_comma) then ret 0 else
  next ;;
  let! bt := getd BaseType in
  let! bx := getd BaseTypeExtra in
  setT bt ;; setX bx ;;
  let! v := DoDecl r in
  ret (v + 1).

(** ** Statements *)
(** scc.c:2947-2962 *)
Definition DoLoopStatements (r : recs) (BLabel CLabel : Z) : M cc unit :=
  let! ob := getd BreakLabel in
  let! oc := getd ContinueLabel in
  let! obs := getd BStackLevel in
  let! ocs := getd CStackLevel in
  updd (set_BreakLabel BLabel) ;;
  updd (set_ContinueLabel CLabel) ;;
  let! lo := gete LocalOffset in
  updd (set_BStackLevel lo) ;;
  updd (set_CStackLevel lo) ;;
  pStatement r ;;
  updd (set_BStackLevel obs) ;;
  updd (set_CStackLevel ocs) ;;
  updd (set_BreakLabel ob) ;;
  updd (set_ContinueLabel oc).

(** scc.c:2964-2971 *)
Definition EnsureSwitchStmt : M cc unit :=
  let! n := getd NextSwitchStmt in
  when (n <? 0)
    (let! l := inem MakeLabel in
     updd (set_NextSwitchStmt l) ;;
     inem (EmitJmp W l)).

(** scc.c:2977-2999 *)
Definition compound_stmt (r : recs) : M cc unit :=
  let! oldoffset := gete LocalOffset in
  let! oldsm := getd StructMemCount in
  let! oldsc := getd StructCount in
  let! oldac := getd ArrayCount in
  PushScope ;;
  Expect ch_lbrace ;;
  loopM F (fun _ : unit =>
    let! t := getl TokenType in
    if t =? ch_rbrace then ret (inr tt) else pStatement r ;; ret (inl tt)) tt ;;
  next ;;
  PopScope ;;
  let! lo := gete LocalOffset in
  addPending (oldoffset - lo) ;;
  upde (set_LocalOffset oldoffset) ;;
  updd (set_StructMemCount oldsm) ;;
  updd (set_StructCount oldsc) ;;
  updd (set_ArrayCount oldac).

(** GetSemicolon, scc.c:3078-3082 *)
Definition GetSemicolon : M cc unit :=
  let! t := getl TokenType in
  when (negb (t =? ch_semi)) (Expect ch_semi) ;;
  next.

(** Stmt:, scc.c:3051-3054 *)
Definition switch_stmt_label (r : recs) : M cc unit :=
  let! n := getd NextSwitchStmt in
  inem (EmitLocalLabel W n) ;;
  updd (set_NextSwitchStmt (-1)) ;;
  pStatement r.

(** Cases[(0x7F-3)/5], scc.c:3013 *)
Definition CASES_MAX := 24.
(** the case list, scc.c:3013-3023, last first *)
Definition case_list (r : recs) : M cc (list Z) :=
  loopM F (fun cs : list Z =>
    next ;;
    pExpr r ;;
    Expect ch_colon ;;
    let! ct := gete CurrentType in
    failif (negb (ct =? INTLIT)) ;;
    let! v := gete CurrentVal in
    let cs := v :: cs in
    if Z.of_nat (length cs) =? CASES_MAX then ret (inr cs) else
    let! t := getl TokenType in
    if t =? TOK_CASE then ret (inl cs) else ret (inr cs)) nil.
(** CMP AX, case ; JZ Off, scc.c:3026-3032 *)
Fixpoint case_tests (cs : list Z) (off : Z) : M cc unit :=
  match cs with
  | nil => ret tt
  | c :: cs' =>
      o1 (Z.lor I_CMP 5) ;; ow c ;; o2 (Z.lor 112 JZ) off ;; case_tests cs' (off - 5)
  end.
(** case label, scc.c:3006-3040 *)
Definition case_stmt (r : recs) : M cc unit :=
  EnsureSwitchStmt ;;
  let! l := getd NextSwitchCase in
  inem (EmitLocalLabel W l) ;;
  let! l := inem MakeLabel in
  updd (set_NextSwitchCase l) ;;
  let! cs := case_list r in
  case_tests (rev (tl cs)) (Z.of_nat (length (tl cs)) * 5 + 3) ;;
  o1 (Z.lor I_CMP 5) ;;
  ow (hd 0 cs) ;;
  let! l := getd NextSwitchCase in
  inem (EmitJcc W JNZ l) ;;
  switch_stmt_label r.

(** scc.c:3061-3077 *)
Definition return_stmt (r : recs) : M cc unit :=
  next ;;
  let! t := getl TokenType in
  when (negb (t =? ch_semi)) (pExpr r ;; GetVal W) ;;
  let! lo := gete LocalOffset in
  if negb (lo =? 0) then
    let! rl := getd ReturnLabel in
    when (rl <? 0) (let! l := inem MakeLabel in updd (set_ReturnLabel l)) ;;
    let! rl := getd ReturnLabel in
    inem (EmitJmp W rl)
  else
    o2 (Z.lor I_POP R_BP) I_RET ;;
    upde (set_IsDeadCode true).

(** scc.c:3103-3123 *)
Definition if_stmt (r : recs) : M cc unit :=
  next ;;
  let! elselabel := inem MakeLabel in
  Expect ch_lpar ;;
  DoCond W r elselabel true ;;
  Expect ch_rpar ;;
  pStatement r ;;
  let! t := getl TokenType in
  if t =? TOK_ELSE then
    next ;;
    let! endlabel := inem MakeLabel in
    inem (EmitJmp W endlabel) ;;
    inem (EmitLocalLabel W elselabel) ;;
    pStatement r ;;
    inem (EmitLocalLabel W endlabel)
  else inem (EmitLocalLabel W elselabel).

(** scc.c:3124-3163 *)
Definition for_stmt (r : recs) : M cc unit :=
  next ;;
  let! condlabel := inem MakeLabel in
  let! bodylabel := inem MakeLabel in
  let! endlabel := inem MakeLabel in
  Expect ch_lpar ;;
  let! t := getl TokenType in
  when (negb (t =? ch_semi)) (pExpr r) ;;
  Expect ch_semi ;;
  inem (EmitLocalLabel W condlabel) ;;
  let! t := getl TokenType in
  when (negb (t =? ch_semi)) (DoCond W r endlabel true) ;;
  Expect ch_semi ;;
  let! t := getl TokenType in
  let! iterlabel :=
    (if negb (t =? ch_rpar) then
       inem (EmitJmp W bodylabel) ;;
       let! l := inem MakeLabel in
       inem (EmitLocalLabel W l) ;;
       pExpr r ;;
       inem (EmitJmp W condlabel) ;;
       ret l
     else ret condlabel) in
  Expect ch_rpar ;;
  inem (EmitLocalLabel W bodylabel) ;;
  DoLoopStatements r endlabel iterlabel ;;
  inem (EmitJmp W iterlabel) ;;
  inem (EmitLocalLabel W endlabel).

(** scc.c:3164-3177 *)
Definition while_stmt (r : recs) : M cc unit :=
  next ;;
  let! startlabel := inem MakeLabel in
  let! endlabel := inem MakeLabel in
  inem (EmitLocalLabel W startlabel) ;;
  Expect ch_lpar ;;
  DoCond W r endlabel true ;;
  Expect ch_rpar ;;
  DoLoopStatements r endlabel startlabel ;;
  inem (EmitJmp W startlabel) ;;
  inem (EmitLocalLabel W endlabel).

(** scc.c:3178-3193 *)
Definition do_stmt (r : recs) : M cc unit :=
  next ;;
  let! startlabel := inem MakeLabel in
  let! condlabel := inem MakeLabel in
  let! endlabel := inem MakeLabel in
  inem (EmitLocalLabel W startlabel) ;;
  DoLoopStatements r endlabel condlabel ;;
  inem (EmitLocalLabel W condlabel) ;;
  Expect TOK_WHILE ;;
  Expect ch_lpar ;;
  DoCond W r startlabel false ;;
  Expect ch_rpar ;;
  inem (EmitLocalLabel W endlabel) ;;
  GetSemicolon.

(** scc.c:3194-3233 *)
Definition switch_stmt (r : recs) : M cc unit :=
  next ;;
  Expect ch_lpar ;;
  pExpr r ;;
  GetVal W ;;
  Expect ch_rpar ;;
  let! obs := getd BStackLevel in
  let! ob := getd BreakLabel in
  let! lsc := getd NextSwitchCase in
  let! lss := getd NextSwitchStmt in
  let! lsd := getd SwitchDefault in
  let! lo := gete LocalOffset in
  updd (set_BStackLevel lo) ;;
  let! l := inem MakeLabel in updd (set_BreakLabel l) ;;
  let! l := inem MakeLabel in updd (set_NextSwitchCase l) ;;
  let! l := inem MakeLabel in updd (set_NextSwitchStmt l) ;;
  updd (set_SwitchDefault (-1)) ;;
  pStatement r ;;
  let! sd := getd SwitchDefault in
  (if 0 <=? sd then
     let! ss := getd NextSwitchStmt in
     when (ss <? 0)
       (let! l := inem MakeLabel in
        updd (set_NextSwitchStmt l) ;;
        inem (EmitJmp W l)) ;;
     let! c := getd NextSwitchCase in
     inem (EmitLocalLabel W c) ;;
     inem (EmitJmp W sd)
   else
     let! c := getd NextSwitchCase in
     inem (EmitLocalLabel W c)) ;;
  let! ss := getd NextSwitchStmt in
  when (0 <=? ss) (inem (EmitLocalLabel W ss)) ;;
  let! b := getd BreakLabel in
  inem (EmitLocalLabel W b) ;;
  updd (set_NextSwitchCase lsc) ;;
  updd (set_NextSwitchStmt lss) ;;
  updd (set_SwitchDefault lsd) ;;
  updd (set_BStackLevel obs) ;;
  updd (set_BreakLabel ob).

(** local declarations, scc.c:3237-3260 *)
Definition local_decl (r : recs) : M cc unit :=
  let! vd := ParseFirstDecl r in
  loopM F (fun vd : Z =>
    if vd =? 0 then ret (inr tt) else
    let v := vd - 1 in
    let! size := SizeofCurrentType in
    let! ct := gete CurrentType in
    (if hasb ct VT_STATIC then
       updd (fun d => set_VType (aset (VType d) v (Z.lor (clr ct VT_STATIC) VT_LOCGLOB)) d) ;;
       updd (fun d => set_BssSize (BssSize d + size) d)
     else
       updd (fun d => set_VType (aset (VType d) v (Z.lor (aget (VType d) v) VT_LOCOFF)) d) ;;
       let size := Z.land (size + 1) (-2) in
       let! t := getl TokenType in
       (if t =? ch_eq then
          next ;; pAssign r ;; GetVal W ;; o1 (Z.lor I_PUSH R_AX)
        else addPending (- size)) ;;
       addOffset (- size) ;;
       let! lo := gete LocalOffset in
       upde (fun e => set_VOff (aset (VOff e) v lo) e)) ;;
    let! vd := NextDecl r in
    ret (inl vd)) vd.

(** Skip:, scc.c:3236-3274 *)
Definition simple_stmt (r : recs) : M cc unit :=
  let! ty := IsTypeStart in
  if ty then local_decl r ;; GetSemicolon
  else
    let! t := getl TokenType in
    if TOK_ID <=? t then
      setV (t - TOK_KEYWORD) ;;
      next ;;
      let! t := getl TokenType in
      if t =? ch_colon then
        next ;;
        let! v := gete CurrentVal in
        let! l := GetNamedLabel v in
        inem (EmitLocalLabel W l) ;;
        let! lo := gete LocalOffset in
        inem (EmitModrm W I_LEA R_SP VT_LOCOFF lo) ;;
        pStatement r
      else
        HandlePrimaryId ;;
        pPostfix r ;;
        let! p := getl OperatorPrecedence in
        when (p <=? PREC_COMMA) (pExpr1 r PREC_COMMA) ;;
        GetSemicolon
    else pExpr r ;; GetSemicolon.

(** scc.c:2973-3275 *)
Definition ParseStatement (r : recs) : M cc unit :=
  let! t := getl TokenType in
  if t =? ch_lbrace then compound_stmt r
  else
  let! nsc := getd NextSwitchCase in
  let! nss := getd NextSwitchStmt in
  if (0 <=? nsc) && (t =? TOK_CASE) then case_stmt r
  else if (0 <=? nsc) && (t =? TOK_DEFAULT) then
    next ;;
    Expect ch_colon ;;
    let! sd := getd SwitchDefault in
    failif (negb (sd =? -1)) ;;
    EnsureSwitchStmt ;;
    let! n := getd NextSwitchStmt in
    updd (set_SwitchDefault n) ;;
    pStatement r
  else if (0 <=? nsc) && (0 <=? nss) then
    inem (EmitJmp W nsc) ;;
    switch_stmt_label r
  else if TOK_ID <=? t then simple_stmt r
  else if t =? ch_semi then next
  else if t =? TOK_RETURN then return_stmt r ;; GetSemicolon
  else if t =? TOK_BREAK then
    next ;;
    let! b := getd BStackLevel in
    let! lo := gete LocalOffset in
    addPending (b - lo) ;;
    let! l := getd BreakLabel in
    inem (EmitJmp W l) ;;
    GetSemicolon
  else if t =? TOK_CONTINUE then
    next ;;
    let! c := getd CStackLevel in
    let! lo := gete LocalOffset in
    addPending (c - lo) ;;
    let! l := getd ContinueLabel in
    inem (EmitJmp W l) ;;
    GetSemicolon
  else if t =? TOK_GOTO then
    next ;;
    let! id := ExpectId in
    let! l := GetNamedLabel id in
    inem (EmitJmp W l) ;;
    GetSemicolon
  else if t =? TOK__EMIT then
    next ;;
    pExpr r ;;
    let! ct := gete CurrentType in
    failif (negb (ct =? INTLIT)) ;;
    let! v := gete CurrentVal in
    o1 v
  else if t =? TOK_IF then if_stmt r
  else if t =? TOK_FOR then for_stmt r
  else if t =? TOK_WHILE then while_stmt r
  else if t =? TOK_DO then do_stmt r
  else if t =? TOK_SWITCH then switch_stmt r
  else simple_stmt r.

(** ** The recursive knot *)
Definition norecs : recs :=
  mkrecs nofuel nofuel nofuel nofuel nofuel (fun _ => nofuel) nofuel (fun _ => nofuel) nofuel.
Fixpoint tie (n : nat) : recs :=
  match n with
  | O => norecs
  | S n' =>
      let r := tie n' in
      mkrecs (ParseExpr r) (ParseAssignmentExpression r) (ParseCastExpression W F r)
             (ParseUnaryExpression W F r) (ParsePostfixExpression W F r) (ParseExpr1 W F r)
             (ParseDeclSpecs r) (ParseDeclarator r) (ParseStatement r)
  end.

(** ** External definitions *)
(** the arguments of a function, scc.c:3306-3312 *)
Fixpoint bind_args (n : nat) (i : Z) : M cc unit :=
  match n with
  | O => ret tt
  | S n' =>
      let! id := getd (fun d => aget (ArgId d) i) in
      let! t := getd (fun d => aget (ArgType d) i) in
      let! x := getd (fun d => aget (ArgExtra d) i) in
      setT (Z.lor t VT_LOCOFF) ;;
      setX x ;;
      (if id <? 0 then undef else ret tt) ;; (* VarLookup[-1], an unnamed parameter *)
      let! v := AddVarDecl id in
      upde (fun e => set_VOff (aset (VOff e) v (4 + i * 2)) e) ;;
      bind_args n' (i + 1)
  end.

(** memset(&VarDecls[Scopes[0]], -1, 4 entries), scc.c:3302 *)
Fixpoint reserve (n : nat) (i : Z) : M cc unit :=
  match n with
  | O => ret tt
  | S n' =>
      (if VARDECL_MAX <=? i then undef else ret tt) ;;
      updd (fun d => set_VId (aset (VId d) i (-1)) d) ;;
      updd (fun d => set_VType (aset (VType d) i (-1)) d) ;;
      updd (fun d => set_VExtra (aset (VExtra d) i (-1)) d) ;;
      upde (fun e => set_VOff (aset (VOff e) i (-1)) e) ;;
      upde (fun e => set_VRef (aset (VRef e) i (-1)) e) ;;
      updd (fun d => set_VPrev (aset (VPrev d) i (-1)) d) ;;
      reserve n' (i + 1)
  end.

(** the first lines of a function definition, scc.c:3300-3304 *)
Definition enter_function : M cc unit :=
  let! s0 := getd (fun d => aget (Scopes d) 0) in
  reserve (Z.to_nat GLOBAL_RESERVE) s0 ;;
  updd (fun d => set_Scopes (aset (Scopes d) 0 (aget (Scopes d) 0 + GLOBAL_RESERVE)) d) ;;
  PushScope ;;
  updd (fun d => set_Scopes (aset (Scopes d) 0 (aget (Scopes d) 0 - GLOBAL_RESERVE)) d).
(** function body, scc.c:3297-3332 *)
Definition function_def (r : recs) (v : Z) : M cc unit :=
  enter_function ;;
  let! n := getd ArgsCount in
  bind_args (Z.to_nat n) 0 ;;
  let! llc := gete LocalLabelCounter in
  failif (negb (llc =? 0)) ;;
  upde (set_LocalOffset 0) ;;
  updd (set_ReturnLabel (-1)) ;;
  updd (set_BreakLabel (-1)) ;;
  updd (set_ContinueLabel (-1)) ;;
  EmitGlobalLabel v ;;
  o1 (Z.lor I_PUSH R_BP) ;;
  inem (EmitMovRR W R_BP R_SP) ;;
  pStatement r ;;
  let! rl := getd ReturnLabel in
  when (0 <=? rl)
    (inem (EmitLocalLabel W rl) ;;
     inem (EmitMovRR W R_SP R_BP)) ;;
  o2 (Z.lor I_POP R_BP) I_RET ;;
  upde (set_LocalLabelCounter 0) ;;
  updd (set_NamedLabelCount 0) ;;
  PopScope.

(** global variables, scc.c:3335-3363; [vd] is index + 1 *)
Definition global_vars (r : recs) (vd : Z) : M cc unit :=
  loopM F (fun vd : Z =>
    if vd =? 0 then ret (inr tt) else
    let v := vd - 1 in
    updd (fun d => set_VType (aset (VType d) v (Z.lor (aget (VType d) v) VT_LOCGLOB)) d) ;;
    let! t := getl TokenType in
    (if t =? ch_eq then
       next ;;
       EmitGlobalLabel v ;;
       pAssign r ;;
       let! ct := gete CurrentType in
       if ct =? INTLIT then let! x := gete CurrentVal in ow x
       else if ct =? VT_LVAL + VT_ARRAY then
         let! ad := getd (fun d => aget (VExtra d) v) in
         let! at_ := getd (fun d => aget (ADType d) ad) in
         failif (negb (clr at_ VT_UNSIGNED =? VT_CHAR)) ;;
         let! b := getd (fun d => aget (ADBound d) ad) in
         failif (negb (b =? 0)) ;;
         let! cx := gete CurrentTypeExtra in
         let! nb := getd (fun d => aget (ADBound d) cx) in
         updd (fun d => set_ADBound (aset (ADBound d) ad nb) d) ;;
         let! ac := getd ArrayCount in
         failif (negb (cx =? ac - 1)) ;;
         updd (set_ArrayCount (ac - 1))
       else fatal
     else
       let! n := SizeofCurrentType in
       updd (fun d => set_BssSize (BssSize d + n) d)) ;;
    let! vd := NextDecl r in
    ret (inl vd)) vd.

(** scc.c:3284-3367 *)
Definition ParseExternalDefition (r : recs) : M cc unit :=
  let! vd := ParseFirstDecl r in
  if vd =? 0 then Expect ch_semi else
  let v := vd - 1 in
  updd (fun d => set_VType (aset (VType d) v (clr (aget (VType d) v) VT_STATIC)) d) ;;
  let! ty := getd (fun d => aget (VType d) v) in
  if hasb ty VT_FUN then
    updd (fun d => set_VType (aset (VType d) v (Z.lor ty VT_LOCGLOB)) d) ;;
    let! t := getl TokenType in
    if negb (t =? ch_lbrace) then Expect ch_semi
    else function_def r v
  else global_vars r vd ;; Expect ch_semi.

(** placing the uninitialised globals, scc.c:3446-3458 *)
Fixpoint place_bss (n : nat) (v ebss : Z) : M cc unit :=
  match n with
  | O => ret tt
  | S n' =>
      let! t := getd (fun d => aget (VType d) v) in
      upde (set_CurrentType t) ;;
      let! off := gete (fun e => aget (VOff e) v) in
      (if negb (Z.land t VT_LOCMASK =? VT_LOCGLOB) || negb (off =? 0) || (v =? ebss) then ret tt
       else
         failif (hasb t VT_FUN) ;;
         EmitGlobalLabel v ;;
         let! x := getd (fun d => aget (VExtra d) v) in
         let! sz := indc (SizeofType t x) in
         upde (fun e => set_CodeAddress (CodeAddress e + sz) e)) ;;
      place_bss n' (v + 1) ebss
  end.

(** main, scc.c:3411-3475, without opening/closing files: from the freshly
    initialised globals (whose File is the source text) to the final ones;
    [fuel] bounds the nesting of the parser.  (AddVarDecl of the prelude is called with the globals'
    initial IgnoreRedef 0.) *)
Definition scc_main (fuel : nat) : M cc unit :=
  inlx (AddBuiltins W) ;;
  o2 (Z.lor I_XOR 1) (Z.lor (Z.lor MODRM_REG (Z.shiftl R_BP 3)) R_BP) ;;
  o1 I_JMP_REL16 ;;
  setT (VT_FUN + VT_VOID + VT_LOCGLOB) ;;
  let! st := AddVarDecl (TOK__START - TOK_KEYWORD) in
  inem (EmitGlobalRefRel W st) ;;
  setT (VT_CHAR + VT_LOCGLOB) ;;
  let! sbss := AddVarDecl (TOK__SBSS - TOK_KEYWORD) in
  let! ebss := AddVarDecl (TOK__EBSS - TOK_KEYWORD) in
  updl (set_InBufPtr 0) ;;
  next ;;
  loopM F (fun _ : unit =>
    let! t := getl TokenType in
    if t =? 0 then ret (inr tt) else ParseExternalDefition (tie fuel) ;; ret (inl tt)) tt ;;
  let! sc := getd ScopeCount in
  failif (negb (sc =? 1)) ;;
  EmitGlobalLabel sbss ;;
  let! n := getd (fun d => aget (Scopes d) 0) in
  place_bss (Z.to_nat n) 0 ebss ;;
  let! ca := gete CodeAddress in
  let! so := gete (fun e => aget (VOff e) sbss) in
  let! bs := getd BssSize in
  failif (negb (ca - so =? bs)) ;;
  EmitGlobalLabel ebss.

(** the bytes written to the output file, scc.c:3471 *)
Fixpoint out_bytes (n : nat) (a : Z) (o : arr Z) : list Z :=
  match n with O => nil | S n' => aget o a :: out_bytes n' (a + 1) o end.
Definition compile (fuel : nat) (src sched : list Z) : outcome (list Z * list Z) :=
  match scc_main fuel (cc0 src sched) with
  | Ok (_, s) =>
      Ok (out_bytes (Z.to_nat (CodeAddress (em s) - BssSize (dc s) - CODESTART)) 0 (Output (em s)),
          rev (MapOut (dc s)))
  | Fatal => Fatal | UB => UB | OutOfFuel => OutOfFuel
  end.
End Stmt.
