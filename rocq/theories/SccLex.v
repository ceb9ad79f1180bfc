(** Model of the tokenizer of scc.c (lines 537-924) and of AddBuiltins
    (3389-3409).  Only definitions.
    [W] is the compiler's int width, [F] bounds the number of iterations of each
    unbounded loop (an exhausted bound is the distinct outcome OutOfFuel). *)
From Verif Require Import Base SccState SccEmit.

(** while-loops: [body x] either continues with a new loop state or exits *)
Fixpoint loopM {S X A} (n : nat) (body : X -> M S (X + A)) (x : X) : M S A :=
  match n with
  | O => nofuel
  | Datatypes.S n' =>
      let! r := body x in
      match r with inl x' => loopM n' body x' | inr a => ret a end
  end.

Section Lex.
Variable W : Z.
Variable F : nat.

(** ** Characters *)
(** CurChar = *InBufPtr++ *)
Definition rawnext : M lexst Z :=
  let! p := gets InBufPtr in
  let! c := gets (fun l => aget (InBuf l) p) in
  upd (set_InBufPtr (p + 1)) ;;
  upd (set_CurChar c) ;;
  ret c.

(** read(InFile, InBuf, INBUF_MAX) followed by *InBufEnd = 0 (scc.c:547-548): the
    environment returns between 1 and 512 bytes while any are left *)
Fixpoint store_bytes (b : arr Z) (i : Z) (bs : list Z) : arr Z :=
  match bs with
  | nil => aset b i 0
  | c :: r => store_bytes (aset b i (s8 c)) (i + 1) r
  end.
Definition read_size (sched : list Z) : Z :=
  match sched with nil => INBUF_MAX | k :: _ => Z.max 1 (Z.min k INBUF_MAX) end.
Definition read_file : M lexst Z :=
  let! f := gets File in
  let! sc := gets Sched in
  let k := Z.to_nat (read_size sc) in
  let bs := firstn k f in
  upd (set_File (skipn k f)) ;;
  upd (set_Sched (tl sc)) ;;
  upd (fun l => set_InBuf (store_bytes (InBuf l) 0 bs) l) ;;
  ret (Z.of_nat (length bs)).

(** scc.c:542-554 *)
Definition NextChar : M lexst unit :=
  let! c := rawnext in
  if negb (c =? 0) then ret tt else
  let! n := read_file in
  upd (set_InBufPtr 0) ;;
  if n =? 0 then upd (set_CurChar 0)
  else rawnext ;; ret tt.

(** --InBufPtr *)
Definition unread : M lexst unit := upd (fun l => set_InBufPtr (InBufPtr l - 1) l).

(** if (!(CurChar = *InBufPtr++)) { --InBufPtr; NextChar(); }  (scc.c:690-693, 715-718, 920-923) *)
Definition nextc : M lexst unit :=
  let! c := rawnext in
  if c =? 0 then unread ;; NextChar else ret tt.

Definition incLine : M lexst unit := upd (fun l => set_Line (Line l + 1) l).

(** the inner loop of SkipWhitespace, scc.c:560-576; true: end of input *)
Definition skip_blanks : M lexst bool :=
  loopM F (fun _ : unit =>
    let! c := rawnext in
    if ch_sp <? c then ret (inr false)
    else if c =? ch_nl then incLine ;; ret (inl tt)
    else if c =? 0 then
      unread ;; NextChar ;;
      let! c := gets CurChar in
      if c =? 0 then ret (inr true) else unread ;; ret (inl tt)
    else ret (inl tt)) tt.

(** SkipLine, scc.c:586-595; true: end of input *)
Definition skip_line : M lexst bool :=
  loopM F (fun _ : unit =>
    let! c := rawnext in
    if c =? ch_nl then ret (inr false)
    else if negb (c =? 0) then ret (inl tt)
    else
      unread ;; NextChar ;;
      let! c := gets CurChar in
      if c =? ch_nl then ret (inr false)
      else if c =? 0 then ret (inr true)
      else ret (inl tt)) tt.

(** the block comment loop, scc.c:601-608 *)
Definition skip_comment : M lexst unit :=
  loopM F (fun star : bool =>
    let! c := gets CurChar in
    if negb star || negb (c =? ch_slash) then
      when (c =? ch_nl) incLine ;;
      NextChar ;;
      let! c' := gets CurChar in
      failif (c' =? 0) ;;
      ret (inl (c =? ch_star))
    else ret (inr tt)) false.

(** scc.c:556-618; true: a '/' that starts no comment was consumed *)
Definition SkipWhitespace : M lexst bool :=
  loopM F (fun _ : unit =>
    let! c := gets CurChar in
    let! eof := (if c <=? ch_sp then skip_blanks else ret false) in
    if eof then ret (inr false) else
    let! c := gets CurChar in
    if ch_slash <? c then ret (inr false) else
    let skipline : M lexst (unit + bool) :=
      let! eof := skip_line in
      if eof then ret (inr false) else NextChar ;; incLine ;; ret (inl tt) in
    if c =? ch_slash then
      NextChar ;;
      let! c := gets CurChar in
      if c =? ch_slash then skipline
      else if c =? ch_star then
        NextChar ;; skip_comment ;; NextChar ;; ret (inl tt)
      else ret (inr true)
    else if c =? ch_hash then skipline
    else ret (inr false)) tt.

(** ** Numbers and characters *)
(** scc.c:620-632; unsigned arithmetic of width W *)
Fixpoint GetNum (Init Base : Z) (MaxLen : nat) : M lexst Z :=
  match MaxLen with
  | O => ret Init
  | S k =>
      let! c := gets CurChar in
      let d0 := wu W (c - ch_0) in
      let d := if 9 <? d0 then wu W (Z.land c 223 - (ch_A - 10)) else d0 in
      if Base <=? d then ret Init
      else NextChar ;; GetNum (wu W (Init * Base + d)) Base k
  end.

(** scc.c:634-649 *)
Definition Unescape : M lexst Z :=
  let! ch := gets CurChar in
  NextChar ;;
  if ch =? ch_n then ret ch_nl
  else if ch =? ch_r then ret ch_cr
  else if ch =? ch_t then ret ch_tab
  else if ch =? ch_quote then ret ch_quote
  else if ch =? ch_dquote then ret ch_dquote
  else if ch =? ch_bslash then ret ch_bslash
  else if ch =? ch_x then let! n := GetNum 0 16 2 in ret (s8 n)
  else
    let d := ch - ch_0 in
    failif ((d <? 0) || (7 <? d)) ;;
    let! n := GetNum d 8 2 in ret (s8 n).

(** ** String literals, scc.c:651-676 *)
Definition GetStringLiteral : M cc unit :=
  let! ca := gete CodeAddress in
  updl (set_TokenStrLit (ca + 64 - CODESTART)) ;;
  updl (set_TokenNumVal 0) ;;
  let put (ch : Z) : M cc unit :=
    let! p := getl TokenStrLit in
    let! n := getl TokenNumVal in
    updl (set_TokenNumVal (n + 1)) ;;
    inem (poke (CODESTART + p + n) ch) in
  loopM F (fun _ : unit =>
    loopM F (fun _ : unit =>
      let! c := getl CurChar in
      if c =? ch_dquote then ret (inr tt) else
      failif (c =? 0) ;;
      inlx NextChar ;;
      let! ch := (if c =? ch_bslash then inlx Unescape else ret c) in
      put ch ;;
      ret (inl tt)) tt ;;
    inlx NextChar ;;
    inlx SkipWhitespace ;;
    let! c := getl CurChar in
    if negb (c =? ch_dquote) then ret (inr tt)
    else inlx NextChar ;; ret (inl tt)) tt ;;
  put 0 ;;
  let! p := getl TokenStrLit in
  let! n := getl TokenNumVal in
  failif (OUTPUT_MAX <? p + n).

(** ** Identifiers *)
(** the bitmap IsIdChar, scc.c:678 *)
Definition IsIdChar_tab : list Z :=
  [0;0;0;0;0;0;255;3;254;255;255;135;254;255;255;7;0;0;0;0;0;0;0;0;0;0;0;0;0;0;0;0].
(** (IsIdChar[(unsigned char)CurChar>>3]>>(CurChar&7)) & 1, scc.c:713 *)
Definition IsIdChar (c : Z) : bool :=
  Z.testbit (nth (Z.to_nat (Z.shiftr (u8 c) 3)) IsIdChar_tab 0) (Z.land c 7).

Fixpoint list_eqb (a b : list Z) : bool :=
  match a, b with
  | nil, nil => true
  | x :: a', y :: b' => (x =? y) && list_eqb a' b'
  | _, _ => false
  end.

(** reading the spelling, scc.c:711-719; returns the reversed spelling and the hash.
    Bytes are stored at IdBufPtr onwards; past the end of IdBuffer is UB.
    (Simplification: IdText holds the spellings themselves instead of pointers
    into IdBuffer, and the memcmp of scc.c:732 is equality of spellings.) *)
Definition read_ident (c0 : Z) : M lexst (list Z * Z) :=
  let! base := gets IdBufPtr in
  loopM F (fun st : list Z * Z * Z =>
    let '(sp, len, h) := st in
    let! c := gets CurChar in
    if IsIdChar c then
      (if IDBUFFER_MAX <=? base + len then undef else ret tt) ;;
      nextc ;;
      ret (inl (c :: sp, len + 1, wu W (h + (Z.shiftl h 4 + c))))
    else
      (if IDBUFFER_MAX <=? base + len then undef else ret tt) ;;
      ret (inr (sp, h))) ([c0], 1, c0).

(** the look-up/insertion loop, scc.c:721-737; returns the id *)
Definition intern (sp : list Z) (h : Z) : M lexst Z :=
  loopM (Z.to_nat (ID_HASHMAX + 1)) (fun h : Z =>
    let h := Z.land h (ID_HASHMAX - 1) in
    let! t := gets (fun l => aget (IdHashTab l) h) in
    if t =? -1 then
      let! n := gets IdCount in
      failif (n =? ID_MAX) ;;
      upd (set_IdCount (n + 1)) ;;
      upd (fun l => set_IdHashTab (aset (IdHashTab l) h n) l) ;;
      upd (fun l => set_IdText (aset (IdText l) n sp) l) ;;
      upd (fun l => set_IdBufPtr (IdBufPtr l + Z.of_nat (length sp) + 1) l) ;;
      let! p := gets IdBufPtr in
      failif (IDBUFFER_MAX <? p) ;;
      ret (inr n)
    else
      let! txt := gets (fun l => aget (IdText l) t) in
      if list_eqb sp txt then ret (inr t) else ret (inl (wu W (h + 1)))) h.

(** scc.c:710-740 *)
Definition Identifier (c0 : Z) : M lexst unit :=
  (let! p := gets IdBufPtr in if IDBUFFER_MAX <=? p then undef else ret tt) ;;
  let! r := read_ident c0 in
  let '(sp, h) := r in
  let! id := intern (rev sp) h in
  upd (set_TokenType (id + TOK_KEYWORD)).

(** ** Operators and punctuation, scc.c:743-918; the result tells whether CurChar
       belongs to the token and is skipped (C: break, against return) *)
Definition op1 (prec : Z) : M lexst bool := upd (set_OperatorPrecedence prec) ;; ret false.
Definition op2 (tok prec : Z) : M lexst bool :=
  upd (set_TokenType tok) ;; upd (set_OperatorPrecedence prec) ;; ret true.
Definition op2k (tok : Z) : M lexst bool := upd (set_TokenType tok) ;; ret true.

(** scc.c:873-880 *)
Definition slash_op : M lexst bool :=
  let! c := gets CurChar in
  if c =? ch_eq then op2 TOK_SLASHEQ PREC_ASSIGN else op1 3.

Definition operator (t : Z) : M lexst bool :=
  let! c := gets CurChar in
  if (t =? ch_semi) || (t =? ch_lpar) || (t =? ch_rpar) || (t =? ch_lbrace) || (t =? ch_rbrace)
     || (t =? ch_lbrack) || (t =? ch_rbrack) || (t =? ch_colon) || (t =? ch_tilde) || (t =? 0)
  then ret false
  else if t =? ch_eq then
    if c =? ch_eq then op2 TOK_EQEQ 7 else op1 PREC_ASSIGN
  else if t =? ch_comma then op1 PREC_COMMA
  else if t =? ch_quest then op1 13
  else if t =? ch_bang then
    if negb (c =? ch_eq) then ret false else op2 TOK_NOTEQ 7
  else if t =? ch_lt then
    upd (set_OperatorPrecedence 6) ;;
    if c =? ch_eq then op2k TOK_LTEQ
    else if negb (c =? ch_lt) then ret false
    else
      NextChar ;;
      let! c := gets CurChar in
      if c =? ch_eq then op2 TOK_LSHEQ PREC_ASSIGN
      else upd (set_TokenType TOK_LSH) ;; op1 5
  else if t =? ch_gt then
    upd (set_OperatorPrecedence 6) ;;
    if c =? ch_eq then op2k TOK_GTEQ
    else if negb (c =? ch_gt) then ret false
    else
      NextChar ;;
      let! c := gets CurChar in
      if c =? ch_eq then op2 TOK_RSHEQ PREC_ASSIGN
      else upd (set_TokenType TOK_RSH) ;; op1 5
  else if t =? ch_amp then
    if c =? ch_amp then op2 TOK_ANDAND 11
    else if c =? ch_eq then op2 TOK_ANDEQ PREC_ASSIGN
    else op1 8
  else if t =? ch_bar then
    if c =? ch_bar then op2 TOK_OROR 12
    else if c =? ch_eq then op2 TOK_OREQ PREC_ASSIGN
    else op1 10
  else if t =? ch_caret then
    if c =? ch_eq then op2 TOK_XOREQ PREC_ASSIGN else op1 9
  else if t =? ch_plus then
    if c =? ch_plus then op2k TOK_PLUSPLUS
    else if c =? ch_eq then op2 TOK_PLUSEQ PREC_ASSIGN
    else op1 4
  else if t =? ch_minus then
    if c =? ch_minus then op2k TOK_MINUSMINUS
    else if c =? ch_gt then op2k TOK_ARROW
    else if c =? ch_eq then op2 TOK_MINUSEQ PREC_ASSIGN
    else op1 4
  else if t =? ch_star then
    if c =? ch_eq then op2 TOK_STAREQ PREC_ASSIGN else op1 3
  else if t =? ch_slash then slash_op
  else if t =? ch_percent then
    if c =? ch_eq then op2 TOK_MODEQ PREC_ASSIGN else op1 3
  else if t =? ch_dot then
    if negb (c =? ch_dot) then ret false
    else
      NextChar ;;
      let! c := gets CurChar in
      if negb (c =? ch_dot) then fatal else op2k TOK_ELLIPSIS
  else if t =? ch_quote then
    upd (set_TokenNumVal c) ;;
    NextChar ;;
    (if c =? ch_bslash then let! v := Unescape in upd (set_TokenNumVal v) else ret tt) ;;
    let! c := gets CurChar in
    failif (negb (c =? ch_quote)) ;;
    op2k TOK_NUM
  else fatal.

(** scc.c:698-709 *)
Definition Number (t : Z) : M lexst unit :=
  let v := t - ch_0 in
  upd (set_TokenNumVal v) ;;
  let! c := gets CurChar in
  let! base := (if v =? 0 then
                  if Z.land c 223 =? ch_X then NextChar ;; ret 16 else ret 8
                else ret 10) in
  let! n := GetNum (wu W v) base 8 in
  upd (set_TokenNumVal (ci W n)) ;;
  upd (set_TokenType TOK_NUM).

(** scc.c:680-924 *)
Definition GetToken : M cc unit :=
  let! c := getl CurChar in
  let! slash := (if c <=? ch_slash then inlx SkipWhitespace else ret false) in
  if slash then
    updl (set_TokenType ch_slash) ;;
    let! b := inlx slash_op in
    when b (inlx nextc)
  else
  let! t := getl CurChar in
  updl (set_TokenType t) ;;
  inlx nextc ;;
  updl (set_OperatorPrecedence PREC_STOP) ;;
  if (t <? ch_A) && (0 <=? t - ch_0) && (t - ch_0 <? 10) then inlx (Number t)
  else if (ch_A <=? t) && (Z.land t 223 <=? ch_Z) then inlx (Identifier t)
  else if t =? ch_under then inlx (Identifier t)
  else if t =? ch_dquote then GetStringLiteral ;; updl (set_TokenType TOK_STRLIT)
  else
    let! b := inlx (operator t) in
    when b (inlx nextc).

(** ** AddBuiltins, scc.c:3389-3409 *)
Definition hash_spelling (sp : list Z) : Z :=
  fold_left (fun h c => wu W (h + (Z.shiftl h 4 + c))) sp 0.
Definition add_builtin (sp : list Z) : M lexst unit :=
  let! n := gets IdCount in
  upd (fun l => set_IdText (aset (IdText l) n sp) l) ;;
  let! h := loopM (Z.to_nat (ID_HASHMAX + 1)) (fun h : Z =>
              let h := Z.land h (ID_HASHMAX - 1) in
              let! t := gets (fun l => aget (IdHashTab l) h) in
              if negb (t =? -1) then ret (inl (wu W (h + 1))) else ret (inr h)) (hash_spelling sp) in
  upd (fun l => set_IdHashTab (aset (IdHashTab l) h n) l) ;;
  upd (set_IdCount (n + 1)).
Fixpoint add_builtins (l : list (list Z)) : M lexst unit :=
  match l with nil => ret tt | sp :: r => add_builtin sp ;; add_builtins r end.
End Lex.

(** the keyword spellings, scc.c:3391-3397 *)
From Coq Require Import String Ascii.
Definition bytes_of (s : string) : list Z :=
  map (fun a => Z.of_N (N_of_ascii a)) (list_ascii_of_string s).
Definition builtin_names : list string :=
  ["auto";"break";"case";"char";"const";"continue";"default";"do";"double";
   "else";"enum";"extern";"float";"for";"goto";"if";"int";"long";
   "register";"return";"short";"signed";"sizeof";"static";"struct";
   "switch";"typedef";"union";"unsigned";"void";"volatile";"while";
   "va_list";"va_start";"va_end";"va_arg";"_emit";"_start";"_SBSS";"_EBSS"]%string.
Definition builtins : list (list Z) := map bytes_of builtin_names.
Definition AddBuiltins (W : Z) : M lexst unit :=
  add_builtins W builtins ;;
  let! n := gets IdCount in
  failif (negb (n =? TOK__EBSS - TOK_KEYWORD + 1)).
