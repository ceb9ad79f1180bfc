(** Model of the preprocessor /repo/scpp.c, from characters to the output text.

    Conventions.
    - The input of a file is the list of its characters from CurrentChar on, as signed 8-bit
      values; CurrentChar is its head, 0 at the end.  Files contain no NUL.  The buffers of
      ReadChar (scpp.c:457-472) and OutputStr (scpp.c:1469-1480) are modelled in SppIn.v and
      SppOut.v; here characters arrive one by one and the output is a list.
    - W is the width of int.  Arithmetic wraps around to W bits; division by zero is UB.
    - The text of a token is a pointer into TokenData or StrBuf, or to a constant string, or to
      an Argument.  A pointer to a TokenList, Argument or Macro is its index, -1 if null.
    - assert, exit(1) and messages "TODO" are the outcome Fatal, writing past the end of
      TokenData or reading through a pointer that is not valid is UB.
    - A loop that does not end is OutOfFuel for every fuel. *)
From Coq Require Import ZArith List Bool Lia String.
From Verif Require Import Base.
From Verif Require SccState SccLex.
Import ListNotations.
Open Scope Z_scope.
Notation length := List.length.
Notation M := SccState.M.
Notation ret := SccState.ret.
Notation bind := SccState.bind.
Notation fatal := SccState.fatal.
Notation undef := SccState.undef.
Notation nofuel := SccState.nofuel.
Notation gets := SccState.gets.
Notation upd := SccState.upd.
Notation when := SccState.when.
Declare Scope p_scope.
Delimit Scope p_scope with p.
Notation "'let!' x := m 'in' f" := (bind m (fun x => f)) (at level 200, x binder, m at level 100, f at level 200) : p_scope.
Notation "m ;; f" := (bind m (fun _ => f)) (at level 60, right associativity) : p_scope.
Open Scope p_scope.

(** scpp.c:286-298 *)
Definition ID_MAX := 32.
Definition ID_HASH_MAX := 128.
Definition TOKEN_DATA_MAX := 2048.
Definition MAX_NEST := 10.
Definition COND_MAX := 16.
Definition TOKEN_LIST_MAX := 128.
Definition TOKEN_QUEUE_MAX := 16.
Definition ARGUMENT_MAX := 32.
Definition FILES_MAX := 4.
(** scpp.c:311-350 *)
Definition TOK_EOF := 0.
Definition TOK_WHITESPACE := 1.
Definition TOK_NEWLINE := 2.
Definition TOK_NUM := 3.
Definition TOK_CHARLIT := 4.
Definition TOK_STRLIT := 5.
Definition TOK_INVALID_LIT := 6.
Definition TOK_ARG := 7.
Definition TOK_CREATED_OP := 128.
Definition TOK_HASHHASH := 129.
Definition TOK_LTEQ := 130.
Definition TOK_GTEQ := 131.
Definition TOK_EQEQ := 132.
Definition TOK_NOTEQ := 133.
Definition TOK_ANDAND := 134.
Definition TOK_OROR := 135.
Definition TOK_RAW_ID := 256.
Definition TOK_DEFINE := 257.
Definition TOK_UNDEF := 258.
Definition TOK_IF := 259.
Definition TOK_IFDEF := 260.
Definition TOK_IFNDEF := 261.
Definition TOK_ELIF := 262.
Definition TOK_ELSE := 263.
Definition TOK_ENDIF := 264.
Definition TOK_INCLUDE := 265.
Definition TOK_LINE := 266.
Definition TOK_ERROR := 267.
Definition TOK_PRAGMA := 268.
Definition TOK_DEFINED := 269.
Definition TOK___FILE__ := 270.
Definition TOK___LINE__ := 271.
Definition TOK___SCC__ := 272.
Definition TOK_ID := TOK_DEFINE.
Definition TOK_USER_ID := 273.
Definition MACRO_MAX := 16.   (* ID_MAX-(TOK_USER_ID-TOK_ID), scpp.c:404 *)

(** * State, scpp.c:352-425 *)
Inductive ptr :=
| PNull                    (* not initialised *)
| PTok (p : Z)             (* &TokenData[p] *)
| PStr (l : list Z)        (* a string constant, or the name of a file *)
| PBuf                     (* StrBuf *)
| PArg (a : Z).            (* &Argument[a] *)
Record token := mktok { t_type : Z; t_text : ptr }.
(** struct TokenList; next is an index or -1 *)
Record elem := mkelem { e_tok : token; e_next : Z }.
(** struct Argument *)
Record argument := mkarg { a_id : Z; a_next : Z; a_repl : Z }.
(** M->Arguments: null, (struct Argument* )1, or an index *)
Inductive arglist := ANone | AEmpty | AFirst (a : Z).
Record macro := mkmac { m_args : arglist; m_repl : Z; m_hide : Z }.
(** ReplaceStack[]; M is an index or -1 *)
Record frame := mkframe { f_mac : Z; f_list : Z; f_stop : bool }.
(** a file that includes another: its characters, LastChar first, its name, and OldLine *)
Record file := mkfile { fi_name : list Z; fi_rest : list Z; fi_line : Z }.
Record st := mkst {
  inp : list Z;             (* CurrentChar and what follows *)
  line : Z;
  cfile : list Z * Z;       (* CurFile: Filename and OldLine *)
  files : list file;        (* the files that include CurFile, innermost first *)
  data : arr Z;             (* TokenData *)
  pos : Z;                  (* TokenDataPos *)
  npos : Z;                 (* NextTokenDataPos *)
  sbuf : list Z;            (* StrBuf *)
  ids : list ptr;           (* IdText *)
  hash : arr Z;             (* IdHash, 0xffff.. as -1 *)
  tok : token;              (* CurTok *)
  chash : Z;                (* CurHash *)
  queue : list token;       (* TokenQueue *)
  pool : arr elem;          (* TokenListElems *)
  free : Z;                 (* NextFreeTokenList *)
  args : arr argument;      (* Argument *)
  nargs : Z;                (* ArgumentCount *)
  macs : arr macro;         (* Macros *)
  stack : list frame;       (* ReplaceStack, innermost first *)
  conds : list Z;           (* CondState, innermost first *)
  outp : list (list Z)      (* the strings put out, last first *)
}.
Definition set_inp s x := mkst x (line s) (cfile s) (files s) (data s) (pos s) (npos s) (sbuf s) (ids s) (hash s) (tok s) (chash s) (queue s) (pool s) (free s) (args s) (nargs s) (macs s) (stack s) (conds s) (outp s).
Definition set_line s x := mkst (inp s) x (cfile s) (files s) (data s) (pos s) (npos s) (sbuf s) (ids s) (hash s) (tok s) (chash s) (queue s) (pool s) (free s) (args s) (nargs s) (macs s) (stack s) (conds s) (outp s).
Definition set_file s x y := mkst (inp s) (line s) x y (data s) (pos s) (npos s) (sbuf s) (ids s) (hash s) (tok s) (chash s) (queue s) (pool s) (free s) (args s) (nargs s) (macs s) (stack s) (conds s) (outp s).
Definition set_data s d p := mkst (inp s) (line s) (cfile s) (files s) d p (npos s) (sbuf s) (ids s) (hash s) (tok s) (chash s) (queue s) (pool s) (free s) (args s) (nargs s) (macs s) (stack s) (conds s) (outp s).
Definition set_npos s x := mkst (inp s) (line s) (cfile s) (files s) (data s) (pos s) x (sbuf s) (ids s) (hash s) (tok s) (chash s) (queue s) (pool s) (free s) (args s) (nargs s) (macs s) (stack s) (conds s) (outp s).
Definition set_sbuf s x := mkst (inp s) (line s) (cfile s) (files s) (data s) (pos s) (npos s) x (ids s) (hash s) (tok s) (chash s) (queue s) (pool s) (free s) (args s) (nargs s) (macs s) (stack s) (conds s) (outp s).
Definition set_ids s x h := mkst (inp s) (line s) (cfile s) (files s) (data s) (pos s) (npos s) (sbuf s) x h (tok s) (chash s) (queue s) (pool s) (free s) (args s) (nargs s) (macs s) (stack s) (conds s) (outp s).
Definition set_tok s x := mkst (inp s) (line s) (cfile s) (files s) (data s) (pos s) (npos s) (sbuf s) (ids s) (hash s) x (chash s) (queue s) (pool s) (free s) (args s) (nargs s) (macs s) (stack s) (conds s) (outp s).
Definition set_chash s x := mkst (inp s) (line s) (cfile s) (files s) (data s) (pos s) (npos s) (sbuf s) (ids s) (hash s) (tok s) x (queue s) (pool s) (free s) (args s) (nargs s) (macs s) (stack s) (conds s) (outp s).
Definition set_queue s x := mkst (inp s) (line s) (cfile s) (files s) (data s) (pos s) (npos s) (sbuf s) (ids s) (hash s) (tok s) (chash s) x (pool s) (free s) (args s) (nargs s) (macs s) (stack s) (conds s) (outp s).
Definition set_pool s x f := mkst (inp s) (line s) (cfile s) (files s) (data s) (pos s) (npos s) (sbuf s) (ids s) (hash s) (tok s) (chash s) (queue s) x f (args s) (nargs s) (macs s) (stack s) (conds s) (outp s).
Definition set_args s x n := mkst (inp s) (line s) (cfile s) (files s) (data s) (pos s) (npos s) (sbuf s) (ids s) (hash s) (tok s) (chash s) (queue s) (pool s) (free s) x n (macs s) (stack s) (conds s) (outp s).
Definition set_macs s x := mkst (inp s) (line s) (cfile s) (files s) (data s) (pos s) (npos s) (sbuf s) (ids s) (hash s) (tok s) (chash s) (queue s) (pool s) (free s) (args s) (nargs s) x (stack s) (conds s) (outp s).
Definition set_stack s x := mkst (inp s) (line s) (cfile s) (files s) (data s) (pos s) (npos s) (sbuf s) (ids s) (hash s) (tok s) (chash s) (queue s) (pool s) (free s) (args s) (nargs s) (macs s) x (conds s) (outp s).
Definition set_conds s x := mkst (inp s) (line s) (cfile s) (files s) (data s) (pos s) (npos s) (sbuf s) (ids s) (hash s) (tok s) (chash s) (queue s) (pool s) (free s) (args s) (nargs s) (macs s) (stack s) x (outp s).
Definition set_outp s x := mkst (inp s) (line s) (cfile s) (files s) (data s) (pos s) (npos s) (sbuf s) (ids s) (hash s) (tok s) (chash s) (queue s) (pool s) (free s) (args s) (nargs s) (macs s) (stack s) (conds s) x.

Definition assert (b : bool) : M st unit := if b then ret tt else fatal.
Definition cur (l : list Z) : Z := hd 0 l.
(** CurTok.Type = t; CurTok.Text = p *)
Definition set_type (t : Z) : M st unit := upd (fun s => set_tok s (mktok t (t_text (tok s)))).

(** * Characters *)
(** IsIdChar[], scpp.c:580 *)
Definition IsIdChar (c : Z) : bool := ((48 <=? c) && (c <=? 57)) || ((65 <=? c) && (c <=? 90)) || ((97 <=? c) && (c <=? 122)) || (c =? 95).
(** scpp.c:457-472 *)
Definition ReadChar : M st unit :=
  upd (fun s => set_inp (if cur (inp s) =? 10 then set_line s (line s + 1) else s) (tl (inp s))).
(** TokenData[TokenDataPos++] = c *)
Definition put_char (c : Z) : M st unit :=
  let! s := gets (fun s => s) in
  if pos s <? TOKEN_DATA_MAX then upd (fun s => set_data s (aset (data s) (pos s) c) (pos s + 1)) else undef.
(** scpp.c:474-482; the character is not a newline *)
Definition ReadToTokenData : M st unit :=
  let! s := gets (fun s => s) in
  assert (pos s <? TOKEN_DATA_MAX);; put_char (cur (inp s));; ReadChar.
(** scpp.c:484-492 *)
Definition TryExtendOp (ch t : Z) : M st unit :=
  let! c := gets (fun s => cur (inp s)) in
  when (c =? ch) (ReadToTokenData;; set_type t).

(** the string at p *)
Fixpoint cstr (n : nat) (d : arr Z) (p : Z) : outcome (list Z) :=
  match n with
  | O => UB
  | S n => let c := aget d p in if c =? 0 then Ok [] else obind (cstr n d (p + 1)) (fun l => Ok (c :: l))
  end.
Definition str_at (s : st) (p : ptr) : outcome (list Z) :=
  match p with
  | PNull => UB
  | PTok q => if (0 <=? q) && (q <? TOKEN_DATA_MAX) then cstr (Z.to_nat (TOKEN_DATA_MAX - q)) (data s) q else UB
  | PStr l => Ok l
  | PBuf => Ok (sbuf s)
  | PArg _ => UB
  end.
Definition str (p : ptr) : M st (list Z) :=
  fun s => match str_at s p with Ok l => Ok (l, s) | Fatal => Fatal | UB => UB | OutOfFuel => OutOfFuel end.

(** * The pool of tokens *)
(** a place that holds a pointer to a TokenList: struct TokenList** *)
Inductive place := LMacro (i : Z) | LArg (i : Z) | LNext (e : Z).
Definition store (L : place) (v : Z) : M st unit :=
  match L with
  | LMacro i => upd (fun s => let m := aget (macs s) i in set_macs s (aset (macs s) i (mkmac (m_args m) v (m_hide m))))
  | LArg i => upd (fun s => let a := aget (args s) i in set_args s (aset (args s) i (mkarg (a_id a) (a_next a) v)) (nargs s))
  | LNext e => upd (fun s => let x := aget (pool s) e in set_pool s (aset (pool s) e (mkelem (e_tok x) v)) (free s))
  end.
(** scpp.c:494-503 *)
Definition AddToken (L : place) (t : token) : M st place :=
  let! e := gets free in
  assert (negb (e =? -1));;
  upd (fun s => set_pool s (aset (pool s) e (mkelem (e_tok (aget (pool s) e)) (-1))) (e_next (aget (pool s) e)));;
  store L e;;
  upd (fun s => set_pool s (aset (pool s) e (mkelem t (e_next (aget (pool s) e)))) (free s));;
  ret (LNext e).
(** scpp.c:505-517 *)
Fixpoint free_loop (fuel : nat) (e last : Z) : M st unit :=
  match fuel with
  | O => nofuel
  | S fuel =>
      let! n := gets (fun s => e_next (aget (pool s) e)) in
      if n =? -1 then store (LNext e) last else free_loop fuel n last
  end.
Definition FreeTokenList (e : Z) : M st unit :=
  if e =? -1 then ret tt
  else
    let! last := gets free in
    upd (fun s => set_pool s (pool s) e);;
    free_loop (Z.to_nat 200) e last.
(** scpp.c:519-528 *)
Fixpoint SkipWsNL (fuel : nat) (e : Z) : M st Z :=
  match fuel with
  | O => nofuel
  | S fuel =>
      if e =? -1 then ret e
      else
        let! x := gets (fun s => aget (pool s) e) in
        let t := t_type (e_tok x) in
        if negb (t =? TOK_WHITESPACE) && negb (t =? TOK_NEWLINE) then ret e else SkipWsNL fuel (e_next x)
  end.
(** scpp.c:530-539 *)
Fixpoint free_args (fuel : nat) (a : Z) : M st unit :=
  match fuel with
  | O => nofuel
  | S fuel =>
      if a =? -1 then ret tt
      else
        let! x := gets (fun s => aget (args s) a) in
        FreeTokenList (a_repl x);; store (LArg a) (-1);; free_args fuel (a_next x)
  end.
Definition FreeArgs (l : arglist) : M st unit :=
  match l with ANone | AEmpty => ret tt | AFirst a => free_args (Z.to_nat 40) a end.
(** scpp.c:541-545 *)
Definition TokenQueuePush (t : token) : M st unit :=
  let! q := gets queue in
  assert (Z.of_nat (length q) <? TOKEN_QUEUE_MAX);; upd (fun s => set_queue s (queue s ++ [t])).
(** scpp.c:547-557; None: a null pointer *)
Fixpoint SimpleExpand (fuel : nat) (t : token) : M st (option token) :=
  match fuel with
  | O => nofuel
  | S fuel =>
      if negb (t_type t =? TOK_ARG) then ret (Some t)
      else match t_text t with
           | PArg a =>
               let! r := gets (fun s => a_repl (aget (args s) a)) in
               if r =? -1 then ret None
               else
                 let! x := gets (fun s => aget (pool s) r) in
                 assert (e_next x =? -1);; SimpleExpand fuel (e_tok x)
           | _ => undef
           end
  end.
Fixpoint put_chars (l : list Z) : M st unit := match l with [] => ret tt | c :: l => put_char c;; put_chars l end.
(** scpp.c:561-578 *)
Definition PasteAppend (fuel : nat) (t : token) : M st unit :=
  let! c := gets tok in
  let! c' := SimpleExpand fuel c in
  match c' with
  | None => undef
  | Some c' =>
      upd (fun s => set_tok s c');;
      let! t' := SimpleExpand fuel t in
      let! l2 := (match t' with Some t' => str (t_text t') | None => ret [] end) in
      let! l1 := str (t_text c') in
      let! p := gets pos in
      assert (p + Z.of_nat (length l1) + (Z.of_nat (length l2) + 1) <? TOKEN_DATA_MAX);;
      put_chars (l1 ++ l2 ++ [0]);;
      upd (fun s => set_tok s (mktok (if (32 <? t_type c') && (t_type c' <? TOK_RAW_ID) then TOK_CREATED_OP else t_type c') (PTok p)))
  end.

(** * Tokens *)
(** the replacement being read, scpp.c:584-619: Some tt when a token was found *)
Fixpoint paste_loop (fuel : nat) (e : Z) : M st unit :=
  match fuel with
  | O => nofuel
  | S fuel =>
      if e =? -1 then ret tt
      else
        let! x := gets (fun s => aget (pool s) e) in
        if negb (t_type (e_tok x) =? TOK_HASHHASH) then ret tt
        else
          let! e1 := SkipWsNL fuel (e_next x) in
          assert (negb (e1 =? -1));;
          let! x1 := gets (fun s => aget (pool s) e1) in
          PasteAppend fuel (e_tok x1);;
          let! e2 := SkipWsNL fuel (e_next x1) in
          upd (fun s => set_stack s (match stack s with f :: r => mkframe (f_mac f) e2 (f_stop f) :: r | [] => [] end));;
          paste_loop fuel e2
  end.
Fixpoint raw_stack (fuel : nat) : M st bool :=
  match fuel with
  | O => nofuel
  | S fuel =>
      let! s := gets (fun s => s) in
      match stack s with
      | [] => ret false
      | f :: r =>
          assert ((f_mac f =? -1) || (m_hide (aget (macs s) (f_mac f)) =? 1));;
          if negb (f_list f =? -1) then
            let x := aget (pool s) (f_list f) in
            upd (fun s => set_stack (set_tok s (e_tok x)) (mkframe (f_mac f) (e_next x) (f_stop f) :: r));;
            let! e := SkipWsNL fuel (e_next x) in
            paste_loop fuel e;;
            upd (fun s => set_chash s ID_HASH_MAX);;
            ret true
          else
            (if f_mac f =? -1 then ret tt
             else upd (fun s => let m := aget (macs s) (f_mac f) in set_macs s (aset (macs s) (f_mac f) (mkmac (m_args m) (m_repl m) 0)));;
                  FreeArgs (m_args (aget (macs s) (f_mac f))));;
            upd (fun s => set_stack s r);;
            if f_stop f then set_type TOK_EOF;; ret true
            else raw_stack fuel
      end
  end.
(** scpp.c:637-643 *)
Fixpoint line_comment (fuel : nat) : M st unit :=
  match fuel with
  | O => nofuel
  | S fuel =>
      ReadChar;;
      let! c := gets (fun s => cur (inp s)) in
      if (c =? 0) || (c =? 10) then ret tt else line_comment fuel
  end.
(** scpp.c:646-650 *)
Fixpoint block_comment (fuel : nat) (star : bool) : M st unit :=
  match fuel with
  | O => nofuel
  | S fuel =>
      let! c := gets (fun s => cur (inp s)) in
      if negb (c =? 0) && (negb star || negb (c =? 47)) then ReadChar;; block_comment fuel (c =? 42) else ret tt
  end.
(** scpp.c:676-686; false: the literal is not terminated *)
Fixpoint literal (fuel : nat) (q : Z) (esc : bool) : M st bool :=
  match fuel with
  | O => nofuel
  | S fuel =>
      let! c := gets (fun s => cur (inp s)) in
      if esc || negb (c =? q) then
        if (c =? 0) || (c =? 10) then ret false
        else ReadToTokenData;; literal fuel q (if c =? 92 then negb esc else false)
      else ret true
  end.
(** scpp.c:707-713 *)
Fixpoint spaces (fuel : nat) : M st unit :=
  match fuel with
  | O => nofuel
  | S fuel =>
      let! c := gets (fun s => cur (inp s)) in
      if (c =? 0) || (32 <? c) || (c =? 10) then ret tt else ReadChar;; spaces fuel
  end.
(** scpp.c:723-728 *)
Fixpoint id_rest (fuel : nat) : M st unit :=
  match fuel with
  | O => nofuel
  | S fuel =>
      let! c := gets (fun s => cur (inp s)) in
      if IsIdChar c then put_char c;; ReadChar;; id_rest fuel else ret tt
  end.
(** unsigned arithmetic; the hash is reduced to 7 bits in the end, so its width does not matter *)
Definition hash_step (h c : Z) : Z := (h + 16 * h + c) mod ID_HASH_MAX.
(** scpp.c:735-741 *)
Fixpoint ident (fuel : nat) (h : Z) : M st unit :=
  match fuel with
  | O => nofuel
  | S fuel =>
      let! c := gets (fun s => cur (inp s)) in
      put_char c;; ReadChar;;
      let h := hash_step h c in
      let! d := gets (fun s => cur (inp s)) in
      if IsIdChar d then ident fuel h else upd (fun s => set_chash s h)
  end.
(** scpp.c:795-797 *)
Definition end_text : M st unit :=
  let! p := gets pos in
  assert (p <? TOKEN_DATA_MAX);; put_char 0.
Definition ops1 : list Z := [42; 47; 37; 43; 45; 94; 40; 41; 63; 58; 44; 59; 123; 125; 91; 93; 46; 126].
(** scpp.c:745-794 *)
Definition operator (c : Z) : M st unit :=
  set_type c;; ReadToTokenData;;
  (if c =? 35 then TryExtendOp 35 TOK_HASHHASH
   else if c =? 61 then TryExtendOp 61 TOK_EQEQ
   else if c =? 33 then TryExtendOp 61 TOK_NOTEQ
   else if c =? 60 then TryExtendOp 61 TOK_LTEQ
   else if c =? 62 then TryExtendOp 61 TOK_GTEQ
   else if c =? 38 then TryExtendOp 38 TOK_ANDAND
   else if c =? 124 then TryExtendOp 124 TOK_OROR
   else if existsb (Z.eqb c) ops1 then ret tt
   else fatal);;
  end_text.
(** from Restart on, scpp.c:627-797 *)
Fixpoint raw_file (fuel : nat) : M st unit :=
  match fuel with
  | O => nofuel
  | S fuel =>
      upd (fun s => set_tok (set_data s (data s) (npos s)) (mktok (t_type (tok s)) (PTok (npos s))));;
      let! c := gets (fun s => cur (inp s)) in
      if c =? 10 then set_type TOK_NEWLINE;; ReadChar
      else if c =? 47 then
        ReadChar;;
        let! d := gets (fun s => cur (inp s)) in
        if d =? 47 then line_comment fuel;; raw_file fuel
        else if d =? 42 then ReadChar;; block_comment fuel false;; ReadChar;; raw_file fuel
        else
          set_type 47;;
          (let! p := gets pos in assert (p <? TOKEN_DATA_MAX));;
          put_char 47;; end_text
      else if c =? 92 then
        set_type c;; ReadToTokenData;;
        let! d := gets (fun s => cur (inp s)) in
        (if d =? 13 then ReadChar;; let! e := gets (fun s => cur (inp s)) in assert (e =? 10) else ret tt);;
        let! d := gets (fun s => cur (inp s)) in
        if negb (d =? 10) then end_text else ReadChar;; raw_file fuel
      else if (c =? 34) || (c =? 39) then
        ReadChar;;
        set_type (if c =? 34 then TOK_STRLIT else TOK_CHARLIT);;
        let! ok := literal fuel c false in
        (if ok then ReadChar else set_type TOK_INVALID_LIT);;
        end_text
      else if c =? 0 then
        let! t := gets (fun s => t_type (tok s)) in
        set_type (if t =? TOK_EOF then TOK_NEWLINE else TOK_EOF)
      else if c =? 95 then set_type TOK_RAW_ID;; ident fuel 0;; end_text
      else if c <=? 32 then
        set_type TOK_WHITESPACE;; ReadChar;; spaces fuel
      else if c <? 65 then
        if (48 <=? c) && (c <=? 57) then
          set_type TOK_NUM;; ReadToTokenData;;
          let! d := gets (fun s => cur (inp s)) in
          when ((d =? 120) || (d =? 88)) ReadToTokenData;;
          id_rest fuel;; end_text
        else operator c
      else if Z.land c 0xDF <=? 90 then set_type TOK_RAW_ID;; ident fuel 0;; end_text
      else operator c
  end.
(** scpp.c:582-798 *)
Definition RawGetToken (fuel : nat) : M st unit :=
  let! found := raw_stack fuel in
  if found then ret tt
  else
    let! q := gets queue in
    match q with
    | t :: q => upd (fun s => set_chash (set_tok (set_queue s q) t) ID_HASH_MAX)
    | [] => raw_file fuel
    end.

(** * Identifiers *)
Definition hash_str (l : list Z) : Z := fold_left hash_step l 0.
(** the first free slot from h on, scpp.c:833-834 *)
Fixpoint free_slot (fuel : nat) (h : arr Z) (k : Z) : outcome Z :=
  match fuel with
  | O => OutOfFuel
  | S fuel => let k := k mod ID_HASH_MAX in
      let v := aget h k in if (0 <=? v) && (v <? ID_MAX) then free_slot fuel h (k + 1) else Ok k
  end.
Definition lift {A} (x : outcome A) : M st A :=
  fun s => match x with Ok a => Ok (a, s) | Fatal => Fatal | UB => UB | OutOfFuel => OutOfFuel end.
(** scpp.c:825-837 *)
Definition AddId (p : ptr) : M st Z :=
  let! n := gets (fun s => Z.of_nat (length (ids s))) in
  assert (n <? ID_MAX);;
  let! l := str p in
  let! h := gets hash in
  let! k := lift (free_slot (Z.to_nat 130) h (hash_str l)) in
  upd (fun s => set_ids s (ids s ++ [p]) (aset (hash s) k n));;
  ret n.
Fixpoint leq (a b : list Z) : bool :=
  match a, b with
  | [], [] => true
  | x :: a, y :: b => (x =? y) && leq a b
  | _, _ => false
  end.
(** scpp.c:850-860 *)
Fixpoint find_id (fuel : nat) (l : list Z) : M st unit :=
  match fuel with
  | O => nofuel
  | S fuel =>
      let! s := gets (fun s => s) in
      let id := aget (hash s) (chash s) in
      if negb ((0 <=? id) && (id <? ID_MAX)) then ret tt
      else
        let! t := str (nth (Z.to_nat id) (ids s) PNull) in
        if leq l t then set_type (TOK_ID + id)
        else upd (fun s => set_chash s ((chash s + 1) mod ID_HASH_MAX));; find_id fuel l
  end.
(** scpp.c:839-861 *)
Definition ReplaceId : M st unit :=
  let! t := gets tok in
  assert (t_type t =? TOK_RAW_ID);;
  let! l := str (t_text t) in
  let! h := gets chash in
  when (h =? ID_HASH_MAX) (upd (fun s => set_chash s (hash_str l)));;
  find_id (Z.to_nat 130) l.
(** scpp.c:863-867 *)
Fixpoint RawSkipWS (fuel : nat) : M st unit :=
  match fuel with
  | O => nofuel
  | S fuel =>
      let! t := gets (fun s => t_type (tok s)) in
      if t =? TOK_WHITESPACE then RawGetToken fuel;; RawSkipWS fuel else ret tt
  end.
Definition push_frame (m l : Z) (stop : bool) : M st unit :=
  let! n := gets (fun s => Z.of_nat (length (stack s))) in
  assert (n <? MAX_NEST);; upd (fun s => set_stack s (mkframe m l stop :: stack s)).
(** scpp.c:871-881 *)
Definition PushHandleArg (a : Z) : M st unit :=
  let! r := gets (fun s => a_repl (aget (args s) a)) in push_frame (-1) r false.
(** scpp.c:883-902; the argument of that name in a list *)
Fixpoint find_arg (fuel : nat) (a id : Z) : M st (option Z) :=
  match fuel with
  | O => nofuel
  | S fuel =>
      if a =? -1 then ret None
      else
        let! x := gets (fun s => aget (args s) a) in
        if a_id x =? id then ret (Some a) else find_arg fuel (a_next x) id
  end.
Definition find_in (l : arglist) (id : Z) : M st (option Z) :=
  match l with ANone => ret None | AEmpty => undef | AFirst a => find_arg (Z.to_nat 40) a id end.
Definition GetArg (id : Z) : M st (option Z) :=
  let! s := gets (fun s => s) in
  match stack s with
  | f :: _ => if f_mac f =? -1 then ret None else find_in (m_args (aget (macs s) (f_mac f))) id
  | [] => ret None
  end.
Definition set_hide (m h : Z) : M st unit :=
  upd (fun s => let x := aget (macs s) m in set_macs s (aset (macs s) m (mkmac (m_args x) (m_repl x) h))).
(** the decimal digits of Line, sprintf *)
Fixpoint dec_digits (fuel : nat) (n : Z) (acc : list Z) : list Z :=
  match fuel with
  | O => acc
  | S fuel => let acc := (48 + n mod 10) :: acc in if n <? 10 then acc else dec_digits fuel (n / 10) acc
  end.
Fixpoint poke (d : arr Z) (p : Z) (l : list Z) : arr Z := match l with [] => d | c :: l => poke (aset d p c) (p + 1) l end.

(** one argument of a call, scpp.c:986-1008; the place where the next token goes *)
Fixpoint one_arg (fuel : nat) (L : place) (nest pend : Z) : M st place :=
  match fuel with
  | O => nofuel
  | S fuel =>
      let! t := gets tok in
      let ty := t_type t in
      if (ty =? TOK_WHITESPACE) || (ty =? TOK_NEWLINE) then
        RawGetToken fuel;; one_arg fuel L nest (if pend =? 0 then 1 else pend)
      else if ((ty =? 41) && (nest =? 0)) then ret L
      else
        let nest' := if ty =? 40 then nest + 1 else if ty =? 41 then nest - 1 else nest in
        if negb (ty =? 40) && negb (ty =? 41) && ((ty =? 0) || ((nest =? 0) && (ty =? 44))) then ret L
        else
          let! L := (if pend =? 1 then AddToken L (mktok TOK_WHITESPACE PNull) else ret L) in
          let! L := AddToken L t in
          let! s := gets (fun s => s) in
          assert (npos s <=? pos s);;
          upd (fun s => set_npos s (pos s));;
          RawGetToken fuel;; one_arg fuel L nest' 0
  end.
(** scpp.c:983-1014 *)
Fixpoint call_args (fuel : nat) (a : Z) : M st unit :=
  match fuel with
  | O => nofuel
  | S fuel =>
      if a =? -1 then let! t := gets (fun s => t_type (tok s)) in assert (t =? 41)
      else
        let! L := one_arg fuel (LArg a) 0 (-1) in
        store L (-1);;
        let! nx := gets (fun s => a_next (aget (args s) a)) in
        let! t := gets (fun s => t_type (tok s)) in
        if negb (t =? 44) then assert ((nx =? -1) && (t =? 41))
        else RawGetToken fuel;; call_args fuel nx
  end.
(** scpp.c:904-1029 and 1033-1078 *)
Fixpoint GetToken (fuel : nat) : M st unit :=
  match fuel with
  | O => nofuel
  | S fuel =>
      RawGetToken fuel;;
      let! t := gets tok in
      if t_type t =? 35 then
        let! sk := gets stack in
        match sk with
        | [] => ret tt
        | _ =>
            RawGetToken fuel;; RawSkipWS fuel;;
            let! t := gets tok in
            assert (t_type t =? TOK_ARG);;
            match t_text t with
            | PArg a => let! r := gets (fun s => a_repl (aget (args s) a)) in Stringify fuel r 0 false []
            | _ => undef
            end
        end
      else if t_type t =? TOK_ARG then
        match t_text t with PArg a => PushHandleArg a;; GetToken fuel | _ => undef end
      else if negb (t_type t =? TOK_RAW_ID) then ret tt
      else
        ReplaceId;;
        let! id := gets (fun s => t_type (tok s)) in
        if id <? TOK_USER_ID then
          if TOK_DEFINED <? id then
            if id =? TOK___LINE__ then
              let! s := gets (fun s => s) in
              if TOKEN_DATA_MAX <? npos s + Z.of_nat (length (dec_digits 12 (line s) [])) + 1 then undef else
              upd (fun s => let l := dec_digits 12 (line s) [] in
                            set_npos (set_tok (set_data s (poke (data s) (npos s) (l ++ [0])) (pos s)) (mktok TOK_NUM (PTok (npos s))))
                                     (npos s + Z.of_nat (length l) + 1))
            else if id =? TOK___FILE__ then upd (fun s => set_tok s (mktok TOK_STRLIT (PStr (fst (cfile s)))))
            else upd (fun s => set_tok s (mktok TOK_NUM (PStr [49])))
          else ret tt
        else
          let! a := GetArg id in
          match a with
          | Some a => PushHandleArg a;; GetToken fuel
          | None =>
              let mi := id - TOK_USER_ID in
              let! m := gets (fun s => aget (macs s) mi) in
              if negb (m_hide m =? 0) then ret tt
              else
                let! stop := (match m_args m with
                  | ANone => ret false
                  | _ =>
                      RawGetToken fuel;;
                      let! ws := gets (fun s => t_type (tok s)) in
                      RawSkipWS fuel;;
                      let! t := gets tok in
                      if negb (t_type t =? 40) then
                        when (ws <? 32) (TokenQueuePush (mktok ws PNull));;
                        TokenQueuePush t;;
                        upd (fun s => set_tok s (mktok id (nth (Z.to_nat (id - TOK_ID)) (ids s) PNull)));;
                        ret true
                      else
                        RawGetToken fuel;; RawSkipWS fuel;;
                        let! t := gets (fun s => t_type (tok s)) in
                        when (negb (t =? 41))
                          (match m_args m with AFirst a => call_args fuel a | _ => fatal end);;
                        ret false
                  end) in
                if stop : bool then ret tt
                else
                  let! r := gets (fun s => m_repl (aget (macs s) mi)) in
                  (if negb (r =? -1) then push_frame mi r false;; set_hide mi 1
                   else FreeArgs (m_args m));;
                  GetToken fuel
          end
  end
with Stringify (fuel : nat) (e froms : Z) (pend : bool) (acc : list Z) : M st unit :=
  match fuel with
  | O => nofuel
  | S fuel =>
      if (e =? -1) && (froms =? 0) then
        assert (Z.of_nat (length acc) <? 256);;
        upd (fun s => set_tok (set_sbuf s acc) (mktok TOK_STRLIT PBuf))
      else
        let! e' := (if froms =? 0 then
            let! x := gets (fun s => aget (pool s) e) in
            upd (fun s => set_tok s (e_tok x));; ret (e_next x)
          else GetToken fuel;; ret e) in
        let! t := gets tok in
        if negb (froms =? 0) && (t_type t =? TOK_EOF) then Stringify fuel e' (froms - 1) pend acc
        else if t_type t =? TOK_ARG then
          match t_text t with
          | PArg a =>
              PushHandleArg a;;
              upd (fun s => set_stack s (match stack s with f :: r => mkframe (f_mac f) (f_list f) true :: r | [] => [] end));;
              Stringify fuel e' (froms + 1) pend acc
          | _ => undef
          end
        else if (t_type t =? TOK_WHITESPACE) || (t_type t =? TOK_NEWLINE) then Stringify fuel e' froms true acc
        else
          let! acc := (if pend then assert (Z.of_nat (length acc) <? 256);; ret (acc ++ [32]) else ret acc) in
          let! l := str (t_text t) in
          assert (Z.of_nat (length acc) + Z.of_nat (length l) <? 256);;
          Stringify fuel e' froms false (acc ++ l)
  end.

(** * Definitions *)
Definition set_args_of (m : Z) (l : arglist) : M st unit :=
  upd (fun s => let x := aget (macs s) m in set_macs s (aset (macs s) m (mkmac l (m_repl x) (m_hide x)))).
(** *LastArg = v: the first argument of macro m, or the next one of argument a *)
Definition link_arg (m : Z) (last : option Z) (v : arglist) : M st unit :=
  match last with
  | None => set_args_of m v
  | Some a => upd (fun s => let x := aget (args s) a in
                set_args s (aset (args s) a (mkarg (a_id x) (match v with AFirst b => b | _ => -1 end) (a_repl x))) (nargs s))
  end.
(** scpp.c:1108-1130 *)
Fixpoint parameters (fuel : nat) (m : Z) (last : option Z) : M st (option Z) :=
  match fuel with
  | O => nofuel
  | S fuel =>
      let! t := gets (fun s => t_type (tok s)) in
      if t =? 41 then ret last
      else
        RawSkipWS fuel;;
        let! t := gets tok in
        assert (t_type t =? TOK_RAW_ID);;
        ReplaceId;;
        let! ty := gets (fun s => t_type (tok s)) in
        (if ty =? TOK_RAW_ID then
           let! n := AddId (t_text t) in
           set_type (n + TOK_ID);;
           upd (fun s => set_npos s (pos s));;
           assert (n + TOK_ID - TOK_USER_ID <? MACRO_MAX);;
           set_hide (n + TOK_ID - TOK_USER_ID) 2
         else ret tt);;
        let! s := gets (fun s => s) in
        assert (nargs s <? ARGUMENT_MAX);;
        let a := nargs s in
        upd (fun s => let x := aget (args s) a in set_args s (aset (args s) a (mkarg (t_type (tok s)) (a_next x) (a_repl x))) (nargs s));;
        link_arg m last (AFirst a);;
        upd (fun s => set_args s (args s) (nargs s + 1));;
        RawGetToken fuel;; RawSkipWS fuel;;
        let! t := gets (fun s => t_type (tok s)) in
        if negb (t =? 44) then ret (Some a) else RawGetToken fuel;; parameters fuel m (Some a)
  end.
(** scpp.c:1138-1168 *)
Fixpoint body (fuel : nat) (m : Z) (L : place) (pend : Z) : M st place :=
  match fuel with
  | O => nofuel
  | S fuel =>
      let! t := gets tok in
      if t_type t =? TOK_NEWLINE then ret L
      else if t_type t =? TOK_WHITESPACE then RawGetToken fuel;; body fuel m L (if pend =? 0 then 1 else pend)
      else
        let! al := gets (fun s => m_args (aget (macs s) m)) in
        (match al with
         | ANone => ret tt
         | _ =>
             when (t_type t =? TOK_RAW_ID)
               (ReplaceId;;
                let! ty := gets (fun s => t_type (tok s)) in
                let! a := (if TOK_USER_ID <=? ty then find_in al ty else ret None) in
                match a with
                | Some a => upd (fun s => set_tok s (mktok TOK_ARG (PArg a)))
                | None => set_type TOK_RAW_ID
                end)
         end);;
        let! L := (if pend =? 1 then AddToken L (mktok TOK_WHITESPACE PNull) else ret L) in
        let! t := gets tok in
        let! L := AddToken L t in
        upd (fun s => set_npos s (pos s));;
        RawGetToken fuel;; body fuel m L 0
  end.
(** scpp.c:1080-1170 *)
Definition HandleDefine (fuel : nat) : M st unit :=
  RawGetToken fuel;; RawSkipWS fuel;;
  let! t := gets tok in
  assert (t_type t =? TOK_RAW_ID);;
  ReplaceId;;
  let! id := gets (fun s => t_type (tok s)) in
  let! m := (if TOK_USER_ID <=? id then
      let! h := gets (fun s => m_hide (aget (macs s) (id - TOK_USER_ID))) in
      if h =? 0 then ret None else set_hide (id - TOK_USER_ID) 0;; ret (Some (id - TOK_USER_ID))
    else
      let! n := AddId (t_text t) in
      upd (fun s => set_npos s (pos s));;
      assert (n + TOK_ID - TOK_USER_ID <? MACRO_MAX);;
      ret (Some (n + TOK_ID - TOK_USER_ID))) in
  match m with
  | None => ret tt
  | Some m =>
      RawGetToken fuel;;
      let! t := gets (fun s => t_type (tok s)) in
      when (t =? 40)
        (RawGetToken fuel;; RawSkipWS fuel;;
         let! last := parameters fuel m None in
         link_arg m last ANone;;
         let! t := gets (fun s => t_type (tok s)) in
         assert (t =? 41);;
         RawGetToken fuel;;
         let! al := gets (fun s => m_args (aget (macs s) m)) in
         match al with ANone => set_args_of m AEmpty | _ => ret tt end);;
      RawSkipWS fuel;;
      let! L := body fuel m (LMacro m) (-1) in
      store L (-1)
  end.

(** * Expressions *)
(** scpp.c:1172-1176 *)
Fixpoint SkipWS (fuel : nat) : M st unit :=
  match fuel with
  | O => nofuel
  | S fuel =>
      let! t := gets (fun s => t_type (tok s)) in
      if t =? TOK_WHITESPACE then GetToken fuel;; SkipWS fuel else ret tt
  end.
(** scpp.c:1178-1195 *)
Definition Accept (fuel : nat) (t : Z) : M st bool :=
  let! x := gets (fun s => t_type (tok s)) in
  if x =? t then GetToken fuel;; ret true else ret false.
Definition Expect (fuel : nat) (t : Z) : M st unit := let! b := Accept fuel t in assert b.
(** scpp.c:1197-1200 *)
Definition IsDefined (s : st) (t : Z) : bool :=
  ((TOK_DEFINED <? t) && (t <? TOK_USER_ID)) || ((TOK_USER_ID <=? t) && (m_hide (aget (macs s) (t - TOK_USER_ID)) =? 0)).
Section Width.
Variable W : Z.
Definition ci (x : Z) : Z := ws W x.
(** scpp.c:1208-1227 *)
Fixpoint number (base n : Z) (l : list Z) : Z :=
  match l with
  | [] => n
  | c :: l => number base (ci (ci (n * base) + (if (48 <=? c) && (c <=? 57) then c - 48 else Z.land c 0xdf - 55))) l
  end.
Definition num_value (l : list Z) : Z :=
  match l with
  | 48 :: x :: l => if (x =? 120) || (x =? 88) then number 16 0 l else number 8 0 (x :: l)
  | 48 :: [] => 0
  | _ => number 10 0 l
  end.
(** scpp.c:1268-1283 *)
Definition OperatorPrecedence (op : Z) : Z :=
  if (op =? 42) || (op =? 47) || (op =? 37) then 3
  else if (op =? 43) || (op =? 45) then 4
  else if (op =? 60) || (op =? 62) || (op =? TOK_LTEQ) || (op =? TOK_GTEQ) then 6
  else if (op =? TOK_EQEQ) || (op =? TOK_NOTEQ) then 7
  else if op =? 38 then 8
  else if op =? 94 then 9
  else if op =? 124 then 10
  else if op =? TOK_ANDAND then 11
  else if op =? TOK_OROR then 12
  else if op =? 63 then 13
  else 100.
(** scpp.c:1314-1334 *)
Definition calculate (op a b : Z) : M st Z :=
  if op =? 42 then ret (ci (a * b))
  else if op =? 47 then if b =? 0 then undef else ret (ci (Z.quot a b))
  else if op =? 37 then if b =? 0 then undef else ret (Z.rem a b)
  else if op =? 43 then ret (ci (a + b))
  else if op =? 45 then ret (ci (a - b))
  else if op =? 60 then ret (zb (a <? b))
  else if op =? 62 then ret (zb (a <? b))
  else if op =? TOK_LTEQ then ret (zb (a <=? b))
  else if op =? TOK_GTEQ then ret (zb (b <=? a))
  else if op =? TOK_EQEQ then ret (zb (a =? b))
  else if op =? TOK_NOTEQ then ret (zb (negb (a =? b)))
  else if op =? 38 then ret (Z.land a b)
  else if op =? 94 then ret (Z.lxor a b)
  else if op =? 124 then ret (Z.lor a b)
  else if op =? TOK_ANDAND then ret (zb (negb (a =? 0) && negb (b =? 0)))
  else if op =? TOK_OROR then ret (zb (negb (a =? 0) || negb (b =? 0)))
  else fatal.
(** scpp.c:1204-1266, 1285-1342 *)
Fixpoint EvalUnary (fuel : nat) : M st Z :=
  match fuel with
  | O => nofuel
  | S fuel =>
      SkipWS fuel;;
      let! t := gets tok in
      if t_type t =? TOK_NUM then
        let! l := str (t_text t) in GetToken fuel;; ret (num_value l)
      else if t_type t =? TOK_RAW_ID then GetToken fuel;; ret 0
      else if t_type t =? TOK_DEFINED then
        GetToken fuel;; RawSkipWS fuel;;
        let! t := gets (fun s => t_type (tok s)) in
        when (t =? 40) (RawGetToken fuel;; RawSkipWS fuel);;
        ReplaceId;;
        let! n := gets (fun s => zb (IsDefined s (t_type (tok s)))) in
        GetToken fuel;;
        when (t =? 40) (Expect fuel 41);;
        ret n
      else if t_type t =? 33 then
        GetToken fuel;; let! n := EvalUnary fuel in ret (zb (n =? 0))
      else if t_type t =? 40 then
        GetToken fuel;;
        let! n := EvalUnary fuel in
        let! n := EvalExpr1 fuel n 15 in
        Expect fuel 41;; ret n
      else if TOK_USER_ID <=? t_type t then
        let! h := gets (fun s => m_hide (aget (macs s) (t_type t - TOK_USER_ID))) in
        assert (h =? 2);; GetToken fuel;; ret 0
      else fatal
  end
with EvalExpr1 (fuel : nat) (lhs outer : Z) : M st Z :=
  match fuel with
  | O => nofuel
  | S fuel =>
      SkipWS fuel;;
      let! op := gets (fun s => t_type (tok s)) in
      if (op <=? 32) || (TOK_ID <=? op) then ret lhs
      else
        let prec := OperatorPrecedence op in
        if outer <? prec then ret lhs
        else
          GetToken fuel;;
          if op =? 63 then
            let! u := EvalUnary fuel in
            let! l := EvalExpr1 fuel u 14 in
            Expect fuel 58;;
            let! u := EvalUnary fuel in
            let! r := EvalExpr1 fuel u 14 in
            EvalExpr1 fuel (if lhs =? 0 then r else l) outer
          else
            let! rhs := EvalUnary fuel in
            let! rhs := eval_rhs fuel rhs prec in
            let! v := calculate op lhs rhs in
            EvalExpr1 fuel v outer
  end
with eval_rhs (fuel : nat) (rhs prec : Z) : M st Z :=
  match fuel with
  | O => nofuel
  | S fuel =>
      SkipWS fuel;;
      let! op := gets (fun s => t_type (tok s)) in
      if (op <=? 32) || (TOK_ID <=? op) then ret rhs
      else
        let p := OperatorPrecedence op in
        if prec <? p then ret rhs
        else let! rhs := EvalExpr1 fuel rhs p in eval_rhs fuel rhs prec
  end.
Definition EvalExpr (fuel : nat) : M st Z := let! u := EvalUnary fuel in EvalExpr1 fuel u 15.

(** * Directives *)
Definition COND_TRUE := 0.
Definition COND_FALSE := 1.
Definition COND_DONE := 2.
(** scpp.c:1344-1347 *)
Definition CondActive (c : list Z) : bool := match c with [] => true | x :: _ => x =? COND_TRUE end.
(** scpp.c:1349-1359 *)
Definition NewCond (active : bool) : M st unit :=
  let! c := gets conds in
  assert (Z.of_nat (length c) <? COND_MAX);;
  upd (fun s => set_conds s ((if negb (CondActive c) then COND_DONE else if active then COND_TRUE else COND_FALSE) :: c)).
(** *S = v *)
Definition set_cond (v : Z) : M st unit := upd (fun s => set_conds s (match conds s with _ :: r => v :: r | [] => [] end)).
Variable fs : list Z -> option (list Z).   (* the files that can be opened *)
(** scpp.c:433-447, for reading; NumFiles counts the output file too *)
Definition open_file (name : list Z) : M st (list Z) :=
  let! n := gets (fun s => Z.of_nat (length (files s))) in
  assert (n + 2 <? FILES_MAX);;
  match fs name with Some l => ret (map s8 l) | None => fatal end.
(** scpp.c:1368-1374 *)
Fixpoint to_angle (fuel : nat) : M st unit :=
  match fuel with
  | O => nofuel
  | S fuel =>
      let! c := gets (fun s => cur (inp s)) in
      if c =? 62 then ret tt else ReadToTokenData;; to_angle fuel
  end.
(** scpp.c:1361-1390 *)
Definition HandleInclude (fuel : nat) : M st unit :=
  GetToken fuel;; SkipWS fuel;;
  let! t := gets tok in
  let! name := (if t_type t =? 60 then
      upd (fun s => set_data s (data s) (npos s));;
      let! p := gets pos in
      to_angle fuel;; put_char 0;;
      upd (fun s => set_npos s (pos s));;
      ret (PTok p)
    else upd (fun s => set_npos s (pos s));; ret (t_text t)) in
  RawGetToken fuel;;
  set_type TOK_NEWLINE;;
  let! l := str name in
  let! c := open_file l in
  upd (fun s => set_inp (set_line (set_file s (l, line s)
      (mkfile (fst (cfile s)) (inp s) (snd (cfile s)) :: files s)) (if cur (inp s) =? 10 then 2 else 1)) c).
(** scpp.c:1456-1466 *)
Fixpoint to_newline (fuel : nat) : M st unit :=
  match fuel with
  | O => nofuel
  | S fuel =>
      let! t := gets (fun s => t_type (tok s)) in
      if t =? TOK_NEWLINE then ret tt else RawGetToken fuel;; to_newline fuel
  end.
(** scpp.c:1392-1467 *)
Definition HandleDirective (fuel : nat) : M st unit :=
  RawSkipWS fuel;;
  let! t := gets (fun s => t_type (tok s)) in
  if t =? TOK_NEWLINE then ret tt
  else
    ReplaceId;;
    let! d := gets (fun s => t_type (tok s)) in
    assert (d <? TOK_USER_ID);;
    let! active := gets (fun s => CondActive (conds s)) in
    (if d =? TOK_DEFINE then when active (HandleDefine fuel)
     else if d =? TOK_INCLUDE then when active (HandleInclude fuel)
     else if d =? TOK_UNDEF then
       when active
         (RawGetToken fuel;; RawSkipWS fuel;; ReplaceId;;
          let! t := gets (fun s => t_type (tok s)) in
          when (TOK_USER_ID <=? t)
            (set_hide (t - TOK_USER_ID) 2;;
             let! r := gets (fun s => m_repl (aget (macs s) (t - TOK_USER_ID))) in
             FreeTokenList r);;
          GetToken fuel)
     else if (d =? TOK_IFDEF) || (d =? TOK_IFNDEF) then
       RawGetToken fuel;; RawSkipWS fuel;; ReplaceId;;
       let! def := gets (fun s => IsDefined s (t_type (tok s))) in
       NewCond (xorb (d =? TOK_IFNDEF) def);;
       RawGetToken fuel
     else if d =? TOK_ERROR then when active fatal
     else if (d =? TOK_PRAGMA) || (d =? TOK_LINE) then ret tt
     else if d =? TOK_RAW_ID then when active fatal
     else
       GetToken fuel;;
       let! c := gets conds in
       if d =? TOK_IF then let! v := EvalExpr fuel in NewCond (negb (v =? 0))
       else if d =? TOK_ELIF then
         match c with
         | [] => fatal
         | x :: _ =>
             if x =? COND_TRUE then set_cond COND_DONE
             else if x =? COND_FALSE then
               let! v := EvalExpr fuel in when (negb (v =? 0)) (set_cond COND_TRUE)
             else ret tt
         end
       else if d =? TOK_ELSE then
         match c with
         | [] => fatal
         | x :: _ =>
             if x =? COND_TRUE then set_cond COND_DONE
             else when (x =? COND_FALSE) (set_cond COND_TRUE)
         end
       else if d =? TOK_ENDIF then
         match c with [] => fatal | _ :: r => upd (fun s => set_conds s r) end
       else ret tt);;
    to_newline fuel.

(** * The main loop *)
(** scpp.c:1469-1480 *)
Definition OutputStr (l : list Z) : M st unit := upd (fun s => set_outp s (l :: outp s)).
(** scpp.c:1517-1553: one token that is put out *)
Definition output_token (fuel : nat) (wsp : Z) : M st unit :=
  (if wsp =? 0 then ret tt else OutputStr (if Z.testbit wsp 1 then [13; 10] else [32]));;
  let! t := gets tok in
  let! l := str (t_text t) in
  if (t_type t =? TOK_STRLIT) || (t_type t =? TOK_CHARLIT) then
    let q := if t_type t =? TOK_STRLIT then [34] else [39] in
    OutputStr q;; OutputStr l;; OutputStr q
  else OutputStr l.
(** the loop of scpp.c:1482-1559; wsp is WS: 1 WS_NORMAL, 2 WS_NEWLINE *)
Fixpoint pp_loop (fuel : nat) (wsp : Z) (sol active : bool) : M st unit :=
  match fuel with
  | O => nofuel
  | S fuel =>
      let! t := gets (fun s => t_type (tok s)) in
      if (t =? 35) && sol then
        RawGetToken fuel;; HandleDirective fuel;;
        let! t := gets (fun s => t_type (tok s)) in
        if t =? 0 then ret tt
        else
          assert (t =? TOK_NEWLINE);; GetToken fuel;;
          let! a := gets (fun s => CondActive (conds s)) in
          pp_loop fuel wsp true a
      else if t =? 0 then
        let! s := gets (fun s => s) in
        match files s with
        | [] => ret tt
        | f :: r =>
            upd (fun s => set_inp (set_line (set_file s (fi_name f, fi_line f) r) (snd (cfile s))) (fi_rest f));;
            GetToken fuel;; pp_loop fuel wsp true active
        end
      else if negb active then GetToken fuel;; pp_loop fuel wsp sol active
      else if t =? TOK_WHITESPACE then GetToken fuel;; pp_loop fuel (Z.lor wsp 1) sol active
      else if t =? TOK_NEWLINE then GetToken fuel;; pp_loop fuel (Z.lor wsp 2) true active
      else output_token fuel wsp;; GetToken fuel;; pp_loop fuel 0 sol active
  end.
Definition PPMain (fuel : nat) : M st unit := GetToken fuel;; pp_loop fuel 0 true true.

(** scpp.c:1593-1609 *)
Definition builtin_names : list string :=
  ["define"; "undef"; "if"; "ifdef"; "ifndef"; "elif"; "else"; "endif"; "include"; "line"; "error"; "pragma"; "defined";
   "__FILE__"; "__LINE__"; "__SCC__"]%string.
Fixpoint add_ids (l : list string) : M st unit :=
  match l with
  | [] => ret tt
  | x :: l => let! _ := AddId (PStr (SccLex.bytes_of x)) in add_ids l
  end.
Definition nomacro : macro := mkmac ANone (-1) 0.
(** the initial state; the text of the elements of the pool and of CurTok is never read *)
Definition st0 (name input : list Z) : st :=
  mkst (map s8 input) 1 (name, 0) [] (mkarr 0 Leaf) 0 0 [] [] (mkarr (-1) Leaf) (mktok 0 PNull) 0 []
       (snd (fold_left (fun '(i, a) _ => (i + 1, aset a i (mkelem (mktok 0 PNull) (if i =? TOKEN_LIST_MAX - 1 then -1 else i + 1))))
              (repeat tt (Z.to_nat TOKEN_LIST_MAX)) (0, mkarr (mkelem (mktok 0 PNull) (-1)) Leaf)))
       0 (mkarr (mkarg 0 (-1) (-1)) Leaf) 0 (mkarr nomacro Leaf) [] [] [].
(** scpp.c:1574-1625: the text written for a file *)
Definition preprocess (fuel : nat) (name : list Z) : outcome (list Z) :=
  match fs name with
  | None => Fatal
  | Some l =>
      match (add_ids builtin_names;; PPMain fuel) (st0 name l) with
      | Ok (_, s) => Ok (List.concat (rev (outp s)))
      | Fatal => Fatal | UB => UB | OutOfFuel => OutOfFuel
      end
  end.
End Width.
