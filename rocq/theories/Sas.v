(** Model of the assembler /repo/sas.c, from characters to the output file.

    Conventions.
    - The input is the list of characters still to be read, as signed 8-bit values; its
      head is CurrentChar (0 at the end of the file).  The 512-byte buffer of ReadChar
      (sas.c:547-558) and the line number are not modelled.
    - W is the width of int (16 when compiled by scc, 32 on the host).  Arithmetic on numbers
      of the source program wraps around to W bits.
    - A pointer to a Label is its index; the chain L->Fixups is a list of (type, offset), and
      the free list NextFixup is the number of fixups left.  A label defined at address -1
      (the value sas.c uses for "not yet defined") while it has pending fixups would free its
      fixups twice; that is UB of the model.
    - assert and Fatal are the outcome Fatal. *)
From Coq Require Import ZArith List Bool Lia String.
From Verif Require Import Base.
From Verif Require SccState.
Import ListNotations.
Open Scope Z_scope.
Notation length := List.length.
Notation M := SccState.M.
Notation ret := SccState.ret.
Notation bind := SccState.bind.
Notation fatal := SccState.fatal.
Notation undef := SccState.undef.
Notation nofuel := SccState.nofuel.
Notation gets := SccState.gets.
Notation upd := SccState.upd.
Notation when := SccState.when.
Declare Scope s_scope.
Delimit Scope s_scope with s.
Notation "'let!' x := a 'in' b" := (bind a (fun x => b))
  (at level 200, x pattern, a at level 100, b at level 200, right associativity) : s_scope.
Notation "a ;; b" := (bind a (fun _ => b)) (at level 199, right associativity) : s_scope.
Open Scope s_scope.

(** * Constants, sas.c:247-254 *)
Definition ID_MAX := 600.
Definition IDBUFFER_MAX := 5000.
Definition OUTPUT_MAX := 20000.
Definition FIXUP_MAX := 600.
Definition STRING_MAX := 128.     (* sas.c:422 *)

(** * Tokens, sas.c:256-368 *)
Definition TOK_NUMBER := 1.
Definition TOK_STRING := 2.
Definition TOK_PLUS := 43.
Definition TOK_MINUS := 45.
Definition TOK_COLON := 58.
Definition TOK_COMMA := 44.
Definition TOK_LBRACKET := 91.
Definition TOK_RBRACKET := 93.
Definition TOK_PIPE := 124.
Definition TOK_TILDE := 126.
Definition TOK_LSH := 128.
Definition TOK_ID := 256.
Definition TOK_AL := 256.
Definition TOK_CL := 257.
Definition TOK_AX := 264.
Definition TOK_BX := 267.
Definition TOK_BP := 269.
Definition TOK_SI := 270.
Definition TOK_DI := 271.
Definition TOK_ES := 272.
Definition TOK_DS := 275.
Definition TOK_BYTE := 276.
Definition TOK_SHORT := 277.
Definition TOK_WORD := 278.
Definition TOK_DIRECTIVE := 279.
Definition TOK_CPU := 279.
Definition TOK_DB := 280.
Definition TOK_DW := 281.
Definition TOK_EQU := 282.
Definition TOK_ORG := 283.
Definition TOK_RESB := 284.
Definition TOK_RESW := 285.
Definition TOK_INST := 286.
Definition TOK_ADC := 286.
Definition TOK_ADD := 287.
Definition TOK_AND := 288.
Definition TOK_CALL := 289.
Definition TOK_CBW := 290.
Definition TOK_CLC := 291.
Definition TOK_CLI := 292.
Definition TOK_CMP := 293.
Definition TOK_CMPSB := 294.
Definition TOK_CWD := 295.
Definition TOK_DEC := 296.
Definition TOK_DIV := 297.
Definition TOK_IDIV := 298.
Definition TOK_IMUL := 299.
Definition TOK_INC := 300.
Definition TOK_INT := 301.
Definition TOK_JMP := 302.
Definition TOK_LEA := 303.
Definition TOK_LODSB := 304.
Definition TOK_MOV := 305.
Definition TOK_MOVSB := 306.
Definition TOK_MUL := 307.
Definition TOK_NEG := 308.
Definition TOK_NOT := 309.
Definition TOK_OR := 310.
Definition TOK_POP := 311.
Definition TOK_PUSH := 312.
Definition TOK_REP := 313.
Definition TOK_RET := 314.
Definition TOK_SAR := 315.
Definition TOK_SBB := 316.
Definition TOK_SHL := 317.
Definition TOK_SHR := 318.
Definition TOK_STC := 319.
Definition TOK_STI := 320.
Definition TOK_STOSB := 321.
Definition TOK_STOSW := 322.
Definition TOK_SUB := 323.
Definition TOK_TEST := 324.
Definition TOK_XCHG := 325.
Definition TOK_XOR := 326.
Definition TOK_JO := 327.
Definition TOK_JC := 329.
Definition TOK_JNC := 330.
Definition TOK_JZ := 331.
Definition TOK_JNZ := 332.
Definition TOK_JNA := 333.
Definition TOK_JA := 334.
Definition TOK_JL := 339.
Definition TOK_JNL := 340.
Definition TOK_JNG := 341.
Definition TOK_JG := 342.
Definition TOK_USER_ID := 355.
(** number of built-in names, TOK_USER_ID-TOK_ID *)
Definition BUILTINS := 99.
(** the string given to AddBuiltins, sas.c:1594-1604 *)
Definition builtin_names : list string :=
  ["AL";"CL";"DL";"BL";"AH";"CH";"DH";"BH";"AX";"CX";"DX";"BX";"SP";"BP";"SI";"DI";"ES";"CS";"SS";"DS";
   "BYTE";"SHORT";"WORD";"CPU";"DB";"DW";"EQU";"ORG";"RESB";"RESW";
   "ADC";"ADD";"AND";"CALL";"CBW";"CLC";"CLI";"CMP";"CMPSB";"CWD";"DEC";"DIV";"IDIV";"IMUL";"INC";"INT";"JMP";
   "LEA";"LODSB";"MOV";"MOVSB";"MUL";"NEG";"NOT";"OR";"POP";"PUSH";"REP";"RET";"SAR";"SBB";"SHL";"SHR";"STC";"STI";
   "STOSB";"STOSW";"SUB";"TEST";"XCHG";"XOR";
   "JO";"JNO";"JC";"JNC";"JZ";"JNZ";"JNA";"JA";"JS";"JNS";"JPE";"JPO";"JL";"JNL";"JNG";"JG";
   "JB";"JNAE";"JNB";"JAE";"JE";"JNE";"JBE";"JNBE";"JNGE";"JGE";"JLE";"JNLE"]%string.
Definition chars (s : string) : list Z := map (fun c => Z.of_nat (Ascii.nat_of_ascii c)) (list_ascii_of_string s).

(** * State: the global variables, sas.c:370-449 *)
Inductive fixkind := FIXUP_REL8 | FIXUP_REL16 | FIXUP_DISP16.  (* sas.c:370-374 *)
Inductive labkind := LABEL_NONE | LABEL_EQU | LABEL_NORMAL.    (* sas.c:384-388 *)
(** struct Label, sas.c:390-394 *)
Record label := mklab { l_type : labkind; l_val : Z; l_fix : list (fixkind * Z) }.
Definition nolabel := mklab LABEL_NONE 0 [].
Record st := mkst {
  inp : list Z;            (* CurrentChar and the unread characters, sas.c:396-402 *)
  names : list (list Z);   (* IdBuffer through IdOffset, IdCount entries, sas.c:404-405 *)
  used : Z;                (* IdBufferIndex *)
  htab : arr Z;            (* IdHash *)
  labels : arr label;      (* Labels *)
  tok : Z;                 (* TokenType *)
  num : Z;                 (* TokenVal.Num *)
  sbuf : list Z;           (* TokenVal.Str, the contents of StringBuf *)
  out : arr Z;             (* OutputBuf *)
  pos : Z;                 (* OutputBufPos *)
  va : Z;                  (* VirtAddress *)
  bss : bool;              (* InBSS *)
  size : Z;                (* SizeOverride *)
  free : Z                 (* fixups on the NextFixup list *)
}.
Definition set_inp s x := mkst x (names s) (used s) (htab s) (labels s) (tok s) (num s) (sbuf s) (out s) (pos s) (va s) (bss s) (size s) (free s).
Definition set_names s n u h := mkst (inp s) n u h (labels s) (tok s) (num s) (sbuf s) (out s) (pos s) (va s) (bss s) (size s) (free s).
Definition set_labels s x := mkst (inp s) (names s) (used s) (htab s) x (tok s) (num s) (sbuf s) (out s) (pos s) (va s) (bss s) (size s) (free s).
Definition set_tok s t := mkst (inp s) (names s) (used s) (htab s) (labels s) t (num s) (sbuf s) (out s) (pos s) (va s) (bss s) (size s) (free s).
Definition set_num s n := mkst (inp s) (names s) (used s) (htab s) (labels s) (tok s) n (sbuf s) (out s) (pos s) (va s) (bss s) (size s) (free s).
Definition set_sbuf s x := mkst (inp s) (names s) (used s) (htab s) (labels s) (tok s) (num s) x (out s) (pos s) (va s) (bss s) (size s) (free s).
Definition set_out s o p v := mkst (inp s) (names s) (used s) (htab s) (labels s) (tok s) (num s) (sbuf s) o p v (bss s) (size s) (free s).
Definition set_bss s b := mkst (inp s) (names s) (used s) (htab s) (labels s) (tok s) (num s) (sbuf s) (out s) (pos s) (va s) b (size s) (free s).
Definition set_size s x := mkst (inp s) (names s) (used s) (htab s) (labels s) (tok s) (num s) (sbuf s) (out s) (pos s) (va s) (bss s) x (free s).
Definition set_free s x := mkst (inp s) (names s) (used s) (htab s) (labels s) (tok s) (num s) (sbuf s) (out s) (pos s) (va s) (bss s) (size s) x.
Definition st0 (input : list Z) : st :=
  mkst input [] 0 (mkarr (-1) Leaf) (mkarr nolabel Leaf) 0 0 [] (mkarr 0 Leaf) 0 0 false 0 FIXUP_MAX.

Definition assert (b : bool) : M st unit := if b then ret tt else fatal.

Section Width.
Variable W : Z.
(** an int of the assembler *)
Definition ci (x : Z) : Z := ws W x.

(** * Output, sas.c:473-484; the buffer holds bytes 0..255 here *)
Definition OutputByte (b : Z) : M st unit :=
  let! s := gets (fun s => s) in
  assert (negb (bss s));;
  assert (pos s <? OUTPUT_MAX);;
  upd (fun s => set_out s (aset (out s) (pos s) (b mod 256)) (pos s + 1) (ci (va s + 1))).
Definition OutputWord (w : Z) : M st unit := OutputByte w;; OutputByte (Z.shiftr w 8).

(** * Names *)
(** sas.c:486-492, of the NUL-terminated string; only the bits used by the table matter but the
    whole unsigned value is kept *)
Definition HashStr (s : list Z) : Z := fold_left (fun h c => wu W (h * 89 + Z.land c 0xDF)) s 17.
(** the search for a free slot, sas.c:500-509; k counts the probes (1024 visit every slot) *)
Fixpoint free_slot (k : nat) (h : arr Z) (hash i : Z) : outcome Z :=
  match k with
  | O => OutOfFuel
  | S k => let hash := Z.land hash 1023 in
           if aget h hash =? -1 then Ok hash else free_slot k h (hash + 1 + i) (i + 1)
  end.
(** sas.c:491-511; IdOffset has ID_MAX entries and IdCount is not checked *)
Definition AddId (str : list Z) : M st Z := fun s =>
  let l := Z.of_nat (length str) + 1 in
  if negb (used s + l <=? IDBUFFER_MAX) then Fatal
  else if negb (Z.of_nat (length (names s)) <? ID_MAX) then UB
  else match free_slot (Z.to_nat 1024) (htab s) (HashStr str) 0 with
       | Ok slot => let n := Z.of_nat (length (names s)) in
                    Ok (n, set_names s (names s ++ [str]) (used s + l) (aset (htab s) slot n))
       | Fatal => Fatal | UB => UB | OutOfFuel => OutOfFuel
       end.
(** upper case, sas.c:533-534 *)
Definition upper (c : Z) : Z := if (97 <=? c) && (c <=? 122) then Z.land c 0xDF else c.
(** comparison with the spelling of id, sas.c:530-540 *)
Fixpoint list_eqb (a b : list Z) : bool :=
  match a, b with
  | [], [] => true
  | x :: a, y :: b => (x =? y) && list_eqb a b
  | _, _ => false
  end.
Definition same_id (id : Z) (str text : list Z) : bool := list_eqb (if id <? BUILTINS then map upper str else str) text.
(** sas.c:520-545 *)
Fixpoint find_id (k : nat) (ns : list (list Z)) (h : arr Z) (str : list Z) (hash j : Z) : outcome Z :=
  match k with
  | O => OutOfFuel
  | S k => let hash := Z.land hash 1023 in
           let id := aget h hash in
           if id =? -1 then Ok (-1)
           else match nth_error ns (Z.to_nat id) with
                | None => Fatal
                | Some text => if same_id id str text then Ok id else find_id k ns h str (hash + 1 + j) (j + 1)
                end
  end.
Definition LookupId (str : list Z) : M st Z := fun s =>
  match find_id (Z.to_nat 1025) (names s) (htab s) str (HashStr str) 0 with
  | Ok id => Ok (id, s) | Fatal => Fatal | UB => UB | OutOfFuel => OutOfFuel
  end.
(** AddBuiltins, sas.c:1552-1566 *)
Fixpoint AddBuiltins (l : list string) : M st unit :=
  match l with
  | [] => ret tt
  | n :: l => AddId (chars n);; AddBuiltins l
  end.

(** * Characters, sas.c:557-573 *)
Definition IsDigit (c : Z) : bool := (48 <=? c) && (c <=? 57).
Definition IsAlpha (c : Z) : bool := ((65 <=? c) && (c <=? 90)) || ((97 <=? c) && (c <=? 122)).
Definition IsIdChar (c : Z) : bool := IsAlpha c || (c =? 95) || (c =? 46) || (c =? 36).
Definition cur (l : list Z) : Z := hd 0 l.

(** sas.c:622-631: spaces (and characters from 128 on, which are negative) and comments; a NUL
    character stops both *)
Fixpoint skip (comment : bool) (l : list Z) : list Z :=
  match l with
  | [] => []
  | c :: l' => if c =? 0 then l
               else if comment then (if c =? 10 then skip false l' else skip true l')
               else if c <=? 32 then skip false l'
               else if c =? 59 then skip true l'
               else l
  end.
(** decimal digits, sas.c:657-660 *)
Fixpoint dec_digits (n : Z) (l : list Z) : Z * list Z :=
  match l with
  | c :: l' => if IsDigit c then dec_digits (ci (ci (n * 10 + c) - 48)) l' else (n, l)
  | [] => (n, l)
  end.
(** hexadecimal digits, sas.c:645-654 *)
Fixpoint hex_digits (n : Z) (l : list Z) : Z * list Z :=
  match l with
  | c :: l' => if IsDigit c then hex_digits (ci (n * 16 + c - 48)) l'
               else if (65 <=? c) && (c <=? 70) then hex_digits (ci (n * 16 + c - 65 + 10)) l'
               else if (97 <=? c) && (c <=? 102) then hex_digits (ci (n * 16 + c - 97 + 10)) l'
               else (n, l)
  | [] => (n, l)
  end.
(** sas.c:638-664 *)
Definition number (l : list Z) : Z * list Z :=
  let n := cur l - 48 in
  let l := tl l in
  if (n =? 0) && ((cur l =? 120) || (cur l =? 88)) then
    let (n, l) := hex_digits n (tl l) in dec_digits n l
  else dec_digits n l.
(** sas.c:666-672: all characters of the identifier are read, 16 are kept *)
Fixpoint id_chars (room : nat) (l : list Z) : list Z * list Z :=
  match l with
  | c :: l' => if IsDigit c || IsIdChar c then
                 let (t, r) := id_chars (pred room) l' in
                 (match room with O => t | _ => c :: t end, r)
               else ([], l)
  | [] => ([], [])
  end.
(** sas.c:681-691 *)
Fixpoint string_chars (n : Z) (l : list Z) : outcome (list Z * list Z) :=
  match l with
  | [] => if n <? STRING_MAX then Fatal else Fatal
  | c :: l' => if c =? 39 then (if n <? STRING_MAX then Ok ([], l') else UB)
               else if negb (n <? STRING_MAX) then Fatal
               else if c =? 0 then Fatal
               else obind (string_chars (n + 1) l') (fun '(t, r) => Ok (c :: t, r))
  end.

(** TranslateIdToken, sas.c:575-618: equates become numbers, synonyms of jumps are replaced *)
Definition synonym (t : Z) : Z :=
  match t with
  | 343 | 344 => TOK_JC | 345 | 346 => TOK_JNC | 347 => TOK_JZ | 348 => TOK_JNZ
  | 349 => TOK_JNA | 350 => TOK_JA | 351 => TOK_JL | 352 => TOK_JNL | 353 => TOK_JNG | 354 => TOK_JG
  | _ => t
  end.
Definition TranslateIdToken (t : Z) : M st unit :=
  if TOK_USER_ID <=? t then
    let! ls := gets labels in
    let L := aget ls (t - TOK_USER_ID) in
    match l_type L with
    | LABEL_EQU => upd (fun s => set_num (set_tok s TOK_NUMBER) (l_val L))
    | _ => upd (fun s => set_tok s t)
    end
  else upd (fun s => set_tok s (synonym t)).

(** GetToken, sas.c:620-720 *)
Definition GetToken : M st unit :=
  let! l := gets (fun s => skip false (inp s)) in
  let c := cur l in
  if c =? 0 then upd (fun s => set_tok (set_inp s l) 0)
  else if IsDigit c then
    let (n, l) := number l in
    upd (fun s => set_num (set_tok (set_inp s l) TOK_NUMBER) n)
  else if IsIdChar c then
    let (name, l) := id_chars 16 l in
    upd (fun s => set_inp s l);;
    let! id := LookupId name in
    let! id := (if id <? 0 then AddId name else ret id) in
    TranslateIdToken (id + TOK_ID)
  else if c =? 39 then
    match string_chars 0 (tl l) with
    | Ok (t, l) => upd (fun s => set_sbuf (set_tok (set_inp s l) TOK_STRING) t)
    | Fatal => fatal | UB => undef | OutOfFuel => nofuel
    end
  else if existsb (Z.eqb c) [TOK_PLUS; TOK_MINUS; TOK_COLON; TOK_COMMA; TOK_LBRACKET; TOK_RBRACKET; TOK_PIPE; TOK_TILDE] then
    upd (fun s => set_tok (set_inp s (tl l)) c)
  else if (c =? 60) && (cur (tl l) =? 60) then
    upd (fun s => set_tok (set_inp s (tl (tl l))) TOK_LSH)
  else fatal.

(** * Constant expressions *)
(** sas.c:740-748; one or two characters *)
Definition NumFromString : M st Z :=
  let! t := gets sbuf in
  match t with
  | [a] => GetToken;; ret (Z.land a 0xff)
  | [a; b] => GetToken;; ret (ci (Z.lor (Z.land a 0xff) (Z.shiftl (Z.land b 0xff) 8)))
  | _ => fatal
  end.
(** sas.c:750-762 *)
Definition ParsePrimary : M st Z :=
  let! t := gets tok in
  if t =? TOK_NUMBER then let! n := gets num in GetToken;; ret n
  else if t =? TOK_STRING then NumFromString
  else fatal.
(** sas.c:764-767 *)
Definition IsUnaryOp (t : Z) : bool := (t =? TOK_PLUS) || (t =? TOK_MINUS) || (t =? TOK_TILDE).
(** sas.c:770-781 *)
Fixpoint ParseUnary (fuel : nat) : M st Z :=
  match fuel with
  | O => nofuel
  | S fuel =>
      let! t := gets tok in
      if IsUnaryOp t then
        GetToken;;
        let! n := ParseUnary fuel in
        ret (if t =? TOK_MINUS then ci (- n) else if t =? TOK_TILDE then Z.lnot n else n)
      else ParsePrimary
  end.
(** sas.c:783-789 *)
Definition OperatorPrecedence (t : Z) : Z :=
  if (t =? TOK_PLUS) || (t =? TOK_MINUS) then 4 else if t =? TOK_LSH then 5 else if t =? TOK_PIPE then 10 else 100.
(** the operators, sas.c:808-814; shifting by a negative count or by W or more is undefined *)
Definition binop (op l r : Z) : M st Z :=
  if op =? TOK_PLUS then ret (ci (l + r))
  else if op =? TOK_MINUS then ret (ci (l - r))
  else if op =? TOK_PIPE then ret (Z.lor l r)
  else if op =? TOK_LSH then (if (0 <=? r) && (r <? W) then ret (ci (Z.shiftl l r)) else undef)
  else fatal.
(** sas.c:791-818: the outer loop, and the inner loop 801-806 *)
Fixpoint ParseExpr (fuel : nat) (lhs outer : Z) : M st Z :=
  match fuel with
  | O => nofuel
  | S fuel =>
      let! op := gets tok in
      let prec := OperatorPrecedence op in
      if outer <? prec then ret lhs
      else
        GetToken;;
        let! rhs := ParseUnary fuel in
        let! rhs := ParseRhs fuel rhs prec in
        let! lhs := binop op lhs rhs in
        ParseExpr fuel lhs outer
  end
with ParseRhs (fuel : nat) (rhs prec : Z) : M st Z :=
  match fuel with
  | O => nofuel
  | S fuel =>
      let! t := gets tok in
      let look := OperatorPrecedence t in
      if prec <=? look then ret rhs
      else let! rhs := ParseExpr fuel rhs look in ParseRhs fuel rhs prec
  end.
(** sas.c:820-823 *)
Definition ParseNumber (fuel : nat) : M st Z := let! n := ParseUnary fuel in ParseExpr fuel n 15.

(** sas.c:825-841 *)
Definition Expect (t : Z) : M st unit := let! k := gets tok in if k =? t then GetToken else fatal.
Definition Accept (t : Z) : M st bool := let! k := gets tok in if k =? t then (GetToken;; ret true) else ret false.

(** * Operands *)
Inductive optype := OPTYPE_LIT | OPTYPE_REG | OPTYPE_MEM. (* sas.c:434-438 *)
(** struct Operand, sas.c:440-445 *)
Record operand := mkop { o_type : optype; o_modrm : Z; o_disp : Z; o_fix : option Z }.
Definition is_normal (k : labkind) : bool := match k with LABEL_NORMAL => true | _ => false end.
(** ReferenceLabel, sas.c:843-858 *)
Definition ReferenceLabel : M st Z :=
  let! t := gets tok in
  let i := t - TOK_USER_ID in
  let! ls := gets labels in
  (match l_type (aget ls i) with
   | LABEL_NONE => upd (fun s => set_labels s (aset (labels s) i (mklab LABEL_NORMAL (-1) [])))
   | k => assert (is_normal k)
   end);;
  GetToken;; ret i.
(** sas.c:860-863 *)
Definition IsShort (v : Z) : bool := Z.land v 0xffff =? Z.land (s8 v) 0xffff.
(** sas.c:865-890 *)
Definition TranslateMemMod (t start : Z) : M st Z :=
  if t =? TOK_BX then (if start =? -1 then ret 7 else if start =? 4 then ret 0 else fatal)
  else if t =? TOK_BP then (if start =? -1 then ret 6 else fatal)
  else if t =? TOK_SI then (if start =? -1 then ret 4 else fatal)
  else if t =? TOK_DI then (if start =? -1 then ret 5 else fatal)
  else fatal.
(** the loop over the parts of a memory operand, sas.c:906-945 *)
Fixpoint mem_loop (fuel : nat) (neg : bool) (o : operand) : M st operand :=
  match fuel with
  | O => nofuel
  | S fuel =>
      let! t := gets tok in
      if (TOK_ES <=? t) && (t <=? TOK_DS) then
        OutputByte (Z.lor 0x26 (t - TOK_ES));; GetToken;; Expect TOK_COLON;; mem_loop fuel neg o
      else
        let! o := (if (t =? TOK_BX) || (t =? TOK_BP) || (t =? TOK_SI) || (t =? TOK_DI) then
            let! m := TranslateMemMod t (o_modrm o) in
            GetToken;; ret (mkop OPTYPE_MEM m (o_disp o) (o_fix o))
          else if t =? TOK_NUMBER then
            let! n := gets num in
            GetToken;; ret (mkop OPTYPE_MEM (o_modrm o) (ci (if neg then o_disp o - n else o_disp o + n)) (o_fix o))
          else if TOK_USER_ID <=? t then
            (match o_fix o with None => ret tt | Some _ => fatal end);;
            let! i := ReferenceLabel in
            let! ls := gets labels in
            let L := aget ls i in
            assert (is_normal (l_type L));;
            ret (if l_val L =? -1 then mkop OPTYPE_MEM (o_modrm o) (o_disp o) (Some i)
                 else mkop OPTYPE_MEM (o_modrm o) (ci (o_disp o + l_val L)) (o_fix o))
          else fatal) in
        let! minus := Accept TOK_MINUS in
        if minus then mem_loop fuel true o
        else let! plus := Accept TOK_PLUS in
             if plus then mem_loop fuel false o else ret o
  end.
(** the mode bits, sas.c:948-961; ModRM is a signed char *)
Definition mem_mode (o : operand) : operand :=
  let m := o_modrm o in
  let m := if (m =? 6) && (o_disp o =? 0) then Z.lor m 0x40 else m in
  let m := if m =? -1 then 6
           else match o_fix o with
                | Some _ => s8 (Z.lor m 0x80)
                | None => if o_disp o =? 0 then m
                          else if IsShort (o_disp o) then Z.lor m 0x40 else s8 (Z.lor m 0x80)
                end in
  mkop OPTYPE_MEM m (o_disp o) (o_fix o).
(** sas.c:903-961 *)
Definition ParseMem (fuel : nat) : M st operand :=
  let! o := mem_loop fuel false (mkop OPTYPE_MEM (-1) 0 None) in
  Expect TOK_RBRACKET;; ret (mem_mode o).
(** sas.c:892-983 *)
Definition ParseOperand (fuel : nat) : M st operand :=
  let! t := gets tok in
  if (t =? TOK_NUMBER) || (t =? TOK_STRING) || IsUnaryOp t then
    let! n := ParseNumber fuel in ret (mkop OPTYPE_LIT 0 n None)
  else if t =? TOK_LBRACKET then GetToken;; ParseMem fuel
  else if (t =? TOK_BYTE) || (t =? TOK_WORD) then
    upd (fun s => set_size s (if t =? TOK_BYTE then 1 else 2));;
    GetToken;; Expect TOK_LBRACKET;; ParseMem fuel
  else if (TOK_AL <=? t) && (t <=? TOK_DS) then GetToken;; ret (mkop OPTYPE_REG 0 t None)
  else if TOK_USER_ID <=? t then
    let! i := ReferenceLabel in
    let! ls := gets labels in
    let L := aget ls i in
    assert (is_normal (l_type L));;
    ret (if l_val L =? -1 then mkop OPTYPE_LIT 0 0 (Some i) else mkop OPTYPE_LIT 0 (l_val L) None)
  else fatal.
(** sas.c:985-990 *)
Definition Parse2Operands (fuel : nat) : M st (operand * operand) :=
  let! a := ParseOperand fuel in Expect TOK_COMMA;; let! b := ParseOperand fuel in ret (a, b).

(** * Directives *)
Fixpoint out_bytes (l : list Z) : M st unit :=
  match l with [] => ret tt | b :: l => OutputByte b;; out_bytes l end.
(** sas.c:992-1023 *)
Fixpoint dx_loop (fuel : nat) (sz n : Z) : M st Z :=
  match fuel with
  | O => nofuel
  | S fuel =>
      let! t := gets tok in
      let! n := (if t =? TOK_NUMBER then
          let! v := gets num in
          (if sz =? 1 then OutputByte v else OutputWord v);; GetToken;; ret n
        else if t =? TOK_STRING then
          let! l := gets sbuf in out_bytes l;; GetToken;; ret (n + Z.of_nat (length l))
        else if TOK_USER_ID <=? t then
          assert (sz =? 2);;
          let! i := ReferenceLabel in
          let! ls := gets labels in
          let L := aget ls i in
          assert (is_normal (l_type L));;
          OutputWord (if l_val L =? -1 then 0 else l_val L);; ret n
        else fatal) in
      let! c := Accept TOK_COMMA in
      if c then dx_loop fuel sz n else ret n
  end.
Definition HandleDx (fuel : nat) (sz : Z) : M st unit :=
  let! n := dx_loop fuel sz 0 in when ((sz =? 2) && Z.odd n) (OutputByte 0).
(** sas.c:1025-1029 *)
Definition HandleResx (fuel : nat) (sz : Z) : M st unit :=
  upd (fun s => set_bss s true);;
  let! n := ParseNumber fuel in
  upd (fun s => set_out s (out s) (pos s) (ci (va s + ci (sz * n)))).
(** sas.c:1031-1061 *)
Definition HandleDirective (fuel : nat) (d : Z) : M st unit :=
  if d =? TOK_CPU then let! n := ParseNumber fuel in if n =? 8086 then ret tt else fatal
  else if d =? TOK_DB then HandleDx fuel 1
  else if d =? TOK_DW then HandleDx fuel 2
  else if d =? TOK_ORG then let! n := ParseNumber fuel in upd (fun s => set_out s (out s) (pos s) n)
  else if d =? TOK_RESB then HandleResx fuel 1
  else if d =? TOK_RESW then HandleResx fuel 2
  else fatal.

(** * Encoding *)
(** sas.c:1063-1072 *)
Definition AddFixupHere (i : Z) (k : fixkind) : M st unit :=
  let! n := gets free in
  assert (0 <? n);;
  upd (fun s => let L := aget (labels s) i in
       set_free (set_labels s (aset (labels s) i (mklab (l_type L) (l_val L) ((k, pos s) :: l_fix L)))) (free s - 1)).
Definition fixup_here (f : option Z) (k : fixkind) : M st unit :=
  match f with Some i => AddFixupHere i k | None => ret tt end.
(** sas.c:1074-1095 *)
Definition OutputImm8 (o : operand) : M st unit :=
  (match o_fix o with None => ret tt | Some _ => fatal end);; OutputByte (o_disp o).
Definition OutputImm16 (o : operand) : M st unit := fixup_here (o_fix o) FIXUP_DISP16;; OutputWord (o_disp o).
Definition OutputImm (o : operand) (w : bool) : M st unit := if w then OutputImm16 o else OutputImm8 o.
Definition is_mem (o : operand) : bool := match o_type o with OPTYPE_MEM => true | _ => false end.
Definition is_reg (o : operand) : bool := match o_type o with OPTYPE_REG => true | _ => false end.
Definition is_lit (o : operand) : bool := match o_type o with OPTYPE_LIT => true | _ => false end.
(** sas.c:1097-1109 *)
Definition OutputModRM (o : operand) (r : Z) : M st unit :=
  assert (is_mem o);;
  assert ((0 <=? r) && (r <? 8));;
  OutputByte (Z.lor (o_modrm o) (Z.shiftl r 3));;
  if (o_modrm o =? 6) || (Z.land (o_modrm o) 0xc0 =? 0x80) then
    fixup_here (o_fix o) FIXUP_DISP16;; OutputWord (o_disp o)
  else when (Z.land (o_modrm o) 0xc0 =? 0x40) (OutputByte (o_disp o)).
(** sas.c:1111-1116 *)
Definition OutputMR (inst : Z) (l r : operand) : M st unit :=
  assert (is_mem l && is_reg r);;
  OutputByte (Z.lor inst (zb ((TOK_AX <=? o_disp r) && (o_disp r <? TOK_ES))));;
  OutputModRM l (Z.land (o_disp r) 7).
(** sas.c:1118-1131 *)
Definition OutputMImm (inst r : Z) (m imm : operand) : M st unit :=
  assert (is_mem m && is_lit imm);;
  let! sz := gets size in
  assert (negb (sz =? 0));;
  let w := negb (sz =? 1) in
  let short := w && (inst =? 0x80) && (match o_fix imm with None => true | _ => false end) && IsShort (o_disp imm) in
  let inst := if short then Z.lor inst 3 else inst in
  let w := if short then false else w in
  OutputByte (Z.lor inst (zb w));;
  OutputModRM m r;;
  OutputImm imm w.
(** sas.c:1133-1179 *)
Definition HandleMOV (fuel : nat) : M st unit :=
  let! (a, b) := Parse2Operands fuel in
  if is_reg a then
    let w := TOK_AX <=? o_disp a in
    if is_reg b then
      let modrm := Z.lor (Z.land (o_disp a) 7) (Z.shiftl (Z.land (o_disp b) 7) 3) in
      let '(inst, modrm) :=
        if o_disp a <? TOK_ES then ((if o_disp b <? TOK_ES then Z.lor 0x88 (zb w) else 0x8c), modrm)
        else (0x8e, Z.lor (Z.land (o_disp b) 7) (Z.shiftl (Z.land (o_disp a) 7) 3)) in
      OutputByte inst;; OutputByte (Z.lor 0xC0 modrm)
    else if is_lit b then
      OutputByte (0xB0 + o_disp a - TOK_AL);; OutputImm b w
    else
      assert (is_mem b);;
      if (o_modrm b =? 6) && ((o_disp a =? TOK_AL) || (o_disp a =? TOK_AX)) then
        OutputByte (Z.lor 0xA0 (zb (o_disp a =? TOK_AX)));; OutputImm16 b
      else OutputMR (if TOK_ES <=? o_disp a then 0x8E else 0x8A) b a
  else if is_mem a then
    if is_reg b then
      if (o_modrm a =? 6) && ((o_disp b =? TOK_AL) || (o_disp b =? TOK_AX)) then
        OutputByte (Z.lor 0xA2 (zb (o_disp b =? TOK_AX)));; OutputImm16 a
      else OutputMR (if TOK_ES <=? o_disp b then 0x8C else 0x88) a b
    else
      assert (is_lit b);; OutputMImm 0xC6 0 a b
  else fatal.
(** sas.c:1181-1221 *)
Definition HandleALU (fuel : nat) (base : Z) : M st unit :=
  let! (a, b) := Parse2Operands fuel in
  if is_reg a then
    let w := TOK_AX <=? o_disp a in
    if is_reg b then
      OutputByte (Z.lor base (zb w));;
      OutputByte (Z.lor (Z.lor 0xC0 (Z.shiftl (Z.land (o_disp b) 7) 3)) (Z.land (o_disp a) 7))
    else if is_lit b then
      if o_disp a =? TOK_AL then OutputByte (base + 4);; OutputImm8 b
      else if o_disp a =? TOK_AX then OutputByte (base + 5);; OutputImm16 b
      else
        let inst := Z.lor 0x80 (zb w) in
        let inst := if w && (match o_fix b with None => true | _ => false end) && IsShort (o_disp b) then Z.lor inst 2 else inst in
        OutputByte inst;;
        OutputByte (Z.lor (Z.lor 0xC0 (Z.land (o_disp a) 7)) base);;
        OutputImm b (inst =? 0x81)
    else
      assert (is_mem b);; OutputMR (base + 2) b a
  else if is_mem a then
    if is_reg b then OutputMR base a b
    else assert (is_lit b);; OutputMImm 0x80 (Z.shiftr base 3) a b
  else fatal.
(** sas.c:1223-1237: a literal shift count is not looked at *)
Definition HandleROT (fuel : nat) (r : Z) : M st unit :=
  let! (a, b) := Parse2Operands fuel in
  assert (is_reg a);;
  let w := TOK_AX <=? o_disp a in
  let inst := Z.lor 0xD0 (zb w) in
  let! inst := (if is_reg b then assert (o_disp b =? TOK_CL);; ret (Z.lor inst 2) else ret inst) in
  OutputByte (Z.lor inst (zb w));;
  OutputByte (Z.lor (Z.lor 0xC0 (Z.shiftl r 3)) (Z.land (o_disp a) 7)).
(** sas.c:1239-1251 *)
Definition HandleRel8 (o : operand) : M st unit :=
  fixup_here (o_fix o) FIXUP_REL8;;
  let! v := gets va in OutputByte (o_disp o - (v + 1)).
Definition HandleRel16 (o : operand) : M st unit :=
  fixup_here (o_fix o) FIXUP_REL16;;
  let! v := gets va in OutputWord (ci (o_disp o - (v + 2))).
(** sas.c:1253-1265 *)
Definition HandleCALL (fuel : nat) : M st unit :=
  let! o := ParseOperand fuel in
  if is_reg o then OutputByte 0xFF;; OutputByte (Z.lor (Z.lor 0xC0 (Z.shiftl 2 3)) (Z.land (o_disp o) 7))
  else assert (is_lit o);; OutputByte 0xE8;; HandleRel16 o.
(** sas.c:1267-1281 *)
Definition HandleJMP (fuel : nat) : M st unit :=
  let! short := Accept TOK_SHORT in
  when short (upd (fun s => set_size s 1));;
  let! o := ParseOperand fuel in
  assert (is_lit o);;
  let! sz := gets size in
  let! v := gets va in
  if (sz =? 1) || ((match o_fix o with None => true | _ => false end) && IsShort (o_disp o - (v + 2))) then
    OutputByte 0xEB;; HandleRel8 o
  else OutputByte 0xE9;; HandleRel16 o.
(** sas.c:1283-1297 *)
Definition HandleJCC (fuel : nat) (cc : Z) : M st unit :=
  let! short := Accept TOK_SHORT in
  when short (upd (fun s => set_size s 1));;
  let! o := ParseOperand fuel in
  assert (is_lit o);;
  OutputByte (Z.lor 0x70 cc);;
  match o_fix o with
  | Some i => AddFixupHere i FIXUP_REL8;; let! v := gets va in OutputByte (- (v + 1))
  | None => let! v := gets va in OutputByte (o_disp o - (v + 1))
  end.
(** sas.c:1299-1316 *)
Definition HandleIncDec (fuel : nat) (dec : Z) : M st unit :=
  let! o := ParseOperand fuel in
  if is_reg o then
    if TOK_AX <=? o_disp o then OutputByte (Z.lor (Z.lor 0x40 (Z.shiftl dec 3)) (Z.land (o_disp o) 7))
    else OutputByte 0xFE;; OutputByte (Z.lor (Z.lor 0xC0 (Z.shiftl dec 3)) (Z.land (o_disp o) 7))
  else
    let! sz := gets size in
    assert (is_mem o && negb (sz =? 0));;
    OutputByte (Z.lor 0xFE (sz - 1));; OutputModRM o dec.
(** sas.c:1318-1335 *)
Definition HandlePUSH (fuel : nat) : M st unit :=
  let! o := ParseOperand fuel in
  if is_reg o then
    if TOK_ES <=? o_disp o then OutputByte (Z.lor 0x06 (Z.shiftl (o_disp o - TOK_ES) 3))
    else assert (TOK_AX <=? o_disp o);; OutputByte (Z.lor 0x50 (o_disp o - TOK_AX))
  else
    let! sz := gets size in
    assert (is_mem o && (sz =? 2));; OutputByte 0xFF;; OutputModRM o 6.
(** sas.c:1337-1348 *)
Definition HandlePOP (fuel : nat) : M st unit :=
  let! o := ParseOperand fuel in
  assert (is_reg o);;
  if TOK_ES <=? o_disp o then OutputByte (Z.lor 0x07 (Z.shiftl (o_disp o - TOK_ES) 3))
  else assert (TOK_AX <=? o_disp o);; OutputByte (Z.lor 0x58 (o_disp o - TOK_AX)).
(** sas.c:1350-1356 *)
Definition HandleINT (fuel : nat) : M st unit :=
  let! n := ParseNumber fuel in
  assert ((0 <=? n) && (n <? 256));; OutputByte 0xCD;; OutputByte n.
(** sas.c:1358-1381 *)
Definition HandleTEST (fuel : nat) : M st unit :=
  let! (a, b) := Parse2Operands fuel in
  if is_reg a then
    assert (is_lit b);;
    let w := TOK_AX <=? o_disp a in
    (if (o_disp a =? TOK_AL) || (o_disp a =? TOK_AX) then OutputByte (Z.lor 0xA8 (zb w))
     else OutputByte (Z.lor 0xF6 (zb w));; OutputByte (Z.lor 0xC0 (Z.land (o_disp a) 7)));;
    OutputImm b w
  else
    assert (is_mem a);; assert (is_lit b);;
    let! sz := gets size in
    assert (negb (sz =? 0));;
    OutputByte (Z.lor 0xF6 (sz - 1));; OutputModRM a 0;; OutputImm b (negb (sz =? 1)).
(** sas.c:1383-1400 *)
Definition HandleXCHG (fuel : nat) : M st unit :=
  let! (a, b) := Parse2Operands fuel in
  if is_reg a then
    let w := TOK_AX <=? o_disp a in
    if is_reg b then assert (o_disp a =? TOK_AX);; OutputByte (Z.lor 0x90 (Z.land (o_disp b) 7))
    else assert (is_mem b);; OutputByte (Z.lor 0x86 (zb w));; OutputModRM b (Z.land (o_disp a) 7)
  else fatal.
(** sas.c:1402-1420: MUL..IDIV and NOT, NEG *)
Definition HandleUnary (fuel : nat) (r : Z) : M st unit :=
  let! o := ParseOperand fuel in
  assert (is_reg o);;
  OutputByte (Z.lor 0xF6 (zb (TOK_AX <=? o_disp o)));;
  OutputByte (Z.lor (Z.lor 0xC0 (Z.shiftl r 3)) (Z.land (o_disp o) 7)).
(** sas.c:1422-1429 *)
Definition HandleLEA (fuel : nat) : M st unit :=
  let! (a, b) := Parse2Operands fuel in
  assert (is_reg a);; assert (is_mem b);; OutputMR 0x8D b a.
(** sas.c:1431-1550 *)
Definition HandleInstruction (fuel : nat) (i : Z) : M st unit :=
  match i with
  | 286 => HandleALU fuel 0x10 | 287 => HandleALU fuel 0x00 | 288 => HandleALU fuel 0x20
  | 289 => HandleCALL fuel | 290 => OutputByte 0x98 | 291 => OutputByte 0xF8 | 292 => OutputByte 0xFA
  | 293 => HandleALU fuel 0x38 | 294 => OutputByte 0xA6 | 295 => OutputByte 0x99
  | 296 => HandleIncDec fuel 1 | 297 => HandleUnary fuel 6 | 298 => HandleUnary fuel 7 | 299 => HandleUnary fuel 5
  | 300 => HandleIncDec fuel 0 | 301 => HandleINT fuel | 302 => HandleJMP fuel | 303 => HandleLEA fuel
  | 304 => OutputByte 0xAC | 305 => HandleMOV fuel | 306 => OutputByte 0xA4 | 307 => HandleUnary fuel 4
  | 308 => HandleUnary fuel 3 | 309 => HandleUnary fuel 2 | 310 => HandleALU fuel 0x08
  | 311 => HandlePOP fuel | 312 => HandlePUSH fuel | 313 => OutputByte 0xF3 | 314 => OutputByte 0xC3
  | 315 => HandleROT fuel 7 | 316 => HandleALU fuel 0x18 | 317 => HandleROT fuel 4 | 318 => HandleROT fuel 5
  | 319 => OutputByte 0xF9 | 320 => OutputByte 0xFB | 321 => OutputByte 0xAA | 322 => OutputByte 0xAB
  | 323 => HandleALU fuel 0x28 | 324 => HandleTEST fuel | 325 => HandleXCHG fuel | 326 => HandleALU fuel 0x30
  | _ => if (TOK_JO <=? i) && (i <=? TOK_JG) then HandleJCC fuel (i - TOK_JO) else fatal
  end.

(** * The main loop *)
(** resolving one fixup at a label's definition, sas.c:1632-1645 *)
Definition resolve (v : Z) (o : arr Z) (f : fixkind * Z) : arr Z :=
  let (k, p) := f in
  match k with
  | FIXUP_REL8 => aset o p ((aget o p + v) mod 256)
  | _ => let x := v + (aget o p + 256 * aget o (p + 1)) in
         aset (aset o p (x mod 256)) (p + 1) (Z.shiftr x 8 mod 256)
  end.
(** sas.c:1622-1657 *)
Definition define_label (i : Z) : M st unit :=
  let! s := gets (fun s => s) in
  let L := aget (labels s) i in
  match l_type L with
  | LABEL_NONE => upd (fun s => set_labels s (aset (labels s) i (mklab LABEL_NORMAL (va s) [])))
  | _ =>
    assert (l_val L =? -1);;
    if (va s =? -1) && negb (match l_fix L with [] => true | _ => false end) then undef
    else upd (fun s =>
      set_free (set_labels (set_out s (fold_left (resolve (va s)) (l_fix L) (out s)) (pos s) (va s))
                  (aset (labels s) i (mklab (l_type L) (va s) (l_fix L))))
               (free s + Z.of_nat (length (l_fix L))))
  end.
(** sas.c:1658-1665: the local labels (names starting with a dot) are forgotten *)
Fixpoint retire (k : nat) (ns : list (list Z)) (ls : arr label) : arr label :=
  match k with
  | O => ls
  | S k =>
      let ls := retire k ns ls in
      let i := Z.of_nat k in
      let L := aget ls i in
      match l_type L with
      | LABEL_NONE => ls
      | _ => if cur (nth (Z.to_nat (i + BUILTINS)) ns []) =? 46
             then aset ls i (mklab LABEL_NONE (l_val L) (l_fix L)) else ls
      end
  end.
Definition retire_locals : M st unit :=
  upd (fun s => set_labels s (retire (Z.to_nat (Z.of_nat (length (names s)) - BUILTINS)) (names s) (labels s))).
(** one round of the loop, sas.c:1616-1684 *)
Definition statement (fuel : nat) : M st unit :=
  let! t := gets tok in
  if TOK_USER_ID <=? t then
    let i := t - TOK_USER_ID in
    let! ns := gets names in
    let global := negb (cur (nth (Z.to_nat (t - TOK_ID)) ns []) =? 46) in
    GetToken;;
    let! colon := Accept TOK_COLON in
    if colon then define_label i;; when global retire_locals
    else
      let! equ := Accept TOK_EQU in
      if equ then
        let! ls := gets labels in
        (match l_type (aget ls i) with LABEL_NONE => ret tt | _ => fatal end);;
        upd (fun s => set_labels s (aset (labels s) i (mklab LABEL_EQU (l_val (aget (labels s) i)) (l_fix (aget (labels s) i)))));;
        let! n := ParseNumber fuel in
        upd (fun s => set_labels s (aset (labels s) i (mklab LABEL_EQU n (l_fix (aget (labels s) i)))))
      else fatal
  else if t <? TOK_DIRECTIVE then fatal
  else
    GetToken;;
    upd (fun s => set_size s 0);;
    if t <? TOK_INST then HandleDirective fuel t else HandleInstruction fuel t.
Fixpoint main_loop (fuel : nat) : M st unit :=
  match fuel with
  | O => nofuel
  | S fuel =>
      let! t := gets tok in
      if t =? 0 then ret tt else statement fuel;; main_loop fuel
  end.
(** sas.c:1581-1693 without the file names: the bytes written for an input file *)
Definition sas_main (fuel : nat) : M st unit := AddBuiltins builtin_names;; GetToken;; main_loop fuel.
Fixpoint out_list (n : nat) (o : arr Z) (p : Z) : list Z :=
  match n with O => [] | S n => aget o p :: out_list n o (p + 1) end.
Definition assemble (fuel : nat) (file : list Z) : outcome (list Z) :=
  match sas_main fuel (st0 (map s8 file)) with
  | Ok (_, s) => Ok (out_list (Z.to_nat (pos s)) (out s) 0)
  | Fatal => Fatal | UB => UB | OutOfFuel => OutOfFuel
  end.
End Width.
