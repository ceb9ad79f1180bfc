(** Model of the run-time library lib.h (the __SCC__ branch): the functions written
    in machine code as their bytes, ParseArgs on the bytes of the data segment, and
    vsprintf / the compiler's own VSPrintf on a format and an argument list. *)
From Coq Require Import String Ascii.
From Verif Require Import Base.
Local Open Scope list_scope.

(** * Functions written with _emit *)
(** scc.c:3250-3310 (ParseExternalDefition): the frame the compiler puts around a body
    without locals: PUSH BP; MOV BP,SP ... POP BP; RET *)
Definition framed (body : list Z) : list Z := [0x55; 0x89; 0xE5] ++ body ++ [0x5D; 0xC3].

(** lib.h:38-44 *)
Definition memcpy_body : list Z :=
  [0x8B; 0x7E; 0x04;  (* MOV DI,[BP+4] *)
   0x8B; 0x76; 0x06;  (* MOV SI,[BP+6] *)
   0x8B; 0x4E; 0x08;  (* MOV CX,[BP+8] *)
   0xF3; 0xA4].       (* REP MOVSB *)
(** lib.h:46-52 *)
Definition memset_body : list Z :=
  [0x8B; 0x7E; 0x04;  (* MOV DI,[BP+4] *)
   0x8B; 0x46; 0x06;  (* MOV AX,[BP+6] *)
   0x8B; 0x4E; 0x08;  (* MOV CX,[BP+8] *)
   0xF3; 0xAA].       (* REP STOSB *)
(** lib.h:272-284 *)
Definition strcmp_body : list Z :=
  [0x8B; 0x76; 0x04;  (* MOV SI,[BP+4] *)
   0x8B; 0x7E; 0x06;  (* MOV DI,[BP+6] *)
   0xAC;              (* L: LODSB *)
   0x8A; 0x25;        (* MOV AH,[DI] *)
   0x47;              (* INC DI *)
   0x28; 0xE0;        (* SUB AL,AH *)
   0x75; 0x04;        (* JNZ DONE *)
   0x20; 0xE4;        (* AND AH,AH *)
   0x75; 0xF4;        (* JNZ L *)
   0x98].             (* DONE: CBW *)
(** lib.h:286-296 *)
Definition strlen_body : list Z :=
  [0x8B; 0x4E; 0x04;  (* MOV CX,[BP+4] *)
   0x89; 0xCE;        (* MOV SI,CX *)
   0xAC;              (* L: LODSB *)
   0x20; 0xC0;        (* AND AL,AL *)
   0x75; 0xFB;        (* JNZ L *)
   0x96;              (* XCHG AX,SI *)
   0x29; 0xC8;        (* SUB AX,CX *)
   0x48].             (* DEC AX *)
(** lib.h:308-316 *)
Definition FarPeek_body : list Z :=
  [0x1E;              (* PUSH DS *)
   0x8E; 0x5E; 0x04;  (* MOV DS,[BP+4] *)
   0x8B; 0x76; 0x06;  (* MOV SI,[BP+6] *)
   0xAC;              (* LODSB *)
   0x30; 0xE4;        (* XOR AH,AH *)
   0x1F].             (* POP DS *)
(** lib.h:318-326 *)
Definition FarPoke_body : list Z :=
  [0x06;              (* PUSH ES *)
   0x8E; 0x46; 0x04;  (* MOV ES,[BP+4] *)
   0x8B; 0x7E; 0x06;  (* MOV DI,[BP+6] *)
   0x8A; 0x46; 0x08;  (* MOV AL,[BP+8] *)
   0xAA;              (* STOSB *)
   0x07].             (* POP ES *)
(** lib.h:328-335 *)
Definition clock_body : list Z :=
  [0x31; 0xC0;        (* XOR AX,AX *)
   0x8E; 0xD8;        (* MOV DS,AX *)
   0xA1; 0x6C; 0x04;  (* MOV AX,[0x46C] *)
   0x0E;              (* PUSH CS *)
   0x1F].             (* POP DS *)

(** * ParseArgs, on the data segment (bytes by offset) *)
(** lib.h:134, "while ( *p && *p <= ' ') ++p"; char is signed *)
Fixpoint skip_blank (fuel : nat) (m : arr Z) (p : Z) : outcome Z :=
  match fuel with
  | O => OutOfFuel
  | S k => let c := aget m p in if negb (c =? 0) && (s8 c <=? 32) then skip_blank k m (p + 1) else Ok p
  end.
(** lib.h:139, "while ( *p && *p > ' ') ++p" *)
Fixpoint skip_word (fuel : nat) (m : arr Z) (p : Z) : outcome Z :=
  match fuel with
  | O => OutOfFuel
  | S k => let c := aget m p in if negb (c =? 0) && (32 <? s8 c) then skip_word k m (p + 1) else Ok p
  end.
(** a 16-bit store; lib.h:123,127: Args[i] is the word at 0x5C + 2 i *)
Definition put16 (m : arr Z) (a v : Z) : arr Z := aset (aset m a (u8 v)) (a + 1) (u8 (v / 256)).
Definition ARGV : Z := 0x5C.
(** lib.h:133-144: the loop; p is CmdLine, n is NumArgs *)
Fixpoint args_loop (fuel : nat) (m : arr Z) (p n : Z) : outcome (arr Z * Z) :=
  match fuel with
  | O => OutOfFuel
  | S k =>
      obind (skip_blank k m p) (fun p =>
      if aget m p =? 0 then Ok (m, n) else
      let m := put16 m (ARGV + 2 * n) p in
      let n := n + 1 in
      obind (skip_word k m p) (fun p =>
      if aget m p =? 0 then Ok (m, n) else
      args_loop k (aset m p 0) (p + 1) n))
  end.
(** lib.h:125-147; q is the address of the string "???"; the result is the memory and NumArgs *)
Definition ParseArgs (fuel : nat) (q : Z) (m : arr Z) : outcome (arr Z * Z) :=
  let len := Z.land (aget m 0x80) 0x7f in
  let m := aset m (0x81 + len) 0 in
  let m := put16 m ARGV q in
  obind (args_loop fuel m 0x81 1) (fun '(m, n) => Ok (put16 m (ARGV + 2 * n) 0, n)).

(** * vsprintf *)
(** what va_arg finds: an int (signed, of the width of int) or a pointer to a string *)
Inductive varg := AInt (n : Z) | AStr (l : list Z).

(** lib.h:208-212 and scc.c:479-482: the digits are stored downwards in TempBuf, of which
    [room] bytes are left; w is the width still to fill *)
Fixpoint dec_loop (fuel : nat) (room n w : Z) (buf : list Z) : outcome (Z * Z * list Z) :=
  match fuel with
  | O => OutOfFuel
  | S k =>
      if room =? 0 then UB else
      let buf := u8 (48 + Z.rem n 10) :: buf in
      let n := Z.quot n 10 in
      if n =? 0 then Ok (room - 1, w - 1, buf) else dec_loop k (room - 1) n (w - 1) buf
  end.
(** lib.h:200-219, scc.c:471-484: the text of an int and the width left over.
    TempBuf has 9 bytes, one of them for the terminator *)
Definition cvt_dec (W : Z) (always : bool) (n w : Z) : outcome (Z * list Z) :=
  let s := n <? 0 in
  let n := if s then ws W (- n) else n in
  obind (dec_loop 40 8 n w []) (fun '(room, w, buf) =>
  if s || always then
    if room =? 0 then UB else Ok (w - 1, (if s then 45 else 43) :: buf)
  else Ok (w, buf)).
(** lib.h:227-229: digits i .. 0; the shift count is in CL, 8 bits, and the 8086 shifts as
    often as it says *)
Fixpoint cvt_hex (i : nat) (n : Z) : list Z :=
  match i with
  | O => []
  | S k => let d := Z.land (Z.shiftr n ((Z.of_nat k * 4) mod 256)) 15 in
           (if d <? 10 then 48 + d else 55 + d) :: cvt_hex k n
  end.
(** lib.h:176-184: flag and width; None is the end of the format (reading on is undefined) *)
Fixpoint width (fmt : list Z) (fill w : Z) : option (Z * Z * Z * list Z) :=
  match fmt with
  | [] => None
  | ch :: fmt =>
      if (w =? 0) && (ch =? 48) then width fmt 48 w
      else if (48 <=? s8 ch) && (s8 ch <=? 57) then width fmt fill (s16 (w * 10 + ch - 48))
      else Some (fill, w, ch, fmt)
  end.
(** lib.h:165-236: what is written to dest, without the terminator *)
Fixpoint vsprintf_loop (fuel : nat) (fmt : list Z) (args : list varg) : outcome (list Z) :=
  match fuel with
  | O => OutOfFuel
  | S k =>
    let out l rest args := obind (vsprintf_loop k rest args) (fun r => Ok (l ++ r)) in
    match fmt with
    | [] => Ok []
    | ch :: fmt =>
      if negb (ch =? 37) then out [ch] fmt args else
      match width fmt 32 0 with
      | None => UB
      | Some (fill, w, ch, fmt) =>
        let dec always fmt :=
          match args with
          | AInt n :: args =>
              obind (cvt_dec 16 always n w) (fun '(w, l) => out (repeat fill (Z.to_nat w) ++ l) fmt args)
          | _ => UB
          end in
        if ch =? 115 then match args with AStr l :: args => out l fmt args | _ => UB end
        else if ch =? 99 then match args with AInt n :: args => out [u8 n] fmt args | _ => UB end
        else if (ch =? 43) && (match fmt with c :: _ => c =? 100 | [] => false end) then dec true (tl fmt)
        else if ch =? 100 then dec false fmt
        else if (ch =? 120) || (ch =? 88) then
          match args with
          | AInt n :: args => out (cvt_hex (Z.to_nat (if w =? 0 then 4 else w)) n) fmt args
          | _ => UB
          end
        else out [ch] fmt args
      end
    end
  end.
Definition vsprintf (fmt : list Z) (args : list varg) : outcome (list Z) := vsprintf_loop (S (length fmt)) fmt args.

(** scc.c:437-444 (sas.c: the same as CvtHex in the compiler) *)
Definition CvtHex (n : Z) : list Z := cvt_hex 4 n.
(** scc.c:446-492: no widths, and an unknown conversion is dropped; W is the width of int *)
Fixpoint VSPrintf_loop (W : Z) (fuel : nat) (fmt : list Z) (args : list varg) : outcome (list Z) :=
  match fuel with
  | O => OutOfFuel
  | S k =>
    let out l rest args := obind (VSPrintf_loop W k rest args) (fun r => Ok (l ++ r)) in
    match fmt with
    | [] => Ok []
    | ch :: fmt =>
      if negb (ch =? 37) then out [ch] fmt args else
      match fmt with
      | [] => UB
      | ch :: fmt =>
        let dec always fmt :=
          match args with
          | AInt n :: args => obind (cvt_dec W always n 0) (fun '(_, l) => out l fmt args)
          | _ => UB
          end in
        if ch =? 115 then match args with AStr l :: args => out l fmt args | _ => UB end
        else if ch =? 99 then match args with AInt n :: args => out [u8 n] fmt args | _ => UB end
        else if (ch =? 43) && (match fmt with c :: _ => c =? 100 | [] => false end) then dec true (tl fmt)
        else if ch =? 100 then dec false fmt
        else if ch =? 88 then match args with AInt n :: args => out (CvtHex n) fmt args | _ => UB end
        else out [] fmt args
      end
    end
  end.
Definition VSPrintf (W : Z) (fmt : list Z) (args : list varg) : outcome (list Z) := VSPrintf_loop W (S (length fmt)) fmt args.
