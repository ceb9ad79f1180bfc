(** Model of the simulator /repo/sim86.c.

    [W] is the width of the C type int of the build: 32 on the host, 16 when
    sim86.c is compiled by scc (README.md).  Values of type int are kept as
    signed W-bit integers, values of type unsigned as 0..2^W-1; conversions
    are explicit.  Register arithmetic that could overflow a host int wraps
    (two's complement); verbose output, profiling and the file calls of
    INT 21h are not modelled (the latter surface as the event [ESys]). *)
From Verif Require Import Base Spec8086.

(** sim86.c:24-33, 35-40: operation numbers and flag bits *)
Definition OP_ADD := 0.
Definition OP_OR := 1.
Definition OP_ADC := 2.
Definition OP_SBB := 3.
Definition OP_AND := 4.
Definition OP_SUB := 5.
Definition OP_XOR := 6.
Definition OP_CMP := 7.
Definition FC := 1.
Definition FZ := 64.
Definition FS := 128.
Definition FO := 2048.

(** sim86.c:46-61: the globals.  [reg]/[sreg] reuse the containers of the
    specification for storage only; the contents are C ints. *)
Record sim := mksim {
  reg : regs; sreg : sregs; sip : Z; sflags : Z; smem : arr Z;
  modrm : Z; addr : Z; dsize : Z; seg : Z }.

Definition set_reg_ s x := mksim x (sreg s) (sip s) (sflags s) (smem s) (modrm s) (addr s) (dsize s) (seg s).
Definition set_sreg_ s x := mksim (reg s) x (sip s) (sflags s) (smem s) (modrm s) (addr s) (dsize s) (seg s).
Definition set_ip_ s x := mksim (reg s) (sreg s) x (sflags s) (smem s) (modrm s) (addr s) (dsize s) (seg s).
Definition set_flags_ s x := mksim (reg s) (sreg s) (sip s) x (smem s) (modrm s) (addr s) (dsize s) (seg s).
Definition set_mem_ s x := mksim (reg s) (sreg s) (sip s) (sflags s) x (modrm s) (addr s) (dsize s) (seg s).
Definition set_modrm_ s x := mksim (reg s) (sreg s) (sip s) (sflags s) (smem s) x (addr s) (dsize s) (seg s).
Definition set_addr_ s x := mksim (reg s) (sreg s) (sip s) (sflags s) (smem s) (modrm s) x (dsize s) (seg s).
Definition set_dsize_ s x := mksim (reg s) (sreg s) (sip s) (sflags s) (smem s) (modrm s) (addr s) x (seg s).
Definition set_seg_ s x := mksim (reg s) (sreg s) (sip s) (sflags s) (smem s) (modrm s) (addr s) (dsize s) x.

(** what one loop iteration of main reports to the outside *)
Inductive event := ENone | EOut (c : Z) | EExit (c : Z) | ESys (func : Z).

Local Open Scope out_scope.

Section Sim.
  Variable W : Z.
  Definition int_ (x : Z) : Z := ws W x.   (* conversion to int *)
  Definition uns (x : Z) : Z := wu W x.    (* conversion to unsigned *)

  (** sim86.c:94-99 TRIM, MAKEADDR (and FarPeek/FarPoke, lib.h:308-326, whose
      hardware address computation is the same function) *)
  Definition TRIM (x : Z) : Z := if W =? 16 then x else Z.land x 65535.
  Definition MAKEADDR (s : sim) (sr off : Z) : Z :=
    Z.land (Z.land (sget (sreg s) sr) 65535 * 16 + Z.land off 65535) 1048575.

  (** sim86.c:170-181 *)
  Definition Read8 (s : sim) (sr off : Z) : Z := Z.land (aget (smem s) (MAKEADDR s sr off)) 255.
  (** sim86.c:183-186 *)
  Definition Read16 (s : sim) (sr off : Z) : Z :=
    int_ (Z.lor (Read8 s sr off) (Z.shiftl (Read8 s sr (int_ (off + 1))) 8)).
  (** sim86.c:188-199 *)
  Definition Write8 (s : sim) (sr off val : Z) : sim :=
    set_mem_ s (aset (smem s) (MAKEADDR s sr off) (Z.land val 255)).
  (** sim86.c:201-205 *)
  Definition Write16 (s : sim) (sr off val : Z) : sim :=
    Write8 (Write8 s sr off val) sr (int_ (off + 1)) (Z.shiftr val 8).

  (** sim86.c:207-210 *)
  Definition ReadIByte (s : sim) : Z * sim :=
    (Read8 s 1 (sip s), set_ip_ s (int_ (sip s + 1))).
  (** sim86.c:212-216 *)
  Definition Imm16 (s : sim) : Z * sim :=
    let '(l, s) := ReadIByte s in
    let '(h, s) := ReadIByte s in
    (int_ (Z.lor l (Z.shiftl h 8)), s).

  (** sim86.c:218-275 *)
  Definition default_seg (s : sim) (sr : Z) : sim := if seg s =? -1 then set_seg_ s sr else s.
  Definition addaddr (s : sim) (v : Z) : sim := set_addr_ s (int_ (addr s + v)).
  (** sim86.c:261-274: the second switch *)
  Definition ModRM_regs (s : sim) : sim :=
    let r := reg s in
    match Z.land (modrm s) 7 with
    | 0 => default_seg (addaddr s (bx r + si r)) 3
    | 1 => default_seg (addaddr s (bx r + di r)) 3
    | 2 => default_seg (addaddr s (bp r + si r)) 2
    | 3 => default_seg (addaddr s (bp r + di r)) 2
    | 4 => default_seg (addaddr s (si r)) 3
    | 5 => default_seg (addaddr s (di r)) 3
    | 6 => default_seg (addaddr s (bp r)) 2
    | _ => default_seg (addaddr s (bx r)) 3
    end.
  Definition ModRM (s : sim) : outcome sim :=
    do _ <- oassert (modrm s =? -1);
    let '(m, s) := ReadIByte s in
    let s := set_modrm_ s m in
    match Z.shiftr m 6 with
    | 0 => if Z.land m 7 =? 6 then
             let '(i, s) := Imm16 s in Ok (default_seg (addaddr s i) 3)
           else Ok (ModRM_regs s)
    | 1 => let '(b, s) := ReadIByte s in Ok (ModRM_regs (addaddr s (s8 b)))
    | 2 => let '(i, s) := Imm16 s in Ok (ModRM_regs (addaddr s i))
    | _ => Ok s
    end.

  (** sim86.c:277-282 *)
  Definition ReadReg (s : sim) (r : Z) : Z :=
    if dsize s =? 0 then Z.shiftr (rget (reg s) (Z.land r 3)) (Z.shiftl (Z.land r 4) 1)
    else rget (reg s) r.
  (** sim86.c:284-297; [val] is unsigned *)
  Definition WriteReg (s : sim) (r val : Z) : sim :=
    if dsize s =? 0 then
      let h := Z.land r 4 in
      let r := Z.land r 3 in
      let old := rget (reg s) r in
      if h =? 0 then
        set_reg_ s (rset (reg s) r (int_ (Z.lor (Z.land old 65280) (Z.land val 255))))
      else
        set_reg_ s (rset (reg s) r (int_ (Z.lor (Z.land old 255) (Z.shiftl val 8))))
    else set_reg_ s (rset (reg s) r (int_ val)).

  (** sim86.c:299-307 *)
  Definition ReadRM (s : sim) : outcome Z :=
    do _ <- oassert (negb (modrm s =? -1));
    if Z.shiftr (modrm s) 6 =? 3 then Ok (ReadReg s (Z.land (modrm s) 7))
    else
      do _ <- oassert (negb (seg s =? -1));
      Ok (if dsize s =? 0 then Read8 s (seg s) (addr s) else Read16 s (seg s) (addr s)).
  (** sim86.c:309-320 *)
  Definition WriteRM (s : sim) (val : Z) : outcome sim :=
    if Z.shiftr (modrm s) 6 =? 3 then Ok (WriteReg s (Z.land (modrm s) 7) (uns val))
    else
      do _ <- oassert (negb (seg s =? -1));
      Ok (if dsize s =? 0 then Write8 s (seg s) (addr s) val else Write16 s (seg s) (addr s) val).

  (** sim86.c:322-326 *)
  Definition DoPush (s : sim) (val : Z) : sim :=
    let s := set_reg_ s (rset (reg s) 4 (int_ (sp (reg s) - 2))) in
    Write16 s 2 (sp (reg s)) val.
  (** sim86.c:328-333 *)
  Definition DoPop (s : sim) : Z * sim :=
    let v := Read16 s 2 (sp (reg s)) in
    (v, set_reg_ s (rset (reg s) 4 (int_ (sp (reg s) + 2)))).

  (** sim86.c:345-374: result and carry vector of an operation, l and r already
      masked to a byte when dsize is 0 *)
  Definition op_result (op l r cf : Z) : option (Z * Z) :=
    let unot x := uns (Z.lnot x) in
    let addc res := Z.lor (Z.land l r) (Z.land (Z.lor l r) (unot res)) in
    let subc res := Z.lor (Z.land (unot l) r) (Z.land (unot (Z.lxor l r)) res) in
    match op with
    | 0 => let res := uns (l + r) in Some (res, addc res)
    | 1 => Some (Z.lor l r, 0)
    | 2 => let res := uns (l + r + cf) in Some (res, addc res)
    | 3 => let res := uns (l - r - cf) in Some (res, subc res)
    | 4 => Some (Z.land l r, 0)
    | 5 | 7 => let res := uns (l - r) in Some (res, subc res)
    | 6 => Some (Z.lxor l r, 0)
    | _ => None
    end.
  (** sim86.c:375-384: the new flags *)
  Definition op_flags (dsz res carry : Z) : Z :=
    let mask := if dsz =? 0 then 128 else 32768 in
    let f := 0 in
    let f := if Z.land res mask =? 0 then f else Z.lor f FS in
    let f := if TRIM res =? 0 then Z.lor f FZ else f in
    let f := if Z.land carry mask =? 0 then f else Z.lor f FC in
    let f := if Z.land (Z.lxor (uns (Z.shiftl carry 1)) carry) mask =? 0 then f else Z.lor f FO in
    f.
  (** sim86.c:335-385; l and r are unsigned *)
  Definition DoOp (s : sim) (op l r : Z) : outcome sim :=
    let l := if dsize s =? 0 then Z.land l 255 else l in
    let r := if dsize s =? 0 then Z.land r 255 else r in
    match op_result op l r (Z.land (sflags s) FC) with
    | None => Fatal
    | Some (res, carry) =>
        let s := set_flags_ s (op_flags (dsize s) res carry) in
        if op =? OP_CMP then Ok s else WriteRM s (int_ res)
    end.

  (** sim86.c:387-402 *)
  Definition ALUOp (s : sim) (op swap : Z) : outcome sim :=
    do s <- ModRM s;
    let r := Z.land (Z.shiftr (modrm s) 3) 7 in
    do rmval <- ReadRM s;
    let rval := ReadReg s r in
    if swap =? 0 then DoOp s op (uns rmval) (uns rval)
    else DoOp (set_modrm_ s (Z.lor 192 r)) op (uns rval) (uns rmval).

  (** sim86.c:404-415 *)
  Definition MOV (s : sim) (swap : Z) : outcome sim :=
    do s <- ModRM s;
    let r := Z.land (Z.shiftr (modrm s) 3) 7 in
    if swap =? 0 then WriteRM s (ReadReg s r)
    else do v <- ReadRM s; Ok (WriteReg s r (uns v)).

  (** sim86.c:458-462 *)
  Definition JMP (s : sim) (rel : Z) : sim := set_ip_ s (int_ (sip s + rel)).
  (** sim86.c:464-468, 470-474 *)
  Definition PUSH (s : sim) (r : Z) : sim := DoPush s (rget (reg s) r).
  Definition POP (s : sim) (r : Z) : sim :=
    let '(v, s) := DoPop s in set_reg_ s (rset (reg s) r v).

  (** sim86.c:476-518 *)
  Definition flag_set (s : sim) (f : Z) : bool := negb (Z.land (sflags s) f =? 0).
  Definition JCC (s : sim) (cc : Z) : outcome sim :=
    let '(b, s) := ReadIByte s in
    let rel := s8 b in
    let e := Z.land cc 1 =? 0 in
    let go (j : bool) := Ok (if Bool.eqb j e then set_ip_ s (int_ (sip s + rel)) else s) in
    match Z.shiftr cc 1 with
    | 0 => go (flag_set s FO)
    | 1 => go (flag_set s FC)
    | 2 => go (flag_set s FZ)
    | 3 => go (flag_set s FZ || flag_set s FC)
    | 4 => go (flag_set s FS)
    | 6 => go (xorb (flag_set s FS) (flag_set s FO))
    | 7 => go (flag_set s FZ || xorb (flag_set s FS) (flag_set s FO))
    | _ => Fatal
    end.

  (** sim86.c:520-525 *)
  Definition DoIncDec (s : sim) (v : Z) : outcome sim :=
    do x <- ReadRM s; WriteRM s (int_ (x + v)).

  (** sim86.c:632-690: 20h and 21h/02h, 4Ch; other DOS functions are left to the
      environment ([ESys]), unknown ones are fatal *)
  Definition INT (s : sim) : outcome (event * sim) :=
    let '(intr, s) := ReadIByte s in
    if intr =? 32 then Ok (EExit 0, s)
    else if negb (intr =? 33) then Fatal
    else
      let func := Z.land (Z.shiftr (ax (reg s)) 8) 255 in
      if func =? 2 then Ok (EOut (Z.land (dx (reg s)) 255), s)
      else if (60 <=? func) && (func <=? 64) then Ok (ESys func, s)
      else if func =? 76 then Ok (EExit (Z.land (ax (reg s)) 255), s)
      else Fatal.

  (** number of iterations of the loops [while (reg[R_CX])] / [while (iter--)]
      started with value x (sim86.c:950-1041).  A negative 32-bit counter runs
      into signed overflow. *)
  Definition loop_count (x : Z) : outcome nat :=
    if W =? 16 then Ok (Z.to_nat (uns x))
    else if x <? 0 then UB else Ok (Z.to_nat x).

  Definition upd (s : sim) (r v : Z) : sim := set_reg_ s (rset (reg s) r (int_ v)).

  (** sim86.c:946-957, body of REP MOVSB *)
  Fixpoint rep_movsb (n : nat) (s : sim) : sim :=
    match n with
    | O => s
    | S n =>
        let s := Write8 s 0 (di (reg s)) (Read8 s 3 (si (reg s))) in
        let s := upd s 1 (cx (reg s) - 1) in
        let s := upd s 7 (di (reg s) + 1) in
        let s := upd s 6 (si (reg s) + 1) in
        rep_movsb n s
    end.
  (** sim86.c:958-969 *)
  Fixpoint rep_movsw (n : nat) (s : sim) : sim :=
    match n with
    | O => s
    | S n =>
        let s := Write16 s 0 (di (reg s)) (Read16 s 3 (si (reg s))) in
        let s := upd s 1 (cx (reg s) - 1) in
        let s := upd s 7 (di (reg s) + 2) in
        let s := upd s 6 (si (reg s) + 2) in
        rep_movsw n s
    end.
  (** sim86.c:970-982 *)
  Fixpoint rep_cmpsb (n : nat) (s : sim) : outcome sim :=
    match n with
    | O => Ok s
    | S n =>
        if flag_set s FZ then
          do s <- DoOp s OP_CMP (uns (Read8 s 3 (si (reg s)))) (uns (Read8 s 0 (di (reg s))));
          let s := upd s 1 (cx (reg s) - 1) in
          let s := upd s 7 (di (reg s) + 1) in
          let s := upd s 6 (si (reg s) + 1) in
          rep_cmpsb n s
        else Ok s
    end.
  (** sim86.c:983-999; the stored value v is fixed before the loop *)
  Fixpoint rep_stosb (n : nat) (v : Z) (s : sim) : sim :=
    match n with
    | O => s
    | S n =>
        let s := Write8 s 0 (di (reg s)) v in
        rep_stosb n v (upd s 7 (di (reg s) + 1))
    end.
  (** sim86.c:1000-1017 *)
  Fixpoint rep_stosw (n : nat) (v : Z) (s : sim) : sim :=
    match n with
    | O => s
    | S n =>
        let s := Write16 s 0 (di (reg s)) v in
        rep_stosw n v (upd s 7 (di (reg s) + 2))
    end.
  (** sim86.c:1035-1047 *)
  Fixpoint rep_scasb (n : nat) (s : sim) : outcome sim :=
    match n with
    | O => Ok s
    | S n =>
        if flag_set s FZ then Ok s else
          do s <- DoOp s OP_CMP (uns (Z.land (ax (reg s)) 255)) (uns (Read8 s 0 (di (reg s))));
          let s := upd s 1 (cx (reg s) - 1) in
          let s := upd s 7 (di (reg s) + 1) in
          rep_scasb n s
    end.

  (** sim86.c:1071-1130: value, carry of a shift of v by a (1 for D1, CX&15 for D3) *)
  Definition shift_result (k v a : Z) : option (Z * Z) :=
    match k with
    | 4 => Some (uns (Z.shiftl v a), if a =? 0 then 0 else Z.land (uns (Z.shiftl v (a - 1))) 32768)
    | 5 => Some (Z.shiftr v a, if a =? 0 then 0 else Z.land (Z.shiftr v (a - 1)) 1)
    | 7 => Some (uns (Z.shiftr (int_ v) a), if a =? 0 then 0 else Z.land (Z.shiftr v (a - 1)) 1)
    | _ => None
    end.
  Definition do_shift (s : sim) (a : Z) : outcome sim :=
    do s <- ModRM s;
    do v <- ReadRM s;
    match shift_result (Z.land (Z.shiftr (modrm s) 3) 7) (uns v) a with
    | None => Fatal
    | Some (res, c) =>
        do s <- WriteRM s (int_ res);
        let f := if c =? 0 then 0 else FC in
        Ok (set_flags_ s (if res =? 0 then Z.lor f FZ else f))
    end.

  (** sim86.c:1131-1189: opcode F7 *)
  Definition do_f7 (s : sim) : outcome sim :=
    do s <- ModRM s;
    match Z.land (Z.shiftr (modrm s) 3) 7 with
    | 2 => do v <- ReadRM s; WriteRM s (Z.lnot v)
    | 3 => do v <- ReadRM s; WriteRM s (int_ (- v))
    | 4 | 5 =>
        do m <- ReadRM s;
        let s := set_reg_ s (rset (reg s) 0 (int_ (uns (ax (reg s)) * uns m))) in
        Ok (set_reg_ s (rset (reg s) 2 0))
    | 6 =>
        do d <- ReadRM s;
        let d := uns d in
        do _ <- oassert (dx (reg s) =? 0);
        if d =? 0 then UB else
        let a := uns (ax (reg s)) in
        let s := set_reg_ s (rset (reg s) 2 (int_ (a mod d))) in
        Ok (set_reg_ s (rset (reg s) 0 (int_ (a / d))))
    | 7 =>
        do d <- ReadRM s;
        do _ <- oassert (dx (reg s) =? (if Z.land (ax (reg s)) 32768 =? 0 then 0 else -1));
        let a := ax (reg s) in
        if (d =? 0) || ((a =? - 2 ^ (W - 1)) && (d =? -1)) then UB else
        let s := set_reg_ s (rset (reg s) 2 (Z.rem a d)) in
        Ok (set_reg_ s (rset (reg s) 0 (Z.quot a d)))
    | _ => Fatal
    end.

  (** sim86.c:1190-1217: opcodes FE, FF *)
  Definition do_fe (s : sim) : outcome sim :=
    do s <- ModRM s;
    match Z.land (Z.shiftr (modrm s) 3) 7 with
    | 0 => DoIncDec s 1
    | 1 => DoIncDec s (-1)
    | 2 => let s := DoPush s (sip s) in
           do v <- ReadRM s; Ok (set_ip_ s v)
    | _ => Fatal
    end.

  Definition ret1 (x : outcome sim) : outcome (event * sim) := do s <- x; Ok (ENone, s).

  (** sim86.c:853-1222: the switch on the remaining opcodes *)
  Definition exec_switch (rep inst : Z) (s : sim) : outcome (event * sim) :=
    match inst with
    | 128 | 129 | 130 | 131 => ret1 (
        do s <- ModRM (set_dsize_ s (Z.land inst 1));
        let '(imm, s) := if inst =? 129 then Imm16 s
                         else let '(b, s) := ReadIByte s in (s8 b, s) in
        do v <- ReadRM s;
        DoOp s (Z.land (Z.shiftr (modrm s) 3) 7) (uns v) (uns imm))
    | 136 | 137 | 138 | 139 => ret1 (MOV (set_dsize_ s (Z.land inst 1)) (Z.land inst 2))
    | 140 => ret1 (
        do s <- ModRM s;
        let r := Z.land (Z.shiftr (modrm s) 3) 7 in
        do _ <- oassert (r <? 4);
        WriteRM s (sget (sreg s) r))
    | 141 => ret1 (
        do s <- ModRM s;
        Ok (set_reg_ s (rset (reg s) (Z.land (Z.shiftr (modrm s) 3) 7) (addr s))))
    | 142 => ret1 (
        do s <- ModRM s;
        let r := Z.land (Z.shiftr (modrm s) 3) 7 in
        do _ <- oassert (r <? 4);
        do v <- ReadRM s;
        Ok (set_sreg_ s (sset (sreg s) r v)))
    | 152 => Ok (ENone, set_reg_ s (rset (reg s) 0 (s8 (ax (reg s)))))
    | 153 => Ok (ENone, set_reg_ s (rset (reg s) 2 (if Z.land (ax (reg s)) 32768 =? 0 then 0 else -1)))
    | 160 | 161 | 162 | 163 =>
        let '(off, s) := Imm16 s in
        if Z.land inst 2 =? 0 then
          if Z.land inst 1 =? 0 then
            Ok (ENone, set_reg_ s (rset (reg s) 0 (int_ (Z.lor (Z.land (ax (reg s)) 65280) (Read8 s 3 off)))))
          else Ok (ENone, set_reg_ s (rset (reg s) 0 (Read16 s 3 off)))
        else
          if Z.land inst 1 =? 0 then Ok (ENone, Write8 s 3 off (Z.land (ax (reg s)) 255))
          else Ok (ENone, Write16 s 3 off (ax (reg s)))
    | 164 => ret1 (
        do _ <- oassert (rep =? 243);
        do n <- loop_count (cx (reg s)); Ok (rep_movsb n s))
    | 165 => ret1 (
        do _ <- oassert (rep =? 243);
        do n <- loop_count (cx (reg s)); Ok (rep_movsw n s))
    | 166 => ret1 (
        do _ <- oassert (rep =? 243);
        do n <- loop_count (cx (reg s)); rep_cmpsb n (set_flags_ s FZ))
    | 170 => ret1 (
        if rep =? 243 then
          do n <- loop_count (cx (reg s));
          let s := upd s 1 0 in Ok (rep_stosb n (ax (reg s)) s)
        else Ok (rep_stosb 1 (ax (reg s)) s))
    | 171 => ret1 (
        if rep =? 243 then
          do n <- loop_count (cx (reg s));
          let s := upd s 1 0 in Ok (rep_stosw n (ax (reg s)) s)
        else Ok (rep_stosw 1 (ax (reg s)) s))
    | 172 => ret1 (
        do _ <- oassert (rep =? 0);
        let s := set_dsize_ s 0 in
        let s := WriteReg s 0 (uns (Read8 s 3 (si (reg s)))) in
        Ok (upd s 6 (si (reg s) + 1)))
    | 173 => ret1 (
        do _ <- oassert (rep =? 0);
        let s := WriteReg s 0 (uns (Read16 s 3 (si (reg s)))) in
        Ok (upd s 6 (si (reg s) + 2)))
    | 174 => ret1 (
        do _ <- oassert (rep =? 242);
        do n <- loop_count (cx (reg s)); rep_scasb n (set_flags_ s 0))
    | 195 => let '(v, s) := DoPop s in Ok (ENone, set_ip_ s v)
    | 198 => ret1 (
        do s <- ModRM (set_dsize_ s 0);
        let '(v, s) := ReadIByte s in WriteRM s v)
    | 199 => ret1 (
        do s <- ModRM s;
        let '(v, s) := Imm16 s in WriteRM s v)
    | 205 => INT s
    | 209 => ret1 (do_shift s 1)
    | 211 => ret1 (do_shift s (Z.land (cx (reg s)) 15))
    | 232 => let '(rel, s) := Imm16 s in
             let s := DoPush s (sip s) in Ok (ENone, set_ip_ s (int_ (sip s + rel)))
    | 233 => let '(rel, s) := Imm16 s in Ok (ENone, JMP s rel)
    | 235 => let '(b, s) := ReadIByte s in Ok (ENone, JMP s (s8 b))
    | 247 => ret1 (do_f7 s)
    | 254 => ret1 (do_fe (set_dsize_ s 0))
    | 255 => ret1 (do_fe s)
    | _ => Fatal
    end.

  (** sim86.c:776-1222: fetch and dispatch; prefixes loop back to Restart *)
  Fixpoint restart (fuel : nat) (rep : Z) (s : sim) : outcome (event * sim) :=
    match fuel with
    | O => OutOfFuel
    | S fuel =>
      let '(inst, s) := ReadIByte s in
      if inst <? 64 then
        let type := Z.land inst 6 in
        let op := Z.land (Z.shiftr inst 3) 7 in
        let s := set_dsize_ s (Z.land inst 1) in
        if type <? 4 then ret1 (ALUOp s op (Z.land inst 2))
        else if type =? 4 then
          let '(imm, s) := if dsize s =? 0 then let '(b, s) := ReadIByte s in (s8 b, s) else Imm16 s in
          let s := set_modrm_ s 192 in
          ret1 (DoOp s op (uns (ax (reg s))) (uns imm))
        else
          if inst <? 38 then
            let sr := Z.shiftr inst 3 in
            if Z.land inst 1 =? 0 then Ok (ENone, DoPush s (sget (sreg s) sr))
            else let '(v, s) := DoPop s in Ok (ENone, set_sreg_ s (sset (sreg s) sr v))
          else
            if Z.land inst 1 =? 0 then restart fuel rep (set_seg_ s (Z.shiftr (inst - 38) 3))
            else Fatal
      else if inst <? 72 then
        let r := inst - 64 in
        ret1 (DoIncDec (set_modrm_ s (Z.lor (Z.lor 192 (Z.shiftl r 3)) r)) 1)
      else if inst <? 80 then
        let r := inst - 72 in
        ret1 (DoIncDec (set_modrm_ s (Z.lor (Z.lor 192 (Z.shiftl r 3)) r)) (-1))
      else if inst <? 88 then Ok (ENone, PUSH s (inst - 80))
      else if inst <? 96 then Ok (ENone, POP s (inst - 88))
      else if (112 <=? inst) && (inst <? 128) then ret1 (JCC s (inst - 112))
      else if (144 <=? inst) && (inst <? 152) then
        let r := inst - 144 in
        let rv := rget (reg s) r in
        let s := set_reg_ s (rset (reg s) r (ax (reg s))) in
        Ok (ENone, set_reg_ s (rset (reg s) 0 rv))
      else if (176 <=? inst) && (inst <? 184) then
        let s := set_dsize_ s 0 in
        let '(b, s) := ReadIByte s in
        Ok (ENone, WriteReg s (inst - 176) (uns b))
      else if (184 <=? inst) && (inst <? 192) then
        let '(i, s) := Imm16 s in
        Ok (ENone, set_reg_ s (rset (reg s) (inst - 184) i))
      else if (inst =? 242) || (inst =? 243) then restart fuel inst s
      else exec_switch rep inst s
    end.

  (** sim86.c:769-774: per-instruction initialisation *)
  Definition begin_instr (s : sim) : sim :=
    mksim (reg s) (sreg s) (sip s) (sflags s) (smem s) (-1) 0 1 (-1).
  Definition sim_step (fuel : nat) (s : sim) : outcome (event * sim) := restart fuel 0 (begin_instr s).
End Sim.
