(** An independent specification of the part of the 8086 that the tools in
    /repo use.  It is NOT a model of code in /repo: it is the reference that
    the simulator (sim86.c), the compiler's emission functions (scc.c), the
    assembler (sas.c) and the machine code in lib.h are compared against.

    Values of 16-bit registers are kept as integers 0..65535, memory as bytes
    0..255 in a 1 MiB array.  The flags CF ZF SF OF are modelled; PF, AF, TF,
    IF are not; the direction flag is taken to be clear.  Flags which the
    processor leaves undefined are taken from an arbitrary [undef] argument:
    statements quantified over it hold whatever the processor does. *)
From Verif Require Import Base.

(** ** Machine state *)
Record regs := mkregs { ax : Z; cx : Z; dx : Z; bx : Z; sp : Z; bp : Z; si : Z; di : Z }.
Record sregs := mksregs { es : Z; cs : Z; ss : Z; ds : Z }.
Record flags := mkflags { fC : bool; fZ : bool; fS : bool; fO : bool }.
Record state := mkst { rg : regs; sg : sregs; ip : Z; fl : flags; mem : arr Z }.

(** 16-bit registers by their 8086 number: AX CX DX BX SP BP SI DI *)
Definition rget (r : regs) (i : Z) : Z :=
  match i with
  | 0 => ax r | 1 => cx r | 2 => dx r | 3 => bx r
  | 4 => sp r | 5 => bp r | 6 => si r | _ => di r
  end.
Definition rset (r : regs) (i : Z) (v : Z) : regs :=
  match i with
  | 0 => mkregs v (cx r) (dx r) (bx r) (sp r) (bp r) (si r) (di r)
  | 1 => mkregs (ax r) v (dx r) (bx r) (sp r) (bp r) (si r) (di r)
  | 2 => mkregs (ax r) (cx r) v (bx r) (sp r) (bp r) (si r) (di r)
  | 3 => mkregs (ax r) (cx r) (dx r) v (sp r) (bp r) (si r) (di r)
  | 4 => mkregs (ax r) (cx r) (dx r) (bx r) v (bp r) (si r) (di r)
  | 5 => mkregs (ax r) (cx r) (dx r) (bx r) (sp r) v (si r) (di r)
  | 6 => mkregs (ax r) (cx r) (dx r) (bx r) (sp r) (bp r) v (di r)
  | _ => mkregs (ax r) (cx r) (dx r) (bx r) (sp r) (bp r) (si r) v
  end.
(** 8-bit registers by number: AL CL DL BL AH CH DH BH *)
Definition rget8 (r : regs) (i : Z) : Z :=
  if i <? 4 then rget r i mod 256 else rget r (i - 4) / 256.
Definition rset8 (r : regs) (i : Z) (v : Z) : regs :=
  if i <? 4 then rset r i (rget r i / 256 * 256 + v)
  else rset r (i - 4) (v * 256 + rget r (i - 4) mod 256).

(** segment registers by number: ES CS SS DS *)
Definition sget (s : sregs) (i : Z) : Z :=
  match i with 0 => es s | 1 => cs s | 2 => ss s | _ => ds s end.
Definition sset (s : sregs) (i : Z) (v : Z) : sregs :=
  match i with
  | 0 => mksregs v (cs s) (ss s) (ds s)
  | 1 => mksregs (es s) v (ss s) (ds s)
  | 2 => mksregs (es s) (cs s) v (ds s)
  | _ => mksregs (es s) (cs s) (ss s) v
  end.

(** ** Memory *)
(** physical address of segment:offset; the offset wraps at 64 KiB and the
    physical address at 1 MiB *)
Definition phys (seg off : Z) : Z := (seg * 16 + off mod 65536) mod 1048576.
Definition rd8 (m : arr Z) (seg off : Z) : Z := aget m (phys seg off).
Definition rd16 (m : arr Z) (seg off : Z) : Z := rd8 m seg off + 256 * rd8 m seg (off + 1).
Definition wr8 (m : arr Z) (seg off v : Z) : arr Z := aset m (phys seg off) (v mod 256).
Definition wr16 (m : arr Z) (seg off v : Z) : arr Z :=
  wr8 (wr8 m seg off (v mod 256)) seg (off + 1) (v / 256 mod 256).

(** ** Instructions *)
Inductive aluop := ADD | OR | ADC | SBB | AND | SUB | XOR | CMP.
Inductive shop := SHL | SHR | SAR.
Inductive mdop := MUL | IMUL | DIV | IDIV.
(** addressing modes; [MDirect] is a 16-bit displacement alone *)
Inductive amode := MBXSI | MBXDI | MBPSI | MBPDI | MSI | MDI | MBP | MBX | MDirect.
Inductive operand :=
| Reg (r : Z)                                   (* register number, size from the instruction *)
| Mem (seg : option Z) (m : amode) (disp : Z)   (* optional segment override *)
| Imm (v : Z).
Inductive strop := MOVS | CMPS | STOS | LODS | SCAS.
Inductive repkind := NoRep | Rep | RepNE.

(** [w : bool] is true for 16-bit operations *)
Inductive instr :=
| IAlu (op : aluop) (w : bool) (d s : operand)
| ITest (w : bool) (d s : operand)
| IMov (w : bool) (d s : operand)
| IMovFromS (d : operand) (sr : Z)
| IMovToS (sr : Z) (s : operand)
| ILea (r : Z) (s : operand)
| IInc (w : bool) (d : operand)
| IDec (w : bool) (d : operand)
| INot (w : bool) (d : operand)
| INeg (w : bool) (d : operand)
| IPush (s : operand)
| IPop (r : Z)
| IPushS (sr : Z)
| IPopS (sr : Z)
| IXchg (w : bool) (a b : operand)
| IJcc (cc : Z) (rel : Z)
| IJmp (rel : Z)
| ICall (rel : Z)
| ICallInd (s : operand)
| IRet
| ICbw | ICwd
| IShift (k : shop) (w : bool) (d : operand) (bycl : bool)
| IMulDiv (k : mdop) (w : bool) (s : operand)
| IStr (k : strop) (w : bool) (rp : repkind)
| IInt (n : Z)
| IClc | IStc | ICli | ISti.

(** ** Decoding *)
Definition alu_of (n : Z) : aluop :=
  match n with 0 => ADD | 1 => OR | 2 => ADC | 3 => SBB | 4 => AND | 5 => SUB | 6 => XOR | _ => CMP end.
Definition amode_of (n : Z) : amode :=
  match n with
  | 0 => MBXSI | 1 => MBXDI | 2 => MBPSI | 3 => MBPDI | 4 => MSI | 5 => MDI | 6 => MBP | _ => MBX
  end.

Section Decode.
  (** [f k] is the k-th byte from the start of the instruction *)
  Variable f : Z -> Z.
  Definition word_at (k : Z) : Z := f k + 256 * f (k + 1).
  Definition sx8 (b : Z) : Z := if b <? 128 then b else b + 65280. (* sign-extended to 16 bits *)

  (** operand and register field of a ModRM byte at k, and the position after it *)
  Definition dec_modrm (seg : option Z) (k : Z) : operand * Z * Z :=
    let m := f k in
    let md := m / 64 in
    let r := m / 8 mod 8 in
    let rm := m mod 8 in
    if md =? 3 then (Reg rm, r, k + 1)
    else if md =? 0 then
      if rm =? 6 then (Mem seg MDirect (word_at (k + 1)), r, k + 3)
      else (Mem seg (amode_of rm) 0, r, k + 1)
    else if md =? 1 then (Mem seg (amode_of rm) (sx8 (f (k + 1))), r, k + 2)
    else (Mem seg (amode_of rm) (word_at (k + 1)), r, k + 3).

  Definition dec_imm (w : bool) (k : Z) : Z * Z :=
    if w then (word_at k, k + 2) else (f k, k + 1).

  (** string instructions; a segment override on them is not modelled *)
  Definition dec_str (seg : option Z) (k : strop) (w : bool) (rp : repkind) (n : Z) : option (instr * Z) :=
    match seg with None => Some (IStr k w rp, n) | Some _ => None end.

  (** the instruction at k, given the prefixes already seen *)
  Definition dec_op (seg : option Z) (rp : repkind) (k : Z) : option (instr * Z) :=
    let b := f k in
    let w := b mod 2 =? 1 in
    let k1 := k + 1 in
    if b <? 64 then
      let t := b mod 8 in
      let op := alu_of (b / 8) in
      if t <? 2 then let '(o, r, n) := dec_modrm seg k1 in Some (IAlu op w o (Reg r), n)
      else if t <? 4 then let '(o, r, n) := dec_modrm seg k1 in Some (IAlu op w (Reg r) o, n)
      else if t <? 6 then let '(i, n) := dec_imm w k1 in Some (IAlu op w (Reg 0) (Imm i), n)
      else if b <? 38 then
        if t =? 6 then Some (IPushS (b / 8), k1) else Some (IPopS (b / 8), k1)
      else None
    else if b <? 72 then Some (IInc true (Reg (b - 64)), k1)
    else if b <? 80 then Some (IDec true (Reg (b - 72)), k1)
    else if b <? 88 then Some (IPush (Reg (b - 80)), k1)
    else if b <? 96 then Some (IPop (b - 88), k1)
    else if b <? 112 then None
    else if b <? 128 then Some (IJcc (b - 112) (sx8 (f k1)), k + 2)
    else match b with
    | 128 (* 80 *) | 130 (* 82 *) =>
        let '(o, r, n) := dec_modrm seg k1 in Some (IAlu (alu_of r) false o (Imm (f n)), n + 1)
    | 129 (* 81 *) =>
        let '(o, r, n) := dec_modrm seg k1 in Some (IAlu (alu_of r) true o (Imm (word_at n)), n + 2)
    | 131 (* 83 *) =>
        let '(o, r, n) := dec_modrm seg k1 in Some (IAlu (alu_of r) true o (Imm (sx8 (f n))), n + 1)
    | 134 (* 86 *) | 135 (* 87 *) =>
        let '(o, r, n) := dec_modrm seg k1 in Some (IXchg w o (Reg r), n)
    | 136 (* 88 *) | 137 (* 89 *) =>
        let '(o, r, n) := dec_modrm seg k1 in Some (IMov w o (Reg r), n)
    | 138 (* 8A *) | 139 (* 8B *) =>
        let '(o, r, n) := dec_modrm seg k1 in Some (IMov w (Reg r) o, n)
    | 140 (* 8C *) =>
        let '(o, r, n) := dec_modrm seg k1 in if r <? 4 then Some (IMovFromS o r, n) else None
    | 141 (* 8D *) =>
        let '(o, r, n) := dec_modrm seg k1 in
        match o with Mem _ _ _ => Some (ILea r o, n) | _ => None end
    | 142 (* 8E *) =>
        let '(o, r, n) := dec_modrm seg k1 in if r <? 4 then Some (IMovToS r o, n) else None
    | 144 | 145 | 146 | 147 | 148 | 149 | 150 | 151 (* 90+r *) =>
        Some (IXchg true (Reg (b - 144)) (Reg 0), k1)
    | 152 (* 98 *) => Some (ICbw, k1)
    | 153 (* 99 *) => Some (ICwd, k1)
    | 160 | 161 (* A0 A1 *) => Some (IMov w (Reg 0) (Mem seg MDirect (word_at k1)), k + 3)
    | 162 | 163 (* A2 A3 *) => Some (IMov w (Mem seg MDirect (word_at k1)) (Reg 0), k + 3)
    | 164 | 165 (* A4 A5 *) => dec_str seg MOVS w rp k1
    | 166 | 167 (* A6 A7 *) => dec_str seg CMPS w rp k1
    | 168 | 169 (* A8 A9 *) => let '(i, n) := dec_imm w k1 in Some (ITest w (Reg 0) (Imm i), n)
    | 170 | 171 (* AA AB *) => dec_str seg STOS w rp k1
    | 172 | 173 (* AC AD *) => dec_str seg LODS w rp k1
    | 174 | 175 (* AE AF *) => dec_str seg SCAS w rp k1
    | 176 | 177 | 178 | 179 | 180 | 181 | 182 | 183 (* B0+r *) =>
        Some (IMov false (Reg (b - 176)) (Imm (f k1)), k + 2)
    | 184 | 185 | 186 | 187 | 188 | 189 | 190 | 191 (* B8+r *) =>
        Some (IMov true (Reg (b - 184)) (Imm (word_at k1)), k + 3)
    | 195 (* C3 *) => Some (IRet, k1)
    | 198 | 199 (* C6 C7 *) =>
        let '(o, r, n) := dec_modrm seg k1 in
        let '(i, n') := dec_imm w n in
        if r =? 0 then Some (IMov w o (Imm i), n') else None
    | 205 (* CD *) => Some (IInt (f k1), k + 2)
    | 208 | 209 | 210 | 211 (* D0..D3 *) =>
        let '(o, r, n) := dec_modrm seg k1 in
        let bycl := 210 <=? b in
        if r =? 4 then Some (IShift SHL w o bycl, n)
        else if r =? 5 then Some (IShift SHR w o bycl, n)
        else if r =? 7 then Some (IShift SAR w o bycl, n)
        else None
    | 232 (* E8 *) => Some (ICall (word_at k1), k + 3)
    | 233 (* E9 *) => Some (IJmp (word_at k1), k + 3)
    | 235 (* EB *) => Some (IJmp (sx8 (f k1)), k + 2)
    | 246 | 247 (* F6 F7 *) =>
        let '(o, r, n) := dec_modrm seg k1 in
        if r =? 0 then let '(i, n') := dec_imm w n in Some (ITest w o (Imm i), n')
        else if r =? 2 then Some (INot w o, n)
        else if r =? 3 then Some (INeg w o, n)
        else if r =? 4 then Some (IMulDiv MUL w o, n)
        else if r =? 5 then Some (IMulDiv IMUL w o, n)
        else if r =? 6 then Some (IMulDiv DIV w o, n)
        else if r =? 7 then Some (IMulDiv IDIV w o, n)
        else None
    | 248 (* F8 *) => Some (IClc, k1)
    | 249 (* F9 *) => Some (IStc, k1)
    | 250 (* FA *) => Some (ICli, k1)
    | 251 (* FB *) => Some (ISti, k1)
    | 254 | 255 (* FE FF *) =>
        let '(o, r, n) := dec_modrm seg k1 in
        if r =? 0 then Some (IInc w o, n)
        else if r =? 1 then Some (IDec w o, n)
        else if (r =? 2) && w then Some (ICallInd o, n)
        else if (r =? 6) && w then Some (IPush o, n)
        else None
    | _ => None
    end.

  (** prefixes: 26 2E 36 3E select a segment, F2 F3 repeat *)
  Fixpoint dec_pfx (fuel : nat) (seg : option Z) (rp : repkind) (k : Z) : option (instr * Z) :=
    match fuel with
    | O => None
    | S n =>
      let b := f k in
      if b =? 38 then dec_pfx n (Some 0) rp (k + 1)
      else if b =? 46 then dec_pfx n (Some 1) rp (k + 1)
      else if b =? 54 then dec_pfx n (Some 2) rp (k + 1)
      else if b =? 62 then dec_pfx n (Some 3) rp (k + 1)
      else if b =? 242 then dec_pfx n seg RepNE (k + 1)
      else if b =? 243 then dec_pfx n seg Rep (k + 1)
      else dec_op seg rp k
    end.
  (** at most three prefixes are considered *)
  Definition decode : option (instr * Z) := dec_pfx 4 None NoRep 0.
End Decode.

(** ** Operand values *)
Definition mode_off (r : regs) (m : amode) : Z :=
  match m with
  | MBXSI => bx r + si r | MBXDI => bx r + di r
  | MBPSI => bp r + si r | MBPDI => bp r + di r
  | MSI => si r | MDI => di r | MBP => bp r | MBX => bx r | MDirect => 0
  end.
Definition mode_seg (m : amode) : Z :=  (* default segment: SS when BP is involved *)
  match m with MBPSI | MBPDI | MBP => 2 | _ => 3 end.
Definition ea_off (r : regs) (m : amode) (disp : Z) : Z := (mode_off r m + disp) mod 65536.
Definition ea_seg (s : sregs) (o : option Z) (m : amode) : Z :=
  sget s (match o with Some x => x | None => mode_seg m end).

Definition get_op (s : state) (w : bool) (o : operand) : Z :=
  match o with
  | Reg r => if w then rget (rg s) r else rget8 (rg s) r
  | Mem so m d =>
      let seg := ea_seg (sg s) so m in
      let off := ea_off (rg s) m d in
      if w then rd16 (mem s) seg off else rd8 (mem s) seg off
  | Imm v => v
  end.
Definition set_rg (s : state) (r : regs) : state := mkst r (sg s) (ip s) (fl s) (mem s).
Definition set_mem (s : state) (m : arr Z) : state := mkst (rg s) (sg s) (ip s) (fl s) m.
Definition set_ip (s : state) (i : Z) : state := mkst (rg s) (sg s) (i mod 65536) (fl s) (mem s).
Definition set_fl (s : state) (f : flags) : state := mkst (rg s) (sg s) (ip s) f (mem s).
Definition set_sg (s : state) (x : sregs) : state := mkst (rg s) x (ip s) (fl s) (mem s).
Definition set_reg (s : state) (r v : Z) : state := set_rg s (rset (rg s) r v).
Definition put_op (s : state) (w : bool) (o : operand) (v : Z) : state :=
  match o with
  | Reg r => set_rg s (if w then rset (rg s) r v else rset8 (rg s) r v)
  | Mem so m d =>
      let seg := ea_seg (sg s) so m in
      let off := ea_off (rg s) m d in
      set_mem s (if w then wr16 (mem s) seg off v else wr8 (mem s) seg off v)
  | Imm _ => s
  end.

(** ** Arithmetic *)
Definition bits (w : bool) : Z := if w then 16 else 8.
Definition modulus (w : bool) : Z := if w then 65536 else 256.
Definition half (w : bool) : Z := if w then 32768 else 128.
Definition signed (w : bool) (x : Z) : Z := if x <? half w then x else x - modulus w.
Definition in_signed (w : bool) (x : Z) : bool := (- half w <=? x) && (x <? half w).
Definition trunc (w : bool) (x : Z) : Z := x mod modulus w.

Definition flags_of (w : bool) (res : Z) (c o : bool) : flags :=
  mkflags c (res =? 0) (half w <=? res) o.
Definition add_flags (w : bool) (a b c : Z) : flags :=
  flags_of w (trunc w (a + b + c)) (modulus w <=? a + b + c)
           (negb (in_signed w (signed w a + signed w b + c))).
Definition sub_flags (w : bool) (a b c : Z) : flags :=
  flags_of w (trunc w (a - b - c)) (a <? b + c)
           (negb (in_signed w (signed w a - signed w b - c))).
Definition logic_flags (w : bool) (res : Z) : flags := flags_of w res false false.

Definition alu (op : aluop) (w : bool) (a b : Z) (f : flags) : Z * flags :=
  let c := if fC f then 1 else 0 in
  match op with
  | ADD => (trunc w (a + b), add_flags w a b 0)
  | ADC => (trunc w (a + b + c), add_flags w a b c)
  | SUB | CMP => (trunc w (a - b), sub_flags w a b 0)
  | SBB => (trunc w (a - b - c), sub_flags w a b c)
  | AND => (Z.land a b, logic_flags w (Z.land a b))
  | OR => (Z.lor a b, logic_flags w (Z.lor a b))
  | XOR => (Z.lxor a b, logic_flags w (Z.lxor a b))
  end.

Definition keep_carry (c : bool) (f : flags) : flags := mkflags c (fZ f) (fS f) (fO f).

(** shifts by n (0 leaves value and flags alone); the overflow flag is defined
    for single-bit shifts only *)
Definition shift (k : shop) (w : bool) (a n : Z) (f : flags) (u : flags) : Z * flags :=
  if n =? 0 then (a, f) else
  let of1 b := if n =? 1 then b else fO u in
  match k with
  | SHL => let r := trunc w (a * 2 ^ n) in
           let c := Z.odd (a * 2 ^ n / modulus w) in
           (r, flags_of w r c (of1 (xorb c (half w <=? r))))
  | SHR => let r := a / 2 ^ n in
           let c := Z.odd (a / 2 ^ (n - 1)) in
           (r, flags_of w r c (of1 (half w <=? a)))
  | SAR => let r := trunc w (signed w a / 2 ^ n) in
           let c := Z.odd (signed w a / 2 ^ (n - 1)) in
           (r, flags_of w r c (of1 false))
  end.

(** condition codes *)
Definition cond (cc : Z) (f : flags) : option bool :=
  match cc with
  | 0 => Some (fO f) | 1 => Some (negb (fO f))
  | 2 => Some (fC f) | 3 => Some (negb (fC f))
  | 4 => Some (fZ f) | 5 => Some (negb (fZ f))
  | 6 => Some (fC f || fZ f) | 7 => Some (negb (fC f || fZ f))
  | 8 => Some (fS f) | 9 => Some (negb (fS f))
  | 12 => Some (xorb (fS f) (fO f)) | 13 => Some (negb (xorb (fS f) (fO f)))
  | 14 => Some (fZ f || xorb (fS f) (fO f)) | 15 => Some (negb (fZ f || xorb (fS f) (fO f)))
  | _ => None  (* parity is not modelled *)
  end.

Definition push (s : state) (v : Z) : state :=
  let sp' := (sp (rg s) - 2) mod 65536 in
  set_mem (set_reg s 4 sp') (wr16 (mem s) (ss (sg s)) sp' v).
Definition pop (s : state) : Z * state :=
  (rd16 (mem s) (ss (sg s)) (sp (rg s)), set_reg s 4 ((sp (rg s) + 2) mod 65536)).

(** multiplication and division; None is a divide fault *)
Definition muldiv (k : mdop) (w : bool) (s : state) (v : Z) (u : flags) : option state :=
  let a := if w then ax (rg s) else rget8 (rg s) 0 in
  match k with
  | MUL | IMUL =>
      let p := match k with MUL => a * v | _ => signed w a * signed w v end in
      let big := match k with MUL => modulus w <=? p | _ => negb (in_signed w p) end in
      let s' := if w then set_rg s (rset (rset (rg s) 0 (p mod 65536)) 2 (p / 65536 mod 65536))
                else set_reg s 0 (p mod 65536) in
      Some (set_fl s' (mkflags big (fZ u) (fS u) big))
  | DIV =>
      let n := if w then dx (rg s) * 65536 + ax (rg s) else ax (rg s) in
      if v =? 0 then None else
      let q := n / v in let r := n mod v in
      if modulus w <=? q then None else
      Some (set_fl (if w then set_rg s (rset (rset (rg s) 0 q) 2 r)
                    else set_reg s 0 (r * 256 + q)) u)
  | IDIV =>
      let n := if w then signed true (dx (rg s)) * 65536 + ax (rg s) else signed true (ax (rg s)) in
      let d := signed w v in
      if d =? 0 then None else
      let q := Z.quot n d in let r := Z.rem n d in
      (* the 8086 faults on the most negative quotient too *)
      if (q <=? - half w) || (half w <=? q) then None else
      Some (set_fl (if w then set_rg s (rset (rset (rg s) 0 (trunc w q)) 2 (trunc w r))
                    else set_reg s 0 (trunc false r * 256 + trunc false q)) u)
  end.

(** one element of a string instruction, direction flag clear, DS:SI and ES:DI *)
Definition str_step (k : strop) (w : bool) (s : state) : state :=
  let n := if w then 2 else 1 in
  let r := rg s in
  let src := if w then rd16 (mem s) (ds (sg s)) (si r) else rd8 (mem s) (ds (sg s)) (si r) in
  let dst := if w then rd16 (mem s) (es (sg s)) (di r) else rd8 (mem s) (es (sg s)) (di r) in
  let a := if w then ax r else rget8 r 0 in
  let si' := (si r + n) mod 65536 in
  let di' := (di r + n) mod 65536 in
  let wr v := if w then wr16 (mem s) (es (sg s)) (di r) v else wr8 (mem s) (es (sg s)) (di r) v in
  match k with
  | MOVS => set_rg (set_mem s (wr src)) (rset (rset r 6 si') 7 di')
  | STOS => set_rg (set_mem s (wr a)) (rset r 7 di')
  | LODS => set_rg s (rset (if w then rset r 0 src else rset8 r 0 src) 6 si')
  | CMPS => set_fl (set_rg s (rset (rset r 6 si') 7 di')) (sub_flags w src dst 0)
  | SCAS => set_fl (set_rg s (rset r 7 di')) (sub_flags w a dst 0)
  end.
(** repetition: CX is counted down; CMPS/SCAS also stop on the zero flag *)
Fixpoint str_rep (n : nat) (k : strop) (w : bool) (stop : flags -> bool) (s : state) : state :=
  match n with
  | O => s
  | S n' =>
      let s' := str_step k w s in
      let s'' := set_reg s' 1 ((cx (rg s') - 1) mod 65536) in
      if stop (fl s'') then s'' else str_rep n' k w stop s''
  end.
Definition str_stop (k : strop) (rp : repkind) (f : flags) : bool :=
  match k with
  | CMPS | SCAS => match rp with Rep => negb (fZ f) | RepNE => fZ f | NoRep => false end
  | _ => false
  end.

(** ** One instruction, with the instruction pointer already behind it.
    None: not modelled (interrupts, parity conditions) or a divide fault. *)
Definition exec (u : flags) (i : instr) (s : state) : option state :=
  match i with
  | IAlu op w d src =>
      let '(r, f) := alu op w (get_op s w d) (get_op s w src) (fl s) in
      let s' := match op with CMP => s | _ => put_op s w d r end in
      Some (set_fl s' f)
  | ITest w d src => Some (set_fl s (logic_flags w (Z.land (get_op s w d) (get_op s w src))))
  | IMov w d src => Some (put_op s w d (get_op s w src))
  | IMovFromS d r => Some (put_op s true d (sget (sg s) r))
  | IMovToS r src => Some (set_sg s (sset (sg s) r (get_op s true src)))
  | ILea r (Mem _ m d) => Some (set_reg s r (ea_off (rg s) m d))
  | ILea _ _ => None
  | IInc w d =>
      let a := get_op s w d in
      Some (set_fl (put_op s w d (trunc w (a + 1))) (keep_carry (fC (fl s)) (add_flags w a 1 0)))
  | IDec w d =>
      let a := get_op s w d in
      Some (set_fl (put_op s w d (trunc w (a - 1))) (keep_carry (fC (fl s)) (sub_flags w a 1 0)))
  | INot w d => Some (put_op s w d (modulus w - 1 - get_op s w d))
  | INeg w d =>
      let a := get_op s w d in
      Some (set_fl (put_op s w d (trunc w (- a))) (sub_flags w 0 a 0))
  | IPush (Reg 4) => Some (push s ((sp (rg s) - 2) mod 65536))  (* the 8086 pushes the new SP *)
  | IPush o => Some (push s (get_op s true o))
  | IPop r => let '(v, s') := pop s in Some (set_reg s' r v)
  | IPushS r => Some (push s (sget (sg s) r))
  | IPopS r => let '(v, s') := pop s in Some (set_sg s' (sset (sg s') r v))
  | IXchg w a b =>
      let va := get_op s w a in let vb := get_op s w b in
      Some (put_op (put_op s w a vb) w b va)
  | IJcc cc rel =>
      match cond cc (fl s) with
      | Some true => Some (set_ip s (ip s + rel))
      | Some false => Some s
      | None => None
      end
  | IJmp rel => Some (set_ip s (ip s + rel))
  | ICall rel => Some (set_ip (push s (ip s)) (ip s + rel))
  | ICallInd o => Some (set_ip (push s (ip s)) (get_op s true o))
  | IRet => let '(v, s') := pop s in Some (set_ip s' v)
  | ICbw => Some (set_reg s 0 (signed false (rget8 (rg s) 0) mod 65536))
  | ICwd => Some (set_reg s 2 (if ax (rg s) <? 32768 then 0 else 65535))
  | IShift k w d bycl =>
      let n := if bycl then rget8 (rg s) 1 else 1 in
      let '(r, f) := shift k w (get_op s w d) n (fl s) u in
      Some (set_fl (put_op s w d r) f)
  | IMulDiv k w src => muldiv k w s (get_op s w src) u
  | IStr k w NoRep => Some (str_step k w s)
  | IStr k w rp => Some (str_rep (Z.to_nat (cx (rg s))) k w (str_stop k rp) s)
  | IInt _ => None
  | IClc => Some (set_fl s (keep_carry false (fl s)))
  | IStc => Some (set_fl s (keep_carry true (fl s)))
  | ICli | ISti => Some s
  end.

(** byte k of the instruction stream at CS:IP *)
Definition fetch (s : state) (k : Z) : Z := rd8 (mem s) (cs (sg s)) (ip s + k).

Definition step (u : flags) (s : state) : option state :=
  match decode (fetch s) with
  | Some (i, n) => exec u i (set_ip s (ip s + n))
  | None => None
  end.

(** n steps, the undefined flags given by [us] *)
Fixpoint steps (us : nat -> flags) (n : nat) (s : state) : option state :=
  match n with
  | O => Some s
  | S n' => match step (us n') s with Some s' => steps us n' s' | None => None end
  end.

(** ** Well-formed states: every register holds a 16-bit value, every memory
    cell a byte *)
Definition is16 (x : Z) : Prop := 0 <= x < 65536.
Definition regs_ok (r : regs) : Prop :=
  is16 (ax r) /\ is16 (cx r) /\ is16 (dx r) /\ is16 (bx r) /\
  is16 (sp r) /\ is16 (bp r) /\ is16 (si r) /\ is16 (di r).
Definition sregs_ok (s : sregs) : Prop := is16 (es s) /\ is16 (cs s) /\ is16 (ss s) /\ is16 (ds s).
Definition mem_ok (m : arr Z) : Prop := forall a, 0 <= aget m a < 256.
Definition wf (s : state) : Prop :=
  regs_ok (rg s) /\ sregs_ok (sg s) /\ is16 (ip s) /\ mem_ok (mem s).
