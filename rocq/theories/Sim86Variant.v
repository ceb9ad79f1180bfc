(** What the simulator is allowed to do, as a specification: [sim_exec] is the
    8086 semantics of Spec8086.v with the simulator's documented deviations
    written out, [accepts] the encodings it takes, [needs_trim] the
    instructions whose implementation looks at more than the low 16 bits of a
    register (relevant on a host where int is wider).  Not a model of code;
    Sim86Refine.v proves that the model of sim86.c does exactly this. *)
From Verif Require Import Base Spec8086.

Definition u0 : flags := mkflags false false false false.

(** 8-bit ADD/ADC/SBB results that wrap to zero with a carry out of the byte *)
Definition wraps8 (op : aluop) (a b : Z) (f : flags) : bool :=
  let c := if fC f then 1 else 0 in
  match op with
  | ADD => a + b =? 256 | ADC => a + b + c =? 256 | SBB => a - b - c =? -256 | _ => false
  end.
Definition sim_alu (op : aluop) (w : bool) (a b : Z) (f : flags) : Z * flags :=
  let '(r, g) := alu op w a b f in
  if w then (r, g) else (r, mkflags (fC g) (fZ g && negb (wraps8 op a b f)) (fS g) (fO g)).

Definition sim_exec (i : instr) (s : state) : option state :=
  match i with
  (* ZF is left clear when an 8-bit sum wraps to zero *)
  | IAlu op w d src =>
      let '(r, g) := sim_alu op w (get_op s w d) (get_op s w src) (fl s) in
      Some (set_fl (match op with CMP => s | _ => put_op s w d r end) g)
  (* INC, DEC and NEG do not touch the flags *)
  | IInc w d => Some (put_op s w d (trunc w (get_op s w d + 1)))
  | IDec w d => Some (put_op s w d (trunc w (get_op s w d - 1)))
  | INeg w d => Some (put_op s w d (trunc w (- get_op s w d)))
  (* PUSH SP stores the old SP *)
  | IPush (Reg 4) => Some (push s (sp (rg s)))
  (* an indirect CALL pushes before it reads its operand *)
  | ICallInd o =>
      let s1 := push s (ip s) in
      Some (set_ip s1 (match o with
                       | Mem so m d => rd16 (mem s1) (ea_seg (sg s) so m) (ea_off (rg s) m d)
                       | _ => get_op s1 true o
                       end))
  (* the count in CL is taken modulo 16; SF and OF are cleared; a zero count clears CF *)
  | IShift k w d bycl =>
      let n := if bycl then rget8 (rg s) 1 mod 16 else 1 in
      let '(r, g) := shift k w (get_op s w d) n (fl s) u0 in
      Some (set_fl (put_op s w d r) (mkflags (if n =? 0 then false else fC g) (r =? 0) false false))
  (* MUL and IMUL: AX gets the low word, DX becomes 0, flags unchanged *)
  | IMulDiv (MUL | IMUL) w src =>
      Some (set_rg s (rset (rset (rg s) 0 ((ax (rg s) * get_op s w src) mod 65536)) 2 0))
  (* DIV and IDIV: only 16-bit dividends, flags unchanged *)
  | IMulDiv DIV w src =>
      let v := get_op s w src in
      if (v =? 0) || negb (dx (rg s) =? 0) then None
      else Some (set_rg s (rset (rset (rg s) 2 (ax (rg s) mod v)) 0 (ax (rg s) / v)))
  | IMulDiv IDIV w src =>
      let n := signed true (ax (rg s)) in
      let d := signed true (get_op s w src) in
      if (d =? 0) || ((n =? -32768) && (d =? -1)) || negb (dx (rg s) =? (if n <? 0 then 65535 else 0)) then None
      else Some (set_rg s (rset (rset (rg s) 2 (trunc true (Z.rem n d))) 0 (trunc true (Z.quot n d))))
  (* repeated comparisons: flags of a 16-bit comparison of the two bytes; a zero
     count still changes them *)
  | IStr CMPS w Rep =>
      if cx (rg s) =? 0 then Some (set_fl s (mkflags false true false false)) else
      let t := str_rep (Z.to_nat (cx (rg s))) CMPS w (str_stop CMPS Rep) s in
      Some (set_fl t (mkflags (fC (fl t)) (fZ (fl t)) (fC (fl t)) false))
  | IStr SCAS w RepNE =>
      if cx (rg s) =? 0 then Some (set_fl s u0) else
      let t := str_rep (Z.to_nat (cx (rg s))) SCAS w (str_stop SCAS RepNE) s in
      Some (set_fl t (mkflags (fC (fl t)) (fZ (fl t)) (fC (fl t)) false))
  | _ => exec u0 i s
  end.

(** encodings the simulator takes: opcode [b], register field [r] of the byte
    after it, segment override, repeat prefix *)
Definition acc_op (so : option Z) (rp : repkind) (b r : Z) : bool :=
  let nopfx := match so with None => true | _ => false end in
  if b <? 96 then
    (* a segment override also makes INC/DEC work on bytes (see C07) *)
    if (64 <=? b) && (b <? 80) then nopfx else true
  else if b <? 112 then false
  else if b <? 128 then negb ((b =? 122) || (b =? 123))
  else match b with
  | 128 | 129 | 130 | 131 | 136 | 137 | 138 | 139 | 141 => true
  | 140 | 142 => nopfx
  | 144 | 145 | 146 | 147 | 148 | 149 | 150 | 151 | 152 | 153 => true
  | 160 | 161 | 162 | 163 => match so with None | Some 3 => true | _ => false end
  | 164 | 165 | 166 => match rp with Rep => true | _ => false end
  | 170 | 171 => match rp with RepNE => false | _ => true end
  | 172 | 173 => match rp with NoRep => true | _ => false end
  | 174 => match rp with RepNE => true | _ => false end
  | 176 | 177 | 178 | 179 | 180 | 181 | 182 | 183 => true
  | 184 | 185 | 186 | 187 | 188 | 189 | 190 | 191 => true
  | 195 | 198 | 232 | 233 | 235 => true
  | 199 | 209 | 211 => nopfx
  | 247 => nopfx && (2 <=? r)
  | 254 => r <? 2
  | 255 => nopfx && (r <? 3)
  | _ => false
  end.
Fixpoint acc_pfx (f : Z -> Z) (fuel : nat) (so : option Z) (rp : repkind) (k : Z) : bool :=
  match fuel with
  | O => false
  | S n =>
    let b := f k in
    if b =? 38 then acc_pfx f n (Some 0) rp (k + 1)
    else if b =? 46 then acc_pfx f n (Some 1) rp (k + 1)
    else if b =? 54 then acc_pfx f n (Some 2) rp (k + 1)
    else if b =? 62 then acc_pfx f n (Some 3) rp (k + 1)
    else if b =? 242 then acc_pfx f n so RepNE (k + 1)
    else if b =? 243 then acc_pfx f n so Rep (k + 1)
    else acc_op so rp b (f (k + 1) / 8 mod 8)
  end.
Definition accepts (f : Z -> Z) : bool := acc_pfx f 4 None NoRep 0.

(** instructions whose implementation needs registers trimmed to 16 bits *)
Definition needs_trim (i : instr) : bool :=
  match i with
  | IShift _ _ _ _ => true
  | IMulDiv (DIV | IDIV) _ _ => true
  | IStr _ _ NoRep => false
  | IStr _ _ _ => true
  | _ => false
  end.

(** instructions on which [sim_exec] is the 8086 semantics outright *)
Definition faithful (i : instr) : bool :=
  match i with
  | IAlu _ w _ _ => w
  | IInc _ _ | IDec _ _ | INeg _ _ | ICallInd _ | IShift _ _ _ _ | IMulDiv _ _ _ => false
  | IPush (Reg 4) => false
  | IStr (CMPS | SCAS) _ (Rep | RepNE) => false
  | _ => true
  end.
Lemma faithful_exec i s : faithful i = true -> sim_exec i s = exec u0 i s.
Proof.
  destruct i; try discriminate; cbn [faithful sim_exec exec]; auto.
  - intros ->. unfold sim_alu. now destruct (alu op true _ _ _).
  - destruct s0 as [r| |]; auto. destruct r as [|p|p]; auto. do 4 (destruct p; auto; try discriminate).
  - destruct k, rp; auto; discriminate.
Qed.
Lemma exec_undef u u' i s : match i with IShift _ _ _ _ | IMulDiv _ _ _ => False | _ => True end ->
  exec u i s = exec u' i s.
Proof. destruct i; cbn [exec]; try reflexivity; contradiction. Qed.
