(** What an assembler program means: a specification of the language accepted by sas.c, for
    the statements below.  It refers to the 8086 (Spec8086) and to the text of a program
    (SasText), not to the assembler. *)
From Coq Require Import ZArith List Bool Lia String.
From Verif Require Import Base Spec8086.
From Verif Require SasText SasExpr.
Import ListNotations.
Open Scope Z_scope.
Notation tk := SasText.tk.
Notation KNum := SasText.KNum.
Notation KWord := SasText.KWord.
Notation KPunct := SasText.KPunct.
Notation KName := SasText.KName.
Notation KStr := SasText.KStr.

(** ** Syntax *)
(** a built-in name: its place in the list of names, sas.c:1594-1604 *)
Fixpoint place (n : string) (l : list string) : Z :=
  match l with [] => 0 | x :: l => if String.eqb n x then 0 else 1 + place n l end.
Definition wd (n : string) : tk := KWord (place n Sas.builtin_names).

(** registers in the order of their numbers *)
Definition reg8_names : list string := ["AL"; "CL"; "DL"; "BL"; "AH"; "CH"; "DH"; "BH"]%string.
Definition reg16_names : list string := ["AX"; "CX"; "DX"; "BX"; "SP"; "BP"; "SI"; "DI"]%string.
Definition seg_names : list string := ["ES"; "CS"; "SS"; "DS"]%string.
Definition named (l : list string) (r : Z) : tk := wd (nth (Z.to_nat r) l ""%string).

(** a value: a constant expression or a label *)
Inductive value := VExpr (e : SasExpr.expr) | VLabel (nm : list Z).
Inductive base := BSI | BDI | BBP | BBX | BSIBX.
(** [byte] or [word] before the bracket, es: override, base, label, and signed displacement *)
Record memory := mkmem { m_size : option bool; m_es : bool; m_base : option base; m_label : option (list Z);
                         m_disp : option (bool * Z) }.
Inductive arg :=
| OReg (w : bool) (r : Z)      (* 16-bit when w *)
| OSeg (r : Z)
| OVal (v : value)
| OMem (m : memory).
(** instructions without operands *)
Inductive simple := SCbw | SCwd | SClc | SStc | SCli | SSti | SRet.
Inductive unop := UNot | UNeg | UMulDiv (k : mdop).
Inductive inst :=
| AMov (d s : arg) | AAlu (op : aluop) (d s : arg) | ATest (d s : arg) | AXchg (d s : arg)
| ALea (r : Z) (m : memory)
| AInc (d : arg) | ADec (d : arg)
| AUn (k : unop) (w : bool) (r : Z)
| AShift (k : shop) (w : bool) (r : Z) (count : option SasExpr.expr)   (* None: by CL *)
| APush (s : arg) | APop (d : arg)
| ACallReg (r : Z)
| AInt (e : SasExpr.expr)
| ASimple (k : simple)
| AStr (rep : bool) (k : strop) (w : bool)
| AJmp (v : value) | AJmpShort (v : value) | ACall (v : value)
| AJcc (name : string) (v : value).

(** condition codes, by name *)
Definition conditions : list (string * Z) :=
  [("JO", 0); ("JNO", 1); ("JC", 2); ("JB", 2); ("JNAE", 2); ("JNC", 3); ("JNB", 3); ("JAE", 3); ("JZ", 4); ("JE", 4);
   ("JNZ", 5); ("JNE", 5); ("JNA", 6); ("JBE", 6); ("JA", 7); ("JNBE", 7); ("JS", 8); ("JNS", 9); ("JPE", 10); ("JPO", 11);
   ("JL", 12); ("JNGE", 12); ("JNL", 13); ("JGE", 13); ("JNG", 14); ("JLE", 14); ("JG", 15); ("JNLE", 15)]%string.

Definition value_toks (v : value) : list tk := match v with VExpr e => SasExpr.etoks e | VLabel nm => [KName nm] end.
Definition plus : tk := KPunct 43.
Definition base_toks (b : base) : list tk :=
  match b with
  | BSI => [wd "SI"] | BDI => [wd "DI"] | BBP => [wd "BP"] | BBX => [wd "BX"] | BSIBX => [wd "SI"; plus; wd "BX"]
  end.
(** the parts of an address; only the last may be subtracted, and only if it is not the first *)
Definition addr_toks (m : memory) : list tk :=
  let first := match m_base m with Some b => base_toks b | None => [] end in
  let second := match m_label m with
                | Some nm => first ++ (match first with [] => [] | _ => [plus] end) ++ [KName nm]
                | None => first end in
  match m_disp m with
  | Some (neg, v) => second ++ (match second with [] => [] | _ => [if neg : bool then KPunct 45 else plus] end) ++ [KNum v]
  | None => second
  end.
Definition mem_toks (m : memory) : list tk :=
  (match m_size m with Some true => [wd "WORD"] | Some false => [wd "BYTE"] | None => [] end)
  ++ [KPunct 91] ++ (if m_es m then [wd "ES"; KPunct 58] else []) ++ addr_toks m ++ [KPunct 93].
Definition arg_toks (a : arg) : list tk :=
  match a with
  | OReg w r => [named (if w then reg16_names else reg8_names) r]
  | OSeg r => [named seg_names r]
  | OVal v => value_toks v
  | OMem m => mem_toks m
  end.
Definition comma : tk := KPunct 44.
Definition two (n : string) (a b : list tk) : list tk := wd n :: a ++ comma :: b.
Definition alu_name (op : aluop) : string :=
  match op with ADD => "ADD" | OR => "OR" | ADC => "ADC" | SBB => "SBB" | AND => "AND" | SUB => "SUB" | XOR => "XOR" | CMP => "CMP" end%string.
Definition toks (i : inst) : list tk :=
  match i with
  | AMov d s => two "MOV" (arg_toks d) (arg_toks s)
  | AAlu op d s => two (alu_name op) (arg_toks d) (arg_toks s)
  | ATest d s => two "TEST" (arg_toks d) (arg_toks s)
  | AXchg d s => two "XCHG" (arg_toks d) (arg_toks s)
  | ALea r m => two "LEA" [named reg16_names r] (mem_toks m)
  | AInc d => wd "INC" :: arg_toks d
  | ADec d => wd "DEC" :: arg_toks d
  | AUn k w r => wd (match k with UNot => "NOT" | UNeg => "NEG" | UMulDiv MUL => "MUL" | UMulDiv IMUL => "IMUL"
                      | UMulDiv DIV => "DIV" | UMulDiv IDIV => "IDIV" end)%string :: arg_toks (OReg w r)
  | AShift k w r c => two (match k with SHL => "SHL" | SHR => "SHR" | SAR => "SAR" end)%string (arg_toks (OReg w r))
                        (match c with None => [wd "CL"] | Some e => SasExpr.etoks e end)
  | APush s => wd "PUSH" :: arg_toks s
  | APop d => wd "POP" :: arg_toks d
  | ACallReg r => [wd "CALL"; named reg16_names r]
  | AInt e => wd "INT" :: SasExpr.etoks e
  | ASimple k => [wd (match k with SCbw => "CBW" | SCwd => "CWD" | SClc => "CLC" | SStc => "STC" | SCli => "CLI" | SSti => "STI" | SRet => "RET" end)%string]
  | AStr rep k w => (if rep then [wd "REP"] else []) ++
      [wd (match k, w with MOVS, false => "MOVSB" | CMPS, false => "CMPSB" | STOS, false => "STOSB" | STOS, true => "STOSW"
           | LODS, false => "LODSB" | _, _ => "" end)%string]
  | AJmp v => wd "JMP" :: value_toks v
  | AJmpShort v => wd "JMP" :: wd "SHORT" :: value_toks v
  | ACall v => wd "CALL" :: value_toks v
  | AJcc n v => wd n :: value_toks v
  end.

(** ** Meaning *)
Section Meaning.
Variable W : Z.                       (* int width of the assembler *)
Variable env : list Z -> Z.           (* addresses of the labels *)
Definition val (v : value) : option Z := match v with VExpr e => SasExpr.eval W e | VLabel nm => Some (env nm) end.
Definition base_mode (b : option base) : amode :=
  match b with None => MDirect | Some BSI => MSI | Some BDI => MDI | Some BBP => MBP | Some BBX => MBX | Some BSIBX => MBXSI end.
Definition disp_value (m : memory) : Z :=
  (match m_label m with Some nm => env nm | None => 0 end)
  + (match m_disp m with Some (true, v) => - v | Some (false, v) => v | None => 0 end).
Definition mem_op (m : memory) : operand :=
  Mem (if m_es m then Some 0 else None) (base_mode (m_base m)) (disp_value m mod 65536).
(** there is an address; and not [bp+label] alone, which is assembled wrongly if the label comes later *)
Definition mem_valid (m : memory) : Prop :=
  (m_base m <> None \/ m_label m <> None \/ exists v, m_disp m = Some (false, v)) /\
  (m_base m = Some BBP -> m_label m <> None ->
   exists n v, m_disp m = Some (n, v) /\ v mod 2 ^ W <> 0).
Definition size_ok (m : memory) (w : bool) : Prop := m_size m = None \/ m_size m = Some w.
Definition imm (w : bool) (v : Z) : operand := Imm (if w then v mod 65536 else v mod 256).
(** an immediate of the given size; a label is a 16-bit value *)
Definition imm_of (w : bool) (v : value) (o : operand) : Prop :=
  exists x, val v = Some x /\ o = imm w x /\ (w = false -> exists e, v = VExpr e).
Definition reg_ok (r : Z) : Prop := 0 <= r < 8.
Definition seg_ok (r : Z) : Prop := 0 <= r < 4.
(** a jump with an 8-bit distance reaches its target if the target is near enough *)
Definition reaches_short (next target rel : Z) : Prop :=
  -128 <= s16 (target - next) < 128 -> rel = (target - next) mod 65536.

(** [means next i ins]: the machine instruction [ins], which ends at address [next], is what
    the source instruction [i] asks for *)
Inductive means (next : Z) : inst -> instr -> Prop :=
| me_mov_rr w d s : reg_ok d -> reg_ok s -> means next (AMov (OReg w d) (OReg w s)) (IMov w (Reg d) (Reg s))
| me_mov_rs d s : reg_ok d -> seg_ok s -> means next (AMov (OReg true d) (OSeg s)) (IMovFromS (Reg d) s)
| me_mov_sr d s : seg_ok d -> reg_ok s -> means next (AMov (OSeg d) (OReg true s)) (IMovToS d (Reg s))
| me_mov_ri w d v o : reg_ok d -> imm_of w v o -> means next (AMov (OReg w d) (OVal v)) (IMov w (Reg d) o)
| me_mov_rm w d m : reg_ok d -> mem_valid m -> size_ok m w -> means next (AMov (OReg w d) (OMem m)) (IMov w (Reg d) (mem_op m))
| me_mov_mr w s m : reg_ok s -> mem_valid m -> size_ok m w -> means next (AMov (OMem m) (OReg w s)) (IMov w (mem_op m) (Reg s))
| me_mov_sm d m : seg_ok d -> mem_valid m -> size_ok m true -> means next (AMov (OSeg d) (OMem m)) (IMovToS d (mem_op m))
| me_mov_ms s m : seg_ok s -> mem_valid m -> size_ok m true -> means next (AMov (OMem m) (OSeg s)) (IMovFromS (mem_op m) s)
| me_mov_mi w m v o : mem_valid m -> m_size m = Some w -> imm_of w v o -> means next (AMov (OMem m) (OVal v)) (IMov w (mem_op m) o)
| me_alu_rr op w d s : reg_ok d -> reg_ok s -> means next (AAlu op (OReg w d) (OReg w s)) (IAlu op w (Reg d) (Reg s))
| me_alu_ri op w d v o : reg_ok d -> imm_of w v o -> means next (AAlu op (OReg w d) (OVal v)) (IAlu op w (Reg d) o)
| me_alu_rm op w d m : reg_ok d -> mem_valid m -> size_ok m w -> means next (AAlu op (OReg w d) (OMem m)) (IAlu op w (Reg d) (mem_op m))
| me_alu_mr op w s m : reg_ok s -> mem_valid m -> size_ok m w -> means next (AAlu op (OMem m) (OReg w s)) (IAlu op w (mem_op m) (Reg s))
| me_alu_mi op w m v o : mem_valid m -> m_size m = Some w -> imm_of w v o -> means next (AAlu op (OMem m) (OVal v)) (IAlu op w (mem_op m) o)
| me_test_ri w d v o : reg_ok d -> imm_of w v o -> means next (ATest (OReg w d) (OVal v)) (ITest w (Reg d) o)
| me_test_mi w m v o : mem_valid m -> m_size m = Some w -> imm_of w v o -> means next (ATest (OMem m) (OVal v)) (ITest w (mem_op m) o)
| me_xchg_rr s : reg_ok s -> means next (AXchg (OReg true 0) (OReg true s)) (IXchg true (Reg s) (Reg 0))
| me_xchg_rm w d m : reg_ok d -> mem_valid m -> size_ok m w -> means next (AXchg (OReg w d) (OMem m)) (IXchg w (mem_op m) (Reg d))
| me_lea r m : reg_ok r -> mem_valid m -> means next (ALea r m) (ILea r (mem_op m))
| me_inc_r w d : reg_ok d -> means next (AInc (OReg w d)) (IInc w (Reg d))
| me_inc_m w m : mem_valid m -> m_size m = Some w -> means next (AInc (OMem m)) (IInc w (mem_op m))
| me_dec_r w d : reg_ok d -> means next (ADec (OReg w d)) (IDec w (Reg d))
| me_dec_m w m : mem_valid m -> m_size m = Some w -> means next (ADec (OMem m)) (IDec w (mem_op m))
| me_not w r : reg_ok r -> means next (AUn UNot w r) (INot w (Reg r))
| me_neg w r : reg_ok r -> means next (AUn UNeg w r) (INeg w (Reg r))
| me_muldiv k w r : reg_ok r -> means next (AUn (UMulDiv k) w r) (IMulDiv k w (Reg r))
| me_shift_cl k w r : reg_ok r -> means next (AShift k w r None) (IShift k w (Reg r) true)
| me_shift_1 k w r e : reg_ok r -> SasExpr.eval W e = Some 1 -> means next (AShift k w r (Some e)) (IShift k w (Reg r) false)
| me_push_r r : reg_ok r -> means next (APush (OReg true r)) (IPush (Reg r))
| me_push_s r : seg_ok r -> means next (APush (OSeg r)) (IPushS r)
| me_push_m m : mem_valid m -> m_size m = Some true -> means next (APush (OMem m)) (IPush (mem_op m))
| me_pop_r r : reg_ok r -> means next (APop (OReg true r)) (IPop r)
| me_pop_s r : seg_ok r -> means next (APop (OSeg r)) (IPopS r)
| me_callreg r : reg_ok r -> means next (ACallReg r) (ICallInd (Reg r))
| me_int e n : SasExpr.eval W e = Some n -> 0 <= n < 256 -> means next (AInt e) (IInt n)
| me_cbw : means next (ASimple SCbw) ICbw
| me_cwd : means next (ASimple SCwd) ICwd
| me_clc : means next (ASimple SClc) IClc
| me_stc : means next (ASimple SStc) IStc
| me_cli : means next (ASimple SCli) ICli
| me_sti : means next (ASimple SSti) ISti
| me_ret : means next (ASimple SRet) IRet
| me_str rep k w : In (k, w) [(MOVS, false); (CMPS, false); (STOS, false); (STOS, true); (LODS, false)] ->
    means next (AStr rep k w) (IStr k w (if rep : bool then Rep else NoRep))
| me_jmp v t : val v = Some t -> means next (AJmp v) (IJmp ((t - next) mod 65536))
| me_jmps v t rel : val v = Some t -> reaches_short next t rel -> means next (AJmpShort v) (IJmp rel)
| me_call v t : val v = Some t -> means next (ACall v) (ICall ((t - next) mod 65536))
| me_jcc n cc v t rel : In (n, cc) conditions -> val v = Some t -> reaches_short next t rel -> means next (AJcc n v) (IJcc cc rel).

(** ** Programs *)
Inductive item :=
| ILabel (nm : list Z)                 (* name: *)
| IInst (i : inst)
| IBytes (l : list Z)                  (* db 'text' *)
| IWord (v : Z).                       (* dw number *)
Definition item_toks (x : item) : list tk :=
  match x with
  | ILabel nm => [KName nm; KPunct 58]
  | IInst i => toks i
  | IBytes l => [wd "DB"; KStr l]
  | IWord v => [wd "DW"; KNum v]
  end.
(** the k-th byte *)
Definition byte_at (bs : list Z) (k : Z) : Z := nth (Z.to_nat k) bs 0.
(** [listing a p bs]: the bytes [bs], placed at address [a], are the program [p] *)
Inductive listing : Z -> list item -> list Z -> Prop :=
| li_nil a : listing a [] []
| li_label a nm p bs : env nm = a -> listing a p bs -> listing a (ILabel nm :: p) bs
| li_inst a i p len bs1 bs2 ins : Z.of_nat (List.length bs1) = len ->
    decode (byte_at bs1) = Some (ins, len) -> means (a + len) i ins ->
    listing (a + len) p bs2 -> listing a (IInst i :: p) (bs1 ++ bs2)
| li_bytes a l p bs : listing (a + Z.of_nat (List.length l)) p bs ->
    listing a (IBytes l :: p) (map (fun c => c mod 256) l ++ bs)
| li_word a v p bs : listing (a + 2) p bs -> listing a (IWord v :: p) ([v mod 256; v / 256 mod 256] ++ bs).
End Meaning.
