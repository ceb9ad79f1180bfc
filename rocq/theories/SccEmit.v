(** Model of the code output functions of scc.c (lines 998-1413).
    Only definitions; the proofs are in SccEmitProofs.v and later files.
    [W] is the width of the compiler's [int]: 16 when scc compiles itself,
    32 on the usual hosts. *)
From Verif Require Import Base SccState.

Section Emit.
Variable W : Z.

(** value of a C [int] expression in the compiler *)
Definition ci (x : Z) : Z := ws W x.

(** Output[a - CODESTART], with the bounds of the array (scc.c:423) *)
Definition in_output (a : Z) : bool := (CODESTART <=? a) && (a <? CODESTART + OUTPUT_MAX).
Definition peek (a : Z) : M emst Z := fun e =>
  if in_output a then Ok (aget (Output e) (a - CODESTART), e) else UB.
Definition poke (a v : Z) : M emst unit := fun e =>
  if in_output a then Ok (tt, set_Output (aset (Output e) (a - CODESTART) (u8 v)) e) else UB.

(** Output[CodeAddress++ - CODESTART] = b, scc.c:1006 *)
Definition putb (b : Z) : M emst unit :=
  let! a := gets CodeAddress in
  poke a b ;; upd (set_CodeAddress (a + 1)).

(** ** Output functions; [chk] stands for EmitChecks, which is mutually
       recursive with them (scc.c:1001, 1390, 1403) *)
Section Checked.
Variable chk : M emst bool.

(** if (IsDeadCode|Pending) { if (EmitChecks()) return; }  scc.c:1003-1005 *)
Definition guarded (m : M emst unit) : M emst unit :=
  let! d := gets (fun e => IsDeadCode e || negb (Pending e =? 0)) in
  if d then (let! r := chk in if r then ret tt else m) else m.

(** scc.c:1001-1007 *)
Definition Output1Byte_ (b0 : Z) : M emst unit := guarded (putb b0).
(** scc.c:1009-1017 *)
Definition Output2Bytes_ (b0 b1 : Z) : M emst unit := guarded (putb b0 ;; putb b1).
(** scc.c:1019-1027 *)
Definition OutputWord_ (w : Z) : M emst unit := guarded (putb w ;; putb (Z.shiftr w 8)).
(** scc.c:1029-1038 *)
Definition Output3Bytes_ (b0 b1 b2 : Z) : M emst unit := guarded (putb b0 ;; putb b1 ;; putb b2).

(** scc.c:1241-1262 *)
Definition EmitAddRegConst_ (r Amm : Z) : M emst unit :=
  if Amm =? 0 then ret tt else
  let neg := Amm <? 0 in
  let Amm := if neg then ci (- Amm) else Amm in
  let Op := if neg then r + I_SUB else r in
  if Amm <=? 2 then
    let Op := Z.lor (Z.land Op 15) I_INC in
    Output1Byte_ Op ;;
    when (negb (ci (Amm - 1) =? 0)) (Output1Byte_ Op)
  else if Amm <? 128 then
    Output3Bytes_ I_ALU_RM16_IMM8 (Z.lor MODRM_REG Op) Amm
  else
    (if r =? 0 then Output1Byte_ (Z.lor Op 5)
     else Output2Bytes_ I_ALU_RM16_IMM16 (Z.lor MODRM_REG Op)) ;;
    OutputWord_ Amm.

(** scc.c:1378-1388 *)
Definition FlushSpAdj_ : M emst unit :=
  let! orig := gets Pending in
  when (hasb orig (-2))
    (upd (set_Pending 0) ;;
     EmitAddRegConst_ R_SP (clr orig 1) ;;
     upd (set_Pending (Z.land orig 1))).

(** scc.c:1390-1401 *)
Definition FlushPushAx_ : M emst unit :=
  let! p := gets Pending in
  when (hasb p 1)
    (upd (set_Pending (clr p 1)) ;;
     let! ru := gets RegUse in
     when ru (Output1Byte_ (Z.lor I_PUSH R_BX) ;;
              upd (fun e => set_LocalOffset (LocalOffset e - 2) e)) ;;
     Output1Byte_ (Z.lor I_XCHG_AX R_BX) ;;
     upd (set_RegUse true)).
End Checked.

(** scc.c:1403-1413; the recursion through the output functions is at most one
    level deep because Pending is cleared first, so two levels never run out *)
Fixpoint EmitChecks_n (n : nat) : M emst bool :=
  match n with
  | O => nofuel
  | S n' =>
      let! d := gets IsDeadCode in
      if d then ret true else
      let! p := gets Pending in
      when (negb (p =? 0)) (FlushSpAdj_ (EmitChecks_n n') ;; FlushPushAx_ (EmitChecks_n n')) ;;
      let! a := gets CodeAddress in
      failif (OUTPUT_MAX + CODESTART <? a) ;;
      ret false
  end.
Definition EmitChecks : M emst bool := EmitChecks_n 2.
Definition Output1Byte := Output1Byte_ EmitChecks.
Definition Output2Bytes := Output2Bytes_ EmitChecks.
Definition OutputWord := OutputWord_ EmitChecks.
Definition Output3Bytes := Output3Bytes_ EmitChecks.
Definition EmitAddRegConst := EmitAddRegConst_ EmitChecks.
Definition FlushSpAdj := FlushSpAdj_ EmitChecks.
Definition FlushPushAx := FlushPushAx_ EmitChecks.

(** ** Labels and references *)
(** scc.c:1040-1047 *)
Definition MakeLabel : M emst Z :=
  let! l := gets LocalLabelCounter in
  failif (l =? LABEL_MAX) ;;
  upd (set_LocalLabelCounter (l + 1)) ;;
  upd (fun e => set_LAddr (aset (LAddr e) l 0) e) ;;
  upd (fun e => set_LRef (aset (LRef e) l 0) e) ;;
  ret l.

(** one iteration of the loop of DoFixups, scc.c:1069-1124; returns the next
    reference of the chain *)
Definition DoFixup1 (r : Z) (relative : bool) : M emst Z :=
  let! ca := gets CodeAddress in
  let o := if relative then r + 2 else 0 in
  let f := if relative then ca - o else ca in
  let! b0 := peek r in
  let! b1 := peek (r + 1) in
  let next := Z.lor b0 (Z.shiftl b1 8) in
  let! op := peek (r - 1) in
  let finish (f : Z) : M emst Z :=
    (* scc.c:1112-1123 *)
    let! op := peek (r - 1) in
    (if op =? I_JMP_REL16 then
       let f := f + 1 in
       if f =? s8 f then
         poke (r - 1) I_JMP_REL8 ;;
         let f := Z.lor (u8 f) 36864 in
         poke r f ;; poke (r + 1) (Z.shiftr f 8)
       else
         let f := f - 1 in
         poke r f ;; poke (r + 1) (Z.shiftr f 8)
     else
       poke r f ;; poke (r + 1) (Z.shiftr f 8)) ;;
    ret next in
  if op =? 0 then
    (* fused Jcc/JMP *)
    if f <=? 124 then
      let! c3 := peek (r - 3) in
      let! c2 := peek (r - 2) in
      failif (negb (Z.land c3 240 =? 112) || negb (c2 =? 3)) ;;
      poke (r - 3) (Z.lxor c3 1) ;;
      poke (r - 2) (f + 3) ;;
      poke (r + 1) I_XCHG_AX ;;
      let! n := peek (r + 2) in
      let! n1 := (if n =? I_JMP_REL8 then peek (r + 3) else ret 0) in
      (if (n =? I_JMP_REL8) && (s8 n1 <=? 124) then
         poke (r - 1) I_JMP_REL8 ;; poke r (n1 + 3)
       else if n =? Z.lor I_POP R_BP then
         poke (r - 1) (Z.lor I_POP R_BP) ;; poke r I_RET
       else
         poke (r - 1) I_MOV_R_RM ;; poke r MODRM_REG) ;;
      ret next
    else
      poke (r - 1) I_JMP_REL16 ;;
      finish f
  else
    let! lf := gets LastFixup in
    if (ca =? o) && negb (lf =? ca) then
      upd (set_CodeAddress (ca - 3)) ;; ret next
    else finish f.

(** the loop, scc.c:1069; the fuel is the size of the output buffer *)
Fixpoint fixup_loop (n : nat) (r : Z) (relative : bool) : M emst unit :=
  match n with
  | O => nofuel
  | S n' => if r =? 0 then ret tt
            else let! r' := DoFixup1 r relative in fixup_loop n' r' relative
  end.

(** scc.c:1065-1126 *)
Definition DoFixups (r : Z) (relative : bool) : M emst unit :=
  fixup_loop (Z.to_nat OUTPUT_MAX) r relative ;;
  upd (fun e => set_LastFixup (CodeAddress e) e).

(** AddFixup(&Labels[l].Ref), scc.c:1128-1134 *)
Definition AddFixupLabel (l : Z) : M emst unit :=
  let! d := gets IsDeadCode in
  if d then ret tt else
  let! r := gets (fun e => aget (LRef e) l) in
  OutputWord r ;;
  upd (fun e => set_LRef (aset (LRef e) l (CodeAddress e - 2)) e).
(** AddFixup(&VarDecls[v].Ref), scc.c:1128-1134 *)
Definition AddFixupVar (v : Z) : M emst unit :=
  let! d := gets IsDeadCode in
  if d then ret tt else
  let! r := gets (fun e => aget (VRef e) v) in
  OutputWord r ;;
  upd (fun e => set_VRef (aset (VRef e) v (CodeAddress e - 2)) e).

(** scc.c:1138-1146 *)
Definition EmitLocalLabel (l : Z) : M emst unit :=
  let! n := gets LocalLabelCounter in
  let! a := gets (fun e => aget (LAddr e) l) in
  failif ((n <=? l) || negb (a =? 0)) ;;
  FlushSpAdj ;;
  upd (set_IsDeadCode false) ;;
  let! r := gets (fun e => aget (LRef e) l) in
  DoFixups r true ;;
  upd (fun e => set_LAddr (aset (LAddr e) l (CodeAddress e)) e) ;;
  upd (fun e => set_LRef (aset (LRef e) l 0) e).

(** EmitGlobalLabel, scc.c:1149-1154 (the map file line, 1156-1161, is added in
    SccDecl.v); [isfun] is vd->Type & VT_FUN *)
Definition EmitGlobalLabel_ (v : Z) (isfun : bool) : M emst unit :=
  let! o := gets (fun e => aget (VOff e) v) in
  failif (negb (o =? 0)) ;;
  upd (fun e => set_VOff (aset (VOff e) v (CodeAddress e)) e) ;;
  upd (set_IsDeadCode false) ;;
  let! r := gets (fun e => aget (VRef e) v) in
  DoFixups r isfun.

(** scc.c:1164-1171 *)
Definition EmitGlobalRef (v : Z) : M emst unit :=
  let! a := gets (fun e => aget (VOff e) v) in
  if negb (a =? 0) then OutputWord a else AddFixupVar v.
(** scc.c:1173-1180 *)
Definition EmitGlobalRefRel (v : Z) : M emst unit :=
  let! a := gets (fun e => aget (VOff e) v) in
  if negb (a =? 0) then (let! ca := gets CodeAddress in OutputWord (a - ca - 2)) else AddFixupVar v.

(** ** Instructions *)
(** scc.c:1182-1202 *)
Definition EmitModrm (Inst R Loc Val : Z) : M emst unit :=
  let R := Z.shiftl R 3 in
  if Loc =? VT_LOCOFF then
    Output3Bytes Inst (Z.lor MODRM_BP_DISP8 R) Val ;;
    if Val =? s8 Val then ret tt else
    let! d := gets IsDeadCode in
    when (negb d)
      (let! ca := gets CodeAddress in
       let! m := peek (ca - 2) in
       poke (ca - 2) (m + (MODRM_BP_DISP16 - MODRM_BP_DISP8)) ;;
       Output1Byte (Z.shiftr Val 8))
  else if Loc =? VT_LOCGLOB then
    Output2Bytes Inst (Z.lor MODRM_DISP16 R) ;;
    EmitGlobalRef Val
  else
    failif (negb (Loc =? 0)) ;;
    Output2Bytes Inst (Z.lor MODRM_SI R).

(** scc.c:1204-1217 *)
Definition EmitLoadAx (Size Loc Val : Z) : M emst unit :=
  if Loc =? 0 then Output1Byte (I_LODSB - 1 + Size)
  else if Loc =? VT_LOCGLOB then Output1Byte (160 - 1 + Size) ;; EmitGlobalRef Val
  else EmitModrm (138 - 1 + Size) R_AX Loc Val.

(** scc.c:1219-1231 *)
Definition EmitStoreAx (Size Loc Val : Z) : M emst unit :=
  if Loc =? 0 then Output1Byte (I_STOSB - 1 + Size)
  else if Loc =? VT_LOCGLOB then Output1Byte (162 - 1 + Size) ;; EmitGlobalRef Val
  else EmitModrm (I_MOV_R_RM - 1 + Size) R_AX Loc Val.

(** scc.c:1233-1239 *)
Definition EmitStoreConst (Size Loc Val : Z) : M emst unit :=
  EmitModrm (198 - 1 + Size) 0 Loc Val ;;
  let! cv := gets CurrentVal in
  Output1Byte cv ;;
  when (Size =? 2) (Output1Byte (Z.shiftr cv 8)).

(** scc.c:1264-1267 *)
Definition EmitMovRR (d s : Z) : M emst unit :=
  Output2Bytes (Z.lor I_MOV_R_RM 1) (Z.lor (Z.lor MODRM_REG (Z.shiftl s 3)) d).
(** scc.c:1269-1272 *)
Definition EmitMovRImm (r val : Z) : M emst unit :=
  Output3Bytes (Z.lor I_MOV_R_IMM16 r) val (Z.shiftr val 8).

(** while (x /= 2) m;  (scc.c:1280, 1303); an int has at most W bits *)
Fixpoint halve_loop (n : nat) (x : Z) (m : M emst unit) : M emst unit :=
  match n with
  | O => nofuel
  | S n' => let x := Z.quot x 2 in
            if x =? 0 then ret tt else m ;; halve_loop n' x m
  end.

(** scc.c:1274-1284 *)
Definition EmitScaleAx (Scale : Z) : M emst unit :=
  if negb (Z.land Scale (ci (Scale - 1)) =? 0) then
    EmitMovRImm R_CX Scale ;;
    Output2Bytes 247 (Z.lor (Z.lor MODRM_REG 32) R_CX)
  else
    halve_loop (S (Z.to_nat W)) Scale (Output2Bytes 209 (Z.lor MODRM_REG (Z.shiftl SHROT_SHL 3))).

(** scc.c:1286-1294 *)
Definition EmitDivCX : M emst unit :=
  let! u := gets IsUnsignedOp in
  if u then
    Output2Bytes (Z.lor I_XOR 1) (Z.lor (Z.lor 192 (Z.shiftl R_DX 3)) R_DX) ;;
    Output2Bytes 247 (Z.lor (Z.lor MODRM_REG 48) R_CX)
  else
    Output3Bytes 153 247 (Z.lor (Z.lor MODRM_REG 56) R_CX).

(** scc.c:1296-1307 *)
Definition EmitDivAxConst (Amm : Z) : M emst unit :=
  if negb (Z.land Amm (ci (Amm - 1)) =? 0) then
    EmitMovRImm R_CX Amm ;; EmitDivCX
  else
    let! u := gets IsUnsignedOp in
    let modrm := if u then Z.lor MODRM_REG (Z.shiftl SHROT_SHR 3)
                 else Z.lor MODRM_REG (Z.shiftl SHROT_SAR 3) in
    halve_loop (S (Z.to_nat W)) Amm (Output2Bytes 209 modrm).

(** scc.c:1309-1326 *)
Definition EmitLocalJump (l : Z) : M emst bool :=
  let! n := gets LocalLabelCounter in
  failif ((l <? 0) || (n <=? l)) ;;
  let! addr := gets (fun e => aget (LAddr e) l) in
  if negb (addr =? 0) then
    let! ca := gets CodeAddress in
    let d := addr - (ca + 2) in
    (if d =? s8 d then Output2Bytes I_JMP_REL8 d
     else Output1Byte I_JMP_REL16 ;; OutputWord (d - 1)) ;;
    ret true
  else
    Output1Byte I_JMP_REL16 ;;
    AddFixupLabel l ;;
    ret false.

(** scc.c:1328-1335 *)
Definition EmitJmp (l : Z) : M emst unit :=
  upd (fun e => set_Pending (clr (Pending e) 1) e) ;;
  let! c := EmitChecks in
  if c then ret tt else
  EmitLocalJump l ;;
  upd (set_IsDeadCode true).

(** scc.c:1337-1354 *)
Definition EmitJcc (c l : Z) : M emst unit :=
  let! r := EmitChecks in
  if r then ret tt else
  let! addr := gets (fun e => aget (LAddr e) l) in
  let! ca := gets CodeAddress in
  let d := addr - (ca + 2) in
  if negb (addr =? 0) && (d =? s8 d) then Output2Bytes (Z.lor 112 c) d
  else
    Output2Bytes (Z.lor 112 (Z.lxor c 1)) 3 ;;
    let! known := EmitLocalJump l in
    when (negb known) (let! ca := gets CodeAddress in poke (ca - 3) 0).

(** scc.c:1356-1368 *)
Definition EmitLoadAddr (Reg Loc Val : Z) : M emst unit :=
  if Loc =? VT_LOCOFF then EmitModrm I_LEA Reg VT_LOCOFF Val
  else if Loc =? VT_LOCGLOB then Output1Byte (Z.lor I_MOV_R_IMM16 Reg) ;; EmitGlobalRef Val
  else fatal.

(** scc.c:1370-1376 *)
Definition EmitExtend (Unsigned : bool) : M emst unit :=
  if Unsigned then Output2Bytes I_XOR (Z.lor (Z.lor MODRM_REG 32) 4) else Output1Byte 152.
End Emit.
