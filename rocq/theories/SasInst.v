(** The instructions: the bytes that HandleInstruction (sas.c:1133-1550) puts out for a source
    instruction are the machine instruction it asks for (SasSpec.means). *)
From Coq Require Import ZArith List Bool Lia String.
From Verif Require Import Base Sas SasSym SasText SasExpr SasAsm.
From Verif Require Spec8086 SasSpec.
Import ListNotations.
Open Scope Z_scope.
Notation length := List.length.
Notation decode := Spec8086.decode.
Notation dec_op := Spec8086.dec_op.
Notation dec_modrm := Spec8086.dec_modrm.
Notation byte_at := SasSpec.byte_at.

(** * Cells: bytes and words that may depend on a label *)
Inductive cell := Cell8 (x : Z) (f : option Z) | Cell16 (k : fixkind) (x : Z) (f : option Z).
Definition rcell (lv : Z -> Z) (c : cell) : list Z :=
  match c with
  | Cell8 x f => [(x + fixval lv f) mod 256]
  | Cell16 _ x f => [(x + fixval lv f) mod 256; (x + fixval lv f) / 256 mod 256]
  end.
Definition render (lv : Z -> Z) (cs : list cell) : list Z := flat_map (rcell lv) cs.
Definition clen (c : cell) : nat := match c with Cell8 _ _ => 1 | Cell16 _ _ _ => 2 end.
Fixpoint rlen (cs : list cell) : nat := match cs with [] => 0 | c :: cs => clen c + rlen cs end%nat.
Definition fix1 (n : nat) (c : cell) : fixes :=
  match c with Cell8 _ (Some i) => [(FIXUP_REL8, n, i)] | Cell16 k _ (Some i) => [(match k with FIXUP_REL16 => FIXUP_REL16 | _ => FIXUP_DISP16 end, n, i)] | _ => [] end.
Fixpoint cfix (n : nat) (cs : list cell) : fixes :=
  match cs with [] => [] | c :: cs => cfix (n + clen c)%nat cs ++ fix1 n c end.

Definition zero (_ : Z) : Z := 0.
Lemma render_app lv a b : render lv (a ++ b) = render lv a ++ render lv b.
Proof. apply flat_map_app. Qed.
Lemma render_len lv cs : length (render lv cs) = rlen cs.
Proof. induction cs as [|c cs IH]; [reflexivity|]. cbn [render flat_map rlen]. rewrite app_length. unfold render in IH. rewrite IH. destruct c; reflexivity. Qed.
Lemma rlen_app a b : rlen (a ++ b) = (rlen a + rlen b)%nat.
Proof. induction a as [|c a IH]; cbn [app rlen]; [reflexivity|]. rewrite IH. lia. Qed.
Lemma cfix_app n a b : cfix n (a ++ b) = cfix (n + rlen a) b ++ cfix n a.
Proof.
  revert n. induction a as [|c a IH]; intro n; cbn [app cfix rlen]; [rewrite Nat.add_0_r, app_nil_r; reflexivity|].
  rewrite IH, <- app_assoc. f_equal. f_equal. lia.
Qed.

(** * Decoding *)
Lemma word_bytes x y : x mod 65536 = y mod 65536 -> x mod 256 + 256 * (x / 256 mod 256) = y mod 65536.
Proof. intros <-. lia. Qed.
Section Dec.
Variable g : Z -> Z.
Variable seg : option Z.
Variable rp : Spec8086.repkind.
Variable k : Z.
Definition alu_code (op : Spec8086.aluop) : Z :=
  match op with Spec8086.ADD => 0 | Spec8086.OR => 1 | Spec8086.ADC => 2 | Spec8086.SBB => 3 | Spec8086.AND => 4 | Spec8086.SUB => 5 | Spec8086.XOR => 6 | Spec8086.CMP => 7 end.
Lemma alu_of_code op : Spec8086.alu_of (alu_code op) = op.
Proof. destruct op; reflexivity. Qed.
Ltac op_tac := intros H; unfold Spec8086.dec_op; cbv zeta; rewrite H; reflexivity.
Lemma D_alu_t op w : g k = 8 * alu_code op + zb w -> dec_op g seg rp k =
  let '(o, r, n) := dec_modrm g seg (k + 1) in Some (Spec8086.IAlu op w o (Spec8086.Reg r), n).
Proof. destruct op, w; op_tac. Qed.
Lemma D_alu_r op w : g k = 8 * alu_code op + 2 + zb w -> dec_op g seg rp k =
  let '(o, r, n) := dec_modrm g seg (k + 1) in Some (Spec8086.IAlu op w (Spec8086.Reg r) o, n).
Proof. destruct op, w; op_tac. Qed.
Lemma D_alu_acc op w : g k = 8 * alu_code op + 4 + zb w -> dec_op g seg rp k =
  let '(i, n) := Spec8086.dec_imm g w (k + 1) in Some (Spec8086.IAlu op w (Spec8086.Reg 0) (Spec8086.Imm i), n).
Proof. destruct op, w; op_tac. Qed.
Lemma D_80 w : g k = 128 + zb w -> dec_op g seg rp k =
  let '(o, r, n) := dec_modrm g seg (k + 1) in let '(i, n') := Spec8086.dec_imm g w n in Some (Spec8086.IAlu (Spec8086.alu_of r) w o (Spec8086.Imm i), n').
Proof. destruct w; intro H; unfold Spec8086.dec_op; cbv zeta; rewrite H; cbn [zb Z.add]; unfold Spec8086.dec_imm; reflexivity. Qed.
Lemma D_83 : g k = 131 -> dec_op g seg rp k =
  let '(o, r, n) := dec_modrm g seg (k + 1) in Some (Spec8086.IAlu (Spec8086.alu_of r) true o (Spec8086.Imm (Spec8086.sx8 (g n))), n + 1).
Proof. op_tac. Qed.
Lemma D_xchg w : g k = 134 + zb w -> dec_op g seg rp k =
  let '(o, r, n) := dec_modrm g seg (k + 1) in Some (Spec8086.IXchg w o (Spec8086.Reg r), n).
Proof. destruct w; op_tac. Qed.
Lemma D_88 w : g k = 136 + zb w -> dec_op g seg rp k =
  let '(o, r, n) := dec_modrm g seg (k + 1) in Some (Spec8086.IMov w o (Spec8086.Reg r), n).
Proof. destruct w; op_tac. Qed.
Lemma D_8A w : g k = 138 + zb w -> dec_op g seg rp k =
  let '(o, r, n) := dec_modrm g seg (k + 1) in Some (Spec8086.IMov w (Spec8086.Reg r) o, n).
Proof. destruct w; op_tac. Qed.
Lemma D_8C : g k = 140 -> dec_op g seg rp k =
  let '(o, r, n) := dec_modrm g seg (k + 1) in if r <? 4 then Some (Spec8086.IMovFromS o r, n) else None.
Proof. op_tac. Qed.
Lemma D_8D : g k = 141 -> dec_op g seg rp k =
  let '(o, r, n) := dec_modrm g seg (k + 1) in match o with Spec8086.Mem _ _ _ => Some (Spec8086.ILea r o, n) | _ => None end.
Proof. op_tac. Qed.
Lemma D_8E : g k = 142 -> dec_op g seg rp k =
  let '(o, r, n) := dec_modrm g seg (k + 1) in if r <? 4 then Some (Spec8086.IMovToS r o, n) else None.
Proof. op_tac. Qed.
Lemma D_A0 w : g k = 160 + zb w -> dec_op g seg rp k =
  Some (Spec8086.IMov w (Spec8086.Reg 0) (Spec8086.Mem seg Spec8086.MDirect (Spec8086.word_at g (k + 1))), k + 3).
Proof. destruct w; op_tac. Qed.
Lemma D_A2 w : g k = 162 + zb w -> dec_op g seg rp k =
  Some (Spec8086.IMov w (Spec8086.Mem seg Spec8086.MDirect (Spec8086.word_at g (k + 1))) (Spec8086.Reg 0), k + 3).
Proof. destruct w; op_tac. Qed.
Lemma D_A8 w : g k = 168 + zb w -> dec_op g seg rp k =
  let '(i, n) := Spec8086.dec_imm g w (k + 1) in Some (Spec8086.ITest w (Spec8086.Reg 0) (Spec8086.Imm i), n).
Proof. destruct w; op_tac. Qed.
Lemma D_C6 w : g k = 198 + zb w -> dec_op g seg rp k =
  let '(o, r, n) := dec_modrm g seg (k + 1) in let '(i, n') := Spec8086.dec_imm g w n in
  if r =? 0 then Some (Spec8086.IMov w o (Spec8086.Imm i), n') else None.
Proof. destruct w; op_tac. Qed.
Lemma D_D0 w c : g k = 208 + zb w + 2 * zb c -> dec_op g seg rp k =
  let '(o, r, n) := dec_modrm g seg (k + 1) in
  if r =? 4 then Some (Spec8086.IShift Spec8086.SHL w o c, n)
  else if r =? 5 then Some (Spec8086.IShift Spec8086.SHR w o c, n)
  else if r =? 7 then Some (Spec8086.IShift Spec8086.SAR w o c, n) else None.
Proof. destruct w, c; op_tac. Qed.
Lemma D_F6 w : g k = 246 + zb w -> dec_op g seg rp k =
  let '(o, r, n) := dec_modrm g seg (k + 1) in
  if r =? 0 then let '(i, n') := Spec8086.dec_imm g w n in Some (Spec8086.ITest w o (Spec8086.Imm i), n')
  else if r =? 2 then Some (Spec8086.INot w o, n)
  else if r =? 3 then Some (Spec8086.INeg w o, n)
  else if r =? 4 then Some (Spec8086.IMulDiv Spec8086.MUL w o, n)
  else if r =? 5 then Some (Spec8086.IMulDiv Spec8086.IMUL w o, n)
  else if r =? 6 then Some (Spec8086.IMulDiv Spec8086.DIV w o, n)
  else if r =? 7 then Some (Spec8086.IMulDiv Spec8086.IDIV w o, n)
  else None.
Proof. destruct w; op_tac. Qed.
Lemma D_FE w : g k = 254 + zb w -> dec_op g seg rp k =
  let '(o, r, n) := dec_modrm g seg (k + 1) in
  if r =? 0 then Some (Spec8086.IInc w o, n)
  else if r =? 1 then Some (Spec8086.IDec w o, n)
  else if (r =? 2) && w then Some (Spec8086.ICallInd o, n)
  else if (r =? 6) && w then Some (Spec8086.IPush o, n)
  else None.
Proof. destruct w; op_tac. Qed.
Ltac by8 R := unfold SasSpec.reg_ok in R; apply below8 in R; cbn [In] in R; repeat (destruct R as [<-|R]; [op_tac|]); contradiction.
Lemma D_40 r : SasSpec.reg_ok r -> g k = 64 + r -> dec_op g seg rp k = Some (Spec8086.IInc true (Spec8086.Reg r), k + 1).
Proof. intro R. by8 R. Qed.
Lemma D_48 r : SasSpec.reg_ok r -> g k = 72 + r -> dec_op g seg rp k = Some (Spec8086.IDec true (Spec8086.Reg r), k + 1).
Proof. intro R. by8 R. Qed.
Lemma D_50 r : SasSpec.reg_ok r -> g k = 80 + r -> dec_op g seg rp k = Some (Spec8086.IPush (Spec8086.Reg r), k + 1).
Proof. intro R. by8 R. Qed.
Lemma D_58 r : SasSpec.reg_ok r -> g k = 88 + r -> dec_op g seg rp k = Some (Spec8086.IPop r, k + 1).
Proof. intro R. by8 R. Qed.
Lemma D_90 r : SasSpec.reg_ok r -> g k = 144 + r -> dec_op g seg rp k = Some (Spec8086.IXchg true (Spec8086.Reg r) (Spec8086.Reg 0), k + 1).
Proof. intro R. by8 R. Qed.
Lemma D_B0 w r : SasSpec.reg_ok r -> g k = 176 + 8 * zb w + r -> dec_op g seg rp k =
  let '(i, n) := Spec8086.dec_imm g w (k + 1) in Some (Spec8086.IMov w (Spec8086.Reg r) (Spec8086.Imm i), n).
Proof.
  intro R. unfold SasSpec.reg_ok in R; apply below8 in R; cbn [In] in R. 
  destruct w; repeat (destruct R as [<-|R]; [intros H; unfold Spec8086.dec_op; cbv zeta; rewrite H; cbn [zb Z.add Z.mul Pos.add Pos.mul Pos.succ]; unfold Spec8086.dec_imm;
    first [reflexivity | replace (k + 1 + 1) with (k + 2) by lia; reflexivity | replace (k + 1 + 2) with (k + 3) by lia; reflexivity]|]); contradiction.
Qed.
Lemma D_pushs r : SasSpec.seg_ok r -> g k = 6 + 8 * r -> dec_op g seg rp k = Some (Spec8086.IPushS r, k + 1).
Proof. intro R. unfold SasSpec.seg_ok in R; apply below4 in R; cbn [In] in R; repeat (destruct R as [<-|R]; [op_tac|]); contradiction. Qed.
Lemma D_pops r : SasSpec.seg_ok r -> g k = 7 + 8 * r -> dec_op g seg rp k = Some (Spec8086.IPopS r, k + 1).
Proof. intro R. unfold SasSpec.seg_ok in R; apply below4 in R; cbn [In] in R; repeat (destruct R as [<-|R]; [op_tac|]); contradiction. Qed.
Lemma D_70 cc : 0 <= cc < 16 -> g k = 112 + cc -> dec_op g seg rp k = Some (Spec8086.IJcc cc (Spec8086.sx8 (g (k + 1))), k + 2).
Proof.
  intros R. assert (R' : In cc [0; 1; 2; 3; 4; 5; 6; 7; 8; 9; 10; 11; 12; 13; 14; 15]) by (cbn; lia). clear R. cbn [In] in R'.
  repeat (destruct R' as [<-|R']; [op_tac|]); contradiction.
Qed.

(** ** ModRM bytes *)
Lemma modrm_parts md r rm : 0 <= md < 4 -> 0 <= r < 8 -> 0 <= rm < 8 ->
  (64 * md + 8 * r + rm) / 64 = md /\ (64 * md + 8 * r + rm) / 8 mod 8 = r /\ (64 * md + 8 * r + rm) mod 8 = rm.
Proof. intros. repeat split; lia. Qed.
Lemma dec_reg r rm : SasSpec.reg_ok r -> SasSpec.reg_ok rm -> g k = 192 + 8 * r + rm -> dec_modrm g seg k = (Spec8086.Reg rm, r, k + 1).
Proof.
  intros R1 R2 H. unfold SasSpec.reg_ok in *. unfold Spec8086.dec_modrm. cbv zeta. rewrite H.
  destruct (modrm_parts 3 r rm ltac:(lia) R1 R2) as (E1 & E2 & E3). change (64 * 3) with 192 in *. rewrite E1, E2, E3. reflexivity.
Qed.
Lemma dec_mem md r rm : 0 <= md < 3 -> SasSpec.reg_ok r -> SasSpec.reg_ok rm -> g k = 64 * md + 8 * r + rm ->
  dec_modrm g seg k =
    if md =? 0 then if rm =? 6 then (Spec8086.Mem seg Spec8086.MDirect (Spec8086.word_at g (k + 1)), r, k + 3)
                    else (Spec8086.Mem seg (Spec8086.amode_of rm) 0, r, k + 1)
    else if md =? 1 then (Spec8086.Mem seg (Spec8086.amode_of rm) (Spec8086.sx8 (g (k + 1))), r, k + 2)
    else (Spec8086.Mem seg (Spec8086.amode_of rm) (Spec8086.word_at g (k + 1)), r, k + 3).
Proof.
  intros R0 R1 R2 H. unfold SasSpec.reg_ok in *. unfold Spec8086.dec_modrm. cbv zeta. rewrite H.
  destruct (modrm_parts md r rm ltac:(lia) R1 R2) as (E1 & E2 & E3). rewrite E1, E2, E3.
  replace (md =? 3) with false by lia. reflexivity.
Qed.
End Dec.
Definition plain (b : Z) : Prop := b <> 38 /\ b <> 46 /\ b <> 54 /\ b <> 62 /\ b <> 242 /\ b <> 243.
Lemma decode_plain g : plain (g 0) -> decode g = dec_op g None Spec8086.NoRep 0.
Proof.
  intros (A & B & C & D & E & F). unfold Spec8086.decode. cbn [Spec8086.dec_pfx].
  rewrite (proj2 (Z.eqb_neq _ _) A), (proj2 (Z.eqb_neq _ _) B), (proj2 (Z.eqb_neq _ _) C), (proj2 (Z.eqb_neq _ _) D), (proj2 (Z.eqb_neq _ _) E), (proj2 (Z.eqb_neq _ _) F).
  reflexivity.
Qed.
Lemma decode_es g : g 0 = 38 -> plain (g 1) -> decode g = dec_op g (Some 0) Spec8086.NoRep 1.
Proof.
  intros Z0 (A & B & C & D & E & F). unfold Spec8086.decode. cbn [Spec8086.dec_pfx]. rewrite Z0. change (38 =? 38) with true. cbn iota.
  change (0 + 1) with 1.
  rewrite (proj2 (Z.eqb_neq _ _) A), (proj2 (Z.eqb_neq _ _) B), (proj2 (Z.eqb_neq _ _) C), (proj2 (Z.eqb_neq _ _) D), (proj2 (Z.eqb_neq _ _) E), (proj2 (Z.eqb_neq _ _) F).
  reflexivity.
Qed.
Lemma byte_app a b j : 0 <= j -> byte_at (a ++ b) (Z.of_nat (length a) + j) = byte_at b j.
Proof. intro H. unfold SasSpec.byte_at. rewrite app_nth2 by lia. f_equal. lia. Qed.
