(** Each source instruction is assembled to the machine instruction it asks for. *)
From Coq Require Import ZArith List Bool Lia String.
From Verif Require Import Base Sas SasSym SasText SasExpr SasAsm SasInst SasInst2.
From Verif Require Spec8086 SasSpec.
Import ListNotations.
Open Scope Z_scope.
Notation length := List.length.

Section Width.
Variable W : Z.
Hypothesis HW : W = 16 \/ W = 32.
Notation cv := (cv W).
Notation done := (done W).
Notation meant := (meant W).
Notation mem_op := SasSpec.mem_op.
Notation means := (SasSpec.means W).

Definition immcell (w : bool) (o : operand) : cell := if w then Cell16 FIXUP_DISP16 (o_disp o) (o_fix o) else Cell8 (o_disp o) None.
Lemma r_imm c ts rf i s w v o cs sz : fits c -> cv c s ts cs rf sz -> (rlen cs < 6)%nat -> (length (cfix 0 cs) < 2)%nat -> lit_ok W c rf v o ->
  (w = false -> exists e, v = SasSpec.VExpr e) -> meant c i (cs ++ [immcell w o]) rf -> done c ts i (OutputImm W o w s).
Proof.
  intros F V L N LO E M. unfold OutputImm. destruct w.
  - eapply r_imm16; [exact HW|exact F|exact V|exact L|exact N|apply (lo_fix _ _ _ _ _ LO)|exact M].
  - destruct (E eq_refl) as (e & Ev). eapply r_imm8; [exact HW|exact F|exact V|lia|apply (lo_expr _ _ _ _ _ LO e Ev)|exact M].
Qed.
(** the immediate that is decoded is the one that was written *)
Lemma imm_val c rf v o w NS lv : lit_ok W c rf v o -> (w = false -> exists e, v = SasSpec.VExpr e) -> final c rf NS lv ->
  SasSpec.imm_of W (env_of NS lv) w v (Spec8086.Imm (if w then (o_disp o + fixval lv (o_fix o)) mod 65536 else (o_disp o + fixval lv (o_fix o)) mod 256)).
Proof. intros LO E FI. eexists. split; [apply (lo_val _ _ _ _ _ LO NS lv FI)|]. split; [destruct w; reflexivity|exact E]. Qed.
Lemma dec_immcell lv l1 w o n : (w = false -> o_fix o = None) -> Z.of_nat (length l1) = n ->
  Spec8086.dec_imm (byte_at (l1 ++ rcell lv (immcell w o))) w n =
    (if w then (o_disp o + fixval lv (o_fix o)) mod 65536 else (o_disp o + fixval lv (o_fix o)) mod 256, n + Z.of_nat (clen (immcell w o))).
Proof.
  intros N L. destruct w; cbn [immcell clen].
  - apply (dec_imm_app lv l1 true FIXUP_DISP16 (o_disp o) (o_fix o) n); [discriminate|exact L].
  - rewrite (N eq_refl). apply (dec_imm_app lv l1 false FIXUP_DISP16 (o_disp o) None n); [reflexivity|exact L].
Qed.
Lemma immcell_small w o n : (clen (immcell w o) <= 2)%nat /\ (length (fix1 n (immcell w o)) <= 1)%nat.
Proof. destruct w; cbn; destruct (o_fix o); cbn; lia. Qed.

(** ** Instructions with a memory operand *)
Lemma pre_len es lv b : Z.of_nat (length (render lv (pre es ++ [Cell8 b None]))) = plen es + 1.
Proof. destruct es; reflexivity. Qed.
Lemma pre_small es b : (rlen (pre es ++ [Cell8 b None]) <= 2)%nat /\ cfix 0 (pre es ++ [Cell8 b None]) = [] /\ Z.of_nat (rlen (pre es ++ [Cell8 b None])) = plen es + 1 /\
  (0 < rlen (pre es ++ [Cell8 b None]))%nat.
Proof. destruct es; cbn; repeat split; lia. Qed.
Lemma meant_rm c rf m o r b i (K : Spec8086.operand -> Z -> Z -> option (Spec8086.instr * Z)) : mem_ok c rf m o -> SasSpec.reg_ok r -> 0 <= b < 256 -> plain b ->
  (forall g seg k, g k = b -> dec_op g seg Spec8086.NoRep k = let '(o, r, n) := dec_modrm g seg (k + 1) in K o r n) ->
  (forall NS lv n, final c rf NS lv -> exists ins, K (mem_op (env_of NS lv) m) r n = Some (ins, n) /\ means (env_of NS lv) (c_va c + n) i ins) ->
  meant c i ((pre (SasSpec.m_es m) ++ [Cell8 b None]) ++ mcells o r) rf.
Proof.
  intros MO R B P D K'. destruct (mcells_len c rf m o r MO R) as [L1 L2]. destruct (pre_small (SasSpec.m_es m) b) as (P1 & P2 & P3 & P4).
  assert (LEN : Z.of_nat (rlen ((pre (SasSpec.m_es m) ++ [Cell8 b None]) ++ mcells o r)) = plen (SasSpec.m_es m) + 1 + Z.of_nat (rlen (mcells o r))).
  { rewrite rlen_app. lia. }
  split; [rewrite rlen_app; lia|]. split; [rewrite cfix_app, P2, app_nil_r, cfix_len; lia|].
  intros NS lv FI. rewrite LEN. destruct (K' NS lv (plen (SasSpec.m_es m) + 1 + Z.of_nat (rlen (mcells o r))) FI) as (ins & E & M).
  exists ins. split; [|exact M]. rewrite render_app.
  destruct (open_mem (SasSpec.m_es m) b (render lv (mcells o r)) lv B P) as [E1 E2]. rewrite E1. rewrite (D _ _ _ E2).
  pose proof (dec_mcells c rf m o r NS lv (render lv (pre (SasSpec.m_es m) ++ [Cell8 b None])) [] (seg_of (SasSpec.m_es m)) _ MO R FI (pre_len _ lv b)) as DM.
  rewrite app_nil_r in DM. rewrite DM. exact E.
Qed.
Lemma meant_rmi c rf m o r b i w x (K : Spec8086.operand -> Z -> Z -> Z -> option (Spec8086.instr * Z)) : mem_ok c rf m o -> SasSpec.reg_ok r -> 0 <= b < 256 -> plain b ->
  (w = false -> o_fix x = None) ->
  (forall g seg k, g k = b -> dec_op g seg Spec8086.NoRep k = let '(o, r, n) := dec_modrm g seg (k + 1) in let '(j, n') := Spec8086.dec_imm g w n in K o r j n') ->
  (forall NS lv n, final c rf NS lv -> exists ins, K (mem_op (env_of NS lv) m) r
     (if w then (o_disp x + fixval lv (o_fix x)) mod 65536 else (o_disp x + fixval lv (o_fix x)) mod 256) n = Some (ins, n) /\ means (env_of NS lv) (c_va c + n) i ins) ->
  meant c i (((pre (SasSpec.m_es m) ++ [Cell8 b None]) ++ mcells o r) ++ [immcell w x]) rf.
Proof.
  intros MO R B P NF D K'. destruct (mcells_len c rf m o r MO R) as [L1 L2]. destruct (pre_small (SasSpec.m_es m) b) as (P1 & P2 & P3 & P4).
  pose proof (immcell_small w x) as IS.
  set (cs := (pre (SasSpec.m_es m) ++ [Cell8 b None]) ++ mcells o r).
  assert (LC : Z.of_nat (rlen cs) = plen (SasSpec.m_es m) + 1 + Z.of_nat (rlen (mcells o r))) by (unfold cs; rewrite rlen_app; lia).
  assert (LEN : Z.of_nat (rlen (cs ++ [immcell w x])) = Z.of_nat (rlen cs) + Z.of_nat (clen (immcell w x))).
  { rewrite rlen_app. cbn [rlen]. lia. }
  split; [rewrite rlen_app; cbn [rlen]; destruct (IS 0%nat); unfold cs; rewrite rlen_app; lia|].
  split; [rewrite cfix_app; cbn [cfix app]; unfold cs at 2; rewrite cfix_app, P2, app_nil_r, app_length, cfix_len; specialize (IS (0 + rlen cs)%nat); lia|].
  intros NS lv FI. rewrite LEN. destruct (K' NS lv (Z.of_nat (rlen cs) + Z.of_nat (clen (immcell w x))) FI) as (ins & E & M).
  exists ins. split; [|exact M]. rewrite render_app, render1.
  assert (RL : Z.of_nat (length (render lv cs)) = Z.of_nat (rlen cs)) by (rewrite render_len; reflexivity).
  pose proof (dec_immcell lv (render lv cs) w x (Z.of_nat (rlen cs)) NF RL) as DI.
  unfold cs in DI |- *. rewrite render_app, <- app_assoc in DI |- *.
  destruct (open_mem (SasSpec.m_es m) b (render lv (mcells o r) ++ rcell lv (immcell w x)) lv B P) as [E1 E2]. rewrite E1, (D _ _ _ E2).
  rewrite (dec_mcells c rf m o r NS lv (render lv (pre (SasSpec.m_es m) ++ [Cell8 b None])) (rcell lv (immcell w x)) (seg_of (SasSpec.m_es m)) _ MO R FI (pre_len _ lv b)).
  fold cs in DI. rewrite <- LC. rewrite DI. exact E.
Qed.

(** ** Instructions without memory operands *)
Lemma byte0 x l lv : 0 <= x < 256 -> byte_at (rcell lv (Cell8 x None) ++ l) 0 = x.
Proof. intro H. change ((x + fixval lv None) mod 256 = x). apply b8. exact H. Qed.
Lemma byte1 a x l lv : 0 <= x < 256 -> byte_at (rcell lv (Cell8 a None) ++ rcell lv (Cell8 x None) ++ l) 1 = x.
Proof. intro H. change ((x + fixval lv None) mod 256 = x). apply b8. exact H. Qed.
Lemma meant_1 c rf i b ins : 0 <= b < 256 -> plain b -> (forall g, g 0 = b -> dec_op g None Spec8086.NoRep 0 = Some (ins, 1)) ->
  (forall NS lv, final c rf NS lv -> means (env_of NS lv) (c_va c + 1) i ins) -> meant c i [Cell8 b None] rf.
Proof.
  intros B P D M. split; [cbn; lia|]. split; [cbn; lia|]. intros NS lv FI. exists ins. split; [|apply M; exact FI].
  rewrite render1, <- (app_nil_r (rcell lv _)). rewrite decode_plain by (rewrite byte0 by exact B; exact P). apply D. apply byte0. exact B.
Qed.
Lemma meant_rr c rf i b r rm x (K : Spec8086.operand -> Z -> Z -> option (Spec8086.instr * Z)) : SasSpec.reg_ok r -> SasSpec.reg_ok rm -> 0 <= b < 256 -> plain b -> x = 192 + 8 * r + rm ->
  (forall g seg k, g k = b -> dec_op g seg Spec8086.NoRep k = let '(o, r, n) := dec_modrm g seg (k + 1) in K o r n) ->
  (forall NS lv, final c rf NS lv -> exists ins, K (Spec8086.Reg rm) r 2 = Some (ins, 2) /\ means (env_of NS lv) (c_va c + 2) i ins) ->
  meant c i [Cell8 b None; Cell8 x None] rf.
Proof.
  intros R RM B P X D K'. split; [cbn; lia|]. split; [cbn; lia|]. intros NS lv FI. destruct (K' NS lv FI) as (ins & E & M). exists ins. split; [|exact M].
  cbn [render flat_map]. unfold SasSpec.reg_ok in *. rewrite decode_plain by (rewrite byte0 by exact B; exact P). rewrite (D _ _ _ (byte0 b _ lv B)).
  rewrite (dec_reg _ _ _ r rm R RM); [exact E|]. change (0 + 1) with 1. rewrite byte1 by lia. exact X.
Qed.
Lemma meant_rri c rf i b r rm x w y (K : Spec8086.operand -> Z -> Z -> Z -> option (Spec8086.instr * Z)) : SasSpec.reg_ok r -> SasSpec.reg_ok rm -> 0 <= b < 256 -> plain b -> x = 192 + 8 * r + rm ->
  (w = false -> o_fix y = None) ->
  (forall g seg k, g k = b -> dec_op g seg Spec8086.NoRep k = let '(o, r, n) := dec_modrm g seg (k + 1) in let '(j, n') := Spec8086.dec_imm g w n in K o r j n') ->
  (forall NS lv n, final c rf NS lv -> exists ins, K (Spec8086.Reg rm) r
     (if w then (o_disp y + fixval lv (o_fix y)) mod 65536 else (o_disp y + fixval lv (o_fix y)) mod 256) n = Some (ins, n) /\ means (env_of NS lv) (c_va c + n) i ins) ->
  meant c i [Cell8 b None; Cell8 x None; immcell w y] rf.
Proof.
  intros R RM B P X NF D K'. pose proof (immcell_small w y 2) as IS.
  assert (LEN : Z.of_nat (rlen [Cell8 b None; Cell8 x None; immcell w y]) = 2 + Z.of_nat (clen (immcell w y))) by (cbn [rlen clen]; lia).
  split; [cbn [rlen clen]; lia|]. split; [cbn [cfix app clen]; rewrite ?app_nil_r; cbn [fix1]; rewrite ?app_nil_r; match goal with |- context [fix1 ?n (immcell w y)] => destruct (immcell_small w y n); lia end|].
  intros NS lv FI. rewrite LEN. destruct (K' NS lv (2 + Z.of_nat (clen (immcell w y))) FI) as (ins & E & M). exists ins. split; [|exact M].
  pose proof (dec_immcell lv (rcell lv (Cell8 b None) ++ rcell lv (Cell8 x None)) w y 2 NF eq_refl) as DI. rewrite <- app_assoc in DI.
  cbn [render flat_map]. rewrite (app_nil_r (rcell lv (immcell w y))).
  unfold SasSpec.reg_ok in *. rewrite decode_plain by (rewrite byte0 by exact B; exact P). rewrite (D _ _ _ (byte0 b _ lv B)).
  rewrite (dec_reg _ _ _ r rm R RM); [|change (0 + 1) with 1; rewrite byte1 by lia; exact X]. change (0 + 1 + 1) with 2. rewrite DI. exact E.
Qed.
Lemma meant_i c rf i b w y (K : Z -> Z -> option (Spec8086.instr * Z)) : 0 <= b < 256 -> plain b ->
  (w = false -> o_fix y = None) ->
  (forall g seg k, g k = b -> dec_op g seg Spec8086.NoRep k = let '(j, n') := Spec8086.dec_imm g w (k + 1) in K j n') ->
  (forall NS lv n, final c rf NS lv -> exists ins, K 
     (if w then (o_disp y + fixval lv (o_fix y)) mod 65536 else (o_disp y + fixval lv (o_fix y)) mod 256) n = Some (ins, n) /\ means (env_of NS lv) (c_va c + n) i ins) ->
  meant c i [Cell8 b None; immcell w y] rf.
Proof.
  intros B P NF D K'. pose proof (immcell_small w y 1) as IS.
  assert (LEN : Z.of_nat (rlen [Cell8 b None; immcell w y]) = 1 + Z.of_nat (clen (immcell w y))) by (cbn [rlen clen]; lia).
  split; [cbn [rlen clen]; lia|]. split; [cbn [cfix app clen]; rewrite ?app_nil_r; cbn [fix1]; rewrite ?app_nil_r; match goal with |- context [fix1 ?n (immcell w y)] => destruct (immcell_small w y n); lia end|].
  intros NS lv FI. rewrite LEN. destruct (K' NS lv (1 + Z.of_nat (clen (immcell w y))) FI) as (ins & E & M). exists ins. split; [|exact M].
  pose proof (dec_immcell lv (rcell lv (Cell8 b None)) w y 1 NF eq_refl) as DI.
  cbn [render flat_map]. rewrite (app_nil_r (rcell lv (immcell w y))).
  rewrite decode_plain by (rewrite byte0 by exact B; exact P). rewrite (D _ _ _ (byte0 b _ lv B)).
  change (0 + 1) with 1. rewrite DI. exact E.
Qed.
(** register numbers of operands *)
Lemma rg w r : SasSpec.reg_ok r -> let d := 256 + 8 * zb w + r in
  (TOK_AX <=? d) = w /\ Z.land d 7 = r /\ (d <? TOK_ES) = true /\ (TOK_ES <=? d) = false /\
  (d =? TOK_AL) = negb w && (r =? 0) /\ (d =? TOK_AX) = w && (r =? 0) /\ (d =? TOK_CL) = negb w && (r =? 1) /\
  ((TOK_AX <=? d) && (d <? TOK_ES)) = w.
Proof.
  unfold SasSpec.reg_ok. intro R. apply below8 in R. cbn [In] in R. cbv zeta.
  destruct w; repeat (destruct R as [<-|R]; [repeat split; vm_compute; reflexivity|]); contradiction.
Qed.
Lemma sgr r : SasSpec.seg_ok r -> let d := 272 + r in
  (TOK_AX <=? d) = true /\ Z.land d 7 = r /\ (d <? TOK_ES) = false /\ (TOK_ES <=? d) = true /\
  (d =? TOK_AL) = false /\ (d =? TOK_AX) = false /\ ((TOK_AX <=? d) && (d <? TOK_ES)) = false.
Proof.
  unfold SasSpec.seg_ok. intro R. apply below4 in R. cbn [In] in R. cbv zeta.
  repeat (destruct R as [<-|R]; [repeat split; vm_compute; reflexivity|]); contradiction.
Qed.
Lemma rrbyte r rm : SasSpec.reg_ok r -> SasSpec.reg_ok rm ->
  Z.lor (Z.lor 192 (Z.shiftl r 3)) rm = 192 + 8 * r + rm /\ Z.lor 192 (Z.lor rm (Z.shiftl r 3)) = 192 + 8 * r + rm /\
  Z.lor (Z.lor 192 rm) (8 * r) = 192 + 8 * r + rm.
Proof.
  unfold SasSpec.reg_ok. intros R R2. apply below8 in R. apply below8 in R2. cbn [In] in R, R2.
  repeat (destruct R as [<-|R]; [repeat (destruct R2 as [<-|R2]; [vm_compute; repeat split; reflexivity|]); contradiction|]); contradiction.
Qed.
Lemma seg_reg r : SasSpec.seg_ok r -> SasSpec.reg_ok r.
Proof. unfold SasSpec.seg_ok, SasSpec.reg_ok. lia. Qed.
End Width.
