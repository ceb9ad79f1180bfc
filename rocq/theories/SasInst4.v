(** HandleInstruction (sas.c:1133-1550), instruction by instruction. *)
From Coq Require Import ZArith List Bool Lia String.
From Verif Require Import Base Sas SasSym SasText SasExpr SasAsm SasInst SasInst2 SasInst3.
From Verif Require Spec8086 SasSpec.
Import ListNotations.
Open Scope Z_scope.
Notation length := List.length.

Section Width.
Variable W : Z.
Hypothesis HW : W = 16 \/ W = 32.
Notation cv := (cv W).
Notation done := (done W).
Notation meant := (meant W).
Notation mem_op := SasSpec.mem_op.
Notation means := (SasSpec.means W).

Lemma r_assert {A} b s (k : unit -> M st A) (P : outcome (A * st) -> Prop) : b = true -> P (k tt s) -> P (bind (assert b) k s).
Proof. intros ->. exact (fun x => x). Qed.
Lemma r_gets {A B} (f : st -> B) s (k : B -> M st A) (P : outcome (A * st) -> Prop) x : f s = x -> P (k x s) -> P (bind (gets f) k s).
Proof. intros <-. exact (fun x => x). Qed.
Lemma r_ret {A B} (x : B) s (k : B -> M st A) (P : outcome (A * st) -> Prop) : P (k x s) -> P (bind (ret x) k s).
Proof. exact (fun x => x). Qed.
Lemma r_assert_ret {A B} b (x : B) s (k : B -> M st A) (P : outcome (A * st) -> Prop) : b = true -> P (k x s) -> P (bind (assert b;; ret x) k s).
Proof. intros ->. exact (fun x => x). Qed.
Lemma stmt_start c s n rest fuel t sz : view W c s (SasSpec.wd n :: rest) [] [] [] sz ->
  synonym (SasSpec.place n builtin_names + 256) = t -> 286 <= t < 355 ->
  exists s1, view W c s1 rest [] [] [] 0 /\ statement W fuel s = HandleInstruction W fuel t s1.
Proof.
  intros V T R. destruct (v_next W HW _ _ _ _ _ _ _ _ V) as (s1 & E1 & V1). exists (set_size s1 0). split; [eapply v_setsize; exact V1|].
  pose proof (tok_wd W _ _ (v_loaded W _ _ _ _ _ _ _ _ V)) as TK. rewrite T in TK.
  unfold statement. mget. rewrite TK. rewrite (proj2 (Z.leb_gt TOK_USER_ID t)) by (unfold TOK_USER_ID; lia).
  rewrite (proj2 (Z.ltb_ge t TOK_DIRECTIVE)) by (unfold TOK_DIRECTIVE; lia).
  rewrite (bind_ok _ _ _ _ _ E1). unfold SccState.upd. unfold SccState.bind at 1.
  rewrite (proj2 (Z.ltb_ge t TOK_INST)) by (unfold TOK_INST; lia). reflexivity.
Qed.
Lemma is_lit_ok c rf v o : lit_ok W c rf v o -> is_reg o = false /\ is_lit o = true /\ is_mem o = false.
Proof. intros [T _ _ _ _]. unfold is_reg, is_lit, is_mem. rewrite T. auto. Qed.
Lemma is_mem_ok c rf m o : mem_ok c rf m o -> is_reg o = false /\ is_lit o = false /\ is_mem o = true.
Proof. intros [T _ _ _]. unfold is_reg, is_lit, is_mem. rewrite T. auto. Qed.
Lemma wf_val env v x : SasSpec.val W env v = Some x -> arg_wf W (SasSpec.OVal v).
Proof. destruct v; cbn; [congruence|auto]. Qed.
Lemma direct_mode c rf m o : mem_ok c rf m o -> (o_modrm o =? 6) = match SasSpec.m_base m with None => true | Some _ => false end.
Proof.
  intros MO. pose proof (mo_mode _ _ _ _ MO) as MM. destruct (SasSpec.m_base m) as [b|]; [|rewrite MM; reflexivity].
  destruct MM as [(A & -> & _)|[(-> & _)| ->]]; destruct b; cbn in *; try reflexivity; lia.
Qed.
Lemma pre_cv c s ts es rf sz : cv c s ts (pre es) rf sz -> (rlen (pre es) < 2)%nat /\ cfix 0 (pre es) = [].
Proof. intros _. destruct es; cbn; split; auto; lia. Qed.
Lemma pre_len1 es : (rlen (pre es) < 2)%nat.
Proof. destruct es; cbn; lia. Qed.

(** direct addresses with the accumulator, A0-A3 *)
Lemma meant_moffs c rf m o b i (K : Spec8086.operand -> Spec8086.instr) : mem_ok c rf m o -> SasSpec.m_base m = None -> 0 <= b < 256 -> plain b ->
  (forall g seg k, g k = b -> dec_op g seg Spec8086.NoRep k = Some (K (Spec8086.Mem seg Spec8086.MDirect (Spec8086.word_at g (k + 1))), k + 3)) ->
  (forall NS lv n, final c rf NS lv -> means (env_of NS lv) (c_va c + n) i (K (mem_op (env_of NS lv) m))) ->
  meant c i ((pre (SasSpec.m_es m) ++ [Cell8 b None]) ++ [Cell16 FIXUP_DISP16 (o_disp o) (o_fix o)]) rf.
Proof.
  intros MO MB B P D K'. destruct (pre_small (SasSpec.m_es m) b) as (P1 & P2 & P3 & P4).
  set (cs := pre (SasSpec.m_es m) ++ [Cell8 b None]) in *.
  split; [rewrite rlen_app; cbn [rlen clen]; lia|].
  split; [rewrite cfix_app, P2, app_nil_r; cbn [cfix app]; destruct (o_fix o); cbn; lia|].
  intros NS lv FI. exists (K (mem_op (env_of NS lv) m)). split; [|apply K'; exact FI].
  rewrite render_app, render1.
  assert (RL : Z.of_nat (length (render lv cs)) = plen (SasSpec.m_es m) + 1) by (rewrite render_len; exact P3).
  pose proof (dec_immcell lv (render lv cs) true o _ ltac:(discriminate) RL) as DI. cbn [immcell Spec8086.dec_imm] in DI.
  unfold cs in DI |- *.
  destruct (open_mem (SasSpec.m_es m) b (rcell lv (Cell16 FIXUP_DISP16 (o_disp o) (o_fix o))) lv B P) as [E1 E2]. rewrite E1, (D _ _ _ E2).
  assert (DI' : forall l, l = rcell lv (Cell16 FIXUP_DISP16 (o_disp o) (o_fix o)) ->
     Spec8086.word_at (byte_at (render lv (pre (SasSpec.m_es m) ++ [Cell8 b None]) ++ l)) (plen (SasSpec.m_es m) + 1) = (o_disp o + fixval lv (o_fix o)) mod 65536).
  { intros l ->. exact (f_equal fst DI). }
  rewrite (DI' _ eq_refl). rewrite (mo_val _ _ _ _ MO NS lv FI).
  replace (Z.of_nat (rlen _)) with (plen (SasSpec.m_es m) + 3) by (fold cs; rewrite rlen_app; cbn [rlen clen]; lia).
  unfold SasSpec.mem_op. rewrite MB. reflexivity.
Qed.

(** two bytes, the second naming a register *)
Lemma meant_rr2 c rf i b r rm x ins : SasSpec.reg_ok r -> SasSpec.reg_ok rm -> 0 <= b < 256 -> plain b -> x = 192 + 8 * r + rm ->
  (forall g, g 0 = b -> dec_modrm g None 1 = (Spec8086.Reg rm, r, 2) -> dec_op g None Spec8086.NoRep 0 = Some (ins, 2)) ->
  (forall NS lv, final c rf NS lv -> means (env_of NS lv) (c_va c + 2) i ins) ->
  meant c i [Cell8 b None; Cell8 x None] rf.
Proof.
  intros R RM B P X D K'. split; [cbn; lia|]. split; [cbn; lia|]. intros NS lv FI. exists ins. split; [|exact (K' NS lv FI)].
  cbn [render flat_map]. unfold SasSpec.reg_ok in *. rewrite decode_plain by (rewrite byte0 by exact B; exact P). apply D; [apply byte0; exact B|].
  change 2 with (1 + 1). apply (dec_reg _ _ _ r rm R RM). rewrite byte1 by lia. exact X.
Qed.
(** two bytes, the second a number *)
Lemma meant_2 c rf i b x y ins : 0 <= b < 256 -> plain b -> x mod 256 = y ->
  (forall g, g 0 = b -> g 1 = y -> dec_op g None Spec8086.NoRep 0 = Some (ins, 2)) ->
  (forall NS lv, final c rf NS lv -> means (env_of NS lv) (c_va c + 2) i ins) ->
  meant c i [Cell8 b None; Cell8 x None] rf.
Proof.
  intros B P X D K'. split; [cbn; lia|]. split; [cbn; lia|]. intros NS lv FI. exists ins. split; [|exact (K' NS lv FI)].
  cbn [render flat_map]. rewrite decode_plain by (rewrite byte0 by exact B; exact P). apply D; [apply byte0; exact B|].
  change ((x + 0) mod 256 = y). rewrite Z.add_0_r. exact X.
Qed.
Section One.
Variable c : ctx.
Hypothesis F : fits c.
Variable ts : list tk.
Hypothesis ST : stops ts.
Definition pcells (a : SasSpec.arg) : list cell := match a with SasSpec.OMem m => pre (SasSpec.m_es m) | _ => [] end.
Lemma parse2 i a b fuel s (K : operand * operand -> M st unit) : arg_wf W a -> arg_wf W b -> (arg_need a <= fuel)%nat -> (arg_need b <= fuel)%nat ->
  view W c s (SasSpec.arg_toks a ++ SasSpec.comma :: SasSpec.arg_toks b ++ ts) [] [] [] 0 ->
  (forall s' rf oa ob, cv c s' ts (pcells a ++ pcells b) rf (size_after b (size_after a 0)) -> arg_ok W c rf a oa -> arg_ok W c rf b ob -> done c ts i (K (oa, ob) s')) ->
  done c ts i (bind (Parse2Operands W fuel) K s).
Proof.
  intros WA WB NA NB V D. destruct (Parse2_spec W HW c s a b ts 0 fuel F WA WB ST NA NB V) as (s' & rf & oa & ob & E & V2 & A & B).
  rewrite (bind_ok _ _ _ _ _ E). apply cv_pre in V2. eapply D; eauto.
Qed.
Lemma parse1 i a fuel s (K : operand -> M st unit) sz : arg_wf W a -> (arg_need a <= fuel)%nat ->
  view W c s (SasSpec.arg_toks a ++ ts) [] [] [] sz ->
  (forall s' rf oa, cv c s' ts (pcells a) rf (size_after a sz) -> arg_ok W c rf a oa -> done c ts i (K oa s')) ->
  done c ts i (bind (ParseOperand W fuel) K s).
Proof.
  intros WA NA V D. destruct (ParseOperand_spec W HW c s a ts [] [] [] sz fuel F WA ST ltac:(cbn; lia) NA V) as (s' & rf & oa & E & V2 & A).
  rewrite (bind_ok _ _ _ _ _ E). cbn [app] in V2. rewrite app_nil_r in V2, A.
  rewrite <- (app_nil_r (prefix_of a)) in V2. apply (cv_pre W c s' ts a (SasSpec.OSeg 0)) in V2. rewrite app_nil_r in V2. eapply D; eauto.
Qed.
Lemma mr_done i rf s m o x inst b n sz : cv c s ts (pre (SasSpec.m_es m)) rf sz -> mem_ok c rf m o -> is_reg x = true -> Z.land (o_disp x) 7 = n -> SasSpec.reg_ok n ->
  Z.lor inst (zb ((TOK_AX <=? o_disp x) && (o_disp x <? TOK_ES))) = b -> meant c i ((pre (SasSpec.m_es m) ++ [Cell8 b None]) ++ mcells o n) rf ->
  done c ts i (OutputMR W inst o x s).
Proof.
  intros V MO RX N R B M. destruct (is_mem_ok _ _ _ _ MO) as (I1 & I2 & I3). destruct (pre_small (SasSpec.m_es m) b) as (P1 & P2 & P3 & P4).
  unfold OutputMR. apply r_assert; [rewrite I3, RX; reflexivity|]. rewrite B, N.
  eapply (r_byte W HW); [exact F|exact V|pose proof (pre_len1 (SasSpec.m_es m)); lia|intros s' V'].
  eapply (r_mem_last W HW); [exact F|exact V'|lia|exact P2|exact MO|exact R|exact M].
Qed.
Ltac prel := pose proof pre_len1; match goal with |- context [pre ?e] => specialize (pre_len1 e); destruct (pre_small e 0) as (? & ? & ? & ?); lia end.
Ltac small := first [cbn; lia | rewrite ?rlen_app; cbn [rlen clen]; match goal with |- context [pre ?e] => pose proof (pre_len1 e); lia end].
Ltac go_byte := match goal with V : SasInst2.cv _ _ _ _ ?cs _ _ |- _ => eapply (r_byte W HW); [exact F|exact V|small|let s' := fresh "s'" in let V' := fresh "V'" in intros s' V'; clear V; rename V' into V; cbn [app] in V] end.
Ltac last := match goal with V : SasInst2.cv _ _ _ _ ?cs _ _ |- _ => eapply (r_last W HW); [exact F|exact V|small|cbn [app]] end.
Ltac p2 V := eapply parse2; [| | | |exact V|let s' := fresh "s'" in intros s' rf oa ob V2 A B; cbn [pcells app arg_ok size_after] in V2, A, B; clear V].
Ltac op w := destruct w; cbn [zb]; lia.
Ltac pl w := destruct w; unfold plain; cbn; lia.
Ltac isreg A := rewrite A; cbn [is_reg is_lit is_mem o_type o_disp].
Ltac case_mem MO := let J1 := fresh "J" in let J2 := fresh "J" in let J3 := fresh "J" in destruct (is_mem_ok _ _ _ _ MO) as (J1 & J2 & J3); rewrite ?J1, ?J2, ?J3; cbv iota.
Ltac case_lit LO := let J1 := fresh "J" in let J2 := fresh "J" in let J3 := fresh "J" in destruct (is_lit_ok _ _ _ _ LO) as (J1 & J2 & J3); rewrite ?J1, ?J2, ?J3; cbv iota.
Ltac exs := intros; eexists; split; [reflexivity|].

(** ** MOV *)
Lemma mov_rr w d r fuel s : SasSpec.reg_ok d -> SasSpec.reg_ok r -> (8 <= fuel)%nat ->
  view W c s (SasSpec.arg_toks (SasSpec.OReg w d) ++ SasSpec.comma :: SasSpec.arg_toks (SasSpec.OReg w r) ++ ts) [] [] [] 0 ->
  done c ts (SasSpec.AMov (SasSpec.OReg w d) (SasSpec.OReg w r)) (HandleMOV W fuel s).
Proof.
  intros D R N V. unfold HandleMOV. p2 V; [exact D|exact R|exact N|exact N|]. isreg A. isreg B.
  destruct (rg w d D) as (G1 & G2 & G3 & _). destruct (rg w r R) as (J1 & J2 & J3 & _). rewrite G1, G2, G3, J2, J3.
  replace (Z.lor 136 (zb w)) with (136 + zb w) by (destruct w; reflexivity). rewrite (proj1 (proj2 (rrbyte r d R D))).
  go_byte. last.
  eapply (meant_rr W c rf _ _ r d _ (fun o r n => Some (Spec8086.IMov w o (Spec8086.Reg r), n))); [exact R|exact D|op w|pl w|reflexivity|intros; apply D_88; assumption|exs].
  constructor; assumption.
Qed.
Lemma mov_rs d r fuel s : SasSpec.reg_ok d -> SasSpec.seg_ok r -> (8 <= fuel)%nat ->
  view W c s (SasSpec.arg_toks (SasSpec.OReg true d) ++ SasSpec.comma :: SasSpec.arg_toks (SasSpec.OSeg r) ++ ts) [] [] [] 0 ->
  done c ts (SasSpec.AMov (SasSpec.OReg true d) (SasSpec.OSeg r)) (HandleMOV W fuel s).
Proof.
  intros D R N V. unfold HandleMOV. p2 V; [exact D|exact R|exact N|exact N|]. isreg A. isreg B.
  destruct (rg true d D) as (G1 & G2 & G3 & _). destruct (sgr r R) as (J1 & J2 & J3 & _). rewrite G1, G2, G3, J2, J3.
  rewrite (proj1 (proj2 (rrbyte r d (seg_reg r R) D))).
  go_byte. last.
  eapply (meant_rr W c rf _ _ r d _ (fun o r n => if r <? 4 then Some (Spec8086.IMovFromS o r, n) else None)); [exact (seg_reg r R)|exact D|lia|unfold plain; lia|reflexivity|intros; apply D_8C; assumption|].
  intros. eexists. split; [|constructor; assumption]. unfold SasSpec.seg_ok in R. rewrite (proj2 (Z.ltb_lt r 4)) by lia. reflexivity.
Qed.
Lemma mov_sr d r fuel s : SasSpec.seg_ok d -> SasSpec.reg_ok r -> (8 <= fuel)%nat ->
  view W c s (SasSpec.arg_toks (SasSpec.OSeg d) ++ SasSpec.comma :: SasSpec.arg_toks (SasSpec.OReg true r) ++ ts) [] [] [] 0 ->
  done c ts (SasSpec.AMov (SasSpec.OSeg d) (SasSpec.OReg true r)) (HandleMOV W fuel s).
Proof.
  intros D R N V. unfold HandleMOV. p2 V; [exact D|exact R|exact N|exact N|]. isreg A. isreg B.
  destruct (sgr d D) as (G1 & G2 & G3 & _). destruct (rg true r R) as (J1 & J2 & J3 & _). rewrite G1, G2, G3, J2.
  rewrite (proj1 (proj2 (rrbyte d r (seg_reg d D) R))).
  go_byte. last.
  eapply (meant_rr W c rf _ _ d r _ (fun o r n => if r <? 4 then Some (Spec8086.IMovToS r o, n) else None)); [exact (seg_reg d D)|exact R|lia|unfold plain; lia|reflexivity|intros; apply D_8E; assumption|].
  intros. eexists. split; [|constructor; assumption]. unfold SasSpec.seg_ok in D. rewrite (proj2 (Z.ltb_lt d 4)) by lia. reflexivity.
Qed.
(** facts about an immediate that has a meaning *)
Definition imm_wf (w : bool) (v : SasSpec.value) : Prop :=
  arg_wf W (SasSpec.OVal v) /\ (w = false -> exists e, v = SasSpec.VExpr e).
Lemma imm_of_wf env w v o : SasSpec.imm_of W env w v o -> imm_wf w v.
Proof. intros (x & E & _ & K). split; [eapply wf_val; exact E|exact K]. Qed.
Lemma imm_nofix rf w v o : imm_wf w v -> lit_ok W c rf v o -> w = false -> o_fix o = None.
Proof. intros [_ K] LO E. destruct (K E) as (e & Ev). apply (lo_expr _ _ _ _ _ LO e Ev). Qed.
Lemma imm_means rf w v o NS lv : imm_wf w v -> lit_ok W c rf v o -> final c rf NS lv ->
  SasSpec.imm_of W (env_of NS lv) w v (Spec8086.Imm (if w then (o_disp o + fixval lv (o_fix o)) mod 65536 else (o_disp o + fixval lv (o_fix o)) mod 256)).
Proof. intros [_ K] LO FI. eapply imm_val; eauto. Qed.
Lemma mov_ri w d v fuel s : SasSpec.reg_ok d -> imm_wf w v -> (8 <= fuel)%nat -> (arg_need (SasSpec.OVal v) <= fuel)%nat ->
  view W c s (SasSpec.arg_toks (SasSpec.OReg w d) ++ SasSpec.comma :: SasSpec.arg_toks (SasSpec.OVal v) ++ ts) [] [] [] 0 ->
  done c ts (SasSpec.AMov (SasSpec.OReg w d) (SasSpec.OVal v)) (HandleMOV W fuel s).
Proof.
  intros D I N N2 V. unfold HandleMOV. p2 V; [exact D|exact (proj1 I)|exact N|exact N2|]. isreg A. case_lit B.
  destruct (rg w d D) as (G1 & G2 & G3 & _). rewrite G1.
  replace (176 + (256 + 8 * zb w + d) - TOK_AL) with (176 + 8 * zb w + d) by (unfold TOK_AL; lia).
  go_byte. eapply (r_imm W HW); [exact F|exact V2|small|small|exact B|exact (proj2 I)|]. cbn [app].
  assert (BD : 0 <= 176 + 8 * zb w + d < 256 /\ plain (176 + 8 * zb w + d)) by (unfold SasSpec.reg_ok in D; unfold plain; destruct w; cbn [zb]; lia).
  eapply (meant_i W c rf _ _ w ob (fun j n => Some (Spec8086.IMov w (Spec8086.Reg d) (Spec8086.Imm j), n))); [apply BD|apply BD|eapply imm_nofix; eauto|intros; apply D_B0; assumption|exs].
  constructor; [exact D|eapply imm_means; eauto].
Qed.

Definition mem_need : nat := 8.
Lemma acc_dec w d : SasSpec.reg_ok d -> ((256 + 8 * zb w + d =? TOK_AL) || (256 + 8 * zb w + d =? TOK_AX)) = (d =? 0) /\ (d = 0 -> (256 + 8 * zb w + d =? TOK_AX) = w).
Proof. intro D. destruct (rg w d D) as (_ & _ & _ & _ & G5 & G6 & _). rewrite G5, G6. destruct w, (d =? 0) eqn:E; cbn; auto; split; auto; intro; lia. Qed.
Lemma mov_rm w d m fuel s : SasSpec.reg_ok d -> SasSpec.mem_valid W m -> SasSpec.size_ok m w -> (8 <= fuel)%nat ->
  view W c s (SasSpec.arg_toks (SasSpec.OReg w d) ++ SasSpec.comma :: SasSpec.arg_toks (SasSpec.OMem m) ++ ts) [] [] [] 0 ->
  done c ts (SasSpec.AMov (SasSpec.OReg w d) (SasSpec.OMem m)) (HandleMOV W fuel s).
Proof.
  intros D MV SO N V. unfold HandleMOV. p2 V; [exact D|exact MV|exact N|exact N|]. isreg A. case_mem B. apply r_assert; [reflexivity|].
  destruct (rg w d D) as (G1 & G2 & G3 & G4 & _ & _ & _ & G8). destruct (acc_dec w d D) as [AD AX]. rewrite AD, G4, (direct_mode _ _ _ _ B).
  assert (GEN : done c ts (SasSpec.AMov (SasSpec.OReg w d) (SasSpec.OMem m)) (OutputMR W 138 ob {| o_type := OPTYPE_REG; o_modrm := 0; o_disp := 256 + 8 * zb w + d; o_fix := None |} s')).
  { eapply mr_done; [exact V2|exact B|reflexivity|cbn [o_disp]; exact G2|exact D|cbn [o_disp]; rewrite G8; reflexivity|].
    replace (Z.lor 138 (zb w)) with (138 + zb w) by (destruct w; reflexivity).
    eapply (meant_rm W c rf m ob d _ _ (fun o r n => Some (Spec8086.IMov w (Spec8086.Reg r) o, n))); [exact B|exact D|op w|pl w|intros; apply D_8A; assumption|exs].
    constructor; assumption. }
  destruct (SasSpec.m_base m) eqn:MB; [exact GEN|]. destruct (d =? 0) eqn:D0; [|exact GEN]. cbn [andb].
  assert (d = 0) by lia. rewrite AX by assumption. subst d. replace (Z.lor 160 (zb w)) with (160 + zb w) by (destruct w; reflexivity).
  go_byte. eapply (r_imm16 W HW); [exact F|exact V2|small|rewrite (proj1 (proj2 (pre_small (SasSpec.m_es m) _))); cbn; lia|apply (mo_fix _ _ _ _ B)|].
  eapply (meant_moffs c rf m ob _ _ (fun x => Spec8086.IMov w (Spec8086.Reg 0) x)); [exact B|exact MB|op w|pl w|intros; apply D_A0; assumption|].
  intros. constructor; assumption.
Qed.
Lemma mov_mr w d m fuel s : SasSpec.reg_ok d -> SasSpec.mem_valid W m -> SasSpec.size_ok m w -> (8 <= fuel)%nat ->
  view W c s (SasSpec.arg_toks (SasSpec.OMem m) ++ SasSpec.comma :: SasSpec.arg_toks (SasSpec.OReg w d) ++ ts) [] [] [] 0 ->
  done c ts (SasSpec.AMov (SasSpec.OMem m) (SasSpec.OReg w d)) (HandleMOV W fuel s).
Proof.
  intros D MV SO N V. unfold HandleMOV. p2 V; [exact MV|exact D|exact N|exact N|]. isreg B. case_mem A. rewrite app_nil_r in V2.
  destruct (rg w d D) as (G1 & G2 & G3 & G4 & _ & _ & _ & G8). destruct (acc_dec w d D) as [AD AX]. rewrite AD, G4, (direct_mode _ _ _ _ A).
  assert (GEN : done c ts (SasSpec.AMov (SasSpec.OMem m) (SasSpec.OReg w d)) (OutputMR W 136 oa {| o_type := OPTYPE_REG; o_modrm := 0; o_disp := 256 + 8 * zb w + d; o_fix := None |} s')).
  { eapply mr_done; [exact V2|exact A|reflexivity|cbn [o_disp]; exact G2|exact D|cbn [o_disp]; rewrite G8; reflexivity|].
    replace (Z.lor 136 (zb w)) with (136 + zb w) by (destruct w; reflexivity).
    eapply (meant_rm W c rf m oa d _ _ (fun o r n => Some (Spec8086.IMov w o (Spec8086.Reg r), n))); [exact A|exact D|op w|pl w|intros; apply D_88; assumption|exs].
    constructor; assumption. }
  destruct (SasSpec.m_base m) eqn:MB; [exact GEN|]. destruct (d =? 0) eqn:D0; [|exact GEN]. cbn [andb].
  assert (d = 0) by lia. rewrite AX by assumption. subst d. replace (Z.lor 162 (zb w)) with (162 + zb w) by (destruct w; reflexivity).
  go_byte. eapply (r_imm16 W HW); [exact F|exact V2|small|rewrite (proj1 (proj2 (pre_small (SasSpec.m_es m) _))); cbn; lia|apply (mo_fix _ _ _ _ A)|].
  eapply (meant_moffs c rf m oa _ _ (fun x => Spec8086.IMov w x (Spec8086.Reg 0))); [exact A|exact MB|op w|pl w|intros; apply D_A2; assumption|].
  intros. constructor; assumption.
Qed.
Lemma mov_sm d m fuel s : SasSpec.seg_ok d -> SasSpec.mem_valid W m -> SasSpec.size_ok m true -> (8 <= fuel)%nat ->
  view W c s (SasSpec.arg_toks (SasSpec.OSeg d) ++ SasSpec.comma :: SasSpec.arg_toks (SasSpec.OMem m) ++ ts) [] [] [] 0 ->
  done c ts (SasSpec.AMov (SasSpec.OSeg d) (SasSpec.OMem m)) (HandleMOV W fuel s).
Proof.
  intros D MV SO N V. unfold HandleMOV. p2 V; [exact D|exact MV|exact N|exact N|]. isreg A. case_mem B. apply r_assert; [reflexivity|].
  destruct (sgr d D) as (G1 & G2 & G3 & G4 & G5 & G6 & G8). rewrite G5, G6, G4, andb_false_r.
  eapply mr_done; [exact V2|exact B|reflexivity|cbn [o_disp]; exact G2|exact (seg_reg d D)|cbn [o_disp]; rewrite G8; reflexivity|].
  change (Z.lor 142 (zb false)) with 142.
  eapply (meant_rm W c rf m ob d _ _ (fun o r n => if r <? 4 then Some (Spec8086.IMovToS r o, n) else None)); [exact B|exact (seg_reg d D)|lia|unfold plain; lia|intros; apply D_8E; assumption|].
  intros. eexists. split; [|constructor; assumption]. unfold SasSpec.seg_ok in D. rewrite (proj2 (Z.ltb_lt d 4)) by lia. reflexivity.
Qed.
Lemma mov_ms d m fuel s : SasSpec.seg_ok d -> SasSpec.mem_valid W m -> SasSpec.size_ok m true -> (8 <= fuel)%nat ->
  view W c s (SasSpec.arg_toks (SasSpec.OMem m) ++ SasSpec.comma :: SasSpec.arg_toks (SasSpec.OSeg d) ++ ts) [] [] [] 0 ->
  done c ts (SasSpec.AMov (SasSpec.OMem m) (SasSpec.OSeg d)) (HandleMOV W fuel s).
Proof.
  intros D MV SO N V. unfold HandleMOV. p2 V; [exact MV|exact D|exact N|exact N|]. isreg B. case_mem A. rewrite app_nil_r in V2.
  destruct (sgr d D) as (G1 & G2 & G3 & G4 & G5 & G6 & G8). rewrite G5, G6, G4, andb_false_r.
  eapply mr_done; [exact V2|exact A|reflexivity|cbn [o_disp]; exact G2|exact (seg_reg d D)|cbn [o_disp]; rewrite G8; reflexivity|].
  change (Z.lor 140 (zb false)) with 140.
  eapply (meant_rm W c rf m oa d _ _ (fun o r n => if r <? 4 then Some (Spec8086.IMovFromS o r, n) else None)); [exact A|exact (seg_reg d D)|lia|unfold plain; lia|intros; apply D_8C; assumption|].
  intros. eexists. split; [|constructor; assumption]. unfold SasSpec.seg_ok in D. rewrite (proj2 (Z.ltb_lt d 4)) by lia. reflexivity.
Qed.
(** OutputMImm, in the two forms *)
Lemma mimm_done i rf s m oa ob v inst r (w : bool) : cv c s ts (pre (SasSpec.m_es m)) rf (if w then 2 else 1) -> mem_ok c rf m oa -> lit_ok W c rf v ob -> SasSpec.reg_ok r ->
  imm_wf w v ->
  ((w && (inst =? 128) && match o_fix ob with None => true | _ => false end && IsShort (o_disp ob)) = false ->
   meant c i (((pre (SasSpec.m_es m) ++ [Cell8 (Z.lor inst (zb w)) None]) ++ mcells oa r) ++ [immcell w ob]) rf) ->
  (w = true -> inst = 128 -> o_fix ob = None -> IsShort (o_disp ob) = true ->
   meant c i (((pre (SasSpec.m_es m) ++ [Cell8 131 None]) ++ mcells oa r) ++ [immcell false ob]) rf) ->
  done c ts i (OutputMImm W inst r oa ob s).
Proof.
  intros V MO LO R I L SH. destruct (is_mem_ok _ _ _ _ MO) as (I1 & I2 & I3). destruct (is_lit_ok _ _ _ _ LO) as (J1 & J2 & J3).
  unfold OutputMImm. apply r_assert; [rewrite I3, J2; reflexivity|]. eapply r_gets; [apply (cv_size _ _ _ _ _ _ _ V)|].
  apply r_assert; [destruct w; reflexivity|].
  replace (negb ((if w then 2 else 1) =? 1)) with w by (destruct w; reflexivity).
  destruct (mcells_len c rf m oa r MO R) as [L1 L2].
  destruct (w && (inst =? 128) && match o_fix ob with None => true | _ => false end && IsShort (o_disp ob)) eqn:C.
  - apply andb_true_iff in C. destruct C as [C C4]. apply andb_true_iff in C. destruct C as [C C3]. apply andb_true_iff in C. destruct C as [C1 C2].
    apply Z.eqb_eq in C2. destruct (o_fix ob) eqn:FO; [discriminate|]. specialize (SH C1 C2 eq_refl C4). subst inst. cbn [zb]. change (Z.lor (Z.lor 128 3) 0) with 131.
    destruct (pre_small (SasSpec.m_es m) 131) as (P1 & P2 & P3 & P4).
    eapply (r_byte W HW); [exact F|exact V|pose proof (pre_len1 (SasSpec.m_es m)); lia|intros s1 V1].
    eapply (r_mem W HW); [exact F|exact V1|lia|exact P2|exact MO|exact R|intros s2 V2].
    eapply (r_imm8 W HW); [exact F|exact V2|rewrite rlen_app; lia|exact FO|]. exact SH.
  - destruct (pre_small (SasSpec.m_es m) (Z.lor inst (zb w))) as (P1 & P2 & P3 & P4).
    eapply (r_byte W HW); [exact F|exact V|pose proof (pre_len1 (SasSpec.m_es m)); lia|intros s1 V1].
    eapply (r_mem W HW); [exact F|exact V1|lia|exact P2|exact MO|exact R|intros s2 V2].
    eapply (r_imm W HW); [exact F|exact V2|rewrite rlen_app; lia|rewrite cfix_app, P2, app_nil_r, cfix_len; lia|exact LO|exact (proj2 I)|]. apply L. reflexivity.
Qed.
Lemma mov_mi w v m fuel s : SasSpec.mem_valid W m -> SasSpec.m_size m = Some w -> imm_wf w v -> (8 <= fuel)%nat -> (arg_need (SasSpec.OVal v) <= fuel)%nat ->
  view W c s (SasSpec.arg_toks (SasSpec.OMem m) ++ SasSpec.comma :: SasSpec.arg_toks (SasSpec.OVal v) ++ ts) [] [] [] 0 ->
  done c ts (SasSpec.AMov (SasSpec.OMem m) (SasSpec.OVal v)) (HandleMOV W fuel s).
Proof.
  intros MV SO I N N2 V. unfold HandleMOV. p2 V; [exact MV|exact (proj1 I)|exact N|exact N2|]. case_mem A. case_lit B. rewrite app_nil_r in V2.
  apply r_assert; [reflexivity|]. rewrite SO in V2. apply (mimm_done _ rf _ m oa ob v 198 0 w); [exact V2|exact A|exact B|unfold SasSpec.reg_ok; lia|exact I| |discriminate].
  intros _. replace (Z.lor 198 (zb w)) with (198 + zb w) by (destruct w; reflexivity).
  eapply (meant_rmi W c rf m oa 0 _ _ w ob (fun o r j n => if r =? 0 then Some (Spec8086.IMov w o (Spec8086.Imm j), n) else None)); [exact A|unfold SasSpec.reg_ok; lia|op w|pl w|eapply imm_nofix; eauto|intros; apply D_C6; assumption|exs].
  constructor; [exact MV|exact SO|eapply imm_means; eauto].
Qed.

(** ** The arithmetic instructions *)
Lemma alu_small op : 0 <= alu_code op < 8.
Proof. destruct op; cbn; lia. Qed.
Lemma alu_rr o w d r fuel s : SasSpec.reg_ok d -> SasSpec.reg_ok r -> (8 <= fuel)%nat ->
  view W c s (SasSpec.arg_toks (SasSpec.OReg w d) ++ SasSpec.comma :: SasSpec.arg_toks (SasSpec.OReg w r) ++ ts) [] [] [] 0 ->
  done c ts (SasSpec.AAlu o (SasSpec.OReg w d) (SasSpec.OReg w r)) (HandleALU W fuel (8 * alu_code o) s).
Proof.
  intros D R N V. unfold HandleALU. p2 V; [exact D|exact R|exact N|exact N|]. isreg A. isreg B.
  destruct (rg w d D) as (G1 & G2 & G3 & _). destruct (rg w r R) as (J1 & J2 & J3 & _). rewrite G1, G2, J2.
  replace (Z.lor (8 * alu_code o) (zb w)) with (8 * alu_code o + zb w) by (destruct o, w; reflexivity). rewrite (proj1 (rrbyte r d R D)).
  go_byte. last.
  eapply (meant_rr W c rf _ _ r d _ (fun x r n => Some (Spec8086.IAlu o w x (Spec8086.Reg r), n))); [exact R|exact D|pose proof (alu_small o); op w| |reflexivity|intros; apply D_alu_t; assumption|exs].
  - destruct o, w; unfold plain; cbn; lia.
  - constructor; assumption.
Qed.
Lemma alu_rm o w d m fuel s : SasSpec.reg_ok d -> SasSpec.mem_valid W m -> SasSpec.size_ok m w -> (8 <= fuel)%nat ->
  view W c s (SasSpec.arg_toks (SasSpec.OReg w d) ++ SasSpec.comma :: SasSpec.arg_toks (SasSpec.OMem m) ++ ts) [] [] [] 0 ->
  done c ts (SasSpec.AAlu o (SasSpec.OReg w d) (SasSpec.OMem m)) (HandleALU W fuel (8 * alu_code o) s).
Proof.
  intros D MV SO N V. unfold HandleALU. p2 V; [exact D|exact MV|exact N|exact N|]. isreg A. case_mem B. apply r_assert; [reflexivity|].
  destruct (rg w d D) as (G1 & G2 & G3 & G4 & _ & _ & _ & G8).
  eapply mr_done; [exact V2|exact B|reflexivity|cbn [o_disp]; exact G2|exact D|cbn [o_disp]; rewrite G8; reflexivity|].
  replace (Z.lor (8 * alu_code o + 2) (zb w)) with (8 * alu_code o + 2 + zb w) by (destruct o, w; reflexivity).
  eapply (meant_rm W c rf m ob d _ _ (fun x r n => Some (Spec8086.IAlu o w (Spec8086.Reg r) x, n))); [exact B|exact D|pose proof (alu_small o); op w| |intros; apply D_alu_r; assumption|exs].
  - destruct o, w; unfold plain; cbn; lia.
  - constructor; assumption.
Qed.
Lemma alu_mr o w d m fuel s : SasSpec.reg_ok d -> SasSpec.mem_valid W m -> SasSpec.size_ok m w -> (8 <= fuel)%nat ->
  view W c s (SasSpec.arg_toks (SasSpec.OMem m) ++ SasSpec.comma :: SasSpec.arg_toks (SasSpec.OReg w d) ++ ts) [] [] [] 0 ->
  done c ts (SasSpec.AAlu o (SasSpec.OMem m) (SasSpec.OReg w d)) (HandleALU W fuel (8 * alu_code o) s).
Proof.
  intros D MV SO N V. unfold HandleALU. p2 V; [exact MV|exact D|exact N|exact N|]. isreg B. case_mem A. rewrite app_nil_r in V2.
  destruct (rg w d D) as (G1 & G2 & G3 & G4 & _ & _ & _ & G8).
  eapply mr_done; [exact V2|exact A|reflexivity|cbn [o_disp]; exact G2|exact D|cbn [o_disp]; rewrite G8; reflexivity|].
  replace (Z.lor (8 * alu_code o) (zb w)) with (8 * alu_code o + zb w) by (destruct o, w; reflexivity).
  eapply (meant_rm W c rf m oa d _ _ (fun x r n => Some (Spec8086.IAlu o w x (Spec8086.Reg r), n))); [exact A|exact D|pose proof (alu_small o); op w| |intros; apply D_alu_t; assumption|exs].
  - destruct o, w; unfold plain; cbn; lia.
  - constructor; assumption.
Qed.

Lemma short_val rf v o NS lv : imm_wf true v -> lit_ok W c rf v o -> final c rf NS lv -> o_fix o = None -> IsShort (o_disp o) = true ->
  SasSpec.imm_of W (env_of NS lv) true v (Spec8086.Imm (Spec8086.sx8 ((o_disp o + fixval lv (o_fix o)) mod 256))).
Proof.
  intros I LO FI FO SH. pose proof (imm_means rf true v o NS lv I LO FI) as M. cbn iota in M. rewrite FO in M |- *. cbn [fixval] in M |- *. rewrite Z.add_0_r in M |- *.
  rewrite IsShort_sx8 by exact SH. exact M.
Qed.
Lemma D_83' g seg k : g k = 131 -> dec_op g seg Spec8086.NoRep k =
  let '(o, r, n) := dec_modrm g seg (k + 1) in let '(j, n') := Spec8086.dec_imm g false n in Some (Spec8086.IAlu (Spec8086.alu_of r) true o (Spec8086.Imm (Spec8086.sx8 j)), n').
Proof. intro H. rewrite (D_83 g seg Spec8086.NoRep k H). destruct (dec_modrm g seg (k + 1)) as [[o r] n]. reflexivity. Qed.
Lemma alu_mi o w v m fuel s : SasSpec.mem_valid W m -> SasSpec.m_size m = Some w -> imm_wf w v -> (8 <= fuel)%nat -> (arg_need (SasSpec.OVal v) <= fuel)%nat ->
  view W c s (SasSpec.arg_toks (SasSpec.OMem m) ++ SasSpec.comma :: SasSpec.arg_toks (SasSpec.OVal v) ++ ts) [] [] [] 0 ->
  done c ts (SasSpec.AAlu o (SasSpec.OMem m) (SasSpec.OVal v)) (HandleALU W fuel (8 * alu_code o) s).
Proof.
  intros MV SO I N N2 V. unfold HandleALU. p2 V; [exact MV|exact (proj1 I)|exact N|exact N2|]. case_mem A. case_lit B. rewrite app_nil_r in V2.
  apply r_assert; [reflexivity|]. rewrite SO in V2. replace (Z.shiftr (8 * alu_code o) 3) with (alu_code o) by (destruct o; reflexivity).
  apply (mimm_done _ rf _ m oa ob v 128 (alu_code o) w); [exact V2|exact A|exact B|exact (alu_small o)|exact I| |].
  - intros _. replace (Z.lor 128 (zb w)) with (128 + zb w) by (destruct w; reflexivity).
    eapply (meant_rmi W c rf m oa _ _ _ w ob (fun x r j n => Some (Spec8086.IAlu (Spec8086.alu_of r) w x (Spec8086.Imm j), n))); [exact A|exact (alu_small o)|op w|pl w|eapply imm_nofix; eauto|intros; apply D_80; assumption|exs].
    rewrite alu_of_code. constructor; [exact MV|exact SO|eapply imm_means; eauto].
  - intros -> _ FO SH. 
    eapply (meant_rmi W c rf m oa _ _ _ false ob (fun x r j n => Some (Spec8086.IAlu (Spec8086.alu_of r) true x (Spec8086.Imm (Spec8086.sx8 j)), n))); [exact A|exact (alu_small o)|lia|unfold plain; lia|intros _; exact FO|intros; apply D_83'; assumption|exs].
    rewrite alu_of_code. constructor; [exact MV|exact SO|eapply short_val; eauto].
Qed.
Lemma alu_ri o w d v fuel s : SasSpec.reg_ok d -> imm_wf w v -> (8 <= fuel)%nat -> (arg_need (SasSpec.OVal v) <= fuel)%nat ->
  view W c s (SasSpec.arg_toks (SasSpec.OReg w d) ++ SasSpec.comma :: SasSpec.arg_toks (SasSpec.OVal v) ++ ts) [] [] [] 0 ->
  done c ts (SasSpec.AAlu o (SasSpec.OReg w d) (SasSpec.OVal v)) (HandleALU W fuel (8 * alu_code o) s).
Proof.
  intros D I N N2 V. unfold HandleALU. p2 V; [exact D|exact (proj1 I)|exact N|exact N2|]. isreg A. case_lit B.
  destruct (rg w d D) as (G1 & G2 & G3 & G4 & G5 & G6 & _). rewrite G1, G2, G5, G6.
  assert (ACC : forall b, d = 0 -> b = 8 * alu_code o + 4 + zb w -> done c ts (SasSpec.AAlu o (SasSpec.OReg w d) (SasSpec.OVal v)) ((OutputByte W b;; OutputImm W ob w) s')).
  { intros b D0 ->. go_byte. eapply (r_imm W HW); [exact F|exact V2|small|small|exact B|exact (proj2 I)|]. cbn [app].
    eapply (meant_i W c rf _ _ w ob (fun j n => Some (Spec8086.IAlu o w (Spec8086.Reg 0) (Spec8086.Imm j), n))); [pose proof (alu_small o); op w|destruct o, w; unfold plain; cbn; lia|eapply imm_nofix; eauto|intros; apply D_alu_acc; assumption|exs].
    subst d. constructor; [exact D|eapply imm_means; eauto]. }
  destruct (negb w && (d =? 0)) eqn:C1; [destruct w; [discriminate|]; apply ACC; [cbn in C1; lia|cbn [zb]; lia]|].
  destruct (w && (d =? 0)) eqn:C2; [destruct w; [|discriminate]; apply ACC; [cbn in C2; lia|cbn [zb]; lia]|].
  assert (OPB : forall x, x = 128 \/ x = 129 \/ x = 131 -> 0 <= x < 256 /\ plain x) by (intros x [-> |[-> | -> ]]; unfold plain; lia).
  replace (Z.lor (Z.lor 192 d) (8 * alu_code o)) with (192 + 8 * alu_code o + d) by (symmetry; apply (rrbyte (alu_code o) d (alu_small o) D)).
  destruct (w && match o_fix ob with None => true | _ => false end && IsShort (o_disp ob)) eqn:SH.
  - apply andb_true_iff in SH. destruct SH as [SH SH3]. apply andb_true_iff in SH. destruct SH as [-> SH2]. destruct (o_fix ob) eqn:FO; [discriminate|].
    change (Z.lor (Z.lor 128 (zb true)) 2) with 131. change (131 =? 129) with false.
    go_byte. go_byte. eapply (r_imm8 W HW); [exact F|exact V2|small|exact FO|]. cbn [app].
    eapply (meant_rri W c rf _ _ (alu_code o) d _ false ob (fun x r j n => Some (Spec8086.IAlu (Spec8086.alu_of r) true x (Spec8086.Imm (Spec8086.sx8 j)), n))); [exact (alu_small o)|exact D|lia|unfold plain; lia|reflexivity|intros _; exact FO|intros; apply D_83'; assumption|exs].
    rewrite alu_of_code. constructor; [exact D|eapply short_val; eauto].
  - replace (Z.lor 128 (zb w)) with (128 + zb w) by (destruct w; reflexivity). replace (128 + zb w =? 129) with w by (destruct w; reflexivity).
    go_byte. go_byte. eapply (r_imm W HW); [exact F|exact V2|small|small|exact B|exact (proj2 I)|]. cbn [app].
    eapply (meant_rri W c rf _ _ (alu_code o) d _ w ob (fun x r j n => Some (Spec8086.IAlu (Spec8086.alu_of r) w x (Spec8086.Imm j), n))); [exact (alu_small o)|exact D|op w|pl w|reflexivity|eapply imm_nofix; eauto|intros; apply D_80; assumption|exs].
    rewrite alu_of_code. constructor; [exact D|eapply imm_means; eauto].
Qed.

(** ** TEST, XCHG, LEA *)
Definition F6 (w : bool) (o : Spec8086.operand) (r j n' : Z) : option (Spec8086.instr * Z) :=
  let n := n' - (if w then 2 else 1) in
  if r =? 0 then Some (Spec8086.ITest w o (Spec8086.Imm j), n')
  else if r =? 2 then Some (Spec8086.INot w o, n)
  else if r =? 3 then Some (Spec8086.INeg w o, n)
  else if r =? 4 then Some (Spec8086.IMulDiv Spec8086.MUL w o, n)
  else if r =? 5 then Some (Spec8086.IMulDiv Spec8086.IMUL w o, n)
  else if r =? 6 then Some (Spec8086.IMulDiv Spec8086.DIV w o, n)
  else if r =? 7 then Some (Spec8086.IMulDiv Spec8086.IDIV w o, n)
  else None.
Lemma D_F6' w g seg k : g k = 246 + zb w ->
  dec_op g seg Spec8086.NoRep k = let '(o, r, n) := dec_modrm g seg (k + 1) in let '(j, n') := Spec8086.dec_imm g w n in F6 w o r j n'.
Proof.
  intros H. rewrite (D_F6 g seg Spec8086.NoRep k w H). destruct (dec_modrm g seg (k + 1)) as [[o r] n].
  assert (E : exists j, Spec8086.dec_imm g w n = (j, n + if w then 2 else 1)) by (destruct w; eexists; reflexivity). destruct E as (j & E). rewrite E. unfold F6.
  replace (n + (if w then 2 else 1) - (if w then 2 else 1)) with n by lia. reflexivity.
Qed.
Lemma test_ri w d v fuel s : SasSpec.reg_ok d -> imm_wf w v -> (8 <= fuel)%nat -> (arg_need (SasSpec.OVal v) <= fuel)%nat ->
  view W c s (SasSpec.arg_toks (SasSpec.OReg w d) ++ SasSpec.comma :: SasSpec.arg_toks (SasSpec.OVal v) ++ ts) [] [] [] 0 ->
  done c ts (SasSpec.ATest (SasSpec.OReg w d) (SasSpec.OVal v)) (HandleTEST W fuel s).
Proof.
  intros D I N N2 V. unfold HandleTEST. p2 V; [exact D|exact (proj1 I)|exact N|exact N2|]. isreg A. case_lit B. apply r_assert; [reflexivity|].
  destruct (rg w d D) as (G1 & G2 & _). rewrite G1, G2. destruct (acc_dec w d D) as [AD _]. rewrite AD. destruct (d =? 0) eqn:D0.
  - replace (Z.lor 168 (zb w)) with (168 + zb w) by (destruct w; reflexivity).
    go_byte. eapply (r_imm W HW); [exact F|exact V2|small|small|exact B|exact (proj2 I)|]. cbn [app].
    eapply (meant_i W c rf _ _ w ob (fun j n => Some (Spec8086.ITest w (Spec8086.Reg 0) (Spec8086.Imm j), n))); [op w|pl w|eapply imm_nofix; eauto|intros; apply D_A8; assumption|exs].
    apply Z.eqb_eq in D0. subst d. constructor; [exact D|eapply imm_means; eauto].
  - assert (BA : forall A (k : unit -> M st A) x y t, bind (bind (OutputByte W x) (fun _ => OutputByte W y)) k t = bind (OutputByte W x) (fun _ => bind (OutputByte W y) k) t).
    { intros. unfold SccState.bind. destruct (OutputByte W x t) as [[[] t']| | |]; reflexivity. }
    rewrite BA. replace (Z.lor 246 (zb w)) with (246 + zb w) by (destruct w; reflexivity).
    replace (Z.lor 192 d) with (192 + 8 * 0 + d) by (symmetry; apply (rrbyte 0 d ltac:(unfold SasSpec.reg_ok; lia) D)).
    go_byte. go_byte. eapply (r_imm W HW); [exact F|exact V2|small|small|exact B|exact (proj2 I)|]. cbn [app].
    eapply (meant_rri W c rf _ _ 0 d _ w ob (F6 w)); [unfold SasSpec.reg_ok; lia|exact D|op w|pl w|reflexivity|eapply imm_nofix; eauto|intros; apply D_F6'; assumption|exs].
    constructor; [exact D|eapply imm_means; eauto].
Qed.
Lemma test_mi w v m fuel s : SasSpec.mem_valid W m -> SasSpec.m_size m = Some w -> imm_wf w v -> (8 <= fuel)%nat -> (arg_need (SasSpec.OVal v) <= fuel)%nat ->
  view W c s (SasSpec.arg_toks (SasSpec.OMem m) ++ SasSpec.comma :: SasSpec.arg_toks (SasSpec.OVal v) ++ ts) [] [] [] 0 ->
  done c ts (SasSpec.ATest (SasSpec.OMem m) (SasSpec.OVal v)) (HandleTEST W fuel s).
Proof.
  intros MV SO I N N2 V. unfold HandleTEST. p2 V; [exact MV|exact (proj1 I)|exact N|exact N2|]. case_mem A. case_lit B. rewrite app_nil_r in V2.
  apply r_assert; [reflexivity|]. apply r_assert; [reflexivity|]. rewrite SO in V2.
  eapply r_gets; [apply (cv_size _ _ _ _ _ _ _ V2)|]. apply r_assert; [destruct w; reflexivity|].
  replace (negb ((if w then 2 else 1) =? 1)) with w by (destruct w; reflexivity).
  replace (Z.lor 246 ((if w then 2 else 1) - 1)) with (246 + zb w) by (destruct w; reflexivity).
  assert (R0 : SasSpec.reg_ok 0) by (unfold SasSpec.reg_ok; lia).
  destruct (mcells_len c rf m oa 0 A R0) as [L1 L2]. destruct (pre_small (SasSpec.m_es m) (246 + zb w)) as (P1 & P2 & P3 & P4).
  go_byte. eapply (r_mem W HW); [exact F|exact V2|lia|exact P2|exact A|exact R0|intros s2 V3].
  eapply (r_imm W HW); [exact F|exact V3|rewrite rlen_app; lia|rewrite cfix_app, P2, app_nil_r, cfix_len; lia|exact B|exact (proj2 I)|].
  eapply (meant_rmi W c rf m oa 0 _ _ w ob (F6 w)); [exact A|exact R0|op w|pl w|eapply imm_nofix; eauto|intros; apply D_F6'; assumption|exs].
  constructor; [exact MV|exact SO|eapply imm_means; eauto].
Qed.
Lemma xchg_rr r fuel s : SasSpec.reg_ok r -> (8 <= fuel)%nat ->
  view W c s (SasSpec.arg_toks (SasSpec.OReg true 0) ++ SasSpec.comma :: SasSpec.arg_toks (SasSpec.OReg true r) ++ ts) [] [] [] 0 ->
  done c ts (SasSpec.AXchg (SasSpec.OReg true 0) (SasSpec.OReg true r)) (HandleXCHG W fuel s).
Proof.
  intros R N V. unfold HandleXCHG. p2 V; [unfold arg_wf, SasSpec.reg_ok; lia|exact R|exact N|exact N|]. isreg A. isreg B.
  apply r_assert; [reflexivity|]. destruct (rg true r R) as (G1 & G2 & _). rewrite G2.
  replace (Z.lor 144 r) with (144 + r) by (unfold SasSpec.reg_ok in R; apply below8 in R; cbn [In] in R; repeat (destruct R as [<-|R]; [reflexivity|]); contradiction).
  last. eapply (meant_1 W c rf); [unfold SasSpec.reg_ok in R; lia|unfold SasSpec.reg_ok in R; unfold plain; lia|intros; apply (D_90 _ _ _ 0 r R); assumption|].
  intros. constructor. exact R.
Qed.
Lemma xchg_rm w d m fuel s : SasSpec.reg_ok d -> SasSpec.mem_valid W m -> SasSpec.size_ok m w -> (8 <= fuel)%nat ->
  view W c s (SasSpec.arg_toks (SasSpec.OReg w d) ++ SasSpec.comma :: SasSpec.arg_toks (SasSpec.OMem m) ++ ts) [] [] [] 0 ->
  done c ts (SasSpec.AXchg (SasSpec.OReg w d) (SasSpec.OMem m)) (HandleXCHG W fuel s).
Proof.
  intros D MV SO N V. unfold HandleXCHG. p2 V; [exact D|exact MV|exact N|exact N|]. isreg A. case_mem B. apply r_assert; [reflexivity|].
  destruct (rg w d D) as (G1 & G2 & _). rewrite G1, G2. replace (Z.lor 134 (zb w)) with (134 + zb w) by (destruct w; reflexivity).
  destruct (pre_small (SasSpec.m_es m) (134 + zb w)) as (P1 & P2 & P3 & P4).
  go_byte. eapply (r_mem_last W HW); [exact F|exact V2|lia|exact P2|exact B|exact D|].
  eapply (meant_rm W c rf m ob d _ _ (fun x r n => Some (Spec8086.IXchg w x (Spec8086.Reg r), n))); [exact B|exact D|op w|pl w|intros; apply D_xchg; assumption|exs].
  constructor; assumption.
Qed.
Lemma lea_ok r m fuel s : SasSpec.reg_ok r -> SasSpec.mem_valid W m -> (8 <= fuel)%nat ->
  view W c s (SasSpec.arg_toks (SasSpec.OReg true r) ++ SasSpec.comma :: SasSpec.arg_toks (SasSpec.OMem m) ++ ts) [] [] [] 0 ->
  done c ts (SasSpec.ALea r m) (HandleLEA W fuel s).
Proof.
  intros D MV N V. unfold HandleLEA. p2 V; [exact D|exact MV|exact N|exact N|]. isreg A. case_mem B. apply r_assert; [reflexivity|]. apply r_assert; [reflexivity|].
  destruct (rg true r D) as (G1 & G2 & G3 & G4 & _ & _ & _ & G8).
  eapply mr_done; [exact V2|exact B|reflexivity|cbn [o_disp]; exact G2|exact D|cbn [o_disp]; rewrite G8; reflexivity|]. change (Z.lor 141 (zb true)) with 141.
  eapply (meant_rm W c rf m ob r _ _ (fun x r n => match x with Spec8086.Mem _ _ _ => Some (Spec8086.ILea r x, n) | _ => None end)); [exact B|exact D|lia|unfold plain; lia|intros; apply D_8D; assumption|exs].
  constructor; assumption.
Qed.

(** ** Instructions with one operand *)
Ltac p1 V := eapply parse1; [| |exact V|let s' := fresh "s'" in intros s' rf oa V2 A; cbn [pcells app arg_ok size_after] in V2, A; clear V].
Ltac enum R := unfold SasSpec.reg_ok, SasSpec.seg_ok in R; first [apply below8 in R|apply below4 in R]; cbn [In] in R; repeat (destruct R as [<-|R]; [reflexivity|]); contradiction.
Lemma D_FE' w g seg k : g k = 254 + zb w -> dec_op g seg Spec8086.NoRep k =
  let '(o, r, n) := dec_modrm g seg (k + 1) in
  (fun o r n => if r =? 0 then Some (Spec8086.IInc w o, n)
  else if r =? 1 then Some (Spec8086.IDec w o, n)
  else if (r =? 2) && w then Some (Spec8086.ICallInd o, n)
  else if (r =? 6) && w then Some (Spec8086.IPush o, n)
  else None) o r n.
Proof. apply D_FE. Qed.
Lemma incdec_r dec w d fuel s : SasSpec.reg_ok d -> (8 <= fuel)%nat ->
  view W c s (SasSpec.arg_toks (SasSpec.OReg w d) ++ ts) [] [] [] 0 ->
  done c ts ((if dec : bool then SasSpec.ADec else SasSpec.AInc) (SasSpec.OReg w d)) (HandleIncDec W fuel (zb dec) s).
Proof.
  intros D N V. unfold HandleIncDec. p1 V; [exact D|exact N|]. isreg A. destruct (rg w d D) as (G1 & G2 & _). rewrite G1, G2.
  assert (RD : SasSpec.reg_ok (zb dec)) by (unfold SasSpec.reg_ok; destruct dec; cbn; lia).
  destruct w.
  - replace (Z.lor (Z.lor 64 (Z.shiftl (zb dec) 3)) d) with (64 + 8 * zb dec + d) by (destruct dec; clear - D; enum D).
    last. destruct dec; (eapply (meant_1 W c rf); [unfold SasSpec.reg_ok in D; cbn [zb]; lia|unfold SasSpec.reg_ok in D; unfold plain; cbn [zb]; lia| |]).
    + intros g E. apply (D_48 _ _ _ 0 d D). rewrite E. cbn [zb]. lia.
    + intros. constructor. exact D.
    + intros g E. apply (D_40 _ _ _ 0 d D). rewrite E. cbn [zb]. lia.
    + intros. constructor. exact D.
  - rewrite (proj1 (rrbyte (zb dec) d RD D)). go_byte. last.
    eapply (meant_rr W c rf _ _ (zb dec) d _ _); [exact RD|exact D|cbn; lia|unfold plain; cbn; lia|reflexivity|intros g seg k E; apply (D_FE' false); exact E|].
    destruct dec; exs; constructor; exact D.
Qed.
Lemma incdec_m dec w m fuel s : SasSpec.mem_valid W m -> SasSpec.m_size m = Some w -> (8 <= fuel)%nat ->
  view W c s (SasSpec.arg_toks (SasSpec.OMem m) ++ ts) [] [] [] 0 ->
  done c ts ((if dec : bool then SasSpec.ADec else SasSpec.AInc) (SasSpec.OMem m)) (HandleIncDec W fuel (zb dec) s).
Proof.
  intros MV SO N V. unfold HandleIncDec. p1 V; [exact MV|exact N|]. case_mem A. rewrite SO in V2.
  assert (RD : SasSpec.reg_ok (zb dec)) by (unfold SasSpec.reg_ok; destruct dec; cbn; lia).
  eapply r_gets; [apply (cv_size _ _ _ _ _ _ _ V2)|]. apply r_assert; [destruct w; reflexivity|].
  replace (Z.lor 254 ((if w then 2 else 1) - 1)) with (254 + zb w) by (destruct w; reflexivity).
  destruct (pre_small (SasSpec.m_es m) (254 + zb w)) as (P1 & P2 & P3 & P4).
  go_byte. eapply (r_mem_last W HW); [exact F|exact V2|lia|exact P2|exact A|exact RD|].
  eapply (meant_rm W c rf m oa (zb dec) _ _ _); [exact A|exact RD|op w|pl w|intros; apply (D_FE' w); assumption|].
  destruct dec; exs; constructor; assumption.
Qed.
Lemma unary_ok k w r code fuel s : SasSpec.reg_ok r -> (8 <= fuel)%nat ->
  code = match k with SasSpec.UNot => 2 | SasSpec.UNeg => 3 | SasSpec.UMulDiv Spec8086.MUL => 4 | SasSpec.UMulDiv Spec8086.IMUL => 5
         | SasSpec.UMulDiv Spec8086.DIV => 6 | SasSpec.UMulDiv Spec8086.IDIV => 7 end ->
  view W c s (SasSpec.arg_toks (SasSpec.OReg w r) ++ ts) [] [] [] 0 ->
  done c ts (SasSpec.AUn k w r) (HandleUnary W fuel code s).
Proof.
  intros D N CO V. unfold HandleUnary. p1 V; [exact D|exact N|]. isreg A. apply r_assert; [reflexivity|]. destruct (rg w r D) as (G1 & G2 & _). rewrite G1, G2.
  assert (RD : SasSpec.reg_ok code) by (unfold SasSpec.reg_ok; subst code; destruct k as [| |[]]; lia).
  rewrite (proj1 (rrbyte code r RD D)). replace (Z.lor 246 (zb w)) with (246 + zb w) by (destruct w; reflexivity).
  go_byte. last.
  eapply (meant_rr2 c rf _ _ code r _ (match k with SasSpec.UNot => Spec8086.INot w (Spec8086.Reg r) | SasSpec.UNeg => Spec8086.INeg w (Spec8086.Reg r) | SasSpec.UMulDiv j => Spec8086.IMulDiv j w (Spec8086.Reg r) end)); [exact RD|exact D|op w|pl w|reflexivity| |].
  - intros g E DM. rewrite (D_F6 g None Spec8086.NoRep 0 w E). change (0 + 1) with 1. rewrite DM. subst code. destruct k as [| |[]]; reflexivity.
  - intros. destruct k as [| |j]; constructor; exact D.
Qed.
Lemma shift_cl k w r code fuel s : SasSpec.reg_ok r -> (8 <= fuel)%nat ->
  code = match k with Spec8086.SHL => 4 | Spec8086.SHR => 5 | Spec8086.SAR => 7 end ->
  view W c s (SasSpec.arg_toks (SasSpec.OReg w r) ++ SasSpec.comma :: SasSpec.arg_toks (SasSpec.OReg false 1) ++ ts) [] [] [] 0 ->
  done c ts (SasSpec.AShift k w r None) (HandleROT W fuel code s).
Proof.
  intros D N CO V. unfold HandleROT. p2 V; [exact D|unfold arg_wf, SasSpec.reg_ok; lia|exact N|exact N|]. isreg A. isreg B. apply r_assert; [reflexivity|].
  destruct (rg w r D) as (G1 & G2 & _). rewrite G1, G2. apply r_assert_ret; [reflexivity|].
  assert (RD : SasSpec.reg_ok code) by (unfold SasSpec.reg_ok; subst code; destruct k; lia).
  rewrite (proj1 (rrbyte code r RD D)). replace (Z.lor (Z.lor (Z.lor 208 (zb w)) 2) (zb w)) with (208 + zb w + 2 * zb true) by (destruct w; reflexivity).
  go_byte. last.
  eapply (meant_rr2 c rf _ _ code r _ (Spec8086.IShift k w (Spec8086.Reg r) true)); [exact RD|exact D|op w|pl w|reflexivity| |].
  - intros g E DM. rewrite (D_D0 g None Spec8086.NoRep 0 w true E). change (0 + 1) with 1. rewrite DM. subst code. destruct k; reflexivity.
  - intros. constructor. exact D.
Qed.
Lemma shift_1 k w r e code fuel s : SasSpec.reg_ok r -> SasExpr.eval W e = Some 1 -> (8 <= fuel)%nat -> (eneed e <= fuel)%nat ->
  code = match k with Spec8086.SHL => 4 | Spec8086.SHR => 5 | Spec8086.SAR => 7 end ->
  view W c s (SasSpec.arg_toks (SasSpec.OReg w r) ++ SasSpec.comma :: SasSpec.arg_toks (SasSpec.OVal (SasSpec.VExpr e)) ++ ts) [] [] [] 0 ->
  done c ts (SasSpec.AShift k w r (Some e)) (HandleROT W fuel code s).
Proof.
  intros D EV N N2 CO V. unfold HandleROT. p2 V; [exact D|cbn; congruence|exact N|exact N2|]. isreg A. case_lit B. apply r_assert; [reflexivity|].
  destruct (rg w r D) as (G1 & G2 & _). rewrite G1, G2. apply r_ret.
  assert (RD : SasSpec.reg_ok code) by (unfold SasSpec.reg_ok; subst code; destruct k; lia).
  rewrite (proj1 (rrbyte code r RD D)). replace (Z.lor (Z.lor 208 (zb w)) (zb w)) with (208 + zb w + 2 * zb false) by (destruct w; reflexivity).
  go_byte. last.
  eapply (meant_rr2 c rf _ _ code r _ (Spec8086.IShift k w (Spec8086.Reg r) false)); [exact RD|exact D|op w|pl w|reflexivity| |].
  - intros g E DM. rewrite (D_D0 g None Spec8086.NoRep 0 w false E). change (0 + 1) with 1. rewrite DM. subst code. destruct k; reflexivity.
  - intros. econstructor; eassumption.
Qed.
Lemma push_r r fuel s : SasSpec.reg_ok r -> (8 <= fuel)%nat -> view W c s (SasSpec.arg_toks (SasSpec.OReg true r) ++ ts) [] [] [] 0 ->
  done c ts (SasSpec.APush (SasSpec.OReg true r)) (HandlePUSH W fuel s).
Proof.
  intros D N V. unfold HandlePUSH. p1 V; [exact D|exact N|]. isreg A. destruct (rg true r D) as (G1 & G2 & G3 & G4 & _). rewrite G4, G1. apply r_assert; [reflexivity|].
  replace (Z.lor 80 (256 + 8 * zb true + r - TOK_AX)) with (80 + r) by (clear - D; enum D).
  last. eapply (meant_1 W c rf); [unfold SasSpec.reg_ok in D; lia|unfold SasSpec.reg_ok in D; unfold plain; lia|intros; apply (D_50 _ _ _ 0 r D); assumption|].
  intros. constructor. exact D.
Qed.
Lemma push_s r fuel s : SasSpec.seg_ok r -> (8 <= fuel)%nat -> view W c s (SasSpec.arg_toks (SasSpec.OSeg r) ++ ts) [] [] [] 0 ->
  done c ts (SasSpec.APush (SasSpec.OSeg r)) (HandlePUSH W fuel s).
Proof.
  intros D N V. unfold HandlePUSH. p1 V; [exact D|exact N|]. isreg A. destruct (sgr r D) as (G1 & G2 & G3 & G4 & _). rewrite G4.
  replace (Z.lor 6 (Z.shiftl (272 + r - TOK_ES) 3)) with (6 + 8 * r) by (clear - D; enum D).
  last. eapply (meant_1 W c rf); [unfold SasSpec.seg_ok in D; lia|unfold SasSpec.seg_ok in D; unfold plain; lia|intros; apply (D_pushs _ _ _ 0 r D); assumption|].
  intros. constructor. exact D.
Qed.
Lemma push_m m fuel s : SasSpec.mem_valid W m -> SasSpec.m_size m = Some true -> (8 <= fuel)%nat -> view W c s (SasSpec.arg_toks (SasSpec.OMem m) ++ ts) [] [] [] 0 ->
  done c ts (SasSpec.APush (SasSpec.OMem m)) (HandlePUSH W fuel s).
Proof.
  intros MV SO N V. unfold HandlePUSH. p1 V; [exact MV|exact N|]. case_mem A. rewrite SO in V2.
  assert (RD : SasSpec.reg_ok 6) by (unfold SasSpec.reg_ok; lia).
  eapply r_gets; [apply (cv_size _ _ _ _ _ _ _ V2)|]. apply r_assert; [reflexivity|].
  destruct (pre_small (SasSpec.m_es m) 255) as (P1 & P2 & P3 & P4).
  go_byte. eapply (r_mem_last W HW); [exact F|exact V2|lia|exact P2|exact A|exact RD|].
  eapply (meant_rm W c rf m oa 6 _ _ _); [exact A|exact RD|lia|unfold plain; lia|intros g seg k E; apply (D_FE' true); exact E|].
  exs; constructor; assumption.
Qed.
Lemma pop_r r fuel s : SasSpec.reg_ok r -> (8 <= fuel)%nat -> view W c s (SasSpec.arg_toks (SasSpec.OReg true r) ++ ts) [] [] [] 0 ->
  done c ts (SasSpec.APop (SasSpec.OReg true r)) (HandlePOP W fuel s).
Proof.
  intros D N V. unfold HandlePOP. p1 V; [exact D|exact N|]. isreg A. apply r_assert; [reflexivity|]. destruct (rg true r D) as (G1 & G2 & G3 & G4 & _). rewrite G4, G1. apply r_assert; [reflexivity|].
  replace (Z.lor 88 (256 + 8 * zb true + r - TOK_AX)) with (88 + r) by (clear - D; enum D).
  last. eapply (meant_1 W c rf); [unfold SasSpec.reg_ok in D; lia|unfold SasSpec.reg_ok in D; unfold plain; lia|intros; apply (D_58 _ _ _ 0 r D); assumption|].
  intros. constructor. exact D.
Qed.
Lemma pop_s r fuel s : SasSpec.seg_ok r -> (8 <= fuel)%nat -> view W c s (SasSpec.arg_toks (SasSpec.OSeg r) ++ ts) [] [] [] 0 ->
  done c ts (SasSpec.APop (SasSpec.OSeg r)) (HandlePOP W fuel s).
Proof.
  intros D N V. unfold HandlePOP. p1 V; [exact D|exact N|]. isreg A. apply r_assert; [reflexivity|]. destruct (sgr r D) as (G1 & G2 & G3 & G4 & _). rewrite G4.
  replace (Z.lor 7 (Z.shiftl (272 + r - TOK_ES) 3)) with (7 + 8 * r) by (clear - D; enum D).
  last. eapply (meant_1 W c rf); [unfold SasSpec.seg_ok in D; lia|unfold SasSpec.seg_ok in D; unfold plain; lia|intros; apply (D_pops _ _ _ 0 r D); assumption|].
  intros. constructor. exact D.
Qed.
Lemma callreg_ok r fuel s : SasSpec.reg_ok r -> (8 <= fuel)%nat -> view W c s (SasSpec.arg_toks (SasSpec.OReg true r) ++ ts) [] [] [] 0 ->
  done c ts (SasSpec.ACallReg r) (HandleCALL W fuel s).
Proof.
  intros D N V. unfold HandleCALL. p1 V; [exact D|exact N|]. isreg A. destruct (rg true r D) as (G1 & G2 & G3 & G4 & _). rewrite G2.
  assert (RD : SasSpec.reg_ok 2) by (unfold SasSpec.reg_ok; lia). rewrite (proj1 (rrbyte 2 r RD D)).
  go_byte. last.
  eapply (meant_rr W c rf _ _ 2 r _ _); [exact RD|exact D|lia|unfold plain; lia|reflexivity|intros g seg k E; apply (D_FE' true); exact E|].
  exs; constructor; exact D.
Qed.
Lemma int_ok e n fuel s : SasExpr.eval W e = Some n -> 0 <= n < 256 -> (eneed e <= fuel)%nat -> view W c s (SasExpr.etoks e ++ ts) [] [] [] 0 ->
  done c ts (SasSpec.AInt e) (HandleINT W fuel s).
Proof.
  intros EV B N V. unfold HandleINT. destruct (v_number W HW _ _ _ _ _ _ _ _ _ _ V N ST EV) as (s1 & E1 & V1). rewrite (bind_ok _ _ _ _ _ E1).
  apply r_assert; [lia|]. assert (V2 : cv c s1 ts [] [] 0) by exact V1. go_byte. last.
  eapply (meant_2 c [] _ 205 n n); [lia|unfold plain; lia|rewrite Z.mod_small by lia; reflexivity| |intros; econstructor; eassumption].
  intros g E0 E1'. unfold dec_op. cbv zeta. rewrite E0. change (Some (Spec8086.IInt (g 1), 2) = Some (Spec8086.IInt n, 2)). rewrite E1'. reflexivity.
Qed.
(** instructions of one byte *)
Lemma byte_ok i b ins s : 0 <= b < 256 -> plain b -> (forall g, g 0 = b -> dec_op g None Spec8086.NoRep 0 = Some (ins, 1)) ->
  (forall env next, means env next i ins) -> view W c s ts [] [] [] 0 -> done c ts i (OutputByte W b s).
Proof.
  intros B P D M V. assert (V2 : cv c s ts [] [] 0) by exact V. last. eapply (meant_1 W c []); [exact B|exact P|exact D|]. intros. apply M.
Qed.

End One.
End Width.
