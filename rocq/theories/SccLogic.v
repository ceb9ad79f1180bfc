(** && and ||: what the compiler emits for c && d and c || d leaves the value in the flags or in AX. *)
From Verif Require Import Base Bits Spec8086 SpecWf SccRun SccState SccEmit SccLex SccDecl SccExpr SccStmt SccInput SccPut SccArith SccOps SccJump SccMem SccFix SccHold SccFlush SccSem SccBin SccVal SccComp SccBody SccParse SccWhole SccImg SccStep SccAsn SccMach SccPiece SccStm SccHead SccLeft SccTern ExprSpec StmtSpec.

(** how c && d and c || d are written; the tokens with their precedences, scc.c:807-823 *)
Definition logic_tok (isor : bool) : token := if isor then (TOK_OROR, 12, 0) else (TOK_ANDAND, 11, 0).
Definition logic_toks (isor : bool) (c1 c2 : exp) : list token := toks c1 ++ logic_tok isor :: toks c2.
Definition logic (isor i j : bool) : bool := if isor then i || j else i && j.

(** *** The value of a condition stays when a label is placed *)
Definition kv {A} (m : M emst A) : Prop := forall e x e', m e = Ok (x, e') -> CurrentVal e' = CurrentVal e.
Lemma kv_bind {A B} (m : M emst A) (f : A -> M emst B) : kv m -> (forall a, kv (f a)) -> kv (bind m f).
Proof. intros H1 H2 e x e' H. minv H y e1 E. rewrite (H2 _ _ _ _ H). exact (H1 _ _ _ E). Qed.
Lemma kv_ret {A} (a : A) : kv (ret a). Proof. intros e x e' H. oki H. reflexivity. Qed.
Lemma kv_gets {A} (f : emst -> A) : kv (gets f). Proof. intros e x e' H. unfold gets in H. apply ok_inj in H. destruct H as [_ <-]. reflexivity. Qed.
Lemma kv_upd f : (forall e, CurrentVal (f e) = CurrentVal e) -> kv (upd f). Proof. intros Q e x e' H. unfold upd in H. apply ok_inj in H. destruct H as [_ <-]. apply Q. Qed.
Lemma kv_failif c : kv (failif c). Proof. intros e x e' H. unfold failif in H. destruct c; [discriminate H|oki H; reflexivity]. Qed.
Lemma kv_peek a : kv (peek a). Proof. intros e x e' H. unfold peek in H. destruct (in_output a); [|discriminate H]. apply ok_inj in H. destruct H as [_ <-]. reflexivity. Qed.
Lemma kv_poke a v : kv (poke a v). Proof. intros e x e' H. unfold poke in H. destruct (in_output a); [|discriminate H]. apply ok_inj in H. destruct H as [_ <-]. reflexivity. Qed.
Ltac kvt := repeat first [apply kv_bind; [|intro]|apply kv_ret|apply kv_gets|apply kv_failif|apply kv_upd; reflexivity|
  match goal with |- kv (if ?c then _ else _) => destruct c | |- kv (when ?c _) => destruct c; cbn [when] | |- kv (peek _) => apply kv_peek | |- kv (poke _ _) => apply kv_poke end].
Lemma kv_fix1 r b : kv (DoFixup1 r b). Proof. unfold DoFixup1. cbv zeta. kvt. Qed.
Lemma kv_loop n : forall r b, kv (fixup_loop n r b).
Proof. induction n as [|n IH]; intros r b; cbn [fixup_loop]; [intros e x e' H; discriminate H|]. destruct (r =? 0); [apply kv_ret|]. apply kv_bind; [apply kv_fix1|]. intro. apply IH. Qed.
Lemma label_val W l e x e' : Pending e = 0 -> EmitLocalLabel W l e = Ok (x, e') -> CurrentVal e' = CurrentVal e.
Proof.
  intros PD H. unfold EmitLocalLabel in H. mgoin H. minv H y e1 E. unfold failif in E. destruct (_ || _); [discriminate E|]. oki E.
  minv H y e1 E. unfold FlushSpAdj, FlushSpAdj_ in E. mgoin E. rewrite PD in E. change (hasb 0 (-2)) with false in E. cbn [when] in E. oki E.
  mgoin H. minv H y e1 E. unfold DoFixups in E. minv E y2 e2 E2. apply kv_loop in E2. mgoin E. oki E. mgoin H. oki H. exact E2.
Qed.

(** *** Single instructions *)
Lemma al_run P r g a f m n : 0 <= n < 256 -> code m (cs g) a [176; n] -> 0 <= a -> a + 2 < 65536 -> reaches P (mkst (rset8 r 0 n) g (a + 2) f m) -> reaches P (mkst r g a f m).
Proof.
  intros N C A B H. eapply (reach_code _ [176; n] (IMov false (Reg 0) (Imm n)) 2 (fun _ => mkst (rset8 r 0 n) g (a + 2) f m)); auto; try lia.
Qed.
Lemma cbw_run P r g a f m n : (n = 0 \/ n = 1) -> rget8 r 0 = n -> code m (cs g) a [152] -> 0 <= a -> a + 1 < 65536 -> reaches P (mkst (rset r 0 n) g (a + 1) f m) -> reaches P (mkst r g a f m).
Proof.
  intros N G C A B H. eapply (reach_code _ [152] ICbw 1 (fun _ => mkst (rset r 0 n) g (a + 1) f m)); auto; try lia.
  intro u. cbn [exec rg]. rewrite G. destruct N as [-> | ->]; reflexivity.
Qed.
Lemma al_get r n : 0 <= n < 256 -> rget8 (rset8 r 0 n) 0 = n.
Proof.
  intro N. unfold rget8, rset8. change (0 <? 4) with true. cbv iota. destruct r as [a0 a1 a2 a3 a4 a5 a6 a7]. change ((a0 / 256 * 256 + n) mod 256 = n). rewrite Z.add_comm, Z.mod_add, Z.mod_small by lia. reflexivity.
Qed.
Lemma al_ok r n : 0 <= n < 256 -> regs_ok r -> regs_ok (rset8 r 0 n) /\ bp (rset8 r 0 n) = bp r /\ sp (rset8 r 0 n) = sp r.
Proof.
  intros N R. split; [apply rset8_ok; assumption|split; destruct r; reflexivity].
Qed.

Section W.
Variables (W : Z) (F : nat).
Hypothesis HW : 16 <= W.
Variables (X : list Z) (D : nat).

Lemma rel_regs K env r g f m i r' j f' : MRel X K env (mkst r g i f m) -> regs_ok r' -> bp r' = bp r -> sp r' = sp r -> MRel X K env (mkst r' g j f' m).
Proof.
  intros [R1 R2 R3 R4 R5 R6 R7] RO B S. cbn [rg sg mem ip] in *. split; cbn [rg sg mem ip]; auto; try congruence. destruct R1 as (_ & A & C). split; [exact RO|]. split; [exact A|exact C].
Qed.
Lemma rel_ok K env t : MRel X K env t -> regs_ok (rg t).
Proof. intros [R1 _ _ _ _ _ _]. apply R1. Qed.
(** the bytes just emitted are in memory *)
Lemma code_here d vo e e' bs P K env t : k_ok X D d vo K -> ordered (CodeAddress e) P -> k_lo K <= CodeAddress e -> Match (k_lo K) (k_ef K) e' P -> live e' -> CodeAddress e' = CodeAddress (put bs e) -> Output e' = Output (put bs e) ->
  MRel X K env t -> code (mem t) (cs (sg t)) (CodeAddress e) (map u8 bs).
Proof.
  intros KO OR LO M L' CA OU R. apply loaded_put. intros a A. rewrite <- CA in A. destruct (match_new _ _ _ _ _ OR LO M a A) as [B1 B2].
  change (aget (Output (put bs e)) (a - CODESTART)) with (byte (put bs e) a). unfold byte in *. rewrite <- OU, <- B2.
  pose proof (match_live _ _ _ _ M (proj1 L')) as ME. pose proof (live_lo _ L') as LL.
  apply (rel_img X D d vo K KO env t R ltac:(lia)). lia.
Qed.
Lemma st_put e P bs : Book e P -> live e -> live (put bs e) -> okhead bs -> St [] [] e P (put bs e) P /\ LAddr (put bs e) = LAddr e /\ LocalLabelCounter (put bs e) = LocalLabelCounter e.
Proof. intros B L L' OK. apply st_ext; auto; [apply ext_put; exact OK|apply put_still]. Qed.
Lemma st_putT e P bs T : Book e P -> live e -> live (put bs e) -> okhead bs -> St [] [] e P (set_CurrentType T (put bs e)) P /\ LAddr (put bs e) = LAddr e /\ LocalLabelCounter (put bs e) = LocalLabelCounter e.
Proof. intros B L L' OK. destruct (st_ext e (set_CurrentType T (put bs e)) P B L L' (ext_put bs e OK) (put_still bs e)) as (S & A & C). split; [exact S|]. split; [exact A|exact C]. Qed.

Lemma lxor0 c b : 0 <= c < 16 -> 0 <= Z.lxor c (zb b) < 16 /\ Z.lor 112 (Z.lxor c (zb b)) = 112 + Z.lxor c (zb b).
Proof. intro C. destruct b; cbn [zb]; [|rewrite Z.lxor_0_r; split; [exact C|apply (cc16 _ C)]]. split; apply (cc16 _ C). Qed.
Lemma holds_flip c b i t : 0 <= c < 16 -> holds c i t -> holds (Z.lxor c (zb b)) (xorb i b) t.
Proof.
  intros C [H1 H2]. destruct b; cbn [zb]; [|rewrite Z.lxor_0_r, xorb_false_r; split; assumption]. unfold holds. rewrite (proj1 (proj2 (proj2 (cc16 _ C)))), xorb_true_r, negb_involutive. auto.
Qed.

(** *** The whole expression *)
Lemma logic_ok isor n c1 c2 b0 Lv l e d P x s' rest : good_exp c1 -> constant c1 = false -> isbool c1 = true -> incl (vars c1) X -> (depth c1 <= D)%nat ->
  good_exp c2 -> constant c2 = false -> isbool c2 = true -> incl (vars c2) X -> (depth c2 <= D)%nat ->
  Pre X Lv b0 e d P -> stream W F l (logic_toks isor c1 c2 ++ rest) -> ends rest -> prec_over PREC_COMMA rest -> pExpr (tie W F n) (mkcc l e d) = Ok (x, s') ->
  exists l' e' P', s' = mkcc l' e' d /\ stream W F l' rest /\ live e' /\ (CurrentType e' = VT_INT \/ CurrentType e' = VT_BOOL /\ 0 <= CurrentVal e' < 16) /\ St [] [] e P e' P' /\
  forall K env i j t, Into X D d e e' P' K -> test env c1 i -> (i = isor \/ test env c2 j) -> MRel X K env t -> ip t = CodeAddress e ->
    (forall t', MRel X K env t' -> ip t' = CodeAddress e' -> res e' (zb (logic isor i j)) t' -> reaches (k_fin K) t') -> reaches (k_fin K) t.
Proof.
  intros GE C IB IX DX GE2 CC2 IB2 IX2 DX2 PR ST EN PO H.
  pose proof (p_live _ _ _ _ _ _ PR) as LV. pose proof (p_book _ _ _ _ _ _ PR) as BK. pose proof (bk_cnt _ _ BK) as CN. pose proof (p_reg _ _ _ _ _ _ PR) as RU. pose proof (p_decl _ _ _ _ _ _ PR) as DC.
  unfold logic_toks in ST. rewrite <- app_assoc in ST. cbn [Datatypes.app] in ST.
  destruct (left_ok W F HW X D n c1 l e d P x s' _ _ GE C IB IX DX DC BK LV RU ST ltac:(destruct isor; split; [reflexivity|discriminate|reflexivity|discriminate]) H) as (n1 & s1 & (l1 & e1 & -> & ST1 & L1 & TB & CR & S1 & A1 & C1 & RUN1) & H1).
  clear H n. rename H1 into H, n1 into n.
  destruct n as [|n]; [discriminate H|]. cbn [tie pExpr1] in H. unfold ParseExpr1 in H. minv H y2 s2 E2. unfold expr1_body, getl in E2. mgoin E2. cbn [lx] in E2.
  rewrite (proj1 ST1), (proj1 (proj2 ST1)) in E2. minv E2 y3 s3 E3. apply (next_mk _ _ _ _ _ _ _ _ _ ST1) in E3; [|destruct rest; [destruct EN|]; destruct (toks c2); discriminate]. destruct E3 as (l3 & -> & ST3).
  assert (TT : (t_type (logic_tok isor) =? ch_quest) = false /\ (t_prec (logic_tok isor) =? PREC_ASSIGN) = false /\ (t_type (logic_tok isor) =? TOK_OROR) = isor /\ (isor || (t_type (logic_tok isor) =? TOK_ANDAND)) = true /\ (t_type (logic_tok isor) =? ch_comma) = false /\ t_prec (logic_tok isor) < PREC_COMMA)
    by (destruct isor; repeat split).
  destruct TT as (T1 & T2 & T3 & T4 & T5' & T6'). rewrite T1, T2 in E2. cbv iota in E2.
  minv E2 y4 s4 E4. minv E4 y5 s5 E5. rewrite lval_not in E5 by (cbn [em]; rewrite TB; reflexivity). apply ok_inj in E5. destruct E5 as [_ <-]. apply ok_inj in E4. destruct E4 as [<- <-].
  cbv zeta in E2. rewrite T3, T4 in E2. cbv iota in E2. minv E2 kl s6 EJ. minv EJ kk s4 E4. apply inem_mk in E4. destruct E4 as (e4 & E4 & ->). destruct (st_make e1 P kk e4 (t_book _ _ _ _ _ _ S1) E4) as (S4 & F4 & C4 & A4 & CA4 & DE4).
  destruct (make_cur _ _ _ E4) as (CT4 & CV4 & _). pose proof (st_trans _ _ _ _ _ _ _ _ _ _ S1 S4) as Q4. cbn [Datatypes.app] in Q4.
  assert (L4 : live e4).
  { apply (live_still _ _ (t_book _ _ _ _ _ _ S4)); [rewrite DE4; apply L1|]. rewrite (proj1 (t_still _ _ _ _ _ _ S4)). apply L1. }
  unfold gete in EJ. mgoin EJ. cbn [em] in EJ. rewrite CT4, TB in EJ. change (VT_BOOL =? VT_BOOL) with true in EJ. cbn [negb when] in EJ. mgoin EJ. cbn [em] in EJ. rewrite CV4 in EJ.
  minv EJ y6 s7 E6. apply ok_inj in EJ. destruct EJ as [<- <-]. apply inem_mk in E6. destruct E6 as (e6 & E6 & ->).
  destruct (lxor0 _ (negb isor) CR) as [CR' _]. set (c' := Z.lxor (CurrentVal e1) (zb (negb isor))) in *.
  destruct (jcc_piece W HW c' kk e4 P _ e6 CR' (t_book _ _ _ _ _ _ S4) L4 ltac:(left; exact A4) ltac:(lia) ltac:(pose proof (live_lo _ L4); lia) E6) as (P6 & BK6 & MK6 & L6 & ST6 & [KL6 KC6] & BB6 & GO6).
  assert (CV6 : CurrentType e6 = VT_BOOL /\ CurrentVal e6 = CurrentVal e1).
  { destruct (jcc_fwd_emits W c' kk e4 e6 _ CR' L4 A4 E6) as [-> _]. cbn [put]. split; [exact (eq_trans CT4 TB)|exact CV4]. }
  destruct CV6 as [CT6 CV6].
  assert (S6 : St [] [kk] e4 P e6 P6).
  { split; auto; [lia|intros k _ _; rewrite KL6; reflexivity|]. intros k z I. destruct (MK6 k z I); [auto|right; left; auto]. }
  pose proof (st_trans _ _ _ _ _ _ _ _ _ _ Q4 S6) as Q6. cbn [Datatypes.app] in Q6.
  pose proof (t_still _ _ _ _ _ _ Q6) as (_ & RU6 & _ & VO6). rewrite RU in RU6.
  unfold gete in E2. mgoin E2. cbn [em] in E2. rewrite CT6, CV6 in E2.
  minv E2 y7 s7 E7. minv E2 y8 s8a E8.
  destruct (right_ok W F HW X D n c2 l3 e6 d P6 y7 s7 y8 s8a rest (t_prec (logic_tok isor)) GE2 CC2 IB2 IX2 DX2 ltac:(rewrite VO6; exact DC) BK6 L6 RU6 ST3 EN ltac:(destruct isor; reflexivity) ltac:(destruct rest; [destruct EN|]; cbn [prec_over] in *; lia) E7 E8)
    as (l7 & e7 & -> & ST7 & L7 & TB7 & CR7 & S7 & A7 & C7 & RUN7).
  pose proof (st_trans _ _ _ _ _ _ _ _ _ _ Q6 S7) as Q7. cbn [Datatypes.app] in Q7.
  clear E7 E8. destruct rest as [|tr rest]; [destruct EN|]. cbn [prec_over] in PO.
  rewrite T5' in E2. cbv iota in E2. mgoin E2. cbn [em] in E2. rewrite TB7 in E2. change (Z.land VT_BOOL VT_LOCMASK =? VT_LOCLIT) with false in E2. cbn [andb] in E2.
  destruct (Z.leb_spec 0 kk); [|lia]. change (VT_BOOL =? VT_BOOL) with true in E2. cbn [negb when] in E2. mgoin E2. cbn [em] in E2.
  assert (HL : forall i : bool, i <> isor -> forall j, xorb i (negb isor) = false /\ logic isor i j = j) by (intros i N j; destruct i, isor; try congruence; split; reflexivity).
  assert (HS : forall j, xorb isor (negb isor) = true /\ logic isor isor j = isor) by (intro j; destruct isor; split; reflexivity).
  assert (HP : forall s x0, (let! p := getl OperatorPrecedence in if p <=? PREC_COMMA then pExpr1 (tie W F n) PREC_COMMA else ret tt) s = Ok (x0, s') -> stream W F (lx s) (tr :: rest) -> s' = s).
  { intros s x0 HH SS. unfold getl in HH. mgoin HH. rewrite (proj1 (proj2 SS)) in HH. destruct (Z.leb_spec (t_prec tr) PREC_COMMA); [lia|]. oki HH. reflexivity. }
  destruct (Z.eqb_spec (CurrentVal e1) (CurrentVal e7)) as [EQ|NE]; cbn [negb] in E2.
  - apply inem_mk in E2. destruct E2 as (e8 & E8 & ->). apply HP in H; [|exact ST7]. subst s'.
    destruct (st_label W kk e7 _ _ e8 (t_book _ _ _ _ _ _ S7) (proj1 (proj2 L7)) ltac:(lia) E8) as (S8 & LV8 & C8 & A8 & CA8 & R8). specialize (CA8 (proj1 L7)).
    pose proof (label_type _ _ _ _ _ (proj1 (proj2 L7)) E8) as CT8. pose proof (label_val _ _ _ _ _ (proj1 (proj2 L7)) E8) as CV8. rewrite TB7 in CT8.
    pose proof (st_trans _ _ _ _ _ _ _ _ _ _ Q7 S8) as Q8.
    exists l7, e8, (without kk P6). split; [reflexivity|]. split; [exact ST7|]. split; [exact LV8|]. split; [right; split; [exact CT8|rewrite CV8; exact CR7]|]. split.
    + apply (st_close _ _ _ _ _ _ _ Q8 BK); cbn [Datatypes.app In]; intros k I; [lia|]. right. assert (k = kk) as -> by intuition. lia.
    + intros K env i j t IN TE1 TE2 R IP FIN.
      pose proof (st_trans _ _ _ _ _ _ _ _ _ _ S7 S8) as U6. pose proof (st_trans _ _ _ _ _ _ _ _ _ _ S6 U6) as U4. pose proof (st_trans _ _ _ _ _ _ _ _ _ _ S4 U4) as U1.
      assert (LN : aget (LAddr (k_ef K)) kk = CodeAddress e8) by (rewrite <- A8; apply (lab_final X D _ _ d e e8 _ e8 _ K kk IN (st_refl _ _ (t_book _ _ _ _ _ _ Q8))); lia).
      pose proof (into_part X D _ _ _ _ d _ _ _ _ _ _ _ _ K IN (proj1 LV) (st_refl _ _ BK) U1) as I1.
      pose proof (into_part X D _ _ _ _ d _ _ _ _ _ _ _ _ K IN (proj1 LV) Q4 U6) as I4.
      pose proof (into_part X D _ _ _ _ d _ _ _ _ _ _ _ _ K IN (proj1 LV) Q6 S8) as I6.
      apply (RUN1 K env i t I1 TE1 R IP). intros t1 R1 IP1 HO. pose proof (holds_flip _ (negb isor) _ _ CR HO) as HF. fold c' in HF.
      destruct I1 as (KO1 & _ & M1). destruct I4 as (KO4 & LO4 & M4). pose proof (live_lo _ L1) as LL1. pose proof (match_live _ _ _ _ M1 (proj1 L1)) as ME.
      pose proof (rel_img X D d _ K KO1 env t1 R1 ltac:(lia)) as IM. rewrite <- CA4 in IP1.
      destruct t1 as [r g ii f m]. cbn [ip fl mem sg] in *. subst ii.
      apply (GO6 (k_lo K) (k_ef K) (k_fin K) r g f m _ LO4 M4 (ko_out _ _ _ _ _ KO4) IM (proj1 HF) (proj2 HF)).
      pose proof (fun j => rel_move _ _ _ _ _ _ _ _ _ R1 : MRel X K env (mkst r g j f m)) as RM.
      destruct (Bool.bool_dec i isor) as [->|N].
      * destruct (HS j) as [HS1 HS2]. rewrite HS1. cbv iota. rewrite LN, HS2 in *. apply (FIN _ (RM _) eq_refl). unfold res. rewrite CT8. change (VT_BOOL =? VT_BOOL) with true. cbv iota. exists isor. split; [reflexivity|].
        rewrite CV8, <- EQ. exact HO.
      * destruct (HL i N j) as [HL1 HL2]. rewrite HL1. rewrite HL2 in FIN. cbv iota. destruct TE2 as [|TE2]; [contradiction|].
        apply (RUN7 K env j _ I6 TE2 (RM _) eq_refl). intros t2 R2 IP2 H2. apply (FIN t2 R2); [congruence|]. unfold res. rewrite CT8. change (VT_BOOL =? VT_BOOL) with true. cbv iota. exists j. split; [reflexivity|]. rewrite CV8. exact H2.
  - minv E2 y8' s8b E8. apply o2_inv in E8; [|exact L7]. destruct E8 as [-> L8]. minv E2 y9 s9 E9. apply o2_inv in E9; [|exact L8]. destruct E9 as [-> L9].
    destruct (lxor0 _ isor CR7) as [CQ CL]. rewrite CL in *. set (cq := Z.lxor (CurrentVal e7) (zb isor)) in *.
    unfold app_code, set_em in E2, L8, L9. cbn [lx em dc] in E2, L8, L9.
    minv E2 y10 s10 E10. apply inem_mk in E10. destruct E10 as (e10 & E10 & ->).
    set (e8 := put [176; zb (negb isor)] e7) in *. set (e9 := put [112 + cq; 2] e8) in *.
    destruct (st_put e7 P6 [176; zb (negb isor)] (t_book _ _ _ _ _ _ S7) L7 L8 ltac:(split; discriminate)) as (S8 & _ & C8). fold e8 in S8, C8.
    destruct (st_put e8 P6 [112 + cq; 2] (t_book _ _ _ _ _ _ S8) L8 L9 ltac:(cbn [okhead]; unfold u8; rewrite Z.mod_small; lia)) as (S9 & _ & C9). fold e9 in S9, C9.
    destruct (st_label W kk e9 _ _ e10 (t_book _ _ _ _ _ _ S9) (proj1 (proj2 L9)) ltac:(lia) E10) as (S10 & LV10 & C10 & A10 & CA10 & R10). specialize (CA10 (proj1 L9)).
    minv E2 y11 s11 E11. apply o3_inv in E11; [|exact LV10]. destruct E11 as [-> L11]. unfold app_code, set_em in E2, L11. cbn [lx em dc] in E2, L11.
    unfold setT, upde, upd in E2. apply ok_inj in E2. destruct E2 as [_ <-]. unfold set_em in H. cbn [lx em dc] in H. remember (set_CurrentType VT_INT (put [176; zb isor; 152] e10)) as e12 eqn:E12. symmetry in E12.
    apply HP in H; [|exact ST7]. subst s'.
    destruct (st_putT e10 _ [176; zb isor; 152] VT_INT (t_book _ _ _ _ _ _ S10) LV10 L11 ltac:(split; discriminate)) as (S12 & A12 & C12). rewrite E12 in S12.
    assert (L12 : live e12) by (rewrite <- E12; exact L11). assert (CT12 : CurrentType e12 = VT_INT) by (rewrite <- E12; reflexivity).
    assert (CA12 : CodeAddress e12 = CodeAddress (put [176; zb isor; 152] e10)) by (rewrite <- E12; reflexivity). assert (OU12 : Output e12 = Output (put [176; zb isor; 152] e10)) by (rewrite <- E12; reflexivity).
    assert (LC12 : LocalLabelCounter e12 = LocalLabelCounter e10) by (rewrite <- E12; exact C12). assert (LA12 : LAddr e12 = LAddr e10) by (rewrite <- E12; exact A12). clear E12 A12 C12.
    pose proof (st_trans _ _ _ _ _ _ _ _ _ _ Q7 S8) as Q8. pose proof (st_trans _ _ _ _ _ _ _ _ _ _ Q8 S9) as Q9. pose proof (st_trans _ _ _ _ _ _ _ _ _ _ Q9 S10) as Q10. pose proof (st_trans _ _ _ _ _ _ _ _ _ _ Q10 S12) as Q12.
    exists l7, e12, (without kk P6). split; [reflexivity|]. split; [exact ST7|]. split; [exact L12|]. split; [left; exact CT12|]. split.
    + apply (st_close _ _ _ _ _ _ _ Q12 BK); cbn [Datatypes.app In]; intros k I; [lia|]. right. assert (k = kk) as -> by intuition. rewrite LA12. lia.
    + intros K env i j t IN TE1 TE2 R IP FIN.
      pose proof (st_trans _ _ _ _ _ _ _ _ _ _ S10 S12) as U9. pose proof (st_trans _ _ _ _ _ _ _ _ _ _ S9 U9) as U8. pose proof (st_trans _ _ _ _ _ _ _ _ _ _ S8 U8) as U7.
      pose proof (st_trans _ _ _ _ _ _ _ _ _ _ S7 U7) as U6. pose proof (st_trans _ _ _ _ _ _ _ _ _ _ S6 U6) as U4. pose proof (st_trans _ _ _ _ _ _ _ _ _ _ S4 U4) as U1.
      assert (LN : aget (LAddr (k_ef K)) kk = CodeAddress e10) by (rewrite <- A10; apply (lab_final X D _ _ d e e10 _ e12 _ K kk IN S12); lia).
      pose proof (into_part X D _ _ _ _ d _ _ _ _ _ _ _ _ K IN (proj1 LV) (st_refl _ _ BK) U1) as I1.
      pose proof (into_part X D _ _ _ _ d _ _ _ _ _ _ _ _ K IN (proj1 LV) Q4 U6) as I4.
      pose proof (into_part X D _ _ _ _ d _ _ _ _ _ _ _ _ K IN (proj1 LV) Q6 U7) as I6.
      pose proof (into_part X D _ _ _ _ d _ _ _ _ _ _ _ _ K IN (proj1 LV) Q7 U8) as (KO7 & LO7 & M7).
      pose proof (into_part X D _ _ _ _ d _ _ _ _ _ _ _ _ K IN (proj1 LV) Q8 U9) as (KO8 & LO8 & M8).
      pose proof (into_part X D _ _ _ _ d _ _ _ _ _ _ _ _ K IN (proj1 LV) Q10 (st_refl _ _ (t_book _ _ _ _ _ _ Q12))) as (KO10 & LO10 & M10).
      assert (CA8 : CodeAddress e8 = CodeAddress e7 + 2) by (unfold e8; rewrite put_addr; reflexivity). assert (CA9 : CodeAddress e9 = CodeAddress e8 + 2) by (unfold e9; rewrite put_addr; reflexivity).
      rewrite put_addr in CA12. change (Z.of_nat (length [176; zb isor; 152])) with 3 in CA12.
      pose proof (live_lo _ L7) as LL7. pose proof (bk_room _ _ (t_book _ _ _ _ _ _ Q12)) as RM12. unfold room, CODESTART, OUTPUT_MAX in RM12.
      (* the last instruction, CBW *)
      assert (CBW : forall r g f m b, MRel X K env (mkst r g (CodeAddress e10 + 2) f m) -> rget8 r 0 = zb b -> b = logic isor i j -> reaches (k_fin K) (mkst r g (CodeAddress e10 + 2) f m)).
      { intros r g f m b RR AL ->. pose proof (code_here d _ e10 e12 [176; zb isor; 152] _ K env _ KO10 (bk_ord _ _ (t_book _ _ _ _ _ _ Q10)) LO10 M10 L12 ltac:(rewrite put_addr; exact CA12) OU12 RR) as CO. cbn [mem sg] in CO.
        apply (code_app _ _ _ [176; u8 (zb isor)] [152]) in CO. destruct CO as [_ CO].
        apply (cbw_run _ _ _ _ _ _ (zb (logic isor i j))); [destruct (logic isor i j); auto|exact AL|exact CO|lia|lia|].
        apply FIN; [|cbn [ip]; lia|unfold res; rewrite CT12; change (VT_INT =? VT_BOOL) with false; cbv iota; cbn [rg]; destruct (logic isor i j), r; reflexivity].
        apply (rel_regs K env _ _ _ _ _ _ _ _ RR); [apply rset_ok; [exact (rel_ok _ _ _ RR)|destruct (logic isor i j); cbn [zb]; lia]|destruct r; reflexivity|destruct r; reflexivity]. }
      (* from the label *)
      assert (LAB : forall r g f m, MRel X K env (mkst r g (CodeAddress e10) f m) -> isor = logic isor i j -> reaches (k_fin K) (mkst r g (CodeAddress e10) f m)).
      { intros r g f m RR BB. pose proof (code_here d _ e10 e12 [176; zb isor; 152] _ K env _ KO10 (bk_ord _ _ (t_book _ _ _ _ _ _ Q10)) LO10 M10 L12 ltac:(rewrite put_addr; exact CA12) OU12 RR) as CO. cbn [mem sg] in CO.
        apply (code_app _ _ _ [176; u8 (zb isor)] [152]) in CO. destruct CO as [CO _]. assert (U : u8 (zb isor) = zb isor) by (destruct isor; reflexivity). rewrite U in CO.
        assert (N : 0 <= zb isor < 256) by (destruct isor; cbn [zb]; lia). destruct (al_ok r _ N (rel_ok _ _ _ RR)) as (G1 & G2 & G3).
        apply (al_run _ _ _ _ _ _ (zb isor) N CO); [lia|lia|]. apply (CBW _ _ _ _ isor); [exact (rel_regs K env _ _ _ _ _ _ _ _ RR G1 G2 G3)|apply al_get; exact N|exact BB]. }
      apply (RUN1 K env i t I1 TE1 R IP). intros t1 R1 IP1 HO. pose proof (holds_flip _ (negb isor) _ _ CR HO) as HF. fold c' in HF.
      destruct I1 as (KO1 & _ & M1). destruct I4 as (KO4 & LO4 & M4). pose proof (live_lo _ L1) as LL1. pose proof (match_live _ _ _ _ M1 (proj1 L1)) as ME.
      pose proof (rel_img X D d _ K KO1 env t1 R1 ltac:(lia)) as IM. rewrite <- CA4 in IP1.
      destruct t1 as [r g ii f m]. cbn [ip fl mem sg] in *. subst ii.
      apply (GO6 (k_lo K) (k_ef K) (k_fin K) r g f m _ LO4 M4 (ko_out _ _ _ _ _ KO4) IM (proj1 HF) (proj2 HF)).
      pose proof (fun j => rel_move _ _ _ _ _ _ _ _ _ R1 : MRel X K env (mkst r g j f m)) as RM.
      destruct (Bool.bool_dec i isor) as [->|N].
      * destruct (HS j) as [HS1 HS2]. rewrite HS1. cbv iota. rewrite LN. apply (LAB _ _ _ _ (RM _)). symmetry. exact HS2.
      * destruct (HL i N j) as [HL1 HL2]. rewrite HL1. cbv iota. destruct TE2 as [|TE2]; [contradiction|].
        apply (RUN7 K env j _ I6 TE2 (RM _) eq_refl). intros t2 R2 IP2 H2. clear RM IM HF HO R1. pose proof (holds_flip _ isor _ _ CR7 H2) as HF. fold cq in HF.
        pose proof (code_here d _ e7 e8 _ _ K env _ KO7 (bk_ord _ _ (t_book _ _ _ _ _ _ Q7)) LO7 M7 L8 eq_refl eq_refl R2) as CO7.
        pose proof (code_here d _ e8 e9 _ _ K env _ KO8 (bk_ord _ _ (t_book _ _ _ _ _ _ Q8)) LO8 M8 L9 eq_refl eq_refl R2) as CO8.
        destruct t2 as [r2 g2 i2 f2 m2]. cbn [ip fl mem sg] in *. subst i2.
        assert (U : map u8 [176; zb (negb isor)] = [176; zb (negb isor)]) by (destruct isor; reflexivity). rewrite U in CO7. clear U.
        assert (U : map u8 [112 + cq; 2] = [112 + cq; 2]) by (cbn [map]; unfold u8; rewrite (Z.mod_small (112 + cq)) by lia; reflexivity). rewrite U in CO8. clear U.
        assert (NN : 0 <= zb (negb isor) < 256) by (destruct isor; cbn [zb negb]; lia). destruct (al_ok r2 _ NN (rel_ok _ _ _ R2)) as (G1 & G2 & G3).
        apply (al_run _ _ _ _ _ _ _ NN CO7); [lia|lia|]. rewrite <- CA8. destruct HF as [HF _]. cbn [fl] in HF.
        apply (jcc_run _ _ _ _ _ _ cq 2 (xorb j isor) (if xorb j isor then CodeAddress e10 + 2 else CodeAddress e10) CQ HF CO8); [lia|lia|intros ->; change (sx8 2) with 2; rewrite Z.mod_small; lia|intros ->; lia|].
        destruct (xorb j isor) eqn:XJ.
        { apply (CBW _ _ _ _ (negb isor)); [exact (rel_regs K env _ _ _ _ _ _ _ _ R2 G1 G2 G3)|apply al_get; exact NN|]. rewrite HL2. destruct j, isor; try discriminate XJ; reflexivity. }
        { apply LAB; [exact (rel_regs K env _ _ _ _ _ _ _ _ R2 G1 G2 G3)|]. rewrite HL2. destruct j, isor; try discriminate XJ; reflexivity. }
Qed.
End W.
