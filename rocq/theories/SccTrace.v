(** Every sequence of the emission operations that touch references, labels and globals. *)
From Verif Require Import Base Bits Spec8086 SccRun SccState SccEmit SccInput SccPut SccArith SccOps SccJump SccMem SccFix SccGlob.

Section Trace.
Variable W : Z.
(** which indices of the table of globals are functions *)
Variable isf : Z -> bool.

(** an instruction with a global as operand: one or two opcode bytes, the last being op, and the reference
    (scc.c:1182-1231, 1356-1368, 1868-1876, 1911-1931, 3432-3435) *)
Definition emit_ref (b : option Z) (op : Z) (k : how) (v : Z) : M emst unit :=
  (match b with None => Output1Byte W op | Some b => Output2Bytes W b op end) ;;
  (if rel k then EmitGlobalRefRel W v else EmitGlobalRef W v).

(** the references emitted so far: operand address, variable, kind *)
Definition log := list (Z * Z * how).
Inductive step : emst -> log -> emst -> log -> Prop :=
| s_code e e' g : appended e e' -> step e g e' g                                    (* any other code *)
| s_ref e e' g b op k v x : opcode_for k op -> (aget (VOff e) v <> 0 \/ rel k = isf v) ->
    emit_ref b op k v e = Ok (x, e') -> step e g e' (if IsDeadCode e then g else (CodeAddress e' - 2, v, k) :: g)
| s_place e e' g v x : (isf v = true -> forall a k, In (a, v, k) g -> a + 2 <> CodeAddress e) ->
    EmitGlobalLabel_ v (isf v) e = Ok (x, e') -> step e g e' g                     (* definition of v *)
| s_var e g v o : (forall a k, ~ In (a, v, k) g) ->
    step e g (set_VOff (aset (VOff e) v o) (set_VRef (aset (VRef e) v 0) e)) g      (* a new variable *)
| s_make e e' g l : MakeLabel e = Ok (l, e') -> step e g e' g
| s_jmp e e' g l x : 0 <= l < LocalLabelCounter e -> EmitJmp W l e = Ok (x, e') -> step e g e' g
| s_jcc e e' g c l x : 0 <= c < 16 -> 0 <= l < LocalLabelCounter e -> EmitJcc W c l e = Ok (x, e') -> step e g e' g
| s_label e e' g l x : 0 <= l -> EmitLocalLabel W l e = Ok (x, e') -> step e g e' g
| s_end e g : step e g (set_LocalLabelCounter 0 e) g.                               (* end of a function *)
Inductive steps : emst -> log -> emst -> log -> Prop :=
| ss_nil e g : steps e g e g
| ss_cons e g e1 g1 e2 g2 : step e g e1 g1 -> steps e1 g1 e2 g2 -> steps e g e2 g2.

Definition good (e : emst) (g : log) : Prop := exists cells, Inv isf e cells /\ crefs cells = g.

Lemma good_appended e e' g : good e g -> appended e e' -> good e' g.
Proof. intros (cs & I & C) A. exists cs. split; [eapply inv_appended; eauto|exact C]. Qed.
Lemma good_lo e g : good e g -> CODESTART <= CodeAddress e.
Proof. intros (cs & I & _). apply I. Qed.
Lemma apps_W {A} (m : M emst A) e x e' : apps m -> m e = Ok (x, e') -> appended e e'.
Proof. intros P H. apply P in H. apply H. Qed.
Lemma aO1 b : apps (Output1Byte W b). Proof. apply apps_o1, apps_checks. Qed.
Lemma aO2 b c : apps (Output2Bytes W b c). Proof. apply apps_o2, apps_checks. Qed.
Lemma aO3 b c d : apps (Output3Bytes W b c d). Proof. apply apps_o3, apps_checks. Qed.
Lemma aOW w : apps (OutputWord W w). Proof. apply apps_ow, apps_checks. Qed.

(** output with something possibly postponed *)
Lemma guarded_any m e x e' : CODESTART <= CodeAddress e -> guarded (EmitChecks W) m e = Ok (x, e') ->
  (IsDeadCode e = true /\ e' = e) \/ (IsDeadCode e = false /\ exists e1, appended e e1 /\ IsDeadCode e1 = false /\ Pending e1 = 0 /\ CODESTART <= CodeAddress e1 /\ m e1 = Ok (x, e')).
Proof.
  intros LO H. unfold guarded in H. mgoin H. destruct (IsDeadCode e) eqn:D; cbn [orb] in H.
  - left. minv H r e1 E. apply checks_any in E. destruct E as [(_ & -> & ->)|(D' & _)]; [|congruence]. oki H. auto.
  - right. split; [reflexivity|]. destruct (Z.eqb_spec (Pending e) 0) as [P|P]; cbn [negb] in H.
    + exists e. split; [apply appended_refl|]. auto.
    + minv H r e1 E. apply checks_any in E. destruct E as [(D' & _)|(_ & -> & AP & D1 & P1 & _)]; [congruence|]. exists e1. split; [exact AP|]. split; [exact D1|]. split; [exact P1|]. split; [destruct AP; lia|exact H].
Qed.
Lemma live_of e : IsDeadCode e = false -> Pending e = 0 -> CODESTART <= CodeAddress e -> CodeAddress e <= CODESTART + OUTPUT_MAX -> live e.
Proof. intros. repeat split; auto; unfold room; lia. Qed.
Lemma op_any b op e x e' : CODESTART <= CodeAddress e ->
  (match b with None => Output1Byte W op | Some b => Output2Bytes W b op end) e = Ok (x, e') ->
  (IsDeadCode e = true /\ e' = e) \/ (IsDeadCode e = false /\ exists e1, appended e e1 /\ live e1 /\ e' = put [op] e1 /\ live e').
Proof.
  intros LO H. destruct b as [b|].
  - apply guarded_any in H; [|exact LO]. destruct H as [H|(D & e1 & A & D1 & P1 & L1 & H)]; [left; exact H|right]. split; [exact D|].
    minv H y e2 E. apply putb_inv in E, H. destruct E as [-> R1], H as [-> R2].
    assert (LV : live e1) by (unfold room in R1; apply live_of; auto; lia).
    assert (LV2 : live (put [b] e1)) by (apply put_live; [exact LV|exact R1]).
    exists (put [b] e1). split; [eapply appended_trans; [exact A|apply appended_put]|]. split; [exact LV2|]. split; [reflexivity|].
    apply (put_live [op] (put [b] e1)); [exact LV2|exact R2].
  - apply guarded_any in H; [|exact LO]. destruct H as [H|(D & e1 & A & D1 & P1 & L1 & H)]; [left; exact H|right]. split; [exact D|].
    apply putb_inv in H. destruct H as [-> R1].
    assert (LV : live e1) by (unfold room in R1; apply live_of; auto; lia).
    exists e1. split; [exact A|]. split; [exact LV|]. split; [reflexivity|]. apply (put_live [op] e1); [exact LV|exact R1].
Qed.
Lemma put_voff bs e : VOff (put bs e) = VOff e.
Proof. pose proof (appended_put bs e) as (_ & _ & T & _). apply tabs_inv in T. tauto. Qed.
Lemma put_vref bs e : VRef (put bs e) = VRef e.
Proof. pose proof (appended_put bs e) as (_ & _ & T & _). apply tabs_inv in T. tauto. Qed.
Lemma addr_vref x y : CodeAddress (set_VRef x y) = CodeAddress y.
Proof. reflexivity. Qed.
Lemma live_vref x y : live (set_VRef x y) -> live y.
Proof. auto. Qed.
Lemma addfixv_emits v e x e' : live e -> AddFixupVar W v e = Ok (x, e') ->
  let w := aget (VRef e) v in e' = set_VRef (aset (VRef e) v (CodeAddress e)) (put [w; Z.shiftr w 8] e) /\ live e'.
Proof.
  intros L H. unfold AddFixupVar in H. mgoin H. rewrite (proj1 L) in H. mgoin H. minv H y e1 E1. apply outw in E1; auto. destruct E1 as [-> L1].
  oki H. rewrite put_vref, put_addr. cbn [length]. replace (CodeAddress e + Z.of_nat 2 - 2) with (CodeAddress e) by lia. auto.
Qed.
Lemma good_ref e g b op k v x e' : good e g -> opcode_for k op -> (aget (VOff e) v <> 0 \/ rel k = isf v) ->
  emit_ref b op k v e = Ok (x, e') -> good e' (if IsDeadCode e then g else (CodeAddress e' - 2, v, k) :: g).
Proof.
  intros G O C H. unfold emit_ref in H. minv H y e1 E. apply op_any in E; [|eapply good_lo; eauto].
  destruct E as [(D & ->)|(D & e0 & A & L0 & -> & L1)]; rewrite D.
  - assert (e' = e); [|subst; exact G].
    assert (OW : forall w z e2, OutputWord W w e = Ok (z, e2) -> e2 = e).
    { intros w z e2 Q. apply guarded_any in Q; [|eapply good_lo; eauto]. destruct Q as [[_ Q]|[Q _]]; [exact Q|congruence]. }
    assert (AF : forall z e2, AddFixupVar W v e = Ok (z, e2) -> e2 = e).
    { intros z e2 Q. unfold AddFixupVar in Q. mgoin Q. rewrite D in Q. oki Q. reflexivity. }
    destruct (rel k); unfold EmitGlobalRefRel, EmitGlobalRef in H; mgoin H; destruct (_ =? 0); cbn [negb] in H; mgoin H; eauto.
  - pose proof (good_appended _ _ _ G A) as (cs & I & CR).
    assert (VE : VOff e0 = VOff e) by (destruct A as (_ & _ & T & _); apply tabs_inv in T; tauto).
    assert (RM : forall bs, live (put bs (put [op] e0)) -> length bs = 2%nat -> CodeAddress e0 + 3 <= 24832).
    { intros bs Q LN. rewrite <- put_app in Q. apply live_room in Q. rewrite app_length, LN in Q. cbn [length] in Q. lia. }
    assert (OV : VOff (put [op] e0) = VOff e0) by apply put_voff. assert (OR : VRef (put [op] e0) = VRef e0) by apply put_vref.
    assert (CA1 : CodeAddress (put [op] e0) = CodeAddress e0 + 1) by (rewrite put_addr; reflexivity).
    assert (KN : forall w, aget (VOff e0) v <> 0 -> w = match k with Abs => aget (VOff e0) v | _ => aget (VOff e0) v - (CodeAddress e0 + 1) - 2 end ->
       live (put [w; Z.shiftr w 8] (put [op] e0)) -> e' = put [w; Z.shiftr w 8] (put [op] e0) -> good e' ((CodeAddress e' - 2, v, k) :: g)).
    { intros w NZ EW LV ->. pose proof (RM _ LV eq_refl) as RM'. rewrite <- put_app. cbn [app]. subst w.
      exists (CRef (CodeAddress e0 + 1) v k :: cs). split; [apply inv_known; auto|]. cbn [crefs flat_map app]. rewrite put_addr. cbn [length]. fold (crefs cs). rewrite CR.
      replace (CodeAddress e0 + Z.of_nat 3 - 2) with (CodeAddress e0 + 1) by lia. reflexivity. }
    assert (FW : aget (VOff e0) v = 0 -> AddFixupVar W v (put [op] e0) = Ok (x, e') -> good e' ((CodeAddress e' - 2, v, k) :: g)).
    { intros Z0 Q. apply addfixv_emits in Q; [|exact L1]. cbv zeta in Q. rewrite OR, CA1 in Q. destruct Q as [-> LV].
      set (w := aget (VRef e0) v) in *. assert (LV' : live (put [w; Z.shiftr w 8] (put [op] e0))) by (apply live_vref in LV; exact LV). pose proof (RM _ LV' eq_refl) as RM'. rewrite <- put_app. cbn [app].
      destruct C as [C|C]; [rewrite VE in Z0; contradiction|].
      exists (CRef (CodeAddress e0 + 1) v k :: cs). split; [apply (inv_forward isf e0 cs op v k); auto|]. cbn [crefs flat_map app].
      rewrite addr_vref, put_addr. cbn [length]. fold (crefs cs). rewrite CR.
      replace (CodeAddress e0 + Z.of_nat 3 - 2) with (CodeAddress e0 + 1) by lia. reflexivity. }
    destruct k; cbn [rel] in *; unfold EmitGlobalRefRel, EmitGlobalRef in H; mgoin H; rewrite OV in H; destruct (Z.eqb_spec (aget (VOff e0) v) 0) as [Z0|NZ]; cbn [negb] in H; mgoin H; auto;
      apply outw in H; auto; destruct H as [H1 H2]; (eapply KN; [exact NZ| |rewrite <- H1; exact H2|exact H1]); lia.
Qed.

Lemma apps_known l e k e' : aget (LAddr e) l <> 0 -> EmitLocalJump W l e = Ok (k, e') -> k = true /\ appended e e'.
Proof.
  intros N H. unfold EmitLocalJump in H. mgoin H. minv H y e1 E. unfold failif in E. destruct (_ || _); [discriminate|]. oki E. mgoin H.
  rewrite (proj2 (Z.eqb_neq _ _) N) in H. cbn [negb] in H. mgoin H. minv H z e1 E. oki H. split; [reflexivity|].
  destruct (_ =? _); [eapply apps_W; [apply aO2|exact E]|]. minv E z1 e2 E1. apply (apps_W _ _ _ _ (aO1 _)) in E1. apply (apps_W _ _ _ _ (aOW _)) in E. eapply appended_trans; eauto.
Qed.
Lemma appended_fields e e1 : CodeAddress e1 = CodeAddress e -> Output e1 = Output e -> tabs e1 = tabs e -> appended e e1.
Proof.
  intros A B C. split; [lia|]. split; [intros; unfold byte; rewrite B; reflexivity|]. split; [exact C|]. intros BO a. unfold byte. rewrite B. apply BO.
Qed.
Lemma checks_live_ok e : live e -> EmitChecks W e = Ok (false, e).
Proof.
  intros (D & P & R1 & R2). unfold EmitChecks. cbn [EmitChecks_n]. unfold bind, gets, when, failif. rewrite D, P. change (negb (0 =? 0)) with false. cbv iota. unfold ret.
  destruct (Z.ltb_spec (OUTPUT_MAX + CODESTART) (CodeAddress e)); [lia|]. reflexivity.
Qed.
Lemma good_jmp e g l x e' : good e g -> 0 <= l < LocalLabelCounter e -> EmitJmp W l e = Ok (x, e') -> good e' g.
Proof.
  intros G LR H. unfold EmitJmp in H. mgoin H. set (e0 := set_Pending _ e) in *.
  assert (G0 : good e0 g) by (eapply good_appended; [exact G|apply appended_fields; reflexivity]). assert (LR0 : 0 <= l < LocalLabelCounter e0) by exact LR. clearbody e0. clear e G LR.
  minv H c e1 E. apply checks_any in E. destruct E as [(D & -> & ->)|(D & -> & A & D1 & P1 & R1)]; [oki H; exact G0|].
  pose proof (good_appended _ _ _ G0 A) as G1. pose proof (good_lo _ _ G1) as LO. assert (LV : live e1) by (apply live_of; auto).
  assert (LR1 : 0 <= l < LocalLabelCounter e1) by (destruct A as (_ & _ & T & _); apply tabs_inv in T; destruct T as (_ & _ & _ & _ & ->); exact LR0).
  minv H k e2 E. oki H. apply (good_appended e2); [|apply appended_fields; reflexivity].
  destruct (Z.eq_dec (aget (LAddr e1) l) 0) as [LA|LA].
  - apply fwd_emits in E; auto. cbv zeta in E. destruct E as (-> & -> & LV2). set (w := aget (LRef e1) l) in *.
    destruct G1 as (cs & I & CR). exists (CLab l (SJmp (CodeAddress e1 + 1)) :: cs). split; [|exact CR].
    assert (RM : CodeAddress e1 + 3 <= 24832) by (apply live_lref in LV2; apply live_room in LV2; exact LV2).
    apply (inv_jump isf e1 cs l (SJmp (CodeAddress e1 + 1)) [233; w; Z.shiftr w 8]); [exact I|cbn [length]; lia|exact LR1|exact LA|cbn [start]; lia|cbn [ref length]; lia| |]; cbn [ref].
    + cbn [site_ok]. replace (CodeAddress e1 + 1 - 1) with (CodeAddress e1 + Z.of_nat 0) by lia. rewrite (byte_word [233; w; Z.shiftr w 8] e1 0 233 eq_refl). reflexivity.
    + apply word_put.
  - apply apps_known in E; [|exact LA]. eapply good_appended; [exact G1|apply E].
Qed.
Lemma good_jcc e g c l x e' : good e g -> 0 <= c < 16 -> 0 <= l < LocalLabelCounter e -> EmitJcc W c l e = Ok (x, e') -> good e' g.
Proof.
  intros G0 HC LR0 H. pose proof H as H0. unfold EmitJcc in H. minv H r e1 E. apply checks_any in E. destruct E as [(D & -> & ->)|(D & -> & A & D1 & P1 & R1)]; [oki H; exact G0|].
  pose proof (good_appended _ _ _ G0 A) as G1. pose proof (good_lo _ _ G1) as LO. assert (LV : live e1) by (apply live_of; auto).
  assert (LR1 : 0 <= l < LocalLabelCounter e1) by (destruct A as (_ & _ & T & _); apply tabs_inv in T; destruct T as (_ & _ & _ & _ & ->); exact LR0).
  destruct (Z.eq_dec (aget (LAddr e1) l) 0) as [LA|LA].
  - assert (H1 : EmitJcc W c l e1 = Ok (x, e')) by (unfold EmitJcc; rewrite (bind_ok _ _ _ _ _ (checks_live_ok e1 LV)); exact H).
    apply jcc_fwd_emits in H1; auto. cbv zeta in H1. destruct H1 as [-> LV2]. set (w := aget (LRef e1) l) in *. pose proof (live_room _ _ LV2) as RM. cbn [length] in RM.
    destruct G1 as (cs & I & CR). exists (CLab l (SCond c (CodeAddress e1 + 3)) :: cs). split; [|exact CR]. destruct (cc16 c HC) as (C1 & C2 & _).
    apply (inv_jump isf e1 cs l (SCond c (CodeAddress e1 + 3)) [112 + Z.lxor c 1; 3; 0; w; Z.shiftr w 8]); [exact I|cbn [length]; lia|exact LR1|exact LA|cbn [start]; lia|cbn [ref length]; lia| |]; cbn [ref].
    + cbn [site_ok]. replace (CodeAddress e1 + 3 - 3) with (CodeAddress e1 + Z.of_nat 0) by lia. replace (CodeAddress e1 + 3 - 2) with (CodeAddress e1 + Z.of_nat 1) by lia. replace (CodeAddress e1 + 3 - 1) with (CodeAddress e1 + Z.of_nat 2) by lia.
      split; [exact HC|]. rewrite (byte_word [112 + Z.lxor c 1; 3; 0; w; Z.shiftr w 8] e1 0 _ eq_refl), (byte_word [112 + Z.lxor c 1; 3; 0; w; Z.shiftr w 8] e1 1 _ eq_refl), (byte_word [112 + Z.lxor c 1; 3; 0; w; Z.shiftr w 8] e1 2 _ eq_refl). split; [apply u8_small; lia|split; reflexivity].
    + unfold word. replace (CodeAddress e1 + 3 + 1) with (CodeAddress e1 + Z.of_nat 4) by lia. change (CodeAddress e1 + 3) with (CodeAddress e1 + Z.of_nat 3).
      rewrite (byte_word [112 + Z.lxor c 1; 3; 0; w; Z.shiftr w 8] e1 3 _ eq_refl), (byte_word [112 + Z.lxor c 1; 3; 0; w; Z.shiftr w 8] e1 4 _ eq_refl). apply word_bytes.
  - mgoin H. rewrite (proj2 (Z.eqb_neq _ _) LA) in H. cbn [negb andb] in H. destruct (_ =? _).
    + eapply good_appended; [exact G1|]. eapply apps_W; [apply aO2|exact H].
    + minv H y e2 E. apply (apps_W _ _ _ _ (aO2 _ _)) in E. minv H k e3 E2. apply apps_known in E2.
      * destruct E2 as [-> E2]. cbn [negb when] in H. oki H. eapply good_appended; [exact G1|]. eapply appended_trans; eauto.
      * destruct E as (_ & _ & T & _). apply tabs_inv in T. destruct T as (_ & _ & _ & -> & _). exact LA.
Qed.
Lemma good_make e g l e' : good e g -> MakeLabel e = Ok (l, e') -> good e' g.
Proof.
  intros (cs & I & CR) H. unfold MakeLabel in H. mgoin H. minv H y e1 E. unfold failif in E. destruct (_ =? _); [discriminate|]. oki E. mgoin H. oki H.
  exists cs. split; [|exact CR]. set (l := LocalLabelCounter e) in *. set (e3 := set_LRef _ _).
  assert (NI : forall s, ~ In (CLab l s) cs) by (intros s IN; destruct (i_cell _ _ _ I _ IN) as (_ & _ & Q & _); unfold l in Q; lia).
  pose proof (i_llc _ _ _ I) as LL. fold l in LL.
  constructor; [apply I|apply I|apply I| | | |].
  - change (LocalLabelCounter e3) with (l + 1). lia.
  - intros c IC. destruct (i_cell _ _ _ I c IC) as [U P]. split; [exact U|]. destruct c as [a v k|l' s]; [exact P|].
    destruct P as (P1 & P2 & P3). split; [apply (site_ok_eq e); [exact P1|intros; reflexivity]|]. change (LocalLabelCounter e3) with (l + 1). fold l in P2. split; [lia|].
    change (LAddr e3) with (aset (LAddr e) l 0). rewrite aget_aset_other by lia. exact P3.
  - intros v E. apply (linked_eq e); [apply I; exact E|intros; split; reflexivity].
  - intros l' L' E. change (LocalLabelCounter e3) with (l + 1) in L'. change (LAddr e3) with (aset (LAddr e) l 0) in E. change (LRef e3) with (aset (LRef e) l 0).
    destruct (Z.eq_dec l' l) as [->|N].
    + rewrite aget_aset_same. assert (LS : lsites l cs = []). { destruct (lsites l cs) as [|s r] eqn:Q; [reflexivity|]. exfalso. apply (NI s). apply in_lsites. rewrite Q. left. reflexivity. }
      rewrite LS. constructor.
    + rewrite aget_aset_other in * by auto. apply (linked_eq e); [|intros; split; reflexivity]. apply I; [fold l; lia|exact E].
Qed.
Lemma good_end e g : good e g -> good (set_LocalLabelCounter 0 e) g.
Proof.
  intros (cs & I & CR). exists (filter (fun c => match c with CRef _ _ _ => true | _ => false end) cs).
  assert (EQ : forall v, vrefs v (filter (fun c => match c with CRef _ _ _ => true | _ => false end) cs) = vrefs v cs).
  { intro v. unfold vrefs. clear. induction cs as [|[a v' k|l s] r IH]; cbn [filter flat_map app]; [reflexivity|rewrite IH; reflexivity|exact IH]. }
  split.
  - constructor; [apply I|apply I| | | | |].
    + apply sorted_filter, I.
    + change (0 <= 0). lia.
    + intros c IC. apply filter_In in IC. destruct IC as [IC T]. destruct c; [|discriminate]. exact (i_cell _ _ _ I _ IC).
    + intros v E. rewrite EQ. apply (linked_eq e); [apply I; exact E|intros; split; reflexivity].
    + intros l L. change (0 <= l < 0) in L. lia.
  - rewrite <- CR. unfold crefs. clear. induction cs as [|[a v' k|l s] r IH]; cbn [filter flat_map app]; [reflexivity|rewrite IH; reflexivity|exact IH].
Qed.
Lemma good_var e g v o : good e g -> (forall a k, ~ In (a, v, k) g) -> good (set_VOff (aset (VOff e) v o) (set_VRef (aset (VRef e) v 0) e)) g.
Proof.
  intros (cs & I & CR) NI. exists cs. split; [|exact CR]. set (e1 := set_VOff _ _).
  assert (NC : forall a k, ~ In (CRef a v k) cs) by (intros a k IN; apply (NI a k); rewrite <- CR; apply in_crefs; exact IN).
  constructor; [apply I|apply I|apply I|apply I| | |].
  - intros c IC. destruct (i_cell _ _ _ I c IC) as [U P]. split; [exact U|]. destruct c as [a v' k|l s]; [|exact P].
    assert (v' <> v) by (intros ->; eapply NC; eauto). change (VOff e1) with (aset (VOff e) v o). rewrite aget_aset_other by auto. exact P.
  - intros v' E. change (VOff e1) with (aset (VOff e) v o) in E. change (VRef e1) with (aset (VRef e) v 0). destruct (Z.eq_dec v' v) as [->|N].
    + rewrite aget_aset_same. assert (VS : vrefs v cs = []). { destruct (vrefs v cs) as [|a r] eqn:Q; [reflexivity|]. exfalso. assert (IN : In a (vrefs v cs)) by (rewrite Q; left; reflexivity). apply in_vrefs in IN. destruct IN as (k & IN). eapply NC; eauto. }
      rewrite VS. constructor.
    + rewrite aget_aset_other in * by auto. apply (linked_eq e); [apply I; exact E|intros; split; reflexivity].
  - intros l L E. apply (linked_eq e); [apply I; assumption|intros; split; reflexivity].
Qed.
Lemma good_step e g e' g' : step e g e' g' -> good e g -> good e' g'.
Proof.
  intros S G. destruct S.
  - eapply good_appended; eauto.
  - eapply good_ref; eauto.
  - destruct G as (cs & I & CR). exists cs. split; [|exact CR]. eapply inv_place; eauto. intros F a k IN. apply (H F a k). rewrite <- CR. apply in_crefs. exact IN.
  - apply good_var; assumption.
  - eapply good_make; eauto.
  - eapply good_jmp; eauto.
  - eapply good_jcc; eauto.
  - destruct G as (cs & I & CR). exists (filter (other l) cs). split; [eapply inv_label; eauto|]. rewrite crefs_other. exact CR.
  - apply good_end. exact G.
Qed.
Lemma good_steps e g e' g' : steps e g e' g' -> good e g -> good e' g'.
Proof. intro S. induction S; auto. intro G. apply IHS. eapply good_step; eauto. Qed.

(** nothing emitted yet *)
Definition fresh (e : emst) : Prop :=
  bytes_ok e /\ CODESTART <= CodeAddress e /\ LocalLabelCounter e = 0 /\ forall v, aget (VOff e) v = 0 -> aget (VRef e) v = 0.
Theorem references_hold e0 e g : fresh e0 -> steps e0 [] e g ->
  forall a v k, In (a, v, k) g -> aget (VOff e) v <> 0 -> holds e (aget (VOff e) v) a k.
Proof.
  intros (B & LO & LC & VR) S a v k IN NZ. assert (G0 : good e0 []).
  { exists []. split; [|reflexivity]. constructor; auto; cbn.
    - exact I.
    - lia.
    - contradiction.
    - intros v' E. rewrite VR by exact E. constructor.
    - intros l L. lia. }
  destruct (good_steps _ _ _ _ S G0) as (cs & I & CR). rewrite <- CR in IN. apply in_crefs in IN. destruct (i_cell _ _ _ I _ IN) as [_ P].
  rewrite (proj2 (Z.eqb_neq _ _) NZ) in P. exact P.
Qed.
End Trace.
