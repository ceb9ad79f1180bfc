(** Single steps of compiled expressions: loading a variable, constants as right operands, operators on
    two saved values, conditions; each as a run of the machine that keeps the saved values. *)
From Verif Require Import Base Bits Spec8086 SpecWf SccRun SccState SccEmit SccLex SccDecl SccExpr SccInput SccPut SccArith SccOps SccJump SccMem SccHold SccFlush ExprSpec.

(** ** Variables *)
(** name x is an int variable: a local at frame offset Val, or global number Val, already placed *)
Definition int_var (d : dcst) (vo : arr Z) (x Loc Val : Z) : Prop :=
  let v := aget (VarLookup d) x - 1 in
  aget (VarLookup d) x <> 0 /\ aget (VType d) v = VT_INT + Loc /\
  (Loc = VT_LOCOFF /\ Val = aget vo v \/ Loc = VT_LOCGLOB /\ Val = v /\ aget vo v <> 0).
Definition vaddr (f : frame) (vo : arr Z) (Loc Val : Z) : Z :=
  if Loc =? VT_LOCOFF then (f_bp f + Val) mod 65536 else aget vo Val mod 65536.
(** the memory of the frame holds env x in the variable x, outside the stack the expression uses *)
Definition sees_var (f : frame) (d : dcst) (vo : arr Z) (env : Z -> Z) (x : Z) : Prop :=
  forall Loc Val, int_var d vo x Loc Val ->
    let a := vaddr f vo Loc Val in
    ~ zone f (phys (f_seg f) a) /\ ~ zone f (phys (f_seg f) (a + 1)) /\ env x = signed true (rd16 (f_mem f) (f_seg f) a).

Lemma int_is_var d e x Loc Val : int_var d (VOff e) x Loc Val -> is_var e Loc Val.
Proof. intros (_ & _ & [[-> _]|(-> & -> & N)]); [left; reflexivity|right; auto]. Qed.
Lemma var_value f d e env x Loc Val t : frame_ok f -> inv f t -> int_var d (VOff e) x Loc Val -> sees_var f d (VOff e) env x ->
  var_get e 2 Loc Val t = env x mod 65536.
Proof.
  intros FO (I1 & I2 & I3 & I4) V S1. destruct (S1 _ _ V) as (Z1 & Z2 & Z3).
  assert (E : var_get e 2 Loc Val t = rd16 (mem t) (f_seg f) (vaddr f (VOff e) Loc Val)).
  { unfold var_get, var_seg, var_off, vaddr. change (2 =? 2) with true. cbv iota. rewrite I2, I3.
    destruct FO as (F1 & F2 & _). destruct V as (_ & _ & [[-> _]|(-> & -> & N)]).
    - change (VT_LOCOFF =? VT_LOCOFF) with true. cbv iota. rewrite F1. reflexivity.
    - change (VT_LOCGLOB =? VT_LOCOFF) with false. cbv iota. rewrite F2. reflexivity. }
  rewrite E. rewrite (rd16_frame (f_mem f)) by (apply I4; assumption). rewrite Z3.
  symmetry. apply mod_signed.
  rewrite <- (rd16_frame (f_mem f) (mem t)) by (apply I4; assumption). apply rd16_ok. apply I1.
Qed.

Section W.
Variable W : Z.
Hypothesis HW : 16 <= W.

Lemma load_emits Loc Val e e' x : live e -> is_var e Loc Val -> EmitLoadAx W 2 Loc Val e = Ok (x, e') -> exists bs, e' = put bs e /\ live e' /\ okhead bs.
Proof.
  intros L HV H. unfold EmitLoadAx in H.
  assert (N0 : Loc <> 0) by (destruct HV as [->|[-> ?]]; discriminate). rewrite (proj2 (Z.eqb_neq _ _) N0) in H.
  destruct (Z.eqb_spec Loc VT_LOCGLOB) as [->|NG].
  - destruct HV as [?|[_ NV]]; [discriminate|]. minv H y e1 E. apply out1 in E; auto. destruct E as [-> L1].
    apply globalref_emits in H; auto. cbv zeta in H. rewrite put_voff, <- put_app in H. 
    rewrite add_ref_off in H by exact NV. destruct H as [-> L2]. eexists. split; [reflexivity|]. split; [exact L2|]. cbn; unfold u8; lia.
  - apply modrm_emits in H; auto; [|unfold R_AX; lia]. destruct H as (-> & L2 & _).
    unfold add_ref in *. rewrite (proj2 (Z.eqb_neq _ _) NG) in *. cbn [andb] in *. eexists. split; [reflexivity|]. split; [exact L2|]. cbn; unfold u8; lia.
Qed.
(** before any code is output the postponed push comes first *)
Lemma load_flush Loc Val e e' x : gen e -> is_var e Loc Val -> EmitLoadAx W 2 Loc Val e = Ok (x, e') ->
  live (flush e) /\ EmitLoadAx W 2 Loc Val (flush e) = Ok (x, e').
Proof.
  intros G HV H. unfold EmitLoadAx in *.
  assert (N0 : Loc <> 0) by (destruct HV as [->|[-> ?]]; discriminate). rewrite (proj2 (Z.eqb_neq _ _) N0) in *.
  destruct (Z.eqb_spec Loc VT_LOCGLOB) as [->|NG].
  - minv H y e1 E. unfold Output1Byte, Output1Byte_ in *. apply (guarded_flush W HW) in E; [|exact G]. destruct E as [L E]. split; [exact L|].
    rewrite (bind_ok _ _ _ _ _ E). exact H.
  - destruct HV as [->|[-> _]]; [|contradiction]. unfold EmitModrm in *. cbv zeta in *. change (VT_LOCOFF =? VT_LOCOFF) with true in *. cbv iota in *.
    minv H y e1 E. unfold Output3Bytes, Output3Bytes_ in *. apply (guarded_flush W HW) in E; [|exact G]. destruct E as [L E]. split; [exact L|].
    rewrite (bind_ok _ _ _ _ _ E). exact H.
Qed.

End W.
(** ** Steps *)
(** code appended; the registers and stack slots in use for saved values are the same *)
Definition grown (e e' : emst) : Prop :=
  live e' /\ VOff e' = VOff e /\ ext e e' /\ RegUse e' = RegUse e /\ LocalOffset e' = LocalOffset e.
Lemma grown_refl e : live e -> grown e e.
Proof. intro L. split; [exact L|]. split; [reflexivity|]. split; [apply ext_refl|auto]. Qed.
Lemma grown_trans a b c : grown a b -> grown b c -> grown a c.
Proof.
  intros (A1 & A2 & A3 & A4 & A5) (B1 & B2 & B3 & B4 & B5). split; [exact B1|]. split; [congruence|]. split; [exact (ext_trans _ _ _ A3 B3)|]. split; congruence.
Qed.
Lemma grown_put bs e : live (put bs e) -> okhead bs -> grown e (put bs e).
Proof. intros L OK. split; [exact L|]. split; [apply put_voff|]. split; [apply ext_put; exact OK|]. split; [apply put_reg|apply put_local]. Qed.
Lemma grown_kin e e1 e2 : kin e1 e2 -> grown e e1 -> grown e e2.
Proof.
  intros K (A1 & A2 & A3 & A4 & A5). pose proof K as (K1 & K2 & K3 & K4 & K5 & K6 & K7 & _).
  split; [exact (kin_live _ _ K A1)|]. split; [congruence|]. split; [exact (ext_trans _ _ _ A3 (ext_kin _ _ K))|]. split; congruence.
Qed.
Lemma grown_bal e e' : live e -> grown e e' -> bal e e'.
Proof. intros L (L' & _ & _ & R & O). apply bal_same; [rewrite (proj1 (proj2 L)), (proj1 (proj2 L')); reflexivity|exact R|exact O]. Qed.
Lemma kin_sym e e' : kin e e' -> kin e' e.
Proof. intros (K1 & K2 & K3 & K4 & K5 & K6 & K7 & K8). unfold kin. repeat (split; [congruence|]). congruence. Qed.
Lemma hold_kin f e e' V t : kin e e' -> hold f e V t -> hold f e' V t.
Proof. intros (K1 & K2 & K3 & K4 & K5 & K6 & K7 & _) (l & E & S & O). exists l. rewrite K3, K4, K5. auto. Qed.

Section F.
Variable f : frame.
Hypothesis FO : frame_ok f.

(** the code between e and e' keeps the saved values and takes the machine from P to Q *)
Definition acts (e e' : emst) (P Q : state -> Prop) : Prop :=
  f_lo f <= CodeAddress e -> ext e' (f_fin f) -> forall V, space f V 0 ->
  runs f e e' (fun t => hold f e V t /\ P t) (fun t => hold f e' V t /\ Q t).
Lemma acts_seq a b c P Q R : ext a b -> ext b c -> acts a b P Q -> acts b c Q R -> acts a c P R.
Proof.
  intros X1 X2 H1 H2 Lo X V SP. eapply runs_seq; [exact (H1 Lo (ext_trans _ _ _ X2 X) V SP)|]. apply H2; auto. destruct X1. lia.
Qed.
Lemma acts_kin e e1 e2 P Q : kin e1 e2 -> acts e e1 P Q -> acts e e2 P Q.
Proof.
  intros K H Lo X V SP. apply (runs_addr f e e1); [reflexivity|symmetry; apply K|].
  eapply runs_imp; [exact (H Lo (ext_trans _ _ _ (ext_kin _ _ K) X) V SP)|auto|]. cbv beta. intros t [A B]. split; [exact (hold_kin _ _ _ _ _ K A)|exact B].
Qed.
Lemma acts_kin_l e0 e e1 P Q : kin e0 e -> acts e0 e1 P Q -> acts e e1 P Q.
Proof.
  intros K H Lo X V SP. pose proof (kin_sym _ _ K) as K'. apply (runs_addr f e0 e1); [apply K'|reflexivity|].
  assert (Lo' : f_lo f <= CodeAddress e0) by (destruct K' as [-> _]; exact Lo). eapply runs_imp; [exact (H Lo' X V SP)| |auto]. cbv beta. intros t [A B]. split; [exact (hold_kin _ _ _ _ _ K' A)|exact B].
Qed.
Lemma acts_imp e e' (P Q P' Q' : state -> Prop) : acts e e' P Q -> (forall t, inv f t -> P' t -> P t) -> (forall t, inv f t -> Q t -> Q' t) -> acts e e' P' Q'.
Proof.
  intros H A B Lo X V SP t I1 I2 [I3 I4]. eapply reaches_imp; [apply (H Lo X V SP); auto|]. cbv beta. intros t' (J1 & J2 & J3 & J4).
  split; [exact J1|]. split; [exact J2|]. split; [exact J3|exact (B t' J1 J4)].
Qed.
Lemma acts_here e (P Q : state -> Prop) : (forall t, inv f t -> P t -> Q t) -> acts e e P Q.
Proof. intros H Lo X V SP. apply runs_here; [reflexivity|]. intros t I [A B]. auto. Qed.
Lemma step_acts pre clob e e' R (P Q : state -> Prop) : live e -> grown e e' -> does_if pre e e' R ->
  (forall t t', R t t' -> keeps_but clob t t') -> ~ In 3 clob -> ~ In 4 clob -> ~ In 5 clob ->
  (forall t, inv f t -> P t -> pre t) -> (forall t t', inv f t -> P t -> wf t' -> R t t' -> Q t') ->
  acts e e' P Q.
Proof.
  intros L (G1 & G2 & G3 & G4 & G5) D K N3 N4 N5 A B Lo X V SP.
  apply (runs_does f FO e e' _ _ _ _ D); [exact Lo|exact X| | |].
  - intros t t' Rt. apply (keeps_frame clob t t' (K _ _ Rt) N5).
  - intros t I [H1 H2]. apply A; assumption.
  - intros t t' I [H1 H2] Wt Rt. split.
    + apply (hold_keeps f e e' V t t' clob H1); first [apply L|apply G1|apply K; exact Rt|assumption].
    + apply (B t t'); assumption.
Qed.

End F.

Section W.
Variable W : Z.
Hypothesis HW : 16 <= W.
(** ** Loading a variable *)
Lemma load_acts d vo x Loc Val e e' u : live e -> VOff e = vo -> int_var d vo x Loc Val ->
  EmitLoadAx W 2 Loc Val e = Ok (u, e') ->
  grown e e' /\ CurrentType e' = CurrentType e /\ CurrentVal e' = CurrentVal e /\ IsUnsignedOp e' = IsUnsignedOp e /\
  forall f env b, frame_ok f -> sees_var f d vo env x ->
    acts f e e' (fun t => cx (rg t) = b) (fun t => ax (rg t) = env x mod 65536 /\ cx (rg t) = b).
Proof.
  intros L EV IV H. subst vo. pose proof (int_is_var _ _ _ _ _ IV) as HV.
  destruct (load_emits W _ _ _ _ _ L HV H) as (bs & E & L' & OK).
  destruct (load_does W 2 Loc Val e e' u (or_intror eq_refl) L HV H) as [_ D].
  assert (G : grown e e') by (rewrite E in *; apply grown_put; [exact L'|exact OK]).
  split; [exact G|]. split; [rewrite E; apply put_ctype|]. split; [rewrite E; apply put_cval|]. split; [rewrite E; apply put_unsigned|].
  intros f env b FO SV.
  apply (step_acts f FO _ [R_AX] e e' _ _ _ L G D); try (cbn [In]; unfold R_AX; lia); auto.
  - intros t t' [_ K]. exact K.
  - intros t t' I B Wt [A K]. change (2 =? 2) with true in A. cbv iota in A. split.
    + rewrite A. apply (var_value f d e); auto.
    + rewrite <- B. apply (proj1 K 1); [lia|]. cbn [In]. unfold R_AX. lia.
Qed.
Lemma flush_unsigned e : IsUnsignedOp (flush e) = IsUnsignedOp e.
Proof. unfold flush. destruct (Pending e =? 0); [reflexivity|]. destruct (Pending e =? -8); [reflexivity|]. destruct (RegUse e); reflexivity. Qed.
Lemma flush_val e : CurrentVal (flush e) = CurrentVal e.
Proof. unfold flush. destruct (Pending e =? 0); [reflexivity|]. destruct (Pending e =? -8); [reflexivity|]. destruct (RegUse e); reflexivity. Qed.
(** the same when a push is postponed: it comes first *)
Lemma load_step d vo x Loc Val e e' u : gen e -> VOff e = vo -> int_var d vo x Loc Val ->
  EmitLoadAx W 2 Loc Val e = Ok (u, e') ->
  live e' /\ VOff e' = VOff e /\ ext e e' /\ CurrentType e' = CurrentType e /\ CurrentVal e' = CurrentVal e /\ IsUnsignedOp e' = IsUnsignedOp e /\ bal e e' /\
  forall f env, frame_ok f -> sees_var f d vo env x -> acts f e e' (fun _ => True) (fun t => ax (rg t) = env x mod 65536).
Proof.
  intros G EV IV H. pose proof (int_is_var d e x Loc Val) as HV. rewrite EV in HV. specialize (HV IV).
  destruct (load_flush W HW _ _ _ _ _ G HV H) as [L H2].
  set (e1 := flush e) in *. assert (V1 : VOff e1 = vo) by (unfold e1; rewrite flush_voff; exact EV).
  destruct (load_acts d vo x Loc Val e1 e' u L V1 IV H2) as ((G1 & G2 & G3 & G4 & G5) & A2 & A3 & A4 & A).
  assert (X1 : ext e e1) by apply flush_ext.
  split; [exact G1|]. split; [congruence|]. split; [exact (ext_trans _ _ _ X1 G3)|]. 
  split; [rewrite A2; apply flush_type|]. split; [rewrite A3; apply flush_val|]. split; [rewrite A4; apply flush_unsigned|].
  split; [apply (bal_trans _ e1 _ (flush_bal e)); apply bal_same; [rewrite (proj1 (proj2 G1)), (proj1 (proj2 L)); reflexivity|exact G4|exact G5]|].
  intros f env FO SV.
  apply (acts_seq f _ e1 _ _ (fun _ => True) _ X1 G3).
  - intros Lo X V SP. eapply runs_imp; [apply (flush_runs W f e V); assumption| |]; cbv beta; tauto.
  - intros Lo X V SP t I1 I2 [I3 _]. pose proof (A f env (cx (rg t)) FO SV) as B.
    eapply reaches_imp; [apply (B Lo X V SP); auto|]. cbv beta. tauto.
Qed.
End W.
