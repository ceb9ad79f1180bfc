(** Jumps and calls (sas.c:1239-1297), and all instructions together. *)
From Coq Require Import ZArith List Bool Lia String.
From Verif Require Import Base Sas SasSym SasText SasExpr SasAsm SasInst SasInst2 SasInst3 SasInst4.
From Verif Require Spec8086 SasSpec.
Import ListNotations.
Open Scope Z_scope.
Notation length := List.length.

Section Width.
Variable W : Z.
Hypothesis HW : W = 16 \/ W = 32.
Notation cv := (cv W).
Notation done := (done W).
Notation meant := (meant W).
Notation means := (SasSpec.means W).

Lemma r_rel8 c ts rf i s o v b sz : fits c -> cv c s ts [Cell8 b None] rf sz -> lit_ok W c rf v o ->
  meant c i [Cell8 b None; Cell8 (o_disp o - (c_va c + 2)) (o_fix o)] rf -> done c ts i (HandleRel8 W o s).
Proof.
  intros F V LO M. unfold HandleRel8. pose proof (cv_va _ _ _ _ _ _ _ V) as VA. cbn [rlen clen] in VA. destruct (o_fix o) as [j|] eqn:FO.
  - pose proof (lo_fix _ _ _ _ _ LO) as FX. rewrite FO in FX.
    destruct (o_rel8 W HW c s ts _ rf sz j (o_disp o - (c_va c + 2)) F V ltac:(cbn; lia) ltac:(cbn; lia) FX) as (s1 & s2 & E1 & VV & E2 & V2).
    cbn [fixup_here]. rewrite (bind_ok _ _ _ _ _ E1). eapply (r_gets va); [reflexivity|]. rewrite VV, VA.
    replace (c_va c + Z.of_nat (1 + 0) + 1) with (c_va c + 2) by lia. rewrite E2. eapply r_done; [exact V2|exact M].
  - cbn [fixup_here]. change (done c ts i (bind (gets va) (fun v => OutputByte W (o_disp o - (v + 1))) s)). eapply (r_gets va); [exact VA|].
    replace (c_va c + Z.of_nat (1 + 0) + 1) with (c_va c + 2) by lia. eapply (r_last W HW); [exact F|exact V|cbn; lia|exact M].
Qed.
Lemma r_rel16 c ts rf i s o v b sz : fits c -> cv c s ts [Cell8 b None] rf sz -> lit_ok W c rf v o ->
  meant c i [Cell8 b None; Cell16 FIXUP_REL16 (ci W (o_disp o - (c_va c + 3))) (o_fix o)] rf -> done c ts i (HandleRel16 W o s).
Proof.
  intros F V LO M. unfold HandleRel16. pose proof (cv_va _ _ _ _ _ _ _ V) as VA. cbn [rlen clen] in VA.
  destruct (o_word W HW c s ts _ rf sz FIXUP_REL16 (ci W (o_disp o - (c_va c + 3))) (o_fix o) ltac:(discriminate) F V ltac:(cbn; lia) ltac:(cbn; lia) (lo_fix _ _ _ _ _ LO)) as (s2 & E2 & V2).
  replace ((fixup_here (o_fix o) FIXUP_REL16;; (let! v0 := gets va in OutputWord W (ci W (o_disp o - (v0 + 2))))) s) with
    ((fixup_here (o_fix o) FIXUP_REL16;; OutputWord W (ci W (o_disp o - (c_va c + 3)))) s).
  - rewrite E2. eapply r_done; [exact V2|exact M].
  - destruct (o_fix o) as [j|] eqn:FO; cbn [fixup_here].
    + pose proof (lo_fix _ _ _ _ _ LO) as FX. rewrite FO in FX. destruct FX as [D I].
      destruct (v_fix W c s ts _ _ rf sz j FIXUP_REL16 F V ltac:(cbn; lia) D I) as (s1 & E1 & V1).
      rewrite !(bind_ok _ _ _ _ _ E1). unfold SccState.bind, SccState.gets. rewrite (v_va _ _ _ _ _ _ _ _ V1). rewrite render_len. cbn [rlen clen].
      replace (c_va c + Z.of_nat (1 + 0) + 2) with (c_va c + 3) by lia. reflexivity.
    + unfold SccState.bind, SccState.gets, SccState.ret. rewrite VA. replace (c_va c + Z.of_nat (1 + 0) + 2) with (c_va c + 3) by lia. reflexivity.
Qed.
Lemma meant_rel8 c rf i o b (K : Z -> Spec8086.instr) : 0 <= b < 256 -> plain b ->
  (forall g, g 0 = b -> dec_op g None Spec8086.NoRep 0 = Some (K (Spec8086.sx8 (g 1)), 2)) ->
  (forall NS lv, final c rf NS lv -> means (env_of NS lv) (c_va c + 2) i (K (Spec8086.sx8 ((o_disp o - (c_va c + 2) + fixval lv (o_fix o)) mod 256)))) ->
  meant c i [Cell8 b None; Cell8 (o_disp o - (c_va c + 2)) (o_fix o)] rf.
Proof.
  intros B P D M. split; [cbn; lia|]. split; [cbn [cfix fix1 app]; destruct (o_fix o); cbn; lia|]. intros NS lv FI. eexists. split; [|exact (M NS lv FI)].
  cbn [render flat_map]. rewrite decode_plain by (rewrite byte0 by exact B; exact P). rewrite (D _ (byte0 b _ lv B)). reflexivity.
Qed.
Lemma meant_rel16 c rf i o x b (K : Z -> Spec8086.instr) : 0 <= b < 256 -> plain b ->
  (forall g, g 0 = b -> dec_op g None Spec8086.NoRep 0 = Some (K (Spec8086.word_at g 1), 3)) ->
  (forall NS lv, final c rf NS lv -> means (env_of NS lv) (c_va c + 3) i (K ((x + fixval lv (o_fix o)) mod 65536))) ->
  meant c i [Cell8 b None; Cell16 FIXUP_REL16 x (o_fix o)] rf.
Proof.
  intros B P D M. split; [cbn; lia|]. split; [cbn [cfix fix1 app]; destruct (o_fix o); cbn; lia|]. intros NS lv FI. eexists. split; [|exact (M NS lv FI)].
  cbn [render flat_map]. rewrite decode_plain by (rewrite byte0 by exact B; exact P). rewrite (D _ (byte0 b _ lv B)).
  pose proof (dec_imm_app lv (rcell lv (Cell8 b None)) true FIXUP_REL16 x (o_fix o) 1 ltac:(discriminate) eq_refl) as DI. apply (f_equal fst) in DI.
  rewrite app_nil_r. cbn [rlen clen]. cbv iota in DI. change (Some (K (Spec8086.word_at (byte_at (rcell lv (Cell8 b None) ++ rcell lv (Cell16 FIXUP_REL16 x (o_fix o)))) 1), 3) = Some (K ((x + fixval lv (o_fix o)) mod 65536), Z.of_nat 3)).
  do 3 f_equal. exact DI.
Qed.
(** the distance that is encoded *)
Lemma near_enough d : -128 <= s16 d < 128 -> Spec8086.sx8 (d mod 256) = d mod 65536.
Proof.
  intro H. apply IsShort_sx8. unfold IsShort. change 65535 with (Z.ones 16). rewrite !Z.land_ones by lia. change (2 ^ 16) with 65536.
  apply Z.eqb_eq. unfold s16, s8 in *. destruct (d mod 65536 <? 32768) eqn:E; destruct (d mod 256 <? 128) eqn:E2; lia.
Qed.
Lemma rel_short c rf v o NS lv : lit_ok W c rf v o -> final c rf NS lv ->
  exists t, SasSpec.val W (env_of NS lv) v = Some t /\ SasSpec.reaches_short (c_va c + 2) t (Spec8086.sx8 ((o_disp o - (c_va c + 2) + fixval lv (o_fix o)) mod 256)).
Proof.
  intros LO FI. eexists. split; [apply (lo_val _ _ _ _ _ LO NS lv FI)|]. intro H.
  replace (o_disp o - (c_va c + 2) + fixval lv (o_fix o)) with (o_disp o + fixval lv (o_fix o) - (c_va c + 2)) by lia. apply near_enough. exact H.
Qed.
Lemma rel_long c rf v o NS lv : lit_ok W c rf v o -> final c rf NS lv ->
  exists t, SasSpec.val W (env_of NS lv) v = Some t /\ (ci W (o_disp o - (c_va c + 3)) + fixval lv (o_fix o)) mod 65536 = (t - (c_va c + 3)) mod 65536.
Proof.
  intros LO FI. eexists. split; [apply (lo_val _ _ _ _ _ LO NS lv FI)|].
  rewrite Zplus_mod, (ci_mod16 W HW), <- Zplus_mod. f_equal. lia.
Qed.

Section One.
Variable c : ctx.
Hypothesis F : fits c.
Variable ts : list tk.
Hypothesis ST : stops ts.
Ltac small := cbn; lia.
Ltac go_byte := match goal with V : SasInst2.cv _ _ _ _ ?cs _ _ |- _ => eapply (r_byte W HW); [exact F|exact V|small|let s' := fresh "s'" in let V' := fresh "V'" in intros s' V'; clear V; rename V' into V; cbn [app] in V] end.
(** the first token of a value is not SHORT *)
Lemma not_short s v bs fx rf sz : view W c s (SasSpec.value_toks v ++ ts) bs fx rf sz -> tok s <> TOK_SHORT.
Proof.
  intro V. destruct v as [e|nm]; cbn [SasSpec.value_toks] in V.
  - destruct (etoks_head W e) as (t & l & EH & TT & _). rewrite EH in V. cbn [app] in V. pose proof (v_loaded _ _ _ _ _ _ _ _ _ V) as L. specialize (TT s L).
    unfold TOK_NUMBER, TOK_STRING, IsUnaryOp, TOK_PLUS, TOK_MINUS, TOK_TILDE, TOK_SHORT in *. lia.
  - cbn [app] in V. pose proof (v_loaded _ _ _ _ _ _ _ _ _ V) as L. destruct L as (i & I1 & _ & I2). unfold TOK_SHORT. lia.
Qed.
Definition val_wf (v : SasSpec.value) : Prop := arg_wf W (SasSpec.OVal v).
Lemma refuse_short {A} s v bs fx rf sz (k : bool -> M st A) : view W c s (SasSpec.value_toks v ++ ts) bs fx rf sz ->
  bind (Accept W TOK_SHORT) k s = k false s.
Proof. intro V. apply not_short in V. rewrite (bind_ok _ _ _ _ _ (v_refuse W s TOK_SHORT V)). reflexivity. Qed.
Lemma plainb b : b = 232 \/ b = 233 \/ b = 235 \/ 112 <= b < 128 -> 0 <= b < 256 /\ plain b.
Proof. unfold plain. lia. Qed.
Lemma D_E8 g : g 0 = 232 -> dec_op g None Spec8086.NoRep 0 = Some (Spec8086.ICall (Spec8086.word_at g 1), 3).
Proof. intro H. unfold dec_op. cbv zeta. rewrite H. reflexivity. Qed.
Lemma D_E9 g : g 0 = 233 -> dec_op g None Spec8086.NoRep 0 = Some (Spec8086.IJmp (Spec8086.word_at g 1), 3).
Proof. intro H. unfold dec_op. cbv zeta. rewrite H. reflexivity. Qed.
Lemma D_EB g : g 0 = 235 -> dec_op g None Spec8086.NoRep 0 = Some (Spec8086.IJmp (Spec8086.sx8 (g 1)), 2).
Proof. intro H. unfold dec_op. cbv zeta. rewrite H. reflexivity. Qed.
Ltac islit A := destruct (is_lit_ok W _ _ _ _ A) as (J1 & J2 & J3); rewrite ?J1, ?J2, ?J3; cbv iota.
Lemma call_ok v fuel s : val_wf v -> (8 <= fuel)%nat -> (arg_need (SasSpec.OVal v) <= fuel)%nat ->
  view W c s (SasSpec.value_toks v ++ ts) [] [] [] 0 -> done c ts (SasSpec.ACall v) (HandleCALL W fuel s).
Proof.
  intros WF N N2 V. unfold HandleCALL. eapply (parse1 W HW c F ts ST _ (SasSpec.OVal v)); [exact WF|exact N2|exact V|]. intros s' rf o V2 A. cbn [pcells arg_ok] in V2, A.
  islit A. apply r_assert; [reflexivity|]. go_byte. eapply r_rel16; [exact F|exact V2|exact A|].
  eapply (meant_rel16 c rf _ o _ 232 (fun x => Spec8086.ICall x)); [apply plainb; lia|apply plainb; lia|apply D_E8|].
  intros NS lv FI. destruct (rel_long c rf v o NS lv A FI) as (t & E & ->). constructor. exact E.
Qed.
Lemma jmp_short v rf s o sz : lit_ok W c rf v o -> cv c s ts [] rf sz ->
  (forall NS lv, final c rf NS lv -> means (env_of NS lv) (c_va c + 2) (SasSpec.AJmp v) (Spec8086.IJmp (Spec8086.sx8 ((o_disp o - (c_va c + 2) + fixval lv (o_fix o)) mod 256)))) ->
  done c ts (SasSpec.AJmp v) ((OutputByte W 235;; HandleRel8 W o) s).
Proof.
  intros A V2 M. go_byte. eapply r_rel8; [exact F|exact V2|exact A|].
  eapply (meant_rel8 c rf _ o 235 (fun x => Spec8086.IJmp x)); [apply plainb; lia|apply plainb; lia|apply D_EB|exact M].
Qed.
Lemma jmp_ok v fuel s : val_wf v -> (8 <= fuel)%nat -> (arg_need (SasSpec.OVal v) <= fuel)%nat ->
  view W c s (SasSpec.value_toks v ++ ts) [] [] [] 0 -> done c ts (SasSpec.AJmp v) (HandleJMP W fuel s).
Proof.
  intros WF N N2 V. unfold HandleJMP. rewrite (refuse_short s v _ _ _ _ _ V). change (done c ts (SasSpec.AJmp v) (bind (ParseOperand W fuel) (fun o => assert (is_lit o);;
    (let! sz := gets size in let! v := gets va in
     if (sz =? 1) || ((match o_fix o with None => true | _ => false end) && IsShort (o_disp o - (v + 2))) then
     OutputByte W 235;; HandleRel8 W o else OutputByte W 233;; HandleRel16 W o)) s)).
  eapply (parse1 W HW c F ts ST _ (SasSpec.OVal v)); [exact WF|exact N2|exact V|]. intros s' rf o V2 A. cbn [pcells arg_ok size_after] in V2, A.
  islit A. apply r_assert; [reflexivity|]. eapply (r_gets size); [apply (cv_size _ _ _ _ _ _ _ V2)|]. eapply (r_gets va); [apply (cv_va _ _ _ _ _ _ _ V2)|].
  cbn [rlen]. change (0 =? 1) with false. cbn [orb]. replace (c_va c + Z.of_nat 0 + 2) with (c_va c + 2) by lia.
  destruct (match o_fix o with None => true | _ => false end && IsShort (o_disp o - (c_va c + 2))) eqn:SH.
  - eapply jmp_short; [exact A|exact V2|]. intros NS lv FI. apply andb_true_iff in SH. destruct SH as [S1 S2].
    destruct (o_fix o) eqn:FO; [discriminate|]. cbn [fixval]. rewrite Z.add_0_r, IsShort_sx8 by exact S2. constructor.
    rewrite (lo_val _ _ _ _ _ A NS lv FI), FO. cbn. f_equal. lia.
  - go_byte. eapply r_rel16; [exact F|exact V2|exact A|].
    eapply (meant_rel16 c rf _ o _ 233 (fun x => Spec8086.IJmp x)); [apply plainb; lia|apply plainb; lia|apply D_E9|].
    intros NS lv FI. destruct (rel_long c rf v o NS lv A FI) as (t & E & ->). constructor. exact E.
Qed.
Lemma jmps_ok v fuel s : val_wf v -> (8 <= fuel)%nat -> (arg_need (SasSpec.OVal v) <= fuel)%nat ->
  view W c s (SasSpec.wd "SHORT" :: SasSpec.value_toks v ++ ts) [] [] [] 0 -> done c ts (SasSpec.AJmpShort v) (HandleJMP W fuel s).
Proof.
  intros WF N N2 V. unfold HandleJMP. pose proof (tok_wd W _ _ (v_loaded W _ _ _ _ _ _ _ _ V)) as TK.
  let v := eval vm_compute in (synonym (SasSpec.place "SHORT" builtin_names + 256)) in change (synonym (SasSpec.place "SHORT" builtin_names + 256)) with v in TK.
  destruct (v_accept W HW _ _ _ _ _ _ _ _ TOK_SHORT V TK) as (s1 & E1 & V1). rewrite (bind_ok _ _ _ _ _ E1).
  change (done c ts (SasSpec.AJmpShort v) (bind (ParseOperand W fuel) (fun o => assert (is_lit o);;
    (let! sz := gets size in let! v := gets va in
     if (sz =? 1) || ((match o_fix o with None => true | _ => false end) && IsShort (o_disp o - (v + 2))) then
     OutputByte W 235;; HandleRel8 W o else OutputByte W 233;; HandleRel16 W o)) (set_size s1 1))).
  eapply (parse1 W HW c F ts ST _ (SasSpec.OVal v)); [exact WF|exact N2|eapply v_setsize; exact V1|]. intros s' rf o V2 A. cbn [pcells arg_ok size_after] in V2, A.
  islit A. apply r_assert; [reflexivity|]. eapply (r_gets size); [apply (cv_size _ _ _ _ _ _ _ V2)|]. eapply (r_gets va); [reflexivity|].
  change (1 =? 1) with true. cbn [orb]. go_byte. eapply r_rel8; [exact F|exact V2|exact A|].
  eapply (meant_rel8 c rf _ o 235 (fun x => Spec8086.IJmp x)); [apply plainb; lia|apply plainb; lia|apply D_EB|].
  intros NS lv FI. destruct (rel_short c rf v o NS lv A FI) as (t & E & R). econstructor; eassumption.
Qed.
Lemma jcc_ok n cc v fuel s : In (n, cc) SasSpec.conditions -> 0 <= cc < 16 -> val_wf v -> (8 <= fuel)%nat -> (arg_need (SasSpec.OVal v) <= fuel)%nat ->
  view W c s (SasSpec.value_toks v ++ ts) [] [] [] 0 -> done c ts (SasSpec.AJcc n v) (HandleJCC W fuel cc s).
Proof.
  intros IN B WF N N2 V. unfold HandleJCC. rewrite (refuse_short s v _ _ _ _ _ V). change (done c ts (SasSpec.AJcc n v) (bind (ParseOperand W fuel) (fun o => assert (is_lit o);;
    (OutputByte W (Z.lor 112 cc);; match o_fix o with
     | Some i => AddFixupHere i FIXUP_REL8;; (let! v := gets va in OutputByte W (- (v + 1)))
     | None => let! v := gets va in OutputByte W (o_disp o - (v + 1)) end)) s)).
  eapply (parse1 W HW c F ts ST _ (SasSpec.OVal v)); [exact WF|exact N2|exact V|]. intros s' rf o V2 A. cbn [pcells arg_ok size_after] in V2, A.
  islit A. apply r_assert; [reflexivity|].
  replace (Z.lor 112 cc) with (112 + cc) by (assert (R' : In cc [0; 1; 2; 3; 4; 5; 6; 7; 8; 9; 10; 11; 12; 13; 14; 15]) by (cbn; lia); cbn [In] in R';
    repeat (destruct R' as [<-|R']; [reflexivity|]); contradiction).
  go_byte.
  assert (X : done c ts (SasSpec.AJcc n v) (HandleRel8 W o s'0)).
  { eapply r_rel8; [exact F|exact V2|exact A|].
    eapply (meant_rel8 c rf _ o (112 + cc) (fun x => Spec8086.IJcc cc x)); [apply plainb; lia|apply plainb; lia|intros g E; apply (D_70 g None Spec8086.NoRep 0 cc B E)|].
    intros NS lv FI. destruct (rel_short c rf v o NS lv A FI) as (t & E & R). econstructor; eassumption. }
  unfold HandleRel8 in X. pose proof (lo_zero _ _ _ _ _ A) as Z0. destruct (o_fix o) as [j|]; [|exact X].
  rewrite (Z0 ltac:(discriminate)) in X. exact X.
Qed.
Lemma jcc_names n cc : In (n, cc) SasSpec.conditions -> 0 <= cc < 16 /\ synonym (SasSpec.place n builtin_names + 256) = 327 + cc.
Proof.
  intro I. assert (X : forallb (fun '(n, cc) => (0 <=? cc) && (cc <? 16) && (synonym (SasSpec.place n builtin_names + 256) =? 327 + cc)) SasSpec.conditions = true) by (vm_compute; reflexivity).
  rewrite forallb_forall in X. specialize (X _ I). cbv beta iota in X. lia.
Qed.
Lemma HI_jcc fuel cc : 0 <= cc < 16 -> HandleInstruction W fuel (327 + cc) = HandleJCC W fuel cc.
Proof.
  intro B. assert (R' : In cc [0; 1; 2; 3; 4; 5; 6; 7; 8; 9; 10; 11; 12; 13; 14; 15]) by (cbn; lia); cbn [In] in R';
    repeat (destruct R' as [<-|R']; [reflexivity|]); contradiction.
Qed.

(** ** All instructions *)
(** steps needed to read the operands *)
Definition inst_need (i : SasSpec.inst) : nat :=
  8 + match i with
  | SasSpec.AMov _ a | SasSpec.AAlu _ _ a | SasSpec.ATest _ a => arg_need a
  | SasSpec.AShift _ _ _ (Some e) | SasSpec.AInt e => eneed e
  | SasSpec.AJmp v | SasSpec.AJmpShort v | SasSpec.ACall v | SasSpec.AJcc _ v => arg_need (SasSpec.OVal v)
  | _ => 0
  end.
Definition plain_inst (i : SasSpec.inst) : Prop := forall k w, i <> SasSpec.AStr true k w.
Theorem inst_ok i fuel s : (exists env next ins, means env next i ins) -> plain_inst i -> (inst_need i <= fuel)%nat ->
  forall sz, view W c s (SasSpec.toks i ++ ts) [] [] [] sz -> done c ts i (statement W fuel s).
Proof.
  intros (env & next & ins & ME) PI N sz V. unfold inst_need in N.
  assert (GO : forall n t rest (H : M st unit), view W c s (SasSpec.wd n :: rest) [] [] [] sz -> synonym (SasSpec.place n builtin_names + 256) = t -> 286 <= t < 355 ->
    HandleInstruction W fuel t = H -> (forall s1, view W c s1 rest [] [] [] 0 -> done c ts i (H s1)) -> done c ts i (statement W fuel s)).
  { intros n t rest H V0 T R E K. destruct (stmt_start W HW c s n rest fuel t sz V0 T R) as (s1 & V1 & E1). rewrite E1, E. apply K. exact V1. }
  Ltac st n t := match goal with GO : _, V : view _ _ _ _ _ _ _ _ |- _ =>
    eapply (GO n t); [cbn [SasSpec.toks SasSpec.two app] in V; rewrite <- ?app_assoc in V; cbn [app] in V; exact V|vm_compute; reflexivity|lia|reflexivity|clear V; intros s1 V] end.
  inversion ME; subst; clear ME; try (match goal with H : SasSpec.imm_of _ _ _ _ _ |- _ => apply imm_of_wf in H end).
  Ltac fin := first [eassumption|cbn [arg_need] in *; lia|idtac].
  - st "MOV"%string 305. eapply (mov_rr W HW); fin.
  - st "MOV"%string 305. eapply (mov_rs W HW); fin.
  - st "MOV"%string 305. eapply (mov_sr W HW); fin.
  - st "MOV"%string 305. eapply (mov_ri W HW); fin.
  - st "MOV"%string 305. eapply (mov_rm W HW); fin.
  - st "MOV"%string 305. eapply (mov_mr W HW); fin.
  - st "MOV"%string 305. eapply (mov_sm W HW); fin.
  - st "MOV"%string 305. eapply (mov_ms W HW); fin.
  - st "MOV"%string 305. eapply (mov_mi W HW); fin.
  - destruct op; [st "ADD"%string 287|st "OR"%string 310|st "ADC"%string 286|st "SBB"%string 316|st "AND"%string 288|st "SUB"%string 323|st "XOR"%string 326|st "CMP"%string 293];
      match goal with |- SasInst2.done _ _ _ (SasSpec.AAlu ?o _ _) _ => eapply (alu_rr W HW c F ts ST o) end; fin.
  - destruct op; [st "ADD"%string 287|st "OR"%string 310|st "ADC"%string 286|st "SBB"%string 316|st "AND"%string 288|st "SUB"%string 323|st "XOR"%string 326|st "CMP"%string 293];
      match goal with |- SasInst2.done _ _ _ (SasSpec.AAlu ?o _ _) _ => eapply (alu_ri W HW c F ts ST o) end; fin.
  - destruct op; [st "ADD"%string 287|st "OR"%string 310|st "ADC"%string 286|st "SBB"%string 316|st "AND"%string 288|st "SUB"%string 323|st "XOR"%string 326|st "CMP"%string 293];
      match goal with |- SasInst2.done _ _ _ (SasSpec.AAlu ?o _ _) _ => eapply (alu_rm W HW c F ts ST o) end; fin.
  - destruct op; [st "ADD"%string 287|st "OR"%string 310|st "ADC"%string 286|st "SBB"%string 316|st "AND"%string 288|st "SUB"%string 323|st "XOR"%string 326|st "CMP"%string 293];
      match goal with |- SasInst2.done _ _ _ (SasSpec.AAlu ?o _ _) _ => eapply (alu_mr W HW c F ts ST o) end; fin.
  - destruct op; [st "ADD"%string 287|st "OR"%string 310|st "ADC"%string 286|st "SBB"%string 316|st "AND"%string 288|st "SUB"%string 323|st "XOR"%string 326|st "CMP"%string 293];
      match goal with |- SasInst2.done _ _ _ (SasSpec.AAlu ?o _ _) _ => eapply (alu_mi W HW c F ts ST o) end; fin.
  - st "TEST"%string 324. eapply (test_ri W HW); fin.
  - st "TEST"%string 324. eapply (test_mi W HW); fin.
  - st "XCHG"%string 325. eapply (xchg_rr W HW); fin.
  - st "XCHG"%string 325. eapply (xchg_rm W HW); fin.
  - st "LEA"%string 303. eapply (lea_ok W HW); fin.
  - st "INC"%string 300. eapply (incdec_r W HW c F ts ST false); fin.
  - st "INC"%string 300. eapply (incdec_m W HW c F ts ST false); fin.
  - st "DEC"%string 296. eapply (incdec_r W HW c F ts ST true); fin.
  - st "DEC"%string 296. eapply (incdec_m W HW c F ts ST true); fin.
  - st "NOT"%string 309. eapply (unary_ok W HW); fin.
  - st "NEG"%string 308. eapply (unary_ok W HW); fin.
  - destruct k; [st "MUL"%string 307|st "IMUL"%string 299|st "DIV"%string 297|st "IDIV"%string 298]; eapply (unary_ok W HW); fin; reflexivity.
  - destruct k; [st "SHL"%string 317|st "SHR"%string 318|st "SAR"%string 315]; eapply (shift_cl W HW); fin; reflexivity.
  - destruct k; [st "SHL"%string 317|st "SHR"%string 318|st "SAR"%string 315]; eapply (shift_1 W HW); fin; reflexivity.
  - st "PUSH"%string 312. eapply (push_r W HW); fin.
  - st "PUSH"%string 312. eapply (push_s W HW); fin.
  - st "PUSH"%string 312. eapply (push_m W HW); fin.
  - st "POP"%string 311. eapply (pop_r W HW); fin.
  - st "POP"%string 311. eapply (pop_s W HW); fin.
  - st "CALL"%string 289. eapply (callreg_ok W HW); fin.
  - st "INT"%string 301. eapply (int_ok W HW); fin.
  - st "CBW"%string 290. eapply (byte_ok W HW); [exact F|lia|unfold plain; lia| | |exact V]; [intros g E; unfold dec_op; cbv zeta; rewrite E; reflexivity|intros; constructor].
  - st "CWD"%string 295. eapply (byte_ok W HW); [exact F|lia|unfold plain; lia| | |exact V]; [intros g E; unfold dec_op; cbv zeta; rewrite E; reflexivity|intros; constructor].
  - st "CLC"%string 291. eapply (byte_ok W HW); [exact F|lia|unfold plain; lia| | |exact V]; [intros g E; unfold dec_op; cbv zeta; rewrite E; reflexivity|intros; constructor].
  - st "STC"%string 319. eapply (byte_ok W HW); [exact F|lia|unfold plain; lia| | |exact V]; [intros g E; unfold dec_op; cbv zeta; rewrite E; reflexivity|intros; constructor].
  - st "CLI"%string 292. eapply (byte_ok W HW); [exact F|lia|unfold plain; lia| | |exact V]; [intros g E; unfold dec_op; cbv zeta; rewrite E; reflexivity|intros; constructor].
  - st "STI"%string 320. eapply (byte_ok W HW); [exact F|lia|unfold plain; lia| | |exact V]; [intros g E; unfold dec_op; cbv zeta; rewrite E; reflexivity|intros; constructor].
  - st "RET"%string 314. eapply (byte_ok W HW); [exact F|lia|unfold plain; lia| | |exact V]; [intros g E; unfold dec_op; cbv zeta; rewrite E; reflexivity|intros; constructor].
  - destruct rep; [exfalso; eapply PI; reflexivity|].
    assert (I2 := H). cbn [In] in H.
    repeat (destruct H as [H|H]; [injection H as <- <-|]); [st "MOVSB"%string 306|st "CMPSB"%string 294|st "STOSB"%string 321|st "STOSW"%string 322|st "LODSB"%string 304|contradiction];
      (eapply (byte_ok W HW); [exact F|lia|unfold plain; lia| | |exact V]; [intros g E; unfold dec_op; cbv zeta; rewrite E; reflexivity|intros; apply (SasSpec.me_str W env0 next0 false); exact I2]).
  - st "JMP"%string 302. eapply jmp_ok; fin. eapply wf_val; eassumption.
  - st "JMP"%string 302. eapply jmps_ok; fin. eapply wf_val; eassumption.
  - st "CALL"%string 289. eapply call_ok; fin. eapply wf_val; eassumption.
  - destruct (jcc_names _ _ H) as [B T]. cbn [SasSpec.toks app] in V. eapply (GO n (327 + cc)); [exact V|exact T|lia|apply HI_jcc; exact B|].
    intros s1 V1. eapply jcc_ok; fin. eapply wf_val; eassumption.
Qed.
End One.
End Width.
