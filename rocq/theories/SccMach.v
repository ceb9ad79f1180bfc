(** The machine while the code of a statement runs: the variables, the stack, the frame to return to. *)
From Verif Require Import Base Bits Spec8086 SpecWf SccRun SccState SccEmit SccDecl SccInput SccPut SccArith SccOps SccJump SccMem SccFix SccHold SccFlush SccSem SccBin SccVal SccComp SccWhole SccImg SccStep SccAsn ExprSpec StmtSpec.

(** code from k_lo on, complete in k_ef; one segment; the stack between k_low and k_sp is free; the variables lie at k_at;
    the rest of memory is k_m0; the aim is k_fin *)
Record mach := mkmach {
  k_lo : Z; k_ef : emst; k_sg : sregs; k_bp : Z; k_sp : Z; k_low : Z; k_at : Z -> Z; k_m0 : arr Z; k_fin : state -> Prop }.
Definition k_seg (K : mach) : Z := cs (k_sg K).
Definition kzone (K : mach) (a : Z) : Prop := exists o, k_low K <= o < k_sp K /\ a = phys (k_seg K) o.

Section X.
Variables (X : list Z) (D : nat).
Definition vbyte (K : mach) (a : Z) : Prop := exists x, In x X /\ (a = phys (k_seg K) (k_at K x) \/ a = phys (k_seg K) (k_at K x + 1)).
Record k_ok (d : dcst) (vo : arr Z) (K : mach) : Prop := {
  ko_ss : ss (k_sg K) = k_seg K;
  ko_ds : ds (k_sg K) = k_seg K;
  ko_lo : 256 <= k_lo K;
  ko_low : CodeAddress (k_ef K) <= k_low K;
  ko_room : k_low K + 2 * Z.of_nat D <= k_sp K;
  ko_top : k_sp K + 3 < 65536;
  ko_img : img (k_lo K) (k_ef K) (k_m0 K) (k_seg K);
  ko_out : outside (k_lo K) (k_ef K) (k_fin K);
  ko_at : forall x, In x X -> 0 <= k_at K x /\ k_at K x + 1 < 65536 /\
    (k_at K x + 1 < k_lo K \/ CodeAddress (k_ef K) <= k_at K x /\ k_at K x + 1 < k_low K \/ k_sp K <= k_at K x);
  ko_apart : forall x y, In x X -> In y X -> x <> y -> k_at K x + 1 < k_at K y \/ k_at K y + 1 < k_at K x;
  ko_var : forall x Loc Val, In x X -> int_var d vo x Loc Val ->
    k_at K x = if Loc =? VT_LOCOFF then (k_bp K + Val) mod 65536 else aget vo Val mod 65536 }.
(** no variable is where the stack pointer stands: there are the caller's frame pointer and the return address *)
Definition k_frame (K : mach) : Prop := forall x, In x X -> k_at K x + 1 < k_sp K \/ k_sp K + 4 <= k_at K x.
(** registers and memory hold bytes and words *)
Definition wfr (t : state) : Prop := regs_ok (rg t) /\ sregs_ok (sg t) /\ mem_ok (mem t).
Lemma wf_wfr t : wf t -> wfr t.
Proof. intros (A & B & _ & C). split; [exact A|]. split; [exact B|exact C]. Qed.
Lemma wfr_wf t a : wfr t -> ip t = a -> 0 <= a < 65536 -> wf t.
Proof. intros (A & B & C) <- E. split; [exact A|]. split; [exact B|]. split; [exact E|exact C]. Qed.
(** the variables have the values env *)
Record MRel (K : mach) (env : Z -> Z) (t : state) : Prop := {
  r_wf : wfr t;
  r_sg : sg t = k_sg K;
  r_bp : bp (rg t) = k_bp K;
  r_sp : sp (rg t) = k_sp K;
  r_env : env_ok env;
  r_var : forall x, In x X -> rd16 (mem t) (k_seg K) (k_at K x) = env x mod 65536;
  r_mem : forall a, ~ kzone K a -> ~ vbyte K a -> aget (mem t) a = aget (k_m0 K) a }.
(** the function has returned v *)
Record Ret (K : mach) (env : Z -> Z) (v : Z) (t : state) : Prop := {
  q_wf : wf t;
  q_sg : sg t = k_sg K;
  q_bp : bp (rg t) = rd16 (k_m0 K) (k_seg K) (k_sp K);
  q_sp : sp (rg t) = (k_sp K + 4) mod 65536;
  q_ip : ip t = rd16 (k_m0 K) (k_seg K) (k_sp K + 2);
  q_ax : ax (rg t) = v mod 65536;
  q_var : forall x, In x X -> rd16 (mem t) (k_seg K) (k_at K x) = env x mod 65536;
  q_mem : forall a, ~ kzone K a -> ~ vbyte K a -> aget (mem t) a = aget (k_m0 K) a }.

Lemma rel_move K env r g f m i j : MRel K env (mkst r g i f m) -> MRel K env (mkst r g j f m).
Proof. intros [R1 R2 R3 R4 R5 R6 R7]. cbn [rg sg mem ip] in *. split; auto. Qed.

Section K.
Variables (d : dcst) (vo : arr Z) (K : mach).
Hypothesis KO : k_ok d vo K.
Lemma sp_low : k_low K <= k_sp K.
Proof. pose proof (ko_room _ _ _ KO). lia. Qed.
Lemma not_zone_phys a : 0 <= a < 65536 -> 0 <= k_low K -> ~ (k_low K <= a < k_sp K) -> ~ kzone K (phys (k_seg K) a).
Proof. intros A B N (o & O1 & O2). pose proof (ko_top _ _ _ KO). apply phys_in in O2; lia. Qed.
Lemma not_vbyte a : 0 <= a < 65536 -> (forall x, In x X -> a < k_at K x \/ k_at K x + 1 < a) -> ~ vbyte K (phys (k_seg K) a).
Proof. intros A H (x & I & [E|E]); specialize (H x I); destruct (ko_at _ _ _ KO x I) as (P1 & P2 & _); apply phys_in in E; lia. Qed.
Lemma rel_img env t : MRel K env t -> 0 <= CodeAddress (k_ef K) -> img (k_lo K) (k_ef K) (mem t) (cs (sg t)).
Proof.
  intros R HC a A. rewrite (r_sg _ _ _ R). fold (k_seg K). pose proof (ko_lo _ _ _ KO). pose proof (ko_low _ _ _ KO). pose proof (ko_top _ _ _ KO). pose proof sp_low.
  rewrite <- (ko_img _ _ _ KO a A). unfold rd8. apply (r_mem _ _ _ R).
  - apply not_zone_phys; lia.
  - apply not_vbyte; [lia|]. intros x I. pose proof (ko_at _ _ _ KO x I). lia.
Qed.

(** *** Code that leaves the variables alone *)
Lemma acts_run_pre (vs : list Z) (n : nat) (Pp : state -> Prop) P env e e' Q t : live e -> RegUse e = false -> live e' -> ext e e' -> incl vs X -> (n <= D)%nat ->
  VOff e = vo -> (forall f, frame_ok f -> sees_all f d (VOff e) env vs -> Acts f n e e' Pp Q) ->
  ordered (CodeAddress e) P -> k_lo K <= CodeAddress e -> Match (k_lo K) (k_ef K) e' P -> MRel K env t -> ip t = CodeAddress e -> Pp t ->
  reaches (fun t' => MRel K env t' /\ ip t' = CodeAddress e' /\ Q t') t.
Proof.
  intros L RU L' XT IX DX VO A OR LO M R IP PP.
  pose proof (ko_lo _ _ _ KO) as H1. pose proof (ko_low _ _ _ KO) as H2. pose proof (ko_top _ _ _ KO) as H3. pose proof (ko_room _ _ _ KO) as H4.
  pose proof (match_live _ _ _ _ M (proj1 L')) as HE. pose proof (live_lo _ L) as LL. pose proof (ext_le _ _ XT) as XL.
  set (f := mkframe e' (CodeAddress e) (sg t) (bp (rg t)) (sp (rg t)) (k_low K) (mem t) (LocalOffset e)).
  assert (SEG : f_seg f = k_seg K) by (unfold f_seg, k_seg; cbn [f f_sg]; rewrite (r_sg _ _ _ R); reflexivity).
  assert (ZN : forall a, zone f a <-> kzone K a) by (intro a; unfold zone, kzone; rewrite SEG; cbn [f f_low f_top]; rewrite (r_sp _ _ _ R); tauto).
  assert (FO : frame_ok f).
  { split; [rewrite SEG; cbn [f f_sg]; rewrite (r_sg _ _ _ R); apply (ko_ss _ _ _ KO)|]. split; [rewrite SEG; cbn [f f_sg]; rewrite (r_sg _ _ _ R); apply (ko_ds _ _ _ KO)|].
    cbn [f f_lo f_fin f_low f_top]. rewrite (r_sp _ _ _ R). split; [lia|]. split; [lia|]. split; [lia|]. split; [lia|].
    intros a Aa. destruct (match_new _ _ _ _ _ OR LO M a Aa) as [B1 B2]. cbn [f f_mem]. change (aget (Output e') (a - CODESTART)) with (byte e' a). rewrite <- B2.
    unfold f_seg. cbn [f f_sg]. apply (rel_img env t R); lia. }
  assert (SA : sees_all f d (VOff e) env vs).
  { intros x I Loc Val IV. rewrite VO in IV |- *. pose proof (ko_var _ _ _ KO x Loc Val (IX x I) IV) as EQ. destruct (ko_at _ _ _ KO x (IX x I)) as (P1 & P2 & P3).
    assert (VA : vaddr f vo Loc Val = k_at K x) by (unfold vaddr; cbn [f f_bp]; rewrite (r_bp _ _ _ R); symmetry; exact EQ).
    cbv zeta. rewrite VA, SEG. split; [|split].
    - rewrite ZN. apply not_zone_phys; lia.
    - rewrite ZN. apply not_zone_phys; lia.
    - cbn [f f_mem]. rewrite (r_var _ _ _ R x (IX x I)). symmetry. apply signed_int. apply (r_env _ _ _ R). }
  assert (SP : space f [] n) by (unfold space; cbn [f f_low f_top length]; rewrite (r_sp _ _ _ R); lia).
  assert (HO : hold f e [] t).
  { exists []. rewrite (proj1 (proj2 L)), RU. split; [reflexivity|]. split; [|cbn [f f_off length]; lia]. split; [cbn [f f_top length]; lia|]. intros k Hk. cbn [length] in Hk. lia. }
  assert (WFT : wf t) by (apply (wfr_wf t _ (r_wf _ _ _ R) IP); lia).
  assert (IV : inv f t) by (split; [exact WFT|]; split; [reflexivity|]; split; reflexivity).
  pose proof (A f FO SA (Z.le_refl _) (ext_refl e') [] SP t IV IP (conj HO PP)) as RC.
  eapply reaches_imp; [exact RC|]. cbv beta. intros t' ((Wt' & SG & BP & ME) & IP' & HO' & QT). split; [|split; [exact IP'|exact QT]].
  cbn [f f_sg f_bp] in SG, BP. split.
  - exact (wf_wfr _ Wt').
  - rewrite SG. apply R.
  - rewrite BP. apply R.
  - destruct HO' as (l & EL & S1 & _). rewrite (proj1 (proj2 L')) in EL, S1. change (0 =? -8) with false in S1. cbv iota in S1. destruct S1 as [S1 _]. change (0 =? 0) with true in EL. cbv iota in EL. cbn [Datatypes.app] in EL.
    assert (l = []) by (destruct (RegUse e'); [discriminate EL|symmetry; exact EL]). subst l. rewrite S1. cbn [f f_top length]. rewrite (r_sp _ _ _ R). lia.
  - apply R.
  - intros x I. rewrite <- (r_var _ _ _ R x I). destruct (ko_at _ _ _ KO x I) as (P1 & P2 & P3).
    apply rd16_frame; apply ME; rewrite ZN; apply not_zone_phys; lia.
  - intros a N1 N2. rewrite <- (r_mem _ _ _ R a N1 N2). apply ME. rewrite ZN. exact N1.
Qed.

Lemma acts_run ex P env e e' Q t : live e -> RegUse e = false -> live e' -> ext e e' -> incl (vars ex) X -> (depth ex <= D)%nat ->
  VOff e = vo -> (forall f, frame_ok f -> sees_all f d (VOff e) env (vars ex) -> Acts f (depth ex) e e' (fun _ => True) Q) ->
  ordered (CodeAddress e) P -> k_lo K <= CodeAddress e -> Match (k_lo K) (k_ef K) e' P -> MRel K env t -> ip t = CodeAddress e ->
  reaches (fun t' => MRel K env t' /\ ip t' = CodeAddress e' /\ Q t') t.
Proof. intros L RU L' XT IX DX VO A OR LO M R IP. exact (acts_run_pre (vars ex) (depth ex) (fun _ => True) P env e e' Q t L RU L' XT IX DX VO A OR LO M R IP I). Qed.

(** a variable in memory has its value *)
Lemma var_has x Loc Val env e t : VOff e = vo -> In x X -> int_var d vo x Loc Val -> MRel K env t -> var_get e 2 Loc Val t = env x mod 65536.
Proof.
  intros VO I IV R. rewrite <- (r_var _ _ _ R x I). rewrite (ko_var _ _ _ KO x Loc Val I IV).
  unfold var_get. change (2 =? 2) with true. cbv iota. unfold var_seg, var_off. rewrite VO, (r_sg _ _ _ R), (r_bp _ _ _ R), (ko_ss _ _ _ KO), (ko_ds _ _ _ KO).
  destruct (Loc =? VT_LOCOFF); reflexivity.
Qed.

(** *** Code that stores into a variable *)
Lemma store_run x Loc Val P env e bs w u t : live e -> live (put bs e) -> VOff e = vo -> In x X -> int_var d vo x Loc Val -> int_range w ->
  does e (put bs e) (fun t t' => stores e 2 Loc Val (u t) t t') -> u t = w mod 65536 ->
  ordered (CodeAddress e) P -> k_lo K <= CodeAddress e -> Match (k_lo K) (k_ef K) (put bs e) P -> MRel K env t -> ip t = CodeAddress e ->
  reaches (fun t' => MRel K (assign env x w) t' /\ ip t' = CodeAddress (put bs e)) t.
Proof.
  intros L L' VO I IV IR DO U OR LO M R IP.
  pose proof (ko_lo _ _ _ KO) as H1. pose proof (ko_low _ _ _ KO) as H2. pose proof (ko_top _ _ _ KO) as H3. pose proof sp_low as H4.
  pose proof (match_live _ _ _ _ M (proj1 L')) as HE. pose proof (live_lo _ L) as LL.
  assert (LD : SccPut.loaded e (put bs e) (mem t) (cs (sg t))).
  { intros a A. destruct (match_new _ _ _ _ _ OR LO M a A) as [B1 B2]. change (aget (Output (put bs e)) (a - CODESTART)) with (byte (put bs e) a). rewrite <- B2.
    apply (rel_img env t R); [|lia]. rewrite put_addr in HE. lia. }
  assert (WFT : wf t) by (apply (wfr_wf t _ (r_wf _ _ _ R) IP); rewrite put_addr in HE; lia).
  pose proof (reaches_wf _ _ WFT (DO t WFT IP LD Logic.I)) as RC.
  eapply reaches_imp; [exact RC|]. cbv beta. intros t' (Wt & IP' & ME & RG & SG). split; [|exact IP'].
  destruct (ko_at _ _ _ KO x I) as (P1 & P2 & P3). pose proof (ko_var _ _ _ KO x Loc Val I IV) as EQ.
  assert (MW : mem t' = wr16 (mem t) (k_seg K) (k_at K x) (w mod 65536)).
  { rewrite ME, U. unfold var_set. change (2 =? 2) with true. cbv iota. unfold var_seg, var_off. rewrite VO, (r_sg _ _ _ R), (r_bp _ _ _ R), <- EQ, (ko_ss _ _ _ KO), (ko_ds _ _ _ KO).
    destruct (Loc =? VT_LOCOFF); reflexivity. }
  assert (WR : 0 <= w mod 65536 < 65536) by (apply Z.mod_pos_bound; lia).
  split.
  - exact (wf_wfr _ Wt).
  - rewrite SG. apply R.
  - rewrite RG. apply R.
  - rewrite RG. apply R.
  - intro y. unfold assign. destruct (y =? x); [exact IR|apply (r_env _ _ _ R)].
  - intros y Iy. rewrite MW. unfold assign. destruct (Z.eqb_spec y x) as [->|N].
    + apply rd16_wr16_same; auto; lia.
    + rewrite <- (r_var _ _ _ R y Iy). destruct (ko_at _ _ _ KO y Iy) as (Q1 & Q2 & _). pose proof (ko_apart _ _ _ KO y x Iy I N) as AP.
      apply rd16_frame; rewrite aget_wr16 by exact WR;
      repeat match goal with |- context [?a =? ?b] => let E := fresh in destruct (Z.eqb_spec a b) as [E|_]; [apply phys_in in E; lia|] end; reflexivity.
  - intros a N1 N2. rewrite MW, aget_wr16 by exact WR. rewrite <- (r_mem _ _ _ R a N1 N2).
    destruct (Z.eqb_spec (phys (k_seg K) (k_at K x + 1)) a) as [E|_]; [exfalso; apply N2; exists x; auto|].
    destruct (Z.eqb_spec (phys (k_seg K) (k_at K x)) a) as [E|_]; [exfalso; apply N2; exists x; auto|]. reflexivity.
Qed.

(** *** POP BP; RET *)
Lemma ret_run P env e e' v t : k_frame K -> live e -> live (put [93; 195] e) -> Output e' = Output (put [93; 195] e) -> CodeAddress e' = CodeAddress (put [93; 195] e) ->
  ordered (CodeAddress e) P -> k_lo K <= CodeAddress e -> Match (k_lo K) (k_ef K) e' P -> MRel K env t -> ip t = CodeAddress e -> ax (rg t) = v mod 65536 ->
  reaches (Ret K env v) t.
Proof.
  intros FR L L' OU CA OR LO M R IP AX.
  pose proof (ko_lo _ _ _ KO) as H1. pose proof (ko_low _ _ _ KO) as H2. pose proof (ko_top _ _ _ KO) as H3. pose proof sp_low as H4. pose proof (live_lo _ L) as LL.
  assert (HE : CodeAddress e + 2 <= CodeAddress (k_ef K)).
  { assert (A : CodeAddress e <= CodeAddress e + 1 < CodeAddress e') by (rewrite CA, put_addr; cbn [length]; lia). destruct (match_new _ _ _ _ _ OR LO M _ A). lia. }
  assert (CD : code (mem t) (cs (sg t)) (CodeAddress e) [93; 195]).
  { exact (put_loaded _ _ e e' P [93; 195] _ _ OR LO M OU CA (rel_img env t R ltac:(lia))). }
  assert (S2 : forall k, 0 <= k <= 2 -> rd16 (mem t) (k_seg K) (k_sp K + k) = rd16 (k_m0 K) (k_seg K) (k_sp K + k)).
  { intros k Hk. apply rd16_frame; apply (r_mem _ _ _ R); [apply not_zone_phys; lia| |apply not_zone_phys; lia|]; (apply not_vbyte; [lia|]; intros x I; pose proof (FR x I); lia). }
  apply (reaches_imp (fun t' => wf t' /\ (sg t' = sg t /\ bp (rg t') = rd16 (mem t) (k_seg K) (k_sp K) /\ sp (rg t') = (k_sp K + 4) mod 65536 /\ ip t' = rd16 (mem t) (k_seg K) (k_sp K + 2) /\ ax (rg t') = ax (rg t) /\ mem t' = mem t))).
  - assert (Wt : wf t) by (apply (wfr_wf t _ (r_wf _ _ _ R) IP); lia). apply reaches_wf; [exact Wt|]. pose proof (r_sg _ _ _ R) as SG. pose proof (r_sp _ _ _ R) as SP. pose proof (ko_ss _ _ _ KO) as SS.
    pose proof (live_room _ _ L') as LR. cbn [length] in LR. destruct t as [r g i f m]. cbn [rg sg ip fl mem] in *. subst i g. destruct Wt as (W1 & W2 & W3 & W4). cbn [rg sg ip fl mem] in *.
    assert (C2 : code m (cs (k_sg K)) (CodeAddress e) [93] /\ code m (cs (k_sg K)) (CodeAddress e + 1) [195]) by (apply (code_app m (cs (k_sg K)) (CodeAddress e) [93] [195]); exact CD).
    destruct C2 as [C1 C2]. eapply (reach_code _ [93] (IPop 5) 1 (fun _ => _)); auto; try lia.
    { intro. cbn [exec pop]. unfold pop, set_reg, set_rg. cbn [rg sg ip fl mem]. reflexivity. }
    intro. eapply (reach_code _ [195] IRet 1 (fun _ => _)); auto; try lia.
    { intro. reflexivity. }
    intro. apply reach_now. cbn [rg sg ip fl mem]. rewrite SS, !SP. rewrite (Z.mod_small (k_sp K + 2)) by lia.
    unfold set_ip, set_reg, set_rg. cbn [rg sg ip fl mem rset sp bp ax].
    split; [reflexivity|]. split; [reflexivity|]. split; [f_equal; lia|]. split; [|split; reflexivity]. apply Z.mod_small. apply rd16_ok. exact W4.
  - cbv beta. intros t' (Wt & SG & BP & SP & IP' & AX' & ME). split.
    + exact Wt.
    + rewrite SG. apply R.
    + rewrite BP. pose proof (S2 0 ltac:(lia)) as Q. rewrite Z.add_0_r in Q. exact Q.
    + exact SP.
    + rewrite IP'. apply S2. lia.
    + congruence.
    + intros x I. rewrite ME. apply (r_var _ _ _ R). exact I.
    + intros a N1 N2. rewrite ME. apply (r_mem _ _ _ R); assumption.
Qed.
End K.
End X.
