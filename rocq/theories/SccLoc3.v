(** The end of a function with local variables. *)
From Verif Require Import Base Bits Spec8086 SpecWf SccRun SccState SccEmit SccLex SccDecl SccExpr SccStmt SccInput SccPut SccArith SccOps SccJump SccMem SccFix SccHold SccFlush SccSem SccBin SccVal SccComp SccBody SccParse SccWhole SccImg SccStep SccAsn SccMach SccPiece SccStm SccProg SccHead ExprSpec StmtSpec Props_SccStmt SccFun SccLoc SccLoc2.
From Verif Require SccArgs.

Section W.
Variables (W : Z) (F : nat).
Hypothesis HW : 16 <= W.

(** ** Taking the local variables off the stack *)
Lemma put2 b0 b1 e x e' : live e -> (putb b0 ;; putb b1) e = Ok (x, e') -> e' = put [b0; b1] e /\ live e'.
Proof. intros L H. apply (out2 W b0 b1 e x e' L). unfold Output2Bytes, Output2Bytes_. rewrite guarded_live by exact L. exact H. Qed.
Lemma put3 b0 b1 b2 e x e' : live e -> (putb b0 ;; putb b1 ;; putb b2) e = Ok (x, e') -> e' = put [b0; b1; b2] e /\ live e'.
Proof. intros L H. apply (out3 W b0 b1 b2 e x e' L). unfold Output3Bytes, Output3Bytes_. rewrite guarded_live by exact L. exact H. Qed.
Lemma put1' b e x e' : live e -> putb b e = Ok (x, e') -> e' = put [b] e /\ live e'.
Proof. intros L H. apply (out1 W b e x e' L). unfold Output1Byte, Output1Byte_. rewrite guarded_live by exact L. exact H. Qed.
Lemma add_sp chk c e x e' : 0 < c -> c < 2 ^ (W - 1) -> live e -> EmitAddRegConst_ W chk R_SP c e = Ok (x, e') -> e' = put (add_code 4 c) e /\ live e'.
Proof.
  intros C1 C2 L H. pose proof (pow_ge W HW) as PW. unfold EmitAddRegConst_ in H. change R_SP with 4 in H.
  rewrite (proj2 (Z.eqb_neq c 0)) in H by lia. replace (c <? 0) with false in H by (symmetry; apply Z.ltb_ge; lia). cbv zeta iota in H.
  unfold add_code. replace (c <? 0) with false by (symmetry; apply Z.ltb_ge; lia). cbv zeta iota. replace (Z.abs c) with c by lia. rewrite (proj2 (Z.eqb_neq c 0)) by lia.
  destruct (Z.leb_spec c 2).
  - unfold Output1Byte_ in H. minv H y e1 E. rewrite guarded_live in E by exact L. apply put1' in E; [|exact L]. destruct E as [-> L1]. rewrite ci_small in H by lia.
    assert (c = 1 \/ c = 2) as [-> | ->] by lia.
    + oki H. split; [reflexivity|exact L1].
    + change (negb (2 - 1 =? 0)) with true in H. cbn [when] in H. rewrite guarded_live in H by exact L1. apply put1' in H; [|exact L1]. destruct H as [-> L2]. split; [reflexivity|exact L2].
  - destruct (Z.ltb_spec c 128).
    + unfold Output3Bytes_ in H. rewrite guarded_live in H by exact L. apply put3 in H; [|exact L]. destruct H as [-> L1]. split; [reflexivity|exact L1].
    + change (4 =? 0) with false in H. cbv iota in H. unfold Output2Bytes_, OutputWord_ in H. minv H y e1 E. rewrite guarded_live in E by exact L. apply put2 in E; [|exact L]. destruct E as [-> L1].
      rewrite guarded_live in H by exact L1. apply put2 in H; [|exact L1]. destruct H as [-> L2]. split; [|exact L2]. change (4 =? 0) with false. cbv iota. rewrite put_app. reflexivity.
Qed.
Lemma add_hd c : 0 < c -> hd_ok (add_code 4 c).
Proof.
  intro C. unfold add_code. replace (c <? 0) with false by (symmetry; apply Z.ltb_ge; lia). cbv zeta iota. replace (Z.abs c) with c by lia. rewrite (proj2 (Z.eqb_neq c 0)) by lia.
  destruct (Z.leb_spec c 2); [assert (c = 1 \/ c = 2) as [-> | ->] by lia; split; intro Q; vm_compute in Q; discriminate Q|].
  destruct (c <? 128); split; intro Q; vm_compute in Q; discriminate Q.
Qed.
(** postponed: p bytes come off the stack *)
Definition settled (p : Z) (e e1 : emst) : Prop :=
  if IsDeadCode e then e1 = set_Pending 0 e else e1 = put (add_code 4 p) (set_Pending 0 e) /\ live (set_Pending 0 e) /\ live e1.
Lemma even_has p : 0 < p -> Z.even p = true -> hasb p (-2) = true /\ clr p 1 = p /\ Z.land p 1 = 0.
Proof.
  intros P E. assert (L : Z.land p 1 = 0).
  { change 1 with (Z.ones 1). rewrite Z.land_ones by lia. change (2 ^ 1) with 2. rewrite Zmod_even, E. reflexivity. }
  assert (C : clr p 1 = p).
  { unfold clr. apply Z.bits_inj'. intros i I. rewrite Z.ldiff_spec. destruct (Z.eq_dec i 0) as [->|N].
    - rewrite Z.bit0_odd, <- Z.negb_even, E. reflexivity.
    - replace (Z.testbit 1 i) with false by (symmetry; apply Z.bits_above_log2; cbn; lia). apply andb_true_r. }
  split; [|split; assumption]. unfold hasb. apply negb_true_iff, Z.eqb_neq.
  replace (-2) with (Z.lnot 1) by reflexivity. rewrite <- Z.ldiff_land. change (clr p 1 <> 0). rewrite C. lia.
Qed.
Lemma dead_add n r c e x e' : 0 < c -> IsDeadCode e = true -> EmitAddRegConst_ W (EmitChecks_n W (S n)) r c e = Ok (x, e') -> e' = e.
Proof.
  intros C D H. assert (G : forall m y e1, guarded (EmitChecks_n W (S n)) m e = Ok (y, e1) -> e1 = e).
  { intros m y e1 Q. unfold guarded in Q. mgoin Q. rewrite D in Q. cbn [orb] in Q. cbn [EmitChecks_n] in Q. mgoin Q. rewrite D in Q. mgoin Q. oki Q. reflexivity. }
  unfold EmitAddRegConst_ in H. rewrite (proj2 (Z.eqb_neq c 0)) in H by lia. replace (c <? 0) with false in H by (symmetry; apply Z.ltb_ge; lia). cbv zeta iota in H.
  unfold Output1Byte_, Output2Bytes_, Output3Bytes_, OutputWord_ in H.
  destruct (c <=? 2); [|destruct (c <? 128)].
  - minv H y e1 E. apply G in E. subst e1. destruct (negb _); cbn [when] in H; [exact (G _ _ _ H)|]. oki H. reflexivity.
  - exact (G _ _ _ H).
  - minv H y e1 E. assert (e1 = e) by (destruct (r =? 0); exact (G _ _ _ E)). subst e1. exact (G _ _ _ H).
Qed.
Lemma flush_any n p e x e' : 0 < p -> Z.even p = true -> p < 2 ^ (W - 1) -> Pending e = p -> room e 0 -> FlushSpAdj_ W (EmitChecks_n W (S n)) e = Ok (x, e') -> settled p e e'.
Proof.
  intros P0 P1 P2 PE R H. destruct (even_has p P0 P1) as (E1 & E2 & E3). unfold FlushSpAdj_ in H. mgoin H. rewrite PE, E1 in H. cbn [when] in H. mgoin H. rewrite E2 in H. minv H y e1 E. rewrite E3 in H. oki H.
  unfold settled. destruct (IsDeadCode e) eqn:DE.
  - apply dead_add in E; [|exact P0|exact DE]. subst e1. reflexivity.
  - assert (L : live (set_Pending 0 e)) by (split; [exact DE|split; [reflexivity|exact R]]). apply add_sp in E; [|exact P0|exact P2|exact L]. destruct E as [-> L1].
    assert (Q : set_Pending 0 (put (add_code 4 p) (set_Pending 0 e)) = put (add_code 4 p) (set_Pending 0 e)).
    { destruct L1 as (_ & Q & _). rewrite <- Q at 1. destruct (put _ _); reflexivity. }
    rewrite Q. auto.
Qed.
(** a label after it *)
Lemma label_flush l e x e' : EmitLocalLabel W l e = Ok (x, e') -> exists e1, FlushSpAdj W e = Ok (tt, e1) /\
  (Pending e1 = 0 -> LAddr e1 = LAddr e -> LocalLabelCounter e1 = LocalLabelCounter e -> EmitLocalLabel W l e1 = Ok (x, e')).
Proof.
  intro H. unfold EmitLocalLabel in H. mgoin H. minv H y e0 E. unfold failif in E. destruct (_ || _) eqn:OR; [discriminate E|]. oki E.
  minv H z e1 E1. destruct z. exists e1. split; [exact E1|]. intros P A C. unfold EmitLocalLabel. mgo. rewrite A, C, OR. unfold failif. mgo.
  unfold FlushSpAdj, FlushSpAdj_. mgo. rewrite P. change (hasb 0 (-2)) with false. cbn [when]. mgo. mgoin H. exact H.
Qed.
(** two bytes after it *)
Lemma out2_flush p b0 b1 e x e' : 0 < p -> Z.even p = true -> p < 2 ^ (W - 1) -> IsDeadCode e = false -> Pending e = p -> room e 0 -> Output2Bytes W b0 b1 e = Ok (x, e') ->
  let e1 := put (add_code 4 p) (set_Pending 0 e) in live (set_Pending 0 e) /\ live e1 /\ e' = put [b0; b1] e1 /\ live e'.
Proof.
  intros P0 P1 P2 DE PE R H. unfold Output2Bytes, Output2Bytes_, guarded in H. mgoin H. rewrite DE, PE in H. rewrite (proj2 (Z.eqb_neq p 0)) in H by lia. cbn [orb negb] in H.
  minv H r e0 E. unfold EmitChecks in E. set (n := 1%nat) in E. change 2%nat with (S n) in E. cbn [EmitChecks_n] in E. unfold n in E. mgoin E. rewrite DE in E. mgoin E. rewrite PE in E. rewrite (proj2 (Z.eqb_neq p 0)) in E by lia. cbn [negb when] in E. mgoin E.
  minv E y e1 E1. apply (flush_any 0 p) in E1; auto. unfold settled in E1. rewrite DE in E1. destruct E1 as (-> & L0 & L1).
  cbv zeta. split; [exact L0|]. split; [exact L1|]. minv E z e2 E2. unfold FlushPushAx_ in E2. mgoin E2. rewrite (proj1 (proj2 L1)) in E2. change (hasb 0 1) with false in E2. cbn [when] in E2. oki E2.
  mgoin E. minv E w e3 E3. unfold failif in E3. destruct (_ <? _); [discriminate E3|]. oki E3. oki E. apply put2 in H; [exact H|exact L1].
Qed.

(** ** Leaving the function *)
Definition outer (V : list Z) (ds : list ldecl) : list Z := filter (fun x => negb (existsb (Z.eqb x) (map fst ds))) V.
Lemma in_outer V (ds : list ldecl) x : In x (outer V ds) <-> In x V /\ ~ In x (map fst ds).
Proof.
  unfold outer. rewrite filter_In, negb_true_iff. split; intros [A B]; split; auto.
  - intro I. assert (existsb (Z.eqb x) (map fst ds) = true) by (apply existsb_exists; exists x; rewrite Z.eqb_refl; auto). congruence.
  - destruct (existsb _ _) eqn:E; [|reflexivity]. apply existsb_exists in E. destruct E as (y & I & E). apply Z.eqb_eq in E. subst y. contradiction.
Qed.
Lemma in_seen (ds : list ldecl) : forall V x, In x (seen V ds) <-> In x V \/ In x (map fst ds).
Proof. induction ds as [|[y e] r IH]; intros V x; cbn [seen map In fst]; [tauto|]. rewrite IH. cbn [In]. tauto. Qed.
Lemma dplace_out (ds : list ldecl) : forall at_ sp x, ~ In x (map fst ds) -> dplace at_ sp ds x = at_ x.
Proof. induction ds as [|[y e] r IH]; intros at_ sp x N; cbn [dplace map In fst] in *; [reflexivity|]. rewrite IH by tauto. unfold assign. destruct (Z.eqb_spec x y); [exfalso; apply N; auto|reflexivity]. Qed.
Lemma dplace_in (ds : list ldecl) : forall at_ sp x, In x (map fst ds) -> sp - 2 * Z.of_nat (List.length ds) <= dplace at_ sp ds x <= sp - 2.
Proof.
  induction ds as [|[y e] r IH]; intros at_ sp x I; [destruct I|]. cbn [dplace List.length]. rewrite Nat2Z.inj_succ.
  destruct (in_dec Z.eq_dec x (map fst r)) as [J|N]; [specialize (IH (assign at_ y (sp - 2)) (sp - 2) x J); lia|].
  rewrite (dplace_out r _ _ _ N). destruct I as [I|I]; [|contradiction]. cbn [fst] in I. unfold assign. rewrite I, Z.eqb_refl. lia.
Qed.
Lemma epi_rel u V (ds : list ldecl) at_ env1 env' t1 t r i f : let sp' := u_bp u - 2 * Z.of_nat (List.length ds) in let at' := dplace at_ (u_bp u) ds in
  u_low u <= sp' -> LRel u (seen V ds) at' sp' env1 t1 -> MRel (seen V ds) (kof u at' sp' (mem t1)) env' t ->
  regs_ok r -> bp r = u_bp u -> Spec8086.sp r = u_bp u -> MRel (outer V ds) (kof u at_ (u_bp u) (u_m0 u)) env' (mkst r (sg t) i f (mem t)).
Proof.
  intros sp' at' LW LR MR RO BP SP. destruct (r_wf _ _ _ _ MR) as (_ & W2 & W3). split; unfold kof, k_seg; cbn [rg sg mem k_sg k_bp k_sp k_at k_m0].
  - split; [exact RO|]. split; [exact W2|exact W3].
  - exact (r_sg _ _ _ _ MR).
  - exact BP.
  - exact SP.
  - exact (r_env _ _ _ _ MR).
  - intros x I. apply in_outer in I. destruct I as [I N]. pose proof (r_var _ _ _ _ MR x (proj2 (in_seen ds V x) (or_introl I))) as Q. unfold kof, k_seg in Q. cbn [k_sg k_at] in Q. unfold at' in Q. rewrite (dplace_out _ _ _ _ N) in Q. exact Q.
  - intros a NZ NV.
    assert (FZ : fzone u a -> False) by (intros (o & O1 & O2); apply NZ; exists o; cbn [k_low k_sp k_seg k_sg]; auto).
    rewrite <- (lr_mem _ _ _ _ _ _ LR a FZ). apply (r_mem _ _ _ _ MR).
    + intros (o & O1 & O2). cbn [kof k_low k_sp] in O1. apply FZ. exists o. split; [unfold sp' in O1; lia|exact O2].
    + intros (x & I & E). unfold kof, k_seg in E. cbn [k_sg k_at] in E. destruct (in_dec Z.eq_dec x (map fst ds)) as [J|N].
      * pose proof (dplace_in ds at_ (u_bp u) x J) as Q. fold at' in Q. unfold sp' in LW. apply FZ. destruct E as [E|E]; [exists (at' x)|exists (at' x + 1)]; (split; [lia|exact E]).
      * apply in_seen in I. destruct I as [I|I]; [|contradiction]. unfold at' in E. rewrite (dplace_out _ _ _ _ N) in E. apply NV. exists x. split; [apply in_outer; auto|exact E].
Qed.
Lemma outer_ok u V (ds : list ldecl) d vo at_ : run_ok u -> LAt u V d vo at_ (u_bp u) -> u_low u <= u_bp u -> k_ok (outer V ds) 0 d vo (kof u at_ (u_bp u) (u_m0 u)).
Proof.
  intros [] [] LW. split; unfold kof, k_seg; cbn [k_lo k_ef k_sg k_bp k_sp k_low k_at k_m0 k_fin]; auto; try lia.
  - intros x I. apply in_outer in I. apply la_at. apply I.
  - intros x y I J. apply in_outer in I, J. apply la_apart; tauto.
  - intros x Loc Val I. apply in_outer in I. apply la_var. apply I.
Qed.
(** the code that takes the variables off, at a *)
Lemma off_run u V (ds : list ldecl) at_ env1 env' t1 t a P : let sp' := u_bp u - 2 * Z.of_nat (List.length ds) in let at' := dplace at_ (u_bp u) ds in let c := 2 * Z.of_nat (List.length ds) in
  run_ok u -> u_low u <= sp' -> LRel u (seen V ds) at' sp' env1 t1 -> MRel (seen V ds) (kof u at' sp' (mem t1)) env' t -> ip t = a -> 0 <= a -> a + Z.of_nat (List.length (add_code 4 c)) < 65536 ->
  code (mem t) (cs (sg t)) a (map u8 (add_code 4 c)) ->
  (forall t', MRel (outer V ds) (kof u at_ (u_bp u) (u_m0 u)) env' t' -> mem t' = mem t -> sg t' = sg t -> bp (rg t') = bp (rg t) -> ip t' = a + Z.of_nat (List.length (add_code 4 c)) -> ax (rg t') = ax (rg t) -> reaches P t') -> reaches P t.
Proof.
  intros sp' at' c UO LW LR MR IP A1 A2 CD G. pose proof (r_wf _ _ _ _ MR) as (W1 & W2 & W3). destruct t as [r g i f m]. cbn [rg sg ip mem] in *. subst i.
  eapply reaches_trans; [apply (add_runs 4 c ltac:(lia) g m a r f CD A1 A2 W1)|]. cbv beta. intros t' (IP' & Q1 & Q2 & Q3). cbn [rg sg mem] in *.
  pose proof (r_sp _ _ _ _ MR) as SP. pose proof (r_bp _ _ _ _ MR) as BP. cbn [rg kof k_sp k_bp] in SP, BP. pose proof (uo_top _ UO). pose proof (uo_low _ UO). pose proof (uo_nn _ UO).
  assert (RG : rg t' = mkregs (ax r) (cx r) (dx r) (bx r) (u_bp u) (bp r) (si r) (di r)).
  { rewrite Q1. destruct r. cbn [rset rget Spec8086.sp] in *. unfold c. rewrite SP. f_equal. rewrite Z.mod_small; unfold sp' in *; lia. }
  apply G; auto; try (rewrite RG; reflexivity). destruct t' as [r' g' i' f' m']. cbn [rg sg ip mem] in *. subst g' m'.
  apply (epi_rel u V ds at_ env1 env' t1 (mkst r g a f m) r' i' f' LW LR MR); rewrite RG; [|exact BP|reflexivity].
  rewrite <- RG, Q1. apply rset_ok; [exact W1|]. apply Z.mod_pos_bound. lia.
Qed.
(** MOV SP,BP *)
Lemma mov_run u V (ds : list ldecl) at_ env1 env' t1 t a P : let sp' := u_bp u - 2 * Z.of_nat (List.length ds) in let at' := dplace at_ (u_bp u) ds in
  run_ok u -> u_low u <= sp' -> LRel u (seen V ds) at' sp' env1 t1 -> MRel (seen V ds) (kof u at' sp' (mem t1)) env' t -> ip t = a -> 0 <= a -> a + 2 < 65536 ->
  code (mem t) (cs (sg t)) a [137; 236] ->
  (forall t', MRel (outer V ds) (kof u at_ (u_bp u) (u_m0 u)) env' t' -> ip t' = a + 2 -> ax (rg t') = ax (rg t) -> reaches P t') -> reaches P t.
Proof.
  intros sp' at' UO LW LR MR IP A1 A2 CD G. pose proof (r_wf _ _ _ _ MR) as (W1 & W2 & W3). destruct t as [r g i f m]. cbn [rg sg ip mem] in *. subst i.
  pose proof (r_bp _ _ _ _ MR) as BP. cbn [rg kof k_bp] in BP.
  eapply (reach_code _ [137; 236] (IMov true (Reg 4) (Reg 5)) 2 (fun _ => _)); auto; try lia.
  { intro. cbn [exec get_op put_op]. unfold set_reg, set_rg. cbn [rg sg ip fl mem]. reflexivity. }
  intro. apply G; [|reflexivity|destruct r; reflexivity].
  apply (epi_rel u V ds at_ env1 env' t1 (mkst r g a f m) _ _ f LW LR MR).
  - apply rset_ok; [exact W1|]. exact (proj1 (proj2 (proj2 (proj2 (proj2 (proj2 W1)))))).
  - destruct r; exact BP.
  - destruct r; exact BP.
Qed.
(** the same with the variables already off *)
Lemma mov_again X K env t a P : k_sp K = k_bp K -> MRel X K env t -> ip t = a -> 0 <= a -> a + 2 < 65536 -> code (mem t) (cs (sg t)) a [137; 236] ->
  (forall t', MRel X K env t' -> ip t' = a + 2 -> ax (rg t') = ax (rg t) -> reaches P t') -> reaches P t.
Proof.
  intros SB MR IP A1 A2 CD G. destruct MR as [R1 R2 R3 R4 R5 R6 R7]. destruct t as [r g i f m]. cbn [rg sg ip mem] in *. subst i.
  eapply (reach_code _ [137; 236] (IMov true (Reg 4) (Reg 5)) 2 (fun _ => _)); auto; try lia.
  { intro. cbn [exec get_op put_op]. unfold set_reg, set_rg. cbn [rg sg ip fl mem]. reflexivity. }
  intro. apply G; [|reflexivity|destruct r; reflexivity]. destruct R1 as (Q1 & Q2 & Q3). cbn [rg sg mem] in *. split; cbn [rg sg mem]; auto.
  - split; [|split; assumption]. cbn [rg]. apply rset_ok; [exact Q1|]. exact (proj1 (proj2 (proj2 (proj2 (proj2 (proj2 Q1)))))).
  - rewrite SB, <- R3. destruct r; reflexivity.
Qed.

(** from a on the function with the local variables ds is left *)
Definition Leave (ef : emst) (lo : Z) (V : list Z) (ds : list ldecl) (a : Z) : Prop :=
  forall u at_ d0 vo0 d vo D env1 env' t1 t v, let sp' := u_bp u - 2 * Z.of_nat (List.length ds) in let at' := dplace at_ (u_bp u) ds in
  u_ef u = ef -> u_lo u = lo -> run_ok u -> LAt u V d0 vo0 at_ (u_bp u) -> (forall x, In x V -> at_ x + 1 < u_bp u \/ u_bp u + 4 <= at_ x) -> u_low u <= sp' ->
  LRel u (seen V ds) at' sp' env1 t1 -> k_ok (seen V ds) D d vo (kof u at' sp' (mem t1)) -> MRel (seen V ds) (kof u at' sp' (mem t1)) env' t -> ip t = a -> ax (rg t) = v mod 65536 ->
  (forall t', Ret (outer V ds) (kof u at_ (u_bp u) (u_m0 u)) env' v t' -> reaches (u_fin u) t') -> reaches (u_fin u) t.
(** POP BP; RET *)
Lemma leave_ret V ds u at_ d0 vo0 e6 ef env' t v : u_ef u = ef -> run_ok u -> LAt u V d0 vo0 at_ (u_bp u) -> (forall x, In x V -> at_ x + 1 < u_bp u \/ u_bp u + 4 <= at_ x) -> u_low u <= u_bp u ->
  Book ef [] -> live e6 -> ef = put [93; 195] e6 -> live ef -> u_lo u <= CodeAddress e6 -> MRel (outer V ds) (kof u at_ (u_bp u) (u_m0 u)) env' t -> ip t = CodeAddress e6 -> ax (rg t) = v mod 65536 ->
  (forall t', Ret (outer V ds) (kof u at_ (u_bp u) (u_m0 u)) env' v t' -> reaches (u_fin u) t') -> reaches (u_fin u) t.
Proof.
  intros UE UO LA FRM LW BF L6 EF LF LO MR IP AX FN. pose proof (outer_ok u V ds d0 vo0 at_ UO LA LW) as KO.
  eapply reaches_trans; [|exact FN]. apply (ret_run (outer V ds) 0 d0 vo0 _ KO [] env' e6 ef v t); auto; try (rewrite EF; reflexivity).
  - intros x I. apply in_outer in I. cbn [kof k_at k_sp]. apply FRM. apply I.
  - rewrite <- EF. exact LF.
  - exact I.
  - cbn [kof k_lo k_ef]. rewrite UE. apply match_self; [exact BF|apply (uo_lo _ UO)].
Qed.
Definition epi (rl : Z) (e ef : emst) : Prop :=
  if 0 <=? rl then exists e5 e6 x y z, EmitLocalLabel W rl e = Ok (x, e5) /\ EmitMovRR W R_SP R_BP e5 = Ok (y, e6) /\ Output2Bytes W 93 195 e6 = Ok (z, ef)
  else exists z, Output2Bytes W 93 195 e = Ok (z, ef).
Lemma epilogue_ok V (ds : list ldecl) rl e P ef : ds <> [] -> (List.length ds <= 380)%nat -> Book e P -> Pending e = 2 * Z.of_nat (List.length ds) -> (IsDeadCode e = true -> 0 <= rl) -> (forall k x, In (k, x) P -> k = rl /\ 0 <= rl) ->
  epi rl e ef -> Book ef [] /\ back e P ef [] /\ Pending ef = 0 /\ RegUse ef = RegUse e /\ VOff ef = VOff e /\
  forall lo, 256 <= lo -> floor lo e P -> (IsDeadCode e = false -> Leave ef lo V ds (CodeAddress e)) /\ (0 <= rl -> Leave ef lo V ds (aget (LAddr ef) rl)).
Proof.
  intros NE LE B PE DR PM H. set (c := 2 * Z.of_nat (List.length ds)) in *.
  assert (C0 : 0 < c) by (unfold c; destruct ds; [contradiction|cbn [List.length]; lia]). assert (C1 : Z.even c = true) by (unfold c; rewrite Z.even_mul; reflexivity).
  assert (C2 : c < 2 ^ (W - 1)) by (pose proof (pow_ge W HW); unfold c; lia). pose proof (bk_room _ _ B) as RM.
  set (e0 := set_Pending 0 e). assert (KN : kern e0 = kern e) by reflexivity. pose proof (kern_book _ _ _ KN B) as B0. pose proof (kern_back _ _ P KN) as BA0.
  unfold epi in H. destruct (Z.leb_spec 0 rl) as [R0|R0].
  - destruct H as (e5 & e6 & x & y & z & H1 & H2 & H3). apply label_flush in H1. destruct H1 as (e1 & FL & H1).
    apply (flush_any 1 c) in FL; [|exact C0|exact C1|exact C2|exact PE|exact RM]. unfold settled in FL. fold e0 in FL.
    assert (G1 : Book e1 P /\ back e0 P e1 P /\ Pending e1 = 0 /\ RegUse e1 = RegUse e /\ VOff e1 = VOff e /\ LAddr e1 = LAddr e /\ LocalLabelCounter e1 = LocalLabelCounter e /\ IsDeadCode e1 = IsDeadCode e).
    { destruct (IsDeadCode e) eqn:DE.
      - subst e1. split; [exact B0|]. split; [apply back_refl|]. repeat split; auto.
      - destruct FL as (-> & L0 & L1). destruct (put_piece (add_code 4 c) e0 P B0 L0 L1 (add_hd c C0)) as (Q1 & Q2 & (Q3 & Q4 & Q5 & Q6) & (Q7 & Q8)). split; [exact Q1|]. split; [exact Q2|]. rewrite Q3, Q4, Q6, Q7, Q8. repeat split; auto. apply L1. }
    destruct G1 as (B1 & BA1 & PD1 & RU1 & VO1 & LA1 & LC1 & DE1).
    specialize (H1 PD1 LA1 LC1). destruct (st_label W rl e1 P x e5 B1 PD1 R0 H1) as ([B5 S5 BA5 _ _ _] & L5 & LC5 & LA5 & CA5 & RG5).
    assert (WP : without rl P = []). { destruct (without rl P) as [|[k q] r] eqn:E; [reflexivity|]. assert (I : In (k, q) (without rl P)) by (rewrite E; left; reflexivity). apply in_without in I. destruct I as [I N]. destruct (PM k q I) as [Q _]. congruence. }
    rewrite WP in *. unfold EmitMovRR in H2. change (Output2Bytes W 137 236 e5 = Ok (y, e6)) in H2. apply (out2 W) in H2; [|exact L5]. destruct H2 as [E6 L6]. apply (out2 W) in H3; [|exact L6]. destruct H3 as [EF LF].
    destruct (put_piece [137; 236] e5 [] B5 L5 ltac:(rewrite <- E6; exact L6)) as (B6 & BA6 & (S61 & S62 & S63 & S64) & (K61 & K62)). { split; intro Q; vm_compute in Q; discriminate Q. } rewrite <- E6 in *.
    destruct (put_piece [93; 195] e6 [] B6 L6 ltac:(rewrite <- EF; exact LF)) as (BF & BAF & (SF1 & SF2 & SF3 & SF4) & (KF1 & KF2)). { split; intro Q; [vm_compute in Q; discriminate Q|]. exists []. reflexivity. } rewrite <- EF in *.
    destruct S5 as (S51 & S52 & S53 & S54).
    split; [exact BF|]. split; [exact (back_trans _ _ _ _ _ _ BA0 (back_trans _ _ _ _ _ _ BA1 (back_trans _ _ _ _ _ _ BA5 (back_trans _ _ _ _ _ _ BA6 BAF))))|].
    split; [apply LF|]. split; [congruence|]. split; [congruence|].
    intros lo L256 FLO. assert (LO5 : lo <= CodeAddress e5) by apply (proj2 BA5 lo (proj2 BA1 lo (proj2 BA0 lo FLO))). assert (A6 : CodeAddress e6 = CodeAddress e5 + 2) by (rewrite E6, put_addr; reflexivity). assert (AF : CodeAddress ef = CodeAddress e6 + 2) by (rewrite EF, put_addr; reflexivity).
    assert (MF : Match lo ef ef []) by (apply match_self; assumption). pose proof (proj1 BAF _ _ MF) as M6. pose proof (proj1 BA6 _ _ M6) as M5. pose proof (proj1 BA5 _ _ M5) as M1.
    pose proof (live_lo _ L5) as LL5. pose proof (bk_room _ _ BF) as RF. unfold room, CODESTART, OUTPUT_MAX in RF.
    assert (LB : aget (LAddr ef) rl = CodeAddress e5) by (rewrite KF1, K61; exact LA5).
    split.
    + intros DE u at_ d0 vo0 d vo D env1 env' t1 t v sp' at' UE UL UO LA FRM LW LR KO MR IP AX FN. rewrite DE in FL. destruct FL as (EE1 & L0 & L1). assert (CA15 : CodeAddress e5 = CodeAddress e1) by (apply CA5; congruence).
      assert (A1 : CodeAddress e1 = CodeAddress e + Z.of_nat (List.length (add_code 4 c))) by (rewrite EE1, put_addr; reflexivity). pose proof (live_lo _ L0) as LL0. change (CodeAddress e0) with (CodeAddress e) in LL0.
      assert (IM : img lo ef (mem t) (cs (sg t))) by (pose proof (rel_img _ _ _ _ _ KO env' t MR) as Q; cbn [kof k_ef k_lo] in Q; rewrite UE, UL in Q; apply Q; lia).
      assert (CD : code (mem t) (cs (sg t)) (CodeAddress e) (map u8 (add_code 4 c))).
      { change (CodeAddress e) with (CodeAddress e0). apply (put_loaded lo ef e0 e1 P (add_code 4 c) _ _ (bk_ord _ _ B0)); [apply FLO|exact M1|rewrite EE1; reflexivity|rewrite EE1; reflexivity|exact IM]. }
      apply (off_run u V ds at_ env1 env' t1 t (CodeAddress e) _ UO LW LR MR IP ltac:(lia) ltac:(fold c; lia) CD). fold c. intros t2 MR2 ME2 SG2 BP2 IP2 AX2.
      assert (CD2 : code (mem t2) (cs (sg t2)) (CodeAddress e5) [137; 236]).
      { rewrite ME2, SG2. apply (put_loaded lo ef e5 e6 [] [137; 236] _ _ I LO5 M6); [rewrite E6; reflexivity|rewrite E6; reflexivity|exact IM]. }
      apply (mov_again (outer V ds) (kof u at_ (u_bp u) (u_m0 u)) env' t2 (CodeAddress e5) _ eq_refl MR2 ltac:(lia) ltac:(lia) ltac:(lia) CD2). intros t3 MR3 IP3 AX3.
      apply (leave_ret V ds u at_ d0 vo0 e6 ef env' t3 v UE UO LA FRM ltac:(unfold sp' in LW; lia) BF L6 EF LF ltac:(lia) MR3 ltac:(lia) ltac:(congruence) FN).
    + intros _ u at_ d0 vo0 d vo D env1 env' t1 t v sp' at' UE UL UO LA FRM LW LR KO MR IP AX FN. rewrite LB in IP.
      assert (IM : img lo ef (mem t) (cs (sg t))) by (pose proof (rel_img _ _ _ _ _ KO env' t MR) as Q; cbn [kof k_ef k_lo] in Q; rewrite UE, UL in Q; apply Q; lia).
      assert (CD : code (mem t) (cs (sg t)) (CodeAddress e5) [137; 236]).
      { apply (put_loaded lo ef e5 e6 [] [137; 236] _ _ I LO5 M6); [rewrite E6; reflexivity|rewrite E6; reflexivity|exact IM]. }
      apply (mov_run u V ds at_ env1 env' t1 t (CodeAddress e5) _ UO LW LR MR IP ltac:(lia) ltac:(lia) CD). intros t3 MR3 IP3 AX3.
      apply (leave_ret V ds u at_ d0 vo0 e6 ef env' t3 v UE UO LA FRM ltac:(unfold sp' in LW; lia) BF L6 EF LF ltac:(lia) MR3 ltac:(lia) ltac:(congruence) FN).
  - destruct H as (z & H). assert (DE : IsDeadCode e = false) by (destruct (IsDeadCode e); [specialize (DR eq_refl); lia|reflexivity]).
    assert (PN : P = []) by (destruct P as [|[k q] r]; [reflexivity|destruct (PM k q (or_introl eq_refl)); lia]). rewrite PN in *.
    destruct (out2_flush c 93 195 e z ef C0 C1 C2 DE PE RM H) as (L0 & L1 & EF & LF). fold e0 in L0, L1, EF. set (e1 := put (add_code 4 c) e0) in *.
    destruct (put_piece (add_code 4 c) e0 [] B0 L0 L1 (add_hd c C0)) as (B1 & BA1 & (Q3 & Q4 & Q5 & Q6) & (Q7 & Q8)). fold e1 in B1, BA1, Q3, Q4, Q5, Q6.
    destruct (put_piece [93; 195] e1 [] B1 L1 ltac:(rewrite <- EF; exact LF)) as (BF & BAF & (SF1 & SF2 & SF3 & SF4) & (KF1 & KF2)). { split; intro Q; [vm_compute in Q; discriminate Q|]. exists []. reflexivity. } rewrite <- EF in *.
    split; [exact BF|]. split; [exact (back_trans _ _ _ _ _ _ BA0 (back_trans _ _ _ _ _ _ BA1 BAF))|]. split; [apply LF|]. split; [rewrite SF2, Q4; reflexivity|]. split; [rewrite SF4, Q6; reflexivity|].
    intros lo L256 FLO. split; [|intro; lia]. intros _ u at_ d0 vo0 d vo D env1 env' t1 t v sp' at' UE UL UO LA FRM LW LR KO MR IP AX FN.
    assert (MF : Match lo ef ef []) by (apply match_self; assumption). pose proof (proj1 BAF _ _ MF) as M1. pose proof (live_lo _ L0) as LL0. change (CodeAddress e0) with (CodeAddress e) in LL0. pose proof (bk_room _ _ BF) as RF. unfold room, CODESTART, OUTPUT_MAX in RF.
    assert (A1 : CodeAddress e1 = CodeAddress e + Z.of_nat (List.length (add_code 4 c))) by (unfold e1; rewrite put_addr; reflexivity). assert (AF : CodeAddress ef = CodeAddress e1 + 2) by (rewrite EF, put_addr; reflexivity). pose proof (proj1 FLO) as FL0.
    assert (IM : img lo ef (mem t) (cs (sg t))) by (pose proof (rel_img _ _ _ _ _ KO env' t MR) as Q; cbn [kof k_ef k_lo] in Q; rewrite UE, UL in Q; apply Q; lia).
    assert (CD : code (mem t) (cs (sg t)) (CodeAddress e) (map u8 (add_code 4 c))).
    { change (CodeAddress e) with (CodeAddress e0). apply (put_loaded lo ef e0 e1 [] (add_code 4 c) _ _ I); [apply FLO|exact M1|reflexivity|reflexivity|exact IM]. }
    apply (off_run u V ds at_ env1 env' t1 t (CodeAddress e) _ UO LW LR MR IP ltac:(lia) ltac:(fold c; lia) CD). fold c. intros t2 MR2 ME2 SG2 BP2 IP2 AX2.
    apply (leave_ret V ds u at_ d0 vo0 e1 ef env' t2 v UE UO LA FRM ltac:(unfold sp' in LW; lia) BF L1 EF LF ltac:(lia) MR2 ltac:(lia) ltac:(congruence) FN).
Qed.
End W.
