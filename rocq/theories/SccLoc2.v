(** Functions whose body begins with initialised local variables. *)
From Verif Require Import Base Bits Spec8086 SpecWf SccRun SccState SccEmit SccLex SccDecl SccExpr SccStmt SccInput SccPut SccArith SccOps SccJump SccMem SccFix SccHold SccFlush SccSem SccBin SccVal SccComp SccBody SccParse SccWhole SccImg SccStep SccAsn SccMach SccPiece SccStm SccProg SccHead ExprSpec StmtSpec Props_SccStmt SccFun SccLoc.
From Verif Require SccArgs.

(** ** All declarations *)
Lemma dn_type x e d e' d' y : Dn x e d e' d' -> no_type d y -> no_type d' y.
Proof.
  intros [] H. unfold no_type in *. rewrite n_look, aget_aset. destruct (Z.eqb_spec x y) as [->|N].
  - right. replace (top_of d + 1 - 1) with (top_of d) by lia. rewrite n_type. reflexivity.
  - destruct (Z.eq_dec (aget (VarLookup d) y - 1) (top_of d)) as [E|E].
    + right. rewrite E, n_type. reflexivity.
    + rewrite n_types by exact E. exact H.
Qed.
(** memory outside of the free stack is as it was when the variables have their values from before *)
Lemma rel_back X K env t t1 : MRel X K env t -> k_m0 K = mem t -> MRel X K env t1 -> forall a, ~ kzone K a -> aget (mem t1) a = aget (mem t) a.
Proof.
  intros R M R1 a NZ. 
  assert (DEC : vbyte X K a \/ ~ vbyte X K a).
  { unfold vbyte. clear. induction X as [|x X IH]; [right; intros (? & [] & _)|]. destruct IH as [(y & I & E)|N]; [left; exists y; split; [right; exact I|exact E]|].
    destruct (Z.eq_dec a (phys (k_seg K) (k_at K x))) as [E|N1]; [left; exists x; split; [left; reflexivity|auto]|].
    destruct (Z.eq_dec a (phys (k_seg K) (k_at K x + 1))) as [E|N2]; [left; exists x; split; [left; reflexivity|auto]|].
    right. intros (y & [<-|I] & E); [tauto|]. apply N. exists y. auto. }
  destruct DEC as [(x & I & E)|NV]; [|rewrite (r_mem _ _ _ _ R1 a NZ NV), M; reflexivity].
  pose proof (r_var _ _ _ _ R x I) as V. pose proof (r_var _ _ _ _ R1 x I) as V1. rewrite <- V in V1. unfold rd16, rd8 in V1.
  destruct (r_wf _ _ _ _ R) as (_ & _ & W). destruct (r_wf _ _ _ _ R1) as (_ & _ & W1).
  pose proof (W (phys (k_seg K) (k_at K x))). pose proof (W (phys (k_seg K) (k_at K x + 1))). pose proof (W1 (phys (k_seg K) (k_at K x))). pose proof (W1 (phys (k_seg K) (k_at K x + 1))).
  destruct E as [-> | ->]; lia.
Qed.

(** what is fixed while a function runs: its code from lo on, complete in ef; the segments; the frame pointer; the lower
    end of the free stack; the memory at the start; the aim *)
Record run := mkrun { u_lo : Z; u_ef : emst; u_sg : sregs; u_bp : Z; u_low : Z; u_m0 : arr Z; u_fin : state -> Prop }.
Record run_ok (u : run) : Prop := {
  uo_ss : ss (u_sg u) = cs (u_sg u);
  uo_ds : ds (u_sg u) = cs (u_sg u);
  uo_lo : 256 <= u_lo u;
  uo_low : CodeAddress (u_ef u) <= u_low u;
  uo_nn : 0 <= CodeAddress (u_ef u);
  uo_top : u_bp u + 3 < 65536;
  uo_img : img (u_lo u) (u_ef u) (u_m0 u) (cs (u_sg u));
  uo_out : outside (u_lo u) (u_ef u) (u_fin u) }.
Definition kof (u : run) (at_ : Z -> Z) (sp : Z) (m : arr Z) : mach := mkmach (u_lo u) (u_ef u) (u_sg u) (u_bp u) sp (u_low u) at_ m (u_fin u).
(** the places of the variables V, with the stack pointer at sp *)
Record LAt (u : run) (V : list Z) (d : dcst) (vo : arr Z) (at_ : Z -> Z) (sp : Z) : Prop := {
  la_at : forall x, In x V -> 0 <= at_ x /\ at_ x + 1 < 65536 /\ (at_ x + 1 < u_lo u \/ CodeAddress (u_ef u) <= at_ x /\ at_ x + 1 < u_low u \/ sp <= at_ x);
  la_apart : forall x y, In x V -> In y V -> x <> y -> at_ x + 1 < at_ y \/ at_ y + 1 < at_ x;
  la_var : forall x Loc Val, In x V -> int_var d vo x Loc Val -> at_ x = if Loc =? VT_LOCOFF then (u_bp u + Val) mod 65536 else aget vo Val mod 65536 }.
Definition fzone (u : run) (a : Z) : Prop := exists o, u_low u <= o < u_bp u /\ a = phys (cs (u_sg u)) o.
Record LRel (u : run) (V : list Z) (at_ : Z -> Z) (sp : Z) (env : Z -> Z) (t : state) : Prop := {
  lr_wf : wfr t;
  lr_sg : sg t = u_sg u;
  lr_bp : bp (rg t) = u_bp u;
  lr_sp : Spec8086.sp (rg t) = sp;
  lr_env : env_ok env;
  lr_var : forall x, In x V -> rd16 (mem t) (cs (u_sg u)) (at_ x) = env x mod 65536;
  lr_mem : forall a, ~ fzone u a -> aget (mem t) a = aget (u_m0 u) a }.
Lemma kof_ok u V X D d vo at_ sp env t : run_ok u -> LAt u V d vo at_ sp -> LRel u V at_ sp env t -> incl X V -> u_low u + 2 * Z.of_nat D <= sp -> sp <= u_bp u ->
  k_ok X D d vo (kof u at_ sp (mem t)) /\ MRel X (kof u at_ sp (mem t)) env t.
Proof.
  intros [] [] [] IX LO HI. split.
  - split; unfold kof, k_seg; cbn [k_lo k_ef k_sg k_bp k_sp k_low k_at k_m0 k_fin]; auto; try lia.
    intros a A. rewrite <- (uo_img0 a A). unfold rd8. apply lr_mem0. intros (o & O1 & O2). apply phys_in in O2; lia.
  - split; unfold kof, k_seg; cbn [k_lo k_ef k_sg k_bp k_sp k_low k_at k_m0 k_fin]; auto.
Qed.

(** where the variables are after the declarations *)
Fixpoint dplace (at_ : Z -> Z) (sp : Z) (ds : list ldecl) : Z -> Z :=
  match ds with [] => at_ | (x, _) :: r => dplace (assign at_ x (sp - 2)) (sp - 2) r end.

(** compiled: the state after all declarations *)
Record Dns (ds : list ldecl) (e : emst) (d : dcst) (e' : emst) (d' : dcst) : Prop := {
  s_back : back e [] e' [];
  s_addr : CodeAddress e <= CodeAddress e';
  s_lo : LocalOffset e' = LocalOffset e - 2 * Z.of_nat (List.length ds);
  s_offs : forall u, u < top_of d -> aget (VOff e') u = aget (VOff e) u;
  s_types : forall u, u < top_of d -> aget (VType d') u = aget (VType d) u;
  s_scopes : forall i, i < ScopeCount d - 1 -> aget (Scopes d') i = aget (Scopes d) i;
  s_top : top_of d <= top_of d';
  s_same : ScopeCount d' = ScopeCount d /\ IgnoreRedef d' = IgnoreRedef d /\ NextSwitchCase d' = NextSwitchCase d /\ ReturnLabel d' = ReturnLabel d }.

Section W.
Variables (W : Z) (F : nat).
Hypothesis HW : 16 <= W.

Lemma decls_ok n : forall (ds : list ldecl) V k l e d y s' rest, Fr V e d -> scoped V ds -> (forall x, In x (map fst ds) -> 37 <= x /\ no_type d x) ->
  stream W F l (flat_map dtoks ds ++ rest) -> rest <> [] -> loopM k (item W F (S n)) tt (mkcc l e d) = Ok (y, s') ->
  exists k' l' e' d', loopM k' (item W F (S n)) tt (mkcc l' e' d') = Ok (y, s') /\ stream W F l' rest /\ Dns ds e d e' d' /\ Fr (seen V ds) e' d' /\
  forall u at_, run_ok u -> LocalOffset e <= 0 -> let sp := u_bp u + LocalOffset e in
    u_low u + 2 * Z.of_nat (List.length ds) + 2 * Z.of_nat (ddepth ds) <= sp -> u_lo u <= CodeAddress e -> Match (u_lo u) (u_ef u) e' [] ->
    LAt u V d (VOff e) at_ sp -> let sp' := sp - 2 * Z.of_nat (List.length ds) in let at' := dplace at_ sp ds in
    LAt u (seen V ds) d' (VOff e') at' sp' /\
    forall env env' t, LRel u V at_ sp env t -> dexec ds env env' -> ip t = CodeAddress e -> reaches (fun t' => LRel u (seen V ds) at' sp' env' t' /\ ip t' = CodeAddress e') t.
Proof.
  induction ds as [|[x ex] ds IH]; intros V k l e d y s' rest FR SC NM ST NR H.
  - exists k, l, e, d. split; [exact H|]. split; [exact ST|]. split; [|split; [exact FR|]].
    + split; auto; try lia. apply back_refl. cbn [List.length]. lia.
    + intros u at_ UO L0 sp HL LO M LA. cbn [List.length dplace seen]. cbv zeta. replace (sp - 2 * Z.of_nat 0) with sp by lia. split; [exact LA|].
      intros env env' t LR DX IP. inversion DX; subst. apply reach_now. split; [exact LR|exact IP].
  - cbn [scoped] in SC. destruct SC as (GE & IX & NX & SC). cbn [flat_map] in ST. rewrite <- app_assoc in ST.
    destruct (item_next W F (S n) k l e d (kw TOK_INT) _ y s' ST ltac:(intro Q; vm_compute in Q; discriminate Q) H) as (k1 & y1 & s1 & E & H1). clear H.
    destruct (NM x (or_introl eq_refl)) as [LX NT].
    destruct (decl_ok W F HW V n x ex l e d y1 s1 _ FR GE IX NX LX NT ST ltac:(destruct ds as [|[? ?] ?]; [exact NR|discriminate]) E) as (l1 & e1 & d1 & -> & ST1 & DN & FR1 & RUN1). clear E.
    destruct (IH (x :: V) k1 l1 e1 d1 y s' rest FR1 SC) as (k2 & l2 & e2 & d2 & H2 & ST2 & DS2 & FR2 & RUN2); [|exact ST1|exact NR|exact H1|].
    { intros z Z1. destruct (NM z (or_intror Z1)) as [Z2 Z3]. split; [exact Z2|exact (dn_type _ _ _ _ _ _ DN Z3)]. }
    exists k2, l2, e2, d2. split; [exact H2|]. split; [exact ST2|]. cbn [seen]. split; [|split; [exact FR2|]].
    + assert (TD : top_of d1 = top_of d + 1) by (unfold top_of at 1; rewrite (n_scopes _ _ _ _ _ DN), (proj1 (n_same _ _ _ _ _ DN)); apply aget_aset_same).
      destruct DS2, DN. split.
      * exact (back_trans _ _ _ _ _ _ n_back s_back0).
      * lia.
      * cbn [List.length]. lia.
      * intros u U. rewrite s_offs0, n_offs by lia. reflexivity.
      * intros u U. rewrite s_types0, n_types by lia. reflexivity.
      * intros i I. destruct n_same as (Q & _). rewrite s_scopes0 by lia. rewrite n_scopes, aget_aset_other by lia. reflexivity.
      * lia.
      * destruct n_same as (A1 & A2 & A3 & A4), s_same0 as (B1 & B2 & B3 & B4). repeat split; congruence.
    + intros u at_ UO L0 HL LO M LA. set (sp := u_bp u + LocalOffset e) in *. cbn [List.length] in HL. cbn [ddepth fold_right snd] in HL. fold (ddepth ds) in HL. rewrite Nat2Z.inj_succ in HL.
      assert (SPB : sp <= u_bp u) by (unfold sp; lia).
      assert (LHI : u_lo u <= CodeAddress (u_ef u)) by (pose proof (match_live _ _ _ _ M (proj1 (f_live _ _ _ FR2))); pose proof (n_addr _ _ _ _ _ DN); pose proof (s_addr _ _ _ _ _ DS2); lia).
      pose proof (Nat2Z.inj_max (depth ex) (ddepth ds)) as MX.
      set (at1 := assign at_ x (sp - 2)). pose proof (uo_low _ UO) as ULO. pose proof (uo_nn _ UO) as UNN. pose proof (uo_top _ UO) as UTOP. pose proof (uo_lo _ UO) as ULO2. pose proof (n_lo _ _ _ _ _ DN) as NLO.
      assert (AS : at1 x = sp - 2) by (unfold at1, assign; rewrite Z.eqb_refl; reflexivity).
      assert (AO : forall z, z <> x -> at1 z = at_ z) by (intros z N; unfold at1, assign; rewrite (proj2 (Z.eqb_neq _ _) N); reflexivity).
      assert (LA1 : LAt u (x :: V) d1 (VOff e1) at1 (sp - 2)).
      { split.
        - intros z I. destruct (Z.eq_dec z x) as [->|N]; [rewrite AS; lia|]. destruct I as [I|I]; [congruence|]. rewrite (AO z N). pose proof (la_at _ _ _ _ _ _ LA z I). lia.
        - assert (AP : forall z, z <> x -> In z (x :: V) -> at1 x + 1 < at1 z \/ at1 z + 1 < at1 x).
          { intros z N [I|I]; [congruence|]. rewrite AS, (AO z N). pose proof (la_at _ _ _ _ _ _ LA z I). lia. }
          intros z w I J N. destruct (Z.eq_dec z x) as [->|N1]; [apply AP; auto|]. destruct (Z.eq_dec w x) as [->|N2]; [destruct (AP z N1 I); auto|].
          rewrite !AO by assumption. destruct I as [I|I]; [congruence|]. destruct J as [J|J]; [congruence|]. apply (la_apart _ _ _ _ _ _ LA); auto.
        - intros z Loc Val I IV. destruct (Z.eq_dec z x) as [->|N].
          + apply (dn_var _ _ _ _ _ DN (f_top _ _ _ FR)) in IV. destruct IV as [-> ->]. change (VT_LOCOFF =? VT_LOCOFF) with true. cbv iota. rewrite AS, NLO. rewrite Z.mod_small; unfold sp in *; lia.
          + rewrite (AO z N). destruct I as [I|I]; [congruence|]. destruct (kept_var _ _ _ _ _ _ _ (dn_kept _ _ _ _ _ z DN N (f_in _ _ _ FR z I)) IV) as [IV' G].
            rewrite (la_var _ _ _ _ _ _ LA z Loc Val I IV'). destruct (loc_cases _ _ _ _ _ IV) as [-> | ->]; [reflexivity|]. rewrite G by reflexivity. reflexivity. }
      assert (EQ : u_bp u + LocalOffset e1 = sp - 2) by (unfold sp; lia).
      assert (LA1' : LAt u (x :: V) d1 (VOff e1) at1 (u_bp u + LocalOffset e1)) by (rewrite EQ; exact LA1).
      pose proof (RUN2 u at1 UO ltac:(lia) ltac:(lia) ltac:(pose proof (n_addr _ _ _ _ _ DN); lia) M LA1') as R2. cbv zeta in R2. rewrite EQ in R2. clear LA1'.
      cbn [List.length dplace]. fold at1. replace (sp - 2 * Z.of_nat (S (List.length ds))) with (sp - 2 - 2 * Z.of_nat (List.length ds)) by lia.
      destruct R2 as [R2a R2]. split; [exact R2a|]. clear R2a.
      intros env env' t LR DX IP. inversion DX as [|x0 ex0 r0 env0 v env0' VV DX' Q1 Q2 Q3]; subst x0 ex0 r0 env0 env0'.
      destruct (kof_ok u V (vars ex) (depth ex) d (VOff e) at_ sp env t UO LA LR IX ltac:(lia) SPB) as [KO MR].
      assert (M1 : Match (u_lo u) (u_ef u) e1 []) by exact (proj1 (s_back _ _ _ _ _ DS2) _ _ M).
      pose proof (RUN1 (kof u at_ sp (mem t)) env v t KO ltac:(cbn [kof k_low k_sp]; lia) LO M1 VV MR IP) as RR. cbn [kof k_low k_sp] in RR. unfold k_seg in RR. cbn [kof k_sg] in RR.
      eapply reaches_trans; [exact RR|]. cbv beta. intros t' (t1 & MR1 & Q1 & Q2 & Q3 & Q4 & Q5 & Q6). apply (R2 (assign env x v) env' t'); [|exact DX'|exact Q6].
      pose proof (rel_back _ _ _ _ _ MR eq_refl MR1) as RB. pose proof (Z.mod_pos_bound v 65536 ltac:(lia)) as VB.
      assert (ZN : forall a, kzone (kof u at_ sp (mem t)) a -> fzone u a) by (intros a (o & O1 & O2); exists o; cbn [kof k_low k_sp] in O1; split; [lia|exact O2]).
      assert (MM : forall a, 0 <= a < 65536 -> a < u_low u \/ sp <= a -> aget (mem t') (phys (cs (u_sg u)) a) = aget (mem t) (phys (cs (u_sg u)) a)).
      { intros a A N. rewrite Q5, aget_wr16 by exact VB. destruct (Z.eqb_spec (phys (cs (u_sg u)) (sp - 2 + 1)) (phys (cs (u_sg u)) a)) as [E|_]; [apply phys_in in E; lia|].
        destruct (Z.eqb_spec (phys (cs (u_sg u)) (sp - 2)) (phys (cs (u_sg u)) a)) as [E|_]; [apply phys_in in E; lia|]. apply RB. intros (o & O1 & O2). cbn [kof k_low k_sp] in O1. apply phys_in in O2; lia. }
      split.
      * exact Q1.
      * rewrite Q2. exact (r_sg _ _ _ _ MR1).
      * rewrite Q3. exact (r_bp _ _ _ _ MR1).
      * exact Q4.
      * apply assign_range; [exact (lr_env _ _ _ _ _ _ LR)|exact (value_range _ _ _ GE (lr_env _ _ _ _ _ _ LR) VV)].
      * intros z I. destruct (Z.eq_dec z x) as [->|N].
        -- rewrite AS, Q5, rd16_wr16_same by lia. unfold assign. rewrite Z.eqb_refl. reflexivity.
        -- destruct I as [I|I]; [congruence|]. rewrite (AO z N). unfold assign. rewrite (proj2 (Z.eqb_neq _ _) N). rewrite <- (lr_var _ _ _ _ _ _ LR z I).
           pose proof (la_at _ _ _ _ _ _ LA z I). apply rd16_frame; apply MM; lia.
      * intros a NZ. rewrite <- (lr_mem _ _ _ _ _ _ LR a NZ). rewrite Q5, aget_wr16 by exact VB.
        destruct (Z.eqb_spec (phys (cs (u_sg u)) (sp - 2 + 1)) a) as [E|_]; [exfalso; apply NZ; exists (sp - 2 + 1); split; [lia|auto]|].
        destruct (Z.eqb_spec (phys (cs (u_sg u)) (sp - 2)) a) as [E|_]; [exfalso; apply NZ; exists (sp - 2); split; [lia|auto]|].
        apply RB. intro Q. apply NZ. apply ZN. exact Q.
Qed.
End W.
