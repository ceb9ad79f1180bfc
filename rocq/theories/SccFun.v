(** A function, from its definition to the machine that calls it. *)
From Verif Require Import Base Bits Spec8086 SpecWf SccRun SccState SccEmit SccLex SccDecl SccExpr SccStmt SccInput SccPut SccArith SccOps ExprSpec SccHold SccFix SccSem SccBin SccComp SccParse SccWhole StmtSpec SccImg SccStep SccMach SccPiece SccStm SccProg SccHead Props_SccStmt.
From Verif Require SccArgs SccBss.

(** ** Pieces *)
Lemma label_new v s x s' : aget (VRef (em s)) v = 0 -> EmitGlobalLabel v s = Ok (x, s') ->
  aget (VOff (em s)) v = 0 /\ exists m, s' = mkcc (lx s) (set_LastFixup (CodeAddress (em s)) (set_IsDeadCode false (set_VOff (aset (VOff (em s)) v (CodeAddress (em s))) (em s)))) (set_MapOut m (dc s)).
Proof.
  intros R H. unfold EmitGlobalLabel, getd, gete, getl, updd in H. mgoin H. minv H y s1 E. apply inem_inv in E. destruct E as (e' & E & ->).
  mgoin H. minv H nm s2 E2. assert (s2 = set_em e' s) by (destruct (_ =? -2); [oki E2; reflexivity|unfold gets in E2; oki E2; reflexivity]). subst s2. clear E2.
  unfold EmitGlobalLabel_ in E. mgoin E. unfold failif in E. destruct (Z.eqb_spec (aget (VOff (em s)) v) 0) as [Z0|]; [|discriminate E]. cbn [negb] in E. mgoin E.
  split; [exact Z0|]. cbn [VRef set_IsDeadCode set_VOff] in E. rewrite R in E. unfold DoFixups in E. minv E z e1 E1.
  assert (e1 = set_IsDeadCode false (set_VOff (aset (VOff (em s)) v (CodeAddress (em s))) (em s))).
  { destruct (Z.to_nat OUTPUT_MAX); [discriminate E1|]. cbn [fixup_loop] in E1. change (0 =? 0) with true in E1. cbv iota in E1. oki E1. reflexivity. }
  subst e1. oki E. oki H. eexists. reflexivity.
Qed.
Lemma out2_dead W b0 b1 e x e' : IsDeadCode e = true -> Output2Bytes W b0 b1 e = Ok (x, e') -> e' = e.
Proof.
  intros D H. unfold Output2Bytes, Output2Bytes_, guarded in H. mgoin H. rewrite D in H. cbn [orb] in H. minv H r e1 E.
  unfold EmitChecks in E. cbn [EmitChecks_n] in E. mgoin E. rewrite D in E. oki E. oki H. reflexivity.
Qed.
Lemma prologue_run P r g a f m : code m (cs g) a [85; 137; 229] -> 0 <= a -> a + 3 < 65536 ->
  (let p := (sp r - 2) mod 65536 in reaches P (mkst (mkregs (ax r) (cx r) (dx r) (bx r) p p (si r) (di r)) g (a + 3) f (wr16 m (ss g) p (bp r)))) ->
  0 < sp r - 2 -> ss g = cs g -> (forall p, 0 <= p < 3 -> phys (cs g) (a + p) <> phys (cs g) (sp r - 2) /\ phys (cs g) (a + p) <> phys (cs g) (sp r - 1)) -> 0 <= bp r < 65536 -> sp r < 65536 ->
  reaches P (mkst r g a f m).
Proof.
  intros C A1 A2 R S0 SS NP B SR. cbv zeta in R.
  apply (code_app m (cs g) a [85] [137; 229]) in C. destruct C as [C1 C2]. cbn [List.length] in C2. change (Z.of_nat 1) with 1 in C2.
  eapply (reach_code _ [85] (IPush (Reg 5)) 1 (fun _ => _)); auto; try lia.
  { intro. cbn [exec get_op]. unfold push, set_mem, set_reg, set_rg. cbn [rg sg ip fl mem rget]. reflexivity. }
  intro. cbn [Z.eqb]. eapply (reach_code _ [137; 229] (IMov true (Reg 5) (Reg 4)) 2 (fun _ => _)); try lia.
  - intros k K. specialize (C2 k K). rewrite <- C2. cbn [List.length] in K. rewrite (Z.mod_small (sp r - 2)) by lia. unfold rd8. rewrite aget_wr16 by (unfold rget; cbn; lia).
    rewrite SS. destruct (NP (1 + Z.of_nat k) ltac:(lia)) as [N1 N2]. replace (a + (1 + Z.of_nat k)) with (a + 1 + Z.of_nat k) in * by lia. replace (sp r - 2 + 1) with (sp r - 1) by lia.
    destruct (Z.eqb_spec (phys (cs g) (sp r - 1)) (phys (cs g) (a + 1 + Z.of_nat k))); [congruence|]. destruct (Z.eqb_spec (phys (cs g) (sp r - 2)) (phys (cs g) (a + 1 + Z.of_nat k))); [congruence|]. reflexivity.
  - reflexivity.
  - intro. cbn [exec get_op put_op]. unfold set_reg, set_rg. cbn [rg sg ip fl mem]. reflexivity.
  - intro. replace (a + 1 + 2) with (a + 3) by lia. exact R.
Qed.

Section W.
Variables (W : Z) (F : nat).
Hypothesis HW : 16 <= W.

(** ** The start of a function definition *)
(** what the compiler keeps between functions *)
Record between (e : emst) (d : dcst) : Prop := {
  bt_scope : ScopeCount d = 1;
  bt_ign : 0 <= IgnoreRedef d;
  bt_top : 0 <= aget (Scopes d) 0;
  bt_case : NextSwitchCase d < 0;
  bt_pend : Pending e = 0;
  bt_reg : RegUse e = false;
  bt_room : room e 0;
  bt_bytes : forall a, 0 <= aget (Output e) a < 256;
  bt_after : forall a, CodeAddress e - CODESTART + 3 <= a -> aget (Output e) a <> 235 /\ aget (Output e) a <> 93 }.
(** the function's table entry is v, its parameters ps; s1: where its code begins *)
Record front (v : Z) (ps : list Z) (s s1 : cc) : Prop := {
  fr_lx : lx s1 = lx s;
  fr_begins : begins (em s1);
  fr_addr : CodeAddress (em s1) = CodeAddress (em s);
  fr_case : NextSwitchCase (dc s1) < 0;
  fr_ret : ReturnLabel (dc s1) = -1;
  fr_scope : ScopeCount (dc s1) = 2 /\ 1 <= IgnoreRedef (dc s1) /\ aget (Scopes (dc s1)) 0 = aget (Scopes (dc s)) 0;
  fr_new : aget (VOff (em s)) v = 0;
  fr_lab : aget (VOff (em s1)) v = CodeAddress (em s);
  fr_par : forall j p, nth_error ps j = Some p -> exists u, aget (VarLookup (dc s1)) p = u + 1 /\ 0 <= u < aget (Scopes (dc s)) 0 + 4 + Z.of_nat (List.length ps) /\ aget (VType (dc s1)) u = VT_INT + VT_LOCOFF /\ aget (VOff (em s1)) u = 4 + Z.of_nat j * 2;
  fr_old : forall x, ~ In x ps -> aget (VarLookup (dc s1)) x = aget (VarLookup (dc s)) x;
  fr_tab : forall u, u < aget (Scopes (dc s)) 0 -> aget (VType (dc s1)) u = aget (VType (dc s)) u /\ (u <> v -> aget (VOff (em s1)) u = aget (VOff (em s)) u);
  fr_top : aget (Scopes (dc s1)) 1 = aget (Scopes (dc s)) 0 + 4 + Z.of_nat (List.length ps) }.
(** the rest of the function, scc.c:3317-3332 *)
Definition body_part (r : recs) : M cc unit :=
  o1 W (Z.lor I_PUSH R_BP) ;;
  inem (EmitMovRR W R_BP R_SP) ;;
  pStatement r ;;
  let! rl := getd ReturnLabel in
  when (0 <=? rl)
    (inem (EmitLocalLabel W rl) ;;
     inem (EmitMovRR W R_SP R_BP)) ;;
  o2 W (Z.lor I_POP R_BP) I_RET ;;
  upde (set_LocalLabelCounter 0) ;;
  updd (set_NamedLabelCount 0) ;;
  PopScope.

Lemma front_ok r v ps s x s' : between (em s) (dc s) -> 0 <= v < aget (Scopes (dc s)) 0 -> aget (VRef (em s)) v = 0 ->
  ArgsCount (dc s) = Z.of_nat (List.length ps) -> args 0 ps (dc s) -> (forall p, In p ps -> 37 <= p) -> NoDup ps -> aget (Scopes (dc s)) 0 + 4 + Z.of_nat (List.length ps) <= 380 ->
  function_def W r v s = Ok (x, s') -> exists s1, front v ps s s1 /\ body_part r s1 = Ok (x, s').
Proof.
  intros [] V0 R0 AC AR PS ND LE H. unfold function_def in H. minv H x1 sa E1.
  pose proof (SccArgs.nc_enter _ _ _ E1) as N1. apply SccArgs.enter_tables in E1; [|assumption|lia|assumption|assumption]. destruct E1 as ((T1 & T01 & T02) & T2 & T3 & T4 & T5).
  unfold getd at 1 in H. mgoin H. unfold SccArgs.core, SccArgs.ecore, SccArgs.dcore in N1.
  assert (C1 : lx sa = lx s) by congruence. assert (C2 : ArgsCount (dc sa) = ArgsCount (dc s)) by congruence. assert (C3 : ArgId (dc sa) = ArgId (dc s)) by congruence. assert (C4 : ArgType (dc sa) = ArgType (dc s)) by congruence.
  rewrite C2, AC, Nat2Z.id in H. minv H x2 sb E2. pose proof (SccArgs.nc_args _ _ _ _ _ E2) as N2. unfold SccArgs.core, SccArgs.ecore, SccArgs.dcore in N2. rewrite N1 in N2. clear N1.
  assert (AG : forall j, 0 <= j < Z.of_nat (List.length ps) -> aget (ArgId (dc sa)) j = nth (Z.to_nat j) ps 0 /\ aget (ArgType (dc sa)) j = VT_INT).
  { intros j J. rewrite C3, C4. pose proof (args_get F ps 0 _ AR (Z.to_nat j) ltac:(lia)) as Q. replace (0 + Z.of_nat (Z.to_nat j)) with j in Q by lia. exact Q. }
  apply (SccArgs.args_tables _ _ _ _ (aget (Scopes (dc s)) 0 + 4)) in E2; [|rewrite T1; exact T3|lia|exact T2| |].
  2: { intros j J. rewrite (proj1 (AG j J)). assert (In (nth (Z.to_nat j) ps 0) ps) as I by (apply nth_In; lia). apply PS in I. lia. }
  2: { intros j k J K Q. rewrite (proj1 (AG j ltac:(lia))), (proj1 (AG k ltac:(lia))) in Q. rewrite NoDup_nth in ND. apply ND in Q; lia. }
  destruct E2 as (U1 & U2 & U3 & U4 & U5 & U6 & U7). set (n := List.length ps) in *.
  unfold gete at 1 in H. mgoin H. unfold failif in H. destruct (Z.eqb_spec (LocalLabelCounter (em sb)) 0) as [LL|]; [|discriminate H]. cbn [negb] in H. mgoin H. unfold upde at 1 in H. mgoin H. do 3 (unfold updd at 1 in H; mgoin H).
  minv H x3 s1 E3. match type of E3 with _ ?q = _ => set (sc := q) in E3 end.
  assert (BV : SccArgs.below (aget (Scopes (dc s)) 0) s sb) by (intros u Q; destruct (T5 u Q) as (? & ? & ? & ?), (U3 u ltac:(lia)) as (? & ? & ? & ?); repeat split; congruence).
  apply label_new in E3; [|subst sc; unfold set_em, set_dc; cbn [em VRef set_LocalOffset]; rewrite (proj1 (proj2 (proj2 (BV v ltac:(lia))))); exact R0].
  destruct E3 as (V1 & m & ->). exists (mkcc (lx sc) (set_LastFixup (CodeAddress (em sc)) (set_IsDeadCode false (set_VOff (aset (VOff (em sc)) v (CodeAddress (em sc))) (em sc)))) (set_MapOut m (dc sc))).
  split; [|exact H]. clear H. subst sc. unfold set_em, set_dc in *. cbn [lx em dc VOff set_LocalOffset CodeAddress] in *.
  assert (D1 : lx sb = lx s) by congruence. assert (D2 : CodeAddress (em sb) = CodeAddress (em s)) by congruence. assert (D3 : Output (em sb) = Output (em s)) by congruence.
  assert (D4 : Pending (em sb) = Pending (em s)) by congruence. assert (D5 : RegUse (em sb) = RegUse (em s)) by congruence. assert (D6 : NextSwitchCase (dc sb) = NextSwitchCase (dc s)) by congruence.
  assert (OF : forall u, u < aget (Scopes (dc s)) 0 + 4 -> u <> v -> aget (aset (VOff (em sb)) v (CodeAddress (em sb))) u = aget (VOff (em sb)) u) by (intros; apply aget_aset_other; auto).
  split; cbn [lx em dc VOff set_LocalOffset set_LastFixup set_IsDeadCode set_VOff set_MapOut set_BreakLabel set_ReturnLabel set_ContinueLabel CodeAddress NextSwitchCase ReturnLabel VarLookup VType].
  - exact D1.
  - unfold begins, live, room. cbn [Output LocalLabelCounter LocalOffset LastFixup IsDeadCode Pending RegUse CodeAddress VOff set_LocalOffset set_LastFixup set_IsDeadCode set_VOff].
    rewrite D2, D3, D4, D5. repeat split; auto; try apply bt_room0; try apply bt_bytes0; try apply bt_after0; auto. lia.
  - exact D2.
  - rewrite D6. assumption.
  - reflexivity.
  - cbn [ScopeCount IgnoreRedef Scopes set_MapOut set_BreakLabel set_ReturnLabel set_ContinueLabel]. rewrite U4, U5, T01. split; [exact T1|]. split; [lia|]. rewrite U6 by lia. exact T02.
  - rewrite <- V1. symmetry. apply (BV v ltac:(lia)).
  - rewrite aget_aset_same. exact D2.
  - intros j p J. assert (L : (j < n)%nat) by (apply nth_error_Some; congruence). destruct (U1 (Z.of_nat j) ltac:(lia)) as (Q1 & Q2 & Q3). destruct (AG (Z.of_nat j) ltac:(lia)) as [A1 A2].
    rewrite A1, Nat2Z.id, (nth_error_nth _ _ _ J) in Q1. rewrite A2 in Q2. exists (aget (Scopes (dc s)) 0 + 4 + Z.of_nat j). split; [exact Q1|]. split; [lia|]. split; [exact Q2|].
    rewrite aget_aset_other by lia. exact Q3.
  - intros k K. rewrite U2; [rewrite T4; reflexivity|]. intros j J Q. rewrite (proj1 (AG j J)) in Q. apply K. rewrite <- Q. apply nth_In. lia.
  - intros u Q. destruct (BV u Q) as (Q1 & Q2 & _). split; [exact Q1|]. intro N. rewrite aget_aset_other by auto. exact Q2.
  - rewrite T1 in U7. exact U7.
Qed.

(** ** The code of a function *)
Lemma body_ok n st s1 x s' rest : begins (em s1) -> decls (svars st) (dc s1) (VOff (em s1)) -> NextSwitchCase (dc s1) < 0 -> ReturnLabel (dc s1) = -1 ->
  ScopeCount (dc s1) = 2 -> 1 <= IgnoreRedef (dc s1) -> 0 <= aget (Scopes (dc s1)) 0 ->
  stream W F (lx s1) (stoks st ++ rest) -> rest <> [] -> no_else st rest -> wf_stmt false st -> body_part (tie W F n) s1 = Ok (x, s') ->
  between (em s') (dc s') /\ (forall u, u < aget (Scopes (dc s1)) 0 -> aget (VOff (em s')) u = aget (VOff (em s1)) u) /\
  exists ef, stream W F (lx s') rest /\ Output (em s') = Output ef /\ CodeAddress (em s') = CodeAddress ef /\ Book ef [] /\
  Match (CodeAddress (em s1)) ef (put [85; 137; 229] (em s1)) [] /\
  forall K env env' o, k_ef K = ef -> k_lo K = CodeAddress (em s1) -> k_ok (svars st) (sdepth st) (dc s1) (VOff (em s1)) K -> k_frame (svars st) K -> sexec st env env' o ->
  (forall t v, (forall w, o = Returned w -> v mod 65536 = w mod 65536) -> Ret (svars st) K env' v t -> reaches (k_fin K) t) -> Good (svars st) K env (CodeAddress (em s1) + 3).
Proof.
  intros BG DC NC RL SC IR S0 ST NR NE WF H. unfold body_part, o1, o2 in H. destruct s1 as [l e d]. cbn [lx em dc] in *.
  assert (LV : live e) by apply BG. pose proof (begins_book _ BG) as B0.
  minv H y1 s2 E. apply inem_mk in E. destruct E as (e1 & E & ->). change (Z.lor I_PUSH R_BP) with 85 in E. apply (out1 W) in E; [|exact LV]. destruct E as [-> L1].
  minv H y2 s2 E. apply inem_mk in E. destruct E as (e2 & E & ->). unfold EmitMovRR in E. change (Output2Bytes W 137 229 (put [85] e) = Ok (y2, e2)) in E. apply (out2 W) in E; [|exact L1]. destruct E as [-> L2].
  rewrite <- put_app in H, L2. cbn [Datatypes.app] in H, L2. set (e2 := put [85; 137; 229] e) in *.
  destruct (put_piece [85; 137; 229] e [] B0 LV L2) as (B2 & K2 & S2 & _). { split; intro Q; vm_compute in Q; discriminate Q. } fold e2 in B2, K2, S2.
  assert (PR : Pre (svars st) 0 false e2 d []).
  { destruct S2 as (Q1 & Q2 & Q3 & Q4). split; [exact B2|exact L2|rewrite Q2; apply BG|rewrite Q3; apply BG|rewrite Q4; exact DC|exact NC|discriminate|intro Q; contradiction]. }
  minv H y3 s3 E.
  destruct (stmt_ok W F HW (svars st) (sdepth st) 0 n false st l e2 d [] y3 s3 rest PR WF ltac:(intros z I; exact I) ltac:(lia) ST NR NE E) as (l' & e3 & d3 & P' & -> & ST' & DS & [BK SL BA _ _ MK] & (DE & _) & RUN). clear E.
  assert (P' = []) as ->.
  { destruct P' as [|[k z] P']; [reflexivity|]. destruct (MK k z (or_introl eq_refl)) as [[]|[]]. }
  unfold getd in H. mgoin H. cbn [dc] in H. assert (RL' : ReturnLabel d3 = -1) by (destruct (proj2 DS) as [-> |Q]; [exact RL|destruct (proj1 Q eq_refl)]). rewrite RL' in H. change (0 <=? -1) with false in H. cbn [when] in H. mgoin H.
  minv H y4 s4 E. apply inem_mk in E. destruct E as (ef & E & ->). change (Output2Bytes W 93 195 e3 = Ok (y4, ef)) in E.
  unfold upde, updd in H. mgoin H. unfold set_em, set_dc, set_lx in H; cbn [lx em dc] in H.
  assert (PD : Pending e3 = 0) by (rewrite (proj1 SL); apply L2).
  assert (FIN : Book ef [] /\ back e3 [] ef [] /\ still e3 ef /\ (IsDeadCode e3 = false -> live e3 /\ ef = put [93; 195] e3 /\ live ef)).
  { destruct (IsDeadCode e3) eqn:DE3.
    - apply out2_dead in E; [|exact DE3]. subst ef. split; [exact BK|]. split; [apply back_refl|]. split; [apply still_refl|discriminate].
    - pose proof (live_still _ _ BK DE3 PD) as L3. apply (out2 W) in E; [|exact L3]. destruct E as [-> L4].
      destruct (put_piece [93; 195] e3 [] BK L3 L4) as (Q1 & Q2 & Q3 & _). { split; intros _; [discriminate|]. exists []. reflexivity. } split; [exact Q1|]. split; [exact Q2|]. split; [exact Q3|]. intros _. auto. }
  destruct FIN as (BF & KF & SF & LF). pose proof (SccArgs.pop_tables _ _ _ H) as (G1 & G2 & G3 & G4). cbn [em dc] in G1, G2, G3, G4.
  change (ScopeCount (set_NamedLabelCount 0 d3)) with (ScopeCount d3) in G1. change (IgnoreRedef (set_NamedLabelCount 0 d3)) with (IgnoreRedef d3) in G2. change (Scopes (set_NamedLabelCount 0 d3)) with (Scopes d3) in G3, G4.
  assert (DD : ScopeCount d3 = 2 /\ IgnoreRedef d3 = IgnoreRedef d /\ aget (Scopes d3) 0 = aget (Scopes d) 0 /\ NextSwitchCase d3 = NextSwitchCase d).
  { destruct DS as ((S & r & -> & Q) & _). cbn [ScopeCount IgnoreRedef Scopes NextSwitchCase set_Scopes]. split; [exact SC|]. split; [reflexivity|]. split; [apply Q; lia|reflexivity]. }
  destruct DD as (D1 & D2 & D3 & D4). rewrite D3 in G3, G4.
  pose proof (still_trans _ _ _ S2 (still_trans _ _ _ SL SF)) as (Z1 & Z2 & _ & Z4).
  apply SccArgs.nc_pop in H. unfold SccArgs.core, SccArgs.ecore, SccArgs.dcore in H. cbn [lx em dc Output CodeAddress Pending RegUse set_LocalLabelCounter] in H.
  assert (CA : CodeAddress (em s') = CodeAddress ef) by congruence. assert (OU : Output (em s') = Output ef) by congruence.
  split; [|split].
  { split; try lia.
    - assert (NextSwitchCase (dc s') = NextSwitchCase (set_NamedLabelCount 0 d3)) as -> by congruence. cbn [NextSwitchCase set_NamedLabelCount]. lia.
    - assert (Pending (em s') = Pending ef) as -> by congruence. rewrite Z1. apply LV.
    - assert (RegUse (em s') = RegUse ef) as -> by congruence. rewrite Z2. apply BG.
    - unfold room. rewrite CA. apply (bk_room _ _ BF).
    - intro a. rewrite OU. pose proof (bk_bytes _ _ BF (a + CODESTART)) as Q. unfold byte in Q. replace (a + CODESTART - CODESTART) with a in Q by lia. exact Q.
    - intros a Q. rewrite CA in Q. rewrite OU. pose proof (bk_after _ _ BF (a + CODESTART) ltac:(lia)) as Q2. unfold byte in Q2. replace (a + CODESTART - CODESTART) with a in Q2 by lia. exact Q2. }
  { intros u U. rewrite (proj1 (proj2 (G4 u U))). cbn [VOff set_LocalLabelCounter em]. rewrite Z4. reflexivity. }
  exists ef. split; [assert (lx s' = l') as -> by congruence; exact ST'|]. split; [exact OU|]. split; [exact CA|]. clear H.
  pose proof (bk_room _ _ B0) as RM. unfold room, CODESTART in RM. split; [exact BF|].
  assert (M3 : forall lo, 256 <= lo -> Match lo ef e3 []) by (intros lo Q; apply (proj1 KF), match_self; assumption).
  split; [apply (proj1 BA), M3; lia|].
  intros K env env' o KE KL KO FR X1 FN. assert (IN : Into (svars st) (sdepth st) d e2 e3 [] K).
  { split; [rewrite (proj2 (proj2 (proj2 S2))); exact KO|]. split; [unfold e2; rewrite put_addr, KL; cbn [List.length]; lia|]. rewrite KE, KL. apply M3. lia. }
  assert (A2 : CodeAddress e2 = CodeAddress e + 3) by (unfold e2; rewrite put_addr; reflexivity). rewrite <- A2.
  apply (RUN K env env' o IN X1). destruct o as [| | |v].
  - intros t R IP. pose proof (normal_falls _ _ _ X1) as FL. rewrite FL in DE. destruct (LF DE) as (L3 & EF & L4).
    apply (reaches_trans (Ret (svars st) K env' (ax (rg t)))); [|intros t' Rt; apply (FN t' (ax (rg t))); [discriminate|exact Rt]].
    apply (ret_run (svars st) (sdepth st) d (VOff e) K KO [] env' e3 ef (ax (rg t)) t FR L3); try (rewrite EF; reflexivity).
    + rewrite <- EF. exact L4.
    + exact I.
    + destruct BA as [_ BA]. rewrite KL. apply (BA (CodeAddress e)). apply floor_live; [apply L2|lia].
    + rewrite KE, KL. apply match_self; [exact BF|lia].
    + exact R.
    + exact IP.
    + symmetry. apply Z.mod_small. apply (r_wf _ _ _ _ R).
  - pose proof (no_jump false st env env' _ WF X1 ltac:(auto)). discriminate.
  - pose proof (no_jump false st env env' _ WF X1 ltac:(auto)). discriminate.
  - split; [exact FR|]. intros t Rt. apply (FN t v); [|exact Rt]. intros w Q. injection Q as ->. reflexivity.
Qed.

(** ** The head *)
Record opened (f : Z) (ps : list Z) (v : Z) (s s1 : cc) : Prop := {
  op_between : between (em s1) (dc s1);
  op_addr : CodeAddress (em s1) = CodeAddress (em s);
  op_out : Output (em s1) = Output (em s);
  op_v : v = aget (Scopes (dc s)) 0;
  op_top : aget (Scopes (dc s1)) 0 = v + 1;
  op_look : forall x, x <> f -> aget (VarLookup (dc s1)) x = aget (VarLookup (dc s)) x;
  op_tab : forall u, u < v -> aget (VType (dc s1)) u = aget (VType (dc s)) u /\ aget (VOff (em s1)) u = aget (VOff (em s)) u;
  op_new : aget (VOff (em s1)) v = 0 /\ aget (VRef (em s1)) v = 0;
  op_cnt : ArgsCount (dc s1) = Z.of_nat (List.length ps);
  op_args : args 0 ps (dc s1) }.
(** a new name in the outermost scope *)
Record named (f v : Z) (e : emst) (d : dcst) (e' : emst) (d' : dcst) : Prop := {
  nm_e : e' = set_VRef (aset (VRef e) v 0) (set_VOff (aset (VOff e) v 0) e);
  nm_look : VarLookup d' = aset (VarLookup d) f (v + 1);
  nm_type : VType d' = aset (VType d) v (CurrentType e);
  nm_scope : Scopes d' = aset (Scopes d) 0 (v + 1);
  nm_same : ScopeCount d' = ScopeCount d /\ IgnoreRedef d' = IgnoreRedef d /\ NextSwitchCase d' = NextSwitchCase d /\ ArgsCount d' = ArgsCount d /\ ArgId d' = ArgId d /\ ArgType d' = ArgType d }.
Lemma named_ok f l e d v s' : ScopeCount d = 1 -> aget (VarLookup d) f = 0 -> AddVarDecl f (mkcc l e d) = Ok (v, s') ->
  v = aget (Scopes d) 0 /\ exists e' d', s' = mkcc l e' d' /\ named f v e d e' d'.
Proof.
  intros SC NW E. unfold AddVarDecl, getd, updd in E. mgoin E. cbn [dc em] in E. rewrite SC in E. change (1 - 1) with 0 in E.
  unfold failif in E. destruct (VARDECL_MAX <=? aget (Scopes d) 0); [discriminate E|]. mgoin E. cbn [dc em] in E. rewrite NW in E. change (0 =? 0) with true in E. cbn [negb] in E. rewrite andb_false_r in E.
  minv E i s1 E1. mgoin E. oki E. unfold AddVarDeclScope, getd, gete, updd, upde in E1. mgoin E1. oki E1. cbn [dc]. split; [reflexivity|]. unfold set_em, set_dc. cbn [lx em dc].
  eexists _, _. split; [reflexivity|]. split; try reflexivity. repeat split.
Qed.
Lemma args_same ps : forall i d d', ArgId d' = ArgId d -> ArgType d' = ArgType d -> args i ps d -> args i ps d'.
Proof. induction ps as [|p ps IH]; intros i d d' E1 E2; cbn [args]; [auto|]. rewrite E1, E2. intros (A & B & C). eauto. Qed.
Lemma ext_open n rt f ps l e d x s' body : between e d -> rt = TOK_INT \/ rt = TOK_VOID -> 37 <= f -> (forall p, In p ps -> 37 <= p /\ no_type d p) -> aget (VarLookup d) f = 0 ->
  stream W F l (htoks rt f ps ++ kw ch_lbrace :: body) -> ParseExternalDefition W F (tie W F n) (mkcc l e d) = Ok (x, s') ->
  exists v s1, opened f ps v (mkcc l e d) s1 /\ stream W F (lx s1) (kw ch_lbrace :: body) /\ function_def W (tie W F n) v s1 = Ok (x, s').
Proof.
  intros BT RT LF PS NW ST H. unfold ParseExternalDefition, ParseFirstDecl in H. unfold htoks in ST. cbn [Datatypes.app] in ST. rewrite <- app_assoc in ST. cbn [Datatypes.app] in ST.
  mgoin H. minv H y0 s0 E. apply (specs_ok W F _ _ _ _ _ _ _ _ _ RT LF (or_introl NW) ST) in E. destruct E as (l0 & -> & ST0).
  unfold getl at 1 in H. mgoin H. cbn [lx] in H. rewrite (disp W F _ _ _ ST0) in H.
  replace (TOK_KEYWORD + f =? ch_semi) with false in H by (symmetry; apply Z.eqb_neq; change TOK_KEYWORD with 150; change ch_semi with 59; lia).
  unfold DoDecl in H. mgoin H. minv H y1 s2 E.
  apply (head_ok W F n f ps _ _ _ _ _ (kw ch_lbrace :: body) LF PS ST0 ltac:(discriminate)) in E. destruct E as (l1 & e1 & d1 & -> & -> & ST1 & ET & CT & DA & AC & AR).
  unfold failif at 1 in H. replace (f <? 0) with false in H by (symmetry; apply Z.ltb_ge; lia). mgoin H.
  destruct ET as (ct & cx & ->). cbn [CurrentType set_CurrentTypeExtra set_CurrentType] in CT. subst ct. destruct DA as (a & b & c & k & -> & _). cbn [ArgsCount set_ArgsCount] in AC. subst k.
  set (ct := Z.lor (spec_of rt) VT_FUN) in *. set (d1 := set_ArgsCount _ _) in *.
  assert (BD : between (set_CurrentTypeExtra cx (set_CurrentType ct (set_CurrentType (spec_of rt) e))) d1) by (destruct BT; split; assumption).
  set (e1 := set_CurrentTypeExtra cx _) in *.
  assert (AR1 : args 0 ps d1) by exact AR. assert (AC1 : ArgsCount d1 = Z.of_nat (List.length ps)) by reflexivity. assert (CT : CurrentType e1 = ct) by reflexivity.
  assert (S1 : VarLookup d1 = VarLookup d /\ VType d1 = VType d /\ Scopes d1 = Scopes d) by (repeat split). assert (S2 : CodeAddress e1 = CodeAddress e /\ Output e1 = Output e /\ VOff e1 = VOff e) by (repeat split).
  clearbody d1 e1. clear AR. destruct S1 as (S11 & S12 & S13), S2 as (S21 & S22 & S23).
  minv H v s3 E. apply named_ok in E; [|apply (bt_scope _ _ BD)|rewrite S11; exact NW]. destruct E as (EV & e2 & d2 & -> & NM).
  unfold SaveBaseType, gete, getd, updd, getl in H. mgoin H. cbn [lx em dc] in H.
  assert (TE : ct = VT_INT + VT_FUN \/ ct = VT_VOID + VT_FUN) by (unfold ct, spec_of; destruct RT as [-> | ->]; [left|right]; reflexivity).
  assert (C2 : CurrentType e2 = ct) by (rewrite (nm_e _ _ _ _ _ _ NM); exact CT). rewrite C2 in H.
  replace (Z.land ct VT_BASEMASK =? VT_ARRAY) with false in H by (destruct TE as [-> | ->]; reflexivity). mgoin H. unfold set_em, set_dc in H. cbn [lx em dc] in H.
  assert (V0 : 0 <= v) by (rewrite EV; apply (bt_top _ _ BD)).
  replace (v + 1 =? 0) with false in H by (symmetry; apply Z.eqb_neq; lia). mgoin H. unfold set_em, set_dc in H. cbn [lx em dc] in H. replace (v + 1 - 1) with v in H by lia.
  cbn [VType set_VType set_BaseType set_BaseTypeExtra] in H. rewrite aget_aset_same in H. rewrite (nm_type _ _ _ _ _ _ NM), aget_aset_same, CT in H.
  replace (hasb (clr ct VT_STATIC) VT_FUN) with true in H by (destruct TE as [-> | ->]; reflexivity). mgoin H. unfold set_em, set_dc in H. cbn [lx em dc] in H.
  rewrite (disp W F _ _ _ ST1) in H. change (negb (ch_lbrace =? ch_lbrace)) with false in H. cbv iota in H.
  eexists v, _. split; [|split; [|exact H]]; [|exact ST1]. clear H ST1 ST. destruct NM as [N1 N2 N3 N4 (N5 & N6 & N7 & N8 & N9 & N10)]. subst e2. destruct BD.
  split; cbn [lx em dc VType VRef VOff VarLookup Scopes ArgsCount Output CodeAddress set_VRef set_VOff set_VType set_BaseType set_BaseTypeExtra].
  - split; cbn [ScopeCount IgnoreRedef Scopes NextSwitchCase set_VType set_BaseType set_BaseTypeExtra]; try assumption.
    + congruence.
    + congruence.
    + rewrite N4, aget_aset_same. lia.
    + congruence.
  - exact S21.
  - exact S22.
  - rewrite EV, S13. reflexivity.
  - rewrite N4, aget_aset_same. reflexivity.
  - intros y N. rewrite N2, aget_aset_other by auto. rewrite S11. reflexivity.
  - intros u U. rewrite !aget_aset_other by lia. rewrite S12, S23. auto.
  - rewrite !aget_aset_same. auto.
  - congruence.
  - apply (args_same ps 0 d1); [exact N9|exact N10|exact AR1].
Qed.
End W.
