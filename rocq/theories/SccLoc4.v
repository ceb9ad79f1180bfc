(** The body of a function with local variables, from the text to the return. *)
From Verif Require Import Base Bits Spec8086 SpecWf SccRun SccState SccEmit SccLex SccDecl SccExpr SccStmt SccInput SccPut SccArith SccOps SccJump SccMem SccFix SccHold SccFlush SccSem SccBin SccVal SccComp SccBody SccParse SccWhole SccImg SccStep SccAsn SccMach SccPiece SccStm SccProg SccHead ExprSpec StmtSpec Props_SccStmt SccFun SccLoc SccLoc2 SccLoc3.
From Verif Require SccArgs.

(** { int x = e; ... statements } *)
Definition ltoks (ds : list ldecl) (ls : list stmt) : list token := kw ch_lbrace :: flat_map dtoks ds ++ flat_map stoks ls ++ [kw ch_rbrace].

Section W.
Variables (W : Z) (F : nat).
Hypothesis HW : 16 <= W.
Ltac bool_tests H := repeat match type of H with
  | context [?a =? ?b] => let v := eval vm_compute in (a =? b) in match v with true => change (a =? b) with true in H | false => change (a =? b) with false in H end
  end; cbv iota in H.
Ltac mk H := unfold set_em, set_dc, set_lx in H; cbn [lx em dc] in H.

(** the braces *)
Record Braced (ds : list ldecl) (ls : list stmt) (V : list Z) (e : emst) (d : dcst) (e7 : emst) (d7 : dcst) (P : list mark) : Prop := {
  b_book : Book e7 P;
  b_back : back e [] e7 P;
  b_pend : Pending e7 = 2 * Z.of_nat (List.length ds);
  b_reg : RegUse e7 = false;
  b_dead : IsDeadCode e7 = true -> 0 <= ReturnLabel d7;
  b_marks : forall k x, In (k, x) P -> k = ReturnLabel d7 /\ 0 <= ReturnLabel d7;
  b_scope : ScopeCount d7 = ScopeCount d /\ IgnoreRedef d7 = IgnoreRedef d /\ NextSwitchCase d7 = NextSwitchCase d /\ aget (Scopes d) 0 <= aget (Scopes d7) 0;
  b_offs : forall u, u < aget (Scopes d) 0 -> aget (VOff e7) u = aget (VOff e) u;
  b_run : forall u at_ env env1 env' o, run_ok u -> u_low u + 2 * Z.of_nat (List.length ds) + 2 * Z.of_nat (Nat.max (ddepth ds) (sdepth (SBlock ls))) <= u_bp u ->
    u_lo u <= CodeAddress e -> Match (u_lo u) (u_ef u) e7 P -> LAt u V d (VOff e) at_ (u_bp u) -> (forall x, In x V -> at_ x + 1 < u_bp u \/ u_bp u + 4 <= at_ x) ->
    (IsDeadCode e7 = false -> Leave (u_ef u) (u_lo u) V ds (CodeAddress e7)) -> (0 <= ReturnLabel d7 -> Leave (u_ef u) (u_lo u) V ds (aget (LAddr (u_ef u)) (ReturnLabel d7))) ->
    dexec ds env env1 -> sexec (SBlock ls) env1 env' o ->
    (forall t v, (forall w, o = Returned w -> v mod 65536 = w mod 65536) -> Ret (outer V ds) (kof u at_ (u_bp u) (u_m0 u)) env' v t -> reaches (u_fin u) t) ->
    forall t, LRel u V at_ (u_bp u) env t -> ip t = CodeAddress e -> reaches (u_fin u) t }.
Lemma braced_ok n ds ls V l e d x s' rest : let st := SBlock ls in
  Book e [] -> live e -> RegUse e = false -> LocalOffset e = 0 -> decls V d (VOff e) -> NextSwitchCase d < 0 -> ReturnLabel d = -1 -> 2 <= ScopeCount d -> 1 <= IgnoreRedef d -> 0 <= aget (Scopes d) 0 <= top_of d ->
  (forall y, In y V -> aget (VarLookup d) y <= top_of d) -> ds <> [] -> scoped V ds -> (forall x, In x (map fst ds) -> 37 <= x /\ no_type d x) ->
  wf_stmt false st -> incl (svars st) (seen V ds) -> stream W F l (ltoks ds ls ++ rest) -> rest <> [] -> pStatement (tie W F n) (mkcc l e d) = Ok (x, s') ->
  exists l' e' d' P, s' = mkcc l' e' d' /\ stream W F l' rest /\ Braced ds ls V e d e' d' P.
Proof.
  intros st B L RU LO DC NC RL SC IR S0 IN NE SCO NM WF IX ST NR H. unfold ltoks in ST. cbn [Datatypes.app] in ST. rewrite <- !app_assoc in ST. cbn [Datatypes.app] in ST.
  destruct n as [|n]; [discriminate H|]. cbn [tie pStatement] in H. unfold ParseStatement, getl in H. mgoin H. mk H. rewrite (disp W F _ _ _ ST) in H. bool_tests H.
  unfold compound_stmt, PushScope, gete, getd, updd in H. mgoin H. mk H. minv H y0 s0 E0. unfold failif in E0. destruct (ScopeCount d =? SCOPE_MAX); [discriminate|]. oki E0. mgoin H. mk H. rewrite LO in H.
  set (sc := ScopeCount d) in *. set (d1 := set_IgnoreRedef (IgnoreRedef d + 1) (set_ScopeCount (sc + 1) (set_Scopes (aset (Scopes d) sc (aget (Scopes d) (sc - 1))) d))).
  match type of H with bind _ _ ?st = _ => change st with (mkcc l e d1) in H end.
  minv H y1 s1 E1. apply (expect_mk W F _ _ _ _ _ _ _ _ ST) in E1; [|destruct ds as [|[? ?] ?]; [contradiction|discriminate]]. destruct E1 as (l1 & -> & ST1). minv H y2 s2 E2. fold (item W F n) in E2.
  assert (T1 : top_of d1 = top_of d). { unfold top_of at 1. change (ScopeCount d1) with (sc + 1). replace (sc + 1 - 1) with sc by lia. change (Scopes d1) with (aset (Scopes d) sc (aget (Scopes d) (sc - 1))). rewrite aget_aset_same. reflexivity. }
  assert (FR : Fr V e d1).
  { split; auto.
    - change (IgnoreRedef d1) with (IgnoreRedef d + 1). lia.
    - change (ScopeCount d1) with (sc + 1). lia.
    - lia.
    - intros z I. rewrite T1. exact (IN z I). }
  destruct n as [|n].
  { destruct ds as [|[z ex] ds]; [contradiction|]. cbn [flat_map] in ST1. destruct (item_next W F 0 F l1 e d1 (kw TOK_INT) _ y2 s2 ST1 ltac:(intro Q; vm_compute in Q; discriminate Q) E2) as (k1 & z1 & s3 & E & _). discriminate E. }
  destruct (decls_ok W F HW n ds V F l1 e d1 y2 s2 _ FR SCO NM ST1 ltac:(destruct (flat_map stoks ls); discriminate) E2) as (k' & l2 & e3 & d3 & E3 & ST2 & DS & FR3 & RUN1). clear E2.
  pose proof DS as [DS1 DS2 DS3 DS4 DS5 DS6 DS7 (DS8 & DS9 & DS10 & DS11)]. set (X := seen V ds) in *. set (Lv := LocalOffset e3).
  assert (LN : Lv = - (2 * Z.of_nat (List.length ds))) by (unfold Lv; lia). assert (LN0 : Lv <> 0) by (destruct ds; [contradiction|cbn [List.length] in LN; lia]).
  assert (PR : Pre X Lv false e3 d3 []).
  { destruct FR3. split; auto; try discriminate. intros _. left. rewrite DS11. change (ReturnLabel d1) with (ReturnLabel d). lia. }
  destruct (items_ok W F X (sdepth st) Lv (S n) false (stmt_ok W F HW X (sdepth st) Lv (S n)) ls k' l2 e3 d3 [] y2 s2 rest PR WF IX (le_n _) ST2 E3) as (l4 & e4 & d4 & P & -> & ST4 & SM & SS & (DE4 & RX4) & RUN4). clear E3.
  minv H y3 s3 E3. apply (next_mk W F _ _ _ _ _ _ _ ST4 NR) in E3. destruct E3 as (l5 & -> & ST5).
  minv H y4 s4 E4. pose proof (SccArgs.pop_tables _ _ _ E4) as (G1 & G2 & G3 & G4). apply SccArgs.nc_pop in E4. destruct s4 as [l6 e6 d6]. unfold SccArgs.core, SccArgs.ecore, SccArgs.dcore in E4. cbn [lx em dc] in E4, G1, G2, G3, G4.
  assert (C0 : l6 = l5) by congruence. assert (C1 : Output e6 = Output e4) by congruence. assert (C2 : CodeAddress e6 = CodeAddress e4) by congruence. assert (C3 : IsDeadCode e6 = IsDeadCode e4) by congruence.
  assert (C4 : Pending e6 = Pending e4) by congruence. assert (C5 : RegUse e6 = RegUse e4) by congruence. assert (C6 : LocalLabelCounter e6 = LocalLabelCounter e4) by congruence. assert (C7 : LastFixup e6 = LastFixup e4) by congruence.
  assert (C8 : LAddr e6 = LAddr e4) by congruence. assert (C9 : LRef e6 = LRef e4) by congruence. assert (C10 : LocalOffset e6 = LocalOffset e4) by congruence.
  assert (C11 : NextSwitchCase d6 = NextSwitchCase d4) by congruence. assert (C12 : ReturnLabel d6 = ReturnLabel d4) by congruence. clear E4. subst l6.
  unfold addPending, upde in H. mgoin H. mk H. oki H. cbn [lx em dc].
  match goal with |- context [mkcc l5 ?a ?b] => set (e7 := a); set (d7 := b) end.
  pose proof (t_still _ _ _ _ _ _ SS) as (Z1 & Z2 & Z3 & Z4).
  assert (LO6 : LocalOffset e6 = Lv) by (rewrite C10, Z3; reflexivity). pose proof (f_live _ _ _ FR3) as L3.
  assert (KN : kern e7 = kern e4) by (unfold kern, e7; cbn [Output CodeAddress IsDeadCode LRef LAddr LocalLabelCounter LastFixup set_LocalOffset set_Pending]; rewrite C1, C2, C3, C6, C7, C8, C9; reflexivity).
  assert (R7 : ReturnLabel d7 = ReturnLabel d4) by exact C12.
  assert (SC4 : ScopeCount d4 = sc + 1 /\ IgnoreRedef d4 = IgnoreRedef d + 1 /\ NextSwitchCase d4 = NextSwitchCase d /\ aget (Scopes d4) 0 = aget (Scopes d) 0).
  { destruct SM as ((S & r & -> & Q) & _). cbn [ScopeCount IgnoreRedef Scopes NextSwitchCase set_Scopes set_ReturnLabel]. rewrite DS8, DS9, DS10. split; [reflexivity|]. split; [reflexivity|]. split; [reflexivity|].
    rewrite Q by (rewrite DS8; change (ScopeCount d1) with (sc + 1); lia). rewrite DS6 by (change (ScopeCount d1) with (sc + 1); lia). change (Scopes d1) with (aset (Scopes d) sc (aget (Scopes d) (sc - 1))). apply aget_aset_other. lia. }
  destruct SC4 as (SC41 & SC42 & SC43 & SC44).
  exists l5, e7, d7, P. split; [reflexivity|]. split; [exact ST5|]. pose proof (kern_back _ _ P KN) as BA7.
  split.
  - exact (kern_book _ _ _ KN (t_book _ _ _ _ _ _ SS)).
  - exact (back_trans _ _ _ _ _ _ DS1 (back_trans _ _ _ _ _ _ (t_back _ _ _ _ _ _ SS) BA7)).
  - unfold e7. cbn [Pending set_LocalOffset set_Pending]. rewrite LO6, C4, Z1, (proj1 (proj2 L3)). lia.
  - unfold e7. cbn [RegUse set_LocalOffset set_Pending]. rewrite C5, Z2. apply (f_reg _ _ _ FR3).
  - intro D7. rewrite R7. apply RX4; [reflexivity|exact LN0|]. change (IsDeadCode e6 = true) in D7. rewrite C3, DE4 in D7. destruct (falls (SBlock ls)); [discriminate D7|reflexivity].
  - intros k z I. rewrite R7. destruct (t_mark _ _ _ _ _ _ SS k z I) as [[]|J]. unfold targets in J. cbn [Datatypes.app] in J. unfold rt in J. destruct (Lv =? 0); [destruct J|]. cbn [orb] in J.
    destruct (Z.ltb_spec (ReturnLabel d4) 0); [destruct J|]. destruct J as [J|[]]. split; [symmetry; exact J|lia].
  - change (ScopeCount d7) with (ScopeCount d6). change (IgnoreRedef d7) with (IgnoreRedef d6). change (NextSwitchCase d7) with (NextSwitchCase d6). change (Scopes d7) with (Scopes d6).
    split; [rewrite G1; unfold sc in *; lia|]. split; [lia|]. split; [congruence|]. rewrite SC44 in G3. exact G3.
  - intros u U. change (VOff e7) with (VOff e6). rewrite SC44 in G4. pose proof (proj1 (proj2 (G4 u U))) as G5. cbn [em] in G5. rewrite G5, Z4. apply DS4. rewrite T1. lia.
  - intros u at_ env env1 env' o UO LW UL M LA FRM LV1 LV2 X1 X2 FN t LR IP.
    pose proof (Nat2Z.inj_max (ddepth ds) (sdepth st)) as MX. fold st in LW.
    assert (M4 : Match (u_lo u) (u_ef u) e4 P) by exact (proj1 BA7 _ _ M). pose proof (proj1 (t_back _ _ _ _ _ _ SS) _ _ M4) as M3.
    assert (EQ : u_bp u + LocalOffset e = u_bp u) by lia.
    assert (LA' : LAt u V d1 (VOff e) at_ (u_bp u + LocalOffset e)) by (rewrite EQ; destruct LA; split; auto).
    destruct (RUN1 u at_ UO ltac:(lia) ltac:(lia) UL M3 LA') as [LA3 R3]. rewrite EQ in LA3, R3. clear LA'. fold X in LA3, R3.
    eapply reaches_trans; [exact (R3 env env1 t LR X1 IP)|]. cbv beta. intros t1 [LR1 IP1].
    set (sp' := u_bp u - 2 * Z.of_nat (List.length ds)) in *. set (at' := dplace at_ (u_bp u) ds) in *.
    destruct (kof_ok u X X (sdepth st) d3 (VOff e3) at' sp' env1 t1 UO LA3 LR1 ltac:(intros z I; exact I) ltac:(unfold sp'; lia) ltac:(unfold sp'; lia)) as [KO MR].
    assert (IN4 : Into X (sdepth st) d3 e3 e4 P (kof u at' sp' (mem t1))) by (split; [exact KO|]; split; [cbn [kof k_lo]; lia|exact M4]).
    apply (RUN4 (kof u at' sp' (mem t1)) env1 env' o IN4 X2); [|exact MR|exact IP1].
    assert (LW' : u_low u <= sp') by (unfold sp'; lia).
    destruct o as [| | |w].
    + intros t2 MR2 IP2. pose proof (normal_falls _ _ _ X2) as FL. rewrite FL in DE4. change (CodeAddress e7) with (CodeAddress e6) in LV1. change (IsDeadCode e7) with (IsDeadCode e6) in LV1. rewrite C3 in LV1. specialize (LV1 DE4).
      apply (LV1 u at_ d (VOff e) d3 (VOff e3) (sdepth st) env1 env' t1 t2 (ax (rg t2)) eq_refl eq_refl UO LA FRM LW' LR1 KO MR2); [rewrite C2; exact IP2|symmetry; apply Z.mod_small; apply (r_wf _ _ _ _ MR2)|].
      intros t' Rt. apply (FN t' (ax (rg t2))); [discriminate|exact Rt].
    + pose proof (no_jump false st env1 env' _ WF X2 ltac:(auto)). discriminate.
    + pose proof (no_jump false st env1 env' _ WF X2 ltac:(auto)). discriminate.
    + unfold GoodO. rewrite (proj2 (Z.eqb_neq _ _) LN0). intros t2 RP MR2 IP2 AX2. rewrite R7 in LV2. cbn [kof k_ef] in IP2.
      apply (LV2 RP u at_ d (VOff e) d3 (VOff e3) (sdepth st) env1 env' t1 t2 w eq_refl eq_refl UO LA FRM LW' LR1 KO MR2 IP2 AX2).
      intros t' Rt. apply (FN t' w); [|exact Rt]. intros w' Q. injection Q as ->. reflexivity.
Qed.

(** PUSH BP; MOV BP, SP; the braces; the end of the function *)
Lemma lbody_ok n ds ls V s1 x s' rest : let st := SBlock ls in
  begins (em s1) -> decls V (dc s1) (VOff (em s1)) -> NextSwitchCase (dc s1) < 0 -> ReturnLabel (dc s1) = -1 -> ScopeCount (dc s1) = 2 -> 1 <= IgnoreRedef (dc s1) ->
  0 <= aget (Scopes (dc s1)) 0 <= aget (Scopes (dc s1)) 1 -> (forall y, In y V -> aget (VarLookup (dc s1)) y <= aget (Scopes (dc s1)) 1) ->
  ds <> [] -> (List.length ds <= 380)%nat -> scoped V ds -> (forall x, In x (map fst ds) -> 37 <= x /\ no_type (dc s1) x) ->
  wf_stmt false st -> incl (svars st) (seen V ds) -> stream W F (lx s1) (ltoks ds ls ++ rest) -> rest <> [] -> body_part W (tie W F n) s1 = Ok (x, s') ->
  between (em s') (dc s') /\ (forall u, u < aget (Scopes (dc s1)) 0 -> aget (VOff (em s')) u = aget (VOff (em s1)) u) /\
  exists ef, stream W F (lx s') rest /\ Output (em s') = Output ef /\ CodeAddress (em s') = CodeAddress ef /\ Book ef [] /\
  Match (CodeAddress (em s1)) ef (put [85; 137; 229] (em s1)) [] /\
  forall u at_ env env1 env' o, u_ef u = ef -> u_lo u = CodeAddress (em s1) -> run_ok u ->
    u_low u + 2 * Z.of_nat (List.length ds) + 2 * Z.of_nat (Nat.max (ddepth ds) (sdepth st)) <= u_bp u ->
    LAt u V (dc s1) (VOff (em s1)) at_ (u_bp u) -> (forall x, In x V -> at_ x + 1 < u_bp u \/ u_bp u + 4 <= at_ x) -> dexec ds env env1 -> sexec st env1 env' o ->
    (forall t v, (forall w, o = Returned w -> v mod 65536 = w mod 65536) -> Ret (outer V ds) (kof u at_ (u_bp u) (u_m0 u)) env' v t -> reaches (u_fin u) t) ->
    forall t, LRel u V at_ (u_bp u) env t -> ip t = CodeAddress (em s1) + 3 -> reaches (u_fin u) t.
Proof.
  intros st BG DC NC RL SC IR S0 IN NE LD SCO NM WF IX ST NR H. unfold body_part, o1, o2 in H. destruct s1 as [l e d]. cbn [lx em dc] in *.
  assert (LV : live e) by apply BG. pose proof (begins_book _ BG) as B0.
  minv H y1 s2 E. apply inem_mk in E. destruct E as (e1 & E & ->). change (Z.lor I_PUSH R_BP) with 85 in E. apply (out1 W) in E; [|exact LV]. destruct E as [-> L1].
  minv H y2 s2 E. apply inem_mk in E. destruct E as (e2 & E & ->). unfold EmitMovRR in E. change (Output2Bytes W 137 229 (put [85] e) = Ok (y2, e2)) in E. apply (out2 W) in E; [|exact L1]. destruct E as [-> L2].
  rewrite <- put_app in H, L2. cbn [Datatypes.app] in H, L2. set (e2 := put [85; 137; 229] e) in *.
  destruct (put_piece [85; 137; 229] e [] B0 LV L2) as (B2 & K2 & S2 & _). { split; intro Q; vm_compute in Q; discriminate Q. } fold e2 in B2, K2, S2. pose proof S2 as (Q1 & Q2 & Q3 & Q4).
  assert (TP : top_of d = aget (Scopes d) 1) by (unfold top_of; rewrite SC; reflexivity).
  minv H y3 s3 E.
  assert (DC2 : decls V d (VOff e2)) by (rewrite Q4; exact DC). assert (RU2 : RegUse e2 = false) by (rewrite Q2; apply BG). assert (LO2 : LocalOffset e2 = 0) by (rewrite Q3; apply BG).
  assert (SC2 : 2 <= ScopeCount d) by lia. assert (S02 : 0 <= aget (Scopes d) 0 <= top_of d) by (rewrite TP; exact S0). assert (IN2 : forall y, In y V -> aget (VarLookup d) y <= top_of d) by (rewrite TP; exact IN).
  destruct (braced_ok n ds ls V l e2 d y3 s3 rest B2 L2 RU2 LO2 DC2 NC RL SC2 IR S02 IN2 NE SCO NM WF IX ST NR E) as (l' & e3 & d3 & P & -> & ST' & [BK BA PD RU DE MK (D1 & D2 & D4 & D3) VO RUN]). clear E.
  assert (EPI : exists ef, epi W (ReturnLabel d3) e3 ef /\ (upde (set_LocalLabelCounter 0);; updd (set_NamedLabelCount 0);; PopScope) (mkcc l' ef d3) = Ok (x, s')).
  { unfold getd in H. mgoin H. cbn [dc] in H. unfold epi. destruct (0 <=? ReturnLabel d3); cbn [when] in H.
    - minv H z1 t1 E. minv E z2 t2 E'. apply inem_mk in E'. destruct E' as (e5 & E5 & ->). apply inem_mk in E. destruct E as (e6 & E6 & ->). minv H z3 t3 E. apply inem_mk in E. destruct E as (ef & E7 & ->).
      change (Z.lor I_POP R_BP) with 93 in E7. exists ef. split; [exists e5, e6, z2, z1, z3; auto|exact H].
    - mgoin H. minv H z3 t3 E. apply inem_mk in E. destruct E as (ef & E7 & ->). change (Z.lor I_POP R_BP) with 93 in E7. exists ef. split; [exists z3; exact E7|exact H]. }
  clear H. destruct EPI as (ef & EP & H).
  destruct (epilogue_ok W HW V ds (ReturnLabel d3) e3 P ef NE LD BK PD DE MK EP) as (BF & KF & PF & RF & VF & LVS).
  unfold upde, updd in H. mgoin H. unfold set_em, set_dc, set_lx in H; cbn [lx em dc] in H.
  pose proof (SccArgs.pop_tables _ _ _ H) as (G1 & G2 & G3 & G4). cbn [em dc] in G1, G2, G3, G4.
  change (ScopeCount (set_NamedLabelCount 0 d3)) with (ScopeCount d3) in G1. change (IgnoreRedef (set_NamedLabelCount 0 d3)) with (IgnoreRedef d3) in G2. change (Scopes (set_NamedLabelCount 0 d3)) with (Scopes d3) in G3, G4.
  apply SccArgs.nc_pop in H. unfold SccArgs.core, SccArgs.ecore, SccArgs.dcore in H. cbn [lx em dc Output CodeAddress Pending RegUse set_LocalLabelCounter] in H.
  assert (CA : CodeAddress (em s') = CodeAddress ef) by congruence. assert (OU : Output (em s') = Output ef) by congruence.
  split; [|split].
  { split; try lia.
    - assert (NextSwitchCase (dc s') = NextSwitchCase (set_NamedLabelCount 0 d3)) as -> by congruence. cbn [NextSwitchCase set_NamedLabelCount]. lia.
    - assert (Pending (em s') = Pending ef) as -> by congruence. exact PF.
    - assert (RegUse (em s') = RegUse ef) as -> by congruence. rewrite RF. exact RU.
    - unfold room. rewrite CA. apply (bk_room _ _ BF).
    - intro a. rewrite OU. pose proof (bk_bytes _ _ BF (a + CODESTART)) as Q. unfold byte in Q. replace (a + CODESTART - CODESTART) with a in Q by lia. exact Q.
    - intros a Q. rewrite CA in Q. rewrite OU. pose proof (bk_after _ _ BF (a + CODESTART) ltac:(lia)) as Q0. unfold byte in Q0. replace (a + CODESTART - CODESTART) with a in Q0 by lia. exact Q0. }
  { intros u U. rewrite (proj1 (proj2 (G4 u ltac:(lia)))). cbn [VOff set_LocalLabelCounter em]. rewrite VF, (VO u U), Q4. reflexivity. }
  exists ef. split; [assert (lx s' = l') as -> by congruence; exact ST'|]. split; [exact OU|]. split; [exact CA|]. clear H.
  pose proof (bk_room _ _ B0) as RM. unfold room, CODESTART in RM. split; [exact BF|].
  assert (A2 : CodeAddress e2 = CodeAddress e + 3) by (unfold e2; rewrite put_addr; reflexivity).
  assert (M3 : Match (CodeAddress e) ef e3 P) by (apply (proj1 KF), match_self; [exact BF|lia]).
  split; [apply (proj1 BA); exact M3|].
  intros u at_ env env1 env' o UE UL UO LW LA FRM X1 X2 FN t LR IP.
  assert (FL2 : floor (CodeAddress e) e2 []) by (apply floor_live; [apply L2|lia]).
  destruct (LVS (CodeAddress e) ltac:(lia) (proj2 BA _ FL2)) as [LV1 LV2].
  apply (RUN u at_ env env1 env' o UO LW).
  - lia.
  - rewrite UE, UL. exact M3.
  - rewrite Q4. exact LA.
  - exact FRM.
  - rewrite UE, UL. exact LV1.
  - rewrite UE, UL. exact LV2.
  - exact X1.
  - exact X2.
  - exact FN.
  - exact LR.
  - lia.
Qed.
End W.
