(** The statement functions of the compiler as a whole: simple statements, blocks, and the choice between the forms. *)
From Verif Require Import Base Bits Spec8086 SpecWf SccRun SccState SccEmit SccLex SccDecl SccExpr SccStmt SccInput SccPut SccArith SccOps SccJump SccMem SccFix SccHold SccFlush SccSem SccBin SccVal SccComp SccBody SccParse SccWhole SccImg SccStep SccAsn SccMach SccPiece SccStm ExprSpec StmtSpec.

Section W.
Variables (W : Z) (F : nat).
Hypothesis HW : 16 <= W.
Variables (X : list Z) (D : nat) (Lv : Z).
Notation PStmt := (PStmt W F X D Lv).
Notation Post := (Post W F X D Lv).
Notation Pre := (Pre X Lv).
Notation Good := (Good X).
Notation Runs := (Runs X D Lv).
Notation same := (same Lv).
Notation rt := (rt Lv).
Ltac nn := first [discriminate | assumption | match goal with |- ?a ++ _ <> [] => destruct a; cbn [Datatypes.app]; nn end].

(** *** Simple statements *)
Lemma skip_ok b l e d P x s' rest : Pre b e d P -> stream W F l (stoks SSkip ++ rest) -> rest <> [] -> next W F (mkcc l e d) = Ok (x, s') -> Post b SSkip e d P s' rest.
Proof.
  intros PR ST NR H. apply (next_mk W F _ _ _ _ _ _ _ ST NR) in H. destruct H as (l' & -> & ST'). exists l', e, d, P. split; [reflexivity|]. split; [exact ST'|]. split; [apply same_refl|].
  split; [apply (st_close [] [] _ _ _ _ _ (st_refl _ _ (p_book _ _ _ _ _ _ PR)) (p_book _ _ _ _ _ _ PR)); intros k []|]. split; [split; [apply PR|intros _ _ Q; discriminate Q]|].
  intros K env env' o I X1 G. inversion X1; subst. exact G.
Qed.
Lemma asn_ok n b a l e d P x s' rest : Pre b e d P -> wf_stmt b (SAsn a) -> incl (svars (SAsn a)) X -> (sdepth (SAsn a) <= D)%nat ->
  stream W F l (stoks (SAsn a) ++ rest) -> rest <> [] -> simple_stmt W F (tie W F n) (mkcc l e d) = Ok (x, s') -> Post b (SAsn a) e d P s' rest.
Proof.
  intros PR GA IX DX ST NR H. cbn [wf_stmt] in GA. cbn [stoks svars sdepth] in *. rewrite <- app_assoc in ST. cbn [Datatypes.app] in ST.
  destruct (asn_stmt W F HW X D n a (mkcc l e d) x s' rest GA IX DX (p_decl _ _ _ _ _ _ PR) (p_live _ _ _ _ _ _ PR) (p_reg _ _ _ _ _ _ PR) ST NR H) as (e' & l' & -> & ST' & A).
  cbn [em dc] in *. destruct (st_asn X D d a e e' P (p_book _ _ _ _ _ _ PR) (p_live _ _ _ _ _ _ PR) A) as (S & L' & A1 & A2 & RUN).
  exists l', e', d, P. split; [reflexivity|]. split; [exact ST'|]. split; [apply same_refl|]. split; [apply (st_close [] [] _ _ _ _ _ S (p_book _ _ _ _ _ _ PR)); intros k []|]. split; [split; [apply L'|intros _ _ Q; discriminate Q]|].
  intros K env env' o I X1 G. inversion X1; subst. apply (RUN K env env' I); auto.
Qed.
Lemma no_pend e z : z = 0 -> set_Pending (Pending e + z) e = e.
Proof. intros ->. rewrite Z.add_0_r. destruct e; reflexivity. Qed.
Lemma break_ok l e d P x s' rest : Pre true e d P -> stream W F l (stoks SBreak ++ rest) -> rest <> [] ->
  (next W F ;; (let! b := getd BStackLevel in let! lo := gete LocalOffset in addPending (b - lo) ;; let! l := getd BreakLabel in inem (EmitJmp W l) ;; GetSemicolon W F)) (mkcc l e d) = Ok (x, s') ->
  Post true SBreak e d P s' rest.
Proof.
  intros PR ST NR H. cbn [stoks Datatypes.app] in ST. destruct (p_loop _ _ _ _ _ _ PR eq_refl) as (IL & B0 & C0).
  minv H y0 s0 E0. apply (next_mk W F _ _ _ _ _ _ _ ST) in E0; [|nn]. destruct E0 as (l0 & -> & ST0). unfold getd, gete, addPending, upde in H. mgoin H.
  cbn [lx em dc set_em] in H. rewrite no_pend in H by (rewrite B0, (p_off _ _ _ _ _ _ PR); lia).
  minv H y1 s1 E1. apply inem_mk in E1. destruct E1 as (e1 & E1 & ->).
  destruct (st_jmp W HW X D _ e P y1 e1 (p_book _ _ _ _ _ _ PR) (proj1 (proj2 (p_live _ _ _ _ _ _ PR))) (or_introl (il_b0 _ _ _ IL)) E1) as (P1 & S1 & DE1 & A1 & C1 & RUN1).
  apply (semi_mk W F _ _ _ _ _ _ ST0 NR) in H. destruct H as (l2 & -> & ST2).
  exists l2, e1, d, P1. split; [reflexivity|]. split; [exact ST2|]. split; [apply same_refl|]. split; [|split; [split; [exact DE1|discriminate]|]].
  - apply (st_close _ _ _ _ _ _ _ S1 (p_book _ _ _ _ _ _ PR)); [intros k []|]. intros k [<-|[]]. left. apply in_or_app. left. left. reflexivity.
  - intros K env env' o I X1 G. inversion X1; subst. exact (RUN1 (proj1 (p_live _ _ _ _ _ _ PR)) d K env' I G).
Qed.
Lemma continue_ok l e d P x s' rest : Pre true e d P -> stream W F l (stoks SContinue ++ rest) -> rest <> [] ->
  (next W F ;; (let! b := getd CStackLevel in let! lo := gete LocalOffset in addPending (b - lo) ;; let! l := getd ContinueLabel in inem (EmitJmp W l) ;; GetSemicolon W F)) (mkcc l e d) = Ok (x, s') ->
  Post true SContinue e d P s' rest.
Proof.
  intros PR ST NR H. cbn [stoks Datatypes.app] in ST. destruct (p_loop _ _ _ _ _ _ PR eq_refl) as (IL & B0 & C0).
  minv H y0 s0 E0. apply (next_mk W F _ _ _ _ _ _ _ ST) in E0; [|nn]. destruct E0 as (l0 & -> & ST0). unfold getd, gete, addPending, upde in H. mgoin H.
  cbn [lx em dc set_em] in H. rewrite no_pend in H by (rewrite C0, (p_off _ _ _ _ _ _ PR); lia).
  minv H y1 s1 E1. apply inem_mk in E1. destruct E1 as (e1 & E1 & ->).
  destruct (st_jmp W HW X D _ e P y1 e1 (p_book _ _ _ _ _ _ PR) (proj1 (proj2 (p_live _ _ _ _ _ _ PR))) (il_c0 _ _ _ IL) E1) as (P1 & S1 & DE1 & A1 & C1 & RUN1).
  apply (semi_mk W F _ _ _ _ _ _ ST0 NR) in H. destruct H as (l2 & -> & ST2).
  exists l2, e1, d, P1. split; [reflexivity|]. split; [exact ST2|]. split; [apply same_refl|]. split; [|split; [split; [exact DE1|discriminate]|]].
  - apply (st_close _ _ _ _ _ _ _ S1 (p_book _ _ _ _ _ _ PR)); [intros k []|]. intros k [<-|[]]. left. apply in_or_app. left. right. left. reflexivity.
  - intros K env env' o I X1 G. inversion X1; subst. exact (RUN1 (proj1 (p_live _ _ _ _ _ _ PR)) d K env' I G).
Qed.
Lemma return_inv ex env env' o : sexec (SReturn ex) env env' o -> exists v, env' = env /\ o = Returned v /\ value env ex v.
Proof. intro H. inversion H; subst. eauto. Qed.
(** the label of the function's end is made when it is first needed *)
Lemma ret_label l e d P x s' : Book e P -> Lv <> 0 -> ReturnLabel d < 0 \/ 0 <= ReturnLabel d < LocalLabelCounter e /\ aget (LAddr e) (ReturnLabel d) = 0 ->
  (when (ReturnLabel d <? 0) (let! l := inem MakeLabel in updd (set_ReturnLabel l))) (mkcc l e d) = Ok (x, s') ->
  exists e' d', s' = mkcc l e' d' /\ St [] [] e P e' P /\ same e d e' d' /\ 0 <= ReturnLabel d' /\ aget (LAddr e') (ReturnLabel d') = 0 /\ CodeAddress e' = CodeAddress e /\ IsDeadCode e' = IsDeadCode e.
Proof.
  intros B N R H. destruct (Z.ltb_spec (ReturnLabel d) 0) as [R0|R0]; cbn [when] in H.
  - minv H k s1 E. apply inem_mk in E. destruct E as (e1 & E & ->). destruct (st_make e P k e1 B E) as (S & K1 & C1 & A1 & CA & DE). unfold updd in H. oki H. cbn [lx em dc set_dc]. pose proof (bk_cnt _ _ B).
    exists e1, (set_ReturnLabel k d). split; [reflexivity|]. split; [exact S|]. split; [|split; [cbn [ReturnLabel set_ReturnLabel]; lia|split; [exact A1|split; [exact CA|exact DE]]]].
    split; [exists (Scopes d), k; split; [destruct d; reflexivity|auto]|]. right. cbn [ReturnLabel set_ReturnLabel]. split; [exact N|]. split; [exact R0|]. split; [lia|]. split; [lia|exact A1].
  - oki H. exists e, d. split; [reflexivity|]. split; [exact (st_refl _ _ B)|]. split; [apply same_refl|]. destruct R as [R|[R1 R2]]; [lia|]. split; [lia|]. split; [exact R2|]. split; reflexivity.
Qed.
Lemma return_ok n b ex l e d P x s' rest : Pre b e d P -> wf_stmt b (SReturn ex) -> incl (svars (SReturn ex)) X -> (sdepth (SReturn ex) <= D)%nat ->
  stream W F l (stoks (SReturn ex) ++ rest) -> rest <> [] -> (return_stmt W F (tie W F n) ;; GetSemicolon W F) (mkcc l e d) = Ok (x, s') -> Post b (SReturn ex) e d P s' rest.
Proof.
  intros PR GE IX DX ST NR H. cbn [stoks svars sdepth wf_stmt] in *. cbn [Datatypes.app] in ST. rewrite <- app_assoc in ST. cbn [Datatypes.app] in ST. unfold return_stmt in H. mgoin H.
  minv H y0 s0 E0. apply (next_mk W F _ _ _ _ _ _ _ ST) in E0; [|nn]. destruct E0 as (l0 & -> & ST0). unfold getl in H. mgoin H.
  assert (TT : negb (TokenType l0 =? ch_semi) = true).
  { destruct (toks_first ex (proj1 GE)) as (t & ts & ET & NT). rewrite ET in ST0. cbn [Datatypes.app] in ST0. rewrite (proj1 ST0). apply negb_true_iff, Z.eqb_neq. exact NT. }
  cbn [lx] in H. rewrite TT in H. cbn [when] in H. apply bind_inv in H. destruct H as (y1 & s1 & E1 & H).
  destruct (value_piece W F HW X n ex (mkcc l0 e d) y1 s1 (kw ch_semi :: rest) GE IX (p_decl _ _ _ _ _ _ PR) (p_live _ _ _ _ _ _ PR) (p_reg _ _ _ _ _ _ PR) ST0 ltac:(right; left; reflexivity) ltac:(reflexivity) E1)
    as (e1 & l1 & -> & ST1 & LV1 & XT1 & SL1 & VAL). cbn [em dc] in *. change (set_lx l1 (set_em e1 (mkcc l0 e d))) with (mkcc l1 e1 d) in H.
  destruct (st_ext e e1 P (p_book _ _ _ _ _ _ PR) (p_live _ _ _ _ _ _ PR) LV1 XT1 SL1) as (S1 & A1 & C1).
  pose proof (bk_ord _ _ (t_book _ _ _ _ _ _ S1)) as OR1. pose proof (bk_ord _ _ (p_book _ _ _ _ _ _ PR)) as OR. pose proof (ext_le _ _ XT1) as XL.
  unfold gete in H. mgoin H. cbn [em] in H. replace (LocalOffset e1) with Lv in H by (rewrite (proj1 (proj2 (proj2 SL1))); symmetry; apply PR).
  destruct (Z.eqb_spec Lv 0) as [L0|L0]; cbn [negb] in H.
  - mgoin H. minv H y2 s2 E2. apply inem_mk in E2. destruct E2 as (e2 & E2 & ->). change (Z.lor I_POP R_BP) with 93 in E2. change I_RET with 195 in E2. apply (out2 W _ _ _ _ _ LV1) in E2. destruct E2 as [-> LV2].
    unfold upde in H. mgoin H. cbn [em set_em lx dc] in H. set (e2 := set_IsDeadCode true (put [93; 195] e1)) in *.
    destruct (put_dead_piece [93; 195] e1 P (t_book _ _ _ _ _ _ S1) LV1 LV2) as (B1 & B2 & B3 & [B4 B5]).
    { cbn [hd_ok]. split; [intros _; discriminate|]. intros _. exists []. reflexivity. }
    { discriminate. }
    fold e2 in B1, B2, B3, B4, B5. cbv zeta in *.
    apply (semi_mk W F _ _ _ _ _ _ ST1 NR) in H. destruct H as (l3 & -> & ST3).
    assert (S2 : St [] [] e1 P e2 P) by (split; [exact B1|exact B3|exact B2|lia|intros k _ _; rewrite B4; reflexivity|auto]).
    exists l3, e2, d, P. split; [reflexivity|]. split; [exact ST3|]. split; [apply same_refl|]. split; [|split; [split; [reflexivity|intros _ Q; contradiction]|]].
    + apply (st_close _ _ _ _ _ _ _ (st_trans _ _ _ _ _ _ _ _ _ _ S1 S2) (p_book _ _ _ _ _ _ PR)); intros k [].
    + intros K env env' o I X1 G. destruct (return_inv _ _ _ _ X1) as (v & -> & -> & H1). cbn [GoodO] in G. rewrite L0 in G. change (0 =? 0) with true in G. cbv iota in G. destruct G as [FR G]. intros t R IP. destruct I as (KO & LO & M).
      destruct (VAL env v (r_env _ _ _ _ R) H1) as (_ & VO & _ & _ & _ & AC).
      eapply reaches_trans; [exact (acts_run X D d (VOff e) K KO ex P env e e1 _ t (p_live _ _ _ _ _ _ PR) (p_reg _ _ _ _ _ _ PR) LV1 XT1 IX DX eq_refl AC OR LO (proj1 B2 _ _ M) R IP)|].
      cbv beta. intros t1 (R1 & IP1 & AX). eapply reaches_trans; [|exact G].
      exact (ret_run X D d (VOff e) K KO P env e1 e2 v t1 FR LV1 LV2 eq_refl eq_refl OR1 ltac:(lia) M R1 IP1 AX).
  - unfold getd in H. mgoin H. cbn [dc] in H. minv H y2 s2 E2.
    pose proof (t_cnt _ _ _ _ _ _ S1) as TC1.
    assert (RL1 : ReturnLabel d < 0 \/ 0 <= ReturnLabel d < LocalLabelCounter e1 /\ aget (LAddr e1) (ReturnLabel d) = 0) by (rewrite A1, C1; exact (p_ret _ _ _ _ _ _ PR L0)).
    destruct (ret_label _ _ _ _ _ _ (t_book _ _ _ _ _ _ S1) L0 RL1 E2) as (e2 & d2 & -> & S2 & DS2 & R0 & AR & CA2 & DE2).
    pose proof (st_trans _ _ _ _ _ _ _ _ _ _ S1 S2) as T2. mgoin H. cbn [dc] in H. minv H y3 s3 E3. apply inem_mk in E3. destruct E3 as (e3 & E3 & ->).
    destruct (st_jmp_at W HW X D _ e2 P y3 e3 (t_book _ _ _ _ _ _ S2) (pre_pend _ _ _ _ _ _ _ _ _ _ PR T2) (or_introl AR) E3) as (P3 & S3 & DE3 & A3 & C3 & RUN3).
    apply (semi_mk W F _ _ _ _ _ _ ST1 NR) in H. destruct H as (l3 & -> & ST3). pose proof (st_trans _ _ _ _ _ _ _ _ _ _ T2 S3) as T3.
    exists l3, e3, d2, P3. split; [reflexivity|]. split; [exact ST3|]. split; [exact (same_in Lv _ _ e e1 d e2 d2 _ _ _ TC1 DS2 S3 ltac:(intros k []))|]. split; [|split; [split; [exact DE3|intros; exact R0]|]].
    + apply (st_close _ _ _ _ _ _ _ T3 (p_book _ _ _ _ _ _ PR)); [intros k []|]. intros k [<-|[]]. left. apply in_or_app. right. unfold SccStm.rt. rewrite (proj2 (Z.eqb_neq _ _) L0). cbn [orb]. destruct (Z.ltb_spec (ReturnLabel d2) 0); [lia|left; reflexivity].
    + intros K env env' o I X1 G. destruct (return_inv _ _ _ _ X1) as (v & -> & -> & H1). cbn [GoodO] in G. rewrite (proj2 (Z.eqb_neq _ _) L0) in G. intros t R IP. pose proof (proj1 (p_live _ _ _ _ _ _ PR)) as LE.
      destruct (into_part X D _ _ _ _ d _ _ _ _ _ _ _ _ K I LE (st_refl _ _ (p_book _ _ _ _ _ _ PR)) (st_trans _ _ _ _ _ _ _ _ _ _ S2 S3)) as (KO & LO & M).
      destruct (VAL env v (r_env _ _ _ _ R) H1) as (_ & VO & _ & _ & _ & AC).
      eapply reaches_trans; [exact (acts_run X D d (VOff e) K KO ex P env e e1 _ t (p_live _ _ _ _ _ _ PR) (p_reg _ _ _ _ _ _ PR) LV1 XT1 IX DX eq_refl AC OR LO M R IP)|].
      cbv beta. intros t1 (R1 & IP1 & AX). apply (RUN3 ltac:(rewrite DE2; apply LV1) d K env t1 (into_part X D _ _ _ _ d _ _ _ _ _ _ _ _ K I LE T2 (st_refl _ _ (t_book _ _ _ _ _ _ T3))) R1 ltac:(lia)).
      intros t2 R2 IP2 RG. apply (G t2 R0 R2 IP2). rewrite RG. exact AX.
Qed.

(** *** Blocks *)
Definition starts (t : token) : Prop := t_type t <> TOK_ELSE /\ t_type t <> ch_rbrace.
Lemma stoks_first st : incl (svars st) X -> (forall x, In x X -> TOK_ID <= TOK_KEYWORD + x) -> exists t ts, stoks st = t :: ts /\ starts t.
Proof.
  intros IX HX. assert (V : forall x, In x (svars st) -> starts (kw (TOK_KEYWORD + x))).
  { intros x I. assert (TOK_ID <= TOK_KEYWORD + x) by (apply HX, IX; exact I). unfold starts. cbn [kw t_type fst]. unfold TOK_ID, TOK_KEYWORD, TOK_ELSE, ch_rbrace in *. lia. }
  destruct st; cbn [stoks Datatypes.app]; try (eexists _, _; (split; [reflexivity|]); split; discriminate).
  destruct a as [x ex|o x ex|[] up x]; cbn [atoks Datatypes.app]; eexists _, _; (split; [reflexivity|]); try (apply V; left; reflexivity). destruct up; split; discriminate.
Qed.
Definition item (n : nat) : unit -> M cc (unit + unit) := fun _ : unit =>
    let! t := getl TokenType in
    if t =? ch_rbrace then ret (inr tt) else pStatement (tie W F n) ;; ret (inl tt).
Lemma item_end n k l e d rest x s' : stream W F l (kw ch_rbrace :: rest) -> loopM k (item n) tt (mkcc l e d) = Ok (x, s') -> s' = mkcc l e d.
Proof.
  intros ST H. destruct k as [|k]; [discriminate|]. cbn [loopM] in H. unfold item at 1, getl in H. mgoin H. cbn [lx] in H. rewrite (proj1 ST) in H. change (t_type (kw ch_rbrace) =? ch_rbrace) with true in H. cbv iota in H. mgoin H. oki H. reflexivity.
Qed.
Lemma item_next n k l e d t rest x s' : stream W F l (t :: rest) -> t_type t <> ch_rbrace -> loopM k (item n) tt (mkcc l e d) = Ok (x, s') ->
  exists k' y s1, pStatement (tie W F n) (mkcc l e d) = Ok (y, s1) /\ loopM k' (item n) tt s1 = Ok (x, s').
Proof.
  intros ST N H. destruct k as [|k]; [discriminate|]. cbn [loopM] in H. unfold item at 1, getl in H. mgoin H. cbn [lx] in H. rewrite (proj1 ST) in H. rewrite (proj2 (Z.eqb_neq _ _) N) in H. mgoin H.
  minv H y s1 E. mgoin H. destruct y. exists k, tt, s1. split; [exact E|exact H].
Qed.
Lemma items_ok n b : PStmt n -> forall ls k l e d P x s' rest, Pre b e d P -> wf_stmt b (SBlock ls) -> incl (svars (SBlock ls)) X -> (sdepth (SBlock ls) <= D)%nat ->
  stream W F l (flat_map stoks ls ++ kw ch_rbrace :: rest) -> loopM k (item n) tt (mkcc l e d) = Ok (x, s') -> Post b (SBlock ls) e d P s' (kw ch_rbrace :: rest).
Proof.
  intros IH. induction ls as [|a r IHl]; intros k l e d P x s' rest PR WF IX DX ST H.
  - cbn [flat_map Datatypes.app] in ST. apply (item_end n k _ _ _ rest _ _ ST) in H. subst s'. exists l, e, d, P. split; [reflexivity|]. split; [exact ST|]. split; [apply same_refl|].
    split; [apply (st_close [] [] _ _ _ _ _ (st_refl _ _ (p_book _ _ _ _ _ _ PR)) (p_book _ _ _ _ _ _ PR)); intros z []|]. split; [split; [apply PR|intros _ _ Q; discriminate Q]|].
    intros K env env' o I X1 G. apply block_inv, nil_inv in X1. destruct X1 as [-> ->]. exact G.
  - destruct WF as (WF1 & FA & WF2). cbn [svars flat_map] in IX. apply incl_app_inv in IX. destruct IX as [IX1 IX2]. cbn [sdepth fold_right] in DX. cbn [flat_map] in ST. rewrite <- app_assoc in ST.
    assert (HX : forall x, In x X -> TOK_ID <= TOK_KEYWORD + x) by (intros z Z1; apply (p_decl _ _ _ _ _ _ PR z Z1)).
    destruct (stoks_first a IX1 HX) as (t & ts & ET & (NT1 & NT2)).
    assert (ST' : stream W F l (t :: ts ++ flat_map stoks r ++ kw ch_rbrace :: rest)) by (rewrite ET in ST; exact ST).
    destruct (item_next n k l e d _ _ x s' ST' NT2 H) as (k' & y & s1 & E1 & H1). clear H.
    assert (NE : no_else a (flat_map stoks r ++ kw ch_rbrace :: rest)).
    { intros _. destruct r as [|a2 r]; [discriminate|]. cbn [flat_map svars] in *. apply incl_app_inv in IX2. destruct (stoks_first a2 (proj1 IX2) HX) as (t2 & ts2 & ET2 & (N1 & _)). rewrite ET2. exact N1. }
    destruct (IH b a l e d P y s1 _ PR WF1 IX1 ltac:(lia) ST ltac:(nn) NE E1) as (l1 & e1 & d1 & P1 & -> & ST1 & DS1 & S1 & (DE1 & RX1) & RUN1).
    destruct FA as [-> |FA].
    + cbn [flat_map Datatypes.app] in ST1. apply (item_end n k' _ _ _ rest _ _ ST1) in H1. subst s'. exists l1, e1, d1, P1. split; [reflexivity|]. split; [exact ST1|]. split; [exact DS1|]. split; [exact S1|]. split; [exact (conj DE1 RX1)|].
      intros K env env' o I X1 G. apply block_inv, cons_inv in X1. destruct X1 as [(env1 & X2 & X3)|[X2 _]].
      * apply nil_inv in X3. destruct X3 as [-> ->]. exact (RUN1 K env env1 _ I X2 G).
      * exact (RUN1 K env env' o I X2 G).
    + rewrite FA in DE1. assert (PR1 : Pre b e1 d1 P1) by (apply (pre_step X Lv [] _ b e d P e1 d1 P1 PR S1 DE1 DS1); intros z []).
      destruct (IHl k' l1 e1 d1 P1 x s' rest PR1 WF2 IX2 ltac:(cbn [sdepth]; lia) ST1 H1) as (l2 & e2 & d2 & P2 & -> & ST2 & DS2 & S2 & (DE2 & RX2) & RUN2).
      assert (TG : targets b d1 = targets b d /\ BreakLabel d1 = BreakLabel d /\ ContinueLabel d1 = ContinueLabel d) by (destruct DS1 as ((? & ? & -> & _) & _); auto). destruct TG as (TG & TB & TC).
      exists l2, e2, d2, P2. split; [reflexivity|]. split; [exact ST2|]. split; [exact (same_trans Lv e e2 d d1 d2 (same_in Lv _ _ e e d e1 d1 _ _ _ (Z.le_refl _) DS1 S2 ltac:(intros z [])) (same_in Lv _ _ e e1 d1 e2 d2 _ _ _ (t_cnt _ _ _ _ _ _ S1) DS2 (st_refl _ _ (t_book _ _ _ _ _ _ S2)) ltac:(intros z [])))|]. split; [|split].
      * apply (st_close _ _ _ _ _ _ _ (st_trans _ _ _ _ _ _ _ _ _ _ S1 S2) (p_book _ _ _ _ _ _ PR)); [intros z []|]. intros z Z1. rewrite TG in Z1. left. pose proof (rt_keep _ _ _ _ _ z DS2) as RK. rewrite !in_app_iff in *. tauto.
      * unfold Dead. rewrite falls_block. destruct r; [rewrite FA; split; [exact DE2|discriminate]|split; [exact DE2|exact RX2]].
      * intros K env env' o I X1 G. apply block_inv, cons_inv in X1. pose proof (proj1 (p_live _ _ _ _ _ _ PR)) as LE.
        pose proof (into_part X D _ _ _ _ d _ _ _ _ _ _ _ _ K I LE (st_refl _ _ (p_book _ _ _ _ _ _ PR)) S2) as I1.
        pose proof (into_vars X D _ _ _ _ _ _ (same_vars _ _ _ _ _ DS1) (into_part X D _ _ _ _ d _ _ _ _ _ _ _ _ K I LE S1 (st_refl _ _ (t_book _ _ _ _ _ _ S2)))) as I2.
        destruct X1 as [(env1 & X2 & X3)|[X2 N]].
        -- apply (RUN1 K env env1 _ I1 X2). cbn [GoodO]. apply (RUN2 K env1 env' o I2); [constructor; exact X3|]. rewrite TB, TC. exact G.
        -- apply (RUN1 K env env' o I1 X2). destruct o; try exact G; [contradiction|]. exact (good_ret _ _ _ _ _ _ K _ _ _ _ _ _ _ _ DS2 G).
Qed.
Lemma set_off e : LocalOffset e = Lv -> set_LocalOffset Lv e = e.
Proof. intro H. rewrite <- H. destruct e; reflexivity. Qed.
Lemma block_ok n b ls l e d P x s' rest : PStmt n -> Pre b e d P -> wf_stmt b (SBlock ls) -> incl (svars (SBlock ls)) X -> (sdepth (SBlock ls) <= D)%nat ->
  stream W F l (stoks (SBlock ls) ++ rest) -> rest <> [] -> compound_stmt W F (tie W F n) (mkcc l e d) = Ok (x, s') -> Post b (SBlock ls) e d P s' rest.
Proof.
  intros IH PR WF IX DX ST NR H. cbn [stoks Datatypes.app] in ST. rewrite <- app_assoc in ST. cbn [Datatypes.app] in ST. unfold compound_stmt, PushScope, gete, getd, updd in H. mgoin H.
  cbn [lx em dc] in H. minv H y0 s0 E0. unfold failif in E0. destruct (ScopeCount d =? SCOPE_MAX); [discriminate|]. oki E0. mgoin H. cbn [lx em dc set_dc] in H.
  set (sc := ScopeCount d) in *. set (d1 := set_IgnoreRedef (IgnoreRedef d + 1) (set_ScopeCount (sc + 1) (set_Scopes (aset (Scopes d) sc (aget (Scopes d) (sc - 1))) d))).
  match type of H with bind _ _ ?st = _ => change st with (mkcc l e d1) in H end.
  minv H y1 s1 E1. apply (expect_mk W F _ _ _ _ _ _ _ _ ST) in E1; [|nn]. destruct E1 as (l1 & -> & ST1). minv H y2 s2 E2. fold (item n) in E2.
  assert (PR1 : Pre b e d1 P).
  { apply (pre_any X Lv [] [] b b e d P e d1 P PR (st_refl _ _ (p_book _ _ _ _ _ _ PR)) (proj1 (p_live _ _ _ _ _ _ PR))); [split; reflexivity|reflexivity| |]; [exact (p_loop _ _ _ _ _ _ PR)|exact (p_ret _ _ _ _ _ _ PR)]. }
  destruct (items_ok n b IH ls F l1 e d1 P y2 s2 rest PR1 WF IX DX ST1 E2) as (l2 & e2 & d2 & P2 & -> & ST2 & DS2 & S2 & DE2 & RUN2).
  minv H y3 s3 E3. apply (next_mk W F _ _ _ _ _ _ _ ST2 NR) in E3. destruct E3 as (l3 & -> & ST3).
  destruct DS2 as ((Sc & rl & -> & HS) & RN). unfold PopScope, getd, updd in H. mgoin H. cbn [lx em dc set_dc] in H. change (ScopeCount (set_Scopes Sc (set_ReturnLabel rl d1))) with (sc + 1) in H.
  minv H y4 s4 E4. unfold failif in E4. destruct (Z.eqb_spec (sc + 1) 1) as [|NS]; [discriminate|]. oki E4. mgoin H. cbn [lx em dc set_dc] in H.
  match type of H with context [pop_loop ?k] => assert (K0 : k = O) end.
  { change (Z.to_nat (aget Sc (sc + 1 - 1) - aget Sc (sc + 1 - 2)) = O). assert (HS1 : forall i, i < sc + 1 -> aget Sc i = aget (aset (Scopes d) sc (aget (Scopes d) (sc - 1))) i) by exact HS.
    rewrite !HS1 by lia. replace (sc + 1 - 1) with sc by lia. replace (sc + 1 - 2) with (sc - 1) by lia. rewrite aget_aset_same, aget_aset_other by lia. rewrite Z.sub_diag. reflexivity. }
  rewrite K0 in H. clear K0. cbn [pop_loop] in H. mgoin H. unfold addPending, upde in H. mgoin H. cbn [lx em dc set_dc set_em] in H.
  pose proof (t_still _ _ _ _ _ _ S2) as (_ & _ & LO & _). pose proof (p_off _ _ _ _ _ _ PR) as LO0. rewrite no_pend in H by lia. rewrite LO0 in H. rewrite set_off in H by lia. oki H. cbn [lx em dc set_dc set_em].
  exists l3, e2. eexists. exists P2. split; [reflexivity|]. split; [exact ST3|]. split; [|split; [exact S2|split; [exact DE2|]]].
  - split; [exists Sc, rl; split|exact RN].
    + replace (sc + 1 - 1) with (ScopeCount d) by (unfold sc; lia). change (IgnoreRedef (set_ScopeCount (ScopeCount d) (set_Scopes Sc (set_ReturnLabel rl d1)))) with (IgnoreRedef d + 1).
      replace (IgnoreRedef d + 1 - 1) with (IgnoreRedef d) by lia. unfold d1. destruct d. reflexivity.
    + intros i Hi. rewrite HS by (change (ScopeCount d1) with (sc + 1); unfold sc; lia). change (Scopes d1) with (aset (Scopes d) sc (aget (Scopes d) (sc - 1))). rewrite aget_aset_other by (unfold sc; lia). reflexivity.
  - intros K env env' o I X1 G. apply (RUN2 K env env' o); [|exact X1|exact G]. apply (into_vars X D d); [split; reflexivity|exact I].
Qed.

(** *** All statements *)
Ltac bool_tests H := repeat match type of H with
  | context [?a =? ?b] => let v := eval vm_compute in (a =? b) in match v with true => change (a =? b) with true in H | false => change (a =? b) with false in H end
  | context [?a <=? ?b] => let v := eval vm_compute in (a <=? b) in match v with true => change (a <=? b) with true in H | false => change (a <=? b) with false in H end
  end; cbv iota in H.
Theorem stmt_ok n : PStmt n.
Proof.
  induction n as [|n IH]; intros b st l e d P x s' rest PR WF IX DX ST NR NE H; [discriminate H|].
  cbn [tie pStatement] in H. unfold ParseStatement in H. unfold getl, getd in H. mgoin H. cbn [lx dc] in H.
  assert (NC : 0 <=? NextSwitchCase d = false) by (apply Z.leb_gt; apply PR). 
  assert (DISP : forall k ts, stream W F l (kw k :: ts) -> TokenType l = k) by (intros k ts Q; apply Q).
  destruct st.
  - rewrite (DISP ch_semi _ ST) in H. bool_tests H. mgoin H. cbn [dc] in H. rewrite NC in H. cbn [andb] in H. exact (skip_ok b l e d P x s' rest PR ST NR H).
  - apply (asn_ok n b a l e d P x s' rest PR WF IX DX ST NR). cbn [stoks svars] in *.
    assert (GO : forall v, In v (act_vars a) -> TokenType l = TOK_KEYWORD + v -> simple_stmt W F (tie W F n) (mkcc l e d) = Ok (x, s')).
    { intros v Iv TL. rewrite TL in H. assert (TX : TOK_ID <= TOK_KEYWORD + v) by (apply (p_decl _ _ _ _ _ _ PR v); apply IX; exact Iv).
      rewrite (proj2 (Z.eqb_neq (TOK_KEYWORD + v) ch_lbrace)) in H by (unfold TOK_ID, TOK_KEYWORD, ch_lbrace in *; lia). mgoin H. cbn [dc] in H. rewrite NC in H. cbn [andb] in H. rewrite (proj2 (Z.leb_le _ _) TX) in H. exact H. }
    destruct a as [v ex|o v ex|[] up v]; [exact (GO v (or_introl eq_refl) (DISP _ _ ST))|exact (GO v (or_introl eq_refl) (DISP _ _ ST))| |exact (GO v (or_introl eq_refl) (DISP _ _ ST))].
    rewrite (DISP (inc_tok up) _ ST) in H. destruct up; cbn [inc_tok] in H; bool_tests H; mgoin H; cbn [dc] in H; rewrite NC in H; cbn [andb] in H; exact H.
  - rewrite (DISP TOK_IF _ ST) in H. bool_tests H. mgoin H. cbn [dc] in H. rewrite NC in H. cbn [andb] in H. exact (if_ok W F HW X D Lv n b c st l e d P x s' rest IH PR WF IX DX ST NR NE H).
  - rewrite (DISP TOK_IF _ ST) in H. bool_tests H. mgoin H. cbn [dc] in H. rewrite NC in H. cbn [andb] in H. exact (ifelse_ok W F HW X D Lv n b c st1 st2 l e d P x s' rest IH PR WF IX DX ST NR NE H).
  - rewrite (DISP TOK_WHILE _ ST) in H. bool_tests H. mgoin H. cbn [dc] in H. rewrite NC in H. cbn [andb] in H. exact (while_ok W F HW X D Lv n b c st l e d P x s' rest IH PR WF IX DX ST NR NE H).
  - rewrite (DISP TOK_DO _ ST) in H. bool_tests H. mgoin H. cbn [dc] in H. rewrite NC in H. cbn [andb] in H. exact (do_ok W F HW X D Lv n b c st l e d P x s' rest IH PR WF IX DX ST NR H).
  - rewrite (DISP TOK_FOR _ ST) in H. bool_tests H. mgoin H. cbn [dc] in H. rewrite NC in H. cbn [andb] in H. exact (for_ok W F HW X D Lv n b i c s st l e d P x s' rest IH PR WF IX DX ST NR NE H).
  - cbn [wf_stmt] in WF. subst b. rewrite (DISP TOK_BREAK _ ST) in H. bool_tests H. mgoin H. cbn [dc] in H. rewrite NC in H. cbn [andb] in H. exact (break_ok l e d P x s' rest PR ST NR H).
  - cbn [wf_stmt] in WF. subst b. rewrite (DISP TOK_CONTINUE _ ST) in H. bool_tests H. mgoin H. cbn [dc] in H. rewrite NC in H. cbn [andb] in H. exact (continue_ok l e d P x s' rest PR ST NR H).
  - rewrite (DISP TOK_RETURN _ ST) in H. bool_tests H. mgoin H. cbn [dc] in H. rewrite NC in H. cbn [andb] in H. exact (return_ok n b e0 l e d P x s' rest PR WF IX DX ST NR H).
  - rewrite (DISP ch_lbrace _ ST) in H. bool_tests H. exact (block_ok n b l0 l e d P x s' rest IH PR WF IX DX ST NR H).
Qed.
End W.
