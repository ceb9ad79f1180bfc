(** The postponed push of AX: what is emitted when the next code is output, and what it does; values of
    variables; loading a variable. *)
From Verif Require Import Base Bits Spec8086 SpecWf SccRun SccState SccEmit SccLex SccDecl SccExpr SccInput SccPut SccArith SccOps SccJump SccMem SccHold.

Section W.
Variable W : Z.
Hypothesis HW : 16 <= W.

(** FlushSpAdj and FlushPushAx, as a function *)
Definition flush (e : emst) : emst :=
  if Pending e =? 0 then e else
  if Pending e =? -8 then put [131; 236; 8] (set_Pending 0 e) else
  let e1 := set_Pending 0 e in
  let e2 := if RegUse e then set_LocalOffset (LocalOffset e - 2) (put [83] e1) else e1 in
  set_RegUse true (put [147] e2).
Lemma flush_idle e : Pending e = 0 -> flush e = e.
Proof. intro H. unfold flush. rewrite H. reflexivity. Qed.

Lemma out1_ e b x e' n : live e -> Output1Byte_ (EmitChecks_n W n) b e = Ok (x, e') -> e' = put [b] e /\ live e'.
Proof.
  intros L H. unfold Output1Byte_ in H. rewrite guarded_live in H by exact L. apply putb_inv in H. destruct H as [-> R].
  split; [reflexivity|]. apply (put_live [b]); assumption.
Qed.
Lemma checks_pending e r e' : gen e -> Pending e = 1 -> EmitChecks W e = Ok (r, e') -> r = false /\ e' = flush e /\ live e'.
Proof.
  intros (D & _ & R) P H. unfold EmitChecks in H. set (n := 1%nat) in H. change 2%nat with (S n) in H. cbn [EmitChecks_n] in H. mgoin H.
  rewrite D in H. mgoin H. rewrite P in H. change (negb (1 =? 0)) with true in H. cbn [when] in H. mgoin H.
  minv H x e1 E. unfold FlushSpAdj_ in E. mgoin E. rewrite P in E. change (hasb 1 (-2)) with false in E. cbn [when] in E. oki E.
  minv H y e2 E. unfold FlushPushAx_ in E. mgoin E. rewrite P in E. change (hasb 1 1) with true in E. cbn [when] in E. mgoin E.
  change (clr 1 1) with 0 in E. change (RegUse (set_Pending 0 e)) with (RegUse e) in E.
  set (e1 := set_Pending 0 e) in *. assert (L1 : live e1) by (split; [exact D|split; [reflexivity|exact R]]).
  assert (G : live e2 /\ e2 = flush e).
  { unfold flush. rewrite P. change (1 =? 0) with false. change (1 =? -8) with false. cbv iota zeta. fold e1. destruct (RegUse e); cbn [when] in E.
    - mgoin E. minv E z e3 E1. apply out1_ in E1; [|exact L1]. destruct E1 as [-> L2]. mgoin E.
      minv E z' e3 E1. apply out1_ in E1; [|exact L2]. destruct E1 as [-> L3]. oki E. split; [exact L3|reflexivity].
    - mgoin E. minv E z e3 E1. apply out1_ in E1; [|exact L1]. destruct E1 as [-> L3]. oki E. split; [exact L3|reflexivity]. }
  destruct G as [G1 G2]. mgoin H. minv H z e3 E3. unfold failif in E3. destruct (_ <? _); [discriminate|]. oki E3. oki H.
  subst e2. auto.
Qed.
Lemma put3 b0 b1 b2 e x e' : live e -> (putb b0 ;; putb b1 ;; putb b2) e = Ok (x, e') -> e' = put [b0; b1; b2] e /\ live e'.
Proof. intros L H. apply (out3 W b0 b1 b2 e x e' L). unfold Output3Bytes, Output3Bytes_. rewrite guarded_live by exact L. exact H. Qed.
Lemma checks_eight e r e' : gen e -> Pending e = -8 -> EmitChecks W e = Ok (r, e') -> r = false /\ e' = flush e /\ live e'.
Proof.
  intros (D & _ & R) P H. unfold EmitChecks in H. set (n := 1%nat) in H. change 2%nat with (S n) in H. cbn [EmitChecks_n] in H. mgoin H.
  rewrite D in H. mgoin H. rewrite P in H. change (negb (-8 =? 0)) with true in H. cbn [when] in H. mgoin H.
  set (e1 := set_Pending 0 e) in *. assert (L1 : live e1) by (split; [exact D|split; [reflexivity|exact R]]).
  minv H x e2 E. unfold FlushSpAdj_ in E. mgoin E. rewrite P in E. change (hasb (-8) (-2)) with true in E. cbn [when] in E. mgoin E. fold e1 in E.
  minv E y e3 E3. unfold EmitAddRegConst_ in E3. change (clr (-8) 1) with (-8) in E3. change (-8 =? 0) with false in E3. change (-8 <? 0) with true in E3. cbv iota zeta in E3.
  assert (CI : ci W (- -8) = 8) by (apply ci_small; [lia|]; change (- -8) with 8; assert (2 ^ 15 <= 2 ^ (W - 1)) by (apply Z.pow_le_mono_r; lia); lia).
  rewrite CI in E3. change (8 <=? 2) with false in E3. change (8 <? 128) with true in E3. cbv iota in E3. unfold Output3Bytes_ in E3. rewrite guarded_live in E3 by exact L1.
  apply put3 in E3; [|exact L1]. destruct E3 as [-> L3]. oki E. change (Z.land (-8) 1) with 0 in H.
  assert (Q : set_Pending 0 (put [I_ALU_RM16_IMM8; Z.lor MODRM_REG (R_SP + I_SUB); 8] e1) = flush e).
  { unfold flush. rewrite P. change (-8 =? 0) with false. change (-8 =? -8) with true. cbv iota. fold e1. rewrite <- (proj1 (proj2 L3)) at 1. change [131; 236; 8] with [I_ALU_RM16_IMM8; Z.lor MODRM_REG (R_SP + I_SUB); 8]. destruct (put _ e1); reflexivity. }
  rewrite Q in H. assert (LF : live (flush e)) by (rewrite <- Q; destruct L3 as (A & B & C); split; [exact A|split; [reflexivity|exact C]]).
  minv H y4 e4 E4. unfold FlushPushAx_ in E4. mgoin E4. rewrite (proj1 (proj2 LF)) in E4. change (hasb 0 1) with false in E4. cbn [when] in E4. oki E4.
  mgoin H. minv H z e5 E5. unfold failif in E5. destruct (_ <? _); [discriminate|]. oki E5. oki H. auto.
Qed.
Lemma guarded_flush m e x e' : gen e -> guarded (EmitChecks W) m e = Ok (x, e') ->
  live (flush e) /\ guarded (EmitChecks W) m (flush e) = Ok (x, e').
Proof.
  intros G H. destruct (proj1 (proj2 G)) as [P|[P|P]].
  - rewrite flush_idle by exact P. split; [apply gen_live; assumption|exact H].
  - unfold guarded in H. mgoin H. rewrite P in H. change (negb (1 =? 0)) with true in H. rewrite orb_true_r in H. mgoin H.
    minv H r e1 E. apply checks_pending in E; [|exact G|exact P]. destruct E as (-> & -> & L). split; [exact L|].
    rewrite guarded_live by exact L. exact H.
  - unfold guarded in H. mgoin H. rewrite P in H. change (negb (-8 =? 0)) with true in H. rewrite orb_true_r in H. mgoin H.
    minv H r e1 E. apply checks_eight in E; [|exact G|exact P]. destruct E as (-> & -> & L). split; [exact L|].
    rewrite guarded_live by exact L. exact H.
Qed.
Lemma flush_fields e : VOff (flush e) = VOff e /\ CurrentType (flush e) = CurrentType e /\ CurrentVal (flush e) = CurrentVal e /\ Pending (flush e) = 0 \/ Pending e = 0.
Proof.
  unfold flush. destruct (Z.eqb_spec (Pending e) 0) as [|N]; [right; assumption|left]. destruct (Pending e =? -8); [repeat split|]. destruct (RegUse e); repeat split.
Qed.
Lemma flush_voff e : VOff (flush e) = VOff e.
Proof. unfold flush. destruct (Pending e =? 0); [reflexivity|]. destruct (Pending e =? -8); [reflexivity|]. destruct (RegUse e); reflexivity. Qed.
Lemma flush_pending e : Pending (flush e) = 0.
Proof. unfold flush. destruct (Z.eqb_spec (Pending e) 0) as [E|_]; [exact E|]. destruct (Pending e =? -8); [reflexivity|]. destruct (RegUse e); reflexivity. Qed.
Lemma flush_type e : CurrentType (flush e) = CurrentType e.
Proof. unfold flush. destruct (Pending e =? 0); [reflexivity|]. destruct (Pending e =? -8); [reflexivity|]. destruct (RegUse e); reflexivity. Qed.
Lemma flush_bal e : bal e (flush e).
Proof.
  unfold bal, cnt. rewrite flush_pending. unfold flush. destruct (Z.eqb_spec (Pending e) 0) as [E|_]; cbv zeta; [cbn [Z.eqb]; lia|].
  change (0 =? 0) with true. destruct (Pending e =? -8); [cbn [RegUse]; rewrite put_reg, put_local; cbn [RegUse LocalOffset set_Pending]; lia|]. destruct (RegUse e) eqn:R; cbn [RegUse LocalOffset set_RegUse]; rewrite put_local; cbn [LocalOffset set_LocalOffset set_Pending]; lia.
Qed.
Lemma flush_ext e : ext e (flush e).
Proof.
  unfold flush. destruct (Pending e =? 0); [apply ext_refl|]. destruct (Pending e =? -8); [exact (ext_put [131; 236; 8] (set_Pending 0 e) ltac:(cbn; lia))|]. cbv zeta. destruct (RegUse e).
  - apply (ext_trans _ (put [83] (set_Pending 0 e))); [exact (ext_put [83] (set_Pending 0 e) ltac:(cbn; lia))|].
    exact (ext_put [147] (set_LocalOffset (LocalOffset e - 2) (put [83] (set_Pending 0 e))) ltac:(cbn; lia)).
  - exact (ext_put [147] (set_Pending 0 e) ltac:(cbn; lia)).
Qed.

(** running the postponed push: the saved values stay what they are *)
Lemma push_run P r g a fl m q : code m (cs g) a [80 + q] -> 0 <= q < 4 -> 0 <= a -> a + 1 < 65536 ->
  reaches P (pushed (mkst r g (a + 1) fl m) (rget r q) (a + 1) fl) -> reaches P (mkst r g a fl m).
Proof.
  intros C Q A B H. apply (reach_code P [80 + q] (IPush (Reg q)) 1 (fun _ => pushed (mkst r g (a + 1) fl m) (rget r q) (a + 1) fl)); [exact C|intro; reg8 q; reflexivity|lia| |].
  - intro u. assert (RR : q = 0 \/ q = 1 \/ q = 2 \/ q = 3) by lia. destruct RR as [->|[->|[->| ->]]]; reflexivity.
  - intro u. exact H.
Qed.
Lemma pop_run P r g a fl m q : code m (cs g) a [88 + q] -> 0 <= q < 4 -> 0 <= a -> a + 1 < 65536 ->
  reaches P (popped (mkst r g (a + 1) fl m) q (a + 1)) -> reaches P (mkst r g a fl m).
Proof.
  intros C Q A B H. apply (reach_code P [88 + q] (IPop q) 1 (fun _ => popped (mkst r g (a + 1) fl m) q (a + 1))); [exact C|intro; reg8 q; reflexivity|lia| |].
  - intro u. reflexivity.
  - intro u. exact H.
Qed.
Lemma sub8_does e : CodeAddress e + 3 < 65536 -> 0 <= CodeAddress e -> does e (put [131; 236; 8] e) (only_regs (fun R => rset R 4 ((rget R 4 + -8) mod 65536))).
Proof.
  intros A B s Wf I LD _. destruct s as [r g i fl m]. cbn [rg sg ip mem] in *. subst i. rewrite put_addr. apply loaded_put in LD.
  apply (add_runs 4 (-8) ltac:(lia) g m (CodeAddress e) r fl LD B A). apply Wf.
Qed.
Lemma eight_runs f e V : frame_ok f -> gen e -> Pending e = -8 -> live (flush e) -> f_lo f <= CodeAddress e -> ext (flush e) (f_fin f) -> space f V 0 ->
  runs f e (flush e) (hold f e V) (hold f (flush e) V).
Proof.
  intros FO G P L Lo X SPC. pose proof (live_lo _ L) as LL.
  assert (LR : CodeAddress (flush e) <= 24832) by (destruct L as (_ & _ & R & R2); unfold room, CODESTART, OUTPUT_MAX in *; lia).
  assert (R0 : 256 <= CodeAddress e) by (destruct G as (_ & _ & R & R2); unfold CODESTART in *; lia).
  assert (EF : flush e = put [131; 236; 8] (set_Pending 0 e)) by (unfold flush; rewrite P; reflexivity). rewrite EF in *. set (e1 := set_Pending 0 e) in *.
  change (CodeAddress e) with (CodeAddress e1) in *. rewrite put_addr in LR. cbn [length] in LR.
  apply (runs_addr f e1 (put [131; 236; 8] e1)); [reflexivity|reflexivity|].
  apply (runs_does f FO e1 (put [131; 236; 8] e1) (fun _ => True) _ _ _ (sub8_does e1 ltac:(lia) ltac:(lia)) Lo X).
  - intros t t' (A & B & C). split; [exact C|]. split; [exact B|]. rewrite A. reflexivity.
  - auto.
  - intros t t' I1 (l & EV & ST & OFF) _ (A & B & C). rewrite P in EV, ST. change (-8 =? 0) with false in EV. change (-8 =? -8) with true in EV, ST. cbv iota in EV, ST.
    exists l. rewrite put_reg, put_local. change (Pending (put [131; 236; 8] e1)) with 0. cbv iota. change (RegUse e1) with (RegUse e). change (LocalOffset e1) with (LocalOffset e).
    change (0 =? -8) with false. cbv iota. split; [|split; [|exact OFF]].
    + rewrite A; exact EV.
    + destruct ST as [S1 S2]. unfold space in SPC. rewrite EV, !app_length in SPC. destruct FO as (_ & _ & F1 & F2 & F3 & F4 & _).
      assert (Q : sp (rset (rg t) 4 ((rget (rg t) 4 + -8) mod 65536)) = sp (rg t) - 8).
      { change ((sp (rg t) + -8) mod 65536 = sp (rg t) - 8). rewrite Z.mod_small by lia. lia. }
      unfold stk. rewrite A, C, Q. split; [exact S1|exact S2].
Qed.
Lemma flush_runs f e V : frame_ok f -> gen e -> live (flush e) -> f_lo f <= CodeAddress e -> ext (flush e) (f_fin f) -> space f V 0 ->
  runs f e (flush e) (hold f e V) (hold f (flush e) V).
Proof.
  intros FO G L Lo X SPC. destruct (proj1 (proj2 G)) as [P|[P|P]].
  { rewrite flush_idle by exact P. apply runs_here; auto. }
  2: { apply eight_runs; assumption. }
  intros t I1 I2 (l & EV & ST & OFF). pose proof (live_lo _ L) as LL. pose proof (ext_refl (flush e)) as XR.
  rewrite P in EV, ST. change (1 =? 0) with false in EV. change (1 =? -8) with false in EV, ST. cbv iota in EV, ST.
  pose proof (inv_loaded f FO t e (flush e) I1 Lo X) as LD.
  assert (LR : CodeAddress (flush e) <= 24832) by (destruct L as (_ & _ & R & R2); unfold room, CODESTART, OUTPUT_MAX in *; lia).
  assert (R0 : 256 <= CodeAddress e) by (destruct G as (_ & _ & R & R2); unfold CODESTART in *; lia).
  unfold flush in *. rewrite P in *. change (1 =? 0) with false in *. change (1 =? -8) with false in *. cbv iota zeta in *.
  set (e1 := set_Pending 0 e) in *. destruct (RegUse e) eqn:RU.
  - set (e2 := set_LocalOffset (LocalOffset e - 2) (put [83] e1)) in *.
    assert (CD : code (mem t) (cs (sg t)) (CodeAddress e) [83; 147]).
    { apply (loaded_put [83; 147] e1). intros a A. apply LD. exact A. }
    assert (AD : CodeAddress (set_RegUse true (put [147] e2)) = CodeAddress e + 2) by (cbn [CodeAddress set_RegUse]; rewrite put_addr; change (CodeAddress e2) with (CodeAddress (put [83] e1)); rewrite put_addr; change (CodeAddress e1) with (CodeAddress e); cbn [length]; lia).
    rewrite AD in *.
    apply (code_app _ _ _ [83] [147]) in CD. destruct CD as [C1 C2]. cbn [length] in C2.
    subst V. unfold space in SPC. rewrite !app_length in SPC. cbn [length] in SPC.
    assert (BX : 0 <= bx (rg t) < 65536) by apply I1.
    destruct t as [r g i fl m]. cbn [rg sg ip mem] in *. subst i.
    apply (push_run _ r g (CodeAddress e) fl m 3 C1); [lia|lia|lia|].
    set (t1 := mkst r g (CodeAddress e + 1) fl m).
    assert (I1' : inv f t1). { destruct I1 as (W1 & W2 & W3 & W4). split; [|split; [exact W2|split; [exact W3|exact W4]]]. destruct W1 as (Q1 & Q2 & Q3 & Q4). split; [exact Q1|]. split; [exact Q2|]. split; [unfold is16; cbn; lia|exact Q4]. }
    assert (ST' : stk f l t1) by exact ST.
    destruct (push_inv f FO l t1 (rget r 3) (CodeAddress e + 1) fl I1' ST' BX ltac:(lia) ltac:(lia)) as [J1 J2].
    destruct J1 as (K1 & K2 & K3 & K4).
    assert (CD3 : code (mem (pushed t1 (rget r 3) (CodeAddress e + 1) fl)) (cs (sg (pushed t1 (rget r 3) (CodeAddress e + 1) fl))) (CodeAddress e + 1) [147]).
    { intros k K. cbn [length] in K. assert (k = 0%nat) by lia. subst k.
      pose proof (inv_loaded f FO _ e (set_RegUse true (put [147] e2)) (conj K1 (conj K2 (conj K3 K4))) Lo X) as LD2.
      rewrite LD2 by (rewrite AD; lia). rewrite <- LD by lia. apply (C2 0%nat). cbn [length]. lia. }
    set (t2 := pushed t1 (rget r 3) (CodeAddress e + 1) fl) in *.
    change t2 with (mkst (rg t2) (sg t2) (CodeAddress e + 1) fl (mem t2)).
    apply (xchg_run 3); [lia|exact CD3|lia|lia|]. apply reach_now. 
    set (t3 := mkst _ _ _ _ _).
    assert (RO : regs_ok (rg t2)) by apply K1.
    split; [|split; [unfold t3; cbn [ip]; lia|]].
    + split; [|split; [exact K2|split; [exact K3|exact K4]]]. destruct K1 as (Q1 & Q2 & Q3 & Q4). split; [|split; [exact Q2|split; [unfold is16, t3; cbn [ip]; lia|exact Q4]]].
      unfold t3; cbn [rg]. apply rset_ok; [apply rset_ok; [exact Q1|apply Q1]|]. apply rget_ok. exact Q1.
    + exists (bx r :: l). split; [|split].
      * change (Pending (set_RegUse true (put [147] e2))) with 0. cbv iota. change (RegUse (set_RegUse true (put [147] e2))) with true. cbv iota. cbn [app].
        reflexivity.
      * destruct J2 as [J3 J4]. split; [exact J3|exact J4].
      * change (LocalOffset (set_RegUse true (put [147] e2))) with (LocalOffset e - 2). cbn [length]. lia.
  - assert (CD : code (mem t) (cs (sg t)) (CodeAddress e) [147]).
    { apply (loaded_put [147] e1). intros a A. apply LD. exact A. }
    assert (AD : CodeAddress (set_RegUse true (put [147] e1)) = CodeAddress e + 1) by (cbn [CodeAddress set_RegUse]; rewrite put_addr; change (CodeAddress e1) with (CodeAddress e); cbn [length]; lia).
    rewrite AD in *. subst V.
    destruct t as [r g i fl m]. cbn [rg sg ip mem] in *. subst i.
    apply (xchg_run 3); [lia|exact CD|lia|lia|]. apply reach_now. set (t3 := mkst _ _ _ _ _).
    destruct I1 as ((Q1 & Q2 & Q3 & Q4) & K2 & K3 & K4). cbn [rg sg ip mem] in *.
    split; [|split; [unfold t3; cbn [ip]; lia|]].
    + split; [|split; [exact K2|split; [exact K3|exact K4]]]. split; [|split; [exact Q2|split; [unfold is16, t3; cbn [ip]; lia|exact Q4]]].
      unfold t3; cbn [rg]. apply rset_ok; [apply rset_ok; [exact Q1|apply Q1]|]. apply rget_ok. exact Q1.
    + exists l. split; [|split].
      * change (Pending (set_RegUse true (put [147] e1))) with 0. cbv iota. change (RegUse (set_RegUse true (put [147] e1))) with true. reflexivity.
      * exact ST.
      * exact OFF.
Qed.
End W.
