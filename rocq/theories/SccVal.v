(** Reading values: GetVal, LvalToRval, GetStoredVal and DoRhsLvalBinOp as runs of the machine. *)
From Verif Require Import Base Bits Spec8086 SpecWf SccRun SccState SccEmit SccLex SccDecl SccExpr SccInput SccPut SccArith SccOps SccJump SccMem SccHold SccFlush SccSem SccBin ExprSpec.

(** ** Taking back a saved value *)
(** POP into register q < 4 *)
Lemma pop_runs f e e' (q : Z) (P : state -> Prop) : frame_ok f -> live e -> live (put [88 + q] e) -> 0 <= q < 4 -> RegUse e = false ->
  CodeAddress e' = CodeAddress (put [88 + q] e) -> Pending e' = 0 -> RegUse e' = false -> LocalOffset e' = LocalOffset e + 2 ->
  f_lo f <= CodeAddress e -> ext (put [88 + q] e) (f_fin f) -> (forall r g i j fl m v w, P (mkst r g i fl m) -> P (mkst (rset (rset r 4 v) q w) g j fl m)) ->
  forall a V, space f (a :: V) 0 ->
  runs f e e' (fun t => hold f e (a :: V) t /\ P t) (fun t => hold f e' V t /\ rget (rg t) q = a /\ P t).
Proof.
  intros FO L L' Q RU CA P' RU' LO Lo X PP a V SP t I1 I2 [(l & EV & ST & OFF) Pt].
  rewrite (proj1 (proj2 L)) in ST. change (0 =? -8) with false in ST. cbv iota in ST.
  rewrite (proj1 (proj2 L)), RU in EV. cbn [app] in EV. change (0 =? 0) with true in EV. cbv iota in EV. cbn [app] in EV. subst l.
  pose proof (inv_loaded f FO t e (put [88 + q] e) I1 Lo X) as LD. apply loaded_put in LD. cbn [map] in LD. rewrite u8_small in LD by lia.
  pose proof (live_lo _ L) as LL. pose proof (live_room _ _ L') as LR. cbn [length] in LR. rewrite put_addr in CA. cbn [length] in CA.
  destruct t as [r g i f0 m]. cbn [rg sg ip mem] in *. subst i.
  apply (pop_run _ r g (CodeAddress e) f0 m q LD Q); [lia|lia|].
  set (t1 := mkst r g (CodeAddress e + 1) f0 m).
  assert (I1' : inv f t1). { destruct I1 as (W1 & W2 & W3 & W4). split; [|split; [exact W2|split; [exact W3|exact W4]]]. destruct W1 as (Q1 & Q2 & Q3 & Q4). split; [exact Q1|]. split; [exact Q2|]. split; [unfold is16; cbn; lia|exact Q4]. }
  unfold space in SP. cbn [length] in SP. rewrite Nat.add_0_r in SP.
  destruct (pop_inv f FO a V t1 q (CodeAddress e + 1) I1' ST Q SP ltac:(lia)) as (J1 & J2 & J3).
  apply reach_now. split; [exact J1|]. split; [rewrite CA; reflexivity|]. split; [|split; [exact J3|]].
  - exists V. rewrite P', RU'. split; [reflexivity|]. split; [exact J2|]. cbn [length] in OFF. lia.
  - apply (PP r g (CodeAddress e)). exact Pt.
Qed.

Section W.
Variable W : Z.
Hypothesis HW : 16 <= W.

(** fields a step that takes a saved value leaves alone *)
Definition same_cur (e e' : emst) : Prop :=
  live e' /\ VOff e' = VOff e /\ ext e e' /\ CurrentType e' = CurrentType e /\ CurrentVal e' = CurrentVal e /\ IsUnsignedOp e' = IsUnsignedOp e /\
  RegUse e' = false /\ LocalOffset e' = LocalOffset e + if RegUse e then 0 else 2.

Lemma stored_any s r s' : live (em s) -> GetStoredVal W (-1) s = Ok (r, s') ->
  exists e', s' = set_em e' s /\ (r = R_CX \/ r = R_BX) /\ same_cur (em s) e' /\
  forall f a b V, frame_ok f -> f_lo f <= CodeAddress (em s) -> ext e' (f_fin f) -> space f (a :: V) 0 ->
    runs f (em s) e' (fun t => hold f (em s) (a :: V) t /\ ax (rg t) = b) (fun t => hold f e' V t /\ ax (rg t) = b /\ rget (rg t) r = a).
Proof.
  intros L H. unfold GetStoredVal, hasPushAx, gete in H. mgoin H. rewrite (proj1 (proj2 L)) in H. change (hasb 0 1) with false in H. cbn [failif] in H. mgoin H.
  destruct (RegUse (em s)) eqn:RU.
  - unfold upde in H. mgoin H. change ((-1 =? -1) || (-1 =? R_BX))%bool with true in H. cbv iota in H.
    oki H. exists (set_RegUse false (em s)). split; [reflexivity|]. split; [right; reflexivity|].
    split; [split; [exact L|split; [reflexivity|split; [exact (ext_refl (em s))|repeat split; cbn [LocalOffset set_RegUse]; rewrite ?RU; lia]]]|].
    intros f a b V FO Lo X SP. apply runs_here; [reflexivity|]. intros t I [(l & EV & ST & OFF) A].
    rewrite (proj1 (proj2 L)) in ST. change (0 =? -8) with false in ST. cbv iota in ST.
    rewrite (proj1 (proj2 L)), RU in EV. change (0 =? 0) with true in EV. cbv iota in EV. cbn [app] in EV. injection EV as E1 E2. subst l.
    split; [|split; [exact A|symmetry; exact E1]]. exists V. change (Pending (set_RegUse false (em s))) with (Pending (em s)). rewrite (proj1 (proj2 L)). auto.
  - change (if -1 <? 0 then R_CX else -1) with R_CX in H. cbv zeta in H. minv H z s1 E. apply o1_inv in E; [|exact L]. destruct E as [-> L'].
    unfold addOffset, upde in H. mgoin H. oki H. change (Z.lor I_POP R_CX) with 89 in *. rewrite em_app in *.
    set (e' := set_LocalOffset (LocalOffset (put [89] (em s)) + 2) (put [89] (em s))).
    exists e'. split; [reflexivity|]. split; [left; reflexivity|].
    split; [split; [exact L'|split; [reflexivity|split; [exact (ext_put [89] (em s) ltac:(cbn; unfold u8; lia))|rewrite RU; repeat split; exact RU]]]|].
    intros f a b V FO Lo X SP. eapply runs_imp; [apply (pop_runs f (em s) e' 1 (fun t => ax (rg t) = b) FO L L'); [lia|exact RU|reflexivity|apply L|exact RU|reflexivity|exact Lo|exact X|intros; assumption|exact SP]|auto|].
    cbv beta. intros t (A & B & C). auto.
Qed.
Lemma stored_ax s r s' : live (em s) -> GetStoredVal W R_AX s = Ok (r, s') ->
  exists e', s' = set_em e' s /\ r = R_AX /\ same_cur (em s) e' /\
  forall f a b V, frame_ok f -> f_lo f <= CodeAddress (em s) -> ext e' (f_fin f) -> space f (a :: V) 0 ->
    runs f (em s) e' (fun t => hold f (em s) (a :: V) t /\ cx (rg t) = b) (fun t => hold f e' V t /\ ax (rg t) = a /\ cx (rg t) = b).
Proof.
  intros L H. unfold GetStoredVal, hasPushAx, gete in H. mgoin H. rewrite (proj1 (proj2 L)) in H. change (hasb 0 1) with false in H. cbn [failif] in H. mgoin H.
  destruct (RegUse (em s)) eqn:RU.
  - unfold upde in H. mgoin H. change ((R_AX =? -1) || (R_AX =? R_BX))%bool with false in H. change (R_AX =? R_AX) with true in H. cbv iota in H.
    minv H z s1 E. set (e1 := set_RegUse false (em s)) in *.
    assert (L1 : live (em (set_em e1 s))) by exact L. change (upd (fun s : cc => set_em (set_RegUse false (em s)) s) s) with (Ok (tt, set_em e1 s)) in *.
    apply o1_inv in E; [|exact L1]. destruct E as [-> L']. oki H. change (Z.lor I_XCHG_AX R_BX) with 147 in *. rewrite em_app, set_em_em in *.
    set (e' := put [147] e1) in *. exists e'. split; [reflexivity|]. split; [reflexivity|].
    split; [split; [exact L'|split; [reflexivity|split; [exact (ext_put [147] e1 ltac:(cbn; unfold u8; lia))|rewrite RU; repeat split; unfold e', e1; rewrite put_local; cbn [LocalOffset set_RegUse]; lia]]]|].
    intros f a b V FO Lo X SP t I1 I2 [(l & EV & ST & OFF) A].
    rewrite (proj1 (proj2 L)) in ST. change (0 =? -8) with false in ST. cbv iota in ST.
    rewrite (proj1 (proj2 L)), RU in EV. change (0 =? 0) with true in EV. cbv iota in EV. cbn [app] in EV. injection EV as E1 E2. subst l.
    pose proof (inv_loaded f FO t e1 e' I1 Lo X) as LD. apply loaded_put in LD. cbn [map] in LD.
    pose proof (live_lo _ L) as LL. pose proof (live_room _ _ L') as LR. cbn [length] in LR. change (CodeAddress e1) with (CodeAddress (em s)) in *.
    destruct t as [r g i f0 m]. cbn [rg sg ip mem] in *. subst i.
    apply (xchg_run 3); [lia|exact LD|lia|lia|]. apply reach_now. set (t3 := mkst _ _ _ _ _).
    destruct I1 as ((Q1 & Q2 & Q3 & Q4) & K2 & K3 & K4). cbn [rg sg ip mem] in *.
    split; [|split; [unfold t3, e'; cbn [ip]; rewrite put_addr; cbn [length]; change (CodeAddress e1) with (CodeAddress (em s)); lia|]].
    + split; [|split; [exact K2|split; [exact K3|exact K4]]]. split; [|split; [exact Q2|split; [unfold is16, t3; cbn [ip]; lia|exact Q4]]].
      unfold t3; cbn [rg]. apply rset_ok; [apply rset_ok; [exact Q1|apply Q1]|]. apply rget_ok. exact Q1.
    + split; [|split; [symmetry; exact E1|exact A]]. exists V. change (Pending e') with (Pending (em s)). change (RegUse e') with false. rewrite (proj1 (proj2 L)).
      split; [reflexivity|]. split; [exact ST|exact OFF].
  - change (if R_AX <? 0 then R_CX else R_AX) with R_AX in H. cbv zeta in H. minv H z s1 E. apply o1_inv in E; [|exact L]. destruct E as [-> L'].
    unfold addOffset, upde in H. mgoin H. oki H. change (Z.lor I_POP R_AX) with 88 in *. rewrite em_app in *.
    set (e' := set_LocalOffset (LocalOffset (put [88] (em s)) + 2) (put [88] (em s))).
    exists e'. split; [reflexivity|]. split; [reflexivity|].
    split; [split; [exact L'|split; [reflexivity|split; [exact (ext_put [88] (em s) ltac:(cbn; unfold u8; lia))|rewrite RU; repeat split; exact RU]]]|].
    intros f a b V FO Lo X SP. eapply runs_imp; [apply (pop_runs f (em s) e' 0 (fun t => cx (rg t) = b) FO L L'); [lia|exact RU|reflexivity|apply L|exact RU|reflexivity|exact Lo|exact X|intros; assumption|exact SP]|auto|].
    cbv beta. intros t (A & B & C). auto.
Qed.

(** ** A variable as the current value *)
Definition lvar (e : emst) (Loc Val : Z) : Prop := CurrentType e = VT_INT + VT_LVAL + Loc /\ CurrentVal e = Val.
Lemma loc_cases d vo x Loc Val : int_var d vo x Loc Val -> Loc = VT_LOCOFF \/ Loc = VT_LOCGLOB.
Proof. intros (_ & _ & [[-> _]|[-> _]]); auto. Qed.
(** only the description of the current value changes *)
Lemma set_type_kin t e : kin e (set_CurrentType t e).
Proof. repeat split. Qed.
Lemma set_val_kin t e : kin e (set_CurrentVal t e).
Proof. repeat split. Qed.

Lemma lval_var d x Loc Val s x0 s' : gen (em s) -> int_var d (VOff (em s)) x Loc Val -> lvar (em s) Loc Val -> LvalToRval W s = Ok (x0, s') ->
  exists e', s' = set_em e' s /\ live e' /\ VOff e' = VOff (em s) /\ ext (em s) e' /\ CurrentType e' = VT_INT /\ IsUnsignedOp e' = IsUnsignedOp (em s) /\ bal (em s) e' /\
  forall f env, frame_ok f -> sees_var f d (VOff (em s)) env x -> acts f (em s) e' (fun _ => True) (fun t => ax (rg t) = env x mod 65536).
Proof.
  intros G IV [T CV] H. unfold LvalToRval, gete in H. mgoin H. rewrite T in H.
  assert (LC := loc_cases _ _ _ _ _ IV).
  assert (E1 : hasb (VT_INT + VT_LVAL + Loc) VT_LVAL = true /\ Z.land (VT_INT + VT_LVAL + Loc) VT_LOCMASK = Loc /\ clr (VT_INT + VT_LVAL + Loc) (Z.lor VT_LVAL VT_LOCMASK) = VT_INT /\ (Loc =? 0) = false)
    by (destruct LC as [->| ->]; repeat split; reflexivity).
  destruct E1 as (E1 & E2 & E3 & E4). rewrite E1 in H. cbn [when] in H. cbv zeta in H. rewrite E2, E3, E4 in H.
  unfold setT, upde in H. mgoin H.
  change (VT_INT =? VT_ARRAY) with false in H. change (hasb VT_INT VT_FUNPTR) with false in H. change (negb (clr VT_INT VT_UNSIGNED =? VT_CHAR)) with true in H. cbv iota in H.
  change (zb true + 1) with 2 in H. cbn [negb when] in H.
  minv H z s1 E. mgoin E. apply inem_inv in E. destruct E as (e1 & E & ->). oki H.
  change (upd (fun s : cc => set_em (set_CurrentType VT_INT (em s)) s) s) with (Ok (tt, set_em (set_CurrentType VT_INT (em s)) s)) in *.
  rewrite set_em_em in *. change (CurrentVal (set_CurrentType VT_INT (em s))) with (CurrentVal (em s)) in E. rewrite CV in E.
  set (e0 := set_CurrentType VT_INT (em s)) in *. assert (K : kin (em s) e0) by apply set_type_kin.
  pose proof (kin_gen _ _ K G) as G0.
  destruct (load_step W HW d (VOff (em s)) x Loc Val e0 e1 z G0 eq_refl IV E) as (L & V1 & X & T1 & _ & U & BA & A).
  exists e1. split; [reflexivity|]. split; [exact L|]. split; [exact V1|]. split; [exact (ext_trans _ _ _ (ext_kin _ _ K) X)|]. split; [exact T1|]. split; [exact U|]. split; [exact (bal_trans _ _ _ (bal_kin _ _ K) BA)|].
  intros f env FO SV. apply (acts_kin_l f e0); [apply kin_sym; exact K|]. apply A; assumption.
Qed.
Lemma lval_not s : hasb (CurrentType (em s)) VT_LVAL = false -> LvalToRval W s = Ok (tt, s).
Proof. intro H. unfold LvalToRval, gete. cbv [SccState.bind gets]. rewrite H. reflexivity. Qed.

Lemma getval_var d x Loc Val s x0 s' : gen (em s) -> int_var d (VOff (em s)) x Loc Val -> lvar (em s) Loc Val -> GetVal W s = Ok (x0, s') ->
  exists e', s' = set_em e' s /\ live e' /\ VOff e' = VOff (em s) /\ ext (em s) e' /\ CurrentType e' = VT_INT /\ IsUnsignedOp e' = IsUnsignedOp (em s) /\ bal (em s) e' /\
  forall f env, frame_ok f -> sees_var f d (VOff (em s)) env x -> acts f (em s) e' (fun _ => True) (fun t => ax (rg t) = env x mod 65536).
Proof.
  intros G IV LV H. unfold GetVal, gete in H. mgoin H.
  assert (N : (CurrentType (em s) =? VT_BOOL) = false) by (rewrite (proj1 LV); destruct (loc_cases _ _ _ _ _ IV) as [->| ->]; reflexivity). rewrite N in H.
  minv H z s1 E. destruct (lval_var d x Loc Val s z s1 G IV LV E) as (e' & -> & A1 & A2 & A3 & A4 & A5 & A7 & A6).
  mgoin H. rewrite set_em_em, A4 in H. change (hasb VT_INT VT_LOCMASK) with false in H. cbn [when] in H. oki H.
  exists e'. repeat (split; [assumption||reflexivity|]). exact A6.
Qed.
Lemma getval_int s x0 s' : CurrentType (em s) = VT_INT -> GetVal W s = Ok (x0, s') -> s' = s.
Proof.
  intros T H. unfold GetVal, gete in H. mgoin H. rewrite T in H. change (VT_INT =? VT_BOOL) with false in H. cbv iota in H.
  rewrite (bind_ok _ _ s tt s) in H by (apply lval_not; rewrite T; reflexivity). mgoin H. rewrite T in H. change (hasb VT_INT VT_LOCMASK) with false in H. cbn [when] in H. oki H. reflexivity.
Qed.
Lemma getval_cond s x0 s' : live (em s) -> CurrentType (em s) = VT_BOOL -> 0 <= CurrentVal (em s) < 16 -> GetVal W s = Ok (x0, s') ->
  exists e', s' = set_em e' s /\ grown (em s) e' /\ CurrentType e' = VT_INT /\ IsUnsignedOp e' = IsUnsignedOp (em s) /\
  forall f b, frame_ok f -> acts f (em s) e' (holds (CurrentVal (em s)) b) (fun t => ax (rg t) = zb b).
Proof.
  intros L T R H. destruct (getval_bool W s s' x0 L T R H) as (_ & L' & D).
  unfold GetVal, gete in H. mgoin H. rewrite T in H. change (VT_BOOL =? VT_BOOL) with true in H. cbv iota in H.
  minv H y s1 E. apply inem_inv in E. destruct E as (e1 & E & ->). unfold EmitMovRImm in E. apply out3 in E; auto. destruct E as [-> L1].
  mgoin H. minv H z s2 E. apply o3_inv in E; auto. destruct E as [-> L2]. unfold setT, upde in H. oki H.
  rewrite em_app, set_em_em in *.
  match goal with |- context [set_CurrentType _ ?e] => set (e2 := e) in * end.
  exists (set_CurrentType VT_INT e2). split; [reflexivity|].
  assert (G : grown (em s) (set_CurrentType VT_INT e2)).
  { apply (grown_kin _ e2); [apply set_type_kin|]. unfold e2. rewrite <- put_app. apply grown_put; [rewrite put_app; exact L2|]. cbn; unfold u8; lia. }
  split; [exact G|]. split; [reflexivity|]. split; [reflexivity|]. intros f b FO.
  apply (step_acts f FO _ [R_AX] _ _ _ _ _ L G (D b)); clobs.
  - intros t t' [_ K]. exact K.
  - intros t _ P. exact P.
  - intros t t' _ _ _ [A _]. exact A.
Qed.

(** ** A variable as the right operand *)
Lemma alumem_decodes o k b e Loc Val f : alu_for o = Some k -> GetSimpleALU_ false (op_tok o) = b + 256 * (match o with Rel o => cmp_cc false o | _ => 0 end) -> 0 <= b < 64 -> is_var e Loc Val ->
  let bs := map u8 (Z.lor (GetSimpleALU_ false (op_tok o)) 3 :: mem_code e 0 Loc Val) in
  decode (over bs f) = Some (IAlu k true (Reg 0) (var_mem e Loc Val), Z.of_nat (length bs)).
Proof.
  intros K E B HV. cbv zeta. set (I0 := Z.lor (GetSimpleALU_ false (op_tok o)) 3).
  assert (D : dec_modrm (over (map u8 (I0 :: mem_code e 0 Loc Val)) f) None 1 = (var_mem e Loc Val, 0, Z.of_nat (length (map u8 (I0 :: mem_code e 0 Loc Val))))).
  { apply modrm_decodes; auto; [lia| |]; destruct HV as [->|[-> ?]]; auto. discriminate. }
  assert (F : over (map u8 (I0 :: mem_code e 0 Loc Val)) f 0 = u8 I0) by reflexivity.
  set (g := over (map u8 (I0 :: mem_code e 0 Loc Val)) f) in *. set (n := Z.of_nat (length (map u8 (I0 :: mem_code e 0 Loc Val)))) in *. clearbody g n.
  assert (C : exists q, u8 I0 = q /\ (q = 3 /\ k = ADD \/ q = 43 /\ k = SUB \/ q = 35 /\ k = AND \/ q = 11 /\ k = OR \/ q = 51 /\ k = XOR \/ q = 59 /\ k = CMP)).
  { exists (u8 I0). split; [reflexivity|]. unfold I0. clear - K. destruct o as [o|o]; [destruct o; try discriminate K|]; injection K as <-.
    - left; auto. - right; left; auto. - right; right; left; auto. - right; right; right; left; auto. - right; right; right; right; left; auto.
    - right; right; right; right; right. split; [|reflexivity]. destruct o; reflexivity. }
  destruct C as (q & Eq & C). rewrite Eq in F.
  assert (NP : q <> 38 /\ q <> 46 /\ q <> 54 /\ q <> 62 /\ q <> 242 /\ q <> 243) by (clear - C; lia).
  rewrite (dec_plain g q F) by tauto. unfold dec_op. rewrite F. change (0 + 1) with 1. rewrite D.
  destruct C as [[-> ->]|[[-> ->]|[[-> ->]|[[-> ->]|[[-> ->]|[-> ->]]]]]]; reflexivity.
Qed.
Lemma acts_any f e e' (P Q : state -> Prop) : (forall b, acts f e e' (fun t => P t /\ cx (rg t) = b) Q) -> acts f e e' P Q.
Proof. intros H Lo X V SP t I1 I2 [I3 I4]. apply (H (cx (rg t)) Lo X V SP t I1 I2). auto. Qed.

(** DoRhsLvalBinOp, scc.c:2221-2234: done, or the operands are in CX (left) and AX (right) *)
Lemma rhs_lval o d x Loc Val s done s' : live (em s) -> IsUnsignedOp (em s) = false -> int_var d (VOff (em s)) x Loc Val -> lvar (em s) Loc Val ->
  DoRhsLvalBinOp W (op_tok o) s = Ok (done, s') ->
  exists e', s' = set_em e' s /\ grown (em s) e' /\
  (if done then typ_of o e' /\ forall f env a v, frame_ok f -> env_ok env -> sees_var f d (VOff (em s)) env x -> int_range a -> apply o a (env x) = Some v -> div_ok o a (env x) ->
       acts f (em s) e' (fun t => ax (rg t) = a mod 65536) (res e' v)
   else alu_for o = None /\ CurrentType e' = VT_INT /\ IsUnsignedOp e' = false /\
     forall f env a, frame_ok f -> sees_var f d (VOff (em s)) env x -> acts f (em s) e' (fun t => ax (rg t) = a) (fun t => ax (rg t) = env x mod 65536 /\ cx (rg t) = a)).
Proof.
  intros L U IV [T CV] H. unfold DoRhsLvalBinOp, gete in H. mgoin H. rewrite T in H. cbv zeta in H.
  assert (LC := loc_cases _ _ _ _ _ IV).
  assert (E1 : Z.land (VT_INT + VT_LVAL + Loc) VT_LOCMASK = Loc /\ clr (VT_INT + VT_LVAL + Loc) (Z.lor VT_LOCMASK VT_LVAL) = VT_INT)
    by (destruct LC as [->| ->]; split; reflexivity).
  destruct E1 as [E1 E2]. rewrite E1, E2 in H. unfold setT, upde, GetSimpleALU, gete in H. mgoin H.
  change (upd (fun s : cc => set_em (set_CurrentType VT_INT (em s)) s) s) with (Ok (tt, set_em (set_CurrentType VT_INT (em s)) s)) in *.
  rewrite set_em_em in *. change (CurrentVal (set_CurrentType VT_INT (em s))) with (CurrentVal (em s)) in H. change (IsUnsignedOp (set_CurrentType VT_INT (em s))) with (IsUnsignedOp (em s)) in H.
  rewrite CV, U in H. set (e0 := set_CurrentType VT_INT (em s)) in *. assert (K : kin (em s) e0) by apply set_type_kin. pose proof (kin_live _ _ K L) as L0.
  assert (G0 : grown (em s) e0) by (apply (grown_kin _ (em s)); [exact K|apply grown_refl; exact L]).
  destruct (alu_for o) as [k|] eqn:AK.
  - destruct (alu_inst o k AK) as (b & (B1 & B2) & E & _).
    assert (NZ : (GetSimpleALU_ false (op_tok o) =? 0) = false) by (clear - AK; destruct o as [[]|[]]; try discriminate AK; reflexivity). rewrite NZ in H.
    minv H z s1 E3. apply inem_inv in E3. destruct E3 as (e1 & E3 & ->). rewrite set_em_em in E3.
    apply modrm_emits in E3; [|unfold R_AX; lia|exact L0]. destruct E3 as (Ee & L1 & _).
    assert (HV : is_var e0 Loc Val) by exact (int_is_var _ _ _ _ _ IV).
    assert (Ee' : e1 = put (Z.lor (GetSimpleALU_ false (op_tok o)) 3 :: mem_code e0 R_AX Loc Val) e0).
    { rewrite Ee. destruct HV as [->|[-> N]]; [reflexivity|]. apply add_ref_off. exact N. }
    clear Ee. set (bs := Z.lor (GetSimpleALU_ false (op_tok o)) 3 :: mem_code e0 R_AX Loc Val) in *.
    minv H z' s2 E4. rewrite E in E4. apply finish_inv in E4; [|exact B2]. oki H. rewrite set_em_em in *.
    assert (OKH : okhead bs) by (unfold bs; clear - AK; destruct o as [[]|[]]; try discriminate AK; cbn; unfold u8; lia).
    assert (G1 : grown e0 e1) by (rewrite Ee' in *; apply grown_put; [exact L1|exact OKH]).
    assert (T1 : CurrentType e1 = VT_INT) by (rewrite Ee', put_ctype; reflexivity).
    exists (fin o e1). split; [exact E4|]. split; [exact (grown_trans _ _ _ G0 (grown_kin _ _ _ (fin_kin o _) G1))|].
    split; [apply fin_typ; exact T1|]. intros f env a v FO EO SV Ra A DK. apply (acts_kin_l f e0); [apply kin_sym; exact K|].
    set (VV := fun r g m => var_get e0 2 Loc Val (mkst r g 0 (mkflags false false false false) m)).
    apply (alu_step o a (env x) v e0 e1 _ _ VV f FO L0 G1 eq_refl ltac:(rewrite T1; discriminate) Ra (EO x) A DK).
    + rewrite Ee'. apply (alu_does o k (var_mem e0 Loc Val) VV bs e0 AK L0); [rewrite Ee' in L1; exact L1| |].
      * intro g. pose proof (alumem_decodes o k b e0 Loc Val g AK E B2 HV) as D. cbv zeta in D. rewrite map_length in D. exact D.
      * intros r g i f0 m. exact (var_mem_get e0 Loc Val 2 r g i f0 m (or_intror eq_refl) HV).
    + intros t I E5. split; [exact E5|]. assert (VG : var_get e0 2 Loc Val t = env x mod 65536) by (apply (var_value f d e0 env x Loc Val t FO I); assumption).
      rewrite <- VG. destruct t; reflexivity.
  - rewrite (alu_none o AK) in H. cbn [Z.eqb] in H. minv H z s1 E3.
    apply (xchgcx_acts W (set_em e0 s)) in E3; [|exact L0]. destruct E3 as (-> & G1 & A1).
    minv H z' s2 E4. apply inem_inv in E4. destruct E4 as (e2 & E4 & ->). oki H. rewrite em_app, set_em_em in *.
    destruct (load_acts W d (VOff (em s)) x Loc Val _ e2 z' (proj1 G1) (put_voff _ _) IV E4) as (G2 & T2 & _ & U2 & A2).
    exists e2. split; [reflexivity|]. split; [exact (grown_trans _ _ _ G0 (grown_trans _ _ _ G1 G2))|].
    split; [reflexivity|]. split; [rewrite T2; apply put_ctype|]. split; [rewrite U2; rewrite put_unsigned; exact U|].
    intros f env a FO SV. apply (acts_kin_l f e0); [apply kin_sym; exact K|]. apply acts_any. intro b.
    apply (acts_seq f _ (put [145] e0) _ _ _ _ (proj1 (proj2 (proj2 G1))) (proj1 (proj2 (proj2 G2))) (A1 f a b FO)).
    eapply acts_imp; [apply (A2 f env a FO SV)| |auto]. cbv beta. tauto.
Qed.

(** ** Unary operators on AX *)
Lemma neg_acts u s x0 s' : u = Neg \/ u = Com -> live (em s) -> CurrentType (em s) = VT_INT -> o2 W 247 (match u with Neg => 216 | _ => 208 end) s = Ok (x0, s') ->
  exists e', s' = set_em e' s /\ grown (em s) e' /\ CurrentType e' = VT_INT /\
  forall f x v, frame_ok f -> apply_un u x = Some v -> acts f (em s) e' (fun t => ax (rg t) = x mod 65536) (fun t => ax (rg t) = v mod 65536).
Proof.
  intros HU L T H. apply o2_inv in H; [|exact L]. destruct H as [-> L']. rewrite em_app in *.
  set (c := match u with Neg => 216 | _ => 208 end) in *. assert (OK : okhead [247; c]) by (cbn; unfold u8; lia). pose proof (grown_put _ _ L' OK) as G.
  exists (put [247; c] (em s)). split; [reflexivity|]. split; [exact G|]. split; [rewrite put_ctype; exact T|].
  intros f x v FO A.
  set (F := fun a => match u with Neg => (0 - a) mod 65536 | _ => 65535 - a end).
  apply (acts_imp f (em s) (put [247; c] (em s)) (fun t => ax (rg t) = x mod 65536) (fun t => ax (rg t) = F (x mod 65536))); [apply (ax_acts (fun _ => True) [R_AX] F (em s) (put [247; c] (em s)) L G)|auto|]; clobs; auto.
  - apply does_of; auto. intros r g f0 m RO C _. pose proof (live_lo _ L) as LO. pose proof (live_room _ _ L') as LR. cbn [map length] in *.
    destruct HU as [->| ->]; unfold c, F in *.
    + runop [247; 216] (INeg true (Reg 0)) 2. apply reach_now. cbn [ip rg]. split; [reflexivity|]. split; [reflexivity|].
      unfold keeps_but. cbn [rg sg mem]. split; [|auto]. intros q Hq N. cbn [In] in N. unfold R_AX in N. reg8 q; try (exfalso; tauto); reflexivity.
    + runop [247; 208] (INot true (Reg 0)) 2. apply reach_now. cbn [ip rg]. split; [reflexivity|]. split; [reflexivity|].
      unfold keeps_but. cbn [rg sg mem]. split; [|auto]. intros q Hq N. cbn [In] in N. unfold R_AX in N. reg8 q; try (exfalso; tauto); reflexivity.
  - cbv beta. intros t _ E. rewrite E. unfold F. destruct HU as [->| ->]; cbn [apply_un] in A.
    + apply int16_some in A. destruct A as [-> _]. lia.
    + injection A as <-. lia.
Qed.
End W.
