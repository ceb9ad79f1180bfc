(** A call, from the name of the function to the end of the expression. *)
From Verif Require Import Base Bits Spec8086 SpecWf SccRun SccState SccEmit SccLex SccDecl SccExpr SccStmt SccInput SccPut SccArith SccOps SccJump SccMem SccFix SccHold SccFlush SccSem SccBin SccVal SccComp SccBody SccParse SccWhole SccAsn SccCall ExprSpec.

Section W.
Variables (W : Z) (F : nat).
Hypothesis HW : 16 <= W.

(** the function f returning int is at the address a *)
Definition fun_at (d : dcst) (vo : arr Z) (f a : Z) : Prop :=
  TOK_ID <= TOK_KEYWORD + f /\ exists v, aget (VarLookup d) f = v + 1 /\ v + 1 <> 0 /\ aget (VType d) v = VT_INT + VT_FUN + VT_LOCGLOB /\ aget vo v = a /\ a <> 0.
(** the bytes made free for n arguments *)
Definition arg_room (n : nat) : Z := match n with O => 0 | _ => 8 end.

Lemma em_lx l s : em (set_lx l s) = em s.
Proof. reflexivity. Qed.
(** ** The CALL instruction *)
Lemma call_emits v a s x s' : live (em s) -> aget (VOff (em s)) v = a -> a <> 0 -> (o1 W 232 ;; inem (EmitGlobalRefRel W v)) s = Ok (x, s') ->
  let w := a - (CodeAddress (em s) + 3) in s' = set_em (put [232; w; Z.shiftr w 8] (em s)) s /\ live (put [232; w; Z.shiftr w 8] (em s)).
Proof.
  intros L VA NA H. cbv zeta. minv H y s1 E. apply o1_inv in E; [|exact L]. destruct E as [-> L1]. apply inem_inv in H. destruct H as (e & H & ->). rewrite em_app in *.
  unfold EmitGlobalRefRel in H. mgoin H. rewrite put_voff, VA in H. rewrite (proj2 (Z.eqb_neq _ _) NA) in H. cbn [negb] in H. mgoin H. rewrite put_addr in H. cbn [length] in H.
  apply outw in H; [|exact L1]. destruct H as [-> L2]. rewrite <- put_app in L2 |- *. cbn [app] in *.
  replace (a - (CodeAddress (em s) + Z.of_nat 1) - 2) with (a - (CodeAddress (em s) + 3)) in * by lia. split; [destruct s; reflexivity|exact L2].
Qed.
Lemma call_runs a e t low top : let w := a - (CodeAddress e + 3) in let e' := put [232; w; Z.shiftr w 8] e in
  live e -> live e' -> at_ e top t -> loaded e e' t -> CodeAddress e' <= low -> low + 2 <= top -> top < 65536 ->
  reaches (fun t' => wf t' /\ ip t' = a mod 65536 /\ sp (rg t') = top - 2 /\ rd16 (mem t') (cs (sg t)) (top - 2) = CodeAddress e' /\
    bp (rg t') = bp (rg t) /\ sg t' = sg t /\ keeps (fun o => top - 2 <= o < top) t t') t.
Proof.
  cbv zeta. intros L L' [Wt SS DS IP SP BP] LD ROOM LOW TOP. set (w := a - (CodeAddress e + 3)) in *. set (e' := put [232; w; Z.shiftr w 8] e) in *.
  assert (A3 : CodeAddress e' = CodeAddress e + 3) by (unfold e'; rewrite put_addr; reflexivity). pose proof (live_lo _ L) as LO.
  assert (LR : CodeAddress e' <= 24832) by (destruct L' as (_ & _ & R & R2); unfold room, CODESTART, OUTPUT_MAX in *; lia).
  unfold owed in SP. rewrite (proj1 (proj2 L)) in SP. change (0 =? -8) with false in SP. cbv iota in SP. rewrite Z.add_0_r in SP.
  assert (CD : code (mem t) (cs (sg t)) (CodeAddress e) (map u8 [232; w; Z.shiftr w 8])) by (apply loaded_put; exact LD). cbn [map] in CD. change (u8 232) with 232 in CD.
  apply (reaches_imp (fun t' => wf t' /\ (ip t' = a mod 65536 /\ rg t' = rset (rg t) 4 (top - 2) /\ sg t' = sg t /\ mem t' = wr16 (mem t) (cs (sg t)) (top - 2) (CodeAddress e')))); [apply reaches_wf; [exact Wt|]|].
  - destruct t as [r g i f m]. cbn [rg sg ip mem] in *. subst i.
    apply (reach_code _ [232; u8 w; u8 (Z.shiftr w 8)] (ICall (w mod 65536)) 3 (fun _ => set_ip (push (mkst r g (CodeAddress e + 3) f m) (CodeAddress e + 3)) (CodeAddress e + 3 + w mod 65536)) r g (CodeAddress e) f m CD).
    + intro. rewrite <- word_bytes. reflexivity.
    + lia.
    + intro. reflexivity.
    + intro. apply reach_now.
      unfold push, set_ip, set_mem, set_reg, set_rg. cbn [rg sg ip mem]. rewrite SP, SS. rewrite (Z.mod_small (top - 2)) by lia. split; [|split; [reflexivity|split; [reflexivity|rewrite A3; reflexivity]]].
      unfold w. rewrite Z.add_mod_idemp_r by lia. f_equal. lia.
  - cbv beta. intros t' (Wt' & IP' & RG & SG & ME). split; [exact Wt'|]. split; [exact IP'|]. split; [rewrite RG; reflexivity|]. split; [rewrite ME; apply rd16_wr16_same; lia|].
    split; [rewrite RG; reflexivity|]. split; [exact SG|]. intros b NB. rewrite ME. rewrite aget_wr16 by lia. replace (top - 2 + 1) with (top - 1) by lia.
    destruct (Z.eqb_spec (phys (cs (sg t)) (top - 1)) b) as [E|_]; [destruct (NB (top - 1) ltac:(lia) (eq_sym E))|].
    destruct (Z.eqb_spec (phys (cs (sg t)) (top - 2)) b) as [E|_]; [destruct (NB (top - 2) ltac:(lia) (eq_sym E))|]. reflexivity.
Qed.

(** ** The call *)
Section E.
Variables (d : dcst) (env : Z -> Z).
Hypothesis EO : env_ok env.
(** what the code does up to the first instruction of the function *)
Definition calls (e e' : emst) (l : list exp) (vs : list Z) (a : Z) : Prop :=
  forall t low, let room := arg_room (length l) in
  wf t -> ss (sg t) = cs (sg t) -> ds (sg t) = cs (sg t) -> ip t = CodeAddress e -> (bp (rg t) + LocalOffset e) mod 65536 = sp (rg t) -> loaded e e' t ->
  CodeAddress e' <= low -> low + 2 <= sp (rg t) - room -> Forall (fun x => low + 2 * Z.of_nat (depth x) <= sp (rg t) - room) l ->
  Forall (fun x => placed d env (VOff e) x low (sp (rg t)) t) l ->
  reaches (fun t' => wf t' /\ ip t' = a mod 65536 /\ sp (rg t') = sp (rg t) - room - 2 /\ rd16 (mem t') (cs (sg t)) (sp (rg t')) = CodeAddress e' /\
    (forall j, (j < length l)%nat -> rd16 (mem t') (cs (sg t)) (sp (rg t') + 2 + 2 * Z.of_nat j) = nth j vs 0 mod 65536) /\
    bp (rg t') = bp (rg t) /\ sg t' = sg t /\ same_out low (sp (rg t)) t t') t.

Lemma calls_run e e1 l vs a : live e -> RegUse e = false -> (length l <= 4)%nat -> live e1 ->
  (l = [] -> e1 = e) -> (l <> [] -> LocalOffset e1 = LocalOffset e - 8 /\ ext (opened e) e1 /\ args_run d env (opened e) e1 l vs 0) ->
  let w := a - (CodeAddress e1 + 3) in live (put [232; w; Z.shiftr w 8] e1) -> calls e (put [232; w; Z.shiftr w 8] e1) l vs a.
Proof.
  cbv zeta. intros L RU L4 L1 H0 H1 L2. set (w := a - (CodeAddress e1 + 3)) in *. set (e' := put [232; w; Z.shiftr w 8] e1) in *.
  intros t low. cbv zeta. intros Wt SS DS IP BP LD ROOM LOW DP PL.
  assert (A3 : CodeAddress e' = CodeAddress e1 + 3) by (unfold e'; rewrite put_addr; reflexivity). pose proof (live_lo _ L) as LO. pose proof (live_lo _ L1) as LO1.
  assert (SPR : 0 <= sp (rg t) < 65536) by (exact (proj1 (proj2 (proj2 (proj2 (proj2 (proj1 Wt))))))).
  destruct l as [|x l].
  - specialize (H0 eq_refl). subst e1. cbn [length arg_room] in *. rewrite !Z.sub_0_r in *.
    assert (AT : at_ e (sp (rg t)) t) by (split; auto; unfold owed; rewrite (proj1 (proj2 L)); change (0 =? -8) with false; cbv iota; lia).
    eapply reaches_imp; [apply (call_runs a e t low (sp (rg t)) L L2 AT LD ROOM LOW ltac:(lia))|]. cbv beta.
    intros t' (W' & IP' & SP' & RD & BP' & SG' & K'). rewrite SP'. split; [exact W'|]. split; [exact IP'|]. split; [reflexivity|]. split; [exact RD|]. split; [intros j J; lia|]. split; [exact BP'|]. split; [exact SG'|].
    intros b NB. apply K'. intros o O. apply NB. lia.
  - destruct (H1 ltac:(discriminate)) as (LO8 & X & RN). set (l1 := x :: l) in *. assert (AR : arg_room (length l1) = 8) by reflexivity. rewrite AR in *. set (top := sp (rg t) - 8) in *.
    assert (AT : at_ (opened e) top t).
    { split; auto; [unfold owed; change (Pending (opened e)) with (-8); change (-8 =? -8) with true; cbv iota; unfold top; lia|]. change (LocalOffset (opened e)) with (LocalOffset e - 8).
      replace (bp (rg t) + (LocalOffset e - 8)) with (bp (rg t) + LocalOffset e + -8) by lia. rewrite <- Z.add_mod_idemp_l by lia. rewrite BP. unfold top. apply Z.mod_small. lia. }
    assert (X2 : ext e1 e') by (apply ext_put; cbn; unfold u8; lia).
    assert (LDo : loaded (opened e) e' t) by exact LD. destruct (loaded_ext _ _ _ _ X X2 LDo) as [LD1 LD2].
    assert (TE : top + 8 = sp (rg t)) by (unfold top; lia).
    eapply reaches_trans; [apply (RN t low top AT LD1 ltac:(lia) DP ltac:(lia) ltac:(lia))|].
    { rewrite TE. exact PL. }
    cbv beta. intros t1 (AT1 & RD1 & BP1 & SG1 & K1).
    assert (LD3 : loaded e1 e' t1).
    { eapply loaded_keeps; [exact K1|exact SG1|lia| |lia|exact LD2]. cbv beta. intros o O. unfold l1 in *. cbn [length] in *. lia. }
    eapply reaches_imp; [apply (call_runs a e1 t1 low top L1 L2 AT1 LD3 ROOM LOW ltac:(lia))|]. cbv beta.
    intros t2 (W2 & IP2 & SP2 & RD2 & BP2 & SG2 & K2). rewrite SP2. rewrite SG1 in RD2. split; [exact W2|]. split; [exact IP2|]. split; [reflexivity|]. split; [exact RD2|]. split; [|split; [congruence|split; [congruence|]]].
    + intros j J. rewrite <- (RD1 j J). rewrite <- SG1. replace (top - 2 + 2 + 2 * Z.of_nat j) with (top + 0 + 2 * Z.of_nat j) by lia. eapply keeps_rd16; [exact K2|lia| |].
      * unfold l1 in *. cbn [length] in *. lia.
      * cbv beta. intros o O. lia.
    + intros b NB. rewrite K2; [apply K1|]; intros o O; rewrite ?SG1; apply NB; unfold l1 in *; cbn [length] in *; lia.
Qed.

(** the end of call_expr *)
Definition returned (n : nat) (x : Z) (e : emst) : emst :=
  set_CurrentTypeExtra x (set_CurrentType VT_INT (set_LocalOffset (LocalOffset e + arg_room n) (set_Pending (arg_room n) e))).
Lemma round_room n : (n <= 4)%nat -> Z.land (2 * Z.of_nat n + (ArgChunkSize - 1)) (- ArgChunkSize) = arg_room n.
Proof. intro H. do 5 (destruct n as [|n]; [reflexivity|]). lia. Qed.

Lemma args_all n l vs s r s' rest : Forall2 (Arg d env (VOff (em s))) l vs -> (length l <= 4)%nat -> live (em s) -> RegUse (em s) = false -> dc s = d ->
  stream W F (lx s) (args_toks l ++ (ch_rpar, PREC_STOP, 0) :: rest) -> rest <> [] -> call_args W F (tie W F n) s = Ok (r, s') ->
  exists e1 l1, s' = set_lx l1 (set_em e1 s) /\ r = 2 * Z.of_nat (length l) /\ stream W F l1 ((ch_rpar, PREC_STOP, 0) :: rest) /\ live e1 /\ VOff e1 = VOff (em s) /\ RegUse e1 = false /\
    LocalOffset e1 = LocalOffset (em s) - arg_room (length l) /\ ext (em s) e1 /\
    (l = [] -> e1 = em s) /\ (l <> [] -> LocalOffset e1 = LocalOffset (em s) - 8 /\ ext (opened (em s)) e1 /\ args_run d env (opened (em s)) e1 l vs 0).
Proof.
  intros F2 L4 L RU D ST NR H. rewrite call_args_eq in H. destruct l as [|x l].
  - destruct F as [|F0] eqn:FE; [discriminate H|]. cbn [loopM] in H. rewrite <- FE in *. cbn [args_toks app] in ST. pose proof ST as (T & _). cbn [t_type fst snd] in T.
    unfold arg_body, getl in H. mgoin H. rewrite T in H. change (ch_rpar =? ch_rpar) with true in H. cbv iota in H. mgoin H. oki H.
    exists (em s), (lx s). split; [destruct s; reflexivity|]. split; [reflexivity|]. split; [exact ST|]. split; [exact L|]. split; [reflexivity|]. split; [exact RU|]. split; [cbn [length arg_room]; lia|].
    split; [apply ext_refl|]. split; [reflexivity|]. intro N. destruct (N eq_refl).
  - destruct (args_ok W F HW d env EO n (x :: l) vs 0%nat F s r s' rest F2 ltac:(discriminate) L4 L RU D ST NR H) as (e1 & l1 & -> & -> & S1 & L1 & VO & LO & RU1 & X & RN).
    exists e1, l1. cbn [entry Nat.add] in *. split; [reflexivity|]. split; [reflexivity|]. split; [exact S1|]. split; [exact L1|]. split; [exact VO|]. split; [exact RU1|].
    split; [exact LO|]. split; [exact X|]. split; [discriminate|]. intros _. split; [exact LO|]. split; [exact X|exact RN].
Qed.

Lemma call_ok n l vs v a s x s' rest : Forall2 (Arg d env (VOff (em s))) l vs -> (length l <= 4)%nat -> live (em s) -> RegUse (em s) = false -> dc s = d ->
  CurrentType (em s) = Z.lor (VT_INT + VT_FUN + VT_LOCGLOB) VT_LVAL -> CurrentVal (em s) = v -> aget (VOff (em s)) v = a -> a <> 0 ->
  stream W F (lx s) ((ch_lpar, PREC_STOP, 0) :: args_toks l ++ (ch_rpar, PREC_STOP, 0) :: rest) -> rest <> [] -> call_expr W F (tie W F n) s = Ok (x, s') ->
  exists e1 l', let w := a - (CodeAddress e1 + 3) in let e2 := put [232; w; Z.shiftr w 8] e1 in
    s' = set_lx l' (set_em (returned (length l) (aget (VExtra d) v) e2) s) /\ stream W F l' rest /\ live e2 /\ VOff e2 = VOff (em s) /\ RegUse e2 = false /\
    LocalOffset e2 = LocalOffset (em s) - arg_room (length l) /\ ext (em s) e2 /\ calls (em s) e2 l vs a.
Proof.
  intros F2 L4 L RU D CT CV VA NA ST NR H. unfold call_expr in H.
  assert (N0 : args_toks l ++ (ch_rpar, PREC_STOP, 0) :: rest <> []) by (destruct (args_toks l); discriminate).
  destruct (stream_next _ _ _ _ _ ST N0) as (l1 & G1 & ST1). unfold next in H. rewrite (bind_ok _ _ _ _ _ G1) in H. unfold gete, getd in H. mgoin H. rewrite em_lx, CT in H.
  match type of H with context [failif ?b] => change b with false in H end. cbn [failif when] in H. mgoin H. rewrite em_lx, CV in H.
  match type of H with context [if ?b then _ else _] => change b with true in H end. cbv iota in H. mgoin H.
  unfold hasPushAx, gete in H. mgoin H. rewrite em_lx, (proj1 (proj2 L)), RU in H. change (hasb 0 1) with false in H. cbn [when] in H. mgoin H. rewrite em_lx, RU in H. cbn [when] in H. mgoin H.
  minv H r s1 E.
  destruct (args_all n l vs (set_lx l1 s) r s1 rest F2 L4 L RU D ST1 NR E) as (e1 & l2 & -> & -> & S2 & L1 & VO & RU1 & LO & X & H0 & H1).
  set (s2 := set_lx l2 (set_em e1 (set_lx l1 s))) in *. change (em (set_lx l1 s)) with (em s) in VO, LO, X, H0, H1.
  unfold Expect, getl in H. mgoin H. pose proof S2 as (T2 & _). cbn [t_type fst snd] in T2. change (TokenType (lx s2)) with (TokenType l2) in H. rewrite T2 in H. change (ch_rpar =? ch_rpar) with true in H. cbv iota in H.
  destruct (stream_next W F s2 _ _ S2 NR) as (l3 & G3 & S3). rewrite (bind_ok _ _ _ _ _ G3) in H. minv H r4 s4 E4.
  assert (E5 : ((o1 W 232 ;; inem (EmitGlobalRefRel W v)) ;; ret (Z.land (2 * Z.of_nat (length l) + (ArgChunkSize - 1)) (- ArgChunkSize))) (set_lx l3 s2) = Ok (r4, s4)) by (rewrite bind_assoc; exact E4).
  minv E5 y5 s5 E6. apply (call_emits v a) in E6; [|exact L1|change (em (set_lx l3 s2)) with e1; rewrite VO; exact VA|exact NA]. cbv zeta in E6. change (em (set_lx l3 s2)) with e1 in E6. destruct E6 as [-> L2].
  oki E5. rewrite round_room in H by exact L4. exists e1, l3. cbv zeta. set (w := a - (CodeAddress e1 + 3)) in *. set (e2 := put [232; w; Z.shiftr w 8] e1) in *.
  assert (X2 : ext e1 e2) by (apply ext_put; cbn; unfold u8; lia).
  assert (P2 : Pending e2 = 0) by apply L2.
  unfold addPending, addOffset, setT, setX, upde in H. mgoin H. oki H.
  split. { unfold returned. rewrite <- D. clearbody e2. destruct s as [d0 l0 e0]. cbn in P2 |- *. rewrite P2. reflexivity. }
  split; [exact S3|]. split; [exact L2|]. split; [unfold e2; rewrite put_voff; exact VO|]. split; [unfold e2; rewrite put_reg; exact RU1|]. split; [unfold e2; rewrite put_local; exact LO|].
  split; [eapply ext_trans; [exact X|exact X2]|]. apply (calls_run (em s) e1 l vs a L RU L4 L1 H0 H1 L2).
Qed.

(** ** The name of the function *)
Lemma name_primary n f v s y s1 rest : TOK_ID <= TOK_KEYWORD + f -> aget (VarLookup d) f = v + 1 -> v + 1 <> 0 -> aget (VType d) v = VT_INT + VT_FUN + VT_LOCGLOB -> dc s = d ->
  stream W F (lx s) ((TOK_KEYWORD + f, PREC_STOP, 0) :: rest) -> rest <> [] -> ParsePrimaryExpression W F (tie W F n) s = Ok (y, s1) ->
  exists e' l1, s1 = set_lx l1 (set_em e' s) /\ stream W F l1 rest /\ kin (em s) e' /\ CurrentType e' = Z.lor (VT_INT + VT_FUN + VT_LOCGLOB) VT_LVAL /\ CurrentVal e' = v.
Proof.
  intros TX LK NZ VT D ST EN E. unfold ParsePrimaryExpression, getl in E. mgoin E. pose proof ST as (T & _ & _ & _). cbn [t_type fst snd] in T.
  rewrite T in E. unfold TOK_ID, TOK_KEYWORD in TX.
  assert (B1 : TOK_KEYWORD + f =? ch_lpar = false) by (unfold TOK_KEYWORD, ch_lpar; lia). assert (B2 : TOK_KEYWORD + f =? TOK_NUM = false) by (unfold TOK_KEYWORD, TOK_NUM; lia).
  assert (B3 : TOK_KEYWORD + f =? TOK_STRLIT = false) by (unfold TOK_KEYWORD, TOK_STRLIT; lia).
  assert (B4 : (TOK_KEYWORD + f =? TOK_VA_ARG) || (TOK_KEYWORD + f =? TOK_VA_START) || (TOK_KEYWORD + f =? TOK_VA_END) = false) by (unfold TOK_KEYWORD, TOK_VA_ARG, TOK_VA_START, TOK_VA_END; lia).
  rewrite B1, B2, B3, B4 in E. unfold ExpectId, getl in E. mgoin E. rewrite T in E. assert (B5 : TOK_ID <=? TOK_KEYWORD + f = true) by (unfold TOK_KEYWORD, TOK_ID; lia). rewrite B5 in E.
  destruct (stream_next _ _ _ _ _ ST EN) as (l1 & G1 & ST1). rewrite bind_assoc in E. rewrite (bind_ok _ _ _ _ _ G1) in E. mgoin E.
  replace (TOK_KEYWORD + f - TOK_KEYWORD) with f in E by lia. unfold setV, upde, HandlePrimaryId, gete, getd in E. mgoin E.
  set (e0 := set_CurrentVal f (em (set_lx l1 s))) in *. set (s0 := set_em e0 (set_lx l1 s)) in *.
  change (CurrentVal (em s0)) with f in E. change (dc s0) with (dc s) in E. rewrite D, LK in E.
  destruct (Z.eqb_spec (v + 1) 0) as [|_]; [contradiction|]. cbv zeta in E. mgoin E. replace (v + 1 - 1) with v in E by lia.
  unfold upde in E. mgoin E.
  match type of E with context [VType (dc ?st)] => change (dc st) with (dc s) in E end. rewrite D, VT in E.
  change (Z.land (Z.lor (VT_INT + VT_FUN + VT_LOCGLOB) VT_LVAL) VT_LOCMASK) with VT_LOCGLOB in E.
  change (VT_LOCGLOB =? VT_LOCLIT) with false in E. change (VT_LOCGLOB =? VT_LOCGLOB) with true in E. cbv iota in E. cbn [when] in E. unfold upde in E. mgoin E. oki E.
  eexists _, l1. split; [unfold s0; destruct s; reflexivity|]. split; [exact ST1|]. split; [repeat split|]. split; reflexivity.
Qed.

Definition call_toks (f : Z) (l : list exp) : list token := (TOK_KEYWORD + f, PREC_STOP, 0) :: (ch_lpar, PREC_STOP, 0) :: args_toks l ++ [(ch_rpar, PREC_STOP, 0)].
(** a call has been compiled *)
Definition called (s s' : cc) (l : list exp) (vs : list Z) (a : Z) (rest : list token) : Prop :=
  exists e2 xt l', s' = set_lx l' (set_em (returned (length l) xt e2) s) /\ stream W F l' rest /\ live e2 /\ VOff e2 = VOff (em s) /\ RegUse e2 = false /\
    LocalOffset e2 = LocalOffset (em s) - arg_room (length l) /\ ext (em s) e2 /\ calls (em s) e2 l vs a.
Lemma cast_call n f a l vs s x s' rest : fun_at d (VOff (em s)) f a -> Forall2 (Arg d env (VOff (em s))) l vs -> (length l <= 4)%nat -> live (em s) -> RegUse (em s) = false -> dc s = d ->
  stream W F (lx s) (call_toks f l ++ rest) -> ends rest -> pCast (tie W F n) s = Ok (x, s') -> called s s' l vs a rest.
Proof.
  intros (TX & v & LK & NZ & VT & VA & NA) F2 L4 L RU D ST EN E. unfold call_toks in ST. cbn [app] in ST. rewrite <- app_assoc in ST. cbn [app] in ST.
  destruct n as [|n]; [discriminate E|]. cbn [tie pCast] in E. unfold ParseCastExpression, getl in E. mgoin E. pose proof ST as (T & _). cbn [t_type fst snd] in T. rewrite T in E. unfold TOK_ID, TOK_KEYWORD in TX.
  assert (NE : forall y, y < 187 -> (TOK_KEYWORD + f =? y) = false) by (intros; unfold TOK_KEYWORD; lia).
  rewrite !NE in E by reflexivity. destruct n as [|n]; [discriminate E|]. cbn [tie pUnary] in E. unfold ParseUnaryExpression, getl in E. mgoin E. rewrite T in E.
  rewrite !NE in E by reflexivity. cbn [orb] in E. minv E y2 s2 E2.
  destruct (name_primary n f v s y2 s2 _ TX LK NZ VT D ST ltac:(discriminate) E2) as (e1 & l1 & -> & ST1 & K & CT & CV).
  destruct n as [|n]; [discriminate E|]. cbn [tie pPostfix] in E. unfold ParsePostfixExpression, getl in E. mgoin E. set (s3 := set_lx l1 (set_em e1 s)) in *.
  pose proof ST1 as (T1 & P1 & _). cbn [t_type t_prec fst snd] in T1, P1. change (lx s3) with l1 in E. rewrite P1 in E. change (negb (PREC_STOP =? PREC_STOP)) with false in E. cbv iota in E. mgoin E.
  change (lx s3) with l1 in E. rewrite T1 in E.
  match type of E with context [if ?b then ret tt else _] => change b with false in E end. cbv iota in E. change (ch_lpar =? ch_lpar) with true in E. cbv iota in E. minv E y4 s4 E4.
  assert (VOK : VOff e1 = VOff (em s)) by apply K.
  apply (call_ok n l vs v a s3) with (rest := rest) in E4; [|change (em s3) with e1; rewrite VOK; exact F2|exact L4| | |exact D|exact CT|exact CV|change (em s3) with e1; rewrite VOK; exact VA|exact NA|exact ST1|exact (ends_nil _ EN)].
  2: { exact (kin_live _ _ K L). }
  2: { change (em s3) with e1. rewrite <- RU. apply K. }
  destruct E4 as (e2 & l3 & -> & ST3 & L2 & VO2 & RU2 & LO2 & X2 & CL). set (w := a - (CodeAddress e2 + 3)) in *. set (e3 := put [232; w; Z.shiftr w 8] e2) in *. clearbody e3.
  apply (postfix_ends W F n _ _ _ rest) in E; [|exact ST3|exact EN]. subst s'.
  exists e3, (aget (VExtra d) v), l3. split; [unfold s3; destruct s; reflexivity|]. split; [exact ST3|]. split; [exact L2|]. change (em s3) with e1 in *. split; [congruence|]. split; [exact RU2|].
  pose proof K as (KA & _ & _ & _ & KL & _). split; [rewrite LO2, KL; reflexivity|]. split; [eapply ext_trans; [apply ext_kin; exact K|exact X2]|].
  intros t0 low. cbv zeta. specialize (CL t0 low). cbv zeta in CL. unfold loaded in *. rewrite KA, KL, VOK in CL. exact CL.
Qed.
Lemma called_lx s s' l vs a rest : called s s' l vs a rest -> stream W F (lx s') rest.
Proof. intros (e2 & xt & l' & -> & ST & _). exact ST. Qed.

Lemma named_call n f a l vs s x s' rest : fun_at d (VOff (em s)) f a -> Forall2 (Arg d env (VOff (em s))) l vs -> (length l <= 4)%nat -> live (em s) -> RegUse (em s) = false -> dc s = d ->
  stream W F (lx s) (call_toks f l ++ rest) -> ends rest -> prec_over PREC_COMMA rest -> pExpr (tie W F n) s = Ok (x, s') -> called s s' l vs a rest.
Proof.
  intros FA F2 L4 L RU D ST EN PO H. destruct n as [|n]; [discriminate H|]. cbn [tie pExpr] in H. unfold ParseExpr in H. minv H y s1 E.
  apply (cast_call n f a l vs s y s1 rest FA F2 L4 L RU D ST EN) in E. unfold getl in H. mgoin H. destruct rest as [|t rest]; [destruct EN|].
  pose proof (called_lx _ _ _ _ _ _ E) as (_ & P3 & _). cbn [prec_over] in PO. rewrite P3 in H. destruct (Z.leb_spec (t_prec t) PREC_COMMA); [lia|]. cbn [when] in H. oki H. exact E.
Qed.
(** ... as the right side of an assignment *)
Lemma rhs_call n f a l vs s x s' rest : fun_at d (VOff (em s)) f a -> Forall2 (Arg d env (VOff (em s))) l vs -> (length l <= 4)%nat -> live (em s) -> RegUse (em s) = false -> dc s = d ->
  stream W F (lx s) (call_toks f l ++ rest) -> ends rest -> prec_over PREC_COMMA rest -> (pCast (tie W F n) ;; rhs_loop F (tie W F n) PREC_ASSIGN) s = Ok (x, s') -> called s s' l vs a rest.
Proof.
  intros FA F2 L4 L RU D ST EN PO H. minv H y s1 E. apply (cast_call n f a l vs s y s1 rest FA F2 L4 L RU D ST EN) in E.
  unfold rhs_loop in H. destruct F as [|F0] eqn:FE; [discriminate H|]. cbn [loopM] in H. rewrite <- FE in *. unfold getl in H. mgoin H. destruct rest as [|t rest]; [destruct EN|].
  pose proof (called_lx _ _ _ _ _ _ E) as (_ & P3 & _). cbn [prec_over] in PO. rewrite P3 in H. unfold PREC_COMMA in PO. assert (PO' : PREC_ASSIGN <? t_prec t = true) by (unfold PREC_ASSIGN; lia). rewrite PO' in H. cbn [orb] in H. mgoin H. oki H. exact E.
Qed.
End E.
End W.
