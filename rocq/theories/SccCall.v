(** A call of a function: the arguments are evaluated and put on the stack, and the function is reached. *)
From Verif Require Import Base Bits Spec8086 SpecWf SccRun SccState SccEmit SccLex SccDecl SccExpr SccStmt SccInput SccPut SccArith SccOps SccJump SccMem SccFix SccHold SccFlush SccSem SccBin SccVal SccComp SccBody SccParse SccWhole SccAsn ExprSpec.

Section W.
Variables (W : Z) (F : nat).
Hypothesis HW : 16 <= W.
Variables (d : dcst) (env : Z -> Z).
Hypothesis EO : env_ok env.

(** ** Where the machine is while arguments are evaluated *)
(** SP is at top, or will be once the postponed SUB SP,8 is out; the compiler knows where that is from BP *)
Definition owed (e : emst) : Z := if Pending e =? -8 then 8 else 0.
Record at_ (e : emst) (top : Z) (t : state) : Prop := {
  at_wf : wf t;
  at_ss : ss (sg t) = cs (sg t);
  at_ds : ds (sg t) = cs (sg t);
  at_ip : ip t = CodeAddress e;
  at_sp : sp (rg t) = top + owed e;
  at_bp : (bp (rg t) + LocalOffset e) mod 65536 = top }.
(** the variables are outside of the stack from low on *)
Definition placed (vo : arr Z) (ex : exp) (low high : Z) (t : state) : Prop :=
  forall x Loc Val, In x (vars ex) -> int_var d vo x Loc Val ->
     let a := if Loc =? VT_LOCOFF then (bp (rg t) + Val) mod 65536 else aget vo Val mod 65536 in
     a + 1 < 65536 /\ (a + 1 < low \/ high <= a) /\ env x = signed true (rd16 (mem t) (cs (sg t)) a).
Definition same_out (low high : Z) (t t' : state) : Prop :=
  forall a, (forall o, low <= o < high -> a <> phys (cs (sg t)) o) -> aget (mem t') a = aget (mem t) a.

Lemma flush_same e : RegUse e = false -> Pending e = 0 \/ Pending e = -8 -> RegUse (flush e) = false /\ LocalOffset (flush e) = LocalOffset e.
Proof.
  intros R P. unfold flush. destruct P as [P|P]; rewrite P; [auto|]. change (-8 =? 0) with false. change (-8 =? -8) with true. cbv iota.
  rewrite put_reg, put_local. auto.
Qed.
(** the code of an expression that leaves its value in AX *)
Lemma acts_at n vs e e1 Q t low top : gen e -> Pending e = 0 \/ Pending e = -8 -> RegUse e = false -> live e1 -> ext e e1 ->
  (forall f, frame_ok f -> sees_all f d (VOff e) env vs -> Acts f n e e1 (fun _ => True) Q) ->
  at_ e top t -> loaded e e1 t -> CodeAddress e1 <= low -> low + 2 * Z.of_nat n <= top -> top + 8 < 65536 ->
  (forall x, In x vs -> placed (VOff e) (EVar x) low top t) -> LocalOffset e1 = LocalOffset e ->
  reaches (fun t' => at_ e1 top t' /\ Q t' /\ bp (rg t') = bp (rg t) /\ sg t' = sg t /\ same_out low top t t') t.
Proof.
  intros G P RU L1 X A [Wt SS DS IP SP BP] LD ROOM LOW TOP VARS LO.
  set (f := mkframe e1 (CodeAddress e) (sg t) (bp (rg t)) top low (mem t) (LocalOffset e)).
  assert (GL : 256 <= CodeAddress e) by (destruct G as (_ & _ & R & R2); unfold CODESTART in *; lia).
  assert (FO : frame_ok f).
  { split; [exact SS|]. split; [exact DS|]. destruct X as [X1 X2]. cbn [f f_lo f_fin f_low f_top].
    split; [lia|]. split; [exact ROOM|]. split; [lia|]. split; [lia|]. exact LD. }
  assert (SA : sees_all f d (VOff e) env vs).
  { intros x I Loc Val IV. specialize (VARS x I x Loc Val (or_introl eq_refl) IV). cbv zeta in VARS. unfold vaddr. cbn [f f_bp f_seg f_sg f_mem].
    set (a := if Loc =? VT_LOCOFF then (bp (rg t) + Val) mod 65536 else aget (VOff e) Val mod 65536) in *.
    destruct VARS as (V1 & V2 & V3). assert (R : 0 <= a) by (unfold a; destruct (Loc =? VT_LOCOFF); apply Z.mod_pos_bound; lia).
    split; [|split; [|exact V3]]; intros (o & O1 & O2); cbn [f f_low f_top f_seg f_sg] in O1, O2; destruct X; apply phys_inj in O2; lia. }
  assert (SPC : space f [] n) by (unfold space; cbn [f f_low f_top length]; lia).
  assert (HO : hold f e [] t).
  { exists []. rewrite RU. split; [destruct P as [P|P]; rewrite P; reflexivity|]. split; [|cbn [f f_off length]; lia].
    unfold owed in SP. destruct P as [P|P]; rewrite P in SP |- *.
    - change (0 =? -8) with false in *. cbv iota in *. split; [cbn [f f_top length]; lia|]. intros k K. cbn [length] in K. lia.
    - change (-8 =? -8) with true in *. cbv iota in *. split; [cbn [f f_top length]; lia|]. intros k K. cbn [length] in K. lia. }
  assert (IV : inv f t) by (split; [exact Wt|]; split; [reflexivity|]; split; reflexivity).
  pose proof (A f FO SA (Z.le_refl _) (ext_refl e1) [] SPC t IV IP (conj HO I)) as R.
  eapply reaches_imp; [exact R|]. cbv beta. intros t' ((Wt' & SG & BP' & ME) & IP' & HO' & AX).
  cbn [f f_sg f_bp] in SG, BP'. split; [|split; [exact AX|split; [exact BP'|split; [exact SG|]]]].
  - split; [exact Wt'|rewrite SG; exact SS|rewrite SG; exact DS|exact IP'| |rewrite BP', LO; exact BP].
    destruct HO' as (l & EL & S1 & _). rewrite (proj1 (proj2 L1)) in EL, S1. change (0 =? -8) with false in S1. cbv iota in S1. destruct S1 as [S1 _]. change (0 =? 0) with true in EL. cbv iota in EL. cbn [app] in EL.
    assert (l = []) by (destruct (RegUse e1); [discriminate EL|symmetry; exact EL]). subst l. rewrite S1. unfold owed. rewrite (proj1 (proj2 L1)). cbn [f f_top length]. change (0 =? -8) with false. lia.
  - intros a NA. apply ME. intros (o & O1 & O2). exact (NA o O1 O2).
Qed.

(** *** Storing the argument *)
Lemma store_at1 v off bs e t low top : live e -> live (put bs e) -> reaches (fun t' => ip t' = CodeAddress (put bs e) /\ stores e 2 VT_LOCOFF (LocalOffset e + off) v t t') t ->
  0 <= v < 65536 -> at_ e top t -> 0 <= low <= top -> 0 <= off -> top + off + 1 < 65536 ->
  reaches (fun t' => at_ (put bs e) top t' /\ rd16 (mem t') (cs (sg t)) (top + off) = v /\ bp (rg t') = bp (rg t) /\ sg t' = sg t /\ same_out (top + off) (top + off + 2) t t') t.
Proof.
  intros L L' D V [Wt SS DS IP SP BP] LT O0 O1.
  eapply reaches_imp; [apply reaches_wf; [exact Wt|exact D]|].
  cbv beta. intros t' (Wt' & IP' & ME & RG & SG).
  assert (AD : (bp (rg t) + (LocalOffset e + off)) mod 65536 = top + off).
  { replace (bp (rg t) + (LocalOffset e + off)) with (bp (rg t) + LocalOffset e + off) by lia. rewrite <- (Z.add_mod_idemp_l (_ + LocalOffset e)) by lia. rewrite BP. apply Z.mod_small. lia. }
  unfold var_set in ME. change (2 =? 2) with true in ME. cbv iota in ME. unfold var_seg, var_off in ME. change (VT_LOCOFF =? VT_LOCOFF) with true in ME. cbv iota in ME. rewrite AD, SS in ME.
  split; [|split; [|split; [rewrite RG; reflexivity|split; [exact SG|]]]].
  - split; [exact Wt'|rewrite SG; exact SS|rewrite SG; exact DS|exact IP'| |rewrite RG, put_local; exact BP].
    rewrite RG, SP. unfold owed. rewrite (proj1 (proj2 L)), (proj1 (proj2 L')). reflexivity.
  - rewrite ME. apply rd16_wr16_same; lia.
  - intros a NA. rewrite ME. rewrite aget_wr16 by exact V.
    destruct (Z.eqb_spec (phys (cs (sg t)) (top + off + 1)) a) as [E|_]; [destruct (NA (top + off + 1) ltac:(lia) (eq_sym E))|].
    destruct (Z.eqb_spec (phys (cs (sg t)) (top + off)) a) as [E|_]; [destruct (NA (top + off) ltac:(lia) (eq_sym E))|]. reflexivity.
Qed.
Lemma store_at v off bs e t low top : live e -> live (put bs e) -> does e (put bs e) (fun t t' => stores e 2 VT_LOCOFF (LocalOffset e + off) v t t') ->
  0 <= v < 65536 -> at_ e top t -> loaded e (put bs e) t -> 0 <= low <= top -> 0 <= off -> top + off + 1 < 65536 ->
  reaches (fun t' => at_ (put bs e) top t' /\ rd16 (mem t') (cs (sg t)) (top + off) = v /\ bp (rg t') = bp (rg t) /\ sg t' = sg t /\ same_out (top + off) (top + off + 2) t t') t.
Proof. intros L L' D V A LD. apply store_at1; auto. apply D; [apply A|apply A|exact LD|exact I]. Qed.

(** *** One argument *)
Definition keeps (R : Z -> Prop) (t t' : state) : Prop := forall a, (forall o, R o -> a <> phys (cs (sg t)) o) -> aget (mem t') a = aget (mem t) a.
Definition arg_runs (e e' : emst) (ex : exp) (v off : Z) : Prop :=
  forall t low top, at_ e top t -> loaded e e' t -> CodeAddress e' <= low -> low + 2 * Z.of_nat (depth ex) <= top -> top + 8 < 65536 -> placed (VOff e) ex low top t ->
  reaches (fun t' => at_ e' top t' /\ rd16 (mem t') (cs (sg t)) (top + off) = v mod 65536 /\ bp (rg t') = bp (rg t) /\ sg t' = sg t /\
    keeps (fun o => low <= o < top \/ top + off <= o < top + off + 2) t t') t.
Definition arg_tail (argsize : Z) : M cc unit :=
  let! ct := gete CurrentType in
  (if ct =? INTLIT then
     let! lo := gete LocalOffset in
     inem (EmitStoreConst W 2 VT_LOCOFF (lo + argsize))
   else
     GetVal W ;;
     let! ct := gete CurrentType in
     failif (negb (clr ct VT_UNSIGNED =? VT_INT) && negb (hasb ct VT_PTRMASK)) ;;
     let! lo := gete LocalOffset in
     inem (EmitStoreAx W 2 VT_LOCOFF (lo + argsize))).
Lemma const_flush Val e e' x : gen e -> EmitStoreConst W 2 VT_LOCOFF Val e = Ok (x, e') ->
  live (flush e) /\ EmitStoreConst W 2 VT_LOCOFF Val (flush e) = Ok (x, e').
Proof.
  intros G H. unfold EmitStoreConst in *. minv H y1 e1 E. unfold EmitModrm in *. cbv zeta in *. change (VT_LOCOFF =? VT_LOCOFF) with true in *. cbv iota in *.
  minv E y e2 E2. unfold Output3Bytes at 1, Output3Bytes_ at 1 in E2. apply (guarded_flush W HW) in E2; [|exact G]. destruct E2 as [L E2]. split; [exact L|].
  rewrite bind_assoc. unfold Output3Bytes at 1, Output3Bytes_ at 1. rewrite (bind_ok _ _ _ _ _ E2). rewrite (bind_ok _ _ _ _ _ E). exact H.
Qed.
Lemma at_kin e e' top t : kin e e' -> at_ e top t -> at_ e' top t.
Proof. intros (A1 & A2 & A3 & A4 & A5 & _) [B1 B2 B3 B4 B5 B6]. split; auto; [congruence|unfold owed in *; rewrite A4; exact B5|rewrite A5; exact B6]. Qed.
Lemma bal_fresh e e' : bal e e' -> Pending e = 0 \/ Pending e = -8 -> RegUse e = false -> Pending e' = 0 -> RegUse e' = false /\ LocalOffset e' = LocalOffset e.
Proof.
  unfold bal, cnt. intros [A B] P R P'. rewrite R, P' in A. change (0 =? 0) with true in A. cbv iota in A.
  assert (Q : (if Pending e =? 0 then 0 else if Pending e =? -8 then 0 else 2) = 0) by (destruct P as [P|P]; rewrite P; reflexivity). rewrite Q in A.
  destruct (RegUse e'); split; auto; lia.
Qed.
Lemma loaded_ext e e1 e' t : ext e e1 -> ext e1 e' -> loaded e e' t -> loaded e e1 t /\ loaded e1 e' t.
Proof.
  intros (A1 & A2 & _) (B1 & B2 & _) H. split; intros a A.
  - rewrite H by lia. apply B2. lia.
  - apply H. lia.
Qed.
(** code is where the memory is not changed *)
Lemma loaded_keeps (R : Z -> Prop) e e' t t' : keeps R t t' -> sg t' = sg t -> 0 <= CodeAddress e -> (forall o, R o -> CodeAddress e' <= o < 65536) -> CodeAddress e' <= 65536 -> loaded e e' t -> loaded e e' t'.
Proof.
  intros K S LO H M L a A. rewrite S. unfold rd8. rewrite K; [apply L; exact A|]. intros o O E. specialize (H o O). apply phys_inj in E; lia.
Qed.
Lemma arg_emits e0 ex v off s x s' : gen e0 -> Pending e0 = 0 \/ Pending e0 = -8 -> RegUse e0 = false -> 0 <= off -> off + 2 <= 8 ->
  Sem d env ex e0 (em s) v -> eval env ex = Some v -> arg_tail off s = Ok (x, s') ->
  exists e', s' = set_em e' s /\ live e' /\ VOff e' = VOff e0 /\ LocalOffset e' = LocalOffset e0 /\ RegUse e' = false /\ ext e0 e' /\ arg_runs e0 e' ex v off.
Proof.
  intros G P RU O0 O8 SM EV H. unfold arg_tail, gete in H. mgoin H. destruct (constant ex) eqn:C.
  - destruct SM as (G1 & VO & X & S). rewrite C in S. destruct S as (K & T & CV). rewrite T in H. change (INTLIT =? INTLIT) with true in H. cbv iota in H. mgoin H.
    apply inem_inv in H. destruct H as (e2 & E & ->). apply const_flush in E; [|exact G1]. destruct E as [L1 E]. set (e1 := flush (em s)) in *.
    assert (LO : LocalOffset (em s) = LocalOffset e0) by apply K. assert (RU1 : RegUse (em s) = false) by (rewrite (proj1 (proj2 (proj2 K))); exact RU).
    assert (P1 : Pending (em s) = 0 \/ Pending (em s) = -8) by (rewrite (proj1 (proj2 (proj2 (proj2 K)))); exact P).
    destruct (flush_same _ RU1 P1) as [F1 F2]. fold e1 in F1, F2.
    rewrite <- F2 in E.
    destruct (const_put W VT_LOCOFF (LocalOffset e1 + off) e1 e2 x L1 (or_introl eq_refl) E) as (bs & -> & L2 & OK & D).
    assert (CV1 : CurrentVal e1 = v) by (unfold e1; rewrite flush_val; exact CV). rewrite CV1 in D.
    assert (X1 : ext (em s) e1) by apply flush_ext. assert (X2 : ext e1 (put bs e1)) by (apply ext_put; exact OK).
    exists (put bs e1). split; [reflexivity|]. split; [exact L2|]. split; [rewrite put_voff; unfold e1; rewrite flush_voff; exact VO|]. split; [rewrite put_local; congruence|].
    split; [rewrite put_reg; exact F1|]. split; [exact (ext_trans _ _ _ X (ext_trans _ _ _ X1 X2))|].
    intros t low top AT LD ROOM LOW TOP PL.
    assert (LD' : loaded (em s) (put bs e1) t) by (intros a A; apply LD; rewrite <- (proj1 K); exact A).
    destruct (loaded_ext _ _ _ _ X1 X2 LD') as [LD1 LD2]. pose proof (ext_le _ _ X2) as XL.
    assert (A : forall f, frame_ok f -> sees_all f d (VOff (em s)) env [] -> Acts f (depth ex) (em s) e1 (fun _ => True) (fun _ => True)).
    { intros f FO _ Lo XX V SP. eapply runs_imp; [apply (flush_runs W f (em s) V FO G1 L1 Lo XX); apply (space_le f V (depth ex)); [lia|exact SP]|intros u [U _]; exact U|intros u U; split; [exact U|exact I]]. }
    eapply reaches_trans; [apply (acts_at (depth ex) [] (em s) e1 (fun _ => True) t low top G1 P1 RU1 L1 X1 A (at_kin _ _ _ _ K AT) LD1 ltac:(lia) LOW TOP); [intros y []|exact F2]|].
    cbv beta. intros t1 (AT1 & _ & BP1 & SG1 & ME1).
    assert (LOWP : 256 <= CodeAddress e1) by (apply live_lo; exact L1).
    assert (LD3 : loaded e1 (put bs e1) t1) by (apply (loaded_keeps (fun o => low <= o < top) _ _ t t1 ME1 SG1); [lia|intros; lia|lia|exact LD2]).
    eapply reaches_imp; [apply (store_at (v mod 65536) off bs e1 t1 low top L1 L2 D); [apply Z.mod_pos_bound; lia|exact AT1|exact LD3|lia|lia|lia]|].
    cbv beta. intros t2 (AT2 & RD & BP2 & SG2 & ME2). split; [exact AT2|]. split; [rewrite SG1 in RD; exact RD|]. split; [congruence|]. split; [congruence|].
    intros a NA. rewrite ME2; [apply ME1|]; intros o O; rewrite ?SG1; apply NA; lia.
  - assert (CT : CurrentType (em s) =? INTLIT = false).
    { destruct SM as (_ & _ & _ & S). rewrite C in S. destruct (kvar ex).
      - destruct S as (_ & Loc & Val & IV & LV & _). rewrite LV. destruct (loc_cases _ _ _ _ _ IV) as [->| ->]; reflexivity.
      - destruct S as (_ & TY & _). unfold typ in TY. destruct TY as [->|(-> & _)]; reflexivity. }
    rewrite CT in H. minv H y s1 E.
    destruct (sem_getval W HW d env ex e0 s y s1 v EV C G SM E) as (e1 & -> & (L1 & VO & X & T & BA & A) & _).
    destruct (bal_fresh _ _ BA P RU (proj1 (proj2 L1))) as [F1 F2].
    mgoin H. change (em (set_em e1 s)) with e1 in H. rewrite T in H. change (negb (clr VT_INT VT_UNSIGNED =? VT_INT)) with false in H. cbn [andb failif] in H. mgoin H.
    apply inem_inv in H. destruct H as (e2 & E2 & ->). change (em (set_em e1 s)) with e1 in E2.
    destruct (store_put W VT_LOCOFF (LocalOffset e1 + off) e1 e2 x L1 (or_introl eq_refl) E2) as (bs & -> & L2 & OK & D).
    assert (X2 : ext e1 (put bs e1)) by (apply ext_put; exact OK).
    exists (put bs e1). split; [destruct s; reflexivity|]. split; [exact L2|]. split; [rewrite put_voff; exact VO|]. split; [rewrite put_local; congruence|].
    split; [rewrite put_reg; exact F1|]. split; [exact (ext_trans _ _ _ X X2)|].
    intros t low top AT LD ROOM LOW TOP PL.
    destruct (loaded_ext _ _ _ _ X X2 LD) as [LD1 LD2]. pose proof (ext_le _ _ X2) as XL.
    eapply reaches_trans; [apply (acts_at (depth ex) (vars ex) e0 e1 (fun t => ax (rg t) = v mod 65536) t low top G P RU L1 X A AT LD1 ltac:(lia) LOW TOP); [|exact F2]|].
    { intros z I w Loc Val [<-|[]] IV. apply (PL z Loc Val I IV). }
    cbv beta. intros t1 (AT1 & AX & BP1 & SG1 & ME1).
    assert (LOWP : 256 <= CodeAddress e1) by (apply live_lo; exact L1).
    assert (LD3 : loaded e1 (put bs e1) t1) by (apply (loaded_keeps (fun o => low <= o < top) _ _ t t1 ME1 SG1); [lia|intros; lia|lia|exact LD2]).
    assert (DD : reaches (fun t' => ip t' = CodeAddress (put bs e1) /\ stores e1 2 VT_LOCOFF (LocalOffset e1 + off) (v mod 65536) t1 t') t1).
    { eapply reaches_imp; [apply (D t1 (at_wf _ _ _ AT1) (at_ip _ _ _ AT1) LD3 I)|]. cbv beta. intros u' [U1 U2]. rewrite AX in U2. auto. }
    eapply reaches_imp; [apply (store_at1 (v mod 65536) off bs e1 t1 low top L1 L2 DD); [apply Z.mod_pos_bound; lia|exact AT1|lia|lia|lia]|].
    cbv beta. intros t2 (AT2 & RD & BP2 & SG2 & ME2). split; [exact AT2|]. split; [rewrite SG1 in RD; exact RD|]. split; [congruence|]. split; [congruence|].
    intros a NA. rewrite ME2; [apply ME1|]; intros o O; rewrite ?SG1; apply NA; lia.
Qed.

(** *** All arguments *)
Fixpoint args_toks (l : list exp) : list token :=
  match l with [] => [] | [a] => toks a | a :: r => toks a ++ (ch_comma, PREC_COMMA, 0) :: args_toks r end.
Definition arg_body (r : recs) (argsize : Z) : M cc (Z + Z) :=
    let! t := getl TokenType in
    if t =? ch_rpar then ret (inr argsize) else
    when (Z.land argsize (ArgChunkSize - 1) =? 0)
      (inem (FlushPushAx W) ;;
       addOffset (- ArgChunkSize) ;;
       addPending (- ArgChunkSize) ;;
       when (negb (argsize =? 0))
         (let! lo := gete LocalOffset in
          inem (EmitModrm W I_LEA R_SI VT_LOCOFF (lo + ArgChunkSize)) ;;
          let! lo := gete LocalOffset in
          inem (EmitModrm W I_LEA R_DI VT_LOCOFF lo) ;;
          inem (EmitMovRImm W R_CX (Z.quot argsize 2)) ;;
          o2 W 243 165)) ;;
    pAssign r ;;
    let! ct := gete CurrentType in
    (if ct =? INTLIT then
       let! lo := gete LocalOffset in
       inem (EmitStoreConst W 2 VT_LOCOFF (lo + argsize))
     else
       GetVal W ;;
       let! ct := gete CurrentType in
       failif (negb (clr ct VT_UNSIGNED =? VT_INT) && negb (hasb ct VT_PTRMASK)) ;;
       let! lo := gete LocalOffset in
       inem (EmitStoreAx W 2 VT_LOCOFF (lo + argsize))) ;;
    let argsize := argsize + 2 in
    let! t := getl TokenType in
    if t =? ch_comma then next W F ;; ret (inl argsize) else ret (inr argsize).
Lemma call_args_eq r : call_args W F r = loopM F (arg_body r) 0.
Proof. reflexivity. Qed.
(** the state in which the first argument is compiled: room for four is still to be made *)
Definition opened (e : emst) : emst := set_Pending (-8) (set_LocalOffset (LocalOffset e - 8) e).
Definition entry (k : nat) (e : emst) : emst := match k with O => opened e | _ => e end.
Lemma opened_gen e : live e -> gen (opened e).
Proof. intros (A & B & C). split; [exact A|]. split; [right; right; reflexivity|exact C]. Qed.
Definition Arg (vo : arr Z) (ex : exp) (v : Z) : Prop := wf_exp ex /\ eval env ex = Some v /\ right env ex /\ declared d vo ex.
Lemma first_tok vo ex rest : declared d vo ex -> exists t ts, toks ex ++ rest = t :: ts /\ t_type t <> ch_rpar.
Proof.
  revert rest. induction ex as [z|x|ex IH|u ex IH|o a IHa b IHb]; intros rest DC.
  - eexists _, _. split; [reflexivity|]. discriminate.
  - eexists _, _. split; [reflexivity|]. destruct (DC x (or_introl eq_refl)) as [TX _]. cbn [t_type fst snd]. unfold TOK_ID, TOK_KEYWORD, ch_rpar in *. lia.
  - eexists _, _. split; [reflexivity|]. discriminate.
  - eexists _, _. split; [reflexivity|]. destruct u; discriminate.
  - cbn [toks]. rewrite <- app_assoc. apply IHa. intros x I. apply DC. cbn [vars]. apply in_or_app. auto.
Qed.
Lemma assign_parse n ex v s x s' rest : Arg (VOff (em s)) ex v -> dc s = d -> gen (em s) -> stream W F (lx s) (toks ex ++ rest) -> ends rest -> prec_over PREC_ASSIGN rest ->
  pAssign (tie W F n) s = Ok (x, s') -> after W F d env s s' ex (em s) v rest.
Proof.
  intros GD D G ST EN PO H. destruct n as [|n]; [discriminate H|]. cbn [tie pAssign] in H. unfold ParseAssignmentExpression in H.
  destruct (parses W F HW d env EO n) as (PC & _ & _ & PL). apply (upto_ok W F d env n PREC_ASSIGN ex v s x s' rest); auto. discriminate.
Qed.
Definition args_run (e e' : emst) (l : list exp) (vs : list Z) (off : Z) : Prop :=
  forall t low top, at_ e top t -> loaded e e' t -> CodeAddress e' <= low -> Forall (fun a => low + 2 * Z.of_nat (depth a) <= top) l -> low <= top -> top + 8 < 65536 ->
  Forall (fun a => placed (VOff e) a low (top + 8) t) l ->
  reaches (fun t' => at_ e' top t' /\ (forall j, (j < length l)%nat -> rd16 (mem t') (cs (sg t)) (top + off + 2 * Z.of_nat j) = nth j vs 0 mod 65536) /\
    bp (rg t') = bp (rg t) /\ sg t' = sg t /\ keeps (fun o => low <= o < top \/ top + off <= o < top + off + 2 * Z.of_nat (length l)) t t') t.

Lemma arg_step n k a v s x s' rest c : (k < 4)%nat -> live (em s) -> RegUse (em s) = false -> dc s = d -> Arg (VOff (em s)) a v ->
  stream W F (lx s) (toks a ++ (c, PREC_COMMA, 0) :: rest) /\ c = ch_comma \/ stream W F (lx s) (toks a ++ (c, PREC_STOP, 0) :: rest) /\ c = ch_rpar ->
  rest <> [] -> arg_body (tie W F n) (2 * Z.of_nat k) s = Ok (x, s') ->
  exists e' l', s' = set_lx l' (set_em e' s) /\
    (c = ch_comma -> x = inl (2 * Z.of_nat (S k)) /\ stream W F l' rest) /\
    (c = ch_rpar -> x = inr (2 * Z.of_nat (S k)) /\ stream W F l' ((c, PREC_STOP, 0) :: rest)) /\
    live e' /\ VOff e' = VOff (em s) /\ LocalOffset e' = LocalOffset (entry k (em s)) /\ RegUse e' = false /\ ext (entry k (em s)) e' /\
    arg_runs (entry k (em s)) e' a v (2 * Z.of_nat k).
Proof.
  intros K4 L RU D GA ST NR H. unfold arg_body, getl in H. mgoin H.
  assert (exists ts, stream W F (lx s) (toks a ++ ts) /\ ends ts /\ prec_over PREC_ASSIGN ts /\ exists p, ts = (c, p, 0) :: rest /\ (c = ch_rpar -> p = PREC_STOP)) as (ts & STS & EN & PO & p & ETS & EP).
  { destruct ST as [[ST ->]|[ST ->]]; eexists; (split; [exact ST|]); split.
    - left. discriminate.
    - split; [reflexivity|]. exists PREC_COMMA. split; [reflexivity|]. discriminate.
    - right. right. left. reflexivity.
    - split; [reflexivity|]. exists PREC_STOP. auto. }
  destruct (first_tok _ a ts (proj2 (proj2 (proj2 GA)))) as (t0 & tl & ET & NT).
  assert (TT : TokenType (lx s) =? ch_rpar = false) by (rewrite ET in STS; destruct STS as (-> & _); apply Z.eqb_neq; exact NT). rewrite TT in H.
  minv H y s1 E.
  assert (S1 : s1 = set_em (entry k (em s)) s).
  { destruct k as [|k].
    - change (Z.land (2 * Z.of_nat 0) (ArgChunkSize - 1) =? 0) with true in E. cbn [when] in E.
      assert (FP : inem (FlushPushAx W) s = Ok (tt, s)).
      { unfold inem, FlushPushAx, FlushPushAx_. rewrite bind_gets. rewrite (proj1 (proj2 L)). change (hasb 0 1) with false. cbn [when]. destruct s; reflexivity. }
      rewrite (bind_ok _ _ _ _ _ FP) in E. unfold addOffset, addPending, upde in E. mgoin E. change (negb (2 * Z.of_nat 0 =? 0)) with false in E. cbn [when] in E. oki E.
      unfold entry, opened. rewrite !set_em_em. cbn [Pending set_LocalOffset]. rewrite (proj1 (proj2 L)). reflexivity.
    - assert (B : Z.land (2 * Z.of_nat (S k)) (ArgChunkSize - 1) =? 0 = false).
      { assert (k = 0 \/ k = 1 \/ k = 2)%nat as [->|[->| ->]] by lia; reflexivity. }
      rewrite B in E. cbn [when] in E. oki E. destruct s; reflexivity. }
  subst s1. clear E. set (e0 := entry k (em s)) in *. set (s1 := set_em e0 s) in *.
  assert (G0 : gen e0) by (unfold e0; destruct k; [apply opened_gen; exact L|apply live_gen; exact L]).
  assert (P0 : Pending e0 = 0 \/ Pending e0 = -8) by (unfold e0; destruct k; [right; reflexivity|left; apply L]).
  assert (R0 : RegUse e0 = false) by (unfold e0; destruct k; exact RU).
  assert (V0 : VOff e0 = VOff (em s)) by (unfold e0; destruct k; reflexivity).
  minv H y1 s2 E.
  assert (AF : after W F d env s1 s2 a (em s1) v ts) by (apply (assign_parse n a v s1 y1 s2 ts); [change (Arg (VOff e0) a v); rewrite V0; exact GA|exact D|exact G0|exact STS|exact EN|exact PO|exact E]).
  destruct AF as (e2 & l2 & -> & ST2 & SM). clear E. change (em s1) with e0 in SM. set (s2 := set_lx l2 (set_em e2 s1)) in *.
  unfold gete at 1 in H. mgoin H. minv H y2 s3 E2.
  assert (E3 : arg_tail (2 * Z.of_nat k) s2 = Ok (y2, s3)) by (unfold arg_tail; unfold gete at 1; rewrite bind_gets; exact E2). clear E2.
  destruct (arg_emits e0 a v (2 * Z.of_nat k) s2 y2 s3 G0 P0 R0 ltac:(lia) ltac:(lia) SM (proj1 (proj2 GA)) E3) as (e' & -> & L' & VO' & LO' & RU' & X' & RN). clear E3.
  mgoin H. change (lx (set_em e' s2)) with l2 in H. exists e'.
  assert (N2 : 2 * Z.of_nat k + 2 = 2 * Z.of_nat (S k)) by lia. rewrite N2 in H.
  rewrite ETS in ST2. pose proof ST2 as (T2 & _). cbn [t_type fst snd] in T2. rewrite T2 in H.
  destruct (Z.eqb_spec c ch_comma) as [->|NC].
  - destruct (stream_next W F (set_em e' s2) _ _ ST2 NR) as (l3 & G3 & ST3). unfold next in H. rewrite (bind_ok _ _ _ _ _ G3) in H. oki H.
    exists l3. split; [unfold s2, s1; destruct s; reflexivity|]. split; [auto|]. split; [discriminate|]. split; [exact L'|]. split; [congruence|]. auto.
  - oki H. exists l2. split; [unfold s2, s1; destruct s; reflexivity|]. split; [intro; contradiction|]. split; [intro C; rewrite (EP C) in ST2; auto|]. split; [exact L'|]. split; [congruence|]. auto.
Qed.
Lemma keeps_rd16 (R : Z -> Prop) t t' a : keeps R t t' -> 0 <= a -> a + 1 < 65536 -> (forall o, R o -> 0 <= o < 65536 /\ (o < a \/ a + 1 < o)) ->
  rd16 (mem t') (cs (sg t)) a = rd16 (mem t) (cs (sg t)) a.
Proof. intros K A B H. apply rd16_frame; apply K; intros o O E; destruct (H o O) as [Ro D]; apply phys_inj in E; lia. Qed.
Lemma placed_keeps (R : Z -> Prop) vo ex low high t t' : keeps R t t' -> sg t' = sg t -> bp (rg t') = bp (rg t) -> 0 <= low -> high < 65536 -> (forall o, R o -> low <= o < high) ->
  placed vo ex low high t -> placed vo ex low high t'.
Proof.
  intros K S B LO HI HR P x Loc Val I IV. specialize (P x Loc Val I IV). cbv zeta in *. rewrite B, S.
  set (a := if Loc =? VT_LOCOFF then (bp (rg t) + Val) mod 65536 else aget vo Val mod 65536) in *. destruct P as (P1 & P2 & P3). split; [exact P1|]. split; [exact P2|].
  assert (A0 : 0 <= a) by (unfold a; destruct (Loc =? VT_LOCOFF); apply Z.mod_pos_bound; lia).
  rewrite P3. f_equal. symmetry. apply (keeps_rd16 R); auto. intros o O. specialize (HR o O). lia.
Qed.
Lemma args_cons e0 e1 e' a v l vs off : 256 <= CodeAddress e0 -> ext e0 e1 -> ext e1 e' -> VOff e1 = VOff e0 -> 0 <= off -> off + 2 * Z.of_nat (S (length l)) <= 8 ->
  arg_runs e0 e1 a v off -> args_run e1 e' l vs (off + 2) -> args_run e0 e' (a :: l) (v :: vs) off.
Proof.
  intros C0 X1 X2 VO O0 O8 R1 R2 t low top AT LD ROOM DP LT TOP PL. inversion DP as [|? ? D1 D2]; subst. inversion PL as [|? ? P1 P2]; subst.
  destruct (loaded_ext _ _ _ _ X1 X2 LD) as [LD1 LD2]. pose proof (ext_le _ _ X1) as L1. pose proof (ext_le _ _ X2) as L2.
  eapply reaches_trans; [apply (R1 t low top AT LD1 ltac:(lia) D1 TOP)|].
  { intros x Loc Val I IV. specialize (P1 x Loc Val I IV). cbv zeta in *. destruct P1 as (Q1 & Q2 & Q3). split; [exact Q1|]. split; [lia|exact Q3]. }
  cbv beta. intros t1 (AT1 & RD1 & BP1 & SG1 & K1).
  assert (LD3 : loaded e1 e' t1) by (eapply loaded_keeps; [exact K1|exact SG1|lia|cbv beta; intros o O; lia|lia|exact LD2]).
  eapply reaches_imp; [apply (R2 t1 low top AT1 LD3 ROOM D2 LT TOP)|].
  { rewrite VO. eapply Forall_impl; [|exact P2]. cbv beta. intros b PB. eapply placed_keeps; [exact K1|exact SG1|exact BP1|lia|lia| |exact PB]. cbv beta. intros o O. cbn [length] in *. lia. }
  cbv beta. intros t2 (AT2 & RD2 & BP2 & SG2 & K2). rewrite SG1 in RD2. split; [exact AT2|]. split; [|split; [congruence|split; [congruence|]]].
  - intros j J. destruct j as [|j]; cbn [nth].
    + replace (top + off + 2 * Z.of_nat 0) with (top + off) by lia. rewrite <- RD1. rewrite <- SG1. eapply keeps_rd16; [exact K2|lia|lia|]. cbv beta. intros o O. lia.
    + replace (top + off + 2 * Z.of_nat (S j)) with (top + (off + 2) + 2 * Z.of_nat j) by lia. apply RD2. cbn [length] in J. lia.
  - intros b NB. rewrite K2; [apply K1|]; intros o O; rewrite ?SG1; apply NB; cbn [length]; lia.
Qed.
Lemma args_one e0 e1 a v off : 256 <= CodeAddress e0 -> ext e0 e1 -> arg_runs e0 e1 a v off -> args_run e0 e1 [a] [v] off.
Proof.
  intros C0 X1 R1 t low top AT LD ROOM DP LT TOP PL. inversion DP as [|? ? D1 D2]; subst. inversion PL as [|? ? P1 P2]; subst.
  eapply reaches_imp; [apply (R1 t low top AT LD ROOM D1 TOP)|].
  { intros x Loc Val I IV. specialize (P1 x Loc Val I IV). cbv zeta in *. destruct P1 as (Q1 & Q2 & Q3). split; [exact Q1|]. split; [lia|exact Q3]. }
  cbv beta. intros t1 (AT1 & RD1 & BP1 & SG1 & K1). split; [exact AT1|]. split; [|split; [exact BP1|split; [exact SG1|]]].
  - intros j J. cbn [length] in J. assert (j = 0%nat) by lia. subst j. replace (top + off + 2 * Z.of_nat 0) with (top + off) by lia. exact RD1.
  - intros b NB. apply K1. intros o O. apply NB. cbn [length]. lia.
Qed.
Lemma args_ok n : forall l vs k fuel s r s' rest, Forall2 (Arg (VOff (em s))) l vs -> l <> [] -> (k + length l <= 4)%nat -> live (em s) -> RegUse (em s) = false -> dc s = d ->
  stream W F (lx s) (args_toks l ++ (ch_rpar, PREC_STOP, 0) :: rest) -> rest <> [] ->
  loopM fuel (arg_body (tie W F n)) (2 * Z.of_nat k) s = Ok (r, s') ->
  exists e' l', s' = set_lx l' (set_em e' s) /\ r = 2 * Z.of_nat (k + length l) /\ stream W F l' ((ch_rpar, PREC_STOP, 0) :: rest) /\
    live e' /\ VOff e' = VOff (em s) /\ LocalOffset e' = LocalOffset (entry k (em s)) /\ RegUse e' = false /\ ext (entry k (em s)) e' /\
    args_run (entry k (em s)) e' l vs (2 * Z.of_nat k).
Proof.
  induction l as [|a l IH]; intros vs k fuel s r s' rest F2 NE K4 L RU D ST NR H; [destruct (NE eq_refl)|].
  inversion F2 as [|? v ? vs' GA GL]; subst. destruct fuel as [|fuel]; [discriminate H|]. cbn [loopM] in H. minv H x s1 E. cbn [length] in K4.
  assert (C0 : 256 <= CodeAddress (entry k (em s))) by (pose proof (live_lo _ L); destruct k; assumption).
  destruct l as [|b l].
  - cbn [args_toks] in ST. inversion GL; subst.
    destruct (arg_step n k a v s x s1 rest ch_rpar ltac:(lia) L RU D GA (or_intror (conj ST eq_refl)) NR E) as (e' & l' & -> & _ & S2 & L' & VO & LO & RU' & X & RN).
    destruct (S2 eq_refl) as [-> ST']. oki H. exists e', l'. split; [reflexivity|]. split; [cbn [length]; f_equal; lia|]. split; [exact ST'|].
    split; [exact L'|]. split; [exact VO|]. split; [exact LO|]. split; [exact RU'|]. split; [exact X|]. apply args_one; assumption.
  - change (args_toks (a :: b :: l)) with (toks a ++ (ch_comma, PREC_COMMA, 0) :: args_toks (b :: l)) in ST. rewrite <- app_assoc in ST. cbn [app] in ST.
    assert (NR1 : args_toks (b :: l) ++ (ch_rpar, PREC_STOP, 0) :: rest <> []) by (destruct (args_toks (b :: l)); discriminate).
    destruct (arg_step n k a v s x s1 _ ch_comma ltac:(lia) L RU D GA (or_introl (conj ST eq_refl)) NR1 E) as (e1 & l1 & -> & S1 & _ & L1 & VO1 & LO1 & RU1 & X1 & RN1).
    destruct (S1 eq_refl) as [-> ST1]. 
    assert (GL' : Forall2 (Arg (VOff (em (set_lx l1 (set_em e1 s))))) (b :: l) vs') by (change (em (set_lx l1 (set_em e1 s))) with e1; rewrite VO1; exact GL).
    destruct (IH vs' (S k) fuel (set_lx l1 (set_em e1 s)) r s' rest GL' ltac:(discriminate) ltac:(lia) L1 RU1 D ST1 NR H) as (e' & l' & -> & -> & ST' & L' & VO & LO & RU' & X & RN).
    change (entry (S k) (em (set_lx l1 (set_em e1 s)))) with e1 in *. change (em (set_lx l1 (set_em e1 s))) with e1 in *.
    exists e', l'. split; [destruct s; reflexivity|]. split; [cbn [length]; f_equal; lia|]. split; [exact ST'|]. split; [exact L'|]. split; [congruence|]. split; [congruence|]. split; [exact RU'|].
    split; [exact (ext_trans _ _ _ X1 X)|]. apply (args_cons _ e1); auto; [rewrite VO1; destruct k; reflexivity|lia|cbn [length] in *; lia|].
    replace (2 * Z.of_nat k + 2) with (2 * Z.of_nat (S k)) by lia. exact RN.
Qed.
End W.
