(** Local variables with initialisers at the start of a function: int x = e; *)
From Verif Require Import Base Bits Spec8086 SpecWf SccRun SccState SccEmit SccLex SccDecl SccExpr SccStmt SccInput SccPut SccArith SccOps SccJump SccMem SccFix SccHold SccFlush SccSem SccBin SccVal SccComp SccBody SccParse SccWhole SccImg SccStep SccAsn SccMach SccPiece SccStm SccProg SccHead ExprSpec StmtSpec SccFun.
From Verif Require SccArgs.

(** ** How it is written, and what it means *)
(** int x = e; *)
Definition ldecl : Type := Z * exp.
Definition dtoks (a : ldecl) : list token := kw TOK_INT :: idt (fst a) :: (ch_eq, PREC_ASSIGN, 0) :: toks (snd a) ++ [kw ch_semi].
Inductive dexec : list ldecl -> (Z -> Z) -> (Z -> Z) -> Prop :=
| d_nil env : dexec [] env env
| d_cons x e r env v env' : value env e v -> dexec r (assign env x v) env' -> dexec ((x, e) :: r) env env'.
(** the initialisers use the variables V and those declared before *)
Fixpoint scoped (V : list Z) (ds : list ldecl) : Prop :=
  match ds with [] => True | (x, e) :: r => good_exp e /\ incl (vars e) V /\ ~ In x (vars e) /\ scoped (x :: V) r end.
Fixpoint seen (V : list Z) (ds : list ldecl) : list Z := match ds with [] => V | (x, _) :: r => seen (x :: V) r end.
Definition ddepth (ds : list ldecl) : nat := fold_right (fun a k => Nat.max (depth (snd a)) k) O ds.

(** ** Changes that do not concern the code *)
Definition kern (e : emst) := (Output e, CodeAddress e, IsDeadCode e, LRef e, LAddr e, LocalLabelCounter e, LastFixup e).
Lemma kern_app e e' : kern e' = kern e -> app e e'.
Proof.
  unfold kern. intro H. assert (O : Output e' = Output e) by congruence. assert (C : CodeAddress e' = CodeAddress e) by congruence.
  unfold app, lab, bytes_ok, byte. rewrite O, C. split; [lia|]. split; [auto|]. split; [congruence|]. split; [auto|]. split; [auto|]. intro; lia.
Qed.
Lemma kern_book e e' P : kern e' = kern e -> Book e P -> Book e' P.
Proof.
  intros H B. pose proof (kern_app _ _ H) as A. unfold kern in H.
  assert (O : Output e' = Output e) by congruence. assert (C : CodeAddress e' = CodeAddress e) by congruence. assert (D : IsDeadCode e' = IsDeadCode e) by congruence.
  assert (E1 : LAddr e' = LAddr e) by congruence. assert (E2 : LocalLabelCounter e' = LocalLabelCounter e) by congruence. assert (E3 : LastFixup e' = LastFixup e) by congruence. clear H.
  destruct B. split.
  - unfold bytes_ok, byte. rewrite O. exact bk_bytes.
  - unfold room. rewrite C. exact bk_room.
  - rewrite C, E3. exact bk_lf.
  - rewrite E2. exact bk_cnt.
  - rewrite E2. intros l R. apply (pending_app e _ _ _ A). apply bk_pend. exact R.
  - rewrite E1, E2. exact bk_lab.
  - rewrite C. exact bk_ord.
  - unfold whole, byte. rewrite O, C. exact bk_cond.
  - unfold byte. rewrite O, C. exact bk_after.
  - unfold byte. rewrite O, C, D, E3. exact bk_jmp.
  - rewrite E3. exact bk_in.
Qed.
Lemma kern_back e e' P : kern e' = kern e -> back e P e' P.
Proof.
  unfold kern. intro H. assert (O : Output e' = Output e) by congruence. assert (C : CodeAddress e' = CodeAddress e) by congruence. assert (D : IsDeadCode e' = IsDeadCode e) by congruence.
  assert (E1 : LAddr e' = LAddr e) by congruence. assert (E2 : LocalLabelCounter e' = LocalLabelCounter e) by congruence. clear H. split.
  - intros lo ef [M1 M2 M3 M4 M5 M6 M7]. unfold byte in M4. rewrite O, C in M4. rewrite E1, E2 in M6. rewrite C, D in M7. split; auto.
  - intros lim. unfold floor. rewrite C, D. auto.
Qed.

(** ** Compiling one declaration *)
(** a new name in an inner scope *)
Record lnamed (x B : Z) (e : emst) (d : dcst) (e' : emst) (d' : dcst) : Prop := {
  ln_e : e' = set_VRef (aset (VRef e) B 0) (set_VOff (aset (VOff e) B 0) e);
  ln_look : VarLookup d' = aset (VarLookup d) x (B + 1);
  ln_type : VType d' = aset (VType d) B (CurrentType e);
  ln_scope : Scopes d' = aset (Scopes d) (ScopeCount d - 1) (B + 1);
  ln_same : ScopeCount d' = ScopeCount d /\ IgnoreRedef d' = IgnoreRedef d /\ NextSwitchCase d' = NextSwitchCase d /\ ReturnLabel d' = ReturnLabel d }.
Lemma lnamed_ok x l e d v s' : IgnoreRedef d <> 0 -> AddVarDecl x (mkcc l e d) = Ok (v, s') ->
  v = aget (Scopes d) (ScopeCount d - 1) /\ exists e' d', s' = mkcc l e' d' /\ lnamed x v e d e' d'.
Proof.
  intros IR E. unfold AddVarDecl, getd, updd in E. mgoin E. cbn [dc em] in E.
  unfold failif in E. destruct (VARDECL_MAX <=? _); [discriminate E|]. mgoin E. cbn [dc em] in E. rewrite (proj2 (Z.eqb_neq _ _) IR) in E. cbn [andb] in E.
  minv E i s1 E1. mgoin E. oki E. unfold AddVarDeclScope, getd, gete, updd, upde in E1. mgoin E1. oki E1. cbn [dc]. split; [reflexivity|]. unfold set_em, set_dc. cbn [lx em dc].
  eexists _, _. split; [reflexivity|]. split; try reflexivity. repeat split.
Qed.

Section W.
Variables (W : Z) (F : nat).
Hypothesis HW : 16 <= W.
Ltac idtests H := repeat match type of H with
  | context [TOK_KEYWORD + ?i =? ?b] => let bb := eval vm_compute in b in replace (TOK_KEYWORD + i =? b) with false in H by (symmetry; apply Z.eqb_neq; change TOK_KEYWORD with 150; change b with bb; lia)
  | context [TOK_KEYWORD + ?i <? ?b] => let bb := eval vm_compute in b in replace (TOK_KEYWORD + i <? b) with false in H by (symmetry; apply Z.ltb_ge; change TOK_KEYWORD with 150; change b with bb; lia)
  | context [?b <=? TOK_KEYWORD + ?i] => let bb := eval vm_compute in b in replace (b <=? TOK_KEYWORD + i) with true in H by (symmetry; apply Z.leb_le; change TOK_KEYWORD with 150; change b with bb; lia)
  end; cbn [orb negb] in H; cbv iota in H.
Ltac bool_tests H := repeat match type of H with
  | context [?a =? ?b] => let v := eval vm_compute in (a =? b) in match v with true => change (a =? b) with true in H | false => change (a =? b) with false in H end
  end; cbv iota in H.
Ltac mk H := unfold set_em, set_dc, set_lx in H; cbn [lx em dc] in H.

(** the name before the initialiser *)
Lemma lname_ok n x l e d y s' ts : 37 <= x -> stream W F l (idt x :: (ch_eq, PREC_ASSIGN, 0) :: ts) ->
  pDeclarator (tie W F n) IdLocal (mkcc l e d) = Ok (y, s') -> y = x /\ exists l', s' = mkcc l' e d /\ stream W F l' ((ch_eq, PREC_ASSIGN, 0) :: ts).
Proof.
  intros LX ST H. destruct n as [|n]; [discriminate H|]. cbn [tie pDeclarator] in H. unfold ParseDeclarator, getl in H. minv H z0 s0 E.
  apply loopM_inv in E. destruct E as (n1 & r & s1 & E & Q). mgoin E. mk E. rewrite (disp W F _ _ _ ST) in E. idtests E. oki E. destruct Q as [_ <-].
  mgoin H. mk H. rewrite (disp W F _ _ _ ST) in H. idtests H. cbn [when] in H. mgoin H. mk H. rewrite (disp W F _ _ _ ST) in H. idtests H.
  replace (TOK_KEYWORD + x - TOK_KEYWORD) with x in H by lia. cbn [store_id] in H. mgoin H. mk H.
  minv H z1 s1 E. apply (next_mk W F _ _ _ _ _ _ _ ST) in E; [|discriminate]. destruct E as (l1 & -> & ST1). mgoin H. mk H.
  assert (TL : TokenType l1 = ch_eq) by apply ST1. rewrite TL in H. bool_tests H.
  minv H z2 s2 E. unfold array_suffix, getl in E. apply loopM_inv in E. destruct E as (n2 & r & s3 & E & Q). mgoin E. mk E. rewrite TL in E. bool_tests E. cbn [negb] in E. oki E. destruct Q as [_ <-].
  oki H. split; [reflexivity|]. exists l1. split; [reflexivity|exact ST1].
Qed.
(** the value of an initialiser in AX *)
Lemma init_piece X n ex s x s' rest : good_exp ex -> incl (vars ex) X -> decls X (dc s) (VOff (em s)) -> live (em s) -> RegUse (em s) = false ->
  stream W F (lx s) (toks ex ++ rest) -> ends rest -> prec_over PREC_ASSIGN rest -> (pAssign (tie W F n) ;; GetVal W) s = Ok (x, s') ->
  exists e1 l1, s' = set_lx l1 (set_em e1 s) /\ stream W F l1 rest /\ live e1 /\ ext (em s) e1 /\ still (em s) e1 /\
  forall env v, env_ok env -> value env ex v -> InReg (dc s) env ex (em s) e1 v.
Proof.
  intros GE IX DC L RU ST EN PO H. minv H y s1 E. destruct n as [|n]; [discriminate E|]. cbn [tie pAssign] in E. unfold ParseAssignmentExpression in E.
  assert (P1 : forall env v, env_ok env -> value env ex v -> after W F (dc s) env s s1 ex (em s) v rest).
  { intros env v EO [EV R]. destruct (parses W F HW (dc s) env EO n) as (PC & _ & _ & PL).
    apply (upto_ok W F (dc s) env n PREC_ASSIGN ex v s y s1 rest ltac:(unfold PREC_ASSIGN; lia) PC PL); auto. { exact (conj (proj1 GE) (conj EV (conj R (decls_exp _ _ _ _ DC IX)))). } exact (live_gen _ L). }
  pose proof GE as [WF (env0 & v0 & EO0 & V0)].
  destruct (P1 env0 v0 EO0 V0) as (e1 & l1 & -> & ST1 & _).
  assert (SM : forall env v, env_ok env -> value env ex v -> Sem (dc s) env ex (em s) e1 v).
  { intros env v EO V. destruct (P1 env v EO V) as (e2 & l2 & E2 & _ & SM). apply same_st in E2. destruct E2 as [_ <-]. exact SM. }
  assert (P : forall env v, env_ok env -> value env ex v -> exists e', s' = set_em e' (set_lx l1 (set_em e1 s)) /\ InReg (dc s) env ex (em s) e' v).
  { intros env v EO V. apply (sem_value W HW (dc s) env ex (em s) _ x s' v (proj1 V) L); [exact (SM env v EO V)|exact H]. }
  destruct (P env0 v0 EO0 V0) as (e' & -> & IR). exists e', l1. split; [destruct s; reflexivity|]. split; [exact ST1|].
  pose proof IR as (L' & VO & XT & _ & BA & _). split; [exact L'|]. split; [exact XT|]. split; [exact (still_of _ _ L L' RU BA VO)|].
  intros env v EO V. destruct (P env v EO V) as (e2 & E2 & IR2). unfold set_em, set_lx in E2. cbn [lx em dc] in E2. injection E2 as ->. exact IR2.
Qed.

(** *** Names that keep their meaning *)
Definition kept (d : dcst) (vo : arr Z) (d' : dcst) (vo' : arr Z) (y : Z) : Prop :=
  aget (VarLookup d') y = aget (VarLookup d) y /\ let u := aget (VarLookup d) y - 1 in aget (VType d') u = aget (VType d) u /\ aget vo' u = aget vo u.
Lemma kept_var d vo d' vo' y Loc Val : kept d vo d' vo' y -> int_var d' vo' y Loc Val -> int_var d vo y Loc Val /\ (Loc = VT_LOCGLOB -> aget vo' Val = aget vo Val).
Proof.
  intros (K1 & K2 & K3) (I1 & I2 & I3). cbv zeta in *. rewrite K1 in *. rewrite K2 in I2. rewrite K3 in I3. split; [exact (conj I1 (conj I2 I3))|].
  intros ->. destruct I3 as [[Q _]|(_ & -> & _)]; [discriminate Q|exact K3].
Qed.
Lemma kept_back d vo d' vo' y Loc Val : kept d vo d' vo' y -> int_var d vo y Loc Val -> int_var d' vo' y Loc Val.
Proof. intros (K1 & K2 & K3) I. unfold int_var in *. cbv zeta in *. rewrite K1, K2, K3. exact I. Qed.
Lemma kept_decls X d vo d' vo' : (forall y, In y X -> kept d vo d' vo' y) -> decls X d vo -> decls X d' vo'.
Proof. intros K H y I. destruct (H y I) as (T & Loc & Val & IV). split; [exact T|]. exists Loc, Val. exact (kept_back _ _ _ _ _ _ _ (K y I) IV). Qed.
Lemma kept_ok X D d vo d' vo' K : (forall y, In y X -> kept d vo d' vo' y) -> k_ok X D d vo K -> k_ok X D d' vo' K.
Proof.
  intros H []. split; auto. intros x Loc Val I IV. destruct (kept_var _ _ _ _ _ _ _ (H x I) IV) as [IV' G]. rewrite (ko_var x Loc Val I IV'). 
  destruct (loc_cases _ _ _ _ _ IV) as [-> | ->]; [reflexivity|]. rewrite G by reflexivity. reflexivity.
Qed.

(** *** One declaration *)
(** the state at the declarations, with the variables V *)
Definition top_of (d : dcst) : Z := aget (Scopes d) (ScopeCount d - 1).
Record Fr (V : list Z) (e : emst) (d : dcst) : Prop := {
  f_book : Book e [];
  f_live : live e;
  f_reg : RegUse e = false;
  f_decl : decls V d (VOff e);
  f_case : NextSwitchCase d < 0;
  f_redef : IgnoreRedef d <> 0;
  f_scope : 2 <= ScopeCount d;
  f_top : 0 <= top_of d;
  f_in : forall y, In y V -> aget (VarLookup d) y <= top_of d }.
(** x was declared *)
Record Dn (x : Z) (e : emst) (d : dcst) (e' : emst) (d' : dcst) : Prop := {
  n_back : back e [] e' [];
  n_addr : CodeAddress e <= CodeAddress e';
  n_lo : LocalOffset e' = LocalOffset e - 2;
  n_off : aget (VOff e') (top_of d) = LocalOffset e';
  n_offs : forall u, u <> top_of d -> aget (VOff e') u = aget (VOff e) u;
  n_look : VarLookup d' = aset (VarLookup d) x (top_of d + 1);
  n_type : aget (VType d') (top_of d) = VT_INT + VT_LOCOFF;
  n_types : forall u, u <> top_of d -> aget (VType d') u = aget (VType d) u;
  n_scopes : Scopes d' = aset (Scopes d) (ScopeCount d - 1) (top_of d + 1);
  n_same : ScopeCount d' = ScopeCount d /\ IgnoreRedef d' = IgnoreRedef d /\ NextSwitchCase d' = NextSwitchCase d /\ ReturnLabel d' = ReturnLabel d }.
Lemma dn_kept x e d e' d' y : Dn x e d e' d' -> y <> x -> aget (VarLookup d) y <= top_of d -> kept d (VOff e) d' (VOff e') y.
Proof.
  intros [] N LE. split; [rewrite n_look0; apply aget_aset_other; auto|]. cbv zeta. split; [apply n_types0; lia|apply n_offs0; lia].
Qed.
Lemma dn_var x e d e' d' : Dn x e d e' d' -> 0 <= top_of d -> forall Loc Val, int_var d' (VOff e') x Loc Val <-> Loc = VT_LOCOFF /\ Val = LocalOffset e'.
Proof.
  intros [] T0 Loc Val. unfold int_var. rewrite n_look0, aget_aset_same. cbv zeta. replace (top_of d + 1 - 1) with (top_of d) by lia. rewrite n_type0, n_off0. split.
  - intros (_ & Q & [Q1|(-> & _)]); [exact Q1|]. unfold VT_INT, VT_LOCOFF, VT_LOCGLOB in Q. lia.
  - intros [-> ->]. split; [lia|]. split; [reflexivity|]. left. auto.
Qed.

Lemma decl_head n x l e d y s' ts : 37 <= x -> no_type d x -> IgnoreRedef d <> 0 -> 0 <= top_of d ->
  stream W F l (kw TOK_INT :: idt x :: (ch_eq, PREC_ASSIGN, 0) :: ts) ->
  ParseFirstDecl (tie W F n) (mkcc l e d) = Ok (y, s') ->
  y = top_of d + 1 /\ exists l1 e1 d1 t u, s' = mkcc l1 e1 (set_BaseTypeExtra t (set_BaseType u d1)) /\ stream W F l1 ((ch_eq, PREC_ASSIGN, 0) :: ts) /\ lnamed x (top_of d) (set_CurrentType VT_INT e) d e1 d1.
Proof.
  intros LX NT IR T0 ST H. unfold ParseFirstDecl in H. minv H y0 s0 E. apply (specs_ok W F _ _ _ _ _ _ _ _ _ (or_introl eq_refl) LX NT ST) in E. destruct E as (l0 & -> & ST0).
  change (spec_of TOK_INT) with VT_INT in H. unfold getl at 1 in H. mgoin H. cbn [lx] in H. rewrite (disp W F _ _ _ ST0) in H. idtests H.
  unfold DoDecl in H. mgoin H. minv H y1 s2 E. apply (lname_ok n x _ _ _ _ _ _ LX ST0) in E. destruct E as (-> & l1 & -> & ST1).
  unfold failif at 1 in H. replace (x <? 0) with false in H by (symmetry; apply Z.ltb_ge; lia). mgoin H.
  minv H v s3 E. apply lnamed_ok in E; [|exact IR]. destruct E as (EV & e2 & d2 & -> & NM). fold (top_of d) in EV. subst v.
  unfold SaveBaseType, gete, getd, updd, getl in H. mgoin H. cbn [lx em dc] in H.
  replace (CurrentType e2) with VT_INT in H by (rewrite (ln_e _ _ _ _ _ _ NM); reflexivity). change (Z.land VT_INT VT_BASEMASK =? VT_ARRAY) with false in H. mgoin H. oki H. unfold set_em, set_dc. cbn [lx em dc].
  split; [reflexivity|]. eexists l1, e2, d2, _, _. split; [reflexivity|]. split; [exact ST1|exact NM].
Qed.

Lemma size_int l e d : CurrentType e = VT_INT -> SizeofCurrentType (mkcc l e d) = Ok (2, mkcc l e d).
Proof. intro H. unfold SizeofCurrentType, gete, gets, bind. cbn [em]. rewrite H. reflexivity. Qed.
(** the initialiser of the variable with index B, scc.c:3239-3263 *)
Definition lbody (n : nat) : Z -> M cc (Z + unit) := fun vd : Z =>
    if vd =? 0 then ret (inr tt) else
    let v := vd - 1 in
    let! size := SizeofCurrentType in
    let! ct := gete CurrentType in
    (if hasb ct VT_STATIC then
       updd (fun d => set_VType (aset (VType d) v (Z.lor (clr ct VT_STATIC) VT_LOCGLOB)) d) ;;
       updd (fun d => set_BssSize (BssSize d + size) d)
     else
       updd (fun d => set_VType (aset (VType d) v (Z.lor (aget (VType d) v) VT_LOCOFF)) d) ;;
       let size := Z.land (size + 1) (-2) in
       let! t := getl TokenType in
       (if t =? ch_eq then
          next W F ;; pAssign (tie W F n) ;; GetVal W ;; o1 W (Z.lor I_PUSH R_AX)
        else addPending (- size)) ;;
       addOffset (- size) ;;
       let! lo := gete LocalOffset in
       upde (fun e => set_VOff (aset (VOff e) v lo) e)) ;;
    let! vd := NextDecl W F (tie W F n) in
    ret (inl vd).
Lemma decl_init n k B ex l e d y s' rest : CurrentType e = VT_INT -> aget (VType d) B = VT_INT -> 0 <= B -> let d1 := set_VType (aset (VType d) B (VT_INT + VT_LOCOFF)) d in
  good_exp ex -> decls (vars ex) d1 (VOff e) -> live e -> RegUse e = false -> stream W F l ((ch_eq, PREC_ASSIGN, 0) :: toks ex ++ kw ch_semi :: rest) ->
  loopM k (lbody n) (B + 1) (mkcc l e d) = Ok (y, s') ->
  exists l' e1 e', s' = mkcc l' e' d1 /\ stream W F l' (kw ch_semi :: rest) /\ live e1 /\ ext e e1 /\ still e e1 /\ live (put [80] e1) /\
  e' = set_VOff (aset (VOff e) B (LocalOffset e - 2)) (set_LocalOffset (LocalOffset e - 2) (put [80] e1)) /\
  forall env v, env_ok env -> value env ex v -> InReg d1 env ex e e1 v.
Proof.
  intros CT TB B0 d1 GE DC L RU ST H. apply loopM_inv in H. destruct H as (n1 & r & s1 & E & H). unfold lbody at 1 in E.
  replace (B + 1 =? 0) with false in E by (symmetry; apply Z.eqb_neq; lia). cbv zeta in E. replace (B + 1 - 1) with B in E by lia.
  rewrite (bind_ok _ _ _ _ _ (size_int _ _ _ CT)) in E. unfold gete at 1 in E. mgoin E. cbn [em] in E. rewrite CT in E. change (hasb VT_INT VT_STATIC) with false in E. cbv iota in E.
  unfold updd at 1 in E. mgoin E. mk E. rewrite TB in E. change (Z.lor VT_INT VT_LOCOFF) with (VT_INT + VT_LOCOFF) in E. fold d1 in E. change (Z.land (2 + 1) (-2)) with 2 in E.
  unfold getl at 1 in E. mgoin E. mk E. rewrite (proj1 ST) in E. change (t_type (ch_eq, PREC_ASSIGN, 0)) with ch_eq in E. change (ch_eq =? ch_eq) with true in E. cbv iota in E. mgoin E.
  minv E y1 s2 E1. apply (next_mk W F _ _ _ _ _ _ _ ST) in E1; [|destruct (toks ex); discriminate]. destruct E1 as (l1 & -> & ST1).
  apply bind_inv in E. destruct E as (y2 & s3 & E1 & E). rewrite <- SccInput.bind_assoc in E1. apply bind_inv in E1. destruct E1 as (y3 & s4 & E1 & E2).
  destruct (init_piece (vars ex) n ex (mkcc l1 e d1) y3 s4 (kw ch_semi :: rest) GE ltac:(intros z Z1; exact Z1) DC L RU ST1 ltac:(right; left; reflexivity) ltac:(reflexivity) E1) as (e1 & l2 & -> & ST2 & L1 & XT & SL & VAL).
  clear E1. unfold set_lx, set_em in E2. cbn [lx em dc] in E2. unfold o1 in E2. apply inem_mk in E2. destruct E2 as (e2 & E2 & ->). change (Z.lor I_PUSH R_AX) with 80 in E2. apply (out1 W) in E2; [|exact L1]. destruct E2 as [-> L2].
  unfold addOffset, upde, gete in E. mgoin E. mk E. unfold NextDecl, getl in E. mgoin E. mk E. rewrite (proj1 ST2) in E. change (negb (t_type (kw ch_semi) =? ch_comma)) with true in E. cbv iota in E. mgoin E. oki E.
  apply loopM_inv in H. destruct H as (n2 & r & s1 & E & H). unfold lbody in E. change (0 =? 0) with true in E. cbv iota in E. oki E. destruct H as [_ <-].
  assert (S : LocalOffset (put [80] e1) = LocalOffset e /\ VOff (put [80] e1) = VOff e) by (destruct SL as (_ & _ & Q1 & Q2); split; assumption). destruct S as [S1 S2].
  eexists l2, e1, _. split; [reflexivity|]. split; [exact ST2|]. split; [exact L1|]. split; [exact XT|]. split; [exact SL|]. split; [exact L2|]. split; [|exact VAL].
  cbn [VOff LocalOffset set_LocalOffset]. rewrite S1, S2. reflexivity.
Qed.
Lemma decl_ok V n x ex l e d y s' rest : Fr V e d -> good_exp ex -> incl (vars ex) V -> ~ In x (vars ex) -> 37 <= x -> no_type d x ->
  stream W F l (dtoks (x, ex) ++ rest) -> rest <> [] -> pStatement (tie W F (S n)) (mkcc l e d) = Ok (y, s') ->
  exists l' e' d', s' = mkcc l' e' d' /\ stream W F l' rest /\ Dn x e d e' d' /\ Fr (x :: V) e' d' /\
  forall K env v t, k_ok (vars ex) (depth ex) d (VOff e) K -> k_low K <= k_sp K - 2 -> k_lo K <= CodeAddress e -> Match (k_lo K) (k_ef K) e' [] -> value env ex v -> MRel (vars ex) K env t -> ip t = CodeAddress e ->
  reaches (fun t' => exists t1, MRel (vars ex) K env t1 /\ wfr t' /\ sg t' = sg t1 /\ bp (rg t') = bp (rg t1) /\ Spec8086.sp (rg t') = k_sp K - 2 /\
    mem t' = wr16 (mem t1) (k_seg K) (k_sp K - 2) (v mod 65536) /\ ip t' = CodeAddress e') t.
Proof.
  intros FR GE IX NX LX NT ST NR H. unfold dtoks in ST. cbn [fst snd Datatypes.app] in ST. rewrite <- app_assoc in ST. cbn [Datatypes.app] in ST.
  cbn [tie pStatement] in H. unfold ParseStatement, getl, getd in H. mgoin H. mk H. rewrite (disp W F _ _ _ ST) in H. bool_tests H. mgoin H. mk H. mgoin H. mk H.
  replace (0 <=? NextSwitchCase d) with false in H by (symmetry; apply Z.leb_gt; apply (f_case _ _ _ FR)). cbn [andb] in H.
  change (TOK_ID <=? TOK_INT) with false in H. cbv iota in H. unfold simple_stmt at 1, IsTypeStart, getl in H. mgoin H. mk H. rewrite (disp W F _ _ _ ST) in H.
  change (existsb (Z.eqb TOK_INT) type_tokens) with true in H. cbv iota in H. mgoin H. minv H y0 s0 E. unfold local_decl in E. minv E vd s1 E1.
  apply (decl_head n x _ _ _ _ _ _ LX NT (f_redef _ _ _ FR) (f_top _ _ _ FR) ST) in E1. destruct E1 as (-> & l1 & e1 & d1 & bt & bu & -> & ST1 & NM).
  assert (B0 : 0 <= top_of d) by exact (f_top _ _ _ FR). pose proof NM as [N1 N2 N3 N4 (N5 & N6 & N7 & N8)]. set (B := top_of d) in *. set (d2 := set_BaseTypeExtra bt (set_BaseType bu d1)) in *. fold (lbody n) in E.
  assert (KP : forall z, In z (vars ex) -> kept d (VOff e) (set_VType (aset (VType d2) B (VT_INT + VT_LOCOFF)) d2) (VOff e1) z).
  { intros z Z1. assert (z <> x) by (intros ->; contradiction). pose proof (f_in _ _ _ FR z (IX z Z1)) as LE. change (aget (VarLookup d) z <= B) in LE.
    split; [change (aget (VarLookup d1) z = aget (VarLookup d) z); rewrite N2; apply aget_aset_other; auto|]. cbv zeta.
    change (aget (aset (VType d1) B (VT_INT + VT_LOCOFF)) (aget (VarLookup d) z - 1) = aget (VType d) (aget (VarLookup d) z - 1) /\ aget (VOff e1) (aget (VarLookup d) z - 1) = aget (VOff e) (aget (VarLookup d) z - 1)).
    rewrite N1, N3. cbn [VOff set_VRef set_VOff set_CurrentType]. rewrite !aget_aset_other by lia. auto. }
  assert (LE1 : live e1) by (rewrite N1; exact (f_live _ _ _ FR)). assert (KE1 : kern e1 = kern e) by (rewrite N1; reflexivity).
  destruct (decl_init n F B ex l1 e1 d2 y0 s0 rest) as (l2 & e2 & e' & -> & ST2 & L2 & XT & SL & L3 & EE & VAL); [rewrite N1; reflexivity|change (aget (VType d1) B = VT_INT); rewrite N3; apply aget_aset_same|exact B0|exact GE| |exact LE1|rewrite N1; exact (f_reg _ _ _ FR)|exact ST1|exact E|].
  { apply (kept_decls _ d (VOff e)); [exact KP|]. intros z Z1. apply (f_decl _ _ _ FR). apply IX. exact Z1. }
  clear E. apply (semi_mk W F _ _ _ _ _ _ ST2 NR) in H. destruct H as (l3 & -> & ST3). set (d3 := set_VType (aset (VType d2) B (VT_INT + VT_LOCOFF)) d2) in *.
  pose proof (kern_book _ _ _ KE1 (f_book _ _ _ FR)) as BK1. destruct (ext_piece e1 e2 [] BK1 LE1 L2 XT) as (BK2 & BA2 & _).
  destruct (put_piece [80] e2 [] BK2 L2 L3) as (BK3 & BA3 & (P1 & P2 & P3 & P4) & _). { split; intro Q; vm_compute in Q; discriminate Q. }
  assert (KE' : kern e' = kern (put [80] e2)) by (rewrite EE; reflexivity). pose proof (kern_book _ _ _ KE' BK3) as BK'. pose proof (kern_back _ _ [] KE') as BA'.
  assert (LO1 : LocalOffset e1 = LocalOffset e) by (rewrite N1; reflexivity). pose proof (ext_le _ _ XT) as XL.
  assert (CE1 : CodeAddress e1 = CodeAddress e) by (rewrite N1; reflexivity). assert (CE' : CodeAddress e' = CodeAddress e2 + 1) by (rewrite EE; cbn [CodeAddress set_VOff set_LocalOffset]; rewrite put_addr; reflexivity).
  assert (V1 : VOff e1 = aset (VOff e) B 0) by (rewrite N1; reflexivity).
  assert (DN : Dn x e d e' d3).
  { split.
    - exact (back_trans _ _ _ _ _ _ (kern_back _ _ _ KE1) (back_trans _ _ _ _ _ _ BA2 (back_trans _ _ _ _ _ _ BA3 BA'))).
    - lia.
    - rewrite EE. cbn [LocalOffset set_VOff set_LocalOffset]. lia.
    - rewrite EE. cbn [VOff LocalOffset set_VOff set_LocalOffset]. fold B. apply aget_aset_same.
    - intros u U. rewrite EE. cbn [VOff set_VOff]. fold B in U. rewrite V1, !aget_aset_other by auto. reflexivity.
    - exact N2.
    - fold B. change (VType d3) with (aset (VType d1) B (VT_INT + VT_LOCOFF)). apply aget_aset_same.
    - intros u U. fold B in U. change (VType d3) with (aset (VType d1) B (VT_INT + VT_LOCOFF)). rewrite N3, !aget_aset_other by auto. reflexivity.
    - exact N4.
    - exact (conj N5 (conj N6 (conj N7 N8))). }
  assert (TD : top_of d3 = B + 1) by (unfold top_of; rewrite (n_scopes _ _ _ _ _ DN), (proj1 (n_same _ _ _ _ _ DN)); apply aget_aset_same).
  assert (LV' : live e').
  { rewrite EE. destruct L3 as (Q1 & Q2 & Q3). split; [exact Q1|]. split; [exact Q2|exact Q3]. }
  exists l3, e', d3. split; [reflexivity|]. split; [exact ST3|]. split; [exact DN|]. split.
  - destruct FR. split; auto.
    + rewrite EE. destruct SL as (_ & Q & _). cbn [RegUse set_VOff set_LocalOffset]. rewrite P2, Q, N1. assumption.
    + intros z [<-|Z1].
      * split; [change TOK_ID with 187; change TOK_KEYWORD with 150; lia|]. exists VT_LOCOFF, (LocalOffset e'). apply (dn_var _ _ _ _ _ DN B0). auto.
      * destruct (Z.eq_dec z x) as [->|N]; [split; [change TOK_ID with 187; change TOK_KEYWORD with 150; lia|]; exists VT_LOCOFF, (LocalOffset e'); apply (dn_var _ _ _ _ _ DN B0); auto|].
        apply (kept_decls [z] d (VOff e)); [intros w [<-|[]]; apply (dn_kept _ _ _ _ _ _ DN N); apply f_in0; exact Z1|intros w [<-|[]]; apply f_decl0; exact Z1|left; reflexivity].
    + change (NextSwitchCase d1 < 0). rewrite N7. assumption.
    + change (IgnoreRedef d1 <> 0). rewrite N6. assumption.
    + change (2 <= ScopeCount d1). rewrite N5. assumption.
    + lia.
    + intros z Z0. rewrite TD. rewrite (n_look _ _ _ _ _ DN), aget_aset. fold B. destruct (Z.eqb_spec x z) as [_|N]; [lia|]. destruct Z0 as [Z0|Z0]; [congruence|]. specialize (f_in0 z Z0). fold B in f_in0. lia.
  - intros K env v t KO LW LO M VV R IP. pose proof (kept_ok _ _ _ _ _ _ _ KP KO) as KO1. pose proof (proj1 BA' _ _ M) as M3. pose proof (proj1 BA3 _ _ M3) as M2.
    destruct (VAL env v (r_env _ _ _ _ R) VV) as (_ & _ & _ & _ & _ & AC).
    eapply reaches_trans; [exact (acts_run (vars ex) (depth ex) d3 (VOff e1) K KO1 ex [] env e1 e2 _ t LE1 ltac:(rewrite N1; exact (f_reg _ _ _ FR)) L2 XT ltac:(intros z Z1; exact Z1) (le_n _) eq_refl AC I ltac:(lia) M2 R ltac:(lia))|].
    cbv beta. intros t1 (R1 & IP1 & AX). pose proof (live_lo _ LE1) as LL. pose proof (match_live _ _ _ _ M2 (proj1 L2)) as HE. pose proof (live_room _ _ L3) as LR3. cbn [List.length] in LR3.
    pose proof (rel_img (vars ex) (depth ex) d3 (VOff e1) K KO1 env t1 R1 ltac:(lia)) as IM.
    assert (CD : code (mem t1) (cs (sg t1)) (CodeAddress e2) [80]) by exact (put_loaded (k_lo K) (k_ef K) e2 (put [80] e2) [] [80] (mem t1) (cs (sg t1)) I ltac:(lia) M3 eq_refl eq_refl IM).
    pose proof (ko_top _ _ _ _ _ KO) as TP. pose proof (ko_low _ _ _ _ _ KO) as KL. pose proof (ko_ss _ _ _ _ _ KO) as KS.
    assert (RR := R1). destruct R1 as [W1 W2 W3 W4 W5 W6 W7]. destruct t1 as [r g i fl m]. cbn [rg sg ip mem] in *. subst i g.
    apply (push_run _ r (k_sg K) (CodeAddress e2) fl m 0); [exact CD|lia|lia|lia|]. apply reach_now. exists (mkst r (k_sg K) (CodeAddress e2) fl m).
    assert (SPQ : (sp r - 2) mod 65536 = k_sp K - 2) by (rewrite W4; apply Z.mod_small; lia).
    assert (AXR : rget r 0 = v mod 65536) by exact AX. pose proof (Z.mod_pos_bound v 65536 ltac:(lia)) as VB.
    unfold pushed. cbn [rg sg ip mem]. rewrite SPQ, AXR. split; [exact RR|].
    split; [|split; [reflexivity|split; [destruct r; reflexivity|split; [destruct r; reflexivity|split; [rewrite KS; reflexivity|lia]]]]].
    destruct W1 as (Q1 & Q2 & Q3). cbn [rg sg mem] in *. split; [apply rset_ok; [exact Q1|lia]|]. split; [exact Q2|]. apply wr16_ok; assumption.
Qed.
End W.
