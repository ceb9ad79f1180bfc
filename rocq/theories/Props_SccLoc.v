(** Property C65: functions with local variables.

    Reading guide.  As Props_SccFun.v, but the body starts with declarations  int x = e;  -- [ds] is the list of the pairs
    (x, e), [dtoks] (SccLoc.v) their tokens, [dexec] what they mean: each initialiser is evaluated and becomes the value of its
    variable; the names declared before are in scope.  [scoped V ds]: every initialiser only mentions V and the names declared
    before it (and not the name it initialises).  A local may have the name of a parameter or of a global variable, which it hides. *)
From Verif Require Import Base Bits Spec8086 SpecWf SccRun SccState SccEmit SccLex SccDecl SccExpr SccStmt SccInput SccRel SccIntern SccTok SccTok2 SccTok3 SccPut SccArith SccOps ExprSpec SccHold SccFix SccSem SccBin SccComp SccParse SccScan SccWhole SccWitness StmtSpec SccImg SccStep SccMach SccPiece SccStm SccProg SccHead Props_SccStmt SccFun Props_SccFun SccLoc SccLoc2 SccLoc3 SccLoc4.
From Coq Require Import String.

(** the machine where a function is called that uses the variables V of its surroundings and z bytes of stack *)
Record lcalled (s s' : cc) (z : Z) (V ps : list Z) (env : Z -> Z) (t : state) : Prop := {
  lc_wf : wf t;
  lc_ss : ss (sg t) = cs (sg t);
  lc_ds : Spec8086.ds (sg t) = cs (sg t);
  lc_ip : ip t = CodeAddress (em s);
  lc_code : SccWhole.loaded (em s) (em s') t;
  (* room on the stack above the code, and the return address on top of the stack *)
  lc_low : CodeAddress (em s') <= sp (rg t) - z;
  lc_top : sp (rg t) + 1 < 65536;
  lc_ret : let r := rd16 (mem t) (cs (sg t)) (sp (rg t)) in r < CodeAddress (em s) \/ CodeAddress (em s') <= r;
  (* each variable has a place of its own outside all this, and its value there *)
  lc_env : env_ok env;
  lc_var : forall x a, In x V -> var_at s ps (sp (rg t)) x a -> a + 1 < 65536 /\
    (a + 1 < CodeAddress (em s) \/ CodeAddress (em s') <= a /\ a + 1 < sp (rg t) - z \/ sp (rg t) + 2 <= a) /\
    env x = signed true (rd16 (mem t) (cs (sg t)) a);
  lc_apart : forall x y a b, In x V -> In y V -> x <> y -> var_at s ps (sp (rg t)) x a -> var_at s ps (sp (rg t)) y b -> a + 1 < b \/ b + 1 < a }.
(** and back in the caller; the variables in hid have been hidden by locals of the same name, and have not changed *)
Record lreturned (s : cc) (z : Z) (V hid ps : list Z) (env' : Z -> Z) (o : StmtSpec.outcome) (t t' : state) : Prop := {
  lt_wf : wf t';
  lt_sg : sg t' = sg t;
  lt_ip : ip t' = rd16 (mem t) (cs (sg t)) (sp (rg t));
  lt_sp : sp (rg t') = (sp (rg t) + 2) mod 65536;
  lt_bp : bp (rg t') = bp (rg t);
  lt_ax : forall v, o = Returned v -> ax (rg t') = v mod 65536;
  lt_var : forall x a, In x V -> ~ In x hid -> var_at s ps (sp (rg t)) x a -> env' x = signed true (rd16 (mem t') (cs (sg t)) a);
  (* the rest of memory is as it was *)
  lt_mem : forall a, (forall p, sp (rg t) - z <= p < sp (rg t) -> a <> phys (cs (sg t)) p) ->
    (forall x p, In x V -> ~ In x hid -> var_at s ps (sp (rg t)) x p -> a <> phys (cs (sg t)) p /\ a <> phys (cs (sg t)) (p + 1)) -> aget (mem t') a = aget (mem t) a }.

Lemma local_type s ps v f s1 s2 x : opened f ps v s s1 -> front v ps s1 s2 -> x <> f -> no_type (dc s) x -> aget (VarLookup (dc s)) x <= aget (Scopes (dc s)) 0 -> no_type (dc s2) x.
Proof.
  intros OP FR NF NT LE. destruct (in_dec Z.eq_dec x ps) as [I|N].
  - apply In_nth_error in I. destruct I as [j J]. destruct (fr_par _ _ _ _ FR j x J) as (u & U1 & _ & U3 & _). right. rewrite U1. replace (u + 1 - 1) with u by lia. rewrite U3. reflexivity.
  - unfold no_type in *. rewrite (fr_old _ _ _ _ FR x N), (op_look _ _ _ _ _ OP x NF). destruct NT as [E|E]; [left; exact E|right].
    set (u := aget (VarLookup (dc s)) x - 1) in *. assert (U : u < aget (Scopes (dc s)) 0) by (unfold u; lia). pose proof (op_top _ _ _ _ _ OP) as T. pose proof (op_v _ _ _ _ _ OP) as T'.
    rewrite (proj1 (fr_tab _ _ _ _ FR u ltac:(lia))). rewrite (proj1 (op_tab _ _ _ _ _ OP u ltac:(lia))). exact E.
Qed.

Lemma decls_keep ds : forall V env env', scoped V ds -> dexec ds env env' -> env_ok env -> env_ok env'.
Proof.
  induction ds as [|[x e] r IH]; intros V env env' SC X OK; inversion X; subst; [exact OK|]. cbn [scoped] in SC. destruct SC as (GE & _ & _ & SC).
  apply (IH (x :: V) (assign env x v) env' SC); [assumption|]. intro y. unfold assign. destruct (y =? x); [|apply OK]. eapply value_range; eassumption.
Qed.

(** ** C65: a function with locals does what its body means *)
Theorem C65_locals : forall W F n s s' x0 rt f ps ds l names txt rest V,
  let st := SBlock l in
  let z := 2 + 2 * Z.of_nat (List.length ds) + 2 * Z.of_nat (Nat.max (ddepth ds) (sdepth st)) in
  16 <= W ->
  (* the text: the function, and something after it *)
  sees (lx s) txt -> schars txt -> scan names txt (htoks rt f ps ++ (kw ch_lbrace :: flat_map dtoks ds ++ flat_map stoks l ++ [kw ch_rbrace]) ++ rest) -> rest <> [] ->
  table W (lx s) names -> (List.length names <= 580)%nat -> (2 * List.length txt + 1 < F)%nat -> IdBufPtr (lx s) + Z.of_nat (List.length txt) < 5000 ->
  (* the compiler is outside of functions; the name of the function is new, the parameters are distinct, parameters and locals no names of types, and there is room for them *)
  between (em s) (dc s) -> rt = TOK_INT \/ rt = TOK_VOID ->
  aget (VarLookup (dc s)) f = 0 -> NoDup ps -> (forall x, In x (f :: ps ++ V ++ map fst ds) -> 37 <= x) ->
  (forall x, In x (ps ++ map fst ds) -> no_type (dc s) x /\ aget (VarLookup (dc s)) x <= aget (Scopes (dc s)) 0) -> ~ In f (map fst ds) ->
  aget (Scopes (dc s)) 0 + 5 + Z.of_nat (List.length ps) <= 380 -> ds <> [] -> (List.length ds <= 380)%nat ->
  (* the body, over V -- parameters and global int variables -- and the locals *)
  scoped V ds -> wf_stmt false st -> (forall x, In x (svars st) -> In x V \/ In x (map fst ds)) -> (forall x, In x V -> In x ps \/ exists a, global s x a) ->
  (GetToken W F ;; ParseExternalDefition W F (tie W F n)) s = Ok (x0, s') ->
  (* the definition has been read, the compiler is ready for the next one and knows where the function is *)
  stream W F (lx s') rest /\ between (em s') (dc s') /\ aget (VOff (em s')) (aget (Scopes (dc s)) 0) = CodeAddress (em s) /\
  (* called, it returns, having done what the declarations and then the statements do *)
  forall env env1 env' o t, dexec ds env env1 -> sexec st env1 env' o -> lcalled s s' z V ps env t -> reaches (lreturned s z V (map fst ds) ps env' o t) t.
Proof.
  intros W F n s s' x0 rt f ps ds l names txt rest V st z HW SE SC SN NR T LN LF LB BT RT NW ND HI NT NFL CAP DNE DLE SCO WF IXV VAR H.
  change (kw ch_lbrace :: flat_map dtoks ds ++ flat_map stoks l ++ [kw ch_rbrace]) with (ltoks ds l) in SN.
  remember (htoks rt f ps ++ ltoks ds l ++ rest) as ts eqn:ETS. destruct SN as [txt|w spl t1 txt ts TR LX SN]; [discriminate ETS|].
  assert (E0 : t1 = kw rt /\ ts = tl (htoks rt f ps) ++ ltoks ds l ++ rest) by (unfold htoks in *; cbn [Datatypes.app tl] in *; injection ETS; auto). destruct E0 as [-> ->].
  destruct (trivia_token W F HW names s w spl (kw rt) txt TR SE SC LX T LN LF ltac:(rewrite app_length in LB; lia)) as (l' & G & S' & A' & T' & U').
  rewrite (bind_ok _ _ _ _ _ G) in H.
  assert (ST : stream W F l' (htoks rt f ps ++ ltoks ds l ++ rest)).
  { change (htoks rt f ps) with (kw rt :: tl (htoks rt f ps)). cbn [Datatypes.app]. apply schars_app in SC as [_ SC]. apply schars_app in SC as [_ SC]. rewrite !app_length in *.
    apply (scan_stream W F HW names _ txt l' (kw rt) A' S' SC SN T' LN); lia. }
  clear ETS SN TR LX G S' A' T' U' SE SC T LN LF LB.
  assert (ES : exists body, ltoks ds l ++ rest = kw ch_lbrace :: body) by (eexists; reflexivity). destruct ES as [body ES]. rewrite ES in ST.
  destruct (ext_open W F n rt f ps l' (em s) (dc s) x0 s' body BT RT ltac:(apply HI; left; reflexivity) ltac:(intros p I; split; [apply HI; right; apply in_or_app; auto|apply NT; apply in_or_app; auto]) NW ST H) as (v & s1 & OP & ST1 & H1).
  rewrite <- ES in ST1. clear ES body ST H.
  assert (OP' : opened f ps v s s1) by (destruct OP; split; assumption). clear OP. pose proof OP' as [O1 O2 O3 O4 O5 O6 O7 O8 O9 O10].
  pose proof (bt_top _ _ BT) as TOP. destruct (front_ok W F (tie W F n) v ps s1 x0 s' O1 ltac:(lia) (proj2 O8) O9 O10 ltac:(intros p I; apply HI; right; apply in_or_app; auto) ND ltac:(lia) H1) as (s2 & FR & H2). clear H1.
  assert (DC : decls V (dc s2) (VOff (em s2))).
  { intros x I. split; [change TOK_ID with 187; change TOK_KEYWORD with 150; pose proof (HI x ltac:(right; apply in_or_app; right; apply in_or_app; auto)); lia|].
    destruct (var_exists s ps 0 x (VAR x I)) as [a A]. destruct (var_place _ _ _ _ _ _ _ _ _ OP' FR NW A) as (Loc & Val & IV & _). eauto. }
  pose proof FR as [F1 F2 F3 F4 F5 (F61 & F62 & F63) F7 F8 F9 F10 _ F12].
  assert (IN : forall y, In y V -> aget (VarLookup (dc s2)) y <= aget (Scopes (dc s2)) 1).
  { intros y I. rewrite F12. destruct (in_dec Z.eq_dec y ps) as [J|J].
    - apply In_nth_error in J. destruct J as [j J]. destruct (F9 j y J) as (u & U1 & U2 & _). lia.
    - destruct (VAR y I) as [Q|(a & u & U1 & U2 & _)]; [contradiction|]. rewrite (F10 y J), O6, U1 by (intros ->; lia). lia. }
  assert (LT : forall x, In x (map fst ds) -> 37 <= x /\ no_type (dc s2) x).
  { intros x I. split; [apply HI; right; apply in_or_app; right; apply in_or_app; auto|]. destruct (NT x ltac:(apply in_or_app; auto)) as [Q1 Q2]. apply (local_type s ps v f s1 s2 x OP' FR); auto. intros ->. contradiction. }
  rewrite <- F1 in ST1. destruct (lbody_ok W F HW n ds l V s2 x0 s' rest F2 DC F4 F5 F61 F62 ltac:(lia) IN DNE DLE SCO LT WF ltac:(intros x I; apply in_seen; apply IXV; exact I) ST1 NR H2) as (BT' & VO & ef & STR & OU & CA & BK & MT & RUN).
  split; [exact STR|]. split; [exact BT'|]. split; [rewrite <- O4, VO, F8; [exact O2|lia]|].
  intros env env1 env' o t X0 X1 CL. destruct CL. cbv zeta in *. fold st in RUN.
  assert (A2 : CodeAddress (em s2) = CodeAddress (em s)) by congruence. rewrite A2 in *. rewrite CA in *.
  assert (PL : forall x a, In x V -> var_at s ps (Spec8086.sp (rg t)) x a -> a = place s2 (Spec8086.sp (rg t) - 2) x).
  { intros x a I Va. destruct (var_place _ _ _ _ _ _ _ _ _ OP' FR NW Va) as (_ & _ & _ & Q). apply Q; [pose proof (proj1 lc_wf0); apply H|apply (lc_var0 x a I Va)]. }
  assert (VE : forall x, In x V -> var_at s ps (Spec8086.sp (rg t)) x (place s2 (Spec8086.sp (rg t) - 2) x)).
  { intros x I. destruct (var_exists s ps (Spec8086.sp (rg t)) x (VAR x I)) as [a Va]. rewrite <- (PL x a I Va). exact Va. }
  assert (AT : forall x, In x V -> 0 <= place s2 (Spec8086.sp (rg t) - 2) x) by (intros x I; unfold place; destruct (_ =? _); apply Z.mod_pos_bound; lia).
  pose proof (bk_room _ _ BK) as RM. unfold room, CODESTART, OUTPUT_MAX in RM. pose proof (bt_room _ _ BT) as RM0. unfold room, CODESTART in RM0.
  assert (LE : CodeAddress (em s) + 3 <= CodeAddress ef).
  { assert (Q : CodeAddress (em s) <= CodeAddress (em s) + 2 < CodeAddress (put [85; 137; 229] (em s2))) by (rewrite put_addr, A2; cbn [List.length]; lia).
    destruct (mt_code _ _ _ _ MT _ Q ltac:(intros (? & ? & [] & _))). lia. }
  set (sp0 := Spec8086.sp (rg t)) in *. set (sg0 := cs (sg t)) in *.
  pose proof lc_wf0 as (WR & _ & _ & WM).
  assert (BPR : 0 <= bp (rg t) < 65536) by apply WR. assert (SPR : 0 <= sp0 < 65536) by apply WR.
  set (m0 := wr16 (mem t) sg0 (sp0 - 2) (bp (rg t))).
  assert (M0 : forall a, (forall p, sp0 - 2 <= p < sp0 -> a <> phys sg0 p) -> aget m0 a = aget (mem t) a).
  { intros a N. unfold m0. rewrite aget_wr16 by exact BPR. destruct (Z.eqb_spec (phys sg0 (sp0 - 2 + 1)) a) as [E|_]; [exfalso; apply (N (sp0 - 2 + 1)); [lia|congruence]|].
    destruct (Z.eqb_spec (phys sg0 (sp0 - 2)) a) as [E|_]; [exfalso; apply (N (sp0 - 2)); [lia|congruence]|]. reflexivity. }
  assert (M1 : forall a, 0 <= a < 65536 -> a < sp0 - 2 \/ sp0 <= a -> aget m0 (phys sg0 a) = aget (mem t) (phys sg0 a)).
  { intros a R N. apply M0. intros p P E. apply phys_in in E; lia. }
  assert (ZP : 2 <= z) by (unfold z; lia).
  set (u := mkrun (CodeAddress (em s)) ef (sg t) (sp0 - 2) (sp0 - z) m0 (lreturned s z V (map fst ds) ps env' o t)).
  assert (UO : run_ok u).
  { split; unfold u; cbn [u_lo u_ef u_sg u_bp u_low u_m0 u_fin]; try assumption; try lia.
    - intros a R. fold sg0. unfold rd8. rewrite M1 by lia. pose proof (lc_code0 a) as Q. rewrite CA, OU in Q. apply Q. exact R.
    - intros t' [_ _ IP _ _ _ _ _]. rewrite IP. exact lc_ret0. }
  set (at_ := place s2 (sp0 - 2)) in *.
  assert (LA : LAt u V (dc s2) (VOff (em s2)) at_ (u_bp u)).
  { split; unfold u; cbn [u_lo u_ef u_sg u_bp u_low u_m0 u_fin].
    - intros x I. destruct (lc_var0 x _ I (VE x I)) as (B1 & B2 & _). split; [apply AT; exact I|]. split; [exact B1|]. lia.
    - intros x y I J N. apply (lc_apart0 x y); auto.
    - intros x Loc Val _ IV. apply place_var. exact IV. }
  assert (EO : env_ok env') by (apply (keeps_range false st env1 env' _ WF X1); apply (decls_keep ds V env env1 SCO X0 lc_env0)).
  assert (FN : forall t' w, (forall w', o = Returned w' -> w mod 65536 = w' mod 65536) -> Ret (outer V ds) (kof u at_ (u_bp u) (u_m0 u)) env' w t' -> reaches (u_fin u) t').
  { intros t' wv EW [Q1 Q2 Q3 Q4 Q5 Q6 Q7 Q8]. apply reach_now. unfold u, kof, k_seg in *. cbn [k_sg k_sp k_bp k_m0 k_at u_lo u_ef u_sg u_bp u_low u_m0 u_fin] in *. fold sg0 in Q3, Q5, Q7. split; fold sg0 sp0.
    - exact Q1.
    - exact Q2.
    - rewrite Q5. replace (sp0 - 2 + 2) with sp0 by lia. apply rd16_frame; apply M1; lia.
    - rewrite Q4. f_equal. lia.
    - rewrite Q3. apply rd16_wr16_same; lia.
    - intros v0 E. rewrite Q6. apply EW. exact E.
    - intros x a I N Va. rewrite (PL x a I Va), (Q7 x (proj2 (in_outer V ds x) (conj I N))). symmetry. apply signed_int. apply EO.
    - intros a N1 N2. rewrite Q8.
      + apply M0. intros p P. apply N1. lia.
      + intros (p & R & ->). cbn [k_low k_sp] in R. apply (N1 p); [lia|reflexivity].
      + intros (x & I & E). apply in_outer in I as [I N]. destruct (N2 x _ I N (VE x I)). unfold k_seg in E. cbn [k_sg k_at] in E. fold sg0 in E. tauto. }
  assert (PRO : reaches (fun t1 => t1 = mkst (mkregs (ax (rg t)) (cx (rg t)) (dx (rg t)) (bx (rg t)) (sp0 - 2) (sp0 - 2) (si (rg t)) (di (rg t))) (sg t) (CodeAddress (em s) + 3) (fl t) m0) t).
  { assert (CD : code (mem t) sg0 (CodeAddress (em s)) [85; 137; 229]).
    { rewrite <- A2. apply (put_loaded (CodeAddress (em s)) ef (em s2) (put [85; 137; 229] (em s2)) [] [85; 137; 229] (mem t) sg0 I ltac:(lia) MT eq_refl eq_refl).
      intros a R. pose proof (lc_code0 a) as Q. rewrite CA, OU in Q. apply Q. exact R. }
    replace t with (mkst (rg t) (sg t) (CodeAddress (em s)) (fl t) (mem t)) at 1 by (rewrite <- lc_ip0; destruct t; reflexivity).
    apply prologue_run; try assumption; try lia.
    - cbv zeta. fold sp0. rewrite (Z.mod_small (sp0 - 2)) by lia. apply reach_now. unfold m0. rewrite lc_ss0. reflexivity.
    - intros p P. fold sp0 sg0. split; intro E; apply phys_in in E; lia. }
  apply (reaches_wf _ _ lc_wf0) in PRO. eapply reaches_trans; [exact PRO|]. cbv beta. intros t1 [W1 E1]. clear PRO.
  change (reaches (u_fin u) t1). apply (RUN u at_ env env1 env' o eq_refl eq_refl UO ltac:(unfold u, z; cbn [u_low u_bp]; lia) LA ltac:(intros x I; unfold u; cbn [u_bp]; destruct (lc_var0 x _ I (VE x I)) as (_ & Q & _); lia) X0 X1 FN); [|rewrite E1; reflexivity].
  split; unfold u; cbn [u_lo u_ef u_sg u_bp u_low u_m0 u_fin]; try (rewrite E1; reflexivity).
  - apply wf_wfr. exact W1.
  - exact lc_env0.
  - intros x I. rewrite E1. cbn [mem]. fold sg0. destruct (lc_var0 x _ I (VE x I)) as (B1 & B2 & B3). pose proof (AT x I).
    rewrite (rd16_frame (mem t) m0) by (apply M1; lia). rewrite B3. fold sg0 sp0. pose proof (rd16_ok (mem t) sg0 (at_ x) WM) as Q.
    unfold signed, half, modulus. destruct (_ <? _); lia.
Qed.

(** *** A case: a local s, and a local n which hides the parameter n; a global r at address 4660; a return in the middle *)
Definition c65_text : list Z := bytes_of "int f(int n, int k) { int s = n-k; int n = s+r; if (n>k) return n; r = s; } int"%string.
Definition c65_names : list (list Z) := builtins ++ [bytes_of "f"; bytes_of "n"; bytes_of "k"; bytes_of "r"; bytes_of "s"].
Definition c65_decls : list ldecl := [(44, EOp (Arith Sub) (EVar 41) (EVar 42)); (41, EOp (Arith Add) (EVar 44) (EVar 43))].
Definition c65_body : list stmt := [SIf (EOp (Rel Gt) (EVar 41) (EVar 42)) (SReturn (EVar 41)); SAsn (ASet 43 (EVar 44))].
Definition c65_lx : lexst := match add_builtins 16 c65_names (lx0 nil nil) with Ok (_, l) => with_input c65_text l | _ => lx0 nil nil end.
Definition c65_state : cc :=
  mkcc c65_lx (set_VOff (aset (ainit 0) 0 4660) em0)
    (set_Scopes (aset (ainit 0) 0 1) (set_VType (aset (ainit 0) 0 (VT_INT + VT_LOCGLOB)) (set_VarLookup (aset (ainit 0) 43 1) dc0))).
Definition c65_run : Base.outcome (unit * cc) := (GetToken 16 200 ;; ParseExternalDefition 16 200 (tie 16 200 60)) c65_state.
Definition c65_rest : list token := [kw TOK_INT].
Definition c65_toks : list token := htoks TOK_INT 40 [41; 42] ++ (kw ch_lbrace :: flat_map dtoks c65_decls ++ flat_map stoks c65_body ++ [kw ch_rbrace]) ++ c65_rest.
Lemma c65_scan : scan c65_names c65_text c65_toks.
Proof.
  let l := eval vm_compute in c65_text in change c65_text with l.
  let l := eval vm_compute in c65_toks in change c65_toks with l.
  y_name (@nil Z) 16%nat. y_name [32] 40%nat. y_op (@nil Z) [40]. y_name (@nil Z) 16%nat. y_name [32] 41%nat. y_op (@nil Z) [44]. y_name [32] 16%nat. y_name [32] 42%nat. y_op (@nil Z) [41]. y_op [32] [123]. y_name [32] 16%nat. y_name [32] 44%nat. y_op [32] [61]. y_name [32] 41%nat. y_op (@nil Z) [45]. y_name (@nil Z) 42%nat. y_op (@nil Z) [59]. y_name [32] 16%nat. y_name [32] 41%nat. y_op [32] [61]. y_name [32] 44%nat. y_op (@nil Z) [43]. y_name (@nil Z) 43%nat. y_op (@nil Z) [59]. y_name [32] 15%nat. y_op [32] [40]. y_name (@nil Z) 41%nat. y_op (@nil Z) [62]. y_name (@nil Z) 42%nat. y_op (@nil Z) [41]. y_name [32] 19%nat. y_name [32] 41%nat. y_op (@nil Z) [59]. y_name [32] 43%nat. y_op [32] [61]. y_name [32] 44%nat. y_op (@nil Z) [59]. y_op [32] [125]. y_name [32] 16%nat.
  constructor.
Qed.
Lemma c65_wf : wf_stmt false (SBlock c65_body).
Proof.
  unfold c65_body. cbn [wf_stmt]. split; [|split; [right; reflexivity|split; [split; [lia|good]|split; [left; reflexivity|exact I]]]].
  split; [split; [good|left; split; reflexivity]|]. good.
Qed.
Lemma c65_scoped : scoped [41; 42; 43] c65_decls.
Proof.
  unfold c65_decls. cbn [scoped vars Datatypes.app]. split; [good|]. split; [intros x I; cbn in *; tauto|]. split; [cbn; lia|]. split; [good|]. split; [intros x I; cbn in *; tauto|]. split; [cbn; lia|exact I].
Qed.
Definition c65_after : cc := match c65_run with Ok (_, s) => s | _ => c65_state end.
(* the caller has pushed k = 3, n = 7 and the return address 24576 *)
Definition c65_st : Spec8086.state :=
  mkst (mkregs 1 2 3 4 65000 65100 7 8) (mksregs 4096 4096 4096 4096) 256 (mkflags false false false false)
    (load_bytes (out_bytes (Z.to_nat (CodeAddress (em c65_after) - 256)) 0 (Output (em c65_after))) (phys 4096 256)
       (load_bytes [0; 96; 7; 0; 3; 0] (phys 4096 65000) (load_bytes [5; 0] (phys 4096 4660) (mkarr 0 Leaf)))).
Lemma c65_global : global c65_state 43 4660.
Proof. exists 0. vm_compute. repeat split; discriminate. Qed.
Lemma c65_at x a : In x [41; 42; 43] -> var_at c65_state [41; 42] 65000 x a -> x = 41 /\ a = 65002 \/ x = 42 /\ a = 65004 \/ x = 43 /\ a = 4660.
Proof.
  intros I [(j & J & ->)|(N & v & V1 & _ & _ & _ & ->)].
  - destruct j as [|[|[|j]]]; cbn [nth_error] in J; try discriminate J; injection J as <-; cbn; auto.
  - destruct I as [<- |[<- |[<- |[]]]]; [exfalso; apply N; cbn; auto|exfalso; apply N; cbn; auto|]. right. right. split; [reflexivity|].
    change (aget (VarLookup (dc c65_state)) 43) with 1 in V1. replace v with 0 by lia. reflexivity.
Qed.
Lemma c65_between : between (em c65_state) (dc c65_state).
Proof.
  split; try (vm_compute; reflexivity); try (vm_compute; discriminate).
  - vm_compute. split; discriminate.
  - intro a. change (Output (em c65_state)) with (ainit 0 : arr Z). rewrite aget_init. lia.
  - intros a _. change (Output (em c65_state)) with (ainit 0 : arr Z). rewrite aget_init. split; discriminate.
Qed.
Definition c65_z : Z := 2 + 2 * Z.of_nat (List.length c65_decls) + 2 * Z.of_nat (Nat.max (ddepth c65_decls) (sdepth (SBlock c65_body))).
Lemma c65_called : lcalled c65_state c65_after c65_z [41; 42; 43] [41; 42] (c64_env 7 3 5) c65_st.
Proof.
  split.
  - split; [vm_compute; repeat split; discriminate|]. split; [vm_compute; repeat split; discriminate|]. split; [vm_compute; repeat split; discriminate|].
    unfold c65_st. cbn [mem]. apply load_bytes_ok; [vm_compute; reflexivity|]. apply load_bytes_ok; [reflexivity|]. apply load_bytes_ok; [reflexivity|].
    intro i. change (mkarr 0 Leaf) with (ainit 0 : arr Z). rewrite aget_init. lia.
  - reflexivity.
  - reflexivity.
  - vm_compute. reflexivity.
  - intros a R. apply Z.eqb_eq. revert a R. apply range_by. vm_compute. reflexivity.
  - vm_compute. discriminate.
  - vm_compute. reflexivity.
  - right. vm_compute. discriminate.
  - intro x. unfold c64_env, int_range. destruct (x =? 41); [lia|]. destruct (x =? 42); [lia|]. destruct (x =? 43); lia.
  - intros x a I L. change (sp (rg c65_st)) with 65000 in *. destruct (c65_at x a I L) as [[-> ->]|[[-> ->]|[-> ->]]].
    + split; [lia|]. split; [right; right; lia|vm_compute; reflexivity].
    + split; [lia|]. split; [right; right; lia|vm_compute; reflexivity].
    + split; [lia|]. split; [right; left; split; [vm_compute; discriminate|vm_compute; reflexivity]|vm_compute; reflexivity].
  - intros x y a b I J N L M. change (sp (rg c65_st)) with 65000 in L, M. destruct (c65_at x a I L) as [[-> ->]|[[-> ->]|[-> ->]]], (c65_at y b J M) as [[-> ->]|[[-> ->]|[-> ->]]]; lia.
Qed.
Lemma c65_exec : exists env1 env', dexec c65_decls (c64_env 7 3 5) env1 /\ sexec (SBlock c65_body) env1 env' (Returned 9) /\ env' 43 = 5.
Proof.
  eexists _, _. split; [|split].
  - unfold c65_decls. eapply d_cons; [split; [reflexivity|a_right]|]. eapply d_cons; [split; [reflexivity|a_right]|]. apply d_nil.
  - unfold c65_body. exec1. apply l_out; [|discriminate]. apply x_if; [exists 1; split; [|reflexivity]; split; [reflexivity|a_right]|]. apply x_return. split; [reflexivity|exact I].
  - reflexivity.
Qed.
Example C65_ex :
  (sees (lx c65_state) c65_text /\ schars c65_text /\ scan c65_names c65_text c65_toks /\ table 16 (lx c65_state) c65_names) /\
  (between (em c65_state) (dc c65_state) /\ aget (VarLookup (dc c65_state)) 40 = 0 /\ NoDup [41; 42] /\ (forall x, In x (40 :: [41; 42] ++ [41; 42; 43] ++ map fst c65_decls) -> 37 <= x) /\
   (forall x, In x ([41; 42] ++ map fst c65_decls) -> no_type (dc c65_state) x /\ aget (VarLookup (dc c65_state)) x <= aget (Scopes (dc c65_state)) 0) /\ ~ In 40 (map fst c65_decls) /\ aget (Scopes (dc c65_state)) 0 + 5 + 2 <= 380) /\
  (scoped [41; 42; 43] c65_decls /\ wf_stmt false (SBlock c65_body) /\ (forall x, In x (svars (SBlock c65_body)) -> In x [41; 42; 43] \/ In x (map fst c65_decls)) /\ forall x, In x [41; 42; 43] -> In x [41; 42] \/ exists a, global c65_state x a) /\
  c65_run = Ok (tt, c65_after) /\ lcalled c65_state c65_after c65_z [41; 42; 43] [41; 42] (c64_env 7 3 5) c65_st /\
  (exists env1 env', dexec c65_decls (c64_env 7 3 5) env1 /\ sexec (SBlock c65_body) env1 env' (Returned 9) /\ env' 43 = 5) /\
  (* the machine returns to 24576 with AX = 9, r = 5 and the parameter n = 7 as they were, BP as it was *)
  option_map (fun t => (ax (rg t), sp (rg t), bp (rg t), rd16 (mem t) 4096 4660, rd16 (mem t) 4096 65002)) (until zclear 24576 100 c65_st) = Some (9, 65002, 65100, 5, 7).
Proof.
  assert (NM : NoDup ([] ++ c65_names)) by (apply nodup_by; vm_compute; reflexivity).
  assert (AS : ascii_b c65_text = true) by (vm_compute; reflexivity).
  destruct (add_builtins_spec 16 ltac:(lia) c65_names (lx0 nil nil) nil (table_empty 16 nil nil) NM ltac:(vm_compute; lia)) as (l & EL & TL & _).
  assert (CL : c65_lx = with_input c65_text l) by (unfold c65_lx; rewrite EL; reflexivity).
  assert (IO : (match c65_run with Ok _ => true | _ => false end) = true) by (vm_compute; reflexivity).
  assert (E : c65_run = Ok (tt, c65_after)) by (unfold c65_after; destruct c65_run as [[[] s']| | |]; try discriminate IO; reflexivity).
  clear EL. split; [|split; [|split; [|split; [exact E|split; [exact c65_called|split; [exact c65_exec|vm_compute; reflexivity]]]]]].
  - unfold c65_state. cbn [lx]. rewrite CL. split; [|split; [|split]].
    + apply with_input_sees; [apply ascii_b_ok; exact AS|apply ascii_b_ok; exact AS].
    + apply ascii_b_ok; exact AS.
    + exact c65_scan.
    + apply (table_view 16 _ l c65_names); [reflexivity|exact TL].
  - split; [exact c65_between|]. split; [reflexivity|]. split; [repeat constructor; cbn; lia|]. split; [|split; [|split]].
    + intros x I. cbn in I. lia.
    + intros x I. cbn [map fst c65_decls Datatypes.app] in I. destruct I as [<-|[<-|[<-|[<-|[]]]]]; (split; [left; reflexivity|vm_compute; discriminate]).
    + cbn. lia.
    + vm_compute. discriminate.
  - split; [exact c65_scoped|]. split; [exact c65_wf|]. split.
    + intros x I. unfold c65_body in I. cbn [svars act_vars flat_map vars Datatypes.app In] in I. cbn. lia.
    + intros x [<-|[<-|[<-|[]]]]; [left; cbn; auto|left; cbn; auto|]. right. exists 4660. exact c65_global.
Qed.
(* whole programs: recursion over a local, a loop over locals, a local that hides a global *)
Example C65_programs :
  returns "int f(int n) { int m = n - 1; int r = n; if (m > 0) r = r + f(m); return r; } int _start() { return f(9); }" zset 4000 = Some 45 /\
  returns "int g(int n) { int i = 0; int s = 0; while (i < n) { i = i + 1; if (i == 7) return s; s = s + i; } } int _start() { return g(9); }" zclear 4000 = Some 21 /\
  returns "int r; void f(int n) { int r = n; r = r + 1; } int _start() { r = 5; f(8); return r; }" zclear 4000 = Some 5.
Proof. vm_compute. auto. Qed.

Print Assumptions C65_locals.
