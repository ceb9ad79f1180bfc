(** Property C64: a function, from the text of its definition to the machine that calls it.

    Reading guide.  [htoks rt f ps] (SccHead.v) are the tokens of  int f(int a, int b)  or  void f()  (rt is TOK_INT or
    TOK_VOID, f the name, ps the parameters); [SBlock l] the body, as in Props_SccStmt.v ([stoks], [sexec]).
    [between e d] (SccFun.v): the compiler is outside of functions.  [ParseExternalDefition W F (tie W F n)] compiles one
    definition.  [scan], [sees], [table], [loaded] are as in Props_SccExpr.v; [t : state], [reaches]: the 8086 of Spec8086.v. *)
From Verif Require Import Base Bits Spec8086 SpecWf SccRun SccState SccEmit SccLex SccDecl SccExpr SccStmt SccInput SccRel SccIntern SccTok SccTok2 SccTok3 SccPut SccArith SccOps ExprSpec SccHold SccFix SccSem SccBin SccComp SccParse SccScan SccWhole SccWitness StmtSpec SccImg SccStep SccMach SccPiece SccStm SccProg SccHead Props_SccStmt SccFun.
From Coq Require Import String.

(** ** Where the variables are *)
(** x is a global int variable whose address a is known *)
Definition global (s : cc) (x a : Z) : Prop :=
  exists v, aget (VarLookup (dc s)) x = v + 1 /\ 0 <= v < aget (Scopes (dc s)) 0 /\ aget (VType (dc s)) v = VT_INT + VT_LOCGLOB /\
    aget (VOff (em s)) v <> 0 /\ a = aget (VOff (em s)) v mod 65536.
(** x at a, when the function is called with the stack pointer at sp: parameters lie above the return address *)
Definition var_at (s : cc) (ps : list Z) (sp x a : Z) : Prop :=
  (exists j, nth_error ps j = Some x /\ a = sp + 2 + 2 * Z.of_nat j) \/ ~ In x ps /\ global s x a.

(** the machine where a function is called *)
Record called (s s' : cc) (st : stmt) (ps : list Z) (env : Z -> Z) (t : state) : Prop := {
  cl_wf : wf t;
  cl_ss : ss (sg t) = cs (sg t);
  cl_ds : ds (sg t) = cs (sg t);
  cl_ip : ip t = CodeAddress (em s);
  cl_code : SccWhole.loaded (em s) (em s') t;
  (* room on the stack above the code, and the return address on top of the stack *)
  cl_low : CodeAddress (em s') <= sp (rg t) - 2 - 2 * Z.of_nat (sdepth st);
  cl_top : sp (rg t) + 1 < 65536;
  cl_ret : let r := rd16 (mem t) (cs (sg t)) (sp (rg t)) in r < CodeAddress (em s) \/ CodeAddress (em s') <= r;
  (* each variable has a place of its own outside all this, and its value there *)
  cl_env : env_ok env;
  cl_var : forall x a, In x (svars st) -> var_at s ps (sp (rg t)) x a -> a + 1 < 65536 /\
    (a + 1 < CodeAddress (em s) \/ CodeAddress (em s') <= a /\ a + 1 < sp (rg t) - 2 - 2 * Z.of_nat (sdepth st) \/ sp (rg t) + 2 <= a) /\
    env x = signed true (rd16 (mem t) (cs (sg t)) a);
  cl_apart : forall x y a b, In x (svars st) -> In y (svars st) -> x <> y -> var_at s ps (sp (rg t)) x a -> var_at s ps (sp (rg t)) y b -> a + 1 < b \/ b + 1 < a }.
(** and back in the caller *)
Record returned (s : cc) (st : stmt) (ps : list Z) (env' : Z -> Z) (o : StmtSpec.outcome) (t t' : state) : Prop := {
  rt_wf : wf t';
  rt_sg : sg t' = sg t;
  rt_ip : ip t' = rd16 (mem t) (cs (sg t)) (sp (rg t));
  rt_sp : sp (rg t') = (sp (rg t) + 2) mod 65536;
  rt_bp : bp (rg t') = bp (rg t);
  rt_ax : forall v, o = Returned v -> ax (rg t') = v mod 65536;
  rt_var : forall x a, In x (svars st) -> var_at s ps (sp (rg t)) x a -> env' x = signed true (rd16 (mem t') (cs (sg t)) a);
  (* the rest of memory is as it was *)
  rt_mem : forall a, (forall p, sp (rg t) - 2 - 2 * Z.of_nat (sdepth st) <= p < sp (rg t) -> a <> phys (cs (sg t)) p) ->
    (forall x p, In x (svars st) -> var_at s ps (sp (rg t)) x p -> a <> phys (cs (sg t)) p /\ a <> phys (cs (sg t)) (p + 1)) -> aget (mem t') a = aget (mem t) a }.


(** ** C64: a function does what its body means *)
Lemma var_exists s ps b x : In x ps \/ (exists a, global s x a) -> exists a, var_at s ps b x a.
Proof.
  intro H. destruct (in_dec Z.eq_dec x ps) as [I|N].
  - apply In_nth_error in I. destruct I as [j J]. eexists. left. exists j. split; [exact J|reflexivity].
  - destruct H as [I|[a G]]; [contradiction|]. exists a. right. auto.
Qed.
Lemma var_place s ps v f s1 s2 x b a : opened f ps v s s1 -> front v ps s1 s2 -> aget (VarLookup (dc s)) f = 0 -> var_at s ps b x a ->
  exists Loc Val, int_var (dc s2) (VOff (em s2)) x Loc Val /\ (0 <= b -> a + 1 < 65536 -> a = place s2 (b - 2) x).
Proof.
  intros OP FR NW [(j & J & E)|(N & u & U1 & U2 & U3 & U4 & E)].
  - destruct (fr_par _ _ _ _ FR j x J) as (u & U1 & U2 & U3 & U4). exists VT_LOCOFF, (4 + Z.of_nat j * 2).
    assert (IV : int_var (dc s2) (VOff (em s2)) x VT_LOCOFF (4 + Z.of_nat j * 2)).
    { unfold int_var. rewrite U1. replace (u + 1 - 1) with u by lia. split; [lia|]. split; [exact U3|]. left. auto. }
    split; [exact IV|]. intros B A. rewrite (place_var _ _ _ _ _ IV). change (VT_LOCOFF =? VT_LOCOFF) with true. cbv iota. rewrite Z.mod_small by lia. lia.
  - assert (NF : x <> f) by (intros ->; lia). destruct (fr_tab _ _ _ _ FR u ltac:(rewrite (op_top _ _ _ _ _ OP), (op_v _ _ _ _ _ OP); lia)) as [T1 T2].
    destruct (op_tab _ _ _ _ _ OP u ltac:(rewrite (op_v _ _ _ _ _ OP); lia)) as [T3 T4]. specialize (T2 ltac:(rewrite (op_v _ _ _ _ _ OP); lia)).
    exists VT_LOCGLOB, u. assert (IV : int_var (dc s2) (VOff (em s2)) x VT_LOCGLOB u).
    { unfold int_var. rewrite (fr_old _ _ _ _ FR x N), (op_look _ _ _ _ _ OP x NF), U1. replace (u + 1 - 1) with u by lia. split; [lia|]. split; [rewrite T1, T3; exact U3|]. right. split; [reflexivity|]. split; [reflexivity|]. rewrite T2, T4. exact U4. }
    split; [exact IV|]. intros _ _. rewrite (place_var _ _ _ _ _ IV). change (VT_LOCGLOB =? VT_LOCOFF) with false. cbv iota. rewrite T2, T4. exact E.
Qed.

Theorem C64_function : forall W F n s s' x0 rt f ps l names txt rest,
  let st := SBlock l in
  16 <= W ->
  (* the text: the function, and something after it *)
  sees (lx s) txt -> schars txt -> scan names txt (htoks rt f ps ++ stoks st ++ rest) -> rest <> [] ->
  table W (lx s) names -> (List.length names <= 580)%nat -> (2 * List.length txt + 1 < F)%nat -> IdBufPtr (lx s) + Z.of_nat (List.length txt) < 5000 ->
  (* the compiler is outside of functions; the name of the function is new, the parameters are distinct and no names of types, and there is room for them *)
  between (em s) (dc s) -> rt = TOK_INT \/ rt = TOK_VOID ->
  aget (VarLookup (dc s)) f = 0 -> NoDup ps -> (forall x, In x (f :: ps ++ svars st) -> 37 <= x) -> (forall p, In p ps -> no_type (dc s) p) -> aget (Scopes (dc s)) 0 + 5 + Z.of_nat (List.length ps) <= 380 ->
  (* the body, over the parameters and global int variables *)
  wf_stmt false st -> (forall x, In x (svars st) -> In x ps \/ exists a, global s x a) ->
  (GetToken W F ;; ParseExternalDefition W F (tie W F n)) s = Ok (x0, s') ->
  (* the definition has been read, the compiler is ready for the next one and knows where the function is *)
  stream W F (lx s') rest /\ between (em s') (dc s') /\ aget (VOff (em s')) (aget (Scopes (dc s)) 0) = CodeAddress (em s) /\
  (* called, it returns, having done what the body does *)
  forall env env' o t, sexec st env env' o -> called s s' st ps env t -> reaches (returned s st ps env' o t) t.
Proof.
  intros W F n s s' x0 rt f ps l names txt rest st HW SE SC SN NR T LN LF LB BT RT NW ND HI NT CAP WF VAR H.
  remember (htoks rt f ps ++ stoks st ++ rest) as ts eqn:ETS. destruct SN as [txt|w spl t1 txt ts TR LX SN]; [discriminate ETS|].
  assert (E0 : t1 = kw rt /\ ts = tl (htoks rt f ps) ++ stoks st ++ rest) by (unfold htoks in *; cbn [Datatypes.app tl] in *; injection ETS; auto). destruct E0 as [-> ->].
  destruct (trivia_token W F HW names s w spl (kw rt) txt TR SE SC LX T LN LF ltac:(rewrite app_length in LB; lia)) as (l' & G & S' & A' & T' & U').
  rewrite (bind_ok _ _ _ _ _ G) in H.
  assert (ST : stream W F l' (htoks rt f ps ++ stoks st ++ rest)).
  { change (htoks rt f ps) with (kw rt :: tl (htoks rt f ps)). cbn [Datatypes.app]. apply schars_app in SC as [_ SC]. apply schars_app in SC as [_ SC]. rewrite !app_length in *.
    apply (scan_stream W F HW names _ txt l' (kw rt) A' S' SC SN T' LN); lia. }
  clear ETS SN TR LX G S' A' T' U' SE SC T LN LF LB.
  assert (ES : exists body, stoks st ++ rest = kw ch_lbrace :: body) by (eexists; reflexivity). destruct ES as [body ES]. rewrite ES in ST.
  destruct (ext_open W F n rt f ps l' (em s) (dc s) x0 s' body BT RT ltac:(apply HI; left; reflexivity) ltac:(intros p I; split; [apply HI; right; apply in_or_app; auto|apply NT; exact I]) NW ST H) as (v & s1 & OP & ST1 & H1).
  rewrite <- ES in ST1. clear ES body ST H.
  assert (OP' : opened f ps v s s1) by (destruct OP; split; assumption). clear OP. pose proof OP' as [O1 O2 O3 O4 O5 O6 O7 O8 O9 O10].
  pose proof (bt_top _ _ BT) as TOP. destruct (front_ok W F (tie W F n) v ps s1 x0 s' O1 ltac:(lia) (proj2 O8) O9 O10 ltac:(intros p I; apply HI; right; apply in_or_app; auto) ND ltac:(lia) H1) as (s2 & FR & H2). clear H1.
  assert (DC : decls (svars st) (dc s2) (VOff (em s2))).
  { intros x I. split; [change TOK_ID with 187; change TOK_KEYWORD with 150; pose proof (HI x ltac:(right; apply in_or_app; auto)); lia|].
    destruct (var_exists s ps 0 x (VAR x I)) as [a A]. destruct (var_place _ _ _ _ _ _ _ _ _ OP' FR NW A) as (Loc & Val & IV & _). eauto. }
  pose proof FR as [F1 F2 F3 F4 F5 (F61 & F62 & F63) F7 F8 _ _ _ _].
  rewrite <- F1 in ST1. destruct (body_ok W F HW n st s2 x0 s' rest F2 DC F4 F5 F61 F62 ltac:(lia) ST1 NR ltac:(intro Q; discriminate Q) WF H2) as (BT' & VO & ef & STR & OU & CA & BK & MT & RUN).
  split; [exact STR|]. split; [exact BT'|]. split; [rewrite <- O4, VO, F8; [exact O2|lia]|].
  intros env env' o t X1 CL. destruct CL. cbv zeta in *.
  assert (A2 : CodeAddress (em s2) = CodeAddress (em s)) by congruence. rewrite A2 in *. rewrite CA in *.
  assert (PL : forall x a, In x (svars st) -> var_at s ps (Spec8086.sp (rg t)) x a -> a = place s2 (Spec8086.sp (rg t) - 2) x).
  { intros x a I V. destruct (var_place _ _ _ _ _ _ _ _ _ OP' FR NW V) as (_ & _ & _ & Q). apply Q; [pose proof (proj1 cl_wf0); apply H|apply (cl_var0 x a I V)]. }
  assert (VE : forall x, In x (svars st) -> var_at s ps (Spec8086.sp (rg t)) x (place s2 (Spec8086.sp (rg t) - 2) x)).
  { intros x I. destruct (var_exists s ps (Spec8086.sp (rg t)) x (VAR x I)) as [a V]. rewrite <- (PL x a I V). exact V. }
  assert (AT : forall x, In x (svars st) -> 0 <= place s2 (Spec8086.sp (rg t) - 2) x) by (intros x I; unfold place; destruct (_ =? _); apply Z.mod_pos_bound; lia).
  pose proof (bk_room _ _ BK) as RM. unfold room, CODESTART, OUTPUT_MAX in RM. pose proof (bt_room _ _ BT) as RM0. unfold room, CODESTART in RM0.
  assert (LE : CodeAddress (em s) + 3 <= CodeAddress ef).
  { assert (Q : CodeAddress (em s) <= CodeAddress (em s) + 2 < CodeAddress (put [85; 137; 229] (em s2))) by (rewrite put_addr, A2; cbn [List.length]; lia).
    destruct (mt_code _ _ _ _ MT _ Q ltac:(intros (? & ? & [] & _))). lia. }
  set (sp0 := Spec8086.sp (rg t)) in *. set (sg0 := cs (sg t)) in *.
  pose proof cl_wf0 as (WR & _ & _ & WM).
  assert (BPR : 0 <= bp (rg t) < 65536) by apply WR. assert (SPR : 0 <= sp0 < 65536) by apply WR.
  set (m0 := wr16 (mem t) sg0 (sp0 - 2) (bp (rg t))).
  assert (M0 : forall a, (forall p, sp0 - 2 <= p < sp0 -> a <> phys sg0 p) -> aget m0 a = aget (mem t) a).
  { intros a N. unfold m0. rewrite aget_wr16 by exact BPR. destruct (Z.eqb_spec (phys sg0 (sp0 - 2 + 1)) a) as [E|_]; [exfalso; apply (N (sp0 - 2 + 1)); [lia|congruence]|].
    destruct (Z.eqb_spec (phys sg0 (sp0 - 2)) a) as [E|_]; [exfalso; apply (N (sp0 - 2)); [lia|congruence]|]. reflexivity. }
  assert (M1 : forall a, 0 <= a < 65536 -> a < sp0 - 2 \/ sp0 <= a -> aget m0 (phys sg0 a) = aget (mem t) (phys sg0 a)).
  { intros a R N. apply M0. intros p P E. apply phys_in in E; lia. }
  set (K := mkmach (CodeAddress (em s)) ef (sg t) (sp0 - 2) (sp0 - 2) (sp0 - 2 - 2 * Z.of_nat (sdepth st)) (place s2 (sp0 - 2)) m0 (returned s st ps env' o t)).
  assert (KO : k_ok (svars st) (sdepth st) (dc s2) (VOff (em s2)) K).
  { split; unfold K, k_seg; cbn [k_lo k_ef k_sg k_bp k_sp k_low k_at k_m0 k_fin]; try assumption; try lia.
    - intros a R. unfold rd8. rewrite M1 by lia. pose proof (cl_code0 a) as Q. rewrite CA, OU in Q. apply Q. exact R.
    - intros t' [_ _ IP _ _ _ _ _]. rewrite IP. exact cl_ret0.
    - intros x I. destruct (cl_var0 x _ I (VE x I)) as (B1 & B2 & _). split; [apply AT; exact I|]. split; [exact B1|]. lia.
    - intros x y I J N. apply (cl_apart0 x y); auto.
    - intros x Loc Val _ IV. apply place_var. exact IV. }
  assert (FN : forall t' w, (forall w', o = Returned w' -> w mod 65536 = w' mod 65536) -> Ret (svars st) K env' w t' -> reaches (returned s st ps env' o t) t').
  { intros t' wv EW [Q1 Q2 Q3 Q4 Q5 Q6 Q7 Q8]. apply reach_now. unfold K, k_seg in *. cbn [k_sg k_sp k_bp k_m0 k_at] in *. fold sg0 in Q3, Q5, Q7. split; fold sg0 sp0.
    - exact Q1.
    - exact Q2.
    - rewrite Q5. replace (sp0 - 2 + 2) with sp0 by lia. apply rd16_frame; apply M1; lia.
    - rewrite Q4. f_equal. lia.
    - rewrite Q3. apply rd16_wr16_same; lia.
    - intros v0 E. rewrite Q6. apply EW. exact E.
    - intros x a I V. rewrite (PL x a I V), (Q7 x I). symmetry. apply signed_int. apply (keeps_range false st env env' _ WF X1 cl_env0).
    - intros a N1 N2. rewrite Q8.
      + apply M0. intros p P. apply N1. lia.
      + intros (p & R & ->). cbn [k_low k_sp K] in R. apply (N1 p); [lia|reflexivity].
      + intros (x & I & E). destruct (N2 x _ I (VE x I)). unfold k_seg in E. cbn [k_sg k_at K] in E. fold sg0 in E. tauto. }
  assert (PRO : reaches (fun t1 => t1 = mkst (mkregs (ax (rg t)) (cx (rg t)) (dx (rg t)) (bx (rg t)) (sp0 - 2) (sp0 - 2) (si (rg t)) (di (rg t))) (sg t) (CodeAddress (em s) + 3) (fl t) m0) t).
  { assert (CD : code (mem t) sg0 (CodeAddress (em s)) [85; 137; 229]).
    { rewrite <- A2. apply (put_loaded (CodeAddress (em s)) ef (em s2) (put [85; 137; 229] (em s2)) [] [85; 137; 229] (mem t) sg0 I ltac:(lia) MT eq_refl eq_refl).
      intros a R. pose proof (cl_code0 a) as Q. rewrite CA, OU in Q. apply Q. exact R. }
    replace t with (mkst (rg t) (sg t) (CodeAddress (em s)) (fl t) (mem t)) at 1 by (rewrite <- cl_ip0; destruct t; reflexivity).
    apply prologue_run; try assumption; try lia.
    - cbv zeta. fold sp0. rewrite (Z.mod_small (sp0 - 2)) by lia. apply reach_now. unfold m0. rewrite cl_ss0. reflexivity.
    - intros p P. fold sp0 sg0. split; intro E; apply phys_in in E; lia. }
  apply (reaches_wf _ _ cl_wf0) in PRO. eapply reaches_trans; [exact PRO|]. cbv beta. intros t1 [W1 E1]. clear PRO.
  change (reaches (k_fin K) t1). apply (RUN K env env' o eq_refl eq_refl KO ltac:(intros x I; unfold K; cbn [k_at k_sp]; pose proof (cl_var0 x _ I (VE x I)); lia) X1 FN); [|rewrite E1; reflexivity].
  split; unfold K, k_seg; cbn [k_sg k_bp k_sp k_at k_m0]; try (rewrite E1; reflexivity).
  - apply wf_wfr. exact W1.
  - exact cl_env0.
  - intros x I. rewrite E1. cbn [mem]. fold sg0. destruct (cl_var0 x _ I (VE x I)) as (B1 & B2 & B3). pose proof (AT x I).
    rewrite (rd16_frame (mem t) m0) by (apply M1; lia). rewrite B3. fold sg0 sp0. pose proof (rd16_ok (mem t) sg0 (place s2 (sp0 - 2) x) WM) as Q.
    unfold signed, half, modulus. destruct (_ <? _); lia.
Qed.

(** *** A case: two parameters, a global r at address 4660, a return in the middle *)
Definition c64_text : list Z := bytes_of "int f(int n, int k) { if (n>k) r=n-k; else return 9; return r; } int"%string.
Definition c64_names : list (list Z) := builtins ++ [bytes_of "f"; bytes_of "n"; bytes_of "k"; bytes_of "r"].
Definition c64_body : list stmt :=
  [SIfElse (EOp (Rel Gt) (EVar 41) (EVar 42)) (SAsn (ASet 43 (EOp (Arith Sub) (EVar 41) (EVar 42)))) (SReturn (ENum 9)); SReturn (EVar 43)].
Definition c64_env (n k r x : Z) : Z := if x =? 41 then n else if x =? 42 then k else if x =? 43 then r else 0.
Definition c64_lx : lexst := match add_builtins 16 c64_names (lx0 nil nil) with Ok (_, l) => with_input c64_text l | _ => lx0 nil nil end.
Definition c64_state : cc :=
  mkcc c64_lx (set_VOff (aset (ainit 0) 0 4660) em0)
    (set_Scopes (aset (ainit 0) 0 1) (set_VType (aset (ainit 0) 0 (VT_INT + VT_LOCGLOB)) (set_VarLookup (aset (ainit 0) 43 1) dc0))).
Definition c64_run : Base.outcome (unit * cc) := (GetToken 16 200 ;; ParseExternalDefition 16 200 (tie 16 200 60)) c64_state.
Definition c64_rest : list token := [kw TOK_INT].
Definition c64_toks : list token := htoks TOK_INT 40 [41; 42] ++ stoks (SBlock c64_body) ++ c64_rest.
Lemma c64_scan : scan c64_names c64_text c64_toks.
Proof.
  let l := eval vm_compute in c64_text in change c64_text with l.
  let l := eval vm_compute in c64_toks in change c64_toks with l.
  y_name (@nil Z) 16%nat. y_name [32] 40%nat. y_op (@nil Z) [40]. y_name (@nil Z) 16%nat. y_name [32] 41%nat. y_op (@nil Z) [44]. y_name [32] 16%nat. y_name [32] 42%nat. y_op (@nil Z) [41]. y_op [32] [123]. y_name [32] 15%nat. y_op [32] [40]. y_name (@nil Z) 41%nat. y_op (@nil Z) [62]. y_name (@nil Z) 42%nat. y_op (@nil Z) [41]. y_name [32] 43%nat. y_op (@nil Z) [61]. y_name (@nil Z) 41%nat. y_op (@nil Z) [45]. y_name (@nil Z) 42%nat. y_op (@nil Z) [59]. y_name [32] 9%nat. y_name [32] 19%nat. y_num [32] 57. y_op (@nil Z) [59]. y_name [32] 19%nat. y_name [32] 43%nat. y_op (@nil Z) [59]. y_op [32] [125]. y_name [32] 16%nat.
  constructor.
Qed.
Lemma c64_wf : wf_stmt false (SBlock c64_body).
Proof.
  unfold c64_body. cbn [wf_stmt]. split; [|split; [right; reflexivity|split; [good|split; [left; reflexivity|exact I]]]].
  split; [split; [good|left; split; reflexivity]|]. split; [split; [lia|good]|]. split; [reflexivity|good].
Qed.
Definition c64_after : cc := match c64_run with Ok (_, s) => s | _ => c64_state end.
(* the caller has pushed k = 3, n = 7 and the return address 24576 *)
Definition c64_st : Spec8086.state :=
  mkst (mkregs 1 2 3 4 65000 65100 7 8) (mksregs 4096 4096 4096 4096) 256 (mkflags false false false false)
    (load_bytes (out_bytes (Z.to_nat (CodeAddress (em c64_after) - 256)) 0 (Output (em c64_after))) (phys 4096 256)
       (load_bytes [0; 96; 7; 0; 3; 0] (phys 4096 65000) (load_bytes [5; 0] (phys 4096 4660) (mkarr 0 Leaf)))).
Lemma c64_vars x : In x (svars (SBlock c64_body)) -> x = 41 \/ x = 42 \/ x = 43.
Proof. unfold c64_body. cbn [svars act_vars flat_map vars Datatypes.app In]. lia. Qed.
Lemma c64_global : global c64_state 43 4660.
Proof. exists 0. vm_compute. repeat split; discriminate. Qed.
Lemma c64_at x a : In x (svars (SBlock c64_body)) -> var_at c64_state [41; 42] 65000 x a -> x = 41 /\ a = 65002 \/ x = 42 /\ a = 65004 \/ x = 43 /\ a = 4660.
Proof.
  intros I [(j & J & ->)|(N & v & V1 & _ & _ & _ & ->)].
  - destruct j as [|[|[|j]]]; cbn [nth_error] in J; try discriminate J; injection J as <-; cbn; auto.
  - destruct (c64_vars x I) as [-> |[-> | ->]]; [exfalso; apply N; cbn; auto|exfalso; apply N; cbn; auto|]. right. right. split; [reflexivity|].
    change (aget (VarLookup (dc c64_state)) 43) with 1 in V1. replace v with 0 by lia. reflexivity.
Qed.
Lemma c64_between : between (em c64_state) (dc c64_state).
Proof.
  split; try (vm_compute; reflexivity); try (vm_compute; discriminate).
  - vm_compute. split; discriminate.
  - intro a. change (Output (em c64_state)) with (ainit 0 : arr Z). rewrite aget_init. lia.
  - intros a _. change (Output (em c64_state)) with (ainit 0 : arr Z). rewrite aget_init. split; discriminate.
Qed.
Lemma c64_called : called c64_state c64_after (SBlock c64_body) [41; 42] (c64_env 7 3 5) c64_st.
Proof.
  split.
  - split; [vm_compute; repeat split; discriminate|]. split; [vm_compute; repeat split; discriminate|]. split; [vm_compute; repeat split; discriminate|].
    unfold c64_st. cbn [mem]. apply load_bytes_ok; [vm_compute; reflexivity|]. apply load_bytes_ok; [reflexivity|]. apply load_bytes_ok; [reflexivity|].
    intro i. change (mkarr 0 Leaf) with (ainit 0 : arr Z). rewrite aget_init. lia.
  - reflexivity.
  - reflexivity.
  - vm_compute. reflexivity.
  - intros a R. apply Z.eqb_eq. revert a R. apply range_by. vm_compute. reflexivity.
  - vm_compute. discriminate.
  - vm_compute. reflexivity.
  - right. vm_compute. discriminate.
  - intro x. unfold c64_env, int_range. destruct (x =? 41); [lia|]. destruct (x =? 42); [lia|]. destruct (x =? 43); lia.
  - intros x a I L. change (sp (rg c64_st)) with 65000 in *. destruct (c64_at x a I L) as [[-> ->]|[[-> ->]|[-> ->]]].
    + split; [lia|]. split; [right; right; lia|vm_compute; reflexivity].
    + split; [lia|]. split; [right; right; lia|vm_compute; reflexivity].
    + split; [lia|]. split; [right; left; split; [vm_compute; discriminate|vm_compute; reflexivity]|vm_compute; reflexivity].
  - intros x y a b I J N L M. change (sp (rg c64_st)) with 65000 in L, M. destruct (c64_at x a I L) as [[-> ->]|[[-> ->]|[-> ->]]], (c64_at y b J M) as [[-> ->]|[[-> ->]|[-> ->]]]; lia.
Qed.
Lemma c64_exec : exists env', sexec (SBlock c64_body) (c64_env 7 3 5) env' (Returned 4) /\ env' 43 = 4.
Proof.
  eexists. split.
  - unfold c64_body. exec1. eapply l_next.
    + apply x_then; [exists 1; split; [|reflexivity]; split; [reflexivity|a_right]|]. apply x_asn. eexists. split; [split; [reflexivity|a_right]|reflexivity].
    + apply l_out; [|discriminate]. apply x_return. split; [reflexivity|exact I].
  - reflexivity.
Qed.
Example C64_ex :
  (sees (lx c64_state) c64_text /\ schars c64_text /\ scan c64_names c64_text (htoks TOK_INT 40 [41; 42] ++ stoks (SBlock c64_body) ++ c64_rest) /\ table 16 (lx c64_state) c64_names) /\
  (between (em c64_state) (dc c64_state) /\ aget (VarLookup (dc c64_state)) 40 = 0 /\ NoDup [41; 42] /\ (forall x, In x (40 :: [41; 42] ++ svars (SBlock c64_body)) -> 37 <= x) /\
   (forall p, In p [41; 42] -> no_type (dc c64_state) p) /\ aget (Scopes (dc c64_state)) 0 + 5 + 2 <= 380) /\
  (wf_stmt false (SBlock c64_body) /\ forall x, In x (svars (SBlock c64_body)) -> In x [41; 42] \/ exists a, global c64_state x a) /\
  c64_run = Ok (tt, c64_after) /\ called c64_state c64_after (SBlock c64_body) [41; 42] (c64_env 7 3 5) c64_st /\
  (exists env', sexec (SBlock c64_body) (c64_env 7 3 5) env' (Returned 4) /\ env' 43 = 4) /\
  (* the machine returns to 24576 with AX = 4 and r = 4, BP as it was *)
  option_map (fun t => (ax (rg t), sp (rg t), bp (rg t), rd16 (mem t) 4096 4660)) (until zclear 24576 100 c64_st) = Some (4, 65002, 65100, 4).
Proof.
  assert (NM : NoDup ([] ++ c64_names)) by (apply nodup_by; vm_compute; reflexivity).
  assert (AS : ascii_b c64_text = true) by (vm_compute; reflexivity).
  destruct (add_builtins_spec 16 ltac:(lia) c64_names (lx0 nil nil) nil (table_empty 16 nil nil) NM ltac:(vm_compute; lia)) as (l & EL & TL & _).
  assert (CL : c64_lx = with_input c64_text l) by (unfold c64_lx; rewrite EL; reflexivity).
  assert (IO : (match c64_run with Ok _ => true | _ => false end) = true) by (vm_compute; reflexivity).
  assert (E : c64_run = Ok (tt, c64_after)) by (unfold c64_after; destruct c64_run as [[[] s']| | |]; try discriminate IO; reflexivity).
  clear EL. split; [|split; [|split; [|split; [exact E|split; [exact c64_called|split; [exact c64_exec|vm_compute; reflexivity]]]]]].
  - unfold c64_state. cbn [lx]. rewrite CL. split; [|split; [|split]].
    + apply with_input_sees; [apply ascii_b_ok; exact AS|apply ascii_b_ok; exact AS].
    + apply ascii_b_ok; exact AS.
    + exact c64_scan.
    + apply (table_view 16 _ l c64_names); [reflexivity|exact TL].
  - split; [exact c64_between|]. split; [reflexivity|]. split; [repeat constructor; cbn; lia|]. split.
    { intros x [<- |I]; [lia|]. apply in_app_or in I. destruct I as [[<-|[<-|[]]]|I]; try lia. pose proof (c64_vars x I). lia. }
    split; [intros p [<-|[<-|[]]]; left; reflexivity|]. vm_compute. discriminate.
  - split; [exact c64_wf|]. intros x I. destruct (c64_vars x I) as [-> |[-> | ->]]; [left; cbn; auto|left; cbn; auto|]. right. exists 4660. exact c64_global.
Qed.
(* two functions, one after the other, and whole programs *)
Example C64_programs :
  returns "int r; int f(int n, int k) { if (n>k) r=n-k; else return 9; return r; } int _start() { return f(7, 3) * 10 + f(3, 7); }" zset 4000 = Some 49 /\
  returns "int r; void f(int n) { r = r + n; } int _start() { r = 1; f(5); f(6); return r; }" zclear 4000 = Some 12.
Proof. vm_compute. auto. Qed.

Print Assumptions C64_function.
