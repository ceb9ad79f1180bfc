(** Properties C37 and C63: statements, from the text of the program to the machine.

    Reading guide.  [stmt], [stoks], [sexec] (StmtSpec.v) are C statements over int variables, how they are
    written and what they do: [sexec st env env' o], started with the values env of the variables, st ends with
    the values env', and o says how ([Normal]: control goes on behind it; [Returned v]: return with the value v).
    [scan], [sees], [table], [lies], [loaded] are as in Props_SccExpr.v.  [pStatement (tie W F n)] compiles a
    statement.  [t : state], [reaches]: the 8086 of Spec8086.v. *)
From Verif Require Import Base Bits Spec8086 SpecWf SccRun SccState SccEmit SccLex SccDecl SccExpr SccStmt SccInput SccRel SccIntern SccTok SccTok2 SccTok3 SccPut SccArith SccOps ExprSpec GroupSpec SccHold SccFix SccSem SccBin SccComp SccParse SccScan SccWhole SccWitness StmtSpec SccImg SccMach SccPiece SccStm SccProg.
From Coq Require Import String.

(** the emitter as it is at the start of the body of a function: live code, nothing postponed, no label made,
    no local variable on the stack, and no leftovers of jumps (the bytes 235 and 93) further behind the code *)
Definition begins (e : emst) : Prop :=
  live e /\ RegUse e = false /\ LocalOffset e = 0 /\ LocalLabelCounter e = 0 /\ LastFixup e <= CodeAddress e /\
  (forall a, 0 <= aget (Output e) a < 256) /\ (forall a, CodeAddress e - CODESTART + 3 <= a -> aget (Output e) a <> 235 /\ aget (Output e) a <> 93).
(** what the machine has to be like for the code between two states of the compiler *)
Record ready (s s' : cc) (st : stmt) (env : Z -> Z) (t : state) : Prop := {
  rd_wf : wf t;
  rd_ss : ss (sg t) = cs (sg t);
  rd_ds : ds (sg t) = cs (sg t);
  rd_ip : ip t = CodeAddress (em s);
  rd_code : loaded (em s) (em s') t;
  (* room on the stack above the code, and the saved BP and the return address on top of the stack *)
  rd_low : CodeAddress (em s') <= sp (rg t) - 2 * Z.of_nat (sdepth st);
  rd_top : sp (rg t) + 3 < 65536;
  rd_ret : let r := rd16 (mem t) (cs (sg t)) (sp (rg t) + 2) in r < CodeAddress (em s) \/ CodeAddress (em s') <= r;
  (* each variable has a place of its own outside all this, and its value there *)
  rd_env : env_ok env;
  rd_var : forall x a, In x (svars st) -> lies s (bp (rg t)) x a -> a + 1 < 65536 /\
    (a + 1 < CodeAddress (em s) \/ CodeAddress (em s') <= a /\ a + 1 < sp (rg t) - 2 * Z.of_nat (sdepth st) \/ sp (rg t) + 4 <= a) /\
    env x = signed true (rd16 (mem t) (cs (sg t)) a);
  rd_apart : forall x y a b, In x (svars st) -> In y (svars st) -> x <> y -> lies s (bp (rg t)) x a -> lies s (bp (rg t)) y b -> a + 1 < b \/ b + 1 < a }.
(** the machine after it *)
Record done (s s' : cc) (st : stmt) (env' : Z -> Z) (o : StmtSpec.outcome) (t t' : state) : Prop := {
  dn_wf : wf t';
  dn_sg : sg t' = sg t;
  dn_var : forall x a, In x (svars st) -> lies s (bp (rg t)) x a -> env' x = signed true (rd16 (mem t') (cs (sg t)) a);
  (* the rest of memory is as it was *)
  dn_mem : forall a, (forall p, sp (rg t) - 2 * Z.of_nat (sdepth st) <= p < sp (rg t) -> a <> phys (cs (sg t)) p) ->
    (forall x p, In x (svars st) -> lies s (bp (rg t)) x p -> a <> phys (cs (sg t)) p /\ a <> phys (cs (sg t)) (p + 1)) -> aget (mem t') a = aget (mem t) a;
  dn_end : match o with
    | Normal => ip t' = CodeAddress (em s') /\ sp (rg t') = sp (rg t) /\ bp (rg t') = bp (rg t)
    | Returned v => ip t' = rd16 (mem t) (cs (sg t)) (sp (rg t) + 2) /\ bp (rg t') = rd16 (mem t) (cs (sg t)) (sp (rg t)) /\
        sp (rg t') = (sp (rg t) + 4) mod 65536 /\ ax (rg t') = v mod 65536
    | _ => False
    end }.

(** outside loops a statement does not end with break or continue *)
Lemma no_jump b st env env' o : wf_stmt b st -> sexec st env env' o -> o = Broke \/ o = Continued -> b = true.
Proof.
  intros WF H. revert b WF. revert st env env' o H.
  apply (sexec_mut (fun st _ _ o => forall b, wf_stmt b st -> o = Broke \/ o = Continued -> b = true)
    (fun _ _ b _ _ o => o <> Broke /\ o <> Continued) (fun l _ _ o => forall b, wf_stmt b (SBlock l) -> o = Broke \/ o = Continued -> b = true)); intros;
  repeat match goal with Q : leaves ?o _ |- _ => destruct o; cbn [leaves] in Q; try contradiction; subst; clear Q end;
  repeat match goal with Q : goes_on _ |- _ => clear Q end;
  try (match goal with Q : Normal = Broke \/ Normal = Continued |- _ => destruct Q; discriminate end);
  try (match goal with Q : Returned _ = Broke \/ Returned _ = Continued |- _ => destruct Q; discriminate end);
  try (split; discriminate); try assumption.
  - destruct H2 as [_ H2]. eauto.
  - destruct H2 as (_ & H2 & _). eauto.
  - destruct H2 as (_ & _ & _ & H2). eauto.
  - eauto.
  - eauto.
  - destruct H1 as [A B]. tauto.
  - exact (H0 b H1 H2).
  - destruct H3 as (_ & _ & H3). exact (H2 b H3 H4).
  - destruct H2 as (H2 & _). eauto.
Qed.

(** the values stay in the range of int *)
Lemma value_range env e v : good_exp e -> env_ok env -> value env e v -> int_range v.
Proof. intros [WF _] EO [EV _]. exact (eval_range env e v EO WF EV). Qed.
Lemma assign_range env x v : env_ok env -> int_range v -> env_ok (assign env x v).
Proof. intros EO R y. unfold assign. destruct (y =? x); [exact R|apply EO]. Qed.
Lemma act_range a env env' : good_act a -> env_ok env -> act_step a env env' -> env_ok env'.
Proof.
  intros G EO. destruct a as [x e|o x e|pre up x]; cbn [good_act act_step] in *.
  - intros (v & V & ->). apply assign_range; [exact EO|exact (value_range env e v (proj2 G) EO V)].
  - intros (b & v & V & A & _ & ->). apply assign_range; [exact EO|]. exact (apply_range (Arith o) _ _ v (EO x) (value_range env e b (proj1 (proj2 G)) EO V) A).
  - intros (v & A & ->). apply int16_some in A. destruct A as [-> R]. apply assign_range; [exact EO|exact R].
Qed.
Lemma astep_range a env env' : good_asn a -> env_ok env -> astep a env env' -> env_ok env'.
Proof. destruct a as [a|]; cbn [good_asn astep]; [apply act_range|intros _ EO ->; exact EO]. Qed.
Lemma keeps_range b st env env' o : wf_stmt b st -> sexec st env env' o -> env_ok env -> env_ok env'.
Proof.
  intros WF H. revert b WF. revert st env env' o H.
  apply (sexec_mut (fun st env env' _ => forall b, wf_stmt b st -> env_ok env -> env_ok env')
    (fun _ s b env env' _ => forall l, wf_stmt l b -> good_asn s -> env_ok env -> env_ok env')
    (fun l env env' _ => forall b, wf_stmt b (SBlock l) -> env_ok env -> env_ok env')); intros; auto.
  - exact (act_range _ _ _ H0 H1 H).
  - destruct H2 as [_ H2]. eauto.
  - destruct H2 as (_ & H2 & _). eauto.
  - destruct H2 as (_ & _ & _ & H2). eauto.
  - destruct H3 as [_ H3]. eauto.
  - pose proof H5 as [_ W1]. eauto.
  - destruct H2 as [_ H2]. eauto.
  - destruct H3 as [_ H3]. eauto.
  - pose proof H5 as [_ W1]. eauto.
  - destruct H2 as (G & _ & G2 & W1). apply (H1 true); auto. exact (astep_range _ _ _ G H3 H).
  - exact (H0 b H1 H2).
  - eauto.
  - apply (H5 l); auto. eapply astep_range; [exact H7|eapply H1; eassumption|exact H3].
  - destruct H3 as (W1 & _ & W2). apply (H2 b W2). eapply H0; eassumption.
  - destruct H2 as (W1 & _). eauto.
Qed.

(** where the compiler says a variable is *)
Definition place (s : cc) (bp x : Z) : Z :=
  let v := aget (VarLookup (dc s)) x - 1 in
  if aget (VType (dc s)) v =? VT_INT + VT_LOCOFF then (bp + aget (VOff (em s)) v) mod 65536 else aget (VOff (em s)) v mod 65536.
Lemma place_var s b x Loc Val : int_var (dc s) (VOff (em s)) x Loc Val -> place s b x = if Loc =? VT_LOCOFF then (b + Val) mod 65536 else aget (VOff (em s)) Val mod 65536.
Proof.
  intros (_ & E & C). unfold place. cbv zeta in E. rewrite E. destruct C as [[-> ->]|(-> & -> & _)].
  - change (VT_INT + VT_LOCOFF =? VT_INT + VT_LOCOFF) with true. change (VT_LOCOFF =? VT_LOCOFF) with true. reflexivity.
  - change (VT_INT + VT_LOCGLOB =? VT_INT + VT_LOCOFF) with false. change (VT_LOCGLOB =? VT_LOCOFF) with false. reflexivity.
Qed.
Lemma lies_place s b x a : lies s b x a -> a = place s b x.
Proof. intros (Loc & Val & IV & ->). symmetry. apply place_var. exact IV. Qed.

Lemma begins_book e : begins e -> Book e [].
Proof.
  intros (LV & _ & _ & C & LF & BO & AF). split.
  - intro a. apply BO.
  - apply LV.
  - exact LF.
  - lia.
  - intros l L. lia.
  - intros l s [].
  - exact I.
  - intros l c r [].
  - intros a L. unfold byte. apply AF. lia.
  - intros l r [].
  - intros l s [].
Qed.

(** ** C63: statements compile to code that does what they mean *)
Theorem C63_statement : forall W F n s s' x0 st names cs rest,
  16 <= W ->
  (* the text: the statement, and something that does not begin with an else that would belong to it *)
  sees (lx s) cs -> schars cs -> scan names cs (stoks st ++ rest) -> rest <> [] -> no_else st rest ->
  table W (lx s) names -> (List.length names <= 580)%nat -> (2 * List.length cs + 1 < F)%nat -> IdBufPtr (lx s) + Z.of_nat (List.length cs) < 5000 ->
  (* the statement, over int variables that are declared *)
  wf_stmt false st -> decls (svars st) (dc s) (VOff (em s)) ->
  (* the compiler is at the start of the body of a function, and compiles it *)
  begins (em s) -> NextSwitchCase (dc s) < 0 ->
  (GetToken W F ;; pStatement (tie W F n)) s = Ok (x0, s') ->
  stream W F (lx s') rest /\
  forall env env' o t, sexec st env env' o -> ready s s' st env t -> reaches (done s s' st env' o t) t.
Proof.
  intros W F n s s' x0 st names txt rest HW SE SC SN NR NE T LN LF LB WF DC BG NC H.
  destruct (stoks_first (svars st) st ltac:(intros x I; exact I) ltac:(intros x I; apply DC; exact I)) as (t0 & tl & ET & _).
  remember (stoks st ++ rest) as ts eqn:ETS. destruct SN as [txt|w spl t1 txt ts TR LX SN]; [rewrite ET in ETS; discriminate|].
  assert (E0 : t1 = t0 /\ ts = tl ++ rest) by (rewrite ET in ETS; cbn [Datatypes.app] in ETS; injection ETS; auto). destruct E0 as [-> ->].
  destruct (trivia_token W F HW names s w spl t0 txt TR SE SC LX T LN LF ltac:(rewrite app_length in LB; lia)) as (l' & G & S' & A' & T' & U').
  rewrite (bind_ok _ _ _ _ _ G) in H.
  assert (ST : stream W F l' (stoks st ++ rest)).
  { rewrite ET. cbn [Datatypes.app]. apply schars_app in SC as [_ SC]. apply schars_app in SC as [_ SC]. rewrite !app_length in *.
    apply (scan_stream W F HW names (tl ++ rest) txt l' t0 A' S' SC SN T' LN); lia. }
  clear ETS SN TR LX G S' A' T' U' SE SC T LN LF LB ET.
  assert (PR : Pre (svars st) 0 false (em s) (dc s) []).
  { split; [apply begins_book; exact BG|apply BG|apply BG|apply BG|exact DC|exact NC|discriminate|intro Q; contradiction]. }
  destruct (stmt_ok W F HW (svars st) (sdepth st) 0 n false st l' (em s) (dc s) [] x0 s' rest PR WF ltac:(intros x I; exact I) ltac:(lia) ST NR NE H)
    as (l2 & e' & d' & P' & -> & ST' & _ & [BK SL BA _ _ MK] & _ & RUN).
  assert (P' = []) as ->.
  { destruct P' as [|[k x] P']; [reflexivity|]. destruct (MK k x (or_introl eq_refl)) as [[]|[]]. }
  clear H PR. split; [exact ST'|]. intros env env' o t X1 RD. cbn [lx em dc] in *. destruct RD. cbv zeta in *.
  pose proof (proj2 (proj2 (proj1 BG))) as RM. unfold room, CODESTART in RM.
  set (K := mkmach (CodeAddress (em s)) e' (sg t) (bp (rg t)) (Spec8086.sp (rg t)) (Spec8086.sp (rg t) - 2 * Z.of_nat (sdepth st)) (place s (bp (rg t))) (mem t) (done s (mkcc l2 e' d') st env' o t)).
  assert (LY : forall x, In x (svars st) -> lies s (bp (rg t)) x (place s (bp (rg t)) x)).
  { intros x I. destruct (DC x I) as (_ & Loc & Val & IV). exists Loc, Val. split; [exact IV|apply place_var; exact IV]. }
  assert (NJ : o <> Broke /\ o <> Continued).
  { split; intros ->; pose proof (no_jump false st env env' _ WF X1 ltac:(auto)); discriminate. }
  assert (KO : k_ok (svars st) (sdepth st) (dc s) (VOff (em s)) K).
  { split; unfold K, k_seg; cbn [k_lo k_ef k_sg k_bp k_sp k_low k_at k_m0 k_fin]; try assumption; try lia.
    - intros t' [_ _ _ _ E]. cbn [em] in E. destruct o; try contradiction; [right; lia|]. destruct E as (-> & _). exact rd_ret0.
    - intros x I. destruct (rd_var0 x _ I (LY x I)) as (B1 & B2 & _). cbn [em] in B2. split; [|split; [exact B1|lia]]. unfold place. destruct (_ =? _); apply Z.mod_pos_bound; lia.
    - intros x y I J N. apply (rd_apart0 x y); auto.
    - intros x Loc Val _ IV. apply place_var. exact IV. }
  assert (IN : Into (svars st) (sdepth st) (dc s) (em s) e' [] K).
  { split; [exact KO|]. split; [unfold K; cbn [k_lo]; lia|]. unfold K. cbn [k_lo k_ef]. apply match_self; [exact BK|lia]. }
  assert (V0 : forall x, In x (svars st) -> rd16 (mem t) (cs (sg t)) (place s (bp (rg t)) x) = env x mod 65536).
  { intros x I. destruct (rd_var0 x _ I (LY x I)) as (_ & _ & ->). pose proof (rd16_ok (mem t) (cs (sg t)) (place s (bp (rg t)) x) ltac:(apply rd_wf0)) as Q.
    unfold signed, half, modulus. destruct (_ <? _); lia. }
  assert (MEM : forall m', (forall a, ~ kzone K a -> ~ vbyte (svars st) K a -> aget m' a = aget (mem t) a) ->
    forall a, (forall p, Spec8086.sp (rg t) - 2 * Z.of_nat (sdepth st) <= p < Spec8086.sp (rg t) -> a <> phys (cs (sg t)) p) ->
    (forall x p, In x (svars st) -> lies s (bp (rg t)) x p -> a <> phys (cs (sg t)) p /\ a <> phys (cs (sg t)) (p + 1)) -> aget m' a = aget (mem t) a).
  { intros m' Q a Z1 Z2. apply Q.
    - intros (p & R & ->). apply (Z1 p); [exact R|reflexivity].
    - intros (x & I & E). destruct (Z2 x _ I (LY x I)) as [N1 N2]. unfold K, k_seg in E. cbn [k_sg k_at] in E. tauto. }
  refine (RUN K env env' o IN X1 _ t _ rd_ip0).
  - destruct o as [| | |v].
    + intros t' [Q1 Q2 Q3 Q4 Q5 Q6 Q7] IP. apply reach_now. split; [|exact Q2| |exact (MEM _ Q7)|split; [exact IP|split; assumption]].
      { apply (wfr_wf _ _ Q1 IP). pose proof (bk_room _ _ BK) as R. unfold room, CODESTART, OUTPUT_MAX in R. lia. }
      intros x a I L. rewrite (lies_place _ _ _ _ L). unfold K, k_seg in Q6. cbn [k_at k_sg] in Q6. rewrite Q6 by exact I. symmetry. apply signed_int. apply Q5.
    + tauto.
    + tauto.
    + split; [intros x I; unfold K; cbn [k_at k_sp]; pose proof (rd_var0 x _ I (LY x I)) as Q; pose proof rd_low0 as Q2; cbn [em] in Q, Q2; pose proof (proj1 (proj2 BA (CodeAddress (em s)) (floor_live _ _ _ (proj1 (proj1 BG)) (Z.le_refl _)))); lia|]. intros t' [Q1 Q2 Q3 Q4 Q5 Q6 Q7 Q8]. apply reach_now. split; [exact Q1|exact Q2| |exact (MEM _ Q8)|]; [|split; [exact Q5|split; [exact Q3|split; [exact Q4|exact Q6]]]].
      intros x a I L. rewrite (lies_place _ _ _ _ L). unfold K, k_seg in Q7. cbn [k_at k_sg] in Q7. rewrite Q7 by exact I. symmetry. apply signed_int. apply (keeps_range false st env env' _ WF X1 rd_env0).
  - split; unfold K, k_seg; cbn [k_sg k_bp k_sp k_at k_m0]; auto. apply wf_wfr. exact rd_wf0.
Qed.

(** *** A case: a parameter n at BP+4 and a global r at address 4660; the factorial of n, with a loop, a condition
    that leaves it, and a return *)
Definition c63_text : list Z := bytes_of "{ r=1; while (n>1) { if (n==7) break; else r*=n; n--; } return r; } int"%string.
Definition c63_names : list (list Z) := builtins ++ [bytes_of "n"; bytes_of "r"].
Definition c63_loop : stmt :=
  SWhile (EOp (Rel Gt) (EVar 40) (ENum 1))
    (SBlock [SIfElse (EOp (Rel Eq) (EVar 40) (ENum 7)) SBreak (SAsn (AOp Mul 41 (EVar 40))); SAsn (AInc false false 40)]).
Definition c63_stmt : stmt := SBlock [SAsn (ASet 41 (ENum 1)); c63_loop; SReturn (EVar 41)].
Definition c63_env (n r x : Z) : Z := if x =? 40 then n else if x =? 41 then r else 0.
Definition c63_lx : lexst := match add_builtins 16 c63_names (lx0 nil nil) with Ok (_, l) => with_input c63_text l | _ => lx0 nil nil end.
Definition c63_state : cc :=
  mkcc c63_lx (set_VOff (aset (aset (ainit 0) 0 4) 1 4660) em0)
    (set_VType (aset (aset (ainit 0) 0 (VT_INT + VT_LOCOFF)) 1 (VT_INT + VT_LOCGLOB)) (set_VarLookup (aset (aset (ainit 0) 40 1) 41 2) dc0)).
Definition c63_run : Base.outcome (unit * cc) := (GetToken 16 200 ;; pStatement (tie 16 200 60)) c63_state.

Lemma longest_by op cs : forallb (fun o => negb (list_eqb (firstn (List.length (fst (fst o))) cs) (fst (fst o))) || (List.length (fst (fst o)) <=? List.length op)%nat) ops = true -> longest op cs.
Proof.
  intros H op' t p r I E. rewrite forallb_forall in H. specialize (H _ I). cbn [fst] in H. apply orb_true_iff in H. destruct H as [H|H].
  - apply negb_true_iff in H. subst cs. rewrite firstn_app, Nat.sub_diag, firstn_all, app_nil_r in H.
    assert (list_eqb op' op' = true) by (clear; induction op' as [|x l IH]; cbn [list_eqb]; [reflexivity|]; rewrite Z.eqb_refl; exact IH). congruence.
  - apply Nat.leb_le in H. exact H.
Qed.
Ltac y_blanks := repeat first [apply tr_nil|apply tr_blank; [lia|]].
Ltac y_op w sp := apply (scan_tok _ w sp); [y_blanks|apply lex_op; [vm_compute; tauto|apply longest_by; vm_compute; reflexivity|try discriminate; try (intros _; split; discriminate)|try discriminate; try (intros _; discriminate)]|].
Ltac y_name w i := match goal with |- scan ?n _ _ => let sp := eval vm_compute in (nth i n []) in apply (scan_tok n w sp); [y_blanks|apply (lex_name n _ _ _ i); [reflexivity|repeat constructor|reflexivity|vm_compute; reflexivity]|] end.
Ltac y_num w c := apply (scan_tok _ w [c]); [y_blanks|apply (lex_num _ c 10 [] [] _); [right; split; [lia|split; reflexivity]|apply Forall_nil|cbn; lia|intros _; split; [reflexivity|intros _; split; discriminate]|vm_compute; split; [discriminate|reflexivity]]|].
Definition c63_rest : list token := [kw TOK_INT].
Lemma c63_scan : scan c63_names c63_text (stoks c63_stmt ++ c63_rest).
Proof.
  let l := eval vm_compute in c63_text in change c63_text with l.
  let l := eval vm_compute in (stoks c63_stmt ++ c63_rest) in change (stoks c63_stmt ++ c63_rest) with l.
  y_op (@nil Z) [123]. y_name [32] 41%nat. y_op (@nil Z) [61]. y_num (@nil Z) 49. y_op (@nil Z) [59]. y_name [32] 31%nat. y_op [32] [40]. y_name (@nil Z) 40%nat. y_op (@nil Z) [62]. y_num (@nil Z) 49. y_op (@nil Z) [41]. y_op [32] [123]. y_name [32] 15%nat. y_op [32] [40]. y_name (@nil Z) 40%nat. y_op (@nil Z) [61; 61]. y_num (@nil Z) 55. y_op (@nil Z) [41]. y_name [32] 1%nat. y_op (@nil Z) [59]. y_name [32] 9%nat. y_name [32] 41%nat. y_op (@nil Z) [42; 61]. y_name (@nil Z) 40%nat. y_op (@nil Z) [59]. y_name [32] 40%nat. y_op (@nil Z) [45; 45]. y_op (@nil Z) [59]. y_op [32] [125]. y_name [32] 19%nat. y_name [32] 41%nat. y_op (@nil Z) [59]. y_op [32] [125]. y_name [32] 16%nat.
  constructor.
Qed.
Ltac a_right := cbn [right]; repeat apply conj; try exact I; right; intros vx vy VX VY; cbn in VX, VY; injection VX as <-; injection VY as <-; cbn [right_op constant];
  repeat apply conj; try exact I; intro VC; discriminate.
Ltac val := split; [cbn; reflexivity|a_right || exact I].
Ltac good := split; [vm_compute; intuition discriminate|exists (fun _ => 2); eexists; split; [intro; lia|val]].
Lemma c63_wf : wf_stmt false c63_stmt.
Proof.
  unfold c63_stmt, c63_loop. cbn [wf_stmt]. split; [split; [lia|good]|]. split; [right; reflexivity|]. split; [|split; [right; reflexivity|split; [good|split; [left; reflexivity|exact I]]]].
  split; [split; [good|left; split; reflexivity]|]. split; [|split; [right; reflexivity|split; [cbn [good_act]; lia|split; [left; reflexivity|exact I]]]].
  split; [split; [good|left; split; reflexivity]|]. split; [reflexivity|]. split; [reflexivity|]. split; [lia|]. split; [good|].
  exists (fun _ => 2). eexists. split; [intro; lia|]. exists 2, 4. split; [split; [reflexivity|exact I]|]. split; [reflexivity|]. split; [split; discriminate|reflexivity].
Qed.
Ltac exec1 := match goal with
  | |- sexecs [] _ _ _ => apply l_end
  | |- sexecs [_] _ _ (Returned _) => apply l_out; [|discriminate]
  | |- sexecs (_ :: _) _ _ _ => eapply l_next
  | |- sexec (SBlock _) _ _ _ => apply x_block
  | |- sexec (SAsn (ASet _ _)) _ _ _ => apply x_asn; eexists; split; [val|reflexivity]
  | |- sexec (SReturn _) _ _ _ => apply x_return; val
  end.
Lemma c63_turn env : env 40 = 3 /\ env 41 = 1 \/ env 40 = 2 /\ env 41 = 3 ->
  forall env' o, sexec c63_loop (assign (assign env 41 (env 41 * env 40)) 40 (env 40 - 1)) env' o -> sexec c63_loop env env' o.
Proof.
  intros A env' o H. unfold c63_loop. eapply x_while; [| |left; reflexivity|exact H].
  - exists 1. split; [|reflexivity]. split; [|a_right]. cbn. destruct A as [[-> _]|[-> _]]; reflexivity.
  - exec1. eapply l_next.
    + apply x_else.
      * exists 0. split; [|reflexivity]. split; [|a_right]. cbn. destruct A as [[-> _]|[-> _]]; reflexivity.
      * apply x_asn. exists (env 40), (env 41 * env 40). split; [split; [reflexivity|exact I]|]. split; [destruct A as [[-> ->]|[-> ->]]; reflexivity|]. split; [split; discriminate|reflexivity].
    + eapply l_next; [|apply l_end]. apply x_asn. exists (env 40 - 1). split; [|reflexivity]. unfold assign. cbn. destruct A as [[-> _]|[-> _]]; reflexivity.
Qed.
Lemma c63_exec : exists env', sexec c63_stmt (c63_env 3 0) env' (Returned 6) /\ env' 40 = 1 /\ env' 41 = 6.
Proof.
  eexists. split; [|split].
  - unfold c63_stmt. exec1. eapply l_next; [exec1|]. eapply l_next.
    + eapply c63_turn; [left; split; reflexivity|]. eapply c63_turn; [right; split; reflexivity|].
      apply x_while_end. exists 0. split; [|reflexivity]. split; [reflexivity|a_right].
    + apply l_out; [|discriminate]. apply x_return. split; [reflexivity|exact I].
  - reflexivity.
  - reflexivity.
Qed.
Definition c63_after : cc := match c63_run with Ok (_, s) => s | _ => c63_state end.
Definition c63_st : state :=
  mkst (mkregs 1 2 3 4 65000 65000 7 8) (mksregs 4096 4096 4096 4096) 256 (mkflags false false false false)
    (load_bytes (out_bytes (Z.to_nat (CodeAddress (em c63_after) - 256)) 0 (Output (em c63_after))) (phys 4096 256)
       (load_bytes [52; 18; 0; 96; 3; 0] (phys 4096 65000) (load_bytes [0; 0] (phys 4096 4660) (mkarr 0 Leaf)))).
Fixpoint until (u : flags) (a : Z) (n : nat) (s : state) : option state :=
  match n with O => None | S n => if ip s =? a then Some s else match step u s with Some s' => until u a n s' | None => None end end.
Lemma load_bytes_ok bs : forall a m, forallb (fun b => (0 <=? b) && (b <? 256)) bs = true -> mem_ok m -> mem_ok (load_bytes bs a m).
Proof.
  induction bs as [|b bs IH]; intros a m H MO; cbn [load_bytes]; [exact MO|]. cbn [forallb] in H. apply andb_prop in H. destruct H as [H1 H2].
  apply IH; [exact H2|]. intro i. destruct (Z.eq_dec i a) as [->|N]; [rewrite aget_aset_same|rewrite aget_aset_other by congruence; apply MO].
  apply andb_prop in H1. destruct H1 as [A B]. apply Z.leb_le in A. apply Z.ltb_lt in B. lia.
Qed.
Lemma range_by lo hi (P : Z -> bool) : forallb P (map (fun n => lo + Z.of_nat n) (seq 0 (Z.to_nat (hi - lo)))) = true -> forall a, lo <= a < hi -> P a = true.
Proof.
  intros H a R. rewrite forallb_forall in H. apply H. apply in_map_iff. exists (Z.to_nat (a - lo)). split; [lia|]. apply in_seq. lia.
Qed.
Lemma c63_lies x a : In x (svars c63_stmt) -> lies c63_state 65000 x a -> x = 40 /\ a = 65004 \/ x = 41 /\ a = 4660.
Proof.
  intros I L. apply lies_place in L. subst a. cbn [svars act_vars c63_stmt c63_loop flat_map vars Datatypes.app In] in I.
  repeat (destruct I as [<-|I]; [vm_compute; tauto|]). destruct I.
Qed.
Lemma c63_decls : decls (svars c63_stmt) (dc c63_state) (VOff (em c63_state)).
Proof.
  intros x I. assert (Q : x = 40 \/ x = 41) by (cbn [svars act_vars c63_stmt c63_loop flat_map vars Datatypes.app In] in I; lia). clear I.
  destruct Q as [-> | ->]; (split; [vm_compute; discriminate|]).
  - exists VT_LOCOFF, 4. split; [vm_compute; discriminate|]. split; [vm_compute; reflexivity|]. left. vm_compute. auto.
  - exists VT_LOCGLOB, 1. split; [vm_compute; discriminate|]. split; [vm_compute; reflexivity|]. right. vm_compute. repeat split; discriminate.
Qed.
Lemma c63_begins : begins (em c63_state).
Proof.
  split; [vm_compute; repeat split; discriminate|]. split; [reflexivity|]. split; [reflexivity|]. split; [reflexivity|]. split; [vm_compute; discriminate|].
  split; intros a; [|intros _]; change (Output (em c63_state)) with (ainit 0 : arr Z); rewrite aget_init; [lia|split; discriminate].
Qed.
Lemma c63_ready : ready c63_state c63_after c63_stmt (c63_env 3 0) c63_st.
Proof.
  split.
  - split; [vm_compute; repeat split; discriminate|]. split; [vm_compute; repeat split; discriminate|]. split; [vm_compute; repeat split; discriminate|].
    unfold c63_st. cbn [mem]. apply load_bytes_ok; [vm_compute; reflexivity|]. apply load_bytes_ok; [reflexivity|]. apply load_bytes_ok; [reflexivity|].
    intro i. change (mkarr 0 Leaf) with (ainit 0 : arr Z). rewrite aget_init. lia.
  - reflexivity.
  - reflexivity.
  - vm_compute. reflexivity.
  - intros a R. apply Z.eqb_eq. revert a R. apply range_by. vm_compute. reflexivity.
  - vm_compute. discriminate.
  - vm_compute. reflexivity.
  - right. vm_compute. discriminate.
  - intro x. unfold c63_env, int_range. destruct (x =? 40); [lia|]. destruct (x =? 41); lia.
  - intros x a I L. change (bp (rg c63_st)) with 65000 in L. destruct (c63_lies x a I L) as [[-> ->]|[-> ->]].
    + split; [lia|]. split; [right; right; vm_compute; discriminate|vm_compute; reflexivity].
    + split; [lia|]. split; [right; left; split; [vm_compute; discriminate|vm_compute; reflexivity]|vm_compute; reflexivity].
  - intros x y a b I J N L M. change (bp (rg c63_st)) with 65000 in L, M. destruct (c63_lies x a I L) as [[-> ->]|[-> ->]], (c63_lies y b J M) as [[-> ->]|[-> ->]]; lia.
Qed.
Lemma nodup_by (l : list (list Z)) : (fix nd l := match l with [] => true | x :: r => negb (existsb (list_eqb x) r) && nd r end) l = true -> NoDup l.
Proof.
  induction l as [|x r IH]; intro H; constructor; apply andb_prop in H; destruct H as [H1 H2]; [|exact (IH H2)].
  intro I. apply negb_true_iff in H1. assert (H : existsb (list_eqb x) r = true); [|congruence]. apply existsb_exists. exists x. split; [exact I|].
  clear. induction x as [|y x IH]; cbn [list_eqb]; [reflexivity|]; rewrite Z.eqb_refl; exact IH.
Qed.
Definition ascii_b (l : list Z) : bool := forallb (fun c => (0 <? c) && (c <? 128)) l.
Lemma ascii_b_ok l : ascii_b l = true -> schars l /\ nz (tl l).
Proof.
  intro H. unfold ascii_b in H. rewrite forallb_forall in H. assert (A : forall c, In c l -> 0 < c < 128).
  { intros c I. specialize (H c I). apply andb_prop in H. destruct H as [H1 H2]. apply Z.ltb_lt in H1, H2. lia. }
  split; [apply Forall_forall; intros c I; specialize (A c I); lia|]. destruct l as [|c l]; [constructor|].
  apply Forall_forall. intros d I. specialize (A d (or_intror I)). lia.
Qed.
Example C63_ex :
  (sees (lx c63_state) c63_text /\ schars c63_text /\ scan c63_names c63_text (stoks c63_stmt ++ c63_rest) /\ no_else c63_stmt c63_rest /\ table 16 (lx c63_state) c63_names) /\
  (wf_stmt false c63_stmt /\ decls (svars c63_stmt) (dc c63_state) (VOff (em c63_state)) /\ begins (em c63_state) /\ NextSwitchCase (dc c63_state) < 0) /\
  c63_run = Ok (tt, c63_after) /\ ready c63_state c63_after c63_stmt (c63_env 3 0) c63_st /\
  (exists env', sexec c63_stmt (c63_env 3 0) env' (Returned 6) /\ env' 40 = 1 /\ env' 41 = 6) /\
  (* the machine returns to 24576 with AX = 6, r = 6 and n = 1, BP from the stack *)
  option_map (fun t => (ax (rg t), sp (rg t), bp (rg t), rd16 (mem t) 4096 4660, rd16 (mem t) 4096 65004)) (until zclear 24576 100 c63_st) = Some (6, 65004, 4660, 6, 1).
Proof.
  assert (NM : NoDup ([] ++ c63_names)) by (apply nodup_by; vm_compute; reflexivity).
  assert (AS : ascii_b c63_text = true) by (vm_compute; reflexivity).
  destruct (add_builtins_spec 16 ltac:(lia) c63_names (lx0 nil nil) nil (table_empty 16 nil nil) NM ltac:(vm_compute; lia)) as (l & EL & TL & _).
  assert (CL : c63_lx = with_input c63_text l) by (unfold c63_lx; rewrite EL; reflexivity).
  assert (IO : (match c63_run with Ok _ => true | _ => false end) = true) by (vm_compute; reflexivity).
  assert (E : c63_run = Ok (tt, c63_after)) by (unfold c63_after; destruct c63_run as [[[] s']| | |]; try discriminate IO; reflexivity).
  clear EL. split; [|split; [|split; [exact E|split; [exact c63_ready|split; [exact c63_exec|vm_compute; reflexivity]]]]].
  - unfold c63_state. cbn [lx]. rewrite CL. split; [|split; [|split; [|split]]].
    + apply with_input_sees; [apply ascii_b_ok; exact AS|apply ascii_b_ok; exact AS].
    + apply ascii_b_ok; exact AS.
    + exact c63_scan.
    + intro Q. discriminate Q.
    + apply (table_view 16 _ l c63_names); [reflexivity|exact TL].
  - split; [exact c63_wf|]. split; [exact c63_decls|]. split; [exact c63_begins|]. vm_compute. reflexivity.
Qed.
(* whole programs *)
Example C63_programs :
  returns "int r; int f(int n) { r=1; while (n>1) { if (n==7) break; else r*=n; n--; } return r; } int _start() { return f(6); }" zset 4000 = Some 720 /\
  returns "int s; int i; int f(int n) { for (i = 0; i != n; i = i + 1) { if (i % 3 == 0) continue; if (i > 20) break; s = s + i; } do { s = s - 1; } while (s > 77); return s; } int _start() { s = 0; return f(100); }" zset 4000 = Some 77.
Proof. vm_compute. auto. Qed.

(** ** C37: stack frames *)
(** after a statement the stack pointer and the frame pointer are what they were, whatever jumps were taken in it;
    a return pops exactly the saved frame pointer and the return address.
    Missing for the whole property: statements with declarations of local variables in them, switch, goto. *)
Theorem C37_frame_partial : forall W F n s s' x0 st names cs rest,
  16 <= W ->
  sees (lx s) cs -> schars cs -> scan names cs (stoks st ++ rest) -> rest <> [] -> no_else st rest ->
  table W (lx s) names -> (List.length names <= 580)%nat -> (2 * List.length cs + 1 < F)%nat -> IdBufPtr (lx s) + Z.of_nat (List.length cs) < 5000 ->
  wf_stmt false st -> decls (svars st) (dc s) (VOff (em s)) -> begins (em s) -> NextSwitchCase (dc s) < 0 ->
  (GetToken W F ;; pStatement (tie W F n)) s = Ok (x0, s') ->
  forall env env' o t, sexec st env env' o -> ready s s' st env t ->
  reaches (fun t' =>
    ip t' = CodeAddress (em s') /\ sp (rg t') = sp (rg t) /\ bp (rg t') = bp (rg t) \/
    ip t' = rd16 (mem t) (Spec8086.cs (sg t)) (sp (rg t) + 2) /\ sp (rg t') = (sp (rg t) + 4) mod 65536 /\ bp (rg t') = rd16 (mem t) (Spec8086.cs (sg t)) (sp (rg t))) t.
Proof.
  intros W F n s s' x0 st names txt rest HW SE SC SN NR NE T LN LF LB WF DC BG NC H env env' o t X1 RD.
  destruct (C63_statement W F n s s' x0 st names txt rest HW SE SC SN NR NE T LN LF LB WF DC BG NC H) as [_ Q].
  eapply reaches_imp; [exact (Q env env' o t X1 RD)|]. cbv beta. intros t' [_ _ _ _ E]. destruct o; try contradiction; tauto.
Qed.
(** the property is false of switch: the declaration in front of the first case is jumped over at run time, but its
    place on the stack is given back at the end of the block, and the function returns to nowhere *)
Definition c37_switch (decl : string) : string :=
  ("int g; int f(int a) { g = 0; switch (a) { " ++ decl ++ " case 1: y = 5; g = y; break; } return g; } int _start() { return f(1); }")%string.
Theorem C37_switch_refuted : code_of (c37_switch "int y;") <> None /\ returns (c37_switch "int y;") zset 1000 = None /\ returns ("int y; " ++ c37_switch "") zset 1000 = Some 5.
Proof. split; [intro Q; vm_compute in Q; discriminate Q|]. split; vm_compute; reflexivity. Qed.

Print Assumptions C63_statement.
Print Assumptions C37_frame_partial.
Print Assumptions C37_switch_refuted.
