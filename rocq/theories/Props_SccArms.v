(** Property C74: comparisons as operands of a conditional expression.

    Reading guide.  The value of a comparison is not in a register, but in the flags: CurrentType is VT_BOOL then, and
    CurrentVal the condition code that tells whether it holds.  HandleCondOp (scc.c:2346-2383) makes both operands
    ready with ForceToReg (scc.c:2311-2325), which does nothing to such a value, and after "c ? a : b" CurrentVal is the
    code of b, whichever operand was evaluated.  If c holds, it is the code of a, the k of the theorem, that tells
    whether a holds; the expression is right only if that happens to give the same.
    [tern_toks c a b], [test], [ready], [done] and [arms] are as for C71 (Props_SccTern.v), [Spec8086.cond] is the meaning of a
    condition code on the 8086 (Spec8086.v), [returns] what the compiled program returns (Props_SccCond.v). *)
From Verif Require Import Base Bits Spec8086 SpecWf SccRun SccState SccEmit SccLex SccDecl SccExpr SccStmt SccInput SccRel SccIntern SccTok SccTok2 SccTok3 SccPut SccArith SccOps ExprSpec GroupSpec SccHold SccFix SccSem SccBin SccComp SccParse SccScan SccWhole SccWitness StmtSpec SccImg SccMach SccPiece SccStm SccProg SccTern SccArms Props_SccExpr Props_SccFun Props_SccStmt Props_SccCond Props_SccTern Props_SccJoin.
From Coq Require Import String.
Open Scope list_scope.
Open Scope Z_scope.

(** ** C74: which condition code tells the truth of c ? a : b *)
Theorem C74_code : forall W F n s s' x0 c a b names cs rest,
  16 <= W ->
  (* the text *)
  sees (lx s) cs -> schars cs -> scan names cs (tern_toks c a b ++ rest) -> closes rest ->
  table W (lx s) names -> (List.length names <= 580)%nat -> (2 * List.length cs + 1 < F)%nat -> IdBufPtr (lx s) + Z.of_nat (List.length cs) < 5000 ->
  (* the condition and the operands are comparisons, over int variables that are declared *)
  good_exp c -> constant c = false -> isbool c = true -> good_exp a -> constant a = false -> isbool a = true -> good_exp b -> constant b = false -> isbool b = true -> decls (svars (arms c a b)) (dc s) (VOff (em s)) ->
  (* the compiler is at the start of the body of a function, and compiles the expression *)
  begins (em s) -> NextSwitchCase (dc s) < 0 ->
  (GetToken W F ;; pExpr (tie W F n)) s = Ok (x0, s') ->
  stream W F (lx s') rest /\ dc s' = dc s /\ live (em s') /\ RegUse (em s') = false /\ CurrentType (em s') = VT_BOOL /\ 0 <= CurrentVal (em s') < 16 /\
  exists k, 0 <= k < 16 /\ forall env i j t, test env c i -> test env (if i then a else b) j -> ready s s' (arms c a b) env t ->
    reaches (fun t' => done s s' (arms c a b) env Normal t t' /\ Spec8086.cond (if i then k else CurrentVal (em s')) (fl t') = Some j) t.
Proof.
  intros W F n s s' x0 c a b names txt rest HW SE SC SN CL T LN LF LB GE C IB KA1 KA2 KA3 KB1 KB2 KB3 DC BG NC H.
  destruct (closes_ends _ CL) as [EN PO].
  assert (ET : exists t0 tl, tern_toks c a b = t0 :: tl) by (unfold tern_toks; destruct (toks c); eexists _, _; reflexivity). destruct ET as (t0 & tl & ET).
  remember (tern_toks c a b ++ rest) as ts eqn:ETS. destruct SN as [txt|w spl t1 txt ts TR LX SN]; [rewrite ET in ETS; discriminate|].
  assert (E0 : t1 = t0 /\ ts = tl ++ rest) by (rewrite ET in ETS; cbn [Datatypes.app] in ETS; injection ETS; auto). destruct E0 as [-> ->].
  destruct (trivia_token W F HW names s w spl t0 txt TR SE SC LX T LN LF ltac:(rewrite app_length in LB; lia)) as (l' & G & S' & A' & T' & U').
  rewrite (bind_ok _ _ _ _ _ G) in H.
  assert (ST : stream W F l' (tern_toks c a b ++ rest)).
  { rewrite ET. cbn [Datatypes.app]. apply schars_app in SC as [_ SC]. apply schars_app in SC as [_ SC]. rewrite !app_length in *.
    apply (scan_stream W F HW names (tl ++ rest) txt l' t0 A' S' SC SN T' LN); lia. }
  clear ETS SN TR LX G S' A' T' U' SE SC T LN LF LB ET. set (st := arms c a b) in *.
  assert (PR : Pre (svars st) 0 false (em s) (dc s) []).
  { split; [apply begins_book; exact BG|apply BG|apply BG|apply BG|exact DC|exact NC|discriminate|intro Q; contradiction]. }
  assert (IC : incl (vars c) (svars st)) by (unfold st, arms; cbn [svars]; intros x I; apply in_or_app; auto).
  assert (IA : incl (vars a) (svars st)) by (unfold st, arms; cbn [svars]; intros x I; apply in_or_app; right; apply in_or_app; auto).
  assert (IB2 : incl (vars b) (svars st)) by (unfold st, arms; cbn [svars]; intros x I; apply in_or_app; right; apply in_or_app; auto).
  assert (DD : (depth c <= sdepth st /\ depth a <= sdepth st /\ depth b <= sdepth st)%nat) by (unfold st, arms; cbn [sdepth]; lia). destruct DD as (D1 & D2 & D3).
  destruct (arms_ok W F HW (svars st) (sdepth st) n c a b false 0 l' (em s) (dc s) [] x0 s' rest GE C IB IC D1 KA1 KA2 KA3 IA D2 KB1 KB2 KB3 IB2 D3 PR ST EN PO H)
    as (l2 & e' & P' & k & -> & ST' & LV' & CT & KR & CR & [BK SL BA _ _ MK] & RUN).
  assert (P' = []) as ->.
  { destruct P' as [|[k1 x] P']; [reflexivity|]. destruct (MK k1 x (or_introl eq_refl)) as [[]|[]]. }
  clear H PR. split; [exact ST'|]. split; [reflexivity|]. split; [exact LV'|]. split.
  { cbn [em]. rewrite (proj1 (proj2 SL)). apply BG. }
  split; [exact CT|]. split; [exact CR|]. exists k. split; [exact KR|]. intros env i j t X1 V1 RD. cbn [lx em dc] in *. destruct RD as [rd_wf0 rd_ss0 rd_ds0 rd_ip0 rd_code0 rd_low0 rd_top0 rd_ret0 rd_env0 rd_var0 rd_apart0]. cbv zeta in *.
  pose proof (proj2 (proj2 (proj1 BG))) as RM. unfold room, CODESTART in RM.
  set (K := mkmach (CodeAddress (em s)) e' (sg t) (bp (rg t)) (Spec8086.sp (rg t)) (Spec8086.sp (rg t) - 2 * Z.of_nat (sdepth st)) (place s (bp (rg t))) (mem t)
    (fun t' => done s (mkcc l2 e' (dc s)) st env Normal t t' /\ Spec8086.cond (if i then k else CurrentVal e') (fl t') = Some j)).
  assert (LY : forall x, In x (svars st) -> lies s (bp (rg t)) x (place s (bp (rg t)) x)).
  { intros x I. destruct (DC x I) as (_ & Loc & Val & IV). exists Loc, Val. split; [exact IV|apply place_var; exact IV]. }
  assert (KO : k_ok (svars st) (sdepth st) (dc s) (VOff (em s)) K).
  { split; unfold K, k_seg; cbn [k_lo k_ef k_sg k_bp k_sp k_low k_at k_m0 k_fin]; try assumption; try lia.
    - intros t' [[_ _ _ _ E] _]. cbn [em] in E. right. lia.
    - intros x I. destruct (rd_var0 x _ I (LY x I)) as (B1 & B2 & _). cbn [em] in B2. split; [|split; [exact B1|lia]]. unfold place. destruct (_ =? _); apply Z.mod_pos_bound; lia.
    - intros x y I J N. apply (rd_apart0 x y); auto.
    - intros x Loc Val _ IV. apply place_var. exact IV. }
  assert (IN : Into (svars st) (sdepth st) (dc s) (em s) e' [] K).
  { split; [exact KO|]. split; [unfold K; cbn [k_lo]; lia|]. unfold K. cbn [k_lo k_ef]. apply match_self; [exact BK|lia]. }
  assert (V0 : forall x, In x (svars st) -> rd16 (mem t) (cs (sg t)) (place s (bp (rg t)) x) = env x mod 65536).
  { intros x I. destruct (rd_var0 x _ I (LY x I)) as (_ & _ & ->). pose proof (rd16_ok (mem t) (cs (sg t)) (place s (bp (rg t)) x) ltac:(apply rd_wf0)) as Q.
    unfold signed, half, modulus. destruct (_ <? _); lia. }
  refine (RUN K env i j t IN X1 V1 _ rd_ip0 _).
  - split; unfold K, k_seg; cbn [k_sg k_bp k_sp k_at k_m0]; auto. apply wf_wfr. exact rd_wf0.
  - intros t' [Q1 Q2 Q3 Q4 Q5 Q6 Q7] IP AX. apply reach_now. split; [|exact (proj1 AX)]. split; [|exact Q2| | |split; [exact IP|split; assumption]].
    + apply (wfr_wf _ _ Q1 IP). pose proof (bk_room _ _ BK) as R. unfold room, CODESTART, OUTPUT_MAX in R. lia.
    + intros x p I L. rewrite (lies_place _ _ _ _ L). unfold K, k_seg in Q6. cbn [k_at k_sg] in Q6. rewrite Q6 by exact I. symmetry. apply signed_int. apply Q5.
    + intros p Z1 Z2. apply Q7.
      * intros (o & R & ->). apply (Z1 o); [exact R|reflexivity].
      * intros (x & I & E). destruct (Z2 x _ I (LY x I)) as [N1 N2]. unfold K, k_seg in E. cbn [k_sg k_at] in E. tauto.
Qed.

(** *** A case: the parameter n at BP+4 and the global r at address 4660 *)
Definition c74_text : list Z := bytes_of "n>r ? n>2 : n<r; int"%string.
Definition c74_c : exp := EOp (Rel Gt) (EVar 40) (EVar 41).
Definition c74_a : exp := EOp (Rel Gt) (EVar 40) (ENum 2).
Definition c74_b : exp := EOp (Rel Lt) (EVar 40) (EVar 41).
Definition c74_lx : lexst := match add_builtins 16 c63_names (lx0 nil nil) with Ok (_, l) => with_input c74_text l | _ => lx0 nil nil end.
Definition c74_state : cc := mkcc c74_lx (em c63_state) (dc c63_state).
Definition c74_run : Base.outcome (unit * cc) := (GetToken 16 200 ;; pExpr (tie 16 200 60)) c74_state.
Definition c74_after : cc := match c74_run with Ok (_, s) => s | _ => c74_state end.
Definition c74_rest : list token := [kw ch_semi; kw TOK_INT].
Definition c74_st (n : Z) : state :=
  mkst (mkregs 1 2 3 4 65000 65000 7 8) (mksregs 4096 4096 4096 4096) 256 (mkflags false false false false)
    (load_bytes (out_bytes (Z.to_nat (CodeAddress (em c74_after) - 256)) 0 (Output (em c74_after))) (phys 4096 256)
       (load_bytes [52; 18; 0; 96; n; 0] (phys 4096 65000) (load_bytes [3; 0] (phys 4096 4660) (mkarr 0 Leaf)))).
Lemma c74_scan : scan c63_names c74_text (tern_toks c74_c c74_a c74_b ++ c74_rest).
Proof.
  let l := eval vm_compute in c74_text in change c74_text with l.
  let l := eval vm_compute in (tern_toks c74_c c74_a c74_b ++ c74_rest) in change (tern_toks c74_c c74_a c74_b ++ c74_rest) with l.
  y_name (@nil Z) 40%nat. y_op (@nil Z) [62]. y_name (@nil Z) 41%nat. y_op [32] [63]. y_name [32] 40%nat. y_op (@nil Z) [62]. y_num (@nil Z) 50. y_op [32] [58]. y_name [32] 40%nat. y_op (@nil Z) [60]. y_name (@nil Z) 41%nat. y_op (@nil Z) [59]. y_name [32] 16%nat.
  constructor.
Qed.
Lemma c74_var x : In x (svars (arms c74_c c74_a c74_b)) -> In x (svars c63_stmt).
Proof. cbn. tauto. Qed.
Lemma c74_dc : dc c74_state = dc c63_state. Proof. unfold c74_state. apply dc_mk. Qed.
Lemma c74_em : em c74_state = em c63_state. Proof. unfold c74_state. apply em_mk. Qed.
Lemma c74_lies x a : In x (svars (arms c74_c c74_a c74_b)) -> lies c74_state 65000 x a -> x = 40 /\ a = 65004 \/ x = 41 /\ a = 4660.
Proof. intros I L. unfold lies in L. rewrite c74_dc, c74_em in L. exact (c63_lies x a (c74_var x I) L). Qed.
Lemma c74_ready n : n = 2 \/ n = 4 -> ready c74_state c74_after (arms c74_c c74_a c74_b) (c63_env n 3) (c74_st n).
Proof.
  intros [-> | ->]; (split;
  [split; [vm_compute; repeat split; discriminate|]; split; [vm_compute; repeat split; discriminate|]; split; [vm_compute; repeat split; discriminate|];
    unfold c74_st; cbn [mem]; (apply load_bytes_ok; [vm_compute; reflexivity|]); (apply load_bytes_ok; [reflexivity|]); (apply load_bytes_ok; [reflexivity|]);
    intro i; change (mkarr 0 Leaf) with (ainit 0 : arr Z); rewrite aget_init; lia
  |reflexivity|reflexivity|vm_compute; reflexivity
  |intros a R; apply Z.eqb_eq; revert a R; apply range_by; vm_compute; reflexivity
  |vm_compute; discriminate|vm_compute; reflexivity|right; vm_compute; discriminate
  |intro x; unfold c63_env, int_range; destruct (x =? 40); [lia|]; destruct (x =? 41); lia| |]).
  - intros x a I L. destruct (c74_lies x a I L) as [[-> ->]|[-> ->]].
    + split; [lia|]. split; [right; right; vm_compute; discriminate|vm_compute; reflexivity].
    + split; [lia|]. split; [right; left; split; [vm_compute; discriminate|vm_compute; reflexivity]|vm_compute; reflexivity].
  - intros x y a b I J N L M. destruct (c74_lies x a I L) as [[-> ->]|[-> ->]], (c74_lies y b J M) as [[-> ->]|[-> ->]]; lia.
  - intros x a I L. destruct (c74_lies x a I L) as [[-> ->]|[-> ->]].
    + split; [lia|]. split; [right; right; vm_compute; discriminate|vm_compute; reflexivity].
    + split; [lia|]. split; [right; left; split; [vm_compute; discriminate|vm_compute; reflexivity]|vm_compute; reflexivity].
  - intros x y a b I J N L M. destruct (c74_lies x a I L) as [[-> ->]|[-> ->]], (c74_lies y b J M) as [[-> ->]|[-> ->]]; lia.
Qed.
Example C74_ex :
  (sees (lx c74_state) c74_text /\ schars c74_text /\ scan c63_names c74_text (tern_toks c74_c c74_a c74_b ++ c74_rest) /\ closes c74_rest /\ table 16 (lx c74_state) c63_names) /\
  (good_exp c74_c /\ constant c74_c = false /\ isbool c74_c = true /\ good_exp c74_a /\ constant c74_a = false /\ isbool c74_a = true /\ good_exp c74_b /\ constant c74_b = false /\ isbool c74_b = true /\ decls (svars (arms c74_c c74_a c74_b)) (dc c74_state) (VOff (em c74_state)) /\
   begins (em c74_state) /\ NextSwitchCase (dc c74_state) < 0) /\
  c74_run = Ok (tt, c74_after) /\
  (test (c63_env 4 3) c74_c true /\ test (c63_env 2 3) c74_c false /\ test (c63_env 4 3) c74_a true /\ test (c63_env 2 3) c74_b true) /\
  (ready c74_state c74_after (arms c74_c c74_a c74_b) (c63_env 4 3) (c74_st 4) /\ ready c74_state c74_after (arms c74_c c74_a c74_b) (c63_env 2 3) (c74_st 2)) /\
  (* the code of "<" is recorded; with n = 4 it is the code of ">" that tells that n>2 holds *)
  CurrentVal (em c74_after) = JL /\
  option_map (fun t => (Spec8086.cond JG (fl t), Spec8086.cond JL (fl t))) (until zclear (CodeAddress (em c74_after)) 100 (c74_st 4)) = Some (Some true, Some false) /\
  option_map (fun t => Spec8086.cond JL (fl t)) (until zclear (CodeAddress (em c74_after)) 100 (c74_st 2)) = Some (Some true).
Proof.
  assert (NM : NoDup ([] ++ c63_names)) by (apply nodup_by; vm_compute; reflexivity).
  assert (AS : ascii_b c74_text = true) by (vm_compute; reflexivity).
  destruct (add_builtins_spec 16 ltac:(lia) c63_names (lx0 nil nil) nil (table_empty 16 nil nil) NM ltac:(vm_compute; lia)) as (l & EL & TL & _).
  assert (CL : c74_lx = with_input c74_text l) by (unfold c74_lx; rewrite EL; reflexivity).
  assert (IO : (match c74_run with Ok _ => true | _ => false end) = true) by (vm_compute; reflexivity).
  assert (E : c74_run = Ok (tt, c74_after)) by (unfold c74_after; destruct c74_run as [[[] s']| | |]; try discriminate IO; reflexivity).
  clear EL. split; [|split; [|split; [exact E|split; [|split; [split; apply c74_ready; auto|split; [|split]; vm_compute; reflexivity]]]]].
  - unfold c74_state. cbn [lx]. rewrite CL. split; [|split; [|split; [|split]]].
    + apply with_input_sees; [apply ascii_b_ok; exact AS|apply ascii_b_ok; exact AS].
    + apply ascii_b_ok; exact AS.
    + exact c74_scan.
    + split; [reflexivity|left; reflexivity].
    + apply (table_view 16 _ l c63_names); [reflexivity|exact TL].
  - split; [good|]. split; [reflexivity|]. split; [reflexivity|]. split; [good|]. split; [reflexivity|]. split; [reflexivity|]. split; [good|]. split; [reflexivity|]. split; [reflexivity|].
    split; [rewrite c74_dc, c74_em; intros x I; exact (c63_decls x (c74_var x I))|]. split; [rewrite c74_em; exact c63_begins|]. vm_compute. reflexivity.
  - split; [exists 1; split; [val|reflexivity]|]. split; [exists 0; split; [val|reflexivity]|]. split; (exists 1; split; [val|reflexivity]).
Qed.

(** *** So the value of a conditional expression can be wrong *)
Open Scope string_scope.
Theorem C74_refuted :
  (** i < j holds, but the code of i > j is asked *)
  returns (with_ij "i = 1; j = 2; return i == 1 ? i < j : i > j;") zset 1000 = Some 0 /\
  returns (with_ij "i = 1; j = 2; if (i == 1 ? i < j : i > j) return 1; return 2;") zset 1000 = Some 2 /\
  (** i == j does not hold, but the code of i != j is asked *)
  returns (with_ij "i = 1; j = 2; return i == 1 ? i == j : i != j;") zset 1000 = Some 1 /\
  (** with a number as second operand neither operand is right: 1 and 7 are meant *)
  returns (with_ij "i = 1; j = 2; return i == 1 ? i < j : 7;") zset 1000 = Some 0 /\
  returns (with_ij "i = 1; j = 2; return i == 2 ? i < j : 7;") zset 1000 = Some 0.
Proof. vm_compute. repeat split. Qed.
(** right: the second operand, the same code twice, a number first, and each comparison through a variable *)
Example C74_right :
  returns (with_ij "i = 1; j = 2; return i == 2 ? i > j : i < j;") zset 1000 = Some 1 /\
  returns (with_ij "i = 1; j = 2; return i == 1 ? i < j : j < 1;") zset 1000 = Some 1 /\
  returns (with_ij "i = 1; j = 2; return i == 2 ? i < j : j < 1;") zset 1000 = Some 0 /\
  returns (with_ij "i = 1; j = 2; return i == 1 ? 7 : i < j;") zset 1000 = Some 7 /\
  returns (with_ij "i = 1; j = 2; return i == 2 ? 7 : i < j;") zset 1000 = Some 1 /\
  returns (with_ij "i = 1; j = 2; if (i == 1) i = i < j; else i = i > j; return i;") zset 1000 = Some 1.
Proof. vm_compute. repeat split. Qed.
Print Assumptions C74_code.
Print Assumptions C74_ex.
Print Assumptions C74_refuted.
