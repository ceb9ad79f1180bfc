(** Property C71: the value of a conditional expression c ? a : b, from the text to the machine.

    Reading guide.  [tern_toks c a b] are the tokens of "c ? a : b".  The condition c is a comparison or a
    negation that depends on variables; each of a and b is a constant expression or one whose outermost operator is
    arithmetic ([operand]).  [ready] and [done] (Props_SccStmt.v) say
    what the machine is like before and after; as the expression needs the same room and the same variables as
    the statement "if (c) return a; else return b;", that statement ([arms c a b]) is what they are about.
    [test env c i]: with the values env of the variables, c holds (i = true) or not (i = false).
    Missing: operands that are a variable alone, a comparison, or contain calls (C70_refuted shows that calls go
    wrong, C74 that comparisons do). *)
From Verif Require Import Base Bits Spec8086 SpecWf SccRun SccState SccEmit SccLex SccDecl SccExpr SccStmt SccInput SccRel SccIntern SccTok SccTok2 SccTok3 SccPut SccArith SccOps ExprSpec GroupSpec SccHold SccFix SccSem SccBin SccComp SccParse SccScan SccWhole SccWitness StmtSpec SccImg SccMach SccPiece SccStm SccProg SccTern Props_SccExpr Props_SccStmt.
From Coq Require Import String.

Definition arms (c a b : exp) : stmt := SIfElse c (SReturn a) (SReturn b).

(** ** C71: c ? a : b is a if c holds, and b otherwise *)
Theorem C71_conditional : forall W F n s s' x0 c a b names cs rest,
  16 <= W ->
  (* the text *)
  sees (lx s) cs -> schars cs -> scan names cs (tern_toks c a b ++ rest) -> closes rest ->
  table W (lx s) names -> (List.length names <= 580)%nat -> (2 * List.length cs + 1 < F)%nat -> IdBufPtr (lx s) + Z.of_nat (List.length cs) < 5000 ->
  (* the condition, over int variables that are declared, and the operands *)
  good_exp c -> constant c = false -> isbool c = true -> operand a -> operand b -> decls (svars (arms c a b)) (dc s) (VOff (em s)) ->
  (* the compiler is at the start of the body of a function, and compiles the expression *)
  begins (em s) -> NextSwitchCase (dc s) < 0 ->
  (GetToken W F ;; pExpr (tie W F n)) s = Ok (x0, s') ->
  stream W F (lx s') rest /\ dc s' = dc s /\ live (em s') /\ RegUse (em s') = false /\ CurrentType (em s') = VT_INT /\
  forall env i v t, test env c i -> value env (if i then a else b) v -> ready s s' (arms c a b) env t ->
    reaches (fun t' => done s s' (arms c a b) env Normal t t' /\ ax (rg t') = v mod 65536) t.
Proof.
  intros W F n s s' x0 c a b names txt rest HW SE SC SN CL T LN LF LB GE C IB KA KB DC BG NC H.
  destruct (closes_ends _ CL) as [EN PO].
  assert (ET : exists t0 tl, tern_toks c a b = t0 :: tl) by (unfold tern_toks; destruct (toks c); eexists _, _; reflexivity). destruct ET as (t0 & tl & ET).
  remember (tern_toks c a b ++ rest) as ts eqn:ETS. destruct SN as [txt|w spl t1 txt ts TR LX SN]; [rewrite ET in ETS; discriminate|].
  assert (E0 : t1 = t0 /\ ts = tl ++ rest) by (rewrite ET in ETS; cbn [Datatypes.app] in ETS; injection ETS; auto). destruct E0 as [-> ->].
  destruct (trivia_token W F HW names s w spl t0 txt TR SE SC LX T LN LF ltac:(rewrite app_length in LB; lia)) as (l' & G & S' & A' & T' & U').
  rewrite (bind_ok _ _ _ _ _ G) in H.
  assert (ST : stream W F l' (tern_toks c a b ++ rest)).
  { rewrite ET. cbn [Datatypes.app]. apply schars_app in SC as [_ SC]. apply schars_app in SC as [_ SC]. rewrite !app_length in *.
    apply (scan_stream W F HW names (tl ++ rest) txt l' t0 A' S' SC SN T' LN); lia. }
  clear ETS SN TR LX G S' A' T' U' SE SC T LN LF LB ET. set (st := arms c a b) in *.
  assert (PR : Pre (svars st) 0 false (em s) (dc s) []).
  { split; [apply begins_book; exact BG|apply BG|apply BG|apply BG|exact DC|exact NC|discriminate|intro Q; contradiction]. }
  assert (IC : incl (vars c) (svars st)) by (unfold st, arms; cbn [svars]; intros x I; apply in_or_app; auto).
  assert (IA : incl (vars a) (svars st)) by (unfold st, arms; cbn [svars]; intros x I; apply in_or_app; right; apply in_or_app; auto).
  assert (IB2 : incl (vars b) (svars st)) by (unfold st, arms; cbn [svars]; intros x I; apply in_or_app; right; apply in_or_app; auto).
  assert (DD : (depth c <= sdepth st /\ depth a <= sdepth st /\ depth b <= sdepth st)%nat) by (unfold st, arms; cbn [sdepth]; lia). destruct DD as (D1 & D2 & D3).
  destruct (tern_ok W F HW (svars st) (sdepth st) n c a b false 0 l' (em s) (dc s) [] x0 s' rest GE C IB IC D1 KA IA D2 KB IB2 D3 PR ST EN PO H)
    as (l2 & e' & P' & -> & ST' & LV' & CT & [BK SL BA _ _ MK] & RUN).
  assert (P' = []) as ->.
  { destruct P' as [|[k x] P']; [reflexivity|]. destruct (MK k x (or_introl eq_refl)) as [[]|[]]. }
  clear H PR. split; [exact ST'|]. split; [reflexivity|]. split; [exact LV'|]. split.
  { cbn [em]. rewrite (proj1 (proj2 SL)). apply BG. }
  split; [exact CT|]. intros env i v t X1 V1 RD. cbn [lx em dc] in *. destruct RD as [rd_wf0 rd_ss0 rd_ds0 rd_ip0 rd_code0 rd_low0 rd_top0 rd_ret0 rd_env0 rd_var0 rd_apart0]. cbv zeta in *.
  pose proof (proj2 (proj2 (proj1 BG))) as RM. unfold room, CODESTART in RM.
  set (K := mkmach (CodeAddress (em s)) e' (sg t) (bp (rg t)) (Spec8086.sp (rg t)) (Spec8086.sp (rg t) - 2 * Z.of_nat (sdepth st)) (place s (bp (rg t))) (mem t)
    (fun t' => done s (mkcc l2 e' (dc s)) st env Normal t t' /\ ax (rg t') = v mod 65536)).
  assert (LY : forall x, In x (svars st) -> lies s (bp (rg t)) x (place s (bp (rg t)) x)).
  { intros x I. destruct (DC x I) as (_ & Loc & Val & IV). exists Loc, Val. split; [exact IV|apply place_var; exact IV]. }
  assert (KO : k_ok (svars st) (sdepth st) (dc s) (VOff (em s)) K).
  { split; unfold K, k_seg; cbn [k_lo k_ef k_sg k_bp k_sp k_low k_at k_m0 k_fin]; try assumption; try lia.
    - intros t' [[_ _ _ _ E] _]. cbn [em] in E. right. lia.
    - intros x I. destruct (rd_var0 x _ I (LY x I)) as (B1 & B2 & _). cbn [em] in B2. split; [|split; [exact B1|lia]]. unfold place. destruct (_ =? _); apply Z.mod_pos_bound; lia.
    - intros x y I J N. apply (rd_apart0 x y); auto.
    - intros x Loc Val _ IV. apply place_var. exact IV. }
  assert (IN : Into (svars st) (sdepth st) (dc s) (em s) e' [] K).
  { split; [exact KO|]. split; [unfold K; cbn [k_lo]; lia|]. unfold K. cbn [k_lo k_ef]. apply match_self; [exact BK|lia]. }
  assert (V0 : forall x, In x (svars st) -> rd16 (mem t) (cs (sg t)) (place s (bp (rg t)) x) = env x mod 65536).
  { intros x I. destruct (rd_var0 x _ I (LY x I)) as (_ & _ & ->). pose proof (rd16_ok (mem t) (cs (sg t)) (place s (bp (rg t)) x) ltac:(apply rd_wf0)) as Q.
    unfold signed, half, modulus. destruct (_ <? _); lia. }
  refine (RUN K env i v t IN X1 V1 _ rd_ip0 _).
  - split; unfold K, k_seg; cbn [k_sg k_bp k_sp k_at k_m0]; auto. apply wf_wfr. exact rd_wf0.
  - intros t' [Q1 Q2 Q3 Q4 Q5 Q6 Q7] IP AX. apply reach_now. split; [|exact AX]. split; [|exact Q2| | |split; [exact IP|split; assumption]].
    + apply (wfr_wf _ _ Q1 IP). pose proof (bk_room _ _ BK) as R. unfold room, CODESTART, OUTPUT_MAX in R. lia.
    + intros x p I L. rewrite (lies_place _ _ _ _ L). unfold K, k_seg in Q6. cbn [k_at k_sg] in Q6. rewrite Q6 by exact I. symmetry. apply signed_int. apply Q5.
    + intros p Z1 Z2. apply Q7.
      * intros (o & R & ->). apply (Z1 o); [exact R|reflexivity].
      * intros (x & I & E). destruct (Z2 x _ I (LY x I)) as [N1 N2]. unfold K, k_seg in E. cbn [k_sg k_at] in E. tauto.
Qed.

(** *** A case: the parameter n at BP+4 and the global r at address 4660 *)
Definition c71_text : list Z := bytes_of "n>r ? n-2 : 1; int"%string.
Definition c71_c : exp := EOp (Rel Gt) (EVar 40) (EVar 41).
Definition c71_a : exp := EOp (Arith Sub) (EVar 40) (ENum 2).
Definition c71_b : exp := ENum 1.
Definition c71_lx : lexst := match add_builtins 16 c63_names (lx0 nil nil) with Ok (_, l) => with_input c71_text l | _ => lx0 nil nil end.
Definition c71_state : cc := mkcc c71_lx (em c63_state) (dc c63_state).
Definition c71_run : Base.outcome (unit * cc) := (GetToken 16 200 ;; pExpr (tie 16 200 60)) c71_state.
Definition c71_after : cc := match c71_run with Ok (_, s) => s | _ => c71_state end.
Definition c71_rest : list token := [kw ch_semi; kw TOK_INT].
Definition c71_st (n : Z) : state :=
  mkst (mkregs 1 2 3 4 65000 65000 7 8) (mksregs 4096 4096 4096 4096) 256 (mkflags false false false false)
    (load_bytes (out_bytes (Z.to_nat (CodeAddress (em c71_after) - 256)) 0 (Output (em c71_after))) (phys 4096 256)
       (load_bytes [52; 18; 0; 96; n; 0] (phys 4096 65000) (load_bytes [3; 0] (phys 4096 4660) (mkarr 0 Leaf)))).
Lemma c71_scan : scan c63_names c71_text (tern_toks c71_c c71_a c71_b ++ c71_rest).
Proof.
  let l := eval vm_compute in c71_text in change c71_text with l.
  let l := eval vm_compute in (tern_toks c71_c c71_a c71_b ++ c71_rest) in change (tern_toks c71_c c71_a c71_b ++ c71_rest) with l.
  y_name (@nil Z) 40%nat. y_op (@nil Z) [62]. y_name (@nil Z) 41%nat. y_op [32] [63]. y_name [32] 40%nat. y_op (@nil Z) [45]. y_num (@nil Z) 50. y_op [32] [58]. y_num [32] 49. y_op (@nil Z) [59]. y_name [32] 16%nat.
  constructor.
Qed.
Lemma c71_var x : In x (svars (arms c71_c c71_a c71_b)) -> In x (svars c63_stmt).
Proof. cbn. tauto. Qed.
Lemma dc_mk l e d : dc (mkcc l e d) = d. Proof. reflexivity. Qed.
Lemma em_mk l e d : em (mkcc l e d) = e. Proof. reflexivity. Qed.
Lemma c71_dc : dc c71_state = dc c63_state. Proof. unfold c71_state. apply dc_mk. Qed.
Lemma c71_em : em c71_state = em c63_state. Proof. unfold c71_state. apply em_mk. Qed.
Lemma c71_lies x a : In x (svars (arms c71_c c71_a c71_b)) -> lies c71_state 65000 x a -> x = 40 /\ a = 65004 \/ x = 41 /\ a = 4660.
Proof. intros I L. unfold lies in L. rewrite c71_dc, c71_em in L. exact (c63_lies x a (c71_var x I) L). Qed.
Lemma c71_ready n : n = 2 \/ n = 4 -> ready c71_state c71_after (arms c71_c c71_a c71_b) (c63_env n 3) (c71_st n).
Proof.
  intros [-> | ->]; (split;
  [split; [vm_compute; repeat split; discriminate|]; split; [vm_compute; repeat split; discriminate|]; split; [vm_compute; repeat split; discriminate|];
    unfold c71_st; cbn [mem]; (apply load_bytes_ok; [vm_compute; reflexivity|]); (apply load_bytes_ok; [reflexivity|]); (apply load_bytes_ok; [reflexivity|]);
    intro i; change (mkarr 0 Leaf) with (ainit 0 : arr Z); rewrite aget_init; lia
  |reflexivity|reflexivity|vm_compute; reflexivity
  |intros a R; apply Z.eqb_eq; revert a R; apply range_by; vm_compute; reflexivity
  |vm_compute; discriminate|vm_compute; reflexivity|right; vm_compute; discriminate
  |intro x; unfold c63_env, int_range; destruct (x =? 40); [lia|]; destruct (x =? 41); lia| |]).
  - intros x a I L. destruct (c71_lies x a I L) as [[-> ->]|[-> ->]].
    + split; [lia|]. split; [right; right; vm_compute; discriminate|vm_compute; reflexivity].
    + split; [lia|]. split; [right; left; split; [vm_compute; discriminate|vm_compute; reflexivity]|vm_compute; reflexivity].
  - intros x y a b I J N L M. destruct (c71_lies x a I L) as [[-> ->]|[-> ->]], (c71_lies y b J M) as [[-> ->]|[-> ->]]; lia.
  - intros x a I L. destruct (c71_lies x a I L) as [[-> ->]|[-> ->]].
    + split; [lia|]. split; [right; right; vm_compute; discriminate|vm_compute; reflexivity].
    + split; [lia|]. split; [right; left; split; [vm_compute; discriminate|vm_compute; reflexivity]|vm_compute; reflexivity].
  - intros x y a b I J N L M. destruct (c71_lies x a I L) as [[-> ->]|[-> ->]], (c71_lies y b J M) as [[-> ->]|[-> ->]]; lia.
Qed.
Example C71_ex :
  (sees (lx c71_state) c71_text /\ schars c71_text /\ scan c63_names c71_text (tern_toks c71_c c71_a c71_b ++ c71_rest) /\ closes c71_rest /\ table 16 (lx c71_state) c63_names) /\
  (good_exp c71_c /\ constant c71_c = false /\ isbool c71_c = true /\ operand c71_a /\ operand c71_b /\ decls (svars (arms c71_c c71_a c71_b)) (dc c71_state) (VOff (em c71_state)) /\
   begins (em c71_state) /\ NextSwitchCase (dc c71_state) < 0) /\
  c71_run = Ok (tt, c71_after) /\
  (test (c63_env 4 3) c71_c true /\ test (c63_env 2 3) c71_c false /\ value (c63_env 4 3) c71_a 2 /\ value (c63_env 2 3) c71_b 1) /\
  (ready c71_state c71_after (arms c71_c c71_a c71_b) (c63_env 4 3) (c71_st 4) /\ ready c71_state c71_after (arms c71_c c71_a c71_b) (c63_env 2 3) (c71_st 2)) /\
  option_map (fun t => ax (rg t)) (until zclear (CodeAddress (em c71_after)) 100 (c71_st 4)) = Some 2 /\
  option_map (fun t => ax (rg t)) (until zclear (CodeAddress (em c71_after)) 100 (c71_st 2)) = Some 1.
Proof.
  assert (NM : NoDup ([] ++ c63_names)) by (apply nodup_by; vm_compute; reflexivity).
  assert (AS : ascii_b c71_text = true) by (vm_compute; reflexivity).
  destruct (add_builtins_spec 16 ltac:(lia) c63_names (lx0 nil nil) nil (table_empty 16 nil nil) NM ltac:(vm_compute; lia)) as (l & EL & TL & _).
  assert (CL : c71_lx = with_input c71_text l) by (unfold c71_lx; rewrite EL; reflexivity).
  assert (IO : (match c71_run with Ok _ => true | _ => false end) = true) by (vm_compute; reflexivity).
  assert (E : c71_run = Ok (tt, c71_after)) by (unfold c71_after; destruct c71_run as [[[] s']| | |]; try discriminate IO; reflexivity).
  clear EL. split; [|split; [|split; [exact E|split; [|split; [split; apply c71_ready; auto|split; vm_compute; reflexivity]]]]].
  - unfold c71_state. cbn [lx]. rewrite CL. split; [|split; [|split; [|split]]].
    + apply with_input_sees; [apply ascii_b_ok; exact AS|apply ascii_b_ok; exact AS].
    + apply ascii_b_ok; exact AS.
    + exact c71_scan.
    + split; [reflexivity|left; reflexivity].
    + apply (table_view 16 _ l c63_names); [reflexivity|exact TL].
  - split; [good|]. split; [reflexivity|]. split; [reflexivity|]. split; [split; [good|right; reflexivity]|]. split; [split; [good|left; reflexivity]|].
    split; [rewrite c71_dc, c71_em; intros x I; exact (c63_decls x (c71_var x I))|]. split; [rewrite c71_em; exact c63_begins|]. vm_compute. reflexivity.
  - split; [exists 1; split; [val|reflexivity]|]. split; [exists 0; split; [val|reflexivity]|]. split; val.
Qed.
Print Assumptions C71_conditional.
Print Assumptions C71_ex.
