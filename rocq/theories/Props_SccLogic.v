(** Property C72: the value of c && d and of c || d, from the text to the machine.

    Reading guide.  [logic_toks isor c d] are the tokens of "c || d" if isor is true and of "c && d" if not.
    c and d are comparisons or negations that depend on variables, with or without parentheses around them.  [ready] and [done] (Props_SccStmt.v) say
    what the machine is like before and after; as the expression needs the same room and the same variables as
    the statement "if (c) return d;", that statement ([conds c d]) is what they are about.
    [test env c i]: with the values env of the variables, c holds (i = true) or not (i = false).
    When the first operand decides, nothing is asked of the second: it need not have a value.
    [answer e b t]: the compiler, in state e, takes the result to be in AX (CurrentType is VT_INT), and AX is 1 or 0
    there; or in the flags (VT_BOOL), and the condition code CurrentVal holds there exactly if b.
    Missing: operands that are constant, a number or a variable alone, and longer chains of && and ||. *)
From Verif Require Import Base Bits Spec8086 SpecWf SccRun SccState SccEmit SccLex SccDecl SccExpr SccStmt SccInput SccRel SccIntern SccTok SccTok2 SccTok3 SccPut SccArith SccOps ExprSpec GroupSpec SccHold SccFix SccSem SccBin SccComp SccParse SccScan SccWhole SccWitness StmtSpec SccImg SccMach SccPiece SccStm SccProg SccTern SccLogic Props_SccExpr Props_SccStmt.
From Coq Require Import String.

Definition conds (c d : exp) : stmt := SIf c (SReturn d).
Definition answer (e : emst) (b : bool) (t : state) : Prop :=
  CurrentType e = VT_INT /\ ax (rg t) = zb b \/ CurrentType e = VT_BOOL /\ 0 <= CurrentVal e < 16 /\ cond (CurrentVal e) (fl t) = Some b.

(** ** C72: && and || give 1 or 0, and the second operand counts only if the first does not decide *)
Theorem C72_logic : forall W F n s s' x0 isor c1 c2 names cs rest,
  16 <= W ->
  (* the text *)
  sees (lx s) cs -> schars cs -> scan names cs (logic_toks isor c1 c2 ++ rest) -> closes rest ->
  table W (lx s) names -> (List.length names <= 580)%nat -> (2 * List.length cs + 1 < F)%nat -> IdBufPtr (lx s) + Z.of_nat (List.length cs) < 5000 ->
  (* the two conditions, over int variables that are declared *)
  good_exp c1 -> constant c1 = false -> isbool c1 = true -> good_exp c2 -> constant c2 = false -> isbool c2 = true -> decls (svars (conds c1 c2)) (dc s) (VOff (em s)) ->
  (* the compiler is at the start of the body of a function, and compiles the expression *)
  begins (em s) -> NextSwitchCase (dc s) < 0 ->
  (GetToken W F ;; pExpr (tie W F n)) s = Ok (x0, s') ->
  stream W F (lx s') rest /\ dc s' = dc s /\ live (em s') /\ RegUse (em s') = false /\
  forall env i j t, test env c1 i -> (i = isor \/ test env c2 j) -> ready s s' (conds c1 c2) env t ->
    reaches (fun t' => done s s' (conds c1 c2) env Normal t t' /\ answer (em s') (if isor then i || j else i && j) t') t.
Proof.
  intros W F n s s' x0 isor c1 c2 names txt rest HW SE SC SN CL T LN LF LB GE C IB GE2 CC2 IB2 DC BG NC H.
  destruct (closes_ends _ CL) as [EN PO].
  assert (ET : exists t0 tl, logic_toks isor c1 c2 = t0 :: tl) by (unfold logic_toks; destruct (toks c1); eexists _, _; reflexivity). destruct ET as (t0 & tl & ET).
  remember (logic_toks isor c1 c2 ++ rest) as ts eqn:ETS. destruct SN as [txt|w spl t1 txt ts TR LX SN]; [rewrite ET in ETS; discriminate|].
  assert (E0 : t1 = t0 /\ ts = tl ++ rest) by (rewrite ET in ETS; cbn [Datatypes.app] in ETS; injection ETS; auto). destruct E0 as [-> ->].
  destruct (trivia_token W F HW names s w spl t0 txt TR SE SC LX T LN LF ltac:(rewrite app_length in LB; lia)) as (l' & G & S' & A' & T' & U').
  rewrite (bind_ok _ _ _ _ _ G) in H.
  assert (ST : stream W F l' (logic_toks isor c1 c2 ++ rest)).
  { rewrite ET. cbn [Datatypes.app]. apply schars_app in SC as [_ SC]. apply schars_app in SC as [_ SC]. rewrite !app_length in *.
    apply (scan_stream W F HW names (tl ++ rest) txt l' t0 A' S' SC SN T' LN); lia. }
  clear ETS SN TR LX G S' A' T' U' SE SC T LN LF LB ET. set (st := conds c1 c2) in *.
  assert (PR : Pre (svars st) 0 false (em s) (dc s) []).
  { split; [apply begins_book; exact BG|apply BG|apply BG|apply BG|exact DC|exact NC|discriminate|intro Q; contradiction]. }
  assert (IC : incl (vars c1) (svars st)) by (unfold st, conds; cbn [svars]; intros x I; apply in_or_app; auto).
  assert (ID : incl (vars c2) (svars st)) by (unfold st, conds; cbn [svars]; intros x I; apply in_or_app; auto).
  assert (DD : (depth c1 <= sdepth st /\ depth c2 <= sdepth st)%nat) by (unfold st, conds; cbn [sdepth]; lia). destruct DD as (D1 & D2).
  destruct (logic_ok W F HW (svars st) (sdepth st) isor n c1 c2 false 0 l' (em s) (dc s) [] x0 s' rest GE C IB IC D1 GE2 CC2 IB2 ID D2 PR ST EN PO H)
    as (l2 & e' & P' & -> & ST' & LV' & CT & [BK SL BA _ _ MK] & RUN).
  assert (P' = []) as ->.
  { destruct P' as [|[k x] P']; [reflexivity|]. destruct (MK k x (or_introl eq_refl)) as [[]|[]]. }
  clear H PR. split; [exact ST'|]. split; [reflexivity|]. split; [exact LV'|]. split.
  { cbn [em]. rewrite (proj1 (proj2 SL)). apply BG. }
  intros env i j t X1 V1 RD. cbn [lx em dc] in *. destruct RD as [rd_wf0 rd_ss0 rd_ds0 rd_ip0 rd_code0 rd_low0 rd_top0 rd_ret0 rd_env0 rd_var0 rd_apart0]. cbv zeta in *.
  pose proof (proj2 (proj2 (proj1 BG))) as RM. unfold room, CODESTART in RM.
  set (K := mkmach (CodeAddress (em s)) e' (sg t) (bp (rg t)) (Spec8086.sp (rg t)) (Spec8086.sp (rg t) - 2 * Z.of_nat (sdepth st)) (place s (bp (rg t))) (mem t)
    (fun t' => done s (mkcc l2 e' (dc s)) st env Normal t t' /\ answer e' (logic isor i j) t')).
  assert (LY : forall x, In x (svars st) -> lies s (bp (rg t)) x (place s (bp (rg t)) x)).
  { intros x I. destruct (DC x I) as (_ & Loc & Val & IV). exists Loc, Val. split; [exact IV|apply place_var; exact IV]. }
  assert (KO : k_ok (svars st) (sdepth st) (dc s) (VOff (em s)) K).
  { split; unfold K, k_seg; cbn [k_lo k_ef k_sg k_bp k_sp k_low k_at k_m0 k_fin]; try assumption; try lia.
    - intros t' [[_ _ _ _ E] _]. cbn [em] in E. right. lia.
    - intros x I. destruct (rd_var0 x _ I (LY x I)) as (B1 & B2 & _). cbn [em] in B2. split; [|split; [exact B1|lia]]. unfold place. destruct (_ =? _); apply Z.mod_pos_bound; lia.
    - intros x y I J N. apply (rd_apart0 x y); auto.
    - intros x Loc Val _ IV. apply place_var. exact IV. }
  assert (IN : Into (svars st) (sdepth st) (dc s) (em s) e' [] K).
  { split; [exact KO|]. split; [unfold K; cbn [k_lo]; lia|]. unfold K. cbn [k_lo k_ef]. apply match_self; [exact BK|lia]. }
  assert (V0 : forall x, In x (svars st) -> rd16 (mem t) (cs (sg t)) (place s (bp (rg t)) x) = env x mod 65536).
  { intros x I. destruct (rd_var0 x _ I (LY x I)) as (_ & _ & ->). pose proof (rd16_ok (mem t) (cs (sg t)) (place s (bp (rg t)) x) ltac:(apply rd_wf0)) as Q.
    unfold signed, half, modulus. destruct (_ <? _); lia. }
  refine (RUN K env i j t IN X1 V1 _ rd_ip0 _).
  - split; unfold K, k_seg; cbn [k_sg k_bp k_sp k_at k_m0]; auto. apply wf_wfr. exact rd_wf0.
  - intros t' [Q1 Q2 Q3 Q4 Q5 Q6 Q7] IP AX. apply reach_now. split; [|unfold answer, res in *; destruct CT as [CT|[CT CR]]; rewrite CT in *;
      [left; split; [reflexivity|]; change (VT_INT =? VT_BOOL) with false in AX; cbv iota in AX; rewrite AX; destruct (logic isor i j); reflexivity
      |right; split; [reflexivity|]; split; [exact CR|]; change (VT_BOOL =? VT_BOOL) with true in AX; cbv iota in AX; destruct AX as (b & B1 & B2 & _);
       rewrite B2; f_equal; destruct b, (logic isor i j); auto; discriminate B1]]. split; [|exact Q2| | |split; [exact IP|split; assumption]].
    + apply (wfr_wf _ _ Q1 IP). pose proof (bk_room _ _ BK) as R. unfold room, CODESTART, OUTPUT_MAX in R. lia.
    + intros x p I L. rewrite (lies_place _ _ _ _ L). unfold K, k_seg in Q6. cbn [k_at k_sg] in Q6. rewrite Q6 by exact I. symmetry. apply signed_int. apply Q5.
    + intros p Z1 Z2. apply Q7.
      * intros (o & R & ->). apply (Z1 o); [exact R|reflexivity].
      * intros (x & I & E). destruct (Z2 x _ I (LY x I)) as [N1 N2]. unfold K, k_seg in E. cbn [k_sg k_at] in E. tauto.
Qed.


(** *** A case: the parameter n at BP+4 and the global r at address 4660.  The two comparisons of the && have different
    condition codes, so that the result goes to AX; those of the || have the same, and it stays in the flags. *)
Definition c72_text (isor : bool) : list Z := bytes_of (if isor then "n>r || (n>1); int" else "n>r && n+1<9; int")%string.
Definition c72_c : exp := EOp (Rel Gt) (EVar 40) (EVar 41).
Definition c72_d (isor : bool) : exp := if isor then EPar (EOp (Rel Gt) (EVar 40) (ENum 1)) else EOp (Rel Lt) (EOp (Arith Add) (EVar 40) (ENum 1)) (ENum 9).
Definition c72_lx (isor : bool) : lexst := match add_builtins 16 c63_names (lx0 nil nil) with Ok (_, l) => with_input (c72_text isor) l | _ => lx0 nil nil end.
Definition c72_state (isor : bool) : cc := mkcc (c72_lx isor) (em c63_state) (dc c63_state).
Definition c72_run (isor : bool) : Base.outcome (unit * cc) := (GetToken 16 200 ;; pExpr (tie 16 200 60)) (c72_state isor).
Definition c72_after (isor : bool) : cc := match c72_run isor with Ok (_, s) => s | _ => c72_state isor end.
Definition c72_rest : list token := [kw ch_semi; kw TOK_INT].
Definition c72_st (isor : bool) (n : Z) : state :=
  mkst (mkregs 1 2 3 4 65000 65000 7 8) (mksregs 4096 4096 4096 4096) 256 (mkflags false false false false)
    (load_bytes (out_bytes (Z.to_nat (CodeAddress (em (c72_after isor)) - 256)) 0 (Output (em (c72_after isor)))) (phys 4096 256)
       (load_bytes [52; 18; 0; 96; n; 0] (phys 4096 65000) (load_bytes [3; 0] (phys 4096 4660) (mkarr 0 Leaf)))).
Definition c72_end (isor : bool) (n : Z) : option state := until zclear (CodeAddress (em (c72_after isor))) 100 (c72_st isor n).
Lemma c72_scan isor : scan c63_names (c72_text isor) (logic_toks isor c72_c (c72_d isor) ++ c72_rest).
Proof.
  destruct isor.
  - let l := eval vm_compute in (c72_text true) in change (c72_text true) with l.
    let l := eval vm_compute in (logic_toks true c72_c (c72_d true) ++ c72_rest) in change (logic_toks true c72_c (c72_d true) ++ c72_rest) with l.
    y_name (@nil Z) 40%nat. y_op (@nil Z) [62]. y_name (@nil Z) 41%nat. y_op [32] [124; 124]. y_op [32] [40]. y_name (@nil Z) 40%nat. y_op (@nil Z) [62]. y_num (@nil Z) 49. y_op (@nil Z) [41]. y_op (@nil Z) [59]. y_name [32] 16%nat.
    constructor.
  - let l := eval vm_compute in (c72_text false) in change (c72_text false) with l.
    let l := eval vm_compute in (logic_toks false c72_c (c72_d false) ++ c72_rest) in change (logic_toks false c72_c (c72_d false) ++ c72_rest) with l.
    y_name (@nil Z) 40%nat. y_op (@nil Z) [62]. y_name (@nil Z) 41%nat. y_op [32] [38; 38]. y_name [32] 40%nat. y_op (@nil Z) [43]. y_num (@nil Z) 49. y_op (@nil Z) [60]. y_num (@nil Z) 57. y_op (@nil Z) [59]. y_name [32] 16%nat.
    constructor.
Qed.
Lemma c72_var isor x : In x (svars (conds c72_c (c72_d isor))) -> In x (svars c63_stmt).
Proof. destruct isor; cbn; tauto. Qed.
Lemma dc_mk l e d : dc (mkcc l e d) = d. Proof. reflexivity. Qed.
Lemma em_mk l e d : em (mkcc l e d) = e. Proof. reflexivity. Qed.
Lemma c72_dc isor : dc (c72_state isor) = dc c63_state. Proof. unfold c72_state. apply dc_mk. Qed.
Lemma c72_em isor : em (c72_state isor) = em c63_state. Proof. unfold c72_state. apply em_mk. Qed.
Lemma c72_lies isor x a : In x (svars (conds c72_c (c72_d isor))) -> lies (c72_state isor) 65000 x a -> x = 40 /\ a = 65004 \/ x = 41 /\ a = 4660.
Proof. intros I L. unfold lies in L. rewrite c72_dc, c72_em in L. exact (c63_lies x a (c72_var isor x I) L). Qed.
Lemma c72_ready isor n : n = 0 \/ n = 2 \/ n = 4 \/ n = 12 -> ready (c72_state isor) (c72_after isor) (conds c72_c (c72_d isor)) (c63_env n 3) (c72_st isor n).
Proof.
  intro N. split.
  - split; [vm_compute; repeat split; discriminate|]; split; [vm_compute; repeat split; discriminate|]; split; [vm_compute; repeat split; discriminate|].
    unfold c72_st; cbn [mem]. apply load_bytes_ok; [destruct isor; vm_compute; reflexivity|]. apply load_bytes_ok; [destruct N as [->|[->|[->| ->]]]; reflexivity|]. apply load_bytes_ok; [reflexivity|].
    intro i; change (mkarr 0 Leaf) with (ainit 0 : arr Z); rewrite aget_init; lia.
  - reflexivity.
  - reflexivity.
  - destruct isor; vm_compute; reflexivity.
  - intros a R. apply Z.eqb_eq. revert a R. destruct N as [->|[->|[->| ->]]], isor; apply range_by; vm_compute; reflexivity.
  - destruct isor; vm_compute; discriminate.
  - destruct isor; vm_compute; reflexivity.
  - right. destruct isor; vm_compute; discriminate.
  - intro x. unfold c63_env, int_range. destruct (x =? 40); [lia|]. destruct (x =? 41); lia.
  - intros x a I L. destruct (c72_lies isor x a I L) as [[-> ->]|[-> ->]].
    + split; [lia|]. split; [right; right; destruct isor; vm_compute; discriminate|destruct N as [->|[->|[->| ->]]], isor; vm_compute; reflexivity].
    + split; [lia|]. split; [right; left; split; [destruct isor; vm_compute; discriminate|destruct isor; vm_compute; reflexivity]|destruct N as [->|[->|[->| ->]]], isor; vm_compute; reflexivity].
  - intros x y a b I J NE L M. destruct (c72_lies isor x a I L) as [[-> ->]|[-> ->]], (c72_lies isor y b J M) as [[-> ->]|[-> ->]]; lia.
Qed.
Example C72_ex :
  (forall isor, sees (lx (c72_state isor)) (c72_text isor) /\ schars (c72_text isor) /\ scan c63_names (c72_text isor) (logic_toks isor c72_c (c72_d isor) ++ c72_rest) /\ closes c72_rest /\ table 16 (lx (c72_state isor)) c63_names) /\
  (forall isor, good_exp c72_c /\ constant c72_c = false /\ isbool c72_c = true /\ good_exp (c72_d isor) /\ constant (c72_d isor) = false /\ isbool (c72_d isor) = true /\
   decls (svars (conds c72_c (c72_d isor))) (dc (c72_state isor)) (VOff (em (c72_state isor))) /\ begins (em (c72_state isor)) /\ NextSwitchCase (dc (c72_state isor)) < 0) /\
  (forall isor, c72_run isor = Ok (tt, c72_after isor)) /\
  (test (c63_env 4 3) c72_c true /\ test (c63_env 4 3) (c72_d false) true /\ test (c63_env 12 3) c72_c true /\ test (c63_env 12 3) (c72_d false) false /\ test (c63_env 2 3) c72_c false /\
   test (c63_env 2 3) (c72_d true) true /\ test (c63_env 0 3) c72_c false /\ test (c63_env 0 3) (c72_d true) false) /\
  (forall isor n, n = 0 \/ n = 2 \/ n = 4 \/ n = 12 -> ready (c72_state isor) (c72_after isor) (conds c72_c (c72_d isor)) (c63_env n 3) (c72_st isor n)) /\
  CurrentType (em (c72_after false)) = VT_INT /\ CurrentType (em (c72_after true)) = VT_BOOL /\
  map (fun n => option_map (fun t => ax (rg t)) (c72_end false n)) [2; 4; 12] = [Some 0; Some 1; Some 0] /\
  map (fun n => option_map (fun t => cond (CurrentVal (em (c72_after true))) (fl t)) (c72_end true n)) [0; 2; 4] = [Some (Some false); Some (Some true); Some (Some true)].
Proof.
  assert (NM : NoDup ([] ++ c63_names)) by (apply nodup_by; vm_compute; reflexivity).
  destruct (add_builtins_spec 16 ltac:(lia) c63_names (lx0 nil nil) nil (table_empty 16 nil nil) NM ltac:(vm_compute; lia)) as (l & EL & TL & _).
  assert (CL : forall isor, c72_lx isor = with_input (c72_text isor) l) by (intro isor; unfold c72_lx; rewrite EL; reflexivity). clear EL.
  split; [|split; [|split; [|split; [|split; [exact c72_ready|split; [vm_compute; reflexivity|split; [vm_compute; reflexivity|split; vm_compute; reflexivity]]]]]]].
  - intro isor. assert (AS : ascii_b (c72_text isor) = true) by (destruct isor; vm_compute; reflexivity).
    unfold c72_state. cbn [lx]. rewrite CL. split; [|split; [|split; [|split]]].
    + apply with_input_sees; [apply ascii_b_ok; exact AS|apply ascii_b_ok; exact AS].
    + apply ascii_b_ok; exact AS.
    + apply c72_scan.
    + split; [reflexivity|left; reflexivity].
    + apply (table_view 16 _ l c63_names); [reflexivity|exact TL].
  - intro isor. split; [good|]. split; [reflexivity|]. split; [reflexivity|]. split; [destruct isor; good|]. split; [destruct isor; reflexivity|]. split; [destruct isor; reflexivity|].
    split; [rewrite c72_dc, c72_em; intros x I; exact (c63_decls x (c72_var isor x I))|]. split; [rewrite c72_em; exact c63_begins|]. destruct isor; vm_compute; reflexivity.
  - intro isor. assert (IO : (match c72_run isor with Ok _ => true | _ => false end) = true) by (destruct isor; vm_compute; reflexivity).
    unfold c72_after. destruct (c72_run isor) as [[[] s']| | |]; try discriminate IO; reflexivity.
  - repeat split; first [exists 1; split; [val|reflexivity]|exists 0; split; [val|reflexivity]].
Qed.
Print Assumptions C72_logic.
Print Assumptions C72_ex.
