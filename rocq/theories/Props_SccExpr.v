(** Properties C32 and C33: whole expressions, from the text of the program to the machine.

    Reading guide.  [exp], [toks], [eval] (ExprSpec.v) are C expressions over int, how they are
    written and what they mean.  [scan names cs ts]: the characters cs spell the tokens ts, with
    blanks and comments between them, the names being numbered by their place in [names].
    [sees l cs], [table W l names]: the lexer state l is in front of cs and has met these names.
    [GetToken W F], [pExpr (tie W F n)], [GetVal W]: read a token, compile an expression, load its
    value into AX.  [t : state], [reaches]: the 8086 of Spec8086.v. *)
From Verif Require Import Base Bits Spec8086 SpecWf SccRun SccState SccEmit SccLex SccDecl SccExpr SccStmt SccInput SccRel SccIntern SccTok SccTok2 SccTok3 SccPut SccArith SccOps ExprSpec GroupSpec SccHold SccSem SccBin SccComp SccParse SccScan SccWhole SccWitness.
From Coq Require Import String.

(** the expression is followed by one of ; ) ] and : *)
Definition closes (ts : list token) : Prop :=
  match ts with
  | [] => False
  | t :: _ => t_prec t = PREC_STOP /\ (t_type t = ch_semi \/ t_type t = ch_rpar \/ t_type t = ch_rbrack \/ t_type t = ch_colon)
  end.
(** the code emitted between two states of the compiler, run by the machine in the state t, does this *)
Definition computes (s s' : cc) (env : Z -> Z) (ex : exp) (v : Z) (t : state) : Prop :=
  let need := 2 * Z.of_nat (depth ex) in
  wf t -> ss (sg t) = cs (sg t) -> ds (sg t) = cs (sg t) -> ip t = CodeAddress (em s) -> loaded (em s) (em s') t ->
  (* the stack does not run into the code, and the variables are outside the part used *)
  CodeAddress (em s') <= sp (rg t) - need ->
  (forall x a, In x (vars ex) -> lies s (bp (rg t)) x a ->
     a + 1 < 65536 /\ (a + 1 < sp (rg t) - need \/ sp (rg t) <= a) /\ env x = signed true (rd16 (mem t) (cs (sg t)) a)) ->
  reaches (fun t' => wf t' /\ ip t' = CodeAddress (em s') /\ ax (rg t') = v mod 65536 /\
    sp (rg t') = sp (rg t) /\ bp (rg t') = bp (rg t) /\ sg t' = sg t /\
    forall a, (forall o, sp (rg t) - need <= o < sp (rg t) -> a <> phys (cs (sg t)) o) -> aget (mem t') a = aget (mem t) a) t.

Lemma closes_ends rest : closes rest -> ends rest /\ prec_over PREC_COMMA rest.
Proof. destruct rest as [|t r]; [intros []|]. intros [P C]. split; [right; exact C|]. cbn [prec_over]. rewrite P. reflexivity. Qed.
Lemma toks_cons e : exists t l, toks e = t :: l.
Proof.
  induction e as [v|x|e _|u e _|p a (t & l & E) b _]; cbn [toks]; try (eexists; eexists; reflexivity).
  rewrite E. cbn [app]. eexists; eexists; reflexivity.
Qed.

(** ** C32: expressions compile to code that computes them *)
Theorem C32_expression : forall W F n s s' x0 env ex v names cs rest,
  16 <= W ->
  (* the text *)
  sees (lx s) cs -> schars cs -> scan names cs (toks ex ++ rest) -> closes rest ->
  table W (lx s) names -> (List.length names <= 580)%nat -> (2 * List.length cs + 1 < F)%nat -> IdBufPtr (lx s) + Z.of_nat (List.length cs) < 5000 ->
  (* the expression *)
  wf_exp ex -> eval env ex = Some v -> right env ex -> env_ok env -> declared (dc s) (VOff (em s)) ex ->
  (* the compiler is at the start of an expression in live code, and compiles it *)
  live (em s) -> RegUse (em s) = false ->
  (GetToken W F ;; (pExpr (tie W F n) ;; GetVal W)) s = Ok (x0, s') ->
  dc s' = dc s /\ live (em s') /\ VOff (em s') = VOff (em s) /\ stream W F (lx s') rest /\ forall t, computes s s' env ex v t.
Proof.
  intros W F n s s' x0 env ex v names cs rest HW SE SC SN CL T LN LF LB WF EV R EO DC L RU H.
  destruct (closes_ends _ CL) as [EN PO]. destruct (toks_cons ex) as (t0 & tl & ET).
  remember (toks ex ++ rest) as ts eqn:ETS. destruct SN as [cs|w sp t1 cs ts TR LX SN]; [rewrite ET in ETS; discriminate|].
  assert (E0 : t1 = t0 /\ ts = tl ++ rest) by (rewrite ET in ETS; cbn [app] in ETS; injection ETS; auto). destruct E0 as [-> ->].
  destruct (trivia_token W F HW names s w sp t0 cs TR SE SC LX T LN LF ltac:(rewrite app_length in LB; lia)) as (l' & G & S' & A' & T' & U').
  rewrite (bind_ok _ _ _ _ _ G) in H.
  assert (ST : stream W F l' (toks ex ++ rest)).
  { rewrite ET. cbn [app]. apply schars_app in SC as [_ SC]. apply schars_app in SC as [_ SC]. rewrite !app_length in *.
    apply (scan_stream W F HW names (tl ++ rest) cs l' t0 A' S' SC SN T' LN); lia. }
  destruct (expression_runs W HW F n env ex v (set_lx l' s) x0 s' rest EO WF EV R DC L RU ST EN PO H) as (D & ST' & IR).
  split; [exact D|]. split; [apply IR|]. split; [apply IR|]. split; [exact ST'|]. intros t. unfold computes. cbv zeta. intros Wt SS DS IP LD ROOM VARS. clear H.
  apply (inreg_runs (dc s) env ex (em s) (em s') v t IR L RU eq_refl Wt SS DS IP LD ROOM).
  intros x Loc Val I IV a. apply (VARS x a I). exists Loc, Val. split; [exact IV|reflexivity].
Qed.

(** ** C33: operators group by precedence, and to the left *)
(** a sequence of operands and operators has exactly one tree that follows the C grammar ... *)
Theorem C33_grouping : forall q, operands_ok q -> exists e, (wf_exp e /\ flat e = q) /\ forall e', wf_exp e' -> flat e' = q -> e' = e.
Proof. exact grouping. Qed.
(** ... and the compiler, given the sequence, emits the code of that tree *)
Theorem C33_compiled : forall W F n s s' x0 env q names cs rest,
  16 <= W ->
  sees (lx s) cs -> schars cs -> scan names cs (seq_toks q ++ rest) -> closes rest ->
  table W (lx s) names -> (List.length names <= 580)%nat -> (2 * List.length cs + 1 < F)%nat -> IdBufPtr (lx s) + Z.of_nat (List.length cs) < 5000 ->
  env_ok env -> live (em s) -> RegUse (em s) = false ->
  (GetToken W F ;; (pExpr (tie W F n) ;; GetVal W)) s = Ok (x0, s') ->
  operands_ok q ->
  forall e v, wf_exp e -> flat e = q -> eval env e = Some v -> right env e -> declared (dc s) (VOff (em s)) e ->
  forall t, computes s s' env e v t.
Proof.
  intros W F n s s' x0 env q names cs rest HW SE SC SN CL T LN LF LB EO L RU H OQ e v WF FE EV R DC.
  rewrite <- FE, <- written in SN.
  apply (C32_expression W F n s s' x0 env e v names cs rest HW SE SC SN CL T LN LF LB WF EV R EO DC L RU H).
Qed.

(** *** A case: a local a = 100 at BP-2, a global b = -5 at address 4660, and the expression
    a*(b+3) - b%7 < ~a /* comment */ ; *)
Definition c32_text : list Z := bytes_of "a*(b+ 3)-b%7<~a /* no */;}"%string.
Definition c32_names : list (list Z) := builtins ++ [bytes_of "a"; bytes_of "b"].
Definition c32_exp : exp :=
  EOp (Rel Lt) (EOp (Arith Sub) (EOp (Arith Mul) (EVar 40) (EPar (EOp (Arith Add) (EVar 41) (ENum 3)))) (EOp (Arith Mod) (EVar 41) (ENum 7))) (EUn Com (EVar 40)).
Definition c32_env (x : Z) : Z := if x =? 40 then 100 else -5.
Definition c32_lx : lexst := match add_builtins 16 c32_names (lx0 nil nil) with Ok (_, l) => with_input c32_text l | _ => lx0 nil nil end.
Definition c32_state : cc :=
  mkcc c32_lx (set_VOff (aset (aset (ainit 0) 0 (-2)) 1 4660) em0)
    (set_VType (aset (aset (ainit 0) 0 (VT_INT + VT_LOCOFF)) 1 (VT_INT + VT_LOCGLOB)) (set_VarLookup (aset (aset (ainit 0) 40 1) 41 2) dc0)).
Definition c32_run : outcome (unit * cc) := (GetToken 16 60 ;; (pExpr (tie 16 60 30) ;; GetVal 16)) c32_state.

Lemma longest_by op cs : forallb (fun o => negb (list_eqb (firstn (List.length (fst (fst o))) cs) (fst (fst o))) || (List.length (fst (fst o)) <=? List.length op)%nat) ops = true -> longest op cs.
Proof.
  intros H op' t p r I E. rewrite forallb_forall in H. specialize (H _ I). cbn [fst] in H. apply orb_true_iff in H. destruct H as [H|H].
  - apply negb_true_iff in H. subst cs. rewrite firstn_app, Nat.sub_diag, firstn_all, app_nil_r in H.
    assert (list_eqb op' op' = true) by (clear; induction op' as [|x l IH]; cbn [list_eqb]; [reflexivity|]; rewrite Z.eqb_refl; exact IH). congruence.
  - apply Nat.leb_le in H. exact H.
Qed.
Ltac an_op sp w := apply (scan_tok c32_names w sp); [repeat first [apply tr_nil|apply tr_blank; [lia|]]| apply lex_op; [vm_compute; tauto|apply longest_by; vm_compute; reflexivity|try discriminate; try (intros _; split; discriminate)|try discriminate; try (intros _; discriminate)]|].
Ltac a_name i := apply (scan_tok c32_names [] (nth i c32_names [])); [constructor|apply (lex_name c32_names _ _ _ i); [reflexivity|repeat constructor|reflexivity|vm_compute; reflexivity]|].
Ltac a_num w c v := apply (scan_tok c32_names w [c]); [repeat first [apply tr_nil|apply tr_blank; [lia|]]|apply (lex_num c32_names c 10 [] [] _); [right; split; [lia|split; reflexivity]|apply Forall_nil|cbn; lia|intros _; split; [reflexivity|intros _; split; discriminate]|vm_compute; split; [discriminate|reflexivity]]|].
Definition c32_end : list token := [(ch_semi, PREC_STOP, 0)].
Lemma c32_scan : scan c32_names c32_text (toks c32_exp ++ c32_end).
Proof.
  let l := eval vm_compute in c32_text in change c32_text with l.
  let l := eval vm_compute in (toks c32_exp ++ c32_end) in change (toks c32_exp ++ c32_end) with l.
  a_name 40%nat. an_op [42] (@nil Z). an_op [40] (@nil Z). a_name 41%nat. an_op [43] (@nil Z). a_num [32] 51 3. an_op [41] (@nil Z). an_op [45] (@nil Z).
  a_name 41%nat. an_op [37] (@nil Z). a_num (@nil Z) 55 7. an_op [60] (@nil Z). an_op [126] (@nil Z). a_name 40%nat.
  apply (scan_tok c32_names [32; 47; 42; 32; 110; 111; 32; 42; 47] [59]).
  - apply tr_blank; [lia|]. apply (tr_block [32; 110; 111; 32] []); [|constructor]. intros a b E.
    apply (f_equal (fun l => In 42 l)) in E. assert (H : In 42 (a ++ [42; 47] ++ b)) by (apply in_or_app; right; left; reflexivity).
    rewrite <- E in H. cbn [In] in H. lia.
  - apply lex_op; [vm_compute; tauto|apply longest_by; vm_compute; reflexivity|discriminate|discriminate].
  - constructor.
Qed.
Definition ascii_b (l : list Z) : bool := forallb (fun c => (0 <? c) && (c <? 128)) l.
Lemma ascii_b_ok l : ascii_b l = true -> schars l /\ nz (tl l).
Proof.
  intro H. unfold ascii_b in H. rewrite forallb_forall in H. assert (A : forall c, In c l -> 0 < c < 128).
  { intros c I. specialize (H c I). apply andb_prop in H. destruct H as [H1 H2]. apply Z.ltb_lt in H1, H2. lia. }
  split; [apply Forall_forall; intros c I; specialize (A c I); lia|]. destruct l as [|c l]; [constructor|].
  apply Forall_forall. intros d I. specialize (A d (or_intror I)). lia.
Qed.
Definition c32_after : cc := match c32_run with Ok (_, s) => s | _ => c32_state end.
Definition c32_st : state :=
  mkst (mkregs 1 2 3 4 65532 65534 7 8) (mksregs 4096 4096 4096 4096) 256 (mkflags false false false false)
    (load_bytes (match c32_run with Ok (_, s) => out_bytes (Z.to_nat (CodeAddress (em s) - 256)) 0 (Output (em s)) | _ => nil end) (phys 4096 256)
       (load_bytes [100; 0] (phys 4096 65532) (load_bytes [251; 255] (phys 4096 4660) (mkarr 0 Leaf)))).
(* run to the given address *)
Fixpoint until (u : flags) (a : Z) (n : nat) (s : state) : option state :=
  match n with O => None | S n => if ip s =? a then Some s else match step u s with Some s' => until u a n s' | None => None end end.
Lemma c32_right : right c32_env c32_exp.
Proof.
  unfold c32_exp. cbn [right constant]. repeat split; try (right; intros x y X Y; cbn [right_op constant]).
  all: try (injection X as <-); try (injection Y as <-); cbn [andb]; try (intros; discriminate).
  - split; intros _; discriminate.
  - split; intro C; discriminate C.
  - exact I.
Qed.
Lemma load_bytes_ok bs : forall a m, forallb (fun b => (0 <=? b) && (b <? 256)) bs = true -> mem_ok m -> mem_ok (load_bytes bs a m).
Proof.
  induction bs as [|b bs IH]; intros a m H MO; cbn [load_bytes]; [exact MO|]. cbn [forallb] in H. apply andb_prop in H. destruct H as [H1 H2].
  apply IH; [exact H2|]. intro i. destruct (Z.eq_dec i a) as [->|N]; [rewrite aget_aset_same|rewrite aget_aset_other by congruence; apply MO].
  apply andb_prop in H1. destruct H1 as [A B]. apply Z.leb_le in A. apply Z.ltb_lt in B. lia.
Qed.
Lemma c32_wf : wf c32_st.
Proof.
  split; [vm_compute; repeat split; discriminate|]. split; [vm_compute; repeat split; discriminate|]. split; [vm_compute; repeat split; discriminate|].
  unfold c32_st. cbn [mem]. apply load_bytes_ok; [vm_compute; reflexivity|]. apply load_bytes_ok; [reflexivity|]. apply load_bytes_ok; [reflexivity|].
  intro i. change (mkarr 0 Leaf) with (ainit 0 : arr Z). rewrite aget_init. lia.
Qed.
Lemma range_by lo hi (P : Z -> bool) : forallb P (map (fun n => lo + Z.of_nat n) (seq 0 (Z.to_nat (hi - lo)))) = true -> forall a, lo <= a < hi -> P a = true.
Proof.
  intros H a R. rewrite forallb_forall in H. apply H. apply in_map_iff. exists (Z.to_nat (a - lo)). split; [lia|]. apply in_seq. lia.
Qed.
Lemma c32_loaded : loaded (em c32_state) (em c32_after) c32_st.
Proof.
  intros a R. apply Z.eqb_eq. revert a R. apply range_by. vm_compute. reflexivity.
Qed.
Example C32_ex : exists s',
  (sees (lx c32_state) c32_text /\ schars c32_text /\ scan c32_names c32_text (toks c32_exp ++ c32_end) /\ closes c32_end /\ table 16 (lx c32_state) c32_names) /\
  (wf_exp c32_exp /\ eval c32_env c32_exp = Some 1 /\ right c32_env c32_exp /\ env_ok c32_env /\ declared (dc c32_state) (VOff (em c32_state)) c32_exp) /\
  (live (em c32_state) /\ RegUse (em c32_state) = false /\ c32_run = Ok (tt, s')) /\
  (* a machine that meets the conditions, and what it computes: 100 * -2 - -5 < -101 *)
  (wf c32_st /\ loaded (em c32_state) (em s') c32_st /\ lies c32_state (bp (rg c32_st)) 40 65532 /\ lies c32_state (bp (rg c32_st)) 41 4660) /\
  option_map (fun t => (ax (rg t), sp (rg t))) (until zclear (CodeAddress (em s')) 100 c32_st) = Some (1, 65532).
Proof.
  assert (NM : NoDup ([] ++ c32_names)).
  { assert (ND : forall l : list (list Z), (fix nd l := match l with [] => true | x :: r => negb (existsb (list_eqb x) r) && nd r end) l = true -> NoDup l).
    { induction l as [|x r IH]; intro H; constructor; apply andb_prop in H; destruct H as [H1 H2]; [|exact (IH H2)].
      intro I. apply negb_true_iff in H1. assert (H : existsb (list_eqb x) r = true); [|congruence]. apply existsb_exists. exists x. split; [exact I|].
      clear. induction x as [|y x IH]; cbn [list_eqb]; [reflexivity|]; rewrite Z.eqb_refl; exact IH. }
    apply ND. vm_compute. reflexivity. }
  assert (AS : ascii_b c32_text = true) by (vm_compute; reflexivity).
  destruct (add_builtins_spec 16 ltac:(lia) c32_names (lx0 nil nil) nil (table_empty 16 nil nil) NM ltac:(vm_compute; lia)) as (l & EL & TL & _).
  assert (CL : c32_lx = with_input c32_text l) by (unfold c32_lx; rewrite EL; reflexivity).
  assert (IO : (match c32_run with Ok _ => true | _ => false end) = true) by (vm_compute; reflexivity).
  assert (E : c32_run = Ok (tt, c32_after)) by (unfold c32_after; destruct c32_run as [[[] s']| | |]; try discriminate IO; reflexivity).
  exists c32_after. clear EL.
  split; [|split; [|split; [|split]]].
  - unfold c32_state. cbn [lx]. rewrite CL. split; [|split; [|split; [|split]]].
    + apply with_input_sees; [apply ascii_b_ok; exact AS|apply ascii_b_ok; exact AS].
    + apply ascii_b_ok; exact AS.
    + exact c32_scan.
    + split; [reflexivity|left; reflexivity].
    + apply (table_view 16 _ l c32_names); [reflexivity|exact TL].
  - split; [vm_compute; intuition discriminate|]. split; [vm_compute; reflexivity|]. split; [|split].
    + exact c32_right.
    + intro x. unfold c32_env, int_range. destruct (x =? 40); lia.
    + intros x I. cbn [vars c32_exp app In] in I. repeat destruct I as [<-|I]; try contradiction; (split; [vm_compute; discriminate|]).
      1,4: (exists VT_LOCOFF, (-2); split; [vm_compute; discriminate|]; split; [vm_compute; reflexivity|]; left; vm_compute; split; reflexivity).
      all: exists VT_LOCGLOB, 1; split; [vm_compute; discriminate|]; split; [vm_compute; reflexivity|]; right; vm_compute; split; [reflexivity|split; [reflexivity|discriminate]].
  - split; [vm_compute; repeat split; discriminate|]. split; [reflexivity|]. exact E.
  - split; [exact c32_wf|]. split; [exact c32_loaded|]. split; [exists VT_LOCOFF, (-2)|exists VT_LOCGLOB, 1]; (split; [|vm_compute; reflexivity]); (split; [vm_compute; discriminate|]; split; [vm_compute; reflexivity|]).
    + left. vm_compute. auto.
    + right. vm_compute. repeat split; discriminate.
  - vm_compute. reflexivity.
Qed.
(* whole programs *)
Example C32_programs :
  returns "int f(int a, int b) { return a*(b+3) - b%7 < ~a; } int _start() { return f(100, -5); }" zset 1000 = Some 1 /\
  returns "int f(int a, int b) { return (a - (b - (a - (b - (a + 7))))) ^ a << 2 | b >> 1 & 15; } int _start() { return f(100, 37); }" zset 1000 = Some (Z.lor (Z.lxor (100 - (37 - (100 - (37 - (100 + 7))))) (100 * 4)) (Z.land 18 15)).
Proof. vm_compute. auto. Qed.
(* a - b - c groups to the left, and * before + before << before < before & *)
Example C33_ex : let q := (EVar 40, [(Arith Sub, EVar 41); (Arith Sub, ENum 2); (Arith Mul, ENum 3); (Arith Shl, ENum 1); (Rel Lt, ENum 9); (Arith And, ENum 5)]) in
  operands_ok q /\ exists e, wf_exp e /\ flat e = q /\
  e = EOp (Arith And) (EOp (Rel Lt) (EOp (Arith Shl) (EOp (Arith Sub) (EOp (Arith Sub) (EVar 40) (EVar 41)) (EOp (Arith Mul) (ENum 2) (ENum 3))) (ENum 1)) (ENum 9)) (ENum 5).
Proof.
  cbv zeta. split; [split; cbn [fst snd]; repeat constructor; cbn; lia|]. eexists. split; [|split; [|reflexivity]]; [cbn; lia|reflexivity].
Qed.

Print Assumptions C32_expression.
Print Assumptions C33_grouping.
Print Assumptions C33_compiled.
