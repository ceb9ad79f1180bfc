(** Property C66: calls of functions with up to four arguments.

    Reading guide.  The text, the tokens and the machine are as in Props_SccExpr.v.  [call_toks f l]:
    the tokens of f(e1, ..., en).  [asn_toks x f l]: those of x = f(e1, ..., en).
    [fun_at d vo f a]: the name f is that of a function returning int whose code is at the address a.
    [arg_room n]: the bytes of the stack that n arguments take, 0 for none and 8 for one to four. *)
From Verif Require Import Base Bits Spec8086 SpecWf SccRun SccState SccEmit SccLex SccDecl SccExpr SccStmt SccInput SccRel SccIntern SccTok SccTok2 SccTok3 SccPut SccArith SccOps ExprSpec GroupSpec SccHold SccSem SccBin SccComp SccParse SccScan SccWhole SccWitness Props_SccExpr.
From Verif Require SccVal SccCall SccCall2 SccCall3.
From Coq Require Import String.
Import SccCall2 SccCall3.

(** an argument: an expression with the value v over variables that are declared *)
Definition argument (s : cc) (env : Z -> Z) (ex : exp) (v : Z) : Prop :=
  wf_exp ex /\ eval env ex = Some v /\ right env ex /\ declared (dc s) (VOff (em s)) ex.
(** the lowest address of the stack the code uses *)
Definition lowest (l : list exp) (t : state) : Z := sp (rg t) - arg_room (List.length l) - 2 * Z.of_nat (Nat.max 1 (list_max (map depth l))).
(** a machine at the start of the code emitted between the states s and s' of the compiler *)
Definition ready (s s' : cc) (env : Z -> Z) (l : list exp) (t : state) : Prop :=
  wf t /\ ss (sg t) = cs (sg t) /\ ds (sg t) = cs (sg t) /\ ip t = CodeAddress (em s) /\ loaded (em s) (em s') t /\
  (* the top of the stack is where the compiler takes it to be *)
  (bp (rg t) + LocalOffset (em s)) mod 65536 = sp (rg t) /\
  (* the stack does not run into the code, and the variables are outside the part used *)
  CodeAddress (em s') <= lowest l t /\
  (forall ex x b, In ex l -> In x (vars ex) -> lies s (bp (rg t)) x b ->
     b + 1 < 65536 /\ (b + 1 < lowest l t \/ sp (rg t) <= b) /\ env x = signed true (rd16 (mem t) (cs (sg t)) b)).
(** the machine t1 is at the start of the function at a, called from t: on top of the stack the return
    address q, then the arguments, the first one lowest *)
Definition entered (a q : Z) (l : list exp) (vs : list Z) (t t1 : state) : Prop :=
  wf t1 /\ ip t1 = a mod 65536 /\ sp (rg t1) = sp (rg t) - arg_room (List.length l) - 2 /\
  rd16 (mem t1) (cs (sg t)) (sp (rg t1)) = q /\
  (forall j, (j < List.length l)%nat -> rd16 (mem t1) (cs (sg t)) (sp (rg t1) + 2 + 2 * Z.of_nat j) = nth j vs 0 mod 65536) /\
  bp (rg t1) = bp (rg t) /\ sg t1 = sg t /\
  forall b, (forall o, lowest l t <= o < sp (rg t) -> b <> phys (cs (sg t)) o) -> aget (mem t1) b = aget (mem t) b.

Lemma list_max_le l : forall x, In x l -> (x <= list_max l)%nat.
Proof. induction l as [|y l IH]; intros x []; cbn [list_max fold_right]; [lia|]. specialize (IH x H). unfold list_max in *. lia. Qed.
Lemma enters s s' e2 env l vs a t : SccCall2.calls (dc s) env (em s) e2 l vs a -> loaded (em s) e2 t -> CodeAddress e2 <= CodeAddress (em s') -> ready s s' env l t ->
  reaches (entered a (CodeAddress e2) l vs t) t.
Proof.
  intros CL LD LE (Wt & SS & DS & IP & _ & BP & ROOM & VARS). set (low := lowest l t) in *. assert (LW : low = sp (rg t) - arg_room (List.length l) - 2 * Z.of_nat (Nat.max 1 (list_max (map depth l)))) by reflexivity.
  apply (CL t low); auto; try lia.
  - apply Forall_forall. intros ex I. pose proof (list_max_le (map depth l) (depth ex) (in_map depth l ex I)). lia.
  - apply Forall_forall. intros ex I x Loc Val IX IV. apply (VARS ex x _ I IX). exists Loc, Val. split; [exact IV|reflexivity].
Qed.
Lemma head_stream W F names s cs ts0 t0 tl rest : 16 <= W -> sees (lx s) cs -> schars cs -> scan names cs (ts0 ++ rest) -> ts0 = t0 :: tl ->
  table W (lx s) names -> (List.length names <= 580)%nat -> (2 * List.length cs + 1 < F)%nat -> IdBufPtr (lx s) + Z.of_nat (List.length cs) < 5000 ->
  exists l', GetToken W F s = Ok (tt, set_lx l' s) /\ stream W F l' (ts0 ++ rest).
Proof.
  intros HW SE SC SN ET T LN LF LB. remember (ts0 ++ rest) as ts eqn:ETS. destruct SN as [cs|w sp t1 cs ts TR LX SN]; [rewrite ET in ETS; discriminate|].
  assert (E0 : t1 = t0 /\ ts = tl ++ rest) by (rewrite ET in ETS; cbn [app] in ETS; injection ETS; auto). destruct E0 as [-> ->].
  destruct (trivia_token W F HW names s w sp t0 cs TR SE SC LX T LN LF ltac:(rewrite app_length in LB; lia)) as (l' & G & S' & A' & T' & U').
  exists l'. split; [exact G|]. apply schars_app in SC as [_ SC]. apply schars_app in SC as [_ SC]. rewrite !app_length in *.
  apply (scan_stream W F HW names (tl ++ rest) cs l' t0 A' S' SC SN T' LN); lia.
Qed.

(** ** C66: the function is entered with its arguments *)
Theorem C66_call : forall W F n s s' x0 env f a l vs names txt rest,
  16 <= W ->
  (* the text *)
  sees (lx s) txt -> schars txt -> scan names txt (call_toks f l ++ rest) -> closes rest ->
  table W (lx s) names -> (List.length names <= 580)%nat -> (2 * List.length txt + 1 < F)%nat -> IdBufPtr (lx s) + Z.of_nat (List.length txt) < 5000 ->
  (* the function and the arguments *)
  fun_at (dc s) (VOff (em s)) f a -> Forall2 (argument s env) l vs -> (List.length l <= 4)%nat -> env_ok env ->
  (* the compiler is at the start of an expression in live code, and compiles it *)
  live (em s) -> RegUse (em s) = false ->
  (GetToken W F ;; (pExpr (tie W F n) ;; GetVal W)) s = Ok (x0, s') ->
  dc s' = dc s /\ VOff (em s') = VOff (em s) /\ stream W F (lx s') rest /\
  (* the value of the call is in AX; the arguments are to come off the stack, which is counted already *)
  CurrentType (em s') = VT_INT /\ Pending (em s') = arg_room (List.length l) /\ LocalOffset (em s') = LocalOffset (em s) /\
  forall t, ready s s' env l t -> reaches (entered a (CodeAddress (em s')) l vs t) t.
Proof.
  intros W F n s s' x0 env f a l vs names txt rest HW SE SC SN CL T LN LF LB FA F2 L4 EO L RU H.
  destruct (closes_ends _ CL) as [EN PO]. destruct (head_stream W F names s txt (call_toks f l) _ _ rest HW SE SC SN eq_refl T LN LF LB) as (l0 & G & ST).
  rewrite (bind_ok _ _ _ _ _ G) in H. minv H y s1 E.
  destruct (named_call W F HW (dc s) env EO n f a l vs (set_lx l0 s) y s1 rest FA F2 L4 L RU eq_refl ST EN PO E) as (e2 & xt & l' & -> & ST' & L2 & VO & RU2 & LO & X & CS).
  apply SccVal.getval_int in H; [|reflexivity]. subst s'.
  split; [reflexivity|]. split; [exact VO|]. split; [exact ST'|]. split; [reflexivity|]. split; [reflexivity|]. split; [change (LocalOffset e2 + arg_room (List.length l) = LocalOffset (em s)); rewrite LO; change (em (set_lx l0 s)) with (em s); lia|].
  intros t RD. match goal with |- reaches (entered _ (CodeAddress ?ee) _ _ _) _ => change (CodeAddress ee) with (CodeAddress e2) end.
  refine (enters s _ e2 env l vs a t CS _ _ RD); [|apply Z.le_refl]. destruct RD as (_ & _ & _ & _ & LD & _). exact LD.
Qed.

(** ** C66: what it returns is assigned *)
(** the machine t2 is back from the function entered in t1 *)
Definition back (s s' : cc) (q : Z) (t1 t2 : state) : Prop :=
  wf t2 /\ ip t2 = q /\ sp (rg t2) = sp (rg t1) + 2 /\ bp (rg t2) = bp (rg t1) /\ sg t2 = sg t1 /\ loaded (em s) (em s') t2.
Theorem C66_assignment : forall W F n s s' x0 env x f a l vs names txt rest,
  16 <= W ->
  sees (lx s) txt -> schars txt -> scan names txt (asn_toks x f l ++ rest) -> closes rest ->
  table W (lx s) names -> (List.length names <= 580)%nat -> (2 * List.length txt + 1 < F)%nat -> IdBufPtr (lx s) + Z.of_nat (List.length txt) < 5000 ->
  declared (dc s) (VOff (em s)) (EVar x) -> fun_at (dc s) (VOff (em s)) f a -> Forall2 (argument s env) l vs -> (List.length l <= 4)%nat -> env_ok env ->
  live (em s) -> RegUse (em s) = false ->
  (GetToken W F ;; pExpr (tie W F n)) s = Ok (x0, s') ->
  dc s' = dc s /\ live (em s') /\ RegUse (em s') = false /\ VOff (em s') = VOff (em s) /\ LocalOffset (em s') = LocalOffset (em s) /\ stream W F (lx s') rest /\
  exists q, CodeAddress (em s) <= q <= CodeAddress (em s') /\
  (* if the function, entered with the arguments, comes back to q with the stack as it was, in a state with P *)
  forall t p (P : state -> Prop), ready s s' env l t -> lies s (bp (rg t)) x p ->
  (forall t1, entered a q l vs t t1 -> reaches (fun t2 => back s s' q t1 t2 /\ P t2) t1) ->
  (* then x becomes what it has returned in AX, and nothing else changes *)
  reaches (fun t' => wf t' /\ ip t' = CodeAddress (em s') /\ sp (rg t') = sp (rg t) /\ bp (rg t') = bp (rg t) /\ sg t' = sg t /\
    exists t2, P t2 /\ mem t' = wr16 (mem t2) (cs (sg t)) p (ax (rg t2))) t.
Proof.
  intros W F n s s' x0 env x f a l vs names txt rest HW SE SC SN CL T LN LF LB DX FA F2 L4 EO L RU H.
  destruct (closes_ends _ CL) as [EN PO]. destruct (head_stream W F names s txt (asn_toks x f l) _ _ rest HW SE SC SN eq_refl T LN LF LB) as (l0 & G & ST).
  rewrite (bind_ok _ _ _ _ _ G) in H.
  destruct (set_call W F HW (dc s) env EO n x f a l vs (set_lx l0 s) x0 s' rest DX FA F2 L4 eq_refl L RU ST EN PO H) as (Loc & Val & IV & e' & l' & e2 & -> & ST' & L' & VO & RU' & LO & X1 & X2 & VO2 & CS & SA).
  change (em (set_lx l0 s)) with (em s) in *. split; [reflexivity|]. split; [exact L'|]. split; [exact RU'|]. split; [exact VO|]. split; [exact LO|]. split; [exact ST'|].
  exists (CodeAddress e2). pose proof X1 as (X11 & _). pose proof X2 as (X21 & _). match goal with |- context [em ?ss] => change (em ss) with e' end. split; [lia|].
  intros t p P RD LI FN. pose proof RD as (Wt & SS & DS & IP & LD & BP & ROOM & _). change (loaded (em s) e' t) in LD. destruct (SccCall.loaded_ext _ _ _ _ X1 X2 LD) as [LD1 _].
  assert (SPR : 0 <= sp (rg t) < 65536) by (exact (proj1 (proj2 (proj2 (proj2 (proj2 (proj1 Wt))))))).
  set (s9 := set_lx l' (set_em e' (set_lx l0 s))) in *. eapply reaches_trans; [exact (enters s s9 e2 env l vs a t CS LD1 X21 RD)|]. intros t1 EN1. eapply reaches_trans; [exact (FN t1 EN1)|]. cbv beta.
  intros t2 ((W2 & I2 & S2 & B2 & G2 & LD2) & P2). destruct EN1 as (_ & _ & SP1 & _ & _ & BP1 & SG1 & _). change (loaded (em s) e' t2) in LD2. destruct (SccCall.loaded_ext _ _ _ _ X1 X2 LD2) as [_ LD3].
  eapply reaches_imp; [apply (SA t2 W2 ltac:(congruence) ltac:(congruence) I2 LD3 ltac:(lia))|]. cbv beta zeta. intros t' (W' & I' & S' & B' & A' & G' & M').
  split; [exact W'|]. split; [exact I'|]. split; [lia|]. split; [congruence|]. split; [congruence|]. exists t2. split; [exact P2|]. rewrite M', G2, SG1, B2, BP1, VO2.
  destruct LI as (Loc' & Val' & IV' & ->). destruct (int_var_fun _ _ _ _ _ _ _ IV IV') as [-> ->]. reflexivity.
Qed.

(** *** A case: locals x at BP-4 and a = 100 at BP-2, a global b = -5 at address 4660, and a function f at address 768, which
    returns its first argument less its second one; the text x = f(a+1,b,7) ; *)
Definition c66_text : list Z := bytes_of "x = f(a+1,b, 7);}"%string.
Definition c66_names : list (list Z) := (builtins ++ [bytes_of "a"; bytes_of "b"; bytes_of "x"; bytes_of "f"])%list.
Definition c66_args : list exp := [EOp (Arith Add) (EVar 40) (ENum 1); EVar 41; ENum 7].
Definition c66_lx : lexst := match add_builtins 16 c66_names (lx0 nil nil) with Ok (_, l) => with_input c66_text l | _ => lx0 nil nil end.
Definition c66_state : cc :=
  mkcc c66_lx (set_LocalOffset (-4) (set_VOff (aset (aset (aset (aset (ainit 0) 0 (-2)) 1 4660) 2 (-4)) 3 768) em0))
    (set_VType (aset (aset (aset (aset (ainit 0) 0 (VT_INT + VT_LOCOFF)) 1 (VT_INT + VT_LOCGLOB)) 2 (VT_INT + VT_LOCOFF)) 3 (VT_INT + VT_FUN + VT_LOCGLOB))
       (set_VarLookup (aset (aset (aset (aset (ainit 0) 40 1) 41 2) 42 3) 43 4) dc0)).
Definition c66_run : outcome (unit * cc) := (GetToken 16 60 ;; pExpr (tie 16 60 30)) c66_state.
Definition c66_after : cc := match c66_run with Ok (_, s) => s | _ => c66_state end.
Definition c66_end : list token := [(ch_semi, PREC_STOP, 0)].
(* POP SI; POP AX; POP CX; SUB AX,CX; SUB SP,4; PUSH SI; RET *)
Definition c66_fun : list Z := [94; 88; 89; 43; 193; 131; 236; 4; 86; 195].
Definition c66_st : state :=
  mkst (mkregs 1 2 3 4 65530 65534 7 8) (mksregs 4096 4096 4096 4096) 256 (mkflags false false false false)
    (load_bytes (match c66_run with Ok (_, s) => out_bytes (Z.to_nat (CodeAddress (em s) - 256)) 0 (Output (em s)) | _ => nil end) (phys 4096 256)
       (load_bytes c66_fun (phys 4096 768) (load_bytes [100; 0] (phys 4096 65532) (load_bytes [251; 255] (phys 4096 4660) (mkarr 0 Leaf))))).
Ltac an_op66 sp w := apply (scan_tok c66_names w sp); [repeat first [apply tr_nil|apply tr_blank; [lia|]]| apply lex_op; [vm_compute; tauto|apply longest_by; vm_compute; reflexivity|try discriminate; try (intros _; split; discriminate)|try discriminate; try (intros _; discriminate)]|].
Ltac a_name66 w i := apply (scan_tok c66_names w (nth i c66_names [])); [repeat first [apply tr_nil|apply tr_blank; [lia|]]|apply (lex_name c66_names _ _ _ i); [reflexivity|repeat constructor|reflexivity|vm_compute; reflexivity]|].
Ltac a_num66 w c v := apply (scan_tok c66_names w [c]); [repeat first [apply tr_nil|apply tr_blank; [lia|]]|apply (lex_num c66_names c 10 [] [] _); [right; split; [lia|split; reflexivity]|apply Forall_nil|cbn; lia|intros _; split; [reflexivity|intros _; split; discriminate]|vm_compute; split; [discriminate|reflexivity]]|].
Lemma c66_scan : scan c66_names c66_text (asn_toks 42 43 c66_args ++ c66_end).
Proof.
  let l := eval vm_compute in c66_text in change c66_text with l.
  let l := eval vm_compute in (asn_toks 42 43 c66_args ++ c66_end)%list in change (asn_toks 42 43 c66_args ++ c66_end)%list with l.
  a_name66 (@nil Z) 42%nat. an_op66 [61] [32]. a_name66 [32] 43%nat. an_op66 [40] (@nil Z). a_name66 (@nil Z) 40%nat. an_op66 [43] (@nil Z). a_num66 (@nil Z) 49 1. an_op66 [44] (@nil Z).
  a_name66 (@nil Z) 41%nat. an_op66 [44] (@nil Z). a_num66 [32] 55 7. an_op66 [41] (@nil Z). an_op66 [59] (@nil Z). constructor.
Qed.
Lemma c66_var40 : int_var (dc c66_state) (VOff (em c66_state)) 40 VT_LOCOFF (-2).
Proof. split; [vm_compute; discriminate|]. split; [vm_compute; reflexivity|]. left. vm_compute. auto. Qed.
Lemma c66_var41 : int_var (dc c66_state) (VOff (em c66_state)) 41 VT_LOCGLOB 1.
Proof. split; [vm_compute; discriminate|]. split; [vm_compute; reflexivity|]. right. vm_compute. repeat split; discriminate. Qed.
Lemma c66_var42 : int_var (dc c66_state) (VOff (em c66_state)) 42 VT_LOCOFF (-4).
Proof. split; [vm_compute; discriminate|]. split; [vm_compute; reflexivity|]. left. vm_compute. auto. Qed.
Lemma c66_declared x : x = 40 \/ x = 41 \/ x = 42 -> TOK_ID <= TOK_KEYWORD + x /\ exists Loc Val, int_var (dc c66_state) (VOff (em c66_state)) x Loc Val.
Proof. intros [->|[->| ->]]; (split; [vm_compute; discriminate|]); eauto using c66_var40, c66_var41, c66_var42. Qed.
Lemma c66_wf : wf c66_st.
Proof.
  split; [vm_compute; repeat split; discriminate|]. split; [vm_compute; repeat split; discriminate|]. split; [vm_compute; repeat split; discriminate|].
  unfold c66_st. cbn [mem]. apply load_bytes_ok; [vm_compute; reflexivity|]. apply load_bytes_ok; [reflexivity|]. apply load_bytes_ok; [reflexivity|]. apply load_bytes_ok; [reflexivity|].
  intro i. change (mkarr 0 Leaf) with (ainit 0 : arr Z). rewrite aget_init. lia.
Qed.
Lemma c66_loaded : loaded (em c66_state) (em c66_after) c66_st.
Proof. intros a R. apply Z.eqb_eq. revert a R. apply range_by. vm_compute. reflexivity. Qed.
Lemma c66_ready : ready c66_state c66_after c32_env c66_args c66_st.
Proof.
  split; [exact c66_wf|]. split; [reflexivity|]. split; [reflexivity|]. split; [reflexivity|]. split; [exact c66_loaded|]. split; [vm_compute; reflexivity|]. split; [vm_compute; discriminate|].
  intros ex x b I1 I2 (Loc & Val & IV & ->).
  assert (C : x = 40 \/ x = 41) by (cbn [c66_args In] in I1; repeat destruct I1 as [<-|I1]; try contradiction; cbn [vars app In] in I2; intuition). clear I1 I2.
  destruct C as [->| ->]; [destruct (int_var_fun _ _ _ _ _ _ _ IV c66_var40) as [-> ->]|destruct (int_var_fun _ _ _ _ _ _ _ IV c66_var41) as [-> ->]].
  - split; [vm_compute; reflexivity|]. split; [right; vm_compute; discriminate|vm_compute; reflexivity].
  - split; [vm_compute; reflexivity|]. split; [left; vm_compute; reflexivity|vm_compute; reflexivity].
Qed.
Lemma c66_right : right c32_env (EOp (Arith Add) (EVar 40) (ENum 1)).
Proof. split; [exact I|]. split; [exact I|]. right. intros x y X Y. cbn [eval] in Y. injection Y as <-. split; intro C; discriminate. Qed.
Example C66_ex : exists s',
  (sees (lx c66_state) c66_text /\ schars c66_text /\ scan c66_names c66_text (asn_toks 42 43 c66_args ++ c66_end) /\ closes c66_end /\ table 16 (lx c66_state) c66_names) /\
  (declared (dc c66_state) (VOff (em c66_state)) (EVar 42) /\ fun_at (dc c66_state) (VOff (em c66_state)) 43 768 /\ Forall2 (argument c66_state c32_env) c66_args [101; -5; 7] /\ env_ok c32_env) /\
  (live (em c66_state) /\ RegUse (em c66_state) = false /\ c66_run = Ok (tt, s')) /\
  (ready c66_state s' c32_env c66_args c66_st /\ lies c66_state (bp (rg c66_st)) 42 65530) /\
  (* at the start of the function the arguments are above the return address *)
  option_map (fun t => (sp (rg t), map (fun o => rd16 (mem t) 4096 (sp (rg t) + o)) [2; 4; 6])) (until zclear 768 100 c66_st) = Some (65520, [101; 65531; 7]) /\
  (* and in the end x is 101 - -5 *)
  option_map (fun t => (sp (rg t), rd16 (mem t) 4096 65530)) (until zclear (CodeAddress (em s')) 100 c66_st) = Some (65530, 106).
Proof.
  assert (NM : NoDup ([] ++ c66_names)).
  { assert (ND : forall l : list (list Z), (fix nd l := match l with [] => true | x :: r => negb (existsb (list_eqb x) r) && nd r end) l = true -> NoDup l).
    { induction l as [|x r IH]; intro H; constructor; apply andb_prop in H; destruct H as [H1 H2]; [|exact (IH H2)].
      intro I. apply negb_true_iff in H1. assert (H : existsb (list_eqb x) r = true); [|congruence]. apply existsb_exists. exists x. split; [exact I|].
      clear. induction x as [|y x IH]; cbn [list_eqb]; [reflexivity|]; rewrite Z.eqb_refl; exact IH. }
    apply ND. vm_compute. reflexivity. }
  assert (AS : ascii_b c66_text = true) by (vm_compute; reflexivity).
  destruct (add_builtins_spec 16 ltac:(lia) c66_names (lx0 nil nil) nil (table_empty 16 nil nil) NM ltac:(vm_compute; lia)) as (l & EL & TL & _).
  assert (CL : c66_lx = with_input c66_text l) by (unfold c66_lx; rewrite EL; reflexivity).
  assert (IO : (match c66_run with Ok _ => true | _ => false end) = true) by (vm_compute; reflexivity).
  assert (E : c66_run = Ok (tt, c66_after)) by (unfold c66_after; destruct c66_run as [[[] s']| | |]; try discriminate IO; reflexivity).
  exists c66_after. clear EL.
  split; [|split; [|split; [|split; [|split]]]].
  - unfold c66_state. cbn [lx]. rewrite CL. split; [|split; [|split; [|split]]].
    + apply with_input_sees; apply ascii_b_ok; exact AS.
    + apply ascii_b_ok; exact AS.
    + exact c66_scan.
    + split; [reflexivity|left; reflexivity].
    + apply (table_view 16 _ l c66_names); [reflexivity|exact TL].
  - split; [intros x [<-|[]]; apply c66_declared; auto|]. split; [|split].
    + split; [vm_compute; discriminate|]. exists 3. vm_compute. repeat split; discriminate.
    + repeat apply Forall2_cons; [| | |apply Forall2_nil]; (split; [vm_compute; intuition discriminate|]; split; [vm_compute; reflexivity|]; split; [|intros x I; apply c66_declared; cbn [vars app In] in I; intuition]).
      * exact c66_right.
      * exact I.
      * exact I.
    + intro x. unfold c32_env, int_range. destruct (x =? 40); lia.
  - split; [vm_compute; repeat split; discriminate|]. split; [reflexivity|exact E].
  - split; [exact c66_ready|]. exists VT_LOCOFF, (-4). split; [exact c66_var42|vm_compute; reflexivity].
  - vm_compute. reflexivity.
  - vm_compute. reflexivity.
Qed.
(* whole programs *)
Example C66_programs :
  returns "int f(int a, int b, int c) { return (a - b)*c; } int g() { return 5; } int _start() { int x = 3; int y; y = f(x + 1, 2, x); x = g(); return y*10 + x; }" zset 1000 = Some 65 /\
  returns "int fib(int n) { int a; int b; if (n < 2) return n; a = fib(n - 1); b = fib(n - 2); return a + b; } int _start() { return fib(10); }" zset 100000 = Some 55.
Proof. vm_compute. auto. Qed.

Print Assumptions C66_call.
Print Assumptions C66_assignment.
