(** Property C67: a call and the function called agree.

    Reading guide.  A function is compiled as in Props_SccFun.v and Props_SccLoc.v, between the states s0
    and s1 of the compiler; later on the assignment x = f(e1, ..., en) is compiled, as in Props_SccCall.v,
    between the states s and s'. *)
From Verif Require Import Base Bits Spec8086 SpecWf SccRun SccState SccEmit SccLex SccDecl SccExpr SccStmt SccInput SccRel SccIntern SccTok SccTok2 SccTok3 SccPut SccArith SccOps ExprSpec StmtSpec SccHold SccSem SccBin SccComp SccParse SccScan SccWhole SccWitness SccHead Props_SccStmt Props_SccFun SccLoc Props_SccExpr Props_SccLoc Props_SccCall.
From Verif Require SccFun SccCall SccCall2 SccCall3 SccArgs.
From Coq Require Import String.
Import SccHold.

(** the bytes the arguments take on the stack *)
Notation arg_room := SccCall2.arg_room.
(** the lowest address of the stack that the call and a function using z bytes below its arguments use *)
Definition deepest (l : list exp) (z : Z) (t : state) : Z := Z.min (lowest l t) (sp (rg t) - arg_room (List.length l) - 2 - z).
(** a machine before the assignment that also holds the function: its code, the code of the call, the stack and
    the global variables of the function are apart, and e gives the values the function starts with *)
Record both (s0 s1 s s' : cc) (z : Z) (V ps : list Z) (l : list exp) (vs : list Z) (e : Z -> Z) (t : state) : Prop := {
  bo_code : SccWhole.loaded (em s0) (em s1) t;
  bo_first : CodeAddress (em s0) <= CodeAddress (em s1) <= CodeAddress (em s);
  bo_deep : CodeAddress (em s') <= deepest l z t;
  bo_ok : env_ok e;
  bo_arg : forall j x, nth_error ps j = Some x -> e x = nth j vs 0;
  bo_glob : forall x a, In x V -> ~ In x ps -> global s0 x a -> a + 1 < 65536 /\
    (a + 1 < CodeAddress (em s0) \/ CodeAddress (em s1) <= a /\ a + 1 < CodeAddress (em s) \/ CodeAddress (em s') <= a /\ a + 1 < deepest l z t \/ sp (rg t) <= a) /\
    e x = signed true (rd16 (mem t) (cs (sg t)) a);
  bo_apart : forall x y a b, In x V -> In y V -> ~ In x ps -> ~ In y ps -> x <> y -> global s0 x a -> global s0 y b -> a + 1 < b \/ b + 1 < a }.
(** after the assignment: x, at p, is v (as an int of 16 bits), the global variables of the function have their values after it, and nothing else has changed *)
Record assigned (s0 s' : cc) (z : Z) (V hid ps : list Z) (l : list exp) (e' : Z -> Z) (v p : Z) (t t' : state) : Prop := {
  as_wf : wf t';
  as_ip : ip t' = CodeAddress (em s');
  as_sp : sp (rg t') = sp (rg t);
  as_bp : bp (rg t') = bp (rg t);
  as_sg : sg t' = sg t;
  as_x : rd16 (mem t') (cs (sg t)) p = v mod 65536;
  as_glob : forall x a, In x V -> ~ In x ps -> ~ In x hid -> global s0 x a -> a + 1 < p \/ p + 1 < a -> e' x = signed true (rd16 (mem t') (cs (sg t)) a);
  as_mem : forall b, (forall o, deepest l z t <= o < sp (rg t) -> b <> phys (cs (sg t)) o) -> b <> phys (cs (sg t)) p -> b <> phys (cs (sg t)) (p + 1) ->
    (forall x a, In x V -> ~ In x ps -> ~ In x hid -> global s0 x a -> b <> phys (cs (sg t)) a /\ b <> phys (cs (sg t)) (a + 1)) -> aget (mem t') b = aget (mem t) b }.

Lemma signed_mod v : int_range v -> signed true (v mod 65536) = v.
Proof.
  unfold int_range, signed. change (half true) with 32768. change (modulus true) with 65536. intro R. destruct (_ <? _) eqn:E; lia.
Qed.
Lemma nth_len (ps : list Z) (l : list exp) j x : List.length ps = List.length l -> nth_error ps j = Some x -> (j < List.length l)%nat.
Proof. intros E H. rewrite <- E. apply nth_error_Some. rewrite H. discriminate. Qed.
Lemma room_fits n : (n <= 4)%nat -> 2 * Z.of_nat n <= arg_room n.
Proof. intro H. destruct n; cbn [SccCall2.arg_room]; lia. Qed.
Lemma global_range s x a : global s x a -> 0 <= a < 65536.
Proof. intros (v & _ & _ & _ & _ & ->). apply Z.mod_pos_bound. lia. Qed.
Lemma nth_apart (ps : list Z) i j x y : nth_error ps i = Some x -> nth_error ps j = Some y -> x <> y -> i <> j.
Proof. intros A B N ->. congruence. Qed.

Section Round.
Variables (s0 s1 s s' : cc) (env e e' : Z -> Z) (z : Z) (V hid ps : list Z) (l : list exp) (vs : list Z) (q : Z) (t : state).
Hypothesis Z0 : 2 <= z.
Hypothesis LEN : List.length ps = List.length l.
Hypothesis L4 : (List.length l <= 4)%nat.
Hypothesis RV : Forall int_range vs.
Hypothesis LV : List.length vs = List.length l.
Hypothesis Q : CodeAddress (em s) <= q <= CodeAddress (em s').
Hypothesis LO : 256 <= CodeAddress (em s0).
Hypothesis RD : ready s s' env l t.
Hypothesis BO : both s0 s1 s s' z V ps l vs e t.

Lemma low_facts : deepest l z t <= lowest l t /\ deepest l z t <= sp (rg t) - arg_room (List.length l) - 2 - z /\ lowest l t + 2 <= sp (rg t) - arg_room (List.length l) /\ sp (rg t) < 65536 /\ 2 * Z.of_nat (List.length l) <= arg_room (List.length l).
Proof.
  pose proof (room_fits _ L4). destruct RD as (Wt & _). assert (SPR : 0 <= sp (rg t) < 65536) by (exact (proj1 (proj2 (proj2 (proj2 (proj2 (proj1 Wt))))))).
  unfold deepest, lowest. lia.
Qed.
Lemma same_at t1 a : entered (CodeAddress (em s0)) q l vs t t1 -> 0 <= a -> a + 1 < 65536 -> a + 1 < lowest l t \/ sp (rg t) <= a -> rd16 (mem t1) (cs (sg t)) a = rd16 (mem t) (cs (sg t)) a.
Proof.
  intros (_ & _ & _ & _ & _ & _ & _ & M) A B C. destruct low_facts as (L1 & L2 & L3 & L5 & L6). pose proof (bo_deep _ _ _ _ _ _ _ _ _ _ _ BO). pose proof (bo_first _ _ _ _ _ _ _ _ _ _ _ BO).
  apply rd16_frame; apply M; intros o O E; apply phys_inj in E; lia.
Qed.
Lemma is_called t1 : entered (CodeAddress (em s0)) q l vs t t1 -> lcalled s0 s1 z V ps e t1.
Proof.
  intro EN. pose proof EN as (W1 & I1 & S1 & R1 & A1 & B1 & G1 & M1). destruct low_facts as (L1 & L2 & L3 & L5 & L6). pose proof RD as (Wt & SS & DS & IP & LD & BP & ROOM & _).
  pose proof BO as [C1 C2 C3 C4 C5 C6 C7].
  assert (VA : forall x a, In x V -> var_at s0 ps (sp (rg t1)) x a -> a + 1 < 65536 /\
    (a + 1 < CodeAddress (em s0) \/ CodeAddress (em s1) <= a /\ a + 1 < sp (rg t1) - z \/ sp (rg t1) + 2 <= a) /\ e x = signed true (rd16 (mem t1) (cs (sg t1)) a)).
  { intros x a I [(j & J & ->)|[N GL]].
    - pose proof (nth_len _ _ _ _ LEN J) as JL. split; [lia|]. split; [right; right; lia|]. rewrite G1, (A1 j JL), (C5 j x J). symmetry. apply signed_mod. rewrite Forall_forall in RV. apply RV. apply nth_In. lia.
    - destruct (C6 x a I N GL) as (D1 & D2 & D3). pose proof (global_range _ _ _ GL). split; [exact D1|]. split; [lia|]. rewrite G1, (same_at t1 a EN); [exact D3|lia|exact D1|lia]. }
  split; auto; try congruence.
  - rewrite I1. apply Z.mod_small. lia.
  - intros a A. rewrite G1. unfold rd8. rewrite M1; [apply C1; exact A|]. intros o O E. apply phys_inj in E; lia.
  - lia.
  - lia.
  - cbv zeta. rewrite G1, R1. right. lia.
  - intros x y a b Ix Iy NE [(i & X & ->)|[Nx Gx]] [(j & Y & ->)|[Ny Gy]].
    + pose proof (nth_apart _ _ _ _ _ X Y NE). lia.
    + destruct (C6 y b Iy Ny Gy) as (D1 & D2 & _). pose proof (nth_len _ _ _ _ LEN X). lia.
    + destruct (C6 x a Ix Nx Gx) as (D1 & D2 & _). pose proof (nth_len _ _ _ _ LEN Y). lia.
    + exact (C7 x y a b Ix Iy Nx Ny NE Gx Gy).
Qed.
(** what holds when the function is back *)
Definition came_back (v : Z) (t2 : state) : Prop :=
  ax (rg t2) = v mod 65536 /\ (forall x a, In x V -> ~ In x ps -> ~ In x hid -> global s0 x a -> e' x = signed true (rd16 (mem t2) (cs (sg t)) a)) /\
  forall b, (forall o, deepest l z t <= o < sp (rg t) -> b <> phys (cs (sg t)) o) ->
    (forall x a, In x V -> ~ In x ps -> ~ In x hid -> global s0 x a -> b <> phys (cs (sg t)) a /\ b <> phys (cs (sg t)) (a + 1)) -> aget (mem t2) b = aget (mem t) b.
Lemma is_back v t1 t2 : entered (CodeAddress (em s0)) q l vs t t1 -> lreturned s0 z V hid ps e' (Returned v) t1 t2 -> back s s' q t1 t2 /\ came_back v t2.
Proof.
  intros EN [T1 T2 T3 T4 T5 T6 T7 T8]. pose proof EN as (W1 & I1 & S1 & R1 & A1 & B1 & G1 & M1). destruct low_facts as (L1 & L2 & L3 & L5 & L6). pose proof RD as (Wt & SS & DS & IP & LD & BP & ROOM & _).
  pose proof BO as [C1 C2 C3 C4 C5 C6 C7]. rewrite G1 in T3, T7, T8.
  assert (MM : forall b, (forall o, deepest l z t <= o < sp (rg t) -> b <> phys (cs (sg t)) o) ->
    (forall x a, In x V -> ~ In x ps -> ~ In x hid -> global s0 x a -> b <> phys (cs (sg t)) a /\ b <> phys (cs (sg t)) (a + 1)) -> aget (mem t2) b = aget (mem t) b).
  { intros b NB NG. rewrite T8; [apply M1; intros o O; apply NB; lia|intros p P; apply NB; lia|].
    intros x p I NH [(j & J & ->)|[N GL]]; [|exact (NG x p I N NH GL)]. pose proof (nth_len _ _ _ _ LEN J). split; apply NB; lia. }
  split.
  - split; [exact T1|]. split; [rewrite T3; exact R1|]. split; [rewrite T4; apply Z.mod_small; lia|]. split; [exact T5|]. split; [exact T2|].
    intros a A. rewrite T2, G1. unfold rd8. rewrite MM; [apply LD; exact A| |].
    + intros o O E. apply phys_inj in E; lia.
    + intros x b I N NH GL. destruct (C6 x b I N GL) as (D1 & D2 & _). pose proof (global_range _ _ _ GL). split; intro E; apply phys_inj in E; lia.
  - split; [exact (T6 v eq_refl)|]. split; [|exact MM]. intros x a I N NH GL. apply T7; auto. right. auto.
Qed.
Lemma is_assigned v p t' : 0 <= p -> p + 1 < 65536 -> wf t' -> ip t' = CodeAddress (em s') -> sp (rg t') = sp (rg t) -> bp (rg t') = bp (rg t) -> sg t' = sg t ->
  (exists t2, came_back v t2 /\ mem t' = wr16 (mem t2) (cs (sg t)) p (ax (rg t2))) -> assigned s0 s' z V hid ps l e' v p t t'.
Proof.
  intros P0 P1 W' I' S' B' G' (t2 & (X1 & X2 & X3) & M). assert (AR : 0 <= ax (rg t2) < 65536) by (rewrite X1; apply Z.mod_pos_bound; lia).
  split; auto.
  - rewrite M, rd16_wr16_same by lia. exact X1.
  - intros x a I N NH GL D. rewrite (X2 x a I N NH GL). f_equal. symmetry. pose proof (global_range _ _ _ GL). destruct BO as [_ _ _ _ _ C6 _]. destruct (C6 x a I N GL) as (D1 & _ & _).
    rewrite M. apply rd16_frame; rewrite aget_wr16 by exact AR;
     repeat match goal with |- context [?x =? ?y] => let E := fresh in destruct (Z.eqb_spec x y) as [E|_]; [apply phys_inj in E; lia|] end; reflexivity.
  - intros b NB N1 N2 NG. rewrite M, aget_wr16 by exact AR. destruct (Z.eqb_spec (phys (cs (sg t)) (p + 1)) b) as [E|_]; [congruence|]. destruct (Z.eqb_spec (phys (cs (sg t)) p) b) as [E|_]; [congruence|]. apply X3; auto.
Qed.
End Round.

(** the function, compiled between s and s' *)
Definition function (W : Z) (F n : nat) (s s' : cc) (rt f : Z) (ps : list Z) (l : list stmt) : Prop :=
  exists x0 names txt rest, let st := SBlock l in
  sees (lx s) txt /\ schars txt /\ scan names txt (htoks rt f ps ++ stoks st ++ rest) /\ rest <> [] /\
  table W (lx s) names /\ (List.length names <= 580)%nat /\ (2 * List.length txt + 1 < F)%nat /\ IdBufPtr (lx s) + Z.of_nat (List.length txt) < 5000 /\
  SccFun.between (em s) (dc s) /\ (rt = TOK_INT \/ rt = TOK_VOID) /\
  aget (VarLookup (dc s)) f = 0 /\ NoDup ps /\ (forall x, In x (f :: ps ++ svars st) -> 37 <= x) /\ (forall p, In p ps -> no_type (dc s) p) /\ aget (Scopes (dc s)) 0 + 5 + Z.of_nat (List.length ps) <= 380 /\
  wf_stmt false st /\ (forall x, In x (svars st) -> In x ps \/ exists a, global s x a) /\
  (GetToken W F ;; ParseExternalDefition W F (tie W F n)) s = Ok (x0, s').
(** the function with local variables ds, compiled between s and s' *)
Definition local_function (W : Z) (F n : nat) (s s' : cc) (rt f : Z) (ps : list Z) (ds : list ldecl) (l : list stmt) (V : list Z) : Prop :=
  exists x0 names txt rest, let st := SBlock l in
  sees (lx s) txt /\ schars txt /\ scan names txt (htoks rt f ps ++ (kw ch_lbrace :: flat_map dtoks ds ++ flat_map stoks l ++ [kw ch_rbrace]) ++ rest) /\ rest <> [] /\
  table W (lx s) names /\ (List.length names <= 580)%nat /\ (2 * List.length txt + 1 < F)%nat /\ IdBufPtr (lx s) + Z.of_nat (List.length txt) < 5000 /\
  SccFun.between (em s) (dc s) /\ (rt = TOK_INT \/ rt = TOK_VOID) /\
  aget (VarLookup (dc s)) f = 0 /\ NoDup ps /\ (forall x, In x (f :: ps ++ V ++ map fst ds) -> 37 <= x) /\
  (forall x, In x (ps ++ map fst ds) -> no_type (dc s) x /\ aget (VarLookup (dc s)) x <= aget (Scopes (dc s)) 0) /\ ~ In f (map fst ds) /\
  aget (Scopes (dc s)) 0 + 5 + Z.of_nat (List.length ps) <= 380 /\ ds <> [] /\ (List.length ds <= 380)%nat /\
  scoped V ds /\ wf_stmt false st /\ (forall x, In x (svars st) -> In x V \/ In x (map fst ds)) /\ (forall x, In x V -> In x ps \/ exists a, global s x a) /\
  (GetToken W F ;; ParseExternalDefition W F (tie W F n)) s = Ok (x0, s').
(** x = f(l), compiled between s and s', where f is the function at a and the arguments have the values vs *)
Definition assignment (W : Z) (F n : nat) (s s' : cc) (env : Z -> Z) (x f a : Z) (l : list exp) (vs : list Z) : Prop :=
  exists x0 names txt rest,
  sees (lx s) txt /\ schars txt /\ scan names txt (SccCall3.asn_toks x f l ++ rest) /\ closes rest /\
  table W (lx s) names /\ (List.length names <= 580)%nat /\ (2 * List.length txt + 1 < F)%nat /\ IdBufPtr (lx s) + Z.of_nat (List.length txt) < 5000 /\
  declared (dc s) (VOff (em s)) (EVar x) /\ SccCall2.fun_at (dc s) (VOff (em s)) f a /\ Forall2 (argument s env) l vs /\ (List.length l <= 4)%nat /\ env_ok env /\
  live (em s) /\ RegUse (em s) = false /\
  (GetToken W F ;; pExpr (tie W F n)) s = Ok (x0, s').

Lemma args_range s env l vs : env_ok env -> Forall2 (argument s env) l vs -> Forall int_range vs.
Proof. intros EO F2. induction F2 as [|ex v l vs (H & E & _) _ IH]; constructor; [|exact IH]. exact (eval_range env ex v EO H E). Qed.
Lemma lies_range s b x p : lies s b x p -> 0 <= p < 65536.
Proof. intros (Loc & Val & _ & ->). destruct (_ =? _); apply Z.mod_pos_bound; lia. Qed.
Lemma forall2_len {A B} (R : A -> B -> Prop) l m : Forall2 R l m -> List.length m = List.length l.
Proof. induction 1; cbn [List.length]; congruence. Qed.
(** a function that, called, returns v with the variables as in e', called by the assignment *)
Lemma agree W F n s s' env x f l vs s0 s1 z V hid ps e e' v t p :
  16 <= W -> assignment W F n s s' env x f (CodeAddress (em s0)) l vs -> List.length ps = List.length l -> 2 <= z -> 256 <= CodeAddress (em s0) ->
  (forall t1, lcalled s0 s1 z V ps e t1 -> reaches (lreturned s0 z V hid ps e' (Returned v) t1) t1) ->
  ready s s' env l t -> lies s (bp (rg t)) x p -> p + 1 < 65536 -> both s0 s1 s s' z V ps l vs e t ->
  reaches (assigned s0 s' z V hid ps l e' v p t) t.
Proof.
  intros HW (x0 & names & txt & rest & SE & SC & SN & CL & T & LN & LF & LB & DX & FA & F2 & L4 & EO & L & RU & H) LEN Z0 LO FN RD LI P1 BO.
  destruct (C66_assignment W F n s s' x0 env x f _ l vs names txt rest HW SE SC SN CL T LN LF LB DX FA F2 L4 EO L RU H) as (_ & _ & _ & _ & _ & _ & q & Q & RUN).
  pose proof (args_range _ _ _ _ EO F2) as RV. assert (LV : List.length vs = List.length l) by (exact (forall2_len _ _ _ F2)). clear SE SC SN CL T LN LF LB DX FA F2 EO L RU H.
  pose proof (RUN t p (came_back s0 e' z V hid ps l t v) RD LI) as R. clear RUN.
  assert (R' : forall t1, entered (CodeAddress (em s0)) q l vs t t1 -> reaches (fun t2 => back s s' q t1 t2 /\ came_back s0 e' z V hid ps l t v t2) t1).
  { intros t1 EN. pose proof (FN t1 (is_called s0 s1 s s' env e e' z V ps l vs q t Z0 LEN L4 RV LV Q LO RD BO t1 EN)) as RT.
    refine (reaches_imp _ _ _ RT _). intros t2 X. exact (is_back s0 s1 s s' env e e' z V hid ps l vs q t Z0 LEN L4 LV Q LO RD BO v t1 t2 EN X). }
  specialize (R R'). clear R' FN. refine (reaches_imp _ _ _ R _). cbv beta. intros t' (W' & I' & S' & B' & G' & M'). 
  exact (is_assigned s0 s1 s s' e e' z V hid ps l vs t LEN L4 LV BO v p t' (proj1 (lies_range _ _ _ _ LI)) P1 W' I' S' B' G' M').
Qed.

Lemma called_is s s' st ps env t : lcalled s s' (2 + 2 * Z.of_nat (sdepth st)) (svars st) ps env t -> called s s' st ps env t.
Proof.
  intros [A1 A2 A3 A4 A5 A6 A7 A8 A9 A10 A11]. split; auto; [lia|]. intros x a I VA. destruct (A10 x a I VA) as (B1 & B2 & B3). split; [exact B1|]. split; [lia|exact B3].
Qed.
Lemma returned_is s st ps env o t t' : returned s st ps env o t t' -> lreturned s (2 + 2 * Z.of_nat (sdepth st)) (svars st) [] ps env o t t'.
Proof.
  intros [A1 A2 A3 A4 A5 A6 A7 A8]. split; auto. intros a N1 N2. apply A8; [intros p P; apply N1; lia|]. intros x p I VA. apply (N2 x p I); auto.
Qed.

(** ** C67: x = f(e1, ..., en) makes x what the body of f returns, and does to the global variables what the body does *)
Theorem C67_agree : forall W F n F' n' s s' env x f l vs s0 s1 rt f0 ps b e e' v t p,
  let st := SBlock b in
  let z := 2 + 2 * Z.of_nat (sdepth st) in
  16 <= W ->
  (* a function and, later, an assignment that calls it with as many arguments as it has parameters *)
  function W F n s0 s1 rt f0 ps b -> assignment W F' n' s s' env x f (CodeAddress (em s0)) l vs -> List.length ps = List.length l ->
  (* a machine that is to run the assignment; the body, started with the arguments in the parameters, returns v *)
  ready s s' env l t -> lies s (bp (rg t)) x p -> p + 1 < 65536 -> both s0 s1 s s' z (svars st) ps l vs e t -> sexec st e e' (Returned v) ->
  reaches (assigned s0 s' z (svars st) [] ps l e' v p t) t.
Proof.
  intros W F n F' n' s s' env x f l vs s0 s1 rt f0 ps b e e' v t p st z HW (x0 & names & txt & rest & SE & SC & SN & NR & T & LN & LF & LB & BT & RT & NW & ND & HI & NT & TOP & WF & VAR & H) AS LEN RD LI P1 BO X.
  destruct (C64_function W F n s0 s1 x0 rt f0 ps b names txt rest HW SE SC SN NR T LN LF LB BT RT NW ND HI NT TOP WF VAR H) as (_ & _ & _ & FN).
  apply (agree W F' n' s s' env x f l vs s0 s1 z (svars st) [] ps e e' v t p HW AS LEN); auto; [unfold z; lia| |].
  - pose proof (SccFun.bt_room _ _ BT) as R0. unfold room, CODESTART in R0. lia.
  - intros t1 C. refine (reaches_imp _ _ _ (FN e e' (Returned v) t1 X (called_is _ _ _ _ _ _ C)) _). intros t2. apply returned_is.
Qed.
(** the same for a function with local variables *)
Theorem C67_agree_locals : forall W F n F' n' s s' env x f l vs s0 s1 rt f0 ps ds b V e e1 e' v t p,
  let st := SBlock b in
  let z := 2 + 2 * Z.of_nat (List.length ds) + 2 * Z.of_nat (Nat.max (ddepth ds) (sdepth st)) in
  16 <= W ->
  local_function W F n s0 s1 rt f0 ps ds b V -> assignment W F' n' s s' env x f (CodeAddress (em s0)) l vs -> List.length ps = List.length l ->
  ready s s' env l t -> lies s (bp (rg t)) x p -> p + 1 < 65536 -> both s0 s1 s s' z V ps l vs e t -> dexec ds e e1 -> sexec st e1 e' (Returned v) ->
  reaches (assigned s0 s' z V (map fst ds) ps l e' v p t) t.
Proof.
  intros W F n F' n' s s' env x f l vs s0 s1 rt f0 ps ds b V e e1 e' v t p st z HW (x0 & names & txt & rest & SE & SC & SN & NR & T & LN & LF & LB & BT & RT & NW & ND & HI & NT & NF & TOP & DN & DL & SO & WF & IV & VAR & H) AS LEN RD LI P1 BO D X.
  destruct (C65_locals W F n s0 s1 x0 rt f0 ps ds b names txt rest V HW SE SC SN NR T LN LF LB BT RT NW ND HI NT NF TOP DN DL SO WF IV VAR H) as (_ & _ & _ & FN).
  apply (agree W F' n' s s' env x f l vs s0 s1 z V (map fst ds) ps e e' v t p HW AS LEN); auto; [unfold z; lia| |].
  - pose proof (SccFun.bt_room _ _ BT) as R0. unfold room, CODESTART in R0. lia.
  - intros t1 C. exact (FN e e1 e' (Returned v) t1 D X C).
Qed.

(** *** A case: the function of C64_ex, with the global r, and then  x = f(a+1, 3);  with locals a and x *)
Definition c67_text : list Z := bytes_of "x = f(a+1, 3);}"%string.
Definition c67_names : list (list Z) := (c64_names ++ [bytes_of "a"; bytes_of "x"])%list.
Definition c67_args : list exp := [EOp (Arith Add) (EVar 44) (ENum 1); ENum 3].
Definition c67_lx : lexst := match add_builtins 16 c67_names (lx0 nil nil) with Ok (_, l) => with_input c67_text l | _ => lx0 nil nil end.
Definition c67_state : cc :=
  mkcc c67_lx (set_IsDeadCode false (set_LocalOffset (-4) (set_VOff (aset (aset (VOff (em c64_after)) 10 (-2)) 11 (-4)) (em c64_after))))
    (set_VType (aset (aset (VType (dc c64_after)) 10 (VT_INT + VT_LOCOFF)) 11 (VT_INT + VT_LOCOFF)) (set_VarLookup (aset (aset (VarLookup (dc c64_after)) 44 11) 45 12) (dc c64_after))).
Definition c67_run : Base.outcome (unit * cc) := (GetToken 16 60 ;; pExpr (tie 16 60 30)) c67_state.
Definition c67_after : cc := match c67_run with Ok (_, s) => s | _ => c67_state end.
Definition c67_end : list token := [(ch_semi, PREC_STOP, 0)].
Definition c67_env (x : Z) : Z := if x =? 44 then 6 else 0.
(* a = 6 at 65532, r = 5 at 4660 *)
Definition c67_st : state :=
  mkst (mkregs 1 2 3 4 65530 65534 7 8) (mksregs 4096 4096 4096 4096) (CodeAddress (em c67_state)) (mkflags false false false false)
    (load_bytes (out_bytes (Z.to_nat (CodeAddress (em c67_after) - 256)) 0 (Output (em c67_after))) (phys 4096 256)
       (load_bytes [6; 0] (phys 4096 65532) (load_bytes [5; 0] (phys 4096 4660) (mkarr 0 Leaf)))).
Ltac an_op67 sp w := apply (scan_tok c67_names w sp); [repeat first [apply tr_nil|apply tr_blank; [lia|]]| apply lex_op; [vm_compute; tauto|apply longest_by; vm_compute; reflexivity|try discriminate; try (intros _; split; discriminate)|try discriminate; try (intros _; discriminate)]|].
Ltac a_name67 w i := apply (scan_tok c67_names w (nth i c67_names [])); [repeat first [apply tr_nil|apply tr_blank; [lia|]]|apply (lex_name c67_names _ _ _ i); [reflexivity|repeat constructor|reflexivity|vm_compute; reflexivity]|].
Ltac a_num67 w c := apply (scan_tok c67_names w [c]); [repeat first [apply tr_nil|apply tr_blank; [lia|]]|apply (lex_num c67_names c 10 [] [] _); [right; split; [lia|split; reflexivity]|apply Forall_nil|cbn; lia|intros _; split; [reflexivity|intros _; split; discriminate]|vm_compute; split; [discriminate|reflexivity]]|].
Lemma c67_scan : scan c67_names c67_text (SccCall3.asn_toks 45 40 c67_args ++ c67_end).
Proof.
  let l := eval vm_compute in c67_text in change c67_text with l.
  let l := eval vm_compute in (SccCall3.asn_toks 45 40 c67_args ++ c67_end)%list in change (SccCall3.asn_toks 45 40 c67_args ++ c67_end)%list with l.
  a_name67 (@nil Z) 45%nat. an_op67 [61] [32]. a_name67 [32] 40%nat. an_op67 [40] (@nil Z). a_name67 (@nil Z) 44%nat. an_op67 [43] (@nil Z). a_num67 (@nil Z) 49. an_op67 [44] (@nil Z).
  a_num67 [32] 51. an_op67 [41] (@nil Z). an_op67 [59] (@nil Z). constructor.
Qed.
Lemma c67_var44 : int_var (dc c67_state) (VOff (em c67_state)) 44 VT_LOCOFF (-2).
Proof. split; [vm_compute; discriminate|]. split; [vm_compute; reflexivity|]. left. vm_compute. auto. Qed.
Lemma c67_var45 : int_var (dc c67_state) (VOff (em c67_state)) 45 VT_LOCOFF (-4).
Proof. split; [vm_compute; discriminate|]. split; [vm_compute; reflexivity|]. left. vm_compute. auto. Qed.
Lemma c67_declared x : x = 44 \/ x = 45 -> TOK_ID <= TOK_KEYWORD + x /\ exists Loc Val, int_var (dc c67_state) (VOff (em c67_state)) x Loc Val.
Proof. intros [->| ->]; (split; [vm_compute; discriminate|]); eauto using c67_var44, c67_var45. Qed.
Lemma c67_function : function 16 200 60 c64_state c64_after TOK_INT 40 [41; 42] c64_body.
Proof.
  destruct C64_ex as ((A1 & A2 & A3 & A4) & (B1 & B2 & B3 & B4 & B5 & B6) & (D1 & D2) & E & _).
  exists tt, c64_names, c64_text, c64_rest. cbv zeta. split; [exact A1|]. split; [exact A2|]. split; [exact A3|]. split; [discriminate|]. split; [exact A4|]. split; [vm_compute; lia|]. split; [vm_compute; lia|]. split; [vm_compute; reflexivity|].
  split; [exact B1|]. split; [left; reflexivity|]. split; [exact B2|]. split; [exact B3|]. split; [exact B4|]. split; [exact B5|]. split; [exact B6|]. split; [exact D1|]. split; [exact D2|]. exact E.
Qed.
Lemma c67_assignment : assignment 16 60 30 c67_state c67_after c67_env 45 40 256 c67_args [7; 3].
Proof.
  assert (NM : NoDup ([] ++ c67_names)) by (apply nodup_by; vm_compute; reflexivity).
  assert (AS : ascii_b c67_text = true) by (vm_compute; reflexivity).
  destruct (add_builtins_spec 16 ltac:(lia) c67_names (lx0 nil nil) nil (table_empty 16 nil nil) NM ltac:(vm_compute; lia)) as (l & EL & TL & _).
  assert (CL : c67_lx = with_input c67_text l) by (unfold c67_lx; rewrite EL; reflexivity).
  assert (IO : (match c67_run with Ok _ => true | _ => false end) = true) by (vm_compute; reflexivity).
  assert (E : c67_run = Ok (tt, c67_after)) by (unfold c67_after; destruct c67_run as [[[] s']| | |]; try discriminate IO; reflexivity).
  clear EL. exists tt, c67_names, c67_text, c67_end. change (lx c67_state) with c67_lx.
  split; [rewrite CL; apply with_input_sees; apply ascii_b_ok; exact AS|]. split; [apply ascii_b_ok; exact AS|]. split; [exact c67_scan|]. split; [split; [reflexivity|left; reflexivity]|].
  split; [rewrite CL; apply (table_view 16 _ l c67_names); [reflexivity|exact TL]|]. split; [vm_compute; lia|]. split; [vm_compute; lia|]. split; [vm_compute; reflexivity|].
  split; [intros x [<-|[]]; apply c67_declared; auto|]. split; [split; [vm_compute; discriminate|exists 1; vm_compute; repeat split; discriminate]|]. split.
  { repeat apply Forall2_cons; [| |apply Forall2_nil]; (split; [vm_compute; intuition discriminate|]; split; [vm_compute; reflexivity|]; split; [|intros x I; apply c67_declared; cbn [vars app In] in I; intuition]).
    - split; [exact I|]. split; [exact I|]. right. intros x y X Y. cbn [eval] in Y. injection Y as <-. split; intro C; discriminate.
    - exact I. }
  split; [cbn; lia|]. split; [intro x; unfold c67_env, int_range; destruct (x =? 44); lia|]. split; [vm_compute; repeat split; discriminate|]. split; [reflexivity|exact E].
Qed.
Lemma c67_ready : ready c67_state c67_after c67_env c67_args c67_st.
Proof.
  split; [|split; [reflexivity|split; [reflexivity|split; [reflexivity|split; [|split; [vm_compute; reflexivity|split; [vm_compute; discriminate|]]]]]]].
  - split; [vm_compute; repeat split; discriminate|]. split; [vm_compute; repeat split; discriminate|]. split; [vm_compute; repeat split; discriminate|].
    unfold c67_st. cbn [mem]. apply load_bytes_ok; [vm_compute; reflexivity|]. apply load_bytes_ok; [reflexivity|]. apply load_bytes_ok; [reflexivity|].
    intro i. change (mkarr 0 Leaf) with (ainit 0 : arr Z). rewrite aget_init. lia.
  - intros a R. apply Z.eqb_eq. revert a R. apply range_by. vm_compute. reflexivity.
  - intros ex x b I1 I2 (Loc & Val & IV & ->).
    assert (C : x = 44) by (cbn [c67_args In] in I1; repeat destruct I1 as [<-|I1]; try contradiction; cbn [vars app In] in I2; intuition). subst x.
    destruct (int_var_fun _ _ _ _ _ _ _ IV c67_var44) as [-> ->]. split; [vm_compute; reflexivity|]. split; [right; vm_compute; discriminate|vm_compute; reflexivity].
Qed.
Definition c67_z : Z := 2 + 2 * Z.of_nat (sdepth (SBlock c64_body)).
Lemma c67_glob x a : In x (svars (SBlock c64_body)) -> ~ In x [41; 42] -> global c64_state x a -> x = 43 /\ a = 4660.
Proof.
  intros I N G. assert (V : var_at c64_state [41; 42] 65000 x a) by (right; auto). destruct (c64_at x a I V) as [[-> _]|[[-> _]|[-> ->]]]; [exfalso; apply N; cbn; auto|exfalso; apply N; cbn; auto|auto].
Qed.
Lemma c67_both : both c64_state c64_after c67_state c67_after c67_z (svars (SBlock c64_body)) [41; 42] c67_args [7; 3] (c64_env 7 3 5) c67_st.
Proof.
  split.
  - intros a R. apply Z.eqb_eq. revert a R. apply range_by. vm_compute. reflexivity.
  - vm_compute. split; discriminate.
  - vm_compute. discriminate.
  - intro x. unfold c64_env, int_range. destruct (x =? 41); [lia|]. destruct (x =? 42); [lia|]. destruct (x =? 43); lia.
  - intros j x J. destruct j as [|[|[|j]]]; cbn [nth_error] in J; try discriminate J; injection J as <-; reflexivity.
  - intros x a I N G. destruct (c67_glob x a I N G) as [-> ->]. split; [lia|]. split; [right; right; left; split; [vm_compute; discriminate|vm_compute; reflexivity]|vm_compute; reflexivity].
  - intros x y a b I J N M D G H. destruct (c67_glob x a I N G), (c67_glob y b J M H). congruence.
Qed.
Example C67_ex :
  function 16 200 60 c64_state c64_after TOK_INT 40 [41; 42] c64_body /\ CodeAddress (em c64_state) = 256 /\ assignment 16 60 30 c67_state c67_after c67_env 45 40 256 c67_args [7; 3] /\
  ready c67_state c67_after c67_env c67_args c67_st /\ lies c67_state (bp (rg c67_st)) 45 65530 /\
  both c64_state c64_after c67_state c67_after c67_z (svars (SBlock c64_body)) [41; 42] c67_args [7; 3] (c64_env 7 3 5) c67_st /\
  (exists e', sexec (SBlock c64_body) (c64_env 7 3 5) e' (Returned 4) /\ e' 43 = 4) /\
  (* x and r are 4 *)
  option_map (fun t => (sp (rg t), rd16 (mem t) 4096 65530, rd16 (mem t) 4096 4660)) (until zclear (CodeAddress (em c67_after)) 100 c67_st) = Some (65530, 4, 4).
Proof.
  split; [exact c67_function|]. split; [reflexivity|]. split; [exact c67_assignment|]. split; [exact c67_ready|]. split; [exists VT_LOCOFF, (-4); split; [exact c67_var45|vm_compute; reflexivity]|].
  split; [exact c67_both|]. split; [exact c64_exec|vm_compute; reflexivity].
Qed.

(** *** The same with the function of C65_ex, which has local variables *)
Definition c67l_state : cc :=
  mkcc c67_lx (set_IsDeadCode false (set_LocalOffset (-4) (set_VOff (aset (aset (VOff (em c65_after)) 10 (-2)) 11 (-4)) (em c65_after))))
    (set_VType (aset (aset (VType (dc c65_after)) 10 (VT_INT + VT_LOCOFF)) 11 (VT_INT + VT_LOCOFF)) (set_VarLookup (aset (aset (VarLookup (dc c65_after)) 44 11) 45 12) (dc c65_after))).
Definition c67l_run : Base.outcome (unit * cc) := (GetToken 16 60 ;; pExpr (tie 16 60 30)) c67l_state.
Definition c67l_after : cc := match c67l_run with Ok (_, s) => s | _ => c67l_state end.
(* a = 6 at 65532, r = 5 at 4660 *)
Definition c67l_st : state :=
  mkst (mkregs 1 2 3 4 65530 65534 7 8) (mksregs 4096 4096 4096 4096) (CodeAddress (em c67l_state)) (mkflags false false false false)
    (load_bytes (out_bytes (Z.to_nat (CodeAddress (em c67l_after) - 256)) 0 (Output (em c67l_after))) (phys 4096 256)
       (load_bytes [6; 0] (phys 4096 65532) (load_bytes [5; 0] (phys 4096 4660) (mkarr 0 Leaf)))).
Lemma c67l_var44 : int_var (dc c67l_state) (VOff (em c67l_state)) 44 VT_LOCOFF (-2).
Proof. split; [vm_compute; discriminate|]. split; [vm_compute; reflexivity|]. left. vm_compute. auto. Qed.
Lemma c67l_var45 : int_var (dc c67l_state) (VOff (em c67l_state)) 45 VT_LOCOFF (-4).
Proof. split; [vm_compute; discriminate|]. split; [vm_compute; reflexivity|]. left. vm_compute. auto. Qed.
Lemma c67l_declared x : x = 44 \/ x = 45 -> TOK_ID <= TOK_KEYWORD + x /\ exists Loc Val, int_var (dc c67l_state) (VOff (em c67l_state)) x Loc Val.
Proof. intros [->| ->]; (split; [vm_compute; discriminate|]); eauto using c67l_var44, c67l_var45. Qed.
Lemma c67l_function : local_function 16 200 60 c65_state c65_after TOK_INT 40 [41; 42] c65_decls c65_body [41; 42; 43].
Proof.
  destruct C65_ex as ((A1 & A2 & A3 & A4) & (B1 & B2 & B3 & B4 & B5 & B6 & B7) & (D1 & D2 & D3 & D4) & E & _).
  exists tt, c65_names, c65_text, c65_rest. cbv zeta. split; [exact A1|]. split; [exact A2|]. split; [exact A3|]. split; [discriminate|]. split; [exact A4|]. split; [vm_compute; lia|]. split; [vm_compute; lia|]. split; [vm_compute; reflexivity|].
  split; [exact B1|]. split; [left; reflexivity|]. split; [exact B2|]. split; [exact B3|]. split; [exact B4|]. split; [exact B5|]. split; [exact B6|]. split; [exact B7|]. split; [discriminate|]. split; [vm_compute; lia|].
  split; [exact D1|]. split; [exact D2|]. split; [exact D3|]. split; [exact D4|]. exact E.
Qed.
Lemma c67l_assignment : assignment 16 60 30 c67l_state c67l_after c67_env 45 40 256 c67_args [7; 3].
Proof.
  assert (NM : NoDup ([] ++ c67_names)) by (apply nodup_by; vm_compute; reflexivity).
  assert (AS : ascii_b c67_text = true) by (vm_compute; reflexivity).
  destruct (add_builtins_spec 16 ltac:(lia) c67_names (lx0 nil nil) nil (table_empty 16 nil nil) NM ltac:(vm_compute; lia)) as (l & EL & TL & _).
  assert (CL : c67_lx = with_input c67_text l) by (unfold c67_lx; rewrite EL; reflexivity).
  assert (IO : (match c67l_run with Ok _ => true | _ => false end) = true) by (vm_compute; reflexivity).
  assert (E : c67l_run = Ok (tt, c67l_after)) by (unfold c67l_after; destruct c67l_run as [[[] s']| | |]; try discriminate IO; reflexivity).
  clear EL. exists tt, c67_names, c67_text, c67_end. change (lx c67l_state) with c67_lx.
  split; [rewrite CL; apply with_input_sees; apply ascii_b_ok; exact AS|]. split; [apply ascii_b_ok; exact AS|]. split; [exact c67_scan|]. split; [split; [reflexivity|left; reflexivity]|].
  split; [rewrite CL; apply (table_view 16 _ l c67_names); [reflexivity|exact TL]|]. split; [vm_compute; lia|]. split; [vm_compute; lia|]. split; [vm_compute; reflexivity|].
  split; [intros x [<-|[]]; apply c67l_declared; auto|]. split; [split; [vm_compute; discriminate|exists 1; vm_compute; repeat split; discriminate]|]. split.
  { repeat apply Forall2_cons; [| |apply Forall2_nil]; (split; [vm_compute; intuition discriminate|]; split; [vm_compute; reflexivity|]; split; [|intros x I; apply c67l_declared; cbn [vars app In] in I; intuition]).
    - split; [exact I|]. split; [exact I|]. right. intros x y X Y. cbn [eval] in Y. injection Y as <-. split; intro C; discriminate.
    - exact I. }
  split; [cbn; lia|]. split; [intro x; unfold c67_env, int_range; destruct (x =? 44); lia|]. split; [vm_compute; repeat split; discriminate|]. split; [reflexivity|exact E].
Qed.
Lemma c67l_ready : ready c67l_state c67l_after c67_env c67_args c67l_st.
Proof.
  split; [|split; [reflexivity|split; [reflexivity|split; [reflexivity|split; [|split; [vm_compute; reflexivity|split; [vm_compute; discriminate|]]]]]]].
  - split; [vm_compute; repeat split; discriminate|]. split; [vm_compute; repeat split; discriminate|]. split; [vm_compute; repeat split; discriminate|].
    unfold c67l_st. cbn [mem]. apply load_bytes_ok; [vm_compute; reflexivity|]. apply load_bytes_ok; [reflexivity|]. apply load_bytes_ok; [reflexivity|].
    intro i. change (mkarr 0 Leaf) with (ainit 0 : arr Z). rewrite aget_init. lia.
  - intros a R. apply Z.eqb_eq. revert a R. apply range_by. vm_compute. reflexivity.
  - intros ex x b I1 I2 (Loc & Val & IV & ->).
    assert (C : x = 44) by (cbn [c67_args In] in I1; repeat destruct I1 as [<-|I1]; try contradiction; cbn [vars app In] in I2; intuition). subst x.
    destruct (int_var_fun _ _ _ _ _ _ _ IV c67l_var44) as [-> ->]. split; [vm_compute; reflexivity|]. split; [right; vm_compute; discriminate|vm_compute; reflexivity].
Qed.
Lemma c67l_glob x a : In x [41; 42; 43] -> ~ In x [41; 42] -> global c65_state x a -> x = 43 /\ a = 4660.
Proof.
  intros I N G. assert (V : var_at c65_state [41; 42] 65000 x a) by (right; auto). destruct (c65_at x a I V) as [[-> _]|[[-> _]|[-> ->]]]; [exfalso; apply N; cbn; auto|exfalso; apply N; cbn; auto|auto].
Qed.
Lemma c67l_both : both c65_state c65_after c67l_state c67l_after c65_z [41; 42; 43] [41; 42] c67_args [7; 3] (c64_env 7 3 5) c67l_st.
Proof.
  split.
  - intros a R. apply Z.eqb_eq. revert a R. apply range_by. vm_compute. reflexivity.
  - vm_compute. split; discriminate.
  - vm_compute. discriminate.
  - intro x. unfold c64_env, int_range. destruct (x =? 41); [lia|]. destruct (x =? 42); [lia|]. destruct (x =? 43); lia.
  - intros j x J. destruct j as [|[|[|j]]]; cbn [nth_error] in J; try discriminate J; injection J as <-; reflexivity.
  - intros x a I N G. destruct (c67l_glob x a I N G) as [-> ->]. split; [lia|]. split; [right; right; left; split; [vm_compute; discriminate|vm_compute; reflexivity]|vm_compute; reflexivity].
  - intros x y a b I J N M D G H. destruct (c67l_glob x a I N G), (c67l_glob y b J M H). congruence.
Qed.
Example C67_ex_locals :
  local_function 16 200 60 c65_state c65_after TOK_INT 40 [41; 42] c65_decls c65_body [41; 42; 43] /\ CodeAddress (em c65_state) = 256 /\ assignment 16 60 30 c67l_state c67l_after c67_env 45 40 256 c67_args [7; 3] /\
  ready c67l_state c67l_after c67_env c67_args c67l_st /\ lies c67l_state (bp (rg c67l_st)) 45 65530 /\
  both c65_state c65_after c67l_state c67l_after c65_z [41; 42; 43] [41; 42] c67_args [7; 3] (c64_env 7 3 5) c67l_st /\
  (exists e1 e', dexec c65_decls (c64_env 7 3 5) e1 /\ sexec (SBlock c65_body) e1 e' (Returned 9) /\ e' 43 = 5) /\
  (* x is 9 and r is still 5 *)
  option_map (fun t => (sp (rg t), rd16 (mem t) 4096 65530, rd16 (mem t) 4096 4660)) (until zclear (CodeAddress (em c67l_after)) 100 c67l_st) = Some (65530, 9, 5).
Proof.
  split; [exact c67l_function|]. split; [reflexivity|]. split; [exact c67l_assignment|]. split; [exact c67l_ready|]. split; [exists VT_LOCOFF, (-4); split; [exact c67l_var45|vm_compute; reflexivity]|].
  split; [exact c67l_both|]. split; [exact c65_exec|vm_compute; reflexivity].
Qed.

Print Assumptions C67_agree.
Print Assumptions C67_agree_locals.
