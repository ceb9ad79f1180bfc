(** The main loop: a file is processed as SppSpec says. *)
From Coq Require Import ZArith List Bool Lia String.
From Verif Require Import Base Spp SppSpec SppLex SppId SppWorld SppGet SppEval SppDefine.
From Verif Require SccState.
Import ListNotations.
Open Scope Z_scope.
Open Scope p_scope.

(** ** Expansion *)
Lemma oapp_assoc {A} (a b c : option (list A)) : oapp (oapp a b) c = oapp a (oapp b c).
Proof. destruct a, b, c; cbn [oapp]; try reflexivity. rewrite app_assoc. reflexivity. Qed.
Lemma expand_app e d hid : forall a b, expand e d hid (a ++ b) = oapp (expand e d hid a) (expand e d hid b).
Proof.
  induction a as [|x a IH]; intro b; cbn [app].
  - rewrite expand_nil, oapp_nil. reflexivity.
  - rewrite !expand_cons, IH, oapp_assoc. reflexivity.
Qed.
Definition nohash (x : lexeme) : Prop := x <> Op (bytes "#").
Lemma expand_nohash e : (forall i n l, nth_error e i = Some (n, Some l) -> Forall clean l) ->
  forall d hid l y, Forall nohash l -> expand e d hid l = Some y -> Forall nohash y.
Proof.
  intro C. assert (CB : forall w l, lookup e w = Some (Some l) -> Forall nohash l).
  { intros w l LK. pose proof (lookup_index e w) as LI. destruct (index_of w (map fst e)) as [i|]; [|congruence]. destruct LI as (b & E1 & E2).
    rewrite LK in E1. injection E1 as <-. specialize (C _ _ _ E2). revert C. apply Forall_impl. intros x [_ H] ->. discriminate. }
  induction d as [|d IHd]; intro hid; (induction l as [|x l IH]; intros y F E; [rewrite expand_nil in E; injection E as <-; constructor|]);
    inversion F as [|? ? N F']; subst; rewrite expand_cons in E; destruct (expand1 e _ hid x) as [a|] eqn:E1; try discriminate;
    destruct (expand e _ hid l) as [b|] eqn:E2; try discriminate; injection E as <-; apply Forall_app; (split; [|apply IH; auto]); clear IH E2.
  all: assert (GIVE : forall z : lexeme, nohash z -> Forall nohash [z]) by (intros; repeat constructor; assumption).
  all: destruct x as [w| |w|w|q w|w]; cbn [expand1] in E1; try (injection E1 as <-; apply GIVE; exact N).
  all: unfold action in E1; destruct (word_eq w (bytes "__SCC__")); [injection E1 as <-; apply GIVE; discriminate|];
    destruct (word_eq w (bytes "__FILE__") || word_eq w (bytes "__LINE__")); [discriminate|];
    destruct (lookup e w) as [[[|z body]|]|] eqn:LK; try (destruct (existsb (word_eq w) hid)); try discriminate;
    try (injection E1 as <-; first [apply GIVE; discriminate|constructor]).
  apply IHd in E1; [exact E1|eapply CB, LK].
Qed.

(** ** Tokens that are put out *)
Definition is_lit (x : lexeme) : bool := match x with Lit _ _ => true | _ => false end.
Lemma id_code_range ns w : (length ns <= 32)%nat -> id_code ns w = TOK_RAW_ID \/ TOK_ID <= id_code ns w < TOK_ID + 32.
Proof.
  intro L. unfold id_code. destruct (index_of w ns) as [i|] eqn:E; [right|left; reflexivity]. apply index_of_some in E.
  assert (i < length ns)%nat by (apply nth_error_Some; congruence). lia.
Qed.
Lemma code_kind e u s y : base e u s -> wf_lexeme y = true -> nohash y ->
  (code e y =? 35) = false /\ (code e y =? 0) = false /\ (code e y =? TOK_WHITESPACE) = is_ws y /\ (code e y =? TOK_NEWLINE) = is_nl y /\
  (code e y =? TOK_STRLIT) = (match y with Lit q _ => q =? 34 | _ => false end) /\ (code e y =? TOK_CHARLIT) = (match y with Lit q _ => negb (q =? 34) | _ => false end).
Proof.
  intros B W N. destruct y as [l| |w|w|q w|w]; [parts; reflexivity|parts; reflexivity| |parts; reflexivity| |].
  - pose proof (t_len _ _ (b_table _ _ _ B)) as L. cbn [code is_ws is_nl].
    assert (R : TOK_RAW_ID <= id_code (names e) w).
    { destruct (id_code_range (names e) w L) as [->|]; [reflexivity|]. unfold TOK_RAW_ID, TOK_ID, TOK_DEFINE in *. lia. }
    unfold TOK_RAW_ID, TOK_WHITESPACE, TOK_NEWLINE, TOK_STRLIT, TOK_CHARLIT in *. parts; apply Z.eqb_neq; lia.
  - cbn [code lex_type is_ws is_nl]. destruct (q =? 34); parts; reflexivity.
  - cbn [code is_ws is_nl].
    destruct (doubles_not_single _ W) as [(c & -> & I)|I].
    + apply singles_cases in I. cbn [lex_type]. assert (c <> 35) by (intros ->; apply N; reflexivity).
      unfold TOK_WHITESPACE, TOK_NEWLINE, TOK_STRLIT, TOK_CHARLIT. vm_compute in I. parts; apply Z.eqb_neq; intuition lia.
    + assert (F : forallb (fun w => let c := lex_type (Op w) in negb ((c =? 35) || (c =? 0) || (c =? TOK_WHITESPACE) || (c =? TOK_NEWLINE) || (c =? TOK_STRLIT) || (c =? TOK_CHARLIT))) doubles = true) by reflexivity.
      rewrite forallb_forall in F. specialize (F _ I). cbv zeta in F. apply negb_true_iff in F. repeat (apply orb_false_iff in F; destruct F as [F ?]). parts; assumption.
Qed.
Definition outs (s : st) : list Z := List.concat (rev (outp s)).
Lemma outs_cons s l x : outs (set_outp s (l :: x)) = outs (set_outp s x) ++ l.
Proof. unfold outs. cbn [outp set_outp rev]. rewrite concat_app. cbn [List.concat]. rewrite app_nil_r. reflexivity. Qed.
(** pending white space: the model's flags *)
Definition wsrel (ws p : Z) : Prop := ws = 0 /\ p = 0 \/ ws = 1 /\ p = 1 \/ (ws = 2 \/ ws = 3) /\ p = 2.
Definition strings (p : Z) (y : lexeme) (o : list (list Z)) : list (list Z) :=
  let o := if p =? 0 then o else separator p :: o in
  match y with Lit q w => [q] :: w :: [q] :: o | _ => word y :: o end.
Lemma output_runs e u s y ws p : base e u s -> has_tok e s y -> nohash y -> is_ws y = false -> is_nl y = false -> wsrel ws p ->
  forall f, output_token f ws s = Ok (tt, set_outp s (strings p y (outp s))).
Proof.
  intros B (TY & TX & W) N NW NN R f. destruct (code_kind e u s y B W N) as (_ & _ & _ & _ & K5 & K6).
  assert (HW : has_word y = true) by (destruct y; try discriminate; reflexivity). specialize (TX HW).
  set (o0 := if p =? 0 then outp s else separator p :: outp s).
  assert (E0 : (if ws =? 0 then ret tt else OutputStr (if Z.testbit ws 1 then [13; 10] else [32])) s = Ok (tt, set_outp s o0)).
  { subst o0. destruct R as [[-> ->]|[[-> ->]|[[-> | ->] ->]]]; [destruct s; reflexivity|reflexivity..]. }
  set (s0 := set_outp s o0) in *.
  assert (SH : str (t_text (tok s0)) s0 = Ok (word y, s0)) by (apply str_shown; exact TX).
  unfold output_token. rewrite (bind_eq _ _ _ _ _ E0). unfold SccState.bind at 1, SccState.gets at 1. rewrite (bind_eq _ _ _ _ _ SH).
  change (t_type (tok s0)) with (t_type (tok s)). rewrite TY, K5, K6.
  destruct y as [l| |w|w|q w|w]; try discriminate; try reflexivity.
  assert (QQ : q = 34 \/ q = 39) by (cbn [wf_lexeme] in W; lia). destruct QQ as [-> | ->]; reflexivity.
Qed.
Lemma strings_outs s y p : is_ws y = false -> is_nl y = false -> outs (set_outp s (strings p y (outp s))) = outs s ++ separator p ++ text y.
Proof.
  intros NW NN. assert (E : outs (set_outp s (if p =? 0 then outp s else separator p :: outp s)) = outs s ++ separator p).
  { destruct (Z.eqb_spec p 0) as [-> |]; [rewrite app_nil_r; reflexivity|]. apply outs_cons. }
  unfold strings. destruct y as [l| |w|w|q w|w]; try discriminate; rewrite !outs_cons, E, <- ?app_assoc; reflexivity.
Qed.

(** ** Between lines *)
Definition ready (e : env) (u : Z) (T : list lexeme) (s : st) : Prop :=
  exists K l, world e u K s /\ kflat e K = Some [] /\ expand e NEST [] l = Some [] /\ reads (l ++ T) s /\ fits u l.
Lemma ready_intro e u T s : world e u [] s -> reads T s -> ready e u T s.
Proof. intros H R. exists [], []. parts; auto. constructor. Qed.
Lemma ready_step e u T s : ready e u T s -> exists s' K', leads s s' /\ world e u K' s' /\ spent K' /\ reads T s' /\ quiet s s'.
Proof. intros (K & l & H & FK & FE & R & F). exact (text_step e u l K T s [] [] H R F FK FE). Qed.
Lemma ready_plain e u x T s : ready e u (x :: T) s -> u + size x <= TEXT -> (forall w, x <> Id w) ->
  exists s', runs GetToken s tt s' /\ world e u [] s' /\ reads T s' /\ has_tok e s' x /\ quiet s s'.
Proof.
  intros H F N. destruct (ready_step _ _ _ _ H) as (s1 & K1 & L & H1 & S1 & R1 & Q1). destruct (get_plain e u s1 x T K1 S1 H1 R1 F N) as (s2 & A1 & A2 & A3 & A4 & A5).
  exists s2. parts; auto. eapply quiet_trans; eauto.
Qed.

Section Width.
Variable W : Z.
Hypothesis W_pos : 0 < W.
Variable fs : list Z -> option (list Z).
Notation loop := (pp_loop W fs).
Definition pp_body (fuel : nat) (wsp : Z) (sol active : bool) : M st unit :=
  let! t := gets (fun s => t_type (tok s)) in
  if (t =? 35) && sol then
    RawGetToken fuel;; HandleDirective W fs fuel;;
    let! t := gets (fun s => t_type (tok s)) in
    if t =? 0 then ret tt
    else
      assert (t =? TOK_NEWLINE);; GetToken fuel;;
      let! a := gets (fun s => CondActive (conds s)) in
      loop fuel wsp true a
  else if t =? 0 then
    let! s := gets (fun s => s) in
    match files s with
    | [] => ret tt
    | f :: r =>
        upd (fun s => set_inp (set_line (set_file s (fi_name f, fi_line f) r) (snd (cfile s))) (fi_rest f));;
        GetToken fuel;; loop fuel wsp true active
    end
  else if negb active then GetToken fuel;; loop fuel wsp sol active
  else if t =? TOK_WHITESPACE then GetToken fuel;; loop fuel (Z.lor wsp 1) sol active
  else if t =? TOK_NEWLINE then GetToken fuel;; loop fuel (Z.lor wsp 2) true active
  else output_token fuel wsp;; GetToken fuel;; loop fuel 0 sol active.
Lemma loop_S f ws sol a : loop (S f) ws sol a = pp_body f ws sol a. Proof. reflexivity. Qed.
(** the next token is read, then the loop goes on; [b]: the state of the innermost group is looked at in between *)
Definition form (b : bool) (ws : Z) (act : bool) (f : nat) : M st unit :=
  GetToken f;; (if b then let! a := gets (fun s => CondActive (conds s)) in loop f ws true a else loop f ws true act).
Lemma form_get b ws act s s1 sz : runs GetToken s tt s1 -> CondActive (conds s1) = act -> runs (fun f => loop f ws true act) s1 tt sz -> runs (form b ws act) s tt sz.
Proof.
  intros R A L. unfold form. eapply runs_bind; [exact R|]. destruct b; [|exact L]. apply runs_gets. rewrite A. exact L.
Qed.
(** from s, a part of the file is processed, with o put out, and s' is the state after it *)
Record walk (s s' : st) (p p' : Z) (o : list Z) : Prop := {
  k_cfile : cfile s' = cfile s; k_files : files s' = files s; k_out : outs s' = outs s ++ o;
  k_run : forall b ws, wsrel ws p -> exists b' ws', wsrel ws' p' /\
    forall sz, runs (form b' ws' (CondActive (conds s'))) s' tt sz -> runs (form b ws (CondActive (conds s))) s tt sz }.
Lemma walk_refl s p : walk s s p p [].
Proof. constructor; auto; [rewrite app_nil_r; reflexivity|]. intros b ws R. exists b, ws. auto. Qed.
Lemma walk_trans s s1 s2 p p1 p2 o1 o2 : walk s s1 p p1 o1 -> walk s1 s2 p1 p2 o2 -> walk s s2 p p2 (o1 ++ o2).
Proof.
  intros A B. constructor.
  - rewrite (k_cfile _ _ _ _ _ B). apply A.
  - rewrite (k_files _ _ _ _ _ B). apply A.
  - rewrite (k_out _ _ _ _ _ B), (k_out _ _ _ _ _ A), app_assoc. reflexivity.
  - intros b ws R. destruct (k_run _ _ _ _ _ A b ws R) as (b1 & ws1 & R1 & H1). destruct (k_run _ _ _ _ _ B b1 ws1 R1) as (b2 & ws2 & R2 & H2). exists b2, ws2. auto.
Qed.
Lemma emit_app : forall l1 l2 p, emit p (l1 ++ l2) = emit p l1 ++ emit (pending p l1) l2.
Proof. induction l1 as [|x l1 IH]; intros l2 p; [reflexivity|]. destruct x; cbn [app emit pending]; rewrite IH; rewrite <- ?app_assoc; reflexivity. Qed.
Lemma pending_app : forall l1 l2 p, pending p (l1 ++ l2) = pending (pending p l1) l2.
Proof. induction l1 as [|x l1 IH]; intros l2 p; [reflexivity|]. destruct x; cbn [app pending]; apply IH. Qed.
Lemma quiet_outs s s' : quiet s s' -> outs s' = outs s.
Proof. intros []. unfold outs. congruence. Qed.

(** *** One token of text *)
Lemma form_walk s s1 s' p p' o : runs GetToken s tt s1 -> quiet s s1 -> CondActive (conds s') = CondActive (conds s) ->
  cfile s' = cfile s1 -> files s' = files s1 -> outs s' = outs s1 ++ o ->
  (forall ws, wsrel ws p -> exists b' ws', wsrel ws' p' /\ forall sz, runs (form b' ws' (CondActive (conds s))) s' tt sz -> runs (fun f => loop f ws true (CondActive (conds s))) s1 tt sz) ->
  walk s s' p p' o.
Proof.
  intros R Q C E1 E2 E3 H. constructor.
  - rewrite E1. apply Q.
  - rewrite E2. apply Q.
  - rewrite E3. rewrite (quiet_outs _ _ Q). reflexivity.
  - intros b ws RW. destruct (H ws RW) as (b' & ws' & R' & K). exists b', ws'. split; [exact R'|]. intros sz RS. rewrite C in RS.
    eapply form_get; [exact R|rewrite (q_conds _ _ Q); reflexivity|]. apply K, RS.
Qed.
Lemma token_active e u K s s1 y p : runs GetToken s tt s1 -> quiet s s1 -> world e u K s1 -> has_tok e s1 y -> nohash y -> CondActive (conds s) = true ->
  exists s', walk s s' p (pending p [y]) (emit p [y]) /\ conds s' = conds s /\ world e u K s' /\ inp s' = inp s1.
Proof.
  intros R Q H TK N A. pose proof TK as (TY & TX & WF). destruct (code_kind e u s1 y (w_base _ _ _ _ H) WF N) as (C1 & C2 & C3 & C4 & _).
  assert (ST : forall ws, (forall sz, runs (fun f => (if is_ws y then GetToken f;; loop f (Z.lor ws 1) true true
      else if is_nl y then GetToken f;; loop f (Z.lor ws 2) true true else output_token f ws;; GetToken f;; loop f 0 true true)) s1 tt sz ->
      runs (fun f => loop f ws true true) s1 tt sz)).
  { intros ws sz RR. eapply runs_S; [intro; apply loop_S|]. unfold pp_body. apply runs_gets. rewrite TY, C1, C2, C3, C4. exact RR. }
  destruct (is_ws y) eqn:IW; [|destruct (is_nl y) eqn:IN].
  - destruct y as [w| | | | |]; try discriminate. exists s1. split; [|split; [apply Q|auto]]. eapply form_walk; try eassumption; try reflexivity.
    + rewrite (q_conds _ _ Q). reflexivity.
    + cbn [emit]. rewrite app_nil_r. reflexivity.
    + intros ws RW. exists false, (Z.lor ws 1). split; [|intros sz RS; rewrite A in *; apply ST; exact RS].
      cbn [pending]. destruct RW as [[-> ->]|[[-> ->]|[[-> | ->] ->]]]; vm_compute; intuition.
  - destruct y; try discriminate. exists s1. split; [|split; [apply Q|auto]]. eapply form_walk; try eassumption; try reflexivity.
    + rewrite (q_conds _ _ Q). reflexivity.
    + cbn [emit]. rewrite app_nil_r. reflexivity.
    + intros ws RW. exists false, (Z.lor ws 2). split; [|intros sz RS; rewrite A in *; apply ST; exact RS].
      cbn [pending]. destruct RW as [[-> ->]|[[-> ->]|[[-> | ->] ->]]]; vm_compute; intuition.
  - exists (set_outp s1 (strings p y (outp s1))).
    assert (EM : emit p [y] = separator p ++ text y) by (destruct y; try discriminate; cbn [emit]; rewrite app_nil_r; reflexivity).
    assert (PD : pending p [y] = 0) by (destruct y; try discriminate; reflexivity). rewrite EM, PD.
    split; [|split; [apply Q|split; [|reflexivity]]].
    + eapply form_walk; try eassumption; try reflexivity.
      * cbn [conds set_outp]. rewrite (q_conds _ _ Q). reflexivity.
      * apply strings_outs; assumption.
      * intros ws RW. exists false, 0. split; [left; auto|]. intros sz RS. rewrite A in *. apply ST.
        eapply runs_bind; [|exact RS]. exists O. intros f _. eapply (output_runs e u); try eassumption. apply H.
    + eapply idle_world; [|exact H]. constructor; reflexivity.
Qed.
Lemma token_inactive e u K s s1 y p : runs GetToken s tt s1 -> quiet s s1 -> world e u K s1 -> has_tok e s1 y -> nohash y -> CondActive (conds s) = false ->
  walk s s1 p p [].
Proof.
  intros R Q H TK N A. pose proof TK as (TY & TX & WF). destruct (code_kind e u s1 y (w_base _ _ _ _ H) WF N) as (C1 & C2 & C3 & C4 & _).
  eapply form_walk; try eassumption; try reflexivity.
  - rewrite (q_conds _ _ Q). reflexivity.
  - rewrite app_nil_r. reflexivity.
  - intros ws RW. exists false, ws. split; [exact RW|]. intros sz RS. rewrite A in *. eapply runs_S; [intro; apply loop_S|]. unfold pp_body. apply runs_gets. rewrite TY, C1, C2. exact RS.
Qed.
Lemma line_active e u T : forall Y l K s a b p, Y = a ++ b -> world e u K s -> reads (l ++ T) s -> fits u l -> kflat e K = Some a -> expand e NEST [] l = Some b ->
  Forall nohash Y -> CondActive (conds s) = true ->
  exists s', ready e u T s' /\ conds s' = conds s /\ walk s s' p (pending p Y) (emit p Y).
Proof.
  induction Y as [|y Y IH]; intros l K s a b p EY H R F FK FE N A.
  - symmetry in EY. apply app_eq_nil in EY. destruct EY as [-> ->]. exists s. split; [|split; [reflexivity|apply walk_refl]]. exists K, l. auto.
  - pose proof (text_step e u l K T s a b H R F FK FE) as TS. rewrite <- EY in TS.
    destruct TS as (s1 & K1 & l1 & a1 & b1 & R1 & H1 & FK1 & FE1 & EQ & TK & RD1 & F1 & Q1). inversion N as [|? ? N1 N2]; subst.
    destruct (token_active e u K1 s s1 y p R1 Q1 H1 TK N1 A) as (s2 & W2 & C2 & H2 & I2).
    destruct (IH l1 K1 s2 a1 b1 (pending p [y]) eq_refl H2) as (s3 & RD3 & C3 & W3); auto.
    { destruct RD1. split; congruence. }
    { rewrite C2. exact A. }
    exists s3. split; [exact RD3|]. split; [congruence|].
    change (y :: a1 ++ b1) with ([y] ++ (a1 ++ b1)). rewrite pending_app, emit_app. eapply walk_trans; eassumption.
Qed.
Lemma line_inactive e u T : forall Y l K s a b p, Y = a ++ b -> world e u K s -> reads (l ++ T) s -> fits u l -> kflat e K = Some a -> expand e NEST [] l = Some b ->
  Forall nohash Y -> CondActive (conds s) = false ->
  exists s', ready e u T s' /\ conds s' = conds s /\ walk s s' p p [].
Proof.
  induction Y as [|y Y IH]; intros l K s a b p EY H R F FK FE N A.
  - symmetry in EY. apply app_eq_nil in EY. destruct EY as [-> ->]. exists s. split; [|split; [reflexivity|apply walk_refl]]. exists K, l. auto.
  - pose proof (text_step e u l K T s a b H R F FK FE) as TS. rewrite <- EY in TS.
    destruct TS as (s1 & K1 & l1 & a1 & b1 & R1 & H1 & FK1 & FE1 & EQ & TK & RD1 & F1 & Q1). inversion N as [|? ? N1 N2]; subst.
    pose proof (token_inactive e u K1 s s1 y p R1 Q1 H1 TK N1 A) as W2.
    destruct (IH l1 K1 s1 a1 b1 p eq_refl H1 RD1 F1 FK1 FE1 N2) as (s3 & RD3 & C3 & W3).
    { rewrite (q_conds _ _ Q1). exact A. }
    exists s3. split; [exact RD3|]. split; [rewrite C3; apply Q1|]. exact (walk_trans _ _ _ _ _ _ [] [] W2 W3).
Qed.
Lemma world_clean e u K s : world e u K s -> forall i n l, nth_error e i = Some (n, Some l) -> Forall clean l.
Proof. intros H i n l E. apply (proj1 (w_macros _ _ _ _ H) i n _ E). intros []. Qed.
Lemma reads_app l T s : reads (l ++ Nl :: T) s -> reads ((l ++ [Nl]) ++ T) s.
Proof. rewrite <- app_assoc. auto. Qed.
(** a whole line; the macros still on the stack have nothing left *)
Lemma whole_line e u l y T s : ready e u (l ++ Nl :: T) s -> plain l -> fits u l -> expand e NEST [] l = Some y ->
  exists K l' a b, a ++ b = y ++ [Nl] /\ world e u K s /\ reads (l' ++ T) s /\ fits u l' /\ kflat e K = Some a /\ expand e NEST [] l' = Some b /\ Forall nohash (a ++ b).
Proof.
  intros (K & l0 & H & FK & FE & R & F) P FL E. exists K, (l0 ++ l ++ [Nl]), [], (y ++ [Nl]). parts; auto.
  - destruct R as [R1 R2]. rewrite <- !app_assoc. cbn [app]. split; assumption.
  - unfold fits in *. rewrite !Forall_app. parts; auto. repeat constructor. pose proof (b_u _ _ _ (w_base _ _ _ _ H)). cbn [size]. lia.
  - rewrite !expand_app, FE, E, oapp_nil, expand_cons, expand_nil. reflexivity.
  - cbn [app]. apply Forall_app. split; [|repeat constructor; discriminate].
    eapply expand_nohash; [eapply world_clean, H| |exact E]. revert P. apply Forall_impl. intros x [_ X]. exact X.
Qed.

(** *** Directives *)
Definition dispatch (fuel : nat) (d : Z) (active : bool) : M st unit :=
  (if d =? TOK_DEFINE then when active (HandleDefine fuel)
   else if d =? TOK_INCLUDE then when active (HandleInclude fs fuel)
   else if d =? TOK_UNDEF then
     when active
       (RawGetToken fuel;; RawSkipWS fuel;; ReplaceId;;
        let! t := gets (fun s => t_type (tok s)) in
        when (TOK_USER_ID <=? t)
          (set_hide (t - TOK_USER_ID) 2;;
           let! r := gets (fun s => m_repl (aget (macs s) (t - TOK_USER_ID))) in
           FreeTokenList r);;
        GetToken fuel)
   else if (d =? TOK_IFDEF) || (d =? TOK_IFNDEF) then
     RawGetToken fuel;; RawSkipWS fuel;; ReplaceId;;
     let! def := gets (fun s => IsDefined s (t_type (tok s))) in
     NewCond (xorb (d =? TOK_IFNDEF) def);;
     RawGetToken fuel
   else if d =? TOK_ERROR then when active fatal
   else if (d =? TOK_PRAGMA) || (d =? TOK_LINE) then ret tt
   else if d =? TOK_RAW_ID then when active fatal
   else
     GetToken fuel;;
     let! c := gets conds in
     if d =? TOK_IF then let! v := EvalExpr W fuel in NewCond (negb (v =? 0))
     else if d =? TOK_ELIF then
       match c with
       | [] => fatal
       | x :: _ =>
           if x =? COND_TRUE then set_cond COND_DONE
           else if x =? COND_FALSE then
             let! v := EvalExpr W fuel in when (negb (v =? 0)) (set_cond COND_TRUE)
           else ret tt
       end
     else if d =? TOK_ELSE then
       match c with
       | [] => fatal
       | x :: _ =>
           if x =? COND_TRUE then set_cond COND_DONE
           else when (x =? COND_FALSE) (set_cond COND_TRUE)
       end
     else if d =? TOK_ENDIF then
       match c with [] => fatal | _ :: r => upd (fun s => set_conds s r) end
     else ret tt).
Lemma id_id w x r : separated (Id w :: x :: r) = true -> forall v, x <> Id v.
Proof.
  intros H v ->. pose proof (separated_wf _ _ (separated_tail _ _ H)) as WF. cbn [separated] in H. apply andb_true_iff in H. destruct H as [H _]. apply andb_true_iff in H. destruct H as [_ H].
  rewrite texts_cons in H. destruct v as [|c v]; [discriminate|]. cbn [wf_lexeme] in WF. apply andb_true_iff in WF. destruct WF as [WF _].
  cbn [ends_before text app hd] in H. unfold wordchar in H. rewrite WF, ?orb_true_r in H. discriminate H.
Qed.
Lemma directive_start e u i d R s : ready e u (hash d ++ R) s -> nth_error keywords i = Some (bytes d) -> fits u (hash d) ->
  exists s2, world e u [] s2 /\ reads R s2 /\ quiet s s2 /\ t_type (tok s2) = TOK_ID + Z.of_nat i /\ (forall x R', R = x :: R' -> forall v, x <> Id v) /\
    forall s3, runs (fun f => dispatch f (TOK_ID + Z.of_nat i) (CondActive (conds s));; to_newline f) s2 tt s3 -> t_type (tok s3) = TOK_NEWLINE ->
      forall p, cfile s3 = cfile s2 -> files s3 = files s2 -> outp s3 = outp s2 -> walk s s3 p p [].
Proof.
  intros RY EK F. unfold hash in *. cbn [app] in RY. inversion F as [|? ? F1 F2]; subst. inversion F2 as [|? ? F3 _]; subst. clear F F2.
  destruct (ready_plain _ _ _ _ _ RY F1) as (s0 & R0 & H0 & RD0 & TK0 & Q0); [discriminate|].
  destruct (raw_next e u s0 _ _ [] (Forall_nil _) H0 RD0 F3) as (s1 & R1 & H1 & RD1 & RT1 & Q1 & _).
  destruct (replace_name e u s1 _ H1 RT1) as (s2 & RI & H2 & I2 & Q2 & TY2 & _).
  assert (IL : (i < 16)%nat) by (change 16%nat with (length keywords); apply nth_error_Some; congruence).
  assert (EC : id_code (names e) (bytes d) = TOK_ID + Z.of_nat i).
  { pose proof (word_kind e (bytes d)) as WK. remember (id_code (names e) (bytes d)) as c eqn:EC. destruct WK as [N1 N2|j N1 N2 N3|j b N1 N2 N3].
    - exfalso. apply index_of_none in N1. apply N1. eapply nth_error_In, EK.
    - f_equal. f_equal. eapply (proj1 (NoDup_nth_error keywords)); [|change (List.length keywords) with 16%nat; exact N2|congruence].
      apply (NoDup_app_l keywords (map fst e)). exact (t_nodup _ _ (b_table _ _ _ (w_base _ _ _ _ H0))).
    - exfalso. apply index_of_none in N1. apply N1. eapply nth_error_In, EK. }
  exists s2. split; [exact H2|]. split; [destruct RD1; split; congruence|]. split; [repeat (eapply quiet_trans; [eassumption|]); apply quiet_refl|].
  split; [congruence|]. split; [intros x R' ->; eapply id_id; destruct RD0 as [_ RD0]; exact RD0|].
  intros s3 RD NL p E1 E2 E3.
  assert (Q : quiet s0 s2) by (eapply quiet_trans; eassumption).
  constructor.
  - rewrite E1, (q_cfile _ _ Q). apply Q0.
  - rewrite E2, (q_files _ _ Q). apply Q0.
  - unfold outs. rewrite E3, (q_outp _ _ Q), (q_outp _ _ Q0), app_nil_r. reflexivity.
  - intros b ws RW. exists true, ws. split; [exact RW|]. intros sz RS. eapply form_get; [exact R0|rewrite (q_conds _ _ Q0); reflexivity|].
    eapply runs_S; [intro; apply loop_S|]. unfold pp_body. apply runs_gets. destruct TK0 as (-> & _). change ((code e (Op (bytes "#")) =? 35) && true) with true. cbv iota.
    eapply runs_bind; [exact R1|]. eapply runs_bind with (a := tt) (s1 := s3).
    + unfold HandleDirective.
      pose proof RT1 as (E & _). assert (NW : t_type (tok s1) <> TOK_WHITESPACE) by (rewrite E; discriminate).
      eapply runs_bind; [apply raw_skip_none; exact NW|]. apply runs_gets. rewrite E. change (lex_type (Id (bytes d)) =? TOK_NEWLINE) with false. cbv iota.
      eapply runs_step; [exact RI|]. apply runs_gets. rewrite TY2, EC. apply runs_assert; [change TOK_USER_ID with 273; change TOK_ID with 257; lia|].
      apply runs_gets. rewrite (q_conds _ _ Q), (q_conds _ _ Q0). exact RD.
    + apply runs_gets. rewrite NL. change (TOK_NEWLINE =? 0) with false. cbv iota. apply runs_assert; [reflexivity|]. exact RS.
Qed.
(** the rest of the line of a directive *)
Definition midline (e : env) (u : Z) (T : list lexeme) (s : st) : Prop :=
  world e u [] s /\
  (t_type (tok s) = TOK_NEWLINE /\ reads T s \/
   t_type (tok s) <> TOK_NEWLINE /\ exists r, reads (r ++ Nl :: T) s /\ Forall (fun x => is_nl x = false) r /\ fits u r).
Lemma to_newline_S f : to_newline (S f) = (let! t := gets (fun s => t_type (tok s)) in if t =? TOK_NEWLINE then ret tt else RawGetToken f;; to_newline f).
Proof. reflexivity. Qed.
Lemma midline_end e u T s : midline e u T s ->
  exists s', runs to_newline s tt s' /\ t_type (tok s') = TOK_NEWLINE /\ world e u [] s' /\ reads T s' /\ quiet s s'.
Proof.
  intros [H [[TY R]|[TY (r & R & N & F)]]].
  - exists s. parts; auto using quiet_refl. eapply runs_S; [apply to_newline_S|]. apply runs_gets. rewrite TY. apply runs_ret.
  - revert s H TY R. induction r as [|x r IH]; intros s H TY R; cbn [app] in R.
    + destruct (raw_next e u s Nl T [] (Forall_nil _) H R) as (s1 & R1 & H1 & RD1 & RT1 & Q1 & _); [pose proof (b_u _ _ _ (w_base _ _ _ _ H)); cbn [size]; lia|].
      exists s1. destruct RT1 as (TY1 & _). parts; auto. eapply runs_S; [apply to_newline_S|]. apply runs_gets. destruct (Z.eqb_spec (t_type (tok s)) TOK_NEWLINE); [contradiction|].
      eapply runs_bind; [exact R1|]. eapply runs_S; [apply to_newline_S|]. apply runs_gets. rewrite TY1. apply runs_ret.
    + inversion N as [|? ? N1 N2]; subst. inversion F as [|? ? F1 F2]; subst.
      destruct (raw_next e u s x _ [] (Forall_nil _) H R F1) as (s1 & R1 & H1 & RD1 & RT1 & Q1 & _). destruct RT1 as (TY1 & _).
      destruct (IH N2 F2 s1 H1) as (s2 & R2 & A1 & A2 & A3 & A4); [|exact RD1|].
      * rewrite TY1. apply Z.eqb_neq. rewrite lex_type_nl; [exact N1|]. destruct R as [_ R]. eapply separated_wf, R.
      * exists s2. parts; auto; [|eapply quiet_trans; eauto]. eapply runs_S; [apply to_newline_S|]. apply runs_gets. destruct (Z.eqb_spec (t_type (tok s)) TOK_NEWLINE); [contradiction|].
        eapply runs_bind; [exact R1|exact R2].
Qed.
Lemma midline_conds e u T s c : midline e u T s -> midline e u T (set_conds s c).
Proof. intros [H X]. split; [eapply idle_world; [|exact H]; constructor; reflexivity|exact X]. Qed.
(** the first token after the word of the directive *)
Lemma midline_get e u l T s : world e u [] s -> reads (l ++ Nl :: T) s -> Forall (fun x => is_nl x = false) l -> fits u l ->
  (forall x R, l ++ Nl :: T = x :: R -> forall w, x <> Id w) ->
  exists s', runs GetToken s tt s' /\ midline e u T s' /\ quiet s s'.
Proof.
  intros H R N F NI. destruct l as [|x l]; cbn [app] in *.
  - destruct (get_plain e u s Nl T [] (Forall_nil _) H R) as (s1 & R1 & H1 & RD1 & (TY1 & _) & Q1); [pose proof (b_u _ _ _ (w_base _ _ _ _ H)); cbn [size]; lia|discriminate|].
    exists s1. parts; auto. split; auto.
  - inversion N as [|? ? N1 N2]; subst. inversion F as [|? ? F1 F2]; subst. pose proof (NI x _ eq_refl) as NX.
    destruct (get_plain e u s x _ [] (Forall_nil _) H R F1 NX) as (s1 & R1 & H1 & RD1 & (TY1 & _) & Q1).
    exists s1. parts; auto. split; [exact H1|]. right. split; [|exists l; auto].
    rewrite TY1. assert (WF : wf_lexeme x = true) by (destruct R as [_ R]; eapply separated_wf, R).
    apply Z.eqb_neq. destruct x; try (exfalso; eapply NX; reflexivity); cbn [code]; rewrite lex_type_nl by exact WF; exact N1.
Qed.
Lemma midline_raw e u l T s : world e u [] s -> reads (l ++ Nl :: T) s -> Forall (fun x => is_nl x = false) l -> fits u l ->
  exists s', runs RawGetToken s tt s' /\ midline e u T s' /\ quiet s s'.
Proof.
  intros H R N F. destruct l as [|x l]; cbn [app] in *.
  - destruct (raw_next e u s Nl T [] (Forall_nil _) H R) as (s1 & R1 & H1 & RD1 & (TY1 & _) & Q1 & _); [pose proof (b_u _ _ _ (w_base _ _ _ _ H)); cbn [size]; lia|].
    exists s1. parts; auto. split; auto.
  - inversion N as [|? ? N1 N2]; subst. inversion F as [|? ? F1 F2]; subst.
    destruct (raw_next e u s x _ [] (Forall_nil _) H R F1) as (s1 & R1 & H1 & RD1 & (TY1 & _) & Q1 & _).
    exists s1. parts; auto. split; [exact H1|]. right. split; [|exists l; auto].
    rewrite TY1. apply Z.eqb_neq. rewrite lex_type_nl; [exact N1|]. destruct R as [_ R]. eapply separated_wf, R.
Qed.
(** a directive that ends at s3 *)
Record done (e : env) (u : Z) (T : list lexeme) (c : list Z) (s s' : st) : Prop := {
  n_ready : ready e u T s'; n_conds : conds s' = c; n_walk : forall p, walk s s' p p [] }.
Lemma directive e u i d R s e1 u1 T c : ready e u (hash d ++ R) s -> nth_error keywords i = Some (bytes d) -> fits u (hash d) ->
  (forall s2, world e u [] s2 -> reads R s2 -> conds s2 = conds s -> t_type (tok s2) = TOK_ID + Z.of_nat i -> (forall x R', R = x :: R' -> forall v, x <> Id v) ->
     exists s3, runs (fun f => dispatch f (TOK_ID + Z.of_nat i) (CondActive (conds s))) s2 tt s3 /\ midline e1 u1 T s3 /\ conds s3 = c /\
       cfile s3 = cfile s2 /\ files s3 = files s2 /\ outp s3 = outp s2) ->
  exists s', done e1 u1 T c s s'.
Proof.
  intros RY EK F D. destruct (directive_start e u i d R s RY EK F) as (s2 & H2 & RD2 & Q2 & TY2 & NI & K).
  destruct (D s2 H2 RD2 (q_conds _ _ Q2) TY2 NI) as (s3 & R3 & M3 & C3 & E1 & E2 & E3).
  destruct (midline_end _ _ _ _ M3) as (s4 & R4 & TY4 & H4 & RD4 & Q4). exists s4. constructor.
  - apply ready_intro; assumption.
  - rewrite (q_conds _ _ Q4). exact C3.
  - intro p. apply K; [eapply runs_bind; eassumption|exact TY4|rewrite (q_cfile _ _ Q4); exact E1|rewrite (q_files _ _ Q4); exact E2|rewrite (q_outp _ _ Q4); exact E3].
Qed.
Lemma blanks_nl t : blanks t -> Forall (fun x => is_nl x = false) t.
Proof. apply Forall_impl. intros x H. destruct x; try discriminate; reflexivity. Qed.
Lemma blanks_fits u t : u <= TEXT -> blanks t -> fits u t.
Proof. intros U. apply Forall_impl. intros x H. destruct x; try discriminate. cbn [size]. lia. Qed.
Lemma ready_u e u T s : ready e u T s -> 0 <= u <= TEXT.
Proof. intros (K & l & H & _). apply (b_u _ _ _ (w_base _ _ _ _ H)). Qed.
Ltac quiets Q := repeat split; first [apply Q|rewrite (q_cfile _ _ Q)|idtac]; try reflexivity.
Lemma step_define e u s a n b T e1 u1 : ready e u (hash "define" ++ Ws a :: Id n :: b ++ Nl :: T) s ->
  Forall (fun x => is_nl x = false /\ is_hash x = false) b -> (b = [] \/ exists a' b', b = Ws a' :: b') -> ~ In n keywords ->
  e1 = (match lookup e n with Some (Some _) => e | _ => update e n (Some (squeeze (-1) b)) end) ->
  u1 = (match lookup e n with Some (Some _) => u | Some None => u + sizes b | None => u + size (Id n) + sizes b end) ->
  fits u (hash "define" ++ [Id n]) ->
  (match lookup e n with Some (Some _) => fits u b | _ => u1 <= TEXT end) -> stored e1 <= POOL -> Z.of_nat (length e1) <= NAMES ->
  CondActive (conds s) = true -> exists s', done e1 u1 T (conds s) s s'.
Proof.
  intros RY FB SH NK EE EU F FU FS FL A. apply Forall_app in F. destruct F as [F1 F2]. inversion F2 as [|? ? F3 _]; subst.
  eapply (directive e u 0); [exact RY|reflexivity|exact F1|]. intros s2 H2 RD2 C2 TY2 NI. rewrite A.
  assert (FU' : match lookup e n with Some (Some _) => True | _ => (match lookup e n with Some (Some _) => u | Some None => u + sizes b | None => u + size (Id n) + sizes b end) <= TEXT end).
  { destruct (lookup e n) as [[?|]|]; auto. }
  destruct (define_runs e u s2 a n b T _ _ H2 RD2 FB SH NK F3 eq_refl eq_refl FU' FS FL) as (s3 & R3 & H3 & Q3 & X3).
  exists s3. split; [|split; [|parts; first [rewrite (q_conds _ _ Q3); exact C2|apply Q3]]].
  - apply (runs_ext _ HandleDefine); [reflexivity|exact R3].
  - split; [exact H3|]. destruct (lookup e n) as [[l|]|] eqn:LK; [|left; exact X3|left; exact X3].
    right. split; [exact (proj1 X3)|]. exists b. parts; [apply X3| |exact FU]. revert FB. apply Forall_impl. tauto.
Qed.
Lemma skip_define e u s a n b T : ready e u (hash "define" ++ Ws a :: Id n :: b ++ Nl :: T) s ->
  Forall (fun x => is_nl x = false) b -> fits u (hash "define" ++ Id n :: b) -> CondActive (conds s) = false -> exists s', done e u T (conds s) s s'.
Proof.
  intros RY FB F A. apply Forall_app in F. destruct F as [F1 F2]. inversion F2 as [|? ? F3 F4]; subst.
  eapply (directive e u 0); [exact RY|reflexivity|exact F1|]. intros s2 H2 RD2 C2 TY2 NI. rewrite A.
  exists s2. split; [apply (runs_ext _ (fun _ => ret tt)); [reflexivity|apply runs_ret]|]. split; [|parts; auto]. split; [exact H2|].
  right. split; [rewrite TY2; discriminate|]. exists (Ws a :: Id n :: b). split; [exact RD2|]. split; [repeat constructor; assumption|].
  repeat constructor; auto. pose proof (b_u _ _ _ (w_base _ _ _ _ H2)). cbn [size]. lia.
Qed.
Lemma skip_undef e u s a n t T : ready e u (hash "undef" ++ Ws a :: Id n :: t ++ Nl :: T) s ->
  blanks t -> fits u (hash "undef" ++ [Id n]) -> CondActive (conds s) = false -> exists s', done e u T (conds s) s s'.
Proof.
  intros RY FB F A. apply Forall_app in F. destruct F as [F1 F2]. inversion F2 as [|? ? F3 F4]; subst.
  eapply (directive e u 1); [exact RY|reflexivity|exact F1|]. intros s2 H2 RD2 C2 TY2 NI. rewrite A.
  exists s2. split; [apply (runs_ext _ (fun _ => ret tt)); [reflexivity|apply runs_ret]|]. split; [|parts; auto]. split; [exact H2|].
  pose proof (b_u _ _ _ (w_base _ _ _ _ H2)).
  right. split; [rewrite TY2; discriminate|]. exists (Ws a :: Id n :: t). split; [exact RD2|]. split; [repeat constructor; apply blanks_nl, FB|].
  repeat constructor; auto; [cbn [size]; lia|]. apply blanks_fits; [lia|exact FB].
Qed.
Definition undef_rest (f : nat) : M st unit :=
  let! t := gets (fun s => t_type (tok s)) in
  when (TOK_USER_ID <=? t)
    (set_hide (t - TOK_USER_ID) 2;;
     let! r := gets (fun s => m_repl (aget (macs s) (t - TOK_USER_ID))) in
     FreeTokenList r);;
  GetToken f.
Lemma step_undef e u s a n t T e1 : ready e u (hash "undef" ++ Ws a :: Id n :: t ++ Nl :: T) s -> blanks t ->
  fits u (hash "undef" ++ [Id n]) -> ~ In n keywords ->
  e1 = (match lookup e n with None => e | Some _ => update e n None end) -> lookup e n <> Some None ->
  CondActive (conds s) = true -> exists s', done e1 u T (conds s) s s'.
Proof.
  intros RY FB F NK EE NL A. apply Forall_app in F. destruct F as [F1 F2]. inversion F2 as [|? ? F3 F4]; subst.
  eapply (directive e u 1); [exact RY|reflexivity|exact F1|]. intros s2 H2 RD2 C2 TY2 NI. rewrite A. pose proof (b_u _ _ _ (w_base _ _ _ _ H2)) as UU.
  destruct (raw_next e u s2 (Ws a) _ [] (Forall_nil _) H2 RD2) as (s3 & R3 & H3 & RD3 & (TY3 & _) & Q3 & _); [cbn [size]; lia|].
  destruct (raw_next e u s3 (Id n) _ [] (Forall_nil _) H3 RD3 F3) as (s4 & R4 & H4 & RD4 & RT4 & Q4 & _).
  destruct (replace_name e u s4 n H4 RT4) as (s5 & RI & H5 & I5 & Q5 & TY5 & _).
  assert (NT : forall x R', t ++ Nl :: T = x :: R' -> forall v, x <> Id v).
  { intros x R' EX v ->. destruct t as [|y t]; [discriminate|]. inversion FB; subst. injection EX as -> _. discriminate. }
  assert (Q25 : quiet s2 s5) by (repeat (eapply quiet_trans; [eassumption|]); apply quiet_refl).
  assert (PRE : forall sf, runs undef_rest s5 tt sf -> runs (fun f => dispatch f (TOK_ID + Z.of_nat 1) true) s2 tt sf).
  { intros sf R. eapply (runs_ext _ (fun f => RawGetToken f;; RawSkipWS f;; ReplaceId;; undef_rest f)); [intro; reflexivity|]. eapply runs_bind; [exact R3|]. eapply runs_bind.
    { apply raw_skip_one; [exact TY3|exact R4|]. destruct RT4 as (-> & _). discriminate. }
    eapply runs_step; [exact RI|]. exact R. }
  assert (RD5 : reads (t ++ Nl :: T) s5) by (destruct RD4; split; congruence).
  pose proof (word_kind e n) as WK. remember (id_code (names e) n) as c eqn:EC. destruct WK as [N1 N2|i N1 N2 N3|i b0 N1 N2 N3].
  - destruct (midline_get e u t T s5 H5 RD5 (blanks_nl _ FB) (blanks_fits _ _ (proj2 UU) FB) NT) as (s6 & R6 & M6 & Q6).
    rewrite N2. assert (Q26 : quiet s2 s6) by (eapply quiet_trans; eassumption).
    exists s6. split; [|split; [exact M6|parts; first [rewrite (q_conds _ _ Q26); exact C2|apply Q26]]].
    apply PRE. unfold undef_rest. apply runs_gets. rewrite TY5. apply runs_rbind. exact R6.
  - exfalso. apply NK. eapply nth_error_In, N3.
  - rewrite N3 in *. destruct b0 as [l|]; [|congruence].
    destruct (undef_runs e u s5 i n l H5 N2) as (s6 & E6 & H6 & I6 & Q6).
    assert (NDE : NoDup (map fst e)). { pose proof (t_nodup _ _ (b_table _ _ _ (w_base _ _ _ _ H2))) as ND. unfold names in ND. eapply NoDup_app_r, ND. }
    rewrite (update_old e n None i _ N2 NDE).
    assert (RD6 : reads (t ++ Nl :: T) s6) by (destruct RD5; split; congruence).
    destruct (midline_get _ u t T s6 H6 RD6 (blanks_nl _ FB) (blanks_fits _ _ (proj2 UU) FB) NT) as (s7 & R7 & M7 & Q7).
    assert (Q27 : quiet s2 s7) by (repeat (eapply quiet_trans; [eassumption|]); apply quiet_refl).
    exists s7. split; [|split; [exact M7|parts; first [rewrite (q_conds _ _ Q27); exact C2|apply Q27]]].
    apply PRE. unfold undef_rest. apply runs_gets. rewrite TY5. replace (TOK_USER_ID <=? TOK_USER_ID + Z.of_nat i) with true by (symmetry; apply Z.leb_le; lia).
    replace (TOK_USER_ID + Z.of_nat i - TOK_USER_ID) with (Z.of_nat i) by lia. eapply runs_step; [exact E6|exact R7].
Qed.
Lemma new_cond v s : (length (conds s) < 16)%nat ->
  NewCond v s = Ok (tt, set_conds s ((if negb (CondActive (conds s)) then COND_DONE else if v then COND_TRUE else COND_FALSE) :: conds s)).
Proof.
  intro L. unfold NewCond, bind, gets, assert, upd. replace (Z.of_nat (length (conds s)) <? COND_MAX) with true; [reflexivity|]. symmetry. apply Z.ltb_lt. unfold COND_MAX. lia.
Qed.
Definition opened (v : bool) (c : list Z) : list Z := (if negb (CondActive c) then COND_DONE else if v then COND_TRUE else COND_FALSE) :: c.
Lemma quiet_conds s1 s2 c : quiet s1 s2 -> cfile (set_conds s2 c) = cfile s1 /\ files (set_conds s2 c) = files s1 /\ outp (set_conds s2 c) = outp s1.
Proof. intro Q. parts; apply Q. Qed.
Lemma step_ifdef e u s b a n t T : ready e u (hash (if b : bool then "ifdef" else "ifndef") ++ Ws a :: Id n :: t ++ Nl :: T) s -> blanks t ->
  fits u (hash (if b then "ifdef" else "ifndef")) -> u + size (Id n) <= TEXT -> (length (conds s) < 16)%nat ->
  exists s', done e u T (opened (if b then defined e n else negb (defined e n)) (conds s)) s s'.
Proof.
  intros RY FB F1 F3 L. pose proof (ready_u _ _ _ _ RY) as UU.
  assert (EK : nth_error keywords (if b then 3%nat else 4%nat) = Some (bytes (if b then "ifdef" else "ifndef"))) by (destruct b; reflexivity).
  eapply (directive e u (if b then 3%nat else 4%nat)); [exact RY|exact EK|exact F1|]. intros s2 H2 RD2 C2 TY2 NI.
  destruct (raw_next e u s2 (Ws a) _ [] (Forall_nil _) H2 RD2) as (s3 & R3 & H3 & RD3 & (TY3 & _) & Q3 & _); [cbn [size]; lia|].
  destruct (raw_next e u s3 (Id n) _ [] (Forall_nil _) H3 RD3 F3) as (s4 & R4 & H4 & RD4 & RT4 & Q4 & _).
  destruct (replace_name e u s4 n H4 RT4) as (s5 & RI & H5 & I5 & Q5 & TY5 & _).
  assert (Q25 : quiet s2 s5) by (repeat (eapply quiet_trans; [eassumption|]); apply quiet_refl).
  assert (C5 : conds s5 = conds s) by (rewrite (q_conds _ _ Q25); exact C2).
  set (v := if b then defined e n else negb (defined e n)). set (s6 := set_conds s5 (opened v (conds s))).
  assert (N6 : NewCond v s5 = Ok (tt, s6)) by (unfold s6, opened; rewrite <- C5; apply new_cond; rewrite C5; exact L).
  assert (H6 : world e u [] s6) by (eapply idle_world; [|exact H5]; constructor; reflexivity).
  assert (RD6 : reads (t ++ Nl :: T) s6) by (destruct RD4; split; cbn [s6 inp set_conds]; congruence).
  destruct (midline_raw e u t T s6 H6 RD6 (blanks_nl _ FB) (blanks_fits _ _ (proj2 UU) FB)) as (s7 & R7 & M7 & Q7).
  exists s7. split; [|split; [exact M7|parts]].
  - apply (runs_ext _ (fun f => RawGetToken f;; RawSkipWS f;; ReplaceId;;
     let! def := gets (fun s => IsDefined s (t_type (tok s))) in
     NewCond (xorb (negb b) def);;
     RawGetToken f)); [intro; destruct b; reflexivity|].
    eapply runs_bind; [exact R3|]. eapply runs_bind.
    { apply raw_skip_one; [exact TY3|exact R4|]. destruct RT4 as (-> & _). discriminate. }
    eapply runs_step; [exact RI|]. apply runs_gets. rewrite TY5, (IsDefined_spec _ _ _ _ H5). 
    replace (xorb (negb b) (defined e n)) with v by (unfold v; destruct b, (defined e n); reflexivity). eapply runs_step; [exact N6|exact R7].
  - rewrite (q_conds _ _ Q7). reflexivity.
  - rewrite (q_cfile _ _ Q7). apply Q25.
  - rewrite (q_files _ _ Q7). apply Q25.
  - rewrite (q_outp _ _ Q7). apply Q25.
Qed.
Lemma on_nl e u T s : on_tok e u T s [] -> midline e u T s.
Proof.
  intros (ts0 & A & B & C). destruct ts0 as [|t ts0]; [|cbn [filter] in B; rewrite C in B; discriminate].
  destruct A as ((TY & _) & H & R). split; [exact H|left; split; [exact TY|exact R]].
Qed.
Lemma condition_runs e u l T s v : world e u [] s -> reads (l ++ Nl :: T) s -> fits u l -> condition W e l v ->
  exists s', runs (fun f => GetToken f) s tt s' /\ quiet s s' /\ exists s'', runs (EvalExpr W) s' v s'' /\ midline e u T s'' /\ quiet s' s''.
Proof.
  intros H R F (ts & x & E1 & E2 & G & V).
  assert (B : before e u T s ts) by (exists [], l, [], ts; parts; auto).
  destruct (at_next e u T s ts B) as (s1 & R1 & A1 & Q1). exists s1. split; [exact R1|]. split; [exact Q1|].
  destruct (EvalExpr_runs e u T W W_pos s1 x v) as (s2 & R2 & O2 & Q2); auto.
  { exists ts. split; [exact A1|]. rewrite <- E2. apply filter_ext. intros []; reflexivity. }
  exists s2. parts; auto. apply on_nl, O2.
Qed.
Lemma step_if e u s l v T : ready e u (hash "if" ++ l ++ Nl :: T) s -> fits u (hash "if" ++ l) -> condition W e l v -> (length (conds s) < 16)%nat ->
  exists s', done e u T (opened (negb (v =? 0)) (conds s)) s s'.
Proof.
  intros RY F C L. apply Forall_app in F. destruct F as [F1 F2].
  eapply (directive e u 2%nat); [exact RY|reflexivity|exact F1|]. intros s2 H2 RD2 C2 TY2 NI.
  destruct (condition_runs e u l T s2 v H2 RD2 F2 C) as (s3 & R3 & Q3 & s4 & R4 & M4 & Q4).
  assert (Q24 : quiet s2 s4) by (eapply quiet_trans; eassumption).
  assert (C4 : conds s4 = conds s) by (rewrite (q_conds _ _ Q24); exact C2).
  exists (set_conds s4 (opened (negb (v =? 0)) (conds s))). split; [|split; [apply midline_conds, M4|split; [reflexivity|apply quiet_conds, Q24]]].
  apply (runs_ext _ (fun f => GetToken f;; let! c := gets conds in let! v := EvalExpr W f in NewCond (negb (v =? 0)))); [intro; reflexivity|].
  eapply runs_bind; [exact R3|]. apply runs_gets. eapply runs_bind; [exact R4|]. apply runs_const.
  unfold opened. rewrite <- C4. apply new_cond. rewrite C4. exact L.
Qed.
Lemma step_elif_eval e u s l v T c : ready e u (hash "elif" ++ l ++ Nl :: T) s -> fits u (hash "elif" ++ l) -> condition W e l v -> conds s = COND_FALSE :: c ->
  exists s', done e u T ((if v =? 0 then COND_FALSE else COND_TRUE) :: c) s s'.
Proof.
  intros RY F C L. apply Forall_app in F. destruct F as [F1 F2].
  eapply (directive e u 5%nat); [exact RY|reflexivity|exact F1|]. intros s2 H2 RD2 C2 TY2 NI.
  destruct (condition_runs e u l T s2 v H2 RD2 F2 C) as (s3 & R3 & Q3 & s4 & R4 & M4 & Q4).
  assert (Q24 : quiet s2 s4) by (eapply quiet_trans; eassumption).
  assert (C4 : conds s4 = COND_FALSE :: c) by (rewrite (q_conds _ _ Q24); congruence).
  assert (C3 : conds s3 = COND_FALSE :: c) by (rewrite (q_conds _ _ Q3); congruence).
  exists (set_conds s4 ((if v =? 0 then COND_FALSE else COND_TRUE) :: c)). split; [|split; [apply midline_conds, M4|split; [reflexivity|apply quiet_conds, Q24]]].
  apply (runs_ext _ (fun f => GetToken f;; let! c := gets conds in match c with
       | [] => fatal
       | x :: _ =>
           if x =? COND_TRUE then set_cond COND_DONE
           else if x =? COND_FALSE then
             let! v := EvalExpr W f in when (negb (v =? 0)) (set_cond COND_TRUE)
           else ret tt
       end)); [intro; reflexivity|].
  eapply runs_bind; [exact R3|]. apply runs_gets. rewrite C3. change (COND_FALSE =? COND_TRUE) with false. change (COND_FALSE =? COND_FALSE) with true. cbv iota.
  eapply runs_bind; [exact R4|]. apply runs_const. destruct (v =? 0); cbn [negb]; unfold when, set_cond, upd, ret; [|rewrite C4; reflexivity].
  rewrite <- C4. destruct s4; reflexivity.
Qed.
Lemma step_elif_skip e u s l T x c : ready e u (hash "elif" ++ l ++ Nl :: T) s -> fits u (hash "elif" ++ l) -> Forall (fun x => is_nl x = false) l ->
  conds s = x :: c -> x = COND_TRUE \/ x = COND_DONE -> exists s', done e u T (COND_DONE :: c) s s'.
Proof.
  intros RY F FL L X. apply Forall_app in F. destruct F as [F1 F2].
  eapply (directive e u 5%nat); [exact RY|reflexivity|exact F1|]. intros s2 H2 RD2 C2 TY2 NI.
  destruct (midline_get e u l T s2 H2 RD2 FL F2 NI) as (s3 & R3 & M3 & Q3).
  assert (C3 : conds s3 = x :: c) by (rewrite (q_conds _ _ Q3); congruence).
  exists (set_conds s3 (COND_DONE :: c)). split; [|split; [apply midline_conds, M3|split; [reflexivity|apply quiet_conds, Q3]]].
  apply (runs_ext _ (fun f => GetToken f;; let! c := gets conds in match c with
       | [] => fatal
       | x :: _ =>
           if x =? COND_TRUE then set_cond COND_DONE
           else if x =? COND_FALSE then
             let! v := EvalExpr W f in when (negb (v =? 0)) (set_cond COND_TRUE)
           else ret tt
       end)); [intro; reflexivity|].
  eapply runs_bind; [exact R3|]. apply runs_gets. rewrite C3. destruct X as [-> | ->].
  - change (COND_TRUE =? COND_TRUE) with true. cbv iota. apply runs_const. unfold set_cond, upd. rewrite C3. reflexivity.
  - change (COND_DONE =? COND_TRUE) with false. change (COND_DONE =? COND_FALSE) with false. cbv iota. apply runs_const. unfold ret. rewrite <- C3. destruct s3; reflexivity.
Qed.
Definition turned (x : Z) : Z := if x =? COND_TRUE then COND_DONE else if x =? COND_FALSE then COND_TRUE else x.
Lemma step_else e u s t T x c : ready e u (hash "else" ++ t ++ Nl :: T) s -> fits u (hash "else") -> blanks t ->
  conds s = x :: c -> exists s', done e u T (turned x :: c) s s'.
Proof.
  intros RY F1 FB L. pose proof (ready_u _ _ _ _ RY) as UU.
  eapply (directive e u 6%nat); [exact RY|reflexivity|exact F1|]. intros s2 H2 RD2 C2 TY2 NI.
  destruct (midline_get e u t T s2 H2 RD2 (blanks_nl _ FB) (blanks_fits _ _ (proj2 UU) FB) NI) as (s3 & R3 & M3 & Q3).
  assert (C3 : conds s3 = x :: c) by (rewrite (q_conds _ _ Q3); congruence).
  exists (set_conds s3 (turned x :: c)). split; [|split; [apply midline_conds, M3|split; [reflexivity|apply quiet_conds, Q3]]].
  apply (runs_ext _ (fun f => GetToken f;; let! c := gets conds in match c with
       | [] => fatal
       | x :: _ =>
           if x =? COND_TRUE then set_cond COND_DONE
           else when (x =? COND_FALSE) (set_cond COND_TRUE)
       end)); [intro; reflexivity|].
  eapply runs_bind; [exact R3|]. apply runs_gets. rewrite C3. apply runs_const. unfold turned. destruct (x =? COND_TRUE).
  - unfold set_cond, upd. rewrite C3. reflexivity.
  - destruct (x =? COND_FALSE); unfold when, set_cond, upd, ret; [rewrite C3; reflexivity|]. rewrite <- C3. destruct s3; reflexivity.
Qed.
Lemma step_endif e u s t T x c : ready e u (hash "endif" ++ t ++ Nl :: T) s -> fits u (hash "endif") -> blanks t ->
  conds s = x :: c -> exists s', done e u T c s s'.
Proof.
  intros RY F1 FB L. pose proof (ready_u _ _ _ _ RY) as UU.
  eapply (directive e u 7%nat); [exact RY|reflexivity|exact F1|]. intros s2 H2 RD2 C2 TY2 NI.
  destruct (midline_get e u t T s2 H2 RD2 (blanks_nl _ FB) (blanks_fits _ _ (proj2 UU) FB) NI) as (s3 & R3 & M3 & Q3).
  assert (C3 : conds s3 = x :: c) by (rewrite (q_conds _ _ Q3); congruence).
  exists (set_conds s3 c). split; [|split; [apply midline_conds, M3|split; [reflexivity|apply quiet_conds, Q3]]].
  apply (runs_ext _ (fun f => GetToken f;; let! c := gets conds in match c with [] => fatal | _ :: r => upd (fun s => set_conds s r) end)); [intro; reflexivity|].
  eapply runs_bind; [exact R3|]. apply runs_gets. rewrite C3. apply runs_const. reflexivity.
Qed.

Scheme means_mut := Minimality for means Sort Prop
  with means_more_mut := Minimality for means_more Sort Prop
  with skips_mut := Minimality for skips Sort Prop
  with skips_more_mut := Minimality for skips_more Sort Prop.
Combined Scheme means_comb from means_mut, means_more_mut, skips_mut, skips_more_mut.
Definition P_means (d : nat) (e : env) (u : Z) (i : items) (e' : env) (u' : Z) (out : list lexeme) : Prop :=
  forall T s p, ready e u (lexemes i ++ T) s -> CondActive (conds s) = true -> (length (conds s) + d <= 16)%nat ->
  exists s', ready e' u' T s' /\ conds s' = conds s /\ walk s s' p (pending p out) (emit p out).
Definition P_more (d : nat) (e : env) (u : Z) (m : more) (e' : env) (u' : Z) (out : list lexeme) : Prop :=
  forall T s p c, ready e u (more_lexemes m ++ T) s -> conds s = COND_FALSE :: c -> (length (COND_FALSE :: c) + d <= 16)%nat ->
  exists s', ready e' u' T s' /\ conds s' = c /\ walk s s' p (pending p out) (emit p out).
Definition P_skips (d : nat) (e : env) (u : Z) (i : items) : Prop :=
  forall T s p, ready e u (lexemes i ++ T) s -> CondActive (conds s) = false -> (length (conds s) + d <= 16)%nat ->
  exists s', ready e u T s' /\ conds s' = conds s /\ walk s s' p p [].
Definition P_skips_more (d : nat) (e : env) (u : Z) (m : more) : Prop :=
  forall T s p x c, ready e u (more_lexemes m ++ T) s -> conds s = x :: c -> x = COND_TRUE \/ x = COND_DONE -> (length (x :: c) + d <= 16)%nat ->
  exists s', ready e u T s' /\ conds s' = c /\ walk s s' p p [].
Lemma step_open e u s o v T : ready e u (open_line o ++ T) s -> opening_ok u o -> is_def W e o v -> (length (conds s) < 16)%nat ->
  exists s', done e u T (opened v (conds s)) s s'.
Proof.
  intros RY [F OK] D L. destruct o as [l|a n t|a n t]; cbn [open_line is_def] in *.
  - destruct D as (x & C & ->). apply (step_if e u s l x T); auto.
    + rewrite <- !app_assoc in RY. exact RY.
    + rewrite app_assoc in F. apply Forall_app in F. apply F.
  - subst v. apply Forall_app in F. destruct F as [F1 F2]. inversion F2 as [|? ? F3 F4]; subst. inversion F4; subst.
    apply (step_ifdef e u s true a n t T); auto. cbv iota. rewrite <- !app_assoc in RY. cbn [app] in RY. rewrite <- !app_assoc in RY. exact RY.
  - subst v. apply Forall_app in F. destruct F as [F1 F2]. inversion F2 as [|? ? F3 F4]; subst. inversion F4; subst.
    apply (step_ifdef e u s false a n t T); auto. cbv iota. rewrite <- !app_assoc in RY. cbn [app] in RY. rewrite <- !app_assoc in RY. exact RY.
Qed.
Lemma walk_nil_l s s1 s2 p p2 o : walk s s1 p p [] -> walk s1 s2 p p2 o -> walk s s2 p p2 o.
Proof. intros A B. exact (walk_trans _ _ _ _ _ _ [] o A B). Qed.
Lemma walk_nil_r s s1 s2 p p1 o : walk s s1 p p1 o -> walk s1 s2 p1 p1 [] -> walk s s2 p p1 o.
Proof. intros A B. rewrite <- (app_nil_r o). exact (walk_trans _ _ _ _ _ _ o [] A B). Qed.
Ltac lx H := cbn [lexemes more_lexemes] in H; repeat (rewrite <- ?app_assoc in H; cbn [app] in H).
Theorem run_items :
  (forall d e u i e' u' out, means W d e u i e' u' out -> P_means d e u i e' u' out) /\
  (forall d e u m e' u' out, means_more W d e u m e' u' out -> P_more d e u m e' u' out) /\
  (forall d e u i, skips W d e u i -> P_skips d e u i) /\
  (forall d e u m, skips_more W d e u m -> P_skips_more d e u m).
Proof.
  apply means_comb.
  - (* MDone *) intros d e u T s p RY A L. exists s. parts; auto. apply walk_refl.
  - (* MLine *) intros d e u l y r e' u' out PL F EX _ IH T s p RY A L. lx RY.
    destruct (whole_line e u l y _ s RY PL F EX) as (K & l' & a & b & EY & H & R & F' & EK & EB & NH).
    destruct (line_active e u _ (a ++ b) l' K s a b p eq_refl H R F' EK EB NH A) as (s1 & RY1 & C1 & W1).
    destruct (IH T s1 (pending p (a ++ b)) RY1 ltac:(congruence) ltac:(rewrite C1; exact L)) as (s2 & RY2 & C2 & W2).
    exists s2. parts; [exact RY2|congruence|]. replace (y ++ Nl :: out) with ((a ++ b) ++ out) by (rewrite EY, <- app_assoc; reflexivity).
    rewrite emit_app, pending_app. eapply walk_trans; eassumption.
  - (* MDefine *) intros d e u a n b r e1 u1 e' u' out F1 F2 F3 F4 F5 F6 F7 F8 F9 _ IH T s p RY A L. lx RY.
    destruct (step_define e u s a n b _ e1 u1 RY F1 F2 F3 F4 F5 F6 F7 F8 F9 A) as (s1 & D).
    destruct (IH T s1 p (n_ready _ _ _ _ _ _ D) ltac:(rewrite (n_conds _ _ _ _ _ _ D); exact A) ltac:(rewrite (n_conds _ _ _ _ _ _ D); exact L)) as (s2 & RY2 & C2 & W2).
    exists s2. parts; [exact RY2|rewrite C2; apply (n_conds _ _ _ _ _ _ D)|]. eapply walk_nil_l; [apply (n_walk _ _ _ _ _ _ D)|exact W2].
  - (* MUndef *) intros d e u a n t r e1 e' u' out F1 F2 F3 F4 F5 _ IH T s p RY A L. lx RY.
    destruct (step_undef e u s a n t _ e1 RY F1 F2 F3 F4 F5 A) as (s1 & D).
    destruct (IH T s1 p (n_ready _ _ _ _ _ _ D) ltac:(rewrite (n_conds _ _ _ _ _ _ D); exact A) ltac:(rewrite (n_conds _ _ _ _ _ _ D); exact L)) as (s2 & RY2 & C2 & W2).
    exists s2. parts; [exact RY2|rewrite C2; apply (n_conds _ _ _ _ _ _ D)|]. eapply walk_nil_l; [apply (n_walk _ _ _ _ _ _ D)|exact W2].
  - (* MTrue *) intros d e u o b m r e1 u1 e' u' out1 out2 OK DF _ IH1 _ IH2 _ IH3 T s p RY A L. lx RY.
    destruct (step_open e u s o true _ RY OK DF ltac:(lia)) as (s1 & D).
    pose proof (n_conds _ _ _ _ _ _ D) as C1. unfold opened in C1. rewrite A in C1. cbn [negb] in C1.
    destruct (IH1 _ s1 p (n_ready _ _ _ _ _ _ D) ltac:(rewrite C1; reflexivity) ltac:(rewrite C1; cbn [length]; lia)) as (s2 & RY2 & C2 & W2).
    destruct (IH2 _ s2 (pending p out1) COND_TRUE (conds s) RY2 ltac:(congruence) ltac:(auto) ltac:(cbn [length]; lia)) as (s3 & RY3 & C3 & W3).
    destruct (IH3 T s3 (pending p out1) RY3 ltac:(congruence) ltac:(rewrite C3; exact L)) as (s4 & RY4 & C4 & W4).
    exists s4. parts; [exact RY4|congruence|]. rewrite emit_app, pending_app. eapply walk_trans; [|exact W4].
    eapply walk_nil_l; [apply (n_walk _ _ _ _ _ _ D)|]. eapply walk_nil_r; eassumption.
  - (* MFalse *) intros d e u o b m r e1 u1 e' u' out1 out2 OK DF _ IH1 _ IH2 _ IH3 T s p RY A L. lx RY.
    destruct (step_open e u s o false _ RY OK DF ltac:(lia)) as (s1 & D).
    pose proof (n_conds _ _ _ _ _ _ D) as C1. unfold opened in C1. rewrite A in C1. cbn [negb] in C1.
    destruct (IH1 _ s1 p (n_ready _ _ _ _ _ _ D) ltac:(rewrite C1; reflexivity) ltac:(rewrite C1; cbn [length]; lia)) as (s2 & RY2 & C2 & W2).
    destruct (IH2 _ s2 p (conds s) RY2 ltac:(congruence) ltac:(cbn [length]; lia)) as (s3 & RY3 & C3 & W3).
    destruct (IH3 T s3 (pending p out1) RY3 ltac:(congruence) ltac:(rewrite C3; exact L)) as (s4 & RY4 & C4 & W4).
    exists s4. parts; [exact RY4|congruence|]. rewrite emit_app, pending_app. eapply walk_trans; [|exact W4].
    eapply walk_nil_l; [apply (n_walk _ _ _ _ _ _ D)|]. eapply walk_nil_l; eassumption.
  - (* MEndif *) intros d e u t F1 F2 T s p c RY C L. lx RY.
    destruct (step_endif e u s t _ _ _ RY F2 F1 C) as (s1 & D). exists s1. parts; [apply D|apply D|]. apply (n_walk _ _ _ _ _ _ D).
  - (* MElse *) intros d e u t b t' e' u' out F1 F2 F3 F4 _ IH T s p c RY C L. lx RY.
    destruct (step_else e u s t _ _ _ RY F3 F1 C) as (s1 & D). pose proof (n_conds _ _ _ _ _ _ D) as C1. change (turned COND_FALSE) with COND_TRUE in C1.
    destruct (IH _ s1 p (n_ready _ _ _ _ _ _ D) ltac:(rewrite C1; reflexivity) ltac:(rewrite C1; exact L)) as (s2 & RY2 & C2 & W2).
    rewrite C1 in C2. destruct (step_endif e' u' s2 t' _ _ _ RY2 F4 F2 C2) as (s3 & D3). exists s3. parts; [apply D3|apply D3|].
    eapply walk_nil_l; [apply (n_walk _ _ _ _ _ _ D)|]. eapply walk_nil_r; [exact W2|]. apply (n_walk _ _ _ _ _ _ D3).
  - (* MElifTrue *) intros d e u l b m e' u' out v F1 F2 CD NZ _ IH1 _ IH2 T s p c RY C L. lx RY.
    destruct (step_elif_eval e u s l v _ c RY F2 CD C) as (s1 & D). pose proof (n_conds _ _ _ _ _ _ D) as C1.
    replace (v =? 0) with false in C1 by (symmetry; apply Z.eqb_neq, NZ).
    destruct (IH1 _ s1 p (n_ready _ _ _ _ _ _ D) ltac:(rewrite C1; reflexivity) ltac:(rewrite C1; exact L)) as (s2 & RY2 & C2 & W2).
    destruct (IH2 _ s2 (pending p out) COND_TRUE c RY2 ltac:(congruence) ltac:(auto) ltac:(exact L)) as (s3 & RY3 & C3 & W3).
    exists s3. parts; [exact RY3|exact C3|]. eapply walk_nil_l; [apply (n_walk _ _ _ _ _ _ D)|]. eapply walk_nil_r; eassumption.
  - (* MElifFalse *) intros d e u l b m e' u' out F1 F2 CD _ IH1 _ IH2 T s p c RY C L. lx RY.
    destruct (step_elif_eval e u s l 0 _ c RY F2 CD C) as (s1 & D). pose proof (n_conds _ _ _ _ _ _ D) as C1. change (0 =? 0) with true in C1. cbv iota in C1.
    destruct (IH1 _ s1 p (n_ready _ _ _ _ _ _ D) ltac:(rewrite C1; reflexivity) ltac:(rewrite C1; exact L)) as (s2 & RY2 & C2 & W2).
    destruct (IH2 _ s2 p c RY2 ltac:(congruence) ltac:(exact L)) as (s3 & RY3 & C3 & W3).
    exists s3. parts; [exact RY3|exact C3|]. eapply walk_nil_l; [apply (n_walk _ _ _ _ _ _ D)|]. eapply walk_nil_l; eassumption.
  - (* SDone *) intros d e u T s p RY A L. exists s. parts; auto. apply walk_refl.
  - (* SLine *) intros d e u l y r PL F EX _ IH T s p RY A L. lx RY.
    destruct (whole_line e u l y _ s RY PL F EX) as (K & l' & a & b & EY & H & R & F' & EK & EB & NH).
    destruct (line_inactive e u _ (a ++ b) l' K s a b p eq_refl H R F' EK EB NH A) as (s1 & RY1 & C1 & W1).
    destruct (IH T s1 p RY1 ltac:(congruence) ltac:(rewrite C1; exact L)) as (s2 & RY2 & C2 & W2).
    exists s2. parts; [exact RY2|congruence|]. eapply walk_nil_l; eassumption.
  - (* SDefine *) intros d e u a n b r F1 F2 _ IH T s p RY A L. lx RY.
    destruct (skip_define e u s a n b _ RY F1 F2 A) as (s1 & D).
    destruct (IH T s1 p (n_ready _ _ _ _ _ _ D) ltac:(rewrite (n_conds _ _ _ _ _ _ D); exact A) ltac:(rewrite (n_conds _ _ _ _ _ _ D); exact L)) as (s2 & RY2 & C2 & W2).
    exists s2. parts; [exact RY2|rewrite C2; apply (n_conds _ _ _ _ _ _ D)|]. eapply walk_nil_l; [apply (n_walk _ _ _ _ _ _ D)|exact W2].
  - (* SUndef *) intros d e u a n b r F1 F2 _ IH T s p RY A L. lx RY.
    destruct (skip_undef e u s a n b _ RY F1 F2 A) as (s1 & D).
    destruct (IH T s1 p (n_ready _ _ _ _ _ _ D) ltac:(rewrite (n_conds _ _ _ _ _ _ D); exact A) ltac:(rewrite (n_conds _ _ _ _ _ _ D); exact L)) as (s2 & RY2 & C2 & W2).
    exists s2. parts; [exact RY2|rewrite C2; apply (n_conds _ _ _ _ _ _ D)|]. eapply walk_nil_l; [apply (n_walk _ _ _ _ _ _ D)|exact W2].
  - (* SGroup *) intros d e u o v b m r OK DF _ IH1 _ IH2 _ IH3 T s p RY A L. lx RY.
    destruct (step_open e u s o v _ RY OK DF ltac:(lia)) as (s1 & D).
    pose proof (n_conds _ _ _ _ _ _ D) as C1. unfold opened in C1. rewrite A in C1. cbn [negb] in C1.
    destruct (IH1 _ s1 p (n_ready _ _ _ _ _ _ D) ltac:(rewrite C1; reflexivity) ltac:(rewrite C1; cbn [length]; lia)) as (s2 & RY2 & C2 & W2).
    destruct (IH2 _ s2 p COND_DONE (conds s) RY2 ltac:(congruence) ltac:(auto) ltac:(cbn [length]; lia)) as (s3 & RY3 & C3 & W3).
    destruct (IH3 T s3 p RY3 ltac:(congruence) ltac:(rewrite C3; exact L)) as (s4 & RY4 & C4 & W4).
    exists s4. parts; [exact RY4|congruence|]. eapply walk_nil_l; [apply (n_walk _ _ _ _ _ _ D)|]. eapply walk_nil_l; [exact W2|]. eapply walk_nil_l; eassumption.
  - (* SEndif *) intros d e u t F1 F2 T s p x c RY C X L. lx RY.
    destruct (step_endif e u s t _ _ _ RY F2 F1 C) as (s1 & D). exists s1. parts; [apply D|apply D|]. apply (n_walk _ _ _ _ _ _ D).
  - (* SElse *) intros d e u t b t' F1 F2 F3 F4 _ IH T s p x c RY C X L. lx RY.
    destruct (step_else e u s t _ _ _ RY F3 F1 C) as (s1 & D). pose proof (n_conds _ _ _ _ _ _ D) as C1.
    assert (TX : turned x = COND_DONE) by (destruct X as [-> | ->]; reflexivity). rewrite TX in C1.
    destruct (IH _ s1 p (n_ready _ _ _ _ _ _ D) ltac:(rewrite C1; reflexivity) ltac:(rewrite C1; exact L)) as (s2 & RY2 & C2 & W2).
    rewrite C1 in C2. destruct (step_endif e u s2 t' _ _ _ RY2 F4 F2 C2) as (s3 & D3). exists s3. parts; [apply D3|apply D3|].
    eapply walk_nil_l; [apply (n_walk _ _ _ _ _ _ D)|]. eapply walk_nil_r; [exact W2|]. apply (n_walk _ _ _ _ _ _ D3).
  - (* SElif *) intros d e u l b m F1 F2 _ IH1 _ IH2 T s p x c RY C X L. lx RY.
    destruct (step_elif_skip e u s l _ x c RY F2 F1 C X) as (s1 & D). pose proof (n_conds _ _ _ _ _ _ D) as C1.
    destruct (IH1 _ s1 p (n_ready _ _ _ _ _ _ D) ltac:(rewrite C1; reflexivity) ltac:(rewrite C1; exact L)) as (s2 & RY2 & C2 & W2).
    destruct (IH2 _ s2 p COND_DONE c RY2 ltac:(congruence) ltac:(auto) ltac:(exact L)) as (s3 & RY3 & C3 & W3).
    exists s3. parts; [exact RY3|exact C3|]. eapply walk_nil_l; [apply (n_walk _ _ _ _ _ _ D)|]. eapply walk_nil_l; eassumption.
Qed.
(** *** The end of the file *)
Lemma raw_file_end s : inp s = [] ->
  exists t, runs raw_file s tt (set_tok (set_data s (data s) (npos s)) (mktok (if t_type (tok s) =? TOK_EOF then TOK_NEWLINE else TOK_EOF) t)).
Proof.
  intro I. exists (PTok (npos s)). exists 1%nat. intros [|f] L; [lia|]. cbn [raw_file]. unfold SccState.bind at 1, upd at 1. unfold SccState.bind at 1, gets at 1.
  cbn [inp set_tok set_data]. rewrite I. cbn [cur]. change (0 =? 10) with false. change (0 =? 47) with false. change (0 =? 92) with false. change ((0 =? 34) || (0 =? 39)) with false.
  change (0 =? 0) with true. cbv iota. reflexivity.
Qed.
Lemma world_end e u s t : world e u [] s -> world e u [] (set_tok (set_data s (data s) (npos s)) t).
Proof. intro H. eapply idle_world; [|exact H]. constructor; reflexivity. Qed.
Lemma get_end e u s K : spent K -> world e u K s -> inp s = [] ->
  exists s', runs GetToken s tt s' /\ world e u [] s' /\ inp s' = [] /\ quiet s s' /\ (t_type (tok s') = TOK_EOF \/ t_type (tok s') = TOK_NEWLINE).
Proof.
  intros S H I. destruct (RawGetToken_file _ _ _ _ S H) as (s1 & R1 & H1 & I1 & Q1). destruct (raw_file_end s1) as (t & R2); [congruence|].
  destruct (t_type (tok s1) =? TOK_EOF); (eexists; split; [|split; [apply world_end, H1|]];
    [eapply runs_S; [intro; reflexivity|]; eapply runs_bind; [apply R1, R2|]; apply runs_gets; apply runs_ret|
     parts; [cbn; congruence|eapply quiet_trans; [exact Q1|constructor; reflexivity]|cbn [tok set_tok t_type]; auto]]).
Qed.
Lemma get_end_again e u s : world e u [] s -> inp s = [] -> t_type (tok s) = TOK_NEWLINE ->
  exists s', runs GetToken s tt s' /\ quiet s s' /\ t_type (tok s') = TOK_EOF.
Proof.
  intros H I TY. assert (SK : stack s = []) by (pose proof (w_stack _ _ _ _ H) as X; inversion X; reflexivity).
  destruct (raw_file_end s I) as (t & R2). rewrite TY in R2.
  change (if TOK_NEWLINE =? TOK_EOF then TOK_NEWLINE else TOK_EOF) with TOK_EOF in R2.
  exists (set_tok (set_data s (data s) (npos s)) (mktok TOK_EOF t)). split; [|split; [constructor; reflexivity|reflexivity]].
  eapply runs_S; [intro; reflexivity|]. eapply runs_bind.
  - unfold RawGetToken. eapply runs_bind with (a := false) (s1 := s).
    + exists 1%nat. intros [|f] L; [lia|]. cbn [raw_stack]. unfold SccState.bind, gets. rewrite SK. reflexivity.
    + apply runs_gets. rewrite (b_queue _ _ _ (w_base _ _ _ _ H)). exact R2.
  - apply runs_gets. apply runs_ret.
Qed.
Lemma stop ws act s : t_type (tok s) = TOK_EOF -> files s = [] -> runs (fun f => loop f ws true act) s tt s.
Proof.
  intros TY F. eapply runs_S; [intro; apply loop_S|]. unfold pp_body. apply runs_gets. rewrite TY. change ((TOK_EOF =? 35) && true) with false. change (TOK_EOF =? 0) with true.
  cbv iota. apply runs_gets. rewrite F. apply runs_ret.
Qed.
Lemma end_runs e u s b ws : ready e u [] s -> files s = [] -> exists s', runs (form b ws (CondActive (conds s))) s tt s' /\ outs s' = outs s.
Proof.
  intros RY F. destruct (ready_step _ _ _ _ RY) as (s1 & K & LD & H1 & S1 & [I1 _] & Q1).
  destruct (get_end e u s1 K S1 H1 I1) as (s2 & R2 & H2 & I2 & Q2 & TY2).
  assert (Q02 : quiet s s2) by (eapply quiet_trans; eassumption). 
  assert (F2 : files s2 = []) by (rewrite (q_files _ _ Q02); exact F). destruct TY2 as [TY2|TY2].
  - exists s2. split; [|unfold outs; rewrite (q_outp _ _ Q02); reflexivity]. eapply form_get; [apply LD, R2|rewrite (q_conds _ _ Q02); reflexivity|]. apply stop; auto.
  - destruct (get_end_again e u s2 H2 I2 TY2) as (s3 & R3 & Q3 & TY3). assert (F3 : files s3 = []) by (rewrite (q_files _ _ Q3); exact F2).
    exists s3. split; [|unfold outs; rewrite (q_outp _ _ Q3), (q_outp _ _ Q02); reflexivity]. eapply form_get; [apply LD, R2|rewrite (q_conds _ _ Q02); reflexivity|].
    eapply runs_S; [intro; apply loop_S|]. unfold pp_body. apply runs_gets. rewrite TY2. change ((TOK_NEWLINE =? 35) && true) with false. change (TOK_NEWLINE =? 0) with false.
    cbv iota. destruct (CondActive (conds s)); cbn [negb].
    + change (TOK_NEWLINE =? TOK_WHITESPACE) with false. change (TOK_NEWLINE =? TOK_NEWLINE) with true. cbv iota. eapply runs_bind; [exact R3|]. apply stop; auto.
    + eapply runs_bind; [exact R3|]. apply stop; auto.
Qed.
(** *** The beginning *)
Definition table_0 : arr Z := match add_ids builtin_names (st0 [] []) with Ok (_, s) => Spp.hash s | _ => mkarr 0 Leaf end.
Lemma add_builtin name l : add_ids builtin_names (st0 name l) = Ok (tt, set_ids (st0 name l) (map (fun x => PStr (SccLex.bytes_of x)) builtin_names) table_0).
Proof. vm_compute. reflexivity. Qed.
Definition upto (n : nat) : list Z := map Z.of_nat (seq 0 n).
Lemma in_upto n k : 0 <= k < Z.of_nat n -> In k (upto n).
Proof. intro H. unfold upto. apply in_map_iff. exists (Z.to_nat k). split; [lia|]. apply in_seq. lia. Qed.
Lemma upto_in n k : In k (upto n) -> 0 <= k < Z.of_nat n.
Proof. unfold upto. rewrite in_map_iff. intros (i & <- & H). apply in_seq in H. lia. Qed.
Definition pathb (i : nat) (w : list Z) : bool :=
  existsb (fun d => (slot table_0 (hash_str w + d) =? Z.of_nat i) && forallb (fun x => (d <=? x) || negb (slot table_0 (hash_str w + x) =? -1)) (upto 128)) (upto 128).
Fixpoint nodupb (l : list (list Z)) : bool := match l with [] => true | x :: l => negb (existsb (word_eq x) l) && nodupb l end.
Lemma nodupb_ok l : nodupb l = true -> NoDup l.
Proof.
  induction l as [|x l IH]; cbn [nodupb]; intro H; [constructor|]. apply andb_true_iff in H. destruct H as [H1 H2]. constructor; [|auto].
  intro I. apply negb_true_iff in H1. rewrite <- not_true_iff_false in H1. apply H1. apply existsb_exists. exists x. split; [exact I|apply word_eq_true; reflexivity].
Qed.
Lemma table_start : table keywords table_0.
Proof.
  constructor.
  - apply nodupb_ok. vm_compute. reflexivity.
  - cbn. lia.
  - intro k. assert (F : forallb (fun k => (aget table_0 k =? -1) || (0 <=? aget table_0 k) && (aget table_0 k <? 16)) (upto 128) = true) by (vm_compute; reflexivity).
    rewrite forallb_forall in F. unfold slot.
    change (Z.of_nat (length keywords)) with 16. pose proof (F _ (in_upto 128 _ (Z.mod_pos_bound k 128 eq_refl))). lia.
  - intros k1 k2 N E. assert (F : forallb (fun k => (aget table_0 k =? -1) || forallb (fun j => (k =? j) || negb (aget table_0 k =? aget table_0 j)) (upto 128)) (upto 128) = true) by (vm_compute; reflexivity).
    rewrite forallb_forall in F. pose proof (F _ (in_upto 128 _ (Z.mod_pos_bound k1 128 eq_refl))) as G. apply orb_true_iff in G. destruct G as [G|G]; [unfold slot in N; lia|].
    rewrite forallb_forall in G. pose proof (G _ (in_upto 128 _ (Z.mod_pos_bound k2 128 eq_refl))) as J. unfold slot in E. rewrite E in J. lia.
  - intros i w E. assert (F : forallb (fun '(i, w) => pathb i w) (combine (seq 0 16) keywords) = true) by (vm_compute; reflexivity).
    rewrite forallb_forall in F. assert (IN : In (i, w) (combine (seq 0 16) keywords)).
    { assert (L : (i < 16)%nat) by (change 16%nat with (length keywords); apply nth_error_Some; congruence).
      apply nth_error_In with i. rewrite nth_error_nth' with (d := (0%nat, [])) by (exact L). rewrite combine_nth by reflexivity. rewrite seq_nth by exact L.
      rewrite (nth_error_nth _ _ [] E). reflexivity. }
    specialize (F _ IN). cbn beta iota in F. unfold pathb in F. apply existsb_exists in F. destruct F as (d & D & F). apply andb_true_iff in F. destruct F as [F1 F2].
    exists d. split; [apply upto_in in D; exact D|]. split; [lia|]. intros x X. rewrite forallb_forall in F2. apply upto_in in D.
    assert (U : In x (upto 128)) by (apply in_upto; lia). specialize (F2 x U). apply orb_true_iff in F2. destruct F2 as [F2|F2]; [lia|].
    apply negb_true_iff in F2. lia.
Qed.
Fixpoint linksb (a : arr elem) (p : Z) (js : list Z) : bool :=
  match js with [] => p =? -1 | j :: js => (p =? j) && negb (j =? -1) && linksb a (e_next (aget a p)) js end.
Lemma linksb_ok a js : forall p, linksb a p js = true -> links a p js.
Proof.
  induction js as [|j js IH]; intros p H; cbn [linksb links] in *; [lia|]. apply andb_true_iff in H. destruct H as [H1 H2]. split; [lia|]. split; [lia|auto].
Qed.
Lemma names_start name l : names_ok (set_ids (st0 name l) (map (fun x => PStr (SccLex.bytes_of x)) builtin_names) table_0) keywords.
Proof. unfold names_ok. cbn [ids set_ids]. unfold keywords, builtin_names. cbn [map]. repeat (apply Forall2_cons; [reflexivity|]). constructor. Qed.
Lemma world_start name l : world [] 0 [] (set_ids (st0 name l) (map (fun x => PStr (SccLex.bytes_of x)) builtin_names) table_0).
Proof.
  constructor.
  - constructor; [exact table_start|apply names_start|reflexivity|unfold TEXT; lia|reflexivity].
  - split; [intros i n b H; destruct i; discriminate|]. intros i _. reflexivity.
  - constructor.
  - constructor.
  - exists (upto 128), []. split; [apply linksb_ok; cbn [pool free set_ids st0]; vm_compute; reflexivity|]. split; [reflexivity|]. split; [intros i n b H; destruct i; discriminate|].
    split; [intros i []|]. cbn [List.concat app]. rewrite app_nil_r. split; [|split; [reflexivity|]].
    + unfold upto. apply FinFun.Injective_map_NoDup; [intros a b; lia|apply seq_NoDup].
    + apply Forall_forall. intros j J. apply upto_in in J. lia.
Qed.
Lemma s8_id c : 0 <= c <= 127 -> s8 c = c.
Proof. intro H. unfold s8. rewrite Z.mod_small by lia. destruct (Z.ltb_spec c 128); lia. Qed.
Lemma literal_range q w : forall b, literal_ok q b w = true -> Forall (fun c => 0 <= c <= 127) w.
Proof.
  induction w as [|c w IH]; intros b H; [constructor|]. cbn [literal_ok] in H. repeat (apply andb_true_iff in H; destruct H as [H ?]). constructor; [lia|eauto].
Qed.
Lemma wordchars_range w : forallb wordchar w = true -> Forall (fun c => 0 <= c <= 127) w.
Proof. rewrite forallb_forall, Forall_forall. intros H c I. specialize (H c I). unfold wordchar, digit, letter in H. lia. Qed.
Lemma text_range x : wf_lexeme x = true -> Forall (fun c => 0 <= c <= 127) (text x).
Proof.
  destruct x as [l| |w|w|q w|w]; cbn [text wf_lexeme]; intro H.
  - apply andb_true_iff in H. destruct H as [_ H]. rewrite forallb_forall in H. apply Forall_forall. intros c I. specialize (H c I). apply blank_range in H. lia.
  - repeat constructor; lia.
  - destruct w as [|c w]; [discriminate|]. apply andb_true_iff in H. destruct H as [H1 H2]. apply wordchars_range. cbn [forallb]. unfold wordchar at 1. rewrite H1, orb_true_r. exact H2.
  - destruct w as [|c w]; [discriminate|]. apply andb_true_iff in H. destruct H as [H1 H2]. apply wordchars_range. cbn [forallb]. unfold wordchar at 1. rewrite H1. exact H2.
  - apply andb_true_iff in H. destruct H as [H1 H2]. constructor; [lia|]. apply Forall_app. split; [eapply literal_range, H2|]. constructor; [lia|constructor].
  - destruct (doubles_not_single _ H) as [(c & -> & I)|I].
    + assert (F : forallb (fun c => (0 <=? c) && (c <=? 127)) singles = true) by reflexivity. rewrite forallb_forall in F. specialize (F c).
      constructor; [|constructor]. cbn [wf_lexeme] in H. apply existsb_exists in H. destruct H as (d & D & E). specialize (F ltac:(replace c with d by lia; exact D)). lia.
    + assert (F : forallb (fun w => forallb (fun c => (0 <=? c) && (c <=? 127)) w) doubles = true) by reflexivity. rewrite forallb_forall in F. specialize (F _ I).
      rewrite forallb_forall in F. apply Forall_forall. intros c J. specialize (F c J). lia.
Qed.
Lemma texts_range l : separated l = true -> Forall (fun c => 0 <= c <= 127) (texts l).
Proof.
  induction l as [|x l IH]; intro H; [constructor|]. rewrite texts_cons. apply Forall_app. cbn [separated] in H. apply andb_true_iff in H. destruct H as [H H2].
  apply andb_true_iff in H. destruct H as [H H1]. split; [apply text_range, H|apply IH, H2].
Qed.
(** the whole program *)
Theorem preprocess_file i e u out name input : means W 16 [] 0 i e u out -> separated (lexemes i) = true -> fs name = Some input -> input = texts (lexemes i) ->
  exists f0, forall fuel, (f0 <= fuel)%nat -> preprocess W fs fuel name = Ok (emit 0 out).
Proof.
  intros M S EF EI. set (s0 := set_ids (st0 name input) (map (fun x => PStr (SccLex.bytes_of x)) builtin_names) table_0).
  assert (RY : ready [] 0 (lexemes i ++ []) s0).
  { apply ready_intro; [apply world_start|]. rewrite app_nil_r. split; [|exact S]. cbn [inp s0 set_ids st0]. rewrite EI. rewrite <- (map_id (texts _)) at 2.
    apply map_ext_in. intros c I. pose proof (texts_range _ S) as R. rewrite Forall_forall in R. apply s8_id, R, I. }
  destruct run_items as (RI & _). destruct (RI _ _ _ _ _ _ _ M [] s0 0 RY eq_refl (le_n _)) as (s1 & RY1 & C1 & W1).
  destruct (k_run _ _ _ _ _ W1 false 0) as (b & ws & _ & K); [left; auto|].
  destruct (end_runs e u s1 b ws RY1) as (s2 & R2 & O2); [rewrite (k_files _ _ _ _ _ W1); reflexivity|].
  specialize (K s2 R2). destruct K as (f0 & K). exists f0. intros fuel L. unfold preprocess. rewrite EF. 
  rewrite (bind_eq _ _ _ _ _ (add_builtin name input)). fold s0. specialize (K fuel L). unfold form in K. change (CondActive (conds s0)) with true in K. unfold PPMain. rewrite K.
  f_equal. fold (outs s2). rewrite O2, (k_out _ _ _ _ _ W1). reflexivity.
Qed.
End Width.
