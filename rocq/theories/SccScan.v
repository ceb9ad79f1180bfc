(** From the text of a program to the tokens the parser sees. *)
From Verif Require Import Base Bits SccState SccEmit SccLex SccDecl SccExpr SccInput SccRel SccIntern SccTok SccTok2 SccTok3 SccArith ExprSpec SccParse.

(** [sp], followed by [rest], is a spelling of the token; [names] are the names met so far, in order *)
Inductive lexeme (names : list (list Z)) : list Z -> token -> list Z -> Prop :=
| lex_num c base pre ds rest :
    (c = 48 /\ ((pre = nil /\ base = 8 /\ (ds = nil -> hd 0 rest <> 88 /\ hd 0 rest <> 120)) \/ ((pre = [88] \/ pre = [120]) /\ base = 16))
     \/ 49 <= c <= 57 /\ pre = nil /\ base = 10) ->
    digits base ds -> (length ds <= 8)%nat -> (length ds < 8 -> ends_num base rest)%nat -> 0 <= value base (c :: ds) < 32768 ->
    lexeme names (c :: pre ++ ds) (TOK_NUM, PREC_STOP, value base (c :: ds)) rest
| lex_name c cs rest i : id_start c = true -> Forall (fun c => id_char c = true) cs -> id_char (hd 0 rest) = false ->
    nth_error names i = Some (c :: cs) -> lexeme names (c :: cs) (TOK_KEYWORD + Z.of_nat i, PREC_STOP, 0) rest
| lex_op sp t p rest : In (sp, t, p) ops -> longest sp (sp ++ rest) ->
    (sp = [47] -> hd 0 rest <> 47 /\ hd 0 rest <> 42) -> (sp = [46] -> hd 0 rest <> 46) -> lexeme names sp (t, p, 0) rest.
(** the text is a sequence of tokens with blanks and comments between them, and something after *)
Inductive scan (names : list (list Z)) : list Z -> list token -> Prop :=
| scan_end cs : scan names cs []
| scan_tok w sp t cs ts : trivia w -> lexeme names sp t cs -> scan names cs ts -> scan names (w ++ sp ++ cs) (t :: ts).

(** ** A lexer state with other input *)
Definition with_input (cs : list Z) (l : lexst) : lexst :=
  set_CurChar (hd 0 cs) (set_File (tl cs) (set_InBufPtr 0 (set_InBuf (ainit 0) l))).
Lemma with_input_view cs l : view (with_input cs l) = view l.
Proof. reflexivity. Qed.
Lemma s8_char c : -128 <= c <= 127 -> s8 c = c.
Proof. intro H. apply s8_small. lia. Qed.
Lemma map_s8 cs : schars cs -> map s8 cs = cs.
Proof. induction 1 as [|c cs H _ IH]; cbn [map]; [reflexivity|]. rewrite IH, s8_char by exact H. reflexivity. Qed.
Lemma with_input_sees cs l : schars cs -> nz (tl cs) -> sees (with_input cs l) cs.
Proof.
  intros SC N. split; [reflexivity|]. exists []. change (InBuf (with_input cs l)) with (ainit 0 : arr Z). change (InBufPtr (with_input cs l)) with 0. change (File (with_input cs l)) with (tl cs).
  assert (SC' : schars (tl cs)) by (destruct cs; [constructor|exact (Forall_inv_tail SC)]).
  cbn [stored length app]. rewrite aget_init. split; [reflexivity|]. split; [constructor|]. split; [lia|]. split; [unfold INBUF_MAX; lia|].
  rewrite map_s8 by exact SC'. auto.
Qed.
Lemma sees_nz l cs : sees l cs -> nz (tl cs).
Proof. intros [_ (bs & _ & N & _ & _ & -> & N')]. apply Forall_app. auto. Qed.
Lemma nz_tl cs : nz cs -> nz (tl cs).
Proof. intro N. destruct N; [constructor|assumption]. Qed.
Lemma nz_app_tl a b : nz (tl (a ++ b)) -> nz (tl b).
Proof. destruct a as [|x a]; cbn [app tl]; [auto|]. intro N. apply Forall_app in N. apply nz_tl. apply N. Qed.

(** what a lexer sees is determined, but for the form of the end of the file *)
Lemma stored_same b : forall bs cs i, nz bs -> nz cs -> stored b i bs -> stored b i cs -> bs = cs.
Proof.
  induction bs as [|x bs IH]; intros [|y cs] i N1 N2 S1 S2; cbn [stored] in *; try reflexivity.
  - destruct S2 as [E _]. exfalso. apply (Forall_inv N2). congruence.
  - destruct S1 as [E _]. exfalso. apply (Forall_inv N1). congruence.
  - destruct S1 as [E1 S1], S2 as [E2 S2]. f_equal; [congruence|]. apply (IH cs (i + 1)); auto; eapply Forall_inv_tail; eauto.
Qed.
Lemma sees_same l l' r cs : sees l r -> sees l cs -> sees l' r -> sees l' cs.
Proof.
  intros [C1 (bs & S1 & N1 & _ & _ & E1 & _)] [C2 (bs' & S2 & N2 & _ & _ & E2 & _)] [D1 D2].
  assert (bs = bs') by (eapply stored_same; eauto). subst bs'. split; [congruence|]. rewrite E2, <- E1. exact D2.
Qed.

Section W.
Variables (W : Z) (F : nat).
Hypothesis HW : 16 <= W.

Lemma id_run_app cs rest : Forall (fun c => id_char c = true) cs -> id_char (hd 0 rest) = false -> id_run (cs ++ rest) = (cs, rest).
Proof.
  induction 1 as [|c cs H _ IH]; intro R; cbn [app id_run]; [destruct rest as [|r rest]; [reflexivity|cbn [id_run hd] in *; rewrite R; reflexivity]|].
  rewrite H, (IH R). reflexivity.
Qed.
Lemma index_of_nth names : NoDup names -> forall i sp, nth_error names i = Some sp -> index_of sp names = Some i.
Proof.
  induction 1 as [|n names NI N IH]; intros [|i] sp H; cbn [nth_error index_of] in *; try discriminate.
  - injection H as ->. destruct (list_eq_dec Z.eq_dec sp sp); [reflexivity|contradiction].
  - destruct (list_eq_dec Z.eq_dec sp n) as [->|_]; [exfalso; apply NI; eapply nth_error_In; eauto|]. rewrite (IH _ _ H). reflexivity.
Qed.
Lemma schars_app a b : schars (a ++ b) -> schars a /\ schars b.
Proof. apply Forall_app. Qed.
Lemma ci_wu_small v : 0 <= v < 32768 -> ci W (wu W v) = v.
Proof. intro H. rewrite wu_small by lia. assert (P : 2 ^ 15 <= 2 ^ (W - 1)) by (apply Z.pow_le_mono_r; lia). change (2 ^ 15) with 32768 in P. apply ci_small; lia. Qed.

(** the lexer's current token is t *)
Definition at_tok (l : lexst) (t : token) : Prop :=
  TokenType l = t_type t /\ OperatorPrecedence l = t_prec t /\ (t_type t = TOK_NUM -> TokenNumVal l = snd t).
Lemma lexeme_token names s sp t rest : sees (lx s) (sp ++ rest) -> schars (sp ++ rest) -> lexeme names sp t rest -> table W (lx s) names -> (length names <= 580)%nat ->
  (length (sp ++ rest) < F)%nat -> IdBufPtr (lx s) + Z.of_nat (length (sp ++ rest)) < 5000 ->
  exists l', GetToken W F s = Ok (tt, set_lx l' s) /\ sees l' rest /\ at_tok l' t /\ table W l' names /\ IdBufPtr l' = IdBufPtr (lx s).
Proof.
  intros S SC H T LN LF LB. destruct H as [c base pre ds rest C DG L8 EN VB|c cs rest i IS IC IR NT|sp t p rest IN LG C1 C2].
  - cbn [app] in *. rewrite <- app_assoc in *. assert (SC' : schars (ds ++ rest)) by (apply Forall_inv_tail in SC; apply schars_app in SC; apply SC).
    destruct (Number_spec W HW F s c base pre ds rest C S SC' DG L8 EN) as (l' & G & S' & V). exists l'. split; [exact G|]. split; [exact S'|].
    assert (V1 := f_equal vTok V). assert (V2 := f_equal vPrec V). assert (V3 := f_equal vNum V). cbn [vTok vPrec vNum view num_view] in V1, V2, V3.
    split; [split; [exact V1|]; split; [exact V2|]; intros _; rewrite V3; cbn [snd]; apply ci_wu_small; exact VB|].
    split; [|exact (f_equal vIdPtr V)]. destruct T as [T1 T2 T3 T4 T5 T6].
    pose proof (f_equal vIdText V) as V4. pose proof (f_equal vIdHash V) as V5. pose proof (f_equal vIdCount V) as V6. cbn [vIdText vIdHash vIdCount view num_view] in V4, V5, V6.
    unfold slot in *. constructor; unfold slot; rewrite ?V4, ?V5, ?V6; assumption.
  - cbn [app] in *. pose proof (id_run_app cs rest IC IR) as RN.
    assert (LL : (length (fst (id_run (cs ++ rest))) <= length (cs ++ rest))%nat) by (rewrite RN; cbn [fst]; rewrite app_length; lia). cbn [length] in LF, LB.
    pose proof (ident_spec W HW F s c (cs ++ rest) names S SC IS T LN ltac:(lia) ltac:(lia)) as H. rewrite RN in H. cbn [fst snd] in H.
    unfold number_name in H. rewrite (index_of_nth names (t_nodup _ _ _ T) i _ NT) in H.
    destruct H as (l' & G & S' & T1 & P1 & TB & _ & U). exists l'. split; [exact G|]. split; [exact S'|]. split; [|auto]. split; [rewrite T1; cbn [t_type fst]; unfold TOK_KEYWORD; lia|]. split; [exact P1|].
    cbn [t_type fst]. unfold TOK_KEYWORD, TOK_NUM. lia.
  - assert (HF : F <> O) by lia. destruct (op_spec W F HF s sp t p rest IN LG S C1 C2) as (l' & G & S' & V). exists l'. split; [exact G|]. split; [exact S'|].
    assert (V1 := f_equal vTok V). assert (V2 := f_equal vPrec V). cbn [vTok vPrec view op_view] in V1, V2.
    split; [split; [exact V1|]; split; [exact V2|]|].
    { cbn [t_type fst]. intros ->. exfalso. clear - IN.
      assert (B : forallb (fun o => negb (snd (fst o) =? TOK_NUM)) ops = true) by (vm_compute; reflexivity).
      rewrite forallb_forall in B. specialize (B _ IN). discriminate B. }
    split; [|exact (f_equal vIdPtr V)]. destruct T as [T1 T2 T3 T4 T5 T6].
    pose proof (f_equal vIdText V) as V4. pose proof (f_equal vIdHash V) as V5. pose proof (f_equal vIdCount V) as V6. cbn [vIdText vIdHash vIdCount view op_view] in V4, V5, V6.
    unfold slot in *. constructor; unfold slot; rewrite ?V4, ?V5, ?V6; assumption.
Qed.
(** the same behind blanks and comments *)
Lemma trivia_token names s w sp t rest : trivia w -> sees (lx s) (w ++ sp ++ rest) -> schars (w ++ sp ++ rest) -> lexeme names sp t rest -> table W (lx s) names -> (length names <= 580)%nat ->
  (2 * length (w ++ sp ++ rest) + 1 < F)%nat -> IdBufPtr (lx s) + Z.of_nat (length (sp ++ rest)) < 5000 ->
  exists l', GetToken W F s = Ok (tt, set_lx l' s) /\ sees l' rest /\ at_tok l' t /\ table W l' names /\ IdBufPtr l' = IdBufPtr (lx s).
Proof.
  intros TR S SC LX T LN LF LB. set (l2 := with_input (sp ++ rest) (lx s)). set (s2 := set_lx l2 s).
  apply schars_app in SC as SC'. destruct SC' as [_ SC'].
  assert (S2 : sees (lx s2) (sp ++ rest)) by (apply with_input_sees; [exact SC'|apply (nz_app_tl w); exact (sees_nz _ _ S)]).
  assert (V2 : view (lx s) = view (lx s2)) by reflexivity.
  assert (LF2 : (2 * length (sp ++ rest) + 1 < F)%nat) by (rewrite app_length in LF; lia).
  pose proof (GetToken_trivia_ok W F F w (sp ++ rest) s s2 names HW TR S S2 V2 eq_refl eq_refl T LN LF LF2) as H.
  destruct (lexeme_token names s2 sp t rest S2 SC' LX (table_view W _ _ _ (eq_sym V2) T) LN ltac:(lia) LB) as (l' & G & S' & A & T' & U).
  rewrite G in H. destruct (GetToken W F s) as [[u t1]| | |]; try (destruct H; fail).
  destruct H as ((r & R1 & R2) & V & E & D). exists (lx t1). destruct u. split; [f_equal; f_equal; clear - E D; unfold s2 in *; destruct t1, s; cbn in E, D |- *; subst; reflexivity|].
  split; [exact (sees_same _ _ _ _ R2 S' R1)|]. cbn [lx set_lx] in *.
  split; [|split; [exact (table_view W _ _ _ V T')|]].
  - destruct A as (A1 & A2 & A3). pose proof (f_equal vTok V) as X1. pose proof (f_equal vPrec V) as X2. pose proof (f_equal vNum V) as X3. cbn [vTok vPrec vNum view] in X1, X2, X3.
    split; [congruence|]. split; [congruence|]. intro N. rewrite X3. apply A3. exact N.
  - pose proof (f_equal vIdPtr V) as X. cbn [vIdPtr view] in X. rewrite X. exact U.
Qed.
Theorem scan_stream names ts : forall cs l t, at_tok l t -> sees l cs -> schars cs -> scan names cs ts -> table W l names -> (length names <= 580)%nat ->
  (2 * length cs + 1 < F)%nat -> IdBufPtr l + Z.of_nat (length cs) < 5000 -> stream W F l (t :: ts).
Proof.
  induction ts as [|t1 ts IH]; intros cs l t (A1 & A2 & A3) S SC H T LN LF LB; cbn [stream].
  - split; [exact A1|]. split; [exact A2|]. split; [exact A3|]. intro N. destruct N; reflexivity.
  - split; [exact A1|]. split; [exact A2|]. split; [exact A3|]. intros _ s E. inversion H as [|w sp t' cs' ts' TR LX SN]; subst.
    destruct (trivia_token names s w sp t1 cs' TR S SC LX T LN LF ltac:(rewrite app_length in LB; lia)) as (l' & G & S' & A' & T' & U').
    exists l'. split; [exact G|]. apply schars_app in SC as [_ SC]. apply schars_app in SC as [_ SC]. rewrite !app_length in *.
    apply (IH cs' l' t1 A' S' SC SN T' LN); lia.
Qed.
End W.
