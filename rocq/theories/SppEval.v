(** #if expressions: EvalExpr computes the value of the tree that the lexemes stand for. *)
From Coq Require Import ZArith List Bool Lia String.
From Verif Require Import Base Spp SppSpec SppLex SppId SppWorld SppGet.
From Verif Require SccState.
Import ListNotations.
Open Scope Z_scope.
Open Scope p_scope.

(** ** The lexemes of an expression *)
(** ifexpand at the next lexeme *)
Inductive ifview (e : env) (x : lexeme) (r : list lexeme) : list etok -> Prop :=
| VPlain Y b : x <> Id (bytes "defined") -> expand1 e NEST [] x = Some Y -> ifexpand e r = Some b -> ifview e x r (map EL Y ++ b)
| VWord a w r' b : x = Id (bytes "defined") -> r = Ws a :: Id w :: r' -> ifexpand e r' = Some b -> ifview e x r (ED (defined e w) :: b)
| VPar w r' b : x = Id (bytes "defined") -> r = Op (bytes "(") :: Id w :: Op (bytes ")") :: r' -> ifexpand e r' = Some b -> ifview e x r (ED (defined e w) :: b).
Lemma expand_one e x : expand e NEST [] [x] = expand1 e NEST [] x.
Proof. rewrite expand_cons, expand_nil. destruct (expand1 e NEST [] x) as [Y|]; cbn [oapp]; [rewrite app_nil_r|]; reflexivity. Qed.
Lemma plain_view e x r b : x <> Id (bytes "defined") -> oapp (option_map (map EL) (expand e NEST [] [x])) (ifexpand e r) = Some b -> ifview e x r b.
Proof.
  intros N H. rewrite expand_one in H. destruct (expand1 e NEST [] x) as [Y|] eqn:E; [|discriminate]. destruct (ifexpand e r) as [b'|] eqn:E'; [|discriminate].
  cbn in H. injection H as <-. apply VPlain; auto.
Qed.
Lemma if_view e x r b : ifexpand e (x :: r) = Some b -> ifview e x r b.
Proof.
  assert (NI : (forall w, x <> Id w) -> oapp (Some [EL x]) (ifexpand e r) = Some b -> ifview e x r b).
  { intros N H. apply plain_view; [apply N|]. rewrite expand_one. destruct x; try exact H. exfalso. eapply N. reflexivity. }
  destruct x as [l| |w|w|q w|w]; try (cbn [ifexpand]; apply NI; intros; discriminate). clear NI.
  destruct (word_eq w (bytes "defined")) eqn:D.
  - apply word_eq_true in D. subst w. destruct r as [|[l| |w|w|q w|w] [|[l2| |w2|w2|q2 w2|w2] r]]; cbn [ifexpand]; change (word_eq (bytes "defined") (bytes "defined")) with true; cbv iota; intro H; try discriminate.
    + destruct (ifexpand e r) as [b'|] eqn:E; [|discriminate]. cbn in H. injection H as <-. eapply VWord; eauto.
    + destruct r as [|[l3| |w3|w3|q3 w3|w3] r]; try discriminate. destruct (word_eq w (bytes "(")) eqn:P; [|discriminate]. destruct (word_eq w3 (bytes ")")) eqn:Q; [|discriminate].
      apply word_eq_true in P, Q. subst w w3. cbn [andb] in H. destruct (ifexpand e r) as [b'|] eqn:E; [|discriminate]. cbn in H. injection H as <-. eapply VPar; eauto.
  - intro H. assert (N : Id w <> Id (bytes "defined")) by (apply word_eq_false in D; congruence). apply plain_view; [exact N|]. rewrite <- H.
    destruct r as [|[l| |v|v|q v|v] [|[l2| |w2|w2|q2 w2|w2] r]]; cbn [ifexpand]; rewrite D; try reflexivity.
    destruct r as [|[l3| |w3|w3|q3 w3|w3] r]; rewrite ?D; reflexivity.
Qed.

(** reading a token that is no identifier from the file *)
Lemma get_plain e u s x T K : spent K -> world e u K s -> reads (x :: T) s -> u + size x <= TEXT -> (forall w, x <> Id w) ->
  exists s', runs GetToken s tt s' /\ world e u [] s' /\ reads T s' /\ has_tok e s' x /\ quiet s s'.
Proof.
  intros S H R F NI. destruct (raw_next _ _ _ _ _ _ S H R F) as (s1 & R1 & W1 & RD & T1 & Q1 & _).
  pose proof (w_stack _ _ _ _ W1) as ST. inversion ST as [SE|].
  destruct (after_plain e s1 x (wf_first _ _ (proj2 R)) T1 NI (or_intror (eq_sym SE))) as [A1 A2].
  exists s1. split; [eapply get_done; eauto|]. parts; auto.
Qed.
Lemma get_defined e u s T K : spent K -> world e u K s -> reads (Id (bytes "defined") :: T) s -> u + size (Id (bytes "defined")) <= TEXT ->
  exists s', runs GetToken s tt s' /\ world e u [] s' /\ reads T s' /\ has_tok e s' (Id (bytes "defined")) /\ quiet s s'.
Proof.
  intros S H R F. destruct (raw_next _ _ _ _ _ _ S H R F) as (s1 & R1 & W1 & RD & T1 & Q1 & _).
  assert (AC : action e [] (bytes "defined") = Some (Give (Id (bytes "defined")))).
  { unfold action. rewrite (keyword_lookup e u (bytes "defined") 12 s (w_base _ _ _ _ H) eq_refl). reflexivity. }
  destruct (after_id _ _ [] _ _ _ W1 (wf_first _ _ (proj2 R)) T1 AC) as (s2 & I2 & Q2 & A2 & W2 & T2).
  exists s2. split; [eapply get_done; eauto|]. parts; auto; [destruct RD; split; congruence|eapply quiet_trans; eauto].
Qed.
Lemma word_code_type e s w : has_tok e s (Id w) -> t_type (tok s) = id_code (names e) w.
Proof. intros [H _]. exact H. Qed.
(** ReplaceId at a name *)
Lemma replace_name e u s w : world e u [] s -> raw_tok s (Id w) ->
  exists s', ReplaceId s = Ok (tt, s') /\ world e u [] s' /\ inp s' = inp s /\ quiet s s' /\ t_type (tok s') = id_code (names e) w /\
    t_text (tok s') = t_text (tok s) /\ pos s' = pos s /\ data s' = data s.
Proof.
  intros H (T1 & T2 & T3). pose proof (w_base _ _ _ _ H) as B.
  assert (NP : npos s <= TOKEN_DATA_MAX) by (rewrite (b_npos _ _ _ B); apply (b_u _ _ _ B)).
  destruct (ReplaceId_spec (names e) w s (b_table _ _ _ B) (b_names _ _ _ B) NP T1 (T2 eq_refl) (T3 w eq_refl)) as [h RI].
  eexists. split; [exact RI|]. split; [|parts; try reflexivity; constructor; reflexivity].
  apply (idle_world e u [] s); [constructor; reflexivity|exact H].
Qed.
Lemma IsDefined_spec e u s w : world e u [] s -> IsDefined s (id_code (names e) w) = defined e w.
Proof.
  intro H. unfold IsDefined, defined. pose proof (word_kind e w) as WK. remember (id_code (names e) w) as c eqn:EC. destruct WK as [N1 N2|i N1 N2 N3|i b N1 N2 N3].
  - rewrite N2. destruct (not_keyword _ N1) as (A & B & C). cbn [map existsb]. rewrite A, B, C. reflexivity.
  - rewrite (keyword_lookup _ _ _ _ _ (w_base _ _ _ _ H) N3). unfold TOK_DEFINED, TOK_USER_ID, TOK_ID, TOK_DEFINE.
    do 16 (destruct i as [|i]; [cbn in N3; injection N3 as <-; reflexivity|]). lia.
  - rewrite N3. destruct (not_keyword _ N1) as (A & B & C). cbn [map existsb]. rewrite A, B, C. cbn [orb].
    unfold TOK_DEFINED, TOK_USER_ID. destruct (Z.ltb_spec 269 (273 + Z.of_nat i)); [|lia]. destruct (Z.ltb_spec (273 + Z.of_nat i) 273); [lia|].
    destruct (Z.leb_spec 273 (273 + Z.of_nat i)); [|lia]. replace (273 + Z.of_nat i - 273) with (Z.of_nat i) by lia. cbn [andb orb].
    destruct (proj1 (w_macros _ _ _ _ H) i w b N2 (fun x => x)) as [_ M]. destruct b; [destruct M as (-> & _)|rewrite M]; reflexivity.
Qed.
Lemma raw_skip_none s : t_type (tok s) <> TOK_WHITESPACE -> runs RawSkipWS s tt s.
Proof.
  intro N. apply (runs_S_eq _ (fun _ => ret tt) s s); [|apply runs_ret]. intro f. cbn [RawSkipWS]. unfold SccState.bind, SccState.gets.
  destruct (Z.eqb_spec (t_type (tok s)) TOK_WHITESPACE); [contradiction|reflexivity].
Qed.
Lemma raw_skip_one s s' : t_type (tok s) = TOK_WHITESPACE -> runs RawGetToken s tt s' -> t_type (tok s') <> TOK_WHITESPACE -> runs RawSkipWS s tt s'.
Proof.
  intros E R N. apply (runs_S_eq _ (fun f => RawGetToken f;; RawSkipWS f) s s).
  - intro f. cbn [RawSkipWS]. unfold SccState.bind at 1, SccState.gets at 1. rewrite E. reflexivity.
  - eapply runs_bind; [exact R|]. apply raw_skip_none, N.
Qed.

Section Line.
Variables (e : env) (u : Z) (T : list lexeme).
(** the lexemes ts are still to be read, before the end of the line and T *)
Definition before (s : st) (ts : list etok) : Prop :=
  exists K l a b, world e u K s /\ kflat e K = Some a /\ ifexpand e l = Some b /\ ts = map EL a ++ b /\ reads (l ++ Nl :: T) s /\ fits u l.
(** the current token is the first of ts *)
Definition at_tok (s : st) (ts : list etok) : Prop :=
  match ts with
  | [] => has_tok e s Nl /\ world e u [] s /\ reads T s
  | EL x :: ts => has_tok e s x /\ before s ts
  | ED b :: ts => t_type (tok s) = TOK_DEFINED /\ world e u [] s /\
      exists l r w, (l = Op (bytes "(") :: Id w :: Op (bytes ")") :: r \/ exists a, l = Ws a :: Id w :: r) /\
        b = defined e w /\ ifexpand e r = Some ts /\ reads (l ++ Nl :: T) s /\ fits u l
  end.
Lemma at_next s ts : before s ts -> exists s', runs GetToken s tt s' /\ at_tok s' ts /\ quiet s s'.
Proof.
  intros (K & l & a & b & H & FK & FI & -> & R & F). destruct a as [|y a].
  2: { cbn [map app]. pose proof (frames' _ _ _ _ _ H FK) as (s1 & K1 & A1 & A2 & A3 & A4 & A5 & A6).
       exists s1. split; [exact A1|]. split; [|exact A6]. split; [exact A4|]. exists K1, l, a, b. parts; auto. destruct R; split; congruence. }
  cbn [map app]. pose proof (frames' _ _ _ _ _ H FK) as (s1 & K1 & A1 & A2 & A3 & A4 & A5).
  assert (X : exists s', runs GetToken s1 tt s' /\ at_tok s' b /\ quiet s1 s').
  { assert (R1 : reads (l ++ Nl :: T) s1) by (destruct R; split; congruence). clear K s H FK R A1 A4 A5.
    revert s1 K1 b A2 A3 FI F R1. induction l as [|x l IH]; intros s K b H S FI F R; cbn [app] in R.
    - injection FI as <-. destruct (get_plain e u s Nl T K S H R) as (s' & G1 & G2 & G3 & G4 & G5); [|discriminate|].
      + pose proof (b_u _ _ _ (w_base _ _ _ _ H)). cbn [size]. lia.
      + exists s'. split; [exact G1|]. split; [|exact G5]. cbn [at_tok]. auto.
    - inversion F as [|? ? F1 F2]; subst. apply if_view in FI. destruct FI as [Y b' N E FI|a w r' b' -> -> FI|w r' b' -> -> FI].
      + pose proof (file_step _ _ _ _ _ _ _ S H R F1 E) as FS. destruct Y as [|y ys]; cbn [from_file map app] in *.
        * destruct FS as (s2 & K2 & B1 & B2 & B3 & B4 & B5). destruct (IH s2 K2 b' B2 B3 FI F2 B4) as (s3 & C1 & C2 & C3).
          exists s3. split; [apply B1, C1|]. split; [exact C2|]. eapply quiet_trans; eauto.
        * destruct FS as (s2 & K2 & B1 & B2 & B3 & B4 & B5 & B6). exists s2. split; [exact B1|]. split; [|exact B6]. cbn [at_tok]. split; [exact B4|].
          exists K2, l, ys, b'. parts; auto.
      + destruct (get_defined _ _ _ _ _ S H R F1) as (s2 & B1 & B2 & B3 & B4 & B5). exists s2. split; [exact B1|]. split; [|exact B5].
        cbn [at_tok]. split; [rewrite (word_code_type _ _ _ B4); reflexivity|]. split; [exact B2|]. eexists _, r', w. parts; [right; eexists; reflexivity|reflexivity|exact FI|exact B3|exact F2].
      + destruct (get_defined _ _ _ _ _ S H R F1) as (s2 & B1 & B2 & B3 & B4 & B5). exists s2. split; [exact B1|]. split; [|exact B5].
        cbn [at_tok]. split; [rewrite (word_code_type _ _ _ B4); reflexivity|]. split; [exact B2|]. eexists _, r', w. parts; [left; reflexivity|reflexivity|exact FI|exact B3|exact F2]. }
  destruct X as (s2 & B1 & B2 & B3). exists s2. split; [apply A1, B1|]. split; [exact B2|]. eapply quiet_trans; eauto.
Qed.

(** *** Blanks are skipped *)
Definition solid (t : etok) : bool := negb (e_ws t).
Definition sees (s : st) (ts : list etok) : Prop := exists ts0, at_tok s ts0 /\ filter solid ts0 = ts.
Definition on_tok (s : st) (ts : list etok) : Prop := exists ts0, at_tok s ts0 /\ filter solid ts0 = ts /\ match ts0 with t :: _ => solid t = true | [] => True end.
Lemma on_sees s ts : on_tok s ts -> sees s ts. Proof. intros (ts0 & A & B & _). exists ts0. auto. Qed.
Lemma code_ws x : wf_lexeme x = true -> code e x = TOK_WHITESPACE -> is_ws x = true.
Proof.
  destruct x as [l| |w|w|q w|w]; intros W H; try discriminate; [reflexivity| | |].
  - exfalso. cbn [code] in H. pose proof (word_kind e w) as K. destruct K; unfold TOK_RAW_ID, TOK_ID, TOK_DEFINE, TOK_USER_ID, TOK_WHITESPACE in *; lia.
  - cbn in H. destruct (q =? 34); discriminate.
  - exfalso. cbn [code] in H. destruct (doubles_not_single _ W) as [(c & -> & I)|I].
    + apply singles_cases in I. cbn [lex_type] in H. subst c. vm_compute in I. intuition lia.
    + assert (F : forallb (fun w => negb (lex_type (Op w) =? TOK_WHITESPACE)) doubles = true) by reflexivity.
      rewrite forallb_forall in F. specialize (F _ I). rewrite H in F. discriminate.
Qed.
Lemma skip_none s : t_type (tok s) <> TOK_WHITESPACE -> runs SkipWS s tt s.
Proof.
  intro N. apply (runs_S_eq _ (fun _ => ret tt) s s); [|apply runs_ret]. intro f. cbn [SkipWS]. unfold SccState.bind, SccState.gets.
  destruct (Z.eqb_spec (t_type (tok s)) TOK_WHITESPACE); [contradiction|reflexivity].
Qed.
Lemma solid_type s t ts : at_tok s (t :: ts) -> solid t = true -> t_type (tok s) <> TOK_WHITESPACE.
Proof.
  destruct t as [x|b]; cbn [at_tok solid e_ws].
  - intros ((C & _ & W) & _) S E. rewrite C in E. apply code_ws in E; [|exact W]. unfold solid, e_ws in S. rewrite E in S. discriminate.
  - intros (C & _) _. rewrite C. discriminate.
Qed.
Lemma skip_ws_runs s ts : sees s ts -> exists s', runs SkipWS s tt s' /\ on_tok s' ts /\ quiet s s'.
Proof.
  intros (ts0 & A & <-). revert s A. induction ts0 as [|t ts0 IH]; intros s A.
  - exists s. split; [|split; [exists []; auto|apply quiet_refl]]. apply skip_none. destruct A as ((C & _) & _). rewrite C. discriminate.
  - destruct (solid t) eqn:S.
    + exists s. split; [apply skip_none; eapply solid_type; eauto|]. split; [exists (t :: ts0); auto|apply quiet_refl].
    + destruct t as [x|b]; [|discriminate]. unfold solid in S. cbn [e_ws] in S. destruct x as [l| | | | |]; try discriminate. cbn [at_tok] in A. destruct A as ((C & _) & B).
      destruct (at_next _ _ B) as (s1 & R1 & A1 & Q1). destruct (IH _ A1) as (s2 & R2 & A2 & Q2). exists s2.
      split; [|split; [exact A2|eapply quiet_trans; eauto]].
      apply (runs_S_eq _ (fun f => GetToken f;; SkipWS f) s s).
      * intro f. cbn [SkipWS]. unfold SccState.bind at 1, SccState.gets at 1. rewrite C. reflexivity.
      * eapply runs_bind; [exact R1|exact R2].
Qed.
Lemma on_el s x ts : on_tok s (EL x :: ts) -> has_tok e s x /\ exists s', runs GetToken s tt s' /\ sees s' ts /\ quiet s s'.
Proof.
  intros ([|t ts0] & A & F & S); [discriminate|]. cbn [filter] in F. rewrite S in F. injection F as -> F. cbn [at_tok] in A. destruct A as [A B]. split; [exact A|].
  destruct (at_next _ _ B) as (s1 & R1 & A1 & Q1). exists s1. split; [exact R1|]. split; [exists ts0; auto|exact Q1].
Qed.
(** a use of defined *)
Lemma on_ed s b ts : on_tok s (ED b :: ts) -> t_type (tok s) = TOK_DEFINED /\
  exists s', runs (fun f => GetToken f;; RawSkipWS f;;
        let! t := gets (fun s => t_type (tok s)) in
        when (t =? 40) (RawGetToken f;; RawSkipWS f);;
        ReplaceId;;
        let! n := gets (fun s => zb (IsDefined s (t_type (tok s)))) in
        GetToken f;;
        when (t =? 40) (Expect f 41);;
        ret n) s (truth b) s' /\ sees s' ts /\ quiet s s'.
Proof.
  intros ([|t ts0] & A & F & S); [discriminate|]. cbn [filter] in F. rewrite S in F. injection F as -> F. cbn [at_tok] in A.
  destruct A as (A & H & l & r & w & L & -> & FI & R & FT). split; [exact A|].
  assert (ZT : forall x, zb x = truth x) by (intros []; reflexivity).
  assert (RAWID : forall s, raw_tok s (Id w) -> t_type (tok s) <> TOK_WHITESPACE) by (intros s0 (X & _); rewrite X; discriminate).
  destruct L as [->|[a ->]]; cbn [app] in R; inversion FT as [|? ? F1 F2]; subst; inversion F2 as [|? ? F3 F4]; subst.
  - inversion F4 as [|? ? F5 F6]; subst.
    destruct (get_plain e u s _ _ [] (Forall_nil _) H R F1) as (s1 & R1 & W1 & RD1 & T1 & Q1); [discriminate|].
    destruct (raw_next _ _ _ _ _ _ (Forall_nil _) W1 RD1 F3) as (s2 & R2 & W2 & RD2 & T2 & Q2 & _).
    destruct (replace_name _ _ _ _ W2 T2) as (s3 & R3 & W3 & I3 & Q3 & TY3 & _).
    assert (RD3 : reads (Op (bytes ")") :: r ++ Nl :: T) s3) by (destruct RD2; split; congruence).
    destruct (get_plain e u s3 _ _ [] (Forall_nil _) W3 RD3 F5) as (s4 & R4 & W4 & RD4 & T4 & Q4); [discriminate|].
    assert (B5 : before s4 ts0).
    { exists [], r, [], ts0. parts; auto. }
    destruct (at_next _ _ B5) as (s5 & R5 & A5 & Q5). exists s5.
    split; [|split; [exists ts0; auto|repeat (eapply quiet_trans; [eassumption|]); apply quiet_refl]].
    assert (TY1 : t_type (tok s1) = 40) by (destruct T1 as [X _]; rewrite X; reflexivity).
    eapply runs_bind; [exact R1|]. cbv beta. eapply runs_bind; [apply raw_skip_none; rewrite TY1; discriminate|]. cbv beta. apply runs_gets. rewrite TY1. cbn [Z.eqb Pos.eqb SccState.when].
    eapply runs_bind with (a := tt); [eapply runs_bind; [exact R2|]; apply raw_skip_none; auto|]. cbv beta.
    eapply runs_step; [exact R3|]. cbv beta. apply runs_gets. eapply runs_bind; [exact R4|]. cbv beta.
    eapply runs_bind with (a := tt) (s1 := s5).
    + unfold Expect, Accept. eapply runs_bind with (a := true) (s1 := s5); [|apply runs_const; reflexivity]. apply runs_gets.
      destruct T4 as [X _]. rewrite X. change (code e (Op (bytes ")"))) with 41. cbn [Z.eqb Pos.eqb]. eapply runs_bind; [exact R5|]. apply runs_ret.
    + rewrite TY3, (IsDefined_spec _ _ _ _ W3), ZT. apply runs_ret.
  - destruct (get_plain e u s _ _ [] (Forall_nil _) H R F1) as (s1 & R1 & W1 & RD1 & T1 & Q1); [discriminate|].
    destruct (raw_next _ _ _ _ _ _ (Forall_nil _) W1 RD1 F3) as (s2 & R2 & W2 & RD2 & T2 & Q2 & _).
    destruct (replace_name _ _ _ _ W2 T2) as (s3 & R3 & W3 & I3 & Q3 & TY3 & _).
    assert (B5 : before s3 ts0).
    { exists [], r, [], ts0. parts; auto. destruct RD2; split; congruence. }
    destruct (at_next _ _ B5) as (s5 & R5 & A5 & Q5). exists s5.
    split; [|split; [exists ts0; auto|repeat (eapply quiet_trans; [eassumption|]); apply quiet_refl]].
    assert (TY1 : t_type (tok s1) = TOK_WHITESPACE) by (destruct T1 as [X _]; rewrite X; reflexivity).
    assert (TY2 : t_type (tok s2) = TOK_RAW_ID) by (destruct T2 as [X _]; rewrite X; reflexivity).
    eapply runs_bind; [exact R1|]. cbv beta. eapply runs_bind; [eapply raw_skip_one; eauto|]. cbv beta. apply runs_gets. rewrite TY2. change (TOK_RAW_ID =? 40) with false. cbn [SccState.when].
    apply runs_rbind. cbv beta. eapply runs_step; [exact R3|]. cbv beta. apply runs_gets. eapply runs_bind; [exact R5|]. cbv beta. apply runs_rbind.
    rewrite TY3, (IsDefined_spec _ _ _ _ W3), ZT. apply runs_ret.
Qed.

(** ** Values *)
Section Width.
Variable W : Z.
Hypothesis W_pos : 0 < W.
Lemma ws_mod x y : x mod 2 ^ W = y mod 2 ^ W -> ws W x = ws W y.
Proof. unfold ws. intros ->. reflexivity. Qed.
Lemma mod_ws x : ws W x mod 2 ^ W = x mod 2 ^ W.
Proof.
  assert (P : 0 < 2 ^ W) by (apply Z.pow_pos_nonneg; lia). unfold ws. destruct (x mod 2 ^ W <? 2 ^ (W - 1)).
  - apply Z.mod_mod. lia.
  - rewrite Zminus_mod, Z_mod_same_full, Z.sub_0_r, !Z.mod_mod by lia. reflexivity.
Qed.
Lemma number_ws base w : (forall c, In c w -> in_base base c = true) -> base = 8 \/ base = 10 \/ base = 16 ->
  forall n m, n = ws W m -> number W base n w = ws W (fold_left (fun n c => n * base + digit_value c) w m).
Proof.
  intros D B. induction w as [|c w IH]; intros n m ->; cbn [number fold_left]; [reflexivity|].
  apply IH; [intros; apply D; right; assumption|].
  assert (DV : (if (48 <=? c) && (c <=? 57) then c - 48 else Z.land c 0xdf - 55) = digit_value c).
  { specialize (D c (or_introl eq_refl)). unfold digit_value. fold (digit c). destruct (digit c) eqn:E; [reflexivity|].
    unfold in_base in D. rewrite E in D. unfold digit in E. destruct B as [-> | [-> | ->]]; cbn [Z.eqb Pos.eqb orb] in D; [lia|lia|].
    apply orb_true_iff in D. destruct D as [D|D].
    - assert (X : In c [65; 66; 67; 68; 69; 70]) by (cbn [In]; lia). clear - X. cbn [In] in X. repeat (destruct X as [<- | X]; [reflexivity|]); contradiction.
    - assert (X : In c [97; 98; 99; 100; 101; 102]) by (cbn [In]; lia). clear - X. cbn [In] in X. repeat (destruct X as [<- | X]; [reflexivity|]); contradiction. }
  rewrite DV. unfold ci. apply ws_mod. rewrite Zplus_mod, mod_ws, Zmult_mod, mod_ws, <- Zmult_mod, <- Zplus_mod. reflexivity.
Qed.
Lemma ws_0 : ws W 0 = 0.
Proof.
  unfold ws. rewrite Z.mod_0_l by (pose proof (Z.pow_pos_nonneg 2 W ltac:(lia) ltac:(lia)); lia).
  assert (0 < 2 ^ (W - 1)) by (apply Z.pow_pos_nonneg; lia). destruct (Z.ltb_spec 0 (2 ^ (W - 1))); lia.
Qed.
Lemma num_constant w n : constant w = Some n -> num_value W w = ws W n.
Proof.
  assert (N : forall base l m, base = 8 \/ base = 10 \/ base = 16 -> forallb (in_base base) l = true -> Some (positional base l) = Some m -> number W base 0 l = ws W m).
  { intros base l m B F [= <-]. apply number_ws; [|exact B|rewrite ws_0; reflexivity]. rewrite forallb_forall in F. exact F. }
  assert (G : (if forallb (in_base 10) w then Some (positional 10 w) else None) = Some n -> number W 10 0 w = ws W n).
  { destruct (forallb (in_base 10) w) eqn:E; [|discriminate]. apply N; auto. }
  unfold constant, num_value.
  destruct w as [|c w]; [exact G|]. destruct (Z.eq_dec c 48) as [->|NE].
  - destruct w as [|x w].
    + intro H. cbn in H. injection H as <-. rewrite ws_0. reflexivity.
    + destruct ((x =? 120) || (x =? 88)).
      * destruct (forallb (in_base 16) w) eqn:E; [|discriminate]. apply N; auto.
      * destruct (forallb (in_base 8) (x :: w)) eqn:E; [|discriminate]. apply N; auto.
  - intro H. assert (E : forall (A : Type) (f : Z -> list Z -> A) (g h : A), match c :: w with 48 :: x :: l => f x l | 48 :: [] => h | _ => g end = g).
    { intros A f g h. destruct c as [|p|p]; try reflexivity. do 6 (destruct p as [p|p|]; try reflexivity). destruct w; congruence. }
    rewrite E. apply G. rewrite <- H. symmetry.
    destruct c as [|p|p]; try reflexivity. do 6 (destruct p as [p|p|]; try reflexivity). destruct w; congruence.
Qed.

(** ** The parser *)
Fixpoint first (x : expr) : expr := match x with XBin _ a _ => first a | XCond c _ _ => first c | _ => x end.
Fixpoint spine (x : expr) : list etok :=
  match x with
  | XBin o a b => spine a ++ EL (Op (op_text o)) :: toks b
  | XCond c a b => spine c ++ EL (Op (bytes "?")) :: toks a ++ EL (Op (bytes ":")) :: toks b
  | _ => []
  end.
Lemma toks_spine x : toks x = toks (first x) ++ spine x.
Proof.
  induction x as [w|w|b|a IHa|a IHa|o a IHa b IHb|c IHc a IHa b IHb]; cbn [toks first spine]; rewrite ?app_nil_r; try reflexivity.
  - rewrite IHa at 1. rewrite <- app_assoc. reflexivity.
  - rewrite IHc at 1. rewrite <- app_assoc. reflexivity.
Qed.
Lemma first_level x : level_of (first x) = 0.
Proof. induction x; try reflexivity; assumption. Qed.
Lemma first_grouped x : grouped e x = true -> grouped e (first x) = true.
Proof.
  induction x as [w|w|b|a IHa|a IHa|o a IHa b IHb|c IHc a IHa b IHb]; cbn [grouped first]; auto; rewrite !andb_true_iff; intros; intuition auto.
Qed.
Lemma first_value x v : value W x = Some v -> exists v0, value W (first x) = Some v0.
Proof.
  revert v. induction x as [w|w|b|a IHa|a IHa|o a IHa b IHb|c IHc a IHa b IHb]; intro v; cbn [first]; try (intro H; exists v; exact H).
  - cbn [value]. destruct (value W a) as [va|]; [|discriminate]. intros _. eapply IHa. reflexivity.
  - cbn [value]. destruct (value W c) as [vc|]; [|discriminate]. intros _. eapply IHc. reflexivity.
Qed.
(** the precedence that scpp gives to the next token; 100: none *)
Definition prec_of (t : etok) : Z := match t with EL (Op w) => OperatorPrecedence (lex_type (Op w)) | _ => 0 end.
Definition above (n : Z) (k : list etok) : Prop := match k with [] => True | t :: _ => (exists w, t = EL (Op w)) /\ n < prec_of t end.
Lemma op_level o : OperatorPrecedence (lex_type (Op (op_text o))) = level o.
Proof. destruct o; reflexivity. Qed.
Lemma op_type o : 32 < lex_type (Op (op_text o)) < TOK_ID.
Proof. destruct o; split; reflexivity. Qed.
Lemma op_type_any w : wf_lexeme (Op w) = true -> 32 < lex_type (Op w) < TOK_ID.
Proof.
  intro H. destruct (doubles_not_single _ H) as [(c & -> & I)|I].
  - apply singles_cases in I. cbn [lex_type]. unfold TOK_ID, TOK_DEFINE. vm_compute in I. lia.
  - assert (F : forallb (fun w => (32 <? lex_type (Op w)) && (lex_type (Op w) <? TOK_ID)) doubles = true) by reflexivity.
    rewrite forallb_forall in F. specialize (F _ I). lia.
Qed.
Lemma calculate_spec o a b v s : op_value W o a b = Some v -> calculate W (lex_type (Op (op_text o))) a b s = Ok (v, s).
Proof.
  assert (ZT : forall x, zb x = truth x) by (intros []; reflexivity).
  destruct o; cbn [op_value]; intro H; try (injection H as <-; unfold calculate; cbn; unfold ci, SccState.ret; rewrite ?ZT; reflexivity);
  (destruct (b =? 0) eqn:E; [discriminate|]; injection H as <-; unfold calculate; cbn; rewrite E; reflexivity).
Qed.

(** EvalExpr1 in state s does what it does with v in state s' *)
Definition evals (v0 outer : Z) (s : st) (v : Z) (s' : st) : Prop :=
  forall r s2, runs (fun f => EvalExpr1 W f v outer) s' r s2 -> runs (fun f => EvalExpr1 W f v0 outer) s r s2.
Definition rhs_evals (v0 p : Z) (s : st) (v : Z) (s' : st) : Prop :=
  forall r s2, runs (fun f => eval_rhs W f v p) s' r s2 -> runs (fun f => eval_rhs W f v0 p) s r s2.
(** the bodies of EvalUnary, EvalExpr1 and eval_rhs *)
Definition unary_op (fuel : nat) (t : token) : M st Z :=
      if t_type t =? TOK_NUM then
        let! l := str (t_text t) in GetToken fuel;; ret (num_value W l)
      else if t_type t =? TOK_RAW_ID then GetToken fuel;; ret 0
      else if t_type t =? TOK_DEFINED then
        GetToken fuel;; RawSkipWS fuel;;
        let! t := gets (fun s => t_type (tok s)) in
        when (t =? 40) (RawGetToken fuel;; RawSkipWS fuel);;
        ReplaceId;;
        let! n := gets (fun s => zb (IsDefined s (t_type (tok s)))) in
        GetToken fuel;;
        when (t =? 40) (Expect fuel 41);;
        ret n
      else if t_type t =? 33 then
        GetToken fuel;; let! n := EvalUnary W fuel in ret (zb (n =? 0))
      else if t_type t =? 40 then
        GetToken fuel;;
        let! n := EvalUnary W fuel in
        let! n := EvalExpr1 W fuel n 15 in
        Expect fuel 41;; ret n
      else if TOK_USER_ID <=? t_type t then
        let! h := gets (fun s => m_hide (aget (macs s) (t_type t - TOK_USER_ID))) in
        assert (h =? 2);; GetToken fuel;; ret 0
      else fatal.
Lemma EvalUnary_S f : EvalUnary W (S f) = (SkipWS f;; let! t := gets tok in unary_op f t).
Proof. reflexivity. Qed.
Definition apply_op (fuel : nat) (lhs outer op : Z) : M st Z :=
          GetToken fuel;;
          if op =? 63 then
            let! u := EvalUnary W fuel in
            let! l := EvalExpr1 W fuel u 14 in
            Expect fuel 58;;
            let! u := EvalUnary W fuel in
            let! r := EvalExpr1 W fuel u 14 in
            EvalExpr1 W fuel (if lhs =? 0 then r else l) outer
          else
            let! rhs := EvalUnary W fuel in
            let! rhs := eval_rhs W fuel rhs (OperatorPrecedence op) in
            let! v := calculate W op lhs rhs in
            EvalExpr1 W fuel v outer.
Definition expr1_body (v outer : Z) (f : nat) : M st Z :=
  SkipWS f;; let! op := gets (fun s => t_type (tok s)) in
  if (op <=? 32) || (TOK_ID <=? op) then ret v else if outer <? OperatorPrecedence op then ret v else apply_op f v outer op.
Lemma EvalExpr1_S v outer f : EvalExpr1 W (S f) v outer = expr1_body v outer f.
Proof. reflexivity. Qed.
Definition rhs_body (v p : Z) (f : nat) : M st Z :=
  SkipWS f;; let! op := gets (fun s => t_type (tok s)) in
  if (op <=? 32) || (TOK_ID <=? op) then ret v else if p <? OperatorPrecedence op then ret v
  else let! rhs := EvalExpr1 W f v (OperatorPrecedence op) in eval_rhs W f rhs p.
Lemma eval_rhs_S v p f : eval_rhs W (S f) v p = rhs_body v p f.
Proof. reflexivity. Qed.
(** nothing more to do *)
Lemma expr1_stop v outer s k : sees s k -> above outer k -> exists s', runs (fun f => EvalExpr1 W f v outer) s v s' /\ on_tok s' k /\ quiet s s'.
Proof.
  intros S A. destruct (skip_ws_runs _ _ S) as (s1 & R1 & O1 & Q1). exists s1. split; [|auto].
  apply (runs_S _ (expr1_body v outer)); [intro; apply EvalExpr1_S|]. unfold expr1_body.
  eapply runs_bind; [exact R1|]. cbv beta. apply runs_gets. destruct k as [|t k].
  - destruct O1 as ([|t ts0] & X & F & S0); [|cbn [filter] in F; rewrite S0 in F; discriminate]. destruct X as ((C & _) & _). rewrite C. apply runs_ret.
  - destruct A as [[w ->] A]. destruct (on_el _ _ _ O1) as ((C & _ & WF) & _). rewrite C. cbn [code]. pose proof (op_type_any _ WF) as RG. cbn [prec_of] in A.
    destruct (Z.leb_spec (lex_type (Op w)) 32); [lia|]. destruct (Z.leb_spec TOK_ID (lex_type (Op w))); [lia|]. cbn [orb].
    destruct (Z.ltb_spec outer (OperatorPrecedence (lex_type (Op w)))); [|lia]. apply runs_ret.
Qed.
Lemma rhs_stop v p s k : sees s k -> above p k -> exists s', runs (fun f => eval_rhs W f v p) s v s' /\ on_tok s' k /\ quiet s s'.
Proof.
  intros S A. destruct (skip_ws_runs _ _ S) as (s1 & R1 & O1 & Q1). exists s1. split; [|auto].
  apply (runs_S _ (rhs_body v p)); [intro; apply eval_rhs_S|]. unfold rhs_body.
  eapply runs_bind; [exact R1|]. cbv beta. apply runs_gets. destruct k as [|t k].
  - destruct O1 as ([|t ts0] & X & F & S0); [|cbn [filter] in F; rewrite S0 in F; discriminate]. destruct X as ((C & _) & _). rewrite C. apply runs_ret.
  - destruct A as [[w ->] A]. destruct (on_el _ _ _ O1) as ((C & _ & WF) & _). rewrite C. cbn [code]. pose proof (op_type_any _ WF) as RG. cbn [prec_of] in A.
    destruct (Z.leb_spec (lex_type (Op w)) 32); [lia|]. destruct (Z.leb_spec TOK_ID (lex_type (Op w))); [lia|]. cbn [orb].
    destruct (Z.ltb_spec p (OperatorPrecedence (lex_type (Op w)))); [|lia]. apply runs_ret.
Qed.
(** an operator that is applied *)
Lemma op_runs w k s v outer : sees s (EL (Op w) :: k) -> OperatorPrecedence (lex_type (Op w)) <= outer ->
  exists s1, on_tok s1 (EL (Op w) :: k) /\ quiet s s1 /\
    forall r s2, runs (fun f => apply_op f v outer (lex_type (Op w))) s1 r s2 -> runs (fun f => EvalExpr1 W f v outer) s r s2.
Proof.
  intros S A. destruct (skip_ws_runs _ _ S) as (s1 & R1 & O1 & Q1). exists s1. split; [exact O1|]. split; [exact Q1|]. intros r s2 R.
  apply (runs_S _ (expr1_body v outer)); [intro; apply EvalExpr1_S|]. unfold expr1_body. eapply runs_bind; [exact R1|]. cbv beta. apply runs_gets.
  destruct (on_el _ _ _ O1) as ((C & _ & WF) & _). rewrite C. cbn [code]. pose proof (op_type_any _ WF) as RG.
  destruct (Z.leb_spec (lex_type (Op w)) 32); [lia|]. destruct (Z.leb_spec TOK_ID (lex_type (Op w))); [lia|]. cbn [orb].
  destruct (Z.ltb_spec outer (OperatorPrecedence (lex_type (Op w)))); [lia|]. exact R.
Qed.
Lemma rhs_runs w k s v p : sees s (EL (Op w) :: k) -> OperatorPrecedence (lex_type (Op w)) <= p ->
  exists s1, on_tok s1 (EL (Op w) :: k) /\ quiet s s1 /\
    forall r s2, runs (fun f => let! rhs := EvalExpr1 W f v (OperatorPrecedence (lex_type (Op w))) in eval_rhs W f rhs p) s1 r s2 -> runs (fun f => eval_rhs W f v p) s r s2.
Proof.
  intros S A. destruct (skip_ws_runs _ _ S) as (s1 & R1 & O1 & Q1). exists s1. split; [exact O1|]. split; [exact Q1|]. intros r s2 R.
  apply (runs_S _ (rhs_body v p)); [intro; apply eval_rhs_S|]. unfold rhs_body. eapply runs_bind; [exact R1|]. cbv beta. apply runs_gets.
  destruct (on_el _ _ _ O1) as ((C & _ & WF) & _). rewrite C. cbn [code]. pose proof (op_type_any _ WF) as RG.
  destruct (Z.leb_spec (lex_type (Op w)) 32); [lia|]. destruct (Z.leb_spec TOK_ID (lex_type (Op w))); [lia|]. cbn [orb].
  destruct (Z.ltb_spec p (OperatorPrecedence (lex_type (Op w)))); [lia|]. exact R.
Qed.
Lemma expect_runs w k s : on_tok s (EL (Op w) :: k) ->
  exists s', runs (fun f => Expect f (lex_type (Op w))) s tt s' /\ sees s' k /\ quiet s s'.
Proof.
  intro O. destruct (on_el _ _ _ O) as ((C & _) & s' & R & S & Q). exists s'. split; [|auto].
  unfold Expect, Accept. eapply runs_bind with (a := true) (s1 := s'); [|apply runs_const; reflexivity]. apply runs_gets. rewrite C. cbn [code]. rewrite Z.eqb_refl.
  eapply runs_bind; [exact R|]. apply runs_ret.
Qed.
Fixpoint esize (x : expr) : nat :=
  match x with
  | XNot a | XPar a => S (esize a)
  | XBin _ a b => S (esize a + esize b)
  | XCond c a b => S (esize c + esize a + esize b)
  | _ => 1%nat
  end.
Lemma first_size x : (esize (first x) <= esize x)%nat.
Proof. induction x; cbn [first esize]; lia. Qed.
Ltac quiets := repeat (eapply quiet_trans; [eassumption|]); apply quiet_refl.
Definition unary_ok (x : expr) (v : Z) : Prop := forall s k, sees s (toks x ++ k) -> exists s', runs (EvalUnary W) s v s' /\ sees s' k /\ quiet s s'.
Definition spine_ok (x : expr) (v : Z) : Prop := forall v0 outer s k, value W (first x) = Some v0 -> level_of x <= outer -> above (level_of x) k ->
  sees s (spine x ++ k) -> exists s', evals v0 outer s v s' /\ sees s' k /\ quiet s s'.
Definition rhs_ok (x : expr) (v : Z) : Prop := forall v0 p s k, value W (first x) = Some v0 -> level_of x <= p -> p <= 12 -> above (level_of x) k ->
  sees s (spine x ++ k) -> exists s', rhs_evals v0 p s v s' /\ sees s' k /\ quiet s s'.
Lemma unary_start s ts s1 v s2 : runs SkipWS s tt s1 -> on_tok s1 ts -> runs (fun f => unary_op f (tok s1)) s1 v s2 -> runs (EvalUnary W) s v s2.
Proof.
  intros R _ U. eapply runs_S; [intro f; apply EvalUnary_S|]. eapply runs_bind; [exact R|]. cbv beta. apply runs_gets. exact U.
Qed.
Lemma atom_runs x v : (forall a, (esize a < esize x)%nat -> forall va, grouped e a = true -> value W a = Some va ->
    (level_of a = 0 -> unary_ok a va) /\ (exists v0, value W (first a) = Some v0 /\ unary_ok (first a) v0) /\ spine_ok a va) ->
  grouped e x = true -> value W x = Some v -> level_of x = 0 -> unary_ok x v.
Proof.
  intros IH G V L s k S. destruct (skip_ws_runs _ _ S) as (s1 & R1 & O1 & Q1).
  assert (START : forall s2, runs (fun f => unary_op f (tok s1)) s1 v s2 -> runs (EvalUnary W) s v s2) by (intros; eapply unary_start; eauto).
  destruct x as [w|w|b|a|a|o a b|c a b]; cbn [toks app] in O1.
  - destruct (on_el _ _ _ O1) as ((C & SH & _) & s2 & R2 & S2 & Q2). exists s2. split; [|split; [exact S2|quiets]]. apply START. unfold unary_op. rewrite C. cbn [code lex_type].
    change (TOK_NUM =? TOK_NUM) with true. cbv iota. eapply runs_step; [apply str_shown; apply SH; reflexivity|]. cbv beta. eapply runs_bind; [exact R2|]. cbv beta.
    cbn [value] in V. cbn [word]. destruct (constant w) as [n|] eqn:CW; [|discriminate]. cbn in V. injection V as <-. rewrite (num_constant _ _ CW). apply runs_ret.
  - destruct (on_el _ _ _ O1) as ((C & _) & s2 & R2 & S2 & Q2). exists s2. split; [|split; [exact S2|quiets]]. apply START. unfold unary_op. rewrite C. cbn [code].
    cbn [grouped] in G. apply andb_true_iff in G. destruct G as [G1 G2]. cbn [value] in V. injection V as <-.
    assert (NK : index_of w keywords = None).
    { destruct (index_of w keywords) as [i|] eqn:E; [|reflexivity]. apply index_of_some, nth_error_In in E. apply negb_true_iff in G1.
      assert (X : existsb (word_eq w) keywords = true) by (apply existsb_exists; exists w; split; [exact E|apply word_eq_true; reflexivity]). congruence. }
    pose proof (word_kind e w) as WK. destruct WK as [N1 N2|i N1 N2 N3|i b N1 N2 N3].
    + change (TOK_RAW_ID =? TOK_NUM) with false. change (TOK_RAW_ID =? TOK_RAW_ID) with true. cbv iota. eapply runs_bind; [exact R2|]. apply runs_ret.
    + congruence.
    + rewrite N3 in G2. destruct b as [b|]; [discriminate|]. unfold TOK_USER_ID, TOK_NUM, TOK_RAW_ID, TOK_DEFINED.
      destruct (Z.eqb_spec (273 + Z.of_nat i) 3); [lia|]. destruct (Z.eqb_spec (273 + Z.of_nat i) 256); [lia|]. destruct (Z.eqb_spec (273 + Z.of_nat i) 269); [lia|].
      destruct (Z.eqb_spec (273 + Z.of_nat i) 33); [lia|]. destruct (Z.eqb_spec (273 + Z.of_nat i) 40); [lia|]. destruct (Z.leb_spec 273 (273 + Z.of_nat i)); [|lia].
      replace (273 + Z.of_nat i - 273) with (Z.of_nat i) by lia. apply runs_gets.
      destruct O1 as ([|t ts0] & X & F & S0); [discriminate|]. cbn [filter] in F. rewrite S0 in F. injection F as -> F. destruct X as (_ & K & l & a & b & WD & _).
      destruct (proj1 (w_macros _ _ _ _ WD) i w None N2 (fun x => x)) as [_ M]. rewrite M. apply runs_assert; [reflexivity|]. eapply runs_bind; [exact R2|]. apply runs_ret.
  - destruct (on_ed _ _ _ O1) as (C & s2 & R2 & S2 & Q2). exists s2. split; [|split; [exact S2|quiets]]. apply START. unfold unary_op. rewrite C.
    cbn [value] in V. injection V as <-. exact R2.
  - destruct (on_el _ _ _ O1) as ((C & _) & s2 & R2 & S2 & Q2). cbn [grouped] in G. apply andb_true_iff in G. destruct G as [G1 G2]. cbn [value] in V.
    destruct (value W a) as [va|] eqn:VA; [|discriminate]. cbn in V. injection V as <-.
    destruct (IH a ltac:(cbn [esize]; lia) va G1 VA) as (U & _). destruct (U ltac:(lia) s2 k S2) as (s3 & R3 & S3 & Q3). exists s3. split; [|split; [exact S3|quiets]].
    apply START. unfold unary_op. rewrite C. eapply runs_bind; [exact R2|]. cbv beta. eapply runs_bind; [exact R3|]. cbv beta.
    assert (ZT : forall x, zb x = truth x) by (intros []; reflexivity). rewrite ZT. apply runs_ret.
  - destruct (on_el _ _ _ O1) as ((C & _) & s2 & R2 & S2 & Q2). cbn [grouped value] in G, V.
    destruct (IH a ltac:(cbn [esize]; lia) v G V) as (_ & (v0 & V0 & U) & SP). rewrite <- app_assoc, toks_spine, <- app_assoc in S2. destruct (U s2 _ S2) as (s3 & R3 & S3 & Q3).
    assert (LA : level_of a <= 13) by (destruct a as [| | | | |o ? ?|]; cbn [level_of]; try lia; destruct o; cbn; lia).
    destruct (SP v0 15 s3 (EL (Op (bytes ")")) :: k) V0 ltac:(lia)) as (s4 & E4 & S4 & Q4); [|exact S3|].
    { split; [eexists; reflexivity|]. change (prec_of (EL (Op (bytes ")")))) with 100. lia. }
    destruct (expr1_stop v 15 s4 _ S4) as (s5 & R5 & O5 & Q5); [split; [eexists; reflexivity|reflexivity]|].
    destruct (expect_runs _ _ _ O5) as (s6 & R6 & S6 & Q6). exists s6. split; [|split; [exact S6|quiets]].
    apply START. unfold unary_op. rewrite C. eapply runs_bind; [exact R2|]. cbv beta. eapply runs_bind; [exact R3|]. cbv beta. eapply runs_bind; [apply E4, R5|]. cbv beta.
    eapply runs_bind; [exact R6|]. apply runs_ret.
  - exfalso. cbn [level_of] in L. destruct o; discriminate.
  - discriminate.
Qed.
Lemma level_range x : 0 <= level_of x <= 13.
Proof. destruct x as [| | | | |o ? ?|]; cbn [level_of]; try lia. destruct o; cbn; lia. Qed.
Lemma level_bin o : 3 <= level o <= 12. Proof. destruct o; cbn; lia. Qed.
Lemma parse n : forall x v, (esize x <= n)%nat -> grouped e x = true -> value W x = Some v ->
  (level_of x = 0 -> unary_ok x v) /\ (exists v0, value W (first x) = Some v0 /\ unary_ok (first x) v0) /\ spine_ok x v /\ rhs_ok x v.
Proof.
  induction n as [|n IH]; intros x v N G V; [destruct x; cbn [esize] in N; lia|].
  assert (AT : forall y vy, (esize y <= S n)%nat -> grouped e y = true -> value W y = Some vy -> level_of y = 0 -> unary_ok y vy).
  { intros y vy NY GY VY LY. apply atom_runs; auto. intros a SA va GA VA. destruct (IH a va ltac:(lia) GA VA) as (A & B & C & D). auto. }
  split; [intro L; apply AT; auto|]. split.
  { destruct (first_value x v V) as [v0 V0]. exists v0. split; [exact V0|]. apply AT; auto using first_grouped, first_level. pose proof (first_size x). lia. }
  destruct x as [w|w|b|a|a|o a b|c a b]; try (split; [intros v0 outer s k V0 L A S|intros v0 p s k V0 L P A S]; cbn [first spine app] in *;
     assert (v0 = v) by congruence; subst v0; exists s; (split; [intros r s2 R; exact R|split; [exact S|apply quiet_refl]])).
  - (* a binary operator *)
    cbn [grouped value esize] in *. rewrite !andb_true_iff in G. destruct G as [[[GA GB] LA] LB]. apply Z.ltb_lt in LA. apply Z.leb_le in LB.
    destruct (value W a) as [va|] eqn:VA; [|discriminate]. destruct (value W b) as [vb|] eqn:VB; [|discriminate].
    destruct (IH a va ltac:(lia) GA VA) as (_ & _ & SPA & RHA). destruct (IH b vb ltac:(lia) GB VB) as (_ & (v0b & V0B & UB) & _ & RHB).
    pose proof (level_bin o) as LO.
    (* from the operator on *)
    assert (OP : forall s k outer, level o <= outer -> above (level o) k -> sees s (EL (Op (op_text o)) :: toks b ++ k) ->
       exists s', evals va outer s v s' /\ sees s' k /\ quiet s s').
    { intros s k outer LE A S. destruct (op_runs (op_text o) _ s va outer S) as (s1 & O1 & Q1 & CONT); [rewrite op_level; exact LE|].
      destruct (on_el _ _ _ O1) as (_ & s2 & R2 & S2 & Q2). rewrite toks_spine, <- app_assoc in S2. destruct (UB s2 _ S2) as (s3 & R3 & S3 & Q3).
      destruct (RHB v0b (level o) s3 k V0B LB ltac:(lia)) as (s4 & E4 & S4 & Q4); [|exact S3|].
      { destruct k as [|t k]; [exact I|]. destruct A as [A1 A2]. split; [exact A1|lia]. }
      destruct (rhs_stop vb (level o) s4 k S4 A) as (s5 & R5 & O5 & Q5). exists s5. split; [|split; [apply on_sees, O5|quiets]].
      intros r s6 R6. apply CONT. unfold apply_op. eapply runs_bind; [exact R2|]. cbv beta.
      assert (NQ : (lex_type (Op (op_text o)) =? 63) = false) by (destruct o; reflexivity). rewrite NQ. eapply runs_bind; [exact R3|]. cbv beta. rewrite op_level.
      eapply runs_bind; [apply E4, R5|]. cbv beta. eapply runs_step; [apply calculate_spec; exact V|]. exact R6. }
    split.
    + intros v0 outer s k V0 L A S. cbn [first spine level_of] in *. rewrite <- app_assoc in S. cbn [app] in S.
      destruct (SPA v0 outer s (EL (Op (op_text o)) :: toks b ++ k) V0 ltac:(lia)) as (s1 & E1 & S1 & Q1); [|exact S|].
      { split; [eexists; reflexivity|]. cbn [prec_of]. rewrite op_level. lia. }
      destruct (OP s1 k outer L A S1) as (s2 & E2 & S2 & Q2). exists s2. split; [|split; [exact S2|quiets]]. intros r s3 R. apply E1, E2, R.
    + intros v0 p s k V0 L P A S. cbn [first spine level_of] in *. rewrite <- app_assoc in S. cbn [app] in S.
      destruct (RHA v0 p s (EL (Op (op_text o)) :: toks b ++ k) V0 ltac:(lia) P) as (s1 & E1 & S1 & Q1); [|exact S|].
      { split; [eexists; reflexivity|]. cbn [prec_of]. rewrite op_level. lia. }
      destruct (rhs_runs (op_text o) _ s1 va p S1) as (s2 & O2 & Q2 & CONT); [rewrite op_level; exact L|]. rewrite op_level in CONT.
      destruct (OP s2 k (level o) ltac:(lia) A (on_sees _ _ O2)) as (s3 & E3 & S3 & Q3).
      destruct (expr1_stop v (level o) s3 k S3 A) as (s4 & R4 & O4 & Q4). exists s4. split; [|split; [apply on_sees, O4|quiets]].
      intros r s5 R5. apply E1, CONT. eapply runs_bind; [apply E3, R4|]. exact R5.
  - (* ?: *)
    cbn [grouped value esize] in *. rewrite !andb_true_iff in G. destruct G as [[[GC GA] GB] LC]. apply Z.ltb_lt in LC.
    destruct (value W c) as [vc|] eqn:VC; [|discriminate]. destruct (value W a) as [va|] eqn:VA; [|discriminate]. destruct (value W b) as [vb|] eqn:VB; [|discriminate].
    injection V as <-. destruct (IH c vc ltac:(lia) GC VC) as (_ & _ & SPC & _). destruct (IH a va ltac:(lia) GA VA) as (_ & (v0a & V0A & UA) & SPA & _).
    destruct (IH b vb ltac:(lia) GB VB) as (_ & (v0b & V0B & UB) & SPB & _). split.
    + intros v0 outer s k V0 L A S. cbn [first spine level_of] in *. rewrite <- app_assoc in S. cbn [app] in S. rewrite <- app_assoc in S. cbn [app] in S.
      destruct (SPC v0 outer s (EL (Op (bytes "?")) :: toks a ++ EL (Op (bytes ":")) :: toks b ++ k) V0 ltac:(lia)) as (s1 & E1 & S1 & Q1); [|exact S|].
      { split; [eexists; reflexivity|]. change (prec_of (EL (Op (bytes "?")))) with 13. lia. }
      destruct (op_runs _ _ s1 vc outer S1) as (s2 & O2 & Q2 & CONT); [exact L|].
      destruct (on_el _ _ _ O2) as (_ & s3 & R3 & S3 & Q3). rewrite (toks_spine a), <- app_assoc in S3. destruct (UA s3 _ S3) as (s4 & R4 & S4 & Q4).
      destruct (SPA v0a 14 s4 (EL (Op (bytes ":")) :: toks b ++ k) V0A ltac:(pose proof (level_range a); lia)) as (s5 & E5 & S5 & Q5); [|exact S4|].
      { split; [eexists; reflexivity|]. change (prec_of (EL (Op (bytes ":")))) with 100. pose proof (level_range a); lia. }
      destruct (expr1_stop va 14 s5 _ S5) as (s6 & R6 & O6 & Q6); [split; [eexists; reflexivity|reflexivity]|].
      destruct (expect_runs _ _ _ O6) as (s7 & R7 & S7 & Q7). rewrite (toks_spine b), <- app_assoc in S7. destruct (UB s7 _ S7) as (s8 & R8 & S8 & Q8).
      assert (AK : above 14 k).
      { destruct k as [|t k]; [exact I|]. destruct A as [[w ->] A]. split; [eexists; reflexivity|]. cbn [prec_of] in *. revert A. unfold OperatorPrecedence.
        repeat match goal with |- context [if ?b then _ else _] => destruct b end; lia. }
      destruct (SPB v0b 14 s8 k V0B ltac:(pose proof (level_range b); lia)) as (s9 & E9 & S9 & Q9); [|exact S8|].
      { destruct k as [|t k]; [exact I|]. destruct AK as [A1 A2]. split; [exact A1|]. pose proof (level_range b); lia. }
      destruct (expr1_stop vb 14 s9 k S9 AK) as (s10 & R10 & O10 & Q10). exists s10. split; [|split; [apply on_sees, O10|quiets]].
      intros r s11 R11. apply E1, CONT. unfold apply_op. eapply runs_bind; [exact R3|]. cbv beta. change (lex_type (Op (bytes "?")) =? 63) with true. cbv iota.
      eapply runs_bind; [exact R4|]. cbv beta. eapply runs_bind; [apply E5, R6|]. cbv beta. eapply runs_bind; [exact R7|]. cbv beta. eapply runs_bind; [exact R8|]. cbv beta.
      eapply runs_bind; [apply E9, R10|]. exact R11.
    + intros v0 p s k V0 L P A S. cbn [level_of] in L. lia.
Qed.
(** EvalExpr, at the token before the expression *)
Lemma EvalExpr_runs s x v : sees s (toks x) -> grouped e x = true -> value W x = Some v ->
  exists s', runs (EvalExpr W) s v s' /\ on_tok s' [] /\ quiet s s'.
Proof.
  intros S G V. destruct (parse (esize x) x v (le_n _) G V) as (_ & (v0 & V0 & U) & SP & _).
  rewrite toks_spine in S. destruct (U s _ S) as (s1 & R1 & S1 & Q1). rewrite <- (app_nil_r (spine x)) in S1.
  destruct (SP v0 15 s1 [] V0 ltac:(pose proof (level_range x); lia) I S1) as (s2 & E2 & S2 & Q2).
  destruct (expr1_stop v 15 s2 [] S2 I) as (s3 & R3 & O3 & Q3). exists s3. split; [|split; [exact O3|quiets]].
  unfold EvalExpr. eapply runs_bind; [exact R1|]. apply E2, R3.
Qed.
End Width.
End Line.
