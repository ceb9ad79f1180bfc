(** The macros of scpp.c as an environment, and GetToken as reading the expanded text. *)
From Coq Require Import ZArith List Bool Lia String.
From Verif Require Import Base Spp SppSpec SppLex SppId.
From Verif Require SccState.
Import ListNotations.
Open Scope Z_scope.
Open Scope p_scope.

(** ** Facts about lexemes *)
Lemma lex_type_id x : wf_lexeme x = true -> lex_type x = TOK_RAW_ID -> exists w, x = Id w.
Proof.
  destruct x as [l| |w|w|q w|w]; intros W H; try discriminate; [eauto|cbn in H; destruct (q =? 34); discriminate|].
  exfalso. destruct (doubles_not_single _ W) as [(c & -> & I)|I].
  - apply singles_cases in I. cbn [lex_type] in H. subst c. vm_compute in I. intuition lia.
  - assert (F : forallb (fun w => negb (lex_type (Op w) =? TOK_RAW_ID)) doubles = true) by reflexivity.
    rewrite forallb_forall in F. specialize (F _ I). rewrite H in F. discriminate.
Qed.
Lemma lex_type_no_arg x : wf_lexeme x = true -> lex_type x <> TOK_ARG.
Proof.
  destruct x as [l| |w|w|q w|w]; intros W H; try discriminate; [cbn in H; destruct (q =? 34); discriminate|].
  destruct (doubles_not_single _ W) as [(c & -> & I)|I].
  - apply singles_cases in I. cbn [lex_type] in H. subst c. vm_compute in I. intuition lia.
  - assert (F : forallb (fun w => negb (lex_type (Op w) =? TOK_ARG)) doubles = true) by reflexivity.
    rewrite forallb_forall in F. specialize (F _ I). rewrite H in F. discriminate.
Qed.
Lemma lex_type_hash x : wf_lexeme x = true -> lex_type x = 35 -> x = Op (bytes "#").
Proof.
  destruct x as [l| |w|w|q w|w]; intros W H; try discriminate; [cbn in H; destruct (q =? 34); discriminate|].
  destruct (doubles_not_single _ W) as [(c & -> & I)|I].
  - cbn [lex_type] in H. subst c. reflexivity.
  - exfalso. assert (F : forallb (fun w => negb (lex_type (Op w) =? 35)) doubles = true) by reflexivity.
    rewrite forallb_forall in F. specialize (F _ I). rewrite H in F. discriminate.
Qed.
Lemma lex_type_hashhash x : wf_lexeme x = true -> lex_type x = TOK_HASHHASH -> x = Op (bytes "##").
Proof.
  destruct x as [l| |w|w|q w|w]; intros W H; try discriminate; [cbn in H; destruct (q =? 34); discriminate|].
  destruct (doubles_not_single _ W) as [(c & -> & I)|I].
  - exfalso. apply singles_cases in I. cbn [lex_type] in H. subst c. vm_compute in I. intuition lia.
  - assert (F : forallb (fun w => negb (lex_type (Op w) =? TOK_HASHHASH) || word_eq w (bytes "##")) doubles = true) by reflexivity.
    rewrite forallb_forall in F. specialize (F _ I). rewrite H in F. cbn [Z.eqb Pos.eqb TOK_HASHHASH negb orb] in F.
    apply word_eq_true in F. congruence.
Qed.
Definition clean (x : lexeme) : Prop := wf_lexeme x = true /\ is_hash x = false.
Lemma clean_hash x : clean x -> lex_type x <> 35 /\ lex_type x <> TOK_HASHHASH.
Proof.
  intros [W H]. split; intro E; [apply lex_type_hash in E|apply lex_type_hashhash in E]; auto; subst x; discriminate.
Qed.

(** ** The stored macros *)
Definition names (e : env) : list (list Z) := keywords ++ map fst e.
Definition elem_ok (s : st) (t : token) (x : lexeme) : Prop :=
  t_type t = lex_type x /\ (has_word x = true -> kept s (t_text t) (word x)).
(** the elements from p on are those of l *)
Fixpoint chain (s : st) (p : Z) (l : list lexeme) : Prop :=
  match l with
  | [] => p = -1
  | x :: l => p <> -1 /\ elem_ok s (e_tok (aget (pool s) p)) x /\ chain s (e_next (aget (pool s) p)) l
  end.
(** the elements from p on have the indices js *)
Fixpoint links (a : arr elem) (p : Z) (js : list Z) : Prop :=
  match js with [] => p = -1 | j :: js => p = j /\ j <> -1 /\ links a (e_next (aget a p)) js end.
Lemma Forall2_cons_iff {A B} (R : A -> B -> Prop) a b l1 l2 : Forall2 R (a :: l1) (b :: l2) -> R a b /\ Forall2 R l1 l2.
Proof. intro H. inversion H. auto. Qed.
Definition stackof := list (list Z * list lexeme).
Definition hides (K : stackof) (n : list Z) : bool := existsb (word_eq n) (map fst K).
Definition mac_ok (s : st) (hid : bool) (m : macro) (b : option (list lexeme)) : Prop :=
  m_args m = ANone /\
  match b with
  | Some l => m_hide m = zb hid /\ chain s (m_repl m) l /\ Forall clean l
  | None => m_hide m = 2
  end.
Definition macros (e : env) (K : stackof) (skip : nat -> Prop) (s : st) : Prop :=
  (forall i n b, nth_error e i = Some (n, b) -> ~ skip i -> mac_ok s (hides K n) (aget (macs s) (Z.of_nat i)) b) /\
  (forall i, (length e <= i)%nat -> aget (macs s) (Z.of_nat i) = nomacro).
Definition none (i : nat) : Prop := False.
Definition frame_ok (e : env) (s : st) (f : frame) (k : list Z * list lexeme) : Prop :=
  f_stop f = false /\ chain s (f_list f) (snd k) /\ Forall clean (snd k) /\
  exists i b, nth_error e i = Some (fst k, Some b) /\ f_mac f = Z.of_nat i.
(** the elements are free or belong to one body *)
Definition pool_ok (e : env) (skip : nat -> Prop) (extra : list Z) (s : st) : Prop :=
  exists fl B,
    links (pool s) (free s) fl /\ length B = length e /\
    (forall i n b, nth_error e i = Some (n, b) -> ~ skip i ->
       match b with Some l => links (pool s) (m_repl (aget (macs s) (Z.of_nat i))) (nth i B []) | None => nth i B [] = [] end) /\
    (forall i, skip i -> nth i B [] = []) /\
    NoDup (fl ++ extra ++ List.concat B) /\ Z.of_nat (length (fl ++ extra ++ List.concat B)) = POOL /\
    Forall (fun j => 0 <= j) (fl ++ extra ++ List.concat B).
Record base (e : env) (u : Z) (s : st) : Prop := {
  b_table : table (names e) (Spp.hash s);
  b_names : names_ok s (names e);
  b_npos : npos s = u;
  b_u : 0 <= u <= TEXT;
  b_queue : queue s = [] }.
Record world (e : env) (u : Z) (K : stackof) (s : st) : Prop := {
  w_base : base e u s;
  w_macros : macros e K none s;
  w_stack : Forall2 (frame_ok e s) (stack s) K;
  w_nodup : NoDup (map fst K);
  w_pool : pool_ok e none [] s }.
(** the input: lexemes *)
Definition reads (l : list lexeme) (s : st) : Prop := inp s = texts l /\ separated l = true.
(** what GetToken leaves alone *)
Record quiet (s s' : st) : Prop := {
  q_cfile : cfile s' = cfile s; q_files : files s' = files s; q_conds : conds s' = conds s; q_outp : outp s' = outp s }.
Lemma quiet_refl s : quiet s s. Proof. constructor; reflexivity. Qed.
Lemma quiet_trans a b c : quiet a b -> quiet b c -> quiet a c.
Proof. intros [] []. constructor; congruence. Qed.
Lemma keeps_quiet s s' : keeps s s' -> quiet s s'.
Proof. intros []. constructor; assumption. Qed.

(** ** A world survives *)
Record calm (s s' : st) : Prop := {
  c_npos : npos s <= npos s'; c_data : forall j, j < npos s -> aget (data s') j = aget (data s) j;
  c_pool : pool s' = pool s }.
Lemma calm_kept s s' p w : npos s <= npos s' -> (forall j, j < npos s -> aget (data s') j = aget (data s) j) -> kept s p w -> kept s' p w.
Proof.
  intros N D. destruct p as [|q|l| |a]; cbn; auto. intros (A & B & C). split; [exact A|]. split; [lia|].
  apply holds_ext with (data s); [|exact C]. intros j J. apply D. lia.
Qed.
Lemma calm_elem s s' t x : calm s s' -> elem_ok s t x -> elem_ok s' t x.
Proof. intros C [A B]. split; [exact A|]. intro H. eapply calm_kept; [apply C|apply C|auto]. Qed.
Lemma calm_chain s s' l : calm s s' -> forall p, chain s p l -> chain s' p l.
Proof.
  intro C. induction l as [|x l IH]; intros p H; cbn [chain] in *; [exact H|]. rewrite (c_pool _ _ C). destruct H as (A & B & D).
  split; [exact A|]. split; [eapply calm_elem; eauto|]. apply IH. exact D.
Qed.
Lemma Forall2_impl' {A B} (R R' : A -> B -> Prop) l1 l2 : (forall a b, R a b -> R' a b) -> Forall2 R l1 l2 -> Forall2 R' l1 l2.
Proof. intros I H. induction H; constructor; auto. Qed.
Lemma calm_names s s' ns : calm s s' -> ids s' = ids s -> names_ok s ns -> names_ok s' ns.
Proof. unfold names_ok. intros C -> H. eapply Forall2_impl'; [|exact H]. intros. eapply calm_kept; [apply C|apply C|assumption]. Qed.
Lemma calm_mac s s' h m b : calm s s' -> mac_ok s h m b -> mac_ok s' h m b.
Proof. intros C [A H]. split; [exact A|]. destruct b; [|exact H]. destruct H as (B & D & E). repeat split; auto. eapply calm_chain; eauto. Qed.
Lemma calm_frame e s s' f k : calm s s' -> frame_ok e s f k -> frame_ok e s' f k.
Proof. intros C (A & B & D). repeat split; auto; try apply D. eapply calm_chain; eauto. Qed.
(** only token, input, stored text beyond npos and hash of the current token changed *)
Record idle (s s' : st) : Prop := {
  i_npos : npos s' = npos s; i_data : forall j, j < npos s -> aget (data s') j = aget (data s) j; i_ids : ids s' = ids s;
  i_hash : Spp.hash s' = Spp.hash s; i_queue : queue s' = queue s; i_pool : pool s' = pool s; i_free : free s' = free s;
  i_macs : macs s' = macs s; i_stack : stack s' = stack s }.
Lemma keeps_idle s s' : keeps s s' -> idle s s'.
Proof. intros []. constructor; assumption. Qed.
Lemma idle_calm s s' : idle s s' -> calm s s'.
Proof. intros []. constructor; auto. lia. Qed.
Lemma idle_base e u s s' : idle s s' -> base e u s -> base e u s'.
Proof.
  intros I B. constructor.
  - rewrite (i_hash _ _ I). apply B.
  - eapply calm_names; [apply idle_calm, I|apply I|apply B].
  - rewrite (i_npos _ _ I). apply B.
  - apply (b_u _ _ _ B).
  - rewrite (i_queue _ _ I). apply B.
Qed.
Lemma calm_macros e K sk s s' : calm s s' -> macs s' = macs s -> macros e K sk s -> macros e K sk s'.
Proof. intros C E [A B]. split; rewrite E; [|exact B]. intros i n b H N. eapply calm_mac; [exact C|]. eauto. Qed.
Lemma idle_world e u K s s' : idle s s' -> world e u K s -> world e u K s'.
Proof.
  intros I H. pose proof (idle_calm _ _ I) as C. constructor.
  - eapply idle_base; [exact I|apply H].
  - eapply calm_macros; [exact C|apply I|apply H].
  - rewrite (i_stack _ _ I). eapply Forall2_impl'; [|apply (w_stack _ _ _ _ H)]. intros. eapply calm_frame; eauto.
  - apply H.
  - destruct (w_pool _ _ _ _ H) as (fl & B & X). exists fl, B. rewrite (i_pool _ _ I), (i_free _ _ I), (i_macs _ _ I). exact X.
Qed.

(** ** Raw tokens *)
(** the current token is x; raw, or after ReplaceId *)
Definition raw_tok (s : st) (x : lexeme) : Prop :=
  t_type (tok s) = lex_type x /\ (has_word x = true -> shown s (t_text (tok s)) (word x)) /\
  (forall w, x = Id w -> chash s = hash_str w \/ chash s = ID_HASH_MAX).
Definition code (e : env) (x : lexeme) : Z := match x with Id w => id_code (names e) w | _ => lex_type x end.
Definition has_tok (e : env) (s : st) (x : lexeme) : Prop :=
  t_type (tok s) = code e x /\ (has_word x = true -> shown s (t_text (tok s)) (word x)) /\ wf_lexeme x = true.

Lemma blank_range c : blank c = true -> 1 <= c <= 32 /\ c <> 10.
Proof. unfold blank. lia. Qed.
Lemma text_head x r : wf_lexeme x = true -> exists c t, text x ++ r = c :: t /\ 0 < c <= 127.
Proof.
  destruct x as [l| |w|w|q w|w]; cbn [text wf_lexeme]; intro H.
  - destruct l as [|c l]; [discriminate|]. cbn in H. apply andb_true_iff in H. destruct H as [H _]. apply blank_range in H. cbn [app]. do 2 eexists. split; [reflexivity|lia].
  - cbn [app]. do 2 eexists. split; [reflexivity|lia].
  - destruct w as [|c w]; [discriminate|]. apply andb_true_iff in H. destruct H as [H _]. cbn [app]. do 2 eexists. split; [reflexivity|]. unfold letter in H. lia.
  - destruct w as [|c w]; [discriminate|]. apply andb_true_iff in H. destruct H as [H _]. cbn [app]. do 2 eexists. split; [reflexivity|]. unfold digit in H. lia.
  - cbn [app]. do 2 eexists. split; [reflexivity|]. lia.
  - destruct (doubles_not_single _ H) as [(c & -> & I)|I].
    + cbn [app]. do 2 eexists. split; [reflexivity|]. apply singles_cases in I. vm_compute in I. lia.
    + destruct w as [|c w]; [vm_compute in I; intuition discriminate|]. cbn [app]. do 2 eexists. split; [reflexivity|].
      assert (F : forallb (fun w => match w with c :: _ => (0 <? c) && (c <=? 127) | [] => false end) doubles = true) by reflexivity.
      rewrite forallb_forall in F. specialize (F _ I). cbn in F. lia.
Qed.
Lemma separated_hd l : separated l = true -> 0 <= hd 0 (texts l).
Proof.
  destruct l as [|x l]; cbn [separated]; intro H; [reflexivity|]. apply andb_true_iff in H. destruct H as [H _]. apply andb_true_iff in H.
  unfold texts. cbn [map List.concat]. destruct (text_head x (List.concat (map text l)) (proj1 H)) as (c & t & -> & R). cbn. lia.
Qed.
Lemma texts_cons x l : texts (x :: l) = text x ++ texts l.
Proof. reflexivity. Qed.
Lemma texts_app a b : texts (a ++ b) = texts a ++ texts b.
Proof. unfold texts. rewrite map_app, concat_app. reflexivity. Qed.
Lemma size_nonneg x : 0 <= size x. Proof. destruct x; cbn [size]; lia. Qed.
(** *** From a replacement *)
Lemma skip_ws s l : Forall clean l -> forall p, chain s p l ->
  exists q, runs (fun f => SkipWsNL f p) s q s /\ (q = -1 \/ t_type (e_tok (aget (pool s) q)) <> TOK_HASHHASH).
Proof.
  induction l as [|x l IH]; intros C p H; cbn [chain] in H.
  - subst p. exists (-1). split; [|auto]. apply (runs_S _ (fun _ => ret (-1))); [reflexivity|apply runs_ret].
  - destruct H as (N & (E & _) & H). inversion C; subst. destruct (IH ltac:(assumption) _ H) as (q & R & Q).
    destruct (negb (lex_type x =? TOK_WHITESPACE) && negb (lex_type x =? TOK_NEWLINE)) eqn:D.
    + exists p. split; [|right; rewrite E; apply clean_hash; assumption].
      apply (runs_S_eq _ (fun _ => ret p) s s); [|apply runs_ret]. intro f. cbn [SkipWsNL]. destruct (Z.eqb_spec p (-1)); [contradiction|].
      unfold SccState.bind, SccState.gets. rewrite E, D. reflexivity.
    + exists q. split; [|exact Q]. apply (runs_S_eq _ (fun f => SkipWsNL f (e_next (aget (pool s) p))) s s); [|exact R].
      intro f. cbn [SkipWsNL]. destruct (Z.eqb_spec p (-1)); [contradiction|]. unfold SccState.bind, SccState.gets. rewrite E, D. reflexivity.
Qed.
(** the index of a macro *)
Lemma frame_hide e u s f n l K : world e u ((n, l) :: K) s -> frame_ok e s f (n, l) ->
  m_hide (aget (macs s) (f_mac f)) = 1 /\ m_args (aget (macs s) (f_mac f)) = ANone /\ f_mac f <> -1.
Proof.
  intros H (_ & _ & _ & i & b & E & ->). cbn [fst] in E. destruct (proj1 (w_macros _ _ _ _ H) i n (Some b) E) as [A [B _]]; [exact (fun x => x)|].
  split; [|split; [exact A|lia]]. rewrite B. unfold hides. cbn [map fst existsb]. rewrite (proj2 (word_eq_true n n) eq_refl). reflexivity.
Qed.
Lemma stack_frame e u s n x l K : world e u ((n, x :: l) :: K) s ->
  exists s', runs raw_stack s true s' /\ world e u ((n, l) :: K) s' /\ inp s' = inp s /\ raw_tok s' x /\ quiet s s' /\ clean x.
Proof.
  intro H. destruct (stack s) as [|f r] eqn:S; [pose proof (w_stack _ _ _ _ H) as X; rewrite S in X; inversion X|].
  pose proof (w_stack _ _ _ _ H) as X. rewrite S in X. apply Forall2_cons_iff in X. destruct X as [FO FR].
  destruct (frame_hide _ _ _ _ _ _ _ H FO) as (HI & HA & NM).
  pose proof FO as (ST & CH & CL & i & b & EI & EM). cbn [snd fst] in *. cbn [chain] in CH. destruct CH as (NP & EO & CH).
  inversion CL as [|? ? CX CLL]; subst.
  set (p := f_list f) in *. set (s1 := set_stack (set_tok s (e_tok (aget (pool s) p))) (mkframe (f_mac f) (e_next (aget (pool s) p)) (f_stop f) :: r)).
  set (s2 := set_chash s1 ID_HASH_MAX).
  assert (CA : calm s s2) by (constructor; cbn; auto; lia).
  exists s2. split; [|split; [|split; [reflexivity|split; [|split; [constructor; reflexivity|exact CX]]]]].
  - destruct (skip_ws s1 l CLL (e_next (aget (pool s) p))) as (q & RQ & Q).
    { apply (calm_chain s); [constructor; cbn; auto; lia|exact CH]. }
    apply (runs_S_eq _ (fun f => let! e := SkipWsNL f (e_next (aget (pool s) p)) in paste_loop f e;; upd (fun s => set_chash s ID_HASH_MAX);; ret true) s s1).
    + intro k. cbn [raw_stack]. unfold SccState.bind at 1, SccState.gets at 1. rewrite S. rewrite HI. cbn [Z.eqb Pos.eqb]. rewrite orb_true_r.
      unfold SccState.bind at 1, assert, SccState.ret at 1. fold p. destruct (Z.eqb_spec p (-1)); [contradiction|]. cbn [negb]. reflexivity.
    + eapply runs_bind; [exact RQ|]. eapply runs_bind with (a := tt) (s1 := s1).
      * apply (runs_S_eq _ (fun _ => ret tt) s1 s1); [|apply runs_ret]. intro k. cbn [paste_loop]. destruct (Z.eqb_spec q (-1)); [reflexivity|].
        unfold SccState.bind, SccState.gets. destruct Q as [Q|Q]; [contradiction|]. change (pool s1) with (pool s).
        change (pool s1) with (pool s) in Q. destruct (Z.eqb_spec (t_type (e_tok (aget (pool s) q))) TOK_HASHHASH); [contradiction|]. reflexivity.
      * apply runs_const. reflexivity.
  - constructor.
    + pose proof (w_base _ _ _ _ H) as B. constructor; try apply B.
    + apply (calm_macros e ((n, l) :: K) none s); [exact CA|reflexivity|]. exact (w_macros _ _ _ _ H).
    + cbn [s2 s1 set_chash set_stack stack]. constructor.
      * split; [exact ST|]. split; [eapply calm_chain; [exact CA|exact CH]|]. split; [exact CLL|]. exists i, b. auto.
      * eapply Forall2_impl'; [|exact FR]. intros. eapply calm_frame; eauto.
    + exact (w_nodup _ _ _ _ H).
    + exact (w_pool _ _ _ _ H).
  - destruct EO as [E1 E2]. split; [exact E1|]. split.
    + intro HW. apply kept_shown.
      * change (npos s2) with (npos s). rewrite (b_npos _ _ _ (w_base _ _ _ _ H)). apply (b_u _ _ _ (w_base _ _ _ _ H)).
      * eapply calm_kept; [apply CA|apply CA|apply E2, HW].
    + right. reflexivity.
Qed.
Lemma NoDup_app_r {A} (a b : list A) : NoDup (a ++ b) -> NoDup b.
Proof. induction a; cbn; intro H; [exact H|]. inversion H. auto. Qed.
(** a replacement that has been read is dropped *)
Lemma hides_cons n l K m : hides ((n, l) :: K) m = word_eq m n || hides K m.
Proof. reflexivity. Qed.
Lemma unhide_macros e u K n l i b s : world e u ((n, l) :: K) s -> nth_error e i = Some (n, Some b) -> stack s <> [] ->
  world e u K (set_stack (set_macs s (aset (macs s) (Z.of_nat i) (mkmac (m_args (aget (macs s) (Z.of_nat i))) (m_repl (aget (macs s) (Z.of_nat i))) 0))) (tl (stack s))).
Proof.
  intros H E NS. set (s' := set_stack _ _). assert (CA : calm s s') by (constructor; cbn; auto; lia).
  assert (NK : hides K n = false).
  { pose proof (w_nodup _ _ _ _ H) as ND. cbn [map fst] in ND. inversion ND as [|? ? NI ND']; subst. unfold hides.
    destruct (existsb (word_eq n) (map fst K)) eqn:X; [|reflexivity]. apply existsb_exists in X. destruct X as (y & Y & Z). apply word_eq_true in Z. subst y. contradiction. }
  pose proof (b_table _ _ _ (w_base _ _ _ _ H)) as TB. pose proof (t_nodup _ _ TB) as ND. unfold names in ND.
  assert (UI : forall j m c, nth_error e j = Some (m, c) -> m = n -> j = i).
  { intros j m c J ->. apply NoDup_app_r in ND. apply (NoDup_nth_error (map fst e)); [exact ND| |].
    - rewrite map_length. apply nth_error_Some. congruence.
    - rewrite !nth_error_map, J, E. reflexivity. }
  constructor.
  - pose proof (w_base _ _ _ _ H) as B. constructor; try apply B.
  - destruct (w_macros _ _ _ _ H) as [M1 M2]. split.
    + intros j m c J _. specialize (M1 j m c J (fun x => x)). cbn [s' set_stack set_macs macs]. destruct (Nat.eq_dec j i) as [->|NE].
      * assert (m = n /\ c = Some b) as [-> ->] by (split; congruence). rewrite aget_aset_same. destruct M1 as (A & B & C & D).
        split; [exact A|]. cbn [m_hide m_repl]. rewrite NK. split; [reflexivity|]. split; [eapply calm_chain; eauto|exact D].
      * rewrite aget_aset_other by lia. assert (EH : hides ((n, l) :: K) m = hides K m).
        { rewrite hides_cons. destruct (word_eq m n) eqn:X; [|reflexivity]. apply word_eq_true in X. exfalso. apply NE. eapply UI; eauto. }
        rewrite EH in M1. eapply calm_mac; eauto.
    + intros j J. cbn [s' set_stack set_macs macs]. assert (i < length e)%nat by (apply nth_error_Some; congruence). rewrite aget_aset_other by lia. apply M2, J.
  - cbn [s' set_stack stack]. pose proof (w_stack _ _ _ _ H) as S. destruct (stack s) as [|f r]; [congruence|]. cbn [tl]. apply Forall2_cons_iff in S.
    eapply Forall2_impl'; [|apply S]. intros. eapply calm_frame; eauto.
  - pose proof (w_nodup _ _ _ _ H) as X. inversion X. assumption.
  - destruct (w_pool _ _ _ _ H) as (fl & B & X1 & X2 & X3 & X4). exists fl, B. split; [exact X1|]. split; [exact X2|]. split; [|exact X4].
    intros j m c J _. specialize (X3 j m c J (fun x => x)). cbn [s' set_stack set_macs macs pool]. destruct (Nat.eq_dec j i) as [->|NE].
    + rewrite aget_aset_same. exact X3.
    + rewrite aget_aset_other by lia. exact X3.
Qed.
Lemma stack_pop e u s n K : world e u ((n, []) :: K) s ->
  exists s', (forall b s2, runs raw_stack s' b s2 -> runs raw_stack s b s2) /\ world e u K s' /\ inp s' = inp s /\ quiet s s'.
Proof.
  intro H. destruct (stack s) as [|f r] eqn:ES; [pose proof (w_stack _ _ _ _ H) as X; rewrite ES in X; inversion X|].
  pose proof (w_stack _ _ _ _ H) as X. rewrite ES in X. apply Forall2_cons_iff in X. destruct X as [FO FR].
  destruct (frame_hide _ _ _ _ _ _ _ H FO) as (HI & HA & NM).
  pose proof FO as (ST & CH & CL & i & b & EI & EM). cbn [snd fst chain] in *.
  pose proof (unhide_macros _ _ _ _ _ _ _ _ H EI ltac:(congruence)) as HU. rewrite ES in HU. cbn [tl] in HU. rewrite <- EM in *.
  eexists. split; [|split; [exact HU|split; [reflexivity|constructor; reflexivity]]].
  intros c s2 R. eapply runs_S_eq; [|exact R]. intro k. cbn [raw_stack]. unfold SccState.bind at 1, SccState.gets at 1. rewrite ES, HI.
  cbn [Z.eqb Pos.eqb]. rewrite orb_true_r. unfold SccState.bind at 1, assert, SccState.ret at 1. rewrite CH. cbn [Z.eqb Pos.eqb negb].
  destruct (Z.eqb_spec (f_mac f) (-1)); [contradiction|]. rewrite ST.
  assert (FA : FreeArgs (m_args (aget (macs s) (f_mac f))) = ret tt) by (rewrite HA; reflexivity). rewrite FA. reflexivity.
Qed.
Definition spent (K : stackof) : Prop := Forall (fun k => snd k = []) K.
Lemma stack_pops e u P K : spent P -> forall s, world e u (P ++ K) s ->
  exists s', (forall b s2, runs raw_stack s' b s2 -> runs raw_stack s b s2) /\ world e u K s' /\ inp s' = inp s /\ quiet s s'.
Proof.
  intro S. induction S as [|[n l] P E S IH]; intros s H; cbn [app] in H.
  - exists s. split; [auto|]. split; [exact H|]. split; [reflexivity|apply quiet_refl].
  - cbn in E. subst l. destruct (stack_pop _ _ _ _ _ H) as (s1 & R1 & W1 & I1 & Q1). destruct (IH _ W1) as (s2 & R2 & W2 & I2 & Q2).
    exists s2. split; [auto|]. split; [exact W2|]. split; [congruence|eapply quiet_trans; eauto].
Qed.
(** the next token of a replacement *)
Lemma raw_frame e u s P n x l K : spent P -> world e u (P ++ (n, x :: l) :: K) s ->
  exists s', runs RawGetToken s tt s' /\ world e u ((n, l) :: K) s' /\ inp s' = inp s /\ raw_tok s' x /\ quiet s s' /\ clean x.
Proof.
  intros S H. destruct (stack_pops _ _ _ _ S _ H) as (s1 & R1 & W1 & I1 & Q1).
  destruct (stack_frame _ _ _ _ _ _ _ W1) as (s2 & R2 & W2 & I2 & T2 & Q2 & C2). exists s2.
  split; [|split; [exact W2|split; [congruence|split; [exact T2|split; [eapply quiet_trans; eauto|exact C2]]]]].
  unfold RawGetToken. eapply runs_bind; [apply R1, R2|]. apply runs_ret.
Qed.
(** the next token of the file, all replacements having been read *)
Lemma RawGetToken_file e u K s : spent K -> world e u K s ->
  exists s1, (forall s2, runs raw_file s1 tt s2 -> runs RawGetToken s tt s2) /\ world e u [] s1 /\ inp s1 = inp s /\ quiet s s1.
Proof.
  intros S H. rewrite <- (app_nil_r K) in H. destruct (stack_pops _ _ _ _ S _ H) as (s1 & R1 & W1 & I1 & Q1). exists s1.
  split; [|auto]. intros s2 R. unfold RawGetToken. eapply runs_bind with (a := false) (s1 := s1).
  - apply R1. apply (runs_S_eq _ (fun _ => ret false) s1 s1); [|apply runs_ret]. intro f. cbn [raw_stack].
    unfold SccState.bind, SccState.gets. pose proof (w_stack _ _ _ _ W1) as X. inversion X. reflexivity.
  - cbv beta iota. apply runs_gets. rewrite (b_queue _ _ _ (w_base _ _ _ _ W1)). exact R.
Qed.
Lemma raw_next e u s x T K : spent K -> world e u K s -> reads (x :: T) s -> u + size x <= TEXT ->
  exists s', runs RawGetToken s tt s' /\ world e u [] s' /\ reads T s' /\ raw_tok s' x /\ quiet s s' /\
    pos s' = u + size x /\ t_text (tok s') = PTok u /\ (has_word x = true -> holds (data s') u (word x)).
Proof.
  intros S H0 [I0 P] F. destruct (RawGetToken_file _ _ _ _ S H0) as (s1 & R1 & H & I1 & Q1). assert (I : inp s1 = texts (x :: T)) by congruence.
  pose proof (w_base _ _ _ _ H) as B. cbn [separated] in P. apply andb_true_iff in P. destruct P as [P PT]. apply andb_true_iff in P. destruct P as [P1 P2].
  pose proof (b_npos _ _ _ B) as NP. pose proof (b_u _ _ _ B) as U. unfold TEXT in *.
  destruct (raw_lex s1 x (texts T) I P1 P2 (separated_hd _ PT)) as (s' & R & G); [lia|unfold TOKEN_DATA_MAX; lia|].
  exists s'. split; [|split; [|split; [|split; [|split; [|split; [|split]]]]]].
  - apply R1, R.
  - eapply idle_world; [apply keeps_idle, G|exact H].
  - split; [apply G|exact PT].
  - split; [apply G|]. split.
    + intro HW. rewrite (g_text _ _ _ _ G). cbn [shown]. split; [lia|]. split; [|apply (g_word _ _ _ _ G HW)].
      unfold TOKEN_DATA_MAX. destruct x; cbn [word size has_word] in *; try discriminate; lia.
    + intros w E. left. apply (g_hash _ _ _ _ G w E).
  - eapply quiet_trans; [exact Q1|apply keeps_quiet, G].
  - rewrite (g_pos _ _ _ _ G). lia.
  - rewrite (g_text _ _ _ _ G). congruence.
  - rewrite <- NP. apply G.
Qed.
