(** Reading lexemes: RawGetToken of scpp.c delivers the lexemes of the text one by one. *)
From Coq Require Import ZArith List Bool Lia String.
From Verif Require Import Base Spp SppSpec.
From Verif Require SccState SccInput.
Import ListNotations.
Open Scope Z_scope.
Open Scope p_scope.

(** ** Running with enough fuel *)
Definition runs {A} (m : nat -> M st A) (s : st) (a : A) (s' : st) : Prop :=
  exists f0, forall f, (f0 <= f)%nat -> m f s = Ok (a, s').
Lemma bind_eq {A B} (m : M st A) (k : A -> M st B) s a s' : m s = Ok (a, s') -> bind m k s = k a s'.
Proof. intro H. unfold SccState.bind. rewrite H. reflexivity. Qed.
Lemma runs_bind {A B} (m : nat -> M st A) (k : nat -> A -> M st B) s a s1 b s2 :
  runs m s a s1 -> runs (fun f => k f a) s1 b s2 -> runs (fun f => bind (m f) (k f)) s b s2.
Proof.
  intros [f1 H1] [f2 H2]. exists (Nat.max f1 f2). intros f F.
  rewrite (bind_eq _ _ _ _ _ (H1 f ltac:(lia))). apply H2. lia.
Qed.
Lemma runs_assoc {A B C} (m : nat -> M st A) (k : nat -> A -> M st B) (h : nat -> B -> M st C) s c s2 :
  runs (fun f => bind (m f) (fun a => bind (k f a) (h f))) s c s2 -> runs (fun f => bind (bind (m f) (k f)) (h f)) s c s2.
Proof.
  intros [f0 H]. exists f0. intros f F. specialize (H f F). unfold SccState.bind in *.
  destruct (m f s) as [[a s1]| | |]; auto.
Qed.
Lemma runs_const {A} (m : M st A) s a s' : m s = Ok (a, s') -> runs (fun _ => m) s a s'.
Proof. intro H. exists O. intros. exact H. Qed.
Lemma runs_step {A B} (m : M st A) (k : nat -> A -> M st B) s a s1 b s2 :
  m s = Ok (a, s1) -> runs (fun f => k f a) s1 b s2 -> runs (fun f => bind m (k f)) s b s2.
Proof. intros H [f0 R]. exists f0. intros f F. rewrite (bind_eq _ _ _ _ _ H). auto. Qed.
Lemma runs_S {A} (m m' : nat -> M st A) s a s' : (forall f, m (S f) = m' f) -> runs m' s a s' -> runs m s a s'.
Proof.
  intros E [f0 H]. exists (S f0). intros [|f] F; [lia|]. rewrite E. apply H. lia.
Qed.
Lemma runs_ext {A} (m m' : nat -> M st A) s a s' : (forall f, m f s = m' f s) -> runs m' s a s' -> runs m s a s'.
Proof. intros E [f0 H]. exists f0. intros f F. rewrite E. auto. Qed.
Lemma runs_S_eq {A} (m m' : nat -> M st A) s s1 a s' : (forall f, m (S f) s = m' f s1) -> runs m' s1 a s' -> runs m s a s'.
Proof. intros E [f0 H]. exists (S f0). intros [|f] F; [lia|]. rewrite E. apply H. lia. Qed.
Lemma runs_ret {A} (a : A) s : runs (fun _ => ret a) s a s.
Proof. exists O. reflexivity. Qed.
(** run the first steps: m reads or changes the state directly *)
Lemma runs_gets {A B} (g : st -> A) (k : nat -> A -> M st B) s b s2 :
  runs (fun f => k f (g s)) s b s2 -> runs (fun f => bind (gets g) (k f)) s b s2.
Proof. intros. eapply runs_step; [reflexivity|assumption]. Qed.
Lemma runs_upd {B} (g : st -> st) (k : nat -> unit -> M st B) s b s2 :
  runs (fun f => k f tt) (g s) b s2 -> runs (fun f => bind (upd g) (k f)) s b s2.
Proof. intros. eapply runs_step; [reflexivity|assumption]. Qed.
Lemma runs_assert {B} (c : bool) (k : nat -> unit -> M st B) s b s2 :
  c = true -> runs (fun f => k f tt) s b s2 -> runs (fun f => bind (assert c) (k f)) s b s2.
Proof. intros -> H. eapply runs_step; [reflexivity|assumption]. Qed.
Lemma runs_group {A B C} (m : M st A) (k : A -> M st B) (h : nat -> B -> M st C) s b s1 c s2 :
  bind m k s = Ok (b, s1) -> runs (fun f => h f b) s1 c s2 -> runs (fun f => bind m (fun a => bind (k a) (h f))) s c s2.
Proof.
  intros H [f0 R]. exists f0. intros f F. unfold SccState.bind in *. destruct (m s) as [[a s']| | |]; try discriminate. rewrite H. auto.
Qed.
Lemma runs_rbind {A B} (a : A) (k : nat -> A -> M st B) s b s2 :
  runs (fun f => k f a) s b s2 -> runs (fun f => bind (ret a) (k f)) s b s2.
Proof. intros. eapply runs_step; [reflexivity|assumption]. Qed.

(** ** Stored strings *)
Fixpoint holds (d : arr Z) (p : Z) (w : list Z) : Prop :=
  match w with [] => aget d p = 0 | c :: w => aget d p = c /\ c <> 0 /\ holds d (p + 1) w end.
Lemma cstr_holds w : forall n d p, holds d p w -> (length w < n)%nat -> cstr n d p = Ok w.
Proof.
  induction w as [|c w IH]; intros [|n] d p H L; cbn [length] in L; try lia; cbn [holds] in H; cbn [cstr].
  - rewrite H. reflexivity.
  - destruct H as (-> & N & H). destruct (Z.eqb_spec c 0); [contradiction|]. rewrite (IH n d (p + 1) H) by lia. reflexivity.
Qed.
Lemma holds_ext w : forall d d' p, (forall j, p <= j <= p + Z.of_nat (length w) -> aget d' j = aget d j) -> holds d p w -> holds d' p w.
Proof.
  induction w as [|c w IH]; intros d d' p E H; cbn [holds length] in *.
  - rewrite E by lia. exact H.
  - destruct H as (A & N & H). split; [rewrite E by lia; exact A|]. split; [exact N|]. apply IH with d; [|exact H]. intros. apply E. lia.
Qed.
Lemma poke_below w : forall d p j, j < p -> aget (poke d p w) j = aget d j.
Proof. induction w as [|c w IH]; intros d p j H; cbn [poke]; [reflexivity|]. rewrite IH by lia. apply aget_aset_other. lia. Qed.
Lemma poke_app a : forall d p b, poke d p (a ++ b) = poke (poke d p a) (p + Z.of_nat (length a)) b.
Proof.
  induction a as [|c a IH]; intros d p b; cbn [poke app length]; [f_equal; lia|]. rewrite IH. f_equal. lia.
Qed.
Lemma poke_holds w : forall d p, Forall (fun c => c <> 0) w -> holds (poke d p (w ++ [0])) p w.
Proof.
  induction w as [|c w IH]; intros d p F; cbn [poke app holds].
  - apply aget_aset_same.
  - inversion F; subst. split; [rewrite poke_below by lia; apply aget_aset_same|]. split; [assumption|]. apply IH. assumption.
Qed.
(** a text that later tokens do not overwrite *)
Definition kept (s : st) (p : ptr) (w : list Z) : Prop :=
  match p with
  | PStr l => l = w
  | PTok q => 0 <= q /\ q + Z.of_nat (length w) + 1 <= npos s /\ holds (data s) q w
  | _ => False
  end.
(** the text of the current token *)
Definition shown (s : st) (p : ptr) (w : list Z) : Prop :=
  match p with
  | PStr l => l = w
  | PTok q => 0 <= q /\ q + Z.of_nat (length w) + 1 <= TOKEN_DATA_MAX /\ holds (data s) q w
  | _ => False
  end.
Lemma shown_str s p w : shown s p w -> str_at s p = Ok w.
Proof.
  destruct p as [|q|l| |a]; cbn [shown str_at]; try contradiction; [|congruence].
  intros (A & B & C). unfold TOKEN_DATA_MAX in *. destruct (Z.leb_spec 0 q); [|lia]. destruct (Z.ltb_spec q 2048); [|lia].
  cbn [andb]. apply cstr_holds; [exact C|lia].
Qed.
Lemma str_shown s p w : shown s p w -> str p s = Ok (w, s).
Proof. intro H. unfold str. rewrite (shown_str _ _ _ H). reflexivity. Qed.
Lemma kept_shown s p w : npos s <= TOKEN_DATA_MAX -> kept s p w -> shown s p w.
Proof. destruct p; cbn; try tauto. intros. intuition lia. Qed.

(** ** What reading a token leaves alone *)
Record keeps (s s' : st) : Prop := {
  k_cfile : cfile s' = cfile s; k_files : files s' = files s; k_npos : npos s' = npos s; k_ids : ids s' = ids s;
  k_hash : Spp.hash s' = Spp.hash s; k_queue : queue s' = queue s; k_pool : pool s' = pool s; k_free : free s' = free s;
  k_args : args s' = args s; k_nargs : nargs s' = nargs s; k_macs : macs s' = macs s; k_stack : stack s' = stack s;
  k_conds : conds s' = conds s; k_outp : outp s' = outp s;
  k_data : forall j, j < npos s -> aget (data s') j = aget (data s) j }.
Lemma keeps_refl s : keeps s s.
Proof. constructor; auto. Qed.
Lemma keeps_trans a b c : keeps a b -> keeps b c -> keeps a c.
Proof.
  intros H K. destruct H, K. constructor; try congruence. intros. rewrite k_data1 by congruence. auto.
Qed.
Lemma keeps_kept s s' p w : keeps s s' -> kept s p w -> kept s' p w.
Proof.
  intros K. destruct p as [|q|l| |a]; cbn; auto. intros (A & B & C). rewrite (k_npos _ _ K). split; [exact A|]. split; [exact B|].
  apply holds_ext with (data s); [|exact C]. intros j J. apply (k_data _ _ K). lia.
Qed.

(** ** The lexemes *)
Definition op2_type (w : list Z) : Z :=
  match w with
  | [35; 35] => TOK_HASHHASH | [61; 61] => TOK_EQEQ | [33; 61] => TOK_NOTEQ | [60; 61] => TOK_LTEQ
  | [62; 61] => TOK_GTEQ | [38; 38] => TOK_ANDAND | [124; 124] => TOK_OROR | _ => -1
  end.
Definition lex_type (x : lexeme) : Z :=
  match x with
  | Ws _ => TOK_WHITESPACE | Nl => TOK_NEWLINE | Id _ => TOK_RAW_ID | Num _ => TOK_NUM
  | Lit q _ => if q =? 34 then TOK_STRLIT else TOK_CHARLIT
  | Op w => match w with [c] => c | _ => op2_type w end
  end.
Definition word (x : lexeme) : list Z := match x with Ws _ | Nl => [] | Id w | Num w | Lit _ w | Op w => w end.
Definition has_word (x : lexeme) : bool := match x with Ws _ | Nl => false | _ => true end.

Lemma IsIdChar_wordchar c : IsIdChar c = wordchar c.
Proof. unfold IsIdChar, wordchar, digit, letter. destruct (48 <=? c), (c <=? 57), (65 <=? c), (c <=? 90), (97 <=? c), (c <=? 122), (c =? 95); reflexivity. Qed.
(** the state after the characters w, the text stored so far is extended by them *)
Definition adv (s : st) (w rest : list Z) : st :=
  set_inp (set_data s (poke (data s) (pos s) w) (pos s + Z.of_nat (length w))) rest.
Lemma adv_adv s a b r r' : adv (adv s a r) b r' = adv s (a ++ b) r'.
Proof. unfold adv. cbn. rewrite poke_app, app_length, Nat2Z.inj_add. unfold set_inp, set_data. cbn. f_equal. lia. Qed.
Lemma put_read s c rest : inp s = c :: rest -> c <> 10 -> pos s < TOKEN_DATA_MAX ->
  (put_char c;; ReadChar)%p s = Ok (tt, adv s [c] rest).
Proof.
  intros E N P. unfold put_char, ReadChar, SccState.bind, SccState.gets, SccState.upd.
  destruct (Z.ltb_spec (pos s) TOKEN_DATA_MAX); [|lia]. cbn [inp set_data]. rewrite E. cbn [cur hd tl].
  destruct (Z.eqb_spec c 10); [contradiction|]. unfold adv. cbn [length poke]. reflexivity.
Qed.
Lemma ReadToTokenData_eq s c rest : inp s = c :: rest -> c <> 10 -> pos s < TOKEN_DATA_MAX ->
  ReadToTokenData s = Ok (tt, adv s [c] rest).
Proof.
  intros E N P. unfold ReadToTokenData. unfold SccState.bind at 1, SccState.gets at 1.
  destruct (Z.ltb_spec (pos s) TOKEN_DATA_MAX); [|lia]. unfold assert. unfold SccState.bind at 1, SccState.ret at 1.
  rewrite E. cbn [cur hd]. apply put_read; assumption.
Qed.
Lemma ReadChar_eq s c rest : inp s = c :: rest -> c <> 10 -> ReadChar s = Ok (tt, set_inp s rest).
Proof. intros E N. unfold ReadChar, SccState.upd. rewrite E. cbn [cur hd tl]. destruct (Z.eqb_spec c 10); [contradiction|reflexivity]. Qed.
Lemma end_text_eq s : 0 <= pos s < TOKEN_DATA_MAX -> end_text s = Ok (tt, adv s [0] (inp s)).
Proof.
  intros P. unfold end_text, put_char, SccState.bind, SccState.gets, SccState.upd, assert.
  destruct (Z.ltb_spec (pos s) TOKEN_DATA_MAX); [|lia]. cbn. destruct (Z.ltb_spec (pos s) TOKEN_DATA_MAX); [|lia].
  unfold adv. destruct s; reflexivity.
Qed.
Lemma word_not_nl c : wordchar c = true -> c <> 10 /\ c <> 0.
Proof. unfold wordchar, digit, letter. intros H. split; intros ->; discriminate. Qed.
Lemma id_rest_runs w : forall s rest, inp s = w ++ rest -> forallb wordchar w = true -> wordchar (hd 0 rest) = false ->
  pos s + Z.of_nat (length w) <= TOKEN_DATA_MAX ->
  runs id_rest s tt (adv s w rest).
Proof.
  induction w as [|c w IH]; intros s rest E F N P.
  - eapply runs_S; [reflexivity|]. apply runs_gets. rewrite E. cbn [app cur]. rewrite IsIdChar_wordchar. unfold cur. rewrite N.
    cbn [app] in E. unfold adv. cbn [poke length]. rewrite Z.add_0_r. rewrite <- E. destruct s; apply runs_ret.
  - cbn [forallb] in F. apply andb_true_iff in F. destruct F as [F1 F2]. cbn [app length] in *.
    eapply runs_S; [reflexivity|]. apply runs_gets. rewrite E. cbn [cur hd]. rewrite IsIdChar_wordchar, F1.
    eapply (runs_group (put_char c) (fun _ => ReadChar)); [apply (put_read s c (w ++ rest)); [exact E|apply (proj1 (word_not_nl c F1))|lia]|].
    replace (adv s (c :: w) rest) with (adv (adv s [c] (w ++ rest)) w rest) by (rewrite adv_adv; reflexivity).
    apply IH; auto. cbn [adv pos set_inp set_data length]. cbn [length] in P. lia.
Qed.
Lemma ident_runs w : forall c s rest h, inp s = c :: w ++ rest -> c <> 10 -> forallb wordchar w = true -> wordchar (hd 0 rest) = false ->
  pos s + Z.of_nat (length w) + 1 <= TOKEN_DATA_MAX ->
  runs (fun f => ident f h) s tt (set_chash (adv s (c :: w) rest) (fold_left hash_step (c :: w) h)).
Proof.
  induction w as [|c' w IH]; intros c s rest h E C F N P.
  - eapply runs_S; [reflexivity|]. apply runs_gets. rewrite E. cbn [app cur hd].
    eapply (runs_group (put_char c) (fun _ => ReadChar)); [apply (put_read s c rest); [exact E|assumption|cbn [length] in P; lia]|].
    cbv zeta. apply runs_gets. cbn [adv inp set_inp]. rewrite IsIdChar_wordchar. unfold cur. rewrite N.
    apply runs_const. reflexivity.
  - cbn [forallb] in F. apply andb_true_iff in F. destruct F as [F1 F2]. cbn [app length] in *.
    eapply runs_S; [reflexivity|]. apply runs_gets. rewrite E. cbn [cur hd].
    eapply (runs_group (put_char c) (fun _ => ReadChar)); [apply (put_read s c (c' :: w ++ rest)); [exact E|assumption|lia]|].
    cbv zeta. apply runs_gets. cbn [adv inp set_inp cur hd]. rewrite IsIdChar_wordchar, F1.
    replace (adv s (c :: c' :: w) rest) with (adv (adv s [c] (c' :: w ++ rest)) (c' :: w) rest) by (rewrite adv_adv; reflexivity).
    change (fold_left hash_step (c :: c' :: w) h) with (fold_left hash_step (c' :: w) (hash_step h c)).
    apply IH; auto.
    + apply (proj1 (word_not_nl c' F1)).
    + cbn [adv pos set_inp set_data length] in *. lia.
Qed.
Lemma spaces_runs w : forall s rest, inp s = w ++ rest -> forallb blank w = true -> blank (hd 0 rest) = false -> 0 <= hd 0 rest ->
  runs spaces s tt (set_inp s rest).
Proof.
  induction w as [|c w IH]; intros s rest E F N G.
  - eapply runs_S; [reflexivity|]. apply runs_gets. rewrite E. cbn [app]. cbn [app] in E.
    assert (B : ((cur rest =? 0) || (32 <? cur rest) || (cur rest =? 10)) = true).
    { unfold blank in N. unfold cur. destruct (Z.eqb_spec (hd 0 rest) 0); [reflexivity|]. destruct (Z.eqb_spec (hd 0 rest) 10); [apply orb_true_r|].
      destruct (Z.leb_spec 1 (hd 0 rest)); [|lia]. destruct (Z.leb_spec (hd 0 rest) 32); [discriminate|].
      destruct (Z.ltb_spec 32 (hd 0 rest)); [reflexivity|lia]. }
    rewrite B. rewrite <- E. destruct s; apply runs_ret.
  - cbn [forallb] in F. apply andb_true_iff in F. destruct F as [F1 F2]. cbn [app] in *.
    eapply runs_S; [reflexivity|]. apply runs_gets. rewrite E. cbn [cur hd].
    unfold blank in F1. apply andb_true_iff in F1. destruct F1 as [F0 F1]. apply negb_true_iff in F1. apply andb_true_iff in F0.
    destruct F0 as [Fa Fb]. apply Z.leb_le in Fa, Fb. apply Z.eqb_neq in F1.
    destruct (Z.eqb_spec c 0); [lia|]. destruct (Z.ltb_spec 32 c); [lia|]. destruct (Z.eqb_spec c 10); [contradiction|]. cbn [orb].
    eapply runs_step; [apply (ReadChar_eq s c (w ++ rest) E F1)|].
    replace (set_inp s rest) with (set_inp (set_inp s (w ++ rest)) rest) by reflexivity.
    apply IH; auto.
Qed.
Lemma literal_runs q w : forall s esc rest, inp s = w ++ q :: rest -> literal_ok q esc w = true -> pos s + Z.of_nat (length w) <= TOKEN_DATA_MAX ->
  runs (fun f => literal f q esc) s true (adv s w (q :: rest)).
Proof.
  induction w as [|c w IH]; intros s esc rest E L P; cbn [literal_ok] in L.
  - apply negb_true_iff in L. subst esc. eapply runs_S; [reflexivity|]. apply runs_gets. rewrite E. cbn [app cur hd].
    rewrite Z.eqb_refl. cbn [orb negb]. unfold adv. cbn [poke length]. rewrite Z.add_0_r. cbn [app] in E. rewrite <- E. destruct s; apply runs_ret.
  - apply andb_true_iff in L. destruct L as [L L2]. apply andb_true_iff in L. destruct L as [L L1].
    apply andb_true_iff in L. destruct L as [L N]. apply andb_true_iff in L. destruct L as [A B]. apply negb_true_iff in N.
    apply Z.leb_le in A, B. apply Z.eqb_neq in N. cbn [app length] in *.
    eapply runs_S; [reflexivity|]. apply runs_gets. rewrite E. cbn [cur hd]. rewrite L1.
    destruct (Z.eqb_spec c 0); [lia|]. destruct (Z.eqb_spec c 10); [lia|]. cbn [orb].
    eapply runs_step; [apply (ReadToTokenData_eq s c (w ++ q :: rest)); [exact E|exact N|lia]|].
    replace (adv s (c :: w) (q :: rest)) with (adv (adv s [c] (w ++ q :: rest)) w (q :: rest)) by (rewrite adv_adv; reflexivity).
    apply IH; auto. cbn [adv pos set_inp set_data length]. lia.
Qed.

(** ** One lexeme *)
Record got (s s' : st) (x : lexeme) (rest : list Z) : Prop := {
  g_keeps : keeps s s'; g_inp : inp s' = rest; g_pos : pos s' = npos s + size x; g_type : t_type (tok s') = lex_type x;
  g_text : t_text (tok s') = PTok (npos s); g_word : has_word x = true -> holds (data s') (npos s) (word x);
  g_hash : forall w, x = Id w -> chash s' = hash_str w }.
(** the state after Restart *)
Definition restarted (s : st) : st := set_tok (set_data s (data s) (npos s)) (mktok (t_type (tok s)) (PTok (npos s))).
Ltac closed_ifs := repeat match goal with |- context [if ?b then _ else _] =>
  let v := eval vm_compute in b in (match v with true => idtac | false => idtac end); change b with v; cbv iota end.
Ltac nz_word := apply Forall_forall; let c := fresh "c" in let H := fresh "H" in intros c H.

Lemma got_word s x ty w rest h : 0 <= npos s -> has_word x = true -> word x = w -> lex_type x = ty -> size x = Z.of_nat (length w) + 1 ->
  Forall (fun c => c <> 0) w -> (forall w', x = Id w' -> h = hash_str w') ->
  got s (set_chash (adv (set_tok (restarted s) (mktok ty (PTok (npos s)))) (w ++ [0]) rest) h) x rest.
Proof.
  intros N H1 H2 H3 H4 F HH. constructor; cbn [set_chash adv set_inp set_data set_tok restarted inp pos data tok t_type t_text npos chash]; auto.
  - constructor; try reflexivity. intros j J. cbn. apply poke_below. exact J.
  - rewrite app_length. cbn [length]. lia.
  - intros _. rewrite H2. apply poke_holds. exact F.
Qed.
Lemma chash_same s : set_chash s (chash s) = s. Proof. destruct s; reflexivity. Qed.

Lemma raw_ws s l rest : inp s = l ++ rest -> wf_lexeme (Ws l) = true -> blank (hd 0 rest) = false -> 0 <= hd 0 rest -> 0 <= npos s ->
  exists s', runs raw_file s tt s' /\ got s s' (Ws l) rest.
Proof.
  intros E WF B G N. cbn [wf_lexeme] in WF. apply andb_true_iff in WF. destruct WF as [W1 W2].
  destruct l as [|c l]; [discriminate|]. cbn [forallb] in W2. apply andb_true_iff in W2. destruct W2 as [W2 W3].
  unfold blank in W2. apply andb_true_iff in W2. destruct W2 as [W0 W2]. apply negb_true_iff in W2. apply andb_true_iff in W0.
  destruct W0 as [Wa Wb]. apply Z.leb_le in Wa, Wb. apply Z.eqb_neq in W2. cbn [app] in E.
  eexists. split.
  - eapply runs_S; [reflexivity|]. apply runs_upd. apply runs_gets. cbn [inp set_tok set_data]. rewrite E. cbn [cur hd].
    destruct (Z.eqb_spec c 10); [lia|]. destruct (Z.eqb_spec c 47); [lia|]. destruct (Z.eqb_spec c 92); [lia|].
    destruct (Z.eqb_spec c 34); [lia|]. destruct (Z.eqb_spec c 39); [lia|]. destruct (Z.eqb_spec c 0); [lia|].
    destruct (Z.eqb_spec c 95); [lia|]. destruct (Z.leb_spec c 32); [|lia]. cbn [orb].
    unfold set_type. apply runs_upd. eapply runs_step; [eapply ReadChar_eq with (c := c); [cbn; exact E|exact W2]|].
    apply spaces_runs with (w := l) (rest := rest); auto.
  - constructor; cbn; auto; try discriminate; [constructor; reflexivity|lia].
Qed.
Lemma raw_nl s rest : inp s = 10 :: rest -> 0 <= npos s -> exists s', runs raw_file s tt s' /\ got s s' Nl rest.
Proof.
  intros E N. eexists. split.
  - eapply runs_S; [reflexivity|]. apply runs_upd. apply runs_gets. cbn [inp set_tok set_data]. rewrite E. cbn [cur hd].
    change (10 =? 10) with true. cbv iota. unfold set_type. apply runs_upd. apply runs_const. unfold ReadChar, SccState.upd. cbn [inp set_tok set_data].
    rewrite E. cbn [cur hd tl]. reflexivity.
  - constructor; cbn; auto; try discriminate; [constructor; reflexivity|lia].
Qed.
Lemma letter_first c : letter c = true -> c <> 10 /\ c <> 47 /\ c <> 92 /\ c <> 34 /\ c <> 39 /\ c <> 0 /\ (c <> 95 -> 32 < c /\ 65 <= c /\ Z.land c 0xDF <= 90).
Proof.
  unfold letter. intro H.
  assert (B : forallb (fun c => negb (letter c) || (Z.land c 0xDF <=? 90) || (c =? 95)) (map Z.of_nat (seq 0 128)) = true) by (vm_compute; reflexivity).
  repeat split; try (intros ->; discriminate); intros; try (destruct (Z.leb_spec 65 c), (Z.leb_spec 97 c), (Z.eqb_spec c 95); cbn in H; try lia; discriminate).
  rewrite forallb_forall in B. specialize (B c). rewrite in_map_iff in B.
  assert (I : exists x, Z.of_nat x = c /\ In x (seq 0 128)).
  { exists (Z.to_nat c). split; [|apply in_seq]; destruct (Z.leb_spec 65 c), (Z.leb_spec c 90), (Z.leb_spec 97 c), (Z.leb_spec c 122), (Z.eqb_spec c 95); cbn in H; try lia; discriminate. }
  specialize (B I). unfold letter in B. rewrite H in B. cbn in B. destruct (Z.leb_spec (Z.land c 223) 90); [assumption|].
  destruct (Z.eqb_spec c 95); [contradiction|discriminate].
Qed.
Lemma wordchars_nz w : forallb wordchar w = true -> Forall (fun c => c <> 0) w.
Proof. intro H. apply Forall_forall. intros c I. rewrite forallb_forall in H. apply (proj2 (word_not_nl c (H c I))). Qed.
Lemma letter_word c : letter c = true -> wordchar c = true.
Proof. unfold wordchar. intros ->. apply orb_true_r. Qed.
Lemma raw_id s w rest : inp s = w ++ rest -> wf_lexeme (Id w) = true -> wordchar (hd 0 rest) = false -> 0 <= npos s ->
  npos s + size (Id w) <= TOKEN_DATA_MAX ->
  exists s', runs raw_file s tt s' /\ got s s' (Id w) rest.
Proof.
  intros E WF B N P. cbn [wf_lexeme] in WF. destruct w as [|c w]; [discriminate|]. apply andb_true_iff in WF. destruct WF as [W1 W2].
  cbn [app size length] in *. destruct (letter_first c W1) as (C1 & C2 & C3 & C4 & C5 & C6 & C7).
  eexists. split; [|eapply got_word with (ty := TOK_RAW_ID) (w := c :: w) (h := hash_str (c :: w)); try reflexivity; auto].
  - assert (R : runs (fun f => bind (set_type TOK_RAW_ID) (fun _ => bind (ident f 0) (fun _ => end_text))) (restarted s) tt
        (set_chash (adv (set_tok (restarted s) (mktok TOK_RAW_ID (PTok (npos s)))) ((c :: w) ++ [0]) rest) (hash_str (c :: w)))).
    { unfold set_type. apply runs_upd. eapply (runs_bind (fun f => ident f 0) (fun _ _ => end_text)).
      - apply (ident_runs w c _ rest 0); auto. cbn. lia.
      - apply runs_const. rewrite end_text_eq by (cbn [set_chash adv pos set_inp set_data set_tok restarted length]; lia).
        do 2 f_equal. cbn [set_chash adv inp set_inp]. rewrite <- (adv_adv _ _ [0] rest). reflexivity. }
    eapply runs_S; [reflexivity|]. apply runs_upd. apply runs_gets. cbn [inp set_tok set_data]. rewrite E. cbn [cur hd].
    destruct (Z.eqb_spec c 10); [lia|]. destruct (Z.eqb_spec c 47); [lia|]. destruct (Z.eqb_spec c 92); [lia|].
    destruct (Z.eqb_spec c 34); [lia|]. destruct (Z.eqb_spec c 39); [lia|]. destruct (Z.eqb_spec c 0); [lia|]. cbn [orb].
    destruct (Z.eqb_spec c 95); [exact R|]. destruct (C7 n5) as (D1 & D2 & D3).
    destruct (Z.leb_spec c 32); [lia|]. destruct (Z.ltb_spec c 65); [lia|]. destruct (Z.leb_spec (Z.land c 0xDF) 90); [exact R|lia].
  - constructor; [exact C6|apply wordchars_nz; exact W2].
  - intros w' [= <-]. reflexivity.
Qed.
Lemma raw_num s w rest : inp s = w ++ rest -> wf_lexeme (Num w) = true -> wordchar (hd 0 rest) = false -> 0 <= npos s ->
  npos s + size (Num w) <= TOKEN_DATA_MAX ->
  exists s', runs raw_file s tt s' /\ got s s' (Num w) rest.
Proof.
  intros E WF B N P. cbn [wf_lexeme] in WF. destruct w as [|c w]; [discriminate|]. apply andb_true_iff in WF. destruct WF as [W1 W2].
  cbn [app size length] in *. assert (C : 48 <= c <= 57) by (unfold digit in W1; apply andb_true_iff in W1; destruct W1 as [A1 A2]; apply Z.leb_le in A1, A2; lia).
  eexists. split; [|eapply got_word with (ty := TOK_NUM) (w := c :: w) (h := chash s); try reflexivity; auto].
  - eapply runs_S; [reflexivity|]. apply runs_upd. apply runs_gets. cbn [inp set_tok set_data]. rewrite E. cbn [cur hd].
    destruct (Z.eqb_spec c 10); [lia|]. destruct (Z.eqb_spec c 47); [lia|]. destruct (Z.eqb_spec c 92); [lia|].
    destruct (Z.eqb_spec c 34); [lia|]. destruct (Z.eqb_spec c 39); [lia|]. destruct (Z.eqb_spec c 0); [lia|]. cbn [orb].
    destruct (Z.eqb_spec c 95); [lia|]. destruct (Z.leb_spec c 32); [lia|]. destruct (Z.ltb_spec c 65); [|lia].
    destruct (Z.leb_spec 48 c); [|lia]. destruct (Z.leb_spec c 57); [|lia]. cbn [andb].
    unfold set_type. apply runs_upd. eapply runs_step; [apply (ReadToTokenData_eq _ c (w ++ rest)); [cbn; exact E|lia|cbn; lia]|].
    apply runs_gets. set (s1 := adv _ [c] (w ++ rest)).
    assert (TAIL : forall s2 v, inp s2 = v ++ rest -> forallb wordchar v = true -> 0 <= pos s2 -> pos s2 + Z.of_nat (length v) < TOKEN_DATA_MAX ->
       runs (fun f => bind (id_rest f) (fun _ => end_text)) s2 tt (adv s2 (v ++ [0]) rest)).
    { intros s2 v E2 F2 P0 P2. eapply (runs_bind id_rest (fun _ _ => end_text)); [apply (id_rest_runs v s2 rest); auto; lia|].
      apply runs_const. rewrite end_text_eq by (cbn; lia). cbn [adv inp set_inp]. do 2 f_equal. rewrite <- (adv_adv s2 v [0] rest). reflexivity. }
    assert (FIN : adv s1 (w ++ [0]) rest = set_chash (adv (set_tok (restarted s) (mktok TOK_NUM (PTok (npos s)))) ((c :: w) ++ [0]) rest) (chash s)).
    { unfold s1. rewrite adv_adv. reflexivity. }
    assert (P1 : pos s1 = npos s + 1) by reflexivity.
    destruct ((cur (inp s1) =? 120) || (cur (inp s1) =? 88)) eqn:X; cbn [SccState.when].
    + destruct w as [|x w].
      * exfalso. cbn [app] in s1. unfold s1 in X. cbn [adv inp set_inp] in X. unfold cur in X.
        apply orb_true_iff in X. destruct X as [X|X]; apply Z.eqb_eq in X; rewrite X in B; discriminate.
      * cbn [forallb] in W2. apply andb_true_iff in W2. destruct W2 as [V1 V2].
        eapply runs_step; [apply (ReadToTokenData_eq s1 x (w ++ rest)); [reflexivity|apply (proj1 (word_not_nl x V1))|cbn [length] in *; lia]|].
        rewrite <- FIN. replace (adv s1 ((x :: w) ++ [0]) rest) with (adv (adv s1 [x] (w ++ rest)) (w ++ [0]) rest) by (rewrite adv_adv; reflexivity).
        apply TAIL; auto; cbn [adv pos set_inp set_data length] in *; lia.
    + apply runs_rbind. rewrite <- FIN. apply TAIL; auto; lia.
  - constructor; [lia|apply wordchars_nz; exact W2].
  - discriminate.
Qed.
Lemma literal_nz q w : forall e, literal_ok q e w = true -> Forall (fun c => c <> 0) w.
Proof.
  induction w as [|c w IH]; intros e H; [constructor|]. cbn [literal_ok] in H. repeat (apply andb_true_iff in H; destruct H as [H ?]).
  constructor; [intros ->; discriminate|]. eapply IH. eassumption.
Qed.
Lemma raw_lit s q w rest : inp s = q :: w ++ q :: rest -> wf_lexeme (Lit q w) = true -> 0 <= npos s ->
  npos s + size (Lit q w) <= TOKEN_DATA_MAX ->
  exists s', runs raw_file s tt s' /\ got s s' (Lit q w) rest.
Proof.
  intros E WF N P. cbn [wf_lexeme] in WF. apply andb_true_iff in WF. destruct WF as [W1 W2]. cbn [size] in P.
  assert (Q : q = 34 \/ q = 39) by (destruct (Z.eqb_spec q 34); [auto|]; destruct (Z.eqb_spec q 39); [auto|discriminate]).
  set (ty := if q =? 34 then TOK_STRLIT else TOK_CHARLIT).
  eexists. split; [|eapply got_word with (ty := ty) (w := w) (h := chash s); try reflexivity; auto].
  - eapply runs_S; [reflexivity|]. apply runs_upd. apply runs_gets. cbn [inp set_tok set_data]. rewrite E. cbn [cur hd].
    destruct (Z.eqb_spec q 10); [lia|]. destruct (Z.eqb_spec q 47); [lia|]. destruct (Z.eqb_spec q 92); [lia|]. rewrite W1.
    eapply runs_step; [apply (ReadChar_eq _ q (w ++ q :: rest)); [cbn; exact E|lia]|].
    unfold set_type. apply runs_upd. fold ty. set (s1 := set_tok _ _).
    eapply (runs_bind (fun f => literal f q false)); [apply (literal_runs q w s1 false rest); [reflexivity|exact W2|unfold s1; cbn; lia]|].
    cbv iota. eapply runs_step; [apply (ReadChar_eq _ q rest); [reflexivity|lia]|].
    apply runs_const. rewrite end_text_eq by (unfold s1; cbn; lia). do 2 f_equal.
    replace (set_chash (adv (set_tok (restarted s) (mktok ty (PTok (npos s)))) (w ++ [0]) rest) (chash s)) with (adv s1 (w ++ [0]) rest) by reflexivity.
    rewrite <- (adv_adv s1 w [0] (q :: rest)). reflexivity.
  - apply literal_nz with q false. exact W2.
  - discriminate.
Qed.
Lemma singles_cases c : existsb (Z.eqb c) singles = true -> In c singles.
Proof. rewrite existsb_exists. intros (x & I & E). apply Z.eqb_eq in E. congruence. Qed.
Lemma raw_op1 s c rest : inp s = c :: rest -> existsb (Z.eqb c) singles = true -> ends_before (Op [c]) (hd 0 rest) = true -> 0 <= npos s ->
  npos s + size (Op [c]) <= TOKEN_DATA_MAX ->
  exists s', runs raw_file s tt s' /\ got s s' (Op [c]) rest.
Proof.
  intros E I B N P. apply singles_cases in I. cbn [size length] in P. change (Z.of_nat 1) with 1 in P.
  assert (CNZ : c <> 0) by (intros ->; revert I; vm_compute; intuition discriminate).
  assert (CNL : c <> 10) by (intros ->; revert I; vm_compute; intuition discriminate).
  exists (set_chash (adv (set_tok (restarted s) (mktok c (PTok (npos s)))) ([c] ++ [0]) rest) (chash s)). split.
  2: { eapply got_word; try reflexivity; auto; try discriminate. }
  destruct (Z.eqb_spec c 47) as [->|N47].
  - eapply runs_S; [reflexivity|]. apply runs_upd. apply runs_gets. cbn [inp set_tok set_data]. rewrite E. cbn [cur hd]. closed_ifs.
    eapply runs_step; [apply (ReadChar_eq _ 47 rest); [cbn; exact E|lia]|]. apply runs_gets. cbn [inp set_inp]. unfold cur.
    cbn [ends_before] in B. apply andb_true_iff in B. destruct B as [_ B]. change (47 =? 47) with true in B. cbn [andb] in B. apply negb_true_iff in B.
    apply orb_false_iff in B. destruct B as [B1 B2]. rewrite B1, B2. unfold set_type. apply runs_upd.
    apply (runs_step _ (fun _ _ => (put_char 47;; end_text)%p) _ tt (set_tok (set_inp (restarted s) rest) (mktok 47 (PTok (npos s))))).
    { unfold SccState.bind, SccState.gets, assert. cbn [pos set_tok set_inp set_data restarted]. destruct (Z.ltb_spec (npos s) TOKEN_DATA_MAX); [reflexivity|lia]. }
    apply runs_const. unfold put_char, SccState.bind, SccState.gets, SccState.upd. cbn [pos set_tok set_inp set_data t_text tok restarted].
    destruct (Z.ltb_spec (npos s) TOKEN_DATA_MAX); [|lia]. cbn beta iota. rewrite end_text_eq by (cbn; lia). do 2 f_equal.
    unfold adv. cbn. change (Z.of_nat 1) with 1. change (Z.of_nat 2) with 2. unfold set_inp, set_data, set_chash, set_tok. cbn. f_equal. lia.
  - assert (D : forall f, raw_file (S f) s = operator c (restarted s)).
    { intro f. cbn [raw_file]. unfold SccState.bind at 1, SccState.upd at 1. unfold SccState.bind at 1, SccState.gets at 1. fold (restarted s).
      replace (cur (inp (restarted s))) with c by (cbn; rewrite E; reflexivity). clear E B N P CNZ CNL. revert I N47. clear rest. generalize (restarted s). intros s0 I N47.
      vm_compute in I. repeat (destruct I as [<-|I]; [try reflexivity; contradiction|]). destruct I. }
    apply runs_S_eq with (fun _ => operator c) (restarted s); [exact D|]. apply runs_const.
    unfold operator, set_type. unfold SccState.bind at 1, SccState.upd at 1. cbn [t_text tok restarted set_tok].
    set (s1 := set_tok _ _). rewrite (bind_eq _ _ _ _ _ (ReadToTokenData_eq s1 c rest E CNL ltac:(cbn; lia))).
    assert (T : forall ch t, (if in_dec (list_eq_dec Z.eq_dec) [c; hd 0 rest] doubles then false else true) = true -> In [c; ch] doubles ->
       TryExtendOp ch t (adv s1 [c] rest) = Ok (tt, adv s1 [c] rest)).
    { intros ch t A A'. unfold TryExtendOp, SccState.bind, SccState.gets. cbn [adv inp set_inp]. unfold cur.
      destruct (Z.eqb_spec (hd 0 rest) ch) as [X|X]; [|reflexivity]. rewrite X in A. destruct (in_dec _ _ _) as [|X']; [discriminate|contradiction]. }
    cbn [ends_before] in B. apply andb_true_iff in B. destruct B as [B _].
    assert (FIN : end_text (adv s1 [c] rest) = Ok (tt, set_chash (adv (set_tok (restarted s) (mktok c (PTok (npos s)))) ([c] ++ [0]) rest) (chash s))).
    { rewrite end_text_eq by (cbn; lia). do 2 f_equal. cbn [adv inp set_inp]. rewrite <- (adv_adv s1 [c] [0] rest). reflexivity. }
    unfold SccState.bind.
    assert (IN : forall ch, word_eq [c; ch] [c;ch] = true) by (intro; unfold word_eq; destruct (list_eq_dec _ _ _); congruence).
    clear IN D. revert T B FIN. clear P E CNZ CNL. generalize (adv s1 [c] rest). intros s2 T B FIN.
    vm_compute in I. 
    repeat (destruct I as [<-|I]; [closed_ifs; first [rewrite T by (first [exact B|vm_compute; tauto]); exact FIN | cbn [SccState.ret]; exact FIN | contradiction]|]). destruct I.
Qed.
Lemma raw_op2 s w rest : inp s = w ++ rest -> In w doubles -> 0 <= npos s ->
  npos s + size (Op w) <= TOKEN_DATA_MAX ->
  exists s', runs raw_file s tt s' /\ got s s' (Op w) rest.
Proof.
  intros E I N P. cbn [size] in P.
  assert (W : exists c d t, w = [c; d] /\ lex_type (Op w) = t /\ c <> 10 /\ d <> 10 /\ c <> 0 /\ d <> 0 /\
    (forall f s0, inp s0 = c :: d :: rest -> raw_file (S f) s0 = operator c (restarted s0)) /\
    (forall s0, operator c s0 = (set_type c;; ReadToTokenData;; TryExtendOp d t;; end_text)%p s0)).
  { vm_compute in I. repeat (destruct I as [<-|I]; [do 3 eexists; split; [reflexivity|]; split; [reflexivity|]; repeat (split; [discriminate|]); split;
      [intros f s0 E0; cbn [raw_file]; unfold SccState.bind at 1, SccState.upd at 1; unfold SccState.bind at 1, SccState.gets at 1; fold (restarted s0);
       replace (cur (inp (restarted s0))) with (cur (inp s0)) by reflexivity; rewrite E0; reflexivity | intros s0; reflexivity]|]). destruct I. }
  destruct W as (c & d & t & -> & T & C1 & D1 & C2 & D2 & R & O). cbn [app length] in *.
  exists (set_chash (adv (set_tok (restarted s) (mktok t (PTok (npos s)))) ([c; d] ++ [0]) rest) (chash s)). split.
  2: { eapply got_word; try reflexivity; auto; try discriminate. }
  apply runs_S_eq with (fun _ => operator c) (restarted s); [intro f; exact (R f s E)|]. apply runs_const. rewrite O.
  unfold set_type. unfold SccState.bind at 1, SccState.upd at 1. cbn [t_text tok restarted set_tok]. set (s1 := set_tok _ _).
  rewrite (bind_eq _ _ _ _ _ (ReadToTokenData_eq s1 c (d :: rest) E C1 ltac:(cbn; lia))).
  set (s3 := set_tok (restarted s) (mktok t (PTok (npos s)))).
  assert (P2 : pos s1 = npos s) by reflexivity. assert (P3 : pos s3 = npos s) by reflexivity.
  change (Z.of_nat 2) with 2 in P.
  assert (T2 : TryExtendOp d t (adv s1 [c] (d :: rest)) = Ok (tt, adv s3 [c; d] rest)).
  { unfold TryExtendOp. unfold SccState.bind at 1, SccState.gets at 1. change (cur (inp (adv s1 [c] (d :: rest)))) with d. rewrite Z.eqb_refl. cbn [SccState.when].
    assert (PP : pos (adv s1 [c] (d :: rest)) < TOKEN_DATA_MAX).
    { change (pos (adv s1 [c] (d :: rest))) with (pos s1 + 1). lia. }
    rewrite (bind_eq _ _ _ _ _ (ReadToTokenData_eq (adv s1 [c] (d :: rest)) d rest eq_refl D1 PP)). rewrite adv_adv. reflexivity. }
  rewrite (bind_eq _ _ _ _ _ T2). rewrite end_text_eq.
  2: { change (pos (adv s3 [c; d] rest)) with (pos s3 + 2). lia. }
  change (inp (adv s3 [c; d] rest)) with rest. rewrite adv_adv. reflexivity.
Qed.
Lemma doubles_not_single w : wf_lexeme (Op w) = true -> (exists c, w = [c] /\ existsb (Z.eqb c) singles = true) \/ In w doubles.
Proof.
  cbn [wf_lexeme]. destruct w as [|c [|d w]]; [|left; exists c; auto|].
  - destruct (in_dec _ _ _); [auto|discriminate].
  - right. destruct (in_dec _ _ _); [auto|discriminate].
Qed.
Lemma raw_lex s x rest : inp s = text x ++ rest -> wf_lexeme x = true -> ends_before x (hd 0 rest) = true -> 0 <= hd 0 rest ->
  0 <= npos s -> npos s + size x <= TOKEN_DATA_MAX -> exists s', runs raw_file s tt s' /\ got s s' x rest.
Proof.
  intros E W B G N P. destruct x as [l| |w|w|q w|w]; cbn [text ends_before] in *.
  - apply raw_ws; auto. apply negb_true_iff. exact B.
  - apply raw_nl; auto.
  - apply raw_id; auto. apply negb_true_iff. exact B.
  - apply raw_num; auto. apply negb_true_iff. exact B.
  - apply raw_lit; auto. rewrite E. cbn [app]. rewrite <- app_assoc. reflexivity.
  - destruct (doubles_not_single w W) as [(c & -> & S)|D]; [apply raw_op1; auto|apply raw_op2; auto].
Qed.
