(** The identifier table of scpp.c: open addressing with linear probing finds every name that was
    added, and only those. *)
From Coq Require Import ZArith List Bool Lia String.
From Verif Require Import Base Spp SppSpec SppLex.
From Verif Require SccState.
Import ListNotations.
Open Scope Z_scope.
Open Scope p_scope.

Fixpoint index_of (w : list Z) (ns : list (list Z)) : option nat :=
  match ns with
  | [] => None
  | n :: r => if word_eq n w then Some O else option_map S (index_of w r)
  end.
Lemma word_eq_true a b : word_eq a b = true <-> a = b.
Proof. unfold word_eq. destruct (list_eq_dec Z.eq_dec a b); split; congruence. Qed.
Lemma word_eq_false a b : word_eq a b = false <-> a <> b.
Proof. unfold word_eq. destruct (list_eq_dec Z.eq_dec a b); split; congruence. Qed.
Lemma index_of_some w ns : forall i, index_of w ns = Some i -> nth_error ns i = Some w.
Proof.
  induction ns as [|n r IH]; cbn; intros i H; [discriminate|]. destruct (word_eq n w) eqn:E.
  - apply word_eq_true in E. injection H as <-. cbn. congruence.
  - destruct (index_of w r) as [j|]; [|discriminate]. injection H as <-. cbn. auto.
Qed.
Lemma index_of_none w ns : index_of w ns = None -> ~ In w ns.
Proof.
  induction ns as [|n r IH]; cbn; intros H; [tauto|]. destruct (word_eq n w) eqn:E; [discriminate|]. apply word_eq_false in E.
  destruct (index_of w r) as [j|]; [discriminate|]. intros [X|X]; [congruence|]. apply IH; auto.
Qed.
Lemma leq_true a : forall b, leq a b = true <-> a = b.
Proof.
  induction a as [|x a IH]; intros [|y b]; cbn [leq]; try (split; congruence).
  rewrite andb_true_iff, Z.eqb_eq, IH. split; [intros [-> ->]; reflexivity|intros [= -> ->]; auto].
Qed.
Definition slot (h : arr Z) (k : Z) : Z := aget h (k mod 128).
Record table (ns : list (list Z)) (h : arr Z) : Prop := {
  t_nodup : NoDup ns;
  t_len : (length ns <= 32)%nat;
  t_range : forall k, slot h k = -1 \/ 0 <= slot h k < Z.of_nat (length ns);
  t_inj : forall k1 k2, slot h k1 <> -1 -> slot h k1 = slot h k2 -> k1 mod 128 = k2 mod 128;
  t_path : forall i w, nth_error ns i = Some w -> exists d, 0 <= d < 128 /\
             slot h (hash_str w + d) = Z.of_nat i /\ forall x, 0 <= x < d -> slot h (hash_str w + x) <> -1 }.
Lemma slot_eq h a b : a mod 128 = b mod 128 -> slot h a = slot h b.
Proof. unfold slot. intros ->. reflexivity. Qed.
Lemma shift_inj home x y : 0 <= x < 128 -> 0 <= y < 128 -> (home + x) mod 128 = (home + y) mod 128 -> x = y.
Proof.
  intros Hx Hy E. apply (f_equal (fun z => (z - home) mod 128)) in E. rewrite !Zminus_mod_idemp_l in E.
  replace (home + x - home) with x in E by lia. replace (home + y - home) with y in E by lia.
  rewrite !Z.mod_small in E by lia. exact E.
Qed.
Lemma NoDup_map_inj {A B} (f : A -> B) l : (forall x y, In x l -> In y l -> f x = f y -> x = y) -> NoDup l -> NoDup (map f l).
Proof.
  intros I N. induction N as [|x l NI N IH]; cbn; constructor.
  - intro H. apply in_map_iff in H. destruct H as (y & E & Hy). apply NI. rewrite <- (I y x); cbn; auto.
  - apply IH. intros y z Hy Hz. apply I; right; assumption.
Qed.
Lemma some_empty ns h home : table ns h ->
  exists e, 0 <= e < 128 /\ slot h (home + e) = -1 /\ forall x, 0 <= x < e -> slot h (home + x) <> -1.
Proof.
  intros T. pose proof (t_len _ _ T) as L.
  assert (G : forall n : nat, (n <= 128)%nat ->
      (exists e, 0 <= e < Z.of_nat n /\ slot h (home + e) = -1 /\ forall x, 0 <= x < e -> slot h (home + x) <> -1)
      \/ forall x, 0 <= x < Z.of_nat n -> slot h (home + x) <> -1).
  { induction n as [|n IH]; intro H; [right; lia|].
    destruct IH as [(e & He & E1 & E2)|E]; [lia|left; exists e; split; [lia|auto]|].
    destruct (Z.eq_dec (slot h (home + Z.of_nat n)) (-1)) as [Z1|N1].
    - left. exists (Z.of_nat n). split; [lia|auto].
    - right. intros x Hx. destruct (Z.eq_dec x (Z.of_nat n)) as [->|]; [exact N1|]. apply E. lia. }
  destruct (G 128%nat) as [(e & He & E1 & E2)|D]; [lia|exists e; split; [lia|auto]|exfalso].
  set (idx := map (fun k => slot h (home + Z.of_nat k)) (seq 0 128)).
  assert (ND : NoDup idx).
  { unfold idx. apply NoDup_map_inj; [|apply seq_NoDup].
    intros x y Hx Hy E. apply in_seq in Hx, Hy. apply (t_inj _ _ T) in E; [|apply D; lia]. apply shift_inj in E; lia. }
  assert (IN : incl idx (map Z.of_nat (seq 0 (length ns)))).
  { intros v Hv. unfold idx in Hv. apply in_map_iff in Hv. destruct Hv as (k & <- & Hk). apply in_seq in Hk.
    destruct (t_range _ _ T (home + Z.of_nat k)) as [E|E]; [exfalso; revert E; apply D; lia|].
    apply in_map_iff. exists (Z.to_nat (slot h (home + Z.of_nat k))). split; [lia|]. apply in_seq. lia. }
  pose proof (NoDup_incl_length ND IN) as LL. unfold idx in LL. rewrite !map_length, !seq_length in LL. lia.
Qed.
Lemma nth_error_app_end {A} (l : list A) x i y : nth_error (l ++ [x]) i = Some y ->
  nth_error l i = Some y \/ (i = length l /\ y = x).
Proof.
  intro H. destruct (Nat.lt_ge_cases i (length l)) as [Lt|Ge].
  - left. rewrite nth_error_app1 in H by exact Lt. exact H.
  - right. rewrite nth_error_app2 in H by exact Ge.
    destruct (i - length l)%nat as [|j] eqn:E; cbn in H; [|destruct j; discriminate].
    injection H as ->. split; [lia|reflexivity].
Qed.
Lemma table_add ns h w e : table ns h -> ~ In w ns -> (length ns < 32)%nat ->
  0 <= e < 128 -> slot h (hash_str w + e) = -1 -> (forall x, 0 <= x < e -> slot h (hash_str w + x) <> -1) ->
  table (ns ++ [w]) (aset h ((hash_str w + e) mod 128) (Z.of_nat (length ns))).
Proof.
  intros T NI L He E1 E2.
  set (n := Z.of_nat (length ns)) in *. set (hh := hash_str w) in *. set (h' := aset _ _ _).
  assert (SL : forall k, slot h' k = if Z.eq_dec (k mod 128) ((hh + e) mod 128) then n else slot h k).
  { intro k. unfold slot, h'. destruct (Z.eq_dec (k mod 128) ((hh + e) mod 128)) as [->|N].
    - apply aget_aset_same.
    - apply aget_aset_other. congruence. }
  assert (OLD : forall k, slot h k <> -1 -> slot h' k = slot h k).
  { intros k Hk. rewrite SL. destruct (Z.eq_dec (k mod 128) ((hh + e) mod 128)) as [E|]; [|reflexivity].
    exfalso. apply Hk. rewrite (slot_eq h _ _ E). exact E1. }
  split.
  - pose proof (NoDup_rev (t_nodup _ _ T)). rewrite <- rev_involutive. apply NoDup_rev. rewrite rev_app_distr. cbn.
    constructor; [rewrite <- in_rev; exact NI|assumption].
  - rewrite app_length. cbn [length]. lia.
  - intro k. rewrite SL, app_length. cbn [length]. destruct (Z.eq_dec _ _); [right; lia|].
    destruct (t_range _ _ T k); [auto|right; lia].
  - intros k1 k2. rewrite !SL. destruct (Z.eq_dec (k1 mod 128) ((hh + e) mod 128)), (Z.eq_dec (k2 mod 128) ((hh + e) mod 128)); intros A B.
    + congruence.
    + destruct (t_range _ _ T k2); lia.
    + destruct (t_range _ _ T k1); lia.
    + apply (t_inj _ _ T); auto.
  - intros i s Hi. apply nth_error_app_end in Hi. destruct Hi as [Hi|[-> ->]].
    + destruct (t_path _ _ T i s Hi) as (d & Hd & D1 & D2). exists d. split; [exact Hd|]. split.
      * rewrite OLD; [exact D1|]. lia.
      * intros x Hx. rewrite OLD; auto.
    + exists e. split; [exact He|]. split.
      * rewrite SL. destruct (Z.eq_dec _ _); [reflexivity|contradiction].
      * intros x Hx. rewrite OLD; auto.
Qed.
Lemma table_empty : table [] (mkarr (-1) Leaf).
Proof.
  assert (E : forall k, slot (mkarr (-1) Leaf) k = -1) by (intro; apply (aget_init (-1))).
  split.
  - constructor.
  - cbn. lia.
  - intro. left. apply E.
  - intros k1 k2 H. rewrite E in H. lia.
  - intros [|i] w H; discriminate.
Qed.

(** ** The functions *)
Lemma hash_range w h : 0 <= h < 128 -> 0 <= fold_left hash_step w h < 128.
Proof.
  revert h. induction w as [|c w IH]; intros h H; cbn [fold_left]; [exact H|]. apply IH. unfold hash_step, ID_HASH_MAX. apply Z.mod_pos_bound. lia.
Qed.
Lemma hash_str_range w : 0 <= hash_str w < 128.
Proof. apply hash_range. lia. Qed.
Lemma free_slot_spec h home e : forall k x, slot h (home + e) = -1 -> (forall y, 0 <= y < e -> 0 <= slot h (home + y) < 32) ->
  0 <= x -> x + Z.of_nat k = e -> forall n, free_slot (k + S n) h (home + x) = Ok ((home + e) mod 128).
Proof.
  induction k as [|k IH]; intros x E1 E2 X K n; cbn [Nat.add free_slot]; unfold ID_HASH_MAX; fold (slot h (home + x)).
  - assert (x = e) by lia. subst x. rewrite E1. cbn. reflexivity.
  - pose proof (E2 x ltac:(lia)) as R. unfold ID_MAX. destruct (Z.leb_spec 0 (slot h (home + x))); [|lia]. destruct (Z.ltb_spec (slot h (home + x)) 32); [|lia].
    cbn [andb].
    assert (SH : free_slot (k + S n) h ((home + x) mod 128 + 1) = free_slot (k + S n) h (home + (x + 1))).
    { replace (k + S n)%nat with (S (k + n)) by lia. cbn [free_slot]. unfold ID_HASH_MAX. rewrite Zplus_mod_idemp_l, Z.add_assoc. reflexivity. }
    rewrite SH. apply IH; auto; lia.
Qed.

(** the names of the identifiers *)
Definition names_ok (s : st) (ns : list (list Z)) : Prop := Forall2 (kept s) (ids s) ns.
Definition id_code (ns : list (list Z)) (w : list Z) : Z :=
  match index_of w ns with Some i => TOK_ID + Z.of_nat i | None => TOK_RAW_ID end.

Lemma Forall2_nth {A B} (R : A -> B -> Prop) l1 l2 d : Forall2 R l1 l2 -> forall i b, nth_error l2 i = Some b -> R (nth i l1 d) b.
Proof.
  induction 1 as [|a b l1 l2 H F IH]; intros [|i] c E; cbn in *; try discriminate.
  - injection E as <-. exact H.
  - auto.
Qed.
Lemma set_type_eq t s : set_type t s = Ok (tt, set_tok s (mktok t (t_text (tok s)))).
Proof. reflexivity. Qed.
(** what ReplaceId does to the type of the token; CurHash is left somewhere *)
Lemma find_id_walk ns w e : forall k s x n, table ns (Spp.hash s) -> names_ok s ns -> npos s <= TOKEN_DATA_MAX ->
  chash s = (hash_str w + x) mod 128 -> 0 <= x -> x + Z.of_nat k = e ->
  (forall y, 0 <= y < e -> slot (Spp.hash s) (hash_str w + y) <> -1 /\ nth_error ns (Z.to_nat (slot (Spp.hash s) (hash_str w + y))) <> Some w) ->
  find_id (k + n) w s = find_id n w (set_chash s ((hash_str w + e) mod 128)).
Proof.
  induction k as [|k IH]; intros s x n T NO NP C X K H.
  - assert (x = e) by lia. subst x. cbn [Nat.add]. rewrite <- C, chash_same. reflexivity.
  - cbn [Nat.add find_id]. unfold SccState.bind at 1, SccState.gets at 1. rewrite C. fold (slot (Spp.hash s) (hash_str w + x)).
    destruct (H x ltac:(lia)) as [H1 H2]. destruct (t_range _ _ T (hash_str w + x)) as [|R]; [contradiction|].
    pose proof (t_len _ _ T) as L. unfold ID_MAX.
    destruct (Z.leb_spec 0 (slot (Spp.hash s) (hash_str w + x))); [|lia]. destruct (Z.ltb_spec (slot (Spp.hash s) (hash_str w + x)) 32); [|lia].
    cbn [andb negb]. destruct (nth_error ns (Z.to_nat (slot (Spp.hash s) (hash_str w + x)))) as [t|] eqn:E; [|apply nth_error_None in E; lia].
    rewrite (bind_eq _ _ _ _ _ (str_shown _ _ _ (kept_shown _ _ _ NP (Forall2_nth _ _ _ PNull NO _ _ E)))).
    destruct (leq w t) eqn:Q; [apply leq_true in Q; congruence|].
    unfold SccState.bind at 1, SccState.upd at 1.
    rewrite (IH (set_chash s ((chash s + 1) mod ID_HASH_MAX)) (x + 1) n); auto; try lia.
    cbn [set_chash chash]. rewrite C. unfold ID_HASH_MAX. rewrite Zplus_mod_idemp_l, Z.add_assoc. reflexivity.
Qed.
Lemma find_id_spec ns w s : table ns (Spp.hash s) -> names_ok s ns -> npos s <= TOKEN_DATA_MAX ->
  t_type (tok s) = TOK_RAW_ID -> chash s = hash_str w ->
  exists h, find_id (Z.to_nat 130) w s = Ok (tt, set_tok (set_chash s h) (mktok (id_code ns w) (t_text (tok s)))).
Proof.
  intros T NO NP TY C. unfold id_code.
  assert (C0 : chash s = (hash_str w + 0) mod 128) by (rewrite Z.add_0_r, Z.mod_small; [exact C|apply hash_str_range]).
  destruct (index_of w ns) as [i|] eqn:IX.
  - apply index_of_some in IX. destruct (t_path _ _ T i _ IX) as (d & Hd & D1 & D2).
    exists ((hash_str w + d) mod 128).
    replace (Z.to_nat 130) with (Z.to_nat d + S (129 - Z.to_nat d))%nat by lia.
    rewrite (find_id_walk ns w d (Z.to_nat d) s 0); auto; try lia.
    2: { intros y Y. assert (NE : slot (Spp.hash s) (hash_str w + y) <> -1) by (apply D2; lia). split; [exact NE|]. intro N.
         destruct (t_range _ _ T (hash_str w + y)) as [|R]; [contradiction|].
         assert (Z.to_nat (slot (Spp.hash s) (hash_str w + y)) = i) by (apply (NoDup_nth_error ns); [apply (t_nodup _ _ T)|lia|congruence]).
         assert (S1 : slot (Spp.hash s) (hash_str w + y) = slot (Spp.hash s) (hash_str w + d)) by lia.
         apply (t_inj _ _ T) in S1; [|exact NE]. apply shift_inj in S1; lia. }
    cbn [find_id]. unfold SccState.bind at 1, SccState.gets at 1. cbn [set_chash Spp.hash chash ids].
    fold (slot (Spp.hash s) (hash_str w + d)). rewrite D1. pose proof (t_len _ _ T) as L.
    assert (LI : (i < length ns)%nat) by (apply nth_error_Some; congruence). unfold ID_MAX.
    destruct (Z.leb_spec 0 (Z.of_nat i)); [|lia]. destruct (Z.ltb_spec (Z.of_nat i) 32); [|lia]. cbn [andb negb].
    rewrite Nat2Z.id. set (s1 := set_chash s ((hash_str w + d) mod 128)).
    assert (K : kept s1 (nth i (ids s) PNull) w) by exact (Forall2_nth _ _ _ PNull NO _ _ IX).
    rewrite (bind_eq _ _ _ _ _ (str_shown _ _ _ (kept_shown s1 _ _ NP K))).
    rewrite (proj2 (leq_true w w) eq_refl). reflexivity.
  - apply index_of_none in IX. destruct (some_empty _ _ (hash_str w) T) as (e & He & E1 & E2). exists ((hash_str w + e) mod 128).
    replace (Z.to_nat 130) with (Z.to_nat e + S (129 - Z.to_nat e))%nat by lia.
    rewrite (find_id_walk ns w e (Z.to_nat e) s 0); auto; try lia.
    2: { intros y Y. split; [apply E2; lia|]. intro N. apply IX. eapply nth_error_In, N. }
    cbn [find_id]. unfold SccState.bind at 1, SccState.gets at 1. cbn [set_chash Spp.hash chash].
    fold (slot (Spp.hash s) (hash_str w + e)). rewrite E1. cbn [Z.leb andb negb]. rewrite <- TY. destruct s as [? ? ? ? ? ? ? ? ? ? tk ? ? ? ? ? ? ? ? ? ?]. destruct tk. reflexivity.
Qed.
Lemma ReplaceId_spec ns w s : table ns (Spp.hash s) -> names_ok s ns -> npos s <= TOKEN_DATA_MAX ->
  t_type (tok s) = TOK_RAW_ID -> shown s (t_text (tok s)) w -> chash s = hash_str w \/ chash s = ID_HASH_MAX ->
  exists h, ReplaceId s = Ok (tt, set_tok (set_chash s h) (mktok (id_code ns w) (t_text (tok s)))).
Proof.
  intros T NO NP TY SH C. unfold ReplaceId. unfold SccState.bind at 1, SccState.gets at 1. rewrite TY. change (TOK_RAW_ID =? TOK_RAW_ID) with true.
  unfold SccState.bind at 1, assert at 1, SccState.ret at 1. rewrite (bind_eq _ _ _ _ _ (str_shown _ _ _ SH)).
  unfold SccState.bind at 1, SccState.gets at 1. destruct C as [C|C].
  - pose proof (hash_str_range w). unfold ID_HASH_MAX. rewrite C. destruct (Z.eqb_spec (hash_str w) 128); [lia|].
    unfold SccState.bind, SccState.when, SccState.ret. apply find_id_spec; auto.
  - rewrite C. rewrite Z.eqb_refl. cbn [SccState.when]. unfold SccState.bind, SccState.upd.
    destruct (find_id_spec ns w (set_chash s (hash_str w))) as [h H]; auto. exists h. exact H.
Qed.
Lemma AddId_spec ns w s p : table ns (Spp.hash s) -> names_ok s ns -> length (ids s) = length ns -> (length ns < 32)%nat ->
  shown s p w -> ~ In w ns ->
  exists h', AddId p s = Ok (Z.of_nat (length ns), set_ids s (ids s ++ [p]) h') /\ table (ns ++ [w]) h'.
Proof.
  intros T NO LEN L SH NI. unfold AddId. unfold SccState.bind at 1, SccState.gets at 1. rewrite LEN. unfold ID_MAX.
  destruct (Z.ltb_spec (Z.of_nat (length ns)) 32); [|lia]. unfold SccState.bind at 1, assert at 1, SccState.ret at 1.
  rewrite (bind_eq _ _ _ _ _ (str_shown _ _ _ SH)). unfold SccState.bind at 1, SccState.gets at 1.
  destruct (some_empty _ _ (hash_str w) T) as (e & He & E1 & E2).
  assert (FS : free_slot (Z.to_nat 130) (Spp.hash s) (hash_str w) = Ok ((hash_str w + e) mod 128)).
  { replace (Z.to_nat 130) with (Z.to_nat e + S (129 - Z.to_nat e))%nat by lia. replace (hash_str w) with (hash_str w + 0) at 1 by lia.
    apply free_slot_spec; auto; try lia. intros y Y. pose proof (t_len _ _ T). destruct (t_range _ _ T (hash_str w + y)); [exfalso; revert H1; apply E2; lia|lia]. }
  unfold SccState.bind at 1, lift at 1. rewrite FS. eexists. split; [reflexivity|]. apply table_add; auto.
Qed.
