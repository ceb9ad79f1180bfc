(** The symbol table of sas.c: open addressing with triangular probing behaves as a list of
    distinct names, the built-in ones found whatever their case. *)
From Coq Require Import ZArith List Bool Lia String.
From Verif Require Import Base Sas.
Import ListNotations.
Open Scope Z_scope.

(** ** Specification *)
Definition builtin_texts : list (list Z) := map chars builtin_names.
(** the spelling a symbol is known under: a built-in name in capitals, any other as written *)
Definition canonical (sp : list Z) : list Z :=
  if in_dec (list_eq_dec Z.eq_dec) (map upper sp) builtin_texts then map upper sp else sp.
Fixpoint index_of (sp : list Z) (names : list (list Z)) : option nat :=
  match names with
  | nil => None
  | n :: r => if list_eq_dec Z.eq_dec sp n then Some O
              else match index_of sp r with Some i => Some (S i) | None => None end
  end.

Lemma index_of_some sp names i : index_of sp names = Some i -> nth_error names i = Some sp.
Proof.
  revert i. induction names as [|n r IH]; cbn; intros i H; [discriminate|].
  destruct (list_eq_dec Z.eq_dec sp n) as [->|N]; [injection H as <-; reflexivity|].
  destruct (index_of sp r) as [j|]; [|discriminate]. injection H as <-. cbn. auto.
Qed.
Lemma index_of_none sp names : index_of sp names = None -> ~ In sp names.
Proof.
  induction names as [|n r IH]; cbn; intros H; [tauto|].
  destruct (list_eq_dec Z.eq_dec sp n) as [->|N]; [discriminate|].
  destruct (index_of sp r) as [j|]; [discriminate|]. intros [E|E]; [congruence|]. apply IH; auto.
Qed.
Lemma list_eqb_true a : forall b, list_eqb a b = true <-> a = b.
Proof.
  induction a as [|x a IH]; intros [|y b]; cbn; try (split; congruence).
  rewrite andb_true_iff, Z.eqb_eq, IH. split; [intros [-> ->]; reflexivity|intros [= -> ->]; auto].
Qed.
Lemma list_eqb_false a b : a <> b -> list_eqb a b = false.
Proof. intro N. destruct (list_eqb a b) eqn:E; [|reflexivity]. apply list_eqb_true in E. contradiction. Qed.

(** ** Triangular probing visits every slot *)
Definition tri (d : Z) : Z := d * (d + 1) / 2.
Lemma tri_next d : tri (d + 1) = tri d + 1 + d.
Proof. unfold tri. replace ((d + 1) * (d + 1 + 1)) with (d * (d + 1) + (d + 1) * 2) by lia. rewrite Z.div_add by lia. lia. Qed.
Lemma tri_double d : 2 * tri d = d * (d + 1).
Proof.
  unfold tri. assert (E : (d * (d + 1)) mod 2 = 0).
  { rewrite Zmult_mod, Zplus_mod. pose proof (Z.mod_pos_bound d 2 ltac:(lia)).
    assert (d mod 2 = 0 \/ d mod 2 = 1) as [-> | ->] by lia; reflexivity. }
  pose proof (Z.div_mod (d * (d + 1)) 2 ltac:(lia)). lia.
Qed.
Lemma even_factor a b : (2 | a * b) -> ~ (2 | b) -> (2 | a).
Proof. intros H N. destruct (Znumtheory.prime_mult 2 Znumtheory.prime_2 a b H); tauto. Qed.
Lemma odd_pow_div n : forall a b, ~ (2 | b) -> (2 ^ Z.of_nat n | a * b) -> (2 ^ Z.of_nat n | a).
Proof.
  induction n as [|n IH]; intros a b N H; [exists a; rewrite Z.mul_1_r; reflexivity|].
  rewrite Nat2Z.inj_succ, Z.pow_succ_r in * by lia.
  assert (E : (2 | a)).
  { apply even_factor with b; [|exact N]. destruct H as [q H]. exists (q * 2 ^ Z.of_nat n). rewrite H. ring. }
  destruct E as [a' ->]. rewrite Z.mul_comm. apply Z.mul_divide_mono_r. apply IH with b; [exact N|].
  destruct H as [q H]. exists q. nia.
Qed.
Lemma tri_inj x y : 0 <= x < 1024 -> 0 <= y < 1024 -> tri x mod 1024 = tri y mod 1024 -> x = y.
Proof.
  intros Hx Hy E.
  assert (D : (1024 | tri x - tri y)).
  { apply Z.mod_divide; [lia|]. rewrite Zminus_mod, E, Z.sub_diag. reflexivity. }
  assert (D2 : (2048 | (x - y) * (x + y + 1))).
  { destruct D as [q D]. exists q. pose proof (tri_double x). pose proof (tri_double y). nia. }
  destruct (Z.Even_or_Odd (x - y)) as [[k K]|[k K]].
  - assert (N : ~ (2 | x + y + 1)) by (intros [j J]; lia).
    pose proof (odd_pow_div 11 (x - y) (x + y + 1) N) as P. change (2 ^ Z.of_nat 11) with 2048 in P.
    destruct (P D2) as [q Q]. lia.
  - assert (N : ~ (2 | x - y)) by (intros [j J]; lia).
    pose proof (odd_pow_div 11 (x + y + 1) (x - y) N) as P. change (2 ^ Z.of_nat 11) with 2048 in P.
    rewrite Z.mul_comm in D2. destruct (P D2) as [q Q]. lia.
Qed.
Theorem probing_reaches_every_slot home k : exists d, 0 <= d < 1024 /\ (home + tri d) mod 1024 = k mod 1024.
Proof.
  set (l := map (fun d => (home + tri (Z.of_nat d)) mod 1024) (seq 0 (Z.to_nat 1024))).
  assert (ND : NoDup l).
  { unfold l. assert (I : forall n m, NoDup (map (fun d => (home + tri (Z.of_nat d)) mod 1024) (seq n m)) \/ (1024 < n + m)%nat).
    { intros n m. revert n. induction m as [|m IH]; intro n; [left; constructor|].
      destruct (IH (S n)) as [N|G]; [|right; lia].
      destruct (Nat.lt_ge_cases 1024 (n + S m)) as [?|Le]; [right; assumption|left].
      cbn [seq map]. constructor; [|exact N]. intro H. apply in_map_iff in H. destruct H as (j & E & J). apply in_seq in J.
      assert (Z.of_nat j = Z.of_nat n).
      { apply tri_inj; lia. }
      lia. }
    destruct (I O (Z.to_nat 1024)) as [N|G]; [exact N|lia]. }
  assert (IN : incl (map Z.of_nat (seq 0 (Z.to_nat 1024))) l).
  { apply NoDup_length_incl; [exact ND|unfold l; rewrite !map_length; lia|].
    intros v Hv. unfold l in Hv. apply in_map_iff in Hv. destruct Hv as (d & <- & _). apply in_map_iff.
    pose proof (Z.mod_pos_bound (home + tri (Z.of_nat d)) 1024 ltac:(lia)).
    exists (Z.to_nat ((home + tri (Z.of_nat d)) mod 1024)). split; [lia|]. apply in_seq. lia. }
  pose proof (Z.mod_pos_bound k 1024 ltac:(lia)).
  assert (K : In (k mod 1024) l).
  { apply IN. apply in_map_iff. exists (Z.to_nat (k mod 1024)). split; [lia|]. apply in_seq. lia. }
  unfold l in K. apply in_map_iff in K. destruct K as (d & E & D). apply in_seq in D. exists (Z.of_nat d). split; [lia|exact E].
Qed.

(** ** Upper case and the hash *)
Lemma land_DF c : 97 <= c <= 122 -> Z.land (Z.land c 0xDF) 0xDF = Z.land c 0xDF.
Proof. intros _. rewrite <- Z.land_assoc. reflexivity. Qed.
Lemma upper_land c : Z.land (upper c) 0xDF = Z.land c 0xDF.
Proof. unfold upper. destruct ((97 <=? c) && (c <=? 122)) eqn:E; [apply land_DF; lia|reflexivity]. Qed.
Lemma hash_upper W sp : HashStr W (map upper sp) = HashStr W sp.
Proof.
  unfold HashStr. generalize 17. induction sp as [|c sp IH]; intro h; cbn [map fold_left]; [reflexivity|].
  rewrite upper_land. apply IH.
Qed.
Lemma upper_upper c : upper (upper c) = upper c.
Proof.
  unfold upper at 2. destruct ((97 <=? c) && (c <=? 122)) eqn:E; [|reflexivity].
  assert (B : forallb (fun c => upper (Z.land c 0xDF) =? Z.land c 0xDF)
     (map (fun i => 97 + Z.of_nat i) (seq 0 26)) = true) by (vm_compute; reflexivity).
  assert (U : upper c = Z.land c 0xDF) by (unfold upper; rewrite E; reflexivity). rewrite U.
  rewrite forallb_forall in B. apply Z.eqb_eq. apply B. apply in_map_iff. exists (Z.to_nat (c - 97)). split; [lia|].
  apply in_seq. lia.
Qed.
Lemma map_upper_upper sp : map upper (map upper sp) = map upper sp.
Proof. rewrite map_map. apply map_ext. exact upper_upper. Qed.
Lemma builtins_upper : Forall (fun t => map upper t = t) builtin_texts.
Proof.
  assert (B : forallb (fun t => list_eqb (map upper t) t) builtin_texts = true) by (vm_compute; reflexivity).
  rewrite forallb_forall in B. apply Forall_forall. intros t H. apply list_eqb_true, B, H.
Qed.
Lemma canonical_builtin sp : In (canonical sp) builtin_texts -> canonical sp = map upper sp.
Proof.
  unfold canonical. destruct (in_dec _ _ _) as [H|H]; [reflexivity|]. intro I.
  pose proof builtins_upper as U. rewrite Forall_forall in U. specialize (U sp I). congruence.
Qed.
Lemma canonical_user sp : ~ In (canonical sp) builtin_texts -> canonical sp = sp /\ ~ In (map upper sp) builtin_texts.
Proof. unfold canonical. destruct (in_dec _ _ _) as [H|H]; [tauto|]. intuition. Qed.
Lemma canonical_idem sp : canonical (canonical sp) = canonical sp.
Proof.
  destruct (in_dec (list_eq_dec Z.eq_dec) (canonical sp) builtin_texts) as [I|N].
  - pose proof (canonical_builtin sp I) as E. unfold canonical at 1. rewrite E, map_upper_upper.
    rewrite E in I. destruct (in_dec _ _ _); [reflexivity|contradiction].
  - destruct (canonical_user sp N) as [E _]. congruence.
Qed.
Lemma hash_canonical W sp : HashStr W (canonical sp) = HashStr W sp.
Proof. unfold canonical. destruct (in_dec _ _ _); [apply hash_upper|reflexivity]. Qed.

(** ** The table *)
Definition slot (h : arr Z) (k : Z) : Z := aget h (k mod 1024).
Record table (W : Z) (ns : list (list Z)) (h : arr Z) : Prop := {
  t_built : firstn 99 ns = builtin_texts;
  t_users : forall i sp, nth_error ns i = Some sp -> (99 <= i)%nat -> ~ In (map upper sp) builtin_texts;
  t_nodup : NoDup ns;
  t_range : forall k, slot h k = -1 \/ 0 <= slot h k < Z.of_nat (length ns);
  t_inj : forall k1 k2, slot h k1 <> -1 -> slot h k1 = slot h k2 -> k1 mod 1024 = k2 mod 1024;
  t_path : forall i sp, nth_error ns i = Some sp -> exists d, 0 <= d < 1024 /\
             slot h (HashStr W sp + tri d) = Z.of_nat i /\
             forall x, 0 <= x < d -> slot h (HashStr W sp + tri x) <> -1 }.

Lemma land1023 h : Z.land h 1023 = h mod 1024.
Proof. change 1023 with (Z.ones 10). rewrite Z.land_ones by lia. reflexivity. Qed.
Lemma slot_eq h a b : a mod 1024 = b mod 1024 -> slot h a = slot h b.
Proof. unfold slot. intros ->. reflexivity. Qed.
Lemma tri_shift_inj home x y : 0 <= x < 1024 -> 0 <= y < 1024 ->
  (home + tri x) mod 1024 = (home + tri y) mod 1024 -> x = y.
Proof.
  intros Hx Hy E. apply tri_inj; auto. apply (f_equal (fun z => (z - home) mod 1024)) in E.
  rewrite !Zminus_mod_idemp_l in E. replace (home + tri x - home) with (tri x) in E by lia.
  replace (home + tri y - home) with (tri y) in E by lia. exact E.
Qed.
Lemma NoDup_map_inj {A B} (f : A -> B) l : (forall x y, In x l -> In y l -> f x = f y -> x = y) -> NoDup l -> NoDup (map f l).
Proof.
  intros I N. induction N as [|x l NI N IH]; cbn; constructor.
  - intro H. apply in_map_iff in H. destruct H as (y & E & Hy). apply NI. rewrite <- (I y x); cbn; auto.
  - apply IH. intros y z Hy Hz. apply I; right; assumption.
Qed.
Lemma some_empty W ns h home : table W ns h -> (length ns < 1024)%nat ->
  exists e, 0 <= e < 1024 /\ slot h (home + tri e) = -1 /\ forall x, 0 <= x < e -> slot h (home + tri x) <> -1.
Proof.
  intros T L.
  assert (G : forall n : nat, (n <= 1024)%nat ->
      (exists e, 0 <= e < Z.of_nat n /\ slot h (home + tri e) = -1 /\ forall x, 0 <= x < e -> slot h (home + tri x) <> -1)
      \/ forall x, 0 <= x < Z.of_nat n -> slot h (home + tri x) <> -1).
  { induction n as [|n IH]; intro H; [right; lia|].
    destruct IH as [(e & He & E1 & E2)|E]; [lia|left; exists e; split; [lia|auto]|].
    destruct (Z.eq_dec (slot h (home + tri (Z.of_nat n))) (-1)) as [Z1|N1].
    - left. exists (Z.of_nat n). split; [lia|auto].
    - right. intros x Hx. destruct (Z.eq_dec x (Z.of_nat n)) as [->|]; [exact N1|]. apply E. lia. }
  destruct (G (Z.to_nat 1024)) as [(e & He & E1 & E2)|D]; [lia|exists e; split; [lia|auto]|exfalso].
  set (idx := map (fun k => slot h (home + tri (Z.of_nat k))) (seq 0 (Z.to_nat 1024))).
  assert (ND : NoDup idx).
  { unfold idx. apply NoDup_map_inj; [|apply seq_NoDup].
    intros x y Hx Hy E. apply in_seq in Hx, Hy. apply (t_inj _ _ _ T) in E; [|apply D; lia].
    apply tri_shift_inj in E; lia. }
  assert (IN : incl idx (map Z.of_nat (seq 0 (length ns)))).
  { intros v Hv. unfold idx in Hv. apply in_map_iff in Hv. destruct Hv as (k & <- & Hk). apply in_seq in Hk.
    destruct (t_range _ _ _ T (home + tri (Z.of_nat k))) as [E|E]; [exfalso; revert E; apply D; lia|].
    apply in_map_iff. exists (Z.to_nat (slot h (home + tri (Z.of_nat k)))). split; [lia|]. apply in_seq. lia. }
  pose proof (NoDup_incl_length ND IN) as LL. unfold idx in LL. rewrite !map_length, !seq_length in LL. lia.
Qed.
Lemma nth_error_app_end {A} (l : list A) x i y : nth_error (l ++ [x]) i = Some y ->
  nth_error l i = Some y \/ (i = length l /\ y = x).
Proof.
  intro H. destruct (Nat.lt_ge_cases i (length l)) as [Lt|Ge].
  - left. rewrite nth_error_app1 in H by exact Lt. exact H.
  - right. rewrite nth_error_app2 in H by exact Ge.
    destruct (i - length l)%nat as [|j] eqn:E; cbn in H; [|destruct j; discriminate].
    injection H as ->. split; [lia|reflexivity].
Qed.
Lemma table_99 W ns h : table W ns h -> (99 <= length ns)%nat.
Proof. intro T. pose proof (f_equal (@length _) (t_built _ _ _ T)) as E. rewrite firstn_length in E. change (length builtin_texts) with 99%nat in E. lia. Qed.
Lemma table_add W ns h sp e : table W ns h -> ~ In (map upper sp) builtin_texts -> ~ In sp ns ->
  0 <= e < 1024 -> slot h (HashStr W sp + tri e) = -1 ->
  (forall x, 0 <= x < e -> slot h (HashStr W sp + tri x) <> -1) ->
  table W (ns ++ [sp]) (aset h ((HashStr W sp + tri e) mod 1024) (Z.of_nat (length ns))).
Proof.
  intros T NB NI He E1 E2. pose proof (table_99 _ _ _ T) as L99.
  set (n := Z.of_nat (length ns)) in *. set (hh := HashStr W sp) in *. set (h' := aset _ _ _).
  assert (SL : forall k, slot h' k = if Z.eq_dec (k mod 1024) ((hh + tri e) mod 1024) then n else slot h k).
  { intro k. unfold slot, h'. destruct (Z.eq_dec (k mod 1024) ((hh + tri e) mod 1024)) as [->|N].
    - apply aget_aset_same.
    - apply aget_aset_other. congruence. }
  assert (OLD : forall k, slot h k <> -1 -> slot h' k = slot h k).
  { intros k Hk. rewrite SL. destruct (Z.eq_dec (k mod 1024) ((hh + tri e) mod 1024)) as [E|]; [|reflexivity].
    exfalso. apply Hk. rewrite (slot_eq h _ _ E). exact E1. }
  split.
  - rewrite firstn_app. replace (99 - length ns)%nat with O by lia. rewrite firstn_O, app_nil_r. apply (t_built _ _ _ T).
  - intros i s Hi Hge. apply nth_error_app_end in Hi. destruct Hi as [Hi|[-> ->]]; [exact (t_users _ _ _ T i s Hi Hge)|exact NB].
  - pose proof (NoDup_rev (t_nodup _ _ _ T)). rewrite <- rev_involutive. apply NoDup_rev. rewrite rev_app_distr. cbn.
    constructor; [rewrite <- in_rev; exact NI|assumption].
  - intro k. rewrite SL, app_length. cbn [length]. destruct (Z.eq_dec _ _); [right; lia|].
    destruct (t_range _ _ _ T k); [auto|right; lia].
  - intros k1 k2. rewrite !SL. destruct (Z.eq_dec (k1 mod 1024) ((hh + tri e) mod 1024)), (Z.eq_dec (k2 mod 1024) ((hh + tri e) mod 1024)); intros A B.
    + congruence.
    + destruct (t_range _ _ _ T k2); lia.
    + destruct (t_range _ _ _ T k1); lia.
    + apply (t_inj _ _ _ T); auto.
  - intros i s Hi. apply nth_error_app_end in Hi. destruct Hi as [Hi|[-> ->]].
    + destruct (t_path _ _ _ T i s Hi) as (d & Hd & D1 & D2). exists d. split; [exact Hd|]. split.
      * rewrite OLD; [exact D1|]. lia.
      * intros x Hx. rewrite OLD; auto.
    + exists e. split; [exact He|]. split.
      * rewrite SL. destruct (Z.eq_dec _ _); [reflexivity|contradiction].
      * intros x Hx. rewrite OLD; auto.
Qed.

(** the comparison of LookupId recognises exactly the canonical spelling *)
Lemma same_id_spec W ns h id sp text : table W ns h -> 0 <= id -> nth_error ns (Z.to_nat id) = Some text ->
  same_id id sp text = true <-> canonical sp = text.
Proof.
  intros T Hid N. unfold same_id, BUILTINS. destruct (Z.ltb_spec id 99) as [Lt|Ge]; rewrite list_eqb_true.
  - assert (I : In text builtin_texts).
    { rewrite <- (t_built _ _ _ T). apply nth_error_In with (Z.to_nat id).
      rewrite <- (firstn_skipn 99 ns) in N. rewrite nth_error_app1 in N; [exact N|].
      rewrite firstn_length. pose proof (table_99 _ _ _ T). lia. }
    split; intro E.
    + unfold canonical. rewrite E. destruct (in_dec _ _ _); [reflexivity|contradiction].
    + rewrite <- E in *. symmetry. apply canonical_builtin, I.
  - pose proof (t_users _ _ _ T _ _ N ltac:(lia)) as U. split; intro E.
    + subst text. unfold canonical. destruct (in_dec _ _ _); [contradiction|reflexivity].
    + unfold canonical in E. destruct (in_dec _ _ _) as [I|_]; [|exact E].
      exfalso. apply U. rewrite <- E, map_upper_upper. exact I.
Qed.
Lemma table_text W ns h k : table W ns h -> slot h k <> -1 -> exists s, nth_error ns (Z.to_nat (slot h k)) = Some s.
Proof.
  intros T N. destruct (t_range _ _ _ T k) as [|R]; [contradiction|].
  destruct (nth_error ns (Z.to_nat (slot h k))) as [s|] eqn:E; [eauto|]. apply nth_error_None in E. lia.
Qed.
Lemma find_walk W ns h sp home k : table W ns h -> forall n d hash, 0 <= d ->
  hash mod 1024 = (home + tri d) mod 1024 ->
  (forall x, d <= x < d + Z.of_nat k -> slot h (home + tri x) <> -1 /\
     nth_error ns (Z.to_nat (slot h (home + tri x))) <> Some (canonical sp)) ->
  exists hash', find_id (k + n) ns h sp hash d = find_id n ns h sp hash' (d + Z.of_nat k) /\
    hash' mod 1024 = (home + tri (d + Z.of_nat k)) mod 1024.
Proof.
  intro T. induction k as [|k IH]; intros n d hash Hd E H.
  - exists hash. rewrite Z.add_0_r. auto.
  - destruct (H d ltac:(lia)) as [H1 H2]. destruct (table_text _ _ _ _ T H1) as [s S1].
    destruct (IH n (d + 1) (Z.land hash 1023 + 1 + d)) as (h' & E1 & E2); [lia| |intros x Hx; apply H; lia|].
    + rewrite land1023, E, tri_next. rewrite <- !Z.add_assoc, Zplus_mod_idemp_l. f_equal. lia.
    + exists h'. replace (d + Z.of_nat (S k)) with (d + 1 + Z.of_nat k) by lia. split; [|exact E2].
      cbn [Nat.add find_id]. rewrite land1023, E. fold (slot h (home + tri d)).
      rewrite (proj2 (Z.eqb_neq _ _) H1), S1.
      destruct (same_id (slot h (home + tri d)) sp s) eqn:SI.
      * exfalso. destruct (t_range _ _ _ T (home + tri d)) as [|R]; [contradiction|].
        apply (same_id_spec W ns h _ sp s T (proj1 R) S1) in SI. congruence.
      * rewrite <- E, <- land1023. exact E1.
Qed.
(** looking up a symbol *)
Theorem find_id_spec W ns h sp : table W ns h -> (length ns < 1024)%nat ->
  find_id (Z.to_nat 1025) ns h sp (HashStr W sp) 0 =
  Ok (match index_of (canonical sp) ns with Some i => Z.of_nat i | None => -1 end).
Proof.
  intros T L. set (home := HashStr W sp).
  assert (HC : HashStr W (canonical sp) = home) by apply hash_canonical.
  assert (T0 : home mod 1024 = (home + tri 0) mod 1024) by (change (tri 0) with 0; f_equal; lia).
  destruct (index_of (canonical sp) ns) as [i|] eqn:IX.
  - apply index_of_some in IX. destruct (t_path _ _ _ T i _ IX) as (d & Hd & D1 & D2). rewrite HC in D1, D2.
    destruct (find_walk W ns h sp home (Z.to_nat d) T (S (1024 - Z.to_nat d))%nat 0 home) as (h' & R & M); [lia|exact T0| |].
    { intros x Hx. assert (NE : slot h (home + tri x) <> -1) by (apply D2; lia). split; [exact NE|].
      intro N. destruct (t_range _ _ _ T (home + tri x)) as [|Rg]; [contradiction|].
      assert (Z.to_nat (slot h (home + tri x)) = i).
      { apply (NoDup_nth_error ns); [apply (t_nodup _ _ _ T)|lia|congruence]. }
      assert (S1 : slot h (home + tri x) = slot h (home + tri d)) by lia.
      apply (t_inj _ _ _ T) in S1; [|exact NE]. apply tri_shift_inj in S1; lia. }
    replace (Z.to_nat 1025) with (Z.to_nat d + S (1024 - Z.to_nat d))%nat by lia. rewrite R.
    cbn [find_id]. rewrite land1023, M. replace (0 + Z.of_nat (Z.to_nat d)) with d by lia.
    fold (slot h (home + tri d)). rewrite D1, (proj2 (Z.eqb_neq _ _)) by lia. rewrite Nat2Z.id, IX.
    assert (SI : same_id (Z.of_nat i) sp (canonical sp) = true).
    { apply (same_id_spec W ns h); [exact T|lia|rewrite Nat2Z.id; exact IX|reflexivity]. }
    rewrite SI. reflexivity.
  - apply index_of_none in IX. destruct (some_empty _ _ _ home T L) as (e & He & E1 & E2).
    destruct (find_walk W ns h sp home (Z.to_nat e) T (S (1024 - Z.to_nat e))%nat 0 home) as (h' & R & M); [lia|exact T0| |].
    { intros x Hx. split; [apply E2; lia|]. intro N. apply IX. eapply nth_error_In, N. }
    replace (Z.to_nat 1025) with (Z.to_nat e + S (1024 - Z.to_nat e))%nat by lia. rewrite R.
    cbn [find_id]. rewrite land1023, M. replace (0 + Z.of_nat (Z.to_nat e)) with e by lia.
    fold (slot h (home + tri e)). rewrite E1. reflexivity.
Qed.
Lemma free_walk h home k : forall n d hash, 0 <= d -> hash mod 1024 = (home + tri d) mod 1024 ->
  (forall x, d <= x < d + Z.of_nat k -> slot h (home + tri x) <> -1) -> slot h (home + tri (d + Z.of_nat k)) = -1 ->
  free_slot (k + S n) h hash d = Ok ((home + tri (d + Z.of_nat k)) mod 1024).
Proof.
  induction k as [|k IH]; intros n d hash Hd E H Z1; cbn [Nat.add free_slot]; rewrite land1023, E; fold (slot h (home + tri d)).
  - rewrite Z.add_0_r in *. rewrite Z1. reflexivity.
  - rewrite (proj2 (Z.eqb_neq _ _) (H d ltac:(lia))). rewrite <- E, <- land1023.
    replace (d + Z.of_nat (S k)) with (d + 1 + Z.of_nat k) in * by lia. apply IH; [lia| |intros x Hx; apply H; lia|exact Z1].
    rewrite land1023, E, tri_next. rewrite <- !Z.add_assoc, Zplus_mod_idemp_l. f_equal. lia.
Qed.
(** what the identifier part of GetToken (sas.c:673-676) does *)
Definition intern W (sp : list Z) : M st Z :=
  bind (LookupId W sp) (fun id => if id <? 0 then AddId W sp else ret id).
(** ... as a specification: number of the symbol, new list of names, text used *)
Definition number_sym (ns : list (list Z)) (used : Z) (sp : list Z) : outcome (Z * list (list Z) * Z) :=
  match index_of (canonical sp) ns with
  | Some i => Ok (Z.of_nat i, ns, used)
  | None =>
      let used' := used + (Z.of_nat (length sp) + 1) in
      if 5000 <? used' then Fatal
      else if 600 <=? Z.of_nat (length ns) then UB
      else Ok (Z.of_nat (length ns), ns ++ [sp], used')
  end.
Theorem intern_spec W sp s : table W (names s) (htab s) -> (length (names s) <= 600)%nat ->
  match number_sym (names s) (used s) sp with
  | Ok (i, ns', used') => exists h', intern W sp s = Ok (i, set_names s ns' used' h') /\ table W ns' h' /\
                            (length ns' <= 600)%nat
  | Fatal => intern W sp s = Fatal
  | UB => intern W sp s = UB
  | OutOfFuel => False
  end.
Proof.
  intros T L. unfold number_sym, intern, SccState.bind, LookupId.
  rewrite (find_id_spec W _ _ sp T ltac:(lia)).
  destruct (index_of (canonical sp) (names s)) as [i|] eqn:IX.
  - rewrite (proj2 (Z.ltb_ge _ _)) by lia. exists (htab s). split; [destruct s; reflexivity|]. split; [exact T|exact L].
  - cbn [Z.ltb Z.compare]. apply index_of_none in IX.
    assert (NB : ~ In (map upper sp) builtin_texts).
    { intro I. apply IX. assert (E : canonical sp = map upper sp) by (unfold canonical; destruct (in_dec _ _ _); [reflexivity|contradiction]).
      rewrite E. rewrite <- (t_built _ _ _ T) in I. rewrite <- (firstn_skipn 99 (names s)). apply in_or_app. auto. }
    assert (EC : canonical sp = sp) by (unfold canonical; destruct (in_dec _ _ _); [contradiction|reflexivity]).
    rewrite EC in IX. unfold AddId. change IDBUFFER_MAX with 5000. change ID_MAX with 600.
    replace (negb (used s + (Z.of_nat (length sp) + 1) <=? 5000)) with (5000 <? used s + (Z.of_nat (length sp) + 1))
      by (rewrite Z.ltb_antisym; reflexivity).
    destruct (5000 <? _); [reflexivity|].
    replace (negb (Z.of_nat (length (names s)) <? 600)) with (600 <=? Z.of_nat (length (names s)))
      by (rewrite Z.leb_antisym; reflexivity).
    destruct (Z.leb_spec 600 (Z.of_nat (length (names s)))) as [G|G]; [reflexivity|].
    destruct (some_empty _ _ _ (HashStr W sp) T ltac:(lia)) as (e & He & E1 & E2).
    pose proof (free_walk (htab s) (HashStr W sp) (Z.to_nat e) (1023 - Z.to_nat e) 0 (HashStr W sp)) as FW.
    replace (Z.to_nat e + S (1023 - Z.to_nat e))%nat with (Z.to_nat 1024) in FW by lia.
    replace (0 + Z.of_nat (Z.to_nat e)) with e in FW by lia.
    rewrite FW; [|lia|change (tri 0) with 0; f_equal; lia|intros x Hx; apply E2; lia|exact E1].
    eexists. split; [reflexivity|]. split; [apply table_add; auto|]. rewrite app_length. cbn [length]. lia.
Qed.

(** ** The state after AddBuiltins *)
Definition tab0 (W : Z) : arr Z :=
  match AddBuiltins W builtin_names (st0 []) with Ok (_, s) => htab s | _ => mkarr 0 Leaf end.
Definition used0 : Z := 390.
Lemma builtins_run W input : W = 16 \/ W = 32 ->
  AddBuiltins W builtin_names (st0 input) = Ok (tt, set_names (st0 input) builtin_texts used0 (tab0 W)).
Proof. intros [-> | ->]; vm_compute; reflexivity. Qed.

(** a decision procedure for the table invariant, for the initial table *)
Fixpoint first_at (k : nat) (h : arr Z) (home i d : Z) : option Z :=
  match k with
  | O => None
  | S k => let v := aget h ((home + tri d) mod 1024) in
           if v =? i then Some d else if v =? -1 then None else first_at k h home i (d + 1)
  end.
Fixpoint count (n : nat) (i : Z) : list Z := match n with O => [] | S n => i :: count n (i + 1) end.
Lemma in_count n : forall i k, In k (count n i) <-> i <= k < i + Z.of_nat n.
Proof. induction n as [|n IH]; intros i k; cbn [count In]; [lia|]. rewrite IH. lia. Qed.
Definition check_table (W : Z) (ns : list (list Z)) (h : arr Z) (home : Z -> Z) : bool :=
  forallb (fun k => let v := aget h k in
     (v =? -1) || ((0 <=? v) && (v <? Z.of_nat (length ns)) && (home v =? k))) (count (Z.to_nat 1024) 0)
  && forallb (fun '(i, sp) => match first_at (Z.to_nat 1024) h (HashStr W sp) i 0 with Some _ => true | None => false end)
       (combine (count (length ns) 0) ns).
Lemma first_at_spec h home i k : forall d d', 0 <= i -> 0 <= d -> d + Z.of_nat k <= 1024 -> first_at k h home i d = Some d' ->
  d <= d' < 1024 /\ slot h (home + tri d') = i /\ forall x, d <= x < d' -> slot h (home + tri x) <> -1.
Proof.
  induction k as [|k IH]; intros d d' Hi Hd Hk H; cbn [first_at] in H; [discriminate|]. fold (slot h (home + tri d)) in H.
  destruct (Z.eqb_spec (slot h (home + tri d)) i) as [E|N].
  - injection H as <-. split; [lia|]. split; [exact E|lia].
  - destruct (Z.eqb_spec (slot h (home + tri d)) (-1)) as [E1|N1]; [discriminate|].
    destruct (IH (d + 1) d' Hi ltac:(lia) ltac:(lia) H) as (A & B & C). split; [lia|]. split; [exact B|].
    intros x Hx. destruct (Z.eq_dec x d) as [->|]; [exact N1|apply C; lia].
Qed.
Lemma combine_nth (ns : list (list Z)) : forall b i sp, nth_error ns i = Some sp -> In (b + Z.of_nat i, sp) (combine (count (length ns) b) ns).
Proof.
  induction ns as [|n ns IH]; intros b [|i] sp H; try discriminate; cbn [length count combine].
  - injection H as ->. left. f_equal. lia.
  - right. replace (b + Z.of_nat (S i)) with (b + 1 + Z.of_nat i) by lia. apply IH, H.
Qed.
Lemma builtins_nodup : NoDup builtin_texts.
Proof.
  assert (D : forall l : list (list Z), (fix nd l := match l with nil => true | x :: r => negb (existsb (list_eqb x) r) && nd r end) l = true -> NoDup l).
  { induction l as [|x r IH]; intro H; constructor.
    - apply andb_prop in H. destruct H as [H _]. intro I. apply negb_true_iff in H.
      assert (E : existsb (list_eqb x) r = true) by (apply existsb_exists; exists x; split; [exact I|apply list_eqb_true; reflexivity]).
      congruence.
    - apply andb_prop in H. apply IH, H. }
  apply D. vm_compute. reflexivity.
Qed.
Lemma check_table_ok W h home : check_table W builtin_texts h home = true -> table W builtin_texts h.
Proof.
  intro H. apply andb_prop in H. destruct H as [H1 H2]. rewrite forallb_forall in H1, H2.
  assert (R : forall k, slot h k = -1 \/ (0 <= slot h k < 99 /\ home (slot h k) = k mod 1024)).
  { intro k. pose proof (Z.mod_pos_bound k 1024 ltac:(lia)). specialize (H1 (k mod 1024)).
    rewrite in_count in H1. specialize (H1 ltac:(lia)). cbv zeta in H1. fold (slot h k) in H1.
    change (Z.of_nat (length builtin_texts)) with 99 in H1. lia. }
  split.
  - reflexivity.
  - intros i sp N G. exfalso. assert (i < length builtin_texts)%nat by (apply nth_error_Some; congruence).
    change (length builtin_texts) with 99%nat in *. lia.
  - apply builtins_nodup.
  - intro k. change (Z.of_nat (length builtin_texts)) with 99. destruct (R k) as [|[]]; auto.
  - intros k1 k2 N E. destruct (R k1) as [|[_ A]]; [contradiction|]. destruct (R k2) as [|[_ B]]; congruence.
  - intros i sp N. pose proof (combine_nth builtin_texts 0 i sp N) as I. apply H2 in I. cbn beta iota in I.
    destruct (first_at _ _ _ _ _) as [d|] eqn:F; [|discriminate].
    apply first_at_spec in F; [|lia|lia|lia]. rewrite Z.add_0_l in F. exists d. destruct F as (A & B & C). auto.
Qed.
Definition home_tab (h : arr Z) : arr Z :=
  fold_left (fun a k => let v := aget h k in if v =? -1 then a else aset a v k) (count (Z.to_nat 1024) 0) (mkarr (-1) Leaf).
Theorem table0 W : W = 16 \/ W = 32 -> table W builtin_texts (tab0 W).
Proof.
  intros [-> | ->].
  - apply check_table_ok with (home := aget (home_tab (tab0 16))). vm_compute. reflexivity.
  - apply check_table_ok with (home := aget (home_tab (tab0 32))). vm_compute. reflexivity.
Qed.

(** ** Any sequence of symbols *)
Fixpoint interns W (sps : list (list Z)) : M st (list Z) :=
  match sps with
  | nil => ret nil
  | sp :: r => bind (intern W sp) (fun i => bind (interns W r) (fun is => ret (i :: is)))
  end.
Fixpoint number_syms (ns : list (list Z)) (used : Z) (sps : list (list Z)) : outcome (list Z) :=
  match sps with
  | nil => Ok nil
  | sp :: r => obind (number_sym ns used sp) (fun '(i, ns', used') =>
               obind (number_syms ns' used' r) (fun is => Ok (i :: is)))
  end.
Lemma interns_spec W sps : forall s, table W (names s) (htab s) -> (length (names s) <= 600)%nat ->
  match interns W sps s with
  | Ok (is, _) => number_syms (names s) (used s) sps = Ok is
  | Fatal => number_syms (names s) (used s) sps = Fatal
  | UB => number_syms (names s) (used s) sps = UB
  | OutOfFuel => False
  end.
Proof.
  induction sps as [|sp sps IH]; intros s T L; cbn [interns number_syms]; [reflexivity|].
  pose proof (intern_spec W sp s T L) as I. unfold SccState.bind.
  destruct (number_sym (names s) (used s) sp) as [[[i ns'] used']| | |] eqn:NN; cbn [obind].
  - destruct I as (h' & E & T' & L'). rewrite E.
    specialize (IH (set_names s ns' used' h') T' L'). cbn [names used set_names] in IH.
    destruct (interns W sps _) as [[is s']| | |]; [|rewrite IH; reflexivity|rewrite IH; reflexivity|tauto].
    unfold ret. rewrite IH. reflexivity.
  - rewrite I. reflexivity.
  - rewrite I. reflexivity.
  - tauto.
Qed.
Lemma index_of_in sp names : In sp names -> exists i, index_of sp names = Some i.
Proof.
  induction names as [|n r IH]; cbn; [tauto|]. destruct (list_eq_dec Z.eq_dec sp n) as [->|N]; [eauto|].
  intros [E|E]; [congruence|]. destruct (IH E) as [i ->]. eauto.
Qed.
Definition names_ok (ns : list (list Z)) : Prop := NoDup ns /\ incl builtin_texts ns.
Lemma number_syms_final sps : forall ns used is, names_ok ns -> number_syms ns used sps = Ok is ->
  exists ext, NoDup (ns ++ ext) /\ Forall2 (fun sp i => 0 <= i /\ nth_error (ns ++ ext) (Z.to_nat i) = Some (canonical sp)) sps is.
Proof.
  induction sps as [|sp sps IH]; intros ns used is [ND INC] H; cbn [number_syms] in H.
  - injection H as <-. exists nil. rewrite app_nil_r. split; [exact ND|constructor].
  - unfold number_sym in H. destruct (index_of (canonical sp) ns) as [i|] eqn:IX; cbn [obind] in H.
    + destruct (number_syms ns used sps) as [is'| | |] eqn:NN; cbn [obind] in H; try discriminate. injection H as <-.
      destruct (IH _ _ _ (conj ND INC) NN) as (ext & N2 & F2). exists ext. split; [exact N2|]. constructor; [|exact F2].
      split; [lia|]. rewrite Nat2Z.id. apply index_of_some in IX. rewrite nth_error_app1; [exact IX|].
      apply nth_error_Some. congruence.
    + apply index_of_none in IX.
      assert (EC : canonical sp = sp).
      { unfold canonical in IX |- *. destruct (in_dec _ _ _) as [I|]; [|reflexivity]. exfalso. apply IX, INC, I. }
      destruct (5000 <? _); [discriminate|]. destruct (600 <=? _); [discriminate|]. cbn [obind] in H.
      destruct (number_syms _ _ sps) as [is'| | |] eqn:NN; cbn [obind] in H; try discriminate. injection H as <-.
      rewrite EC in IX.
      assert (N1 : NoDup (ns ++ [sp])).
      { apply NoDup_rev in ND. rewrite <- rev_involutive. apply NoDup_rev. rewrite rev_app_distr. cbn.
        constructor; [rewrite <- in_rev; exact IX|exact ND]. }
      destruct (IH (ns ++ [sp]) _ is' (conj N1 (fun x X => in_or_app ns [sp] x (or_introl (INC x X)))) NN) as (ext & N2 & F2).
      exists ([sp] ++ ext). rewrite app_assoc. split; [exact N2|].
      constructor; [|exact F2]. split; [lia|]. rewrite Nat2Z.id, <- app_assoc.
      rewrite nth_error_app2 by lia. rewrite Nat.sub_diag, EC. reflexivity.
Qed.
Theorem number_syms_inj ns used sps is : names_ok ns -> number_syms ns used sps = Ok is ->
  forall a b spa spb ia ib, nth_error sps a = Some spa -> nth_error sps b = Some spb ->
    nth_error is a = Some ia -> nth_error is b = Some ib -> (ia = ib <-> canonical spa = canonical spb).
Proof.
  intros ND H a b spa spb ia ib A B IA IB. destruct (number_syms_final _ _ _ _ ND H) as (ext & N2 & F2).
  assert (G : forall k s i, nth_error sps k = Some s -> nth_error is k = Some i -> 0 <= i /\ nth_error (ns ++ ext) (Z.to_nat i) = Some (canonical s)).
  { clear - F2. revert is F2. induction sps as [|s0 sps IH]; intros is F2 k s i; [destruct k; discriminate|].
    inversion F2; subst. destruct k as [|k]; cbn; [intros [= <-] [= <-]; assumption|]. eauto. }
  destruct (G _ _ _ A IA) as [Pa Na], (G _ _ _ B IB) as [Pb Nb]. split.
  - intros ->. congruence.
  - intros E. rewrite E in Na. rewrite <- Nb in Na. apply (proj1 (NoDup_nth_error _) N2) in Na; [lia|]. apply nth_error_Some. congruence.
Qed.
