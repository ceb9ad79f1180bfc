(** The identifier table of scc.c: open addressing with linear probing behaves as a
    list of distinct names, numbered in order of first appearance. *)
From Verif Require Import Base SccState SccEmit SccLex SccInput.

(** ** Specification: names numbered by first appearance *)
Fixpoint index_of (sp : list Z) (names : list (list Z)) : option nat :=
  match names with
  | nil => None
  | n :: r => if list_eq_dec Z.eq_dec sp n then Some O
              else match index_of sp r with Some i => Some (S i) | None => None end
  end.
(** number a name; at most 580 names and 5000 bytes of text (of names that are not built in) *)
Definition number_name (names : list (list Z)) (used : Z) (sp : list Z) : outcome (Z * list (list Z) * Z) :=
  match index_of sp names with
  | Some i => Ok (Z.of_nat i, names, used)
  | None =>
      let used' := used + Z.of_nat (length sp) + 1 in
      if (Z.of_nat (length names) =? 580) || (5000 <? used') then Fatal
      else Ok (Z.of_nat (length names), names ++ [sp], used')
  end.
Fixpoint number_names (names : list (list Z)) (used : Z) (sps : list (list Z)) : outcome (list Z) :=
  match sps with
  | nil => Ok nil
  | sp :: r => obind (number_name names used sp) (fun '(i, names', used') =>
               obind (number_names names' used' r) (fun is => Ok (i :: is)))
  end.

Lemma index_of_some sp names i : index_of sp names = Some i -> nth_error names i = Some sp.
Proof.
  revert i. induction names as [|n r IH]; cbn; intros i H; [discriminate|].
  destruct (list_eq_dec Z.eq_dec sp n) as [->|N]; [injection H as <-; reflexivity|].
  destruct (index_of sp r) as [j|]; [|discriminate]. injection H as <-. cbn. auto.
Qed.
Lemma index_of_none sp names : index_of sp names = None -> ~ In sp names.
Proof.
  induction names as [|n r IH]; cbn; intros H; [tauto|].
  destruct (list_eq_dec Z.eq_dec sp n) as [->|N]; [discriminate|].
  destruct (index_of sp r) as [j|]; [discriminate|]. intros [E|E]; [congruence|]. apply IH; auto.
Qed.

(** ** The table represents a list of names *)
Definition slot (l : lexst) (k : Z) : Z := aget (IdHashTab l) (k mod 1024).
Record table (W : Z) (l : lexst) (names : list (list Z)) : Prop := {
  t_count : IdCount l = Z.of_nat (length names);
  t_nodup : NoDup names;
  t_text : forall i sp, nth_error names i = Some sp -> aget (IdText l) (Z.of_nat i) = sp;
  t_range : forall k, slot l k = -1 \/ 0 <= slot l k < Z.of_nat (length names);
  t_inj : forall k1 k2, slot l k1 <> -1 -> slot l k1 = slot l k2 -> k1 mod 1024 = k2 mod 1024;
  t_path : forall i sp, nth_error names i = Some sp -> exists d, 0 <= d < 1024 /\
             slot l (hash_spelling W sp + d) = Z.of_nat i /\
             forall x, 0 <= x < d -> slot l (hash_spelling W sp + x) <> -1 }.

Lemma NoDup_map_inj {A B} (f : A -> B) l : (forall x y, In x l -> In y l -> f x = f y -> x = y) -> NoDup l -> NoDup (map f l).
Proof.
  intros I N. induction N as [|x l NI N IH]; cbn; constructor.
  - intro H. apply in_map_iff in H. destruct H as (y & E & Hy). apply NI. rewrite <- (I y x); cbn; auto.
  - apply IH. intros y z Hy Hz. apply I; right; assumption.
Qed.
Lemma land1023 h : Z.land h 1023 = h mod 1024.
Proof. change 1023 with (Z.ones 10). rewrite Z.land_ones by lia. reflexivity. Qed.

(** there is an empty slot, and so a first one behind every starting point *)
Lemma some_empty W l names home : table W l names -> (length names <= 580)%nat ->
  exists e, 0 <= e < 1024 /\ slot l (home + e) = -1 /\ forall x, 0 <= x < e -> slot l (home + x) <> -1.
Proof.
  intros T L.
  assert (D : (exists e, 0 <= e < 1024 /\ slot l (home + e) = -1 /\ forall x, 0 <= x < e -> slot l (home + x) <> -1)
              \/ forall x, 0 <= x < 1024 -> slot l (home + x) <> -1).
  { assert (G : forall n : nat, (n <= 1024)%nat ->
      (exists e, 0 <= e < Z.of_nat n /\ slot l (home + e) = -1 /\ forall x, 0 <= x < e -> slot l (home + x) <> -1)
      \/ forall x, 0 <= x < Z.of_nat n -> slot l (home + x) <> -1).
    { induction n as [|n IH]; intro H; [right; lia|].
      destruct IH as [(e & He & E1 & E2)|E]; [lia|left; exists e; split; [lia|auto]|].
      destruct (Z.eq_dec (slot l (home + Z.of_nat n)) (-1)) as [Z1|N1].
      - left. exists (Z.of_nat n). split; [lia|auto].
      - right. intros x Hx. destruct (Z.eq_dec x (Z.of_nat n)) as [->|]; [exact N1|]. apply E. lia. }
    destruct (G (Z.to_nat 1024)) as [(e & He & E1 & E2)|E]; [lia| |].
    - left. exists e. split; [lia|auto].
    - right. intros x Hx. apply E. lia. }
  destruct D as [D|D]; [exact D|exfalso].
  set (idx := map (fun k => slot l (home + Z.of_nat k)) (seq 0 (Z.to_nat 1024))).
  assert (ND : NoDup idx).
  { unfold idx. apply NoDup_map_inj; [|apply seq_NoDup].
    intros x y Hx Hy E. apply in_seq in Hx, Hy. apply (t_inj _ _ _ T) in E; [|apply D; lia].
    assert (EE : (home + Z.of_nat x - (home + Z.of_nat y)) mod 1024 = 0).
    { rewrite Zminus_mod, E. rewrite Z.sub_diag. reflexivity. }
    apply Z.mod_divide in EE; [|lia]. destruct EE as [q Q]. lia. }
  assert (IN : incl idx (map Z.of_nat (seq 0 (length names)))).
  { intros v Hv. unfold idx in Hv. apply in_map_iff in Hv. destruct Hv as (k & <- & Hk). apply in_seq in Hk.
    destruct (t_range _ _ _ T (home + Z.of_nat k)) as [E|E]; [exfalso; revert E; apply D; lia|].
    apply in_map_iff. exists (Z.to_nat (slot l (home + Z.of_nat k))). split; [lia|]. apply in_seq. lia. }
  pose proof (NoDup_incl_length ND IN) as LL. unfold idx in LL. rewrite !map_length, !seq_length in LL. lia.
Qed.

Lemma list_eqb_true a : forall b, list_eqb a b = true <-> a = b.
Proof.
  induction a as [|x a IH]; intros [|y b]; cbn; try (split; congruence).
  rewrite andb_true_iff, Z.eqb_eq, IH. split; [intros [-> ->]; reflexivity|intros [= -> ->]; auto].
Qed.
Lemma list_eqb_false a b : a <> b -> list_eqb a b = false.
Proof. intro N. destruct (list_eqb a b) eqn:E; [|reflexivity]. apply list_eqb_true in E. contradiction. Qed.
Lemma nth_error_app_end {A} (l : list A) x i y : nth_error (l ++ [x]) i = Some y ->
  nth_error l i = Some y \/ (i = length l /\ y = x).
Proof.
  intro H. destruct (Nat.lt_ge_cases i (length l)) as [Lt|Ge].
  - left. rewrite nth_error_app1 in H by exact Lt. exact H.
  - right. rewrite nth_error_app2 in H by exact Ge.
    destruct (i - length l)%nat as [|j] eqn:E; cbn in H; [|destruct j; discriminate].
    injection H as ->. split; [lia|reflexivity].
Qed.

(** adding a name at the first empty slot of its probe sequence *)
Lemma table_add W l l' names sp e : table W l names -> ~ In sp names -> (length names < 1024)%nat ->
  0 <= e < 1024 -> slot l (hash_spelling W sp + e) = -1 ->
  (forall x, 0 <= x < e -> slot l (hash_spelling W sp + x) <> -1) ->
  IdCount l' = IdCount l + 1 ->
  IdHashTab l' = aset (IdHashTab l) ((hash_spelling W sp + e) mod 1024) (IdCount l) ->
  IdText l' = aset (IdText l) (IdCount l) sp ->
  table W l' (names ++ [sp]).
Proof.
  intros T NI LN He E1 E2 C H X. pose proof (t_count _ _ _ T) as Cn. rewrite Cn in *.
  set (n := Z.of_nat (length names)) in *. set (h := hash_spelling W sp) in *.
  assert (SL : forall k, slot l' k = if Z.eq_dec (k mod 1024) ((h + e) mod 1024) then n else slot l k).
  { intro k. unfold slot. rewrite H. destruct (Z.eq_dec (k mod 1024) ((h + e) mod 1024)) as [->|N].
    - apply aget_aset_same.
    - apply aget_aset_other. congruence. }
  assert (OLD : forall k, slot l k <> -1 -> slot l' k = slot l k).
  { intros k Hk. rewrite SL. destruct (Z.eq_dec (k mod 1024) ((h + e) mod 1024)) as [E|]; [|reflexivity].
    exfalso. apply Hk. unfold slot in *. rewrite E. exact E1. }
  split.
  - rewrite C, app_length. cbn [length]. lia.
  - pose proof (NoDup_rev (t_nodup _ _ _ T)). rewrite <- rev_involutive. apply NoDup_rev. rewrite rev_app_distr. cbn.
    constructor; [rewrite <- in_rev; exact NI|assumption].
  - intros i s Hi. rewrite X. apply nth_error_app_end in Hi. destruct Hi as [Hi|[-> ->]].
    + rewrite aget_aset_other; [apply (t_text _ _ _ T); exact Hi|].
      assert (i < length names)%nat by (apply nth_error_Some; congruence). unfold n. lia.
    + apply aget_aset_same.
  - intro k. rewrite SL, app_length. cbn [length]. destruct (Z.eq_dec _ _); [right; lia|].
    destruct (t_range _ _ _ T k); [auto|right; lia].
  - intros k1 k2. rewrite !SL. destruct (Z.eq_dec (k1 mod 1024) ((h + e) mod 1024)), (Z.eq_dec (k2 mod 1024) ((h + e) mod 1024)); intros A B.
    + congruence.
    + destruct (t_range _ _ _ T k2); lia.
    + destruct (t_range _ _ _ T k1); lia.
    + apply (t_inj _ _ _ T); auto.
  - intros i s Hi. apply nth_error_app_end in Hi. destruct Hi as [Hi|[-> ->]].
    + destruct (t_path _ _ _ T i s Hi) as (d & Hd & D1 & D2). exists d. split; [exact Hd|]. split.
      * rewrite OLD; [exact D1|]. lia.
      * intros x Hx. rewrite OLD; auto.
    + exists e. split; [exact He|]. split.
      * rewrite SL. destruct (Z.eq_dec _ _); [reflexivity|contradiction].
      * intros x Hx. rewrite OLD; auto.
Qed.

Lemma loopM_once {S X A} n (body : X -> M S (X + A)) x s a s' :
  body x s = Ok (inr a, s') -> loopM (Datatypes.S n) body x s = Ok (a, s').
Proof. intro H. cbn [loopM]. rewrite (bind_ok _ _ _ _ _ H). reflexivity. Qed.
Lemma loopM_next {S X A} n (body : X -> M S (X + A)) x s x' s' :
  body x s = Ok (inl x', s') -> loopM (Datatypes.S n) body x s = loopM n body x' s'.
Proof. intro H. cbn [loopM]. rewrite (bind_ok _ _ _ _ _ H). reflexivity. Qed.

Lemma step_mod W h0 h d : 16 <= W -> h0 mod 1024 = (h + d) mod 1024 ->
  wu W (Z.land h0 1023 + 1) mod 1024 = (h + (d + 1)) mod 1024.
Proof.
  intros HW E. rewrite land1023, E. pose proof (Z.mod_pos_bound (h + d) 1024 ltac:(lia)).
  unfold wu. rewrite (Z.mod_small _ (2 ^ W)).
  - rewrite Zplus_mod_idemp_l. f_equal. lia.
  - assert (2 ^ 16 <= 2 ^ W) by (apply Z.pow_le_mono_r; lia). change (2 ^ 16) with 65536 in *. lia.
Qed.

Section Probe.
Variable W : Z.
Hypothesis HW : 16 <= W.

(** walking over [k] slots that do not match *)
Lemma probe_walk sp l names (T : table W l names) (body : Z -> M lexst (Z + Z)) home :
  (forall h, slot l h <> -1 -> aget (IdText l) (slot l h) <> sp ->
     body h l = Ok (inl (wu W (Z.land h 1023 + 1)), l)) ->
  forall k n d h, h mod 1024 = (home + d) mod 1024 ->
  (forall x, d <= x < d + Z.of_nat k -> slot l (home + x) <> -1 /\ aget (IdText l) (slot l (home + x)) <> sp) ->
  exists h', loopM (k + n) body h l = loopM n body h' l /\ h' mod 1024 = (home + (d + Z.of_nat k)) mod 1024.
Proof.
  intros B k. induction k as [|k IH]; intros n d h E H.
  - exists h. split; [reflexivity|]. rewrite E. f_equal. lia.
  - assert (ES : slot l h = slot l (home + d)) by (unfold slot; rewrite E; reflexivity).
    destruct (H d ltac:(lia)) as [H1 H2]. rewrite <- ES in H1, H2.
    destruct (IH n (d + 1) (wu W (Z.land h 1023 + 1))) as (h' & E1 & E2).
    + apply step_mod; assumption.
    + intros x Hx. apply H. lia.
    + exists h'. split; [|rewrite E2; f_equal; lia].
      change (S k + n)%nat with (S (k + n)). rewrite (loopM_next _ _ _ _ _ _ (B h H1 H2)). exact E1.
Qed.

Theorem intern_spec sp l names : table W l names -> (length names <= 580)%nat ->
  match number_name names (IdBufPtr l) sp with
  | Ok (i, names', used') =>
      exists l', intern W sp (hash_spelling W sp) l = Ok (i, l') /\ table W l' names' /\ IdBufPtr l' = used' /\
        (length names' <= 580)%nat /\
        l' = set_IdBufPtr (IdBufPtr l') (set_IdText (IdText l') (set_IdHashTab (IdHashTab l') (set_IdCount (IdCount l') l)))
  | _ => intern W sp (hash_spelling W sp) l = Fatal
  end.
Proof.
  intros T L. unfold number_name. set (home := hash_spelling W sp).
  destruct (some_empty _ _ _ home T L) as (e & He & E1 & E2).
  unfold intern. match goal with |- context [loopM _ ?b _] => set (body := b) end.
  assert (B : forall h, slot l h <> -1 -> aget (IdText l) (slot l h) <> sp ->
     body h l = Ok (inl (wu W (Z.land h 1023 + 1)), l)).
  { intros h H1 H2. unfold body. change (ID_HASHMAX - 1) with 1023. mgo. rewrite !land1023. fold (slot l h).
    rewrite (proj2 (Z.eqb_neq _ _) H1). mgo. rewrite list_eqb_false by congruence. reflexivity. }
  assert (TX : forall k, slot l k <> -1 -> exists j s, slot l k = Z.of_nat j /\ nth_error names j = Some s /\ aget (IdText l) (slot l k) = s).
  { intros k Hk. destruct (t_range _ _ _ T k) as [|R]; [contradiction|].
    destruct (nth_error names (Z.to_nat (slot l k))) as [s|] eqn:N.
    - exists (Z.to_nat (slot l k)), s. split; [lia|]. split; [exact N|].
      rewrite <- (t_text _ _ _ T _ _ N). f_equal. lia.
    - apply nth_error_None in N. lia. }
  destruct (index_of sp names) as [i|] eqn:IX.
  - apply index_of_some in IX. destruct (t_path _ _ _ T i sp IX) as (d & Hd & D1 & D2).
    destruct (probe_walk sp l names T body home B (Z.to_nat d) (S (1024 - Z.to_nat d))%nat 0 home) as (h' & R & M).
    { rewrite Z.add_0_r. reflexivity. }
    { intros x Hx. assert (NE : slot l (home + x) <> -1) by (apply D2; lia). split; [exact NE|].
      destruct (TX _ NE) as (j & s & S1 & S2 & S3). rewrite S3. intros ->.
      assert (j = i). { apply (NoDup_nth_error names); [apply (t_nodup _ _ _ T)|apply nth_error_Some; congruence|congruence]. }
      subst j. rewrite <- D1 in S1. apply (t_inj _ _ _ T) in S1; [|exact NE].
      assert (EE : (home + d - (home + x)) mod 1024 = 0) by (fold home in S1; rewrite Zminus_mod, S1, Z.sub_diag; reflexivity).
      apply Z.mod_divide in EE; [|lia]. destruct EE as [q Q]. lia. }
    exists l. split; [|split; [exact T|split; [reflexivity|split; [exact L|destruct l; reflexivity]]]].
    replace (Z.to_nat (ID_HASHMAX + 1)) with (Z.to_nat d + S (1024 - Z.to_nat d))%nat by (unfold ID_HASHMAX; lia).
    rewrite R. apply loopM_once. unfold body. change (ID_HASHMAX - 1) with 1023. mgo. rewrite !land1023, M.
    rewrite Z2Nat.id by lia. fold (slot l (home + (0 + d))). rewrite Z.add_0_l. fold home in D1. rewrite D1.
    rewrite (proj2 (Z.eqb_neq _ _)) by lia. mgo. rewrite (t_text _ _ _ T _ _ IX).
    rewrite (proj2 (list_eqb_true sp sp) eq_refl). reflexivity.
  - apply index_of_none in IX.
    destruct (probe_walk sp l names T body home B (Z.to_nat e) (S (1024 - Z.to_nat e))%nat 0 home) as (h' & R & M).
    { rewrite Z.add_0_r. reflexivity. }
    { intros x Hx. assert (NE : slot l (home + x) <> -1) by (apply E2; lia). split; [exact NE|].
      destruct (TX _ NE) as (j & s & S1 & S2 & S3). rewrite S3. intros ->. apply IX. eapply nth_error_In; eauto. }
    replace (Z.to_nat (ID_HASHMAX + 1)) with (Z.to_nat e + S (1024 - Z.to_nat e))%nat by (unfold ID_HASHMAX; lia).
    rewrite R.
    assert (BE : body h' l =
      if Z.of_nat (length names) =? 580 then Fatal
      else if 5000 <? IdBufPtr l + Z.of_nat (length sp) + 1 then Fatal
      else Ok (inr (Z.of_nat (length names)),
        set_IdBufPtr (IdBufPtr l + Z.of_nat (length sp) + 1)
         (set_IdText (aset (IdText l) (Z.of_nat (length names)) sp)
          (set_IdHashTab (aset (IdHashTab l) ((home + e) mod 1024) (Z.of_nat (length names)))
            (set_IdCount (Z.of_nat (length names) + 1) l))))).
    { unfold body. change (ID_HASHMAX - 1) with 1023. mgo. rewrite !land1023, M.
      rewrite Z2Nat.id by lia. fold (slot l (home + (0 + e))). rewrite Z.add_0_l, E1.
      change (-1 =? -1) with true. cbn iota. mgo. rewrite (t_count _ _ _ T). change ID_MAX with 580.
      destruct (Z.of_nat (length names) =? 580); [reflexivity|].
      change (failif false) with (@ret lexst unit tt). mgo.
      change IDBUFFER_MAX with 5000. cbn [IdBufPtr set_IdBufPtr set_IdText set_IdHashTab set_IdCount IdHashTab IdText].
      destruct (5000 <? _); reflexivity. }
    destruct (Z.eqb_spec (Z.of_nat (length names)) 580) as [E|NE]; cbn [orb].
    { cbn [loopM]. unfold bind. rewrite BE. reflexivity. }
    destruct (5000 <? _) eqn:U.
    { cbn [loopM]. unfold bind. rewrite BE. reflexivity. }
    eexists. split; [apply loopM_once; exact BE|]. split; [|split; [reflexivity|split]].
    + apply (table_add W l _ names sp e T IX); auto; try lia; try reflexivity.
      * cbn. rewrite (t_count _ _ _ T). reflexivity.
      * cbn. rewrite (t_count _ _ _ T). reflexivity.
      * cbn. rewrite (t_count _ _ _ T). reflexivity.
    + rewrite app_length. cbn. lia.
    + destruct l; reflexivity.
Qed.

(** ** Built-in names *)
Lemma add_builtin_spec sp l names : table W l names -> ~ In sp names -> (length names < 580)%nat ->
  exists l', add_builtin W sp l = Ok (tt, l') /\ table W l' (names ++ [sp]) /\ IdBufPtr l' = IdBufPtr l /\
    l' = set_IdText (IdText l') (set_IdHashTab (IdHashTab l') (set_IdCount (IdCount l') l)).
Proof.
  intros T NI L. set (home := hash_spelling W sp).
  destruct (some_empty _ _ _ home T ltac:(lia)) as (e & He & E1 & E2).
  unfold add_builtin. mgo. set (l1 := set_IdText _ l).
  match goal with |- context [loopM _ ?b _] => set (body := b) end.
  assert (R : forall k n d h, h mod 1024 = (home + d) mod 1024 -> 0 <= d -> d + Z.of_nat k = e ->
    loopM (k + S n) body h l1 = Ok ((home + e) mod 1024, l1)).
  { induction k as [|k IH]; intros n d h E D Ek; cbn [Nat.add].
    - apply loopM_once. unfold body. change (ID_HASHMAX - 1) with 1023. mgo. rewrite !land1023, E.
      replace d with e by lia. change (IdHashTab l1) with (IdHashTab l). fold (slot l (home + e)). rewrite E1. reflexivity.
    - assert (B : body h l1 = Ok (inl (wu W (Z.land h 1023 + 1)), l1)).
      { unfold body. change (ID_HASHMAX - 1) with 1023. mgo. rewrite !land1023, E.
        change (IdHashTab l1) with (IdHashTab l). fold (slot l (home + d)).
        rewrite (proj2 (Z.eqb_neq _ _)) by (apply E2; lia). cbn [negb]. unfold ret. rewrite <- land1023. reflexivity. }
      rewrite (loopM_next _ _ _ _ _ _ B). apply (IH n (d + 1)); try lia.
      apply step_mod; assumption. }
  specialize (R (Z.to_nat e) (1024 - Z.to_nat e)%nat 0 home).
  replace (Z.to_nat e + S (1024 - Z.to_nat e))%nat with (Z.to_nat (ID_HASHMAX + 1)) in R by (unfold ID_HASHMAX; lia).
  rewrite (bind_ok _ _ _ _ _ (R ltac:(f_equal; lia) ltac:(lia) ltac:(lia))). mgo.
  eexists. split; [reflexivity|]. split; [|split; [reflexivity|destruct l; reflexivity]].
  apply (table_add W l _ names sp e T NI); auto; try lia; reflexivity.
Qed.

Lemma add_builtins_spec sps : forall l names, table W l names -> NoDup (names ++ sps) -> (length (names ++ sps) <= 580)%nat ->
  exists l', add_builtins W sps l = Ok (tt, l') /\ table W l' (names ++ sps) /\ IdBufPtr l' = IdBufPtr l /\
    l' = set_IdText (IdText l') (set_IdHashTab (IdHashTab l') (set_IdCount (IdCount l') l)).
Proof.
  induction sps as [|sp sps IH]; intros l names T ND L; cbn [add_builtins].
  - exists l. rewrite app_nil_r. split; [reflexivity|]. split; [exact T|split; [reflexivity|destruct l; reflexivity]].
  - assert (NI : ~ In sp names).
    { apply NoDup_remove_2 in ND. intro H. apply ND. apply in_or_app. auto. }
    rewrite app_length in L. cbn [length] in L.
    destruct (add_builtin_spec sp l names T NI ltac:(lia)) as (l1 & E1 & T1 & P1 & Q1).
    rewrite (bind_ok _ _ _ _ _ E1).
    destruct (IH l1 (names ++ [sp]) T1) as (l2 & E2 & T2 & P2 & Q2).
    { rewrite <- app_assoc. exact ND. }
    { rewrite !app_length. cbn [length]. lia. }
    exists l2. split; [exact E2|]. rewrite <- app_assoc in T2. split; [exact T2|]. split; [congruence|].
    rewrite Q2, Q1. destruct l; reflexivity.
Qed.

Lemma builtins_nodup : NoDup builtins.
Proof.
  assert (D : forall l : list (list Z), (fix nd l := match l with nil => true | x :: r => negb (existsb (list_eqb x) r) && nd r end) l = true -> NoDup l).
  { induction l as [|x r IH]; intro H; constructor.
    - apply andb_prop in H. destruct H as [H _]. intro I. apply negb_true_iff in H.
      assert (E : existsb (list_eqb x) r = true) by (apply existsb_exists; exists x; split; [exact I|apply list_eqb_true; reflexivity]).
      congruence.
    - apply andb_prop in H. apply IH, H. }
  apply D. vm_compute. reflexivity.
Qed.

Lemma table_empty f sc : table W (lx0 f sc) nil.
Proof.
  split; try (intros [|i] sp H; discriminate H).
  - reflexivity.
  - constructor.
  - intro k. left. unfold slot, lx0. cbn. apply aget_init.
  - intros k1 k2 H. exfalso. apply H. unfold slot, lx0. cbn. apply aget_init.
Qed.

Theorem AddBuiltins_spec f sc :
  exists l', AddBuiltins W (lx0 f sc) = Ok (tt, l') /\ table W l' builtins /\ IdBufPtr l' = 0 /\
    l' = set_IdText (IdText l') (set_IdHashTab (IdHashTab l') (set_IdCount (IdCount l') (lx0 f sc))).
Proof.
  destruct (add_builtins_spec builtins (lx0 f sc) nil (table_empty f sc) builtins_nodup) as (l' & E & T & P & Q).
  { vm_compute. lia. }
  exists l'. split; [|split; [exact T|split; [exact P|exact Q]]].
  unfold AddBuiltins. rewrite (bind_ok _ _ _ _ _ E). mgo. rewrite (t_count _ _ _ T). reflexivity.
Qed.

(** ** Any sequence of identifiers *)
Fixpoint interns (sps : list (list Z)) : M lexst (list Z) :=
  match sps with
  | nil => ret nil
  | sp :: r => let! i := intern W sp (hash_spelling W sp) in let! is := interns r in ret (i :: is)
  end.
Lemma interns_spec sps : forall l names, table W l names -> (length names <= 580)%nat ->
  match interns sps l with
  | Ok (is, _) => number_names names (IdBufPtr l) sps = Ok is
  | Fatal => number_names names (IdBufPtr l) sps = Fatal
  | _ => False
  end.
Proof.
  induction sps as [|sp sps IH]; intros l names T L; cbn [interns number_names]; [reflexivity|].
  pose proof (intern_spec sp l names T L) as I.
  destruct (number_name names (IdBufPtr l) sp) as [[[i names'] used']| | |] eqn:NN; cbn [obind].
  - destruct I as (l' & E & T' & P & L' & _). rewrite (bind_ok _ _ _ _ _ E).
    specialize (IH l' names' T' L'). unfold bind. rewrite P in IH.
    destruct (interns sps l') as [[is s]| | |]; [|rewrite IH; reflexivity|tauto|tauto].
    unfold ret. rewrite IH. reflexivity.
  - unfold bind. rewrite I. reflexivity.
  - exfalso. unfold number_name in NN. destruct (index_of sp names); [discriminate|]. destruct (_ || _); discriminate.
  - exfalso. unfold number_name in NN. destruct (index_of sp names); [discriminate|]. destruct (_ || _); discriminate.
Qed.
End Probe.

(** ** Consequences for the numbering: equal numbers mean equal names *)
Lemma index_of_in sp names : In sp names -> exists i, index_of sp names = Some i.
Proof.
  induction names as [|n r IH]; cbn; [tauto|]. destruct (list_eq_dec Z.eq_dec sp n) as [->|N]; [eauto|].
  intros [E|E]; [congruence|]. destruct (IH E) as [i ->]. eauto.
Qed.
Lemma number_names_final sps : forall names used is, NoDup names -> number_names names used sps = Ok is ->
  exists ext, NoDup (names ++ ext) /\ Forall2 (fun sp i => 0 <= i /\ nth_error (names ++ ext) (Z.to_nat i) = Some sp) sps is.
Proof.
  induction sps as [|sp sps IH]; intros names used is ND H; cbn [number_names] in H.
  - injection H as <-. exists nil. rewrite app_nil_r. split; [exact ND|constructor].
  - unfold number_name in H. destruct (index_of sp names) as [i|] eqn:IX; cbn [obind] in H.
    + destruct (number_names names used sps) as [is'| | |] eqn:NN; cbn [obind] in H; try discriminate. injection H as <-.
      destruct (IH _ _ _ ND NN) as (ext & N2 & F2). exists ext. split; [exact N2|]. constructor; [|exact F2].
      split; [lia|]. rewrite Nat2Z.id. apply index_of_some in IX. rewrite nth_error_app1; [exact IX|].
      apply nth_error_Some. congruence.
    + destruct (_ || _); [discriminate|]. cbn [obind] in H.
      destruct (number_names _ _ sps) as [is'| | |] eqn:NN; cbn [obind] in H; try discriminate. injection H as <-.
      apply index_of_none in IX.
      assert (N1 : NoDup (names ++ [sp])).
      { apply NoDup_rev in ND. rewrite <- rev_involutive. apply NoDup_rev. rewrite rev_app_distr. cbn.
        constructor; [rewrite <- in_rev; exact IX|exact ND]. }
      destruct (IH _ _ _ N1 NN) as (ext & N2 & F2). exists ([sp] ++ ext). rewrite app_assoc. split; [exact N2|].
      constructor; [|exact F2]. split; [lia|]. rewrite Nat2Z.id, <- app_assoc.
      rewrite nth_error_app2 by lia. rewrite Nat.sub_diag. reflexivity.
Qed.
Theorem number_names_inj names used sps is : NoDup names -> number_names names used sps = Ok is ->
  forall a b spa spb ia ib, nth_error sps a = Some spa -> nth_error sps b = Some spb ->
    nth_error is a = Some ia -> nth_error is b = Some ib -> (ia = ib <-> spa = spb).
Proof.
  intros ND H a b spa spb ia ib A B IA IB. destruct (number_names_final _ _ _ _ ND H) as (ext & N2 & F2).
  assert (G : forall k s i, nth_error sps k = Some s -> nth_error is k = Some i -> 0 <= i /\ nth_error (names ++ ext) (Z.to_nat i) = Some s).
  { clear - F2. revert is F2. induction sps as [|s0 sps IH]; intros is F2 k s i; [destruct k; discriminate|].
    inversion F2; subst. destruct k as [|k]; cbn; [intros [= <-] [= <-]; assumption|]. eauto. }
  destruct (G _ _ _ A IA) as [Pa Na], (G _ _ _ B IB) as [Pb Nb]. split.
  - intros ->. congruence.
  - intros ->. rewrite <- Nb in Na. apply (proj1 (NoDup_nth_error _) N2) in Na; [lia|]. apply nth_error_Some. congruence.
Qed.
