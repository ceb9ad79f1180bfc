(** ParseArgs (lib.h) splits the DOS command tail into words. *)
From Coq Require Import Sorting.Sorted.
From Verif Require Import Base LibH.
Local Open Scope list_scope.

(** * Specification *)
(** characters above the space; bytes from 128 on are negative chars and count as blanks *)
Definition above (c : Z) : Prop := 32 < c < 128.
(** n characters from index i form a maximal run of such characters in t *)
Definition is_word (t : list Z) (i n : nat) : Prop :=
  (0 < n)%nat /\ (forall k, (i <= k < i + n)%nat -> above (nth k t 0)) /\
  (i = 0%nat \/ ~ above (nth (i - 1) t 0)) /\ ~ above (nth (i + n) t 0).
(** the bytes of memory from a on, n of them; and those before the first NUL *)
Fixpoint bytes (m : arr Z) (a : Z) (n : nat) : list Z :=
  match n with O => [] | S k => aget m a :: bytes m (a + 1) k end.
Fixpoint upto0 (l : list Z) : list Z :=
  match l with [] => [] | c :: r => if c =? 0 then [] else c :: upto0 r end.
(** the command tail: as many bytes at 81h as the byte at 80h says, up to a NUL *)
Definition command_tail (m : arr Z) : list Z := upto0 (bytes m 0x81 (Z.to_nat (aget m 0x80 mod 128))).
Definition get16 (m : arr Z) (a : Z) : Z := aget m a + 256 * aget m (a + 1).
(** argv[k] *)
Definition argv (m : arr Z) (k : Z) : Z := get16 m (0x5C + 2 * k).

(** * Memory *)
Lemma put16_out m a v x : x <> a -> x <> a + 1 -> aget (put16 m a v) x = aget m x.
Proof. intros. unfold put16. rewrite !aget_aset_other by auto. reflexivity. Qed.
Lemma get_put16 m a v : 0 <= v < 65536 -> get16 (put16 m a v) a = v.
Proof. intro. unfold get16, put16. rewrite aget_aset_same, aget_aset_other, aget_aset_same by lia. unfold u8. lia. Qed.

(** the string r, terminated, at p *)
Definition holds (m : arr Z) (p : Z) (r : list Z) : Prop :=
  (forall k, (k < length r)%nat -> aget m (p + Z.of_nat k) = nth k r 0) /\ aget m (p + Z.of_nat (length r)) = 0 /\ Forall (fun c => 0 < c < 256) r.
Lemma holds_cons m p c r : holds m p (c :: r) <-> aget m p = c /\ 0 < c < 256 /\ holds m (p + 1) r.
Proof.
  unfold holds. split.
  - intros (H & E & F). inversion F; subst. split; [specialize (H 0%nat); cbn in H; rewrite Z.add_0_r in H; apply H; lia|].
    split; [assumption|]. split; [|split; [|assumption]].
    + intros k K. specialize (H (S k)). cbn [nth length] in H. rewrite <- H by lia. f_equal. lia.
    + rewrite <- E. f_equal. cbn [length]. lia.
  - intros (E & C & H & E2 & F). split; [|split; [|constructor; assumption]].
    + intros [|k] K; [cbn; rewrite Z.add_0_r; exact E|]. cbn [nth length] in *. rewrite <- H by lia. f_equal. lia.
    + rewrite <- E2. f_equal. cbn [length]. lia.
Qed.
Lemma holds_app m p a r : holds m p (a ++ r) -> holds m (p + Z.of_nat (length a)) r.
Proof.
  revert p. induction a as [|c a IH]; intros p H; [cbn; rewrite Z.add_0_r; exact H|].
  cbn [app] in H. apply holds_cons in H. destruct H as (_ & _ & H). apply IH in H. cbn [length].
  replace (p + Z.of_nat (S (length a))) with (p + 1 + Z.of_nat (length a)) by lia. exact H.
Qed.
Lemma holds_ext m m' p r : holds m p r -> (forall a, p <= a -> aget m' a = aget m a) -> holds m' p r.
Proof. intros (H & E & F) X. split; [|split; [|exact F]]; intros; rewrite X by lia; auto. Qed.

(** * The two scanning loops *)
Lemma blank_test c : 0 < c < 256 -> negb (c =? 0) && (s8 c <=? 32) = true <-> ~ above c.
Proof. intro H. unfold above, s8. rewrite Z.mod_small by lia. cbv zeta. destruct (Z.ltb_spec c 128); lia. Qed.
Lemma word_test c : 0 < c < 256 -> negb (c =? 0) && (32 <? s8 c) = true <-> above c.
Proof. intro H. unfold above, s8. rewrite Z.mod_small by lia. cbv zeta. destruct (Z.ltb_spec c 128); lia. Qed.
Lemma skip_blank_spec m : forall r p fuel, holds m p r -> (length r < fuel)%nat ->
  exists b r', r = b ++ r' /\ Forall (fun c => ~ above c) b /\ (r' = [] \/ above (hd 0 r')) /\ skip_blank fuel m p = Ok (p + Z.of_nat (length b)).
Proof.
  induction r as [|c r IH]; intros p fuel H L; (destruct fuel as [|fuel]; [lia|]); cbn [skip_blank].
  - exists [], []. split; [reflexivity|]. split; [constructor|]. split; [tauto|].
    destruct H as (_ & E & _). cbn [length Z.of_nat] in E. rewrite Z.add_0_r in E. rewrite E. cbn. rewrite Z.add_0_r. reflexivity.
  - apply holds_cons in H. destruct H as (E & C & H). rewrite E.
    destruct (negb (c =? 0) && (s8 c <=? 32)) eqn:T.
    + destruct (IH (p + 1) fuel H) as (b & r' & -> & B & R & E2); [cbn in L; lia|].
      exists (c :: b), r'. split; [reflexivity|]. split; [constructor; [apply blank_test; assumption|exact B]|]. split; [exact R|].
      rewrite E2. cbn [length]. f_equal. lia.
    + exists [], (c :: r). split; [reflexivity|]. split; [constructor|]. split.
      * right. cbn [hd]. destruct (Z_lt_dec 32 c); [|exfalso]; [destruct (Z_lt_dec c 128); [split; assumption|exfalso]|].
        -- rewrite (proj2 (blank_test c C)) in T; [discriminate|unfold above; lia].
        -- rewrite (proj2 (blank_test c C)) in T; [discriminate|unfold above; lia].
      * cbn. rewrite Z.add_0_r. reflexivity.
Qed.
Lemma skip_word_spec m : forall r p fuel, holds m p r -> (length r < fuel)%nat ->
  exists b r', r = b ++ r' /\ Forall above b /\ (r' = [] \/ ~ above (hd 0 r')) /\ skip_word fuel m p = Ok (p + Z.of_nat (length b)).
Proof.
  induction r as [|c r IH]; intros p fuel H L; (destruct fuel as [|fuel]; [lia|]); cbn [skip_word].
  - exists [], []. split; [reflexivity|]. split; [constructor|]. split; [tauto|].
    destruct H as (_ & E & _). cbn [length Z.of_nat] in E. rewrite Z.add_0_r in E. rewrite E. cbn. rewrite Z.add_0_r. reflexivity.
  - apply holds_cons in H. destruct H as (E & C & H). rewrite E.
    destruct (negb (c =? 0) && (32 <? s8 c)) eqn:T.
    + destruct (IH (p + 1) fuel H) as (b & r' & -> & B & R & E2); [cbn in L; lia|].
      exists (c :: b), r'. split; [reflexivity|]. split; [constructor; [apply word_test; assumption|exact B]|]. split; [exact R|].
      rewrite E2. cbn [length]. f_equal. lia.
    + exists [], (c :: r). split; [reflexivity|]. split; [constructor|]. split.
      * right. cbn [hd]. intro A. apply (word_test c C) in A. congruence.
      * cbn. rewrite Z.add_0_r. reflexivity.
Qed.

(** * Words of a list with a known start *)
Lemma not_above_0 : ~ above 0.
Proof. unfold above. lia. Qed.
Lemma nth_blank b k : Forall (fun c => ~ above c) b -> (k < length b)%nat -> ~ above (nth k b 0).
Proof. intros F L. rewrite Forall_forall in F. apply F, nth_In, L. Qed.
Lemma nth_above w k : Forall above w -> (k < length w)%nat -> above (nth k w 0).
Proof. intros F L. rewrite Forall_forall in F. apply F, nth_In, L. Qed.
Lemma no_words b i n : Forall (fun c => ~ above c) b -> ~ is_word b i n.
Proof.
  intros F (P & A & _). specialize (A i). assert (H : above (nth i b 0)) by (apply A; lia).
  destruct (Nat.lt_ge_cases i (length b)) as [L|L]; [exact (nth_blank b i F L H)|].
  rewrite nth_overflow in H by exact L. exact (not_above_0 H).
Qed.
(** blanks b, a word w, a blank c, and r2 *)
Lemma first_word b w r2 i n : Forall (fun c => ~ above c) b -> Forall above w -> w <> [] -> (r2 = [] \/ ~ above (hd 0 r2)) ->
  is_word (b ++ w ++ r2) i n <->
  (i = length b /\ n = length w) \/ ((length b + length w + 1 <= i)%nat /\ is_word (tl r2) (i - (length b + length w + 1)) n).
Proof.
  intros B Wd Ne R.
  assert (N0 : forall k, (k < length b)%nat -> ~ above (nth k (b ++ w ++ r2) 0)).
  { intros k K. rewrite app_nth1 by exact K. apply nth_blank; assumption. }
  assert (N1 : forall k, (length b <= k < length b + length w)%nat -> above (nth k (b ++ w ++ r2) 0)).
  { intros k K. rewrite app_nth2, app_nth1 by lia. apply nth_above; [assumption|lia]. }
  assert (N2 : ~ above (nth (length b + length w) (b ++ w ++ r2) 0)).
  { rewrite app_nth2, app_nth2 by lia. replace (length b + length w - length b - length w)%nat with 0%nat by lia.
    destruct R as [->|R]; [exact not_above_0|]. destruct r2; exact R. }
  assert (N3 : forall k, nth (length b + length w + 1 + k) (b ++ w ++ r2) 0 = nth k (tl r2) 0).
  { intro k. rewrite app_nth2, app_nth2 by lia. replace (length b + length w + 1 + k - length b - length w)%nat with (S k) by lia.
    destruct r2 as [|c r2]; cbn [nth tl]; [destruct k; reflexivity|reflexivity]. }
  set (t := b ++ w ++ r2) in *. clearbody t. assert (Lw : (0 < length w)%nat) by (destruct w; [contradiction|cbn; lia]).
  split.
  - intros (P & A & S & E).
    destruct (Nat.lt_ge_cases i (length b)) as [L|L].
    { exfalso. apply (N0 i L). apply A. lia. }
    destruct (Nat.lt_ge_cases i (length b + length w)) as [L2|L2].
    + left. assert (i = length b).
      { destruct S as [S|S]; [lia|]. destruct (Nat.eq_dec i (length b)); [assumption|]. exfalso. apply S, N1. lia. }
      subst i. split; [reflexivity|].
      destruct (Nat.lt_trichotomy n (length w)) as [Hn|[Hn|Hn]]; [exfalso|exact Hn|exfalso].
      * apply E, N1. lia.
      * apply N2, A. lia.
    + right. assert (i <> (length b + length w)%nat) by (intros ->; apply N2, A; lia).
      split; [lia|]. set (j := (i - (length b + length w + 1))%nat).
      assert (Hi : i = (length b + length w + 1 + j)%nat) by (unfold j; lia). rewrite Hi in A, S, E. clear Hi.
      split; [exact P|]. split; [|split].
      * intros k K. rewrite <- N3. apply A. lia.
      * destruct (Nat.eq_dec j 0) as [J|J]; [left; exact J|right]. destruct S as [S|S]; [lia|].
        rewrite <- N3. replace (length b + length w + 1 + (j - 1))%nat with (length b + length w + 1 + j - 1)%nat by lia. exact S.
      * rewrite <- N3. rewrite Nat.add_assoc. exact E.
  - intros [[-> ->]|[L (P & A & S & E)]].
    + split; [exact Lw|]. split; [intros; apply N1; lia|]. split; [|exact N2].
      destruct (Nat.eq_dec (length b) 0) as [Z0|Z0]; [left; exact Z0|right; apply N0; lia].
    + set (j := (i - (length b + length w + 1))%nat) in *.
      assert (Hi : i = (length b + length w + 1 + j)%nat) by (unfold j; lia). rewrite Hi. clear Hi.
      split; [exact P|]. split; [|split].
      * intros k K. replace k with (length b + length w + 1 + (k - (length b + length w + 1)))%nat by lia. rewrite N3. apply A. lia.
      * right. destruct (Nat.eq_dec j 0) as [J|J].
        -- rewrite J. replace (length b + length w + 1 + 0 - 1)%nat with (length b + length w)%nat by lia. exact N2.
        -- destruct S as [S|S]; [lia|]. replace (length b + length w + 1 + j - 1)%nat with (length b + length w + 1 + (j - 1))%nat by lia. rewrite N3. exact S.
      * rewrite <- Nat.add_assoc. rewrite N3. exact E.
Qed.

(** * The main loop *)
Definition shift (o : nat) (x : nat * nat) : nat * nat := ((o + fst x)%nat, snd x).
Definition before (x y : nat * nat) : Prop := (fst x < fst y)%nat.

Lemma args_loop_spec : forall fuel r m p n, (length r + 1 < fuel)%nat -> holds m p r -> ARGV + 2 * n + 1 < p -> 0 <= n -> p + Z.of_nat (length r) < 65535 ->
  exists ws m', args_loop fuel m p n = Ok (m', n + Z.of_nat (length ws)) /\
    StronglySorted before ws /\ (forall i l, In (i, l) ws <-> is_word r i l) /\
    (forall k i l, nth_error ws k = Some (i, l) -> get16 m' (ARGV + 2 * (n + Z.of_nat k)) = p + Z.of_nat i) /\
    (forall a, a < ARGV + 2 * n \/ ARGV + 2 * (n + Z.of_nat (length ws)) <= a -> a < p -> aget m' a = aget m a) /\
    (forall i l, In (i, l) ws -> ARGV + 2 * (n + Z.of_nat (length ws)) <= p + Z.of_nat i ->
       (forall k, (k < l)%nat -> aget m' (p + Z.of_nat (i + k)) = nth (i + k) r 0) /\ aget m' (p + Z.of_nat (i + l)) = 0).
Proof.
  induction fuel as [|fuel IH]; intros r m p n L H Ar N Bd; [lia|]. cbn [args_loop].
  destruct (skip_blank_spec m r p fuel H) as (b & r1 & -> & B & R1 & E1); [lia|]. rewrite E1. cbn [obind].
  pose proof (holds_app _ _ _ _ H) as H1. rewrite app_length in L, Bd.
  set (p1 := p + Z.of_nat (length b)) in *.
  destruct (Z.eqb_spec (aget m p1) 0) as [Z0|Z0].
  - (* nothing but blanks left *)
    assert (r1 = []) as ->.
    { destruct r1 as [|c r1]; [reflexivity|]. apply holds_cons in H1. lia. }
    exists [], m. rewrite app_nil_r in *. cbn [length Z.of_nat]. rewrite Z.add_0_r.
    split; [reflexivity|]. split; [constructor|]. split; [|split; [|split]].
    + intros i l. split; [intros []|]. intro Wd. exact (no_words b i l B Wd).
    + intros [|k] i l Hk; discriminate.
    + auto.
    + intros i l [].
  - destruct r1 as [|c1 r1]. { exfalso. apply Z0. destruct H1 as (_ & E & _). cbn in E. rewrite Z.add_0_r in E. exact E. }
    set (m1 := put16 m (ARGV + 2 * n) p1).
    assert (M1 : forall a, p <= a -> aget m1 a = aget m a) by (intros a Ha; apply put16_out; lia).
    assert (H1' : holds m1 p1 (c1 :: r1)) by (apply (holds_ext m); [exact H1|intros a Ha; apply M1; unfold p1 in Ha; lia]).
    destruct (skip_word_spec m1 (c1 :: r1) p1 fuel H1') as (w & r2 & Ew & Wd & R2 & E2); [lia|]. rewrite E2. cbn [obind].
    assert (Wn : w <> []).
    { intros ->. cbn [app] in Ew. subst r2. destruct R1 as [R1|R1]; [discriminate|]. destruct R2 as [R2|R2]; [discriminate|]. contradiction. }
    assert (Lw : (0 < length w)%nat) by (destruct w; [contradiction|cbn; lia]).
    rewrite Ew in *. rewrite app_length in L, Bd.
    pose proof (holds_app _ _ _ _ H1') as H2. set (p2 := p1 + Z.of_nat (length w)) in *.
    assert (Wb : forall k, (k < length w)%nat -> aget m (p + Z.of_nat (length b + k)) = nth (length b + k) (b ++ w ++ r2) 0).
    { intros k K. destruct H as (H & _). apply H. rewrite !app_length. lia. }
    assert (P1 : 0 <= p1 < 65536) by (unfold p1, ARGV in *; lia).
    destruct (Z.eqb_spec (aget m1 p2) 0) as [Z2|Z2].
    + (* the last word, ended by the terminator *)
      assert (r2 = []) as ->.
      { destruct r2 as [|c r2]; [reflexivity|]. apply holds_cons in H2. lia. }
      exists [(length b, length w)], m1. cbn [length Z.of_nat Pos.of_succ_nat]. 
      split; [reflexivity|]. split; [repeat constructor|]. split; [|split; [|split]].
      * intros i l. rewrite first_word by (assumption || (left; reflexivity)). cbn [In]. split.
        -- intros [E|[]]. injection E as <- <-. auto.
        -- intros [[-> ->]|[_ Q]]; [auto|]. exfalso. cbn [tl] in Q. exact (no_words [] _ _ (Forall_nil _) Q).
      * intros [|[|k]] i l Hk; try discriminate. injection Hk as <- <-. cbn [Z.of_nat]. rewrite Z.add_0_r.
        unfold m1. rewrite get_put16 by exact P1. reflexivity.
      * intros a [Ha|Ha] Hp; apply put16_out; lia.
      * intros i l [E|[]] _. injection E as <- <-. split.
        -- intros k K. rewrite M1 by lia. apply Wb, K.
        -- replace (p + Z.of_nat (length b + length w)) with p2 by (unfold p2, p1; lia). exact Z2.
    + (* a word ended by a blank, and the rest *)
      destruct r2 as [|c2 r2]. { exfalso. apply Z2. destruct H2 as (_ & E & _). cbn in E. rewrite Z.add_0_r in E. exact E. }
      cbn [length] in L, Bd.
      set (m2 := aset m1 p2 0).
      assert (H3 : holds m2 (p2 + 1) r2).
      { apply holds_cons in H2. apply (holds_ext m1); [apply H2|]. intros a Ha. unfold m2. apply aget_aset_other. lia. }
      destruct (IH r2 m2 (p2 + 1) (n + 1)) as (ws & m' & E3 & Srt & Wds & Ptr & Fr & Str).
      { lia. } { exact H3. } { unfold p2, p1. lia. } { lia. } { unfold p2, p1. lia. }
      exists ((length b, length w) :: map (shift (length b + length w + 1)) ws), m'.
      cbn [length]. rewrite map_length.
      assert (Nn : n + 1 + Z.of_nat (length ws) = n + Z.of_nat (S (length ws))) by lia. rewrite Nn in *.
      split; [exact E3|]. split; [|split; [|split; [|split]]].
      * constructor.
        -- clear - Srt. induction Srt as [|x l Sl IHs Fx]; cbn [map]; [constructor|]. constructor; [exact IHs|].
           rewrite Forall_map. eapply Forall_impl; [|exact Fx]. unfold before, shift. cbn. intros. lia.
        -- rewrite Forall_map. apply Forall_forall. intros x _. unfold before, shift. cbn. lia.
      * intros i l. rewrite first_word by assumption. cbn [In tl]. rewrite in_map_iff. split.
        -- intros [E|((j & l') & E & I)]; [injection E as <- <-; auto|]. right. unfold shift in E. cbn [fst snd] in E. injection E as <- <-.
           split; [lia|]. replace (length b + length w + 1 + j - (length b + length w + 1))%nat with j by lia. apply Wds, I.
        -- intros [[-> ->]|[Q1 Q2]]; [auto|]. right. apply Wds in Q2. exists ((i - (length b + length w + 1))%nat, l).
           split; [|exact Q2]. unfold shift. cbn [fst snd]. f_equal. lia.
      * intros [|k] i l Hk; cbn [nth_error] in Hk.
        -- injection Hk as <- <-. cbn [Z.of_nat]. rewrite Z.add_0_r.
           unfold get16. rewrite !Fr by (unfold p2, p1; lia). unfold m2. rewrite !aget_aset_other by (unfold p2, p1; lia).
           fold (get16 m1 (ARGV + 2 * n)). unfold m1. rewrite get_put16 by exact P1. reflexivity.
        -- rewrite nth_error_map in Hk. destruct (nth_error ws k) as [[j l']|] eqn:Ek; [|discriminate].
           injection Hk as <- <-. replace (n + Z.of_nat (S k)) with (n + 1 + Z.of_nat k) by lia. rewrite (Ptr _ _ _ Ek).
           unfold p2, p1. lia.
      * intros a Ha Hp. rewrite Fr by (unfold p2, p1; lia). unfold m2. rewrite aget_aset_other by (unfold p2, p1; lia).
        apply put16_out; lia.
      * intros i l [E|I] Hh.
        -- injection E as <- <-. split.
           ++ intros k K. rewrite Fr by (unfold p2, p1; lia). unfold m2. rewrite aget_aset_other by (unfold p2, p1; lia).
              rewrite M1 by lia. apply Wb, K.
           ++ replace (p + Z.of_nat (length b + length w)) with p2 by (unfold p2, p1; lia).
              rewrite Fr by (unfold p2, p1 in *; lia). apply aget_aset_same.
        -- apply in_map_iff in I. destruct I as ((j & l') & E & I). unfold shift in E. cbn [fst snd] in E. injection E as <- <-.
           destruct (Str _ _ I) as [S1 S2]; [unfold p2, p1; lia|]. split.
           ++ intros k K. replace (p + Z.of_nat (length b + length w + 1 + j + k)) with (p2 + 1 + Z.of_nat (j + k)) by (unfold p2, p1; lia).
              rewrite S1 by exact K. rewrite (app_assoc b w), app_nth2 by (rewrite app_length; lia).
              replace (length b + length w + 1 + j + k - length (b ++ w))%nat with (S (j + k)) by (rewrite app_length; lia). reflexivity.
           ++ rewrite <- S2. f_equal. unfold p2, p1. lia.
Qed.

Lemma bytes_length m a n : length (bytes m a n) = n.
Proof. revert a. induction n; intro; cbn; auto. Qed.
Lemma upto0_holds m' m n : (forall x, 0 <= aget m x < 256) -> forall a, (forall x, a <= x < a + Z.of_nat n -> aget m' x = aget m x) -> aget m' (a + Z.of_nat n) = 0 ->
  holds m' a (upto0 (bytes m a n)) /\ (length (upto0 (bytes m a n)) <= n)%nat.
Proof.
  intro Mb. induction n as [|n IH]; intros a E Z0; cbn [bytes upto0].
  - cbn [Z.of_nat] in Z0. rewrite Z.add_0_r in Z0. split; [|cbn; lia]. split; [cbn; intros; lia|]. split; [cbn; rewrite Z.add_0_r; exact Z0|constructor].
  - destruct (IH (a + 1)) as [H L].
    { intros x X. apply E. lia. } { rewrite <- Z0. f_equal. lia. }
    destruct (Z.eqb_spec (aget m a) 0) as [A0|A0].
    + split; [|cbn; lia]. split; [cbn; intros; lia|]. split; [cbn; rewrite Z.add_0_r, E by lia; exact A0|constructor].
    + split; [|cbn [length]; lia]. apply holds_cons. split; [apply E; lia|]. split; [pose proof (Mb a); lia|exact H].
Qed.

Theorem ParseArgs_words fuel q m : (200 <= fuel)%nat -> (forall x, 0 <= aget m x < 256) -> 0 <= q < 65536 ->
  let t := command_tail m in
  exists m' ws, ParseArgs fuel q m = Ok (m', 1 + Z.of_nat (length ws)) /\
    (* ws lists the words of the tail, as (start, length), from left to right *)
    StronglySorted before ws /\ (forall i l, In (i, l) ws <-> is_word t i l) /\
    argv m' 0 = q /\ argv m' (1 + Z.of_nat (length ws)) = 0 /\
    (forall k i l, nth_error ws k = Some (i, l) -> argv m' (1 + Z.of_nat k) = 0x81 + Z.of_nat i) /\
    (* the text of a word that the argument vector does not reach is in place, terminated *)
    (forall i l, In (i, l) ws -> 0x5C + 2 * (1 + Z.of_nat (length ws)) + 1 < 0x81 + Z.of_nat i ->
       (forall k, (k < l)%nat -> aget m' (0x81 + Z.of_nat i + Z.of_nat k) = nth (i + k) t 0) /\
       aget m' (0x81 + Z.of_nat i + Z.of_nat l) = 0).
Proof.
  intros Fu Mb Q t. unfold ParseArgs.
  change 127 with (Z.ones 7). rewrite Z.land_ones by lia. change (2 ^ 7) with 128.
  set (len := aget m 128 mod 128). assert (Ln : 0 <= len < 128) by (apply Z.mod_pos_bound; lia).
  set (m1 := aset m (129 + len) 0). set (m2 := put16 m1 ARGV q).
  destruct (upto0_holds m2 m (Z.to_nat len) Mb 129) as [H L].
  { intros x X. unfold m2, m1. rewrite put16_out by (unfold ARGV; lia). apply aget_aset_other. lia. }
  { rewrite Z2Nat.id by lia. unfold m2, m1. rewrite put16_out by (unfold ARGV; lia). apply aget_aset_same. }
  fold len in t. change (upto0 (bytes m 129 (Z.to_nat len))) with t in *.
  destruct (args_loop_spec fuel t m2 129 1) as (ws & m' & E & Srt & Wds & Ptr & Fr & Str); auto; try (unfold ARGV; lia).
  set (N := 1 + Z.of_nat (length ws)) in *.
  exists (put16 m' (ARGV + 2 * N) 0), ws. rewrite E. cbn [obind]. split; [reflexivity|].
  split; [exact Srt|]. split; [exact Wds|].
  assert (Keep : forall k, 0 <= k < N -> argv (put16 m' (ARGV + 2 * N) 0) k = argv m' k).
  { intros k K. unfold argv, get16. rewrite !put16_out by (unfold ARGV; lia). reflexivity. }
  split; [|split; [|split]].
  - rewrite Keep by (unfold N; lia). unfold argv, get16. rewrite !Fr by (unfold ARGV; lia).
    change (92 + 2 * 0) with ARGV. fold (get16 m2 ARGV). apply get_put16, Q.
  - unfold argv. apply get_put16. lia.
  - intros k i l Hk. assert (k < length ws)%nat by (apply nth_error_Some; congruence).
    rewrite Keep by (unfold N; lia). apply (Ptr _ _ _ Hk).
  - intros i l I Hh. destruct (Str i l I) as [S1 S2]; [unfold ARGV; lia|]. split.
    + intros k K. rewrite put16_out by (unfold ARGV; lia). rewrite <- (S1 k K). f_equal. lia.
    + rewrite put16_out by (unfold ARGV; lia). rewrite <- S2. f_equal. lia.
Qed.
