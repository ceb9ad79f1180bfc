(** Proofs about the tank game model of Swar.v. *)
From Coq Require Import ZArith List Bool Lia.
From Verif Require Import Base Swar.
Import ListNotations.
Open Scope Z_scope.

(** * Specification vocabulary *)
(** the video memory holds bytes *)
Definition bytes (m : arr Z) : Prop := forall a, 0 <= aget m a < 256.
Definition on_screen (x y : Z) : Prop := 0 <= x < 320 /\ 0 <= y < 200.
(** the picture in the frame buffer is p *)
Definition shows (m : arr Z) (p : Z -> Z -> Z) : Prop :=
  bytes m /\ forall x y, on_screen x y -> ReadPixel m x y = Ok (p x y).
(** the picture p with one pixel painted *)
Definition paint (p : Z -> Z -> Z) (x y c : Z) : Z -> Z -> Z :=
  fun x' y' => if (x' =? x) && (y' =? y) then c else p x' y'.

(** * Finite ranges *)
Fixpoint zrange (a : Z) (n : nat) : list Z := match n with O => [] | S n => a :: zrange (a + 1) n end.
Lemma zrange_in n : forall a z, a <= z < a + Z.of_nat n -> In z (zrange a n).
Proof. induction n as [|n IH]; intros a z H; [lia|]. cbn [zrange]. destruct (Z.eq_dec a z); [left; assumption|right; apply IH; lia]. Qed.
Lemma forall_range (P : Z -> bool) a n : forallb P (zrange a n) = true -> forall z, a <= z < a + Z.of_nat n -> P z = true.
Proof. intros H z R. rewrite forallb_forall in H. apply H, zrange_in, R. Qed.

(** * Pixels *)
Lemma YTab_eq y : 0 <= y < 200 -> YTab y = y / 2 * 80 + y mod 2 * 8192.
Proof.
  intro H. apply Z.eqb_eq.
  apply (forall_range (fun y => YTab y =? y / 2 * 80 + y mod 2 * 8192) 0 200); [vm_compute; reflexivity|lia].
Qed.
Definition cell (x y : Z) : Z := x / 4 + y / 2 * 80 + y mod 2 * 8192.
Lemma cell_range x y : on_screen x y -> 0 <= cell x y < 16384.
Proof. unfold on_screen, cell. lia. Qed.
Lemma cell_inj x y x' y' : on_screen x y -> on_screen x' y' -> cell x y = cell x' y' -> x / 4 = x' / 4 /\ y = y'.
Proof. unfold on_screen, cell. lia. Qed.
Definition bits (b r : Z) : Z := Z.land (Z.shiftr b (Z.shiftl (3 - r) 1)) 3.
Lemma read_eq m x y : on_screen x y -> ReadPixel m x y = Ok (bits (aget m (cell x y)) (x mod 4)).
Proof.
  intros [X Y]. unfold ReadPixel, ytab, SCREENH. destruct (Z.leb_spec 0 y); [|lia]. destruct (Z.ltb_spec y 200); [|lia].
  cbn [andb obind]. rewrite YTab_eq by lia.
  replace (Z.land x 3) with (x mod 4) by (symmetry; apply (Z.land_ones x 2); lia). rewrite (Z.shiftr_div_pow2 x 2) by lia. change (2 ^ 2) with 4.
  rewrite s16_small by lia. replace (x / 4 + (y / 2 * 80 + y mod 2 * 8192)) with (cell x y) by (unfold cell; lia).
  pose proof (cell_range x y (conj X Y)) as C. unfold FarPeek. destruct (Z.leb_spec 0 (cell x y)); [|lia]. destruct (Z.ltb_spec (cell x y) 16384); [|lia].
  reflexivity.
Qed.
Definition merge (old r c : Z) : Z := (Z.lor (Z.land old (XMask r)) (Col c r)) mod 256.
Lemma put_eq m x y c : on_screen x y -> PutPixel m x y c = Ok (aset m (cell x y) (merge (aget m (cell x y)) (x mod 4) c)).
Proof.
  intros [X Y]. unfold PutPixel, ytab, SCREENH. destruct (Z.leb_spec 0 y); [|lia]. destruct (Z.ltb_spec y 200); [|lia].
  cbn [andb obind]. rewrite YTab_eq by lia.
  replace (Z.land x 3) with (x mod 4) by (symmetry; apply (Z.land_ones x 2); lia). rewrite (Z.shiftr_div_pow2 x 2) by lia. change (2 ^ 2) with 4.
  rewrite s16_small by lia. replace (x / 4 + (y / 2 * 80 + y mod 2 * 8192)) with (cell x y) by (unfold cell; lia).
  pose proof (cell_range x y (conj X Y)) as C. unfold FarPeek, FarPoke. destruct (Z.leb_spec 0 (cell x y)); [|lia]. destruct (Z.ltb_spec (cell x y) 16384); [|lia].
  reflexivity.
Qed.
Lemma merge_bits old r c r' : 0 <= old < 256 -> 0 <= r < 4 -> 0 <= c < 4 -> 0 <= r' < 4 ->
  bits (merge old r c) r' = if r' =? r then c else bits old r'.
Proof.
  intros O R C R'. apply Z.eqb_eq.
  assert (G : forallb (fun old => forallb (fun r => forallb (fun c => forallb (fun r' =>
     bits (merge old r c) r' =? (if r' =? r then c else bits old r')) (zrange 0 4)) (zrange 0 4)) (zrange 0 4)) (zrange 0 256) = true)
    by (vm_compute; reflexivity).
  pose proof (forall_range _ _ _ G old) as G1. cbv beta in G1. specialize (G1 ltac:(lia)).
  pose proof (forall_range _ _ _ G1 r) as G2. cbv beta in G2. specialize (G2 ltac:(lia)).
  pose proof (forall_range _ _ _ G2 c) as G3. cbv beta in G3. specialize (G3 ltac:(lia)).
  exact (forall_range _ _ _ G3 r' ltac:(lia)).
Qed.
Lemma bits_range b r : 0 <= bits b r < 4.
Proof. unfold bits. set (v := Z.shiftr _ _). replace (Z.land v 3) with (v mod 4) by (symmetry; apply (Z.land_ones v 2); lia). lia. Qed.

Lemma put_shows m p x y c : shows m p -> on_screen x y -> 0 <= c < 4 ->
  exists m', PutPixel m x y c = Ok m' /\ shows m' (paint p x y c) /\
    exists a, 0 <= a < 16384 /\ forall b, b <> a -> aget m' b = aget m b.
Proof.
  intros [B S] O C. rewrite (put_eq m x y c O). eexists. split; [reflexivity|]. split; [split|].
  - intro a. rewrite aget_aset. destruct (_ =? _); [unfold merge; apply Z.mod_pos_bound; lia|apply B].
  - intros x' y' O'. rewrite read_eq by assumption. rewrite aget_aset. unfold paint.
    pose proof (S x' y' O') as S'. rewrite read_eq in S' by assumption.
    destruct (Z.eqb_spec (cell x y) (cell x' y')) as [E|E].
    + destruct (cell_inj _ _ _ _ O O' E) as [E1 E2]. rewrite E. rewrite merge_bits; [|apply B|lia|lia|lia].
      subst y'. rewrite Z.eqb_refl, andb_true_r.
      destruct (Z.eqb_spec (x' mod 4) (x mod 4)); destruct (Z.eqb_spec x' x); try reflexivity; try exact S'; exfalso; lia.
    + destruct (Z.eqb_spec x' x); destruct (Z.eqb_spec y' y); cbn [andb]; try exact S'. subst. contradiction.
  - exists (cell x y). split; [apply cell_range, O|]. intros b Hb. apply aget_aset_other. congruence.
Qed.
Lemma shows_read m : bytes m -> exists p, shows m p /\ forall x y, 0 <= p x y < 4.
Proof.
  intro B. exists (fun x y => bits (aget m (cell x y)) (x mod 4)). split; [split; [exact B|]|]; intros.
  - apply read_eq; assumption.
  - apply bits_range.
Qed.

(** * Trigonometry *)
Lemma land_mod n k : 0 <= k -> Z.land n (Z.ones k) = n mod 2 ^ k.
Proof. intro. apply Z.land_ones. assumption. Qed.
Lemma ICos_period a : ICos a = ICos (a mod 256).
Proof.
  unfold ICos. assert (Q : Z.land (Z.shiftr a 6) 3 = Z.land (Z.shiftr (a mod 256) 6) 3).
  { change 3 with (Z.ones 2). rewrite !land_mod, !Z.shiftr_div_pow2 by lia. change (2 ^ 6) with 64. change (2 ^ 2) with 4. lia. }
  rewrite <- Q. cbv zeta. set (q := Z.land (Z.shiftr a 6) 3).
  assert (I : Z.land (if Z.land q 1 =? 1 then s16 (- a) else a) 63 = Z.land (if Z.land q 1 =? 1 then s16 (- (a mod 256)) else a mod 256) 63).
  { change 63 with (Z.ones 6). rewrite !land_mod by lia. change (2 ^ 6) with 64. destruct (_ =? 1); [|lia].
    unfold s16. cbv zeta. destruct (_ <? _); destruct (_ <? _); lia. }
  rewrite I. reflexivity.
Qed.
Definition trig_ok (a : Z) : bool :=
  (-256 <=? ICos a) && (ICos a <=? 256) && (ICos a =? ICos ((- a) mod 256)) && (ICos a =? - ICos ((a + 128) mod 256)).
Lemma trig_table a : trig_ok (a mod 256) = true.
Proof. apply (forall_range trig_ok 0 256); [vm_compute; reflexivity|]. change (Z.of_nat 256) with 256. lia. Qed.
Lemma ICos_bound a : -256 <= ICos a <= 256.
Proof. rewrite ICos_period. pose proof (trig_table a) as T. unfold trig_ok in T. lia. Qed.
Lemma ICos_even a : ICos (- a) = ICos a.
Proof.
  rewrite (ICos_period (- a)), (ICos_period a). pose proof (trig_table a) as T. unfold trig_ok in T.
  replace ((- a) mod 256) with ((- (a mod 256)) mod 256) by lia. lia.
Qed.
Lemma ICos_half a : ICos (a + 128) = - ICos a.
Proof.
  rewrite (ICos_period (a + 128)), (ICos_period a). pose proof (trig_table a) as T. unfold trig_ok in T.
  replace ((a + 128) mod 256) with ((a mod 256 + 128) mod 256) by lia. lia.
Qed.
Lemma s16_mod256 a : s16 a mod 256 = a mod 256.
Proof. unfold s16. cbv zeta. destruct (_ <? _); lia. Qed.
Lemma ISin_cos a : ISin a = ICos (a - 64).
Proof. unfold ISin. rewrite ICos_period, s16_mod256, <- ICos_period. reflexivity. Qed.
Definition sum_ok (a b : Z) : bool := Z.abs (ICos a * ICos b - ICos (a - 64) * ICos (b - 64) - 256 * ICos (a + b)) <=? 574.
Lemma sum_table : forallb (fun a => forallb (sum_ok a) (zrange 0 256)) (zrange 0 256) = true.
Proof. vm_compute. reflexivity. Qed.
Lemma ICos_sum a b : Z.abs (ICos a * ICos b - ISin a * ISin b - 256 * ICos (a + b)) <= 574.
Proof.
  rewrite !ISin_cos.
  pose proof (forall_range _ _ _ sum_table (a mod 256)) as G. cbv beta in G. specialize (G ltac:(change (Z.of_nat 256) with 256; lia)).
  pose proof (forall_range _ _ _ G (b mod 256)) as G2. specialize (G2 ltac:(change (Z.of_nat 256) with 256; lia)). clear G.
  unfold sum_ok in G2.
  rewrite (ICos_period a), (ICos_period b), (ICos_period (a - 64)), (ICos_period (b - 64)), (ICos_period (a + b)).
  rewrite (ICos_period (a mod 256 - 64)), (ICos_period (b mod 256 - 64)), (ICos_period (a mod 256 + b mod 256)) in G2.
  replace ((a mod 256 - 64) mod 256) with ((a - 64) mod 256) in G2 by lia.
  replace ((b mod 256 - 64) mod 256) with ((b - 64) mod 256) in G2 by lia.
  replace ((a mod 256 + b mod 256) mod 256) with ((a + b) mod 256) in G2 by lia.
  apply Z.leb_le. exact G2.
Qed.
(** strictly decreasing over the half-circle 1..127, apart from equal neighbours near the ends *)
Lemma ICos_mono a b : 0 <= a -> a <= b -> b <= 128 -> ICos b <= ICos a.
Proof.
  intros A B C.
  assert (G : forallb (fun a => ICos (a + 1) <=? ICos a) (zrange 0 128) = true) by (vm_compute; reflexivity).
  replace b with (a + Z.of_nat (Z.to_nat (b - a))) in * by lia.
  induction (Z.to_nat (b - a)) as [|n IH]; [replace (a + Z.of_nat 0) with a by lia; lia|].
  etransitivity; [|apply IH; lia].
  replace (a + Z.of_nat (S n)) with (a + Z.of_nat n + 1) by lia.
  apply Z.leb_le. apply (forall_range _ _ _ G). lia.
Qed.

(** * Random slopes and terrain *)
(** the seeds from which drawing a slope hangs, now or later *)
Definition stuck : list Z := [-31367; -27656; -22405; -16646; -13828; -8323; -6914; -3457].
Definition is_stuck (z : Z) : bool := existsb (Z.eqb z) stuck.
Definition slope_ok (seed : Z) : bool :=
  is_stuck seed ||
  match slope 13 seed with
  | Ok (seed', s) => (-32768 <=? seed') && (seed' <? 32768) && negb (is_stuck seed') && (0 <=? s) && (s <=? 6)
  | _ => false
  end.
Lemma slope_table : forallb slope_ok (zrange (-32768) (Z.to_nat 65536)) = true.
Proof. vm_compute. reflexivity. Qed.
Lemma slope_more f : forall k seed r, slope k seed = Ok r -> (k <= f)%nat -> slope f seed = Ok r.
Proof.
  induction f as [|f IH]; intros [|k] seed r H L; try discriminate; try lia. cbn [slope] in *.
  destruct (Rand seed) as [s' v]. destruct (_ =? 7); [|exact H]. eapply IH; [exact H|lia].
Qed.
Lemma slope_ends f seed : (13 <= f)%nat -> -32768 <= seed < 32768 -> ~ In seed stuck ->
  exists seed' s, slope f seed = Ok (seed', s) /\ -32768 <= seed' < 32768 /\ ~ In seed' stuck /\ 0 <= s <= 6.
Proof.
  intros F R N. pose proof (forall_range _ _ _ slope_table seed) as G. specialize (G ltac:(lia)). unfold slope_ok in G.
  assert (S0 : is_stuck seed = false).
  { destruct (is_stuck seed) eqn:E; [|reflexivity]. unfold is_stuck in E. apply existsb_exists in E. destruct E as (x & I & E). apply Z.eqb_eq in E. subst. contradiction. }
  rewrite S0 in G. cbn [orb] in G. destruct (slope 13 seed) as [[seed' s]| | |] eqn:E; try discriminate.
  exists seed', s. split; [exact (slope_more f _ _ _ E F)|].
  apply andb_prop in G. destruct G as [G G1]. apply andb_prop in G. destruct G as [G G2]. apply andb_prop in G. destruct G as [G G3].
  apply andb_prop in G. destruct G as [G G4]. split; [lia|]. split; [|lia].
  intro I. unfold is_stuck in G3. destruct (existsb (Z.eqb seed') stuck) eqn:X; [discriminate|].
  assert (existsb (Z.eqb seed') stuck = true) by (apply existsb_exists; exists seed'; split; [exact I|apply Z.eqb_refl]). congruence.
Qed.
Lemma slope_hangs f : slope f (-3457) = OutOfFuel.
Proof. induction f as [|f IH]; [reflexivity|]. change (slope (S f) (-3457)) with (slope f (-3457)). exact IH. Qed.

(** one height after another, within 20..180, neighbours at most 3 apart *)
Fixpoint hilly (g : list Z) : Prop :=
  match g with
  | [] => True
  | y :: g' => 20 <= y <= 180 /\ match g' with [] => True | y' :: _ => Z.abs (y' - y) <= 3 end /\ hilly g'
  end.
Lemma terrain_ends f n : forall seed y, (13 <= f)%nat -> -32768 <= seed < 32768 -> ~ In seed stuck -> 0 <= y <= 200 ->
  exists g, terrain f n seed y = Ok g /\ length g = n /\ hilly g /\
    match g with [] => True | y0 :: _ => y0 = (if y <? 20 then 20 else if 180 <? y then 180 else y) end.
Proof.
  induction n as [|n IH]; intros seed y F R N Y.
  - exists []. repeat split.
  - cbn [terrain]. unfold SCREENH. change (200 - 20) with 180.
    destruct (slope_ends f seed F R N) as (seed' & s & E & R' & N' & S). rewrite E. cbn [obind].
    set (y0 := if y <? 20 then 20 else if 180 <? y then 180 else y).
    assert (Y0 : 20 <= y0 <= 180) by (unfold y0; destruct (Z.ltb_spec y 20); [lia|]; destruct (Z.ltb_spec 180 y); lia).
    rewrite (s16_small (s - 3)) by lia. rewrite s16_small by lia.
    destruct (IH seed' (y0 + (s - 3)) F R' N' ltac:(lia)) as (g & E1 & L & H & D). rewrite E1. cbn [obind].
    exists (y0 :: g). split; [reflexivity|]. split; [cbn [length]; lia|]. split; [|reflexivity].
    cbn [hilly]. split; [exact Y0|]. split; [|exact H]. destruct g as [|y1 g]; [exact I|]. subst y1.
    destruct (Z.ltb_spec (y0 + (s - 3)) 20); [lia|]. destruct (Z.ltb_spec 180 (y0 + (s - 3))); lia.
Qed.

(** * Filling the terrain *)
Lemma fill_column_shows n : forall m p x y, shows m p -> 0 <= x < 320 -> 0 <= y -> 200 - y <= Z.of_nat n ->
  exists m' p', fill_column n m x y = Ok m' /\ shows m' p' /\
    forall x' y', on_screen x' y' -> p' x' y' = if (x' =? x) && (y <=? y') then 1 else p x' y'.
Proof.
  induction n as [|n IH]; intros m p x y S X Y L; cbn [fill_column].
  - exists m, p. split; [reflexivity|]. split; [exact S|]. intros x' y' [_ O]. destruct (Z.leb_spec y y'); [lia|]. rewrite andb_false_r. reflexivity.
  - unfold SCREENH. destruct (Z.ltb_spec y 200).
    + destruct (put_shows m p x y 1 S ltac:(split; lia) ltac:(lia)) as (m1 & E & S1 & _). rewrite E. cbn [obind].
      destruct (IH m1 _ x (y + 1) S1 X ltac:(lia) ltac:(lia)) as (m' & p' & E' & S' & P). exists m', p'. split; [exact E'|]. split; [exact S'|].
      intros x' y' O. rewrite (P x' y' O). unfold paint.
      destruct (Z.eqb_spec x' x); cbn [andb]; [|reflexivity].
      destruct (Z.leb_spec (y + 1) y'), (Z.leb_spec y y'), (Z.eqb_spec y' y); try reflexivity; lia.
    + exists m, p. split; [reflexivity|]. split; [exact S|]. intros x' y' [_ O]. destruct (Z.leb_spec y y'); [lia|]. rewrite andb_false_r. reflexivity.
Qed.
Lemma fill_terrain_shows g : forall m p x, shows m p -> 0 <= x -> x + Z.of_nat (length g) <= 320 -> Forall (fun y => 0 <= y) g ->
  exists m' p', fill_terrain m x g = Ok m' /\ shows m' p' /\
    forall x' y', on_screen x' y' -> p' x' y' =
      if (x <=? x') && (x' <? x + Z.of_nat (length g)) && (nth (Z.to_nat (x' - x)) g 0 <=? y') then 1 else p x' y'.
Proof.
  induction g as [|y g IH]; intros m p x S X L F; cbn [fill_terrain].
  - exists m, p. split; [reflexivity|]. split; [exact S|]. intros x' y' O. cbn [length]. destruct (Z.leb_spec x x'); destruct (Z.ltb_spec x' (x + Z.of_nat 0)); try lia; reflexivity.
  - inversion F; subst. cbn [length] in *.
    destruct (fill_column_shows (Z.to_nat SCREENH) m p x y S ltac:(lia) ltac:(lia) ltac:(unfold SCREENH; lia)) as (m1 & p1 & E & S1 & P1).
    rewrite E. cbn [obind]. destruct (IH m1 p1 (x + 1) S1 ltac:(lia) ltac:(lia) ltac:(assumption)) as (m' & p' & E' & S' & P').
    exists m', p'. split; [exact E'|]. split; [exact S'|]. intros x' y' O. rewrite (P' x' y' O), (P1 x' y' O).
    destruct (Z.eqb_spec x' x) as [->|N].
    + destruct (Z.leb_spec (x + 1) x); [lia|]. cbn [andb]. destruct (Z.leb_spec x x); [|lia]. destruct (Z.ltb_spec x (x + Z.of_nat (Datatypes.S (length g)))); [|lia].
      cbn [andb]. replace (Z.to_nat (x - x)) with 0%nat by lia. reflexivity.
    + cbn [andb]. destruct (Z.leb_spec (x + 1) x'), (Z.leb_spec x x'); try lia; [|reflexivity].
      replace (x + 1 + Z.of_nat (length g)) with (x + Z.of_nat (Datatypes.S (length g))) by lia.
      replace (Z.to_nat (x' - x)) with (Datatypes.S (Z.to_nat (x' - (x + 1)))) by lia. reflexivity.
Qed.

(** * Tanks *)
Definition paint_all (p : Z -> Z -> Z) (l : list (Z * Z)) (c : Z) : Z -> Z -> Z :=
  fold_left (fun p '(x, y) => paint p x y c) l p.
Lemma paint_all_eq l : forall p c x y, paint_all p l c x y = if existsb (fun '(a, b) => (x =? a) && (y =? b)) l then c else p x y.
Proof.
  induction l as [|[a b] l IH]; intros p c x y; [reflexivity|]. cbn [paint_all fold_left existsb].
  fold (paint_all (paint p a b c) l c). rewrite IH. unfold paint. destruct (existsb _ l); [rewrite orb_true_r; reflexivity|].
  rewrite orb_false_r. reflexivity.
Qed.
(** the six points of a barrel: i steps of half the cosine and sine from the middle of the tank *)
Definition barrel (x y ang : Z) : list (Z * Z) :=
  map (fun i => (x + 4 + i * (ICos ang / 2) / 128, y + 6 + i * (- ISin ang / 2) / 128)) [0; 1; 2; 3; 4; 5].
(** a tank standing where main puts one, with legal angle and power *)
Definition tank_ok (t : tank) : Prop :=
  (t_x t = 20 \/ t_x t = 300) /\ 9 <= t_y t <= 169 /\ 0 <= t_ang t <= 128 /\ 0 <= t_pow t <= 100 /\ 0 <= t_c t < 4.

Lemma half a : Z.shiftr a 1 = a / 2.
Proof. rewrite Z.shiftr_div_pow2 by lia. reflexivity. Qed.
Lemma sa_range ang : 0 <= ang <= 128 -> -128 <= - ISin ang / 2 <= 0.
Proof.
  intro A. assert (G : forallb (fun ang => (-128 <=? - ISin ang / 2) && (- ISin ang / 2 <=? 0)) (zrange 0 129) = true) by (vm_compute; reflexivity).
  pose proof (forall_range _ _ _ G ang ltac:(lia)) as H. cbv beta in H. lia.
Qed.
Lemma ca_range ang : -128 <= ICos ang / 2 <= 128.
Proof. pose proof (ICos_bound ang). lia. Qed.

Lemma turret_step x y i (ca sa : Z) : (x = 20 \/ x = 300) -> 9 <= y <= 169 -> 0 <= i <= 6 -> -128 <= ca <= 128 -> -128 <= sa <= 0 ->
  s16 (s16 (Z.shiftl (x + 4) 7) + i * ca + ca) = s16 (Z.shiftl (x + 4) 7) + (i + 1) * ca /\
  s16 (Z.shiftl (y + 6) 7 + i * sa + sa) = Z.shiftl (y + 6) 7 + (i + 1) * sa /\
  (i < 6 -> Z.land (Z.shiftr (s16 (Z.shiftl (x + 4) 7) + i * ca) 7) 511 = x + 4 + i * ca / 128 /\
  Z.shiftr (Z.shiftl (y + 6) 7 + i * sa) 7 = y + 6 + i * sa / 128 /\
  on_screen (x + 4 + i * ca / 128) (y + 6 + i * sa / 128)).
Proof.
  intros X Y I C S. rewrite !Z.shiftl_mul_pow2, !Z.shiftr_div_pow2 by lia. change (2 ^ 7) with 128.
  assert (PC : -128 * 6 <= i * ca <= 128 * 6) by nia. assert (PS : -128 * 6 <= i * sa <= 0) by nia.
  replace ((i + 1) * ca) with (i * ca + ca) by lia. replace ((i + 1) * sa) with (i * sa + sa) by lia.
  set (u := i * ca) in *. set (v := i * sa) in *.
  assert (VB : i < 6 -> -640 <= v) by (unfold v; nia). assert (UB' : i < 6 -> -640 <= u <= 640) by (unfold u; nia).
  clearbody u v.
  replace (Z.land ((s16 ((x + 4) * 128) + u) / 128) 511) with ((s16 ((x + 4) * 128) + u) / 128 mod 512)
    by (symmetry; apply (Z.land_ones _ 9); lia).
  destruct X as [-> | ->].
  - change (s16 ((20 + 4) * 128)) with 3072. rewrite !s16_small by lia. unfold on_screen. lia.
  - change (s16 ((300 + 4) * 128)) with (-26624). rewrite !s16_small by lia. unfold on_screen. lia.
Qed.

Lemma turret_loop_shows n : forall i m p x y ca sa c, shows m p -> (x = 20 \/ x = 300) -> 9 <= y <= 169 ->
  0 <= i -> i + Z.of_nat n = 6 -> -128 <= ca <= 128 -> -128 <= sa <= 0 -> 0 <= c < 4 ->
  exists m', turret_loop n m (s16 (Z.shiftl (x + 4) 7) + i * ca) (Z.shiftl (y + 6) 7 + i * sa) ca sa c = Ok m' /\
    shows m' (paint_all p (map (fun i => (x + 4 + i * ca / 128, y + 6 + i * sa / 128)) (zrange i n)) c).
Proof.
  induction n as [|n IH]; intros i m p x y ca sa c S X Y I L C A K; cbn [turret_loop].
  - exists m. split; [reflexivity|exact S].
  - destruct (turret_step x y i ca sa X Y ltac:(lia) C A) as (E1 & E2 & E3). destruct (E3 ltac:(lia)) as (E4 & E5 & O).
    rewrite E1, E2, E4, E5. destruct (put_shows m p _ _ c S O K) as (m1 & P & S1 & _). rewrite P. cbn [obind].
    destruct (IH (i + 1) m1 _ x y ca sa c S1 X Y ltac:(lia) ltac:(lia) C A K) as (m' & E & S'). exists m'. split; [exact E|exact S'].
Qed.
Theorem DrawTurret_shows m p x y ang c : shows m p -> (x = 20 \/ x = 300) -> 9 <= y <= 169 -> 0 <= ang <= 128 -> 0 <= c < 4 ->
  exists m', DrawTurret m x y ang c = Ok m' /\ shows m' (paint_all p (barrel x y ang) c).
Proof.
  intros S X Y A C. unfold DrawTurret, TW, TUR. change (9 / 2) with 4. rewrite !half.
  destruct (turret_loop_shows 6 0 m p x y (ICos ang / 2) (- ISin ang / 2) c S X Y ltac:(lia) ltac:(lia) (ca_range ang) (sa_range ang A) C) as (m' & E & S').
  rewrite !Z.mul_0_l, !Z.add_0_r in E. exists m'. split; [|exact S'].
  rewrite (s16_small (Z.shiftl (y + 6) 7)) by (rewrite Z.shiftl_mul_pow2 by lia; change (2 ^ 7) with 128; lia). exact E.
Qed.
Lemma wrap_ang_spec ang : -1 <= ang <= 129 -> wrap_ang ang = ang mod 129.
Proof.
  intro A. unfold wrap_ang. destruct (Z.ltb_spec ang 0).
  - rewrite s16_small by lia. destruct (Z.ltb_spec 128 (ang + 129)); [lia|]. lia.
  - destruct (Z.ltb_spec 128 ang); [rewrite s16_small by lia; lia|]. lia.
Qed.
Theorem UpdateTurrent_shows m p t ang : shows m p -> tank_ok t -> -1 <= ang <= 129 ->
  exists m', UpdateTurrent m t ang = Ok (m', mktank (t_x t) (t_y t) (ang mod 129) (t_pow t) (t_c t)) /\
    shows m' (paint_all (paint_all p (barrel (t_x t) (t_y t) (t_ang t)) 0) (barrel (t_x t) (t_y t) (ang mod 129)) (t_c t)).
Proof.
  intros S (X & Y & A & P & C) R. unfold UpdateTurrent.
  destruct (DrawTurret_shows m p (t_x t) (t_y t) (t_ang t) 0 S X Y A ltac:(lia)) as (m1 & E1 & S1). rewrite E1. cbn [obind].
  rewrite wrap_ang_spec by lia.
  destruct (DrawTurret_shows m1 _ (t_x t) (t_y t) (ang mod 129) (t_c t) S1 X Y ltac:(lia) C) as (m2 & E2 & S2). rewrite E2. cbn [obind].
  exists m2. split; [reflexivity|exact S2].
Qed.
(** the rectangle of a tank's body *)
Definition in_body (x y x' y' : Z) : bool := (x <=? x') && (x' <? x + 9) && (y + 7 <=? y') && (y' <? y + 11).
Lemma body_row_shows n : forall m p x y c, shows m p -> 0 <= x -> x + Z.of_nat n <= 320 -> 0 <= y < 200 -> 0 <= c < 4 ->
  exists m' p', body_row n m x y c = Ok m' /\ shows m' p' /\
    forall x' y', p' x' y' = if (x <=? x') && (x' <? x + Z.of_nat n) && (y' =? y) then c else p x' y'.
Proof.
  induction n as [|n IH]; intros m p x y c S X L Y C; cbn [body_row].
  - exists m, p. split; [reflexivity|]. split; [exact S|]. intros. destruct (Z.leb_spec x x'), (Z.ltb_spec x' (x + Z.of_nat 0)); try lia; reflexivity.
  - destruct (put_shows m p x y c S ltac:(split; lia) C) as (m1 & E & S1 & _). rewrite E. cbn [obind].
    destruct (IH m1 _ (x + 1) y c S1 ltac:(lia) ltac:(lia) Y C) as (m' & p' & E' & S' & P). exists m', p'. split; [exact E'|]. split; [exact S'|].
    intros x' y'. rewrite P. unfold paint.
    destruct (Z.leb_spec (x + 1) x'), (Z.leb_spec x x'), (Z.ltb_spec x' (x + 1 + Z.of_nat n)), (Z.ltb_spec x' (x + Z.of_nat (Datatypes.S n))), (Z.eqb_spec x' x), (Z.eqb_spec y' y); cbn [andb]; try reflexivity; lia.
Qed.
Lemma body_rows_shows n : forall m p x y c, shows m p -> 0 <= x -> x + 9 <= 320 -> 0 <= y -> y + Z.of_nat n <= 200 -> 0 <= c < 4 ->
  exists m' p', body_rows n m x y c = Ok m' /\ shows m' p' /\
    forall x' y', p' x' y' = if (x <=? x') && (x' <? x + 9) && (y <=? y') && (y' <? y + Z.of_nat n) then c else p x' y'.
Proof.
  induction n as [|n IH]; intros m p x y c S X L Y Y2 C; cbn [body_rows].
  - exists m, p. split; [reflexivity|]. split; [exact S|]. intros. destruct (Z.leb_spec y y'), (Z.ltb_spec y' (y + Z.of_nat 0)); try lia; rewrite ?andb_false_r; reflexivity.
  - destruct (body_row_shows (Z.to_nat TW) m p x y c S X ltac:(unfold TW; lia) ltac:(lia) C) as (m1 & p1 & E & S1 & P1). rewrite E. cbn [obind].
    destruct (IH m1 _ x (y + 1) c S1 X L ltac:(lia) ltac:(lia) C) as (m' & p' & E' & S' & P). exists m', p'. split; [exact E'|]. split; [exact S'|].
    intros x' y'. rewrite P, P1. change (Z.of_nat (Z.to_nat TW)) with 9.
    destruct ((x <=? x') && (x' <? x + 9)) eqn:Hx; cbn [andb]; [|reflexivity].
    destruct (Z.leb_spec (y + 1) y'), (Z.leb_spec y y'), (Z.ltb_spec y' (y + 1 + Z.of_nat n)), (Z.ltb_spec y' (y + Z.of_nat (Datatypes.S n))), (Z.eqb_spec y' y); cbn [andb]; try reflexivity; lia.
Qed.
Theorem DrawTank_shows m p t : shows m p -> tank_ok t ->
  exists m' p', DrawTank m t = Ok m' /\ shows m' p' /\
    forall x y, p' x y = if in_body (t_x t) (t_y t) x y || existsb (fun '(a, b) => (x =? a) && (y =? b)) (barrel (t_x t) (t_y t) (t_ang t)) then t_c t else p x y.
Proof.
  intros S (X & Y & A & P & C). unfold DrawTank, DrawBody, TUR.
  destruct (body_rows_shows (Z.to_nat TH) m p (t_x t) (t_y t + (6 + 1)) (t_c t) S ltac:(lia) ltac:(lia) ltac:(lia) ltac:(unfold TH; lia) C) as (m1 & p1 & E & S1 & P1).
  rewrite E. cbn [obind]. destruct (DrawTurret_shows m1 p1 (t_x t) (t_y t) (t_ang t) (t_c t) S1 X Y A C) as (m' & E' & S').
  eexists _, _. split; [exact E'|]. split; [exact S'|]. intros x y. rewrite paint_all_eq, P1. unfold in_body.
  change (Z.of_nat (Z.to_nat TH)) with 4. replace (t_y t + (6 + 1) + 4) with (t_y t + 11) by lia. replace (t_y t + (6 + 1)) with (t_y t + 7) by lia.
  destruct (existsb _ _); [rewrite orb_true_r; reflexivity|]. rewrite orb_false_r. reflexivity.
Qed.

(** * Keys *)
Lemma press_ok m p t ch : shows m p -> tank_ok t ->
  exists m' p' t', press m t ch = Ok (m', t') /\ shows m' p' /\ tank_ok t' /\ t_x t' = t_x t /\ t_y t' = t_y t /\ t_c t' = t_c t.
Proof.
  intros S T. pose proof T as (X & Y & A & P & C). unfold press.
  assert (K : match key ch t with Some (ang, pow) => -1 <= ang <= 129 /\ 0 <= pow <= 100 | None => True end).
  { unfold key. repeat match goal with |- context [if ?c =? ?d then Some _ else _] => destruct (c =? d) end; try exact I; rewrite ?s16_small by lia;
      try (destruct (_ <=? _) eqn:?); try (destruct (_ <? _) eqn:?); try lia. }
  destruct (key ch t) as [[ang pow]|].
  2: { exists m, p, t. split; [reflexivity|]. split; [exact S|]. auto. }
  cbn [t_ang]. destruct (ang =? t_ang t).
  - eexists m, p, _. split; [reflexivity|]. split; [exact S|]. split; [|auto]. repeat split; cbn; try assumption; lia.
  - destruct (UpdateTurrent_shows m p (mktank (t_x t) (t_y t) (t_ang t) pow (t_c t)) ang S) as (m' & E & S').
    + repeat split; cbn; try assumption; lia.
    + lia.
    + rewrite E. eexists m', _, _. split; [reflexivity|]. split; [exact S'|]. cbn. split; [|auto]. repeat split; cbn; try assumption; lia.
Qed.

(** * Shots *)
Lemma inscreen_iff x y : INSCREEN x y = true <-> on_screen x y.
Proof. unfold INSCREEN, on_screen, SCREENW, SCREENH. lia. Qed.
(** what a shot may do to the picture: with result 0 nothing below row 8 changes; otherwise
    the pixel hit had the colour returned and is cleared; in rows 0..8 pixels may be cleared *)
Definition shot_effect (p p' : Z -> Z -> Z) (h : Z) : Prop :=
  (forall x y, on_screen x y -> y <= 8 -> p' x y = p x y \/ p' x y = 0) /\
  (h = 0 /\ (forall x y, on_screen x y -> 8 < y -> p' x y = p x y) \/
   h <> 0 /\ exists hx hy, on_screen hx hy /\ 8 < hy /\ p hx hy = h /\ p' hx hy = 0 /\
     forall x y, on_screen x y -> 8 < y -> (x, y) <> (hx, hy) -> p' x y = p x y).
(** the picture while the shot is at (lx, ly) *)
Definition in_flight (p0 p : Z -> Z -> Z) (lx ly : Z) : Prop :=
  (forall x y, on_screen x y -> (x, y) <> (lx, ly) -> y <= 8 -> p x y = p0 x y \/ p x y = 0) /\
  (forall x y, on_screen x y -> (x, y) <> (lx, ly) -> 8 < y -> p x y = p0 x y) /\
  (on_screen lx ly -> 8 < ly -> p0 lx ly = 0).
Definition erased (p0 p : Z -> Z -> Z) : Prop :=
  (forall x y, on_screen x y -> y <= 8 -> p x y = p0 x y \/ p x y = 0) /\
  (forall x y, on_screen x y -> 8 < y -> p x y = p0 x y).
Lemma paint_same p x y c : paint p x y c x y = c.
Proof. unfold paint. rewrite !Z.eqb_refl. reflexivity. Qed.
Lemma paint_other p x y c x' y' : (x', y') <> (x, y) -> paint p x y c x' y' = p x' y'.
Proof. intro N. unfold paint. destruct (Z.eqb_spec x' x), (Z.eqb_spec y' y); try reflexivity. subst. contradiction. Qed.
Lemma pair_dec (x y a b : Z) : (x, y) = (a, b) \/ (x, y) <> (a, b).
Proof. destruct (Z.eq_dec x a), (Z.eq_dec y b); [left; subst; reflexivity| | |]; right; intro E; injection E; intros; contradiction. Qed.
Lemma erase_shows m p p0 lx ly : shows m p -> in_flight p0 p lx ly ->
  exists m' p', erase m lx ly = Ok m' /\ shows m' p' /\ erased p0 p'.
Proof.
  intros S (F1 & F2 & F3). unfold erase. destruct (INSCREEN lx ly) eqn:I.
  - apply inscreen_iff in I. destruct (put_shows m p lx ly 0 S I ltac:(lia)) as (m' & E & S' & _). exists m', (paint p lx ly 0).
    split; [exact E|]. split; [exact S'|]. split; intros x y O Hy; destruct (pair_dec x y lx ly) as [D|D].
    + injection D; intros; subst. right. apply paint_same.
    + rewrite paint_other by assumption. apply F1; assumption.
    + injection D; intros; subst. rewrite paint_same. symmetry. apply F3; assumption.
    + rewrite paint_other by assumption. apply F2; assumption.
  - exists m, p. split; [reflexivity|]. split; [exact S|].
    assert (N : forall x y, on_screen x y -> (x, y) <> (lx, ly)) by (intros x y O D; injection D; intros; subst; apply inscreen_iff in O; congruence).
    split; intros x y O Hy; [apply F1|apply F2]; auto.
Qed.
Lemma flight_effect fuel : forall m p0 p tx ty ca sa ssa lx ly m' h, shows m p -> in_flight p0 p lx ly ->
  flight fuel m tx ty ca sa ssa lx ly = Ok (m', h) -> exists p', shows m' p' /\ shot_effect p0 p' h.
Proof.
  induction fuel as [|fuel IH]; intros m p0 p tx ty ca sa ssa lx ly m' h S F E; [discriminate|]. cbn [flight] in E.
  set (sx := Z.land (Z.shiftr tx 7) 511) in *. set (sy := Z.shiftr ty 7) in *.
  destruct (erase_shows m p p0 lx ly S F) as (m1 & p1 & Ee & S1 & (X1 & X2)). rewrite Ee in E. cbn [obind] in E.
  destruct (_ || _).
  - injection E as <- <-. exists p1. split; [exact S1|]. split; [exact X1|]. left. auto.
  - destruct (INSCREEN sx sy) eqn:I.
    + apply inscreen_iff in I. destruct (Z.ltb_spec 8 sy).
      * pose proof (proj2 S1 sx sy I) as R. rewrite R in E. cbn [obind] in E. destruct (Z.eqb_spec (p1 sx sy) 0) as [Z0|Z0].
        -- destruct (put_shows m1 p1 sx sy 1 S1 I ltac:(lia)) as (m2 & E2 & S2 & _). rewrite E2 in E. cbn [obind] in E.
           refine (IH _ p0 _ _ _ _ _ _ _ _ _ _ S2 _ E). split; [|split].
           ++ intros x y O N Hy. rewrite paint_other by assumption. auto.
           ++ intros x y O N Hy. rewrite paint_other by assumption. auto.
           ++ intros _ _. rewrite <- (X2 sx sy); auto.
        -- destruct (put_shows m1 p1 sx sy 0 S1 I ltac:(lia)) as (m2 & E2 & S2 & _). rewrite E2 in E. cbn [obind] in E.
           injection E as <- <-. eexists. split; [exact S2|]. split.
           ++ intros x y O Hy. rewrite paint_other by (intro D; injection D; lia). auto.
           ++ right. split; [exact Z0|]. exists sx, sy. split; [exact I|]. split; [assumption|]. split; [symmetry; apply X2; auto|].
              split; [apply paint_same|]. intros x y O Hy N. rewrite paint_other by assumption. auto.
      * destruct (put_shows m1 p1 sx sy 1 S1 I ltac:(lia)) as (m2 & E2 & S2 & _). rewrite E2 in E. cbn [obind] in E.
        refine (IH _ p0 _ _ _ _ _ _ _ _ _ _ S2 _ E). split; [|split].
        -- intros x y O N Hy. rewrite paint_other by assumption. auto.
        -- intros x y O N Hy. rewrite paint_other by assumption. auto.
        -- intros. lia.
    + refine (IH _ p0 _ _ _ _ _ _ _ _ _ _ S1 _ E). split; [|split].
      * intros x y O N Hy. auto.
      * intros x y O N Hy. auto.
      * intros O. apply inscreen_iff in O. congruence.
Qed.
Theorem Fire_effect fuel m p t m' h : shows m p -> Fire fuel m t = Ok (m', h) -> exists p', shows m' p' /\ shot_effect p p' h.
Proof.
  intros S E. unfold Fire in E. eapply flight_effect; [exact S| |exact E]. split; [|split]; intros; auto.
  unfold on_screen in *. lia.
Qed.

(** ** Every shot ends *)
Lemma erase_ok m p lx ly : shows m p -> exists m1 p1, erase m lx ly = Ok m1 /\ shows m1 p1.
Proof.
  intro S. unfold erase. destruct (INSCREEN lx ly) eqn:I; [|eauto]. apply inscreen_iff in I.
  destruct (put_shows m p lx ly 0 S I ltac:(lia)) as (m1 & E & S1 & _). eauto.
Qed.
Lemma flight_no_ub fuel : forall m p tx ty ca sa ssa lx ly, shows m p -> (exists r, flight fuel m tx ty ca sa ssa lx ly = Ok r) \/ flight fuel m tx ty ca sa ssa lx ly = OutOfFuel.
Proof.
  induction fuel as [|fuel IH]; intros m p tx ty ca sa ssa lx ly S; [right; reflexivity|]. cbn [flight].
  set (sx := Z.land (Z.shiftr tx 7) 511) in *. set (sy := Z.shiftr ty 7) in *.
  destruct (erase_ok m p lx ly S) as (m1 & p1 & Ee & S1). rewrite Ee. cbn [obind]. destruct (_ || _); [eauto|].
  destruct (INSCREEN sx sy) eqn:I; [|apply (IH _ p1); exact S1]. apply inscreen_iff in I.
  destruct (put_shows m1 p1 sx sy 0 S1 I ltac:(lia)) as (m2 & E2 & S2 & _). destruct (put_shows m1 p1 sx sy 1 S1 I ltac:(lia)) as (m3 & E3 & S3 & _).
  rewrite (proj2 S1 sx sy I), E2, E3. cbn [obind]. destruct (8 <? sy); [|apply (IH _ _ _ _ _ _ _ _ _ S3)].
  destruct (_ =? 0); [apply (IH _ _ _ _ _ _ _ _ _ S3)|]. eauto.
Qed.
(** the height of a shot after k more steps, had it no bound *)
Fixpoint fall (k : nat) (ty sa ssa : Z) : Z :=
  match k with O => ty | S k => fall k (ty + sa) (sa + ssa / 1024) (ssa + 5) end.
Lemma fall_linear k : forall ty sa ssa, fall k ty sa ssa = ty + Z.of_nat k * sa + fall k 0 0 ssa.
Proof.
  induction k as [|k IH]; intros; cbn [fall]; [lia|]. rewrite (IH (ty + sa) (sa + ssa / 1024)), (IH (0 + 0) (0 + ssa / 1024)). replace (Z.of_nat (S k)) with (Z.of_nat k + 1) by lia. lia.
Qed.
Lemma flight_stops k : forall m p tx ty ca sa ssa lx ly, shows m p -> -32768 <= ty < 32768 -> -128 <= sa -> sa + 4 * Z.of_nat k <= 6000 ->
  0 <= ssa -> ssa + 5 * Z.of_nat k <= 4000 -> 25600 <= fall k ty sa ssa -> exists r, flight (S k) m tx ty ca sa ssa lx ly = Ok r.
Proof.
  induction k as [|k IH]; intros m p tx ty ca sa ssa lx ly S T A A2 Q Q2 F.
  - cbn [fall] in F. destruct (flight_no_ub 1 m p tx ty ca sa ssa lx ly S) as [R|R]; [exact R|]. exfalso. cbn [flight] in R.
    assert (H : SCREENH <=? Z.shiftr ty 7 = true) by (unfold SCREENH; rewrite Z.shiftr_div_pow2 by lia; change (2 ^ 7) with 128; lia).
    rewrite H, orb_true_r in R. destruct (erase_ok m p lx ly S) as (m1 & p1 & Ee & _). rewrite Ee in R. discriminate.
  - cbn [fall] in F.
    destruct (erase_ok m p lx ly S) as (m1 & p1 & Ee & S1). remember (Datatypes.S k) as k' eqn:K'. cbn [flight].
    set (sx := Z.land (Z.shiftr tx 7) 511) in *. set (sy := Z.shiftr ty 7) in *. rewrite Ee. cbn [obind].
    destruct (_ || _) eqn:B; [eauto|].
    assert (Hy : ty < 25600). { apply orb_false_elim in B. destruct B as [_ B]. unfold sy, SCREENH in B. rewrite Z.shiftr_div_pow2 in B by lia. change (2 ^ 7) with 128 in B. lia. }
    assert (N : forall m2 p2, shows m2 p2 -> exists r, flight k' m2 (s16 (tx + ca)) (s16 (ty + sa)) ca (s16 (sa + Z.shiftr ssa 10)) (s16 (ssa + 5)) sx sy = Ok r).
    { intros m2 p2 S2. rewrite Z.shiftr_div_pow2 by lia. change (2 ^ 10) with 1024. rewrite (s16_small (sa + _)) by lia. rewrite (s16_small (ssa + 5)) by lia.
      destruct (Z.leb_spec (-32768) (ty + sa)).
      - rewrite (s16_small (ty + sa)) by lia. subst k'. apply (IH _ p2); auto; try lia.
      - assert (W : s16 (ty + sa) = ty + sa + 65536) by (unfold s16; cbv zeta; destruct (Z.ltb_spec ((ty + sa) mod 65536) 32768); lia).
        rewrite W. subst k'. destruct (flight_no_ub (Datatypes.S k) m2 p2 (s16 (tx + ca)) (ty + sa + 65536) ca (sa + ssa / 1024) (ssa + 5) sx sy S2) as [R|R]; [exact R|].
        exfalso. cbn [flight] in R.
        assert (H' : SCREENH <=? Z.shiftr (ty + sa + 65536) 7 = true) by (unfold SCREENH; rewrite Z.shiftr_div_pow2 by lia; change (2 ^ 7) with 128; lia).
        rewrite H', orb_true_r in R. destruct (erase_ok m2 p2 sx sy S2) as (m3 & p3 & E3 & _). rewrite E3 in R. discriminate. }
    destruct (INSCREEN sx sy) eqn:I; [|exact (N _ _ S1)]. apply inscreen_iff in I.
    destruct (put_shows m1 p1 sx sy 0 S1 I ltac:(lia)) as (m2 & E2 & S2 & _). destruct (put_shows m1 p1 sx sy 1 S1 I ltac:(lia)) as (m3 & E3 & S3 & _).
    rewrite (proj2 S1 sx sy I), E2, E3. cbn [obind]. destruct (8 <? sy); [|exact (N _ _ S3)]. destruct (_ =? 0); [exact (N _ _ S3)|]. eauto.
Qed.
Lemma scaled v pow : -128 <= v <= 0 -> 0 <= pow <= 100 -> -128 <= Z.quot (s16 (v * pow)) 100 <= 0.
Proof.
  intros V P. assert (B : -12800 <= v * pow <= 0) by nia. rewrite s16_small by lia.
  replace (v * pow) with (- (- (v * pow))) by lia. rewrite Z.quot_opp_l by lia. rewrite Z.quot_div_nonneg by lia. set (w := v * pow) in *. clearbody w. lia.
Qed.
Theorem Fire_ends m p t : shows m p -> tank_ok t -> exists r, Fire 701 m t = Ok r.
Proof.
  intros S (X & Y & A & P & C). unfold Fire, TW, TUR. rewrite !half. change (9 / 2) with 4.
  pose proof (sa_range (t_ang t) A) as SA. set (sa := - ISin (t_ang t) / 2) in *. clearbody sa.
  change 701%nat with (Datatypes.S 700). apply (flight_stops 700 m p); [exact S| | | | | |].
  - rewrite Z.shiftl_mul_pow2 by lia. change (2 ^ 7) with 128. rewrite !s16_small by (rewrite ?s16_small by lia; lia). lia.
  - apply scaled; assumption.
  - pose proof (scaled sa (t_pow t) SA P). lia.
  - lia.
  - lia.
  - rewrite fall_linear. pose proof (scaled sa (t_pow t) SA P) as Q. set (v := Z.quot _ _) in *. clearbody v.
    rewrite Z.shiftl_mul_pow2 by lia. change (2 ^ 7) with 128. rewrite !s16_small by (rewrite ?s16_small by lia; lia).
    assert (G : fall 700 0 0 0 = 119455 \/ 25600 + 89600 <= fall 700 0 0 0) by (right; vm_compute; discriminate).
    set (g := fall 700 0 0 0) in *. clearbody g. lia.
Qed.

(** * Text *)
Lemma row_bit b k : 0 <= b < 256 -> 0 <= k < 8 -> (Z.land (s16 (b * 2 ^ k)) 128 =? 0) = negb (Z.testbit b (7 - k)).
Proof.
  intros B K. assert (G : forallb (fun b => forallb (fun k => Bool.eqb (Z.land (s16 (b * 2 ^ k)) 128 =? 0) (negb (Z.testbit b (7 - k)))) (zrange 0 8)) (zrange 0 256) = true) by (vm_compute; reflexivity).
  pose proof (forall_range _ _ _ G b ltac:(lia)) as G1. cbv beta in G1. pose proof (forall_range _ _ _ G1 k ltac:(lia)) as G2. cbv beta in G2.
  apply Bool.eqb_prop. exact G2.
Qed.
Lemma row_next b k : 0 <= b < 256 -> 0 <= k < 8 -> s16 (Z.shiftl (s16 (b * 2 ^ k)) 1) = s16 (b * 2 ^ (k + 1)).
Proof.
  intros B K. rewrite Z.shiftl_mul_pow2 by lia. rewrite Z.pow_add_r by lia. change (2 ^ 1) with 2. set (v := b * 2 ^ k). replace (b * (2 ^ k * 2)) with (v * 2) by (unfold v; lia).
  unfold s16. cbv zeta. destruct (Z.ltb_spec (v mod 65536) 32768); destruct (Z.ltb_spec ((v * 2) mod 65536) 32768);
    match goal with |- context [if ?a <? ?b then _ else _] => destruct (Z.ltb_spec a b) end; lia.
Qed.
Lemma char_row_shows n : forall k m p x y b fg bg, shows m p -> 0 <= k -> k + Z.of_nat n = 8 -> 0 <= x -> x + 8 <= 320 -> 0 <= y < 200 ->
  0 <= b < 256 -> 0 <= fg < 4 -> 0 <= bg < 4 ->
  exists m' p', char_row n m (x + k) y (s16 (b * 2 ^ k)) fg bg = Ok m' /\ shows m' p' /\
    forall x' y', p' x' y' = if (x + k <=? x') && (x' <? x + 8) && (y' =? y) then (if Z.testbit b (7 - (x' - x)) then fg else bg) else p x' y'.
Proof.
  induction n as [|n IH]; intros k m p x y b fg bg S K L X X2 Y B F G; cbn [char_row].
  - exists m, p. split; [reflexivity|]. split; [exact S|]. intros. destruct (Z.leb_spec (x + k) x'), (Z.ltb_spec x' (x + 8)); try lia; reflexivity.
  - rewrite row_bit, row_next by lia. set (c := if negb (Z.testbit b (7 - k)) then bg else fg).
    assert (C : 0 <= c < 4) by (unfold c; destruct (Z.testbit b (7 - k)); cbn [negb]; assumption).
    destruct (put_shows m p (x + k) y c S ltac:(split; lia) C) as (m1 & E & S1 & _). rewrite E. cbn [obind].
    destruct (IH (k + 1) m1 _ x y b fg bg S1) as (m' & p' & E' & S' & P); try lia.
    replace (x + k + 1) with (x + (k + 1)) by lia. exists m', p'. split; [exact E'|]. split; [exact S'|].
    intros x' y'. rewrite P. unfold paint.
    destruct (Z.eqb_spec y' y); [|rewrite !andb_false_r; reflexivity]. rewrite !andb_true_r.
    destruct (Z.eqb_spec x' (x + k)) as [->|N].
    + destruct (Z.leb_spec (x + (k + 1)) (x + k)); [lia|]. destruct (Z.leb_spec (x + k) (x + k)); [|lia]. destruct (Z.ltb_spec (x + k) (x + 8)); [|lia]. cbn [andb].
      replace (x + k - x) with k by lia. unfold c. destruct (Z.testbit b (7 - k)); reflexivity.
    + destruct (Z.leb_spec (x + (k + 1)) x'), (Z.leb_spec (x + k) x'); try lia; reflexivity.
Qed.
Definition font_ok (font : Z -> Z -> Z) : Prop := forall ch cy, 0 <= font ch cy < 256.
Lemma char_rows_shows font n : forall cy m p x y ch fg bg, font_ok font -> shows m p -> 0 <= cy -> cy + Z.of_nat n = 8 -> 0 <= x -> x + 8 <= 320 ->
  0 <= y -> y + 8 <= 200 -> 0 <= fg < 4 -> 0 <= bg < 4 ->
  exists m' p', char_rows font n m x y ch cy fg bg = Ok m' /\ shows m' p' /\
    forall x' y', p' x' y' = if (x <=? x') && (x' <? x + 8) && (y + cy <=? y') && (y' <? y + 8)
                             then (if Z.testbit (font ch (y' - y)) (7 - (x' - x)) then fg else bg) else p x' y'.
Proof.
  induction n as [|n IH]; intros cy m p x y ch fg bg W S K L X X2 Y Y2 F G; cbn [char_rows].
  - exists m, p. split; [reflexivity|]. split; [exact S|]. intros. destruct (Z.leb_spec (y + cy) y'), (Z.ltb_spec y' (y + 8)); try lia; rewrite ?andb_false_r; reflexivity.
  - destruct (char_row_shows 8 0 m p x (y + cy) (font ch cy) fg bg S) as (m1 & p1 & E & S1 & P1); try lia; [apply W|].
    rewrite Z.add_0_r in E. replace (s16 (font ch cy * 2 ^ 0)) with (font ch cy) in E
      by (pose proof (W ch cy); change (2 ^ 0) with 1; rewrite s16_small; lia).
    rewrite E. cbn [obind]. destruct (IH (cy + 1) m1 p1 x y ch fg bg W S1) as (m' & p' & E' & S' & P); try lia.
    exists m', p'. split; [exact E'|]. split; [exact S'|]. intros x' y'. rewrite P, P1. rewrite Z.add_0_r.
    destruct ((x <=? x') && (x' <? x + 8)); cbn [andb]; [|reflexivity].
    destruct (Z.leb_spec (y + (cy + 1)) y'), (Z.leb_spec (y + cy) y'), (Z.ltb_spec y' (y + 8)), (Z.eqb_spec y' (y + cy)); cbn [andb]; try reflexivity; try lia.
    subst y'. replace (y + cy - y) with cy by lia. reflexivity.
Qed.
Theorem DrawStr_shows font s : forall m p x y fg bg, font_ok font -> shows m p -> 0 <= x -> x + 8 * Z.of_nat (length s) <= 320 ->
  0 <= y -> y + 8 <= 200 -> 0 <= fg < 4 -> 0 <= bg < 4 ->
  exists m' p', DrawStr font m x y s fg bg = Ok m' /\ shows m' p' /\
    forall x' y', p' x' y' = if (x <=? x') && (x' <? x + 8 * Z.of_nat (length s)) && (y <=? y') && (y' <? y + 8)
                             then (if Z.testbit (font (nth (Z.to_nat ((x' - x) / 8)) s 0) (y' - y)) (7 - (x' - x) mod 8) then fg else bg) else p x' y'.
Proof.
  induction s as [|ch s IH]; intros m p x y fg bg W S X L Y Y2 F G; cbn [DrawStr].
  - exists m, p. split; [reflexivity|]. split; [exact S|]. intros. cbn [length]. destruct (Z.leb_spec x x'), (Z.ltb_spec x' (x + 8 * Z.of_nat 0)); try lia; reflexivity.
  - cbn [length] in *. unfold DrawChar.
    destruct (char_rows_shows font 8 0 m p x y ch fg bg W S) as (m1 & p1 & E & S1 & P1); try lia. rewrite E. cbn [obind].
    destruct (IH m1 p1 (x + 8) y fg bg W S1) as (m' & p' & E' & S' & P); try lia.
    exists m', p'. split; [exact E'|]. split; [exact S'|]. intros x' y'. rewrite P, P1. rewrite Z.add_0_r. clear IH E E' P P1.
    destruct ((y <=? y') && (y' <? y + 8)) eqn:HY.
    2: { rewrite <- !andb_assoc, HY, !andb_false_r. reflexivity. }
    rewrite <- !andb_assoc, HY, !andb_true_r.
    destruct (Z.leb_spec (x + 8) x'), (Z.leb_spec x x'), (Z.ltb_spec x' (x + 8)), (Z.ltb_spec x' (x + 8 * Z.of_nat (Datatypes.S (length s)))), (Z.ltb_spec x' (x + 8 + 8 * Z.of_nat (length s))); cbn [andb]; try reflexivity; try lia.
    + replace (Z.to_nat ((x' - x) / 8)) with (Datatypes.S (Z.to_nat ((x' - (x + 8)) / 8))) by lia. cbn [nth].
      replace ((x' - (x + 8)) mod 8) with ((x' - x) mod 8) by lia. reflexivity.
    + replace (Z.to_nat ((x' - x) / 8)) with 0%nat by lia. cbn [nth]. replace ((x' - x) mod 8) with (x' - x) by lia. reflexivity.
Qed.
