(** C53, C54, C57-C59: the tank game. *)
From Coq Require Import ZArith List Bool Lia String.
From Verif Require Import Base Swar SwarFacts LibH LibFmt.
Import ListNotations.
Open Scope Z_scope.
Notation length := List.length.

Definition blank : arr Z := mkarr 0 Leaf.
Lemma blank_bytes : bytes blank.
Proof. intro a. rewrite (aget_init 0 a : aget blank a = 0). lia. Qed.

(** * C53: pixels *)
Theorem C53_pixels : forall m x y c, bytes m -> on_screen x y -> 0 <= c < 4 ->
  exists m', PutPixel m x y c = Ok m' /\ bytes m' /\ ReadPixel m' x y = Ok c /\
    (forall x' y', on_screen x' y' -> (x', y') <> (x, y) -> ReadPixel m' x' y' = ReadPixel m x' y') /\
    (exists a, 0 <= a < 0x4000 /\ forall b, b <> a -> aget m' b = aget m b).
Proof.
  intros m x y c B O C. destruct (shows_read m B) as (p & S & _).
  destruct (put_shows m p x y c S O C) as (m' & E & S' & A). exists m'. split; [exact E|]. split; [apply S'|].
  split; [rewrite (proj2 S' x y O), paint_same; reflexivity|]. split; [|exact A].
  intros x' y' O' N. rewrite (proj2 S' x' y' O'), (proj2 S x' y' O'), paint_other by assumption. reflexivity.
Qed.
Print Assumptions C53_pixels.
Theorem C53_read : forall m x y, bytes m -> on_screen x y -> exists c, ReadPixel m x y = Ok c /\ 0 <= c < 4.
Proof. intros m x y B O. destruct (shows_read m B) as (p & S & R). exists (p x y). split; [apply S, O|apply R]. Qed.
Print Assumptions C53_read.
Example C53_ex : bytes blank /\ on_screen 319 199 /\ obind (PutPixel blank 319 199 3) (fun m => obind (ReadPixel m 319 199) (fun a => obind (ReadPixel m 318 199) (fun b => Ok (a, b)))) = Ok (3, 0).
Proof. split; [exact blank_bytes|]. split; [unfold on_screen; lia|]. vm_compute. reflexivity. Qed.
(** rows outside the screen are not checked: the table is read out of bounds *)
Theorem C53_outside_refuted : exists x y, PutPixel blank x y 1 = UB.
Proof. exists 0, 200. vm_compute. reflexivity. Qed.
Print Assumptions C53_outside_refuted.

(** * C54: sine, cosine and the limits of angle and power *)
(** 256 steps to the circle; bounded, even, antisymmetric about the half-circle, falling
    from 0 to 128, and satisfying the addition theorem up to an error of 574/65536 *)
Theorem C54_cosine : forall a b, -256 <= ICos a <= 256 /\ ICos (a + 256) = ICos a /\ ICos (- a) = ICos a /\ ICos (a + 128) = - ICos a /\
  ISin a = ICos (a - 64) /\ Z.abs (ICos a * ICos b - ISin a * ISin b - 256 * ICos (a + b)) <= 574 /\
  (0 <= a -> a <= b -> b <= 128 -> ICos b <= ICos a).
Proof.
  intros a b. split; [apply ICos_bound|]. split.
  { rewrite (ICos_period (a + 256)), (ICos_period a). f_equal. lia. }
  split; [apply ICos_even|]. split; [apply ICos_half|]. split; [apply ISin_cos|]. split; [apply ICos_sum|apply ICos_mono].
Qed.
Print Assumptions C54_cosine.
Theorem C54_circle : forall a, Z.abs (ICos a * ICos a + ISin a * ISin a - 65536) <= 574.
Proof.
  intro a. pose proof (ICos_sum a (- a)) as H. replace (a + - a) with 0 in H by lia. change (ICos 0) with 256 in H. rewrite ICos_even in H.
  assert (S : ISin (- a) = - ISin a).
  { rewrite !ISin_cos. replace (- a - 64) with (- ((a - 64) + 128)) by lia. rewrite ICos_even, ICos_half. reflexivity. }
  rewrite S in H. set (u := ICos a * ICos a) in *. replace (u - ISin a * - ISin a - 256 * 256) with (u + ISin a * ISin a - 65536) in H by lia. exact H.
Qed.
Print Assumptions C54_circle.
Example C54_ex : ICos 0 = 256 /\ ICos 32 = 181 /\ ICos 64 = 0 /\ ICos 128 = -256 /\ ISin 64 = 256 /\ ICos (-30000) = ICos 208.
Proof. vm_compute. repeat split. Qed.
(** after any sequence of keys the tank's angle is in 0..128 and its power in 0..100, and no
    access leaves the frame buffer *)
Fixpoint presses (m : arr Z) (t : tank) (ks : list Z) : outcome (arr Z * tank) :=
  match ks with [] => Ok (m, t) | k :: ks => obind (press m t k) (fun '(m, t) => presses m t ks) end.
Theorem C54_keys : forall ks m t, bytes m -> tank_ok t ->
  exists m' t', presses m t ks = Ok (m', t') /\ bytes m' /\ 0 <= t_ang t' <= 128 /\ 0 <= t_pow t' <= 100 /\ t_x t' = t_x t /\ t_y t' = t_y t.
Proof.
  intros ks m t B T. destruct (shows_read m B) as (p & S & _). clear B.
  assert (G : exists m' p' t', presses m t ks = Ok (m', t') /\ shows m' p' /\ tank_ok t' /\ t_x t' = t_x t /\ t_y t' = t_y t).
  { revert m p t S T. induction ks as [|k ks IH]; intros m p t S T; cbn [presses].
    - exists m, p, t. auto.
    - destruct (press_ok m p t k S T) as (m1 & p1 & t1 & E & S1 & T1 & X & Y & _). rewrite E. cbn [obind].
      destruct (IH m1 p1 t1 S1 T1) as (m' & p' & t' & E' & S' & T' & X' & Y'). exists m', p', t'. split; [exact E'|]. split; [exact S'|]. split; [exact T'|]. split; congruence. }
  destruct G as (m' & p' & t' & E & S' & T' & X & Y). exists m', t'. destruct T' as (_ & _ & A & P & _).
  split; [exact E|]. split; [apply S'|]. auto.
Qed.
Print Assumptions C54_keys.
(** left then right restores the angle *)
Theorem C54_inverse : forall m t, bytes m -> tank_ok t ->
  exists m' t', presses m t [0x4B00; 0x4D00] = Ok (m', t') /\ t_ang t' = t_ang t /\ t_pow t' = t_pow t.
Proof.
  intros m t B T. pose proof T as (X & Y & A & P & C). destruct (shows_read m B) as (p & S & _).
  cbn [presses]. unfold press at 1. unfold key. change (0x4B00 =? 0x4B00) with true. cbv iota. cbn [t_ang t_x t_y t_c t_pow].
  rewrite s16_small by lia. destruct (Z.eqb_spec (t_ang t + 1) (t_ang t)); [lia|].
  destruct (UpdateTurrent_shows m p (mktank (t_x t) (t_y t) (t_ang t) (t_pow t) (t_c t)) (t_ang t + 1) S) as (m1 & E & S1); [repeat split; cbn; assumption || lia|lia|].
  rewrite E. cbn [obind]. cbn [t_ang t_x t_y t_c t_pow] in *. unfold press, key. change (0x4D00 =? 0x4B00) with false. change (0x4D00 =? 0x4D00) with true. cbv iota. cbn [t_ang t_x t_y t_c t_pow].
  rewrite s16_small by lia. destruct (Z.eqb_spec ((t_ang t + 1) mod 129 - 1) ((t_ang t + 1) mod 129)); [lia|].
  destruct (UpdateTurrent_shows m1 _ (mktank (t_x t) (t_y t) ((t_ang t + 1) mod 129) (t_pow t) (t_c t)) ((t_ang t + 1) mod 129 - 1) S1) as (m2 & E2 & _); [repeat split; cbn; assumption || lia|lia|].
  rewrite E2. cbn [obind]. eexists _, _. split; [reflexivity|]. cbn. split; [lia|reflexivity].
Qed.
Print Assumptions C54_inverse.
Example C54_keys_ex : tank_ok (mktank 300 149 128 100 3) /\
  match presses blank (mktank 300 149 128 100 3) [0x4B00; 0x5000; 0x1234] with Ok (_, t) => t_ang t = 0 /\ t_pow t = 99 | _ => False end.
Proof. split; [repeat split; cbn; lia|]. vm_compute. split; reflexivity. Qed.

(** * C57: the terrain *)
Theorem C57_terrain : forall fuel seed, (13 <= fuel)%nat -> -32768 <= seed < 32768 ->
  ~ In seed [-31367; -27656; -22405; -16646; -13828; -8323; -6914; -3457] ->
  exists g, Grass fuel seed = Ok g /\ length g = 320%nat /\ Forall (fun y => 20 <= y <= 180) g /\
    forall x, (S x < 320)%nat -> Z.abs (nth (S x) g 0 - nth x g 0) <= 3.
Proof.
  intros fuel seed F R N. destruct (terrain_ends fuel (Z.to_nat SCREENW) seed (SCREENH / 2) F R N ltac:(unfold SCREENH; lia)) as (g & E & L & H & _).
  exists g. split; [exact E|]. split; [exact L|]. change (Z.to_nat SCREENW) with 320%nat in L. rewrite <- L. clear E L F R N. split.
  - induction g as [|y g IH]; [constructor|]. destruct H as (Hy & _ & H). constructor; auto.
  - induction g as [|y g IH]; intros x X; [cbn in X; lia|]. destruct H as (Hy & D & H). destruct x as [|x].
    + destruct g as [|y' g]; [cbn in X; lia|]. exact D.
    + cbn [nth]. apply IH; [exact H|]. cbn [length] in X. lia.
Qed.
Print Assumptions C57_terrain.
(** the picture after filling it in: ground from the height down, sky unchanged *)
Theorem C57_filled : forall m g, bytes m -> length g = 320%nat -> Forall (fun y => 20 <= y <= 180) g ->
  exists m', fill_terrain m 0 g = Ok m' /\ bytes m' /\
    forall x y, on_screen x y -> ReadPixel m' x y = if nth (Z.to_nat x) g 0 <=? y then Ok 1 else ReadPixel m x y.
Proof.
  intros m g B L F. destruct (shows_read m B) as (p & S & _).
  destruct (fill_terrain_shows g m p 0 S) as (m' & p' & E & S' & P); [lia|rewrite L; lia| |].
  { eapply Forall_impl; [|exact F]. cbv beta. intros; lia. }
  exists m'. split; [exact E|]. split; [apply S'|]. intros x y O. rewrite (proj2 S' x y O), (proj2 S x y O), (P x y O).
  destruct (Z.leb_spec 0 x); [|unfold on_screen in O; lia]. destruct (Z.ltb_spec x (0 + Z.of_nat (length g))); [|rewrite L in *; unfold on_screen in O; lia].
  cbn [andb]. replace (x - 0) with x by lia. destruct (_ <=? _); reflexivity.
Qed.
Print Assumptions C57_filled.
Example C57_ex : ~ In 43 [-31367; -27656; -22405; -16646; -13828; -8323; -6914; -3457] /\
  obind (Grass 13 43) (fun g => Ok (firstn 6 g)) = Ok [100; 102; 101; 103; 102; 104].
Proof. split; [cbn [In]; lia|]. vm_compute. reflexivity. Qed.
(** from these clock values the game never starts: the terrain loop does not end *)
Theorem C57_hangs_refuted : forall seed, In seed [-31367; -27656; -22405; -16646; -13828; -8323; -6914; -3457] ->
  forall fuel, Grass fuel seed = OutOfFuel.
Proof.
  intros seed I fuel. unfold Grass. change (Z.to_nat SCREENW) with (3 + 317)%nat. generalize (SCREENH / 2). intro y.
  assert (step : forall n seed y s seed', (slope fuel seed = OutOfFuel \/ slope fuel seed = Ok (seed', s)) ->
            (forall y, terrain fuel n seed' y = OutOfFuel) -> terrain fuel (S n) seed y = OutOfFuel).
  { intros n sd y0 s sd' [E|E] H; cbn [terrain]; rewrite E; cbn [obind]; [reflexivity|]. rewrite H. reflexivity. }
  assert (h1 : forall n y, terrain fuel (S n) (-3457) y = OutOfFuel).
  { intros n y0. cbn [terrain]. rewrite slope_hangs. reflexivity. }
  assert (h2 : forall n y, terrain fuel (S n) (-6914) y = OutOfFuel).
  { intros n y0. cbn [terrain]. replace (slope fuel (-6914)) with (@OutOfFuel (Z * Z)); [reflexivity|].
    destruct fuel as [|f]; [reflexivity|]. rewrite <- (slope_hangs f). reflexivity. }
  assert (h3 : forall n y sd, sd = -13828 \/ sd = -8323 -> terrain fuel (S (S n)) sd y = OutOfFuel).
  { intros n y0 sd D. apply (step _ _ _ 6 (-6914)); [|intro; apply h2].
    destruct fuel as [|f]; [left; reflexivity|right]. destruct D as [-> | ->]; reflexivity. }
  cbn [In] in I. cbn [Nat.add].
  assert (C : (seed = -3457 \/ seed = -6914 \/ seed = -13828 \/ seed = -8323) \/ (seed = -31367 \/ seed = -27656) \/ (seed = -22405 \/ seed = -16646)) by lia.
  destruct C as [[-> |[-> |C]]|[C|C]]; [apply h1|apply h2|apply h3; lia| |].
  - apply (step _ _ _ 4 (-13828)); [|intro; apply h3; lia]. destruct fuel as [|f]; [left; reflexivity|right]. destruct C as [-> | ->]; reflexivity.
  - apply (step _ _ _ 5 (-8323)); [|intro; apply h3; lia]. destruct fuel as [|f]; [left; reflexivity|right]. destruct C as [-> | ->]; reflexivity.
Qed.
Print Assumptions C57_hangs_refuted.

(** * C58: drawing the tanks and the text *)
(** the tanks main sets up over a terrain are legal *)
Theorem C58_setup : forall g, (forall x, 20 <= g x <= 180) -> tank_ok (tank1 g) /\ tank_ok (tank2 g).
Proof.
  intros g G. unfold tank1, tank2, TW, TH, TUR. change (9 / 2) with 4.
  pose proof (G (20 + 4)). pose proof (G (300 + 4)). split; repeat split; cbn [t_x t_y t_ang t_pow t_c]; lia.
Qed.
Print Assumptions C58_setup.
(** drawing a tank paints exactly its body and its barrel, all of it on the screen *)
Theorem C58_tank : forall m t, bytes m -> tank_ok t ->
  exists m', DrawTank m t = Ok m' /\ bytes m' /\ forall x y, on_screen x y ->
    ReadPixel m' x y = if in_body (t_x t) (t_y t) x y || existsb (fun '(a, b) => (x =? a) && (y =? b)) (barrel (t_x t) (t_y t) (t_ang t)) then Ok (t_c t) else ReadPixel m x y.
Proof.
  intros m t B T. destruct (shows_read m B) as (p & S & _). destruct (DrawTank_shows m p t S T) as (m' & p' & E & S' & P).
  exists m'. split; [exact E|]. split; [apply S'|]. intros x y O. rewrite (proj2 S' x y O), (proj2 S x y O), P. destruct (_ || _); reflexivity.
Qed.
Print Assumptions C58_tank.
(** turning the barrel clears the old one and paints the new one, nothing else *)
Theorem C58_turn : forall m t ang, bytes m -> tank_ok t -> -1 <= ang <= 129 ->
  exists m', UpdateTurrent m t ang = Ok (m', mktank (t_x t) (t_y t) (ang mod 129) (t_pow t) (t_c t)) /\ bytes m' /\ forall x y, on_screen x y ->
    ReadPixel m' x y = if existsb (fun '(a, b) => (x =? a) && (y =? b)) (barrel (t_x t) (t_y t) (ang mod 129)) then Ok (t_c t)
                       else if existsb (fun '(a, b) => (x =? a) && (y =? b)) (barrel (t_x t) (t_y t) (t_ang t)) then Ok 0 else ReadPixel m x y.
Proof.
  intros m t ang B T A. destruct (shows_read m B) as (p & S & _). destruct (UpdateTurrent_shows m p t ang S T A) as (m' & E & S').
  exists m'. split; [exact E|]. split; [apply S'|]. intros x y O. rewrite (proj2 S' x y O), (proj2 S x y O), !paint_all_eq.
  destruct (existsb _ _); [reflexivity|]. destruct (existsb _ _); reflexivity.
Qed.
Print Assumptions C58_turn.
(** text is drawn from the font, and touches only its own 8x8 cells *)
Theorem C58_text : forall font m x y s fg bg, font_ok font -> bytes m -> 0 <= x -> x + 8 * Z.of_nat (length s) <= 320 -> 0 <= y <= 192 -> 0 <= fg < 4 -> 0 <= bg < 4 ->
  exists m', DrawStr font m x y s fg bg = Ok m' /\ bytes m' /\ forall x' y', on_screen x' y' ->
    ReadPixel m' x' y' = if (x <=? x') && (x' <? x + 8 * Z.of_nat (length s)) && (y <=? y') && (y' <? y + 8)
                         then Ok (if Z.testbit (font (nth (Z.to_nat ((x' - x) / 8)) s 0) (y' - y)) (7 - (x' - x) mod 8) then fg else bg) else ReadPixel m x' y'.
Proof.
  intros font m x y s fg bg W B X L Y F G. destruct (shows_read m B) as (p & S & _).
  destruct (DrawStr_shows font s m p x y fg bg W S X L ltac:(lia) ltac:(lia) F G) as (m' & p' & E & S' & P).
  exists m'. split; [exact E|]. split; [apply S'|]. intros x' y' O. rewrite (proj2 S' x' y' O), (proj2 S x' y' O), P. destruct (_ && _); reflexivity.
Qed.
Print Assumptions C58_text.
(** the line ShowTankInfo prints (swar.c:469-475) always has 16 characters: it fits its buffer
    of 32 and the screen *)
Definition str (s : string) : list Z := map (fun c => Z.of_nat (Ascii.nat_of_ascii c)) (list_ascii_of_string s).
Definition info (ang pow : Z) : outcome (list Z) := vsprintf (str "Ang %3d  Pwr %3d") [AInt (Z.shiftr (s16 (ang * 180)) 7); AInt pow].
Theorem C58_info : forall ang pow, 0 <= ang <= 128 -> 0 <= pow <= 100 -> exists s, info ang pow = Ok s /\ length s = 16%nat.
Proof.
  intros ang pow A P.
  assert (G : forallb (fun a => forallb (fun p => match info a p with Ok s => Nat.eqb (length s) 16 | _ => false end) (zrange 0 101)) (zrange 0 129) = true) by (vm_compute; reflexivity).
  pose proof (forall_range _ _ _ G ang ltac:(lia)) as G1. cbv beta in G1. pose proof (forall_range _ _ _ G1 pow ltac:(lia)) as G2. cbv beta in G2. clear G G1.
  destruct (info ang pow) as [s| | |]; try discriminate G2. exists s. split; [reflexivity|]. apply Nat.eqb_eq, G2.
Qed.
Print Assumptions C58_info.
Example C58_ex : tank_ok (tank1 (fun _ => 100)) /\ length (barrel 20 89 32) = 6%nat /\ nth 5 (barrel 20 89 32) (0, 0) = (27, 91) /\
  info 32 100 = Ok (str "Ang  45  Pwr 100").
Proof. split; [apply C58_setup; lia|]. vm_compute. repeat split. Qed.

(** * C59: shots *)
Theorem C59_ends : forall m t, bytes m -> tank_ok t -> exists m' h, Fire 701 m t = Ok (m', h).
Proof. intros m t B T. destruct (shows_read m B) as (p & S & _). destruct (Fire_ends m p t S T) as ([m' h] & E). eauto. Qed.
Print Assumptions C59_ends.
(** what a finished shot has done: the pixel it hit had the colour returned and is cleared;
    below row 8 nothing else changes; in rows 0 to 8 pixels may be cleared *)
Theorem C59_effect : forall fuel m t m' h, bytes m -> Fire fuel m t = Ok (m', h) ->
  (forall x y, on_screen x y -> y <= 8 -> ReadPixel m' x y = ReadPixel m x y \/ ReadPixel m' x y = Ok 0) /\
  (h = 0 /\ (forall x y, on_screen x y -> 8 < y -> ReadPixel m' x y = ReadPixel m x y) \/
   h <> 0 /\ exists hx hy, on_screen hx hy /\ 8 < hy /\ ReadPixel m hx hy = Ok h /\ ReadPixel m' hx hy = Ok 0 /\
     forall x y, on_screen x y -> 8 < y -> (x, y) <> (hx, hy) -> ReadPixel m' x y = ReadPixel m x y).
Proof.
  intros fuel m t m' h B E. destruct (shows_read m B) as (p & S & _). destruct (Fire_effect fuel m p t m' h S E) as (p' & S' & F1 & F2).
  split.
  - intros x y O Y. rewrite (proj2 S' x y O), (proj2 S x y O). destruct (F1 x y O Y) as [-> | ->]; auto.
  - destruct F2 as [[H F]|[H (hx & hy & O & Y & P & P' & F)]]; [left|right]; (split; [exact H|]).
    + intros x y O Y. rewrite (proj2 S' x y O), (proj2 S x y O), F by assumption. reflexivity.
    + exists hx, hy. split; [exact O|]. split; [exact Y|]. rewrite (proj2 S' hx hy O), (proj2 S hx hy O), P, P'. split; [reflexivity|]. split; [reflexivity|].
      intros x y O' Y' N. rewrite (proj2 S' x y O'), (proj2 S x y O'), F by assumption. reflexivity.
Qed.
Print Assumptions C59_effect.
Definition plain_at (h : Z) : arr Z := match fill_terrain blank 0 (repeat h 60) with Ok m => m | _ => blank end.
Example C59_ex : tank_ok (mktank 20 89 60 30 2) /\ match Fire 701 (plain_at 100) (mktank 20 89 60 30 2) with Ok (m, h) => h = 1 | _ => False end.
Proof. split; [repeat split; cbn; lia|]. vm_compute. reflexivity. Qed.
(** a shot straight up over solid ground should come down on it; from the highest ground its
    height overflows a 16-bit int and it vanishes instead *)
Theorem C59_overflow_refuted : exists t, tank_ok t /\ t_ang t = 64 /\
  match Fire 701 (plain_at 20) t with Ok (_, h) => h = 0 | _ => False end /\
  match Fire 701 (plain_at 20) (mktank (t_x t) (t_y t) 64 90 (t_c t)) with Ok (_, h) => h = 1 | _ => False end.
Proof. exists (mktank 20 9 64 100 2). split; [repeat split; cbn; lia|]. split; [reflexivity|]. vm_compute. split; reflexivity. Qed.
Print Assumptions C59_overflow_refuted.
