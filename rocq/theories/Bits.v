(** Lemmas on bits, masks and carries. *)
From Verif Require Import Base.

Lemma land_pow2_eqb x k : 0 <= k -> (Z.land x (2 ^ k) =? 0) = negb (Z.testbit x k).
Proof.
  intro Hk.
  destruct (Z.testbit x k) eqn:E; cbn [negb].
  - apply Z.eqb_neq. intro H.
    assert (H1 : Z.testbit (Z.land x (2 ^ k)) k = true).
    { rewrite Z.land_spec, E, Z.pow2_bits_true; auto. }
    rewrite H, Z.bits_0 in H1. discriminate.
  - apply Z.eqb_eq. apply Z.bits_inj'. intros n Hn.
    rewrite Z.land_spec, Z.bits_0, Z.pow2_bits_eqb by lia.
    destruct (Z.eqb_spec k n) as [<-|]; [now rewrite E | apply andb_false_r].
Qed.

Lemma mod_pow2_succ x k : 0 <= k -> x mod 2 ^ (k + 1) = x mod 2 ^ k + 2 ^ k * Z.b2z (Z.testbit x k).
Proof.
  intro Hk. rewrite Z.testbit_spec' by lia.
  replace (2 ^ (k + 1)) with (2 ^ k * 2) by (rewrite Z.pow_add_r by lia; lia).
  assert (0 < 2 ^ k) by (apply Z.pow_pos_nonneg; lia).
  rewrite Z.rem_mul_r by lia. lia.
Qed.

Lemma testbit_odd x k : 0 <= k -> Z.testbit x k = Z.odd (x / 2 ^ k).
Proof. intro. rewrite Z.testbit_odd, Z.shiftr_div_pow2 by lia. reflexivity. Qed.

Lemma testbit_mod x w k : 0 <= k < w -> Z.testbit (x mod 2 ^ w) k = Z.testbit x k.
Proof. intro. apply Z.mod_pow2_bits_low. lia. Qed.

Lemma odd_b2z b : Z.odd (Z.b2z b) = b.
Proof. destruct b; reflexivity. Qed.

(** bit k of a sum *)
Lemma add_bit l r c k : 0 <= k ->
  Z.testbit (l + r + c) k =
  xorb (xorb (Z.testbit l k) (Z.testbit r k)) (Z.odd ((l mod 2 ^ k + r mod 2 ^ k + c) / 2 ^ k)).
Proof.
  intro Hk. assert (0 < 2 ^ k) by (apply Z.pow_pos_nonneg; lia).
  rewrite !testbit_odd by lia. rewrite <- !Z.odd_add. f_equal.
  rewrite (Z.div_mod l (2 ^ k)) at 1 by lia. rewrite (Z.div_mod r (2 ^ k)) at 1 by lia.
  replace (2 ^ k * (l / 2 ^ k) + l mod 2 ^ k + (2 ^ k * (r / 2 ^ k) + r mod 2 ^ k) + c)
    with ((l mod 2 ^ k + r mod 2 ^ k + c) + (l / 2 ^ k + r / 2 ^ k) * 2 ^ k) by ring.
  rewrite Z.div_add by lia. ring.
Qed.

Lemma sub_bit l r c k : 0 <= k ->
  Z.testbit (l - r - c) k =
  xorb (xorb (Z.testbit l k) (Z.testbit r k)) (Z.odd ((l mod 2 ^ k - r mod 2 ^ k - c) / 2 ^ k)).
Proof.
  intro Hk. assert (0 < 2 ^ k) by (apply Z.pow_pos_nonneg; lia).
  rewrite !testbit_odd by lia.
  replace (xorb (Z.odd (l / 2 ^ k)) (Z.odd (r / 2 ^ k)))
    with (Z.odd (l / 2 ^ k - r / 2 ^ k)) by now rewrite Z.odd_sub.
  rewrite <- Z.odd_add. f_equal.
  rewrite (Z.div_mod l (2 ^ k)) at 1 by lia. rewrite (Z.div_mod r (2 ^ k)) at 1 by lia.
  replace (2 ^ k * (l / 2 ^ k) + l mod 2 ^ k - (2 ^ k * (r / 2 ^ k) + r mod 2 ^ k) - c)
    with ((l mod 2 ^ k - r mod 2 ^ k - c) + (l / 2 ^ k - r / 2 ^ k) * 2 ^ k) by ring.
  rewrite Z.div_add by lia. ring.
Qed.

(** carry out of bit k of l + r + c, as the simulator computes it bitwise *)
Lemma carry_bit l r c k : 0 <= k -> 0 <= c <= 1 ->
  orb (Z.testbit l k && Z.testbit r k)
      ((Z.testbit l k || Z.testbit r k) && negb (Z.testbit (l + r + c) k))
  = (2 ^ (k + 1) <=? l mod 2 ^ (k + 1) + r mod 2 ^ (k + 1) + c).
Proof.
  intros Hk Hc. rewrite add_bit by lia. rewrite !mod_pow2_succ by lia.
  assert (HP : 0 < 2 ^ k) by (apply Z.pow_pos_nonneg; lia).
  replace (2 ^ (k + 1)) with (2 ^ k * 2) by (rewrite Z.pow_add_r by lia; lia).
  pose proof (Z.mod_pos_bound l (2 ^ k) HP) as Hl. pose proof (Z.mod_pos_bound r (2 ^ k) HP) as Hr.
  set (A := l mod 2 ^ k) in *. set (B := r mod 2 ^ k) in *. set (P := 2 ^ k) in *. clearbody A B P.
  assert (Ht : (A + B + c) / P = 0 /\ A + B + c < P \/ (A + B + c) / P = 1 /\ P <= A + B + c).
  { destruct (Z_lt_ge_dec (A + B + c) P); [left|right].
    - rewrite Z.div_small by lia. lia.
    - assert ((A + B + c) / P = 1); [|lia]. symmetry. apply (Z.div_unique _ _ _ (A + B + c - P)); lia. }
  destruct Ht as [[-> Ht]|[-> Ht]]; destruct (Z.testbit l k), (Z.testbit r k); cbn [Z.b2z Z.odd xorb negb andb orb];
    symmetry; first [apply Z.leb_le; lia | apply Z.leb_gt; lia].
Qed.

Lemma borrow_bit l r c k : 0 <= k -> 0 <= c <= 1 ->
  orb (negb (Z.testbit l k) && Z.testbit r k)
      (negb (xorb (Z.testbit l k) (Z.testbit r k)) && Z.testbit (l - r - c) k)
  = (l mod 2 ^ (k + 1) <? r mod 2 ^ (k + 1) + c).
Proof.
  intros Hk Hc. rewrite sub_bit by lia. rewrite !mod_pow2_succ by lia.
  assert (HP : 0 < 2 ^ k) by (apply Z.pow_pos_nonneg; lia).
  pose proof (Z.mod_pos_bound l (2 ^ k) HP) as Hl. pose proof (Z.mod_pos_bound r (2 ^ k) HP) as Hr.
  set (A := l mod 2 ^ k) in *. set (B := r mod 2 ^ k) in *. set (P := 2 ^ k) in *. clearbody A B P.
  assert (Ht : (A - B - c) / P = 0 /\ 0 <= A - B - c \/ (A - B - c) / P = -1 /\ A - B - c < 0).
  { destruct (Z_lt_ge_dec (A - B - c) 0); [right|left].
    - assert ((A - B - c) / P = -1); [|lia]. symmetry. apply (Z.div_unique _ _ _ (A - B - c + P)); lia.
    - rewrite Z.div_small by lia. lia. }
  destruct Ht as [[-> Ht]|[-> Ht]]; destruct (Z.testbit l k), (Z.testbit r k); cbn [Z.b2z Z.odd xorb negb andb orb];
    symmetry; first [apply Z.ltb_lt; lia | apply Z.ltb_ge; lia].
Qed.

Lemma testbit_top x k : 0 <= k -> Z.testbit x k = (2 ^ k <=? x mod 2 ^ (k + 1)).
Proof.
  intro Hk. rewrite mod_pow2_succ by lia.
  assert (HP : 0 < 2 ^ k) by (apply Z.pow_pos_nonneg; lia).
  pose proof (Z.mod_pos_bound x (2 ^ k) HP).
  destruct (Z.testbit x k); cbn [Z.b2z]; symmetry; [apply Z.leb_le | apply Z.leb_gt]; lia.
Qed.

Lemma land_ones_mod x n : 0 <= n -> Z.land x (2 ^ n - 1) = x mod 2 ^ n.
Proof.
  intro. rewrite <- Z.land_ones by lia. rewrite Z.ones_equiv. f_equal; lia.
Qed.

Lemma land_255 x : Z.land x 255 = x mod 256.
Proof. apply (land_ones_mod x 8). lia. Qed.
Lemma land_65535 x : Z.land x 65535 = x mod 65536.
Proof. apply (land_ones_mod x 16). lia. Qed.
Lemma land_1048575 x : Z.land x 1048575 = x mod 1048576.
Proof. apply (land_ones_mod x 20). lia. Qed.
Lemma land_7 x : Z.land x 7 = x mod 8.
Proof. apply (land_ones_mod x 3). lia. Qed.
Lemma land_3 x : Z.land x 3 = x mod 4.
Proof. apply (land_ones_mod x 2). lia. Qed.
Lemma land_1 x : Z.land x 1 = x mod 2.
Proof. apply (land_ones_mod x 1). lia. Qed.
Lemma land_15 x : Z.land x 15 = x mod 16.
Proof. apply (land_ones_mod x 4). lia. Qed.

Lemma land_mod_pow2 a b n : 0 <= n -> Z.land a b mod 2 ^ n = Z.land (a mod 2 ^ n) (b mod 2 ^ n).
Proof.
  intro Hn. rewrite <- !Z.land_ones by lia. apply Z.bits_inj'. intros k Hk.
  rewrite !Z.land_spec. destruct (Z.testbit a k), (Z.testbit b k), (Z.testbit (Z.ones n) k); reflexivity.
Qed.
Lemma lor_mod_pow2 a b n : 0 <= n -> Z.lor a b mod 2 ^ n = Z.lor (a mod 2 ^ n) (b mod 2 ^ n).
Proof.
  intro Hn. rewrite <- !Z.land_ones by lia. apply Z.bits_inj'. intros k Hk.
  rewrite ?Z.land_spec, ?Z.lor_spec, ?Z.land_spec.
  destruct (Z.testbit a k), (Z.testbit b k), (Z.testbit (Z.ones n) k); reflexivity.
Qed.
Lemma lxor_mod_pow2 a b n : 0 <= n -> Z.lxor a b mod 2 ^ n = Z.lxor (a mod 2 ^ n) (b mod 2 ^ n).
Proof.
  intro Hn. rewrite <- !Z.land_ones by lia. apply Z.bits_inj'. intros k Hk.
  rewrite ?Z.land_spec, ?Z.lxor_spec, ?Z.land_spec.
  destruct (Z.testbit a k), (Z.testbit b k), (Z.testbit (Z.ones n) k); reflexivity.
Qed.

(** disjoint or is addition *)
Lemma lor_shiftl_add a b n : 0 <= n -> 0 <= a < 2 ^ n -> Z.lor a (Z.shiftl b n) = a + b * 2 ^ n.
Proof.
  intros Hn Ha. rewrite Z.shiftl_mul_pow2 by lia.
  rewrite <- Z.lxor_lor, Z.add_nocarry_lxor; auto;
    apply Z.bits_inj'; intros k Hk; rewrite Z.land_spec, Z.bits_0;
    (destruct (Z_lt_ge_dec k n);
     [ rewrite Z.mul_pow2_bits_low by lia; apply andb_false_r
     | rewrite <- (Z.mod_small a (2 ^ n)) by lia; rewrite Z.mod_pow2_bits_high by lia; reflexivity ]).
Qed.

Lemma land_65280 x : Z.land x 65280 = (x mod 65536) / 256 * 256.
Proof.
  replace 65280 with (Z.shiftl 255 8) by reflexivity.
  apply Z.bits_inj'. intros k Hk.
  rewrite Z.land_spec. change 256 with (2 ^ 8). rewrite <- Z.shiftl_mul_pow2, <- Z.shiftr_div_pow2 by lia.
  destruct (Z_lt_ge_dec k 8).
  - rewrite !Z.shiftl_spec_low by lia. apply andb_false_r.
  - rewrite !Z.shiftl_spec by lia. rewrite Z.shiftr_spec by lia.
    replace (k - 8 + 8) with k by lia. change 65536 with (2 ^ 16). change 255 with (Z.ones 8).
    destruct (Z_lt_ge_dec k 16).
    + rewrite Z.mod_pow2_bits_low, Z.ones_spec_low by lia. apply andb_true_r.
    + rewrite Z.mod_pow2_bits_high, Z.ones_spec_high by lia. apply andb_false_r.
Qed.

Lemma lor_hi_lo h l : 0 <= l < 256 -> Z.lor (h * 256) l = h * 256 + l.
Proof.
  intro Hl. rewrite Z.lor_comm. replace (h * 256) with (Z.shiftl h 8) by (rewrite Z.shiftl_mul_pow2; lia).
  rewrite lor_shiftl_add by lia. rewrite Z.shiftl_mul_pow2 by lia. lia.
Qed.

(** bitwise operations stay in range *)
Lemma land_range a b n : 0 <= n -> 0 <= a < 2 ^ n -> 0 <= Z.land a b < 2 ^ n.
Proof.
  intros Hn Ha.
  assert (E : Z.land a b = Z.land a b mod 2 ^ n).
  { rewrite land_mod_pow2, (Z.mod_small a) by lia.
    apply Z.bits_inj'; intros k Hk. rewrite !Z.land_spec.
    destruct (Z_lt_ge_dec k n).
    - now rewrite Z.mod_pow2_bits_low by lia.
    - rewrite <- (Z.mod_small a (2 ^ n)) by lia. now rewrite Z.mod_pow2_bits_high by lia. }
  rewrite E. apply Z.mod_pos_bound, Z.pow_pos_nonneg; lia.
Qed.
Lemma lor_range a b n : 0 <= n -> 0 <= a < 2 ^ n -> 0 <= b < 2 ^ n -> 0 <= Z.lor a b < 2 ^ n.
Proof.
  intros Hn Ha Hb.
  assert (E : Z.lor a b = Z.lor a b mod 2 ^ n) by (rewrite lor_mod_pow2, !Z.mod_small by lia; reflexivity).
  rewrite E. apply Z.mod_pos_bound, Z.pow_pos_nonneg; lia.
Qed.
Lemma lxor_range a b n : 0 <= n -> 0 <= a < 2 ^ n -> 0 <= b < 2 ^ n -> 0 <= Z.lxor a b < 2 ^ n.
Proof.
  intros Hn Ha Hb.
  assert (E : Z.lxor a b = Z.lxor a b mod 2 ^ n) by (rewrite lxor_mod_pow2, !Z.mod_small by lia; reflexivity).
  rewrite E. apply Z.mod_pos_bound, Z.pow_pos_nonneg; lia.
Qed.
