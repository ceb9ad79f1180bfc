(** Proofs about the simulator's ALU (C01-C03). *)
From Verif Require Import Base Bits Spec8086 Sim86.

(** the four modelled bits of the simulator's flag word *)
Definition abs_flags (x : Z) : flags :=
  mkflags (Z.testbit x 0) (Z.testbit x 6) (Z.testbit x 7) (Z.testbit x 11).

Definition only_flag_bits (x : Z) : Prop := Z.land x (Z.lnot (FC + FZ + FS + FO)) = 0.

Definition bit_if (b : bool) (v : Z) : Z := if b then v else 0.

(** the flag word built by DoOp, as four independent decisions *)
Lemma op_flags_word W dsz res carry :
  op_flags W dsz res carry =
  let k := if dsz =? 0 then 7 else 15 in
  bit_if (Z.testbit carry k) FC + bit_if (TRIM W res =? 0) FZ + bit_if (Z.testbit res k) FS
  + bit_if (xorb (Z.testbit (uns W (Z.shiftl carry 1)) k) (Z.testbit carry k)) FO.
Proof.
  unfold op_flags. destruct (dsz =? 0); cbv zeta.
  - change 128 with (2 ^ 7). rewrite !land_pow2_eqb, Z.lxor_spec by lia.
    destruct (Z.testbit res 7), (TRIM W res =? 0), (Z.testbit carry 7),
      (Z.testbit (uns W (Z.shiftl carry 1)) 7); reflexivity.
  - change 32768 with (2 ^ 15). rewrite !land_pow2_eqb, Z.lxor_spec by lia.
    destruct (Z.testbit res 15), (TRIM W res =? 0), (Z.testbit carry 15),
      (Z.testbit (uns W (Z.shiftl carry 1)) 15); reflexivity.
Qed.

Lemma abs_flags_word a b c d :
  abs_flags (bit_if a FC + bit_if b FZ + bit_if c FS + bit_if d FO) = mkflags a b c d.
Proof. destruct a, b, c, d; reflexivity. Qed.
Lemma only_word a b c d :
  only_flag_bits (bit_if a FC + bit_if b FZ + bit_if c FS + bit_if d FO).
Proof. destruct a, b, c, d; reflexivity. Qed.

Lemma testbit_uns_lnot W x k : 0 <= k < W -> Z.testbit (uns W (Z.lnot x)) k = negb (Z.testbit x k).
Proof. intro. unfold uns, wu. rewrite testbit_mod, Z.lnot_spec by lia. reflexivity. Qed.
Lemma testbit_uns W x k : 0 <= k < W -> Z.testbit (uns W x) k = Z.testbit x k.
Proof. intro. unfold uns, wu. now rewrite testbit_mod by lia. Qed.
Lemma testbit_uns_shl1 W x k : 0 < k < W -> Z.testbit (uns W (Z.shiftl x 1)) k = Z.testbit x (k - 1).
Proof. intro. rewrite testbit_uns, Z.shiftl_spec by lia. reflexivity. Qed.

Lemma add_carry_bit W l r c k : 0 <= k < W -> 0 <= c <= 1 ->
  Z.testbit (Z.lor (Z.land l r) (Z.land (Z.lor l r) (uns W (Z.lnot (uns W (l + r + c)))))) k
  = (2 ^ (k + 1) <=? l mod 2 ^ (k + 1) + r mod 2 ^ (k + 1) + c).
Proof.
  intros Hk Hc. rewrite <- carry_bit by lia.
  rewrite Z.lor_spec, !Z.land_spec, Z.lor_spec, testbit_uns_lnot, testbit_uns by lia. reflexivity.
Qed.
Lemma sub_borrow_bit W l r c k : 0 <= k < W -> 0 <= c <= 1 ->
  Z.testbit (Z.lor (Z.land (uns W (Z.lnot l)) r)
                   (Z.land (uns W (Z.lnot (Z.lxor l r))) (uns W (l - r - c)))) k
  = (l mod 2 ^ (k + 1) <? r mod 2 ^ (k + 1) + c).
Proof.
  intros Hk Hc. rewrite <- borrow_bit by lia.
  rewrite Z.lor_spec, !Z.land_spec, !testbit_uns_lnot, testbit_uns, Z.lxor_spec by lia. reflexivity.
Qed.

Lemma uns_mod W x : 16 <= W -> uns W x mod 65536 = x mod 65536.
Proof.
  intro HW. unfold uns, wu. change 65536 with (2 ^ 16).
  apply Z.bits_inj'. intros k Hk.
  destruct (Z_lt_ge_dec k 16).
  - rewrite !Z.mod_pow2_bits_low by lia. reflexivity.
  - rewrite !Z.mod_pow2_bits_high by lia. reflexivity.
Qed.
Lemma uns_mod8 W x : 16 <= W -> uns W x mod 256 = x mod 256.
Proof.
  intro HW. unfold uns, wu. change 256 with (2 ^ 8).
  apply Z.bits_inj'. intros k Hk.
  destruct (Z_lt_ge_dec k 8).
  - rewrite !Z.mod_pow2_bits_low by lia. reflexivity.
  - rewrite !Z.mod_pow2_bits_high by lia. reflexivity.
Qed.

Lemma trim_zero W x : 16 <= W -> 0 <= x < 2 ^ W -> (TRIM W x =? 0) = (x mod 65536 =? 0).
Proof.
  intros HW Hx. unfold TRIM. destruct (Z.eqb_spec W 16) as [->|].
  - rewrite Z.mod_small; [reflexivity | lia].
  - now rewrite land_65535.
Qed.

(** signed overflow is the exclusive or of the two top carries *)
Lemma ovf16_add a b c : 0 <= a < 65536 -> 0 <= b < 65536 -> 0 <= c <= 1 ->
  xorb (32768 <=? a mod 32768 + b mod 32768 + c) (65536 <=? a + b + c)
  = negb (in_signed true (signed true a + signed true b + c)).
Proof.
  intros. unfold in_signed, signed, half, modulus.
  destruct (Z.ltb_spec a 32768), (Z.ltb_spec b 32768);
  destruct (Z.leb_spec 32768 (a mod 32768 + b mod 32768 + c)), (Z.leb_spec 65536 (a + b + c)); cbn [xorb]; lia.
Qed.
Lemma ovf16_sub a b c : 0 <= a < 65536 -> 0 <= b < 65536 -> 0 <= c <= 1 ->
  xorb (a mod 32768 <? b mod 32768 + c) (a <? b + c)
  = negb (in_signed true (signed true a - signed true b - c)).
Proof.
  intros. unfold in_signed, signed, half, modulus.
  destruct (Z.ltb_spec a 32768), (Z.ltb_spec b 32768);
  destruct (Z.ltb_spec (a mod 32768) (b mod 32768 + c)), (Z.ltb_spec a (b + c)); cbn [xorb]; lia.
Qed.
Lemma ovf8_add a b c : 0 <= a < 256 -> 0 <= b < 256 -> 0 <= c <= 1 ->
  xorb (128 <=? a mod 128 + b mod 128 + c) (256 <=? a + b + c)
  = negb (in_signed false (signed false a + signed false b + c)).
Proof.
  intros. unfold in_signed, signed, half, modulus.
  destruct (Z.ltb_spec a 128), (Z.ltb_spec b 128);
  destruct (Z.leb_spec 128 (a mod 128 + b mod 128 + c)), (Z.leb_spec 256 (a + b + c)); cbn [xorb]; lia.
Qed.
Lemma ovf8_sub a b c : 0 <= a < 256 -> 0 <= b < 256 -> 0 <= c <= 1 ->
  xorb (a mod 128 <? b mod 128 + c) (a <? b + c)
  = negb (in_signed false (signed false a - signed false b - c)).
Proof.
  intros. unfold in_signed, signed, half, modulus.
  destruct (Z.ltb_spec a 128), (Z.ltb_spec b 128);
  destruct (Z.ltb_spec (a mod 128) (b mod 128 + c)), (Z.ltb_spec a (b + c)); cbn [xorb]; lia.
Qed.

Lemma alu_cases (P : Z -> Prop) :
  P 0 -> P 1 -> P 2 -> P 3 -> P 4 -> P 5 -> P 6 -> P 7 -> forall op, 0 <= op < 8 -> P op.
Proof.
  intros. assert (op = 0 \/ op = 1 \/ op = 2 \/ op = 3 \/ op = 4 \/ op = 5 \/ op = 6 \/ op = 7) as E by lia.
  repeat destruct E as [->|E]; try assumption. subst; assumption.
Qed.

(** what the 16-bit forms must give *)
Definition alu16_ok (W op l r cf : Z) (f : flags) : Prop :=
  exists res carry, op_result W op l r cf = Some (res, carry) /\
    let '(vr, vf) := alu (alu_of op) true (l mod 65536) (r mod 65536) f in
    0 <= res < 2 ^ W /\
    res mod 65536 = vr /\
    abs_flags (op_flags W 1 res carry) = vf /\
    only_flag_bits (op_flags W 1 res carry).

Lemma flags16_add W l r c : 16 <= W -> 0 <= c <= 1 ->
  let res := uns W (l + r + c) in
  let carry := Z.lor (Z.land l r) (Z.land (Z.lor l r) (uns W (Z.lnot res))) in
  0 <= res < 2 ^ W /\ res mod 65536 = (l mod 65536 + r mod 65536 + c) mod 65536 /\
  abs_flags (op_flags W 1 res carry) = add_flags true (l mod 65536) (r mod 65536) c /\
  only_flag_bits (op_flags W 1 res carry).
Proof.
  intros HW Hc res carry.
  assert (Hres : 0 <= res < 2 ^ W) by (apply Z.mod_pos_bound, Z.pow_pos_nonneg; lia).
  assert (Hm : res mod 65536 = (l mod 65536 + r mod 65536 + c) mod 65536).
  { unfold res. rewrite uns_mod by lia. lia. }
  split; [exact Hres|]. split; [exact Hm|].
  rewrite op_flags_word. cbv zeta. change (1 =? 0) with false. cbn iota.
  split; [|apply only_word].
  rewrite abs_flags_word. rewrite trim_zero by lia. rewrite testbit_uns_shl1 by lia.
  unfold carry, res. rewrite !add_carry_bit by lia. rewrite testbit_uns by lia.
  unfold add_flags, flags_of, trunc, modulus, half.
  change (15 - 1 + 1) with 15. change (15 + 1) with 16.
  change (2 ^ 16) with 65536. change (2 ^ 15) with 32768.
  pose proof (Z.mod_pos_bound l 65536 ltac:(lia)). pose proof (Z.mod_pos_bound r 65536 ltac:(lia)).
  rewrite <- ovf16_add by lia.
  rewrite testbit_top by lia. change (2 ^ (15 + 1)) with 65536. change (2 ^ 15) with 32768.
  f_equal.
  - unfold res in Hm. now rewrite Hm.
  - f_equal. lia.
  - f_equal. f_equal. lia.
Qed.

Lemma flags16_sub W l r c : 16 <= W -> 0 <= c <= 1 ->
  let res := uns W (l - r - c) in
  let carry := Z.lor (Z.land (uns W (Z.lnot l)) r) (Z.land (uns W (Z.lnot (Z.lxor l r))) res) in
  0 <= res < 2 ^ W /\ res mod 65536 = (l mod 65536 - r mod 65536 - c) mod 65536 /\
  abs_flags (op_flags W 1 res carry) = sub_flags true (l mod 65536) (r mod 65536) c /\
  only_flag_bits (op_flags W 1 res carry).
Proof.
  intros HW Hc res carry.
  assert (Hres : 0 <= res < 2 ^ W) by (apply Z.mod_pos_bound, Z.pow_pos_nonneg; lia).
  assert (Hm : res mod 65536 = (l mod 65536 - r mod 65536 - c) mod 65536).
  { unfold res. rewrite uns_mod by lia. lia. }
  split; [exact Hres|]. split; [exact Hm|].
  rewrite op_flags_word. cbv zeta. change (1 =? 0) with false. cbn iota.
  split; [|apply only_word].
  rewrite abs_flags_word. rewrite trim_zero by lia. rewrite testbit_uns_shl1 by lia.
  unfold carry, res. rewrite !sub_borrow_bit by lia. rewrite testbit_uns by lia.
  unfold sub_flags, flags_of, trunc, modulus, half.
  change (15 - 1 + 1) with 15. change (15 + 1) with 16.
  change (2 ^ 16) with 65536. change (2 ^ 15) with 32768.
  pose proof (Z.mod_pos_bound l 65536 ltac:(lia)). pose proof (Z.mod_pos_bound r 65536 ltac:(lia)).
  rewrite <- ovf16_sub by lia.
  rewrite testbit_top by lia. change (2 ^ (15 + 1)) with 65536. change (2 ^ 15) with 32768.
  f_equal.
  - unfold res in Hm. now rewrite Hm.
  - f_equal. lia.
  - f_equal. f_equal; lia.
Qed.

Lemma flags16_logic W res : 16 <= W -> 0 <= res < 2 ^ W ->
  abs_flags (op_flags W 1 res 0) = logic_flags true (res mod 65536) /\
  only_flag_bits (op_flags W 1 res 0).
Proof.
  intros HW Hres. rewrite op_flags_word. cbv zeta. change (1 =? 0) with false. cbn iota.
  split; [|apply only_word].
  rewrite abs_flags_word, trim_zero by lia. rewrite testbit_uns_shl1 by lia. rewrite !Z.bits_0.
  rewrite testbit_top by lia. reflexivity.
Qed.

Lemma alu16 W op l r cf f :
  16 <= W -> 0 <= op < 8 -> 0 <= l < 2 ^ W -> 0 <= r < 2 ^ W -> cf = Z.b2z (fC f) ->
  alu16_ok W op l r cf f.
Proof.
  intros HW Hop Hl Hr Hcf.
  assert (Hc : 0 <= cf <= 1) by (subst; destruct (fC f); cbn; lia).
  assert (Ecf : (if fC f then 1 else 0) = cf) by (subst; destruct (fC f); reflexivity).
  unfold alu16_ok. revert op Hop. apply alu_cases; cbn [op_result alu_of alu]; rewrite ?Ecf;
    (eexists; eexists; split; [reflexivity|]).
  - pose proof (flags16_add W l r 0 HW ltac:(lia)) as (A & B & C & D). cbv zeta in A, B, C, D.
    rewrite Z.add_0_r in A, B, C, D. unfold trunc, modulus.
    rewrite !Z.add_0_r in *. auto.
  - split; [apply lor_range; lia|]. split; [apply (lor_mod_pow2 l r 16); lia|].
    pose proof (flags16_logic W (Z.lor l r) HW (lor_range l r W ltac:(lia) Hl Hr)) as [A B].
    split; [|exact B]. rewrite A. f_equal. apply (lor_mod_pow2 l r 16); lia.
  - pose proof (flags16_add W l r cf HW ltac:(lia)) as (A & B & C & D). cbv zeta in A, B, C, D. auto.
  - pose proof (flags16_sub W l r cf HW ltac:(lia)) as (A & B & C & D). cbv zeta in A, B, C, D. auto.
  - split; [apply land_range; lia|]. split; [apply (land_mod_pow2 l r 16); lia|].
    pose proof (flags16_logic W (Z.land l r) HW (land_range l r W ltac:(lia) Hl)) as [A B].
    split; [|exact B]. rewrite A. f_equal. apply (land_mod_pow2 l r 16); lia.
  - pose proof (flags16_sub W l r 0 HW ltac:(lia)) as (A & B & C & D). cbv zeta in A, B, C, D.
    unfold trunc, modulus. rewrite !Z.sub_0_r in *. auto.
  - split; [apply lxor_range; lia|]. split; [apply (lxor_mod_pow2 l r 16); lia|].
    pose proof (flags16_logic W (Z.lxor l r) HW (lxor_range l r W ltac:(lia) Hl Hr)) as [A B].
    split; [|exact B]. rewrite A. f_equal. apply (lxor_mod_pow2 l r 16); lia.
  - pose proof (flags16_sub W l r 0 HW ltac:(lia)) as (A & B & C & D). cbv zeta in A, B, C, D.
    unfold trunc, modulus. rewrite !Z.sub_0_r in *. auto.
Qed.

(** 8-bit forms: everything but ZF, and ZF unless the 9-bit sum is 0x100 *)
Definition wraps_to_zero (op l r cf : Z) : bool :=
  match op with
  | 0 => l + r =? 256
  | 2 => l + r + cf =? 256
  | 3 => l - r - cf =? -256
  | _ => false
  end.

Definition alu8_ok (W op l r cf : Z) (f : flags) : Prop :=
  exists res carry, op_result W op l r cf = Some (res, carry) /\
    let '(vr, vf) := alu (alu_of op) false l r f in
    let got := abs_flags (op_flags W 0 res carry) in
    0 <= res < 2 ^ W /\
    res mod 256 = vr /\
    fC got = fC vf /\ fS got = fS vf /\ fO got = fO vf /\
    fZ got = (fZ vf && negb (wraps_to_zero op l r cf)) /\
    only_flag_bits (op_flags W 0 res carry).

Lemma flags8_add W l r c : 16 <= W -> 0 <= c <= 1 -> 0 <= l < 256 -> 0 <= r < 256 ->
  let res := uns W (l + r + c) in
  let carry := Z.lor (Z.land l r) (Z.land (Z.lor l r) (uns W (Z.lnot res))) in
  let got := abs_flags (op_flags W 0 res carry) in
  let vf := add_flags false l r c in
  0 <= res < 2 ^ W /\ res mod 256 = (l + r + c) mod 256 /\
  fC got = fC vf /\ fS got = fS vf /\ fO got = fO vf /\
  fZ got = (fZ vf && negb (l + r + c =? 256)) /\
  only_flag_bits (op_flags W 0 res carry).
Proof.
  intros HW Hc Hl Hr res carry got vf.
  assert (Hres : 0 <= res < 2 ^ W) by (apply Z.mod_pos_bound, Z.pow_pos_nonneg; lia).
  assert (E : res = l + r + c).
  { unfold res, uns, wu. apply Z.mod_small. split; [lia|].
    apply Z.lt_le_trans with (2 ^ 16); [change (2 ^ 16) with 65536; lia | apply Z.pow_le_mono_r; lia]. }
  split; [exact Hres|]. split; [now rewrite E|].
  unfold got. rewrite op_flags_word. cbv zeta. change (0 =? 0) with true. cbn iota.
  rewrite abs_flags_word. cbn [fC fZ fS fO]. rewrite trim_zero by lia. rewrite testbit_uns_shl1 by lia.
  unfold carry, res. rewrite !add_carry_bit by lia. fold res. rewrite E.
  unfold vf, add_flags, flags_of, trunc, modulus, half. cbn [fC fZ fS fO].
  change (7 - 1 + 1) with 7. change (7 + 1) with 8.
  change (2 ^ 8) with 256. change (2 ^ 7) with 128.
  rewrite <- ovf8_add by lia. rewrite !(Z.mod_small l 256), !(Z.mod_small r 256) by lia.
  rewrite testbit_top by lia. change (2 ^ (7 + 1)) with 256. change (2 ^ 7) with 128.
  repeat split; try reflexivity.
  - destruct (Z.eqb_spec (l + r + c) 256), (Z.eqb_spec ((l + r + c) mod 256) 0), (Z.eqb_spec ((l + r + c) mod 65536) 0); cbn; lia.
  - apply only_word.
Qed.

Lemma flags8_sub W l r c : 16 <= W -> 0 <= c <= 1 -> 0 <= l < 256 -> 0 <= r < 256 ->
  let res := uns W (l - r - c) in
  let carry := Z.lor (Z.land (uns W (Z.lnot l)) r) (Z.land (uns W (Z.lnot (Z.lxor l r))) res) in
  let got := abs_flags (op_flags W 0 res carry) in
  let vf := sub_flags false l r c in
  0 <= res < 2 ^ W /\ res mod 256 = (l - r - c) mod 256 /\
  fC got = fC vf /\ fS got = fS vf /\ fO got = fO vf /\
  fZ got = (fZ vf && negb (l - r - c =? -256)) /\
  only_flag_bits (op_flags W 0 res carry).
Proof.
  intros HW Hc Hl Hr res carry got vf.
  assert (Hres : 0 <= res < 2 ^ W) by (apply Z.mod_pos_bound, Z.pow_pos_nonneg; lia).
  assert (E : res mod 256 = (l - r - c) mod 256) by (apply uns_mod8; lia).
  assert (E16 : res mod 65536 = (l - r - c) mod 65536) by (apply uns_mod; lia).
  split; [exact Hres|]. split; [exact E|].
  unfold got. rewrite op_flags_word. cbv zeta. change (0 =? 0) with true. cbn iota.
  rewrite abs_flags_word. cbn [fC fZ fS fO]. rewrite trim_zero by lia. rewrite testbit_uns_shl1 by lia.
  unfold carry, res. rewrite !sub_borrow_bit by lia. fold res. rewrite E16.
  unfold vf, sub_flags, flags_of, trunc, modulus, half. cbn [fC fZ fS fO].
  change (7 - 1 + 1) with 7. change (7 + 1) with 8.
  change (2 ^ 8) with 256. change (2 ^ 7) with 128.
  rewrite <- ovf8_sub by lia. rewrite !(Z.mod_small l 256), !(Z.mod_small r 256) by lia.
  rewrite testbit_top by lia. change (2 ^ (7 + 1)) with 256. change (2 ^ 7) with 128.
  repeat split; try reflexivity.
  - now rewrite E.
  - destruct (Z.eqb_spec (l - r - c) (-256)), (Z.eqb_spec ((l - r - c) mod 256) 0), (Z.eqb_spec ((l - r - c) mod 65536) 0); cbn; lia.
  - apply only_word.
Qed.

Lemma flags8_logic W res : 16 <= W -> 0 <= res < 256 ->
  let got := abs_flags (op_flags W 0 res 0) in
  got = logic_flags false res /\ only_flag_bits (op_flags W 0 res 0).
Proof.
  intros HW Hres got. unfold got. rewrite op_flags_word. cbv zeta. change (0 =? 0) with true. cbn iota.
  assert (256 <= 2 ^ W).
  { change 256 with (2 ^ 8). apply Z.pow_le_mono_r; lia. }
  split; [|apply only_word].
  rewrite abs_flags_word, trim_zero by lia. rewrite testbit_uns_shl1 by lia. rewrite !Z.bits_0.
  rewrite testbit_top by lia. change (2 ^ (7 + 1)) with 256. change (2 ^ 7) with 128.
  unfold logic_flags, flags_of, half. rewrite !Z.mod_small by lia. reflexivity.
Qed.

Lemma logic8_case W op res vr f l r cf :
  16 <= W -> op_result W op l r cf = Some (res, 0) -> 0 <= res < 256 -> 0 <= op < 8 ->
  wraps_to_zero op l r cf = false ->
  alu (alu_of op) false l r f = (vr, logic_flags false vr) -> vr = res ->
  alu8_ok W op l r cf f.
Proof.
  intros HW E Hres Hop Hwz Ha ->. unfold alu8_ok. exists res, 0. split; [exact E|]. rewrite Ha. cbv zeta.
  destruct (flags8_logic W res HW Hres) as [A B]. cbv zeta in A.
  assert (256 <= 2 ^ W) by (change 256 with (2 ^ 8); apply Z.pow_le_mono_r; lia).
  rewrite A, Hwz. cbn [negb]. rewrite andb_true_r. repeat split; auto; try lia; apply Z.mod_small; lia.
Qed.

Lemma alu8 W op l r cf f :
  16 <= W -> 0 <= op < 8 -> 0 <= l < 256 -> 0 <= r < 256 -> cf = Z.b2z (fC f) ->
  alu8_ok W op l r cf f.
Proof.
  intros HW Hop Hl Hr Hcf.
  assert (Hc : 0 <= cf <= 1) by (subst; destruct (fC f); cbn; lia).
  assert (Ecf : (if fC f then 1 else 0) = cf) by (subst; destruct (fC f); reflexivity).
  revert op Hop. apply alu_cases.
  - unfold alu8_ok; cbn [op_result alu_of alu wraps_to_zero]. eexists; eexists; split; [reflexivity|].
    pose proof (flags8_add W l r 0 HW ltac:(lia) Hl Hr) as H. cbv zeta in H. unfold trunc, modulus.
    rewrite !Z.add_0_r in H. exact H.
  - apply (logic8_case W 1 (Z.lor l r) (Z.lor l r)); auto; try lia; try reflexivity.
    apply (lor_range l r 8); lia.
  - unfold alu8_ok; cbn [op_result alu_of alu wraps_to_zero]. eexists; eexists; split; [reflexivity|].
    rewrite Ecf. exact (flags8_add W l r cf HW ltac:(lia) Hl Hr).
  - unfold alu8_ok; cbn [op_result alu_of alu wraps_to_zero]. eexists; eexists; split; [reflexivity|].
    rewrite Ecf. exact (flags8_sub W l r cf HW ltac:(lia) Hl Hr).
  - apply (logic8_case W 4 (Z.land l r) (Z.land l r)); auto; try lia; try reflexivity.
    apply (land_range l r 8); lia.
  - unfold alu8_ok; cbn [op_result alu_of alu wraps_to_zero]. eexists; eexists; split; [reflexivity|].
    pose proof (flags8_sub W l r 0 HW ltac:(lia) Hl Hr) as H. cbv zeta in H. unfold trunc, modulus.
    rewrite !Z.sub_0_r in H. destruct (Z.eqb_spec (l - r) (-256)); [lia|]. exact H.
  - apply (logic8_case W 6 (Z.lxor l r) (Z.lxor l r)); auto; try lia; try reflexivity.
    apply (lxor_range l r 8); lia.
  - unfold alu8_ok; cbn [op_result alu_of alu wraps_to_zero]. eexists; eexists; split; [reflexivity|].
    pose proof (flags8_sub W l r 0 HW ltac:(lia) Hl Hr) as H. cbv zeta in H. unfold trunc, modulus.
    rewrite !Z.sub_0_r in H. destruct (Z.eqb_spec (l - r) (-256)); [lia|]. exact H.
Qed.
