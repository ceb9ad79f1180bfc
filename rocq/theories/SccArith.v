(** Constants added to, multiplied into and divided out of registers: the code emitted by
    EmitAddRegConst, EmitScaleAx and EmitDivAxConst, run on the 8086. *)
From Verif Require Import Base Bits Spec8086 SccRun SccState SccEmit SccInput SccPut.

(** running what the compiler appended between e and e', from any state of the machine with
    that code in memory, gets to its end in a state related by R to the initial one *)
Definition does_if (pre : state -> Prop) (e e' : emst) (R : state -> state -> Prop) : Prop :=
  forall s, wf s -> ip s = CodeAddress e -> loaded e e' (mem s) (cs (sg s)) -> pre s ->
  reaches (fun s' => ip s' = CodeAddress e' /\ R s s') s.
Definition does := does_if (fun _ => True).

(** only registers (and flags) change *)
Definition only_regs (f : regs -> regs) (s s' : state) : Prop :=
  rg s' = f (rg s) /\ sg s' = sg s /\ mem s' = mem s.

Lemma ci_small W x : 1 <= W -> - 2 ^ (W - 1) <= x < 2 ^ (W - 1) -> ci W x = x.
Proof.
  intros HW H. unfold ci, ws. assert (E : 2 ^ W = 2 * 2 ^ (W - 1)) by (rewrite <- Z.pow_succ_r by lia; f_equal; lia).
  set (h := 2 ^ (W - 1)) in *. rewrite E.
  destruct (Z_lt_ge_dec x 0).
  - rewrite <- (Z_mod_plus x 1 (2 * h)) by lia. rewrite Z.mod_small by lia. destruct (Z.ltb_spec (x + 1 * (2 * h)) h); lia.
  - rewrite Z.mod_small by lia. destruct (Z.ltb_spec x h); lia.
Qed.
Lemma pow_ge W : 16 <= W -> 32768 <= 2 ^ (W - 1).
Proof. intro H. change 32768 with (2 ^ 15). apply Z.pow_le_mono_r; lia. Qed.

Section W.
Variable W : Z.
Hypothesis HW : 16 <= W.

(** ** EmitAddRegConst *)
(** the bytes it appends *)
Definition add_code (r c : Z) : list Z :=
  let neg := c <? 0 in
  let a := Z.abs c in
  if a =? 0 then []
  else if a <=? 2 then repeat ((if neg then 72 else 64) + r) (Z.to_nat a)
  else if a <? 128 then [131; (if neg then 232 else 192) + r; a]
  else (if r =? 0 then [if neg then 45 else 5] else [129; (if neg then 232 else 192) + r]) ++ [a; Z.shiftr a 8].

Lemma add_emits r c e e' : 0 <= r < 8 -> - 2 ^ (W - 1) < c < 2 ^ (W - 1) -> live e ->
  EmitAddRegConst W r c e = Ok (tt, e') -> e' = put (add_code r c) e /\ live e'.
Proof.
  intros Hr Hc L H. pose proof (pow_ge W HW) as PW. unfold EmitAddRegConst, EmitAddRegConst_ in H.
  change (Output1Byte_ (EmitChecks W)) with (Output1Byte W) in H.
  change (Output2Bytes_ (EmitChecks W)) with (Output2Bytes W) in H.
  change (Output3Bytes_ (EmitChecks W)) with (Output3Bytes W) in H.
  change (OutputWord_ (EmitChecks W)) with (OutputWord W) in H.
  unfold add_code.
  destruct (Z.eqb_spec c 0) as [->|Nz].
  { injection H as <-. split; [reflexivity|exact L]. }
  assert (EA : (if c <? 0 then ci W (- c) else c) = Z.abs c).
  { destruct (Z.ltb_spec c 0); [rewrite ci_small by lia|]; lia. }
  cbv zeta in H. rewrite EA in H. set (a := Z.abs c) in *. assert (Ha : 0 < a < 2 ^ (W - 1)) by lia. cbv zeta.
  clearbody a. destruct (Z.eqb_spec a 0) as [?|_]; [lia|].
  destruct (Z.leb_spec a 2) as [L2|G2].
  - minv H x e1 E. apply out1 in E; [|exact L]. destruct E as [-> L1].
    rewrite ci_small in H by lia.
    assert (a = 1 \/ a = 2) as [-> | ->] by lia.
    + injection H as <-. split; [|exact L1]. destruct (c <? 0); reg8 r; reflexivity.
    + apply out1 in H; [|exact L1]. destruct H as [-> L3]. split; [|exact L3]. destruct (c <? 0); reg8 r; reflexivity.
  - destruct (Z.ltb_spec a 128) as [L8|G8].
    + apply out3 in H; [|exact L]. destruct H as [-> L1]. split; [|exact L1]. destruct (c <? 0); reg8 r; reflexivity.
    + minv H x e1 E. assert (E1 : e1 = put (if r =? 0 then [if c <? 0 then 45 else 5] else [129; (if c <? 0 then 232 else 192) + r]) e /\ live e1).
      { destruct (Z.eqb_spec r 0) as [->|NR].
        - apply out1 in E; [|exact L]. destruct E as [-> L1]. split; [|exact L1]. destruct (c <? 0); reflexivity.
        - apply out2 in E; [|exact L]. destruct E as [-> L1]. split; [|exact L1]. destruct (c <? 0); reg8 r; reflexivity. }
      destruct E1 as [-> L1]. apply outw in H; [|exact L1]. destruct H as [-> L3]. split; [|exact L3].
      rewrite put_app. reflexivity.
Qed.

Lemma add_ok r c e : live e -> room e 4 -> exists e', EmitAddRegConst W r c e = Ok (tt, e').
Proof.
  intros L R. unfold EmitAddRegConst, EmitAddRegConst_.
  change (Output1Byte_ (EmitChecks W)) with (Output1Byte W).
  change (Output2Bytes_ (EmitChecks W)) with (Output2Bytes W).
  change (Output3Bytes_ (EmitChecks W)) with (Output3Bytes W).
  change (OutputWord_ (EmitChecks W)) with (OutputWord W).
  unfold room in R.
  assert (R' : forall bs : list Z, Z.of_nat (length bs) <= 4 -> room e (Z.of_nat (length bs))) by (intros; unfold room; lia).
  destruct (c =? 0); [eexists; reflexivity|]. cbv zeta.
  destruct (_ <=? 2).
  - rewrite (bind_ok _ _ _ _ _ (out1_ok _ _ e L ltac:(unfold room; lia))).
    destruct (negb _); [|eexists; reflexivity]. eexists. apply out1_ok.
    + apply (put_live [_]); [exact L|apply R'; cbn; lia].
    + unfold room. rewrite put_addr. cbn [length]. lia.
  - destruct (_ <? 128); [eexists; apply out3_ok; [exact L|unfold room; lia]|].
    destruct (r =? 0).
    + rewrite (bind_ok _ _ _ _ _ (out1_ok _ _ e L ltac:(unfold room; lia))). eexists. apply outw_ok.
      * apply (put_live [_]); [exact L|apply R'; cbn; lia].
      * unfold room. rewrite put_addr. cbn [length]. lia.
    + rewrite (bind_ok _ _ _ _ _ (out2_ok _ _ _ e L ltac:(unfold room; lia))). eexists. apply outw_ok.
      * apply (put_live [_; _]); [exact L|apply R'; cbn; lia].
      * unfold room. rewrite put_addr. cbn [length]. lia.
Qed.

(** running these bytes *)
Lemma add_runs r c : 0 <= r < 8 -> forall g m a R f,
  code m (cs g) a (map u8 (add_code r c)) -> 0 <= a -> a + Z.of_nat (length (add_code r c)) < 65536 ->
  regs_ok R ->
  reaches (fun s' => ip s' = a + Z.of_nat (length (add_code r c)) /\
             only_regs (fun R => rset R r ((rget R r + c) mod 65536)) (mkst R g a f m) s')
          (mkst R g a f m).
Proof.
  intros Hr g m a R f C A B RO. unfold add_code in *. cbv zeta in *. unfold only_regs. cbn [rg sg mem].
  assert (T : forall R', R' = rset R r ((rget R r + c) mod 65536) -> forall n f,
     reaches (fun s' => ip s' = n /\ rg s' = rset R r ((rget R r + c) mod 65536) /\ sg s' = g /\ mem s' = m) (mkst R' g n f m)).
  { intros R' -> n f'. apply reach_now. cbn. auto. }
  destruct (Z.eqb_spec (Z.abs c) 0) as [Z0|Nz].
  { cbn [length Z.of_nat] in *. rewrite Z.add_0_r. apply T. replace c with 0 by lia. rewrite Z.add_0_r.
    unfold regs_ok, is16 in RO. rewrite Z.mod_small by (reg8 r; cbn; lia). destruct R; reg8 r; reflexivity. }
  destruct (Z.leb_spec (Z.abs c) 2) as [L2|G2].
  - assert (U1 : u8 (64 + r) = 64 + r) by (apply u8_small; lia).
    assert (U2 : u8 (72 + r) = 72 + r) by (apply u8_small; lia).
    assert (c = 1 \/ c = 2 \/ c = -1 \/ c = -2) as [-> |[-> |[-> | ->]]] by lia.
    + change (code m (cs g) a [u8 (64 + r)]) in C. change (a + 1 < 65536) in B. rewrite U1 in C.
      change (Z.of_nat (length _)) with 1.
      runop [64 + r] (IInc true (Reg r)) 1; [intro; apply dec_inc; lia|]. apply T. reflexivity.
    + change (code m (cs g) a [u8 (64 + r); u8 (64 + r)]) in C. change (a + 2 < 65536) in B. rewrite U1 in C.
      change (Z.of_nat (length _)) with 2.
      runop [64 + r] (IInc true (Reg r)) 1; [apply (code_app m (cs g) a [_] [_]) in C; apply C|intro; apply dec_inc; lia|].
      runop [64 + r] (IInc true (Reg r)) 1; [apply (code_app m (cs g) a [_] [_]) in C; apply C|intro; apply dec_inc; lia|].
      replace (a + 1 + 1) with (a + 2) by lia. apply T. unfold trunc, modulus. rewrite rget_rset by lia. rewrite rset_rset by lia. f_equal. lia.
    + change (code m (cs g) a [u8 (72 + r)]) in C. change (a + 1 < 65536) in B. rewrite U2 in C.
      change (Z.of_nat (length _)) with 1.
      runop [72 + r] (IDec true (Reg r)) 1; [intro; apply dec_dec; lia|]. apply T. reflexivity.
    + change (code m (cs g) a [u8 (72 + r); u8 (72 + r)]) in C. change (a + 2 < 65536) in B. rewrite U2 in C.
      change (Z.of_nat (length _)) with 2.
      runop [72 + r] (IDec true (Reg r)) 1; [apply (code_app m (cs g) a [_] [_]) in C; apply C|intro; apply dec_dec; lia|].
      runop [72 + r] (IDec true (Reg r)) 1; [apply (code_app m (cs g) a [_] [_]) in C; apply C|intro; apply dec_dec; lia|].
      replace (a + 1 + 1) with (a + 2) by lia. apply T. unfold trunc, modulus. rewrite rget_rset by lia. rewrite rset_rset by lia. f_equal. lia.
  - destruct (Z.ltb_spec (Z.abs c) 128) as [L8|G8].
    + cbn [map length] in *. destruct (Z.ltb_spec c 0) as [Neg|Pos].
      * runop [131; 192 + 8 * 5 + r; u8 (Z.abs c)] (IAlu SUB true (Reg r) (Imm (sx8 (u8 (Z.abs c))))) 3.
        { rewrite (u8_small (232 + r)) in C by lia. exact C. }
        { intro. apply (dec_alu8 5); lia. }
        apply T. rewrite sx8_u8 by lia. unfold trunc, modulus. f_equal. f_equal. lia.
      * runop [131; 192 + 8 * 0 + r; u8 (Z.abs c)] (IAlu ADD true (Reg r) (Imm (sx8 (u8 (Z.abs c))))) 3.
        { rewrite (u8_small (192 + r)) in C by lia. exact C. }
        { intro. apply (dec_alu8 0); lia. }
        apply T. rewrite sx8_u8 by lia. unfold trunc, modulus. f_equal. f_equal. lia.
    + destruct (Z.eqb_spec r 0) as [->|NR]; cbn [map length app] in *; destruct (Z.ltb_spec c 0) as [Neg|Pos].
      * runop [8 * 5 + 5; u8 (Z.abs c); u8 (Z.shiftr (Z.abs c) 8)] (IAlu SUB true (Reg 0) (Imm (u8 (Z.abs c) + 256 * u8 (Z.shiftr (Z.abs c) 8)))) 3.
        apply T. rewrite word_bytes. unfold trunc, modulus. f_equal. lia.
      * runop [8 * 0 + 5; u8 (Z.abs c); u8 (Z.shiftr (Z.abs c) 8)] (IAlu ADD true (Reg 0) (Imm (u8 (Z.abs c) + 256 * u8 (Z.shiftr (Z.abs c) 8)))) 3.
        apply T. rewrite word_bytes. unfold trunc, modulus. f_equal. lia.
      * runop [129; 192 + 8 * 5 + r; u8 (Z.abs c); u8 (Z.shiftr (Z.abs c) 8)] (IAlu SUB true (Reg r) (Imm (u8 (Z.abs c) + 256 * u8 (Z.shiftr (Z.abs c) 8)))) 4.
        { rewrite (u8_small (232 + r)) in C by lia. exact C. }
        { intro. apply (dec_alu16 5); lia. }
        apply T. rewrite word_bytes. unfold trunc, modulus. f_equal. lia.
      * runop [129; 192 + 8 * 0 + r; u8 (Z.abs c); u8 (Z.shiftr (Z.abs c) 8)] (IAlu ADD true (Reg r) (Imm (u8 (Z.abs c) + 256 * u8 (Z.shiftr (Z.abs c) 8)))) 4.
        { rewrite (u8_small (192 + r)) in C by lia. exact C. }
        { intro. apply (dec_alu16 0); lia. }
        apply T. rewrite word_bytes. unfold trunc, modulus. f_equal. lia.
Qed.

Lemma does_of (pre : state -> Prop) bs e R :
  live (put bs e) -> live e ->
  (forall r g f m, regs_ok r -> code m (cs g) (CodeAddress e) (map u8 bs) -> pre (mkst r g (CodeAddress e) f m) ->
     reaches (fun s' => ip s' = CodeAddress e + Z.of_nat (length bs) /\ R (mkst r g (CodeAddress e) f m) s') (mkst r g (CodeAddress e) f m)) ->
  does_if pre e (put bs e) R.
Proof.
  intros L' L H [r g i f m] (RO & _ & _ & _) E C Pr. cbn [ip rg sg mem] in *. subst i.
  rewrite put_addr. apply H; auto. apply loaded_put. exact C.
Qed.

Theorem add_does r c e e' : 0 <= r < 8 -> - 2 ^ (W - 1) < c < 2 ^ (W - 1) -> live e ->
  EmitAddRegConst W r c e = Ok (tt, e') ->
  does e e' (only_regs (fun R => rset R r ((rget R r + c) mod 65536))).
Proof.
  intros Hr Hc L H. apply add_emits in H; auto. destruct H as [-> L'].
  apply does_of; auto. intros. pose proof (live_room _ _ L'). pose proof (live_lo _ L).
  apply add_runs; auto; lia.
Qed.

(** ** Powers of two *)
Lemma pow2_of_land x : 0 < x -> Z.land x (x - 1) = 0 -> exists k, 0 <= k /\ x = 2 ^ k.
Proof.
  intros P H. exists (Z.log2 x). pose proof (Z.log2_nonneg x) as N. split; [exact N|].
  destruct (Z.log2_spec x P) as [A B].
  destruct (Z.eq_dec x (2 ^ Z.log2 x)) as [E|NE]; [exact E|]. exfalso.
  assert (T : Z.testbit (Z.land x (x - 1)) (Z.log2 x) = true).
  { rewrite Z.land_spec, (Z.bit_log2 x P).
    assert (E : Z.log2 (x - 1) = Z.log2 x) by (apply Z.log2_unique; lia).
    rewrite <- E at 1. rewrite Z.bit_log2; [reflexivity|]. pose proof (Z.pow_pos_nonneg 2 (Z.log2 x)). lia. }
  rewrite H, Z.bits_0 in T. discriminate.
Qed.
Lemma land_of_pow2 k : 0 <= k -> Z.land (2 ^ k) (2 ^ k - 1) = 0.
Proof. intro K. rewrite land_ones_mod by exact K. apply Z_mod_same_full. Qed.

(** the constants for which the compiler shifts: land c (c - 1) = 0 in the int type *)
Lemma shifty c : - 2 ^ (W - 1) <= c < 2 ^ (W - 1) -> c <> 0 -> Z.land c (ci W (c - 1)) = 0 ->
  exists k, 0 <= k < W /\ (c = 2 ^ k \/ (c = - 2 ^ k /\ k = W - 1)).
Proof.
  intros R Nz H. destruct (Z.eq_dec c (- 2 ^ (W - 1))) as [->|NE].
  { exists (W - 1). split; [lia|]. right. auto. }
  rewrite ci_small in H by lia. destruct (Z_lt_ge_dec c 0) as [Ng|Ps].
  - exfalso. assert (T : Z.land c (c - 1) < 0) by (apply Z.land_neg; lia). lia.
  - destruct (pow2_of_land c) as (k & K & E); [lia|exact H|]. exists k. split; [|auto]. split; [exact K|].
    apply (Z.pow_lt_mono_r_iff 2); try lia. assert (2 ^ (W - 1) < 2 ^ W) by (apply Z.pow_lt_mono_r; lia). lia.
Qed.

Lemma quot_pow2 k : 0 <= k -> Z.quot (2 ^ (k + 1)) 2 = 2 ^ k /\ Z.quot (- 2 ^ (k + 1)) 2 = - 2 ^ k.
Proof.
  intro K. replace (2 ^ (k + 1)) with (2 ^ k * 2) by (rewrite Z.pow_add_r by lia; lia).
  split; [|rewrite Z.quot_opp_l by lia]; rewrite Z.quot_mul by lia; reflexivity.
Qed.

(** the halving loop repeats its body k times *)
Lemma halve_emits b0 b1 (sg : Z) k : sg = 1 \/ sg = -1 -> forall n e e', (k < n)%nat -> live e ->
  halve_loop n (sg * 2 ^ Z.of_nat k) (Output2Bytes W b0 b1) e = Ok (tt, e') ->
  e' = put (concat (repeat [b0; b1] k)) e /\ live e'.
Proof.
  intro SG. induction k as [|k IH]; intros n e e' Ln L H; (destruct n as [|n]; [lia|]); cbn [halve_loop] in H.
  - assert (E : Z.quot (sg * 2 ^ Z.of_nat 0) 2 = 0) by (destruct SG as [->| ->]; reflexivity).
    rewrite E in H. injection H as <-. split; [reflexivity|exact L].
  - assert (E : Z.quot (sg * 2 ^ Z.of_nat (S k)) 2 = sg * 2 ^ Z.of_nat k).
    { replace (Z.of_nat (S k)) with (Z.of_nat k + 1) by lia. destruct (quot_pow2 (Z.of_nat k)) as [E1 E2]; [lia|].
      destruct SG as [->| ->]; [rewrite !Z.mul_1_l; exact E1|].
      replace (-1 * 2 ^ (Z.of_nat k + 1)) with (- 2 ^ (Z.of_nat k + 1)) by lia. rewrite E2. lia. }
    rewrite E in H. assert (N : sg * 2 ^ Z.of_nat k =? 0 = false).
    { apply Z.eqb_neq. pose proof (Z.pow_pos_nonneg 2 (Z.of_nat k)). lia. }
    rewrite N in H. minv H x e1 E1. apply out2 in E1; [|exact L]. destruct E1 as [-> L1].
    apply IH in H; [|lia|exact L1]. destruct H as [-> L2]. split; [reflexivity|exact L2].
Qed.

(** k single-bit shifts of AX *)
Definition shk_byte (k : shop) : Z := match k with SHL => 224 | SHR => 232 | SAR => 248 end.
Definition shval (k : shop) (n : nat) (a : Z) : Z :=
  match k with
  | SHL => (a * 2 ^ Z.of_nat n) mod 65536
  | SHR => a / 2 ^ Z.of_nat n
  | SAR => (signed true a / 2 ^ Z.of_nat n) mod 65536
  end.
Lemma signed_range x : 0 <= x < 65536 -> -32768 <= signed true x < 32768.
Proof. intro H. unfold signed, half, modulus. destruct (Z.ltb_spec x 32768); lia. Qed.
Lemma signed_mod x : -32768 <= x < 32768 -> signed true (x mod 65536) = x.
Proof. intro H. unfold signed, half, modulus. destruct (Z.ltb_spec (x mod 65536) 32768); lia. Qed.
Lemma mod_signed x : 0 <= x < 65536 -> signed true x mod 65536 = x.
Proof. intro H. unfold signed, half, modulus. destruct (Z.ltb_spec x 32768); lia. Qed.
Lemma shval_range k n a : 0 <= a < 65536 -> 0 <= shval k n a < 65536.
Proof.
  intro H. unfold shval. pose proof (Z.pow_pos_nonneg 2 (Z.of_nat n)) as P. destruct k; try (apply Z.mod_pos_bound; lia).
  split; [apply Z.div_pos; lia|]. apply Z.div_lt_upper_bound; nia.
Qed.
Lemma shval_0 k a : 0 <= a < 65536 -> shval k 0 a = a.
Proof.
  intro H. unfold shval. change (2 ^ Z.of_nat 0) with 1. rewrite ?Z.mul_1_r, ?Z.div_1_r.
  destruct k; [apply Z.mod_small; lia|reflexivity|apply mod_signed; lia].
Qed.
Lemma shval_S k n a : 0 <= a < 65536 -> shval k n (shval k 1 a) = shval k (S n) a.
Proof.
  intro H. unfold shval. replace (2 ^ Z.of_nat (S n)) with (2 * 2 ^ Z.of_nat n) by (rewrite Nat2Z.inj_succ, Z.pow_succ_r by lia; lia).
  change (2 ^ Z.of_nat 1) with 2. pose proof (Z.pow_pos_nonneg 2 (Z.of_nat n)) as P. destruct k.
  - rewrite Z.mul_mod_idemp_l by lia. f_equal. lia.
  - apply Z.div_div; lia.
  - pose proof (signed_range a H) as S. rewrite signed_mod by (split; [apply Z.div_le_lower_bound|apply Z.div_lt_upper_bound]; lia).
    rewrite Z.div_div by lia. reflexivity.
Qed.

Lemma shifts_run k n : forall r g a f m P,
  regs_ok r -> code m (cs g) a (map u8 (concat (repeat [209; shk_byte k] n))) -> 0 <= a -> a + 2 * Z.of_nat n < 65536 ->
  (forall f', reaches P (mkst (rset r 0 (shval k n (ax r))) g (a + 2 * Z.of_nat n) f' m)) ->
  reaches P (mkst r g a f m).
Proof.
  induction n as [|n IH]; intros r g a f m P RO C A B H.
  - specialize (H f). rewrite shval_0 in H by apply RO. replace (a + 2 * Z.of_nat 0) with a in H by lia. destruct r; exact H.
  - cbn [repeat concat app map] in C.
    assert (C1 : code m (cs g) a [209; shk_byte k]).
    { destruct k; apply (code_app m (cs g) a [_; _]) in C; apply C. }
    assert (C2 : code m (cs g) (a + 2) (map u8 (concat (repeat [209; shk_byte k] n)))).
    { apply (code_app m (cs g) a [_; _]) in C. apply C. }
    assert (S1 : forall u, exists f', exec u (IShift k true (Reg 0) false) (mkst r g (a + 2) f m) = Some (mkst (rset r 0 (shval k 1 (ax r))) g (a + 2) f' m)).
    { intro u. destruct k; eexists; cbn [exec get_op rg rget shift Z.eqb]; unfold set_fl; cbn [put_op set_rg rg sg ip mem]; reflexivity. }
    apply (reach_step P _ (fun u => match exec u (IShift k true (Reg 0) false) (mkst r g (a + 2) f m) with Some s => s | None => mkst r g a f m end)).
    + intro u. rewrite (step_code [209; shk_byte k] (IShift k true (Reg 0) false) 2 u (mkst r g a f m) C1) by (destruct k; reflexivity).
      unfold set_ip. cbn [rg sg ip fl mem]. rewrite Z.mod_small by lia. destruct (S1 u) as [f' ->]. reflexivity.
    + intro u. destruct (S1 u) as [f' ->]. apply IH; auto; try lia.
      * apply rset_ok; [exact RO|]. apply shval_range, RO.
      * intro f''. replace (ax (rset r 0 (shval k 1 (ax r)))) with (shval k 1 (ax r)) by reflexivity.
        rewrite shval_S by apply RO. rewrite rset_rset by lia.
        replace (a + 2 + 2 * Z.of_nat n) with (a + 2 * Z.of_nat (S n)) by lia. apply H.
Qed.

(** the registers not in the list, the segments and the memory are as before *)
Definition keeps_but (clob : list Z) (s s' : state) : Prop :=
  (forall q, 0 <= q < 8 -> ~ In q clob -> rget (rg s') q = rget (rg s) q) /\ sg s' = sg s /\ mem s' = mem s.

Lemma movimm_emits r v e x e' : live e -> EmitMovRImm W r v e = Ok (x, e') -> e' = put [Z.lor 184 r; v; Z.shiftr v 8] e /\ live e'.
Proof. intros L H. unfold EmitMovRImm in H. apply out3 in H; auto. Qed.

(** ** Multiplication *)
Lemma scale_emits c e e' : - 2 ^ (W - 1) <= c < 2 ^ (W - 1) -> c <> 0 -> live e -> EmitScaleAx W c e = Ok (tt, e') ->
  live e' /\
  ((e' = put [185; c; Z.shiftr c 8; 247; 225] e /\ Z.land c (ci W (c - 1)) <> 0) \/
   exists k, Z.of_nat k < W /\ (c = 2 ^ Z.of_nat k \/ (c = - 2 ^ Z.of_nat k /\ Z.of_nat k = W - 1)) /\
     e' = put (concat (repeat [209; shk_byte SHL] k)) e).
Proof.
  intros R Nz L H. unfold EmitScaleAx in H. destruct (Z.eqb_spec (Z.land c (ci W (c - 1))) 0) as [E|NE]; cbn [negb] in H.
  - destruct (shifty c R Nz E) as (k & K & Ck).
    assert (SG : exists sg, (sg = 1 \/ sg = -1) /\ c = sg * 2 ^ Z.of_nat (Z.to_nat k)).
    { rewrite Z2Nat.id by lia. destruct Ck as [->|[-> _]]; [exists 1|exists (-1)]; split; auto; lia. }
    destruct SG as (sg & SG & Ec). rewrite Ec in H. apply halve_emits in H; [|exact SG|lia|exact L].
    destruct H as [-> L']. split; [exact L'|]. right. exists (Z.to_nat k). rewrite !Z2Nat.id by lia. split; [lia|]. split; [exact Ck|reflexivity].
  - minv H x e1 E1. apply movimm_emits in E1; [|exact L]. destruct E1 as [-> L1]. apply out2 in H; [|exact L1].
    destruct H as [-> L2]. split; [exact L2|]. left. split; [reflexivity|exact NE].
Qed.

Lemma mul_run q r g a f m P : 0 <= q < 8 -> code m (cs g) a [247; 224 + q] -> 0 <= a -> a + 2 < 65536 ->
  (forall f', reaches P (mkst (rset (rset r 0 ((ax r * rget r q) mod 65536)) 2 (ax r * rget r q / 65536 mod 65536)) g (a + 2) f' m)) ->
  reaches P (mkst r g a f m).
Proof.
  intros Q C A B H. eapply (reach_code P [247; 224 + q] (IMulDiv MUL true (Reg q)) 2); [exact C|intro; reg8 q; reflexivity|lia| |].
  - intro u. cbn [exec get_op rg muldiv]. unfold set_fl, set_rg. cbn [rg sg ip mem]. reflexivity.
  - intro u. cbv beta. apply H.
Qed.

Theorem scale_does c e e' : - 2 ^ (W - 1) <= c < 2 ^ (W - 1) -> c <> 0 -> live e -> EmitScaleAx W c e = Ok (tt, e') ->
  does e e' (fun s s' => ax (rg s') = (ax (rg s) * c) mod 65536 /\ keeps_but [R_AX; R_CX; R_DX] s s').
Proof.
  intros R Nz L H. apply scale_emits in H; auto. destruct H as [L' [[-> NE]|(k & K & Ck & ->)]].
  - apply does_of; auto. intros r g f m RO C _. pose proof (live_room _ _ L') as LR. cbn [length] in LR. pose proof (live_lo _ L).
    set (a := CodeAddress e) in *. cbn [map length] in *.
    runop [185; u8 c; u8 (Z.shiftr c 8)] (IMov true (Reg 1) (Imm (u8 c + 256 * u8 (Z.shiftr c 8)))) 3.
    { apply (code_app m (cs g) a [_; _; _]) in C. apply C. }
    apply (mul_run 1); [lia|apply (code_app m (cs g) a [_; _; _]) in C; apply C|lia|lia|]. intro f'.
    apply reach_now. cbn [rset rget rg sg mem ip ax cx dx bx sp bp si di]. split; [lia|].
    rewrite word_bytes. split; [apply Z.mul_mod_idemp_r; lia|].
    unfold keeps_but. cbn [rg sg mem]. split; [|auto]. intros q Hq N. cbn [In] in N. unfold R_AX, R_CX, R_DX in N.
    reg8 q; try (exfalso; tauto); reflexivity.
  - apply does_of; auto. intros r g f m RO C _. pose proof (live_room _ _ L') as LR. pose proof (live_lo _ L).
    assert (LL : Z.of_nat (length (concat (repeat [209; shk_byte SHL] k))) = 2 * Z.of_nat k).
    { clear. induction k; [reflexivity|]. cbn [repeat concat app length]. lia. }
    rewrite LL in *. eapply shifts_run; eauto; try lia. intro f'. apply reach_now. cbn [ip rg ax rset].
    split; [reflexivity|]. split.
    + unfold shval. destruct Ck as [->|[-> Ek]]; [reflexivity|]. rewrite Ek.
      replace (ax r * - 2 ^ (W - 1)) with (ax r * 2 ^ (W - 1) + (- ax r * 2 ^ (W - 16)) * 65536).
      { rewrite Z_mod_plus_full. reflexivity. }
      replace (2 ^ (W - 1)) with (2 ^ (W - 16) * 32768); [lia|]. change 32768 with (2 ^ 15). rewrite <- Z.pow_add_r by lia. f_equal. lia.
    + unfold keeps_but. cbn [rg sg mem]. split; [|auto]. intros q Hq N. cbn [In] in N. unfold R_AX, R_CX, R_DX in N.
      reg8 q; try (exfalso; tauto); reflexivity.
Qed.

Lemma scale_zero e : EmitScaleAx W 0 e = Ok (tt, e).
Proof. unfold EmitScaleAx. rewrite Z.land_0_l. cbn [negb Z.eqb]. reflexivity. Qed.

(** ** Division *)
Definition div_code (u : bool) : list Z := if u then [49; 210; 247; 241] else [153; 247; 249].
Lemma divcx_emits e x e' : live e -> EmitDivCX W e = Ok (x, e') -> e' = put (div_code (IsUnsignedOp e)) e /\ live e'.
Proof.
  intros L H. unfold EmitDivCX in H. mgoin H. destruct (IsUnsignedOp e); unfold div_code.
  - minv H y e1 E. apply out2 in E; [|exact L]. destruct E as [-> L1]. apply out2 in H; [|exact L1].
    destruct H as [-> L2]. split; [reflexivity|exact L2].
  - apply out3 in H; auto.
Qed.

(** AX / CX; DX gets the remainder *)
Lemma divu_run r g a f m P : regs_ok r -> code m (cs g) a (div_code true) -> 0 <= a -> a + 4 < 65536 -> cx r <> 0 ->
  (forall f', reaches P (mkst (rset (rset r 0 (ax r / cx r)) 2 (ax r mod cx r)) g (a + 4) f' m)) ->
  reaches P (mkst r g a f m).
Proof.
  intros RO C A B N H. unfold div_code in C.
  runop [49; 210] (IAlu XOR true (Reg 2) (Reg 2)) 2.
  { apply (code_app m (cs g) a [_; _]) in C. apply C. }
  cbn [rget]. rewrite Z.lxor_nilpotent.
  assert (CX : 0 < cx r < 65536) by (unfold regs_ok, is16 in RO; lia).
  assert (AX : 0 <= ax r < 65536) by (unfold regs_ok, is16 in RO; lia).
  eapply (reach_code P [247; 241] (IMulDiv DIV true (Reg 1)) 2).
  { apply (code_app m (cs g) a [_; _]) in C. apply C. }
  { intro; reflexivity. }
  { lia. }
  { intro u0. cbn [exec get_op rg rget rset cx muldiv dx ax]. rewrite (proj2 (Z.eqb_neq _ _) N). rewrite Z.mul_0_l, Z.add_0_l.
    destruct (Z.leb_spec (modulus true) (ax r / cx r)) as [Bad|_].
    { exfalso. unfold modulus in Bad. pose proof (Z.div_le_upper_bound (ax r) (cx r) (ax r) ltac:(lia) ltac:(clear - CX AX; nia)). clear - AX H0 Bad. lia. }
    unfold set_fl, set_rg; cbn [rg sg ip mem]. reflexivity. }
  intro u0. cbv beta. replace (a + 2 + 2) with (a + 4) by lia. apply H.
Qed.
Lemma divs_run r g a f m P : regs_ok r -> code m (cs g) a (div_code false) -> 0 <= a -> a + 3 < 65536 ->
  signed true (cx r) <> 0 -> -32768 < Z.quot (signed true (ax r)) (signed true (cx r)) < 32768 ->
  (forall f', reaches P (mkst (rset (rset r 0 (Z.quot (signed true (ax r)) (signed true (cx r)) mod 65536)) 2
                                    (Z.rem (signed true (ax r)) (signed true (cx r)) mod 65536)) g (a + 3) f' m)) ->
  reaches P (mkst r g a f m).
Proof.
  intros RO C A B N Q H. unfold div_code in C.
  runop [153] ICwd 1.
  { apply (code_app m (cs g) a [_]) in C. apply C. }
  set (r1 := rset r 2 (if ax r <? 32768 then 0 else 65535)).
  assert (E : signed true (dx r1) * 65536 + ax r1 = signed true (ax r)).
  { clear - RO. unfold r1. cbn [rset dx ax]. assert (AX : 0 <= ax r < 65536) by apply RO.
    unfold signed, half, modulus. destruct (Z.ltb_spec (ax r) 32768); [change (0 <? 32768) with true|change (65535 <? 32768) with false]; cbv iota; lia. }
  eapply (reach_code P [247; 249] (IMulDiv IDIV true (Reg 1)) 2).
  { apply (code_app m (cs g) a [_]) in C. apply C. }
  { intro; reflexivity. }
  { clear - A B; lia. }
  { intro u0. cbn [exec get_op rg rget muldiv]. rewrite E. change (cx r1) with (cx r).
    rewrite (proj2 (Z.eqb_neq _ _) N). unfold half.
    rewrite (proj2 (Z.leb_gt _ (- (32768)))) by exact (proj1 Q). rewrite (proj2 (Z.leb_gt 32768 _)) by exact (proj2 Q). cbn [orb].
    unfold set_fl, set_rg; cbn [rg sg ip mem]. reflexivity. }
  intro u0. cbv beta. replace (a + 1 + 2) with (a + 3) by (clear; lia). unfold r1. apply H.
Qed.

Lemma div_emits c e e' : - 2 ^ (W - 1) <= c < 2 ^ (W - 1) -> c <> 0 -> live e -> EmitDivAxConst W c e = Ok (tt, e') ->
  live e' /\
  ((e' = put ([185; c; Z.shiftr c 8] ++ div_code (IsUnsignedOp e)) e /\ Z.land c (ci W (c - 1)) <> 0) \/
   exists k, Z.of_nat k < W /\ (c = 2 ^ Z.of_nat k \/ (c = - 2 ^ Z.of_nat k /\ Z.of_nat k = W - 1)) /\
     e' = put (concat (repeat [209; shk_byte (if IsUnsignedOp e then SHR else SAR)] k)) e).
Proof.
  intros R Nz L H. unfold EmitDivAxConst in H. destruct (Z.eqb_spec (Z.land c (ci W (c - 1))) 0) as [E|NE]; cbn [negb] in H.
  - mgoin H. destruct (shifty c R Nz E) as (k & K & Ck).
    assert (SG : exists sg, (sg = 1 \/ sg = -1) /\ c = sg * 2 ^ Z.of_nat (Z.to_nat k)).
    { rewrite Z2Nat.id by lia. destruct Ck as [->|[-> _]]; [exists 1|exists (-1)]; split; auto; lia. }
    destruct SG as (sg & SG & Ec). rewrite Ec in H. apply halve_emits in H; [|exact SG|lia|exact L].
    destruct H as [-> L']. split; [exact L'|]. right. exists (Z.to_nat k). rewrite !Z2Nat.id by lia. split; [lia|]. split; [exact Ck|].
    destruct (IsUnsignedOp e); reflexivity.
  - minv H x e1 E1. apply movimm_emits in E1; [|exact L]. destruct E1 as [-> L1]. apply divcx_emits in H; [|exact L1].
    destruct H as [-> L2]. split; [exact L2|]. left. split; [|exact NE]. rewrite put_app, put_unsigned. reflexivity.
Qed.

Lemma wrap16 x c : -32768 <= c < 65536 -> c <> 0 -> x = c mod 65536 -> 0 < x.
Proof. intros. destruct (Z.eq_dec x 0) as [E|]; [|lia]. lia. Qed.

Theorem divu_does c e e' : - 2 ^ (W - 1) <= c < 2 ^ (W - 1) -> -32768 <= c < 65536 -> c <> 0 -> live e -> IsUnsignedOp e = true ->
  EmitDivAxConst W c e = Ok (tt, e') ->
  does e e' (fun s s' => ax (rg s') = ax (rg s) / (c mod 65536) /\ keeps_but [R_AX; R_CX; R_DX] s s').
Proof.
  intros R R16 Nz L U H. apply div_emits in H; auto. rewrite U in H. destruct H as [L' [[-> NE]|(k & K & Ck & ->)]].
  - apply does_of; auto. intros r g f m RO C _. pose proof (live_room _ _ L') as LR. cbn [length div_code app] in LR. pose proof (live_lo _ L).
    set (a := CodeAddress e) in *. rewrite map_app in C. apply code_app in C. destruct C as [C1 C2]. cbn [map length] in *.
    runop [185; u8 c; u8 (Z.shiftr c 8)] (IMov true (Reg 1) (Imm (u8 c + 256 * u8 (Z.shiftr c 8)))) 3.
    rewrite word_bytes. pose proof (Z.mod_pos_bound c 65536 ltac:(lia)) as CM.
    assert (NC : c mod 65536 <> 0) by (pose proof (wrap16 _ c R16 Nz eq_refl); lia).
    apply divu_run; [apply rset_ok; auto|exact C2|lia|lia|exact NC|].
    intro f'. apply reach_now. cbn [rset rget rg sg mem ip ax cx dx bx sp bp si di div_code app length]. split; [lia|].
    split; [reflexivity|]. unfold keeps_but. cbn [rg sg mem]. split; [|auto]. intros q Hq N. cbn [In] in N. unfold R_AX, R_CX, R_DX in N.
    reg8 q; try (exfalso; tauto); reflexivity.
  - apply does_of; auto. intros r g f m RO C _. pose proof (live_room _ _ L') as LR. pose proof (live_lo _ L).
    assert (LL : Z.of_nat (length (concat (repeat [209; shk_byte SHR] k))) = 2 * Z.of_nat k).
    { clear. induction k; [reflexivity|]. cbn [repeat concat app length]. lia. }
    rewrite LL in *. eapply shifts_run; eauto; try lia. intro f'. apply reach_now. cbn [ip rg ax rset].
    split; [reflexivity|]. split.
    + unfold shval. f_equal. pose proof (Z.pow_pos_nonneg 2 (Z.of_nat k)). destruct Ck as [->|[-> Ek]]; [rewrite Z.mod_small; lia|].
      rewrite Ek in *. pose proof (pow_ge W HW). assert (E : 2 ^ (W - 1) = 32768) by lia. rewrite E. reflexivity.
    + unfold keeps_but. cbn [rg sg mem]. split; [|auto]. intros q Hq N. cbn [In] in N. unfold R_AX, R_CX, R_DX in N.
      reg8 q; try (exfalso; tauto); reflexivity.
Qed.

Theorem divs_does c e e' : -32768 <= c < 32768 -> c <> 0 -> live e -> IsUnsignedOp e = false ->
  (forall k, 0 <= k -> c <> 2 ^ k) -> c <> - 2 ^ (W - 1) ->
  EmitDivAxConst W c e = Ok (tt, e') ->
  does_if (fun s => ~ (ax (rg s) = 32768 /\ c = -1)) e e'
    (fun s s' => ax (rg s') = (Z.quot (signed true (ax (rg s))) c) mod 65536 /\ keeps_but [R_AX; R_CX; R_DX] s s').
Proof.
  intros R16 Nz L U NP NM H. pose proof (pow_ge W HW) as PW. apply div_emits in H; auto; [|lia].
  rewrite U in H. destruct H as [L' [[-> NE]|(k & K & Ck & ->)]].
  2:{ exfalso. destruct Ck as [E|[E Ek]]; [apply (NP (Z.of_nat k)); [lia|exact E]|]. apply NM. rewrite E, Ek. reflexivity. }
  apply does_of; auto. intros r g f m RO C NO. cbn [rg] in NO. pose proof (live_room _ _ L') as LR. cbn [length div_code app] in LR. pose proof (live_lo _ L).
  set (a := CodeAddress e) in *. rewrite map_app in C. apply code_app in C. destruct C as [C1 C2]. cbn [map length] in *.
  runop [185; u8 c; u8 (Z.shiftr c 8)] (IMov true (Reg 1) (Imm (u8 c + 256 * u8 (Z.shiftr c 8)))) 3.
  rewrite word_bytes. pose proof (Z.mod_pos_bound c 65536 ltac:(lia)) as CM.
  assert (SC : signed true (c mod 65536) = c) by (apply signed_mod; lia).
  assert (AX : 0 <= ax r < 65536) by apply RO.
  pose proof (signed_range _ AX) as SR. assert (N1 : c <> 1) by (intro; apply (NP 0); [lia|assumption]).
  assert (S1 : ax r <> 32768 -> signed true (ax r) <> -32768).
  { unfold signed, half, modulus. destruct (Z.ltb_spec (ax r) 32768); lia. }
  apply divs_run; [apply rset_ok; auto|exact C2|lia|lia| | |]; cbn [rset cx ax dx bx sp bp si di]; rewrite ?SC; [exact Nz| |].
  { set (x := signed true (ax r)) in *. clearbody x. clear - SR N1 Nz NO S1 R16.
    destruct (Z.eq_dec c (-1)) as [->|NM1].
    - change (-1) with (- (1)). rewrite Z.quot_opp_r, Z.quot_1_r by lia. assert (ax r <> 32768) by tauto. specialize (S1 H). lia.
    - assert (AC : 2 <= Z.abs c) by lia. assert (AQ : Z.abs (Z.quot x c) <= Z.abs x / 2).
      { rewrite <- Z.quot_abs by lia. rewrite Z.quot_div_nonneg by lia. apply Z.div_le_compat_l; lia. }
      set (q := Z.quot x c) in *. clearbody q.
      lia. }
  intro f'. apply reach_now. cbn [rset rget rg sg mem ip ax cx dx bx sp bp si di div_code app length]. split; [lia|].
  split; [reflexivity|]. unfold keeps_but. cbn [rg sg mem]. split; [|auto]. intros q Hq N. cbn [In] in N. unfold R_AX, R_CX, R_DX in N.
  reg8 q; try (exfalso; tauto); reflexivity.
Qed.

(** a signed operand and a power of two: the floor of the quotient *)
Theorem divs_pow2_does k e e' : 0 <= k < W - 1 -> live e -> IsUnsignedOp e = false ->
  EmitDivAxConst W (2 ^ k) e = Ok (tt, e') ->
  does e e' (fun s s' => ax (rg s') = (signed true (ax (rg s)) / 2 ^ k) mod 65536 /\ keeps_but [R_AX] s s').
Proof.
  intros K L U H. assert (P : 0 < 2 ^ k < 2 ^ (W - 1)) by (split; [apply Z.pow_pos_nonneg|apply Z.pow_lt_mono_r]; lia).
  apply div_emits in H; auto; try lia. rewrite U in H. destruct H as [L' [[-> NE]|(k' & K' & Ck & ->)]].
  { exfalso. apply NE. rewrite ci_small by lia. apply land_of_pow2. lia. }
  assert (Ek : Z.of_nat k' = k).
  { destruct Ck as [E|[E _]]; [apply (Z.pow_inj_r 2) in E; lia|]. pose proof (Z.pow_pos_nonneg 2 (Z.of_nat k')). lia. }
  apply does_of; auto. intros r g f m RO C _. pose proof (live_room _ _ L') as LR. pose proof (live_lo _ L).
  assert (LL : Z.of_nat (length (concat (repeat [209; shk_byte SAR] k'))) = 2 * Z.of_nat k').
  { clear. induction k'; [reflexivity|]. cbn [repeat concat app length]. lia. }
  rewrite LL in *. eapply shifts_run; eauto; try lia. intro f'. apply reach_now. cbn [ip rg ax rset].
  split; [reflexivity|]. split.
  - unfold shval. rewrite Ek. reflexivity.
  - unfold keeps_but. cbn [rg sg mem]. split; [|auto]. intros q Hq N. cbn [In] in N. unfold R_AX in N.
    reg8 q; try (exfalso; tauto); reflexivity.
Qed.

Lemma div_ok_nozero e : EmitDivAxConst W 0 e = Ok (tt, e).
Proof. unfold EmitDivAxConst. rewrite Z.land_0_l. cbn [negb Z.eqb]. mgo. reflexivity. Qed.
End W.

(** floor and C quotient agree exactly on non-negative dividends and multiples *)
Lemma floor_quot x c : 0 < c -> (x / c = Z.quot x c <-> (0 <= x \/ x mod c = 0)).
Proof.
  intro C. destruct (Z_lt_ge_dec x 0) as [N|P].
  - pose proof (Z.quot_opp_l x c ltac:(lia)) as Q. rewrite (Z.quot_div_nonneg (- x) c) in Q by lia.
    pose proof (Z.div_mod x c ltac:(lia)) as D1. pose proof (Z.mod_pos_bound x c C) as B1.
    pose proof (Z.div_mod (- x) c ltac:(lia)) as D2. pose proof (Z.mod_pos_bound (- x) c C) as B2.
    destruct (Z.eq_dec (x mod c) 0) as [E|NE].
    + split; [auto|]. intros _. rewrite E in D1. assert (- x / c = - (x / c)) by (apply Z.div_opp_l_z; lia). lia.
    + split; [|lia]. intro H. exfalso. pose proof (Z.div_opp_l_nz x c ltac:(lia) NE). lia.
  - rewrite Z.quot_div_nonneg by lia. lia.
Qed.
