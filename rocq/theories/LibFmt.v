(** What vsprintf (lib.h) and VSPrintf (scc.c) write, for every format and argument list. *)
From Verif Require Import Base LibH.
Local Open Scope list_scope.

(** * Specification *)
(** ds is the decimal representation of n >= 0: digits, no leading zero, value n *)
Definition digit (c : Z) : Prop := 48 <= c <= 57.
Definition dec_value (ds : list Z) : Z := fold_left (fun a c => 10 * a + (c - 48)) ds 0.
Definition decimal (n : Z) (ds : list Z) : Prop :=
  ds <> [] /\ Forall digit ds /\ dec_value ds = n /\ (hd 0 ds = 48 -> ds = [48]).
(** hs are upper-case hexadecimal digits of value n *)
Definition hexval (c : Z) : Z := if c <=? 57 then c - 48 else c - 55.
Definition hexdigit (c : Z) : Prop := 48 <= c <= 57 \/ 65 <= c <= 70.
Definition hex_value (hs : list Z) : Z := fold_left (fun a c => 16 * a + hexval c) hs 0.

(** the pieces of a format: plain characters, and conversions with an optional 0 flag,
    an optional width (its digits) and an optional + *)
Inductive item :=
| ILit (c : Z)
| IDec (zero plus : bool) (w : list Z)
| IHex (upper zero : bool) (w : list Z)
| IStr
| IChr.
Definition flag (b : bool) (c : Z) : list Z := if b then [c] else [].
Definition text (i : item) : list Z :=
  match i with
  | ILit c => [c]
  | IDec zero plus w => [37] ++ flag zero 48 ++ w ++ flag plus 43 ++ [100]
  | IHex upper zero w => [37] ++ flag zero 48 ++ w ++ [if upper then 88 else 120]
  | IStr => [37; 115]
  | IChr => [37; 99]
  end.
(** a width is empty or a decimal number from 1 to 32767 *)
Definition width_ok (w : list Z) : Prop := w = [] \/ (decimal (dec_value w) w /\ 0 < dec_value w < 32768).
Definition item_ok (i : item) : Prop :=
  match i with
  | ILit c => c <> 37
  | IDec _ _ w => width_ok w
  | IHex _ _ w => width_ok w /\ dec_value w <= 64
  | _ => True
  end.
(** the text of an int: sign, digits, padded on the left *)
Definition signed_text (plus : bool) (n : Z) (l : list Z) : Prop :=
  exists ds, decimal (Z.abs n) ds /\ l = (if n <? 0 then [45] else flag plus 43) ++ ds.
Definition padded (fill w : Z) (l out : list Z) : Prop :=
  out = repeat fill (Z.to_nat (w - Z.of_nat (length l))) ++ l.
(** one item printed with the arguments it takes *)
Inductive piece : item -> list varg -> list Z -> Prop :=
| PLit c : piece (ILit c) [] [c]
| PDec (zero plus : bool) (w : list Z) n l out : -32767 <= n <= 32767 -> signed_text plus n l ->
    padded (if zero then 48 else 32) (dec_value w) l out -> piece (IDec zero plus w) [AInt n] out
| PHex (upper zero : bool) (w : list Z) n hs : Forall hexdigit hs -> Z.of_nat (length hs) = (if dec_value w =? 0 then 4 else dec_value w) ->
    hex_value hs = n mod 16 ^ Z.of_nat (length hs) -> piece (IHex upper zero w) [AInt n] hs
| PStr l : piece IStr [AStr l] l
| PChr n : piece IChr [AInt n] [n mod 256].
(** the arguments an item takes; an int is a 16-bit signed number, not the least one for %d *)
Definition takes (i : item) (a : list varg) : Prop :=
  match i with
  | ILit _ => a = []
  | IDec _ _ _ => exists n, a = [AInt n] /\ -32767 <= n <= 32767
  | IHex _ _ _ => exists n, a = [AInt n]
  | IChr => exists n, a = [AInt n]
  | IStr => exists l, a = [AStr l]
  end.

(** * Decimal digits *)
Lemma dec_value_app a b : dec_value (a ++ b) = fold_left (fun a c => 10 * a + (c - 48)) b (dec_value a).
Proof. unfold dec_value. apply fold_left_app. Qed.
Lemma decimal_small n : 0 <= n < 10 -> decimal n [48 + n].
Proof.
  intro H. split; [discriminate|]. split; [constructor; [unfold digit; lia|constructor]|].
  split; [unfold dec_value; cbn [fold_left]; lia|]. cbn [hd]. intro E. f_equal. exact E.
Qed.
Lemma decimal_snoc n d ds : decimal n ds -> 0 < n -> 0 <= d < 10 -> decimal (10 * n + d) (ds ++ [48 + d]).
Proof.
  intros (N & F & V & Z0) P D. split; [destruct ds; discriminate|]. split; [apply Forall_app; split; [exact F|constructor; [unfold digit; lia|constructor]]|].
  split; [rewrite dec_value_app, V; cbn [fold_left]; lia|].
  destruct ds as [|x ds]; [contradiction|]. cbn [hd app] in *. intro E. rewrite (Z0 E) in V. cbn in V. lia.
Qed.

Lemma dec_loop_spec k : forall room n w buf, (0 < k)%nat -> 0 <= n -> (n < 10 ^ Z.of_nat k) -> Z.of_nat k <= room ->
  exists ds, dec_loop k room n w buf = Ok (room - Z.of_nat (length ds), w - Z.of_nat (length ds), ds ++ buf) /\ decimal n ds /\ Z.of_nat (length ds) <= Z.of_nat k.
Proof.
  induction k as [|k IH]; intros room n w buf K N L R; [lia|]. cbn [dec_loop].
  destruct (Z.eqb_spec room 0); [lia|].
  assert (Q : Z.quot n 10 = n / 10) by (apply Z.quot_div_nonneg; lia).
  assert (M : Z.rem n 10 = n mod 10) by (apply Z.rem_mod_nonneg; lia).
  rewrite Q, M. assert (D : 0 <= n mod 10 < 10) by (apply Z.mod_pos_bound; lia).
  rewrite u8_small by lia.
  destruct (Z.eqb_spec (n / 10) 0) as [E|E].
  - exists [48 + n]. assert (n mod 10 = n) as -> by lia. cbn [length app]. split; [reflexivity|]. split; [apply decimal_small; lia|]. lia.
  - destruct k as [|k].
    { exfalso. change (10 ^ Z.of_nat 1) with 10 in L. apply E. apply Z.div_small. lia. }
    destruct (IH (room - 1) (n / 10) (w - 1) (48 + n mod 10 :: buf)) as (ds & E1 & Dd & Ll); [lia|lia| |lia|].
    { apply Z.div_lt_upper_bound; [lia|]. replace (10 * 10 ^ Z.of_nat (S k)) with (10 ^ Z.of_nat (S (S k))); [exact L|].
      rewrite (Nat2Z.inj_succ (S k)), Z.pow_succ_r by lia. reflexivity. }
    exists (ds ++ [48 + n mod 10]). rewrite E1. rewrite app_length. cbn [length]. split; [|split].
    + rewrite <- app_assoc. cbn [app]. f_equal. f_equal. f_equal; lia.
    + replace n with (10 * (n / 10) + n mod 10) at 1 by lia. apply decimal_snoc; auto; lia.
    + lia.
Qed.
Lemma dec_loop_more f : forall k room n w buf r, dec_loop k room n w buf = Ok r -> (k <= f)%nat -> dec_loop f room n w buf = Ok r.
Proof.
  induction f as [|f IH]; intros [|k] room n w buf r H L; try discriminate; try lia.
  cbn [dec_loop] in *. destruct (room =? 0); [discriminate|]. destruct (_ =? 0); [exact H|]. eapply IH; [exact H|lia].
Qed.

Lemma cvt_dec_spec W always n w : 1 <= W -> - 2 ^ (W - 1) < n < 2 ^ (W - 1) -> -10000000 < n < 10000000 ->
  exists l, cvt_dec W always n w = Ok (w - Z.of_nat (length l), l) /\ signed_text always n l.
Proof.
  intros HW R B. unfold cvt_dec, signed_text.
  assert (P2 : 2 ^ W = 2 * 2 ^ (W - 1)) by (rewrite <- Z.pow_succ_r by lia; f_equal; lia).
  replace (if n <? 0 then ws W (- n) else n) with (Z.abs n).
  2: { destruct (Z.ltb_spec n 0); [|lia]. unfold ws. rewrite (Z.mod_small (- n)) by lia. cbv zeta.
       destruct (Z.ltb_spec (- n) (2 ^ (W - 1))); lia. }
  destruct (dec_loop_spec 7 8 (Z.abs n) w []) as (ds & E & D & L); [lia|lia| |lia|].
  { change (10 ^ Z.of_nat 7) with 10000000. lia. }
  rewrite (dec_loop_more 40 _ _ _ _ _ _ E) by lia. cbn [obind]. rewrite app_nil_r.
  destruct (n <? 0) eqn:S; cbn [orb].
  - destruct (Z.eqb_spec (8 - Z.of_nat (length ds)) 0); [lia|].
    exists (45 :: ds). cbn [length app]. split; [f_equal; f_equal; lia|]. eauto.
  - destruct always; cbn [flag].
    + destruct (Z.eqb_spec (8 - Z.of_nat (length ds)) 0); [lia|].
      exists (43 :: ds). cbn [length app]. split; [f_equal; f_equal; lia|]. eauto.
    + exists ds. split; [reflexivity|]. eauto.
Qed.

(** * Hexadecimal digits *)
Lemma cvt_hex_spec i n : (i <= 64)%nat -> Forall hexdigit (cvt_hex i n) /\ length (cvt_hex i n) = i /\
  forall a, fold_left (fun a c => 16 * a + hexval c) (cvt_hex i n) a = a * 16 ^ Z.of_nat i + n mod 16 ^ Z.of_nat i.
Proof.
  induction i as [|i IH]; intro L.
  - cbn. repeat split; [constructor|]. intro a. change (16 ^ 0) with 1. lia.
  - destruct IH as (F & Ln & V); [lia|]. cbn [cvt_hex].
    assert (Hm : (Z.of_nat i * 4) mod 256 = Z.of_nat i * 4) by (apply Z.mod_small; lia). rewrite Hm.
    set (d := Z.land (Z.shiftr n (Z.of_nat i * 4)) 15).
    assert (Dv : d = (n / 16 ^ Z.of_nat i) mod 16).
    { unfold d. change 15 with (Z.ones 4). rewrite Z.land_ones, Z.shiftr_div_pow2 by lia.
      change (2 ^ 4) with 16. replace (2 ^ (Z.of_nat i * 4)) with (16 ^ Z.of_nat i); [reflexivity|].
      change 16 with (2 ^ 4) at 1. rewrite <- Z.pow_mul_r by lia. f_equal. lia. }
    assert (Rd : 0 <= d < 16) by (rewrite Dv; apply Z.mod_pos_bound; lia). clearbody d.
    assert (Hv : hexval (if d <? 10 then 48 + d else 55 + d) = d).
    { unfold hexval. destruct (Z.ltb_spec d 10).
      - destruct (Z.leb_spec (48 + d) 57); lia.
      - destruct (Z.leb_spec (55 + d) 57); lia. }
    split; [|split].
    + constructor; [|exact F]. unfold hexdigit. destruct (Z.ltb_spec d 10); lia.
    + cbn [length]. rewrite Ln. reflexivity.
    + intro a. cbn [fold_left]. rewrite Hv, V. rewrite Nat2Z.inj_succ, Z.pow_succ_r by lia.
      assert (Pp : 0 < 16 ^ Z.of_nat i) by (apply Z.pow_pos_nonneg; lia). set (q := 16 ^ Z.of_nat i) in *.
      rewrite (Z.mul_comm 16 q). rewrite Z.rem_mul_r by lia. rewrite <- Dv. ring.
Qed.

(** * Widths *)
Definition nondigit (c : Z) : Prop := c < 48 \/ 57 < c.
Lemma digit_s8 c : 48 <= c <= 57 -> (48 <=? s8 c) && (s8 c <=? 57) = true.
Proof. intro H. rewrite s8_small by lia. lia. Qed.
Lemma nondigit_s8 c : 0 <= c < 128 -> nondigit c -> (48 <=? s8 c) && (s8 c <=? 57) = false.
Proof. intros H N. rewrite s8_small by lia. unfold nondigit in N. lia. Qed.
Lemma fold_mono ds : Forall digit ds -> forall a, 0 <= a -> a <= fold_left (fun a c => 10 * a + (c - 48)) ds a.
Proof.
  induction 1 as [|d ds H _ IH]; intros a A; cbn [fold_left]; [lia|]. unfold digit in H.
  specialize (IH (10 * a + (d - 48))). lia.
Qed.
Lemma width_digits ds : Forall digit ds -> forall fill w c rest, 0 < w -> 0 <= c < 128 -> nondigit c ->
  fold_left (fun a c => 10 * a + (c - 48)) ds w < 32768 ->
  width (ds ++ c :: rest) fill w = Some (fill, fold_left (fun a c => 10 * a + (c - 48)) ds w, c, rest).
Proof.
  induction 1 as [|d ds H F IH]; intros fill w c rest P C N L; cbn [app width fold_left].
  - destruct (Z.eqb_spec w 0); [lia|]. cbn [andb]. rewrite nondigit_s8 by assumption. reflexivity.
  - unfold digit in H. destruct (Z.eqb_spec w 0); [lia|]. cbn [andb]. rewrite digit_s8 by assumption.
    cbn [fold_left] in L. pose proof (fold_mono ds F (10 * w + (d - 48)) ltac:(lia)) as Mo.
    replace (s16 (w * 10 + d - 48)) with (10 * w + (d - 48)) by (rewrite s16_small; lia).
    apply IH; auto. lia.
Qed.
Lemma width_spec zero w c rest : width_ok w -> 0 <= c < 128 -> nondigit c ->
  width (flag zero 48 ++ w ++ c :: rest) 32 0 = Some (if zero then 48 else 32, dec_value w, c, rest).
Proof.
  intros Wk C N.
  assert (G : forall fill, width (w ++ c :: rest) fill 0 = Some (fill, dec_value w, c, rest)).
  { intro fill. destruct Wk as [->|((Nn & F & V & H0) & R)].
    - cbn [app width]. assert ((c =? 48) = false) as -> by (unfold nondigit in N; lia). cbn [Z.eqb andb].
      rewrite nondigit_s8 by assumption. reflexivity.
    - destruct w as [|d w]; [contradiction|]. inversion F as [|? ? Dd F' ]; subst. unfold digit in Dd.
      cbn [app width]. destruct (Z.eqb_spec d 48) as [E|E].
      + exfalso. cbn [hd] in H0. rewrite (H0 E) in R. cbn in R. lia.
      + cbn [Z.eqb andb]. rewrite digit_s8 by lia. unfold dec_value in *. cbn [fold_left] in *.
        pose proof (fold_mono w F' (10 * 0 + (d - 48)) ltac:(lia)) as Mo.
        replace (s16 (0 * 10 + d - 48)) with (10 * 0 + (d - 48)) by (rewrite s16_small; lia).
        apply width_digits; auto; lia. }
  destruct zero; cbn [flag app]; [|apply G]. cbn [width]. cbn [Z.eqb andb Pos.eqb]. apply G.
Qed.

(** * vsprintf *)
Lemma out_ok (l : list Z) (x : outcome (list Z)) r : x = Ok r -> obind x (fun r => Ok (l ++ r)) = Ok (l ++ r).
Proof. intros ->. reflexivity. Qed.
Lemma vs_more f : forall k fmt args r, vsprintf_loop k fmt args = Ok r -> (k <= f)%nat -> vsprintf_loop f fmt args = Ok r.
Proof.
  assert (B : forall (x y : outcome (list Z)) (l r : list Z), (forall r, x = Ok r -> y = Ok r) ->
     obind x (fun r => Ok (l ++ r)) = Ok r -> obind y (fun r => Ok (l ++ r)) = Ok r).
  { intros x y l r H E. destruct x as [v| | |]; try discriminate. rewrite (H v eq_refl). exact E. }
  induction f as [|f IH]; intros [|k] fmt args r H L; try discriminate; try lia.
  assert (B' : forall fmt args l r, obind (vsprintf_loop k fmt args) (fun r => Ok (l ++ r)) = Ok r ->
     obind (vsprintf_loop f fmt args) (fun r => Ok (l ++ r)) = Ok r).
  { intros. eapply B; [|eassumption]. intros. eapply IH; [eassumption|lia]. }
  cbn [vsprintf_loop] in *. destruct fmt as [|ch fmt]; [exact H|].
  destruct (negb (ch =? 37)); [apply B'; exact H|].
  destruct (width fmt 32 0) as [[[[fill w] c] fmt']|]; [|discriminate].
  destruct (c =? 115). { destruct args as [|[n|l] args]; try discriminate. apply B'; exact H. }
  destruct (c =? 99). { destruct args as [|[n|l] args]; try discriminate. apply B'; exact H. }
  destruct (_ && _).
  { destruct args as [|[n|l] args]; try discriminate. destruct (cvt_dec 16 true n w) as [[w' l]| | |]; try discriminate. cbn [obind] in *. apply B'; exact H. }
  destruct (c =? 100).
  { destruct args as [|[n|l] args]; try discriminate. destruct (cvt_dec 16 false n w) as [[w' l]| | |]; try discriminate. cbn [obind] in *. apply B'; exact H. }
  destruct (_ || _). { destruct args as [|[n|l] args]; try discriminate. apply B'; exact H. }
  apply B'; exact H.
Qed.

Lemma vs_piece i a fmt args r k : item_ok i -> takes i a -> vsprintf_loop k fmt args = Ok r ->
  exists l, vsprintf_loop (S k) (text i ++ fmt) (a ++ args) = Ok (l ++ r) /\ piece i a l.
Proof.
  intros OK T H. cbn [vsprintf_loop]. destruct i as [c|zero plus w|upper zero w| |]; cbn [item_ok takes text] in *.
  - subst a. exists [c]. cbn [app]. destruct (Z.eqb_spec c 37); [contradiction|]. cbn [negb]. rewrite H. split; [reflexivity|constructor].
  - destruct T as (n & -> & R).
    destruct (cvt_dec_spec 16 plus n (dec_value w)) as (l & E & S); [lia|change (2 ^ (16 - 1)) with 32768; lia|lia|].
    exists (repeat (if zero then 48 else 32) (Z.to_nat (dec_value w - Z.of_nat (length l))) ++ l).
    split; [|eapply PDec; [exact R|exact S|reflexivity]].
    rewrite <- !app_assoc. cbn [app]. change (37 =? 37) with true. cbn [negb].
    destruct plus; cbn [flag app].
    + rewrite (width_spec zero w 43) by (unfold nondigit; auto; lia).
      change (43 =? 115) with false. change (43 =? 99) with false. change (43 =? 43) with true. change (100 =? 100) with true. cbn [andb tl].
      rewrite E. cbn [obind]. rewrite H. cbn [obind]. rewrite <- app_assoc. reflexivity.
    + rewrite (width_spec zero w 100) by (unfold nondigit; auto; lia).
      change (100 =? 115) with false. change (100 =? 99) with false. change (100 =? 43) with false. change (100 =? 100) with true. cbn [andb].
      rewrite E. cbn [obind]. rewrite H. cbn [obind]. rewrite <- app_assoc. reflexivity.
  - destruct T as (n & ->). destruct OK as [OK L].
    exists (cvt_hex (Z.to_nat (if dec_value w =? 0 then 4 else dec_value w)) n).
    assert (P0 : 0 <= dec_value w) by (destruct OK as [->|?]; [cbn; lia|lia]).
    split.
    + rewrite <- !app_assoc. cbn [app]. change (37 =? 37) with true. cbn [negb].
      rewrite (width_spec zero w (if upper then 88 else 120)) by (unfold nondigit; auto; destruct upper; lia).
      replace (((if upper then 88 else 120) =? 120) || ((if upper then 88 else 120) =? 88)) with true by (destruct upper; reflexivity).
      replace ((if upper then 88 else 120) =? 115) with false by (destruct upper; reflexivity).
      replace ((if upper then 88 else 120) =? 99) with false by (destruct upper; reflexivity).
      replace ((if upper then 88 else 120) =? 43) with false by (destruct upper; reflexivity).
      replace ((if upper then 88 else 120) =? 100) with false by (destruct upper; reflexivity).
      cbn [andb]. rewrite H. reflexivity.
    + destruct (cvt_hex_spec (Z.to_nat (if dec_value w =? 0 then 4 else dec_value w)) n) as (F & Ln & V).
      { destruct (dec_value w =? 0); lia. }
      constructor; [exact F|rewrite Ln; destruct (Z.eqb_spec (dec_value w) 0); lia|].
      unfold hex_value. rewrite V, Ln. lia.
  - destruct T as (l & ->). exists l. split; [|constructor]. cbn [app]. change (37 =? 37) with true. cbn [negb width].
    cbn. rewrite H. reflexivity.
  - destruct T as (n & ->). exists [n mod 256]. split; [|constructor]. cbn [app]. cbn. rewrite H. reflexivity.
Qed.
(** the whole format: the pieces one after the other *)
Theorem vsprintf_prints : forall is (args : list (list varg)) rest, Forall item_ok is -> Forall2 takes is args ->
  exists ls, vsprintf (concat (map text is)) (concat args ++ rest) = Ok (concat ls) /\ 
    length ls = length is /\ forall k i a, nth_error is k = Some i -> nth_error args k = Some a -> exists l, nth_error ls k = Some l /\ piece i a l.
Proof.
  intros is args rest F T.
  assert (G : exists ls, exists k, (k <= S (length (concat (map text is))))%nat /\ vsprintf_loop k (concat (map text is)) (concat args ++ rest) = Ok (concat ls) /\
    length ls = length is /\ forall k i a, nth_error is k = Some i -> nth_error args k = Some a -> exists l, nth_error ls k = Some l /\ piece i a l).
  { revert args T. induction F as [|i is OK F IH]; intros args T; inversion T as [|? a ? args' Ti T']; subst.
    - exists [], 1%nat. cbn. split; [lia|]. split; [reflexivity|]. split; [reflexivity|]. intros [|k] i a H; discriminate.
    - destruct (IH _ T') as (ls & k & K & E & Ll & P).
      cbn [map concat]. rewrite <- app_assoc.
      destruct (vs_piece i a _ _ _ k OK Ti E) as (l & E1 & P1).
      exists (l :: ls), (S k). split.
      + rewrite app_length. assert (1 <= length (text i))%nat by (destruct i; cbn; lia). lia.
      + split; [exact E1|]. split; [cbn; lia|]. intros [|j] i' a' Hi Ha; cbn [nth_error] in *.
        * injection Hi as <-. injection Ha as <-. eauto.
        * eapply P; eauto. }
  destruct G as (ls & k & K & E & Ll & P). exists ls. split; [|auto]. eapply vs_more; [exact E|exact K].
Qed.

(** * VSPrintf *)
Theorem VSPrintf_dec W plus n rest : 16 <= W -> - 2 ^ (W - 1) < n < 2 ^ (W - 1) -> -10000000 < n < 10000000 ->
  exists l, VSPrintf W ([37] ++ flag plus 43 ++ [100]) (AInt n :: rest) = Ok l /\ signed_text plus n l.
Proof.
  intros HW R B. destruct (cvt_dec_spec W plus n 0) as (l & E & S); [lia|lia|lia|].
  exists l. split; [|exact S]. unfold VSPrintf. destruct plus; cbn [flag app length VSPrintf_loop].
  - change (37 =? 37) with true. cbn [negb]. change (43 =? 115) with false. change (43 =? 99) with false. change (43 =? 43) with true. change (100 =? 100) with true. cbn [andb tl].
    rewrite E. cbn [obind]. rewrite app_nil_r. reflexivity.
  - change (37 =? 37) with true. cbn [negb]. change (100 =? 115) with false. change (100 =? 99) with false. change (100 =? 43) with false. change (100 =? 100) with true. cbn [andb].
    rewrite E. cbn [obind]. rewrite app_nil_r. reflexivity.
Qed.
Theorem CvtHex_spec n : Forall hexdigit (CvtHex n) /\ length (CvtHex n) = 4%nat /\ hex_value (CvtHex n) = n mod 65536.
Proof.
  destruct (cvt_hex_spec 4 n) as (F & L & V); [lia|]. repeat split; auto. unfold hex_value, CvtHex. rewrite V.
  change (16 ^ Z.of_nat 4) with 65536. lia.
Qed.
