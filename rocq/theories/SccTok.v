(** Tokens of scc.c as functions of the characters: numbers, character constants,
    identifiers, operators, white space. *)
From Verif Require Import Base SccState SccEmit SccLex SccInput SccIntern.

(** ** Specification *)
(** the value of a digit *)
Definition digit (c : Z) : option Z :=
  if (48 <=? c) && (c <=? 57) then Some (c - 48)
  else if (65 <=? c) && (c <=? 70) then Some (c - 55)
  else if (97 <=? c) && (c <=? 102) then Some (c - 87)
  else None.
Definition is_digit (base c : Z) : bool := match digit c with Some d => d <? base | None => false end.
Definition digit_val (c : Z) : Z := match digit c with Some d => d | None => 0 end.
(** the value of a digit sequence *)
Definition value (base : Z) (ds : list Z) : Z := fold_left (fun v c => v * base + digit_val c) ds 0.
Definition digits (base : Z) (ds : list Z) : Prop := Forall (fun c => is_digit base c = true) ds.
(** the next character ends a number: not a digit of the base; '@' and '`' are taken for
    the digit 9 by the code (see [at_sign_is_nine]) *)
Definition ends_num (base : Z) (rest : list Z) : Prop :=
  is_digit base (hd 0 rest) = false /\ (9 < base -> hd 0 rest <> 64 /\ hd 0 rest <> 96).

(** ** Digits *)
Definition codes : list Z := map (fun k => Z.of_nat k - 128) (seq 0 256).
Lemma codes_in c : -128 <= c <= 127 -> In c codes.
Proof. intro H. apply in_map_iff. exists (Z.to_nat (c + 128)). split; [lia|]. apply in_seq. lia. Qed.
Definition numdigit (c : Z) : Z :=
  let d0 := c - 48 in if (0 <=? d0) && (d0 <=? 9) then d0
  else let d := Z.land c 223 - 55 in if d <? 0 then 999 else d.
Lemma wu_small W x : 16 <= W -> 0 <= x < 65536 -> wu W x = x.
Proof.
  intros HW H. unfold wu. apply Z.mod_small. assert (2 ^ 16 <= 2 ^ W) by (apply Z.pow_le_mono_r; lia).
  change (2 ^ 16) with 65536 in *. lia.
Qed.
Lemma wu_neg W x : 16 <= W -> -65000 <= x < 0 -> 200 < wu W x.
Proof.
  intros HW H. unfold wu. assert (2 ^ 16 <= 2 ^ W) by (apply Z.pow_le_mono_r; lia).
  change (2 ^ 16) with 65536 in *. rewrite (Z.mod_eq _ _) by lia.
  assert (E : x / 2 ^ W = -1) by (symmetry; apply (Z.div_unique x (2 ^ W) (-1) (x + 2 ^ W)); lia).
  rewrite E. lia.
Qed.
(** the digit as the code computes it *)
Lemma getnum_digit W c : 16 <= W -> -128 <= c <= 127 ->
  let d0 := wu W (c - 48) in
  let d := if 9 <? d0 then wu W (Z.land c 223 - 55) else d0 in
  forall base, base <= 16 -> (base <=? d) = (base <=? numdigit c) /\ (d < base -> d = numdigit c).
Proof.
  intros HW Hc d0 d base Hb. unfold numdigit.
  assert (L : -200 <= Z.land c 223 - 55 <= 200).
  { assert (0 <= Z.land c 223 <= 223).
    { split; [apply Z.land_nonneg; lia|].
      assert (F : forallb (fun c => Z.land c 223 <=? 223) codes = true) by (vm_compute; reflexivity).
      rewrite forallb_forall in F. apply Z.leb_le, F, codes_in. lia. }
    lia. }
  destruct (Z.leb_spec 0 (c - 48)); cbn [andb].
  - unfold d, d0. rewrite (wu_small W (c - 48)) by lia. destruct (Z.leb_spec (c - 48) 9).
    + destruct (Z.ltb_spec 9 (c - 48)); [lia|]. auto.
    + destruct (Z.ltb_spec 9 (c - 48)); [|lia]. destruct (Z.ltb_spec (Z.land c 223 - 55) 0).
      * pose proof (wu_neg W (Z.land c 223 - 55) HW ltac:(lia)).
        split; [destruct (Z.leb_spec base (wu W (Z.land c 223 - 55))), (Z.leb_spec base 999); lia|lia].
      * rewrite wu_small by lia. auto.
  - unfold d, d0. pose proof (wu_neg W (c - 48) HW ltac:(lia)). destruct (Z.ltb_spec 9 (wu W (c - 48))); [|lia].
    destruct (Z.ltb_spec (Z.land c 223 - 55) 0).
    + pose proof (wu_neg W (Z.land c 223 - 55) HW ltac:(lia)).
      split; [destruct (Z.leb_spec base (wu W (Z.land c 223 - 55))), (Z.leb_spec base 999); lia|lia].
    + rewrite wu_small by lia. auto.
Qed.
Lemma numdigit_spec c : -128 <= c <= 127 ->
  (numdigit c < 16 -> (c = 64 \/ c = 96) /\ numdigit c = 9 \/ digit c = Some (numdigit c)) /\
  (forall d, digit c = Some d -> numdigit c = d /\ 0 <= d < 16) /\ 0 <= numdigit c.
Proof.
  intro H.
  assert (F : forallb (fun c =>
     ((16 <=? numdigit c) || (((c =? 64) || (c =? 96)) && (numdigit c =? 9)) || match digit c with Some d => d =? numdigit c | None => false end)
     && (match digit c with Some d => (numdigit c =? d) && (0 <=? d) && (d <? 16) | None => true end) && (0 <=? numdigit c)) codes = true)
    by (vm_compute; reflexivity).
  rewrite forallb_forall in F. specialize (F c (codes_in c H)). apply andb_prop in F. destruct F as [F F3].
  apply andb_prop in F. destruct F as [F1 F2].
  split; [|split].
  - intro L. apply orb_prop in F1. destruct F1 as [F1|F1].
    + apply orb_prop in F1. destruct F1 as [F1|F1]; [apply Z.leb_le in F1; lia|]. left.
      apply andb_prop in F1. destruct F1 as [A B]. apply Z.eqb_eq in B. split; [|exact B].
      apply orb_prop in A. rewrite !Z.eqb_eq in A. exact A.
    + right. destruct (digit c); [|discriminate]. apply Z.eqb_eq in F1. congruence.
  - intros d E. rewrite E in F2. apply andb_prop in F2. destruct F2 as [F2 G3]. apply andb_prop in F2. destruct F2 as [G1 G2].
    apply Z.eqb_eq in G1. apply Z.leb_le in G2. apply Z.ltb_lt in G3. auto.
  - apply Z.leb_le in F3. exact F3.
Qed.
Lemma is_digit_num base c : 0 < base <= 16 -> -128 <= c <= 127 -> is_digit base c = true -> numdigit c = digit_val c /\ digit_val c < base /\ 0 <= digit_val c.
Proof.
  intros Hb H E. unfold is_digit in E. unfold digit_val. destruct (digit c) as [d|] eqn:D; [|discriminate].
  destruct (numdigit_spec c H) as (_ & G & _). destruct (G d D). apply Z.ltb_lt in E. lia.
Qed.
Lemma not_digit_num base rest : 0 < base <= 16 -> -128 <= hd 0 rest <= 127 -> ends_num base rest -> base <= numdigit (hd 0 rest).
Proof.
  intros Hb H [E1 E2]. destruct (Z.lt_ge_cases (numdigit (hd 0 rest)) base) as [L|]; [|assumption].
  destruct (numdigit_spec _ H) as (G & _ & _). destruct (G ltac:(lia)) as [[A B]|A]; [lia|].
  unfold is_digit in E1. rewrite A in E1. apply Z.ltb_ge in E1. lia.
Qed.

(** characters that the reader delivers are signed bytes *)
Definition schars (cs : list Z) : Prop := Forall (fun c => -128 <= c <= 127) cs.
Lemma schars_hd cs : schars cs -> -128 <= hd 0 cs <= 127.
Proof. intro H. destruct cs; cbn; [lia|]. exact (Forall_inv H). Qed.
Lemma s8_bounds x : -128 <= s8 x <= 127.
Proof. pose proof (s8_range x). lia. Qed.

Lemma sees_cons l c cs : sees l (c :: cs) -> CurChar l = c /\ later l cs.
Proof. intros [H1 H2]. auto. Qed.

Lemma wu_mul_add W a b x : 0 <= W -> wu W (wu W a * b + x) = wu W (a * b + x).
Proof.
  intro H. unfold wu. rewrite Zplus_mod, Zmult_mod_idemp_l, <- Zplus_mod. reflexivity.
Qed.

Section Num.
Variable W : Z.
Hypothesis HW : 16 <= W.
Notation ch_0' := 48.

Lemma GetNum_spec base : 0 < base <= 16 -> forall n ds init l rest, digits base ds -> sees l (ds ++ rest) -> schars (ds ++ rest) ->
  (length ds <= n)%nat -> (length ds < n -> ends_num base rest)%nat ->
  exists l', GetNum W (wu W init) base n l = Ok (wu W (fold_left (fun v c => v * base + digit_val c) ds init), l') /\ sees l' rest /\ view l' = view l.
Proof.
  intros Hb n. induction n as [|n IH]; intros ds init l rest D S SC L E; cbn [GetNum].
  - destruct ds; [|cbn in L; lia]. exists l. cbn. auto.
  - mgo. change ch_0 with 48. change (ch_A - 10) with 55. destruct S as [C La]. pose proof (schars_hd _ SC) as SH. rewrite C.
    destruct (getnum_digit W (hd 0 (ds ++ rest)) HW SH base ltac:(lia)) as [G1 G2].
    set (d := if 9 <? wu W (hd 0 (ds ++ rest) - 48) then _ else _) in *. rewrite G1.
    destruct ds as [|c ds].
    + cbn [app] in *. rewrite (proj2 (Z.leb_le _ _)).
      2: { apply not_digit_num; auto. apply E. cbn. lia. }
      exists l. cbn. split; [reflexivity|]. split; [split; assumption|reflexivity].
    + cbn [app hd tl] in *. destruct (is_digit_num base c Hb SH (Forall_inv D)) as (N1 & N2 & N3).
      assert (ED : d = digit_val c).
      { rewrite <- N1. apply G2. rewrite <- Z.leb_gt, G1, N1. apply Z.leb_gt. exact N2. }
      rewrite N1. rewrite (proj2 (Z.leb_gt _ _)) by exact N2. rewrite ED.
      destruct (NextChar_spec l (ds ++ rest) La) as (l1 & N & S1 & V1 & _).
      rewrite (bind_ok _ _ _ _ _ N). rewrite wu_mul_add by lia.
      destruct (IH ds (init * base + digit_val c) l1 rest) as (l2 & E2 & S2 & V2).
      * exact (Forall_inv_tail D).
      * exact S1.
      * exact (Forall_inv_tail SC).
      * cbn in L. lia.
      * intro. apply E. cbn. lia.
      * exists l2. split; [exact E2|]. split; [exact S2|congruence].
Qed.
End Num.

(** ** GetToken behind the white space *)
Definition tok_rest (W : Z) (F : nat) : M cc unit :=
  let! t := getl CurChar in
  updl (set_TokenType t) ;;
  inlx nextc ;;
  updl (set_OperatorPrecedence PREC_STOP) ;;
  if (t <? ch_A) && (0 <=? t - ch_0) && (t - ch_0 <? 10) then inlx (Number W t)
  else if (ch_A <=? t) && (Z.land t 223 <=? ch_Z) then inlx (Identifier W F t)
  else if t =? ch_under then inlx (Identifier W F t)
  else if t =? ch_dquote then GetStringLiteral W F ;; updl (set_TokenType TOK_STRLIT)
  else
    let! b := inlx (operator W t) in
    when b (inlx nextc).
Definition tok_slash : M cc unit :=
  updl (set_TokenType ch_slash) ;; let! b := inlx slash_op in when b (inlx nextc).

Lemma inlx_ok {A} (m : M lexst A) s a l : m (lx s) = Ok (a, l) -> inlx m s = Ok (a, set_lx l s).
Proof. intro H. unfold inlx. rewrite H. reflexivity. Qed.
Lemma bind_inlx {A B} (m : M lexst A) (f : A -> M cc B) s a l : m (lx s) = Ok (a, l) -> bind (inlx m) f s = f a (set_lx l s).
Proof. intro H. apply bind_ok, inlx_ok, H. Qed.

Lemma skipws_token c cs : ch_slash < c -> skipws (c :: cs) = Some (false, c :: cs).
Proof.
  intro H. rewrite skipws_eq. unfold ch_slash in H. cbn [drop_blanks].
  rewrite (proj2 (Z.leb_gt c ch_sp)) by (unfold ch_sp; lia).
  rewrite (proj2 (Z.eqb_neq c ch_slash)) by (unfold ch_slash; lia).
  rewrite (proj2 (Z.eqb_neq c ch_hash)) by (unfold ch_hash; lia). reflexivity.
Qed.

Lemma GetToken_skip W F s cs : sees (lx s) cs ->
  (F <= 2 * length cs + 1)%nat /\ GetToken W F s = OutOfFuel \/
  match skipws cs with
  | None => GetToken W F s = Fatal
  | Some (b, r) => exists l, sees l r /\ view l = view (lx s) /\
      GetToken W F s = (if b then tok_slash else tok_rest W F) (set_lx l s)
  end.
Proof.
  intro H. unfold GetToken.
  match goal with |- context [bind (getl CurChar) ?k s] => change (bind (getl CurChar) k s) with (k (CurChar (lx s)) s) end.
  cbv beta. destruct (Z.leb_spec (CurChar (lx s)) ch_slash) as [L|G].
  - destruct (SkipWhitespace_spec F (lx s) cs H) as [[LF E]|E].
    { left. split; [exact LF|]. unfold bind, inlx. rewrite E. reflexivity. }
    right. destruct (skipws cs) as [[b r]|].
    + destruct E as (l & E & S & V). exists l. split; [exact S|]. split; [exact V|].
      rewrite (bind_inlx _ _ _ _ _ E). destruct b; reflexivity.
    + unfold bind, inlx. rewrite E. reflexivity.
  - right. destruct H as [C La]. destruct cs as [|c cs]; cbn [hd tl] in *.
    + exfalso. rewrite C in G. unfold ch_slash in G. lia.
    + rewrite skipws_token by lia. exists (lx s). split; [split; assumption|]. split; [reflexivity|].
      destruct s; reflexivity.
Qed.

(** the first character of the token, and the state behind it *)
Lemma tok_first W F s c cs : sees (lx s) (c :: cs) ->
  exists l, sees l cs /\ view l = (let v := view (lx s) in mkview c (vNum v) (vStr v) PREC_STOP (vIdPtr v) (vIdText v) (vIdHash v) (vIdCount v)) /\
    tok_rest W F s =
      (if (c <? ch_A) && (0 <=? c - ch_0) && (c - ch_0 <? 10) then inlx (Number W c)
       else if (ch_A <=? c) && (Z.land c 223 <=? ch_Z) then inlx (Identifier W F c)
       else if c =? ch_under then inlx (Identifier W F c)
       else if c =? ch_dquote then GetStringLiteral W F ;; updl (set_TokenType TOK_STRLIT)
       else let! b := inlx (operator W c) in when b (inlx nextc)) (set_lx l s).
Proof.
  intros [C La]. cbn [hd tl] in *. unfold tok_rest.
  match goal with |- context [bind (getl CurChar) ?k s] => change (bind (getl CurChar) k s) with (k (CurChar (lx s)) s) end.
  cbv beta. rewrite C. unfold updl. rewrite bind_upd.
  set (s1 := set_lx (set_TokenType c (lx s)) s).
  destruct (nextc_spec (lx s1) cs La) as (l & E & S & V).
  rewrite (bind_inlx _ _ _ _ _ E). rewrite bind_upd.
  exists (set_OperatorPrecedence PREC_STOP l). split; [exact S|]. split.
  - unfold view in V |- *. injection V as V1 V2 V3 V4 V5 V6 V7 V8. cbn in *. cbn. f_equal; assumption.
  - reflexivity.
Qed.

(** ** Number literals *)
Definition num_view (v : lview) (n : Z) : lview :=
  mkview TOK_NUM n (vStr v) PREC_STOP (vIdPtr v) (vIdText v) (vIdHash v) (vIdCount v).

Section Lits.
Variable W : Z.
Hypothesis HW : 16 <= W.
Variable F : nat.

Lemma Number_spec s c base pre ds rest :
  (c = 48 /\ ((pre = nil /\ base = 8 /\ (ds = nil -> hd 0 rest <> 88 /\ hd 0 rest <> 120)) \/ ((pre = [88] \/ pre = [120]) /\ base = 16))
   \/ 49 <= c <= 57 /\ pre = nil /\ base = 10) ->
  sees (lx s) (c :: pre ++ ds ++ rest) -> schars (ds ++ rest) -> digits base ds ->
  (length ds <= 8)%nat -> (length ds < 8 -> ends_num base rest)%nat ->
  exists l', GetToken W F s = Ok (tt, set_lx l' s) /\ sees l' rest /\
    view l' = num_view (view (lx s)) (ci W (wu W (value base (c :: ds)))).
Proof.
  intros HC S SC D L E.
  assert (CR : 48 <= c <= 57) by (destruct HC as [[-> _]|[H _]]; lia).
  assert (Hg : GetToken W F s = tok_rest W F s).
  { destruct S as [C _]. cbn [hd] in C. unfold GetToken.
    match goal with |- context [bind (getl CurChar) ?k s] => change (bind (getl CurChar) k s) with (k (CurChar (lx s)) s) end.
    cbv beta. rewrite C. rewrite (proj2 (Z.leb_gt c ch_slash)) by (unfold ch_slash; lia). reflexivity. }
  rewrite Hg. destruct (tok_first W F s c _ S) as (l1 & S1 & V1 & ->).
  assert (T1 : (c <? ch_A) && (0 <=? c - ch_0) && (c - ch_0 <? 10) = true).
  { unfold ch_A, ch_0. rewrite (proj2 (Z.ltb_lt c 65)), (proj2 (Z.leb_le 0 (c - 48))), (proj2 (Z.ltb_lt (c - 48) 10)) by lia. reflexivity. }
  rewrite T1.
  assert (NB : exists l2, (let! c0 := gets CurChar in (if c - 48 =? 0 then if Z.land c0 223 =? ch_X then NextChar ;; ret 16 else ret 8 else ret 10))
     (set_TokenNumVal (c - 48) l1) = Ok (base, l2) /\ sees l2 (ds ++ rest) /\ view l2 = view (set_TokenNumVal (c - 48) l1)).
  { mgo. change (CurChar (set_TokenNumVal (c - 48) l1)) with (CurChar l1).
    assert (X : forall x, -128 <= x <= 127 -> x <> 88 -> x <> 120 -> (Z.land x 223 =? ch_X) = false).
    { intros x Hx N1 N2.
      assert (FF : forallb (fun x => (x =? 88) || (x =? 120) || negb (Z.land x 223 =? ch_X)) codes = true) by (vm_compute; reflexivity).
      rewrite forallb_forall in FF. specialize (FF x (codes_in x Hx)).
      rewrite (proj2 (Z.eqb_neq x 88) N1), (proj2 (Z.eqb_neq x 120) N2) in FF. cbn in FF. apply negb_true_iff in FF. exact FF. }
    destruct HC as [[-> [(-> & -> & H8)|(HP & ->)]]|(Hc & -> & ->)].
    - cbn [app] in S1. change (48 - 48 =? 0) with true. cbn iota.
      destruct S1 as [C1 La1]. rewrite C1.
      assert (XX : (Z.land (hd 0 (ds ++ rest)) 223 =? ch_X) = false).
      { pose proof (schars_hd _ SC) as SH. destruct ds as [|d ds]; cbn [app hd] in *.
        - apply X; [exact SH|apply H8; reflexivity|apply H8; reflexivity].
        - pose proof (Forall_inv D) as DD. cbn beta in DD. apply X; [exact SH| |]; intros ->; vm_compute in DD; discriminate DD. }
      rewrite XX. exists (set_TokenNumVal (48 - 48) l1). split; [reflexivity|]. split; [|reflexivity]. split; [exact C1|exact La1].
    - change (48 - 48 =? 0) with true. cbn iota. destruct S1 as [C1 La1]. rewrite C1.
      assert (XX : (Z.land (hd 0 (pre ++ ds ++ rest)) 223 =? ch_X) = true) by (destruct HP as [-> | ->]; reflexivity).
      rewrite XX. assert (TL : tl (pre ++ ds ++ rest) = ds ++ rest) by (destruct HP as [-> | ->]; reflexivity).
      rewrite TL in La1.
      destruct (NextChar_spec (set_TokenNumVal (48 - 48) l1) (ds ++ rest) La1) as (l2 & N & S2 & V2 & _).
      rewrite (bind_ok _ _ _ _ _ N). exists l2. split; [reflexivity|]. split; [exact S2|exact V2].
    - rewrite (proj2 (Z.eqb_neq (c - 48) 0)) by lia. exists (set_TokenNumVal (c - 48) l1).
      split; [reflexivity|]. split; [exact S1|reflexivity]. }
  destruct NB as (l2 & E2 & S2 & V2).
  assert (HB : 0 < base <= 16) by (destruct HC as [[_ [(_ & -> & _)|(_ & ->)]]|(_ & _ & ->)]; lia).
  destruct (GetNum_spec W HW base HB 8 ds (c - 48) l2 rest D S2 SC L E) as (l3 & E3 & S3 & V3).
  exists (set_TokenType TOK_NUM (set_TokenNumVal (ci W (wu W (value base (c :: ds)))) l3)). split; [|split].
  - unfold inlx. change (lx (set_lx l1 s)) with l1.
    assert (EN : Number W c l1 = Ok (tt, set_TokenType TOK_NUM (set_TokenNumVal (ci W (wu W (value base (c :: ds)))) l3))).
    { unfold Number. change ch_0 with 48. mgo. rewrite <- bind_gets with (g := CurChar) (f := fun _ => _).
      mgo. revert E2. mgo. intro E2. rewrite (bind_ok _ _ _ _ _ E2). rewrite (bind_ok _ _ _ _ _ E3). mgo.
      unfold value. cbn [fold_left]. replace (0 * base + digit_val c) with (c - 48); [reflexivity|].
      unfold digit_val, digit. rewrite (proj2 (Z.leb_le 48 c)), (proj2 (Z.leb_le c 57)) by lia. cbn [andb]. lia. }
    rewrite EN. reflexivity.
  - exact S3.
  - unfold view in *. cbn. injection V1 as A1 A2 A3 A4 A5 A6 A7 A8. rewrite V2 in V3. injection V3 as B1 B2 B3 B4 B5 B6 B7 B8.
    unfold num_view. cbn in *. f_equal; congruence.
Qed.
End Lits.
