(** Tokens of scc.c, continued: character constants, identifiers, operators, trivia. *)
From Verif Require Import Base SccState SccEmit SccLex SccInput SccIntern SccTok SccDecl SccExpr SccStmt SccRel.

(** ** Character constants: specification *)
(** [escape text v]: behind a backslash, [text] denotes the character [v] (as a signed char) *)
Inductive escape : list Z -> Z -> Prop :=
| esc_n : escape [110] 10
| esc_r : escape [114] 13
| esc_t : escape [116] 9
| esc_quote : escape [39] 39
| esc_dquote : escape [34] 34
| esc_bslash : escape [92] 92
| esc_hex ds : digits 16 ds -> (1 <= length ds <= 2)%nat -> escape (120 :: ds) (s8 (value 16 ds))
| esc_oct ds : digits 8 ds -> (1 <= length ds <= 3)%nat -> escape ds (s8 (value 8 ds)).
(** [charlit text v]: [text] (without the opening quote) is the rest of a character constant of value v *)
Inductive charlit : list Z -> Z -> Prop :=
| chr_plain c : c <> 92 -> -128 <= c <= 127 -> c <> 0 -> charlit [c; 39] c
| chr_esc t v : escape t v -> charlit (92 :: t ++ [39]) v.

Lemma value_init base c ds : value base (c :: ds) = fold_left (fun v x => v * base + digit_val x) ds (digit_val c).
Proof. reflexivity. Qed.
(** decide comparisons of constants *)
Ltac ceqb := repeat match goal with
  | |- context [Z.eqb (Zpos ?a) ?b] => let v := eval vm_compute in (Z.eqb (Zpos a) b) in
      first [constr_eq v true | constr_eq v false]; change (Z.eqb (Zpos a) b) with v
  end.

Section Lits.
Variable W : Z.
Hypothesis HW : 16 <= W.
Variable F : nat.

Lemma digits_bound base ds : digits base ds -> 0 < base <= 16 -> schars ds.
Proof.
  intros D H. eapply Forall_impl; [|exact D]. intros c E. unfold is_digit, digit in E. cbn beta in E.
  destruct (Z.leb_spec 48 c), (Z.leb_spec c 57), (Z.leb_spec 65 c), (Z.leb_spec c 70), (Z.leb_spec 97 c), (Z.leb_spec c 102);
    cbn in E; try discriminate; lia.
Qed.
Lemma value_bound base ds : digits base ds -> 0 < base <= 16 -> forall v, 0 <= v ->
  0 <= fold_left (fun v x => v * base + digit_val x) ds v < (v + 1) * base ^ Z.of_nat (length ds).
Proof.
  intros D H. induction ds as [|d ds IH]; intros v Hv; cbn [fold_left length].
  - rewrite Z.pow_0_r. lia.
  - pose proof (digits_bound _ _ D H) as SC.
    destruct (is_digit_num base d H (Forall_inv SC) (Forall_inv D)) as (_ & D1 & D2).
    specialize (IH (Forall_inv_tail D) (v * base + digit_val d) ltac:(nia)).
    rewrite Nat2Z.inj_succ, Z.pow_succ_r by lia.
    assert (0 < base ^ Z.of_nat (length ds)) by (apply Z.pow_pos_nonneg; lia). split; [lia|]. nia.
Qed.

Lemma Unescape_spec t v l rest : escape t v -> sees l (t ++ 39 :: rest) -> schars (39 :: rest) ->
  exists l', Unescape W l = Ok (v, l') /\ sees l' (39 :: rest) /\ view l' = view l.
Proof.
  intros HE S SC. unfold Unescape. mgo.
  assert (SIMPLE : forall c, sees l (c :: 39 :: rest) -> exists l', NextChar l = Ok (tt, l') /\ sees l' (39 :: rest) /\ view l' = view l).
  { intros c [C La]. cbn [tl] in La. destruct (NextChar_spec l _ La) as (l' & E & S' & V & _). eauto. }
  assert (EN : ends_num 16 (39 :: rest) /\ ends_num 8 (39 :: rest)).
  { split; (split; [reflexivity|cbn; lia]). }
  destruct HE as [ | | | | | | ds D L | ds D L ].
  1-6: cbn [app] in S; destruct (SIMPLE _ S) as (l' & E & S' & V); destruct S as [C La]; cbn [hd] in C; rewrite C;
       rewrite (bind_ok _ _ _ _ _ E); exists l'; split; [reflexivity|auto].
  - cbn [app] in S. destruct S as [C La]. cbn [hd tl] in *. rewrite C.
    destruct (NextChar_spec l _ La) as (l1 & E1 & S1 & V1 & _). rewrite (bind_ok _ _ _ _ _ E1).
    change (120 =? ch_n) with false. change (120 =? ch_r) with false. change (120 =? ch_t) with false.
    change (120 =? ch_quote) with false. change (120 =? ch_dquote) with false. change (120 =? ch_bslash) with false.
    change (120 =? ch_x) with true. cbn iota.
    assert (SC2 : schars (ds ++ 39 :: rest)) by (apply Forall_app; split; [apply (digits_bound 16); [exact D|lia]|exact SC]).
    destruct (GetNum_spec W HW 16 ltac:(lia) 2 ds 0 l1 (39 :: rest) D S1 SC2 ltac:(lia)) as (l2 & E2 & S2 & V2).
    { intro. apply EN. }
    change (wu W 0) with 0 in E2. rewrite (bind_ok _ _ _ _ _ E2).
    exists l2. split; [|split; [exact S2|congruence]].
    pose proof (value_bound 16 ds D ltac:(lia) 0 ltac:(lia)) as VB.
    assert (16 ^ Z.of_nat (length ds) <= 16 ^ 2) by (apply Z.pow_le_mono_r; lia).
    rewrite wu_small by lia. reflexivity.
  - destruct ds as [|d ds]; [cbn in L; lia|]. cbn [app] in S. destruct S as [C La]. cbn [hd tl] in *. rewrite C.
    destruct (NextChar_spec l _ La) as (l1 & E1 & S1 & V1 & _). rewrite (bind_ok _ _ _ _ _ E1).
    pose proof (digits_bound _ _ D ltac:(lia)) as SD.
    assert (HD : 48 <= d <= 55).
    { pose proof (Forall_inv D) as DD. pose proof (Forall_inv SD) as SS. cbn beta in DD, SS.
      unfold is_digit, digit in DD.
      destruct (Z.leb_spec 48 d), (Z.leb_spec d 57), (Z.leb_spec 65 d), (Z.leb_spec d 70), (Z.leb_spec 97 d), (Z.leb_spec d 102);
        cbn [andb] in DD; try discriminate; apply Z.ltb_lt in DD; lia. }
    unfold ch_n, ch_r, ch_t, ch_quote, ch_dquote, ch_bslash, ch_x, ch_0.
    rewrite !(proj2 (Z.eqb_neq d _)) by lia. rewrite (proj2 (Z.ltb_ge (d - 48) 0)), (proj2 (Z.ltb_ge 7 (d - 48))) by lia.
    cbn [orb failif]. mgo.
    assert (SC2 : schars (ds ++ 39 :: rest)) by (apply Forall_app; split; [exact (Forall_inv_tail SD)|exact SC]).
    destruct (GetNum_spec W HW 8 ltac:(lia) 2 ds (d - 48) l1 (39 :: rest) (Forall_inv_tail D) S1 SC2) as (l2 & E2 & S2 & V2).
    { cbn in L. lia. } { intro. apply EN. }
    rewrite wu_small in E2 by lia.
    rewrite (bind_ok _ _ _ _ _ E2).
    exists l2. split; [|split; [exact S2|congruence]].
    assert (DV : digit_val d = d - 48).
    { unfold digit_val, digit. rewrite (proj2 (Z.leb_le 48 d)), (proj2 (Z.leb_le d 57)) by lia. reflexivity. }
    pose proof (value_bound 8 ds (Forall_inv_tail D) ltac:(lia) (d - 48) ltac:(lia)) as VB.
    assert (8 ^ Z.of_nat (length ds) <= 8 ^ 2) by (apply Z.pow_le_mono_r; cbn [length] in L; lia).
    assert ((d - 48 + 1) * 8 ^ Z.of_nat (length ds) <= 8 * 8 ^ 2) by (apply Z.mul_le_mono_nonneg; lia).
    rewrite wu_small by lia. rewrite value_init, DV. reflexivity.
Qed.

Lemma SkipWhitespace_none c cs l : sees l (c :: cs) -> 32 < c -> c <> ch_slash -> c <> ch_hash ->
  forall F, SkipWhitespace (S F) l = Ok (false, l).
Proof.
  intros [C _] H1 H2 H3 F'. cbn [hd] in C. unfold SkipWhitespace. apply loopM_once. mgo. rewrite C.
  rewrite (proj2 (Z.leb_gt c ch_sp)) by (unfold ch_sp; lia). mgo. rewrite C.
  destruct (ch_slash <? c); [reflexivity|].
  rewrite (proj2 (Z.eqb_neq _ _) H2), (proj2 (Z.eqb_neq _ _) H3). reflexivity.
Qed.
Lemma GetToken_rest c cs s : sees (lx s) (c :: cs) -> 32 < c -> c <> ch_slash -> c <> ch_hash -> F <> O ->
  GetToken W F s = tok_rest W F s.
Proof.
  intros S H1 H2 H3 HF. unfold GetToken. destruct F as [|f]; [congruence|].
  match goal with |- context [bind (getl CurChar) ?k s] => change (bind (getl CurChar) k s) with (k (CurChar (lx s)) s) end.
  cbv beta. destruct (CurChar (lx s) <=? ch_slash); [|reflexivity].
  rewrite (bind_inlx _ _ _ _ _ (SkipWhitespace_none _ _ _ S H1 H2 H3 f)). destruct s; reflexivity.
Qed.

Theorem charlit_spec s text v rest : charlit text v -> sees (lx s) (39 :: text ++ rest) -> schars (text ++ rest) -> F <> O ->
  exists l', GetToken W F s = Ok (tt, set_lx l' s) /\ sees l' rest /\ view l' = num_view (view (lx s)) v.
Proof.
  intros HC S SC HF. rewrite (GetToken_rest _ _ _ S) by (unfold ch_slash, ch_hash; auto; lia).
  destruct (tok_first W F s 39 _ S) as (l1 & S1 & V1 & ->).
  change ((39 <? ch_A) && (0 <=? 39 - ch_0) && (39 - ch_0 <? 10)) with false.
  change ((ch_A <=? 39) && (Z.land 39 223 <=? ch_Z)) with false. change (39 =? ch_under) with false. change (39 =? ch_dquote) with false.
  cbn iota.
  assert (OP : exists l2, operator W 39 l1 = Ok (true, l2) /\ later l2 rest /\
     view l2 = num_view (view (lx s)) v).
  { unfold operator. mgo. ceqb. cbn [orb]. cbn iota. mgo. destruct S1 as [C1 La1].
    destruct HC as [c N B NZ | t v HE].
    - cbn [app hd tl] in *. rewrite C1.
      destruct (NextChar_spec (set_TokenNumVal c l1) _ La1) as (l2 & E2 & S2 & V2 & _).
      rewrite (bind_ok _ _ _ _ _ E2). mgo. change ch_bslash with 92. rewrite (proj2 (Z.eqb_neq c 92) N). mgo.
      destruct S2 as [C2 La2]. rewrite C2. cbn [hd]. change (39 =? ch_quote) with true. cbn [negb failif]. mgo.
      unfold op2k. mgo. eexists. split; [reflexivity|]. split; [exact La2|].
      unfold view in *. cbn. injection V1 as A1 A2 A3 A4 A5 A6 A7 A8. injection V2 as B1 B2 B3 B4 B5 B6 B7 B8.
      unfold num_view. cbn in *. f_equal; congruence.
    - cbn [app hd tl] in *. rewrite C1.
      destruct (NextChar_spec (set_TokenNumVal 92 l1) _ La1) as (l2 & E2 & S2 & V2 & _).
      rewrite (bind_ok _ _ _ _ _ E2). mgo. change (92 =? ch_bslash) with true. cbn iota. mgo.
      rewrite <- app_assoc in S2. cbn [app] in S2.
      destruct (Unescape_spec t v l2 rest HE S2) as (l3 & E3 & S3 & V3).
      { apply Forall_inv_tail in SC. rewrite <- app_assoc in SC. apply Forall_app in SC. apply SC. }
      rewrite (bind_ok _ _ _ _ _ E3). mgo. destruct S3 as [C3 La3].
      change (CurChar (set_TokenNumVal v l3)) with (CurChar l3). rewrite C3. cbn [hd]. change (39 =? ch_quote) with true. cbn [negb failif]. mgo.
      unfold op2k. mgo. eexists. split; [reflexivity|]. split; [exact La3|].
      unfold view in *. cbn. injection V1 as A1 A2 A3 A4 A5 A6 A7 A8. rewrite V2 in V3. injection V3 as B1 B2 B3 B4 B5 B6 B7 B8.
      unfold num_view. cbn in *. f_equal; congruence. }
  destruct OP as (l2 & E2 & La2 & V2).
  rewrite (bind_inlx (operator W 39) _ (set_lx l1 s) _ _ E2). cbn [when].
  destruct (nextc_spec l2 rest La2) as (l3 & E3 & S3 & V3).
  exists l3. split; [|split; [exact S3|congruence]]. apply (inlx_ok nextc (set_lx l2 (set_lx l1 s))). exact E3.
Qed.
End Lits.

(** ** Identifiers *)
(** letters, digits and the underscore *)
Definition id_start (c : Z) : bool := ((65 <=? c) && (c <=? 90)) || ((97 <=? c) && (c <=? 122)) || (c =? 95).
Definition id_char (c : Z) : bool := id_start c || ((48 <=? c) && (c <=? 57)).
Fixpoint id_run (cs : list Z) : list Z * list Z :=
  match cs with
  | c :: r => if id_char c then let '(a, b) := id_run r in (c :: a, b) else (nil, cs)
  | nil => (nil, nil)
  end.
Lemma IsIdChar_spec c : -128 <= c <= 127 -> IsIdChar c = id_char c.
Proof.
  intro H. assert (FF : forallb (fun c => Bool.eqb (IsIdChar c) (id_char c)) codes = true) by (vm_compute; reflexivity).
  rewrite forallb_forall in FF. apply Bool.eqb_prop, FF, codes_in, H.
Qed.
Lemma id_start_code c : -128 <= c <= 127 -> id_start c = true ->
  48 < c /\ (c <? ch_A) && (0 <=? c - ch_0) && (c - ch_0 <? 10) = false /\
  ((ch_A <=? c) && (Z.land c 223 <=? ch_Z) || (c =? ch_under)) = true.
Proof.
  intros H E.
  assert (FF : forallb (fun c => negb (id_start c) || ((48 <? c) && negb ((c <? ch_A) && (0 <=? c - ch_0) && (c - ch_0 <? 10)) &&
     ((ch_A <=? c) && (Z.land c 223 <=? ch_Z) || (c =? ch_under)))) codes = true) by (vm_compute; reflexivity).
  rewrite forallb_forall in FF. specialize (FF c (codes_in c H)). rewrite E in FF. cbn [negb orb] in FF.
  apply andb_prop in FF. destruct FF as [FF F3]. apply andb_prop in FF. destruct FF as [F1 F2].
  apply Z.ltb_lt in F1. apply negb_true_iff in F2. auto.
Qed.

Section Ident.
Variable W : Z.
Hypothesis HW : 16 <= W.
Variable F : nat.

Lemma read_ident_spec c0 l cs : sees l cs -> schars cs -> (length (fst (id_run cs)) < F)%nat ->
  IdBufPtr l + 1 + Z.of_nat (length (fst (id_run cs))) < 5000 ->
  exists l', read_ident W F c0 l =
      Ok ((rev (c0 :: fst (id_run cs)), fold_left (fun h c => wu W (h + (Z.shiftl h 4 + c))) (fst (id_run cs)) c0), l') /\
    sees l' (snd (id_run cs)) /\ view l' = view l.
Proof.
  intros S SC LF LB. unfold read_ident. mgo. set (base := IdBufPtr l) in *.
  match goal with |- context [loopM F ?b _ _] => set (body := b) end.
  enough (G : forall n l cs sp len h, sees l cs -> schars cs -> (length (fst (id_run cs)) < n)%nat ->
     base + len + Z.of_nat (length (fst (id_run cs))) < 5000 -> exists l',
     loopM n body (sp, len, h) l = Ok ((rev (fst (id_run cs)) ++ sp, fold_left (fun h c => wu W (h + (Z.shiftl h 4 + c))) (fst (id_run cs)) h), l') /\
     sees l' (snd (id_run cs)) /\ view l' = view l).
  { cbn [rev]. exact (G F l cs [c0] 1 c0 S SC LF ltac:(lia)). }
  clear S SC LF LB. clearbody base. clear l cs. intro n. induction n as [|n IH]; intros l cs sp len h S SC LF LB; [lia|].
  destruct S as [C La]. pose proof (schars_hd _ SC) as SH.
  destruct (id_char (hd 0 cs)) eqn:IC.
  - destruct cs as [|c cs]; [discriminate IC|]. cbn [hd tl id_run] in *. rewrite IC in *.
    destruct (id_run cs) as [a b] eqn:IR. cbn [fst snd length rev fold_left] in *.
    destruct (nextc_spec l cs La) as (l1 & E1 & S1 & V1).
    assert (B : body (sp, len, h) l = Ok (inl (c :: sp, len + 1, wu W (h + (Z.shiftl h 4 + c))), l1)).
    { unfold body. mgo. rewrite C, IsIdChar_spec by exact SH. rewrite IC. change IDBUFFER_MAX with 5000.
      rewrite (proj2 (Z.leb_gt _ _)) by lia. mgo. rewrite (bind_ok _ _ _ _ _ E1). reflexivity. }
    rewrite (loopM_next _ _ _ _ _ _ B).
    destruct (IH l1 cs (c :: sp) (len + 1) (wu W (h + (Z.shiftl h 4 + c))) S1 (Forall_inv_tail SC)) as (l2 & E2 & S2 & V2).
    + rewrite IR. cbn. lia.
    + rewrite IR. cbn [fst]. lia.
    + rewrite IR in *. cbn [fst snd] in *. exists l2. rewrite E2. rewrite <- app_assoc. cbn [app].
      split; [reflexivity|]. split; [exact S2|congruence].
  - assert (IR : id_run cs = (nil, cs)) by (destruct cs as [|c cs]; [reflexivity|]; cbn [hd id_run] in *; rewrite IC; reflexivity).
    rewrite IR in *. cbn [fst snd length rev fold_left app] in *.
    exists l. split; [|split; [split; assumption|reflexivity]]. apply loopM_once. unfold body. mgo.
    rewrite C, IsIdChar_spec by exact SH. rewrite IC. change IDBUFFER_MAX with 5000.
    rewrite (proj2 (Z.leb_gt _ _)) by lia. reflexivity.
Qed.

(** An identifier or keyword in the input: the token is the number of its spelling. *)
Theorem ident_spec s c cs names : sees (lx s) (c :: cs) -> schars (c :: cs) -> id_start c = true ->
  table W (lx s) names -> (length names <= 580)%nat ->
  (length (fst (id_run cs)) < F)%nat -> IdBufPtr (lx s) + 1 + Z.of_nat (length (fst (id_run cs))) < 5000 ->
  match number_name names (IdBufPtr (lx s)) (c :: fst (id_run cs)) with
  | Ok (i, names', used) => exists l', GetToken W F s = Ok (tt, set_lx l' s) /\ sees l' (snd (id_run cs)) /\
       TokenType l' = i + 150 /\ OperatorPrecedence l' = PREC_STOP /\
       table W l' names' /\ (length names' <= 580)%nat /\ IdBufPtr l' = used
  | _ => GetToken W F s = Fatal
  end.
Proof.
  intros S SC IS T L LF LB.
  destruct (id_start_code c (Forall_inv SC) IS) as (Lc & N1 & N2).
  assert (HF : F <> O) by lia.
  rewrite (GetToken_rest W F c cs s S) by (unfold ch_slash, ch_hash; lia).
  destruct (tok_first W F s c cs S) as (l1 & S1 & V1 & ->). rewrite N1.
  replace (if (ch_A <=? c) && (Z.land c 223 <=? ch_Z) then inlx (Identifier W F c)
     else if c =? ch_under then inlx (Identifier W F c) else
     if c =? ch_dquote then GetStringLiteral W F;; updl (set_TokenType TOK_STRLIT) else let! b := inlx (operator W c) in when b (inlx nextc))
    with (inlx (Identifier W F c)).
  2: { destruct ((ch_A <=? c) && (Z.land c 223 <=? ch_Z)); [reflexivity|]. cbn [orb] in N2. rewrite N2. reflexivity. }
  assert (P1 : IdBufPtr l1 = IdBufPtr (lx s)) by (exact (f_equal vIdPtr V1)).
  destruct (read_ident_spec c l1 cs S1 (Forall_inv_tail SC) LF ltac:(rewrite P1; exact LB)) as (l2 & E2 & S2 & V2).
  assert (P2 : IdBufPtr l2 = IdBufPtr (lx s)) by (rewrite <- P1; exact (f_equal vIdPtr V2)).
  assert (T2 : table W l2 names).
  { assert (HT : IdText l2 = IdText (lx s)) by (transitivity (IdText l1); [exact (f_equal vIdText V2)|exact (f_equal vIdText V1)]).
    assert (HH : IdHashTab l2 = IdHashTab (lx s)) by (transitivity (IdHashTab l1); [exact (f_equal vIdHash V2)|exact (f_equal vIdHash V1)]).
    assert (HC : IdCount l2 = IdCount (lx s)) by (transitivity (IdCount l1); [exact (f_equal vIdCount V2)|exact (f_equal vIdCount V1)]).
    destruct T as [A1 A2 A3 A4 A5 A6]. unfold slot in *.
    split; unfold slot; rewrite ?HT, ?HH, ?HC; assumption. }
  assert (HH : fold_left (fun h c => wu W (h + (Z.shiftl h 4 + c))) (fst (id_run cs)) c = hash_spelling W (c :: fst (id_run cs))).
  { unfold hash_spelling. cbn [fold_left]. change (Z.shiftl 0 4) with 0. rewrite !Z.add_0_l.
    rewrite wu_small; [reflexivity|lia|]. pose proof (Forall_inv SC). cbn beta in *. lia. }
  rewrite HH in E2.
  pose proof (intern_spec W HW (c :: fst (id_run cs)) l2 names T2 L) as I. rewrite P2 in I.
  assert (EQ : Identifier W F c l1 = (let! id := intern W (c :: fst (id_run cs)) (hash_spelling W (c :: fst (id_run cs))) in
                 upd (set_TokenType (id + TOK_KEYWORD))) l2).
  { unfold Identifier. mgo. rewrite P1. change IDBUFFER_MAX with 5000. rewrite (proj2 (Z.leb_gt _ _)) by lia. mgo.
    rewrite (bind_ok _ _ _ _ _ E2). rewrite rev_involutive. reflexivity. }
  destruct (number_name names (IdBufPtr (lx s)) (c :: fst (id_run cs))) as [[[i names'] used]| | |].
  - destruct I as (l3 & E3 & T3 & P3 & L3 & Q3). rewrite (bind_ok _ _ _ _ _ E3) in EQ.
    exists (set_TokenType (i + TOK_KEYWORD) l3). split; [apply (inlx_ok _ (set_lx l1 s)) in EQ; exact EQ|].
    split; [|split; [reflexivity|split; [|split; [|split; [exact L3|exact P3]]]]].
    + rewrite Q3. exact S2.
    + cbn. rewrite Q3. cbn. transitivity (OperatorPrecedence l1); [exact (f_equal vPrec V2)|exact (f_equal vPrec V1)].
    + destruct T3 as [A1 A2 A3 A4 A5 A6]. split; assumption.
  - unfold inlx. cbn [lx set_lx]. rewrite EQ. unfold bind. rewrite I. reflexivity.
  - unfold inlx. cbn [lx set_lx]. rewrite EQ. unfold bind. rewrite I. reflexivity.
  - unfold inlx. cbn [lx set_lx]. rewrite EQ. unfold bind. rewrite I. reflexivity.
Qed.
End Ident.

(** ** Operators and punctuation *)
From Coq Require Import String.
(** the operators of the language with their token and precedence; 100: not a binary operator *)
Definition ops : list (list Z * Z * Z) :=
  map (fun '(s, t, p) => (bytes_of s, t, p))
  [ (";", 59, 100); ("(", 40, 100); (")", 41, 100); ("{", 123, 100); ("}", 125, 100);
    ("[", 91, 100); ("]", 93, 100); (":", 58, 100); ("~", 126, 100);
    ("=", 61, 14); ("==", TOK_EQEQ, 7); (",", 44, 15); ("?", 63, 13);
    ("!", 33, 100); ("!=", TOK_NOTEQ, 7);
    ("<", 60, 6); ("<=", TOK_LTEQ, 6); ("<<", TOK_LSH, 5); ("<<=", TOK_LSHEQ, 14);
    (">", 62, 6); (">=", TOK_GTEQ, 6); (">>", TOK_RSH, 5); (">>=", TOK_RSHEQ, 14);
    ("&", 38, 8); ("&&", TOK_ANDAND, 11); ("&=", TOK_ANDEQ, 14);
    ("|", 124, 10); ("||", TOK_OROR, 12); ("|=", TOK_OREQ, 14);
    ("^", 94, 9); ("^=", TOK_XOREQ, 14);
    ("+", 43, 4); ("++", TOK_PLUSPLUS, 100); ("+=", TOK_PLUSEQ, 14);
    ("-", 45, 4); ("--", TOK_MINUSMINUS, 100); ("-=", TOK_MINUSEQ, 14); ("->", TOK_ARROW, 100);
    ("*", 42, 3); ("*=", TOK_STAREQ, 14); ("/", 47, 3); ("/=", TOK_SLASHEQ, 14);
    ("%", 37, 3); ("%=", TOK_MODEQ, 14); (".", 46, 100); ("...", TOK_ELLIPSIS, 100) ]%string.
(** [op] is the longest operator at the start of [cs] *)
Definition longest (op cs : list Z) : Prop :=
  forall op' t p r, In (op', t, p) ops -> cs = op' ++ r -> (List.length op' <= List.length op)%nat.
(** characters that would extend [op] to another operator *)
Definition exts (op : list Z) : list Z :=
  flat_map (fun o => let x := fst (fst o) in
     if list_eqb (firstn (List.length op) x) op then match skipn (List.length op) x with [c] => [c] | _ => nil end else nil) ops.
Lemma longest_exts op rest : longest op (op ++ rest) -> Forall (fun x => rest = nil \/ hd 0 rest <> x) (exts op).
Proof.
  intro H. apply Forall_forall. intros x Hx. unfold exts in Hx. apply in_flat_map in Hx. destruct Hx as ([[o t] p] & Ho & Hx).
  cbn [fst] in Hx. destruct (list_eqb _ op) eqn:E; [|destruct Hx]. apply list_eqb_true in E.
  destruct (skipn (List.length op) o) as [|c [|]] eqn:Sk; cbn in Hx; try tauto. destruct Hx as [->|[]].
  destruct rest as [|r0 rest]; [left; reflexivity|]. right. cbn. intros ->.
  assert (EO : o = op ++ [x]) by (rewrite <- (firstn_skipn (List.length op) o), E, Sk; reflexivity).
  specialize (H o t p rest Ho). rewrite EO, app_length in H. rewrite <- app_assoc in H. specialize (H eq_refl). cbn in H. lia.
Qed.
Definition op_view (v : lview) (tok prec : Z) : lview :=
  mkview tok (vNum v) (vStr v) prec (vIdPtr v) (vIdText v) (vIdHash v) (vIdCount v).

Lemma view_tok t l : view (set_TokenType t l) = let v := view l in mkview t (vNum v) (vStr v) (vPrec v) (vIdPtr v) (vIdText v) (vIdHash v) (vIdCount v).
Proof. reflexivity. Qed.
Lemma view_prec p l : view (set_OperatorPrecedence p l) = let v := view l in mkview (vTok v) (vNum v) (vStr v) p (vIdPtr v) (vIdText v) (vIdHash v) (vIdCount v).
Proof. reflexivity. Qed.
Lemma sees_tok t l cs : sees l cs -> sees (set_TokenType t l) cs. Proof. exact (fun H => H). Qed.
Lemma sees_prec t l cs : sees l cs -> sees (set_OperatorPrecedence t l) cs. Proof. exact (fun H => H). Qed.

Lemma exts_hd op rest : longest op (op ++ rest) -> Forall (fun x => hd 0 rest <> x) (exts op).
Proof.
  intro H. apply longest_exts in H.
  assert (P : Forall (fun x => x <> 0) (exts op)).
  { apply Forall_forall. intros x Hx. unfold exts in Hx. apply in_flat_map in Hx. destruct Hx as ([[o t] p] & Ho & Hx).
    cbn [fst] in Hx. destruct (list_eqb _ op); [|destruct Hx].
    assert (FF : forallb (fun o => forallb (fun c => negb (c =? 0)) (fst (fst o))) ops = true) by (vm_compute; reflexivity).
    rewrite forallb_forall in FF. specialize (FF _ Ho). cbn [fst] in FF. rewrite forallb_forall in FF.
    destruct (skipn (List.length op) o) as [|c [|]] eqn:Sk; cbn in Hx; try tauto. destruct Hx as [->|[]].
    assert (I : In x o) by (rewrite <- (firstn_skipn (List.length op) o), Sk; apply in_or_app; right; left; reflexivity).
    specialize (FF x I). apply negb_true_iff, Z.eqb_neq in FF. exact FF. }
  rewrite Forall_forall in *. intros x Hx. destruct (H x Hx) as [->|]; [|assumption]. cbn. specialize (P x Hx). congruence.
Qed.

Ltac neqs := repeat match goal with H : ?a <> ?b |- context [Z.eqb ?a ?b] => rewrite (proj2 (Z.eqb_neq a b) H) end.
Ltac opgo := unfold operator, slash_op, op1, op2, op2k, ch_tab, ch_nl, ch_cr, ch_sp, ch_bang, ch_dquote, ch_hash, ch_percent, ch_amp, ch_quote, ch_lpar, ch_rpar, ch_star, ch_plus, ch_comma, ch_minus, ch_dot, ch_slash, ch_0, ch_colon, ch_semi, ch_lt, ch_eq, ch_gt, ch_quest, ch_A, ch_X, ch_Z, ch_lbrack, ch_bslash, ch_rbrack, ch_caret, ch_under, ch_n, ch_r, ch_t, ch_x, ch_lbrace, ch_bar, ch_rbrace, ch_tilde; mgo; ceqb; cbn [orb negb]; mgo.

Section Ops.
Variable W : Z.
Variable F : nat.
Hypothesis HF : F <> O.

(** the continuation of an operator token *)
Lemma op_done (c : Z) s l1 b l2 rest v : operator W c l1 = Ok (b, l2) -> view l2 = v ->
  (if b : bool then later l2 rest else sees l2 rest) ->
  exists l', (let! b := inlx (operator W c) in when b (inlx nextc)) (set_lx l1 s) = Ok (tt, set_lx l' s) /\ sees l' rest /\ view l' = v.
Proof.
  intros E V H. rewrite (bind_inlx (operator W c) _ (set_lx l1 s) b l2) by exact E. destruct b; cbn [when].
  - destruct (nextc_spec l2 rest H) as (l3 & E3 & S3 & V3). exists l3. split; [|split; [exact S3|congruence]].
    apply (inlx_ok nextc (set_lx l2 (set_lx l1 s))). exact E3.
  - exists l2. split; [reflexivity|]. auto.
Qed.
Lemma op_start c cs s : sees (lx s) (c :: cs) -> 32 < c -> c <> 47 -> c <> 35 -> c <> 34 ->
  (c <? ch_A) && (0 <=? c - ch_0) && (c - ch_0 <? 10) = false -> (ch_A <=? c) && (Z.land c 223 <=? ch_Z) = false -> c <> 95 ->
  exists l, sees l cs /\ view l = op_view (view (lx s)) c 100 /\
    GetToken W F s = (let! b := inlx (operator W c) in when b (inlx nextc)) (set_lx l s).
Proof.
  intros S H1 H2 H3 H4 H5 H6 H7. rewrite (GetToken_rest W F c cs s S); auto.
  destruct (tok_first W F s c cs S) as (l1 & S1 & V1 & ->). exists l1. split; [exact S1|]. split; [exact V1|].
  rewrite H5, H6. change ch_under with 95. change ch_dquote with 34.
  rewrite (proj2 (Z.eqb_neq c 95) H7), (proj2 (Z.eqb_neq c 34) H4). reflexivity.
Qed.
Lemma CurChar_prec p l : CurChar (set_OperatorPrecedence p l) = CurChar l. Proof. reflexivity. Qed.

Lemma slash_start cs s : sees (lx s) (47 :: cs) -> hd 0 cs <> 47 -> hd 0 cs <> 42 ->
  exists l, sees l cs /\ view l = view (lx s) /\ GetToken W F s = tok_slash (set_lx l s).
Proof.
  intros S N1 N2. destruct F as [|f] eqn:EF; [congruence|].
  destruct S as [C La]. cbn [hd tl] in *. destruct (NextChar_spec _ _ La) as (l1 & E1 & S1 & V1 & _).
  exists l1. split; [exact S1|]. split; [exact V1|]. unfold GetToken.
  match goal with |- context [bind (getl CurChar) ?k s] => change (bind (getl CurChar) k s) with (k (CurChar (lx s)) s) end.
  cbv beta. rewrite C. change (47 <=? ch_slash) with true. cbn iota.
  assert (SW : SkipWhitespace (S f) (lx s) = Ok (true, l1)).
  { unfold SkipWhitespace. apply loopM_once. mgo. rewrite C. change (47 <=? ch_sp) with false. cbn iota. mgo. rewrite C.
    change (ch_slash <? 47) with false. change (47 =? ch_slash) with true. cbn iota. rewrite (bind_ok _ _ _ _ _ E1). mgo.
    destruct S1 as [C1 _]. rewrite C1. change ch_slash with 47. change ch_star with 42.
    neqs. reflexivity. }
  rewrite (bind_inlx _ _ _ _ _ SW). reflexivity.
Qed.

Ltac op_case S :=
  lazymatch type of S with sees _ (?c :: ?cs) =>
    let l1 := fresh "l" in let S1 := fresh "S" in let V1 := fresh "V" in let E := fresh "E" in
    destruct (op_start c cs _ S) as (l1 & S1 & V1 & E); [lia|lia|lia|lia|reflexivity|reflexivity|lia|];
    rewrite E; clear E;
    let C1 := fresh "C" in let La := fresh "La" in
    destruct S1 as [C1 La]; cbn [hd tl] in C1, La;
    first
    [ (* one character, or two *)
      eapply op_done; [opgo; rewrite ?CurChar_prec, ?C1; ceqb; neqs; cbn [negb]; mgo; reflexivity
                      |rewrite ?view_tok, ?view_prec, ?view_tok, ?V1; reflexivity
                      |cbn iota; first [exact La | split; [exact C1|exact La]]]
    | (* three *)
      let l2 := fresh "l" in let E2 := fresh "E" in let S2 := fresh "S" in let V2 := fresh "V" in
      destruct (NextChar_spec (set_OperatorPrecedence 6 l1) _ La) as (l2 & E2 & S2 & V2 & _);
      let C2 := fresh "C" in let La2 := fresh "La" in destruct S2 as [C2 La2]; cbn [hd tl] in C2, La2;
      eapply op_done; [opgo; rewrite ?CurChar_prec, ?C1; ceqb; cbn [negb]; mgo; rewrite (bind_ok _ _ _ _ _ E2); mgo;
                       rewrite ?C2; ceqb; neqs; cbn [negb]; mgo; reflexivity
                      |rewrite ?view_tok, ?view_prec, ?view_tok, ?V2, ?view_prec, ?V1; reflexivity
                      |cbn iota; first [exact La2 | split; [exact C2|exact La2]]]
    | let l2 := fresh "l" in let E2 := fresh "E" in let S2 := fresh "S" in let V2 := fresh "V" in
      destruct (NextChar_spec l1 _ La) as (l2 & E2 & S2 & V2 & _);
      let C2 := fresh "C" in let La2 := fresh "La" in destruct S2 as [C2 La2]; cbn [hd tl] in C2, La2;
      eapply op_done; [opgo; rewrite ?CurChar_prec, ?C1; ceqb; cbn [negb]; mgo; rewrite (bind_ok _ _ _ _ _ E2); mgo;
                       rewrite ?C2; ceqb; neqs; cbn [negb]; mgo; reflexivity
                      |rewrite ?view_tok, ?view_prec, ?view_tok, ?V2, ?view_prec, ?V1; reflexivity
                      |cbn iota; first [exact La2 | split; [exact C2|exact La2]]] ]
  end.

Theorem op_spec s op tok prec rest : In (op, tok, prec) ops -> longest op (op ++ rest) -> sees (lx s) (op ++ rest) ->
  (op = [47] -> hd 0 rest <> 47 /\ hd 0 rest <> 42) -> (op = [46] -> hd 0 rest <> 46) ->
  exists l', GetToken W F s = Ok (tt, set_lx l' s) /\ sees l' rest /\ view l' = op_view (view (lx s)) tok prec.
Proof.
  intros I L S SL DT. apply exts_hd in L.
  assert (C : In (op, tok, prec) (ltac:(let x := eval vm_compute in ops in exact x))) by exact I. clear I.
  cbn [In] in C.
  repeat (destruct C as [C|C]; [injection C as <- <- <-; match type of L with Forall _ ?e => let v := eval vm_compute in e in change e with v in L end;
    repeat match goal with H : Forall _ (_ :: _) |- _ => let A := fresh "N" in pose proof (Forall_inv H) as A; cbn beta in A; apply Forall_inv_tail in H end; clear L;
    cbn [app] in S|]); [..|destruct C].
  all: try (pose proof (DT eq_refl)); clear DT; try (destruct (SL eq_refl)); clear SL.
  all: try solve [op_case S].
  - destruct (slash_start _ _ S) as (l1 & [C1 La] & V1 & ->); auto. cbn [hd tl] in C1, La.
    exists (set_OperatorPrecedence 3 (set_TokenType 47 l1)). split; [|split; [split; [exact C1|exact La]|rewrite view_prec, view_tok, V1; reflexivity]].
    unfold tok_slash, updl. rewrite bind_upd.
    rewrite (bind_inlx slash_op _ _ false (set_OperatorPrecedence 3 (set_TokenType 47 l1))); [reflexivity|].
    unfold slash_op. mgo. cbn [lx set_lx]. change (CurChar (set_TokenType ch_slash l1)) with (CurChar l1). rewrite C1.
    change ch_eq with 61. neqs. reflexivity.
  - destruct (slash_start _ _ S) as (l1 & [C1 La] & V1 & ->); [cbn; lia|cbn; lia|]. cbn [hd tl] in C1, La.
    set (l2 := set_OperatorPrecedence PREC_ASSIGN (set_TokenType TOK_SLASHEQ (set_TokenType 47 l1))).
    destruct (nextc_spec l2 rest La) as (l3 & E3 & S3 & V3).
    exists l3. split; [|split; [exact S3|rewrite V3; unfold l2; rewrite view_prec, !view_tok, V1; reflexivity]].
    unfold tok_slash, updl. rewrite bind_upd.
    rewrite (bind_inlx slash_op _ _ true l2).
    + cbn [when]. apply (inlx_ok nextc (set_lx l2 (set_lx (set_TokenType ch_slash l1) s))). exact E3.
    + unfold slash_op. mgo. cbn [lx set_lx]. change (CurChar (set_TokenType ch_slash l1)) with (CurChar l1). rewrite C1. reflexivity.
Qed.
End Ops.

(** ** White space and comments *)
(** blanks, // comments, /* */ comments and # lines *)
Inductive trivia : list Z -> Prop :=
| tr_nil : trivia nil
| tr_blank c w : c <= 32 -> trivia w -> trivia (c :: w)
| tr_line body w : ~ In 10 body -> trivia w -> trivia ([47; 47] ++ body ++ [10] ++ w)
| tr_hash body w : ~ In 10 body -> trivia w -> trivia ([35] ++ body ++ [10] ++ w)
| tr_block body w : (forall a b, body <> a ++ [42; 47] ++ b) -> trivia w -> trivia ([47; 42] ++ body ++ [42; 47] ++ w).

Lemma drop_line_body body w : ~ In 10 body -> drop_line (body ++ 10 :: w) = w.
Proof.
  induction body as [|c body IH]; intro N; cbn [app drop_line]; [reflexivity|].
  change ch_nl with 10 in *. rewrite (proj2 (Z.eqb_neq c 10)); [apply IH; intro; apply N; right; assumption|].
  intros ->. apply N. left. reflexivity.
Qed.
Lemma comment_end_body body w : forall star, (forall a b, body <> a ++ [42; 47] ++ b) -> (star = true -> hd 0 body <> 47) ->
  comment_end star (body ++ 42 :: 47 :: w) = Some w.
Proof.
  induction body as [|c body IH]; intros star N H; cbn [app comment_end].
  - change (42 =? ch_slash) with false. rewrite andb_false_r. reflexivity.
  - change ch_slash with 47. change ch_star with 42.
    replace (star && (c =? 47)) with false.
    2: { destruct star; [|reflexivity]. cbn [andb]. symmetry. apply Z.eqb_neq. exact (H eq_refl). }
    apply IH.
    + intros a b E. apply (N (c :: a) b). cbn. rewrite E. reflexivity.
    + intro E. apply Z.eqb_eq in E. subst c. intro E. destruct body as [|d body]; [discriminate E|]. cbn in E. subst d.
      apply (N nil body). reflexivity.
Qed.
Theorem skipws_trivia w cs : trivia w -> skipws (w ++ cs) = skipws cs.
Proof.
  induction 1 as [|c w L T IH|body w N T IH|body w N T IH|body w N T IH].
  - reflexivity.
  - cbn [app]. rewrite <- IH, (skipws_eq (c :: w ++ cs)), (skipws_eq (w ++ cs)). cbn [drop_blanks].
    rewrite (proj2 (Z.leb_le c ch_sp)) by exact L. reflexivity.
  - rewrite <- !app_assoc. cbn [app]. rewrite <- IH, skipws_eq. cbn [drop_blanks].
    change (47 <=? ch_sp) with false. change (47 =? ch_slash) with true. cbn iota. rewrite drop_line_body by exact N. reflexivity.
  - rewrite <- !app_assoc. cbn [app]. rewrite <- IH, skipws_eq. cbn [drop_blanks].
    change (35 <=? ch_sp) with false. change (35 =? ch_slash) with false. change (35 =? ch_hash) with true. cbn iota.
    rewrite drop_line_body by exact N. reflexivity.
  - rewrite <- !app_assoc. cbn [app]. rewrite <- IH, skipws_eq. cbn [drop_blanks].
    change (47 <=? ch_sp) with false. change (47 =? ch_slash) with true. change (42 =? ch_slash) with false. change (42 =? ch_star) with true.
    cbn iota. rewrite comment_end_body; [reflexivity|exact N|discriminate].
Qed.

(** an unterminated block comment is reported *)
Lemma comment_end_open body : forall star, (forall a b, body <> a ++ [42; 47] ++ b) -> (star = true -> hd 0 body <> 47) ->
  comment_end star body = None.
Proof.
  induction body as [|c body IH]; intros star N H; cbn [comment_end]; [reflexivity|].
  change ch_slash with 47. change ch_star with 42.
  replace (star && (c =? 47)) with false.
  2: { destruct star; [|reflexivity]. cbn [andb]. symmetry. apply Z.eqb_neq. exact (H eq_refl). }
  apply IH.
  - intros a b E. apply (N (c :: a) b). cbn. rewrite E. reflexivity.
  - intro E. apply Z.eqb_eq in E. subst c. intro E. destruct body as [|d body]; [discriminate E|]. cbn in E. subst d.
    apply (N nil body). reflexivity.
Qed.
Lemma skipws_open w body : trivia w -> (forall a b, body <> a ++ [42; 47] ++ b) -> skipws (w ++ [47; 42] ++ body) = None.
Proof.
  intros T N. rewrite skipws_trivia by exact T. cbn [app]. rewrite skipws_eq. cbn [drop_blanks].
  change (47 <=? ch_sp) with false. change (47 =? ch_slash) with true. change (42 =? ch_slash) with false. change (42 =? ch_star) with true.
  cbn iota. rewrite comment_end_open; [reflexivity|exact N|discriminate].
Qed.

Lemma Rcc_intro l1 l2 s1 s2 r : sees l1 r -> sees l2 r -> view l1 = view (lx s1) -> view l2 = view (lx s2) ->
  view (lx s1) = view (lx s2) -> em s1 = em s2 -> dc s1 = dc s2 -> Rcc Rl (set_lx l1 s1) (set_lx l2 s2).
Proof. intros A B C D E G H. split; [|split; assumption]. split; [exists r; auto|]. cbn. congruence. Qed.

Lemma r_tok_rest W F1 F2 : rel (Rcc Rl) (tok_rest W F1) (tok_rest W F2).
Proof.
  unfold tok_rest. pose proof (r_operator W) as HO. pose proof (r_Number W) as HN. pose proof (r_Identifier W F1 F2) as HI.
  pose proof (r_GetStringLiteral W F1 F2) as HS. rl.
Qed.
Lemma r_tok_slash : rel (Rcc Rl) tok_slash tok_slash.
Proof. unfold tok_slash. pose proof r_slash_op. rl. Qed.

(** the next token is the same with and without trivia in front *)
Theorem GetToken_trivia W F1 F2 w cs s1 s2 : trivia w -> sees (lx s1) (w ++ cs) -> sees (lx s2) cs ->
  view (lx s1) = view (lx s2) -> em s1 = em s2 -> dc s1 = dc s2 ->
  orel (Rcc Rl) (GetToken W F1 s1) (GetToken W F2 s2).
Proof.
  intros T S1 S2 V E D. pose proof (GetToken_skip W F1 s1 _ S1) as G1. pose proof (GetToken_skip W F2 s2 _ S2) as G2.
  rewrite skipws_trivia in G1 by exact T. destruct G1 as [[_ ->]|G1]; [left; reflexivity|]. destruct G2 as [[_ ->]|G2]; [right; left; reflexivity|].
  destruct (skipws cs) as [[b r]|].
  - destruct G1 as (l1 & A1 & A2 & ->), G2 as (l2 & B1 & B2 & ->).
    assert (R : Rcc Rl (set_lx l1 s1) (set_lx l2 s2)) by (eapply Rcc_intro; eauto).
    destruct b; [apply r_tok_slash; exact R|apply r_tok_rest; exact R].
  - rewrite G1, G2. right; right. exact I.
Qed.
