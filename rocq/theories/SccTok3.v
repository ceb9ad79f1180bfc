(** The tokenizer terminates: with a bound of twice the remaining text no loop of
    GetToken exhausts it. *)
From Verif Require Import Base SccState SccEmit SccLex SccInput SccIntern SccTok SccTok2 SccDecl SccExpr SccStmt SccRel.

(** not out of fuel, and the rest of the text does not grow *)
Definition fine {A} (n : nat) (o : outcome (A * cc)) : Prop :=
  match o with
  | OutOfFuel => False
  | Ok (_, s') => exists cs', sees (lx s') cs' /\ (length cs' <= n)%nat
  | _ => True
  end.
Definition finel {A} (n : nat) (o : outcome (A * lexst)) : Prop :=
  match o with
  | OutOfFuel => False
  | Ok (_, l') => exists cs', sees l' cs' /\ (length cs' <= n)%nat
  | _ => True
  end.
Lemma finel_le {A} n m (o : outcome (A * lexst)) : (n <= m)%nat -> finel n o -> finel m o.
Proof. intros L. destruct o as [[a l]| | |]; cbn; auto. intros (cs & S & H). exists cs. split; [exact S|lia]. Qed.
Lemma finel_bind {A B} n m (x : M lexst A) (f : A -> M lexst B) l :
  finel n (x l) -> (forall a l' cs', sees l' cs' -> (length cs' <= n)%nat -> finel m (f a l')) -> finel m (bind x f l).
Proof. intros H G. unfold bind. destruct (x l) as [[a l']| | |]; cbn in *; auto. destruct H as (cs & S & L). eauto. Qed.
Lemma fine_bind {A B} n m (x : M cc A) (f : A -> M cc B) s :
  fine n (x s) -> (forall a s' cs', sees (lx s') cs' -> (length cs' <= n)%nat -> fine m (f a s')) -> fine m (bind x f s).
Proof. intros H G. unfold bind. destruct (x s) as [[a s']| | |]; cbn in *; auto. destruct H as (cs & S & L). eauto. Qed.
Lemma fine_inlx {A} n (m : M lexst A) s : finel n (m (lx s)) -> fine n (inlx m s).
Proof. unfold inlx. destruct (m (lx s)) as [[a l]| | |]; cbn; auto. Qed.

Lemma NextChar_fine l cs : sees l cs -> finel (pred (length cs)) (NextChar l).
Proof.
  intros [C La]. destruct (NextChar_spec l _ La) as (l' & E & S & _ & _). rewrite E. cbn. exists (tl cs).
  split; [exact S|]. destruct cs; cbn; lia.
Qed.
Lemma nextc_fine l cs : sees l cs -> finel (pred (length cs)) (nextc l).
Proof.
  intros [C La]. destruct (nextc_spec l _ La) as (l' & E & S & _). rewrite E. cbn. exists (tl cs).
  split; [exact S|]. destruct cs; cbn; lia.
Qed.
Lemma GetNum_fine W n : forall i b l cs, sees l cs -> finel (length cs) (GetNum W i b n l).
Proof.
  induction n as [|n IH]; intros i b l cs S; cbn [GetNum]; [exists cs; auto|].
  mgo. destruct (b <=? _); [exists cs; auto|].
  eapply finel_bind; [apply NextChar_fine; exact S|]. intros _ l' cs' S' L. eapply finel_le; [|apply IH; exact S']. lia.
Qed.
Lemma Unescape_fine W l cs : sees l cs -> finel (length cs) (Unescape W l).
Proof.
  intro S. unfold Unescape. mgo. eapply finel_bind; [apply NextChar_fine; exact S|]. intros _ l1 cs1 S1 L1.
  assert (R : forall v, finel (length cs) (Ok (v : Z, l1))) by (intro v; exists cs1; split; [exact S1|lia]).
  repeat match goal with |- context [if ?b then _ else _] => destruct b; [first [apply R | idtac]|] end.
  - eapply finel_bind; [apply GetNum_fine; exact S1|]. intros v l2 cs2 S2 L2. exists cs2. split; [exact S2|lia].
  - unfold failif. destruct (_ || _); [exact I|]. mgo.
    eapply finel_bind; [apply GetNum_fine; exact S1|]. intros v l2 cs2 S2 L2. exists cs2. split; [exact S2|lia].
Qed.
Lemma skipws_len cs b r : skipws cs = Some (b, r) -> (length r <= length cs)%nat.
Proof.
  unfold skipws. generalize (Datatypes.S (length cs)). intro n. revert cs b r.
  induction n as [|n IH]; intros cs b r; cbn [skipws_n]; [discriminate|].
  pose proof (drop_blanks_len cs) as D. destruct (drop_blanks cs) as [|c x]; [intros [= <- <-]; cbn; lia|]. cbn [length] in D.
  destruct (c =? ch_slash).
  - destruct x as [|d x]; [intros [= <- <-]; cbn; lia|]. cbn [length] in D. destruct (d =? ch_slash).
    { intro E. apply IH in E. pose proof (drop_line_len x). lia. }
    destruct (d =? ch_star).
    { destruct (comment_end false x) as [y|] eqn:CE; [|discriminate]. intro E. apply IH in E. apply comment_end_len in CE. lia. }
    intros [= <- <-]. cbn; lia.
  - destruct (c =? ch_hash). { intro E. apply IH in E. pose proof (drop_line_len x). lia. }
    intros [= <- <-]. cbn; lia.
Qed.
Lemma Skip_fine F l cs : sees l cs -> (2 * length cs + 1 < F)%nat -> finel (length cs) (SkipWhitespace F l).
Proof.
  intros S L. destruct (SkipWhitespace_spec F l cs S) as [[H _]|H]; [lia|].
  destruct (skipws cs) as [[b r]|] eqn:E; [|rewrite H; exact I].
  destruct H as (l' & -> & S' & _). cbn. exists r. split; [exact S'|]. exact (skipws_len _ _ _ E).
Qed.

Lemma fine_same {A} n s (o : outcome (A * cc)) : match o with OutOfFuel => False | Ok (_, s') => lx s' = lx s | _ => True end ->
  forall cs, sees (lx s) cs -> (length cs <= n)%nat -> fine n o.
Proof. destruct o as [[a s']| | |]; cbn; auto. intros -> cs S L. eauto. Qed.

(** a loop whose continuing iterations consume at least one character *)
Definition finex {X A} (m n : nat) (o : outcome ((X + A) * cc)) : Prop :=
  match o with
  | OutOfFuel => False
  | Ok (inl _, s') => exists cs', sees (lx s') cs' /\ (length cs' < m)%nat
  | Ok (inr _, s') => exists cs', sees (lx s') cs' /\ (length cs' <= n)%nat
  | _ => True
  end.
Lemma fine_loop {X A} (body : X -> M cc (X + A)) :
  forall k N, (forall x s cs, sees (lx s) cs -> (length cs <= N)%nat -> finex (length cs) N (body x s)) ->
  forall x s cs, sees (lx s) cs -> (length cs < k)%nat -> (length cs <= N)%nat -> fine N (loopM k body x s).
Proof.
  intros k N B. induction k as [|k IH]; intros x s cs S Lk LN; [lia|].
  cbn [loopM]. unfold bind. specialize (B x s cs S LN). destruct (body x s) as [[[x'|a] s']| | |]; cbn in B; auto.
  - destruct B as (cs' & S' & L'). apply (IH x' s' cs' S'); lia.
Qed.
Lemma finex_bind {X A B} n m k (x : M cc A) (f : A -> M cc (X + B)) s :
  fine n (x s) -> (forall a s' cs', sees (lx s') cs' -> (length cs' <= n)%nat -> finex m k (f a s')) -> finex m k (bind x f s).
Proof. intros H G. unfold bind. destruct (x s) as [[a s']| | |]; cbn in *; auto. destruct H as (cs & S & L). eauto. Qed.

Lemma bind_getl {A B} (g : lexst -> A) (f : A -> M cc B) s : bind (getl g) f s = f (g (lx s)) s.
Proof. reflexivity. Qed.
Lemma bind_gete {A B} (g : emst -> A) (f : A -> M cc B) s : bind (gete g) f s = f (g (em s)) s.
Proof. reflexivity. Qed.
Lemma bind_getd {A B} (g : dcst -> A) (f : A -> M cc B) s : bind (getd g) f s = f (g (dc s)) s.
Proof. reflexivity. Qed.
Lemma bind_updl {B} (g : lexst -> lexst) (f : unit -> M cc B) s : bind (updl g) f s = f tt (set_lx (g (lx s)) s).
Proof. reflexivity. Qed.

Section Tok.
Variable W : Z.
Hypothesis HW : 16 <= W.
Variable F : nat.

Lemma string_fine s cs : sees (lx s) cs -> (2 * length cs + 1 < F)%nat -> fine (length cs) (GetStringLiteral W F s).
Proof.
  intros S0 LF. unfold GetStringLiteral. rewrite bind_gete, !bind_updl.
  match goal with |- fine _ (bind ?m ?k ?s) => set (s0 := s); set (fin := k); set (lp := m) end.
  assert (S : sees (lx s0) cs) by exact S0. clearbody s0. clear S0 s.
  assert (PUT : forall ch s cs, sees (lx s) cs -> fine (length cs)
    ((let! p := getl TokenStrLit in let! n := getl TokenNumVal in updl (set_TokenNumVal (n + 1)) ;; inem (poke (CODESTART + p + n) ch)) s)).
  { intros ch s cs1 S1. rewrite !bind_getl, bind_updl. unfold inem, poke. destruct (in_output _); [|exact I].
    exists cs1. split; [exact S1|lia]. }
  apply (fine_bind (length cs)).
  - unfold lp. apply fine_loop with (cs := cs); [|exact S|lia|lia]. clear s0 S lp fin.
    intros _ s cs1 S L1. apply finex_bind with (n := length cs1).
    + (* characters *)
      apply fine_loop with (cs := cs1); [|exact S|lia|lia]. clear s S. intros _ s cs2 S L2. rewrite bind_getl.
      destruct (Z.eqb_spec (CurChar (lx s)) ch_dquote) as [E|N]; [exists cs2; auto|].
      unfold failif. destruct (Z.eqb_spec (CurChar (lx s)) 0) as [E|N2]; [exact I|].
      assert (NE : cs2 <> nil) by (intros ->; destruct S as [C _]; cbn in C; congruence).
      assert (LP : (pred (length cs2) < length cs2)%nat) by (destruct cs2; [congruence|cbn; lia]).
      rewrite bind_ret.
      apply finex_bind with (n := pred (length cs2)); [apply fine_inlx, NextChar_fine; exact S|].
      intros _ s1 cs3 S3 L3.
      apply finex_bind with (n := length cs3).
      { destruct (_ =? ch_bslash); [apply fine_inlx, Unescape_fine; exact S3|exists cs3; auto]. }
      intros ch s2 cs4 S4 L4. apply finex_bind with (n := length cs4); [apply PUT; exact S4|].
      intros _ s3 cs5 S5 L5. exists cs5. split; [exact S5|lia].
    + intros _ s1 cs2 S2 L2. apply finex_bind with (n := length cs2).
      { apply fine_inlx. eapply finel_le; [|apply NextChar_fine; exact S2]. lia. }
      intros _ s2 cs3 S3 L3. apply finex_bind with (n := length cs3); [apply fine_inlx, Skip_fine; [exact S3|lia]|].
      intros _ s3 cs4 S4 L4. rewrite bind_getl. destruct (Z.eqb_spec (CurChar (lx s3)) ch_dquote) as [E|N]; cbn [negb].
      * assert (NE : cs4 <> nil) by (intros ->; destruct S4 as [C _]; cbn in C; rewrite C in E; discriminate E).
        apply finex_bind with (n := pred (length cs4)); [apply fine_inlx, NextChar_fine; exact S4|].
        intros _ s4 cs5 S5 L5. exists cs5. split; [exact S5|]. destruct cs4; [congruence|]. cbn [length] in *. lia.
      * exists cs4. split; [exact S4|lia].
  - intros u s1 cs1 S1 L1. unfold fin. apply fine_bind with (n := length cs1); [apply PUT; exact S1|].
    intros _ s2 cs2 S2 L2. rewrite !bind_getl. unfold failif. destruct (_ <? _); [exact I|]. exists cs2. split; [exact S2|lia].
Qed.

Lemma op_fine t l cs : sees l cs -> finel (length cs) (operator W t l).
Proof.
  intro S.
  assert (R : forall (b : bool) l' , sees l' cs -> finel (length cs) (Ok (b, l'))) by (intros b l' S'; exists cs; auto).
  assert (N : forall (f : unit -> M lexst bool) l', sees l' cs -> (forall l2 cs2, sees l2 cs2 -> (length cs2 <= length cs)%nat -> finel (length cs) (f tt l2)) ->
             finel (length cs) (bind NextChar f l')).
  { intros f l' S' H. eapply finel_bind; [apply NextChar_fine; exact S'|]. intros [] l2 cs2 S2 L2. eapply H; [exact S2|lia]. }
  unfold operator, slash_op, op1, op2, op2k. mgo.
  repeat match goal with
  | |- finel _ ((if ?b then _ else _) _) => destruct b; mgo
  end; try (apply R; exact S); try exact I.
  all: apply N; [exact S|]; intros l2 cs2 S2 L2; mgo.
  4: { apply finel_bind with (n := length cs).
       - destruct (_ =? ch_bslash); [|exists cs2; split; [exact S2|lia]].
         eapply finel_bind; [apply Unescape_fine; exact S2|]. intros v l3 cs3 S3 L3. exists cs3. split; [exact S3|lia].
       - intros _ l3 cs3 S3 L3. mgo. unfold failif. destruct (negb _); [exact I|]. mgo. exists cs3. split; [exact S3|lia]. }
  all: repeat match goal with |- finel _ ((if ?b then _ else _) _) => destruct b; mgo end; try exact I; exists cs2; (split; [exact S2|lia]).
Qed.
Lemma number_fine t l cs : sees l cs -> finel (length cs) (Number W t l).
Proof.
  intro S. unfold Number. mgo.
  apply finel_bind with (n := length cs).
  - destruct (_ =? 0); [|exists cs; auto]. destruct (_ =? ch_X); [|exists cs; auto].
    eapply finel_bind; [apply NextChar_fine; exact S|]. intros _ l2 cs2 S2 L2. exists cs2. split; [exact S2|lia].
  - intros b l2 cs2 S2 L2. eapply finel_bind; [apply GetNum_fine; exact S2|]. intros v l3 cs3 S3 L3. mgo. exists cs3. split; [exact S3|lia].
Qed.

Lemma intern_fine sp h l names cs : sees l cs -> table W l names -> (length names <= 580)%nat -> finel (length cs) (intern W sp h l).
Proof.
  intros S T L. destruct (some_empty _ _ _ h T L) as (e & He & E1 & E2).
  unfold intern. match goal with |- context [loopM _ ?b _] => set (body := b) end.
  enough (R : forall k n d h', h' mod 1024 = (h + d) mod 1024 -> 0 <= d -> d + Z.of_nat k = e -> finel (length cs) (loopM (k + Datatypes.S n) body h' l)).
  { replace (Z.to_nat (ID_HASHMAX + 1)) with (Z.to_nat e + Datatypes.S (1024 - Z.to_nat e))%nat by (unfold ID_HASHMAX; lia).
    apply (R _ _ 0); [f_equal; lia|lia|lia]. }
  induction k as [|k IH]; intros n d h' E D Ek; cbn [Nat.add loopM]; rewrite loopM_S || idtac.
  - unfold bind at 1. unfold body at 1. change (ID_HASHMAX - 1) with 1023. mgo. rewrite !land1023, E.
    replace d with e by lia. fold (slot l (h + e)). rewrite E1. change (-1 =? -1) with true. cbn iota. mgo.
    unfold failif. destruct (_ =? ID_MAX); [exact I|]. mgo. destruct (_ <? _); [exact I|]. cbn. exists cs. split; [exact S|lia].
  - unfold bind at 1. unfold body at 1. change (ID_HASHMAX - 1) with 1023. mgo. rewrite !land1023, E.
    fold (slot l (h + d)). rewrite (proj2 (Z.eqb_neq _ _)) by (apply E2; lia). mgo.
    destruct (list_eqb _ _); [exists cs; split; [exact S|lia]|]. cbn [ret].
    apply (IH n (d + 1)); try lia. rewrite <- E. rewrite <- (land1023 h'). apply step_mod; assumption.
Qed.
Lemma read_ident_fine c0 l cs : sees l cs -> (length cs < F)%nat ->
  match read_ident W F c0 l with
  | OutOfFuel => False
  | Ok (_, l') => (exists cs', sees l' cs' /\ (length cs' <= length cs)%nat) /\ view l' = view l
  | _ => True
  end.
Proof.
  intros S LF. unfold read_ident. mgo. generalize (IdBufPtr l) as base. intro base.
  match goal with |- context [loopM F ?b _ _] => set (body := b) end.
  enough (G : forall n l cs x, sees l cs -> (length cs < n)%nat ->
     match loopM n body x l with OutOfFuel => False | Ok (_, l') => (exists cs', sees l' cs' /\ (length cs' <= length cs)%nat) /\ view l' = view l | _ => True end)
    by (apply G; assumption).
  clear l cs S LF. induction n as [|n IH]; intros l cs [[sp len] h] S LF; [lia|].
  cbn [loopM]. unfold bind at 1. unfold body at 1. mgo.
  destruct (IsIdChar (CurChar l)) eqn:IC.
  - destruct (IDBUFFER_MAX <=? base + len); [exact I|]. mgo.
    destruct S as [C La]. destruct cs as [|c cs]; [cbn in C; rewrite C in IC; discriminate IC|]. cbn [hd tl length] in *.
    destruct (nextc_spec l cs La) as (l1 & E1 & S1 & V1). rewrite (bind_ok _ _ _ _ _ E1). cbn [ret].
    specialize (IH l1 cs (CurChar l :: sp, len + 1, wu W (h + (Z.shiftl h 4 + CurChar l))) S1 ltac:(lia)).
    destruct (loopM n body _ l1) as [[a l2]| | |]; auto. destruct IH as [(cs' & S' & L') V']. split; [exists cs'; split; [exact S'|lia]|congruence].
  - destruct (IDBUFFER_MAX <=? base + len); [exact I|]. mgo. cbn. split; [exists cs; split; [exact S|lia]|reflexivity].
Qed.
Lemma table_view l1 l2 names : view l1 = view l2 -> table W l2 names -> table W l1 names.
Proof.
  intros V [A1 A2 A3 A4 A5 A6]. pose proof (f_equal vIdText V) as HT. pose proof (f_equal vIdHash V) as HH. pose proof (f_equal vIdCount V) as HC.
  cbn in HT, HH, HC. unfold slot in *. split; unfold slot; rewrite ?HT, ?HH, ?HC; assumption.
Qed.
Lemma ident_fine c l cs names : sees l cs -> (length cs < F)%nat -> table W l names -> (length names <= 580)%nat ->
  finel (length cs) (Identifier W F c l).
Proof.
  intros S LF T L. unfold Identifier. mgo. destruct (IDBUFFER_MAX <=? IdBufPtr l); [exact I|]. mgo.
  pose proof (read_ident_fine c l cs S LF) as R. unfold bind at 1. destruct (read_ident W F c l) as [[[sp h] l1]| | |]; auto.
  destruct R as [(cs1 & S1 & L1) V1].
  eapply finel_bind; [apply (intern_fine _ _ _ names); [exact S1|apply (table_view _ l); assumption|exact L]|].
  intros id l2 cs2 S2 L2. exists cs2. split; [exact S2|lia].
Qed.

Theorem GetToken_fine s cs names : sees (lx s) cs -> (2 * length cs + 1 < F)%nat -> table W (lx s) names -> (length names <= 580)%nat ->
  fine (length cs) (GetToken W F s).
Proof.
  intros S LF T L. destruct (GetToken_skip W F s cs S) as [[H _]|H]; [lia|].
  destruct (skipws cs) as [[b r]|] eqn:SK; [|rewrite H; exact I]. apply skipws_len in SK.
  destruct H as (l & S1 & V1 & ->). destruct b.
  - unfold tok_slash. rewrite bind_updl. apply fine_bind with (n := length r).
    + apply fine_inlx. unfold slash_op, op1, op2. cbn [lx set_lx]. mgo. destruct (_ =? ch_eq); mgo; exists r; auto.
    + intros b s2 cs2 S2 L2. destruct b; cbn [when]; [|exists cs2; split; [exact S2|lia]].
      apply fine_inlx. eapply finel_le; [|apply nextc_fine; exact S2]. lia.
  - unfold tok_rest. rewrite bind_getl, bind_updl. cbn [lx set_lx].
    assert (La : later (set_TokenType (CurChar l) l) (tl r)) by exact (proj2 S1).
    destruct (nextc_spec _ _ La) as (l2 & E2 & S2 & V2).
    match goal with |- fine _ (bind (inlx nextc) _ ?s) => rewrite (bind_inlx nextc _ s tt l2 E2) end.
    rewrite bind_updl. cbn [lx set_lx].
    match goal with |- context [set_lx (set_OperatorPrecedence PREC_STOP l2) ?x] => set (s3 := set_lx (set_OperatorPrecedence PREC_STOP l2) x) end.
    assert (S3 : sees (lx s3) (tl r)) by exact S2.
    assert (LT : (length (tl r) <= length cs)%nat) by (destruct r; cbn [tl length] in *; lia).
    assert (T3 : table W (lx s3) names).
    { destruct T as [A1 A2 A3 A4 A5 A6].
      pose proof (f_equal vIdText V2) as HT. pose proof (f_equal vIdHash V2) as HH. pose proof (f_equal vIdCount V2) as HC.
      pose proof (f_equal vIdText V1) as HT1. pose proof (f_equal vIdHash V1) as HH1. pose proof (f_equal vIdCount V1) as HC1.
      cbn in HT, HH, HC, HT1, HH1, HC1. unfold slot in *.
      split; unfold slot; cbn; rewrite ?HT, ?HH, ?HC, ?HT1, ?HH1, ?HC1; assumption. }
    assert (LE : forall A (o : outcome (A * cc)), fine (length (tl r)) o -> fine (length cs) o).
    { intros A o. destruct o as [[a s']| | |]; cbn; auto. intros (cs' & S' & L'). exists cs'. split; [exact S'|lia]. }
    apply LE.
    destruct (_ && _ && _); [apply fine_inlx, number_fine; exact S3|].
    destruct (_ && _); [apply fine_inlx, (ident_fine _ _ _ names); auto; lia|].
    destruct (_ =? ch_under); [apply fine_inlx, (ident_fine _ _ _ names); auto; lia|].
    destruct (_ =? ch_dquote).
    { apply fine_bind with (n := length (tl r)); [apply string_fine; [exact S3|lia]|]. intros _ s4 cs4 S4 L4. exists cs4. auto. }
    apply fine_bind with (n := length (tl r)); [apply fine_inlx, op_fine; exact S3|].
    intros b s4 cs4 S4 L4. destruct b; cbn [when]; [|exists cs4; auto].
    apply fine_inlx. eapply finel_le; [|apply nextc_fine; exact S4]. lia.
Qed.
End Tok.

(** ** Trivia, without running out of fuel *)
Theorem GetToken_trivia_ok W F1 F2 w cs s1 s2 names : 16 <= W -> trivia w -> sees (lx s1) (w ++ cs) -> sees (lx s2) cs ->
  view (lx s1) = view (lx s2) -> em s1 = em s2 -> dc s1 = dc s2 -> table W (lx s1) names -> (length names <= 580)%nat ->
  (2 * length (w ++ cs) + 1 < F1)%nat -> (2 * length cs + 1 < F2)%nat ->
  match GetToken W F1 s1, GetToken W F2 s2 with
  | Ok (_, t1), Ok (_, t2) => (exists r, sees (lx t1) r /\ sees (lx t2) r) /\
                              view (lx t1) = view (lx t2) /\ em t1 = em t2 /\ dc t1 = dc t2
  | Fatal, Fatal => True | UB, UB => True
  | _, _ => False
  end.
Proof.
  intros HW T S1 S2 V E D TB L L1 L2.
  pose proof (GetToken_fine W HW F1 s1 _ names S1 L1 TB L) as X1.
  pose proof (GetToken_fine W HW F2 s2 _ names S2 L2 (table_view W _ _ _ (eq_sym V) TB) L) as X2.
  destruct (GetToken_trivia W F1 F2 w cs s1 s2 T S1 S2 V E D) as [H|[H|H]].
  - rewrite H in X1. destruct X1.
  - rewrite H in X2. destruct X2.
  - destruct (GetToken W F1 s1) as [[a1 t1]| | |], (GetToken W F2 s2) as [[a2 t2]| | |]; cbn in H; try tauto; try (destruct X1); try (destruct X2).
    destruct H as (_ & [HR HV] & HE & HD). auto.
Qed.
Theorem GetToken_open_comment W F w body s : trivia w -> (forall a b, body <> a ++ [42; 47] ++ b) ->
  sees (lx s) (w ++ [47; 42] ++ body) -> (2 * length (w ++ [47; 42]%Z ++ body) + 1 < F)%nat -> GetToken W F s = Fatal.
Proof.
  intros T N S L. destruct (GetToken_skip W F s _ S) as [[H _]|H]; [lia|].
  rewrite skipws_open in H by assumption. exact H.
Qed.
Lemma comment_end_close a b : forall star, comment_end star (a ++ [42; 47] ++ b) <> None.
Proof.
  induction a as [|c a IH]; intros star; cbn [app comment_end].
  - change (42 =? ch_slash) with false. rewrite andb_false_r. change (42 =? ch_star) with true. change (47 =? ch_slash) with true. discriminate.
  - destruct (star && (c =? ch_slash)); [discriminate|apply IH].
Qed.
