(** Array declarators of scc.c and indexing, against TypeSpec.v. *)
From Verif Require Import Base SccState SccEmit SccLex SccDecl SccExpr SccStmt TypeSpec SccType.

(** one pair of brackets of a declarator with its bound [v] already parsed: what array_suffix
    (scc.c:2875-2907) does besides reading the tokens *)
Definition declare_bound (v : Z) : M cc unit :=
  SccState.bind open_array (fun af => SccState.bind (set_bound (fst af) v) (fun _ => close_array (fst af) (snd af))).
(** array_suffix is a loop of these steps *)
Lemma array_suffix_steps W F (r : recs) : array_suffix W F r =
  loopM F (fun _ : unit => SccState.bind (getl TokenType) (fun t =>
    if negb (t =? ch_lbrack) then ret (inr tt) else
    SccState.bind (next W F) (fun _ => SccState.bind open_array (fun af => SccState.bind (getl TokenType) (fun t =>
    SccState.bind (if negb (t =? ch_rbrack) then SccState.bind (pExpr r) (fun _ => SccState.bind (gete CurrentType) (fun ct =>
         SccState.bind (failif (negb (ct =? INTLIT))) (fun _ => SccState.bind (gete CurrentVal) (fun v => set_bound (fst af) v))))
       else updd (fun d => set_ADBound (aset (ADBound d) (fst af) 0) d)) (fun _ =>
    SccState.bind (Expect W F ch_rbrack) (fun _ => SccState.bind (close_array (fst af) (snd af)) (fun _ => ret (inl tt))))))))) tt.
Proof. reflexivity. Qed.
Fixpoint declare_bounds (l : list Z) : M cc unit :=
  match l with nil => ret tt | v :: r => SccState.bind (declare_bound v) (fun _ => declare_bounds r) end.

(** the type word [t] (extra [x]) is an array with bounds [dims], of elements with type bt, bx; the
    entries of the array table it uses are [used] *)
Fixpoint chain (d : dcst) (t x : Z) (dims : list Z) (bt bx : Z) : Prop :=
  match dims with
  | nil => t = bt /\ x = bx
  | n :: r => t = VT_ARRAY /\ 0 <= x < ArrayCount d /\ aget (ADBound d) x = n /\
      (r <> nil -> aget (ADExtra d) x < x) /\ chain d (aget (ADType d) x) (aget (ADExtra d) x) r bt bx
  end.
Lemma chain_ext d d' : forall dims t x bt bx, (dims <> nil -> forall i, i <= x -> aget (ADBound d') i = aget (ADBound d) i /\ aget (ADType d') i = aget (ADType d) i /\ aget (ADExtra d') i = aget (ADExtra d) i) ->
  ArrayCount d <= ArrayCount d' -> chain d t x dims bt bx -> chain d' t x dims bt bx.
Proof.
  induction dims as [|n r IH]; intros t x bt bx H C; cbn [chain]; [auto|].
  intros (H1 & H2 & H3 & H4 & H5). destruct (H ltac:(discriminate) x ltac:(lia)) as (-> & -> & ->).
  split; [exact H1|]. split; [lia|]. split; [exact H3|]. split; [exact H4|].
  apply IH; auto. intros Hr i Hi. apply H; [discriminate|]. specialize (H4 Hr). lia.
Qed.

(** the table entries such a type uses *)
Fixpoint on_chain (d : dcst) (x : Z) (dims : list Z) (i : Z) : Prop :=
  match dims with nil => False | _ :: r => i = x \/ on_chain d (aget (ADExtra d) x) r i end.
Lemma chain_below d : forall dims t x bt bx i, chain d t x dims bt bx -> on_chain d x dims i -> i <= x.
Proof.
  induction dims as [|n r IH]; intros t x bt bx i C O; cbn [chain on_chain] in *; [destruct O|].
  destruct C as (H1 & H2 & H3 & H4 & H5). destruct O as [->|O]; [lia|].
  specialize (IH _ _ _ _ _ H5 O). destruct r; [destruct O|]. specialize (H4 ltac:(discriminate)). lia.
Qed.
Lemma on_chain_ext d d' : ADExtra d' = ADExtra d -> forall dims x i, on_chain d' x dims i -> on_chain d x dims i.
Proof. intro E. induction dims as [|n r IH]; intros x i; cbn [on_chain]; [auto|]. rewrite E. intuition. Qed.
(** the new innermost bound goes to the end, the others move up; nothing else changes *)
Lemma move_ok : forall dims n d ad v bt bx, bt <> VT_ARRAY -> (length dims < n)%nat ->
  0 <= ad < ArrayCount d -> aget (ADBound d) ad = v -> (dims <> nil -> aget (ADExtra d) ad < ad) ->
  chain d (aget (ADType d) ad) (aget (ADExtra d) ad) dims bt bx ->
  exists b, move_bounds n ad d = Ok (tt, set_ADBound b d) /\
    chain (set_ADBound b d) VT_ARRAY ad (dims ++ [v]) bt bx /\
    (forall i, i <> ad -> ~ on_chain d (aget (ADExtra d) ad) dims i -> aget b i = aget (ADBound d) i).
Proof.
  induction dims as [|m r IH]; intros n d ad v bt bx Hb Hn Ha Hv Hx C; (destruct n as [|n]; [cbn [length] in Hn; lia|]).
  - cbn [chain] in C. destruct C as [C1 C2]. exists (ADBound d). cbn [move_bounds].
    unfold SccState.bind at 1. cbn [gets]. replace (aget (ADType d) ad =? VT_ARRAY) with false by lia.
    split; [destruct d; reflexivity|]. split; [|auto].
    cbn [app chain]. replace (set_ADBound (ADBound d) d) with d by (destruct d; reflexivity). ands4; auto; try lia; congruence.
  - cbn [chain] in C. destruct C as (C1 & C2 & C3 & C4 & C5). specialize (Hx ltac:(discriminate)).
    set (ad2 := aget (ADExtra d) ad) in *.
    cbn [move_bounds]. unfold SccState.bind at 1. cbn [gets]. rewrite C1. change (VT_ARRAY =? VT_ARRAY) with true. cbv iota.
    unfold SccState.bind at 1. cbn [gets]. fold ad2. unfold SccState.bind at 1. cbn [gets]. unfold SccState.bind at 1. cbn [gets].
    unfold SccState.bind at 1. cbn [upd]. unfold SccState.bind at 1. cbn [upd].
    rewrite Hv, C3.
    set (b1 := aset (aset (ADBound d) ad m) ad2 v). set (d1 := set_ADBound b1 d).
    change (set_ADBound (aset (ADBound (set_ADBound (aset (ADBound d) ad m) d)) ad2 v) (set_ADBound (aset (ADBound d) ad m) d)) with d1.
    destruct (IH n d1 ad2 v bt bx Hb) as (b & E & C & O).
    + cbn [length] in Hn. lia.
    + exact C2.
    + unfold d1, b1. cbn [set_ADBound ADBound]. apply aget_aset_same.
    + intro Hr. exact (C4 Hr).
    + change (aget (ADType d1) ad2) with (aget (ADType d) ad2). change (aget (ADExtra d1) ad2) with (aget (ADExtra d) ad2).
      eapply chain_ext; [| |exact C5]; [|apply Z.le_refl]. intros Hr i Hi. specialize (C4 Hr).
      split; [|auto]. unfold d1, b1. cbn [set_ADBound ADBound]. rewrite !aget_aset_other by lia. reflexivity.
    + assert (NB : forall i, ad2 < i -> aget b i = aget b1 i).
      { intros i Hi. apply O; [lia|]. intro K. assert (on_chain d1 ad2 (m :: r) i) as K' by (right; exact K).
        assert (on_chain d ad2 (m :: r) i) as K2 by (eapply on_chain_ext; [|exact K']; reflexivity).
        assert (i <= ad2); [|lia]. eapply (chain_below d (m :: r) VT_ARRAY ad2 bt bx); [|exact K2].
        cbn [chain]. auto. }
      exists b. split; [exact E|]. split.
      * change (set_ADBound b d) with (set_ADBound b d1). cbn [app chain]. split; [reflexivity|]. split; [exact Ha|].
        split. { cbn [set_ADBound ADBound]. rewrite NB by lia. unfold b1. rewrite aget_aset_other by lia. apply aget_aset_same. }
        split. { intros _. exact Hx. }
        change (aget (ADType (set_ADBound b d1)) ad) with (aget (ADType d) ad). rewrite C1.
        change (aget (ADExtra (set_ADBound b d1)) ad) with ad2. exact C.
      * intros i Hi N. rewrite O.
        -- unfold d1, b1. cbn [set_ADBound ADBound]. cbn [on_chain] in N. rewrite !aget_aset_other; auto.
        -- intro K. apply N. left. exact K.
        -- intro K. apply N. right. eapply on_chain_ext; [|exact K]. reflexivity.
Qed.
Lemma chain_len d : forall dims t x bt bx, chain d t x dims bt bx -> dims <> nil -> Z.of_nat (length dims) <= x + 1.
Proof.
  induction dims as [|n r IH]; intros t x bt bx C N; [congruence|]. cbn [chain] in C. destruct C as (H1 & H2 & H3 & H4 & H5).
  destruct r as [|m r]; [cbn [length]; lia|]. specialize (H4 ltac:(discriminate)). specialize (IH _ _ _ _ H5 ltac:(discriminate)).
  cbn [length] in *. lia.
Qed.

Definition ids (d : dcst) := (SMId d, StructCount d, StructMemCount d).
(** the whole declarator: bounds l after a base type *)
Lemma bound_ok v dims bt bx s : bt <> VT_ARRAY -> Z.land bt VT_STATIC = 0 -> 0 < v ->
  0 <= ArrayCount (dc s) < ARRAY_MAX ->
  chain (dc s) (clr (CurrentType (em s)) VT_STATIC) (CurrentTypeExtra (em s)) dims bt bx ->
  exists s', declare_bound v s = Ok (tt, s') /\ lx s' = lx s /\
    ArrayCount (dc s') = ArrayCount (dc s) + 1 /\
    chain (dc s') (clr (CurrentType (em s')) VT_STATIC) (CurrentTypeExtra (em s')) (dims ++ [v]) bt bx /\
    Z.land (CurrentType (em s')) VT_STATIC = Z.land (CurrentType (em s)) VT_STATIC /\
    CurrentTypeExtra (em s') = ArrayCount (dc s) /\ aget (ADExtra (dc s')) (ArrayCount (dc s)) = CurrentTypeExtra (em s) /\
    (forall i, i < ArrayCount (dc s) -> aget (ADType (dc s')) i = aget (ADType (dc s)) i /\ aget (ADExtra (dc s')) i = aget (ADExtra (dc s)) i) /\
    (forall i, i < ArrayCount (dc s) -> ~ on_chain (dc s) (CurrentTypeExtra (em s)) dims i -> aget (ADBound (dc s')) i = aget (ADBound (dc s)) i) /\
    SMType (dc s') = SMType (dc s) /\ SMExtra (dc s') = SMExtra (dc s) /\ SMNext (dc s') = SMNext (dc s) /\
    SDId (dc s') = SDId (dc s) /\ SDMembers (dc s') = SDMembers (dc s) /\ ids (dc s') = ids (dc s).
Proof.
  intros Hb Hs Hv Ha C. unfold declare_bound.
  set (ad := ArrayCount (dc s)) in *. set (ct := CurrentType (em s)) in *. set (cx := CurrentTypeExtra (em s)) in *.
  set (s1 := set_dc (set_ADType (aset (ADType (dc s)) ad (clr ct VT_STATIC)) (dc s)) s).
  set (s2 := set_dc (set_ADExtra (aset (ADExtra (dc s1)) ad cx) (dc s1)) s1).
  set (s3 := set_dc (set_ADBound (aset (ADBound (dc s2)) ad v) (dc s2)) s2).
  rewrite (bindE' _ _ s (ad, Z.land ct VT_STATIC) s2).
  2:{ unfold open_array. rewrite (bindE' _ _ s ad s) by reflexivity.
      replace (ad =? ARRAY_MAX) with false by lia. cbn [failif]. rewrite (bindE' _ _ s tt s) by reflexivity.
      rewrite (bindE' _ _ s ct s) by reflexivity. rewrite (bindE' _ _ s cx s) by reflexivity.
      rewrite (bindE' _ _ s tt s1) by reflexivity. rewrite (bindE' _ _ s1 tt s2) by reflexivity. reflexivity. }
  cbn [fst snd].
  rewrite (bindE' _ _ s2 tt s3).
  2:{ unfold set_bound. rewrite (bindE' _ _ s2 tt s3) by reflexivity. replace (v <=? 0) with false by lia. reflexivity. }
  unfold close_array.
  rewrite (bindE' _ _ s3 tt (set_em (set_CurrentType (Z.lor VT_ARRAY (Z.land ct VT_STATIC)) (em s3)) s3)) by reflexivity. set (s4 := set_em _ s3).
  rewrite (bindE' _ _ s4 ad s4) by reflexivity.
  rewrite (bindE' _ _ s4 tt (set_em (set_CurrentTypeExtra ad (em s4)) s4)) by reflexivity. set (s5 := set_em _ s4).
  rewrite (bindE' _ _ s5 tt (set_dc (set_ArrayCount (ad + 1) (dc s5)) s5)) by reflexivity. set (s6 := set_dc _ s5).
  assert (T6 : aget (ADType (dc s6)) ad = clr ct VT_STATIC) by apply aget_aset_same.
  assert (X6 : aget (ADExtra (dc s6)) ad = cx) by apply aget_aset_same.
  assert (B6 : aget (ADBound (dc s6)) ad = v) by apply aget_aset_same.
  assert (T6' : forall i, i < ad -> aget (ADType (dc s6)) i = aget (ADType (dc s)) i) by (intros i Hi; apply aget_aset_other; lia).
  assert (X6' : forall i, i < ad -> aget (ADExtra (dc s6)) i = aget (ADExtra (dc s)) i) by (intros i Hi; apply aget_aset_other; lia).
  assert (B6' : forall i, i < ad -> aget (ADBound (dc s6)) i = aget (ADBound (dc s)) i) by (intros i Hi; apply aget_aset_other; lia).
  assert (Cx : dims <> nil -> cx < ad).
  { intro N. destruct dims as [|n r]; [congruence|]. cbn [chain] in C. lia. }
  assert (C6 : chain (dc s6) (clr ct VT_STATIC) cx dims bt bx).
  { eapply chain_ext; [| |exact C]; [|change (ArrayCount (dc s6)) with (ad + 1); lia].
    intros N i Hi. specialize (Cx N). rewrite T6', X6', B6' by lia. auto. }
  destruct (move_ok dims (Datatypes.S (Z.to_nat ARRAY_MAX)) (dc s6) ad v bt bx Hb) as (b & E & C7 & O7).
  { destruct dims as [|n r]; [cbn [length]; lia|]. pose proof (chain_len _ _ _ _ _ _ C ltac:(discriminate)). specialize (Cx ltac:(discriminate)).
    change ARRAY_MAX with 32 in *. lia. }
  { change (ArrayCount (dc s6)) with (ad + 1). lia. }
  { exact B6. }
  { rewrite X6. exact Cx. }
  { rewrite T6, X6. exact C6. }
  exists (set_dc (set_ADBound b (dc s6)) s6). split. { unfold indc. rewrite E. reflexivity. }
  assert (ET : CurrentType (em s6) = Z.lor VT_ARRAY (Z.land ct VT_STATIC)) by reflexivity.
  assert (EX : CurrentTypeExtra (em s6) = ad) by reflexivity.
  cbn [lx dc em set_dc]. split; [reflexivity|]. split; [reflexivity|].
  rewrite ET, EX.
  split. { replace (clr (Z.lor VT_ARRAY (Z.land ct VT_STATIC)) VT_STATIC) with VT_ARRAY; [exact C7|].
    unfold clr. apply Z.bits_inj'. intros k Hk. rewrite Z.ldiff_spec, Z.lor_spec, Z.land_spec.
    destruct (Z.eq_dec k 11) as [->|Nk]; [cbn; rewrite !andb_false_r; reflexivity|].
    assert (Z.testbit VT_STATIC k = false) as -> by (change VT_STATIC with (2 ^ 11); apply Z.pow2_bits_false; lia).
    rewrite !andb_false_r, orb_false_r, andb_true_r. reflexivity. }
  split. { rewrite Z.land_lor_distr_l, <- Z.land_assoc. change (Z.land VT_ARRAY VT_STATIC) with 0. rewrite Z.lor_0_l, Z.land_diag. reflexivity. }
  split; [reflexivity|]. split; [exact X6|].
  split. { intros i Hi. rewrite <- (T6' i Hi), <- (X6' i Hi). split; reflexivity. }
  split. { intros i Hi N. cbn [set_ADBound ADBound]. rewrite O7; [apply B6'; exact Hi|lia|].
    rewrite X6. intro K. apply N. clear -K X6' Cx C. revert K. 
    assert (forall ds t x, chain (dc s) t x ds bt bx -> (ds <> nil -> x < ad) -> on_chain (dc s6) x ds i -> on_chain (dc s) x ds i) as G.
    { induction ds as [|n r IH]; intros t x Ch Hx; cbn [on_chain chain] in *; [auto|]. destruct Ch as (H1 & H2 & H3 & H4 & H5).
      specialize (Hx ltac:(discriminate)). rewrite X6' by assumption. intros [->|K]; [auto|]. right. eapply IH; [exact H5| |exact K].
      intro N. specialize (H4 N). lia. }
    eapply G; eassumption. }
  ands4; reflexivity.
Qed.

(** ** Declaring an array: the type it gets *)
Definition same_below (d d' : dcst) (a : Z) : Prop :=
  (forall i, i < a -> aget (ADBound d') i = aget (ADBound d) i /\ aget (ADType d') i = aget (ADType d) i /\ aget (ADExtra d') i = aget (ADExtra d) i) /\
  SMType d' = SMType d /\ SMExtra d' = SMExtra d /\ SMNext d' = SMNext d /\ SDId d' = SDId d /\ SDMembers d' = SDMembers d /\ ids d' = ids d.
(** the old entries of the tables are as they were *)
Definition extends (d d' : dcst) : Prop :=
  (forall i, i < ArrayCount d -> aget (ADBound d') i = aget (ADBound d) i /\ aget (ADType d') i = aget (ADType d) i /\ aget (ADExtra d') i = aget (ADExtra d) i) /\
  (forall i, i < StructMemCount d -> aget (SMId d') i = aget (SMId d) i /\ aget (SMType d') i = aget (SMType d) i /\
     aget (SMExtra d') i = aget (SMExtra d) i /\ aget (SMNext d') i = aget (SMNext d) i) /\
  (forall i, i < StructCount d -> aget (SDId d') i = aget (SDId d) i /\ aget (SDMembers d') i = aget (SDMembers d) i) /\
  ArrayCount d <= ArrayCount d' /\ StructMemCount d <= StructMemCount d' /\ StructCount d <= StructCount d'.
Lemma denotes_extends d d' : extends d d' -> forall T X t, denotes d T X t -> denotes d' T X t.
Proof.
  intros (A & B & C & L1 & L2 & L3).
  apply (denotes_ind2 d (fun T X t => denotes d' T X t) (fun sm ms => members d' sm ms)); intros.
  - apply den_ptr; assumption.
  - apply den_int; assumption.
  - apply den_char; assumption.
  - destruct (A X ltac:(lia)) as (A1 & A2 & A3). rewrite <- A1. apply den_arr; auto; try lia; congruence.
  - destruct (C X ltac:(lia)) as (C1 & C2). rewrite <- C1. apply den_rec; auto; try lia. rewrite C2. assumption.
  - apply mem_nil.
  - destruct (B (sm - 1) ltac:(lia)) as (B1 & B2 & B3 & B4). rewrite <- B1. apply mem_cons; try lia; congruence.
Qed.
Lemma extends_trans a b c : extends a b -> extends b c -> extends a c.
Proof.
  intros (A & B & C & L1 & L2 & L3) (A' & B' & C' & L1' & L2' & L3'). unfold extends.
  split; [|split; [|split; [|lia]]]; intros i Hi.
  - destruct (A' i ltac:(lia)) as (-> & -> & ->). auto.
  - destruct (B' i ltac:(lia)) as (-> & -> & -> & ->). auto.
  - destruct (C' i ltac:(lia)) as (-> & ->). auto.
Qed.
Lemma below_extends d d' : same_below d d' (ArrayCount d) -> ArrayCount d <= ArrayCount d' -> extends d d'.
Proof.
  intros (A & S1 & S2 & S3 & S4 & S5 & S6) L. unfold ids in S6. injection S6 as S6 S7 S8. unfold extends.
  rewrite S1, S2, S3, S4, S5, S6, S7, S8. split; [auto|]. split; [auto|]. split; [auto|]. lia.
Qed.
Lemma denotes_below d d' : same_below d d' (ArrayCount d) -> ArrayCount d <= ArrayCount d' ->
  forall T X t, denotes d T X t -> denotes d' T X t.
Proof. intros A L. apply denotes_extends. apply below_extends; assumption. Qed.
Lemma chain_denotes d : forall dims t x bt bx e, chain d t x dims bt bx -> Forall (fun n => 0 < n) dims ->
  denotes d bt bx e -> denotes d t x (array_of dims e).
Proof.
  induction dims as [|n r IH]; intros t x bt bx e C P D; cbn [chain array_of] in *.
  - destruct C as [-> ->]. exact D.
  - destruct C as (-> & H2 & <- & H4 & H5). inversion P; subst. apply den_arr; try reflexivity; try lia. eapply IH; eassumption.
Qed.
Fixpoint all_from (d : dcst) (a x : Z) (n : nat) : Prop :=
  match n with O => True | Datatypes.S n' => a <= x /\ all_from d a (aget (ADExtra d) x) n' end.
Lemma on_all d a : forall dims x i, all_from d a x (length dims) -> on_chain d x dims i -> a <= i.
Proof.
  induction dims as [|n r IH]; intros x i A O; cbn [all_from on_chain length] in *; [destruct O|].
  destruct A, O as [->|]; eauto.
Qed.
Lemma bounds_ok bt bx : bt <> VT_ARRAY -> Z.land bt VT_STATIC = 0 -> forall l dims s a0, Forall (fun n => 0 < n) l ->
  0 <= a0 -> ArrayCount (dc s) = a0 + Z.of_nat (length dims) -> ArrayCount (dc s) + Z.of_nat (length l) <= ARRAY_MAX ->
  chain (dc s) (clr (CurrentType (em s)) VT_STATIC) (CurrentTypeExtra (em s)) dims bt bx ->
  all_from (dc s) a0 (CurrentTypeExtra (em s)) (length dims) ->
  exists s', declare_bounds l s = Ok (tt, s') /\
    chain (dc s') (clr (CurrentType (em s')) VT_STATIC) (CurrentTypeExtra (em s')) (dims ++ l) bt bx /\
    Z.land (CurrentType (em s')) VT_STATIC = Z.land (CurrentType (em s)) VT_STATIC /\
    ArrayCount (dc s') = a0 + Z.of_nat (length (dims ++ l)) /\
    same_below (dc s) (dc s') a0.
Proof.
  intros Hb Hs. induction l as [|v l IH]; intros dims s a0 P A0 AC AL C AF.
  - rewrite app_nil_r. exists s. cbn [declare_bounds ret]. split; [reflexivity|]. split; [exact C|]. split; [reflexivity|].
    split; [exact AC|]. unfold same_below. ands4; auto.
  - inversion P as [|? ? Pv Pl]; subst. cbn [length] in AL.
    destruct (bound_ok v dims bt bx s Hb Hs Pv ltac:(lia) C) as (s1 & E1 & L1 & AC1 & C1 & S1 & X1 & NX & T1 & B1 & M1 & M2 & M3 & M4 & M5 & M6).
    assert (AF1 : all_from (dc s1) a0 (CurrentTypeExtra (em s1)) (length (dims ++ [v]))).
    { rewrite X1, app_length, Nat.add_comm. cbn [length Nat.add all_from]. split; [lia|]. rewrite NX.
      assert (G : forall ds t x, chain (dc s) t x ds bt bx -> all_from (dc s) a0 x (length ds) -> all_from (dc s1) a0 x (length ds)).
      { induction ds as [|n r IHr]; intros t x Ch Al; cbn [all_from chain length] in *; [auto|].
        destruct Ch as (Ch1 & Ch2 & Ch3 & Ch4 & Ch5). destruct Al as [Al1 Al2].
        destruct (T1 x ltac:(lia)) as [_ ->]. split; [exact Al1|]. eapply IHr; eassumption. }
      eapply G; eassumption. }
    destruct (IH (dims ++ [v]) s1 a0 Pl A0) as (s2 & E2 & C2 & S2 & AC2 & SB2).
    + rewrite AC1, AC, app_length. cbn [length]. lia.
    + lia.
    + exact C1.
    + exact AF1.
    + rewrite <- app_assoc in C2, AC2. cbn [app] in C2, AC2.
      exists s2. split. { cbn [declare_bounds]. rewrite (bindE' _ _ _ _ _ E1). exact E2. }
      split; [exact C2|]. split; [congruence|]. split; [exact AC2|].
      destruct SB2 as (Q0 & Q1 & Q2 & Q3 & Q4 & Q5 & Q6). unfold same_below. ands4; try congruence.
      intros i Hi. destruct (Q0 i Hi) as (-> & -> & ->). destruct (T1 i ltac:(lia)) as [-> ->]. ands4; auto.
      apply B1; [lia|]. intro K. pose proof (on_all _ _ _ _ _ AF K). lia.
Qed.
(** int a[d1]...[dk] is an array of d1 arrays of ... of the base type *)
Theorem array_declared s l bt bx e : clr (CurrentType (em s)) VT_STATIC = bt -> CurrentTypeExtra (em s) = bx ->
  bt <> VT_ARRAY -> denotes (dc s) bt bx e -> Forall (fun n => 0 < n) l ->
  0 <= ArrayCount (dc s) -> ArrayCount (dc s) + Z.of_nat (length l) <= ARRAY_MAX ->
  exists s', declare_bounds l s = Ok (tt, s') /\
    denotes (dc s') (clr (CurrentType (em s')) VT_STATIC) (CurrentTypeExtra (em s')) (array_of l e) /\
    Z.land (CurrentType (em s')) VT_STATIC = Z.land (CurrentType (em s)) VT_STATIC /\
    (forall T X t, denotes (dc s) T X t -> denotes (dc s') T X t).
Proof.
  intros Ht Hx Hb D P A0 AL.
  assert (Hs : Z.land bt VT_STATIC = 0).
  { subst bt. unfold clr. apply Z.bits_inj'. intros k Hk. rewrite Z.land_spec, Z.ldiff_spec, Z.bits_0.
    destruct (Z.testbit (CurrentType (em s)) k), (Z.testbit VT_STATIC k); reflexivity. }
  destruct (bounds_ok bt bx Hb Hs l nil s (ArrayCount (dc s)) P A0) as (s' & E & C & S & AC & SB).
  - cbn [length]. lia.
  - exact AL.
  - split; assumption.
  - exact I.
  - assert (K : forall T X t, denotes (dc s) T X t -> denotes (dc s') T X t).
    { apply denotes_below; [exact SB|]. rewrite AC. lia. }
    exists s'. split; [exact E|]. split; [|split; [exact S|exact K]].
    eapply chain_denotes; [exact C|exact P|]. apply K. exact D.
Qed.

(** ** Facts about row-major layout *)
Lemma size_array dims e : size (array_of dims e) = prod dims * size e.
Proof. induction dims as [|n r IH]; cbn [array_of prod size]; [lia|]. rewrite IH. lia. Qed.
Lemma prod_pos dims idx : in_bounds dims idx -> 0 < prod dims.
Proof. revert idx. induction dims as [|n r IH]; intros [|i is_] H; cbn [in_bounds prod] in *; try tauto; [lia|]. destruct H as [H1 H2]. specialize (IH _ H2). nia. Qed.
Lemma row_major_inside : forall dims idx sz, in_bounds dims idx -> 0 < sz -> 0 <= row_major dims idx sz /\ row_major dims idx sz + sz <= prod dims * sz.
Proof.
  induction dims as [|n r IH]; intros [|i is_] sz H Hs; cbn [in_bounds prod row_major] in *; try tauto; [lia|].
  destruct H as [H1 H2]. destruct (IH is_ sz H2 Hs). pose proof (prod_pos _ _ H2).
  set (p := prod r * sz) in *. set (q := row_major r is_ sz) in *. replace (n * prod r * sz) with (n * p) by (unfold p; ring).
  assert (0 < p) by (unfold p; nia). nia.
Qed.
Lemma row_major_apart : forall dims idx idx' sz, in_bounds dims idx -> in_bounds dims idx' -> 0 < sz -> idx <> idx' ->
  row_major dims idx sz + sz <= row_major dims idx' sz \/ row_major dims idx' sz + sz <= row_major dims idx sz.
Proof.
  induction dims as [|n r IH]; intros [|i is_] [|j js] sz H H' Hs N; cbn [in_bounds row_major] in *; try tauto.
  destruct H as [H1 H2], H' as [H1' H2']. pose proof (row_major_inside _ _ _ H2 Hs) as I. pose proof (row_major_inside _ _ _ H2' Hs) as I'.
  specialize (IH is_ js sz H2 H2' Hs).
  revert IH I I'. generalize (row_major r is_ sz) (row_major r js sz) (prod r * sz). intros q q' p IH I I'.
  destruct (Z.eq_dec i j) as [->|Nij].
  - destruct (IH ltac:(congruence)); [left|right]; lia.
  - assert (i + 1 <= j \/ j + 1 <= i) as [|] by lia; [left|right]; nia.
Qed.

(** ** Subscripts *)
Section Index.
Variables (W : Z) (F : nat) (r : recs).
(** between the brackets there is an integer constant: parsing it emits nothing *)
Definition constant_at (s s' : cc) (v : Z) : Prop :=
  exists s1, pExpr r s = Ok (tt, s1) /\ Expect W F ch_rbrack s1 = Ok (tt, s') /\ dc s' = dc s /\
    exists x, em s' = set_CurrentTypeExtra x (set_CurrentVal v (set_CurrentType INTLIT (em s))).
Lemma lor_clr_bit0 p : hasb p 1 = false -> clr (Z.lor p 1) 1 = p.
Proof.
  intro H. unfold hasb in H. apply negb_false_iff in H. apply Z.eqb_eq in H. unfold clr.
  apply Z.bits_inj'. intros k Hk. rewrite Z.ldiff_spec, Z.lor_spec.
  assert (Z.testbit (Z.land p 1) k = false) as B by (rewrite H; apply Z.bits_0). rewrite Z.land_spec in B.
  destruct (Z.testbit p k), (Z.testbit 1 k); auto; discriminate B.
Qed.

(** the state in which the index expression is parsed, when the array's address is in AX *)
Definition indexing (s : cc) : cc :=
  let x := CurrentTypeExtra (em s) in
  set_em (set_Pending (Z.lor (Pending (em s)) 1) (set_CurrentTypeExtra (aget (ADExtra (dc s)) x)
           (set_CurrentType (aget (ADType (dc s)) x) (em s)))) s.
(** the three parts of the subscript rule, scc.c:1898-1944, named so that each is followed alone *)
Definition idx_base : M cc Z :=
  SccState.bind (LvalToRval W) (fun _ => SccState.bind (gete CurrentType) (fun t => SccState.bind (failif (negb (hasb t VT_PTRMASK))) (fun _ =>
   SccState.bind (setT (t - VT_PTR1)) (fun _ => SccState.bind (gete IsDeadCode) (fun dead => SccState.bind (when (negb dead) setPushAx) (fun _ => ret 0)))))).
Definition idx_add (garr scale : Z) : M cc unit :=
  SccState.bind (gete CurrentType) (fun ct => if ct =? INTLIT then
   SccState.bind (if negb (garr =? 0) then SccState.bind (o1 W (Z.lor I_MOV_R_IMM16 R_AX)) (fun _ => inem (EmitGlobalRef W (garr - 1)))
        else SccState.bind hasPushAx (fun p => SccState.bind (failif (negb p)) (fun _ => clrPushAx))) (fun _ =>
   SccState.bind (gete CurrentVal) (fun v0 => inem (EmitAddRegConst W R_AX (ci W (v0 * scale))))) else
   SccState.bind (LvalToRval W) (fun _ => SccState.bind (gete CurrentType) (fun ct0 => SccState.bind hasPushAx (fun p =>
   SccState.bind (failif (negb (clr ct0 VT_UNSIGNED =? VT_INT) || p)) (fun _ => SccState.bind (inem (EmitScaleAx W scale)) (fun _ =>
   if negb (garr =? 0) then SccState.bind (o1 W (Z.lor I_ADD 5)) (fun _ => inem (EmitGlobalRef W (garr - 1))) else
   SccState.bind (GetStoredVal W (-1)) (fun reg => o2 W (Z.lor I_ADD 1) (Z.lor MODRM_REG (Z.shiftl reg 3))))))))).
Definition idx_tail (garr : Z) : M cc unit :=
  SccState.bind SizeofCurrentType (fun scale => SccState.bind (gete CurrentType) (fun rt => SccState.bind (gete CurrentTypeExtra) (fun rx =>
   SccState.bind (pExpr r) (fun _ => SccState.bind (Expect W F ch_rbrack) (fun _ => SccState.bind (gete IsDeadCode) (fun dead =>
   SccState.bind (when (negb dead) (idx_add garr scale)) (fun _ => SccState.bind (setT (Z.lor rt VT_LVAL)) (fun _ => SccState.bind (setX rx) (fun _ =>
   failif (hasb (Z.lor rt VT_LVAL) VT_LOCMASK)))))))))).
Lemma idx_split s s0 : next W F s = Ok (tt, s0) ->
  (Z.land (CurrentType (em s0)) (Z.lor VT_BASEMASK VT_LOCMASK) =? VT_ARRAY + VT_LOCGLOB) = false ->
  index_expr W F r s = SccState.bind idx_base idx_tail s0.
Proof.
  intros Hn HT. unfold index_expr. rewrite (bindE' _ _ _ _ _ Hn).
  rewrite (bindE' _ _ s0 (CurrentType (em s0)) s0) by reflexivity.
  rewrite (bindE' _ _ s0 (CurrentTypeExtra (em s0)) s0) by reflexivity.
  rewrite HT. unfold idx_base, idx_tail, idx_add. reflexivity.
Qed.
Lemma idx_base_ok s0 : CurrentType (em s0) = Z.lor VT_ARRAY VT_LVAL -> IsDeadCode (em s0) = false ->
  idx_base s0 = if hasb (aget (ADType (dc s0)) (CurrentTypeExtra (em s0)) + VT_PTR1) VT_PTRMASK then Ok (0, indexing s0) else Fatal.
Proof.
  intros HT Dead. unfold idx_base.
  set (x := CurrentTypeExtra (em s0)). set (at_ := aget (ADType (dc s0)) x). set (ax := aget (ADExtra (dc s0)) x).
  set (sd := set_em (set_CurrentTypeExtra ax (set_CurrentType (at_ + VT_PTR1) (em s0))) s0).
  assert (LV : LvalToRval W s0 = Ok (tt, sd)).
  { unfold LvalToRval. rewrite (bindE' _ _ s0 (Z.lor VT_ARRAY VT_LVAL) s0) by (rewrite <- HT; reflexivity).
    change (hasb (Z.lor VT_ARRAY VT_LVAL) VT_LVAL) with true. cbn [when]. reflexivity. }
  rewrite (bindE' _ _ _ _ _ LV). rewrite (bindE' _ _ sd (at_ + VT_PTR1) sd) by reflexivity.
  destruct (hasb (at_ + VT_PTR1) VT_PTRMASK); cbn [negb failif]; [|reflexivity].
  rewrite (bindE' _ _ sd tt sd) by reflexivity. replace (at_ + VT_PTR1 - VT_PTR1) with at_ by lia.
  rewrite (bindE' _ _ sd tt (set_em (set_CurrentType at_ (em sd)) sd)) by reflexivity.
  set (se := set_em _ sd). rewrite (bindE' _ _ se false se) by (unfold gete, gets; change (IsDeadCode (em se)) with (IsDeadCode (em s0)); rewrite Dead; reflexivity).
  reflexivity.
Qed.
Lemma idx_add_ok s1 e0 em1 scale v : em s1 = em1 -> CurrentType em1 = INTLIT -> CurrentVal em1 = v ->
  hasb (Pending em1) 1 = true -> set_Pending (clr (Pending em1) 1) em1 = e0 ->
  idx_add 0 scale s1
     = match EmitAddRegConst W R_AX (ci W (v * scale)) e0 with Ok (_, e1) => Ok (tt, set_em e1 s1) | Fatal => Fatal | UB => UB | OutOfFuel => OutOfFuel end.
Proof.
  intros K4 KT KV KP Ke. unfold idx_add.
  rewrite (bindE' _ _ s1 INTLIT s1) by (unfold gete, gets; rewrite K4, KT; reflexivity).
  change (INTLIT =? INTLIT) with true. change (negb (0 =? 0)) with false. cbv iota.
  rewrite (bindE' _ _ s1 tt (set_em e0 s1)).
  2:{ rewrite (bindE' _ _ s1 true s1) by (unfold hasPushAx, gete, gets; rewrite K4, KP; reflexivity).
      cbn [negb failif]. rewrite (bindE' _ _ s1 tt s1) by reflexivity.
      unfold clrPushAx, upde, upd. rewrite K4, Ke. reflexivity. }
  rewrite (bindE' _ _ (set_em e0 s1) v (set_em e0 s1)) by (unfold gete, gets; cbn [em set_em]; rewrite <- Ke; rewrite <- KV; reflexivity).
  unfold inem. cbn [em set_em]. destruct (EmitAddRegConst W R_AX (ci W (v * scale)) e0) as [[[] e1]| | |]; reflexivity.
Qed.
Lemma pend_has p : hasb (Z.lor p 1) 1 = true.
Proof.
  unfold hasb. rewrite Z.land_lor_distr_l. change (Z.land 1 1) with 1.
  destruct (Z.eqb_spec (Z.lor (Z.land p 1) 1) 0) as [Q|Q]; [|reflexivity].
  apply Z.lor_eq_0_iff in Q as [_ Q]. discriminate Q.
Qed.
Lemma pend_back e at_ ax y v : hasb (Pending e) 1 = false ->
  let em1 := set_CurrentTypeExtra y (set_CurrentVal v (set_CurrentType INTLIT (set_Pending (Z.lor (Pending e) 1) (set_CurrentTypeExtra ax (set_CurrentType at_ e))))) in
  set_Pending (clr (Pending em1) 1) em1 = set_CurrentTypeExtra y (set_CurrentVal v (set_CurrentType INTLIT e)).
Proof.
  intros H em1. change (Pending em1) with (Z.lor (Pending e) 1). rewrite lor_clr_bit0 by assumption. unfold em1. destruct e. reflexivity.
Qed.
Lemma idx_tail_ok s0 s1 v (sz : Z) (em1 e0 : emst) (at_ ax : Z) s2 :
  SizeofCurrentType s0 = Ok (sz, s0) -> CurrentType (em s0) = at_ -> CurrentTypeExtra (em s0) = ax ->
  pExpr r s0 = Ok (tt, s2) -> Expect W F ch_rbrack s2 = Ok (tt, s1) -> em s1 = em1 ->
  IsDeadCode em1 = false -> CurrentType em1 = INTLIT -> CurrentVal em1 = v ->
  hasb (Pending em1) 1 = true -> set_Pending (clr (Pending em1) 1) em1 = e0 ->
  idx_tail 0 s0 = match EmitAddRegConst W R_AX (ci W (v * sz)) e0 with
    | Ok (_, e1) => if hasb (Z.lor at_ VT_LVAL) VT_LOCMASK then Fatal
        else Ok (tt, set_em (set_CurrentTypeExtra ax (set_CurrentType (Z.lor at_ VT_LVAL) e1)) s1)
    | Fatal => Fatal | UB => UB | OutOfFuel => OutOfFuel end.
Proof.
  intros Sz Ta Xa K1 K2 K4 KD KT KV KP Ke. unfold idx_tail.
  rewrite (bindE' _ _ _ _ _ Sz).
  rewrite (bindE' _ _ s0 at_ s0) by (rewrite <- Ta; reflexivity).
  rewrite (bindE' _ _ s0 ax s0) by (rewrite <- Xa; reflexivity).
  rewrite (bindE' _ _ _ _ _ K1), (bindE' _ _ _ _ _ K2).
  rewrite (bindE' _ _ s1 false s1) by (unfold gete, gets; rewrite K4, KD; reflexivity).
  cbn [negb when]. pose proof (idx_add_ok s1 e0 em1 sz v K4 KT KV KP Ke) as A.
  destruct (EmitAddRegConst W R_AX (ci W (v * sz)) e0) as [[[] e1]| | |].
  2-4: unfold SccState.bind; rewrite A; reflexivity.
  rewrite (bindE' _ _ _ _ _ A).
  rewrite (bindE' _ _ (set_em e1 s1) tt (set_em (set_CurrentType (Z.lor at_ VT_LVAL) e1) s1)) by reflexivity.
  set (sf := set_em (set_CurrentType _ _) s1).
  rewrite (bindE' _ _ sf tt (set_em (set_CurrentTypeExtra ax (em sf)) sf)) by reflexivity.
  destruct (hasb (Z.lor at_ VT_LVAL) VT_LOCMASK); cbn [failif]; reflexivity.
Qed.
(** the state after the array's address has been put into AX, [e] being the emitter then *)
Definition at_base (sb : cc) (d : dcst) (x : Z) (e : emst) : Prop :=
  dc sb = d /\ em sb = set_Pending (Z.lor (Pending e) 1) (set_CurrentTypeExtra (aget (ADExtra d) x) (set_CurrentType (aget (ADType d) x) e)).
Lemma index_rest s0 sb x e s1 s' v n el :
  idx_base s0 = Ok (0, sb) -> at_base sb (dc s0) x e ->
  IsDeadCode e = false -> hasb (Pending e) 1 = false ->
  (exists T, denotes (dc s0) T x (TArr n el)) -> (depth el < sizeof_fuel)%nat -> narrow el ->
  constant_at sb s1 v ->
  SccState.bind idx_base idx_tail s0 = Ok (tt, s') ->
  exists e0 e1 T' x', EmitAddRegConst W R_AX (ci W (v * size el)) e0 = Ok (tt, e1) /\
    (exists y, e0 = set_CurrentTypeExtra y (set_CurrentVal v (set_CurrentType INTLIT e))) /\
    em s' = set_CurrentTypeExtra x' (set_CurrentType T' e1) /\ dc s' = dc s0 /\
    denotes (dc s0) T' x' el /\ Z.land T' VT_LOCMASK = 0 /\ hasb T' VT_LVAL = true.
Proof.
  intros B [Bd Be] Dead Pend [T0 D] Hd Hw (s2 & K1 & K2 & K3 & y & K4) H.
  rewrite (bindE' _ _ _ _ _ B) in H. clear B.
  remember (aget (ADType (dc s0)) x) as at_ eqn:Eat.
  remember (aget (ADExtra (dc s0)) x) as ax eqn:Eax.
  assert (De : denotes (dc s0) at_ ax el). { inversion D; subst; assumption. }
  rewrite Be in K4.
  assert (Sz : SizeofCurrentType sb = Ok (size el, sb)).
  { unfold SizeofCurrentType. rewrite (bindE' _ _ sb at_ sb) by (unfold gete, gets; rewrite Be; reflexivity).
    rewrite (bindE' _ _ sb ax sb) by (unfold gete, gets; rewrite Be; reflexivity).
    unfold indc. rewrite Bd. rewrite (SizeofType_ok _ _ _ _ De Hd Hw). rewrite <- Bd. destruct sb; reflexivity. }
  pose proof (idx_tail_ok sb s1 v (size el) _ _ at_ ax s2 Sz ltac:(rewrite Be; reflexivity) ltac:(rewrite Be; reflexivity)
    K1 K2 K4 Dead eq_refl eq_refl (pend_has _) (pend_back e at_ ax y v Pend)) as T.
  rewrite T in H. clear T.
  set (e0 := set_CurrentTypeExtra y (set_CurrentVal v (set_CurrentType INTLIT e))) in *.
  destruct (EmitAddRegConst W R_AX (ci W (v * size el)) e0) as [[[] e1]| | |] eqn:EA; [|discriminate H..].
  destruct (hasb (Z.lor at_ VT_LVAL) VT_LOCMASK) eqn:Hl; [discriminate H|].
  apply ok_snd in H. subst s'.
  exists e0, e1, (Z.lor at_ VT_LVAL), ax. ands4.
  - exact EA.
  - exists y. reflexivity.
  - reflexivity.
  - change (dc s1 = dc s0). congruence.
  - apply denotes_lor; [reflexivity|]. exact De.
  - unfold hasb in Hl. apply negb_false_iff in Hl. apply Z.eqb_eq in Hl. exact Hl.
  - unfold hasb. rewrite Z.land_lor_distr_l. change (Z.land VT_LVAL VT_LVAL) with VT_LVAL.
    destruct (Z.eqb_spec (Z.lor (Z.land at_ VT_LVAL) VT_LVAL) 0) as [Q|Q]; [|reflexivity].
    apply Z.lor_eq_0_iff in Q as [_ Q]. discriminate Q.
Qed.
(** a[v] with the address of the array in AX: v times the element size is added, and the element
    has the element type *)
Theorem index_address s s0 s1 s' v n el :
  next W F s = Ok (tt, s0) -> CurrentType (em s0) = Z.lor VT_ARRAY VT_LVAL ->
  denotes (dc s0) (CurrentType (em s0)) (CurrentTypeExtra (em s0)) (TArr n el) ->
  (depth el < sizeof_fuel)%nat -> narrow el ->
  IsDeadCode (em s0) = false -> hasb (Pending (em s0)) 1 = false ->
  constant_at (indexing s0) s1 v ->
  index_expr W F r s = Ok (tt, s') ->
  exists e0 e1 T' x', EmitAddRegConst W R_AX (ci W (v * size el)) e0 = Ok (tt, e1) /\
    (* e0 is the emitter state before, but for the type of the current operand *)
    (exists y, e0 = set_CurrentTypeExtra y (set_CurrentVal v (set_CurrentType INTLIT (em s0)))) /\
    em s' = set_CurrentTypeExtra x' (set_CurrentType T' e1) /\ dc s' = dc s0 /\
    denotes (dc s0) T' x' el /\ Z.land T' VT_LOCMASK = 0 /\ hasb T' VT_LVAL = true.
Proof.
  intros Hn HT D Hd Hw Dead Pend K H.
  rewrite (idx_split _ _ Hn) in H by (rewrite HT; reflexivity). pose proof (idx_base_ok _ HT Dead) as B.
  destruct (hasb _ VT_PTRMASK) in B.
  2:{ unfold SccState.bind in H. rewrite B in H. discriminate H. }
  eapply (index_rest s0 (indexing s0) (CurrentTypeExtra (em s0)) (em s0)); try eassumption.
  - split; reflexivity.
  - eexists. exact D.
Qed.
(** the same for an array variable in the frame: first its address is loaded *)
Definition frame_array : Z := Z.lor (Z.lor VT_ARRAY VT_LVAL) VT_LOCOFF.
Definition indexing_at (s : cc) (e : emst) : cc :=
  let x := CurrentTypeExtra (em s) in
  set_em (set_Pending (Z.lor (Pending e) 1) (set_CurrentType (aget (ADType (dc s)) x) e)) s.
Lemma idx_base_frame s0 : CurrentType (em s0) = frame_array ->
  let x := CurrentTypeExtra (em s0) in
  match EmitLoadAddr W R_AX VT_LOCOFF (CurrentVal (em s0)) (set_CurrentTypeExtra (aget (ADExtra (dc s0)) x) (set_CurrentType (aget (ADType (dc s0)) x + VT_PTR1) (em s0))) with
  | Ok (_, e) => CurrentType e = aget (ADType (dc s0)) x + VT_PTR1 -> IsDeadCode e = false ->
      idx_base s0 = if hasb (aget (ADType (dc s0)) x + VT_PTR1) VT_PTRMASK then Ok (0, indexing_at s0 e) else Fatal
  | Fatal => idx_base s0 = Fatal | UB => idx_base s0 = UB | OutOfFuel => idx_base s0 = OutOfFuel
  end.
Proof.
  intros HT x. unfold idx_base.
  set (at_ := aget (ADType (dc s0)) x). set (ax := aget (ADExtra (dc s0)) x).
  set (sd := set_em (set_CurrentTypeExtra ax (set_CurrentType (at_ + VT_PTR1) (em s0))) s0).
  assert (LV : LvalToRval W s0 = inem (EmitLoadAddr W R_AX VT_LOCOFF (CurrentVal (em s0))) sd).
  { unfold LvalToRval. rewrite (bindE' _ _ s0 frame_array s0) by (rewrite <- HT; reflexivity).
    change (hasb frame_array VT_LVAL) with true. cbn [when]. reflexivity. }
  unfold inem in LV. change (em sd) with (set_CurrentTypeExtra ax (set_CurrentType (at_ + VT_PTR1) (em s0))) in LV.
  destruct (EmitLoadAddr W R_AX VT_LOCOFF (CurrentVal (em s0)) (set_CurrentTypeExtra ax (set_CurrentType (at_ + VT_PTR1) (em s0)))) as [[[] e]| | |];
    [|unfold SccState.bind; rewrite LV; reflexivity..].
  intros HT' Dead.
  rewrite (bindE' _ _ _ _ _ LV). set (se := set_em e sd).
  rewrite (bindE' _ _ se (at_ + VT_PTR1) se) by (rewrite <- HT'; reflexivity).
  destruct (hasb (at_ + VT_PTR1) VT_PTRMASK); cbn [negb failif]; [|reflexivity].
  rewrite (bindE' _ _ se tt se) by reflexivity. replace (at_ + VT_PTR1 - VT_PTR1) with at_ by lia.
  rewrite (bindE' _ _ se tt (set_em (set_CurrentType at_ (em se)) se)) by reflexivity.
  set (sg := set_em _ se). rewrite (bindE' _ _ sg false sg) by (unfold gete, gets; change (IsDeadCode (em sg)) with (IsDeadCode e); rewrite Dead; reflexivity).
  reflexivity.
Qed.
Theorem index_frame s s0 s1 s' v n el :
  next W F s = Ok (tt, s0) -> CurrentType (em s0) = frame_array ->
  let x := CurrentTypeExtra (em s0) in
  denotes (dc s0) (CurrentType (em s0)) x (TArr n el) ->
  (depth el < sizeof_fuel)%nat -> narrow el ->
  let ea := set_CurrentTypeExtra (aget (ADExtra (dc s0)) x) (set_CurrentType (aget (ADType (dc s0)) x + VT_PTR1) (em s0)) in
  (forall e, EmitLoadAddr W R_AX VT_LOCOFF (CurrentVal (em s0)) ea = Ok (tt, e) ->
     IsDeadCode e = false /\ hasb (Pending e) 1 = false /\ CurrentType e = CurrentType ea /\ CurrentTypeExtra e = CurrentTypeExtra ea /\
     constant_at (indexing_at s0 e) s1 v) ->
  index_expr W F r s = Ok (tt, s') ->
  exists e e0 e1 T' x', EmitLoadAddr W R_AX VT_LOCOFF (CurrentVal (em s0)) ea = Ok (tt, e) /\
    EmitAddRegConst W R_AX (ci W (v * size el)) e0 = Ok (tt, e1) /\
    (exists y, e0 = set_CurrentTypeExtra y (set_CurrentVal v (set_CurrentType INTLIT e))) /\
    em s' = set_CurrentTypeExtra x' (set_CurrentType T' e1) /\ dc s' = dc s0 /\
    denotes (dc s0) T' x' el /\ Z.land T' VT_LOCMASK = 0 /\ hasb T' VT_LVAL = true.
Proof.
  intros Hn HT x D Hd Hw ea K H.
  rewrite (idx_split _ _ Hn) in H by (rewrite HT; reflexivity). pose proof (idx_base_frame _ HT) as B. cbv zeta in B. fold x in B. fold ea in B.
  destruct (EmitLoadAddr W R_AX VT_LOCOFF (CurrentVal (em s0)) ea) as [[[] e]| | |] eqn:EL;
    [|unfold SccState.bind in H; rewrite B in H; discriminate H..].
  destruct (K e eq_refl) as (K1 & K2 & K3 & K4 & K5). specialize (B K3 K1).
  destruct (hasb _ VT_PTRMASK) in B.
  2:{ unfold SccState.bind in H. rewrite B in H. discriminate H. }
  destruct (index_rest s0 (indexing_at s0 e) x e s1 s' v n el B) as (e0 & e1 & T' & x' & R); try assumption.
  - split; [reflexivity|]. unfold indexing_at. cbn [em set_em].
    replace (set_CurrentTypeExtra (aget (ADExtra (dc s0)) x) (set_CurrentType (aget (ADType (dc s0)) x) e)) with (set_CurrentType (aget (ADType (dc s0)) x) e).
    + reflexivity.
    + change (CurrentTypeExtra ea) with (aget (ADExtra (dc s0)) x) in K4. rewrite <- K4. destruct e. reflexivity.
  - eexists. exact D.
  - exists e, e0, e1, T', x'. split; [reflexivity|exact R].
Qed.
End Index.
