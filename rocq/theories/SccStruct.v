(** Struct and union declarations of scc.c, against TypeSpec.v. *)
From Verif Require Import Base SccState SccEmit SccLex SccDecl SccExpr SccStmt TypeSpec SccType SccArray.

(** a member declaration: the name, the type word and extra word of its specifiers and stars, and
    the bounds after the name *)
Record mdecl := mkmd { m_id : Z; m_type : Z; m_extra : Z; m_dims : list Z }.

(** ** The steps of a struct declaration: what struct_spec (scc.c:2733-2790) does besides reading the tokens *)
(** the declarator of a member: its name is stored in the member, its bounds make arrays (scc.c:2809-2907) *)
Definition member_declarator (m : mdecl) (sm : Z) : M cc unit :=
  SccState.bind (setT (m_type m)) (fun _ => SccState.bind (setX (m_extra m)) (fun _ =>
  SccState.bind (updd (fun d => set_SMId (aset (SMId d) sm (m_id m)) d)) (fun _ => declare_bounds (m_dims m)))).
Definition declare_member (si last : Z) (m : mdecl) : M cc Z :=
  SccState.bind alloc_member (fun sm => SccState.bind (member_declarator m sm) (fun _ =>
  SccState.bind (record_member si last sm) (fun _ => ret (sm + 1)))).
Fixpoint declare_members (si last : Z) (l : list mdecl) : M cc Z :=
  match l with nil => ret last | m :: r => SccState.bind (declare_member si last m) (fun last' => declare_members si last' r) end.
(** scc.c:2784-2790 *)
Definition close_struct (si last : Z) : M cc unit :=
  SccState.bind (set_last si last 0) (fun _ => SccState.bind (setX si) (fun _ => setT VT_STRUCT)).
Definition declare_struct (tag : Z) (l : list mdecl) : M cc unit :=
  SccState.bind (open_struct tag) (fun si => SccState.bind (declare_members si 0 l) (fun last => close_struct si last)).


Section Struct.
Variables (si n0 tag : Z).
(** the tables without the struct being declared *)
Definition base (d : dcst) : dcst := set_StructCount si (set_StructMemCount n0 d).
Definition ent (d : dcst) (sm i : Z) (t : cty) : Prop :=
  n0 < sm <= StructMemCount d /\ aget (SMId d) (sm - 1) = i /\ Z.land (aget (SMType d) (sm - 1)) VT_LOCMASK = 0 /\
  denotes (base d) (aget (SMType d) (sm - 1)) (aget (SMExtra d) (sm - 1)) t.
(** members from sm to the last one, whose link to the next does not matter yet *)
Fixpoint seg (d : dcst) (sm last : Z) (ms : list (Z * cty)) : Prop :=
  match ms with
  | nil => False
  | (i, t) :: r => ent d sm i t /\
      match r with nil => sm = last | _ => sm < aget (SMNext d) (sm - 1) <= last /\ seg d (aget (SMNext d) (sm - 1)) last r end
  end.
Lemma seg_cons d sm last i t m r : seg d sm last ((i, t) :: m :: r) =
  (ent d sm i t /\ sm < aget (SMNext d) (sm - 1) <= last /\ seg d (aget (SMNext d) (sm - 1)) last (m :: r)).
Proof. reflexivity. Qed.
Lemma seg_le d : forall ms sm last, seg d sm last ms -> n0 < sm <= last /\ last <= StructMemCount d.
Proof.
  induction ms as [|[i t] [|m r] IH]; intros sm last H; [destruct H| |].
  - destruct H as [E ->]. unfold ent in E. lia.
  - rewrite seg_cons in H. destruct H as (E & L & R). destruct (IH _ _ R) as [? ?]. unfold ent in E. lia.
Qed.
Lemma seg_ext d d' : extends (base d) (base d') -> StructMemCount d <= StructMemCount d' ->
  forall ms sm last, seg d sm last ms ->
  (forall k, n0 < k <= last -> aget (SMId d') (k - 1) = aget (SMId d) (k - 1) /\ aget (SMType d') (k - 1) = aget (SMType d) (k - 1) /\
     aget (SMExtra d') (k - 1) = aget (SMExtra d) (k - 1)) ->
  (forall k, n0 < k < last -> aget (SMNext d') (k - 1) = aget (SMNext d) (k - 1)) ->
  seg d' sm last ms.
Proof.
  intros X L. 
  assert (En : forall sm i t last, ent d sm i t -> sm <= last -> (forall k, n0 < k <= last -> aget (SMId d') (k - 1) = aget (SMId d) (k - 1) /\ aget (SMType d') (k - 1) = aget (SMType d) (k - 1) /\
     aget (SMExtra d') (k - 1) = aget (SMExtra d) (k - 1)) -> ent d' sm i t).
  { intros sm i t last (E1 & E2 & E3 & E4) Hl K. destruct (K sm ltac:(lia)) as (K1 & K2 & K3). unfold ent. rewrite K1, K2, K3.
    split; [lia|]. split; [exact E2|]. split; [exact E3|]. eapply denotes_extends; eassumption. }
  induction ms as [|[i t] [|m r] IH]; intros sm last H K N; [destruct H| |].
  - destruct H as [E ->]. split; [|reflexivity]. eapply En; eauto. lia.
  - rewrite seg_cons in *. destruct H as (E & L1 & R). destruct E as (E1 & E2). 
    pose proof (seg_le _ _ _ _ R). rewrite (N sm) by lia.
    split; [eapply En; [split; [exact E1|exact E2]| |exact K]; lia|]. split; [exact L1|]. apply IH; assumption.
Qed.
Lemma seg_snoc d i t : forall ms sm last, seg d sm last ms -> aget (SMNext d) (last - 1) = last + 1 -> ent d (last + 1) i t ->
  seg d sm (last + 1) (ms ++ [(i, t)]).
Proof.
  induction ms as [|[j u] [|m r] IH]; intros sm last H N E; [destruct H| |].
  - destruct H as [H ->]. cbn [app]. rewrite seg_cons. rewrite N. split; [exact H|]. split; [lia|]. split; [exact E|reflexivity].
  - rewrite seg_cons in H. destruct H as (H & L & R). cbn [app]. rewrite seg_cons.
    split; [exact H|]. split; [lia|]. apply (IH _ _ R N E).
Qed.
Lemma seg_close d : extends (base d) d -> 0 <= n0 -> forall ms sm last, seg d sm last ms -> aget (SMNext d) (last - 1) = 0 -> members d sm ms.
Proof.
  intros X N0. induction ms as [|[i t] [|m r] IH]; intros sm last H N; [destruct H| |].
  - destruct H as [(E1 & <- & E3 & E4) ->]. apply mem_cons; [lia|exact E3|eapply denotes_extends; eassumption|]. rewrite N. apply mem_nil.
  - rewrite seg_cons in H. destruct H as ((E1 & <- & E3 & E4) & L & R).
    apply mem_cons; [lia|exact E3|eapply denotes_extends; eassumption|]. eapply IH; eassumption.
Qed.

(** the tables while a struct is being declared: [ms] are its members so far *)
Definition building (d0 d : dcst) (last : Z) (ms : list (Z * cty)) : Prop :=
  extends d0 (base d) /\ StructCount d = si + 1 /\ aget (SDId d) si = tag /\
  StructMemCount d = n0 + Z.of_nat (length ms) /\
  (ms = nil /\ last = 0 \/ last = StructMemCount d /\ seg d (aget (SDMembers d) si) last ms).
(** the declared type [t] of a member declaration *)
Definition declares (d : dcst) (m : mdecl) (im : Z * cty) : Prop :=
  0 <= m_id m /\ m_id m = fst im /\ Z.land (m_type m) (Z.lor VT_STATIC VT_LOCMASK) = 0 /\ m_type m <> VT_ARRAY /\
  Forall (fun n => 0 < n) (m_dims m) /\ exists e, denotes d (m_type m) (m_extra m) e /\ snd im = array_of (m_dims m) e.

Lemma clr_none x : Z.land x (Z.lor VT_STATIC VT_LOCMASK) = 0 -> clr x VT_STATIC = x /\ Z.land x VT_STATIC = 0 /\ Z.land x VT_LOCMASK = 0.
Proof.
  intro H. rewrite Z.land_lor_distr_r in H. apply Z.lor_eq_0_iff in H as [H1 H2]. split; [|auto]. unfold clr.
  apply Z.bits_inj'. intros k Hk. rewrite Z.ldiff_spec.
  assert (B : Z.testbit (Z.land x VT_STATIC) k = false) by (rewrite H1; apply Z.bits_0). rewrite Z.land_spec in B.
  destruct (Z.testbit x k), (Z.testbit VT_STATIC k); auto; discriminate B.
Qed.
Lemma clr_static_id x : Z.land x VT_STATIC = 0 -> clr x VT_STATIC = x.
Proof.
  intro H. unfold clr. apply Z.bits_inj'. intros k Hk. rewrite Z.ldiff_spec.
  assert (B : Z.testbit (Z.land x VT_STATIC) k = false) by (rewrite H; apply Z.bits_0). rewrite Z.land_spec in B.
  destruct (Z.testbit x k), (Z.testbit VT_STATIC k); auto; discriminate B.
Qed.
Lemma member_step d0 s last ms m im : 0 <= n0 -> 0 <= si -> building d0 (dc s) last ms -> declares d0 m im ->
  StructMemCount (dc s) < STRUCT_MEMBER_MAX -> 0 <= ArrayCount (dc s) ->
  ArrayCount (dc s) + Z.of_nat (length (m_dims m)) <= ARRAY_MAX ->
  exists s', declare_member si last m s = Ok (StructMemCount (dc s) + 1, s') /\
    building d0 (dc s') (StructMemCount (dc s) + 1) (ms ++ [im]) /\
    ArrayCount (dc s') = ArrayCount (dc s) + Z.of_nat (length (m_dims m)).
Proof.
  intros N0 SI (X & SC & Tg & MC & Hl) (Hi & Him & HT & HA & HD & e & De & Et) LM A0 AM.
  destruct im as [i t]. cbn [fst snd] in *. subst i t.
  destruct (clr_none _ HT) as (C1 & C2 & C3).
  unfold declare_member, alloc_member. set (sm := StructMemCount (dc s)) in *.
  set (s1 := set_dc (set_StructMemCount (sm + 1) (dc s)) s).
  rewrite (bindE' _ _ s sm s1).
  2:{ rewrite (bindE' _ _ s sm s) by reflexivity. replace (sm =? STRUCT_MEMBER_MAX) with false by lia. cbn [failif]. reflexivity. }
  set (s2 := set_dc (set_SMId (aset (SMId (dc s1)) sm (m_id m)) (dc s1)) (set_em (set_CurrentTypeExtra (m_extra m) (set_CurrentType (m_type m) (em s1))) s1)).
  assert (A2 : ArrayCount (dc s2) = ArrayCount (dc s)) by reflexivity.
  destruct (bounds_ok (m_type m) (m_extra m) HA C2 (m_dims m) nil s2 (ArrayCount (dc s2)) HD) as (s3 & E3 & Ch & S3 & AC & SB).
  { rewrite A2. exact A0. } { cbn [length]. lia. } { rewrite A2. exact AM. }
  { split; [exact C1|reflexivity]. } { exact I. }
  cbn [app] in Ch, AC. change (CurrentType (em s2)) with (m_type m) in S3. rewrite C2 in S3.
  rewrite (clr_static_id _ S3) in Ch.
  rewrite (bindE' _ _ s1 tt s3).
  2:{ unfold member_declarator.
      rewrite (bindE' _ _ s1 tt (set_em (set_CurrentType (m_type m) (em s1)) s1)) by reflexivity. set (sa := set_em _ s1).
      rewrite (bindE' _ _ sa tt (set_em (set_CurrentTypeExtra (m_extra m) (em sa)) sa)) by reflexivity. set (sb := set_em _ sa).
      rewrite (bindE' _ _ sb tt s2) by reflexivity. exact E3. }
  clear E3.
  assert (SBx : same_below (dc s2) (dc s3) (ArrayCount (dc s2))) by exact SB.
  destruct SB as (B0 & B1 & B2 & B3 & B4 & B5 & B6). unfold ids in B6. injection B6 as B6 B7 B8.
  set (ct := CurrentType (em s3)) in *. set (cx := CurrentTypeExtra (em s3)) in *.
  set (s4 := set_dc (set_SMType (aset (SMType (dc s3)) sm ct) (dc s3)) s3).
  set (s5 := set_dc (set_SMExtra (aset (SMExtra (dc s4)) sm cx) (dc s4)) s4).
  set (s6 := if last =? 0 then set_dc (set_SDMembers (aset (SDMembers (dc s5)) si (sm + 1)) (dc s5)) s5
             else set_dc (set_SMNext (aset (SMNext (dc s5)) (last - 1) (sm + 1)) (dc s5)) s5).
  assert (Id3 : aget (SMId (dc s3)) sm = m_id m) by (rewrite B6; change (SMId (dc s2)) with (aset (SMId (dc s)) sm (m_id m)); apply aget_aset_same; lia).
  rewrite (bindE' _ _ s3 tt s6).
  2:{ unfold record_member. rewrite (bindE' _ _ s3 (m_id m) s3) by (rewrite <- Id3; reflexivity).
      replace (m_id m <? 0) with false by lia. cbn [failif]. rewrite (bindE' _ _ s3 tt s3) by reflexivity.
      rewrite (bindE' _ _ s3 ct s3) by reflexivity. rewrite (bindE' _ _ s3 cx s3) by reflexivity.
      rewrite (bindE' _ _ s3 tt s4) by reflexivity. rewrite (bindE' _ _ s4 tt s5) by reflexivity.
      unfold set_last, s6. destruct (last =? 0); reflexivity. }
  exists s6. split; [reflexivity|].
  (* the tables of s6 *)
  assert (F1 : SMId (dc s6) = aset (SMId (dc s)) sm (m_id m)) by (unfold s6; destruct (last =? 0); exact B6).
  assert (F2 : SMType (dc s6) = aset (SMType (dc s)) sm ct) by (unfold s6; destruct (last =? 0);
    (change (aset (SMType (dc s3)) sm ct = aset (SMType (dc s)) sm ct); rewrite B1; reflexivity)).
  assert (F3 : SMExtra (dc s6) = aset (SMExtra (dc s)) sm cx) by (unfold s6; destruct (last =? 0);
    (change (aset (SMExtra (dc s3)) sm cx = aset (SMExtra (dc s)) sm cx); rewrite B2; reflexivity)).
  assert (F4 : SDId (dc s6) = SDId (dc s)) by (unfold s6; destruct (last =? 0); exact B4).
  assert (F5 : StructCount (dc s6) = si + 1) by (rewrite <- SC; unfold s6; destruct (last =? 0); exact B7).
  assert (F6 : StructMemCount (dc s6) = sm + 1) by (unfold s6; destruct (last =? 0); exact B8).
  assert (F7 : ArrayCount (dc s6) = ArrayCount (dc s) + Z.of_nat (length (m_dims m))) by (rewrite <- A2; unfold s6; destruct (last =? 0); exact AC).
  assert (F8 : ADBound (dc s6) = ADBound (dc s3) /\ ADType (dc s6) = ADType (dc s3) /\ ADExtra (dc s6) = ADExtra (dc s3) /\ ArrayCount (dc s6) = ArrayCount (dc s3))
    by (unfold s6; destruct (last =? 0); ands4; reflexivity).
  assert (F9 : SMNext (dc s6) = if last =? 0 then SMNext (dc s) else aset (SMNext (dc s)) (last - 1) (sm + 1)).
  { unfold s6. destruct (last =? 0); [exact B3|]. change (aset (SMNext (dc s3)) (last - 1) (sm + 1) = aset (SMNext (dc s)) (last - 1) (sm + 1)). rewrite B3. reflexivity. }
  assert (F10 : SDMembers (dc s6) = if last =? 0 then aset (SDMembers (dc s)) si (sm + 1) else SDMembers (dc s)).
  { unfold s6. destruct (last =? 0); [|exact B5]. change (aset (SDMembers (dc s3)) si (sm + 1) = aset (SDMembers (dc s)) si (sm + 1)). rewrite B5. reflexivity. }
  assert (Hlast : last = 0 \/ n0 < last).
  { destruct Hl as [[_ ?]|[-> Sg]]; [auto|]. right. pose proof (seg_le _ _ _ _ Sg). lia. }
  assert (Ch6 : chain (dc s6) ct cx (m_dims m) (m_type m) (m_extra m)).
  { destruct F8 as (G1 & G2 & G3 & G4). eapply (chain_ext (dc s3)); [| |exact Ch]; [|rewrite G4; lia].
    intros _ j _. rewrite G1, G2, G3. auto. }
  clear SBx.
  assert (Ex : extends (base (dc s)) (base (dc s6))).
  { unfold extends, base. cbn [ArrayCount StructMemCount StructCount set_StructCount set_StructMemCount ADBound ADType ADExtra SMId SMType SMExtra SMNext SDId SDMembers].
    destruct F8 as (G1 & G2 & G3 & G4). rewrite F1, F2, F3, F4, F9, F10, G1, G2, G3, F7. ands4; try lia.
    - intros j Hj. apply (B0 j). rewrite A2. exact Hj.
    - intros j Hj. rewrite !aget_aset_other by lia. ands4; try reflexivity.
      destruct Hlast as [->|]; [reflexivity|]. replace (last =? 0) with false by lia. rewrite aget_aset_other by lia. reflexivity.
    - intros j Hj. split; [reflexivity|]. destruct (last =? 0); [|reflexivity]. rewrite aget_aset_other by lia. reflexivity. }
  clearbody s6. clear F8 B0 B1 B2 B3 B4 B5 B6 B7 B8 Ch.
  split; [|exact F7]. unfold building.
  split; [eapply extends_trans; eassumption|]. split; [exact F5|]. split; [rewrite F4; exact Tg|].
  split; [rewrite app_length; cbn [length]; lia|]. right. split; [lia|].
  assert (En : ent (dc s6) (sm + 1) (m_id m) (array_of (m_dims m) e)).
  { unfold ent. replace (sm + 1 - 1) with sm by lia. rewrite F1, F2, F3, F6, !aget_aset_same by lia.
    split; [lia|]. split; [reflexivity|]. split.
    - destruct (m_dims m) as [|v r]; cbn [chain] in Ch6; destruct Ch6 as [-> _]; [exact C3|reflexivity].
    - eapply chain_denotes; [|exact HD|].
      + eapply (chain_ext (dc s6)); [| |exact Ch6]; [|reflexivity]. intros _ j _. auto.
      + apply (denotes_extends d0); [apply (extends_trans _ _ _ X Ex)|exact De]. }
  destruct Hl as [[-> ->]|[El Sg]].
  - cbn [app seg]. rewrite F10. change (0 =? 0) with true. cbv iota. rewrite aget_aset_same by lia. split; [exact En|reflexivity].
  - subst last. fold sm in Sg. pose proof (seg_le _ _ _ _ Sg) as Ls. replace (sm =? 0) with false in F9, F10 by lia.
    fold sm in F9. apply seg_snoc; [|rewrite F9; rewrite aget_aset_same by lia; reflexivity|exact En].
    rewrite F10. apply (seg_ext (dc s)); [exact Ex|fold sm; lia|exact Sg| |].
    + intros k Hk. rewrite F1, F2, F3, !aget_aset_other by lia. auto.
    + intros k Hk. rewrite F9, aget_aset_other by lia. reflexivity.
Qed.
Fixpoint dims_total (l : list mdecl) : Z := match l with nil => 0 | m :: r => Z.of_nat (length (m_dims m)) + dims_total r end.
Lemma dims_total_nn l : 0 <= dims_total l.
Proof. induction l; cbn [dims_total]; lia. Qed.
Lemma members_step d0 : 0 <= n0 -> 0 <= si -> forall l ims s last ms, building d0 (dc s) last ms -> Forall2 (declares d0) l ims ->
  StructMemCount (dc s) + Z.of_nat (length l) <= STRUCT_MEMBER_MAX -> 0 <= ArrayCount (dc s) ->
  ArrayCount (dc s) + dims_total l <= ARRAY_MAX ->
  exists s' last', declare_members si last l s = Ok (last', s') /\ building d0 (dc s') last' (ms ++ ims).
Proof.
  intros N0 SI. induction l as [|m l IH]; intros ims s last ms B D LM A0 AM; inversion D; subst.
  - rewrite app_nil_r. exists s, last. split; [reflexivity|exact B].
  - cbn [length dims_total] in *. pose proof (dims_total_nn l).
    destruct (member_step d0 s last ms m y N0 SI B H1 ltac:(lia) A0 ltac:(lia)) as (s1 & E1 & B1 & A1).
    assert (MC1 : StructMemCount (dc s1) = StructMemCount (dc s) + 1).
    { destruct B as (_ & _ & _ & Q & _). destruct B1 as (_ & _ & _ & Q1 & _). rewrite Q, Q1, app_length. cbn [length]. lia. }
    destruct (IH l' s1 _ _ B1 H3) as (s' & last' & E2 & B2); try lia.
    exists s', last'. split; [|rewrite <- app_assoc in B2; exact B2].
    cbn [declare_members]. rewrite (bindE' _ _ _ _ _ E1). exact E2.
Qed.
End Struct.
(** struct tag { ... } with these member declarations: the type it gets, and the older types *)
Theorem struct_declared s tag l ims : Forall2 (declares (dc s)) l ims -> l <> nil ->
  0 <= StructCount (dc s) < STRUCT_MAX -> 0 <= StructMemCount (dc s) -> StructMemCount (dc s) + Z.of_nat (length l) <= STRUCT_MEMBER_MAX ->
  0 <= ArrayCount (dc s) -> ArrayCount (dc s) + dims_total l <= ARRAY_MAX ->
  exists s', declare_struct tag l s = Ok (tt, s') /\
    denotes (dc s') (CurrentType (em s')) (CurrentTypeExtra (em s')) (TRec (hasb tag IS_UNION_FLAG) ims) /\
    CurrentType (em s') = VT_STRUCT /\
    (forall T X t, denotes (dc s) T X t -> denotes (dc s') T X t).
Proof.
  intros D Ne Sc Sm Sm' A0 A1. unfold declare_struct, open_struct.
  set (si := StructCount (dc s)) in *. set (n0 := StructMemCount (dc s)) in *.
  set (s1 := set_dc (set_StructCount (si + 1) (dc s)) s).
  set (s2 := set_dc (set_SDId (aset (SDId (dc s1)) si tag) (dc s1)) s1).
  rewrite (bindE' _ _ s si s2).
  2:{ rewrite (bindE' _ _ s si s) by reflexivity. replace (si =? STRUCT_MAX) with false by lia. cbn [failif]. reflexivity. }
  assert (B : building si n0 tag (dc s) (dc s2) 0 nil).
  { unfold building. split.
    - unfold extends, base. cbn [s2 s1 dc set_dc ArrayCount StructMemCount StructCount set_StructCount set_StructMemCount set_SDId ADBound ADType ADExtra SMId SMType SMExtra SMNext SDId SDMembers].
      fold n0. fold si. ands4; try lia; intros j Hj; ands4; try reflexivity. apply aget_aset_other. lia.
    - split; [reflexivity|]. split; [change (SDId (dc s2)) with (aset (SDId (dc s)) si tag); apply aget_aset_same; lia|].
      split; [cbn [length]; change (StructMemCount (dc s2)) with n0; lia|]. left. auto. }
  destruct (members_step si n0 tag (dc s) Sm ltac:(lia) l ims s2 0 nil B D) as (s3 & last & E3 & B3); [exact Sm'|exact A0|exact A1|].
  rewrite (bindE' _ _ _ _ _ E3). cbn [app] in B3. clear E3 B. clearbody s2.
  destruct B3 as (X & SC & Tg & MC & [[-> _]|[El Sg]]). { inversion D; subst. congruence. }
  pose proof (seg_le _ _ _ _ _ _ Sg) as Ls.
  unfold close_struct, set_last. replace (last =? 0) with false by lia.
  set (s4 := set_dc (set_SMNext (aset (SMNext (dc s3)) (last - 1) 0) (dc s3)) s3).
  rewrite (bindE' _ _ s3 tt s4) by reflexivity.
  exists (set_em (set_CurrentType VT_STRUCT (set_CurrentTypeExtra si (em s4))) s4).
  split; [reflexivity|].
  match goal with |- denotes (dc ?s') _ _ _ /\ _ => change (dc s') with (dc s4); change (CurrentType (em s')) with VT_STRUCT; change (CurrentTypeExtra (em s')) with si end.
  assert (X4 : extends (base si n0 (dc s3)) (base si n0 (dc s4))).
  { unfold extends, base. cbn [s4 dc set_dc set_SMNext ArrayCount StructMemCount StructCount set_StructCount set_StructMemCount set_SDId ADBound ADType ADExtra SMId SMType SMExtra SMNext SDId SDMembers].
    ands4; try lia; intros j Hj; ands4; try reflexivity. apply aget_aset_other. lia. }
  assert (X5 : extends (base si n0 (dc s4)) (dc s4)).
  { unfold extends, base. cbn [ArrayCount StructMemCount StructCount set_StructCount set_StructMemCount ADBound ADType ADExtra SMId SMType SMExtra SMNext SDId SDMembers].
    change (StructMemCount (dc s4)) with (StructMemCount (dc s3)). change (StructCount (dc s4)) with (StructCount (dc s3)).
    ands4; auto; lia. }
  split; [|split; [reflexivity|]].
  - assert (Tg4 : aget (SDId (dc s4)) si = tag) by exact Tg. rewrite <- Tg4.
    apply den_rec; [reflexivity|reflexivity|change (StructCount (dc s4)) with (StructCount (dc s3)); lia|].
    apply (seg_close si n0 (dc s4) X5 Sm _ _ last).
    + change (SDMembers (dc s4)) with (SDMembers (dc s3)). apply (seg_ext si n0 (dc s3)); [exact X4|apply Z.le_refl|exact Sg| |].
      * intros k Hk. auto.
      * intros k Hk. change (SMNext (dc s4)) with (aset (SMNext (dc s3)) (last - 1) 0). apply aget_aset_other. lia.
    + change (SMNext (dc s4)) with (aset (SMNext (dc s3)) (last - 1) 0). apply aget_aset_same.
  - apply denotes_extends. eapply extends_trans; [exact X|]. eapply extends_trans; [exact X4|exact X5].
Qed.
