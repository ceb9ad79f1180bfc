(** What the start of a function definition does to the tables of the compiler, and that it emits nothing. *)
From Verif Require Import Base SccState SccEmit SccLex SccDecl SccExpr SccStmt SccInput SccPut ScopeSpec SccScope.

(** ** Declaring does not touch the input, the code and the arguments *)
Definition ecore (e : emst) := (Output e, CodeAddress e, IsDeadCode e, Pending e, RegUse e, LocalLabelCounter e, LastFixup e, LAddr e, LRef e, LocalOffset e).
Definition dcore (d : dcst) := (ArgId d, ArgType d, ArgsCount d, NextSwitchCase d, ReturnLabel d).
Definition core (s : cc) := (lx s, ecore (em s), dcore (dc s)).
Definition nocode {A} (m : M cc A) : Prop := forall s x s', m s = Ok (x, s') -> core s' = core s.
Lemma nc_ret {A} (a : A) : nocode (ret a).
Proof. intros s x s' H. oki H. reflexivity. Qed.
Lemma nc_bind {A B} (m : M cc A) (f : A -> M cc B) : nocode m -> (forall a, nocode (f a)) -> nocode (bind m f).
Proof. intros H1 H2 s x s' H. minv H y s1 E. rewrite (H2 _ _ _ _ H). exact (H1 _ _ _ E). Qed.
Lemma nc_fail b : nocode (@failif cc b).
Proof. intros s x s' H. unfold failif in H. destruct b; [discriminate|]. oki H. reflexivity. Qed.
Lemma nc_undef {A} : nocode (@undef cc A).
Proof. intros s x s' H. discriminate. Qed.
Lemma nc_get {A} (f : cc -> A) : nocode (gets f).
Proof. intros s x s' H. unfold gets in H. oki H. reflexivity. Qed.
Lemma nc_d f : (forall d, dcore (f d) = dcore d) -> nocode (updd f).
Proof. intros Q s x s' H. unfold updd in H. oki H. unfold core. cbn [lx em dc set_dc]. rewrite Q. reflexivity. Qed.
Lemma nc_e f : (forall d, ecore (f d) = ecore d) -> nocode (upde f).
Proof. intros Q s x s' H. unfold upde in H. oki H. unfold core. cbn [lx em dc set_em]. rewrite Q. reflexivity. Qed.
Lemma nc_when b m : nocode m -> nocode (when b m).
Proof. intros H. destruct b; [exact H|apply nc_ret]. Qed.
Lemma nc_if {A} (b : bool) (m m' : M cc A) : nocode m -> nocode m' -> nocode (if b then m else m').
Proof. destruct b; auto. Qed.
Ltac ncs := repeat first [apply nc_bind; [|intro] | apply nc_ret | apply nc_fail | apply nc_undef | apply nc_get | apply nc_when | apply nc_if | apply nc_d; intro; reflexivity | apply nc_e; intro; reflexivity].
Lemma nc_adds sc id : nocode (AddVarDeclScope sc id).
Proof. unfold AddVarDeclScope, getd, gete. ncs. Qed.
Lemma nc_add id : nocode (AddVarDecl id).
Proof. unfold AddVarDecl, getd, gete. ncs; apply nc_adds. Qed.
Lemma nc_late id : nocode (AddLateGlobalVar id).
Proof. unfold AddLateGlobalVar, getd, gete. ncs; apply nc_adds. Qed.
Lemma nc_reserve n : forall i, nocode (reserve n i).
Proof. induction n as [|n IH]; intro i; cbn [reserve]; ncs; apply IH. Qed.
Lemma nc_enter : nocode enter_function.
Proof. unfold enter_function, PushScope, getd. ncs; apply nc_reserve. Qed.
Lemma nc_args n : forall i, nocode (bind_args n i).
Proof. induction n as [|n IH]; intro i; cbn [bind_args]; unfold getd, setT, setX; ncs; apply IH. Qed.
Lemma nc_pops n : forall i, nocode (pop_loop n i).
Proof. induction n as [|n IH]; intro i; cbn [pop_loop]; unfold getd, gete; ncs; apply IH. Qed.
Lemma nc_pop : nocode PopScope.
Proof. unfold PopScope, getd. ncs; apply nc_pops. Qed.

(** ** The tables *)
(** entries of the tables below i are the same *)
Definition below (i : Z) (s s' : cc) : Prop :=
  forall u, u < i -> aget (VType (dc s')) u = aget (VType (dc s)) u /\ aget (VOff (em s')) u = aget (VOff (em s)) u /\ aget (VRef (em s')) u = aget (VRef (em s)) u /\
    aget (VId (dc s')) u = aget (VId (dc s)) u.
Lemma below_trans i a b c : below i a b -> below i b c -> below i a c.
Proof. intros A B u U. destruct (A u U) as (A1 & A2 & A3 & A4), (B u U) as (B1 & B2 & B3 & B4). repeat split; congruence. Qed.
Lemma enter_tables s x s' : 0 <= aget (Scopes (dc s)) 0 -> aget (Scopes (dc s)) 0 + 4 <= 380 -> ScopeCount (dc s) = 1 -> 0 <= IgnoreRedef (dc s) ->
  enter_function s = Ok (x, s') ->
  (ScopeCount (dc s') = 2 /\ IgnoreRedef (dc s') = IgnoreRedef (dc s) + 1 /\ aget (Scopes (dc s')) 0 = aget (Scopes (dc s)) 0) /\ IgnoreRedef (dc s') <> 0 /\ aget (Scopes (dc s')) 1 = aget (Scopes (dc s)) 0 + 4 /\ VarLookup (dc s') = VarLookup (dc s) /\
  below (aget (Scopes (dc s)) 0) s s'.
Proof.
  intros H1 H2 H3 H4 H. destruct (enter_view s H1 H2 H3) as (s2 & E & V). rewrite E in H. apply ok_inj in H. destruct H as [_ H]. subst s2. clear E. cbv zeta in V.
  change (scs (vw s)) with (Scopes (dc s)) in V. set (i := aget (Scopes (dc s)) 0) in *.
  change (ScopeCount (dc s')) with (cnt (vw s')). change (IgnoreRedef (dc s')) with (ign (vw s')). change (Scopes (dc s')) with (scs (vw s')). change (VarLookup (dc s')) with (look (vw s')).
  unfold below. change (VType (dc s')) with (vty (vw s')). change (VOff (em s')) with (vof (vw s')). change (VRef (em s')) with (vrf (vw s')). change (VId (dc s')) with (vid (vw s')). rewrite V. clear V.
  cbn [v_scope0 v_push v_rsv cnt ign scs look vty vof vrf vid vw]. rewrite H3. split; [split; [reflexivity|split; [reflexivity|]]|].
  { change (1 - 1) with 0. rewrite !aget_aset_same. rewrite aget_aset_other by lia. rewrite aget_aset_same. lia. }
  split; [lia|]. split.
  - rewrite aget_aset_other by lia. rewrite aget_aset_same. change (1 - 1) with 0. apply aget_aset_same.
  - split; [reflexivity|]. intros u U. rewrite !aget_aset_other by lia. auto.
Qed.
Lemma params_tables d n : forall i s x s' B, aget (Scopes (dc s)) (ScopeCount (dc s) - 1) = B -> B + Z.of_nat n <= 380 -> IgnoreRedef (dc s) <> 0 ->
  (forall j k, i <= j < k -> k < i + Z.of_nat n -> aget (ArgId d) j <> aget (ArgId d) k) ->
  perform_all (params d n i) s = Ok (x, s') ->
  (forall j, i <= j < i + Z.of_nat n -> let v := B + (j - i) in
     aget (VarLookup (dc s')) (aget (ArgId d) j) = v + 1 /\ aget (VType (dc s')) v = Z.lor (aget (ArgType d) j) VT_LOCOFF /\ aget (VOff (em s')) v = 4 + j * 2) /\
  (forall k, (forall j, i <= j < i + Z.of_nat n -> aget (ArgId d) j <> k) -> aget (VarLookup (dc s')) k = aget (VarLookup (dc s)) k) /\
  below B s s' /\ ScopeCount (dc s') = ScopeCount (dc s) /\ IgnoreRedef (dc s') = IgnoreRedef (dc s) /\ (ScopeCount (dc s) <> 1 -> aget (Scopes (dc s')) 0 = aget (Scopes (dc s)) 0) /\
  aget (Scopes (dc s')) (ScopeCount (dc s) - 1) = B + Z.of_nat n.
Proof.
  induction n as [|n IH]; intros i s x s' B HB HM HI HD H.
  - cbn [params perform_all] in H. oki H. split; [lia|]. split; [auto|]. split; [intros u U; auto|]. split; [auto|]. split; [auto|]. split; [auto|]. rewrite HB. lia.
  - cbn [params perform_all] in H. unfold param in H. cbn [perform] in H. rewrite Nat2Z.inj_succ in *.
    set (id := aget (ArgId d) i) in *. set (t := Z.lor (aget (ArgType d) i) VT_LOCOFF) in *.
    destruct (declare_new id t (aget (ArgExtra d) i) s) as (s1 & E1 & V1).
    { change (scs (vw s)) with (Scopes (dc s)). change (cnt (vw s)) with (ScopeCount (dc s)). lia. }
    { left. exact HI. }
    change (scs (vw s)) with (Scopes (dc s)) in *. change (cnt (vw s)) with (ScopeCount (dc s)) in *. rewrite HB in *.
    rewrite SccInput.bind_assoc, (SccInput.bind_ok _ _ _ _ _ E1) in H. unfold upde in H. rewrite bind_upd in H. set (s2 := set_em _ s1) in *.
    assert (V2 : vw s2 = v_off B (4 + i * 2) (v_link B id (v_add (ScopeCount (dc s) - 1) id t (aget (ArgExtra d) i) (vw s)))).
    { change (vw s2) with (v_off B (4 + i * 2) (vw s1)). rewrite V1. reflexivity. }
    clearbody s2. clear E1 V1 s1.
    assert (G1 : VarLookup (dc s2) = aset (VarLookup (dc s)) id (B + 1)) by (change (VarLookup (dc s2)) with (look (vw s2)); rewrite V2; reflexivity).
    assert (G2 : VType (dc s2) = aset (VType (dc s)) B t).
    { change (VType (dc s2)) with (vty (vw s2)); rewrite V2. cbn [v_off v_link v_add vty vw scs]. rewrite HB. reflexivity. }
    assert (G3 : VOff (em s2) = aset (aset (VOff (em s)) B 0) B (4 + i * 2)).
    { change (VOff (em s2)) with (vof (vw s2)); rewrite V2. cbn [v_off v_link v_add vof vw scs]. rewrite HB. reflexivity. }
    assert (G4 : VRef (em s2) = aset (VRef (em s)) B 0).
    { change (VRef (em s2)) with (vrf (vw s2)); rewrite V2. cbn [v_off v_link v_add vrf vw scs]. rewrite HB. reflexivity. }
    assert (G5 : Scopes (dc s2) = aset (Scopes (dc s)) (ScopeCount (dc s) - 1) (B + 1)).
    { change (Scopes (dc s2)) with (scs (vw s2)); rewrite V2. cbn [v_off v_link v_add vof vw scs]. rewrite HB. reflexivity. }
    assert (G6 : ScopeCount (dc s2) = ScopeCount (dc s)) by (change (ScopeCount (dc s2)) with (cnt (vw s2)); rewrite V2; reflexivity).
    assert (G7 : IgnoreRedef (dc s2) = IgnoreRedef (dc s)) by (change (IgnoreRedef (dc s2)) with (ign (vw s2)); rewrite V2; reflexivity).
    assert (G8 : VId (dc s2) = aset (VId (dc s)) B id).
    { change (VId (dc s2)) with (vid (vw s2)); rewrite V2. cbn [v_off v_link v_add vid vw scs]. rewrite HB. reflexivity. }
    destruct (IH (i + 1) s2 x s' (B + 1)) as (I1 & I2 & I3 & I4 & I5 & I6 & I7).
    { rewrite G5, G6. apply aget_aset_same. }
    { lia. }
    { rewrite G7. exact HI. }
    { intros j k J K. apply HD; lia. }
    { exact H. }
    split; [|split; [|split; [|split; [congruence|split; [congruence|split; [|rewrite <- G6, I7; lia]]]]]].
    + intros j J. cbv zeta. destruct (Z.eq_dec j i) as [->|N].
      * replace (B + (i - i)) with B by lia. destruct (I3 B ltac:(lia)) as (T1 & T2 & _). rewrite T1, T2, G2, G3, !aget_aset_same.
        split; [|split; reflexivity]. rewrite I2 by (intros k K; apply not_eq_sym, HD; lia). rewrite G1. apply aget_aset_same.
      * specialize (I1 j ltac:(lia)). cbv zeta in I1. replace (B + 1 + (j - (i + 1))) with (B + (j - i)) in I1 by lia. exact I1.
    + intros k K. rewrite I2 by (intros j J; apply K; lia). rewrite G1. apply aget_aset_other. first [apply K; lia|apply not_eq_sym, K; lia].
    + intros u U. destruct (I3 u ltac:(lia)) as (T1 & T2 & T3 & T4). rewrite T1, T2, T3, T4, G2, G3, G4, G8, !aget_aset_other by lia. auto.
    + intro N. rewrite I6 by congruence. rewrite G5. apply aget_aset_other. lia.
Qed.
Lemma args_tables n s x s' B : aget (Scopes (dc s)) (ScopeCount (dc s) - 1) = B -> B + Z.of_nat n <= 380 -> IgnoreRedef (dc s) <> 0 ->
  (forall j, 0 <= j < Z.of_nat n -> 0 <= aget (ArgId (dc s)) j) ->
  (forall j k, 0 <= j < k -> k < Z.of_nat n -> aget (ArgId (dc s)) j <> aget (ArgId (dc s)) k) ->
  bind_args n 0 s = Ok (x, s') ->
  (forall j, 0 <= j < Z.of_nat n -> let v := B + j in
     aget (VarLookup (dc s')) (aget (ArgId (dc s)) j) = v + 1 /\ aget (VType (dc s')) v = Z.lor (aget (ArgType (dc s)) j) VT_LOCOFF /\ aget (VOff (em s')) v = 4 + j * 2) /\
  (forall k, (forall j, 0 <= j < Z.of_nat n -> aget (ArgId (dc s)) j <> k) -> aget (VarLookup (dc s')) k = aget (VarLookup (dc s)) k) /\
  below B s s' /\ ScopeCount (dc s') = ScopeCount (dc s) /\ IgnoreRedef (dc s') = IgnoreRedef (dc s) /\ (ScopeCount (dc s) <> 1 -> aget (Scopes (dc s')) 0 = aget (Scopes (dc s)) 0) /\
  aget (Scopes (dc s')) (ScopeCount (dc s) - 1) = B + Z.of_nat n.
Proof.
  intros HB HM HI HP HD H. rewrite bind_args_locals in H by (intros j J; apply HP; lia).
  destruct (params_tables (dc s) n 0 s x s' B HB HM HI) as (A & C & D); [intros; apply HD; lia|exact H|]. split; [|split; assumption].
  intros j J. specialize (A j ltac:(lia)). replace (j - 0) with j in A by lia. exact A.
Qed.

(** ** Leaving the function *)
(** globals may be added, nothing else changes below *)
Definition adds {A} (m : M cc A) : Prop := forall s x s', m s = Ok (x, s') ->
  ScopeCount (dc s') = ScopeCount (dc s) /\ IgnoreRedef (dc s') = IgnoreRedef (dc s) /\ aget (Scopes (dc s)) 0 <= aget (Scopes (dc s')) 0 /\ below (aget (Scopes (dc s)) 0) s s'.
Lemma ad_same {A} (m : M cc A) : (forall s x s', m s = Ok (x, s') -> ScopeCount (dc s') = ScopeCount (dc s) /\ IgnoreRedef (dc s') = IgnoreRedef (dc s) /\ Scopes (dc s') = Scopes (dc s) /\
  VType (dc s') = VType (dc s) /\ VId (dc s') = VId (dc s) /\ VOff (em s') = VOff (em s) /\ VRef (em s') = VRef (em s)) -> adds m.
Proof. intros H s x s' E. destruct (H s x s' E) as (A1 & A2 & A3 & A4 & A5 & A6 & A7). split; [exact A1|]. split; [exact A2|]. rewrite A3. split; [lia|]. intros u U. rewrite A4, A5, A6, A7. auto. Qed.
Lemma ad_bind {A B} (m : M cc A) (f : A -> M cc B) : adds m -> (forall a, adds (f a)) -> adds (bind m f).
Proof.
  intros H1 H2 s x s' H. minv H y s1 E. destruct (H1 _ _ _ E) as (A1 & A2 & A3 & A4), (H2 _ _ _ _ H) as (B1 & B2 & B3 & B4). split; [congruence|]. split; [congruence|]. split; [lia|].
  apply (below_trans _ s s1 s'); [exact A4|]. intros u U. apply B4. lia.
Qed.
Lemma ad_ret {A} (a : A) : adds (ret a).
Proof. apply ad_same. intros s x s' H. oki H. repeat split. Qed.
Lemma ad_get {A} (f : cc -> A) : adds (gets f).
Proof. apply ad_same. intros s x s' H. unfold gets in H. oki H. repeat split. Qed.
Lemma late_adds id (r : Z) : adds (let! g := AddLateGlobalVar id in upde (fun e => set_VRef (aset (VRef e) g r) e)).
Proof.
  intros s x s' H. unfold AddLateGlobalVar, AddVarDeclScope, getd, gete, updd, upde, failif in H. mgoin H. destruct (_ <=? _); [discriminate H|]. mgoin H. oki H.
  unfold set_em, set_dc. cbn [em dc ScopeCount IgnoreRedef Scopes VType VId VOff VRef set_VRef set_VOff set_VId set_VExtra set_VType set_Scopes set_CurrentVal].
  split; [reflexivity|]. split; [reflexivity|]. rewrite aget_aset_same. split; [lia|]. intros u U.
  unfold set_em, set_dc. cbn [em dc ScopeCount IgnoreRedef Scopes VType VId VOff VRef set_VRef set_VOff set_VId set_VExtra set_VType set_Scopes set_CurrentVal]. rewrite !aget_aset_other by lia. auto.
Qed.
Lemma ad_pops n : forall i, adds (pop_loop n i).
Proof.
  induction n as [|n IH]; intro i; cbn [pop_loop]; [apply ad_ret|]. apply ad_bind; [apply ad_get|]. intro id. apply ad_bind; [|intro; apply IH].
  destruct (id <? 0); [apply ad_ret|]. apply ad_bind; [apply ad_get|]. intro r. apply ad_bind.
  - unfold when. destruct (negb _); [|apply ad_ret]. apply ad_bind; [apply ad_get|]. intro t. apply ad_bind; [apply ad_get|]. intro y.
    apply ad_bind; [apply ad_same; intros s x s' H; unfold upde in H; oki H; repeat split|]. intros _.
    apply ad_bind; [apply ad_same; intros s x s' H; unfold upde in H; oki H; repeat split|]. intros _. apply late_adds.
  - intros _. apply ad_same. intros s x s' H. unfold updd in H. oki H. repeat split.
Qed.
Lemma pop_tables s x s' : PopScope s = Ok (x, s') -> ScopeCount (dc s') = ScopeCount (dc s) - 1 /\ IgnoreRedef (dc s') = IgnoreRedef (dc s) - 1 /\
  aget (Scopes (dc s)) 0 <= aget (Scopes (dc s')) 0 /\ below (aget (Scopes (dc s)) 0) s s'.
Proof. intro H. unfold PopScope, getd, updd, failif in H. mgoin H. destruct (_ =? _); [discriminate H|]. mgoin H. apply ad_pops in H. exact H. Qed.
