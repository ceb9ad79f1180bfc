(** Block scoping: the scope tables of scc.c follow ScopeSpec.v. *)
From Verif Require Import Base SccState SccEmit SccLex SccDecl SccExpr SccStmt ScopeSpec.

(** ** The compiler's side of an action *)
(** a declaration: scc.c:1585-1610 with the type set as ParseDeclarator leaves it, and the offset
    its caller stores (scc.c:3308-3311; local variables the same way) *)
Definition declare (id t x : Z) : M cc Z :=
  upde (set_CurrentType t) ;; upde (set_CurrentTypeExtra x) ;; AddVarDecl id.
Definition perform (a : action) : M cc unit :=
  match a with
  | Global id t x => declare id t x ;; ret tt
  | Function => enter_function
  | Enter => PushScope
  | Local id t x p => let! v := declare id t x in upde (fun e => set_VOff (aset (VOff e) v p) e)
  | Refer id r => (* EmitGlobalRef adds a reference to the chain, scc.c:1141-1146 *)
      let! v := getd (fun d => aget (VarLookup d) id) in
      upde (fun e => set_VRef (aset (VRef e) (v - 1) r) e)
  | Implicit id => upde (set_CurrentVal id) ;; HandlePrimaryId
  | Leave => PopScope
  end.
Fixpoint perform_all (l : list action) : M cc unit :=
  match l with nil => ret tt | a :: r => perform a ;; perform_all r end.

(** what a name means to the compiler: type, type extra, place (scc.c:1646-1670) *)
Definition meaning (s : cc) (id : Z) : option (Z * Z * Z) :=
  let v := aget (VarLookup (dc s)) id in
  if v =? 0 then None else Some (aget (VType (dc s)) (v - 1), aget (VExtra (dc s)) (v - 1), aget (VOff (em s)) (v - 1)).

(** ** The part of the state that matters *)
Record view := mkview {
  look : arr Z; vid : arr Z; vty : arr Z; vex : arr Z; vpr : arr Z; vof : arr Z; vrf : arr Z;
  scs : arr Z; cnt : Z; ign : Z; dead : bool }.
Definition vw (s : cc) : view :=
  mkview (VarLookup (dc s)) (VId (dc s)) (VType (dc s)) (VExtra (dc s)) (VPrev (dc s)) (VOff (em s)) (VRef (em s))
         (Scopes (dc s)) (ScopeCount (dc s)) (IgnoreRedef (dc s)) (IsDeadCode (em s)).

Definition at_decl (v : view) (i id : Z) (d : decl) : Prop :=
  aget (vid v) i = id /\ aget (vty v) i = d_type d /\ aget (vex v) i = d_extra d /\ aget (vof v) i = d_place d.
Fixpoint ents (v : view) (b : block) (i : Z) (lk : Z -> Z) : Prop :=
  match b with
  | nil => True
  | (id, d) :: r =>
      (0 <= id /\ at_decl v i id d /\ (aget (vrf v) i =? 0) = negb (d_used d) /\ aget (vpr v) i = lk id)
      /\ ents v r (i + 1) lk
  end.
Fixpoint pos (b : block) (i id : Z) : option Z :=
  match b with nil => None | (k, _) :: r => if k =? id then Some i else pos r (i + 1) id end.
(** [n]: entries taken by globals; [b1]: where the parameters of the function start *)
Fixpoint levels (v : view) (n b1 : Z) (bs : list block) (lk : Z -> Z) : Prop :=
  match bs with
  | nil => False
  | b :: r =>
      match r with
      | nil => forall id, 0 <= id ->
          match find b id with Some d => exists i, lk id = i + 1 /\ 0 <= i < n /\ at_decl v i id d | None => lk id = 0 end
      | _ => exists lk0, levels v n b1 r lk0 /\ ents v b (b1 + locals r) lk0 /\ NoDup (map fst b) /\
          (forall id, 0 <= id -> lk id = match pos b (b1 + locals r) id with Some i => i + 1 | None => lk0 id end) /\
          aget (scs v) (Z.of_nat (length r)) = b1 + locals r + Z.of_nat (length b)
      end
  end.
Definition inv (c : scoping) (v : view) : Prop :=
  cnt v = Z.of_nat (length (blocks c)) /\ ign v = cnt v - 1 /\ dead v = false /\
  aget (scs v) 0 = taken c /\ 0 <= taken c /\ 0 <= left c /\ (length (blocks c) = 1%nat -> left c = 0) /\
  (forall i, taken c <= i < taken c + left c -> aget (vid v) i < 0) /\
  levels v (taken c) (taken c + left c) (blocks c) (aget (look v)).

Lemma locals_cons b r : r <> nil -> locals (b :: r) = locals r + Z.of_nat (length b).
Proof.
  intro H. destruct r as [|c r]; [congruence|]. unfold locals. cbn [removelast concat]. rewrite app_length. lia.
Qed.
Lemma locals_nn r : 0 <= locals r.
Proof. unfold locals. lia. Qed.

Lemma at_ext v v' i id d :
  aget (vid v') i = aget (vid v) i -> aget (vty v') i = aget (vty v) i -> aget (vex v') i = aget (vex v) i ->
  aget (vof v') i = aget (vof v) i -> at_decl v i id d -> at_decl v' i id d.
Proof. unfold at_decl. intros -> -> -> ->. auto. Qed.

Definition same (v v' : view) (i : Z) : Prop :=
  aget (vid v') i = aget (vid v) i /\ aget (vty v') i = aget (vty v) i /\ aget (vex v') i = aget (vex v) i /\
  aget (vof v') i = aget (vof v) i.
Lemma ents_ext v v' b : forall i lk lk',
  (forall j, i <= j < i + Z.of_nat (length b) -> same v v' j /\ aget (vrf v') j = aget (vrf v) j /\ aget (vpr v') j = aget (vpr v) j) ->
  (forall id, In id (map fst b) -> lk' id = lk id) ->
  ents v b i lk -> ents v' b i lk'.
Proof.
  induction b as [|[id d] r IH]; intros i lk lk' A L H; [exact I|].
  cbn [ents] in *. destruct H as [(H0 & H1 & H2 & H3) H4].
  destruct (A i) as [(a1 & a2 & a3 & a4) [a5 a6]]; [cbn [length]; lia|].
  repeat match goal with |- _ /\ _ => split end; auto.
  - eapply at_ext; eassumption.
  - congruence.
  - rewrite a6, H3. symmetry. apply L. left. reflexivity.
  - eapply IH; [| |exact H4].
    + intros j Hj. apply A. cbn [length]. lia.
    + intros k Hk. apply L. right. exact Hk.
Qed.
Lemma pos_in b : forall i id, (pos b i id = None <-> ~ In id (map fst b)).
Proof.
  induction b as [|[k d] r IH]; intros i id; cbn [pos map fst In]; [tauto|].
  destruct (Z.eqb_spec k id); [split; [discriminate|tauto]|]. rewrite IH. tauto.
Qed.
Lemma find_in b : forall id, (find b id = None <-> ~ In id (map fst b)).
Proof.
  induction b as [|[k d] r IH]; intros id; cbn [find map fst In]; [tauto|].
  destruct (Z.eqb_spec k id); [split; [discriminate|tauto]|]. rewrite IH. tauto.
Qed.
Lemma pos_range b : forall i id j, pos b i id = Some j -> i <= j < i + Z.of_nat (length b).
Proof.
  induction b as [|[k d] r IH]; intros i id j; cbn [pos length]; [discriminate|].
  destruct (k =? id); [intro H; inversion H; lia|]. intro H. apply IH in H. lia.
Qed.
Lemma pos_find v b : forall i lk id j, ents v b i lk -> pos b i id = Some j ->
  exists d, find b id = Some d /\ at_decl v j id d /\ aget (vpr v) j = lk id.
Proof.
  induction b as [|[k d] r IH]; intros i lk id j; cbn [pos find ents]; [discriminate|].
  intros [(H0 & H1 & H2 & H3) H4]. destruct (Z.eqb_spec k id) as [E|E].
  - intro H. inversion H; subst. eauto.
  - intro H. eapply IH; eassumption.
Qed.

(** changing the state and the lookup where it does not matter to these levels *)
Lemma levels_ext v v' n n' b1 bs : forall lk lk', n <= n' ->
  (forall i, 0 <= i < n -> same v v' i) ->
  (forall i, b1 <= i < b1 + locals bs -> same v v' i /\ aget (vrf v') i = aget (vrf v) i /\ aget (vpr v') i = aget (vpr v) i) ->
  (forall k, 1 <= k < Z.of_nat (length bs) -> aget (scs v') k = aget (scs v) k) ->
  (forall id, 0 <= id -> lk' id = lk id) ->
  levels v n b1 bs lk -> levels v' n' b1 bs lk'.
Proof.
  induction bs as [|b r IH]; intros lk lk' Hn G L K E H; [exact H|].
  destruct r as [|c r].
  - cbn [levels] in *. intros id Hid. specialize (H id Hid). destruct (find b id) as [d|]; [|rewrite E; assumption].
    destruct H as (i & H1 & H2 & H3). exists i. rewrite E by assumption. split; [exact H1|]. split; [lia|].
    destruct (G i H2) as (a1 & a2 & a3 & a4). eapply at_ext; eassumption.
  - remember (c :: r) as q eqn:Q.
    assert (Hq : q <> nil) by (subst; discriminate).
    assert (U : forall w m lk, levels w m b1 (b :: q) lk = exists lk0, levels w m b1 q lk0 /\ ents w b (b1 + locals q) lk0 /\ NoDup (map fst b) /\
          (forall id, 0 <= id -> lk id = match pos b (b1 + locals q) id with Some i => i + 1 | None => lk0 id end) /\
          aget (scs w) (Z.of_nat (length q)) = b1 + locals q + Z.of_nat (length b)) by (subst; reflexivity).
    rewrite U in H |- *. destruct H as (lk0 & H1 & H2 & H3 & H4 & H5). rewrite locals_cons in L by assumption.
    exists lk0. pose proof (locals_nn q).
    split.
    { apply IH with (lk := lk0); auto; [intros; apply L; lia|intros; apply K; cbn [length]; lia]. }
    split.
    { eapply ents_ext; [| |exact H2]; [intros; apply L; lia|reflexivity]. }
    split; [assumption|]. split.
    { intros id Hid. rewrite E by assumption. apply H4; assumption. }
    rewrite K; [exact H5|]. cbn [length]. destruct q; [congruence|]. cbn [length]. lia.
Qed.
Lemma levels_cons v n b1 b q lk : q <> nil -> levels v n b1 (b :: q) lk = exists lk0, levels v n b1 q lk0 /\ ents v b (b1 + locals q) lk0 /\ NoDup (map fst b) /\
          (forall id, 0 <= id -> lk id = match pos b (b1 + locals q) id with Some i => i + 1 | None => lk0 id end) /\
          aget (scs v) (Z.of_nat (length q)) = b1 + locals q + Z.of_nat (length b).
Proof. destruct q; [congruence|reflexivity]. Qed.

(** the invariant gives the meaning of every name *)
Lemma levels_means v n b1 bs : forall lk id, 0 <= id -> levels v n b1 bs lk -> 0 <= n <= b1 ->
  match means bs id with
  | Some d => exists i, lk id = i + 1 /\ 0 <= i /\ at_decl v i id d /\ i < b1 + locals bs
  | None => lk id = 0
  end.
Proof.
  induction bs as [|b r IH]; intros lk id Hid H Hn; [destruct H|].
  destruct r as [|c r].
  - cbn [levels] in H. cbn [means]. specialize (H id Hid). pose proof (locals_nn [b]).
    destruct (find b id); [|exact H]. destruct H as (i & ? & ? & ?). exists i. repeat split; auto; try lia; apply H2.
  - rewrite levels_cons in H by discriminate. destruct H as (lk0 & H1 & H2 & H3 & H4 & H5).
    rewrite locals_cons by discriminate.
    set (q := c :: r) in *. specialize (IH lk0 id Hid H1 Hn). pose proof (locals_nn q).
    change (means (b :: q) id) with (match find b id with Some d => Some d | None => means q id end).
    destruct (pos b (b1 + locals q) id) as [j|] eqn:P.
    + pose proof (pos_range _ _ _ _ P). destruct (pos_find _ _ _ _ _ _ H2 P) as (d & -> & A & _).
      exists j. rewrite H4, P by assumption. repeat split; auto; try lia; apply A.
    + assert (find b id = None) as -> by (apply find_in; apply pos_in in P; exact P).
      rewrite H4, P by assumption. destruct (means q id); [|exact IH].
      destruct IH as (i & ? & ? & ? & ?). exists i. repeat split; auto; try lia; apply H7.
Qed.
Theorem inv_means c s id : 0 <= id -> inv c (vw s) ->
  meaning s id = option_map (fun d => (d_type d, d_extra d, d_place d)) (means (blocks c) id).
Proof.
  intros Hid (A & B & D & E & F & G & H & I & L). pose proof (levels_means _ _ _ _ _ _ Hid L) as Q.
  unfold meaning. change (VarLookup (dc s)) with (look (vw s)). change (VType (dc s)) with (vty (vw s)).
  change (VExtra (dc s)) with (vex (vw s)). change (VOff (em s)) with (vof (vw s)).
  destruct (means (blocks c) id) as [d|]; cbn [option_map].
  - destruct Q as (i & -> & J & (K1 & K2 & K3 & K4) & _); [lia|].
    replace (i + 1 =? 0) with false by lia. replace (i + 1 - 1) with i by lia. congruence.
  - rewrite Q by lia. reflexivity.
Qed.

(** ** What each operation does to the view *)
Definition v_push (v : view) : view :=
  mkview (look v) (vid v) (vty v) (vex v) (vpr v) (vof v) (vrf v)
         (aset (scs v) (cnt v) (aget (scs v) (cnt v - 1))) (cnt v + 1) (ign v + 1) (dead v).
Definition v_add (sc id t x : Z) (v : view) : view :=
  let i := aget (scs v) sc in
  mkview (look v) (aset (vid v) i id) (aset (vty v) i t) (aset (vex v) i x) (vpr v) (aset (vof v) i 0) (aset (vrf v) i 0)
         (aset (scs v) sc (i + 1)) (cnt v) (ign v) (dead v).
Definition v_link (i id : Z) (v : view) : view :=
  mkview (aset (look v) id (i + 1)) (vid v) (vty v) (vex v) (aset (vpr v) i (aget (look v) id)) (vof v) (vrf v)
         (scs v) (cnt v) (ign v) (dead v).
Definition v_look (id x : Z) (v : view) : view :=
  mkview (aset (look v) id x) (vid v) (vty v) (vex v) (vpr v) (vof v) (vrf v) (scs v) (cnt v) (ign v) (dead v).
Definition v_off (i p : Z) (v : view) : view :=
  mkview (look v) (vid v) (vty v) (vex v) (vpr v) (aset (vof v) i p) (vrf v) (scs v) (cnt v) (ign v) (dead v).
Definition v_ref (i r : Z) (v : view) : view :=
  mkview (look v) (vid v) (vty v) (vex v) (vpr v) (vof v) (aset (vrf v) i r) (scs v) (cnt v) (ign v) (dead v).
Definition v_scope0 (x : Z) (v : view) : view :=
  mkview (look v) (vid v) (vty v) (vex v) (vpr v) (vof v) (vrf v) (aset (scs v) 0 x) (cnt v) (ign v) (dead v).
Definition v_pop (v : view) : view :=
  mkview (look v) (vid v) (vty v) (vex v) (vpr v) (vof v) (vrf v) (scs v) (cnt v - 1) (ign v - 1) (dead v).
Definition v_rsv (i : Z) (v : view) : view :=
  mkview (look v) (aset (vid v) i (-1)) (aset (vty v) i (-1)) (aset (vex v) i (-1)) (aset (vpr v) i (-1)) (aset (vof v) i (-1))
         (aset (vrf v) i (-1)) (scs v) (cnt v) (ign v) (dead v).

Lemma bindE {S A B} (m : M S A) (f : A -> M S B) s a s' : m s = Ok (a, s') -> bind m f s = f a s'.
Proof. unfold bind. intros ->. reflexivity. Qed.

Lemma push_view s : cnt (vw s) <> 16 -> exists s', PushScope s = Ok (tt, s') /\ vw s' = v_push (vw s).
Proof.
  intro H. unfold PushScope, bind, getd, gets, failif, SCOPE_MAX. cbn [vw cnt] in H.
  replace (ScopeCount (dc s) =? 16) with false by lia.
  eexists. split; [reflexivity|]. reflexivity.
Qed.
Lemma adds_view sc id s : exists s', AddVarDeclScope sc id s = Ok (aget (scs (vw s)) sc, s') /\
  vw s' = v_add sc id (CurrentType (em s)) (CurrentTypeExtra (em s)) (vw s).
Proof. unfold AddVarDeclScope, bind. eexists. split; reflexivity. Qed.

Lemma declare_new id t x s : aget (scs (vw s)) (cnt (vw s) - 1) < 380 ->
  (ign (vw s) <> 0 \/ aget (look (vw s)) id = 0) ->
  exists s', declare id t x s = Ok (aget (scs (vw s)) (cnt (vw s) - 1), s') /\
    vw s' = v_link (aget (scs (vw s)) (cnt (vw s) - 1)) id (v_add (cnt (vw s) - 1) id t x (vw s)).
Proof.
  intros H1 H2. unfold declare.
  rewrite (bindE _ _ s tt (set_em (set_CurrentType t (em s)) s)) by reflexivity.
  set (s1 := set_em (set_CurrentType t (em s)) s).
  rewrite (bindE _ _ s1 tt (set_em (set_CurrentTypeExtra x (em s1)) s1)) by reflexivity.
  set (s2 := set_em (set_CurrentTypeExtra x (em s1)) s1).
  unfold AddVarDecl.
  rewrite (bindE _ _ s2 (cnt (vw s)) s2) by reflexivity.
  rewrite (bindE _ _ s2 (aget (scs (vw s)) (cnt (vw s) - 1)) s2) by reflexivity.
  unfold failif, VARDECL_MAX. replace (380 <=? aget (scs (vw s)) (cnt (vw s) - 1)) with false by lia.
  rewrite (bindE _ _ s2 tt s2) by reflexivity.
  rewrite (bindE _ _ s2 (aget (look (vw s)) id) s2) by reflexivity.
  rewrite (bindE _ _ s2 (ign (vw s)) s2) by reflexivity.
  replace ((ign (vw s) =? 0) && negb (aget (look (vw s)) id =? 0)) with false by lia.
  eexists. split; reflexivity.
Qed.
Lemma declare_again id t x s : aget (scs (vw s)) (cnt (vw s) - 1) < 380 -> ign (vw s) = 0 -> aget (look (vw s)) id <> 0 ->
  exists v s', declare id t x s = Ok (v, s') /\ vw s' = vw s.
Proof.
  intros H1 H2 H3. unfold declare.
  rewrite (bindE _ _ s tt (set_em (set_CurrentType t (em s)) s)) by reflexivity.
  set (s1 := set_em (set_CurrentType t (em s)) s).
  rewrite (bindE _ _ s1 tt (set_em (set_CurrentTypeExtra x (em s1)) s1)) by reflexivity.
  set (s2 := set_em (set_CurrentTypeExtra x (em s1)) s1).
  unfold AddVarDecl.
  rewrite (bindE _ _ s2 (cnt (vw s)) s2) by reflexivity.
  rewrite (bindE _ _ s2 (aget (scs (vw s)) (cnt (vw s) - 1)) s2) by reflexivity.
  unfold failif, VARDECL_MAX. replace (380 <=? aget (scs (vw s)) (cnt (vw s) - 1)) with false by lia.
  rewrite (bindE _ _ s2 tt s2) by reflexivity.
  rewrite (bindE _ _ s2 (aget (look (vw s)) id) s2) by reflexivity.
  rewrite (bindE _ _ s2 (ign (vw s)) s2) by reflexivity.
  rewrite H2. replace ((0 =? 0) && negb (aget (look (vw s)) id =? 0)) with true by lia.
  do 2 eexists. split; reflexivity.
Qed.
Lemma late_view id s : aget (scs (vw s)) 0 < aget (scs (vw s)) 1 ->
  exists s', AddLateGlobalVar id s = Ok (aget (scs (vw s)) 0, s') /\
    vw s' = v_add 0 id (CurrentType (em s)) (CurrentTypeExtra (em s)) (vw s).
Proof.
  intro H. unfold AddLateGlobalVar.
  rewrite (bindE _ _ s (aget (scs (vw s)) 0) s) by reflexivity.
  rewrite (bindE _ _ s tt (set_em (set_CurrentVal (aget (scs (vw s)) 0) (em s)) s)) by reflexivity.
  set (s1 := set_em _ s).
  rewrite (bindE _ _ s1 (aget (scs (vw s)) 1) s1) by reflexivity.
  unfold failif. replace (aget (scs (vw s)) 1 <=? aget (scs (vw s)) 0) with false by lia.
  rewrite (bindE _ _ s1 tt s1) by reflexivity.
  destruct (adds_view 0 id s1) as (s' & E & V). exists s'. split; [exact E|exact V].
Qed.
Lemma implicit_view id s : aget (look (vw s)) id = 0 -> dead (vw s) = false -> aget (scs (vw s)) 0 < aget (scs (vw s)) 1 ->
  exists s', perform (Implicit id) s = Ok (tt, s') /\
    vw s' = v_add 0 id implicit_type 0 (v_look id (aget (scs (vw s)) 0 + 1) (vw s)).
Proof.
  intros H1 H2 H3. cbn [perform].
  rewrite (bindE _ _ s tt (set_em (set_CurrentVal id (em s)) s)) by reflexivity. set (s1 := set_em _ s).
  unfold HandlePrimaryId.
  rewrite (bindE _ _ s1 id s1) by reflexivity.
  rewrite (bindE _ _ s1 (aget (look (vw s)) id) s1) by reflexivity. rewrite H1.
  change (0 =? 0) with true. cbv iota.
  rewrite (bindE _ _ s1 tt (set_em (set_CurrentType (VT_LOCGLOB + VT_FUN + VT_INT) (em s1)) s1)) by reflexivity. set (s2 := set_em _ s1).
  rewrite (bindE _ _ s2 tt (set_em (set_CurrentTypeExtra 0 (em s2)) s2)) by reflexivity. set (s3 := set_em _ s2).
  rewrite (bindE _ _ s3 (dead (vw s)) s3) by reflexivity. rewrite H2. cbv iota.
  rewrite (bindE _ _ s3 (aget (scs (vw s)) 0) s3) by reflexivity.
  rewrite (bindE _ _ s3 tt (set_dc (set_VarLookup (aset (VarLookup (dc s3)) id (aget (scs (vw s)) 0 + 1)) (dc s3)) s3)) by reflexivity.
  set (s4 := set_dc _ s3).
  destruct (late_view id s4) as (s' & E & V); [exact H3|].
  rewrite (bindE _ _ s4 _ s' E). exists s'. split; [reflexivity|exact V].
Qed.
Lemma reserve_view n : forall i s, i + Z.of_nat n <= 380 -> 0 <= i ->
  exists s', reserve n i s = Ok (tt, s') /\
    vw s' = (fix go (n : nat) (i : Z) (v : view) := match n with O => v | Datatypes.S n' => go n' (i + 1) (v_rsv i v) end) n i (vw s).
Proof.
  induction n as [|n IH]; intros i s H H0; cbn [reserve]; [eexists; split; reflexivity|].
  unfold VARDECL_MAX. replace (380 <=? i) with false by lia. rewrite (bindE _ _ s tt s) by reflexivity.
  match goal with |- exists s', bind ?a ?f s = _ /\ _ => rewrite (bindE a f s tt (set_dc (set_VId (aset (VId (dc s)) i (-1)) (dc s)) s)) by reflexivity end.
  set (s1 := set_dc _ s).
  rewrite (bindE _ _ s1 tt (set_dc (set_VType (aset (VType (dc s1)) i (-1)) (dc s1)) s1)) by reflexivity. set (s2 := set_dc _ s1).
  rewrite (bindE _ _ s2 tt (set_dc (set_VExtra (aset (VExtra (dc s2)) i (-1)) (dc s2)) s2)) by reflexivity. set (s3 := set_dc _ s2).
  rewrite (bindE _ _ s3 tt (set_em (set_VOff (aset (VOff (em s3)) i (-1)) (em s3)) s3)) by reflexivity. set (s4 := set_em _ s3).
  rewrite (bindE _ _ s4 tt (set_em (set_VRef (aset (VRef (em s4)) i (-1)) (em s4)) s4)) by reflexivity. set (s5 := set_em _ s4).
  rewrite (bindE _ _ s5 tt (set_dc (set_VPrev (aset (VPrev (dc s5)) i (-1)) (dc s5)) s5)) by reflexivity. set (s6 := set_dc _ s5).
  destruct (IH (i + 1) s6) as (s' & E & V); [lia|lia|]. exists s'. split; [exact E|exact V].
Qed.
Lemma enter_view s : 0 <= aget (scs (vw s)) 0 -> aget (scs (vw s)) 0 + 4 <= 380 -> cnt (vw s) = 1 ->
  exists s', enter_function s = Ok (tt, s') /\ let i := aget (scs (vw s)) 0 in
    vw s' = (let v := v_push (v_scope0 (i + 4) (v_rsv (i + 1 + 1 + 1) (v_rsv (i + 1 + 1) (v_rsv (i + 1) (v_rsv i (vw s)))))) in
             v_scope0 (aget (scs v) 0 - 4) v).
Proof.
  intros H0 H1 H2. unfold enter_function.
  rewrite (bindE _ _ s (aget (scs (vw s)) 0) s) by reflexivity.
  destruct (reserve_view (Z.to_nat GLOBAL_RESERVE) (aget (scs (vw s)) 0) s) as (s1 & E1 & V1); [cbn [GLOBAL_RESERVE Z.to_nat]; unfold GLOBAL_RESERVE; lia|exact H0|].
  rewrite (bindE _ _ s tt s1 E1). clear E1.
  assert (V1' : vw s1 = (let i := aget (scs (vw s)) 0 in v_rsv (i + 1 + 1 + 1) (v_rsv (i + 1 + 1) (v_rsv (i + 1) (v_rsv i (vw s)))))) by exact V1.
  clear V1. cbv zeta in *.
  rewrite (bindE _ _ s1 tt (set_dc (set_Scopes (aset (Scopes (dc s1)) 0 (aget (Scopes (dc s1)) 0 + GLOBAL_RESERVE)) (dc s1)) s1)) by reflexivity.
  set (s2 := set_dc _ s1).
  assert (V2 : vw s2 = v_scope0 (aget (scs (vw s)) 0 + 4) (vw s1)).
  { change (vw s2) with (v_scope0 (aget (scs (vw s1)) 0 + 4) (vw s1)). rewrite V1'. reflexivity. }
  destruct (push_view s2) as (s3 & E3 & V3). { rewrite V2, V1'. cbn [v_scope0 v_rsv cnt]. lia. }
  rewrite (bindE _ _ s2 tt s3 E3). eexists. split; [reflexivity|].
  rewrite <- V1', <- V2, <- V3. reflexivity.
Qed.

(** ** Leaving a block *)
Lemma pop_neg n : forall i s, (forall j, i <= j < i + Z.of_nat n -> aget (vid (vw s)) j < 0) -> pop_loop n i s = Ok (tt, s).
Proof.
  induction n as [|n IH]; intros i s H; cbn [pop_loop]; [reflexivity|].
  rewrite (bindE _ _ s (aget (vid (vw s)) i) s) by reflexivity.
  specialize (H i) as H0. replace (aget (vid (vw s)) i <? 0) with true by lia.
  rewrite (bindE _ _ s tt s) by reflexivity. apply IH. intros. apply H. lia.
Qed.
Lemma pop_loop_app n m : forall i s s', pop_loop n i s = Ok (tt, s') -> pop_loop (n + m) i s = pop_loop m (i + Z.of_nat n) s'.
Proof.
  induction n as [|n IH]; intros i s s' H.
  - cbn [pop_loop] in H. inversion H; subst. replace (i + Z.of_nat 0) with i by lia. reflexivity.
  - cbn [pop_loop Nat.add] in *. unfold bind at 1 in H. unfold bind at 1.
    destruct (getd (fun d => aget (VId d) i) s) as [[id s0]| | |]; try discriminate H.
    unfold bind at 1 in H. unfold bind at 1.
    match type of H with context [match ?x with _ => _ end] => destruct x as [[u s1]| | |]; try discriminate H end.
    rewrite (IH _ _ _ H). f_equal. lia.
Qed.
Lemma pop_one_unused i s : 0 <= aget (vid (vw s)) i -> (aget (vrf (vw s)) i =? 0) = true ->
  exists s', pop_loop 1 i s = Ok (tt, s') /\ vw s' = v_look (aget (vid (vw s)) i) (aget (vpr (vw s)) i) (vw s).
Proof.
  intros H R. cbn [pop_loop]. rewrite (bindE _ _ s (aget (vid (vw s)) i) s) by reflexivity.
  replace (aget (vid (vw s)) i <? 0) with false by lia.
  unfold bind at 1. rewrite (bindE _ _ s (aget (vrf (vw s)) i) s) by reflexivity. rewrite R.
  eexists. split; reflexivity.
Qed.
Lemma pop_one_used i s : 0 <= aget (vid (vw s)) i -> (aget (vrf (vw s)) i =? 0) = false ->
  aget (scs (vw s)) 0 < aget (scs (vw s)) 1 -> aget (scs (vw s)) 0 < i ->
  exists s', pop_loop 1 i s = Ok (tt, s') /\
    vw s' = v_look (aget (vid (vw s)) i) (aget (vpr (vw s)) i)
             (v_ref (aget (scs (vw s)) 0) (aget (vrf (vw s)) i)
               (v_add 0 (-2) (aget (vty (vw s)) i) (aget (vex (vw s)) i) (vw s))).
Proof.
  intros H R H1 H2. cbn [pop_loop]. rewrite (bindE _ _ s (aget (vid (vw s)) i) s) by reflexivity.
  replace (aget (vid (vw s)) i <? 0) with false by lia.
  unfold bind at 1. rewrite (bindE _ _ s (aget (vrf (vw s)) i) s) by reflexivity. rewrite R.
  cbn [negb when]. unfold bind at 1.
  rewrite (bindE _ _ s (aget (vty (vw s)) i) s) by reflexivity.
  rewrite (bindE _ _ s (aget (vex (vw s)) i) s) by reflexivity.
  rewrite (bindE _ _ s tt (set_em (set_CurrentType (aget (vty (vw s)) i) (em s)) s)) by reflexivity. set (s1 := set_em _ s).
  rewrite (bindE _ _ s1 tt (set_em (set_CurrentTypeExtra (aget (vex (vw s)) i) (em s1)) s1)) by reflexivity. set (s2 := set_em _ s1).
  destruct (late_view (-2) s2) as (s3 & E & V); [exact H1|].
  rewrite (bindE _ _ s2 _ s3 E).
  eexists. split; [reflexivity|].
  cbv beta.
  match goal with |- vw (set_dc (set_VarLookup (aset _ _ (aget (VPrev (dc ?t)) i)) _) _) = _ => set (s4 := t) end.
  assert (V4 : vw s4 = v_ref (aget (scs (vw s)) 0) (aget (vrf (vw s)) i) (vw s3)) by reflexivity.
  match goal with |- ?l = _ => change l with (v_look (aget (vid (vw s)) i) (aget (vpr (vw s4)) i) (vw s4)) end.
  rewrite V4, V. reflexivity.
Qed.

Definition kept (v v' : view) (n n' : Z) : Prop :=
  aget (scs v') 0 = n' /\ (forall k, k <> 0 -> aget (scs v') k = aget (scs v) k) /\
  cnt v' = cnt v /\ ign v' = ign v /\ dead v' = dead v /\
  (forall j, ~ (n <= j < n') -> same v v' j /\ aget (vrf v') j = aget (vrf v) j /\ aget (vpr v') j = aget (vpr v) j).

Lemma pop_ents b : forall i lk0 s b1, ents (vw s) b i lk0 -> NoDup (map fst b) ->
  (forall id, 0 <= id -> aget (look (vw s)) id = match pos b i id with Some j => j + 1 | None => lk0 id end) ->
  aget (scs (vw s)) 0 + used b <= b1 -> b1 <= i -> b1 <= aget (scs (vw s)) 1 ->
  exists s', pop_loop (length b) i s = Ok (tt, s') /\
    kept (vw s) (vw s') (aget (scs (vw s)) 0) (aget (scs (vw s)) 0 + used b) /\
    (forall id, 0 <= id -> aget (look (vw s')) id = lk0 id).
Proof.
  induction b as [|[id d] r IH]; intros i lk0 s b1 E N L B1 B2 B3.
  - exists s. split; [reflexivity|]. split; [|exact L].
    unfold kept, same. change (used nil) with 0. repeat split; auto; lia.
  - cbn [ents] in E. destruct E as [(E0 & (A1 & A2 & A3 & A4) & E2 & E3) E4].
    cbn [map fst] in N. apply NoDup_cons_iff in N as [N0 N1].
    assert (Hu : used ((id, d) :: r) = (if d_used d then 1 else 0) + used r).
    { unfold used. cbn [filter snd]. destruct (d_used d); cbn [length]; lia. }
    assert (Hr0 : 0 <= used r) by (unfold used; lia).
    assert (LH : aget (look (vw s)) id = i + 1).
    { rewrite L by assumption. cbn [pos]. rewrite Z.eqb_refl. reflexivity. }
    assert (One : exists s1, pop_loop 1 i s = Ok (tt, s1) /\
              kept (vw s) (vw s1) (aget (scs (vw s)) 0) (aget (scs (vw s)) 0 + if d_used d then 1 else 0) /\
              (forall k, aget (look (vw s1)) k = if k =? id then lk0 id else aget (look (vw s)) k)).
    { destruct (d_used d).
      - cbn [negb] in E2. destruct (pop_one_used i s) as (s1 & P & V); [lia|exact E2|lia|lia|].
        exists s1. split; [exact P|]. rewrite V, A1, E3. split.
        + unfold kept, same, v_look, v_ref, v_add. cbn [look vid vty vex vpr vof vrf scs cnt ign dead].
          repeat match goal with |- _ /\ _ => split end; auto.
          * rewrite aget_aset_same. reflexivity.
          * intros k Hk. rewrite aget_aset_other; auto.
          * intros j Hj. rewrite !aget_aset_other by lia. repeat split.
        + intro k. unfold v_look, v_ref, v_add. cbn [look]. rewrite aget_aset.
          destruct (Z.eqb_spec id k); destruct (Z.eqb_spec k id); congruence.
      - cbn [negb] in E2. destruct (pop_one_unused i s) as (s1 & P & V); [lia|exact E2|].
        exists s1. split; [exact P|]. rewrite V, A1, E3. split.
        + unfold kept, same, v_look. cbn [look vid vty vex vpr vof vrf scs cnt ign dead]. repeat split; auto; lia.
        + intro k. unfold v_look. cbn [look]. rewrite aget_aset.
          destruct (Z.eqb_spec id k); destruct (Z.eqb_spec k id); congruence. }
    destruct One as (s1 & P1 & K1 & L1). destruct K1 as (k1 & k2 & k3 & k4 & k5 & k6).
    set (n := aget (scs (vw s)) 0) in *.
    destruct (IH (i + 1) lk0 s1 b1) as (s2 & P2 & K2 & L2).
    + eapply ents_ext; [| |exact E4]; [|reflexivity]. intros j Hj. apply k6. destruct (d_used d); lia.
    + exact N1.
    + intros k Hk. rewrite L1. destruct (Z.eqb_spec k id) as [->|Ne].
      * assert (pos r (i + 1) id = None) as -> by (apply pos_in; exact N0). reflexivity.
      * rewrite L by assumption. cbn [pos]. replace (id =? k) with false by lia. reflexivity.
    + rewrite k1. lia.
    + lia.
    + rewrite k2 by lia. exact B3.
    + exists s2. split.
      { change (length ((id, d) :: r)) with (1 + length r)%nat. rewrite (pop_loop_app 1 (length r) i s s1 P1).
        replace (i + Z.of_nat 1) with (i + 1) by lia. exact P2. }
      split; [|exact L2]. destruct K2 as (q1 & q2 & q3 & q4 & q5 & q6). rewrite k1 in q1, q6.
      unfold kept. rewrite Hu. repeat match goal with |- _ /\ _ => split end.
      * lia.
      * intros k Hk. rewrite q2, k2; auto.
      * congruence.
      * congruence.
      * congruence.
      * intros j Hj. destruct (k6 j) as ((a1 & a2 & a3 & a4) & a5 & a6); [destruct (d_used d); lia|].
        destruct (q6 j) as ((c1 & c2 & c3 & c4) & c5 & c6); [destruct (d_used d); lia|].
        unfold same. repeat split; congruence.
Qed.

(** ** Every action keeps the invariant *)
Lemma NoDup_snoc (l : list Z) x : NoDup l -> ~ In x l -> NoDup (l ++ [x]).
Proof.
  intros H N. induction H as [|y l Hy H IH]; cbn [app]; [repeat constructor; auto|].
  constructor; [rewrite in_app_iff; cbn [In]; intros [?|[?|?]]; [auto|subst; apply N; left; auto|auto]|].
  apply IH. intro; apply N; right; auto.
Qed.
Lemma find_snoc b id d k : find (b ++ [(id, d)]) k = match find b k with Some e => Some e | None => if id =? k then Some d else None end.
Proof. induction b as [|[j e] r IH]; cbn [app find]; [reflexivity|]. destruct (j =? k); auto. Qed.
Lemma pos_snoc b id d : forall i k, pos (b ++ [(id, d)]) i k =
  match pos b i k with Some j => Some j | None => if id =? k then Some (i + Z.of_nat (length b)) else None end.
Proof.
  induction b as [|[j e] r IH]; intros i k; cbn [app pos length]; [replace (i + Z.of_nat 0) with i by lia; reflexivity|].
  destruct (j =? k); [reflexivity|]. rewrite IH. replace (i + 1 + Z.of_nat (length r)) with (i + Z.of_nat (Datatypes.S (length r))) by lia. reflexivity.
Qed.
Lemma ents_snoc v b id d lk : forall i, ents v b i lk -> 0 <= id -> at_decl v (i + Z.of_nat (length b)) id d ->
  (aget (vrf v) (i + Z.of_nat (length b)) =? 0) = negb (d_used d) -> aget (vpr v) (i + Z.of_nat (length b)) = lk id ->
  ents v (b ++ [(id, d)]) i lk.
Proof.
  induction b as [|[j e] r IH]; intros i E H A U P; cbn [app ents length] in *.
  - replace (i + Z.of_nat 0) with i in * by lia. auto.
  - destruct E as [E0 E1]. split; [exact E0|].
    replace (i + Z.of_nat (Datatypes.S (length r))) with (i + 1 + Z.of_nat (length r)) in * by lia. auto.
Qed.

Ltac ands := repeat match goal with |- _ /\ _ => split end.
Ltac vcbn := unfold same, v_push, v_add, v_link, v_look, v_off, v_ref, v_scope0, v_pop, v_rsv; cbn [look vid vty vex vpr vof vrf scs cnt ign dead].

Lemma global_ok g k id t x s : 0 <= id -> find g id = None -> k < 380 -> inv (mksc [g] k 0) (vw s) ->
  exists s', perform (Global id t x) s = Ok (tt, s') /\ inv (mksc [g ++ [(id, mkdecl t x 0 false)]] (k + 1) 0) (vw s').
Proof.
  intros Hid F K (A & B & D & E & G1 & G2 & G3 & G4 & L). cbn [blocks taken left length] in *.
  assert (cnt (vw s) = 1) as C by lia.
  pose proof (L id Hid) as L0. cbn [levels] in L0. rewrite F in L0.
  destruct (declare_new id t x s) as (s' & P & V).
  { rewrite C. change (1 - 1) with 0. lia. }
  { right. exact L0. }
  cbn [perform]. rewrite (bindE _ _ _ _ _ P). exists s'. split; [reflexivity|].
  rewrite C in V. change (1 - 1) with 0 in V. rewrite E in V. rewrite V.
  unfold inv. vcbn. cbn [blocks taken left length levels]. ands; try lia; auto.
  - rewrite E, aget_aset_same. reflexivity.
  - intros k0 Hk. rewrite find_snoc. specialize (L k0 Hk). cbn [levels] in L.
    destruct (find g k0) as [d|] eqn:Fk.
    + destruct L as (i & L1 & L2 & L3). exists i. assert (id <> k0) by congruence.
      rewrite aget_aset_other by lia. ands; try lia.
      eapply at_ext; [..|exact L3]; cbn [vid vty vex vof]; rewrite E; apply aget_aset_other; lia.
    + destruct (Z.eqb_spec id k0) as [<-|Ne].
      * exists k. rewrite aget_aset_same. ands; try lia.
        unfold at_decl. cbn [vid vty vex vof d_type d_extra d_place]. rewrite E, !aget_aset_same. auto.
      * rewrite aget_aset_other by lia. exact L.
Qed.
Lemma again_ok g k id t x d s : 0 <= id -> find g id = Some d -> k < 380 -> inv (mksc [g] k 0) (vw s) ->
  exists s', perform (Global id t x) s = Ok (tt, s') /\ inv (mksc [g] k 0) (vw s').
Proof.
  intros Hid F K I. pose proof I as (A & B & D & E & G1 & G2 & G3 & G4 & L). cbn [blocks taken left length] in *.
  assert (cnt (vw s) = 1) as C by lia.
  pose proof (L id Hid) as L0. cbn [levels] in L0. rewrite F in L0. destruct L0 as (i & L1 & L2 & L3).
  destruct (declare_again id t x s) as (v & s' & P & V).
  { rewrite C. change (1 - 1) with 0. lia. }
  { lia. }
  { lia. }
  cbn [perform]. rewrite (bindE _ _ _ _ _ P). exists s'. split; [reflexivity|]. rewrite V. exact I.
Qed.
Lemma function_ok g k s : k + 4 <= 380 -> inv (mksc [g] k 0) (vw s) ->
  exists s', perform Function s = Ok (tt, s') /\ inv (mksc [nil; g] k 4) (vw s').
Proof.
  intros K (A & B & D & E & G1 & G2 & G3 & G4 & L). cbn [blocks taken left length] in *.
  assert (cnt (vw s) = 1) as C by lia.
  destruct (enter_view s) as (s' & P & V); [lia|lia|exact C|]. cbn [perform]. rewrite P. exists s'. split; [reflexivity|].
  cbv zeta in V. rewrite E in V.
  set (r4 := v_rsv (k + 1 + 1 + 1) (v_rsv (k + 1 + 1) (v_rsv (k + 1) (v_rsv k (vw s))))) in V.
  assert (R : look r4 = look (vw s) /\ scs r4 = scs (vw s) /\ cnt r4 = 1 /\ ign r4 = 0 /\ dead r4 = false) by (ands; auto; cbn [r4 v_rsv ign]; change (ign r4) with (ign (vw s)); lia).
  assert (Rn : forall i, k <= i < k + 4 -> aget (vid r4) i < 0).
  { intros i Hi. unfold r4. cbn [v_rsv vid].
    destruct (Z.eq_dec i (k + 1 + 1 + 1)) as [->|]; [rewrite aget_aset_same; lia|].
    rewrite aget_aset_other by lia. destruct (Z.eq_dec i (k + 1 + 1)) as [->|]; [rewrite aget_aset_same; lia|].
    rewrite aget_aset_other by lia. destruct (Z.eq_dec i (k + 1)) as [->|]; [rewrite aget_aset_same; lia|].
    rewrite aget_aset_other by lia. replace i with k by lia. rewrite aget_aset_same. lia. }
  assert (Rs : forall i, 0 <= i < k -> same (vw s) r4 i).
  { intros i Hi. unfold same, r4. cbn [v_rsv vid vty vex vof]. rewrite !aget_aset_other by lia. auto. }
  clearbody r4. destruct R as (R1 & R2 & R3 & R4 & R5).
  assert (Q : look (vw s') = look (vw s) /\ cnt (vw s') = 2 /\ ign (vw s') = 1 /\ dead (vw s') = false /\ vid (vw s') = vid r4 /\
     (forall i, same r4 (vw s') i) /\ aget (scs (vw s')) 0 = k /\ aget (scs (vw s')) 1 = k + 4).
  { rewrite V. unfold same. cbn [v_scope0 v_push look cnt ign dead vid vty vex vof scs]. rewrite R3, R4.
    ands; auto.
    - rewrite aget_aset_same, aget_aset_other, aget_aset_same by lia. lia.
    - rewrite aget_aset_other, aget_aset_same by lia. change (1 - 1) with 0. rewrite aget_aset_same. reflexivity. }
  clear V. destruct Q as (Q1 & Q2 & Q3 & Q4 & Q5 & Q6 & Q7 & Q8).
  unfold inv. cbn [blocks taken left length]. rewrite levels_cons by discriminate.
  change (locals [g]) with 0. ands; try lia; auto.
  - intros i Hi. rewrite Q5. auto.
  - exists (aget (look (vw s))). ands.
    + cbn [levels] in *. intros id Hid. specialize (L id Hid). destruct (find g id); [|exact L].
      destruct L as (i & L1 & L2 & L3). exists i. ands; try lia; [].
      destruct (Rs i L2) as (a1 & a2 & a3 & a4). destruct (Q6 i) as (b1 & b2 & b3 & b4).
      eapply at_ext; [..|exact L3]; congruence.
    + exact I.
    + constructor.
    + rewrite Q1. reflexivity.
    + cbn [length]. change (Z.of_nat 1) with 1. rewrite Q8. lia.
Qed.
Lemma levels_scope v n b1 b bs lk : bs <> nil -> levels v n b1 (b :: bs) lk ->
  aget (scs v) (Z.of_nat (length bs)) = b1 + locals (b :: bs).
Proof.
  intros H L. rewrite levels_cons in L by assumption. destruct L as (? & ? & ? & ? & ? & ->).
  rewrite locals_cons by assumption. lia.
Qed.
Lemma enter_ok bs k l s : (2 <= length bs < 16)%nat -> inv (mksc bs k l) (vw s) ->
  exists s', perform Enter s = Ok (tt, s') /\ inv (mksc (nil :: bs) k l) (vw s').
Proof.
  intros K (A & B & D & E & G1 & G2 & G3 & G4 & L). cbn [blocks taken left] in *.
  destruct (push_view s) as (s' & P & V); [lia|]. exists s'. split; [exact P|]. rewrite V.
  assert (T : aget (scs (vw s)) (cnt (vw s) - 1) = k + l + locals bs).
  { rewrite A. destruct bs as [|b bs]; [cbn [length] in K; lia|].
    replace (Z.of_nat (length (b :: bs)) - 1) with (Z.of_nat (length bs)) by (cbn [length]; lia).
    apply (levels_scope _ k _ _ _ (aget (look (vw s)))); [|exact L]. destruct bs; [cbn [length] in K; lia|discriminate]. }
  unfold inv. vcbn. cbn [blocks taken left]. rewrite levels_cons by (destruct bs; [cbn [length] in K; lia|discriminate]).
  ands; try (cbn [length]; lia); auto.
  - rewrite aget_aset_other by lia. exact E.
  - exists (aget (look (vw s))). ands.
    + eapply levels_ext; [apply Z.le_refl|..|exact L]; vcbn; auto.
      intros i Hi. rewrite aget_aset_other by lia. reflexivity.
    + exact I.
    + constructor.
    + reflexivity.
    + cbn [scs length]. rewrite T, <- A, aget_aset_same. lia.
Qed.
Lemma local_ok b bs k l id t x p s : bs <> nil -> 0 <= id -> find b id = None -> entries (mksc (b :: bs) k l) < 380 ->
  inv (mksc (b :: bs) k l) (vw s) ->
  exists s', perform (Local id t x p) s = Ok (tt, s') /\ inv (mksc ((b ++ [(id, mkdecl t x p false)]) :: bs) k l) (vw s').
Proof.
  intros Hb Hid F K (A & B & D & E & G1 & G2 & G3 & G4 & L). unfold entries in K. cbn [blocks taken left] in *.
  assert (Lb : (1 <= length bs)%nat) by (destruct bs; [congruence|cbn [length]; lia]).
  pose proof (levels_scope _ _ _ _ _ _ Hb L) as T.
  assert (C : cnt (vw s) - 1 = Z.of_nat (length bs)) by (rewrite A; cbn [length]; lia).
  destruct (declare_new id t x s) as (s' & P & V).
  { rewrite C. lia. }
  { left. cbn [length] in A. lia. }
  rewrite C, T in P, V. set (top := k + l + locals (b :: bs)) in *.
  cbn [perform]. rewrite (bindE _ _ _ _ _ P). clear P.
  exists (set_em (set_VOff (aset (VOff (em s')) top p) (em s')) s'). split; [reflexivity|].
  match goal with |- inv _ (vw ?z) => change (vw z) with (v_off top p (vw s')) end. rewrite V. clear V s'.
  rewrite levels_cons in L by assumption. destruct L as (lk0 & L1 & L2 & L3 & L4 & L5).
  pose proof (locals_nn bs) as Nn.
  assert (Htop : top = k + l + locals bs + Z.of_nat (length b)) by (unfold top; rewrite locals_cons by assumption; lia).
  assert (Hpos : pos b (k + l + locals bs) id = None) by (apply pos_in; apply find_in; exact F).
  unfold inv. vcbn. rewrite T. cbn [blocks taken left]. rewrite levels_cons by assumption.
  ands; try (cbn [length] in *; lia); auto.
  - rewrite aget_aset_other by lia. exact E.
  - intros i Hi. rewrite aget_aset_other by lia. auto.
  - exists lk0. ands.
    + eapply levels_ext; [apply Z.le_refl|..|exact L1]; vcbn; auto.
      * intros i Hi. rewrite !aget_aset_other by lia. auto.
      * intros i Hi. rewrite !aget_aset_other by lia. ands; reflexivity.
      * intros i Hi. rewrite aget_aset_other by lia. reflexivity.
    + apply ents_snoc.
      * eapply ents_ext; [| |exact L2]; [|reflexivity]. intros j Hj. vcbn. rewrite !aget_aset_other by lia. ands; reflexivity.
      * exact Hid.
      * rewrite <- Htop. unfold at_decl. cbn [vid vty vex vof d_type d_extra d_place]. rewrite !aget_aset_same. auto.
      * rewrite <- Htop. cbn [vrf d_used]. rewrite aget_aset_same. reflexivity.
      * rewrite <- Htop. cbn [vpr]. rewrite aget_aset_same. rewrite L4, Hpos by assumption. reflexivity.
    + rewrite map_app. cbn [map fst]. apply NoDup_snoc; [exact L3|]. apply find_in. exact F.
    + intros k0 Hk. rewrite pos_snoc. rewrite aget_aset. destruct (Z.eqb_spec id k0) as [<-|Ne].
      * rewrite Hpos. lia.
      * rewrite L4 by assumption. destruct (pos b (k + l + locals bs) k0); reflexivity.
    + cbn [scs]. rewrite aget_aset_same, app_length. cbn [length]. lia.
Qed.

(** *** References *)
Lemma mark_fst b id : map fst (mark b id) = map fst b.
Proof. induction b as [|[k d] r IH]; cbn [mark map fst]; congruence. Qed.
Lemma mark_len b id : length (mark b id) = length b.
Proof. rewrite <- (map_length fst), mark_fst, map_length. reflexivity. Qed.
Lemma mark_pos b id : forall i k, pos (mark b id) i k = pos b i k.
Proof. induction b as [|[j d] r IH]; intros i k; cbn [mark pos]; [reflexivity|]. rewrite IH. reflexivity. Qed.
Lemma mark_find b id k : find (mark b id) k = option_map (fun d => if k =? id then mkdecl (d_type d) (d_extra d) (d_place d) true else d) (find b k).
Proof.
  induction b as [|[j d] r IH]; cbn [mark find]; [reflexivity|].
  destruct (Z.eqb_spec j k) as [->|]; [reflexivity|exact IH].
Qed.
Lemma mark_none b id : ~ In id (map fst b) -> mark b id = b.
Proof.
  induction b as [|[j d] r IH]; cbn [mark map fst In]; intro H; [reflexivity|].
  replace (j =? id) with false by lia. rewrite IH; tauto.
Qed.
Lemma mi_cons b q id : mark_innermost (b :: q) id = match find b id with Some _ => mark b id :: q | None => b :: mark_innermost q id end.
Proof. reflexivity. Qed.
Lemma mi_len bs id : length (mark_innermost bs id) = length bs.
Proof. induction bs as [|b q IH]; [reflexivity|]. rewrite mi_cons. destruct (find b id); cbn [length]; congruence. Qed.
Lemma mi_nil bs id : bs <> nil -> mark_innermost bs id <> nil.
Proof. intros H E. apply (f_equal (@length _)) in E. rewrite mi_len in E. destruct bs; [congruence|discriminate E]. Qed.
Lemma mi_locals bs id : locals (mark_innermost bs id) = locals bs.
Proof.
  induction bs as [|b q IH]; [reflexivity|]. rewrite mi_cons.
  destruct q as [|c q]. { destruct (find b id); reflexivity. }
  assert (c :: q <> nil) by discriminate.
  destruct (find b id).
  - rewrite (locals_cons (mark b id)), (locals_cons b), mark_len by assumption. reflexivity.
  - rewrite (locals_cons b (mark_innermost _ _)), (locals_cons b (c :: q)), IH by (try assumption; apply mi_nil; assumption). reflexivity.
Qed.
Lemma ents_mark v b id r : r <> 0 -> forall i lk j, ents v b i lk -> NoDup (map fst b) -> pos b i id = Some j ->
  ents (v_ref j r v) (mark b id) i lk.
Proof.
  intro Hr. induction b as [|[k d] q IH]; intros i lk j E N P; [discriminate P|].
  cbn [mark ents pos map fst] in *. apply NoDup_cons_iff in N as [N0 N1]. destruct E as [(E0 & E1 & E2 & E3) E4].
  destruct (Z.eqb_spec k id) as [->|Ne].
  - inversion P; subst j. split.
    + ands; auto. cbn [d_used negb v_ref vrf]. rewrite aget_aset_same. lia.
    + rewrite mark_none by assumption. eapply ents_ext; [| |exact E4]; [|reflexivity].
      intros j Hj. unfold same. cbn [v_ref vid vty vex vof vrf vpr]. rewrite aget_aset_other by lia. ands; reflexivity.
  - pose proof (pos_range _ _ _ _ P). split.
    + ands; auto. cbn [v_ref vrf]. rewrite aget_aset_other by lia. exact E2.
    + apply IH; assumption.
Qed.
Lemma levels_mark v n b1 r id d : 0 <= id -> r <> 0 -> 0 <= n <= b1 -> forall bs lk, levels v n b1 bs lk -> means bs id = Some d ->
  levels (v_ref (lk id - 1) r v) n b1 (mark_innermost bs id) lk.
Proof.
  intros Hid Hr Hn. induction bs as [|b q IH]; intros lk L F; [destruct L|].
  rewrite mi_cons. destruct q as [|c q].
  - cbn [means] in F. destruct (find b id) eqn:Fb; [|discriminate F]. cbn [levels] in *.
    intros k Hk. specialize (L k Hk). rewrite mark_find. destruct (find b k) as [e|]; cbn [option_map]; [|exact L].
    destruct L as (i & L1 & L2 & L3). exists i. ands; try lia. destruct (k =? id); exact L3.
  - assert (Hq : c :: q <> nil) by discriminate. set (cq := c :: q) in *.
    pose proof (levels_means _ _ _ _ _ id Hid L Hn) as LM. rewrite F in LM. destruct LM as (i & I1 & I2 & I3 & I4).
    rewrite levels_cons in L by assumption. destruct L as (lk0 & L1 & L2 & L3 & L4 & L5). pose proof (locals_nn cq) as Nn.
    change (means (b :: cq) id) with (match find b id with Some e => Some e | None => means cq id end) in F.
    pose proof (L4 id Hid) as Lid.
    destruct (find b id) as [e|] eqn:Fb.
    + destruct (pos b (b1 + locals cq) id) as [j|] eqn:P; [|apply pos_in in P; apply find_in in P; congruence].
      pose proof (pos_range _ _ _ _ P) as PR. rewrite Lid. replace (j + 1 - 1) with j by lia.
      rewrite levels_cons by assumption. exists lk0. ands.
      * eapply levels_ext; [apply Z.le_refl|..|exact L1]; unfold same; cbn [v_ref vid vty vex vof vrf vpr scs]; auto.
        intros z Hz. rewrite aget_aset_other by lia. ands; reflexivity.
      * apply ents_mark; assumption.
      * rewrite mark_fst. exact L3.
      * intros k Hk. rewrite mark_pos. auto.
      * rewrite mark_len. exact L5.
    + assert (P : pos b (b1 + locals cq) id = None) by (apply pos_in; apply find_in; exact Fb).
      rewrite P in Lid. pose proof (levels_means _ _ _ _ _ id Hid L1 Hn) as LM. rewrite F in LM.
      destruct LM as (i0 & J1 & J2 & J3 & J4). rewrite Lid.
      rewrite levels_cons by (apply mi_nil; assumption). exists lk0. rewrite mi_locals, mi_len. ands; auto.
      eapply ents_ext; [| |exact L2]; [|reflexivity]. intros z Hz. unfold same. cbn [v_ref vid vty vex vof vrf vpr].
      rewrite aget_aset_other by lia. ands; reflexivity.
Qed.
Lemma refer_ok bs k l id r d s : 0 <= id -> r <> 0 -> means bs id = Some d -> inv (mksc bs k l) (vw s) ->
  exists s', perform (Refer id r) s = Ok (tt, s') /\ inv (mksc (mark_innermost bs id) k l) (vw s').
Proof.
  intros Hid Hr F (A & B & D & E & G1 & G2 & G3 & G4 & L). cbn [blocks taken left] in *.
  eexists. split; [reflexivity|].
  match goal with |- inv _ (vw ?z) => change (vw z) with (v_ref (aget (look (vw s)) id - 1) r (vw s)) end.
  unfold inv. cbn [blocks taken left v_ref look vid scs cnt ign dead]. rewrite mi_len.
  ands; auto. apply (levels_mark _ _ _ _ _ d); auto. lia.
Qed.

(** *** Names that are used without a declaration *)
Lemma ag_cons b q id d : q <> nil -> add_global (b :: q) id d = b :: add_global q id d.
Proof. destruct q; [congruence|reflexivity]. Qed.
Lemma ag_len bs id d : length (add_global bs id d) = length bs.
Proof.
  induction bs as [|b q IH]; [reflexivity|]. destruct q; [reflexivity|]. rewrite ag_cons by discriminate.
  cbn [length] in *. congruence.
Qed.
Lemma ag_nil bs id d : bs <> nil -> add_global bs id d <> nil.
Proof. intros H E. apply (f_equal (@length _)) in E. rewrite ag_len in E. destruct bs; [congruence|discriminate E]. Qed.
Lemma ag_locals bs id d : locals (add_global bs id d) = locals bs.
Proof.
  induction bs as [|b q IH]; [reflexivity|]. destruct q as [|l q]; [reflexivity|]. assert (l :: q <> nil) by discriminate.
  rewrite ag_cons by assumption.
  rewrite (locals_cons b (add_global _ _ _)), (locals_cons b (l :: q)), IH by (try assumption; apply ag_nil; assumption). reflexivity.
Qed.
Lemma levels_late v v' n b1 id d : 0 <= id -> 0 <= n < b1 ->
  (forall i, i <> n -> same v v' i /\ aget (vrf v') i = aget (vrf v) i /\ aget (vpr v') i = aget (vpr v) i) ->
  (forall i, 1 <= i -> aget (scs v') i = aget (scs v) i) -> at_decl v' n id d ->
  forall bs lk, levels v n b1 bs lk -> means bs id = None ->
  levels v' (n + 1) b1 (add_global bs id d) (fun k => if id =? k then n + 1 else lk k).
Proof.
  intros Hid Hn S1 S2 AD. induction bs as [|b q IH]; intros lk L F; [destruct L|].
  destruct q as [|c q].
  - cbn [means] in F. cbn [add_global levels] in *. destruct (find b id) eqn:Fb; [discriminate F|].
    intros k Hk. specialize (L k Hk). rewrite find_snoc. destruct (find b k) as [e|] eqn:Fk.
    + destruct L as (i & L1 & L2 & L3). exists i. destruct (Z.eqb_spec id k); [congruence|]. ands; try lia.
      destruct (S1 i) as ((a1 & a2 & a3 & a4) & _); [lia|]. eapply at_ext; eassumption.
    + destruct (Z.eqb_spec id k) as [<-|Ne]; [|exact L]. exists n. ands; try lia. exact AD.
  - assert (Hq : c :: q <> nil) by discriminate. rewrite ag_cons by assumption. set (cq := c :: q) in *.
    change (means (b :: cq) id) with (match find b id with Some e => Some e | None => means cq id end) in F.
    destruct (find b id) eqn:Fb; [discriminate F|].
    rewrite levels_cons in L by assumption. destruct L as (lk0 & L1 & L2 & L3 & L4 & L5). pose proof (locals_nn cq) as Nn.
    rewrite levels_cons by (apply ag_nil; assumption). exists (fun k => if id =? k then n + 1 else lk0 k).
    rewrite ag_locals, ag_len. apply find_in in Fb. ands.
    + apply IH; assumption.
    + eapply ents_ext; [| |exact L2].
      * intros j Hj. apply S1. lia.
      * intros k Hk. destruct (Z.eqb_spec id k) as [->|]; [contradiction|reflexivity].
    + exact L3.
    + intros k Hk. destruct (Z.eqb_spec id k) as [<-|Ne]; [|apply L4; assumption].
      apply (pos_in b (b1 + locals cq)) in Fb. rewrite Fb. reflexivity.
    + rewrite S2; [exact L5|]. unfold cq. cbn [length]. lia.
Qed.
Lemma levels_top v n b1 bs : (2 <= length bs)%nat -> forall lk, levels v n b1 bs lk -> b1 <= aget (scs v) 1.
Proof.
  intros H. induction bs as [|b q IH]; intros lk L; [destruct L|]. destruct q as [|c q]; [cbn [length] in H; lia|].
  rewrite levels_cons in L by discriminate. destruct L as (lk0 & L1 & L2 & L3 & L4 & L5). pose proof (locals_nn (c :: q)) as Nn.
  destruct q as [|c2 q].
  - cbn [length] in L5. change (Z.of_nat 1) with 1 in L5. lia.
  - apply IH with (lk := lk0); [cbn [length]; lia|exact L1].
Qed.
Lemma implicit_ok bs k l id s : 0 <= id -> means bs id = None -> (2 <= length bs)%nat -> 0 < l -> inv (mksc bs k l) (vw s) ->
  exists s', perform (Implicit id) s = Ok (tt, s') /\
    inv (mksc (add_global bs id (mkdecl implicit_type 0 0 false)) (k + 1) (l - 1)) (vw s').
Proof.
  intros Hid F Lb Hl (A & B & D & E & G1 & G2 & G3 & G4 & L). cbn [blocks taken left] in *.
  pose proof (levels_means _ _ _ _ _ id Hid L) as LM. rewrite F in LM.
  pose proof (levels_top _ _ _ _ Lb _ L) as T.
  destruct (implicit_view id s) as (s' & P & V); [apply LM; lia|exact D|lia|].
  exists s'. split; [exact P|]. rewrite V. clear V P s'. rewrite E. unfold v_add. cbn [v_look look vid vty vex vpr vof vrf scs cnt ign dead]. rewrite E.
  set (v' := mkview _ _ _ _ _ _ _ _ _ _ _). unfold inv. cbn [blocks taken left]. rewrite ag_len.
  ands; try lia; auto.
  - cbn [v' scs]. rewrite aget_aset_same. reflexivity.
  - intros i Hi. cbn [v' vid]. rewrite aget_aset_other by lia. apply G4. lia.
  - replace (k + 1 + (l - 1)) with (k + l) by lia.
    assert (LL : levels v' (k + 1) (k + l) (add_global bs id (mkdecl implicit_type 0 0 false)) (fun z => if id =? z then k + 1 else aget (look (vw s)) z)).
    { apply (levels_late (vw s)); auto; try lia.
      - intros i Hi. unfold same. cbn [v' vid vty vex vpr vof vrf]. rewrite !aget_aset_other by lia. ands; reflexivity.
      - intros i Hi. cbn [v' scs]. rewrite aget_aset_other by lia. reflexivity.
      - unfold at_decl. cbn [v' vid vty vex vof d_type d_extra d_place]. rewrite !aget_aset_same. auto. }
    eapply levels_ext; [apply Z.le_refl|..|exact LL]; auto.
    + intros; unfold same; auto.
    + intros; unfold same; auto.
    + intros z Hz. cbn [v' look]. apply aget_aset.
Qed.

(** *** Leaving *)
Lemma pop_scope_eq s e i : cnt (vw s) <> 1 -> aget (scs (vw s)) (cnt (vw s) - 2) = i -> aget (scs (vw s)) (cnt (vw s) - 1) = e ->
  exists s1, vw s1 = v_pop (vw s) /\ PopScope s = pop_loop (Z.to_nat (e - i)) i s1.
Proof.
  intros H <- <-. unfold PopScope.
  rewrite (bindE _ _ s (cnt (vw s)) s) by reflexivity.
  unfold failif. replace (cnt (vw s) =? 1) with false by lia. rewrite (bindE _ _ s tt s) by reflexivity.
  eexists. split; [|reflexivity]. reflexivity.
Qed.
Lemma used_nn b : 0 <= used b.
Proof. unfold used. lia. Qed.
Lemma leave_ok b q k l s : q <> nil -> used b <= l -> inv (mksc (b :: q) k l) (vw s) ->
  exists s', perform Leave s = Ok (tt, s') /\
    inv (mksc q (k + used b) (if Nat.eqb (length q) 1 then 0 else l - used b)) (vw s').
Proof.
  intros Hq Hu (A & B & D & E & G1 & G2 & G3 & G4 & L). cbn [blocks taken left length] in *.
  assert (Lq : (1 <= length q)%nat) by (destruct q; [congruence|cbn [length]; lia]).
  pose proof (levels_top _ _ _ (b :: q) ltac:(cbn [length]; lia) _ L) as T.
  rewrite levels_cons in L by assumption. destruct L as (lk0 & L1 & L2 & L3 & L4 & L5). pose proof (locals_nn q) as Nn.
  pose proof (used_nn b) as Un.
  assert (exists z, aget (scs (vw s)) (cnt (vw s) - 2) = z /\ (length q = 1%nat -> z = k) /\ ((2 <= length q)%nat -> z = k + l + locals q)) as (z & Z0 & Z1 & Z2).
  { eexists. split; [reflexivity|]. rewrite A. split; intro Q.
    - rewrite Q. exact E.
    - destruct q as [|c q']; [congruence|]. cbn [length] in *.
      replace (Z.of_nat (Datatypes.S (Datatypes.S (length q'))) - 2) with (Z.of_nat (length q')) by lia.
      apply (levels_scope _ k _ _ _ lk0); [destruct q'; [cbn [length] in Q; lia|discriminate]|exact L1]. }
  assert (Z3 : aget (scs (vw s)) (cnt (vw s) - 1) = k + l + locals q + Z.of_nat (length b)).
  { rewrite A. rewrite <- L5. f_equal. lia. }
  destruct (pop_scope_eq s _ _ ltac:(lia) Z0 Z3) as (s1 & V1 & P1).
  cbn [perform]. rewrite P1.
  destruct (pop_ents b (k + l + locals q) lk0 s1 (k + l)) as (s2 & P2 & K2 & LK2).
  { rewrite V1. eapply ents_ext; [| |exact L2]; [|reflexivity]. intros. unfold same. auto. }
  { exact L3. }
  { rewrite V1. exact L4. }
  { rewrite V1. cbn [v_pop scs]. lia. }
  { lia. }
  { rewrite V1. exact T. }
  rewrite V1 in K2. cbn [v_pop scs] in K2. destruct K2 as (q1 & q2 & q3 & q4 & q5 & q6). cbn [v_pop cnt ign dead scs vrf vpr] in *.
  assert (PP : pop_loop (Z.to_nat (k + l + locals q + Z.of_nat (length b) - z)) z s1 = Ok (tt, s2)).
  { assert (length q = 1%nat \/ (2 <= length q)%nat) as [Q|Q] by lia.
    - specialize (Z1 Q). rewrite Z1. assert (locals q = 0) as Q0 by (destruct q as [|? [|]]; try discriminate Q; reflexivity).
      replace (Z.to_nat (k + l + locals q + Z.of_nat (length b) - k)) with (Z.to_nat l + length b)%nat by lia.
      rewrite (pop_loop_app (Z.to_nat l) (length b) k s1 s1).
      + replace (k + Z.of_nat (Z.to_nat l)) with (k + l + locals q) by lia. exact P2.
      + apply pop_neg. intros j Hj. rewrite V1. cbn [v_pop vid]. apply G4. lia.
    - specialize (Z2 Q). rewrite Z2. replace (Z.to_nat (k + l + locals q + Z.of_nat (length b) - (k + l + locals q))) with (length b) by lia. exact P2. }
  exists s2. split; [exact PP|]. rewrite E in *.
  unfold inv. cbn [blocks taken left].
  assert (LV : levels (vw s2) (k + used b) (k + l) q (aget (look (vw s2)))).
  { eapply levels_ext with (v := vw s) (n := k); [lia|..|exact L1]; auto.
    - intros i Hi. apply q6. lia.
    - intros i Hi. apply q6. lia.
    - intros i Hi. apply q2. lia. }
  ands; try lia; auto; try congruence.
  - destruct (Nat.eqb_spec (length q) 1); lia.
  - intro Q. rewrite Q. reflexivity.
  - intros i Hi. destruct (q6 i) as ((-> & _) & _). { destruct (Nat.eqb_spec (length q) 1); lia. }
    apply G4. destruct (Nat.eqb_spec (length q) 1); lia.
  - destruct (Nat.eqb_spec (length q) 1) as [Q|Q].
    + destruct q as [|g [|]]; try discriminate Q. cbn [levels] in *. exact LV.
    + replace (k + used b + (l - used b)) with (k + l) by lia. exact LV.
Qed.

Theorem act_ok c a c' s : act c a c' -> inv c (vw s) -> exists s', perform a s = Ok (tt, s') /\ inv c' (vw s').
Proof.
  intros H I. destruct H.
  - apply global_ok; assumption.
  - eapply again_ok; eassumption.
  - apply function_ok; assumption.
  - apply enter_ok; assumption.
  - apply local_ok; assumption.
  - eapply refer_ok; eassumption.
  - apply implicit_ok; assumption.
  - destruct (leave_ok b (c :: bs) k l s) as (s' & P & I'); auto; [discriminate|].
    exists s'. split; [exact P|]. destruct bs; [congruence|]. exact I'.
  - apply (leave_ok b [g] k l s); auto. discriminate.
Qed.
Theorem acts_ok l : forall c c' s, acts c l c' -> inv c (vw s) -> exists s', perform_all l s = Ok (tt, s') /\ inv c' (vw s').
Proof.
  induction l as [|a l IH]; intros c c' s H I; inversion H; subst.
  - eexists. split; [reflexivity|exact I].
  - destruct (act_ok _ _ _ s H3 I) as (s1 & P1 & I1). destruct (IH _ _ s1 H5 I1) as (s2 & P2 & I2).
    exists s2. split; [|exact I2]. cbn [perform_all]. rewrite (bindE _ _ _ _ _ P1). exact P2.
Qed.
Lemma inv_start src sched : inv fresh (vw (cc0 src sched)).
Proof.
  unfold inv. cbn [fresh blocks taken left length].
  ands; try reflexivity; try lia. intros id Hid. cbn [find]. apply aget_init.
Qed.

(** ** The function definition and its parameters in these terms *)
Lemma bind_assoc {S A B C} (m : M S A) (f : A -> M S B) (g : B -> M S C) s :
  bind (bind m f) g s = bind m (fun a => bind (f a) g) s.
Proof. unfold bind. destruct (m s) as [[a s']| | |]; reflexivity. Qed.
(** one parameter, scc.c:3306-3311 *)
Definition param (d : dcst) (i : Z) : action :=
  Local (aget (ArgId d) i) (Z.lor (aget (ArgType d) i) VT_LOCOFF) (aget (ArgExtra d) i) (4 + i * 2).
Fixpoint params (d : dcst) (n : nat) (i : Z) : list action :=
  match n with O => nil | Datatypes.S n' => param d i :: params d n' (i + 1) end.
Definition args_of (d : dcst) := (ArgId d, ArgType d, ArgExtra d).
Lemma declare_args0 id t x s : match declare id t x s with Ok (_, s') => args_of (dc s') = args_of (dc s) | _ => True end.
Proof.
  unfold declare, AddVarDecl, failif.
  rewrite (bindE _ _ s tt (set_em (set_CurrentType t (em s)) s)) by reflexivity.
  set (s1 := set_em (set_CurrentType t (em s)) s).
  rewrite (bindE _ _ s1 tt (set_em (set_CurrentTypeExtra x (em s1)) s1)) by reflexivity.
  set (s2 := set_em (set_CurrentTypeExtra x (em s1)) s1).
  rewrite (bindE _ _ s2 (cnt (vw s)) s2) by reflexivity.
  rewrite (bindE _ _ s2 (aget (scs (vw s)) (cnt (vw s) - 1)) s2) by reflexivity.
  destruct (VARDECL_MAX <=? _); [exact I|].
  rewrite (bindE _ _ s2 tt s2) by reflexivity.
  rewrite (bindE _ _ s2 (aget (look (vw s)) id) s2) by reflexivity.
  rewrite (bindE _ _ s2 (ign (vw s)) s2) by reflexivity.
  destruct ((_ =? 0) && _); reflexivity.
Qed.
Lemma declare_args id t x s v s' : declare id t x s = Ok (v, s') -> args_of (dc s') = args_of (dc s).
Proof. intro H. pose proof (declare_args0 id t x s) as D. rewrite H in D. exact D. Qed.
Lemma params_ext d d' n : forall i, args_of d' = args_of d -> params d' n i = params d n i.
Proof.
  induction n as [|n IH]; intros i E; cbn [params]; [reflexivity|]. rewrite IH by assumption. f_equal.
  unfold args_of in E. unfold param. congruence.
Qed.
Lemma bind_args_locals n : forall i s, (forall j, i <= j < i + Z.of_nat n -> 0 <= aget (ArgId (dc s)) j) ->
  bind_args n i s = perform_all (params (dc s) n i) s.
Proof.
  induction n as [|n IH]; intros i s H; [reflexivity|].
  cbn [bind_args params perform_all]. unfold param at 1. cbn [perform].
  rewrite (bindE _ _ s (aget (ArgId (dc s)) i) s) by reflexivity.
  rewrite (bindE _ _ s (aget (ArgType (dc s)) i) s) by reflexivity.
  rewrite (bindE _ _ s (aget (ArgExtra (dc s)) i) s) by reflexivity.
  set (id := aget (ArgId (dc s)) i) in *. set (t := Z.lor _ _). set (x := aget (ArgExtra (dc s)) i).
  assert (0 <= id) by (apply H; lia).
  rewrite bind_assoc. unfold declare. rewrite bind_assoc.
  rewrite (bindE (setT t) _ s tt (set_em (set_CurrentType t (em s)) s)) by reflexivity.
  rewrite (bindE (upde (set_CurrentType t)) _ s tt (set_em (set_CurrentType t (em s)) s)) by reflexivity.
  set (s1 := set_em (set_CurrentType t (em s)) s).
  rewrite bind_assoc.
  rewrite (bindE (setX x) _ s1 tt (set_em (set_CurrentTypeExtra x (em s1)) s1)) by reflexivity.
  rewrite (bindE (upde (set_CurrentTypeExtra x)) _ s1 tt (set_em (set_CurrentTypeExtra x (em s1)) s1)) by reflexivity.
  set (s2 := set_em (set_CurrentTypeExtra x (em s1)) s1).
  replace (id <? 0) with false by lia.
  rewrite (bindE (ret tt) _ s2 tt s2) by reflexivity.
  destruct (AddVarDecl id s2) as [[v s3]| | |] eqn:E; [|unfold bind; rewrite E; reflexivity..].
  rewrite !(bindE _ _ _ _ _ E).
  rewrite (bindE _ _ s3 tt (set_em (set_VOff (aset (VOff (em s3)) v (4 + i * 2)) (em s3)) s3)) by reflexivity.
  rewrite (bindE (upde _) _ s3 tt (set_em (set_VOff (aset (VOff (em s3)) v (4 + i * 2)) (em s3)) s3)) by reflexivity.
  set (s4 := set_em _ s3).
  assert (D : args_of (dc s4) = args_of (dc s)) by (apply (declare_args id t x s v s3); exact E).
  rewrite IH.
  - rewrite (params_ext (dc s) (dc s4)) by exact D. reflexivity.
  - intros j Hj. assert (ArgId (dc s4) = ArgId (dc s)) as -> by (unfold args_of in D; congruence). apply H. lia.
Qed.
