(** Properties C34, C35, C36, C39, C61 and C62: declarations, scopes, types, layout.

    Reading guide.  TypeSpec.v says what sizes, offsets and row-major addresses are, ScopeSpec.v
    what a name means after a history of declarations and blocks; neither mentions the compiler.
    [denotes d T X t]: in the compiler's tables d the type word T with its extra word X stands
    for the C type t.  [declare_bounds], [declare_struct], [perform] run the compiler's own
    functions for one declaration, without reading the tokens.  [returns src u n] compiles a
    C text and runs it (SccWitness.v).  [does] is explained in Props_SccEmit.v. *)
From Verif Require Import Base Bits Spec8086 SccRun SccState SccEmit SccLex SccDecl SccExpr SccStmt SccPut SccArith SccOps SccJump SccMem SccAddr SccWitness
  ScopeSpec ScopeFacts SccScope TypeSpec SccType SccArray SccStruct SccBase.
From Coq Require String.
Import String.StringSyntax.
Local Open Scope list_scope.

(** ** C34: sizes and layout *)
(** sizeof is the size of the type *)
Theorem C34_sizeof : forall d T X t, denotes d T X t -> (depth t < sizeof_fuel)%nat -> narrow t ->
  SizeofType T X d = Ok (size t, d).
Proof. exact SizeofType_ok. Qed.
(** a struct or union declaration makes the type with the declared members, in order, and older
    types keep their meaning *)
Theorem C34_declared : forall s tag l ims, Forall2 (declares (dc s)) l ims -> l <> nil ->
  0 <= StructCount (dc s) < STRUCT_MAX -> 0 <= StructMemCount (dc s) -> StructMemCount (dc s) + Z.of_nat (length l) <= STRUCT_MEMBER_MAX ->
  0 <= ArrayCount (dc s) -> ArrayCount (dc s) + dims_total l <= ARRAY_MAX ->
  exists s', declare_struct tag l s = Ok (tt, s') /\
    denotes (dc s') (CurrentType (em s')) (CurrentTypeExtra (em s')) (TRec (hasb tag IS_UNION_FLAG) ims) /\
    CurrentType (em s') = VT_STRUCT /\
    (forall T X t, denotes (dc s) T X t -> denotes (dc s') T X t).
Proof. exact struct_declared. Qed.
(** sizes of struct and union *)
Theorem C34_sizes : forall ms, size (TRec false ms) = sum_sizes ms /\ size (TRec true ms) = max_sizes ms.
Proof. intro ms. split; [apply size_struct|apply size_union]. Qed.

(** members lie inside their struct or union, and those of a struct do not overlap *)
Fixpoint sound (t : cty) : Prop :=
  match t with
  | TArr n e => 0 < n /\ sound e
  | TRec _ ms => (fix go l := match l with nil => True | (_, m) :: r => sound m /\ go r end) ms
  | _ => True
  end.
Fixpoint sounds (l : list (Z * cty)) : Prop := match l with nil => True | (_, m) :: r => sound m /\ sounds r end.
Lemma sound_rec u ms : sound (TRec u ms) = sounds ms.
Proof. reflexivity. Qed.
Lemma size_nonneg : forall n t, (depth t < n)%nat -> sound t -> 0 <= size t.
Proof.
  induction n as [|n IH]; intros t Hd Hs; [lia|].
  destruct t as [| | |k e|u ms]; try (cbn [size]; lia).
  - cbn [size sound depth] in *. destruct Hs as [Hk Hs]. specialize (IH e ltac:(lia) Hs). nia.
  - rewrite depth_rec in Hd. rewrite sound_rec in Hs.
    assert (A : forall i m, In (i, m) ms -> 0 <= size m).
    { intros i m Hi. apply IH.
      - assert (depth m <= depths ms)%nat; [|lia]. clear -Hi. induction ms as [|[j x] r IHr]; [destruct Hi|].
        cbn [depths]. destruct Hi as [Hi|Hi]; [inversion Hi; subst; lia|]. specialize (IHr Hi). lia.
      - clear -Hi Hs. induction ms as [|[j x] r IHr]; [destruct Hi|]. cbn [sounds] in Hs. destruct Hs.
        destruct Hi as [Hi|Hi]; [inversion Hi; subst; assumption|auto]. }
    clear -A. destruct u; [rewrite size_union|rewrite size_struct].
    + destruct ms as [|[i m] r]; cbn [max_sizes]; [lia|]. assert (0 <= size m) by (eapply A; left; reflexivity). lia.
    + induction ms as [|[i m] r IHr]; cbn [sum_sizes]; [lia|]. assert (0 <= size m) by (eapply A; left; reflexivity).
      assert (0 <= sum_sizes r) by (apply IHr; intros; eapply A; right; eassumption). lia.
Qed.
Theorem C34_inside : forall u ms id off t, sounds ms -> member u ms id = Some (off, t) ->
  0 <= off /\ off + size t <= size (TRec u ms) /\ (u = true -> off = 0).
Proof.
  intros u ms id off t Hs. revert off. 
  assert (Hs' : forall i m, In (i, m) ms -> 0 <= size m).
  { clear -Hs. induction ms as [|[j x] r IHr]; intros i m Hi; [destruct Hi|]. cbn [sounds] in Hs. destruct Hs.
    destruct Hi as [Hi|Hi]; [inversion Hi; subst; eapply size_nonneg; eauto|eauto]. }
  clear Hs. induction ms as [|[i m] r IH]; intros off E; [discriminate E|]. cbn [member] in E.
  assert (Hm : 0 <= size m) by (eapply Hs'; left; reflexivity).
  assert (Hr : forall j x, In (j, x) r -> 0 <= size x) by (intros; eapply Hs'; right; eassumption).
  assert (Sr : 0 <= sum_sizes r /\ 0 <= max_sizes r).
  { clear -Hr. induction r as [|[j x] r IHr]; cbn [sum_sizes max_sizes]; [lia|]. assert (0 <= size x) by (eapply Hr; left; reflexivity).
    destruct IHr; [intros; eapply Hr; right; eassumption|]. lia. }
  destruct (i =? id).
  - inversion E; subst. destruct u; [rewrite size_union|rewrite size_struct]; cbn [sum_sizes max_sizes]; lia.
  - destruct (member u r id) as [[o' t']|]; [|discriminate E]. cbn [option_map fst snd] in E. inversion E; subst.
    destruct (IH Hr o' eq_refl) as (A1 & A2 & A3).
    destruct u; [rewrite size_union in *|rewrite size_struct in *]; cbn [sum_sizes max_sizes].
    + specialize (A3 eq_refl). lia.
    + split; [lia|]. split; [lia|]. discriminate.
Qed.
(** a is declared before b in the struct *)
Fixpoint before (ms : list (Z * cty)) (a b : Z) : Prop :=
  match ms with nil => False | (i, _) :: r => if i =? a then a <> b /\ In b (map fst r) else i <> b /\ before r a b end.
Theorem C34_apart : forall ms a b oa ta ob tb, sounds ms -> before ms a b ->
  member false ms a = Some (oa, ta) -> member false ms b = Some (ob, tb) -> oa + size ta <= ob.
Proof.
  induction ms as [|[i m] r IH]; intros a b oa ta ob tb Hs B Ea Eb; [destruct B|].
  cbn [before member sounds] in *. destruct Hs as [Hm Hr].
  destruct (Z.eqb_spec i a).
  - inversion Ea; subst. destruct B as [N _]. replace (a =? b) with false in Eb by lia.
    destruct (member false r b) as [[o t]|] eqn:E; [|discriminate Eb]. cbn [option_map fst snd] in Eb. inversion Eb; subst.
    destruct (C34_inside false r b o tb Hr E) as (A1 & _). lia.
  - destruct B as [N B]. replace (i =? b) with false in Eb by lia.
    destruct (member false r a) as [[o t]|] eqn:E; [|discriminate Ea]. destruct (member false r b) as [[o' t']|] eqn:E'; [|discriminate Eb].
    cbn [option_map fst snd] in *. inversion Ea; inversion Eb; subst. specialize (IH a b o ta o' tb Hr B E E'). lia.
Qed.
(** s.x for a variable in the frame: no code, the frame offset grows by the member's offset, and
    the type is the member's *)
Theorem C34_member_local : forall W F s s1 id T ms u off t,
  read_name W F s = Ok (id, s1) -> CurrentType (em s1) = T -> Z.land T VT_LOCMASK = VT_LOCOFF ->
  let x := CurrentTypeExtra (em s1) in 0 <= x < StructCount (dc s1) ->
  hasb T pointerish = false -> Z.land T VT_BASEMASK = VT_STRUCT ->
  denotes (dc s1) T x (TRec u ms) -> usable ms -> member u ms id = Some (off, t) ->
  exists T' x', member_expr W F s =
      Ok (tt, set_em (set_CurrentTypeExtra x' (set_CurrentType T' (set_CurrentVal (CurrentVal (em s1) + off) (em s1)))) s1) /\
    denotes (dc s1) T' x' t /\ Z.land T' VT_LOCMASK = VT_LOCOFF /\ hasb T' VT_LVAL = true.
Proof. exact member_local. Qed.
Lemma rset_id R c : regs_ok R -> c = 0 -> rset R R_AX ((rget R R_AX + c) mod 65536) = R.
Proof.
  intros H ->. rewrite Z.add_0_r. pose proof (rget_ok R R_AX H) as K. rewrite Z.mod_small by exact K. destruct R. reflexivity.
Qed.
(** s.x when the address of s is in AX: the emitted code adds the member's offset to it *)
Theorem C34_member_address : forall W F s s1 id T ms u off t s', 16 <= W ->
  read_name W F s = Ok (id, s1) -> CurrentType (em s1) = T -> Z.land T VT_LOCMASK = 0 ->
  let x := CurrentTypeExtra (em s1) in 0 <= x < StructCount (dc s1) ->
  hasb T pointerish = false -> Z.land T VT_BASEMASK = VT_STRUCT ->
  denotes (dc s1) T x (TRec u ms) -> usable ms -> member u ms id = Some (off, t) ->
  live (em s1) -> - 2 ^ (W - 1) < off < 2 ^ (W - 1) ->
  member_expr W F s = Ok (tt, s') ->
  does (em s1) (em s') (only_regs (fun R => rset R R_AX ((rget R R_AX + off) mod 65536))) /\
  denotes (dc s') (CurrentType (em s')) (CurrentTypeExtra (em s')) t /\
  Z.land (CurrentType (em s')) VT_LOCMASK = 0 /\ hasb (CurrentType (em s')) VT_LVAL = true.
Proof.
  intros W F s s1 id T ms u off t s' HW R HT HL x Hx Hp Hb D U Fm L Ro H.
  destruct (member_address W F s s1 id T ms u off t s' R HT HL Hx Hp Hb D U Fm H) as (T' & x' & e1 & E1 & E2 & E3 & C & D1 & D2 & D3).
  rewrite E1, E2. split; [|split; [exact D1|split; [exact D2|exact D3]]].
  assert (G : does (em s1) e1 (only_regs (fun R => rset R R_AX ((rget R R_AX + off) mod 65536)))).
  { destruct C as [[-> ->]|[_ C]].
    - intros m Hw Hip _ _. apply reach_now. split; [exact Hip|]. split; [|split; reflexivity].
      symmetry. apply rset_id; [exact (proj1 Hw)|lia].
    - apply (add_does W HW R_AX off (em s1) e1); [unfold R_AX; lia|exact Ro|exact L|exact C]. }
  exact G.
Qed.
Example C34_ex :
  (* struct { char a; int b[3]; char c; } is 8 bytes long and b is at offset 1; as a union it is 6 bytes long *)
  let l := [mkmd 10 VT_CHAR 0 nil; mkmd 11 VT_INT 0 [3]; mkmd 12 VT_CHAR 0 nil] in
  let ims := [(10, TChar); (11, TArr 3 TInt); (12, TChar)] in
  Forall2 (declares (dc (cc0 nil nil))) l ims /\ dims_total l <= ARRAY_MAX /\
  size (TRec false ims) = 8 /\ size (TRec true ims) = 6 /\ member false ims 11 = Some (1, TArr 3 TInt) /\ before ims 10 12 /\ sounds ims /\ usable ims /\
  match declare_struct (Z.lor IS_UNION_FLAG 7) l (cc0 nil nil) with
  | Ok (_, s) => match SizeofType (CurrentType (em s)) (CurrentTypeExtra (em s)) (dc s) with Ok (n, _) => n = 6 | _ => False end
  | _ => False
  end /\
  returns "struct S { char a; int b[3]; struct { char *p; char q; } c[2]; int d; }; int f(struct S *s) { return s->c[1].q + s->d; } int _start() { struct S s; s.d = 100; s.c[1].q = 7; s.c[0].q = 9; return f(&s) * 100 + sizeof(s); }" zclear 1000 = Some 10715.
Proof.
  cbv zeta. split.
  { repeat constructor; cbn [m_id m_type m_extra m_dims fst snd array_of]; try lia; try (vm_compute; congruence).
    - exists TChar. split; [apply den_char|]; reflexivity.
    - exists TInt. split; [apply den_int|]; reflexivity.
    - exists TChar. split; [apply den_char|]; reflexivity. }
  split; [vm_compute; discriminate|]. split; [reflexivity|]. split; [reflexivity|]. split; [reflexivity|].
  split; [cbn; auto 10; lia|]. split; [cbn; repeat split; lia|].
  split. { split; [cbn; unfold STRUCT_MEMBER_MAX; lia|]. intros i m Hi. cbn [In] in Hi. 
    destruct Hi as [Hi|[Hi|[Hi|[]]]]; inversion Hi; subst; split; try exact I; cbn [depth]; unfold sizeof_fuel; vm_compute; lia. }
  split; [vm_compute; reflexivity|]. vm_compute. reflexivity.
Qed.

(** ** C35: block scoping *)
(** after any history of declarations, blocks and uses that stays within the compiler's limits,
    the compiler knows of every name what the block structure says, and nothing else *)
Theorem C35_scoping : forall src sched l c, acts fresh l c ->
  exists s, perform_all l (cc0 src sched) = Ok (tt, s) /\
    forall id, 0 <= id -> meaning s id = option_map seen (means (blocks c) id).
Proof.
  intros src sched l c A. destruct (acts_ok l fresh c (cc0 src sched) A (inv_start src sched)) as (s & E & Iv).
  exists s. split; [exact E|]. intros id Hid. rewrite (inv_means c s id Hid Iv). destruct (means _ _); reflexivity.
Qed.
Lemma acts_split l : forall c l2 c', acts c (l ++ l2) c' -> exists c2, acts c l c2 /\ acts c2 l2 c'.
Proof.
  induction l as [|a l IH]; intros c l2 c' A; cbn [app] in A; [exists c; split; [constructor|exact A]|].
  inversion A as [|? ? c1 ? ? A1 A2]; subst. destruct (IH _ _ _ A2) as (c2 & B1 & B2). exists c2. split; [econstructor; eassumption|exact B2].
Qed.
(** leaving a block: every name means again what it meant before the block, whatever was
    declared, redeclared or used inside, in nested blocks too *)
Theorem C35_restored : forall src sched l0 l c, nested l -> acts fresh (l0 ++ Enter :: l ++ [Leave]) c ->
  exists s s', perform_all l0 (cc0 src sched) = Ok (tt, s) /\ perform_all (Enter :: l ++ [Leave]) s = Ok (tt, s') /\
    forall id, 0 <= id -> meaning s id <> None -> meaning s' id = meaning s id.
Proof.
  intros src sched l0 l c N A. destruct (acts_split _ _ _ _ A) as (c1 & A1 & A2).
  destruct (acts_ok _ _ _ _ A1 (inv_start src sched)) as (s & E & Iv).
  destruct (acts_ok _ _ _ _ A2 Iv) as (s' & E' & Iv'). exists s, s'. split; [exact E|]. split; [exact E'|].
  intros id Hid Hm. rewrite (inv_means c1 s id Hid Iv) in *. rewrite (inv_means c s' id Hid Iv').
  destruct (means (blocks c1) id) as [d|] eqn:M1; [|destruct Hm; reflexivity].
  pose proof (block_restores l c1 c N A2 id d M1) as B. cbn [option_map] in *.
  destruct (means (blocks c) id) as [d'|]; cbn [option_map] in *; [|discriminate B]. unfold seen in B. congruence.
Qed.
(** the use of a declared name in an expression takes its type, and for a local its place *)
Theorem C35_use : forall s id t x p, CurrentVal (em s) = id -> meaning s id = Some (t, x, p) -> Z.land t VT_LOCMASK = VT_LOCOFF ->
  HandlePrimaryId s = Ok (tt, set_em (set_CurrentTypeExtra x (set_CurrentType (Z.lor t VT_LVAL) (set_CurrentVal p (em s)))) s).
Proof.
  intros s id t x p E M1 L. unfold meaning in M1. cbv zeta in M1. set (v := aget (VarLookup (dc s)) id) in *.
  destruct (Z.eqb_spec v 0) as [|N]; [discriminate M1|]. injection M1 as E1 E2 E3.
  unfold HandlePrimaryId. rewrite (bindE' _ _ s id s) by (rewrite <- E; reflexivity).
  rewrite (bindE' _ _ s v s) by reflexivity. rewrite (proj2 (Z.eqb_neq v 0) N).
  rewrite (bindE' _ _ s p s) by (rewrite <- E3; reflexivity).
  set (s1 := set_em (set_CurrentVal p (em s)) s). rewrite (bindE' _ _ s tt s1) by reflexivity.
  rewrite (bindE' _ _ s1 t s1) by (rewrite <- E1; reflexivity). cbv zeta.
  set (s2 := set_em (set_CurrentType (Z.lor t VT_LVAL) (em s1)) s1). rewrite (bindE' _ _ s1 tt s2) by reflexivity.
  assert (LL : Z.land (Z.lor t VT_LVAL) VT_LOCMASK = VT_LOCOFF) by (rewrite land_lor_disjoint by reflexivity; exact L).
  rewrite LL. change (VT_LOCOFF =? VT_LOCLIT) with false. change (VT_LOCOFF =? VT_LOCGLOB) with false. cbn [when].
  rewrite (bindE' _ _ s2 tt s2) by reflexivity. rewrite (bindE' _ _ s2 x s2) by (rewrite <- E2; reflexivity). reflexivity.
Qed.
(** a function definition enters its parameters as locals of the function, parameter i at 4 + 2 i from BP *)
Theorem C35_params : forall n s, (forall j, 0 <= j < Z.of_nat n -> 0 <= aget (ArgId (dc s)) j) ->
  bind_args n 0 s = perform_all (params (dc s) n 0) s.
Proof. intros n s H. apply bind_args_locals. exact H. Qed.
(** the limit of four late globals per function is not checked: calling a fifth function that is
    not declared yet overwrites the entry of the first parameter, and f returns 22 for f(7,8) *)
Theorem C35_late_refuted :
  returns "int f(int a,int b){ g1(); g2(); g3(); g4(); g5(); return a; } int g1(){} int g2(){} int g3(){} int g4(){} int g5(){} int _start(){ return f(7,8); }" zset 300 = Some 22 /\
  returns "int f(int a,int b){ g1(); g2(); g3(); g4(); return a; } int g1(){} int g2(){} int g3(){} int g4(){} int g5(){} int _start(){ return f(7,8); }" zset 300 = Some 7.
Proof. split; vm_compute; reflexivity. Qed.
Example C35_ex :
  (* int g; int f(char a) { int b; { char *g; int a; h(); { int b; } } *)
  let l := [Global 5 3 0; Function; Local 6 (2 + VT_LOCOFF) 0 4; Local 7 (3 + VT_LOCOFF) 0 (-2)] in
  let blk := [Local 5 (130 + VT_LOCOFF) 0 (-4); Local 6 (3 + VT_LOCOFF) 0 (-6); Implicit 9; Enter; Local 7 3 0 (-8); Leave] in
  nested blk /\ (exists c, acts fresh (l ++ Enter :: blk ++ [Leave]) c) /\
  match perform_all (l ++ Enter :: blk) (cc0 nil nil) with
  | Ok (_, s) => meaning s 5 = Some (130 + VT_LOCOFF, 0, -4) /\ meaning s 6 = Some (3 + VT_LOCOFF, 0, -6) /\ meaning s 7 = Some (3 + VT_LOCOFF, 0, -2)
                 /\ meaning s 9 = Some (implicit_type, 0, 0)
  | _ => False end /\
  match perform_all (l ++ Enter :: blk ++ [Leave]) (cc0 nil nil) with
  | Ok (_, s) => meaning s 5 = Some (3, 0, 0) /\ meaning s 6 = Some (2 + VT_LOCOFF, 0, 4) /\ meaning s 7 = Some (3 + VT_LOCOFF, 0, -2)
                 /\ meaning s 9 = Some (implicit_type, 0, 0) /\ meaning s 8 = None
  | _ => False end /\
  returns "int g; int f(int a) { int b; b = 1; { char *g; int a; a = 50; { int b; b = 60; } g = 0; a = a + b; if (a != 51) return 0; } return a * 10 + b + g; } int _start() { g = 3; return f(7); }" zclear 1000 = Some 74.
Proof.
  cbv zeta. split; [|split].
  - apply nest_local, nest_local, nest_implicit, (nest_block [Local 7 3 0 (-8)] nil); [apply nest_local|]; apply nest_nil.
  - eexists. cbn [app].
    repeat (eapply acts_cons; [first [apply act_global; [lia|reflexivity|lia]|apply act_function; lia|apply act_enter; cbn; lia
       |apply act_local; [discriminate|lia|reflexivity|vm_compute; reflexivity]
       |apply act_implicit; [lia|reflexivity|cbn; lia|lia]|apply act_leave; [discriminate|vm_compute; discriminate]
       |apply act_leave_function; vm_compute; discriminate]|]). apply acts_nil.
  - vm_compute. repeat split; reflexivity.
Qed.

(** ** C36: arrays *)
(** T a[d1]...[dk] makes the array type with those bounds; older types keep their meaning *)
Theorem C36_declared : forall s l bt bx e, clr (CurrentType (em s)) VT_STATIC = bt -> CurrentTypeExtra (em s) = bx ->
  bt <> VT_ARRAY -> denotes (dc s) bt bx e -> Forall (fun n => 0 < n) l ->
  0 <= ArrayCount (dc s) -> ArrayCount (dc s) + Z.of_nat (length l) <= ARRAY_MAX ->
  exists s', declare_bounds l s = Ok (tt, s') /\
    denotes (dc s') (clr (CurrentType (em s')) VT_STATIC) (CurrentTypeExtra (em s')) (array_of l e) /\
    Z.land (CurrentType (em s')) VT_STATIC = Z.land (CurrentType (em s)) VT_STATIC /\
    (forall T X t, denotes (dc s) T X t -> denotes (dc s') T X t).
Proof. exact array_declared. Qed.
Theorem C36_size : forall dims e, size (array_of dims e) = prod dims * size e.
Proof. exact size_array. Qed.
(** indexing one bound after the other gives the row-major address *)
Theorem C36_step : forall n ds i is_ e,
  row_major (n :: ds) (i :: is_) (size e) = i * size (array_of ds e) + row_major ds is_ (size e).
Proof. intros. cbn [row_major]. rewrite size_array. reflexivity. Qed.
(** elements lie inside the array, and different elements do not overlap *)
Theorem C36_inside : forall dims idx sz, in_bounds dims idx -> 0 < sz ->
  0 <= row_major dims idx sz /\ row_major dims idx sz + sz <= prod dims * sz.
Proof. exact row_major_inside. Qed.
Theorem C36_apart : forall dims idx idx' sz, in_bounds dims idx -> in_bounds dims idx' -> 0 < sz -> idx <> idx' ->
  row_major dims idx sz + sz <= row_major dims idx' sz \/ row_major dims idx' sz + sz <= row_major dims idx sz.
Proof. exact row_major_apart. Qed.
(** [v] applied to an array whose address is in AX: the emitted code adds v elements to the
    address, and the type is the element's (again an array if bounds remain) *)
Theorem C36_index : forall W F r s s0 s1 s' v n el, 16 <= W ->
  next W F s = Ok (tt, s0) -> CurrentType (em s0) = Z.lor VT_ARRAY VT_LVAL ->
  denotes (dc s0) (CurrentType (em s0)) (CurrentTypeExtra (em s0)) (TArr n el) ->
  (depth el < sizeof_fuel)%nat -> narrow el -> live (em s0) ->
  constant_at W F r (indexing s0) s1 v -> - 2 ^ (W - 1) < v * size el < 2 ^ (W - 1) ->
  index_expr W F r s = Ok (tt, s') ->
  does (em s0) (em s') (only_regs (fun R => rset R R_AX ((rget R R_AX + v * size el) mod 65536))) /\
  denotes (dc s') (CurrentType (em s')) (CurrentTypeExtra (em s')) el /\
  Z.land (CurrentType (em s')) VT_LOCMASK = 0 /\ hasb (CurrentType (em s')) VT_LVAL = true.
Proof.
  intros W F r s s0 s1 s' v n el HW Hn HT D Hd Hw L K B H.
  destruct (index_address W F r s s0 s1 s' v n el Hn HT D Hd Hw (proj1 L)) as (e0 & e1 & T' & x' & E1 & (y & E0) & E2 & E3 & D1 & D2 & D3); try assumption.
  { rewrite (proj1 (proj2 L)). reflexivity. }
  rewrite E2, E3. split; [|split; [exact D1|split; [exact D2|exact D3]]].
  rewrite ci_small in E1 by lia. subst e0.
  set (e0 := set_CurrentTypeExtra y _) in E1.
  exact (add_does W HW R_AX (v * size el) e0 e1 ltac:(unfold R_AX; lia) B L E1).
Qed.
Lemma put_type bs : forall e, CurrentType (put bs e) = CurrentType e.
Proof. induction bs as [|b r IH]; intros e; cbn [put]; auto. rewrite IH. reflexivity. Qed.
Lemma put_extra bs : forall e, CurrentTypeExtra (put bs e) = CurrentTypeExtra e.
Proof. induction bs as [|b r IH]; intros e; cbn [put]; auto. rewrite IH. reflexivity. Qed.
(** one after the other, when the first part changes registers only *)
Lemma does_regs_seq e e1 bs f g : live e -> (exists a, e1 = put a e) -> live (put bs e1) ->
  (forall R, regs_ok R -> regs_ok (f R)) ->
  does e e1 (only_regs f) -> does e1 (put bs e1) (only_regs g) -> does e (put bs e1) (only_regs (fun R => g (f R))).
Proof.
  intros L [a E1] L2 Ok D1 D2 s Hw Hi Ld _.
  assert (A1 : CodeAddress e1 = CodeAddress e + Z.of_nat (length a)) by (rewrite E1; apply put_addr).
  assert (A2 : CodeAddress (put bs e1) = CodeAddress e1 + Z.of_nat (length bs)) by apply put_addr.
  pose proof (live_lo _ L). pose proof (live_room _ _ L2).
  eapply reaches_trans.
  - apply (D1 s Hw Hi); [|exact I]. intros k Hk. rewrite Ld by lia. apply put_before. lia.
  - intros s2 (I2 & R2 & G2 & M2).
    assert (W2 : wf s2). { destruct Hw as (W1 & W2 & W3 & W4). unfold wf. rewrite R2, G2, M2, I2. split; [apply Ok; exact W1|]. split; [exact W2|]. split; [unfold is16; lia|exact W4]. }
    eapply reaches_imp.
    + apply (D2 s2 W2 I2); [|exact I]. intros k Hk. rewrite M2, G2. apply Ld. lia.
    + intros s3 (I3 & R3 & G3 & M3). split; [exact I3|]. unfold only_regs. rewrite R3, R2, G3, G2, M3, M2. auto.
Qed.
(** the emitter after loading the address of the array variable of s0 *)
Definition base_loaded (W : Z) (s0 : cc) (e : emst) : Prop :=
  let x := CurrentTypeExtra (em s0) in
  EmitLoadAddr W R_AX VT_LOCOFF (CurrentVal (em s0))
    (set_CurrentTypeExtra (aget (ADExtra (dc s0)) x) (set_CurrentType (aget (ADType (dc s0)) x + VT_PTR1) (em s0))) = Ok (tt, e).
(** a[v] for an array variable in the frame: AX gets the address of the element *)
Theorem C36_index_local : forall W F r s s0 s1 s' v n el, 16 <= W ->
  next W F s = Ok (tt, s0) -> CurrentType (em s0) = frame_array ->
  denotes (dc s0) (CurrentType (em s0)) (CurrentTypeExtra (em s0)) (TArr n el) ->
  (depth el < sizeof_fuel)%nat -> narrow el -> live (em s0) ->
  (forall e, base_loaded W s0 e -> constant_at W F r (indexing_at s0 e) s1 v) -> - 2 ^ (W - 1) < v * size el < 2 ^ (W - 1) ->
  index_expr W F r s = Ok (tt, s') ->
  does (em s0) (em s') (only_regs (fun R => rset R R_AX ((bp R + CurrentVal (em s0) + v * size el) mod 65536))) /\
  denotes (dc s') (CurrentType (em s')) (CurrentTypeExtra (em s')) el /\
  Z.land (CurrentType (em s')) VT_LOCMASK = 0 /\ hasb (CurrentType (em s')) VT_LVAL = true.
Proof.
  intros W F r s s0 s1 s' v n el HW Hn HT D Hd Hw L K B H.
  set (x := CurrentTypeExtra (em s0)) in *.
  set (ea := set_CurrentTypeExtra (aget (ADExtra (dc s0)) x) (set_CurrentType (aget (ADType (dc s0)) x + VT_PTR1) (em s0))).
  assert (La : live ea) by exact L. assert (Av : is_var ea VT_LOCOFF (CurrentVal (em s0))) by (left; reflexivity).
  assert (PE : forall e, EmitLoadAddr W R_AX VT_LOCOFF (CurrentVal (em s0)) ea = Ok (tt, e) -> exists a, e = put a ea).
  { intros e He. unfold EmitLoadAddr in He. change (VT_LOCOFF =? VT_LOCOFF) with true in He. cbv iota in He.
    apply modrm_emits in He; [|unfold R_AX; lia|exact La]. destruct He as (-> & _). unfold add_ref. change (VT_LOCOFF =? VT_LOCGLOB) with false.
    cbn [andb]. eexists. reflexivity. }
  destruct (index_frame W F r s s0 s1 s' v n el Hn HT D Hd Hw) as (e & e0 & e1 & T' & x' & E & E1 & (y & E0) & E2 & E3 & D1 & D2 & D3); try assumption.
  { intros e He. fold x ea in He. destruct (addr_does W R_AX VT_LOCOFF _ ea e tt ltac:(unfold R_AX; lia) La Av He) as (Le & _).
    destruct (PE e He) as (a & ->). split; [exact (proj1 Le)|]. split; [rewrite (proj1 (proj2 Le)); reflexivity|].
    split; [apply put_type|]. split; [apply put_extra|]. apply K. exact He. }
  fold x ea in E. rewrite E2, E3. split; [|split; [exact D1|split; [exact D2|exact D3]]].
  rewrite ci_small in E1 by lia. destruct (PE e E) as (a & Ea).
  destruct (addr_does W R_AX VT_LOCOFF _ ea e tt ltac:(unfold R_AX; lia) La Av E) as (Le & De).
  assert (L0 : live e0) by (rewrite E0; exact Le).
  pose proof (add_does W HW R_AX (v * size el) e0 e1 ltac:(unfold R_AX; lia) B L0 E1) as D5.
  destruct (add_emits W HW R_AX (v * size el) e0 e1 ltac:(unfold R_AX; lia) B L0 E1) as [-> L1].
  set (bs := add_code R_AX (v * size el)) in *.
  assert (PA : CodeAddress (put bs e) = CodeAddress (put bs e0)) by (rewrite !put_addr, E0; reflexivity).
  assert (PO : forall bs p q, Output p = Output q -> CodeAddress p = CodeAddress q -> Output (put bs p) = Output (put bs q)).
  { clear. induction bs as [|b bs IH]; intros p q E F; cbn [put]; [exact E|]. apply IH; cbn [put1 Output CodeAddress set_CodeAddress set_Output]; rewrite ?E, ?F; reflexivity. }
  assert (PQ : Output (put bs e) = Output (put bs e0)) by (apply PO; rewrite E0; reflexivity).
  assert (D6 : does e (put bs e) (only_regs (fun R => rset R R_AX ((rget R R_AX + v * size el) mod 65536)))).
  { assert (CE : CodeAddress e0 = CodeAddress e) by (rewrite E0; reflexivity).
    intros t Ht Hi Ld _. rewrite PA. apply (D5 t Ht); [rewrite CE; exact Hi| |exact I].
    intros k Hk. rewrite <- PQ. apply Ld. rewrite PA, <- CE. exact Hk. }
  assert (D7 : does ea (put bs e) (only_regs (fun R => rset (rset R R_AX ((bp R + CurrentVal (em s0)) mod 65536)) R_AX
     ((rget (rset R R_AX ((bp R + CurrentVal (em s0)) mod 65536)) R_AX + v * size el) mod 65536)))).
  { apply (does_regs_seq ea e bs (fun R => rset R R_AX ((bp R + CurrentVal (em s0)) mod 65536)) (fun R => rset R R_AX ((rget R R_AX + v * size el) mod 65536)));
      [exact La|exists a; exact Ea| | | |exact D6].
    - destruct Le as (Q1 & Q2 & Q3). apply put_live; [repeat split; try assumption; apply Q3|].
      destruct L1 as (_ & _ & R1 & R2). rewrite put_addr in R1, R2. rewrite !put_addr in PA. unfold room in *. lia.
    - intros R HR. apply rset_ok; [exact HR|]. apply Z.mod_pos_bound. lia.
    - exact De. }
  intros t Ht Hi Ld _. change (CodeAddress (set_CurrentTypeExtra x' (set_CurrentType T' (put bs e0)))) with (CodeAddress (put bs e0)).
  rewrite <- PA. eapply reaches_imp.
  - apply (D7 t Ht Hi); [|exact I]. unfold loaded in *. rewrite PA, PQ. exact Ld.
  - intros t' (I' & R' & G' & M'). split; [exact I'|]. split; [|split; assumption]. rewrite R'. destruct (rg t). cbn -[Z.modulo Z.add Z.mul].
    rewrite Zplus_mod_idemp_l. reflexivity.
Qed.
Example C36_ex :
  (* int a[2][3] has two bounds, 12 bytes; a[1][2] is at offset 10 *)
  row_major [2; 3] [1; 2] 2 = 10 /\ in_bounds [2; 3] [1; 2] /\ in_bounds [2; 3] [0; 2] /\ prod [2; 3] * 2 = 12 /\
  match declare_bounds [2; 3] (set_em (set_CurrentType VT_INT (em (cc0 nil nil))) (cc0 nil nil)) with
  | Ok (_, s) => CurrentType (em s) = VT_ARRAY /\ aget (ADBound (dc s)) (CurrentTypeExtra (em s)) = 2 /\
      match SizeofType (CurrentType (em s)) (CurrentTypeExtra (em s)) (dc s) with Ok (n, _) => n = 12 | _ => False end
  | _ => False end /\
  returns "int t[2][3]; int _start() { int a[3][4][5]; int i; int j; int *p; p = a; t[1][2] = 5; t[0][2] = 6; a[0][0][0] = 1; a[2][3][4] = 77; a[1][2][3] = 8; i = 1; j = 2; return a[i][j][3] * 100 + p[59] + t[i][2] + t[0][j]; }" zclear 2000 = Some 888.
Proof. split; [reflexivity|]. split; [cbn; lia|]. split; [cbn; lia|]. split; [reflexivity|]. vm_compute. repeat split; reflexivity. Qed.
(** a state that meets the hypotheses of C36_index: x[1] read with x of type int [2][3] *)
Definition ex_index : option (cc * cc * cc * cc) :=
  let s := cc0 (bytes_of "[1];") nil in
  match declare_bounds [2; 3] (set_em (set_IsDeadCode false (set_CurrentType VT_INT (em s))) s) with
  | Ok (_, s) => match GetToken 16 100 s with
    | Ok (_, s) => let s := set_em (set_CurrentType (Z.lor VT_ARRAY VT_LVAL) (em s)) s in
      match next 16 100 s with
      | Ok (_, s0) => match pExpr (tie 16 100 30) (indexing s0) with
        | Ok (_, s1) => match Expect 16 100 ch_rbrack s1, index_expr 16 100 (tie 16 100 30) s with
          | Ok (_, s2), Ok (_, s') => Some (s, s0, s2, s') | _, _ => None end
        | _ => None end
      | _ => None end
    | _ => None end
  | _ => None end.
Example C36_hyps : exists s s0 s1 s', ex_index = Some (s, s0, s1, s') /\
  next 16 100 s = Ok (tt, s0) /\ CurrentType (em s0) = Z.lor VT_ARRAY VT_LVAL /\ live (em s0) /\
  constant_at 16 100 (tie 16 100 30) (indexing s0) s1 1 /\ index_expr 16 100 (tie 16 100 30) s = Ok (tt, s') /\
  denotes (dc s0) (CurrentType (em s0)) (CurrentTypeExtra (em s0)) (TArr 2 (TArr 3 TInt)).
Proof.
  destruct ex_index as [[[[s s0] s1] s']|] eqn:E; [|vm_compute in E; discriminate E].
  exists s, s0, s1, s'. split; [reflexivity|].
  vm_compute in E. injection E as <- <- <- <-.
  split; [vm_compute; reflexivity|]. split; [reflexivity|]. split; [repeat split; vm_compute; congruence|].
  split; [eexists; split; [vm_compute; reflexivity|]; split; [vm_compute; reflexivity|]; split; [vm_compute; reflexivity|]; eexists; vm_compute; reflexivity|].
  split; [vm_compute; reflexivity|].
  match goal with |- denotes ?d ?T ?X _ => assert (A : aget (ADBound d) X = 2) by (vm_compute; reflexivity);
    assert (B : aget (ADBound d) (aget (ADExtra d) X) = 3) by (vm_compute; reflexivity); rewrite <- A, <- B;
    apply den_arr; [vm_compute; reflexivity|vm_compute; reflexivity|vm_compute; split; congruence|vm_compute; congruence|];
    apply den_arr; [vm_compute; reflexivity|vm_compute; reflexivity|vm_compute; split; congruence|vm_compute; congruence|] end.
  apply den_int; vm_compute; reflexivity.
Qed.

(** ** C39: the address of the first function *)
(** _start is the first function, its code begins at 258 = 0x102 (after xor bp,bp), but its
    address in the program is another *)
Theorem C39_refuted : returns "int _start() { return _start != 258; }" zset 100 = Some 1 /\
  code_of "int _start() { return 1; }" = Some [49; 237; 85; 137; 229; 184; 1; 0; 93; 195].
Proof. split; vm_compute; reflexivity. Qed.

(** ** C61: typedef names *)
(** a typedef name in a declaration, before a token that is no word (and no string), stands for
    the type and extra word of its declaration *)
Theorem C61_name : forall W F (r : recs) s t x p s2, (2 <= F)%nat ->
  TOK_ID <= TokenType (lx s) -> meaning s (TokenType (lx s) - TOK_KEYWORD) = Some (t, x, p) -> hasb t VT_TYPEDEF = true ->
  GetToken W F (set_em (set_CurrentTypeExtra x (set_CurrentType (clr t VT_TYPEDEF) (em s))) s) = Ok (tt, s2) ->
  em s2 = set_CurrentTypeExtra x (set_CurrentType (clr t VT_TYPEDEF) (em s)) ->
  TokenType (lx s2) < TOK_KEYWORD ->
  ParseDeclSpecs W F r s = Ok (tt, s2) /\ CurrentType (em s2) = clr t VT_TYPEDEF /\ CurrentTypeExtra (em s2) = x.
Proof.
  intros W F r s t x p s2 HF Ht M1 Td G Ee T2.
  split; [|rewrite Ee; split; reflexivity]. unfold meaning in M1. cbv zeta in M1.
  set (v := aget (VarLookup (dc s)) (TokenType (lx s) - TOK_KEYWORD)) in *.
  destruct (Z.eqb_spec v 0) as [|N]; [discriminate M1|]. injection M1 as E1 E2 _.
  destruct F as [|[|F]]; try lia. set (F2 := Datatypes.S (Datatypes.S F)) in *. unfold ParseDeclSpecs.
  set (s0 := set_em (set_CurrentType VT_INT (em s)) s).
  rewrite (bindE' _ _ s tt s0) by reflexivity.
  match goal with |- loopM F2 ?b _ _ = _ => set (body := b); change (loopM (Datatypes.S (Datatypes.S F)) body 0 s0 = Ok (tt, s2)) end.
  cbn [loopM]. unfold body.
  set (k := TokenType (lx s)) in *.
  rewrite (bindE' _ _ s0 (inl 0) s2).
  - rewrite (bindE' _ _ s2 (inr tt) s2); [reflexivity|].
    rewrite (bindE' _ _ s2 (TokenType (lx s2)) s2) by reflexivity. set (k2 := TokenType (lx s2)) in *.
    rewrite !(fun a b => proj2 (Z.eqb_neq a b)) by (unfold TOK_KEYWORD, TOK_VOID, TOK_CHAR, TOK_SHORT, TOK_INT, TOK_VA_LIST, TOK_AUTO, TOK_CONST, TOK_EXTERN,
      TOK_REGISTER, TOK_VOLATILE, TOK_STATIC, TOK_SIGNED, TOK_TYPEDEF, TOK_UNSIGNED, TOK_ENUM, TOK_STRUCT, TOK_UNION in *; lia).
    cbn [orb]. unfold LookupTypedef.
    rewrite (bindE' _ _ s2 0 s2).
    + change (negb (0 =? 0)) with false. cbv iota.
      rewrite (bindE' _ _ s2 tt s2); [reflexivity|]. unfold upde, upd. rewrite Z.lor_0_r. destruct s2 as [l2 e2 d2]. cbn [em]. destruct e2. reflexivity.
    + rewrite (bindE' _ _ s2 k2 s2) by reflexivity. replace (k2 <? TOK_ID) with true by (unfold TOK_ID, TOK_KEYWORD in *; lia). reflexivity.
  - rewrite (bindE' _ _ s0 k s0) by reflexivity. unfold TOK_ID in Ht.
    rewrite !(fun a b => proj2 (Z.eqb_neq a b)) by (unfold TOK_KEYWORD, TOK_VOID, TOK_CHAR, TOK_SHORT, TOK_INT, TOK_VA_LIST, TOK_AUTO, TOK_CONST, TOK_EXTERN,
      TOK_REGISTER, TOK_VOLATILE, TOK_STATIC, TOK_SIGNED, TOK_TYPEDEF, TOK_UNSIGNED, TOK_ENUM, TOK_STRUCT, TOK_UNION in *; lia).
    cbn [orb]. unfold LookupTypedef.
    rewrite (bindE' _ _ s0 v s0).
    + rewrite (proj2 (Z.eqb_neq v 0) N). cbn [negb].
      rewrite (bindE' _ _ s0 t s0) by (rewrite <- E1; reflexivity). rewrite (bindE' _ _ s0 x s0) by (rewrite <- E2; reflexivity).
      set (s1 := set_em (set_CurrentType (clr t VT_TYPEDEF) (em s)) s).
      rewrite (bindE' _ _ s0 tt s1) by reflexivity.
      rewrite (bindE' _ _ s1 tt (set_em (set_CurrentTypeExtra x (em s1)) s1)) by reflexivity.
      unfold s1. cbn [em set_em]. rewrite (bindE' _ _ _ _ _ G). reflexivity.
    + rewrite (bindE' _ _ s0 k s0) by reflexivity. replace (k <? TOK_ID) with false by (unfold TOK_ID; lia).
      rewrite (bindE' _ _ s0 v s0) by reflexivity. rewrite (proj2 (Z.eqb_neq v 0) N).
      rewrite (bindE' _ _ s0 t s0) by (rewrite <- E1; reflexivity). rewrite Td. reflexivity.
Qed.
(** but that type word also carries the mark of a variable, global or local, left by the typedef
    declaration: as the type of a parameter or member a global typedef makes the wrong variable,
    and arrays of and casts to a typedef name do not compile *)
Theorem C61_use_refuted :
  returns "typedef int T; int f(T b) { return b; } int _start(){ return f(7); }" zset 300 = Some 0 /\
  returns "typedef int T; struct S { T a; T b; }; int _start(){ struct S s; s.b = 5; s.a = 3; return s.b; }" zset 300 = Some 0 /\
  code_of "typedef int T; int _start() { int a; a = 3; return (T)a; }" = None /\
  code_of "int _start() { typedef int T; int a; a = 3; return (T)a; }" = None /\
  code_of "int _start() { typedef int T; T a[3]; a[0] = 3; return a[0]; }" = None.
Proof. repeat split; vm_compute; reflexivity. Qed.
(** variables and pointers of a typedef type inside the function work *)
Example C61_ex : returns "int _start(){ typedef int T; typedef struct { int x; char y; } *P; T t; P p; int a[3]; p = a; p->x = 7; p->y = 3; t = 20; return t + a[0] + (a[1] & 255) + sizeof(T); }" zclear 300 = Some 32.
Proof. vm_compute. reflexivity. Qed.
(** the hypotheses of C61_name: the name is read, then a star *)
Definition ex_typedef : option (cc * cc) :=
  match (SccState.bind (inlx (AddBuiltins 16)) (fun _ => SccState.bind (updl (set_InBufPtr 0)) (fun _ => GetToken 16 100))) (cc0 (bytes_of "T *x;") nil) with
  | Ok (_, s) =>
      match perform_all [Global (TokenType (lx s) - TOK_KEYWORD) (VT_CHAR + VT_TYPEDEF) 0] s with
      | Ok (_, s) => match GetToken 16 100 (set_em (set_CurrentTypeExtra 0 (set_CurrentType VT_CHAR (em s))) s) with
                     | Ok (_, s2) => Some (s, s2) | _ => None end
      | _ => None end
  | _ => None end.
Example C61_hyps : exists s s2, ex_typedef = Some (s, s2) /\ TOK_ID <= TokenType (lx s) /\ meaning s (TokenType (lx s) - TOK_KEYWORD) = Some (VT_CHAR + VT_TYPEDEF, 0, 0) /\
  GetToken 16 100 (set_em (set_CurrentTypeExtra 0 (set_CurrentType VT_CHAR (em s))) s) = Ok (tt, s2) /\
  em s2 = set_CurrentTypeExtra 0 (set_CurrentType VT_CHAR (em s)) /\ TokenType (lx s2) = 42.
Proof.
  destruct ex_typedef as [[s s2]|] eqn:E; [|vm_compute in E; discriminate E].
  exists s, s2. split; [reflexivity|]. vm_compute in E. injection E as <- <-. repeat split; vm_compute; congruence.
Qed.

(** ** C62: the type of the second declarator *)
(** int *a[2], b: the base type of b is computed back from the type of a.  It is right exactly
    when a is no array, or an array with one bound of the plain base type *)
Theorem C62_base : forall s t x k l, CurrentType (em s) = t -> CurrentTypeExtra (em s) = x ->
  0 <= t -> Z.land t VT_PTRMASK = 0 -> Z.land t VT_STATIC = 0 -> Z.land t VT_BASEMASK <> VT_ARRAY ->
  0 <= k <= 3 -> Forall (fun n => 0 < n) l ->
  0 <= ArrayCount (dc s) -> ArrayCount (dc s) + Z.of_nat (length l) <= ARRAY_MAX ->
  exists s', SccState.bind (declarator k l) (fun _ => SaveBaseType) s = Ok (tt, s') /\
    ((BaseType (dc s') = t /\ BaseTypeExtra (dc s') = x) <-> (l = nil \/ k = 0 /\ length l = 1%nat)).
Proof. exact base_after. Qed.
(** so these variables have the wrong size: int b after int a[2][3] has 6 bytes, char b after char *a[2] has 2,
    and int b[4] after int a[2][3] is an array of 4 arrays *)
Theorem C62_size_refuted :
  returns "int _start() { int a[2][3], b; return sizeof(b); }" zset 100 = Some 6 /\
  returns "int _start() { char *a[2], b; return sizeof(b); }" zset 100 = Some 2 /\
  returns "int _start() { int a[2][3], b[4]; return sizeof(b); }" zset 100 = Some 24 /\
  returns "int _start() { int a[2][3], b[4]; return sizeof(a); }" zset 100 = Some 16 /\
  returns "int _start() { typedef char *P; P a, b; return sizeof(b); }" zset 100 = Some 1.
Proof. repeat split; vm_compute; reflexivity. Qed.
Example C62_ex :
  returns "int _start() { char a, *b; return sizeof(b); }" zset 100 = Some 2 /\
  returns "int _start() { char a[5], b; return sizeof(b); }" zset 100 = Some 1 /\
  returns "int _start() { char *a, b; return sizeof(b); }" zset 100 = Some 1.
Proof. repeat split; vm_compute; reflexivity. Qed.

Print Assumptions C34_sizeof.
Print Assumptions C34_declared.
Print Assumptions C34_sizes.
Print Assumptions C34_inside.
Print Assumptions C34_apart.
Print Assumptions C34_member_local.
Print Assumptions C34_member_address.
Print Assumptions C35_scoping.
Print Assumptions C35_restored.
Print Assumptions C35_use.
Print Assumptions C35_params.
Print Assumptions C35_late_refuted.
Print Assumptions C36_declared.
Print Assumptions C36_size.
Print Assumptions C36_step.
Print Assumptions C36_inside.
Print Assumptions C36_apart.
Print Assumptions C36_index.
Print Assumptions C36_index_local.
Print Assumptions C39_refuted.
Print Assumptions C61_name.
Print Assumptions C61_use_refuted.
Print Assumptions C62_base.
Print Assumptions C62_size_refuted.
