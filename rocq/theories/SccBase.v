(** The base type shared by the declarators of one declaration (scc.c:2648-2657), against what it should be. *)
From Verif Require Import Base SccState SccEmit SccLex SccDecl SccExpr SccStmt TypeSpec SccType SccArray SccStruct.

(** a declarator: k stars and the bounds after the name (scc.c:2806-2813, 2875-2907, without reading the tokens) *)
Definition declarator (k : Z) (l : list Z) : M cc unit :=
  SccState.bind (upde (fun e => set_CurrentType (CurrentType e + k * VT_PTR1) e)) (fun _ => declare_bounds l).

Lemma stars_type t k : 0 <= t -> Z.land t VT_PTRMASK = 0 -> 0 <= k <= 3 ->
  clr (t + k * VT_PTR1) VT_PTRMASK = t /\ Z.land (t + k * VT_PTR1) VT_BASEMASK = Z.land t VT_BASEMASK /\
  Z.land (t + k * VT_PTR1) VT_STATIC = Z.land t VT_STATIC.
Proof.
  intros H0 H Hk.
  assert (E : t + k * VT_PTR1 = Z.lor t (k * VT_PTR1)).
  { rewrite Z.add_nocarry_lxor, Z.lxor_lor; try reflexivity.
    all: assert (Q : k = 0 \/ k = 1 \/ k = 2 \/ k = 3) by lia; unfold VT_PTRMASK in H;
      assert (G : forall m, Z.land m 384 = m -> Z.land t m = 0) by
        (intros m Hm; rewrite <- Hm, (Z.land_comm m), Z.land_assoc, H; apply Z.land_0_l);
      apply G; destruct Q as [->|[->|[->| ->]]]; reflexivity. }
  rewrite E. assert (Q : k = 0 \/ k = 1 \/ k = 2 \/ k = 3) by lia.
  split; [|split].
  - unfold clr. apply Z.bits_inj'. intros j Hj. rewrite Z.ldiff_spec, Z.lor_spec.
    assert (B : Z.testbit (Z.land t VT_PTRMASK) j = false) by (rewrite H; apply Z.bits_0). rewrite Z.land_spec in B.
    assert (C : Z.testbit (Z.ldiff (k * VT_PTR1) VT_PTRMASK) j = false)
      by (replace (Z.ldiff (k * VT_PTR1) VT_PTRMASK) with 0 by (destruct Q as [->|[->|[->| ->]]]; reflexivity); apply Z.bits_0).
    rewrite Z.ldiff_spec in C.
    destruct (Z.testbit t j), (Z.testbit (k * VT_PTR1) j), (Z.testbit VT_PTRMASK j); auto; discriminate.
  - apply land_lor_disjoint. destruct Q as [->|[->|[->| ->]]]; reflexivity.
  - apply land_lor_disjoint. destruct Q as [->|[->|[->| ->]]]; reflexivity.
Qed.

(** after the first declarator the base type is the specified one exactly if the declarator is
    no array, or an array with one bound and no stars *)
Theorem base_after s t x k l : CurrentType (em s) = t -> CurrentTypeExtra (em s) = x ->
  0 <= t -> Z.land t VT_PTRMASK = 0 -> Z.land t VT_STATIC = 0 -> Z.land t VT_BASEMASK <> VT_ARRAY ->
  0 <= k <= 3 -> Forall (fun n => 0 < n) l ->
  0 <= ArrayCount (dc s) -> ArrayCount (dc s) + Z.of_nat (length l) <= ARRAY_MAX ->
  exists s', SccState.bind (declarator k l) (fun _ => SaveBaseType) s = Ok (tt, s') /\
    ((BaseType (dc s') = t /\ BaseTypeExtra (dc s') = x) <-> (l = nil \/ k = 0 /\ length l = 1%nat)).
Proof.
  intros HT HX H0 HP HS HB Hk PL A0 AM.
  destruct (stars_type t k H0 HP Hk) as (T1 & T2 & T3). set (bt := t + k * VT_PTR1) in *.
  set (s1 := set_em (set_CurrentType bt (em s)) s).
  assert (NA : bt <> VT_ARRAY). { intro E. apply HB. rewrite <- T2, E. reflexivity. }
  rewrite HS in T3.
  destruct (bounds_ok bt x NA T3 l nil s1 (ArrayCount (dc s1)) PL A0) as (s2 & E2 & Ch & S2 & AC & SB).
  { cbn [length]. lia. } { exact AM. } { split; [apply clr_static_id; exact T3|exact HX]. } { exact I. }
  cbn [app] in Ch. change (CurrentType (em s1)) with bt in S2. rewrite T3 in S2. rewrite (clr_static_id _ S2) in Ch.
  rewrite (bindE' _ _ s tt s2).
  2:{ unfold declarator. rewrite (bindE' _ _ s tt s1); [exact E2|]. unfold upde, upd, s1, bt. rewrite HT. reflexivity. }
  unfold SaveBaseType.
  rewrite (bindE' _ _ s2 (CurrentType (em s2)) s2) by reflexivity.
  rewrite (bindE' _ _ s2 (CurrentTypeExtra (em s2)) s2) by reflexivity.
  destruct l as [|n [|m r]]; cbn [chain length] in Ch.
  - destruct Ch as [-> ->]. rewrite T2. replace (Z.land t VT_BASEMASK =? VT_ARRAY) with false by lia. rewrite T1.
    eexists. split; [reflexivity|]. split; [auto|]. intros _. split; reflexivity.
  - destruct Ch as (-> & Hx & Hn & _ & E3 & E4). change (Z.land VT_ARRAY VT_BASEMASK =? VT_ARRAY) with true. cbv iota.
    rewrite (bindE' _ _ s2 bt s2) by (rewrite <- E3; reflexivity). rewrite (bindE' _ _ s2 x s2) by (rewrite <- E4; reflexivity).
    eexists. split; [reflexivity|]. match goal with |- BaseType ?d = _ /\ _ <-> _ => change (BaseType d) with bt; change (BaseTypeExtra d) with x end.
    split.
    + intros [E _]. right. split; [|reflexivity]. unfold bt, VT_PTR1 in E. lia.
    + intros [E|[-> _]]; [discriminate E|]. split; [unfold bt; lia|reflexivity].
  - destruct Ch as (-> & Hx & Hn & _ & E3 & _). change (Z.land VT_ARRAY VT_BASEMASK =? VT_ARRAY) with true. cbv iota.
    rewrite (bindE' _ _ s2 VT_ARRAY s2) by (rewrite <- E3; reflexivity).
    rewrite (bindE' _ _ s2 (aget (ADExtra (dc s2)) (CurrentTypeExtra (em s2))) s2) by reflexivity.
    eexists. split; [reflexivity|]. match goal with |- BaseType ?d = _ /\ _ <-> _ => change (BaseType d) with VT_ARRAY end.
    split.
    + intros [E _]. exfalso. apply HB. rewrite <- E. reflexivity.
    + intros [E|[_ E]]; discriminate E.
Qed.
