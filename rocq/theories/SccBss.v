(** Placing the uninitialised globals after the code (scc.c:3446-3462). *)
From Verif Require Import Base Bits Spec8086 SccRun SccState SccEmit SccLex SccDecl SccExpr SccStmt SccInput SccPut SccArith SccOps SccJump SccMem SccFix SccGlob TypeSpec SccType.

(** a non-function label never moves the end of the code *)
Lemma fixup1_addr r e x e' : CodeAddress e <> 0 -> DoFixup1 r false e = Ok (x, e') -> CodeAddress e' = CodeAddress e.
Proof.
  intros NZ H. unfold DoFixup1 in H. mgoin H. rewrite (proj2 (Z.eqb_neq _ _) NZ) in H. cbn [andb] in H.
  set (c := CodeAddress e) in *. assert (CE : CodeAddress e = c) by reflexivity. clearbody c.
  assert (KP : forall a v, keeps (fun e => CodeAddress e = c) (poke a v)) by (intros a v s y s' Ps Q; apply poke_setb in Q; subst s'; exact Ps).
  revert CE H. match goal with |- _ -> ?m e = _ -> _ => assert (K : keeps (fun e => CodeAddress e = c) m) end; [|intros CE H; exact (K _ _ _ CE H)].
  cbv zeta.
  repeat first [apply keeps_bind; [|intro] | apply keeps_ret | apply keeps_peek | apply keeps_gets | apply keeps_failif | apply KP
   | match goal with |- keeps _ (if ?b then _ else _) => destruct b end].
Qed.
Lemma loop_addr n : forall r e x e', CodeAddress e <> 0 -> fixup_loop n r false e = Ok (x, e') -> CodeAddress e' = CodeAddress e.
Proof.
  induction n as [|n IH]; intros r e x e' NZ H; cbn [fixup_loop] in H; [discriminate|]. destruct (r =? 0); [oki H; reflexivity|].
  minv H r' e1 E. apply fixup1_addr in E; [|exact NZ]. apply IH in H; congruence.
Qed.
Lemma label_addr v e x e' : CodeAddress e <> 0 -> EmitGlobalLabel_ v false e = Ok (x, e') ->
  aget (VOff e) v = 0 /\ CodeAddress e' = CodeAddress e /\ VOff e' = aset (VOff e) v (CodeAddress e).
Proof.
  intros NZ H. unfold EmitGlobalLabel_ in H. mgoin H. minv H y e1 E. unfold failif in E. destruct (Z.eqb_spec (aget (VOff e) v) 0) as [V0|]; [|discriminate]. cbn [negb] in E. oki E.
  mgoin H. unfold DoFixups in H. minv H z e1 E. oki H. split; [exact V0|]. set (e0 := set_IsDeadCode false _) in *.
  pose proof (loop_tabs (tabs e0) _ _ _ _ _ _ eq_refl E) as T. apply loop_addr in E; [|exact NZ]. apply tabs_inv in T. destruct T as (T & _). split; [exact E|exact T].
Qed.

(** types do not depend on the map file *)
Lemma denotes_map m d : forall T X t, denotes d T X t -> denotes (set_MapOut m d) T X t.
Proof.
  apply (denotes_ind2 d (fun T X t => denotes (set_MapOut m d) T X t) (fun sm ms => members (set_MapOut m d) sm ms)); intros; try (constructor; assumption).
  - exact (den_arr (set_MapOut m d) T X e H H0 H1 H2 H4).
  - exact (den_rec (set_MapOut m d) T X ms H H0 H1 H3).
  - exact (mem_cons (set_MapOut m d) sm t ms H H0 H2 H4).
Qed.

Lemma inem_inv {A} (m : M emst A) s x s' : inem m s = Ok (x, s') -> exists e', m (em s) = Ok (x, e') /\ s' = set_em e' s.
Proof. unfold inem. intro H. destruct (m (em s)) as [[a e]| | |]; try discriminate. apply ok_inj in H. destruct H as [<- <-]. eauto. Qed.
Lemma globlabel_map v s x s' : EmitGlobalLabel v s = Ok (x, s') ->
  exists y e' m, EmitGlobalLabel_ v (hasb (aget (VType (dc s)) v) VT_FUN) (em s) = Ok (y, e') /\ em s' = e' /\ dc s' = set_MapOut m (dc s).
Proof.
  intro H. unfold EmitGlobalLabel, getd, gete, getl, updd in H. mgoin H. minv H y s1 E. apply inem_inv in E. destruct E as (e' & E & ->).
  mgoin H. minv H nm s2 E2. assert (s2 = set_em e' s) by (destruct (_ =? -2); [oki E2; reflexivity|unfold gets in E2; oki E2; reflexivity]). subst s2.
  oki H. exists y, e'. eexists. split; [exact E|]. split; reflexivity.
Qed.

(** a global without a place *)
Definition unplaced (s : cc) (ebss v : Z) : bool :=
  (Z.land (aget (VType (dc s)) v) VT_LOCMASK =? VT_LOCGLOB) && (aget (VOff (em s)) v =? 0) && negb (v =? ebss).
(** sizes of the types of the globals *)
Definition sized (s : cc) (ty : Z -> cty) (v : Z) : Prop :=
  denotes (dc s) (aget (VType (dc s)) v) (aget (VExtra (dc s)) v) (ty v) /\ (depth (ty v) < sizeof_fuel)%nat /\ narrow (ty v) /\ 0 <= size (ty v).
Lemma indc_inv {A} (m : M dcst A) s a d b s' : m (dc s) = Ok (a, d) -> indc m s = Ok (b, s') -> b = a /\ s' = set_dc d s.
Proof. unfold indc. intros -> H. apply ok_inj in H. destruct H; auto. Qed.
Lemma indc_size s t x ty sz s' : denotes (dc s) t x ty -> (depth ty < sizeof_fuel)%nat -> narrow ty -> indc (SizeofType t x) s = Ok (sz, s') -> sz = size ty /\ s' = set_dc (dc s) s.
Proof.
  intros D E N H. apply (indc_inv (SizeofType t x) s _ _ _ _ (SizeofType_ok _ _ _ _ D E N)) in H. exact H.
Qed.
Lemma em_set_em e s : em (set_em e s) = e. Proof. reflexivity. Qed.
Lemma em_set_dc d s : em (set_dc d s) = em s. Proof. reflexivity. Qed.
Lemma dc_set_em e s : dc (set_em e s) = dc s. Proof. reflexivity. Qed.
Lemma dc_set_dc d s : dc (set_dc d s) = d. Proof. reflexivity. Qed.
Lemma voff_ca x e : VOff (set_CodeAddress x e) = VOff e. Proof. reflexivity. Qed.
Lemma ca_ca x e : CodeAddress (set_CodeAddress x e) = x. Proof. reflexivity. Qed.
Lemma voff_ct x e : VOff (set_CurrentType x e) = VOff e. Proof. reflexivity. Qed.
Lemma ca_ct x e : CodeAddress (set_CurrentType x e) = CodeAddress e. Proof. reflexivity. Qed.
Lemma vtype_map m d : VType (set_MapOut m d) = VType d. Proof. reflexivity. Qed.
Lemma vextra_map m d : VExtra (set_MapOut m d) = VExtra d. Proof. reflexivity. Qed.
Lemma place_step n v ebss s x s' ty : CodeAddress (em s) <> 0 -> (unplaced s ebss v = true -> sized s ty v) -> place_bss (S n) v ebss s = Ok (x, s') ->
  exists s1, place_bss n (v + 1) ebss s1 = Ok (x, s') /\ (exists m, dc s1 = set_MapOut m (dc s) \/ dc s1 = dc s) /\
   (if unplaced s ebss v then
      hasb (aget (VType (dc s)) v) VT_FUN = false /\ VOff (em s1) = aset (VOff (em s)) v (CodeAddress (em s)) /\ CodeAddress (em s1) = CodeAddress (em s) + size (ty v)
    else VOff (em s1) = VOff (em s) /\ CodeAddress (em s1) = CodeAddress (em s)).
Proof.
  intros NZ SZ H. cbn [place_bss] in H. unfold getd, gete, upde in H. mgoin H. set (t := aget (VType (dc s)) v) in *. rewrite ?em_set_em, ?dc_set_em, ?voff_ct in H.
  assert (UP : unplaced s ebss v = negb (negb (Z.land t VT_LOCMASK =? VT_LOCGLOB) || negb (aget (VOff (em s)) v =? 0) || (v =? ebss))).
  { unfold unplaced. fold t. destruct (_ =? VT_LOCGLOB), (_ =? 0), (v =? ebss); reflexivity. }
  minv H y s1 E. exists s1. split; [exact H|]. clear H. destruct (negb _ || negb _ || _); cbn [negb] in UP; rewrite UP.
  - oki E. rewrite em_set_em, dc_set_em, voff_ct, ca_ct. split; [exists []; right; reflexivity|]. split; reflexivity.
  - destruct (SZ UP) as (DN & DP & NW & NN). minv E z s2 E1. unfold failif in E1. destruct (hasb t VT_FUN) eqn:FN; [discriminate|]. oki E1.
    minv E z s2 E1. apply globlabel_map in E1. destruct E1 as (yy & e' & m & E1 & EE & ED). rewrite em_set_em, dc_set_em in *. fold t in E1. rewrite FN in E1.
    apply label_addr in E1; [|rewrite ca_ct; exact NZ]. destruct E1 as (V0 & CA & VO). rewrite ca_ct, voff_ct in *.
    mgoin E. minv E sz s3 E1. apply (indc_size s2 t _ (ty v)) in E1; [|rewrite ED, vextra_map; apply denotes_map; exact DN|exact DP|exact NW].
    destruct E1 as [-> ->]. oki E. rewrite em_set_em, dc_set_em, em_set_dc, dc_set_dc, voff_ca, ca_ca, EE. split; [exists m; left; exact ED|]. split; [reflexivity|]. split; [exact VO|]. rewrite CA. reflexivity.
Qed.

Theorem place_bss_ok n : forall v0 ebss s x s' ty, 0 < CodeAddress (em s) ->
  (forall v, v0 <= v < v0 + Z.of_nat n -> unplaced s ebss v = true -> sized s ty v) ->
  place_bss n v0 ebss s = Ok (x, s') ->
  CodeAddress (em s) <= CodeAddress (em s') /\
  (forall v, v0 <= v < v0 + Z.of_nat n -> unplaced s ebss v = true ->
     hasb (aget (VType (dc s)) v) VT_FUN = false /\ CodeAddress (em s) <= aget (VOff (em s')) v /\ aget (VOff (em s')) v + size (ty v) <= CodeAddress (em s')) /\
  (forall u v, v0 <= u -> u < v -> v < v0 + Z.of_nat n -> unplaced s ebss u = true -> unplaced s ebss v = true ->
     aget (VOff (em s')) u + size (ty u) <= aget (VOff (em s')) v) /\
  (forall v, ~ (v0 <= v < v0 + Z.of_nat n) \/ unplaced s ebss v = false -> aget (VOff (em s')) v = aget (VOff (em s)) v).
Proof.
  induction n as [|n IH]; intros v0 ebss s x s' ty PO SZ H.
  - cbn [place_bss] in H. oki H. split; [lia|]. split; [intros; lia|]. split; [intros; lia|]. reflexivity.
  - apply (place_step n v0 ebss s x s' ty) in H; [|lia|apply SZ; lia]. destruct H as (s1 & H & (m & DC) & ST).
    assert (DT : VType (dc s1) = VType (dc s) /\ VExtra (dc s1) = VExtra (dc s)) by (destruct DC as [->| ->]; rewrite ?vtype_map, ?vextra_map; split; reflexivity). destruct DT as [DT DX].
    assert (VS : forall v, v <> v0 -> aget (VOff (em s1)) v = aget (VOff (em s)) v).
    { intros v N. destruct (unplaced s ebss v0); [destruct ST as (_ & -> & _); apply aget_aset_other; auto|destruct ST as (-> & _); reflexivity]. }
    assert (US : forall v, v <> v0 -> unplaced s1 ebss v = unplaced s ebss v) by (intros v N; unfold unplaced; rewrite DT, VS by exact N; reflexivity).
    assert (SS : forall v, sized s ty v -> sized s1 ty v).
    { intros v (A & B). split; [|exact B]. rewrite DT, DX. destruct DC as [->| ->]; [apply denotes_map|]; exact A. }
    assert (GE : CodeAddress (em s) <= CodeAddress (em s1)).
    { destruct (unplaced s ebss v0) eqn:U; [|lia]. destruct ST as (_ & _ & ->). destruct (SZ v0 ltac:(lia) U) as (_ & _ & _ & Q). lia. }
    apply (IH (v0 + 1) ebss s1 x s' ty) in H; [|lia|intros v R U; apply SS, SZ; [lia|rewrite <- US by lia; exact U]].
    destruct H as (H1 & H2 & H3 & H4). rewrite DT in H2.
    assert (V0 : aget (VOff (em s')) v0 = aget (VOff (em s1)) v0) by (apply H4; left; lia).
    split; [lia|]. split; [|split].
    + intros v R U. destruct (Z.eq_dec v v0) as [->|N].
      * rewrite U in ST. destruct ST as (F & VO & CA). rewrite V0, VO, aget_aset_same. split; [exact F|]. lia.
      * destruct (H2 v ltac:(lia) ltac:(rewrite US by exact N; exact U)) as (A & B & C). split; [exact A|]. lia.
    + intros u v R1 R2 R3 U1 U2. destruct (Z.eq_dec u v0) as [->|N].
      * rewrite U1 in ST. destruct ST as (F & VO & CA). rewrite V0, VO, aget_aset_same. destruct (H2 v ltac:(lia) ltac:(rewrite US by lia; exact U2)) as (_ & B & _). lia.
      * apply H3; try lia; rewrite US by lia; assumption.
    + intros v Q. destruct (Z.eq_dec v v0) as [->|N].
      * rewrite V0. destruct Q as [Q|Q]; [lia|]. rewrite Q in ST. destruct ST as (-> & _). reflexivity.
      * rewrite H4; [apply VS; exact N|]. rewrite US by exact N. destruct Q as [Q|Q]; [left; lia|right; exact Q].
Qed.
