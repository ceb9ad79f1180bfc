(** Assignment to an int variable: the code that stores a value. *)
From Verif Require Import Base Bits Spec8086 SpecWf SccRun SccState SccEmit SccLex SccDecl SccExpr SccStmt SccInput SccPut SccArith SccOps SccJump SccMem SccFix SccHold SccFlush SccSem SccBin SccVal SccComp SccBody SccParse SccWhole ExprSpec.

Section W.
Variable W : Z.
Hypothesis HW : 16 <= W.

Lemma store_put Loc Val e e' x : live e -> is_var e Loc Val -> EmitStoreAx W 2 Loc Val e = Ok (x, e') ->
  exists bs, e' = put bs e /\ live e' /\ okhead bs /\ does e e' (fun t t' => stores e 2 Loc Val (ax (rg t)) t t').
Proof.
  intros L HV H. pose proof (store_does W 2 Loc Val e e' x (or_intror eq_refl) L HV H) as [L' D].
  assert (HH : exists bs, e' = put bs e /\ okhead bs); [|destruct HH as (bs & E & OK); exists bs; auto].
  unfold EmitStoreAx in H. assert (N0 : Loc <> 0) by (destruct HV as [->|[-> ?]]; discriminate). rewrite (proj2 (Z.eqb_neq _ _) N0) in H.
  destruct (Z.eqb_spec Loc VT_LOCGLOB) as [->|NG].
  - destruct HV as [?|[_ NV]]; [discriminate|]. minv H y e1 E. apply out1 in E; auto. destruct E as [-> L1].
    apply globalref_emits in H; auto. cbv zeta in H. rewrite put_voff, <- put_app in H. rewrite add_ref_off in H by exact NV. destruct H as [-> L2].
    eexists. split; [reflexivity|]. cbn; unfold u8; lia.
  - apply modrm_emits in H; auto; [|unfold R_AX; lia]. destruct H as (-> & L2 & _).
    unfold add_ref in *. rewrite (proj2 (Z.eqb_neq _ _) NG) in *. cbn [andb] in *. eexists. split; [reflexivity|]. cbn; unfold u8; lia.
Qed.

Lemma const_decodes e Loc Val v f : is_var e Loc Val ->
  let bs := map u8 (199 :: mem_code e 0 Loc Val ++ [v; Z.shiftr v 8]) in
  decode (over bs f) = Some (IMov true (var_mem e Loc Val) (Imm (v mod 65536)), Z.of_nat (length bs)).
Proof.
  intro HV. cbv zeta. unfold mem_code, var_mem. destruct HV as [->|[-> N]].
  - change (VT_LOCOFF =? VT_LOCOFF) with true. cbv iota.
    destruct (Z.leb_spec (-128) Val), (Z.leb_spec Val 127); cbn [andb map length app].
    1: { assert (E : sx8 (u8 Val) = Val mod 65536).
         { rewrite sx8_s8. f_equal. symmetry. apply Z.eqb_eq. rewrite s8_fits. destruct (Z.leb_spec (-128) Val), (Z.leb_spec Val 127); try reflexivity; lia. }
         rewrite <- E, <- (word_bytes v). reflexivity. }
    all: rewrite <- (word_bytes v), <- (word_bytes Val); reflexivity.
  - change (VT_LOCGLOB =? VT_LOCOFF) with false. change (VT_LOCGLOB =? VT_LOCGLOB) with true. cbv iota zeta.
    rewrite (proj2 (Z.eqb_neq _ _) N). cbn [map length app]. rewrite <- (word_bytes v), <- (word_bytes (aget (VOff e) Val)). reflexivity.
Qed.
Lemma const_put Loc Val e e' x : live e -> is_var e Loc Val -> EmitStoreConst W 2 Loc Val e = Ok (x, e') ->
  exists bs, e' = put bs e /\ live e' /\ okhead bs /\ does e e' (fun t t' => stores e 2 Loc Val (CurrentVal e mod 65536) t t').
Proof.
  intros L HV H. unfold EmitStoreConst in H. minv H y e1 E. change (198 - 1 + 2) with 199 in E. apply modrm_emits in E; auto; [|lia]. destruct E as (-> & L1 & _).
  assert (A : add_ref Loc Val (put (199 :: mem_code e 0 Loc Val) e) = put (199 :: mem_code e 0 Loc Val) e).
  { destruct HV as [->|[-> N]]; [reflexivity|]. apply add_ref_off. exact N. }
  rewrite A in *. mgoin H. rewrite put_cval in H. minv H z e1 E. apply out1 in E; auto. destruct E as [-> L2]. change (2 =? 2) with true in H. cbn [when] in H.
  apply out1 in H; auto. destruct H as [-> L3]. rewrite <- !put_app in L3 |- *.
  change ([CurrentVal e] ++ [Z.shiftr (CurrentVal e) 8]) with [CurrentVal e; Z.shiftr (CurrentVal e) 8] in *.
  eexists. split; [reflexivity|]. split; [exact L3|]. split; [cbn; unfold u8; lia|].
  apply (store_fin 2 Loc Val (fun _ => CurrentVal e mod 65536) (fun _ => 0) (Imm (CurrentVal e mod 65536))); auto.
  intro f. pose proof (const_decodes e Loc Val (CurrentVal e) f HV) as D. cbv zeta in D. rewrite map_length in D. exact D.
Qed.
(** ** Instructions that change a variable in place *)
Lemma rmw_fin Loc Val i (v : state -> Z) bs e : live e -> live (put bs e) -> is_var e Loc Val ->
  (forall f, decode (over (map u8 bs) f) = Some (i, Z.of_nat (length bs))) ->
  (forall u s, exists f, exec u i s = Some (set_fl (put_op s true (var_mem e Loc Val) (v s)) f)) ->
  (forall r g a b f m, v (mkst r g a f m) = v (mkst r g b f m)) ->
  does e (put bs e) (fun t t' => stores e 2 Loc Val (v t) t t').
Proof.
  intros L L' HV D X VI. apply does_of; auto. intros r g f0 m RO C _.
  pose proof (live_lo _ L) as LO. pose proof (live_room _ _ L') as LR. set (a := CodeAddress e) in *. clearbody a.
  set (n := Z.of_nat (length bs)) in *.
  apply (reach_code _ (map u8 bs) i n (fun u => match exec u i (mkst r g (a + n) f0 m) with Some s => s | None => mkst r g a f0 m end)); auto; [lia| |].
  - intro u. destruct (X u (mkst r g (a + n) f0 m)) as [f E]. rewrite E. reflexivity.
  - intro u. destruct (X u (mkst r g (a + n) f0 m)) as [f E]. rewrite E. pose proof (var_mem_put e Loc Val 2 r g (a + n) f0 m (v (mkst r g (a + n) f0 m)) (or_intror eq_refl) HV) as PO.
    change (2 =? 2) with true in PO. rewrite PO. unfold set_fl. cbn [rg sg ip fl mem].
    apply reach_now. cbn [ip]. split; [reflexivity|]. unfold stores. cbn [rg sg mem]. rewrite (VI r g (a + n) a f0 m). auto.
Qed.
(** an instruction with a ModRM operand *)
Lemma rm_decodes I R e Loc Val f : u8 I = I -> 0 <= R < 8 -> is_var e Loc Val -> I <> 38 -> I <> 46 -> I <> 54 -> I <> 62 -> I <> 242 -> I <> 243 ->
  let bs := map u8 (I :: mem_code e R Loc Val) in
  exists g, g 0 = I /\ dec_modrm g None 1 = (var_mem e Loc Val, R, Z.of_nat (length bs)) /\ decode (over bs f) = dec_op g None NoRep 0.
Proof.
  intros HI HR HV N1 N2 N3 N4 N5 N6. cbv zeta. exists (over (map u8 (I :: mem_code e R Loc Val)) f). split; [exact HI|]. split.
  - apply modrm_decodes; auto; destruct HV as [->|[-> ?]]; auto. discriminate.
  - apply (dec_plain _ I); auto.
Qed.
Lemma rm_put I R Loc Val e e' x : 0 <= R < 8 -> live e -> is_var e Loc Val -> EmitModrm W I R Loc Val e = Ok (x, e') -> e' = put (I :: mem_code e R Loc Val) e /\ live e'.
Proof.
  intros HR L HV H. apply modrm_emits in H; auto. destruct H as (-> & L1 & _).
  assert (A : add_ref Loc Val (put (I :: mem_code e R Loc Val) e) = put (I :: mem_code e R Loc Val) e).
  { destruct HV as [->|[-> N]]; [reflexivity|]. apply add_ref_off. exact N. }
  rewrite A in *. auto.
Qed.
(** the operators with such an instruction *)
Definition in_place (o : binop) : bool := match o with Add | Sub | And | Or | Xor => true | _ => false end.
Definition place_alu (o : binop) : aluop := match o with Add => ADD | Sub => SUB | And => AND | Or => OR | _ => XOR end.
Definition place_byte (o : binop) : Z := match o with Add => 1 | Sub => 41 | And => 33 | Or => 9 | _ => 49 end.
Lemma place_inst o : in_place o = true -> GetSimpleALU_ false (bintok o) = place_byte o.
Proof. destruct o; intro H; try discriminate H; reflexivity. Qed.
Lemma place_none o : in_place o = false -> GetSimpleALU_ false (bintok o) = 0.
Proof. destruct o; intro H; try discriminate H; reflexivity. Qed.
Lemma place_exec o e Loc Val src u s : in_place o = true -> is_var e Loc Val ->
  exists f, exec u (IAlu (place_alu o) true (var_mem e Loc Val) src) s = Some (set_fl (put_op s true (var_mem e Loc Val) (binval false o (var_get e 2 Loc Val s) (get_op s true src))) f).
Proof.
  intros P HV. destruct s as [r g i f m]. rewrite <- (var_mem_get e Loc Val 2 r g i f m (or_intror eq_refl) HV). change (2 =? 2) with true. cbn [exec].
  destruct o; try discriminate P; cbn [place_alu alu]; eexists; reflexivity.
Qed.
(** x op= AX *)
Lemma opax_put o Loc Val e e' x : in_place o = true -> live e -> is_var e Loc Val -> EmitModrm W (place_byte o) R_AX Loc Val e = Ok (x, e') ->
  exists bs, e' = put bs e /\ live e' /\ okhead bs /\ does e e' (fun t t' => stores e 2 Loc Val (binval false o (var_get e 2 Loc Val t) (ax (rg t))) t t').
Proof.
  intros P L HV H. apply rm_put in H; auto; [|unfold R_AX; lia]. destruct H as [-> L1]. change R_AX with 0 in *. eexists. split; [reflexivity|]. split; [exact L1|].
  split; [destruct o; try discriminate P; cbn; unfold u8; lia|].
  apply (rmw_fin Loc Val (IAlu (place_alu o) true (var_mem e Loc Val) (Reg 0)) (fun s => binval false o (var_get e 2 Loc Val s) (get_op s true (Reg 0)))); auto.
  - intro f. destruct (rm_decodes (place_byte o) 0 e Loc Val f) as (g & G0 & G1 & G2); auto; try (destruct o; try discriminate P; (reflexivity || discriminate)); [lia|].
    cbv zeta in G2. rewrite G2. unfold dec_op. rewrite G0. change (0 + 1) with 1. rewrite G1, map_length. destruct o; try discriminate P; reflexivity.
  - intros u s. exact (place_exec o e Loc Val (Reg 0) u s P HV).
Qed.
(** x op= constant *)
Lemma opimm_decodes o e Loc Val v f : in_place o = true -> is_var e Loc Val ->
  let bs := map u8 (129 :: mem_code e (Z.shiftr (place_byte o) 3) Loc Val ++ [v; Z.shiftr v 8]) in
  decode (over bs f) = Some (IAlu (place_alu o) true (var_mem e Loc Val) (Imm (v mod 65536)), Z.of_nat (length bs)).
Proof.
  intros P HV. cbv zeta. unfold mem_code, var_mem. destruct HV as [->|[-> N]].
  - change (VT_LOCOFF =? VT_LOCOFF) with true. cbv iota.
    destruct (Z.leb_spec (-128) Val), (Z.leb_spec Val 127); cbn [andb map length app].
    1: { assert (E : sx8 (u8 Val) = Val mod 65536).
         { rewrite sx8_s8. f_equal. symmetry. apply Z.eqb_eq. rewrite s8_fits. destruct (Z.leb_spec (-128) Val), (Z.leb_spec Val 127); try reflexivity; lia. }
         rewrite <- E, <- (word_bytes v). destruct o; try discriminate P; reflexivity. }
    all: rewrite <- (word_bytes v), <- (word_bytes Val); destruct o; try discriminate P; reflexivity.
  - change (VT_LOCGLOB =? VT_LOCOFF) with false. change (VT_LOCGLOB =? VT_LOCGLOB) with true. cbv iota zeta.
    rewrite (proj2 (Z.eqb_neq _ _) N). cbn [map length app]. rewrite <- (word_bytes v), <- (word_bytes (aget (VOff e) Val)). destruct o; try discriminate P; reflexivity.
Qed.
Lemma opimm_put o Loc Val v s s' x : in_place o = true -> live (em s) -> is_var (em s) Loc Val ->
  (inem (EmitModrm W I_ALU_RM16_IMM16 (Z.shiftr (place_byte o) 3) Loc Val) ;; ow W v) s = Ok (x, s') ->
  exists bs, s' = set_em (put bs (em s)) s /\ live (put bs (em s)) /\ okhead bs /\ does (em s) (put bs (em s)) (fun t t' => stores (em s) 2 Loc Val (binval false o (var_get (em s) 2 Loc Val t) (v mod 65536)) t t').
Proof.
  intros P L HV H. minv H y s1 E. apply inem_inv in E. destruct E as (e1 & E & ->). change I_ALU_RM16_IMM16 with 129 in E.
  apply rm_put in E; auto; [|destruct o; try discriminate P; cbn; lia]. destruct E as [-> L1].
  unfold ow in H. apply inem_inv in H. rewrite set_em_em in H. destruct H as (e2 & E & ->).
  apply outw in E; auto. destruct E as [-> L3]. rewrite <- !put_app in *.
  eexists. split; [destruct s; reflexivity|]. split; [exact L3|]. split; [cbn; unfold u8; lia|].
  apply (rmw_fin Loc Val (IAlu (place_alu o) true (var_mem (em s) Loc Val) (Imm (v mod 65536))) (fun t => binval false o (var_get (em s) 2 Loc Val t) (get_op t true (Imm (v mod 65536))))); auto.
  - intro f. pose proof (opimm_decodes o (em s) Loc Val v f P HV) as Dc. cbv zeta in Dc. rewrite map_length in Dc. exact Dc.
  - intros u t. exact (place_exec o (em s) Loc Val _ u t P HV).
Qed.
(** x++ and x-- in memory *)
Lemma inc_put (up : bool) Loc Val e e' x : live e -> is_var e Loc Val -> EmitModrm W 255 (zb (negb up)) Loc Val e = Ok (x, e') ->
  exists bs, e' = put bs e /\ live e' /\ okhead bs /\ does e e' (fun t t' => stores e 2 Loc Val ((var_get e 2 Loc Val t + (if up then 1 else -1)) mod 65536) t t').
Proof.
  intros L HV H. assert (HR : 0 <= zb (negb up) < 8) by (destruct up; cbn; lia). apply rm_put in H; auto. destruct H as [-> L1]. eexists. split; [reflexivity|]. split; [exact L1|].
  split; [cbn; unfold u8; lia|].
  apply (rmw_fin Loc Val ((if up then IInc else IDec) true (var_mem e Loc Val)) (fun s => (var_get e 2 Loc Val s + (if up then 1 else -1)) mod 65536)); auto.
  - intro f. destruct (rm_decodes 255 (zb (negb up)) e Loc Val f) as (g & G0 & G1 & G2); auto; try discriminate.
    cbv zeta in G2. rewrite G2. unfold dec_op. rewrite G0. change (0 + 1) with 1. rewrite G1, map_length. destruct up; reflexivity.
  - intros u s. destruct s as [r g i f m]. rewrite <- (var_mem_get e Loc Val 2 r g i f m (or_intror eq_refl) HV). change (2 =? 2) with true.
    destruct up; cbn [exec]; eexists; reflexivity.
Qed.
End W.
