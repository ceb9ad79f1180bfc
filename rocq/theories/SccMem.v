(** Memory operands: the code emitted by EmitModrm, EmitLoadAx, EmitStoreAx, EmitStoreConst and
    EmitLoadAddr, decoded and run on the 8086. *)
From Verif Require Import Base Bits Spec8086 SccRun SccState SccEmit SccInput SccPut SccArith SccOps SccJump.

(** the ModRM byte and displacement for register field R and the variable (Loc, Val) *)
Definition mem_code (e : emst) (R Loc Val : Z) : list Z :=
  if Loc =? VT_LOCOFF then
    if (-128 <=? Val) && (Val <=? 127) then [70 + 8 * R; Val] else [134 + 8 * R; Val; Z.shiftr Val 8]
  else if Loc =? VT_LOCGLOB then
    let w := if aget (VOff e) Val =? 0 then aget (VRef e) Val else aget (VOff e) Val in
    [6 + 8 * R; w; Z.shiftr w 8]
  else [4 + 8 * R].
(** a reference to a global that has no address yet is chained *)
Definition add_ref (Loc Val : Z) (e : emst) : emst :=
  if (Loc =? VT_LOCGLOB) && (aget (VOff e) Val =? 0) then set_VRef (aset (VRef e) Val (CodeAddress e - 2)) e else e.
Lemma add_ref_live Loc Val e : live e -> live (add_ref Loc Val e).
Proof. unfold add_ref. destruct (_ && _); auto. Qed.
Lemma add_ref_addr Loc Val e : CodeAddress (add_ref Loc Val e) = CodeAddress e.
Proof. unfold add_ref. destruct (_ && _); auto. Qed.
Lemma add_ref_out Loc Val e : Output (add_ref Loc Val e) = Output e.
Proof. unfold add_ref. destruct (_ && _); auto. Qed.
Lemma put_voff bs : forall e, VOff (put bs e) = VOff e.
Proof. induction bs as [|b r IH]; intros e; cbn [put]; auto. rewrite IH. reflexivity. Qed.
Lemma put_vref bs : forall e, VRef (put bs e) = VRef e.
Proof. induction bs as [|b r IH]; intros e; cbn [put]; auto. rewrite IH. reflexivity. Qed.
Lemma does_ref pre e e' Loc Val R : does_if pre e e' R -> does_if pre e (add_ref Loc Val e') R.
Proof.
  intros H s WF I L P. rewrite add_ref_addr. apply H; auto. intros a A. rewrite L by (rewrite add_ref_addr; exact A).
  rewrite add_ref_out. reflexivity.
Qed.

Section W.
Variable W : Z.
Hypothesis HW : 16 <= W.

Lemma globalref_emits v e e' x : live e -> EmitGlobalRef W v e = Ok (x, e') ->
  let w := if aget (VOff e) v =? 0 then aget (VRef e) v else aget (VOff e) v in
  e' = add_ref VT_LOCGLOB v (put [w; Z.shiftr w 8] e) /\ live e'.
Proof.
  intros L H. unfold EmitGlobalRef in H. mgoin H. cbv zeta.
  unfold add_ref. rewrite put_voff, put_vref. change (VT_LOCGLOB =? VT_LOCGLOB) with true. cbn [andb].
  destruct (Z.eqb_spec (aget (VOff e) v) 0) as [E|N]; cbn [negb] in H.
  - unfold AddFixupVar in H. mgoin H. rewrite (proj1 L) in H. mgoin H. minv H y e1 E1. apply outw in E1; auto. destruct E1 as [-> L1].
    oki H. rewrite put_vref. auto.
  - apply outw in H; auto.
Qed.

Lemma poke_inv a v e x e' : poke a v e = Ok (x, e') ->
  e' = set_Output (aset (Output e) (a - CODESTART) (u8 v)) e /\ CODESTART <= a < CODESTART + OUTPUT_MAX.
Proof.
  unfold poke, in_output. destruct (Z.leb_spec CODESTART a), (Z.ltb_spec a (CODESTART + OUTPUT_MAX)); cbn [andb]; try discriminate.
  intro H2. apply ok_inj in H2. destruct H2 as [_ <-]. split; [reflexivity|lia].
Qed.
Lemma peek_inv a e x e' : peek a e = Ok (x, e') -> e' = e /\ x = aget (Output e) (a - CODESTART) /\ CODESTART <= a < CODESTART + OUTPUT_MAX.
Proof.
  unfold peek, in_output. destruct (Z.leb_spec CODESTART a), (Z.ltb_spec a (CODESTART + OUTPUT_MAX)); cbn [andb]; try discriminate.
  intro H2. apply ok_inj in H2. destruct H2 as [<- <-]. repeat split; auto; lia.
Qed.
(** overwriting a byte just appended *)
Lemma put_poke b0 b1 b2 b1' e :
  set_Output (aset (Output (put [b0; b1; b2] e)) (CodeAddress (put [b0; b1; b2] e) - 2 - CODESTART) (u8 b1')) (put [b0; b1; b2] e)
  = put [b0; b1'; b2] e.
Proof.
  cbn [put put1 set_Output set_CodeAddress Output CodeAddress].
  replace (CodeAddress e + 1 + 1 + 1 - 2 - CODESTART) with (CodeAddress e + 1 - CODESTART) by lia.
  rewrite (aset_aset_other _ (CodeAddress e + 1 + 1 - CODESTART)) by lia. rewrite aset_aset_same. reflexivity.
Qed.

Lemma modrm_emits I R Loc Val e e' x : 0 <= R < 8 -> live e -> EmitModrm W I R Loc Val e = Ok (x, e') ->
  e' = add_ref Loc Val (put (I :: mem_code e R Loc Val) e) /\ live e' /\ (Loc = VT_LOCOFF \/ Loc = VT_LOCGLOB \/ Loc = 0).
Proof.
  intros HR L H. unfold EmitModrm in H. cbv zeta in H. unfold mem_code.
  destruct (Z.eqb_spec Loc VT_LOCOFF) as [->|N1].
  - minv H y e1 E. apply out3 in E; auto. destruct E as [-> L1]. rewrite s8_fits in H.
    unfold add_ref. change (VT_LOCOFF =? VT_LOCGLOB) with false. cbn [andb].
    replace (Z.lor MODRM_BP_DISP8 (Z.shiftl R 3)) with (70 + 8 * R) in * by (reg8 R; reflexivity).
    destruct ((-128 <=? Val) && (Val <=? 127)).
    + oki H. auto.
    + mgoin H. rewrite (proj1 L1) in H. cbn [negb when] in H. mgoin H. minv H m e1 E. apply peek_inv in E. destruct E as (-> & -> & _).
      minv H z e1 E. apply poke_inv in E. destruct E as [-> _].
      replace (CodeAddress (put [I; 70 + 8 * R; Val] e) - 2) with (CodeAddress e + Z.of_nat 1) in * by (rewrite put_addr; cbn [length]; lia).
      rewrite put_at in H by (cbn [length]; lia). cbn [nth] in H.
      rewrite (u8_small (70 + 8 * R)) in H by lia. change (MODRM_BP_DISP16 - MODRM_BP_DISP8) with 64 in H.
      replace (70 + 8 * R + 64) with (134 + 8 * R) in H by lia.
      replace (CodeAddress e + Z.of_nat 1) with (CodeAddress (put [I; 70 + 8 * R; Val] e) - 2) in H by (rewrite put_addr; cbn [length]; lia).
      rewrite put_poke in H. apply out1 in H.
      * destruct H as [-> L2]. rewrite <- put_app. auto.
      * destruct L1 as (D & P & RM). repeat split; [exact D|exact P|apply RM|apply RM].
  - destruct (Z.eqb_spec Loc VT_LOCGLOB) as [->|N2].
    + minv H y e1 E. apply out2 in E; auto. destruct E as [-> L1]. apply globalref_emits in H; auto. destruct H as [-> L2].
      rewrite put_voff, put_vref in *. rewrite <- put_app in *. cbv zeta.
      replace (Z.lor MODRM_DISP16 (Z.shiftl R 3)) with (6 + 8 * R) in * by (reg8 R; reflexivity). auto.
    + minv H y e1 E. unfold failif in E. destruct (Z.eqb_spec Loc 0) as [->|]; cbn [negb] in E; [|discriminate]. oki E.
      apply out2 in H; auto. destruct H as [-> L1].
      replace (Z.lor MODRM_SI (Z.shiftl R 3)) with (4 + 8 * R) in * by (reg8 R; reflexivity). auto.
Qed.

(** ** Decoding *)
(** the address of the variable as a memory operand *)
Definition var_mem (e : emst) (Loc Val : Z) : operand :=
  if Loc =? VT_LOCOFF then Mem None MBP (Val mod 65536)
  else if Loc =? VT_LOCGLOB then Mem None MDirect (aget (VOff e) Val mod 65536)
  else Mem None MSI 0.
Lemma modrm_decodes I e R Loc Val f : 0 <= R < 8 -> Loc = VT_LOCOFF \/ Loc = VT_LOCGLOB \/ Loc = 0 ->
  (Loc = VT_LOCGLOB -> aget (VOff e) Val <> 0) ->
  let bs := map u8 (I :: mem_code e R Loc Val) in
  dec_modrm (over bs f) None 1 = (var_mem e Loc Val, R, Z.of_nat (length bs)).
Proof.
  intros HR HL HG. cbv zeta. unfold mem_code, var_mem. destruct HL as [->|[->| ->]].
  - change (VT_LOCOFF =? VT_LOCOFF) with true. cbv iota.
    destruct (Z.leb_spec (-128) Val), (Z.leb_spec Val 127); cbn [andb map length].
    1: { rewrite (u8_small (70 + 8 * R)) by lia. 
         assert (E : sx8 (u8 Val) = Val mod 65536).
         { rewrite sx8_s8. f_equal. symmetry. apply Z.eqb_eq. rewrite s8_fits. destruct (Z.leb_spec (-128) Val), (Z.leb_spec Val 127); try reflexivity; lia. }
         rewrite <- E. reg8 R; reflexivity. }
    all: rewrite (u8_small (134 + 8 * R)) by lia; rewrite <- word_bytes; reg8 R; reflexivity.
  - change (VT_LOCGLOB =? VT_LOCOFF) with false. change (VT_LOCGLOB =? VT_LOCGLOB) with true. cbv iota zeta. specialize (HG eq_refl).
    rewrite (proj2 (Z.eqb_neq _ _) HG). cbn [map length]. rewrite (u8_small (6 + 8 * R)) by lia. rewrite <- word_bytes. reg8 R; reflexivity.
  - change (0 =? VT_LOCOFF) with false. change (0 =? VT_LOCGLOB) with false. cbv iota. cbn [map length]. rewrite (u8_small (4 + 8 * R)) by lia. reg8 R; reflexivity.
Qed.

(** ** Loads and stores *)
(** where a variable is, in a machine state: local (BP-relative, in the stack segment) or global *)
Definition var_seg (Loc : Z) (s : state) : Z := if Loc =? VT_LOCOFF then ss (sg s) else ds (sg s).
Definition var_off (e : emst) (Loc Val : Z) (s : state) : Z :=
  if Loc =? VT_LOCOFF then (bp (rg s) + Val) mod 65536 else aget (VOff e) Val mod 65536.
(** a variable of size 1 or 2 *)
Definition var_get (e : emst) (Size Loc Val : Z) (s : state) : Z :=
  if Size =? 2 then rd16 (mem s) (var_seg Loc s) (var_off e Loc Val s) else rd8 (mem s) (var_seg Loc s) (var_off e Loc Val s).
Definition var_set (e : emst) (Size Loc Val : Z) (s : state) (v : Z) : arr Z :=
  if Size =? 2 then wr16 (mem s) (var_seg Loc s) (var_off e Loc Val s) v else wr8 (mem s) (var_seg Loc s) (var_off e Loc Val s) v.
Definition is_var (e : emst) (Loc Val : Z) : Prop := Loc = VT_LOCOFF \/ (Loc = VT_LOCGLOB /\ aget (VOff e) Val <> 0).

Lemma does_of' (pre : state -> Prop) bs e R Loc Val : live (put bs e) -> live e ->
  (forall r g f m, regs_ok r -> code m (cs g) (CodeAddress e) (map u8 bs) -> pre (mkst r g (CodeAddress e) f m) ->
     reaches (fun s' => ip s' = CodeAddress e + Z.of_nat (length bs) /\ R (mkst r g (CodeAddress e) f m) s') (mkst r g (CodeAddress e) f m)) ->
  does_if pre e (add_ref Loc Val (put bs e)) R.
Proof. intros. apply does_ref. apply does_of; auto. Qed.

Lemma add_ref_off e Val bs : aget (VOff e) Val <> 0 -> add_ref VT_LOCGLOB Val (put bs e) = put bs e.
Proof. intro N. unfold add_ref. rewrite put_voff, (proj2 (Z.eqb_neq _ _) N), andb_false_r. reflexivity. Qed.

Lemma dec_plain f b : f 0 = b -> b <> 38 -> b <> 46 -> b <> 54 -> b <> 62 -> b <> 242 -> b <> 243 -> decode f = dec_op f None NoRep 0.
Proof.
  intros F A1 A2 A3 A4 A5 A6. unfold decode. generalize 3%nat as n. intro n. cbn [dec_pfx]. rewrite F.
  rewrite !(proj2 (Z.eqb_neq _ _)) by assumption. reflexivity.
Qed.
(** [MOV r, r/m] and [MOV r/m, r] with a ModRM operand *)
Lemma mov_decodes op e R Loc Val f : op = 136 \/ op = 137 \/ op = 138 \/ op = 139 -> 0 <= R < 8 -> is_var e Loc Val ->
  let bs := map u8 (op :: mem_code e R Loc Val) in
  decode (over bs f) = Some (IMov (Z.odd op) (if op <? 138 then var_mem e Loc Val else Reg R) (if op <? 138 then Reg R else var_mem e Loc Val), Z.of_nat (length bs)).
Proof.
  intros HO HR HV. cbv zeta.
  assert (D : dec_modrm (over (map u8 (op :: mem_code e R Loc Val)) f) None 1 = (var_mem e Loc Val, R, Z.of_nat (length (map u8 (op :: mem_code e R Loc Val))))).
  { apply modrm_decodes; auto; destruct HV as [->|[-> ?]]; auto. discriminate. }
  set (bs := map u8 (op :: mem_code e R Loc Val)) in *.
  assert (F : over bs f 0 = op) by (destruct HO as [->|[->|[->| ->]]]; reflexivity).
  set (g := over bs f) in *. set (n := Z.of_nat (length bs)) in *. clearbody g n. clear bs.
  rewrite (dec_plain g op F) by lia. unfold dec_op. rewrite F. change (0 + 1) with 1. rewrite D. destruct HO as [->|[->|[->| ->]]]; reflexivity.
Qed.

Lemma var_mem_get e Loc Val Size r g i f m : Size = 1 \/ Size = 2 -> is_var e Loc Val ->
  get_op (mkst r g i f m) (Size =? 2) (var_mem e Loc Val) = var_get e Size Loc Val (mkst r g i f m).
Proof.
  intros HS HV. unfold var_mem, var_get, var_seg, var_off. destruct HV as [->|[-> N]].
  - change (VT_LOCOFF =? VT_LOCOFF) with true. cbv iota. cbn [get_op rg sg mem]. unfold ea_seg, ea_off, mode_off, mode_seg, sget.
    rewrite Zplus_mod_idemp_r. reflexivity.
  - change (VT_LOCGLOB =? VT_LOCOFF) with false. change (VT_LOCGLOB =? VT_LOCGLOB) with true. cbv iota. cbn [get_op rg sg mem]. unfold ea_seg, ea_off, mode_off, mode_seg, sget.
    rewrite Z.add_0_l, Zmod_mod. reflexivity.
Qed.
Lemma var_mem_put e Loc Val Size r g i f m v : Size = 1 \/ Size = 2 -> is_var e Loc Val ->
  put_op (mkst r g i f m) (Size =? 2) (var_mem e Loc Val) v = mkst r g i f (var_set e Size Loc Val (mkst r g i f m) v).
Proof.
  intros HS HV. unfold var_mem, var_set, var_seg, var_off. destruct HV as [->|[-> N]].
  - change (VT_LOCOFF =? VT_LOCOFF) with true. cbv iota. cbn [put_op rg sg mem]. unfold ea_seg, ea_off, mode_off, mode_seg, sget, set_mem.
    rewrite Zplus_mod_idemp_r. reflexivity.
  - change (VT_LOCGLOB =? VT_LOCOFF) with false. change (VT_LOCGLOB =? VT_LOCGLOB) with true. cbv iota. cbn [put_op rg sg mem]. unfold ea_seg, ea_off, mode_off, mode_seg, sget, set_mem.
    rewrite Z.add_0_l, Zmod_mod. reflexivity.
Qed.

(** loading: AX (or its low byte) becomes the variable *)
Definition loads (e : emst) (Size Loc Val : Z) (t t' : state) : Prop :=
  ax (rg t') = (if Size =? 2 then var_get e 2 Loc Val t else ax (rg t) / 256 * 256 + var_get e 1 Loc Val t) /\ keeps_but [R_AX] t t'.
(** storing: the variable becomes v, no register changes *)
Definition stores (e : emst) (Size Loc Val v : Z) (t t' : state) : Prop :=
  mem t' = var_set e Size Loc Val t v /\ rg t' = rg t /\ sg t' = sg t.

Lemma load_fin Size Loc Val bs e : Size = 1 \/ Size = 2 -> live e -> live (put bs e) -> is_var e Loc Val ->
  (forall f, decode (over (map u8 bs) f) = Some (IMov (Size =? 2) (Reg 0) (var_mem e Loc Val), Z.of_nat (length bs))) ->
  does e (put bs e) (loads e Size Loc Val).
Proof.
  intros HS L L' HV D. apply does_of; auto. intros r g f m RO C _.
  pose proof (live_lo _ L) as LO. pose proof (live_room _ _ L') as LR. set (a := CodeAddress e) in *. clearbody a.
  eapply (reach_code _ (map u8 bs) (IMov (Size =? 2) (Reg 0) (var_mem e Loc Val)) (Z.of_nat (length bs))); auto; try lia.
  { intro. cbn [exec]. rewrite var_mem_get by assumption. cbn [put_op]. unfold set_rg. cbn [rg sg ip fl mem]. reflexivity. }
  intro. apply reach_now. split; [reflexivity|]. split.
  - destruct HS as [-> | ->]; reflexivity.
  - unfold keeps_but. cbn [rg sg mem]. split; [|auto]. intros q Hq N. cbn [In] in N. unfold R_AX in N.
    destruct HS as [-> | ->]; cbn [Z.eqb Pos.eqb]; cbv iota; reg8 q; try (exfalso; tauto); reflexivity.
Qed.
Lemma mem_code_len e R Loc Val : length (map u8 (mem_code e R Loc Val)) = length (mem_code e R Loc Val).
Proof. apply map_length. Qed.

Theorem load_does Size Loc Val e e' x : Size = 1 \/ Size = 2 -> live e -> is_var e Loc Val ->
  EmitLoadAx W Size Loc Val e = Ok (x, e') -> live e' /\ does e e' (loads e Size Loc Val).
Proof.
  intros HS L HV H. unfold EmitLoadAx in H.
  assert (N0 : Loc <> 0) by (destruct HV as [->|[-> ?]]; discriminate). rewrite (proj2 (Z.eqb_neq _ _) N0) in H.
  destruct (Z.eqb_spec Loc VT_LOCGLOB) as [->|NG].
  - destruct HV as [?|[_ NV]]; [discriminate|]. minv H y e1 E. apply out1 in E; auto. destruct E as [-> L1].
    apply globalref_emits in H; auto. cbv zeta in H. rewrite put_voff, <- put_app in H. rewrite (proj2 (Z.eqb_neq _ _) NV) in H.
    rewrite add_ref_off in H by exact NV. destruct H as [-> L2]. split; [exact L2|]. apply load_fin; auto.
    { right. auto. }
    intro f. cbn [app map length]. unfold var_mem. change (VT_LOCGLOB =? VT_LOCOFF) with false. change (VT_LOCGLOB =? VT_LOCGLOB) with true. cbv iota.
    rewrite <- word_bytes. destruct HS as [-> | ->]; reflexivity.
  - apply modrm_emits in H; auto; [|unfold R_AX; lia]. destruct H as (-> & L2 & _).
    unfold add_ref in *. rewrite (proj2 (Z.eqb_neq _ _) NG) in *. cbn [andb] in *. split; [exact L2|]. apply load_fin; auto.
    intro f. rewrite mov_decodes; auto; [|destruct HS as [-> | ->]; auto|unfold R_AX; lia]. rewrite map_length. destruct HS as [-> | ->]; reflexivity.
Qed.

Lemma store_fin Size Loc Val v (src : regs -> Z) op_ bs e : Size = 1 \/ Size = 2 -> live e -> live (put bs e) -> is_var e Loc Val ->
  (forall f, decode (over (map u8 bs) f) = Some (IMov (Size =? 2) (var_mem e Loc Val) op_, Z.of_nat (length bs))) ->
  (forall s, get_op s (Size =? 2) op_ = v s) ->
  (forall r g i j f m, v (mkst r g i f m) = v (mkst r g j f m)) ->
  does e (put bs e) (fun t t' => stores e Size Loc Val (v t) t t').
Proof.
  intros HS L L' HV D G GI. apply does_of; auto. intros r g f m RO C _.
  pose proof (live_lo _ L) as LO. pose proof (live_room _ _ L') as LR. set (a := CodeAddress e) in *. clearbody a.
  eapply (reach_code _ (map u8 bs) (IMov (Size =? 2) (var_mem e Loc Val) op_) (Z.of_nat (length bs))); auto; try lia.
  { intro. cbn [exec]. rewrite G. rewrite var_mem_put by assumption. reflexivity. }
  intro. apply reach_now. split; [reflexivity|]. unfold stores. cbn [rg sg mem]. split; [|auto].
  rewrite (GI r g (a + Z.of_nat (length bs)) a f m). reflexivity.
Qed.

(** the stored value: AX, or AL *)
Definition ax_sized (Size : Z) (t : state) : Z := if Size =? 2 then ax (rg t) else ax (rg t) mod 256.
Theorem store_does Size Loc Val e e' x : Size = 1 \/ Size = 2 -> live e -> is_var e Loc Val ->
  EmitStoreAx W Size Loc Val e = Ok (x, e') -> live e' /\ does e e' (fun t t' => stores e Size Loc Val (ax_sized Size t) t t').
Proof.
  intros HS L HV H. unfold EmitStoreAx in H.
  assert (G : forall s, get_op s (Size =? 2) (Reg 0) = ax_sized Size s) by (intro s; destruct HS as [-> | ->]; reflexivity).
  assert (N0 : Loc <> 0) by (destruct HV as [->|[-> ?]]; discriminate). rewrite (proj2 (Z.eqb_neq _ _) N0) in H.
  destruct (Z.eqb_spec Loc VT_LOCGLOB) as [->|NG].
  - destruct HV as [?|[_ NV]]; [discriminate|]. minv H y e1 E. apply out1 in E; auto. destruct E as [-> L1].
    apply globalref_emits in H; auto. cbv zeta in H. rewrite put_voff, <- put_app in H. rewrite (proj2 (Z.eqb_neq _ _) NV) in H.
    rewrite add_ref_off in H by exact NV. destruct H as [-> L2]. split; [exact L2|]. apply (store_fin _ _ _ _ ax (Reg 0)); auto.
    { right. auto. }
    intro f. cbn [app map length]. unfold var_mem. change (VT_LOCGLOB =? VT_LOCOFF) with false. change (VT_LOCGLOB =? VT_LOCGLOB) with true. cbv iota.
    rewrite <- word_bytes. destruct HS as [-> | ->]; reflexivity.
  - apply modrm_emits in H; auto; [|unfold R_AX; lia]. destruct H as (-> & L2 & _).
    unfold add_ref in *. rewrite (proj2 (Z.eqb_neq _ _) NG) in *. cbn [andb] in *. split; [exact L2|]. apply (store_fin _ _ _ _ ax (Reg 0)); auto.
    intro f. rewrite mov_decodes; auto; [|destruct HS as [-> | ->]; auto|unfold R_AX; lia]. rewrite map_length. destruct HS as [-> | ->]; reflexivity.
Qed.
End W.
