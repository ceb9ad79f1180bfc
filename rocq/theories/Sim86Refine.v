(** The model of sim86.c executes every accepted instruction as [sim_exec]
    says (C07, C08), for every state. *)
From Verif Require Import Base Bits Spec8086 Sim86 Sim86Alu Sim86Base Sim86Variant.

Local Open Scope out_scope.

Lemma mod_256_u16 x : u16 x mod 256 = x mod 256.
Proof. unfold u16. lia. Qed.

Lemma Some_inj {A} (a b : A) : Some a = Some b -> a = b. Proof. congruence. Qed.
Ltac sinj X := apply Some_inj in X; subst.

  Lemma bit15_u16 x : (Z.land x 32768 =? 0) = (u16 x <? 32768).
  Proof.
    change 32768 with (2 ^ 15) at 1. rewrite land_pow2_eqb by lia. unfold u16. change 65536 with (2 ^ (15 + 1)).
    rewrite testbit_top by lia. change (2 ^ 15) with 32768.
    destruct (Z.leb_spec 32768 (x mod 2 ^ (15 + 1))), (Z.ltb_spec (x mod 2 ^ (15 + 1)) 32768); cbn; lia.
  Qed.
  Lemma flag_bit s n : 0 <= n -> flag_set s (2 ^ n) = Z.testbit (sflags s) n.
  Proof. intro. unfold flag_set. rewrite land_pow2_eqb by lia. now destruct (Z.testbit _ _). Qed.

Section W.
  Variable W : Z.
  Hypothesis HW : 16 <= W.
  Let HW16 : 16 <= W := HW.

  Variable f : Z -> Z.
  Variable base : state.

  (** execution has consumed k bytes of the instruction *)
  Definition at_ (k : Z) (s : sim) : Prop :=
    view f k s /\ mem_ok (smem s) /\ abs s = set_ip base (ip base + k).

  Definition fresh (so : option Z) (s : sim) : Prop :=
    modrm s = -1 /\ addr s = 0 /\ seg s = segcode so /\ so_ok so.

  Definition Ex (x : outcome (event * sim)) (t : state) : Prop :=
    exists s', x = Ok (ENone, s') /\ abs s' = t /\ mem_ok (smem s').
  Definition Ex1 (x : outcome sim) (t : state) : Prop :=
    exists s', x = Ok s' /\ abs s' = t /\ mem_ok (smem s').
  Lemma Ex_ret1 x t : Ex1 x t -> Ex (ret1 x) t.
  Proof. intros (s' & -> & H). exists s'. split; [reflexivity|exact H]. Qed.

  Lemma at_frame k s k' s' : at_ k s -> frame s s' -> view f k' s' ->
    u16 (sip s') = u16 (sip s + (k' - k)) -> at_ k' s'.
  Proof.
    intros (V & M & A) (E1 & E2 & E3 & E4 & E5) V' I. split; [exact V'|]. split; [now rewrite E4|].
    unfold abs in *. rewrite E1, E2, E3, E4, I. unfold set_ip in *. inversion A as [[A1 A2 A3 A4 A5]].
    f_equal; try congruence. unfold u16 in *. lia.
  Qed.

  Lemma ModRM_at k s so o r n : at_ k s -> fresh so s -> dec_modrm f so k = (o, r, n) ->
    exists s', ModRM W s = Ok s' /\ at_ n s' /\ dsize s' = dsize s /\
      Z.land (Z.shiftr (modrm s') 3) 7 = r /\ 0 <= r < 8 /\ rm_rel s' o /\ modrm s' = f k.
  Proof.
    intros A (F1 & F2 & F3 & F4) E. pose proof A as (V & M & _).
    pose proof (ModRM_ok W HW f k s so V M F1 F2 F3 F4) as H. rewrite E in H.
    destruct H as (s' & E' & F & V' & I & R & R8 & RM & Mk). exists s'. split; [exact E'|].
    split; [exact (at_frame k s n s' A F V' I)|]. destruct F as (_ & _ & _ & _ & ->). auto.
  Qed.

  Lemma ReadIByte_at k s : at_ k s ->
    exists s', ReadIByte W s = (f k, s') /\ at_ (k + 1) s' /\ s' = set_ip_ s (sip s') /\ 0 <= f k < 256.
  Proof.
    intros A. pose proof A as (V & M & _). destruct (ReadIByte_ok W HW f k s V M) as [E V'].
    eexists; split; [exact E|]. split; [|split; [reflexivity|exact (view_byte f k s V M)]].
    apply (at_frame k s); auto; [repeat split|]. cbn [sip set_ip_]. rewrite u16_int by exact HW. f_equal. lia.
  Qed.

  Lemma Imm16_at k s : at_ k s ->
    exists v s', Imm16 W s = (v, s') /\ u16 v = word_at f k /\ at_ (k + 2) s' /\ s' = set_ip_ s (sip s').
  Proof.
    intros A. pose proof A as (V & M & _). destruct (Imm16_ok W HW f k s V M) as (v & s' & E & U & V' & S & I).
    exists v, s'. split; [exact E|]. split; [exact U|]. split; [|exact S].
    apply (at_frame k s); auto; [rewrite S; repeat split|]. rewrite I. f_equal. lia.
  Qed.

  Lemma fresh_ip so s i : fresh so s -> fresh so (set_ip_ s i).
  Proof. exact (fun H => H). Qed.
  Lemma rm_rel_ip s i o : rm_rel s o -> rm_rel (set_ip_ s i) o.
  Proof. exact (fun H => H). Qed.

  Lemma fl_abs s : fl (abs s) = abs_flags (sflags s). Proof. reflexivity. Qed.
  Lemma land_FC x : Z.land x FC = Z.b2z (Z.testbit x 0).
  Proof. unfold FC. rewrite land_1. rewrite Z.bit0_mod. reflexivity. Qed.

  Lemma trunc_uns w x : trunc w (uns W x) = trunc w x.
  Proof. destruct w; [apply (u16_uns W HW)|apply (u8_uns W HW)]. Qed.
  Lemma trunc_int w x : trunc w (int_ W x) = trunc w x.
  Proof. destruct w; [apply (u16_int W HW)|apply (u8_int W HW)]. Qed.
  Lemma uns_range x : 0 <= uns W x < 2 ^ W.
  Proof. apply Z.mod_pos_bound, Z.pow_pos_nonneg; lia. Qed.

  Lemma alu_of_cmp op : 0 <= op < 8 -> (op =? OP_CMP) = match alu_of op with CMP => true | _ => false end.
  Proof. revert op. apply alu_cases; reflexivity. Qed.

  Lemma wraps_eq op l r fl0 : 0 <= op < 8 ->
    wraps_to_zero op l r (Z.b2z (fC fl0)) = wraps8 (alu_of op) l r fl0.
  Proof. revert op. apply alu_cases; cbn; unfold wraps8; destruct (fC fl0); reflexivity. Qed.

  Lemma DoOp_ok s op l r d : mem_ok (smem s) -> rm_rel s d -> 0 <= op < 8 ->
    Ex1 (DoOp W s op (uns W l) (uns W r))
        (let '(v, g) := sim_alu (alu_of op) (wide s) (trunc (wide s) l) (trunc (wide s) r) (fl (abs s)) in
         set_fl (match alu_of op with CMP => abs s | _ => put_op (abs s) (wide s) d v end) g).
  Proof.
    intros M R Hop. unfold DoOp. rewrite land_FC.
    set (l0 := if dsize s =? 0 then _ else _). set (r0 := if dsize s =? 0 then _ else uns W r).
    assert (HH : exists res carry, op_result W op l0 r0 (Z.b2z (Z.testbit (sflags s) 0)) = Some (res, carry) /\
       sim_alu (alu_of op) (wide s) (trunc (wide s) l) (trunc (wide s) r) (fl (abs s))
       = (trunc (wide s) res, abs_flags (op_flags W (dsize s) res carry))).
    { unfold l0, r0, wide. rewrite fl_abs.
      destruct (Z.eqb_spec (dsize s) 0) as [E|E]; cbn [negb].
      - rewrite E.
        pose proof (alu8 W op (Z.land (uns W l) 255) (Z.land (uns W r) 255) _ (abs_flags (sflags s)) HW Hop
                      ltac:(rewrite land_255; lia) ltac:(rewrite land_255; lia) eq_refl) as (res & c & E1 & H).
        exists res, c. split; [exact E1|].
        replace (trunc false l) with (Z.land (uns W l) 255) by (rewrite land_255; apply (trunc_uns false)).
        replace (trunc false r) with (Z.land (uns W r) 255) by (rewrite land_255; apply (trunc_uns false)).
        unfold sim_alu. destruct (alu (alu_of op) false _ _ _) as [vr vf].
        destruct H as (_ & H1 & H2 & H3 & H4 & H5 & _).
        rewrite <- wraps_eq by exact Hop. f_equal; [symmetry; exact H1|].
        destruct (abs_flags (op_flags W 0 res c)) as [gc gz gs go]. cbn [fC fZ fS fO] in *. congruence.
      - pose proof (alu16 W op (uns W l) (uns W r) _ (abs_flags (sflags s)) HW Hop (uns_range l) (uns_range r) eq_refl)
          as (res & c & E1 & H).
        exists res, c. split; [exact E1|].
        assert (Ef : op_flags W (dsize s) res c = op_flags W 1 res c)
          by (unfold op_flags; destruct (Z.eqb_spec (dsize s) 0); [contradiction|reflexivity]).
        rewrite Ef.
        change (trunc true l) with (u16 l). change (trunc true r) with (u16 r).
        rewrite <- (u16_uns W HW l), <- (u16_uns W HW r). unfold sim_alu, u16.
        destruct (alu (alu_of op) true _ _ _) as [vr vf].
        destruct H as (_ & H1 & H2 & _). change (trunc true res) with (res mod 65536). rewrite H1, H2. reflexivity. }
    destruct HH as (res & carry & E1 & E2). rewrite E1, E2. rewrite alu_of_cmp by exact Hop.
    destruct (WriteRM_ok W HW (set_flags_ s (op_flags W (dsize s) res carry)) d (int_ W res) M R)
      as (s' & Ew & Ea & _ & Mw & _).
    destruct (alu_of op);
      try (exists s'; split; [exact Ew|]; split; [|exact Mw]; rewrite Ea; rewrite trunc_int;
           change (wide (set_flags_ s (op_flags W (dsize s) res carry))) with (wide s);
           destruct d; reflexivity).
    eexists; split; [reflexivity|]. split; [reflexivity|exact M].
  Qed.

  Lemma dsz_wide s : wide s = negb (dsize s =? 0). Proof. reflexivity. Qed.

  Definition wbit (b : Z) : bool := b mod 2 =? 1.
  Lemma wide_land1 s b : wide (set_dsize_ s (Z.land b 1)) = wbit b.
  Proof. unfold wide, wbit. cbn [dsize set_dsize_]. rewrite land_1. lia. Qed.
  Lemma at_dsize k s v : at_ k s -> at_ k (set_dsize_ s v). Proof. exact (fun H => H). Qed.
  Lemma at_modrm k s v : at_ k s -> at_ k (set_modrm_ s v). Proof. exact (fun H => H). Qed.
  Lemma fresh_dsize so s v : fresh so s -> fresh so (set_dsize_ s v). Proof. exact (fun H => H). Qed.
  Lemma wide_frame s s' : dsize s' = dsize s -> wide s' = wide s.
  Proof. unfold wide. now intros ->. Qed.


  Lemma reg_cases (P : Z -> Prop) :
    P 0 -> P 1 -> P 2 -> P 3 -> P 4 -> P 5 -> P 6 -> P 7 -> forall r, 0 <= r < 8 -> P r.
  Proof. exact (alu_cases P). Qed.

  Lemma rm_rel_reg s r : 0 <= r < 8 -> rm_rel (set_modrm_ s (Z.lor 192 r)) (Reg r).
  Proof.
    intro Hr. split; cbn [modrm set_modrm_]; revert r Hr; apply reg_cases; vm_compute; intuition congruence.
  Qed.
  Lemma rm_rel_reg2 s r : 0 <= r < 8 -> rm_rel (set_modrm_ s (Z.lor (Z.lor 192 (Z.shiftl r 3)) r)) (Reg r).
  Proof.
    intro Hr. split; cbn [modrm set_modrm_]; revert r Hr; apply reg_cases; vm_compute; intuition congruence.
  Qed.

  Ltac split_reg r Hr :=
    let E := fresh "E" in
    assert (E : r = 0 \/ r = 1 \/ r = 2 \/ r = 3 \/ r = 4 \/ r = 5 \/ r = 6 \/ r = 7) by lia; clear Hr;
    repeat destruct E as [->|E]; try subst r.
  Ltac exok := eexists; split; [reflexivity|].
  Ltac use H := destruct H as (? & -> & ?).

  (** opcodes 00-3F, ModRM forms *)
  Lemma ALUOp_at k s so o r n op swap t : at_ k s -> fresh so s -> dec_modrm f so k = (o, r, n) -> 0 <= op < 8 ->
    sim_exec (if swap =? 0 then IAlu (alu_of op) (wide s) o (Reg r) else IAlu (alu_of op) (wide s) (Reg r) o)
             (set_ip base (ip base + n)) = Some t ->
    Ex1 (ALUOp W s op swap) t.
  Proof.
    intros A F D Hop X. unfold ALUOp.
    destruct (ModRM_at k s so o r n A F D) as (s1 & -> & A1 & Dz & R & R8 & RM & _). cbn [obind].
    rewrite R. pose proof A1 as (_ & M1 & B1).
    destruct (ReadRM_ok W HW s1 o M1 RM) as (v & -> & Hv). cbn [obind].
    pose proof (ReadReg_ok s1 r R8) as Hr.
    assert (Ew : wide s1 = wide s) by (apply wide_frame; exact Dz).
    rewrite <- B1 in X. destruct (swap =? 0); cbn [sim_exec] in X.
    - destruct (DoOp_ok s1 op v (ReadReg s1 r) o M1 RM Hop) as (s' & E & Ea & M').
      exists s'. split; [exact E|]. split; [|exact M']. rewrite Ea, Hv, Hr, Ew.
      destruct (sim_alu (alu_of op) (wide s) _ _ _) as [a b]. congruence.
    - destruct (DoOp_ok (set_modrm_ s1 (Z.lor 192 r)) op (ReadReg s1 r) v (Reg r) M1 (rm_rel_reg _ _ R8) Hop) as (s' & E & Ea & M').
      exists s'. split; [exact E|]. split; [|exact M']. rewrite Ea.
      change (abs (set_modrm_ s1 (Z.lor 192 r))) with (abs s1).
      change (wide (set_modrm_ s1 (Z.lor 192 r))) with (wide s1). rewrite Hv, Hr, Ew.
      destruct (sim_alu (alu_of op) (wide s) _ _ _) as [a b]. congruence.
  Qed.

  Lemma trunc_small w x : 0 <= x < modulus w -> trunc w x = x.
  Proof. intro. apply Z.mod_small. assumption. Qed.

  Lemma byte_trunc b : 0 <= b < 256 -> trunc false (s8 b) = b.
  Proof. intro. unfold trunc, modulus, s8. cbv zeta. destruct (Z.ltb_spec (b mod 256) 128); lia. Qed.

  (** opcodes 00-3F, accumulator with an immediate *)
  Definition acc_imm (s : sim) (op : Z) : outcome sim :=
    let '(imm, s) := if dsize s =? 0 then let '(b, s) := ReadIByte W s in (s8 b, s) else Imm16 W s in
    let s := set_modrm_ s 192 in
    DoOp W s op (uns W (ax (reg s))) (uns W imm).

  Lemma ALUimm_at k s op i n t : at_ k s -> 0 <= op < 8 -> dec_imm f (wide s) k = (i, n) ->
    sim_exec (IAlu (alu_of op) (wide s) (Reg 0) (Imm i)) (set_ip base (ip base + n)) = Some t ->
    Ex1 (acc_imm s op) t.
  Proof.
    intros A Hop D X. unfold acc_imm, wide in *. unfold dec_imm in D.
    assert (HH : exists imm s1, (if dsize s =? 0 then let '(b, s) := ReadIByte W s in (s8 b, s) else Imm16 W s) = (imm, s1) /\
              trunc (wide s) imm = i /\ at_ n s1 /\ dsize s1 = dsize s).
    { unfold wide. destruct (dsize s =? 0); cbn [negb] in *.
      - destruct (ReadIByte_at k s A) as (s1 & -> & A1 & E1 & B). inversion D; subst i n.
        exists (s8 (f k)), s1. split; [reflexivity|]. split; [apply byte_trunc, B|]. split; [exact A1|]. rewrite E1. reflexivity.
      - destruct (Imm16_at k s A) as (v & s1 & -> & U & A1 & E1). inversion D; subst i n.
        exists v, s1. split; [reflexivity|]. split; [exact U|]. split; [exact A1|]. rewrite E1. reflexivity. }
    destruct HH as (imm & s1 & -> & Ei & A1 & Dz).
    assert (Ew : wide s1 = wide s) by (apply wide_frame; exact Dz).
    pose proof A1 as (_ & M1 & B1).
    destruct (DoOp_ok (set_modrm_ s1 192) op (ax (reg s1)) imm (Reg 0) M1 (rm_rel_reg s1 0 ltac:(lia)) Hop) as (s' & E & Ea & M').
    exists s'. split; [exact E|]. split; [|exact M']. rewrite Ea.
    change (abs (set_modrm_ s1 192)) with (abs s1).
    change (wide (set_modrm_ s1 192)) with (wide s1). rewrite Ew.
    rewrite <- B1 in X. cbn [sim_exec] in X. change (negb (dsize s =? 0)) with (wide s) in X.
    assert (E0 : trunc (wide s) (ax (reg s1)) = get_op (abs s1) (wide s) (Reg 0)).
    { cbn [get_op]. destruct (wide s); [reflexivity|]. cbn. unfold trunc, modulus, u16. lia. }
    rewrite E0, Ei. change (get_op (abs s1) (wide s) (Imm i)) with i in X.
    destruct (sim_alu (alu_of op) (wide s) _ _ _) as [a b]. congruence.
  Qed.

  (** opcodes 80-83 *)
  Definition grp1 (s : sim) (w16 : bool) : outcome sim :=
    do s <- ModRM W s;
    let '(imm, s) := if w16 then Imm16 W s else let '(b, s) := ReadIByte W s in (s8 b, s) in
    do v <- ReadRM W s;
    DoOp W s (Z.land (Z.shiftr (modrm s) 3) 7) (uns W v) (uns W imm).

  Lemma grp1_at k s so o r n (w16 : bool) t : at_ k s -> fresh so s -> dec_modrm f so k = (o, r, n) ->
    (w16 = true -> wide s = true) ->
    sim_exec (IAlu (alu_of r) (wide s) o (Imm (if w16 then word_at f n else if wide s then sx8 (f n) else f n)))
             (set_ip base (ip base + (if w16 then n + 2 else n + 1))) = Some t ->
    Ex1 (grp1 s w16) t.
  Proof.
    intros A F D Hw X. unfold grp1.
    destruct (ModRM_at k s so o r n A F D) as (s1 & -> & A1 & Dz & R & R8 & RM & _). cbn [obind].
    assert (HH : exists imm s2, (if w16 then Imm16 W s1 else let '(b, s) := ReadIByte W s1 in (s8 b, s)) = (imm, s2) /\
       trunc (wide s) imm = (if w16 then word_at f n else if wide s then sx8 (f n) else f n) /\
       at_ (if w16 then n + 2 else n + 1) s2 /\ s2 = set_ip_ s1 (sip s2)).
    { destruct w16.
      - destruct (Imm16_at n s1 A1) as (v & s2 & -> & U & A2 & E2). exists v, s2. rewrite (Hw eq_refl). auto.
      - destruct (ReadIByte_at n s1 A1) as (s2 & -> & A2 & E2 & B). exists (s8 (f n)), s2.
        split; [reflexivity|]. split; [|auto]. destruct (wide s); [apply sx8_s8, B|apply byte_trunc, B]. }
    destruct HH as (imm & s2 & -> & Ei & A2 & E2).
    assert (RM2 : rm_rel s2 o) by (rewrite E2; exact RM).
    pose proof A2 as (_ & M2 & B2).
    destruct (ReadRM_ok W HW s2 o M2 RM2) as (v & -> & Hv). cbn [obind].
    replace (modrm s2) with (modrm s1) by (rewrite E2; reflexivity). rewrite R.
    assert (Ew : wide s2 = wide s) by (apply wide_frame; rewrite E2; exact Dz).
    destruct (DoOp_ok s2 r v imm o M2 RM2 R8) as (s' & E & Ea & M').
    exists s'. split; [exact E|]. split; [|exact M']. rewrite Ea, Hv, Ew, Ei.
    rewrite <- B2 in X. cbn [sim_exec get_op] in X.
    destruct (sim_alu (alu_of r) (wide s) _ _ _) as [a b]. congruence.
  Qed.

  (** opcodes 88-8B *)
  Lemma MOV_at k s so o r n swap t : at_ k s -> fresh so s -> dec_modrm f so k = (o, r, n) ->
    sim_exec (if swap =? 0 then IMov (wide s) o (Reg r) else IMov (wide s) (Reg r) o)
             (set_ip base (ip base + n)) = Some t ->
    Ex1 (MOV W s swap) t.
  Proof.
    intros A F D X. unfold MOV.
    destruct (ModRM_at k s so o r n A F D) as (s1 & -> & A1 & Dz & R & R8 & RM & _). cbn [obind].
    rewrite R. pose proof A1 as (_ & M1 & B1).
    assert (Ew : wide s1 = wide s) by (apply wide_frame; exact Dz).
    rewrite <- B1 in X. destruct (swap =? 0); cbn [sim_exec exec] in X.
    - destruct (WriteRM_ok W HW s1 o (ReadReg s1 r) M1 RM) as (s' & E & Ea & _ & M' & _).
      exists s'. split; [exact E|]. split; [|exact M']. rewrite Ea, Ew.
      pose proof (ReadReg_ok s1 r R8) as Hr. rewrite Ew in Hr. rewrite Hr. congruence.
    - destruct (ReadRM_ok W HW s1 o M1 RM) as (v & -> & Hv). cbn [obind].
      exok. split; [|rewrite WriteReg_eq; exact M1].
      rewrite WriteReg_eq. unfold abs at 1. cbn [reg sreg sip sflags smem set_reg_].
      rewrite WriteReg_reg by (exact HW || exact R8). rewrite Ew in *.
      cbn [put_op] in X. rewrite <- Hv in X. sinj X.
      destruct (wide s); [rewrite (u16_uns W HW v)|rewrite (u8_uns W HW v)]; reflexivity.
  Qed.

  Lemma abs_set_reg s r v : abs (set_reg_ s (rset (reg s) r v)) = set_reg (abs s) r (u16 v).
  Proof. unfold abs at 1. cbn [reg sreg sip sflags smem set_reg_]. rewrite absr_rset. reflexivity. Qed.
  Lemma abs_upd s r v : abs (upd W s r v) = set_reg (abs s) r (u16 v).
  Proof. unfold upd. rewrite abs_set_reg, u16_int by exact HW. reflexivity. Qed.
  Lemma abs_set_ip s v : abs (set_ip_ s v) = set_ip (abs s) v.
  Proof. reflexivity. Qed.

  Lemma DoPush_ok s v : mem_ok (smem s) ->
    abs (DoPush W s v) = push (abs s) (u16 v) /\ mem_ok (smem (DoPush W s v)) /\
    sip (DoPush W s v) = sip s /\ same_loc s (DoPush W s v) /\ sreg (DoPush W s v) = sreg s.
  Proof.
    intro M. unfold DoPush. rewrite Write16_eq by exact HW.
    split; [|split; [apply mem_ok_wr16; exact M|repeat split]].
    rewrite abs_set_mem, abs_set_reg. unfold push.
    cbn [sp reg set_reg_ rset sreg smem]. rewrite u16_int by exact HW.
    replace (sp (rg (abs s))) with (u16 (sp (reg s))) by reflexivity.
    replace (u16 (sp (reg s) - 2)) with ((u16 (sp (reg s)) - 2) mod 65536) by (unfold u16; lia).
    f_equal. apply wr16_cong.
    - rewrite u16_int by exact HW. unfold u16; lia.
  Qed.
  Lemma DoPop_ok s v s1 : mem_ok (smem s) -> DoPop W s = (v, s1) ->
    (u16 v, abs s1) = pop (abs s) /\ smem s1 = smem s /\ sreg s1 = sreg s /\ reg s1 = rset (reg s) 4 (int_ W (sp (reg s) + 2)).
  Proof.
    intros M E. unfold DoPop in E.
    assert (E1 : v = Read16 W s 2 (sp (reg s))) by congruence.
    assert (E2 : s1 = set_reg_ s (rset (reg s) 4 (int_ W (sp (reg s) + 2)))) by congruence.
    rewrite E1, E2. clear E E1 E2. split; [|repeat split].
    unfold pop. rewrite abs_set_reg, Read16_ok, u16_int by assumption. f_equal.
    - change (sget (sreg s) 2) with (ss (sreg s)). cbn [abs mem sg abss ss rg absr sp]. apply rd16_cong. now rewrite u16_u16.
    - f_equal. cbn. unfold u16. lia.
  Qed.

  Lemma PUSH_at k s r t : at_ k s -> 0 <= r < 8 ->
    sim_exec (IPush (Reg r)) (set_ip base (ip base + k)) = Some t -> Ex (Ok (ENone, PUSH W s r)) t.
  Proof.
    intros (_ & M & B) Hr X. exists (PUSH W s r). split; [reflexivity|].
    unfold PUSH. destruct (DoPush_ok s (rget (reg s) r) M) as (E & M' & _). split; [|exact M'].
    rewrite E. rewrite <- B in X. rewrite <- rget_absr.
    clear E M'. split_reg r Hr; cbn [sim_exec exec get_op] in X; sinj X; reflexivity.
  Qed.
  Lemma POP_at k s r t : at_ k s ->
    sim_exec (IPop r) (set_ip base (ip base + k)) = Some t -> Ex (Ok (ENone, POP W s r)) t.
  Proof.
    intros (_ & M & B) X. exists (POP W s r). split; [reflexivity|]. unfold POP.
    destruct (DoPop W s) as [v s1] eqn:E. destruct (DoPop_ok s v s1 M E) as (P & M' & _).
    rewrite <- B in X. cbn [sim_exec exec] in X. rewrite <- P in X. rewrite abs_set_reg.
    split; [congruence|]. cbn [smem set_reg_]. now rewrite M'.
  Qed.
  Lemma abs_set_sreg s r v : abs (set_sreg_ s (sset (sreg s) r v)) = set_sg (abs s) (sset (sg (abs s)) r (u16 v)).
  Proof. unfold abs at 1. cbn [reg sreg sip sflags smem set_sreg_]. rewrite abss_sset. reflexivity. Qed.
  Lemma PUSHS_at k s r t : at_ k s ->
    sim_exec (IPushS r) (set_ip base (ip base + k)) = Some t -> Ex (Ok (ENone, DoPush W s (sget (sreg s) r))) t.
  Proof.
    intros (_ & M & B) X. exok. destruct (DoPush_ok s (sget (sreg s) r) M) as (E & M' & _). split; [|exact M'].
    rewrite E. rewrite <- B in X. cbn [sim_exec exec] in X. rewrite abs_sg, sget_abss in X. congruence.
  Qed.
  Lemma POPS_at k s r t : at_ k s ->
    sim_exec (IPopS r) (set_ip base (ip base + k)) = Some t ->
    Ex (let '(v, s) := DoPop W s in Ok (ENone, set_sreg_ s (sset (sreg s) r v))) t.
  Proof.
    intros (_ & M & B) X. destruct (DoPop W s) as [v s1] eqn:E. destruct (DoPop_ok s v s1 M E) as (P & M' & _).
    exok. rewrite <- B in X. cbn [sim_exec exec] in X. rewrite <- P in X. rewrite abs_set_sreg.
    split; [congruence|]. cbn [smem set_sreg_]. now rewrite M'.
  Qed.

  (** conditional jumps *)

  Definition xor_eqb (a b : bool) : Bool.eqb a b = negb (xorb a b).
  Proof. destruct a, b; reflexivity. Qed.

  Lemma JCC_at k s cc t : at_ k s -> 0 <= cc < 16 -> cc <> 10 -> cc <> 11 ->
    sim_exec (IJcc cc (sx8 (f k))) (set_ip base (ip base + (k + 1))) = Some t -> Ex1 (JCC W s cc) t.
  Proof.
    intros A Hcc N10 N11 X. unfold JCC. destruct (ReadIByte_at k s A) as (s1 & -> & A1 & E1 & B). cbv beta iota zeta.
    pose proof A1 as (_ & M1 & B1). rewrite <- B1 in X. cbn [sim_exec exec] in X.
    change FO with (2 ^ 11). change FC with (2 ^ 0). change FZ with (2 ^ 6). change FS with (2 ^ 7).
    rewrite !flag_bit by lia.
    assert (Go : forall (j e : bool) (b : bool), b = Bool.eqb j e ->
               (if b then Some (set_ip (abs s1) (ip (abs s1) + sx8 (f k))) else Some (abs s1)) = Some t ->
               Ex1 (Ok (if Bool.eqb j e then set_ip_ s1 (int_ W (sip s1 + s8 (f k))) else s1)) t).
    { intros j e b -> X'. exists (if Bool.eqb j e then set_ip_ s1 (int_ W (sip s1 + s8 (f k))) else s1). split; [reflexivity|].
      destruct (Bool.eqb j e); sinj X'; (split; [|exact M1]); [|reflexivity].
      rewrite abs_set_ip. unfold set_ip. f_equal. pose proof (sx8_s8 (f k) B).
      pose proof (u16_int W HW (sip s1 + s8 (f k))). cbn [ip abs]. unfold u16 in *. lia. }
    assert (E : cc=0\/cc=1\/cc=2\/cc=3\/cc=4\/cc=5\/cc=6\/cc=7\/cc=8\/cc=9\/cc=12\/cc=13\/cc=14\/cc=15) by lia.
    unfold abs in X at 1. cbn [fl abs_flags] in X.
    repeat destruct E as [->|E]; try subst cc; cbn [cond fC fZ fS fO abs_flags] in X;
      match goal with |- context [Z.shiftr ?a 1] => let x := eval vm_compute in (Z.shiftr a 1) in change (Z.shiftr a 1) with x end;
      match goal with |- context [Z.land ?a 1 =? 0] => let x := eval vm_compute in (Z.land a 1 =? 0) in change (Z.land a 1 =? 0) with x end;
      cbv iota;
      (match type of X with (if ?b then _ else _) = _ => eapply (Go _ _ b) | match (if ?b then _ else _) with _ => _ end = _ => idtac end);
      try (match type of X with context [Some (?b)] => idtac end);
      repeat match goal with |- context [Z.testbit ?a ?b] => destruct (Z.testbit a b) end; try reflexivity; try exact X.
  Qed.

  (** opcode 8C: stores a 16-bit segment register *)
  Lemma MovFromS_at k s so o r n t : at_ k s -> fresh so s -> dsize s = 1 ->
    dec_modrm f so k = (o, r, n) -> r < 4 ->
    sim_exec (IMovFromS o r) (set_ip base (ip base + n)) = Some t ->
    Ex1 (do s <- ModRM W s;
         let r := Z.land (Z.shiftr (modrm s) 3) 7 in
         do _ <- oassert (r <? 4); WriteRM W s (sget (sreg s) r)) t.
  Proof.
    intros A F Dz D Hr X. destruct (ModRM_at k s so o r n A F D) as (s1 & -> & A1 & Dz1 & R & R8 & RM & _). cbn [obind].
    rewrite R. cbv zeta. destruct (Z.ltb_spec r 4); [|lia]. cbn [oassert obind].
    pose proof A1 as (_ & M1 & B1).
    destruct (WriteRM_ok W HW s1 o (sget (sreg s1) r) M1 RM) as (s' & E & Ea & _ & M' & _).
    exists s'. split; [exact E|]. split; [|exact M']. rewrite Ea.
    assert (Ew : wide s1 = true) by (unfold wide; rewrite Dz1, Dz; reflexivity). rewrite Ew.
    rewrite <- B1 in X. cbn [sim_exec exec] in X. rewrite abs_sg, sget_abss in X.
    change (trunc true (sget (sreg s1) r)) with (u16 (sget (sreg s1) r)). congruence.
  Qed.

  Lemma MovToS_at k s so o r n t : at_ k s -> fresh so s -> dsize s = 1 ->
    dec_modrm f so k = (o, r, n) -> r < 4 ->
    sim_exec (IMovToS r o) (set_ip base (ip base + n)) = Some t ->
    Ex1 (do s <- ModRM W s;
         let r := Z.land (Z.shiftr (modrm s) 3) 7 in
         do _ <- oassert (r <? 4);
         do v <- ReadRM W s;
         Ok (set_sreg_ s (sset (sreg s) r v))) t.
  Proof.
    intros A F Dz D Hr X. destruct (ModRM_at k s so o r n A F D) as (s1 & -> & A1 & Dz1 & R & R8 & RM & _). cbn [obind].
    rewrite R. cbv zeta. destruct (Z.ltb_spec r 4); [|lia]. cbn [oassert obind].
    pose proof A1 as (_ & M1 & B1).
    destruct (ReadRM_ok W HW s1 o M1 RM) as (v & -> & Hv). cbn [obind]. exok.
    assert (Ew : wide s1 = true) by (unfold wide; rewrite Dz1, Dz; reflexivity). rewrite Ew in Hv.
    rewrite <- B1 in X. cbn [sim_exec exec] in X. rewrite abs_set_sreg. rewrite <- Hv in X.
    split; [|exact M1]. change (trunc true v) with (u16 v) in X. congruence.
  Qed.

  Lemma LEA_at k s so o r n t : at_ k s -> fresh so s -> dec_modrm f so k = (o, r, n) ->
    sim_exec (ILea r o) (set_ip base (ip base + n)) = Some t ->
    Ex1 (do s <- ModRM W s;
         Ok (set_reg_ s (rset (reg s) (Z.land (Z.shiftr (modrm s) 3) 7) (addr s)))) t.
  Proof.
    intros A F D X. destruct (ModRM_at k s so o r n A F D) as (s1 & -> & A1 & Dz1 & R & R8 & RM & _). cbn [obind].
    rewrite R. pose proof A1 as (_ & M1 & B1). exok. split; [|exact M1]. rewrite abs_set_reg.
    rewrite <- B1 in X. destruct o as [|so' m d|]; try discriminate X. cbn [sim_exec exec] in X.
    destruct RM as (_ & _ & _ & _ & Ea). rewrite Ea. rewrite abs_rg in X. congruence.
  Qed.

  (** INC and DEC in all encodings *)
  Definition incdec (v : Z) (w : bool) (o : operand) : instr := if v =? 1 then IInc w o else IDec w o.
  Lemma DoIncDec_ok s o v t : mem_ok (smem s) -> rm_rel s o -> v = 1 \/ v = -1 ->
    sim_exec (incdec v (wide s) o) (abs s) = Some t ->
    Ex1 (DoIncDec W s v) t.
  Proof.
    intros M R Hv X. unfold DoIncDec. destruct (ReadRM_ok W HW s o M R) as (x & -> & Hx). cbn [obind].
    destruct (WriteRM_ok W HW s o (int_ W (x + v)) M R) as (s' & E & Ea & _ & M' & _).
    exists s'. split; [exact E|]. split; [|exact M']. rewrite Ea, trunc_int.
    destruct Hv as [-> | ->]; cbn [incdec Z.eqb Pos.eqb sim_exec] in X; rewrite <- Hx in X; sinj X; f_equal;
      unfold trunc; rewrite ?Zplus_mod_idemp_l, ?Zminus_mod_idemp_l; f_equal; lia.
  Qed.
  Lemma IncDecR_at k s r v t : at_ k s -> 0 <= r < 8 -> v = 1 \/ v = -1 -> dsize s = 1 ->
    sim_exec (incdec v true (Reg r)) (set_ip base (ip base + k)) = Some t ->
    Ex1 (DoIncDec W (set_modrm_ s (Z.lor (Z.lor 192 (Z.shiftl r 3)) r)) v) t.
  Proof.
    intros (_ & M & B) Hr Hv Dz X. apply (DoIncDec_ok _ (Reg r)); auto; [apply rm_rel_reg2, Hr|].
    change (wide (set_modrm_ s _)) with (wide s). unfold wide. rewrite Dz. cbn [Z.eqb negb].
    rewrite <- B in X. exact X.
  Qed.

  Lemma rg_set_ip s i : rg (set_ip s i) = rg s. Proof. reflexivity. Qed.

  Lemma XCHG_at k s r t : at_ k s -> 0 <= r < 8 ->
    sim_exec (IXchg true (Reg r) (Reg 0)) (set_ip base (ip base + k)) = Some t ->
    Ex (let rv := rget (reg s) r in
        let s := set_reg_ s (rset (reg s) r (ax (reg s))) in
        Ok (ENone, set_reg_ s (rset (reg s) 0 rv))) t.
  Proof.
    intros (_ & M & B) Hr X. cbv zeta. exok. split; [|exact M]. rewrite !abs_set_reg.
    rewrite <- B in X. cbn [sim_exec exec put_op get_op] in X. rewrite abs_rg, !rget_absr in X. sinj X. reflexivity.
  Qed.

  Lemma CBW_at k s t : at_ k s -> sim_exec ICbw (set_ip base (ip base + k)) = Some t ->
    Ex (Ok (ENone, set_reg_ s (rset (reg s) 0 (s8 (ax (reg s)))))) t.
  Proof.
    intros (_ & M & B) X. exok. split; [|exact M]. rewrite abs_set_reg. rewrite <- B in X.
    cbn [sim_exec exec] in X. sinj X. f_equal. unfold rget8. cbn [Z.ltb Z.compare rget rg abs absr ax].
    unfold signed, half, modulus, s8, u16. cbv zeta. rewrite (mod_256_u16 (ax (reg s)) : (ax (reg s) mod 65536) mod 256 = _).
    reflexivity.
  Qed.
  Lemma CWD_at k s t : at_ k s -> sim_exec ICwd (set_ip base (ip base + k)) = Some t ->
    Ex (Ok (ENone, set_reg_ s (rset (reg s) 2 (if Z.land (ax (reg s)) 32768 =? 0 then 0 else -1)))) t.
  Proof.
    intros (_ & M & B) X. exok. split; [|exact M]. rewrite abs_set_reg. rewrite <- B in X.
    cbn [sim_exec exec] in X. sinj X. f_equal. rewrite bit15_u16.
    change (ax (rg (abs s))) with (u16 (ax (reg s))). destruct (u16 (ax (reg s)) <? 32768); reflexivity.
  Qed.

  (** opcodes A0-A3 *)
  Lemma moffs_at k s so (b : Z) t : at_ k s -> b = 160 \/ b = 161 \/ b = 162 \/ b = 163 -> so = None \/ so = Some 3 ->
    sim_exec (if b <? 162 then IMov (wbit b) (Reg 0) (Mem so MDirect (word_at f k))
              else IMov (wbit b) (Mem so MDirect (word_at f k)) (Reg 0)) (set_ip base (ip base + (k + 2))) = Some t ->
    Ex (let '(off, s) := Imm16 W s in
        if Z.land b 2 =? 0 then
          if Z.land b 1 =? 0 then
            Ok (ENone, set_reg_ s (rset (reg s) 0 (int_ W (Z.lor (Z.land (ax (reg s)) 65280) (Read8 s 3 off)))))
          else Ok (ENone, set_reg_ s (rset (reg s) 0 (Read16 W s 3 off)))
        else
          if Z.land b 1 =? 0 then Ok (ENone, Write8 s 3 off (Z.land (ax (reg s)) 255))
          else Ok (ENone, Write16 W s 3 off (ax (reg s)))) t.
  Proof.
    intros A Hb Hso X. destruct (Imm16_at k s A) as (v & s1 & -> & U & A1 & E1).
    pose proof A1 as (_ & M1 & B1). rewrite <- B1 in X.
    assert (Es : forall m, ea_seg m so MDirect = ds m) by (intro; destruct Hso as [-> | ->]; reflexivity).
    assert (Eo : ea_off (rg (abs s1)) MDirect (word_at f k) = u16 v)
      by (rewrite <- U; unfold ea_off; cbn [mode_off Z.add]; change (u16 v mod 65536) with (u16 (u16 v)); apply u16_u16).
    destruct Hb as [-> | [-> | [-> | ->]]]; cbn [Z.ltb Z.compare Pos.compare Pos.compare_cont] in X;
      unfold wbit in X; cbn [Z.land Pos.land Z.of_N Z.eqb];
      match type of X with context [?a mod 2 =? 1] => let x := eval vm_compute in (a mod 2 =? 1) in change (a mod 2 =? 1) with x in X end;
      cbn [sim_exec exec put_op get_op] in X; rewrite Es, Eo in X; sinj X; exok.
    - rewrite abs_set_reg, u16_int by exact HW. split; [|exact M1]. unfold set_reg. f_equal.
      unfold rset8. cbn [Z.ltb Z.compare rget rset]. f_equal.
      rewrite Read8_ok by exact M1. rewrite rd8_u16.
      change (u16 (sget (sreg s1) 3)) with (ds (sg (abs s1))).
      set (b := rd8 (smem s1) (ds (sg (abs s1))) v). change (rd8 (mem (abs s1)) (ds (sg (abs s1))) v) with b.
      assert (Hb : 0 <= b < 256) by apply M1.
      replace b with (Z.land b 255) at 1 by (rewrite land_255; lia).
      rewrite u16_byte_lo. rewrite u8_small by exact Hb. reflexivity.
    - rewrite abs_set_reg, Read16_ok by assumption. split; [|exact M1]. unfold set_reg. f_equal. f_equal.
      apply rd16_cong. now rewrite u16_u16.
    - rewrite Write8_eq. split; [|apply mem_ok_wr8, M1]. rewrite abs_set_mem. f_equal.
      cbn [rg abs]. unfold rget8. cbn [Z.ltb Z.compare rget absr ax mem sg abss ds].
      change (u16 (sget (sreg s1) 3)) with (u16 (ds (sreg s1))).
      apply wr8_cong; [now rewrite u16_u16|]. rewrite land_255. unfold u8, u16. lia.
    - rewrite Write16_eq by exact HW. split; [|apply mem_ok_wr16, M1]. rewrite abs_set_mem. f_equal.
      cbn [rget rg abs absr ax mem sg abss ds].
      change (u16 (sget (sreg s1) 3)) with (u16 (ds (sreg s1))).
      apply wr16_cong. now rewrite u16_u16.
  Qed.

  (** immediate moves *)
  Lemma movb_at k s r t : at_ k s -> 0 <= r < 8 -> dsize s = 0 ->
    sim_exec (IMov false (Reg r) (Imm (f k))) (set_ip base (ip base + (k + 1))) = Some t ->
    Ex (let '(b, s) := ReadIByte W s in Ok (ENone, WriteReg W s r (uns W b))) t.
  Proof.
    intros A Hr Dz X. destruct (ReadIByte_at k s A) as (s1 & -> & A1 & E1 & B).
    pose proof A1 as (_ & M1 & B1). rewrite <- B1 in X. exok.
    rewrite WriteReg_eq. split; [|exact M1].
    cbn [sim_exec exec put_op get_op] in X. sinj X.
    unfold abs at 1. cbn [reg sreg sip sflags smem set_reg_]. rewrite WriteReg_reg by (exact HW || exact Hr).
    assert (Ew : wide s1 = false) by (unfold wide; rewrite E1; cbn [dsize set_ip_]; rewrite Dz; reflexivity).
    rewrite Ew, u8_uns, u8_small by assumption. reflexivity.
  Qed.
  Lemma movw_at k s r t : at_ k s ->
    sim_exec (IMov true (Reg r) (Imm (word_at f k))) (set_ip base (ip base + (k + 2))) = Some t ->
    Ex (let '(i, s) := Imm16 W s in Ok (ENone, set_reg_ s (rset (reg s) r i))) t.
  Proof.
    intros A X. destruct (Imm16_at k s A) as (v & s1 & -> & U & A1 & E1).
    pose proof A1 as (_ & M1 & B1). rewrite <- B1 in X. exok. split; [|exact M1].
    rewrite abs_set_reg, U. cbn [sim_exec exec put_op get_op] in X. sinj X. reflexivity.
  Qed.
  Lemma C6_at k s so o r n t : at_ k s -> fresh so s -> dsize s = 0 -> dec_modrm f so k = (o, r, n) ->
    sim_exec (IMov false o (Imm (f n))) (set_ip base (ip base + (n + 1))) = Some t ->
    Ex1 (do s <- ModRM W s; let '(v, s) := ReadIByte W s in WriteRM W s v) t.
  Proof.
    intros A F Dz D X. destruct (ModRM_at k s so o r n A F D) as (s1 & -> & A1 & Dz1 & R & R8 & RM & _). cbn [obind].
    destruct (ReadIByte_at n s1 A1) as (s2 & -> & A2 & E2 & B).
    pose proof A2 as (_ & M2 & B2). rewrite <- B2 in X.
    assert (RM2 : rm_rel s2 o) by (rewrite E2; exact RM).
    destruct (WriteRM_ok W HW s2 o (f n) M2 RM2) as (s' & E & Ea & _ & M' & _).
    exists s'. split; [exact E|]. split; [|exact M']. rewrite Ea.
    assert (Ew : wide s2 = false) by (unfold wide; rewrite E2; cbn [dsize set_ip_]; rewrite Dz1, Dz; reflexivity).
    rewrite Ew, trunc_small by exact B. cbn [sim_exec exec get_op] in X. congruence.
  Qed.
  Lemma C7_at k s so o r n t : at_ k s -> fresh so s -> dsize s = 1 -> dec_modrm f so k = (o, r, n) ->
    sim_exec (IMov true o (Imm (word_at f n))) (set_ip base (ip base + (n + 2))) = Some t ->
    Ex1 (do s <- ModRM W s; let '(v, s) := Imm16 W s in WriteRM W s v) t.
  Proof.
    intros A F Dz D X. destruct (ModRM_at k s so o r n A F D) as (s1 & -> & A1 & Dz1 & R & R8 & RM & _). cbn [obind].
    destruct (Imm16_at n s1 A1) as (v & s2 & -> & U & A2 & E2).
    pose proof A2 as (_ & M2 & B2). rewrite <- B2 in X.
    assert (RM2 : rm_rel s2 o) by (rewrite E2; exact RM).
    destruct (WriteRM_ok W HW s2 o v M2 RM2) as (s' & E & Ea & _ & M' & _).
    exists s'. split; [exact E|]. split; [|exact M']. rewrite Ea.
    assert (Ew : wide s2 = true) by (unfold wide; rewrite E2; cbn [dsize set_ip_]; rewrite Dz1, Dz; reflexivity).
    rewrite Ew. change (trunc true v) with (u16 v). rewrite U. cbn [sim_exec exec get_op] in X. congruence.
  Qed.

  (** jumps and calls *)
  Lemma ip_add s v w : u16 v = u16 w -> set_ip (abs s) (int_ W (sip s + v)) = set_ip (abs s) (ip (abs s) + w).
  Proof.
    intro E. unfold set_ip. f_equal. pose proof (u16_int W HW (sip s + v)) as H. cbn [ip abs]. unfold u16 in *. lia.
  Qed.
  Lemma JMPw_at k s t : at_ k s -> sim_exec (IJmp (word_at f k)) (set_ip base (ip base + (k + 2))) = Some t ->
    Ex (let '(rel, s) := Imm16 W s in Ok (ENone, JMP W s rel)) t.
  Proof.
    intros A X. destruct (Imm16_at k s A) as (v & s1 & -> & U & A1 & E1).
    pose proof A1 as (_ & M1 & B1). rewrite <- B1 in X. exok. split; [|exact M1].
    unfold JMP. rewrite abs_set_ip, (ip_add s1 v (word_at f k)) by (rewrite <- U, u16_u16; reflexivity).
    cbn [sim_exec exec] in X. congruence.
  Qed.
  Lemma JMPb_at k s t : at_ k s -> sim_exec (IJmp (sx8 (f k))) (set_ip base (ip base + (k + 1))) = Some t ->
    Ex (let '(b, s) := ReadIByte W s in Ok (ENone, JMP W s (s8 b))) t.
  Proof.
    intros A X. destruct (ReadIByte_at k s A) as (s1 & -> & A1 & E1 & B).
    pose proof A1 as (_ & M1 & B1). rewrite <- B1 in X. exok. split; [|exact M1].
    unfold JMP. rewrite abs_set_ip, (ip_add s1 _ (sx8 (f k))) by (rewrite <- (sx8_s8 _ B), u16_u16; reflexivity).
    cbn [sim_exec exec] in X. congruence.
  Qed.
  Lemma CALL_at k s t : at_ k s -> sim_exec (ICall (word_at f k)) (set_ip base (ip base + (k + 2))) = Some t ->
    Ex (let '(rel, s) := Imm16 W s in
        let s := DoPush W s (sip s) in Ok (ENone, set_ip_ s (int_ W (sip s + rel)))) t.
  Proof.
    intros A X. destruct (Imm16_at k s A) as (v & s1 & -> & U & A1 & E1).
    pose proof A1 as (_ & M1 & B1). rewrite <- B1 in X. cbv zeta. exok.
    destruct (DoPush_ok s1 (sip s1) M1) as (Ep & Mp & Ip & _).
    split; [|exact Mp]. rewrite abs_set_ip, (ip_add _ v (word_at f k)) by (rewrite <- U, u16_u16; reflexivity).
    rewrite Ep. cbn [sim_exec exec] in X. sinj X. reflexivity.
  Qed.
  Lemma RET_at k s t : at_ k s -> sim_exec IRet (set_ip base (ip base + k)) = Some t ->
    Ex (let '(v, s) := DoPop W s in Ok (ENone, set_ip_ s v)) t.
  Proof.
    intros (_ & M & B) X. destruct (DoPop W s) as [v s1] eqn:E. destruct (DoPop_ok s v s1 M E) as (P & M' & _).
    exok. rewrite <- B in X. cbn [sim_exec exec] in X. rewrite <- P in X. rewrite abs_set_ip.
    split; [|cbn [smem set_ip_]; now rewrite M']. sinj X. unfold set_ip. f_equal. symmetry. apply u16_u16.
  Qed.

  (** opcodes FE, FF *)
  Definition fe_instr (r : Z) (w : bool) (o : operand) : instr :=
    if r =? 0 then IInc w o else if r =? 1 then IDec w o else ICallInd o.
  Lemma FE_at k s so o r n t : at_ k s -> fresh so s -> dec_modrm f so k = (o, r, n) ->
    r < 3 -> (r = 2 -> wide s = true) ->
    sim_exec (fe_instr r (wide s) o) (set_ip base (ip base + n)) = Some t ->
    Ex1 (do_fe W s) t.
  Proof.
    intros A F D Hr Hw X. unfold do_fe.
    destruct (ModRM_at k s so o r n A F D) as (s1 & -> & A1 & Dz1 & R & R8 & RM & _). cbn [obind]. rewrite R.
    pose proof A1 as (_ & M1 & B1). rewrite <- B1 in X.
    assert (Ew : wide s1 = wide s) by (apply wide_frame; exact Dz1).
    assert (E : r = 0 \/ r = 1 \/ r = 2) by lia. destruct E as [-> | [-> | ->]]; cbn [fe_instr Z.eqb Pos.eqb] in X.
    - apply (DoIncDec_ok s1 o); auto. rewrite Ew. exact X.
    - apply (DoIncDec_ok s1 o); auto. rewrite Ew. exact X.
    - specialize (Hw eq_refl). rewrite Hw in *. destruct (DoPush_ok s1 (sip s1) M1) as (Ep & Mp & Ip & Lp & Sp).
      destruct Lp as (L1 & L2 & L3 & L4). set (s2 := DoPush W s1 (sip s1)) in *.
      assert (Ew2 : wide s2 = true) by (unfold wide in *; rewrite L3; exact Ew).
      assert (Hv : exists v, ReadRM W s2 = Ok v /\ u16 v =
         match o with Mem so m d => rd16 (mem (abs s2)) (ea_seg (sg (abs s1)) so m) (ea_off (rg (abs s1)) m d) | _ => get_op (abs s2) true o end).
      { destruct o as [x|so' m d|]; [| |destruct RM as [_ []]].
        - destruct (ReadRM_ok W HW s2 (Reg x) Mp) as (v & E & Hv).
          { unfold rm_rel in *. rewrite L1. exact RM. }
          exists v. split; [exact E|]. rewrite Ew2 in Hv. exact Hv.
        - destruct RM as (H256 & H3 & Hseg & Hs4 & Ha).
          unfold ReadRM. rewrite L1. destruct (Z.eqb_spec (modrm s1) (-1)); [lia|]. cbn [negb oassert obind].
          destruct (Z.eqb_spec (Z.shiftr (modrm s1) 6) 3); [contradiction|]. rewrite L4.
          destruct (Z.eqb_spec (seg s1) (-1)); [lia|]. cbn [negb oassert obind].
          unfold wide in Ew2. destruct (dsize s2 =? 0); [discriminate|].
          eexists; split; [reflexivity|]. rewrite Read16_ok by assumption. rewrite L2.
          replace (ea_seg (sg (abs s1)) so' m) with (u16 (sget (sreg s2) (seg s1)))
            by (rewrite Hseg, Sp; unfold ea_seg, segsel; rewrite abs_sg, sget_abss; reflexivity).
          cbn [mem abs]. apply rd16_cong. rewrite Ha. cbn [rg abs]. unfold ea_off, u16. now rewrite Z.mod_mod by lia. }
      destruct Hv as (v & Er & Hv). rewrite Er. cbn [obind]. exok. split; [|exact Mp].
      rewrite abs_set_ip. cbn [sim_exec] in X. rewrite Ep in Hv. change (ip (abs s1)) with (u16 (sip s1)) in X.
      rewrite <- Hv in X. rewrite <- Ep in X. sinj X. unfold set_ip. f_equal. symmetry. apply u16_u16.
  Qed.

  (** opcode F7: NOT, NEG, MUL, IMUL *)
  Definition f7_instr (r : Z) (o : operand) : instr :=
    if r =? 2 then INot true o else if r =? 3 then INeg true o
    else if r =? 4 then IMulDiv MUL true o else IMulDiv IMUL true o.
  Lemma F7_at k s so o r n t : at_ k s -> fresh so s -> dec_modrm f so k = (o, r, n) ->
    2 <= r < 6 -> dsize s = 1 ->
    sim_exec (f7_instr r o) (set_ip base (ip base + n)) = Some t ->
    Ex1 (do_f7 W s) t.
  Proof.
    intros A F D Hr Hd X. unfold do_f7.
    destruct (ModRM_at k s so o r n A F D) as (s1 & -> & A1 & Dz1 & R & R8 & RM & _). cbn [obind]. rewrite R.
    pose proof A1 as (_ & M1 & B1). rewrite <- B1 in X.
    assert (Ew : wide s1 = true) by (unfold wide; rewrite Dz1, Hd; reflexivity).
    destruct (ReadRM_ok W HW s1 o M1 RM) as (v & Er & Hv). rewrite Ew in Hv.
    assert (Hmul : forall k, k = MUL \/ k = IMUL -> sim_exec (IMulDiv k true o) (abs s1) = Some t ->
      Ex1 (let s := set_reg_ s1 (rset (reg s1) 0 (int_ W (uns W (ax (reg s1)) * uns W v))) in
           Ok (set_reg_ s (rset (reg s) 2 0))) t).
    { intros k0 Hk0 X'. cbv zeta. exok. split; [|exact M1]. rewrite !abs_set_reg, u16_int by exact HW.
      assert (E : u16 (uns W (ax (reg s1)) * uns W v) = (ax (rg (abs s1)) * get_op (abs s1) true o) mod 65536).
      { rewrite <- Hv. cbn [rg abs absr ax]. change (trunc true v) with (u16 v).
        rewrite <- (u16_uns W HW (ax (reg s1))), <- (u16_uns W HW v). unfold u16. apply Z.mul_mod. lia. }
      rewrite E. change (u16 0) with 0.
      destruct Hk0 as [-> | ->]; cbn [sim_exec] in X'; sinj X'; reflexivity. }
    assert (E : r = 2 \/ r = 3 \/ r = 4 \/ r = 5) by lia. destruct E as [-> | [-> | [-> | ->]]]; cbn [f7_instr Z.eqb Pos.eqb] in X;
      rewrite Er; cbn [obind].
    - destruct (WriteRM_ok W HW s1 o (Z.lnot v) M1 RM) as (s' & E & Ea & _ & M' & _).
      exists s'. split; [exact E|]. split; [|exact M']. rewrite Ea, Ew. cbn [sim_exec exec] in X. rewrite <- Hv in X.
      sinj X. f_equal. unfold trunc, modulus, Z.lnot. lia.
    - destruct (WriteRM_ok W HW s1 o (int_ W (- v)) M1 RM) as (s' & E & Ea & _ & M' & _).
      exists s'. split; [exact E|]. split; [|exact M']. rewrite Ea, Ew, trunc_int. cbn [sim_exec exec] in X. rewrite <- Hv in X.
      sinj X. f_equal. unfold trunc, modulus. lia.
    - apply (Hmul MUL); auto.
    - apply (Hmul IMUL); auto.
  Qed.

  (** single string steps *)
  Lemma abs_write8 s off v : abs (Write8 s 0 off v) = set_mem (abs s) (wr8 (mem (abs s)) (es (sg (abs s))) off v).
  Proof. rewrite Write8_eq, abs_set_mem. reflexivity. Qed.
  Lemma abs_write16 s off v : abs (Write16 W s 0 off v) = set_mem (abs s) (wr16 (mem (abs s)) (es (sg (abs s))) off (u16 v)).
  Proof. rewrite Write16_eq, abs_set_mem by exact HW. reflexivity. Qed.

  Lemma stos_step (w : bool) s v : mem_ok (smem s) -> trunc w v = (if w then ax (rg (abs s)) else rget8 (rg (abs s)) 0) ->
    let s' := if w then upd W (Write16 W s 0 (di (reg s)) v) 7 (di (reg (Write16 W s 0 (di (reg s)) v)) + 2)
              else upd W (Write8 s 0 (di (reg s)) v) 7 (di (reg (Write8 s 0 (di (reg s)) v)) + 1) in
    abs s' = str_step STOS w (abs s) /\ mem_ok (smem s').
  Proof.
    intros M E. cbv zeta. destruct w.
    - split; [|rewrite Write16_eq by exact HW; apply mem_ok_wr16, M].
      rewrite abs_upd, abs_write16. unfold str_step. rewrite <- E. change (trunc true v) with (u16 v).
      rewrite Write16_eq by exact HW. cbn [reg set_mem_].
      change (di (rg (abs s))) with (u16 (di (reg s))).
      replace (u16 (di (reg s) + 2)) with ((u16 (di (reg s)) + 2) mod 65536) by (unfold u16; lia).
      rewrite (wr16_cong _ _ (u16 (di (reg s))) (di (reg s))) by apply u16_u16. reflexivity.
    - split; [|rewrite Write8_eq; apply mem_ok_wr8, M].
      rewrite abs_upd, abs_write8. unfold str_step. rewrite <- E. change (trunc false v) with (u8 v).
      rewrite Write8_eq. cbn [reg set_mem_].
      change (di (rg (abs s))) with (u16 (di (reg s))).
      replace (u16 (di (reg s) + 1)) with ((u16 (di (reg s)) + 1) mod 65536) by (unfold u16; lia).
      rewrite (wr8_cong _ _ (u16 (di (reg s))) (di (reg s)) (u8 v) v) by (apply u16_u16 || apply u8_u8). reflexivity.
  Qed.
  Lemma al_abs s : rget8 (rg (abs s)) 0 = u8 (ax (reg s)).
  Proof. unfold rget8. cbn. apply mod_256_u16. Qed.

  Lemma STOS1_at k s (w : bool) t : at_ k s ->
    sim_exec (IStr STOS w NoRep) (set_ip base (ip base + k)) = Some t ->
    Ex1 (Ok (if w then rep_stosw W 1 (ax (reg s)) s else rep_stosb W 1 (ax (reg s)) s)) t.
  Proof.
    intros (_ & M & B) X. exok. rewrite <- B in X. cbn [sim_exec exec] in X. sinj X.
    assert (E : trunc w (ax (reg s)) = (if w then ax (rg (abs s)) else rget8 (rg (abs s)) 0)).
    { destruct w; [reflexivity|]. rewrite al_abs. reflexivity. }
    pose proof (stos_step w s (ax (reg s)) M E) as H. destruct w; exact H.
  Qed.

  Lemma LODSB_at k s t : at_ k s -> dsize s = 0 ->
    sim_exec (IStr LODS false NoRep) (set_ip base (ip base + k)) = Some t ->
    Ex1 (let s := WriteReg W s 0 (uns W (Read8 s 3 (si (reg s)))) in Ok (upd W s 6 (si (reg s) + 1))) t.
  Proof.
    intros (_ & M & B) Dz X. cbv zeta. exok. rewrite <- B in X. cbn [sim_exec exec] in X. sinj X.
    split; [|rewrite WriteReg_eq; exact M].
    rewrite abs_upd. rewrite WriteReg_eq. unfold str_step, set_reg, set_rg. cbn [rg abs sg ip fl mem reg sreg sip sflags smem set_reg_].
    rewrite WriteReg_reg by (exact HW || lia). unfold wide. rewrite Dz. cbn [Z.eqb negb].
    assert (Es : si (reg (WriteReg W s 0 (uns W (Read8 s 3 (si (reg s)))))) = si (reg s))
      by (unfold WriteReg; rewrite Dz; reflexivity).
    rewrite Es. rewrite u8_uns, Read8_ok, u8_small by (assumption || apply M).
    cbn [absr si abss ds]. change (sget (sreg s) 3) with (ds (sreg s)). rewrite rd8_u16.
    replace (u16 (si (reg s) + 1)) with ((u16 (si (reg s)) + 1) mod 65536) by (unfold u16; lia). reflexivity.
  Qed.
  Lemma LODSW_at k s t : at_ k s -> dsize s = 1 ->
    sim_exec (IStr LODS true NoRep) (set_ip base (ip base + k)) = Some t ->
    Ex1 (let s := WriteReg W s 0 (uns W (Read16 W s 3 (si (reg s)))) in Ok (upd W s 6 (si (reg s) + 2))) t.
  Proof.
    intros (_ & M & B) Dz X. cbv zeta. exok. rewrite <- B in X. cbn [sim_exec exec] in X. sinj X.
    split; [|rewrite WriteReg_eq; exact M].
    rewrite abs_upd. rewrite WriteReg_eq. unfold str_step, set_reg, set_rg. cbn [rg abs sg ip fl mem reg sreg sip sflags smem set_reg_].
    rewrite WriteReg_reg by (exact HW || lia). unfold wide. rewrite Dz. cbn [Z.eqb negb].
    assert (Es : si (reg (WriteReg W s 0 (uns W (Read16 W s 3 (si (reg s)))))) = si (reg s))
      by (unfold WriteReg; rewrite Dz; reflexivity).
    rewrite Es. rewrite u16_uns, Read16_ok by assumption.
    cbn [absr si abss ds]. change (sget (sreg s) 3) with (ds (sreg s)).
    rewrite (rd16_cong _ _ (u16 (si (reg s))) (si (reg s))) by apply u16_u16.
    replace (u16 (si (reg s) + 2)) with ((u16 (si (reg s)) + 2) mod 65536) by (unfold u16; lia). reflexivity.
  Qed.
End W.
