(** Register, memory and operand lemmas of the simulator model (C04-C06, C09),
    for every int width W >= 16. *)
From Verif Require Import Base Bits Spec8086 Sim86 Sim86Alu.

Local Open Scope out_scope.

(** the machine state a simulator state stands for: every host integer modulo 65536 *)
Definition absr (r : regs) : regs :=
  mkregs (u16 (ax r)) (u16 (cx r)) (u16 (dx r)) (u16 (bx r))
         (u16 (sp r)) (u16 (bp r)) (u16 (si r)) (u16 (di r)).
Definition abss (s : sregs) : sregs := mksregs (u16 (es s)) (u16 (cs s)) (u16 (ss s)) (u16 (ds s)).
Definition abs (s : sim) : state :=
  mkst (absr (reg s)) (abss (sreg s)) (u16 (sip s)) (abs_flags (sflags s)) (smem s).

Lemma abs_rg s : rg (abs s) = absr (reg s). Proof. reflexivity. Qed.
Lemma abs_sg s : sg (abs s) = abss (sreg s). Proof. reflexivity. Qed.

Lemma rget_absr r i : rget (absr r) i = u16 (rget r i).
Proof. destruct i as [|p|p]; try reflexivity; do 4 (destruct p; try reflexivity). Qed.
Lemma absr_rset r i v : absr (rset r i v) = rset (absr r) i (u16 v).
Proof. destruct i as [|p|p]; try reflexivity; do 4 (destruct p; try reflexivity). Qed.
Lemma sget_abss r i : sget (abss r) i = u16 (sget r i).
Proof. destruct i as [|p|p]; try reflexivity; do 4 (destruct p; try reflexivity). Qed.
Lemma abss_sset r i v : abss (sset r i v) = sset (abss r) i (u16 v).
Proof. destruct i as [|p|p]; try reflexivity; do 4 (destruct p; try reflexivity). Qed.
Lemma rget_rset_same r i v : 0 <= i < 8 -> rget (rset r i v) i = v.
Proof. intro. assert (i=0\/i=1\/i=2\/i=3\/i=4\/i=5\/i=6\/i=7) as E by lia. repeat destruct E as [->|E]; try reflexivity; subst; reflexivity. Qed.
Lemma rget_rset_other r i j v : 0 <= i < 8 -> 0 <= j < 8 -> i <> j -> rget (rset r i v) j = rget r j.
Proof.
  intros. assert (i=0\/i=1\/i=2\/i=3\/i=4\/i=5\/i=6\/i=7) as E by lia.
  assert (j=0\/j=1\/j=2\/j=3\/j=4\/j=5\/j=6\/j=7) as E' by lia.
  repeat destruct E as [->|E]; try subst i; repeat destruct E' as [->|E']; try subst j; try reflexivity; lia.
Qed.

Section W.
  Variable W : Z.
  Hypothesis HW : 16 <= W.

  Lemma u16_uns x : u16 (uns W x) = u16 x.
  Proof. apply uns_mod, HW. Qed.
  Lemma u16_int x : u16 (int_ W x) = u16 x.
  Proof.
    unfold int_, ws. cbv zeta. destruct (Z.ltb_spec (x mod 2 ^ W) (2 ^ (W - 1))).
    - apply (u16_uns x).
    - rewrite <- (u16_uns x). unfold u16, uns, wu.
      replace (2 ^ W) with (2 ^ (W - 16) * 65536) at 2
        by (change 65536 with (2 ^ 16); rewrite <- Z.pow_add_r by lia; f_equal; lia).
      rewrite Zminus_mod, Z.mod_mul by lia. rewrite Z.sub_0_r, Z.mod_mod by lia. reflexivity.
  Qed.
  Lemma u8_u16 x : u8 (u16 x) = u8 x.
  Proof. unfold u8, u16. lia. Qed.
  Lemma u8_int x : u8 (int_ W x) = u8 x.
  Proof. rewrite <- u8_u16, u16_int, u8_u16. reflexivity. Qed.
  Lemma u8_uns x : u8 (uns W x) = u8 x.
  Proof. rewrite <- u8_u16, u16_uns, u8_u16. reflexivity. Qed.

  Lemma phys_u16 seg off : phys seg (u16 off) = phys seg off.
  Proof. unfold phys, u16. now rewrite Z.mod_mod by lia. Qed.
  Lemma MAKEADDR_phys s sr off : MAKEADDR s sr off = phys (u16 (sget (sreg s) sr)) off.
  Proof. unfold MAKEADDR, phys. rewrite !land_65535, land_1048575. reflexivity. Qed.

  Lemma Read8_ok s sr off : mem_ok (smem s) ->
    Read8 s sr off = rd8 (smem s) (u16 (sget (sreg s) sr)) off.
  Proof.
    intro Hm. unfold Read8, rd8. rewrite land_255, MAKEADDR_phys.
    apply Z.mod_small, Hm.
  Qed.
  Lemma rd8_u16 m seg off : rd8 m seg (u16 off) = rd8 m seg off.
  Proof. unfold rd8. now rewrite phys_u16. Qed.
  Lemma rd8_cong m seg off off' : u16 off = u16 off' -> rd8 m seg off = rd8 m seg off'.
  Proof. intro E. rewrite <- (rd8_u16 m seg off), E, rd8_u16. reflexivity. Qed.
  Lemma rd16_cong m seg off off' : u16 off = u16 off' -> rd16 m seg off = rd16 m seg off'.
  Proof.
    intro E. unfold rd16. rewrite (rd8_cong _ _ off off' E). f_equal. f_equal. apply rd8_cong.
    unfold u16 in *. lia.
  Qed.
  Lemma u16_succ_int off n : u16 (int_ W (off + n)) = u16 (off + n).
  Proof. apply u16_int. Qed.

  Lemma Read16_ok s sr off : mem_ok (smem s) ->
    u16 (Read16 W s sr off) = rd16 (smem s) (u16 (sget (sreg s) sr)) off.
  Proof.
    intro Hm. unfold Read16. rewrite u16_int, !Read8_ok by assumption.
    rewrite (rd8_cong _ _ (int_ W (off + 1)) (off + 1)) by apply u16_int.
    pose proof (Hm (phys (u16 (sget (sreg s) sr)) off)) as H1.
    pose proof (Hm (phys (u16 (sget (sreg s) sr)) (off + 1))) as H2.
    unfold rd16, rd8 in *. rewrite lor_shiftl_add by lia.
    rewrite u16_small; [lia|]. change (2 ^ 8) with 256. lia.
  Qed.

  Lemma wr8_cong m seg off off' v v' : u16 off = u16 off' -> u8 v = u8 v' -> wr8 m seg off v = wr8 m seg off' v'.
  Proof.
    intros E Ev. unfold wr8, u8 in *. rewrite Ev. f_equal.
    rewrite <- (phys_u16 seg off), E, phys_u16. reflexivity.
  Qed.
  Lemma smem_Write8 s sr off v :
    smem (Write8 s sr off v) = wr8 (smem s) (u16 (sget (sreg s) sr)) off v.
  Proof. unfold Write8, wr8. cbn [smem set_mem_]. rewrite MAKEADDR_phys, land_255. reflexivity. Qed.
  Lemma smem_Write16 s sr off v :
    smem (Write16 W s sr off v) = wr16 (smem s) (u16 (sget (sreg s) sr)) off (u16 v).
  Proof.
    unfold Write16. rewrite smem_Write8. cbn [Write8 set_mem_ sreg].
    change (smem (set_mem_ s (aset (smem s) (MAKEADDR s sr off) (Z.land v 255)))) with (smem (Write8 s sr off v)).
    rewrite smem_Write8. unfold wr16. rewrite (wr8_cong _ _ off off v (u16 v mod 256)); [|reflexivity|unfold u8, u16; lia].
    apply wr8_cong; [apply u16_int|].
    rewrite Z.shiftr_div_pow2 by lia. unfold u8, u16. change (2 ^ 8) with 256. lia.
  Qed.
  Lemma Write8_eq s sr off v :
    Write8 s sr off v = set_mem_ s (wr8 (smem s) (u16 (sget (sreg s) sr)) off v).
  Proof. unfold Write8. f_equal. exact (smem_Write8 s sr off v). Qed.
  Lemma Write16_eq s sr off v :
    Write16 W s sr off v = set_mem_ s (wr16 (smem s) (u16 (sget (sreg s) sr)) off (u16 v)).
  Proof. rewrite <- smem_Write16. reflexivity. Qed.

  Lemma mem_ok_aset m a v : mem_ok m -> 0 <= v < 256 -> mem_ok (aset m a v).
  Proof. intros H Hv b. rewrite aget_aset. destruct (a =? b); auto. Qed.
  Lemma mem_ok_wr8 m seg off v : mem_ok m -> mem_ok (wr8 m seg off v).
  Proof. intro H. apply mem_ok_aset; auto. apply Z.mod_pos_bound. lia. Qed.
  Lemma mem_ok_wr16 m seg off v : mem_ok m -> mem_ok (wr16 m seg off v).
  Proof. intro H. apply mem_ok_wr8, mem_ok_wr8, H. Qed.

  (** ** registers *)
  Definition wide (s : sim) : bool := negb (dsize s =? 0).

  Lemma trunc_u16 x : trunc true x = u16 x. Proof. reflexivity. Qed.
  Lemma trunc_u8 x : trunc false x = u8 x. Proof. reflexivity. Qed.

  Lemma byte_reg_split r : 0 <= r < 8 -> 
    (Z.land r 3 = r /\ Z.land r 4 = 0 /\ r < 4) \/ (Z.land r 3 = r - 4 /\ Z.land r 4 = 4 /\ 4 <= r).
  Proof.
    intro. assert (r=0\/r=1\/r=2\/r=3\/r=4\/r=5\/r=6\/r=7) as E by lia.
    repeat destruct E as [->|E]; try subst r; vm_compute; intuition congruence.
  Qed.

  Lemma ReadReg_ok s r : 0 <= r < 8 ->
    trunc (wide s) (ReadReg s r) = get_op (abs s) (wide s) (Reg r).
  Proof.
    intro Hr. unfold ReadReg, wide. destruct (dsize s =? 0); cbn [negb get_op].
    - rewrite trunc_u8. unfold rget8. rewrite !abs_rg, !rget_absr.
      destruct (byte_reg_split r Hr) as [(-> & -> & H)|(-> & -> & H)];
        (destruct (Z.ltb_spec r 4); [|]; try lia).
      + change (Z.shiftl 0 1) with 0. rewrite Z.shiftr_0_r. unfold u8, u16. lia.
      + change (Z.shiftl 4 1) with 8. rewrite Z.shiftr_div_pow2 by lia. unfold u8, u16.
        change (2 ^ 8) with 256. lia.
    - rewrite trunc_u16, abs_rg, rget_absr. reflexivity.
  Qed.

  Lemma u16_byte_hi x v : u16 (Z.lor (Z.land x 255) (Z.shiftl v 8)) = u8 v * 256 + u16 x mod 256.
  Proof.
    rewrite land_255. rewrite lor_shiftl_add; [|lia|change (2^8) with 256; lia].
    unfold u16, u8. change (2 ^ 8) with 256. lia.
  Qed.
  Lemma u16_byte_lo x v : u16 (Z.lor (Z.land x 65280) (Z.land v 255)) = u16 x / 256 * 256 + u8 v.
  Proof.
    rewrite land_65280, land_255, lor_hi_lo by (apply Z.mod_pos_bound; lia).
    unfold u16, u8. lia.
  Qed.

  Lemma WriteReg_reg s r v : 0 <= r < 8 ->
    absr (reg (WriteReg W s r v)) =
    if wide s then rset (absr (reg s)) r (u16 v) else rset8 (absr (reg s)) r (u8 v).
  Proof.
    intro Hr. unfold WriteReg, wide. destruct (dsize s =? 0); cbn [negb].
    - unfold rset8. destruct (byte_reg_split r Hr) as [(E & E4 & H)|(E & E4 & H)]; rewrite E, E4;
        (destruct (Z.ltb_spec r 4); [|]; try lia); cbn [Z.eqb reg set_reg_];
        rewrite absr_rset, u16_int, ?u16_byte_hi, ?u16_byte_lo, rget_absr; reflexivity.
    - cbn [reg set_reg_]. now rewrite absr_rset, u16_int.
  Qed.
  Lemma WriteReg_eq s r v : WriteReg W s r v = set_reg_ s (reg (WriteReg W s r v)).
  Proof. unfold WriteReg. destruct (dsize s =? 0); [destruct (Z.land r 4 =? 0)|]; reflexivity. Qed.

  (** ** operands selected by the ModRM fields *)
  Definition segsel (so : option Z) (m : amode) : Z := match so with Some x => x | None => mode_seg m end.
  Definition rm_rel (s : sim) (o : operand) : Prop :=
    0 <= modrm s < 256 /\
    match o with
    | Reg x => Z.shiftr (modrm s) 6 = 3 /\ Z.land (modrm s) 7 = x /\ 0 <= x < 8
    | Mem so m d => Z.shiftr (modrm s) 6 <> 3 /\ seg s = segsel so m /\ 0 <= seg s < 4 /\
                    u16 (addr s) = ea_off (absr (reg s)) m d
    | Imm _ => False
    end.

  Lemma ReadRM_ok s o : mem_ok (smem s) -> rm_rel s o ->
    exists v, ReadRM W s = Ok v /\ trunc (wide s) v = get_op (abs s) (wide s) o.
  Proof.
    intros Hm [Hmr Ho]. unfold ReadRM. destruct (Z.eqb_spec (modrm s) (-1)); [lia|]. cbn [negb oassert obind].
    destruct o as [x|so m d|]; [| |contradiction].
    - destruct Ho as (E & E7 & Hx). rewrite E, E7. cbn [Z.eqb Pos.eqb]. eexists; split; [reflexivity|].
      now apply ReadReg_ok.
    - destruct Ho as (E & Es & Hs & Ea).
      destruct (Z.eqb_spec (Z.shiftr (modrm s) 6) 3); [contradiction|].
      destruct (Z.eqb_spec (seg s) (-1)); [lia|]. cbn [negb oassert obind].
      eexists; split; [reflexivity|]. unfold wide. cbn [get_op].
      replace (ea_seg (sg (abs s)) so m) with (u16 (sget (sreg s) (seg s)))
        by (rewrite Es; unfold ea_seg, segsel; rewrite abs_sg, sget_abss; reflexivity).
      rewrite abs_rg, <- Ea.
      destruct (dsize s =? 0); cbn [negb].
      + rewrite trunc_u8, Read8_ok by assumption. cbn [mem abs]. rewrite rd8_u16.
        apply u8_small, Hm.
      + rewrite trunc_u16, Read16_ok by assumption. apply rd16_cong. now rewrite u16_u16.
  Qed.

  (** what stays the same when only the visible machine changes *)
  Definition same_loc (s s' : sim) : Prop :=
    modrm s' = modrm s /\ addr s' = addr s /\ dsize s' = dsize s /\ seg s' = seg s.

  Lemma abs_set_mem s m : abs (set_mem_ s m) = set_mem (abs s) m. Proof. reflexivity. Qed.

  Lemma wr8_u16off m sg off v : wr8 m sg (u16 off) v = wr8 m sg off v.
  Proof. apply wr8_cong; [apply u16_u16|reflexivity]. Qed.
  Lemma wr16_cong m sg off off' v : u16 off = u16 off' -> wr16 m sg off v = wr16 m sg off' v.
  Proof.
    intro E. unfold wr16. rewrite (wr8_cong m sg off off' _ _ E eq_refl).
    apply wr8_cong; [|reflexivity]. unfold u16 in *. lia.
  Qed.

  Lemma WriteRM_ok s o v : mem_ok (smem s) -> rm_rel s o ->
    exists s', WriteRM W s v = Ok s' /\ abs s' = put_op (abs s) (wide s) o (trunc (wide s) v)
               /\ same_loc s s' /\ mem_ok (smem s') /\ sip s' = sip s /\ sflags s' = sflags s
               /\ sreg s' = sreg s.
  Proof.
    intros Hm [Hmr Ho]. unfold WriteRM.
    destruct o as [x|so m d|]; [| |contradiction].
    - destruct Ho as (E & E7 & Hx). rewrite E, E7. cbn [Z.eqb Pos.eqb]. eexists; split; [reflexivity|].
      rewrite WriteReg_eq. split; [|split; [repeat split|split; [exact Hm|repeat split]]].
      unfold abs at 1. cbn [reg sreg sip sflags smem set_reg_ put_op].
      rewrite WriteReg_reg by assumption. unfold set_rg. rewrite abs_rg.
      unfold wide. destruct (dsize s =? 0); cbn [negb].
      + change (trunc false v) with (u8 v). rewrite u8_uns. reflexivity.
      + change (trunc true v) with (u16 v). rewrite u16_uns. reflexivity.
    - destruct Ho as (E & Es & Hs & Ea).
      destruct (Z.eqb_spec (Z.shiftr (modrm s) 6) 3); [contradiction|].
      destruct (Z.eqb_spec (seg s) (-1)); [lia|]. cbn [negb oassert obind].
      eexists; split; [reflexivity|].
      cbn [put_op].
      replace (ea_seg (sg (abs s)) so m) with (u16 (sget (sreg s) (seg s)))
        by (rewrite Es; unfold ea_seg, segsel; rewrite abs_sg, sget_abss; reflexivity).
      rewrite abs_rg, <- Ea. unfold wide.
      destruct (dsize s =? 0); cbn [negb].
      + rewrite Write8_eq. split; [|split; [repeat split|split; [now apply mem_ok_wr8|repeat split]]].
        rewrite abs_set_mem. cbn [mem abs]. rewrite wr8_u16off. f_equal. apply wr8_cong; [reflexivity|].
        change (trunc false v) with (u8 v). now rewrite u8_u8.
      + rewrite Write16_eq. split; [|split; [repeat split|split; [now apply mem_ok_wr16|repeat split]]].
        rewrite abs_set_mem. cbn [mem abs]. change (trunc true v) with (u16 v). f_equal. apply wr16_cong. now rewrite u16_u16.
  Qed.

  (** ** instruction fetch *)
  (** [f] shows the instruction bytes from position k of the instruction on *)
  Definition view (f : Z -> Z) (k : Z) (s : sim) : Prop :=
    forall j, rd8 (smem s) (u16 (cs (sreg s))) (sip s + j) = f (k + j).

  Lemma view_byte f k s : view f k s -> mem_ok (smem s) -> 0 <= f k < 256.
  Proof. intros Hv Hm. rewrite <- (Z.add_0_r k), <- Hv. apply Hm. Qed.

  Lemma ReadIByte_ok f k s : view f k s -> mem_ok (smem s) ->
    ReadIByte W s = (f k, set_ip_ s (int_ W (sip s + 1))) /\ view f (k + 1) (set_ip_ s (int_ W (sip s + 1))).
  Proof.
    intros Hv Hm. unfold ReadIByte. rewrite Read8_ok by assumption. split.
    - f_equal. rewrite <- (Z.add_0_r k), <- Hv, Z.add_0_r. reflexivity.
    - intro j. cbn [smem sreg sip set_ip_].
      rewrite (rd8_cong _ _ (int_ W (sip s + 1) + j) (sip s + (1 + j))).
      + rewrite Hv. f_equal. lia.
      + pose proof (u16_int (sip s + 1)) as E. unfold u16 in *. lia.
  Qed.

  Lemma word_at_int f k s : view f k s -> mem_ok (smem s) ->
    u16 (Z.lor (f k) (Z.shiftl (f (k + 1)) 8)) = word_at f k /\ 0 <= word_at f k < 65536.
  Proof.
    intros Hv Hm. pose proof (view_byte f k s Hv Hm) as H1.
    assert (H2 : 0 <= f (k + 1) < 256) by (rewrite <- Hv; apply Hm).
    unfold word_at. rewrite lor_shiftl_add by lia. change (2 ^ 8) with 256.
    rewrite u16_small by lia. lia.
  Qed.

  Lemma Imm16_ok f k s : view f k s -> mem_ok (smem s) ->
    exists v s', Imm16 W s = (v, s') /\ u16 v = word_at f k /\ view f (k + 2) s' /\
      s' = set_ip_ s (sip s') /\ u16 (sip s') = u16 (sip s + 2).
  Proof.
    intros Hv Hm. unfold Imm16.
    destruct (ReadIByte_ok f k s Hv Hm) as [E1 Hv1]. rewrite E1.
    destruct (ReadIByte_ok f (k + 1) _ Hv1 Hm) as [E2 Hv2]. rewrite E2.
    eexists; eexists; split; [reflexivity|].
    split; [rewrite u16_int; apply (word_at_int f k s Hv Hm)|].
    split; [replace (k + 2) with (k + 1 + 1) by lia; exact Hv2|].
    split; [reflexivity|]. cbn [sip set_ip_]. rewrite u16_int.
    pose proof (u16_int (sip s + 1)) as E. unfold u16 in *. lia.
  Qed.

  Lemma sx8_s8 b : 0 <= b < 256 -> u16 (s8 b) = sx8 b.
  Proof.
    intro. unfold s8, sx8, u16. replace (b mod 256) with b by lia. cbv zeta. destruct (Z.ltb_spec b 128); lia.
  Qed.

  (** ** ModRM *)
  Definition segcode (so : option Z) : Z := match so with None => -1 | Some x => x end.
  Definition so_ok (so : option Z) : Prop := match so with None => True | Some x => 0 <= x < 4 end.

  (** everything but the instruction pointer and the operand fields is unchanged *)
  Definition frame (s s' : sim) : Prop :=
    reg s' = reg s /\ sreg s' = sreg s /\ sflags s' = sflags s /\ smem s' = smem s /\ dsize s' = dsize s.

  Lemma frame_refl s : frame s s. Proof. repeat split. Qed.
  Lemma frame_trans a b c : frame a b -> frame b c -> frame a c.
  Proof. unfold frame. intros (?&?&?&?&?) (?&?&?&?&?). repeat split; congruence. Qed.

  Lemma amode_cases (P : Z -> Prop) : P 0 -> P 1 -> P 2 -> P 3 -> P 4 -> P 5 -> P 6 -> P 7 ->
    forall op, 0 <= op < 8 -> P op.
  Proof. exact (alu_cases P). Qed.

  Lemma ModRM_regs_ok s so d :
    seg s = segcode so -> so_ok so -> u16 (addr s) = u16 d ->
    0 <= modrm s < 256 -> Z.shiftr (modrm s) 6 <> 3 ->
    let s' := ModRM_regs W s in
    frame s s' /\ sip s' = sip s /\ modrm s' = modrm s /\
    rm_rel s' (Mem so (amode_of (modrm s mod 8)) d).
  Proof.
    intros Hseg Hso Hd Hm H3. cbv zeta. unfold ModRM_regs. rewrite land_7.
    assert (H8 : 0 <= modrm s mod 8 < 8) by (apply Z.mod_pos_bound; lia).
    revert H8. generalize (modrm s mod 8) as m.
    assert (Hgen : forall v sr md, mode_seg md = sr -> u16 v = u16 (mode_off (absr (reg s)) md) -> 0 <= sr < 4 ->
       let s' := default_seg (addaddr W s v) sr in
       frame s s' /\ sip s' = sip s /\ modrm s' = modrm s /\ rm_rel s' (Mem so md d)).
    { intros v sr md Hmd Hv Hsr. cbv zeta. unfold default_seg, addaddr. cbn [seg set_addr_].
      assert (Hu : u16 (int_ W (addr s + v)) = ea_off (absr (reg s)) md d).
      { rewrite u16_int. unfold ea_off, u16 in *. lia. }
      destruct (Z.eqb_spec (seg s) (-1)) as [E1|E1].
      - split; [repeat split|]. split; [reflexivity|]. split; [reflexivity|]. split; [exact Hm|].
        cbn [modrm addr seg reg set_seg_ set_addr_]. split; [exact H3|].
        assert (so = None) as ->. { destruct so as [x|]; cbn in Hseg, Hso; [lia|reflexivity]. }
        cbn [segsel]. auto.
      - split; [repeat split|]. split; [reflexivity|]. split; [reflexivity|]. split; [exact Hm|].
        cbn [modrm addr seg reg set_seg_ set_addr_]. split; [exact H3|].
        destruct so as [x|]; cbn in Hseg, Hso; [|lia]. cbn [segsel]. split; [exact Hseg|]. split; [lia|auto]. }
    apply amode_cases; cbn [amode_of]; cbv iota; apply Hgen; cbn [mode_seg mode_off absr bx bp si di]; try reflexivity; try lia;
      unfold u16; lia.
  Qed.

  Lemma ModRM_ok f k s so :
    view f k s -> mem_ok (smem s) -> modrm s = -1 -> addr s = 0 -> seg s = segcode so -> so_ok so ->
    let '(o, r, n) := dec_modrm f so k in
    exists s', ModRM W s = Ok s' /\ frame s s' /\ view f n s' /\
      u16 (sip s') = u16 (sip s + (n - k)) /\
      Z.land (Z.shiftr (modrm s') 3) 7 = r /\ 0 <= r < 8 /\ rm_rel s' o /\ modrm s' = f k.
  Proof.
    intros Hv Hm Hmr Ha Hseg Hso. unfold ModRM. rewrite Hmr. cbn [Z.eqb Pos.eqb oassert obind].
    pose proof (view_byte f k s Hv Hm) as Hb.
    destruct (ReadIByte_ok f k s Hv Hm) as [E1 Hv1]. rewrite E1. cbv beta iota zeta.
    set (s1 := set_modrm_ (set_ip_ s (int_ W (sip s + 1))) (f k)).
    assert (Hv1' : view f (k + 1) s1) by exact Hv1.
    assert (Hm1 : mem_ok (smem s1)) by exact Hm.
    assert (Hs1 : u16 (sip s1) = u16 (sip s + 1)) by (cbn; apply u16_int).
    assert (Hshr : Z.shiftr (f k) 6 = f k / 64) by (rewrite Z.shiftr_div_pow2 by lia; reflexivity).
    assert (Hr3 : Z.land (Z.shiftr (f k) 3) 7 = f k / 8 mod 8)
      by (rewrite land_7, Z.shiftr_div_pow2 by lia; reflexivity).
    unfold dec_modrm. rewrite Hshr.
    assert (Hq : f k / 64 = 0 \/ f k / 64 = 1 \/ f k / 64 = 2 \/ f k / 64 = 3) by lia.
    destruct Hq as [E|[E|[E|E]]]; rewrite E; cbn [Z.eqb Pos.eqb].
    - rewrite land_7. destruct (Z.eqb_spec (f k mod 8) 6) as [E6|E6].
      + destruct (Imm16_ok f (k + 1) s1 Hv1' Hm1) as (v & s2 & E2 & Hw & Hv2 & Hf2 & Hip2).
        rewrite E2. cbv beta iota.
        assert (Hu : forall s3 sg3, s3 = set_seg_ (addaddr W s2 v) sg3 -> 
                     frame s s3 /\ view f (k + 3) s3 /\ u16 (sip s3) = u16 (sip s + (k + 3 - k)) /\
                     modrm s3 = f k /\ seg s3 = sg3 /\ u16 (addr s3) = word_at f (k + 1) mod 65536).
        { intros s3 sg3 ->. rewrite Hf2. split; [repeat split|].
          split; [replace (k + 3) with (k + 1 + 2) by lia; rewrite Hf2 in Hv2; exact Hv2|].
          split; [cbn [sip set_seg_ addaddr set_addr_ set_ip_]; unfold u16 in *; lia|].
          split; [reflexivity|]. split; [reflexivity|].
          cbn [addr set_seg_ addaddr set_addr_ set_ip_]. change (addr s1) with (addr s). rewrite u16_int, Ha. unfold u16 in *. cbn [Z.add]. lia. }
        eexists; split; [reflexivity|].
        unfold default_seg. cbn [seg addaddr set_addr_].
        assert (Hs2 : seg s2 = segcode so) by (rewrite Hf2; exact Hseg). rewrite Hs2.
        destruct so as [x|]; cbn [segcode] in *.
        * cbn in Hso. destruct (Z.eqb_spec x (-1)); [lia|].
          assert (Hx : addaddr W s2 v = set_seg_ (addaddr W s2 v) x) by (rewrite Hf2; destruct s; cbn in *; subst; reflexivity).
          destruct (Hu _ _ Hx) as (F & V & I & M & S & A).
          split; [exact F|]. split; [exact V|]. split; [exact I|]. rewrite M, Hr3.
          split; [reflexivity|]. split; [lia|]. split; [|reflexivity].
          split; [rewrite M; lia|]. rewrite M, Hshr. split; [lia|]. cbn [segsel]. split; [exact S|]. split; [lia|].
          rewrite A. destruct F as (-> & _). reflexivity.
        * cbn [Z.eqb Pos.eqb]. destruct (Hu _ 3 eq_refl) as (F & V & I & M & S & A).
          split; [exact F|]. split; [exact V|]. split; [exact I|]. rewrite M, Hr3.
          split; [reflexivity|]. split; [lia|]. split; [|reflexivity].
          split; [rewrite M; lia|]. rewrite M, Hshr. split; [lia|]. cbn [segsel]. split; [exact S|]. split; [lia|].
          rewrite A. destruct F as (-> & _). reflexivity.
      + eexists; split; [reflexivity|].
        destruct (ModRM_regs_ok s1 so 0 Hseg Hso) as (F & I & M & R);
          [cbn; rewrite Ha; reflexivity | exact Hb | cbn; lia |].
        change (modrm s1) with (f k) in *.
        split; [exact (frame_trans s s1 _ ltac:(repeat split) F)|].
        split. { intro j. destruct F as (_ & Fs & _ & Fm & _). rewrite Fm, Fs, I. apply Hv1'. }
        split; [rewrite I, Hs1; f_equal; lia|].
        rewrite M, Hr3. split; [reflexivity|]. split; [lia|]. split; [exact R|reflexivity].
    - pose proof (view_byte f (k + 1) s1 Hv1' Hm1) as Hb1.
      destruct (ReadIByte_ok f (k + 1) s1 Hv1' Hm1) as [E2 Hv2].
      rewrite E2. cbv beta iota.
      set (s2 := addaddr W (set_ip_ s1 (int_ W (sip s1 + 1))) (s8 (f (k + 1)))).
      eexists; split; [reflexivity|].
      destruct (ModRM_regs_ok s2 so (sx8 (f (k + 1))) Hseg Hso) as (F & I & M & R);
        [cbn [addr s2 addaddr set_addr_ set_ip_ s1 set_modrm_]; rewrite u16_int, Ha; cbn [Z.add]; rewrite sx8_s8 by lia;
         unfold sx8, u16; destruct (Z.ltb_spec (f (k+1)) 128); lia
        | exact Hb | cbn; lia |].
      change (modrm s2) with (f k) in *.
      split; [exact (frame_trans s s2 _ ltac:(repeat split) F)|].
      split. { intro j. destruct F as (_ & Fs & _ & Fm & _). rewrite Fm, Fs, I.
               replace (k + 2) with (k + 1 + 1) by lia. apply Hv2. }
      split. { rewrite I. unfold s2. cbn [sip addaddr set_addr_ set_ip_]. rewrite u16_int. unfold u16 in *. lia. }
      rewrite M, Hr3. split; [reflexivity|]. split; [lia|]. split; [exact R|reflexivity].
    - destruct (Imm16_ok f (k + 1) s1 Hv1' Hm1) as (v & s2 & E2 & Hw & Hv2 & Hf2 & Hip2).
      rewrite E2. cbv beta iota.
      eexists; split; [reflexivity|].
      destruct (ModRM_regs_ok (addaddr W s2 v) so (word_at f (k + 1))) as (F & I & M & R);
        [rewrite Hf2; exact Hseg | exact Hso
        | rewrite Hf2; cbn [addr addaddr set_addr_ set_ip_ s1 set_modrm_]; rewrite u16_int, Ha; cbn [Z.add]; unfold u16 in *; lia
        | rewrite Hf2; exact Hb | rewrite Hf2; cbn; lia |].
      assert (M2 : modrm (addaddr W s2 v) = f k) by (rewrite Hf2; reflexivity). rewrite M2 in *.
      assert (F2 : frame s (addaddr W s2 v)) by (rewrite Hf2; repeat split).
      split; [exact (frame_trans _ _ _ F2 F)|].
      split. { intro j. destruct F as (_ & Fs & _ & Fm & _). rewrite Fm, Fs, I.
               replace (k + 3) with (k + 1 + 2) by lia. apply Hv2. }
      split. { rewrite I. cbn [sip addaddr set_addr_]. unfold u16 in *. lia. }
      rewrite M, Hr3. split; [reflexivity|]. split; [lia|]. split; [exact R|reflexivity].
    - eexists; split; [reflexivity|].
      split; [repeat split|]. split; [exact Hv1'|].
      split; [rewrite Hs1; f_equal; lia|]. change (modrm s1) with (f k). rewrite Hr3.
      split; [reflexivity|]. split; [lia|]. split; [|reflexivity].
      split; [exact Hb|]. change (modrm s1) with (f k). rewrite Hshr, land_7. split; [exact E|]. split; [reflexivity|]. lia.
  Qed.
End W.
