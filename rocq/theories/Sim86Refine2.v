(** Instructions that look at whole registers: shifts, divisions and repeated
    string instructions.  These agree with the 8086 only when int is 16 bits
    wide (the self-hosted build). *)
From Verif Require Import Base Bits Spec8086 Sim86 Sim86Alu Sim86Base Sim86Variant Sim86Refine.

Local Open Scope out_scope.

Definition int16_regs (r : regs) : Prop :=
  forall i, -32768 <= rget r i < 32768.

Section W16.
  Let W := 16.
  Let HW : 16 <= W := Z.le_refl 16.
  Variable f : Z -> Z.
  Variable base : state.

  Ltac exok := eexists; split; [reflexivity|].

  Lemma uns16 x : uns 16 x = u16 x. Proof. reflexivity. Qed.
  Lemma int16 x : int_ 16 x = s16 x. Proof. reflexivity. Qed.
  Lemma signed_u16 x : signed true (u16 x) = s16 x.
  Proof. unfold signed, half, modulus, s16, u16. reflexivity. Qed.
  Lemma int16_small x : -32768 <= x < 32768 -> s16 x = x.
  Proof. apply s16_small. Qed.

  Lemma odd_div_pow2 x n : 0 <= n -> Z.odd (x / 2 ^ n) = Z.testbit x n.
  Proof. intro. rewrite testbit_odd by lia. reflexivity. Qed.

  Definition shop_of (r : Z) : shop := if r =? 4 then SHL else if r =? 5 then SHR else SAR.

  Lemma shift_result_ok r v a : r = 4 \/ r = 5 \/ r = 7 -> 0 <= v < 65536 -> 0 <= a < 16 ->
    exists res c, shift_result 16 r v a = Some (res, c) /\ 0 <= res < 65536 /\
      forall g u, let '(x, y) := shift (shop_of r) true v a g u in
        x = res /\ (negb (c =? 0)) = (if a =? 0 then false else fC y).
  Proof.
    intros Hr Hv Ha. destruct Hr as [-> | [-> | ->]]; unfold shift_result; eexists; eexists; (split; [reflexivity|]).
    - rewrite uns16. split; [apply u16_range|]. intros g u. unfold shift. cbn [shop_of Z.eqb Pos.eqb].
      rewrite Z.shiftl_mul_pow2 by lia. destruct (Z.eqb_spec a 0) as [->|Na].
      + rewrite Z.mul_1_r, u16_small by lia. auto.
      + cbv zeta. split; [reflexivity|]. cbn [fC flags_of].
        rewrite uns16. change 32768 with (2 ^ 15). rewrite land_pow2_eqb by lia.
        unfold u16, modulus. change 65536 with (2 ^ 16). rewrite testbit_mod by lia.
        rewrite odd_div_pow2 by lia. rewrite negb_involutive.
        rewrite Z.shiftl_mul_pow2 by lia. rewrite !Z.mul_pow2_bits by lia. f_equal. lia.
    - rewrite Z.shiftr_div_pow2 by lia.
      assert (Hp : 0 < 2 ^ a) by (apply Z.pow_pos_nonneg; lia).
      split; [split; [apply Z.div_pos; lia | apply Z.le_lt_trans with v; [apply Z.div_le_upper_bound; nia|lia]]|].
      intros g u. unfold shift. cbn [shop_of Z.eqb Pos.eqb]. destruct (Z.eqb_spec a 0) as [->|Na].
      + rewrite Z.div_1_r. auto.
      + cbv zeta. split; [reflexivity|]. cbn [fC flags_of].
        rewrite (land_pow2_eqb _ 0) by lia. rewrite negb_involutive, Z.shiftr_spec, odd_div_pow2 by lia. f_equal.
    - rewrite uns16. split; [apply u16_range|]. intros g u. unfold shift. cbn [shop_of Z.eqb Pos.eqb].
      rewrite int16. rewrite Z.shiftr_div_pow2 by lia.
      assert (Es : signed true v = s16 v) by (rewrite <- (u16_small v Hv) at 1; apply signed_u16).
      rewrite Es. destruct (Z.eqb_spec a 0) as [->|Na].
      + rewrite Z.div_1_r, u16_s16, u16_small by lia. auto.
      + cbv zeta. split; [reflexivity|]. cbn [fC flags_of].
        rewrite (land_pow2_eqb _ 0) by lia. rewrite negb_involutive, Z.shiftr_spec, odd_div_pow2 by lia.
        cbn [Z.add]. replace (Z.testbit (s16 v) (a - 1)) with (Z.testbit (u16 (s16 v)) (a - 1)).
        * rewrite u16_s16, u16_small by lia. reflexivity.
        * unfold u16. change 65536 with (2 ^ 16). apply testbit_mod. lia.
  Qed.

  Lemma SHIFT_at k s so o r n (bycl : bool) t : at_ f base k s -> fresh so s -> dec_modrm f so k = (o, r, n) ->
    r = 4 \/ r = 5 \/ r = 7 -> dsize s = 1 ->
    sim_exec (IShift (shop_of r) true o bycl) (set_ip base (ip base + n)) = Some t ->
    Ex1 (do_shift 16 s (if bycl then Z.land (cx (reg s)) 15 else 1)) t.
  Proof.
    intros A F D Hr Hd X. unfold do_shift.
    destruct (ModRM_at 16 HW f base k s so o r n A F D) as (s1 & E1 & A1 & Dz1 & R & R8 & RM & _).
    rewrite E1. cbn [obind]. rewrite R. pose proof A1 as (_ & M1 & B1). rewrite <- B1 in X.
    destruct (ReadRM_ok 16 HW s1 o M1 RM) as (v & Er & Hv). rewrite Er. cbn [obind].
    assert (Ew : wide s1 = true) by (unfold wide; rewrite Dz1, Hd; reflexivity). rewrite Ew in Hv.
    set (a := if bycl then _ else _).
    assert (Ha : 0 <= a < 16) by (unfold a; destruct bycl; rewrite ?land_15; lia).
    assert (Hn : a = if bycl then rget8 (rg (abs s1)) 1 mod 16 else 1).
    { unfold a. destruct bycl; [|reflexivity]. rewrite land_15. unfold rget8. cbn [Z.ltb Z.compare Pos.compare Pos.compare_cont rget rg abs absr cx].
      destruct A as (_ & _ & B0).
      assert (Ec : u16 (cx (reg s1)) = u16 (cx (reg s))).
      { change (u16 (cx (reg s1))) with (cx (rg (abs s1))). change (u16 (cx (reg s))) with (cx (rg (abs s))).
        rewrite B0, B1. reflexivity. }
      rewrite Ec. unfold u16. lia. }
    rewrite uns16. destruct (shift_result_ok r (u16 v) a Hr (u16_range v) Ha) as (res & c & Es & Hres & H).
    rewrite Es. destruct (WriteRM_ok 16 HW s1 o (int_ 16 res) M1 RM) as (s' & Ew' & Ea & _ & M' & _).
    rewrite Ew'. cbn [obind]. exok. split; [|exact M'].
    cbn [sim_exec] in X. rewrite <- Hn in X. rewrite <- Hv in X. change (trunc true v) with (u16 v) in X.
    specialize (H (fl (abs s1)) u0). destruct (shift (shop_of r) true (u16 v) a (fl (abs s1)) u0) as [x y].
    destruct H as [-> Hc]. sinj X.
    rewrite Ew in Ea. change (trunc true (int_ 16 res)) with (u16 (s16 res)) in Ea. rewrite u16_s16, u16_small in Ea by exact Hres.
    rewrite <- Ea, <- Hc. unfold abs, set_fl. cbn [rg sg ip fl mem sflags set_flags_ reg sreg sip smem].
    f_equal. destruct (c =? 0), (res =? 0); reflexivity.
  Qed.

  (** ** division *)
  Lemma ReadRM_int16 s v : int16_regs (reg s) -> dsize s = 1 -> ReadRM 16 s = Ok v -> v = s16 v.
  Proof.
    intros Hr Hd. unfold ReadRM. destruct (modrm s =? -1); [discriminate|]. cbn [negb oassert obind].
    destruct (Z.shiftr (modrm s) 6 =? 3).
    - unfold ReadReg. rewrite Hd. cbn [Z.eqb]. intro E. injection E as <-. rewrite s16_small; auto.
    - destruct (seg s =? -1); [discriminate|]. cbn [negb oassert obind]. rewrite Hd. cbn [Z.eqb].
      intro E. injection E as <-. unfold Read16. rewrite int16. symmetry. apply s16_small, s16_range.
  Qed.

  Lemma DIV_at k s so o r n t : at_ f base k s -> fresh so s -> dec_modrm f so k = (o, r, n) ->
    r = 6 \/ r = 7 -> dsize s = 1 -> int16_regs (reg s) ->
    sim_exec (IMulDiv (if r =? 6 then DIV else IDIV) true o) (set_ip base (ip base + n)) = Some t ->
    Ex1 (do_f7 16 s) t.
  Proof.
    intros A F D Hr Hd Hi X. unfold do_f7.
    pose proof A as (V & M & _). pose proof F as (F1 & F2 & F3 & F4).
    pose proof (ModRM_ok 16 HW f k s so V M F1 F2 F3 F4) as HM. rewrite D in HM.
    destruct HM as (s1 & E1 & Fr & V' & I & R & R8 & RM & _).
    pose proof (at_frame f base k s n s1 A Fr V' I) as A1.
    destruct Fr as (Er1 & _ & _ & _ & Dz1).
    rewrite E1. cbn [obind]. rewrite R. pose proof A1 as (_ & M1 & B1). rewrite <- B1 in X.
    destruct (ReadRM_ok 16 HW s1 o M1 RM) as (v & Er & Hv).
    assert (Ew : wide s1 = true) by (unfold wide; rewrite Dz1, Hd; reflexivity). rewrite Ew in Hv.
    change (trunc true v) with (u16 v) in Hv.
    rewrite <- Er1 in Hi.
    assert (Ev : v = s16 v) by (apply (ReadRM_int16 s1); [exact Hi|congruence|exact Er]).
    assert (Ed : dx (reg s1) = s16 (dx (reg s1))) by (symmetry; apply s16_small, (Hi 2)).
    assert (Ea : ax (reg s1) = s16 (ax (reg s1))) by (symmetry; apply s16_small, (Hi 0)).
    destruct Hr as [-> | ->]; rewrite Er; cbn [obind Z.eqb Pos.eqb sim_exec] in *; rewrite <- Hv in X.
    - change (dx (rg (abs s1))) with (u16 (dx (reg s1))) in X. change (ax (rg (abs s1))) with (u16 (ax (reg s1))) in X.
      rewrite !uns16.
      destruct (Z.eqb_spec (u16 v) 0) as [|Nv]; [discriminate|]. cbn [orb] in X.
      destruct (Z.eqb_spec (u16 (dx (reg s1))) 0) as [Z0|]; [|discriminate]. cbn [negb] in X.
      assert (E0 : dx (reg s1) = 0) by (rewrite Ed; unfold s16; unfold u16 in Z0; rewrite Z0; reflexivity).
      rewrite E0. cbn [Z.eqb oassert obind]. exok. split; [|exact M1]. sinj X.
      rewrite !abs_set_reg. rewrite !int16, !u16_s16. change (uns 16 (ax (reg s1))) with (u16 (ax (reg s1))).
      pose proof (u16_range v). pose proof (u16_range (ax (reg s1))).
      assert (0 <= u16 (ax (reg s1)) mod u16 v < u16 v) by (apply Z.mod_pos_bound; lia).
      assert (0 <= u16 (ax (reg s1)) / u16 v <= u16 (ax (reg s1))).
      { split; [apply Z.div_pos; lia|]. apply Z.div_le_upper_bound; nia. }
      rewrite (u16_small (u16 (ax (reg s1)) mod u16 v)) by (split; [apply H1|apply Z.lt_trans with (u16 v); [apply H1|apply H]]).
      rewrite (u16_small (u16 (ax (reg s1)) / u16 v)) by (split; [apply H2|apply Z.le_lt_trans with (u16 (ax (reg s1))); [apply H2|apply H0]]).
      reflexivity.
    - change (dx (rg (abs s1))) with (u16 (dx (reg s1))) in X. change (ax (rg (abs s1))) with (u16 (ax (reg s1))) in X.
      rewrite !signed_u16, <- Ev, <- Ea in X.
      destruct (Z.eqb_spec v 0) as [|Nv]; [discriminate|]. cbn [orb] in X.
      destruct ((ax (reg s1) =? -32768) && (v =? -1)) eqn:Eo; [discriminate|]. cbn [orb] in X.
      destruct (Z.eqb_spec (u16 (dx (reg s1))) (if ax (reg s1) <? 0 then 65535 else 0)) as [Ez|]; [|discriminate]. cbn [negb] in X.
      rewrite bit15_u16.
      assert (Es : (u16 (ax (reg s1)) <? 32768) = negb (ax (reg s1) <? 0)).
      { pose proof (Hi 0). cbn [rget] in *. unfold u16. lia. }
      rewrite Es.
      assert (E0 : dx (reg s1) = if negb (ax (reg s1) <? 0) then 0 else -1).
      { rewrite Ed. rewrite <- s16_u16, Ez. destruct (ax (reg s1) <? 0); reflexivity. }
      rewrite <- E0. rewrite Z.eqb_refl. cbn [oassert obind].
      change (- 2 ^ (16 - 1)) with (-32768). rewrite Eo. exok. split; [|exact M1]. sinj X.
      rewrite !abs_set_reg. reflexivity.
  Qed.

  (** ** repeated string instructions *)
  Lemma loop16 x : loop_count 16 x = Ok (Z.to_nat (u16 x)). Proof. reflexivity. Qed.

  Lemma movs_step (w : bool) s : mem_ok (smem s) ->
    let d := if w then 2 else 1 in
    let s1 := if w then Write16 16 s 0 (di (reg s)) (Read16 16 s 3 (si (reg s)))
              else Write8 s 0 (di (reg s)) (Read8 s 3 (si (reg s))) in
    let s2 := upd 16 s1 1 (cx (reg s1) - 1) in
    let s3 := upd 16 s2 7 (di (reg s2) + d) in
    let s4 := upd 16 s3 6 (si (reg s3) + d) in
    let S' := str_step MOVS w (abs s) in
    abs s4 = set_reg S' 1 ((cx (rg S') - 1) mod 65536) /\ mem_ok (smem s4) /\ dsize s4 = dsize s.
  Proof.
    intros M. cbv zeta. destruct w.
    - rewrite Write16_eq by exact HW. split; [|split; [apply mem_ok_wr16, M|reflexivity]].
      rewrite !abs_upd by exact HW. rewrite abs_set_mem. rewrite Read16_ok by (exact HW || exact M).
      unfold str_step. cbn [upd set_reg_ set_mem_ reg rset cx di si].
      change (di (rg (abs s))) with (u16 (di (reg s))). change (si (rg (abs s))) with (u16 (si (reg s))).
      rewrite (rd16_cong (mem (abs s)) _ (u16 (si (reg s))) (si (reg s))) by apply u16_u16.
      rewrite (wr16_cong (mem (abs s)) _ (u16 (di (reg s))) (di (reg s))) by apply u16_u16.
      unfold set_reg, set_rg, set_mem. cbn [rg sg ip fl mem rset ax cx dx bx sp bp si di abs absr abss es ds].
      f_equal; f_equal; unfold u16; lia.
    - rewrite Write8_eq. split; [|split; [apply mem_ok_wr8, M|reflexivity]].
      rewrite !abs_upd by exact HW. rewrite abs_set_mem. rewrite Read8_ok by exact M.
      unfold str_step. cbn [upd set_reg_ set_mem_ reg rset cx di si].
      change (di (rg (abs s))) with (u16 (di (reg s))). change (si (rg (abs s))) with (u16 (si (reg s))).
      rewrite (rd8_cong (mem (abs s)) _ (u16 (si (reg s))) (si (reg s))) by apply u16_u16.
      rewrite (wr8_cong (mem (abs s)) _ (u16 (di (reg s))) (di (reg s)) _ _ (u16_u16 _) eq_refl).
      unfold set_reg, set_rg, set_mem. cbn [rg sg ip fl mem rset ax cx dx bx sp bp si di abs absr abss es ds].
      f_equal; f_equal; unfold u16; lia.
  Qed.

  Lemma rep_movs (w : bool) n : forall s, mem_ok (smem s) ->
    let s' := if w then rep_movsw 16 n s else rep_movsb 16 n s in
    abs s' = str_rep n MOVS w (fun _ => false) (abs s) /\ mem_ok (smem s').
  Proof.
    induction n as [|n IH]; intros s M.
    - destruct w; cbn [rep_movsw rep_movsb str_rep]; auto.
    - destruct (movs_step w s M) as (E & M' & _). destruct w; cbn [rep_movsw rep_movsb str_rep]; cbv zeta in *;
        rewrite <- E; apply IH, M'.
  Qed.

  Lemma set_reg_idem s r a b : set_reg (set_reg s r a) r b = set_reg s r b.
  Proof. unfold set_reg, set_rg. cbn [rg sg ip fl mem]. f_equal. destruct r as [|p|p]; try reflexivity; do 4 (destruct p; try reflexivity). Qed.
  Lemma set_cx_same s : set_reg s 1 (cx (rg s)) = s.
  Proof. destruct s as [[] ? ? ? ?]. reflexivity. Qed.

  Lemma stos_cx (w : bool) S a : str_step STOS w (set_reg S 1 a) = set_reg (str_step STOS w S) 1 a.
  Proof. destruct w; reflexivity. Qed.

  Lemma rep_stos (w : bool) v n : forall s S, mem_ok (smem s) -> abs s = set_reg S 1 0 -> cx (rg S) = Z.of_nat n ->
    Z.of_nat n < 65536 ->
    trunc w v = (if w then ax (rg (abs s)) else rget8 (rg (abs s)) 0) ->
    let s' := if w then rep_stosw 16 n v s else rep_stosb 16 n v s in
    abs s' = str_rep n STOS w (fun _ => false) S /\ mem_ok (smem s').
  Proof.
    induction n as [|n IH]; intros s S M E C Hn Hv.
    - assert (ES : set_reg S 1 0 = S) by (rewrite <- (set_cx_same S) at 2; rewrite C; reflexivity).
      destruct w; cbn [rep_stosw rep_stosb str_rep]; rewrite E, ES; auto.
    - destruct (stos_step 16 HW f w s v M Hv) as (E1 & M1).
      set (s1 := if w then upd 16 (Write16 16 s 0 (di (reg s)) v) 7 (di (reg (Write16 16 s 0 (di (reg s)) v)) + 2)
              else upd 16 (Write8 s 0 (di (reg s)) v) 7 (di (reg (Write8 s 0 (di (reg s)) v)) + 1)) in *.
      assert (Hgoal : let s' := if w then rep_stosw 16 n v s1 else rep_stosb 16 n v s1 in
                      abs s' = str_rep (Datatypes.S n) STOS w (fun _ => false) S /\ mem_ok (smem s')).
      { cbn [str_rep]. apply IH; auto.
        - rewrite E1, E, stos_cx, set_reg_idem. reflexivity.
        - assert (Ecx : cx (rg (str_step STOS w S)) = cx (rg S)) by (destruct w; reflexivity).
          unfold set_reg. cbn [rg set_rg rset cx]. rewrite Ecx, C. rewrite Z.mod_small; lia.
        - lia.
        - rewrite E1. rewrite Hv. destruct w; reflexivity. }
      unfold s1 in Hgoal. destruct w; exact Hgoal.
  Qed.

  (** comparisons *)
  Definition cmp_adj (g : flags) : flags := mkflags (fC g) (fZ g) (fC g) false.
  Lemma cmp_adj_sub a b : 0 <= a < 256 -> 0 <= b < 256 ->
    sub_flags true a b 0 = cmp_adj (sub_flags false a b 0).
  Proof.
    intros. unfold sub_flags, flags_of, cmp_adj, trunc, in_signed, signed, half, modulus. cbn [fC fZ].
    destruct (Z.ltb_spec a 32768), (Z.ltb_spec b 32768); try lia. f_equal; lia.
  Qed.

  Lemma DoOp_cmp s l r : dsize s = 1 -> 0 <= l < 256 -> 0 <= r < 256 ->
    exists x, DoOp 16 s OP_CMP (uns 16 l) (uns 16 r) = Ok (set_flags_ s x) /\
      abs_flags x = cmp_adj (sub_flags false l r 0).
  Proof.
    intros Hd Hl Hr. unfold DoOp. rewrite Hd. cbn [Z.eqb].
    assert (El : uns 16 l = l) by (apply (u16_small l); lia).
    assert (Er : uns 16 r = r) by (apply (u16_small r); lia).
    rewrite El, Er.
    pose proof (alu16 16 7 l r _ (abs_flags (sflags s)) HW ltac:(lia) ltac:(change (2 ^ 16) with 65536; lia) ltac:(change (2 ^ 16) with 65536; lia) eq_refl)
      as (res & c & E1 & H). rewrite land_FC. change OP_CMP with 7.
    change (fC (abs_flags (sflags s))) with (Z.testbit (sflags s) 0) in E1. rewrite E1. cbn [Z.eqb Pos.eqb].
    eexists; split; [reflexivity|]. cbn [alu alu_of] in H. destruct H as (_ & _ & H & _).
    rewrite H, !Z.mod_small by lia. apply cmp_adj_sub; lia.
  Qed.

  Lemma fl_set_fl s g : fl (set_fl s g) = g. Proof. reflexivity. Qed.
  Lemma flagZ s : flag_set s FZ = fZ (fl (abs s)).
  Proof. change FZ with (2 ^ 6). rewrite flag_bit by lia. reflexivity. Qed.

  Lemma cmps_step s : mem_ok (smem s) -> dsize s = 1 ->
    exists s', (do s <- DoOp 16 s OP_CMP (uns 16 (Read8 s 3 (si (reg s)))) (uns 16 (Read8 s 0 (di (reg s))));
          let s := upd 16 s 1 (cx (reg s) - 1) in
          let s := upd 16 s 7 (di (reg s) + 1) in
          let s := upd 16 s 6 (si (reg s) + 1) in Ok s) = Ok s' /\
      (let S' := str_step CMPS false (abs s) in
       let S'' := set_reg S' 1 ((cx (rg S') - 1) mod 65536) in
       abs s' = set_fl S'' (cmp_adj (fl S''))) /\ mem_ok (smem s') /\ dsize s' = 1.
  Proof.
    intros M Hd. rewrite !Read8_ok by exact M.
    destruct (DoOp_cmp s (rd8 (smem s) (u16 (sget (sreg s) 3)) (si (reg s))) (rd8 (smem s) (u16 (sget (sreg s) 0)) (di (reg s))) Hd (M _) (M _)) as (x & -> & Hx).
    cbn [obind]. cbv zeta. exok. split; [|split; [exact M|exact Hd]].
    rewrite !abs_upd by exact HW.
    unfold abs at 1. cbn [set_flags_ reg sreg sip sflags smem]. rewrite Hx.
    unfold str_step, set_reg, set_rg, set_mem, set_fl.
    cbn [rg sg ip fl mem rset ax cx dx bx sp bp si di abs absr abss es ds upd set_reg_ set_flags_ reg].
    change (sget (sreg s) 3) with (ds (sreg s)). change (sget (sreg s) 0) with (es (sreg s)).
    rewrite !rd8_u16. f_equal; f_equal; unfold u16; lia.
  Qed.

  Lemma abs_fl_adj s S : abs s = set_fl S (cmp_adj (fl S)) -> fZ (fl (abs s)) = fZ (fl S).
  Proof. intros ->. reflexivity. Qed.

  Lemma cmps_fl s g : str_step CMPS false (set_fl s g) = str_step CMPS false s.
  Proof. reflexivity. Qed.

  Lemma rep_cmps n : forall s S g, mem_ok (smem s) -> dsize s = 1 -> abs s = set_fl S g -> fZ g = true ->
    exists s', rep_cmpsb 16 (Datatypes.S n) s = Ok s' /\
      (let T := str_rep (Datatypes.S n) CMPS false (fun h => negb (fZ h)) S in abs s' = set_fl T (cmp_adj (fl T))) /\
      mem_ok (smem s').
  Proof.
    induction n as [|n IH]; intros s S g M Hd E Hg.
    - destruct (cmps_step s M Hd) as (s' & E1 & E2 & M' & D'). cbn [rep_cmpsb]. rewrite flagZ, E, fl_set_fl, Hg.
      exists s'. cbn [rep_cmpsb] in *. split; [exact E1|]. split; [|exact M'].
      cbn [str_rep]. rewrite E, cmps_fl in E2. cbv zeta in *. destruct (negb _); exact E2.
    - destruct (cmps_step s M Hd) as (s' & E1 & E2 & M' & D').
      rewrite E, cmps_fl in E2. cbv zeta in E2.
      set (S2 := set_reg (str_step CMPS false S) 1 ((cx (rg (str_step CMPS false S)) - 1) mod 65536)) in *.
      assert (Er : rep_cmpsb 16 (Datatypes.S (Datatypes.S n)) s = rep_cmpsb 16 (Datatypes.S n) s').
      { change (rep_cmpsb 16 (Datatypes.S (Datatypes.S n)) s) with
          (if flag_set s FZ then
             do s <- DoOp 16 s OP_CMP (uns 16 (Read8 s 3 (si (reg s)))) (uns 16 (Read8 s 0 (di (reg s))));
             let s := upd 16 s 1 (cx (reg s) - 1) in
             let s := upd 16 s 7 (di (reg s) + 1) in
             let s := upd 16 s 6 (si (reg s) + 1) in
             rep_cmpsb 16 (Datatypes.S n) s
           else Ok s).
        rewrite flagZ, E, fl_set_fl, Hg. destruct (DoOp 16 s OP_CMP _ _); cbn [obind] in *; try discriminate E1.
        cbv zeta in *. injection E1 as <-. reflexivity. }
      rewrite Er.
      assert (ES : str_rep (Datatypes.S (Datatypes.S n)) CMPS false (fun h => negb (fZ h)) S =
                   if negb (fZ (fl S2)) then S2 else str_rep (Datatypes.S n) CMPS false (fun h => negb (fZ h)) S2) by reflexivity.
      rewrite ES. destruct (fZ (fl S2)) eqn:EZ; cbn [negb].
      + apply (IH s' S2 (cmp_adj (fl S2))); auto.
      + exists s'. split; [|split; [exact E2|exact M']].
        cbn [rep_cmpsb]. rewrite flagZ, E2, fl_set_fl. cbn [fZ cmp_adj]. rewrite EZ. reflexivity.
  Qed.

  Lemma scas_step s : mem_ok (smem s) -> dsize s = 1 ->
    exists s', (do s <- DoOp 16 s OP_CMP (uns 16 (Z.land (ax (reg s)) 255)) (uns 16 (Read8 s 0 (di (reg s))));
          let s := upd 16 s 1 (cx (reg s) - 1) in
          let s := upd 16 s 7 (di (reg s) + 1) in Ok s) = Ok s' /\
      (let S' := str_step SCAS false (abs s) in
       let S'' := set_reg S' 1 ((cx (rg S') - 1) mod 65536) in
       abs s' = set_fl S'' (cmp_adj (fl S''))) /\ mem_ok (smem s') /\ dsize s' = 1.
  Proof.
    intros M Hd. rewrite !Read8_ok by exact M.
    destruct (DoOp_cmp s (Z.land (ax (reg s)) 255) (rd8 (smem s) (u16 (sget (sreg s) 0)) (di (reg s))) Hd ltac:(rewrite land_255; lia) (M _)) as (x & -> & Hx).
    cbn [obind]. cbv zeta. exok. split; [|split; [exact M|exact Hd]].
    rewrite !abs_upd by exact HW.
    unfold abs at 1. cbn [set_flags_ reg sreg sip sflags smem]. rewrite Hx.
    unfold str_step. rewrite al_abs. unfold set_reg, set_rg, set_mem, set_fl.
    cbn [rg sg ip fl mem rset ax cx dx bx sp bp si di abs absr abss es ds upd set_reg_ set_flags_ reg].
    change (sget (sreg s) 0) with (es (sreg s)).
    rewrite !rd8_u16, land_255. f_equal; f_equal; unfold u16; lia.
  Qed.
  Lemma scas_fl s g : str_step SCAS false (set_fl s g) = str_step SCAS false s.
  Proof. reflexivity. Qed.

  Lemma rep_scas n : forall s S g, mem_ok (smem s) -> dsize s = 1 -> abs s = set_fl S g -> fZ g = false ->
    exists s', rep_scasb 16 (Datatypes.S n) s = Ok s' /\
      (let T := str_rep (Datatypes.S n) SCAS false (fun h => fZ h) S in abs s' = set_fl T (cmp_adj (fl T))) /\
      mem_ok (smem s').
  Proof.
    induction n as [|n IH]; intros s S g M Hd E Hg.
    - destruct (scas_step s M Hd) as (s' & E1 & E2 & M' & D'). cbn [rep_scasb]. rewrite flagZ, E, fl_set_fl, Hg.
      exists s'. cbn [rep_scasb] in *. split; [exact E1|]. split; [|exact M'].
      cbn [str_rep]. rewrite E, scas_fl in E2. cbv zeta in *. match goal with |- context [if ?b then _ else _] => destruct b end; exact E2.
    - destruct (scas_step s M Hd) as (s' & E1 & E2 & M' & D').
      rewrite E, scas_fl in E2. cbv zeta in E2.
      set (S2 := set_reg (str_step SCAS false S) 1 ((cx (rg (str_step SCAS false S)) - 1) mod 65536)) in *.
      assert (Er : rep_scasb 16 (Datatypes.S (Datatypes.S n)) s = rep_scasb 16 (Datatypes.S n) s').
      { change (rep_scasb 16 (Datatypes.S (Datatypes.S n)) s) with
          (if flag_set s FZ then Ok s else
             do s <- DoOp 16 s OP_CMP (uns 16 (Z.land (ax (reg s)) 255)) (uns 16 (Read8 s 0 (di (reg s))));
             let s := upd 16 s 1 (cx (reg s) - 1) in
             let s := upd 16 s 7 (di (reg s) + 1) in
             rep_scasb 16 (Datatypes.S n) s).
        rewrite flagZ, E, fl_set_fl, Hg. destruct (DoOp 16 s OP_CMP _ _); cbn [obind] in *; try discriminate E1.
        cbv zeta in *. injection E1 as <-. reflexivity. }
      rewrite Er.
      assert (ES : str_rep (Datatypes.S (Datatypes.S n)) SCAS false (fun h => fZ h) S =
                   if fZ (fl S2) then S2 else str_rep (Datatypes.S n) SCAS false (fun h => fZ h) S2) by reflexivity.
      rewrite ES. destruct (fZ (fl S2)) eqn:EZ.
      + exists s'. split; [|split; [exact E2|exact M']].
        cbn [rep_scasb]. rewrite flagZ, E2, fl_set_fl. cbn [fZ cmp_adj]. rewrite EZ. reflexivity.
      + apply (IH s' S2 (cmp_adj (fl S2))); auto.
  Qed.

  (** the five repeated instructions *)
  Lemma REPMOVS_at k s (w : bool) t : at_ f base k s ->
    sim_exec (IStr MOVS w Rep) (set_ip base (ip base + k)) = Some t ->
    Ex1 (do n <- loop_count 16 (cx (reg s)); Ok (if w then rep_movsw 16 n s else rep_movsb 16 n s)) t.
  Proof.
    intros (_ & M & B) X. rewrite loop16. cbn [obind]. exok. rewrite <- B in X. cbn [sim_exec exec] in X. sinj X.
    apply rep_movs, M.
  Qed.
  Lemma REPSTOS_at k s (w : bool) t : at_ f base k s ->
    sim_exec (IStr STOS w Rep) (set_ip base (ip base + k)) = Some t ->
    Ex1 (do n <- loop_count 16 (cx (reg s));
         let s := upd 16 s 1 0 in
         Ok (if w then rep_stosw 16 n (ax (reg s)) s else rep_stosb 16 n (ax (reg s)) s)) t.
  Proof.
    intros (_ & M & B) X. rewrite loop16. cbn [obind]. cbv zeta. exok. rewrite <- B in X. cbn [sim_exec exec] in X. sinj X.
    pose proof (u16_range (cx (reg s))) as Hc.
    apply (rep_stos w _ _ _ (abs s)).
    - exact M.
    - rewrite abs_upd by exact HW. reflexivity.
    - cbn. rewrite Z2Nat.id; [reflexivity|apply Hc].
    - cbn. rewrite Z2Nat.id; apply Hc.
    - destruct w; [reflexivity|]. rewrite al_abs. reflexivity.
  Qed.
  Lemma REPCMPS_at k s t : at_ f base k s -> dsize s = 1 ->
    sim_exec (IStr CMPS false Rep) (set_ip base (ip base + k)) = Some t ->
    Ex1 (do n <- loop_count 16 (cx (reg s)); rep_cmpsb 16 n (set_flags_ s FZ)) t.
  Proof.
    intros (_ & M & B) Hd X. rewrite loop16. cbn [obind]. rewrite <- B in X. cbn [sim_exec] in X.
    change (cx (rg (abs s))) with (u16 (cx (reg s))) in X. pose proof (u16_range (cx (reg s))) as Hc.
    destruct (Z.eqb_spec (u16 (cx (reg s))) 0) as [E0|N0].
    - rewrite E0. cbn [Z.to_nat rep_cmpsb]. exok. sinj X. split; [reflexivity|exact M].
    - destruct (Z.to_nat (u16 (cx (reg s)))) as [|n] eqn:En; [lia|].
      destruct (rep_cmps n (set_flags_ s FZ) (abs s) (mkflags false true false false) M Hd eq_refl eq_refl) as (s' & E & Ea & M').
      exists s'. split; [exact E|]. split; [|exact M']. sinj X. exact Ea.
  Qed.
  Lemma REPSCAS_at k s t : at_ f base k s -> dsize s = 1 ->
    sim_exec (IStr SCAS false RepNE) (set_ip base (ip base + k)) = Some t ->
    Ex1 (do n <- loop_count 16 (cx (reg s)); rep_scasb 16 n (set_flags_ s 0)) t.
  Proof.
    intros (_ & M & B) Hd X. rewrite loop16. cbn [obind]. rewrite <- B in X. cbn [sim_exec] in X.
    change (cx (rg (abs s))) with (u16 (cx (reg s))) in X. pose proof (u16_range (cx (reg s))) as Hc.
    destruct (Z.eqb_spec (u16 (cx (reg s))) 0) as [E0|N0].
    - rewrite E0. cbn [Z.to_nat rep_scasb]. exok. sinj X. split; [reflexivity|exact M].
    - destruct (Z.to_nat (u16 (cx (reg s)))) as [|n] eqn:En; [lia|].
      destruct (rep_scas n (set_flags_ s 0) (abs s) u0 M Hd eq_refl eq_refl) as (s' & E & Ea & M').
      exists s'. split; [exact E|]. split; [|exact M']. sinj X. exact Ea.
  Qed.
End W16.
