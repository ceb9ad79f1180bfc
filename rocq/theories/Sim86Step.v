(** One whole step of the simulator model against [sim_exec]: prefixes, the
    dispatch on the opcode byte, and the class lemmas put together. *)
From Verif Require Import Base Bits Spec8086 Sim86 Sim86Alu Sim86Base Sim86Variant Sim86Refine Sim86Refine2.

Local Open Scope out_scope.

Definition repcode (rp : repkind) : Z := match rp with NoRep => 0 | Rep => 243 | RepNE => 242 end.

(** the dispatch after the opcode byte has been read (restart without its
    prefix loop) *)
Definition body (W : Z) (rest : Z -> sim -> outcome (event * sim)) (rep inst : Z) (s : sim) : outcome (event * sim) :=
  if inst <? 64 then
    let type := Z.land inst 6 in
    let op := Z.land (Z.shiftr inst 3) 7 in
    let s := set_dsize_ s (Z.land inst 1) in
    if type <? 4 then ret1 (ALUOp W s op (Z.land inst 2))
    else if type =? 4 then ret1 (acc_imm W s op)
    else
      if inst <? 38 then
        let sr := Z.shiftr inst 3 in
        if Z.land inst 1 =? 0 then Ok (ENone, DoPush W s (sget (sreg s) sr))
        else let '(v, s) := DoPop W s in Ok (ENone, set_sreg_ s (sset (sreg s) sr v))
      else
        if Z.land inst 1 =? 0 then rest rep (set_seg_ s (Z.shiftr (inst - 38) 3))
        else Fatal
  else if inst <? 72 then
    let r := inst - 64 in
    ret1 (DoIncDec W (set_modrm_ s (Z.lor (Z.lor 192 (Z.shiftl r 3)) r)) 1)
  else if inst <? 80 then
    let r := inst - 72 in
    ret1 (DoIncDec W (set_modrm_ s (Z.lor (Z.lor 192 (Z.shiftl r 3)) r)) (-1))
  else if inst <? 88 then Ok (ENone, PUSH W s (inst - 80))
  else if inst <? 96 then Ok (ENone, POP W s (inst - 88))
  else if (112 <=? inst) && (inst <? 128) then ret1 (JCC W s (inst - 112))
  else if (144 <=? inst) && (inst <? 152) then
    let r := inst - 144 in
    let rv := rget (reg s) r in
    let s := set_reg_ s (rset (reg s) r (ax (reg s))) in
    Ok (ENone, set_reg_ s (rset (reg s) 0 rv))
  else if (176 <=? inst) && (inst <? 184) then
    let s := set_dsize_ s 0 in
    let '(b, s) := ReadIByte W s in
    Ok (ENone, WriteReg W s (inst - 176) (uns W b))
  else if (184 <=? inst) && (inst <? 192) then
    let '(i, s) := Imm16 W s in
    Ok (ENone, set_reg_ s (rset (reg s) (inst - 184) i))
  else if (inst =? 242) || (inst =? 243) then rest inst s
  else exec_switch W rep inst s.

Lemma restart_body W n rep s : restart W (S n) rep s =
  let '(inst, s1) := ReadIByte W s in body W (restart W n) rep inst s1.
Proof.
  cbn [restart]. destruct (ReadIByte W s) as [inst s1]. unfold body, acc_imm.
  destruct (inst <? 64); [|reflexivity].
  destruct (Z.land inst 6 <? 4); [reflexivity|]. destruct (Z.land inst 6 =? 4); [|reflexivity].
  cbv zeta. destruct (dsize (set_dsize_ s1 (Z.land inst 1)) =? 0).
  - destruct (ReadIByte W (set_dsize_ s1 (Z.land inst 1))). reflexivity.
  - destruct (Imm16 W (set_dsize_ s1 (Z.land inst 1))). reflexivity.
Qed.

Fixpoint zrange (a : Z) (n : nat) : list Z := match n with O => nil | S n => a :: zrange (a + 1) n end.
Lemma in_zrange n : forall a b, a <= b < a + Z.of_nat n -> In b (zrange a n).
Proof.
  induction n as [|n IH]; intros a b H; [lia|]. cbn [zrange In].
  destruct (Z.eq_dec a b); [auto|]. right. apply IH. lia.
Qed.
Lemma byte_cases (P : Z -> Prop) : (forall b, In b (zrange 0 256) -> P b) -> forall b, 0 <= b < 256 -> P b.
Proof. intros H b Hb. apply H. apply in_zrange. lia. Qed.

Section W.
  Variable W : Z.
  Hypothesis HW : 16 <= W.
  Variable f : Z -> Z.
  Variable base : state.

  Notation at_ := (at_ f base).

  Definition is_prefix (b : Z) : bool :=
    (b =? 38) || (b =? 46) || (b =? 54) || (b =? 62) || (b =? 242) || (b =? 243).

  (** dec_op with the opcode byte as an argument *)
  Definition dec_op_b (b : Z) (so : option Z) (rp : repkind) (k : Z) : option (instr * Z) :=
    dec_op (fun j => if j =? k then b else f j) so rp k.

  Definition trimmed (s : sim) (i : instr) : Prop :=
    W = 16 /\ int16_regs (reg s) \/ needs_trim i = false.

  Definition dispatch_ok (b : Z) : Prop :=
    forall rest k s so rp i n t,
      f k = b -> at_ (k + 1) s -> fresh so s -> (so = None -> dsize s = 1) ->
      is_prefix b = false ->
      dec_op f so rp k = Some (i, n) ->
      acc_op so rp b (f (k + 1) / 8 mod 8) = true ->
      trimmed s i ->
      sim_exec i (set_ip base (ip base + n)) = Some t ->
      Ex (body W rest (repcode rp) b s) t.

  Lemma dec_modrm_reg so k o r n : dec_modrm f so k = (o, r, n) -> r = f k / 8 mod 8.
  Proof.
    unfold dec_modrm. destruct (f k / 64 =? 3); [congruence|]. destruct (f k / 64 =? 0).
    - destruct (f k mod 8 =? 6); congruence.
    - destruct (f k / 64 =? 1); congruence.
  Qed.

  Ltac red_num :=
    cbn [Z.ltb Z.leb Z.eqb Z.compare Pos.compare Pos.compare_cont Pos.eqb
         Z.land Pos.land Z.of_N Z.shiftr Z.shiftl Z.iter Pos.iter Z.div2 Z.opp Pos.div2 Pos.div2_up
         Z.lor Pos.lor Pos.Nsucc_double Pos.Ndouble
         andb orb negb].
  Ltac red_num_in H :=
    cbn [Z.ltb Z.leb Z.eqb Z.compare Pos.compare Pos.compare_cont Pos.eqb andb orb negb] in H.
  Ltac closed_ops H :=
    repeat match type of H with
    | context [?a mod 2 =? 1] => let x := eval vm_compute in (a mod 2 =? 1) in
        match x with true => idtac | false => idtac end; change (a mod 2 =? 1) with x in H
    | context [Zpos ?a mod 8] => let x := eval vm_compute in (Zpos a mod 8) in change (Zpos a mod 8) with x in H
    | context [Zpos ?a / 8] => let x := eval vm_compute in (Zpos a / 8) in change (Zpos a / 8) with x in H
    | context [Zpos ?a - Zpos ?b] => let x := eval vm_compute in (Zpos a - Zpos b) in change (Zpos a - Zpos b) with x in H
    | context [Z0 mod 8] => change (Z0 mod 8) with 0 in H
    | context [Z0 / 8] => change (Z0 / 8) with 0 in H
    end.
  Ltac closed_goal :=
    repeat match goal with
    | |- context [Zpos ?a - Zpos ?b] => let x := eval vm_compute in (Zpos a - Zpos b) in change (Zpos a - Zpos b) with x
    | |- context [Z.shiftl (Zpos ?a) (Zpos ?b)] => let x := eval vm_compute in (Z.shiftl (Zpos a) (Zpos b)) in change (Z.shiftl (Zpos a) (Zpos b)) with x
    end.
  Ltac offs X k :=
    try (replace (k + 3) with (k + 1 + 2) in X by lia);
    try (replace (k + 2) with (k + 1 + 1) in X by lia).

  Lemma d_alu_rm : forall b, In b (zrange 0 64) -> Z.land b 6 < 4 -> dispatch_ok b.
  Proof.
    intros b Hb Hl. cbn [zrange Z.add Pos.add Pos.succ] in Hb.
    repeat (destruct Hb as [<-|Hb]; [try (exfalso; revert Hl; vm_compute; congruence)|]); try contradiction;
    (intros rest k s so rp i n t Ek A F Hd Hp D Ha Ht X; clear Hl Hp Ha;
     unfold dec_op in D; rewrite Ek in D; unfold body; red_num_in D; closed_ops D; red_num_in D; red_num;
     destruct (dec_modrm f so (k + 1)) as [[o r] n0] eqn:DM; injection D as <- <-;
     apply Ex_ret1;
     match goal with |- Ex1 (ALUOp _ ?s1 ?op ?sw) _ =>
       apply (ALUOp_at W HW f base (k + 1) s1 so o r n0 op sw); [exact A|exact F|exact DM|lia|exact X] end).
  Qed.

  Lemma d_alu_imm : forall b, In b (zrange 0 64) -> Z.land b 6 = 4 -> dispatch_ok b.
  Proof.
    intros b Hb Hl. cbn [zrange Z.add Pos.add Pos.succ] in Hb.
    repeat (destruct Hb as [<-|Hb]; [try (exfalso; revert Hl; vm_compute; congruence)|]); try contradiction;
    (intros rest k s so rp i n t Ek A F Hd Hp D Ha Ht X; clear Hl Hp Ha;
     unfold dec_op in D; rewrite Ek in D; unfold body; red_num_in D; closed_ops D; red_num_in D; red_num;
     match type of D with context [dec_imm f ?w ?kk] => destruct (dec_imm f w kk) as [im n0] eqn:DM end; injection D as <- <-;
     apply Ex_ret1;
     match goal with |- Ex1 (acc_imm _ ?s1 ?op) _ =>
       apply (ALUimm_at W HW f base (k + 1) s1 op im n0); [exact A|lia|exact DM|exact X] end).
  Qed.

  Lemma d_push_seg : forall b, In b (zrange 0 64) -> Z.land b 6 = 6 -> dispatch_ok b.
  Proof.
    intros b Hb Hl. cbn [zrange Z.add Pos.add Pos.succ] in Hb.
    repeat (destruct Hb as [<-|Hb]; [try (exfalso; revert Hl; vm_compute; congruence)|]); try contradiction;
    (intros rest k s so rp i n t Ek A F Hd Hp D Ha Ht X; clear Hl Ha;
     unfold dec_op in D; rewrite Ek in D; unfold body; red_num_in D; closed_ops D; red_num_in D; red_num;
     try discriminate D; try discriminate Hp; injection D as <- <-;
     cbv zeta;
     first [ exact (PUSHS_at W HW f base (k + 1) (set_dsize_ s _) _ t A X)
           | exact (POPS_at W HW f base (k + 1) (set_dsize_ s _) _ t A X) ]).
  Qed.

  Lemma d_64_96 : forall b, In b (zrange 64 32) -> dispatch_ok b.
  Proof.
    intros b Hb. cbn [zrange Z.add Pos.add Pos.succ] in Hb.
    repeat (destruct Hb as [<-|Hb]); try contradiction;
    (intros rest k s so rp i n t Ek A F Hd Hp D Ha Ht X; clear Hp;
     unfold dec_op in D; rewrite Ek in D; unfold body; unfold acc_op in Ha; red_num_in Ha; red_num_in D; closed_ops D; red_num; closed_goal;
     injection D as <- <-; cbv zeta;
     match type of X with
     | sim_exec (IPush (Reg ?r)) _ = _ => exact (PUSH_at W HW f base (k + 1) s r t A ltac:(lia) X)
     | sim_exec (IPop ?r) _ = _ => exact (POP_at W HW f base (k + 1) s r t A X)
     | sim_exec (IInc _ (Reg ?r)) _ = _ =>
         apply Ex_ret1; destruct so; [discriminate Ha|];
         exact (IncDecR_at W HW f base (k + 1) s r 1 t A ltac:(lia) (or_introl eq_refl) (Hd eq_refl) X)
     | sim_exec (IDec _ (Reg ?r)) _ = _ =>
         apply Ex_ret1; destruct so; [discriminate Ha|];
         exact (IncDecR_at W HW f base (k + 1) s r (-1) t A ltac:(lia) (or_intror eq_refl) (Hd eq_refl) X)
     end).
  Qed.

  Lemma d_jcc : forall b, In b (zrange 96 32) -> dispatch_ok b.
  Proof.
    intros b Hb. cbn [zrange Z.add Pos.add Pos.succ] in Hb.
    repeat (destruct Hb as [<-|Hb]); try contradiction;
    (intros rest k s so rp i n t Ek A F Hd Hp D Ha Ht X; clear Hp;
     unfold dec_op in D; rewrite Ek in D; unfold body; unfold acc_op in Ha; red_num_in Ha; red_num_in D; closed_ops D; red_num; closed_goal;
     try discriminate D; try discriminate Ha;
     injection D as <- <-; cbv zeta; offs X k;
     match type of X with sim_exec (IJcc ?cc _) _ = _ =>
       apply Ex_ret1; exact (JCC_at W HW f base (k + 1) s cc t A ltac:(lia) ltac:(lia) ltac:(lia) X) end).
  Qed.

  Ltac intro_case :=
    intros rest k s so rp i n t Ek A F Hd Hp D Ha Ht X; clear Hp;
    unfold dec_op in D; rewrite Ek in D; unfold body; unfold acc_op in Ha;
    red_num_in Ha; red_num_in D; closed_ops D; red_num_in D; red_num; closed_goal; cbv zeta;
    try discriminate D; try discriminate Ha.
  Ltac modrm_case o r n0 DM D so k :=
    destruct (dec_modrm f so (k + 1)) as [[o r] n0] eqn:DM;
    pose proof (dec_modrm_reg _ _ _ _ _ DM).

  Lemma d_128_143 : forall b, In b (zrange 128 16) -> dispatch_ok b.
  Proof.
    intros b Hb. cbn [zrange Z.add Pos.add Pos.succ] in Hb.
    repeat (destruct Hb as [<-|Hb]); try contradiction; intro_case; cbn [exec_switch]; red_num;
      modrm_case o r n0 DM D so k.
    - injection D as <- <-. apply Ex_ret1.
      apply (grp1_at W HW f base (k + 1) (set_dsize_ s 0) so o r n0 false t A F DM); [discriminate|exact X].
    - injection D as <- <-. apply Ex_ret1.
      apply (grp1_at W HW f base (k + 1) (set_dsize_ s 1) so o r n0 true t A F DM); [reflexivity|exact X].
    - injection D as <- <-. apply Ex_ret1.
      apply (grp1_at W HW f base (k + 1) (set_dsize_ s 0) so o r n0 false t A F DM); [discriminate|exact X].
    - injection D as <- <-. apply Ex_ret1.
      apply (grp1_at W HW f base (k + 1) (set_dsize_ s 1) so o r n0 false t A F DM); [discriminate|exact X].
    - injection D as <- <-. apply Ex_ret1. exact (MOV_at W HW f base (k + 1) (set_dsize_ s 0) so o r n0 0 t A F DM X).
    - injection D as <- <-. apply Ex_ret1. exact (MOV_at W HW f base (k + 1) (set_dsize_ s 1) so o r n0 0 t A F DM X).
    - injection D as <- <-. apply Ex_ret1. exact (MOV_at W HW f base (k + 1) (set_dsize_ s 0) so o r n0 2 t A F DM X).
    - injection D as <- <-. apply Ex_ret1. exact (MOV_at W HW f base (k + 1) (set_dsize_ s 1) so o r n0 2 t A F DM X).
    - destruct so; [discriminate Ha|]. destruct (Z.ltb_spec r 4); [|discriminate D]. injection D as <- <-. apply Ex_ret1.
      exact (MovFromS_at W HW f base (k + 1) s None o r n0 t A F (Hd eq_refl) DM H0 X).
    - assert (E : (ILea r o, n0) = (i, n)) by (destruct o; congruence). injection E as <- <-. apply Ex_ret1.
      exact (LEA_at W HW f base (k + 1) s so o r n0 t A F DM X).
    - destruct so; [discriminate Ha|]. destruct (Z.ltb_spec r 4); [|discriminate D]. injection D as <- <-. apply Ex_ret1.
      exact (MovToS_at W HW f base (k + 1) s None o r n0 t A F (Hd eq_refl) DM H0 X).
  Qed.

  Lemma d_144_163 : forall b, In b (zrange 144 20) -> dispatch_ok b.
  Proof.
    intros b Hb. cbn [zrange Z.add Pos.add Pos.succ] in Hb.
    repeat (destruct Hb as [<-|Hb]); try contradiction; intro_case; cbn [exec_switch]; red_num;
      injection D as <- <-; offs X k;
      match type of X with
      | sim_exec (IXchg true (Reg ?r) _) _ = _ => exact (XCHG_at f base (k + 1) s r t A ltac:(lia) X)
      | sim_exec ICbw _ = _ => exact (CBW_at f base (k + 1) s t A X)
      | sim_exec ICwd _ = _ => exact (CWD_at f base (k + 1) s t A X)
      | _ => idtac
      end.
    all: assert (Hso : so = None \/ so = Some 3)
      by (destruct so as [x|]; [right|now left]; destruct x as [|p|p]; try discriminate Ha; do 2 (destruct p; try discriminate Ha); reflexivity).
    - exact (moffs_at W HW f base (k + 1) s so 160 t A ltac:(lia) Hso X).
    - exact (moffs_at W HW f base (k + 1) s so 161 t A ltac:(lia) Hso X).
    - exact (moffs_at W HW f base (k + 1) s so 162 t A ltac:(lia) Hso X).
    - exact (moffs_at W HW f base (k + 1) s so 163 t A ltac:(lia) Hso X).
  Qed.

  Lemma trimmed_16 s i : trimmed s i -> needs_trim i = true -> W = 16 /\ int16_regs (reg s).
  Proof. intros [H|H] E; [exact H|congruence]. Qed.

  Lemma d_str : forall b, In b (zrange 164 12) -> dispatch_ok b.
  Proof.
    intros b Hb. cbn [zrange Z.add Pos.add Pos.succ] in Hb.
    repeat (destruct Hb as [<-|Hb]); try contradiction; intro_case; cbn [exec_switch]; red_num;
      unfold dec_str in D; destruct so; try discriminate D; injection D as <- <-; specialize (Hd eq_refl).
    - destruct rp; try discriminate Ha. cbn [repcode]. red_num. cbn [oassert obind].
      destruct (trimmed_16 _ _ Ht eq_refl) as [EW Hi]. rewrite EW. apply Ex_ret1.
      exact (REPMOVS_at f base (k + 1) s false t A X).
    - destruct rp; try discriminate Ha. cbn [repcode]. red_num. cbn [oassert obind].
      destruct (trimmed_16 _ _ Ht eq_refl) as [EW Hi]. rewrite EW. apply Ex_ret1.
      exact (REPMOVS_at f base (k + 1) s true t A X).
    - destruct rp; try discriminate Ha. cbn [repcode]. red_num. cbn [oassert obind].
      destruct (trimmed_16 _ _ Ht eq_refl) as [EW Hi]. rewrite EW. apply Ex_ret1.
      exact (REPCMPS_at f base (k + 1) s t A Hd X).
    - apply Ex_ret1. destruct rp; try discriminate Ha; cbn [repcode]; red_num.
      + exact (STOS1_at W HW f base (k + 1) s false t A X).
      + destruct (trimmed_16 _ _ Ht eq_refl) as [EW Hi]. rewrite EW.
        exact (REPSTOS_at f base (k + 1) s false t A X).
    - apply Ex_ret1. destruct rp; try discriminate Ha; cbn [repcode]; red_num.
      + exact (STOS1_at W HW f base (k + 1) s true t A X).
      + destruct (trimmed_16 _ _ Ht eq_refl) as [EW Hi]. rewrite EW.
        exact (REPSTOS_at f base (k + 1) s true t A X).
    - destruct rp; try discriminate Ha. cbn [repcode]. red_num. cbn [oassert obind]. apply Ex_ret1.
      exact (LODSB_at W HW f base (k + 1) (set_dsize_ s 0) t A eq_refl X).
    - destruct rp; try discriminate Ha. cbn [repcode]. red_num. cbn [oassert obind]. apply Ex_ret1.
      exact (LODSW_at W HW f base (k + 1) s t A Hd X).
    - destruct rp; try discriminate Ha. cbn [repcode]. red_num. cbn [oassert obind].
      destruct (trimmed_16 _ _ Ht eq_refl) as [EW Hi]. rewrite EW. apply Ex_ret1.
      exact (REPSCAS_at f base (k + 1) s t A Hd X).
  Qed.

  Lemma d_176_191 : forall b, In b (zrange 176 16) -> dispatch_ok b.
  Proof.
    intros b Hb. cbn [zrange Z.add Pos.add Pos.succ] in Hb.
    repeat (destruct Hb as [<-|Hb]); try contradiction; intro_case;
      injection D as <- <-; offs X k;
      match type of X with
      | sim_exec (IMov false (Reg ?r) _) _ = _ => exact (movb_at W HW f base (k + 1) (set_dsize_ s 0) r t A ltac:(lia) eq_refl X)
      | sim_exec (IMov true (Reg ?r) _) _ = _ => exact (movw_at W HW f base (k + 1) s r t A X)
      end.
  Qed.

  Lemma d_192_255 : forall b, In b (zrange 192 64) -> dispatch_ok b.
  Proof.
    intros b Hb. cbn [zrange Z.add Pos.add Pos.succ] in Hb.
    repeat (destruct Hb as [<-|Hb]); try contradiction; intro_case; cbn [exec_switch]; red_num; try discriminate Ha; try discriminate D.
    - (* C3 *) injection D as <- <-. exact (RET_at W HW f base (k + 1) s t A X).
    - (* C6 *) modrm_case o r n0 DM D so k. unfold dec_imm in D. destruct (r =? 0); [|discriminate D]. injection D as <- <-.
      apply Ex_ret1. exact (C6_at W HW f base (k + 1) (set_dsize_ s 0) so o r n0 t A F eq_refl DM X).
    - (* C7 *) modrm_case o r n0 DM D so k. unfold dec_imm in D. destruct (r =? 0); [|discriminate D]. injection D as <- <-.
      destruct so; [discriminate Ha|].
      apply Ex_ret1. exact (C7_at W HW f base (k + 1) s None o r n0 t A F (Hd eq_refl) DM X).
    - (* D1 *) modrm_case o r n0 DM D so k. destruct so; [discriminate Ha|]. apply Ex_ret1.
      assert (Hr : (r = 4 \/ r = 5 \/ r = 7) /\ (i, n) = (IShift (shop_of r) true o false, n0)).
      { unfold shop_of. destruct (Z.eqb_spec r 4); [split; [auto|congruence]|].
        destruct (Z.eqb_spec r 5); [split; [auto|congruence]|]. destruct (Z.eqb_spec r 7); [split; [auto|congruence]|discriminate D]. }
      destruct Hr as [Hr E]. injection E as -> ->.
      destruct (trimmed_16 _ _ Ht eq_refl) as [EW Hi]. rewrite EW.
      exact (SHIFT_at f base (k + 1) s None o r n0 false t A F DM Hr (Hd eq_refl) X).
    - (* D3 *) modrm_case o r n0 DM D so k. destruct so; [discriminate Ha|]. apply Ex_ret1.
      assert (Hr : (r = 4 \/ r = 5 \/ r = 7) /\ (i, n) = (IShift (shop_of r) true o true, n0)).
      { unfold shop_of. destruct (Z.eqb_spec r 4); [split; [auto|congruence]|].
        destruct (Z.eqb_spec r 5); [split; [auto|congruence]|]. destruct (Z.eqb_spec r 7); [split; [auto|congruence]|discriminate D]. }
      destruct Hr as [Hr E]. injection E as -> ->.
      destruct (trimmed_16 _ _ Ht eq_refl) as [EW Hi]. rewrite EW.
      exact (SHIFT_at f base (k + 1) s None o r n0 true t A F DM Hr (Hd eq_refl) X).
    - (* E8 *) injection D as <- <-. offs X k. exact (CALL_at W HW f base (k + 1) s t A X).
    - (* E9 *) injection D as <- <-. offs X k. exact (JMPw_at W HW f base (k + 1) s t A X).
    - (* EB *) injection D as <- <-. offs X k. exact (JMPb_at W HW f base (k + 1) s t A X).
    - (* F7 *) modrm_case o r n0 DM D so k. destruct so; [discriminate Ha|]. cbn [andb] in Ha. apply Ex_ret1.
      assert (Hr : (2 <= r < 6 /\ (i, n) = (f7_instr r o, n0)) \/ ((r = 6 \/ r = 7) /\ (i, n) = (IMulDiv (if r =? 6 then DIV else IDIV) true o, n0))).
      { unfold f7_instr. rewrite <- H in Ha. assert (2 <= r) by lia.
        destruct (Z.eqb_spec r 0); [lia|].
        destruct (Z.eqb_spec r 2); [left; split; [lia|congruence]|].
        destruct (Z.eqb_spec r 3); [left; split; [lia|congruence]|].
        destruct (Z.eqb_spec r 4); [left; split; [lia|congruence]|].
        destruct (Z.eqb_spec r 5); [left; split; [lia|congruence]|].
        destruct (Z.eqb_spec r 6); [right; split; [lia|congruence]|].
        destruct (Z.eqb_spec r 7); [right; split; [lia|congruence]|discriminate D]. }
      destruct Hr as [[Hr E] | [Hr E]]; injection E as -> ->.
      + exact (F7_at W HW f base (k + 1) s None o r n0 t A F DM Hr (Hd eq_refl) X).
      + destruct (trimmed_16 _ _ Ht) as [EW Hi]; [destruct (r =? 6); reflexivity|]. rewrite EW.
        exact (DIV_at f base (k + 1) s None o r n0 t A F DM Hr (Hd eq_refl) Hi X).
    - (* FE *) modrm_case o r n0 DM D so k. rewrite <- H in Ha. apply Ex_ret1.
      assert (Hr : r < 2) by lia.
      assert (E : (i, n) = (fe_instr r false o, n0)).
      { assert (0 <= r) by (subst r; lia). unfold fe_instr.
        destruct (Z.eqb_spec r 0); [congruence|]. destruct (Z.eqb_spec r 1); [congruence|lia]. }
      injection E as -> ->.
      apply (FE_at W HW f base (k + 1) (set_dsize_ s 0) so o r n0 t A F DM); [lia|lia|exact X].
    - (* FF *) modrm_case o r n0 DM D so k. rewrite <- H in Ha. destruct so; [discriminate Ha|]. cbn [andb] in Ha. apply Ex_ret1.
      assert (Hr : r < 3) by lia.
      assert (Ew : wide s = true) by (unfold wide; rewrite (Hd eq_refl); reflexivity).
      assert (E : (i, n) = (fe_instr r true o, n0)).
      { assert (0 <= r) by (subst r; lia). unfold fe_instr.
        destruct (Z.eqb_spec r 0); [congruence|]. destruct (Z.eqb_spec r 1); [congruence|].
        destruct (Z.eqb_spec r 2); [cbn [andb] in D; congruence|lia]. }
      injection E as -> ->.
      apply (FE_at W HW f base (k + 1) s None o r n0 t A F DM); [lia|intros _; exact Ew|rewrite Ew; exact X].
  Qed.

  Lemma dispatch : forall b, 0 <= b < 256 -> dispatch_ok b.
  Proof.
    intros b Hb.
    assert (b < 64 \/ 64 <= b < 96 \/ 96 <= b < 128 \/ 128 <= b < 144 \/ 144 <= b < 164 \/ 164 <= b < 176 \/
            176 <= b < 192 \/ 192 <= b) as [C|[C|[C|[C|[C|[C|[C|C]]]]]]] by lia.
    - assert (Hz : In b (zrange 0 64)) by (apply in_zrange; lia).
      assert (H6 : Z.land b 6 < 4 \/ Z.land b 6 = 4 \/ Z.land b 6 = 6).
      { revert Hz. cbn [zrange Z.add Pos.add Pos.succ]. intro Hz.
        repeat (destruct Hz as [<-|Hz]; [vm_compute; intuition congruence|]). contradiction. }
      destruct H6 as [H|[H|H]]; [now apply d_alu_rm|now apply d_alu_imm|now apply d_push_seg].
    - apply d_64_96, in_zrange. lia.
    - apply d_jcc, in_zrange. lia.
    - apply d_128_143, in_zrange. lia.
    - apply d_144_163, in_zrange. lia.
    - apply d_str, in_zrange. lia.
    - apply d_176_191, in_zrange. lia.
    - apply d_192_255, in_zrange. lia.
  Qed.

  (** prefixes *)
  Lemma restart_ok n : forall k s so rp i m t,
    at_ k s -> fresh so s -> (so = None -> dsize s = 1) ->
    dec_pfx f n so rp k = Some (i, m) -> acc_pfx f n so rp k = true ->
    trimmed s i ->
    sim_exec i (set_ip base (ip base + m)) = Some t ->
    Ex (restart W n (repcode rp) s) t.
  Proof.
    induction n as [|n IH]; intros k s so rp i m t A F Hd D Ha Ht X; [discriminate|].
    rewrite restart_body. destruct (ReadIByte_at W HW f base k s A) as (s1 & -> & A1 & E1 & B).
    assert (F1 : fresh so s1) by (rewrite E1; exact F).
    assert (Hd1 : so = None -> dsize s1 = 1) by (rewrite E1; exact Hd).
    assert (Ht1 : trimmed s1 i) by (rewrite E1; exact Ht).
    cbn [dec_pfx acc_pfx] in D, Ha.
    assert (Hseg : forall x, 0 <= x < 4 -> dec_pfx f n (Some x) rp (k + 1) = Some (i, m) -> acc_pfx f n (Some x) rp (k + 1) = true ->
              Ex (restart W n (repcode rp) (set_seg_ (set_dsize_ s1 0) x)) t).
    { intros x Hx D' Ha'. apply (IH (k + 1) _ (Some x) rp i m); auto.
      - destruct F1 as (G1 & G2 & G3 & G4). split; [exact G1|]. split; [exact G2|]. split; [reflexivity|exact Hx].
      - discriminate. }
    destruct (Z.eqb_spec (f k) 38) as [E|N38]; [rewrite E; exact (Hseg 0 ltac:(lia) D Ha)|].
    destruct (Z.eqb_spec (f k) 46) as [E|N46]; [rewrite E; exact (Hseg 1 ltac:(lia) D Ha)|].
    destruct (Z.eqb_spec (f k) 54) as [E|N54]; [rewrite E; exact (Hseg 2 ltac:(lia) D Ha)|].
    destruct (Z.eqb_spec (f k) 62) as [E|N62]; [rewrite E; exact (Hseg 3 ltac:(lia) D Ha)|].
    destruct (Z.eqb_spec (f k) 242) as [E|N242]; [rewrite E; exact (IH (k + 1) s1 so RepNE i m t A1 F1 Hd1 D Ha Ht1 X)|].
    destruct (Z.eqb_spec (f k) 243) as [E|N243]; [rewrite E; exact (IH (k + 1) s1 so Rep i m t A1 F1 Hd1 D Ha Ht1 X)|].
    apply (dispatch (f k) B (restart W n) k s1 so rp i m t eq_refl A1 F1 Hd1); auto.
    unfold is_prefix. repeat rewrite (proj2 (Z.eqb_neq _ _)) by assumption. reflexivity.
  Qed.
End W.

(** The simulator executes exactly [sim_exec] on every accepted instruction. *)
Theorem sim_step_ok W s i n t :
  16 <= W -> mem_ok (smem s) ->
  decode (fetch (abs s)) = Some (i, n) -> accepts (fetch (abs s)) = true ->
  (W = 16 /\ int16_regs (reg s) \/ needs_trim i = false) ->
  sim_exec i (set_ip (abs s) (ip (abs s) + n)) = Some t ->
  exists s', sim_step W 4 s = Ok (ENone, s') /\ abs s' = t /\ mem_ok (smem s').
Proof.
  intros HW M D Ha Ht X. unfold sim_step.
  apply (restart_ok W HW (fetch (abs s)) (abs s) 4 0 (begin_instr s) None NoRep i n t); auto.
  - split; [|split; [exact M|]].
    + intro j. unfold fetch. cbn [abs begin_instr mem sg cs abss smem sreg sip].
      apply rd8_cong. unfold u16. cbn [ip abs Z.add]. unfold u16. lia.
    + unfold abs, begin_instr, set_ip. cbn. f_equal. unfold u16. lia.
  - repeat split.
Qed.
