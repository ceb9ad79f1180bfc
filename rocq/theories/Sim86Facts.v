(** Consequences of the step theorem used by Props_Sim86.v. *)
From Verif Require Import Base Bits Spec8086 Sim86 Sim86Alu Sim86Base Sim86Variant Sim86Refine Sim86Refine2 Sim86Step Sim86Inv.
Local Open Scope out_scope.

(** instructions every encoding of which is accepted *)
Definition plain (i : instr) : bool :=
  match i with
  | IAlu _ _ _ _ | ILea _ _ | IPop _ | IPushS _ | IPopS _ | IJmp _ | ICall _ | IRet | ICbw | ICwd => true
  | IJcc cc _ => negb ((cc =? 10) || (cc =? 11))
  | _ => false
  end.

Lemma plain_op f so rp k i n r : 0 <= f k < 256 -> dec_op f so rp k = Some (i, n) -> plain i = true -> acc_op so rp (f k) r = true.
Proof.
  intros B D P. unfold dec_op in D. unfold acc_op.
  destruct (Z.ltb_spec (f k) 64).
  { rewrite (proj2 (Z.ltb_lt _ _)) by lia. rewrite (proj2 (Z.leb_gt _ _)) by lia. reflexivity. }
  destruct (Z.ltb_spec (f k) 72); [injection D as <- <-; discriminate|].
  destruct (Z.ltb_spec (f k) 80); [injection D as <- <-; discriminate|].
  destruct (Z.ltb_spec (f k) 96).
  { now rewrite andb_false_r. }
  rewrite (proj2 (Z.ltb_ge (f k) 88)) in D by lia.
  destruct (Z.ltb_spec (f k) 112); [discriminate|].
  destruct (Z.ltb_spec (f k) 128).
  { injection D as <- <-. cbn [plain] in P.
    destruct (Z.eqb_spec (f k) 122), (Z.eqb_spec (f k) 123); auto; exfalso; lia. }
  set (b := f k) in *. clearbody b. revert D P.
  destruct b as [|p|p]; try discriminate.
  do 8 (try destruct p as [p|p|]; try discriminate); try reflexivity; intros D P; exfalso;
    repeat (match type of D with context [dec_modrm ?a ?b ?c] => destruct (dec_modrm a b c) as [[? ?] ?] end);
    unfold dec_str, dec_imm in D;
    repeat (match type of D with
            | context [match so with _ => _ end] => destruct so
            | context [if ?c then _ else _] => destruct c
            end); try discriminate D; try (injection D as <- <-; discriminate P).
Qed.

Lemma plain_pfx f : (forall k, 0 <= f k < 256) -> forall n so rp k i m,
  dec_pfx f n so rp k = Some (i, m) -> plain i = true -> acc_pfx f n so rp k = true.
Proof.
  intros B. induction n as [|n IH]; intros so rp k i m D P; [discriminate|].
  cbn [dec_pfx acc_pfx] in *.
  repeat (match type of D with (if ?c then _ else _) = _ => destruct c; [eapply IH; eassumption|] end).
  eapply plain_op; eauto.
Qed.

Lemma fetch_byte s k : mem_ok (mem s) -> 0 <= fetch s k < 256.
Proof. intro M. unfold fetch, rd8. apply M. Qed.

Lemma plain_accepts s i n : mem_ok (mem s) -> decode (fetch s) = Some (i, n) -> plain i = true -> accepts (fetch s) = true.
Proof. intros M D P. eapply plain_pfx; eauto using fetch_byte. Qed.

(** [after i n s]: the state in which instruction [i] of length [n] at CS:IP executes *)
Definition after (s : sim) (n : Z) : state := set_ip (abs s) (ip (abs s) + n).

Lemma step_plain W s i n t : 16 <= W -> mem_ok (smem s) ->
  decode (fetch (abs s)) = Some (i, n) -> plain i = true -> sim_exec i (after s n) = Some t ->
  exists s', sim_step W 4 s = Ok (ENone, s') /\ abs s' = t /\ mem_ok (smem s').
Proof.
  intros HW M D P X. eapply sim_step_ok; eauto.
  - eapply plain_accepts; eauto.
  - right. destruct i; try discriminate; reflexivity.
Qed.

Lemma alu16_step W s op d src n : 16 <= W -> mem_ok (smem s) ->
  decode (fetch (abs s)) = Some (IAlu op true d src, n) ->
  exists s', sim_step W 4 s = Ok (ENone, s') /\ forall u, exec u (IAlu op true d src) (after s n) = Some (abs s').
Proof.
  intros HW M D.
  destruct (exec u0 (IAlu op true d src) (after s n)) as [t|] eqn:X;
    [|cbn [exec] in X; destruct (alu _ _ _ _ _); discriminate].
  destruct (step_plain W s _ n t HW M D eq_refl) as (s' & E & A & _).
  { rewrite faithful_exec by reflexivity. exact X. }
  exists s'. split; [exact E|]. intro u. rewrite (exec_undef u u0) by exact I. rewrite A. exact X.
Qed.

Lemma set_fl_parts s f : rg (set_fl s f) = rg s /\ sg (set_fl s f) = sg s /\ ip (set_fl s f) = ip s /\ mem (set_fl s f) = mem s.
Proof. repeat split. Qed.

(** everything but the flags *)
Definition same_data (s t : state) : Prop := rg s = rg t /\ sg s = sg t /\ ip s = ip t /\ mem s = mem t.
Lemma same_data_refl s : same_data s s. Proof. repeat split. Qed.
Lemma same_data_fl s f g : same_data (set_fl s f) (set_fl s g). Proof. repeat split. Qed.

Lemma alu8_step W s op d src n : 16 <= W -> mem_ok (smem s) ->
  decode (fetch (abs s)) = Some (IAlu op false d src, n) ->
  exists s', sim_step W 4 s = Ok (ENone, s') /\
    forall u t, exec u (IAlu op false d src) (after s n) = Some t ->
      same_data (abs s') t /\ fC (fl (abs s')) = fC (fl t) /\ fS (fl (abs s')) = fS (fl t) /\ fO (fl (abs s')) = fO (fl t) /\
      (fZ (fl (abs s')) = fZ (fl t) <->
       wraps8 op (get_op (after s n) false d) (get_op (after s n) false src) (fl (after s n)) = false).
Proof.
  intros HW M D.
  destruct (sim_exec (IAlu op false d src) (after s n)) as [t|] eqn:X;
    [|cbn [sim_exec] in X; destruct (sim_alu _ _ _ _ _); discriminate].
  destruct (step_plain W s _ n t HW M D eq_refl X) as (s' & E & A & _).
  exists s'. split; [exact E|]. intros u t' X'. rewrite A.
  cbn [sim_exec] in X. cbn [exec] in X'. unfold sim_alu in X.
  set (a := get_op (after s n) false d) in *. set (b := get_op (after s n) false src) in *.
  destruct (alu op false a b (fl (after s n))) as [r g] eqn:EA.
  sinj X. sinj X'. split; [repeat split|]. cbn [fl set_fl fC fS fO fZ].
  split; [|split; [|split]]; auto.
  destruct (wraps8 op a b (fl (after s n))) eqn:Wr; cbn [negb].
  - rewrite andb_false_r. split; [|discriminate]. intro Z0.
    assert (fZ g = true); [|congruence].
    revert Wr EA. clear. unfold wraps8, alu, add_flags, sub_flags, flags_of, trunc, modulus.
    set (c := if fC (fl (after s n)) then 1 else 0).
    destruct op; try discriminate; intros Wr EA; injection EA as <- <-; cbn [fZ];
      apply Z.eqb_eq in Wr; apply Z.eqb_eq; rewrite ?Z.add_0_r, ?Z.sub_0_r, ?Wr; reflexivity.
  - rewrite andb_true_r. split; auto.
Qed.

Lemma jcc_step W s cc rel n : 16 <= W -> mem_ok (smem s) ->
  decode (fetch (abs s)) = Some (IJcc cc rel, n) -> cc <> 10 -> cc <> 11 ->
  exists s', sim_step W 4 s = Ok (ENone, s') /\ forall u, exec u (IJcc cc rel) (after s n) = Some (abs s').
Proof.
  intros HW M D N1 N2.
  assert (Hcc : 0 <= cc < 16).
  { assert (G : forall k so rp i m, dec_op (fetch (abs s)) so rp k = Some (i, m) -> match i with IJcc c _ => 0 <= c < 16 | _ => True end).
    { clear. intros k so rp i m D. unfold dec_op in D. set (f := fetch (abs s)) in *. clearbody f.
      destruct (f k <? 64).
      { repeat (match type of D with
                | context [dec_modrm ?a ?b ?c] => destruct (dec_modrm a b c) as [[? ?] ?]
                | context [dec_imm ?a ?b ?c] => destruct (dec_imm a b c) as [? ?]
                | (if ?c then _ else _) = _ => destruct c end); try discriminate D; injection D as <- <-; exact I. }
      destruct (f k <? 72); [injection D as <- <-; exact I|].
      destruct (f k <? 80); [injection D as <- <-; exact I|].
      destruct (f k <? 88); [injection D as <- <-; exact I|].
      destruct (f k <? 96); [injection D as <- <-; exact I|].
      destruct (Z.ltb_spec (f k) 112); [discriminate|].
      destruct (Z.ltb_spec (f k) 128); [injection D as <- <-; lia|].
      set (b := f k) in *. clearbody b. revert D.
      destruct b as [|p|p]; try discriminate.
      do 8 (try destruct p as [p|p|]; try discriminate); intro D;
        repeat (match type of D with context [dec_modrm ?a ?b ?c] => destruct (dec_modrm a b c) as [[? ?] ?] end);
        unfold dec_str, dec_imm in D;
        repeat (match type of D with
                | context [match so with _ => _ end] => destruct so
                | context [if ?c then _ else _] => destruct c
                | (match ?o with _ => _ end) = _ => destruct o
                end); try discriminate D; try (injection D as <- <-; exact I). }
    assert (G2 : forall m k so rp i l, dec_pfx (fetch (abs s)) m so rp k = Some (i, l) -> match i with IJcc c _ => 0 <= c < 16 | _ => True end).
    { induction m; intros k so rp i l E; [discriminate|]. cbn [dec_pfx] in E.
      repeat (match type of E with (if ?c then _ else _) = _ => destruct c; [now eapply IHm; eauto|] end).
      eapply G; eauto. }
    exact (G2 _ _ _ _ _ _ D). }
  destruct (exec u0 (IJcc cc rel) (after s n)) as [t|] eqn:X.
  2:{ cbn [exec] in X. exfalso. revert X. assert (cond cc (fl (after s n)) <> None); [|destruct (cond _ _) as [[]|]; congruence].
      clear -Hcc N1 N2. assert (In cc (zrange 0 16)) by (apply in_zrange; lia). cbn in H.
      repeat (destruct H as [<-|H]; [try discriminate; lia|]). contradiction. }
  destruct (step_plain W s _ n t HW M D) as (s' & E & A & _).
  { cbn [plain]. lia. }
  { exact X. }
  exists s'. split; [exact E|]. intro u. rewrite A. exact X.
Qed.

(** ** whole executions *)
(** sim86.c:763-1230: the main loop, [n] iterations none of which reports to the outside *)
Fixpoint sim_steps (W : Z) (n : nat) (s : sim) : outcome sim :=
  match n with
  | O => Ok s
  | S n => do r <- sim_step W 4 s;
           match r with (ENone, s') => sim_steps W n s' | _ => Fatal end
  end.
(** [n] instructions of the variant of the 8086 the simulator implements, each accepted and,
    when [trim] is set, none needing trimmed registers *)
Fixpoint var_steps (trim : bool) (n : nat) (s : state) : option state :=
  match n with
  | O => Some s
  | S n =>
      match decode (fetch s) with
      | Some (i, l) =>
          if accepts (fetch s) && negb (trim && needs_trim i)
          then match sim_exec i (set_ip s (ip s + l)) with
               | Some s' => var_steps trim n s' | None => None end
          else None
      | None => None
      end
  end.

Lemma run16 n : forall s t, mem_ok (smem s) -> int16_regs (reg s) -> var_steps false n (abs s) = Some t ->
  exists s', sim_steps 16 n s = Ok s' /\ abs s' = t /\ mem_ok (smem s') /\ int16_regs (reg s').
Proof.
  induction n as [|n IH]; intros s t M R X; cbn [var_steps sim_steps] in *.
  { injection X as <-. eauto. }
  destruct (decode (fetch (abs s))) as [[i l]|] eqn:D; [|discriminate].
  destruct (accepts (fetch (abs s))) eqn:A; [|discriminate]. cbn [andb negb] in X.
  destruct (sim_exec i _) as [s1|] eqn:E; [|discriminate].
  destruct (sim_step_ok 16 s i l s1 ltac:(lia) M D A (or_introl (conj eq_refl R)) E) as (s' & F & Q & M').
  rewrite F. cbn [obind]. apply IH; auto.
  - eapply int16_regs_step; eauto.
  - now rewrite Q.
Qed.
Lemma runW W n : 16 <= W -> forall s t, mem_ok (smem s) -> var_steps true n (abs s) = Some t ->
  exists s', sim_steps W n s = Ok s' /\ abs s' = t /\ mem_ok (smem s').
Proof.
  intro HW. induction n as [|n IH]; intros s t M X; cbn [var_steps sim_steps] in *.
  { injection X as <-. eauto. }
  destruct (decode (fetch (abs s))) as [[i l]|] eqn:D; [|discriminate].
  destruct (accepts (fetch (abs s))) eqn:A; [|discriminate]. cbn [andb negb] in X.
  destruct (needs_trim i) eqn:T; [discriminate|]. cbn [negb] in X.
  destruct (sim_exec i _) as [s1|] eqn:E; [|discriminate].
  destruct (sim_step_ok W s i l s1 HW M D A (or_intror T) E) as (s' & F & Q & M').
  rewrite F. cbn [obind]. apply IH; auto. now rewrite Q.
Qed.

(** ** where the variant has the 8086's data effects *)
(** conditions on an instruction in a state under which [sim_exec] changes
    registers, memory and instruction pointer exactly as the 8086 does *)
Definition data_ok (i : instr) (s : state) : bool :=
  match i with
  | IPush (Reg 4) => false
  | ICallInd (Mem _ _ _) => false
  | ICallInd (Reg 4) => false
  | IMulDiv (MUL | IMUL) _ _ => false
  | IShift _ w _ bycl => w && (negb bycl || (rget8 (rg s) 1 <? 16))
  | IMulDiv DIV w _ => w && (dx (rg s) =? 0)
  | IMulDiv IDIV w _ => w && (dx (rg s) =? (if signed true (ax (rg s)) <? 0 then 65535 else 0))
  | _ => true
  end.
Lemma data_ok_exec u i s t t' : wf s -> data_ok i s = true -> exec u i s = Some t -> sim_exec i s = Some t' -> same_data t t'.
Proof.
  intros Wf H X Y. destruct i; cbn [data_ok] in H;
    try (cbn [sim_exec] in Y; rewrite (exec_undef u0 u) in Y by exact I; rewrite X in Y; injection Y as <-; apply same_data_refl).
  - cbn [exec sim_exec] in *. unfold sim_alu in Y. destruct (alu op w _ _ _) as [r g]. destruct w; injection X as <-; injection Y as <-; repeat split.
  - cbn [exec sim_exec] in *. injection X as <-; injection Y as <-; repeat split.
  - cbn [exec sim_exec] in *. injection X as <-; injection Y as <-; repeat split.
  - cbn [exec sim_exec] in *. injection X as <-; injection Y as <-; repeat split.
  - (* push *)
    assert (E : sim_exec (IPush s0) s = exec u (IPush s0) s).
    { destruct s0 as [r| |]; try reflexivity. destruct r as [|p|p]; try reflexivity. do 3 (try destruct p as [p|p|]; try reflexivity). discriminate H. }
    rewrite E, X in Y. injection Y as <-. apply same_data_refl.
  - (* call *)
    cbn [exec sim_exec] in *. injection X as <-. injection Y as <-.
    destruct s0 as [r| |v]; [|discriminate|repeat split].
    destruct r as [|p|p]; [repeat split| |repeat split].
    do 3 (try destruct p as [p|p|]); try discriminate H; repeat split.
  - (* shift *)
    cbn [exec sim_exec] in *. apply andb_true_iff in H. destruct H as [-> H].
    assert (En : (if bycl then rget8 (rg s) 1 mod 16 else 1) = (if bycl then rget8 (rg s) 1 else 1)).
    { destruct bycl; [|reflexivity]. cbn [negb orb] in H. apply Z.mod_small. split; [|lia].
      destruct Wf as (Rk & _). unfold rget8. destruct Rk as (? & ? & ?). unfold is16 in *. cbn. lia. }
    rewrite En in Y. set (m := if bycl then rget8 (rg s) 1 else 1) in *. clearbody m.
    assert (E : fst (shift k true (get_op s true d) m (fl s) u) = fst (shift k true (get_op s true d) m (fl s) u0))
      by (unfold shift; destruct (m =? 0); [reflexivity|destruct k; reflexivity]).
    destruct (shift k true _ m (fl s) u) as [r g]. destruct (shift k true _ m (fl s) u0) as [r' g'].
    cbn [fst] in E. subst r'. injection X as <-. injection Y as <-. repeat split.
  - (* mul, div *)
    destruct k; try discriminate; apply andb_true_iff in H; destruct H as [-> H]; cbn [exec sim_exec muldiv] in *.
    + destruct (get_op s true s0 =? 0) eqn:V; [discriminate|]. cbn [orb] in Y. rewrite H in Y. cbn [negb] in Y.
      apply Z.eqb_eq in H. rewrite H in X. rewrite Z.mul_0_l, Z.add_0_l in X.
      destruct (modulus true <=? _); [discriminate|]. injection X as <-. injection Y as <-.
      repeat split. 
    + destruct (signed true (get_op s true s0) =? 0) eqn:V; [discriminate|]. cbn [orb] in Y.
      rewrite H in Y. cbn [negb] in Y. rewrite orb_false_r in Y.
      apply Z.eqb_eq in H. rewrite H in X.
      assert (En : signed true (if signed true (ax (rg s)) <? 0 then 65535 else 0) * 65536 + ax (rg s) = signed true (ax (rg s))).
      { unfold signed, half, modulus. destruct Wf as (Rk & _). destruct Rk as (Ra & _). unfold is16 in Ra.
        destruct (Z.ltb_spec (ax (rg s)) 32768).
        - rewrite (proj2 (Z.ltb_ge _ 0)) by lia. cbn. lia.
        - rewrite (proj2 (Z.ltb_lt (ax (rg s) - 65536) 0)) by lia. cbv [Z.ltb Z.compare Pos.compare Pos.compare_cont]. lia. }
      rewrite En in X. destruct ((_ <=? _) || _); [discriminate|].
      destruct ((signed true (ax (rg s)) =? -32768) && _); [discriminate|].
      injection X as <-. injection Y as <-. repeat split.
  - (* strings *)
    destruct k, rp; cbn [sim_exec] in Y;
      try (rewrite (exec_undef u0 u) in Y by exact I; rewrite X in Y; injection Y as <-; apply same_data_refl);
      cbn [exec] in X.
    + destruct (cx (rg s) =? 0) eqn:C.
      * apply Z.eqb_eq in C. rewrite C in X. injection X as <-. injection Y as <-. repeat split.
      * injection X as <-. injection Y as <-. repeat split.
    + destruct (cx (rg s) =? 0) eqn:C.
      * apply Z.eqb_eq in C. rewrite C in X. injection X as <-. injection Y as <-. repeat split.
      * injection X as <-. injection Y as <-. repeat split.
Qed.

(** ** C03: what the conditions mean after a comparison *)
Definition s16v (x : Z) : Z := if x <? 32768 then x else x - 65536.  (* signed value of a 16-bit word *)
Lemma cmp_cond a b f : 0 <= a < 65536 -> 0 <= b < 65536 ->
  let g := snd (alu CMP true a b f) in
  cond 2 g = Some (a <? b) /\ cond 3 g = Some (b <=? a) /\
  cond 4 g = Some (a =? b) /\ cond 5 g = Some (negb (a =? b)) /\
  cond 6 g = Some (a <=? b) /\ cond 7 g = Some (b <? a) /\
  cond 12 g = Some (s16v a <? s16v b) /\ cond 13 g = Some (s16v b <=? s16v a) /\
  cond 14 g = Some (s16v a <=? s16v b) /\ cond 15 g = Some (s16v b <? s16v a).
Proof.
  intros Ha Hb. cbv zeta. cbn [alu snd]. unfold sub_flags, flags_of, cond. cbn [fC fZ fS fO].
  unfold in_signed, signed, trunc, half, modulus, s16v.
  rewrite !Z.sub_0_r, !Z.add_0_r.
  assert (E : (a - b) mod 65536 = if a <? b then a - b + 65536 else a - b).
  { destruct (Z.ltb_spec a b); [rewrite <- (Z.mod_add _ 1) by lia; apply Z.mod_small; lia|apply Z.mod_small; lia]. }
  rewrite E. clear E.
  destruct (Z.ltb_spec a b), (Z.ltb_spec a 32768), (Z.ltb_spec b 32768);
    repeat split; f_equal;
    repeat match goal with
           | |- context [?x <? ?y] => destruct (Z.ltb_spec x y)
           | |- context [?x <=? ?y] => destruct (Z.leb_spec x y)
           | |- context [?x =? ?y] => destruct (Z.eqb_spec x y)
           end; try reflexivity; exfalso; lia.
Qed.

Lemma parity_fatal W s : 16 <= W -> mem_ok (smem s) -> fetch (abs s) 0 = 122 \/ fetch (abs s) 0 = 123 ->
  sim_step W 4 s = Fatal.
Proof.
  intros HW M H. unfold sim_step. rewrite restart_body. unfold ReadIByte.
  assert (E : Read8 (begin_instr s) 1 (sip (begin_instr s)) = fetch (abs s) 0).
  { rewrite Read8_ok by exact M. unfold fetch. cbn [abs begin_instr mem sg cs abss smem sreg sip sget]. apply rd8_cong.
    unfold u16. cbn [ip abs Z.add]. unfold u16. lia. }
  rewrite E. generalize (restart W 3). destruct H as [-> | ->]; reflexivity.
Qed.

(** ** C04 *)
Lemma rget8_rset8 r i j v : 0 <= i < 8 -> 0 <= j < 8 -> 0 <= v < 256 -> (forall k, 0 <= rget r k) ->
  rget8 (rset8 r i v) j = if i =? j then v else rget8 r j.
Proof.
  intros Hi Hj Hv Hr. unfold rget8, rset8.
  destruct (Z.ltb_spec i 4), (Z.ltb_spec j 4), (Z.eqb_spec i j); try lia.
  - subst j. rewrite rget_rset_same by lia. lia.
  - rewrite rget_rset_other by lia. reflexivity.
  - destruct (Z.eq_dec (j - 4) i) as [<-|].
    + rewrite rget_rset_same by lia. specialize (Hr (j - 4)). lia.
    + rewrite rget_rset_other by lia. reflexivity.
  - destruct (Z.eq_dec (i - 4) j) as [<-|].
    + rewrite rget_rset_same by lia. lia.
    + rewrite rget_rset_other by lia. reflexivity.
  - subst j. rewrite rget_rset_same by lia. specialize (Hr (i - 4)). lia.
  - rewrite rget_rset_other by lia. reflexivity.
Qed.
Lemma rget_rset8 r i j v : 0 <= i < 8 -> 0 <= j < 8 -> (if i <? 4 then i else i - 4) <> j -> rget (rset8 r i v) j = rget r j.
Proof. intros Hi Hj N. unfold rset8. destruct (Z.ltb_spec i 4); rewrite rget_rset_other by lia; reflexivity. Qed.

Lemma reg8_write W s r v : 16 <= W -> dsize s = 0 -> 0 <= r < 8 ->
  let s' := WriteReg W s r v in
  (forall j, 0 <= j < 8 -> rget8 (rg (abs s')) j = if r =? j then v mod 256 else rget8 (rg (abs s)) j) /\
  (forall j, 0 <= j < 8 -> (if r <? 4 then r else r - 4) <> j -> rget (rg (abs s')) j = rget (rg (abs s)) j) /\
  ReadReg s' r mod 256 = v mod 256 /\
  sg (abs s') = sg (abs s) /\ ip (abs s') = ip (abs s) /\ fl (abs s') = fl (abs s) /\ mem (abs s') = mem (abs s).
Proof.
  intros HW Hd Hr. cbv zeta.
  assert (Ew : wide s = false) by (unfold wide; rewrite Hd; reflexivity).
  assert (E : rg (abs (WriteReg W s r v)) = rset8 (rg (abs s)) r (u8 v))
    by (rewrite !abs_rg, WriteReg_reg, Ew by assumption; reflexivity).
  assert (G : forall j, 0 <= j < 8 -> rget8 (rg (abs (WriteReg W s r v))) j = if r =? j then v mod 256 else rget8 (rg (abs s)) j).
  { intros j Hj. rewrite E. apply rget8_rset8; auto; [apply u8_range|].
    intro k. rewrite abs_rg, rget_absr. apply u16_range. }
  split; [exact G|]. split; [intros j Hj N; rewrite E; now apply rget_rset8|].
  split.
  - assert (Hw : wide (WriteReg W s r v) = false) by (rewrite WriteReg_eq; exact Ew).
    pose proof (ReadReg_ok (WriteReg W s r v) r Hr) as R. rewrite Hw in R.
    specialize (G r Hr). rewrite Z.eqb_refl in G. rewrite abs_rg in G. unfold trunc, modulus in R. unfold get_op in R. rewrite ?abs_rg in R. rewrite G in R. exact R.
  - rewrite WriteReg_eq. repeat split.
Qed.
Lemma reg16_write W s r v : 16 <= W -> dsize s <> 0 -> 0 <= r < 8 ->
  let s' := WriteReg W s r v in
  (forall j, 0 <= j < 8 -> rget (rg (abs s')) j = if r =? j then v mod 65536 else rget (rg (abs s)) j) /\
  ReadReg s' r mod 65536 = v mod 65536 /\
  sg (abs s') = sg (abs s) /\ ip (abs s') = ip (abs s) /\ fl (abs s') = fl (abs s) /\ mem (abs s') = mem (abs s).
Proof.
  intros HW Hd Hr. cbv zeta.
  assert (Ew : wide s = true) by (unfold wide; lia).
  assert (E : rg (abs (WriteReg W s r v)) = rset (rg (abs s)) r (u16 v))
    by (rewrite !abs_rg, WriteReg_reg, Ew by assumption; reflexivity).
  assert (G : forall j, 0 <= j < 8 -> rget (rg (abs (WriteReg W s r v))) j = if r =? j then v mod 65536 else rget (rg (abs s)) j).
  { intros j Hj. rewrite E. destruct (Z.eqb_spec r j) as [<-|N]; [now rewrite rget_rset_same|now rewrite rget_rset_other]. }
  split; [exact G|]. split.
  - assert (Hw : wide (WriteReg W s r v) = true) by (rewrite WriteReg_eq; exact Ew).
    pose proof (ReadReg_ok (WriteReg W s r v) r Hr) as R. rewrite Hw in R.
    specialize (G r Hr). rewrite Z.eqb_refl in G. rewrite abs_rg in G. unfold trunc, modulus in R. unfold get_op in R. rewrite ?abs_rg in R. rewrite G in R. exact R.
  - rewrite WriteReg_eq. repeat split.
Qed.

(** ** C05 *)
Lemma MAKEADDR_range s sr off : 0 <= MAKEADDR s sr off < 1048576.
Proof. unfold MAKEADDR. rewrite land_1048575. apply Z.mod_pos_bound. lia. Qed.
Lemma phys_succ seg off : phys seg off <> phys seg (off + 1).
Proof.
  unfold phys.
  assert (0 <= off mod 65536 < 65536) by (apply Z.mod_pos_bound; lia).
  assert ((off + 1) mod 65536 = if off mod 65536 =? 65535 then 0 else off mod 65536 + 1) as ->
    by (destruct (Z.eqb_spec (off mod 65536) 65535); lia).
  destruct (Z.eqb_spec (off mod 65536) 65535); lia.
Qed.
Lemma rd16_wr16 m seg off v : 0 <= v < 65536 -> rd16 (wr16 m seg off v) seg off = v.
Proof.
  intro Hv. unfold rd16, wr16, rd8, wr8. rewrite aget_aset_other by (apply not_eq_sym, phys_succ).
  rewrite !aget_aset_same. lia.
Qed.
Lemma mem16_rw W s sr off v : 16 <= W -> mem_ok (smem s) ->
  let s' := Write16 W s sr off v in
  Read16 W s' sr off mod 65536 = v mod 65536 /\
  (forall a, a <> phys (sget (sg (abs s)) sr) off -> a <> phys (sget (sg (abs s)) sr) (off + 1) -> aget (smem s') a = aget (smem s) a) /\
  aget (smem s') (phys (sget (sg (abs s)) sr) off) = v mod 256 /\
  aget (smem s') (phys (sget (sg (abs s)) sr) (off + 1)) = v / 256 mod 256 /\
  reg s' = reg s /\ sreg s' = sreg s /\ sip s' = sip s /\ sflags s' = sflags s.
Proof.
  intros HW M. cbv zeta. rewrite abs_sg, sget_abss.
  split.
  - change (u16 (Read16 W (Write16 W s sr off v) sr off) = u16 v). rewrite Read16_ok; [|exact HW|].
    + cbn [sreg Write16 Write8 set_mem_]. rewrite smem_Write16 by exact HW. apply rd16_wr16, u16_range.
    + rewrite smem_Write16 by exact HW. apply mem_ok_wr16, M.
  - rewrite smem_Write16 by exact HW. unfold wr16, wr8. split; [|split; [|split]].
    + intros a N1 N2. rewrite !aget_aset_other by auto. reflexivity.
    + rewrite aget_aset_other by (apply not_eq_sym, phys_succ). rewrite aget_aset_same. unfold u16. lia.
    + rewrite aget_aset_same. unfold u16. lia.
    + repeat split.
Qed.
Lemma mem8_rw s sr off v : mem_ok (smem s) ->
  let s' := Write8 s sr off v in
  Read8 s' sr off = v mod 256 /\ 0 <= Read8 s sr off < 256 /\
  (forall a, a <> phys (sget (sg (abs s)) sr) off -> aget (smem s') a = aget (smem s) a).
Proof.
  intro M. cbv zeta. rewrite abs_sg, sget_abss. split; [|split].
  - rewrite Read8_ok by (rewrite smem_Write8; apply mem_ok_wr8, M). rewrite smem_Write8. unfold rd8, wr8.
    cbn [sreg Write8 set_mem_]. apply aget_aset_same.
  - rewrite Read8_ok by exact M. apply M.
  - intros a N. rewrite smem_Write8. unfold wr8. now rewrite aget_aset_other by auto.
Qed.

(** ** C09 *)
Lemma push_pop W s v : 16 <= W -> mem_ok (smem s) ->
  let '(x, s') := DoPop W (DoPush W s v) in
  x mod 65536 = v mod 65536 /\ sg (abs s') = sg (abs s) /\ rg (abs s') = rg (abs s) /\
  ip (abs s') = ip (abs s) /\ fl (abs s') = fl (abs s) /\
  (forall a, a <> phys (ss (sg (abs s))) (sp (rg (abs s)) - 2) -> a <> phys (ss (sg (abs s))) (sp (rg (abs s)) - 1) ->
     aget (smem s') a = aget (smem s) a).
Proof.
  intros HW M. destruct (DoPop W (DoPush W s v)) as [x s'] eqn:E.
  destruct (DoPush_ok W HW (fun _ => 0) s v M) as (A & M1 & Hip & _ & Sr).
  destruct (DoPop_ok W HW (fun _ => 0) _ x s' M1 E) as (B & Mm & Ss & _).
  rewrite A in B. unfold pop, push in B. apply pair_equal_spec in B. destruct B as [Bx Bs].
  change (x mod 65536) with (u16 x). rewrite Bx. cbn [mem set_mem set_reg set_rg rg sg rset sp].
  split; [rewrite rd16_wr16 by apply u16_range; reflexivity|].
  rewrite Bs. cbn [mem set_mem set_reg set_rg rg sg rset sp fl ip]. split; [reflexivity|].
  assert (Hs : is16 (sp (rg (abs s)))) by apply u16_range. unfold is16 in Hs.
  split; [|split; [reflexivity|split; [reflexivity|]]].
  - replace (((sp (rg (abs s)) - 2) mod 65536 + 2) mod 65536) with (sp (rg (abs s))) by lia. now destruct (rg (abs s)).
  - intros a N1 N2. replace (aget (smem s') a) with (aget (mem (abs s')) a) by reflexivity.
    rewrite Bs. cbn [mem set_mem set_reg set_rg]. unfold wr16, wr8.
    assert (P1 : phys (ss (sg (abs s))) ((sp (rg (abs s)) - 2) mod 65536) = phys (ss (sg (abs s))) (sp (rg (abs s)) - 2)) by apply phys_u16.
    assert (P2 : phys (ss (sg (abs s))) ((sp (rg (abs s)) - 2) mod 65536 + 1) = phys (ss (sg (abs s))) (sp (rg (abs s)) - 1))
      by (unfold phys; f_equal; lia).
    rewrite P1, P2, !aget_aset_other by auto. reflexivity.
Qed.

Lemma wf_abs s : mem_ok (smem s) -> wf (abs s).
Proof. intro M. repeat split; try apply u16_range; apply M. Qed.

(** ** C06 *)
Lemma modrm_ea W s : 16 <= W -> mem_ok (smem s) ->
  let f := fetch (abs s) in
  f 0 < 192 ->
  exists s' m d n, dec_modrm f None 0 = (Mem None m d, f 0 / 8 mod 8, n) /\
    ModRM W (begin_instr s) = Ok s' /\ addr s' mod 65536 = ea_off (rg (abs s)) m d /\ seg s' = mode_seg m /\
    sip s' mod 65536 = (sip s + n) mod 65536.
Proof.
  intros HW M. cbv zeta. intro Hf. pose proof (fetch_byte (abs s) 0 M) as B.
  assert (V : view (fetch (abs s)) 0 (begin_instr s)).
  { intro j. unfold fetch. cbn [abs begin_instr mem sg cs abss smem sreg sip]. apply rd8_cong. unfold u16. cbn [ip abs Z.add]. unfold u16. lia. }
  pose proof (ModRM_ok W HW (fetch (abs s)) 0 (begin_instr s) None V M eq_refl eq_refl eq_refl I) as H.
  destruct (dec_modrm (fetch (abs s)) None 0) as [[o r] n] eqn:D.
  pose proof (dec_modrm_reg _ _ _ _ _ _ D) as Hr.
  destruct H as (s' & E & F & _ & Hip & _ & _ & Rel & Em).
  assert (exists m d, o = Mem None m d) as (m & d & ->).
  { unfold dec_modrm in D. assert (fetch (abs s) 0 / 64 <> 3) as N by lia. apply Z.eqb_neq in N. rewrite N in D.
    destruct (_ =? 0); [destruct (_ =? 6)|destruct (_ =? 1)]; injection D as <- <- <-; eauto. }
  exists s', m, d, n. subst r. split; [reflexivity|]. split; [exact E|].
  destruct F as (Fr & _). destruct Rel as (_ & _ & R1 & _ & R2). unfold segsel in R1.
  rewrite Fr in R2.
  split; [exact R2|]. split; [exact R1|].
  replace (n - 0) with n in Hip by lia. exact Hip.
Qed.

Lemma step16 s i n t : mem_ok (smem s) -> int16_regs (reg s) ->
  decode (fetch (abs s)) = Some (i, n) -> accepts (fetch (abs s)) = true ->
  sim_exec i (after s n) = Some t ->
  exists s', sim_step 16 4 s = Ok (ENone, s') /\ abs s' = t /\ mem_ok (smem s') /\ int16_regs (reg s').
Proof.
  intros M R D A X.
  destruct (sim_step_ok 16 s i n t ltac:(lia) M D A (or_introl (conj eq_refl R)) X) as (s' & E & Q & M').
  exists s'. split; [exact E|]. split; [exact Q|]. split; [exact M'|]. eapply int16_regs_step; eauto.
Qed.
Lemma faithful_any u i s : faithful i = true -> sim_exec i s = exec u i s.
Proof.
  intro H. rewrite faithful_exec by exact H. apply exec_undef.
  destruct i; try exact I; discriminate.
Qed.
Lemma two_builds W1 W2 s1 s2 i n t : 16 <= W1 -> 16 <= W2 -> mem_ok (smem s1) -> abs s1 = abs s2 ->
  decode (fetch (abs s1)) = Some (i, n) -> accepts (fetch (abs s1)) = true -> needs_trim i = false ->
  sim_exec i (after s1 n) = Some t ->
  exists s1' s2', sim_step W1 4 s1 = Ok (ENone, s1') /\ sim_step W2 4 s2 = Ok (ENone, s2') /\
    abs s1' = t /\ abs s2' = t.
Proof.
  intros H1 H2 M1 E D A T X.
  assert (M2 : mem_ok (smem s2)) by (change (mem_ok (mem (abs s2))); rewrite <- E; exact M1).
  destruct (sim_step_ok W1 s1 i n t H1 M1 D A (or_intror T) X) as (s1' & E1 & Q1 & _).
  unfold after in X. rewrite E in D, A, X.
  destruct (sim_step_ok W2 s2 i n t H2 M2 D A (or_intror T) X) as (s2' & E2 & Q2 & _). eauto 8.
Qed.
Lemma two_runs W1 W2 n s1 s2 t : 16 <= W1 -> 16 <= W2 -> mem_ok (smem s1) -> abs s1 = abs s2 ->
  var_steps true n (abs s1) = Some t ->
  exists s1' s2', sim_steps W1 n s1 = Ok s1' /\ sim_steps W2 n s2 = Ok s2' /\ abs s1' = t /\ abs s2' = t.
Proof.
  intros H1 H2 M1 E X.
  assert (M2 : mem_ok (smem s2)) by (change (mem_ok (mem (abs s2))); rewrite <- E; exact M1).
  destruct (runW W1 n H1 s1 t M1 X) as (s1' & E1 & Q1 & _). rewrite E in X.
  destruct (runW W2 n H2 s2 t M2 X) as (s2' & E2 & Q2 & _). eauto 8.
Qed.
