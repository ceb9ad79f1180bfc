(** Constant folding, constant conditions, and the truth value of an arithmetic result. *)
From Verif Require Import Base Bits Spec8086 SccRun SccState SccEmit SccLex SccDecl SccExpr SccInput SccPut SccArith SccOps.

(** ** Constant folding (scc.c:2258-2273) *)
(** the mathematical result of a C operator on two integers; bitwise operators act on
    two's complement bits, >> of a negative number rounds down (it is
    implementation-defined, and arithmetic on every host the project supports) *)
Inductive cresult : binop -> Z -> Z -> Z -> Prop :=
| r_add l r : cresult Add l r (l + r)
| r_sub l r : cresult Sub l r (l - r)
| r_mul l r : cresult Mul l r (l * r)
| r_div l r : r <> 0 -> cresult Div l r (Z.quot l r)
| r_mod l r q m : r <> 0 -> l = q * r + m -> Z.abs m < Z.abs r -> 0 <= m * l -> cresult Mod l r m
| r_and l r v : (forall i, 0 <= i -> Z.testbit v i = (Z.testbit l i && Z.testbit r i)%bool) -> cresult And l r v
| r_or l r v : (forall i, 0 <= i -> Z.testbit v i = (Z.testbit l i || Z.testbit r i)%bool) -> cresult Or l r v
| r_xor l r v : (forall i, 0 <= i -> Z.testbit v i = xorb (Z.testbit l i) (Z.testbit r i)) -> cresult Xor l r v
| r_shl l r : 0 <= r -> cresult Shl l r (l * 2 ^ r)
| r_shr l r : 0 <= r -> cresult Shr l r (l / 2 ^ r).

(** the int type of W bits *)
Definition is_int (W x : Z) : Prop := - 2 ^ (W - 1) <= x < 2 ^ (W - 1).
(** the inputs on which C gives the operator no value at all *)
Definition no_value (W : Z) (op : binop) (l r : Z) : Prop :=
  match op with
  | Div | Mod => r = 0 \/ (l = - 2 ^ (W - 1) /\ r = -1)
  | Shl | Shr => r < 0 \/ W <= r
  | _ => False
  end.

Lemma testbit_ext a b : (forall i, 0 <= i -> Z.testbit a i = Z.testbit b i) -> a = b.
Proof. intro H. apply Z.bits_inj'. exact H. Qed.
Lemma is_int_shift W x : 1 <= W -> is_int W x <-> (Z.shiftr x (W - 1) = 0 \/ Z.shiftr x (W - 1) = -1).
Proof.
  intro HW. unfold is_int. rewrite Z.shiftr_div_pow2 by lia. set (p := 2 ^ (W - 1)). assert (P : 0 < p) by (apply Z.pow_pos_nonneg; lia).
  pose proof (Z.div_mod x p). pose proof (Z.mod_pos_bound x p P). split.
  - intros R. assert (-1 <= x / p) by (apply Z.div_le_lower_bound; lia). assert (x / p < 1) by (apply Z.div_lt_upper_bound; lia). lia.
  - intros [E|E]; rewrite E in *; lia.
Qed.
Lemma is_int_bitop W f x y : 1 <= W -> (forall a b n, Z.shiftr (f a b) n = f (Z.shiftr a n) (Z.shiftr b n)) ->
  (forall a b, a = 0 \/ a = -1 -> b = 0 \/ b = -1 -> f a b = 0 \/ f a b = -1) ->
  is_int W x -> is_int W y -> is_int W (f x y).
Proof. intros HW D C. rewrite !is_int_shift by exact HW. rewrite D. auto. Qed.
Lemma is_int_land W x y : 1 <= W -> is_int W x -> is_int W y -> is_int W (Z.land x y).
Proof. intro HW. apply is_int_bitop; [exact HW|apply Z.shiftr_land|]. intros a b [->| ->] [->| ->]; cbn; auto. Qed.
Lemma is_int_lor W x y : 1 <= W -> is_int W x -> is_int W y -> is_int W (Z.lor x y).
Proof. intro HW. apply is_int_bitop; [exact HW|apply Z.shiftr_lor|]. intros a b [->| ->] [->| ->]; cbn; auto. Qed.
Lemma is_int_lxor W x y : 1 <= W -> is_int W x -> is_int W y -> is_int W (Z.lxor x y).
Proof. intro HW. apply is_int_bitop; [exact HW|apply Z.shiftr_lxor|]. intros a b [->| ->] [->| ->]; cbn; auto. Qed.
Lemma is_int_ci W x : 1 <= W -> is_int W (ci W x).
Proof.
  intro HW. unfold is_int, ci, ws. assert (E : 2 ^ W = 2 * 2 ^ (W - 1)) by (rewrite <- Z.pow_succ_r by lia; f_equal; lia).
  assert (P : 0 < 2 ^ (W - 1)) by (apply Z.pow_pos_nonneg; lia).
  rewrite E. set (p := 2 ^ (W - 1)) in *. pose proof (Z.mod_pos_bound x (2 * p)). cbv zeta.
  destruct (Z.ltb_spec (x mod (2 * p)) p); lia.
Qed.

Section W.
Variable W : Z.
Hypothesis HW : 16 <= W.

Lemma quot_int l r : is_int W l -> r <> 0 -> ~ (l = - 2 ^ (W - 1) /\ r = -1) -> is_int W (Z.quot l r).
Proof.
  unfold is_int. intros L N X. assert (P : 0 < 2 ^ (W - 1)) by (apply Z.pow_pos_nonneg; lia). set (p := 2 ^ (W - 1)) in *. clearbody p.
  assert (AQ : Z.abs (Z.quot l r) <= Z.abs l).
  { rewrite <- Z.quot_abs by lia. rewrite Z.quot_div_nonneg by lia. apply Z.div_le_upper_bound; nia. }
  destruct (Z.eq_dec l (- p)) as [->|NL]; [|lia]. rewrite Z.quot_opp_l by lia.
  destruct (Z_lt_ge_dec r 0) as [RN|RP].
  - assert (r < -1) by lia. replace r with (- - r) by lia. rewrite Z.quot_opp_r by lia. rewrite Z.quot_div_nonneg by lia.
    assert (p / - r < p) by (apply Z.div_lt; lia). assert (0 <= p / - r) by (apply Z.div_pos; lia). lia.
  - rewrite Z.quot_div_nonneg by lia. assert (p / r <= p) by (apply Z.div_le_upper_bound; nia). assert (0 <= p / r) by (apply Z.div_pos; lia). lia.
Qed.
Lemma rem_unique l r q m : r <> 0 -> l = q * r + m -> Z.abs m < Z.abs r -> 0 <= m * l -> m = Z.rem l r.
Proof.
  intros N E A S. destruct (Z.eq_dec l 0) as [->|NL].
  { rewrite Z.rem_0_l by exact N. destruct (Z.eq_dec q 0) as [->|NQ]; [lia|exfalso].
    assert (AB : Z.abs m = Z.abs q * Z.abs r) by (rewrite <- Z.abs_mul; lia).
    assert (GE : 1 * Z.abs r <= Z.abs q * Z.abs r) by (apply Z.mul_le_mono_nonneg_r; lia). lia. }
  pose proof (Z.quot_rem' l r) as Q. pose proof (Z.rem_bound_abs l r N) as B. pose proof (Z.rem_sign_mul l r N) as SG.
  set (q' := Z.quot l r) in *. set (m' := Z.rem l r) in *. clearbody q' m'.
  assert (D : (q - q') * r = m' - m) by lia.
  destruct (Z.eq_dec q q') as [->|NQ]; [lia|exfalso].
  assert (AB : Z.abs (m' - m) = Z.abs (q - q') * Z.abs r) by (rewrite <- D; apply Z.abs_mul).
  assert (GE : 1 * Z.abs r <= Z.abs (q - q') * Z.abs r) by (apply Z.mul_le_mono_nonneg_r; lia).
  assert (SM : forall z, 0 <= z * l -> (0 < l -> 0 <= z) /\ (l < 0 -> z <= 0)).
  { clear. intros z H. split; intro L; destruct (Z_lt_ge_dec z 0), (Z_lt_ge_dec 0 z); try lia. }
  pose proof (SM _ S) as S1. pose proof (SM _ SG) as S2. clear SM S SG D Q.
  lia.
Qed.
Lemma fold_results op l r : is_int W l -> is_int W r ->
  match DoConstBinOp W (bintok op) l r with
  | Ok v => is_int W v /\ (forall v', cresult op l r v' -> is_int W v' -> v' = v)
  | UB => no_value W op l r
  | _ => False
  end.
Proof.
  intros L R. unfold DoConstBinOp.
  destruct op; cbn [bintok].
  - split; [apply is_int_ci; lia|]. intros v' C V. inversion C; subst. symmetry. apply ci_small; [lia|exact V].
  - split; [apply is_int_ci; lia|]. intros v' C V. inversion C; subst. symmetry. apply ci_small; [lia|exact V].
  - split; [apply is_int_land; auto; lia|]. intros v' C V. inversion C; subst. apply testbit_ext. intros. rewrite Z.land_spec. auto.
  - split; [apply is_int_lor; auto; lia|]. intros v' C V. inversion C; subst. apply testbit_ext. intros. rewrite Z.lor_spec. auto.
  - split; [apply is_int_lxor; auto; lia|]. intros v' C V. inversion C; subst. apply testbit_ext. intros. rewrite Z.lxor_spec. auto.
  - split; [apply is_int_ci; lia|]. intros v' C V. inversion C; subst. symmetry. apply ci_small; [lia|exact V].
  - change (ch_slash =? ch_plus) with false. change (ch_slash =? ch_minus) with false. change (ch_slash =? ch_star) with false.
    change (ch_slash =? ch_slash) with true. cbv iota.
    destruct (Z.eqb_spec r 0) as [->|N]; cbn [orb]; [left; reflexivity|].
    destruct (Z.eqb_spec r (-1)) as [->|N1]; cbn [andb].
    + destruct (Z.eqb_spec l (- 2 ^ (W - 1))) as [->|NL]; [right; split; reflexivity|].
      split; [apply quot_int; auto; tauto|]. intros v' C V. inversion C; subst. reflexivity.
    + split; [apply quot_int; auto; tauto|]. intros v' C V. inversion C; subst. reflexivity.
  - change (ch_percent =? ch_plus) with false. change (ch_percent =? ch_minus) with false. change (ch_percent =? ch_star) with false.
    change (ch_percent =? ch_slash) with false. change (ch_percent =? ch_percent) with true. cbv iota.
    assert (RI : r <> 0 -> is_int W (Z.rem l r)).
    { intro N. pose proof (Z.rem_bound_abs l r N). unfold is_int in *. lia. }
    destruct (Z.eqb_spec r 0) as [->|N]; cbn [orb]; [left; reflexivity|].
    assert (RU : forall v', cresult Mod l r v' -> v' = Z.rem l r).
    { intros v' C. inversion C; subst. eapply rem_unique; eauto. }
    destruct (Z.eqb_spec r (-1)) as [->|N1]; cbn [andb].
    + destruct (Z.eqb_spec l (- 2 ^ (W - 1))) as [->|NL]; [right; split; reflexivity|]. auto.
    + auto.
  - change (TOK_LSH =? ch_plus) with false. change (TOK_LSH =? ch_minus) with false. change (TOK_LSH =? ch_star) with false.
    change (TOK_LSH =? ch_slash) with false. change (TOK_LSH =? ch_percent) with false. change (TOK_LSH =? ch_amp) with false.
    change (TOK_LSH =? ch_caret) with false. change (TOK_LSH =? ch_bar) with false. change (TOK_LSH =? TOK_LSH) with true. cbv iota.
    destruct (Z.ltb_spec r 0); cbn [orb]; [left; assumption|]. destruct (Z.leb_spec W r); [right; assumption|].
    split; [apply is_int_ci; lia|]. intros v' C V. inversion C; subst. rewrite Z.shiftl_mul_pow2 by assumption. symmetry. apply ci_small; [lia|exact V].
  - change (TOK_RSH =? ch_plus) with false. change (TOK_RSH =? ch_minus) with false. change (TOK_RSH =? ch_star) with false.
    change (TOK_RSH =? ch_slash) with false. change (TOK_RSH =? ch_percent) with false. change (TOK_RSH =? ch_amp) with false.
    change (TOK_RSH =? ch_caret) with false. change (TOK_RSH =? ch_bar) with false. change (TOK_RSH =? TOK_LSH) with false.
    change (TOK_RSH =? TOK_RSH) with true. cbv iota.
    destruct (Z.ltb_spec r 0); cbn [orb]; [left; assumption|]. destruct (Z.leb_spec W r); [right; assumption|].
    rewrite Z.shiftr_div_pow2 by assumption. split.
    + assert (P : 0 < 2 ^ r) by (apply Z.pow_pos_nonneg; lia). unfold is_int in *.
      assert (PW : 0 < 2 ^ (W - 1)) by (apply Z.pow_pos_nonneg; lia). set (p := 2 ^ (W - 1)) in *. set (q := 2 ^ r) in *. clearbody p q.
      split; [apply Z.div_le_lower_bound|apply Z.div_lt_upper_bound]; auto; nia.
    + intros v' C V. inversion C; subst. reflexivity.
Qed.

(** comparisons, logical and assignment operators are not foldable: the compiler stops *)
Lemma fold_rejects Op l r : (forall op, Op <> bintok op) -> DoConstBinOp W Op l r = Fatal.
Proof.
  intros N. unfold DoConstBinOp.
  pose proof (proj2 (Z.eqb_neq _ _) (N Add)) as N1. pose proof (proj2 (Z.eqb_neq _ _) (N Sub)) as N2. pose proof (proj2 (Z.eqb_neq _ _) (N Mul)) as N3.
  pose proof (proj2 (Z.eqb_neq _ _) (N Div)) as N4. pose proof (proj2 (Z.eqb_neq _ _) (N Mod)) as N5. pose proof (proj2 (Z.eqb_neq _ _) (N And)) as N6.
  pose proof (proj2 (Z.eqb_neq _ _) (N Xor)) as N7. pose proof (proj2 (Z.eqb_neq _ _) (N Or)) as N8. pose proof (proj2 (Z.eqb_neq _ _) (N Shl)) as N9.
  pose proof (proj2 (Z.eqb_neq _ _) (N Shr)) as N10. cbn [bintok] in *. rewrite N1, N2, N3, N4, N5, N6, N7, N8, N9, N10.
  reflexivity.
Qed.

(** ** Conditions that are constants (scc.c:2290-2302) *)
(** jumping when false (if, while, for: Forward): the jump is emitted exactly for 0;
    jumping back when true (do-while): nothing is emitted whatever the constant is *)
Lemma const_cond s label fwd s' : CurrentType (em s) = INTLIT -> DoCondHasExpr W label fwd s = Ok (tt, s') ->
  if fwd && (CurrentVal (em s) =? 0) then exists e', EmitJmp W label (em s) = Ok (tt, e') /\ s' = set_em e' s else s' = s.
Proof.
  intros T H. unfold DoCondHasExpr, gete in H. mgoin H. rewrite T in H. change (INTLIT =? INTLIT) with true in H. cbv iota in H. mgoin H.
  destruct (CurrentVal (em s) =? 0), fwd; cbn [andb when] in *.
  - apply inem_inv in H. destruct H as (e & H & ->). eauto.
  - oki H. reflexivity.
  - oki H. reflexivity.
  - oki H. reflexivity.
Qed.

(** ** Truth of an arithmetic result *)
(** the operators that leave the zero flag of their result *)
Definition sets_zf (op : binop) (count : Z) : Prop :=
  match op with Add | Sub | And | Or | Xor => True | Shl | Shr => count <> 0 | _ => False end.

Lemma holds_jnz z s : fZ (fl s) = z -> holds JNZ (negb z) s.
Proof. intros <-. unfold holds, JNZ. cbn [Z.lxor Pos.lxor Z.of_N Pos.pred_N cond]. rewrite negb_involutive. auto. Qed.

Ltac simple_alu r b i C U :=
  rewrite U in C; runop [b; 192 + 8 * r] (IAlu i true (Reg 0) (Reg r)) 2; [intro; reg8 r; reflexivity|].
Ltac fin_zf := apply reach_now; split; [reflexivity|]; apply holds_jnz; reflexivity.

Lemma shcl_zf k r g a f m : regs_ok r -> code m (cs g) a [211; shk_byte k] -> 0 <= a -> a + 2 < 65536 -> 0 < cx r < 16 ->
  reaches (fun t' => ip t' = a + 2 /\ holds JNZ (negb (ax (rg t') =? 0)) t') (mkst r g a f m).
Proof.
  intros RO C A B N. assert (CX : 0 <= cx r < 65536) by apply RO. assert (AX : 0 <= ax r < 65536) by apply RO.
  assert (CL : rget8 r 1 = cx r) by (unfold rget8; cbn [Z.ltb Z.compare Pos.compare Pos.compare_cont rget]; apply Z.mod_small; lia).
  assert (S1 : forall u, exists v f', exec u (IShift k true (Reg 0) true) (mkst r g (a + 2) f m) = Some (mkst (rset r 0 v) g (a + 2) f' m) /\ fZ f' = (v =? 0)).
  { intro u. cbn [exec get_op rg rget]. rewrite CL. unfold shift. rewrite (proj2 (Z.eqb_neq (cx r) 0)) by lia.
    destruct k; eexists _, _; (split; [reflexivity|]); reflexivity. }
  apply (reach_step _ _ (fun u => match exec u (IShift k true (Reg 0) true) (mkst r g (a + 2) f m) with Some s => s | None => mkst r g a f m end)).
  + intro u. rewrite (step_code [211; shk_byte k] (IShift k true (Reg 0) true) 2 u (mkst r g a f m) C) by (destruct k; reflexivity).
    unfold set_ip. cbn [rg sg ip fl mem]. rewrite Z.mod_small by lia. destruct (S1 u) as (v & f' & -> & _). reflexivity.
  + intro u. destruct (S1 u) as (v & f' & -> & Z0). apply reach_now. split; [reflexivity|]. cbn [rg ax rset]. apply holds_jnz. exact Z0.
Qed.

Theorem binop_zf op r s s' : 0 <= r < 8 -> live (em s) ->
  DoBinOp W (bintok op) r s = Ok (tt, s') ->
  does_if (fun t => bindef (IsUnsignedOp (em s)) op (ax (rg t)) (rget (rg t) r) /\ sets_zf op (rget (rg t) r)) (em s) (em s')
    (fun t t' => holds JNZ (negb (ax (rg t') =? 0)) t').
Proof.
  intros Hr L H. apply binop_emits in H; auto. destruct H as (-> & L' & AR). rewrite em_app in *.
  set (u := IsUnsignedOp (em s)) in *. clearbody u.
  apply does_of; auto. intros R g f m RO C [DEF SZ]. cbn [rg] in *.
  pose proof (live_room _ _ L') as LR. pose proof (live_lo _ L) as LO. set (a := CodeAddress (em s)) in *. clearbody a.
  assert (U192 : u8 (192 + 8 * r) = 192 + 8 * r) by (apply u8_small; lia).
  pose proof (rget_ok R r RO) as RGB.
  destruct op; cbn [bin_code alu_byte map length sets_zf] in *; cbn [bindef] in DEF; try contradiction.
  - simple_alu r 1 ADD C U192. apply reach_now. split; [reflexivity|]. cbn [rg ax rset].
    apply holds_jnz. cbn [fl]. unfold add_flags, flags_of. cbn [fZ]. rewrite Z.add_0_r. reflexivity.
  - simple_alu r 41 SUB C U192. apply reach_now. split; [reflexivity|]. cbn [rg ax rset].
    apply holds_jnz. cbn [fl]. unfold sub_flags, flags_of. cbn [fZ]. rewrite Z.sub_0_r. reflexivity.
  - simple_alu r 33 AND C U192. fin_zf.
  - simple_alu r 9 OR C U192. fin_zf.
  - simple_alu r 49 XOR C U192. fin_zf.
  - destruct AR as [?| ->]; [discriminate|]. change (rget R R_CX) with (cx R) in *. apply (shcl_zf SHL); auto; lia.
  - destruct AR as [?| ->]; [discriminate|]. change (rget R R_CX) with (cx R) in *. destruct u; [apply (shcl_zf SHR)|apply (shcl_zf SAR)]; auto; lia.
Qed.

(** the test of a value in AX: emitted unless the last instruction is claimed to have
    set the flags *)
Lemma tobool_emits s s' : CurrentType (em s) = VT_INT -> live (em s) -> ToBool W s = Ok (tt, s') ->
  s' = set_bool JNZ (if CodeAddress (em s) =? LastZFInst (em s) then s else app_code [33; 192] s) /\ live (em s').
Proof.
  intros T L H. unfold ToBool in H. minv H x s1 E. unfold LvalToRval, gete in E. mgoin E. rewrite T in E. change (hasb VT_INT VT_LVAL) with false in E.
  cbn [when] in E. oki E. unfold gete in H. mgoin H. minv H y s1 E. unfold setT, setV, upde in H. mgoin H.
  destruct (CodeAddress (em s) =? LastZFInst (em s)); cbn [negb when] in E.
  - oki E. unfold upd in H. oki H. split; [reflexivity|exact L].
  - apply o2_inv in E; auto. destruct E as [-> L1]. unfold upd in H. oki H. split; [reflexivity|exact L1].
Qed.
Theorem tobool_tests s s' : CurrentType (em s) = VT_INT -> live (em s) -> CodeAddress (em s) <> LastZFInst (em s) ->
  ToBool W s = Ok (tt, s') ->
  CurrentType (em s') = VT_BOOL /\
  does (em s) (em s') (fun t t' => holds (CurrentVal (em s')) (negb (ax (rg t) =? 0)) t' /\ rg t' = rg t /\ sg t' = sg t /\ mem t' = mem t).
Proof.
  intros T L N H. apply tobool_emits in H; auto. rewrite (proj2 (Z.eqb_neq _ _) N) in H. destruct H as [-> L']. split; [reflexivity|].
  change (CurrentVal (em (set_bool JNZ (app_code [33; 192] s)))) with JNZ. change (live (put [33; 192] (em s))) in L'.
  change (does (em s) (put [33; 192] (em s)) (fun t t' => holds JNZ (negb (ax (rg t) =? 0)) t' /\ rg t' = rg t /\ sg t' = sg t /\ mem t' = mem t)).
  apply does_of; auto. intros R g f m RO C _. cbn [map length rg sg mem] in *.
  pose proof (live_room _ _ L') as LR. pose proof (live_lo _ L) as LO. cbn [length] in *. set (a := CodeAddress (em s)) in *. clearbody a.
  runop [33; 192] (IAlu AND true (Reg 0) (Reg 0)) 2.
  apply reach_now. split; [reflexivity|]. cbn [rg sg mem]. rewrite !Z.land_diag. split; [|split; [destruct R; reflexivity|auto]].
  apply holds_jnz. reflexivity.
Qed.
(** the skipped test: nothing is emitted, the condition is "zero flag clear" *)
Theorem tobool_trusts s s' : CurrentType (em s) = VT_INT -> live (em s) -> CodeAddress (em s) = LastZFInst (em s) ->
  ToBool W s = Ok (tt, s') ->
  CurrentType (em s') = VT_BOOL /\ CurrentVal (em s') = JNZ /\ CodeAddress (em s') = CodeAddress (em s) /\ Output (em s') = Output (em s).
Proof.
  intros T L N H. apply tobool_emits in H; auto. rewrite (proj2 (Z.eqb_eq _ _) N) in H. destruct H as [-> L']. repeat split.
Qed.
End W.
