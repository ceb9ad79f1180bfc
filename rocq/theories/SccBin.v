(** Operators of compiled expressions, as runs of the machine that keep the saved values. *)
From Verif Require Import Base Bits Spec8086 SpecWf SccRun SccState SccEmit SccLex SccDecl SccExpr SccInput SccPut SccArith SccOps SccJump SccMem SccHold SccFlush SccSem ExprSpec.

Definition int_range (x : Z) : Prop := -32768 <= x <= 32767.
Lemma int16_range v x : int16 v = Some x -> int_range x.
Proof. intro H. apply int16_some in H. destruct H as [-> H]. exact H. Qed.
Lemma signed_int x : int_range x -> signed true (x mod 65536) = x.
Proof. intro H. apply signed_mod. unfold int_range in H. lia. Qed.
Lemma land_int a b : Z.land (a mod 65536) (b mod 65536) = Z.land a b mod 65536.
Proof. symmetry. apply (land_mod_pow2 a b 16). lia. Qed.
Lemma lor_int a b : Z.lor (a mod 65536) (b mod 65536) = Z.lor a b mod 65536.
Proof. symmetry. apply (lor_mod_pow2 a b 16). lia. Qed.
Lemma lxor_int a b : Z.lxor (a mod 65536) (b mod 65536) = Z.lxor a b mod 65536.
Proof. symmetry. apply (lxor_mod_pow2 a b 16). lia. Qed.
(** where the 8086 divides *)
Definition div_ok (o : oper) (x y : Z) : Prop :=
  match o with Arith Div | Arith Mod => x = -32768 -> y <> 1 | _ => True end.
(** the operator of the machine on words is the operator of C on ints *)
Lemma arith_word o x y v : int_range x -> int_range y -> apply_arith o x y = Some v -> div_ok (Arith o) x y ->
  bindef false o (x mod 65536) (y mod 65536) /\ binval false o (x mod 65536) (y mod 65536) = v mod 65536.
Proof.
  intros Rx Ry H D. unfold binval. rewrite !signed_int by assumption. unfold int_range in *.
  assert (NZ : y <> 0 -> y mod 65536 <> 0) by (intros; lia).
  destruct o; cbn [apply_arith bindef div_ok] in *.
  - apply int16_some in H. destruct H as [-> _]. split; [exact I|]. rewrite <- Zplus_mod. reflexivity.
  - apply int16_some in H. destruct H as [-> _]. split; [exact I|]. rewrite <- Zminus_mod. reflexivity.
  - injection H as <-. split; [exact I|apply land_int].
  - injection H as <-. split; [exact I|apply lor_int].
  - injection H as <-. split; [exact I|apply lxor_int].
  - apply int16_some in H. destruct H as [-> _]. split; [exact I|]. rewrite <- Zmult_mod. reflexivity.
  - destruct (Z.eqb_spec y 0) as [|N]; [discriminate|]. apply int16_some in H. destruct H as [-> R]. split; [|reflexivity]. split; [auto|].
    intros _ [E1 E2]. assert (x = -32768) by (clear - E1 Rx; lia). subst x. destruct E2 as [E2|E2].
    + apply D; [reflexivity|]. clear - E2 Ry. lia.
    + assert (y = -1) by (clear - E2 Ry; lia). subst y. change (Z.quot (-32768) (-1)) with 32768 in R. lia.
  - destruct (Z.eqb_spec y 0) as [|N]; [discriminate|]. destruct (Z.eqb_spec (Z.quot x y) 32768) as [|NQ]; [discriminate|]. injection H as <-. split; [|reflexivity]. split; [auto|].
    intros _ [E1 E2]. assert (x = -32768) by (clear - E1 Rx; lia). subst x. destruct E2 as [E2|E2].
    + apply D; [reflexivity|]. clear - E2 Ry. lia.
    + assert (y = -1) by (clear - E2 Ry; lia). subst y. apply NQ. reflexivity.
  - destruct (Z.leb_spec 0 x), (Z.leb_spec 0 y), (Z.ltb_spec y 16); cbn [andb] in H; try discriminate. apply int16_some in H. destruct H as [-> _].
    rewrite !(Z.mod_small y 65536) by lia. rewrite (Z.mod_small x 65536) by lia. split; [assumption|reflexivity].
  - destruct (Z.leb_spec 0 y), (Z.ltb_spec y 16); cbn [andb] in H; try discriminate. injection H as <-.
    rewrite !(Z.mod_small y 65536) by lia. split; [assumption|reflexivity].
Qed.
Lemma rel_word o x y : int_range x -> int_range y -> cmpval false o (x mod 65536) (y mod 65536) = compare o x y.
Proof.
  intros Rx Ry. unfold cmpval. rewrite !signed_int by assumption. unfold int_range in *.
  assert (E : (x mod 65536 =? y mod 65536) = (x =? y)) by (destruct (Z.eqb_spec (x mod 65536) (y mod 65536)), (Z.eqb_spec x y); try reflexivity; lia).
  destruct o; cbn [compare]; rewrite ?E; reflexivity.
Qed.
Lemma range_shift x : int_range x <-> (Z.shiftr x 15 = 0 \/ Z.shiftr x 15 = -1).
Proof. rewrite Z.shiftr_div_pow2 by lia. change (2 ^ 15) with 32768. unfold int_range. lia. Qed.
Lemma land_range_int x y : int_range x -> int_range y -> int_range (Z.land x y).
Proof. rewrite !range_shift. rewrite Z.shiftr_land. intros [->| ->] [->| ->]; cbn; auto. Qed.
Lemma lor_range_int x y : int_range x -> int_range y -> int_range (Z.lor x y).
Proof. rewrite !range_shift. rewrite Z.shiftr_lor. intros [->| ->] [->| ->]; cbn; auto. Qed.
Lemma lxor_range_int x y : int_range x -> int_range y -> int_range (Z.lxor x y).
Proof. rewrite !range_shift. rewrite Z.shiftr_lxor. intros [->| ->] [->| ->]; cbn; auto. Qed.
Lemma apply_range o x y v : int_range x -> int_range y -> apply o x y = Some v -> int_range v.
Proof.
  intros Rx Ry H. destruct o as [o|o]; cbn [apply] in H.
  - destruct o; cbn [apply_arith] in H; try (apply int16_range in H; exact H).
    + injection H as <-. apply land_range_int; assumption.
    + injection H as <-. apply lor_range_int; assumption.
    + injection H as <-. apply lxor_range_int; assumption.
    + destruct (y =? 0); [discriminate|]. apply int16_range in H; exact H.
    + destruct (Z.eqb_spec y 0) as [|N]; [discriminate|]. destruct (_ =? 32768); [discriminate|]. injection H as <-. unfold int_range in *.
      pose proof (Z.rem_bound_abs x y N) as B. clear - B Rx Ry. lia.
    + destruct (_ && _); [|discriminate]. apply int16_range in H; exact H.
    + destruct (Z.leb_spec 0 y), (Z.ltb_spec y 16); cbn [andb] in H; try discriminate. injection H as <-.
      unfold int_range in *. assert (1 <= 2 ^ y) by (pose proof (Z.pow_pos_nonneg 2 y); lia). split.
      * apply Z.div_le_lower_bound; nia.
      * destruct (Z_lt_ge_dec x 0); [|apply Z.div_le_upper_bound; nia]. assert (x / 2 ^ y < 0) by (apply Z.div_lt_upper_bound; lia). lia.
  - injection H as <-. unfold int_range. destruct (compare o x y); lia.
Qed.
Lemma apply_un_range u x v : int_range x -> apply_un u x = Some v -> int_range v.
Proof.
  intros R H. destruct u; cbn [apply_un] in H; [apply int16_range in H; exact H|injection H as <-; unfold int_range in *; lia|injection H as <-; exact R|injection H as <-; unfold int_range; destruct (x =? 0); lia].
Qed.
Definition env_ok (env : Z -> Z) : Prop := forall x, int_range (env x).
Lemma eval_range env e v : env_ok env -> wf_exp e -> eval env e = Some v -> int_range v.
Proof.
  intro OK. revert v. induction e as [n|x|e IH|u e IH|o a IHa b IHb]; intros v WF H; cbn [eval wf_exp] in *.
  - injection H as <-. unfold int_range. lia.
  - injection H as <-. apply OK.
  - apply IH; assumption.
  - destruct (eval env e) as [a|]; [|discriminate]. apply (apply_un_range u a); [|exact H]. apply IH; [apply WF|reflexivity].
  - destruct (eval env a) as [x|]; [|discriminate]. destruct (eval env b) as [y|]; [|discriminate]. destruct WF as (_ & _ & Wa & Wb).
    apply (apply_range o x y v); auto.
Qed.
(** a constant expression has the same value in every environment *)
Lemma constant_eval env env' e : constant e = true -> eval env e = eval env' e.
Proof.
  induction e as [n|x|e IH|u e IH|o a IHa b IHb]; intro C; cbn [eval constant] in *; auto; try discriminate.
  - rewrite IH by exact C. reflexivity.
  - apply andb_true_iff in C. destruct C as [Ca Cb]. rewrite IHa, IHb by assumption. reflexivity.
Qed.

(** ** Results *)
(** the current value is in AX or a condition of the flags *)
Definition typ (e : emst) : Prop := CurrentType e = VT_INT \/ (CurrentType e = VT_BOOL /\ 0 <= CurrentVal e < 16).
(** that of an operator; comparisons give a condition *)
Definition typ_of (o : oper) (e : emst) : Prop := match o with Arith _ => CurrentType e = VT_INT | Rel _ => CurrentType e = VT_BOOL /\ 0 <= CurrentVal e < 16 end.
Lemma typ_of_typ o e : typ_of o e -> typ e.
Proof. destruct o; [left; assumption|right; assumption]. Qed.
(** and it is v *)
Definition res (e : emst) (v : Z) (t : state) : Prop :=
  if CurrentType e =? VT_BOOL then exists b, v = zb b /\ holds (CurrentVal e) b t else ax (rg t) = v mod 65536.

Ltac clobs := try match goal with |- ~ In _ _ => cbn [In]; unfold R_AX, R_CX, R_DX; lia | |- forall t, inv _ t -> _ -> True => intros; exact I end.
Section W.
Variable W : Z.
Hypothesis HW : 16 <= W.

(** *** Moves between registers *)
Lemma movcx_acts v e x e' : live e -> EmitMovRImm W R_CX v e = Ok (x, e') ->
  grown e e' /\ CurrentType e' = CurrentType e /\ CurrentVal e' = CurrentVal e /\ IsUnsignedOp e' = IsUnsignedOp e /\
  forall f a, frame_ok f -> acts f e e' (fun t => ax (rg t) = a) (fun t => ax (rg t) = a /\ cx (rg t) = v mod 65536).
Proof.
  intros L H. apply movimm_emits in H; [|exact L]. destruct H as [-> L'].
  assert (OK : okhead [Z.lor 184 R_CX; v; Z.shiftr v 8]) by (cbn; unfold u8; lia).
  split; [apply grown_put; [exact L'|exact OK]|]. split; [reflexivity|]. split; [reflexivity|]. split; [reflexivity|]. intros f a FO.
  apply (step_acts f FO (fun _ => True) [R_CX] e _ (fun t t' => cx (rg t') = v mod 65536 /\ keeps_but [R_CX] t t') _ _ L (grown_put _ _ L' OK)); clobs.
  - apply does_of; auto. intros r g fl m RO C _. pose proof (live_room _ _ L') as LR. pose proof (live_lo _ L). cbn [length map] in *.
    runop [u8 (Z.lor 184 R_CX); u8 v; u8 (Z.shiftr v 8)] (IMov true (Reg 1) (Imm (v mod 65536))) 3.
    + intro. rewrite <- word_bytes. reflexivity.
    + apply reach_now. cbn [ip rg]. split; [reflexivity|]. split; [reflexivity|]. unfold keeps_but. cbn [rg sg mem]. split; [|auto].
      intros q Q N. cbn [In] in N. unfold R_CX in N. reg8 q; try (exfalso; tauto); reflexivity.
  - intros t t' [_ K]. exact K.
  - intros t t' I A Wt [C K]. split; [|exact C]. rewrite <- A. apply (proj1 K 0); [lia|]. cbn [In]. unfold R_CX. lia.
Qed.
Lemma xchgcx_acts s x s' : live (em s) -> o1 W (Z.lor I_XCHG_AX R_CX) s = Ok (x, s') ->
  s' = app_code [145] s /\ grown (em s) (em s') /\
  forall f a b, frame_ok f -> acts f (em s) (em s') (fun t => ax (rg t) = a /\ cx (rg t) = b) (fun t => ax (rg t) = b /\ cx (rg t) = a).
Proof.
  intros L H. apply o1_inv in H; [|exact L]. destruct H as [-> L']. split; [reflexivity|]. rewrite em_app in *. change (Z.lor I_XCHG_AX R_CX) with 145 in *.
  assert (OK : okhead [145]) by (cbn; unfold u8; lia).
  split; [apply grown_put; [exact L'|exact OK]|]. intros f a b FO.
  apply (step_acts f FO (fun _ => True) [R_AX; R_CX] _ _ (fun t t' => (ax (rg t') = cx (rg t) /\ cx (rg t') = ax (rg t)) /\ keeps_but [R_AX; R_CX] t t') _ _ L (grown_put _ _ L' OK)); clobs.
  - apply does_of; auto. intros r g fl m RO C _. pose proof (live_room _ _ L') as LR. pose proof (live_lo _ L). cbn [length map] in *.
    apply (xchg_run 1); [lia|exact C|lia|lia|]. apply reach_now. cbn [ip rg]. split; [reflexivity|]. split; [split; reflexivity|].
    unfold keeps_but. cbn [rg sg mem]. split; [|auto].
    intros q Q N. cbn [In] in N. unfold R_AX, R_CX in N. reg8 q; try (exfalso; tauto); reflexivity.
  - intros t t' [_ K]. exact K.
  - intros t t' I [A B] Wt [[C D] K]. split; congruence.
Qed.

(** *** Two operands in registers *)
Lemma okhead_bin o r : okhead (bin_code false o r).
Proof. destruct o; cbn; unfold u8; lia. Qed.
Lemma okhead_add q c : 0 <= q < 8 -> okhead (add_code q c).
Proof.
  intro Q. unfold add_code. cbv zeta. destruct (Z.eqb_spec (Z.abs c) 0); [exact I|]. destruct (Z.leb_spec (Z.abs c) 2).
  - assert (E : exists m, Z.to_nat (Z.abs c) = S m) by (exists (Z.to_nat (Z.abs c - 1)); lia). destruct E as [m ->]. cbn [repeat okhead]. unfold u8. destruct (c <? 0); lia.
  - destruct (Z.abs c <? 128); [cbn; unfold u8; lia|]. destruct (q =? 0); [destruct (c <? 0)|]; cbn; unfold u8; lia.
Qed.
Lemma okhead_rep k b : okhead (concat (repeat [209; b] k)).
Proof. destruct k; [exact I|]. cbn; unfold u8; lia. Qed.
(** the type of the result: that of the operands, or a condition *)
Definition tyto (o : oper) (e e' : emst) : Prop := match o with Arith _ => CurrentType e' = CurrentType e | Rel _ => CurrentType e' = VT_BOOL /\ 0 <= CurrentVal e' < 16 end.
Lemma tyto_typ o e e' : CurrentType e = VT_INT -> tyto o e e' -> typ_of o e'.
Proof. intros T H. destruct o; [cbn [typ_of]; rewrite H; exact T|exact H]. Qed.
Lemma op_acts_gen o r s s' : r = R_CX \/ r = R_BX -> live (em s) -> IsUnsignedOp (em s) = false -> CurrentType (em s) <> VT_BOOL ->
  DoBinOp W (op_tok o) r s = Ok (tt, s') ->
  exists e', s' = set_em e' s /\ grown (em s) e' /\ tyto o (em s) e' /\
  forall f x y v, frame_ok f -> int_range x -> int_range y -> apply o x y = Some v -> div_ok o x y ->
    acts f (em s) e' (fun t => ax (rg t) = x mod 65536 /\ rget (rg t) r = y mod 65536) (res e' v).
Proof.
  intros HR L U T H. assert (R8 : 0 <= r < 8) by (destruct HR as [->| ->]; unfold R_CX, R_BX; lia).
  destruct o as [o|o]; cbn [op_tok] in H.
  - pose proof (binop_does W o r s s' R8 L H) as D. cbv zeta in D. rewrite U in D.
    apply binop_emits in H; auto. destruct H as (-> & L' & _). rewrite em_app in *. rewrite U in *.
    set (bs := bin_code false o r) in *.
    exists (put bs (em s)). split; [reflexivity|]. pose proof (grown_put _ _ L' (okhead_bin o r)) as G. split; [exact G|].
    assert (T' : CurrentType (put bs (em s)) = CurrentType (em s)) by apply put_ctype.
    split; [exact T'|]. intros f x y v FO Rx Ry A DK. cbn [apply] in A. destruct (arith_word o x y v Rx Ry A DK) as [B1 B2].
    apply (step_acts f FO _ [R_AX; R_DX] _ _ _ _ _ L G D); clobs.
    + intros t t' [_ K]. exact K.
    + intros t I [E1 E2]. rewrite E1, E2. exact B1.
    + intros t t' I [E1 E2] Wt [E K]. unfold res. rewrite T', (proj2 (Z.eqb_neq _ _) T). rewrite E, E1, E2. exact B2.
  - pose proof (cmp_does W o r s s' R8 L H) as D. cbv zeta in D. rewrite U in D.
    apply cmp_emits in H; auto. destruct H as (-> & L'). rewrite U in *.
    set (e' := em (set_bool (cmp_cc false o) (app_code [57; 192 + 8 * r] s))) in *.
    exists e'. split; [reflexivity|].
    assert (G : grown (em s) e').
    { apply (grown_kin _ (put [57; 192 + 8 * r] (em s))); [repeat split|]. apply grown_put; [exact L'|]. cbn; unfold u8; lia. }
    split; [exact G|]. split; [split; [reflexivity|]; change (CurrentVal e') with (cmp_cc false o); destruct o; (split; [discriminate|reflexivity])|].
    intros f x y v FO Rx Ry A DK. cbn [apply] in A. injection A as <-.
    apply (step_acts f FO (fun _ => True) [] _ _ _ _ _ L G D); clobs.
    + intros t t' (_ & K1 & K2 & K3). unfold keeps_but. rewrite K1. auto.
    + intros t t' I [E1 E2] Wt (E & _). unfold res. change (CurrentType e') with VT_BOOL. change (VT_BOOL =? VT_BOOL) with true. cbv iota.
      exists (compare o x y). split; [reflexivity|]. rewrite E1, E2, rel_word in E by assumption. exact E.
Qed.

Lemma op_acts o r s s' : r = R_CX \/ r = R_BX -> live (em s) -> IsUnsignedOp (em s) = false -> CurrentType (em s) = VT_INT ->
  DoBinOp W (op_tok o) r s = Ok (tt, s') ->
  exists e', s' = set_em e' s /\ grown (em s) e' /\ typ_of o e' /\
  forall f x y v, frame_ok f -> int_range x -> int_range y -> apply o x y = Some v -> div_ok o x y ->
    acts f (em s) e' (fun t => ax (rg t) = x mod 65536 /\ rget (rg t) r = y mod 65536) (res e' v).
Proof.
  intros HR L U T H. destruct (op_acts_gen o r s s' HR L U ltac:(rewrite T; discriminate) H) as (e' & A & B & C & E). exists e'. split; [exact A|]. split; [exact B|]. split; [exact (tyto_typ _ _ _ T C)|exact E].
Qed.

(** *** A constant as right operand *)
Lemma ax_acts pre clob (F : Z -> Z) e e' : live e -> grown e e' ->
  does_if pre e e' (fun t t' => ax (rg t') = F (ax (rg t)) /\ keeps_but clob t t') -> ~ In 3 clob -> ~ In 4 clob -> ~ In 5 clob ->
  forall f a, frame_ok f -> (forall t, ax (rg t) = a -> pre t) -> acts f e e' (fun t => ax (rg t) = a) (fun t => ax (rg t) = F a).
Proof.
  intros L G D N3 N4 N5 f a FO P. apply (step_acts f FO pre clob _ _ _ _ _ L G D); auto.
  - intros t t' [_ K]. exact K.
  - intros t t' I A Wt [B _]. rewrite B, A. reflexivity.
Qed.
(** the operands for which the code with a constant right operand is right *)
Definition const_ok (o : oper) (x y : Z) : Prop :=
  match o with
  | Arith Add | Arith Sub => y <> -32768
  | Arith Mul => y <> 0
  | Arith Div => y <> -32768 /\ ((exists k, 0 <= k /\ y = 2 ^ k) -> 0 <= x \/ x mod y = 0)
  | Arith Mod => x = -32768 -> y <> 1
  | _ => True
  end.

(** an ALU instruction on AX, for the operators that have one *)
Definition alu_for (o : oper) : option aluop :=
  match o with
  | Arith Add => Some ADD | Arith Sub => Some SUB | Arith And => Some AND | Arith Or => Some OR | Arith Xor => Some XOR
  | Rel _ => Some CMP | _ => None
  end.
Definition alu_res (o : oper) (a b : Z) (t t' : state) : Prop :=
  keeps_but [R_AX] t t' /\
  match o with Arith o => ax (rg t') = binval false o a b | Rel o => holds (cmp_cc false o) (cmpval false o a b) t' end.
Lemma alu_does o k src (V : regs -> sregs -> arr Z -> Z) bs e : alu_for o = Some k -> live e -> live (put bs e) ->
  (forall f, decode (over (map u8 bs) f) = Some (IAlu k true (Reg 0) src, Z.of_nat (length bs))) ->
  (forall r g i f m, get_op (mkst r g i f m) true src = V r g m) ->
  does_if (fun t => 0 <= V (rg t) (sg t) (mem t) < 65536) e (put bs e) (fun t t' => alu_res o (ax (rg t)) (V (rg t) (sg t) (mem t)) t t').
Proof.
  intros K L L' D G. apply does_of; auto. intros r g f0 m RO C VB. cbn [rg sg mem] in *.
  pose proof (live_lo _ L) as LO. pose proof (live_room _ _ L') as LR. set (a := CodeAddress e) in *. clearbody a.
  pose proof (rget_ok r 0 RO) as RA. cbn [rget] in RA.
  set (y := V r g m) in *.
  assert (ST : forall k', k = k' -> forall P : state -> Prop, (forall u, reaches P (match exec u (IAlu k' true (Reg 0) src) (mkst r g (a + Z.of_nat (length bs)) f0 m) with Some s => s | None => mkst r g a f0 m end)) -> reaches P (mkst r g a f0 m)).
  { intros k' <- P H. apply (reach_code P (map u8 bs) (IAlu k true (Reg 0) src) (Z.of_nat (length bs)) (fun u => match exec u (IAlu k true (Reg 0) src) (mkst r g (a + Z.of_nat (length bs)) f0 m) with Some s => s | None => mkst r g a f0 m end)); auto; [lia|].
    intro u. cbn [exec]. destruct (alu _ _ _ _ _) as [w f]. destruct k; reflexivity. }
  assert (KB1 : forall v i f', keeps_but [R_AX] (mkst r g a f0 m) (mkst (rset r 0 v) g i f' m)).
  { intros. unfold keeps_but. cbn [rg sg mem]. split; [|auto]. intros q Hq N. cbn [In] in N. unfold R_AX in N.
    reg8 q; try (exfalso; tauto); reflexivity. }
  destruct o as [o|o].
  - destruct o; cbn [alu_for] in K; try discriminate K; injection K as <-; apply (ST _ eq_refl); intro u; cbn [exec]; rewrite G; fold y;
      cbn [get_op rg alu rget]; apply reach_now; cbn [ip]; (split; [reflexivity|]); unfold alu_res; cbn [rg put_op set_rg set_fl sg mem]; (split; [apply KB1|reflexivity]).
  - cbn [alu_for] in K. injection K as <-. apply (ST _ eq_refl). intro u. cbn [exec]. rewrite G. fold y. cbn [get_op rg alu rget]. apply reach_now. cbn [ip]. split; [reflexivity|].
    split; [unfold keeps_but; cbn [rg sg mem set_fl]; auto|]. unfold holds. cbn [fl set_fl]. apply (cmp_decides false o (ax r) y); assumption.
Qed.
Lemma alu_inst o k : alu_for o = Some k -> exists b, (Z.lor b 1 = b /\ 0 <= b < 64) /\
  GetSimpleALU_ false (op_tok o) = b + 256 * (match o with Rel o => cmp_cc false o | _ => 0 end) /\
  (forall c c' f, decode (over [Z.lor b 5; u8 c; c'] f) = Some (IAlu k true (Reg 0) (Imm (u8 c + 256 * c')), 3)) /\ b mod 8 = 1 /\ k = alu_of (b / 8).
Proof.
  intro K. destruct o as [o|o]; [destruct o; try discriminate K|]; injection K as <-.
  - exists 1. repeat split; try lia.
  - exists 41. repeat split; try lia.
  - exists 33. repeat split; try lia.
  - exists 9. repeat split; try lia.
  - exists 49. repeat split; try lia.
  - exists 57. repeat split; try lia. destruct o; reflexivity.
Qed.

Definition fin (o : oper) (e : emst) : emst :=
  match o with Rel o => set_CurrentVal (cmp_cc false o) (set_CurrentType VT_BOOL e) | Arith _ => e end.
Lemma fin_kin o e : kin e (fin o e).
Proof. destruct o; repeat split. Qed.
Lemma fin_typ o e : CurrentType e = VT_INT -> typ_of o (fin o e).
Proof. intro T. destruct o as [o|o]; [exact T|]. split; [reflexivity|]. change (CurrentVal (fin (Rel o) e)) with (cmp_cc false o). destruct o; (split; [discriminate|reflexivity]). Qed.
Lemma fin_tyto o e0 e : CurrentType e = CurrentType e0 -> tyto o e0 (fin o e).
Proof. intro T. destruct o; [exact T|]. split; [reflexivity|]. change (CurrentVal (fin (Rel o) e)) with (cmp_cc false o). destruct o; (split; [discriminate|reflexivity]). Qed.
Lemma finish_inv o b s x s' : 0 <= b < 64 -> FinishOp (b + 256 * (match o with Rel o => cmp_cc false o | _ => 0 end)) s = Ok (x, s') -> s' = set_em (fin o (em s)) s.
Proof.
  intros B H. unfold FinishOp in H. set (c := match o with Rel o => cmp_cc false o | Arith _ => 0 end) in *.
  assert (E : Z.shiftr (b + 256 * c) 8 = c) by (rewrite Z.shiftr_div_pow2 by lia; change (2 ^ 8) with 256; lia). rewrite E in H.
  destruct o as [o|o].
  - unfold c in H. cbn [negb Z.eqb when] in H. oki H. destruct s; reflexivity.
  - assert (N : (c =? 0) = false) by (unfold c; destruct o; reflexivity). rewrite N in H. cbn [negb when] in H. unfold setT, setV, upde in H. mgoin H. oki H. reflexivity.
Qed.
Lemma alu_step o x y v e e1 e2 (P : state -> Prop) V f : frame_ok f -> live e -> grown e e1 -> e2 = fin o e1 -> CurrentType e1 <> VT_BOOL ->
  int_range x -> int_range y -> apply o x y = Some v -> div_ok o x y ->
  does_if (fun t => 0 <= V (rg t) (sg t) (mem t) < 65536) e e1 (fun t t' => alu_res o (ax (rg t)) (V (rg t) (sg t) (mem t)) t t') ->
  (forall t, inv f t -> P t -> ax (rg t) = x mod 65536 /\ V (rg t) (sg t) (mem t) = y mod 65536) ->
  acts f e e2 P (res e2 v).
Proof.
  intros FO L G -> T Rx Ry A DK D H. apply (acts_kin f e e1); [apply fin_kin|].
  apply (step_acts f FO _ [R_AX] _ _ _ _ _ L G D); clobs.
  - intros t t' [K _]. exact K.
  - intros t I Pt. destruct (H t I Pt) as [_ ->]. apply Z.mod_pos_bound. lia.
  - intros t t' I Pt Wt [_ E]. destruct (H t I Pt) as [E1 E2]. rewrite E1, E2 in E. unfold res. destruct o as [o|o].
    + cbn [fin]. rewrite (proj2 (Z.eqb_neq _ _) T). rewrite E. apply (arith_word o x y v Rx Ry A DK).
    + change (CurrentType (fin (Rel o) e1)) with VT_BOOL. change (VT_BOOL =? VT_BOOL) with true. cbv iota. change (CurrentVal (fin (Rel o) e1)) with (cmp_cc false o).
      cbn [apply] in A. injection A as <-. exists (compare o x y). split; [reflexivity|]. rewrite rel_word in E by assumption. exact E.
Qed.

(** what a step that replaces AX by the value of an operator gives *)
Definition becomes (s s' : cc) (o : oper) (ok : Z -> Prop) (y : Z) : Prop :=
  exists e', s' = set_em e' s /\ grown (em s) e' /\ tyto o (em s) e' /\
  forall f x v, frame_ok f -> int_range x -> apply o x y = Some v -> ok x ->
    acts f (em s) e' (fun t => ax (rg t) = x mod 65536) (res e' v).
Lemma res_int e v t : CurrentType e <> VT_BOOL -> ax (rg t) = v mod 65536 -> res e v t.
Proof. intros T H. unfold res. rewrite (proj2 (Z.eqb_neq _ _) T). exact H. Qed.
Lemma becomes_int s bs (o : binop) (ok : Z -> Prop) y pre clob (F : Z -> Z) : live (em s) -> CurrentType (em s) <> VT_BOOL -> live (put bs (em s)) -> okhead bs ->
  does_if pre (em s) (put bs (em s)) (fun t t' => ax (rg t') = F (ax (rg t)) /\ keeps_but clob t t') -> ~ In 3 clob -> ~ In 4 clob -> ~ In 5 clob ->
  (forall x v, int_range x -> apply (Arith o) x y = Some v -> ok x -> F (x mod 65536) = v mod 65536 /\ forall t, ax (rg t) = x mod 65536 -> pre t) ->
  becomes s (app_code bs s) (Arith o) ok y.
Proof.
  intros L T L' OK D N3 N4 N5 H. exists (put bs (em s)). split; [reflexivity|]. pose proof (grown_put _ _ L' OK) as G. split; [exact G|].
  assert (T' : CurrentType (put bs (em s)) = CurrentType (em s)) by apply put_ctype. split; [exact T'|].
  intros f x v FO Rx A K. destruct (H x v Rx A K) as [H1 H2].
  eapply acts_imp; [apply (ax_acts pre clob F (em s) (put bs (em s)) L G D N3 N4 N5 f (x mod 65536) FO H2)|auto|].
  cbv beta. intros t I E. apply res_int; [rewrite T'; exact T|congruence].
Qed.
Lemma small_int y : int_range y -> - 2 ^ (W - 1) <= y < 2 ^ (W - 1) /\ (y <> -32768 -> - 2 ^ (W - 1) < y).
Proof. intro R. pose proof (pow_ge W HW). unfold int_range in R. lia. Qed.

Lemma only_keeps_ax F : forall t t', only_regs (fun R => rset R 0 (F (rget R 0))) t t' -> ax (rg t') = F (ax (rg t)) /\ keeps_but [R_AX] t t'.
Proof.
  intros t t' (A & B & C). rewrite A. split; [reflexivity|]. unfold keeps_but. rewrite A. split; [|auto]. intros q Q N. cbn [In] in N. unfold R_AX in N.
  destruct t as [r ? ? ? ?]. cbn [rg]. reg8 q; try (exfalso; tauto); reflexivity.
Qed.
Lemma does_imp pre e e' (R R' : state -> state -> Prop) : does_if pre e e' R -> (forall t t', R t t' -> R' t t') -> does_if pre e e' R'.
Proof. intros D H t A B C E. eapply reaches_imp; [apply D; assumption|]. cbv beta. intros t' [P Q]. auto. Qed.

Lemma add_becomes s s' y x0 c (o : binop) : live (em s) -> CurrentType (em s) <> VT_BOOL -> - 2 ^ (W - 1) < c < 2 ^ (W - 1) ->
  inem (EmitAddRegConst W R_AX c) s = Ok (x0, s') -> (forall x v, apply (Arith o) x y = Some v -> (x + c) mod 65536 = v mod 65536) -> becomes s s' (Arith o) (fun _ => True) y.
Proof.
  intros L T R H A. apply inem_inv in H. destruct H as (e & H & ->). destruct x0. pose proof (add_does W HW R_AX c (em s) e ltac:(unfold R_AX; lia) R L H) as D.
  apply (add_emits W HW) in H; auto; [|unfold R_AX; lia]. destruct H as [-> L'].
  apply (becomes_int s _ o (fun _ => True) y _ [R_AX] (fun a => (a + c) mod 65536) L T L' (okhead_add R_AX c ltac:(unfold R_AX; lia)) (does_imp _ _ _ _ _ D (only_keeps_ax (fun a => (a + c) mod 65536)))); clobs.
  intros x v Rx E _. split; [rewrite Zplus_mod_idemp_l; apply A; exact E|auto].
Qed.
Lemma mul_becomes s s' y x0 : live (em s) -> CurrentType (em s) <> VT_BOOL -> int_range y -> y <> 0 ->
  inem (EmitScaleAx W y) s = Ok (x0, s') -> becomes s s' (Arith Mul) (fun _ => True) y.
Proof.
  intros L T R N H. apply inem_inv in H. destruct H as (e & H & ->). destruct x0. destruct (small_int y R) as [R1 _].
  pose proof (scale_does W HW y (em s) e R1 N L H) as D. apply (scale_emits W HW) in H; auto. destruct H as [L' H].
  assert (E : exists bs, e = put bs (em s) /\ okhead bs).
  { destruct H as [[-> _]|(k & _ & _ & ->)]; eexists; (split; [reflexivity|]); [cbn; unfold u8; lia|apply okhead_rep]. } destruct E as (bs & -> & OK).
  apply (becomes_int s bs Mul (fun _ => True) y _ _ (fun a => (a * y) mod 65536) L T L' OK D); clobs.
  intros x v Rx E _. cbn [apply apply_arith] in E. apply int16_some in E. destruct E as [-> _]. split; [apply Zmult_mod_idemp_l|auto].
Qed.
Lemma div_becomes s s' y x0 : live (em s) -> CurrentType (em s) <> VT_BOOL -> IsUnsignedOp (em s) = false -> int_range y -> y <> 0 -> y <> -32768 ->
  inem (EmitDivAxConst W y) s = Ok (x0, s') -> becomes s s' (Arith Div) (fun x => (exists k, 0 <= k /\ y = 2 ^ k) -> 0 <= x \/ x mod y = 0) y.
Proof.
  intros L T U R N NN H. apply inem_inv in H. destruct H as (e & H & ->). destruct x0. destruct (small_int y R) as [R1 R2]. specialize (R2 NN).
  assert (E : live e /\ exists bs, e = put bs (em s) /\ okhead bs).
  { apply (div_emits W HW) in H; auto. destruct H as [L' H]. split; [exact L'|]. destruct H as [[-> _]|(k & _ & _ & ->)]; eexists; (split; [reflexivity|]); [cbn; unfold u8; lia|apply okhead_rep]. }
  destruct E as [L' (bs & -> & OK)].
  destruct (Z_lt_ge_dec 0 y) as [P|P]; [destruct (Z.eq_dec (Z.land y (y - 1)) 0) as [E|NE]|].
  - destruct (pow2_of_land y P E) as (k & K & Ek). subst y.
    assert (KW : k < W - 1) by (apply (Z.pow_lt_mono_r_iff 2); lia).
    pose proof (divs_pow2_does W HW k (em s) _ (conj K KW) L U H) as D.
    apply (becomes_int s bs Div _ (2 ^ k) _ _ (fun a => (signed true a / 2 ^ k) mod 65536) L T L' OK D); clobs.
    intros x v Rx A C. cbn [apply apply_arith] in A. rewrite (proj2 (Z.eqb_neq _ _) N) in A. apply int16_some in A. destruct A as [-> _].
    split; [|auto]. rewrite signed_int by exact Rx. rewrite (proj2 (floor_quot x (2 ^ k) P)); [reflexivity|]. apply C. exists k. auto.
  - assert (NP : forall k, 0 <= k -> y <> 2 ^ k) by (intros k K ->; apply NE; apply land_of_pow2; exact K).
    pose proof (divs_does W HW y (em s) _ ltac:(unfold int_range in R; lia) N L U NP ltac:(lia) H) as D.
    apply (becomes_int s bs Div _ y _ _ (fun a => Z.quot (signed true a) y mod 65536) L T L' OK D); clobs.
    intros x v Rx A C. cbn [apply apply_arith] in A. rewrite (proj2 (Z.eqb_neq _ _) N) in A. apply int16_some in A. destruct A as [-> A].
    rewrite signed_int by exact Rx. split; [reflexivity|]. intros t Et [E1 E2]. lia.
  - assert (NP : forall k, 0 <= k -> y <> 2 ^ k) by (intros k K ->; pose proof (Z.pow_pos_nonneg 2 k); lia).
    pose proof (divs_does W HW y (em s) _ ltac:(unfold int_range in R; lia) N L U NP ltac:(lia) H) as D.
    apply (becomes_int s bs Div _ y _ _ (fun a => Z.quot (signed true a) y mod 65536) L T L' OK D); clobs.
    intros x v Rx A C. cbn [apply apply_arith] in A. rewrite (proj2 (Z.eqb_neq _ _) N) in A. apply int16_some in A. destruct A as [-> A].
    rewrite signed_int by exact Rx. split; [reflexivity|]. intros t Et [E1 E2]. subst y. rewrite Et in E1. unfold int_range in Rx.
    assert (x = -32768) by (clear - E1 Rx; lia). subst x. change (Z.quot (-32768) (-1)) with 32768 in A. lia.
Qed.

Lemma put_u8 b b' bs e : u8 b = u8 b' -> put (b :: bs) e = put (b' :: bs) e.
Proof. intro H. cbn [put]. unfold put1. rewrite H. reflexivity. Qed.
Lemma u8_hi b c : 0 <= b < 256 -> u8 (b + 256 * c) = b.
Proof. intro B. unfold u8. rewrite Z.mul_comm, Z_mod_plus_full. apply Z.mod_small. exact B. Qed.
Lemma lor_hi b c k : 0 <= b < 64 -> 0 <= k < 64 -> Z.lor (b + 256 * c) k = Z.lor b k + 256 * c.
Proof.
  intros B K. assert (E : b + 256 * c = Z.lor b (Z.shiftl c 8)) by (rewrite lor_shiftl_add; change (2 ^ 8) with 256; lia).
  assert (LR : 0 <= Z.lor b k < 2 ^ 8) by (change 8 with (8 + 0); apply (lor_range b k 8); change (2 ^ 8) with 256; lia).
  rewrite E. rewrite <- Z.lor_assoc, (Z.lor_comm _ k), Z.lor_assoc. rewrite lor_shiftl_add; [|lia|exact LR]. change (2 ^ 8) with 256. lia.
Qed.
Lemma alu_none o : alu_for o = None -> GetSimpleALU_ false (op_tok o) = 0.
Proof. destruct o as [o|o]; [destruct o|]; intro H; try discriminate H; reflexivity. Qed.

Lemma aluimm_becomes o k y s x0 s' : alu_for o = Some k -> live (em s) -> IsUnsignedOp (em s) = false -> CurrentType (em s) <> VT_BOOL -> int_range y ->
  (o3 W (Z.lor (GetSimpleALU_ false (op_tok o)) 5) y (Z.shiftr y 8) ;; FinishOp (GetSimpleALU_ false (op_tok o))) s = Ok (x0, s') -> becomes s s' o (fun x => div_ok o x y) y.
Proof.
  intros K L U T Ry H. destruct (alu_inst o k K) as (b & (B1 & B2) & E & D & _). rewrite E in H.
  set (c := match o with Rel o => cmp_cc false o | Arith _ => 0 end) in *.
  rewrite lor_hi in H by lia. minv H z s1 E1. apply o3_inv in E1; [|exact L]. destruct E1 as [-> L1]. apply finish_inv in H; [|exact B2].
  rewrite em_app in *. set (bs := [Z.lor b 5 + 256 * c; y; Z.shiftr y 8]) in *.
  assert (U5 : u8 (Z.lor b 5 + 256 * c) = Z.lor b 5) by (apply u8_hi; apply (lor_range b 5 8); cbn; lia).
  exists (fin o (put bs (em s))). split; [exact H|].
  assert (OK : okhead bs).
  { unfold bs, okhead. rewrite U5. pose proof (lor_range b 5 6 ltac:(lia) ltac:(cbn; lia) ltac:(cbn; lia)) as Q. change (2 ^ 6) with 64 in Q. lia. }
  pose proof (grown_put _ _ L1 OK) as G.
  assert (T1 : CurrentType (put bs (em s)) <> VT_BOOL) by (rewrite put_ctype; exact T).
  split; [exact (grown_kin _ _ _ (fin_kin o _) G)|]. split; [apply fin_tyto; apply put_ctype|].
  intros f x v FO Rx A DK.
  apply (alu_step o x y v (em s) (put bs (em s)) _ _ (fun _ _ _ => y mod 65536) f FO L G eq_refl T1 Rx Ry A DK).
  - apply (alu_does o k (Imm (y mod 65536)) (fun _ _ _ => y mod 65536) bs (em s) K L L1).
    + intro g. unfold bs. cbn [map length]. rewrite U5. rewrite D. rewrite word_bytes. reflexivity.
    + intros. reflexivity.
  - intros t I E2. split; [exact E2|reflexivity].
Qed.
(** shift by CL, whatever CH is *)
Lemma shcl8_run k r g a f m n P : regs_ok r -> code m (cs g) a [211; shk_byte k] -> 0 <= a -> a + 2 < 65536 -> rget8 r 1 = n -> 0 <= n < 16 ->
  (forall f', reaches P (mkst (rset r 0 (shval k (Z.to_nat n) (ax r))) g (a + 2) f' m)) ->
  reaches P (mkst r g a f m).
Proof.
  intros RO C A B CL N H. assert (AX : 0 <= ax r < 65536) by apply RO.
  assert (S1 : forall u, exists f', exec u (IShift k true (Reg 0) true) (mkst r g (a + 2) f m) = Some (mkst (rset r 0 (shval k (Z.to_nat n) (ax r))) g (a + 2) f' m)).
  { intro u. cbn [exec get_op rg rget]. rewrite CL. destruct (Z.eqb_spec n 0) as [E|NE].
    - rewrite E. unfold shift. cbn [Z.eqb]. change (Z.to_nat 0) with 0%nat. rewrite shval_0 by exact AX. eexists. reflexivity.
    - unfold shift. rewrite (proj2 (Z.eqb_neq _ _) NE). unfold shval. rewrite Z2Nat.id by lia. destruct k; eexists; reflexivity. }
  apply (reach_step P _ (fun u => match exec u (IShift k true (Reg 0) true) (mkst r g (a + 2) f m) with Some s => s | None => mkst r g a f m end)).
  + intro u. rewrite (step_code [211; shk_byte k] (IShift k true (Reg 0) true) 2 u (mkst r g a f m) C) by (destruct k; reflexivity).
    unfold set_ip. cbn [rg sg ip fl mem]. rewrite Z.mod_small by lia. destruct (S1 u) as [f' ->]. reflexivity.
  + intro u. destruct (S1 u) as [f' ->]. apply H.
Qed.
Definition sh_of (o : binop) : shop := match o with Shl => SHL | _ => SAR end.
Lemma shift_does o y e : o = Shl \/ o = Shr -> 0 <= y < 16 -> live e -> live (put [177; y; 211; shk_byte (sh_of o)] e) ->
  does e (put [177; y; 211; shk_byte (sh_of o)] e) (fun t t' => ax (rg t') = shval (sh_of o) (Z.to_nat y) (ax (rg t)) /\ keeps_but [R_AX; R_CX] t t').
Proof.
  intros HO HY L L'. apply does_of; auto. intros r g f m RO C _. pose proof (live_room _ _ L') as LR. pose proof (live_lo _ L). set (a := CodeAddress e) in *. clearbody a.
  cbn [length map] in *. rewrite (u8_small y) in C by lia.
  apply (code_app _ _ _ [177; y] [211; u8 (shk_byte (sh_of o))]) in C. destruct C as [C1 C2]. cbn [length] in C2.
  replace (u8 (shk_byte (sh_of o))) with (shk_byte (sh_of o)) in C2 by (destruct HO as [->| ->]; reflexivity).
  apply (reach_code _ [177; y] (IMov false (Reg 1) (Imm y)) 2 (fun _ => mkst (rset8 r 1 y) g (a + 2) f m)); [exact C1|intro; reflexivity|lia|intro; reflexivity|]. intro u.
  assert (CX : rset8 r 1 y = rset r 1 (cx r / 256 * 256 + y)) by (unfold rset8; cbn [Z.ltb Z.compare Pos.compare Pos.compare_cont rget]; reflexivity).
  assert (CB : 0 <= cx r < 65536) by apply RO.
  rewrite CX. apply (shcl8_run (sh_of o) _ g (a + 2) f m y); [|exact C2|lia|lia| |lia|].
  - apply rset_ok; [exact RO|]. lia.
  - unfold rget8. cbn [Z.ltb Z.compare Pos.compare Pos.compare_cont rget rset cx]. lia.
  - intro f'. apply reach_now. cbn [ip rg ax rset]. split; [lia|]. split; [reflexivity|]. unfold keeps_but. cbn [rg sg mem]. split; [|auto].
    intros q Q N. cbn [In] in N. unfold R_AX, R_CX in N. reg8 q; try (exfalso; tauto); reflexivity.
Qed.
Lemma shift_becomes o y s x0 s' : o = Shl \/ o = Shr -> 0 <= y < 16 -> live (em s) -> IsUnsignedOp (em s) = false -> CurrentType (em s) <> VT_BOOL ->
  (o2 W 177 y ;; DoBinOp W (bintok o) R_CX) s = Ok (x0, s') -> becomes s s' (Arith o) (fun _ => True) y.
Proof.
  intros HO HY L U T H. minv H z s1 E. apply o2_inv in E; [|exact L]. destruct E as [-> L1]. destruct x0.
  apply binop_emits in H; [|unfold R_CX; lia|exact L1]. destruct H as (-> & L2 & _). rewrite (em_app [177; y]), put_unsigned, U, app_app in *.
  replace ([177; y] ++ bin_code false o R_CX) with [177; y; 211; shk_byte (sh_of o)] in * by (destruct HO as [->| ->]; reflexivity).
  rewrite em_app in L2.
  pose proof (shift_does o y (em s) HO HY L L2) as D.
  apply (becomes_int s _ o (fun _ => True) y _ _ (fun a => shval (sh_of o) (Z.to_nat y) a) L T L2 ltac:(cbn; unfold u8; lia) D); clobs.
  intros x v Rx A _. split; [|auto]. destruct (arith_word o x y v Rx ltac:(unfold int_range; lia) A) as [_ B]; [destruct HO as [->| ->]; exact I|].
  rewrite <- B. rewrite (Z.mod_small y) by lia. unfold shval, binval. rewrite Z2Nat.id by lia. destruct HO as [->| ->]; reflexivity.
Qed.
Lemma mod_becomes y s x0 s' : live (em s) -> IsUnsignedOp (em s) = false -> CurrentType (em s) <> VT_BOOL -> int_range y ->
  (inem (EmitMovRImm W R_CX y) ;; DoBinOp W ch_percent R_CX) s = Ok (x0, s') -> becomes s s' (Arith Mod) (fun x => div_ok (Arith Mod) x y) y.
Proof.
  intros L U T R H. minv H z s1 E. apply inem_inv in E. destruct E as (e1 & E & ->). destruct x0.
  destruct (movcx_acts y (em s) z e1 L E) as (G & T1 & _ & U1 & A1). rewrite U in U1.
  destruct (op_acts_gen (Arith Mod) R_CX (set_em e1 s) s') as (e2 & -> & G2 & T2 & A2); [left; reflexivity|apply G|exact U1|rewrite set_em_em, T1; exact T|exact H|].
  rewrite set_em_em in *. exists e2. split; [reflexivity|]. split; [exact (grown_trans _ _ _ G G2)|]. split; [exact (eq_trans T2 T1)|].
  intros f x v FO Rx A DK. apply (acts_seq f _ e1 _ _ _ _ (proj1 (proj2 (proj2 G))) (proj1 (proj2 (proj2 G2))) (A1 f (x mod 65536) FO)).
  exact (A2 f x y v FO Rx R A DK).
Qed.

Theorem const_acts_gen o s x0 s' x y v : live (em s) -> IsUnsignedOp (em s) = false -> CurrentType (em s) <> VT_BOOL -> CurrentVal (em s) = y -> int_range x -> int_range y ->
  apply o x y = Some v -> const_ok o x y -> DoRhsConstBinOp W (op_tok o) s = Ok (x0, s') ->
  exists e', s' = set_em e' s /\ grown (em s) e' /\ tyto o (em s) e' /\
  forall f, frame_ok f -> acts f (em s) e' (fun t => ax (rg t) = x mod 65536) (res e' v).
Proof.
  intros L U T CV Rx R A CK H.
  assert (HH : exists ok : Z -> Prop, becomes s s' o ok y /\ ok x).
  2:{ destruct HH as (ok & (e' & B1 & B2 & B3 & B4) & K). exists e'. split; [exact B1|]. split; [exact B2|]. split; [exact B3|]. intros f FO. apply (B4 f x v FO Rx A K). }
  unfold DoRhsConstBinOp, gete in H. mgoin H. rewrite CV in H. destruct (small_int y R) as [R1 R2].
  assert (ALU : forall k, alu_for o = Some k -> op_tok o <> ch_plus -> op_tok o <> ch_minus -> exists ok : Z -> Prop, becomes s s' o ok y /\ ok x).
  { intros k K N1 N2. exists (fun x => div_ok o x y). split; [|destruct o as [[]|]; try exact I; discriminate K].
    apply (aluimm_becomes o k y s x0); auto.
    assert (N3 : op_tok o <> ch_star) by (destruct o as [[]|[]]; discriminate || discriminate K).
    assert (N4 : op_tok o <> ch_slash) by (destruct o as [[]|[]]; discriminate || discriminate K).
    rewrite !(proj2 (Z.eqb_neq _ _)) in H by assumption. unfold GetSimpleALU, gete in H. mgoin H. rewrite U in H.
    destruct (alu_inst o k K) as (b & (B1 & B2) & E & _).
    assert (NZ : (GetSimpleALU_ false (op_tok o) =? 0) = false) by (clear - K; destruct o as [[]|[]]; try discriminate K; reflexivity).
    rewrite NZ in H. cbn [negb] in H. exact H. }
  assert (SH : o = Arith Shl \/ o = Arith Shr -> exists ok : Z -> Prop, becomes s s' o ok y /\ ok x).
  { intros HO. exists (fun _ => True). split; [|exact I].
    assert (Y : 0 <= y < 16).
    { clear - A HO. destruct HO as [-> | ->]; cbn [apply apply_arith] in A;
        destruct (Z.leb_spec 0 y), (Z.ltb_spec y 16); rewrite ?andb_false_r in A; cbn [andb] in A; try discriminate; lia. }
    destruct HO as [-> | ->].
    - apply (shift_becomes Shl y s x0); auto.
    - apply (shift_becomes Shr y s x0); auto. }
  destruct o as [o|o].
  - destruct o; cbn [const_ok] in CK.
    + cbn [op_tok bintok] in H. change (ch_plus =? ch_plus) with true in H. cbv iota in H. exists (fun _ => True). split; [|exact I].
      apply (add_becomes s s' y x0 y Add L T ltac:(split; [apply R2; exact CK|apply R1]) H).
      intros x1 v1 A1. cbn [apply apply_arith] in A1. apply int16_some in A1. destruct A1 as [-> _]. reflexivity.
    + cbn [op_tok bintok] in H. change (ch_minus =? ch_plus) with false in H. change (ch_minus =? ch_minus) with true in H. cbv iota in H. exists (fun _ => True). split; [|exact I].
      rewrite ci_small in H by lia.
      apply (add_becomes s s' y x0 (- y) Sub L T ltac:(specialize (R2 CK); lia) H).
      intros x1 v1 A1. cbn [apply apply_arith] in A1. apply int16_some in A1. destruct A1 as [-> _]. reflexivity.
    + apply (ALU AND); [reflexivity|discriminate|discriminate].
    + apply (ALU OR); [reflexivity|discriminate|discriminate].
    + apply (ALU XOR); [reflexivity|discriminate|discriminate].
    + cbn [op_tok bintok] in H. change (ch_star =? ch_plus) with false in H. change (ch_star =? ch_minus) with false in H. change (ch_star =? ch_star) with true in H. cbv iota in H.
      exists (fun _ => True). split; [|exact I]. apply (mul_becomes s s' y x0); assumption.
    + cbn [op_tok bintok] in H. change (ch_slash =? ch_plus) with false in H. change (ch_slash =? ch_minus) with false in H. change (ch_slash =? ch_star) with false in H. change (ch_slash =? ch_slash) with true in H. cbv iota in H.
      eexists. split; [apply (div_becomes s s' y x0); auto; [|apply CK]|exact (proj2 CK)]. intros ->. discriminate A.
    + cbn [op_tok bintok] in H. change (ch_percent =? ch_plus) with false in H. change (ch_percent =? ch_minus) with false in H. change (ch_percent =? ch_star) with false in H. change (ch_percent =? ch_slash) with false in H. cbv iota in H.
      unfold GetSimpleALU, gete in H. mgoin H. change (GetSimpleALU_ (IsUnsignedOp (em s)) ch_percent) with 0 in H. cbn [negb Z.eqb] in H. change (hasb ch_percent 128) with false in H. cbv iota in H.
      eexists. split; [apply (mod_becomes y s x0); auto|exact CK].
    + apply SH. left. reflexivity.
    + apply SH. right. reflexivity.
  - apply (ALU CMP); [reflexivity| |]; destruct o; discriminate.
Qed.
Theorem const_acts o s x0 s' x y v : live (em s) -> IsUnsignedOp (em s) = false -> CurrentType (em s) = VT_INT -> CurrentVal (em s) = y -> int_range x -> int_range y ->
  apply o x y = Some v -> const_ok o x y -> DoRhsConstBinOp W (op_tok o) s = Ok (x0, s') ->
  exists e', s' = set_em e' s /\ grown (em s) e' /\ typ_of o e' /\
  forall f, frame_ok f -> acts f (em s) e' (fun t => ax (rg t) = x mod 65536) (res e' v).
Proof.
  intros L U T CV Rx R A CK H. destruct (const_acts_gen o s x0 s' x y v L U ltac:(rewrite T; discriminate) CV Rx R A CK H) as (e' & B1 & B2 & B3 & B4).
  exists e'. split; [exact B1|]. split; [exact B2|]. split; [exact (tyto_typ _ _ _ T B3)|exact B4].
Qed.
End W.
