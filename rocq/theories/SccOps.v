(** Run-time operators: the code emitted by DoBinOp for two values in registers, and by
    GetVal for a condition, run on the 8086. *)
From Verif Require Import Base Bits Spec8086 SccRun SccState SccEmit SccLex SccDecl SccExpr SccInput SccPut SccArith.

(** ** C operators on 16-bit values *)
Inductive binop := Add | Sub | And | Or | Xor | Mul | Div | Mod | Shl | Shr.
Inductive cmpop := Lt | Le | Gt | Ge | Eq | Ne.

(** the operator applied to two 16-bit words; u: unsigned operands *)
Definition binval (u : bool) (op : binop) (a b : Z) : Z :=
  let sa := signed true a in let sb := signed true b in
  match op with
  | Add => (a + b) mod 65536
  | Sub => (a - b) mod 65536
  | And => Z.land a b
  | Or => Z.lor a b
  | Xor => Z.lxor a b
  | Mul => (a * b) mod 65536
  | Div => if u then a / b else Z.quot sa sb mod 65536
  | Mod => if u then a mod b else Z.rem sa sb mod 65536
  | Shl => (a * 2 ^ b) mod 65536
  | Shr => if u then a / 2 ^ b else (sa / 2 ^ b) mod 65536
  end.
(** where C defines the operator (and the 8086 does not fault): no division by zero, no
    quotient of magnitude 32768, shift counts below 16 *)
Definition bindef (u : bool) (op : binop) (a b : Z) : Prop :=
  match op with
  | Div | Mod => b <> 0 /\ (u = false -> ~ (a = 32768 /\ (b = 1 \/ b = 65535)))
  | Shl | Shr => b < 16
  | _ => True
  end.
(** the comparison of two 16-bit words *)
Definition cmpval (u : bool) (op : cmpop) (a b : Z) : bool :=
  let x := if u then a else signed true a in
  let y := if u then b else signed true b in
  match op with
  | Lt => x <? y | Le => x <=? y | Gt => y <? x | Ge => y <=? x
  | Eq => a =? b | Ne => negb (a =? b)
  end.
(** the tokens of the compiler (scc.c:212-282) *)
Definition bintok (op : binop) : Z :=
  match op with
  | Add => ch_plus | Sub => ch_minus | And => ch_amp | Or => ch_bar | Xor => ch_caret
  | Mul => ch_star | Div => ch_slash | Mod => ch_percent | Shl => TOK_LSH | Shr => TOK_RSH
  end.
Definition cmptok (op : cmpop) : Z :=
  match op with Lt => ch_lt | Le => TOK_LTEQ | Gt => ch_gt | Ge => TOK_GTEQ | Eq => TOK_EQEQ | Ne => TOK_NOTEQ end.

Lemma quot_ok a b : 0 <= a < 65536 -> 0 <= b < 65536 -> b <> 0 -> ~ (a = 32768 /\ (b = 1 \/ b = 65535)) ->
  -32768 < Z.quot (signed true a) (signed true b) < 32768.
Proof.
  intros A B N X. pose proof (signed_range a A) as SA. pose proof (signed_range b B) as SB.
  assert (SZ : signed true b <> 0) by (unfold signed, half, modulus; destruct (Z.ltb_spec b 32768); lia).
  assert (S1 : signed true b = 1 -> b = 1) by (unfold signed, half, modulus; destruct (Z.ltb_spec b 32768); lia).
  assert (S2 : signed true b = -1 -> b = 65535) by (unfold signed, half, modulus; destruct (Z.ltb_spec b 32768); lia).
  assert (S3 : signed true a = -32768 -> a = 32768) by (unfold signed, half, modulus; destruct (Z.ltb_spec a 32768); lia).
  set (x := signed true a) in *. set (y := signed true b) in *. clearbody x y. clear A B N.
  destruct (Z.eq_dec y 1) as [->|N1].
  { rewrite Z.quot_1_r. assert (x <> -32768) by (intro E; apply X; split; auto). lia. }
  destruct (Z.eq_dec y (-1)) as [->|N2].
  { change (-1) with (- (1)). rewrite Z.quot_opp_r, Z.quot_1_r by lia. assert (x <> -32768) by (intro E; apply X; split; auto). lia. }
  assert (AQ : Z.abs (Z.quot x y) <= Z.abs x / 2).
  { rewrite <- Z.quot_abs by lia. rewrite Z.quot_div_nonneg by lia. apply Z.div_le_compat_l; lia. }
  set (q := Z.quot x y) in *. clearbody q. lia.
Qed.

(** ** Emission at the level of the whole compiler state *)
Lemma inem_inv {A} (m : M emst A) s x s' : inem m s = Ok (x, s') -> exists e, m (em s) = Ok (x, e) /\ s' = set_em e s.
Proof. unfold inem. destruct (m (em s)) as [[a e]| | |]; try discriminate. intro H. injection H as -> <-. eauto. Qed.
Lemma set_em_em e s : em (set_em e s) = e.
Proof. reflexivity. Qed.
Lemma set_em_set e e' s : set_em e (set_em e' s) = set_em e s.
Proof. reflexivity. Qed.

(** bytes appended, nothing else changed *)
Definition app_code (bs : list Z) (s : cc) : cc := set_em (put bs (em s)) s.
Lemma app_app a b s : app_code b (app_code a s) = app_code (a ++ b) s.
Proof. unfold app_code. rewrite put_app. reflexivity. Qed.
Lemma em_app bs s : em (app_code bs s) = put bs (em s).
Proof. reflexivity. Qed.

Section W.
Variable W : Z.
Hypothesis HW : 16 <= W.

Lemma o1_inv b s x s' : live (em s) -> o1 W b s = Ok (x, s') -> s' = app_code [b] s /\ live (em s').
Proof. intros L H. apply inem_inv in H. destruct H as (e & H & ->). apply out1 in H; auto. destruct H as [-> H]. auto. Qed.
Lemma o2_inv b0 b1 s x s' : live (em s) -> o2 W b0 b1 s = Ok (x, s') -> s' = app_code [b0; b1] s /\ live (em s').
Proof. intros L H. apply inem_inv in H. destruct H as (e & H & ->). apply out2 in H; auto. destruct H as [-> H]. auto. Qed.
Lemma o3_inv b0 b1 b2 s x s' : live (em s) -> o3 W b0 b1 b2 s = Ok (x, s') -> s' = app_code [b0; b1; b2] s /\ live (em s').
Proof. intros L H. apply inem_inv in H. destruct H as (e & H & ->). apply out3 in H; auto. destruct H as [-> H]. auto. Qed.

(** ** What DoBinOp appends *)
Definition alu_byte (op : binop) : Z :=
  match op with Add => 1 | Sub => 41 | And => 33 | Or => 9 | Xor => 49 | _ => 0 end.
Definition bin_code (u : bool) (op : binop) (r : Z) : list Z :=
  match op with
  | Add | Sub | And | Or | Xor => [alu_byte op; 192 + 8 * r]
  | Mul => [247; 224 + r]
  | Div => div_code u
  | Mod => div_code u ++ [146]
  | Shl => [211; 224]
  | Shr => [211; if u then 232 else 248]
  end.
Definition any_reg (op : binop) : bool :=
  match op with Add | Sub | And | Or | Xor | Mul => true | _ => false end.

Ltac alu_case := match goal with H : (if negb (_ =? 0) then _ else _) _ = _, L : live _ |- _ =>
  cbn [negb Z.eqb] in H; let x := fresh in let s1 := fresh in let E := fresh in
  minv H x s1 E; apply o2_inv in E; [|exact L]; destruct E as [-> L1]; cbn in H; injection H as <-;
    (split; [|split; [exact L1|left; reflexivity]]); unfold bin_code, alu_byte; f_equal; match goal with r : Z |- _ => reg8 r; reflexivity end end.
Ltac cx_case := match goal with H : bind (failif (negb (?r =? R_CX))) _ _ = _ |- _ =>
  destruct (Z.eqb_spec r R_CX) as [->|?]; cbn [negb failif] in H; [mgoin H|discriminate H] end.
Lemma binop_emits op r s s' : 0 <= r < 8 -> live (em s) ->
  DoBinOp W (bintok op) r s = Ok (tt, s') ->
  s' = app_code (bin_code (IsUnsignedOp (em s)) op r) s /\ live (em s') /\ (any_reg op = true \/ r = R_CX).
Proof.
  intros Hr L H. unfold DoBinOp, GetSimpleALU, gete in H. mgoin H.
  set (u := IsUnsignedOp (em s)) in *.
  destruct op; cbn [bintok] in H.
  - change (GetSimpleALU_ u ch_plus) with 1 in H. alu_case.
  - change (GetSimpleALU_ u ch_minus) with 41 in H. alu_case.
  - change (GetSimpleALU_ u ch_amp) with 33 in H. alu_case.
  - change (GetSimpleALU_ u ch_bar) with 9 in H. alu_case.
  - change (GetSimpleALU_ u ch_caret) with 49 in H. alu_case.
  - change (GetSimpleALU_ u ch_star) with 0 in H. cbn [negb Z.eqb] in H. change (ch_star =? ch_star) with true in H. cbv iota in H.
    minv H x s1 E. apply o2_inv in E; [|exact L]. destruct E as [-> L1]. cbn in H. injection H as <-.
    split; [|split; [exact L1|left; reflexivity]]. unfold bin_code. f_equal. reg8 r; reflexivity.
  - change (GetSimpleALU_ u ch_slash) with 0 in H. cbn [negb Z.eqb] in H. change (ch_slash =? ch_star) with false in H. cbv iota in H.
    cx_case. change ((ch_slash =? ch_slash) || (ch_slash =? ch_percent))%bool with true in H. cbv iota in H.
    minv H x s1 E. apply inem_inv in E. destruct E as (e1 & E & ->). apply divcx_emits in E; [|exact L]. destruct E as [-> L1].
    change (ch_slash =? ch_percent) with false in H. cbn [when] in H. injection H as <-.
    split; [reflexivity|split; [exact L1|right; reflexivity]].
  - change (GetSimpleALU_ u ch_percent) with 0 in H. cbn [negb Z.eqb] in H. change (ch_percent =? ch_star) with false in H. cbv iota in H.
    cx_case. change ((ch_percent =? ch_slash) || (ch_percent =? ch_percent))%bool with true in H. cbv iota in H.
    minv H x s1 E. apply inem_inv in E. destruct E as (e1 & E & ->). apply divcx_emits in E; [|exact L]. destruct E as [-> L1].
    change (ch_percent =? ch_percent) with true in H. cbn [when] in H. apply o1_inv in H; [|exact L1]. destruct H as [-> L2].
    split; [|split; [exact L2|right; reflexivity]]. unfold bin_code. rewrite <- app_app. reflexivity.
  - change (GetSimpleALU_ u TOK_LSH) with 0 in H. cbn [negb Z.eqb] in H. change (TOK_LSH =? ch_star) with false in H. cbv iota in H.
    cx_case. change ((TOK_LSH =? ch_slash) || (TOK_LSH =? ch_percent))%bool with false in H. change (TOK_LSH =? TOK_LSH) with true in H. cbv iota in H.
    minv H x s1 E. apply o2_inv in E; [|exact L]. destruct E as [-> L1]. cbn in H. injection H as <-.
    split; [reflexivity|split; [exact L1|right; reflexivity]].
  - change (GetSimpleALU_ u TOK_RSH) with 0 in H. cbn [negb Z.eqb] in H. change (TOK_RSH =? ch_star) with false in H. cbv iota in H.
    cx_case. change ((TOK_RSH =? ch_slash) || (TOK_RSH =? ch_percent))%bool with false in H. change (TOK_RSH =? TOK_LSH) with false in H.
    change (TOK_RSH =? TOK_RSH) with true in H. cbn [negb failif] in H. cbv iota in H. unfold gete in H. mgoin H. fold u in H.
    minv H x s1 E. apply o2_inv in E; [|exact L]. destruct E as [-> L1]. cbn in H. injection H as <-.
    split; [|split; [exact L1|right; reflexivity]]. unfold bin_code. destruct u; reflexivity.
Qed.

(** ** Running them *)
Lemma xchg_run q r g a f m P : 0 <= q < 8 -> code m (cs g) a [144 + q] -> 0 <= a -> a + 1 < 65536 ->
  reaches P (mkst (rset (rset r q (ax r)) 0 (rget r q)) g (a + 1) f m) -> reaches P (mkst r g a f m).
Proof.
  intros Q C A B H. runop [144 + q] (IXchg true (Reg q) (Reg 0)) 1; [intro; reg8 q; reflexivity|]. exact H.
Qed.

Ltac simple_alu r b i C U :=
  rewrite U in C; runop [b; 192 + 8 * r] (IAlu i true (Reg 0) (Reg r)) 2; [intro; reg8 r; reflexivity|].
Ltac fin_alu := (apply reach_now; cbn [ip rg]; split; [reflexivity|]; split; [reflexivity|]).

(** shift of AX by CL *)
Lemma shcl_run k r g a f m P : regs_ok r -> code m (cs g) a [211; shk_byte k] -> 0 <= a -> a + 2 < 65536 -> cx r < 16 ->
  (forall f', reaches P (mkst (rset r 0 (shval k (Z.to_nat (cx r)) (ax r))) g (a + 2) f' m)) ->
  reaches P (mkst r g a f m).
Proof.
  intros RO C A B N H. assert (CX : 0 <= cx r < 65536) by apply RO. assert (AX : 0 <= ax r < 65536) by apply RO.
  assert (CL : rget8 r 1 = cx r) by (unfold rget8; cbn [Z.ltb Z.compare Pos.compare Pos.compare_cont rget]; apply Z.mod_small; lia).
  assert (S1 : forall u, exists f', exec u (IShift k true (Reg 0) true) (mkst r g (a + 2) f m) = Some (mkst (rset r 0 (shval k (Z.to_nat (cx r)) (ax r))) g (a + 2) f' m)).
  { intro u. cbn [exec get_op rg rget]. rewrite CL. destruct (Z.eqb_spec (cx r) 0) as [E|NE].
    - rewrite E. unfold shift. cbn [Z.eqb]. change (Z.to_nat 0) with 0%nat. rewrite shval_0 by exact AX. eexists. reflexivity.
    - unfold shift. rewrite (proj2 (Z.eqb_neq _ _) NE). unfold shval. rewrite Z2Nat.id by lia. destruct k; eexists; reflexivity. }
  apply (reach_step P _ (fun u => match exec u (IShift k true (Reg 0) true) (mkst r g (a + 2) f m) with Some s => s | None => mkst r g a f m end)).
  + intro u. rewrite (step_code [211; shk_byte k] (IShift k true (Reg 0) true) 2 u (mkst r g a f m) C) by (destruct k; reflexivity).
    unfold set_ip. cbn [rg sg ip fl mem]. rewrite Z.mod_small by lia. destruct (S1 u) as [f' ->]. reflexivity.
  + intro u. destruct (S1 u) as [f' ->]. apply H.
Qed.
Lemma signed_nz x : 0 <= x < 65536 -> x <> 0 -> signed true x <> 0.
Proof. intros A N. unfold signed, half, modulus. destruct (Z.ltb_spec x 32768); lia. Qed.

Theorem binop_does op r s s' : 0 <= r < 8 -> live (em s) ->
  DoBinOp W (bintok op) r s = Ok (tt, s') ->
  let u := IsUnsignedOp (em s) in
  does_if (fun t => bindef u op (ax (rg t)) (rget (rg t) r)) (em s) (em s')
    (fun t t' => ax (rg t') = binval u op (ax (rg t)) (rget (rg t) r) /\ keeps_but [R_AX; R_DX] t t').
Proof.
  intros Hr L H. apply binop_emits in H; auto. destruct H as (-> & L' & AR). cbv zeta. rewrite em_app in *.
  set (u := IsUnsignedOp (em s)) in *. clearbody u.
  apply does_of; auto. intros R g f m RO C DEF. cbn [rg] in *.
  pose proof (live_room _ _ L') as LR. pose proof (live_lo _ L) as LO. set (a := CodeAddress (em s)) in *. clearbody a.
  assert (KB : forall v d i f', keeps_but [R_AX; R_DX] (mkst R g a f m) (mkst (rset (rset R 0 v) 2 d) g i f' m)).
  { intros. unfold keeps_but. cbn [rg sg mem]. split; [|auto]. intros q Hq N. cbn [In] in N. unfold R_AX, R_DX in N.
    reg8 q; try (exfalso; tauto); reflexivity. }
  assert (KB1 : forall v i f', keeps_but [R_AX; R_DX] (mkst R g a f m) (mkst (rset R 0 v) g i f' m)).
  { intros. unfold keeps_but. cbn [rg sg mem]. split; [|auto]. intros q Hq N. cbn [In] in N. unfold R_AX, R_DX in N.
    reg8 q; try (exfalso; tauto); reflexivity. }
  assert (U192 : u8 (192 + 8 * r) = 192 + 8 * r) by (apply u8_small; lia).
  assert (U224 : u8 (224 + r) = 224 + r) by (apply u8_small; lia).
  pose proof (rget_ok R r RO) as RGB. pose proof (rget_ok R 0 RO) as RA. cbn [rget] in RA.
  destruct op; cbn [bin_code alu_byte map length] in *; cbn [bindef] in DEF.
  - simple_alu r 1 ADD C U192. fin_alu. apply KB1.
  - simple_alu r 41 SUB C U192. fin_alu. apply KB1.
  - simple_alu r 33 AND C U192. fin_alu. apply KB1.
  - simple_alu r 9 OR C U192. fin_alu. apply KB1.
  - simple_alu r 49 XOR C U192. fin_alu. apply KB1.
  - rewrite U224 in C. apply (mul_run r); [lia|exact C|lia|lia|]. intro f'. apply reach_now. cbn [ip rg].
    split; [reflexivity|]. split; [reflexivity|]. apply KB.
  - destruct AR as [?| ->]; [discriminate|]. destruct DEF as [D0 D1]. change (rget R R_CX) with (cx R) in *.
    destruct u; cbn [div_code length] in *.
    + apply divu_run; auto; try lia. intro f'. apply reach_now. cbn [ip rg]. split; [reflexivity|]. split; [reflexivity|]. apply KB.
    + pose proof (quot_ok _ _ RA RGB D0 (D1 eq_refl)) as Q. apply divs_run; auto; try (clear - LR LO; lia); [apply signed_nz; auto|].
      intro f'. apply reach_now. cbn [ip rg]. split; [reflexivity|]. split; [reflexivity|]. apply KB.
  - destruct AR as [?| ->]; [discriminate|]. destruct DEF as [D0 D1]. change (rget R R_CX) with (cx R) in *.
    rewrite map_app in C. apply code_app in C. destruct C as [C1 C2].
    destruct u; cbn [div_code length app map] in *.
    + apply divu_run; auto; try lia. intro f'. apply (xchg_run 2); [lia|exact C2|lia|lia|].
      apply reach_now. cbn [ip rg]. split; [lia|]. split; [reflexivity|].
      replace (rset _ 0 _) with (rset (rset R 0 (ax R mod cx R)) 2 (ax R / cx R)) by reflexivity. apply KB.
    + pose proof (quot_ok _ _ RA RGB D0 (D1 eq_refl)) as Q. apply divs_run; auto; try (clear - LR LO; lia); [apply signed_nz; auto|].
      intro f'. clear Q. apply (xchg_run 2); [lia|exact C2|lia|lia|].
      apply reach_now. cbn [ip rg]. split; [lia|]. split; [reflexivity|].
      match goal with |- keeps_but _ _ (mkst (rset (rset _ 2 ?q) 0 ?v) _ _ _ _) => 
        replace (rset (rset _ 2 q) 0 v) with (rset (rset R 0 v) 2 q) by reflexivity end. apply KB.
  - destruct AR as [?| ->]; [discriminate|]. change (rget R R_CX) with (cx R) in *.
    apply (shcl_run SHL); auto; try lia. intro f'. apply reach_now. cbn [ip rg]. split; [reflexivity|].
    split; [|apply KB1]. cbn [ax rset]. unfold shval. rewrite Z2Nat.id by (clear - RGB; lia). reflexivity.
  - destruct AR as [?| ->]; [discriminate|]. change (rget R R_CX) with (cx R) in *.
    destruct u.
    + apply (shcl_run SHR); auto; try lia. intro f'. apply reach_now. cbn [ip rg]. split; [reflexivity|].
      split; [|apply KB1]. cbn [ax rset]. unfold shval. rewrite Z2Nat.id by (clear - RGB; lia). reflexivity.
    + apply (shcl_run SAR); auto; try lia. intro f'. apply reach_now. cbn [ip rg]. split; [reflexivity|].
      split; [|apply KB1]. cbn [ax rset]. unfold shval. rewrite Z2Nat.id by (clear - RGB; lia). reflexivity.
Qed.

(** ** Comparisons *)
(** the condition the compiler selects *)
Definition cmp_cc (u : bool) (op : cmpop) : Z :=
  match op with
  | Lt => if u then JC else JL | Le => if u then JNA else JNG
  | Gt => if u then JA else JG | Ge => if u then JNC else JNL
  | Eq => JZ | Ne => JNZ
  end.
(** the current value is a condition of the flags *)
Definition set_bool (c : Z) (s : cc) : cc := set_em (set_CurrentVal c (set_CurrentType VT_BOOL (em s))) s.

Lemma cmp_emits op r s s' : 0 <= r < 8 -> live (em s) ->
  DoBinOp W (cmptok op) r s = Ok (tt, s') ->
  s' = set_bool (cmp_cc (IsUnsignedOp (em s)) op) (app_code [57; 192 + 8 * r] s) /\ live (em s').
Proof.
  intros Hr L H. unfold DoBinOp, GetSimpleALU, gete in H. mgoin H. set (u := IsUnsignedOp (em s)) in *.
  assert (GA : GetSimpleALU_ u (cmptok op) = 57 + 256 * cmp_cc u op) by (destruct op, u; reflexivity).
  rewrite GA in H. assert (NZ : (57 + 256 * cmp_cc u op =? 0) = false) by (destruct op, u; reflexivity).
  rewrite NZ in H. cbn [negb] in H. minv H x s1 E. apply o2_inv in E; [|exact L]. destruct E as [-> L1].
  unfold FinishOp in H. assert (SH : Z.shiftr (57 + 256 * cmp_cc u op) 8 = cmp_cc u op) by (destruct op, u; reflexivity).
  rewrite SH in H. assert (NC : (cmp_cc u op =? 0) = false) by (destruct op, u; reflexivity).
  rewrite NC in H. cbn [negb when] in H. unfold setT, setV, upde in H. mgoin H.
  assert (AC : app_code [57 + 256 * cmp_cc u op; Z.lor MODRM_REG (Z.shiftl r 3)] s = app_code [57; 192 + 8 * r] s).
  { unfold app_code. f_equal. cbn [put put1]. unfold put1.
    replace (u8 (57 + 256 * cmp_cc u op)) with (u8 57) by (destruct op, u; reflexivity).
    replace (Z.lor MODRM_REG (Z.shiftl r 3)) with (192 + 8 * r) by (reg8 r; reflexivity). reflexivity. }
  rewrite AC in *. unfold upd in H. apply (f_equal (fun o => match o with Ok (_, z) => z | _ => s' end)) in H. cbv beta iota in H.
  subst s'. split; [reflexivity|]. exact L1.
Qed.

(** the flags CMP leaves decide every comparison *)
Lemma cmp_decides u op a b : 0 <= a < 65536 -> 0 <= b < 65536 ->
  cond (cmp_cc u op) (sub_flags true a b 0) = Some (cmpval u op a b) /\
  cond (Z.lxor (cmp_cc u op) 1) (sub_flags true a b 0) = Some (negb (cmpval u op a b)).
Proof.
  intros A B. assert (T : trunc true (a - b - 0) = if a <? b then a - b + 65536 else a - b).
  { unfold trunc, modulus. rewrite Z.sub_0_r. destruct (Z.ltb_spec a b); [|apply Z.mod_small; lia].
    rewrite <- (Z_mod_plus _ 1) by lia. rewrite Z.mod_small by lia. lia. }
  unfold sub_flags. rewrite T. unfold flags_of, in_signed, cmpval, signed, half, modulus.
  destruct op, u; cbn [cmp_cc]; unfold JC, JL, JNA, JNG, JA, JG, JNC, JNL, JZ, JNZ;
   cbn [cond Z.lxor Pos.lxor Pos.Ndouble Pos.Nsucc_double Z.of_N N.double N.succ_double Pos.pred_N fC fZ fS fO];
   destruct (Z.ltb_spec a b);
   repeat match goal with |- context [?x <? ?y] => destruct (Z.ltb_spec x y) end;
   repeat match goal with |- context [?x <=? ?y] => destruct (Z.leb_spec x y) end;
   repeat match goal with |- context [?x =? ?y] => destruct (Z.eqb_spec x y) end;
   cbn [andb orb negb xorb]; split; try reflexivity; exfalso; lia.
Qed.

(** the comparison code: only the flags change *)
Definition holds (c : Z) (v : bool) (s : state) : Prop :=
  cond c (fl s) = Some v /\ cond (Z.lxor c 1) (fl s) = Some (negb v).
Theorem cmp_does op r s s' : 0 <= r < 8 -> live (em s) ->
  DoBinOp W (cmptok op) r s = Ok (tt, s') ->
  let u := IsUnsignedOp (em s) in
  does (em s) (em s') (fun t t' => holds (CurrentVal (em s')) (cmpval u op (ax (rg t)) (rget (rg t) r)) t'
                                    /\ rg t' = rg t /\ sg t' = sg t /\ mem t' = mem t).
Proof.
  intros Hr L H. apply cmp_emits in H; auto. destruct H as (-> & L'). cbv zeta.
  set (u := IsUnsignedOp (em s)) in *. clearbody u.
  change (CurrentVal (em (set_bool (cmp_cc u op) (app_code [57; 192 + 8 * r] s)))) with (cmp_cc u op).
  change (live (put [57; 192 + 8 * r] (em s))) in L'.
  change (does (em s) (put [57; 192 + 8 * r] (em s)) (fun t t' => holds (cmp_cc u op) (cmpval u op (ax (rg t)) (rget (rg t) r)) t'
                                    /\ rg t' = rg t /\ sg t' = sg t /\ mem t' = mem t)).
  apply does_of; auto. intros R g f m RO C _. cbn [map length rg sg mem] in *.
  pose proof (live_room _ _ L') as LR. pose proof (live_lo _ L) as LO. cbn [length] in *. set (a := CodeAddress (em s)) in *. clearbody a.
  assert (U192 : u8 (192 + 8 * r) = 192 + 8 * r) by (apply u8_small; lia).
  pose proof (rget_ok R r RO) as RGB. pose proof (rget_ok R 0 RO) as RA. cbn [rget] in RA.
  simple_alu r 57 CMP C U192. apply reach_now. split; [reflexivity|]. cbn [rg sg mem].
  split; [|auto]. unfold holds. cbn [fl]. apply (cmp_decides u op (ax R) (rget R r)); assumption.
Qed.
End W.
