(** What the code of an expression does, and how the code of an operator is put together from that of its operands. *)
From Verif Require Import Base Bits Spec8086 SpecWf SccRun SccState SccEmit SccLex SccDecl SccExpr SccInput SccPut SccArith SccOps SccJump SccMem SccHold SccFlush SccSem SccBin SccVal ExprSpec.

(** the expression is a variable, perhaps in parentheses *)
Fixpoint kvar (ex : exp) : option Z := match ex with EVar x => Some x | EPar e => kvar e | _ => None end.
Definition sees_all (f : frame) (d : dcst) (vo : arr Z) (env : Z -> Z) (xs : list Z) : Prop := forall x, In x xs -> sees_var f d vo env x.
Definition Acts (f : frame) (n : nat) (e e' : emst) (P Q : state -> Prop) : Prop :=
  f_lo f <= CodeAddress e -> ext e' (f_fin f) -> forall V, space f V n ->
  runs f e e' (fun t => hold f e V t /\ P t) (fun t => hold f e' V t /\ Q t).
(** expressions that the compiler computes into an int: those whose outermost operator is arithmetic (unary + is
    not among them, +(x < y) stays a condition) *)
Fixpoint isint (e : exp) : bool :=
  match e with EPar e => isint e | EUn Neg _ | EUn Com _ => true | EOp (Arith _) _ _ => true | _ => false end.
(** between the emission states e and e' the expression ex of value v was compiled: constants and variables give
    no code, everything else leaves its value in AX or in the flags *)
Definition Sem (d : dcst) (env : Z -> Z) (ex : exp) (e e' : emst) (v : Z) : Prop :=
  gen e' /\ VOff e' = VOff e /\ ext e e' /\
  if constant ex then kin e e' /\ CurrentType e' = INTLIT /\ CurrentVal e' = v
  else match kvar ex with
  | Some x => kin e e' /\ exists Loc Val, int_var d (VOff e) x Loc Val /\ lvar e' Loc Val
  | None => Pending e' = 0 /\ typ e' /\ (bal e e' /\ (isbool ex = true -> CurrentType e' = VT_BOOL) /\ (isint ex = true -> CurrentType e' = VT_INT)) /\
      forall f, frame_ok f -> sees_all f d (VOff e) env (vars ex) -> Acts f (depth ex) e e' (fun _ => True) (res e' v)
  end.
(** the value of ex is in AX *)
Definition InReg (d : dcst) (env : Z -> Z) (ex : exp) (e e' : emst) (v : Z) : Prop :=
  live e' /\ VOff e' = VOff e /\ ext e e' /\ CurrentType e' = VT_INT /\ bal e e' /\
  forall f, frame_ok f -> sees_all f d (VOff e) env (vars ex) -> Acts f (depth ex) e e' (fun _ => True) (fun t => ax (rg t) = v mod 65536).

Lemma space_le f V n m : (m <= n)%nat -> space f V n -> space f V m.
Proof. unfold space. lia. Qed.
Lemma acts_Acts f n e e' P Q : acts f e e' P Q -> Acts f n e e' P Q.
Proof. intros H Lo X V SP. apply H; auto. apply (space_le f V n); [lia|exact SP]. Qed.
Lemma Acts_le f n m e e' P Q : (m <= n)%nat -> Acts f m e e' P Q -> Acts f n e e' P Q.
Proof. intros LE H Lo X V SP. apply H; auto. apply (space_le f V n); auto. Qed.
Lemma Acts_seq f n a b c P Q R : ext a b -> ext b c -> Acts f n a b P Q -> Acts f n b c Q R -> Acts f n a c P R.
Proof. intros X1 X2 H1 H2 Lo X V SP. eapply runs_seq; [exact (H1 Lo (ext_trans _ _ _ X2 X) V SP)|]. apply H2; auto. destruct X1. lia. Qed.
Lemma Acts_kin f n e e1 e2 P Q : kin e1 e2 -> Acts f n e e1 P Q -> Acts f n e e2 P Q.
Proof.
  intros K H Lo X V SP. apply (runs_addr f e e1); [reflexivity|symmetry; apply K|].
  eapply runs_imp; [exact (H Lo (ext_trans _ _ _ (ext_kin _ _ K) X) V SP)|auto|]. cbv beta. intros t [A B]. split; [exact (hold_kin _ _ _ _ _ K A)|exact B].
Qed.
Lemma Acts_kin_l f n e0 e e1 P Q : kin e0 e -> Acts f n e0 e1 P Q -> Acts f n e e1 P Q.
Proof.
  intros K H Lo X V SP. pose proof (kin_sym _ _ K) as K'. apply (runs_addr f e0 e1); [apply K'|reflexivity|].
  assert (Lo' : f_lo f <= CodeAddress e0) by (destruct K' as [-> _]; exact Lo). eapply runs_imp; [exact (H Lo' X V SP)| |auto].
  cbv beta. intros t [A B]. split; [exact (hold_kin _ _ _ _ _ K' A)|exact B].
Qed.
Lemma Acts_imp f n e e' (P Q P' Q' : state -> Prop) : Acts f n e e' P Q -> (forall t, P' t -> P t) -> (forall t, Q t -> Q' t) -> Acts f n e e' P' Q'.
Proof. intros H A B Lo X V SP. eapply runs_imp; [exact (H Lo X V SP)| |]; cbv beta; intros t [C D]; auto. Qed.

Lemma Sem_same d env ex e e1 e2 v : Sem d env ex e e1 v -> kin e1 e2 -> CurrentType e2 = CurrentType e1 -> CurrentVal e2 = CurrentVal e1 -> Sem d env ex e e2 v.
Proof.
  intros (G & V & X & S) K T C. pose proof K as (K1 & K2 & K3 & K4 & K5 & K6 & K7 & _). split; [exact (kin_gen _ _ K G)|]. split; [congruence|]. split; [exact (ext_trans _ _ _ X (ext_kin _ _ K))|].
  destruct (constant ex). { rewrite T, C. split; [exact (kin_trans _ _ _ (proj1 S) K)|apply S]. }
  destruct (kvar ex).
  - destruct S as (S1 & Loc & Val & S2 & S3). split; [exact (kin_trans _ _ _ S1 K)|]. exists Loc, Val. split; [exact S2|]. unfold lvar in *. rewrite T, C. exact S3.
  - destruct S as (S1 & S2 & (S4 & S5) & S3). split; [congruence|]. split; [unfold typ in *; rewrite T, C; exact S2|]. split; [split; [exact (bal_trans _ _ _ S4 (bal_kin _ _ K))|rewrite T; exact S5]|]. intros f FO SA.
    apply (Acts_kin f _ e e1 e2 _ _ K). eapply Acts_imp; [apply S3; assumption|auto|]. unfold res. rewrite T, C. auto.
Qed.
Lemma constant_kvar ex : constant ex = true -> kvar ex = None.
Proof. induction ex; cbn [constant kvar]; intros; auto; discriminate. Qed.
Lemma kvar_eval env ex x v : kvar ex = Some x -> eval env ex = Some v -> v = env x /\ vars ex = [x].
Proof. revert x v. induction ex; cbn [kvar eval vars]; intros y w K E; try discriminate; [injection K as <-; injection E as <-; auto|]. apply IHex; assumption. Qed.

Section W.
Variable W : Z.
Hypothesis HW : 16 <= W.

Lemma sem_getval d env ex e s x0 s' v : eval env ex = Some v -> constant ex = false -> gen e -> Sem d env ex e (em s) v -> GetVal W s = Ok (x0, s') ->
  exists e', s' = set_em e' s /\ InReg d env ex e e' v /\ IsUnsignedOp e' = IsUnsignedOp (em s).
Proof.
  intros EV C Ge (G & VO & X & S) H. rewrite C in S. destruct (kvar ex) as [x|] eqn:KV.
  - destruct S as (K & Loc & Val & IV & LV). destruct (kvar_eval env ex x v KV EV) as [-> VS].
    assert (IV' : int_var d (VOff (em s)) x Loc Val) by (rewrite VO; exact IV).
    destruct (getval_var W HW d x Loc Val s x0 s' G IV' LV H) as (e' & -> & A1 & A2 & A3 & A4 & A5 & A7 & A6).
    exists e'. split; [reflexivity|]. split; [|exact A5]. split; [exact A1|]. split; [congruence|]. split; [exact (ext_trans _ _ _ X A3)|]. split; [exact A4|]. split; [exact (bal_trans _ _ _ (bal_kin _ _ K) A7)|].
    intros f FO SA. apply (Acts_kin_l f _ (em s)); [apply kin_sym; exact K|]. apply acts_Acts. apply A6; [exact FO|]. rewrite VO. apply SA. rewrite VS. left. reflexivity.
  - destruct S as (P & [T|[T R]] & (BA & _) & A).
    + apply getval_int in H; [|exact T]. subst s'. exists (em s). split; [destruct s; reflexivity|]. split; [|reflexivity].
      split; [apply gen_live; assumption|]. split; [exact VO|]. split; [exact X|]. split; [exact T|]. split; [exact BA|]. intros f FO SA. specialize (A f FO SA).
      eapply Acts_imp; [exact A|auto|]. unfold res. rewrite T. auto.
    + destruct (getval_cond W s x0 s' (gen_live _ G P) T R H) as (e' & -> & GR & B2 & B3 & B4). pose proof GR as (G1 & G2 & G3 & _).
      exists e'. split; [reflexivity|]. split; [|exact B3]. split; [exact G1|]. split; [congruence|]. split; [exact (ext_trans _ _ _ X G3)|]. split; [exact B2|]. split; [exact (bal_trans _ _ _ BA (grown_bal _ _ (gen_live _ G P) GR))|].
      intros f FO SA. specialize (A f FO SA). intros Lo XF V SP t I1 I2 I3. assert (Lo2 : f_lo f <= CodeAddress (em s)) by (destruct X; lia).
      eapply reaches_trans; [apply (A Lo (ext_trans _ _ _ G3 XF) V SP t I1 I2 I3)|]. cbv beta. unfold res. rewrite T. change (VT_BOOL =? VT_BOOL) with true. cbv iota.
      intros t' (J1 & J2 & J3 & b & J4 & J5). eapply reaches_imp; [apply (B4 f b FO Lo2 XF V (space_le f V _ 0 ltac:(lia) SP) t' J1 J2); auto|].
      cbv beta. intros t2 (M1 & M2 & M3 & M4). split; [exact M1|]. split; [exact M2|]. split; [exact M3|]. rewrite M4, J4. destruct b; reflexivity.
Qed.

(** *** The left operand *)
(** what ParseExpr1 does with the left operand before it reads the right one, scc.c:2430-2446 *)
Definition left_prep : M cc unit :=
  LvalToRval W ;;
  let! t := gete CurrentType in
  when (t =? VT_BOOL) (GetVal W) ;;
  let! t := gete CurrentType in
  let! dead := gete IsDeadCode in
  when (negb (hasb t VT_LOCMASK) && negb dead) setPushAx.
(** the left operand a is saved: a constant in the compiler, anything else in AX with its push postponed *)
Definition Left (d : dcst) (env : Z -> Z) (a : exp) (e e2 : emst) (va : Z) : Prop :=
  if constant a then kin e e2 /\ CurrentType e2 = INTLIT /\ CurrentVal e2 = va
  else exists e1, InReg d env a e e1 va /\ e2 = set_Pending 1 e1.
Lemma left_sem d env a e s x0 s' v : eval env a = Some v -> gen e -> Sem d env a e (em s) v -> left_prep s = Ok (x0, s') ->
  exists e2, s' = set_em e2 s /\ Left d env a e e2 v.
Proof.
  intros EV Ge SM H. unfold left_prep in H. unfold Left. destruct (constant a) eqn:C.
  - destruct SM as (G & VO & X & S). rewrite C in S. destruct S as (K & T & CV).
    rewrite (bind_ok _ _ s tt s) in H by (apply lval_not; rewrite T; reflexivity). unfold gete in H. mgoin H. rewrite T in H. change (INTLIT =? VT_BOOL) with false in H. cbn [when] in H. mgoin H.
    rewrite T in H. change (negb (hasb INTLIT VT_LOCMASK)) with false in H. cbn [andb when] in H. oki H.
    exists (em s). split; [destruct s; reflexivity|]. auto.
  - assert (HH : exists s1 e1, s1 = set_em e1 s /\ InReg d env a e e1 v /\ (let! dead := gete IsDeadCode in when (negb (hasb (CurrentType (em s1)) VT_LOCMASK) && negb dead) setPushAx) s1 = Ok (x0, s')).
    { destruct (kvar a) as [x|] eqn:KV.
      - pose proof SM as (G & VO & X & S). rewrite C, KV in S. destruct S as (K & Loc & Val & IV & LV). destruct (kvar_eval env a x v KV EV) as [-> VS].
        assert (IV' : int_var d (VOff (em s)) x Loc Val) by (rewrite VO; exact IV).
        minv H z s1 E. destruct (lval_var W HW d x Loc Val s z s1 G IV' LV E) as (e' & -> & A1 & A2 & A3 & A4 & A5 & A7 & A6).
        unfold gete in H. mgoin H. rewrite set_em_em, A4 in H. change (VT_INT =? VT_BOOL) with false in H. cbn [when] in H. mgoin H. 
        exists (set_em e' s), e'. split; [reflexivity|]. split; [|exact H].
        split; [exact A1|]. split; [congruence|]. split; [exact (ext_trans _ _ _ X A3)|]. split; [exact A4|]. split; [exact (bal_trans _ _ _ (bal_kin _ _ K) A7)|].
        intros f FO SA. apply (Acts_kin_l f _ (em s)); [apply kin_sym; exact K|]. apply acts_Acts. apply A6; [exact FO|]. rewrite VO. apply SA. rewrite VS. left. reflexivity.
      - pose proof SM as (G & VO & X & S). rewrite C, KV in S. destruct S as (P & T & (BA & _) & A).
        assert (NL : hasb (CurrentType (em s)) VT_LVAL = false) by (destruct T as [->|[-> _]]; reflexivity).
        rewrite (bind_ok _ _ s tt s) in H by (apply lval_not; exact NL). unfold gete in H. mgoin H. destruct T as [T|[T R]].
        + rewrite T in H. change (VT_INT =? VT_BOOL) with false in H. cbn [when] in H. mgoin H. exists s, (em s). split; [destruct s; reflexivity|]. split; [|exact H].
          split; [apply gen_live; assumption|]. split; [exact VO|]. split; [exact X|]. split; [exact T|]. split; [exact BA|]. intros f FO SA. specialize (A f FO SA).
          eapply Acts_imp; [exact A|auto|]. unfold res. rewrite T. auto.
        + rewrite T in H. change (VT_BOOL =? VT_BOOL) with true in H. cbn [when] in H. minv H z s1 E. mgoin H.
          destruct (sem_getval d env a e s z s1 v EV C Ge SM E) as (e' & -> & IR & _). exists (set_em e' s), e'. split; [reflexivity|]. split; [exact IR|exact H]. }
    destruct HH as (s1 & e1 & -> & IR & H'). pose proof IR as (L & _ & _ & T & _). unfold gete in H'. mgoin H'. rewrite set_em_em, T in H'.
    change (negb (hasb VT_INT VT_LOCMASK)) with true in H'. rewrite (proj1 L) in H'. cbn [andb negb when] in H'. unfold setPushAx, upde in H'. oki H'.
    exists (set_Pending 1 e1). split; [|exists e1; auto]. rewrite set_em_em. rewrite (proj1 (proj2 L)). reflexivity.
Qed.

(** *** Operators *)
Lemma left_saved f e1 a V t : live e1 -> hold f e1 V t -> ax (rg t) = a -> hold f (set_Pending 1 e1) (a :: V) t.
Proof.
  intros L (l & EV & ST & OFF) A. exists l. change (Pending (set_Pending 1 e1)) with 1. rewrite (proj1 (proj2 L)) in EV. change (0 =? 0) with true in EV. change (1 =? 0) with false. rewrite (proj1 (proj2 L)) in ST. change (0 =? -8) with false in ST. change (1 =? -8) with false.
  cbv iota in *. split; [|split; [exact ST|exact OFF]]. rewrite EV, A. reflexivity.
Qed.
Definition commuting (o : oper) : bool :=
  match o with Arith Add | Arith Mul | Arith And | Arith Or | Arith Xor | Rel Eq | Rel Ne => true | _ => false end.
Lemma commuting_tok o : OpCommutes (op_tok o) = commuting o.
Proof. destruct o as [[]|[]]; reflexivity. Qed.
Lemma commuting_apply o x y : commuting o = true -> apply o x y = apply o y x.
Proof.
  destruct o as [[]|[]]; cbn [commuting apply apply_arith compare]; intro H; try discriminate H.
  all: first [rewrite Z.add_comm; reflexivity|rewrite Z.mul_comm; reflexivity|rewrite Z.land_comm; reflexivity|rewrite Z.lor_comm; reflexivity|rewrite Z.lxor_comm; reflexivity|rewrite Z.eqb_sym; reflexivity].
Qed.
Lemma commuting_div o x y : commuting o = true -> div_ok o x y.
Proof. destruct o as [[]|[]]; cbn; intro H; try discriminate H; exact I. Qed.
Lemma right_div o a b x y : constant b = false -> right_op o a b x y -> div_ok o x y.
Proof. destruct o as [[]|]; cbn [right_op div_ok]; intros E; rewrite ?E; auto. Qed.
Lemma right_const o a b x y : constant b = true -> right_op o a b x y -> const_ok o x y.
Proof. destruct o as [[]|]; cbn [right_op const_ok]; intros E; rewrite ?E; tauto. Qed.
Lemma right_const_l o a b x y : commuting o = true -> constant a = true -> right_op o a b x y -> const_ok o y x.
Proof. destruct o as [[]|]; cbn [right_op const_ok commuting]; intros C E; rewrite ?E; try discriminate C; tauto. Qed.

(** the result of an operator that was compiled to code *)
Lemma Sem_op d env o a b e e' v : constant a && constant b = false -> VOff e' = VOff e -> ext e e' -> live e' -> typ_of o e' -> bal e e' ->
  (forall f, frame_ok f -> sees_all f d (VOff e) env (vars a) -> sees_all f d (VOff e) env (vars b) -> Acts f (depth (EOp o a b)) e e' (fun _ => True) (res e' v)) ->
  Sem d env (EOp o a b) e e' v.
Proof.
  intros C VO X L T BA A. split; [apply live_gen; exact L|]. split; [exact VO|]. split; [exact X|]. cbn [constant kvar]. rewrite C. split; [apply L|]. split; [exact (typ_of_typ _ _ T)|].
  split; [split; [exact BA|]; cbn [isbool isint]; destruct o; split; intro IB; first [discriminate IB|exact (proj1 T)|exact T]|].
  intros f FO SA. apply A; auto; intros x I; apply SA; cbn [vars]; apply in_or_app; auto.
Qed.

Lemma bal_pop e e1 e3 e4 : bal e e1 -> live e1 -> bal (set_Pending 1 e1) e3 -> live e3 -> live e4 -> RegUse e4 = false -> LocalOffset e4 = LocalOffset e3 + (if RegUse e3 then 0 else 2) -> bal e e4.
Proof.
  intros [A1 A2] L1 [B1 B2] L3 L4 R O. unfold bal, cnt in *. rewrite (proj1 (proj2 L1)) in A1. rewrite (proj1 (proj2 L3)) in B1. rewrite (proj1 (proj2 L4)), R, O.
  change (Pending (set_Pending 1 e1)) with 1 in B1. change (RegUse (set_Pending 1 e1)) with (RegUse e1) in B1. change (LocalOffset (set_Pending 1 e1)) with (LocalOffset e1) in *.
  change (0 =? 0) with true in *. change (1 =? 0) with false in B1. change (1 =? -8) with false in B1. cbv iota in *. destruct (RegUse e1), (RegUse e3); lia.
Qed.
Section op.
Variables (d : dcst) (env : Z -> Z) (o : oper) (a b : exp) (e : emst) (va vb v : Z).
Hypothesis EO : env_ok env.
Hypothesis Ge : gen e.
Hypothesis Ea : eval env a = Some va.
Hypothesis Eb : eval env b = Some vb.
Hypothesis Ra : int_range va.
Hypothesis Rb : int_range vb.
Hypothesis Ao : apply o va vb = Some v.
Hypothesis Ro : right_op o a b va vb.

(** a constant on the left *)
Definition lit_left : M cc unit :=
  GetVal W ;;
  if OpCommutes (op_tok o) then setV va ;; DoRhsConstBinOp W (op_tok o)
  else inem (EmitMovRImm W R_CX va) ;; when (negb (OpCommutes (op_tok o))) (o1 W (Z.lor I_XCHG_AX R_CX)) ;; DoBinOp W (op_tok o) R_CX.
Lemma lit_left_sem e2 s x0 s' : constant a = true -> constant b = false -> kin e e2 -> Sem d env b e2 (em s) vb -> IsUnsignedOp (em s) = false ->
  lit_left s = Ok (x0, s') -> exists e', s' = set_em e' s /\ Sem d env (EOp o a b) e e' v.
Proof.
  intros Ca Cb K SM U H. unfold lit_left in H. minv H z s1 E. 
  destruct (sem_getval d env b e2 s z s1 vb Eb Cb (kin_gen _ _ K Ge) SM E) as (e3 & -> & (L3 & VO3 & X3 & T3 & BA3 & A3) & U3). rewrite U in U3. clear E.
  pose proof K as (K1 & K2 & K3 & K4 & K5 & K6 & K7 & _). rewrite K6 in *. pose proof (ext_trans _ _ _ (ext_kin _ _ K) X3) as X03.
  assert (DP : (depth b <= depth (EOp o a b))%nat) by (cbn [depth]; lia).
  assert (CC : constant a && constant b = false) by (rewrite Cb, andb_false_r; reflexivity).
  rewrite commuting_tok in H. destruct (commuting o) eqn:CO.
  - unfold setV, upde in H. mgoin H. rewrite set_em_em in *.
    destruct (const_acts W HW o (set_em (set_CurrentVal va e3) (set_em e3 s)) x0 s' vb va v (kin_live _ _ (set_val_kin va e3) L3) U3 T3 eq_refl Rb Ra ltac:(rewrite commuting_apply; [exact Ao|exact CO]) (right_const_l _ _ _ _ _ CO Ca Ro) H)
      as (e' & -> & GR & TY & A). pose proof GR as (G1 & G2 & G3 & _). rewrite set_em_em in *.
    exists e'. split; [reflexivity|]. pose proof (ext_trans _ _ _ (ext_kin _ _ (set_val_kin va e3)) G3) as X4. apply Sem_op; [exact CC|rewrite G2; exact VO3|exact (ext_trans _ _ _ X03 X4)|exact G1|exact TY|exact (bal_trans _ _ _ (bal_kin _ _ K) (bal_trans _ _ _ BA3 (bal_trans _ _ _ (bal_kin _ _ (set_val_kin va e3)) (grown_bal _ _ (kin_live _ _ (set_val_kin va e3) L3) GR))))|].
    intros f FO _ SB. apply (Acts_seq f _ e e3 e' _ (fun t => ax (rg t) = vb mod 65536) _ X03 X4).
    + apply (Acts_kin_l f _ e2); [apply kin_sym; exact K|]. apply (Acts_le f _ (depth b)); [exact DP|]. apply A3; assumption.
    + apply acts_Acts. apply (acts_kin_l f (set_CurrentVal va e3)); [apply kin_sym; apply set_val_kin|]. apply A. exact FO.
  - minv H z2 s2 E2. apply inem_inv in E2. destruct E2 as (e4 & E2 & ->). rewrite set_em_em in *.
    destruct (movcx_acts W va e3 z2 e4 L3 E2) as (G4 & T4 & _ & U4 & A4). clear E2. cbn [negb when] in H. minv H z3 s3 E3.
    apply (xchgcx_acts W (set_em e4 s)) in E3; [|exact (proj1 G4)]. destruct E3 as (-> & G5 & A5). rewrite em_app, set_em_em in *.
    destruct x0. apply op_acts in H; [|left; reflexivity|exact (proj1 G5)|rewrite em_app, set_em_em, put_unsigned; congruence|rewrite em_app, set_em_em, put_ctype; congruence].
    destruct H as (e' & -> & G6 & TY & A6). rewrite em_app, !set_em_em in *. 
    exists e'. split; [reflexivity|]. pose proof (bal_trans _ _ _ (bal_kin _ _ K) (bal_trans _ _ _ BA3 (bal_trans _ _ _ (grown_bal _ _ L3 G4) (bal_trans _ _ _ (grown_bal _ _ (proj1 G4) G5) (grown_bal _ _ (proj1 G5) G6))))) as BA.
    destruct G4 as (_ & V4 & X4 & _), G5 as (_ & V5 & X5 & _), G6 as (G6 & V6 & X6 & _).
    pose proof (ext_trans _ _ _ X4 (ext_trans _ _ _ X5 X6)) as X36.
    apply Sem_op; [exact CC|congruence|exact (ext_trans _ _ _ X03 X36)|exact G6|exact TY|exact BA|].
    intros f FO _ SB. apply (Acts_seq f _ e e3 e' _ (fun t => ax (rg t) = vb mod 65536) _ X03 X36).
    + apply (Acts_kin_l f _ e2); [apply kin_sym; exact K|]. apply (Acts_le f _ (depth b)); [exact DP|]. apply A3; assumption.
    + apply acts_Acts. apply (acts_seq f _ e4 _ _ _ _ X4 (ext_trans _ _ _ X5 X6) (A4 f (vb mod 65536) FO)).
      apply (acts_seq f _ _ _ _ _ _ X5 X6 (A5 f (vb mod 65536) (va mod 65536) FO)).
      apply (A6 f va vb v FO Ra Rb Ao). exact (right_div _ _ _ _ _ Cb Ro).
Qed.

(** a constant on the right *)
Lemma lit_right_sem e1 s x0 s' : constant a = false -> constant b = true -> InReg d env a e e1 va -> kin (set_Pending 1 e1) (em s) ->
  CurrentVal (em s) = vb -> IsUnsignedOp (em s) = false ->
  (clrPushAx ;; setT VT_INT ;; DoRhsConstBinOp W (op_tok o)) s = Ok (x0, s') -> exists e', s' = set_em e' s /\ Sem d env (EOp o a b) e e' v.
Proof.
  intros Ca Cb (L1 & VO1 & X1 & T1 & BA1 & A1) K CV U H. unfold clrPushAx, setT, upde in H. mgoin H. rewrite !set_em_em in *.
  set (e3 := set_CurrentType VT_INT (set_Pending (clr (Pending (em s)) 1) (em s))) in *.
  assert (K3 : kin e1 e3).
  { destruct K as (K1 & K2 & K3 & K4 & K5 & K6 & K7 & K8). unfold kin, e3. change (Pending (set_CurrentType VT_INT (set_Pending (clr (Pending (em s)) 1) (em s)))) with (clr (Pending (em s)) 1).
    rewrite K4. change (clr (Pending (set_Pending 1 e1)) 1) with 0. rewrite (proj1 (proj2 L1)). repeat split; assumption. }
  pose proof (kin_live _ _ K3 L1) as L3. pose proof (ext_kin _ _ K3) as X13.
  match type of H with _ ?st = _ => set (st3 := st) in * end. change (em st3) with e3 in *.
  destruct (const_acts W HW o st3 x0 s' va vb v L3 U eq_refl CV Ra Rb Ao (right_const _ _ _ _ _ Cb Ro) H) as (e' & -> & GR & TY & A). pose proof GR as (G1 & G2 & G3 & _). change (em st3) with e3 in *. unfold st3.
  exists e'. split; [reflexivity|]. pose proof (ext_trans _ _ _ X13 G3) as X4.
  apply Sem_op; [rewrite Ca; reflexivity|rewrite G2; destruct K3 as (_ & _ & _ & _ & _ & -> & _); exact VO1|exact (ext_trans _ _ _ X1 X4)|exact G1|exact TY|exact (bal_trans _ _ _ BA1 (bal_trans _ _ _ (bal_kin _ _ K3) (grown_bal _ _ L3 GR)))|].
  intros f FO SA _. apply (Acts_seq f _ e e1 e' _ (fun t => ax (rg t) = va mod 65536) _ X1 X4).
  - apply (Acts_le f _ (depth a)); [cbn [depth]; lia|]. apply A1; assumption.
  - apply acts_Acts. apply (acts_kin_l f e3); [apply kin_sym; exact K3|]. apply A. exact FO.
Qed.

(** a variable on the right *)
Lemma var_right_sem e1 s x0 s' x Loc Val : constant a = false -> constant b = false -> kvar b = Some x -> InReg d env a e e1 va -> kin (set_Pending 1 e1) (em s) ->
  int_var d (VOff (em s)) x Loc Val -> lvar (em s) Loc Val -> IsUnsignedOp (em s) = false ->
  (clrPushAx ;; let! done := DoRhsLvalBinOp W (op_tok o) in if done then ret tt else when (negb (OpCommutes (op_tok o))) (o1 W (Z.lor I_XCHG_AX R_CX)) ;; DoBinOp W (op_tok o) R_CX) s = Ok (x0, s') ->
  exists e', s' = set_em e' s /\ Sem d env (EOp o a b) e e' v.
Proof.
  intros Ca Cb KV (L1 & VO1 & X1 & T1 & BA1 & A1) K IV LV U H. unfold clrPushAx, upde in H. mgoin H.
  destruct (kvar_eval env b x vb KV Eb) as [Ev VS].
  set (e3 := set_Pending (clr (Pending (em s)) 1) (em s)) in *.
  assert (K3 : kin e1 e3).
  { destruct K as (K1 & K2 & K3 & K4 & K5 & K6 & K7 & K8). unfold kin, e3. change (Pending (set_Pending (clr (Pending (em s)) 1) (em s))) with (clr (Pending (em s)) 1).
    rewrite K4. change (clr (Pending (set_Pending 1 e1)) 1) with 0. rewrite (proj1 (proj2 L1)). repeat split; assumption. }
  pose proof (kin_live _ _ K3 L1) as L3. pose proof (ext_kin _ _ K3) as X13.
  assert (VO3 : VOff e3 = VOff e) by (destruct K3 as (_ & _ & _ & _ & _ & -> & _); exact VO1).
  minv H done s1 E. destruct (rhs_lval W o d x Loc Val (set_em e3 s) done s1 L3 U IV LV E) as (e4 & -> & GR4 & D). rewrite !set_em_em in *. clear E. pose proof GR4 as (G4 & V4 & X4 & _).
  pose proof (bal_trans _ _ _ BA1 (bal_trans _ _ _ (bal_kin _ _ K3) (grown_bal _ _ L3 GR4))) as BA4.
  pose proof (ext_trans _ _ _ X13 X4) as X14.
  assert (LE : (depth a <= depth (EOp o a b))%nat) by (cbn [depth]; lia).
  assert (CC : constant a && constant b = false) by (rewrite Ca; reflexivity).
  rewrite Ev in *. destruct done.
  - destruct D as [TY A]. oki H. exists e4. split; [reflexivity|].
    apply Sem_op; [exact CC|congruence|exact (ext_trans _ _ _ X1 X14)|exact G4|exact TY|exact BA4|].
    intros f FO SA SB. apply (Acts_seq f _ e e1 e4 _ (fun t => ax (rg t) = va mod 65536) _ X1 X14).
    + apply (Acts_le f _ (depth a)); [exact LE|]. apply A1; assumption.
    + apply acts_Acts. apply (acts_kin_l f e3); [apply kin_sym; exact K3|]. apply (A f env va v FO EO); [rewrite VO3; apply SB; rewrite VS; left; reflexivity|exact Ra|exact Ao|exact (right_div _ _ _ _ _ Cb Ro)].
  - destruct D as (NA & T4 & U4 & A). rewrite commuting_tok in H. destruct (commuting o) eqn:CO.
    + cbn [negb when] in H. rewrite (bind_ok _ _ _ tt (set_em e4 s)) in H by reflexivity. destruct x0. apply op_acts in H; [|left; reflexivity|exact G4|exact U4|exact T4].
      destruct H as (e' & -> & GR6 & TY & A6). pose proof GR6 as (G6 & V6 & X6 & _). rewrite !set_em_em in *.
      exists e'. split; [reflexivity|]. pose proof (ext_trans _ _ _ X14 X6) as X16.
      apply Sem_op; [exact CC|congruence|exact (ext_trans _ _ _ X1 X16)|exact G6|exact TY|exact (bal_trans _ _ _ BA4 (grown_bal _ _ G4 GR6))|].
      intros f FO SA SB. apply (Acts_seq f _ e e1 e' _ (fun t => ax (rg t) = va mod 65536) _ X1 X16).
      * apply (Acts_le f _ (depth a)); [exact LE|]. apply A1; assumption.
      * apply acts_Acts. apply (acts_kin_l f e3); [apply kin_sym; exact K3|].
        apply (acts_seq f _ e4 _ _ _ _ X4 X6 (A f env (va mod 65536) FO ltac:(rewrite VO3; apply SB; rewrite VS; left; reflexivity))).
        apply (A6 f (env x) va v FO Rb Ra); [rewrite commuting_apply; [exact Ao|exact CO]|apply commuting_div; exact CO].
    + cbn [negb when] in H. minv H z3 s3 E3.
      apply (xchgcx_acts W (set_em e4 s)) in E3; [|exact G4]. destruct E3 as (-> & G5 & A5). rewrite em_app, set_em_em in *.
      destruct x0. apply op_acts in H; [|left; reflexivity|exact (proj1 G5)|rewrite em_app, set_em_em, put_unsigned; congruence|rewrite em_app, set_em_em, put_ctype; congruence].
      destruct H as (e' & -> & GR6 & TY & A6). pose proof GR6 as (G6 & V6 & X6 & _). rewrite em_app, !set_em_em in *. pose proof G5 as GR5. destruct G5 as (_ & V5 & X5 & _).
      exists e'. split; [reflexivity|]. pose proof (ext_trans _ _ _ X14 (ext_trans _ _ _ X5 X6)) as X16.
      apply Sem_op; [exact CC|congruence|exact (ext_trans _ _ _ X1 X16)|exact G6|exact TY|exact (bal_trans _ _ _ BA4 (bal_trans _ _ _ (grown_bal _ _ G4 GR5) (grown_bal _ _ (proj1 GR5) GR6)))|].
      intros f FO SA SB. apply (Acts_seq f _ e e1 e' _ (fun t => ax (rg t) = va mod 65536) _ X1 X16).
      * apply (Acts_le f _ (depth a)); [exact LE|]. apply A1; assumption.
      * apply acts_Acts. apply (acts_kin_l f e3); [apply kin_sym; exact K3|].
        apply (acts_seq f _ e4 _ _ _ _ X4 (ext_trans _ _ _ X5 X6) (A f env (va mod 65536) FO ltac:(rewrite VO3; apply SB; rewrite VS; left; reflexivity))).
        apply (acts_seq f _ _ _ _ _ _ X5 X6 (A5 f (env x mod 65536) (va mod 65536) FO)).
        apply (A6 f va (env x) v FO Ra Rb Ao). exact (right_div _ _ _ _ _ Cb Ro).
Qed.

(** anything else on the right *)
Lemma other_right_sem e1 s x0 s' : constant a = false -> constant b = false -> InReg d env a e e1 va -> Sem d env b (set_Pending 1 e1) (em s) vb -> IsUnsignedOp (em s) = false ->
  (GetVal W ;;
   if negb (OpCommutes (op_tok o)) then o1 W (Z.lor I_XCHG_AX R_CX) ;; GetStoredVal W R_AX ;; when (negb true) (o1 W (Z.lor I_XCHG_AX R_CX)) ;; DoBinOp W (op_tok o) R_CX
   else let! R := GetStoredVal W (-1) in when (negb true) (o1 W (Z.lor I_XCHG_AX R)) ;; DoBinOp W (op_tok o) R) s = Ok (x0, s') ->
  exists e', s' = set_em e' s /\ Sem d env (EOp o a b) e e' v.
Proof.
  intros Ca Cb (L1 & VO1 & X1 & T1 & BA1 & A1) SM U H. minv H z s1 E.
  assert (G2 : gen (set_Pending 1 e1)) by (destruct L1 as (B1 & B2 & B3); split; [exact B1|]; split; [right; left; reflexivity|exact B3]).
  destruct (sem_getval d env b _ s z s1 vb Eb Cb G2 SM E) as (e3 & -> & (L3 & VO3 & X3 & T3 & BA3 & A3) & U3). rewrite U in U3. clear E.
  change (VOff (set_Pending 1 e1)) with (VOff e1) in *. rewrite VO1 in *.
  assert (LE : (depth a <= depth (EOp o a b))%nat) by (cbn [depth]; lia).
  assert (CC : constant a && constant b = false) by (rewrite Ca; reflexivity).
  assert (X13 : ext e1 e3) by exact X3. pose proof (ext_trans _ _ _ X1 X13) as X03.
  assert (LO : CodeAddress e <= CodeAddress e1 /\ CodeAddress e1 <= CodeAddress e3) by (destruct X1, X13; auto).
  assert (SPC : forall f V, space f V (depth (EOp o a b)) -> space f (va mod 65536 :: V) (depth b)) by (unfold space; cbn [depth length]; intros; lia).
  assert (RUN : forall f V, frame_ok f -> sees_all f d (VOff e) env (vars a) -> sees_all f d (VOff e) env (vars b) -> f_lo f <= CodeAddress e -> ext e3 (f_fin f) -> space f V (depth (EOp o a b)) ->
    runs f e e3 (fun t => hold f e V t /\ True) (fun t => hold f e3 (va mod 65536 :: V) t /\ ax (rg t) = vb mod 65536)).
  { intros f V FO SA SB Lo X SP. eapply runs_seq; [exact (A1 f FO SA Lo (ext_trans _ _ _ X13 X) V (space_le f V _ _ LE SP))|].
    apply (runs_addr f (set_Pending 1 e1) e3); [reflexivity|reflexivity|]. eapply runs_imp; [apply (A3 f FO SB); [change (CodeAddress (set_Pending 1 e1)) with (CodeAddress e1); lia|exact X|exact (SPC f V SP)]| |auto].
    cbv beta. intros t [Ho Ax]. split; [|exact I]. apply left_saved; assumption. }
  rewrite commuting_tok in H. destruct (commuting o) eqn:CO; cbn [negb when] in H.
  - minv H r s1 E. destruct (stored_any W (set_em e3 s) r s1 L3 E) as (e4 & -> & HR & (L4 & V4 & X4 & T4 & _ & U4 & RU4 & LO4) & A4). rewrite !set_em_em in *. clear E.
    rewrite (bind_ok _ _ _ tt (set_em e4 s)) in H by reflexivity. destruct x0. apply op_acts in H; [|exact HR|exact L4|rewrite set_em_em; congruence|rewrite set_em_em; congruence].
    destruct H as (e' & -> & GR6 & TY & A6). pose proof GR6 as (G6 & V6 & X6 & _). rewrite !set_em_em in *. exists e'. split; [reflexivity|].
    apply Sem_op; [exact CC|congruence|exact (ext_trans _ _ _ X03 (ext_trans _ _ _ X4 X6))|exact G6|exact TY|exact (bal_trans _ _ _ (bal_pop _ _ _ _ BA1 L1 BA3 L3 L4 RU4 LO4) (grown_bal _ _ L4 GR6))|].
    intros f FO SA SB Lo X V SP. pose proof (space_le f _ _ 0 (Nat.le_0_l _) (SPC f V SP)) as SP0.
    eapply runs_seq; [exact (RUN f V FO SA SB Lo (ext_trans _ _ _ X4 (ext_trans _ _ _ X6 X)) SP)|].
    eapply runs_seq; [exact (A4 f (va mod 65536) (vb mod 65536) V FO ltac:(lia) (ext_trans _ _ _ X6 X) SP0)|].
    apply (A6 f vb va v FO Rb Ra); [rewrite commuting_apply; [exact Ao|exact CO]|apply commuting_div; exact CO|destruct X4; lia|exact X|].
    apply (space_le f V (depth (EOp o a b))); [lia|exact SP].
  - minv H z3 s3 E3. apply (xchgcx_acts W (set_em e3 s)) in E3; [|exact L3]. destruct E3 as (-> & GR4 & A4). pose proof GR4 as (L4 & V4 & X4 & _). rewrite em_app, set_em_em in *.
    minv H r s1 E. destruct (stored_ax W _ r s1 ltac:(rewrite em_app, set_em_em; exact L4) E) as (e5 & -> & -> & (L5 & V5 & X5 & T5 & _ & U5 & RU5 & LOX) & A5). rewrite em_app, !set_em_em in *. clear E.
    rewrite put_unsigned in U5. rewrite put_ctype in T5.
    rewrite (bind_ok _ _ _ tt (set_em e5 (app_code [145] (set_em e3 s)))) in H by reflexivity. destruct x0. apply op_acts in H; [|left; reflexivity|exact L5|rewrite set_em_em; congruence|rewrite set_em_em; congruence].
    destruct H as (e' & -> & GR6 & TY & A6). pose proof GR6 as (G6 & V6 & X6 & _). rewrite !set_em_em in *. exists e'. split; [reflexivity|].
    apply Sem_op; [exact CC|congruence|exact (ext_trans _ _ _ X03 (ext_trans _ _ _ X4 (ext_trans _ _ _ X5 X6)))|exact G6|exact TY|exact (bal_trans _ _ _ (bal_pop _ _ _ _ BA1 L1 (bal_trans _ _ _ BA3 (grown_bal _ _ L3 GR4)) L4 L5 RU5 LOX) (grown_bal _ _ L5 GR6))|].
    intros f FO SA SB Lo X V SP. pose proof (space_le f _ _ 0 (Nat.le_0_l _) (SPC f V SP)) as SP0.
    eapply runs_seq; [exact (RUN f V FO SA SB Lo (ext_trans _ _ _ X4 (ext_trans _ _ _ X5 (ext_trans _ _ _ X6 X))) SP)|].
    assert (A4' : acts f e3 (put [145] e3) (fun t => ax (rg t) = vb mod 65536) (fun t => cx (rg t) = vb mod 65536)).
    { apply acts_any. intro c. eapply acts_imp; [apply (A4 f (vb mod 65536) c FO)|auto|]. cbv beta. tauto. }
    eapply runs_seq; [exact (A4' ltac:(lia) (ext_trans _ _ _ X5 (ext_trans _ _ _ X6 X)) _ SP0)|].
    assert (LO4 : CodeAddress e3 <= CodeAddress (put [145] e3)) by (destruct X4; lia). assert (LO5 : CodeAddress (put [145] e3) <= CodeAddress e5) by (destruct X5; lia).
    eapply runs_seq; [exact (A5 f (va mod 65536) (vb mod 65536) V FO ltac:(lia) (ext_trans _ _ _ X6 X) SP0)|].
    apply (A6 f va vb v FO Ra Rb Ao (right_div _ _ _ _ _ Cb Ro)); [lia|exact X|].
    apply (space_le f V (depth (EOp o a b))); [lia|exact SP].
Qed.
End op.
End W.
