(** The machine while code of an expression runs: the values the compiler keeps in AX (a postponed push),
    in BX and on the stack, and what a stretch of emitted code does to them. *)
From Verif Require Import Base Bits Spec8086 SpecWf SccRun SccState SccEmit SccInput SccPut SccArith SccMem.

(** ** Emission states *)
(** code is reachable; at most the push of AX is postponed *)
Definition gen (e : emst) : Prop := IsDeadCode e = false /\ (Pending e = 0 \/ Pending e = 1 \/ Pending e = -8) /\ room e 0.
Lemma live_gen e : live e -> gen e.
Proof. intros (A & B & C). split; [exact A|]. split; [left; exact B|exact C]. Qed.
Lemma gen_live e : gen e -> Pending e = 0 -> live e.
Proof. intros (A & B & C) P. split; [exact A|]. split; [exact P|exact C]. Qed.
(** the same but for the description of the current value *)
Definition lab (e : emst) : arr Z * arr Z * Z * Z := (LRef e, LAddr e, LocalLabelCounter e, LastFixup e).
Definition kin (e e' : emst) : Prop :=
  CodeAddress e' = CodeAddress e /\ Output e' = Output e /\ RegUse e' = RegUse e /\ Pending e' = Pending e /\
  LocalOffset e' = LocalOffset e /\ VOff e' = VOff e /\ IsDeadCode e' = IsDeadCode e /\ lab e' = lab e.
Lemma kin_refl e : kin e e.
Proof. repeat split. Qed.
Lemma kin_trans a b c : kin a b -> kin b c -> kin a c.
Proof. intros (A1 & A2 & A3 & A4 & A5 & A6 & A7 & A8) (B1 & B2 & B3 & B4 & B5 & B6 & B7 & B8). unfold kin. repeat (split; [congruence|]). congruence. Qed.
Lemma kin_gen e e' : kin e e' -> gen e -> gen e'.
Proof. intros (A1 & A2 & A3 & A4 & A5 & A6 & A7 & _) (B1 & B2 & B3). unfold gen, room in *. rewrite A1, A4, A7. auto. Qed.
Lemma kin_live e e' : kin e e' -> live e -> live e'.
Proof. intros (A1 & A2 & A3 & A4 & A5 & A6 & A7 & _) (B1 & B2 & B3). unfold live, room in *. rewrite A1, A4, A7. auto. Qed.
(** two bytes for each saved value, wherever it is *)
Definition cnt (e : emst) : Z := (if Pending e =? 0 then 0 else if Pending e =? -8 then 0 else 2) + (if RegUse e then 2 else 0) - LocalOffset e.
(** as many saved values before as after, none given back to the stack *)
Definition bal (e e' : emst) : Prop := cnt e' = cnt e /\ LocalOffset e' <= LocalOffset e.
Lemma bal_refl e : bal e e.
Proof. split; [reflexivity|lia]. Qed.
Lemma bal_trans a b c : bal a b -> bal b c -> bal a c.
Proof. unfold bal. lia. Qed.
Lemma bal_kin e e' : kin e e' -> bal e e'.
Proof. intros (_ & _ & A3 & A4 & A5 & _). unfold bal, cnt. rewrite A3, A4, A5. lia. Qed.
Lemma bal_same e e' : Pending e' = Pending e -> RegUse e' = RegUse e -> LocalOffset e' = LocalOffset e -> bal e e'.
Proof. intros A B C. unfold bal, cnt. rewrite A, B, C. lia. Qed.
(** no saved value before, none after *)
Lemma bal_none e e' : bal e e' -> Pending e = 0 -> RegUse e = false -> Pending e' = 0 -> RegUse e' = false /\ LocalOffset e' = LocalOffset e.
Proof. unfold bal, cnt. intros [A B] P R P'. rewrite P, R, P' in A. change (0 =? 0) with true in A. cbv iota in A. destruct (RegUse e'); split; auto; lia. Qed.
(** no jump and no frame restore is put behind the code of e; labels and what lies behind the code of e' are the same *)
Definition clean (e e' : emst) : Prop :=
  lab e' = lab e /\ (forall a, CodeAddress e' - CODESTART <= a -> aget (Output e') a = aget (Output e) a) /\
  ((forall a, 0 <= aget (Output e) a < 256) -> forall a, 0 <= aget (Output e') a < 256) /\
  (CodeAddress e < CodeAddress e' -> aget (Output e') (CodeAddress e - CODESTART) <> 235 /\ aget (Output e') (CodeAddress e - CODESTART) <> 93).
(** e' has the code of e and more *)
Definition ext (e e' : emst) : Prop :=
  CodeAddress e <= CodeAddress e' /\ (forall a, a < CodeAddress e - CODESTART -> aget (Output e') a = aget (Output e) a) /\ clean e e'.
Lemma ext_le e e' : ext e e' -> CodeAddress e <= CodeAddress e'.
Proof. intro X. apply X. Qed.
Lemma ext_refl e : ext e e.
Proof. split; [lia|]. split; [auto|]. split; [reflexivity|]. split; [auto|]. split; [auto|lia]. Qed.
Lemma ext_trans a b c : ext a b -> ext b c -> ext a c.
Proof.
  intros (A1 & A2 & A3 & A4 & A5 & A6) (B1 & B2 & B3 & B4 & B5 & B6). split; [lia|]. split; [intros x X; rewrite B2 by lia; apply A2; exact X|].
  split; [congruence|]. split; [intros x X; rewrite B4 by lia; apply A4; lia|]. split; [auto|]. intro X.
  destruct (Z.eq_dec (CodeAddress a) (CodeAddress b)) as [E|N]; [rewrite E; apply B6; lia|]. rewrite B2 by lia. apply A6. lia.
Qed.
Lemma ext_kin e e' : kin e e' -> ext e e'.
Proof. intros (A1 & A2 & _ & _ & _ & _ & _ & A8). unfold ext, clean. rewrite A1, A2. split; [lia|]. split; [auto|]. split; [exact A8|]. split; [auto|]. split; [auto|lia]. Qed.
(** the code does not begin with a short jump or a frame restore *)
Definition okhead (bs : list Z) : Prop := match bs with [] => True | b :: _ => u8 b <> 235 /\ u8 b <> 93 end.
Lemma put_lab bs : forall e, lab (put bs e) = lab e.
Proof. induction bs as [|b r IH]; intros e; cbn [put]; auto. rewrite IH. reflexivity. Qed.
Lemma put_out_after bs : forall e a, CodeAddress e + Z.of_nat (length bs) - CODESTART <= a -> aget (Output (put bs e)) a = aget (Output e) a.
Proof.
  induction bs as [|b r IH]; intros e a A; cbn [put length] in *; auto. rewrite IH; unfold put1; cbn [CodeAddress set_CodeAddress Output set_Output]; [|lia].
  apply aget_aset_other. lia.
Qed.
Lemma put_out_bytes bs : forall e, (forall a, 0 <= aget (Output e) a < 256) -> forall a, 0 <= aget (Output (put bs e)) a < 256.
Proof.
  induction bs as [|b r IH]; intros e B; cbn [put]; auto. apply IH. intro a. unfold put1. cbn [Output set_CodeAddress set_Output].
  rewrite aget_aset. destruct (_ =? _); [apply Z.mod_pos_bound; lia|apply B].
Qed.
Lemma ext_put bs e : okhead bs -> ext e (put bs e).
Proof.
  intro OK. split; [rewrite put_addr; lia|]. split; [intros; apply put_before; assumption|]. split; [apply put_lab|].
  split; [intros a A; rewrite put_addr in A; apply put_out_after; lia|]. split; [apply put_out_bytes|]. rewrite put_addr. intro L.
  destruct bs as [|b r]; [cbn [length] in L; lia|]. replace (CodeAddress e - CODESTART) with (CodeAddress e + Z.of_nat 0 - CODESTART) by lia.
  rewrite put_at by (cbn [length]; lia). exact OK.
Qed.
Lemma ext_code e e' e2 : CodeAddress e2 = CodeAddress e' -> Output e2 = Output e' -> lab e2 = lab e' -> ext e e' -> ext e e2.
Proof. intros A B D (C1 & C2 & C3 & C4 & C5 & C6). unfold ext, clean. rewrite A, B, D. auto 7. Qed.
Lemma put_reg bs : forall e, RegUse (put bs e) = RegUse e.
Proof. induction bs as [|b r IH]; intros e; cbn [put]; auto. rewrite IH. reflexivity. Qed.
Lemma put_local bs : forall e, LocalOffset (put bs e) = LocalOffset e.
Proof. induction bs as [|b r IH]; intros e; cbn [put]; auto. rewrite IH. reflexivity. Qed.
Lemma put_ctype bs : forall e, CurrentType (put bs e) = CurrentType e.
Proof. induction bs as [|b r IH]; intros e; cbn [put]; auto. rewrite IH. reflexivity. Qed.
Lemma put_cval bs : forall e, CurrentVal (put bs e) = CurrentVal e.
Proof. induction bs as [|b r IH]; intros e; cbn [put]; auto. rewrite IH. reflexivity. Qed.

(** ** The machine *)
(** a function of a .COM program in the middle of an expression: its code is complete (f_fin), from f_lo on
    loaded in the only segment; the expression may use the stack between f_low and f_top; everything else in
    memory is f_mem *)
Record frame := mkframe {
  f_fin : emst; f_lo : Z; f_sg : sregs; f_bp : Z; f_top : Z; f_low : Z; f_mem : arr Z; f_off : Z }.
Definition f_seg (f : frame) : Z := cs (f_sg f).
Definition frame_ok (f : frame) : Prop :=
  ss (f_sg f) = f_seg f /\ ds (f_sg f) = f_seg f /\
  256 <= f_lo f <= CodeAddress (f_fin f) /\ CodeAddress (f_fin f) <= f_low f /\ f_low f <= f_top f /\ f_top f < 65536 /\
  (forall a, f_lo f <= a < CodeAddress (f_fin f) -> rd8 (f_mem f) (f_seg f) a = aget (Output (f_fin f)) (a - CODESTART)).
(** the part of the stack in use by the expression *)
Definition zone (f : frame) (a : Z) : Prop := exists o, f_low f <= o < f_top f /\ a = phys (f_seg f) o.
Definition inv (f : frame) (t : state) : Prop :=
  wf t /\ sg t = f_sg f /\ bp (rg t) = f_bp f /\ forall a, ~ zone f a -> aget (mem t) a = aget (f_mem f) a.

(** the words l are on the stack, the last pushed first *)
Definition stk (f : frame) (l : list Z) (t : state) : Prop :=
  sp (rg t) = f_top f - 2 * Z.of_nat (length l) /\
  forall k, (k < length l)%nat -> rd16 (mem t) (f_seg f) (sp (rg t) + 2 * Z.of_nat k) = nth k l 0.
(** the same once room for four words has been made *)
Definition stk8 (f : frame) (l : list Z) (t : state) : Prop :=
  sp (rg t) - 8 = f_top f - 2 * Z.of_nat (length l) /\
  forall k, (k < length l)%nat -> rd16 (mem t) (f_seg f) (sp (rg t) - 8 + 2 * Z.of_nat k) = nth k l 0.
(** the saved values V, innermost first: in AX if its push is postponed, in BX if that is in use, the rest on the stack;
    room for four words may be still to make *)
Definition hold (f : frame) (e : emst) (V : list Z) (t : state) : Prop :=
  exists l, V = (if Pending e =? 0 then [] else if Pending e =? -8 then [] else [ax (rg t)]) ++ (if RegUse e then [bx (rg t)] else []) ++ l /\
    (if Pending e =? -8 then stk8 f l t else stk f l t) /\ LocalOffset e = f_off f - 2 * Z.of_nat (length l).
(** room for n more words *)
Definition space (f : frame) (V : list Z) (n : nat) : Prop := f_low f + 2 * Z.of_nat (length V + n) <= f_top f.

(** the code between e and e' takes the machine from P to Q *)
Definition runs (f : frame) (e e' : emst) (P Q : state -> Prop) : Prop :=
  forall t, inv f t -> ip t = CodeAddress e -> P t -> reaches (fun t' => inv f t' /\ ip t' = CodeAddress e' /\ Q t') t.
Lemma runs_seq f a b c P Q R : runs f a b P Q -> runs f b c Q R -> runs f a c P R.
Proof. intros H1 H2 t I1 I2 I3. eapply reaches_trans; [apply H1; assumption|]. cbv beta. intros t' (J1 & J2 & J3). apply H2; assumption. Qed.
Lemma runs_imp f e e' (P Q P' Q' : state -> Prop) : runs f e e' P Q -> (forall t, P' t -> P t) -> (forall t, Q t -> Q' t) -> runs f e e' P' Q'.
Proof. intros H A B t I1 I2 I3. eapply reaches_imp; [apply H; auto|]. cbv beta. intros t' (J1 & J2 & J3). auto. Qed.
Lemma runs_here f e e' (P Q : state -> Prop) : CodeAddress e' = CodeAddress e -> (forall t, inv f t -> P t -> Q t) -> runs f e e' P Q.
Proof. intros E H t I1 I2 I3. apply reach_now. split; [exact I1|]. split; [congruence|auto]. Qed.
Lemma runs_addr f a b a' b' P Q : CodeAddress a = CodeAddress a' -> CodeAddress b = CodeAddress b' -> runs f a b P Q -> runs f a' b' P Q.
Proof. intros A B H t I1 I2 I3. rewrite <- B. apply H; congruence. Qed.

Lemma phys_in seg x y : 0 <= x < 65536 -> 0 <= y < 65536 -> phys seg x = phys seg y -> x = y.
Proof. unfold phys. intros. rewrite !(Z.mod_small _ 65536) in * by lia. lia. Qed.

Section F.
Variable f : frame.
Hypothesis FO : frame_ok f.

Lemma not_zone o : 0 <= o < 65536 -> ~ (f_low f <= o < f_top f) -> ~ zone f (phys (f_seg f) o).
Proof.
  intros B N (p & P1 & P2). destruct FO as (_ & _ & L0 & L1 & L2 & L3 & _).
  apply phys_in in P2; try lia.
Qed.
Lemma inv_loaded t e e' : inv f t -> f_lo f <= CodeAddress e -> ext e' (f_fin f) -> loaded e e' (mem t) (cs (sg t)).
Proof.
  intros (Hw & Hs & Hb & Hm) Lo (X1 & X2 & _) a A. rewrite Hs. fold (f_seg f).
  destruct FO as (_ & _ & L0 & L1 & L2 & L3 & C).
  unfold rd8. rewrite Hm by (apply not_zone; lia). change (rd8 (f_mem f) (f_seg f) a = aget (Output e') (a - CODESTART)).
  rewrite C by lia. apply X2. lia.
Qed.
(** a stretch of code that leaves memory, segments and BP alone *)
Lemma runs_does e e' pre (R : state -> state -> Prop) (P Q : state -> Prop) :
  does_if pre e e' R -> f_lo f <= CodeAddress e -> ext e' (f_fin f) ->
  (forall t t', R t t' -> mem t' = mem t /\ sg t' = sg t /\ bp (rg t') = bp (rg t)) ->
  (forall t, inv f t -> P t -> pre t) ->
  (forall t t', inv f t -> P t -> wf t' -> R t t' -> Q t') ->
  runs f e e' P Q.
Proof.
  intros D Lo X K A B t I1 I2 I3. assert (Wf : wf t) by apply I1.
  eapply reaches_imp.
  - apply reaches_wf; [exact Wf|]. apply D; [exact Wf|exact I2| |apply A; assumption]. apply inv_loaded; assumption.
  - cbv beta. intros t' (W' & I' & Rt). destruct (K _ _ Rt) as (K1 & K2 & K3). split.
    + destruct I1 as (J1 & J2 & J3 & J4). unfold inv. rewrite K1, K2, K3. auto.
    + split; [exact I'|]. eapply B; eassumption.
Qed.
Lemma hold_regs e e' V t t' : hold f e V t -> Pending e' = Pending e -> RegUse e' = RegUse e -> LocalOffset e' = LocalOffset e ->
  (Pending e <> 0 -> ax (rg t') = ax (rg t)) -> (RegUse e = true -> bx (rg t') = bx (rg t)) -> sp (rg t') = sp (rg t) -> mem t' = mem t -> hold f e' V t'.
Proof.
  intros (l & E & S & O) A B C D G H M. exists l. rewrite A, B, C. split; [|split; [|exact O]].
  - rewrite E. f_equal; [destruct (Z.eqb_spec (Pending e) 0); [reflexivity|rewrite D by assumption; reflexivity]|].
    f_equal. destruct (RegUse e); [rewrite G by reflexivity|]; reflexivity.
  - unfold stk8, stk in *. rewrite H, M. exact S.
Qed.
Lemma hold_keeps e e' V t t' clob : hold f e V t -> Pending e = 0 -> Pending e' = 0 -> RegUse e' = RegUse e -> LocalOffset e' = LocalOffset e ->
  keeps_but clob t t' -> ~ In 3 clob -> ~ In 4 clob -> hold f e' V t'.
Proof.
  intros H A A' B C (K1 & K2 & K3) N3 N4. apply (hold_regs e e' V t t' H); auto; try congruence.
  - intros _. exact (K1 3 ltac:(lia) N3).
  - exact (K1 4 ltac:(lia) N4).
Qed.
Lemma keeps_frame clob t t' : keeps_but clob t t' -> ~ In 5 clob -> mem t' = mem t /\ sg t' = sg t /\ bp (rg t') = bp (rg t).
Proof. intros (K1 & K2 & K3) N. split; [exact K3|]. split; [exact K2|]. exact (K1 5 ltac:(lia) N). Qed.

Lemma ax_ok t : inv f t -> 0 <= ax (rg t) < 65536.
Proof. intros (Hw & _). apply Hw. Qed.

(** *** The stack *)
Lemma rd16_frame m m' seg x : aget m' (phys seg x) = aget m (phys seg x) -> aget m' (phys seg (x + 1)) = aget m (phys seg (x + 1)) ->
  rd16 m' seg x = rd16 m seg x.
Proof. intros A B. unfold rd16, rd8. rewrite A, B. reflexivity. Qed.
Lemma aget_wr16 m seg o v a : 0 <= v < 65536 -> aget (wr16 m seg o v) a = if phys seg (o + 1) =? a then v / 256 else if phys seg o =? a then v mod 256 else aget m a.
Proof.
  intro V. unfold wr16, wr8. rewrite !aget_aset. destruct (_ =? a); [rewrite !Zmod_mod; apply Z.mod_small; lia|].
  destruct (_ =? a); [rewrite Zmod_mod; reflexivity|reflexivity].
Qed.
Lemma rd16_wr16_same m seg o v : 0 <= o -> o + 1 < 65536 -> 0 <= v < 65536 -> rd16 (wr16 m seg o v) seg o = v.
Proof.
  intros A B V. unfold rd16, rd8. rewrite !aget_wr16 by exact V. rewrite !Z.eqb_refl.
  destruct (Z.eqb_spec (phys seg (o + 1)) (phys seg o)) as [E|N]; [apply phys_in in E; lia|]. lia.
Qed.
Lemma rd16_wr16_other m seg o v p : 0 <= o -> o + 1 < p -> p + 1 < 65536 -> 0 <= v < 65536 -> rd16 (wr16 m seg o v) seg p = rd16 m seg p.
Proof.
  intros A B C V. apply rd16_frame; rewrite aget_wr16 by exact V;
   repeat match goal with |- context [?x =? ?y] => let E := fresh in destruct (Z.eqb_spec x y) as [E|_]; [apply phys_in in E; lia|] end; reflexivity.
Qed.
(** PUSH of v *)
Definition pushed (t : state) (v i : Z) (g : flags) : state :=
  mkst (rset (rg t) 4 ((sp (rg t) - 2) mod 65536)) (sg t) i g (wr16 (mem t) (ss (sg t)) ((sp (rg t) - 2) mod 65536) v).
Lemma push_inv l t v i g : inv f t -> stk f l t -> 0 <= v < 65536 -> f_low f + 2 * Z.of_nat (S (length l)) <= f_top f -> 0 <= i < 65536 ->
  inv f (pushed t v i g) /\ stk f (v :: l) (pushed t v i g).
Proof.
  intros (Hw & Hs & Hb & Hm) [S1 S2] V SP Bi. destruct FO as (FS & FD & L0 & L1 & L2 & L3 & _).
  assert (E : (sp (rg t) - 2) mod 65536 = sp (rg t) - 2) by (apply Z.mod_small; lia).
  assert (SS : ss (sg t) = f_seg f) by (rewrite Hs; exact FS).
  set (o := sp (rg t) - 2) in *.
  split.
  - destruct Hw as (W1 & W2 & W3 & W4). unfold inv, pushed. fold o. rewrite E, SS. cbn [rg sg mem]. split; [|split; [exact Hs|split; [exact Hb|]]].
    + split; [apply rset_ok; [exact W1|unfold o; lia]|]. split; [exact W2|]. split; [exact Bi|apply wr16_ok; exact W4].
    + intros a Na. rewrite aget_wr16 by exact V.
      destruct (Z.eqb_spec (phys (f_seg f) (o + 1)) a) as [<-|N1]; [destruct Na; exists (o + 1); split; [unfold o; lia|reflexivity]|].
      destruct (Z.eqb_spec (phys (f_seg f) o) a) as [<-|N2]; [destruct Na; exists o; split; [unfold o; lia|reflexivity]|].
      apply Hm. exact Na.
  - unfold stk, pushed. fold o. rewrite E, SS. cbn [rg mem rset sp length]. split; [unfold o; lia|]. intros k K. destruct k as [|k].
    + rewrite Z.mul_0_r, Z.add_0_r. cbn [nth]. apply rd16_wr16_same; unfold o; lia.
    + cbn [nth]. rewrite rd16_wr16_other; [|unfold o; lia..]. rewrite <- S2 by lia. f_equal. unfold o. lia.
Qed.
(** POP into register r *)
Definition popped (t : state) (r i : Z) : state :=
  mkst (rset (rset (rg t) 4 ((sp (rg t) + 2) mod 65536)) r (rd16 (mem t) (ss (sg t)) (sp (rg t)))) (sg t) i (fl t) (mem t).
Lemma pop_inv v l t r i : inv f t -> stk f (v :: l) t -> 0 <= r < 4 -> f_low f + 2 * Z.of_nat (S (length l)) <= f_top f -> 0 <= i < 65536 ->
  inv f (popped t r i) /\ stk f l (popped t r i) /\ rget (rg (popped t r i)) r = v.
Proof.
  intros (Hw & Hs & Hb & Hm) [S1 S2] R SP Bi. destruct FO as (FS & FD & L0 & L1 & L2 & L3 & _). cbn [length] in *.
  assert (E : (sp (rg t) + 2) mod 65536 = sp (rg t) + 2) by (apply Z.mod_small; lia).
  assert (SS : ss (sg t) = f_seg f) by (rewrite Hs; exact FS).
  assert (VV : rd16 (mem t) (f_seg f) (sp (rg t)) = v) by (pose proof (S2 0%nat ltac:(lia)) as Z0; change (Z.of_nat 0) with 0 in Z0; cbn [nth] in Z0; rewrite Z.mul_0_r, Z.add_0_r in Z0; exact Z0).
  destruct Hw as (W1 & W2 & W3 & W4).
  assert (VB : 0 <= v < 65536) by (rewrite <- VV; apply rd16_ok; exact W4).
  assert (SPP : sp (rset (rset (rg t) 4 (sp (rg t) + 2)) r v) = sp (rg t) + 2) by (assert (RR : r = 0 \/ r = 1 \/ r = 2 \/ r = 3) by lia; destruct RR as [->|[->|[->| ->]]]; reflexivity).
  assert (BPP : bp (rset (rset (rg t) 4 (sp (rg t) + 2)) r v) = bp (rg t)) by (assert (RR : r = 0 \/ r = 1 \/ r = 2 \/ r = 3) by lia; destruct RR as [->|[->|[->| ->]]]; reflexivity).
  split; [|split].
  - unfold inv, popped. rewrite E, SS, VV. cbn [rg sg mem]. split; [|split; [exact Hs|split; [rewrite BPP; exact Hb|exact Hm]]].
    split; [apply rset_ok; [apply rset_ok; [exact W1|lia]|exact VB]|]. split; [exact W2|]. split; [exact Bi|exact W4].
  - unfold stk, popped. rewrite E, SS, VV. cbn [rg mem]. rewrite SPP. split; [lia|]. intros k K.
    specialize (S2 (S k) ltac:(lia)). cbn [nth] in S2. rewrite <- S2. f_equal. lia.
  - unfold popped. rewrite E, SS, VV. cbn [rg]. apply rget_rset. lia.
Qed.
End F.
