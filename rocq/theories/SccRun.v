(** Running machine code on the 8086 specification (Spec8086.v): what it means that a
    piece of code reaches a state, whatever the processor does with the flags the
    manual leaves undefined. *)
From Verif Require Import Base Spec8086.

(** every execution from s, whatever the undefined flags become, gets to a state in P *)
Inductive reaches (P : state -> Prop) : state -> Prop :=
| reach_now s : P s -> reaches P s
| reach_step s (nx : flags -> state) :
    (forall u, step u s = Some (nx u)) -> (forall u, reaches P (nx u)) -> reaches P s.

Lemma reaches_trans P Q s : reaches P s -> (forall s', P s' -> reaches Q s') -> reaches Q s.
Proof. induction 1; intro H2; [auto|]. eapply reach_step; eauto. Qed.
Lemma reaches_imp (P Q : state -> Prop) s : reaches P s -> (forall s', P s' -> Q s') -> reaches Q s.
Proof. intros H I. eapply reaches_trans; [exact H|]. intros. apply reach_now. auto. Qed.

(** in particular, for every choice of the undefined flags there is a finite run *)
Fixpoint run (us : nat -> flags) (n k : nat) (s : state) : option state :=
  match n with
  | O => Some s
  | S n' => match step (us k) s with Some s' => run us n' (S k) s' | None => None end
  end.
Lemma reaches_run P s : reaches P s -> forall us k, exists n s', run us n k s = Some s' /\ P s'.
Proof.
  induction 1 as [s H|s nx E _ IH]; intros us k.
  - exists 0%nat, s. split; [reflexivity|assumption].
  - destruct (IH (us k) us (S k)) as (n & s' & R & Ps). exists (S n), s'. split; [|exact Ps].
    cbn. rewrite E. exact R.
Qed.

(** ** Code in memory *)
Definition code (m : arr Z) (seg a : Z) (bs : list Z) : Prop :=
  forall k, (k < length bs)%nat -> rd8 m seg (a + Z.of_nat k) = nth k bs 0.

Lemma code_nil m seg a : code m seg a [].
Proof. intros k H. cbn in H. lia. Qed.
Lemma code_app m seg a b c : code m seg a (b ++ c) <-> code m seg a b /\ code m seg (a + Z.of_nat (length b)) c.
Proof.
  unfold code. split.
  - intro H. split; intros k L.
    + rewrite H by (rewrite app_length; lia). apply app_nth1. exact L.
    + specialize (H (length b + k)%nat). rewrite app_length in H.
      rewrite app_nth2_plus in H. rewrite <- H by lia. f_equal. lia.
  - intros [H1 H2] k L. rewrite app_length in L. destruct (Nat.lt_ge_cases k (length b)) as [L1|L1].
    + rewrite app_nth1 by exact L1. auto.
    + rewrite app_nth2 by exact L1. rewrite <- H2 by lia. f_equal. lia.
Qed.
Lemma code_cons m seg a b c : code m seg a (b :: c) -> code m seg (a + 1) c.
Proof. intro H. apply (code_app m seg a [b] c) in H. apply H. Qed.

(** the bytes bs, continued by f *)
Definition over (bs : list Z) (f : Z -> Z) (k : Z) : Z :=
  if k <? 0 then f k else match nth_error bs (Z.to_nat k) with Some b => b | None => f k end.

Section Ext.
Variables f g : Z -> Z.
Hypothesis H : forall k, f k = g k.
Lemma modrm_ext seg k : dec_modrm f seg k = dec_modrm g seg k.
Proof. unfold dec_modrm, word_at. rewrite !H. reflexivity. Qed.
Lemma imm_ext w k : dec_imm f w k = dec_imm g w k.
Proof. unfold dec_imm, word_at. rewrite !H. reflexivity. Qed.
Lemma op_ext seg rp k : dec_op f seg rp k = dec_op g seg rp k.
Proof.
  unfold dec_op. rewrite (H k). cbv zeta. rewrite !imm_ext, !modrm_ext, !H.
  unfold word_at. rewrite !H. destruct (dec_modrm g seg (k + 1)) as [[o r] n]. rewrite !H, !imm_ext. reflexivity.
Qed.
Lemma pfx_ext n : forall seg rp k, dec_pfx f n seg rp k = dec_pfx g n seg rp k.
Proof.
  induction n as [|n IH]; intros; cbn [dec_pfx]; [reflexivity|].
  rewrite (H k), !IH, op_ext. reflexivity.
Qed.
Lemma decode_ext : decode f = decode g.
Proof. apply pfx_ext. Qed.
End Ext.

Lemma fetch_over s bs : code (mem s) (cs (sg s)) (ip s) bs -> forall k, fetch s k = over bs (fetch s) k.
Proof.
  intros C k. unfold over. destruct (Z.ltb_spec k 0) as [|L]; [reflexivity|].
  destruct (nth_error bs (Z.to_nat k)) as [b|] eqn:E; [|reflexivity].
  assert (LL : (Z.to_nat k < length bs)%nat) by (apply nth_error_Some; congruence).
  specialize (C _ LL). unfold fetch. rewrite Z2Nat.id in C by lia. rewrite C.
  apply nth_error_nth. exact E.
Qed.

Lemma step_code bs i n u s :
  code (mem s) (cs (sg s)) (ip s) bs ->
  decode (over bs (fetch s)) = Some (i, n) ->
  step u s = exec u i (set_ip s (ip s + n)).
Proof. intros C D. unfold step. rewrite (decode_ext _ _ (fetch_over s bs C)), D. reflexivity. Qed.

(** one instruction of straight-line code, on an explicit state *)
Lemma reach_code P bs i n (nx : flags -> state) r g a f m :
  code m (cs g) a bs ->
  (forall f, decode (over bs f) = Some (i, n)) ->
  0 <= a + n < 65536 ->
  (forall u, exec u i (mkst r g (a + n) f m) = Some (nx u)) ->
  (forall u, reaches P (nx u)) ->
  reaches P (mkst r g a f m).
Proof.
  intros C D L E R. apply (reach_step P _ nx); [|exact R].
  intro u. rewrite (step_code bs i n u (mkst r g a f m) C (D _)).
  unfold set_ip. cbn [rg sg ip fl mem]. rewrite Z.mod_small by lia. apply E.
Qed.

Ltac reg8 r := (assert (r = 0 \/ r = 1 \/ r = 2 \/ r = 3 \/ r = 4 \/ r = 5 \/ r = 6 \/ r = 7) as RR by lia;
  destruct RR as [->|[->|[->|[->|[->|[->|[->| ->]]]]]]]).
(** [runop bs i n]: the bytes bs of the instruction i at the current address, n their number *)
Ltac runop bs i n :=
  eapply (reach_code _ bs i n);
  [ try assumption | try (intro; reflexivity) | try lia
  | intro; cbn [exec get_op put_op alu rg sg fl mem ip pop]; unfold push, set_reg, set_fl, set_rg, set_mem, set_sg; cbn [rg sg fl mem ip]; reflexivity
  | intro; cbv beta ].

(** encodings with a register in them *)
Lemma dec_inc r f : 0 <= r < 8 -> decode (over [64 + r] f) = Some (IInc true (Reg r), 1).
Proof. intro. reg8 r; reflexivity. Qed.
Lemma dec_dec r f : 0 <= r < 8 -> decode (over [72 + r] f) = Some (IDec true (Reg r), 1).
Proof. intro. reg8 r; reflexivity. Qed.
Lemma dec_alu8 n r b f : 0 <= r < 8 -> 0 <= n < 8 ->
  decode (over [131; 192 + 8 * n + r; b] f) = Some (IAlu (alu_of n) true (Reg r) (Imm (sx8 b)), 3).
Proof. intros. reg8 r; reg8 n; reflexivity. Qed.
Lemma dec_alu16 n r b c f : 0 <= r < 8 -> 0 <= n < 8 ->
  decode (over [129; 192 + 8 * n + r; b; c] f) = Some (IAlu (alu_of n) true (Reg r) (Imm (b + 256 * c)), 4).
Proof. intros. reg8 r; reg8 n; reflexivity. Qed.
Lemma dec_aluax n b c f : 0 <= n < 8 ->
  decode (over [8 * n + 5; b; c] f) = Some (IAlu (alu_of n) true (Reg 0) (Imm (b + 256 * c)), 3).
Proof. intros. reg8 n; reflexivity. Qed.
Lemma dec_movimm r b c f : 0 <= r < 8 ->
  decode (over [184 + r; b; c] f) = Some (IMov true (Reg r) (Imm (b + 256 * c)), 3).
Proof. intros. reg8 r; reflexivity. Qed.

(** little-endian words *)
Lemma word_bytes w : u8 w + 256 * u8 (Z.shiftr w 8) = w mod 65536.
Proof. unfold u8. rewrite Z.shiftr_div_pow2 by lia. change (2 ^ 8) with 256. lia. Qed.
Lemma sx8_u8 b : 0 <= b < 128 -> sx8 (u8 b) = b.
Proof. intro H. rewrite u8_small by lia. unfold sx8. destruct (Z.ltb_spec b 128); lia. Qed.
Lemma sx8_s8 b : sx8 (u8 b) = s8 b mod 65536.
Proof. unfold sx8, s8, u8. destruct (Z.ltb_spec (b mod 256) 128); lia. Qed.

(** registers *)
Lemma rget_rset R r v : 0 <= r < 8 -> rget (rset R r v) r = v.
Proof. intro. reg8 r; reflexivity. Qed.
Lemma rget_rset_other R r q v : 0 <= r < 8 -> 0 <= q < 8 -> q <> r -> rget (rset R r v) q = rget R q.
Proof. intros. reg8 r; reg8 q; try reflexivity; contradiction. Qed.
Lemma rset_rset R r v w : 0 <= r < 8 -> rset (rset R r v) r w = rset R r w.
Proof. intro. reg8 r; reflexivity. Qed.
Lemma rget_ok R r : regs_ok R -> 0 <= rget R r < 65536.
Proof. unfold regs_ok, is16. intro. unfold rget. repeat match goal with |- context [match ?x with _ => _ end] => destruct x end; lia. Qed.
Lemma rset_ok R r v : regs_ok R -> 0 <= v < 65536 -> regs_ok (rset R r v).
Proof. unfold regs_ok, is16. intros. unfold rset. repeat match goal with |- context [match ?x with _ => _ end] => destruct x end; cbn; tauto. Qed.
