(** The 8086 of Spec8086.v stays well formed: after any instruction every register still holds
    16 bits and every memory cell a byte. *)
From Verif Require Import Base Bits Spec8086 SccRun.

(** immediate operands fit the size of the instruction *)
Definition op_ok (w : bool) (o : operand) : Prop := match o with Imm v => 0 <= v < modulus w | _ => True end.
Definition instr_ok (i : instr) : Prop :=
  match i with
  | IAlu _ w d s | ITest w d s | IMov w d s | IXchg w d s => op_ok w d /\ op_ok w s
  | IMovFromS d _ | IMovToS _ d => op_ok true d
  | IInc w d | IDec w d | INot w d | INeg w d | IShift _ w d _ | IMulDiv _ w d => op_ok w d
  | IPush d | ICallInd d => op_ok true d
  | _ => True
  end.

Section Dec.
Variable f : Z -> Z.
Hypothesis Hf : forall k, 0 <= f k < 256.
Lemma word_ok k : 0 <= word_at f k < 65536.
Proof. unfold word_at. pose proof (Hf k). pose proof (Hf (k + 1)). lia. Qed.
Lemma sx8_ok k : 0 <= sx8 (f k) < 65536.
Proof. unfold sx8. pose proof (Hf k). destruct (_ <? _); lia. Qed.
Lemma modrm_ok w seg k : op_ok w (fst (fst (dec_modrm f seg k))).
Proof. unfold dec_modrm. cbv zeta. repeat match goal with |- context [if ?c then _ else _] => destruct c end; exact I. Qed.
Lemma imm_ok w k : 0 <= fst (dec_imm f w k) < modulus w.
Proof. unfold dec_imm, modulus. destruct w; cbn [fst]; [apply word_ok|apply Hf]. Qed.
Lemma dec_op_ok seg rp k i n : dec_op f seg rp k = Some (i, n) -> instr_ok i.
Proof.
  pose proof (fun w => modrm_ok w seg (k + 1)) as MO. pose proof (fun w => imm_ok w (k + 1)) as IO.
  unfold dec_op. cbv zeta.
  destruct (dec_modrm f seg (k + 1)) as [[o r] m] eqn:EM. cbn [fst] in MO.
  pose proof (fun w => imm_ok w m) as IM. 
  pose proof (fun w => f_equal fst (eq_refl (dec_imm f w (k + 1)))) as _.
  pose proof (Hf m) as Hm. pose proof (word_ok m) as Wm. pose proof (sx8_ok m) as Sm.
  pose proof (Hf (k + 1)) as Hk. pose proof (word_ok (k + 1)) as Wk. pose proof (sx8_ok (k + 1)) as Sk.
  assert (Z0 : 0 <= 0 < modulus true) by (unfold modulus; lia).
  set (w := f k mod 2 =? 1). specialize (IO w). specialize (IM w).
  destruct (dec_imm f w (k + 1)) as [iv n1]. destruct (dec_imm f w m) as [im n2]. cbn [fst] in *. clearbody w.
  assert (D : forall x y z : Z, instr_ok (IAlu ADD true (Reg x) (Reg y)) /\ z = z) by (intros; cbn; auto). clear D.
  pose proof (MO w) as MOw. pose proof (MO true) as MOt. pose proof (MO false) as MOf. clear MO EM.
  intro H.
  repeat match type of H with (if ?c then _ else _) = _ => destruct c end.
  all: try (injection H as <- _; cbn [instr_ok op_ok]; auto; fail).
  all: try discriminate.
  assert (FB := Hf k). destruct (f k) as [|p|p] eqn:EF; try discriminate H.
  unfold dec_str in H.
  repeat match type of H with
  | match ?p with xI _ => _ | xO _ => _ | xH => _ end = _ => destruct p; try discriminate H
  end.
  all: repeat match type of H with (if ?c then _ else _) = _ => destruct c; try discriminate H | match ?c with Some _ => _ | None => _ end = _ => destruct c; try discriminate H
     | match ?c with Reg _ => _ | Mem _ _ _ => _ | Imm _ => _ end = _ => destruct c; try discriminate H end.
  all: injection H as <- _; cbn [instr_ok op_ok modulus]; auto.
Qed.
Lemma dec_pfx_ok fuel : forall seg rp k i n, dec_pfx f fuel seg rp k = Some (i, n) -> instr_ok i.
Proof.
  induction fuel as [|fuel IH]; intros seg rp k i n H; cbn [dec_pfx] in H; [discriminate|]. cbv zeta in H.
  repeat match type of H with (if ?c then _ else _) = _ => destruct c; [eapply IH; exact H|] end.
  eapply dec_op_ok. exact H.
Qed.
Lemma decode_ok i n : decode f = Some (i, n) -> instr_ok i.
Proof. apply dec_pfx_ok. Qed.
End Dec.

Lemma rget8_ok R r : regs_ok R -> 0 <= rget8 R r < 256.
Proof.
  intro H. unfold rget8. destruct (_ <? _); [apply Z.mod_pos_bound; lia|].
  pose proof (rget_ok R (r - 4) H). lia.
Qed.
Lemma rset8_ok R r v : regs_ok R -> 0 <= v < 256 -> regs_ok (rset8 R r v).
Proof.
  intros H V. unfold rset8. pose proof (rget_ok R r H). pose proof (rget_ok R (r - 4) H).
  destruct (_ <? _); apply rset_ok; auto; lia.
Qed.
Lemma rd8_ok m seg x : mem_ok m -> 0 <= rd8 m seg x < 256.
Proof. intro H. apply H. Qed.
Lemma rd16_ok m seg x : mem_ok m -> 0 <= rd16 m seg x < 65536.
Proof. intro H. unfold rd16. pose proof (rd8_ok m seg x H). pose proof (rd8_ok m seg (x + 1) H). lia. Qed.
Lemma wr8_ok m seg x v : mem_ok m -> mem_ok (wr8 m seg x v).
Proof. intros H a. unfold wr8. rewrite aget_aset. destruct (_ =? a); [apply Z.mod_pos_bound; lia|apply H]. Qed.
Lemma wr16_ok m seg x v : mem_ok m -> mem_ok (wr16 m seg x v).
Proof. intro H. unfold wr16. do 2 apply wr8_ok. exact H. Qed.

Lemma get_op_ok s w o : wf s -> op_ok w o -> 0 <= get_op s w o < modulus w.
Proof.
  intros (R & _ & _ & M) O. destruct o as [r|so m d|v]; cbn [get_op].
  - destruct w; [apply rget_ok; exact R|apply rget8_ok; exact R].
  - destruct w; [apply rd16_ok; exact M|apply rd8_ok; exact M].
  - exact O.
Qed.
Lemma put_op_ok s w o v : wf s -> 0 <= v < modulus w -> wf (put_op s w o v).
Proof.
  intros (R & G & Ip & M) V. destruct o as [r|so m d|x]; cbn [put_op]; unfold wf, set_rg, set_mem; cbn [rg sg ip mem]; (split; [|split; [exact G|split; [exact Ip|]]]).
  all: try exact R; try exact M.
  - destruct w; [apply rset_ok; assumption|apply rset8_ok; assumption].
  - destruct w; [apply wr16_ok; exact M|apply wr8_ok; exact M].
Qed.
Lemma set_fl_ok s f : wf s -> wf (set_fl s f).
Proof. exact (fun H => H). Qed.
Lemma set_rg_ok s r : wf s -> regs_ok r -> wf (set_rg s r).
Proof. intros (R & G & Ip & M) H. exact (conj H (conj G (conj Ip M))). Qed.
Lemma set_reg_ok s r v : wf s -> 0 <= v < 65536 -> wf (set_reg s r v).
Proof. intros H V. apply set_rg_ok; [exact H|]. apply rset_ok; [apply H|exact V]. Qed.
Lemma set_mem_ok s m : wf s -> mem_ok m -> wf (set_mem s m).
Proof. intros (R & G & Ip & M) H. exact (conj R (conj G (conj Ip H))). Qed.
Lemma set_ip_ok s i : wf s -> wf (set_ip s i).
Proof. intros (R & G & Ip & M). split; [exact R|]. split; [exact G|]. split; [apply Z.mod_pos_bound; lia|exact M]. Qed.
Lemma sset_ok g r v : sregs_ok g -> 0 <= v < 65536 -> sregs_ok (sset g r v).
Proof. intros (A & B & C & D) V. unfold sset. repeat match goal with |- context [match ?x with _ => _ end] => destruct x end; repeat split; cbn; try apply A; try apply B; try apply C; try apply D; lia. Qed.
Lemma sget_ok g r : sregs_ok g -> 0 <= sget g r < 65536.
Proof. intros (A & B & C & D). unfold sget. repeat match goal with |- context [match ?x with _ => _ end] => destruct x end; assumption. Qed.
Lemma set_sg_ok s g : wf s -> sregs_ok g -> wf (set_sg s g).
Proof. intros (R & G & Ip & M) H. exact (conj R (conj H (conj Ip M))). Qed.
Lemma trunc_ok w x : 0 <= trunc w x < modulus w.
Proof. apply Z.mod_pos_bound. destruct w; reflexivity. Qed.
Lemma push_ok s v : wf s -> wf (push s v).
Proof.
  intro H. unfold push. cbv zeta. apply set_mem_ok; [apply set_reg_ok; [exact H|apply Z.mod_pos_bound; lia]|].
  apply wr16_ok. apply H.
Qed.
Lemma pop_ok s : wf s -> 0 <= fst (pop s) < 65536 /\ wf (snd (pop s)).
Proof.
  intro H. unfold pop. cbn [fst snd]. split; [apply rd16_ok; apply H|].
  apply set_reg_ok; [exact H|apply Z.mod_pos_bound; lia].
Qed.

Lemma lbits x n : 0 <= n -> (0 <= x < 2 ^ n <-> (0 <= x /\ forall i, n <= i -> Z.testbit x i = false)).
Proof.
  intro N. split.
  - intros [A B]. split; [exact A|]. intros i Hi. destruct (Z.eq_dec x 0) as [->|NZ]; [apply Z.bits_0|].
    apply Z.bits_above_log2; [exact A|]. apply Z.lt_le_trans with n; [|exact Hi]. apply Z.log2_lt_pow2; lia.
  - intros [A B]. split; [exact A|]. destruct (Z_lt_ge_dec x (2 ^ n)) as [|GE]; [assumption|exfalso].
    assert (P : 0 < x) by (pose proof (Z.pow_pos_nonneg 2 n); lia).
    assert (L : n <= Z.log2 x) by (apply Z.log2_le_pow2; lia).
    specialize (B _ L). rewrite Z.bit_log2 in B by exact P. discriminate.
Qed.
Lemma modulus_pow w : modulus w = 2 ^ bits w.
Proof. destruct w; reflexivity. Qed.
Lemma logic_ok (op : Z -> Z -> Z) w a b :
  (forall i, Z.testbit a i = false -> Z.testbit b i = false -> Z.testbit (op a b) i = false) ->
  (0 <= a -> 0 <= b -> 0 <= op a b) ->
  0 <= a < modulus w -> 0 <= b < modulus w -> 0 <= op a b < modulus w.
Proof.
  rewrite modulus_pow. intros T P A B. assert (N : 0 <= bits w) by (destruct w; unfold bits; lia).
  pose proof (proj1 (lbits _ _ N) A) as [A1 A2]. pose proof (proj1 (lbits _ _ N) B) as [B1 B2]. apply (proj2 (lbits _ _ N)).
  split; [auto|]. intros i Hi. apply T; auto.
Qed.
Lemma alu_ok op w a b f : 0 <= a < modulus w -> 0 <= b < modulus w -> 0 <= fst (alu op w a b f) < modulus w.
Proof.
  intros A B. unfold alu. cbv zeta. destruct op; cbn [fst]; try apply trunc_ok; apply logic_ok; auto.
  - intros i X Y. rewrite Z.lor_spec, X, Y. reflexivity.
  - intros. apply Z.lor_nonneg. auto.
  - intros i X Y. rewrite Z.land_spec, X, Y. reflexivity.
  - intros. apply Z.land_nonneg. auto.
  - intros i X Y. rewrite Z.lxor_spec, X, Y. reflexivity.
  - intros. apply Z.lxor_nonneg. tauto.
Qed.
Lemma shift_ok k w a n f u : 0 <= a < modulus w -> 0 <= n -> 0 <= fst (shift k w a n f u) < modulus w.
Proof.
  intros A N. unfold shift. destruct (_ =? 0); [exact A|]. pose proof (Z.pow_pos_nonneg 2 n) as P.
  destruct k; cbn [fst]; try apply trunc_ok. split; [apply Z.div_pos; lia|].
  apply Z.le_lt_trans with a; [|lia]. apply Z.div_le_upper_bound; [lia|]. nia.
Qed.
Lemma two_ok s v w : wf s -> 0 <= v < 65536 -> 0 <= w < 65536 -> wf (set_rg s (rset (rset (rg s) 0 v) 2 w)).
Proof. intros H V X. apply set_rg_ok; [exact H|]. apply rset_ok; [|exact X]. apply rset_ok; [apply H|exact V]. Qed.
Lemma muldiv_ok k w s v u s' : wf s -> 0 <= v < modulus w -> muldiv k w s v u = Some s' -> wf s'.
Proof.
  intros H V E. unfold muldiv in E. cbv zeta in E.
  assert (R : regs_ok (rg s)) by apply H.
  assert (AX : 0 <= ax (rg s) < 65536) by apply R. assert (DX : 0 <= dx (rg s) < 65536) by apply R.
  assert (M : forall x, 0 <= x mod 65536 < 65536) by (intro; apply Z.mod_pos_bound; lia).
  destruct k.
  - injection E as <-. apply set_fl_ok. destruct w; [exact (two_ok s _ _ H (M _) (M _))|exact (set_reg_ok s _ _ H (M _))].
  - injection E as <-. apply set_fl_ok. destruct w; [exact (two_ok s _ _ H (M _) (M _))|exact (set_reg_ok s _ _ H (M _))].
  - destruct (Z.eqb_spec v 0) as [|NV]; [discriminate|]. destruct (Z.leb_spec (modulus w) ((if w then dx (rg s) * 65536 + ax (rg s) else ax (rg s)) / v)) as [|LQ]; [discriminate|].
    injection E as <-. apply set_fl_ok. unfold modulus in *. destruct w.
    + set (n := dx (rg s) * 65536 + ax (rg s)) in *. assert (N : 0 <= n) by lia. clearbody n.
      pose proof (Z.mod_pos_bound n v ltac:(lia)). pose proof (Z.div_pos n v N ltac:(lia)).
      refine (two_ok s _ _ H _ _); lia.
    + pose proof (Z.mod_pos_bound (ax (rg s)) v ltac:(lia)). pose proof (Z.div_pos (ax (rg s)) v ltac:(lia) ltac:(lia)).
      apply set_reg_ok; [exact H|]. set (q := ax (rg s) / v) in *. set (r := ax (rg s) mod v) in *. clearbody q r. lia.
  - destruct (_ =? 0); [discriminate|]. destruct (_ || _); [discriminate|]. injection E as <-. apply set_fl_ok. destruct w.
    + exact (two_ok s _ _ H (trunc_ok true _) (trunc_ok true _)).
    + refine (set_reg_ok s _ _ H _). match goal with |- 0 <= trunc false ?x * 256 + trunc false ?y < _ =>
        pose proof (trunc_ok false x); pose proof (trunc_ok false y); set (p := trunc false x) in *; set (q := trunc false y) in *; clearbody p q end.
      unfold modulus in *. lia.
Qed.
Lemma str_step_ok k w s : wf s -> wf (str_step k w s).
Proof.
  intro H. unfold str_step. cbv zeta. assert (R : regs_ok (rg s)) by apply H. assert (M : mem_ok (mem s)) by apply H.
  assert (N : forall x, 0 <= x mod 65536 < 65536) by (intro; apply Z.mod_pos_bound; lia).
  destruct k.
  - apply set_rg_ok; [apply set_mem_ok; [exact H|destruct w; [apply wr16_ok|apply wr8_ok]; exact M]|]. do 2 (apply rset_ok; [|apply N]). exact R.
  - apply set_fl_ok, set_rg_ok; [exact H|]. do 2 (apply rset_ok; [|apply N]). exact R.
  - apply set_rg_ok; [apply set_mem_ok; [exact H|destruct w; [apply wr16_ok|apply wr8_ok]; exact M]|]. apply rset_ok; [exact R|apply N].
  - apply set_rg_ok; [exact H|]. apply rset_ok; [|apply N]. destruct w; [apply rset_ok; [exact R|apply rd16_ok; exact M]|apply rset8_ok; [exact R|apply rd8_ok; exact M]].
  - apply set_fl_ok, set_rg_ok; [exact H|]. apply rset_ok; [exact R|apply N].
Qed.
Lemma str_rep_ok n : forall k w st s, wf s -> wf (str_rep n k w st s).
Proof.
  induction n as [|n IH]; intros k w st s H; cbn [str_rep]; [exact H|]. cbv zeta.
  assert (H2 : wf (set_reg (str_step k w s) 1 ((cx (rg (str_step k w s)) - 1) mod 65536)))
    by (apply set_reg_ok; [apply str_step_ok; exact H|apply Z.mod_pos_bound; lia]).
  destruct (st _); [exact H2|apply IH; exact H2].
Qed.

Theorem exec_ok u i s s' : wf s -> instr_ok i -> exec u i s = Some s' -> wf s'.
Proof.
  intros H O E. assert (R : regs_ok (rg s)) by apply H. assert (M : mem_ok (mem s)) by apply H.
  assert (N : forall x, 0 <= x mod 65536 < 65536) by (intro; apply Z.mod_pos_bound; lia).
  assert (MW : forall w, 0 < modulus w) by (intros []; reflexivity).
  destruct i; cbn [exec instr_ok] in *.
  - destruct O as [O1 O2]. destruct (alu op w (get_op s w d) (get_op s w s0) (fl s)) as [r f] eqn:EA.
    assert (B : 0 <= r < modulus w) by (replace r with (fst (alu op w (get_op s w d) (get_op s w s0) (fl s))) by (rewrite EA; reflexivity); apply alu_ok; apply get_op_ok; assumption).
    injection E as <-. apply set_fl_ok. destruct op; try (apply put_op_ok; assumption). exact H.
  - injection E as <-. exact H.
  - destruct O as [O1 O2]. injection E as <-. apply put_op_ok; [exact H|]. apply get_op_ok; assumption.
  - injection E as <-. apply put_op_ok; [exact H|]. apply sget_ok. apply H.
  - injection E as <-. apply set_sg_ok; [exact H|]. apply sset_ok; [apply H|]. apply (get_op_ok s true); assumption.
  - destruct s0; try discriminate. injection E as <-. apply set_reg_ok; [exact H|apply N].
  - injection E as <-. apply set_fl_ok, put_op_ok; [exact H|apply trunc_ok].
  - injection E as <-. apply set_fl_ok, put_op_ok; [exact H|apply trunc_ok].
  - injection E as <-. apply put_op_ok; [exact H|]. pose proof (get_op_ok s w d H O). lia.
  - injection E as <-. apply set_fl_ok, put_op_ok; [exact H|apply trunc_ok].
  - assert (X : exists v, s' = push s v).
    { destruct s0 as [r| |]; [|injection E as <-; eauto|injection E as <-; eauto].
      repeat match type of E with match ?c with _ => _ end = _ => destruct c end; injection E as <-; eauto. }
    destruct X as [v ->]. apply push_ok. exact H.
  - destruct (pop_ok s H) as [P1 P2]. destruct (pop s) as [v s1]. cbn [fst snd] in *. injection E as <-. apply set_reg_ok; assumption.
  - injection E as <-. apply push_ok. exact H.
  - destruct (pop_ok s H) as [P1 P2]. destruct (pop s) as [v s1]. cbn [fst snd] in *. injection E as <-. apply set_sg_ok; [exact P2|]. apply sset_ok; [apply P2|exact P1].
  - destruct O as [O1 O2]. injection E as <-. apply put_op_ok; [apply put_op_ok; [exact H|]|]; apply get_op_ok; assumption.
  - destruct (cond cc (fl s)) as [[]|]; try discriminate; injection E as <-; [apply set_ip_ok; exact H|exact H].
  - injection E as <-. apply set_ip_ok. exact H.
  - injection E as <-. apply set_ip_ok, push_ok. exact H.
  - injection E as <-. apply set_ip_ok, push_ok. exact H.
  - destruct (pop_ok s H) as [P1 P2]. destruct (pop s) as [v s1]. cbn [fst snd] in *. injection E as <-. apply set_ip_ok; assumption.
  - injection E as <-. apply set_reg_ok; [exact H|apply N].
  - injection E as <-. apply set_reg_ok; [exact H|]. destruct (_ <? _); lia.
  - destruct (shift k w (get_op s w d) (if bycl then rget8 (rg s) 1 else 1) (fl s) u) as [r f] eqn:EA.
    assert (B : 0 <= r < modulus w).
    { replace r with (fst (shift k w (get_op s w d) (if bycl then rget8 (rg s) 1 else 1) (fl s) u)) by (rewrite EA; reflexivity).
      apply shift_ok; [apply get_op_ok; assumption|]. destruct bycl; [apply rget8_ok; exact R|lia]. }
    injection E as <-. apply set_fl_ok, put_op_ok; assumption.
  - eapply muldiv_ok; [exact H| |exact E]. apply get_op_ok; assumption.
  - destruct rp; injection E as <-; [apply str_step_ok|apply str_rep_ok|apply str_rep_ok]; exact H.
  - discriminate.
  - injection E as <-. exact H.
  - injection E as <-. exact H.
  - injection E as <-. exact H.
  - injection E as <-. exact H.
Qed.
Theorem step_ok u s s' : wf s -> step u s = Some s' -> wf s'.
Proof.
  intros H E. unfold step in E. destruct (decode (fetch s)) as [[i n]|] eqn:D; [|discriminate].
  eapply exec_ok; [| |exact E]; [apply set_ip_ok; exact H|].
  eapply decode_ok; [|exact D]. intro k. apply H.
Qed.
Lemma reaches_wf P s : wf s -> reaches P s -> reaches (fun t => wf t /\ P t) s.
Proof.
  intros H X. revert H. induction X as [s Ps|s nx E _ IH]; intro H; [apply reach_now; auto|].
  apply (reach_step _ s nx E). intro u. apply IH. apply (step_ok u s); auto.
Qed.
