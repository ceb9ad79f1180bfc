(** The library functions of lib.h written in machine code, run on the 8086
    specification: what a call of each of them does. *)
From Verif Require Import Base Bits Spec8086 Sim86Base Sim86Facts SccRun SccJump LibH.
Local Open Scope list_scope.

(** * Calling convention (the specification of a call) *)
(** the processor is at the first byte of a function whose code is bs *)
Definition at_entry (bs : list Z) (s : state) : Prop :=
  wf s /\ code (mem s) (cs (sg s)) (ip s) bs /\ ip s + Z.of_nat (length bs) < 65536.
(** the word the caller pushed as return address, and the i-th argument (from 0) *)
Definition ret_addr (s : state) : Z := rd16 (mem s) (ss (sg s)) (sp (rg s)).
Definition arg (s : state) (i : Z) : Z := rd16 (mem s) (ss (sg s)) (sp (rg s) + 2 + 2 * i).
(** the n bytes below the stack pointer, which the call may use *)
Definition scratch (n : Z) (s : state) (a : Z) : Prop :=
  exists k, 1 <= k <= n /\ a = phys (ss (sg s)) (sp (rg s) - k).
(** the function's own code is not in that part of the stack *)
Definition code_safe (n : Z) (bs : list Z) (s : state) : Prop :=
  forall k, (k < length bs)%nat -> ~ scratch n s (phys (cs (sg s)) (ip s + Z.of_nat k)).
(** the call has returned: at the return address, stack pointer, BP and segments restored *)
Definition returned (s s' : state) : Prop :=
  ip s' = ret_addr s /\ sp (rg s') = (sp (rg s) + 2) mod 65536 /\ bp (rg s') = bp (rg s) /\ sg s' = sg s.
(** the bytes l followed by a NUL at seg:p *)
Definition string_at (m : arr Z) (seg p : Z) (l : list Z) : Prop :=
  code m seg p (l ++ [0]) /\ (forall c, In c l -> 0 < c < 256).

(** * Addresses *)
Lemma phys_inj seg x y : phys seg x = phys seg y -> (x - y) mod 65536 = 0.
Proof.
  unfold phys. intro H. assert (0 <= x mod 65536 < 65536) by (apply Z.mod_pos_bound; lia).
  assert (0 <= y mod 65536 < 65536) by (apply Z.mod_pos_bound; lia). lia.
Qed.
Lemma phys_mod seg x : phys seg (x mod 65536) = phys seg x.
Proof. unfold phys. rewrite Z.mod_mod by lia. reflexivity. Qed.
Lemma phys_eq seg x y : x mod 65536 = y mod 65536 -> phys seg x = phys seg y.
Proof. unfold phys. intros ->. reflexivity. Qed.
Lemma rd8_mod m seg x : rd8 m seg (x mod 65536) = rd8 m seg x.
Proof. unfold rd8. rewrite phys_mod. reflexivity. Qed.
Lemma rd16_eq m seg x y : x mod 65536 = y mod 65536 -> rd16 m seg x = rd16 m seg y.
Proof. intro H. unfold rd16, rd8. f_equal; [|f_equal]; f_equal; apply phys_eq; lia. Qed.
Lemma rd16_range m seg x : mem_ok m -> 0 <= rd16 m seg x < 65536.
Proof. intro H. unfold rd16, rd8. pose proof (H (phys seg x)). pose proof (H (phys seg (x + 1))). lia. Qed.
Lemma wr16_out m seg x v a : a <> phys seg x -> a <> phys seg (x + 1) -> aget (wr16 m seg x v) a = aget m a.
Proof. intros. unfold wr16, wr8. rewrite !aget_aset_other; auto. Qed.
Lemma mem_ok_wr16 m seg x v : mem_ok m -> mem_ok (wr16 m seg x v).
Proof. intros H a. unfold wr16, wr8. rewrite !aget_aset. destruct (_ =? a); [|destruct (_ =? a)]; try apply Z.mod_pos_bound; try lia. apply H. Qed.
Lemma mem_ok_wr8 m seg x v : mem_ok m -> mem_ok (wr8 m seg x v).
Proof. intros H a. unfold wr8. rewrite !aget_aset. destruct (_ =? a); try apply Z.mod_pos_bound; try lia. apply H. Qed.
Lemma code_agree m m' seg a bs : code m seg a bs ->
  (forall k, (k < length bs)%nat -> aget m' (phys seg (a + Z.of_nat k)) = aget m (phys seg (a + Z.of_nat k))) -> code m' seg a bs.
Proof. intros H E k L. unfold rd8. rewrite E by exact L. apply H, L. Qed.

(** * Entering and leaving *)
(** memory after PUSH BP *)
Definition framed_mem (s : state) : arr Z := wr16 (mem s) (ss (sg s)) ((sp (rg s) - 2) mod 65536) (bp (rg s)).
Lemma framed_out s a : ~ scratch 2 s a -> aget (framed_mem s) a = aget (mem s) a.
Proof.
  intro H. unfold framed_mem. apply wr16_out; intro E; apply H.
  - exists 2. split; [lia|]. rewrite E. apply phys_mod.
  - exists 1. split; [lia|]. rewrite E. apply phys_eq. lia.
Qed.
Lemma scratch_mono n n' s a : n <= n' -> scratch n s a -> scratch n' s a.
Proof. intros L (k & H & E). exists k. split; [lia|exact E]. Qed.
Lemma above_scratch n s i : 0 <= i -> 0 <= n -> i + n < 65536 -> ~ scratch n s (phys (ss (sg s)) (sp (rg s) + i)).
Proof. intros H H1 H2 (k & L & E). apply phys_inj in E. lia. Qed.
Lemma framed_word s i : 0 <= i < 1000 -> rd16 (framed_mem s) (ss (sg s)) (sp (rg s) + i) = rd16 (mem s) (ss (sg s)) (sp (rg s) + i).
Proof.
  intro H. unfold rd16, rd8. rewrite !framed_out; [reflexivity| |]; rewrite <- ?Z.add_assoc; apply above_scratch; lia.
Qed.
Lemma framed_ok s : mem_ok (mem s) -> mem_ok (framed_mem s).
Proof. intro. apply mem_ok_wr16. assumption. Qed.
Definition in_frame (s : state) : regs := rset (rset (rg s) 4 ((sp (rg s) - 2) mod 65536)) 5 ((sp (rg s) - 2) mod 65536).

Lemma safe_code n bs s m' : code (mem s) (cs (sg s)) (ip s) bs -> code_safe n bs s ->
  (forall a, ~ scratch n s a -> aget m' a = aget (mem s) a) -> code m' (cs (sg s)) (ip s) bs.
Proof. intros H S E. apply (code_agree (mem s)); [exact H|]. intros k L. apply E, S, L. Qed.

Lemma wf_parts s : wf s -> regs_ok (rg s) /\ sregs_ok (sg s) /\ 0 <= ip s < 65536 /\ mem_ok (mem s).
Proof. unfold wf, is16. intuition. Qed.

Lemma enter P body n s : at_entry (framed body) s -> 2 <= n -> code_safe n (framed body) s ->
  (forall f, code (framed_mem s) (cs (sg s)) (ip s + 3) (body ++ [0x5D; 0xC3]) ->
     reaches P (mkst (in_frame s) (sg s) (ip s + 3) f (framed_mem s))) -> reaches P s.
Proof.
  intros (Wf & C & L) N S K.
  assert (C1 : code (framed_mem s) (cs (sg s)) (ip s) (framed body)).
  { apply (safe_code n _ _ _ C S). intros a Ha. apply framed_out. intro X. apply Ha. eapply scratch_mono; eauto. }
  destruct (wf_parts _ Wf) as (_ & _ & I & _).
  unfold framed in *. rewrite !app_length in L. cbn [length] in L.
  apply code_app in C. destruct C as [C _].
  pose proof C1 as C2. apply code_app in C1. destruct C1 as [C1 C3]. cbn [length] in C3.
  destruct s as [r g i f m]. cbn [rg sg ip fl mem] in *.
  runop [0x55] (IPush (Reg 5)) 1.
  { intros k Hk. cbn in Hk. assert (k = 0%nat) as -> by lia. apply (C 0%nat). cbn. lia. }
  runop [0x89; 0xE5] (IMov true (Reg 5) (Reg 4)) 2.
  { change [85; 137; 229] with ([85] ++ [137; 229]) in C1. apply code_app in C1. exact (proj2 C1). }
  replace (i + 1 + 2) with (i + 3) by lia. apply (K f). exact C3.
Qed.

(** leaving: the frame pointer and the stack pointer are where they were *)
Lemma leave (P : state -> Prop) g s a f m r : wf s -> code m (cs g) a [0x5D; 0xC3] -> 0 <= a -> a + 2 < 65536 ->
  sp r = (sp (rg s) - 2) mod 65536 -> ss g = ss (sg s) ->
  rd16 m (ss g) (sp (rg s) - 2) = bp (rg s) -> rd16 m (ss g) (sp (rg s)) = ret_addr s -> 
  (P (mkst (rset (rset r 5 (bp (rg s))) 4 ((sp (rg s) + 2) mod 65536)) g (ret_addr s) f m)) ->
  reaches P (mkst r g a f m).
Proof.
  intros Wf C A1 A2 S G B R H.
  destruct (wf_parts _ Wf) as (_ & _ & _ & M).
  pose proof (rd16_range (mem s) (ss (sg s)) (sp (rg s)) M) as RR. fold (ret_addr s) in RR.
  pose proof C as C'. change [93; 195] with ([93] ++ [195]) in C. apply code_app in C. destruct C as [C1 C2].
  runop [0x5D] (IPop 5) 1.
  runop [0xC3] IRet 1.
  apply reach_now. cbn [rset sp bp ss sg rg set_ip mem ip fl] in *. unfold rset in *. cbn [ax cx dx bx sp bp si di] in *. unfold set_ip. cbn [ip rg sg fl mem].
  rewrite S in *.
  replace (((sp (rg s) - 2) mod 65536 + 2) mod 65536) with (sp (rg s) mod 65536) by lia.
  rewrite (rd16_eq _ _ ((sp (rg s) - 2) mod 65536) (sp (rg s) - 2)) by lia. rewrite B.
  rewrite (rd16_eq _ _ (sp (rg s) mod 65536) (sp (rg s))) by lia. rewrite R.
  rewrite (Z.mod_small (ret_addr s)) by exact RR.
  replace ((sp (rg s) mod 65536 + 2) mod 65536) with ((sp (rg s) + 2) mod 65536) by lia. exact H.
Qed.
Lemma framed_saved s : 0 <= bp (rg s) < 65536 -> rd16 (framed_mem s) (ss (sg s)) (sp (rg s) - 2) = bp (rg s).
Proof. intro H. unfold framed_mem. rewrite (rd16_eq _ _ _ ((sp (rg s) - 2) mod 65536)) by lia. apply rd16_wr16. exact H. Qed.
Lemma framed_ret s : rd16 (framed_mem s) (ss (sg s)) (sp (rg s)) = ret_addr s.
Proof. unfold ret_addr. rewrite <- (Z.add_0_r (sp (rg s))). apply framed_word. lia. Qed.
(** an argument seen from the frame *)
Lemma framed_arg s d i : d = 4 + 2 * i -> 0 <= i < 100 ->
  rd16 (framed_mem s) (ss (sg s)) (((sp (rg s) - 2) mod 65536 + d) mod 65536) = arg s i.
Proof.
  intros -> H. unfold arg. rewrite (rd16_eq _ _ _ (sp (rg s) + (2 + 2 * i))) by lia.
  rewrite framed_word by lia. f_equal. lia.
Qed.

(** * strlen *)
Lemma cons_code m seg a b c : code m seg a (b :: c) -> rd8 m seg a = b /\ code m seg (a + 1) c.
Proof. intro H. split; [|eapply code_cons; exact H]. specialize (H 0%nat). cbn in H. rewrite Z.add_0_r in H. apply H. lia. Qed.
Lemma in_code m seg a pre bs post : code m seg a (pre ++ bs ++ post) -> code m seg (a + Z.of_nat (length pre)) bs.
Proof. intro H. apply code_app in H. destruct H as [_ H]. apply code_app in H. apply H. Qed.
Lemma string_cons m seg p c l : string_at m seg p (c :: l) -> rd8 m seg p = c /\ 0 < c < 256 /\ string_at m seg (p + 1) l.
Proof. intros [H F]. cbn [app] in H. apply cons_code in H. destruct H as [H1 H2]. split; [exact H1|]. split; [apply F; left; reflexivity|]. split; [exact H2|]. intros. apply F. right. assumption. Qed.
Lemma string_nil m seg p : string_at m seg p [] -> rd8 m seg p = 0.
Proof. intros [H _]. apply cons_code in H. apply H. Qed.

Lemma code_sub m seg a a' big i n bs : code m seg a big -> a' = a + Z.of_nat i -> (i + n <= length big)%nat -> bs = firstn n (skipn i big) -> code m seg a' bs.
Proof.
  intros H -> L -> k K. rewrite <- (firstn_skipn i big) in H. apply code_app in H. destruct H as [_ H].
  rewrite firstn_length in H. rewrite Nat.min_l in H by lia.
  rewrite <- (firstn_skipn n (skipn i big)) in H. apply code_app in H. destruct H as [H _]. apply H. exact K.
Qed.
(** [op C i n ins]: run the n-byte instruction ins at offset i of the code C *)
Ltac regs := cbn [rset rget ax cx dx bx sp bp si di rg sg ip fl mem es cs ss ds sget sset mode_off mode_seg].
Ltac op C i n ins :=
  let bg := match type of C with code _ _ _ ?b => b end in
  let bs := eval cbv [firstn skipn] in (firstn n (skipn i bg)) in
  eapply (reach_code _ bs ins (Z.of_nat n));
  [ apply (code_sub _ _ _ _ _ i n _ C); [try lia | cbn [length]; lia | reflexivity]
  | intro; reflexivity | try lia
  | intro; cbn [exec get_op put_op alu rg sg fl mem ip pop]; unfold push, set_reg, set_fl, set_rg, set_mem, set_sg; cbn [rg sg fl mem ip]; reflexivity
  | intro; cbv beta; regs ].
Ltac jop C i cc v T :=
  let bg := match type of C with code _ _ _ ?b => b end in
  let bs := eval cbv [firstn skipn] in (firstn 2 (skipn i bg)) in
  let b := match bs with [_; ?b] => b end in
  apply (jcc_run _ _ _ _ _ _ cc b v T);
  [ lia | | apply (code_sub _ _ _ _ _ i 2 _ C); [try lia | cbn [length]; lia | reflexivity] | try lia | try lia
  | try discriminate; intros _; change (sx8 b) with ltac:(let x := eval vm_compute in (sx8 b) in exact x); try lia | try discriminate; intros _; try lia |].

Lemma al_of h x : 0 <= x < 256 -> (h / 256 * 256 + x) mod 256 = x.
Proof. intro. lia. Qed.
Lemma ah_of h x : 0 <= x < 256 -> (h / 256 * 256 + x) / 256 = h / 256.
Proof. intro. lia. Qed.
Lemma strlen_loop P m g c d b s p dd a : forall l q A f,
  0 <= a -> a + 5 < 65536 ->
  code m (cs g) a [0xAC; 0x20; 0xC0; 0x75; 0xFB] -> string_at m (ds g) q l ->
  (forall A' f', reaches P (mkst (mkregs A' c d b s p ((q + Z.of_nat (length l) + 1) mod 65536) dd) g (a + 5) f' m)) ->
  reaches P (mkst (mkregs A c d b s p (q mod 65536) dd) g a f m).
Proof.
  induction l as [|x l IH]; intros q A f A0 A1 C S K.
  - apply string_nil in S.
    op C 0%nat 1%nat (IStr LODS false NoRep).
    unfold str_step, set_rg. regs. rewrite rd8_mod, S. unfold rset8, rget8. regs. cbn [Z.ltb Z.compare].
    op C 1%nat 2%nat (IAlu AND false (Reg 0) (Reg 0)).
    unfold rset8, rget8. regs. cbn [Z.ltb Z.compare]. regs. rewrite al_of by lia.
    jop C 3%nat 5 false (a + 5). { reflexivity. }
    replace ((q mod 65536 + 1) mod 65536) with ((q + Z.of_nat (length (@nil Z)) + 1) mod 65536) by (cbn [length]; lia).
    apply K.
  - apply string_cons in S. destruct S as (S1 & S2 & S3).
    op C 0%nat 1%nat (IStr LODS false NoRep).
    unfold str_step, set_rg. regs. rewrite rd8_mod, S1. unfold rset8, rget8. regs. cbn [Z.ltb Z.compare].
    op C 1%nat 2%nat (IAlu AND false (Reg 0) (Reg 0)).
    unfold rset8, rget8. regs. cbn [Z.ltb Z.compare]. regs. rewrite al_of by lia. rewrite Z.land_diag.
    jop C 3%nat 5 true a.
    { unfold logic_flags, flags_of. cbn [cond fZ]. destruct (Z.eqb_spec x 0); [lia|reflexivity]. }
    replace ((q mod 65536 + 1) mod 65536) with ((q + 1) mod 65536) by lia.
    apply (IH (q + 1)); auto. intros A' f'.
    replace (q + 1 + Z.of_nat (length l) + 1) with (q + Z.of_nat (length (x :: l)) + 1) by (cbn [length]; lia). apply K.
Qed.

(** what stays the same in memory: everything but the n bytes below the stack pointer *)
Definition mem_kept (n : Z) (s s' : state) : Prop := forall a, ~ scratch n s a -> aget (mem s') a = aget (mem s) a.
(** the bytes at seg:p .. seg:p+n-1 are not in the part of the stack the call uses *)
Definition clear_of (n : Z) (s : state) (seg p len : Z) : Prop := forall k, 0 <= k < len -> ~ scratch n s (phys seg (p + k)).

Lemma string_framed s n seg p l : 2 <= n -> string_at (mem s) seg p l -> clear_of n s seg p (Z.of_nat (length l) + 1) -> string_at (framed_mem s) seg p l.
Proof.
  intros N [H F] C. split; [|exact F]. apply (code_agree (mem s)); [exact H|]. intros k K. apply framed_out.
  rewrite app_length in K. cbn [length] in K. intro X. apply (C (Z.of_nat k)); [lia|]. eapply scratch_mono; eauto.
Qed.
Lemma bp_ok s : wf s -> 0 <= bp (rg s) < 65536.
Proof. unfold wf, regs_ok, is16. tauto. Qed.
Ltac start :=
  match goal with E : at_entry (framed ?b) ?s |- reaches _ ?s =>
    assert (Wf : wf s) by exact (proj1 E);
    assert (Lo : ip s + Z.of_nat (length (framed b)) < 65536) by exact (proj2 (proj2 E));
    eapply (enter _ b); [exact E | | eassumption | ];
    [ try lia | intros f0 C0; unfold in_frame; cbv [framed app b length Z.of_nat Pos.of_succ_nat] in C0;
      cbv [framed app b] in Lo; cbn [length] in Lo; regs;
      destruct (wf_parts _ Wf) as (Rok & Gok & Iok & Mok) ]
  end.
Lemma ea_bp s d i : d = 4 + 2 * i -> 0 <= i < 100 ->
  rd16 (framed_mem s) (ea_seg (sg s) None MBP) (ea_off (in_frame s) MBP d) = arg s i.
Proof. intros. apply framed_arg; auto. Qed.

Theorem strlen_call s l : at_entry (framed strlen_body) s -> code_safe 2 (framed strlen_body) s ->
  string_at (mem s) (ds (sg s)) (arg s 0) l -> clear_of 2 s (ds (sg s)) (arg s 0) (Z.of_nat (length l) + 1) ->
  Z.of_nat (length l) < 65536 ->
  reaches (fun s' => returned s s' /\ ax (rg s') = Z.of_nat (length l) /\ mem_kept 2 s s' /\
                     bx (rg s') = bx (rg s) /\ dx (rg s') = dx (rg s) /\ di (rg s') = di (rg s)) s.
Proof.
  intros E Sf St Cl Ln. start.
  apply (string_framed s 2) in St; [|lia|exact Cl].
  op C0 0%nat 3%nat (IMov true (Reg 1) (Mem None MBP 4)).
  unfold ea_seg, ea_off. regs. rewrite (framed_arg s 4 0) by lia.
  op C0 3%nat 2%nat (IMov true (Reg 6) (Reg 1)).
  assert (A : 0 <= arg s 0 < 65536) by (apply rd16_range; assumption).
  rewrite <- (Z.mod_small (arg s 0) 65536) at 2 by exact A.
  eapply (strlen_loop _ _ _ _ _ _ _ _ _ _ l); [lia|lia| |exact St|].
  { apply (code_sub _ _ _ _ _ 5 5 _ C0); [lia|cbn [length]; lia|reflexivity]. }
  intros A' f'.
  op C0 10%nat 1%nat (IXchg true (Reg 6) (Reg 0)).
  op C0 11%nat 2%nat (IAlu SUB true (Reg 0) (Reg 1)).
  op C0 13%nat 1%nat (IDec true (Reg 0)).
  eapply (leave _ _ s); [exact Wf| | | | | | | |].
  { apply (code_sub _ _ _ _ _ 14 2 _ C0); [lia|cbn [length]; lia|reflexivity]. }
  1,2: lia. 1,2: reflexivity.
  { apply framed_saved, bp_ok, Wf. } { apply framed_ret. }
  regs. split; [unfold returned; regs; auto|]. split.
  { unfold trunc. cbn [modulus]. lia. }
  split; [intros x X; apply framed_out, X|]. auto.
Qed.

(** * strcmp *)
(** the difference C asks strcmp to have the sign of: of the first bytes that differ
    (the terminator counting as 0) *)
Fixpoint strdiff (a b : list Z) : Z :=
  match a, b with
  | [], [] => 0
  | [], y :: _ => - y
  | x :: _, [] => x
  | x :: a', y :: b' => if x =? y then strdiff a' b' else x - y
  end.
Lemma strdiff_eq a b : (forall c, In c a -> 0 < c < 256) -> (forall c, In c b -> 0 < c < 256) -> (strdiff a b = 0 <-> a = b).
Proof.
  revert b. induction a as [|x a IH]; intros [|y b] H1 H2; cbn [strdiff].
  - tauto.
  - specialize (H2 y (or_introl eq_refl)). split; [lia|discriminate].
  - specialize (H1 x (or_introl eq_refl)). split; [lia|discriminate].
  - destruct (Z.eqb_spec x y) as [->|N].
    + rewrite IH; [|intros; apply H1; right; assumption|intros; apply H2; right; assumption]. split; congruence.
    + split; [lia|]. intro E. injection E. intros. contradiction.
Qed.
Lemma strdiff_range a b k : (forall c, In c a -> 0 < c < k) -> (forall c, In c b -> 0 < c < k) -> 0 < k -> - k < strdiff a b < k.
Proof.
  revert b. induction a as [|x a IH]; intros [|y b] H1 H2 K; cbn [strdiff].
  - lia.
  - specialize (H2 y (or_introl eq_refl)). lia.
  - specialize (H1 x (or_introl eq_refl)). lia.
  - destruct (Z.eqb_spec x y) as [->|N].
    + apply IH; auto; intros; [apply H1|apply H2]; right; assumption.
    + specialize (H1 x (or_introl eq_refl)). specialize (H2 y (or_introl eq_refl)). lia.
Qed.

(** the first two bytes compared, and what is left when they agree and are not the end *)
Definition hd0 (l : list Z) : Z := hd 0 l.
Lemma string_hd m seg p l : string_at m seg p l -> rd8 m seg p = hd0 l /\ 0 <= hd0 l < 256.
Proof. destruct l as [|x l]; intro H; [split; [apply (string_nil _ _ _ H)|cbn; lia]|apply string_cons in H; cbn; split; [apply H|lia]]. Qed.
Lemma strdiff_hd a b : hd0 a <> hd0 b -> strdiff a b = hd0 a - hd0 b.
Proof. destruct a as [|x a], b as [|y b]; cbn; try lia. destruct (Z.eqb_spec x y); lia. Qed.

Lemma ah_set h x al : 0 <= x < 256 -> 0 <= al < 256 -> (x * 256 + (h * 256 + al) mod 256) / 256 = x.
Proof. intros. lia. Qed.

Lemma strcmp_round P m g c d b s p a x y q t A f :
  0 <= a -> a + 13 < 65536 ->
  code m (cs g) a [0xAC; 0x8A; 0x25; 0x47; 0x28; 0xE0; 0x75; 0x04; 0x20; 0xE4; 0x75; 0xF4; 0x98] ->
  rd8 m (ds g) q = x -> 0 <= x < 256 -> rd8 m (ds g) t = y -> 0 <= y < 256 ->
  (x <> y \/ y = 0 -> forall si' di' f', reaches P (mkst (mkregs (s8 (x - y) mod 65536) c d b s p si' di') g (a + 13) f' m)) ->
  (x = y -> y <> 0 -> forall A' f', reaches P (mkst (mkregs A' c d b s p ((q + 1) mod 65536) ((t + 1) mod 65536)) g a f' m)) ->
  reaches P (mkst (mkregs A c d b s p (q mod 65536) (t mod 65536)) g a f m).
Proof.
  intros A0 A1 C X Rx Y Ry K1 K2.
  op C 0%nat 1%nat (IStr LODS false NoRep).
  unfold str_step, set_rg. regs. rewrite rd8_mod, X. unfold rset8, rget8. regs. cbn [Z.ltb Z.compare]. regs.
  replace ((q mod 65536 + 1) mod 65536) with ((q + 1) mod 65536) by lia.
  op C 1%nat 2%nat (IMov false (Reg 4) (Mem None MDI 0)).
  unfold ea_seg, ea_off. regs. rewrite Z.add_0_r. rewrite (Z.mod_mod t) by lia. rewrite rd8_mod, Y. unfold rset8. cbn [Z.ltb Z.compare].
  change (4 - 4) with 0. regs. rewrite al_of by lia.
  op C 3%nat 1%nat (IInc true (Reg 7)).
  unfold trunc. cbn [modulus]. replace ((t mod 65536 + 1) mod 65536) with ((t + 1) mod 65536) by lia.
  op C 4%nat 2%nat (IAlu SUB false (Reg 0) (Reg 4)).
  unfold rset8, rget8. regs. change (0 <? 4) with true. change (4 <? 4) with false. change (4 - 4) with 0. cbv iota. regs.
  replace ((y * 256 + x) mod 256) with x by lia. replace ((y * 256 + x) / 256) with y by lia.
  unfold sub_flags, flags_of, trunc. cbn [modulus].
  set (D := (x - y) mod 256).
  assert (RD : 0 <= D < 256) by (unfold D; apply Z.mod_pos_bound; lia).
  destruct (Z.eqb_spec ((x - y - 0) mod 256) 0) as [Z0|Z0].
  - assert (x = y) by lia. assert (D0 : D = 0) by (unfold D; lia).
    jop C 6%nat 5 false (a + 8). { reflexivity. }
    op C 8%nat 2%nat (IAlu AND false (Reg 4) (Reg 4)).
    unfold rset8, rget8. regs. change (4 <? 4) with false. change (4 - 4) with 0. cbv iota. regs.
    replace ((y * 256 + D) / 256) with y by lia. replace ((y * 256 + D) mod 256) with 0 by lia. rewrite Z.land_diag.
    unfold logic_flags, flags_of. destruct (Z.eqb_spec y 0) as [Y0|Y0].
    + jop C 10%nat 5 false (a + 12). { reflexivity. }
      op C 12%nat 1%nat ICbw. replace (a + 12 + Z.of_nat 1) with (a + 13) by lia.
      unfold rget8. regs. change (0 <? 4) with true. cbv iota. regs.
      replace (signed false ((y * 256 + 0) mod 256)) with (s8 (x - y)).
      2: { unfold signed, s8. cbn [half modulus]. replace ((y * 256 + 0) mod 256) with ((x - y) mod 256) by lia. reflexivity. }
      apply K1. lia.
    + jop C 10%nat 5 true a. { reflexivity. }
      replace ((t mod 65536 + 1) mod 65536) with ((t + 1) mod 65536) by lia. apply K2; assumption.
  - jop C 6%nat 5 true (a + 12). { reflexivity. }
    op C 12%nat 1%nat ICbw. replace (a + 12 + Z.of_nat 1) with (a + 13) by lia.
    unfold rget8. regs. change (0 <? 4) with true. cbv iota. regs.
    replace (signed false ((y * 256 + D) mod 256)) with (s8 (x - y)).
    2: { unfold signed, s8. cbn [half modulus]. replace ((y * 256 + D) mod 256) with D by lia. reflexivity. }
    apply K1. left. intro. subst y. apply Z0. f_equal. lia.
Qed.
Lemma strcmp_loop P m g c d b s p a : forall la lb q t A f,
  0 <= a -> a + 13 < 65536 ->
  code m (cs g) a [0xAC; 0x8A; 0x25; 0x47; 0x28; 0xE0; 0x75; 0x04; 0x20; 0xE4; 0x75; 0xF4; 0x98] ->
  string_at m (ds g) q la -> string_at m (ds g) t lb ->
  (forall si' di' f', reaches P (mkst (mkregs (s8 (strdiff la lb) mod 65536) c d b s p si' di') g (a + 13) f' m)) ->
  reaches P (mkst (mkregs A c d b s p (q mod 65536) (t mod 65536)) g a f m).
Proof.
  induction la as [|x la IH]; intros lb q t A f A0 A1 C Sa Sb K.
  - destruct (string_hd _ _ _ _ Sa) as [Ha Ra]; destruct (string_hd _ _ _ _ Sb) as [Hb Rb].
    eapply strcmp_round; eauto.
    + intros [N|N].
      * rewrite <- strdiff_hd by exact N. exact K.
      * destruct lb as [|y lb]; [exact K|]. apply string_cons in Sb. cbn in N. lia.
    + intros N1 N2. exfalso. cbn in N1. congruence.
  - destruct (string_hd _ _ _ _ Sa) as [Ha Ra]; destruct (string_hd _ _ _ _ Sb) as [Hb Rb].
    eapply strcmp_round; eauto.
    + intros [N|N].
      * rewrite <- strdiff_hd by exact N. exact K.
      * rewrite <- strdiff_hd; [exact K|]. apply string_cons in Sa. rewrite N. cbn [hd0 hd]. lia.
    + intros N1 N2 A' f'. destruct lb as [|y lb]; [cbn in N2; congruence|].
      apply string_cons in Sa, Sb. cbn in N1. subst y.
      apply (IH lb); try tauto. intros si' di' f2. cbn [strdiff] in K. rewrite Z.eqb_refl in K. apply K.
Qed.

Theorem strcmp_call s la lb : at_entry (framed strcmp_body) s -> code_safe 2 (framed strcmp_body) s ->
  string_at (mem s) (ds (sg s)) (arg s 0) la -> clear_of 2 s (ds (sg s)) (arg s 0) (Z.of_nat (length la) + 1) ->
  string_at (mem s) (ds (sg s)) (arg s 1) lb -> clear_of 2 s (ds (sg s)) (arg s 1) (Z.of_nat (length lb) + 1) ->
  reaches (fun s' => returned s s' /\ ax (rg s') = s8 (strdiff la lb) mod 65536 /\ mem_kept 2 s s' /\
                     bx (rg s') = bx (rg s) /\ cx (rg s') = cx (rg s) /\ dx (rg s') = dx (rg s)) s.
Proof.
  intros E Sf Sa Ca Sb Cb. start.
  apply (string_framed s 2) in Sa; [|lia|exact Ca]. apply (string_framed s 2) in Sb; [|lia|exact Cb].
  op C0 0%nat 3%nat (IMov true (Reg 6) (Mem None MBP 4)).
  unfold ea_seg, ea_off. regs. rewrite (framed_arg s 4 0) by lia.
  op C0 3%nat 3%nat (IMov true (Reg 7) (Mem None MBP 6)).
  unfold ea_seg, ea_off. regs. rewrite (framed_arg s 6 1) by lia.
  assert (A : 0 <= arg s 0 < 65536) by (apply rd16_range; assumption).
  assert (B : 0 <= arg s 1 < 65536) by (apply rd16_range; assumption).
  rewrite <- (Z.mod_small (arg s 0) 65536) by exact A. rewrite <- (Z.mod_small (arg s 1) 65536) by exact B.
  eapply (strcmp_loop _ _ _ _ _ _ _ _ _ la lb); [lia|lia| |exact Sa|exact Sb|].
  { apply (code_sub _ _ _ _ _ 6 13 _ C0); [lia|cbn [length]; lia|reflexivity]. }
  intros si' di' f'.
  eapply (leave _ _ s); [exact Wf| | | | | | | |].
  { apply (code_sub _ _ _ _ _ 19 2 _ C0); [lia|cbn [length]; lia|reflexivity]. }
  1,2: lia. 1,2: reflexivity.
  { apply framed_saved, bp_ok, Wf. } { apply framed_ret. }
  regs. split; [unfold returned; regs; auto|]. split; [reflexivity|].
  split; [intros x X; apply framed_out, X|]. auto.
Qed.

(** * memcpy and memset *)
(** ascending copy and fill, one byte at a time (specification) *)
Fixpoint copy_up (n : nat) (m : arr Z) (sseg sp dseg dp : Z) : arr Z :=
  match n with O => m | S n' => copy_up n' (wr8 m dseg dp (rd8 m sseg sp)) sseg (sp + 1) dseg (dp + 1) end.
Fixpoint fill_up (n : nat) (m : arr Z) (dseg dp v : Z) : arr Z :=
  match n with O => m | S n' => fill_up n' (wr8 m dseg dp v) dseg (dp + 1) v end.
Definition in_range (seg p n a : Z) : Prop := exists k, 0 <= k < n /\ a = phys seg (p + k).

Lemma wr8_mod m seg x v : wr8 m seg (x mod 65536) v = wr8 m seg x v.
Proof. unfold wr8. rewrite phys_mod. reflexivity. Qed.

Lemma rep_movs st n : forall a c d b s p src dst g i f m, (forall f, st f = false) -> Z.of_nat n <= c ->
  0 <= c < 65536 ->
  str_rep n MOVS false st (mkst (mkregs a c d b s p (src mod 65536) (dst mod 65536)) g i f m) =
  mkst (mkregs a (c - Z.of_nat n) d b s p ((src + Z.of_nat n) mod 65536) ((dst + Z.of_nat n) mod 65536)) g i f (copy_up n m (ds g) src (es g) dst).
Proof.
  induction n as [|n IH]; intros a c d b s p src dst g i f m St L R.
  - cbn [str_rep copy_up]. f_equal. f_equal; rewrite ?Z.add_0_r; lia || reflexivity.
  - cbn [str_rep copy_up]. rewrite St. unfold str_step, set_reg, set_rg, set_mem. regs.
    rewrite rd8_mod, wr8_mod.
    replace ((src mod 65536 + 1) mod 65536) with ((src + 1) mod 65536) by lia.
    replace ((dst mod 65536 + 1) mod 65536) with ((dst + 1) mod 65536) by lia.
    replace ((c - 1) mod 65536) with (c - 1) by lia.
    rewrite IH; [|exact St|lia|lia]. f_equal. f_equal; lia || (f_equal; lia).
Qed.
Lemma rep_stos st n : forall a c d b s p src dst g i f m, (forall f, st f = false) -> Z.of_nat n <= c ->
  0 <= c < 65536 ->
  str_rep n STOS false st (mkst (mkregs a c d b s p src (dst mod 65536)) g i f m) =
  mkst (mkregs a (c - Z.of_nat n) d b s p src ((dst + Z.of_nat n) mod 65536)) g i f (fill_up n m (es g) dst (a mod 256)).
Proof.
  induction n as [|n IH]; intros a c d b s p src dst g i f m St L R.
  - cbn [str_rep fill_up]. f_equal. f_equal; rewrite ?Z.add_0_r; lia || reflexivity.
  - cbn [str_rep fill_up]. rewrite St. unfold str_step, set_reg, set_rg, set_mem. regs.
    unfold rget8. change (0 <? 4) with true. cbv iota. regs. rewrite wr8_mod.
    replace ((dst mod 65536 + 1) mod 65536) with ((dst + 1) mod 65536) by lia.
    replace ((c - 1) mod 65536) with (c - 1) by lia.
    rewrite IH; [|exact St|lia|lia]. f_equal. f_equal; lia || (f_equal; lia).
Qed.

Lemma aget_wr8 m seg x v a : aget (wr8 m seg x v) a = if phys seg x =? a then v mod 256 else aget m a.
Proof. unfold wr8. apply aget_aset. Qed.
Lemma copy_out n : forall m sseg sp dseg dp a, ~ in_range dseg dp (Z.of_nat n) a -> aget (copy_up n m sseg sp dseg dp) a = aget m a.
Proof.
  induction n as [|n IH]; intros m sseg sp dseg dp a H; cbn [copy_up]; [reflexivity|].
  rewrite IH.
  - rewrite aget_wr8. destruct (Z.eqb_spec (phys dseg dp) a) as [E|]; [|reflexivity].
    exfalso. apply H. exists 0. split; [lia|]. rewrite Z.add_0_r. auto.
  - intros (k & K & E). apply H. exists (k + 1). split; [lia|]. rewrite E. f_equal. lia.
Qed.
Lemma fill_out n : forall m dseg dp v a, ~ in_range dseg dp (Z.of_nat n) a -> aget (fill_up n m dseg dp v) a = aget m a.
Proof.
  induction n as [|n IH]; intros m dseg dp v a H; cbn [fill_up]; [reflexivity|].
  rewrite IH.
  - rewrite aget_wr8. destruct (Z.eqb_spec (phys dseg dp) a) as [E|]; [|reflexivity].
    exfalso. apply H. exists 0. split; [lia|]. rewrite Z.add_0_r. auto.
  - intros (k & K & E). apply H. exists (k + 1). split; [lia|]. rewrite E. f_equal. lia.
Qed.
Lemma fill_in n : forall m dseg dp v k, 0 <= k < Z.of_nat n -> Z.of_nat n <= 65536 -> rd8 (fill_up n m dseg dp v) dseg (dp + k) = v mod 256.
Proof.
  induction n as [|n IH]; intros m dseg dp v k K N; [lia|]. cbn [fill_up].
  destruct (Z.eq_dec k 0) as [->|Kn].
  - unfold rd8. rewrite fill_out.
    + rewrite aget_wr8, Z.add_0_r, Z.eqb_refl. reflexivity.
    + intros (j & J & E). apply phys_inj in E. lia.
  - replace (dp + k) with (dp + 1 + (k - 1)) by lia. apply IH; lia.
Qed.
Lemma copy_in n : forall m sseg sp dseg dp k, mem_ok m -> 0 <= k < Z.of_nat n -> Z.of_nat n <= 65536 ->
  (forall i j, 0 <= i < j -> j < Z.of_nat n -> phys dseg (dp + i) <> phys sseg (sp + j)) ->
  rd8 (copy_up n m sseg sp dseg dp) dseg (dp + k) = rd8 m sseg (sp + k).
Proof.
  induction n as [|n IH]; intros m sseg sp dseg dp k M K N D; [lia|]. cbn [copy_up].
  destruct (Z.eq_dec k 0) as [->|Kn].
  - unfold rd8. rewrite copy_out.
    + rewrite aget_wr8, !Z.add_0_r, Z.eqb_refl. apply Z.mod_small. apply M.
    + intros (j & J & E). apply phys_inj in E. lia.
  - replace (dp + k) with (dp + 1 + (k - 1)) by lia. rewrite IH; [| |lia|lia|].
    + replace (sp + 1 + (k - 1)) with (sp + k) by lia. unfold rd8 at 1. rewrite aget_wr8.
      destruct (Z.eqb_spec (phys dseg dp) (phys sseg (sp + k))) as [E|]; [|reflexivity].
      exfalso. apply (D 0 k); [lia|lia|]. rewrite Z.add_0_r. exact E.
    + apply mem_ok_wr8, M.
    + intros i j I J. replace (dp + 1 + i) with (dp + (i + 1)) by lia. replace (sp + 1 + j) with (sp + (j + 1)) by lia. apply D; lia.
Qed.
(** two memories that agree on the source and elsewhere outside X still do so afterwards *)
Lemma copy_agree (X : Z -> Prop) n : forall m m' sseg sp dseg dp,
  (forall a, ~ X a -> aget m' a = aget m a) -> (forall k, 0 <= k < Z.of_nat n -> ~ X (phys sseg (sp + k))) ->
  forall a, ~ X a -> aget (copy_up n m' sseg sp dseg dp) a = aget (copy_up n m sseg sp dseg dp) a.
Proof.
  induction n as [|n IH]; intros m m' sseg sp dseg dp H S a Xa; cbn [copy_up]; [auto|].
  apply IH; auto.
  - intros b Xb. rewrite !aget_wr8. destruct (_ =? b); [|auto]. f_equal. unfold rd8. apply H.
    rewrite <- (Z.add_0_r sp). apply S. lia.
  - intros k K. replace (sp + 1 + k) with (sp + (k + 1)) by lia. apply S. lia.
Qed.

(** a destination range that leaves the call itself alone: its code, and the four
    bytes of saved BP and return address *)
Definition dest_safe (bs : list Z) (s : state) (seg p n : Z) : Prop :=
  forall a, in_range seg p n a ->
    (forall k, (k < length bs)%nat -> a <> phys (cs (sg s)) (ip s + Z.of_nat k)) /\
    (forall k, -2 <= k < 2 -> a <> phys (ss (sg s)) (sp (rg s) + k)).

Lemma dest_code bs s seg p n m m' i c : dest_safe bs s seg p n -> (forall a, ~ in_range seg p n a -> aget m' a = aget m a) ->
  code m (cs (sg s)) (ip s + Z.of_nat i) c -> (i + length c <= length bs)%nat -> code m' (cs (sg s)) (ip s + Z.of_nat i) c.
Proof.
  intros D E C L. apply (code_agree m); [exact C|]. intros k K. apply E. intro X. apply D in X. destruct X as [X _].
  apply (X (i + k)%nat); [lia|]. f_equal. lia.
Qed.
Lemma dest_word bs s seg p n m m' k : dest_safe bs s seg p n -> (forall a, ~ in_range seg p n a -> aget m' a = aget m a) ->
  k = -2 \/ k = 0 -> rd16 m' (ss (sg s)) (sp (rg s) + k) = rd16 m (ss (sg s)) (sp (rg s) + k).
Proof.
  intros D E K. unfold rd16, rd8. f_equal; [|f_equal]; apply E; intro X; apply D in X; destruct X as [_ X].
  - apply (X k); [lia|reflexivity].
  - apply (X (k + 1)); [lia|]. f_equal. lia.
Qed.
Lemma ready_code s body m' n seg p : at_entry (framed body) s -> code_safe 2 (framed body) s -> dest_safe (framed body) s seg p n ->
  (forall a, ~ in_range seg p n a -> aget m' a = aget (framed_mem s) a) ->
  code m' (cs (sg s)) (ip s + 3 + Z.of_nat (length body)) [0x5D; 0xC3].
Proof.
  intros (Wf & C & L) S D E.
  replace (ip s + 3 + Z.of_nat (length body)) with (ip s + Z.of_nat (3 + length body)) by lia.
  eapply dest_code; [exact D|exact E| |unfold framed; rewrite !app_length; cbn [length]; lia].
  assert (C1 : code (framed_mem s) (cs (sg s)) (ip s) (framed body)).
  { apply (safe_code 2 _ _ _ C S). apply framed_out. }
  unfold framed in C1. rewrite app_assoc in C1. apply code_app in C1. destruct C1 as [_ C1].
  rewrite app_length in C1. exact C1.
Qed.

Theorem memset_call s : let bs := framed memset_body in let n := arg s 2 in
  at_entry bs s -> code_safe 2 bs s -> dest_safe bs s (es (sg s)) (arg s 0) n ->
  reaches (fun s' => returned s s' /\
    (forall k, 0 <= k < n -> rd8 (mem s') (es (sg s)) (arg s 0 + k) = arg s 1 mod 256) /\
    (forall a, ~ in_range (es (sg s)) (arg s 0) n a -> ~ scratch 2 s a -> aget (mem s') a = aget (mem s) a) /\
    bx (rg s') = bx (rg s) /\ dx (rg s') = dx (rg s) /\ si (rg s') = si (rg s)) s.
Proof.
  intros bs n E Sf D. unfold bs in *. start.
  op C0 0%nat 3%nat (IMov true (Reg 7) (Mem None MBP 4)).
  unfold ea_seg, ea_off. regs. rewrite (framed_arg s 4 0) by lia.
  op C0 3%nat 3%nat (IMov true (Reg 0) (Mem None MBP 6)).
  unfold ea_seg, ea_off. regs. rewrite (framed_arg s 6 1) by lia.
  op C0 6%nat 3%nat (IMov true (Reg 1) (Mem None MBP 8)).
  unfold ea_seg, ea_off. regs. rewrite (framed_arg s 8 2) by lia.
  op C0 9%nat 2%nat (IStr STOS false Rep).
  assert (A : 0 <= arg s 0 < 65536) by (apply rd16_range; assumption).
  assert (B : 0 <= n < 65536) by (apply rd16_range; assumption).
  fold n. rewrite <- (Z.mod_small (arg s 0) 65536) at 1 by exact A.
  rewrite rep_stos; [|reflexivity|lia|lia].
  set (M := fill_up _ _ _ _ _).
  assert (Out : forall a, ~ in_range (es (sg s)) (arg s 0) n a -> aget M a = aget (framed_mem s) a).
  { intros a Ha. apply fill_out. rewrite Z2Nat.id by lia. exact Ha. }
  eapply (leave _ _ s); [exact Wf| | | | | | | |].
  { replace (ip s + 3 + Z.of_nat 3 + Z.of_nat 3 + Z.of_nat 3 + Z.of_nat 2) with (ip s + 3 + Z.of_nat (length memset_body)) by (cbn [length memset_body]; lia).
    eapply ready_code; eauto. }
  1,2: lia. 1,2: reflexivity.
  { change (sp (rg s) - 2) with (sp (rg s) + -2). rewrite (dest_word _ _ _ _ _ (framed_mem s) M (-2) D Out); [|tauto]. apply framed_saved, bp_ok, Wf. }
  { rewrite <- (Z.add_0_r (sp (rg s))). rewrite (dest_word _ _ _ _ _ (framed_mem s) M 0 D Out); [|tauto]. rewrite Z.add_0_r. apply framed_ret. }
  regs. split; [unfold returned; regs; auto|]. split.
  { intros k K. unfold M. rewrite fill_in by lia. apply Z.mod_mod. lia. }
  split; [|auto]. intros a Ha Sa. rewrite Out by exact Ha. apply framed_out, Sa.
Qed.

Theorem memcpy_call s : let bs := framed memcpy_body in let n := arg s 2 in
  at_entry bs s -> code_safe 2 bs s -> dest_safe bs s (es (sg s)) (arg s 0) n ->
  clear_of 2 s (ds (sg s)) (arg s 1) n ->
  reaches (fun s' => returned s s' /\
    (forall a, ~ scratch 2 s a ->
       aget (mem s') a = aget (copy_up (Z.to_nat n) (mem s) (ds (sg s)) (arg s 1) (es (sg s)) (arg s 0)) a) /\
    ax (rg s') = ax (rg s) /\ bx (rg s') = bx (rg s) /\ dx (rg s') = dx (rg s)) s.
Proof.
  intros bs n E Sf D Cl. unfold bs in *. start.
  op C0 0%nat 3%nat (IMov true (Reg 7) (Mem None MBP 4)).
  unfold ea_seg, ea_off. regs. rewrite (framed_arg s 4 0) by lia.
  op C0 3%nat 3%nat (IMov true (Reg 6) (Mem None MBP 6)).
  unfold ea_seg, ea_off. regs. rewrite (framed_arg s 6 1) by lia.
  op C0 6%nat 3%nat (IMov true (Reg 1) (Mem None MBP 8)).
  unfold ea_seg, ea_off. regs. rewrite (framed_arg s 8 2) by lia.
  op C0 9%nat 2%nat (IStr MOVS false Rep).
  assert (A : 0 <= arg s 0 < 65536) by (apply rd16_range; assumption).
  assert (A1 : 0 <= arg s 1 < 65536) by (apply rd16_range; assumption).
  assert (B : 0 <= n < 65536) by (apply rd16_range; assumption).
  fold n. rewrite <- (Z.mod_small (arg s 0) 65536) at 1 by exact A. rewrite <- (Z.mod_small (arg s 1) 65536) at 1 by exact A1.
  rewrite rep_movs; [|reflexivity|lia|lia].
  set (M := copy_up _ (framed_mem s) _ _ _ _).
  assert (Out : forall a, ~ in_range (es (sg s)) (arg s 0) n a -> aget M a = aget (framed_mem s) a).
  { intros a Ha. apply copy_out. rewrite Z2Nat.id by lia. exact Ha. }
  eapply (leave _ _ s); [exact Wf| | | | | | | |].
  { replace (ip s + 3 + Z.of_nat 3 + Z.of_nat 3 + Z.of_nat 3 + Z.of_nat 2) with (ip s + 3 + Z.of_nat (length memcpy_body)) by (cbn [length memcpy_body]; lia).
    eapply ready_code; eauto. }
  1,2: lia. 1,2: reflexivity.
  { change (sp (rg s) - 2) with (sp (rg s) + -2). rewrite (dest_word _ _ _ _ _ (framed_mem s) M (-2) D Out); [|tauto]. apply framed_saved, bp_ok, Wf. }
  { rewrite <- (Z.add_0_r (sp (rg s))). rewrite (dest_word _ _ _ _ _ (framed_mem s) M 0 D Out); [|tauto]. rewrite Z.add_0_r. apply framed_ret. }
  regs. split; [unfold returned; regs; auto|]. split; [|auto].
  intros a Ha. unfold M. apply (copy_agree (scratch 2 s)); [apply framed_out| |exact Ha].
  intros k K. rewrite Z2Nat.id in K by lia. apply Cl, K.
Qed.
(** ranges that do not overlap (or overlap with the destination below the source) *)
Theorem memcpy_plain s : let bs := framed memcpy_body in let n := arg s 2 in
  at_entry bs s -> code_safe 2 bs s -> dest_safe bs s (es (sg s)) (arg s 0) n ->
  clear_of 2 s (ds (sg s)) (arg s 1) n ->
  (forall i j, 0 <= i < j -> j < n -> phys (es (sg s)) (arg s 0 + i) <> phys (ds (sg s)) (arg s 1 + j)) ->
  reaches (fun s' => returned s s' /\
    (forall k, 0 <= k < n -> rd8 (mem s') (es (sg s)) (arg s 0 + k) = rd8 (mem s) (ds (sg s)) (arg s 1 + k)) /\
    (forall a, ~ in_range (es (sg s)) (arg s 0) n a -> ~ scratch 2 s a -> aget (mem s') a = aget (mem s) a)) s.
Proof.
  intros bs n E Sf D Cl O. eapply reaches_imp; [apply memcpy_call; assumption|].
  destruct (wf_parts _ (proj1 E)) as (_ & _ & _ & Mok).
  assert (B : 0 <= n < 65536) by (apply rd16_range; assumption).
  intros s' (R & H & _). split; [exact R|]. split.
  - intros k K. unfold rd8 at 1. rewrite H.
    + fold n. apply (copy_in (Z.to_nat n)); auto; try lia.
      intros i j I J. apply O; lia.
    + intros (j & J & X). assert (I : in_range (es (sg s)) (arg s 0) n (phys (es (sg s)) (arg s 0 + k))) by (exists k; auto).
      apply D in I. destruct I as [_ I]. apply (I (- j)); [lia|]. rewrite X. reflexivity.
  - intros a Ha Sa. rewrite H by exact Sa. apply copy_out. rewrite Z2Nat.id by lia. exact Ha.
Qed.

(** * FarPeek, FarPoke and clock *)
(** memory after a further word has been pushed *)
Definition pushed_mem (s : state) (v : Z) : arr Z := wr16 (framed_mem s) (ss (sg s)) (((sp (rg s) - 2) mod 65536 - 2) mod 65536) v.
Lemma pushed_out s v a : ~ scratch 4 s a -> aget (pushed_mem s v) a = aget (mem s) a.
Proof.
  intro H. unfold pushed_mem. rewrite wr16_out.
  - apply framed_out. intro X. apply H. eapply scratch_mono; [|exact X]. lia.
  - intro E; apply H. exists 4. split; [lia|]. rewrite E. apply phys_eq. lia.
  - intro E; apply H. exists 3. split; [lia|]. rewrite E. apply phys_eq. lia.
Qed.
Lemma pushed_word s v i : 0 <= i < 1000 -> rd16 (pushed_mem s v) (ss (sg s)) (sp (rg s) + i) = rd16 (mem s) (ss (sg s)) (sp (rg s) + i).
Proof.
  intro H. unfold rd16, rd8. rewrite !pushed_out; [reflexivity| |]; rewrite <- ?Z.add_assoc; apply above_scratch; lia.
Qed.
Lemma pushed_ret s v : rd16 (pushed_mem s v) (ss (sg s)) (sp (rg s)) = ret_addr s.
Proof. unfold ret_addr. rewrite <- (Z.add_0_r (sp (rg s))). apply pushed_word. lia. Qed.
Lemma pushed_saved s v : 0 <= bp (rg s) < 65536 -> rd16 (pushed_mem s v) (ss (sg s)) (sp (rg s) - 2) = bp (rg s).
Proof.
  intro H. rewrite <- (framed_saved s H). unfold pushed_mem, rd16, rd8.
  rewrite !wr16_out; try reflexivity; intro E; apply phys_inj in E; lia.
Qed.
Lemma pushed_arg s v d i : d = 4 + 2 * i -> 0 <= i < 100 ->
  rd16 (pushed_mem s v) (ss (sg s)) (((sp (rg s) - 2) mod 65536 + d) mod 65536) = arg s i.
Proof.
  intros -> H. unfold arg. rewrite (rd16_eq _ _ _ (sp (rg s) + (2 + 2 * i))) by lia.
  rewrite pushed_word by lia. f_equal. lia.
Qed.
Lemma pushed_top s v : 0 <= v < 65536 -> rd16 (pushed_mem s v) (ss (sg s)) (((sp (rg s) - 2) mod 65536 - 2) mod 65536) = v.
Proof. intro H. apply rd16_wr16, H. Qed.
Lemma pushed_code s v body : at_entry (framed body) s -> code_safe 4 (framed body) s ->
  code (pushed_mem s v) (cs (sg s)) (ip s + 3) (body ++ [0x5D; 0xC3]).
Proof.
  intros (Wf & C & L) S. assert (C1 : code (pushed_mem s v) (cs (sg s)) (ip s) (framed body)).
  { apply (safe_code 4 _ _ _ C S). apply pushed_out. }
  unfold framed in C1. apply code_app in C1. apply C1.
Qed.
Lemma sreg_ok s : wf s -> 0 <= es (sg s) < 65536 /\ 0 <= cs (sg s) < 65536 /\ 0 <= ss (sg s) < 65536 /\ 0 <= ds (sg s) < 65536.
Proof. unfold wf, sregs_ok, is16. tauto. Qed.

Theorem FarPeek_call s : let bs := framed FarPeek_body in
  at_entry bs s -> code_safe 4 bs s -> ~ scratch 4 s (phys (arg s 0) (arg s 1)) ->
  reaches (fun s' => returned s s' /\ ax (rg s') = rd8 (mem s) (arg s 0) (arg s 1) /\ mem_kept 4 s s' /\
                     bx (rg s') = bx (rg s) /\ cx (rg s') = cx (rg s) /\ dx (rg s') = dx (rg s) /\ di (rg s') = di (rg s)) s.
Proof.
  intros bs E Sf Cl. unfold bs in *. start.
  assert (C1 := pushed_code s (ds (sg s)) FarPeek_body E Sf). cbv [FarPeek_body app] in C1.
  pose proof (sreg_ok s Wf) as SR.
  op C0 0%nat 1%nat (IPushS 3).
  fold (pushed_mem s (ds (sg s))).
  op C1 1%nat 3%nat (IMovToS 3 (Mem None MBP 4)).
  unfold ea_seg, ea_off. regs. rewrite (pushed_arg s _ 4 0) by lia.
  op C1 4%nat 3%nat (IMov true (Reg 6) (Mem None MBP 6)).
  unfold ea_seg, ea_off. regs. rewrite (pushed_arg s _ 6 1) by lia.
  op C1 7%nat 1%nat (IStr LODS false NoRep).
  unfold str_step, set_rg. regs. unfold rset8, rget8. change (0 <? 4) with true. cbv iota. regs.
  replace (rd8 (pushed_mem s (ds (sg s))) (arg s 0) (arg s 1)) with (rd8 (mem s) (arg s 0) (arg s 1)) by (symmetry; apply pushed_out, Cl).
  assert (B : 0 <= rd8 (mem s) (arg s 0) (arg s 1) < 256) by apply Mok. set (v := rd8 _ _ _) in *.
  op C1 8%nat 2%nat (IAlu XOR false (Reg 4) (Reg 4)).
  unfold rset8, rget8. change (4 <? 4) with false. change (4 - 4) with 0. cbv iota. regs. rewrite Z.lxor_nilpotent.
  op C1 10%nat 1%nat (IPopS 3). rewrite pushed_top by lia.
  eapply (leave _ _ s); [exact Wf| | | | | | | |].
  { apply (code_sub _ _ _ _ _ 11 2 _ C1); [lia|cbn [length]; lia|reflexivity]. }
  1,2: lia. 1: regs; lia. 1: reflexivity.
  { regs. apply pushed_saved, bp_ok, Wf. } { regs. apply pushed_ret. }
  regs. destruct (sg s) as [e0 c0 s0 d0] eqn:G. split.
  { unfold returned. regs. rewrite G. auto. }
  split; [lia|]. split; [intros x X; apply pushed_out, X|]. auto.
Qed.

Theorem FarPoke_call s : let bs := framed FarPoke_body in
  at_entry bs s -> code_safe 4 bs s ->
  (forall k, (k < length bs)%nat -> phys (arg s 0) (arg s 1) <> phys (cs (sg s)) (ip s + Z.of_nat k)) ->
  (forall k, -4 <= k < 2 -> phys (arg s 0) (arg s 1) <> phys (ss (sg s)) (sp (rg s) + k)) ->
  reaches (fun s' => returned s s' /\ rd8 (mem s') (arg s 0) (arg s 1) = arg s 2 mod 256 /\
     (forall a, a <> phys (arg s 0) (arg s 1) -> ~ scratch 4 s a -> aget (mem s') a = aget (mem s) a) /\
     bx (rg s') = bx (rg s) /\ cx (rg s') = cx (rg s) /\ dx (rg s') = dx (rg s) /\ si (rg s') = si (rg s)) s.
Proof.
  intros bs E Sf D1 D2. unfold bs in *. start.
  assert (C1 := pushed_code s (es (sg s)) FarPoke_body E Sf). cbv [FarPoke_body app] in C1.
  pose proof (sreg_ok s Wf) as SR.
  op C0 0%nat 1%nat (IPushS 0).
  fold (pushed_mem s (es (sg s))).
  op C1 1%nat 3%nat (IMovToS 0 (Mem None MBP 4)).
  unfold ea_seg, ea_off. regs. rewrite (pushed_arg s _ 4 0) by lia.
  op C1 4%nat 3%nat (IMov true (Reg 7) (Mem None MBP 6)).
  unfold ea_seg, ea_off. regs. rewrite (pushed_arg s _ 6 1) by lia.
  op C1 7%nat 3%nat (IMov false (Reg 0) (Mem None MBP 8)).
  unfold ea_seg, ea_off. regs. 
  unfold rset8. change (0 <? 4) with true. cbv iota. regs.
  assert (V : rd8 (pushed_mem s (es (sg s))) (ss (sg s)) (((sp (rg s) - 2) mod 65536 + 8) mod 65536) = arg s 2 mod 256).
  { pose proof (pushed_arg s (es (sg s)) 8 2 eq_refl) as H. unfold rd16 in H.
    assert (MP : mem_ok (pushed_mem s (es (sg s)))) by (apply mem_ok_wr16, framed_ok, Mok).
    pose proof (MP (phys (ss (sg s)) (((sp (rg s) - 2) mod 65536 + 8) mod 65536))) as H1. fold (rd8 (pushed_mem s (es (sg s))) (ss (sg s)) (((sp (rg s) - 2) mod 65536 + 8) mod 65536)) in H1. lia. }
  rewrite V. set (v := arg s 2 mod 256) in *.
  assert (B : 0 <= v < 256) by (apply Z.mod_pos_bound; lia).
  op C1 10%nat 1%nat (IStr STOS false NoRep).
  unfold str_step, set_rg, set_mem. regs. unfold rget8. change (0 <? 4) with true. cbv iota. regs.
  replace ((ax (rg s) / 256 * 256 + v) mod 256) with v by lia.
  set (M := wr8 _ _ _ _).
  assert (Out : forall a, a <> phys (arg s 0) (arg s 1) -> aget M a = aget (pushed_mem s (es (sg s))) a).
  { intros a Ha. unfold M. rewrite aget_wr8. destruct (Z.eqb_spec (phys (arg s 0) (arg s 1)) a); congruence. }
  assert (Word : forall k, -4 <= k < 1 -> rd16 M (ss (sg s)) (sp (rg s) + k) = rd16 (pushed_mem s (es (sg s))) (ss (sg s)) (sp (rg s) + k)).
  { intros k K. unfold rd16, rd8. rewrite !Out; [reflexivity| |]; apply not_eq_sym.
    - rewrite <- Z.add_assoc. apply D2. lia.
    - apply D2. lia. }
  assert (C2 : code M (cs (sg s)) (ip s + 3) [6; 142; 70; 4; 139; 126; 6; 138; 70; 8; 170; 7; 93; 195]).
  { apply (code_agree _ _ _ _ _ C1). intros k K. apply Out. apply not_eq_sym.
    replace (ip s + 3 + Z.of_nat k) with (ip s + Z.of_nat (3 + k)) by lia. apply D1.
    unfold framed, FarPoke_body. cbn [length app] in *. lia. }
  op C2 11%nat 1%nat (IPopS 0).
  rewrite (rd16_eq M _ (((sp (rg s) - 2) mod 65536 - 2) mod 65536) (sp (rg s) + -4)) by lia. rewrite (Word (-4)) by lia.
  rewrite (rd16_eq _ _ (sp (rg s) + -4) (((sp (rg s) - 2) mod 65536 - 2) mod 65536)) by lia. rewrite pushed_top by lia.
  eapply (leave _ _ s); [exact Wf| | | | | | | |].
  { apply (code_sub _ _ _ _ _ 12 2 _ C2); [lia|cbn [length]; lia|reflexivity]. }
  1,2: lia. 1: regs; lia. 1: reflexivity.
  { regs. change (sp (rg s) - 2) with (sp (rg s) + -2). rewrite (Word (-2)) by lia. apply pushed_saved, bp_ok, Wf. }
  { regs. rewrite <- (Z.add_0_r (sp (rg s))). rewrite (Word 0) by lia. rewrite Z.add_0_r. apply pushed_ret. }
  regs. destruct (sg s) as [e0 c0 s0 d0] eqn:G. split.
  { unfold returned. regs. rewrite G. auto. }
  split. { unfold M, rd8. rewrite aget_wr8, Z.eqb_refl. apply Z.mod_small. lia. }
  split; [|auto]. intros a Ha Sa. rewrite Out by exact Ha. apply pushed_out, Sa.
Qed.

Theorem clock_call s : let bs := framed clock_body in
  at_entry bs s -> code_safe 4 bs s -> ds (sg s) = cs (sg s) ->
  ~ scratch 4 s (phys 0 0x46C) -> ~ scratch 4 s (phys 0 0x46D) ->
  reaches (fun s' => returned s s' /\ ax (rg s') = rd16 (mem s) 0 0x46C /\ mem_kept 4 s s') s.
Proof.
  intros bs E Sf Cd Cl1 Cl2. unfold bs in *. start.
  assert (C1 := pushed_code s (cs (sg s)) clock_body E Sf). cbv [clock_body app] in C1.
  pose proof (sreg_ok s Wf) as SR.
  op C0 0%nat 2%nat (IAlu XOR true (Reg 0) (Reg 0)). rewrite Z.lxor_nilpotent.
  op C0 2%nat 2%nat (IMovToS 3 (Reg 0)).
  op C0 4%nat 3%nat (IMov true (Reg 0) (Mem None MDirect 0x46C)).
  unfold ea_seg, ea_off. regs. cbn [Z.add]. change (1132 mod 65536) with 1132.
  replace (rd16 (framed_mem s) 0 1132) with (rd16 (mem s) 0 1132).
  2: { unfold rd16, rd8. cbn [Z.add Pos.add Pos.succ]. rewrite !framed_out; [reflexivity| |]; intro X; [apply Cl2|apply Cl1]; (eapply scratch_mono; [|exact X]; lia). }
  op C0 7%nat 1%nat (IPushS 1).
  fold (pushed_mem s (cs (sg s))).
  op C1 8%nat 1%nat (IPopS 3). rewrite pushed_top by lia.
  eapply (leave _ _ s); [exact Wf| | | | | | | |].
  { apply (code_sub _ _ _ _ _ 9 2 _ C1); [lia|cbn [length]; lia|reflexivity]. }
  1,2: lia. 1: regs; lia. 1: reflexivity.
  { regs. apply pushed_saved, bp_ok, Wf. } { regs. apply pushed_ret. }
  regs. destruct (sg s) as [e0 c0 s0 d0] eqn:G. split.
  { unfold returned. regs. rewrite G. cbn [cs ds] in Cd. subst d0. auto. }
  split; [reflexivity|]. intros x X; apply pushed_out, X.
Qed.
