(** Whole programs: the main loop (sas.c:1606-1693), labels and references to them. *)
From Coq Require Import ZArith List Bool Lia String.
From Verif Require Import Base Sas SasSym SasText SasExpr SasAsm SasInst SasInst2 SasInst3 SasInst4 SasInst5.
From Verif Require Spec8086 SasSpec.
Import ListNotations.
Open Scope Z_scope.
Notation length := List.length.

Definition lvd (def : Z -> option Z) (i : Z) : Z := match def i with Some v => v | None => 0 end.
Definition define (def : Z -> option Z) (i v : Z) (j : Z) : option Z := if j =? i then Some v else def j.

(** ** Resolving the references to a label *)
Lemma cfix_shift n cs : placed 0 (cfix n cs) = placed (Z.of_nat n) (cfix 0 cs).
Proof.
  revert n. assert (G : forall n m p, placed p (cfix (n + m) cs) = placed (p + Z.of_nat n) (cfix m cs)).
  { induction cs as [|c cs IH]; intros; [reflexivity|]. cbn [cfix]. unfold placed in *. rewrite !map_app. f_equal.
    - rewrite <- Nat.add_assoc. apply IH.
    - destruct c as [x [i|]|k x [i|]]; cbn; try reflexivity; do 3 f_equal; lia. }
  intro n. specialize (G n 0%nat 0). rewrite Nat.add_0_r in G. exact G.
Qed.
Lemma ofl_app i a b : ofl i (a ++ b) = ofl i a ++ ofl i b.
Proof. apply flat_map_app. Qed.
Lemma placed_app p a b : placed p (a ++ b) = placed p a ++ placed p b.
Proof. apply map_app. Qed.
Definition at_out (o : arr Z) (p : Z) (l : list Z) : Prop := forall k, 0 <= k < Z.of_nat (length l) -> aget o (p + k) = nth (Z.to_nat k) l 0.
Lemma at_out_app o p a b : at_out o p (a ++ b) <-> at_out o p a /\ at_out o (p + Z.of_nat (length a)) b.
Proof.
  unfold at_out. rewrite app_length. split.
  - intro H. split; intros k K.
    + rewrite H by lia. rewrite app_nth1 by lia. reflexivity.
    + replace (p + Z.of_nat (length a) + k) with (p + (Z.of_nat (length a) + k)) by lia. rewrite H by lia. rewrite app_nth2 by lia. f_equal. lia.
  - intros [H1 H2] k K. destruct (Z.lt_ge_cases k (Z.of_nat (length a))).
    + rewrite H1 by lia. rewrite app_nth1 by lia. reflexivity.
    + replace (p + k) with (p + Z.of_nat (length a) + (k - Z.of_nat (length a))) by lia. rewrite H2 by lia. rewrite app_nth2 by lia. f_equal. lia.
Qed.
Lemma aput (o : arr Z) p v q : aget (aset o p v) q = if p =? q then v else aget o q.
Proof. apply aget_aset. Qed.
Lemma at_out_1 o p x : at_out o p [x] <-> aget o p = x.
Proof.
  unfold at_out. split; intro H.
  - specialize (H 0 ltac:(cbn; lia)). rewrite Z.add_0_r in H. exact H.
  - intros k K. cbn in K. replace k with 0 by lia. rewrite Z.add_0_r. exact H.
Qed.
Lemma at_out_2 o p x y : at_out o p [x; y] <-> aget o p = x /\ aget o (p + 1) = y.
Proof. change [x; y] with ([x] ++ [y]). rewrite at_out_app, !at_out_1. reflexivity. Qed.
(** one reference *)
Lemma resolve_cell o p x i v def : def i = None -> at_out o p (rcell (lvd def) x) ->
  at_out (fold_left (resolve v) (ofl i (placed p (fix1 0 x))) o) p (rcell (lvd (define def i v)) x) /\
  forall q, q < p \/ p + Z.of_nat (clen x) <= q -> aget (fold_left (resolve v) (ofl i (placed p (fix1 0 x))) o) q = aget o q.
Proof.
  intros D A. assert (OTHER : forall f, f <> Some i -> fixval (lvd (define def i v)) f = fixval (lvd def) f).
  { intros [j|] N; [|reflexivity]. cbn. unfold lvd, define. destruct (Z.eqb_spec j i); [congruence|reflexivity]. }
  assert (L0 : lvd def i = 0) by (unfold lvd; rewrite D; reflexivity).
  assert (L1 : lvd (define def i v) i = v) by (unfold lvd, define; rewrite Z.eqb_refl; reflexivity).
  destruct x as [x f|k x f].
  - assert (E : fix1 0 (Cell8 x f) = match f with Some j => [(FIXUP_REL8, 0%nat, j)] | None => [] end) by (destruct f; reflexivity).
    rewrite E. destruct f as [j|]; [destruct (Z.eq_dec j i) as [->|N]|].
    + cbn [placed map ofl flat_map]. rewrite Z.eqb_refl. cbn [app fold_left resolve]. replace (p + Z.of_nat 0) with p by lia.
      cbn [rcell fixval] in *. rewrite at_out_1 in *. rewrite L0 in A. rewrite L1. split.
      * rewrite aput, Z.eqb_refl, A. rewrite Z.add_0_r. rewrite Z.add_mod_idemp_l by lia. reflexivity.
      * intros q Q. rewrite aput. cbn [clen] in Q. rewrite (proj2 (Z.eqb_neq p q)) by lia. reflexivity.
    + cbn [placed map ofl flat_map]. rewrite (proj2 (Z.eqb_neq j i)) by exact N. cbn [app fold_left]. split; [|auto].
      cbn [rcell]. rewrite OTHER by congruence. exact A.
    + cbn. split; [|auto]. exact A.
  - assert (E : exists k', k' <> FIXUP_REL8 /\ fix1 0 (Cell16 k x f) = match f with Some j => [(k', 0%nat, j)] | None => [] end).
    { destruct f; [|exists FIXUP_DISP16; split; [discriminate|reflexivity]]. eexists. split; [|reflexivity]. destruct k; discriminate. }
    destruct E as (k' & NK & E). rewrite E. destruct f as [j|]; [destruct (Z.eq_dec j i) as [->|N]|].
    + cbn [placed map ofl flat_map]. rewrite Z.eqb_refl. cbn [app fold_left]. replace (p + Z.of_nat 0) with p by lia.
      assert (R : resolve v o (k', p) = let x := v + (aget o p + 256 * aget o (p + 1)) in aset (aset o p (x mod 256)) (p + 1) (Z.shiftr x 8 mod 256)) by (destruct k'; [congruence|reflexivity|reflexivity]).
      rewrite R. cbv zeta. cbn [rcell fixval] in *. rewrite at_out_2 in *. rewrite L0 in A. rewrite L1. destruct A as [A1 A2]. rewrite A1, A2. rewrite !Z.add_0_r. split; [split|].
      * rewrite !aput, Z.eqb_refl. rewrite (proj2 (Z.eqb_neq (p + 1) p)) by lia. pose proof (Z.mod_pos_bound x 256). lia.
      * rewrite !aput, Z.eqb_refl. rewrite Z.shiftr_div_pow2 by lia. change (2 ^ 8) with 256. lia.
      * intros q Q. rewrite !aput. cbn [clen] in Q. rewrite (proj2 (Z.eqb_neq (p + 1) q)), (proj2 (Z.eqb_neq p q)) by lia. reflexivity.
    + cbn [placed map ofl flat_map]. rewrite (proj2 (Z.eqb_neq j i)) by exact N. cbn [app fold_left]. split; [|auto].
      cbn [rcell]. rewrite OTHER by congruence. exact A.
    + cbn. split; [|auto]. exact A.
Qed.
Lemma rcell_len lv x : length (rcell lv x) = clen x.
Proof. destruct x; reflexivity. Qed.
Lemma resolve_all i v def : def i = None -> forall cs o n, at_out o (Z.of_nat n) (render (lvd def) cs) ->
  at_out (fold_left (resolve v) (ofl i (placed 0 (cfix n cs))) o) (Z.of_nat n) (render (lvd (define def i v)) cs) /\
  forall q, q < Z.of_nat n \/ Z.of_nat n + Z.of_nat (rlen cs) <= q -> aget (fold_left (resolve v) (ofl i (placed 0 (cfix n cs))) o) q = aget o q.
Proof.
  intro D. induction cs as [|x cs IH]; intros o n A; cbn [cfix render flat_map rlen] in *.
  - split; [exact A|auto].
  - apply at_out_app in A. destruct A as [A1 A2]. rewrite rcell_len in A2. replace (Z.of_nat n + Z.of_nat (clen x)) with (Z.of_nat (n + clen x)) in A2 by lia.
    destruct (IH o _ A2) as [B1 B2]. rewrite placed_app, ofl_app, fold_left_app.
    assert (F : placed 0 (fix1 n x) = placed (Z.of_nat n) (fix1 0 x)).
    { destruct x as [x [j|]|k x [j|]]; cbn; try reflexivity; do 3 f_equal; lia. }
    rewrite F. set (o1 := fold_left (resolve v) (ofl i (placed 0 (cfix (n + clen x) cs))) o) in *.
    assert (A1' : at_out o1 (Z.of_nat n) (rcell (lvd def) x)).
    { intros k K. rewrite rcell_len in K. rewrite B2 by lia. apply A1. rewrite rcell_len. exact K. }
    destruct (resolve_cell o1 (Z.of_nat n) x i v def D A1') as [C1 C2]. split.
    + apply at_out_app. split; [exact C1|]. rewrite rcell_len. replace (Z.of_nat n + Z.of_nat (clen x)) with (Z.of_nat (n + clen x)) by lia.
      intros k K. rewrite C2 by lia. apply B1. exact K.
    + intros q Q. rewrite C2 by lia. apply B2. lia.
Qed.

Section Width.
Variable W : Z.
Hypothesis HW : W = 16 \/ W = 32.
Notation means := (SasSpec.means W).

(** ** The state between statements *)
(** the cells C have been put out from address o on; def gives the values of the labels defined, whose names are D *)
Record between (o : Z) (C : list cell) (def : Z -> option Z) (D : list (list Z)) (s : st) (ts : list tk) : Prop := {
  b_holds : holds W s ts;
  b_labs : labs def (placed 0 (cfix 0 C)) [] (labels s);
  b_defs : forall i v, def i = Some v -> 0 <= i /\ exists nm, In nm D /\ nth_error (names s) (Z.to_nat (i + 99)) = Some nm;
  b_bss : bss s = false;
  b_out : at_out (out s) 0 (render (lvd def) C);
  b_pos : pos s = Z.of_nat (rlen C);
  b_va : va s = o + Z.of_nat (rlen C);
  b_free : 600 - Z.of_nat (length (cfix 0 C)) <= free s }.
Definition ctx_of (o : Z) (C : list cell) (def : Z -> option Z) (s : st) : ctx :=
  mkctx def (placed 0 (cfix 0 C)) (out s) (pos s) (va s) (free s) (names s).
Definition small (o : Z) (C : list cell) : Prop :=
  Z.of_nat (rlen C) + 8 <= 20000 /\ 0 <= o /\ o + Z.of_nat (rlen C) < 32000 /\ Z.of_nat (length (cfix 0 C)) + 2 <= 600.
Lemma b_view o C def D s ts : between o C def D s ts -> view W (ctx_of o C def s) s ts [] [] [] (size s).
Proof.
  intros [H1 H2 H3 H4 H5 H6 H7 H8]. split; cbn [ctx_of c_def c_pend c_out c_pos c_va c_free c_names placed map app puts length]; auto; try lia.
  - intros i nm [].
  - intros k n i [].
  - exists []. symmetry. apply app_nil_r.
Qed.
Lemma b_fits o C def D s ts : between o C def D s ts -> small o C -> fits (ctx_of o C def s).
Proof. intros [H1 H2 H3 H4 H5 H6 H7 H8] (S1 & S2 & S3 & S4). split; cbn; lia. Qed.
Lemma puts_at bs : forall o p, at_out (puts o p bs) p bs /\ forall q, q < p \/ p + Z.of_nat (length bs) <= q -> aget (puts o p bs) q = aget o q.
Proof.
  induction bs as [|b bs IH]; intros o p; cbn [puts length].
  - split; [intros k K; cbn in K; lia|auto].
  - destruct (IH (aset o p b) (p + 1)) as [I1 I2]. split.
    + change (b :: bs) with ([b] ++ bs). apply at_out_app. split; [|exact I1]. apply at_out_1. rewrite I2 by lia. rewrite aput, Z.eqb_refl. reflexivity.
    + intros q Q. rewrite I2 by lia. rewrite aput. rewrite (proj2 (Z.eqb_neq p q)) by lia. reflexivity.
Qed.
Lemma render_undef def cs : (forall k n i, In (k, n, i) (cfix 0 cs) -> def i = None) -> render (lvd def) cs = render zero cs.
Proof.
  intro H. assert (G : forall m, (forall k n i, In (k, n, i) (cfix m cs) -> def i = None) -> render (lvd def) cs = render zero cs).
  { clear H. induction cs as [|x cs IH]; intros m H; [reflexivity|]. cbn [render flat_map cfix] in *.
    f_equal; [|apply (IH (m + clen x)%nat); intros k n i I; apply (H k n i), in_or_app; left; exact I].
    assert (X : forall k n i, In (k, n, i) (fix1 m x) -> lvd def i = 0) by (intros k n i I; unfold lvd; rewrite (H k n i); [reflexivity|apply in_or_app; right; exact I]).
    destruct x as [y [j|]|k y [j|]]; cbn [rcell fixval]; try reflexivity; cbn [fix1] in X; rewrite (X _ _ _ (or_introl eq_refl)); reflexivity. }
  eapply G. exact H.
Qed.
(** after a statement that has put out the cells cs *)
Lemma b_after o C def D s s' ts ts' cs rf sz : between o C def D s ts -> cv W (ctx_of o C def s) s' ts' cs rf sz -> between o (C ++ cs) def D s' ts'.
Proof.
  intros [H1 H2 H3 H4 H5 H6 H7 H8] V. pose proof V as [V1 V2 V3 V4 V5 V6 V7 V8 V9 V10 (x & V11)].
  cbn [ctx_of c_def c_pend c_out c_pos c_va c_free c_names] in *. rewrite render_len in *.
  assert (PL : placed 0 (cfix 0 (C ++ cs)) = placed (pos s) (cfix 0 cs) ++ placed 0 (cfix 0 C)).
  { rewrite cfix_app, placed_app. f_equal. cbn [Nat.add]. rewrite cfix_shift. f_equal. lia. }
  split.
  - exact V1.
  - rewrite PL. intro i. specialize (V2 i). destruct (def i); [exact V2|]. destruct V2 as [(A & B & _)|B]; [left|right; exact B]. cbn. auto.
  - intros i v E. destruct (H3 i v E) as (A & nm & B1 & B2). split; [exact A|]. exists nm. split; [exact B1|]. rewrite V11, nth_error_app1; [exact B2|]. apply nth_error_Some. congruence.
  - exact V4.
  - rewrite render_app. rewrite V5. destruct (puts_at (render zero cs) (out s) (pos s)) as [P1 P2]. apply at_out_app. rewrite render_len. split.
    + intros k K. rewrite render_len in K. rewrite P2 by lia. apply H5. rewrite render_len. exact K.
    + rewrite render_undef by exact V10. rewrite Z.add_0_l, <- H6. exact P1.
  - rewrite V6, rlen_app. lia.
  - rewrite V7, rlen_app. lia.
  - rewrite V9, cfix_app, app_length, cfix_len. lia.
Qed.

(** ** What is known in the end *)
Record known (s : st) (def : Z -> option Z) (NS : list (list Z)) (lv : Z -> Z) : Prop := {
  k_names : exists x, NS = names s ++ x;
  k_nodup : NoDup NS;
  k_def : forall i v, def i = Some v -> lv i = v }.
Lemma env_at s def NS lv i nm : known s def NS lv -> 0 <= i -> nth_error (names s) (Z.to_nat (i + 99)) = Some nm -> env_of NS lv nm = lv i.
Proof.
  intros [(x & ->) ND _] I N. unfold env_of.
  assert (N' : nth_error (names s ++ x) (Z.to_nat (i + 99)) = Some nm) by (rewrite nth_error_app1; [exact N|apply nth_error_Some; congruence]).
  destruct (index_of_in nm (names s ++ x) (nth_error_In _ _ N')) as [j J]. rewrite J. apply index_of_some in J.
  assert (j = Z.to_nat (i + 99)) by (apply (proj1 (NoDup_nth_error _) ND); [apply nth_error_Some; congruence|congruence]). subst j. f_equal. lia.
Qed.
Lemma known_final o C def s s' rf ts cs sz NS lv : cv W (ctx_of o C def s) s' ts cs rf sz -> known s' def NS lv -> final (ctx_of o C def s) rf NS lv.
Proof.
  intros V K. split; [apply (k_def _ _ _ _ K)|]. intros i nm I. destruct (v_names _ _ _ _ _ _ _ _ V i nm I) as [A B]. eapply env_at; eauto.
Qed.

Definition grows (s s' : st) : Prop := exists x, names s' = names s ++ x.
Definition extends (def def' : Z -> option Z) : Prop := forall i v, def i = Some v -> def' i = Some v.
(** a statement of the program has been read and assembled *)
Definition step (o : Z) (C : list cell) (def : Z -> option Z) (D : list (list Z)) (s : st) (x : SasSpec.item) (ts : list tk) (k fuel : nat) : Prop :=
  exists s' cs def', main_loop W (k + fuel) s = main_loop W fuel s' /\
    between o (C ++ cs) def' (match x with SasSpec.ILabel nm => nm :: D | _ => D end) s' ts /\ grows s s' /\ extends def def' /\
    (Z.of_nat (rlen cs) <= match x with SasSpec.ILabel _ => 0 | SasSpec.IInst _ => 7 | SasSpec.IBytes l => Z.of_nat (length l) | SasSpec.IWord _ => 2 end) /\
    (Z.of_nat (length (cfix 0 cs)) <= match x with SasSpec.IInst _ => 2 | _ => 0 end) /\
    forall NS lv p bs, known s' def' NS lv -> SasSpec.listing W (env_of NS lv) (o + Z.of_nat (rlen C) + Z.of_nat (rlen cs)) p bs ->
      SasSpec.listing W (env_of NS lv) (o + Z.of_nat (rlen C)) (x :: p) (render lv cs ++ bs).

Lemma loop_1 fuel s s' : tok s <> 0 -> statement W fuel s = Ok (tt, s') -> main_loop W (S fuel) s = main_loop W fuel s'.
Proof. intros T E. cbn [main_loop]. unfold SccState.gets. unfold SccState.bind at 1. rewrite (proj2 (Z.eqb_neq _ _) T). rewrite (bind_ok _ _ _ _ _ E). reflexivity. Qed.
Lemma loaded_tok s t : loaded W s t -> tok s <> 0.
Proof.
  destruct t; cbn [loaded]; intro H; try lia.
  - destruct H as [H1 H2]. rewrite H2.
    assert (B : forallb (fun i => 0 <? synonym (Z.of_nat i + 256)) (seq 0 99) = true) by (vm_compute; reflexivity).
    rewrite forallb_forall in B. specialize (B (Z.to_nat id) ltac:(apply in_seq; lia)). rewrite Z2Nat.id in B by lia. lia.
  - destruct H as [H1 H2]. cbn [In] in H1. lia.
  - destruct H as (i & H1 & _ & H2). lia.
Qed.
Lemma b_tok o C def D s t ts : between o C def D s (t :: ts) -> tok s <> 0.
Proof. intros [H _ _ _ _ _ _ _]. apply (loaded_tok s t). apply H. Qed.
Lemma cv_grows o C def s s' ts cs rf sz : cv W (ctx_of o C def s) s' ts cs rf sz -> grows s s'.
Proof. intro V. exact (v_grow _ _ _ _ _ _ _ _ V). Qed.
Lemma toks_head i : (exists env next ins, means env next i ins) -> exists t l, SasSpec.toks i = t :: l.
Proof. intros _. destruct i; cbn; try (eexists; eexists; reflexivity). destruct rep; eexists; eexists; reflexivity. Qed.

Section Step.
Variables (o : Z) (C : list cell) (def : Z -> option Z) (D : list (list Z)) (s : st) (ts : list tk).
Hypothesis SM : small o C.
Hypothesis ST : stops ts.

Lemma step_inst i fuel : (exists env next ins, means env next i ins) -> plain_inst i -> (inst_need i <= fuel)%nat ->
  between o C def D s (SasSpec.toks i ++ ts) -> step o C def D s (SasSpec.IInst i) ts 1 fuel.
Proof.
  intros M P N B. pose proof (b_view _ _ _ _ _ _ B) as V. pose proof (b_fits _ _ _ _ _ _ B SM) as F.
  destruct (inst_ok W HW _ F ts ST i fuel s M P N _ V) as (s' & cs & rf & sz & E & V' & L1 & L2 & K).
  destruct (toks_head i M) as (t & l & TH). assert (T : tok s <> 0) by (rewrite TH in B; eapply b_tok; exact B).
  exists s', cs, def. split; [apply loop_1; assumption|]. split; [eapply b_after; eassumption|]. split; [eapply cv_grows; exact V'|]. split; [intros ? ? H; exact H|].
  split; [lia|]. split; [lia|]. intros NS lv p bs KN LI. destruct (K NS lv (known_final _ _ _ _ _ _ _ _ _ _ _ V' KN)) as (ins & DE & ME).
  cbn [ctx_of c_va] in ME. rewrite (b_va _ _ _ _ _ _ B) in ME.
  eapply SasSpec.li_inst; [rewrite render_len; reflexivity|exact DE|exact ME|exact LI].
Qed.
End Step.

(** one byte, at any time *)
Lemma b_byte o C def D s ts b : small o C -> between o C def D s ts ->
  exists s', OutputByte W b s = Ok (tt, s') /\ between o (C ++ [Cell8 b None]) def D s' ts /\ names s' = names s.
Proof.
  intros SM B. pose proof (b_view _ _ _ _ _ _ B) as V. pose proof (b_fits _ _ _ _ _ _ B SM) as F.
  assert (V0 : cv W (ctx_of o C def s) s ts [] [] (size s)) by exact V.
  destruct (o_byte W HW _ s _ [] [] _ b F V0 ltac:(cbn; lia)) as (s2 & E2 & V2). exists s2. split; [exact E2|]. split; [eapply b_after; eassumption|].
  unfold OutputByte, SccState.gets, SccState.bind, SccState.upd, assert in E2. destruct (negb (bss s)); [|discriminate]. destruct (pos s <? OUTPUT_MAX); [|discriminate].
  injection E2 as <-. reflexivity.
Qed.
Lemma b_next o C def D s t ts : between o C def D s (t :: ts) -> exists s', GetToken W s = Ok (tt, s') /\ between o C def D s' ts /\ grows s s'.
Proof.
  intro B. destruct (v_next W HW _ _ _ _ _ _ _ _ (b_view _ _ _ _ _ _ B)) as (s' & E & V). exists s'. split; [exact E|].
  split; [|exact (v_grow _ _ _ _ _ _ _ _ V)]. rewrite <- (app_nil_r C). eapply b_after; [exact B|]. exact V.
Qed.
Lemma b_size o C def D s ts x : between o C def D s ts -> between o C def D (set_size s x) ts.
Proof. intros [H1 H2 H3 H4 H5 H6 H7 H8]. split; auto. apply holds_size. exact H1. Qed.
Lemma grows_refl s s' : names s' = names s -> grows s s'.
Proof. unfold grows. intros ->. apply names_same. Qed.
Lemma grows_trans a b c : grows a b -> grows b c -> grows a c.
Proof. intros (x & X) (y & Y). exists (x ++ y). rewrite Y, X, app_assoc. reflexivity. Qed.
Lemma small_snoc o C b : small o C -> Z.of_nat (rlen C) + 9 <= 20000 -> o + Z.of_nat (rlen C) + 1 < 32000 -> small o (C ++ [Cell8 b None]).
Proof.
  intros (A1 & A2 & A3 & A4) B1 B2. unfold small. rewrite rlen_app, cfix_app, app_length. cbn [rlen clen cfix fix1 length Nat.add app].
  repeat split; lia.
Qed.
(** the words of a directive or an instruction *)
Lemma b_start o C def D s n rest fuel t : between o C def D s (SasSpec.wd n :: rest) -> synonym (SasSpec.place n builtin_names + 256) = t ->
  TOK_DIRECTIVE <= t < 355 -> exists s1, between o C def D s1 rest /\ grows s s1 /\
    statement W fuel s = (if t <? TOK_INST then HandleDirective W fuel t else HandleInstruction W fuel t) s1.
Proof.
  intros B T R. destruct (b_next _ _ _ _ _ _ _ B) as (s1 & E1 & B1 & G1). exists (set_size s1 0). split; [apply b_size; exact B1|]. split; [exact G1|].
  pose proof (tok_wd W _ _ (proj1 (proj2 (b_holds _ _ _ _ _ _ B)))) as TK. rewrite T in TK.
  unfold statement. mget. rewrite TK. rewrite (proj2 (Z.leb_gt TOK_USER_ID t)) by (unfold TOK_USER_ID; lia).
  rewrite (proj2 (Z.ltb_ge t TOK_DIRECTIVE)) by lia.
  rewrite (bind_ok _ _ _ _ _ E1). unfold SccState.upd. unfold SccState.bind at 1. reflexivity.
Qed.

(** REP and a string instruction are two rounds of the loop *)
Definition string_ops := [(Spec8086.MOVS, false); (Spec8086.CMPS, false); (Spec8086.STOS, false); (Spec8086.STOS, true); (Spec8086.LODS, false)].
Definition string_byte (k : Spec8086.strop) (w : bool) : Z :=
  match k with Spec8086.MOVS => 164 | Spec8086.CMPS => 166 | Spec8086.STOS => if w then 171 else 170 | Spec8086.LODS => 172 | _ => 0 end.
Lemma rep_decode k w g : In (k, w) string_ops -> g 0 = 243 -> g 1 = string_byte k w -> Spec8086.decode g = Some (Spec8086.IStr k w Spec8086.Rep, 2).
Proof.
  intros I G0 G1. unfold Spec8086.decode. cbn [Spec8086.dec_pfx]. rewrite G0.
  change (243 =? 38) with false. change (243 =? 46) with false. change (243 =? 54) with false. change (243 =? 62) with false. change (243 =? 242) with false. change (243 =? 243) with true.
  cbv beta iota zeta. change (0 + 1) with 1. rewrite G1.
  unfold string_ops in I. cbn [In] in I. repeat (destruct I as [I|I]; [injection I as <- <-|]); try contradiction; cbn [string_byte] in *;
    cbn [Z.eqb Pos.eqb]; unfold Spec8086.dec_op; rewrite G1; reflexivity.
Qed.
Lemma step_rep o C def D s ts k w fuel : small o C -> Z.of_nat (rlen C) + 9 <= 20000 -> o + Z.of_nat (rlen C) + 1 < 32000 -> In (k, w) string_ops ->
  between o C def D s (SasSpec.toks (SasSpec.AStr true k w) ++ ts) -> step o C def D s (SasSpec.IInst (SasSpec.AStr true k w)) ts 2 fuel.
Proof.
  intros SM S1 S2 I B. cbn [SasSpec.toks app] in B. assert (T : tok s <> 0) by (eapply b_tok; exact B).
  destruct (b_start _ _ _ _ _ _ _ (S fuel) 313 B ltac:(vm_compute; reflexivity) ltac:(unfold TOK_DIRECTIVE; lia)) as (s1 & B1 & G1 & E1).
  destruct (b_byte _ _ _ _ _ _ 243 SM B1) as (s2 & E2 & B2 & G2). change (313 <? TOK_INST) with false in E1. cbv iota in E1.
  assert (ES : statement W (S fuel) s = Ok (tt, s2)) by (rewrite E1; exact E2). clear E1 E2.
  pose proof (small_snoc _ _ 243 SM S1 S2) as SM2. assert (T2 : tok s2 <> 0) by (eapply b_tok; exact B2).
  assert (X : exists s3, between o (C ++ [Cell8 243 None]) def D s3 ts /\ grows s2 s3 /\ statement W fuel s2 = OutputByte W (string_byte k w) s3).
  { pose proof I as J. unfold string_ops in J. cbn [In] in J.
    repeat (destruct J as [J|J]; [injection J as <- <-; cbn [string_byte] in *|]); try contradiction;
    (edestruct (b_start _ _ _ _ _ _ _ fuel _ B2 ltac:(vm_compute; reflexivity) ltac:(split; [vm_compute; discriminate|lia])) as (s3 & B3 & G3 & E3);
     exists s3; split; [exact B3|]; split; [exact G3|]; rewrite E3; reflexivity). }
  destruct X as (s3 & B3 & G3 & E3). destruct (b_byte _ _ _ _ _ _ (string_byte k w) SM2 B3) as (s4 & E4 & B4 & G4). rewrite E4 in E3.
  exists s4, [Cell8 243 None; Cell8 (string_byte k w) None], def.
  split. { change (2 + fuel)%nat with (S (S fuel)). rewrite (loop_1 _ _ _ T ES). apply (loop_1 _ _ _ T2 E3). }
  split. { rewrite <- app_assoc in B4. exact B4. }
  split. { eapply grows_trans; [exact G1|]. eapply grows_trans; [apply grows_refl; exact G2|]. eapply grows_trans; [exact G3|]. apply grows_refl; exact G4. }
  split; [intros ? ? H; exact H|]. split; [cbn; lia|]. split; [cbn; lia|].
  intros NS lv p bs KN LI. eapply SasSpec.li_inst with (ins := Spec8086.IStr k w Spec8086.Rep) (len := 2).
  - reflexivity.
  - apply rep_decode; [exact I|reflexivity|]. unfold string_ops in I. cbn [In] in I.
    repeat (destruct I as [I|I]; [injection I as <- <-; reflexivity|]). contradiction.
  - apply SasSpec.me_str with (rep := true). exact I.
  - exact LI.
Qed.

(** DB and a text *)
Lemma b_bytes o def D ts : forall l C s, small o C -> Z.of_nat (rlen C) + Z.of_nat (length l) + 8 <= 20000 -> o + Z.of_nat (rlen C) + Z.of_nat (length l) < 32000 ->
  between o C def D s ts -> exists s', out_bytes W l s = Ok (tt, s') /\ between o (C ++ map (fun b => Cell8 b None) l) def D s' ts /\ names s' = names s.
Proof.
  induction l as [|b l IH]; intros C s SM A1 A2 B; cbn [out_bytes map].
  - exists s. rewrite app_nil_r. auto.
  - cbn [length] in *. destruct (b_byte _ _ _ _ _ _ b SM B) as (s1 & E1 & B1 & N1).
    destruct (IH (C ++ [Cell8 b None]) s1) as (s2 & E2 & B2 & N2); [apply small_snoc; auto; lia| | |exact B1|].
    + rewrite rlen_app. cbn [rlen clen]. lia.
    + rewrite rlen_app. cbn [rlen clen]. lia.
    + exists s2. rewrite (bind_ok _ _ _ _ _ E1). split; [exact E2|]. rewrite <- app_assoc in B2. split; [exact B2|congruence].
Qed.
(** the next statement begins *)
Definition begins (ts : list tk) : Prop := match ts with [] | KWord _ :: _ | KName _ :: _ => True | _ => False end.
Lemma begins_stops ts : begins ts -> stops ts.
Proof. destruct ts as [|[] ?]; unfold begins, stops, opname; intuition congruence. Qed.
Lemma begins_comma s ts : begins ts -> holds W s ts -> tok s <> 44.
Proof.
  intros G [_ H]. destruct ts as [|t ts]; [lia|]. destruct H as [L _]. destruct t; cbn [begins] in G; try tauto; cbn [loaded] in L.
  - destruct L as [H1 H2]. rewrite H2.
    assert (B : forallb (fun i => 255 <? synonym (Z.of_nat i + 256)) (seq 0 99) = true) by (vm_compute; reflexivity).
    rewrite forallb_forall in B. specialize (B (Z.to_nat id) ltac:(apply in_seq; lia)). rewrite Z2Nat.id in B by lia. lia.
  - destruct L as (i & H1 & _ & H2). lia.
Qed.
Lemma accept_no s t : tok s <> t -> Accept W t s = Ok (false, s).
Proof. intro N. unfold Accept. mget. rewrite (proj2 (Z.eqb_neq _ _) N). reflexivity. Qed.
Lemma accept_yes s s' t : tok s = t -> GetToken W s = Ok (tt, s') -> Accept W t s = Ok (true, s').
Proof. intros N E. unfold Accept. mget. rewrite N, Z.eqb_refl. rewrite (bind_ok _ _ _ _ _ E). reflexivity. Qed.
Lemma bytes_cells lv l : render lv (map (fun b => Cell8 b None) l) = map (fun c => c mod 256) l.
Proof. induction l as [|b l IH]; [reflexivity|]. cbn [map render flat_map]. unfold render in IH. rewrite IH. cbn [rcell fixval app]. rewrite Z.add_0_r. reflexivity. Qed.
Lemma bytes_len l : rlen (map (fun b => Cell8 b None) l) = length l.
Proof. rewrite <- (render_len (fun _ => 0)), bytes_cells. apply map_length. Qed.
Lemma bytes_fix n l : cfix n (map (fun b => Cell8 b None) l) = [].
Proof. revert n. induction l as [|b l IH]; intro n; [reflexivity|]. cbn [map cfix]. rewrite IH. reflexivity. Qed.

Lemma step_bytes o C def D s ts l fuel : small o C -> Z.of_nat (rlen C) + Z.of_nat (length l) + 8 <= 20000 -> o + Z.of_nat (rlen C) + Z.of_nat (length l) < 32000 ->
  begins ts -> (1 <= fuel)%nat -> between o C def D s (SasSpec.item_toks (SasSpec.IBytes l) ++ ts) -> step o C def D s (SasSpec.IBytes l) ts 1 fuel.
Proof.
  intros SM A1 A2 G N B. cbn [SasSpec.item_toks app] in B. assert (T : tok s <> 0) by (eapply b_tok; exact B).
  destruct (b_start _ _ _ _ _ _ _ fuel TOK_DB B ltac:(vm_compute; reflexivity) ltac:(unfold TOK_DB, TOK_DIRECTIVE; lia)) as (s1 & B1 & G1 & E1).
  change (TOK_DB <? TOK_INST) with true in E1. cbv iota in E1.
  destruct (proj1 (proj2 (b_holds _ _ _ _ _ _ B1))) as [T1 SB].
  destruct (b_bytes _ _ _ _ l _ _ SM A1 A2 B1) as (s2 & E2 & B2 & N2). destruct (b_next _ _ _ _ _ _ _ B2) as (s3 & E3 & B3 & G3).
  pose proof (begins_comma _ _ G (b_holds _ _ _ _ _ _ B3)) as NC.
  assert (ES : statement W fuel s = Ok (tt, s3)).
  { rewrite E1. unfold HandleDirective. change (TOK_DB =? TOK_CPU) with false. change (TOK_DB =? TOK_DB) with true. cbv iota. unfold HandleDx.
    destruct fuel as [|fuel]; [lia|]. cbn [dx_loop].
    assert (X : dx_loop W (S fuel) 1 0 s1 = Ok (0 + Z.of_nat (length l), s3)).
    { cbn [dx_loop]. mget. rewrite T1. change (2 =? TOK_NUMBER) with false. change (2 =? TOK_STRING) with true. cbv iota.
      unfold SccState.bind at 1. mget. rewrite SB. rewrite (bind_ok _ _ _ _ _ E2). rewrite (bind_ok _ _ _ _ _ E3). cbn [SccState.ret].
      unfold SccState.ret at 1. cbv beta iota. rewrite (bind_ok _ _ _ _ _ (accept_no _ _ NC)). reflexivity. }
    cbn [dx_loop] in X. rewrite (bind_ok _ _ _ _ _ X). reflexivity. }
  exists s3, (map (fun b => Cell8 b None) l), def. split; [apply loop_1; assumption|]. split; [exact B3|].
  split; [eapply grows_trans; [exact G1|eapply grows_trans; [apply grows_refl; exact N2|exact G3]]|]. split; [intros ? ? H; exact H|].
  rewrite bytes_len, bytes_fix. split; [lia|]. split; [cbn; lia|].
  intros NS lv p bs KN LI. rewrite bytes_cells. apply SasSpec.li_bytes. exact LI.
Qed.
Lemma high_byte x : x / 256 mod 256 = (x mod 65536) / 256.
Proof.
  rewrite (Z.div_mod x 65536) at 1 by lia. replace (65536 * (x / 65536) + x mod 65536) with (x mod 65536 + (256 * (x / 65536)) * 256) by lia.
  rewrite Z.div_add by lia. rewrite Z.mul_comm, Z.mod_add by lia. apply Z.mod_small.
  pose proof (Z.mod_pos_bound x 65536 ltac:(lia)). split; [apply Z.div_pos; lia|apply Z.div_lt_upper_bound; lia].
Qed.
Lemma step_word o C def D s ts v fuel : small o C -> Z.of_nat (rlen C) + 9 <= 20000 -> o + Z.of_nat (rlen C) + 1 < 32000 ->
  begins ts -> (1 <= fuel)%nat -> between o C def D s (SasSpec.item_toks (SasSpec.IWord v) ++ ts) -> step o C def D s (SasSpec.IWord v) ts 1 fuel.
Proof.
  intros SM A1 A2 G N B. cbn [SasSpec.item_toks app] in B. assert (T : tok s <> 0) by (eapply b_tok; exact B).
  destruct (b_start _ _ _ _ _ _ _ fuel TOK_DW B ltac:(vm_compute; reflexivity) ltac:(unfold TOK_DW, TOK_DIRECTIVE; lia)) as (s1 & B1 & G1 & E1).
  change (TOK_DW <? TOK_INST) with true in E1. cbv iota in E1.
  destruct (proj1 (proj2 (b_holds _ _ _ _ _ _ B1))) as [T1 SB].
  destruct (b_byte _ _ _ _ _ _ (ci W v) SM B1) as (s2 & E2 & B2 & N2).
  destruct (b_byte _ _ _ _ _ _ (Z.shiftr (ci W v) 8) (small_snoc _ _ _ SM A1 A2) B2) as (s2' & E2' & B2' & N2').
  destruct (b_next _ _ _ _ _ _ _ B2') as (s3 & E3 & B3 & G3).
  pose proof (begins_comma _ _ G (b_holds _ _ _ _ _ _ B3)) as NC.
  assert (EW : OutputWord W (ci W v) s1 = Ok (tt, s2')) by (unfold OutputWord; rewrite (bind_ok _ _ _ _ _ E2); exact E2').
  assert (ES : statement W fuel s = Ok (tt, s3)).
  { rewrite E1. unfold HandleDirective. change (TOK_DW =? TOK_CPU) with false. change (TOK_DW =? TOK_DB) with false. change (TOK_DW =? TOK_DW) with true. cbv iota. unfold HandleDx.
    destruct fuel as [|fuel]; [lia|].
    assert (X : dx_loop W (S fuel) 2 0 s1 = Ok (0, s3)).
    { cbn [dx_loop]. mget. rewrite T1. change (1 =? TOK_NUMBER) with true. change (2 =? 1) with false. cbv iota.
      unfold SccState.bind at 1. mget. rewrite SB. rewrite (bind_ok _ _ _ _ _ EW). rewrite (bind_ok _ _ _ _ _ E3).
      unfold SccState.ret at 1. cbv beta iota. rewrite (bind_ok _ _ _ _ _ (accept_no _ _ NC)). reflexivity. }
    rewrite (bind_ok _ _ _ _ _ X). reflexivity. }
  exists s3, [Cell8 (ci W v) None; Cell8 (Z.shiftr (ci W v) 8) None], def. split; [apply loop_1; assumption|]. split; [rewrite <- app_assoc in B3; exact B3|].
  split; [eapply grows_trans; [exact G1|eapply grows_trans; [apply grows_refl; exact N2|eapply grows_trans; [apply grows_refl; exact N2'|exact G3]]]|]. split; [intros ? ? H; exact H|].
  split; [cbn; lia|]. split; [cbn; lia|].
  intros NS lv p bs KN LI. cbn [render flat_map rcell fixval app]. rewrite !Z.add_0_r, (ci_mod8 W HW), mod_shr8, high_byte, (ci_mod16 W HW), <- high_byte.
  apply (SasSpec.li_word W (env_of NS lv) _ v p bs). exact LI.
Qed.

(** ** Labels *)
Lemma retire_id ns : Forall (fun nm => cur nm <> 46) ns -> forall k ls, retire k ns ls = ls.
Proof.
  intro F. induction k as [|k IH]; intro ls; [reflexivity|]. cbn [retire]. rewrite IH. destruct (l_type _); [reflexivity| |];
  (destruct (Z.eqb_spec (cur (nth (Z.to_nat (Z.of_nat k + BUILTINS)) ns [])) 46) as [E|]; [|reflexivity]; exfalso;
   destruct (nth_in_or_default (Z.to_nat (Z.of_nat k + BUILTINS)) ns []) as [I|I];
    [rewrite Forall_forall in F; apply (F _ I), E|rewrite I in E; cbn in E; discriminate]).
Qed.
Lemma define_ok o C def D s ts i nm : small o C -> between o C def D s ts -> 0 <= i -> nth_error (names s) (Z.to_nat (i + 99)) = Some nm ->
  ~ In nm D -> exists s', define_label i s = Ok (tt, s') /\ between o C (define def i (va s)) (nm :: D) s' ts /\ names s' = names s.
Proof.
  intros SM B I N ND. destruct B as [H1 H2 H3 H4 H5 H6 H7 H8]. destruct SM as (A1 & A2 & A3 & A4).
  assert (DI : def i = None). { destruct (def i) eqn:E; [|reflexivity]. exfalso. destruct (H3 i z E) as (_ & nm' & X & Y). rewrite N in Y. injection Y as <-. contradiction. }
  assert (VA : va s <> -1) by lia.
  assert (DEFS : forall j v, define def i (va s) j = Some v -> 0 <= j /\ exists m, In m (nm :: D) /\ nth_error (names s) (Z.to_nat (j + 99)) = Some m).
  { intros j v. unfold define. destruct (Z.eqb_spec j i) as [->|].
    - intros _. split; [exact I|]. exists nm. split; [left; reflexivity|exact N].
    - intro E. destruct (H3 j v E) as (X & m & Y & Z). split; [exact X|]. exists m. split; [right; exact Y|exact Z]. }
  pose proof (H2 i) as Li. rewrite DI in Li. destruct (resolve_all i (va s) def DI C (out s) 0 H5) as [RA _].
  unfold define_label. mget. destruct Li as [(LT & OF & _)|(LT & LV & LF)]; rewrite LT.
  - eexists. split; [reflexivity|]. split; [|reflexivity]. split; cbn [labels names bss out pos va free set_labels]; auto.
    + apply holds_labels; [exact H1|]. intro j. rewrite aget_aset. destruct (_ =? _); cbn; [discriminate|apply (sy_equ _ _ (proj1 H1))].
    + intro j. rewrite aget_aset. unfold define. rewrite (Z.eqb_sym i j). destruct (Z.eqb_spec j i) as [->|]; [cbn; auto|apply H2].
    + cbn [cfix] in *. change (placed 0 (cfix 0 C)) with (placed 0 (cfix 0%nat C)) in OF. rewrite OF in RA. exact RA.
  - rewrite LV. change (-1 =? -1) with true. cbv iota. rewrite (proj2 (Z.eqb_neq _ _) VA). cbn [andb assert]. unfold SccState.bind at 1.
    eexists. split; [reflexivity|]. split; [|reflexivity]. rewrite LF. split; cbn [labels names bss out pos va free set_labels set_free set_out]; auto.
    + apply holds_free, holds_labels; [apply holds_out; exact H1|]. intro j. rewrite aget_aset. destruct (_ =? _); cbn; [discriminate|apply (sy_equ _ _ (proj1 H1))].
    + intro j. rewrite aget_aset. unfold define. rewrite (Z.eqb_sym i j). destruct (Z.eqb_spec j i) as [->|]; [cbn; auto|apply H2].
    + lia.
Qed.
Lemma step_label o C def D s ts nm fuel : small o C -> ~ In nm D -> between o C def D s (SasSpec.item_toks (SasSpec.ILabel nm) ++ ts) ->
  step o C def D s (SasSpec.ILabel nm) ts 1 fuel.
Proof.
  intros SM ND B. cbn [SasSpec.item_toks app] in B. assert (T : tok s <> 0) by (eapply b_tok; exact B).
  destruct (proj1 (proj2 (b_holds _ _ _ _ _ _ B))) as (j & J & NJ & TJ).
  destruct (b_next _ _ _ _ _ _ _ B) as (s1 & E1 & B1 & G1). destruct (proj1 (proj2 (b_holds _ _ _ _ _ _ B1))) as [_ T1].
  destruct (b_next _ _ _ _ _ _ _ B1) as (s2 & E2 & B2 & G2).
  assert (N2 : nth_error (names s2) (Z.to_nat (j - 99 + 99)) = Some nm).
  { destruct (grows_trans _ _ _ G1 G2) as (x & ->). rewrite nth_error_app1; [|apply nth_error_Some]; replace (j - 99 + 99) with j by lia; congruence. }
  destruct (define_ok o C def D s2 ts (j - 99) nm SM B2 ltac:(lia) N2 ND) as (s3 & E3 & B3 & N3).
  assert (ES : statement W fuel s = Ok (tt, s3)).
  { unfold statement. mget. rewrite TJ. rewrite (proj2 (Z.leb_le TOK_USER_ID (j + 256))) by (unfold TOK_USER_ID; lia). mget.
    rewrite (bind_ok _ _ _ _ _ E1). rewrite (bind_ok _ _ _ _ _ (accept_yes _ _ _ T1 E2)).
    replace (j + 256 - TOK_USER_ID) with (j - 99) by (unfold TOK_USER_ID; lia). rewrite (bind_ok _ _ _ _ _ E3).
    destruct (negb _); [|reflexivity]. cbn [when]. unfold retire_locals, SccState.upd. rewrite retire_id; [destruct s3; reflexivity|].
    apply (sy_nodot _ _ (proj1 (b_holds _ _ _ _ _ _ B3))). }
  exists s3, [], (define def (j - 99) (va s2)). rewrite app_nil_r. split; [apply loop_1; assumption|]. split; [exact B3|].
  split; [eapply grows_trans; [exact G1|eapply grows_trans; [exact G2|apply grows_refl; exact N3]]|].
  split. { intros i v E. unfold define. destruct (Z.eqb_spec i (j - 99)) as [->|]; [|exact E]. exfalso.
    destruct (b_defs _ _ _ _ _ _ B2 _ _ E) as (_ & nm' & X & Y). rewrite N2 in Y. injection Y as <-. contradiction. }
  split; [cbn; lia|]. split; [cbn; lia|]. intros NS lv p bs KN LI. cbn [render flat_map app rlen] in *. change (Z.of_nat 0) with 0 in LI. rewrite Z.add_0_r in LI.
  apply SasSpec.li_label; [|exact LI]. rewrite <- N3 in N2. rewrite (env_at _ _ _ _ (j - 99) _ KN ltac:(lia) N2).
  rewrite (k_def _ _ _ _ KN (j - 99) (va s2)); [apply (b_va _ _ _ _ _ _ B2)|]. unfold define. rewrite Z.eqb_refl. reflexivity.
Qed.

(** ** All statements *)
Definition item_max (x : SasSpec.item) : Z :=
  match x with SasSpec.ILabel _ => 0 | SasSpec.IInst _ => 7 | SasSpec.IBytes l => Z.of_nat (length l) | SasSpec.IWord _ => 2 end.
Definition item_refs (x : SasSpec.item) : Z := match x with SasSpec.IInst _ => 2 | _ => 0 end.
Definition total (f : SasSpec.item -> Z) (p : list SasSpec.item) : Z := fold_right (fun x n => f x + n) 0 p.
Definition item_need (x : SasSpec.item) : nat := 2 + match x with SasSpec.IInst i => inst_need i | _ => 1 end.
Definition needs (p : list SasSpec.item) : nat := fold_right (fun x n => item_need x + n)%nat 1%nat p.
Definition item_good (x : SasSpec.item) : Prop := match x with SasSpec.IInst i => exists env next ins, means env next i ins | _ => True end.
Definition label_of (x : SasSpec.item) : list (list Z) := match x with SasSpec.ILabel nm => [nm] | _ => [] end.

Lemma item_begins x ts : begins (SasSpec.item_toks x ++ ts).
Proof. destruct x as [nm|i|l|v]; try exact I. destruct i; try exact I. destruct rep; exact I. Qed.
Lemma items_begin p : begins (flat_map SasSpec.item_toks p).
Proof. destruct p as [|x p]; [exact I|]. cbn [flat_map]. apply item_begins. Qed.
Lemma total_pos p : 0 <= total item_max p /\ 0 <= total item_refs p.
Proof. induction p as [|x p IH]; [split; cbn; lia|]. unfold total in *. cbn [fold_right]. destruct x; cbn [item_max item_refs]; lia. Qed.

Definition fits_in (o : Z) (C : list cell) (p : list SasSpec.item) : Prop :=
  0 <= o /\ Z.of_nat (rlen C) + total item_max p + 8 <= 20000 /\ o + Z.of_nat (rlen C) + total item_max p < 32000 /\
  Z.of_nat (length (cfix 0 C)) + total item_refs p + 2 <= 600.
Definition rounds (x : SasSpec.item) : nat := match x with SasSpec.IInst (SasSpec.AStr true _ _) => 2 | _ => 1 end.
Lemma one_item o C def D s x p fuel : fits_in o C (x :: p) -> item_good x -> (forall nm, x = SasSpec.ILabel nm -> ~ In nm D) -> (item_need x <= 2 + fuel)%nat ->
  between o C def D s (SasSpec.item_toks x ++ flat_map SasSpec.item_toks p) ->
  step o C def D s x (flat_map SasSpec.item_toks p) (rounds x) fuel.
Proof.
  intros (F1 & F2 & F3 & F4) GD NL N B. pose proof (items_begin p) as BG. pose proof (begins_stops _ BG) as ST.
  destruct (total_pos p) as [P1 P2]. unfold total in *. cbn [fold_right] in *.
  assert (SM : small o C) by (unfold small; destruct x; cbn [item_max item_refs] in *; lia).
  destruct x as [nm|i|l|v]; cbn [item_max item_refs item_good] in *; unfold item_need in N.
  - apply step_label; auto.
  - assert (X : plain_inst i \/ exists k w, i = SasSpec.AStr true k w).
    { destruct i; try (left; intros ? ?; discriminate). destruct rep; [right; eauto|left; intros ? ?; discriminate]. }
    destruct X as [PI|(k & w & ->)].
    + replace (rounds (SasSpec.IInst i)) with 1%nat by (destruct i; try reflexivity; destruct rep; [exfalso; eapply PI; reflexivity|reflexivity]).
      apply step_inst; auto. unfold item_need in N. lia.
    + apply step_rep; auto; try lia. destruct GD as (env & next & ins & ME). inversion ME; subst. assumption.
  - apply step_bytes; auto; lia.
  - apply step_word; auto; lia.
Qed.
Lemma known_back s s' def def' NS lv : grows s s' -> extends def def' -> known s' def' NS lv -> known s def NS lv.
Proof.
  intros (x & X) E [(y & Y) ND KD]. split; [exists (x ++ y); rewrite Y, X, app_assoc; reflexivity|exact ND|]. intros i v H. apply KD, E, H.
Qed.
Theorem run_items o : forall p C def D s fuel, fits_in o C p -> Forall item_good p -> NoDup (flat_map label_of p) ->
  (forall nm, In nm (flat_map label_of p) -> ~ In nm D) -> (needs p <= fuel)%nat -> between o C def D s (flat_map SasSpec.item_toks p) ->
  exists s' cs def' D', main_loop W fuel s = Ok (tt, s') /\ between o (C ++ cs) def' D' s' [] /\ grows s s' /\ extends def def' /\
    (forall nm, In nm D' -> In nm D \/ In nm (flat_map label_of p)) /\
    forall NS lv, known s' def' NS lv -> SasSpec.listing W (env_of NS lv) (o + Z.of_nat (rlen C)) p (render lv cs).
Proof.
  induction p as [|x p IH]; intros C def D s fuel F GD ND NL N B.
  - exists s, [], def, D. rewrite app_nil_r. split; [|split; [exact B|split; [apply names_same|split; [intros ? ? H; exact H|split; [auto|intros; constructor]]]]].
    cbn [needs fold_right] in N. destruct fuel as [|fuel]; [lia|]. cbn [main_loop]. mget. rewrite (proj2 (b_holds _ _ _ _ _ _ B)). reflexivity.
  - inversion GD as [|? ? G1 G2]; subst. cbn [flat_map] in ND, NL, B. unfold needs in N. cbn [fold_right] in N. fold (needs p) in N.
    assert (NE : (1 <= needs p)%nat) by (clear; unfold needs; induction p as [|y p IHp]; cbn [fold_right]; lia).
    assert (NX : forall nm, x = SasSpec.ILabel nm -> ~ In nm D) by (intros nm ->; apply NL; left; reflexivity).
    assert (RX : (1 <= rounds x <= 2)%nat) by (destruct x as [|[]| |]; cbn; try lia; destruct rep; lia).
    assert (K : step o C def D s x (flat_map SasSpec.item_toks p) (rounds x) (fuel - rounds x)) by (apply one_item; auto; unfold item_need in *; lia).
    destruct K as (s1 & cs & def1 & E1 & B1 & GR1 & EX1 & L1 & L2 & LI). replace (rounds x + (fuel - rounds x))%nat with fuel in E1 by (unfold item_need in N; lia).
    destruct (IH (C ++ cs) def1 (match x with SasSpec.ILabel nm => nm :: D | _ => D end) s1 (fuel - rounds x)%nat) as (s2 & cs2 & def2 & D2 & E2 & B2 & GR2 & EX2 & DD & LI2); [| | | | |exact B1|].
    + destruct F as (F1 & F2 & F3 & F4). unfold total in *. cbn [fold_right] in *. unfold fits_in, total. rewrite rlen_app, cfix_app, app_length, cfix_len.
      destruct x; cbn [item_max item_refs] in *; lia.
    + exact G2.
    + destruct x; cbn [label_of app] in ND; try exact ND. inversion ND; assumption.
    + intros nm I. destruct x; cbn [label_of app] in *; try (apply NL; exact I). inversion ND; subst. intros [->|J]; [contradiction|].
      exact (NL nm (or_intror I) J).
    + unfold item_need in N. lia.
    + exists s2, (cs ++ cs2), def2, D2. rewrite app_assoc. split; [congruence|]. split; [exact B2|]. split; [eapply grows_trans; eassumption|].
      split; [intros i v H; apply EX2, EX1, H|]. split.
      * intros nm I. cbn [flat_map]. rewrite in_app_iff. destruct (DD nm I) as [H|H]; [|auto]. destruct x; cbn [label_of In] in *; tauto.
      * intros NS lv KN. rewrite render_app. apply LI; [eapply known_back; eassumption|]. specialize (LI2 NS lv KN).
        rewrite rlen_app in LI2. replace (o + Z.of_nat (rlen C + rlen cs)) with (o + Z.of_nat (rlen C) + Z.of_nat (rlen cs)) in LI2 by lia. exact LI2.
Qed.

(** ** Room for the names *)
Definition text_size (L : list (list Z)) : Z := fold_right (fun nm n => Z.of_nat (length nm) + 1 + n) 0 L.
Lemma text_size_app a b : text_size (a ++ b) = text_size a + text_size b.
Proof. unfold text_size. induction a as [|x a IH]; cbn [app fold_right]; lia. Qed.
Lemma text_size_pos L : 0 <= text_size L.
Proof. induction L as [|x L IH]; unfold text_size in *; cbn [fold_right]; lia. Qed.
Lemma text_size_incl xs : forall L, NoDup xs -> incl xs L -> text_size xs <= text_size L.
Proof.
  induction xs as [|x xs IH]; intros L ND I; [apply text_size_pos|]. inversion ND; subst.
  destruct (in_split x L (I x (or_introl eq_refl))) as (l1 & l2 & ->).
  assert (J : incl xs (l1 ++ l2)).
  { intros y Y. specialize (I y (or_intror Y)). apply in_app_iff in I. apply in_app_iff. cbn [In] in I. destruct I as [|[<-|]]; auto. contradiction. }
  specialize (IH _ ltac:(assumption) J). rewrite text_size_app in *. unfold text_size in *. cbn [fold_right]. lia.
Qed.
Lemma room_ok L : (length L <= 501)%nat -> text_size L <= 4610 -> forall ts l, spells ts l -> (forall nm, In (KName nm) ts -> In nm L) ->
  forall xs, NoDup xs -> incl xs L -> room (builtin_texts ++ xs) (390 + text_size xs) ts.
Proof.
  intros L1 L2 ts l S. induction S as [l B|ws t text ts rest G Ht Sep Sp IH]; intros NM xs ND I; [exact Logic.I|].
  assert (IH' : forall xs, NoDup xs -> incl xs L -> room (builtin_texts ++ xs) (390 + text_size xs) ts) by (intros; apply IH; auto; intros; apply NM; right; assumption).
  destruct Ht; cbn [room]; try (apply IH'; assumption).
  set (nm := firstn 16 (c :: l)) in *.
  assert (CN : canonical nm = nm) by (unfold canonical; destruct (in_dec _ _ _); [contradiction|reflexivity]).
  unfold number_sym. rewrite CN. destruct (index_of nm (builtin_texts ++ xs)) as [j|] eqn:IX; [apply IH'; assumption|].
  assert (NI : ~ In nm xs). { intro J. destruct (index_of_in nm (builtin_texts ++ xs)) as [k K]; [apply in_app_iff; right; exact J|congruence]. }
  assert (ND2 : NoDup (xs ++ [nm])) by (apply NoDup_rev in ND; rewrite <- (rev_involutive (xs ++ [nm])); apply NoDup_rev; rewrite rev_app_distr; constructor; [rewrite <- in_rev; exact NI|exact ND]).
  assert (I2 : incl (xs ++ [nm]) L). { intros y Y. apply in_app_iff in Y. destruct Y as [Y|[<-|[]]]; [apply I, Y|apply NM; left; reflexivity]. }
  pose proof (text_size_incl _ _ ND2 I2) as TS. pose proof (NoDup_incl_length ND2 I2) as LN.
  assert (TE : text_size (xs ++ [nm]) = text_size xs + (Z.of_nat (length nm) + 1)) by (rewrite text_size_app; unfold text_size at 2; cbn [fold_right]; lia).
  rewrite (proj2 (Z.ltb_ge _ _)) by lia. rewrite app_length in LN. cbn [length] in LN.
  rewrite (proj2 (Z.leb_gt _ _)) by (rewrite app_length; change (length builtin_texts) with 99%nat; lia).
  replace (390 + text_size xs + (Z.of_nat (length nm) + 1)) with (390 + text_size (xs ++ [nm])) by lia. rewrite <- app_assoc. apply IH'; assumption.
Qed.

(** ** The whole file *)
Definition header (org : option Z) : list tk := match org with Some v => [SasSpec.wd "ORG"; KNum v] | None => [] end.
Definition origin (org : option Z) : Z := match org with Some v => v | None => 0 end.
Lemma out_list_at o : forall l p, at_out o p l -> out_list (length l) o p = l.
Proof.
  induction l as [|x l IH]; intros p A; [reflexivity|]. cbn [length out_list]. change (x :: l) with ([x] ++ l) in A. apply at_out_app in A. destruct A as [A1 A2].
  apply at_out_1 in A1. rewrite A1. f_equal. apply IH. exact A2.
Qed.
Definition need_all (p : list SasSpec.item) : nat := (needs p + 40)%nat.
Theorem program_ok org p file L fuel :
  spells (header org ++ flat_map SasSpec.item_toks p) (map s8 file) ->
  (forall nm, In (KName nm) (flat_map SasSpec.item_toks p) -> In nm L) -> (length L <= 501)%nat -> text_size L <= 4610 ->
  Forall item_good p -> NoDup (flat_map label_of p) -> fits_in (origin org) [] p -> (need_all p <= fuel)%nat ->
  exists env bs, assemble W fuel file = Ok bs /\ SasSpec.listing W env (origin org) p bs /\
    forall nm, ~ In nm (flat_map label_of p) -> env nm = 0.
Proof.
  intros SP NM L1 L2 GD ND FI FU.
  set (s0 := set_names (st0 (map s8 file)) builtin_texts used0 (tab0 W)).
  assert (Y0 : syms W s0).
  { split; cbn.
    - apply table0. exact HW.
    - change (length builtin_texts) with 99%nat. lia.
    - intro i. cbn. discriminate.
    - pose proof builtin_letters as BL. eapply Forall_impl; [|exact BL]. cbn beta. intros t [A B]. destruct t as [|c t]; [cbn in B; lia|]. inversion A; subst. cbn. lia. }
  assert (R0 : room (names s0) (used s0) (header org ++ flat_map SasSpec.item_toks p)).
  { cbn [names used s0 set_names]. pose proof (room_ok L L1 L2 _ _ SP) as RM. specialize (RM ltac:(intros nm I; apply in_app_iff in I; destruct I as [I|I]; [|apply NM, I]; destruct org; cbn in I; intuition discriminate) []
      ltac:(constructor) ltac:(intros ? [])). rewrite app_nil_r in RM. exact RM. }
  destruct (GetToken_first W HW s0 _ Y0 SP R0) as (s1 & E1 & H1 & Q1).
  assert (B0 : exists s2 f, main_loop W fuel s1 = main_loop W f s2 /\ (needs p <= f)%nat /\ between (origin org) [] (fun _ => None) [] s2 (flat_map SasSpec.item_toks p)).
  { assert (BB : forall s ts v, quiet s0 s -> holds W s ts -> between v [] (fun _ => None) [] (set_out s (out s) (pos s) v) ts).
    { intros s ts v [Q2 Q3 Q4 Q5 Q6 Q7 Q8 Q9] H. split; cbn [labels names bss out pos va free set_out cfix placed map ofl render flat_map rlen length]; auto.
      - apply holds_out. exact H.
      - intro i. left. rewrite Q8. repeat split; auto.
      - discriminate.
      - intros k K. cbn in K. lia.
      - lia.
      - rewrite Q7. cbn. unfold FIXUP_MAX. lia. }
    destruct org as [v|]; cbn [header origin app] in *.
    - destruct (GetToken_holds W HW _ _ _ H1) as (s2 & E2 & H2 & Q2).
      pose proof (holds_size W s2 0 _ H2) as H2'.
      set (e := (((UNum v, []), []), []) : expr).
      pose proof (begins_stops _ (items_begin p)) as ST.
      pose proof (ParseNumber_spec W HW e (fuel - 1) (set_size s2 0) _ ltac:(unfold need_all in FU; cbn; lia) ST H2') as PN.
      replace (eval W e) with (Some (ci W v)) in PN by reflexivity.
      destruct PN as (s3 & E3 & H3 & Q3).
      exists (set_out s3 (out s3) (pos s3) v), (fuel - 1)%nat. split; [|split; [unfold need_all in FU; lia|]].
      + assert (T1 : tok s1 = TOK_ORG) by (rewrite (tok_wd W _ _ (proj1 (proj2 H1))); vm_compute; reflexivity).
        destruct fuel as [|fuel]; [unfold need_all in FU; lia|]. replace (S fuel - 1)%nat with fuel in * by lia. apply loop_1; [rewrite T1; discriminate|].
        unfold statement. mget. rewrite T1. change (TOK_USER_ID <=? TOK_ORG) with false. change (TOK_ORG <? TOK_DIRECTIVE) with false. cbv iota.
        rewrite (bind_ok _ _ _ _ _ E2). unfold SccState.upd at 1. unfold SccState.bind at 1. change (TOK_ORG <? TOK_INST) with true. cbv iota.
        unfold HandleDirective. change (TOK_ORG =? TOK_CPU) with false. change (TOK_ORG =? TOK_DB) with false. change (TOK_ORG =? TOK_DW) with false. change (TOK_ORG =? TOK_ORG) with true. cbv iota.
        rewrite (bind_ok _ _ _ _ _ E3). unfold SccState.upd. destruct FI as (F1 & _ & F3 & _). cbn [origin rlen] in *. destruct (total_pos p).
        rewrite (ci_small W HW) by lia. reflexivity.
      + apply BB; [|exact H3]. eapply quiet_trans; [exact Q1|]. eapply quiet_trans; [exact Q2|].
        replace s2 with (set_size s2 0); [exact Q3|]. pose proof (q_size _ _ (quiet_trans _ _ _ Q1 Q2)) as SZ. cbn in SZ. destruct s2; cbn in SZ; subst; reflexivity.
    - exists s1, fuel. split; [reflexivity|]. split; [unfold need_all in FU; lia|]. pose proof (BB s1 _ 0 Q1 H1) as X.
      replace (set_out s1 (out s1) (pos s1) 0) with s1 in X; [exact X|]. pose proof (q_va _ _ Q1) as VA. cbn in VA. destruct s1; cbn in VA; subst; reflexivity. }
  destruct B0 as (s2 & f & E2 & FN & B).
  destruct (run_items _ p [] _ [] s2 f FI GD ND ltac:(intros ? ? []) FN B) as (s3 & cs & def & D & E3 & B3 & GR & EX & DD & LI).
  cbn [app] in B3. assert (KN : known s3 def (names s3) (lvd def)).
  { split; [apply names_same|apply (t_nodup _ _ _ (sy_table _ _ (proj1 (b_holds _ _ _ _ _ _ B3))))|]. intros i v E. unfold lvd. rewrite E. reflexivity. }
  exists (env_of (names s3) (lvd def)), (render (lvd def) cs). split; [|split].
  - unfold assemble, sas_main. rewrite (bind_ok _ _ _ _ _ (builtins_run W _ HW)). fold s0. rewrite (bind_ok _ _ _ _ _ E1), E2, E3.
    f_equal. rewrite (b_pos _ _ _ _ _ _ B3), <- (render_len (lvd def)), Nat2Z.id. apply out_list_at. apply (b_out _ _ _ _ _ _ B3).
  - specialize (LI _ _ KN). cbn [rlen] in LI. change (Z.of_nat 0) with 0 in LI. rewrite Z.add_0_r in LI. exact LI.
  - intros nm NI. unfold env_of. destruct (index_of nm (names s3)) as [j|] eqn:IX; [|reflexivity]. unfold lvd. destruct (def (Z.of_nat j - 99)) as [v|] eqn:E; [|reflexivity].
    exfalso. destruct (b_defs _ _ _ _ _ _ B3 _ _ E) as (J & nm' & A1 & A2). replace (Z.to_nat (Z.of_nat j - 99 + 99)) with j in A2 by lia.
    apply index_of_some in IX. rewrite IX in A2. injection A2 as <-. destruct (DD nm A1) as [[]|X]. contradiction.
Qed.
End Width.
