(** C42-C47, C60: the preprocessor. *)
From Coq Require Import ZArith List Bool Lia String.
From Verif Require Import Base Spp SppSpec SppMain.
From Verif Require SppIn SppOut SccLex.
Import ListNotations.
Open Scope Z_scope.

(** the file of the given name, all others missing *)
Definition only (name input : list Z) (n : list Z) : option (list Z) := if word_eq n name then Some input else None.
Lemma only_same name input : only name input name = Some input.
Proof. unfold only. rewrite (proj2 (SppId.word_eq_true name name) eq_refl). reflexivity. Qed.

(** ** C42 *)
(** What scpp writes for a file made of text lines, macro definitions and removals and conditional
    groups, nested to any depth up to 16, is what [means] says.
    [means] (SppSpec.v) takes the group after the first true condition, passes over all others,
    and passes over everything inside a group that is passed over. *)
Theorem C42_preprocess W fs i e u out name :
  0 < W -> means W GROUPS [] 0 i e u out -> separated (lexemes i) = true -> fs name = Some (texts (lexemes i)) ->
  exists f0, forall fuel, (f0 <= fuel)%nat -> preprocess W fs fuel name = Ok (emit 0 out).
Proof. intros H M S F. eapply preprocess_file; eauto. Qed.
Print Assumptions C42_preprocess.

(** a chain of groups: conditions with what follows them, then the #else part *)
Fixpoint chain (l : list (list lexeme * items)) (t : list lexeme) (b : items) (t' : list lexeme) : more :=
  match l with [] => Else t b t' | (c, x) :: l => Elif c x (chain l t b t') end.
(** the text after the first condition that is true *)
Fixpoint first_true (l : list (Z * list lexeme)) (b : list lexeme) : list lexeme :=
  match l with [] => b | (v, x) :: l => if v =? 0 then first_true l b else x end.
Fixpoint lines (l : list (list lexeme)) : items := match l with [] => Done | x :: l => Line x (lines l) end.
Definition joined (l : list (list lexeme)) : list lexeme := flat_map (fun x => x ++ [Nl]) l.
(** a line without names or # *)
Definition inert (x : list lexeme) : Prop := Forall (fun x => is_nl x = false /\ x <> Op (bytes "#") /\ match x with Id _ => False | _ => True end /\ size x <= TEXT) x.
Lemma inert_expand e x : inert x -> expand e NEST [] x = Some x.
Proof.
  induction 1 as [|y x (_ & _ & H & _) _ IH]; [reflexivity|]. cbn [expand NEST] in *. destruct y; try contradiction; rewrite IH; reflexivity.
Qed.
Lemma inert_plain x : inert x -> plain x. Proof. apply Forall_impl. intros y (A & B & _). auto. Qed.
Lemma inert_fits x : inert x -> fits 0 x. Proof. apply Forall_impl. intros y (_ & _ & _ & A). lia. Qed.
Lemma lines_means W d l : Forall inert l -> means W d [] 0 (lines l) [] 0 (joined l).
Proof.
  induction 1 as [|x l H _ IH]; [constructor|]. cbn [lines joined flat_map]. rewrite <- app_assoc.
  apply MLine; [apply inert_plain, H|apply inert_fits, H|apply inert_expand, H|exact IH].
Qed.
Lemma lines_skips W d l : Forall inert l -> skips W d [] 0 (lines l).
Proof. induction 1 as [|x l H _ IH]; [constructor|]. cbn [lines]. eapply SLine; [apply inert_plain, H|apply inert_fits, H|apply inert_expand, H|exact IH]. Qed.
Definition condition_ok (W : Z) (l : list lexeme) (v : Z) : Prop := condition W [] l v /\ Forall (fun x => is_nl x = false) l /\ fits 0 l.
Definition entry_ok (W : Z) (x : list lexeme * Z * list (list lexeme)) : Prop :=
  let '(c, v, l) := x in condition_ok W c v /\ Forall inert l.
Definition entry_item (x : list lexeme * Z * list (list lexeme)) : list lexeme * items := let '(c, _, l) := x in (c, lines l).
Definition entry_out (x : list lexeme * Z * list (list lexeme)) : Z * list lexeme := let '(_, v, l) := x in (v, joined l).
Lemma chain_skips W d l b : Forall (entry_ok W) l -> Forall inert b -> skips_more W d [] 0 (chain (map entry_item l) [] (lines b) []).
Proof.
  intros H B. induction H as [|[[c v] x] l ((C1 & C2 & C3) & X) _ IH]; cbn [map entry_item chain].
  - constructor; try (constructor; fail); try (repeat constructor; cbn; unfold TEXT; lia). apply lines_skips, B.
  - constructor; auto. + apply Forall_app. split; [repeat constructor; cbn; unfold TEXT; lia|exact C3]. + apply lines_skips, X.
Qed.
Lemma chain_means W d l b : Forall (entry_ok W) l -> Forall inert b ->
  means_more W d [] 0 (chain (map entry_item l) [] (lines b) []) [] 0 (first_true (map entry_out l) (joined b)).
Proof.
  intros H B. induction H as [|[[c v] x] l ((C1 & C2 & C3) & X) F IH]; cbn [map entry_item entry_out chain first_true].
  - constructor; try (constructor; fail); try (repeat constructor; cbn; unfold TEXT; lia). apply lines_means, B.
  - assert (FE : fits 0 (SppSpec.hash "elif" ++ c)) by (apply Forall_app; split; [repeat constructor; cbn; unfold TEXT; lia|exact C3]).
    destruct (Z.eqb_spec v 0) as [->|N].
    + apply MElifFalse; auto. apply lines_skips, X.
    + eapply MElifTrue; eauto; [apply lines_means, X|apply chain_skips; auto].
Qed.
(** of #if c1 / text1 / #elif c2 / text2 ... #else / text / #endif exactly the text after the first
    true condition is put out *)
Theorem C42_first_true W fs c v x l b name :
  0 < W -> Forall (entry_ok W) ((c, v, x) :: l) -> Forall inert b ->
  let i := Group (OIf c) (lines x) (chain (map entry_item l) [] (lines b) []) Done in
  separated (lexemes i) = true -> fs name = Some (texts (lexemes i)) ->
  exists f0, forall fuel, (f0 <= fuel)%nat ->
    preprocess W fs fuel name = Ok (emit 0 (first_true (map entry_out ((c, v, x) :: l)) (joined b))).
Proof.
  intros HW F B i S FS. pose proof (Forall_inv_tail F) as F2. destruct (Forall_inv F) as ((C1 & C2 & C3) & X). apply (C42_preprocess W fs i [] 0 _ name HW); [|exact S|exact FS].
  assert (OK : opening_ok 0 (OIf c)). { split; [|exact C2]. cbn [open_line]. apply Forall_app. split; [repeat constructor; cbn; unfold TEXT; lia|].
    apply Forall_app. split; [exact C3|]. repeat constructor; cbn; unfold TEXT; lia. }
  cbn [map entry_out first_true]. rewrite <- (app_nil_r (if v =? 0 then _ else _)). destruct (Z.eqb_spec v 0) as [->|N].
  - eapply MFalse; [exact OK|exists 0; auto|apply lines_skips, X|apply chain_means; auto|constructor].
  - eapply MTrue; [exact OK|exists v; split; auto; destruct (Z.eqb_spec v 0); [contradiction|reflexivity]|apply lines_means, X|apply chain_skips; auto|constructor].
Qed.
Print Assumptions C42_first_true.

(** ** C43 *)
(** in any file the text after #if is taken if and only if the expression, read with C's precedences but
    grouped to the right within one precedence, is not 0 *)
Theorem C43_if W fs l v x name :
  0 < W -> condition_ok W l v -> inert x ->
  let i := Group (OIf l) (Line x Done) (Endif []) Done in
  separated (lexemes i) = true -> fs name = Some (texts (lexemes i)) ->
  exists f0, forall fuel, (f0 <= fuel)%nat -> preprocess W fs fuel name = Ok (if v =? 0 then [] else emit 0 x).
Proof.
  intros HW (C1 & C2 & C3) X i S FS.
  assert (OK : opening_ok 0 (OIf l)). { split; [|exact C2]. cbn [open_line]. apply Forall_app. split; [repeat constructor; cbn; unfold TEXT; lia|].
    apply Forall_app. split; [exact C3|]. repeat constructor; cbn; unfold TEXT; lia. }
  destruct (Z.eqb_spec v 0) as [->|N].
  - apply (C42_preprocess W fs i [] 0 ([] ++ []) name HW); [|exact S|exact FS].
    eapply MFalse; [exact OK|exists 0; auto|apply (lines_skips W _ [x]); auto|constructor; repeat constructor; cbn; unfold TEXT; lia|constructor].
  - replace (emit 0 x) with (emit 0 (joined [x] ++ [])) by (cbn [joined flat_map]; rewrite !app_nil_r, emit_app; cbn [emit]; apply app_nil_r).
    apply (C42_preprocess W fs i [] 0 _ name HW); [|exact S|exact FS].
    eapply MTrue; [exact OK|exists v; split; auto; destruct (Z.eqb_spec v 0); [contradiction|reflexivity]|apply (lines_means W _ [x]); auto|constructor; repeat constructor; cbn; unfold TEXT; lia|constructor].
Qed.
Print Assumptions C43_if.

Definition prog (l : list string) : list Z := List.concat (map (fun x => bytes x ++ [10]) l).
(** the two places where this differs from C: > is evaluated as <, and operators group to the right *)
Theorem C43_refuted :
  exists f, preprocess 32 (only [97] (prog ["#if 2 > 1"; "yes"; "#else"; "no"; "#endif"]%string)) f [97] = Ok (bytes "no") /\
            preprocess 32 (only [97] (prog ["#if 2 - 1 - 1"; "yes"; "#else"; "no"; "#endif"]%string)) f [97] = Ok (bytes "yes") /\
            preprocess 32 (only [97] (prog ["#if 8 / 4 / 2 == 1"; "yes"; "#else"; "no"; "#endif"]%string)) f [97] = Ok (bytes "no").
Proof. exists 1000%nat. vm_compute. auto. Qed.
Print Assumptions C43_refuted.

(** ** C44 *)
(** The blocks written are the output cut into pieces of 512 bytes, in order, and nothing is lost
    or repeated. *)
Theorem C44_output strs : List.concat (SppOut.written strs) = List.concat strs.
Proof.
  destruct (SppOut.fold_spec strs SppOut.start) as (G & T & _); [unfold SppOut.good; cbn; unfold SppOut.BUF; lia|constructor|].
  unfold SppOut.written, SppOut.finish. cbn [rev]. rewrite concat_app. cbn [List.concat]. rewrite app_nil_r. exact T.
Qed.
Print Assumptions C44_output.
Example C44_example : let strs := repeat (bytes "abcdefghij") 200 in
  map (fun x => Z.of_nat (length x)) (SppOut.written strs) = [512; 512; 512; 464] /\ Z.of_nat (length (List.concat strs)) = 2000.
Proof. vm_compute. auto. Qed.

(** ** C45 *)
(** After k + 1 calls of the reader the current character is the k-th of the file (0 after the end) and the
    line number is one more than the number of newlines before it, whatever amounts read delivers. *)
Theorem C45_reader sched file k : Forall (fun c => 0 < c < 256) file ->
  let r := SppIn.read_chars sched (S k) (SppIn.opened file) in
  SppIn.r_char r mod 256 = nth k file 0 /\ SppIn.r_line r = 1 + Z.of_nat (count_occ Z.eq_dec (firstn k file) 10).
Proof.
  intros F. assert (NZ : Forall (fun c => c <> 0) (map s8 file)).
  { apply Forall_map. revert F. apply Forall_impl. intros c H. unfold s8. rewrite Z.mod_small by lia. destruct (Z.ltb_spec c 128); lia. }
  destruct (SppIn.read_chars_spec sched file k NZ) as (A & _ & B). cbv zeta. split.
  - rewrite A. change 0 with (s8 0) at 1. rewrite map_nth. destruct (Nat.ltb_spec k (List.length file)) as [L|L].
    + rewrite Forall_forall in F. specialize (F _ (nth_In file 0 L)). remember (nth k file 0) as c. unfold s8. rewrite (Z.mod_small c 256) by lia.
      destruct (Z.ltb_spec c 128); [apply Z.mod_small; lia|]. rewrite <- (Z_mod_plus_full (c - 256) 1 256). rewrite Z.mod_small by lia. lia.
    + rewrite nth_overflow by lia. reflexivity.
  - rewrite B. f_equal. unfold SppIn.newlines. f_equal. rewrite firstn_map. revert F. clear. intro F. revert k. induction F as [|c l H F IH]; intros [|k]; try reflexivity.
    cbn [firstn map count_occ]. assert (E : s8 c = 10 <-> c = 10) by (unfold s8; rewrite Z.mod_small by lia; destruct (Z.ltb_spec c 128); lia).
    destruct (Z.eq_dec (s8 c) 10) as [X|X], (Z.eq_dec c 10) as [Y|Y]; try (exfalso; tauto); rewrite IH; reflexivity.
Qed.
Print Assumptions C45_reader.
Example C45_example : let file := List.concat (repeat (bytes "line" ++ [10]) 300) in
  Forall (fun c => 0 < c < 256) file /\ SppIn.r_line (SppIn.read_chars (fun k => k) 1500 (SppIn.opened file)) = 300.
Proof.
  cbv zeta. split; [|vm_compute; reflexivity]. apply Forall_forall. intros c H.
  assert (F : forallb (fun c => (0 <? c) && (c <? 256)) (List.concat (repeat (bytes "line" ++ [10]) 300)) = true) by (vm_compute; reflexivity).
  rewrite forallb_forall in F. specialize (F c H). lia.
Qed.
(** the restriction to files without NUL is needed: what is delivered after a NUL depends on the reads *)
Theorem C45_nul_refuted : exists file s1 s2 k,
  SppIn.r_char (SppIn.read_chars s1 k (SppIn.opened file)) <> SppIn.r_char (SppIn.read_chars s2 k (SppIn.opened file)).
Proof. exists [97; 98; 0; 99; 100; 101], (fun _ => 6%nat), (fun _ => 4%nat), 4%nat. vm_compute. discriminate. Qed.
Print Assumptions C45_nul_refuted.

(** ** C46 *)
(** every macro whose expansion is nested in that of another is hidden in it, so at most as many are nested as there are *)
Definition no_special (l : list lexeme) : Prop := Forall (fun x => match x with Id w => w <> bytes "__FILE__" /\ w <> bytes "__LINE__" | _ => True end) l.
Definition bodies_ok (e : env) : Prop := forall n b, lookup e n = Some (Some b) -> no_special b.
Definition visible (hid : list (list Z)) (e : env) : env := filter (fun '(n, _) => negb (existsb (word_eq n) hid)) e.
Lemma word_refl w : word_eq w w = true. Proof. apply SppId.word_eq_true. reflexivity. Qed.
Lemma visible_cons hid m c e : visible hid ((m, c) :: e) = if existsb (word_eq m) hid then visible hid e else (m, c) :: visible hid e.
Proof. cbn [visible filter]. destruct (existsb (word_eq m) hid); reflexivity. Qed.
Lemma visible_less e w b hid : lookup e w = Some b -> existsb (word_eq w) hid = false -> (length (visible (w :: hid) e) < length (visible hid e))%nat.
Proof.
  assert (LE : forall e, (length (visible (w :: hid) e) <= length (visible hid e))%nat).
  { clear. induction e as [|[m c] e IH]; [constructor|]. rewrite !visible_cons. cbn [existsb].
    destruct (word_eq m w), (existsb (word_eq m) hid); cbn [orb negb length]; lia. }
  induction e as [|[m c] e IH]; intros H V; [discriminate|]. cbn [lookup] in H. rewrite !visible_cons. cbn [existsb].
  destruct (word_eq m w) eqn:E.
  - apply SppId.word_eq_true in E. subst m. rewrite V. cbn [orb negb length]. specialize (LE e). lia.
  - specialize (IH H V). destruct (existsb (word_eq m) hid); cbn [orb negb length]; lia.
Qed.
Lemma expand_total e : bodies_ok e -> forall d hid l, (length (visible hid e) <= d)%nat -> no_special l -> exists y, expand e d hid l = Some y.
Proof.
  intros B. induction d as [|d IHd]; intros hid l L N; induction N as [|x l H N IH]; try (eexists; reflexivity); destruct IH as (y & IH).
  - destruct x as [a| |w|w|q w|w]; cbn [expand] in *; try (rewrite IH; eexists; reflexivity). rewrite IH. destruct (word_eq w (bytes "__SCC__")); [eexists; reflexivity|].
    destruct H as [H1 H2]. apply SppId.word_eq_false in H1, H2. rewrite H1, H2. cbn [orb]. destruct (lookup e w) as [[[|z b]|]|] eqn:LK; try (eexists; reflexivity).
    + destruct (existsb (word_eq w) hid); eexists; reflexivity.
    + destruct (existsb (word_eq w) hid) eqn:E; [eexists; reflexivity|]. pose proof (visible_less _ _ _ _ LK E). lia.
  - destruct x as [a| |w|w|q w|w]; cbn [expand] in *; try (rewrite IH; eexists; reflexivity). rewrite IH. destruct (word_eq w (bytes "__SCC__")); [eexists; reflexivity|].
    destruct H as [H1 H2]. apply SppId.word_eq_false in H1, H2. rewrite H1, H2. cbn [orb]. destruct (lookup e w) as [[[|z b]|]|] eqn:LK; try (eexists; reflexivity).
    + destruct (existsb (word_eq w) hid); eexists; reflexivity.
    + destruct (existsb (word_eq w) hid) eqn:E; [eexists; reflexivity|]. pose proof (visible_less _ _ _ _ LK E) as V. 
      destruct (IHd (w :: hid) (z :: b)) as (y1 & E1); [lia|exact (B _ _ LK)|]. cbn [expand] in E1. rewrite E1. eexists; reflexivity.
Qed.
Fixpoint then_lines (i : items) (l : list (list lexeme)) : items :=
  match i with
  | Done => lines l
  | Line x r => Line x (then_lines r l)
  | Define a n b r => Define a n b (then_lines r l)
  | Undef a n t r => Undef a n t (then_lines r l)
  | Group o b m r => Group o b m (then_lines r l)
  end.
Lemma means_then W d e u i e' u' out : means W d e u i e' u' out -> forall l ys,
  Forall plain l -> Forall (fits u') l -> Forall2 (fun x y => expand e' NEST [] x = Some y) l ys ->
  means W d e u (then_lines i l) e' u' (out ++ joined ys).
Proof.
  induction 1; intros ls ys P F E; cbn [then_lines app].
  - revert ls P F E. induction ys as [|y ys IH]; intros [|x ls] P F E; try (inversion E; fail); [constructor|]. cbn [lines joined flat_map]. rewrite <- app_assoc. cbn [app].
    inversion P; inversion F; inversion E; subst. apply MLine; auto.
  - rewrite <- app_assoc. cbn [app]. apply MLine; auto.
  - eapply MDefine; eauto.
  - eapply MUndef; eauto.
  - rewrite <- app_assoc. eapply MTrue; eauto.
  - rewrite <- app_assoc. eapply MFalse; eauto.
Qed.
(** After any file that leaves at most ten names behind (with bodies that refer to each other, and to
    themselves, in any way) every text is expanded; scpp does not run on. *)
Theorem C46_terminates W fs i e u out l name :
  0 < W -> means W GROUPS [] 0 i e u out -> (length e <= 10)%nat -> bodies_ok e ->
  Forall plain l -> Forall (fits u) l -> Forall no_special l ->
  separated (lexemes (then_lines i l)) = true -> fs name = Some (texts (lexemes (then_lines i l))) ->
  exists ys f0, Forall2 (fun x y => expand e NEST [] x = Some y) l ys /\
    forall fuel, (f0 <= fuel)%nat -> preprocess W fs fuel name = Ok (emit 0 (out ++ joined ys)).
Proof.
  intros HW M L B P F N S FS.
  assert (X : exists ys, Forall2 (fun x y => expand e NEST [] x = Some y) l ys).
  { clear - B N L. induction N as [|x l H N IH]; [exists []; constructor|]. destruct IH as (ys & IH). destruct (expand_total e B NEST [] x) as (y & E); auto.
    - unfold visible. rewrite filter_ext with (g := fun _ => true) by (intros []; reflexivity). clear - L. assert (E : filter (fun _ : list Z * option (list lexeme) => true) e = e) by (clear; induction e; cbn; congruence).
      rewrite E. exact L.
    - exists (y :: ys). constructor; auto. }
  destruct X as (ys & X). destruct (C42_preprocess W fs _ e u _ name HW (means_then _ _ _ _ _ _ _ _ M l ys P F X) S FS) as (f0 & R).
  exists ys, f0. auto.
Qed.
Print Assumptions C46_terminates.

Lemma not_special n : ~ In n keywords -> word_eq n (bytes "__SCC__") = false /\ word_eq n (bytes "__FILE__") = false /\ word_eq n (bytes "__LINE__") = false.
Proof. intro NK. repeat split; apply SppId.word_eq_false; intros ->; apply NK; cbn; tauto. Qed.
Lemma expand_macro e n y y' : ~ In n keywords -> lookup e n = Some (Some y) -> expand e 9 [n] y = Some y' -> SppGet.expand1 e NEST [] (Id n) = Some y'.
Proof.
  intros NK LK H. destruct (not_special n NK) as (K1 & K2 & K3). unfold SppGet.expand1, SppGet.action. rewrite K1, K2, K3, LK. cbn [orb existsb].
  destruct y as [|z y]; [rewrite SppGet.expand_nil in H; exact H|exact H].
Qed.
(** the name of the macro in its own body is left as it is *)
Lemma expand_hidden n b : forall d x, Forall (fun x => match x with Id w => ~ In w keywords | _ => True end) x -> expand [(n, Some b)] d [n] x = Some x.
Proof.
  intros d x H. induction H as [|y x H _ IH]; [destruct d; reflexivity|]. assert (K : forall w, ~ In w keywords -> word_eq w (bytes "__SCC__") = false /\ word_eq w (bytes "__FILE__") = false /\ word_eq w (bytes "__LINE__") = false).
  { intros w N. repeat split; apply SppId.word_eq_false; intros ->; apply N; cbn; tauto. }
  destruct d; (destruct y as [a| |w|w|q w|w]; cbn [expand] in *; try (rewrite IH; reflexivity); rewrite IH; destruct (K w H) as (-> & -> & ->); cbn [orb lookup existsb];
    destruct (word_eq n w) eqn:E; [|reflexivity]; apply SppId.word_eq_true in E; subst w; rewrite word_refl; reflexivity).
Qed.
Theorem C46_own_name W fs n b a name :
  0 < W -> Forall (fun x => is_nl x = false /\ is_hash x = false /\ match x with Id w => ~ In w keywords | _ => True end) b ->
  (b = [] \/ exists a' b', b = Ws a' :: b') -> ~ In n keywords -> size (Id n) + sizes b + size (Id n) <= TEXT -> Z.of_nat (length b) <= POOL ->
  let i := Define [32] n b (Line [Id n; Ws a; Id n] Done) in
  separated (lexemes i) = true -> fs name = Some (texts (lexemes i)) ->
  exists f0, forall fuel, (f0 <= fuel)%nat -> preprocess W fs fuel name = Ok (emit 0 (squeeze (-1) b ++ Ws a :: squeeze (-1) b ++ [Nl])).
Proof.
  intros HW F SH NK SZ PL i S FS.
  assert (POS : 0 <= sizes b /\ 0 <= size (Id n)). { split; [|cbn [size]; lia]. clear. induction b as [|x b IH]; [cbn; lia|]. cbn [sizes fold_right]. fold (sizes b). destruct x; cbn [size]; lia. }
  assert (SQ : forall p, (length (squeeze p b) <= length b + (if (p =? 1)%Z then 1 else 0))%nat).
  { clear. induction b as [|x b IH]; intro p; [cbn [squeeze length]; lia|]. destruct x; cbn [squeeze]; rewrite ?app_length; cbn [length]; try (specialize (IH 0); cbn [Z.eqb] in IH; destruct (p =? 1); cbn [length]; lia).
    specialize (IH (if p =? 0 then 1 else p)). destruct (Z.eqb_spec p 0); [subst; cbn [Z.eqb Pos.eqb] in *; lia|lia]. }
  specialize (SQ (-1)). change (-1 =? 1) with false in SQ. cbv iota in SQ. set (y := squeeze (-1) b) in *.
  assert (KY : Forall (fun x => match x with Id w => ~ In w keywords | _ => True end) y).
  { unfold y. generalize (-1) as p. clear - F. induction F as [|x b (_ & _ & H) _ IH]; intro p; [constructor|]. destruct x; cbn [squeeze]; try apply IH; destruct (p =? 1); cbn [app]; repeat constructor; auto. }
  assert (EX : expand [(n, Some y)] NEST [] [Id n; Ws a; Id n] = Some (y ++ Ws a :: y)).
  { pose proof (expand_macro [(n, Some y)] n y y NK) as H. cbn [lookup] in H. rewrite word_refl in H. specialize (H eq_refl (expand_hidden n y 9 y KY)).
    rewrite !SppGet.expand_cons, SppGet.expand_nil, H. cbn [SppGet.expand1 oapp]. rewrite app_nil_r. reflexivity. }
  replace (y ++ Ws a :: y ++ [Nl]) with ((y ++ Ws a :: y) ++ Nl :: []) by (rewrite <- app_assoc; reflexivity).
  eapply (C42_preprocess W fs i [(n, Some y)] (0 + size (Id n) + sizes b) _ name HW); [|exact S|exact FS].
  eapply MDefine; try reflexivity; auto.
  - revert F. apply Forall_impl. tauto.
  - repeat constructor; cbn [size] in *; unfold TEXT in *; cbn; lia.
  - cbn [lookup]. lia.
  - cbn [lookup update stored fold_right]. fold y. unfold POOL in *. lia.
  - cbn. unfold NAMES. lia.
  - cbn [lookup update]. fold y. apply MLine; [|repeat constructor; cbn [size] in *; unfold TEXT in *; lia|exact EX|constructor].
    repeat constructor; discriminate.
Qed.
Print Assumptions C46_own_name.

(** ** C47 *)
(** What was stored for a name by #define is what the name expands to, after any further definitions and removals of other
    names ([means] determines e: #undef forgets a body, #define of a name without body stores one). *)
Theorem C47_bodies W fs i e u out n b name :
  0 < W -> means W GROUPS [] 0 i e u out -> lookup e n = Some (Some b) -> inert b -> ~ In n keywords -> u + size (Id n) <= TEXT ->
  separated (lexemes (then_lines i [[Id n]])) = true -> fs name = Some (texts (lexemes (then_lines i [[Id n]]))) ->
  exists f0, forall fuel, (f0 <= fuel)%nat -> preprocess W fs fuel name = Ok (emit 0 (out ++ b ++ [Nl])).
Proof.
  intros HW M LK I NK SZ S FS. replace (b ++ [Nl]) with (joined [b]) by (cbn; apply app_nil_r).
  apply (C42_preprocess W fs (then_lines i [[Id n]]) e u _ name HW); [|exact S|exact FS]. apply means_then; auto.
  - repeat constructor. discriminate.
  - repeat constructor. exact SZ.
  - repeat constructor.
    assert (H : expand e 9 [n] b = Some b). { clear - I. induction I as [|y x (_ & _ & H & _) _ IH]; [reflexivity|]. cbn [expand] in *. destruct y; try contradiction; rewrite IH; reflexivity. }
    rewrite SppGet.expand_cons, SppGet.expand_nil, (expand_macro e n b b NK LK H). cbn [oapp]. rewrite app_nil_r. reflexivity.
Qed.
Print Assumptions C47_bodies.
Lemma lookup_update e n b m : lookup (update e n b) m = if word_eq n m then Some b else lookup e m.
Proof.
  induction e as [|[k c] e IH]; cbn [update lookup]; [reflexivity|]. destruct (word_eq k n) eqn:E.
  - apply SppId.word_eq_true in E. subst k. cbn [lookup]. destruct (word_eq n m); reflexivity.
  - cbn [lookup]. rewrite IH. destruct (word_eq k m) eqn:E2; [|reflexivity]. apply SppId.word_eq_true in E2. subst m.
    destruct (word_eq n k) eqn:E3; [|reflexivity]. apply SppId.word_eq_true in E3. subst n. rewrite word_refl in E. discriminate.
Qed.
(** #define and #undef of one name leave the others alone *)
Theorem C47_others W d e u i e' u' out m : means W d e u i e' u' out ->
  (match i with Define _ n _ Done | Undef _ n _ Done => n <> m | Line _ Done => True | _ => False end) -> lookup e' m = lookup e m.
Proof.
  intros M H. destruct M as [| | | | |]; try contradiction; try destruct r; try contradiction.
  - match goal with X : means _ _ _ _ Done _ _ _ |- _ => inversion X; subst end. reflexivity.
  - match goal with X : means _ _ _ _ Done _ _ _ |- _ => inversion X; subst end. apply SppId.word_eq_false in H. destruct (lookup e n) as [[?|]|]; rewrite ?lookup_update, ?H; reflexivity.
  - match goal with X : means _ _ _ _ Done _ _ _ |- _ => inversion X; subst end. apply SppId.word_eq_false in H. destruct (lookup e n) as [[?|]|]; rewrite ?lookup_update, ?H; reflexivity.
Qed.
Print Assumptions C47_others.
(** Removing a name twice ties the free list to a ring: new bodies are then stored over old ones, where
    the same definitions are otherwise rejected for lack of space ... *)
Fixpoint times (n : nat) (c : string) : string := match n with O => ""%string | S n => (c ++ times n c)%string end.
Definition two_bodies : list string := ["#define B " ++ times 100 "+"; "#define C " ++ times 100 "-"; "B"]%string.
Theorem C47_refuted : exists f,
  preprocess 32 (only [97] (prog (["#define A x"; "#undef A"; "#undef A"]%string ++ two_bodies))) f [97] = Ok (bytes (times 72 "-")) /\
  preprocess 32 (only [97] (prog (["#define A x"; "#undef A"]%string ++ two_bodies))) f [97] = Fatal.
Proof. exists 1000%nat. vm_compute. auto. Qed.
Print Assumptions C47_refuted.
(** ... and a third removal never ends: the loop that looks for the end of the list has none to find *)
Definition ring : st :=
  match SccState.bind (add_ids builtin_names) (fun _ => PPMain 32 (only [97] []) 1000) (st0 [97] (prog ["#define A x"; "#undef A"; "#undef A"; ""]%string)) with
  | Ok (_, s) => s
  | _ => st0 [] []
  end.
Theorem C47_ring_refuted :
  m_repl (aget (macs ring) 0) = 0 /\ forall fuel p v, 0 <= p < 128 -> free_loop fuel p v ring = OutOfFuel.
Proof.
  split; [vm_compute; reflexivity|]. assert (F : forallb (fun p => (0 <=? e_next (aget (pool ring) p)) && (e_next (aget (pool ring) p) <? 128)) (upto 128) = true) by (vm_compute; reflexivity).
  rewrite forallb_forall in F. induction fuel as [|fuel IH]; intros p v H; [reflexivity|]. cbn [free_loop]. unfold SccState.bind, SccState.gets.
  specialize (F p (in_upto 128 p H)). remember (e_next (aget (pool ring) p)) as q. destruct (Z.eqb_spec q (-1)); [lia|]. apply IH. lia.
Qed.
Print Assumptions C47_ring_refuted.

(** ** C60 *)
(** the output, read again, consists of the lexemes that were put out, provided that neighbouring ones do not run together *)
Definition solid (x : lexeme) : bool := negb (is_ws x) && negb (is_nl x).
(** two lexemes next to each other in the output *)
Definition apart (x y : lexeme) : Prop := ends_before x (hd 0 (text y)) = true.
(** [l] with p as in [emit] and x the last solid lexeme put out, if any *)
Fixpoint readable (p : Z) (last : option lexeme) (l : list lexeme) : Prop :=
  match l with
  | [] => True
  | Ws _ :: r => readable (Z.max p 1) last r
  | Nl :: r => readable 2 last r
  | x :: r => wf_lexeme x = true /\ (p = 0 -> match last with Some y => apart y x | None => True end) /\ readable 0 (Some x) r
  end.
Fixpoint reread (p : Z) (l : list lexeme) : list lexeme :=
  match l with
  | [] => []
  | Ws _ :: r => reread (Z.max p 1) r
  | Nl :: r => reread 2 r
  | x :: r => (if p =? 0 then [] else if p =? 1 then [Ws [32]] else [Ws [13]; Nl]) ++ x :: reread 0 r
  end.
Lemma reread_text l : forall p, 0 <= p <= 2 -> texts (reread p l) = emit p l.
Proof.
  induction l as [|x l IH]; intros p H; [reflexivity|]. assert (G : texts ((if p =? 0 then [] else if p =? 1 then [Ws [32]] else [Ws [13]; Nl]) ++ x :: reread 0 l) = separator p ++ text x ++ emit 0 l).
  { unfold separator. unfold texts. rewrite map_app, concat_app. f_equal; [destruct (p =? 0), (p =? 1); reflexivity|]. cbn [map List.concat]. f_equal. apply (IH 0). lia. }
  destruct x; cbn [reread emit]; try exact G; apply IH; lia.
Qed.
Lemma reread_solid l : forall p, filter solid (reread p l) = filter solid l.
Proof.
  induction l as [|x l IH]; intro p; [reflexivity|].
  destruct x; cbn [reread]; rewrite ?filter_app; cbn [filter solid is_ws is_nl negb andb]; rewrite ?IH; try reflexivity; destruct (p =? 0), (p =? 1); reflexivity.
Qed.
Lemma text_first x r : wf_lexeme x = true -> hd 0 (text x ++ r) = hd 0 (text x).
Proof. intro H. destruct (SppWorld.text_head x [] H) as (c & t & E & _). rewrite app_nil_r in E. rewrite E. reflexivity. Qed.
Lemma solid_blank x c : solid x = true -> blank c = true \/ c = 0 -> ends_before x c = true.
Proof.
  intros S B. assert (NW : wordchar c = false) by (destruct B as [B| ->]; [|reflexivity]; unfold blank in B; unfold wordchar, digit, letter; lia).
  destruct x as [a| |w|w|q w|w]; try discriminate; try reflexivity; cbn [ends_before]; rewrite ?NW; try reflexivity. destruct w as [|o [|]]; try reflexivity.
  destruct (in_dec _ _ _) as [I|I]; [|destruct B as [B| ->]; [unfold blank in B|]; lia]. exfalso.
  assert (F : forallb (fun w => match w with [_; c] => negb (blank c) && negb (c =? 0) | _ => true end) doubles = true) by reflexivity.
  rewrite forallb_forall in F. specialize (F _ I). cbn beta iota in F. destruct B as [B| ->]; [rewrite B in F|]; discriminate.
Qed.
Lemma solid_start x : solid x = true -> wf_lexeme x = true -> blank (hd 0 (text x)) = false.
Proof.
  destruct x as [a| |w|w|q w|w]; try discriminate; intros _ W; cbn [text wf_lexeme] in *.
  - destruct w as [|c w]; [discriminate|]. cbn [hd]. unfold letter in W. unfold blank. lia.
  - destruct w as [|c w]; [discriminate|]. cbn [hd]. unfold digit in W. unfold blank. lia.
  - cbn [hd]. unfold blank. lia.
  - destruct (SppLex.doubles_not_single _ W) as [(c & -> & _)|I].
    + assert (F : forallb (fun c => negb (blank c)) singles = true) by reflexivity. rewrite forallb_forall in F. cbn [wf_lexeme] in W. apply existsb_exists in W. destruct W as (d & D & E).
      apply Z.eqb_eq in E. subst d. apply negb_true_iff. apply F, D.
    + assert (F : forallb (fun w => negb (blank (hd 0 w))) doubles = true) by reflexivity. rewrite forallb_forall in F. apply negb_true_iff. apply F, I.
Qed.
Lemma reread_separated l : forall p last, 0 <= p <= 2 -> readable p last l ->
  separated (reread p l) = true /\ match last with Some y => solid y = true -> ends_before y (hd 0 (texts (reread p l))) = true | None => True end.
Proof.
  induction l as [|x l IH]; intros p last P R.
  - split; [reflexivity|]. destruct last as [y|]; [|exact I]. intro S. apply solid_blank; auto.
  - assert (G : solid x = true -> wf_lexeme x = true /\ (p = 0 -> match last with Some y => apart y x | None => True end) /\ readable 0 (Some x) l ->
      let rr := (if p =? 0 then [] else if p =? 1 then [Ws [32]] else [Ws [13]; Nl]) ++ x :: reread 0 l in
      separated rr = true /\ match last with Some y => solid y = true -> ends_before y (hd 0 (texts rr)) = true | None => True end).
    { intros SX (W & A & R'). destruct (IH 0 (Some x) ltac:(lia) R') as (I1 & I2). specialize (I2 SX). 
      assert (SEP : separated (x :: reread 0 l) = true) by (cbn [separated]; rewrite W, I1, I2; reflexivity).
      assert (HD : hd 0 (texts (x :: reread 0 l)) = hd 0 (text x)) by (rewrite SppWorld.texts_cons; apply text_first, W).
      cbv zeta. destruct (Z.eqb_spec p 0) as [->|N0]; [|destruct (Z.eqb_spec p 1) as [->|N1]]; cbn [app].
      - split; [exact SEP|]. rewrite HD. destruct last; [|exact I]. intros _. apply A. reflexivity.
      - split.
        + remember (x :: reread 0 l) as rr. cbn [separated]. rewrite SEP, HD, andb_true_r. cbn [ends_before wf_lexeme length Nat.eqb negb forallb andb].
          change (blank 32) with true. cbn [andb]. apply negb_true_iff. apply solid_start; auto.
        + destruct last as [y|]; [|exact I]. intro SY. apply solid_blank; auto.
      - split.
        + remember (x :: reread 0 l) as rr. cbn [separated]. rewrite SEP. reflexivity.
        + destruct last as [y|]; [|exact I]. intro SY. apply solid_blank; auto. }
    destruct x as [a| |w|w|q w|w]; cbn [reread readable] in *; try (apply G; [reflexivity|exact R]).
    + destruct (IH (Z.max p 1) last ltac:(lia) R) as (I1 & I2). auto.
    + destruct (IH 2 last ltac:(lia) R) as (I1 & I2). auto.
Qed.
Theorem C60_reread l : readable 0 None l -> exists l', texts l' = emit 0 l /\ separated l' = true /\ filter solid l' = filter solid l.
Proof.
  intro R. exists (reread 0 l). split; [apply reread_text; lia|]. split; [|apply reread_solid]. apply (reread_separated l 0 None); [lia|exact R].
Qed.
Theorem C60_output W fs i e u out name :
  0 < W -> means W GROUPS [] 0 i e u out -> readable 0 None out -> separated (lexemes i) = true -> fs name = Some (texts (lexemes i)) ->
  exists f0 l', separated l' = true /\ filter solid l' = filter solid out /\
    forall fuel, (f0 <= fuel)%nat -> preprocess W fs fuel name = Ok (texts l').
Proof.
  intros HW M R S FS. destruct (C60_reread out R) as (l' & E1 & E2 & E3). destruct (C42_preprocess W fs i e u out name HW M S FS) as (f0 & H).
  exists f0, l'. split; [exact E2|]. split; [exact E3|]. rewrite E1. exact H.
Qed.
Print Assumptions C60_output.
(** without that condition it is false: two lexemes may become one *)
Theorem C60_refuted : exists f,
  preprocess 32 (only [97] (prog ["#define E"; "a =E= b"]%string)) f [97] = Ok (bytes "a == b") /\
  preprocess 32 (only [97] (prog ["#define N =1"; "x =N"]%string)) f [97] = Ok (bytes "x ==1") /\
  preprocess 32 (only [97] (prog ["int/**/x;"]%string)) f [97] = Ok (bytes "intx;").
Proof. exists 1000%nat. vm_compute. auto. Qed.
Print Assumptions C60_refuted.

(** ** Examples: files that meet the hypotheses *)
Ltac fits := repeat (apply Forall_cons; [vm_compute; discriminate|]); apply Forall_nil.
Ltac all_ok := repeat (apply Forall_cons; [try split; first [reflexivity|discriminate|tauto]|]); apply Forall_nil.
Ltac notin := let H := fresh in intro H; vm_compute in H; repeat (destruct H as [H|H]; [discriminate H|]); exact H.
Ltac cond x ts := exists ts, x; split; [vm_compute; reflexivity|]; split; [reflexivity|]; split; [vm_compute; reflexivity|vm_compute; reflexivity].
Definition i_ (s : string) := Id (bytes s).
Definition n_ (s : string) := Num (bytes s).
Definition o_ (s : string) := Op (bytes s).
Definition sp := Ws [32].
Definition sample : items :=
  Define [32] (bytes "A") [sp; n_ "3"]
 (Group (OIfdef [32] (bytes "A") [])
    (Group (OIf [sp; i_ "A"; o_ "*"; n_ "2"; sp; o_ "=="; sp; n_ "6"; sp; o_ "&&"; sp; o_ "!"; i_ "defined"; o_ "("; i_ "B"; o_ ")"])
       (Line [i_ "x"; sp; i_ "A"; Ws [32; 32]; i_ "y"] (Line [] (Line [n_ "1"] Done)))
       (Elif [sp; n_ "1"] (Line [i_ "p"] Done) (Else [] (Line [i_ "q"] Done) []))
       Done)
    (Endif [])
 (Undef [32] (bytes "A") []
 (Group (OIfndef [32] (bytes "A") []) (Line [i_ "A"] Done) (Endif []) Done))).
Definition sample_text : list string :=
  ["#define A 3"; "#ifdef A"; "#if A*2 == 6 && !defined(B)"; "x A  y"; ""; "1"; "#elif 1"; "p"; "#else"; "q"; "#endif"; "#endif"; "#undef A"; "#ifndef A"; "A"; "#endif"]%string.
Example C42_example :
  texts (lexemes sample) = prog sample_text /\ separated (lexemes sample) = true /\
  exists e u out, means 32 GROUPS [] 0 sample e u out /\ emit 0 out = bytes "x 3 y" ++ [13; 10; 49; 13; 10; 65].
Proof.
  split; [vm_compute; reflexivity|]. split; [vm_compute; reflexivity|]. eexists _, _, _. split.
  - unfold sample, GROUPS. eapply MDefine; try reflexivity; try (vm_compute; discriminate); [all_ok|right; eexists _, _; reflexivity|notin|fits|].
    eapply MTrue; [split; [fits|apply Forall_nil]|reflexivity| | |].
    + eapply MTrue; [split; [fits|all_ok]| | | |apply MDone].
      * exists 1. split; [|reflexivity].
        cond (XBin LAnd (XBin Eq (XBin Mul (XNum (bytes "3")) (XNum (bytes "2"))) (XNum (bytes "6"))) (XNot (XDef false)))
             [EL sp; EL (n_ "3"); EL (o_ "*"); EL (n_ "2"); EL sp; EL (o_ "=="); EL sp; EL (n_ "6"); EL sp; EL (o_ "&&"); EL sp; EL (o_ "!"); ED false].
      * eapply MLine; [all_ok|fits|vm_compute; reflexivity|]. eapply MLine; [all_ok|fits|vm_compute; reflexivity|]. eapply MLine; [all_ok|fits|vm_compute; reflexivity|]. apply MDone.
      * apply SElif; [all_ok|fits| |].
        -- eapply SLine; [all_ok|fits|vm_compute; reflexivity|apply SDone].
        -- apply SElse; [all_ok|all_ok|fits|fits|]. eapply SLine; [all_ok|fits|vm_compute; reflexivity|apply SDone].
    + apply SEndif; [apply Forall_nil|fits].
    + eapply MUndef; try reflexivity; try (vm_compute; discriminate); [all_ok|fits|notin|].
      eapply MTrue; [split; [fits|apply Forall_nil]|reflexivity| | |apply MDone].
      * eapply MLine; [all_ok|fits|vm_compute; reflexivity|]. apply MDone.
      * apply SEndif; [apply Forall_nil|fits].
  - vm_compute. reflexivity.
Qed.
Example C42_first_true_example :
  Forall (entry_ok 32) [([sp; n_ "0"], 0, [[n_ "1"]]); ([sp; n_ "7"], 7, [[n_ "2"]]); ([sp; n_ "1"], 1, [[n_ "3"]])] /\ Forall inert [[n_ "4"]] /\
  emit 0 (first_true (map entry_out [([sp; n_ "0"], 0, [[n_ "1"]]); ([sp; n_ "7"], 7, [[n_ "2"]]); ([sp; n_ "1"], 1, [[n_ "3"]])]) (joined [[n_ "4"]])) = bytes "2".
Proof.
  assert (IN : forall s, s = "1"%string \/ s = "2"%string \/ s = "3"%string \/ s = "4"%string -> Forall inert [[n_ s]]).
  { intros s H. repeat constructor; try discriminate. destruct H as [-> | [-> | [-> | ->]]]; vm_compute; discriminate. }
  split; [|split; [apply IN; auto|reflexivity]]. repeat apply Forall_cons; try apply Forall_nil; (split; [|apply IN; auto]; split; [|split; [all_ok|fits]]).
  - cond (XNum (bytes "0")) [EL sp; EL (n_ "0")].
  - cond (XNum (bytes "7")) [EL sp; EL (n_ "7")].
  - cond (XNum (bytes "1")) [EL sp; EL (n_ "1")].
Qed.
(** 7 - 2 * 3 == 1 ? 0x10 / 3 : 9, evaluated with 16-bit integers *)
Example C43_example : condition_ok 16
  [sp; n_ "7"; o_ "-"; n_ "2"; o_ "*"; n_ "3"; o_ "=="; n_ "1"; o_ "?"; n_ "0x10"; o_ "/"; n_ "3"; o_ ":"; n_ "9"] 5.
Proof.
  split; [|split; [all_ok|fits]].
  cond (XCond (XBin Eq (XBin Sub (XNum (bytes "7")) (XBin Mul (XNum (bytes "2")) (XNum (bytes "3")))) (XNum (bytes "1")))
          (XBin Div (XNum (bytes "0x10")) (XNum (bytes "3"))) (XNum (bytes "9")))
       (EL sp :: map EL [n_ "7"; o_ "-"; n_ "2"; o_ "*"; n_ "3"; o_ "=="; n_ "1"; o_ "?"; n_ "0x10"; o_ "/"; n_ "3"; o_ ":"; n_ "9"]).
Qed.
Lemma bodies_from e : Forall (fun '(_, b) => match b with Some l => no_special l | None => True end) e -> bodies_ok e.
Proof.
  intros F n b. induction F as [|[m c] e H _ IH]; cbn [lookup]; [discriminate|]. destruct (word_eq m n); [|exact IH]. intros [= ->]. exact H.
Qed.
(** A is B + A, B is A * C, C is C B *)
Definition ring_macros : items :=
  Define [32] (bytes "A") [sp; i_ "B"; o_ "+"; i_ "A"]
 (Define [32] (bytes "B") [sp; i_ "A"; sp; o_ "*"; i_ "C"]
 (Define [32] (bytes "C") [sp; i_ "C"; sp; i_ "B"] Done)).
Example C46_example : exists e u, means 32 GROUPS [] 0 ring_macros e u [] /\ (length e <= 10)%nat /\ bodies_ok e /\ fits u [i_ "A"] /\ no_special [i_ "A"] /\
  exists y, expand e NEST [] [i_ "A"] = Some y /\ emit 0 y = bytes "A *C B+A".
Proof.
  eexists _, _. split; [|split; [|split; [|split; [|split]]]].
  - unfold ring_macros. do 3 (eapply MDefine; try reflexivity; try (vm_compute; discriminate); [all_ok|right; eexists _, _; reflexivity|notin|fits|]). apply MDone.
  - cbn. lia.
  - apply bodies_from. repeat constructor; discriminate.
  - fits.
  - repeat constructor; discriminate.
  - eexists. split; vm_compute; reflexivity.
Qed.
Example C46_own_example : let b := [sp; i_ "f"; o_ "("; i_ "x"; o_ "+"; sp; n_ "1"; o_ ")"] in let n := bytes "x" in
  Forall (fun x => is_nl x = false /\ is_hash x = false /\ match x with Id w => ~ In w keywords | _ => True end) b /\
  separated (lexemes (Define [32] n b (Line [Id n; sp; Id n] Done))) = true /\ emit 0 (squeeze (-1) b) = bytes "f(x+ 1)".
Proof.
  cbv zeta. split; [|split; vm_compute; reflexivity]. repeat (apply Forall_cons; [split; [reflexivity|split; [reflexivity|try exact I; notin]]|]). apply Forall_nil.
Qed.
(** B is defined between the definition and the removal of A, and C after it *)
Definition shuffled : items :=
  Define [32] (bytes "A") [sp; n_ "1"; sp; n_ "2"]
 (Define [32] (bytes "B") [sp; n_ "3"; o_ "-"; n_ "4"]
 (Undef [32] (bytes "A") []
 (Define [32] (bytes "C") [sp; n_ "5"; o_ "*"; n_ "6"; o_ "+"; n_ "7"] Done))).
Example C47_example : exists e u, means 32 GROUPS [] 0 shuffled e u [] /\ lookup e (bytes "B") = Some (Some [n_ "3"; o_ "-"; n_ "4"]) /\
  inert [n_ "3"; o_ "-"; n_ "4"] /\ u + size (i_ "B") <= TEXT /\ separated (lexemes (then_lines shuffled [[i_ "B"]])) = true /\ ~ In (bytes "B") keywords.
Proof.
  eexists _, _. split; [|split; [|split; [|split; [|split]]]].
  - unfold shuffled. do 2 (eapply MDefine; try reflexivity; try (vm_compute; discriminate); [all_ok|right; eexists _, _; reflexivity|notin|fits|]).
    eapply MUndef; try reflexivity; try (vm_compute; discriminate); [all_ok|fits|notin|].
    eapply MDefine; try reflexivity; try (vm_compute; discriminate); [all_ok|right; eexists _, _; reflexivity|notin|fits|]. apply MDone.
  - vm_compute. reflexivity.
  - repeat constructor; try discriminate; vm_compute; discriminate.
  - vm_compute. discriminate.
  - vm_compute. reflexivity.
  - notin.
Qed.
Example C60_example : readable 0 None [i_ "x"; sp; o_ "="; n_ "1"; o_ "+"; Nl; sp; o_ "="; i_ "y"; o_ ";"].
Proof.
  cbn [readable i_ n_ o_ sp]. repeat match goal with |- _ /\ _ => split end; try exact I; try (intro H; discriminate H); try (intros _); try exact I; first [vm_compute; reflexivity|exact I].
Qed.
