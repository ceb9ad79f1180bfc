(** Assembler source text: what its words mean (a specification), and the proof that GetToken
    (sas.c:620-720) reads them that way. *)
From Coq Require Import ZArith List Bool Lia String.
From Verif Require Import Base Sas SasSym.
Import ListNotations.
Open Scope Z_scope.

(** * Specification *)
(** ** Words *)
Inductive tk :=
| KNum (v : Z)            (* a number; its value is not reduced *)
| KWord (id : Z)          (* a built-in name, by its place in the list of names *)
| KPunct (c : Z)          (* + - : , [ ] | ~ *)
| KShl                    (* << *)
| KStr (l : list Z)       (* quoted characters *)
| KName (nm : list Z).    (* any other name; its first 16 characters *)

Definition digit (c : Z) : Prop := 48 <= c <= 57.
Definition letter (c : Z) : Prop := 65 <= c <= 90 \/ 97 <= c <= 122 \/ c = 95 \/ c = 46 \/ c = 36. (* A-Z a-z _ . $ *)
Definition dec_value (l : list Z) : Z := fold_left (fun n c => n * 10 + (c - 48)) l 0.
Definition hex_digit (c : Z) : option Z :=
  if (48 <=? c) && (c <=? 57) then Some (c - 48)
  else if (65 <=? c) && (c <=? 70) then Some (c - 55)
  else if (97 <=? c) && (c <=? 102) then Some (c - 87) else None.
Fixpoint hex_value (n : Z) (l : list Z) : option Z :=
  match l with
  | [] => Some n
  | c :: l => match hex_digit c with Some d => hex_value (n * 16 + d) l | None => None end
  end.
(** the text of a word *)
Inductive spelled : tk -> list Z -> Prop :=
| sp_dec l : l <> [] -> Forall digit l -> spelled (KNum (dec_value l)) l
| sp_hex x l v : x = 120 \/ x = 88 -> hex_value 0 l = Some v -> spelled (KNum v) (48 :: x :: l)
| sp_word id t l : 0 <= id -> nth_error builtin_texts (Z.to_nat id) = Some t -> map upper l = t -> spelled (KWord id) l
| sp_punct c : In c [43; 45; 58; 44; 91; 93; 124; 126] -> spelled (KPunct c) [c]
| sp_shl : spelled KShl [60; 60]
| sp_str l : (List.length l < 128)%nat -> ~ In 39 l -> ~ In 0 l -> spelled (KStr l) (39 :: l ++ [39])
| sp_name c l : letter c -> c <> 46 -> Forall (fun c => digit c \/ letter c) l ->
    ~ In (map upper (firstn 16 (c :: l))) builtin_texts -> spelled (KName (firstn 16 (c :: l))) (c :: l).
(** what must not follow it directly *)
Definition separated (t : tk) (rest : list Z) : Prop :=
  match t with
  | KNum _ | KWord _ | KName _ => ~ digit (hd 0 rest) /\ ~ letter (hd 0 rest)
  | _ => True
  end.
(** ** Blanks: spaces, line ends, control characters, and comments from ; to the end of the line.
       (Characters from 128 on, which are negative, count as blanks.) *)
Inductive blank : list Z -> Prop :=
| bl_nil : blank []
| bl_space c l : c <= 32 -> c <> 0 -> blank l -> blank (c :: l)
| bl_comment b l : ~ In 0 b -> ~ In 10 b -> blank l -> blank (59 :: b ++ 10 :: l)
| bl_last b : ~ In 0 b -> ~ In 10 b -> blank (59 :: b).
(** a comment that is not ended by a line end ends the file *)
Inductive gap : list Z -> Prop :=
| gap_nil : gap []
| gap_space c l : c <= 32 -> c <> 0 -> gap l -> gap (c :: l)
| gap_comment b l : ~ In 0 b -> ~ In 10 b -> gap l -> gap (59 :: b ++ 10 :: l).
(** the whole text of a sequence of words *)
Inductive spells : list tk -> list Z -> Prop :=
| spells_end l : blank l -> spells [] l
| spells_word ws t text ts rest : gap ws -> spelled t text -> separated t rest -> spells ts rest ->
    spells (t :: ts) (ws ++ text ++ rest).

(** * Reading *)
Lemma bind_ok {S A B} (m : M S A) (f : A -> M S B) s a s1 : m s = Ok (a, s1) -> bind m f s = f a s1.
Proof. intro H. unfold SccState.bind. rewrite H. reflexivity. Qed.

Lemma digit_dec c : IsDigit c = true <-> digit c.
Proof. unfold IsDigit, digit. lia. Qed.
Lemma letter_dec c : IsIdChar c = true <-> letter c.
Proof. unfold IsIdChar, IsAlpha, letter. lia. Qed.
Lemma digit_false c : ~ digit c -> IsDigit c = false.
Proof. rewrite <- digit_dec. destruct (IsDigit c); intuition. Qed.
Lemma letter_false c : ~ letter c -> IsIdChar c = false.
Proof. rewrite <- letter_dec. destruct (IsIdChar c); intuition. Qed.

Lemma skip_comment b rest : ~ In 0 b -> ~ In 10 b -> skip true (b ++ 10 :: rest) = skip false rest.
Proof.
  induction b as [|c b IH]; intros N0 N10; cbn [app skip].
  - reflexivity.
  - cbn in N0, N10. rewrite (proj2 (Z.eqb_neq c 0)) by lia. rewrite (proj2 (Z.eqb_neq c 10)) by lia. apply IH; tauto.
Qed.
Lemma skip_last b : ~ In 0 b -> ~ In 10 b -> skip true b = [].
Proof.
  induction b as [|c b IH]; intros N0 N10; cbn [app skip]; [reflexivity|].
  cbn in N0, N10. rewrite (proj2 (Z.eqb_neq c 0)) by lia. rewrite (proj2 (Z.eqb_neq c 10)) by lia. apply IH; tauto.
Qed.
Lemma skip_gap ws rest : gap ws -> skip false (ws ++ rest) = skip false rest.
Proof.
  induction 1 as [|c l L N G IH|b l N0 N10 G IH]; cbn [app skip]; [reflexivity| |].
  - rewrite (proj2 (Z.eqb_neq c 0)) by lia. rewrite (proj2 (Z.leb_le c 32)) by lia. exact IH.
  - change (59 =? 0) with false. change (59 <=? 32) with false. change (59 =? 59) with true. cbn iota.
    rewrite <- app_assoc. cbn [app]. rewrite skip_comment by assumption. exact IH.
Qed.
Lemma skip_blank l : blank l -> skip false l = [].
Proof.
  induction 1 as [|c l L N G IH|b l N0 N10 G IH|b N0 N10]; cbn [app skip]; [reflexivity| | |].
  - rewrite (proj2 (Z.eqb_neq c 0)) by lia. rewrite (proj2 (Z.leb_le c 32)) by lia. exact IH.
  - change (59 =? 0) with false. change (59 <=? 32) with false. change (59 =? 59) with true. cbn iota.
    rewrite skip_comment by assumption. exact IH.
  - change (59 =? 0) with false. change (59 <=? 32) with false. change (59 =? 59) with true. cbn iota.
    apply skip_last; assumption.
Qed.
Lemma skip_stop c l : 32 < c -> c <> 59 -> skip false (c :: l) = c :: l.
Proof.
  intros H N. cbn [skip]. rewrite (proj2 (Z.eqb_neq c 0)) by lia. rewrite (proj2 (Z.leb_gt c 32)) by lia.
  rewrite (proj2 (Z.eqb_neq c 59)) by lia. reflexivity.
Qed.

Section Width.
Variable W : Z.
Hypothesis HW : W = 16 \/ W = 32.

Lemma ci_mod x y : x mod 2 ^ W = y mod 2 ^ W -> ci W x = ci W y.
Proof. unfold ci, ws. intros ->. reflexivity. Qed.
Lemma mod_ci x : ci W x mod 2 ^ W = x mod 2 ^ W.
Proof.
  unfold ci, ws. assert (0 < 2 ^ W) by (destruct HW as [-> | ->]; lia).
  destruct (_ <? _); [apply Z.mod_mod; lia|].
  rewrite Zminus_mod, Z_mod_same_full, Z.sub_0_r, Z.mod_mod, Z.mod_mod by lia. reflexivity.
Qed.
Lemma ci_ci x : ci W (ci W x) = ci W x.
Proof. apply ci_mod, mod_ci. Qed.
Lemma ci_add x y : ci W (ci W x + y) = ci W (x + y).
Proof. apply ci_mod. rewrite Zplus_mod, mod_ci, <- Zplus_mod. reflexivity. Qed.
Lemma ci_add_r x y : ci W (x + ci W y) = ci W (x + y).
Proof. apply ci_mod. rewrite Zplus_mod, mod_ci, <- Zplus_mod. reflexivity. Qed.
Lemma ci_sub x y : ci W (ci W x - y) = ci W (x - y).
Proof. apply ci_mod. rewrite Zminus_mod, mod_ci, <- Zminus_mod. reflexivity. Qed.
Lemma ci_sub_r x y : ci W (x - ci W y) = ci W (x - y).
Proof. apply ci_mod. rewrite Zminus_mod, mod_ci, <- Zminus_mod. reflexivity. Qed.
Lemma ci_mul_add x k y : ci W (ci W x * k + y) = ci W (x * k + y).
Proof. apply ci_mod. rewrite Zplus_mod, Zmult_mod, mod_ci, <- Zmult_mod, <- Zplus_mod. reflexivity. Qed.
Lemma ci_opp x : ci W (- ci W x) = ci W (- x).
Proof. rewrite <- !Z.sub_0_l. apply ci_sub_r. Qed.
Lemma ci_small x : - 32768 <= x < 32768 -> ci W x = x.
Proof.
  intro H. unfold ci, ws. destruct HW as [-> | ->].
  - change (2 ^ 16) with 65536. change (2 ^ (16 - 1)) with 32768. destruct (Z.ltb_spec (x mod 65536) 32768); lia.
  - change (2 ^ 32) with 4294967296. change (2 ^ (32 - 1)) with 2147483648. destruct (Z.ltb_spec (x mod 4294967296) 2147483648); lia.
Qed.
Lemma ci_mod16 x : ci W x mod 65536 = x mod 65536.
Proof.
  pose proof (mod_ci x) as E. destruct HW as [-> | ->]; [exact E|].
  change (2 ^ 32) with 4294967296 in E. lia.
Qed.
Lemma ci_mod8 x : ci W x mod 256 = x mod 256.
Proof. pose proof (ci_mod16 x). lia. Qed.

Lemma dec_digits_spec l : forall n rest, Forall digit l -> ~ digit (hd 0 rest) ->
  dec_digits W (ci W n) (l ++ rest) = (ci W (fold_left (fun n c => n * 10 + (c - 48)) l n), rest).
Proof.
  induction l as [|c l IH]; intros n rest D N; cbn [app].
  - destruct rest as [|r rest]; cbn [dec_digits fold_left]; [reflexivity|]. cbn in N. rewrite digit_false by exact N. reflexivity.
  - inversion D as [|? ? Dc Dl]; subst. cbn [dec_digits]. rewrite (proj2 (digit_dec c) Dc).
    rewrite ci_mul_add, ci_sub. cbn [fold_left]. rewrite <- (IH (n * 10 + (c - 48)) rest Dl N). f_equal. f_equal. lia.
Qed.
Lemma hex_digits_spec l : forall n v rest, hex_value n l = Some v -> ~ digit (hd 0 rest) -> ~ letter (hd 0 rest) ->
  hex_digits W (ci W n) (l ++ rest) = (ci W v, rest).
Proof.
  induction l as [|c l IH]; intros n v rest H ND NL; cbn [app].
  - injection H as <-. destruct rest as [|r rest]; cbn [hex_digits]; [reflexivity|]. cbn in ND, NL.
    unfold digit, letter in *. rewrite digit_false by exact ND.
    destruct ((65 <=? r) && (r <=? 70)) eqn:E1; [lia|]. destruct ((97 <=? r) && (r <=? 102)) eqn:E2; [lia|]. reflexivity.
  - cbn [hex_value] in H. cbn [hex_digits]. unfold hex_digit in H. unfold IsDigit.
    destruct ((48 <=? c) && (c <=? 57)) eqn:E0;
      [|destruct ((65 <=? c) && (c <=? 70)) eqn:E1; [|destruct ((97 <=? c) && (c <=? 102)) eqn:E2; [|discriminate]]];
      rewrite <- (IH _ _ _ H ND NL); f_equal.
    + rewrite <- Z.add_sub_assoc, ci_mul_add. reflexivity.
    + replace (ci W n * 16 + c - 65 + 10) with (ci W n * 16 + (c - 55)) by lia. rewrite ci_mul_add. reflexivity.
    + replace (ci W n * 16 + c - 97 + 10) with (ci W n * 16 + (c - 87)) by lia. rewrite ci_mul_add. reflexivity.
Qed.
Lemma number_dec l rest : l <> [] -> Forall digit l -> ~ digit (hd 0 rest) -> ~ letter (hd 0 rest) ->
  number W (l ++ rest) = (ci W (dec_value l), rest).
Proof.
  intros NE D ND NL. destruct l as [|c l]; [congruence|]. inversion D as [|? ? Dc Dl]; subst.
  unfold number, cur. cbn [app tl]. change (hd 0 (c :: l ++ rest)) with c.
  assert (X : (c - 48 =? 0) && ((hd 0 (l ++ rest) =? 120) || (hd 0 (l ++ rest) =? 88)) = false).
  { apply andb_false_intro2. assert (~ letter (hd 0 (l ++ rest))).
    { destruct l as [|d l]; [exact NL|]. inversion Dl; subst. cbn. unfold digit, letter in *. lia. }
    unfold letter in *. lia. }
  rewrite X. unfold dec_value. cbn [fold_left]. rewrite <- (dec_digits_spec l (0 * 10 + (c - 48)) rest Dl ND). f_equal.
  unfold digit in Dc. rewrite ci_small by lia. lia.
Qed.
Lemma number_hex x l v rest : x = 120 \/ x = 88 -> hex_value 0 l = Some v -> ~ digit (hd 0 rest) -> ~ letter (hd 0 rest) ->
  number W (48 :: x :: l ++ rest) = (ci W v, rest).
Proof.
  intros X H ND NL. unfold number. cbn [cur hd tl]. change (48 - 48) with 0. change (0 =? 0) with true.
  replace ((x =? 120) || (x =? 88)) with true by lia. cbn [andb].
  pose proof (hex_digits_spec l 0 v rest H ND NL) as E. rewrite (ci_small 0) in E by lia. rewrite E.
  destruct rest as [|r rest]; cbn [dec_digits]; [reflexivity|]. rewrite digit_false by exact ND. reflexivity.
Qed.
Lemma id_chars_spec l : forall k rest, Forall (fun c => digit c \/ letter c) l -> ~ digit (hd 0 rest) -> ~ letter (hd 0 rest) ->
  id_chars k (l ++ rest) = (firstn k l, rest).
Proof.
  induction l as [|c l IH]; intros k rest D ND NL; cbn [app].
  - rewrite firstn_nil. destruct rest as [|r rest]; cbn [id_chars]; [reflexivity|].
    cbn [hd] in *. rewrite digit_false, letter_false by assumption. reflexivity.
  - inversion D as [|? ? Dc Dl]; subst. cbn [id_chars].
    assert (E : IsDigit c || IsIdChar c = true).
    { destruct Dc as [X|X]; [rewrite (proj2 (digit_dec c) X)|rewrite (proj2 (letter_dec c) X)]; [reflexivity|apply orb_true_r]. }
    rewrite E, (IH (pred k) rest Dl ND NL). destruct k; reflexivity.
Qed.
Lemma string_chars_spec l : forall n rest, n + Z.of_nat (List.length l) < 128 -> ~ In 39 l -> ~ In 0 l ->
  string_chars n (l ++ 39 :: rest) = Ok (l, rest).
Proof.
  induction l as [|c l IH]; intros n rest L N39 N0; cbn [app string_chars].
  - change (39 =? 39) with true. cbn in L. rewrite (proj2 (Z.ltb_lt n STRING_MAX)) by (unfold STRING_MAX; lia). reflexivity.
  - cbn [In] in *. cbn [List.length] in L. rewrite (proj2 (Z.eqb_neq c 39)) by lia.
    rewrite (proj2 (Z.ltb_lt n STRING_MAX)) by (unfold STRING_MAX; lia).
    rewrite (proj2 (Z.eqb_neq c 0)) by lia. cbn [negb]. rewrite IH; [reflexivity|lia|tauto|tauto].
Qed.

(** ** The state of the assembler between words *)
Definition noequ (s : st) : Prop := forall i, l_type (aget (labels s) i) <> LABEL_EQU.
Record syms (s : st) : Prop := {
  sy_table : table W (names s) (htab s);
  sy_count : (List.length (names s) <= 600)%nat;
  sy_equ : noequ s;
  sy_nodot : Forall (fun nm => cur nm <> 46) (names s) }.
(** the current token of the state is t *)
Definition loaded (s : st) (t : tk) : Prop :=
  match t with
  | KNum v => tok s = 1 /\ num s = ci W v
  | KWord id => 0 <= id < 99 /\ tok s = synonym (id + 256)
  | KPunct c => In c [43; 45; 58; 44; 91; 93; 124; 126] /\ tok s = c
  | KShl => tok s = 128
  | KStr l => tok s = 2 /\ sbuf s = l
  | KName nm => exists i, 99 <= i /\ nth_error (names s) (Z.to_nat i) = Some nm /\ tok s = i + 256
  end.
(** there is room in the symbol table for the names among the words *)
Fixpoint room (ns : list (list Z)) (u : Z) (ts : list tk) : Prop :=
  match ts with
  | [] => True
  | KName nm :: ts => match number_sym ns u nm with Ok (_, ns', u') => room ns' u' ts | _ => False end
  | _ :: ts => room ns u ts
  end.
Definition holds (s : st) (ts : list tk) : Prop :=
  syms s /\ match ts with
            | [] => tok s = 0
            | t :: ts => loaded s t /\ spells ts (inp s) /\ room (names s) (used s) ts
            end.
(** only the reading part of the state has changed *)
Record quiet (s s' : st) : Prop := {
  q_out : out s' = out s;
  q_pos : pos s' = pos s;
  q_va : va s' = va s;
  q_bss : bss s' = bss s;
  q_size : size s' = size s;
  q_free : free s' = free s;
  q_labels : labels s' = labels s;
  q_names : exists x, names s' = names s ++ x }.
Lemma names_same (n : list (list Z)) : exists x, n = n ++ x.
Proof. exists []. symmetry. apply app_nil_r. Qed.
Lemma quiet_refl s : quiet s s.
Proof. split; try reflexivity. apply names_same. Qed.
Lemma quiet_trans a b c : quiet a b -> quiet b c -> quiet a c.
Proof.
  intros [? ? ? ? ? ? ? (x & X)] [? ? ? ? ? ? ? (y & Y)]. split; try congruence.
  exists (x ++ y). rewrite Y, X. symmetry. apply app_assoc.
Qed.

Lemma upper_letter l t : map upper l = t -> Forall (fun c => 65 <= c <= 90) t -> Forall letter l.
Proof.
  intros <- F. rewrite Forall_map in F. eapply Forall_impl; [|exact F]. cbn beta. intros c Hc.
  unfold upper in Hc. destruct ((97 <=? c) && (c <=? 122)) eqn:E; unfold letter; lia.
Qed.
Lemma builtin_letters : Forall (fun t => Forall (fun c => 65 <= c <= 90) t /\ (0 < List.length t <= 16)%nat) builtin_texts.
Proof.
  assert (B : forallb (fun t => forallb (fun c => (65 <=? c) && (c <=? 90)) t && (0 <? Z.of_nat (List.length t)) && (Z.of_nat (List.length t) <=? 16)) builtin_texts = true)
    by (vm_compute; reflexivity).
  rewrite forallb_forall in B. apply Forall_forall. intros t H. specialize (B t H).
  apply andb_prop in B. destruct B as [B B2]. apply andb_prop in B. destruct B as [B B1]. split; [|lia].
  rewrite forallb_forall in B. apply Forall_forall. intros c Hc. specialize (B c Hc). lia.
Qed.
Lemma index_of_builtin id t ns h : table W ns h -> 0 <= id -> nth_error builtin_texts (Z.to_nat id) = Some t ->
  index_of t ns = Some (Z.to_nat id) /\ id < 99.
Proof.
  intros T H0 N. assert (L : (Z.to_nat id < List.length builtin_texts)%nat) by (apply nth_error_Some; congruence).
  change (List.length builtin_texts) with 99%nat in L. split; [|lia].
  assert (N' : nth_error ns (Z.to_nat id) = Some t).
  { rewrite <- (firstn_skipn 99 ns), (t_built _ _ _ T). rewrite nth_error_app1; [exact N|exact L]. }
  destruct (index_of_in t ns (nth_error_In _ _ N')) as [j J]. rewrite J. f_equal.
  apply index_of_some in J. apply (proj1 (NoDup_nth_error ns) (t_nodup _ _ _ T)); [apply nth_error_Some; congruence|congruence].
Qed.

Lemma head_id c : letter c -> (c =? 0) = false /\ IsDigit c = false /\ IsIdChar c = true.
Proof.
  intro L. split; [|split; [|apply letter_dec; exact L]].
  - unfold letter in L. lia.
  - apply digit_false. unfold letter in L. unfold digit. lia.
Qed.

(** reading one name *)
Lemma GetToken_id s c l ws rest : inp s = ws ++ (c :: l) ++ rest -> gap ws -> letter c ->
  Forall (fun c => digit c \/ letter c) l -> ~ digit (hd 0 rest) -> ~ letter (hd 0 rest) ->
  GetToken W s = bind (intern W (firstn 16 (c :: l))) (fun id => TranslateIdToken (id + TOK_ID)) (set_inp s rest).
Proof.
  intros I G L F ND NL. unfold GetToken. unfold SccState.bind at 1, SccState.gets at 1. rewrite I, skip_gap by exact G.
  cbn [app]. rewrite skip_stop by (unfold letter in L; lia). cbn [cur hd tl].
  destruct (head_id c L) as (H1 & H2 & H3). rewrite H1, H2, H3.
  change (c :: l ++ rest) with ((c :: l) ++ rest). rewrite id_chars_spec; [|constructor; [right; exact L|exact F]|exact ND|exact NL].
  unfold intern. unfold SccState.bind, SccState.upd. cbn beta iota. destruct (LookupId W _ _) as [[id s1]| | |]; reflexivity.
Qed.

Ltac mret := unfold SccState.bind, SccState.upd, SccState.gets, SccState.ret; cbn beta iota.

Theorem GetToken_first s ts : syms s -> spells ts (inp s) -> room (names s) (used s) ts ->
  exists s', GetToken W s = Ok (tt, s') /\ holds s' ts /\ quiet s s'.
Proof.
  intros Y Sp Fi. remember (inp s) as l eqn:I. symmetry in I. destruct Sp as [l B|ws t text ts rest G Ht Sep Sp].
  - unfold GetToken. mret. rewrite I, skip_blank by exact B. cbn [cur hd]. change (0 =? 0) with true. cbn iota.
    eexists. split; [reflexivity|]. split; [|split; try reflexivity; apply names_same]. split; [destruct Y; split; assumption|reflexivity].
  - assert (DONE : forall s', GetToken W s = Ok (tt, s') -> syms s' -> loaded s' t -> inp s' = rest -> room (names s') (used s') ts -> quiet s s' ->
       exists s', GetToken W s = Ok (tt, s') /\ holds s' (t :: ts) /\ quiet s s').
    { intros s' E Y' L R RM Q. exists s'. split; [exact E|]. split; [|exact Q]. split; [exact Y'|]. rewrite R. auto. }
    destruct Ht as [l NE D|x l v X H|id t l H0 N U|c C| |l L N39 N0|c l Lc ND46 F NB].
    + destruct Sep as [ND NL]. destruct l as [|c l]; [congruence|]. inversion D as [|? ? Dc Dl]; subst.
      eapply DONE; [|..].
      * unfold GetToken. mret. rewrite I, skip_gap by exact G. cbn [app]. unfold digit in Dc. rewrite skip_stop by lia. cbn [cur hd].
        rewrite (proj2 (Z.eqb_neq c 0)) by lia. rewrite (proj2 (digit_dec c)) by exact Dc.
        change (c :: l ++ rest) with ((c :: l) ++ rest). rewrite number_dec by assumption. reflexivity.
      * destruct Y; split; assumption.
      * split; reflexivity.
      * reflexivity.
      * exact Fi.
      * split; try reflexivity. apply names_same.
    + destruct Sep as [ND NL]. eapply DONE; [|..].
      * unfold GetToken. mret. rewrite I, skip_gap by exact G. cbn [app]. rewrite skip_stop by lia. cbn [cur hd].
        change (48 =? 0) with false. change (IsDigit 48) with true. cbn iota. rewrite (number_hex x l v) by assumption. reflexivity.
      * destruct Y; split; assumption.
      * split; reflexivity.
      * reflexivity.
      * exact Fi.
      * split; try reflexivity. apply names_same.
    + destruct Sep as [ND NL]. pose proof builtin_letters as BL. rewrite Forall_forall in BL.
      destruct (BL t (nth_error_In _ _ N)) as [FL LN].
      pose proof (upper_letter l t U FL) as LL.
      assert (LL2 : List.length l = List.length t) by (rewrite <- U, map_length; reflexivity).
      destruct l as [|c l]; [cbn in LL2; lia|]. inversion LL as [|? ? Lc Ll]; subst.
      assert (F : Forall (fun c => digit c \/ letter c) l) by (eapply Forall_impl; [|exact Ll]; cbn; auto).
      pose proof (GetToken_id s c l ws rest I G Lc F ND NL) as E.
      rewrite firstn_all2 in E by lia.
      destruct (index_of_builtin id (map upper (c :: l)) (names s) (htab s) (sy_table _ Y) H0 N) as [IX Lt].
      assert (CN : canonical (c :: l) = map upper (c :: l)).
      { unfold canonical. destruct (in_dec _ _ _) as [|NI]; [reflexivity|]. exfalso. apply NI. eapply nth_error_In, N. }
      pose proof (intern_spec W (c :: l) (set_inp s rest) (sy_table _ Y) (sy_count _ Y)) as IS.
      cbn [names used set_inp] in IS. unfold number_sym in IS. rewrite CN, IX in IS. destruct IS as (h' & E2 & T2 & L2).
      rewrite (bind_ok _ _ _ _ _ E2) in E. rewrite Z2Nat.id in E by lia. unfold TranslateIdToken in E.
      rewrite (proj2 (Z.leb_gt TOK_USER_ID (id + TOK_ID))) in E by (unfold TOK_USER_ID, TOK_ID; lia).
      eapply DONE; [exact E|..].
      * destruct Y as [Y1 Y2 Y3 Y4]. split; [exact T2|exact L2|exact Y3|exact Y4].
      * split; [lia|reflexivity].
      * reflexivity.
      * exact Fi.
      * split; try reflexivity. apply names_same.
    + eapply DONE; [|..].
      * unfold GetToken. mret. rewrite I, skip_gap by exact G. cbn [app]. rewrite skip_stop by (cbn in C; lia). cbn [cur hd].
        replace (c =? 0) with false by (cbn in C; lia). replace (IsDigit c) with false by (cbn in C; unfold IsDigit; lia).
        replace (IsIdChar c) with false by (cbn in C; unfold IsIdChar, IsAlpha; lia).
        replace (c =? 39) with false by (cbn in C; lia).
        rewrite (proj2 (existsb_exists (Z.eqb c) _)) by (exists c; split; [exact C|apply Z.eqb_refl]). reflexivity.
      * destruct Y; split; assumption.
      * split; [exact C|reflexivity].
      * reflexivity.
      * exact Fi.
      * split; try reflexivity. apply names_same.
    + eapply DONE; [|..].
      * unfold GetToken. mret. rewrite I, skip_gap by exact G. cbn [app]. rewrite skip_stop by lia. reflexivity.
      * destruct Y; split; assumption.
      * reflexivity.
      * reflexivity.
      * exact Fi.
      * split; try reflexivity. apply names_same.
    + eapply DONE; [|..].
      * unfold GetToken. mret. rewrite I, skip_gap by exact G. cbn [app]. rewrite skip_stop by lia. cbn [cur hd].
        change (39 =? 0) with false. change (IsDigit 39) with false. change (IsIdChar 39) with false. change (39 =? 39) with true. cbn iota.
        cbn [tl]. rewrite <- app_assoc. cbn [app]. rewrite string_chars_spec; [|lia|assumption|assumption]. reflexivity.
      * destruct Y; split; assumption.
      * split; reflexivity.
      * reflexivity.
      * exact Fi.
      * split; try reflexivity. apply names_same.
    + destruct Sep as [ND NL]. pose proof (GetToken_id s c l ws rest I G Lc F ND NL) as E.
      set (nm := firstn 16 (c :: l)) in *.
      pose proof (intern_spec W nm (set_inp s rest) (sy_table _ Y) (sy_count _ Y)) as IS.
      cbn [names used set_inp] in IS. cbn [room] in Fi.
      assert (CN : canonical nm = nm) by (unfold canonical; destruct (in_dec _ _ _); [contradiction|reflexivity]).
      destruct (number_sym (names s) (used s) nm) as [[[i ns'] used']| | |] eqn:NS; try tauto.
      destruct IS as (h' & E2 & T2 & L2). rewrite (bind_ok _ _ _ _ _ E2) in E.
      assert (IN : 99 <= i /\ nth_error ns' (Z.to_nat i) = Some nm).
      { unfold number_sym in NS. rewrite CN in NS. pose proof (table_99 _ _ _ (sy_table _ Y)).
        destruct (index_of nm (names s)) as [j|] eqn:IX.
        - injection NS as <- <- <-. apply index_of_some in IX. rewrite Nat2Z.id. split; [|exact IX].
          destruct (Nat.lt_ge_cases j 99) as [Lt|]; [exfalso|lia]. apply NB.
          pose proof builtins_upper as BU. rewrite Forall_forall in BU.
          assert (IB : In nm builtin_texts).
          { rewrite <- (t_built _ _ _ (sy_table _ Y)). apply nth_error_In with j.
            rewrite <- (firstn_skipn 99 (names s)) in IX. rewrite nth_error_app1 in IX; [exact IX|].
            rewrite firstn_length. lia. }
          rewrite (BU nm IB). exact IB.
        - destruct (5000 <? _); [discriminate|]. destruct (600 <=? _); [discriminate|]. injection NS as <- <- <-.
          split; [lia|]. rewrite Nat2Z.id, nth_error_app2, Nat.sub_diag by lia. reflexivity. }
      assert (E' : GetToken W s = Ok (tt, set_tok (set_names (set_inp s rest) ns' used' h') (i + TOK_ID))).
      { rewrite E. unfold TranslateIdToken. rewrite (proj2 (Z.leb_le TOK_USER_ID (i + TOK_ID))) by (unfold TOK_USER_ID, TOK_ID; lia).
        mret. cbn [labels set_names set_inp].
        pose proof (sy_equ _ Y (i + TOK_ID - TOK_USER_ID)) as NQ.
        destruct (l_type (aget (labels s) (i + TOK_ID - TOK_USER_ID))); [reflexivity|contradiction|reflexivity]. }
      eapply DONE; [exact E'|..].
      * destruct Y as [Y1 Y2 Y3 Y4]. split; [exact T2|exact L2|exact Y3|]. cbn [names set_tok set_names set_inp]. unfold number_sym in NS. rewrite CN in NS.
        destruct (index_of nm (names s)); [injection NS as <- <- <-; exact Y4|].
        destruct (5000 <? _); [discriminate|]. destruct (600 <=? _); [discriminate|]. injection NS as <- <- <-.
        apply Forall_app. split; [exact Y4|]. constructor; [exact ND46|constructor].
      * exists i. split; [lia|]. split; [apply IN|reflexivity].
      * reflexivity.
      * exact Fi.
      * split; try reflexivity. cbn [names set_tok set_names set_inp]. unfold number_sym in NS.
        destruct (index_of (canonical nm) (names s)); [injection NS as <- <- <-; apply names_same|].
        destruct (5000 <? _); [discriminate|]. destruct (600 <=? _); [discriminate|]. injection NS as <- <- <-. eauto.
Qed.
Theorem GetToken_holds s t ts : holds s (t :: ts) -> exists s', GetToken W s = Ok (tt, s') /\ holds s' ts /\ quiet s s'.
Proof. intros (Y & L & Sp & R). apply GetToken_first; assumption. Qed.

Lemma syms_same s s' : names s' = names s -> htab s' = htab s -> labels s' = labels s -> syms s -> syms s'.
Proof. intros E1 E2 E3 [Y1 Y2 Y3 Y4]. split; [rewrite E1, E2; exact Y1|rewrite E1; exact Y2|intro i; rewrite E3; apply Y3|rewrite E1; exact Y4]. Qed.
Lemma holds_size s x ts : holds s ts -> holds (set_size s x) ts.
Proof. intros [Y H]. split; [revert Y; apply syms_same; reflexivity|exact H]. Qed.
Lemma holds_out s a b c ts : holds s ts -> holds (set_out s a b c) ts.
Proof. intros [Y H]. split; [revert Y; apply syms_same; reflexivity|exact H]. Qed.
Lemma holds_bss s a ts : holds s ts -> holds (set_bss s a) ts.
Proof. intros [Y H]. split; [revert Y; apply syms_same; reflexivity|exact H]. Qed.
Lemma holds_free s a ts : holds s ts -> holds (set_free s a) ts.
Proof. intros [Y H]. split; [revert Y; apply syms_same; reflexivity|exact H]. Qed.
Lemma holds_labels s ls ts : holds s ts -> (forall i, l_type (aget ls i) <> LABEL_EQU) -> holds (set_labels s ls) ts.
Proof. intros [[Y1 Y2 Y3 Y4] H] E. split; [split; assumption|exact H]. Qed.
End Width.
