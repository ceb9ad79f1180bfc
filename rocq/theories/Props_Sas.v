(** C48-C52: the assembler. *)
From Coq Require Import ZArith List Bool Lia String.
From Verif Require Import Base Sas SasSym SasText SasExpr SasAsm SasInst SasInst5 SasProg.
From Verif Require Spec8086 SasSpec.
From Verif Require SccLex.
Import ListNotations.
Open Scope Z_scope.
Notation length := List.length.
Notation decode := Spec8086.decode.
Notation byte_at := SasSpec.byte_at.
Notation means := SasSpec.means.
Notation listing := SasSpec.listing.
Notation bytes_of := SccLex.bytes_of.

(** ** Reading concrete texts, for the examples *)
Definition is_letter (c : Z) : bool := ((65 <=? c) && (c <=? 90)) || ((97 <=? c) && (c <=? 122)) || (c =? 95) || (c =? 46) || (c =? 36).
Definition is_digit (c : Z) : bool := (48 <=? c) && (c <=? 57).
Definition leq (a b : list Z) : bool := if list_eq_dec Z.eq_dec a b then true else false.
Lemma leq_eq a b : leq a b = true -> a = b.
Proof. unfold leq. destruct (list_eq_dec _ _ _); [auto|discriminate]. Qed.
Definition word_ok (t : tk) (l : list Z) : bool :=
  match t with
  | KNum v => match l with
              | 48 :: 120 :: h => match hex_value 0 h with Some x => x =? v | None => false end
              | c :: r => forallb is_digit (c :: r) && (dec_value l =? v)
              | [] => false end
  | KWord id => (0 <=? id) && match nth_error builtin_texts (Z.to_nat id) with Some t => leq (map upper l) t | None => false end
  | KPunct c => existsb (Z.eqb c) [43; 45; 58; 44; 91; 93; 124; 126] && leq l [c]
  | KShl => leq l [60; 60]
  | KStr s => leq l (39 :: s ++ [39]) && (Z.of_nat (length s) <? 128) && forallb (fun c => negb (c =? 39) && negb (c =? 0)) s
  | KName nm => match l with
                | c :: r => is_letter c && negb (c =? 46) && forallb (fun c => is_digit c || is_letter c) r && leq nm (firstn 16 l)
                            && negb (existsb (leq (map upper nm)) builtin_texts)
                | [] => false end
  end.
Definition apart (t : tk) (rest : list Z) : bool :=
  match t with KNum _ | KWord _ | KName _ => negb (is_digit (hd 0 rest)) && negb (is_letter (hd 0 rest)) | _ => true end.
Definition spaces (l : list Z) : bool := forallb (fun c => (c <=? 32) && negb (c =? 0)) l.
Fixpoint text (l : list (string * tk * string)) (tail : string) : list Z :=
  match l with [] => bytes_of tail | (ws, _, w) :: l => bytes_of ws ++ bytes_of w ++ text l tail end.
Fixpoint reads (l : list (string * tk * string)) (tail : string) : bool :=
  match l with
  | [] => spaces (bytes_of tail)
  | (ws, t, w) :: l => spaces (bytes_of ws) && word_ok t (bytes_of w) && apart t (text l tail) && reads l tail
  end.
Lemma is_letter_ok c : is_letter c = true <-> letter c.
Proof. unfold is_letter, letter. lia. Qed.
Lemma is_digit_ok c : is_digit c = true <-> digit c.
Proof. unfold is_digit, digit. lia. Qed.
Lemma gap_spaces l : spaces l = true -> gap l.
Proof. induction l as [|c l IH]; [constructor|]. cbn [spaces forallb]. intro H. apply andb_prop in H. destruct H as [A B]. apply gap_space; [lia|lia|apply IH, B]. Qed.
Lemma blank_spaces l : spaces l = true -> blank l.
Proof. induction l as [|c l IH]; [constructor|]. cbn [spaces forallb]. intro H. apply andb_prop in H. destruct H as [A B]. apply bl_space; [lia|lia|apply IH, B]. Qed.
Lemma word_spelled t l : word_ok t l = true -> spelled t l.
Proof.
  destruct t as [v|id|c| |s|nm]; cbn [word_ok]; intro H.
  - assert (DEC : forallb is_digit l && (dec_value l =? v) = true -> l <> [] -> spelled (KNum v) l).
    { intros X N. apply andb_prop in X. destruct X as [X Y]. apply Z.eqb_eq in Y. subst v. apply sp_dec; [exact N|].
      rewrite forallb_forall in X. apply Forall_forall. intros c I. apply is_digit_ok, X, I. }
    destruct l as [|c r]; [discriminate|].
    assert (HX : (c = 48 /\ exists h x, r = 120 :: h /\ hex_value 0 h = Some x /\ x = v) \/ forallb is_digit (c :: r) && (dec_value (c :: r) =? v) = true).
    { destruct (Z.eq_dec c 48) as [->|N]; [|right; destruct c as [|[[[[[[]|[]|]|[[]|[]|]|]|[[[]|[]|]|[[]|[]|]|]|]|[[[[]|[]|]|[[]|[]|]|]|[[[]|[]|]|[[]|[]|]|]|]|]|[[[[[]|[]|]|[[]|[]|]|]|[[[]|[]|]|[[]|[]|]|]|]|[[[[]|[]|]|[[]|[]|]|]|[[[]|[]|]|[[]|[]|]|]|]|]|]|]; try exact H; exfalso; apply N; reflexivity].
      destruct r as [|d r]; [right; exact H|]. destruct (Z.eq_dec d 120) as [->|N].
      - left. split; [reflexivity|]. destruct (hex_value 0 r) as [x|] eqn:E; [|discriminate]. exists r, x. split; [reflexivity|]. split; [exact E|lia].
      - right. clear DEC. revert H. generalize (forallb is_digit (48 :: d :: r) && (dec_value (48 :: d :: r) =? v)). intros b H.
        destruct d as [|p|p]; try exact H. do 7 (destruct p as [p|p|]; try exact H). exfalso. apply N. reflexivity. }
    destruct HX as [(-> & h & x & -> & E & ->)|X]; [apply sp_hex; auto|]. apply DEC; [exact X|discriminate].
  - apply andb_prop in H. destruct H as [A B]. destruct (nth_error _ _) as [t|] eqn:E; [|discriminate]. apply leq_eq in B. eapply sp_word; [lia|exact E|exact B].
  - apply andb_prop in H. destruct H as [A B]. apply leq_eq in B. subst l. apply sp_punct. apply existsb_exists in A. destruct A as (x & X & Y). apply Z.eqb_eq in Y. subst x. exact X.
  - apply leq_eq in H. subst l. apply sp_shl.
  - apply andb_prop in H. destruct H as [H C]. apply andb_prop in H. destruct H as [A B]. apply leq_eq in A. subst l. rewrite forallb_forall in C.
    apply sp_str; [lia| |]; intro I; specialize (C _ I); discriminate.
  - destruct l as [|c r]; [discriminate|]. apply andb_prop in H. destruct H as [H E]. apply andb_prop in H. destruct H as [H D]. apply andb_prop in H. destruct H as [H C]. apply andb_prop in H. destruct H as [A B].
    apply leq_eq in D. subst nm. apply sp_name; [apply is_letter_ok, A|lia| |].
    + rewrite forallb_forall in C. apply Forall_forall. intros x I. specialize (C x I). apply orb_prop in C. destruct C as [C|C]; [left; apply is_digit_ok, C|right; apply is_letter_ok, C].
    + intro I. apply negb_true_iff in E. rewrite <- not_true_iff_false in E. apply E. apply existsb_exists. exists (map upper (firstn 16 (c :: r))). split; [exact I|].
      unfold leq. destruct (list_eq_dec _ _ _); congruence.
Qed.
Lemma reads_ok l tail : reads l tail = true -> spells (map (fun x => snd (fst x)) l) (text l tail).
Proof.
  induction l as [|[[ws t] w] l IH]; cbn [reads text map fst snd]; intro H.
  - apply spells_end, blank_spaces, H.
  - apply andb_prop in H. destruct H as [H D]. apply andb_prop in H. destruct H as [H C]. apply andb_prop in H. destruct H as [A B].
    apply spells_word; [apply gap_spaces, A|apply word_spelled, B| |apply IH, D].
    destruct t; cbn [apart separated] in *; try exact I; apply andb_prop in C; destruct C as [C1 C2]; split; intro X;
      (apply is_digit_ok in X || apply is_letter_ok in X); rewrite X in *; discriminate.
Qed.

(** ** Programs within the assembler's limits *)
Definition labels_of (p : list SasSpec.item) : list (list Z) := flat_map (fun x => match x with SasSpec.ILabel nm => [nm] | _ => [] end) p.
(** the most an item can take: bytes, and references to later labels *)
Definition most_bytes (p : list SasSpec.item) : Z :=
  fold_right (fun x n => match x with SasSpec.ILabel _ => 0 | SasSpec.IInst _ => 7 | SasSpec.IBytes l => Z.of_nat (length l) | SasSpec.IWord _ => 2 end + n) 0 p.
Definition most_refs (p : list SasSpec.item) : Z := fold_right (fun x n => match x with SasSpec.IInst _ => 2 | _ => 0 end + n) 0 p.
Definition origin_toks (org : option Z) : list tk := match org with Some v => [SasSpec.wd "ORG"; KNum v] | None => [] end.
Definition start (org : option Z) : Z := match org with Some v => v | None => 0 end.
Record program (W : Z) (org : option Z) (p : list SasSpec.item) : Prop := {
  p_inst : forall i, In (SasSpec.IInst i) p -> exists env next ins, means W env next i ins;
  p_labels : NoDup (labels_of p);
  p_start : 0 <= start org;
  p_size : most_bytes p <= 19992;
  p_end : start org + most_bytes p < 32000;
  p_refs : most_refs p <= 598;
  p_names : exists L, (forall nm, In (KName nm) (flat_map SasSpec.item_toks p) -> In nm L) /\ Z.of_nat (length L) <= 501 /\
      fold_right (fun nm n => Z.of_nat (length nm) + 1 + n) 0 L <= 4610 }.
Theorem C48_program W org p file : W = 16 \/ W = 32 -> program W org p ->
  spells (origin_toks org ++ flat_map SasSpec.item_toks p) (map s8 file) ->
  exists n, forall fuel, (n <= fuel)%nat -> exists env bs, assemble W fuel file = Ok bs /\ listing W env (start org) p bs /\
    forall nm, ~ In nm (labels_of p) -> env nm = 0.
Proof.
  intros HW [P1 P2 P3 P4 P5 P6 (L & N1 & N2 & N3)] SP. exists (need_all p). intros fuel F.
  apply (program_ok W HW org p file L fuel SP N1); [lia|exact N3| |exact P2| |exact F].
  - apply Forall_forall. intros x I. destruct x; try exact Logic.I. cbn [item_good]. exact (P1 _ I).
  - unfold fits_in. change (total item_max p) with (most_bytes p). change (total item_refs p) with (most_refs p). change (origin org) with (start org). cbn [rlen cfix length]. lia.
Qed.
Print Assumptions C48_program.
(** one instruction *)
Theorem C48_instruction W i file : W = 16 \/ W = 32 -> (exists env next ins, means W env next i ins) -> spells (SasSpec.toks i) (map s8 file) ->
  exists n, forall fuel, (n <= fuel)%nat -> exists bs ins env, assemble W fuel file = Ok bs /\ decode (byte_at bs) = Some (ins, Z.of_nat (length bs)) /\
    means W env (Z.of_nat (length bs)) i ins /\ forall nm, env nm = 0.
Proof.
  intros HW M SP.
  assert (NL : exists L, (forall nm, In (KName nm) (SasSpec.toks i) -> In nm L) /\ (length L <= 2)%nat /\ Forall (fun nm => (length nm <= 16)%nat) L).
  { assert (LEN : forall nm, In (KName nm) (SasSpec.toks i) -> (length nm <= 16)%nat).
    { clear M. remember (SasSpec.toks i) as ts eqn:E. clear E. induction SP as [|ws t text0 ts rest G Ht Sep Sp IH]; intros nm I; [destruct I|].
      destruct I as [->|I]; [|apply IH, I]. clear - Ht. remember (KName nm) as t eqn:E. destruct Ht; try discriminate. injection E as <-. pose proof (firstn_le_length 16 (c :: l)). exact H3. }
    set (names := fun ts => flat_map (fun t => match t with KName nm => [nm] | _ => [] end) ts : list (list Z)).
    assert (IN : forall ts nm, In (KName nm) ts <-> In nm (names ts)).
    { intros ts nm. unfold names. rewrite in_flat_map. split.
      - intro I. exists (KName nm). split; [exact I|left; reflexivity].
      - intros (t & I & J). destruct t; cbn in J; try tauto. destruct J as [->|[]]. exact I. }
    exists (names (SasSpec.toks i)). split; [intros nm I; apply IN, I|]. split.
    2: { apply Forall_forall. intros nm I. apply LEN, IN, I. }
    assert (APP : forall a b, length (names (a ++ b)) = (length (names a) + length (names b))%nat) by (intros; unfold names; rewrite flat_map_app, app_length; reflexivity).
    assert (WD : forall n l, names (SasSpec.wd n :: l) = names l) by reflexivity.
    assert (UT : forall u, names (utoks u) = []) by (induction u; cbn; auto).
    assert (APN : forall a b, names (a ++ b) = names a ++ names b) by (intros; apply flat_map_app).
    assert (ST : forall l, names (sumtail l) = []). { induction l as [|[m u] l IH]; [reflexivity|]. unfold sumtail in *. cbn [flat_map]. rewrite APN, IH. destruct m; cbn; rewrite UT; reflexivity. }
    assert (SU : forall x, names (sumtoks x) = []) by (intro x; unfold sumtoks; rewrite APN, UT, ST; reflexivity).
    assert (SHT : forall l, names (shtail l) = []). { induction l as [|x l IH]; [reflexivity|]. unfold shtail in *. cbn [flat_map]. rewrite APN, IH. cbn. rewrite SU. reflexivity. }
    assert (SH : forall x, names (shtoks x) = []) by (intro x; unfold shtoks; rewrite APN, SU, SHT; reflexivity).
    assert (ORT : forall l, names (ortail l) = []). { induction l as [|x l IH]; [reflexivity|]. unfold ortail in *. cbn [flat_map]. rewrite APN, IH. cbn. rewrite SH. reflexivity. }
    assert (ET : forall e, names (etoks e) = []) by (intro e; unfold etoks; rewrite APN, SH, ORT; reflexivity).
    assert (VT : forall v, (length (names (SasSpec.value_toks v)) <= 1)%nat) by (intros [e|nm]; cbn; [rewrite ET|]; cbn; lia).
    assert (AT : forall m, (length (names (SasSpec.addr_toks m)) <= 1)%nat).
    { intros [sz es b l d]. unfold SasSpec.addr_toks. cbn [SasSpec.m_base SasSpec.m_label SasSpec.m_disp].
      destruct b as [[]|], l as [l|], d as [[[] v]|]; cbn; lia. }
    assert (MT : forall m, (length (names (SasSpec.mem_toks m)) <= 1)%nat).
    { intro m. unfold SasSpec.mem_toks. rewrite !APP. specialize (AT m). destruct (SasSpec.m_size m) as [[]|], (SasSpec.m_es m); cbn [names flat_map app length] in *; cbn; lia. }
    assert (OT : forall a, (length (names (SasSpec.arg_toks a)) <= 1)%nat).
    { intros [w r|r|v|m]; cbn [SasSpec.arg_toks]; [cbn; lia|cbn; lia|apply VT|apply MT]. }
    assert (TWO : forall n a b, length (names (SasSpec.two n a b)) = (length (names a) + length (names b))%nat).
    { intros. unfold SasSpec.two. rewrite WD, APP. reflexivity. }
    destruct i; cbn [SasSpec.toks]; rewrite ?TWO, ?WD;
      repeat match goal with |- context [length (names (SasSpec.arg_toks ?a))] => let H := fresh in pose proof (OT a) as H; revert H; generalize (length (names (SasSpec.arg_toks a))) end;
      try (intros; lia); try (cbn; rewrite ?ET; cbn; lia); try (specialize (MT m)); try (specialize (VT v)); try lia; try (cbn [names flat_map app length] in *; cbn; lia).
    - destruct count; [rewrite ET|]; cbn; intros; lia.
    - destruct rep; cbn; lia. }
  destruct NL as (L & L1 & L2 & L3).
  assert (P : program W None [SasSpec.IInst i]).
  { split; cbn [start most_bytes most_refs fold_right labels_of flat_map app]; try lia.
    - intros j [E|[]]. injection E as <-. exact M.
    - constructor.
    - exists L. rewrite app_nil_r. split; [exact L1|]. split; [lia|].
      destruct L as [|a [|b [|c L]]]; cbn [fold_right length] in *; try lia; repeat match goal with H : Forall _ (_ :: _) |- _ => inversion H; clear H; subst end; lia. }
  destruct (C48_program W None [SasSpec.IInst i] file HW P) as (n & N); [cbn [origin_toks app flat_map]; rewrite app_nil_r; exact SP|].
  exists n. intros fuel F. destruct (N fuel F) as (env & bs & E & LI & EN).
  inversion LI as [| |? ? ? len b1 b2 ins LE DE ME LR| |]; subst. inversion LR; subst. rewrite app_nil_r in *. exists b1, ins, env. split; [exact E|]. split; [exact DE|]. split; [exact ME|].
  intro nm. apply EN. exact (fun x => x).
Qed.
Print Assumptions C48_instruction.
(** a program of every kind of statement *)
Definition nm (s : string) : list Z := bytes_of s.
Definition no_mem := SasSpec.mkmem None false None None None.
Definition ex_items : list SasSpec.item :=
  [SasSpec.ILabel (nm "start"); SasSpec.IInst (SasSpec.ACall (SasSpec.VLabel (nm "print")));
   SasSpec.IInst (SasSpec.AAlu Spec8086.ADD (SasSpec.OMem (SasSpec.mkmem (Some true) true (Some SasSpec.BSIBX) (Some (nm "msg")) (Some (true, 5)))) (SasSpec.OVal (SasSpec.VExpr (((UNum 7, [(true, UNum 9)]), []), []))));
   SasSpec.IInst (SasSpec.AJcc "JNZ" (SasSpec.VLabel (nm "start"))); SasSpec.IInst (SasSpec.AJcc "JC" (SasSpec.VLabel (nm "done")));
   SasSpec.ILabel (nm "print"); SasSpec.IInst (SasSpec.AMov (SasSpec.OReg true 3) (SasSpec.OVal (SasSpec.VLabel (nm "msg"))));
   SasSpec.IInst (SasSpec.AStr true Spec8086.MOVS false); SasSpec.ILabel (nm "done"); SasSpec.IInst (SasSpec.ASimple SasSpec.SRet);
   SasSpec.ILabel (nm "msg"); SasSpec.IBytes (bytes_of "hi"); SasSpec.IWord 4660].
Definition ex_words : list (string * tk * string) :=
  let w := SasSpec.wd in let k s := KName (nm s) in let pt := KPunct in
  [(""%string, w "ORG", "org"); (" ", KNum 256, "0x100"); (" ", k "start", "start"); ("", pt 58, ":"); (" ", w "CALL", "call"); (" ", k "print", "print");
   (" ", w "ADD", "add"); (" ", w "WORD", "word"); (" ", pt 91, "["); ("", w "ES", "es"); ("", pt 58, ":"); ("", w "SI", "si"); ("", pt 43, "+"); ("", w "BX", "bx");
   ("", pt 43, "+"); ("", k "msg", "msg"); ("", pt 45, "-"); ("", KNum 5, "5"); ("", pt 93, "]"); ("", pt 44, ","); (" ", KNum 7, "7"); ("", pt 45, "-"); ("", KNum 9, "9");
   (" ", w "JNZ", "jnz"); (" ", k "start", "start"); (" ", w "JC", "Jc"); (" ", k "done", "done"); (" ", k "print", "print"); ("", pt 58, ":");
   (" ", w "MOV", "mov"); (" ", w "BX", "bx"); ("", pt 44, ","); ("", k "msg", "msg"); (" ", w "REP", "rep"); (" ", w "MOVSB", "movsb");
   (" ", k "done", "done"); ("", pt 58, ":"); (" ", w "RET", "ret"); (" ", k "msg", "msg"); ("", pt 58, ":"); (" ", w "DB", "db"); (" ", KStr (bytes_of "hi"), "'hi'");
   (" ", w "DW", "dw"); (" ", KNum 4660, "4660")]%string.
Definition ex_file : list Z := bytes_of "org 0x100 start: call print add word [es:si+bx+msg-5], 7-9 jnz start Jc done print: mov bx,msg rep movsb done: ret msg: db 'hi' dw 4660 "%string.
Example C48_ex_spells : spells (origin_toks (Some 256) ++ flat_map SasSpec.item_toks ex_items) (map s8 ex_file).
Proof.
  replace (map s8 ex_file) with (text ex_words " ") by (vm_compute; reflexivity).
  replace (origin_toks (Some 256) ++ flat_map SasSpec.item_toks ex_items) with (map (fun x => snd (fst x)) ex_words) by (vm_compute; reflexivity).
  apply reads_ok. vm_compute. reflexivity.
Qed.
Example C48_ex : program 16 (Some 256) ex_items /\ assemble 16 200 ex_file =
  Ok [232; 10; 0; 38; 131; 128; 14; 1; 254; 117; 245; 114; 5; 187; 19; 1; 243; 164; 195; 104; 105; 52; 18].
Proof.
  split.
  - split; try (vm_compute; congruence).
    + intros i I. exists (fun _ => 0), 0. unfold ex_items in I. cbn [In] in I.
      repeat (destruct I as [I|I]; [try discriminate; injection I as <-|]); try contradiction.
      * eexists. eapply SasSpec.me_call. reflexivity.
      * eexists. eapply SasSpec.me_alu_mi; [|reflexivity|].
        -- split; [left; discriminate|intro; discriminate].
        -- eexists. split; [reflexivity|]. split; [reflexivity|]. discriminate.
      * eexists. eapply (SasSpec.me_jcc 16 (fun _ => 0) 0 "JNZ" 5); [cbn; tauto|reflexivity|]. intros _. reflexivity.
      * eexists. eapply (SasSpec.me_jcc 16 (fun _ => 0) 0 "JC" 2); [cbn; tauto|reflexivity|]. intros _. reflexivity.
      * eexists. eapply SasSpec.me_mov_ri; [unfold SasSpec.reg_ok; lia|]. eexists. split; [reflexivity|]. split; [reflexivity|discriminate].
      * eexists. eapply SasSpec.me_str with (rep := true). cbn. tauto.
      * eexists. apply SasSpec.me_ret.
    + repeat constructor; cbn; intuition discriminate.
    + exists [nm "start"; nm "print"; nm "msg"; nm "done"]. split; [|vm_compute; split; congruence].
      intros x I. unfold ex_items in I. cbn in I. cbn. intuition (try discriminate); match goal with H : _ = KName x |- _ => injection H as <-; auto 10 end.
  - vm_compute. reflexivity.
Qed.
(** forms the assembler accepts and gets wrong; none of them is in [means] *)
Definition asm (s : string) : outcome (list Z) := assemble 16 400 (bytes_of s).
Theorem C48_refuted :
  (** segment overrides other than es: *)
  asm "mov ax, [ss:bx]" = asm "mov ax, [es:bx]" /\ asm "mov ax, [ds:bx]" = Ok [39; 139; 7] /\ asm "mov ax, [cs:bx]" = Ok [39; 139; 7] /\
  (** the count of a shift is ignored *)
  asm "shl ax, 3" = asm "shl ax, 1" /\
  (** [bp+label] with the label still to come is taken for a register *)
  asm "mov ax, [bp+x] x:" = Ok [139; 198] /\ decode (byte_at [139; 198]) = Some (Spec8086.IMov true (Spec8086.Reg 0) (Spec8086.Reg 6), 2) /\
  (** a segment register cannot be loaded from a constant, and yet *)
  asm "mov ds, 5" = asm "ret db 5 db 0" /\
  (** the sizes of operands are not compared *)
  asm "mov al, bx" = asm "mov al, bl" /\
  (** minus signs before registers and labels are ignored *)
  asm "mov ax, [5-bx]" = asm "mov ax, [bx+5]" /\ asm "ret x: mov ax, [bx-x]" = asm "ret x: mov ax, [bx+x]".
Proof. vm_compute. repeat split. Qed.
Print Assumptions C48_refuted.

(** * C49: labels *)
Lemma listing_split W env p1 p2 : forall a bs, listing W env a (p1 ++ p2) bs ->
  exists b1 b2, bs = b1 ++ b2 /\ listing W env a p1 b1 /\ listing W env (a + Z.of_nat (length b1)) p2 b2.
Proof.
  induction p1 as [|x p1 IH]; intros a bs H; cbn [app] in H.
  - exists [], bs. split; [reflexivity|]. split; [constructor|]. cbn [length]. change (Z.of_nat 0) with 0. rewrite Z.add_0_r. exact H.
  - inversion H as [|? n p b EV LI|? i p len b1 b2 ins LE DE ME LI|? l p b LI|? v p b LI]; subst; destruct (IH _ _ LI) as (c1 & c2 & -> & L1 & L2).
    + exists c1, c2. split; [reflexivity|]. split; [constructor; [reflexivity|exact L1]|exact L2].
    + exists (b1 ++ c1), c2. rewrite <- app_assoc. split; [reflexivity|]. split; [eapply SasSpec.li_inst; eauto|]. rewrite app_length, Nat2Z.inj_add, Z.add_assoc. exact L2.
    + exists (map (fun c => c mod 256) l ++ c1), c2. rewrite <- app_assoc. split; [reflexivity|]. split; [apply SasSpec.li_bytes; exact L1|]. rewrite app_length, map_length, Nat2Z.inj_add, Z.add_assoc. exact L2.
    + exists ([v mod 256; v / 256 mod 256] ++ c1), c2. rewrite <- app_assoc. split; [reflexivity|]. split; [apply SasSpec.li_word; exact L1|]. rewrite app_length, Nat2Z.inj_add, Z.add_assoc. exact L2.
Qed.
(** what it is for an instruction ending at address next to refer to the address target by the name n *)
Definition refers (n : list Z) (target next : Z) (i : SasSpec.inst) (ins : Spec8086.instr) : Prop :=
  match i with
  | SasSpec.AJmp (SasSpec.VLabel m) => m = n -> ins = Spec8086.IJmp ((target - next) mod 65536)
  | SasSpec.ACall (SasSpec.VLabel m) => m = n -> ins = Spec8086.ICall ((target - next) mod 65536)
  | SasSpec.AJmpShort (SasSpec.VLabel m) => m = n -> -128 <= s16 (target - next) < 128 -> ins = Spec8086.IJmp ((target - next) mod 65536)
  | SasSpec.AJcc c (SasSpec.VLabel m) => m = n -> -128 <= s16 (target - next) < 128 ->
      exists cc, In (c, cc) SasSpec.conditions /\ ins = Spec8086.IJcc cc ((target - next) mod 65536)
  | SasSpec.AMov (SasSpec.OReg true r) (SasSpec.OVal (SasSpec.VLabel m)) => m = n -> ins = Spec8086.IMov true (Spec8086.Reg r) (Spec8086.Imm (target mod 65536))
  | SasSpec.AMov (SasSpec.OReg w r) (SasSpec.OMem (SasSpec.mkmem _ false None (Some m) None)) => m = n ->
      ins = Spec8086.IMov w (Spec8086.Reg r) (Spec8086.Mem None Spec8086.MDirect (target mod 65536))
  | SasSpec.AMov (SasSpec.OMem (SasSpec.mkmem _ false None (Some m) None)) (SasSpec.OReg w r) => m = n ->
      ins = Spec8086.IMov w (Spec8086.Mem None Spec8086.MDirect (target mod 65536)) (Spec8086.Reg r)
  | _ => True
  end.
Lemma means_refers W env next i ins n : means W env next i ins -> refers n (env n) next i ins.
Proof.
  intro M. destruct M; cbn [refers]; try exact I; try (destruct w; exact I).
  - destruct v as [e|m]; [destruct w; exact I|]. destruct w; [|exact I]. intros ->. destruct H0 as (x & E & -> & _). cbn in E. injection E as <-. reflexivity.
  - destruct m as [sz es b l dd]. destruct w, es; try exact I; destruct b; try exact I; destruct l; try exact I; destruct dd; try exact I;
      intros ->; unfold SasSpec.mem_op, SasSpec.disp_value; cbn; rewrite Z.add_0_r; reflexivity.
  - destruct m as [sz es b l dd]. destruct es; try exact I; destruct b; try exact I; destruct l; try exact I; destruct dd; try exact I;
      intros ->; unfold SasSpec.mem_op, SasSpec.disp_value; cbn; rewrite Z.add_0_r; reflexivity.
  - destruct m as [sz es b l dd]. destruct es; try exact I; destruct b; try exact I; destruct l; try exact I; destruct dd; exact I.
  - destruct m as [sz es b l dd]. destruct es; try exact I; destruct b; try exact I; destruct l; try exact I; destruct dd; exact I.
  - destruct v as [e|m]; [exact I|]. cbn in H. injection H as <-. intros ->. reflexivity.
  - destruct v as [e|m]; [exact I|]. cbn in H. injection H as <-. intros -> D. rewrite (H0 D). reflexivity.
  - destruct v as [e|m]; [exact I|]. cbn in H. injection H as <-. intros ->. reflexivity.
  - destruct v as [e|m]; [exact I|]. cbn in H0. injection H0 as <-. intros -> D. exists cc. rewrite (H1 D). auto.
Qed.
Lemma listing_label W env a n q bs : listing W env a (SasSpec.ILabel n :: q) bs -> env n = a.
Proof. intro H. inversion H. assumption. Qed.
Lemma listing_inst W env a i q bs : listing W env a (SasSpec.IInst i :: q) bs -> exists b1 b2 ins, bs = b1 ++ b2 /\
  decode (byte_at b1) = Some (ins, Z.of_nat (length b1)) /\ means W env (a + Z.of_nat (length b1)) i ins.
Proof. intro H. inversion H; subst. eauto 6. Qed.
Theorem C49_labels W org p file : W = 16 \/ W = 32 -> program W org p ->
  spells (origin_toks org ++ flat_map SasSpec.item_toks p) (map s8 file) ->
  exists n, forall fuel, (n <= fuel)%nat -> exists bs, assemble W fuel file = Ok bs /\
    forall p1 i p2 q1 n q2, p = p1 ++ SasSpec.IInst i :: p2 -> p = q1 ++ SasSpec.ILabel n :: q2 ->
      (* b0 comes before the instruction, b1 is the instruction, c0 comes before the label *)
      exists env b0 b1 b2 c0 c1 ins, bs = b0 ++ b1 ++ b2 /\ bs = c0 ++ c1 /\
        listing W env (start org) p1 b0 /\ listing W env (start org) q1 c0 /\
        decode (byte_at b1) = Some (ins, Z.of_nat (length b1)) /\
        refers n (start org + Z.of_nat (length c0)) (start org + Z.of_nat (length (b0 ++ b1))) i ins.
Proof.
  intros HW P SP. destruct (C48_program W org p file HW P SP) as (k & K). exists k. intros fuel F. destruct (K fuel F) as (env & bs & E & LI & _).
  exists bs. split; [exact E|]. intros p1 i p2 q1 n q2 EP EQ. pose proof LI as LJ. rewrite EP in LI. rewrite EQ in LJ.
  destruct (listing_split _ _ _ _ _ _ LI) as (b0 & b' & B & L0 & L1). destruct (listing_split _ _ _ _ _ _ LJ) as (c0 & c1 & C & M0 & M1).
  destruct (listing_inst _ _ _ _ _ _ L1) as (b1 & b2 & ins & -> & DE & ME). pose proof (listing_label _ _ _ _ _ _ M1) as EV.
  exists env, b0, b1, b2, c0, c1, ins. split; [exact B|]. split; [exact C|]. split; [exact L0|]. split; [exact M0|]. split; [exact DE|].
  apply means_refers with (n := n) in ME. rewrite EV in ME. rewrite app_length, Nat2Z.inj_add, Z.add_assoc. exact ME.
Qed.
Print Assumptions C49_labels.
Example C49_ex : exists p1 p2 q1 q2, ex_items = p1 ++ SasSpec.IInst (SasSpec.ACall (SasSpec.VLabel (nm "print"))) :: p2 /\ ex_items = q1 ++ SasSpec.ILabel (nm "print") :: q2.
Proof. exists (firstn 1 ex_items), (skipn 2 ex_items), (firstn 5 ex_items), (skipn 6 ex_items). split; reflexivity. Qed.
(** a reference by DW to a label that is defined later, and one to a local label after the next
    global label, are not resolved *)
Theorem C49_refuted : asm "dw x x:" = Ok [0; 0] /\ asm "ret dw x x:" = Ok [195; 0; 0] /\ asm "jmp .x y: .x: ret" = asm "jmp nowhere ret".
Proof. vm_compute. repeat split. Qed.
Print Assumptions C49_refuted.

(** * C50: what the assembler does not notice *)
(** a label that is nowhere defined is taken to be at address 0 *)
Theorem C50_undefined : forall W i file, W = 16 \/ W = 32 -> (exists v, i = SasSpec.AJmp (SasSpec.VLabel v) \/ i = SasSpec.ACall (SasSpec.VLabel v) \/ i = SasSpec.AJmpShort (SasSpec.VLabel v)) ->
  spells (SasSpec.toks i) (map s8 file) -> exists n, forall fuel, (n <= fuel)%nat -> exists bs, assemble W fuel file = Ok bs /\ bs <> [].
Proof.
  intros W i file HW (v & IV) SP. destruct (C48_instruction W i file HW) as (n & N).
  - exists (fun _ => 0), 0. destruct IV as [-> |[-> | ->]]; eexists; [eapply SasSpec.me_jmp|eapply SasSpec.me_call|eapply SasSpec.me_jmps]; try reflexivity. intros _. reflexivity.
  - exact SP.
  - exists n. intros fuel F. destruct (N fuel F) as (bs & ins & env & E & D & _). exists bs. split; [exact E|]. intros ->.
    cbn in D. revert D. unfold decode, byte_at. cbn. discriminate.
Qed.
Print Assumptions C50_undefined.
(** a jump over n bytes *)
Definition far (n : nat) : list Z := bytes_of "jmp short x db '" ++ repeat 65 n ++ bytes_of "' x: ret".
Theorem C50_silent :
  asm "jmp nowhere" = Ok [233; 253; 255] /\ asm "jmp short nowhere" = Ok [235; 254] /\
  (** a short jump forward over 127 bytes is right, one over 127 + 1 goes backward *)
  obind (assemble 16 400 (far 127)) (fun bs => Ok (decode (byte_at bs))) = Ok (Some (Spec8086.IJmp 127, 2)) /\
  obind (assemble 16 400 (bytes_of "jmp short x db 0 db '" ++ repeat 65 127 ++ bytes_of "' x: ret")) (fun bs => Ok (decode (byte_at bs))) = Ok (Some (Spec8086.IJmp 65408, 2)).
Proof. vm_compute. repeat split. Qed.
Print Assumptions C50_silent.

(** * C51: symbols *)
(** looking up or entering any sequence of spellings in the assembler's table, after the built-in
    names: two of them get the same number exactly if they are the same, where built-in names
    may be written in any case; unless the table overflows *)
Theorem C51_symbols W input sps is s' : W = 16 \/ W = 32 ->
  bind (AddBuiltins W builtin_names) (fun _ => interns W sps) (st0 input) = Ok (is, s') ->
  length is = length sps /\
  forall a b spa spb ia ib, nth_error sps a = Some spa -> nth_error sps b = Some spb -> nth_error is a = Some ia -> nth_error is b = Some ib ->
    (ia = ib <-> (spa = spb \/ (In (map upper spa) builtin_texts /\ map upper spa = map upper spb))).
Proof.
  intros HW H. rewrite (bind_ok _ _ _ _ _ (builtins_run W input HW)) in H.
  pose proof (interns_spec W sps (set_names (st0 input) builtin_texts used0 (tab0 W)) (table0 W HW) ltac:(change (names (set_names (st0 input) builtin_texts used0 (tab0 W))) with builtin_texts; change (length builtin_texts) with 99%nat; lia)) as S.
  rewrite H in S. change (names (set_names (st0 input) builtin_texts used0 (tab0 W))) with builtin_texts in S.
  assert (OK : names_ok builtin_texts) by (split; [apply (t_nodup _ _ _ (table0 W HW))|intros x X; exact X]).
  split.
  - destruct (number_syms_final _ _ _ _ OK S) as (ext & _ & F). clear - F. induction F; cbn; congruence.
  - intros a b spa spb ia ib A B IA IB. rewrite (number_syms_inj _ _ _ _ OK S a b spa spb ia ib A B IA IB).
    unfold canonical. destruct (in_dec _ (map upper spa) _) as [Ia|Na], (in_dec _ (map upper spb) _) as [Ib|Nb]; split; intro E; try tauto.
    + destruct E as [->|[_ E]]; auto.
    + exfalso. apply Nb. rewrite <- E. pose proof builtins_upper as BU. rewrite Forall_forall in BU. rewrite (BU _ Ia). exact Ia.
    + destruct E as [->|[_ E]]; [contradiction|]. rewrite E in Ia. contradiction.
    + exfalso. apply Na. rewrite E. pose proof builtins_upper as BU. rewrite Forall_forall in BU. rewrite (BU _ Ib). exact Ib.
    + destruct E as [->|[E _]]; contradiction.
Qed.
Print Assumptions C51_symbols.
Theorem C51_probing : forall home k, exists d, 0 <= d < 1024 /\ (home + d * (d + 1) / 2) mod 1024 = k mod 1024.
Proof. exact probing_reaches_every_slot. Qed.
Print Assumptions C51_probing.
Example C51_ex : exists is s', bind (AddBuiltins 16 builtin_names) (fun _ => interns 16 (map bytes_of ["foo"; "mov"; "bar"; "MOV"; "foo"; "Foo"]%string)) (st0 []) = Ok (is, s') /\ is = [99; 49; 100; 49; 99; 101].
Proof. eexists. eexists. split; [vm_compute; reflexivity|reflexivity]. Qed.

(** * C52: constant expressions *)
(** the number parsed is the value of the expression: sums and differences from the left, then
    shifts from the left, then |; modulo 2^W; without a value only if a shift count is out of range *)
Theorem C52_value W e fuel s ts : W = 16 \/ W = 32 -> (eneed e <= fuel)%nat -> stops ts -> holds W s (etoks e ++ ts) ->
  match eval W e with
  | Some v => exists s', ParseNumber W fuel s = Ok (v, s') /\ holds W s' ts
  | None => ParseNumber W fuel s = UB
  end.
Proof.
  intros HW F ST H. pose proof (ParseNumber_spec W HW e fuel s ts F ST H) as P. destruct (eval W e); [|exact P].
  destruct P as (s' & E & H' & _). exists s'. auto.
Qed.
Print Assumptions C52_value.
(** in a program: the constant of  mov ax, e *)
Theorem C52_program W e v file : W = 16 \/ W = 32 -> eval W e = Some v ->
  spells (SasSpec.wd "MOV" :: SasSpec.wd "AX" :: KPunct 44 :: etoks e) (map s8 file) ->
  exists n, forall fuel, (n <= fuel)%nat -> exists bs, assemble W fuel file = Ok bs /\
    decode (byte_at bs) = Some (Spec8086.IMov true (Spec8086.Reg 0) (Spec8086.Imm (v mod 65536)), Z.of_nat (length bs)).
Proof.
  intros HW EV SP. destruct (C48_instruction W (SasSpec.AMov (SasSpec.OReg true 0) (SasSpec.OVal (SasSpec.VExpr e))) file HW) as (n & N).
  - exists (fun _ => 0), 0. eexists. eapply SasSpec.me_mov_ri; [unfold SasSpec.reg_ok; lia|]. eexists. split; [exact EV|]. split; [reflexivity|discriminate].
  - exact SP.
  - exists n. intros fuel F. destruct (N fuel F) as (bs & ins & env & E & D & M & _). exists bs. split; [exact E|].
    inversion M; subst. match goal with H : SasSpec.imm_of _ _ _ _ _ |- _ => destruct H as (x & X & -> & _) end. cbn [SasSpec.val] in X. rewrite EV in X. injection X as <-. exact D.
Qed.
Print Assumptions C52_program.
Example C52_ex : asm "mov ax, 10-3-2<<1+1|~0x7ff0-1" = Ok [184; 30; 128] /\
  eval 16 (((UNum 10, [(true, UNum 3); (true, UNum 2)]), [(UNum 1, [(false, UNum 1)])]), [((UNot (UNum 0x7ff0), [(true, UNum 1)]), [])]) = Some (-32738).
Proof. vm_compute. split; reflexivity. Qed.
