(** Base definitions shared by all models: total arrays, fixed-width integers,
    outcomes.  Nothing here models a particular line of /repo; these are the
    C-language notions (zero-initialised arrays, int/unsigned of a given width)
    the models are written in. *)
From Coq Require Export ZArith List Bool Lia.
From Coq Require Export ZifyBool ZifyNat ZifyN.
Export ListNotations.
Open Scope Z_scope.

Ltac Zify.zify_post_hook ::= Z.div_mod_to_equations.

(** * Total arrays indexed by Z, with a default element (a C array that is
      zero-initialised, or raw memory).  Binary tries, so that the models
      also run efficiently. *)
Inductive trie (A : Type) : Type :=
| Leaf : trie A
| Node : trie A -> option A -> trie A -> trie A.
Arguments Leaf {A}.
Arguments Node {A} _ _ _.

Fixpoint tget {A} (t : trie A) (p : positive) : option A :=
  match t with
  | Leaf => None
  | Node l o r => match p with xH => o | xO q => tget l q | xI q => tget r q end
  end.

Fixpoint tset {A} (t : trie A) (p : positive) (v : A) : trie A :=
  match p with
  | xH => match t with Leaf => Node Leaf (Some v) Leaf | Node l _ r => Node l (Some v) r end
  | xO q => match t with Leaf => Node (tset Leaf q v) None Leaf | Node l o r => Node (tset l q v) o r end
  | xI q => match t with Leaf => Node Leaf None (tset Leaf q v) | Node l o r => Node l o (tset r q v) end
  end.

Definition zkey (z : Z) : positive :=
  match z with Z0 => xH | Zpos p => xO p | Zneg p => xI p end.

Record arr (A : Type) := mkarr { adef : A; atrie : trie A }.
Arguments mkarr {A} _ _.
Arguments adef {A} _.
Arguments atrie {A} _.

Definition ainit {A} (d : A) : arr A := mkarr d Leaf.
Definition aget {A} (a : arr A) (i : Z) : A :=
  match tget (atrie a) (zkey i) with Some v => v | None => adef a end.
Definition aset {A} (a : arr A) (i : Z) (v : A) : arr A :=
  mkarr (adef a) (tset (atrie a) (zkey i) v).

Lemma tget_tset_same {A} (p : positive) : forall (t : trie A) v, tget (tset t p v) p = Some v.
Proof. induction p; destruct t; cbn; auto. Qed.

Lemma tget_leaf {A} (p : positive) : tget (@Leaf A) p = None.
Proof. destruct p; reflexivity. Qed.

Lemma tget_tset_other {A} (p q : positive) : p <> q ->
  forall (t : trie A) v, tget (tset t p v) q = tget t q.
Proof.
  revert q; induction p as [p IH|p IH|]; intros q Hne t v; destruct q as [q|q|]; destruct t; cbn;
    try congruence; try (rewrite IH by congruence); rewrite ?tget_leaf; auto.
Qed.

Lemma zkey_inj i j : zkey i = zkey j -> i = j.
Proof. destruct i, j; cbn; congruence. Qed.

Lemma aget_aset_same {A} (a : arr A) i v : aget (aset a i v) i = v.
Proof. unfold aget, aset; cbn. now rewrite tget_tset_same. Qed.

Lemma aget_aset_other {A} (a : arr A) i j v : i <> j -> aget (aset a i v) j = aget a j.
Proof.
  intro H; unfold aget, aset; cbn.
  rewrite tget_tset_other; auto. intro E; apply H, zkey_inj, E.
Qed.

Lemma aget_aset {A} (a : arr A) i j v : aget (aset a i v) j = if i =? j then v else aget a j.
Proof.
  destruct (Z.eqb_spec i j) as [->|H]; [apply aget_aset_same | now apply aget_aset_other].
Qed.

Lemma aget_init {A} (d : A) i : aget (ainit d) i = d.
Proof. reflexivity. Qed.

Lemma tset_tset_same {A} (p : positive) : forall (t : trie A) v w, tset (tset t p v) p w = tset t p w.
Proof. induction p; destruct t; cbn; intros; rewrite ?IHp; auto. Qed.
Lemma tset_tset_other {A} (p : positive) : forall q (t : trie A) v w, p <> q ->
  tset (tset t p v) q w = tset (tset t q w) p v.
Proof.
  induction p as [p IH|p IH|]; intros q t v w Hne; destruct q as [q|q|]; destruct t; cbn;
    try congruence; rewrite IH by congruence; auto.
Qed.
Lemma aset_aset_same {A} (a : arr A) i v w : aset (aset a i v) i w = aset a i w.
Proof. unfold aset; cbn. now rewrite tset_tset_same. Qed.
Lemma aset_aset_other {A} (a : arr A) i j v w : i <> j -> aset (aset a i v) j w = aset (aset a j w) i v.
Proof. intro H. unfold aset; cbn. rewrite tset_tset_other; auto. intro E; apply H, zkey_inj, E. Qed.

Global Opaque aget aset ainit.

(** * Fixed-width integers *)
(** unsigned value of w bits *)
Definition wu (w : Z) (x : Z) : Z := x mod 2 ^ w.
(** signed (two's complement) value of w bits *)
Definition ws (w : Z) (x : Z) : Z :=
  let u := x mod 2 ^ w in if u <? 2 ^ (w - 1) then u else u - 2 ^ w.

Definition u8 (x : Z) : Z := x mod 256.
Definition u16 (x : Z) : Z := x mod 65536.
Definition s8 (x : Z) : Z := let u := x mod 256 in if u <? 128 then u else u - 256.
Definition s16 (x : Z) : Z := let u := x mod 65536 in if u <? 32768 then u else u - 65536.

Lemma u16_range x : 0 <= u16 x < 65536.
Proof. unfold u16. apply Z.mod_pos_bound. lia. Qed.
Lemma u8_range x : 0 <= u8 x < 256.
Proof. unfold u8. apply Z.mod_pos_bound. lia. Qed.
Lemma s16_range x : -32768 <= s16 x < 32768.
Proof. unfold s16. pose proof (Z.mod_pos_bound x 65536). destruct (Z.ltb_spec (x mod 65536) 32768); lia. Qed.
Lemma s8_range x : -128 <= s8 x < 128.
Proof. unfold s8. pose proof (Z.mod_pos_bound x 256). destruct (Z.ltb_spec (x mod 256) 128); lia. Qed.
Lemma u16_small x : 0 <= x < 65536 -> u16 x = x.
Proof. intro. unfold u16. apply Z.mod_small. lia. Qed.
Lemma u8_small x : 0 <= x < 256 -> u8 x = x.
Proof. intro. unfold u8. apply Z.mod_small. lia. Qed.
Lemma s16_small x : -32768 <= x < 32768 -> s16 x = x.
Proof. intro. unfold s16. destruct (Z.ltb_spec (x mod 65536) 32768); lia. Qed.
Lemma s8_small x : -128 <= x < 128 -> s8 x = x.
Proof. intro. unfold s8. destruct (Z.ltb_spec (x mod 256) 128); lia. Qed.
Lemma u16_u16 x : u16 (u16 x) = u16 x.
Proof. apply u16_small, u16_range. Qed.
Lemma u8_u8 x : u8 (u8 x) = u8 x.
Proof. apply u8_small, u8_range. Qed.
Lemma u16_s16 x : u16 (s16 x) = u16 x.
Proof. unfold u16, s16. destruct (Z.ltb_spec (x mod 65536) 32768); lia. Qed.
Lemma s16_u16 x : s16 (u16 x) = s16 x.
Proof. unfold s16, u16. rewrite Z.mod_mod by lia. reflexivity. Qed.

(** * Outcomes of C code *)
(** [Fatal]: the program's own error exit (Fatal/Fail/assert);
    [UB]: C undefined behaviour (out-of-bounds access, division by zero, ...);
    [OutOfFuel]: the model's recursion bound was too small. *)
Inductive outcome (A : Type) : Type :=
| Ok : A -> outcome A
| Fatal : outcome A
| UB : outcome A
| OutOfFuel : outcome A.
Arguments Ok {A} _.
Arguments Fatal {A}.
Arguments UB {A}.
Arguments OutOfFuel {A}.

Definition obind {A B} (x : outcome A) (f : A -> outcome B) : outcome B :=
  match x with Ok a => f a | Fatal => Fatal | UB => UB | OutOfFuel => OutOfFuel end.

Declare Scope out_scope.
Delimit Scope out_scope with out.
Notation "'do' x <- a ; b" := (obind a (fun x => b))
  (at level 200, x pattern, a at level 100, b at level 200, right associativity) : out_scope.

Lemma obind_ok {A B} (x : outcome A) (f : A -> outcome B) b :
  obind x f = Ok b -> exists a, x = Ok a /\ f a = Ok b.
Proof. destruct x; cbn; intro H; try discriminate. eauto. Qed.

(** condition of a C [if]/assert on an integer *)
Definition zb (b : bool) : Z := if b then 1 else 0.
Definition oassert (b : bool) : outcome unit := if b then Ok tt else Fatal.
