(** Constant expressions of the assembler (sas.c:740-823): grammar, value, and the proof that
    ParseNumber computes it. *)
From Coq Require Import ZArith List Bool Lia String.
From Verif Require Import Base Sas SasSym SasText.
Import ListNotations.
Open Scope Z_scope.

(** * Specification *)
(** ** Grammar
    expr  ::= shift { '|' shift }
    shift ::= sum { '<<' sum }
    sum   ::= unary { ('+' | '-') unary }
    unary ::= number | 'c' | 'cc' | ('+' | '-' | '~') unary *)
Inductive unary :=
| UNum (v : Z) | UChar (a : Z) | UChars (a b : Z)
| UPos (u : unary) | UNeg (u : unary) | UNot (u : unary).
Definition sum : Type := unary * list (bool * unary).   (* true: - *)
Definition shift : Type := sum * list sum.
Definition expr : Type := shift * list shift.

Fixpoint utoks (u : unary) : list tk :=
  match u with
  | UNum v => [KNum v]
  | UChar a => [KStr [a]]
  | UChars a b => [KStr [a; b]]
  | UPos u => KPunct 43 :: utoks u
  | UNeg u => KPunct 45 :: utoks u
  | UNot u => KPunct 126 :: utoks u
  end.
Definition sumtail (l : list (bool * unary)) : list tk :=
  flat_map (fun '(m, u) => KPunct (if m : bool then 45 else 43) :: utoks u) l.
Definition sumtoks (x : sum) : list tk := utoks (fst x) ++ sumtail (snd x).
Definition shtail (l : list sum) : list tk := flat_map (fun x => KShl :: sumtoks x) l.
Definition shtoks (x : shift) : list tk := sumtoks (fst x) ++ shtail (snd x).
Definition ortail (l : list shift) : list tk := flat_map (fun x => KPunct 124 :: shtoks x) l.
Definition etoks (e : expr) : list tk := shtoks (fst e) ++ ortail (snd e).

(** ** Value, in two's complement arithmetic of W bits; a shift by a negative count or by W or
       more bits has none *)
Section Value.
Variable W : Z.
Fixpoint uval (u : unary) : Z :=
  match u with
  | UNum v => ws W v
  | UChar a => a mod 256
  | UChars a b => ws W (a mod 256 + 256 * (b mod 256))
  | UPos u => uval u
  | UNeg u => ws W (- uval u)
  | UNot u => ws W (- uval u - 1)
  end.
Definition sumfold (x : Z) (l : list (bool * unary)) : Z :=
  fold_left (fun x '(m, u) => ws W (if m : bool then x - uval u else x + uval u)) l x.
Definition sumval (x : sum) : Z := sumfold (uval (fst x)) (snd x).
Fixpoint shfold (x : Z) (l : list sum) : option Z :=
  match l with
  | [] => Some x
  | y :: l => let n := sumval y in if (0 <=? n) && (n <? W) then shfold (ws W (x * 2 ^ n)) l else None
  end.
Definition shval (x : shift) : option Z := shfold (sumval (fst x)) (snd x).
Fixpoint orfold (x : Z) (l : list shift) : option Z :=
  match l with
  | [] => Some x
  | y :: l => match shval y with Some n => orfold (Z.lor x n) l | None => None end
  end.
Definition eval (e : expr) : option Z := match shval (fst e) with Some x => orfold x (snd e) | None => None end.
End Value.

(** the word after an expression: not one of its operators *)
Definition opname (t : tk) : Prop := t = KShl \/ t = KPunct 43 \/ t = KPunct 45 \/ t = KPunct 124.
Definition stops (ts : list tk) : Prop := match ts with t :: _ => ~ opname t | [] => True end.

(** * Proof *)
Section Width.
Variable W : Z.
Hypothesis HW : W = 16 \/ W = 32.
Notation holds := (holds W).

(** precedence of the first of the words *)
Definition prec (ts : list tk) : Z :=
  match ts with
  | KPunct c :: _ => OperatorPrecedence c
  | KShl :: _ => 5
  | _ => 100
  end.
Lemma syn_word id : 0 <= id -> id < 99 -> 256 <= synonym (id + 256) < 355.
Proof.
  intros H1 H2. assert (B : forallb (fun i => (256 <=? synonym (i + 256)) && (synonym (i + 256) <? 355)) (count 99 0) = true) by (vm_compute; reflexivity).
  rewrite forallb_forall in B. specialize (B id). rewrite in_count in B. specialize (B ltac:(lia)). lia.
Qed.

Lemma holds_tok s ts : holds s ts -> OperatorPrecedence (tok s) = prec ts.
Proof.
  intros [Y H]. destruct ts as [|t ts]; [rewrite H; reflexivity|]. destruct H as [L _].
  destruct t as [v|id|c| |l|nm]; cbn [loaded] in L; cbn [prec].
  - rewrite (proj1 L). reflexivity.
  - destruct L as [R ->]. pose proof (syn_word id ltac:(lia) ltac:(lia)).
    unfold OperatorPrecedence, TOK_PLUS, TOK_MINUS, TOK_LSH, TOK_PIPE.
    destruct (_ || _) eqn:E1; [lia|]. destruct (_ =? 128) eqn:E2; [lia|]. destruct (_ =? 124) eqn:E3; [lia|]. reflexivity.
  - rewrite (proj2 L). reflexivity.
  - rewrite L. reflexivity.
  - rewrite (proj1 L). reflexivity.
  - destruct L as (i & I & _ & ->).
    unfold OperatorPrecedence, TOK_PLUS, TOK_MINUS, TOK_LSH, TOK_PIPE.
    destruct (_ || _) eqn:E1; [lia|]. destruct (_ =? 128) eqn:E2; [lia|]. destruct (_ =? 124) eqn:E3; [lia|]. reflexivity.
Qed.
Lemma prec_ge ts : 4 <= prec ts.
Proof.
  destruct ts as [|[]]; cbn [prec]; try lia. unfold OperatorPrecedence, TOK_PLUS, TOK_MINUS, TOK_LSH, TOK_PIPE.
  destruct (_ || _); [lia|]. destruct (_ =? 128); [lia|]. destruct (_ =? 124); lia.
Qed.
Lemma stops_prec s ts : holds s ts -> stops ts -> prec ts = 100.
Proof.
  intros [Y H] S. destruct ts as [|t ts]; [reflexivity|]. destruct H as [L _]. cbn [stops] in S. unfold opname in S.
  destruct t as [v|id|c| |l|nm]; cbn [prec]; try reflexivity; [|tauto].
  cbn [loaded] in L. unfold OperatorPrecedence, TOK_PLUS, TOK_MINUS, TOK_LSH, TOK_PIPE.
  destruct (Z.eqb_spec c 43) as [->|]; [tauto|]. destruct (Z.eqb_spec c 45) as [->|]; [tauto|].
  destruct (Z.eqb_spec c 124) as [->|]; [tauto|]. cbn [orb]. destruct (Z.eqb_spec c 128); [|reflexivity].
  exfalso. cbn in L. lia.
Qed.

Ltac mget := unfold SccState.gets at 1; unfold SccState.bind at 1; cbn beta iota.
Lemma next s t ts : holds s (t :: ts) -> exists s', GetToken W s = Ok (tt, s') /\ holds s' ts /\ quiet s s'.
Proof. apply GetToken_holds. exact HW. Qed.

Lemma ParsePrimary_num s v ts : holds s (KNum v :: ts) ->
  exists s', ParsePrimary W s = Ok (ws W v, s') /\ holds s' ts /\ quiet s s'.
Proof.
  intro H. destruct (next _ _ _ H) as (s' & E & H' & Q). exists s'. split; [|auto].
  destruct H as (_ & (T & N) & _). unfold ParsePrimary. mget. rewrite T. change (1 =? TOK_NUMBER) with true. cbn iota.
  mget. rewrite (bind_ok _ _ _ _ _ E). unfold SccState.ret. rewrite N. reflexivity.
Qed.
Lemma land255 a : Z.land a 0xff = a mod 256.
Proof. change 0xff with (Z.ones 8). rewrite Z.land_ones by lia. reflexivity. Qed.
Lemma lor_bytes a b : Z.lor (a mod 256) (Z.shiftl (b mod 256) 8) = a mod 256 + 256 * (b mod 256).
Proof.
  assert (E : Z.land (a mod 256) (Z.shiftl (b mod 256) 8) = 0).
  { apply Z.bits_inj'; intros k Hk; rewrite Z.land_spec, Z.bits_0. pose proof (Z.mod_pos_bound a 256 ltac:(lia)).
    destruct (Z.lt_ge_cases k 8).
    - rewrite Z.shiftl_spec_low by lia. apply andb_false_r.
    - rewrite (Z.bits_above_log2 (a mod 256)); [reflexivity|lia|].
      destruct (Z.eq_dec (a mod 256) 0) as [->|]; [cbn; lia|]. apply Z.log2_lt_pow2; [lia|].
      apply Z.lt_le_trans with (2 ^ 8); [cbn; lia|apply Z.pow_le_mono_r; lia]. }
  rewrite <- Z.lxor_lor by exact E. rewrite <- Z.add_nocarry_lxor by exact E. rewrite Z.shiftl_mul_pow2 by lia.
  change (2 ^ 8) with 256. lia.
Qed.
Lemma ParsePrimary_str s l ts : holds s (KStr l :: ts) ->
  exists s', holds s' ts /\ quiet s s' /\ ParsePrimary W s = 
    match l with
    | [a] => Ok (a mod 256, s')
    | [a; b] => Ok (ws W (a mod 256 + 256 * (b mod 256)), s')
    | _ => Fatal
    end.
Proof.
  intro H. destruct (next _ _ _ H) as (s' & E & H' & Q). exists s'. split; [exact H'|]. split; [exact Q|].
  destruct H as (_ & (T & N) & _). unfold ParsePrimary. mget. rewrite T. change (2 =? TOK_NUMBER) with false. change (2 =? TOK_STRING) with true. cbn iota.
  unfold NumFromString. mget. rewrite N. destruct l as [|a [|b [|c l]]]; try reflexivity.
  - rewrite (bind_ok _ _ _ _ _ E), land255. reflexivity.
  - rewrite (bind_ok _ _ _ _ _ E), !land255, lor_bytes. reflexivity.
Qed.

Fixpoint depth (u : unary) : nat := match u with UPos u | UNeg u | UNot u => S (depth u) | _ => O end.
Lemma ws_range x : - 2 ^ (W - 1) <= ws W x < 2 ^ (W - 1).
Proof.
  unfold ws. destruct HW as [-> | ->].
  - change (2 ^ 16) with 65536. change (2 ^ (16 - 1)) with 32768. destruct (Z.ltb_spec (x mod 65536) 32768); lia.
  - change (2 ^ 32) with 4294967296. change (2 ^ (32 - 1)) with 2147483648. destruct (Z.ltb_spec (x mod 4294967296) 2147483648); lia.
Qed.
Lemma ws_small x : - 2 ^ (W - 1) <= x < 2 ^ (W - 1) -> ws W x = x.
Proof.
  unfold ws. destruct HW as [-> | ->].
  - change (2 ^ 16) with 65536. change (2 ^ (16 - 1)) with 32768. destruct (Z.ltb_spec (x mod 65536) 32768); lia.
  - change (2 ^ 32) with 4294967296. change (2 ^ (32 - 1)) with 2147483648. destruct (Z.ltb_spec (x mod 4294967296) 2147483648); lia.
Qed.
Lemma uval_range u : - 2 ^ (W - 1) <= uval W u < 2 ^ (W - 1).
Proof.
  assert (P : 256 <= 2 ^ (W - 1)) by (destruct HW as [-> | ->]; cbn; lia).
  induction u; cbn [uval]; try apply ws_range; [|assumption]. pose proof (Z.mod_pos_bound a 256 ltac:(lia)). lia.
Qed.
Lemma ParseUnary_spec u : forall fuel s ts, (depth u < fuel)%nat -> holds s (utoks u ++ ts) ->
  exists s', ParseUnary W fuel s = Ok (uval W u, s') /\ holds s' ts /\ quiet s s'.
Proof.
  induction u as [v|a|a b|u IH|u IH|u IH]; intros [|fuel] s ts F H; cbn [depth] in F; try lia; cbn [utoks app] in H; cbn [ParseUnary uval].
  - destruct (ParsePrimary_num _ _ _ H) as (s' & E & H' & Q). exists s'. split; [|auto].
    mget. destruct H as (_ & (T & _) & _). rewrite T. change (IsUnaryOp 1) with false. exact E.
  - destruct (ParsePrimary_str _ _ _ H) as (s' & H' & Q & E). exists s'. split; [|auto].
    mget. destruct H as (_ & (T & _) & _). rewrite T. change (IsUnaryOp 2) with false. exact E.
  - destruct (ParsePrimary_str _ _ _ H) as (s' & H' & Q & E). exists s'. split; [|auto].
    mget. destruct H as (_ & (T & _) & _). rewrite T. change (IsUnaryOp 2) with false. exact E.
  - destruct (next _ _ _ H) as (s1 & E1 & H1 & Q1). destruct (IH fuel s1 ts ltac:(lia) H1) as (s2 & E2 & H2 & Q2).
    exists s2. split; [|split; [exact H2|exact (quiet_trans _ _ _ Q1 Q2)]].
    mget. destruct H as (_ & (_ & T) & _). rewrite T. change (IsUnaryOp 43) with true. cbn iota.
    rewrite (bind_ok _ _ _ _ _ E1), (bind_ok _ _ _ _ _ E2). reflexivity.
  - destruct (next _ _ _ H) as (s1 & E1 & H1 & Q1). destruct (IH fuel s1 ts ltac:(lia) H1) as (s2 & E2 & H2 & Q2).
    exists s2. split; [|split; [exact H2|exact (quiet_trans _ _ _ Q1 Q2)]].
    mget. destruct H as (_ & (_ & T) & _). rewrite T. change (IsUnaryOp 45) with true. cbn iota.
    rewrite (bind_ok _ _ _ _ _ E1), (bind_ok _ _ _ _ _ E2). reflexivity.
  - destruct (next _ _ _ H) as (s1 & E1 & H1 & Q1). destruct (IH fuel s1 ts ltac:(lia) H1) as (s2 & E2 & H2 & Q2).
    exists s2. split; [|split; [exact H2|exact (quiet_trans _ _ _ Q1 Q2)]].
    mget. destruct H as (_ & (_ & T) & _). rewrite T. change (IsUnaryOp 126) with true. cbn iota.
    rewrite (bind_ok _ _ _ _ _ E1), (bind_ok _ _ _ _ _ E2). unfold SccState.ret.
    change (126 =? TOK_MINUS) with false. change (126 =? TOK_TILDE) with true. cbn iota.
    pose proof (uval_range u) as R. unfold Z.lnot. change (Z.pred (- uval W u)) with (- uval W u - 1).
    assert (S : ws W (- uval W u - 1) = - uval W u - 1) by (apply ws_small; lia). rewrite S. reflexivity.
Qed.

Lemma bind_fatal {S A B} (m : M S A) (f : A -> M S B) s : m s = Fatal -> bind m f s = Fatal.
Proof. intro H. unfold SccState.bind. rewrite H. reflexivity. Qed.
Lemma bind_ub {S A B} (m : M S A) (f : A -> M S B) s : m s = UB -> bind m f s = UB.
Proof. intro H. unfold SccState.bind. rewrite H. reflexivity. Qed.
Lemma bind_fuel {S A B} (m : M S A) (f : A -> M S B) s : m s = OutOfFuel -> bind m f s = OutOfFuel.
Proof. intro H. unfold SccState.bind. rewrite H. reflexivity. Qed.
Lemma addval_step fuel x outer s m u l ts : 4 <= outer -> (depth u < fuel)%nat ->
  holds s (KPunct (if m : bool then 45 else 43) :: utoks u ++ l ++ ts) ->
  exists s', ParseExpr W (S fuel) x outer s = ParseExpr W fuel (ws W (if m then x - uval W u else x + uval W u)) outer s'
    /\ holds s' (l ++ ts) /\ quiet s s'.
Proof.
  intros O F H. destruct (next _ _ _ H) as (s1 & E1 & H1 & Q1).
  destruct (ParseUnary_spec u fuel s1 (l ++ ts) F H1) as (s2 & E2 & H2 & Q2).
  exists s2. split; [|split; [exact H2|exact (quiet_trans _ _ _ Q1 Q2)]].
  cbn [ParseExpr]. mget. pose proof (holds_tok _ _ H) as P. destruct H as (_ & (_ & T) & _). rewrite P, T.
  assert (PP : prec (KPunct (if m then 45 else 43) :: utoks u ++ l ++ ts) = 4) by (destruct m; reflexivity). rewrite PP.
  rewrite (proj2 (Z.ltb_ge outer 4)) by lia.
  rewrite (bind_ok _ _ _ _ _ E1), (bind_ok _ _ _ _ _ E2).
  destruct fuel as [|fuel]; [lia|].
  assert (R : ParseRhs W (S fuel) (uval W u) 4 s2 = Ok (uval W u, s2)).
  { cbn [ParseRhs]. mget. rewrite (holds_tok _ _ H2). pose proof (prec_ge (l ++ ts)). rewrite (proj2 (Z.leb_le 4 _)) by lia. reflexivity. }
  rewrite (bind_ok _ _ _ _ _ R). destruct m; reflexivity.
Qed.
Definition udepth (l : list (bool * unary)) : nat := fold_right (fun x n => Nat.max (depth (snd x)) n) O l.
Lemma sum_run l : forall x outer fuel s ts, 4 <= outer -> (udepth l < fuel)%nat -> holds s (sumtail l ++ ts) ->
  exists s', ParseExpr W (List.length l + fuel) x outer s = ParseExpr W fuel (sumfold W x l) outer s' /\ holds s' ts /\ quiet s s'.
Proof.
  induction l as [|[m u] l IH]; intros x outer fuel s ts O F H; cbn [sumtail flat_map app List.length Nat.add] in *.
  - exists s. split; [reflexivity|]. split; [exact H|apply quiet_refl].
  - cbn [udepth fold_right snd] in F. fold (udepth l) in F. fold (sumtail l) in H. rewrite <- app_assoc in H.
    destruct (addval_step (List.length l + fuel) x outer s m u (sumtail l) ts O ltac:(lia) H) as (s1 & E1 & H1 & Q1).
    destruct (IH (ws W (if m then x - uval W u else x + uval W u)) outer fuel s1 ts O ltac:(lia) H1) as (s2 & E2 & H2 & Q2).
    exists s2. rewrite E1, E2. split; [reflexivity|]. split; [exact H2|exact (quiet_trans _ _ _ Q1 Q2)].
Qed.
Lemma expr_stop fuel x outer s ts : holds s ts -> outer < prec ts -> ParseExpr W (S fuel) x outer s = Ok (x, s).
Proof. intros H L. cbn [ParseExpr]. mget. rewrite (holds_tok _ _ H), (proj2 (Z.ltb_lt _ _) L). reflexivity. Qed.
Lemma rhs_stop fuel x p s ts : holds s ts -> p <= prec ts -> ParseRhs W (S fuel) x p s = Ok (x, s).
Proof. intros H L. cbn [ParseRhs]. mget. rewrite (holds_tok _ _ H), (proj2 (Z.leb_le _ _) L). reflexivity. Qed.
(** the right operand of an operator weaker than + *)
Lemma rhs_sum l x p fuel s ts : 4 < p -> p <= 10 -> 4 < prec ts -> (udepth l + List.length l + 2 < fuel)%nat -> holds s (sumtail l ++ ts) ->
  exists s' fuel', ParseRhs W fuel x p s = ParseRhs W fuel' (sumfold W x l) p s' /\ holds s' ts /\ quiet s s' /\
    (fuel <= S fuel')%nat /\ (l = [] -> fuel' = fuel).
Proof.
  intros P P10 Pt F H. destruct l as [|[m u] l].
  - exists s, fuel. split; [reflexivity|]. split; [exact H|]. split; [apply quiet_refl|]. split; [lia|auto].
  - set (L := (m, u) :: l) in *. destruct fuel as [|fuel]; [lia|].
    assert (PP : prec (sumtail L ++ ts) = 4) by (unfold L; destruct m; reflexivity).
    destruct (sum_run L x 4 (fuel - List.length L) s ts ltac:(lia) ltac:(lia) H) as (s1 & E1 & H1 & Q1).
    replace (List.length L + (fuel - List.length L))%nat with fuel in E1 by lia.
    destruct (fuel - List.length L)%nat as [|k] eqn:K; [lia|].
    rewrite (expr_stop k _ 4 s1 ts H1 Pt) in E1.
    exists s1, fuel. split; [|split; [exact H1|split; [exact Q1|split; [lia|discriminate]]]].
    cbn [ParseRhs]. mget. rewrite (holds_tok _ _ H), PP. rewrite (proj2 (Z.leb_gt p 4)) by lia.
    rewrite (bind_ok _ _ _ _ _ E1). reflexivity.
Qed.
Definition sumneed (x : sum) : nat := (depth (fst x) + udepth (snd x) + List.length (snd x))%nat.
Definition shneed (l : list sum) : nat := fold_right (fun x n => (sumneed x + n)%nat) O l.
Lemma sh_binop x n s : binop W TOK_LSH x n s = if (0 <=? n) && (n <? W) then Ok (ws W (x * 2 ^ n), s) else UB.
Proof.
  unfold binop. change (TOK_LSH =? TOK_PLUS) with false. change (TOK_LSH =? TOK_MINUS) with false. change (TOK_LSH =? TOK_PIPE) with false.
  change (TOK_LSH =? TOK_LSH) with true. cbn iota. destruct ((0 <=? n) && (n <? W)) eqn:E; [|reflexivity].
  unfold SccState.ret. rewrite Z.shiftl_mul_pow2 by lia. reflexivity.
Qed.
Lemma sh_run l : forall x outer fuel s ts, 5 <= outer -> 5 <= prec ts -> (shneed l + 5 < fuel)%nat -> holds s (shtail l ++ ts) ->
  match shfold W x l with
  | Some v => exists s', ParseExpr W (List.length l + fuel) x outer s = ParseExpr W fuel v outer s' /\ holds s' ts /\ quiet s s'
  | None => ParseExpr W (List.length l + fuel) x outer s = UB
  end.
Proof.
  induction l as [|y l IH]; intros x outer fuel s ts O Pt F H; cbn [shtail flat_map app List.length Nat.add shfold] in *.
  - exists s. split; [reflexivity|]. split; [exact H|apply quiet_refl].
  - cbn [shneed fold_right] in F. fold (shneed l) in F. fold (shtail l) in H.
    assert (Pt' : 5 <= prec (shtail l ++ ts)) by (destruct l; [exact Pt|cbn; lia]).
    destruct (next _ _ _ H) as (s1 & E1 & H1 & Q1). destruct y as [u q]. unfold sumtoks in H1. cbn [fst snd] in H1.
    rewrite <- !app_assoc in H1. unfold sumneed in F. cbn [fst snd] in F.
    destruct (ParseUnary_spec u (List.length l + fuel) s1 _ ltac:(lia) H1) as (s2 & E2 & H2 & Q2).
    destruct (rhs_sum q (uval W u) 5 (List.length l + fuel) s2 (shtail l ++ ts) ltac:(lia) ltac:(lia) ltac:(lia) ltac:(lia) H2) as (s3 & f3 & E3 & H3 & Q3 & F3 & _).
    assert (E4 : ParseRhs W f3 (sumfold W (uval W u) q) 5 s3 = Ok (sumfold W (uval W u) q, s3)).
    { destruct f3 as [|f3]; [lia|]. apply rhs_stop with (shtail l ++ ts); [exact H3|exact Pt']. }
    rewrite E4 in E3.
    assert (EX : ParseExpr W (S (List.length l + fuel)) x outer s =
      if (0 <=? sumval W (u, q)) && (sumval W (u, q) <? W) then ParseExpr W (List.length l + fuel) (ws W (x * 2 ^ sumval W (u, q))) outer s3 else UB).
    { cbn [ParseExpr]. mget. pose proof (holds_tok _ _ H) as P. destruct H as (_ & T & _). cbn [loaded] in T. rewrite P, T.
      cbn [prec]. rewrite (proj2 (Z.ltb_ge outer 5)) by lia.
      rewrite (bind_ok _ _ _ _ _ E1), (bind_ok _ _ _ _ _ E2), (bind_ok _ _ _ _ _ E3).
      unfold SccState.bind at 1. fold (sumval W (u, q)). change (sumfold W (uval W u) q) with (sumval W (u, q)). change 128 with TOK_LSH. rewrite sh_binop.
      destruct ((0 <=? sumval W (u, q)) && (sumval W (u, q) <? W)); reflexivity. }
    rewrite EX. destruct ((0 <=? sumval W (u, q)) && (sumval W (u, q) <? W)); [|reflexivity].
    specialize (IH (ws W (x * 2 ^ sumval W (u, q))) outer fuel s3 ts O Pt ltac:(lia) H3).
    destruct (shfold W (ws W (x * 2 ^ sumval W (u, q))) l) as [v|]; [|exact IH].
    destruct IH as (s' & E & H' & Q'). exists s'. split; [exact E|]. split; [exact H'|].
    eapply quiet_trans; [exact Q1|]. eapply quiet_trans; [exact Q2|]. eapply quiet_trans; [exact Q3|exact Q'].
Qed.
(** the right operand of | *)
Lemma rhs_shift l x fuel s ts : 10 <= prec ts -> (shneed l + List.length l + 8 < fuel)%nat -> holds s (shtail l ++ ts) ->
  match shfold W x l with
  | Some v => exists s', ParseRhs W fuel x 10 s = Ok (v, s') /\ holds s' ts /\ quiet s s'
  | None => ParseRhs W fuel x 10 s = UB
  end.
Proof.
  intros Pt F H. destruct fuel as [|fuel]; [lia|]. destruct l as [|y l].
  - exists s. split; [|split; [exact H|apply quiet_refl]]. apply rhs_stop with ts; [exact H|exact Pt].
  - set (L := y :: l) in *.
    assert (PP : prec (shtail L ++ ts) = 5) by reflexivity.
    pose proof (sh_run L x 5 (fuel - List.length L) s ts ltac:(lia) ltac:(lia) ltac:(lia) H) as R.
    replace (List.length L + (fuel - List.length L))%nat with fuel in R by lia.
    assert (U : ParseRhs W (S fuel) x 10 s = bind (ParseExpr W fuel x 5) (fun r => ParseRhs W fuel r 10) s).
    { cbn [ParseRhs]. mget. rewrite (holds_tok _ _ H), PP. reflexivity. }
    rewrite U. destruct (shfold W x L) as [v|].
    + destruct R as (s1 & E1 & H1 & Q1). destruct (fuel - List.length L)%nat as [|k] eqn:K; [lia|].
      rewrite (expr_stop k _ 5 s1 ts H1 ltac:(lia)) in E1. exists s1. split; [|split; [exact H1|exact Q1]].
      rewrite (bind_ok _ _ _ _ _ E1). destruct fuel as [|fuel]; [lia|]. apply rhs_stop with ts; [exact H1|exact Pt].
    + unfold SccState.bind. rewrite R. reflexivity.
Qed.
Definition shiftneed (x : shift) : nat := (sumneed (fst x) + shneed (snd x) + List.length (snd x))%nat.
Definition orneed (l : list shift) : nat := fold_right (fun x n => (shiftneed x + n)%nat) O l.
Lemma or_run l : forall x fuel s ts, 15 < prec ts -> (orneed l + 15 < fuel)%nat -> holds s (ortail l ++ ts) ->
  match orfold W x l with
  | Some v => exists s', ParseExpr W (List.length l + fuel) x 15 s = Ok (v, s') /\ holds s' ts /\ quiet s s'
  | None => ParseExpr W (List.length l + fuel) x 15 s = UB
  end.
Proof.
  induction l as [|y l IH]; intros x fuel s ts Pt F H; cbn [ortail flat_map app List.length Nat.add orfold] in *.
  - exists s. destruct fuel; [lia|]. split; [apply expr_stop with ts; [exact H|exact Pt]|]. split; [exact H|apply quiet_refl].
  - cbn [orneed fold_right] in F. fold (orneed l) in F. fold (ortail l) in H.
    assert (Pt' : 10 <= prec (ortail l ++ ts)) by (destruct l; [cbn [ortail flat_map app]; lia|cbn; lia]).
    destruct (next _ _ _ H) as (s1 & E1 & H1 & Q1). destruct y as [[u q] sl]. unfold shtoks, sumtoks in H1. cbn [fst snd] in H1.
    rewrite <- !app_assoc in H1. unfold shiftneed, sumneed in F. cbn [fst snd] in F.
    destruct (ParseUnary_spec u (List.length l + fuel) s1 _ ltac:(lia) H1) as (s2 & E2 & H2 & Q2).
    assert (P4 : 4 < prec (shtail sl ++ ortail l ++ ts)) by (destruct sl; [cbn [shtail flat_map app]; lia|cbn; lia]).
    destruct (rhs_sum q (uval W u) 10 (List.length l + fuel) s2 _ ltac:(lia) ltac:(lia) P4 ltac:(lia) H2) as (s3 & f3 & E3 & H3 & Q3 & F3 & _).
    pose proof (rhs_shift sl (sumfold W (uval W u) q) f3 s3 (ortail l ++ ts) Pt' ltac:(lia) H3) as R4.
    rewrite <- E3 in R4. unfold shval. cbn [fst snd]. change (sumval W (u, q)) with (sumfold W (uval W u) q).
    assert (EX : ParseExpr W (S (List.length l + fuel)) x 15 s =
      bind (ParseRhs W (List.length l + fuel) (uval W u) 10) (fun r => ParseExpr W (List.length l + fuel) (Z.lor x r) 15) s2).
    { cbn [ParseExpr]. mget. pose proof (holds_tok _ _ H) as P. destruct H as (_ & (_ & T) & _). rewrite P, T.
      cbn [prec]. change (15 <? OperatorPrecedence 124) with false. cbn iota.
      rewrite (bind_ok _ _ _ _ _ E1), (bind_ok _ _ _ _ _ E2). change (OperatorPrecedence 124) with 10. 
      destruct (ParseRhs W (List.length l + fuel) (uval W u) 10 s2) as [[r s4]| | |] eqn:ER.
      - rewrite !(bind_ok _ _ _ _ _ ER). reflexivity.
      - rewrite !(bind_fatal _ _ _ ER). reflexivity.
      - rewrite !(bind_ub _ _ _ ER). reflexivity.
      - rewrite !(bind_fuel _ _ _ ER). reflexivity. }
    destruct (shfold W (sumfold W (uval W u) q) sl) as [n|].
    + destruct R4 as (s4 & E4 & H4 & Q4). rewrite EX, (bind_ok _ _ _ _ _ E4).
      specialize (IH (Z.lor x n) fuel s4 ts Pt ltac:(lia) H4). destruct (orfold W (Z.lor x n) l) as [v|]; [|exact IH].
      destruct IH as (s' & E & H' & Q'). exists s'. split; [exact E|]. split; [exact H'|].
      eapply quiet_trans; [exact Q1|]. eapply quiet_trans; [exact Q2|]. eapply quiet_trans; [exact Q3|].
      eapply quiet_trans; [exact Q4|exact Q'].
    + rewrite EX. unfold SccState.bind. rewrite R4. reflexivity.
Qed.
(** words the loops may need *)
Definition eneed (e : expr) : nat :=
  (shiftneed (fst e) + List.length (snd (fst (fst e))) + orneed (snd e) + List.length (snd e) + 20)%nat.
Theorem ParseNumber_spec e fuel s ts : (eneed e <= fuel)%nat -> stops ts -> holds s (etoks e ++ ts) ->
  match eval W e with
  | Some v => exists s', ParseNumber W fuel s = Ok (v, s') /\ holds s' ts /\ quiet s s'
  | None => ParseNumber W fuel s = UB
  end.
Proof.
  intros F S H. destruct e as [[[u q] sl] ol]. unfold etoks, shtoks, sumtoks in H. cbn [fst snd] in H. rewrite <- !app_assoc in H.
  unfold eneed, shiftneed, sumneed in F. cbn [fst snd] in F. unfold eval, shval. cbn [fst snd]. change (sumval W (u, q)) with (sumfold W (uval W u) q).
  destruct (ParseUnary_spec u fuel s _ ltac:(lia) H) as (s1 & E1 & H1 & Q1).
  unfold ParseNumber. rewrite (bind_ok _ _ _ _ _ E1).
  destruct (sum_run q (uval W u) 15 (fuel - List.length q) s1 _ ltac:(lia) ltac:(lia) H1) as (s2 & E2 & H2 & Q2).
  replace (List.length q + (fuel - List.length q))%nat with fuel in E2 by lia. rewrite E2.
  assert (P5 : 5 <= prec (ortail ol ++ ts)).
  { destruct ol; [|cbn; lia]. cbn [ortail flat_map app].
    destruct ts as [|[] ?]; cbn [prec]; try lia. unfold stops, opname in S. cbn [prec].
    unfold OperatorPrecedence, TOK_PLUS, TOK_MINUS, TOK_LSH, TOK_PIPE.
    destruct (Z.eqb_spec c 43) as [->|]; [tauto|]. destruct (Z.eqb_spec c 45) as [->|]; [tauto|]. cbn [orb].
    destruct (_ =? 128); [lia|]. destruct (_ =? 124); lia. }
  pose proof (sh_run sl (sumfold W (uval W u) q) 15 (fuel - List.length q - List.length sl) s2 (ortail ol ++ ts) ltac:(lia) P5 ltac:(lia) H2) as R3.
  replace (List.length sl + (fuel - List.length q - List.length sl))%nat with (fuel - List.length q)%nat in R3 by lia.
  destruct (shfold W (sumfold W (uval W u) q) sl) as [x|]; [|exact R3].
  destruct R3 as (s3 & E3 & H3 & Q3). rewrite E3.
  assert (PS : forall s', holds s' ts -> 15 < prec ts) by (intros s' H'; rewrite (stops_prec _ _ H' S); lia).
  assert (P15 : 15 < prec ts).
  { destruct ts as [|t ts]; [cbn; lia|]. unfold stops, opname in S. destruct t as [| |c| | |]; cbn [prec]; try lia; [|tauto].
    (* the word comes from the text *)
    assert (C : In c [43; 45; 58; 44; 91; 93; 124; 126]).
    { clear - H3. destruct H3 as (_ & H3). revert H3. generalize (inp s3). generalize (names s3) (used s3).
      intros ns us i. destruct (ortail ol) as [|t l]; cbn [app]; [intros ((C & _) & _); exact C|].
      intros (_ & Sp & _). clear ns us. revert i Sp. induction l as [|t' l IH]; intros i Sp; cbn [app] in Sp; inversion Sp; subst.
      - inversion H2; subst. assumption.
      - eapply IH. eassumption. }
    unfold OperatorPrecedence, TOK_PLUS, TOK_MINUS, TOK_LSH, TOK_PIPE. cbn in C.
    destruct (Z.eqb_spec c 43) as [->|]; [tauto|]. destruct (Z.eqb_spec c 45) as [->|]; [tauto|]. cbn [orb].
    destruct (Z.eqb_spec c 128); [lia|]. destruct (Z.eqb_spec c 124) as [->|]; [tauto|]. lia. }
  pose proof (or_run ol x (fuel - List.length q - List.length sl - List.length ol) s3 ts P15 ltac:(lia) H3) as R4.
  replace (List.length ol + (fuel - List.length q - List.length sl - List.length ol))%nat with (fuel - List.length q - List.length sl)%nat in R4 by lia.
  destruct (orfold W x ol) as [v|]; [|exact R4].
  destruct R4 as (s4 & E4 & H4 & Q4). exists s4. split; [exact E4|]. split; [exact H4|].
  eapply quiet_trans; [exact Q1|]. eapply quiet_trans; [exact Q2|]. eapply quiet_trans; [exact Q3|exact Q4].
Qed.
End Width.
