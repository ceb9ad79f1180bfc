(** The assembler's state while it assembles one statement: a description of it, and what the
    operand parser (sas.c:843-990) and the output functions (sas.c:473-484, 1063-1131) do to it. *)
From Coq Require Import ZArith List Bool Lia String.
From Verif Require Import Base Sas SasSym SasText SasExpr.
From Verif Require Spec8086 SasSpec.
Import ListNotations.
Open Scope Z_scope.
Notation length := List.length.

(** pending references: kind, place in the output, label *)
Definition pending := list (fixkind * Z * Z).
Definition ofl (i : Z) (P : pending) : list (fixkind * Z) :=
  flat_map (fun '(k, p, j) => if j =? i then [(k, p)] else []) P.
(** the labels: def gives the values of those defined, P the references waiting for the others;
    the labels of rf have been referred to *)
Definition labs (def : Z -> option Z) (P : pending) (rf : list (Z * list Z)) (ls : arr label) : Prop :=
  forall i, match def i with
            | Some v => l_type (aget ls i) = LABEL_NORMAL /\ l_val (aget ls i) = v /\ v <> -1
            | None => (l_type (aget ls i) = LABEL_NONE /\ ofl i P = [] /\ ~ In i (map fst rf)) \/
                      (l_type (aget ls i) = LABEL_NORMAL /\ l_val (aget ls i) = -1 /\ l_fix (aget ls i) = ofl i P)
            end.
(** the situation at the start of a statement *)
Record ctx := mkctx { c_def : Z -> option Z; c_pend : pending; c_out : arr Z; c_pos : Z; c_va : Z; c_free : Z;
                      c_names : list (list Z) }.
Fixpoint puts (o : arr Z) (p : Z) (bs : list Z) : arr Z :=
  match bs with [] => o | b :: bs => puts (aset o p b) (p + 1) bs end.
(** references within the statement: kind, place from its start, label *)
Definition fixes := list (fixkind * nat * Z).
Definition placed (p : Z) (fx : fixes) : pending := map (fun '(k, n, i) => (k, p + Z.of_nat n, i)) fx.

Lemma puts_app o p a b : puts o p (a ++ b) = puts (puts o p a) (p + Z.of_nat (length a)) b.
Proof.
  revert o p. induction a as [|x a IH]; intros; cbn [app puts length]; [f_equal; lia|].
  rewrite IH. f_equal. lia.
Qed.

Ltac mget := unfold SccState.gets at 1; unfold SccState.bind at 1; cbn beta iota.

Section Width.
Variable W : Z.
Hypothesis HW : W = 16 \/ W = 32.
Notation holds := (holds W).

(** the statement has put out the bytes bs with the references fx, the words ts follow *)
Record view (c : ctx) (s : st) (ts : list tk) (bs : list Z) (fx : fixes) (rf : list (Z * list Z)) (sz : Z) : Prop := {
  v_holds : holds s ts;
  v_labs : labs (c_def c) (placed (c_pos c) fx ++ c_pend c) rf (labels s);
  v_names : forall i nm, In (i, nm) rf -> 0 <= i /\ nth_error (names s) (Z.to_nat (i + 99)) = Some nm;
  v_bss : bss s = false;
  v_out : out s = puts (c_out c) (c_pos c) bs;
  v_pos : pos s = c_pos c + Z.of_nat (length bs);
  v_va : va s = c_va c + Z.of_nat (length bs);
  v_size : size s = sz;
  v_free : free s = c_free c - Z.of_nat (length fx);
  v_undef : forall k n i, In (k, n, i) fx -> c_def c i = None;
  v_grow : exists x, names s = c_names c ++ x }.
(** room for a statement *)
Record fits (c : ctx) : Prop := {
  f_pos : c_pos c + 8 <= 20000;
  f_va : 0 <= c_va c < 32000;
  f_free : 2 <= c_free c }.

Lemma view_quiet c s s' ts ts' bs fx rf sz : view c s ts bs fx rf sz -> quiet s s' -> holds s' ts' -> view c s' ts' bs fx rf sz.
Proof.
  intros [H1 H2 H3 H4 H5 H6 H7 H8 H9 H10 (gx & H11)] [q1 q2 q3 q4 q5 q6 q7 (x & q8)] H. split; try congruence; try exact H; [rewrite q7; exact H2| |exact H10|exists (gx ++ x); rewrite q8, H11; symmetry; apply app_assoc].
  intros i nm I. destruct (H3 i nm I) as [L N]. split; [exact L|]. rewrite q8, nth_error_app1; [exact N|].
  apply nth_error_Some. rewrite N. discriminate.
Qed.
Lemma v_next c s t ts bs fx rf sz : view c s (t :: ts) bs fx rf sz ->
  exists s', GetToken W s = Ok (tt, s') /\ view c s' ts bs fx rf sz.
Proof.
  intro V. destruct (GetToken_holds W HW _ _ _ (v_holds _ _ _ _ _ _ _ V)) as (s' & E & H & Q).
  exists s'. split; [exact E|]. eapply view_quiet; eauto.
Qed.
Lemma v_loaded c s t ts bs fx rf sz : view c s (t :: ts) bs fx rf sz -> loaded W s t.
Proof. intro V. apply (proj1 (proj2 (v_holds _ _ _ _ _ _ _ V))). Qed.
Lemma v_number c s e ts bs fx rf sz fuel v : view c s (etoks e ++ ts) bs fx rf sz -> (eneed e <= fuel)%nat -> stops ts ->
  eval W e = Some v -> exists s', ParseNumber W fuel s = Ok (v, s') /\ view c s' ts bs fx rf sz.
Proof.
  intros V F S E. pose proof (ParseNumber_spec W HW e fuel s ts F S (v_holds _ _ _ _ _ _ _ V)) as P. rewrite E in P.
  destruct P as (s' & E' & H & Q). exists s'. split; [exact E'|]. eapply view_quiet; eauto.
Qed.
Lemma v_setsize c s ts bs fx rf sz x : view c s ts bs fx rf sz -> view c (set_size s x) ts bs fx rf x.
Proof. intros [H1 H2 H3 H4 H5 H6 H7 H8 H9 H10 (gx & H11)]. split; auto; [apply holds_size; exact H1|exists gx; exact H11]. Qed.

Lemma v_byte c s ts bs fx rf sz b : fits c -> view c s ts bs fx rf sz -> (length bs < 8)%nat ->
  exists s', OutputByte W b s = Ok (tt, s') /\ view c s' ts (bs ++ [b mod 256]) fx rf sz.
Proof.
  intros [F1 F2 F3] [H1 H2 H3 H4 H5 H6 H7 H8 H9 H10 (gx & H11)] L.
  exists (set_out s (aset (out s) (pos s) (b mod 256)) (pos s + 1) (va s + 1)). split.
  - unfold OutputByte. unfold SccState.gets, SccState.bind, SccState.upd, assert. rewrite H4. cbn [negb].
    unfold OUTPUT_MAX. rewrite (proj2 (Z.ltb_lt (pos s) 20000)) by lia. cbn.
    rewrite (ci_small W HW) by lia. reflexivity.
  - split; cbn [labels names bss out pos va size free set_out]; auto.
    + apply holds_out. exact H1.
    + rewrite puts_app, <- H5, <- H6. reflexivity.
    + rewrite app_length. cbn [length]. lia.
    + rewrite app_length. cbn [length]. lia.
    + exists gx. exact H11.
Qed.
Lemma mod_shr8 x : Z.shiftr x 8 mod 256 = x / 256 mod 256.
Proof. rewrite Z.shiftr_div_pow2 by lia. reflexivity. Qed.
Lemma v_word c s ts bs fx rf sz x : fits c -> view c s ts bs fx rf sz -> (length bs < 7)%nat ->
  exists s', OutputWord W x s = Ok (tt, s') /\ view c s' ts (bs ++ [x mod 256; x / 256 mod 256]) fx rf sz.
Proof.
  intros F V L. destruct (v_byte c s ts bs fx rf sz x F V ltac:(lia)) as (s1 & E1 & V1).
  destruct (v_byte c s1 ts _ fx rf sz (Z.shiftr x 8) F V1 ltac:(rewrite app_length; cbn [length]; lia)) as (s2 & E2 & V2).
  exists s2. split.
  - unfold OutputWord. rewrite (bind_ok _ _ _ _ _ E1). exact E2.
  - rewrite <- app_assoc, mod_shr8 in V2. exact V2.
Qed.
(** a reference to a label not yet defined *)
Lemma v_fix c s ts bs fx rf sz i k : fits c -> view c s ts bs fx rf sz -> (length fx < 2)%nat ->
  c_def c i = None -> In i (map fst rf) ->
  exists s', AddFixupHere i k s = Ok (tt, s') /\ view c s' ts bs ((k, length bs, i) :: fx) rf sz.
Proof.
  intros [F1 F2 F3] [H1 H2 H3 H4 H5 H6 H7 H8 H9 H10 (gx & H11)] L D I.
  eexists. split.
  - unfold AddFixupHere, SccState.gets, SccState.bind, assert. rewrite (proj2 (Z.ltb_lt 0 (free s))) by lia. reflexivity.
  - assert (LT : forall j, aget (aset (labels s) i (mklab (l_type (aget (labels s) i)) (l_val (aget (labels s) i)) ((k, pos s) :: l_fix (aget (labels s) i)))) j
        = if j =? i then mklab (l_type (aget (labels s) i)) (l_val (aget (labels s) i)) ((k, pos s) :: l_fix (aget (labels s) i)) else aget (labels s) j).
    { intro j. rewrite aget_aset. rewrite Z.eqb_sym. reflexivity. }
    split; cbn [labels names bss out pos va size free set_labels set_free]; auto.
    + apply holds_free, holds_labels; [exact H1|]. intro j. rewrite LT. destruct (Z.eqb_spec j i) as [->|]; cbn [l_type]; apply (sy_equ _ _ (proj1 H1)).
    + intro j. specialize (H2 j). rewrite LT. destruct (Z.eqb_spec j i) as [->|N].
      * rewrite D in *. cbn [l_type l_val l_fix placed map app ofl flat_map].
        destruct H2 as [(_ & _ & B)|(B1 & B2 & B3)]; [contradiction|]. right. rewrite Z.eqb_refl. cbn [app].
        split; [exact B1|]. split; [exact B2|]. rewrite H6, B3. reflexivity.
      * destruct (c_def c j) as [v|]; [exact H2|]. cbn [placed map app ofl flat_map].
        rewrite (proj2 (Z.eqb_neq i j)) by congruence. cbn [app]. exact H2.
    + cbn [length]. lia.
    + intros k' n' j [E|E]; [injection E as <- <- <-; exact D|eapply H10; exact E].
    + exists gx. exact H11.
Qed.
Lemma placed_nil p : placed p [] = [].
Proof. reflexivity. Qed.

(** ** Labels *)
Lemma v_label c s nm ts bs fx rf sz : view c s (KName nm :: ts) bs fx rf sz ->
  exists s' i, ReferenceLabel W s = Ok (i, s') /\ view c s' ts bs fx ((i, nm) :: rf) sz /\
    l_type (aget (labels s') i) = LABEL_NORMAL /\ (forall v, c_def c i = Some v -> l_val (aget (labels s') i) = v /\ v <> -1) /\
    (c_def c i = None -> l_val (aget (labels s') i) = -1).
Proof.
  intro V. pose proof (v_loaded _ _ _ _ _ _ _ _ V) as L. destruct L as (j & J & N & T).
  set (i := tok s - TOK_USER_ID). assert (I : i = j - 99) by (unfold i, TOK_USER_ID; lia).
  set (s1 := match l_type (aget (labels s) i) with LABEL_NONE => set_labels s (aset (labels s) i (mklab LABEL_NORMAL (-1) [])) | _ => s end).
  pose proof (v_labs _ _ _ _ _ _ _ V i) as Li.
  assert (V1 : view c s1 (KName nm :: ts) bs fx ((i, nm) :: rf) sz).
  { destruct V as [H1 H2 H3 H4 H5 H6 H7 H8 H9 H10 (gx & H11)].
    assert (NM : forall k m, In (k, m) ((i, nm) :: rf) -> 0 <= k /\ nth_error (names s1) (Z.to_nat (k + 99)) = Some m).
    { intros k m [E|E].
      - injection E as <- <-. split; [lia|]. replace (i + 99) with j by lia. unfold s1. destruct (l_type _); exact N.
      - destruct (H3 k m E) as [X Y]. split; [exact X|]. unfold s1. destruct (l_type _); exact Y. }
    assert (LB : labs (c_def c) (placed (c_pos c) fx ++ c_pend c) ((i, nm) :: rf) (labels s1)).
    { intro k. specialize (H2 k). unfold s1. destruct (l_type (aget (labels s) i)) eqn:LT.
      - cbn [labels set_labels]. rewrite aget_aset. destruct (Z.eqb_spec i k) as [<-|NE].
        + destruct (c_def c i); [rewrite LT in H2; destruct H2; discriminate|]. right. cbn.
          destruct H2 as [(_ & B & _)|(B & _)]; [|congruence]. rewrite B. auto.
        + destruct (c_def c k); [exact H2|]. destruct H2 as [(B1 & B2 & B3)|B]; [left|right; exact B].
          split; [exact B1|]. split; [exact B2|]. cbn. intros [E|E]; [congruence|auto].
      - exfalso. pose proof (sy_equ _ _ (proj1 H1) i). congruence.
      - destruct (c_def c k); [exact H2|]. destruct H2 as [(B1 & B2 & B3)|B]; [left|right; exact B].
        split; [exact B1|]. split; [exact B2|]. cbn. intros [E|E]; [congruence|auto]. }
    split; auto.
    - unfold s1. destruct (l_type _) eqn:LT; auto. apply holds_labels; [exact H1|]. intro k. rewrite aget_aset.
      destruct (_ =? _); cbn; [discriminate|apply (sy_equ _ _ (proj1 H1))].
    - unfold s1. destruct (l_type _); exact H4.
    - unfold s1. destruct (l_type _); exact H5.
    - unfold s1. destruct (l_type _); exact H6.
    - unfold s1. destruct (l_type _); exact H7.
    - unfold s1. destruct (l_type _); exact H8.
    - unfold s1. destruct (l_type _); exact H9.
    - exists gx. unfold s1. destruct (l_type _); exact H11. }
  destruct (v_next _ _ _ _ _ _ _ _ V1) as (s2 & E2 & V2). exists s2, i. split.
  - unfold ReferenceLabel. unfold SccState.gets at 1 2. unfold SccState.bind at 1. unfold SccState.bind at 1. cbn beta iota. fold i.
    assert (E1 : (match l_type (aget (labels s) i) with
       | LABEL_NONE => upd (fun s => set_labels s (aset (labels s) i (mklab LABEL_NORMAL (-1) [])))
       | k => assert (is_normal k) end) s = Ok (tt, s1)).
    { unfold s1. destruct (l_type (aget (labels s) i)) eqn:LT; [reflexivity| |reflexivity].
      exfalso. pose proof (sy_equ _ _ (proj1 (v_holds _ _ _ _ _ _ _ V)) i). congruence. }
    rewrite (bind_ok _ _ _ _ _ E1). rewrite (bind_ok _ _ _ _ _ E2). reflexivity.
  - split; [exact V2|]. pose proof (v_labs _ _ _ _ _ _ _ V2 i) as L2. destruct (c_def c i) as [v|].
    + destruct L2 as (A & B & C). split; [exact A|]. split; [|discriminate]. intros v' E. injection E as <-. auto.
    + destruct L2 as [(_ & _ & B)|(A & B & C)]; [exfalso; apply B; left; reflexivity|].
      split; [exact A|]. split; [discriminate|]. auto.
Qed.

(** ** The names of the assembler *)
Lemma tok_wd s n : loaded W s (SasSpec.wd n) -> tok s = synonym (SasSpec.place n builtin_names + 256).
Proof. intros [_ H]. exact H. Qed.
Lemma below8 r : 0 <= r < 8 -> In r [0; 1; 2; 3; 4; 5; 6; 7].
Proof. cbn. lia. Qed.
Lemma below4 r : 0 <= r < 4 -> In r [0; 1; 2; 3].
Proof. cbn. lia. Qed.
Lemma tok_reg s w r : SasSpec.reg_ok r -> loaded W s (SasSpec.named (if w : bool then SasSpec.reg16_names else SasSpec.reg8_names) r) ->
  tok s = 256 + 8 * zb w + r.
Proof.
  intros R L. apply tok_wd in L. rewrite L. apply below8 in R. clear L. cbn [In] in R.
  destruct w; repeat (destruct R as [<-|R]; [vm_compute; reflexivity|]); contradiction.
Qed.
Lemma tok_seg s r : SasSpec.seg_ok r -> loaded W s (SasSpec.named SasSpec.seg_names r) -> tok s = 272 + r.
Proof.
  intros R L. apply tok_wd in L. rewrite L. apply below4 in R. clear L. cbn [In] in R.
  repeat (destruct R as [<-|R]; [vm_compute; reflexivity|]); contradiction.
Qed.
Lemma v_expect c s t ts bs fx rf sz k : view c s (t :: ts) bs fx rf sz -> tok s = k ->
  exists s', Expect W k s = Ok (tt, s') /\ view c s' ts bs fx rf sz.
Proof.
  intros V T. destruct (v_next _ _ _ _ _ _ _ _ V) as (s' & E & V'). exists s'. split; [|exact V'].
  unfold Expect, SccState.gets. unfold SccState.bind. rewrite T, Z.eqb_refl. exact E.
Qed.
Lemma v_accept c s t ts bs fx rf sz k : view c s (t :: ts) bs fx rf sz -> tok s = k ->
  exists s', Accept W k s = Ok (true, s') /\ view c s' ts bs fx rf sz.
Proof.
  intros V T. destruct (v_next _ _ _ _ _ _ _ _ V) as (s' & E & V'). exists s'. split; [|exact V'].
  unfold Accept, SccState.gets. unfold SccState.bind at 1. rewrite T, Z.eqb_refl. rewrite (bind_ok _ _ _ _ _ E). reflexivity.
Qed.
Lemma v_refuse s k : tok s <> k -> Accept W k s = Ok (false, s).
Proof. intro T. unfold Accept, SccState.gets, SccState.bind. rewrite (proj2 (Z.eqb_neq _ _) T). reflexivity. Qed.

(** ** What operands stand for *)
Definition fixval (lv : Z -> Z) (f : option Z) : Z := match f with Some i => lv i | None => 0 end.
(** values lv of the labels that agree with those already defined; NS are all the names *)
Definition env_of (NS : list (list Z)) (lv : Z -> Z) (nm : list Z) : Z :=
  match index_of nm NS with Some j => lv (Z.of_nat j - 99) | None => 0 end.
Record final (c : ctx) (rf : list (Z * list Z)) (NS : list (list Z)) (lv : Z -> Z) : Prop := {
  fi_def : forall i v, c_def c i = Some v -> lv i = v;
  fi_ref : forall i nm, In (i, nm) rf -> env_of NS lv nm = lv i }.
Definition fix_ok (c : ctx) (rf : list (Z * list Z)) (f : option Z) : Prop :=
  match f with Some i => c_def c i = None /\ In i (map fst rf) | None => True end.
Record lit_ok (c : ctx) (rf : list (Z * list Z)) (v : SasSpec.value) (o : operand) : Prop := {
  lo_type : o_type o = OPTYPE_LIT;
  lo_fix : fix_ok c rf (o_fix o);
  lo_expr : forall e, v = SasSpec.VExpr e -> o_fix o = None;
  lo_zero : o_fix o <> None -> o_disp o = 0;
  lo_val : forall NS lv, final c rf NS lv -> SasSpec.val W (env_of NS lv) v = Some (o_disp o + fixval lv (o_fix o)) }.
(** r/m bits of the addressing modes *)
Definition rm_of (b : SasSpec.base) : Z :=
  match b with SasSpec.BSI => 4 | SasSpec.BDI => 5 | SasSpec.BBP => 6 | SasSpec.BBX => 7 | SasSpec.BSIBX => 0 end.
Record mem_ok (c : ctx) (rf : list (Z * list Z)) (m : SasSpec.memory) (o : operand) : Prop := {
  mo_type : o_type o = OPTYPE_MEM;
  mo_fix : fix_ok c rf (o_fix o);
  mo_val : forall NS lv, final c rf NS lv ->
    (o_disp o + fixval lv (o_fix o)) mod 65536 = SasSpec.disp_value (env_of NS lv) m mod 65536;
  mo_mode : match SasSpec.m_base m with
            | None => o_modrm o = 6
            | Some b => (rm_of b <> 6 /\ o_modrm o = rm_of b /\ o_disp o = 0 /\ o_fix o = None) \/
                        (o_modrm o = 64 + rm_of b /\ IsShort (o_disp o) = true /\ o_fix o = None) \/
                        o_modrm o = rm_of b - 128
            end }.
Definition arg_ok (c : ctx) (rf : list (Z * list Z)) (a : SasSpec.arg) (o : operand) : Prop :=
  match a with
  | SasSpec.OReg w r => o = mkop OPTYPE_REG 0 (256 + 8 * zb w + r) None
  | SasSpec.OSeg r => o = mkop OPTYPE_REG 0 (272 + r) None
  | SasSpec.OVal v => lit_ok c rf v o
  | SasSpec.OMem m => mem_ok c rf m o
  end.
Definition arg_wf (a : SasSpec.arg) : Prop :=
  match a with
  | SasSpec.OReg w r => SasSpec.reg_ok r
  | SasSpec.OSeg r => SasSpec.seg_ok r
  | SasSpec.OVal (SasSpec.VExpr e) => eval W e <> None
  | SasSpec.OVal (SasSpec.VLabel _) => True
  | SasSpec.OMem m => SasSpec.mem_valid W m
  end.
Definition prefix_of (a : SasSpec.arg) : list Z :=
  match a with SasSpec.OMem m => if SasSpec.m_es m then [38] else [] | _ => [] end.
Definition size_after (a : SasSpec.arg) (sz : Z) : Z :=
  match a with
  | SasSpec.OMem m => match SasSpec.m_size m with Some true => 2 | Some false => 1 | None => sz end
  | _ => sz
  end.
Definition arg_need (a : SasSpec.arg) : nat :=
  match a with SasSpec.OVal (SasSpec.VExpr e) => eneed e | _ => 8%nat end.

Lemma final_weak c rf rf' NS lv : final c (rf' ++ rf) NS lv -> final c rf NS lv.
Proof. intros [A B]. split; [exact A|]. intros i nm I. apply B, in_or_app. right. exact I. Qed.
Lemma fix_weak c rf rf' f : fix_ok c rf f -> fix_ok c (rf' ++ rf) f.
Proof. destruct f; cbn; [|auto]. intros [A B]. split; [exact A|]. rewrite map_app. apply in_or_app. right. exact B. Qed.
Lemma arg_weak c rf rf' a o : arg_ok c rf a o -> arg_ok c (rf' ++ rf) a o.
Proof.
  destruct a; cbn [arg_ok]; auto.
  - intros [A B C D E]. split; auto; [apply fix_weak; exact B|]. intros NS lv F. apply E, (final_weak _ _ _ _ _ F).
  - intros [A B C D]. split; auto; [apply fix_weak; exact B|]. intros NS lv F. apply C, (final_weak _ _ _ _ _ F).
Qed.

(** ** Memory operands *)
(** the end of a round of the loop, sas.c:939-944 *)
Definition tail_ (fuel : nat) (o : operand) : M st operand :=
  let! minus := Accept W TOK_MINUS in
  if minus then mem_loop W fuel true o
  else let! plus := Accept W TOK_PLUS in
       if plus then mem_loop W fuel false o else ret o.
Lemma loop_reg c s n ts bs fx rf sz fuel neg o t m : view c s (SasSpec.wd n :: ts) bs fx rf sz ->
  synonym (SasSpec.place n builtin_names + 256) = t -> In t [267; 269; 270; 271] ->
  TranslateMemMod t (o_modrm o) = ret m ->
  exists s', view c s' ts bs fx rf sz /\ mem_loop W (S fuel) neg o s = tail_ fuel (mkop OPTYPE_MEM m (o_disp o) (o_fix o)) s'.
Proof.
  intros V T I X. destruct (v_next _ _ _ _ _ _ _ _ V) as (s' & E & V'). exists s'. split; [exact V'|].
  pose proof (tok_wd _ _ (v_loaded _ _ _ _ _ _ _ _ V)) as TK. rewrite T in TK.
  cbn [mem_loop]. mget. rewrite TK.
  assert (B1 : (TOK_ES <=? t) && (t <=? TOK_DS) = false) by (cbn in I; unfold TOK_ES, TOK_DS; lia).
  assert (B2 : (t =? TOK_BX) || (t =? TOK_BP) || (t =? TOK_SI) || (t =? TOK_DI) = true) by (cbn in I; unfold TOK_BX, TOK_BP, TOK_SI, TOK_DI; lia).
  rewrite B1, B2, X. unfold SccState.bind at 1. unfold SccState.bind at 1. unfold SccState.ret at 1. rewrite (bind_ok _ _ _ _ _ E). reflexivity.
Qed.
Lemma loop_num c s v ts bs fx rf sz fuel neg o : view c s (KNum v :: ts) bs fx rf sz ->
  exists s', view c s' ts bs fx rf sz /\ mem_loop W (S fuel) neg o s =
    tail_ fuel (mkop OPTYPE_MEM (o_modrm o) (ci W (if neg : bool then o_disp o - v else o_disp o + v)) (o_fix o)) s'.
Proof.
  intros V. destruct (v_next _ _ _ _ _ _ _ _ V) as (s' & E & V'). exists s'. split; [exact V'|].
  destruct (v_loaded _ _ _ _ _ _ _ _ V) as [TK N].
  cbn [mem_loop]. mget. rewrite TK. change ((TOK_ES <=? 1) && (1 <=? TOK_DS)) with false.
  change ((1 =? TOK_BX) || (1 =? TOK_BP) || (1 =? TOK_SI) || (1 =? TOK_DI)) with false. change (1 =? TOK_NUMBER) with true. cbn iota.
  unfold SccState.bind at 1. unfold SccState.gets at 1. unfold SccState.bind at 1. rewrite (bind_ok _ _ _ _ _ E). unfold SccState.ret at 1. rewrite N.
  destruct neg; [rewrite (ci_sub_r W HW)|rewrite (ci_add_r W HW)]; reflexivity.
Qed.
Lemma loop_label c s nm ts bs fx rf sz fuel neg o : view c s (KName nm :: ts) bs fx rf sz -> o_fix o = None ->
  exists s' i f d, view c s' ts bs fx ((i, nm) :: rf) sz /\
    mem_loop W (S fuel) neg o s = tail_ fuel (mkop OPTYPE_MEM (o_modrm o) d f) s' /\
    match c_def c i with Some v => f = None /\ d = ci W (o_disp o + v) | None => f = Some i /\ d = o_disp o end.
Proof.
  intros V NF. destruct (v_label _ _ _ _ _ _ _ _ V) as (s' & i & E & V' & T & VS & VN).
  destruct (v_loaded _ _ _ _ _ _ _ _ V) as (j & J & _ & TK).
  exists s', i, (match c_def c i with Some v => None | None => Some i end), (match c_def c i with Some v => ci W (o_disp o + v) | None => o_disp o end).
  split; [exact V'|]. split; [|destruct (c_def c i); auto].
  cbn [mem_loop]. mget. rewrite TK.
  assert (B1 : (TOK_ES <=? j + 256) && (j + 256 <=? TOK_DS) = false) by (unfold TOK_ES, TOK_DS; lia).
  assert (B2 : (j + 256 =? TOK_BX) || (j + 256 =? TOK_BP) || (j + 256 =? TOK_SI) || (j + 256 =? TOK_DI) = false) by (unfold TOK_BX, TOK_BP, TOK_SI, TOK_DI; lia).
  assert (B3 : (j + 256 =? TOK_NUMBER) = false) by (unfold TOK_NUMBER; lia).
  assert (B4 : (TOK_USER_ID <=? j + 256) = true) by (unfold TOK_USER_ID; lia).
  rewrite B1, B2, B3, B4, NF. unfold SccState.bind at 1. unfold SccState.bind at 1. unfold SccState.ret at 1.
  rewrite (bind_ok _ _ _ _ _ E). unfold SccState.gets at 1. unfold SccState.bind at 1. rewrite T. cbn [is_normal assert].
  unfold SccState.bind at 1. unfold SccState.ret at 1 2.
  destruct (c_def c i) as [v|] eqn:D.
  - destruct (VS v eq_refl) as [E1 E2]. rewrite E1, (proj2 (Z.eqb_neq v (-1)) E2). reflexivity.
  - rewrite (VN eq_refl). change (-1 =? -1) with true. cbn iota. reflexivity.
Qed.
Lemma loop_es c s ts bs fx rf sz fuel neg o : fits c -> view c s (SasSpec.wd "ES" :: KPunct 58 :: ts) bs fx rf sz -> (length bs < 8)%nat ->
  exists s', view c s' ts (bs ++ [38]) fx rf sz /\ mem_loop W (S fuel) neg o s = mem_loop W fuel neg o s'.
Proof.
  intros F V L. pose proof (tok_wd _ _ (v_loaded _ _ _ _ _ _ _ _ V)) as TK.
  let v := eval vm_compute in (synonym (SasSpec.place "ES" builtin_names + 256)) in change (synonym (SasSpec.place "ES" builtin_names + 256)) with v in TK.
  destruct (v_byte _ _ _ _ _ _ _ 38 F V L) as (s1 & E1 & V1).
  destruct (v_next _ _ _ _ _ _ _ _ V1) as (s2 & E2 & V2).
  destruct (v_expect _ _ _ _ _ _ _ _ 58 V2 (proj2 (v_loaded _ _ _ _ _ _ _ _ V2))) as (s3 & E3 & V3).
  exists s3. split; [exact V3|]. cbn [mem_loop]. mget. rewrite TK. change ((TOK_ES <=? 272) && (272 <=? TOK_DS)) with true. cbn iota.
  change (Z.lor 38 (272 - TOK_ES)) with 38. rewrite (bind_ok _ _ _ _ _ E1), (bind_ok _ _ _ _ _ E2), (bind_ok _ _ _ _ _ E3). reflexivity.
Qed.
Lemma tail_plus c s ts bs fx rf sz fuel o : view c s (KPunct 43 :: ts) bs fx rf sz ->
  exists s', view c s' ts bs fx rf sz /\ tail_ fuel o s = mem_loop W fuel false o s'.
Proof.
  intro V. pose proof (proj2 (v_loaded _ _ _ _ _ _ _ _ V)) as TK. destruct (v_accept _ _ _ _ _ _ _ _ 43 V TK) as (s' & E & V').
  exists s'. split; [exact V'|]. unfold tail_. rewrite (bind_ok _ _ _ _ _ (v_refuse s TOK_MINUS ltac:(unfold TOK_MINUS; lia))).
  rewrite (bind_ok _ _ _ _ _ E). reflexivity.
Qed.
Lemma tail_minus c s ts bs fx rf sz fuel o : view c s (KPunct 45 :: ts) bs fx rf sz ->
  exists s', view c s' ts bs fx rf sz /\ tail_ fuel o s = mem_loop W fuel true o s'.
Proof.
  intro V. pose proof (proj2 (v_loaded _ _ _ _ _ _ _ _ V)) as TK. destruct (v_accept _ _ _ _ _ _ _ _ 45 V TK) as (s' & E & V').
  exists s'. split; [exact V'|]. unfold tail_. rewrite (bind_ok _ _ _ _ _ E). reflexivity.
Qed.
Lemma tail_end c s ts bs fx rf sz fuel o : view c s (KPunct 93 :: ts) bs fx rf sz -> tail_ fuel o s = Ok (o, s).
Proof.
  intro V. pose proof (proj2 (v_loaded _ _ _ _ _ _ _ _ V)) as TK. unfold tail_.
  rewrite (bind_ok _ _ _ _ _ (v_refuse s TOK_MINUS ltac:(unfold TOK_MINUS; lia))).
  rewrite (bind_ok _ _ _ _ _ (v_refuse s TOK_PLUS ltac:(unfold TOK_PLUS; lia))). reflexivity.
Qed.

Definition sdisp (d : option (bool * Z)) : Z := match d with Some (true, v) => - v | Some (false, v) => v | None => 0 end.
Definition disp_toks (d : option (bool * Z)) : list tk :=
  match d with Some (neg, v) => [if neg : bool then KPunct 45 else SasSpec.plus; KNum v] | None => [] end.
Lemma tail_disp c s d ts bs fx rf sz fuel o : view c s (disp_toks d ++ KPunct 93 :: ts) bs fx rf sz ->
  o_type o = OPTYPE_MEM -> ci W (o_disp o) = o_disp o ->
  exists s', view c s' (KPunct 93 :: ts) bs fx rf sz /\
    tail_ (S (S fuel)) o s = Ok (mkop OPTYPE_MEM (o_modrm o) (ci W (o_disp o + sdisp d)) (o_fix o), s').
Proof.
  intros V T R. destruct d as [[[] v]|]; cbn [disp_toks app] in V; cbn [sdisp].
  - destruct (tail_minus _ _ _ _ _ _ _ (S (S fuel)) o V) as (s1 & V1 & E1). destruct (loop_num _ _ _ _ _ _ _ _ (S fuel) true o V1) as (s2 & V2 & E2).
    exists s2. split; [exact V2|]. rewrite E1, E2. rewrite (tail_end _ _ _ _ _ _ _ _ _ V2). replace (o_disp o + - v) with (o_disp o - v) by lia. reflexivity.
  - destruct (tail_plus _ _ _ _ _ _ _ (S (S fuel)) o V) as (s1 & V1 & E1). destruct (loop_num _ _ _ _ _ _ _ _ (S fuel) false o V1) as (s2 & V2 & E2).
    exists s2. split; [exact V2|]. rewrite E1, E2. rewrite (tail_end _ _ _ _ _ _ _ _ _ V2). reflexivity.
  - exists s. split; [exact V|]. rewrite (tail_end _ _ _ _ _ _ _ _ _ V). rewrite Z.add_0_r, R. destruct o; cbn in *; subst; reflexivity.
Qed.
(** what the parts after the base add up to *)
Definition adds (c : ctx) (rf : list (Z * list Z)) (lab : option (list Z)) (dd : option (bool * Z)) (f : option Z) (d : Z) : Prop :=
  fix_ok c rf f /\ (lab = None -> f = None) /\ (f <> None -> d = ci W (sdisp dd)) /\
  forall NS lv, final c rf NS lv ->
    (d + fixval lv f) mod 65536 = ((match lab with Some nm => env_of NS lv nm | None => 0 end) + sdisp dd) mod 65536.
Lemma adds_none c rf dd : adds c rf None dd None (ci W (0 + sdisp dd)).
Proof.
  split; [exact I|]. split; [reflexivity|]. split; [congruence|]. intros NS lv F. cbn [fixval].
  rewrite Z.add_0_r, (ci_mod16 W HW). reflexivity.
Qed.
Lemma adds_label c rf i nm dd : adds c ((i, nm) :: rf) (Some nm) dd (match c_def c i with Some _ => None | None => Some i end)
    (ci W (match c_def c i with Some v => ci W (0 + v) | None => 0 end + sdisp dd)).
Proof.
  destruct (c_def c i) as [v|] eqn:D.
  - split; [exact I|]. split; [reflexivity|]. split; [congruence|]. intros NS lv F. cbn [fixval].
    rewrite Z.add_0_r, (ci_mod16 W HW). rewrite <- Zplus_mod_idemp_l, (ci_mod16 W HW), Zplus_mod_idemp_l.
    rewrite (fi_ref _ _ _ _ F i nm (or_introl eq_refl)), (fi_def _ _ _ _ F i v D). reflexivity.
  - split; [split; [exact D|left; reflexivity]|]. split; [discriminate|]. split; [reflexivity|]. intros NS lv F. cbn [fixval].
    rewrite (fi_ref _ _ _ _ F i nm (or_introl eq_refl)).
    rewrite <- Zplus_mod_idemp_l, (ci_mod16 W HW), Zplus_mod_idemp_l. f_equal. lia.
Qed.
Definition label_toks (l : option (list Z)) : list tk := match l with Some nm => [SasSpec.plus; KName nm] | None => [] end.
Lemma ci0 : ci W 0 = 0.
Proof. apply (ci_small W HW). lia. Qed.
Lemma tail_rest c s l d ts bs fx rf sz fuel m : view c s (label_toks l ++ disp_toks d ++ KPunct 93 :: ts) bs fx rf sz ->
  exists s' rf' f x, view c s' (KPunct 93 :: ts) bs fx (rf' ++ rf) sz /\
    tail_ (S (S (S (S fuel)))) (mkop OPTYPE_MEM m 0 None) s = Ok (mkop OPTYPE_MEM m x f, s') /\ adds c (rf' ++ rf) l d f x.
Proof.
  intro V. destruct l as [nm|]; cbn [label_toks app] in V.
  - destruct (tail_plus _ _ _ _ _ _ _ (S (S (S (S fuel)))) (mkop OPTYPE_MEM m 0 None) V) as (s1 & V1 & E1).
    destruct (loop_label _ _ _ _ _ _ _ _ (S (S (S fuel))) false (mkop OPTYPE_MEM m 0 None) V1 eq_refl) as (s2 & i & f & x & V2 & E2 & C).
    cbn [o_modrm o_disp] in E2, C.
    assert (XX : f = match c_def c i with Some _ => None | None => Some i end /\ x = match c_def c i with Some v => ci W (0 + v) | None => 0 end).
    { destruct (c_def c i); exact C. } destruct XX as [Ef Ex].
    destruct (tail_disp _ _ d _ _ _ _ _ (S fuel) (mkop OPTYPE_MEM m x f) V2 eq_refl) as (s3 & V3 & E3).
    { cbn [o_disp]. rewrite Ex. destruct (c_def c i); [apply (ci_ci W HW)|apply ci0]. }
    exists s3, [(i, nm)], f, (ci W (x + sdisp d)). split; [exact V3|]. split; [rewrite E1, E2; exact E3|].
    rewrite Ef, Ex. apply adds_label.
  - destruct (tail_disp _ _ d _ _ _ _ _ (S (S fuel)) (mkop OPTYPE_MEM m 0 None) V eq_refl ci0) as (s3 & V3 & E3).
    exists s3, [], None, (ci W (0 + sdisp d)). split; [exact V3|]. split; [exact E3|]. apply adds_none.
Qed.
Lemma loop_base c s b ts bs fx rf sz fuel : view c s (SasSpec.base_toks b ++ ts) bs fx rf sz ->
  exists s' k, view c s' ts bs fx rf sz /\
    mem_loop W (S (S fuel)) false (mkop OPTYPE_MEM (-1) 0 None) s = tail_ (k + fuel) (mkop OPTYPE_MEM (rm_of b) 0 None) s'.
Proof.
  intro V. destruct b; cbn [SasSpec.base_toks app] in V.
  - destruct (loop_reg _ _ "SI" _ _ _ _ _ (S fuel) false (mkop OPTYPE_MEM (-1) 0 None) 270 4 V ltac:(vm_compute; reflexivity) ltac:(cbn; tauto) eq_refl) as (s1 & V1 & E1). exists s1, 1%nat. split; [exact V1|exact E1].
  - destruct (loop_reg _ _ "DI" _ _ _ _ _ (S fuel) false (mkop OPTYPE_MEM (-1) 0 None) 271 5 V ltac:(vm_compute; reflexivity) ltac:(cbn; tauto) eq_refl) as (s1 & V1 & E1). exists s1, 1%nat. split; [exact V1|exact E1].
  - destruct (loop_reg _ _ "BP" _ _ _ _ _ (S fuel) false (mkop OPTYPE_MEM (-1) 0 None) 269 6 V ltac:(vm_compute; reflexivity) ltac:(cbn; tauto) eq_refl) as (s1 & V1 & E1). exists s1, 1%nat. split; [exact V1|exact E1].
  - destruct (loop_reg _ _ "BX" _ _ _ _ _ (S fuel) false (mkop OPTYPE_MEM (-1) 0 None) 267 7 V ltac:(vm_compute; reflexivity) ltac:(cbn; tauto) eq_refl) as (s1 & V1 & E1). exists s1, 1%nat. split; [exact V1|exact E1].
  - destruct (loop_reg _ _ "SI" _ _ _ _ _ (S fuel) false (mkop OPTYPE_MEM (-1) 0 None) 270 4 V ltac:(vm_compute; reflexivity) ltac:(cbn; tauto) eq_refl) as (s1 & V1 & E1).
    destruct (tail_plus _ _ _ _ _ _ _ (S fuel) (mkop OPTYPE_MEM 4 0 None) V1) as (s2 & V2 & E2).
    destruct (loop_reg _ _ "BX" _ _ _ _ _ fuel false (mkop OPTYPE_MEM (4) 0 None) 267 0 V2 ltac:(vm_compute; reflexivity) ltac:(cbn; tauto) eq_refl) as (s3 & V3 & E3).
    exists s3, 0%nat. split; [exact V3|]. rewrite E1. cbn [o_disp o_fix]. rewrite E2. exact E3.
Qed.

Lemma ParseMem_spec c s m ts bs fx rf sz fuel : fits c -> SasSpec.mem_valid W m -> (length bs < 8)%nat ->
  view c s ((if SasSpec.m_es m then [SasSpec.wd "ES"; KPunct 58] else []) ++ SasSpec.addr_toks m ++ KPunct 93 :: ts) bs fx rf sz ->
  exists s' rf' o, ParseMem W (S (S (S (S (S (S (S fuel))))))) s = Ok (o, s') /\
    view c s' ts (bs ++ if SasSpec.m_es m then [38] else []) fx (rf' ++ rf) sz /\ mem_ok c (rf' ++ rf) m o.
Proof.
  intros F [MV BV] L V.
  (* the prefix *)
  assert (P : exists s1 k, view c s1 (SasSpec.addr_toks m ++ KPunct 93 :: ts) (bs ++ if SasSpec.m_es m then [38] else []) fx rf sz /\
     mem_loop W (S (S (S (S (S (S (S fuel))))))) false (mkop OPTYPE_MEM (-1) 0 None) s =
     mem_loop W (S (S (S (S (S (S (k + fuel))))))) false (mkop OPTYPE_MEM (-1) 0 None) s1).
  { destruct (SasSpec.m_es m).
    - destruct (loop_es _ _ _ _ _ _ _ (S (S (S (S (S (S fuel)))))) false (mkop OPTYPE_MEM (-1) 0 None) F V L) as (s1 & V1 & E1).
      exists s1, 0%nat. split; [exact V1|exact E1].
    - exists s, 1%nat. rewrite app_nil_r. split; [exact V|reflexivity]. }
  destruct P as (s1 & k & V1 & E1). clear V. revert V1 E1. generalize (k + fuel)%nat as fu. generalize (bs ++ if SasSpec.m_es m then [38] else []) as bs1.
  clear L. intros bs1 fu V1 E1.
  (* the parts *)
  assert (Q : exists s2 rf' f x, view c s2 (KPunct 93 :: ts) bs1 fx (rf' ++ rf) sz /\
      mem_loop W (S (S (S (S (S (S fu)))))) false (mkop OPTYPE_MEM (-1) 0 None) s1 =
        Ok (mkop OPTYPE_MEM (match SasSpec.m_base m with Some b => rm_of b | None => -1 end) x f, s2) /\
      adds c (rf' ++ rf) (SasSpec.m_label m) (SasSpec.m_disp m) f x).
  { unfold SasSpec.addr_toks in V1. destruct (SasSpec.m_base m) as [b|].
    - assert (V1' : view c s1 (SasSpec.base_toks b ++ label_toks (SasSpec.m_label m) ++ disp_toks (SasSpec.m_disp m) ++ KPunct 93 :: ts) bs1 fx rf sz).
      { destruct (SasSpec.m_label m) as [nm|]; destruct (SasSpec.m_disp m) as [[ng v]|]; destruct b; exact V1. }
      destruct (loop_base _ _ _ _ _ _ _ _ (S (S (S (S fu)))) V1') as (s2 & k' & V2 & E2).
      assert (K : exists k2, (k' + S (S (S (S fu))) = S (S (S (S k2))))%nat) by (exists (k' + fu)%nat; lia).
      destruct K as (k2 & K). rewrite K in E2.
      destruct (tail_rest _ _ _ _ _ _ _ _ _ k2 (rm_of b) V2) as (s3 & rf' & f & x & V3 & E3 & A).
      exists s3, rf', f, x. split; [exact V3|]. split; [rewrite E2; exact E3|exact A].
    - destruct (SasSpec.m_label m) as [nm|] eqn:ML.
      + assert (V1' : view c s1 (KName nm :: disp_toks (SasSpec.m_disp m) ++ KPunct 93 :: ts) bs1 fx rf sz).
        { destruct (SasSpec.m_disp m) as [[ng v]|]; exact V1. }
        destruct (loop_label _ _ _ _ _ _ _ _ (S (S (S (S (S fu))))) false (mkop OPTYPE_MEM (-1) 0 None) V1' eq_refl) as (s2 & i & f & x & V2 & E2 & C).
        cbn [o_modrm o_disp] in E2, C.
        assert (XX : f = match c_def c i with Some _ => None | None => Some i end /\ x = match c_def c i with Some v => ci W (0 + v) | None => 0 end).
        { destruct (c_def c i); exact C. } destruct XX as [Ef Ex].
        destruct (tail_disp _ _ (SasSpec.m_disp m) _ _ _ _ _ (S (S (S fu))) (mkop OPTYPE_MEM (-1) x f) V2 eq_refl) as (s3 & V3 & E3).
        { cbn [o_disp]. rewrite Ex. destruct (c_def c i); [apply (ci_ci W HW)|apply ci0]. }
        exists s3, [(i, nm)], f, (ci W (x + sdisp (SasSpec.m_disp m))). split; [exact V3|]. split; [rewrite E2; exact E3|].
        rewrite Ef, Ex. apply adds_label.
      + destruct MV as [MV|[MV|(v & MV)]]; [congruence|congruence|]. rewrite MV in V1 |- *. cbn [app] in V1.
        destruct (loop_num _ _ _ _ _ _ _ _ (S (S (S (S (S fu))))) false (mkop OPTYPE_MEM (-1) 0 None) V1) as (s2 & V2 & E2).
        exists s2, [], None, (ci W (0 + v)). split; [exact V2|]. split; [rewrite E2; exact (tail_end _ _ _ _ _ _ _ _ _ V2)|].
        exact (adds_none c rf (Some (false, v))). }
  destruct Q as (s2 & rf' & f & x & V2 & E2 & A).
  destruct (v_expect _ _ _ _ _ _ _ _ 93 V2 (proj2 (v_loaded _ _ _ _ _ _ _ _ V2))) as (s3 & E3 & V3).
  exists s3, rf'. eexists. split.
  { unfold ParseMem. rewrite (bind_ok _ _ _ _ _ (eq_trans E1 E2)), (bind_ok _ _ _ _ _ E3). reflexivity. }
  split; [exact V3|]. destruct A as (A1 & A2 & A3 & A4).
  split; [reflexivity|exact A1| |].
  - intros NS lv FI. cbn [o_disp o_fix mem_mode]. rewrite (A4 NS lv FI). reflexivity.
  - unfold mem_mode. cbn [o_modrm o_disp o_fix]. destruct (SasSpec.m_base m) as [b|]; [|reflexivity].
    assert (BP : b = SasSpec.BBP -> f <> None -> x <> 0).
    { intros -> NF X. specialize (A3 NF). destruct (BV eq_refl ltac:(intro; tauto)) as (ng & v & D & NZ). apply NZ.
      pose proof (mod_ci W HW (sdisp (SasSpec.m_disp m))) as MC. rewrite <- A3, X, D in MC. rewrite Z.mod_0_l in MC by (destruct HW as [-> | ->]; lia).
      cbn [sdisp] in MC. destruct ng; [|congruence]. symmetry in MC. apply Z_mod_zero_opp_full in MC. rewrite Z.opp_involutive in MC. exact MC. }
    destruct f as [i|].
    + right. right. destruct b; cbn [rm_of]; try reflexivity. specialize (BP eq_refl ltac:(discriminate)).
      rewrite (proj2 (Z.eqb_neq x 0) BP). reflexivity.
    + destruct (Z.eqb_spec x 0) as [->|NX].
      * destruct b; cbn [rm_of]; [left|left|right; left|left|left]; repeat split; lia.
      * rewrite andb_false_r. right. destruct (IsShort x) eqn:SH; [left|right]; destruct b; repeat split; reflexivity.
Qed.

Lemma etoks_head e : exists t l, etoks e = t :: l /\ (forall s, loaded W s t -> (tok s =? TOK_NUMBER) || (tok s =? TOK_STRING) || IsUnaryOp (tok s) = true) /\ t <> SasSpec.wd "SHORT".
Proof.
  destruct e as [[[u q] sl] ol]. unfold etoks, shtoks, sumtoks. cbn [fst snd].
  destruct u; cbn [utoks app]; eexists; eexists; (split; [reflexivity|]); (split; [|discriminate]); intros s L; cbn [loaded] in L; destruct L as [L1 L2];
    first [rewrite L1; reflexivity | rewrite L2; reflexivity].
Qed.
Theorem ParseOperand_spec c s a ts bs fx rf sz fuel : fits c -> arg_wf a -> stops ts -> (length bs < 8)%nat -> (arg_need a <= fuel)%nat ->
  view c s (SasSpec.arg_toks a ++ ts) bs fx rf sz ->
  exists s' rf' o, ParseOperand W fuel s = Ok (o, s') /\ view c s' ts (bs ++ prefix_of a) fx (rf' ++ rf) (size_after a sz) /\ arg_ok c (rf' ++ rf) a o.
Proof.
  intros F WF ST L N V. destruct a as [w r|r|v|m]; cbn [SasSpec.arg_toks app] in V; cbn [arg_wf] in WF; cbn [prefix_of size_after arg_ok].
  - pose proof (tok_reg _ _ _ WF (v_loaded _ _ _ _ _ _ _ _ V)) as TK. destruct (v_next _ _ _ _ _ _ _ _ V) as (s1 & E1 & V1).
    exists s1, [], (mkop OPTYPE_REG 0 (tok s) None). split; [|split; [rewrite app_nil_r; exact V1|rewrite TK; reflexivity]].
    unfold ParseOperand. mget. unfold SasSpec.reg_ok in WF.
    assert (B : 256 <= tok s < 272) by (destruct w; cbn [zb] in TK; lia).
    replace ((tok s =? TOK_NUMBER) || (tok s =? TOK_STRING) || IsUnaryOp (tok s)) with false by (unfold TOK_NUMBER, TOK_STRING, IsUnaryOp, TOK_PLUS, TOK_MINUS, TOK_TILDE; lia).
    replace (tok s =? TOK_LBRACKET) with false by (unfold TOK_LBRACKET; lia).
    replace ((tok s =? TOK_BYTE) || (tok s =? TOK_WORD)) with false by (unfold TOK_BYTE, TOK_WORD; lia).
    replace ((TOK_AL <=? tok s) && (tok s <=? TOK_DS)) with true by (unfold TOK_AL, TOK_DS; lia).
    rewrite (bind_ok _ _ _ _ _ E1). reflexivity.
  - pose proof (tok_seg _ _ WF (v_loaded _ _ _ _ _ _ _ _ V)) as TK. destruct (v_next _ _ _ _ _ _ _ _ V) as (s1 & E1 & V1).
    exists s1, [], (mkop OPTYPE_REG 0 (tok s) None). split; [|split; [rewrite app_nil_r; exact V1|rewrite TK; reflexivity]].
    unfold ParseOperand. mget. unfold SasSpec.seg_ok in WF.
    assert (B : 272 <= tok s < 276) by lia.
    replace ((tok s =? TOK_NUMBER) || (tok s =? TOK_STRING) || IsUnaryOp (tok s)) with false by (unfold TOK_NUMBER, TOK_STRING, IsUnaryOp, TOK_PLUS, TOK_MINUS, TOK_TILDE; lia).
    replace (tok s =? TOK_LBRACKET) with false by (unfold TOK_LBRACKET; lia).
    replace ((tok s =? TOK_BYTE) || (tok s =? TOK_WORD)) with false by (unfold TOK_BYTE, TOK_WORD; lia).
    replace ((TOK_AL <=? tok s) && (tok s <=? TOK_DS)) with true by (unfold TOK_AL, TOK_DS; lia).
    rewrite (bind_ok _ _ _ _ _ E1). reflexivity.
  - destruct v as [e|nm]; cbn [SasSpec.value_toks app] in V.
    + cbn [arg_need] in N. destruct (eval W e) as [x|] eqn:EV; [|congruence].
      destruct (v_number _ _ _ _ _ _ _ _ _ _ V N ST EV) as (s1 & E1 & V1).
      exists s1, [], (mkop OPTYPE_LIT 0 x None). split; [|split; [rewrite app_nil_r; exact V1|]].
      * unfold ParseOperand. mget. destruct (etoks_head e) as (t & l & EH & TT & _). rewrite EH in V. rewrite (TT s (v_loaded _ _ _ _ _ _ _ _ V)).
        rewrite (bind_ok _ _ _ _ _ E1). reflexivity.
      * split; [reflexivity|exact I|reflexivity|cbn; congruence|]. intros NS lv FI. cbn. rewrite EV. f_equal. lia.
    + destruct (v_label _ _ _ _ _ _ _ _ V) as (s1 & i & E1 & V1 & T & VS & VN).
      destruct (v_loaded _ _ _ _ _ _ _ _ V) as (j & J & _ & TK).
      exists s1, [(i, nm)], (match c_def c i with Some v => mkop OPTYPE_LIT 0 v None | None => mkop OPTYPE_LIT 0 0 (Some i) end).
      split; [|split; [rewrite app_nil_r; exact V1|]].
      * unfold ParseOperand. mget. rewrite TK.
        replace ((j + 256 =? TOK_NUMBER) || (j + 256 =? TOK_STRING) || IsUnaryOp (j + 256)) with false by (unfold TOK_NUMBER, TOK_STRING, IsUnaryOp, TOK_PLUS, TOK_MINUS, TOK_TILDE; lia).
        replace (j + 256 =? TOK_LBRACKET) with false by (unfold TOK_LBRACKET; lia).
        replace ((j + 256 =? TOK_BYTE) || (j + 256 =? TOK_WORD)) with false by (unfold TOK_BYTE, TOK_WORD; lia).
        replace ((TOK_AL <=? j + 256) && (j + 256 <=? TOK_DS)) with false by (unfold TOK_AL, TOK_DS; lia).
        replace (TOK_USER_ID <=? j + 256) with true by (unfold TOK_USER_ID; lia).
        rewrite (bind_ok _ _ _ _ _ E1). mget. rewrite T. cbn [is_normal assert]. unfold SccState.bind, SccState.ret.
        destruct (c_def c i) as [v|] eqn:D.
        -- destruct (VS v eq_refl) as [X Y]. rewrite X, (proj2 (Z.eqb_neq v (-1)) Y). reflexivity.
        -- rewrite (VN eq_refl). reflexivity.
      * destruct (c_def c i) as [v|] eqn:D.
        -- split; [reflexivity|exact I|discriminate|cbn; congruence|]. intros NS lv FI. cbn [SasSpec.val o_disp o_fix fixval].
           rewrite (fi_ref _ _ _ _ FI i nm (or_introl eq_refl)), (fi_def _ _ _ _ FI i v D). f_equal. lia.
        -- split; [reflexivity|split; [exact D|left; reflexivity]|discriminate|reflexivity|]. intros NS lv FI. cbn [SasSpec.val o_disp o_fix fixval].
           rewrite (fi_ref _ _ _ _ FI i nm (or_introl eq_refl)). f_equal.
  - cbn [arg_need] in N. destruct fuel as [|[|[|[|[|[|[|fuel]]]]]]]; try lia.
    unfold SasSpec.mem_toks in V. rewrite <- !app_assoc in V.
    assert (X : exists s1, view c s1 ([KPunct 91] ++ (if SasSpec.m_es m then [SasSpec.wd "ES"; KPunct 58] else []) ++ SasSpec.addr_toks m ++ [KPunct 93] ++ ts) bs fx rf (size_after (SasSpec.OMem m) sz) /\
      forall s2 f, GetToken W s1 = Ok (tt, s2) -> f = S (S (S (S (S (S (S fuel)))))) -> ParseOperand W f s = ParseMem W f s2).
    { cbn [size_after]. destruct (SasSpec.m_size m) as [[]|].
      - cbn [app] in V. pose proof (tok_wd _ _ (v_loaded _ _ _ _ _ _ _ _ V)) as TK.
        let v := eval vm_compute in (synonym (SasSpec.place "WORD" builtin_names + 256)) in change (synonym (SasSpec.place "WORD" builtin_names + 256)) with v in TK.
        destruct (v_next _ _ _ _ _ _ _ _ (v_setsize _ _ _ _ _ _ _ 2 V)) as (s1 & E1 & V1). exists s1. split; [exact V1|].
        intros s2 f E2 Ef. unfold ParseOperand. mget. rewrite TK. change ((278 =? TOK_NUMBER) || (278 =? TOK_STRING) || IsUnaryOp 278) with false.
        change (278 =? TOK_LBRACKET) with false. change ((278 =? TOK_BYTE) || (278 =? TOK_WORD)) with true. change (278 =? TOK_BYTE) with false. cbn iota.
        unfold SccState.upd. unfold SccState.bind at 1. rewrite (bind_ok _ _ _ _ _ E1). unfold Expect. unfold SccState.bind at 1 2. unfold SccState.gets.
        rewrite (proj2 (v_loaded _ _ _ _ _ _ _ _ V1)). change (91 =? TOK_LBRACKET) with true. cbn iota. rewrite E2. reflexivity.
      - cbn [app] in V. pose proof (tok_wd _ _ (v_loaded _ _ _ _ _ _ _ _ V)) as TK.
        let v := eval vm_compute in (synonym (SasSpec.place "BYTE" builtin_names + 256)) in change (synonym (SasSpec.place "BYTE" builtin_names + 256)) with v in TK.
        destruct (v_next _ _ _ _ _ _ _ _ (v_setsize _ _ _ _ _ _ _ 1 V)) as (s1 & E1 & V1). exists s1. split; [exact V1|].
        intros s2 f E2 Ef. unfold ParseOperand. mget. rewrite TK. change ((276 =? TOK_NUMBER) || (276 =? TOK_STRING) || IsUnaryOp 276) with false.
        change (276 =? TOK_LBRACKET) with false. change ((276 =? TOK_BYTE) || (276 =? TOK_WORD)) with true. change (276 =? TOK_BYTE) with true. cbn iota.
        unfold SccState.upd. unfold SccState.bind at 1. rewrite (bind_ok _ _ _ _ _ E1). unfold Expect. unfold SccState.bind at 1 2. unfold SccState.gets.
        rewrite (proj2 (v_loaded _ _ _ _ _ _ _ _ V1)). change (91 =? TOK_LBRACKET) with true. cbn iota. rewrite E2. reflexivity.
      - exists s. split; [exact V|]. intros s2 f E2 Ef. unfold ParseOperand. mget.
        rewrite (proj2 (v_loaded _ _ _ _ _ _ _ _ V)). change ((91 =? TOK_NUMBER) || (91 =? TOK_STRING) || IsUnaryOp 91) with false.
        change (91 =? TOK_LBRACKET) with true. cbn iota. rewrite (bind_ok _ _ _ _ _ E2). reflexivity. }
    destruct X as (s1 & V1 & PO). cbn [app] in V1. destruct (v_next _ _ _ _ _ _ _ _ V1) as (s2 & E2 & V2).
    destruct (ParseMem_spec c s2 m ts bs fx rf _ fuel F WF L V2) as (s3 & rf' & o & E3 & V3 & MO).
    exists s3, rf', o. split; [|split; [exact V3|exact MO]]. rewrite (PO s2 _ E2 eq_refl). exact E3.
Qed.
(** two operands *)
Theorem Parse2_spec c s a b ts sz fuel : fits c -> arg_wf a -> arg_wf b -> stops ts -> (arg_need a <= fuel)%nat -> (arg_need b <= fuel)%nat ->
  view c s (SasSpec.arg_toks a ++ SasSpec.comma :: SasSpec.arg_toks b ++ ts) [] [] [] sz ->
  exists s' rf oa ob, Parse2Operands W fuel s = Ok ((oa, ob), s') /\
    view c s' ts (prefix_of a ++ prefix_of b) [] rf (size_after b (size_after a sz)) /\ arg_ok c rf a oa /\ arg_ok c rf b ob.
Proof.
  intros F WA WB ST NA NB V.
  assert (S1 : stops (SasSpec.comma :: SasSpec.arg_toks b ++ ts)) by (intros [X|[X|[X|X]]]; discriminate).
  destruct (ParseOperand_spec c s a _ [] [] [] sz fuel F WA S1 ltac:(cbn; lia) NA V) as (s1 & rf1 & oa & E1 & V1 & A1).
  destruct (v_expect _ _ _ _ _ _ _ _ 44 V1 (proj2 (v_loaded _ _ _ _ _ _ _ _ V1))) as (s2 & E2 & V2).
  assert (L : (length ([] ++ prefix_of a) < 8)%nat) by (destruct a as [| | |m]; cbn; try lia; destruct (SasSpec.m_es m); cbn; lia).
  destruct (ParseOperand_spec c s2 b ts _ _ _ _ fuel F WB ST L NB V2) as (s3 & rf2 & ob & E3 & V3 & A3).
  exists s3, (rf2 ++ rf1 ++ []), oa, ob. split; [|split; [exact V3|split; [apply arg_weak; exact A1|exact A3]]].
  unfold Parse2Operands. rewrite (bind_ok _ _ _ _ _ E1), (bind_ok _ _ _ _ _ E2), (bind_ok _ _ _ _ _ E3). reflexivity.
Qed.
End Width.
