(** Types in the tables of scc.c, their sizes, struct members and array bounds, against TypeSpec.v. *)
From Verif Require Import Base SccState SccEmit SccLex SccDecl SccExpr SccStmt TypeSpec.

(** ** What a type word and its extra word stand for (scc.c:261-283, 298-328) *)
Definition pointerish : Z := Z.lor VT_PTRMASK VT_FUNPTR.
Inductive denotes (d : dcst) : Z -> Z -> cty -> Prop :=
| den_ptr T X : hasb T pointerish = true -> denotes d T X TPtr
| den_int T X : hasb T pointerish = false -> Z.land T VT_BASEMASK = VT_INT -> denotes d T X TInt
| den_char T X : hasb T pointerish = false -> Z.land T VT_BASEMASK = VT_CHAR -> denotes d T X TChar
| den_arr T X e : hasb T pointerish = false -> Z.land T VT_BASEMASK = VT_ARRAY -> 0 <= X < ArrayCount d -> aget (ADBound d) X <> 0 ->
    denotes d (aget (ADType d) X) (aget (ADExtra d) X) e -> denotes d T X (TArr (aget (ADBound d) X) e)
| den_rec T X ms : hasb T pointerish = false -> Z.land T VT_BASEMASK = VT_STRUCT -> 0 <= X < StructCount d ->
    members d (aget (SDMembers d) X) ms -> denotes d T X (TRec (hasb (aget (SDId d) X) IS_UNION_FLAG) ms)
with members (d : dcst) : Z -> list (Z * cty) -> Prop :=
| mem_nil : members d 0 nil
| mem_cons sm t ms : 0 < sm <= StructMemCount d -> Z.land (aget (SMType d) (sm - 1)) VT_LOCMASK = 0 -> (* no location bits *)
    denotes d (aget (SMType d) (sm - 1)) (aget (SMExtra d) (sm - 1)) t ->
    members d (aget (SMNext d) (sm - 1)) ms -> members d sm ((aget (SMId d) (sm - 1), t) :: ms).

Scheme denotes_ind2 := Minimality for denotes Sort Prop with members_ind2 := Minimality for members Sort Prop.

(** at most as many members as there are table entries, at every level *)
Fixpoint narrow (t : cty) : Prop :=
  match t with
  | TArr _ e => narrow e
  | TRec _ ms => Z.of_nat (length ms) <= STRUCT_MEMBER_MAX /\
      (fix go (l : list (Z * cty)) := match l with nil => True | (_, m) :: r => narrow m /\ go r end) ms
  | _ => True
  end.
Fixpoint narrows (l : list (Z * cty)) : Prop := match l with nil => True | (_, m) :: r => narrow m /\ narrows r end.
Lemma narrow_rec u ms : narrow (TRec u ms) = (Z.of_nat (length ms) <= STRUCT_MEMBER_MAX /\ narrows ms).
Proof. reflexivity. Qed.
Lemma depth_rec u ms : depth (TRec u ms) = S (depths ms).
Proof. reflexivity. Qed.
Lemma size_struct ms : size (TRec false ms) = sum_sizes ms.
Proof. reflexivity. Qed.
Lemma size_union ms : size (TRec true ms) = max_sizes ms.
Proof. reflexivity. Qed.

(** ** sizeof *)
Lemma members_size_ok d u sz : forall k ms sm acc, members d sm ms -> (length ms < k)%nat ->
  (forall T X t, denotes d T X t -> (exists i, In (i, t) ms) -> sz T X = Ok (size t)) ->
  members_size sz d u k sm acc = Ok (if u then Z.max acc (max_sizes ms) else acc + sum_sizes ms) \/ (u = true /\ acc < 0).
Proof.
  induction k as [|k IH]; intros ms sm acc M L Hs; [lia|].
  cbn [members_size]. inversion M as [|sm' t ms' Hn _ D M']; subst.
  - change (0 =? 0) with true. cbv iota. cbn [max_sizes sum_sizes].
    destruct u; [destruct (Z_lt_dec acc 0); [auto|]|]; left; f_equal; lia.
  - replace (sm =? 0) with false by lia.
    rewrite (Hs _ _ t D) by (eexists; left; reflexivity). cbn [length max_sizes sum_sizes] in *.
    destruct (IH ms' (aget (SMNext d) (sm - 1)) (if u then if acc <? size t then size t else acc else acc + size t) M' ltac:(lia)) as [->|[Hu Ha]].
    + intros T X t' D' [i Hi]. apply (Hs T X t' D'). exists i. right. exact Hi.
    + left. f_equal. destruct u; [|lia]. destruct (acc <? size t) eqn:E; lia.
    + subst u. destruct (acc <? size t) eqn:E; right; split; auto; lia.
Qed.
Lemma sizeof_ok d : forall n T X t, denotes d T X t -> (depth t < n)%nat -> narrow t -> SizeofType_ n d T X = Ok (size t).
Proof.
  induction n as [|n IH]; intros T X t D Hn Hw; [lia|].
  cbn [SizeofType_]. fold pointerish. destruct D as [T X H|T X H B|T X H B|T X e H B NR N D|T X ms H B XR M]; rewrite H.
  - reflexivity.
  - rewrite B. reflexivity.
  - rewrite B. reflexivity.
  - rewrite B. change (VT_ARRAY =? VT_INT) with false. change (VT_ARRAY =? VT_CHAR) with false.
    change (VT_ARRAY =? VT_ARRAY) with true. cbv iota. replace (aget (ADBound d) X =? 0) with false by lia.
    cbn [depth narrow] in *. rewrite (IH _ _ e D) by (try assumption; lia). reflexivity.
  - rewrite B. change (VT_STRUCT =? VT_INT) with false. change (VT_STRUCT =? VT_CHAR) with false.
    change (VT_STRUCT =? VT_ARRAY) with false. change (VT_STRUCT =? VT_STRUCT) with true. cbv iota.
    rewrite depth_rec in Hn. rewrite narrow_rec in Hw. destruct Hw as [Hl Hw].
    destruct (members_size_ok d (hasb (aget (SDId d) X) IS_UNION_FLAG) (SizeofType_ n d) (S (Z.to_nat STRUCT_MEMBER_MAX)) ms (aget (SDMembers d) X) 0 M)
      as [->|[_ F]]; [lia| |apply (f_equal (@Ok Z))|lia].
    + intros T' X' t' D' [i Hi]. apply IH; [exact D'| |].
      * assert (depth t' <= depths ms)%nat; [|lia]. clear -Hi. induction ms as [|[j m] r IHr]; [destruct Hi|].
        cbn [depths]. destruct Hi as [Hi|Hi]; [inversion Hi; subst; lia|]. specialize (IHr Hi). lia.
      * clear -Hi Hw. induction ms as [|[j m] r IHr]; [destruct Hi|]. cbn [narrows] in Hw. destruct Hw as [Hm Hr].
        destruct Hi as [Hi|Hi]; [inversion Hi; subst; exact Hm|]. auto.
    + destruct (hasb (aget (SDId d) X) IS_UNION_FLAG); [rewrite size_union|rewrite size_struct; reflexivity].
      assert (0 <= max_sizes ms); [|lia]. clear. induction ms as [|[j m] r IHr]; cbn [max_sizes]; lia.
Qed.
Lemma SizeofType_ok d T X t : denotes d T X t -> (depth t < sizeof_fuel)%nat -> narrow t -> SizeofType T X d = Ok (size t, d).
Proof. intros D H N. unfold SizeofType. rewrite (sizeof_ok _ _ _ _ _ D H N). reflexivity. Qed.

(** ** Members *)
Lemma find_member_ok d : forall k ms sm id base off t, members d sm ms -> (length ms < k)%nat ->
  (forall i m, In (i, m) ms -> (depth m < sizeof_fuel)%nat /\ narrow m) ->
  member false ms id = Some (off, t) ->
  exists m, m <> 0 /\ find_member k sm id base d = Ok ((m, base + off), d) /\
    denotes d (aget (SMType d) (m - 1)) (aget (SMExtra d) (m - 1)) t /\ aget (SMId d) (m - 1) = id /\ Z.land (aget (SMType d) (m - 1)) VT_LOCMASK = 0.
Proof.
  induction k as [|k IH]; intros ms sm id base off t M L Hs F; [lia|].
  inversion M as [|sm' t0 ms' Hn HLoc D M']; subst; [discriminate F|].
  cbn [find_member member] in *. replace (sm =? 0) with false by lia.
  unfold SccState.bind at 1. cbn [gets].
  destruct (Z.eqb_spec (aget (SMId d) (sm - 1)) id) as [E|E].
  - inversion F; subst. exists sm. rewrite Z.add_0_r. split; [lia|]. auto.
  - destruct (member false ms' id) as [[off' t']|] eqn:Fm; [|discriminate F]. cbn [option_map fst snd] in F.
    inversion F; subst. unfold SccState.bind at 1. cbn [gets]. unfold SccState.bind at 1. cbn [gets].
    destruct (Hs _ _ (or_introl eq_refl)) as [Hd Hw].
    unfold SccState.bind at 1. rewrite (SizeofType_ok _ _ _ _ D Hd Hw).
    unfold SccState.bind at 1. cbn [gets].
    destruct (IH ms' (aget (SMNext d) (sm - 1)) id (base + size t0) off' t M') as (m & Hm & E1 & E2 & E3 & E4).
    + cbn [length] in L. lia.
    + intros i m Hi. apply (Hs i m). right. exact Hi.
    + exact Fm.
    + exists m. rewrite E1. rewrite Z.add_assoc. auto.
Qed.
Lemma bindE' {S A B} (m : M S A) (f : A -> M S B) s a s' : m s = Ok (a, s') -> bind m f s = f a s'.
Proof. unfold bind. intros ->. reflexivity. Qed.

Lemma land_lor_disjoint T B m : Z.land B m = 0 -> Z.land (Z.lor T B) m = Z.land T m.
Proof. intro H. rewrite Z.land_lor_distr_l, H, Z.lor_0_r. reflexivity. Qed.
(** the lvalue and location bits do not matter to the type *)
Lemma denotes_lor d T B X t : Z.land B 487 = 0 -> denotes d T X t -> denotes d (Z.lor T B) X t.
Proof.
  intros HB D.
  assert (P : hasb (Z.lor T B) pointerish = hasb T pointerish).
  { unfold hasb. rewrite land_lor_disjoint; [reflexivity|]. change pointerish with (Z.land 487 480).
    rewrite Z.land_assoc, HB. apply Z.land_0_l. }
  assert (Q : Z.land (Z.lor T B) VT_BASEMASK = Z.land T VT_BASEMASK).
  { apply land_lor_disjoint. change VT_BASEMASK with (Z.land 487 7). rewrite Z.land_assoc, HB. apply Z.land_0_l. }
  destruct D; [apply den_ptr|apply den_int|apply den_char|apply den_arr|apply den_rec]; congruence.
Qed.
Lemma member_any ms id : forall u off t, member u ms id = Some (off, t) -> (u = true -> off = 0) /\ exists o, member false ms id = Some (o, t).
Proof.
  induction ms as [|[i m] r IH]; intros u off t; cbn [member]; [discriminate|].
  destruct (i =? id); [intro H; inversion H; eauto|].
  destruct (member u r id) as [[o' t']|] eqn:E; [|discriminate]. cbn [option_map fst snd]. intro H; inversion H; subst.
  destruct (IH _ _ _ E) as [H1 [o H2]]. rewrite H2. cbn [option_map fst snd]. split; [|eauto].
  intro Hu. rewrite Hu in *. rewrite H1; auto.
Qed.

Lemma ok_snd {A B} (a a' : A) (x y : B) : Ok (a, x) = Ok (a', y) -> y = x.
Proof. congruence. Qed.
Ltac ands4 := repeat match goal with |- _ /\ _ => split end.
(** s.x and p->x, after the name has been read *)
Section Member.
Variables (W : Z) (F : nat).
Definition read_name : M cc Z := SccState.bind (next W F) (fun _ => ExpectId W F).
Definition usable (ms : list (Z * cty)) : Prop :=
  Z.of_nat (length ms) <= STRUCT_MEMBER_MAX /\ forall i m, In (i, m) ms -> (depth m < sizeof_fuel)%nat /\ narrow m.

Lemma member_start s s1 id ms u off t :
  read_name s = Ok (id, s1) -> let x := CurrentTypeExtra (em s1) in 0 <= x < StructCount (dc s1) ->
  members (dc s1) (aget (SDMembers (dc s1)) x) ms -> usable ms -> member u ms id = Some (off, t) ->
  exists m o, denotes (dc s1) (aget (SMType (dc s1)) (m - 1)) (aget (SMExtra (dc s1)) (m - 1)) t /\
    Z.land (aget (SMType (dc s1)) (m - 1)) VT_LOCMASK = 0 /\ (u = false -> o = off) /\
    member_expr W F s =
     (let t := CurrentType (em s1) in
      let loc := Z.land t VT_LOCMASK in
      SccState.bind
        (if negb (o =? 0) && negb (hasb (aget (SDId (dc s1)) x) IS_UNION_FLAG) then
           if loc =? VT_LOCOFF then
             SccState.bind (upde (fun e => set_CurrentVal (CurrentVal e + o) e)) (fun _ => ret loc)
           else
             SccState.bind (if negb (loc =? 0) then SccState.bind (gete CurrentVal) (fun v => inem (EmitLoadAddr W R_AX loc v)) else ret tt) (fun _ =>
             SccState.bind (inem (EmitAddRegConst W R_AX o)) (fun _ => ret 0))
         else ret loc) (fun loc =>
      SccState.bind (getd (fun d => aget (SMType d) (m - 1))) (fun mt =>
      SccState.bind (getd (fun d => aget (SMExtra d) (m - 1))) (fun mx =>
      SccState.bind (setT (Z.lor (Z.lor mt VT_LVAL) loc)) (fun _ => setX mx))))) s1.
Proof.
  intros R x Hx M [Hl Hu] Fm. destruct (member_any _ _ _ _ _ Fm) as [_ [o Fo]].
  destruct (find_member_ok (dc s1) (Datatypes.S (Z.to_nat STRUCT_MEMBER_MAX)) ms (aget (SDMembers (dc s1)) x) id 0 o t M ltac:(lia) Hu Fo)
    as (m & Hm & E1 & E2 & E3 & E4).
  exists m, o. split; [exact E2|]. split; [exact E4|]. split. { intros ->. congruence. }
  unfold member_expr. unfold read_name in R.
  destruct (next W F s) as [[u0 s0]| | |] eqn:N; [|unfold SccState.bind in R; rewrite N in R; discriminate R..].
  rewrite (bindE' _ _ _ _ _ N) in R. rewrite (bindE' _ _ _ _ _ N). rewrite (bindE' _ _ _ _ _ R).
  rewrite (bindE' _ _ s1 x s1) by reflexivity.
  rewrite (bindE' _ _ s1 (StructCount (dc s1)) s1) by reflexivity.
  replace ((x <? 0) || (StructCount (dc s1) <=? x)) with false by lia. cbn [failif].
  rewrite (bindE' _ _ s1 tt s1) by reflexivity.
  rewrite (bindE' _ _ s1 (aget (SDMembers (dc s1)) x) s1) by reflexivity.
  rewrite (bindE' _ _ s1 (m, 0 + o) s1).
  2:{ unfold indc. rewrite E1. destruct s1; reflexivity. }
  change (0 + o) with o. replace (m =? 0) with false by lia. cbn [failif].
  rewrite (bindE' _ _ s1 tt s1) by reflexivity.
  rewrite (bindE' _ _ s1 (CurrentType (em s1)) s1) by reflexivity.
  rewrite (bindE' _ _ s1 (aget (SDId (dc s1)) x) s1) by reflexivity.
  reflexivity.
Qed.

(** a member of a struct (or union) variable in the stack frame: no code, the frame offset moves by
    the member's offset *)
Theorem member_local s s1 id T ms u off t :
  read_name s = Ok (id, s1) -> CurrentType (em s1) = T -> Z.land T VT_LOCMASK = VT_LOCOFF ->
  let x := CurrentTypeExtra (em s1) in 0 <= x < StructCount (dc s1) ->
  hasb T pointerish = false -> Z.land T VT_BASEMASK = VT_STRUCT ->
  denotes (dc s1) T x (TRec u ms) -> usable ms -> member u ms id = Some (off, t) ->
  exists T' x', member_expr W F s =
      Ok (tt, set_em (set_CurrentTypeExtra x' (set_CurrentType T' (set_CurrentVal (CurrentVal (em s1) + off) (em s1)))) s1) /\
    denotes (dc s1) T' x' t /\ Z.land T' VT_LOCMASK = VT_LOCOFF /\ hasb T' VT_LVAL = true.
Proof.
  intros R HT HL x Hx Hp Hb D U Fm.
  assert (u = hasb (aget (SDId (dc s1)) x) IS_UNION_FLAG /\ members (dc s1) (aget (SDMembers (dc s1)) x) ms) as [Eu M].
  { inversion D; subst; auto. }
  destruct (member_start s s1 id ms u off t R Hx M U Fm) as (m & o & Dm & Dl & Ho & ->).
  destruct (member_any _ _ _ _ _ Fm) as [Hu _].
  set (mt := aget (SMType (dc s1)) (m - 1)) in *. set (mx := aget (SMExtra (dc s1)) (m - 1)) in *.
  exists (Z.lor (Z.lor mt VT_LVAL) VT_LOCOFF), mx. cbv zeta. fold x. rewrite HT, HL, <- Eu.
  split; [|split; [|split]].
  - change (VT_LOCOFF =? VT_LOCOFF) with true. cbv iota.
    destruct (negb (o =? 0) && negb u) eqn:E.
    + assert (o = off) as -> by (apply Ho; destruct u; auto; rewrite andb_false_r in E; discriminate).
      rewrite (bindE' _ _ s1 VT_LOCOFF (set_em (set_CurrentVal (CurrentVal (em s1) + off) (em s1)) s1)) by reflexivity.
      reflexivity.
    + assert (off = 0) as -> by (destruct u; [auto|]; specialize (Ho eq_refl); destruct (Z.eqb_spec o 0); [lia|discriminate E]).
      rewrite Z.add_0_r. rewrite (bindE' _ _ s1 VT_LOCOFF s1) by reflexivity.
      destruct s1 as [l e d]. destruct e. reflexivity.
  - apply denotes_lor; [reflexivity|]. apply denotes_lor; [reflexivity|]. exact Dm.
  - rewrite !Z.land_lor_distr_l, Dl. reflexivity.
  - unfold hasb. rewrite !Z.land_lor_distr_l. change (Z.land VT_LOCOFF VT_LVAL) with 0. change (Z.land VT_LVAL VT_LVAL) with VT_LVAL.
    rewrite Z.lor_0_r. destruct (Z.eqb_spec (Z.lor (Z.land mt VT_LVAL) VT_LVAL) 0) as [E|E]; [|reflexivity].
    apply Z.lor_eq_0_iff in E as [_ E]. discriminate E.
Qed.

(** a member through an address in AX (after an index, an arrow or a dereference): the member's offset is added *)
Theorem member_address s s1 id T ms u off t s' :
  read_name s = Ok (id, s1) -> CurrentType (em s1) = T -> Z.land T VT_LOCMASK = 0 ->
  let x := CurrentTypeExtra (em s1) in 0 <= x < StructCount (dc s1) ->
  hasb T pointerish = false -> Z.land T VT_BASEMASK = VT_STRUCT ->
  denotes (dc s1) T x (TRec u ms) -> usable ms -> member u ms id = Some (off, t) ->
  member_expr W F s = Ok (tt, s') ->
  exists T' x' e1, em s' = set_CurrentTypeExtra x' (set_CurrentType T' e1) /\ dc s' = dc s1 /\ lx s' = lx s1 /\
    (off = 0 /\ e1 = em s1 \/ off <> 0 /\ EmitAddRegConst W R_AX off (em s1) = Ok (tt, e1)) /\
    denotes (dc s1) T' x' t /\ Z.land T' VT_LOCMASK = 0 /\ hasb T' VT_LVAL = true.
Proof.
  intros R HT HL x Hx Hp Hb D U Fm.
  assert (u = hasb (aget (SDId (dc s1)) x) IS_UNION_FLAG /\ members (dc s1) (aget (SDMembers (dc s1)) x) ms) as [Eu M].
  { inversion D; subst; auto. }
  destruct (member_start s s1 id ms u off t R Hx M U Fm) as (m & o & Dm & Dl & Ho & ->).
  destruct (member_any _ _ _ _ _ Fm) as [Hu _].
  set (mt := aget (SMType (dc s1)) (m - 1)) in *. set (mx := aget (SMExtra (dc s1)) (m - 1)) in *.
  cbv zeta. fold x. rewrite HT, HL, <- Eu. change (0 =? VT_LOCOFF) with false. change (negb (0 =? 0)) with false. cbv iota.
  assert (Q : denotes (dc s1) (Z.lor (Z.lor mt VT_LVAL) 0) mx t /\ Z.land (Z.lor (Z.lor mt VT_LVAL) 0) VT_LOCMASK = 0 /\
              hasb (Z.lor (Z.lor mt VT_LVAL) 0) VT_LVAL = true).
  { rewrite Z.lor_0_r. split; [|split].
    - apply denotes_lor; [reflexivity|]. exact Dm.
    - rewrite !Z.land_lor_distr_l, Dl. reflexivity.
    - unfold hasb. rewrite !Z.land_lor_distr_l. change (Z.land VT_LVAL VT_LVAL) with VT_LVAL.
      destruct (Z.eqb_spec (Z.lor (Z.land mt VT_LVAL) VT_LVAL) 0) as [E|E]; [|reflexivity].
      apply Z.lor_eq_0_iff in E as [_ E]. discriminate E. }
  set (T' := Z.lor (Z.lor mt VT_LVAL) 0) in *.
  assert (Fin : forall s2, dc s2 = dc s1 -> 
     (SccState.bind (getd (fun d => aget (SMType d) (m - 1))) (fun mt0 =>
      SccState.bind (getd (fun d => aget (SMExtra d) (m - 1))) (fun mx0 =>
      SccState.bind (setT (Z.lor (Z.lor mt0 VT_LVAL) 0)) (fun _ => setX mx0)))) s2 =
      Ok (tt, set_em (set_CurrentTypeExtra mx (set_CurrentType T' (em s2))) s2)).
  { intros s2 E2. unfold T', mt, mx. rewrite <- E2. reflexivity. }
  destruct (negb (o =? 0) && negb u) eqn:E.
  - assert (o = off) as Eo by (apply Ho; destruct u; auto; rewrite andb_false_r in E; discriminate). subst o.
    assert (off <> 0) by (destruct (Z.eqb_spec off 0); [discriminate E|assumption]).
    destruct (EmitAddRegConst W R_AX off (em s1)) as [[[] e1]| | |] eqn:EA;
      [|unfold SccState.bind at 1 2 3; cbn [ret]; unfold inem at 1; rewrite EA; discriminate..].
    rewrite (bindE' _ _ s1 0 (set_em e1 s1)).
    2:{ unfold SccState.bind, inem. cbn [ret]. rewrite EA. reflexivity. }
    rewrite (Fin (set_em e1 s1)) by reflexivity. intro H'. apply ok_snd in H'. subst s'.
    exists T', mx, e1. destruct Q as (Q1 & Q2 & Q3). ands4; auto.
  - assert (off = 0) as -> by (destruct u; [auto|]; specialize (Ho eq_refl); destruct (Z.eqb_spec o 0); [lia|discriminate E]).
    rewrite (bindE' _ _ s1 0 s1) by reflexivity. rewrite (Fin s1) by reflexivity.
    intro H'. apply ok_snd in H'. subst s'.
    exists T', mx, (em s1). destruct Q as (Q1 & Q2 & Q3). ands4; auto.
Qed.
End Member.
