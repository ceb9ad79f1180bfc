(** The head of a function definition: int f(int a, int b). *)
From Verif Require Import Base Bits SccState SccEmit SccLex SccDecl SccExpr SccStmt SccInput SccPut ExprSpec SccParse StmtSpec SccStm.

(** ** How it is written *)
Definition idt (x : Z) : token := kw (TOK_KEYWORD + x).
Fixpoint ptoks (ps : list Z) : list token :=
  match ps with
  | [] => []
  | [p] => [kw TOK_INT; idt p]
  | p :: r => kw TOK_INT :: idt p :: (ch_comma, PREC_COMMA, 0) :: ptoks r
  end.
(** [rt] is TOK_INT or TOK_VOID *)
Definition htoks (rt f : Z) (ps : list Z) : list token := kw rt :: idt f :: kw ch_lpar :: ptoks ps ++ [kw ch_rpar].

Lemma loopM_inv {S X A} n (body : X -> M S (X + A)) x s a s' : loopM n body x s = Ok (a, s') ->
  exists n' r s1, body x s = Ok (r, s1) /\ match r with inl y => loopM n' body y s1 = Ok (a, s') | inr b => b = a /\ s1 = s' end.
Proof.
  destruct n as [|n]; cbn [loopM]; [discriminate|]. intro H. minv H r s1 E. exists n, r, s1. split; [exact E|]. destruct r; [exact H|]. unfold ret in H. apply ok_inj in H. exact H.
Qed.
(** the name is not the name of a type *)
Definition no_type (d : dcst) (x : Z) : Prop := aget (VarLookup d) x = 0 \/ hasb (aget (VType d) (aget (VarLookup d) x - 1)) VT_TYPEDEF = false.

Section W.
Variable W : Z.
Variable F : nat.

Ltac idtests H := repeat match type of H with
  | context [TOK_KEYWORD + ?i =? ?b] => let bb := eval vm_compute in b in replace (TOK_KEYWORD + i =? b) with false in H by (symmetry; apply Z.eqb_neq; change TOK_KEYWORD with 150; change b with bb; lia)
  | context [TOK_KEYWORD + ?i <? ?b] => let bb := eval vm_compute in b in replace (TOK_KEYWORD + i <? b) with false in H by (symmetry; apply Z.ltb_ge; change TOK_KEYWORD with 150; change b with bb; lia)
  | context [?b <=? TOK_KEYWORD + ?i] => let bb := eval vm_compute in b in replace (b <=? TOK_KEYWORD + i) with true in H by (symmetry; apply Z.leb_le; change TOK_KEYWORD with 150; change b with bb; lia)
  end; cbn [orb negb] in H; cbv iota in H.
Ltac bool_tests H := repeat match type of H with
  | context [?a =? ?b] => let v := eval vm_compute in (a =? b) in match v with true => change (a =? b) with true in H | false => change (a =? b) with false in H end
  end; cbv iota in H.
Ltac mk H := unfold set_em, set_dc, set_lx in H; cbn [lx em dc] in H.
Lemma disp l k ts : stream W F l (kw k :: ts) -> TokenType l = k.
Proof. intro Q. apply Q. Qed.
Lemma lookup_no l e d x y s' ts : 37 <= x -> no_type d x -> stream W F l (idt x :: ts) -> LookupTypedef (mkcc l e d) = Ok (y, s') -> y = 0 /\ s' = mkcc l e d.
Proof.
  intros LX NT ST H. unfold LookupTypedef, getl, getd in H. mgoin H. mk H. rewrite (disp _ _ _ ST) in H. idtests H. mgoin H. mk H.
  replace (TOK_KEYWORD + x - TOK_KEYWORD) with x in H by lia. destruct NT as [NT|NT].
  - rewrite NT in H. change (0 =? 0) with true in H. cbv iota in H. oki H. auto.
  - destruct (_ =? 0); [oki H; auto|]. mgoin H. mk H. rewrite NT in H. oki H. auto.
Qed.
(** int or void before a name *)
Definition spec_of (rt : Z) : Z := if rt =? TOK_VOID then VT_VOID else VT_INT.
Lemma specs_ok n rt l e d x y s' ts : rt = TOK_INT \/ rt = TOK_VOID -> 37 <= x -> no_type d x -> stream W F l (kw rt :: idt x :: ts) ->
  pDeclSpecs (tie W F n) (mkcc l e d) = Ok (y, s') -> exists l', s' = mkcc l' (set_CurrentType (spec_of rt) e) d /\ stream W F l' (idt x :: ts).
Proof.
  intros RT LX NT ST H. destruct n as [|n]; [discriminate H|]. cbn [tie pDeclSpecs] in H. unfold ParseDeclSpecs, setT, upde in H. mgoin H. mk H.
  apply loopM_inv in H. destruct H as (n1 & r & s1 & E & H). unfold getl in E. mgoin E. mk E. rewrite (disp _ _ _ ST) in E.
  assert (Q : exists l1, r = inl 0 /\ s1 = mkcc l1 (set_CurrentType (spec_of rt) e) d /\ stream W F l1 (idt x :: ts)).
  { destruct RT as [-> | ->]; bool_tests E; cbn [orb] in E; cbv iota in E; mgoin E; mk E; minv E y1 s2 E1;
    (apply (next_mk W F _ _ _ _ _ _ _ ST) in E1; [|discriminate]); destruct E1 as (l1 & -> & ST1); oki E; exists l1; split; auto. }
  destruct Q as (l1 & -> & -> & ST1). clear E. apply loopM_inv in H. destruct H as (n2 & r & s1 & E & H). unfold getl in E. mgoin E. mk E. rewrite (disp _ _ _ ST1) in E. idtests E.
  minv E td s2 E1. apply (lookup_no _ _ _ _ _ _ _ LX NT ST1) in E1. destruct E1 as [-> ->]. change (negb (0 =? 0)) with false in E. cbv iota in E. mgoin E. oki E. destruct H as [_ <-].
  exists l1. split; [|exact ST1]. unfold set_em. cbn [lx em dc CurrentType set_CurrentType]. rewrite Z.lor_0_r. reflexivity.
Qed.
(** a name alone as declarator of a parameter *)
Lemma name_ok n i x l e d y s' t ts : 37 <= x -> stream W F l (idt x :: t :: ts) -> t_type t = ch_comma \/ t_type t = ch_rpar ->
  pDeclarator (tie W F n) (IdArg i) (mkcc l e d) = Ok (y, s') -> exists l', s' = mkcc l' e (set_ArgId (aset (ArgId d) i x) d) /\ stream W F l' (t :: ts).
Proof.
  intros LX ST TT H. destruct n as [|n]; [discriminate H|]. cbn [tie pDeclarator] in H. unfold ParseDeclarator, getl in H. minv H z0 s0 E.
  apply loopM_inv in E. destruct E as (n1 & r & s1 & E & Q). mgoin E. mk E. rewrite (disp _ _ _ ST) in E. idtests E. oki E. destruct Q as [_ <-].
  mgoin H. mk H. rewrite (disp _ _ _ ST) in H. idtests H. cbn [when] in H. mgoin H. mk H. rewrite (disp _ _ _ ST) in H. idtests H. 
  replace (TOK_KEYWORD + x - TOK_KEYWORD) with x in H by lia. cbn [store_id] in H. unfold updd in H. mgoin H. mk H.
  minv H z1 s1 E. apply (next_mk W F _ _ _ _ _ _ _ ST) in E; [|discriminate]. destruct E as (l1 & -> & ST1). mgoin H. mk H.
  assert (TL : TokenType l1 = t_type t) by apply ST1. rewrite TL in H. exists l1. split; [|exact ST1].
  assert (E2 : (t_type t =? ch_lpar) = false /\ (t_type t =? ch_lbrack) = false) by (destruct TT as [-> | ->]; split; reflexivity). destruct E2 as [E2 E3]. rewrite E2 in H.
  minv H z2 s2 E. unfold array_suffix, getl in E. apply loopM_inv in E. destruct E as (n2 & r & s3 & E & Q). mgoin E. mk E. rewrite TL, E3 in E. cbn [negb] in E. oki E. destruct Q as [_ <-]. oki H. reflexivity.
Qed.

(** the parameters *)
Fixpoint args (i : Z) (ps : list Z) (d : dcst) : Prop :=
  match ps with [] => True | p :: r => aget (ArgId d) i = p /\ aget (ArgType d) i = VT_INT /\ args (i + 1) r d end.
Lemma args_get ps : forall i d, args i ps d -> forall j, (j < List.length ps)%nat -> aget (ArgId d) (i + Z.of_nat j) = nth j ps 0 /\ aget (ArgType d) (i + Z.of_nat j) = VT_INT.
Proof.
  induction ps as [|p ps IH]; intros i d A j J; cbn [List.length] in J; [lia|]. destruct A as (A1 & A2 & A3). destruct j as [|j]; cbn [nth].
  - replace (i + Z.of_nat 0) with i by lia. auto.
  - rewrite Nat2Z.inj_succ. replace (i + Z.succ (Z.of_nat j)) with (i + 1 + Z.of_nat j) by lia. apply IH; [exact A3|lia].
Qed.
(** d' is d but for the arguments from i on *)
Definition dargs (i : Z) (d d' : dcst) : Prop :=
  exists a b c k, d' = set_ArgsCount k (set_ArgExtra c (set_ArgType b (set_ArgId a d))) /\
  forall j, j < i -> aget a j = aget (ArgId d) j /\ aget b j = aget (ArgType d) j.
Lemma dargs_refl i d : dargs i d d.
Proof. exists (ArgId d), (ArgType d), (ArgExtra d), (ArgsCount d). split; [destruct d; reflexivity|auto]. Qed.
Lemma dargs_trans i j a b c : i <= j -> dargs i a b -> dargs j b c -> dargs i a c.
Proof.
  intros L (a1 & b1 & c1 & k1 & -> & H1) (a2 & b2 & c2 & k2 & -> & H2). exists a2, b2, c2, k2. split; [reflexivity|].
  intros u U. destruct (H2 u ltac:(lia)) as [-> ->]. cbn [ArgId ArgType set_ArgsCount set_ArgExtra set_ArgType set_ArgId]. apply H1. exact U.
Qed.
Lemma dargs_get i d d' j : dargs i d d' -> j < i -> aget (ArgId d') j = aget (ArgId d) j /\ aget (ArgType d') j = aget (ArgType d) j.
Proof. intros (a & b & c & k & -> & H) J. exact (H j J). Qed.
Lemma dargs_type i d d' x : dargs i d d' -> no_type d x -> no_type d' x.
Proof. intros (a & b & c & k & -> & H) N. exact N. Qed.
Definition etype (e e' : emst) : Prop := exists t x, e' = set_CurrentTypeExtra x (set_CurrentType t e).
Lemma etype_refl e : etype e e.
Proof. exists (CurrentType e), (CurrentTypeExtra e). destruct e; reflexivity. Qed.
Lemma etype_trans a b c : etype a b -> etype b c -> etype a c.
Proof. intros (t & x & ->) (t2 & x2 & ->). exists t2, x2. reflexivity. Qed.

(** the loop of the parameter list, scc.c:2846-2867 *)
Definition ploop (r : recs) : unit -> M cc (unit + unit) := fun _ : unit =>
    let! t := getl TokenType in
    if t =? ch_rpar then ret (inr tt)
    else if t =? TOK_ELLIPSIS then next W F ;; ret (inr tt)
    else
      pDeclSpecs r ;;
      let! t := getl TokenType in
      if t =? ch_rpar then ret (inr tt) else
      let! a := getd ArgsCount in
      failif (a =? ARGS_MAX) ;;
      updd (set_ArgsCount (a + 1)) ;;
      pDeclarator r (IdArg a) ;;
      let! ct := gete CurrentType in
      let! cx := gete CurrentTypeExtra in
      updd (fun d => set_ArgType (aset (ArgType d) a ct) d) ;;
      updd (fun d => set_ArgExtra (aset (ArgExtra d) a cx) d) ;;
      let! t := getl TokenType in
      if t =? ch_comma then next W F ;; ret (inl tt) else ret (inr tt).
Lemma ploop_ok n ps : forall m l e d x s' ts, (forall p, In p ps -> 37 <= p /\ no_type d p) -> stream W F l (ptoks ps ++ kw ch_rpar :: ts) ->
  loopM m (ploop (tie W F n)) tt (mkcc l e d) = Ok (x, s') ->
  exists l' e' d', s' = mkcc l' e' d' /\ stream W F l' (kw ch_rpar :: ts) /\ etype e e' /\ dargs (ArgsCount d) d d' /\ ArgsCount d' = ArgsCount d + Z.of_nat (List.length ps) /\ args (ArgsCount d) ps d'.
Proof.
  induction ps as [|p ps IH]; intros m l e d x s' ts PS ST H; apply loopM_inv in H; destruct H as (m1 & r & s1 & E & H); unfold ploop at 1 in E; unfold getl, getd, gete in E; mgoin E; mk E.
  - cbn [ptoks Datatypes.app] in ST. rewrite (disp _ _ _ ST) in E. bool_tests E. oki E. destruct H as [_ <-]. exists l, e, d. split; [reflexivity|]. split; [exact ST|]. split; [apply etype_refl|]. split; [apply dargs_refl|]. cbn [List.length args]. split; [lia|exact I].
  - destruct (PS p (or_introl eq_refl)) as [LP NT].
    assert (QQ : exists t2 tl, stream W F l (kw TOK_INT :: idt p :: t2 :: tl) /\ (t2 = kw ch_rpar /\ tl = ts /\ ps = [] \/ t2 = (ch_comma, PREC_COMMA, 0) /\ tl = ptoks ps ++ kw ch_rpar :: ts /\ ps <> [])).
    { destruct ps as [|q ps]; cbn [ptoks Datatypes.app] in ST.
      - exists (kw ch_rpar), ts. split; [exact ST|]. left. auto.
      - exists (ch_comma, PREC_COMMA, 0), (ptoks (q :: ps) ++ kw ch_rpar :: ts). split; [exact ST|]. right. repeat split. discriminate. }
    destruct QQ as (t2 & tl & ST2 & C). clear ST.
    rewrite (disp _ _ _ ST2) in E. bool_tests E. minv E y0 s0 E0. apply (specs_ok _ _ _ _ _ _ _ _ _ (or_introl eq_refl) LP NT ST2) in E0. destruct E0 as (l0 & -> & ST3).
    mgoin E. mk E. rewrite (disp _ _ _ ST3) in E. idtests E. mgoin E. mk E.
    minv E y1 s2 E1. assert (s2 = mkcc l0 (set_CurrentType (spec_of TOK_INT) e) d) as -> by (unfold failif in E1; destruct (_ =? _); [discriminate|]; oki E1; reflexivity). clear E1.
    unfold updd in E. mgoin E. mk E. minv E y2 s2 E1.
    apply (name_ok _ _ _ _ _ _ _ _ _ _ LP ST3) in E1; [|destruct C as [(-> & _)|(-> & _)]; auto]. destruct E1 as (l1 & -> & ST4).
    mgoin E. mk E. assert (TT : TokenType l1 = t_type t2) by apply ST4. rewrite TT in E.
    match type of E with _ (mkcc l1 ?ee ?dd) = Ok _ => set (d1 := dd) in *; set (e1 := ee) in * end.
    assert (ET : etype e e1) by (exists (spec_of TOK_INT), (CurrentTypeExtra e); unfold e1; destruct e; reflexivity).
    assert (DA : dargs (ArgsCount d) d d1 /\ ArgsCount d1 = ArgsCount d + 1 /\ aget (ArgId d1) (ArgsCount d) = p /\ aget (ArgType d1) (ArgsCount d) = VT_INT).
    { unfold d1, e1. cbn [ArgId ArgType ArgExtra ArgsCount set_ArgsCount set_ArgExtra set_ArgType set_ArgId]. rewrite !aget_aset_same. split; [|split; [reflexivity|split; reflexivity]].
      eexists _, _, _, _. split; [reflexivity|]. intros j J. rewrite !aget_aset_other by lia. auto. }
    destruct DA as (DA & AC & A1 & A2). clearbody d1 e1.
    destruct C as [(-> & -> & ->)|(-> & -> & NP)].
    + bool_tests E. cbn [t_type kw fst] in E. bool_tests E. oki E. destruct H as [_ <-]. exists l1, e1, d1. split; [reflexivity|]. split; [exact ST4|]. split; [exact ET|]. split; [exact DA|].
      cbn [List.length args]. split; [lia|]. auto.
    + cbn [t_type kw fst] in E. bool_tests E. minv E y3 s3 E1. apply (next_mk W F _ _ _ _ _ _ _ ST4) in E1; [|destruct (ptoks ps); discriminate]. destruct E1 as (l2 & -> & ST5). oki E.
      destruct (IH m1 l2 e1 d1 x s' ts) as (l' & e' & d' & -> & T1 & T2 & T3 & T4 & T5).
      { intros q Q. destruct (PS q (or_intror Q)) as [Q1 Q2]. split; [exact Q1|]. exact (dargs_type _ _ _ _ DA Q2). }
      { exact ST5. }
      { exact H. }
      exists l', e', d'. split; [reflexivity|]. split; [exact T1|]. split; [exact (etype_trans _ _ _ ET T2)|]. rewrite AC in *.
      split; [apply (dargs_trans _ (ArgsCount d + 1) _ d1); [lia|exact DA|exact T3]|]. cbn [List.length args]. split; [lia|].
      destruct (dargs_get _ _ _ (ArgsCount d) T3 ltac:(lia)) as [-> ->]. auto.
Qed.
(** name ( parameters ) as declarator *)
Lemma head_ok n f ps l e d y s' ts : 37 <= f -> (forall p, In p ps -> 37 <= p /\ no_type d p) -> stream W F l (idt f :: kw ch_lpar :: ptoks ps ++ kw ch_rpar :: ts) -> ts <> [] ->
  pDeclarator (tie W F n) IdLocal (mkcc l e d) = Ok (y, s') ->
  exists l' e' d', s' = mkcc l' e' d' /\ y = f /\ stream W F l' ts /\ etype e e' /\ CurrentType e' = Z.lor (CurrentType e) VT_FUN /\ dargs 0 d d' /\ ArgsCount d' = Z.of_nat (List.length ps) /\ args 0 ps d'.
Proof.
  intros LX PS ST NR H. destruct n as [|n]; [discriminate H|]. cbn [tie pDeclarator] in H. unfold ParseDeclarator, getl in H. minv H z0 s0 E.
  apply loopM_inv in E. destruct E as (n1 & r & s1 & E & Q). mgoin E. mk E. rewrite (disp _ _ _ ST) in E. idtests E. oki E. destruct Q as [_ <-].
  mgoin H. mk H. rewrite (disp _ _ _ ST) in H. idtests H. cbn [when] in H. mgoin H. mk H. rewrite (disp _ _ _ ST) in H. idtests H.
  replace (TOK_KEYWORD + f - TOK_KEYWORD) with f in H by lia. cbn [store_id] in H. mgoin H.
  minv H z1 s1 E. apply (next_mk W F _ _ _ _ _ _ _ ST) in E; [|discriminate]. destruct E as (l1 & -> & ST1). mgoin H. mk H. rewrite (disp _ _ _ ST1) in H. bool_tests H.
  minv H z2 s2 E. oki H. unfold param_list in E. minv E z3 s3 E1. apply (next_mk W F _ _ _ _ _ _ _ ST1) in E1; [|destruct (ptoks ps); discriminate]. destruct E1 as (l2 & -> & ST2).
  unfold gete, updd in E. mgoin E. mk E. minv E z4 s4 E1. match type of E1 with loopM F _ tt ?st = ?r => change (loopM F (ploop (tie W F n)) tt st = r) in E1 end.
  destruct (ploop_ok n ps _ _ _ _ _ _ ts (PS : forall p, In p ps -> 37 <= p /\ no_type (set_ArgsCount 0 d) p) ST2 E1) as (l3 & e3 & d3 & -> & ST3 & ET & DA & AC & AR).
  cbn [ArgsCount set_ArgsCount] in *. minv E z5 s5 E2. apply (expect_mk W F _ _ _ _ _ _ _ _ ST3) in E2; [|exact NR]. destruct E2 as (l4 & -> & ST4).
  unfold setT, setX, upde in E. mgoin E. oki E. unfold set_em. cbn [lx em dc]. exists l4. eexists. exists d3. split; [reflexivity|]. split; [reflexivity|]. split; [exact ST4|].
  split; [|split; [reflexivity|]].
  - destruct ET as (t & x & ->). eexists _, _. reflexivity.
  - split; [|split; [lia|exact AR]]. destruct DA as (a & b & c & k & -> & D). exists a, b, c, k. split; [reflexivity|]. intros j J. apply (D j J).
Qed.
End W.
