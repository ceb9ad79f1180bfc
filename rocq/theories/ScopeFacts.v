(** Facts about ScopeSpec.v itself: leaving a block restores the meanings from before it. *)
From Verif Require Import Base ScopeSpec.

(** what happens between { and }: declarations, references, and further blocks *)
Inductive nested : list action -> Prop :=
| nest_nil : nested nil
| nest_local id t x p l : nested l -> nested (Local id t x p :: l)
| nest_refer id r l : nested l -> nested (Refer id r :: l)
| nest_implicit id l : nested l -> nested (Implicit id :: l)
| nest_block l1 l2 : nested l1 -> nested l2 -> nested (Enter :: l1 ++ Leave :: l2).

Definition seen (d : decl) : Z * Z * Z := (d_type d, d_extra d, d_place d).
(** block by block: the same declarations, except that the outermost block may have gained names *)
Definition same (b b' : block) : Prop := forall id, option_map seen (find b' id) = option_map seen (find b id).
Definition grown (b b' : block) : Prop := forall id d, find b id = Some d -> option_map seen (find b' id) = Some (seen d).
Fixpoint keeps (bs bs' : list block) : Prop :=
  match bs, bs' with
  | nil, nil => True
  | [b], [b'] => grown b b'
  | b :: r, b' :: r' => same b b' /\ keeps r r'
  | _, _ => False
  end.
Lemma keeps_cons b c r b' c' r' : keeps (b :: c :: r) (b' :: c' :: r') = (same b b' /\ keeps (c :: r) (c' :: r')).
Proof. reflexivity. Qed.
Lemma keeps_no b r : ~ keeps (b :: r) nil.
Proof. destruct r; intros []. Qed.
Lemma keeps_no' b r : ~ keeps nil (b :: r).
Proof. intros []. Qed.
Lemma keeps_one b c r b' : ~ keeps (b :: c :: r) [b'].
Proof. intros [_ K]. exact (keeps_no _ _ K). Qed.
Lemma keeps_one' b c r b' : ~ keeps [b'] (b :: c :: r).
Proof. intros [_ []]. Qed.
Lemma keeps_nil bs bs' : keeps bs bs' -> (bs = nil <-> bs' = nil).
Proof.
  destruct bs, bs'; intro H; split; intro E; try discriminate E; try reflexivity; exfalso; first [exact (keeps_no _ _ H)|exact (keeps_no' _ _ H)].
Qed.
Lemma keeps_tl b r b' r' : r <> nil -> keeps (b :: r) (b' :: r') -> same b b' /\ keeps r r'.
Proof.
  intros N K. destruct r as [|c r]; [congruence|]. destruct r' as [|c' r']; [exfalso; exact (keeps_one _ _ _ _ K)|]. exact K.
Qed.
Lemma keeps_mk b r b' r' : r <> nil -> same b b' -> keeps r r' -> keeps (b :: r) (b' :: r').
Proof.
  intros N S K. destruct r as [|c r]; [congruence|]. destruct r' as [|c' r'].
  - apply keeps_nil in K. destruct K as [_ K]. specialize (K eq_refl). discriminate K.
  - rewrite keeps_cons. split; assumption.
Qed.
Lemma same_grown b b' : same b b' -> grown b b'.
Proof. intros S id d E. rewrite S, E. reflexivity. Qed.
Lemma grown_trans a b c : grown a b -> grown b c -> grown a c.
Proof.
  intros G H id d E. specialize (G id d E). destruct (find b id) as [d'|] eqn:E'; [|discriminate G].
  rewrite (H id d' E'). exact G.
Qed.
Lemma keeps_refl bs : keeps bs bs.
Proof.
  induction bs as [|b r IH]; [exact I|]. destruct r as [|c r].
  - cbn [keeps]. apply same_grown. intro. reflexivity.
  - rewrite keeps_cons. split; [intro; reflexivity|exact IH].
Qed.
Lemma keeps_trans : forall a b c, keeps a b -> keeps b c -> keeps a c.
Proof.
  induction a as [|x a IH]; intros b c H K.
  - destruct b; [|destruct H]. exact K.
  - destruct b as [|y b]; [exfalso; exact (keeps_no _ _ H)|]. destruct c as [|z c]; [exfalso; exact (keeps_no _ _ K)|].
    destruct a as [|x' a], b as [|y' b]; [|exfalso; exact (keeps_one' _ _ _ _ H)|exfalso; exact (keeps_one _ _ _ _ H)|].
    + destruct c; [|exfalso; exact (keeps_one' _ _ _ _ K)]. cbn [keeps] in *. eapply grown_trans; eassumption.
    + destruct c as [|z' c]; [exfalso; exact (keeps_one _ _ _ _ K)|]. rewrite keeps_cons in *. destruct H as [H1 H2], K as [K1 K2].
      split; [intro id; rewrite K1; apply H1|]. eapply IH; eassumption.
Qed.
(** every name that meant something still means it *)
Lemma means_cons b r id : means (b :: r) id = match find b id with Some d => Some d | None => means r id end.
Proof. reflexivity. Qed.
Lemma keeps_means : forall bs bs', keeps bs bs' -> forall id d, means bs id = Some d -> option_map seen (means bs' id) = Some (seen d).
Proof.
  induction bs as [|b r IH]; intros bs' K id d E; [discriminate E|].
  destruct bs' as [|b' r']; [exfalso; exact (keeps_no _ _ K)|]. rewrite means_cons in *.
  destruct r as [|c r].
  - destruct r'; [|exfalso; exact (keeps_one' _ _ _ _ K)]. cbn [keeps] in K. destruct (find b id) eqn:F; [|discriminate E].
    specialize (K id _ F). destruct (find b' id); [|discriminate K]. cbn [option_map] in *. congruence.
  - destruct r' as [|c' r']; [exfalso; exact (keeps_one _ _ _ _ K)|]. rewrite keeps_cons in K. destruct K as [S K]. specialize (S id).
    destruct (find b id), (find b' id); try discriminate S; [cbn [option_map] in *; congruence|]. apply IH; assumption.
Qed.
Lemma same_mark b id : same b (mark b id).
Proof.
  intro k. induction b as [|[i d] r IH]; cbn [mark find]; [reflexivity|]. destruct (i =? k); [|exact IH].
  destruct (i =? id); reflexivity.
Qed.
Lemma keeps_mark bs id : keeps bs (mark_innermost bs id).
Proof.
  induction bs as [|b r IH]; cbn [mark_innermost]; [exact I|].
  destruct r as [|c r].
  - destruct (find b id); [|apply keeps_refl]. cbn [keeps]. apply same_grown, same_mark.
  - destruct (find b id).
    + apply keeps_mk; [discriminate|apply same_mark|apply keeps_refl].
    + apply keeps_mk; [discriminate|intro; reflexivity|exact IH].
Qed.
Lemma find_app b id d k : find (b ++ [(id, d)]) k = match find b k with Some e => Some e | None => if id =? k then Some d else None end.
Proof. induction b as [|[i e] r IH]; cbn [app find]; [reflexivity|]. destruct (i =? k); auto. Qed.
Lemma keeps_add bs id d : keeps bs (add_global bs id d).
Proof.
  induction bs as [|b r IH]; [exact I|]. destruct r as [|c r].
  - cbn [add_global keeps]. intros k e E. rewrite find_app, E. reflexivity.
  - change (add_global (b :: c :: r) id d) with (b :: add_global (c :: r) id d).
    apply keeps_mk; [discriminate|intro; reflexivity|exact IH].
Qed.
Lemma mark_tl b r id : exists b', mark_innermost (b :: r) id = b' :: match find b id with Some _ => r | None => mark_innermost r id end.
Proof. cbn [mark_innermost]. destruct (find b id); eauto. Qed.

Lemma acts_app l a l2 : forall c0 c', acts c0 (l ++ a :: l2) c' -> exists c2 c3, acts c0 l c2 /\ act c2 a c3 /\ acts c3 l2 c'.
Proof.
  induction l as [|a0 l IHl]; intros c0 c' H; cbn [app] in H; inversion H; subst.
  - exists c0, s'. split; [constructor|]. auto.
  - destruct (IHl _ _ H5) as (c2 & c3 & X1 & X2 & X3). exists c2, c3. split; [econstructor; eassumption|auto].
Qed.
(** a nested sequence leaves the enclosing blocks as they were *)
Lemma nested_keeps l : nested l -> forall c c' b r, acts c l c' -> blocks c = b :: r -> r <> nil ->
  exists b' r', blocks c' = b' :: r' /\ keeps r r'.
Proof.
  induction 1 as [|id t x p l N IH|id rf l N IH|id l N IH|l1 l2 N1 IH1 N2 IH2]; intros c c' b r A E Nr.
  - inversion A; subst. exists b, r. split; [exact E|apply keeps_refl].
  - inversion A as [|? ? c1 ? ? A1 A2]; subst. inversion A1; subst. cbn [blocks] in *.
    injection E as -> ->. eapply IH; [exact A2|reflexivity|assumption].
  - inversion A as [|? ? c1 ? ? A1 A2]; subst. inversion A1; subst. cbn [blocks] in *. subst bs.
    destruct (mark_tl b r id) as [b1 E1].
    destruct (IH _ _ b1 _ A2 E1) as (b' & r' & E' & K). { destruct (find b id); [exact Nr|]. destruct r; [congruence|]. cbn [mark_innermost]. destruct (find b0 id); discriminate. }
    exists b', r'. split; [exact E'|]. eapply keeps_trans; [|exact K]. destruct (find b id); [apply keeps_refl|apply keeps_mark].
  - inversion A as [|? ? c1 ? ? A1 A2]; subst. inversion A1; subst. cbn [blocks] in *. subst bs.
    destruct r as [|b1 r]; [congruence|].
    destruct (IH _ _ b _ A2 eq_refl) as (b' & r' & E' & K). { destruct r; discriminate. }
    exists b', r'. split; [exact E'|]. eapply keeps_trans; [|exact K]. apply (keeps_add (b1 :: r)).
  - inversion A as [|? ? c1 ? ? A1 A2]; subst. inversion A1; subst. cbn [blocks] in *. subst bs.
    destruct (acts_app _ _ _ _ _ A2) as (c2 & c3 & X1 & X2 & X3).
    destruct (IH1 _ _ nil (b :: r) X1 eq_refl ltac:(discriminate)) as (b1 & r1 & E1 & K1).
    destruct r1 as [|b2 r2]; [apply keeps_nil in K1; destruct K1 as [_ K1]; specialize (K1 eq_refl); discriminate K1|].
    destruct (keeps_tl _ _ _ _ Nr K1) as [_ K2].
    assert (N2' : r2 <> nil) by (intro Z; apply keeps_nil in K2; tauto).
    assert (E3 : blocks c3 = b2 :: r2) by (inversion X2; subst; cbn [blocks] in *; congruence).
    destruct (IH2 _ _ b2 r2 X3 E3 N2') as (b' & r' & E' & K'). exists b', r'. split; [exact E'|].
    eapply keeps_trans; eassumption.
Qed.
(** { ... } : every name means afterwards what it meant before *)
Theorem block_restores l c c' : nested l -> acts c (Enter :: l ++ [Leave]) c' ->
  forall id d, means (blocks c) id = Some d -> option_map seen (means (blocks c') id) = Some (seen d).
Proof.
  intros N A id d E. inversion A as [|? ? c1 ? ? A1 A2]; subst. inversion A1; subst. cbn [blocks] in *.
  destruct (acts_app _ _ _ _ _ A2) as (c2 & c3 & X1 & X2 & X3). inversion X3; subst.
  destruct (nested_keeps l N _ _ nil bs X1 eq_refl) as (b' & r' & E' & K). { destruct bs; cbn [length] in *; [lia|discriminate]. }
  assert (blocks c' = r') as -> by (inversion X2; subst; cbn [blocks] in *; congruence).
  eapply keeps_means; eassumption.
Qed.
