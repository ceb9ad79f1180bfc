(** The steps of emission a statement is put together from: code, jumps, labels, and what they do in the final code. *)
From Verif Require Import Base Bits Spec8086 SpecWf SccRun SccState SccEmit SccInput SccPut SccArith SccOps SccJump SccMem SccFix SccHold SccImg.

Definition hd_ok (bs : list Z) : Prop :=
  match bs with [] => True | b :: r => (u8 b = 235 -> r <> []) /\ (u8 b = 93 -> exists r', r = 195 :: r') end.
Lemma app_put bs e : hd_ok bs -> app e (put bs e).
Proof.
  intro OK. split; [rewrite put_addr; lia|]. split; [intros; apply put_byte; assumption|]. split; [apply put_lab|].
  split; [intros a A; rewrite put_addr in A; apply put_byte_after; exact A|]. split; [apply bytes_put|]. rewrite put_addr. intro L.
  destruct bs as [|b r]; [cbn [length] in L; lia|]. destruct OK as [O1 O2].
  assert (B0 : byte (put (b :: r) e) (CodeAddress e) = u8 b) by (replace (CodeAddress e) with (CodeAddress e + Z.of_nat 0) at 1 by lia; apply put_byte_at; cbn [length]; lia).
  rewrite B0. split; intro E.
  - specialize (O1 E). destruct r; [contradiction|]. cbn [length]. lia.
  - destruct (O2 E) as (r' & ->). split; [cbn [length]; lia|]. change (CodeAddress e + 1) with (CodeAddress e + Z.of_nat 1). rewrite put_byte_at by (cbn [length]; lia). reflexivity.
Qed.
Lemma app_dead e e' b : app e e' -> app e (set_IsDeadCode b e').
Proof. intro A. exact A. Qed.
Lemma book_dead e P : Book e P -> IsDeadCode e = false -> Book (set_IsDeadCode true e) P.
Proof.
  intros [] D. split; auto.
  { intros l LR. apply (pending_app e); [exact (app_put [] e I)|exact (bk_pend l LR)]. }
  intros l r I. destruct (bk_jmp l r I) as [(_ & Q & _)|Q]; [congruence|right; exact Q].
Qed.
Lemma still_put bs e : still e (put bs e).
Proof. exact (put_still bs e). Qed.

(** the facts about labels that hold across a step that places none *)
Definition keepl (e e' : emst) : Prop := LAddr e' = LAddr e /\ LocalLabelCounter e' = LocalLabelCounter e.
(** code without waiting jumps is appended; dead: control does not reach the end *)
Lemma put_piece bs e P : Book e P -> live e -> live (put bs e) -> hd_ok bs ->
  Book (put bs e) P /\ back e P (put bs e) P /\ still e (put bs e) /\ keepl e (put bs e).
Proof.
  intros BK L L' OK. pose proof (app_put bs e OK) as A. split; [exact (book_app e _ P BK (proj1 L) (proj2 (proj2 L')) A)|].
  split; [exact (app_back e _ P (bk_ord _ _ BK) (proj1 L) (or_introl (proj1 L')) A)|]. split; [apply still_put|]. split; [apply put_laddr|apply put_cnt].
Qed.
Lemma put_dead_piece bs e P : Book e P -> live e -> live (put bs e) -> hd_ok bs -> bs <> [] -> let e' := set_IsDeadCode true (put bs e) in
  Book e' P /\ back e P e' P /\ still e e' /\ keepl e e'.
Proof.
  intros BK L L' OK NE e'. destruct (put_piece bs e P BK L L' OK) as (B1 & B2 & B3 & B4). split; [exact (book_dead _ _ B1 (proj1 L'))|].
  split; [|split; [exact B3|exact B4]]. apply (app_back e e' P (bk_ord _ _ BK) (proj1 L)); [|exact (app_put bs e OK)].
  right. change (CodeAddress e') with (CodeAddress (put bs e)). rewrite put_addr. destruct bs; [contradiction|]. cbn [length]. lia.
Qed.
(** the bytes put are in the final code *)
Lemma put_loaded lo ef e e' P bs m seg : ordered (CodeAddress e) P -> lo <= CodeAddress e -> Match lo ef e' P -> Output e' = Output (put bs e) -> CodeAddress e' = CodeAddress (put bs e) ->
  img lo ef m seg -> code m seg (CodeAddress e) (map u8 bs).
Proof.
  intros O L M OU CA IM. apply loaded_put. intros a A. rewrite <- CA in A. destruct (match_new lo ef e e' P O L M a A) as [A1 A2].
  rewrite <- OU. change (aget (Output e') (a - CODESTART)) with (byte e' a). rewrite <- A2. apply IM. lia.
Qed.

Section W.
Variable W : Z.
Hypothesis HW : 16 <= W.

Lemma back_hd a T : hd_ok (back_code a T).
Proof. unfold back_code. cbv zeta. destruct (_ && _); cbn [hd_ok]; (split; [intros _; discriminate|]); intro E; vm_compute in E; discriminate E. Qed.
Lemma back_nil a T : back_code a T <> [].
Proof. unfold back_code. cbv zeta. destruct (_ && _); discriminate. Qed.
Lemma jcc_hd c a T : 0 <= c < 16 -> hd_ok (jcc_code c a T).
Proof.
  intro HC. destruct (cc16 c HC) as (C1 & C2 & C3 & C4 & C5 & C6). unfold jcc_code. cbv zeta. destruct (_ && _); cbn [hd_ok Datatypes.app]; rewrite u8_small by lia; (split; intro E; exfalso; lia).
Qed.

(** where a label is, if it is anywhere *)
Definition placed (e : emst) (l : Z) : Prop := aget (LAddr e) l = 0 \/ 256 <= aget (LAddr e) l < 65536.
Definition goes_to (e e' : emst) (P' : list mark) (l : Z) : Prop :=
  forall lo ef Fin r g f m, lo <= CodeAddress e -> Match lo ef e' P' -> outside lo ef Fin -> img lo ef m (cs g) ->
  reaches Fin (mkst r g (aget (LAddr ef) l) f m) -> reaches Fin (mkst r g (CodeAddress e) f m).
(** *** A jump *)
Lemma jmp_piece l e P x e' : Book e P -> live e -> placed e l -> EmitJmp W l e = Ok (x, e') ->
  exists P', Book e' P' /\ (forall k s, In (k, s) P' -> In (k, s) P \/ k = l) /\ IsDeadCode e' = true /\ still e e' /\ keepl e e' /\ 0 <= l < LocalLabelCounter e /\
  back e P e' P' /\ goes_to e e' P' l.
Proof.
  intros BK L PL H. destruct (Z.eq_dec (aget (LAddr e) l) 0) as [A|A].
  - destruct (jmp_fwd_book W HW l e P x e' BK L A H) as (B1 & B2 & B3 & B4 & B5 & B6 & B7 & B8). eexists. split; [exact B1|].
    split; [intros k s [I|I]; [injection I as <- _; auto|auto]|]. split; [exact B2|]. split; [exact B4|]. split; [split; assumption|]. split; [exact B7|]. split; [exact B8|].
    intros lo ef Fin r g f m LO M OUT IM R. pose proof (mt_jump _ _ _ _ M l _ (or_introl eq_refl)) as J. cbn [start] in J.
    replace (CodeAddress e + 1 - 1) with (CodeAddress e) in J by lia. specialize (J LO r g f m Fin IM OUT). cbn [start] in J. replace (CodeAddress e + 1 - 1) with (CodeAddress e) in J by lia. exact (J R).
  - destruct PL as [PL|PL]; [contradiction|]. destruct (jmp_live W l e x e' L H) as (k & e2 & E & ->). pose proof (jump_label W _ _ _ _ E) as LR.
    apply (back_emits W l e e2 k _ L eq_refl A) in E. destruct E as (-> & L2 & _). set (T := aget (LAddr e) l) in *. set (bs := back_code (CodeAddress e) T) in *.
    destruct (put_dead_piece bs e P BK L L2 (back_hd _ _) (back_nil _ _)) as (B1 & B2 & B3 & B4). exists P. split; [exact B1|]. split; [auto|]. split; [reflexivity|]. split; [exact B3|]. split; [exact B4|]. split; [exact LR|]. split; [exact B2|].
    intros lo ef Fin r g f m LO M OUT IM R. destruct B4 as [B4 B5].
    assert (T' : aget (LAddr ef) l = T) by (rewrite (mt_addr _ _ _ _ M l); rewrite ?B4, ?B5; auto). rewrite T' in R.
    pose proof (live_lo _ L). pose proof (live_room _ _ L2) as LR2.
    apply (back_run (CodeAddress e) T); auto; try lia.
    + eapply (put_loaded lo ef e _ P bs); eauto; apply (bk_ord _ _ BK).
Qed.
Lemma jmp_dead l e x e' : IsDeadCode e = true -> Pending e = 0 -> EmitJmp W l e = Ok (x, e') -> e' = e.
Proof.
  intros D PD H. unfold EmitJmp in H. mgoin H.
  assert (P1 : set_Pending (clr (Pending e) 1) e = e) by (rewrite PD; change (clr 0 1) with 0; rewrite <- PD; destruct e; reflexivity). rewrite P1 in H.
  minv H c e1 E. unfold EmitChecks in E. cbn [EmitChecks_n] in E. mgoin E. rewrite D in E. oki E. oki H. reflexivity.
Qed.

(** *** A conditional jump *)
Definition goes_if (e e' : emst) (P' : list mark) (c l : Z) : Prop :=
  forall lo ef Fin r g f m v, lo <= CodeAddress e -> Match lo ef e' P' -> outside lo ef Fin -> img lo ef m (cs g) ->
  cond c f = Some v -> cond (Z.lxor c 1) f = Some (negb v) ->
  reaches Fin (mkst r g (if v then aget (LAddr ef) l else CodeAddress e') f m) -> reaches Fin (mkst r g (CodeAddress e) f m).
Lemma jcc_piece c l e P x e' : 0 <= c < 16 -> Book e P -> live e -> placed e l -> 0 <= l < LocalLabelCounter e -> aget (LAddr e) l <= CodeAddress e -> EmitJcc W c l e = Ok (x, e') ->
  exists P', Book e' P' /\ (forall k s, In (k, s) P' -> In (k, s) P \/ k = l) /\ live e' /\ still e e' /\ keepl e e' /\ back e P e' P' /\ goes_if e e' P' c l.
Proof.
  intros HC BK L PL LR LA H. destruct (Z.eq_dec (aget (LAddr e) l) 0) as [A|A].
  - destruct (jcc_fwd_book W HW c l e P x e' HC BK L A LR H) as (B1 & B2 & B3 & B4 & B5 & B6 & B8). eexists. split; [exact B1|].
    split; [intros k s [I|I]; [injection I as <- _; auto|auto]|]. split; [exact B2|]. split; [exact B4|]. split; [split; assumption|]. split; [exact B8|].
    intros lo ef Fin r g f m v LO M OUT IM C1 C2 R. pose proof (mt_jump _ _ _ _ M l _ (or_introl eq_refl)) as J. cbn [start] in J.
    replace (CodeAddress e + 3 - 3) with (CodeAddress e) in J by lia. specialize (J LO r g f m Fin IM OUT v C1 C2). cbn [start] in J. replace (CodeAddress e + 3 - 3) with (CodeAddress e) in J by lia.
    apply J. replace (CodeAddress e + 3 + 2) with (CodeAddress e') by lia. exact R.
  - pose proof H as H2. apply (jcc_back_emits W) in H2; auto. destruct H2 as [E L2]. set (T := aget (LAddr e) l) in *. set (bs := jcc_code c (CodeAddress e) T) in *. subst e'.
    destruct (put_piece bs e P BK L L2 (jcc_hd _ _ _ HC)) as (B1 & B2 & B3 & B4). exists P. split; [exact B1|]. split; [auto|]. split; [exact L2|]. split; [exact B3|]. split; [exact B4|]. split; [exact B2|].
    intros lo ef Fin r g f m v LO M OUT IM C1 C2 R. destruct B4 as [B4 B5].
    assert (T' : aget (LAddr ef) l = T) by (rewrite (mt_addr _ _ _ _ M l); rewrite ?B4, ?B5; auto). rewrite T' in R.
    destruct PL as [PL|PL]; [contradiction|].
    pose proof (jcc_back W c l e _ x HC L A (conj (Z.le_trans 0 256 _ ltac:(lia) (proj1 PL)) LA) H (mkst r g (CodeAddress e) f m) v eq_refl) as G. cbn [mem sg fl] in G.
    apply (reaches_trans (fun t => t = at_ip (mkst r g (CodeAddress e) f m) (if v then T else CodeAddress (put bs e)))).
    + apply G; [|split; assumption]. intros a A'. destruct (match_new lo ef e _ P (bk_ord _ _ BK) LO M a A') as [A1 A2].
      change (aget (Output (put bs e)) (a - CODESTART)) with (byte (put bs e) a). rewrite <- A2. apply IM. lia.
    + intros t ->. exact R.
Qed.
End W.
