(** Statements: what the compiler emits for one does what the statement means, wherever control goes. *)
From Verif Require Import Base Bits Spec8086 SpecWf SccRun SccState SccEmit SccLex SccDecl SccExpr SccStmt SccInput SccPut SccArith SccOps SccJump SccMem SccFix SccHold SccFlush SccSem SccBin SccVal SccComp SccBody SccParse SccWhole SccImg SccStep SccAsn SccMach SccPiece ExprSpec StmtSpec.

(** from e to e' labels of Ls were placed and jumps to labels of Ks added *)
Record St (Ls Ks : list Z) (e : emst) (P : list mark) (e' : emst) (P' : list mark) : Prop := {
  t_book : Book e' P';
  t_still : still e e';
  t_back : back e P e' P';
  t_cnt : LocalLabelCounter e <= LocalLabelCounter e';
  t_addr : forall k, 0 <= k < LocalLabelCounter e -> ~ In k Ls -> aget (LAddr e') k = aget (LAddr e) k;
  t_mark : forall k x, In (k, x) P' -> In (k, x) P \/ In k Ks }.
Lemma st_refl e P : Book e P -> St [] [] e P e P.
Proof. intro B. split; auto; [apply still_refl|apply back_refl|lia]. Qed.
Lemma st_trans L1 K1 L2 K2 e P e1 P1 e2 P2 : St L1 K1 e P e1 P1 -> St L2 K2 e1 P1 e2 P2 -> St (L1 ++ L2) (K1 ++ K2) e P e2 P2.
Proof.
  intros [A1 A2 A3 A4 A5 A6] [B1 B2 B3 B4 B5 B6]. split.
  - exact B1.
  - exact (still_trans _ _ _ A2 B2).
  - exact (back_trans _ _ _ _ _ _ A3 B3).
  - lia.
  - intros k R N. rewrite B5; [apply A5; auto|lia|]; intro; apply N; apply in_or_app; auto.
  - intros k x I. destruct (B6 k x I) as [J|J]; [|right; apply in_or_app; auto]. destruct (A6 k x J) as [J'|J']; [auto|right; apply in_or_app; auto].
Qed.
(** labels the statement made itself do not count outside *)
Lemma st_close L K K' e P e' P' : St L K e P e' P' -> Book e P -> (forall k, In k L -> LocalLabelCounter e <= k) -> (forall k, In k K -> In k K' \/ aget (LAddr e') k <> 0) -> St [] K' e P e' P'.
Proof.
  intros [A1 A2 A3 A4 A5 A6] B HL HK. split; auto.
  - intros k R _. apply A5; [exact R|]. intro I. specialize (HL k I). lia.
  - intros k x I. destruct (A6 k x I) as [J|J]; [auto|]. destruct (HK k J) as [J'|J']; [auto|]. destruct (bk_lab _ _ A1 _ _ I). contradiction.
Qed.
Lemma live_still e P : Book e P -> IsDeadCode e = false -> Pending e = 0 -> live e.
Proof. intros B D Q. split; [exact D|]. split; [exact Q|]. exact (bk_room _ _ B). Qed.

Section W.
Variables (W : Z) (F : nat).
Hypothesis HW : 16 <= W.
Variables (X : list Z) (D : nat) (Lv : Z).

(** *** Where control is, and what follows from it *)
(** from the address a, with the variables env, the aim is reached *)
Definition Good (K : mach) (env : Z -> Z) (a : Z) : Prop := forall t, MRel X K env t -> ip t = a -> reaches (k_fin K) t.
(** a return in a frame without local variables leaves the function at once, in one with local variables it jumps to the label rl *)
Definition GoodO (K : mach) (lb lc rl a : Z) (o : outcome) (env : Z -> Z) : Prop :=
  match o with
  | Normal => Good K env a
  | Broke => Good K env (aget (LAddr (k_ef K)) lb)
  | Continued => Good K env (aget (LAddr (k_ef K)) lc)
  | Returned v => if Lv =? 0 then k_frame X K /\ forall t, Ret X K env v t -> reaches (k_fin K) t
                  else forall t, 0 <= rl -> MRel X K env t -> ip t = aget (LAddr (k_ef K)) rl -> ax (rg t) = v mod 65536 -> reaches (k_fin K) t
  end.
Definition dvars (d d' : dcst) : Prop := VarLookup d' = VarLookup d /\ VType d' = VType d.
Lemma kok_same d d' vo K : dvars d d' -> k_ok X D d vo K -> k_ok X D d' vo K.
Proof. intros [E1 E2] []. split; auto. intros x Loc Val I IV. apply (ko_var x Loc Val I). unfold int_var in *. rewrite E1, E2 in IV. exact IV. Qed.
Lemma decls_same d d' vo : dvars d d' -> decls X d vo -> decls X d' vo.
Proof. intros [E1 E2] H x I. destruct (H x I) as (T & Loc & Val & IV). split; [exact T|]. exists Loc, Val. unfold int_var in *. rewrite E1, E2. exact IV. Qed.

(** where the code between e and e' was when it began *)
Definition Into (d : dcst) (e : emst) (e' : emst) (P' : list mark) (K : mach) : Prop :=
  k_ok X D d (VOff e) K /\ k_lo K <= CodeAddress e /\ Match (k_lo K) (k_ef K) e' P'.

Lemma st_make e P l e' : Book e P -> MakeLabel e = Ok (l, e') ->
  St [] [] e P e' P /\ l = LocalLabelCounter e /\ LocalLabelCounter e' = l + 1 /\ aget (LAddr e') l = 0 /\ CodeAddress e' = CodeAddress e /\ IsDeadCode e' = IsDeadCode e.
Proof.
  intros B H. destruct (make_book e P l e' B H) as (B1 & B2 & B3 & B4 & B5 & B6 & B7 & B8 & B9 & B10). 
  split; [|split; [exact B2|split; [exact B3|split; [exact B4|split; [exact B7|exact B9]]]]]. split; auto; [lia|]. intros k R _. apply B5. lia.
Qed.
Lemma st_label l e P x e' : Book e P -> Pending e = 0 -> 0 <= l -> EmitLocalLabel W l e = Ok (x, e') ->
  St [l] [] e P e' (without l P) /\ live e' /\ LocalLabelCounter e' = LocalLabelCounter e /\ aget (LAddr e') l = CodeAddress e' /\ (IsDeadCode e = false -> CodeAddress e' = CodeAddress e) /\
  256 <= CodeAddress e' < 65536.
Proof.
  intros B PD L0 H. destruct (label_book W l e P x e' B PD L0 H) as (B1 & B2 & B3 & B4 & B5 & B6 & B7 & B8 & B9 & B10).
  assert (R : 256 <= CodeAddress e' < 65536) by (pose proof (bk_room _ _ B3) as R; unfold room, CODESTART, OUTPUT_MAX in R; lia).
  split; [split; auto; try lia|].
  - intros k R1 N. rewrite B6, aget_aset_other; [reflexivity|]. intro; apply N; left; auto.
  - intros k y I. apply in_without in I. tauto.
  - split; [exact B4|]. split; [exact B7|]. split; [rewrite B6; apply aget_aset_same|]. split; [exact B8|exact R].
Qed.
Lemma st_jmp_at l e P x e' : Book e P -> Pending e = 0 -> placed e l -> EmitJmp W l e = Ok (x, e') ->
  exists P', St [] [l] e P e' P' /\ IsDeadCode e' = true /\ LAddr e' = LAddr e /\ LocalLabelCounter e' = LocalLabelCounter e /\
  (IsDeadCode e = false -> forall d K env t, Into d e e' P' K -> MRel X K env t -> ip t = CodeAddress e ->
   (forall t', MRel X K env t' -> ip t' = aget (LAddr (k_ef K)) l -> rg t' = rg t -> reaches (k_fin K) t') -> reaches (k_fin K) t).
Proof.
  intros B PD PL H. destruct (IsDeadCode e) eqn:DE.
  - pose proof (jmp_dead W l e x e' DE PD H) as ->. exists P. split; [|split; [exact DE|split; [reflexivity|split; [reflexivity|discriminate]]]].
    destruct (st_refl e P B). split; auto.
  - destruct (jmp_piece W HW l e P x e' B (live_still _ _ B DE PD) PL H) as (P' & B1 & B2 & B3 & B4 & [B5 B5'] & B6 & B7 & B8).
    exists P'. split; [split; auto|].
    + lia.
    + intros k R _. rewrite B5. reflexivity.
    + intros k y I. destruct (B2 k y I); [auto|right; left; auto].
    + split; [exact B3|]. split; [exact B5|]. split; [exact B5'|]. intros _ d K env t (KO & LO & M) R IP G.
      pose proof (bk_room _ _ B) as RM. unfold room, CODESTART in RM. pose proof (bk_room _ _ B1) as RM1. unfold room, CODESTART in RM1.
      assert (HC : 0 <= CodeAddress (k_ef K)).
      { destruct (mt_end _ _ _ _ (proj1 B7 _ _ M)) as [E|(? & ? & _ & _ & _ & E)]; [lia|congruence]. }
      pose proof (rel_img X D d (VOff e) K KO env t R HC) as IM.
      destruct t as [r g i f m]. cbn [ip mem sg] in *. subst i. apply (B8 (k_lo K) (k_ef K) (k_fin K) r g f m LO M (ko_out _ _ _ _ _ KO) IM).
      apply G; [exact (rel_move _ _ _ _ _ _ _ _ _ R)|reflexivity|reflexivity].
Qed.
Lemma st_jmp l e P x e' : Book e P -> Pending e = 0 -> placed e l -> EmitJmp W l e = Ok (x, e') ->
  exists P', St [] [l] e P e' P' /\ IsDeadCode e' = true /\ LAddr e' = LAddr e /\ LocalLabelCounter e' = LocalLabelCounter e /\
  (IsDeadCode e = false -> forall d K env, Into d e e' P' K -> Good K env (aget (LAddr (k_ef K)) l) -> Good K env (CodeAddress e)).
Proof.
  intros B PD PL H. destruct (st_jmp_at l e P x e' B PD PL H) as (P' & A1 & A2 & A3 & A4 & A5). exists P'. split; [exact A1|]. split; [exact A2|]. split; [exact A3|]. split; [exact A4|].
  intros DE d K env I G t R IP. apply (A5 DE d K env t I R IP). intros t' R' IP' _. exact (G t' R' IP').
Qed.
Lemma st_ext e e' P : Book e P -> live e -> live e' -> ext e e' -> still e e' -> St [] [] e P e' P /\ LAddr e' = LAddr e /\ LocalLabelCounter e' = LocalLabelCounter e.
Proof.
  intros B L L' XT SL. destruct (ext_piece e e' P B L L' XT) as (B1 & B2 & [B3 B4]). split; [|split; assumption]. split; auto; [lia|]. intros k _ _. rewrite B3. reflexivity.
Qed.
Lemma st_asn d a e e' P : Book e P -> live e -> assigned X D d a e e' -> St [] [] e P e' P /\ live e' /\ LAddr e' = LAddr e /\ LocalLabelCounter e' = LocalLabelCounter e /\
  forall K env env', Into d e e' P K -> act_step a env env' -> Good K env' (CodeAddress e') -> Good K env (CodeAddress e).
Proof.
  intros B L (L' & XT & SL & RUN). destruct (st_ext e e' P B L L' XT SL) as (S1 & S2 & S3). split; [exact S1|]. split; [exact L'|]. split; [exact S2|]. split; [exact S3|].
  intros K env env' (KO & LO & M) V G t R IP.
  eapply reaches_trans; [exact (RUN P K env env' t (r_env _ _ _ _ R) V KO (bk_ord _ _ B) LO M R IP)|]. cbv beta. intros t' [R' IP']. exact (G t' R' IP').
Qed.

(** *** The parser's steps *)
Lemma next_mk l e d x s' t rest : stream W F l (t :: rest) -> rest <> [] -> next W F (mkcc l e d) = Ok (x, s') -> exists l', s' = mkcc l' e d /\ stream W F l' rest.
Proof. intros ST NR H. destruct (stream_next W F (mkcc l e d) t rest ST NR) as (l' & G & ST'). unfold next in H. rewrite G in H. apply ok_inj in H. destruct H as [_ <-]. exists l'. split; [reflexivity|exact ST']. Qed.
Lemma expect_mk k l e d x s' t rest : stream W F l (t :: rest) -> rest <> [] -> Expect W F k (mkcc l e d) = Ok (x, s') -> exists l', s' = mkcc l' e d /\ stream W F l' rest.
Proof. intros ST NR H. unfold Expect, getl in H. mgoin H. destruct (_ =? k); [|discriminate]. exact (next_mk _ _ _ _ _ _ _ ST NR H). Qed.
Lemma inem_mk {A} (m : M emst A) l e d x s' : inem m (mkcc l e d) = Ok (x, s') -> exists e', m e = Ok (x, e') /\ s' = mkcc l e' d.
Proof. intro H. apply inem_inv in H. exact H. Qed.
Lemma semi_mk l e d x s' rest : stream W F l (kw ch_semi :: rest) -> rest <> [] -> GetSemicolon W F (mkcc l e d) = Ok (x, s') -> exists l', s' = mkcc l' e d /\ stream W F l' rest.
Proof.
  intros ST NR H. unfold GetSemicolon, getl in H. mgoin H. pose proof ST as (T & _). cbn [lx] in H. rewrite T in H. change (negb (t_type (kw ch_semi) =? ch_semi)) with false in H. cbn [when] in H. mgoin H.
  exact (next_mk _ _ _ _ _ _ _ ST NR H).
Qed.

(** *** The state a statement is compiled in *)
Record Inl (e : emst) (lb lc : Z) : Prop := {
  il_b : 0 <= lb < LocalLabelCounter e;
  il_b0 : aget (LAddr e) lb = 0;
  il_c : 0 <= lc < LocalLabelCounter e;
  il_c0 : placed e lc }.
Record Pre (b : bool) (e : emst) (d : dcst) (P : list mark) : Prop := {
  p_book : Book e P;
  p_live : live e;
  p_reg : RegUse e = false;
  p_off : LocalOffset e = Lv;
  p_decl : decls X d (VOff e);
  p_case : NextSwitchCase d < 0;
  p_loop : b = true -> Inl e (BreakLabel d) (ContinueLabel d) /\ BStackLevel d = Lv /\ CStackLevel d = Lv;
  p_ret : Lv <> 0 -> ReturnLabel d < 0 \/ 0 <= ReturnLabel d < LocalLabelCounter e /\ aget (LAddr e) (ReturnLabel d) = 0 }.
Definition dsame (d d' : dcst) : Prop := exists S r, d' = set_Scopes S (set_ReturnLabel r d) /\ forall i, i < ScopeCount d -> aget S i = aget (Scopes d) i.
Lemma dsame_refl d : dsame d d.
Proof. exists (Scopes d), (ReturnLabel d). split; [destruct d; reflexivity|auto]. Qed.
Lemma dsame_trans a b c : dsame a b -> dsame b c -> dsame a c.
Proof. intros (S1 & r1 & -> & H1) (S2 & r2 & -> & H2). exists S2, r2. split; [reflexivity|]. intros i I. rewrite H2 by exact I. cbn [Scopes set_Scopes set_ReturnLabel]. apply H1. exact I. Qed.
(** the label of the function's end is as before, or new and open *)
Definition rnew (e : emst) (d : dcst) (e' : emst) (d' : dcst) : Prop :=
  ReturnLabel d' = ReturnLabel d \/ Lv <> 0 /\ ReturnLabel d < 0 /\ 0 <= ReturnLabel d' /\ LocalLabelCounter e <= ReturnLabel d' < LocalLabelCounter e' /\ aget (LAddr e') (ReturnLabel d') = 0.
Definition same (e : emst) (d : dcst) (e' : emst) (d' : dcst) : Prop := dsame d d' /\ rnew e d e' d'.
Lemma same_refl e e' d : same e d e' d.
Proof. split; [apply dsame_refl|left; reflexivity]. Qed.
Lemma same_in L K e e1 d e2 d' P2 e3 P3 : LocalLabelCounter e <= LocalLabelCounter e1 -> same e1 d e2 d' -> St L K e2 P2 e3 P3 ->
  (forall k, In k L -> k < LocalLabelCounter e1 \/ LocalLabelCounter e2 <= k) -> same e d e3 d'.
Proof.
  intros C (DS & RN) S HL. split; [exact DS|]. destruct RN as [RN|(N0 & R0 & R1 & R2 & R3)]; [left; exact RN|right]. pose proof (t_cnt _ _ _ _ _ _ S). split; [exact N0|]. split; [exact R0|]. split; [exact R1|]. split; [lia|].
  rewrite (t_addr _ _ _ _ _ _ S); [exact R3|lia|]. intro I. specialize (HL _ I). lia.
Qed.
Lemma same_trans e e' a b c : same e a e' b -> same e b e' c -> same e a e' c.
Proof.
  intros (D1 & R1) (D2 & R2). split; [exact (dsame_trans _ _ _ D1 D2)|]. destruct R1 as [R1|R1], R2 as [R2|R2].
  - left. congruence.
  - right. rewrite <- R1. exact R2.
  - right. rewrite R2. exact R1.
  - right. split; [tauto|]. split; [tauto|]. tauto.
Qed.
Lemma same_vars e d e' d' : same e d e' d' -> dvars d d'.
Proof. intros ((S & r & -> & _) & _). split; reflexivity. Qed.
(** jumps to the label of the function's end *)
Definition rt (d : dcst) : list Z := if (Lv =? 0) || (ReturnLabel d <? 0) then [] else [ReturnLabel d].
Lemma rt_keep e d e' d' k : same e d e' d' -> In k (rt d) -> In k (rt d').
Proof.
  intros (_ & RN) I. unfold rt in *. destruct (Lv =? 0); [exact I|]. cbn [orb] in *. destruct (Z.ltb_spec (ReturnLabel d) 0); [destruct I|]. destruct RN as [-> |RN]; [|lia].
  destruct (Z.ltb_spec (ReturnLabel d) 0); [lia|exact I].
Qed.

Definition targets (b : bool) (d : dcst) : list Z := if b then [BreakLabel d; ContinueLabel d] else [].
Definition Runs (st : stmt) (lb lc rl : Z) (d : dcst) (e : emst) (e' : emst) (P' : list mark) : Prop :=
  forall K env env' o, Into d e e' P' K -> sexec st env env' o -> GoodO K lb lc rl (CodeAddress e') o env' -> Good K env (CodeAddress e).
(** nothing falls through exactly after a statement that ends in a jump; outside loops that is a return, and its label is made *)
Definition Dead (b : bool) (st : stmt) (e' : emst) (d' : dcst) : Prop :=
  IsDeadCode e' = negb (falls st) /\ (b = false -> Lv <> 0 -> falls st = false -> 0 <= ReturnLabel d').
Definition Post (b : bool) (st : stmt) (e : emst) (d : dcst) (P : list mark) (s' : cc) (rest : list token) : Prop :=
  exists l' e' d' P', s' = mkcc l' e' d' /\ stream W F l' rest /\ same e d e' d' /\ St [] (targets b d ++ rt d') e P e' P' /\ Dead b st e' d' /\
  Runs st (BreakLabel d) (ContinueLabel d) (ReturnLabel d') d e e' P'.
Definition no_else (st : stmt) (rest : list token) : Prop := open st = true -> t_type (hd (kw 0) rest) <> TOK_ELSE.
Definition PStmt (n : nat) : Prop := forall b st l e d P x s' rest, Pre b e d P -> wf_stmt b st -> incl (svars st) X -> (sdepth st <= D)%nat ->
  stream W F l (stoks st ++ rest) -> rest <> [] -> no_else st rest -> pStatement (tie W F n) (mkcc l e d) = Ok (x, s') -> Post b st e d P s' rest.

(** *** Parts of a piece of code *)
Lemma into_part L1 K1 L2 K2 d e P e1 P1 e2 P2 eN PN K : Into d e eN PN K -> IsDeadCode e = false -> St L1 K1 e P e1 P1 -> St L2 K2 e2 P2 eN PN -> Into d e1 e2 P2 K.
Proof.
  intros (KO & LO & M) DE [_ A2 A3 _ _ _] [_ _ B3 _ _ _]. split; [|split].
  - rewrite (proj2 (proj2 (proj2 A2))). exact KO.
  - apply (proj1 (proj2 A3 _ (floor_live _ P _ DE LO))).
  - exact (proj1 B3 _ _ M).
Qed.
Lemma into_vars d d' e e' P K : dvars d d' -> Into d e e' P K -> Into d' e e' P K.
Proof. intros V (KO & LO & M). split; [exact (kok_same _ _ _ _ V KO)|]. split; assumption. Qed.
Lemma lab_final L2 K2 d e e1 P1 eN PN K l : Into d e eN PN K -> St L2 K2 e1 P1 eN PN -> 0 <= l < LocalLabelCounter e1 -> aget (LAddr e1) l <> 0 -> aget (LAddr (k_ef K)) l = aget (LAddr e1) l.
Proof. intros (KO & LO & M) [_ _ B3 _ _ _] R N. apply (mt_addr _ _ _ _ (proj1 B3 _ _ M)); assumption. Qed.
Lemma inl_step L K e P e1 P1 lb lc : Inl e lb lc -> St L K e P e1 P1 -> ~ In lb L -> ~ In lc L -> Inl e1 lb lc.
Proof.
  intros [I1 I2 I3 I4] S N1 N2. pose proof (t_cnt _ _ _ _ _ _ S) as C. split; [lia|rewrite (t_addr _ _ _ _ _ _ S); auto|lia|]. unfold placed in *. rewrite (t_addr _ _ _ _ _ _ S); auto.
Qed.
Lemma pre_any L K b b' e d P e1 d1 P1 : Pre b e d P -> St L K e P e1 P1 -> IsDeadCode e1 = false -> dvars d d1 -> NextSwitchCase d1 = NextSwitchCase d ->
  (b' = true -> Inl e1 (BreakLabel d1) (ContinueLabel d1) /\ BStackLevel d1 = Lv /\ CStackLevel d1 = Lv) ->
  (Lv <> 0 -> ReturnLabel d1 < 0 \/ 0 <= ReturnLabel d1 < LocalLabelCounter e1 /\ aget (LAddr e1) (ReturnLabel d1) = 0) -> Pre b' e1 d1 P1.
Proof.
  intros [A1 A2 A3 A4 A5 A6 A7 A8] S DE DV NC LP RL. pose proof (t_still _ _ _ _ _ _ S) as (S1 & S2 & S3 & S4). split.
  - apply S.
  - apply (live_still _ _ (t_book _ _ _ _ _ _ S) DE). rewrite S1. apply A2.
  - congruence.
  - congruence.
  - rewrite S4. exact (decls_same _ _ _ DV A5).
  - lia.
  - exact LP.
  - exact RL.
Qed.
Lemma pre_step L K b e d P e1 d1 P1 : Pre b e d P -> St L K e P e1 P1 -> IsDeadCode e1 = false -> same e d e1 d1 -> (forall k, In k L -> LocalLabelCounter e <= k) -> Pre b e1 d1 P1.
Proof.
  intros PR S DE DS HL. apply (pre_any L K b b e d P e1 d1 P1 PR S DE (same_vars _ _ _ _ DS)).
  - destruct DS as ((? & ? & -> & _) & _). reflexivity.
  - intro B. destruct (p_loop _ _ _ _ PR B) as (I & Q). destruct DS as ((? & ? & -> & _) & _). split; [|exact Q]. apply (inl_step L K e P e1 P1 _ _ I S); intro J; apply HL in J; destruct I; cbn [BreakLabel ContinueLabel set_Scopes set_ReturnLabel] in *; lia.
  - intro N. pose proof (t_cnt _ _ _ _ _ _ S). destruct DS as (_ & [-> |(_ & _ & R0 & R1 & R2)]); [|right; split; [lia|exact R2]].
    destruct (p_ret _ _ _ _ PR N) as [R|[R1 R2]]; [left; exact R|right; split; [lia|]]. rewrite (t_addr _ _ _ _ _ _ S); [exact R2|lia|]. intro I. specialize (HL _ I). lia.
Qed.
(** a return whose label is kept *)
Lemma good_ret e d e' d' K lb lc a lb' lc' a' v env : same e d e' d' -> GoodO K lb lc (ReturnLabel d') a (Returned v) env -> GoodO K lb' lc' (ReturnLabel d) a' (Returned v) env.
Proof.
  intros (_ & RN) G. cbn [GoodO] in *. destruct (Lv =? 0); [exact G|]. intros t R0 R IP AX. destruct RN as [E|RN]; [|lia]. rewrite <- E in *. exact (G t R0 R IP AX).
Qed.
Lemma pre_pend b e d P L K e1 P1 : Pre b e d P -> St L K e P e1 P1 -> Pending e1 = 0.
Proof. intros PR S. rewrite (proj1 (t_still _ _ _ _ _ _ S)). apply (p_live _ _ _ _ PR). Qed.
(** addresses do not fall below the code that is there *)
Lemma st_le L K e P e1 P1 : St L K e P e1 P1 -> IsDeadCode e = false -> CodeAddress e <= CodeAddress e1.
Proof. intros S DE. apply (proj1 (proj2 (t_back _ _ _ _ _ _ S) _ (floor_live _ P _ DE (Z.le_refl _)))). Qed.

Lemma st_cond n c lb Fw b l e d P x s' rest : cond_ok Fw c -> incl (vars c) X -> (depth c <= D)%nat -> Pre b e d P -> 0 <= lb < LocalLabelCounter e -> placed e lb -> aget (LAddr e) lb <= CodeAddress e ->
  stream W F l (toks c ++ rest) -> ends rest -> prec_over PREC_COMMA rest -> DoCond W (tie W F n) lb Fw (mkcc l e d) = Ok (x, s') ->
  exists l' e' P', s' = mkcc l' e' d /\ stream W F l' rest /\ live e' /\ St [] [lb] e P e' P' /\ LAddr e' = LAddr e /\ LocalLabelCounter e' = LocalLabelCounter e /\
  forall K env b, Into d e e' P' K -> test env c b -> Good K env (if xorb b Fw then aget (LAddr (k_ef K)) lb else CodeAddress e') -> Good K env (CodeAddress e).
Proof.
  intros CO IX DX PR LR PL LA ST EN PO H.
  destruct (cond_piece W F HW X D n c lb Fw (mkcc l e d) x s' rest P CO IX DX (p_decl _ _ _ _ PR) (p_book _ _ _ _ PR) (p_live _ _ _ _ PR) (p_reg _ _ _ _ PR) LR PL LA ST EN PO H)
    as (e' & l' & P' & -> & ST' & L' & B1 & B2 & B3 & [B4 B5] & B6 & RUN). cbn [em dc] in *.
  exists l', e', P'. split; [reflexivity|]. split; [exact ST'|]. split; [exact L'|]. split; [|split; [exact B4|split; [exact B5|]]].
  - split; auto; [lia|intros k _ _; rewrite B4; reflexivity|]. intros k y I. destruct (B2 k y I); [auto|right; left; auto].
  - intros K env b0 (KO & LO & M) T G t R IP. apply (RUN K env b0 t KO LO M (r_env _ _ _ _ R) T R IP). exact G.
Qed.

(** *** The body of a loop *)
Lemma loop_ok n bl cl bd b l e d P x s' rest : PStmt n -> Pre b e d P -> Inl e bl cl -> wf_stmt true bd -> incl (svars bd) X -> (sdepth bd <= D)%nat ->
  stream W F l (stoks bd ++ rest) -> rest <> [] -> no_else bd rest -> DoLoopStatements (tie W F n) bl cl (mkcc l e d) = Ok (x, s') ->
  exists l' e' d' P', s' = mkcc l' e' d' /\ stream W F l' rest /\ same e d e' d' /\ St [] ([bl; cl] ++ rt d') e P e' P' /\ IsDeadCode e' = negb (falls bd) /\ Runs bd bl cl (ReturnLabel d') d e e' P'.
Proof.
  intros IH PR IL WF IX DX ST NR NE H. unfold DoLoopStatements, getd, gete, updd in H. mgoin H. cbn [lx em dc set_dc] in H. rewrite (p_off _ _ _ _ PR) in H.
  set (d1 := set_CStackLevel Lv (set_BStackLevel Lv (set_ContinueLabel cl (set_BreakLabel bl d)))). minv H y s1 E.
  assert (PR1 : Pre true e d1 P).
  { apply (pre_any [] [] b true e d P e d1 P PR (st_refl _ _ (p_book _ _ _ _ PR)) (proj1 (p_live _ _ _ _ PR))); [split; reflexivity|reflexivity| |exact (p_ret _ _ _ _ PR)]. intros _. split; [exact IL|]. split; reflexivity. }
  destruct (IH true bd l e d1 P y s1 rest PR1 WF IX DX ST NR NE E) as (l' & e' & d' & P' & -> & ST' & DS & S & (DE & _) & RUN). mgoin H. cbn [lx em dc set_dc] in H. oki H. cbn [lx em dc set_dc].
  destruct DS as ((Sc & r & -> & HS) & RN). eexists l', e', _, P'. split; [reflexivity|]. split; [exact ST'|]. split; [|split; [exact S|split; [exact DE|]]].
  - split; [exists Sc, r; split; [destruct d; reflexivity|exact HS]|exact RN].
  - intros K env env' o I X1 G. apply (RUN K env env' o); [|exact X1|exact G]. apply (into_vars d); [split; reflexivity|exact I].
Qed.

Ltac nn := first [discriminate | assumption | match goal with |- ?a ++ _ <> [] => destruct a; cbn [Datatypes.app]; nn end].
Ltac bool_tests H := repeat match type of H with
  | context [?a =? ?b] => let v := eval vm_compute in (a =? b) in match v with true => change (a =? b) with true in H | false => change (a =? b) with false in H end
  end; cbv iota in H.

(** *** while *)
Lemma while_ok n b c bd l e d P x s' rest : PStmt n -> Pre b e d P -> wf_stmt b (SWhile c bd) -> incl (svars (SWhile c bd)) X -> (sdepth (SWhile c bd) <= D)%nat ->
  stream W F l (stoks (SWhile c bd) ++ rest) -> rest <> [] -> no_else (SWhile c bd) rest -> while_stmt W F (tie W F n) (mkcc l e d) = Ok (x, s') -> Post b (SWhile c bd) e d P s' rest.
Proof.
  intros IH PR (GC & WFb) IX DX ST NR NE H. cbn [svars] in IX. apply incl_app_inv in IX. destruct IX as [IX1 IX2]. cbn [sdepth] in DX.
  cbn [stoks Datatypes.app] in ST. rewrite <- app_assoc in ST. cbn [Datatypes.app] in ST. unfold while_stmt in H.
  minv H y0 s0 E0. apply (next_mk _ _ _ _ _ _ _ ST) in E0; [|nn]. destruct E0 as (l0 & -> & ST0).
  minv H sl s1 E1. apply inem_mk in E1. destruct E1 as (e1 & E1 & ->). destruct (st_make e P sl e1 (p_book _ _ _ _ PR) E1) as (S1 & L1 & C1 & A1 & CA1 & DE1).
  minv H el s2 E2. apply inem_mk in E2. destruct E2 as (e2 & E2 & ->). destruct (st_make e1 P el e2 (t_book _ _ _ _ _ _ S1) E2) as (S2 & L2 & C2 & A2 & CA2 & DE2).
  pose proof (st_trans _ _ _ _ _ _ _ _ _ _ S1 S2) as T2. pose proof (bk_cnt _ _ (p_book _ _ _ _ PR)) as CN.
  minv H y3 s3 E3. apply inem_mk in E3. destruct E3 as (e3 & E3 & ->). destruct (st_label sl e2 P y3 e3 (t_book _ _ _ _ _ _ S2) (pre_pend _ _ _ _ _ _ _ _ PR T2) ltac:(lia) E3) as (S3 & LV3 & C3 & A3 & CA3 & R3).
  pose proof (st_trans _ _ _ _ _ _ _ _ _ _ T2 S3) as T3. pose proof (p_live _ _ _ _ PR) as LV.
  assert (D2 : IsDeadCode e2 = false) by (rewrite DE2, DE1; apply LV). specialize (CA3 D2).
  assert (A3e : aget (LAddr e3) el = 0) by (rewrite (t_addr _ _ _ _ _ _ S3); [exact A2|lia|intros [Q|[]]; lia]).
  assert (PR3 : Pre b e3 d (without sl P)) by (apply (pre_step _ _ b e d P e3 d _ PR T3 (proj1 LV3) (same_refl e _ d)); cbn [Datatypes.app In]; intros k [Q|[]]; lia).
  minv H y4 s4 E4. apply (expect_mk _ _ _ _ _ _ _ _ ST0) in E4; [|nn]. destruct E4 as (l4 & -> & ST4).
  minv H y5 s5 E5. destruct (st_cond n c el true b l4 e3 d _ y5 s5 _ GC IX1 ltac:(lia) PR3 ltac:(lia) ltac:(left; exact A3e) ltac:(lia) ST4 ltac:(right; right; left; reflexivity) ltac:(reflexivity) E5)
    as (l5 & e5 & P5 & -> & ST5 & LV5 & S5 & A5 & C5 & RUN5).
  minv H y6 s6 E6. apply (expect_mk _ _ _ _ _ _ _ _ ST5) in E6; [|nn]. destruct E6 as (l6 & -> & ST6).
  pose proof (st_trans _ _ _ _ _ _ _ _ _ _ T3 S5) as T5.
  assert (PR5 : Pre b e5 d P5) by (apply (pre_step _ _ b e d P e5 d _ PR T5 (proj1 LV5) (same_refl e _ d)); cbn [Datatypes.app In]; intros k [Q|[]]; lia).
  assert (IL5 : Inl e5 el sl) by (split; [lia|rewrite A5; exact A3e|lia|right; rewrite A5, A3; exact R3]).
  minv H y7 s7 E7. destruct (loop_ok n el sl bd b l6 e5 d P5 y7 s7 rest IH PR5 IL5 WFb IX2 ltac:(lia) ST6 NR NE E7) as (l7 & e7 & d7 & P7 & -> & ST7 & DS7 & S7 & DE7 & RUN7).
  pose proof (st_trans _ _ _ _ _ _ _ _ _ _ T5 S7) as T7. pose proof (t_cnt _ _ _ _ _ _ S7) as C7.
  assert (A7s : aget (LAddr e7) sl = CodeAddress e3) by (rewrite (t_addr _ _ _ _ _ _ S7), A5; [exact A3|lia|auto]).
  assert (A7e : aget (LAddr e7) el = 0) by (rewrite (t_addr _ _ _ _ _ _ S7), A5; [exact A3e|lia|auto]).
  minv H y8 t8 E8. apply inem_mk in E8. destruct E8 as (e8 & E8 & ->).
  destruct (st_jmp sl e7 P7 y8 e8 (t_book _ _ _ _ _ _ S7) (pre_pend _ _ _ _ _ _ _ _ PR T7) ltac:(right; rewrite A7s; exact R3) E8) as (P8 & S8 & DE8 & A8 & C8 & RUN8).
  pose proof (st_trans _ _ _ _ _ _ _ _ _ _ T7 S8) as T8.
  apply inem_mk in H. destruct H as (e9 & E9 & ->).
  destruct (st_label el e8 P8 x e9 (t_book _ _ _ _ _ _ S8) (pre_pend _ _ _ _ _ _ _ _ PR T8) ltac:(lia) E9) as (S9 & LV9 & C9 & A9 & _ & R9).
  pose proof (st_trans _ _ _ _ _ _ _ _ _ _ T8 S9) as T9. cbn [Datatypes.app] in T9.
  assert (DS9 : same e d e9 d7) by (apply (same_in _ _ e e5 d e7 d7 _ _ _ ltac:(lia) DS7 (st_trans _ _ _ _ _ _ _ _ _ _ S8 S9)); cbn [Datatypes.app In]; intros k Q; lia).
  exists l7, e9, d7, (without el P8). split; [reflexivity|]. split; [exact ST7|]. split; [exact DS9|]. split; [|split; [split; [exact (proj1 LV9)|intros _ _ Q; discriminate Q]|]].
  - apply (st_close _ _ _ _ _ _ _ T9 (p_book _ _ _ _ PR)); cbn [In].
    + intros k I. lia.
    + intros k I. assert (A9s : aget (LAddr e9) sl = CodeAddress e3) by (rewrite (t_addr _ _ _ _ _ _ S9), A8; [exact A7s|lia|intros [Q|[]]; lia]).
      assert (k = el \/ k = sl \/ In k (rt d7)) as [-> | [-> |Q]] by (rewrite !in_app_iff in I; cbn [In] in I; intuition); [right; lia|right; lia|left; apply in_or_app; right; exact Q].
  - intros K env env' o I X1 G.
    pose proof (st_trans _ _ _ _ _ _ _ _ _ _ S8 S9) as U7. pose proof (st_trans _ _ _ _ _ _ _ _ _ _ S7 U7) as U5. pose proof (st_trans _ _ _ _ _ _ _ _ _ _ S5 U5) as U3.
    assert (LE : aget (LAddr (k_ef K)) el = CodeAddress e9) by (rewrite <- A9; apply (lab_final _ _ d e e9 _ e9 _ K el I (st_refl _ _ (t_book _ _ _ _ _ _ T9))); lia).
    assert (LS : aget (LAddr (k_ef K)) sl = CodeAddress e3) by (rewrite <- A3; apply (lab_final _ _ d e e3 _ e9 _ K sl I U3); lia).
    pose proof (into_part _ _ _ _ d _ _ _ _ _ _ _ _ K I (proj1 LV) T3 U5) as I5.
    pose proof (into_part _ _ _ _ d _ _ _ _ _ _ _ _ K I (proj1 LV) T5 U7) as I7.
    pose proof (into_part _ _ _ _ d _ _ _ _ _ _ _ _ K I (proj1 LV) T7 S9) as I8.
    replace (CodeAddress e) with (CodeAddress e3) by lia.
    clear NE. remember (SWhile c bd) as st eqn:EST. revert EST G. induction X1; intros EST G; inversion EST; subst; clear EST.
    + apply (RUN5 K env false I5 H). cbn [xorb]. rewrite LE. exact G.
    + apply (RUN5 K env true I5 H). cbn [xorb]. apply (RUN7 K env env' o I7 X1). destruct o; cbn [leaves] in H0; try contradiction; subst; cbn [GoodO] in *; [rewrite LE; exact G|exact G].
    + apply (RUN5 K env true I5 H). cbn [xorb]. specialize (IHX1_2 eq_refl G). apply (RUN7 K env env1 o I7 X1_1). destruct H0 as [-> | ->]; cbn [GoodO].
      * apply (RUN8 ltac:(rewrite DE7, (normal_falls _ _ _ X1_1); reflexivity) d K env1 I8). rewrite LS. exact IHX1_2.
      * rewrite LS. exact IHX1_2.
Qed.

(** *** do *)
Lemma do_ok n b c bd l e d P x s' rest : PStmt n -> Pre b e d P -> wf_stmt b (SDo bd c) -> incl (svars (SDo bd c)) X -> (sdepth (SDo bd c) <= D)%nat ->
  stream W F l (stoks (SDo bd c) ++ rest) -> rest <> [] -> do_stmt W F (tie W F n) (mkcc l e d) = Ok (x, s') -> Post b (SDo bd c) e d P s' rest.
Proof.
  intros IH PR (GC & WFb) IX DX ST NR H. cbn [svars] in IX. apply incl_app_inv in IX. destruct IX as [IX1 IX2]. cbn [sdepth] in DX.
  cbn [stoks Datatypes.app] in ST. rewrite <- app_assoc in ST. cbn [Datatypes.app] in ST. rewrite <- app_assoc in ST. cbn [Datatypes.app] in ST. unfold do_stmt in H.
  minv H y0 s0 E0. apply (next_mk _ _ _ _ _ _ _ ST) in E0; [|nn]. destruct E0 as (l0 & -> & ST0).
  minv H sl s1 E1. apply inem_mk in E1. destruct E1 as (e1 & E1 & ->). destruct (st_make e P sl e1 (p_book _ _ _ _ PR) E1) as (S1 & L1 & C1 & A1 & CA1 & DE1).
  minv H cl s2 E2. apply inem_mk in E2. destruct E2 as (e2 & E2 & ->). destruct (st_make e1 P cl e2 (t_book _ _ _ _ _ _ S1) E2) as (S2 & L2 & C2 & A2 & CA2 & DE2).
  pose proof (st_trans _ _ _ _ _ _ _ _ _ _ S1 S2) as T2. pose proof (bk_cnt _ _ (p_book _ _ _ _ PR)) as CN.
  minv H el s3 E3. apply inem_mk in E3. destruct E3 as (e3 & E3 & ->). destruct (st_make e2 P el e3 (t_book _ _ _ _ _ _ S2) E3) as (S3 & L3 & C3 & A3 & CA3 & DE3).
  pose proof (st_trans _ _ _ _ _ _ _ _ _ _ T2 S3) as T3.
  minv H y4 s4 E4. apply inem_mk in E4. destruct E4 as (e4 & E4 & ->). destruct (st_label sl e3 P y4 e4 (t_book _ _ _ _ _ _ S3) (pre_pend _ _ _ _ _ _ _ _ PR T3) ltac:(lia) E4) as (S4 & LV4 & C4 & A4 & CA4 & R4).
  pose proof (st_trans _ _ _ _ _ _ _ _ _ _ T3 S4) as T4. pose proof (p_live _ _ _ _ PR) as LV.
  assert (D3 : IsDeadCode e3 = false) by (rewrite DE3, DE2, DE1; apply LV). specialize (CA4 D3).
  assert (A4c : aget (LAddr e4) cl = 0) by (rewrite (t_addr _ _ _ _ _ _ S4), (t_addr _ _ _ _ _ _ S3); [exact A2|lia|auto|lia|intros [Q|[]]; lia]).
  assert (A4e : aget (LAddr e4) el = 0) by (rewrite (t_addr _ _ _ _ _ _ S4); [exact A3|lia|intros [Q|[]]; lia]).
  assert (PR4 : Pre b e4 d (without sl P)) by (apply (pre_step _ _ b e d P e4 d _ PR T4 (proj1 LV4) (same_refl e _ d)); cbn [Datatypes.app In]; intros k [Q|[]]; lia).
  assert (IL4 : Inl e4 el cl) by (split; [lia|exact A4e|lia|left; exact A4c]).
  assert (NE : no_else bd (kw TOK_WHILE :: kw ch_lpar :: toks c ++ kw ch_rpar :: kw ch_semi :: rest)) by (intros _; discriminate).
  minv H y5 s5 E5. destruct (loop_ok n el cl bd b l0 e4 d _ y5 s5 _ IH PR4 IL4 WFb IX2 ltac:(lia) ST0 ltac:(nn) NE E5) as (l5 & e5 & d5 & P5 & -> & ST5 & DS5 & S5 & DE5 & RUN5).
  pose proof (st_trans _ _ _ _ _ _ _ _ _ _ T4 S5) as T5. pose proof (t_cnt _ _ _ _ _ _ S5) as C5.
  minv H y6 s6 E6. apply inem_mk in E6. destruct E6 as (e6 & E6 & ->). destruct (st_label cl e5 P5 y6 e6 (t_book _ _ _ _ _ _ S5) (pre_pend _ _ _ _ _ _ _ _ PR T5) ltac:(lia) E6) as (S6 & LV6 & C6 & A6 & CA6 & R6).
  pose proof (st_trans _ _ _ _ _ _ _ _ _ _ T5 S6) as T6.
  assert (A6s : aget (LAddr e6) sl = CodeAddress e4) by (rewrite (t_addr _ _ _ _ _ _ S6), (t_addr _ _ _ _ _ _ S5); [exact A4|lia|auto|lia|intros [Q|[]]; lia]).
  assert (A6e : aget (LAddr e6) el = 0) by (rewrite (t_addr _ _ _ _ _ _ S6), (t_addr _ _ _ _ _ _ S5); [exact A4e|lia|auto|lia|intros [Q|[]]; lia]).
  assert (LE46 : CodeAddress e4 <= CodeAddress e6) by exact (st_le _ _ _ _ _ _ (st_trans _ _ _ _ _ _ _ _ _ _ S5 S6) (proj1 LV4)).
  assert (DS6 : same e d e6 d5) by (apply (same_in _ _ e e4 d e5 d5 _ _ _ ltac:(lia) DS5 S6); cbn [In]; intros k Q; lia).
  assert (PR6 : Pre b e6 d5 (without cl P5)) by (apply (pre_step _ _ b e d P e6 d5 _ PR T6 (proj1 LV6) DS6); cbn [Datatypes.app In]; intros k Q; lia).
  minv H y7 s7 E7. apply (expect_mk _ _ _ _ _ _ _ _ ST5) in E7; [|nn]. destruct E7 as (l7 & -> & ST7).
  minv H y8 t8 E8. apply (expect_mk _ _ _ _ _ _ _ _ ST7) in E8; [|nn]. destruct E8 as (l8 & -> & ST8).
  minv H y9 s9 E9. destruct (st_cond n c sl false b l8 e6 d5 _ y9 s9 _ GC IX1 ltac:(lia) PR6 ltac:(lia) ltac:(right; rewrite A6s; exact R4) ltac:(lia) ST8 ltac:(right; right; left; reflexivity) ltac:(reflexivity) E9)
    as (l9 & e9 & P9 & -> & ST9 & LV9 & S9 & A9 & C9 & RUN9).
  pose proof (st_trans _ _ _ _ _ _ _ _ _ _ T6 S9) as T9.
  minv H y10 s10 E10. apply (expect_mk _ _ _ _ _ _ _ _ ST9) in E10; [|nn]. destruct E10 as (l10 & -> & ST10).
  minv H y11 s11 E11. apply inem_mk in E11. destruct E11 as (e11 & E11 & ->).
  destruct (st_label el e9 P9 y11 e11 (t_book _ _ _ _ _ _ S9) (pre_pend _ _ _ _ _ _ _ _ PR T9) ltac:(lia) E11) as (S11 & LV11 & C11 & A11 & CA11 & R11). specialize (CA11 (proj1 LV9)).
  pose proof (st_trans _ _ _ _ _ _ _ _ _ _ T9 S11) as T11. cbn [Datatypes.app] in T11.
  apply (semi_mk _ _ _ _ _ _ ST10 NR) in H. destruct H as (l12 & -> & ST12).
  assert (DS11 : same e d e11 d5) by (apply (same_in _ _ e e4 d e5 d5 _ _ _ ltac:(lia) DS5 (st_trans _ _ _ _ _ _ _ _ _ _ S6 (st_trans _ _ _ _ _ _ _ _ _ _ S9 S11))); cbn [Datatypes.app In]; intros k Q; lia).
  exists l12, e11, d5, (without el P9). split; [reflexivity|]. split; [exact ST12|]. split; [exact DS11|]. split; [|split; [split; [exact (proj1 LV11)|intros _ _ Q; discriminate Q]|]].
  - apply (st_close _ _ _ _ _ _ _ T11 (p_book _ _ _ _ PR)); cbn [In].
    + intros k I. lia.
    + intros k I. assert (A11s : aget (LAddr e11) sl = CodeAddress e4) by (rewrite (t_addr _ _ _ _ _ _ S11), A9; [exact A6s|lia|intros [Q|[]]; lia]).
      assert (A11c : aget (LAddr e11) cl = CodeAddress e6) by (rewrite (t_addr _ _ _ _ _ _ S11), A9; [exact A6|lia|intros [Q|[]]; lia]).
      assert (k = el \/ k = sl \/ k = cl \/ In k (rt d5)) as [-> | [-> | [-> |Q]]] by (rewrite !in_app_iff in I; cbn [In] in I; intuition); [right; lia|right; lia|right; lia|left; apply in_or_app; right; exact Q].
  - intros K env env' o I X1 G.
    pose proof (st_trans _ _ _ _ _ _ _ _ _ _ S9 S11) as U6. pose proof (st_trans _ _ _ _ _ _ _ _ _ _ S6 U6) as U5. pose proof (st_trans _ _ _ _ _ _ _ _ _ _ S5 U5) as U4.
    assert (LE : aget (LAddr (k_ef K)) el = CodeAddress e11) by (rewrite <- A11; apply (lab_final _ _ d e e11 _ e11 _ K el I (st_refl _ _ (t_book _ _ _ _ _ _ T11))); lia).
    assert (LS : aget (LAddr (k_ef K)) sl = CodeAddress e4) by (rewrite <- A4; apply (lab_final _ _ d e e4 _ e11 _ K sl I U4); lia).
    assert (LC : aget (LAddr (k_ef K)) cl = CodeAddress e6) by (rewrite <- A6; apply (lab_final _ _ d e e6 _ e11 _ K cl I U6); lia).
    pose proof (into_part _ _ _ _ d _ _ _ _ _ _ _ _ K I (proj1 LV) T4 U5) as I5.
    pose proof (into_vars _ _ _ _ _ _ (same_vars _ _ _ _ DS5) (into_part _ _ _ _ d _ _ _ _ _ _ _ _ K I (proj1 LV) T6 S11)) as I9.
    replace (CodeAddress e) with (CodeAddress e4) by lia.
    assert (BODY : forall env env1 o1, sexec bd env env1 o1 -> goes_on o1 -> Good K env1 (CodeAddress e6) -> Good K env (CodeAddress e4)).
    { intros v1 v2 o1 X2 GO G2. apply (RUN5 K v1 v2 o1 I5 X2). destruct GO as [-> | ->]; cbn [GoodO].
      - rewrite <- (CA6 ltac:(rewrite DE5, (normal_falls _ _ _ X2); reflexivity)). exact G2.
      - rewrite LC. exact G2. }
    remember (SDo bd c) as st eqn:EST. revert EST G. induction X1; intros EST G; inversion EST; subst; clear EST.
    + apply (RUN5 K env env' o I5 X1). destruct o; cbn [leaves] in H; try contradiction; subst; cbn [GoodO] in *; [rewrite LE; exact G|exact G].
    + apply (BODY env env' o X1 H). apply (RUN9 K env' false I9 H0). cbn [xorb]. rewrite <- CA11. exact G.
    + specialize (IHX1_2 eq_refl G). apply (BODY env env1 o X1_1 H). apply (RUN9 K env1 true I9 H0). cbn [xorb]. rewrite LS. exact IHX1_2.
Qed.

(** *** if *)
Lemma if_ok n b c a l e d P x s' rest : PStmt n -> Pre b e d P -> wf_stmt b (SIf c a) -> incl (svars (SIf c a)) X -> (sdepth (SIf c a) <= D)%nat ->
  stream W F l (stoks (SIf c a) ++ rest) -> rest <> [] -> no_else (SIf c a) rest -> if_stmt W F (tie W F n) (mkcc l e d) = Ok (x, s') -> Post b (SIf c a) e d P s' rest.
Proof.
  intros IH PR (GC & WFb) IX DX ST NR NE H. cbn [svars] in IX. apply incl_app_inv in IX. destruct IX as [IX1 IX2]. cbn [sdepth] in DX.
  cbn [stoks Datatypes.app] in ST. rewrite <- app_assoc in ST. cbn [Datatypes.app] in ST. unfold if_stmt in H. pose proof (p_live _ _ _ _ PR) as LV. pose proof (bk_cnt _ _ (p_book _ _ _ _ PR)) as CN.
  minv H y0 s0 E0. apply (next_mk _ _ _ _ _ _ _ ST) in E0; [|nn]. destruct E0 as (l0 & -> & ST0).
  minv H el s1 E1. apply inem_mk in E1. destruct E1 as (e1 & E1 & ->). destruct (st_make e P el e1 (p_book _ _ _ _ PR) E1) as (S1 & L1 & C1 & A1 & CA1 & DE1).
  assert (PR1 : Pre b e1 d P) by (apply (pre_step _ _ b e d P e1 d _ PR S1); [rewrite DE1; apply LV|apply same_refl|intros k []]).
  minv H y2 s2 E2. apply (expect_mk _ _ _ _ _ _ _ _ ST0) in E2; [|nn]. destruct E2 as (l2 & -> & ST2).
  minv H y3 s3 E3. destruct (st_cond n c el true b l2 e1 d _ y3 s3 _ GC IX1 ltac:(lia) PR1 ltac:(lia) ltac:(left; exact A1) ltac:(pose proof (live_lo _ (p_live _ _ _ _ PR1)); lia) ST2 ltac:(right; right; left; reflexivity) ltac:(reflexivity) E3)
    as (l3 & e3 & P3 & -> & ST3 & LV3 & S3 & A3 & C3 & RUN3).
  pose proof (st_trans _ _ _ _ _ _ _ _ _ _ S1 S3) as T3.
  assert (PR3 : Pre b e3 d P3) by (apply (pre_step _ _ b e d P e3 d _ PR T3); [apply LV3|apply same_refl|intros k []]).
  minv H y4 s4 E4. apply (expect_mk _ _ _ _ _ _ _ _ ST3) in E4; [|nn]. destruct E4 as (l4 & -> & ST4).
  assert (NE4 : no_else a rest) by (intros _; apply NE; reflexivity).
  minv H y5 s5 E5. destruct (IH b a l4 e3 d P3 y5 s5 rest PR3 WFb IX2 ltac:(lia) ST4 NR NE4 E5) as (l5 & e5 & d5 & P5 & -> & ST5 & DS5 & S5 & (DE5 & _) & RUN5).
  pose proof (st_trans _ _ _ _ _ _ _ _ _ _ T3 S5) as T5. pose proof (t_cnt _ _ _ _ _ _ S5) as C5.
  unfold getl in H. mgoin H. assert (TT : TokenType l5 =? TOK_ELSE = false).
  { apply Z.eqb_neq. specialize (NE eq_refl). destruct rest as [|t rest]; [contradiction|]. rewrite (proj1 ST5). exact NE. }
  cbn [lx] in H. rewrite TT in H. apply inem_mk in H. destruct H as (e6 & E6 & ->).
  destruct (st_label el e5 P5 x e6 (t_book _ _ _ _ _ _ S5) (pre_pend _ _ _ _ _ _ _ _ PR T5) ltac:(lia) E6) as (S6 & LV6 & C6 & A6 & CA6 & R6).
  pose proof (st_trans _ _ _ _ _ _ _ _ _ _ T5 S6) as T6. cbn [Datatypes.app] in T6. rewrite app_nil_r in T6.
  assert (DS6 : same e d e6 d5) by (apply (same_in _ _ e e3 d e5 d5 _ _ _ ltac:(lia) DS5 S6); cbn [In]; intros k Q; lia).
  exists l5, e6, d5, (without el P5). split; [reflexivity|]. split; [exact ST5|]. split; [exact DS6|]. split; [|split; [split; [exact (proj1 LV6)|intros _ _ Q; discriminate Q]|]].
  - apply (st_close _ _ _ _ _ _ _ T6 (p_book _ _ _ _ PR)); cbn [In].
    + intros k I. lia.
    + intros k [<-|I]; [right; lia|left; exact I].
  - intros K env env' o I X1 G. pose proof (st_trans _ _ _ _ _ _ _ _ _ _ S5 S6) as U3.
    assert (LE : aget (LAddr (k_ef K)) el = CodeAddress e6) by (rewrite <- A6; apply (lab_final _ _ d e e6 _ e6 _ K el I (st_refl _ _ (t_book _ _ _ _ _ _ T6))); lia).
    pose proof (into_part _ _ _ _ d _ _ _ _ _ _ _ _ K I (proj1 LV) S1 U3) as I3.
    pose proof (into_part _ _ _ _ d _ _ _ _ _ _ _ _ K I (proj1 LV) T3 S6) as I5.
    rewrite <- CA1. destruct (if_inv _ _ _ _ _ X1) as [[X2 X3]|(X2 & -> & ->)].
    + apply (RUN3 K env true I3 X2). cbn [xorb]. apply (RUN5 K env env' o I5 X3). destruct o; try exact G.
      cbn [GoodO] in *. rewrite <- (CA6 ltac:(rewrite DE5, (normal_falls _ _ _ X3); reflexivity)). exact G.
    + apply (RUN3 K env false I3 X2). cbn [xorb]. rewrite LE. exact G.
Qed.

(** *** if ... else *)
Lemma ifelse_ok n b c a a2 l e d P x s' rest : PStmt n -> Pre b e d P -> wf_stmt b (SIfElse c a a2) -> incl (svars (SIfElse c a a2)) X -> (sdepth (SIfElse c a a2) <= D)%nat ->
  stream W F l (stoks (SIfElse c a a2) ++ rest) -> rest <> [] -> no_else (SIfElse c a a2) rest -> if_stmt W F (tie W F n) (mkcc l e d) = Ok (x, s') -> Post b (SIfElse c a a2) e d P s' rest.
Proof.
  intros IH PR (GC & WFa & OA & WFb) IX DX ST NR NE H. cbn [svars] in IX. apply incl_app_inv in IX. destruct IX as [IX1 IX2]. apply incl_app_inv in IX2. destruct IX2 as [IX2 IX3]. cbn [sdepth] in DX.
  cbn [stoks Datatypes.app] in ST. rewrite <- app_assoc in ST. cbn [Datatypes.app] in ST. rewrite <- app_assoc in ST. cbn [Datatypes.app] in ST. unfold if_stmt in H. pose proof (p_live _ _ _ _ PR) as LV. pose proof (bk_cnt _ _ (p_book _ _ _ _ PR)) as CN.
  minv H y0 s0 E0. apply (next_mk _ _ _ _ _ _ _ ST) in E0; [|nn]. destruct E0 as (l0 & -> & ST0).
  minv H el s1 E1. apply inem_mk in E1. destruct E1 as (e1 & E1 & ->). destruct (st_make e P el e1 (p_book _ _ _ _ PR) E1) as (S1 & L1 & C1 & A1 & CA1 & DE1).
  assert (PR1 : Pre b e1 d P) by (apply (pre_step _ _ b e d P e1 d _ PR S1); [rewrite DE1; apply LV|apply same_refl|intros k []]).
  minv H y2 s2 E2. apply (expect_mk _ _ _ _ _ _ _ _ ST0) in E2; [|nn]. destruct E2 as (l2 & -> & ST2).
  minv H y3 s3 E3. destruct (st_cond n c el true b l2 e1 d _ y3 s3 _ GC IX1 ltac:(lia) PR1 ltac:(lia) ltac:(left; exact A1) ltac:(pose proof (live_lo _ (p_live _ _ _ _ PR1)); lia) ST2 ltac:(right; right; left; reflexivity) ltac:(reflexivity) E3)
    as (l3 & e3 & P3 & -> & ST3 & LV3 & S3 & A3 & C3 & RUN3).
  pose proof (st_trans _ _ _ _ _ _ _ _ _ _ S1 S3) as T3.
  assert (PR3 : Pre b e3 d P3) by (apply (pre_step _ _ b e d P e3 d _ PR T3); [apply LV3|apply same_refl|intros k []]).
  minv H y4 s4 E4. apply (expect_mk _ _ _ _ _ _ _ _ ST3) in E4; [|nn]. destruct E4 as (l4 & -> & ST4).
  assert (NE4 : no_else a (kw TOK_ELSE :: stoks a2 ++ rest)) by (intro Q; congruence).
  minv H y5 s5 E5. destruct (IH b a l4 e3 d P3 y5 s5 _ PR3 WFa IX2 ltac:(lia) ST4 ltac:(nn) NE4 E5) as (l5 & e5 & d5 & P5 & -> & ST5 & DS5 & S5 & (DE5 & _) & RUN5).
  pose proof (st_trans _ _ _ _ _ _ _ _ _ _ T3 S5) as T5. pose proof (t_cnt _ _ _ _ _ _ S5) as C5.
  unfold getl in H. mgoin H. cbn [lx] in H. rewrite (proj1 ST5) in H. change (t_type (kw TOK_ELSE) =? TOK_ELSE) with true in H. cbv iota in H.
  minv H y6 s6 E6. apply (next_mk _ _ _ _ _ _ _ ST5) in E6; [|nn]. destruct E6 as (l6 & -> & ST6).
  minv H nl s7 E7. apply inem_mk in E7. destruct E7 as (e7 & E7 & ->). destruct (st_make e5 P5 nl e7 (t_book _ _ _ _ _ _ S5) E7) as (S7 & L7 & C7 & A7 & CA7 & DE7).
  pose proof (st_trans _ _ _ _ _ _ _ _ _ _ T5 S7) as T7.
  minv H y8 t8 E8. apply inem_mk in E8. destruct E8 as (e8 & E8 & ->).
  destruct (st_jmp nl e7 P5 y8 e8 (t_book _ _ _ _ _ _ S7) (pre_pend _ _ _ _ _ _ _ _ PR T7) ltac:(left; exact A7) E8) as (P8 & S8 & DE8 & A8 & C8 & RUN8).
  pose proof (st_trans _ _ _ _ _ _ _ _ _ _ T7 S8) as T8.
  minv H y9 s9 E9. apply inem_mk in E9. destruct E9 as (e9 & E9 & ->).
  destruct (st_label el e8 P8 y9 e9 (t_book _ _ _ _ _ _ S8) (pre_pend _ _ _ _ _ _ _ _ PR T8) ltac:(lia) E9) as (S9 & LV9 & C9 & A9 & _ & R9).
  pose proof (st_trans _ _ _ _ _ _ _ _ _ _ T8 S9) as T9.
  assert (DS9 : same e d e9 d5) by (apply (same_in _ _ e e3 d e5 d5 _ _ _ ltac:(lia) DS5 (st_trans _ _ _ _ _ _ _ _ _ _ S7 (st_trans _ _ _ _ _ _ _ _ _ _ S8 S9))); cbn [Datatypes.app In]; intros k Q; lia).
  assert (PR9 : Pre b e9 d5 (without el P8)) by (apply (pre_step _ _ b e d P e9 d5 _ PR T9 (proj1 LV9) DS9); cbn [Datatypes.app In]; intros k [Q|[]]; lia).
  minv H y10 s10 E10. destruct (IH b a2 l6 e9 d5 _ y10 s10 rest PR9 WFb IX3 ltac:(lia) ST6 NR NE E10) as (l10 & e10 & d10 & P10 & -> & ST10 & DS10 & S10 & (DE10 & _) & RUN10).
  pose proof (st_trans _ _ _ _ _ _ _ _ _ _ T9 S10) as T10. pose proof (t_cnt _ _ _ _ _ _ S10) as C10.
  apply inem_mk in H. destruct H as (e11 & E11 & ->).
  destruct (st_label nl e10 P10 x e11 (t_book _ _ _ _ _ _ S10) (pre_pend _ _ _ _ _ _ _ _ PR T10) ltac:(lia) E11) as (S11 & LV11 & C11 & A11 & CA11 & R11).
  pose proof (st_trans _ _ _ _ _ _ _ _ _ _ T10 S11) as T11.
  assert (TG : targets b d5 = targets b d /\ BreakLabel d5 = BreakLabel d /\ ContinueLabel d5 = ContinueLabel d) by (destruct DS5 as ((? & ? & -> & _) & _); auto). destruct TG as (TG & TB & TC). rewrite TG in T11.
  assert (DS11 : same e d e11 d10).
  { apply (same_trans e e11 d d5 d10).
    - apply (same_in _ _ e e3 d e5 d5 _ _ _ ltac:(lia) DS5 (st_trans _ _ _ _ _ _ _ _ _ _ S7 (st_trans _ _ _ _ _ _ _ _ _ _ S8 (st_trans _ _ _ _ _ _ _ _ _ _ S9 (st_trans _ _ _ _ _ _ _ _ _ _ S10 S11))))). cbn [Datatypes.app In]. intros k Q. lia.
    - apply (same_in _ _ e e9 d5 e10 d10 _ _ _ ltac:(lia) DS10 S11). cbn [In]. intros k Q. lia. }
  exists l10, e11, d10, (without nl P10). split; [reflexivity|]. split; [exact ST10|]. split; [exact DS11|]. split; [|split; [split; [exact (proj1 LV11)|intros _ _ Q; discriminate Q]|]].
  - apply (st_close _ _ _ _ _ _ _ T11 (p_book _ _ _ _ PR)).
    + cbn [Datatypes.app In]. intros k I. lia.
    + intros k I. rewrite !in_app_iff in I. cbn [In] in I.
      assert (A11e : aget (LAddr e11) el = CodeAddress e9) by (rewrite (t_addr _ _ _ _ _ _ S11), (t_addr _ _ _ _ _ _ S10); [exact A9|lia|auto|lia|intros [Q|[]]; lia]).
      pose proof (rt_keep _ _ _ _ k DS10) as RK.
      assert (In k (targets b d ++ rt d10) \/ k = el \/ k = nl) as [Q|[-> | ->]] by (rewrite in_app_iff; intuition); [left; exact Q|right; lia|right; lia].
  - intros K env env' o I X1 G.
    pose proof (st_trans _ _ _ _ _ _ _ _ _ _ S10 S11) as U9. pose proof (st_trans _ _ _ _ _ _ _ _ _ _ S9 U9) as U8. pose proof (st_trans _ _ _ _ _ _ _ _ _ _ S8 U8) as U7.
    pose proof (st_trans _ _ _ _ _ _ _ _ _ _ S7 U7) as U5. pose proof (st_trans _ _ _ _ _ _ _ _ _ _ S5 U5) as U3.
    assert (LE : aget (LAddr (k_ef K)) el = CodeAddress e9) by (rewrite <- A9; apply (lab_final _ _ d e e9 _ e11 _ K el I U9); lia).
    assert (LN : aget (LAddr (k_ef K)) nl = CodeAddress e11) by (rewrite <- A11; apply (lab_final _ _ d e e11 _ e11 _ K nl I (st_refl _ _ (t_book _ _ _ _ _ _ T11))); lia).
    pose proof (into_part _ _ _ _ d _ _ _ _ _ _ _ _ K I (proj1 LV) S1 U3) as I3.
    pose proof (into_part _ _ _ _ d _ _ _ _ _ _ _ _ K I (proj1 LV) T3 U5) as I5.
    pose proof (into_part _ _ _ _ d _ _ _ _ _ _ _ _ K I (proj1 LV) T7 U8) as I8.
    pose proof (into_vars _ _ _ _ _ _ (same_vars _ _ _ _ DS5) (into_part _ _ _ _ d _ _ _ _ _ _ _ _ K I (proj1 LV) T9 S11)) as I10.
    rewrite <- CA1. destruct (ifelse_inv _ _ _ _ _ _ X1) as [[X2 X3]|[X2 X3]].
    + apply (RUN3 K env true I3 X2). cbn [xorb]. apply (RUN5 K env env' o I5 X3). destruct o; try exact G; [|exact (good_ret _ _ _ _ K _ _ _ _ _ _ _ _ DS10 G)].
      cbn [GoodO] in *. rewrite <- CA7. apply (RUN8 ltac:(rewrite DE7, DE5, (normal_falls _ _ _ X3); reflexivity) d K env' I8). rewrite LN. exact G.
    + apply (RUN3 K env false I3 X2). cbn [xorb]. rewrite LE. apply (RUN10 K env env' o I10 X3). rewrite TB, TC. destruct o; try exact G.
      cbn [GoodO] in *. rewrite <- (CA11 ltac:(rewrite DE10, (normal_falls _ _ _ X3); reflexivity)). exact G.
Qed.

(** *** for *)
Lemma toks_first ex : wf_exp ex -> exists t ts, toks ex = t :: ts /\ t_type t <> ch_semi.
Proof.
  induction ex as [z|x|ex IH|u ex IH|o a IHa b IHb]; intro WF; cbn [toks].
  - eexists _, _. split; [reflexivity|discriminate].
  - eexists _, _. split; [reflexivity|]. cbn [wf_exp] in WF. cbn [t_type fst]. unfold TOK_KEYWORD, ch_semi. lia.
  - eexists _, _. split; [reflexivity|discriminate].
  - eexists _, _. split; [reflexivity|destruct u; discriminate].
  - destruct IHa as (t & ts & E & N); [cbn [wf_exp] in WF; tauto|]. rewrite E. eexists _, _. split; [reflexivity|exact N].
Qed.
Lemma act_first a : good_act a -> exists t ts, atoks a = t :: ts /\ t_type t <> ch_semi /\ t_type t <> ch_rpar.
Proof.
  intro G. assert (V : forall x, 0 <= x -> t_type (kw (TOK_KEYWORD + x)) <> ch_semi /\ t_type (kw (TOK_KEYWORD + x)) <> ch_rpar) by (intros x H; cbn [kw t_type fst]; unfold TOK_KEYWORD, ch_semi, ch_rpar; lia).
  destruct a as [x e|o x e|[] up x]; (eexists _, _; split; [reflexivity|]); try (apply V; apply G). destruct up; split; discriminate.
Qed.
(** x = e or the like, or nothing *)
Lemma opt_asn n i b l e d P x s' k rest : good_asn i -> incl (avars i) X -> (adepth i <= D)%nat -> Pre b e d P -> k = ch_semi \/ k = ch_rpar ->
  stream W F l (otoks i ++ kw k :: rest) -> (match i with Some _ => pExpr (tie W F n) | None => ret tt end) (mkcc l e d) = Ok (x, s') ->
  exists l' e', s' = mkcc l' e' d /\ stream W F l' (kw k :: rest) /\ live e' /\ St [] [] e P e' P /\ LAddr e' = LAddr e /\ LocalLabelCounter e' = LocalLabelCounter e /\
  forall K env env', Into d e e' P K -> astep i env env' -> Good K env' (CodeAddress e') -> Good K env (CodeAddress e).
Proof.
  intros GA IX DX PR KK ST H. destruct i as [a|].
  - cbn [otoks avars adepth] in *.
    assert (EN : ends (kw k :: rest)) by (right; cbn [kw t_type fst]; tauto). assert (PO : prec_over PREC_COMMA (kw k :: rest)) by reflexivity.
    destruct (asn_expr W F HW X D n a (mkcc l e d) x s' (kw k :: rest) GA IX DX (p_decl _ _ _ _ PR) (p_live _ _ _ _ PR) (p_reg _ _ _ _ PR) ST EN PO H) as (e' & l' & -> & ST' & A).
    cbn [em dc] in *. destruct (st_asn d a e e' P (p_book _ _ _ _ PR) (p_live _ _ _ _ PR) A) as (S & L' & A1 & A2 & RUN).
    exists l', e'. split; [reflexivity|]. split; [exact ST'|]. split; [exact L'|]. split; [exact S|]. split; [exact A1|]. split; [exact A2|].
    exact RUN.
  - oki H. exists l, e. split; [reflexivity|]. split; [exact ST|]. split; [apply PR|]. split; [exact (st_refl _ _ (p_book _ _ _ _ PR))|]. split; [reflexivity|]. split; [reflexivity|].
    intros K env env' I -> G. exact G.
Qed.
(** c, or nothing *)
Definition otest (env : Z -> Z) (c : option exp) (v : bool) : Prop := match c with Some c => test env c v | None => v = true end.
Lemma opt_cond n c el b l e d P x s' rest : match c with Some c => good_cond c | None => True end -> incl (cvars c) X -> (cdepth c <= D)%nat -> Pre b e d P ->
  0 <= el < LocalLabelCounter e -> aget (LAddr e) el = 0 -> stream W F l (ctoks c ++ kw ch_semi :: rest) -> (match c with Some _ => DoCond W (tie W F n) el true | None => ret tt end) (mkcc l e d) = Ok (x, s') ->
  exists l' e' P', s' = mkcc l' e' d /\ stream W F l' (kw ch_semi :: rest) /\ live e' /\ St [] [el] e P e' P' /\ LAddr e' = LAddr e /\ LocalLabelCounter e' = LocalLabelCounter e /\
  forall K env v, Into d e e' P' K -> otest env c v -> Good K env (if v then CodeAddress e' else aget (LAddr (k_ef K)) el) -> Good K env (CodeAddress e).
Proof.
  intros GC IX DX PR ER EA ST H. destruct c as [c|].
  - destruct (st_cond n c el true b l e d P x s' _ GC IX DX PR ER (or_introl EA) ltac:(pose proof (live_lo _ (p_live _ _ _ _ PR)); lia) ST ltac:(right; left; reflexivity) ltac:(reflexivity) H)
      as (l' & e' & P' & -> & ST' & LV & S & A & C & RUN).
    exists l', e', P'. split; [reflexivity|]. split; [exact ST'|]. split; [exact LV|]. split; [exact S|]. split; [exact A|]. split; [exact C|].
    intros K env v I T G. apply (RUN K env v I T). destruct v; exact G.
  - oki H. exists l, e, P. split; [reflexivity|]. split; [exact ST|]. split; [apply PR|]. split; [destruct (st_refl _ _ (p_book _ _ _ _ PR)); split; auto|]. split; [reflexivity|]. split; [reflexivity|].
    intros K env v I -> G. exact G.
Qed.
(** the step, compiled between the condition and the body *)
Lemma for_step n sp cl bl b l e d P il s' rest : good_asn sp -> incl (avars sp) X -> (adepth sp <= D)%nat -> Pre b e d P ->
  0 <= cl < LocalLabelCounter e -> 256 <= aget (LAddr e) cl < 65536 -> 0 <= bl < LocalLabelCounter e -> aget (LAddr e) bl = 0 -> stream W F l (otoks sp ++ kw ch_rpar :: rest) ->
  (match sp with Some _ => (inem (EmitJmp W bl) ;; (let! l0 := inem MakeLabel in inem (EmitLocalLabel W l0) ;; pExpr (tie W F n) ;; inem (EmitJmp W cl) ;; ret l0)) | None => ret cl end) (mkcc l e d) = Ok (il, s') ->
  exists l' e' P' Ls Ks, s' = mkcc l' e' d /\ stream W F l' (kw ch_rpar :: rest) /\ St Ls Ks e P e' P' /\ (forall k, In k Ls -> LocalLabelCounter e <= k) /\ (forall k, In k Ks -> k = bl \/ k = cl) /\
  0 <= il < LocalLabelCounter e' /\ 256 <= aget (LAddr e') il < 65536 /\ (il = cl \/ LocalLabelCounter e <= il) /\
  (forall K env, Into d e e' P' K -> Good K env (if IsDeadCode e' then aget (LAddr (k_ef K)) bl else CodeAddress e') -> Good K env (CodeAddress e)) /\
  (forall K env env', Into d e e' P' K -> astep sp env env' -> Good K env' (aget (LAddr (k_ef K)) cl) -> Good K env (aget (LAddr (k_ef K)) il)).
Proof.
  intros GA IX DX PR CR CA BR BA ST H. destruct sp as [a|].
  - minv H y0 s0 E0. apply inem_mk in E0. destruct E0 as (e0 & E0 & ->).
    destruct (st_jmp bl e P y0 e0 (p_book _ _ _ _ PR) (proj1 (proj2 (p_live _ _ _ _ PR))) (or_introl BA) E0) as (P0 & S0 & DE0 & A0 & C0 & RUN0).
    minv H k s1 E1. apply inem_mk in E1. destruct E1 as (e1 & E1 & ->). destruct (st_make e0 P0 k e1 (t_book _ _ _ _ _ _ S0) E1) as (S1 & L1 & C1 & A1 & CA1 & DE1).
    pose proof (st_trans _ _ _ _ _ _ _ _ _ _ S0 S1) as T1.
    minv H y2 s2 E2. apply inem_mk in E2. destruct E2 as (e2 & E2 & ->). destruct (st_label k e1 P0 y2 e2 (t_book _ _ _ _ _ _ S1) (pre_pend _ _ _ _ _ _ _ _ PR T1) ltac:(lia) E2) as (S2 & LV2 & C2 & A2 & _ & R2).
    pose proof (st_trans _ _ _ _ _ _ _ _ _ _ T1 S2) as T2. minv H y3 s3 E3.
    assert (PR2 : Pre b e2 d (without k P0)) by (apply (pre_step _ _ b e d P e2 d _ PR T2 (proj1 LV2) (same_refl e _ d)); cbn [Datatypes.app In]; intros z [Q|[]]; lia).
    destruct (opt_asn n (Some a) b l e2 d _ y3 s3 ch_rpar rest GA IX DX PR2 (or_intror eq_refl) ST E3) as (l3 & e3 & -> & ST3 & LV3 & S3 & A3 & C3 & RUN3).
    pose proof (st_trans _ _ _ _ _ _ _ _ _ _ T2 S3) as T3.
    assert (A3c : aget (LAddr e3) cl = aget (LAddr e) cl) by (rewrite A3, (t_addr _ _ _ _ _ _ S2), (t_addr _ _ _ _ _ _ S1), A0; [reflexivity|lia|auto|lia|intros [Q|[]]; lia]).
    minv H y4 s4 E4. apply inem_mk in E4. destruct E4 as (e4 & E4 & ->).
    destruct (st_jmp cl e3 _ y4 e4 (t_book _ _ _ _ _ _ S3) (pre_pend _ _ _ _ _ _ _ _ PR T3) ltac:(right; lia) E4) as (P4 & S4 & DE4 & A4 & C4 & RUN4). oki H.
    pose proof (st_trans _ _ _ _ _ _ _ _ _ _ T3 S4) as T4.
    pose proof (st_trans _ _ _ _ _ _ _ _ _ _ S3 S4) as U2. pose proof (st_trans _ _ _ _ _ _ _ _ _ _ S2 U2) as U1. pose proof (st_trans _ _ _ _ _ _ _ _ _ _ S1 U1) as U0.
    eexists l3, e4, P4, _, _. split; [reflexivity|]. split; [exact ST3|]. split; [exact T4|]. pose proof (proj1 (p_live _ _ _ _ PR)) as LE.
    split; [cbn [Datatypes.app In]; intros z Z1; lia|]. split; [cbn [Datatypes.app In]; intros z Z1; lia|]. split; [lia|]. split; [rewrite A4, A3, A2; exact R2|]. split; [lia|]. split.
    + intros K env I G. rewrite DE4 in G. apply (RUN0 LE d K env); [|exact G]. exact (into_part _ _ _ _ d _ _ _ _ _ _ _ _ K I LE (st_refl _ _ (p_book _ _ _ _ PR)) U0).
    + intros K env env' I AS G. assert (LI : aget (LAddr (k_ef K)) k = CodeAddress e2) by (rewrite <- A2; apply (lab_final _ _ d e e2 _ e4 _ K k I U2); lia). rewrite LI.
      apply (RUN3 K env env'); [exact (into_part _ _ _ _ d _ _ _ _ _ _ _ _ K I LE T2 S4)|exact AS|].
      apply (RUN4 (proj1 LV3) d K env'); [exact (into_part _ _ _ _ d _ _ _ _ _ _ _ _ K I LE T3 (st_refl _ _ (t_book _ _ _ _ _ _ T4)))|exact G].
  - oki H. eexists l, e, P, [], []. split; [reflexivity|]. split; [exact ST|]. split; [exact (st_refl _ _ (p_book _ _ _ _ PR))|]. split; [intros k []|]. split; [intros k []|].
    split; [exact CR|]. split; [exact CA|]. split; [left; reflexivity|]. split.
    + intros K env I G. rewrite (proj1 (p_live _ _ _ _ PR)) in G. exact G.
    + intros K env env' I -> G. exact G.
Qed.
Lemma for_ok n b i c sp bd l e d P x s' rest : PStmt n -> Pre b e d P -> wf_stmt b (SFor i c sp bd) -> incl (svars (SFor i c sp bd)) X -> (sdepth (SFor i c sp bd) <= D)%nat ->
  stream W F l (stoks (SFor i c sp bd) ++ rest) -> rest <> [] -> no_else (SFor i c sp bd) rest -> for_stmt W F (tie W F n) (mkcc l e d) = Ok (x, s') -> Post b (SFor i c sp bd) e d P s' rest.
Proof.
  intros IH PR (GI & GC & GS & WFb) IX DX ST NR NE H. cbn [svars] in IX. apply incl_app_inv in IX. destruct IX as [IX1 IX]. apply incl_app_inv in IX. destruct IX as [IX2 IX]. apply incl_app_inv in IX. destruct IX as [IX3 IX4]. cbn [sdepth] in DX.
  cbn [stoks Datatypes.app] in ST. rewrite <- app_assoc in ST. cbn [Datatypes.app] in ST. rewrite <- app_assoc in ST. cbn [Datatypes.app] in ST. rewrite <- app_assoc in ST. cbn [Datatypes.app] in ST.
  unfold for_stmt in H. pose proof (p_live _ _ _ _ PR) as LV. pose proof (bk_cnt _ _ (p_book _ _ _ _ PR)) as CN.
  minv H y0 s0 E0. apply (next_mk _ _ _ _ _ _ _ ST) in E0; [|nn]. destruct E0 as (l0 & -> & ST0).
  minv H cl s1 E1. apply inem_mk in E1. destruct E1 as (e1 & E1 & ->). destruct (st_make e P cl e1 (p_book _ _ _ _ PR) E1) as (S1 & L1 & C1 & A1 & CA1 & DE1).
  minv H bl s2 E2. apply inem_mk in E2. destruct E2 as (e2 & E2 & ->). destruct (st_make e1 P bl e2 (t_book _ _ _ _ _ _ S1) E2) as (S2 & L2 & C2 & A2 & CA2 & DE2).
  pose proof (st_trans _ _ _ _ _ _ _ _ _ _ S1 S2) as T2.
  minv H el s3 E3. apply inem_mk in E3. destruct E3 as (e3 & E3 & ->). destruct (st_make e2 P el e3 (t_book _ _ _ _ _ _ S2) E3) as (S3 & L3 & C3 & A3 & CA3 & DE3).
  pose proof (st_trans _ _ _ _ _ _ _ _ _ _ T2 S3) as T3.
  assert (PR3 : Pre b e3 d P) by (apply (pre_step _ _ b e d P e3 d _ PR T3); [rewrite DE3, DE2, DE1; apply LV|apply same_refl|intros k []]).
  assert (A3c : aget (LAddr e3) cl = 0) by (rewrite (t_addr _ _ _ _ _ _ S3), (t_addr _ _ _ _ _ _ S2); [exact A1|lia|auto|lia|auto]).
  assert (A3b : aget (LAddr e3) bl = 0) by (rewrite (t_addr _ _ _ _ _ _ S3); [exact A2|lia|auto]).
  minv H y4 s4 E4. apply (expect_mk _ _ _ _ _ _ _ _ ST0) in E4; [|nn]. destruct E4 as (l4 & -> & ST4).
  unfold getl in H. mgoin H. minv H y5 s5 E5.
  assert (E5' : (match i with Some _ => pExpr (tie W F n) | None => ret tt end) (mkcc l4 e3 d) = Ok (y5, s5)).
  { cbn [lx] in E5. destruct i as [a|]; cbn [otoks] in ST4.
    - destruct (act_first a GI) as (t & ts & ET & N1 & N2). rewrite ET in ST4. cbn [Datatypes.app] in ST4. rewrite (proj1 ST4), (proj2 (Z.eqb_neq _ _) N1) in E5. exact E5.
    - cbn [Datatypes.app] in ST4. rewrite (proj1 ST4) in E5. exact E5. }
  destruct (opt_asn n i b l4 e3 d P y5 s5 ch_semi _ GI IX1 ltac:(lia) PR3 (or_introl eq_refl) ST4 E5') as (l5 & e5 & -> & ST5 & LV5 & S5 & A5 & C5 & RUN5). clear E5 E5'.
  pose proof (st_trans _ _ _ _ _ _ _ _ _ _ T3 S5) as T5.
  minv H y6 s6 E6. apply (expect_mk _ _ _ _ _ _ _ _ ST5) in E6; [|nn]. destruct E6 as (l6 & -> & ST6).
  minv H y7 s7 E7. apply inem_mk in E7. destruct E7 as (e7 & E7 & ->). destruct (st_label cl e5 P y7 e7 (t_book _ _ _ _ _ _ S5) (pre_pend _ _ _ _ _ _ _ _ PR T5) ltac:(lia) E7) as (S7 & LV7 & C7 & A7 & CA7 & R7).
  specialize (CA7 (proj1 LV5)). pose proof (st_trans _ _ _ _ _ _ _ _ _ _ T5 S7) as T7.
  assert (PR7 : Pre b e7 d (without cl P)) by (apply (pre_step _ _ b e d P e7 d _ PR T7); [apply LV7|apply same_refl|cbn [Datatypes.app In]; intros k [Q|[]]; lia]).
  assert (A7b : aget (LAddr e7) bl = 0) by (rewrite (t_addr _ _ _ _ _ _ S7), A5; [exact A3b|lia|intros [Q|[]]; lia]).
  assert (A7e : aget (LAddr e7) el = 0) by (rewrite (t_addr _ _ _ _ _ _ S7), A5; [exact A3|lia|intros [Q|[]]; lia]).
  mgoin H. minv H y9 s9 E9.
  assert (E9' : (match c with Some _ => DoCond W (tie W F n) el true | None => ret tt end) (mkcc l6 e7 d) = Ok (y9, s9)).
  { cbn [lx] in E9. destruct c as [c|]; cbn [ctoks Datatypes.app] in ST6.
    - destruct (toks_first c (proj1 (proj1 GC))) as (t & ts & ET & NT). rewrite ET in ST6. cbn [Datatypes.app] in ST6. rewrite (proj1 ST6) in E9. rewrite (proj2 (Z.eqb_neq _ _) NT) in E9. exact E9.
    - rewrite (proj1 ST6) in E9. exact E9. }
  destruct (opt_cond n c el b l6 e7 d _ y9 s9 _ GC IX2 ltac:(lia) PR7 ltac:(lia) A7e ST6 E9') as (l9 & e9 & P9 & -> & ST9 & LV9 & S9 & A9 & C9 & RUN9). clear E9 E9'.
  pose proof (st_trans _ _ _ _ _ _ _ _ _ _ T7 S9) as T9.
  assert (PR9 : Pre b e9 d P9) by (apply (pre_step _ _ b e d P e9 d _ PR T9); [apply LV9|apply same_refl|cbn [Datatypes.app In]; intros k [Q|[]]; lia]).
  minv H y10 s10 E10. apply (expect_mk _ _ _ _ _ _ _ _ ST9) in E10; [|nn]. destruct E10 as (l10 & -> & ST10).
  mgoin H. minv H il s11 E11.
  assert (E11' : (match sp with Some _ => (inem (EmitJmp W bl) ;; (let! l0 := inem MakeLabel in inem (EmitLocalLabel W l0) ;; pExpr (tie W F n) ;; inem (EmitJmp W cl) ;; ret l0)) | None => ret cl end) (mkcc l10 e9 d) = Ok (il, s11)).
  { cbn [lx] in E11. destruct sp as [a|]; cbn [otoks] in ST10.
    - destruct (act_first a GS) as (t & ts & ET & N1 & N2). rewrite ET in ST10. cbn [Datatypes.app] in ST10. rewrite (proj1 ST10), (proj2 (Z.eqb_neq _ _) N2) in E11. exact E11.
    - cbn [Datatypes.app] in ST10. rewrite (proj1 ST10) in E11. exact E11. }
  destruct (for_step n sp cl bl b l10 e9 d P9 il s11 _ GS IX3 ltac:(lia) PR9 ltac:(lia) ltac:(rewrite A9, A7; exact R7) ltac:(lia) ltac:(rewrite A9; exact A7b) ST10 E11')
    as (l11 & e11 & P11 & Ls & Ks & -> & ST11 & S11 & LS11 & KS11 & IR & IA & IC & RUN11a & RUN11b). clear E11 E11'.
  pose proof (st_trans _ _ _ _ _ _ _ _ _ _ T9 S11) as T11. pose proof (t_cnt _ _ _ _ _ _ S11) as C11.
  minv H y12 s12 E12. apply (expect_mk _ _ _ _ _ _ _ _ ST11) in E12; [|nn]. destruct E12 as (l12 & -> & ST12).
  assert (KEEP : forall k, 0 <= k < LocalLabelCounter e9 -> aget (LAddr e11) k = aget (LAddr e9) k) by (intros k Hk; apply (t_addr _ _ _ _ _ _ S11 k Hk); intro Q; specialize (LS11 k Q); lia).
  minv H y13 s13 E13. apply inem_mk in E13. destruct E13 as (e13 & E13 & ->).
  destruct (st_label bl e11 P11 y13 e13 (t_book _ _ _ _ _ _ S11) (pre_pend _ _ _ _ _ _ _ _ PR T11) ltac:(lia) E13) as (S13 & LV13 & C13 & A13 & CA13 & R13).
  pose proof (st_trans _ _ _ _ _ _ _ _ _ _ T11 S13) as T13.
  assert (NEW : forall k, In k ((((((([] ++ []) ++ []) ++ []) ++ [cl]) ++ []) ++ Ls) ++ [bl]) -> LocalLabelCounter e <= k).
  { intros k Q. rewrite !in_app_iff in Q. cbn [In] in Q. assert (k = cl \/ In k Ls \/ k = bl) as [-> |[Q1| ->]] by intuition; [lia| |lia]. specialize (LS11 k Q1). lia. }
  assert (PR13 : Pre b e13 d (without bl P11)) by (apply (pre_step _ _ b e d P e13 d _ PR T13); [apply LV13|apply same_refl|exact NEW]).
  assert (NIB : il <> bl) by lia. 
  assert (IL13 : Inl e13 el il).
  { split; [lia| |lia|right].
    - rewrite (t_addr _ _ _ _ _ _ S13), KEEP, A9; [exact A7e|lia|lia|intros [Q|[]]; lia].
    - rewrite (t_addr _ _ _ _ _ _ S13); [exact IA|lia|intros [Q|[]]; lia]. }
  minv H y14 s14 E14. destruct (loop_ok n el il bd b l12 e13 d _ y14 s14 rest IH PR13 IL13 WFb IX4 ltac:(lia) ST12 NR NE E14) as (l14 & e14 & d14 & P14 & -> & ST14 & DS14 & S14 & DE14 & RUN14).
  pose proof (st_trans _ _ _ _ _ _ _ _ _ _ T13 S14) as T14. pose proof (t_cnt _ _ _ _ _ _ S14) as C14.
  assert (A14i : aget (LAddr e14) il = aget (LAddr e11) il) by (rewrite (t_addr _ _ _ _ _ _ S14), (t_addr _ _ _ _ _ _ S13); [reflexivity|lia|intros [Q|[]]; lia|lia|auto]).
  minv H y15 s15 E15. apply inem_mk in E15. destruct E15 as (e15 & E15 & ->).
  destruct (st_jmp il e14 P14 y15 e15 (t_book _ _ _ _ _ _ S14) (pre_pend _ _ _ _ _ _ _ _ PR T14) ltac:(right; rewrite A14i; exact IA) E15) as (P15 & S15 & DE15 & A15 & C15 & RUN15).
  pose proof (st_trans _ _ _ _ _ _ _ _ _ _ T14 S15) as T15.
  apply inem_mk in H. destruct H as (e16 & E16 & ->).
  destruct (st_label el e15 P15 x e16 (t_book _ _ _ _ _ _ S15) (pre_pend _ _ _ _ _ _ _ _ PR T15) ltac:(lia) E16) as (S16 & LV16 & C16 & A16 & _ & R16).
  pose proof (st_trans _ _ _ _ _ _ _ _ _ _ T15 S16) as T16.
  assert (DS16 : same e d e16 d14) by (apply (same_in _ _ e e13 d e14 d14 _ _ _ ltac:(lia) DS14 (st_trans _ _ _ _ _ _ _ _ _ _ S15 S16)); cbn [Datatypes.app In]; intros k Q; lia).
  exists l14, e16, d14, (without el P15). split; [reflexivity|]. split; [exact ST14|]. split; [exact DS16|]. split; [|split; [split; [exact (proj1 LV16)|intros _ _ Q; discriminate Q]|]].
  - apply (st_close _ _ _ _ _ _ _ T16 (p_book _ _ _ _ PR)).
    + intros k Q. apply in_app_or in Q. destruct Q as [Q|[Q|[]]]; [|lia]. rewrite !app_nil_r in Q. apply NEW. rewrite !app_nil_r. exact Q.
    + intros k Q. rewrite !in_app_iff in Q. cbn [In] in Q.
      assert (A16x : forall k, 0 <= k < LocalLabelCounter e13 -> k <> el -> aget (LAddr e16) k = aget (LAddr e13) k).
      { intros j J1 J2. rewrite (t_addr _ _ _ _ _ _ S16), A15, (t_addr _ _ _ _ _ _ S14); [reflexivity|lia|auto|lia|intros [Q1|[]]; lia]. }
      assert (k = el \/ In k Ks \/ k = il \/ In k (rt d14)) as [-> |[Q1|[-> |Q1]]] by intuition; [right; lia|right|right|left; apply in_or_app; right; exact Q1].
      * destruct (KS11 k Q1) as [-> | ->]; rewrite A16x by lia; [lia|]. rewrite (t_addr _ _ _ _ _ _ S13), KEEP, A9, A7; [lia|lia|lia|intros [Q2|[]]; lia].
      * rewrite A16x, (t_addr _ _ _ _ _ _ S13); [lia|lia|intros [Q1|[]]; lia|lia|lia].
  - intros K env env' o I X1 G.
    pose proof (st_trans _ _ _ _ _ _ _ _ _ _ S15 S16) as U14. pose proof (st_trans _ _ _ _ _ _ _ _ _ _ S14 U14) as U13. pose proof (st_trans _ _ _ _ _ _ _ _ _ _ S13 U13) as U11.
    pose proof (st_trans _ _ _ _ _ _ _ _ _ _ S11 U11) as U9. pose proof (st_trans _ _ _ _ _ _ _ _ _ _ S9 U9) as U7. pose proof (st_trans _ _ _ _ _ _ _ _ _ _ S7 U7) as U5.
    assert (LE : aget (LAddr (k_ef K)) el = CodeAddress e16) by (rewrite <- A16; apply (lab_final _ _ d e e16 _ e16 _ K el I (st_refl _ _ (t_book _ _ _ _ _ _ T16))); lia).
    assert (LB : aget (LAddr (k_ef K)) bl = CodeAddress e13) by (rewrite <- A13; apply (lab_final _ _ d e e13 _ e16 _ K bl I U13); lia).
    assert (LC : aget (LAddr (k_ef K)) cl = CodeAddress e7) by (rewrite <- A7; apply (lab_final _ _ d e e7 _ e16 _ K cl I U7); lia).
    pose proof (into_part _ _ _ _ d _ _ _ _ _ _ _ _ K I (proj1 LV) T3 U5) as I5.
    pose proof (into_part _ _ _ _ d _ _ _ _ _ _ _ _ K I (proj1 LV) T7 U9) as I9.
    pose proof (into_part _ _ _ _ d _ _ _ _ _ _ _ _ K I (proj1 LV) T9 U11) as I11.
    pose proof (into_part _ _ _ _ d _ _ _ _ _ _ _ _ K I (proj1 LV) T13 U14) as I14.
    pose proof (into_part _ _ _ _ d _ _ _ _ _ _ _ _ K I (proj1 LV) T14 S16) as I15.
    replace (CodeAddress e) with (CodeAddress e3) by lia. destruct (for_inv _ _ _ _ _ _ _ X1) as (env1 & AS & XF). apply (RUN5 K env env1 I5 AS). rewrite <- CA7. clear X1 AS env NE.
    assert (ENTER : forall v, Good K v (CodeAddress e13) -> Good K v (CodeAddress e9)).
    { intros v Gv. apply (RUN11a K v I11). destruct (IsDeadCode e11) eqn:DE11; [rewrite LB; exact Gv|rewrite <- (CA13 eq_refl); exact Gv]. }
    assert (TESTS : forall v, tests v c -> Good K v (CodeAddress e9) -> Good K v (CodeAddress e7)).
    { intros v Tv Gv. apply (RUN9 K v true I9); [destruct c; [exact Tv|reflexivity]|exact Gv]. }
    clear GC GS. revert G. remember (Normal) as o0. clear Heqo0 o0. induction XF; intros G.
    + apply (RUN9 K env false I9 H). rewrite LE. exact G.
    + apply TESTS; [exact H|]. apply ENTER. apply (RUN14 K env env' o I14 H0). destruct o; cbn [leaves] in H1; try contradiction; subst; cbn [GoodO] in *; [rewrite LE; exact G|exact G].
    + apply TESTS; [exact H|]. apply ENTER. assert (GI1 : Good K env1 (aget (LAddr (k_ef K)) il)) by (apply (RUN11b K env1 env2 I11 H2); rewrite LC; auto).
      apply (RUN14 K env env1 o I14 H0). destruct H1 as [-> | ->]; cbn [GoodO]; [|exact GI1].
      apply (RUN15 ltac:(rewrite DE14, (normal_falls _ _ _ H0); reflexivity) d K env1 I15). exact GI1.
Qed.
End W.
