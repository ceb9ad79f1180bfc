(** Code whose jumps are not all resolved yet: the list of the waiting jumps of all labels, the invariant of the
    emission state that belongs to it, and how the final code compares with the code at an earlier moment. *)
From Verif Require Import Base Bits Spec8086 SpecWf SccRun SccState SccEmit SccInput SccPut SccArith SccOps SccJump SccMem SccFix SccHold.

(** ** Waiting jumps *)
(** a waiting jump and its label, the newest first *)
Definition mark : Type := Z * site.
Definition of_label (l : Z) (P : list mark) : list site := map snd (filter (fun x => fst x =? l) P).
Definition without (l : Z) (P : list mark) : list mark := filter (fun x => negb (fst x =? l)) P.
Fixpoint ordered (lim : Z) (P : list mark) : Prop :=
  match P with [] => True | (_, s) :: P => CODESTART <= start s /\ ref s + 2 <= lim /\ ordered (start s) P end.
Definition sited (P : list mark) (a : Z) : Prop := exists l s, In (l, s) P /\ in_site a s.
(** a short jump or a frame restore at a is complete, and no waiting jump is in it *)
Definition whole (e : emst) (P : list mark) (a : Z) : Prop :=
  (byte e a = 235 -> a + 2 <= CodeAddress e /\ ~ sited P a /\ ~ sited P (a + 1)) /\
  (byte e a = 93 -> a + 2 <= CodeAddress e /\ byte e (a + 1) = 195 /\ ~ sited P a /\ ~ sited P (a + 1)).

Lemma site_width s : start s < ref s.
Proof. destruct s; cbn [start ref]; lia. Qed.
Lemma in_of_label l s P : In s (of_label l P) <-> In (l, s) P.
Proof.
  unfold of_label. rewrite in_map_iff. split.
  - intros ([l' s'] & E & I). cbn [snd] in E. subst s'. apply filter_In in I. destruct I as [I B]. cbn [fst] in B. apply Z.eqb_eq in B. subst l'. exact I.
  - intro I. exists (l, s). split; [reflexivity|]. apply filter_In. split; [exact I|apply Z.eqb_refl].
Qed.
Lemma in_without l l' s P : In (l', s) (without l P) <-> In (l', s) P /\ l' <> l.
Proof.
  unfold without. rewrite filter_In. cbn [fst]. split; intros [A B]; (split; [exact A|]).
  - intros ->. rewrite Z.eqb_refl in B. discriminate B.
  - apply negb_true_iff. apply Z.eqb_neq. exact B.
Qed.
Lemma ordered_le lim lim' P : ordered lim P -> lim <= lim' -> ordered lim' P.
Proof. destruct P as [|[l s] P]; cbn [ordered]; [auto|]. intuition lia. Qed.
Lemma ordered_in lim P l s : ordered lim P -> In (l, s) P -> CODESTART <= start s /\ ref s + 2 <= lim.
Proof.
  revert lim. induction P as [|[l' s'] P IH]; intros lim O I; [destruct I|]. cbn [ordered] in O. destruct O as (A & B & C). destruct I as [I|I].
  - injection I as -> ->. auto.
  - destruct (IH _ C I) as [D E]. pose proof (site_width s'). lia.
Qed.
Lemma ordered_without l lim P : ordered lim P -> ordered lim (without l P).
Proof.
  revert lim. induction P as [|[l' s'] P IH]; intros lim O; [exact I|]. cbn [ordered] in O. destruct O as (A & B & C). cbn [without filter fst].
  destruct (negb (l' =? l)); [cbn [ordered]; auto|]. apply (ordered_le (start s')); [apply IH; exact C|]. pose proof (site_width s'). lia.
Qed.
(** waiting jumps do not overlap *)
Lemma ordered_apart lim P l s l' s' : ordered lim P -> In (l, s) P -> In (l', s') P -> (l, s) = (l', s') \/ ref s + 2 <= start s' \/ ref s' + 2 <= start s.
Proof.
  revert lim. induction P as [|[m t] P IH]; intros lim O I I'; [destruct I|]. cbn [ordered] in O. destruct O as (A & B & C).
  destruct I as [I|I], I' as [I'|I'].
  - left. congruence.
  - injection I as -> ->. pose proof (ordered_in _ _ _ _ C I'). lia.
  - injection I' as -> ->. pose proof (ordered_in _ _ _ _ C I). lia.
  - exact (IH _ C I I').
Qed.
Lemma sited_below lim P a : ordered lim P -> sited P a -> a < lim.
Proof. intros O (l & s & I & [_ IS]). pose proof (ordered_in _ _ _ _ O I). lia. Qed.
Lemma sited_without l P a : sited (without l P) a -> sited P a.
Proof. intros (l' & s & I & IS). apply in_without in I. exists l', s. tauto. Qed.
Lemma sited_cons l s P a : sited ((l, s) :: P) a <-> in_site a s \/ sited P a.
Proof.
  split.
  - intros (l' & s' & [I|I] & IS); [injection I as -> ->; auto|]. right. exists l', s'. auto.
  - intros [IS|(l' & s' & I & IS)]; [exists l, s; split; [left; reflexivity|exact IS]|exists l', s'; split; [right; exact I|exact IS]].
Qed.

(** ** The invariant *)
Record Book (e : emst) (P : list mark) : Prop := {
  bk_bytes : bytes_ok e;
  bk_room : room e 0;
  bk_lf : LastFixup e <= CodeAddress e;
  bk_cnt : 0 <= LocalLabelCounter e;
  bk_pend : forall l, 0 <= l < LocalLabelCounter e -> pending e l (of_label l P);
  bk_lab : forall l s, In (l, s) P -> 0 <= l < LocalLabelCounter e /\ aget (LAddr e) l = 0;
  bk_ord : ordered (CodeAddress e) P;
  bk_cond : forall l c r, In (l, SCond c r) P -> 0 <= c < 16 /\ whole e P (r + 2);
  bk_after : forall a, CodeAddress e + 3 <= a -> byte e a <> 235 /\ byte e a <> 93;
  bk_jmp : forall l r, In (l, SJmp r) P -> (r + 2 = CodeAddress e /\ IsDeadCode e = true /\ forall a, CodeAddress e <= a -> byte e a <> 235 /\ byte e a <> 93) \/ r + 2 <= LastFixup e;
  bk_in : forall l s, In (l, s) P -> LastFixup e <= start s \/ ref s + 2 <= LastFixup e }.

(** ** More code without waiting jumps *)
Definition app (e e' : emst) : Prop :=
  CodeAddress e <= CodeAddress e' /\ (forall a, a < CodeAddress e -> byte e' a = byte e a) /\ lab e' = lab e /\
  (forall a, CodeAddress e' <= a -> byte e' a = byte e a) /\ (bytes_ok e -> bytes_ok e') /\
  (CodeAddress e < CodeAddress e' -> (byte e' (CodeAddress e) = 235 -> CodeAddress e + 2 <= CodeAddress e') /\
     (byte e' (CodeAddress e) = 93 -> CodeAddress e + 2 <= CodeAddress e' /\ byte e' (CodeAddress e + 1) = 195)).
Lemma lab_eq e e' : lab e' = lab e -> LRef e' = LRef e /\ LAddr e' = LAddr e /\ LocalLabelCounter e' = LocalLabelCounter e /\ LastFixup e' = LastFixup e.
Proof. unfold lab. intro E. split; [congruence|]. split; [congruence|]. split; congruence. Qed.
Lemma ext_app e e' : ext e e' -> app e e'.
Proof.
  intros (A & B & C & D & E & F). split; [exact A|]. split; [intros a L; apply B; lia|]. split; [exact C|]. split; [intros a L; apply D; lia|]. split.
  - intros BO a. unfold byte. apply E. intro k. specialize (BO (k + CODESTART)). unfold byte in BO. replace (k + CODESTART - CODESTART) with k in BO by lia. exact BO.
  - intro L. specialize (F L). fold (byte e' (CodeAddress e)) in F. tauto.
Qed.

Lemma pending_app e e' l sites : app e e' -> pending e l sites -> pending e' l sites.
Proof.
  intros (A & B & C & _) P. destruct (lab_eq _ _ C) as (E1 & _). unfold pending in *. rewrite E1. eapply chain_below; [exact P|exact B|exact A].
Qed.
Lemma book_app e e' P : Book e P -> IsDeadCode e = false -> room e' 0 -> app e e' -> Book e' P.
Proof.
  intros BK LV RM AP. pose proof AP as (A & B & C & D & E & F). destruct (lab_eq _ _ C) as (E1 & E2 & E3 & E4). destruct BK.
  split.
  - auto.
  - exact RM.
  - rewrite E4. lia.
  - rewrite E3. exact bk_cnt0.
  - rewrite E3. intros l L. eapply pending_app; [exact AP|]. apply bk_pend0. exact L.
  - rewrite E2, E3. exact bk_lab0.
  - eapply ordered_le; eauto.
  - intros l c r I. destruct (bk_cond0 l c r I) as [R [W1 W2]]. split; [exact R|]. pose proof (ordered_in _ _ _ _ bk_ord0 I) as [_ O]. cbn [ref] in O.
    assert (NS : forall a, CodeAddress e <= a -> ~ sited P a) by (intros a L S; pose proof (sited_below _ _ _ bk_ord0 S); lia).
    destruct (Z.eq_dec (r + 2) (CodeAddress e)) as [Q|Q].
    + destruct (Z.eq_dec (CodeAddress e) (CodeAddress e')) as [Z0|Z0].
      * assert (U : byte e' (r + 2) = byte e (r + 2)) by (apply D; lia). split; intro U'; rewrite U in U'; [specialize (W1 U')|specialize (W2 U')]; lia.
      * assert (LT : CodeAddress e < CodeAddress e') by lia. destruct (F LT) as [F1 F2]. rewrite Q. split; intro U.
        -- specialize (F1 U). split; [lia|]. split; apply NS; lia.
        -- destruct (F2 U) as [F3 F4]. split; [lia|]. split; [exact F4|]. split; apply NS; lia.
    + split; intro U; rewrite B in U by lia; [destruct (W1 U) as (X1 & X2)|destruct (W2 U) as (X1 & X2 & X3)]; (split; [lia|]); [exact X2|]. rewrite B by lia. auto.
  - intros a L. rewrite D by lia. apply bk_after0. lia.
  - rewrite E4. intros l r I. destruct (bk_jmp0 l r I) as [(_ & Q & _)|Q]; [rewrite LV in Q; discriminate|auto].
  - rewrite E4. exact bk_in0.
Qed.

(** ** The final code *)
(** the code of e0 from lo on is in memory *)
Definition img (lo : Z) (ef : emst) (m : arr Z) (seg : Z) : Prop := present ef lo (CodeAddress ef) m seg.
(** an aim outside this code *)
Definition outside (lo : Z) (ef : emst) (Fin : state -> Prop) : Prop := forall t, Fin t -> ip t < lo \/ CodeAddress ef <= ip t.
(** the jump at s goes to T: every aim outside that is reached from there is reached from the jump *)
Definition jumps (lo : Z) (ef : emst) (T : Z) (s : site) : Prop :=
  forall r g f m Fin, img lo ef m (cs g) -> outside lo ef Fin ->
  match s with
  | SJmp _ => reaches Fin (mkst r g T f m) -> reaches Fin (mkst r g (start s) f m)
  | SCond c p => forall v, cond c f = Some v -> cond (Z.lxor c 1) f = Some (negb v) ->
      reaches Fin (mkst r g (if v then T else p + 2) f m) -> reaches Fin (mkst r g (start s) f m)
  end.
(** the final code ef has the code of e from lo on, and the jumps waiting there go to where their labels are in ef *)
Record Match (lo : Z) (ef e : emst) (P : list mark) : Prop := {
  mt_lo : 256 <= lo;
  mt_hi : CodeAddress ef <= 24832;
  mt_bytes : bytes_ok ef;
  mt_code : forall a, lo <= a < CodeAddress e -> ~ sited P a -> a < CodeAddress ef /\ byte ef a = byte e a;
  mt_jump : forall l s, In (l, s) P -> lo <= start s -> jumps lo ef (aget (LAddr ef) l) s;
  mt_addr : forall l, 0 <= l < LocalLabelCounter e -> aget (LAddr e) l <> 0 -> aget (LAddr ef) l = aget (LAddr e) l;
  mt_end : CodeAddress e <= CodeAddress ef \/ exists l r, In (l, SJmp r) P /\ r + 2 = CodeAddress e /\ r - 1 <= CodeAddress ef /\ IsDeadCode e = true }.
Lemma match_self e lo : Book e [] -> 256 <= lo -> Match lo e e [].
Proof.
  intros B L. split; [exact L| |apply (bk_bytes _ _ B)|intros; split; [lia|reflexivity]|intros l s []|reflexivity|left; lia].
  pose proof (bk_room _ _ B) as R. unfold room, CODESTART, OUTPUT_MAX in R. lia.
Qed.

Lemma match_app lo ef e e' P : ordered (CodeAddress e) P -> IsDeadCode e' = false \/ CodeAddress e < CodeAddress e' -> app e e' -> Match lo ef e' P -> Match lo ef e P.
Proof.
  intros OR LD (A & B & C & _) [M4 M5 M6 M1 M2 M3 M7]. destruct (lab_eq _ _ C) as (E1 & E2 & E3 & E4). split; auto.
  - intros a L NS. rewrite <- B by lia. apply M1; [lia|exact NS].
  - rewrite <- E2, <- E3. exact M3.
  - left. destruct M7 as [M7|(l & r & I & R1 & R2 & D)]; [lia|]. destruct LD as [LD|LD]; [congruence|]. pose proof (ordered_in _ _ _ _ OR I) as [_ O]. cbn [ref] in O. lia.
Qed.
Lemma match_live lo ef e P : Match lo ef e P -> IsDeadCode e = false -> CodeAddress e <= CodeAddress ef.
Proof. intros M D. destruct (mt_end _ _ _ _ M) as [Q|(l & r & _ & _ & _ & Q)]; [exact Q|congruence]. Qed.
(** the code between e and e' is in the final code *)
Lemma match_new lo ef e e' P : ordered (CodeAddress e) P -> lo <= CodeAddress e -> Match lo ef e' P ->
  forall a, CodeAddress e <= a < CodeAddress e' -> a < CodeAddress ef /\ byte ef a = byte e' a.
Proof. intros O L M a A. apply (mt_code _ _ _ _ M); [lia|]. intro S. pose proof (sited_below _ _ _ O S). lia. Qed.

(** one step that is certain *)
Lemma reaches_one Fin s (nx : flags -> state) : (forall u, step u s = Some (nx u)) -> ~ Fin s -> reaches Fin s -> forall u, reaches Fin (nx u).
Proof.
  intros S N R u. destruct R as [s F|s nx' S' R']; [contradiction|]. pose proof (S u) as E1. rewrite S' in E1. injection E1 as <-. apply R'.
Qed.
Lemma reach_past Fin bs i n (nx : flags -> state) r g a f m :
  code m (cs g) a bs -> (forall f, decode (over bs f) = Some (i, n)) -> 0 <= a + n < 65536 ->
  (forall u, exec u i (mkst r g (a + n) f m) = Some (nx u)) -> ~ Fin (mkst r g a f m) -> reaches Fin (mkst r g a f m) -> forall u, reaches Fin (nx u).
Proof.
  intros C D L E. apply reaches_one. intro u. rewrite (step_code bs i n u (mkst r g a f m) C (D _)).
  unfold set_ip. cbn [rg sg ip fl mem]. rewrite Z.mod_small by lia. apply E.
Qed.

Section J.
Variables (lo : Z) (ef : emst).
Hypothesis LO : 256 <= lo.
Hypothesis HI : CodeAddress ef <= 24832.

Lemma img_code m seg bs a : img lo ef m seg -> lo <= a -> a + Z.of_nat (length bs) <= CodeAddress ef ->
  (forall k, (k < length bs)%nat -> byte ef (a + Z.of_nat k) = nth k bs 0) -> code m seg a bs.
Proof. intros P A B C. exact (present_code _ _ _ _ _ P bs a A B C). Qed.

Lemma jump_goes a T r g f m P : img lo ef m (cs g) -> lo <= a -> a + 3 <= CodeAddress ef -> 0 <= T < 65536 -> jump_at ef a T ->
  reaches P (mkst r g T f m) -> reaches P (mkst r g a f m).
Proof.
  intros PR L A3 T1 J H. destruct J as [(J0 & J1 & J2)|(J0 & J1 & J2)].
  - eapply (jmp8_run r g a f m P (u8 (T - (a + 2))) T); auto; try lia; [eapply code2; eauto; lia|].
    rewrite sx8_s8, s8_id, Zplus_mod_idemp_r by exact J2. replace (a + 2 + _) with T by lia. apply Z.mod_small. lia.
  - eapply (jmp16_run r g a f m P (u8 (T - (a + 3))) (u8 (Z.shiftr (T - (a + 3)) 8)) T); auto; try lia; [eapply code3; eauto; lia|].
    rewrite word_bytes, Zplus_mod_idemp_r. replace (a + 3 + _) with T by lia. apply Z.mod_small. lia.
Qed.

(** a resolved jump whose tail was copied from complete instructions *)
Definition tailed (p : Z) : Prop :=
  (byte ef (p - 1) = 235 /\ byte ef (p + 2) = 235 /\ byte ef p = u8 (byte ef (p + 3) + 3) /\ s8 (byte ef (p + 3)) <= 124 /\ p + 4 <= CodeAddress ef) \/
  (byte ef (p - 1) = 93 /\ byte ef p = 195 /\ byte ef (p + 2) = 93 /\ byte ef (p + 3) = 195 /\ p + 4 <= CodeAddress ef) \/
  (byte ef (p - 1) = 136 /\ byte ef p = 192 /\ byte ef (p + 1) = 144).
Definition settled (T : Z) (s : site) : Prop :=
  match s with
  | SJmp r => jump_at ef (r - 1) T
  | SCond c r => 0 <= c < 16 /\
      ((byte ef (r - 3) = 112 + Z.lxor c 1 /\ byte ef (r - 2) = 3 /\ jump_at ef (r - 1) T) \/
       (byte ef (r - 3) = 112 + c /\ byte ef (r - 2) = u8 (T - (r - 1)) /\ -128 <= T - (r - 1) <= 127 /\ tailed r))
  end.

Lemma settled_jumps T s : bytes_ok ef -> lo <= start s -> ref s + 2 <= CodeAddress ef -> 0 <= T < 65536 -> settled T s -> jumps lo ef T s.
Proof.
  intros BO ST RL TR FX r g f m Fin IM OUT. destruct s as [p|c p]; cbn [start ref settled] in *.
  - intro H. eapply jump_goes; eauto; try lia.
  - destruct FX as [HC FX]. intros v V1 V2 H. destruct (cc16 c HC) as (C1 & C2 & C3 & C4 & C5 & C6).
    assert (NF : forall a r' f' m', lo <= a < CodeAddress ef -> ~ Fin (mkst r' g a f' m')) by (intros a r' f' m' A B; apply OUT in B; cbn [ip] in B; lia).
    destruct FX as [(F3 & F2 & J)|(F3 & F2 & RG & TL)].
    + assert (CD : code m (cs g) (p - 3) [112 + Z.lxor c 1; 3]).
      { eapply code2; eauto; try lia. replace (p - 3 + 1) with (p - 2) by lia. exact F2. }
      destruct v.
      * apply (jcc_run r g (p - 3) f m _ (Z.lxor c 1) 3 false (p - 1)); auto; try lia; try discriminate.
        eapply jump_goes; eauto; try lia.
      * apply (jcc_run r g (p - 3) f m _ (Z.lxor c 1) 3 true (p + 2)); auto; try lia; try discriminate.
        intros _. unfold sx8. cbn [Z.ltb Z.compare Pos.compare Pos.compare_cont]. rewrite Z.mod_small by lia. lia.
    + assert (CD : code m (cs g) (p - 3) [112 + c; u8 (T - (p - 1))]).
      { eapply code2; eauto; try lia. replace (p - 3 + 1) with (p - 2) by lia. exact F2. }
      destruct v.
      * apply (jcc_run r g (p - 3) f m _ c (u8 (T - (p - 1))) true T); auto; try lia; try discriminate.
        intros _. rewrite sx8_s8, s8_id, Zplus_mod_idemp_r by lia. replace (p - 3 + 2 + _) with T by lia. apply Z.mod_small. lia.
      * apply (jcc_run r g (p - 3) f m _ c (u8 (T - (p - 1))) false (p - 1)); auto; try lia; try discriminate.
        destruct TL as [(T1 & T2 & T3 & T4 & T5)|[(T1 & T2 & T3 & T4 & T5)|(T1 & T2 & T3)]].
        -- set (n1 := byte ef (p + 3)) in *. assert (M : 0 <= (p + 4 + sx8 n1) mod 65536 < 65536) by (apply Z.mod_pos_bound; lia).
           apply (jmp8_run r g (p - 1) f m _ (u8 (n1 + 3)) ((p + 4 + sx8 n1) mod 65536)); auto; try lia; [eapply code2; eauto; try lia; replace (p - 1 + 1) with p by lia; exact T3| |].
           ++ pose proof (BO (p + 3)) as NB. fold n1 in NB. clearbody n1. clear - NB T4 ST RL HI LO.
              assert (E3 : sx8 (u8 (n1 + 3)) = (sx8 n1 + 3) mod 65536).
              { unfold sx8, s8, u8 in *. rewrite (Z.mod_small n1) in T4 by lia. destruct (Z.ltb_spec n1 128).
                - rewrite Z.mod_small by lia. destruct (Z.ltb_spec (n1 + 3) 128); lia.
                - destruct (Z.ltb_spec ((n1 + 3) mod 256) 128); lia. }
              rewrite E3, Zplus_mod_idemp_r. f_equal. lia.
           ++ assert (CP : code m (cs g) (p + 2) [235; n1]) by (eapply code2; eauto; try lia; replace (p + 2 + 1) with (p + 3) by lia; reflexivity).
              apply (reach_past Fin [235; n1] (IJmp (sx8 n1)) 2 (fun _ => mkst r g ((p + 4 + sx8 n1) mod 65536) f m) r g (p + 2) f m CP);
                [intro; reflexivity|lia| |apply NF; lia|exact H|exact (mkflags false false false false)].
              intro u. cbn [exec]. unfold set_ip. cbn [rg sg ip fl mem]. do 3 f_equal. lia.
        -- pose (r1 := rset (rset r 4 ((sp r + 2) mod 65536)) 5 (rd16 m (ss g) (sp r))).
           assert (C1' : code m (cs g) (p + 2) [93]) by (eapply code1; eauto; lia).
           assert (C2' : code m (cs g) (p + 3) [195]) by (eapply code1; eauto; lia).
           assert (C3' : code m (cs g) (p - 1) [93]) by (eapply code1; eauto; lia).
           assert (C4' : code m (cs g) p [195]) by (eapply code1; eauto; lia).
           pose (r2 := rset r1 4 ((sp r1 + 2) mod 65536)). pose (t := mkst r2 g (rd16 m (ss g) (sp r1) mod 65536) f m).
           assert (H1 : reaches Fin (mkst r1 g (p + 3) f m)).
           { apply (reach_past Fin [93] (IPop 5) 1 (fun _ => mkst r1 g (p + 3) f m) r g (p + 2) f m C1'); [intro; reflexivity|lia| |apply NF; lia|exact H|exact (mkflags false false false false)].
             intro. cbn [exec pop]. unfold pop, set_reg, set_rg. cbn [rg sg ip fl mem]. do 2 f_equal. lia. }
           assert (H2 : reaches Fin t).
           { apply (reach_past Fin [195] IRet 1 (fun _ => t) r1 g (p + 3) f m C2'); [intro; reflexivity|lia| |apply NF; lia|exact H1|exact (mkflags false false false false)].
             intro. reflexivity. }
           eapply (reach_code _ [93] (IPop 5) 1 (fun _ => mkst r1 g p f m)); auto; try lia.
           { intro. cbn [exec pop]. unfold pop, set_reg, set_rg. cbn [rg sg ip fl mem]. do 2 f_equal. lia. }
           intro. eapply (reach_code _ [195] IRet 1 (fun _ => t)); auto; try lia.
        -- assert (C1' : code m (cs g) (p - 1) [136; 192]) by (eapply code2; eauto; try lia; replace (p - 1 + 1) with p by lia; exact T2).
           assert (C2' : code m (cs g) (p + 1) [144]) by (eapply code1; eauto; lia).
           eapply (reach_code _ [136; 192] (IMov false (Reg 0) (Reg 0)) 2 (fun _ => mkst r g (p + 1) f m)); auto; try lia.
           { intro. cbn [exec get_op put_op]. unfold set_rg. cbn [rg sg ip fl mem]. replace (p - 1 + 2) with (p + 1) by lia. f_equal. f_equal.
             destruct r as [x0 x1 x2 x3 x4 x5 x6 x7]. unfold rset8, rget8. cbn [Z.ltb Z.compare rset rget Spec8086.ax]. f_equal. lia. }
           intro. eapply (reach_code _ [144] (IXchg true (Reg 0) (Reg 0)) 1 (fun _ => mkst r g (p + 2) f m)); auto; try lia.
           intro. cbn [exec get_op put_op]. unfold set_rg. cbn [rg sg ip fl mem]. replace (p + 1 + 1) with (p + 2) by lia. destruct r. reflexivity.
Qed.
End J.

(** ** The steps of emission *)
Definition still (e e' : emst) : Prop := Pending e' = Pending e /\ RegUse e' = RegUse e /\ LocalOffset e' = LocalOffset e /\ VOff e' = VOff e.
(** no code below lim will be taken back *)
Definition floor (lim : Z) (e : emst) (P : list mark) : Prop :=
  lim <= CodeAddress e /\ forall l r, In (l, SJmp r) P -> r + 2 = CodeAddress e -> IsDeadCode e = true -> lim <= r - 1.
Lemma floor_live e P lim : IsDeadCode e = false -> lim <= CodeAddress e -> floor lim e P.
Proof. intros D L. split; [exact L|]. intros l r _ _ D'. congruence. Qed.
(** what holds of the final code with respect to e' holds of it with respect to e, and the code of e stays *)
Definition back (e : emst) (P : list mark) (e' : emst) (P' : list mark) : Prop :=
  (forall lo ef, Match lo ef e' P' -> Match lo ef e P) /\ (forall lim, floor lim e P -> floor lim e' P').
Lemma back_refl e P : back e P e P.
Proof. split; auto. Qed.
Lemma back_trans a P b Q c R : back a P b Q -> back b Q c R -> back a P c R.
Proof. intros [H1 G1] [H2 G2]. split; auto. Qed.
Lemma app_back e e' P : ordered (CodeAddress e) P -> IsDeadCode e = false -> IsDeadCode e' = false \/ CodeAddress e < CodeAddress e' -> app e e' -> back e P e' P.
Proof.
  intros O L D A. split; [intros lo ef M; exact (match_app lo ef e e' P O D A M)|]. intros lim [F1 F2]. pose proof A as (A1 & _). split; [lia|].
  intros l r I R D'. destruct D as [D|D]; [congruence|]. pose proof (ordered_in _ _ _ _ O I) as [_ Q]. cbn [ref] in Q. lia.
Qed.
Lemma still_refl e : still e e.
Proof. repeat split. Qed.
Lemma still_trans a b c : still a b -> still b c -> still a c.
Proof. intros (A1 & A2 & A3 & A4) (B1 & B2 & B3 & B4). unfold still. repeat (split; [congruence|]). congruence. Qed.

(** *** A new label *)
Lemma make_book e P l e' : Book e P -> MakeLabel e = Ok (l, e') ->
  Book e' P /\ l = LocalLabelCounter e /\ LocalLabelCounter e' = l + 1 /\ aget (LAddr e') l = 0 /\ (forall k, k <> l -> aget (LAddr e') k = aget (LAddr e) k) /\
  still e e' /\ CodeAddress e' = CodeAddress e /\ Output e' = Output e /\ IsDeadCode e' = IsDeadCode e /\ back e P e' P.
Proof.
  intros BK H. unfold MakeLabel in H. mgoin H. minv H x e1 E. unfold failif in E. destruct (_ =? _); [discriminate|]. oki E. mgoin H. apply ok_inj in H. destruct H as [HL HE].
  subst l. set (l := LocalLabelCounter e) in *. subst e'. set (e' := set_LRef _ _).
  assert (BY : forall a, byte e' a = byte e a) by reflexivity. destruct BK.
  split; [split|].
  - exact bk_bytes0.
  - exact bk_room0.
  - exact bk_lf0.
  - change (LocalLabelCounter e') with (l + 1). unfold l. lia.
  - intros k K. change (LocalLabelCounter e') with (l + 1) in K. unfold pending. change (CodeAddress e') with (CodeAddress e). 
    change (LRef e') with (aset (LRef e) l 0). rewrite aget_aset. destruct (Z.eqb_spec l k) as [<-|N].
    + assert (E0 : of_label l P = []).
      { destruct (of_label l P) as [|s L] eqn:Q; [reflexivity|]. assert (I : In s (of_label l P)) by (rewrite Q; left; reflexivity). apply in_of_label in I. apply bk_lab0 in I. unfold l in I. lia. }
      rewrite E0. constructor.
    + eapply (chain_frame e); [apply bk_pend0; unfold l in *; lia|]. intros a _. apply BY.
  - intros k s I. destruct (bk_lab0 k s I) as [K1 K2]. change (LocalLabelCounter e') with (l + 1). split; [unfold l; lia|]. change (LAddr e') with (aset (LAddr e) l 0).
    rewrite aget_aset_other by (unfold l; lia). exact K2.
  - exact bk_ord0.
  - exact bk_cond0.
  - exact bk_after0.
  - exact bk_jmp0.
  - exact bk_in0.
  - split; [reflexivity|]. split; [reflexivity|]. split; [change (LAddr e') with (aset (LAddr e) l 0); apply aget_aset_same|].
    split; [intros k N; change (LAddr e') with (aset (LAddr e) l 0); apply aget_aset_other; congruence|]. split; [repeat split|]. split; [reflexivity|]. split; [reflexivity|]. split; [reflexivity|].
    split; [|intros lim FL; exact FL]. intros lo ef [M4 M5 M6 M1 M2 M3 M7]. split; auto. intros k K N. rewrite M3; change (LAddr e') with (aset (LAddr e) l 0); try (change (LocalLabelCounter e') with (l + 1); unfold l; lia); rewrite aget_aset_other by (unfold l; lia); auto.
Qed.

(** *** A jump to a label not placed *)
Lemma put_cnt bs : forall e, LocalLabelCounter (put bs e) = LocalLabelCounter e.
Proof. induction bs as [|b r IH]; intros e; cbn [put]; auto. rewrite IH. reflexivity. Qed.
Lemma put_lf bs : forall e, LastFixup (put bs e) = LastFixup e.
Proof. induction bs as [|b r IH]; intros e; cbn [put]; auto. rewrite IH. reflexivity. Qed.
Lemma put_still bs : forall e, still e (put bs e).
Proof. induction bs as [|b r IH]; intros e; cbn [put]; [apply still_refl|]. eapply still_trans; [|apply IH]. repeat split. Qed.
Lemma put_byte_after bs e a : CodeAddress e + Z.of_nat (length bs) <= a -> byte (put bs e) a = byte e a.
Proof. intro L. unfold byte. apply put_out_after. lia. Qed.

Lemma site_book W l s b0 bs b e P : 16 <= W -> Book e P -> live e -> live (put (b0 :: bs) e) -> 0 <= l < LocalLabelCounter e -> aget (LAddr e) l = 0 ->
  ref s = CodeAddress e + Z.of_nat (length (b0 :: bs)) - 2 -> start s = CodeAddress e -> u8 b0 <> 235 /\ u8 b0 <> 93 -> site_ok (put (b0 :: bs) e) s ->
  byte (put (b0 :: bs) e) (ref s) = u8 (aget (LRef e) l) -> byte (put (b0 :: bs) e) (ref s + 1) = u8 (Z.shiftr (aget (LRef e) l) 8) -> (forall r, s = SJmp r -> b = true) ->
  let e' := set_IsDeadCode b (set_LRef (aset (LRef e) l (ref s)) (put (b0 :: bs) e)) in
  Book e' ((l, s) :: P) /\ CodeAddress e' = CodeAddress e + Z.of_nat (length (b0 :: bs)) /\ still e e' /\ LAddr e' = LAddr e /\ LocalLabelCounter e' = LocalLabelCounter e /\
  back e P e' ((l, s) :: P).
Proof.
  intros HW BK L L' LR A0 RS SS HD OK B0 B1 DB e'. set (cd := b0 :: bs) in *. set (ep := put cd e) in *.
  assert (CA : CodeAddress e' = CodeAddress e + Z.of_nat (length cd)) by (apply put_addr).
  assert (BY : forall a, byte e' a = byte ep a) by reflexivity.
  assert (BL : forall a, a < CodeAddress e -> byte e' a = byte e a) by (intros; rewrite BY; apply put_byte; assumption).
  assert (SW : 3 <= Z.of_nat (length cd)) by (destruct s; cbn [ref start] in *; lia).
  assert (LA : LAddr e' = LAddr e) by (apply put_laddr). assert (CT : LocalLabelCounter e' = LocalLabelCounter e) by (apply put_cnt). assert (LF : LastFixup e' = LastFixup e) by (apply put_lf).
  pose proof (live_lo _ L) as LL. destruct BK.
  assert (NS : forall a, a < CodeAddress e -> sited ((l, s) :: P) a -> sited P a).
  { intros a A S. apply sited_cons in S. destruct S as [[S _]|S]; [lia|exact S]. }
  split; [split|].
  - apply (bytes_put cd e). exact bk_bytes0.
  - apply L'.
  - rewrite LF, CA. lia.
  - rewrite CT. exact bk_cnt0.
  - rewrite CT. intros k K. destruct (Z.eq_dec l k) as [<-|N].
    + apply pending_dead. unfold of_label. cbn [filter fst]. rewrite Z.eqb_refl. cbn [map snd].
      apply (site_pushed e l (of_label l P) cd s bk_bytes0 L L'); auto.
    + apply pending_dead. assert (E0 : of_label k ((l, s) :: P) = of_label k P) by (unfold of_label; cbn [filter fst]; rewrite (proj2 (Z.eqb_neq l k) N); reflexivity).
      rewrite E0. apply pending_other; auto.
  - rewrite CT, LA. intros k s' [I|I]; [injection I as <- <-; auto|apply (bk_lab0 k s' I)].
  - cbn [ordered]. rewrite CA, SS. split; [unfold CODESTART; lia|]. split; [lia|exact bk_ord0].
  - intros k c r [I|I].
    + injection I as -> ->. cbn [ref site_ok] in *. split; [apply OK|]. assert (Q : r + 2 = CodeAddress e + Z.of_nat (length cd)) by lia.
      assert (T : byte e' (r + 2) = byte e (r + 2)) by (rewrite BY; apply put_byte_after; lia).
      destruct (bk_after0 (r + 2)) as [T1 T2]; [lia|]. split; intro U; rewrite T in U; contradiction.
    + destruct (bk_cond0 k c r I) as [R [W1 W2]]. split; [exact R|]. pose proof (ordered_in _ _ _ _ bk_ord0 I) as [_ O]. cbn [ref] in O.
      destruct (Z.eq_dec (r + 2) (CodeAddress e)) as [Q|Q].
      * assert (T : byte e' (r + 2) = u8 b0) by (rewrite BY, Q; replace (CodeAddress e) with (CodeAddress e + Z.of_nat 0) by lia; apply put_byte_at; cbn [length]; lia).
        split; intro U; rewrite T in U; destruct HD; contradiction.
      * split; intro U; rewrite BL in U by lia; [destruct (W1 U) as (X1 & X2 & X3)|destruct (W2 U) as (X1 & X2 & X3 & X4)]; (split; [rewrite CA; lia|]).
        -- split; intro S; [apply X2|apply X3]; apply NS; auto; lia.
        -- rewrite BL by lia. split; [exact X2|]. split; intro S; [apply X3|apply X4]; apply NS; auto; lia.
  - rewrite CA. intros a A. rewrite BY. unfold ep. rewrite put_byte_after by lia. apply bk_after0. lia.
  - rewrite LF, CA. intros k r [I|I].
    + injection I as -> ->. left. cbn [ref start] in RS, SS. split; [lia|]. split; [exact (DB r eq_refl)|]. intros a A. rewrite BY. unfold ep. rewrite put_byte_after by lia. apply bk_after0. lia.
    + destruct (bk_jmp0 k r I) as [(_ & Q & _)|Q]; [rewrite (proj1 L) in Q; discriminate|auto].
  - rewrite LF. intros k s' [I|I]; [injection I as <- <-; left; lia|exact (bk_in0 k s' I)].
  - split; [exact CA|]. split; [eapply still_trans; [apply (put_still cd)|repeat split]|]. split; [exact LA|]. split; [exact CT|].
    split; [|intros lim [F1 F2]; split; [lia|]; intros k r [I|I] R _; [injection I as _ ->; cbn [start] in SS; lia|pose proof (ordered_in _ _ _ _ bk_ord0 I) as [_ O]; cbn [ref] in O; lia]].
    intros lo ef [M4 M5 M6 M1 M2 M3 M7]. split; auto.
    + intros a A N. rewrite <- BL by lia. apply M1; [rewrite CA; lia|]. intro S. apply N. apply NS; [lia|exact S].
    + intros k s' I. apply M2. right. exact I.
    + rewrite LA, CT in M3. exact M3.
    + left. destruct M7 as [M7|(k & r & [I|I] & R1 & R2 & _)]; [lia| |].
      * injection I as _ ->. cbn [start] in SS. lia.
      * pose proof (ordered_in _ _ _ _ bk_ord0 I) as [_ O]. cbn [ref] in O. lia.
Qed.

Section W.
Variable W : Z.
Hypothesis HW : 16 <= W.

Lemma jump_label l e k e' : EmitLocalJump W l e = Ok (k, e') -> 0 <= l < LocalLabelCounter e.
Proof.
  intro H. unfold EmitLocalJump in H. mgoin H. minv H x e1 E. destruct (Z.ltb_spec l 0), (Z.leb_spec (LocalLabelCounter e) l); cbn [orb failif] in E; try discriminate. lia.
Qed.
Lemma jmp_live l e x e' : live e -> EmitJmp W l e = Ok (x, e') -> exists k e2, EmitLocalJump W l e = Ok (k, e2) /\ e' = set_IsDeadCode true e2.
Proof.
  intros L H. unfold EmitJmp in H. mgoin H.
  assert (P1 : set_Pending (clr (Pending e) 1) e = e).
  { destruct L as (_ & PD & _). rewrite PD. change (clr 0 1) with 0. rewrite <- PD. destruct e; reflexivity. }
  rewrite P1 in H. minv H c e1 E. apply checks_live in E; auto. destruct E as [-> ->]. minv H k e2 E. oki H. eauto.
Qed.
Lemma jmp_fwd_book l e P x e' : Book e P -> live e -> aget (LAddr e) l = 0 -> EmitJmp W l e = Ok (x, e') ->
  let s := SJmp (CodeAddress e + 1) in
  Book e' ((l, s) :: P) /\ IsDeadCode e' = true /\ CodeAddress e' = CodeAddress e + 3 /\ still e e' /\ LAddr e' = LAddr e /\ LocalLabelCounter e' = LocalLabelCounter e /\
  0 <= l < LocalLabelCounter e /\ back e P e' ((l, s) :: P).
Proof.
  intros BK L A H s. destruct (jmp_live _ _ _ _ L H) as (k & e2 & E & ->). pose proof (jump_label _ _ _ _ E) as LR. apply fwd_emits in E; auto. cbv zeta in E. destruct E as (_ & -> & L2).
  set (w := aget (LRef e) l) in *. assert (LP : live (put [233; w; Z.shiftr w 8] e)) by exact L2.
  pose proof (site_book W l s 233 [w; Z.shiftr w 8] true e P HW BK L LP LR A) as Q. cbv zeta in Q. unfold s in Q. cbn [ref start length] in Q.
  destruct Q as (Q1 & Q2 & Q3 & Q4 & Q5 & Q6); try (unfold s; auto).
  - lia.
  - lia.
  - unfold u8. lia.
  - cbn [site_ok]. replace (CodeAddress e + 1 - 1) with (CodeAddress e + Z.of_nat 0) by lia. rewrite put_byte_at by (cbn [length]; lia). reflexivity.
  - change (CodeAddress e + 1) with (CodeAddress e + Z.of_nat 1). rewrite put_byte_at by (cbn [length]; lia). reflexivity.
  - replace (CodeAddress e + 1 + 1) with (CodeAddress e + Z.of_nat 2) by lia. rewrite put_byte_at by (cbn [length]; lia). reflexivity.
  - split; [exact Q1|]. split; [reflexivity|]. split; [exact Q2|]. auto.
Qed.
Lemma jcc_fwd_book c l e P x e' : 0 <= c < 16 -> Book e P -> live e -> aget (LAddr e) l = 0 -> 0 <= l < LocalLabelCounter e -> EmitJcc W c l e = Ok (x, e') ->
  let s := SCond c (CodeAddress e + 3) in
  Book e' ((l, s) :: P) /\ live e' /\ CodeAddress e' = CodeAddress e + 5 /\ still e e' /\ LAddr e' = LAddr e /\ LocalLabelCounter e' = LocalLabelCounter e /\
  back e P e' ((l, s) :: P).
Proof.
  intros HC BK L A LR H s. apply jcc_fwd_emits in H; auto. cbv zeta in H. destruct H as [E LP]. 
  set (w := aget (LRef e) l) in *. set (bs := [3; 0; w; Z.shiftr w 8]) in *.
  assert (E' : e' = set_IsDeadCode false (set_LRef (aset (LRef e) l (CodeAddress e + 3)) (put ((112 + Z.lxor c 1) :: bs) e))).
  { rewrite E. pose proof (proj1 LP) as D. set (ep := put _ e) in *. clearbody ep. rewrite <- D. destruct ep; reflexivity. }
  clear E. subst e'. destruct (cc16 c HC) as (C1 & C2 & C3 & C4 & C5 & C6).
  pose proof (site_book W l s (112 + Z.lxor c 1) bs false e P HW BK L LP LR A) as Q. cbv zeta in Q. unfold s, bs in Q. cbn [ref start length] in Q.
  destruct Q as (Q1 & Q2 & Q3 & Q4 & Q5 & Q6); try (unfold s; auto).
  - lia.
  - lia.
  - rewrite u8_small by lia. lia.
  - cbn [site_ok]. split; [exact HC|].
    replace (CodeAddress e + 3 - 3) with (CodeAddress e + Z.of_nat 0) by lia. replace (CodeAddress e + 3 - 2) with (CodeAddress e + Z.of_nat 1) by lia.
    replace (CodeAddress e + 3 - 1) with (CodeAddress e + Z.of_nat 2) by lia.
    rewrite !put_byte_at by (cbn [length]; lia). cbn [nth]. split; [apply u8_small; lia|split; reflexivity].
  - change (CodeAddress e + 3) with (CodeAddress e + Z.of_nat 3). rewrite put_byte_at by (cbn [length]; lia). reflexivity.
  - replace (CodeAddress e + 3 + 1) with (CodeAddress e + Z.of_nat 4) by lia. rewrite put_byte_at by (cbn [length]; lia). reflexivity.
  - discriminate.
  - split; [exact Q1|]. split; [|auto]. destruct LP as (D1 & D2 & D3). split; [reflexivity|]. split; [exact D2|exact D3].
Qed.

(** *** Placing a label *)
Definition fields (e : emst) := (VOff e, LAddr e, LRef e, LocalLabelCounter e, Pending e, LocalOffset e, RegUse e, IsDeadCode e).
Lemma fixup1_fields b r rel : keeps (fun e => fields e = b) (DoFixup1 r rel).
Proof.
  assert (KP : forall a v, keeps (fun e => fields e = b) (poke a v)).
  { intros a v s x s' Ps H. apply poke_setb in H. subst s'. exact Ps. }
  assert (KA : forall v, keeps (fun e => fields e = b) (upd (set_CodeAddress v))).
  { intros v s x s' Ps H. oki H. exact Ps. }
  unfold DoFixup1. cbv zeta.
  repeat first [apply keeps_bind; [|intro] | apply keeps_ret | apply keeps_peek | apply keeps_gets | apply keeps_failif | apply KP
   | apply KA | match goal with |- keeps _ (if ?b then _ else _) => destruct b end].
Qed.
Lemma loop_fields b n : forall r rel, keeps (fun e => fields e = b) (fixup_loop n r rel).
Proof.
  induction n as [|n IH]; intros r rel; cbn [fixup_loop]; [intros s x s' _ H; discriminate|].
  destruct (r =? 0); [apply keeps_ret|]. apply keeps_bind; [apply fixup1_fields|]. intro. apply IH.
Qed.
Lemma label_inv l e e' x sites : bytes_ok e -> Pending e = 0 -> pending e l sites -> EmitLocalLabel W l e = Ok (x, e') ->
  l < LocalLabelCounter e /\ aget (LAddr e) l = 0 /\
  LAddr e' = aset (LAddr e) l (CodeAddress e') /\ LRef e' = aset (LRef e) l 0 /\ LocalLabelCounter e' = LocalLabelCounter e /\ still e e' /\
  IsDeadCode e' = false /\ LastFixup e' = CodeAddress e' /\ bytes_ok e' /\
  exists gone kept, sites = gone ++ kept /\ removed (CodeAddress e) gone (CodeAddress e') /\
    (forall s, In s gone -> ref s + 2 <> LastFixup e) /\
    (forall s, In s kept -> ref s + 2 <= CodeAddress e' /\ fixed e' (CodeAddress e') s) /\
    (forall a, (forall s, In s kept -> ~ in_site a s) -> byte e' a = byte e a).
Proof.
  intros BO PD P H. unfold EmitLocalLabel in H. mgoin H. minv H y e1 E. unfold failif in E. destruct (_ || _) eqn:OR; [discriminate|]. oki E.
  apply orb_false_iff in OR. destruct OR as [O1 O2]. apply Z.leb_gt in O1. apply negb_false_iff, Z.eqb_eq in O2. split; [exact O1|]. split; [exact O2|].
  minv H y2 e1 E. unfold FlushSpAdj, FlushSpAdj_ in E. mgoin E. rewrite PD in E. change (hasb 0 (-2)) with false in E. cbn [when] in E. oki E.
  mgoin H. minv H y3 e1 E. set (e0 := set_IsDeadCode false _) in *.
  unfold DoFixups in E. minv E y4 e2 E1. oki E. assert (FE : fields e2 = fields e0) by (eapply (loop_fields (fields e0)); [reflexivity|exact E1]).
  apply loop_resolves with (sites := sites) in E1; [|exact BO|apply (chain_frame e); [exact P|intros; reflexivity]].
  mgoin H. oki H. destruct E1 as (gone & kept & -> & RM & LF & KP & OUT & HI & LX & BO1).
  unfold fields in FE. injection FE as F1 F2 F3 F4 F5 F6 F7 F8.
  cbn [LAddr LRef CodeAddress IsDeadCode set_LAddr set_LRef LastFixup set_LastFixup LocalLabelCounter] in *.
  split; [rewrite F2; reflexivity|]. split; [rewrite F3; reflexivity|]. split; [exact F4|]. split; [split; [exact F5|]; split; [exact F7|]; split; [exact F6|exact F1]|].
  split; [exact F8|]. split; [reflexivity|]. split; [exact BO1|]. exists gone, kept. split; [reflexivity|]. split; [exact RM|]. split; [|split].
  - intros s I Q. exact (LF _ s I Q eq_refl).
  - intros s I. destruct (KP s I) as (K1 & K2 & _). split; [exact K1|exact K2].
  - exact OUT.
Qed.

Lemma label_book l e P x e' : Book e P -> Pending e = 0 -> 0 <= l -> EmitLocalLabel W l e = Ok (x, e') ->
  l < LocalLabelCounter e /\ aget (LAddr e) l = 0 /\
  Book e' (without l P) /\ live e' /\ still e e' /\ LAddr e' = aset (LAddr e) l (CodeAddress e') /\ LocalLabelCounter e' = LocalLabelCounter e /\
  (IsDeadCode e = false -> CodeAddress e' = CodeAddress e) /\ CodeAddress e' <= CodeAddress e /\ back e P e' (without l P).
Proof.
  intros BK PD L0 H. 
  assert (LR : l < LocalLabelCounter e). { unfold EmitLocalLabel in H. mgoin H. minv H y e1 E. unfold failif in E. destruct (_ || _) eqn:OR; [discriminate|]. apply orb_false_iff in OR. destruct OR as [O1 _]. apply Z.leb_gt in O1. exact O1. }
  pose proof (bk_pend _ _ BK l (conj L0 LR)) as PN.
  destruct (label_inv l e e' x _ (bk_bytes _ _ BK) PD PN H) as (_ & A0 & LA & LRF & CT & SL & DE & LF & BO & gone & kept & SP & RM & GL & KP & OUT). destruct BK.
  split; [exact LR|]. split; [exact A0|].
  (* at most the jump at the end is removed *)
  assert (ING : forall s, In s gone -> In (l, s) P) by (intros s I; apply in_of_label; rewrite SP; apply in_or_app; left; exact I).
  assert (INK : forall s, In s kept -> In (l, s) P) by (intros s I; apply in_of_label; rewrite SP; apply in_or_app; right; exact I).
  assert (GN : gone = [] /\ CodeAddress e' = CodeAddress e \/ exists r, gone = [SJmp r] /\ r + 2 = CodeAddress e /\ CodeAddress e' = r - 1 /\ IsDeadCode e = true /\ LastFixup e <= r - 1 /\ forall a, CodeAddress e <= a -> byte e a <> 235 /\ byte e a <> 93).
  { inversion RM as [A E1 E2 E3|A r rest B E0 RM' E1 E2 E3]; subst; [left; auto|]. right. exists r.
    pose proof (ING (SJmp r) (or_introl eq_refl)) as I1. pose proof (GL (SJmp r) (or_introl eq_refl)) as G1. cbn [ref] in G1.
    assert (LS : LastFixup e <= r - 1) by (destruct (bk_in0 _ _ I1) as [Q|Q]; cbn [start ref] in Q; lia).
    assert (DD : IsDeadCode e = true /\ forall a, CodeAddress e <= a -> byte e a <> 235 /\ byte e a <> 93) by (destruct (bk_jmp0 _ _ I1) as [[_ Q]|Q]; [exact Q|lia]). destruct DD as [DD DA].
    inversion RM' as [A' F1 F2 F3|A' r2 rest2 B' F0 RM2 F1 F2 F3]; subst.
    - split; [reflexivity|]. split; [lia|]. split; [lia|]. split; [exact DD|]. split; [exact LS|exact DA].
    - exfalso. pose proof (ING (SJmp r2) (or_intror (or_introl eq_refl))) as I2. pose proof (GL (SJmp r2) (or_intror (or_introl eq_refl))) as G2. cbn [ref] in G2.
      destruct (bk_jmp0 _ _ I2) as [[Q _]|Q]; lia. }
  assert (CAle : CodeAddress e' <= CodeAddress e) by (destruct GN as [[_ Q]|(r & _ & Q1 & Q2 & _)]; lia).
  assert (OUTP : forall a, ~ sited P a -> byte e' a = byte e a).
  { intros a NS. apply OUT. intros s I IS. apply NS. exists l, s. auto. }
  (* waiting jumps of other labels lie before the end *)
  assert (ENDS : forall k s, In (k, s) P -> ~ In s gone \/ k <> l -> ref s + 2 <= CodeAddress e').
  { intros k s I NG. destruct GN as [[_ ->]|(r & -> & Q1 & Q2 & _)]; [apply (ordered_in _ _ _ _ bk_ord0 I)|].
    pose proof (ordered_in _ _ _ _ bk_ord0 I) as [_ O]. pose proof (ING (SJmp r) (or_introl eq_refl)) as I1.
    destruct (ordered_apart _ _ _ _ _ _ bk_ord0 I I1) as [Q|[Q|Q]]; [injection Q as -> ->; destruct NG as [NG|NG]; [destruct NG; left; reflexivity|contradiction]| |]; cbn [start ref] in *; [lia|].
    pose proof (site_width s). lia. }
  assert (ORD : forall k s, In (k, s) (without l P) -> ref s + 2 <= CodeAddress e').
  { intros k s I. apply in_without in I. destruct I as [I N]. apply (ENDS k s I). right. exact N. }
  assert (KC : forall s a, In s kept -> in_site a s -> ~ sited (without l P) a).
  { intros s a I [S1 S2] (k & s' & I' & [T1 T2]). apply in_without in I'. destruct I' as [I' N]. destruct (ordered_apart _ _ _ _ _ _ bk_ord0 (INK s I) I') as [Q|[Q|Q]]; [congruence|lia|lia]. }
  assert (KS : forall s, In s kept -> ref s + 2 <= CodeAddress e') by (intros s I; apply KP; exact I).
  (* a byte of a waiting jump of another label *)
  assert (OTH : forall a, sited (without l P) a -> byte e' a = byte e a).
  { intros a (k & s & I & IS). apply OUT. intros s' I' IS'. apply (KC s' a I' IS'). exists k, s. auto. }
  (* the end of a conditional jump *)
  assert (WH : forall k c r, In (k, SCond c r) P -> whole e' (without l P) (r + 2)).
  { intros k c r I. destruct (bk_cond0 k c r I) as [_ [W1 W2]]. pose proof (ordered_in _ _ _ _ bk_ord0 I) as [_ O]. cbn [ref] in O.
    assert (LT : r + 2 <= CodeAddress e').
    { destruct GN as [[_ ->]|(q & -> & Q1 & Q2 & _)]; [lia|]. apply (ENDS k _ I). left. intros [X|[]]. discriminate X. }
    destruct (Z_lt_le_dec (r + 2) (CodeAddress e')) as [LT2|GE].
    2: { (* at the end of the code *)
      assert (NS : forall s, In s kept -> ~ in_site (r + 2) s) by (intros s I' [_ S2]; pose proof (KS s I'); lia).
      assert (T : byte e' (r + 2) = byte e (r + 2)) by (apply OUT; exact NS).
      destruct GN as [[_ Q]|(q & EG & Q1 & Q2 & _)].
      - split; intro U; rewrite T in U; [destruct (W1 U)|destruct (W2 U)]; lia.
      - pose proof (ING (SJmp q)) as I1. rewrite EG in I1. specialize (I1 (or_introl eq_refl)).
        assert (S1 : sited P (r + 2)) by (exists l, (SJmp q); split; [exact I1|split; cbn [start ref]; lia]).
        split; intro U; rewrite T in U; [destruct (W1 U) as (_ & Z1 & _)|destruct (W2 U) as (_ & _ & Z1 & _)]; contradiction. }
    destruct (in_dec Z.eq_dec (r + 2) (map start kept)) as [IK|NK].
    - (* a resolved jump is there *)
      apply in_map_iff in IK. destruct IK as (s & SS & IK). pose proof (KP s IK) as [K1 K2]. pose proof (site_width s) as SW.
      assert (NSS : forall a, in_site a s -> ~ sited (without l P) a) by (intros a A; apply (KC s a IK A)).
      destruct s as [q|c' q]; cbn [start ref fixed] in *.
      + rewrite <- SS. split; intro U.
        * split; [lia|]. split; apply NSS; split; cbn [start ref]; lia.
        * destruct K2 as [(J & _)|(J & _)]; rewrite J in U; discriminate U.
      + assert (NB : byte e' (q - 3) < 128 /\ 112 <= byte e' (q - 3)).
        { assert (CR : 0 <= c' < 16) by (apply (bk_cond0 l c' q); apply INK; exact IK). destruct (cc16 c' CR) as (_ & C2 & _). destruct K2 as [(J & _)|(J & _)]; rewrite J; lia. }
        rewrite <- SS. split; intro U; rewrite U in NB; lia.
    - assert (NS : forall s, In s kept -> ~ in_site (r + 2) s).
      { intros s I' [S1 S2]. pose proof (INK s I') as IP. destruct (ordered_apart _ _ _ _ _ _ bk_ord0 I IP) as [Q|[Q|Q]].
        - injection Q as -> <-. cbn [ref] in S2. lia.
        - cbn [ref] in Q. apply NK. apply in_map_iff. exists s. split; [lia|exact I'].
        - cbn [start] in Q. lia. }
      assert (T : byte e' (r + 2) = byte e (r + 2)) by (apply OUT; exact NS).
      assert (CA2 : ~ sited P (r + 2 + 1) -> r + 2 + 2 <= CodeAddress e -> r + 2 + 2 <= CodeAddress e').
      { intros Z2 Z3. destruct GN as [[_ ->]|(q & EG & Q1 & Q2 & _)]; [lia|]. pose proof (ING (SJmp q)) as I1. rewrite EG in I1. specialize (I1 (or_introl eq_refl)).
        destruct (Z_lt_le_dec (r + 2 + 1) (q - 1)) as [|GE2]; [lia|]. exfalso. apply Z2. exists l, (SJmp q). split; [exact I1|]. split; cbn [start ref]; lia. }
      split; intro U; rewrite T in U; [destruct (W1 U) as (Z1 & Z2 & Z3)|destruct (W2 U) as (Z1 & Z4 & Z2 & Z3)].
      + split; [apply CA2; assumption|]. split; intro S; apply sited_without in S; contradiction.
      + split; [apply CA2; assumption|]. split; [rewrite OUTP by exact Z3; exact Z4|]. split; intro S; apply sited_without in S; contradiction. }
  assert (ROOM : room e' 0).
  { assert (CODESTART <= CodeAddress e'); [|unfold room in *; lia]. destruct GN as [[_ ->]|(q & EG & Q1 & Q2 & _)]; [unfold room in *; lia|].
    rewrite EG in ING. pose proof (ordered_in _ _ _ _ bk_ord0 (ING (SJmp q) (or_introl eq_refl))) as [O3 _]. cbn [start] in O3. lia. }
  split; [|split; [|split; [exact SL|split; [exact LA|split; [exact CT|split; [|split; [exact CAle|]]]]]]].
  - split.
    + exact BO.
    + exact ROOM.
    + lia.
    + rewrite CT. exact bk_cnt0.
    + rewrite CT. intros k K. unfold pending. rewrite LRF, aget_aset. destruct (Z.eqb_spec l k) as [<-|N].
      * assert (E0 : of_label l (without l P) = []).
        { destruct (of_label l (without l P)) as [|s L] eqn:Q; [reflexivity|]. assert (I : In s (of_label l (without l P))) by (rewrite Q; left; reflexivity). apply in_of_label, in_without in I. tauto. }
        rewrite E0. constructor.
      * assert (E0 : of_label k (without l P) = of_label k P).
        { unfold of_label, without. f_equal. clear - N. induction P as [|[j s] P IH]; [reflexivity|]. cbn [filter fst].
          destruct (Z.eqb_spec j l) as [->|NJ]; cbn [negb filter fst].
          - rewrite (proj2 (Z.eqb_neq l k) N). exact IH.
          - destruct (j =? k); [f_equal|]; exact IH. }
        rewrite E0. specialize (bk_pend0 k K). unfold pending in bk_pend0.
        assert (CB : forall h lim L, chain e h lim L -> (forall s, In s L -> In (k, s) P) -> (match L with [] => True | s :: _ => ref s + 2 <= CodeAddress e' end) -> chain e' h (if Z.min lim (CodeAddress e') =? lim then lim else CodeAddress e') L).
        { intros h lim L C. induction C as [lim|s rest lim OK ST LE CH IH]; intros INL HD; [constructor|].
          assert (IP : In (k, s) P) by (apply INL; left; reflexivity).
          assert (SB : forall a, in_site a s -> byte e' a = byte e a).
          { intros a A. apply OTH. exists k, s. split; [apply in_without; split; [exact IP|congruence]|exact A]. }
          pose proof (site_width s) as SW.
          assert (E1 : byte e' (ref s) = byte e (ref s)) by (apply SB; split; lia). assert (E2 : byte e' (ref s + 1) = byte e (ref s + 1)) by (apply SB; split; lia).
          constructor.
          - destruct s as [q|c q]; cbn [site_ok start ref] in *; [rewrite SB by (split; cbn [start ref]; lia); exact OK|].
            rewrite !SB by (split; cbn [start ref]; lia). exact OK.
          - exact ST.
          - destruct (Z.eqb_spec (Z.min lim (CodeAddress e')) lim); lia.
          - rewrite E1, E2. assert (HH : match rest with [] => True | s0 :: _ => ref s0 + 2 <= CodeAddress e' end).
            { destruct rest as [|s0 rest]; [exact I|]. apply (ENDS k s0); [apply INL; right; left; reflexivity|right; congruence]. }
            specialize (IH (fun s0 I0 => INL s0 (or_intror I0)) HH).
            replace (if Z.min (start s) (CodeAddress e') =? start s then start s else CodeAddress e') with (start s) in IH by (destruct (Z.eqb_spec (Z.min (start s) (CodeAddress e')) (start s)); lia).
            exact IH. }
        specialize (CB _ _ _ bk_pend0 (fun s I => proj1 (in_of_label k s P) I)).
        replace (if Z.min (CodeAddress e) (CodeAddress e') =? CodeAddress e then CodeAddress e else CodeAddress e') with (CodeAddress e') in CB by (destruct (Z.eqb_spec (Z.min (CodeAddress e) (CodeAddress e')) (CodeAddress e)); lia).
        apply CB. destruct (of_label k P) as [|s0 L] eqn:Q; [exact I|]. apply (ENDS k s0); [apply in_of_label; rewrite Q; left; reflexivity|right; congruence].
    + rewrite CT, LA. intros k s I. apply in_without in I. destruct I as [I N]. destruct (bk_lab0 k s I) as [Z1 Z2]. split; [exact Z1|]. rewrite aget_aset_other by congruence. exact Z2.
    + assert (O1 : ordered (CodeAddress e) (without l P)) by (apply ordered_without; exact bk_ord0). revert ORD O1. generalize (without l P). intros Q OQ O1.
      destruct Q as [|[k s] Q]; [exact I|]. cbn [ordered] in *. split; [tauto|]. split; [apply (OQ k s); left; reflexivity|tauto].
    + intros k c r I. apply in_without in I. destruct I as [I N]. split; [apply (bk_cond0 k c r I)|apply (WH k c r I)].
    + intros a A. destruct GN as [[_ Q]|(q & _ & Q1 & Q2 & _ & _ & QA)].
      * rewrite OUTP by (intro S; pose proof (sited_below _ _ _ bk_ord0 S); lia). apply bk_after0. lia.
      * assert (T : byte e' a = byte e a) by (apply OUTP; intro S; pose proof (sited_below _ _ _ bk_ord0 S); lia). rewrite T. apply QA. lia.
    + intros k r I. right. pose proof (ORD k _ I) as Q. cbn [ref] in Q. lia.
    + intros k s I. right. pose proof (ORD k _ I). lia.
  - split; [exact DE|]. split; [rewrite (proj1 SL); exact PD|exact ROOM].
  - intro DF. destruct GN as [[_ Q]|(r & _ & _ & _ & Q & _)]; [exact Q|congruence].
  - split; [|intros lim [F1 F2]; split; [|intros k r _ _ Q; congruence]; destruct GN as [[_ Q]|(r & EG & Q1 & Q2 & Q3 & _)]; [lia|];
      rewrite Q2; apply (F2 l r); auto; apply ING; rewrite EG; left; reflexivity].
    intros lo ef [M4 M5 M6 M1 M2 M3 M7]. split; auto.
    + intros a A NS. assert (A' : a < CodeAddress e').
      { destruct GN as [[_ Q]|(r & EG & Q1 & Q2 & _)]; [lia|]. destruct (Z_lt_le_dec a (r - 1)); [lia|]. exfalso. apply NS. exists l, (SJmp r). split; [apply ING; rewrite EG; left; reflexivity|split; cbn [start ref]; lia]. }
      rewrite <- (OUTP a NS). apply M1; [lia|]. intro S. apply sited_without in S. contradiction.
    + intros k s I LS. destruct (Z.eq_dec k l) as [->|N]; [|apply (M2 k s); [apply in_without; auto|exact LS]].
      assert (TL : aget (LAddr ef) l = CodeAddress e').
      { rewrite M3; [rewrite LA; apply aget_aset_same|rewrite CT; lia|]. rewrite LA, aget_aset_same.
        destruct GN as [[_ ->]|(r & EG & Q1 & Q2 & _)]; pose proof (ordered_in _ _ _ _ bk_ord0 I) as [O1 O2]; unfold CODESTART in O1.
        - destruct s; cbn [start ref] in *; lia.
        - rewrite EG in ING. pose proof (ordered_in _ _ _ _ bk_ord0 (ING (SJmp r) (or_introl eq_refl))) as [O3 _]. unfold CODESTART in O3. cbn [start] in O3. lia. }
      rewrite TL. apply in_of_label in I. rewrite SP in I. apply in_app_or in I. destruct I as [I|I].
      * destruct GN as [[Q _]|(r & EG & Q1 & Q2 & _)]; [rewrite Q in I; destruct I|]. rewrite EG in I. destruct I as [<-|[]].
        intros rr g f m Fin IM OUTF R. cbn [start]. rewrite <- Q2. exact R.
      * destruct (KP s I) as [K1 K2].
        assert (SB : forall a, in_site a s -> a < CodeAddress ef /\ byte ef a = byte e' a).
        { intros a A. apply M1; [destruct A; lia|]. apply (KC s a I A). }
        pose proof (site_width s) as SW.
        assert (LE : ref s + 2 <= CodeAddress ef) by (destruct (SB (ref s + 1)); [split; lia|lia]).
        assert (RG : 0 <= CodeAddress e' < 65536) by (unfold room, CODESTART, OUTPUT_MAX in ROOM; lia).
        apply (settled_jumps lo ef M4 M5); auto.
        destruct s as [r|c r]; cbn [settled fixed start ref] in *.
        -- unfold jump_at in *. replace (r - 1 + 1) with r in * by lia. replace (r - 1 + 2) with (r + 1) in * by lia. rewrite !(fun a A => proj2 (SB a A)) by (split; cbn [start ref]; lia). exact K2.
        -- split; [apply (bk_cond0 l c r); apply INK; exact I|].
           destruct (WH l c r (INK _ I)) as [W1 W2].
           unfold jump_at, tailed in *. replace (r - 1 + 1) with r in * by lia. replace (r - 1 + 2) with (r + 1) in * by lia.
           rewrite !(fun a A => proj2 (SB a A)) by (split; cbn [start ref]; lia).
           destruct K2 as [K2|(K2 & K3 & K4 & K5)]; [left; exact K2|]. right. split; [exact K2|]. split; [exact K3|]. split; [lia|].
           unfold tail_at in K5. replace (r + 3) with (r + 2 + 1) by lia. destruct K5 as [(T1 & T2 & T3 & T4)|[(T1 & T2 & T3)|T1]]; [left|right; left|right; right; exact T1].
           ++ destruct (W1 T2) as (X1 & X2 & X3). destruct (M1 (r + 2)) as [Y1 Y2]; [lia|exact X2|]. destruct (M1 (r + 2 + 1)) as [Y3 Y4]; [lia|exact X3|]. rewrite Y2, Y4.
              replace (r + 3) with (r + 2 + 1) in * by lia. repeat (split; [assumption|]). lia.
           ++ destruct (W2 T3) as (X1 & X4 & X2 & X3). destruct (M1 (r + 2)) as [Y1 Y2]; [lia|exact X2|]. destruct (M1 (r + 2 + 1)) as [Y3 Y4]; [lia|exact X3|]. rewrite Y2, Y4.
              repeat (split; [assumption|]). lia.
    + intros k K N. destruct (Z.eq_dec k l) as [->|NE]; [contradiction|]. rewrite M3; rewrite ?CT; auto; rewrite LA, aget_aset_other by congruence; auto.
    + destruct M7 as [M7|(k & q & _ & _ & _ & Q)]; [|congruence]. destruct GN as [[_ Q]|(r & EG & Q1 & Q2 & Q3 & _)]; [left; lia|]. right. exists l, r.
      split; [apply ING; rewrite EG; left; reflexivity|]. split; [exact Q1|]. split; [lia|exact Q3].
Qed.
End W.
