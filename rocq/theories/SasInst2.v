(** Output of whole instructions (sas.c:1063-1429) as cells, and their decoding. *)
From Coq Require Import ZArith List Bool Lia String.
From Verif Require Import Base Sas SasSym SasText SasExpr SasAsm SasInst.
From Verif Require Spec8086 SasSpec.
Import ListNotations.
Open Scope Z_scope.
Notation length := List.length.

Section Width.
Variable W : Z.
Hypothesis HW : W = 16 \/ W = 32.
Definition cv (c : ctx) (s : st) (ts : list tk) (cs : list cell) (rf : list (Z * list Z)) (sz : Z) : Prop :=
  view W c s ts (render zero cs) (cfix 0 cs) rf sz.

(** ** Output of cells *)
Lemma cv_snoc c s ts cs x rf sz bs fx : bs = rcell zero x -> fx = fix1 (rlen cs) x ->
  view W c s ts (render zero cs ++ bs) (fx ++ cfix 0 cs) rf sz -> cv c s ts (cs ++ [x]) rf sz.
Proof.
  intros -> -> V. unfold cv. rewrite render_app, cfix_app. cbn [render flat_map cfix]. rewrite app_nil_r. cbn [app]. exact V.
Qed.
Lemma o_byte c s ts cs rf sz b : fits c -> cv c s ts cs rf sz -> (rlen cs < 8)%nat ->
  exists s', OutputByte W b s = Ok (tt, s') /\ cv c s' ts (cs ++ [Cell8 b None]) rf sz.
Proof.
  intros F V L. destruct (v_byte W HW c s ts _ _ rf sz b F V ltac:(rewrite render_len; exact L)) as (s' & E & V'). exists s'. split; [exact E|].
  eapply (cv_snoc _ _ _ _ _ _ _ _ []); [| |exact V']; [cbn; rewrite Z.add_0_r; reflexivity|reflexivity].
Qed.
Lemma o_word c s ts cs rf sz k d f : k <> FIXUP_REL8 -> fits c -> cv c s ts cs rf sz -> (rlen cs < 7)%nat -> (length (cfix 0 cs) < 2)%nat -> fix_ok c rf f ->
  exists s', (fixup_here f k;; OutputWord W d) s = Ok (tt, s') /\ cv c s' ts (cs ++ [Cell16 k d f]) rf sz.
Proof.
  intros K8 F V L N FO. destruct f as [i|]; cbn [fixup_here].
  - destruct FO as [D I]. destruct (v_fix W c s ts _ _ rf sz i k F V N D I) as (s1 & E1 & V1).
    destruct (v_word W HW c s1 ts _ _ rf sz d F V1 ltac:(rewrite render_len; exact L)) as (s2 & E2 & V2).
    exists s2. split; [rewrite (bind_ok _ _ _ _ _ E1); exact E2|].
    rewrite render_len in V2. eapply (cv_snoc _ _ _ _ _ _ _ _ [_]); [| |exact V2]; [cbn; unfold zero; rewrite Z.add_0_r; reflexivity|destruct k; [congruence|reflexivity|reflexivity]].
  - destruct (v_word W HW c s ts _ _ rf sz d F V ltac:(rewrite render_len; exact L)) as (s2 & E2 & V2).
    exists s2. split; [exact E2|].
    eapply (cv_snoc _ _ _ _ _ _ _ _ []); [| |exact V2]; [cbn; rewrite Z.add_0_r; reflexivity|reflexivity].
Qed.
Lemma o_rel8 c s ts cs rf sz i d : fits c -> cv c s ts cs rf sz -> (rlen cs < 8)%nat -> (length (cfix 0 cs) < 2)%nat -> fix_ok c rf (Some i) ->
  exists s1 s', AddFixupHere i FIXUP_REL8 s = Ok (tt, s1) /\ va s1 = va s /\ OutputByte W d s1 = Ok (tt, s') /\ cv c s' ts (cs ++ [Cell8 d (Some i)]) rf sz.
Proof.
  intros F V L N [D I]. destruct (v_fix W c s ts _ _ rf sz i FIXUP_REL8 F V N D I) as (s1 & E1 & V1).
  destruct (v_byte W HW c s1 ts _ _ rf sz d F V1 ltac:(rewrite render_len; exact L)) as (s2 & E2 & V2).
  exists s1, s2. split; [exact E1|]. split; [rewrite (v_va _ _ _ _ _ _ _ _ V), (v_va _ _ _ _ _ _ _ _ V1); reflexivity|]. split; [exact E2|].
  rewrite render_len in V2. eapply (cv_snoc _ _ _ _ _ _ _ _ [_]); [| |exact V2]; [cbn; unfold zero; rewrite Z.add_0_r; reflexivity|reflexivity].
Qed.
Lemma cv_va c s ts cs rf sz : cv c s ts cs rf sz -> va s = c_va c + Z.of_nat (rlen cs).
Proof. intro V. rewrite (v_va _ _ _ _ _ _ _ _ V), render_len. reflexivity. Qed.
Lemma cv_size c s ts cs rf sz : cv c s ts cs rf sz -> size s = sz.
Proof. intro V. apply (v_size _ _ _ _ _ _ _ _ V). Qed.

(** the cells of a memory operand, sas.c:1097-1109 *)
Definition mcells (o : operand) (r : Z) : list cell :=
  Cell8 (Z.lor (o_modrm o) (Z.shiftl r 3)) None ::
  (if (o_modrm o =? 6) || (Z.land (o_modrm o) 0xc0 =? 0x80) then [Cell16 FIXUP_DISP16 (o_disp o) (o_fix o)]
   else if Z.land (o_modrm o) 0xc0 =? 0x40 then [Cell8 (o_disp o) None] else []).
Lemma o_modrm_ c s ts cs rf sz m o r : fits c -> cv c s ts cs rf sz -> (rlen cs < 5)%nat -> cfix 0 cs = [] -> mem_ok c rf m o -> SasSpec.reg_ok r ->
  exists s', OutputModRM W o r s = Ok (tt, s') /\ cv c s' ts (cs ++ mcells o r) rf sz.
Proof.
  intros F V L N MO R. unfold SasSpec.reg_ok in R.
  assert (IM : is_mem o = true) by (unfold is_mem; rewrite (mo_type _ _ _ _ MO); reflexivity).
  assert (AS : assert ((0 <=? r) && (r <? 8)) s = Ok (tt, s)) by (unfold assert; replace ((0 <=? r) && (r <? 8)) with true by lia; reflexivity).
  assert (AM : assert (is_mem o) s = Ok (tt, s)) by (rewrite IM; reflexivity).
  destruct (o_byte c s ts cs rf sz (Z.lor (o_modrm o) (Z.shiftl r 3)) F V ltac:(lia)) as (s1 & E1 & V1).
  unfold OutputModRM. rewrite (bind_ok _ _ _ _ _ AM), (bind_ok _ _ _ _ _ AS), (bind_ok _ _ _ _ _ E1). unfold mcells.
  assert (N1 : cfix 0 (cs ++ [Cell8 (Z.lor (o_modrm o) (Z.shiftl r 3)) None]) = []) by (rewrite cfix_app, N; reflexivity).
  destruct ((o_modrm o =? 6) || (Z.land (o_modrm o) 192 =? 128)).
  - destruct (o_word c s1 ts _ rf sz FIXUP_DISP16 (o_disp o) (o_fix o) ltac:(discriminate) F V1) as (s2 & E2 & V2);
      [rewrite rlen_app; cbn; lia|rewrite N1; cbn; lia|apply (mo_fix _ _ _ _ MO)|].
    exists s2. split; [exact E2|]. rewrite <- app_assoc in V2. exact V2.
  - destruct (Z.land (o_modrm o) 192 =? 64); cbn [SccState.when].
    + destruct (o_byte c s1 ts _ rf sz (o_disp o) F V1) as (s2 & E2 & V2); [rewrite rlen_app; cbn; lia|].
      exists s2. split; [exact E2|]. rewrite <- app_assoc in V2. exact V2.
    + exists s1. split; [reflexivity|exact V1].
Qed.

(** ** Results *)
(** the statement i has been assembled *)
Definition done (c : ctx) (ts : list tk) (i : SasSpec.inst) (x : outcome (unit * st)) : Prop :=
  exists s' cs rf sz, x = Ok (tt, s') /\ cv c s' ts cs rf sz /\ (0 < rlen cs <= 7)%nat /\ (length (cfix 0 cs) <= 2)%nat /\
    forall NS lv, final c rf NS lv -> exists ins, decode (byte_at (render lv cs)) = Some (ins, Z.of_nat (rlen cs)) /\
      SasSpec.means W (env_of NS lv) (c_va c + Z.of_nat (rlen cs)) i ins.
Definition meant (c : ctx) (i : SasSpec.inst) (cs : list cell) (rf : list (Z * list Z)) : Prop :=
  (0 < rlen cs <= 7)%nat /\ (length (cfix 0 cs) <= 2)%nat /\
  forall NS lv, final c rf NS lv -> exists ins, decode (byte_at (render lv cs)) = Some (ins, Z.of_nat (rlen cs)) /\
      SasSpec.means W (env_of NS lv) (c_va c + Z.of_nat (rlen cs)) i ins.
Lemma r_done c ts i s cs rf sz : cv c s ts cs rf sz -> meant c i cs rf -> done c ts i (Ok (tt, s)).
Proof. intros V (M1 & M2 & M3). exists s, cs, rf, sz. auto. Qed.
Lemma r_byte {A} c ts rf s b cs sz (k : unit -> M st A) (P : outcome (A * st) -> Prop) : fits c -> cv c s ts cs rf sz -> (rlen cs < 8)%nat ->
  (forall s', cv c s' ts (cs ++ [Cell8 b None]) rf sz -> P (k tt s')) -> P (bind (OutputByte W b) k s).
Proof. intros F V L K. destruct (o_byte c s ts cs rf sz b F V L) as (s' & E & V'). rewrite (bind_ok _ _ _ _ _ E). apply K, V'. Qed.
Lemma r_last c ts rf i s b cs sz : fits c -> cv c s ts cs rf sz -> (rlen cs < 8)%nat -> meant c i (cs ++ [Cell8 b None]) rf -> done c ts i (OutputByte W b s).
Proof. intros F V L M. destruct (o_byte c s ts cs rf sz b F V L) as (s' & E & V'). rewrite E. eapply r_done; eauto. Qed.
Lemma r_imm16 c ts rf i s o cs sz : fits c -> cv c s ts cs rf sz -> (rlen cs < 6)%nat -> (length (cfix 0 cs) < 2)%nat -> fix_ok c rf (o_fix o) ->
  meant c i (cs ++ [Cell16 FIXUP_DISP16 (o_disp o) (o_fix o)]) rf -> done c ts i (OutputImm16 W o s).
Proof.
  intros F V L N FO M. destruct (o_word c s ts cs rf sz FIXUP_DISP16 (o_disp o) (o_fix o) ltac:(discriminate) F V ltac:(lia) N FO) as (s' & E & V').
  unfold OutputImm16. rewrite E. eapply r_done; eauto.
Qed.
Lemma r_imm8 c ts rf i s o cs sz : fits c -> cv c s ts cs rf sz -> (rlen cs < 8)%nat -> o_fix o = None ->
  meant c i (cs ++ [Cell8 (o_disp o) None]) rf -> done c ts i (OutputImm8 W o s).
Proof.
  intros F V L N M. unfold OutputImm8. rewrite N. unfold SccState.bind, SccState.ret. eapply r_last; eauto.
Qed.
Lemma r_mem {A} c ts rf s m o r cs sz (k : unit -> M st A) (P : outcome (A * st) -> Prop) : fits c -> cv c s ts cs rf sz -> (rlen cs < 5)%nat -> cfix 0 cs = [] ->
  mem_ok c rf m o -> SasSpec.reg_ok r -> (forall s', cv c s' ts (cs ++ mcells o r) rf sz -> P (k tt s')) -> P (bind (OutputModRM W o r) k s).
Proof. intros F V L N MO R K. destruct (o_modrm_ c s ts cs rf sz m o r F V L N MO R) as (s' & E & V'). rewrite (bind_ok _ _ _ _ _ E). apply K, V'. Qed.
Lemma r_mem_last c ts rf i s m o r cs sz : fits c -> cv c s ts cs rf sz -> (rlen cs < 5)%nat -> cfix 0 cs = [] ->
  mem_ok c rf m o -> SasSpec.reg_ok r -> meant c i (cs ++ mcells o r) rf -> done c ts i (OutputModRM W o r s).
Proof. intros F V L N MO R K. destruct (o_modrm_ c s ts cs rf sz m o r F V L N MO R) as (s' & E & V'). rewrite E. eapply r_done; eauto. Qed.

(** ** Decoding memory operands *)
Definition pre (es : bool) : list cell := if es then [Cell8 38 None] else [].
Definition seg_of (es : bool) : option Z := if es then Some 0 else None.
Definition plen (es : bool) : Z := if es then 1 else 0.
Lemma cv_pre c s ts a b rf sz : view W c s ts (prefix_of a ++ prefix_of b) [] rf sz ->
  cv c s ts ((match a with SasSpec.OMem m => pre (SasSpec.m_es m) | _ => [] end) ++ (match b with SasSpec.OMem m => pre (SasSpec.m_es m) | _ => [] end)) rf sz.
Proof.
  intro V. unfold cv. replace (render zero _) with (prefix_of a ++ prefix_of b).
  - replace (cfix 0 _) with (@nil (fixkind * nat * Z)); [exact V|].
    destruct a as [| | |m]; destruct b as [| | |m']; cbn; unfold pre; try destruct (SasSpec.m_es m); try destruct (SasSpec.m_es m'); reflexivity.
  - destruct a as [| | |m]; destruct b as [| | |m']; cbn; unfold pre; try destruct (SasSpec.m_es m); try destruct (SasSpec.m_es m'); reflexivity.
Qed.

Lemma mode_rm b : SasSpec.base_mode (Some b) = Spec8086.amode_of (rm_of b) /\ SasSpec.reg_ok (rm_of b).
Proof. destruct b; split; first [reflexivity | unfold SasSpec.reg_ok; cbn; lia]. Qed.
Definition bases : list SasSpec.base := [SasSpec.BSI; SasSpec.BDI; SasSpec.BBP; SasSpec.BBX; SasSpec.BSIBX].
Lemma modrm_bytes b r : SasSpec.reg_ok r ->
  Z.lor (rm_of b) (Z.shiftl r 3) = 8 * r + rm_of b /\
  Z.lor (64 + rm_of b) (Z.shiftl r 3) = 64 + 8 * r + rm_of b /\
  Z.lor (rm_of b - 128) (Z.shiftl r 3) mod 256 = 128 + 8 * r + rm_of b /\
  Z.lor 6 (Z.shiftl r 3) = 8 * r + 6 /\
  Z.land (rm_of b) 192 = 0 /\ Z.land (64 + rm_of b) 192 = 64 /\ Z.land (rm_of b - 128) 192 = 128 /\
  (64 + rm_of b =? 6) = false /\ (rm_of b - 128 =? 6) = false.
Proof.
  unfold SasSpec.reg_ok. intro R. apply below8 in R. cbn [In] in R.
  destruct b; repeat (destruct R as [<-|R]; [repeat split; vm_compute; reflexivity|]); contradiction.
Qed.
(** rows: the mode bits and the displacement that follow from the operand *)
Lemma mcells_cases c rf m o r : mem_ok c rf m o -> SasSpec.reg_ok r ->
  (SasSpec.m_base m = None /\ mcells o r = [Cell8 (8 * r + 6) None; Cell16 FIXUP_DISP16 (o_disp o) (o_fix o)]) \/
  (exists b, SasSpec.m_base m = Some b /\
    ((rm_of b <> 6 /\ mcells o r = [Cell8 (8 * r + rm_of b) None] /\ o_disp o = 0 /\ o_fix o = None) \/
     (mcells o r = [Cell8 (64 + 8 * r + rm_of b) None; Cell8 (o_disp o) None] /\ IsShort (o_disp o) = true /\ o_fix o = None) \/
     (exists x, x mod 256 = 128 + 8 * r + rm_of b /\ mcells o r = [Cell8 x None; Cell16 FIXUP_DISP16 (o_disp o) (o_fix o)]))).
Proof.
  intros MO R. pose proof (mo_mode _ _ _ _ MO) as MM. unfold mcells. destruct (SasSpec.m_base m) as [b|].
  - right. exists b. split; [reflexivity|]. destruct (modrm_bytes b r R) as (A1 & A2 & A3 & A4 & A5 & A6 & A7 & A8 & A9).
    destruct MM as [(M1 & M2 & M3 & M4)|[(M1 & M2 & M3)|M1]].
    + left. rewrite M2, A1, A5. rewrite (proj2 (Z.eqb_neq _ _) M1). auto.
    + right. left. rewrite M1, A2, A6, A8. auto.
    + right. right. rewrite M1, A7, A9. exists (Z.lor (rm_of b - 128) (Z.shiftl r 3)). auto.
  - left. split; [reflexivity|]. rewrite MM. destruct (modrm_bytes SasSpec.BSI r R) as (_ & _ & _ & A4 & _). rewrite A4. reflexivity.
Qed.
Lemma mcells_len c rf m o r : mem_ok c rf m o -> SasSpec.reg_ok r -> (1 <= rlen (mcells o r) <= 3)%nat /\ (length (cfix 0 (mcells o r)) <= 1)%nat.
Proof.
  intros MO R. destruct (mcells_cases c rf m o r MO R) as [(_ & ->)|(b & _ & [(_ & -> & _)|[(-> & _)|(x & _ & ->)]])]; destruct (o_fix o); cbn; lia.
Qed.
Lemma cfix_len n cs : length (cfix n cs) = length (cfix 0 cs).
Proof.
  generalize 0%nat as n0. revert n. induction cs as [|c cs IH]; intros n n0; cbn [cfix]; [reflexivity|].
  rewrite !app_length. rewrite (IH (n + clen c)%nat (n0 + clen c)%nat). f_equal. destruct c as [x [i|]|k x [i|]]; reflexivity.
Qed.
Lemma IsShort_sx8 d : IsShort d = true -> Spec8086.sx8 (d mod 256) = d mod 65536.
Proof.
  unfold IsShort. change 0xffff with (Z.ones 16). rewrite !Z.land_ones by lia. rewrite Z.eqb_eq. change (2 ^ 16) with 65536.
  unfold Spec8086.sx8, s8. intro H. destruct (Z.ltb_spec (d mod 256) 128); lia.
Qed.
Lemma render1 lv x : render lv [x] = rcell lv x.
Proof. cbn [render flat_map]. apply app_nil_r. Qed.
Lemma b8 x lv : 0 <= x < 256 -> (x + fixval lv None) mod 256 = x.
Proof. intro H. cbn [fixval]. rewrite Z.add_0_r. apply Z.mod_small. exact H. Qed.

Lemma dec_mcells c rf m o r NS lv l1 l2 seg k : mem_ok c rf m o -> SasSpec.reg_ok r -> final c rf NS lv -> Z.of_nat (length l1) = k ->
  dec_modrm (byte_at (l1 ++ render lv (mcells o r) ++ l2)) seg k =
    (Spec8086.Mem seg (SasSpec.base_mode (SasSpec.m_base m)) (SasSpec.disp_value (env_of NS lv) m mod 65536), r, k + Z.of_nat (rlen (mcells o r))).
Proof.
  intros MO R FI K. pose proof (mo_val _ _ _ _ MO NS lv FI) as MV. pose proof R as R'. unfold SasSpec.reg_ok in R'.
  assert (B : forall l j, 0 <= j -> byte_at (l1 ++ l) (k + j) = byte_at l j) by (intros; subst k; apply byte_app; assumption).
  assert (B0 : forall l, byte_at (l1 ++ l) k = byte_at l 0) by (intros; rewrite <- (B l 0) by lia; f_equal; lia).
  destruct (mcells_cases c rf m o r MO R) as [(MB & ->)|(b & MB & CS)].
  - rewrite MB. cbn [render flat_map rcell app rlen clen].
    rewrite (dec_mem _ _ _ 0 r 6); [|lia|exact R|unfold SasSpec.reg_ok; lia|rewrite B0; apply b8; lia].
    cbn [Z.eqb]. unfold Spec8086.word_at. replace (k + 1 + 1) with (k + 2) by lia. rewrite !B by lia.
    replace (byte_at _ 1) with ((o_disp o + fixval lv (o_fix o)) mod 256) by reflexivity.
    replace (byte_at _ 2) with ((o_disp o + fixval lv (o_fix o)) / 256 mod 256) by reflexivity.
    rewrite (word_bytes _ _ MV). reflexivity.
  - rewrite MB. destruct (mode_rm b) as [-> RB]. pose proof RB as RB'. unfold SasSpec.reg_ok in RB'.
    destruct CS as [(N6 & -> & D0 & F0)|[(-> & SH & F0)|(x & X & ->)]]; cbn [render flat_map rcell app rlen clen].
    + rewrite (dec_mem _ _ _ 0 r (rm_of b)); [|lia|exact R|exact RB|rewrite B0; apply b8; lia].
      cbn [Z.eqb]. rewrite (proj2 (Z.eqb_neq _ _) N6). rewrite D0, F0 in MV. cbn [fixval] in MV. rewrite <- MV. reflexivity.
    + rewrite (dec_mem _ _ _ 1 r (rm_of b)); [|lia|exact R|exact RB|rewrite B0; apply b8; lia].
      cbn [Z.eqb]. rewrite B by lia. replace (byte_at _ 1) with ((o_disp o + 0) mod 256) by reflexivity. rewrite Z.add_0_r.
      rewrite (IsShort_sx8 _ SH). rewrite F0 in MV. cbn [fixval] in MV. rewrite Z.add_0_r in MV. rewrite MV. reflexivity.
    + rewrite (dec_mem _ _ _ 2 r (rm_of b)); [|lia|exact R|exact RB|rewrite B0; change ((x + 0) mod 256 = 128 + 8 * r + rm_of b); rewrite Z.add_0_r; exact X].
      cbn [Z.eqb]. unfold Spec8086.word_at. replace (k + 1 + 1) with (k + 2) by lia. rewrite !B by lia.
      replace (byte_at _ 1) with ((o_disp o + fixval lv (o_fix o)) mod 256) by reflexivity.
      replace (byte_at _ 2) with ((o_disp o + fixval lv (o_fix o)) / 256 mod 256) by reflexivity.
      rewrite (word_bytes _ _ MV). reflexivity.
Qed.

(** ** Decoding an instruction with a memory operand *)
Lemma open_mem es b l lv : 0 <= b < 256 -> plain b ->
  let L := render lv (pre es ++ [Cell8 b None]) ++ l in
  decode (byte_at L) = dec_op (byte_at L) (seg_of es) Spec8086.NoRep (plen es) /\ byte_at L (plen es) = b.
Proof.
  intros R P. cbv zeta. destruct es; cbn [pre app render flat_map rcell plen seg_of].
  - split; [apply decode_es|].
    + reflexivity.
    + change (plain ((b + fixval lv None) mod 256)). rewrite b8 by lia. exact P.
    + change ((b + fixval lv None) mod 256 = b). apply b8. lia.
  - split; [apply decode_plain; change (plain ((b + fixval lv None) mod 256)); rewrite b8 by lia; exact P|].
    change ((b + fixval lv None) mod 256 = b). apply b8. lia.
Qed.
Lemma dec_imm_app lv l1 w k x f n : (w = false -> f = None) -> Z.of_nat (length l1) = n ->
  Spec8086.dec_imm (byte_at (l1 ++ rcell lv (if w : bool then Cell16 k x f else Cell8 x f))) w n =
    (if w then (x + fixval lv f) mod 65536 else (x + fixval lv f) mod 256, n + (if w then 2 else 1)).
Proof.
  intros N <-. destruct w; cbn [Spec8086.dec_imm rcell].
  - unfold Spec8086.word_at. rewrite byte_app by lia. replace (Z.of_nat (length l1)) with (Z.of_nat (length l1) + 0) at 1 by lia. rewrite byte_app by lia.
    rewrite <- (word_bytes _ _ eq_refl). reflexivity.
  - replace (byte_at _ _) with (byte_at [(x + fixval lv f) mod 256] 0); [reflexivity|].
    replace (Z.of_nat (length l1)) with (Z.of_nat (length l1) + 0) by lia. rewrite byte_app by lia. reflexivity.
Qed.
End Width.
