(** Jumps: backward jumps to placed labels (EmitLocalJump, EmitJmp, EmitJcc) and the
    materialisation of a condition (GetVal), run on the 8086. *)
From Verif Require Import Base Bits Spec8086 SccRun SccState SccEmit SccLex SccDecl SccExpr SccInput SccPut SccArith SccOps.

(** the machine state s with the instruction pointer moved *)
Definition at_ip (s : state) (i : Z) : state := mkst (rg s) (sg s) i (fl s) (mem s).

(** one jump instruction *)
Lemma jmp8_run r g a f m P b T : code m (cs g) a [235; b] -> 0 <= a -> a + 2 < 65536 -> 0 <= T < 65536 ->
  (a + 2 + sx8 b) mod 65536 = T -> reaches P (mkst r g T f m) -> reaches P (mkst r g a f m).
Proof.
  intros C A B HT E H. eapply (reach_code _ [235; b] (IJmp (sx8 b)) 2 (fun _ => mkst r g T f m)); auto; try lia.
  intro u. cbn [exec]. unfold set_ip. cbn [rg sg ip fl mem]. rewrite E. reflexivity.
Qed.
Lemma jmp16_run r g a f m P b c T : code m (cs g) a [233; b; c] -> 0 <= a -> a + 3 < 65536 -> 0 <= T < 65536 ->
  (a + 3 + (b + 256 * c)) mod 65536 = T -> reaches P (mkst r g T f m) -> reaches P (mkst r g a f m).
Proof.
  intros C A B HT E H. eapply (reach_code _ [233; b; c] (IJmp (b + 256 * c)) 3 (fun _ => mkst r g T f m)); auto; try lia.
  intro u. cbn [exec]. unfold set_ip. cbn [rg sg ip fl mem]. rewrite E. reflexivity.
Qed.
Lemma dec_jcc c b f : 0 <= c < 16 -> decode (over [112 + c; b] f) = Some (IJcc c (sx8 b), 2).
Proof.
  intro. assert (c = 0 \/ c = 1 \/ c = 2 \/ c = 3 \/ c = 4 \/ c = 5 \/ c = 6 \/ c = 7 \/ c = 8 \/ c = 9 \/ c = 10 \/ c = 11 \/ c = 12 \/ c = 13 \/ c = 14 \/ c = 15) as K by lia.
  repeat (destruct K as [->|K]; [reflexivity|]). subst c. reflexivity.
Qed.
Lemma jcc_run r g a f m P cc_ b (v : bool) T : 0 <= cc_ < 16 -> cond cc_ f = Some v -> code m (cs g) a [112 + cc_; b] -> 0 <= a -> a + 2 < 65536 ->
  (v = true -> (a + 2 + sx8 b) mod 65536 = T) -> (v = false -> a + 2 = T) ->
  reaches P (mkst r g T f m) -> reaches P (mkst r g a f m).
Proof.
  intros HC CV C A B E1 E2 H. eapply (reach_code _ [112 + cc_; b] (IJcc cc_ (sx8 b)) 2 (fun _ => mkst r g T f m)); auto; try lia.
  - intro. apply dec_jcc. exact HC.
  - intro u. cbn [exec fl]. rewrite CV. destruct v.
    + unfold set_ip. cbn [rg sg ip fl mem]. rewrite (E1 eq_refl). reflexivity.
    + rewrite (E2 eq_refl). reflexivity.
Qed.
Lemma cc16 c : 0 <= c < 16 -> Z.lor 112 c = 112 + c /\ 0 <= Z.lxor c 1 < 16 /\ Z.lxor (Z.lxor c 1) 1 = c /\ Z.lxor (112 + c) 1 = 112 + Z.lxor c 1
   /\ Z.lor 112 (Z.lxor c 1) = 112 + Z.lxor c 1 /\ Z.land (112 + c) 240 = 112.
Proof.
  intro H. assert (c = 0 \/ c = 1 \/ c = 2 \/ c = 3 \/ c = 4 \/ c = 5 \/ c = 6 \/ c = 7 \/ c = 8 \/ c = 9 \/ c = 10 \/ c = 11 \/ c = 12 \/ c = 13 \/ c = 14 \/ c = 15) as K by lia.
  repeat (destruct K as [->|K]; [repeat split; try reflexivity; discriminate|]). subst c. repeat split; try reflexivity; discriminate.
Qed.
Lemma s8_fits d : (d =? s8 d) = ((-128 <=? d) && (d <=? 127)).
Proof.
  unfold s8. cbv zeta.
  destruct (Z.ltb_spec (d mod 256) 128); destruct (Z.leb_spec (-128) d), (Z.leb_spec d 127); cbn [andb]; 
   (apply Z.eqb_eq || apply Z.eqb_neq); lia.
Qed.

Section W.
Variable W : Z.
Hypothesis HW : 16 <= W.

(** a jump to a label placed at addr, behind the output position *)
Definition back_code (a addr : Z) : list Z :=
  let d := addr - (a + 2) in
  if (-128 <=? d) && (d <=? 127) then [235; d] else [233; d - 1; Z.shiftr (d - 1) 8].

Lemma back_emits l e e' k addr : live e -> aget (LAddr e) l = addr -> addr <> 0 ->
  EmitLocalJump W l e = Ok (k, e') -> e' = put (back_code (CodeAddress e) addr) e /\ live e' /\ k = true.
Proof.
  intros L A N H. unfold EmitLocalJump in H. mgoin H. minv H x e1 E.
  destruct ((l <? 0) || (LocalLabelCounter e <=? l)); cbn [failif] in E; [discriminate|]. unfold ret in E. injection E as <- <-.
  mgoin H. rewrite A in H. rewrite (proj2 (Z.eqb_neq _ _) N) in H. cbn [negb] in H. mgoin H.
  rewrite s8_fits in H. unfold back_code. cbv zeta. set (d := addr - (CodeAddress e + 2)) in *.
  destruct ((-128 <=? d) && (d <=? 127)).
  - minv H y e1 E. apply out2 in E; auto. destruct E as [-> L1]. oki H. auto.
  - minv H y e1 E. rename E into E0. minv E0 z e2 E. apply out1 in E; auto. destruct E as [-> L1]. apply outw in E0; auto. destruct E0 as [-> L2].
    oki H. rewrite <- put_app. auto.
Qed.
Lemma back_run a addr r g f m P : code m (cs g) a (map u8 (back_code a addr)) -> 0 <= a -> a + 3 < 65536 -> 0 <= addr < 65536 ->
  reaches P (mkst r g addr f m) -> reaches P (mkst r g a f m).
Proof.
  intros C A B HT H. unfold back_code in C. cbv zeta in C.
  destruct (Z.leb_spec (-128) (addr - (a + 2))), (Z.leb_spec (addr - (a + 2)) 127); cbn [andb map] in C.
  1: { apply (jmp8_run _ _ _ _ _ _ _ addr C); auto; try lia. rewrite sx8_s8. rewrite Zplus_mod_idemp_r.
       assert (E : s8 (addr - (a + 2)) = addr - (a + 2)).
       { symmetry. apply Z.eqb_eq. rewrite s8_fits. destruct (Z.leb_spec (-128) (addr - (a + 2))), (Z.leb_spec (addr - (a + 2)) 127); try reflexivity; lia. }
       rewrite E. replace (a + 2 + _) with addr by lia. apply Z.mod_small. lia. }
  all: apply (jmp16_run _ _ _ _ _ _ _ _ addr C); auto; try lia; rewrite word_bytes, Zplus_mod_idemp_r;
   replace (a + 3 + _) with addr by lia; apply Z.mod_small; lia.
Qed.

(** what a jump must do: go to addr when v, to nxt otherwise; nothing else changes *)
Definition goes (s : state) (v : bool) (addr nxt : Z) : Prop :=
  reaches (fun s' => s' = at_ip s (if v then addr else nxt)) s.

Lemma checks_live e c e1 : live e -> EmitChecks W e = Ok (c, e1) -> c = false /\ e1 = e.
Proof.
  intros (D & P & RM) E. unfold EmitChecks in E. cbn [EmitChecks_n] in E. mgoin E. rewrite D in E. cbv iota in E. mgoin E.
  rewrite P in E. cbn [Z.eqb negb when] in E. mgoin E. unfold failif in E. destruct (OUTPUT_MAX + CODESTART <? CodeAddress e); [discriminate|].
  mgoin E. unfold ret in E. injection E as <- <-. auto.
Qed.

Theorem jmp_back l e e' x : live e -> aget (LAddr e) l <> 0 -> 0 <= aget (LAddr e) l < 65536 ->
  EmitJmp W l e = Ok (x, e') ->
  (forall s, ip s = CodeAddress e -> loaded e e' (mem s) (cs (sg s)) -> goes s true (aget (LAddr e) l) (CodeAddress e'))
  /\ IsDeadCode e' = true.
Proof.
  intros L N R H. unfold EmitJmp in H. mgoin H.
  assert (P1 : set_Pending (clr (Pending e) 1) e = e).
  { destruct L as (_ & P & _). rewrite P. change (clr 0 1) with 0. rewrite <- P. destruct e; reflexivity. }
  rewrite P1 in H. minv H c e1 E.
  apply checks_live in E; auto. destruct E as [-> ->]. minv H k e2 E. apply (back_emits l e e2 k (aget (LAddr e) l)) in E; auto. destruct E as (-> & L2 & ->).
  oki H. split; [|reflexivity].
  intros [r g i f m] I C. cbn [ip mem sg] in *. subst i.
  assert (C' : loaded e (put (back_code (CodeAddress e) (aget (LAddr e) l)) e) m (cs g)) by exact C.
  apply loaded_put in C'. pose proof (live_lo _ L). unfold goes, at_ip. cbn [rg sg fl mem].
  assert (CodeAddress e <= 24832) by (destruct L as (_ & _ & RM); unfold room, CODESTART, OUTPUT_MAX in RM; lia).
  apply (back_run _ _ _ _ _ _ _ C'); try lia. apply reach_now. reflexivity.
Qed.

Definition jcc_code (c a addr : Z) : list Z :=
  let d := addr - (a + 2) in
  if (-128 <=? d) && (d <=? 127) then [112 + c; d] else [112 + Z.lxor c 1; 3] ++ back_code (a + 2) addr.

Lemma jcc_back_emits c l e e' x : 0 <= c < 16 -> live e -> aget (LAddr e) l <> 0 ->
  EmitJcc W c l e = Ok (x, e') -> e' = put (jcc_code c (CodeAddress e) (aget (LAddr e) l)) e /\ live e'.
Proof.
  intros HC L N H. unfold EmitJcc in H. minv H k e1 E. apply checks_live in E; auto. destruct E as [-> ->].
  mgoin H. rewrite (proj2 (Z.eqb_neq _ _) N), s8_fits in H. unfold jcc_code. cbv zeta in *. cbn [negb andb] in H.
  destruct (cc16 c HC) as (C1 & C2 & C3 & C4 & C5 & C6).
  destruct ((-128 <=? aget (LAddr e) l - (CodeAddress e + 2)) && (aget (LAddr e) l - (CodeAddress e + 2) <=? 127)).
  - rewrite C1 in H. apply out2 in H; auto.
  - rewrite C5 in H. minv H y e1 E. apply out2 in E; auto. destruct E as [-> L1]. minv H k e2 E.
    apply (back_emits l _ e2 k (aget (LAddr e) l)) in E; auto. destruct E as (-> & L2 & ->). cbn [negb when] in H.
    oki H. rewrite put_addr in *. change (Z.of_nat (length [112 + Z.lxor c 1; 3])) with 2 in *.
    rewrite <- put_app in *. auto.
Qed.

Theorem jcc_back c l e e' x : 0 <= c < 16 -> live e -> aget (LAddr e) l <> 0 -> 0 <= aget (LAddr e) l <= CodeAddress e ->
  EmitJcc W c l e = Ok (x, e') ->
  forall s v, ip s = CodeAddress e -> loaded e e' (mem s) (cs (sg s)) -> holds c v s ->
  goes s v (aget (LAddr e) l) (CodeAddress e').
Proof.
  intros HC L N R H s v I C [H1 H2]. apply jcc_back_emits in H; auto. destruct H as [-> L2].
  destruct s as [r g i f m]. cbn [ip mem sg fl] in *. subst i. apply loaded_put in C. pose proof (live_lo _ L) as LO. pose proof (live_room _ _ L2) as LR.
  set (a := CodeAddress e) in *. set (addr := aget (LAddr e) l) in *. rewrite put_addr. fold a. unfold goes, at_ip. cbn [rg sg fl mem].
  destruct (cc16 c HC) as (C1 & C2 & C3 & C4 & C5 & C6).
  unfold jcc_code in *. cbv zeta in *.
  destruct ((-128 <=? addr - (a + 2)) && (addr - (a + 2) <=? 127)) eqn:FI.
  - cbn [map] in C. rewrite (u8_small (112 + c)) in C by lia. cbn [length] in *.
    apply (jcc_run r g a f m _ c (u8 (addr - (a + 2))) v (if v then addr else a + Z.of_nat 2)); auto; try lia.
    + intros ->. rewrite sx8_s8, Zplus_mod_idemp_r. rewrite <- s8_fits in FI. apply Z.eqb_eq in FI. rewrite <- FI.
      replace (a + 2 + (addr - (a + 2))) with addr by lia. apply Z.mod_small. lia.
    + intros ->. reflexivity.
    + apply reach_now. reflexivity.
  - rewrite map_app in C. apply code_app in C. destruct C as [Ca Cb]. cbn [map] in Ca. rewrite map_length in Cb. cbn [length] in Cb.
    rewrite (u8_small (112 + Z.lxor c 1)) in Ca by lia. change (u8 3) with 3 in Ca. change (Z.of_nat 2) with 2 in Cb.
    assert (BL : length (back_code (a + 2) addr) = 3%nat).
    { unfold back_code. cbv zeta. destruct (Z.leb_spec (-128) (addr - (a + 2 + 2))); [|reflexivity].
      destruct (Z.leb_spec (addr - (a + 2 + 2)) 127); [|reflexivity]. exfalso.
      destruct (Z.leb_spec (-128) (addr - (a + 2))), (Z.leb_spec (addr - (a + 2)) 127); try discriminate; lia. }
    rewrite app_length, BL in *. cbn [length Nat.add] in *.
    apply (jcc_run r g a f m _ (Z.lxor c 1) 3 (negb v) (if v then a + 2 else a + 5)); auto; try lia.
    + destruct v; [discriminate|]. intros _. unfold sx8. cbn [Z.ltb Z.compare Pos.compare Pos.compare_cont]. rewrite Z.mod_small by lia. lia.
    + destruct v; [reflexivity|discriminate].
    + destruct v.
      * apply (back_run _ _ _ _ _ _ _ Cb); try lia. apply reach_now. reflexivity.
      * apply reach_now. reflexivity.
Qed.

(** ** GetVal of a condition *)
Theorem getval_bool s s' x : live (em s) -> CurrentType (em s) = VT_BOOL -> 0 <= CurrentVal (em s) < 16 ->
  GetVal W s = Ok (x, s') ->
  CurrentType (em s') = VT_INT /\ live (em s') /\
  forall v, does_if (holds (CurrentVal (em s)) v) (em s) (em s') (fun t t' => ax (rg t') = zb v /\ keeps_but [R_AX] t t').
Proof.
  intros L T R H. unfold GetVal, gete in H. mgoin H. rewrite T in H. change (VT_BOOL =? VT_BOOL) with true in H. cbv iota in H.
  minv H y s1 E. apply inem_inv in E. destruct E as (e1 & E & ->). unfold EmitMovRImm in E. apply out3 in E; auto. destruct E as [-> L1].
  mgoin H. minv H z s2 E. apply o3_inv in E; auto. destruct E as [-> L2]. unfold setT, upde in H. oki H.
  rewrite em_app, set_em_em in *. 
  match goal with |- context [set_CurrentType _ ?e] => set (e2 := e) in * end.
  split; [reflexivity|]. split; [exact L2|]. intro v.
  destruct (cc16 _ R) as (C1 & C2 & C3 & C4 & C5 & C6).
  assert (CV : CurrentVal (put [Z.lor I_MOV_R_IMM16 R_AX; 0; Z.shiftr 0 8] (em s)) = CurrentVal (em s)) by reflexivity.
  assert (E2 : e2 = put [184; 0; 0; 112 + Z.lxor (CurrentVal (em s)) 1; 1; 64] (em s)).
  { unfold e2, app_code. cbn [set_em em]. rewrite CV, C5. rewrite <- put_app. reflexivity. }
  change (does_if (holds (CurrentVal (em s)) v) (em s) e2 (fun t t' => ax (rg t') = zb v /\ keeps_but [R_AX] t t')).
  assert (L3 : live e2) by exact L2. rewrite E2 in *. clear E2 e2 CV L2. rename L3 into L2. set (c := CurrentVal (em s)) in *. clearbody c.
  apply does_of; auto. intros r g f m RO C [H1 H2]. cbn [fl rg] in *. pose proof (live_lo _ L) as LO. pose proof (live_room _ _ L2) as LR.
  cbn [length] in *. set (a := CodeAddress (em s)) in *. clearbody a.
  change (map u8 _) with ([184; 0; 0] ++ [u8 (112 + Z.lxor c 1); 1] ++ [64]) in C. rewrite u8_small in C by lia.
  apply code_app in C. destruct C as [Ca C]. apply code_app in C. destruct C as [Cb Cc]. cbn [length] in *.
  change (Z.of_nat 3) with 3 in *. change (Z.of_nat 2) with 2 in *.
  runop [184; 0; 0] (IMov true (Reg 0) (Imm 0)) 3.
  assert (KB : forall i f' w, keeps_but [R_AX] (mkst r g a f m) (mkst (rset r 0 w) g i f' m)).
  { intros. unfold keeps_but. cbn [rg sg mem]. split; [|auto]. intros q Hq N. cbn [In] in N. unfold R_AX in N. reg8 q; try (exfalso; tauto); reflexivity. }
  apply (jcc_run _ g (a + 3) f m _ (Z.lxor c 1) 1 (negb v) (if v then a + 5 else a + 6)); auto; try lia.
  - destruct v; [discriminate|]. intros _. unfold sx8. cbn [Z.ltb Z.compare Pos.compare Pos.compare_cont]. rewrite Z.mod_small by lia. lia.
  - destruct v; [intros _; lia|discriminate].
  - destruct v.
    + replace (a + 3 + 2) with (a + 5) in Cc by lia. runop [64] (IInc true (Reg 0)) 1. apply reach_now. cbn [ip rg]. split; [lia|]. split; [reflexivity|].
      rewrite rset_rset by lia. apply KB.
    + apply reach_now. cbn [ip rg]. split; [reflexivity|]. split; [reflexivity|]. apply KB.
Qed.
End W.
