(** Forward jumps: what DoFixups makes of the pending references of a label, run on the 8086. *)
From Verif Require Import Base Bits Spec8086 SccRun SccState SccEmit SccInput SccPut SccArith SccOps SccJump SccMem.

(** byte of the output at address a *)
Definition byte (e : emst) (a : Z) : Z := aget (Output e) (a - CODESTART).

(** ** Pending references *)
(** a pending jump, by the address of its two-byte operand; conditional ones jump on condition c *)
Inductive site := SJmp (r : Z) | SCond (c r : Z).
Definition ref (s : site) : Z := match s with SJmp r => r | SCond _ r => r end.
Definition start (s : site) : Z := match s with SJmp r => r - 1 | SCond _ r => r - 3 end.
(** the bytes EmitLocalJump and EmitJcc leave before the operand (scc.c:1309-1354) *)
Definition site_ok (e : emst) (s : site) : Prop :=
  match s with
  | SJmp r => byte e (r - 1) = 233
  | SCond c r => 0 <= c < 16 /\ byte e (r - 3) = 112 + Z.lxor c 1 /\ byte e (r - 2) = 3 /\ byte e (r - 1) = 0
  end.
(** the references of a label: each operand holds the address of the next one *)
Inductive chain (e : emst) : Z -> Z -> list site -> Prop :=
| chain_nil lim : chain e 0 lim []
| chain_cons s rest lim : site_ok e s -> CODESTART <= start s -> ref s + 2 <= lim ->
    chain e (byte e (ref s) + 256 * byte e (ref s + 1)) (start s) rest ->
    chain e (ref s) lim (s :: rest).

(** the output is an array of bytes *)
Definition bytes_ok (e : emst) : Prop := forall a, 0 <= byte e a < 256.

(** ** What a resolved jump does *)
(** two states whose executions meet *)
Definition joins (s1 s2 : state) : Prop := exists t, reaches (fun s => s = t) s1 /\ reaches (fun s => s = t) s2.
(** the bytes of e from a to b are in memory *)
Definition present (e : emst) (a b : Z) (m : arr Z) (seg : Z) : Prop := forall x, a <= x < b -> rd8 m seg x = byte e x.
Definition behaves (e : emst) (L : Z) (s : site) : Prop :=
  forall r g f m, present e (start s) L m (cs g) ->
  match s with
  | SJmp _ => reaches (fun t => t = mkst r g L f m) (mkst r g (start s) f m)
  | SCond c p => forall v, cond c f = Some v -> cond (Z.lxor c 1) f = Some (negb v) ->
      if v then reaches (fun t => t = mkst r g L f m) (mkst r g (start s) f m)
      else joins (mkst r g (start s) f m) (mkst r g (p + 2) f m)
  end.

(** ** Patching bytes *)
Definition setb (a v : Z) (e : emst) : emst := set_Output (aset (Output e) (a - CODESTART) (u8 v)) e.
Lemma byte_setb a v e b : byte (setb a v e) b = if a =? b then u8 v else byte e b.
Proof.
  unfold byte, setb. cbn [Output set_Output]. rewrite aget_aset. destruct (Z.eqb_spec (a - CODESTART) (b - CODESTART)), (Z.eqb_spec a b); auto; lia.
Qed.
Lemma poke_setb a v e x e' : poke a v e = Ok (x, e') -> e' = setb a v e.
Proof. intro H. apply poke_inv in H. apply H. Qed.
Lemma peek_byte a e x e' : peek a e = Ok (x, e') -> e' = e /\ x = byte e a.
Proof. intro H. apply peek_inv in H. unfold byte. tauto. Qed.

(** e1 differs from e only in the bytes lo..hi-1 *)
Definition patched (lo hi : Z) (e e1 : emst) : Prop :=
  (forall a, a < lo \/ hi <= a -> byte e1 a = byte e a) /\ CodeAddress e1 = CodeAddress e /\ LastFixup e1 = LastFixup e.

Lemma lor_word b0 b1 : 0 <= b0 < 256 -> Z.lor b0 (Z.shiftl b1 8) = b0 + 256 * b1.
Proof. intros A. rewrite lor_shiftl_add by lia. change (2 ^ 8) with 256. lia. Qed.

(** a resolved unconditional jump at a to T *)
Definition jump_at (e : emst) (a T : Z) : Prop :=
  (byte e a = 235 /\ byte e (a + 1) = u8 (T - (a + 2)) /\ -128 <= T - (a + 2) <= 127) \/
  (byte e a = 233 /\ byte e (a + 1) = u8 (T - (a + 3)) /\ byte e (a + 2) = u8 (Z.shiftr (T - (a + 3)) 8)).
(** what follows a short conditional jump: the jump at p+2 copied, the return at p+2 copied, or no-ops *)
Definition tail_at (e : emst) (p : Z) : Prop :=
  (byte e (p - 1) = 235 /\ byte e (p + 2) = 235 /\ byte e p = u8 (byte e (p + 3) + 3) /\ s8 (byte e (p + 3)) <= 124) \/
  (byte e (p - 1) = 93 /\ byte e p = 195 /\ byte e (p + 2) = 93) \/
  (byte e (p - 1) = 136 /\ byte e p = 192 /\ byte e (p + 1) = 144).
Definition fixed (e : emst) (T : Z) (s : site) : Prop :=
  match s with
  | SJmp r => jump_at e (r - 1) T
  | SCond c r =>
      (byte e (r - 3) = 112 + Z.lxor c 1 /\ byte e (r - 2) = 3 /\ jump_at e (r - 1) T) \/
      (byte e (r - 3) = 112 + c /\ byte e (r - 2) = u8 (T - (r - 1)) /\ T - (r - 1) <= 127 /\ tail_at e r)
  end.

Ltac bts := rewrite ?byte_setb;
  repeat match goal with |- context [?a =? ?b] => destruct (Z.eqb_spec a b); try (exfalso; lia) end.

Lemma finish_inv (r f T : Z) (e : emst) (x : Z) (e' : emst) (nx : Z) :
  T = r + 2 + f ->
  ((let! op := peek (r - 1) in
    (if op =? I_JMP_REL16 then
       let f := f + 1 in
       if f =? s8 f then
         poke (r - 1) I_JMP_REL8 ;;
         let f := Z.lor (u8 f) 36864 in
         poke r f ;; poke (r + 1) (Z.shiftr f 8)
       else
         let f := f - 1 in
         poke r f ;; poke (r + 1) (Z.shiftr f 8)
     else
       poke r f ;; poke (r + 1) (Z.shiftr f 8)) ;;
    ret nx : M emst Z) : M emst Z) e = Ok (x, e') ->
  byte e (r - 1) = 233 ->
  x = nx /\ patched (r - 1) (r + 2) e e' /\ jump_at e' (r - 1) T.
Proof.
  intros -> H B. minv H op e1 E. apply peek_byte in E. destruct E as [-> ->]. rewrite B in H.
  change (233 =? I_JMP_REL16) with true in H. cbv iota zeta in H. rewrite s8_fits in H.
  replace (f + 1 - 1) with f in H by lia.
  destruct (Z.leb_spec (-128) (f + 1)), (Z.leb_spec (f + 1) 127); cbn [andb] in H.
  1: { minv H z e1 E. minv E z1 e2 E1. apply poke_setb in E1. subst e2. minv E z2 e2 E1. apply poke_setb in E1, E. subst e2 e1.
       oki H. split; [reflexivity|]. set (w := Z.lor (u8 _) 36864).
       assert (W0 : u8 w = u8 (f + 1)).
       { pose proof (lor_mod_pow2 (u8 (f + 1)) 36864 8) as Q. change (2 ^ 8) with 256 in Q. change (36864 mod 256) with 0 in Q.
         rewrite Z.lor_0_r in Q. unfold w. unfold u8 at 1. rewrite Q by lia. unfold u8. apply Zmod_mod. }
       clearbody w. split.
       - split; [|split; reflexivity]. intros a A. bts. reflexivity.
       - left. replace (r - 1 + 1) with r by lia. replace (r - 1 + 2) with (r + 1) by lia. bts. rewrite W0. split; [reflexivity|]. split; [f_equal; lia|lia]. }
  all: minv H z e1 E; minv E z1 e2 E1; apply poke_setb in E1, E; subst e2 e1; oki H; split; [reflexivity|]; split;
   [split; [|split; reflexivity]; intros a A; bts; reflexivity
   |right; replace (r - 1 + 1) with r by lia; replace (r - 1 + 2) with (r + 1) by lia; replace (r - 1 + 3) with (r + 2) by lia; bts; replace (r + 2 + f - (r + 2)) with f by lia; auto].
Qed.

Lemma fixup1_inv s e x e' : site_ok e s -> 0 <= byte e (ref s) < 256 -> ref s + 2 <= CodeAddress e ->
  DoFixup1 (ref s) true e = Ok (x, e') ->
  x = byte e (ref s) + 256 * byte e (ref s + 1) /\
  (((exists r, s = SJmp r) /\ CodeAddress e = ref s + 2 /\ LastFixup e <> CodeAddress e /\ e' = set_CodeAddress (CodeAddress e - 3) e) \/
   (patched (start s) (ref s + 2) e e' /\ fixed e' (CodeAddress e) s)).
Proof.
  intros OK B0 LE H. unfold DoFixup1 in H. mgoin H. set (r := ref s) in *. set (T := CodeAddress e) in *.
  minv H b0 e1 E. apply peek_byte in E. destruct E as [-> ->]. minv H b1 e1 E. apply peek_byte in E. destruct E as [-> ->].
  rewrite lor_word in H by exact B0. set (nx := byte e r + 256 * byte e (r + 1)) in *. clearbody nx.
  minv H op e1 E. apply peek_byte in E. destruct E as [-> ->].
  destruct s as [r'|c r']; cbn [ref start site_ok] in *; subst r.
  - rewrite OK in H. change (233 =? 0) with false in H. cbv iota in H. mgoin H.
    destruct (Z.eqb_spec T (r' + 2)) as [E|N]; [destruct (Z.eqb_spec (LastFixup e) T) as [E2|N2]|]; cbn [andb negb] in H.
    2: { mgoin H. oki H. split; [reflexivity|]. left. repeat split; eauto. }
    all: apply (finish_inv r' (T - (r' + 2)) T) in H; [|lia|exact OK]; destruct H as (-> & PT & J);
      (split; [reflexivity|right; split; [exact PT|exact J]]).
  - destruct OK as (HC & O3 & O2 & O1). rewrite O1 in H. change (0 =? 0) with true in H. cbv iota in H.
    destruct (cc16 c HC) as (C1 & C2 & C3 & C4 & C5 & C6). destruct (cc16 _ C2) as (D1 & D2 & D3 & D4 & D5 & D6).
    destruct (Z.leb_spec (T - (r' + 2)) 124) as [SH|LG].
    + minv H c3 e1 E. apply peek_byte in E. destruct E as [-> ->]. minv H c2 e1 E. apply peek_byte in E. destruct E as [-> ->].
      rewrite O3, O2, D6 in H. change (3 =? 3) with true in H. change (112 =? 112) with true in H. cbn [negb orb failif] in H. mgoin H.
      minv H z e1 E. apply poke_setb in E. subst e1. minv H z1 e1 E. apply poke_setb in E. subst e1. minv H z2 e1 E. apply poke_setb in E. subst e1.
      minv H n e1 E. apply peek_byte in E. destruct E as [-> ->].
      rewrite D4, C3 in H. set (e1 := setb (r' + 1) _ _) in *.
      assert (BE : byte e1 (r' + 2) = byte e (r' + 2)) by (unfold e1; bts; reflexivity). 
      assert (BF : byte e1 (r' + 3) = byte e (r' + 3)) by (unfold e1; bts; reflexivity). 
      assert (U : u8 (112 + c) = 112 + c) by (apply u8_small; lia).
      minv H n1 e2 E. assert (e2 = e1 /\ (byte e1 (r' + 2) = 235 -> n1 = byte e1 (r' + 3))) as [-> N1].
      { rewrite BE in *. destruct (Z.eqb_spec (byte e (r' + 2)) I_JMP_REL8) as [E1|E1].
        - apply peek_byte in E. destruct E as [-> ->]. auto.
        - oki E. split; auto. intro; contradiction. }
      clear E. rewrite BE, BF in *. minv H z3 e2 E.
      assert (GOAL : e2 = e2 -> nx = x /\ e2 = e' -> patched (r' - 3) (r' + 2) e1 e2 -> tail_at e2 r' -> byte e2 (r' - 3) = 112 + c -> byte e2 (r' - 2) = u8 (T - (r' + 2) + 3) ->
        x = nx /\ ((exists r, SCond c r' = SJmp r) /\ T = r' + 2 /\ LastFixup e <> T /\ e' = set_CodeAddress (T - 3) e \/
         patched (r' - 3) (r' + 2) e e' /\
         (byte e' (r' - 3) = 112 + Z.lxor c 1 /\ byte e' (r' - 2) = 3 /\ jump_at e' (r' - 1) T \/
          byte e' (r' - 3) = 112 + c /\ byte e' (r' - 2) = u8 (T - (r' - 1)) /\ T - (r' - 1) <= 127 /\ tail_at e' r'))).
      { intros _ [<- <-] PT TL A1 A2. split; [reflexivity|]. right. split.
        - destruct PT as (P1 & P2 & P3). split; [|split; [rewrite P2; reflexivity|rewrite P3; reflexivity]].
          intros a A. rewrite P1 by exact A. unfold e1. bts. reflexivity.
        - right. split; [exact A1|]. split; [rewrite A2; f_equal; lia|]. split; [lia|exact TL]. }
      assert (HX : nx = x /\ e2 = e') by (unfold ret in H; apply ok_inj in H; exact H).
      apply GOAL; auto; clear GOAL H HX.
      * destruct (_ && _); [|destruct (_ =? _)]; minv E y e3 E1; apply poke_setb in E1, E; subst e3 e2; (split; [intros a A; bts; reflexivity|split; reflexivity]).
      * destruct (Z.eqb_spec (byte e (r' + 2)) I_JMP_REL8) as [EB|NEB]; cbn [andb] in E.
        -- rewrite N1 in E by exact EB. destruct (Z.leb_spec (s8 (byte e (r' + 3))) 124) as [S8|S8].
           ++ minv E y e3 E1. apply poke_setb in E1, E. subst e3 e2. left. bts. rewrite BE, BF. auto.
           ++ rewrite EB in E. change (I_JMP_REL8 =? Z.lor I_POP R_BP) with false in E. minv E y e3 E1. apply poke_setb in E1, E. subst e3 e2.
              right. right. unfold e1. bts. auto.
        -- destruct (Z.eqb_spec (byte e (r' + 2)) (Z.lor I_POP R_BP)) as [EP|NEP]; minv E y e3 E1; apply poke_setb in E1, E; subst e3 e2.
           ++ right. left. bts. rewrite BE. auto.
           ++ right. right. unfold e1. bts. auto.
      * destruct (_ && _); [|destruct (_ =? _)]; minv E y e3 E1; apply poke_setb in E1, E; subst e3 e2; unfold e1; bts; exact U.
      * destruct (_ && _); [|destruct (_ =? _)]; minv E y e3 E1; apply poke_setb in E1, E; subst e3 e2; unfold e1; bts; reflexivity.
    + minv H z e1 E. apply poke_setb in E. subst e1.
      apply (finish_inv r' (T - (r' + 2)) T) in H; [|lia|bts; reflexivity]. destruct H as (-> & (P1 & P2 & P3) & J). split; [reflexivity|].
      right. split.
      * split; [|split; [rewrite P2; reflexivity|rewrite P3; reflexivity]]. intros a A. rewrite P1 by lia. bts. reflexivity.
      * left. rewrite !P1 by lia. bts. auto.
Qed.

Definition keeps (P : emst -> Prop) {A} (m : M emst A) : Prop := forall s x s', P s -> m s = Ok (x, s') -> P s'.
Lemma keeps_bind P {A B} (m : M emst A) (f : A -> M emst B) : keeps P m -> (forall x, keeps P (f x)) -> keeps P (bind m f).
Proof. intros H1 H2 s x s' Ps H. minv H y e1 E. eapply H2; [|exact H]. eapply H1; eauto. Qed.
Lemma keeps_ret P {A} (a : A) : keeps P (ret a).
Proof. intros s x s' Ps H. oki H. exact Ps. Qed.
Lemma keeps_peek P a : keeps P (peek a).
Proof. intros s x s' Ps H. apply peek_byte in H. destruct H as [-> _]. exact Ps. Qed.
Lemma keeps_gets P {A} (f : emst -> A) : keeps P (gets f).
Proof. intros s x s' Ps H. unfold gets in H. oki H. exact Ps. Qed.
Lemma keeps_failif P b : keeps P (failif b).
Proof. intros s x s' Ps H. unfold failif in H. destruct b; [discriminate|]. oki H. exact Ps. Qed.
Lemma keeps_poke a v : keeps bytes_ok (poke a v).
Proof.
  intros s x s' Ps H. apply poke_setb in H. subst s'. intro b. rewrite byte_setb. destruct (a =? b); [|apply Ps].
  unfold u8. apply Z.mod_pos_bound. lia.
Qed.
Lemma keeps_addr f : keeps bytes_ok (upd (fun e => set_CodeAddress (f e) e)).
Proof. intros s x s' Ps H. oki H. exact Ps. Qed.
Lemma keeps_fixup1 r rel : keeps bytes_ok (DoFixup1 r rel).
Proof.
  unfold DoFixup1. cbv zeta.
  repeat first [apply keeps_bind; [|intro] | apply keeps_ret | apply keeps_peek | apply keeps_gets | apply keeps_failif | apply keeps_poke
   | apply (keeps_addr (fun _ => _)) | match goal with |- keeps _ (if ?b then _ else _) => destruct b end].
Qed.

Lemma fixup1_dead b r rel : keeps (fun e => IsDeadCode e = b) (DoFixup1 r rel).
Proof.
  assert (KP : forall a v, keeps (fun e => IsDeadCode e = b) (poke a v)).
  { intros a v s x s' Ps H. apply poke_setb in H. subst s'. exact Ps. }
  assert (KA : forall v, keeps (fun e => IsDeadCode e = b) (upd (set_CodeAddress v))).
  { intros v s x s' Ps H. oki H. exact Ps. }
  unfold DoFixup1. cbv zeta.
  repeat first [apply keeps_bind; [|intro] | apply keeps_ret | apply keeps_peek | apply keeps_gets | apply keeps_failif | apply KP
   | apply KA | match goal with |- keeps _ (if ?b then _ else _) => destruct b end].
Qed.
Lemma loop_dead b n : forall r rel, keeps (fun e => IsDeadCode e = b) (fixup_loop n r rel).
Proof.
  induction n as [|n IH]; intros r rel; cbn [fixup_loop]; [intros s x s' _ H; discriminate|].
  destruct (r =? 0); [apply keeps_ret|]. apply keeps_bind; [apply fixup1_dead|]. intro. apply IH.
Qed.

(** ** Running resolved jumps *)
Lemma present_code e lo L m seg : present e lo L m seg -> forall bs a, lo <= a -> a + Z.of_nat (length bs) <= L ->
  (forall k, (k < length bs)%nat -> byte e (a + Z.of_nat k) = nth k bs 0) -> code m seg a bs.
Proof. intros P bs a A B C k K. rewrite P by lia. auto. Qed.
Lemma code1 e lo L m seg a b0 : present e lo L m seg -> lo <= a -> a + 1 <= L -> byte e a = b0 -> code m seg a [b0].
Proof.
  intros P A B E0. eapply (present_code e lo L); [exact P|exact A|cbn [length]; lia|]. intros k K. cbn [length] in K.
  destruct k as [|k]; [rewrite Z.add_0_r; exact E0|lia].
Qed.
Lemma code2 e lo L m seg a b0 b1 : present e lo L m seg -> lo <= a -> a + 2 <= L -> byte e a = b0 -> byte e (a + 1) = b1 -> code m seg a [b0; b1].
Proof.
  intros P A B E0 E1. eapply (present_code e lo L); [exact P|exact A|cbn [length]; lia|]. intros k K. cbn [length] in K.
  destruct k as [|[|k]]; [rewrite Z.add_0_r; exact E0|exact E1|lia].
Qed.
Lemma code3 e lo L m seg a b0 b1 b2 : present e lo L m seg -> lo <= a -> a + 3 <= L -> byte e a = b0 -> byte e (a + 1) = b1 -> byte e (a + 2) = b2 -> code m seg a [b0; b1; b2].
Proof.
  intros P A B E0 E1 E2. eapply (present_code e lo L); [exact P|exact A|cbn [length]; lia|]. intros k K. cbn [length] in K.
  destruct k as [|[|[|k]]]; [rewrite Z.add_0_r; exact E0|exact E1|exact E2|lia].
Qed.

Lemma s8_id d : -128 <= d <= 127 -> s8 d = d.
Proof. intro H. symmetry. apply Z.eqb_eq. rewrite s8_fits. destruct (Z.leb_spec (-128) d), (Z.leb_spec d 127); try reflexivity; lia. Qed.

Lemma jump_run e lo a T r g f m P : present e lo T m (cs g) -> lo <= a -> a + 3 <= T -> 0 <= a -> T < 65536 -> jump_at e a T ->
  reaches P (mkst r g T f m) -> reaches P (mkst r g a f m).
Proof.
  intros PR LO A3 A0 T1 J H. destruct J as [(J0 & J1 & J2)|(J0 & J1 & J2)].
  - eapply (jmp8_run r g a f m P (u8 (T - (a + 2))) T); auto; try lia; [eapply code2; eauto; lia|].
    rewrite sx8_s8, s8_id, Zplus_mod_idemp_r by exact J2. replace (a + 2 + _) with T by lia. apply Z.mod_small. lia.
  - eapply (jmp16_run r g a f m P (u8 (T - (a + 3))) (u8 (Z.shiftr (T - (a + 3)) 8)) T); auto; try lia; [eapply code3; eauto; lia|].
    rewrite word_bytes, Zplus_mod_idemp_r. replace (a + 3 + _) with T by lia. apply Z.mod_small. lia.
Qed.

(** the code behind a resolved conditional jump that was already there: where it begins with a jump or
    a frame restore, that instruction is complete, and the frame restore is followed by a return *)
Definition guard (e : emst) (L : Z) (s : site) : Prop :=
  match s with
  | SJmp _ => True
  | SCond _ r => (byte e (r + 2) = 235 -> r + 4 <= L) /\ (byte e (r + 2) = 93 -> r + 4 <= L /\ byte e (r + 3) = 195)
  end.

Lemma joins_refl s : joins s s.
Proof. exists s. split; apply reach_now; reflexivity. Qed.

Lemma fixed_behaves e L s : bytes_ok e -> 256 <= start s -> ref s + 2 <= L -> L <= 24832 -> (match s with SCond c _ => 0 <= c < 16 | _ => True end) ->
  fixed e L s -> guard e L s -> behaves e L s.
Proof.
  intros BO ST RL LM HC FX GD r g f m PR. destruct s as [p|c p]; cbn [start ref fixed guard] in *.
  - eapply jump_run; eauto; try lia. apply reach_now. reflexivity.
  - intros v V1 V2. destruct (cc16 c HC) as (C1 & C2 & C3 & C4 & C5 & C6). destruct FX as [(F3 & F2 & J)|(F3 & F2 & RG & TL)].
    + assert (CD : code m (cs g) (p - 3) [112 + Z.lxor c 1; 3]).
      { eapply code2; eauto; try lia. replace (p - 3 + 1) with (p - 2) by lia. exact F2. }
      destruct v.
      * apply (jcc_run r g (p - 3) f m _ (Z.lxor c 1) 3 false (p - 1)); auto; try lia; try discriminate.
        eapply jump_run; eauto; try lia. apply reach_now. reflexivity.
      * exists (mkst r g (p + 2) f m). split; [|apply reach_now; reflexivity].
        apply (jcc_run r g (p - 3) f m _ (Z.lxor c 1) 3 true (p + 2)); auto; try lia; try (apply reach_now; reflexivity).
        intros _. unfold sx8. cbn [Z.ltb Z.compare Pos.compare Pos.compare_cont]. rewrite Z.mod_small by lia. lia.
    + assert (CD : code m (cs g) (p - 3) [112 + c; u8 (L - (p - 1))]).
      { eapply code2; eauto; try lia. replace (p - 3 + 1) with (p - 2) by lia. exact F2. }
      destruct v.
      * apply (jcc_run r g (p - 3) f m _ c (u8 (L - (p - 1))) true L); auto; try lia; try discriminate; try (apply reach_now; reflexivity).
        intros _. rewrite sx8_s8, s8_id, Zplus_mod_idemp_r by lia. replace (p - 3 + 2 + _) with L by lia. apply Z.mod_small. lia.
      * assert (ST2 : forall t s2, reaches (fun s => s = t) (mkst r g (p - 1) f m) -> reaches (fun s => s = t) s2 -> joins (mkst r g (p - 3) f m) s2).
        { intros t s2 R1 R2. exists t. split; [|exact R2]. apply (jcc_run r g (p - 3) f m _ c (u8 (L - (p - 1))) false (p - 1)); auto; try lia; try discriminate. }
        destruct GD as [G1 G2]. destruct TL as [(T1 & T2 & T3 & T4)|[(T1 & T2 & T3)|(T1 & T2 & T3)]].
        -- specialize (G1 T2). set (n1 := byte e (p + 3)) in *.
           apply (ST2 (mkst r g ((p + 4 + sx8 n1) mod 65536) f m)).
           ++ assert (M : 0 <= (p + 4 + sx8 n1) mod 65536 < 65536) by (apply Z.mod_pos_bound; lia).
              apply (jmp8_run r g (p - 1) f m _ (u8 (n1 + 3)) ((p + 4 + sx8 n1) mod 65536)); auto; try lia; [eapply code2; eauto; try lia; replace (p - 1 + 1) with p by lia; exact T3| |apply reach_now; reflexivity].
              pose proof (BO (p + 3)) as NB. fold n1 in NB. clearbody n1. clear - NB T4 ST RL LM.
              assert (E3 : sx8 (u8 (n1 + 3)) = (sx8 n1 + 3) mod 65536).
              { unfold sx8, s8, u8 in *. rewrite (Z.mod_small n1) in T4 by lia. destruct (Z.ltb_spec n1 128).
                - rewrite Z.mod_small by lia. destruct (Z.ltb_spec (n1 + 3) 128); lia.
                - destruct (Z.ltb_spec ((n1 + 3) mod 256) 128); lia. }
              rewrite E3, Zplus_mod_idemp_r. f_equal. lia.
           ++ assert (M : 0 <= (p + 4 + sx8 n1) mod 65536 < 65536) by (apply Z.mod_pos_bound; lia).
              apply (jmp8_run r g (p + 2) f m _ n1 ((p + 4 + sx8 n1) mod 65536)); auto; try lia; [eapply code2; eauto; try lia; replace (p + 2 + 1) with (p + 3) by lia; reflexivity|apply reach_now; reflexivity].
        -- destruct (G2 T3) as [G3 G4]. pose (r1 := rset (rset r 4 ((sp r + 2) mod 65536)) 5 (rd16 m (ss g) (sp r))).
           pose (r2 := rset r1 4 ((sp r1 + 2) mod 65536)). pose (t := mkst r2 g (rd16 m (ss g) (sp r1) mod 65536) f m).
           assert (RT : forall a, 256 <= a -> a + 1 <= L -> code m (cs g) a [195] -> reaches (fun s => s = t) (mkst r1 g a f m)).
           { intros a A1 A2 C. eapply (reach_code _ [195] IRet 1 (fun _ => t)); auto; try lia. intro. apply reach_now. reflexivity. }
           apply (ST2 t).
           ++ eapply (reach_code _ [93] (IPop 5) 1 (fun _ => mkst r1 g p f m)); auto; try lia; [eapply code1; eauto; lia| |].
              { intro. cbn [exec pop]. unfold pop, set_reg, set_rg. cbn [rg sg ip fl mem]. do 2 f_equal. lia. }
              intro. apply RT; try lia. eapply code1; eauto; lia.
           ++ eapply (reach_code _ [93] (IPop 5) 1 (fun _ => mkst r1 g (p + 3) f m)); auto; try lia; [eapply code1; eauto; lia| |].
              { intro. cbn [exec pop]. unfold pop, set_reg, set_rg. cbn [rg sg ip fl mem]. do 2 f_equal. lia. }
              intro. apply RT; try lia. eapply code1; eauto; lia.
        -- apply (ST2 (mkst r g (p + 2) f m)); [|apply reach_now; reflexivity].
           assert (C1' : code m (cs g) (p - 1) [136; 192]) by (eapply code2; eauto; try lia; replace (p - 1 + 1) with p by lia; exact T2).
           assert (C2' : code m (cs g) (p + 1) [144]) by (eapply code1; eauto; lia).
           eapply (reach_code _ [136; 192] (IMov false (Reg 0) (Reg 0)) 2 (fun _ => mkst r g (p + 1) f m)); auto; try lia.
           { intro. cbn [exec get_op put_op]. unfold set_rg. cbn [rg sg ip fl mem]. replace (p - 1 + 2) with (p + 1) by lia. f_equal. f_equal.
             destruct r as [x0 x1 x2 x3 x4 x5 x6 x7]. unfold rset8, rget8. cbn [Z.ltb Z.compare rset rget Spec8086.ax]. f_equal. lia. }
           intro. eapply (reach_code _ [144] (IXchg true (Reg 0) (Reg 0)) 1 (fun _ => mkst r g (p + 2) f m)); auto; try lia.
           { intro. cbn [exec get_op put_op]. unfold set_rg. cbn [rg sg ip fl mem]. replace (p + 1 + 1) with (p + 2) by lia. destruct r. reflexivity. }
           intro. apply reach_now. reflexivity.
Qed.

(** ** The whole chain *)
Lemma chain_frame e e1 : forall h lim sites, chain e h lim sites -> (forall a, a < lim -> byte e1 a = byte e a) -> chain e1 h lim sites.
Proof.
  intros h lim sites H. induction H as [lim|s rest lim OK ST LE CH IH]; intro F; [constructor|].
  assert (S1 : start s < ref s) by (destruct s; cbn [start ref]; lia).
  replace (byte e (ref s) + 256 * byte e (ref s + 1)) with (byte e1 (ref s) + 256 * byte e1 (ref s + 1)) in * by (rewrite !F by lia; reflexivity).
  constructor; auto.
  - destruct s as [r|c r]; cbn [site_ok ref start] in *; rewrite !F by lia; exact OK.
  - apply IH. intros a A. apply F. lia.
Qed.
Lemma chain_lim e h lim sites lim' : chain e h lim sites -> lim <= lim' -> chain e h lim' sites.
Proof. intros H L. destruct H; constructor; auto. lia. Qed.

(** where the jumps to the next instruction are removed: unconditional jumps ending at A, A-3, ... *)
Inductive removed : Z -> list site -> Z -> Prop :=
| rm_nil A : removed A [] A
| rm_cons A r rest B : A = r + 2 -> removed (A - 3) rest B -> removed A (SJmp r :: rest) B.

Definition in_site (a : Z) (s : site) : Prop := start s <= a < ref s + 2.

Lemma loop_resolves n : forall e h sites x e', bytes_ok e -> chain e h (CodeAddress e) sites ->
  fixup_loop n h true e = Ok (x, e') ->
  exists gone kept, sites = gone ++ kept /\ removed (CodeAddress e) gone (CodeAddress e') /\
    (forall A s, In s gone -> ref s + 2 = A -> LastFixup e <> A) /\
    (forall s, In s kept -> ref s + 2 <= CodeAddress e' /\ fixed e' (CodeAddress e') s /\ CODESTART <= start s
       /\ match s with SCond c _ => 0 <= c < 16 | _ => True end) /\
    (forall a, (forall s, In s kept -> ~ in_site a s) -> byte e' a = byte e a) /\
    (forall a, CodeAddress e <= a -> byte e' a = byte e a) /\
    LastFixup e' = LastFixup e /\ bytes_ok e'.
Proof.
  induction n as [|n IH]; intros e h sites x e' BO CH H; cbn [fixup_loop] in H; [discriminate|].
  inversion CH as [lim E1 E2|s rest lim OK ST LE CH' E1 E2]; subst.
  - change (0 =? 0) with true in H. cbv iota in H. oki H. exists [], []. split; [reflexivity|]. split; [apply rm_nil|]. cbn [In]. repeat split; auto; try contradiction; apply BO.
  - assert (R1 : CODESTART <= ref s) by (destruct s; cbn [start ref] in *; lia).
    rewrite (proj2 (Z.eqb_neq (ref s) 0)) in H by (unfold CODESTART in R1; lia).
    minv H r' e1 E. pose proof (keeps_fixup1 _ _ _ _ _ BO E) as BO1.
    apply fixup1_inv in E; auto. destruct E as (-> & [((r & ->) & EA & NL & ->)|(PT & FX)]).
    + cbn [ref start] in *. apply IH with (sites := rest) in H; auto.
      * destruct H as (gone & kept & -> & RM & LF & KP & OUT & HI & LX & BO'). exists (SJmp r :: gone), kept. split; [reflexivity|].
        cbn [CodeAddress set_CodeAddress] in *. split; [constructor; auto|]. split; [|split; [exact KP|split; [exact OUT|split; [|split; assumption]]]].
        -- intros A s [<-|IN] RA; [cbn [ref] in RA; lia|]. eapply LF; eauto.
        -- intros a A. apply HI. lia.
      * cbn [CodeAddress set_CodeAddress]. eapply (chain_frame e); [eapply chain_lim; [exact CH'|lia]|intros; reflexivity].
    + pose proof PT as (P1 & P2 & P3). assert (SS : start s < ref s) by (destruct s; cbn [start ref]; lia).
      assert (CH1 : chain e1 (byte e (ref s) + 256 * byte e (ref s + 1)) (start s) rest).
      { eapply chain_frame; [exact CH'|]. intros a A. apply P1. lia. }
      assert (NOGONE : forall A g B, removed A g B -> forall rest', chain e1 (byte e (ref s) + 256 * byte e (ref s + 1)) (start s) (g ++ rest') -> start s < A -> g = []).
      { intros A g B RM rest' C2 LT. destruct RM as [|A r g' B EQ RM]; [reflexivity|]. cbn [app] in C2.
        inversion C2 as [|? ? ? ? ? LE2 ? EQ2]; subst. cbn [ref] in LE2. lia. }
      apply IH with (sites := rest) in H; auto.
      * destruct H as (gone & kept & -> & RM & LF & KP & OUT & HI & LX & BO'). rewrite P2 in *.
        assert (gone = []) by (eapply NOGONE; eauto; lia). subst gone. cbn [app] in *. assert (EQ : CodeAddress e' = CodeAddress e) by (inversion RM; congruence).
        exists [], (s :: kept). split; [reflexivity|]. split; [rewrite EQ; apply rm_nil|]. rewrite P3 in *. rewrite EQ in *.
        assert (ABV : forall a, start s <= a -> byte e' a = byte e1 a).
        { intros a A. apply OUT. intros s2 IN2 [_ IS]. clear - CH1 IN2 IS A.
          assert (LW : forall h lim l, chain e1 h lim l -> forall s2, In s2 l -> ref s2 + 2 <= lim).
          { intros h lim l C. induction C as [|s4 rest lim OK ST LE CH' IH]; intros s3 I; [contradiction|]. destruct I as [<-|I]; [lia|].
            specialize (IH s3 I). destruct s4; cbn [start ref] in *; lia. }
          specialize (LW _ _ _ CH1 _ IN2). lia. }
        split; [contradiction|]. split; [|split; [|split; [|split; [exact LX|exact BO']]]].
        -- intros s2 [<-|IN]; [|apply KP; exact IN]. split; [exact LE|]. split; [|split; [exact ST|destruct s; [exact I|apply OK]]].
           destruct s as [r|c r]; cbn [fixed start ref] in *; unfold jump_at, tail_at in *; rewrite !ABV by lia; exact FX.
        -- intros a A. rewrite OUT by (intros; apply A; right; assumption). apply P1. specialize (A s (or_introl eq_refl)). unfold in_site in A. lia.
        -- intros a A. rewrite HI by exact A. apply P1. lia.
      * rewrite P2. eapply chain_lim; [exact CH1|]. lia.
Qed.

(** DoFixups on the references of a label *)
Theorem fixups_resolve e h sites x e' : bytes_ok e -> CodeAddress e <= CODESTART + OUTPUT_MAX -> chain e h (CodeAddress e) sites ->
  DoFixups h true e = Ok (x, e') ->
  exists gone kept, sites = gone ++ kept /\
    removed (CodeAddress e) gone (CodeAddress e') /\
    (forall s, In s gone -> ref s + 2 <> LastFixup e) /\
    (forall s, In s kept -> ref s + 2 <= CodeAddress e' /\ (guard e' (CodeAddress e') s -> behaves e' (CodeAddress e') s)) /\
    (forall a, (forall s, In s kept -> ~ in_site a s) -> byte e' a = byte e a) /\
    LastFixup e' = CodeAddress e'.
Proof.
  intros BO LM CH H. unfold DoFixups in H. minv H y e1 E. apply loop_resolves with (sites := sites) in E; auto. oki H.
  destruct E as (gone & kept & -> & RM & LF & KP & OUT & HI & LX & BO1). exists gone, kept. split; [reflexivity|].
  cbn [CodeAddress set_LastFixup] in *. split; [exact RM|]. split; [|split; [|split; [|reflexivity]]].
  - intros s IN Q. eapply LF; eauto.
  - intros s IN. destruct (KP s IN) as (K1 & K2 & K3 & K4). split; [exact K1|].
    intro G. assert (RL : CodeAddress e1 <= CodeAddress e) by (clear - RM; induction RM; lia).
    unfold CODESTART, OUTPUT_MAX in *. 
    assert (BV : behaves e1 (CodeAddress e1) s) by (apply fixed_behaves; auto; lia). exact BV.
  - exact OUT.
Qed.

(** ** From emission to resolution *)
(** the pending references of label l *)
Definition pending (e : emst) (l : Z) (sites : list site) : Prop := chain e (aget (LRef e) l) (CodeAddress e) sites.

Lemma put_byte bs e a : a < CodeAddress e -> byte (put bs e) a = byte e a.
Proof. intro H. unfold byte. apply put_before. lia. Qed.
Lemma put_byte_at bs e k : (k < length bs)%nat -> byte (put bs e) (CodeAddress e + Z.of_nat k) = u8 (nth k bs 0).
Proof. apply put_at. Qed.
Lemma put_lref bs : forall e, LRef (put bs e) = LRef e.
Proof. induction bs as [|b r IH]; intros e; cbn [put]; auto. rewrite IH. reflexivity. Qed.
Lemma put_laddr bs : forall e, LAddr (put bs e) = LAddr e.
Proof. induction bs as [|b r IH]; intros e; cbn [put]; auto. rewrite IH. reflexivity. Qed.
Lemma bytes_put bs : forall e, bytes_ok e -> bytes_ok (put bs e).
Proof.
  induction bs as [|b r IH]; intros e B; cbn [put]; auto. apply IH. intro a. unfold byte, put1. cbn [Output set_CodeAddress set_Output].
  rewrite aget_aset. destruct (_ =? _); [apply Z.mod_pos_bound; lia|apply B].
Qed.
Lemma chain_below e h lim sites e1 : chain e h lim sites -> (forall a, a < lim -> byte e1 a = byte e a) -> forall lim', lim <= lim' -> chain e1 h lim' sites.
Proof. intros C F lim' L. eapply chain_lim; [eapply chain_frame; eauto|exact L]. Qed.
(** emitting anything keeps every label's references *)
Lemma pending_put bs e l sites : pending e l sites -> pending (put bs e) l sites.
Proof.
  unfold pending. intro P. rewrite put_lref, put_addr. eapply chain_below; [exact P| |lia]. intros a A. apply put_byte. exact A.
Qed.
Lemma chain_head e h lim sites : chain e h lim sites -> lim <= 24832 -> h = 0 \/ 256 <= h < 65536.
Proof. intros C L. destruct C as [|s rest lim OK ST LE CH]; [auto|]. right. unfold CODESTART in ST. destruct s; cbn [start ref] in *; lia. Qed.

(** overwriting an appended byte *)
Lemma setb_put1 a v b e : a <> CodeAddress e -> setb a v (put1 b e) = put1 b (setb a v e).
Proof.
  intro N. unfold setb, put1. cbn [Output set_Output set_CodeAddress CodeAddress].
  rewrite (aset_aset_other _ (CodeAddress e - CODESTART) (a - CODESTART)) by lia. reflexivity.
Qed.
Lemma setb_same v b e : setb (CodeAddress e) v (put1 b e) = put1 v e.
Proof. unfold setb, put1. cbn [Output set_Output set_CodeAddress CodeAddress]. rewrite aset_aset_same. reflexivity. Qed.
Lemma setb_put a v bs : forall e, a < CodeAddress e -> setb a v (put bs e) = put bs (setb a v e).
Proof.
  induction bs as [|b r IH]; intros e L; cbn [put]; [reflexivity|]. rewrite IH by (cbn [put1 CodeAddress set_CodeAddress]; lia).
  rewrite setb_put1 by lia. reflexivity.
Qed.
Lemma setb_put_at v bs : forall k e, (k < length bs)%nat ->
  setb (CodeAddress e + Z.of_nat k) v (put bs e) = put (firstn k bs ++ v :: skipn (S k) bs) e.
Proof.
  induction bs as [|b r IH]; intros k e L; cbn [length] in L; [lia|]. destruct k as [|k].
  - cbn [firstn skipn app put]. rewrite Z.add_0_r. rewrite setb_put by (cbn [put1 CodeAddress set_CodeAddress]; lia). rewrite setb_same. reflexivity.
  - change (firstn (S k) (b :: r) ++ v :: skipn (S (S k)) (b :: r)) with (b :: (firstn k r ++ v :: skipn (S k) r)). cbn [put].
    rewrite <- IH by lia. f_equal. cbn [put1 CodeAddress set_CodeAddress]. lia.
Qed.

Section W.
Variable W : Z.
Hypothesis HW : 16 <= W.

Lemma addfix_emits l e x e' : live e -> AddFixupLabel W l e = Ok (x, e') ->
  let w := aget (LRef e) l in
  e' = set_LRef (aset (LRef e) l (CodeAddress e)) (put [w; Z.shiftr w 8] e) /\ live e'.
Proof.
  intros L H. unfold AddFixupLabel in H. mgoin H. rewrite (proj1 L) in H. mgoin H. minv H y e1 E1. apply outw in E1; auto. destruct E1 as [-> L1].
  oki H. rewrite put_lref, put_addr. cbn [length]. replace (CodeAddress e + Z.of_nat 2 - 2) with (CodeAddress e) by lia. auto.
Qed.
(** a jump to a label not placed yet *)
Lemma fwd_emits l e k e' : live e -> aget (LAddr e) l = 0 -> EmitLocalJump W l e = Ok (k, e') ->
  let w := aget (LRef e) l in
  k = false /\ e' = set_LRef (aset (LRef e) l (CodeAddress e + 1)) (put [233; w; Z.shiftr w 8] e) /\ live e'.
Proof.
  intros L A H. unfold EmitLocalJump in H. mgoin H. minv H x e1 E.
  destruct ((l <? 0) || (LocalLabelCounter e <=? l)); cbn [failif] in E; [discriminate|]. oki E.
  mgoin H. rewrite A in H. change (negb (0 =? 0)) with false in H. cbv iota in H. minv H y e1 E. apply out1 in E; auto. destruct E as [-> L1].
  minv H z e2 E. apply addfix_emits in E; auto. cbv zeta in E. destruct E as [-> L2]. oki H. rewrite put_lref, put_addr in *. rewrite <- put_app in *. auto.
Qed.

Lemma site_pushed e l sites bs s : bytes_ok e -> live e -> live (put bs e) -> pending e l sites ->
  ref s = CodeAddress e + Z.of_nat (length bs) - 2 -> start s = CodeAddress e ->
  let w := aget (LRef e) l in
  site_ok (put bs e) s ->
  byte (put bs e) (ref s) = u8 w -> byte (put bs e) (ref s + 1) = u8 (Z.shiftr w 8) ->
  pending (set_LRef (aset (LRef e) l (ref s)) (put bs e)) l (s :: sites).
Proof.
  intros BO L L' P RS SS w OK B0 B1. unfold pending in *. cbn [LRef set_LRef CodeAddress]. rewrite aget_aset_same.
  assert (LM : CodeAddress e <= 24832) by (destruct L as (_ & _ & R); unfold room, CODESTART, OUTPUT_MAX in R; lia).
  assert (LO : 256 <= CodeAddress e) by (apply live_lo; exact L).
  assert (S1 : start s < ref s) by (destruct s; cbn [start ref]; lia).
  apply chain_cons.
  - destruct s; exact OK.
  - unfold CODESTART. lia.
  - rewrite put_addr. lia.
  - change (byte (set_LRef ?a ?b)) with (byte b). rewrite B0, B1. rewrite word_bytes.
    assert (W0 : w mod 65536 = w) by (destruct (chain_head _ _ _ _ P LM) as [E|E]; unfold w; [rewrite E; reflexivity|apply Z.mod_small; lia]).
    rewrite W0, SS. eapply (chain_frame e); [exact P|]. intros a A. change (byte (set_LRef ?a ?b)) with (byte b). apply put_byte. exact A.
Qed.
Lemma pending_other e l l2 sites bs v : l2 <> l -> pending e l2 sites -> pending (set_LRef (aset (LRef e) l v) (put bs e)) l2 sites.
Proof.
  intros N P. unfold pending in *. cbn [LRef set_LRef]. rewrite aget_aset_other by auto. change (CodeAddress (set_LRef ?a ?b)) with (CodeAddress b).
  rewrite put_addr. eapply chain_below; [exact P| |lia]. intros a A. change (byte (set_LRef ?a ?b)) with (byte b). apply put_byte. exact A.
Qed.

Lemma pending_dead b e l sites : pending e l sites -> pending (set_IsDeadCode b e) l sites.
Proof. unfold pending. intro P. eapply (chain_frame e); [exact P|]. reflexivity. Qed.

Theorem jmp_pending l e e' x sites : bytes_ok e -> live e -> aget (LAddr e) l = 0 -> pending e l sites ->
  EmitJmp W l e = Ok (x, e') ->
  pending e' l (SJmp (CodeAddress e + 1) :: sites) /\ CodeAddress e' = CodeAddress e + 3 /\ IsDeadCode e' = true /\
  (forall l2 s2, l2 <> l -> pending e l2 s2 -> pending e' l2 s2) /\ (forall a, a < CodeAddress e -> byte e' a = byte e a) /\ bytes_ok e'.
Proof.
  intros BO L A P H. unfold EmitJmp in H. mgoin H.
  assert (P1 : set_Pending (clr (Pending e) 1) e = e).
  { destruct L as (_ & PD & _). rewrite PD. change (clr 0 1) with 0. rewrite <- PD. destruct e; reflexivity. }
  rewrite P1 in H. minv H c e1 E. apply checks_live in E; auto. destruct E as [-> ->].
  minv H k e2 E. apply fwd_emits in E; auto. cbv zeta in E. destruct E as (-> & -> & L2). oki H.
  set (w := aget (LRef e) l) in *. set (bs := [233; w; Z.shiftr w 8]) in *.
  assert (LP : live (put bs e)) by exact L2.
  split; [|split; [|split; [reflexivity|split; [|split]]]].
  - apply pending_dead. pose proof (site_pushed e l sites bs (SJmp (CodeAddress e + 1)) BO L LP P) as Q. cbv zeta in Q. apply Q; cbn [ref start site_ok].
    + cbn [length bs]. lia.
    + lia.
    + replace (CodeAddress e + 1 - 1) with (CodeAddress e + Z.of_nat 0) by lia. rewrite put_byte_at by (cbn [length bs]; lia). reflexivity.
    + change (CodeAddress e + 1) with (CodeAddress e + Z.of_nat 1). rewrite put_byte_at by (cbn [length bs]; lia). reflexivity.
    + replace (CodeAddress e + 1 + 1) with (CodeAddress e + Z.of_nat 2) by lia. rewrite put_byte_at by (cbn [length bs]; lia). reflexivity.
  - change (CodeAddress (put bs e) = CodeAddress e + 3). rewrite put_addr. reflexivity.
  - intros l2 s2 N P2. apply pending_dead. apply (pending_other e l l2 s2 bs _ N P2).
  - intros a HA. apply (put_byte bs e a HA).
  - apply (bytes_put bs e BO).
Qed.

Lemma setb_lref a v x y : setb a v (set_LRef x y) = set_LRef x (setb a v y).
Proof. reflexivity. Qed.

Lemma addr_lref x y : CodeAddress (set_LRef x y) = CodeAddress y.
Proof. reflexivity. Qed.

Lemma live_lref x y : live (set_LRef x y) -> live y.
Proof. auto. Qed.

Lemma jcc_fwd_emits c l e e' x : 0 <= c < 16 -> live e -> aget (LAddr e) l = 0 ->
  EmitJcc W c l e = Ok (x, e') ->
  let w := aget (LRef e) l in let bs := [112 + Z.lxor c 1; 3; 0; w; Z.shiftr w 8] in
  e' = set_LRef (aset (LRef e) l (CodeAddress e + 3)) (put bs e) /\ live (put bs e).
Proof.
  intros HC L A H. unfold EmitJcc in H. minv H k e1 E. apply checks_live in E; auto. destruct E as [-> ->].
  mgoin H. rewrite A in H. change (negb (0 =? 0)) with false in H. cbn [andb] in H. destruct (cc16 c HC) as (C1 & C2 & C3 & C4 & C5 & C6).
  rewrite C5 in H. minv H y e1 E. apply out2 in E; [|exact L]. destruct E as [-> L1]. minv H k e2 E.
  apply fwd_emits in E; [|exact L1|rewrite put_laddr; exact A]. cbv zeta in E. destruct E as (-> & E2 & L2). cbn [negb when] in H. mgoin H.
  apply poke_setb in H. subst e2. rewrite put_lref, put_addr, <- put_app in *. cbn [app length] in *. change (Z.of_nat 2) with 2 in *.
  set (w := aget (LRef e) l) in *. rewrite addr_lref, put_addr in H. cbn [length] in H.
  cbv zeta. set (bs := [112 + Z.lxor c 1; 3; 0; w; Z.shiftr w 8]).
  split.
  - rewrite H. replace (CodeAddress e + Z.of_nat 5 - 3) with (CodeAddress e + Z.of_nat 2) by lia.
    rewrite setb_lref, setb_put_at by (cbn [length]; lia).
    replace (CodeAddress e + 2 + 1) with (CodeAddress e + 3) by lia. reflexivity.
  - apply put_live; [exact L|]. apply live_lref in L2. destruct L2 as (_ & _ & R). unfold room in R.
    rewrite put_addr in R. destruct L as (_ & _ & R0). unfold room in *. cbn [length bs] in *. lia.
Qed.

Theorem jcc_pending c l e e' x sites : 0 <= c < 16 -> bytes_ok e -> live e -> aget (LAddr e) l = 0 -> pending e l sites ->
  EmitJcc W c l e = Ok (x, e') ->
  pending e' l (SCond c (CodeAddress e + 3) :: sites) /\ CodeAddress e' = CodeAddress e + 5 /\ live e' /\
  (forall l2 s2, l2 <> l -> pending e l2 s2 -> pending e' l2 s2) /\ (forall a, a < CodeAddress e -> byte e' a = byte e a) /\ bytes_ok e'.
Proof.
  intros HC BO L A P H. apply jcc_fwd_emits in H; auto. cbv zeta in H. destruct H as [-> LP].
  set (w := aget (LRef e) l) in *. set (bs := [112 + Z.lxor c 1; 3; 0; w; Z.shiftr w 8]) in *.
  split; [|split; [|split; [|split; [|split]]]].
  - pose proof (site_pushed e l sites bs (SCond c (CodeAddress e + 3)) BO L LP P) as Q. cbv zeta in Q. apply Q; cbn [ref start site_ok].
    + cbn [length bs]. lia.
    + lia.
    + split; [exact HC|].
      replace (CodeAddress e + 3 - 3) with (CodeAddress e + Z.of_nat 0) by lia. replace (CodeAddress e + 3 - 2) with (CodeAddress e + Z.of_nat 1) by lia.
      replace (CodeAddress e + 3 - 1) with (CodeAddress e + Z.of_nat 2) by lia.
      rewrite !put_byte_at by (cbn [length bs]; lia). cbn [nth bs]. split; [apply u8_small; pose proof (cc16 c HC) as (_ & ? & _); lia|split; reflexivity].
    + change (CodeAddress e + 3) with (CodeAddress e + Z.of_nat 3). rewrite put_byte_at by (cbn [length bs]; lia). reflexivity.
    + replace (CodeAddress e + 3 + 1) with (CodeAddress e + Z.of_nat 4) by lia. rewrite put_byte_at by (cbn [length bs]; lia). reflexivity.
  - change (CodeAddress (put bs e) = CodeAddress e + 5). rewrite put_addr. reflexivity.
  - exact LP.
  - intros l2 s2 N P2. apply (pending_other e l l2 s2 bs _ N P2).
  - intros a HA. apply (put_byte bs e a HA).
  - apply (bytes_put bs e BO).
Qed.

(** placing a label (scc.c:1138-1146) *)
Theorem label_resolves l e e' x sites : bytes_ok e -> room e 0 -> Pending e = 0 -> pending e l sites ->
  EmitLocalLabel W l e = Ok (x, e') ->
  aget (LAddr e') l = CodeAddress e' /\ IsDeadCode e' = false /\ pending e' l [] /\
  exists gone kept, sites = gone ++ kept /\
    removed (CodeAddress e) gone (CodeAddress e') /\
    (forall s, In s gone -> ref s + 2 <> LastFixup e) /\
    (forall s, In s kept -> ref s + 2 <= CodeAddress e' /\ (guard e' (CodeAddress e') s -> behaves e' (CodeAddress e') s)) /\
    (forall a, (forall s, In s kept -> ~ in_site a s) -> byte e' a = byte e a) /\
    LastFixup e' = CodeAddress e'.
Proof.
  intros BO RM PD P H. unfold EmitLocalLabel in H. mgoin H. minv H y e1 E. unfold failif in E. destruct (_ || _); [discriminate|]. oki E.
  minv H y2 e1 E. unfold FlushSpAdj, FlushSpAdj_ in E. mgoin E. rewrite PD in E. change (hasb 0 (-2)) with false in E. cbn [when] in E. oki E.
  mgoin H. minv H y3 e1 E. set (e0 := set_IsDeadCode false _) in *.
  assert (DE : IsDeadCode e1 = false).
  { unfold DoFixups in E. minv E y4 e2 E1. oki E. change (IsDeadCode e2 = false). eapply (loop_dead false); [|exact E1]. reflexivity. }
  apply (fixups_resolve e0 _ sites) in E; auto.
  - mgoin H. oki H. destruct E as (gone & kept & -> & E1 & E2 & E3 & E4 & E5).
    cbn [LAddr LRef CodeAddress IsDeadCode set_LAddr set_LRef LastFixup] in *. rewrite aget_aset_same. split; [reflexivity|]. 
    split; [|split].
    + exact DE.
    + unfold pending. cbn [LRef set_LRef]. rewrite aget_aset_same. constructor.
    + exists gone, kept. split; [reflexivity|]. split; [exact E1|]. split; [exact E2|]. split; [exact E3|]. split; [exact E4|]. exact E5.
  - unfold room in RM. change (CodeAddress e0) with (CodeAddress e). lia.
  - apply (chain_frame e); [exact P|intros; reflexivity].
Qed.
End W.
