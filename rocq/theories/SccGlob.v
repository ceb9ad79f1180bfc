(** References to globals and functions: whatever the order of references, definitions, local labels
    and jumps, each reference ends up holding the address of what it refers to. *)
From Verif Require Import Base Bits Spec8086 SccRun SccState SccEmit SccInput SccPut SccArith SccOps SccJump SccMem SccFix.

(** ** Code that only appends *)
(** the tables of globals and labels *)
Definition tabs (e : emst) := (VOff e, VRef e, (LRef e, LAddr e, LocalLabelCounter e)).
Lemma tabs_inv a b : tabs a = tabs b ->
  VOff a = VOff b /\ VRef a = VRef b /\ LRef a = LRef b /\ LAddr a = LAddr b /\ LocalLabelCounter a = LocalLabelCounter b.
Proof. unfold tabs. intro H. injection H as A B C D E. auto. Qed.
(** e' has everything e has, and possibly more bytes *)
Definition appended (e e' : emst) : Prop :=
  CodeAddress e <= CodeAddress e' /\ (forall a, a < CodeAddress e -> byte e' a = byte e a) /\ tabs e' = tabs e /\ (bytes_ok e -> bytes_ok e').
Lemma appended_refl e : appended e e.
Proof. repeat split; auto; try lia; apply H. Qed.
Lemma appended_trans a b c : appended a b -> appended b c -> appended a c.
Proof.
  intros (A1 & A2 & A3 & A4) (B1 & B2 & B3 & B4). split; [lia|]. split; [intros x X; rewrite B2 by lia; apply A2; exact X|].
  split; [congruence|auto].
Qed.
Lemma appended_put bs e : appended e (put bs e).
Proof.
  split; [rewrite put_addr; lia|]. split; [intros a A; apply put_byte; exact A|]. split; [|apply bytes_put].
  revert e. induction bs as [|b r IH]; intro e; cbn [put]; [reflexivity|]. rewrite IH. reflexivity.
Qed.

Definition apps {A} (m : M emst A) : Prop := forall e x e', m e = Ok (x, e') -> appended e e' /\ IsDeadCode e' = IsDeadCode e.
Lemma apps_bind {A B} (m : M emst A) (f : A -> M emst B) : apps m -> (forall x, apps (f x)) -> apps (bind m f).
Proof.
  intros H1 H2 e x e' H. minv H y e1 E. apply H1 in E. apply H2 in H. destruct E as [E1 E2], H as [F1 F2]. split; [eapply appended_trans; eauto|congruence].
Qed.
Lemma apps_ret {A} (a : A) : apps (ret a).
Proof. intros e x e' H. oki H. split; [apply appended_refl|reflexivity]. Qed.
Lemma apps_gets {A} (f : emst -> A) : apps (gets f).
Proof. intros e x e' H. unfold gets in H. oki H. split; [apply appended_refl|reflexivity]. Qed.
Lemma apps_failif b : apps (failif b).
Proof. intros e x e' H. unfold failif in H. destruct b; [discriminate|]. oki H. split; [apply appended_refl|reflexivity]. Qed.
Lemma apps_fatal {A} : apps (@fatal emst A).
Proof. intros e x e' H. discriminate. Qed.
Lemma apps_putb b : apps (putb b).
Proof. intros e x e' H. apply putb_inv in H. destruct H as [-> _]. split; [apply (appended_put [b])|reflexivity]. Qed.
Lemma apps_upd f : (forall e, CodeAddress (f e) = CodeAddress e /\ Output (f e) = Output e /\ tabs (f e) = tabs e /\ IsDeadCode (f e) = IsDeadCode e) -> apps (upd f).
Proof.
  intros F e x e' H. oki H. destruct (F e) as (F1 & F2 & F3 & F4). split; [|exact F4]. split; [lia|]. split; [intros; unfold byte; rewrite F2; reflexivity|].
  split; [exact F3|]. intros B a. unfold byte. rewrite F2. apply B.
Qed.
Ltac apps_tac := repeat first
  [ assumption | apply apps_putb | apply apps_bind; [|intro] | apply apps_ret | apply apps_gets | apply apps_failif | apply apps_fatal
  | apply apps_upd; intro; repeat split; reflexivity
  | match goal with |- apps (if ?b then _ else _) => destruct b end | match goal with |- apps (when ?b _) => unfold when; destruct b end ].

Section Chk.
Variable W : Z.
Variable chk : M emst bool.
Hypothesis HC : apps chk.
Lemma apps_guarded m : apps m -> apps (guarded chk m).
Proof. intro H. unfold guarded. apps_tac. Qed.
Lemma apps_o1 b : apps (Output1Byte_ chk b).
Proof. apply apps_guarded. apps_tac. Qed.
Lemma apps_o2 b c : apps (Output2Bytes_ chk b c).
Proof. apply apps_guarded. apps_tac. Qed.
Lemma apps_o3 b c d : apps (Output3Bytes_ chk b c d).
Proof. apply apps_guarded. apps_tac. Qed.
Lemma apps_ow w : apps (OutputWord_ chk w).
Proof. apply apps_guarded. apps_tac. Qed.
Lemma apps_add r n : apps (EmitAddRegConst_ W chk r n).
Proof. unfold EmitAddRegConst_. cbv zeta. unfold when. repeat first [apply apps_o1|apply apps_o2|apply apps_o3|apply apps_ow|apply apps_bind; [|intro]|apply apps_ret|match goal with |- apps (if ?b then _ else _) => destruct b end]. Qed.
Lemma apps_sp : apps (FlushSpAdj_ W chk).
Proof. unfold FlushSpAdj_. unfold when. repeat first [apply apps_add|apply apps_bind; [|intro]|progress apps_tac]. Qed.
Lemma apps_push : apps (FlushPushAx_ chk).
Proof. unfold FlushPushAx_, when. repeat first [apply apps_o1|apply apps_bind; [|intro]|progress apps_tac]. Qed.
End Chk.
Lemma apps_checks W n : apps (EmitChecks_n W n).
Proof.
  induction n as [|n IH]; cbn [EmitChecks_n]; [intros e x e' H; discriminate|].
  unfold when. repeat first [apply apps_sp; exact IH|apply apps_push; exact IH|apply apps_bind; [|intro]|apply apps_ret|apply apps_gets|apply apps_failif|match goal with |- apps (if ?b then _ else _) => destruct b end].
Qed.

(** after EmitChecks nothing is postponed *)
Lemma clr_land p : clr p 1 = Z.land p (-2).
Proof. reflexivity. Qed.
Definition idle {A} (m : M emst A) : Prop := forall e x e', IsDeadCode e = false -> Pending e = 0 -> m e = Ok (x, e') -> IsDeadCode e' = false /\ Pending e' = 0.
Lemma idle_bind {A B} (m : M emst A) (f : A -> M emst B) : idle m -> (forall x, idle (f x)) -> idle (bind m f).
Proof. intros H1 H2 e x e' D P H. minv H y e1 E. apply H1 in E; auto. apply H2 in H; tauto. Qed.
Lemma idle_putb b : idle (putb b).
Proof. intros e x e' D P H. apply putb_inv in H. destruct H as [-> _]. auto. Qed.
Lemma idle_guarded chk m : idle m -> idle (guarded chk m).
Proof. intros H e x e' D P R. unfold guarded in R. mgoin R. rewrite D, P in R. apply (H _ _ _ D P R). Qed.
Lemma idle_ret {A} (a : A) : idle (ret a).
Proof. intros e x e' D P H. oki H. auto. Qed.
Lemma idle_o1 chk b : idle (Output1Byte_ chk b).
Proof. apply idle_guarded, idle_putb. Qed.
Lemma idle_add W chk r n : idle (EmitAddRegConst_ W chk r n).
Proof.
  unfold EmitAddRegConst_. cbv zeta.
  repeat first [apply idle_putb|apply idle_guarded|apply idle_bind; [|intro]|apply idle_ret
    |match goal with |- idle (if ?b then _ else _) => destruct b end|match goal with |- idle (when ?b _) => unfold when; destruct b end].
Qed.
Lemma checks_any W e r e1 : EmitChecks W e = Ok (r, e1) ->
  (IsDeadCode e = true /\ r = true /\ e1 = e) \/
  (IsDeadCode e = false /\ r = false /\ appended e e1 /\ IsDeadCode e1 = false /\ Pending e1 = 0 /\ CodeAddress e1 <= CODESTART + OUTPUT_MAX).
Proof.
  intro H. pose proof (apps_checks W 2 e r e1 H) as [AP DE]. unfold EmitChecks in H. set (n := 1%nat) in H. change 2%nat with (S n) in H. cbn [EmitChecks_n] in H. mgoin H.
  destruct (IsDeadCode e) eqn:D.
  - left. oki H. auto.
  - right. mgoin H. minv H y e2 E. mgoin H. minv H z e3 F. unfold failif in F. destruct (Z.ltb_spec (OUTPUT_MAX + CODESTART) (CodeAddress e2)); [discriminate|]. oki F. oki H.
    split; [reflexivity|]. split; [reflexivity|]. split; [exact AP|]. split; [exact DE|]. split; [|lia]. clear AP DE H0.
    unfold when in E. destruct (Z.eqb_spec (Pending e) 0) as [P|P]; cbn [negb] in E; [oki E; exact P|].
    minv E u e3 E1.
    assert (Q : IsDeadCode e3 = false /\ Z.land (Pending e3) (-2) = 0).
    { unfold FlushSpAdj_ in E1. mgoin E1. unfold when in E1. destruct (hasb (Pending e) (-2)) eqn:HB.
      - mgoin E1. minv E1 v e4 E2. apply idle_add in E2; [|exact D|reflexivity]. oki E1. split; [apply E2|]. cbn [Pending set_Pending].
        rewrite <- Z.land_assoc. change (Z.land 1 (-2)) with 0. apply Z.land_0_r.
      - oki E1. split; [exact D|]. unfold hasb in HB. destruct (Z.eqb_spec (Z.land (Pending e) (-2)) 0); [assumption|discriminate]. }
    destruct Q as [D3 Q]. unfold FlushPushAx_ in E. mgoin E. unfold when at 1 in E. destruct (hasb (Pending e3) 1) eqn:HB.
    + mgoin E. rewrite clr_land, Q in E. set (e4 := set_Pending 0 e3) in *. assert (G : IsDeadCode e4 = false /\ Pending e4 = 0) by (split; [exact D3|reflexivity]). clearbody e4.
      minv E y1 e5 E2. assert (G5 : IsDeadCode e5 = false /\ Pending e5 = 0).
      { unfold when in E2. destruct (RegUse e4); [|oki E2; exact G]. minv E2 y2 e6 E3. apply idle_o1 in E3; try apply G. oki E2. exact E3. }
      minv E y3 e6 E3. apply idle_o1 in E3; try apply G5. oki E. apply E3.
    + oki E. unfold hasb in HB. destruct (Z.eqb_spec (Z.land (Pending e3) 1) 0) as [B|B]; [|discriminate].
      assert (S : Pending e3 = Z.lor (Z.land (Pending e3) 1) (Z.land (Pending e3) (-2))).
      { rewrite <- Z.land_lor_distr_r. change (Z.lor 1 (-2)) with (-1). rewrite Z.land_m1_r. reflexivity. }
      rewrite B, Q in S. exact S.
Qed.

(** ** References *)
(** how a reference refers: the address itself, the operand of a CALL, the operand of a JMP *)
Inductive how := Abs | Call | Jump.
Definition rel (k : how) : bool := match k with Abs => false | _ => true end.
Definition word (e : emst) (a : Z) : Z := byte e a + 256 * byte e (a + 1).
(** the two-byte operand at a refers to address T *)
Definition holds (e : emst) (T a : Z) (k : how) : Prop :=
  match k with
  | Abs => word e a = T mod 65536
  | Call => byte e (a - 1) = 232 /\ word e a = (T - (a + 2)) mod 65536
  | Jump => jump_at e (a - 1) T
  end.
(** the opcode before an operand that is not resolved yet *)
Definition pre (e : emst) (a : Z) (k : how) : Prop :=
  match k with
  | Abs => byte e (a - 1) <> 0 /\ byte e (a - 1) <> 233
  | Call => byte e (a - 1) = 232
  | Jump => byte e (a - 1) = 233
  end.

(** what occupies the code: references to globals, and unresolved jumps to local labels *)
Inductive cell := CRef (a v : Z) (k : how) | CLab (l : Z) (s : site).
Definition c_lo (c : cell) : Z := match c with CRef a _ _ => a - 1 | CLab _ s => start s end.
Definition c_hi (c : cell) : Z := match c with CRef a _ _ => a + 2 | CLab _ s => ref s + 2 end.
Fixpoint sorted (top : Z) (cells : list cell) : Prop :=
  match cells with [] => True | c :: r => c_hi c <= top /\ CODESTART <= c_lo c /\ sorted (c_lo c) r end.
Definition lsites (l : Z) (cells : list cell) : list site :=
  flat_map (fun c => match c with CLab l' s => if l' =? l then [s] else [] | _ => [] end) cells.
Definition vrefs (v : Z) (cells : list cell) : list Z :=
  flat_map (fun c => match c with CRef a v' _ => if v' =? v then [a] else [] | _ => [] end) cells.
Definition crefs (cells : list cell) : list (Z * Z * how) :=
  flat_map (fun c => match c with CRef a v k => [(a, v, k)] | _ => [] end) cells.
(** operands each holding the address of the next *)
Inductive linked (e : emst) : Z -> list Z -> Prop :=
| lk_nil : linked e 0 []
| lk_cons a rest : a <> 0 -> linked e (word e a) rest -> linked e a (a :: rest).

Lemma c_lohi c : c_lo c + 3 <= c_hi c.
Proof. destruct c as [a v k|l [r|c r]]; cbn; lia. Qed.
Lemma sorted_top top top' cells : sorted top cells -> top <= top' -> sorted top' cells.
Proof. destruct cells as [|c r]; cbn [sorted]; [auto|]. intros (A & B & C) L. repeat split; auto; lia. Qed.
Lemma sorted_in cells : forall top c, sorted top cells -> In c cells -> c_hi c <= top /\ CODESTART <= c_lo c.
Proof.
  induction cells as [|d r IH]; intros top c S I; [contradiction|]. destruct S as (A & B & C). pose proof (c_lohi d). destruct I as [->|I]; [auto|].
  apply (IH _ _ C) in I. lia.
Qed.
Lemma sorted_uniq cells : forall top c d a, sorted top cells -> In c cells -> In d cells -> c_lo c <= a < c_hi c -> c_lo d <= a < c_hi d -> c = d.
Proof.
  induction cells as [|x r IH]; intros top c d a S IC ID AC AD; [contradiction|]. destruct S as (A & B & C).
  destruct IC as [->|IC], ID as [->|ID]; auto.
  - apply (sorted_in _ _ _ C) in ID. lia.
  - apply (sorted_in _ _ _ C) in IC. lia.
  - eapply IH; eauto.
Qed.
Lemma sorted_filter f cells : forall top, sorted top cells -> sorted top (filter f cells).
Proof.
  induction cells as [|c r IH]; intros top S; [exact I|]. destruct S as (A & B & C). cbn [filter]. destruct (f c); cbn [sorted]; [auto|].
  pose proof (c_lohi c). apply (sorted_top (c_lo c)); [auto|lia].
Qed.

(** e1 has the bytes of e in every cell *)
Definition agrees (e e1 : emst) (cells : list cell) : Prop := forall c a, In c cells -> c_lo c <= a < c_hi c -> byte e1 a = byte e a.
Lemma in_vrefs v a cells : In a (vrefs v cells) <-> exists k, In (CRef a v k) cells.
Proof.
  unfold vrefs. rewrite in_flat_map. split.
  - intros ([a' v' k|l s] & I & J); [|contradiction]. destruct (Z.eqb_spec v' v); [|contradiction]. destruct J as [->|[]]. subst. eauto.
  - intros (k & I). exists (CRef a v k). rewrite Z.eqb_refl. cbn. auto.
Qed.
Lemma in_lsites l s cells : In s (lsites l cells) <-> In (CLab l s) cells.
Proof.
  unfold lsites. rewrite in_flat_map. split.
  - intros ([a' v' k|l' s'] & I & J); [contradiction|]. destruct (Z.eqb_spec l' l); [|contradiction]. destruct J as [->|[]]. subst. auto.
  - intro I. exists (CLab l s). rewrite Z.eqb_refl. cbn. auto.
Qed.
Lemma in_crefs a v k cells : In (a, v, k) (crefs cells) <-> In (CRef a v k) cells.
Proof.
  unfold crefs. rewrite in_flat_map. split.
  - intros ([a' v' k'|l s] & I & J); [|contradiction]. destruct J as [E|[]]. injection E as -> -> ->. exact I.
  - intro I. exists (CRef a v k). cbn. auto.
Qed.
Lemma linked_eq e e1 : forall h l, linked e h l -> (forall a, In a l -> byte e1 a = byte e a /\ byte e1 (a + 1) = byte e (a + 1)) -> linked e1 h l.
Proof.
  intros h l H. induction H as [|a rest N H IH]; intro F; [constructor|]. constructor; [exact N|].
  unfold word. destruct (F a (or_introl eq_refl)) as [-> ->]. apply IH. intros; apply F; right; assumption.
Qed.
Lemma site_ok_eq e e1 s : site_ok e s -> (forall a, start s <= a < ref s + 2 -> byte e1 a = byte e a) -> site_ok e1 s.
Proof. destruct s as [r|c r]; cbn [site_ok start ref]; intros H F; rewrite !F by lia; exact H. Qed.
Lemma holds_eq e e1 T a k : holds e T a k -> (forall x, a - 1 <= x < a + 2 -> byte e1 x = byte e x) -> holds e1 T a k.
Proof. destruct k; cbn [holds]; unfold word, jump_at; intros H F; rewrite !F by lia; exact H. Qed.
Lemma pre_eq e e1 a k : pre e a k -> (forall x, a - 1 <= x < a + 2 -> byte e1 x = byte e x) -> pre e1 a k.
Proof. destruct k; cbn [pre]; intros H F; rewrite !F by lia; exact H. Qed.
Lemma linked_head e h l : linked e h l -> (forall a, In a l -> 0 <= a < 65536) -> h mod 65536 = h.
Proof. intros H F. apply Z.mod_small. destruct H; [lia|apply F; left; reflexivity]. Qed.
Lemma byte_word bs e k w : nth_error bs k = Some w -> byte (put bs e) (CodeAddress e + Z.of_nat k) = u8 w.
Proof.
  intro H. assert (L : (k < length bs)%nat) by (apply nth_error_Some; congruence). rewrite put_byte_at by exact L. f_equal. erewrite nth_error_nth by exact H. reflexivity.
Qed.
Definition opcode_for (k : how) (op : Z) : Prop :=
  match k with Abs => 0 < op < 256 /\ op <> 233 | Call => op = 232 | Jump => op = 233 end.
Lemma pre_at k op e bs : opcode_for k op -> nth_error bs 0 = Some op -> pre (put bs e) (CodeAddress e + 1) k.
Proof.
  intros O N. pose proof (byte_word bs e 0 op N) as B. cbn [Z.of_nat] in B. rewrite Z.add_0_r in B. replace (CodeAddress e) with (CodeAddress e + 1 - 1) in B by lia.
  destruct k; cbn [opcode_for pre] in *; rewrite B; [rewrite u8_small by lia; lia|subst; reflexivity|subst; reflexivity].
Qed.
Lemma word_put e op w : word (put [op; w; Z.shiftr w 8] e) (CodeAddress e + 1) = w mod 65536.
Proof.
  unfold word. pose proof (byte_word [op; w; Z.shiftr w 8] e 1 w eq_refl) as B1. pose proof (byte_word [op; w; Z.shiftr w 8] e 2 (Z.shiftr w 8) eq_refl) as B2.
  cbn [Z.of_nat Pos.of_succ_nat Pos.succ] in *. replace (CodeAddress e + 1 + 1) with (CodeAddress e + 2) by lia. rewrite B1, B2. apply word_bytes.
Qed.

Definition other (l : Z) (c : cell) : bool := match c with CLab l' _ => negb (l' =? l) | _ => true end.
Lemma removed_cells l : forall A gone B, removed A gone B -> forall cells kept, CODESTART <= A -> sorted A cells -> lsites l cells = gone ++ kept ->
  sorted B (filter (other l) cells) /\ CODESTART <= B.
Proof.
  intros A gone B R. induction R as [A|A r rest B E R IH]; intros cells kept LO S LS; [split; [apply sorted_filter; exact S|exact LO]|].
  destruct cells as [|c cs]; [discriminate|]. destruct S as (S1 & S2 & S3). pose proof (c_lohi c) as LH.
  assert (IN : In (CLab l (SJmp r)) (c :: cs)) by (apply in_lsites; rewrite LS; left; reflexivity).
  destruct IN as [->|IN].
  - cbn [c_lo start c_hi ref lsites flat_map] in *. fold (lsites l cs) in LS. rewrite Z.eqb_refl in LS. cbn [app] in LS. injection LS as LS.
    cbn [filter other]. rewrite Z.eqb_refl. cbn [negb]. replace (r - 1) with (A - 3) in * by lia. apply (IH cs kept); auto.
  - apply (sorted_in _ _ _ S3) in IN. cbn [c_hi ref] in IN. lia.
Qed.

Lemma fixup1_tabs T r rl : keeps (fun e => tabs e = T) (DoFixup1 r rl).
Proof.
  assert (KP : forall a v, keeps (fun e => tabs e = T) (poke a v)) by (intros a v s x s' Ps H; apply poke_setb in H; subst s'; exact Ps).
  assert (KA : forall v, keeps (fun e => tabs e = T) (upd (set_CodeAddress v))) by (intros v s x s' Ps H; oki H; exact Ps).
  unfold DoFixup1. cbv zeta.
  repeat first [apply keeps_bind; [|intro] | apply keeps_ret | apply keeps_peek | apply keeps_gets | apply keeps_failif | apply KP
   | apply KA | match goal with |- keeps _ (if ?b then _ else _) => destruct b end].
Qed.
Lemma loop_tabs T n : forall r rl, keeps (fun e => tabs e = T) (fixup_loop n r rl).
Proof.
  induction n as [|n IH]; intros r rl; cbn [fixup_loop]; [intros s x s' _ H; discriminate|].
  destruct (r =? 0); [apply keeps_ret|]. apply keeps_bind; [apply fixup1_tabs|]. intro. apply IH.
Qed.
Lemma vrefs_other l v cells : vrefs v (filter (other l) cells) = vrefs v cells.
Proof.
  unfold vrefs. induction cells as [|[a v' k|l' s] r IH]; cbn [filter other flat_map app]; [reflexivity| |].
  - rewrite IH. reflexivity.
  - destruct (l' =? l); cbn [negb flat_map app]; exact IH.
Qed.
Lemma crefs_other l cells : crefs (filter (other l) cells) = crefs cells.
Proof.
  unfold crefs. induction cells as [|[a v' k|l' s] r IH]; cbn [filter other flat_map app]; [reflexivity| |].
  - rewrite IH. reflexivity.
  - destruct (l' =? l); cbn [negb flat_map app]; exact IH.
Qed.
Lemma lsites_other l l2 cells : l2 <> l -> lsites l2 (filter (other l) cells) = lsites l2 cells.
Proof.
  intro N. unfold lsites. induction cells as [|[a v' k|l' s] r IH]; cbn [filter other flat_map app]; [reflexivity|exact IH|].
  destruct (Z.eqb_spec l' l) as [->|N']; cbn [negb flat_map].
  - destruct (Z.eqb_spec l l2); [congruence|]. exact IH.
  - rewrite IH. reflexivity.
Qed.
(** what DoFixups makes of an operand at a whose opcode is op *)
Definition fixed_ref (e : emst) (T a : Z) (rl : bool) (op : Z) : Prop :=
  if op =? 233 then jump_at e (a - 1) T
  else byte e (a - 1) = op /\ word e a = (if rl then T - (a + 2) else T) mod 65536.
Lemma gfix1 a rl e x e' : bytes_ok e -> CodeAddress e <> 0 -> byte e (a - 1) <> 0 -> (rl = false -> byte e (a - 1) <> 233) ->
  (rl = true -> CodeAddress e <> a + 2) -> DoFixup1 a rl e = Ok (x, e') ->
  x = word e a /\ patched (a - 1) (a + 2) e e' /\ fixed_ref e' (CodeAddress e) a rl (byte e (a - 1)).
Proof.
  intros BO NZ O0 O1 NE H. unfold DoFixup1 in H. mgoin H. set (T := CodeAddress e) in *.
  minv H b0 e1 E. apply peek_byte in E. destruct E as [-> ->]. minv H b1 e1 E. apply peek_byte in E. destruct E as [-> ->].
  rewrite lor_word in H by apply BO. change (byte e a + 256 * byte e (a + 1)) with (word e a) in H. set (nx := word e a) in *. clearbody nx.
  minv H op e1 E. apply peek_byte in E. destruct E as [-> ->]. rewrite (proj2 (Z.eqb_neq _ _) O0) in H. mgoin H.
  assert (G : (T =? (if rl then a + 2 else 0)) = false) by (apply Z.eqb_neq; destruct rl; auto). rewrite G in H. cbn [andb] in H. clear G.
  unfold fixed_ref. destruct (Z.eqb_spec (byte e (a - 1)) 233) as [B|B].
  - assert (RL : rl = true) by (destruct rl; [reflexivity|exfalso; apply O1; auto]). subst rl.
    apply (finish_inv a (T - (a + 2)) T) in H; [|lia|exact B]. exact H.
  - minv H op e1 E. apply peek_byte in E. destruct E as [-> ->]. change I_JMP_REL16 with 233 in H. rewrite (proj2 (Z.eqb_neq _ _) B) in H.
    set (f := if rl then T - (a + 2) else T) in *. assert (FE : (if rl then T - (if rl then a + 2 else 0) else T) = f) by (unfold f; destruct rl; reflexivity). rewrite FE in H. clear FE. minv H z e1 E. minv E z1 e2 E1. apply poke_setb in E1, E. subst e2 e1. oki H. split; [reflexivity|].
    split; [split; [|split; reflexivity]; intros b A; bts; reflexivity|]. split; [bts; reflexivity|]. unfold word. rewrite <- (word_bytes f). f_equal; [|f_equal]; bts; reflexivity.
Qed.
Fixpoint desc (top : Z) (l : list Z) : Prop := match l with [] => True | a :: r => a + 2 <= top /\ desc (a - 1) r end.
Lemma desc_in l : forall top a, desc top l -> In a l -> a + 2 <= top.
Proof. induction l as [|b r IH]; intros top a D H; [contradiction|]. destruct D as [D1 D2]. destruct H as [->|H]; [exact D1|]. apply (IH _ _ D2) in H. lia. Qed.
Lemma gloop n rl : forall e h l top x e', bytes_ok e -> CodeAddress e <> 0 -> linked e h l -> desc top l ->
  (forall a, In a l -> byte e (a - 1) <> 0 /\ (rl = false -> byte e (a - 1) <> 233) /\ (rl = true -> CodeAddress e <> a + 2)) ->
  fixup_loop n h rl e = Ok (x, e') ->
  CodeAddress e' = CodeAddress e /\ bytes_ok e' /\ (forall b, (forall a, In a l -> ~ (a - 1 <= b < a + 2)) -> byte e' b = byte e b) /\
  (forall a, In a l -> fixed_ref e' (CodeAddress e) a rl (byte e (a - 1))).
Proof.
  induction n as [|n IH]; intros e h l top x e' BO NZ LK D OK H; cbn [fixup_loop] in H; [discriminate|].
  inversion LK as [E1 E2|a rest N LK' E1 E2]; subst.
  - change (0 =? 0) with true in H. cbv iota in H. oki H. cbn [In]. tauto.
  - rewrite (proj2 (Z.eqb_neq h 0)) in H by exact N. minv H r' e1 E. pose proof (keeps_fixup1 _ _ _ _ _ BO E) as BO1.
    destruct (OK h (or_introl eq_refl)) as (O0 & O1 & O2). apply gfix1 in E; auto. destruct E as (-> & (P1 & P2 & P3) & FX). destruct D as [D1 D2].
    assert (DI : forall a, In a rest -> a + 2 <= h - 1) by (intros; eapply desc_in; eauto).
    apply IH with (l := rest) (top := h - 1) in H; auto.
    + destruct H as (C & B & O & F). rewrite P2 in *. split; [exact C|]. split; [exact B|]. split.
      * intros b HB. rewrite O by (intros; apply HB; right; assumption). apply P1. specialize (HB h (or_introl eq_refl)). lia.
      * intros a [<-|IA].
        -- assert (S : forall b, h - 1 <= b -> byte e' b = byte e1 b) by (intros b LB; apply O; intros a IA; specialize (DI a IA); lia).
           unfold fixed_ref, jump_at, word in *. destruct (_ =? 233); rewrite !S by lia; exact FX.
        -- specialize (F a IA). specialize (DI a IA). rewrite P1 in F by lia. exact F.
    + rewrite P2. exact NZ.
    + eapply linked_eq; [exact LK'|]. intros a IA. specialize (DI a IA). rewrite !P1 by lia. auto.
    + intros a IA. specialize (DI a IA). rewrite P1, P2 by lia. apply OK. right. exact IA.
Qed.
Lemma desc_vrefs v cells : forall top, sorted top cells -> desc top (vrefs v cells).
Proof.
  assert (DT : forall l t t', desc t l -> t <= t' -> desc t' l) by (intros [|a l] t t' D L; [exact I|]; destruct D; split; [lia|assumption]).
  induction cells as [|c r IH]; intros top S; [exact I|]. destruct S as (S1 & S2 & S3). pose proof (c_lohi c). destruct c as [a v' k|l s]; cbn [vrefs flat_map]; fold (vrefs v r).
  - destruct (v' =? v); cbn [app desc]; [split; [exact S1|apply IH; exact S3]|]. apply (DT _ (a - 1)); [apply IH; exact S3|cbn [c_hi c_lo] in *; lia].
  - cbn [app]. apply (DT _ (start s)); [apply IH; exact S3|cbn [c_hi c_lo] in *; lia].
Qed.
(** a reference of kind k after DoFixups *)
Lemma fixed_holds e0 e T a k : pre e0 a k -> fixed_ref e T a (rel k) (byte e0 (a - 1)) -> holds e T a k.
Proof.
  unfold fixed_ref. destruct k; cbn [pre rel holds]; intros P F.
  - destruct P as [_ P]. rewrite (proj2 (Z.eqb_neq _ _) P) in F. apply F.
  - rewrite P in F. exact F.
  - rewrite P in F. exact F.
Qed.

Section Isf.
Variable isf : Z -> bool.

Definition cell_inv (e : emst) (c : cell) : Prop :=
  c_hi c <= 24832 /\
  match c with
  | CRef a v k => if aget (VOff e) v =? 0 then rel k = isf v /\ pre e a k else holds e (aget (VOff e) v) a k
  | CLab l s => site_ok e s /\ 0 <= l < LocalLabelCounter e /\ aget (LAddr e) l = 0
  end.
Record Inv (e : emst) (cells : list cell) : Prop := mkInv {
  i_bytes : bytes_ok e;
  i_lo : CODESTART <= CodeAddress e;
  i_sorted : sorted (CodeAddress e) cells;
  i_llc : 0 <= LocalLabelCounter e;
  i_cell : forall c, In c cells -> cell_inv e c;
  i_var : forall v, aget (VOff e) v = 0 -> linked e (aget (VRef e) v) (vrefs v cells);
  i_lab : forall l, 0 <= l < LocalLabelCounter e -> aget (LAddr e) l = 0 -> linked e (aget (LRef e) l) (map ref (lsites l cells)) }.

Lemma cell_inv_eq e e1 c : cell_inv e c -> VOff e1 = VOff e -> LAddr e1 = LAddr e -> LocalLabelCounter e1 = LocalLabelCounter e ->
  (forall a, c_lo c <= a < c_hi c -> byte e1 a = byte e a) -> cell_inv e1 c.
Proof.
  intros [H1 H2] V L N F. split; [exact H1|]. rewrite V, L, N. destruct c as [a v k|l s]; cbn [c_lo c_hi] in F.
  - destruct (_ =? 0); [destruct H2; split; [assumption|eapply pre_eq; eauto]|eapply holds_eq; eauto].
  - destruct H2 as (A & B & C). split; [eapply site_ok_eq; eauto|auto].
Qed.
Lemma linked_vars e e1 cells v h : agrees e e1 cells -> linked e h (vrefs v cells) -> linked e1 h (vrefs v cells).
Proof.
  intros A H. eapply linked_eq; [exact H|]. intros a I. apply in_vrefs in I. destruct I as (k & I).
  split; apply (A _ _ I); cbn; lia.
Qed.
Lemma linked_labs e e1 cells l h : agrees e e1 cells -> linked e h (map ref (lsites l cells)) -> linked e1 h (map ref (lsites l cells)).
Proof.
  intros A H. eapply linked_eq; [exact H|]. intros a I. apply in_map_iff in I. destruct I as (s & <- & I). apply in_lsites in I.
  assert (start s < ref s) by (destruct s; cbn; lia). split; apply (A _ _ I); cbn; lia.
Qed.
Lemma inv_frame e e1 cells : Inv e cells -> tabs e1 = tabs e -> bytes_ok e1 -> CODESTART <= CodeAddress e1 -> sorted (CodeAddress e1) cells ->
  agrees e e1 cells -> Inv e1 cells.
Proof.
  intros I T B LO S A. apply tabs_inv in T. destruct T as (T1 & T2 & T3 & T4 & T5). constructor; auto.
  - rewrite T5. apply I.
  - intros c IC. eapply cell_inv_eq; eauto. apply I, IC.
  - intros v E. rewrite T1, T2 in *. eapply linked_vars; eauto. apply I, E.
  - intros l L E. rewrite T3, T4, T5 in *. eapply linked_labs; eauto. apply I; assumption.
Qed.
Lemma inv_appended e e1 cells : Inv e cells -> appended e e1 -> Inv e1 cells.
Proof.
  intros I (A1 & A2 & A3 & A4). eapply inv_frame; eauto.
  - apply A4, I.
  - pose proof (i_lo _ _ I). lia.
  - eapply sorted_top; [apply I|exact A1].
  - intros c a IC L. apply A2. apply (sorted_in _ _ _ (i_sorted _ _ I)) in IC. lia.
Qed.

(** ** Emitting a reference *)
Lemma agrees_put bs e cells : Inv e cells -> agrees e (put bs e) cells.
Proof. intros I c a IC A. apply put_byte. apply (sorted_in _ _ _ (i_sorted _ _ I)) in IC. lia. Qed.

(** a reference to something already placed *)
Lemma inv_known e cells op v k : Inv e cells -> CodeAddress e + 3 <= 24832 -> opcode_for k op -> aget (VOff e) v <> 0 ->
  let w := match k with Abs => aget (VOff e) v | _ => aget (VOff e) v - (CodeAddress e + 1) - 2 end in
  Inv (put [op; w; Z.shiftr w 8] e) (CRef (CodeAddress e + 1) v k :: cells).
Proof.
  intros I RM O NZ w. set (bs := [op; w; Z.shiftr w 8]). set (e1 := put bs e).
  pose proof (agrees_put bs e cells I) as AG. pose proof (appended_put bs e) as (A1 & A2 & A3 & A4). fold e1 in AG, A1, A2, A3, A4.
  pose proof (inv_appended e e1 cells I (conj A1 (conj A2 (conj A3 A4)))) as I1.
  assert (CA : CodeAddress e1 = CodeAddress e + 3) by (unfold e1; rewrite put_addr; reflexivity).
  assert (TV : VOff e1 = VOff e) by (apply tabs_inv in A3; tauto).
  pose proof (i_lo _ _ I). constructor; try apply I1.
  - cbn [sorted c_lo c_hi]. rewrite CA. split; [lia|]. split; [lia|]. replace (CodeAddress e + 1 - 1) with (CodeAddress e) by lia. apply I.
  - intros c [<-|IC]; [|apply I1, IC]. split; [cbn [c_hi]; lia|]. rewrite TV. rewrite (proj2 (Z.eqb_neq _ _) NZ).
    pose proof (word_put e op w) as WD. fold bs in WD. fold e1 in WD.
    pose proof (pre_at k op e bs O eq_refl) as PR. fold e1 in PR.
    destruct k; cbn [holds pre opcode_for] in *.
    + exact WD.
    + split; [exact PR|]. rewrite WD. unfold w. f_equal. lia.
    + right. replace (CodeAddress e + 1 - 1) with (CodeAddress e) in * by lia. split; [exact PR|].
      assert (WE : w = aget (VOff e) v - (CodeAddress e + 3)) by (unfold w; lia).
      pose proof (byte_word bs e 1 w eq_refl) as B1. pose proof (byte_word bs e 2 (Z.shiftr w 8) eq_refl) as B2. rewrite <- WE. split; [exact B1|exact B2].
  - intros v' E. cbn [vrefs flat_map]. destruct (Z.eqb_spec v v') as [->|N]; [rewrite TV in E; contradiction|]. apply I1, E.
Qed.

Lemma vrefs_range e cells v a : Inv e cells -> In a (vrefs v cells) -> 0 <= a < 65536.
Proof.
  intros I H. apply in_vrefs in H. destruct H as (k & H). pose proof (sorted_in _ _ _ (i_sorted _ _ I) H) as [_ L]. destruct (i_cell _ _ I _ H) as [U _].
  unfold CODESTART in L. cbn [c_lo c_hi] in *. lia.
Qed.
(** a reference to something not placed yet *)
Lemma inv_forward0 e e1 cells v k : Inv e cells -> CodeAddress e + 3 <= 24832 -> appended e e1 -> CodeAddress e1 = CodeAddress e + 3 ->
  pre e1 (CodeAddress e + 1) k -> word e1 (CodeAddress e + 1) = aget (VRef e) v mod 65536 -> aget (VOff e) v = 0 -> rel k = isf v ->
  Inv (set_VRef (aset (VRef e) v (CodeAddress e + 1)) e1) (CRef (CodeAddress e + 1) v k :: cells).
Proof.
  intros I RM (A1 & A2 & A3 & A4) CA PR WD Z0 RK. set (e2 := set_VRef _ e1).
  assert (AG2 : agrees e e2 cells). { intros c a IC A. change (byte e2 a) with (byte e1 a). apply A2. apply (sorted_in _ _ _ (i_sorted _ _ I)) in IC. lia. }
  assert (CA2 : CodeAddress e2 = CodeAddress e + 3) by exact CA.
  apply tabs_inv in A3. destruct A3 as (T1 & T2 & T3 & T4 & T5). pose proof (i_lo _ _ I) as LO.
  constructor.
  - exact (A4 (i_bytes _ _ I)).
  - lia.
  - cbn [sorted c_lo c_hi]. rewrite CA2. split; [lia|]. split; [lia|]. replace (CodeAddress e + 1 - 1) with (CodeAddress e) by lia. apply I.
  - change (LocalLabelCounter e2) with (LocalLabelCounter e1). rewrite T5. apply I.
  - intros c [<-|IC].
    + split; [cbn [c_hi]; lia|]. change (VOff e2) with (VOff e1). rewrite T1, Z0. split; [exact RK|]. apply (pre_eq e1); [exact PR|intros; reflexivity].
    + apply (cell_inv_eq e); auto. apply I, IC. intros a A. apply (AG2 c a IC A).
  - intros v' E. change (VOff e2) with (VOff e1) in E. rewrite T1 in E. cbn [VRef set_VRef e2 vrefs flat_map]. fold (vrefs v' cells). destruct (Z.eqb_spec v v') as [<-|N].
    + rewrite aget_aset_same. cbn [app]. constructor; [unfold CODESTART in LO; lia|].
      change (word e2) with (word e1). rewrite WD.
      pose proof (i_var _ _ I v E) as LK. rewrite (linked_head e (aget (VRef e) v) (vrefs v cells)); [|exact LK|intros a IA; eapply vrefs_range; eauto].
      eapply linked_vars; [exact AG2|exact LK].
    + rewrite aget_aset_other by auto. cbn [app]. eapply linked_vars; [exact AG2|]. apply I, E.
  - intros l L E. change (LocalLabelCounter e2) with (LocalLabelCounter e1) in L. change (LAddr e2) with (LAddr e1) in E. change (LRef e2) with (LRef e1).
    rewrite T3, T4, T5 in *. cbn [lsites flat_map app]. fold (lsites l cells). eapply linked_labs; [exact AG2|]. apply I; assumption.
Qed.
Lemma inv_forward e cells op v k : Inv e cells -> CodeAddress e + 3 <= 24832 -> opcode_for k op -> aget (VOff e) v = 0 -> rel k = isf v ->
  let w := aget (VRef e) v in
  Inv (set_VRef (aset (VRef e) v (CodeAddress e + 1)) (put [op; w; Z.shiftr w 8] e)) (CRef (CodeAddress e + 1) v k :: cells).
Proof.
  intros I RM O Z0 RK w. apply inv_forward0; auto.
  - apply appended_put.
  - rewrite put_addr. reflexivity.
  - eapply pre_at; [exact O|reflexivity].
  - apply word_put.
Qed.

(** ** Jumps to local labels *)
Lemma lsites_range e cells l a : Inv e cells -> In a (map ref (lsites l cells)) -> 0 <= a < 65536.
Proof.
  intros I H. apply in_map_iff in H. destruct H as (s & <- & H). apply in_lsites in H. pose proof (sorted_in _ _ _ (i_sorted _ _ I) H) as [_ L].
  destruct (i_cell _ _ I _ H) as [U _]. unfold CODESTART in L. cbn [c_lo c_hi] in *. assert (start s < ref s) by (destruct s; cbn; lia). lia.
Qed.
Lemma inv_jump e cells l s bs : Inv e cells -> CodeAddress e + Z.of_nat (length bs) <= 24832 -> 0 <= l < LocalLabelCounter e -> aget (LAddr e) l = 0 ->
  start s = CodeAddress e -> ref s = CodeAddress e + Z.of_nat (length bs) - 2 -> site_ok (put bs e) s -> word (put bs e) (ref s) = aget (LRef e) l mod 65536 ->
  Inv (set_LRef (aset (LRef e) l (ref s)) (put bs e)) (CLab l s :: cells).
Proof.
  intros I RM LR LA SS RS OK WD. set (e1 := put bs e) in *. set (e2 := set_LRef _ e1).
  pose proof (agrees_put bs e cells I) as AG. pose proof (appended_put bs e) as (A1 & A2 & A3 & A4). fold e1 in AG, A1, A2, A3, A4.
  assert (CA : CodeAddress e2 = CodeAddress e + Z.of_nat (length bs)) by (change (CodeAddress e2) with (CodeAddress e1); unfold e1; rewrite put_addr; reflexivity).
  apply tabs_inv in A3. destruct A3 as (T1 & T2 & T3 & T4 & T5). pose proof (i_lo _ _ I) as LO.
  assert (AG2 : agrees e e2 cells) by exact AG. assert (S1 : start s < ref s) by (destruct s; cbn; lia).
  constructor.
  - exact (A4 (i_bytes _ _ I)).
  - lia.
  - cbn [sorted c_lo c_hi]. rewrite CA, SS. split; [lia|]. split; [lia|]. apply I.
  - change (LocalLabelCounter e2) with (LocalLabelCounter e1). rewrite T5. apply I.
  - intros c [<-|IC].
    + split; [cbn [c_hi]; lia|]. change (LocalLabelCounter e2) with (LocalLabelCounter e1). change (LAddr e2) with (LAddr e1). rewrite T4, T5. split; [apply (site_ok_eq e1); [exact OK|intros; reflexivity]|auto].
    + apply (cell_inv_eq e); auto. apply I, IC. intros a A. apply (AG2 c a IC A).
  - intros v' E. change (VOff e2) with (VOff e1) in E. change (VRef e2) with (VRef e1). rewrite T1, T2 in *. cbn [vrefs flat_map app]. fold (vrefs v' cells).
    eapply linked_vars; [exact AG2|]. apply I, E.
  - intros l' L E. change (LocalLabelCounter e2) with (LocalLabelCounter e1) in L. change (LAddr e2) with (LAddr e1) in E.
    rewrite T4, T5 in *. cbn [LRef set_LRef e2 lsites flat_map]. fold (lsites l' cells). destruct (Z.eqb_spec l l') as [<-|N].
    + rewrite aget_aset_same. cbn [app map]. constructor; [unfold CODESTART in LO; lia|].
      change (word e2) with (word e1). rewrite WD.
      pose proof (i_lab _ _ I l L E) as LK. rewrite (linked_head e _ (map ref (lsites l cells))); [|exact LK|intros a IA; eapply lsites_range; eauto].
      eapply linked_labs; [exact AG2|exact LK].
    + rewrite aget_aset_other by auto. cbn [app]. eapply linked_labs; [exact AG2|]. apply I; assumption.
Qed.

(** ** Placing a local label *)
Lemma chain_of e l : forall cells top h, sorted top cells -> (forall c, In c cells -> cell_inv e c) -> linked e h (map ref (lsites l cells)) ->
  chain e h top (lsites l cells).
Proof.
  induction cells as [|c r IH]; intros top h S C L.
  - cbn in *. inversion L; subst. constructor.
  - destruct S as (S1 & S2 & S3). pose proof (c_lohi c) as LH. destruct c as [a v k|l' s]; cbn [lsites flat_map app] in *; fold (lsites l r) in *.
    + eapply chain_lim; [apply (IH (a - 1)); auto; intros; apply C; right; assumption|]. cbn [c_lo c_hi] in *. lia.
    + destruct (Z.eqb_spec l' l) as [->|N]; cbn [app map] in *.
      * inversion L as [|a rest N0 L1 E1 E2]; subst. constructor; auto.
        -- apply (C (CLab l s) (or_introl eq_refl)).
        -- apply IH; auto. intros; apply C; right; assumption.
      * eapply chain_lim; [apply (IH (start s)); auto; intros; apply C; right; assumption|]. cbn [c_lo c_hi] in *. lia.
Qed.
Lemma cell_inv_lab e e1 c l A R : cell_inv e c -> other l c = true -> VOff e1 = VOff e -> LAddr e1 = aset (LAddr e) l A -> LRef e1 = R ->
  LocalLabelCounter e1 = LocalLabelCounter e -> (forall a, c_lo c <= a < c_hi c -> byte e1 a = byte e a) -> cell_inv e1 c.
Proof.
  intros [H1 H2] O V L RR N F. split; [exact H1|]. rewrite V, L, N. destruct c as [a v k|l' s]; cbn [c_lo c_hi other] in *.
  - destruct (_ =? 0); [destruct H2; split; [assumption|eapply pre_eq; eauto]|eapply holds_eq; eauto].
  - destruct (Z.eqb_spec l' l); [discriminate|]. destruct H2 as (H2 & B & C). split; [eapply site_ok_eq; eauto|]. rewrite aget_aset_other by auto. auto.
Qed.
Lemma inv_label W e cells l x e' : Inv e cells -> 0 <= l -> EmitLocalLabel W l e = Ok (x, e') -> Inv e' (filter (other l) cells).
Proof.
  intros I L0 H. unfold EmitLocalLabel in H. mgoin H. minv H y e1 E. unfold failif in E. destruct (_ || _) eqn:CK in E; [discriminate|]. oki E.
  apply orb_false_iff in CK. destruct CK as [CK1 CK2]. apply Z.leb_gt in CK1. apply negb_false_iff, Z.eqb_eq in CK2.
  minv H y2 e1 E. apply apps_sp in E; [|apply apps_checks]. destruct E as [AP _]. pose proof (inv_appended e e1 cells I AP) as I1.
  destruct AP as (_ & _ & TB & _). apply tabs_inv in TB. destruct TB as (_ & _ & TB3 & TB4 & TB5). rewrite <- TB4, <- TB5 in *. clear e I TB3 TB4 TB5. rename e1 into e.
  mgoin H. set (e0 := set_IsDeadCode false e) in *. assert (I0 : Inv e0 cells).
  { apply (inv_appended e e0 cells I1). split; [apply Z.le_refl|]. split; [reflexivity|]. split; [reflexivity|exact (fun B => B)]. }
 
  assert (CK1' : l < LocalLabelCounter e0) by exact CK1. assert (CK2' : aget (LAddr e0) l = 0) by exact CK2. clearbody e0. clear e I1 CK1 CK2. rename e0 into e.
  minv H y3 e2 E. unfold DoFixups in E. minv E y4 e1 E1. oki E. pose proof (loop_tabs (tabs e) _ _ _ _ _ _ eq_refl E1) as TB.
  apply loop_resolves with (sites := lsites l cells) in E1; [|apply I0|apply chain_of; [apply I0|apply I0|apply I0; [lia|exact CK2']]].
  destruct E1 as (gone & kept & LS & RM & _ & _ & OUT & _ & _ & BO). mgoin H. oki H.
  apply tabs_inv in TB. destruct TB as (T1 & T2 & T3 & T4 & T5).
  destruct (removed_cells l _ _ _ RM cells kept (i_lo _ _ I0) (i_sorted _ _ I0) LS) as [S LO].
  set (e2 := set_LastFixup (CodeAddress e1) e1). 
  set (e3 := set_LRef _ _).
  assert (AG : forall c a, In c (filter (other l) cells) -> c_lo c <= a < c_hi c -> byte e3 a = byte e a).
  { intros c a IC A. change (byte e3 a) with (byte e1 a). apply OUT. intros s IS J. apply filter_In in IC. destruct IC as [IC OC].
    assert (IL : In (CLab l s) cells) by (apply in_lsites; rewrite LS; apply in_or_app; right; exact IS).
    assert (c = CLab l s) by (eapply (sorted_uniq cells); [apply I0|exact IC|exact IL|exact A|exact J]). subst c. cbn [other] in OC. rewrite Z.eqb_refl in OC. discriminate. }
  constructor.
  - exact BO.
  - exact LO.
  - exact S.
  - change (LocalLabelCounter e3) with (LocalLabelCounter e1). rewrite T5. apply I0.
  - intros c IC. pose proof IC as IC'. apply filter_In in IC'. destruct IC' as [IC1 IC2].
    apply (cell_inv_lab e e3 c l (CodeAddress e1) (LRef e3)); auto.
    + apply I0, IC1.
    + change (LAddr e3) with (aset (LAddr e1) l (CodeAddress e1)). rewrite T4. reflexivity.
    + intros a A. apply (AG c a IC A).
  - intros v E. change (VOff e3) with (VOff e1) in E. change (VRef e3) with (VRef e1). rewrite T1, T2 in *.
    eapply linked_vars; [exact AG|]. rewrite vrefs_other. apply I0, E.
  - intros l2 L2 E. change (LocalLabelCounter e3) with (LocalLabelCounter e1) in L2. change (LAddr e3) with (aset (LAddr e1) l (CodeAddress e1)) in E.
    change (LRef e3) with (aset (LRef e1) l 0). rewrite T3, T4, T5 in *. destruct (Z.eqb_spec l2 l) as [->|N].
    + rewrite aget_aset_same in E. unfold CODESTART in LO. lia.
    + rewrite aget_aset_other in * by auto. eapply linked_labs; [exact AG|]. rewrite lsites_other by exact N. apply I0; assumption.
Qed.

(** ** Placing a global *)
Lemma inv_place e cells v x e' : Inv e cells -> (isf v = true -> forall a k, In (CRef a v k) cells -> a + 2 <> CodeAddress e) ->
  EmitGlobalLabel_ v (isf v) e = Ok (x, e') -> Inv e' cells /\ aget (VOff e') v = CodeAddress e'.
Proof.
  intros I NE H. unfold EmitGlobalLabel_ in H. mgoin H. minv H y e1 E. unfold failif in E. destruct (Z.eqb_spec (aget (VOff e) v) 0) as [V0|]; [|discriminate]. cbn [negb] in E. oki E.
  mgoin H. change (VRef (set_IsDeadCode false (set_VOff (aset (VOff e) v (CodeAddress e)) e))) with (VRef e) in H.
  set (T := CodeAddress e) in *. set (e0 := set_IsDeadCode false _) in *. unfold DoFixups in H. minv H y4 e1 E1. oki H.
  pose proof (loop_tabs (tabs e0) _ _ _ _ _ _ eq_refl E1) as TB. apply tabs_inv in TB. destruct TB as (T1 & T2 & T3 & T4 & T5).
  pose proof (i_lo _ _ I) as LO. fold T in LO. assert (TN : T <> 0) by (unfold CODESTART in LO; lia).
  assert (PR : forall a, In a (vrefs v cells) -> exists k, In (CRef a v k) cells /\ rel k = isf v /\ pre e a k).
  { intros a IA. apply in_vrefs in IA. destruct IA as (k & IA). exists k. split; [exact IA|]. destruct (i_cell _ _ I _ IA) as [_ P]. rewrite V0 in P. exact P. }
  apply gloop with (l := vrefs v cells) (top := T) in E1.
  - destruct E1 as (C & BO & O & F). change (CodeAddress e0) with T in *. split.
    + assert (AG : forall c, In c cells -> (forall a k, c <> CRef a v k) -> forall b, c_lo c <= b < c_hi c -> byte e1 b = byte e b).
      { intros c IC NC b B. change (byte e b) with (byte e0 b). apply O. intros a IA BA. destruct (PR a IA) as (k & IK & _).
        assert (c = CRef a v k) by (eapply (sorted_uniq cells); [apply I|exact IC|exact IK|exact B|exact BA]). eapply NC; eauto. }
      constructor.
      * exact BO.
      * change (CODESTART <= CodeAddress e1). lia.
      * change (sorted (CodeAddress e1) cells). rewrite C. apply I.
      * change (0 <= LocalLabelCounter e1). rewrite T5. apply I.
      * intros c IC. destruct c as [a v' k|l s].
        -- destruct (Z.eq_dec v' v) as [->|NV].
           ++ destruct (i_cell _ _ I _ IC) as [U P]. split; [exact U|]. change (VOff (set_LastFixup ?a e1)) with (VOff e1). rewrite T1. cbn [VOff e0 set_IsDeadCode set_VOff]. rewrite aget_aset_same.
              rewrite (proj2 (Z.eqb_neq _ _) TN). rewrite V0 in P. destruct P as [P1 P2].
              assert (IA : In a (vrefs v cells)) by (apply in_vrefs; eauto). specialize (F a IA). rewrite <- P1 in F.
              apply (holds_eq e1); [|reflexivity]. apply (fixed_holds e0); [apply (pre_eq e); [exact P2|reflexivity]|exact F].
           ++ destruct (i_cell _ _ I _ IC) as [U P]. split; [exact U|]. change (VOff (set_LastFixup ?a e1)) with (VOff e1). rewrite T1. cbn [VOff e0 set_IsDeadCode set_VOff]. rewrite aget_aset_other by auto.
              assert (AG' : forall b, a - 1 <= b < a + 2 -> byte (set_LastFixup (CodeAddress e1) e1) b = byte e b).
              { intros b B. apply (AG _ IC); [intros a' k' Q; congruence|exact B]. }
              destruct (_ =? 0); [destruct P; split; [assumption|eapply pre_eq; eauto]|eapply holds_eq; eauto].
        -- destruct (i_cell _ _ I _ IC) as [U (P & Q)]. split; [exact U|].
           change (LAddr (set_LastFixup ?a e1)) with (LAddr e1). change (LocalLabelCounter (set_LastFixup ?a e1)) with (LocalLabelCounter e1). rewrite T4, T5. split; [|exact Q].
           apply (site_ok_eq e); [exact P|]. intros b B. apply (AG _ IC); [intros a' k' R; discriminate|exact B].
      * intros v' E. change (VOff (set_LastFixup ?a e1)) with (VOff e1) in E. rewrite T1 in E. cbn [VOff e0 set_IsDeadCode set_VOff] in E.
        destruct (Z.eq_dec v' v) as [->|NV]; [rewrite aget_aset_same in E; contradiction|]. rewrite aget_aset_other in E by auto.
        change (VRef (set_LastFixup ?a e1)) with (VRef e1). rewrite T2. change (VRef e0) with (VRef e). eapply linked_eq; [apply I; exact E|].
        intros a IA. apply in_vrefs in IA. destruct IA as (k & IA). split; apply (AG _ IA); try (intros a' k' Q; congruence); cbn [c_lo c_hi]; lia.
      * intros l L E. change (LAddr (set_LastFixup ?a e1)) with (LAddr e1) in E. change (LocalLabelCounter (set_LastFixup ?a e1)) with (LocalLabelCounter e1) in L.
        change (LRef (set_LastFixup ?a e1)) with (LRef e1). rewrite T3, T4, T5 in *. change (LRef e0) with (LRef e). eapply linked_eq; [apply I; assumption|].
        intros a IA. apply in_map_iff in IA. destruct IA as (s & <- & IA). apply in_lsites in IA. assert (start s < ref s) by (destruct s; cbn; lia).
        split; apply (AG _ IA); try (intros a' k' Q; discriminate); cbn [c_lo c_hi]; lia.
    + change (aget (VOff e1) v = CodeAddress e1). rewrite T1, C. cbn [VOff e0 set_IsDeadCode set_VOff]. apply aget_aset_same.
  - exact (i_bytes _ _ I).
  - exact TN.
  - apply (linked_eq e); [apply I; exact V0|]. intros; split; reflexivity.
  - apply desc_vrefs. apply I.
  - intros a IA. destruct (PR a IA) as (k & IK & RK & P). change (byte e0 (a - 1)) with (byte e (a - 1)). destruct k; cbn [pre rel] in *.
    + split; [apply P|]. split; [intros _; apply P|]. congruence.
    + rewrite P. split; [lia|]. split; [congruence|]. intros R Q. apply (NE R a Call IK). auto.
    + rewrite P. split; [lia|]. split; [congruence|]. intros R Q. apply (NE R a Jump IK). auto.
Qed.
End Isf.
