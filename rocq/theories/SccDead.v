(** Code that is not to be emitted is not emitted: an operand parsed while the compiler marks the code as dead
    leaves the program as it was, whatever the operand is.  The induction follows SccRel.v. *)
From Verif Require Import Base SccState SccEmit SccLex SccInput SccDecl SccExpr SccStmt SccPut SccWhole.

(** nothing of the program emitted so far has changed *)
Definition same (e e' : emst) : Prop := CodeAddress e' = CodeAddress e /\ forall i, i < CodeAddress e - CODESTART -> aget (Output e') i = aget (Output e) i.
(** live code stays live; if the code was dead and still is, the program is the same *)
Definition dd {S A} (f : S -> emst) (m : M S A) : Prop := forall s a s', m s = Ok (a, s') ->
  (IsDeadCode (f s) = false -> IsDeadCode (f s') = false) /\
  (IsDeadCode (f s) = true -> IsDeadCode (f s') = true -> same (f s) (f s')).
Definition al {S A} (f : S -> emst) (m : M S A) : Prop := forall s a s', m s = Ok (a, s') -> IsDeadCode (f s) = false -> IsDeadCode (f s') = false.
Definition ends {S A} (f : S -> emst) (m : M S A) : Prop := forall s a s', m s = Ok (a, s') -> IsDeadCode (f s') = false.
Definition keeps {S A} (f : S -> emst) (m : M S A) : Prop := forall s a s', m s = Ok (a, s') -> IsDeadCode (f s') = IsDeadCode (f s) /\ same (f s) (f s').
Lemma same_refl e : same e e. Proof. split; reflexivity. Qed.
Lemma same_trans a b c : same a b -> same b c -> same a c.
Proof. intros [E1 H1] [E2 H2]. split; [congruence|]. intros i L. rewrite H2 by (rewrite E1; exact L). apply H1. exact L. Qed.

Section Rules.
Context {S : Type} (f : S -> emst).
Lemma dd_al {A} (m : M S A) : dd f m -> al f m.
Proof. intros H s a s' E. exact (proj1 (H s a s' E)). Qed.
Lemma ends_dd {A} (m : M S A) : ends f m -> dd f m.
Proof. intros H s a s' E. rewrite (H s a s' E). split; [reflexivity|discriminate]. Qed.
Lemma keeps_dd {A} (m : M S A) : keeps f m -> dd f m.
Proof. intros H s a s' E. destruct (H s a s' E) as [Q1 Q2]. rewrite Q1. split; auto. Qed.
Lemma k_ret {A} (a : A) : keeps f (ret a).
Proof. intros s x s' H. oki H. split; [reflexivity|apply same_refl]. Qed.
Lemma k_bind {A B} (m : M S A) (k : A -> M S B) : keeps f m -> (forall a, keeps f (k a)) -> keeps f (bind m k).
Proof. intros H1 H2 s x s' H. minv H y s1 E. destruct (H1 _ _ _ E) as [Q1 Q2], (H2 _ _ _ _ H) as [Q3 Q4]. split; [congruence|]. exact (same_trans _ _ _ Q2 Q4). Qed.
Lemma k_fatal {A} : keeps f (@fatal S A). Proof. intros s x s' H. discriminate. Qed.
Lemma k_failif b : keeps f (failif b). Proof. destruct b; [apply k_fatal|apply k_ret]. Qed.
Lemma k_gets {A} (g : S -> A) : keeps f (gets g).
Proof. intros s x s' H. unfold gets in H. oki H. split; [reflexivity|apply same_refl]. Qed.
Lemma k_upd g : (forall s, IsDeadCode (f (g s)) = IsDeadCode (f s) /\ same (f s) (f (g s))) -> keeps f (upd g).
Proof. intros Q s x s' H. oki H. apply Q. Qed.
Lemma dd_bind {A B} (m : M S A) (k : A -> M S B) : dd f m -> (forall a, dd f (k a)) -> dd f (bind m k).
Proof.
  intros H1 H2 s x s' H. minv H y s1 E. destruct (H1 _ _ _ E) as [Q1 Q2], (H2 _ _ _ _ H) as [Q3 Q4]. split; [auto|].
  intros D D'. destruct (IsDeadCode (f s1)) eqn:D1; [|rewrite (Q3 eq_refl) in D'; discriminate].
  exact (same_trans _ _ _ (Q2 D eq_refl) (Q4 eq_refl D')).
Qed.
Lemma al_bind {A B} (m : M S A) (k : A -> M S B) : al f m -> (forall a, al f (k a)) -> al f (bind m k).
Proof. intros H1 H2 s x s' H D. minv H y s1 E. exact (H2 _ _ _ _ H (H1 _ _ _ E D)). Qed.
Lemma ends_bind {A B} (m : M S A) (k : A -> M S B) : (forall a, ends f (k a)) -> ends f (bind m k).
Proof. intros H2 s x s' H. minv H y s1 E. exact (H2 _ _ _ _ H). Qed.
Lemma ends_al {A B} (m : M S A) (k : A -> M S B) : ends f m -> (forall a, al f (k a)) -> ends f (bind m k).
Proof. intros H1 H2 s x s' H. minv H y s1 E. exact (H2 _ _ _ _ H (H1 _ _ _ E)). Qed.
Lemma al_upd g : (forall s, IsDeadCode (f (g s)) = IsDeadCode (f s)) -> al f (upd g).
Proof. intros Q s x s' H. oki H. intro D. rewrite Q. exact D. Qed.
Lemma dd_fatal {A} : dd f (@fatal S A). Proof. intros s x s' H. discriminate. Qed.
Lemma al_fatal {A} : al f (@fatal S A). Proof. intros s x s' H. discriminate. Qed.
Lemma dd_undef {A} : dd f (@undef S A). Proof. intros s x s' H. discriminate. Qed.
Lemma dd_nofuel {A} : dd f (@nofuel S A). Proof. intros s x s' H. discriminate. Qed.
Lemma dd_if {A} (b : bool) (m m' : M S A) : dd f m -> dd f m' -> dd f (if b then m else m').
Proof. destruct b; auto. Qed.
Lemma al_if {A} (b : bool) (m m' : M S A) : al f m -> al f m' -> al f (if b then m else m').
Proof. destruct b; auto. Qed.
Lemma dd_when b (m : M S unit) : dd f m -> dd f (when b m).
Proof. destruct b; [auto|]. intros _. apply keeps_dd, k_ret. Qed.
Lemma al_when b (m : M S unit) : al f m -> al f (when b m).
Proof. destruct b; [auto|]. intros _. apply dd_al, keeps_dd, k_ret. Qed.
Lemma dd_loop {X A} n : forall (b : X -> M S (X + A)) x, (forall x, dd f (b x)) -> dd f (loopM n b x).
Proof.
  induction n as [|n IH]; intros b x H; [apply dd_nofuel|]. cbn [loopM].
  apply dd_bind; [apply H|]. intros [x'|a]; [apply IH; auto|apply keeps_dd, k_ret].
Qed.
Lemma dd_isdead {A} (g : S -> bool) (k : bool -> M S A) : (forall s, g s = IsDeadCode (f s)) -> dd f (k true) -> al f (k false) -> dd f (bind (gets g) k).
Proof.
  intros G H1 H2 s x s' H. rewrite bind_gets, G in H. destruct (IsDeadCode (f s)) eqn:D.
  - destruct (H1 _ _ _ H) as [_ Q]. split; [discriminate|]. intros _. exact (Q D).
  - split; [intros _; exact (H2 _ _ _ H D)|discriminate].
Qed.
(** a part that is parsed with the code marked dead, and left only if it still is *)
Definition mid {A} (w : bool) (m : M S A) : Prop := forall s a s', m s = Ok (a, s') ->
  IsDeadCode (f s) = true /\ IsDeadCode (f s') = w /\ same (f s) (f s').
Lemma mid_bind {A B} w (m : M S A) (k : A -> M S B) : dd f m -> (forall a, mid w (k a)) -> mid w (bind m k).
Proof.
  intros H1 H2 s x s' H. minv H y s1 E. destruct (H1 _ _ _ E) as [Q1 Q2], (H2 _ _ _ _ H) as (D1 & D' & Q4).
  destruct (IsDeadCode (f s)) eqn:D; [|rewrite (Q1 eq_refl) in D1; discriminate].
  split; [reflexivity|]. split; [exact D'|]. exact (same_trans _ _ _ (Q2 eq_refl D1) Q4).
Qed.
Lemma mid_check {A} w (k : unit -> M S A) (g : S -> bool) (u : S -> S) : (forall s, g s = IsDeadCode (f s)) -> (forall s, IsDeadCode (f (u s)) = w /\ same (f s) (f (u s))) -> (forall a, keeps f (k a)) ->
  mid w (bind (gets g) (fun d => bind (failif (negb d)) (fun _ => bind (upd u) k))).
Proof.
  intros G U K s x s' H. rewrite bind_gets, G in H. destruct (IsDeadCode (f s)) eqn:D; [|discriminate].
  cbn [negb] in H. unfold failif in H. rewrite bind_ret, bind_upd in H. destruct (K _ _ _ _ H) as [Q1 Q2], (U s) as [U1 U2].
  split; [reflexivity|]. split; [congruence|]. exact (same_trans _ _ _ U2 Q2).
Qed.
Lemma k_scoped {A} (g : S -> bool) (u : S -> S) (k : bool -> M S A) : (forall s, g s = IsDeadCode (f s)) -> (forall s, same (f s) (f (u s))) -> (forall w, mid w (k w)) ->
  keeps f (bind (gets g) (fun w => bind (upd u) (fun _ => k w))).
Proof.
  intros G U K s x s' H. rewrite bind_gets, G, bind_upd in H. destruct (K _ _ _ _ H) as (_ & Q1 & Q2).
  split; [exact Q1|]. exact (same_trans _ _ _ (U s) Q2).
Qed.
Lemma al_revive {A B} (m : M S A) u (k : unit -> M S B) : (forall s, IsDeadCode (f (u s)) = false) -> (forall a, al f (k a)) -> al f (bind m (fun _ => bind (upd u) k)).
Proof. intros U K s x s' H _. minv H y s1 E. rewrite bind_upd in H. exact (K _ _ _ _ H (U s1)). Qed.
End Rules.
#[export] Hint Resolve k_ret k_failif k_gets k_fatal : ddk.

(** ** The compiler state *)
Notation ide := (fun e : emst => e).
Lemma dd_inlx {A} (m : M lexst A) : keeps em (inlx m).
Proof. intros s x s' H. unfold inlx in H. destruct (m (lx s)) as [[a l]| | |]; try discriminate. oki H. split; [reflexivity|apply same_refl]. Qed.
Lemma dd_indc {A} (m : M dcst A) : keeps em (indc m).
Proof. intros s x s' H. unfold indc in H. destruct (m (dc s)) as [[a l]| | |]; try discriminate. oki H. split; [reflexivity|apply same_refl]. Qed.
Lemma dd_inem {A} (m : M emst A) : dd ide m -> dd em (inem m).
Proof. intros K s x s' H. unfold inem in H. destruct (m (em s)) as [[a e]| | |] eqn:E; try discriminate. oki H. exact (K _ _ _ E). Qed.
Lemma ends_inem {A} (m : M emst A) : ends ide m -> ends em (inem m).
Proof. intros K s x s' H. unfold inem in H. destruct (m (em s)) as [[a e]| | |] eqn:E; try discriminate. oki H. exact (K _ _ _ E). Qed.
Lemma k_lift {A} (o : outcome A) : keeps em (lift_out o).
Proof. intros s x s' H. unfold lift_out in H. destruct o; try discriminate. oki H. split; [reflexivity|apply same_refl]. Qed.
Lemma al_poke a v : al ide (poke a v).
Proof. intros s x s' H. unfold poke in H. destruct (in_output a); [|discriminate]. oki H. auto. Qed.
Lemma k_peek a : keeps ide (peek a).
Proof. intros s x s' H. unfold peek in H. destruct (in_output a); [|discriminate]. oki H. split; [reflexivity|apply same_refl]. Qed.
Ltac kupd := apply k_upd; intro; split; [reflexivity|split; reflexivity].
Ltac beta := cbv beta; cbn [negb when andb orb].

Ltac dl :=
  cbv zeta;
  lazymatch goal with
  | |- al _ (bind (inem (EmitJmp _ _)) _) => apply al_revive; [reflexivity|intro; dl]
  | |- dd _ (bind (gete IsDeadCode) _) => unfold gete at 1; apply dd_isdead; [reflexivity|beta; dl|beta; dl]
  | |- dd _ (bind (gets IsDeadCode) _) => apply dd_isdead; [reflexivity|beta; dl|beta; dl]
  | |- dd _ (bind _ _) => apply dd_bind; [dl | intro; dl]
  | |- al _ (bind _ _) => apply al_bind; [dl | intro; dl]
  | |- dd _ (ret _) => apply keeps_dd, k_ret
  | |- dd _ fatal => apply dd_fatal
  | |- al _ fatal => apply al_fatal
  | |- dd _ undef => apply dd_undef
  | |- dd _ nofuel => apply dd_nofuel
  | |- dd _ (when _ _) => apply dd_when; dl
  | |- al _ (when _ _) => apply al_when; dl
  | |- dd _ (failif _) => apply keeps_dd, k_failif
  | |- dd _ (gete _) => apply keeps_dd, k_gets
  | |- dd _ (getd _) => apply keeps_dd, k_gets
  | |- dd _ (getl _) => apply keeps_dd, k_gets
  | |- dd _ (gets _) => apply keeps_dd, k_gets
  | |- dd _ (upde _) => apply keeps_dd; kupd
  | |- dd _ (updd _) => apply keeps_dd; kupd
  | |- dd _ (updl _) => apply keeps_dd; kupd
  | |- dd _ (upd _) => apply keeps_dd; kupd
  | |- dd _ (inem _) => apply dd_inem; dl
  | |- dd _ (indc _) => apply keeps_dd, dd_indc
  | |- dd _ (inlx _) => apply keeps_dd, dd_inlx
  | |- dd _ (peek _) => apply keeps_dd, k_peek
  | |- dd _ (lift_out _) => apply keeps_dd, k_lift
  | |- dd _ (loopM _ _ _) => apply dd_loop; intro; dl
  | |- dd _ (if _ then _ else _) => apply dd_if; dl
  | |- al _ (if _ then _ else _) => apply al_if; dl
  | |- dd _ (match ?x with _ => _ end) => destruct x; dl
  | |- al _ (match ?x with _ => _ end) => destruct x; dl
  | |- al _ (upd _) => apply al_upd; reflexivity
  | |- al _ (upde _) => apply al_upd; reflexivity
  | |- al _ (poke _ _) => apply al_poke
  | |- al _ (putb _) => unfold putb; dl
  | |- al _ _ => apply dd_al; dl
  | |- _ => first [assumption | solve [auto with ddh]]
  end.

(** ** Emitting *)
Section Emit.
Variable W : Z.
Definition dead_id (chk : M emst bool) : Prop := forall s a s', chk s = Ok (a, s') -> (IsDeadCode s = true -> a = true /\ s' = s) /\ (IsDeadCode s = false -> IsDeadCode s' = false).
Lemma d_checked (chk : M emst bool) {A} (k : bool -> M emst A) : dead_id chk -> dd ide (k true) -> (forall b, al ide (k b)) -> dd ide (bind chk k).
Proof.
  intros C H1 H2 s x s' H. minv H b s1 E. destruct (C _ _ _ E) as [Q1 Q2]. split.
  - intro D. exact (H2 b _ _ _ H (Q2 D)).
  - intros D. destruct (Q1 D) as [-> ->]. exact (proj2 (H1 _ _ _ H) D).
Qed.
Section Chk.
Variable chk : M emst bool.
Hypothesis C : dead_id chk.
Lemma d_guarded m : al ide m -> dd ide (guarded chk m).
Proof.
  intros H s x s' E. unfold guarded in E. rewrite bind_gets in E. destruct (IsDeadCode s) eqn:D.
  - cbn [orb] in E. minv E b s1 E1. destruct (C _ _ _ E1) as [Q _]. destruct (Q D) as [-> ->]. oki E. split; [discriminate|]. intros; apply same_refl.
  - cbn [orb] in E. split; [|discriminate]. intros _. destruct (negb (Pending s =? 0)).
    + minv E b s1 E1. destruct (C _ _ _ E1) as [_ Q]. specialize (Q D). destruct b; [oki E; exact Q|exact (H _ _ _ E Q)].
    + exact (H _ _ _ E D).
Qed.
Lemma d_o1_ a : dd ide (Output1Byte_ chk a). Proof. apply d_guarded. dl. Qed.
Lemma d_o2_ a b : dd ide (Output2Bytes_ chk a b). Proof. apply d_guarded. dl. Qed.
Lemma d_ow_ a : dd ide (OutputWord_ chk a). Proof. apply d_guarded. dl. Qed.
Lemma d_o3_ a b c : dd ide (Output3Bytes_ chk a b c). Proof. apply d_guarded. dl. Qed.
#[local] Hint Resolve d_o1_ d_o2_ d_o3_ d_ow_ : ddh.
Lemma d_add_ r a : dd ide (EmitAddRegConst_ W chk r a). Proof. unfold EmitAddRegConst_. dl. Qed.
#[local] Hint Resolve d_add_ : ddh.
Lemma d_flushsp_ : dd ide (FlushSpAdj_ W chk). Proof. unfold FlushSpAdj_. dl. Qed.
Lemma d_flushax_ : dd ide (FlushPushAx_ chk). Proof. unfold FlushPushAx_. dl. Qed.
End Chk.
Lemma chk_n n : dead_id (EmitChecks_n W n).
Proof.
  induction n as [|n IH]; intros s a s' H; [discriminate|]. cbn [EmitChecks_n] in H. rewrite bind_gets in H. destruct (IsDeadCode s) eqn:D.
  - oki H. split; [auto|discriminate].
  - split; [discriminate|]. intros _. revert D. cbv beta iota in H. match type of H with ?m s = _ => cut (al ide m); [intros Q D; exact (Q _ _ _ H D)|clear s a s' H] end.
    pose proof (d_flushsp_ _ IH). pose proof (d_flushax_ _ IH). dl.
Qed.
Lemma chk : dead_id (EmitChecks W). Proof. apply chk_n. Qed.
Lemma d_o1 a : dd ide (Output1Byte W a). Proof. apply d_o1_, chk. Qed.
Lemma d_o2 a b : dd ide (Output2Bytes W a b). Proof. apply d_o2_, chk. Qed.
Lemma d_o3 a b c : dd ide (Output3Bytes W a b c). Proof. apply d_o3_, chk. Qed.
Lemma d_ow a : dd ide (OutputWord W a). Proof. apply d_ow_, chk. Qed.
Lemma d_add r a : dd ide (EmitAddRegConst W r a). Proof. apply d_add_, chk. Qed.
Lemma d_flushsp : dd ide (FlushSpAdj W). Proof. apply d_flushsp_, chk. Qed.
Lemma d_flushax : dd ide (FlushPushAx W). Proof. apply d_flushax_, chk. Qed.
Hint Resolve d_o1 d_o2 d_o3 d_ow d_add d_flushsp d_flushax : ddh.
Lemma d_make : dd ide MakeLabel. Proof. unfold MakeLabel. dl. Qed.
Lemma al_fix1 r b : al ide (DoFixup1 r b). Proof. unfold DoFixup1. dl. Qed.
Lemma al_fixl n : forall r b, al ide (fixup_loop n r b).
Proof. induction n as [|n IH]; intros r b; cbn [fixup_loop]; [apply dd_al, dd_nofuel|]. apply al_if; [dl|]. apply al_bind; [apply al_fix1|intro; apply IH]. Qed.
Lemma al_fix r b : al ide (DoFixups r b).
Proof. unfold DoFixups. apply al_bind; [apply al_fixl|intro; dl]. Qed.
Lemma ends_set : ends ide (upd (set_IsDeadCode false)).
Proof. intros s x s' H. oki H. reflexivity. Qed.
Lemma ends_label l : ends ide (EmitLocalLabel W l).
Proof.
  unfold EmitLocalLabel. do 4 (apply ends_bind; intro). apply ends_al; [apply ends_set|]. intro.
  apply al_bind; [dl|intro]. apply al_bind; [apply al_fix|intro; dl].
Qed.
Lemma ends_glob v b : ends ide (EmitGlobalLabel_ v b).
Proof.
  unfold EmitGlobalLabel_. do 3 (apply ends_bind; intro). apply ends_al; [apply ends_set|]. intro.
  apply al_bind; [dl|intro]. apply al_fix.
Qed.
Lemma d_label l : dd ide (EmitLocalLabel W l). Proof. apply ends_dd, ends_label. Qed.
Lemma d_glob v b : dd ide (EmitGlobalLabel_ v b). Proof. apply ends_dd, ends_glob. Qed.
Lemma d_fixl l : dd ide (AddFixupLabel W l). Proof. unfold AddFixupLabel. dl. Qed.
Lemma d_fixv l : dd ide (AddFixupVar W l). Proof. unfold AddFixupVar. dl. Qed.
Hint Resolve d_make d_label d_glob d_fixl d_fixv : ddh.
Lemma d_ref v : dd ide (EmitGlobalRef W v). Proof. unfold EmitGlobalRef. dl. Qed.
Lemma d_refrel v : dd ide (EmitGlobalRefRel W v). Proof. unfold EmitGlobalRefRel. dl. Qed.
Hint Resolve d_ref d_refrel : ddh.
Lemma d_modrm i r l v : dd ide (EmitModrm W i r l v). Proof. unfold EmitModrm. dl. Qed.
Hint Resolve d_modrm : ddh.
Lemma d_load n l v : dd ide (EmitLoadAx W n l v). Proof. unfold EmitLoadAx. dl. Qed.
Lemma d_store n l v : dd ide (EmitStoreAx W n l v). Proof. unfold EmitStoreAx. dl. Qed.
Lemma d_storec n l v : dd ide (EmitStoreConst W n l v). Proof. unfold EmitStoreConst. dl. Qed.
Lemma d_imm r v : dd ide (EmitMovRImm W r v). Proof. unfold EmitMovRImm. dl. Qed.
Lemma d_rr r v : dd ide (EmitMovRR W r v). Proof. unfold EmitMovRR. dl. Qed.
Lemma d_halve n : forall x m, dd ide m -> dd ide (halve_loop n x m).
Proof. induction n as [|n IH]; intros x m H; cbn [halve_loop]; dl. Qed.
Hint Resolve d_load d_store d_storec d_imm d_rr d_halve : ddh.
Lemma d_scale v : dd ide (EmitScaleAx W v). Proof. unfold EmitScaleAx. dl. Qed.
Lemma d_divcx : dd ide (EmitDivCX W). Proof. unfold EmitDivCX. dl. Qed.
Hint Resolve d_scale d_divcx : ddh.
Lemma d_div v : dd ide (EmitDivAxConst W v). Proof. unfold EmitDivAxConst. dl. Qed.
Lemma d_jump l : dd ide (EmitLocalJump W l). Proof. unfold EmitLocalJump. dl. Qed.
Hint Resolve d_div d_jump : ddh.
Lemma d_jcc c l : dd ide (EmitJcc W c l).
Proof. unfold EmitJcc. apply d_checked; [apply chk|dl|intro; dl]. Qed.
Lemma d_addr r l v : dd ide (EmitLoadAddr W r l v). Proof. unfold EmitLoadAddr. dl. Qed.
Lemma d_ext b : dd ide (EmitExtend W b). Proof. unfold EmitExtend. dl. Qed.
End Emit.
#[export] Hint Resolve d_o1 d_o2 d_o3 d_ow d_add d_flushsp d_flushax d_make d_label d_glob d_fixl d_fixv d_ref d_refrel d_modrm d_load d_store d_storec d_imm d_rr d_halve d_scale d_divcx d_div d_jump d_jcc d_addr d_ext : ddh.

(** ** The parser *)
Section One.
Variable W : Z.
Variable F : nat.
(** string literals are collected beyond the program *)
Definition kv {A} (m : M lexst A) : Prop := forall s a s', m s = Ok (a, s') -> TokenStrLit s' = TokenStrLit s /\ TokenNumVal s' = TokenNumVal s.
Lemma kv_bind {A B} (m : M lexst A) (k : A -> M lexst B) : kv m -> (forall a, kv (k a)) -> kv (bind m k).
Proof. intros H1 H2 s x s' H. minv H y s1 E. destruct (H1 _ _ _ E) as [Q1 Q2], (H2 _ _ _ _ H) as [Q3 Q4]. split; congruence. Qed.
Lemma kv_ret {A} (a : A) : kv (ret a). Proof. intros s x s' H. oki H. auto. Qed.
Lemma kv_fatal {A} : kv (@fatal lexst A). Proof. intros s x s' H. discriminate. Qed.
Lemma kv_undef {A} : kv (@undef lexst A). Proof. intros s x s' H. discriminate. Qed.
Lemma kv_nofuel {A} : kv (@nofuel lexst A). Proof. intros s x s' H. discriminate. Qed.
Lemma kv_failif b : kv (failif b). Proof. destruct b; [apply kv_fatal|apply kv_ret]. Qed.
Lemma kv_gets {A} (g : lexst -> A) : kv (gets g). Proof. intros s x s' H. unfold gets in H. oki H. auto. Qed.
Lemma kv_upd g : (forall s, TokenStrLit (g s) = TokenStrLit s /\ TokenNumVal (g s) = TokenNumVal s) -> kv (upd g).
Proof. intros Q s x s' H. oki H. apply Q. Qed.
Lemma kv_loop {X A} n : forall (b : X -> M lexst (X + A)) x, (forall x, kv (b x)) -> kv (loopM n b x).
Proof. induction n as [|n IH]; intros b x H; [apply kv_nofuel|]. cbn [loopM]. apply kv_bind; [apply H|]. intros [x'|a]; [apply IH; auto|apply kv_ret]. Qed.
Ltac kvl := cbv zeta; lazymatch goal with
  | |- kv (bind _ _) => apply kv_bind; [kvl|intro; kvl] | |- kv (ret _) => apply kv_ret | |- kv fatal => apply kv_fatal | |- kv undef => apply kv_undef | |- kv nofuel => apply kv_nofuel
  | |- kv (failif _) => apply kv_failif | |- kv (gets _) => apply kv_gets | |- kv (upd _) => apply kv_upd; intro; split; reflexivity | |- kv (loopM _ _ _) => apply kv_loop; intro; kvl
  | |- kv (when ?b _) => destruct b; unfold when; kvl
  | |- kv (match ?x with _ => _ end) => destruct x; kvl
  | |- _ => first [assumption | solve [auto with kvh]] end.
Lemma kv_raw : kv rawnext. Proof. unfold rawnext. kvl. Qed.
Hint Resolve kv_raw : kvh.
Lemma kv_read : kv read_file. Proof. unfold read_file. kvl. Qed.
Hint Resolve kv_read : kvh.
Lemma kv_next : kv NextChar. Proof. unfold NextChar. kvl. Qed.
Lemma kv_unread : kv unread. Proof. unfold unread. kvl. Qed.
Lemma kv_line : kv incLine. Proof. unfold incLine. kvl. Qed.
Hint Resolve kv_next kv_unread kv_line : kvh.
Lemma kv_blanks : kv (skip_blanks F). Proof. unfold skip_blanks. kvl. Qed.
Lemma kv_skipl : kv (skip_line F). Proof. unfold skip_line. kvl. Qed.
Lemma kv_comment : kv (skip_comment F). Proof. unfold skip_comment. kvl. Qed.
Hint Resolve kv_blanks kv_skipl kv_comment : kvh.
Lemma kv_skip : kv (SkipWhitespace F). Proof. unfold SkipWhitespace. kvl. Qed.
Lemma kv_num n : forall i b, kv (GetNum W i b n). Proof. induction n as [|n IH]; intros i b; cbn [GetNum]; kvl. Qed.
Hint Resolve kv_skip kv_num : kvh.
Lemma kv_unescape : kv (Unescape W). Proof. unfold Unescape. kvl. Qed.
Section Lit.
Variable e0 : emst.
Definition J (s : cc) : Prop := IsDeadCode (em s) = IsDeadCode e0 /\ same e0 (em s) /\ TokenStrLit (lx s) = CodeAddress e0 + 64 - CODESTART /\ 0 <= TokenNumVal (lx s).
Definition pj {A} (m : M cc A) : Prop := forall s a s', J s -> m s = Ok (a, s') -> J s'.
Lemma pj_bind {A B} (m : M cc A) (k : A -> M cc B) : pj m -> (forall a, pj (k a)) -> pj (bind m k).
Proof. intros H1 H2 s x s' I H. minv H y s1 E. exact (H2 _ _ _ _ (H1 _ _ _ I E) H). Qed.
Lemma pj_ret {A} (a : A) : pj (ret a). Proof. intros s x s' I H. oki H. exact I. Qed.
Lemma pj_failif b : pj (failif b). Proof. destruct b; [intros s x s' I H; discriminate|apply pj_ret]. Qed.
Lemma pj_getl {A} (g : lexst -> A) : pj (getl g). Proof. intros s x s' I H. unfold getl, gets in H. oki H. exact I. Qed.
Lemma pj_if {A} (b : bool) (m m' : M cc A) : pj m -> pj m' -> pj (if b then m else m'). Proof. destruct b; auto. Qed.
Lemma pj_inlx {A} (m : M lexst A) : kv m -> pj (inlx m).
Proof.
  intros K s x s' I H. unfold inlx in H. destruct (m (lx s)) as [[a l]| | |] eqn:E; try discriminate. oki H. destruct (K _ _ _ E) as [Q1 Q2].
  destruct I as (I1 & I2 & I3 & I4). repeat split; [exact I1|apply I2|apply I2|cbn; congruence|cbn; rewrite Q2; exact I4].
Qed.
Lemma pj_loop {X A} n : forall (b : X -> M cc (X + A)) x, (forall x, pj (b x)) -> pj (loopM n b x).
Proof. induction n as [|n IH]; intros b x H; [intros s y s' I E; discriminate|]. cbn [loopM]. apply pj_bind; [apply H|]. intros [x'|a]; [apply IH; auto|apply pj_ret]. Qed.
Lemma pj_put ch : pj (let! p := getl TokenStrLit in let! n := getl TokenNumVal in updl (set_TokenNumVal (n + 1)) ;; inem (poke (CODESTART + p + n) ch)).
Proof.
  intros s x s' (I1 & (I2 & I3) & I4 & I5) H. unfold getl, updl in H. rewrite !bind_gets, bind_upd in H. unfold inem, poke in H.
  cbn [em lx set_lx] in H. destruct (in_output _) in H; [|discriminate]. oki H.
  unfold J, same. cbn [em lx set_em set_lx CodeAddress IsDeadCode Output set_Output TokenStrLit TokenNumVal set_TokenNumVal]. split; [exact I1|]. split; [split; [exact I2|]|].
  - intros i L. rewrite aget_aset_other; [apply I3; exact L|]. unfold CODESTART in *. lia.
  - split; [exact I4|lia].
Qed.
End Lit.
Lemma k_GetStringLiteral : keeps em (GetStringLiteral W F).
Proof.
  intros s x s' H. unfold GetStringLiteral in H. cbv zeta in H. unfold gete, updl in H. rewrite bind_gets, !bind_upd in H. cbv beta in H.
  match type of H with ?m ?t = _ => cut (J (em s) s'); [intros (Q1 & Q2 & _); auto|cut (pj (em s) m); [intro P; refine (P t x s' _ H)|]] end.
  { unfold J. cbn. split; [reflexivity|]. split; [apply same_refl|]. split; [reflexivity|lia]. }
  clear. repeat first [apply pj_put | apply pj_failif | apply pj_bind; [|intro] | apply pj_loop; intro | apply pj_if | apply pj_ret | apply pj_failif | apply pj_getl | apply pj_inlx; auto using kv_next, kv_skip, kv_unescape].
Qed.
Ltac kl := cbv zeta; lazymatch goal with
  | |- keeps _ (bind _ _) => apply k_bind; [kl|intro; kl] | |- keeps _ (ret _) => apply k_ret | |- keeps _ fatal => apply k_fatal | |- keeps _ (failif _) => apply k_failif
  | |- keeps _ (getl _) => apply k_gets | |- keeps _ (updl _) => kupd | |- keeps _ (upde _) => kupd | |- keeps _ (inlx _) => apply dd_inlx | |- keeps _ (indc _) => apply dd_indc | |- keeps _ (gete _) => apply k_gets
  | |- keeps _ (when ?b _) => destruct b; unfold when; kl
  | |- keeps _ (match ?x with _ => _ end) => destruct x; kl
  | |- _ => assumption end.
Lemma k_GetToken : keeps em (GetToken W F). Proof. pose proof k_GetStringLiteral. unfold GetToken. kl. Qed.
Lemma k_Expect t : keeps em (Expect W F t). Proof. pose proof k_GetToken. unfold Expect. kl. Qed.
Lemma d_GetToken : dd em (GetToken W F). Proof. apply keeps_dd, k_GetToken. Qed.
#[local] Hint Resolve d_GetToken : ddh.
Definition Drec (r : recs) : Prop :=
  dd em (pExpr r) /\ dd em (pAssign r) /\ dd em (pCast r) /\ dd em (pUnary r) /\ dd em (pPostfix r) /\ (forall n, dd em (pExpr1 r n)) /\
  dd em (pDeclSpecs r) /\ (forall p, dd em (pDeclarator r p)).
(* declarations *)
Lemma d_SizeofCurrentType : dd em SizeofCurrentType.
Proof. unfold SizeofCurrentType. dl. Qed.
Lemma d_Expect t : dd em (Expect W F t).
Proof. unfold Expect. dl. Qed.
Lemma d_ExpectId : dd em (ExpectId W F).
Proof. unfold ExpectId. dl. Qed.
Lemma d_LookupTypedef : dd em LookupTypedef.
Proof. unfold LookupTypedef. dl. Qed.
#[local] Hint Resolve d_SizeofCurrentType d_Expect d_ExpectId d_LookupTypedef : ddh.
Lemma d_IsTypeStart : dd em IsTypeStart.
Proof. unfold IsTypeStart. dl. Qed.
Lemma d_AddVarDeclScope s i : dd em (AddVarDeclScope s i).
Proof. unfold AddVarDeclScope. dl. Qed.
#[local] Hint Resolve d_IsTypeStart d_AddVarDeclScope : ddh.
Lemma d_AddVarDecl i : dd em (AddVarDecl i).
Proof. unfold AddVarDecl. dl. Qed.
Lemma d_AddLateGlobalVar i : dd em (AddLateGlobalVar i).
Proof. unfold AddLateGlobalVar. dl. Qed.
Lemma d_PushScope : dd em PushScope.
Proof. unfold PushScope. dl. Qed.
#[local] Hint Resolve d_AddVarDecl d_AddLateGlobalVar d_PushScope : ddh.
Lemma d_pop_loop n : forall i, dd em (pop_loop n i).
Proof. induction n; intro i; cbn [pop_loop]; dl. Qed.
#[local] Hint Resolve d_pop_loop : ddh.
Lemma d_PopScope : dd em PopScope.
Proof. unfold PopScope. dl. Qed.
Lemma d_HandlePrimaryId : dd em HandlePrimaryId.
Proof. unfold HandlePrimaryId. dl. Qed.
Lemma d_GetNamedLabel i : dd em (GetNamedLabel i).
Proof. unfold GetNamedLabel. dl. Qed.
Lemma d_EmitGlobalLabel i : dd em (EmitGlobalLabel i).
Proof. unfold EmitGlobalLabel. dl. Qed.
#[local] Hint Resolve d_PopScope d_HandlePrimaryId d_GetNamedLabel d_EmitGlobalLabel : ddh.

(* expressions *)
Ltac un := unfold pushreg, next, o1, o2, o3, ow, setT, setV, setX, addOffset, addPending, clrPushAx, setPushAx, hasPushAx.
Lemma d_LvalToRval : dd em (LvalToRval W).
Proof. unfold LvalToRval. un. dl. Qed.
Lemma d_DoIncDecOp o p : dd em (DoIncDecOp W o p).
Proof. unfold DoIncDecOp. un. dl. Qed.
Lemma d_copy_literal n : dd em (copy_literal W n).
Proof. induction n; cbn [copy_literal]; un; dl. Qed.
#[local] Hint Resolve d_LvalToRval d_DoIncDecOp d_copy_literal : ddh.
Lemma d_GetVal : dd em (GetVal W).
Proof. unfold GetVal. un. dl. Qed.
#[local] Hint Resolve d_GetVal : ddh.
Lemma d_GetStoredVal r : dd em (GetStoredVal W r).
Proof. unfold GetStoredVal. un. dl. Qed.
Lemma d_ToBool : dd em (ToBool W).
Proof. unfold ToBool. un. dl. Qed.
#[local] Hint Resolve d_GetStoredVal d_ToBool : ddh.
Lemma d_unary_op o : dd em (unary_op W o).
Proof. unfold unary_op. un. dl. Qed.
Lemma d_RemoveAssign o : dd em (RemoveAssign o).
Proof. unfold RemoveAssign. un. dl. Qed.
Lemma d_GetSimpleALU o : dd em (GetSimpleALU o).
Proof. unfold GetSimpleALU. un. dl. Qed.
#[local] Hint Resolve d_unary_op d_RemoveAssign d_GetSimpleALU : ddh.
Lemma d_FinishOp i : dd em (FinishOp i).
Proof. unfold FinishOp. un. dl. Qed.
#[local] Hint Resolve d_FinishOp : ddh.
Lemma d_DoBinOp o r : dd em (DoBinOp W o r).
Proof. unfold DoBinOp. un. dl. Qed.
Lemma d_DoRhsLvalBinOp o : dd em (DoRhsLvalBinOp W o).
Proof. unfold DoRhsLvalBinOp. un. dl. Qed.
#[local] Hint Resolve d_DoBinOp d_DoRhsLvalBinOp : ddh.
Lemma d_DoRhsConstBinOp o : dd em (DoRhsConstBinOp W o).
Proof. unfold DoRhsConstBinOp. un. dl. Qed.
Lemma d_ForceToReg : dd em (ForceToReg W).
Proof. unfold ForceToReg. un. dl. Qed.
Lemma d_HandleLhsLvalLoc o : dd em (HandleLhsLvalLoc W o).
Proof. unfold HandleLhsLvalLoc. un. dl. Qed.
Lemma d_member_expr : dd em (member_expr W F).
Proof. unfold member_expr. un. dl. Qed.
#[local] Hint Resolve d_DoRhsConstBinOp d_ForceToReg d_HandleLhsLvalLoc d_member_expr : ddh.
Lemma d_assign_op a b c d e : dd em (assign_op W a b c d e).
Proof. unfold assign_op. un. dl. Qed.
Lemma d_binary_op a b c d e : dd em (binary_op W a b c d e).
Proof. unfold binary_op. un. dl. Qed.
#[local] Hint Resolve d_assign_op d_binary_op : ddh.

Section Recs.
Variable r : recs.
Hypothesis HR : Drec r.
Lemma h_pExpr : dd em (pExpr r). Proof. apply HR. Qed.
Lemma h_pAssign : dd em (pAssign r). Proof. apply HR. Qed.
Lemma h_pCast : dd em (pCast r). Proof. apply HR. Qed.
Lemma h_pUnary : dd em (pUnary r). Proof. apply HR. Qed.
Lemma h_pPostfix : dd em (pPostfix r). Proof. apply HR. Qed.
Lemma h_pExpr1 n : dd em (pExpr1 r n). Proof. apply HR. Qed.
Lemma h_pDeclSpecs : dd em (pDeclSpecs r). Proof. apply HR. Qed.
Lemma h_pDeclarator p : dd em (pDeclarator r p). Proof. apply HR. Qed.
#[local] Hint Resolve h_pExpr h_pAssign h_pCast h_pUnary h_pPostfix h_pExpr1 h_pDeclSpecs h_pDeclarator : ddh.
Lemma d_HandleVarArg : dd em (HandleVarArg W F r).
Proof. unfold HandleVarArg. un. dl. Qed.
#[local] Hint Resolve d_HandleVarArg : ddh.
Lemma d_ParsePrimaryExpression : dd em (ParsePrimaryExpression W F r).
Proof. unfold ParsePrimaryExpression. un. dl. Qed.
Lemma d_call_args : dd em (call_args W F r).
Proof. unfold call_args. un. dl. Qed.
#[local] Hint Resolve d_ParsePrimaryExpression d_call_args : ddh.
Lemma d_call_expr : dd em (call_expr W F r).
Proof. unfold call_expr. un. dl. Qed.
Lemma d_index_expr : dd em (index_expr W F r).
Proof. unfold index_expr. un. dl. Qed.
#[local] Hint Resolve d_call_expr d_index_expr : ddh.
Lemma d_ParsePostfixExpression : dd em (ParsePostfixExpression W F r).
Proof. unfold ParsePostfixExpression. un. dl. Qed.
(** sizeof, scc.c:2079-2104 *)
Definition sizeof_part : M cc unit :=
  GetToken W F ;;
  let! wasdead := gete IsDeadCode in
  upde (set_IsDeadCode true) ;;
  let! t := getl TokenType in
  (if t =? ch_lpar then
     GetToken W F ;;
     let! ty := IsTypeStart in
     (if ty then
        pDeclSpecs r ;; pDeclarator r IdNull ;;
        let! n := SizeofCurrentType in setV n
      else pAssign r) ;;
     Expect W F ch_rpar
   else pUnary r) ;;
  let! dead := gete IsDeadCode in
  failif (negb dead) ;;
  upde (set_IsDeadCode wasdead) ;;
  let! n := SizeofCurrentType in
  setV n ;;
  setT (VT_LOCLIT + VT_INT).
Lemma k_sizeof : keeps em sizeof_part.
Proof.
  unfold sizeof_part. un. apply k_bind; [apply k_GetToken|intro].
  unfold gete at 1, upde at 1. apply k_scoped; [reflexivity|intro; split; reflexivity|intro w]. apply mid_bind; [dl|intro]. apply mid_bind; [dl|intro].
  unfold gete, upde. apply mid_check; [reflexivity|intro; split; [reflexivity|split; reflexivity]|intro]. apply k_bind; [|intro; apply k_bind; [kupd|intro; kupd]].
  unfold SizeofCurrentType. kl.
Qed.
Lemma d_ParseUnaryExpression : dd em (ParseUnaryExpression W F r).
Proof.
  unfold ParseUnaryExpression. un. apply dd_bind; [dl|intro t]. apply dd_if; [dl|]. apply dd_if; [dl|]. apply dd_if; [exact (keeps_dd _ _ k_sizeof)|dl].
Qed.
Lemma d_ParseCastExpression : dd em (ParseCastExpression W F r).
Proof. unfold ParseCastExpression. un. dl. Qed.
Lemma d_ParseMaybeDead b : dd em (ParseMaybeDead r b).
Proof.
  unfold ParseMaybeDead. un. apply dd_if; [dl|]. do 3 (apply dd_bind; [dl|intro]). unfold gete, upde. apply keeps_dd, k_scoped; [reflexivity|intro; split; reflexivity|intro w].
  apply mid_bind; [dl|intro]. apply mid_check; [reflexivity|intro; split; [reflexivity|split; reflexivity]|intro]. repeat (first [apply k_bind; [|intro] | kupd]).
Qed.
#[local] Hint Resolve d_ParseMaybeDead : ddh.
Lemma d_HandleCondOp : dd em (HandleCondOp W F r).
Proof.
  unfold HandleCondOp. un. apply dd_bind; [dl|intro t]. apply dd_if; [dl|]. apply ends_dd. do 12 (apply ends_bind; intro). cbv zeta.
  destruct (_ || _); repeat first [apply ends_inem, ends_label | apply ends_bind; intro].
Qed.
Lemma d_rhs_loop n : dd em (rhs_loop F r n).
Proof. unfold rhs_loop. un. dl. Qed.
#[local] Hint Resolve d_HandleCondOp d_rhs_loop : ddh.
Lemma d_expr1_body : dd em (expr1_body W F r).
Proof. unfold expr1_body. un. dl. Qed.
#[local] Hint Resolve d_expr1_body : ddh.
Lemma d_ParseExpr1 n : dd em (ParseExpr1 W F r n).
Proof. unfold ParseExpr1. un. dl. Qed.
Lemma d_ParseExpr : dd em (ParseExpr r).
Proof. unfold ParseExpr. un. dl. Qed.
Lemma d_ParseAssignmentExpression : dd em (ParseAssignmentExpression r).
Proof. unfold ParseAssignmentExpression. un. dl. Qed.

(* statements *)
Lemma d_SaveBaseType : dd em SaveBaseType.
Proof. unfold SaveBaseType. un. dl. Qed.
Lemma d_set_last a b c : dd em (set_last a b c).
Proof. unfold set_last. un. dl. Qed.
#[local] Hint Resolve d_SaveBaseType d_set_last : ddh.
Lemma d_enum_spec : dd em (enum_spec W F r).
Proof. unfold enum_spec. un. dl. Qed.
Lemma d_struct_spec b : dd em (struct_spec W F r b).
Proof. unfold struct_spec, open_struct, alloc_member, record_member. un. dl. Qed.
#[local] Hint Resolve d_enum_spec d_struct_spec : ddh.
Lemma d_ParseDeclSpecs : dd em (ParseDeclSpecs W F r).
Proof. unfold ParseDeclSpecs. un. dl. Qed.
Lemma d_param_list : dd em (param_list W F r).
Proof. unfold param_list. un. dl. Qed.
Lemma d_array_suffix : dd em (array_suffix W F r).
Proof. unfold array_suffix, open_array, set_bound, close_array. un. dl. Qed.
#[local] Hint Resolve d_param_list d_array_suffix : ddh.
Lemma d_ParseDeclarator p : dd em (ParseDeclarator W F r p).
Proof. unfold ParseDeclarator, store_id. un. dl. Qed.
End Recs.
Lemma d_tie n : Drec (tie W F n).
Proof.
  induction n as [|n IH]; [repeat split; intros; discriminate|].
  unfold Drec. cbn [tie pExpr pAssign pCast pUnary pPostfix pExpr1 pDeclSpecs pDeclarator].
  split; [apply d_ParseExpr; exact IH|]. split; [apply d_ParseAssignmentExpression; exact IH|]. split; [apply d_ParseCastExpression; exact IH|].
  split; [apply d_ParseUnaryExpression; exact IH|]. split; [apply d_ParsePostfixExpression; exact IH|]. split; [intro; apply d_ParseExpr1; exact IH|].
  split; [apply d_ParseDeclSpecs; exact IH|]. intro; apply d_ParseDeclarator; exact IH.
Qed.
End One.
