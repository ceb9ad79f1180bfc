(** Property C73: whether the value of a conditional expression is zero, when it is used as a condition.

    Reading guide.  ToBool (scc.c:1990-1997) emits no test of AX if the last operator ended where the code ends now
    (LastZFInst), as the flags are those of its result then (C31).  Placing a label (scc.c:1138-1146) does not reset
    LastZFInst, although the code can now be reached from elsewhere, with other flags.  So after "c ? a : b" with an
    operator at the end of b no test is emitted, and if c holds, the flags are what c or a left.
    [returns]: what the compiled program returns (Props_SccCond.v). *)
From Verif Require Import Base Spec8086 SccRun SccState SccEmit SccLex SccDecl SccExpr SccStmt SccInput SccPut SccOps SccTruth SccTok2 SccTok3 SccScan SccWhole SccWitness SccHold SccFix SccImg SccMach SccPiece SccStm SccProg SccTern Props_SccExpr Props_SccFun Props_SccStmt Props_SccCond.
From Coq Require Import String.
Open Scope Z_scope.

(** *** Placing a label keeps LastZFInst *)
Definition kz {A} (m : M emst A) : Prop := forall e x e', m e = Ok (x, e') -> LastZFInst e' = LastZFInst e.
Lemma kz_bind {A B} (m : M emst A) (f : A -> M emst B) : kz m -> (forall a, kz (f a)) -> kz (bind m f).
Proof. intros H1 H2 e x e' H. minv H y e1 E. rewrite (H2 _ _ _ _ H). exact (H1 _ _ _ E). Qed.
Lemma kz_ret {A} (a : A) : kz (ret a). Proof. intros e x e' H. oki H. reflexivity. Qed.
Lemma kz_gets {A} (f : emst -> A) : kz (gets f). Proof. intros e x e' H. unfold gets in H. apply ok_inj in H. destruct H as [_ <-]. reflexivity. Qed.
Lemma kz_upd f : (forall e, LastZFInst (f e) = LastZFInst e) -> kz (upd f). Proof. intros Q e x e' H. unfold upd in H. apply ok_inj in H. destruct H as [_ <-]. apply Q. Qed.
Lemma kz_failif c : kz (failif c). Proof. intros e x e' H. unfold failif in H. destruct c; [discriminate H|oki H; reflexivity]. Qed.
Lemma kz_peek a : kz (peek a). Proof. intros e x e' H. unfold peek in H. destruct (in_output a); [|discriminate H]. apply ok_inj in H. destruct H as [_ <-]. reflexivity. Qed.
Lemma kz_poke a v : kz (poke a v). Proof. intros e x e' H. unfold poke in H. destruct (in_output a); [|discriminate H]. apply ok_inj in H. destruct H as [_ <-]. reflexivity. Qed.
Ltac kzt := repeat first [apply kz_bind; [|intro]|apply kz_ret|apply kz_gets|apply kz_failif|apply kz_upd; reflexivity|
  match goal with |- kz (if ?c then _ else _) => destruct c | |- kz (when ?c _) => destruct c; cbn [when] | |- kz (peek _) => apply kz_peek | |- kz (poke _ _) => apply kz_poke end].
Lemma kz_fix1 r b : kz (DoFixup1 r b). Proof. unfold DoFixup1. cbv zeta. kzt. Qed.
Lemma kz_loop n : forall r b, kz (fixup_loop n r b).
Proof. induction n as [|n IH]; intros r b; cbn [fixup_loop]; [intros e x e' H; discriminate H|]. destruct (r =? 0); [apply kz_ret|]. apply kz_bind; [apply kz_fix1|]. intro. apply IH. Qed.
Lemma label_zf W l e x e' : Pending e = 0 -> EmitLocalLabel W l e = Ok (x, e') -> LastZFInst e' = LastZFInst e.
Proof.
  intros PD H. unfold EmitLocalLabel in H. mgoin H. minv H y e1 E. unfold failif in E. destruct (_ || _); [discriminate E|]. oki E.
  minv H y e1 E. unfold FlushSpAdj, FlushSpAdj_ in E. mgoin E. rewrite PD in E. change (hasb 0 (-2)) with false in E. cbn [when] in E. oki E.
  mgoin H. minv H y e1 E. unfold DoFixups in E. minv E y2 e2 E2. apply kz_loop in E2. mgoin E. oki E. mgoin H. oki H. exact E2.
Qed.

(** ** C73: no test is emitted at a label that follows an operator, whoever jumps to the label *)
Theorem C73_skipped : forall W l s s' P,
  16 <= W -> Book (em s) P -> live (em s) -> 0 <= l -> CurrentType (em s) = VT_INT -> LastZFInst (em s) = CodeAddress (em s) ->
  (inem (EmitLocalLabel W l) ;; ToBool W) s = Ok (tt, s') ->
  CodeAddress (em s') = CodeAddress (em s) /\ CurrentType (em s') = VT_BOOL /\ CurrentVal (em s') = JNZ /\
  (** the jumps to the label come here *)
  aget (LAddr (em s')) l = CodeAddress (em s').
Proof.
  intros W l s s' P HW BK LV L0 CT ZF H. minv H y s1 E. apply inem_inv in E. destruct E as (e1 & E & ->).
  destruct (st_label W l (em s) P y e1 BK (proj1 (proj2 LV)) L0 E) as (_ & L1 & _ & A1 & CA & _). specialize (CA (proj1 LV)).
  pose proof (label_type _ _ _ _ _ (proj1 (proj2 LV)) E) as CT1. pose proof (label_zf _ _ _ _ _ (proj1 (proj2 LV)) E) as ZF1.
  apply tobool_emits in H; [|exact (eq_trans CT1 CT)|exact L1]. destruct H as [-> _].
  change (em (set_em e1 s)) with e1. assert (B : CodeAddress e1 =? LastZFInst e1 = true) by (apply Z.eqb_eq; congruence). rewrite B.
  split; [exact CA|]. split; [reflexivity|]. split; [reflexivity|exact A1].
Qed.

(** *** A case: the start of a body, an int in AX, and an operator that ended there *)
Definition c73_e : emst := match MakeLabel (em c63_state) with Ok (_, e) => e | _ => em c63_state end.
Definition c73_z : emst := set_CurrentType VT_INT (set_LastZFInst (CodeAddress c73_e) c73_e).
Definition c73_s : cc := set_em c73_z c63_state.
Example C73_case :
  Book c73_z [] /\ live c73_z /\ CurrentType c73_z = VT_INT /\ LastZFInst c73_z = CodeAddress c73_z /\
  (match (inem (EmitLocalLabel 16 0) ;; ToBool 16) c73_s with Ok (_, s') => Some (CodeAddress (em s'), aget (LAddr (em s')) 0) | _ => None end) = Some (256, 256) /\
  (* without the operator, two bytes are emitted *)
  (match (inem (EmitLocalLabel 16 0) ;; ToBool 16) (set_em (set_LastZFInst 0 c73_z) c63_state) with Ok (_, s') => Some (CodeAddress (em s')) | _ => None end) = Some 258.
Proof.
  assert (E : exists l, MakeLabel (em c63_state) = Ok (l, c73_e)).
  { assert (IO : (match MakeLabel (em c63_state) with Ok _ => true | _ => false end) = true) by (vm_compute; reflexivity).
    unfold c73_e. destruct (MakeLabel (em c63_state)) as [[l e]| | |]; try discriminate IO. exists l. reflexivity. }
  destruct E as (l & E). pose proof c63_begins as BG. destruct (st_make _ [] _ _ (begins_book _ BG) E) as (S1 & _ & _ & _ & CA & DE).
  assert (L1 : live c73_e).
  { apply (live_still _ _ (t_book _ _ _ _ _ _ S1)); [rewrite DE; apply BG|]. rewrite (proj1 (t_still _ _ _ _ _ _ S1)). apply BG. }
  assert (L2 : live c73_z) by exact L1.
  split; [exact (t_book _ _ _ _ _ _ (proj1 (st_ext c73_e c73_z [] (t_book _ _ _ _ _ _ S1) L1 L2 (ext_refl c73_e) (still_refl c73_e))))|].
  split; [exact L2|]. split; [reflexivity|]. split; [reflexivity|]. split; vm_compute; reflexivity.
Qed.

(** *** So the truth of a conditional expression can be wrong *)
Open Scope string_scope.
Definition with_ij (body : string) : string := "int i; int j; int _start() { " ++ body ++ " }".
Theorem C73_refuted :
  (** 5 is not zero, but the flags are those of i == j *)
  returns (with_ij "i = 3; j = 3; if (i == j ? 5 : j - 1) return 1; return 2;") zset 1000 = Some 2 /\
  returns (with_ij "i = 3; j = 3; return !(i == j ? 5 : j - 1);") zset 1000 = Some 1 /\
  returns (with_ij "i = 3; j = 3; return (i == j ? 5 : j - 1) && i == j;") zset 1000 = Some 0.
Proof. vm_compute. repeat split. Qed.
(** the same value is not zero if it goes through a variable, if b ends without an operator, or if the flags happen to
    be those of a value that is not zero *)
Example C73_ex :
  returns (with_ij "i = 3; j = 3; i = i == j ? 5 : j - 1; if (i) return 1; return 2;") zset 1000 = Some 1 /\
  returns (with_ij "i = 3; j = 3; if (i == j ? 5 : j) return 1; return 2;") zset 1000 = Some 1 /\
  returns (with_ij "i = 4; j = 3; if (i > j ? 5 : j - 1) return 1; return 2;") zset 1000 = Some 1 /\
  returns (with_ij "i = 4; j = 3; if (i == j ? 5 : j - 3) return 1; return 2;") zset 1000 = Some 2.
Proof. vm_compute. repeat split. Qed.
Print Assumptions C73_skipped.
Print Assumptions C73_refuted.
