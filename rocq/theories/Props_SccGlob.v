(** Property C38: global data: placement and references.
    [emst] is the state of the code generator, [byte e a] the output byte at address a, [VOff e] the addresses of
    globals and functions (0: not placed).  [steps] is any sequence of: instructions that refer to a global or a
    function, definitions, new variables, jumps to and placements of local labels, ends of functions, and any
    other appended code. *)
From Coq Require Import String.
From Verif Require Import Base Bits Spec8086 SccRun SccState SccEmit SccLex SccDecl SccExpr SccStmt SccInput SccPut SccArith SccOps SccJump SccMem SccFix SccGlob SccTrace SccBss TypeSpec SccType SccWitness.
Local Open Scope list_scope.

(** ** References *)
(** Whatever is emitted in whatever order, every emitted reference to something that has a place in the end
    holds its address (or, for calls and the entry jump, the distance to it), if functions are referred to by
    address only once they are placed, and no function is defined right behind a jump or call to itself. *)
Theorem C38_references : forall W isf e0 e g, fresh e0 -> steps W isf e0 [] e g ->
  forall a v k, In (a, v, k) g -> aget (VOff e) v <> 0 -> holds e (aget (VOff e) v) a k.
Proof. exact references_hold. Qed.

(** the instructions of scc.c that refer to globals are of the form of the sequences above *)
Theorem C38_forms : forall W v,
  (forall size, 1 <= size <= 2 -> EmitLoadAx W size VT_LOCGLOB v = emit_ref W None (159 + size) Abs v /\ opcode_for Abs (159 + size)) /\
  (forall size, 1 <= size <= 2 -> EmitStoreAx W size VT_LOCGLOB v = emit_ref W None (161 + size) Abs v /\ opcode_for Abs (161 + size)) /\
  (forall inst r, 0 <= r < 8 -> EmitModrm W inst r VT_LOCGLOB v = emit_ref W (Some inst) (6 + 8 * r) Abs v /\ opcode_for Abs (6 + 8 * r)) /\
  (forall r, 0 <= r < 8 -> EmitLoadAddr W r VT_LOCGLOB v = emit_ref W None (184 + r) Abs v /\ opcode_for Abs (184 + r)) /\
  opcode_for Call 232 /\ opcode_for Jump I_JMP_REL16 /\ opcode_for Abs (Z.lor I_ADD 5) /\ opcode_for Abs (Z.lor I_MOV_R_IMM16 R_AX).
Proof.
  assert (R8 : forall r, 0 <= r < 8 -> r = 0 \/ r = 1 \/ r = 2 \/ r = 3 \/ r = 4 \/ r = 5 \/ r = 6 \/ r = 7) by lia.
  intros W v. split; [|split; [|split; [|split]]].
  - intros size S. assert (size = 1 \/ size = 2) as [->| ->] by lia; (split; [reflexivity|cbn; lia]).
  - intros size S. assert (size = 1 \/ size = 2) as [->| ->] by lia; (split; [reflexivity|cbn; lia]).
  - intros inst r R. destruct (R8 r R) as [->|[->|[->|[->|[->|[->|[->| ->]]]]]]]; (split; [reflexivity|cbn; lia]).
  - intros r R. destruct (R8 r R) as [->|[->|[->|[->|[->|[->|[->| ->]]]]]]]; (split; [reflexivity|cbn; lia]).
  - unfold opcode_for. repeat split; try reflexivity; discriminate.
Qed.
(** and the output functions only append *)
Theorem C38_appends : forall W b c d e x e',
  Output1Byte W b e = Ok (x, e') \/ Output2Bytes W b c e = Ok (x, e') \/ Output3Bytes W b c d e = Ok (x, e') \/ OutputWord W b e = Ok (x, e') \/
  EmitAddRegConst W b c e = Ok (x, e') \/ FlushSpAdj W e = Ok (x, e') \/ FlushPushAx W e = Ok (x, e') -> appended e e'.
Proof.
  intros W b c d e x e' [H|[H|[H|[H|[H|[H|H]]]]]].
  - eapply apps_W; [apply aO1|exact H].
  - eapply apps_W; [apply aO2|exact H].
  - eapply apps_W; [apply aO3|exact H].
  - eapply apps_W; [apply aOW|exact H].
  - eapply apps_W; [apply apps_add, apps_checks|exact H].
  - eapply apps_W; [apply apps_sp, apps_checks|exact H].
  - eapply apps_W; [apply apps_push, apps_checks|exact H].
Qed.

(** a forward call of function 5, a forward load of variable 6, a conditional jump over the second reference,
    the label, the definition of function 5, another call of it, the definition of variable 6 *)
Definition isf5 (v : Z) : bool := v =? 5.
Definition after {A} (m : M emst A) (e : emst) : emst := match m e with Ok (_, e') => e' | _ => e end.
Definition x1 := after (emit_ref 16 None 232 Call 5) em0.
Definition x2 := after MakeLabel x1.
Definition x3 := after (EmitJcc 16 4 0) x2.
Definition x4 := after (emit_ref 16 (Some 139) 14 Abs 6) x3.
Definition x5 := after (EmitLocalLabel 16 0) x4.
Definition x6 := after (Output1Byte 16 195) x5.
Definition x7 := after (EmitGlobalLabel_ 5 true) x6.
Definition x8 := after (emit_ref 16 None 232 Call 5) x7.
Definition x9 := after (EmitGlobalLabel_ 6 false) x8.
Definition x_log : log := [(270, 5, Call); (266, 6, Abs); (257, 5, Call)].
Example C38_ex : fresh em0 /\ steps 16 isf5 em0 [] x9 x_log /\ aget (VOff x9) 5 = 269 /\ aget (VOff x9) 6 = 272 /\
  word x9 257 = 269 - 259 /\ word x9 266 = 272 /\ word x9 270 = (269 - 272) mod 65536.
Proof.
  split; [split; [intro a; unfold byte; cbn [Output em0]; rewrite aget_init; lia|split; [reflexivity|split; [reflexivity|intros v _; apply aget_init]]]|].
  split; [|vm_compute; repeat split].
  unfold x_log.
  eapply ss_cons; [apply (s_ref 16 isf5 em0 x1 [] None 232 Call 5 tt); [reflexivity|right; reflexivity|vm_compute; reflexivity]|].
  eapply ss_cons; [apply (s_make 16 isf5 x1 x2 _ 0); vm_compute; reflexivity|].
  eapply ss_cons; [apply (s_jcc 16 isf5 x2 x3 _ 4 0 tt); [lia|vm_compute; split; congruence|vm_compute; reflexivity]|].
  eapply ss_cons; [apply (s_ref 16 isf5 x3 x4 _ (Some 139) 14 Abs 6 tt); [cbn; lia|right; reflexivity|vm_compute; reflexivity]|].
  eapply ss_cons; [apply (s_label 16 isf5 x4 x5 _ 0 tt); [lia|vm_compute; reflexivity]|].
  eapply ss_cons; [apply (s_code 16 isf5 x5 x6); apply (apps_W _ _ tt _ (aO1 16 195)); vm_compute; reflexivity|].
  eapply ss_cons; [apply (s_place 16 isf5 x6 x7 _ 5 tt); [|vm_compute; reflexivity]|].
  { intros _ a k IN. change (CodeAddress x6) with 269. vm_compute in IN. destruct IN as [E|[E|[]]]; injection E as <- _; discriminate. }
  eapply ss_cons; [apply (s_ref 16 isf5 x7 x8 _ None 232 Call 5 tt); [reflexivity|left; vm_compute; discriminate|vm_compute; reflexivity]|].
  eapply ss_cons; [apply (s_place 16 isf5 x8 x9 _ 6 tt); [intro Q; vm_compute in Q; discriminate Q|vm_compute; reflexivity]|].
  match goal with |- steps _ _ _ ?g _ _ => assert (EG : g = x_log) by (vm_compute; reflexivity); rewrite EG end. apply ss_nil.
Qed.

(** the condition on functions is needed: the address of a function taken before the function is placed is
    resolved as if it were a call; here MOV AX,000F (184 15 0) instead of MOV AX,0117,
    the address (279) of f: PUSH BP; MOV BP,SP; MOV AX,1 *)
Definition forward_src : string := "int f(); void _start() { int (*p)() = f; p(); } int f() { return 1; }".
Theorem C38_function_address_refuted :
  option_map (fun bs => (firstn 3 (skipn 5 bs), firstn 6 (skipn (Z.to_nat (279 - 256)) bs))) (code_of forward_src) =
  Some ([184; 15; 0], [85; 137; 229; 184; 1; 0]).
Proof. vm_compute. reflexivity. Qed.

(** ** Placement *)
(** The uninitialised globals are put behind the code, in the order of their declaration and without
    overlap; what already has a place keeps it, and no function is left without one. *)
Theorem C38_placement : forall n v0 ebss s x s' ty, 0 < CodeAddress (em s) ->
  (forall v, v0 <= v < v0 + Z.of_nat n -> unplaced s ebss v = true -> sized s ty v) ->
  place_bss n v0 ebss s = Ok (x, s') ->
  CodeAddress (em s) <= CodeAddress (em s') /\
  (forall v, v0 <= v < v0 + Z.of_nat n -> unplaced s ebss v = true ->
     hasb (aget (VType (dc s)) v) VT_FUN = false /\ CodeAddress (em s) <= aget (VOff (em s')) v /\ aget (VOff (em s')) v + size (ty v) <= CodeAddress (em s')) /\
  (forall u v, v0 <= u -> u < v -> v < v0 + Z.of_nat n -> unplaced s ebss u = true -> unplaced s ebss v = true ->
     aget (VOff (em s')) u + size (ty u) <= aget (VOff (em s')) v) /\
  (forall v, ~ (v0 <= v < v0 + Z.of_nat n) \/ unplaced s ebss v = false -> aget (VOff (em s')) v = aget (VOff (em s)) v).
Proof. exact place_bss_ok. Qed.
(** three globals: an int, an initialised one and an array of five chars *)
Definition s_ex : cc :=
  let d := dc (cc0 [] []) in
  let d := set_VType (aset (aset (aset (VType d) 0 (VT_INT + VT_LOCGLOB)) 1 (VT_INT + VT_LOCGLOB)) 2 (VT_ARRAY + VT_LOCGLOB)) d in
  let d := set_ADType (aset (ADType d) 0 VT_CHAR) (set_ADBound (aset (ADBound d) 0 5) (set_ArrayCount 1 d)) in
  set_em (set_CodeAddress 400 (set_VOff (aset (VOff em0) 1 300) em0)) (set_dc d (cc0 [] [])).
Definition ty_ex (v : Z) : cty := if v =? 0 then TInt else TArr 5 TChar.
Example C38_placement_ex : (forall v, 0 <= v < 0 + Z.of_nat 3 -> unplaced s_ex 7 v = true -> sized s_ex ty_ex v) /\
  exists s', place_bss 3 0 7 s_ex = Ok (tt, s') /\ map (aget (VOff (em s'))) [0; 1; 2] = [400; 300; 402] /\ CodeAddress (em s') = 407.
Proof.
  split.
  - intros v R U. assert (v = 0 \/ v = 1 \/ v = 2) as [->|[->| ->]] by lia.
    + split; [apply den_int; reflexivity|]. split; [apply Nat.ltb_lt; reflexivity|]. split; [exact I|]. vm_compute. discriminate.
    + vm_compute in U. discriminate.
    + split; [|split; [apply Nat.ltb_lt; reflexivity|split; [exact I|vm_compute; discriminate]]].
      change (aget (VType (dc s_ex)) 2) with (VT_ARRAY + VT_LOCGLOB).
      assert (B : aget (ADBound (dc s_ex)) (aget (VExtra (dc s_ex)) 2) = 5) by (vm_compute; reflexivity).
      change (ty_ex 2) with (TArr 5 TChar). rewrite <- B. apply den_arr; try reflexivity.
      * vm_compute. split; congruence.
      * vm_compute. discriminate.
      * apply den_char; reflexivity.
  - exists (match place_bss 3 0 7 s_ex with Ok (_, s') => s' | _ => s_ex end). split; [vm_compute; reflexivity|]. split; vm_compute; reflexivity.
Qed.

Print Assumptions C38_references. Print Assumptions C38_forms. Print Assumptions C38_appends. Print Assumptions C38_function_address_refuted. Print Assumptions C38_placement.
