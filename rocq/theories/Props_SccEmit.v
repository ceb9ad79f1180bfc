(** Properties C21-C31, C40 and C55: the machine code scc.c emits.

    Reading guide.  An [emst] is the state of the code emitter: the output bytes, the address
    [CodeAddress] of the next one, the labels, the current operand.  [live e]: code is
    reachable, no stack adjustment is postponed and the output position is inside the buffer.
    Every theorem has the form "if the emitting function succeeds then ...".
    [does e e' R]: whenever the bytes emitted between e and e' are in memory at the
    instruction pointer, then every 8086 execution (Spec8086.v), whatever the processor does
    with undefined flags, reaches the end of these bytes in a state related by R to the
    initial one; [does_if pre] assumes [pre] of the initial state.  [keeps_but regs]: segment
    registers, memory and all general registers but [regs] are unchanged.  [holds c v s]: in
    the flags of s the condition code c has value v, and the negated code the negated value.
    [returns src u n] compiles a C text and runs it (SccWitness.v). *)
From Verif Require Import Base Bits Spec8086 SccRun SccState SccEmit SccLex SccDecl SccExpr SccStmt SccInput SccPut SccArith SccOps SccJump SccMem SccFix SccTruth SccWitness.
From Coq Require Import String.
Local Open Scope list_scope.

Lemma live_em0 : live em0.
Proof. repeat split; vm_compute; discriminate. Qed.

(** ** C21: adding a constant to a register *)
Theorem C21_add : forall W r c e e', 16 <= W -> 0 <= r < 8 -> - 2 ^ (W - 1) < c < 2 ^ (W - 1) -> live e ->
  EmitAddRegConst W r c e = Ok (tt, e') ->
  does e e' (only_regs (fun R => rset R r ((rget R r + c) mod 65536))).
Proof. intros W r c e e' HW. exact (add_does W HW r c e e'). Qed.
(** the one constant missing: the most negative int; two decrements are emitted *)
Theorem C21_min_refuted : appends (EmitAddRegConst 16 3 (-32768)) em0 = Some [75; 75] /\
  (forall R, (rget R 3 + -32768) mod 65536 <> (rget R 3 - 2) mod 65536).
Proof.
  split; [vm_compute; reflexivity|]. intros R H.
  pose proof (Z.div_mod (rget R 3 + -32768) 65536 ltac:(lia)). pose proof (Z.div_mod (rget R 3 - 2) 65536 ltac:(lia)). lia.
Qed.
Example C21_ex : live em0 /\ appends (EmitAddRegConst 16 3 (-300)) em0 = Some [129; 235; 44; 1] /\ appends (EmitAddRegConst 32 0 2) em0 = Some [64; 64].
Proof. split; [exact live_em0|]. split; vm_compute; reflexivity. Qed.

(** ** C22: multiplying by a constant *)
Theorem C22_scale : forall W c e e', 16 <= W -> - 2 ^ (W - 1) <= c < 2 ^ (W - 1) -> c <> 0 -> live e ->
  EmitScaleAx W c e = Ok (tt, e') ->
  does e e' (fun s s' => ax (rg s') = (ax (rg s) * c) mod 65536 /\ keeps_but [R_AX; R_CX; R_DX] s s').
Proof. intros W c e e' HW. exact (scale_does W HW c e e'). Qed.
Theorem C22_zero : forall W e, EmitScaleAx W 0 e = Ok (tt, e).
Proof. exact scale_zero. Qed.
Theorem C22_zero_refuted : returns "int f(int a) { return a * 0; } int _start() { return f(3); }" zclear 100 = Some 3.
Proof. vm_compute. reflexivity. Qed.
Example C22_ex : appends (EmitScaleAx 16 10) em0 = Some [185; 10; 0; 247; 225] /\ appends (EmitScaleAx 16 8) em0 = Some [209; 224; 209; 224; 209; 224].
Proof. split; vm_compute; reflexivity. Qed.

(** ** C23: dividing by a constant *)
Theorem C23_unsigned : forall W c e e', 16 <= W -> - 2 ^ (W - 1) <= c < 2 ^ (W - 1) -> -32768 <= c < 65536 -> c <> 0 -> live e -> IsUnsignedOp e = true ->
  EmitDivAxConst W c e = Ok (tt, e') ->
  does e e' (fun s s' => ax (rg s') = ax (rg s) / (c mod 65536) /\ keeps_but [R_AX; R_CX; R_DX] s s').
Proof. intros W c e e' HW. exact (divu_does W HW c e e'). Qed.
Theorem C23_signed : forall W c e e', 16 <= W -> -32768 <= c < 32768 -> c <> 0 -> live e -> IsUnsignedOp e = false ->
  (forall k, 0 <= k -> c <> 2 ^ k) -> c <> - 2 ^ (W - 1) ->
  EmitDivAxConst W c e = Ok (tt, e') ->
  does_if (fun s => ~ (ax (rg s) = 32768 /\ c = -1)) e e'
    (fun s s' => ax (rg s') = (Z.quot (signed true (ax (rg s))) c) mod 65536 /\ keeps_but [R_AX; R_CX; R_DX] s s').
Proof. intros W c e e' HW. exact (divs_does W HW c e e'). Qed.
(** a signed division by a power of two rounds down instead of towards zero *)
Theorem C23_signed_pow2 : forall W k e e', 16 <= W -> 0 <= k < W - 1 -> live e -> IsUnsignedOp e = false ->
  EmitDivAxConst W (2 ^ k) e = Ok (tt, e') ->
  does e e' (fun s s' => ax (rg s') = (signed true (ax (rg s)) / 2 ^ k) mod 65536 /\ keeps_but [R_AX] s s').
Proof. intros W k e e' HW. exact (divs_pow2_does W HW k e e'). Qed.
Theorem C23_floor : forall x c, 0 < c -> (x / c = Z.quot x c <-> (0 <= x \/ x mod c = 0)).
Proof. exact floor_quot. Qed.
Theorem C23_pow2_refuted : returns "int f(int a) { return a / 4; } int _start() { return f(-3); }" zclear 100 = Some 65535 /\ Z.quot (-3) 4 = 0.
Proof. split; vm_compute; reflexivity. Qed.
Example C23_ex : appends (EmitDivAxConst 16 10) em0 = Some [185; 10; 0; 153; 247; 249] /\ appends (EmitDivAxConst 16 (2 ^ 2)) em0 = Some [209; 248; 209; 248]
  /\ appends (EmitDivAxConst 16 10) (set_IsUnsignedOp true em0) = Some [185; 10; 0; 49; 210; 247; 241].
Proof. repeat split; vm_compute; reflexivity. Qed.

(** ** C24: pending jumps and their label *)
(** [pending e l sites]: the jumps waiting for label l.  A jump emitted to a label that has
    no address joins the pending ones; other labels keep theirs. *)
Theorem C24_jmp : forall W l e e' x sites, 16 <= W -> bytes_ok e -> live e -> aget (LAddr e) l = 0 -> pending e l sites ->
  EmitJmp W l e = Ok (x, e') ->
  pending e' l (SJmp (CodeAddress e + 1) :: sites) /\ CodeAddress e' = CodeAddress e + 3 /\ IsDeadCode e' = true /\
  (forall l2 s2, l2 <> l -> pending e l2 s2 -> pending e' l2 s2) /\ (forall a, a < CodeAddress e -> byte e' a = byte e a) /\ bytes_ok e'.
Proof. intros W l e e' x sites HW. exact (jmp_pending W l e e' x sites). Qed.
Theorem C24_jcc : forall W c l e e' x sites, 16 <= W -> 0 <= c < 16 -> bytes_ok e -> live e -> aget (LAddr e) l = 0 -> pending e l sites ->
  EmitJcc W c l e = Ok (x, e') ->
  pending e' l (SCond c (CodeAddress e + 3) :: sites) /\ CodeAddress e' = CodeAddress e + 5 /\ live e' /\
  (forall l2 s2, l2 <> l -> pending e l2 s2 -> pending e' l2 s2) /\ (forall a, a < CodeAddress e -> byte e' a = byte e a) /\ bytes_ok e'.
Proof. intros W c l e e' x sites HW. exact (jcc_pending W c l e e' x sites). Qed.
(** Placing the label: the most recent unconditional jumps that would go to the next
    instruction are removed, and every other pending jump behaves as specified: it goes to the
    label when its condition holds, and otherwise does what the code behind it does
    ([behaves]).  [guard] excludes the stale-byte case of C25. *)
Theorem C24_label : forall W l e e' x sites, 16 <= W -> bytes_ok e -> room e 0 -> Pending e = 0 -> pending e l sites ->
  EmitLocalLabel W l e = Ok (x, e') ->
  aget (LAddr e') l = CodeAddress e' /\ IsDeadCode e' = false /\ pending e' l [] /\
  exists gone kept, sites = gone ++ kept /\
    removed (CodeAddress e) gone (CodeAddress e') /\
    (forall s, In s gone -> ref s + 2 <> LastFixup e) /\
    (forall s, In s kept -> ref s + 2 <= CodeAddress e' /\ (guard e' (CodeAddress e') s -> behaves e' (CodeAddress e') s)) /\
    (forall a, (forall s, In s kept -> ~ in_site a s) -> byte e' a = byte e a) /\
    LastFixup e' = CodeAddress e'.
Proof. intros W l e e' x sites HW. exact (label_resolves W l e e' x sites). Qed.

(** ** C25: a byte that was never emitted *)
(** a conditional jump to the next instruction, and the byte behind the output position *)
Definition stale (b : Z) : emst :=
  set_CodeAddress 261 (set_Output (aset (aset (aset (ainit 0) 0 116) 1 3) 5 b) em0).
Definition resolved (b : Z) : option emst := match DoFixups 259 true (stale b) with Ok (_, e) => Some e | _ => None end.
Definition image (e : emst) : list Z := out_bytes 5 0 (Output e).
Theorem C25_stale : 
  chain (stale 0) 259 261 [SCond 5 259] /\ chain (stale 93) 259 261 [SCond 5 259] /\
  (forall a, a < 261 -> byte (stale 0) a = byte (stale 93) a) /\
  option_map image (resolved 0) = Some [117; 3; 136; 192; 144] /\
  option_map image (resolved 93) = Some [117; 3; 93; 195; 144] /\
  (* condition "not zero" false: the first falls through to the label, the second returns *)
  option_map (fun s => ip s) (run (fun _ => zset) 3 0 (set_fl (com [117; 3; 136; 192; 144]) zset)) = Some 261 /\
  option_map (fun s => ip s) (run (fun _ => zset) 3 0 (set_fl (com [117; 3; 93; 195; 144]) zset)) = Some 0.
Proof.
  assert (CH : forall b, chain (stale b) 259 261 [SCond 5 259]).
  { intro b. change 259 with (ref (SCond 5 259)) at 1. constructor.
    - vm_compute. intuition discriminate.
    - vm_compute. discriminate.
    - vm_compute. discriminate.
    - change (byte (stale b) (ref (SCond 5 259)) + 256 * byte (stale b) (ref (SCond 5 259) + 1)) with 0. constructor. }
  split; [apply CH|]. split; [apply CH|]. split.
  - intros a H. unfold byte, stale. cbn [Output set_CodeAddress set_Output]. rewrite !(aget_aset _ 5). unfold CODESTART.
    destruct (Z.eqb_spec 5 (a - 256)); [lia|]. reflexivity.
  - repeat split; vm_compute; reflexivity.
Qed.

(** C24 applies to this buffer *)
Definition wait : emst := set_LocalLabelCounter 1 (set_LRef (aset (ainit 0) 0 259) (stale 0)).
Example C24_ex : bytes_ok wait /\ room wait 0 /\ Pending wait = 0 /\ pending wait 0 [SCond 5 259] /\
  (exists e', EmitLocalLabel 16 0 wait = Ok (tt, e') /\ guard e' (CodeAddress e') (SCond 5 259)) /\
  returns "int f(int a) { int s; s = 0; while (a) { s += a; if (a == 3) { a -= 2; continue; } --a; } return s; } int _start() { return f(5); }" zset 1000 = Some 13.
Proof.
  split; [|split; [|split; [|split; [|split]]]].
  - intro a. unfold byte, wait, stale. cbn [Output set_LocalLabelCounter set_LRef set_CodeAddress set_Output]. rewrite !aget_aset, aget_init.
    repeat match goal with |- context [if ?c then _ else _] => destruct c end; lia.
  - unfold room. vm_compute. split; discriminate.
  - reflexivity.
  - unfold pending. change (aget (LRef wait) 0) with 259. change (CodeAddress wait) with 261.
    apply (chain_frame (stale 0)); [exact (proj1 C25_stale)|intros; reflexivity].
  - eexists. split; [vm_compute; reflexivity|]. split; vm_compute; discriminate.
  - vm_compute. reflexivity.
Qed.

(** ** C26: jumps to a label already placed *)
(** [goes s v addr next]: execution continues at addr if v, at next otherwise, nothing else changed *)
Theorem C26_jmp : forall W l e e' x, 16 <= W -> live e -> aget (LAddr e) l <> 0 -> 0 <= aget (LAddr e) l < 65536 ->
  EmitJmp W l e = Ok (x, e') ->
  (forall s, ip s = CodeAddress e -> loaded e e' (mem s) (cs (sg s)) -> goes s true (aget (LAddr e) l) (CodeAddress e'))
  /\ IsDeadCode e' = true.
Proof. intros W l e e' x HW. exact (jmp_back W l e e' x). Qed.
Theorem C26_jcc : forall W c l e e' x, 16 <= W -> 0 <= c < 16 -> live e -> aget (LAddr e) l <> 0 -> 0 <= aget (LAddr e) l <= CodeAddress e ->
  EmitJcc W c l e = Ok (x, e') ->
  forall s v, ip s = CodeAddress e -> loaded e e' (mem s) (cs (sg s)) -> holds c v s ->
  goes s v (aget (LAddr e) l) (CodeAddress e').
Proof. intros W c l e e' x HW. exact (jcc_back W c l e e' x). Qed.
Definition back (d : Z) : emst := set_LocalLabelCounter 1 (set_LAddr (aset (ainit 0) 0 256) (set_CodeAddress (256 + d) em0)).
Example C26_ex : live (back 50) /\ aget (LAddr (back 50)) 0 = 256 /\
  appends (EmitJmp 16 0) (back 50) = Some [235; 204] /\ appends (EmitJmp 16 0) (back 1000) = Some [233; 21; 252] /\
  appends (EmitJcc 16 JL 0) (back 50) = Some [124; 204] /\ appends (EmitJcc 16 JL 0) (back 1000) = Some [125; 3; 233; 19; 252].
Proof. repeat split; vm_compute; try reflexivity; discriminate. Qed.

(** ** C27: comparisons *)
Theorem C27_compare : forall W op r s s', 16 <= W -> 0 <= r < 8 -> live (em s) ->
  DoBinOp W (cmptok op) r s = Ok (tt, s') ->
  let u := IsUnsignedOp (em s) in
  does (em s) (em s') (fun t t' => holds (CurrentVal (em s')) (cmpval u op (ax (rg t)) (rget (rg t) r)) t'
                                    /\ rg t' = rg t /\ sg t' = sg t /\ mem t' = mem t).
Proof. intros W op r s s' HW. exact (cmp_does W op r s s'). Qed.
(** the 0 or 1 made of a condition *)
Theorem C27_value : forall W s s' x, 16 <= W -> live (em s) -> CurrentType (em s) = VT_BOOL -> 0 <= CurrentVal (em s) < 16 ->
  GetVal W s = Ok (x, s') ->
  CurrentType (em s') = VT_INT /\ live (em s') /\
  forall v, does_if (holds (CurrentVal (em s)) v) (em s) (em s') (fun t t' => ax (rg t') = zb v /\ keeps_but [R_AX] t t').
Proof. intros W s s' x HW. exact (getval_bool W s s' x). Qed.
Example C27_ex : live (em (cc0 nil nil)) /\
  appends (fun e => match DoBinOp 16 (cmptok Le) R_CX (set_em e (cc0 nil nil)) with Ok (x, s) => Ok (x, em s) | _ => Fatal end) em0 = Some [57; 200] /\
  returns "int f(int a, int b) { return a < b; } int _start() { return f(-1, 1); }" zset 100 = Some 1 /\
  returns "int f(unsigned a, unsigned b) { return a < b; } int _start() { return f(-1, 1); }" zset 100 = Some 0.
Proof. split; [exact live_em0|]. repeat split; vm_compute; reflexivity. Qed.

(** ** C28: constant folding *)
(** [cresult op l r v]: v is the mathematical result; [is_int W]: representable *)
Theorem C28_value : forall W op l r v, 16 <= W -> is_int W l -> is_int W r -> ~ no_value W op l r ->
  cresult op l r v -> is_int W v -> DoConstBinOp W (bintok op) l r = Ok v.
Proof.
  intros W op l r v HW L R NV C V. pose proof (fold_results W HW op l r L R) as H.
  destruct (DoConstBinOp W (bintok op) l r) as [v'| | |]; try contradiction. destruct H as [_ H]. rewrite (H v C V). reflexivity.
Qed.
Theorem C28_total : forall W op l r, 16 <= W -> is_int W l -> is_int W r ->
  (exists v, DoConstBinOp W (bintok op) l r = Ok v /\ is_int W v) \/ (DoConstBinOp W (bintok op) l r = UB /\ no_value W op l r).
Proof.
  intros W op l r HW L R. pose proof (fold_results W HW op l r L R) as H.
  destruct (DoConstBinOp W (bintok op) l r) as [v'| | |]; try contradiction; [left|right]; [exists v'; tauto|auto].
Qed.
Theorem C28_others : forall W Op l r, (forall op, Op <> bintok op) -> DoConstBinOp W Op l r = Fatal.
Proof. exact fold_rejects. Qed.
Example C28_ex : DoConstBinOp 16 (bintok Mod) (-7) 3 = Ok (-1) /\ cresult Mod (-7) 3 (-1) /\ ~ no_value 16 Mod (-7) 3 /\ is_int 16 (-1) /\
  DoConstBinOp 16 (bintok Add) 32767 1 = Ok (-32768) /\ DoConstBinOp 16 (bintok Div) 1 0 = UB.
Proof.
  repeat split; try reflexivity; try discriminate.
  - apply (r_mod _ _ (-2)); cbn; lia.
  - unfold no_value. lia.
Qed.

(** ** C29: memory operands *)
(** the operand bytes decode to the variable: BP+offset for locals, the address for globals
    already placed, SI for a pointer *)
Theorem C29_operand : forall W I R Loc Val e e' x, 16 <= W -> 0 <= R < 8 -> live e -> (Loc = VT_LOCGLOB -> aget (VOff e) Val <> 0) ->
  EmitModrm W I R Loc Val e = Ok (x, e') ->
  let n := CodeAddress e' - CodeAddress e in
  let bs := out_bytes (Z.to_nat n) (CodeAddress e - CODESTART) (Output e') in
  forall f, dec_modrm (over bs f) None 1 = (var_mem e Loc Val, R, n) /\
  (Loc = VT_LOCOFF -> (n = 3 <-> -128 <= Val <= 127)).
Proof.
  intros W I R Loc Val e e' x HW HR L G H n bs f. apply modrm_emits in H; auto. destruct H as (-> & L1 & HL).
  assert (N : n = Z.of_nat (Datatypes.length (I :: mem_code e R Loc Val))).
  { unfold n. rewrite add_ref_addr, put_addr. lia. }
  assert (BS : bs = map u8 (I :: mem_code e R Loc Val)).
  { unfold bs. rewrite N, Nat2Z.id.
    replace (Output (add_ref Loc Val _)) with (Output (put (I :: mem_code e R Loc Val) e)) by (unfold add_ref; destruct (_ && _); reflexivity).
    set (l := I :: mem_code e R Loc Val). clearbody l. apply (nth_ext _ _ 0 0).
    - rewrite map_length. generalize (CodeAddress e - CODESTART). generalize (Output (put l e)). induction (Datatypes.length l) as [|k IH]; intros; cbn [out_bytes Datatypes.length]; auto.
    - intros k Hk. assert (LL : forall o a k n, (k < n)%nat -> nth k (out_bytes n a o) 0 = aget o (a + Z.of_nat k)).
      { clear. intros o a k n. revert a k. induction n as [|n IH]; intros a k K; [lia|]. destruct k as [|k]; cbn [out_bytes nth].
        - f_equal. lia.
        - rewrite IH by lia. f_equal. lia. }
      assert (Hk2 : (k < Datatypes.length l)%nat).
      { assert (LN : forall n a o, Datatypes.length (out_bytes n a o) = n) by (clear; induction n; intros; cbn; auto). rewrite LN in Hk. exact Hk. }
      rewrite LL by exact Hk2.
      rewrite (nth_indep _ 0 (u8 0)) by (rewrite map_length; exact Hk2). rewrite map_nth.
      pose proof (put_byte_at l e k Hk2) as P. unfold byte in P. rewrite <- P. f_equal. lia. }
  split.
  - rewrite BS, N. rewrite modrm_decodes; auto. rewrite map_length. reflexivity.
  - intros ->. rewrite N. unfold mem_code. change (VT_LOCOFF =? VT_LOCOFF) with true. cbv iota.
    destruct (Z.leb_spec (-128) Val), (Z.leb_spec Val 127); cbn [andb Datatypes.length]; lia.
Qed.
(** loading and storing a variable of one or two bytes *)
Theorem C29_load : forall W Size Loc Val e e' x, 16 <= W -> Size = 1 \/ Size = 2 -> live e -> is_var e Loc Val ->
  EmitLoadAx W Size Loc Val e = Ok (x, e') -> does e e' (loads e Size Loc Val).
Proof. intros W Size Loc Val e e' x HW A B C D. exact (proj2 (load_does W Size Loc Val e e' x A B C D)). Qed.
Theorem C29_store : forall W Size Loc Val e e' x, 16 <= W -> Size = 1 \/ Size = 2 -> live e -> is_var e Loc Val ->
  EmitStoreAx W Size Loc Val e = Ok (x, e') -> does e e' (fun t t' => stores e Size Loc Val (ax_sized Size t) t t').
Proof. intros W Size Loc Val e e' x HW A B C D. exact (proj2 (store_does W Size Loc Val e e' x A B C D)). Qed.
Example C29_ex : live em0 /\ is_var em0 VT_LOCOFF (-6) /\ appends (EmitModrm 16 139 3 VT_LOCOFF (-6)) em0 = Some [139; 94; 250] /\
  appends (EmitModrm 16 139 3 VT_LOCOFF 200) em0 = Some [139; 158; 200; 0] /\ appends (EmitLoadAx 16 2 VT_LOCOFF (-6)) em0 = Some [139; 70; 250].
Proof. split; [exact live_em0|]. split; [left; reflexivity|]. repeat split; vm_compute; reflexivity. Qed.

(** ** C30: operators at run time *)
Theorem C30_operators : forall W op r s s', 16 <= W -> 0 <= r < 8 -> live (em s) ->
  DoBinOp W (bintok op) r s = Ok (tt, s') ->
  let u := IsUnsignedOp (em s) in
  does_if (fun t => bindef u op (ax (rg t)) (rget (rg t) r)) (em s) (em s')
    (fun t t' => ax (rg t') = binval u op (ax (rg t)) (rget (rg t) r) /\ keeps_but [R_AX; R_DX] t t').
Proof. intros W op r s s' HW. exact (binop_does W op r s s'). Qed.
(** C defines -32768 / 1, the 8086 faults *)
Theorem C30_idiv_refuted : returns "int f(int a, int b) { return a / b; } int _start() { return f(-32767 - 1, 1); }" zclear 1000 = None /\
  returns "int f(int a, int b) { return a / b; } int _start() { return f(-32767, 1); }" zclear 1000 = Some 32769.
Proof. split; vm_compute; reflexivity. Qed.
Example C30_ex : returns "int f(int a, int b) { return a % b; } int _start() { return f(-7, 3); }" zset 100 = Some 65535 /\
  returns "int f(int a, int b) { return a >> b; } int _start() { return f(-7, 1); }" zset 100 = Some 65532 /\
  bindef false Mod 65529 3 /\ binval false Mod 65529 3 = 65535.
Proof. split; [vm_compute; reflexivity|]. split; [vm_compute; reflexivity|]. split; [cbn; lia|vm_compute; reflexivity]. Qed.

(** ** C31: the truth of a result *)
(** the test, when it is emitted *)
Theorem C31_test : forall W s s', 16 <= W -> CurrentType (em s) = VT_INT -> live (em s) -> CodeAddress (em s) <> LastZFInst (em s) ->
  ToBool W s = Ok (tt, s') ->
  CurrentType (em s') = VT_BOOL /\
  does (em s) (em s') (fun t t' => holds (CurrentVal (em s')) (negb (ax (rg t) =? 0)) t' /\ rg t' = rg t /\ sg t' = sg t /\ mem t' = mem t).
Proof. intros W s s' HW. exact (tobool_tests W s s'). Qed.
(** the test, when it is skipped: the zero flag is trusted *)
Theorem C31_skip : forall W s s', 16 <= W -> CurrentType (em s) = VT_INT -> live (em s) -> CodeAddress (em s) = LastZFInst (em s) ->
  ToBool W s = Ok (tt, s') ->
  CurrentType (em s') = VT_BOOL /\ CurrentVal (em s') = JNZ /\ CodeAddress (em s') = CodeAddress (em s) /\ Output (em s') = Output (em s).
Proof. intros W s s' HW. exact (tobool_trusts W s s'). Qed.
(** which is right after + - & | ^ and shifts by a non-zero count of two values in registers *)
Theorem C31_flags : forall W op r s s', 16 <= W -> 0 <= r < 8 -> live (em s) ->
  DoBinOp W (bintok op) r s = Ok (tt, s') ->
  does_if (fun t => bindef (IsUnsignedOp (em s)) op (ax (rg t)) (rget (rg t) r) /\ sets_zf op (rget (rg t) r)) (em s) (em s')
    (fun t t' => holds JNZ (negb (ax (rg t') =? 0)) t').
Proof. intros W op r s s' HW. exact (binop_zf W op r s s'). Qed.
(** and wrong after a multiplication (the result depends on undefined flags) and after adding 0
    (it depends on an older result) *)
Theorem C31_mul_refuted : 
  returns "int f(int a, int b) { if (a * b) return 1; return 0; } int _start() { return f(3, 5); }" zset 1000 = Some 0 /\
  returns "int f(int a, int b) { if (a * b) return 1; return 0; } int _start() { return f(3, 5); }" zclear 1000 = Some 1.
Proof. split; vm_compute; reflexivity. Qed.
Theorem C31_add0_refuted : forall u, 
  returns "int f(int a, int b) { if (a - 3) return 5; if (b + 0) return 1; return 0; } int _start() { return f(3, 7); }" u 1000 = Some 0.
Proof. intros [[] [] [] []]; vm_compute; reflexivity. Qed.
Example C31_ex : returns "int f(int a, int b) { if (a - b) return 1; return 0; } int _start() { return f(3, 5); }" zset 1000 = Some 1.
Proof. vm_compute. reflexivity. Qed.

(** ** C40: constant conditions *)
(** for if, while and for (jump forward when false) the jump is emitted exactly for 0; for
    do-while (jump back when true) nothing is emitted, whatever the constant *)
Theorem C40_constant : forall W s label fwd s', CurrentType (em s) = INTLIT -> DoCondHasExpr W label fwd s = Ok (tt, s') ->
  if fwd && (CurrentVal (em s) =? 0) then exists e', EmitJmp W label (em s) = Ok (tt, e') /\ s' = set_em e' s else s' = s.
Proof. exact const_cond. Qed.
Theorem C40_do_while_refuted : forall u,
  returns "int f(int a) { int i; i = 0; do { i = i + a; if (i > 100) return i; } while (1); return 7; } int _start() { return f(3); }" u 1000 = Some 7.
Proof. intros [[] [] [] []]; vm_compute; reflexivity. Qed.
Example C40_ex : returns "int f(int a) { int i; i = 0; while (1) { i = i + a; if (i > 100) return i; } return 7; } int _start() { return f(3); }" zclear 1000 = Some 102.
Proof. vm_compute. reflexivity. Qed.

(** ** C55: constant operands of && and || *)
Theorem C55_and_refuted : returns "int f(int a) { return a && 0; } int _start() { return f(3); }" zclear 1000 = Some 1 /\
  returns "int f(int a) { return 1 && a; } int _start() { return f(3); }" zclear 1000 = Some 0.
Proof. split; vm_compute; reflexivity. Qed.

Print Assumptions C21_add.
Print Assumptions C21_min_refuted.
Print Assumptions C22_scale.
Print Assumptions C22_zero.
Print Assumptions C22_zero_refuted.
Print Assumptions C23_unsigned.
Print Assumptions C23_signed.
Print Assumptions C23_signed_pow2.
Print Assumptions C23_floor.
Print Assumptions C23_pow2_refuted.
Print Assumptions C24_jmp.
Print Assumptions C24_jcc.
Print Assumptions C24_label.
Print Assumptions C25_stale.
Print Assumptions C26_jmp.
Print Assumptions C26_jcc.
Print Assumptions C27_compare.
Print Assumptions C27_value.
Print Assumptions C28_value.
Print Assumptions C28_total.
Print Assumptions C28_others.
Print Assumptions C29_operand.
Print Assumptions C29_load.
Print Assumptions C29_store.
Print Assumptions C30_operators.
Print Assumptions C30_idiv_refuted.
Print Assumptions C31_test.
Print Assumptions C31_skip.
Print Assumptions C31_flags.
Print Assumptions C31_mul_refuted.
Print Assumptions C31_add0_refuted.
Print Assumptions C40_constant.
Print Assumptions C40_do_while_refuted.
Print Assumptions C55_and_refuted.
