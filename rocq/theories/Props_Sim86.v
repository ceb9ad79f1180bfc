(** Properties C01-C09: the simulator sim86.c against the 8086 specification.

    Reading guide.  [Spec8086] is the reference: [decode]/[exec] give the meaning
    of an instruction, [get_op] the value of an operand.  [Sim86.sim_step W]
    is the model of one iteration of the simulator's main loop in a build whose
    int has W bits.  [abs s] is the 8086 state a simulator state stands for:
    every register modulo 65536, the four flags, memory.  [after s n] is [abs s]
    with the instruction pointer moved behind the instruction of length n. *)
From Verif Require Import Base Spec8086 Sim86 Sim86Base Sim86Variant Sim86Refine2 Sim86Facts.

(** ** Concrete states for the examples *)
Fixpoint load (m : arr Z) (a : Z) (l : list Z) : arr Z :=
  match l with [] => m | b :: l => load (aset m a b) (a + 1) l end.
Lemma mem_ok_load l : forall m a, mem_ok m -> forallb (fun b => (0 <=? b) && (b <? 256)) l = true -> mem_ok (load m a l).
Proof.
  induction l as [|b l IH]; intros m a M H; cbn [load forallb] in *; auto.
  apply andb_true_iff in H. destruct H. apply IH; auto. apply mem_ok_aset; auto. lia.
Qed.
Lemma mem_ok_zero : mem_ok (ainit 0). Proof. intro a. rewrite aget_init. lia. Qed.
(** code at 0:100h, with host-integer garbage above bit 15 in AX and BX *)
Definition st (code : list Z) : sim :=
  mksim (mkregs 70000 3 0 (-1) 4096 4096 512 768) (mksregs 0 0 0 0) 256 1 (load (ainit 0) 256 code) 0 0 0 0.
(** the same machine in the 16-bit build *)
Definition st16 (code : list Z) : sim :=
  mksim (mkregs 4464 3 0 (-1) 4096 4096 512 768) (mksregs 0 0 0 0) 256 1 (load (ainit 0) 256 code) 0 0 0 0.
Lemma mem_ok_st code : forallb (fun b => (0 <=? b) && (b <? 256)) code = true -> mem_ok (smem (st code)).
Proof. intro H. apply mem_ok_load; [apply mem_ok_zero|exact H]. Qed.

(** evaluate a run and read off something; used to present witnesses *)
Definition after_run {A} (W : Z) (n : nat) (s : sim) (g : sim -> A) : option A :=
  match sim_steps W n s with Ok s' => Some (g s') | _ => None end.
Lemma after_run_ok {A} W n s (g : sim -> A) v : after_run W n s g = Some v -> exists s', sim_steps W n s = Ok s' /\ g s' = v.
Proof. unfold after_run. destruct (sim_steps W n s) as [s'| | |]; try discriminate. intros [= <-]. eauto. Qed.
Lemma one_step W s s' : sim_steps W 1 s = Ok s' -> sim_step W 4 s = Ok (ENone, s').
Proof.
  cbn [sim_steps]. intro H. apply obind_ok in H. destruct H as ([e x] & -> & H).
  destruct e; try discriminate. injection H as ->. reflexivity.
Qed.

(** ** C01: 16-bit ALU operations follow the 8086, in every build *)
Theorem C01_alu16 : forall W s op d src n, 16 <= W -> mem_ok (smem s) ->
  decode (fetch (abs s)) = Some (IAlu op true d src, n) ->
  exists s', sim_step W 4 s = Ok (ENone, s') /\
             forall u, exec u (IAlu op true d src) (after s n) = Some (abs s').
Proof. exact alu16_step. Qed.
(* ADC AX,BX: 70000 mod 65536 + 65535 + 1 *)
Example C01_ex : decode (fetch (abs (st [17; 216]))) = Some (IAlu ADC true (Reg 0) (Reg 3), 2) /\
  exists s', sim_step 32 4 (st [17; 216]) = Ok (ENone, s') /\ (ax (rg (abs s')), fC (fl (abs s'))) = (4464, true).
Proof.
  split; [vm_compute; reflexivity|].
  destruct (after_run_ok 32 1 (st [17; 216]) (fun s => (ax (rg (abs s)), fC (fl (abs s)))) (4464, true)) as (s' & E & V);
    [vm_compute; reflexivity|]. exists s'. split; [exact (one_step _ _ _ E)|exact V].
Qed.

(** ** C02: 8-bit ALU operations: everything but the zero flag is right; the zero
    flag is right exactly when the result does not wrap to zero *)
Theorem C02_alu8 : forall W s op d src n, 16 <= W -> mem_ok (smem s) ->
  decode (fetch (abs s)) = Some (IAlu op false d src, n) ->
  exists s', sim_step W 4 s = Ok (ENone, s') /\
    forall u t, exec u (IAlu op false d src) (after s n) = Some t ->
      same_data (abs s') t /\ fC (fl (abs s')) = fC (fl t) /\ fS (fl (abs s')) = fS (fl t) /\ fO (fl (abs s')) = fO (fl t) /\
      (fZ (fl (abs s')) = fZ (fl t) <->
       wraps8 op (get_op (after s n) false d) (get_op (after s n) false src) (fl (after s n)) = false).
Proof. exact alu8_step. Qed.
(* ADD BL,imm8 *)
Example C02_ex : decode (fetch (abs (st [128; 195; 7]))) = Some (IAlu ADD false (Reg 3) (Imm 7), 3) /\
  wraps8 ADD (get_op (after (st [128; 195; 7]) 3) false (Reg 3)) 7 (fl (after (st [128; 195; 7]) 3)) = false.
Proof. split; vm_compute; reflexivity. Qed.
(** ADD BL,1 with BL = 0FFh leaves the zero flag clear *)
Theorem C02_zero_flag_refuted : exists s op d src n s',
  decode (fetch (abs s)) = Some (IAlu op false d src, n) /\ sim_step 32 4 s = Ok (ENone, s') /\
  (forall u, option_map (fun t => fZ (fl t)) (exec u (IAlu op false d src) (after s n)) = Some true) /\
  fZ (fl (abs s')) = false.
Proof.
  exists (st [128; 195; 1]), ADD, (Reg 3), (Imm 1), 3.
  destruct (after_run_ok 32 1 (st [128; 195; 1]) (fun s => fZ (fl (abs s))) false) as (s' & E & V); [vm_compute; reflexivity|].
  exists s'. split; [vm_compute; reflexivity|]. split; [exact (one_step _ _ _ E)|].
  split; [intro u; vm_compute; reflexivity|exact V].
Qed.

(** ** C03: conditional jumps decide as the 8086 does *)
Theorem C03_jcc : forall W s cc rel n, 16 <= W -> mem_ok (smem s) ->
  decode (fetch (abs s)) = Some (IJcc cc rel, n) -> cc <> 10 -> cc <> 11 ->
  exists s', sim_step W 4 s = Ok (ENone, s') /\ forall u, exec u (IJcc cc rel) (after s n) = Some (abs s').
Proof. exact jcc_step. Qed.
(** the two parity conditions stop the simulator *)
Theorem C03_parity_stops : forall W s, 16 <= W -> mem_ok (smem s) ->
  fetch (abs s) 0 = 122 \/ fetch (abs s) 0 = 123 -> sim_step W 4 s = Fatal.
Proof. exact parity_fatal. Qed.
(** after CMP the conditions mean the comparisons (B AE E NE BE A L GE LE G) *)
Theorem C03_cmp_meaning : forall a b f, 0 <= a < 65536 -> 0 <= b < 65536 ->
  let g := snd (alu CMP true a b f) in
  cond 2 g = Some (a <? b) /\ cond 3 g = Some (b <=? a) /\
  cond 4 g = Some (a =? b) /\ cond 5 g = Some (negb (a =? b)) /\
  cond 6 g = Some (a <=? b) /\ cond 7 g = Some (b <? a) /\
  cond 12 g = Some (s16v a <? s16v b) /\ cond 13 g = Some (s16v b <=? s16v a) /\
  cond 14 g = Some (s16v a <=? s16v b) /\ cond 15 g = Some (s16v b <? s16v a).
Proof. exact cmp_cond. Qed.
(* JL -4 *)
Example C03_ex : decode (fetch (abs (st [124; 252]))) = Some (IJcc 12 65532, 2).
Proof. vm_compute. reflexivity. Qed.
Example C03_ex2 : fetch (abs (st [122; 0])) 0 = 122. Proof. vm_compute. reflexivity. Qed.

(** ** C04: registers alias as on the 8086 *)
Theorem C04_byte : forall W s r v, 16 <= W -> dsize s = 0 -> 0 <= r < 8 ->
  let s' := WriteReg W s r v in
  (forall j, 0 <= j < 8 -> rget8 (rg (abs s')) j = if r =? j then v mod 256 else rget8 (rg (abs s)) j) /\
  (forall j, 0 <= j < 8 -> (if r <? 4 then r else r - 4) <> j -> rget (rg (abs s')) j = rget (rg (abs s)) j) /\
  ReadReg s' r mod 256 = v mod 256 /\
  sg (abs s') = sg (abs s) /\ ip (abs s') = ip (abs s) /\ fl (abs s') = fl (abs s) /\ mem (abs s') = mem (abs s).
Proof. exact reg8_write. Qed.
Theorem C04_word : forall W s r v, 16 <= W -> dsize s <> 0 -> 0 <= r < 8 ->
  let s' := WriteReg W s r v in
  (forall j, 0 <= j < 8 -> rget (rg (abs s')) j = if r =? j then v mod 65536 else rget (rg (abs s)) j) /\
  ReadReg s' r mod 65536 = v mod 65536 /\
  sg (abs s') = sg (abs s) /\ ip (abs s') = ip (abs s) /\ fl (abs s') = fl (abs s) /\ mem (abs s') = mem (abs s).
Proof. exact reg16_write. Qed.
(* BH := 18 with BX = -1 *)
Example C04_ex : dsize (st []) = 0 /\ rget (rg (abs (WriteReg 32 (st []) 7 18))) 3 = 4863.
Proof. split; vm_compute; reflexivity. Qed.

(** ** C05: memory *)
Theorem C05_word : forall W s sr off v, 16 <= W -> mem_ok (smem s) ->
  let s' := Write16 W s sr off v in
  Read16 W s' sr off mod 65536 = v mod 65536 /\
  (forall a, a <> phys (sget (sg (abs s)) sr) off -> a <> phys (sget (sg (abs s)) sr) (off + 1) -> aget (smem s') a = aget (smem s) a) /\
  aget (smem s') (phys (sget (sg (abs s)) sr) off) = v mod 256 /\
  aget (smem s') (phys (sget (sg (abs s)) sr) (off + 1)) = v / 256 mod 256 /\
  reg s' = reg s /\ sreg s' = sreg s /\ sip s' = sip s /\ sflags s' = sflags s.
Proof. exact mem16_rw. Qed.
Theorem C05_byte : forall s sr off v, mem_ok (smem s) ->
  let s' := Write8 s sr off v in
  Read8 s' sr off = v mod 256 /\ 0 <= Read8 s sr off < 256 /\
  (forall a, a <> phys (sget (sg (abs s)) sr) off -> aget (smem s') a = aget (smem s) a).
Proof. exact mem8_rw. Qed.
(** every address used lies in the 1 MiB array, whatever the registers hold *)
Theorem C05_in_bounds : forall s sr off, 0 <= MAKEADDR s sr off < 1048576.
Proof. exact MAKEADDR_range. Qed.
(* a word written at offset -1 wraps to offset 0 of the segment *)
Example C05_ex : mem_ok (smem (st [])) /\ aget (smem (Write16 32 (st []) 3 (-1) 4660)) 65535 = 52 /\
  aget (smem (Write16 32 (st []) 3 (-1) 4660)) 0 = 18.
Proof. split; [apply mem_ok_st; reflexivity|]. split; vm_compute; reflexivity. Qed.

(** ** C06: effective addresses *)
Theorem C06_modrm : forall W s, 16 <= W -> mem_ok (smem s) ->
  let f := fetch (abs s) in
  f 0 < 192 ->
  exists s' m d n, dec_modrm f None 0 = (Mem None m d, f 0 / 8 mod 8, n) /\
    ModRM W (begin_instr s) = Ok s' /\ addr s' mod 65536 = ea_off (rg (abs s)) m d /\ seg s' = mode_seg m /\
    sip s' mod 65536 = (sip s + n) mod 65536.
Proof. exact modrm_ea. Qed.
(* [BP+DI-1] *)
Example C06_ex : dec_modrm (fetch (abs (st [67; 255]))) None 0 = (Mem None MBPDI 65535, 0, 2) /\
  ea_off (rg (abs (st []))) MBPDI 65535 = 4863 /\ fetch (abs (st [67; 255])) 0 < 192.
Proof. repeat split; vm_compute; reflexivity. Qed.

(** ** C07: one step, and every run, of the 16-bit build *)
(** Each step of an accepted instruction is the step of the specification
    variant [sim_exec] (the 8086 with the deviations listed in Sim86Variant.v). *)
Theorem C07_step : forall s i n t, mem_ok (smem s) -> int16_regs (reg s) ->
  decode (fetch (abs s)) = Some (i, n) -> accepts (fetch (abs s)) = true ->
  sim_exec i (after s n) = Some t ->
  exists s', sim_step 16 4 s = Ok (ENone, s') /\ abs s' = t /\ mem_ok (smem s') /\ int16_regs (reg s').
Proof. exact step16. Qed.
(** On instructions outside the listed deviations the variant is the 8086. *)
Theorem C07_faithful : forall u i s, faithful i = true -> sim_exec i s = exec u i s.
Proof. exact faithful_any. Qed.
(** Outside PUSH SP, indirect CALL through memory or SP, MUL/IMUL (DX), shift
    counts above 15 and 32-bit dividends, registers, memory and instruction
    pointer are the 8086's even where flags are not. *)
Theorem C07_data : forall u i s t t', wf s -> data_ok i s = true ->
  exec u i s = Some t -> sim_exec i s = Some t' -> same_data t t'.
Proof. exact data_ok_exec. Qed.
(** Runs of any length. *)
Theorem C07_run : forall n s t, mem_ok (smem s) -> int16_regs (reg s) ->
  var_steps false n (abs s) = Some t ->
  exists s', sim_steps 16 n s = Ok s' /\ abs s' = t /\ mem_ok (smem s') /\ int16_regs (reg s').
Proof. exact run16. Qed.
(* MOV CX,4; L: ADD AX,CX; DEC CX; CMP CX,0; JNE L: 17 instructions *)
Example C07_ex : option_map (fun t => (ax (rg t), ip t))
  (var_steps false 17 (abs (st16 [185; 4; 0; 1; 200; 73; 131; 249; 0; 117; 248]))) = Some (4474, 267).
Proof. vm_compute. reflexivity. Qed.
Example C07_ex2 : int16_regs (reg (st16 [])).
Proof.
  intro i. assert (H : rget (reg (st16 [])) i = 4464 \/ rget (reg (st16 [])) i = 3 \/ rget (reg (st16 [])) i = 0 \/
    rget (reg (st16 [])) i = -1 \/ rget (reg (st16 [])) i = 4096 \/ rget (reg (st16 [])) i = 512 \/ rget (reg (st16 [])) i = 768).
  { destruct i as [|p|p]; cbn; auto 8. do 3 (try destruct p as [p|p|]; cbn; auto 8). }
  lia.
Qed.
(** A segment override also switches the operand to bytes: ES: MOV [BX],1234h
    stores one byte, where the 8086 stores two. *)
Theorem C07_override_size_refuted : exists s i n s',
  decode (fetch (abs s)) = Some (i, n) /\ sim_step 16 4 s = Ok (ENone, s') /\
  (forall u, option_map (fun t => aget (mem t) 0) (exec u i (after s n)) = Some 18) /\
  aget (smem s') 0 = 0.
Proof.
  exists (st16 [38; 199; 7; 52; 18]), (IMov true (Mem (Some 0) MBX 0) (Imm 4660)), 5.
  destruct (after_run_ok 16 1 (st16 [38; 199; 7; 52; 18]) (fun s => aget (smem s) 0) 0) as (s' & E & V); [vm_compute; reflexivity|].
  exists s'. split; [vm_compute; reflexivity|]. split; [exact (one_step _ _ _ E)|].
  split; [intro u; vm_compute; reflexivity|exact V].
Qed.

(** ** C08: the host build simulates the same machine *)
Theorem C08_same_machine : forall W1 W2 s1 s2 i n t, 16 <= W1 -> 16 <= W2 -> mem_ok (smem s1) -> abs s1 = abs s2 ->
  decode (fetch (abs s1)) = Some (i, n) -> accepts (fetch (abs s1)) = true -> needs_trim i = false ->
  sim_exec i (after s1 n) = Some t ->
  exists s1' s2', sim_step W1 4 s1 = Ok (ENone, s1') /\ sim_step W2 4 s2 = Ok (ENone, s2') /\
    abs s1' = t /\ abs s2' = t.
Proof. exact two_builds. Qed.
Theorem C08_same_run : forall W1 W2 n s1 s2 t, 16 <= W1 -> 16 <= W2 -> mem_ok (smem s1) -> abs s1 = abs s2 ->
  var_steps true n (abs s1) = Some t ->
  exists s1' s2', sim_steps W1 n s1 = Ok s1' /\ sim_steps W2 n s2 = Ok s2' /\ abs s1' = t /\ abs s2' = t.
Proof. exact two_runs. Qed.
Example C08_ex : abs (st [1; 216]) = abs (st16 [1; 216]) /\
  option_map (fun t => ax (rg t)) (var_steps true 1 (abs (st [1; 216]))) = Some 4463.
Proof. split; vm_compute; reflexivity. Qed.
(** MOV AX,[0105h]; SAR AX,1 with FFFEh in memory: -1 in the 16-bit build, 32767 on the host *)
Theorem C08_sar_refuted : exists s s16 s32,
  sim_steps 16 2 s = Ok s16 /\ sim_steps 32 2 s = Ok s32 /\
  ax (rg (abs s16)) = 65535 /\ ax (rg (abs s32)) = 32767.
Proof.
  set (s := st16 [161; 5; 1; 209; 248; 254; 255]).
  destruct (after_run_ok 16 2 s (fun s => ax (rg (abs s))) 65535) as (a & Ea & Va); [vm_compute; reflexivity|].
  destruct (after_run_ok 32 2 s (fun s => ax (rg (abs s))) 32767) as (b & Eb & Vb); [vm_compute; reflexivity|].
  exists s, a, b. auto.
Qed.
(** MOV AX,[0106h]; CWD; IDIV CX with -3 / 3: the host build divides 65533 *)
Theorem C08_idiv_refuted : exists s s16 s32,
  sim_steps 16 3 s = Ok s16 /\ sim_steps 32 3 s = Ok s32 /\
  ax (rg (abs s16)) = 65535 /\ ax (rg (abs s32)) = 21844.
Proof.
  set (s := st16 [161; 6; 1; 153; 247; 249; 253; 255]).
  destruct (after_run_ok 16 3 s (fun s => ax (rg (abs s))) 65535) as (a & Ea & Va); [vm_compute; reflexivity|].
  destruct (after_run_ok 32 3 s (fun s => ax (rg (abs s))) 21844) as (b & Eb & Vb); [vm_compute; reflexivity|].
  exists s, a, b. auto.
Qed.

(** ** C09: push and pop are inverse *)
Theorem C09_push_pop : forall W s v, 16 <= W -> mem_ok (smem s) ->
  let '(x, s') := DoPop W (DoPush W s v) in
  x mod 65536 = v mod 65536 /\ sg (abs s') = sg (abs s) /\ rg (abs s') = rg (abs s) /\
  ip (abs s') = ip (abs s) /\ fl (abs s') = fl (abs s) /\
  (forall a, a <> phys (ss (sg (abs s))) (sp (rg (abs s)) - 2) -> a <> phys (ss (sg (abs s))) (sp (rg (abs s)) - 1) ->
     aget (smem s') a = aget (smem s) a).
Proof. exact push_pop. Qed.
Example C09_ex : mem_ok (smem (st [])) /\ sp (rg (abs (DoPush 32 (st []) 70000))) = 4094.
Proof. split; [apply mem_ok_st; reflexivity|vm_compute; reflexivity]. Qed.

Print Assumptions C01_alu16.
Print Assumptions C02_alu8.
Print Assumptions C02_zero_flag_refuted.
Print Assumptions C03_jcc.
Print Assumptions C03_parity_stops.
Print Assumptions C03_cmp_meaning.
Print Assumptions C04_byte.
Print Assumptions C04_word.
Print Assumptions C05_word.
Print Assumptions C05_byte.
Print Assumptions C05_in_bounds.
Print Assumptions C06_modrm.
Print Assumptions C07_step.
Print Assumptions C07_faithful.
Print Assumptions C07_data.
Print Assumptions C07_run.
Print Assumptions C07_override_size_refuted.
Print Assumptions C08_same_machine.
Print Assumptions C08_same_run.
Print Assumptions C08_sar_refuted.
Print Assumptions C08_idiv_refuted.
Print Assumptions C09_push_pop.
