(** Loading the address of a variable (EmitLoadAddr, scc.c:1356-1368), decoded and run on the 8086. *)
From Verif Require Import Base Bits Spec8086 SccRun SccState SccEmit SccPut SccArith SccOps SccJump SccMem.

Section W.
Variables (W : Z) (HW : 16 <= W).
Lemma lea_decodes e R Val f : 0 <= R < 8 ->
  let bs := map u8 (141 :: mem_code e R VT_LOCOFF Val) in
  decode (over bs f) = Some (ILea R (Mem None MBP (Val mod 65536)), Z.of_nat (length bs)).
Proof.
  intros HR. cbv zeta.
  assert (D : dec_modrm (over (map u8 (141 :: mem_code e R VT_LOCOFF Val)) f) None 1 = (var_mem e VT_LOCOFF Val, R, Z.of_nat (length (map u8 (141 :: mem_code e R VT_LOCOFF Val))))).
  { apply modrm_decodes; auto. discriminate. }
  set (bs := map u8 (141 :: mem_code e R VT_LOCOFF Val)) in *.
  assert (F : over bs f 0 = 141) by reflexivity.
  set (g := over bs f) in *. set (n := Z.of_nat (length bs)) in *. clearbody g n. clear bs.
  rewrite (dec_plain g 141 F) by lia. unfold dec_op. rewrite F. change (0 + 1) with 1. rewrite D. reflexivity.
Qed.
Theorem addr_does R Loc Val e e' x : 0 <= R < 8 -> live e -> is_var e Loc Val ->
  EmitLoadAddr W R Loc Val e = Ok (x, e') ->
  live e' /\ does e e' (fun t t' => only_regs (fun G => rset G R (var_off e Loc Val t)) t t').
Proof.
  intros HR L HV H. unfold EmitLoadAddr in H.
  destruct (Z.eqb_spec Loc VT_LOCOFF) as [->|N].
  - change I_LEA with 141 in H. apply modrm_emits in H; auto. destruct H as (-> & L2 & _).
    unfold add_ref in *. change (VT_LOCOFF =? VT_LOCGLOB) with false in *. cbn [andb] in *. split; [exact L2|].
    apply does_of; auto. intros r g f m RO C _.
    pose proof (live_lo _ L) as LO. pose proof (live_room _ _ L2) as LR.
    set (bs := 141 :: mem_code e R VT_LOCOFF Val) in *. set (a := CodeAddress e) in *.
    eapply (reach_code _ (map u8 bs) (ILea R (Mem None MBP (Val mod 65536))) (Z.of_nat (length bs))); auto; try lia.
    { intro f0. unfold bs. rewrite (lea_decodes e R Val f0 HR). rewrite map_length. reflexivity. }
    { intro. cbn [exec]. reflexivity. }
    intro. apply reach_now. split; [reflexivity|]. unfold only_regs. cbn [rg sg mem]. split; [|auto].
    unfold var_off. change (VT_LOCOFF =? VT_LOCOFF) with true. cbn [rg]. unfold ea_off, mode_off.
    rewrite Zplus_mod_idemp_r. reflexivity.
  - destruct HV as [->|[-> NV]]; [congruence|]. change (VT_LOCGLOB =? VT_LOCGLOB) with true in H. cbv iota in H.
    minv H y e1 E. apply out1 in E; auto. destruct E as [-> L1].
    apply globalref_emits in H; auto. cbv zeta in H. rewrite put_voff, <- put_app in H. rewrite (proj2 (Z.eqb_neq _ _) NV) in H.
    rewrite add_ref_off in H by exact NV. destruct H as [-> L2]. split; [exact L2|].
    apply does_of; auto. intros r g f m RO C _.
    pose proof (live_lo _ L) as LO. pose proof (live_room _ _ L2) as LR.
    eapply (reach_code _ (map u8 [Z.lor I_MOV_R_IMM16 R; aget (VOff e) Val; Z.shiftr (aget (VOff e) Val) 8]) (IMov true (Reg R) (Imm (aget (VOff e) Val mod 65536))) 3); auto; try lia.
    { intro f0. cbn [map]. rewrite <- word_bytes. clear -HR. unfold I_MOV_R_IMM16. reg8 R; reflexivity. }
    { intro. cbn [exec]. reflexivity. }
    intro. apply reach_now. split; [reflexivity|]. unfold only_regs. cbn [rg sg mem]. split; [|auto].
    unfold var_off. change (VT_LOCGLOB =? VT_LOCOFF) with false. reflexivity.
Qed.
End W.
