(** Properties C16-C20: the tokenizer of scc.c.

    Reading guide.  [compile W F n src sched] runs the whole compiler model on the bytes
    [src]: W is the width of the compiler's int, F and n bound its loops and its recursion
    (an exhausted bound is the outcome OutOfFuel), and [sched] lists how many bytes the
    successive read() calls deliver.  The result is the program image and the map file.
    [sees l cs]: the characters from the current one on are [cs]; [GetToken W F] reads one
    token; [TokenType], [TokenNumVal], [OperatorPrecedence] are what it found. *)
From Verif Require Import Base SccState SccEmit SccLex SccDecl SccExpr SccStmt SccInput SccRel SccIntern SccTok SccTok2 SccTok3.
From Coq Require Import String.

(** the compiler in front of a text *)
Definition at_text (t : string) : cc :=
  set_lx (set_CurChar (hd 0 (bytes_of t)) (lx0 (tl (bytes_of t)) nil)) (cc0 nil nil).
Definition ascii (t : string) : bool := forallb (fun c => (0 <? c) && (c <? 128)) (bytes_of t).
Lemma ascii_text t : ascii t = true -> map s8 (bytes_of t) = bytes_of t /\ nz (bytes_of t) /\ schars (bytes_of t).
Proof.
  unfold ascii. intro H. induction (bytes_of t) as [|c r IH]; [repeat split; constructor|].
  cbn [forallb] in H. apply andb_prop in H. destruct H as [H1 H2]. destruct (IH H2) as (A & B & C).
  apply andb_prop in H1. destruct H1 as [L1 L2]. apply Z.ltb_lt in L1, L2.
  cbn [map]. rewrite A. assert (E : s8 c = c) by (apply s8_small; lia). rewrite E.
  split; [reflexivity|]. split; constructor; auto; lia.
Qed.
Lemma at_text_sees t : ascii t = true -> t <> ""%string -> sees (lx (at_text t)) (bytes_of t).
Proof.
  intros H N. destruct (ascii_text t H) as (A & B & _). destruct t as [|c t]; [congruence|].
  split; [reflexivity|]. exists nil. cbn [at_text lx set_lx InBuf InBufPtr File set_CurChar lx0 stored List.length app].
  rewrite aget_init. cbn [bytes_of map tl list_ascii_of_string] in *. injection A as A1 A2.
  split; [reflexivity|]. split; [constructor|]. split; [lia|]. split; [unfold INBUF_MAX; lia|].
  rewrite A2. split; [reflexivity|exact (Forall_inv_tail B)].
Qed.
(** run and observe *)
Definition obs {A} (m : M cc unit) (s : cc) (f : cc -> A) : option A := match m s with Ok (_, s') => Some (f s') | _ => None end.

(** ** C16: the result does not depend on how the source is read *)
Theorem C16_reads : forall W F1 F2 n1 n2 src sched1 sched2,
  Forall (fun b => s8 b <> 0) src ->
  compile W F1 n1 src sched1 = OutOfFuel \/ compile W F2 n2 src sched2 = OutOfFuel \/
  compile W F1 n1 src sched1 = compile W F2 n2 src sched2.
Proof. exact compile_agree. Qed.
Definition prog16 : list Z := bytes_of "int x; /* c */ int _start(void){ return x+10; }".
Example C16_ex : Forall (fun b => s8 b <> 0) prog16 /\
  exists code map, compile 16 100 20 prog16 [1; 2; 3; 5; 1; 7] = Ok (code, map) /\ compile 16 100 20 prog16 nil = Ok (code, map) /\ code <> nil.
Proof.
  split; [repeat (constructor; [vm_compute; discriminate|]); constructor|].
  destruct (compile 16 100 20 prog16 nil) as [[code map]| | |] eqn:E; [|vm_compute in E; discriminate E..].
  exists code, map. split; [|split; [reflexivity|]].
  - destruct (C16_reads 16 100 100 20 20 prog16 [1; 2; 3; 5; 1; 7] nil) as [H|[H|H]].
    + repeat (constructor; [vm_compute; discriminate|]); constructor.
    + vm_compute in H. discriminate H.
    + vm_compute in H. discriminate H.
    + congruence.
  - intros ->. vm_compute in E. discriminate E.
Qed.
(** the hypothesis is needed: a NUL byte discards the rest of the current read *)
Theorem C16_nul_refuted : exists src sched1 sched2,
  compile 16 100 20 src sched1 = Fatal /\ exists r, compile 16 100 20 src sched2 = Ok r.
Proof.
  exists (bytes_of "int _start(void){}" ++ [0] ++ bytes_of "?"), [19], [20].
  split; [|].
  2: { destruct (compile 16 100 20 _ [20]) as [r| | |] eqn:E; [eauto|vm_compute in E; discriminate E..]. }
  vm_compute. reflexivity.
Qed.

(** ** C17: identifiers are interned *)
(** What the table of names does, as a specification: names are numbered in order of first
    appearance, the built-in names first ([number_names], SccIntern.v); at most 580 names
    and 5000 bytes of text. *)
Theorem C17_history : forall W sps file sched, 16 <= W ->
  exists l, AddBuiltins W (lx0 file sched) = Ok (tt, l) /\
  match interns W sps l with
  | Ok (ids, _) => number_names builtins 0 sps = Ok ids
  | Fatal => number_names builtins 0 sps = Fatal
  | _ => False
  end.
Proof.
  intros W sps f sc HW. destruct (AddBuiltins_spec W HW f sc) as (l & E & T & P & _). exists l. split; [exact E|].
  rewrite <- P. apply interns_spec; auto. vm_compute. lia.
Qed.
Theorem C17_injective : forall used sps ids, number_names builtins used sps = Ok ids ->
  forall a b spa spb ia ib, nth_error sps a = Some spa -> nth_error sps b = Some spb ->
    nth_error ids a = Some ia -> nth_error ids b = Some ib -> (ia = ib <-> spa = spb).
Proof. exact (fun used sps ids => number_names_inj builtins used sps ids builtins_nodup). Qed.
(** in the source: an identifier extends as far as letters, digits and underscores go, and
    its token is 150 + the number of its spelling *)
Theorem C17_token : forall W F s c cs names, 16 <= W -> sees (lx s) (c :: cs) -> schars (c :: cs) -> id_start c = true ->
  table W (lx s) names -> (List.length names <= 580)%nat ->
  (List.length (fst (id_run cs)) < F)%nat -> IdBufPtr (lx s) + 1 + Z.of_nat (List.length (fst (id_run cs))) < 5000 ->
  match number_name names (IdBufPtr (lx s)) (c :: fst (id_run cs)) with
  | Ok (i, names', used) => exists l', GetToken W F s = Ok (tt, set_lx l' s) /\ sees l' (snd (id_run cs)) /\
       TokenType l' = i + 150 /\ OperatorPrecedence l' = PREC_STOP /\
       table W l' names' /\ (List.length names' <= 580)%nat /\ IdBufPtr l' = used
  | _ => GetToken W F s = Fatal
  end.
Proof. exact (fun W F s c cs names HW => ident_spec W HW F s c cs names). Qed.
Example C17_ex : number_names builtins 0 (map bytes_of ["x"; "while"; "y"; "x"; "xy"]%string) = Ok [40; 31; 41; 40; 42].
Proof. vm_compute. reflexivity. Qed.
Example C17_token_ex : sees (lx (at_text "foo_1+2")) (bytes_of "foo_1+2") /\ schars (bytes_of "foo_1+2") /\
  id_run (bytes_of "foo_1+2") = (bytes_of "foo_1", bytes_of "+2") /\ table 16 (lx (at_text "foo_1+2")) nil.
Proof.
  split; [apply at_text_sees; [reflexivity|discriminate]|]. split; [apply ascii_text; reflexivity|]. split; [reflexivity|].
  destruct (table_empty 16 (tl (bytes_of "foo_1+2")) nil) as [A1 A2 A3 A4 A5 A6]. split; assumption.
Qed.
(* two spellings with the same hash *)
Example C17_collision : Z.land (hash_spelling 16 (bytes_of "aq")) 1023 = Z.land (hash_spelling 16 (bytes_of "b`")) 1023.
Proof. vm_compute. reflexivity. Qed.

(** ** C18: literals denote their value *)
Theorem C18_number : forall W F s c base pre ds rest, 16 <= W ->
  (c = 48 /\ ((pre = nil /\ base = 8 /\ (ds = nil -> hd 0 rest <> 88 /\ hd 0 rest <> 120)) \/ ((pre = [88] \/ pre = [120]) /\ base = 16))
   \/ 49 <= c <= 57 /\ pre = nil /\ base = 10) ->
  sees (lx s) (c :: pre ++ ds ++ rest) -> schars (ds ++ rest) -> digits base ds ->
  (List.length ds <= 8)%nat -> (List.length ds < 8 -> ends_num base rest)%nat ->
  exists l', GetToken W F s = Ok (tt, set_lx l' s) /\ sees l' rest /\
    view l' = num_view (view (lx s)) (ci W (wu W (value base (c :: ds)))).
Proof. exact (fun W F s c base pre ds rest HW => Number_spec W HW F s c base pre ds rest). Qed.
Theorem C18_char : forall W F s text v rest, 16 <= W -> F <> O ->
  charlit text v -> sees (lx s) (39 :: text ++ rest) -> schars (text ++ rest) ->
  exists l', GetToken W F s = Ok (tt, set_lx l' s) /\ sees l' rest /\ view l' = num_view (view (lx s)) v.
Proof. exact (fun W F s text v rest HW HF HC S SC => charlit_spec W HW F s text v rest HC S SC HF). Qed.
Example C18_ex : value 10 (bytes_of "4095") = 4095 /\ value 16 (bytes_of "0fFa0") = 65440 /\ value 8 (bytes_of "0777") = 511 /\
  escape (bytes_of "x41") 65 /\ escape (bytes_of "377") (-1) /\
  obs (GetToken 16 9) (at_text "0xfFa0+1") (fun s => (TokenType (lx s), TokenNumVal (lx s), CurChar (lx s))) = Some (1, -96, 43) /\
  obs (GetToken 16 9) (at_text "'\x41';") (fun s => (TokenType (lx s), TokenNumVal (lx s), CurChar (lx s))) = Some (1, 65, 59).
Proof.
  repeat split; try (vm_compute; reflexivity).
  - apply (esc_hex [52; 49]); [repeat constructor|cbn; lia].
  - apply (esc_oct [51; 55; 55]); [repeat constructor|cbn; lia].
Qed.
(** why [ends_num] excludes two characters: '@' and '`' are taken for the digit 9 *)
Theorem C18_at_sign_refuted :
  obs (GetToken 16 9) (at_text "1@;") (fun s => (TokenType (lx s), TokenNumVal (lx s), CurChar (lx s))) = Some (1, 19, 59).
Proof. vm_compute. reflexivity. Qed.
(** why the digits are limited: a tenth digit starts another number *)
Theorem C18_long_refuted :
  obs (GetToken 32 9) (at_text "1234567890;") (fun s => (TokenNumVal (lx s), CurChar (lx s))) = Some (123456789, 48).
Proof. vm_compute. reflexivity. Qed.

(** ** C19: white space and comments *)
Theorem C19_trivia : forall W F1 F2 w cs s1 s2 names, 16 <= W -> trivia w -> sees (lx s1) (w ++ cs) -> sees (lx s2) cs ->
  view (lx s1) = view (lx s2) -> em s1 = em s2 -> dc s1 = dc s2 -> table W (lx s1) names -> (List.length names <= 580)%nat ->
  (2 * List.length (w ++ cs) + 1 < F1)%nat -> (2 * List.length cs + 1 < F2)%nat ->
  match GetToken W F1 s1, GetToken W F2 s2 with
  | Ok (_, t1), Ok (_, t2) => (exists r, sees (lx t1) r /\ sees (lx t2) r) /\
                              view (lx t1) = view (lx t2) /\ em t1 = em t2 /\ dc t1 = dc t2
  | Fatal, Fatal => True | UB, UB => True
  | _, _ => False
  end.
Proof. exact GetToken_trivia_ok. Qed.
Theorem C19_unterminated : forall W F w body s, trivia w -> (forall a b, body <> a ++ [42; 47] ++ b) ->
  sees (lx s) (w ++ [47; 42] ++ body) -> (2 * List.length (w ++ [47; 42]%Z ++ body) + 1 < F)%nat -> GetToken W F s = Fatal.
Proof. exact GetToken_open_comment. Qed.
Example C19_ex : trivia (bytes_of "  /* a * b / c **/ ") /\
  obs (GetToken 16 50) (at_text "  /* a * b / c **/ x") (fun s => TokenType (lx s)) = obs (GetToken 16 50) (at_text "x") (fun s => TokenType (lx s)).
Proof.
  split; [|vm_compute; reflexivity].
  apply (tr_blank 32); [lia|]. apply (tr_blank 32); [lia|].
  apply (tr_block (bytes_of " a * b / c *") [32]); [|apply tr_blank; [lia|constructor]].
  intros a b E. apply (comment_end_close a b false). rewrite <- E. vm_compute. reflexivity.
Qed.

(** ** C20: operators by longest match *)
Theorem C20_operator : forall W F s op tok prec rest, F <> O ->
  In (op, tok, prec) ops -> longest op (op ++ rest) -> sees (lx s) (op ++ rest) ->
  (op = [47] -> hd 0 rest <> 47 /\ hd 0 rest <> 42) -> (op = [46] -> hd 0 rest <> 46) ->
  exists l', GetToken W F s = Ok (tt, set_lx l' s) /\ sees l' rest /\ view l' = op_view (view (lx s)) tok prec.
Proof. exact (fun W F s op tok prec rest HF => op_spec W F HF s op tok prec rest). Qed.
Example C20_ex : In (bytes_of "<<=", TOK_LSHEQ, 14) ops /\ ~ longest (bytes_of "<<") (bytes_of "<<=x") /\
  obs (GetToken 16 9) (at_text "<<=x") (fun s => (TokenType (lx s), OperatorPrecedence (lx s), CurChar (lx s))) = Some (TOK_LSHEQ, 14, 120) /\
  obs (GetToken 16 9) (at_text "<+x") (fun s => (TokenType (lx s), OperatorPrecedence (lx s), CurChar (lx s))) = Some (60, 6, 43).
Proof.
  split; [vm_compute; tauto|]. split; [|split; vm_compute; reflexivity].
  intro H. specialize (H (bytes_of "<<=") TOK_LSHEQ 14 [120]). assert (A : In (bytes_of "<<=", TOK_LSHEQ, 14) ops) by (vm_compute; tauto).
  specialize (H A eq_refl). cbn in H. lia.
Qed.

Print Assumptions C16_reads.
Print Assumptions C16_nul_refuted.
Print Assumptions C17_history.
Print Assumptions C17_injective.
Print Assumptions C17_token.
Print Assumptions C18_number.
Print Assumptions C18_char.
Print Assumptions C18_at_sign_refuted.
Print Assumptions C18_long_refuted.
Print Assumptions C19_trivia.
Print Assumptions C19_unterminated.
Print Assumptions C20_operator.
