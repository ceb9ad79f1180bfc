(** The properties of the run-time library lib.h (C10-C15, C56) and of the compiler's
    formatter.  Calls are runs of the machine code on the 8086 specification. *)
From Coq Require Import String Sorting.Sorted.
From Verif Require Import Base Spec8086 SccRun SccState SccLex SccStmt SccWitness LibH LibCode LibArgs LibFmt.
Local Open Scope list_scope.

(** * The modelled bytes are what the compiler makes of the text of lib.h *)
(** the code of the first function of a program: after the five bytes of the prelude *)
Definition first_code (src : string) (n : nat) : option (list Z) := option_map (fun c => firstn n (skipn 5 c)) (code_of (src ++ " void _start(void){}")%string).
Example lib_memcpy : first_code "void memcpy(void* dst, void* src, int size)
{
    _emit 0x8B _emit 0x7E _emit 0x04 // MOV DI,[BP+0x4]
    _emit 0x8B _emit 0x76 _emit 0x06 // MOV SI,[BP+0x6]
    _emit 0x8B _emit 0x4E _emit 0x08 // MOV CX,[BP+0x8]
    _emit 0xF3 _emit 0xA4            // REP MOVSB
}" 16 = Some (framed memcpy_body).
Proof. vm_compute. reflexivity. Qed.
Example lib_memset : first_code "void memset(void* ptr, int val, int size)
{
    _emit 0x8B _emit 0x7E _emit 0x04 // MOV DI,[BP+0x4]
    _emit 0x8B _emit 0x46 _emit 0x06 // MOV AX,[BP+0x6]
    _emit 0x8B _emit 0x4E _emit 0x08 // MOV CX,[BP+0x8]
    _emit 0xF3 _emit 0xAA            // REP STOSB
}" 16 = Some (framed memset_body).
Proof. vm_compute. reflexivity. Qed.
Example lib_strcmp : first_code "int strcmp(const char* a, const char* b)
{
    _emit 0x8B _emit 0x76 _emit 0x04    // MOV SI, [BP+4]
    _emit 0x8B _emit 0x7E _emit 0x06    // MOV DI, [BP+6]
    _emit 0xAC                          // L: LODSB
    _emit 0x8A _emit 0x25               // MOV AH, [DI]
    _emit 0x47                          // INC DI
    _emit 0x28 _emit 0xE0               // SUB AL, AH
    _emit 0x75 _emit 0x04               // JNZ DONE
    _emit 0x20 _emit 0xE4               // AND AH, AH
    _emit 0x75 _emit 0xF4               // JNZ L
    _emit 0x98                          // DONE: CBW
}" 24 = Some (framed strcmp_body).
Proof. vm_compute. reflexivity. Qed.
Example lib_strlen : first_code "int strlen(const char* s)
{
    _emit 0x8B _emit 0x4E _emit 0x04    // MOV  CX, [BP+4]
    _emit 0x89 _emit 0xCE               // MOV  SI, CX
    _emit 0xAC                          // L: LODSB
    _emit 0x20 _emit 0xC0               // AND  AL, AL
    _emit 0x75 _emit 0xFB               // JNZ  L
    _emit 0x96                          // XCHG AX, SI
    _emit 0x29 _emit 0xC8               // SUB  AX, CX
    _emit 0x48                          // DEC  AX
}" 19 = Some (framed strlen_body).
Proof. vm_compute. reflexivity. Qed.
Example lib_FarPeek : first_code "int FarPeek(int seg, int off)
{
    _emit 0x1E                          // PUSH DS
    _emit 0x8E _emit 0x5E _emit 0x04    // MOV DS, [BP+4]
    _emit 0x8B _emit 0x76 _emit 0x06    // MOV SI, [BP+6]
    _emit 0xAC                          // LODSB
    _emit 0x30 _emit 0xE4               // XOR AH, AH
    _emit 0x1F                          // POP DS
}" 16 = Some (framed FarPeek_body).
Proof. vm_compute. reflexivity. Qed.
Example lib_FarPoke : first_code "void FarPoke(int seg, int off, int val)
{
    _emit 0x06                          // PUSH ES
    _emit 0x8E _emit 0x46 _emit 0x04    // MOV ES, [BP+4]
    _emit 0x8B _emit 0x7E _emit 0x06    // MOV DI, [BP+6]
    _emit 0x8A _emit 0x46 _emit 0x08    // MOV AL, [BP+8]
    _emit 0xAA                          // STOSB
    _emit 0x07                          // POP ES
}" 17 = Some (framed FarPoke_body).
Proof. vm_compute. reflexivity. Qed.
Example lib_clock : first_code "int clock()
{
    _emit 0x31 _emit 0xC0              // XOR  AX, AX
    _emit 0x8E _emit 0xD8              // MOV  DS, AX
    _emit 0xA1 _emit 0x6C _emit 0x04   // MOV  AX, [0x46C]
    _emit 0x0E                         // PUSH CS
    _emit 0x1F                         // POP  DS
}" 14 = Some (framed clock_body).
Proof. vm_compute. reflexivity. Qed.

(** * A loaded program for the examples: code at 100h, data at 800h, stack at F000h *)
Definition stack_words (ws : list Z) : list Z := concat (map (fun w => [w mod 256; w / 256]) ws).
Definition demo (bs : list Z) (args : list Z) (data : list Z) : state :=
  mkst (mkregs 1 2 3 4 0xF000 6 7 8) (mksregs 4096 4096 4096 4096) 256 (mkflags false false false false)
    (load_bytes (stack_words (0x234 :: args)) (phys 4096 0xF000) (load_bytes data (phys 4096 0x800) (load_bytes bs (phys 4096 256) (mkarr 0 Leaf)))).
Lemma load_ok bs : forallb (fun b => (0 <=? b) && (b <? 256)) bs = true -> forall a m, mem_ok m -> mem_ok (load_bytes bs a m).
Proof.
  induction bs as [|b bs IH]; intros F a m M; cbn [load_bytes]; [exact M|]. cbn [forallb] in F. apply andb_prop in F. destruct F as [F1 F2].
  apply IH; [exact F2|]. intro x. rewrite aget_aset. destruct (a =? x); [lia|apply M].
Qed.
Lemma empty_ok : mem_ok (mkarr 0 Leaf).
Proof. intro a. assert (E : aget (mkarr 0 Leaf) a = 0) by exact (aget_init 0 a). lia. Qed.
Definition isbytes (bs : list Z) := forallb (fun b => (0 <=? b) && (b <? 256)) bs.
Lemma code_check m seg a bs : forallb (fun k => rd8 m seg (a + Z.of_nat k) =? nth k bs 0) (seq 0 (List.length bs)) = true -> code m seg a bs.
Proof. intros H k K. rewrite forallb_forall in H. apply Z.eqb_eq, H, in_seq. lia. Qed.
Lemma demo_wf bs args data : isbytes bs = true -> isbytes (stack_words (0x234 :: args)) = true -> isbytes data = true -> wf (demo bs args data).
Proof.
  intros A B C. unfold wf, demo, regs_ok, sregs_ok, is16. cbn [rg sg ip mem ax cx dx bx sp bp si di es cs ss ds].
  repeat split; try lia; apply (load_ok _ B), (load_ok _ C), (load_ok _ A); exact empty_ok.
Qed.
Ltac entry := split; [apply demo_wf; reflexivity|split; [apply code_check; vm_compute; reflexivity|vm_compute; reflexivity]].
Lemma demo_scratch n bs args data off : 0 <= n <= 16 -> 0 <= off < 0xEF00 -> ~ scratch n (demo bs args data) (phys 4096 off).
Proof. intros N O (k & K & E). cbn [demo sg ss rg sp] in E. apply phys_inj in E. lia. Qed.
Ltac safe := intros k K; cbn in K; apply demo_scratch; [lia|match goal with |- context [ip ?s] => change (ip s) with 256 end; lia].
Definition str (s : string) : list Z := bytes_of s.

(** * C10: strlen *)
Theorem C10_strlen : forall s l,
  at_entry (framed strlen_body) s -> code_safe 2 (framed strlen_body) s ->
  string_at (mem s) (ds (sg s)) (arg s 0) l ->
  clear_of 2 s (ds (sg s)) (arg s 0) (Z.of_nat (List.length l) + 1) ->
  Z.of_nat (List.length l) < 65536 ->
  reaches (fun s' => returned s s' /\ ax (rg s') = Z.of_nat (List.length l) /\ mem_kept 2 s s' /\
                     bx (rg s') = bx (rg s) /\ dx (rg s') = dx (rg s) /\ di (rg s') = di (rg s)) s.
Proof. exact strlen_call. Qed.
Print Assumptions C10_strlen.
Definition d10 := demo (framed strlen_body) [0x800] (str "hello" ++ [0]).
Example C10_ex : at_entry (framed strlen_body) d10 /\ code_safe 2 (framed strlen_body) d10 /\
  string_at (mem d10) (ds (sg d10)) (arg d10 0) (str "hello") /\ clear_of 2 d10 (ds (sg d10)) (arg d10 0) 6.
Proof.
  split; [entry|]. split; [safe|]. split; [split; [apply code_check; vm_compute; reflexivity|vm_compute; intuition (subst; split; reflexivity)]|].
  intros k K. change (arg d10 0) with 0x800. apply demo_scratch; lia.
Qed.

(** * C11: strcmp *)
Theorem C11_equal : forall s la lb,
  at_entry (framed strcmp_body) s -> code_safe 2 (framed strcmp_body) s ->
  string_at (mem s) (ds (sg s)) (arg s 0) la -> clear_of 2 s (ds (sg s)) (arg s 0) (Z.of_nat (List.length la) + 1) ->
  string_at (mem s) (ds (sg s)) (arg s 1) lb -> clear_of 2 s (ds (sg s)) (arg s 1) (Z.of_nat (List.length lb) + 1) ->
  reaches (fun s' => returned s s' /\ (ax (rg s') = 0 <-> la = lb) /\ mem_kept 2 s s' /\
                     bx (rg s') = bx (rg s) /\ cx (rg s') = cx (rg s) /\ dx (rg s') = dx (rg s)) s.
Proof.
  intros s la lb E S Sa Ca Sb Cb. eapply reaches_imp; [exact (strcmp_call s la lb E S Sa Ca Sb Cb)|].
  intros s' (R & A & K). split; [exact R|]. split; [|exact K]. rewrite A. rewrite <- (strdiff_eq la lb (proj2 Sa) (proj2 Sb)).
  pose proof (strdiff_range la lb 256 (proj2 Sa) (proj2 Sb) ltac:(lia)). unfold s8. destruct (Z.ltb_spec (strdiff la lb mod 256) 128); lia.
Qed.
Print Assumptions C11_equal.
(** on 7-bit strings the result is the difference of the first bytes that differ, as in C *)
Theorem C11_ascii : forall s la lb,
  at_entry (framed strcmp_body) s -> code_safe 2 (framed strcmp_body) s ->
  string_at (mem s) (ds (sg s)) (arg s 0) la -> clear_of 2 s (ds (sg s)) (arg s 0) (Z.of_nat (List.length la) + 1) ->
  string_at (mem s) (ds (sg s)) (arg s 1) lb -> clear_of 2 s (ds (sg s)) (arg s 1) (Z.of_nat (List.length lb) + 1) ->
  (forall c, In c la -> c < 128) -> (forall c, In c lb -> c < 128) ->
  reaches (fun s' => returned s s' /\ signed true (ax (rg s')) = strdiff la lb) s.
Proof.
  intros s la lb E S Sa Ca Sb Cb Aa Ab. eapply reaches_imp; [exact (strcmp_call s la lb E S Sa Ca Sb Cb)|].
  intros s' (R & A & K). split; [exact R|]. rewrite A.
  pose proof (strdiff_range la lb 128) as B. assert (-128 < strdiff la lb < 128).
  { apply B; [| |lia]; intros c I; split; auto; [apply (proj2 Sa c I)|apply (proj2 Sb c I)]. }
  rewrite s8_small by lia. unfold signed. cbn [half modulus]. destruct (Z.ltb_spec (strdiff la lb mod 65536) 32768); lia.
Qed.
Print Assumptions C11_ascii.
Definition d11 (a b : list Z) := demo (framed strcmp_body) [0x800; 0x800 + Z.of_nat (List.length a) + 1] (a ++ [0] ++ b ++ [0]).
Example C11_ex : let s := d11 (str "hello") (str "help") in
  at_entry (framed strcmp_body) s /\ code_safe 2 (framed strcmp_body) s /\
  string_at (mem s) (ds (sg s)) (arg s 0) (str "hello") /\ clear_of 2 s (ds (sg s)) (arg s 0) 6 /\
  string_at (mem s) (ds (sg s)) (arg s 1) (str "help") /\ clear_of 2 s (ds (sg s)) (arg s 1) 5.
Proof.
  intro s. split; [entry|]. split; [safe|]. 
  split; [split; [apply code_check; vm_compute; reflexivity|vm_compute; intuition (subst; split; reflexivity)]|].
  split; [intros k K; change (arg s 0) with 0x800; apply demo_scratch; lia|].
  split; [split; [apply code_check; vm_compute; reflexivity|vm_compute; intuition (subst; split; reflexivity)]|].
  intros k K; change (arg s 1) with 0x806; apply demo_scratch; lia.
Qed.
(** the sign is not C's ordering: \xC8 is above \x01, but the result is negative *)
Theorem C11_order_refuted : exists s la lb,
  at_entry (framed strcmp_body) s /\ string_at (mem s) (ds (sg s)) (arg s 0) la /\ string_at (mem s) (ds (sg s)) (arg s 1) lb /\
  0 < strdiff la lb /\ reaches (fun s' => returned s s' /\ signed true (ax (rg s')) < 0) s.
Proof.
  exists (d11 [200] [1]), [200], [1].
  assert (A : at_entry (framed strcmp_body) (d11 [200] [1])) by entry.
  assert (B : string_at (mem (d11 [200] [1])) (ds (sg (d11 [200] [1]))) (arg (d11 [200] [1]) 0) [200])
    by (split; [apply code_check; vm_compute; reflexivity|vm_compute; intuition (subst; split; reflexivity)]).
  assert (C : string_at (mem (d11 [200] [1])) (ds (sg (d11 [200] [1]))) (arg (d11 [200] [1]) 1) [1])
    by (split; [apply code_check; vm_compute; reflexivity|vm_compute; intuition (subst; split; reflexivity)]).
  split; [exact A|]. split; [exact B|]. split; [exact C|]. split; [reflexivity|].
  eapply reaches_imp; [eapply (strcmp_call _ [200] [1] A); [safe|exact B| |exact C|]|].
  - intros k K; change (arg (d11 [200] [1]) 0) with 0x800; apply demo_scratch; cbn in K; lia.
  - intros k K; change (arg (d11 [200] [1]) 1) with 0x802; apply demo_scratch; cbn in K; lia.
  - intros s' (R & E & _). split; [exact R|]. rewrite E. reflexivity.
Qed.
Print Assumptions C11_order_refuted.

(** * C12: memcpy and memset *)
Ltac dsafe := split; intros j J E; [cbn in J; match type of E with context [ip ?s] => change (ip s) with 256 in E; change (es (sg s)) with 4096 in E; change (cs (sg s)) with 4096 in E end
  |match type of E with context [sp (rg ?s)] => change (sp (rg s)) with 0xF000 in E; change (es (sg s)) with 4096 in E; change (ss (sg s)) with 4096 in E end]; apply phys_inj in E; lia.
Theorem C12_memset : forall s, let bs := framed memset_body in let n := arg s 2 in
  at_entry bs s -> code_safe 2 bs s -> dest_safe bs s (es (sg s)) (arg s 0) n ->
  reaches (fun s' => returned s s' /\
    (forall k, 0 <= k < n -> rd8 (mem s') (es (sg s)) (arg s 0 + k) = arg s 1 mod 256) /\
    (forall a, ~ in_range (es (sg s)) (arg s 0) n a -> ~ scratch 2 s a -> aget (mem s') a = aget (mem s) a) /\
    bx (rg s') = bx (rg s) /\ dx (rg s') = dx (rg s) /\ si (rg s') = si (rg s)) s.
Proof. exact memset_call. Qed.
Print Assumptions C12_memset.
Theorem C12_memcpy : forall s, let bs := framed memcpy_body in let n := arg s 2 in
  at_entry bs s -> code_safe 2 bs s -> dest_safe bs s (es (sg s)) (arg s 0) n ->
  clear_of 2 s (ds (sg s)) (arg s 1) n ->
  (forall i j, 0 <= i < j -> j < n -> phys (es (sg s)) (arg s 0 + i) <> phys (ds (sg s)) (arg s 1 + j)) ->
  reaches (fun s' => returned s s' /\
    (forall k, 0 <= k < n -> rd8 (mem s') (es (sg s)) (arg s 0 + k) = rd8 (mem s) (ds (sg s)) (arg s 1 + k)) /\
    (forall a, ~ in_range (es (sg s)) (arg s 0) n a -> ~ scratch 2 s a -> aget (mem s') a = aget (mem s) a)) s.
Proof. exact memcpy_plain. Qed.
Print Assumptions C12_memcpy.
(** ranges that overlap in any way: the bytes are copied one by one, upwards *)
Theorem C12_memcpy_overlap : forall s, let bs := framed memcpy_body in let n := arg s 2 in
  at_entry bs s -> code_safe 2 bs s -> dest_safe bs s (es (sg s)) (arg s 0) n ->
  clear_of 2 s (ds (sg s)) (arg s 1) n ->
  reaches (fun s' => returned s s' /\
    (forall a, ~ scratch 2 s a ->
       aget (mem s') a = aget (copy_up (Z.to_nat n) (mem s) (ds (sg s)) (arg s 1) (es (sg s)) (arg s 0)) a) /\
    ax (rg s') = ax (rg s) /\ bx (rg s') = bx (rg s) /\ dx (rg s') = dx (rg s)) s.
Proof. exact memcpy_call. Qed.
Print Assumptions C12_memcpy_overlap.
Definition d12 := demo (framed memcpy_body) [0x805; 0x800; 4] (str "abcdefghij").
Example C12_ex : at_entry (framed memcpy_body) d12 /\ code_safe 2 (framed memcpy_body) d12 /\
  dest_safe (framed memcpy_body) d12 (es (sg d12)) (arg d12 0) (arg d12 2) /\ clear_of 2 d12 (ds (sg d12)) (arg d12 1) (arg d12 2) /\
  (forall i j, 0 <= i < j -> j < arg d12 2 -> phys (es (sg d12)) (arg d12 0 + i) <> phys (ds (sg d12)) (arg d12 1 + j)).
Proof.
  change (arg d12 0) with 0x805. change (arg d12 1) with 0x800. change (arg d12 2) with 4.
  split; [entry|]. split; [safe|]. split; [|split].
  - intros a (k & K & ->). dsafe.
  - intros k K; apply demo_scratch; lia.
  - intros i j I J E. apply phys_inj in E. lia.
Qed.
Definition d12s := demo (framed memset_body) [0x802; 0x141; 3] (str "abcdefghij").
Example C12_memset_ex : at_entry (framed memset_body) d12s /\ code_safe 2 (framed memset_body) d12s /\
  dest_safe (framed memset_body) d12s (es (sg d12s)) (arg d12s 0) (arg d12s 2).
Proof.
  change (arg d12s 0) with 0x802. change (arg d12s 2) with 3.
  split; [entry|]. split; [safe|].
  intros a (k & K & ->). dsafe.
Qed.

(** * C13: ParseArgs *)
Theorem C13_words : forall fuel q m, (200 <= fuel)%nat -> (forall x, 0 <= aget m x < 256) -> 0 <= q < 65536 ->
  let t := command_tail m in
  exists m' ws, ParseArgs fuel q m = Ok (m', 1 + Z.of_nat (List.length ws)) /\
    StronglySorted before ws /\ (forall i l, In (i, l) ws <-> is_word t i l) /\
    argv m' 0 = q /\ argv m' (1 + Z.of_nat (List.length ws)) = 0 /\
    (forall k i l, nth_error ws k = Some (i, l) -> argv m' (1 + Z.of_nat k) = 0x81 + Z.of_nat i) /\
    (forall i l, In (i, l) ws -> 0x5C + 2 * (1 + Z.of_nat (List.length ws)) + 1 < 0x81 + Z.of_nat i ->
       (forall k, (k < l)%nat -> aget m' (0x81 + Z.of_nat i + Z.of_nat k) = nth (i + k) t 0) /\
       aget m' (0x81 + Z.of_nat i + Z.of_nat l) = 0).
Proof. exact ParseArgs_words. Qed.
Print Assumptions C13_words.
(** with at most sixteen words every string is in place *)
Theorem C13_strings : forall fuel q m, (200 <= fuel)%nat -> (forall x, 0 <= aget m x < 256) -> 0 <= q < 65536 ->
  let t := command_tail m in
  exists m' ws, ParseArgs fuel q m = Ok (m', 1 + Z.of_nat (List.length ws)) /\
    StronglySorted before ws /\ (forall i l, In (i, l) ws <-> is_word t i l) /\
    ((List.length ws <= 16)%nat -> forall j i l, nth_error ws j = Some (i, l) ->
       (forall k, (k < l)%nat -> aget m' (argv m' (1 + Z.of_nat j) + Z.of_nat k) = nth (i + k) t 0) /\
       aget m' (argv m' (1 + Z.of_nat j) + Z.of_nat l) = 0).
Proof.
  intros fuel q m F B Q t. destruct (ParseArgs_words fuel q m F B Q) as (m' & ws & E & S & Wd & _ & _ & P & T).
  exists m', ws. split; [exact E|]. split; [exact S|]. split; [exact Wd|]. intros L j i l J.
  rewrite (P _ _ _ J). apply T; [eapply nth_error_In; exact J|lia].
Qed.
Print Assumptions C13_strings.
Definition d13 (tail : string) : arr Z := load_bytes (Z.of_nat (List.length (str tail)) :: str tail) 0x80 (mkarr 0 Leaf).
Example C13_ex : command_tail (d13 " in.c  out") = str " in.c  out" /\
  match ParseArgs 200 7 (d13 " in.c  out") with
  | Ok (m, n) => n = 3 /\ argv m 1 = 0x82 /\ argv m 2 = 0x88 /\ argv m 3 = 0 /\ bytes m 0x82 5 = str "in.c" ++ [0]
  | _ => False
  end.
Proof. vm_compute. repeat split. Qed.
(** with many words the argument vector grows into the text of the first ones *)
Theorem C13_many_refuted : exists m, (forall x, 0 <= aget m x < 256) /\
  match ParseArgs 200 7 m with
  | Ok (m', n) => is_word (command_tail m) 1 1 /\ argv m' 1 = 0x82 /\ aget m' 0x82 <> nth 1 (command_tail m) 0
  | _ => False
  end.
Proof.
  exists (d13 " a b c d e f g h i j k l m n o p q r s t u v w x y z"). split.
  - apply load_ok; [reflexivity|exact empty_ok].
  - set (m := d13 _).
    assert (T : command_tail m = str " a b c d e f g h i j k l m n o p q r s t u v w x y z") by (vm_compute; reflexivity).
    assert (P : match ParseArgs 200 7 m with Ok (m', n) => argv m' 1 = 0x82 /\ aget m' 0x82 = 0xA6 | _ => False end) by (vm_compute; split; reflexivity).
    destruct (ParseArgs 200 7 m) as [[m' n]| | |]; try contradiction. destruct P as [P1 P2]. rewrite T. split; [|split; [exact P1|rewrite P2; discriminate]].
    unfold is_word, above. split; [lia|]. split; [|split; [right|]; vm_compute; intuition discriminate].
    intros k K. assert (k = 1%nat) as -> by lia. vm_compute. split; reflexivity.
Qed.
Print Assumptions C13_many_refuted.

(** * C14 and C15: formatting *)
(** every format made of plain characters and the conversions %[0][width][+]d, %[0][width]x,
    %[0][width]X, %s and %c: the output is the concatenation of what each piece prints, an
    int being printed as [signed_text] (sign and decimal digits), padded on the left, and a
    hexadecimal number with exactly the requested number of digits (default four) *)
Theorem C14_C15_vsprintf : forall is (args : list (list varg)) rest, Forall item_ok is -> Forall2 takes is args ->
  exists ls, vsprintf (concat (map text is)) (concat args ++ rest) = Ok (concat ls) /\
    List.length ls = List.length is /\
    forall k i a, nth_error is k = Some i -> nth_error args k = Some a -> exists l, nth_error ls k = Some l /\ piece i a l.
Proof. exact vsprintf_prints. Qed.
Print Assumptions C14_C15_vsprintf.
(** one %d on its own *)
Theorem C14_decimal : forall (zero plus : bool) w n rest, width_ok w -> -32767 <= n <= 32767 ->
  exists l out, vsprintf ([37] ++ flag zero 48 ++ w ++ flag plus 43 ++ [100]) (AInt n :: rest) = Ok out /\
    signed_text plus n l /\ padded (if zero then 48 else 32) (dec_value w) l out.
Proof.
  intros zero plus w n rest Wk R.
  destruct (vsprintf_prints [IDec zero plus w] [[AInt n]] rest) as (ls & E & L & P).
  - constructor; [exact Wk|constructor].
  - constructor; [exists n; auto|constructor].
  - destruct (P 0%nat _ _ eq_refl eq_refl) as (out & Hn & Pc). inversion Pc; subst.
    destruct ls as [|x [|y ls]]; try discriminate. cbn in Hn. injection Hn as ->.
    cbn [map concat text] in E. rewrite !app_nil_r in E. eauto.
Qed.
Print Assumptions C14_decimal.
Theorem C14_compiler : forall W plus n rest, 16 <= W -> - 2 ^ (W - 1) < n < 2 ^ (W - 1) -> -10000000 < n < 10000000 ->
  exists l, VSPrintf W ([37] ++ flag plus 43 ++ [100]) (AInt n :: rest) = Ok l /\ signed_text plus n l.
Proof. exact VSPrintf_dec. Qed.
Print Assumptions C14_compiler.
Example C14_ex : vsprintf (str "%05d|%3d|%+d") [AInt (-123); AInt 45; AInt 7] = Ok (str "0-123| 45|+7") /\
  width_ok (str "5") /\ VSPrintf 32 (str "In line %d: %s") [AInt 1234567; AStr (str "no")] = Ok (str "In line 1234567: no").
Proof.
  split; [vm_compute; reflexivity|]. split; [|vm_compute; reflexivity].
  right. unfold decimal, digit. vm_compute. repeat split; try (intro H; discriminate H); try (repeat constructor; discriminate).
Qed.
(** -32768 comes out as garbage, although C requires six characters -32768 *)
Theorem C14_min_refuted : exists out, vsprintf (str "%d") [AInt (-32768)] = Ok out /\ ~ signed_text false (-32768) out /\
  VSPrintf 16 (str "%d") [AInt (-32768)] = Ok out.
Proof.
  exists (str "--.)*("). split; [vm_compute; reflexivity|]. split; [|vm_compute; reflexivity].
  intros (ds & (_ & F & _) & E). cbn in E. injection E as E. subst ds. inversion F as [|? ? D _]. unfold digit in D. lia.
Qed.
Print Assumptions C14_min_refuted.
(** with 32-bit int (the compiler built for the host) the buffer is too small from 10^8 on *)
Theorem C14_buffer_refuted : exists n, 0 <= n < 2 ^ 31 /\ VSPrintf 32 (str "%d") [AInt n] = UB.
Proof. exists 100000000. split; [lia|vm_compute; reflexivity]. Qed.
Print Assumptions C14_buffer_refuted.
(** unlike in C, zeros are put before the sign *)
Theorem C14_zero_sign_refuted : vsprintf (str "%05d") [AInt (-42)] = Ok (str "00-42").
Proof. vm_compute. reflexivity. Qed.
Print Assumptions C14_zero_sign_refuted.

Theorem C15_hex : forall (upper zero : bool) w n rest, width_ok w -> dec_value w <= 64 ->
  exists hs, vsprintf ([37] ++ flag zero 48 ++ w ++ [if upper then 88 else 120]) (AInt n :: rest) = Ok hs /\
    Forall hexdigit hs /\ Z.of_nat (List.length hs) = (if dec_value w =? 0 then 4 else dec_value w) /\
    hex_value hs = n mod 16 ^ Z.of_nat (List.length hs).
Proof.
  intros upper zero w n rest Wk L.
  destruct (vsprintf_prints [IHex upper zero w] [[AInt n]] rest) as (ls & E & Ll & P).
  - constructor; [split; assumption|constructor].
  - constructor; [exists n; auto|constructor].
  - destruct (P 0%nat _ _ eq_refl eq_refl) as (out & Hn & Pc). inversion Pc; subst.
    destruct ls as [|x [|y ls]]; try discriminate. cbn in Hn. injection Hn as ->.
    cbn [map concat text] in E. rewrite !app_nil_r in E. eauto.
Qed.
Print Assumptions C15_hex.
Theorem C15_compiler : forall n, Forall hexdigit (CvtHex n) /\ List.length (CvtHex n) = 4%nat /\ hex_value (CvtHex n) = n mod 65536.
Proof. exact CvtHex_spec. Qed.
Print Assumptions C15_compiler.
Example C15_ex : vsprintf (str "%X %2x %06X") [AInt 0x1a2b; AInt 0x1234; AInt (-2)] = Ok (str "1A2B 34 FFFFFE") /\ CvtHex (-1) = str "FFFF".
Proof. vm_compute. split; reflexivity. Qed.
(** beyond 64 digits the shift count wraps: the 65th digit from the right repeats the last *)
Theorem C15_wide_refuted : exists hs, vsprintf (str "%65X") [AInt 1] = Ok hs /\ hex_value hs <> 1.
Proof. eexists. split; [vm_compute; reflexivity|]. vm_compute. discriminate. Qed.
Print Assumptions C15_wide_refuted.

(** * C56: memory in other segments, and the clock *)
Theorem C56_peek : forall s, let bs := framed FarPeek_body in
  at_entry bs s -> code_safe 4 bs s -> ~ scratch 4 s (phys (arg s 0) (arg s 1)) ->
  reaches (fun s' => returned s s' /\ ax (rg s') = rd8 (mem s) (arg s 0) (arg s 1) /\ mem_kept 4 s s' /\
                     bx (rg s') = bx (rg s) /\ cx (rg s') = cx (rg s) /\ dx (rg s') = dx (rg s) /\ di (rg s') = di (rg s)) s.
Proof. exact FarPeek_call. Qed.
Print Assumptions C56_peek.
Theorem C56_poke : forall s, let bs := framed FarPoke_body in
  at_entry bs s -> code_safe 4 bs s ->
  (forall k, (k < List.length bs)%nat -> phys (arg s 0) (arg s 1) <> phys (cs (sg s)) (ip s + Z.of_nat k)) ->
  (forall k, -4 <= k < 2 -> phys (arg s 0) (arg s 1) <> phys (ss (sg s)) (sp (rg s) + k)) ->
  reaches (fun s' => returned s s' /\ rd8 (mem s') (arg s 0) (arg s 1) = arg s 2 mod 256 /\
     (forall a, a <> phys (arg s 0) (arg s 1) -> ~ scratch 4 s a -> aget (mem s') a = aget (mem s) a) /\
     bx (rg s') = bx (rg s) /\ cx (rg s') = cx (rg s) /\ dx (rg s') = dx (rg s) /\ si (rg s') = si (rg s)) s.
Proof. exact FarPoke_call. Qed.
Print Assumptions C56_poke.
Theorem C56_clock : forall s, let bs := framed clock_body in
  at_entry bs s -> code_safe 4 bs s -> ds (sg s) = cs (sg s) ->
  ~ scratch 4 s (phys 0 0x46C) -> ~ scratch 4 s (phys 0 0x46D) ->
  reaches (fun s' => returned s s' /\ ax (rg s') = rd16 (mem s) 0 0x46C /\ mem_kept 4 s s') s.
Proof. exact clock_call. Qed.
Print Assumptions C56_clock.
Definition d56 := demo (framed FarPoke_body) [0xB800; 0x123; 0x17F] [].
Example C56_ex : at_entry (framed FarPoke_body) d56 /\ code_safe 4 (framed FarPoke_body) d56 /\ arg d56 0 = 0xB800 /\
  (forall k, (k < List.length (framed FarPoke_body))%nat -> phys (arg d56 0) (arg d56 1) <> phys (cs (sg d56)) (ip d56 + Z.of_nat k)) /\
  (forall k, -4 <= k < 2 -> phys (arg d56 0) (arg d56 1) <> phys (ss (sg d56)) (sp (rg d56) + k)).
Proof.
  split; [entry|]. split; [safe|]. split; [reflexivity|].
  change (arg d56 0) with 0xB800. change (arg d56 1) with 0x123. change (cs (sg d56)) with 4096. change (ss (sg d56)) with 4096.
  change (ip d56) with 256. change (sp (rg d56)) with 0xF000. split.
  - intros k K. cbn in K. unfold phys. change ((0xB800 * 16 + 0x123 mod 65536) mod 1048576) with 753955. lia.
  - intros k K. unfold phys. change ((0xB800 * 16 + 0x123 mod 65536) mod 1048576) with 753955. lia.
Qed.
Definition d56p := demo (framed FarPeek_body) [0xB800; 0x123] [].
Example C56_peek_ex : at_entry (framed FarPeek_body) d56p /\ code_safe 4 (framed FarPeek_body) d56p /\
  ~ scratch 4 d56p (phys (arg d56p 0) (arg d56p 1)).
Proof.
  split; [entry|]. split; [safe|]. intros (k & K & E). change (sp (rg d56p)) with 0xF000 in E. change (ss (sg d56p)) with 4096 in E.
  change (phys (arg d56p 0) (arg d56p 1)) with 753955 in E. unfold phys in E. lia.
Qed.
Definition d56c := demo (framed clock_body) [] [].
Example C56_clock_ex : at_entry (framed clock_body) d56c /\ code_safe 4 (framed clock_body) d56c /\ ds (sg d56c) = cs (sg d56c) /\
  ~ scratch 4 d56c (phys 0 0x46C) /\ ~ scratch 4 d56c (phys 0 0x46D).
Proof.
  split; [entry|]. split; [safe|]. split; [reflexivity|].
  split; intros (k & K & E); change (sp (rg d56c)) with 0xF000 in E; change (ss (sg d56c)) with 4096 in E; unfold phys in E; lia.
Qed.
