(** C41: output file names. *)
From Coq Require Import ZArith List Bool Lia String.
From Verif Require Import Base SccLex SccStmt SccWitness Names.
Import ListNotations.
Open Scope Z_scope.
Notation length := List.length.

(** a file name is a stem, and possibly an extension: a dot and characters that are neither
    dots nor directory separators *)
Definition plain (l : list Z) : Prop := ~ In 46 l /\ ~ In 47 l /\ ~ In 92 l.
Definition dotless (l : list Z) : Prop := ~ In 46 l.

Lemma copy_name_spec n : forall dest last,
  let (d, p) := copy_name n dest last in
  d = dest ++ n /\ p = (fix go (k : nat) (n : list Z) (p : option nat) := match n with [] => p | c :: n => go (S k) n (if c =? 46 then Some k else p) end) (length dest) n last.
Proof.
  induction n as [|c n IH]; intros dest last; cbn [copy_name].
  - split; [rewrite app_nil_r; reflexivity|reflexivity].
  - specialize (IH (dest ++ [c]) (if c =? 46 then Some (length dest) else last)).
    destruct (copy_name n (dest ++ [c]) (if c =? 46 then Some (length dest) else last)) as [d p]. destruct IH as [E1 E2].
    split; [rewrite E1, <- app_assoc; reflexivity|]. rewrite E2, app_length. cbn [length]. rewrite Nat.add_1_r. reflexivity.
Qed.
Lemma last_dotless n : forall k p, dotless n ->
  (fix go (k : nat) (n : list Z) (p : option nat) := match n with [] => p | c :: n => go (S k) n (if c =? 46 then Some k else p) end) k n p = p.
Proof.
  induction n as [|c n IH]; intros k p D; [reflexivity|]. destruct (Z.eqb_spec c 46) as [->|N]; [exfalso; apply D; left; reflexivity|].
  apply IH. intro I. apply D. right. exact I.
Qed.
Lemma last_dot a : forall b k p, dotless b ->
  (fix go (k : nat) (n : list Z) (p : option nat) := match n with [] => p | c :: n => go (S k) n (if c =? 46 then Some k else p) end) k (a ++ 46 :: b) p = Some (k + length a)%nat.
Proof.
  induction a as [|c a IH]; intros b k p D.
  - cbn [app]. change (46 =? 46) with true. cbv iota. rewrite last_dotless by assumption. rewrite Nat.add_0_r. reflexivity.
  - cbn [app length]. rewrite IH by assumption. f_equal. lia.
Qed.
Lemma make_dot room a b ext : dotless b -> Z.of_nat (length (a ++ 46 :: b)) <= room -> Z.of_nat (length a + length ext) < room ->
  MakeOutputFilename room (a ++ 46 :: b) ext = Ok (a ++ ext).
Proof.
  intros D L1 L2. unfold MakeOutputFilename. pose proof (copy_name_spec (a ++ 46 :: b) [] None) as H.
  destruct (copy_name (a ++ 46 :: b) [] None) as [d p]. destruct H as [-> ->]. cbn [app length]. rewrite last_dot by assumption.
  cbn [Nat.add]. rewrite firstn_app, Nat.sub_diag, firstn_all, app_nil_r.
  destruct (Z.leb_spec (Z.of_nat (length (a ++ 46 :: b))) room); [|lia]. destruct (Z.leb_spec (Z.of_nat (length (a ++ ext)) + 1) room); [reflexivity|rewrite app_length in *; lia].
Qed.
Lemma make_none room a ext : dotless a -> Z.of_nat (length a + length ext) < room -> MakeOutputFilename room a ext = Ok (a ++ ext).
Proof.
  intros D L. unfold MakeOutputFilename. pose proof (copy_name_spec a [] None) as H.
  destruct (copy_name a [] None) as [d p]. destruct H as [-> ->]. cbn [app length]. rewrite last_dotless by assumption.
  rewrite firstn_all. destruct (Z.leb_spec (Z.of_nat (length a)) room); [|lia]. destruct (Z.leb_spec (Z.of_nat (length (a ++ ext)) + 1) room); [reflexivity|rewrite app_length in *; lia].
Qed.

(** a name with an extension: the extension is replaced, whatever the directories look like *)
Theorem C41_replace : forall dir_and_stem ext, plain ext -> Z.of_nat (length (dir_and_stem ++ 46 :: ext)) <= 59 ->
  scc_out_name (dir_and_stem ++ 46 :: ext) None = Ok (dir_and_stem ++ ext_com) /\
  scc_map_name (dir_and_stem ++ 46 :: ext) None = Ok (dir_and_stem ++ ext_map) /\
  scpp_out_name (dir_and_stem ++ 46 :: ext) None = Ok (dir_and_stem ++ ext_i).
Proof.
  intros a b (D & _) L. rewrite app_length in L. cbn [length] in L.
  repeat split; apply make_dot; try assumption; rewrite ?app_length; cbn [length ext_com ext_map ext_i]; unfold scc_room, scpp_room; lia.
Qed.
Print Assumptions C41_replace.
(** a name without any dot: the extension is appended *)
Theorem C41_append : forall n, dotless n -> Z.of_nat (length n) <= 59 ->
  scc_out_name n None = Ok (n ++ ext_com) /\ scc_map_name n None = Ok (n ++ ext_map) /\ scpp_out_name n None = Ok (n ++ ext_i).
Proof.
  intros n D L. repeat split; apply make_none; try assumption; cbn [length ext_com ext_map ext_i]; unfold scc_room, scpp_room; lia.
Qed.
Print Assumptions C41_append.
(** the same for names up to 4990 characters in scc alone *)
Theorem C41_scc_long : forall a ext, plain ext -> Z.of_nat (length (a ++ 46 :: ext)) <= 4990 ->
  scc_out_name (a ++ 46 :: ext) None = Ok (a ++ ext_com) /\ scc_map_name (a ++ 46 :: ext) None = Ok (a ++ ext_map).
Proof.
  intros a b (D & _) L. rewrite app_length in L. cbn [length] in L.
  repeat split; apply make_dot; try assumption; rewrite ?app_length; cbn [length ext_com ext_map]; unfold scc_room; lia.
Qed.
Print Assumptions C41_scc_long.
(** an explicit output name is used as it is *)
Theorem C41_explicit : forall a b, Z.of_nat (length b) <= 4999 -> scc_out_name a (Some b) = Ok b /\ scpp_out_name a (Some b) = Ok b.
Proof. intros a b L. split; [|reflexivity]. unfold scc_out_name, scc_room. destruct (Z.leb_spec (Z.of_nat (length b) + 1) 5000); [reflexivity|lia]. Qed.
Print Assumptions C41_explicit.
Definition str (s : string) : list Z := bytes_of s.
Example C41_ex : plain (str "c") /\ str "src.d/prog.c" = str "src.d/prog" ++ 46 :: str "c" /\ dotless (str "dir/prog") /\
  scc_out_name (str "src.d/prog.c") None = Ok (str "src.d/prog.com") /\ scpp_out_name (str "prog") None = Ok (str "prog.i").
Proof. unfold plain, dotless. vm_compute. repeat split; intuition discriminate. Qed.
(** a dot only in a directory component: the name is cut there *)
Theorem C41_directory_refuted : exists dir name, dotless name /\ ~ In 47 name /\
  scc_out_name (dir ++ 47 :: name) None <> Ok (dir ++ 47 :: name ++ ext_com) /\
  scc_out_name (dir ++ 47 :: name) None = Ok (str "src.com").
Proof. exists (str "src.d"), (str "prog"). unfold dotless. vm_compute. repeat split; intuition discriminate. Qed.
Print Assumptions C41_directory_refuted.
(** the map file and the program can be the same file: one of them is lost *)
Theorem C41_same_file_refuted : exists a b n, scc_out_name a b = Ok n /\ scc_map_name a b = Ok n.
Proof. exists (str "a.c"), (Some (str "a.map")), (str "a.map"). vm_compute. split; reflexivity. Qed.
Print Assumptions C41_same_file_refuted.
(** the program can overwrite its own source text: nothing keeps the names apart *)
Theorem C41_source_refuted : exists a, scc_map_name a None = Ok a.
Proof. exists (str "prog.map"). vm_compute. reflexivity. Qed.
Print Assumptions C41_source_refuted.
(** scpp's buffer has 64 characters, and nothing checks the length *)
Theorem C41_long_refuted : exists n, dotless n /\ length n = 63%nat /\ scpp_out_name n None = UB.
Proof.
  exists (repeat 97 63). split; [intro I; apply repeat_spec in I; discriminate|]. split; [reflexivity|]. vm_compute. reflexivity.
Qed.
Print Assumptions C41_long_refuted.
