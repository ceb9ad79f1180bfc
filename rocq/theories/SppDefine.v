(** #define and #undef: the environment changes as it should. *)
From Coq Require Import ZArith List Bool Lia String Permutation.
From Verif Require Import Base Spp SppSpec SppLex SppId SppWorld SppGet SppEval.
From Verif Require SccState.
Import ListNotations.
Open Scope Z_scope.
Open Scope p_scope.

(** ** Lists of elements *)
Fixpoint cells (s : st) (p : Z) (js : list Z) (l : list lexeme) : Prop :=
  match js, l with
  | [], [] => p = -1
  | j :: js, x :: l => p = j /\ j <> -1 /\ elem_ok s (e_tok (aget (pool s) j)) x /\ cells s (e_next (aget (pool s) j)) js l
  | _, _ => False
  end.
Lemma cells_of s : forall l p js, chain s p l -> links (pool s) p js -> cells s p js l.
Proof.
  induction l as [|x l IH]; intros p [|j js] C K; cbn [chain links cells] in *; try tauto; try (subst; tauto).
  - destruct K as (-> & N & _). contradiction.
  - destruct C as (N & EO & C), K as (-> & N' & K). auto.
Qed.
Lemma cells_chain s : forall l p js, cells s p js l -> chain s p l.
Proof.
  induction l as [|x l IH]; intros p [|j js] H; cbn [chain cells] in *; try tauto. destruct H as (-> & N & EO & C). split; [exact N|]. split; [exact EO|]. eauto.
Qed.
Lemma cells_links s : forall l p js, cells s p js l -> links (pool s) p js.
Proof.
  induction l as [|x l IH]; intros p [|j js] H; cbn [links cells] in *; try tauto. destruct H as (-> & N & EO & C). auto.
Qed.
Lemma cells_length s : forall l p js, cells s p js l -> length js = length l.
Proof. induction l as [|x l IH]; intros p [|j js] H; cbn [cells length] in *; try tauto. destruct H as (_ & _ & _ & C). f_equal. eauto. Qed.
Definition same_text (s s' : st) : Prop := npos s <= npos s' /\ forall j, j < npos s -> aget (data s') j = aget (data s) j.
Lemma elem_same s s' t x : same_text s s' -> elem_ok s t x -> elem_ok s' t x.
Proof. intros [N D] [A B]. split; [exact A|]. intro H. eapply calm_kept; eauto. Qed.
Lemma cells_same s s' : same_text s s' -> forall l p js, (forall j, In j js -> aget (pool s') j = aget (pool s) j) -> cells s p js l -> cells s' p js l.
Proof.
  intro ST. induction l as [|x l IH]; intros p [|j js] A H; cbn [cells] in *; auto. destruct H as (-> & N & EO & C).
  rewrite (A j (or_introl eq_refl)). split; [reflexivity|]. split; [exact N|]. split; [eapply elem_same; eauto|]. apply IH; [|exact C]. intros. apply A. right. assumption.
Qed.
Lemma links_same a a' : forall js p, (forall j, In j js -> aget a' j = aget a j) -> links a p js -> links a' p js.
Proof.
  induction js as [|j js IH]; intros p A H; cbn [links] in *; [exact H|]. destruct H as (-> & N & K). split; [reflexivity|]. split; [exact N|].
  rewrite (A j (or_introl eq_refl)). apply IH; [|exact K]. intros. apply A. right. assumption.
Qed.
Lemma links_end a p js : links a p js -> js = [] <-> p = -1.
Proof. destruct js as [|j js]; cbn [links]; split; intros; try tauto; try discriminate. destruct H as (-> & N & _). contradiction. Qed.

(** ** Updating a list at an index *)
Fixpoint set_nth {A} (i : nat) (x : A) (l : list A) : list A :=
  match l, i with
  | [], _ => []
  | _ :: l, O => x :: l
  | y :: l, S i => y :: set_nth i x l
  end.
Lemma set_nth_length {A} (x : A) l : forall i, length (set_nth i x l) = length l.
Proof. induction l as [|y l IH]; intros [|i]; cbn [set_nth length]; auto. Qed.
Lemma set_nth_same {A} (x d : A) l : forall i, (i < length l)%nat -> nth i (set_nth i x l) d = x.
Proof. induction l as [|y l IH]; intros [|i] H; cbn [set_nth length nth] in *; try lia; auto. apply IH. lia. Qed.
Lemma set_nth_other {A} (x d : A) l : forall i j, i <> j -> nth j (set_nth i x l) d = nth j l d.
Proof. induction l as [|y l IH]; intros [|i] [|j] H; cbn [set_nth nth] in *; auto; try lia. Qed.
Lemma concat_set (x : list Z) B : forall i, (i < length B)%nat -> Permutation (nth i B [] ++ List.concat (set_nth i x B)) (x ++ List.concat B).
Proof.
  induction B as [|y B IH]; intros [|i] H; cbn [set_nth length nth List.concat] in *; try lia.
  - rewrite !app_assoc. apply Permutation_app_tail, Permutation_app_comm.
  - rewrite app_assoc. rewrite (Permutation_app_comm (nth i B []) y), <- app_assoc. rewrite (IH i) by lia.
    rewrite !app_assoc. apply Permutation_app_tail, Permutation_app_comm.
Qed.

(** ** The environment *)
Lemma update_new e n b : lookup e n = None -> update e n b = e ++ [(n, b)].
Proof.
  induction e as [|[m c] e IH]; cbn [lookup update app]; [reflexivity|]. destruct (word_eq m n); [discriminate|]. intro H. rewrite IH by exact H. reflexivity.
Qed.
Lemma update_old e n b i c : nth_error e i = Some (n, c) -> NoDup (map fst e) -> update e n b = set_nth i (n, b) e.
Proof.
  revert i. induction e as [|[m d] e IH]; intros [|i] E ND; cbn [nth_error update set_nth map fst] in *; try discriminate.
  - injection E as -> ->. rewrite (proj2 (word_eq_true n n) eq_refl). reflexivity.
  - inversion ND as [|? ? NI ND']; subst. destruct (word_eq m n) eqn:Q; [|rewrite (IH i E ND'); reflexivity]. apply word_eq_true in Q. subst m. exfalso. apply NI.
    apply in_map_iff. exists (n, c). split; [reflexivity|]. eapply nth_error_In, E.
Qed.
Lemma map_fst_set (e : env) n b c : forall i, nth_error e i = Some (n, c) -> map fst (set_nth i (n, b) e) = map fst e.
Proof.
  induction e as [|[m d] e IH]; intros [|i] E; cbn [nth_error set_nth map fst] in *; try discriminate; [injection E as -> ->; reflexivity|]. rewrite (IH i E). reflexivity.
Qed.
Lemma nth_error_set {A} (x : A) l : forall i j, nth_error (set_nth i x l) j = if Nat.eq_dec i j then (if lt_dec i (length l) then Some x else None) else nth_error l j.
Proof.
  induction l as [|y l IH]; intros [|i] [|j]; cbn [set_nth nth_error length]; try reflexivity.
  - destruct (Nat.eq_dec (S i) (S j)); [|reflexivity]. destruct (lt_dec (S i) 0); [lia|reflexivity].
  - rewrite IH. destruct (Nat.eq_dec i j), (Nat.eq_dec (S i) (S j)); try lia; [|reflexivity]. destruct (lt_dec i (length l)), (lt_dec (S i) (S (length l))); try lia; reflexivity.
Qed.
Definition blen (b : option (list lexeme)) : Z := match b with Some l => Z.of_nat (length l) | None => 0 end.
Lemma stored_cons n b e : stored ((n, b) :: e) = blen b + stored e.
Proof. reflexivity. Qed.
Lemma stored_app e n b : stored (e ++ [(n, b)]) = stored e + blen b.
Proof. induction e as [|[m c] e IH]; cbn [app]; rewrite !stored_cons; [cbn; lia|]. rewrite IH. lia. Qed.
Lemma stored_set e n b c : forall i, nth_error e i = Some (n, c) -> stored (set_nth i (n, b) e) = stored e - blen c + blen b.
Proof.
  induction e as [|[m d] e IH]; intros [|i] E; cbn [nth_error set_nth] in *; try discriminate; rewrite !stored_cons; [injection E as -> ->; lia|]. rewrite (IH i E). lia.
Qed.
(** all elements of the bodies *)
Lemma concat_stored e : forall B : list (list Z), length B = length e -> (forall i n b, nth_error e i = Some (n, b) -> Z.of_nat (length (nth i B [])) = blen b) ->
  Z.of_nat (length (List.concat B)) = stored e.
Proof.
  induction e as [|[n b] e IH]; intros [|y B] L H; cbn [length] in L; try discriminate; [reflexivity|]. cbn [List.concat]. rewrite app_length, Nat2Z.inj_add, stored_cons.
  pose proof (H 0%nat n b eq_refl) as H0. cbn [nth] in H0. rewrite (IH B); [lia|lia|]. intros i m c E. exact (H (S i) m c E).
Qed.

(** ** While a body is being stored *)
(** macro m of the environment e is being defined; js are the elements of the lexemes l stored so far *)
Record building (e : env) (u : Z) (m : nat) (js : list Z) (l : list lexeme) (L : place) (s : st) : Prop := {
  d_base : base e u s;
  d_stack : stack s = [];
  d_macros : macros e [] (eq m) s;
  d_entry : exists n, nth_error e m = Some (n, None);
  d_args : m_args (aget (macs s) (Z.of_nat m)) = ANone;
  d_hide : m_hide (aget (macs s) (Z.of_nat m)) = 0;
  d_pool : pool_ok e (eq m) js s;
  d_clean : Forall clean l;
  d_cells : match js with
            | [] => L = LMacro (Z.of_nat m) /\ l = []
            | _ => cells s (m_repl (aget (macs s) (Z.of_nat m))) js l /\ L = LNext (last js 0)
            end }.
Lemma idle_building e u m js l L s s' : idle s s' -> building e u m js l L s -> building e u m js l L s'.
Proof.
  intros I H. pose proof (idle_calm _ _ I) as C. constructor.
  - eapply idle_base; [exact I|apply H].
  - rewrite (i_stack _ _ I). apply H.
  - eapply calm_macros; [exact C|apply I|apply H].
  - apply H.
  - rewrite (i_macs _ _ I). apply H.
  - rewrite (i_macs _ _ I). apply H.
  - destruct (d_pool _ _ _ _ _ _ _ H) as (fl & B & X). exists fl, B. rewrite (i_pool _ _ I), (i_free _ _ I), (i_macs _ _ I). exact X.
  - apply H.
  - pose proof (d_cells _ _ _ _ _ _ _ H) as X. destruct js as [|j js]; [exact X|]. destruct X as [X Y]. split; [|exact Y]. rewrite (i_macs _ _ I).
    eapply cells_same; [|intros; rewrite (i_pool _ _ I); reflexivity|exact X]. split; [apply C|apply C].
Qed.
(** a raw token when no replacement is being read *)
Lemma raw_next0 e u s x T : base e u s -> stack s = [] -> reads (x :: T) s -> u + size x <= TEXT ->
  exists s', runs RawGetToken s tt s' /\ got s s' x (texts T) /\ reads T s' /\ raw_tok s' x.
Proof.
  intros B ES [I P] F. cbn [separated] in P. apply andb_true_iff in P. destruct P as [P PT]. apply andb_true_iff in P. destruct P as [P1 P2].
  pose proof (b_npos _ _ _ B) as NP. pose proof (b_u _ _ _ B) as U. unfold TEXT in *.
  destruct (raw_lex s x (texts T) I P1 P2 (separated_hd _ PT)) as (s' & R & G); [lia|unfold TOKEN_DATA_MAX; lia|].
  exists s'. split; [|split; [exact G|split]].
  - unfold RawGetToken. eapply runs_bind with (a := false) (s1 := s).
    + apply (runs_S_eq _ (fun _ => ret false) s s); [|apply runs_ret]. intro f. cbn [raw_stack]. unfold SccState.bind, SccState.gets. rewrite ES. reflexivity.
    + cbv beta iota. apply runs_gets. rewrite (b_queue _ _ _ B). exact R.
  - split; [apply G|exact PT].
  - split; [apply G|]. split.
    + intro HW. rewrite (g_text _ _ _ _ G). cbn [shown]. split; [lia|]. split; [|apply (g_word _ _ _ _ G HW)].
      unfold TOKEN_DATA_MAX. destruct x; cbn [word size has_word] in *; try discriminate; lia.
    + intros w E. left. apply (g_hash _ _ _ _ G w E).
Qed.

Lemma NoDup_app_l {A} (a b : list A) : NoDup (a ++ b) -> NoDup a.
Proof. induction a as [|x a IH]; intro H; [constructor|]. cbn [app] in H. apply NoDup_cons_iff in H. constructor; [intro I; apply H, in_or_app; auto|apply IH, H]. Qed.
(** *** Storing one token *)
Definition cons_pool (s : st) (t : token) (L : place) : st :=
  let j := free s in
  let s1 := set_pool s (aset (pool s) j (mkelem (e_tok (aget (pool s) j)) (-1))) (e_next (aget (pool s) j)) in
  let s2 := match L with
            | LMacro i => let m := aget (macs s1) i in set_macs s1 (aset (macs s1) i (mkmac (m_args m) j (m_hide m)))
            | LArg i => let a := aget (args s1) i in set_args s1 (aset (args s1) i (mkarg (a_id a) (a_next a) j)) (nargs s1)
            | LNext e => let x := aget (pool s1) e in set_pool s1 (aset (pool s1) e (mkelem (e_tok x) j)) (free s1)
            end in
  set_pool s2 (aset (pool s2) j (mkelem t (e_next (aget (pool s2) j)))) (free s2).
Lemma AddToken_eq s t L : free s <> -1 -> AddToken L t s = Ok (LNext (free s), cons_pool s t L).
Proof.
  intro N. unfold AddToken. unfold SccState.bind at 1, SccState.gets at 1. destruct (Z.eqb_spec (free s) (-1)); [contradiction|].
  destruct L; reflexivity.
Qed.
Lemma last_in (js : list Z) : js <> [] -> In (last js 0) js.
Proof.
  induction js as [|j js IH]; intro H; [congruence|]. destruct js as [|k js]; [left; reflexivity|]. right. apply IH. discriminate.
Qed.
Lemma last_snoc (js : list Z) j : last (js ++ [j]) 0 = j.
Proof. induction js as [|k js IH]; [reflexivity|]. cbn [app]. destruct (js ++ [j]) eqn:E; [destruct js; discriminate|]. cbn [last]. cbn [last] in IH. exact IH. Qed.
(** appending an element to a list *)
Lemma cells_snoc s s' j x : forall l p js, js <> [] -> NoDup js -> ~ In j js -> j <> -1 ->
  cells s p js l -> same_text s s' ->
  (forall k, In k js -> e_tok (aget (pool s') k) = e_tok (aget (pool s) k)) ->
  (forall k, In k js -> k <> last js 0 -> e_next (aget (pool s') k) = e_next (aget (pool s) k)) ->
  e_next (aget (pool s') (last js 0)) = j -> elem_ok s' (e_tok (aget (pool s') j)) x -> e_next (aget (pool s') j) = -1 ->
  cells s' p (js ++ [j]) (l ++ [x]).
Proof.
  induction l as [|y l IH]; intros p [|k js] NE ND NI NJ C ST A B N1 N2 N3; cbn [cells] in C; try contradiction; try congruence.
  destruct C as (-> & NK & EO & C). cbn [app cells]. split; [reflexivity|]. split; [exact NK|]. split; [rewrite A by (left; reflexivity); eapply elem_same; eauto|].
  apply NoDup_cons_iff in ND. destruct ND as [NI' ND']. destruct js as [|k' js].
  - destruct l as [|y' l]; [|cbn [cells] in C; contradiction]. cbn [app cells last] in *. rewrite N1. auto.
  - change (last (k :: k' :: js) 0) with (last (k' :: js) 0) in *. rewrite B; [|left; reflexivity|intro E; apply NI'; rewrite E; apply last_in; discriminate].
    apply IH; auto; try discriminate; try (intro; apply NI; right; assumption).
    + intros. apply A. right. assumption.
    + intros. apply B; [right; assumption|]. assumption.
Qed.

Lemma pool_cons s t L m : forall js, L = LMacro m /\ js = [] \/ L = LNext (last js 0) /\ js <> [] ->
  ~ In (free s) js ->
  let s' := cons_pool s t L in
  (forall k, k <> free s -> ~ In k js -> aget (pool s') k = aget (pool s) k) /\
  (forall k, In k js -> e_tok (aget (pool s') k) = e_tok (aget (pool s) k)) /\
  (forall k, In k js -> k <> last js 0 -> e_next (aget (pool s') k) = e_next (aget (pool s) k)) /\
  (js <> [] -> e_next (aget (pool s') (last js 0)) = free s) /\
  aget (pool s') (free s) = mkelem t (-1) /\ free s' = e_next (aget (pool s) (free s)) /\
  macs s' = (match L with LMacro i => let m := aget (macs s) i in aset (macs s) i (mkmac (m_args m) (free s) (m_hide m)) | _ => macs s end).
Proof.
  intros js C NI s'. destruct C as [[-> ->]|[-> NE]]; subst s'.
  - unfold cons_pool. cbv zeta. cbn [pool free macs set_macs set_pool e_next e_tok]. repeat apply conj; intros; try contradiction; try congruence.
    + rewrite !aget_aset_other by congruence. reflexivity.
    + rewrite !aget_aset_same. reflexivity.
  - pose proof (last_in js NE) as LI. assert (last js 0 <> free s) by (intro E; apply NI; rewrite <- E; exact LI).
    unfold cons_pool. cbv zeta. cbn [pool free macs set_macs set_pool]. repeat apply conj; intros; try congruence.
    + assert (k <> last js 0) by (intros ->; contradiction). rewrite !aget_aset_other by congruence. reflexivity.
    + assert (k <> free s) by (intros ->; contradiction). rewrite (aget_aset_other _ (free s) k) by congruence. destruct (Z.eq_dec k (last js 0)) as [->|].
      * rewrite aget_aset_same. cbn [e_tok]. rewrite aget_aset_other by congruence. reflexivity.
      * rewrite !aget_aset_other by congruence. reflexivity.
    + assert (k <> free s) by (intros ->; contradiction). rewrite !aget_aset_other by congruence. reflexivity.
    + rewrite aget_aset_other by congruence. rewrite aget_aset_same. reflexivity.
    + rewrite aget_aset_same. f_equal. rewrite aget_aset_other by congruence. rewrite aget_aset_same. reflexivity.
Qed.

(** moving npos *)
Lemma cons_pool_same s t L : same_text s (cons_pool s t L).
Proof. split; [destruct L; cbn; lia|]. intros. destruct L; reflexivity. Qed.
Lemma macros_cells e K sk s i n l : macros e K sk s -> nth_error e i = Some (n, Some l) -> ~ sk i ->
  forall js, links (pool s) (m_repl (aget (macs s) (Z.of_nat i))) js -> cells s (m_repl (aget (macs s) (Z.of_nat i))) js l.
Proof. intros M E NS js LK. destruct (proj1 M i n _ E NS) as (_ & _ & C & _). eapply cells_of; eauto. Qed.
Lemma nth_in_concat (B : list (list Z)) i j : In j (nth i B []) -> In j (List.concat B).
Proof.
  intro H. apply in_concat. exists (nth i B []). split; [|exact H]. destruct (lt_dec i (length B)) as [?|N]; [apply nth_In; assumption|].
  rewrite nth_overflow in H by lia. contradiction.
Qed.
(** the number of free elements *)
Definition room (e : env) (js : list Z) : Z := POOL - Z.of_nat (length js) - stored e.
Lemma bodies_stored e u m js l L s (B : list (list Z)) : building e u m js l L s -> length B = length e ->
  (forall i n b, nth_error e i = Some (n, b) -> m <> i ->
     match b with Some l => links (pool s) (m_repl (aget (macs s) (Z.of_nat i))) (nth i B []) | None => nth i B [] = [] end) ->
  (forall i, m = i -> nth i B [] = []) -> Z.of_nat (length (List.concat B)) = stored e.
Proof.
  intros H LB HB HS. apply concat_stored; [exact LB|]. intros i n b E. destruct (Nat.eq_dec m i) as [EQ|NE].
  - rewrite (HS i EQ). subst i. destruct (d_entry _ _ _ _ _ _ _ H) as [n' E']. rewrite E in E'. injection E' as -> ->. reflexivity.
  - specialize (HB i n b E NE). destruct b as [l'|]; cbn [blen]; [|rewrite HB; reflexivity]. f_equal. eapply cells_length, macros_cells; try eassumption. apply H.
Qed.
Lemma free_room e u m js l L s : building e u m js l L s -> 0 < room e js -> free s <> -1.
Proof.
  intros H R E. destruct (d_pool _ _ _ _ _ _ _ H) as (fl & B & LF & LB & HB & HS & ND & TOT & NN).
  apply (links_end _ _ _ LF) in E. subst fl. pose proof (bodies_stored _ _ _ _ _ _ _ B H LB HB HS) as X. unfold room in R. cbn [app] in TOT. rewrite app_length in TOT. lia.
Qed.
Lemma add_step e u m js l L s t x : building e u m js l L s -> 0 < room e js -> clean x -> elem_ok s t x ->
  exists s', AddToken L t s = Ok (LNext (free s), s') /\ building e u m (js ++ [free s]) (l ++ [x]) (LNext (free s)) s' /\
    inp s' = inp s /\ tok s' = tok s /\ pos s' = pos s /\ data s' = data s /\ chash s' = chash s /\ quiet s s'.
Proof.
  intros H R CX EX. pose proof (free_room _ _ _ _ _ _ _ H R) as NF. exists (cons_pool s t L). split; [apply AddToken_eq, NF|].
  split; [|destruct L; parts; try reflexivity; constructor; reflexivity].
  destruct (d_pool _ _ _ _ _ _ _ H) as (fl & B & LF & LB & HB & HS & ND & TOT & NN).
  destruct fl as [|j fl]; [cbn [links] in LF; contradiction|]. cbn [links] in LF. destruct LF as (EJ & NJ & LF).
  cbn [app] in ND, TOT, NN. apply NoDup_cons_iff in ND. destruct ND as [NI ND]. rewrite !in_app_iff in NI.
  assert (CC : L = LMacro (Z.of_nat m) /\ js = [] \/ L = LNext (last js 0) /\ js <> []).
  { pose proof (d_cells _ _ _ _ _ _ _ H) as X. destruct js; [left; tauto|right]. split; [apply X|discriminate]. }
  destruct (pool_cons s t L (Z.of_nat m) js CC) as (P1 & P2 & P3 & P4 & P5 & P6 & P7); [rewrite EJ; tauto|].
  set (s' := cons_pool s t L) in *.
  assert (ST : same_text s s') by apply cons_pool_same.
  assert (MI : forall i, i <> m -> aget (macs s') (Z.of_nat i) = aget (macs s) (Z.of_nat i)).
  { intros i NE. rewrite P7. destruct CC as [[-> _]|[-> _]]; [|reflexivity]. apply aget_aset_other. lia. }
  assert (NDJ : NoDup (js ++ List.concat B)) by (eapply NoDup_app_r, ND).
  assert (DJ : forall k, In k (List.concat B) -> k <> free s /\ ~ In k js).
  { intros k IK. split; [rewrite EJ; intros ->; tauto|]. intro IJ. revert NDJ IJ IK. clear. induction js as [|a js IH]; intros ND IJ IK; [contradiction|].
    cbn [app] in ND. apply NoDup_cons_iff in ND. destruct IJ as [->|IJ]; [apply ND; apply in_or_app; auto|apply IH; [apply ND|assumption..]]. }
  constructor.
  - pose proof (d_base _ _ _ _ _ _ _ H) as BB. constructor; try apply BB.
    + destruct L; apply BB.
    + unfold names_ok. assert (E : ids s' = ids s) by (destruct L; reflexivity). rewrite E. eapply Forall2_impl'; [|apply (b_names _ _ _ BB)]. intros. eapply calm_kept; [apply ST|apply ST|assumption].
    + destruct L; apply BB.
    + destruct L; apply BB.
  - destruct L; apply H.
  - split.
    + intros i n b E NS. assert (NE : i <> m) by congruence. rewrite MI by exact NE. pose proof (proj1 (d_macros _ _ _ _ _ _ _ H) i n b E NS) as (MA & MB). split; [exact MA|].
      destruct b as [bl|]; [|exact MB]. destruct MB as (MH & MC & MF). split; [exact MH|]. split; [|exact MF].
      pose proof (HB i n (Some bl) E NS) as LK. cbv beta iota in LK. eapply cells_chain. eapply cells_same; [exact ST| |eapply cells_of; eassumption].
      intros k IK. apply P1; apply DJ; eapply nth_in_concat, IK.
    + intros i LE. assert (i <> m). { intros ->. destruct (d_entry _ _ _ _ _ _ _ H) as [n' E']. assert (m < length e)%nat by (apply nth_error_Some; congruence). lia. }
      rewrite MI by assumption. apply (proj2 (d_macros _ _ _ _ _ _ _ H)). exact LE.
  - apply H.
  - rewrite P7. destruct CC as [[-> _]|[-> _]]; [rewrite aget_aset_same; cbn [m_args]|]; apply H.
  - rewrite P7. destruct CC as [[-> _]|[-> _]]; [rewrite aget_aset_same; cbn [m_hide]|]; apply H.
  - exists fl, B. rewrite P6. split; [|split; [exact LB|split; [|split; [exact HS|]]]].
    + eapply links_same; [|exact LF]. intros k IK. apply P1; [rewrite EJ; intros ->; tauto|]. intro IJ.
      revert ND IK IJ. clear. intros ND IK IJ. induction fl as [|a fl IH]; [contradiction|]. cbn [app] in ND. apply NoDup_cons_iff in ND. destruct IK as [->|IK]; [apply ND; rewrite !in_app_iff; auto|apply IH; [apply ND|assumption]].
    + intros i n b E NS. assert (NE : i <> m) by congruence. specialize (HB i n b E NS). destruct b as [bl|]; [|exact HB]. rewrite MI by exact NE.
      eapply links_same; [|exact HB]. intros k IK. apply P1; apply DJ; eapply nth_in_concat, IK.
    + assert (PM : Permutation (fl ++ (js ++ [free s]) ++ List.concat B) (j :: fl ++ js ++ List.concat B)).
      { rewrite EJ, <- (app_assoc js). cbn [app]. rewrite !app_assoc. symmetry. apply Permutation_middle. }
      parts.
      * eapply Permutation_NoDup; [symmetry; exact PM|]. constructor; [rewrite !in_app_iff; exact NI|exact ND].
      * rewrite (Permutation_length PM). exact TOT.
      * eapply Permutation_Forall; [symmetry; exact PM|exact NN].
  - apply Forall_app. split; [apply H|repeat constructor; apply CX].
  - assert (EE : js ++ [free s] <> []) by (destruct js; discriminate). destruct (js ++ [free s]) as [|a js'] eqn:EQ; [congruence|]. rewrite <- EQ. rewrite last_snoc. split; [|reflexivity].
    assert (EX' : elem_ok s' (e_tok (aget (pool s') (free s))) x) by (rewrite P5; eapply elem_same; eauto).
    pose proof (d_cells _ _ _ _ _ _ _ H) as X. destruct js as [|k js].
    + destruct X as [-> ->]. rewrite P7, aget_aset_same. cbn [app cells m_repl]. parts; auto. rewrite P5. reflexivity.
    + destruct X as [X ->]. rewrite P7. apply cells_snoc with s; auto; try discriminate.
      * apply NoDup_app_l in NDJ. exact NDJ.
      * rewrite EJ. tauto.
      * apply P4. discriminate.
      * rewrite P5. reflexivity.
Qed.

Lemma lex_type_ws x : wf_lexeme x = true -> (lex_type x =? TOK_WHITESPACE) = is_ws x.
Proof.
  destruct x as [l| |w|w|q w|w]; intro W; try reflexivity; [cbn [lex_type]; destruct (q =? 34); reflexivity|]. destruct (doubles_not_single _ W) as [(c & -> & I)|I].
  - apply singles_cases in I. cbn [lex_type is_ws]. destruct (Z.eqb_spec c TOK_WHITESPACE); [|reflexivity]. subst c. vm_compute in I. intuition lia.
  - assert (F : forallb (fun w => negb (lex_type (Op w) =? TOK_WHITESPACE)) doubles = true) by reflexivity.
    rewrite forallb_forall in F. specialize (F _ I). apply negb_true_iff in F. exact F.
Qed.
Lemma lex_type_nl x : wf_lexeme x = true -> (lex_type x =? TOK_NEWLINE) = is_nl x.
Proof.
  destruct x as [l| |w|w|q w|w]; intro W; try reflexivity; [cbn [lex_type]; destruct (q =? 34); reflexivity|]. destruct (doubles_not_single _ W) as [(c & -> & I)|I].
  - apply singles_cases in I. cbn [lex_type is_nl]. destruct (Z.eqb_spec c TOK_NEWLINE); [|reflexivity]. subst c. vm_compute in I. intuition lia.
  - assert (F : forallb (fun w => negb (lex_type (Op w) =? TOK_NEWLINE)) doubles = true) by reflexivity.
    rewrite forallb_forall in F. specialize (F _ I). apply negb_true_iff in F. exact F.
Qed.
(** *** The loop over the body *)
Definition now (s : st) (u : Z) (x : lexeme) : Prop :=
  raw_tok s x /\ t_text (tok s) = PTok u /\ pos s = u + size x /\ (has_word x = true -> holds (data s) u (word x)).
Lemma names_calm s s' ns : same_text s s' -> ids s' = ids s -> names_ok s ns -> names_ok s' ns.
Proof. intros ST E H. unfold names_ok. rewrite E. eapply Forall2_impl'; [|exact H]. intros. eapply calm_kept; [apply ST|apply ST|assumption]. Qed.
Lemma building_npos e u m js l L s p : building e u m js l L s -> u <= p <= TEXT -> building e p m js l L (set_npos s p).
Proof.
  intros H P. pose proof (d_base _ _ _ _ _ _ _ H) as B. assert (C : calm s (set_npos s p)).
  { pose proof (b_npos _ _ _ B). constructor; [cbn; lia|reflexivity|reflexivity]. }
  constructor; try apply H.
  - pose proof (b_u _ _ _ B). constructor; try apply B; [|reflexivity|lia]. eapply calm_names; [exact C|reflexivity|apply B].
  - eapply calm_macros; [exact C|reflexivity|apply H].
  - pose proof (d_cells _ _ _ _ _ _ _ H) as X. destruct js as [|j js]; [exact X|]. destruct X as [X Y]. split; [|exact Y].
    change (macs (set_npos s p)) with (macs s). apply (cells_same s); [split; apply C|reflexivity|exact X].
Qed.
Lemma building_raw e u m js l L s x T : building e u m js l L s -> reads (x :: T) s -> u + size x <= TEXT ->
  exists s', runs RawGetToken s tt s' /\ building e u m js l L s' /\ reads T s' /\ now s' u x /\ quiet s s'.
Proof.
  intros H RD F. destruct (raw_next0 e u s x T (d_base _ _ _ _ _ _ _ H) (d_stack _ _ _ _ _ _ _ H) RD F) as (s' & R & G & RD' & RT).
  pose proof (b_npos _ _ _ (d_base _ _ _ _ _ _ _ H)) as NP. exists s'. parts; auto.
  - eapply idle_building; [apply keeps_idle, G|exact H].
  - split; [exact RT|]. rewrite (g_text _ _ _ _ G), (g_pos _ _ _ _ G), NP. split; [reflexivity|]. split; [reflexivity|]. rewrite <- NP. apply G.
  - apply keeps_quiet, G.
Qed.
Lemma room_snoc e js j : room e (js ++ [j]) = room e js - 1.
Proof. unfold room. rewrite app_length. cbn [length]. lia. Qed.
Lemma set_npos_cons s t L p : cons_pool (set_npos s p) t L = set_npos (cons_pool s t L) p.
Proof. destruct L; reflexivity. Qed.
Lemma sizes_cons x l : sizes (x :: l) = size x + sizes l. Proof. reflexivity. Qed.
Lemma sizes_nonneg l : 0 <= sizes l.
Proof. induction l as [|x l IH]; [cbn; lia|]. rewrite sizes_cons. pose proof (size_nonneg x). lia. Qed.
Lemma squeeze_ws p w r : squeeze p (Ws w :: r) = squeeze (if p =? 0 then 1 else p) r. Proof. reflexivity. Qed.
Lemma squeeze_other p x r : is_ws x = false -> squeeze p (x :: r) = (if p =? 1 then [Ws [32]] else []) ++ x :: squeeze 0 r.
Proof. destruct x; try discriminate; reflexivity. Qed.
Definition body' (fuel : nat) (m : Z) (L : place) (pend : Z) : M st place :=
  let! t := gets tok in
  if t_type t =? TOK_NEWLINE then ret L
  else if t_type t =? TOK_WHITESPACE then RawGetToken fuel;; body fuel m L (if pend =? 0 then 1 else pend)
  else
    let! al := gets (fun s => m_args (aget (macs s) m)) in
    (match al with
     | ANone => ret tt
     | _ =>
         when (t_type t =? TOK_RAW_ID)
           (ReplaceId;;
            let! ty := gets (fun s => t_type (tok s)) in
            let! a := (if TOK_USER_ID <=? ty then find_in al ty else ret None) in
            match a with
            | Some a => upd (fun s => set_tok s (mktok TOK_ARG (PArg a)))
            | None => set_type TOK_RAW_ID
            end)
     end);;
    let! L := (if pend =? 1 then AddToken L (mktok TOK_WHITESPACE PNull) else ret L) in
    let! t := gets tok in
    let! L := AddToken L t in
    upd (fun s => set_npos s (pos s));;
    RawGetToken fuel;; body fuel m L 0.
Lemma body_S f m L p : body (S f) m L p = body' f m L p. Proof. reflexivity. Qed.
Lemma body_runs e m T : forall b pend js l L s u x r,
  b ++ [Nl] = x :: r -> building e u m js l L s -> now s u x -> reads (r ++ T) s ->
  Forall (fun x => clean x /\ is_nl x = false) b -> u + sizes b <= TEXT -> Z.of_nat (length (squeeze pend b)) <= room e js ->
  exists js' L' s', runs (fun f => body f (Z.of_nat m) L pend) s L' s' /\ building e (u + sizes b) m js' (l ++ squeeze pend b) L' s' /\
    has_tok e s' Nl /\ reads T s' /\ quiet s s'.
Proof.
  induction b as [|y b IH]; intros pend js l L s u x r EB H NW RD FB FU FR.
  - injection EB as <- <-. exists js, L, s. cbn [squeeze]. rewrite app_nil_r, Z.add_0_r. split; [|split; [exact H|]].
    + eapply runs_S; [intro; apply body_S|]. unfold body'. apply runs_gets. destruct NW as ((-> & _) & _). apply runs_ret.
    + split; [|split; [exact RD|apply quiet_refl]]. destruct NW as ((TY & TX & _) & _). split; [exact TY|]. split; [exact TX|reflexivity].
  - cbn [app] in EB. injection EB as <- <-. inversion FB as [|? ? [CY NY] FB']; subst. rewrite sizes_cons in FU. pose proof (sizes_nonneg b) as SB. pose proof (size_nonneg y) as SY.
    assert (exists x' r', b ++ [Nl] = x' :: r') as (x' & r' & EB') by (destruct b; cbn [app]; eauto).
    assert (FX' : u + size y + size x' <= TEXT).
    { destruct b as [|z b]; injection EB' as <- <-; [cbn [size] in *; lia|]. rewrite sizes_cons in *. pose proof (sizes_nonneg b). lia. }
    destruct NW as ((TY & TX & TH) & TT & TP & TW). rewrite EB' in RD. cbn [app] in RD. destruct (is_ws y) eqn:IW.
    + destruct y as [w| | | | |]; try discriminate. clear IW. cbn [size] in *. rewrite squeeze_ws in *. rewrite sizes_cons. cbn [size]. rewrite !Z.add_0_l in *. rewrite Z.add_0_r in *.
      destruct (building_raw _ _ _ _ _ _ _ _ _ H RD FX') as (s1 & R1 & H1 & RD1 & N1 & Q1).
      destruct (IH _ _ _ _ _ _ _ _ EB' H1 N1 RD1 FB' FU FR) as (js' & L' & s' & R & HH & TK & RT & Q).
      exists js', L', s'. parts; auto; [|eapply quiet_trans; eauto].
      eapply runs_S; [intro; apply body_S|]. unfold body'. apply runs_gets. rewrite TY. cbv iota.
      change (lex_type (Ws w) =? TOK_NEWLINE) with false. change (lex_type (Ws w) =? TOK_WHITESPACE) with true. cbv iota.
      eapply runs_bind; [exact R1|exact R].
    + rewrite squeeze_other in * by exact IW. rewrite app_length in FR. cbn [length] in FR.
      assert (S1 : exists js1 L1 s1, (if pend =? 1 then AddToken L (mktok TOK_WHITESPACE PNull) else ret L) s = Ok (L1, s1) /\
        building e u m js1 (l ++ (if pend =? 1 then [Ws [32]] else [])) L1 s1 /\ room e js1 = room e js - Z.of_nat (length (if pend =? 1 then [Ws [32]] else [])) /\
        inp s1 = inp s /\ tok s1 = tok s /\ pos s1 = pos s /\ data s1 = data s /\ quiet s s1).
      { destruct (pend =? 1).
        - destruct (add_step e u m js l L s (mktok TOK_WHITESPACE PNull) (Ws [32]) H) as (s1 & E1 & H1 & I1 & T1 & P1 & D1 & _ & Q1).
          + cbn [length] in FR. lia.
          + split; reflexivity.
          + split; [reflexivity|discriminate].
          + exists (js ++ [free s]), (LNext (free s)), s1. rewrite room_snoc. parts; auto.
        - exists js, L, s. rewrite app_nil_r. parts; auto; [cbn [length]; lia|apply quiet_refl]. }
      destruct S1 as (js1 & L1 & s1 & E1 & H1 & RM1 & I1 & T1 & P1 & D1 & Q1).
      pose proof (building_npos _ _ _ _ _ _ _ (u + size y) H1 ltac:(lia)) as H2.
      destruct (add_step _ _ _ _ _ _ _ (tok s1) y H2) as (s3 & E3 & H3 & I3 & T3 & P3 & D3 & _ & Q3).
      * lia.
      * exact CY.
      * rewrite T1. split; [exact TY|]. intro HW. cbn [kept]. rewrite TT. cbn [kept].
        pose proof (b_u _ _ _ (d_base _ _ _ _ _ _ _ H)). split; [lia|]. split; [|cbn [data set_npos]; rewrite D1; apply TW, HW].
        cbn [npos set_npos]. destruct y; cbn [size word has_word] in *; try discriminate; lia.
      * assert (RD3 : reads ((x' :: r') ++ T) s3). { destruct RD as [RA RB]. split; [rewrite I3; cbn [inp set_npos]; rewrite I1; exact RA|exact RB]. }
        destruct (building_raw _ _ _ _ _ _ _ _ _ H3 RD3 FX') as (s4 & R4 & H4 & RD4 & N4 & Q4).
        destruct (IH 0 _ _ _ _ _ _ _ EB' H4 N4 RD4 FB') as (js' & L' & s' & R & HH & TK & RT & Q); [lia|rewrite room_snoc; lia|].
        exists js', L', s'. rewrite <- !app_assoc in HH. cbn [app] in HH. rewrite sizes_cons, Z.add_assoc, app_assoc, <- app_assoc. parts; auto.
        2: { eapply quiet_trans; [exact Q1|]. eapply quiet_trans; [|eapply quiet_trans; [exact Q3|eapply quiet_trans; eassumption]]. constructor; reflexivity. }
        eapply runs_S; [intro; apply body_S|]. unfold body'. apply runs_gets. rewrite TY.
        rewrite lex_type_nl, NY, lex_type_ws, IW by apply CY. apply runs_gets. rewrite (d_args _ _ _ _ _ _ _ H). apply runs_rbind. eapply runs_step; [exact E1|]. apply runs_gets.
        assert (E3' : AddToken L1 (tok s1) s1 = Ok (LNext (free s1), cons_pool s1 (tok s1) L1)).
        { apply AddToken_eq. apply (free_room _ _ _ _ _ _ _ H1). lia. }
        eapply runs_step; [exact E3'|]. apply runs_upd.
        assert (EQ : set_npos (cons_pool s1 (tok s1) L1) (pos (cons_pool s1 (tok s1) L1)) = s3).
        { rewrite AddToken_eq in E3 by (apply (free_room _ _ _ _ _ _ _ H2); lia). assert (E4 : cons_pool (set_npos s1 (u + size y)) (tok s1) L1 = s3) by (injection E3; auto).
          rewrite <- E4, set_npos_cons. f_equal. replace (u + size y) with (pos s1) by congruence. destruct L1; reflexivity. }
        rewrite EQ. eapply runs_bind; [exact R4|exact R].
Qed.

(** *** The end of a definition *)
Lemma cells_last s : forall l p js, cells s p js l -> js <> [] -> e_next (aget (pool s) (last js 0)) = -1.
Proof.
  induction l as [|x l IH]; intros p [|j js] C NE; cbn [cells] in C; try contradiction; try congruence.
  destruct C as (-> & _ & _ & C). destruct js as [|k js]; [destruct l; cbn [cells] in C; [exact C|contradiction]|].
  change (last (j :: k :: js) 0) with (last (k :: js) 0). eapply IH; [exact C|discriminate].
Qed.
Lemma names_set e n b c i : nth_error e i = Some (n, c) -> names (set_nth i (n, b) e) = names e.
Proof. intro E. unfold names. rewrite (map_fst_set _ _ _ _ _ E). reflexivity. Qed.
Lemma base_names e e' u s : names e' = names e -> base e u s -> base e' u s.
Proof. intros E []. constructor; rewrite ?E; assumption. Qed.
(** only elements and macros changed *)
Lemma base_pool e u s s' : npos s' = npos s -> data s' = data s -> ids s' = ids s -> Spp.hash s' = Spp.hash s -> queue s' = queue s ->
  base e u s -> base e u s'.
Proof.
  intros E1 E2 E3 E4 E5 B. constructor; rewrite ?E4; try apply B.
  - eapply names_calm; [|exact E3|apply B]. split; [lia|]. rewrite E2. reflexivity.
  - rewrite E1. apply B.
  - rewrite E5. apply B.
Qed.
Lemma finish e u m js l L s n : building e u m js l L s -> nth_error e m = Some (n, None) ->
  exists s', store L (-1) s = Ok (tt, s') /\ world (set_nth m (n, Some l) e) u [] s' /\ inp s' = inp s /\ tok s' = tok s /\ quiet s s'.
Proof.
  intros H EN. assert (ML : (m < length e)%nat) by (apply nth_error_Some; congruence).
  destruct (d_pool _ _ _ _ _ _ _ H) as (fl & B & LF & LB & HB & HS & ND & TOT & NN). pose proof (d_cells _ _ _ _ _ _ _ H) as X.
  assert (S1 : exists s', store L (-1) s = Ok (tt, s') /\ (forall k, aget (pool s') k = aget (pool s) k) /\ free s' = free s /\
     (forall i, i <> m -> aget (macs s') (Z.of_nat i) = aget (macs s) (Z.of_nat i)) /\
     m_args (aget (macs s') (Z.of_nat m)) = ANone /\ m_hide (aget (macs s') (Z.of_nat m)) = 0 /\
     cells s (m_repl (aget (macs s') (Z.of_nat m))) js l /\ npos s' = npos s /\ data s' = data s /\ ids s' = ids s /\ Spp.hash s' = Spp.hash s /\
     queue s' = queue s /\ stack s' = stack s /\ inp s' = inp s /\ tok s' = tok s /\ quiet s s').
  { destruct js as [|j js].
    - destruct X as [-> ->]. eexists. split; [reflexivity|]. cbn [pool free macs set_macs]. parts; try reflexivity; try (constructor; reflexivity).
      + intros i NE. apply aget_aset_other. lia.
      + rewrite aget_aset_same. apply H.
      + rewrite aget_aset_same. apply H.
      + rewrite aget_aset_same. reflexivity.
    - destruct X as [X ->]. eexists. split; [reflexivity|]. cbn [pool free macs set_pool]. parts; try reflexivity; try (constructor; reflexivity); try apply H; try exact X.
      intro k. destruct (Z.eq_dec (last (j :: js) 0) k) as [EK|NE]; [|apply aget_aset_other, NE]. subst k. rewrite aget_aset_same.
      assert (EE : e_next (aget (pool s) (last (j :: js) 0)) = -1) by (apply (cells_last _ _ _ _ X); discriminate).
      rewrite <- EE. destruct (aget (pool s) (last (j :: js) 0)); reflexivity. }
  destruct S1 as (s' & E & P & FR & MI & MA & MH & C & A1 & A2 & A3 & A4 & A5 & A6 & A7 & A8 & A9). exists s'. split; [exact E|]. split; [|auto].
  assert (ST : same_text s s') by (split; [lia|rewrite A2; reflexivity]).
  constructor.
  - eapply base_names; [eapply names_set, EN|]. eapply base_pool; eauto. apply H.
  - split.
    + intros i n' b EI _. rewrite nth_error_set in EI. destruct (Nat.eq_dec m i) as [<-|NE].
      * destruct (lt_dec m (length e)); [|lia]. injection EI as <- <-. split; [exact MA|]. split; [exact MH|]. split; [|apply H].
        eapply cells_chain, cells_same; [exact ST|intros; apply P|exact C].
      * rewrite MI by congruence. pose proof (proj1 (d_macros _ _ _ _ _ _ _ H) i n' b EI NE) as (MA' & MB). split; [exact MA'|].
        destruct b as [bl|]; [|exact MB]. destruct MB as (MH' & MC & MF). split; [exact MH'|]. split; [|exact MF].
        pose proof (HB i n' (Some bl) EI NE) as LK. cbv beta iota in LK. eapply cells_chain, cells_same; [exact ST|intros; apply P|eapply cells_of; eassumption].
    + intros i LE. rewrite set_nth_length in LE. rewrite MI by lia. apply (proj2 (d_macros _ _ _ _ _ _ _ H)). exact LE.
  - rewrite A6, (d_stack _ _ _ _ _ _ _ H). constructor.
  - constructor.
  - exists fl, (set_nth m js B). pose proof (concat_set js B m ltac:(lia)) as PM. rewrite (HS m eq_refl) in PM. cbn [app] in PM.
    assert (PM' : Permutation (fl ++ List.concat (set_nth m js B)) (fl ++ js ++ List.concat B)) by (apply Permutation_app_head; exact PM).
    cbn [app]. parts.
    + rewrite FR. eapply links_same; [intros; apply P|exact LF].
    + rewrite !set_nth_length. exact LB.
    + intros i n' b EI _. rewrite nth_error_set in EI. destruct (Nat.eq_dec m i) as [<-|NE].
      * destruct (lt_dec m (length e)); [|lia]. injection EI as <- <-. rewrite set_nth_same by lia. eapply cells_links, cells_same; [exact ST|intros; apply P|exact C].
      * rewrite set_nth_other by exact NE. specialize (HB i n' b EI NE). destruct b as [bl|]; [|exact HB]. rewrite MI by congruence. eapply links_same; [intros; apply P|exact HB].
    + intros i [].
    + eapply Permutation_NoDup; [symmetry; exact PM'|exact ND].
    + rewrite (Permutation_length PM'). exact TOT.
    + eapply Permutation_Forall; [symmetry; exact PM'|exact NN].
Qed.

(** *** The beginning of a definition *)
Definition unhide (s : st) (i : nat) (h : Z) : st :=
  let x := aget (macs s) (Z.of_nat i) in set_macs s (aset (macs s) (Z.of_nat i) (mkmac (m_args x) (m_repl x) h)).
Lemma start_old e u s i n : world e u [] s -> nth_error e i = Some (n, None) -> building e u i [] [] (LMacro (Z.of_nat i)) (unhide s i 0).
Proof.
  intros H E. assert (C : calm s (unhide s i 0)) by (constructor; [cbn; lia|reflexivity|reflexivity]).
  assert (MI : forall j, j <> i -> aget (macs (unhide s i 0)) (Z.of_nat j) = aget (macs s) (Z.of_nat j)).
  { intros j NE. unfold unhide. cbn [macs set_macs]. apply aget_aset_other. lia. }
  assert (IL : (i < length e)%nat) by (apply nth_error_Some; congruence).
  constructor.
  - apply (base_pool e u s); [reflexivity..|apply H].
  - pose proof (w_stack _ _ _ _ H) as X. inversion X as [EQ|]. cbn. congruence.
  - split.
    + intros j n' b EJ NS. rewrite MI by congruence. eapply calm_mac; [exact C|]. apply (proj1 (w_macros _ _ _ _ H) j n' b EJ). intros [].
    + intros j LE. rewrite MI by lia. apply (proj2 (w_macros _ _ _ _ H)). exact LE.
  - exists n. exact E.
  - unfold unhide. cbn [macs set_macs]. rewrite aget_aset_same. cbn [m_args]. apply (proj1 (w_macros _ _ _ _ H) i n None E). intros [].
  - unfold unhide. cbn [macs set_macs]. rewrite aget_aset_same. reflexivity.
  - destruct (w_pool _ _ _ _ H) as (fl & B & LF & LB & HB & HS & ND & TOT & NN). exists fl, B. parts; auto.
    + intros j n' b EJ NS. rewrite MI by congruence. apply (HB j n' b EJ). intros [].
    + intros j <-. exact (HB i n None E (fun x => x)).
  - constructor.
  - split; reflexivity.
Qed.
Lemma Forall2_len {A B} (R : A -> B -> Prop) l1 l2 : Forall2 R l1 l2 -> length l1 = length l2.
Proof. induction 1; cbn [length]; congruence. Qed.
Lemma names_app e n b : names (e ++ [(n, b)]) = names e ++ [n].
Proof. unfold names. rewrite map_app, app_assoc. reflexivity. Qed.
Lemma start_new e u s n : world e u [] s -> shown s (t_text (tok s)) n -> t_text (tok s) = PTok u -> pos s = u + size (Id n) -> holds (data s) u n -> ~ In n (names e) -> (length e < 16)%nat -> u + size (Id n) <= TEXT ->
  exists s', AddId (t_text (tok s)) s = Ok (16 + Z.of_nat (length e), s') /\
    building (e ++ [(n, None)]) (u + size (Id n)) (length e) [] [] (LMacro (Z.of_nat (length e))) (set_npos s' (pos s')) /\
    inp s' = inp s /\ quiet s s'.
Proof.
  intros H TX TT TP TW NI LE FU. pose proof (w_base _ _ _ _ H) as B.
  assert (LN : length (names e) = (16 + length e)%nat) by (unfold names; rewrite app_length, map_length; reflexivity).
  destruct (AddId_spec (names e) n s (t_text (tok s)) (b_table _ _ _ B) (b_names _ _ _ B)) as (h' & EA & TA); [|lia|exact TX|exact NI|].
  { eapply Forall2_len, (b_names _ _ _ B). }
  exists (set_ids s (ids s ++ [t_text (tok s)]) h'). split; [|split; [|split; [reflexivity|constructor; reflexivity]]].
  { replace (16 + Z.of_nat (length e)) with (Z.of_nat (length (names e))) by lia. exact EA. }
  pose proof (b_u _ _ _ B) as UU. pose proof (b_npos _ _ _ B) as NP. cbn [size] in *.
  set (s2 := set_npos _ _).
  assert (C : calm s s2) by (constructor; [cbn; lia|reflexivity|reflexivity]).
  constructor.
  - constructor.
    + rewrite names_app. exact TA.
    + rewrite names_app. unfold names_ok. apply Forall2_app.
      * eapply Forall2_impl'; [|apply (b_names _ _ _ B)]. intros. eapply calm_kept; [apply C|apply C|assumption].
      * constructor; [|constructor]. rewrite TT. cbn [kept]. split; [lia|]. split; [cbn; lia|]. exact TW.
    + exact TP.
    + lia.
    + apply B.
  - pose proof (w_stack _ _ _ _ H) as X. inversion X as [EQ|]. cbn. congruence.
  - split.
    + intros j n' b EJ NS. assert (JL : (j < length e)%nat).
      { assert (j < length (e ++ [(n, None : option (list lexeme))]))%nat by (apply nth_error_Some; congruence). rewrite app_length in *. cbn [length] in *. lia. }
      rewrite nth_error_app1 in EJ by exact JL. eapply calm_mac; [exact C|]. apply (proj1 (w_macros _ _ _ _ H) j n' b EJ). intros [].
    + intros j JL. rewrite app_length in JL. apply (proj2 (w_macros _ _ _ _ H)). lia.
  - exists n. rewrite nth_error_app2 by lia. rewrite Nat.sub_diag. reflexivity.
  - change (macs s2) with (macs s). rewrite (proj2 (w_macros _ _ _ _ H)) by lia. reflexivity.
  - change (macs s2) with (macs s). rewrite (proj2 (w_macros _ _ _ _ H)) by lia. reflexivity.
  - destruct (w_pool _ _ _ _ H) as (fl & Bs & LF & LB & HB & HS & ND & TOT & NN). exists fl, (Bs ++ [[]]). rewrite concat_app. cbn [List.concat app]. rewrite app_nil_r. cbn [app] in *. parts; auto.
    + rewrite !app_length. cbn [length]. lia.
    + intros j n' b EJ NS. assert (JL : (j < length e)%nat).
      { assert (j < length (e ++ [(n, None : option (list lexeme))]))%nat by (apply nth_error_Some; congruence). rewrite app_length in *. cbn [length] in *. lia. }
      rewrite nth_error_app1 in EJ by exact JL. rewrite app_nth1 by lia. apply (HB j n' b EJ). intros [].
    + intros j <-. rewrite app_nth2 by lia. rewrite LB, Nat.sub_diag. reflexivity.
  - constructor.
  - split; reflexivity.
Qed.
(** *** From the name to the end of the line *)
Lemma separated_tail x l : separated (x :: l) = true -> separated l = true.
Proof. cbn [separated]. intro H. apply andb_true_iff in H. apply H. Qed.
Lemma separated_wf x l : separated (x :: l) = true -> wf_lexeme x = true.
Proof. cbn [separated]. intro H. apply andb_true_iff in H. destruct H as [H _]. apply andb_true_iff in H. apply H. Qed.
Lemma ws_ws a b l : separated (Ws a :: Ws b :: l) = true -> False.
Proof.
  intro H. pose proof (separated_wf _ _ (separated_tail _ _ H)) as W. cbn [separated] in H. apply andb_true_iff in H. destruct H as [H _]. apply andb_true_iff in H. destruct H as [_ H].
  cbn [ends_before] in H. rewrite texts_cons in H. destruct b as [|c b]; [discriminate|]. cbn in W. apply andb_true_iff in W. destruct W as [W _].
  cbn [text app hd] in H. rewrite W in H. discriminate.
Qed.
Definition params (fuel : nat) (m : Z) : M st unit :=
  RawGetToken fuel;; RawSkipWS fuel;;
  let! last := parameters fuel m None in
  link_arg m last ANone;;
  let! t := gets (fun s => t_type (tok s)) in
  assert (t =? 41);;
  RawGetToken fuel;;
  let! al := gets (fun s => m_args (aget (macs s) m)) in
  match al with ANone => set_args_of m AEmpty | _ => ret tt end.
Definition rest_define (fuel : nat) (m : Z) : M st unit :=
  RawGetToken fuel;;
  let! t := gets (fun s => t_type (tok s)) in
  when (t =? 40) (params fuel m);;
  RawSkipWS fuel;;
  let! L := body fuel m (LMacro m) (-1) in
  store L (-1).
Lemma rest_runs e u m n b T s : building e u m [] [] (LMacro (Z.of_nat m)) s -> nth_error e m = Some (n, None) -> reads (b ++ Nl :: T) s ->
  (b = [] \/ exists a' b', b = Ws a' :: b') ->
  Forall (fun x => is_nl x = false /\ is_hash x = false) b -> u + sizes b <= TEXT -> Z.of_nat (length (squeeze (-1) b)) <= POOL - stored e ->
  exists s', runs (fun f => rest_define f (Z.of_nat m)) s tt s' /\ world (set_nth m (n, Some (squeeze (-1) b)) e) (u + sizes b) [] s' /\
    t_type (tok s') = TOK_NEWLINE /\ reads T s' /\ quiet s s'.
Proof.
  intros H EN RD SH FB FU FR.
  assert (CB : Forall (fun x => clean x /\ is_nl x = false) b).
  { destruct RD as [_ SP]. revert SP FB. clear. intros SP FB. induction b as [|x b IH]; [constructor|]. cbn [app] in SP. inversion FB as [|? ? [A1 A2] FB']; subst. constructor.
    - split; [split; [eapply separated_wf, SP|exact A2]|exact A1].
    - apply IH; [eapply separated_tail, SP|exact FB']. }
  assert (UU : u <= TEXT) by apply (b_u _ _ _ (d_base _ _ _ _ _ _ _ H)).
  assert (exists b1 s1 x r, (forall K sf, runs K s1 tt sf -> runs (fun f => RawGetToken f;; let! t := gets (fun s => t_type (tok s)) in
       when (t =? 40) (params f (Z.of_nat m));; RawSkipWS f;; K f) s tt sf) /\
     b1 ++ [Nl] = x :: r /\ building e u m [] [] (LMacro (Z.of_nat m)) s1 /\ now s1 u x /\ reads (r ++ T) s1 /\ quiet s s1 /\
     squeeze (-1) b1 = squeeze (-1) b /\ sizes b1 = sizes b /\ Forall (fun x => clean x /\ is_nl x = false) b1) as (b1 & s1 & x & r & R1 & E1 & H1 & N1 & RD1 & Q1 & SQ & SZ & CB1).
  { destruct SH as [->|(a' & b' & ->)].
    - cbn [app] in RD. destruct (building_raw _ _ _ _ _ _ _ _ _ H RD) as (s1 & R1 & H1 & RD1 & N1 & Q1); [cbn [size]; lia|].
      exists [], s1, Nl, []. parts; auto. intros K sf RK. eapply runs_bind; [exact R1|]. apply runs_gets. destruct N1 as ((TY1 & _) & _). rewrite TY1.
      apply runs_rbind. eapply runs_bind; [apply raw_skip_none; rewrite TY1; discriminate|exact RK].
    - cbn [app] in RD. destruct (building_raw _ _ _ _ _ _ _ _ _ H RD) as (s0 & R0 & H0 & RD0 & N0 & Q0); [cbn [size]; lia|].
      assert (exists x r, b' ++ [Nl] = x :: r) as (x & r & EX) by (destruct b'; cbn [app]; eauto).
      assert (RD0' : reads (x :: r ++ T) s0) by (replace (b' ++ Nl :: T) with (x :: r ++ T) in RD0; [exact RD0|change (x :: r ++ T) with ((x :: r) ++ T); rewrite <- EX, <- app_assoc; reflexivity]).
      assert (NX : is_ws x = false).
      { destruct RD as [_ SP]. destruct b' as [|y b']; injection EX as <- <-; [reflexivity|]. destruct y; try reflexivity. cbn [app] in SP. exfalso. eapply ws_ws, SP. }
      rewrite sizes_cons in FU. cbn [size] in FU.
      destruct (building_raw _ _ _ _ _ _ _ _ _ H0 RD0') as (s1 & R1 & H1 & RD1 & N1 & Q1).
      { destruct b' as [|y b']; injection EX as <- <-; [cbn [size]; lia|]. rewrite sizes_cons in FU. pose proof (sizes_nonneg b'). lia. }
      exists b', s1, x, r. inversion CB; subst. parts; auto; [|eapply quiet_trans; eauto].
      intros K sf RK. eapply runs_bind; [exact R0|]. apply runs_gets. destruct N0 as ((TY0 & _) & _). rewrite TY0.
      apply runs_rbind. eapply runs_bind; [|exact RK]. apply raw_skip_one; [exact TY0|exact R1|]. destruct N1 as ((-> & _) & _). apply Z.eqb_neq. rewrite lex_type_ws; [exact NX|].
      destruct RD0' as [_ SP]. eapply separated_wf, SP. }
  rewrite <- SQ, <- SZ in *.
  destruct (body_runs e m T b1 (-1) [] [] _ s1 u x r E1 H1 N1 RD1 CB1 FU) as (js' & L' & s2 & R2 & H2 & TK & RD2 & Q2).
  { unfold room. cbn [length]. lia. }
  destruct (finish _ _ _ _ _ _ _ n H2 EN) as (s3 & E3 & W3 & I3 & T3 & Q3). exists s3. cbn [app] in W3. parts; auto.
  - unfold rest_define. apply R1. eapply runs_bind; [exact R2|]. apply runs_const. exact E3.
  - rewrite T3. apply TK.
  - destruct RD2. split; congruence.
  - repeat (eapply quiet_trans; [eassumption|]). apply quiet_refl.
Qed.

Lemma stored_none e n i c : nth_error e i = Some (n, c) -> forall l, stored (set_nth i (n, Some l) e) = stored e - blen c + Z.of_nat (length l).
Proof. intros E l. rewrite (stored_set _ _ _ _ _ E). reflexivity. Qed.
Lemma define_runs e u s a n b T e1 u1 : world e u [] s -> reads (Ws a :: Id n :: b ++ Nl :: T) s ->
  Forall (fun x => is_nl x = false /\ is_hash x = false) b -> (b = [] \/ exists a' b', b = Ws a' :: b') -> ~ In n keywords -> u + size (Id n) <= TEXT ->
  e1 = (match lookup e n with Some (Some _) => e | _ => update e n (Some (squeeze (-1) b)) end) ->
  u1 = (match lookup e n with Some (Some _) => u | Some None => u + sizes b | None => u + size (Id n) + sizes b end) ->
  (match lookup e n with Some (Some _) => True | _ => u1 <= TEXT end) -> stored e1 <= POOL -> Z.of_nat (length e1) <= NAMES ->
  exists s', runs HandleDefine s tt s' /\ world e1 u1 [] s' /\ quiet s s' /\
    match lookup e n with Some (Some _) => t_type (tok s') <> TOK_NEWLINE /\ reads (b ++ Nl :: T) s' | _ => t_type (tok s') = TOK_NEWLINE /\ reads T s' end.
Proof.
  intros H RD FB SH NK FN EE EU FU FS FL. pose proof (b_u _ _ _ (w_base _ _ _ _ H)) as UU.
  destruct (raw_next e u s (Ws a) _ [] (Forall_nil _) H RD) as (s1 & R1 & H1 & RD1 & (TY1 & _) & Q1 & _); [cbn [size]; lia|].
  destruct (raw_next e u s1 (Id n) _ [] (Forall_nil _) H1 RD1 FN) as (s2 & R2 & H2 & RD2 & RT2 & Q2 & P2 & TT2 & TW2).
  destruct (replace_name e u s2 n H2 RT2) as (s3 & RI & H3 & I3 & Q3 & TY3 & TT3 & P3 & D3).
  assert (RD3 : reads (b ++ Nl :: T) s3) by (destruct RD2; split; congruence).
  assert (PRE : forall sf, runs (fun f => let! id := gets (fun s => t_type (tok s)) in
     let! m := (if TOK_USER_ID <=? id then
         let! h := gets (fun s => m_hide (aget (macs s) (id - TOK_USER_ID))) in
         if h =? 0 then ret None else set_hide (id - TOK_USER_ID) 0;; ret (Some (id - TOK_USER_ID))
       else
         let! n := AddId (t_text (tok s2)) in
         upd (fun s => set_npos s (pos s));;
         assert (n + TOK_ID - TOK_USER_ID <? MACRO_MAX);;
         ret (Some (n + TOK_ID - TOK_USER_ID))) in
     match m with None => ret tt | Some m => rest_define f m end) s3 tt sf -> runs HandleDefine s tt sf).
  { intros sf R. unfold HandleDefine. eapply runs_bind; [exact R1|]. eapply runs_bind.
    { apply raw_skip_one; [exact TY1|exact R2|]. destruct RT2 as (-> & _). discriminate. }
    apply runs_gets. apply runs_assert; [destruct RT2 as (-> & _); reflexivity|]. eapply runs_step; [exact RI|]. exact R. }
  pose proof (word_kind e n) as WK. remember (id_code (names e) n) as c eqn:EC. destruct WK as [N1 N2|i N1 N2 N3|i b0 N1 N2 N3].
  - (* a new name *)
    rewrite N2 in *. pose proof (update_new e n (Some (squeeze (-1) b)) N2) as UN. rewrite UN in EE. subst e1 u1. rewrite app_length in FL. cbn [length] in FL. rewrite stored_app in FS. cbn [blen] in FS.
    destruct (start_new e u s3 n H3) as (s4 & EA & BU & I4 & Q4).
    + destruct RT2 as (_ & SHW & _). specialize (SHW eq_refl). cbn [word] in SHW. rewrite TT3. destruct (t_text (tok s2)); cbn [shown] in *; auto. rewrite D3. exact SHW.
    + rewrite TT3. exact TT2.
    + rewrite P3. exact P2.
    + rewrite D3. exact (TW2 eq_refl).
    + unfold names. rewrite in_app_iff. intros [X|X]; [contradiction|]. pose proof (lookup_index e n) as LI. destruct (index_of n (map fst e)) as [k|] eqn:EI; [destruct LI as (b0 & LB & _); congruence|].
      apply index_of_none in EI. contradiction.
    + unfold NAMES in FL. lia.
    + exact FN.
    + assert (RD4 : reads (b ++ Nl :: T) (set_npos s4 (pos s4))) by (destruct RD3; split; cbn [inp set_npos]; congruence).
      destruct (rest_runs _ _ _ n b T _ BU) as (s5 & R5 & W5 & TY5 & RD5 & Q5); auto.
      * rewrite nth_error_app2 by lia. rewrite Nat.sub_diag. reflexivity.
      * rewrite stored_app. cbn [blen]. lia.
      * exists s5. split; [|split; [|split; [|auto]]].
        -- apply PRE. apply runs_gets. rewrite TY3. change (TOK_USER_ID <=? TOK_RAW_ID) with false. cbv iota.
           apply runs_assoc. eapply runs_step; [rewrite <- TT3; exact EA|]. apply runs_assoc. apply runs_upd. apply runs_assoc.
           assert (EM : 16 + Z.of_nat (length e) + TOK_ID - TOK_USER_ID = Z.of_nat (length e)) by (change TOK_USER_ID with 273; change TOK_ID with 257; lia). rewrite EM.
           apply runs_assert; [unfold MACRO_MAX, NAMES in *; lia|]. apply runs_rbind. exact R5.
        -- assert (EQ : set_nth (length e) (n, Some (squeeze (-1) b)) (e ++ [(n, None)]) = e ++ [(n, Some (squeeze (-1) b))]).
           { clear. induction e as [|x e IH]; [reflexivity|]. cbn [app length set_nth]. rewrite IH. reflexivity. }
           rewrite EQ in W5. exact W5.
        -- eapply quiet_trans; [exact Q1|]. eapply quiet_trans; [exact Q2|]. eapply quiet_trans; [exact Q3|]. eapply quiet_trans; [exact Q4|]. eapply quiet_trans; [|exact Q5]. constructor; reflexivity.
  - exfalso. apply NK. eapply nth_error_In, N3.
  - rewrite N3 in *. destruct b0 as [l0|].
    + (* already defined *)
      subst e1 u1. exists s3. split; [|split; [exact H3|split; [|split; [rewrite TY3; change TOK_USER_ID with 273; change TOK_NEWLINE with 2; lia|exact RD3]]]].
      * apply PRE. apply runs_gets. rewrite TY3. replace (TOK_USER_ID <=? TOK_USER_ID + Z.of_nat i) with true by (symmetry; apply Z.leb_le; lia).
        apply runs_assoc. apply runs_gets. replace (TOK_USER_ID + Z.of_nat i - TOK_USER_ID) with (Z.of_nat i) by lia.
        destruct (proj1 (w_macros _ _ _ _ H3) i n (Some l0) N2) as (_ & -> & _); [intros []|]. apply runs_rbind. apply runs_ret.
      * repeat (eapply quiet_trans; [eassumption|]). apply quiet_refl.
    + (* removed before *)
      assert (NDE : NoDup (map fst e)). { pose proof (t_nodup _ _ (b_table _ _ _ (w_base _ _ _ _ H))) as ND. unfold names in ND. eapply NoDup_app_r, ND. }
      rewrite (update_old e n _ i None N2 NDE) in EE. subst e1 u1. rewrite (stored_none _ _ _ _ N2) in FS. cbn [blen] in FS.
      pose proof (start_old e u s3 i n H3 N2) as BU.
      destruct (rest_runs _ _ _ n b T _ BU) as (s5 & R5 & W5 & TY5 & RD5 & Q5); auto; [lia|].
      exists s5. split; [|split; [exact W5|split; [|auto]]].
      * apply PRE. apply runs_gets. rewrite TY3. replace (TOK_USER_ID <=? TOK_USER_ID + Z.of_nat i) with true by (symmetry; apply Z.leb_le; lia).
        apply runs_assoc. apply runs_gets. replace (TOK_USER_ID + Z.of_nat i - TOK_USER_ID) with (Z.of_nat i) by lia.
        destruct (proj1 (w_macros _ _ _ _ H3) i n None N2) as (_ & ->); [intros []|]. change (2 =? 0) with false. cbv iota. apply runs_assoc. eapply runs_step; [reflexivity|].
        apply runs_rbind. exact R5.
      * eapply quiet_trans; [exact Q1|]. eapply quiet_trans; [exact Q2|]. eapply quiet_trans; [exact Q3|]. eapply quiet_trans; [|exact Q5]. constructor; reflexivity.
Qed.

(** *** Removing a definition *)
Lemma free_loop_spec v : forall js p fuel s, links (pool s) p js -> js <> [] -> (length js <= fuel)%nat ->
  free_loop fuel p v s = Ok (tt, set_pool s (aset (pool s) (last js 0) (mkelem (e_tok (aget (pool s) (last js 0))) v)) (free s)).
Proof.
  induction js as [|j js IH]; intros p [|fuel] s K NE L; cbn [length] in L; try congruence; try lia. cbn [links] in K. destruct K as (-> & N & K).
  cbn [free_loop]. unfold SccState.bind, SccState.gets. destruct js as [|k js].
  - cbn [links] in K. rewrite K. reflexivity.
  - destruct (Z.eqb_spec (e_next (aget (pool s) j)) (-1)) as [E|_]; [cbn [links] in K; destruct K as (E' & N' & _); congruence|].
    rewrite (IH _ fuel s K); [reflexivity|discriminate|lia].
Qed.
Lemma links_join a a' f fl : forall js p, links a p js -> js <> [] -> NoDup js ->
  (forall k, In k js -> k <> last js 0 -> e_next (aget a' k) = e_next (aget a k)) -> e_next (aget a' (last js 0)) = f -> links a' f fl -> links a' p (js ++ fl).
Proof.
  induction js as [|j js IH]; intros p K NE ND A E LF; [congruence|]. cbn [links] in K. destruct K as (-> & N & K). apply NoDup_cons_iff in ND. destruct ND as [NI ND].
  cbn [app links]. split; [reflexivity|]. split; [exact N|]. destruct js as [|k js].
  - cbn [last] in E. rewrite E. exact LF.
  - change (last (j :: k :: js) 0) with (last (k :: js) 0) in *. rewrite A; [|left; reflexivity|intro EQ; apply NI; rewrite EQ; apply last_in; discriminate].
    apply IH; auto; [discriminate|]. intros x IX. apply A. right. exact IX.
Qed.
Lemma NoDup_disjoint {A} (a b : list A) x : NoDup (a ++ b) -> In x a -> In x b -> False.
Proof. induction a as [|y a IH]; [contradiction|]. cbn [app]. intros ND [->|I] J; apply NoDup_cons_iff in ND; [apply ND, in_or_app; auto|apply IH; tauto]. Qed.
Lemma concat_disjoint (B : list (list Z)) : NoDup (List.concat B) -> forall i j x, i <> j -> In x (nth i B []) -> In x (nth j B []) -> False.
Proof.
  induction B as [|b B IH]; intros ND [|i] [|j] x NE I J; cbn [nth List.concat] in *; try contradiction; try lia.
  - eapply NoDup_disjoint; [exact ND|exact I|]. eapply nth_in_concat, J.
  - eapply NoDup_disjoint; [exact ND|exact J|]. eapply nth_in_concat, I.
  - eapply IH; [eapply NoDup_app_r, ND|assert (i <> j) by lia; eassumption|eassumption..].
Qed.
Lemma undef_runs e u s i n l : world e u [] s -> nth_error e i = Some (n, Some l) ->
  exists s', (set_hide (Z.of_nat i) 2;; let! r := gets (fun s => m_repl (aget (macs s) (Z.of_nat i))) in FreeTokenList r) s = Ok (tt, s') /\
    world (set_nth i (n, None) e) u [] s' /\ inp s' = inp s /\ quiet s s'.
Proof.
  intros H E. assert (IL : (i < length e)%nat) by (apply nth_error_Some; congruence).
  destruct (w_pool _ _ _ _ H) as (fl & B & LF & LB & HB & HS & ND & TOT & NN). cbn [app] in ND, TOT, NN.
  pose proof (HB i n (Some l) E (fun x => x)) as LI. cbv beta iota in LI. set (js := nth i B []) in *. set (r := m_repl (aget (macs s) (Z.of_nat i))) in *.
  destruct (proj1 (w_macros _ _ _ _ H) i n _ E (fun x => x)) as (MA & MH & MC & MF).
  assert (NDB : NoDup (List.concat B)) by (eapply NoDup_app_r, ND).
  assert (NDJ : NoDup js).
  { subst js. revert NDB. clear. revert i. induction B as [|b B IH]; intros [|i] ND; cbn [nth List.concat] in *; try constructor; [eapply NoDup_app_l, ND|apply IH; eapply NoDup_app_r, ND]. }
  assert (JL : (length js <= 128)%nat).
  { pose proof (Permutation_length (concat_set [] B i ltac:(lia))) as PL.
    fold js in PL. rewrite !app_length in *. cbn [length] in PL. unfold POOL in TOT. lia. }
  set (sh := unhide s i 2).
  assert (S1 : exists s', (let! r := gets (fun s => m_repl (aget (macs s) (Z.of_nat i))) in FreeTokenList r) sh = Ok (tt, s') /\
    (forall k, ~ In k js -> aget (pool s') k = aget (pool s) k) /\ links (pool s') (free s') (js ++ fl) /\ macs s' = macs sh /\
    npos s' = npos s /\ data s' = data s /\ ids s' = ids s /\ Spp.hash s' = Spp.hash s /\
     queue s' = queue s /\ stack s' = stack s /\ inp s' = inp s /\ quiet s s').
  { unfold SccState.bind at 1, SccState.gets at 1.
    assert (ER : m_repl (aget (macs sh) (Z.of_nat i)) = r) by (unfold sh, unhide; cbn [macs set_macs]; rewrite aget_aset_same; reflexivity). rewrite ER.
    unfold FreeTokenList. destruct (Z.eqb_spec r (-1)) as [ER1|NR].
    - exists sh. pose proof (proj2 (links_end _ _ _ LI) ER1) as EJ. rewrite EJ. parts; try reflexivity; [exact LF|constructor; reflexivity].
    - assert (NJ : js <> []) by (intro X; apply NR, (links_end _ _ _ LI), X).
      unfold SccState.bind at 1, SccState.gets at 1. unfold SccState.bind at 1, SccState.upd at 1.
      rewrite (free_loop_spec _ js) by (first [exact LI|exact NJ|change (Z.to_nat 200) with 200%nat; lia]).
      eexists. split; [reflexivity|]. cbn [pool set_pool free macs npos data ids Spp.hash queue stack inp]. parts; try reflexivity; try (constructor; reflexivity).
      + intros k NK. rewrite aget_aset_other; [reflexivity|]. intros <-. apply NK, last_in, NJ.
      + assert (LJ : In (last js 0) (List.concat B)) by (eapply nth_in_concat, last_in, NJ).
        apply links_join with (a := pool s) (f := free s).
        * exact LI.
        * exact NJ.
        * exact NDJ.
        * intros k _ NE. rewrite aget_aset_other by congruence. reflexivity.
        * rewrite aget_aset_same. reflexivity.
        * eapply links_same; [|exact LF]. intros k IK. rewrite aget_aset_other; [reflexivity|]. intros <-. eapply NoDup_disjoint; [exact ND|exact IK|exact LJ]. }
  destruct S1 as (s' & ES & P & LF' & EM & A1 & A2 & A3 & A4 & A5 & A6 & A7 & A8). exists s'. split; [|split; [|auto]].
  { rewrite (bind_eq _ _ s tt sh) by reflexivity. exact ES. }
  assert (ST : same_text s s') by (split; [lia|rewrite A2; reflexivity]).
  assert (MI : forall j, j <> i -> aget (macs s') (Z.of_nat j) = aget (macs s) (Z.of_nat j)).
  { intros j NE. rewrite EM. unfold sh, unhide. cbn [macs set_macs]. apply aget_aset_other. lia. }
  constructor.
  - eapply base_names; [eapply names_set, E|]. eapply base_pool; eauto. apply H.
  - split.
    + intros j n' b EJ _. rewrite nth_error_set in EJ. destruct (Nat.eq_dec i j) as [<-|NE].
      * destruct (lt_dec i (length e)); [|lia]. injection EJ as <- <-. rewrite EM. unfold sh, unhide. cbn [macs set_macs]. rewrite aget_aset_same. split; [exact MA|reflexivity].
      * rewrite MI by congruence. pose proof (proj1 (w_macros _ _ _ _ H) j n' b EJ (fun x => x)) as (MA' & MB). split; [exact MA'|].
        destruct b as [bl|]; [|exact MB]. destruct MB as (MH' & MC' & MF'). split; [exact MH'|]. split; [|exact MF'].
        pose proof (HB j n' (Some bl) EJ (fun x => x)) as LK. cbv beta iota in LK. eapply cells_chain, cells_same; [exact ST| |eapply cells_of; eassumption].
        intros k IK. apply P. intro IK'. eapply concat_disjoint; [exact NDB|exact NE|exact IK'|exact IK].
    + intros j LE. rewrite set_nth_length in LE. rewrite MI by lia. apply (proj2 (w_macros _ _ _ _ H)). exact LE.
  - rewrite A6. pose proof (w_stack _ _ _ _ H) as X. inversion X as [EQ|]. constructor.
  - constructor.
  - exists (js ++ fl), (set_nth i [] B). pose proof (concat_set [] B i ltac:(lia)) as PM. fold js in PM. cbn [app] in PM.
    assert (PM' : Permutation ((js ++ fl) ++ List.concat (set_nth i [] B)) (fl ++ List.concat B)).
    { rewrite (Permutation_app_comm js fl), <- app_assoc. apply Permutation_app_head. exact PM. }
    cbn [app]. parts.
    + exact LF'.
    + rewrite !set_nth_length. exact LB.
    + intros j n' b EJ _. rewrite nth_error_set in EJ. destruct (Nat.eq_dec i j) as [<-|NE].
      * destruct (lt_dec i (length e)); [|lia]. injection EJ as <- <-. apply set_nth_same. lia.
      * rewrite set_nth_other by exact NE. specialize (HB j n' b EJ (fun x => x)). destruct b as [bl|]; [|exact HB]. rewrite MI by congruence.
        eapply links_same; [|exact HB]. intros k IK. apply P. intro IK'. eapply concat_disjoint; [exact NDB|exact NE|exact IK'|exact IK].
    + intros j [].
    + eapply Permutation_NoDup; [symmetry; exact PM'|exact ND].
    + rewrite (Permutation_length PM'). exact TOT.
    + eapply Permutation_Forall; [symmetry; exact PM'|exact NN].
Qed.
