(** GetToken delivers the lexemes of the expanded text one by one. *)
From Coq Require Import ZArith List Bool Lia String.
From Verif Require Import Base Spp SppSpec SppLex SppId SppWorld.
From Verif Require SccState.
Import ListNotations.
Open Scope Z_scope.
Open Scope p_scope.

Ltac parts := repeat match goal with |- _ /\ _ => split end.
(** ** Expansion step by step *)
Inductive act := Give (y : lexeme) | Push (b : list lexeme) | Skip.
Definition action (e : env) (hid : list (list Z)) (w : list Z) : option act :=
  if word_eq w (bytes "__SCC__") then Some (Give (Num [49]))
  else if word_eq w (bytes "__FILE__") || word_eq w (bytes "__LINE__") then None
  else match lookup e w with
       | Some (Some body) => if existsb (word_eq w) hid then Some (Give (Id w)) else match body with [] => Some Skip | _ => Some (Push body) end
       | _ => Some (Give (Id w))
       end.
Definition expand1 (e : env) (d : nat) (hid : list (list Z)) (x : lexeme) : option (list lexeme) :=
  match x with
  | Id w => match action e hid w with
            | Some (Give y) => Some [y]
            | Some Skip => Some []
            | Some (Push b) => match d with O => None | S d => expand e d (w :: hid) b end
            | None => None
            end
  | _ => Some [x]
  end.
Lemma expand_nil e d hid : expand e d hid [] = Some [].
Proof. destruct d; reflexivity. Qed.
Lemma oapp_nil {A} (o : option (list A)) : oapp (Some []) o = o.
Proof. destruct o; reflexivity. Qed.
Lemma expand_cons e d hid x r : expand e d hid (x :: r) = oapp (expand1 e d hid x) (expand e d hid r).
Proof.
  destruct x as [l| |w|w|q w|w]; try (destruct d; reflexivity).
  unfold expand1, action. destruct d; cbn [expand];
  (destruct (word_eq w (bytes "__SCC__")); [reflexivity|]);
  (destruct (word_eq w (bytes "__FILE__") || word_eq w (bytes "__LINE__")); [reflexivity|]);
  (destruct (lookup e w) as [[[|y b]|]|]; try reflexivity);
  (destruct (existsb (word_eq w) hid); try reflexivity); rewrite ?oapp_nil; reflexivity.
Qed.
Fixpoint kflat (e : env) (K : stackof) : option (list lexeme) :=
  match K with
  | [] => Some []
  | (n, l) :: K' => oapp (expand e (NEST - length K) (map fst K) l) (kflat e K')
  end.
Lemma oapp_assoc {A} (a b c : option (list A)) : oapp (oapp a b) c = oapp a (oapp b c).
Proof. destruct a, b, c; cbn; try reflexivity. rewrite app_assoc. reflexivity. Qed.
Lemma kflat_cons e n x l K : kflat e ((n, x :: l) :: K) = oapp (expand1 e (NEST - S (length K)) (n :: map fst K) x) (kflat e ((n, l) :: K)).
Proof. cbn [kflat length map fst]. rewrite expand_cons, oapp_assoc. reflexivity. Qed.
Lemma kflat_spent e P K : spent P -> kflat e (P ++ K) = kflat e K.
Proof.
  induction 1 as [|[n l] P E S IH]; [reflexivity|]. cbn in E. subst l. cbn [app kflat]. rewrite expand_nil, oapp_nil. exact IH.
Qed.
Lemma kflat_spent0 e P : spent P -> kflat e P = Some [].
Proof. intro H. rewrite <- (app_nil_r P), (kflat_spent e P [] H). reflexivity. Qed.
Lemma normal (K : stackof) : spent K \/ exists P n x l K', spent P /\ K = P ++ (n, x :: l) :: K'.
Proof.
  induction K as [|[n [|x l]] K [IH|(P & m & y & l' & K' & S & ->)]].
  - left. constructor.
  - left. constructor; [reflexivity|exact IH].
  - right. exists ((n, []) :: P), m, y, l', K'. split; [constructor; [reflexivity|exact S]|reflexivity].
  - right. exists [], n, x, l, K. split; [constructor|reflexivity].
  - right. exists [], n, x, l, (P ++ (m, y :: l') :: K'). split; [constructor|reflexivity].
Qed.
(** the number of raw tokens that an expansion reads *)
Fixpoint cost (e : env) (d : nat) : list (list Z) -> list lexeme -> nat :=
  fix go hid l :=
    match l with
    | [] => O
    | x :: r => S (match x with
                   | Id w => match action e hid w with
                             | Some (Push b) => match d with O => O | S d => cost e d (w :: hid) b end
                             | _ => O
                             end
                   | _ => O
                   end + go hid r)
    end.
Fixpoint kcost (e : env) (K : stackof) : nat :=
  match K with [] => O | (n, l) :: K' => (cost e (NEST - length K) (map fst K) l + kcost e K')%nat end.
Lemma cost_nil e d hid : cost e d hid [] = O. Proof. destruct d; reflexivity. Qed.
Lemma kcost_spent e P K : spent P -> kcost e (P ++ K) = kcost e K.
Proof.
  induction 1 as [|[n l] P E S IH]; [reflexivity|]. cbn in E. subst l. cbn [app kcost]. rewrite cost_nil. exact IH.
Qed.
Lemma cost_cons e d hid x r : cost e d hid (x :: r) = S (match x with
   | Id w => match action e hid w with Some (Push b) => match d with O => O | S d => cost e d (w :: hid) b end | _ => O end | _ => O end + cost e d hid r)%nat.
Proof. destruct d; reflexivity. Qed.

(** ** After the raw token *)
(** what GetToken does with the token it has read: scpp.c:906-1029 *)
Definition by_code (fuel : nat) (id : Z) : M st unit :=
        if id <? TOK_USER_ID then
          if TOK_DEFINED <? id then
            if id =? TOK___LINE__ then
              let! s := gets (fun s => s) in
              if TOKEN_DATA_MAX <? npos s + Z.of_nat (length (dec_digits 12 (line s) [])) + 1 then undef else
              upd (fun s => let l := dec_digits 12 (line s) [] in
                            set_npos (set_tok (set_data s (poke (data s) (npos s) (l ++ [0])) (pos s)) (mktok TOK_NUM (PTok (npos s))))
                                     (npos s + Z.of_nat (length l) + 1))
            else if id =? TOK___FILE__ then upd (fun s => set_tok s (mktok TOK_STRLIT (PStr (fst (cfile s)))))
            else upd (fun s => set_tok s (mktok TOK_NUM (PStr [49])))
          else ret tt
        else
          let! a := GetArg id in
          match a with
          | Some a => PushHandleArg a;; GetToken fuel
          | None =>
              let mi := id - TOK_USER_ID in
              let! m := gets (fun s => aget (macs s) mi) in
              if negb (m_hide m =? 0) then ret tt
              else
                let! stop := (match m_args m with
                  | ANone => ret false
                  | _ =>
                      RawGetToken fuel;;
                      let! ws := gets (fun s => t_type (tok s)) in
                      RawSkipWS fuel;;
                      let! t := gets tok in
                      if negb (t_type t =? 40) then
                        when (ws <? 32) (TokenQueuePush (mktok ws PNull));;
                        TokenQueuePush t;;
                        upd (fun s => set_tok s (mktok id (nth (Z.to_nat (id - TOK_ID)) (ids s) PNull)));;
                        ret true
                      else
                        RawGetToken fuel;; RawSkipWS fuel;;
                        let! t := gets (fun s => t_type (tok s)) in
                        when (negb (t =? 41))
                          (match m_args m with AFirst a => call_args fuel a | _ => fatal end);;
                        ret false
                  end) in
                if stop : bool then ret tt
                else
                  let! r := gets (fun s => m_repl (aget (macs s) mi)) in
                  (if negb (r =? -1) then push_frame mi r false;; set_hide mi 1
                   else FreeArgs (m_args m));;
                  GetToken fuel
          end.
Definition after (fuel : nat) : M st unit :=
      let! t := gets tok in
      if t_type t =? 35 then
        let! sk := gets stack in
        match sk with
        | [] => ret tt
        | _ =>
            RawGetToken fuel;; RawSkipWS fuel;;
            let! t := gets tok in
            assert (t_type t =? TOK_ARG);;
            match t_text t with
            | PArg a => let! r := gets (fun s => a_repl (aget (args s) a)) in Stringify fuel r 0 false []
            | _ => undef
            end
        end
      else if t_type t =? TOK_ARG then
        match t_text t with PArg a => PushHandleArg a;; GetToken fuel | _ => undef end
      else if negb (t_type t =? TOK_RAW_ID) then ret tt
      else
        ReplaceId;;
        let! id := gets (fun s => t_type (tok s)) in
        by_code fuel id.
Lemma GetToken_S f : GetToken (S f) = (RawGetToken f;; after f).
Proof. reflexivity. Qed.
Lemma after_plain e s x : wf_lexeme x = true -> raw_tok s x -> (forall w, x <> Id w) -> (is_hash x = false \/ stack s = []) ->
  (forall f, after f s = Ok (tt, s)) /\ has_tok e s x.
Proof.
  intros WF (T1 & T2 & _) NI HH. split; [|split; [rewrite T1; destruct x; try reflexivity; exfalso; eapply NI; reflexivity|split; [exact T2|exact WF]]].
  intro f. unfold after. unfold SccState.bind at 1, SccState.gets at 1. rewrite T1.
  destruct (Z.eqb_spec (lex_type x) 35) as [E|_].
  - destruct HH as [HH|HH]; [apply lex_type_hash in E; [subst x; discriminate|exact WF]|]. unfold SccState.bind, SccState.gets. rewrite HH. reflexivity.
  - destruct (Z.eqb_spec (lex_type x) TOK_ARG) as [E|_]; [exfalso; eapply lex_type_no_arg; eauto|].
    destruct (Z.eqb_spec (lex_type x) TOK_RAW_ID) as [E|_]; [destruct (lex_type_id _ WF E) as [w ->]; exfalso; eapply NI; reflexivity|]. reflexivity.
Qed.
Lemma index_app w a : forall b, index_of w (a ++ b) =
  match index_of w a with Some i => Some i | None => option_map (Nat.add (length a)) (index_of w b) end.
Proof.
  induction a as [|n a IH]; intro b; cbn [app index_of length]; [destruct (index_of w b); reflexivity|].
  destruct (word_eq n w); [reflexivity|]. rewrite IH. destruct (index_of w a); [reflexivity|]. cbn [option_map]. destruct (index_of w b); reflexivity.
Qed.
Lemma lookup_index e w : match index_of w (map fst e) with
  | Some i => exists b, lookup e w = Some b /\ nth_error e i = Some (w, b)
  | None => lookup e w = None end.
Proof.
  induction e as [|[n b] e IH]; cbn [map fst index_of lookup]; [reflexivity|]. destruct (word_eq n w) eqn:E.
  - apply word_eq_true in E. subst n. exists b. split; reflexivity.
  - destruct (index_of w (map fst e)) as [i|]; cbn [option_map]; exact IH.
Qed.
(** the code of a word *)
Inductive wordkind (e : env) (w : list Z) : Z -> Prop :=
| WRaw : index_of w keywords = None -> lookup e w = None -> wordkind e w TOK_RAW_ID
| WKey i : index_of w keywords = Some i -> (i < 16)%nat -> nth_error keywords i = Some w -> wordkind e w (TOK_ID + Z.of_nat i)
| WUser i b : index_of w keywords = None -> nth_error e i = Some (w, b) -> lookup e w = Some b -> wordkind e w (TOK_USER_ID + Z.of_nat i).
Lemma word_kind e w : wordkind e w (id_code (names e) w).
Proof.
  unfold id_code, names. rewrite index_app. destruct (index_of w keywords) as [i|] eqn:E.
  - apply WKey; [exact E| |apply index_of_some, E]. apply index_of_some in E. change 16%nat with (length keywords). apply nth_error_Some. congruence.
  - pose proof (lookup_index e w) as L. destruct (index_of w (map fst e)) as [i|]; cbn [option_map].
    + destruct L as (b & L1 & L2). replace (TOK_ID + Z.of_nat (length keywords + i)) with (TOK_USER_ID + Z.of_nat i).
      * eapply WUser; eauto.
      * rewrite Nat2Z.inj_add. change (Z.of_nat (length keywords)) with 16. unfold TOK_ID, TOK_USER_ID, TOK_DEFINE. lia.
    + apply WRaw; auto.
Qed.
Lemma keyword_lookup e u w i s : base e u s -> nth_error keywords i = Some w -> lookup e w = None.
Proof.
  intros B K. pose proof (lookup_index e w) as L. destruct (index_of w (map fst e)) as [j|] eqn:E; [|exact L]. exfalso.
  apply index_of_some in E. pose proof (t_nodup _ _ (b_table _ _ _ B)) as ND. unfold names in ND.
  apply nth_error_In in K, E. apply in_split in K. destruct K as (a & b & K). rewrite K, <- app_assoc in ND. cbn [app] in ND.
  apply NoDup_remove_2 in ND. apply ND. rewrite !in_app_iff. auto.
Qed.
Lemma keyword_special i w : nth_error keywords i = Some w -> (i < 16)%nat ->
  (i <= 12)%nat /\ word_eq w (bytes "__SCC__") = false /\ word_eq w (bytes "__FILE__") || word_eq w (bytes "__LINE__") = false \/
  word_eq w (bytes "__FILE__") || word_eq w (bytes "__LINE__") = true \/
  i = 15%nat /\ w = bytes "__SCC__".
Proof.
  intros E L. do 16 (destruct i as [|i]; [cbn in E; injection E as <-; first [left; split; [lia|split; reflexivity]|right; left; reflexivity|right; right; split; reflexivity]|]). lia.
Qed.
Lemma not_keyword w : index_of w keywords = None ->
  word_eq w (bytes "__SCC__") = false /\ word_eq w (bytes "__FILE__") = false /\ word_eq w (bytes "__LINE__") = false.
Proof.
  intro H. apply index_of_none in H. repeat split; apply word_eq_false; intros ->; apply H; vm_compute; tauto.
Qed.
Definition push_stack (e : env) (s : st) (i : nat) : st :=
  let m := aget (macs s) (Z.of_nat i) in
  set_macs (set_stack s (mkframe (Z.of_nat i) (m_repl m) false :: stack s)) (aset (macs s) (Z.of_nat i) (mkmac (m_args m) (m_repl m) 1)).
Lemma push_world e u K s i w b : world e u K s -> nth_error e i = Some (w, Some b) -> hides K w = false ->
  world e u ((w, b) :: K) (push_stack e s i).
Proof.
  intros H E NH. set (s' := push_stack e s i). assert (CA : calm s s') by (constructor; cbn; auto; lia).
  pose proof (w_base _ _ _ _ H) as B. pose proof (t_nodup _ _ (b_table _ _ _ B)) as ND. unfold names in ND. apply NoDup_app_r in ND.
  assert (UI : forall j m c, nth_error e j = Some (m, c) -> m = w -> j = i).
  { intros j m c J ->. apply (NoDup_nth_error (map fst e)); [exact ND| |].
    - rewrite map_length. apply nth_error_Some. congruence.
    - rewrite !nth_error_map, J, E. reflexivity. }
  destruct (w_macros _ _ _ _ H) as [M1 M2]. destruct (M1 i w _ E (fun x => x)) as (A1 & A2 & A3 & A4).
  constructor.
  - constructor; try apply B.
  - split.
    + intros j m c J _. specialize (M1 j m c J (fun x => x)). cbn [s' push_stack set_stack set_macs macs]. destruct (Nat.eq_dec j i) as [->|NE].
      * assert (m = w /\ c = Some b) as [-> ->] by (split; congruence). rewrite aget_aset_same.
        split; [exact A1|]. cbn [m_hide m_repl]. rewrite hides_cons, (proj2 (word_eq_true w w) eq_refl). split; [reflexivity|]. split; [eapply calm_chain; eauto|exact A4].
      * rewrite aget_aset_other by lia. assert (EH : hides ((w, b) :: K) m = hides K m).
        { rewrite hides_cons. destruct (word_eq m w) eqn:X; [|reflexivity]. apply word_eq_true in X. exfalso. apply NE. eapply UI; eauto. }
        rewrite EH. eapply calm_mac; eauto.
    + intros j J. cbn [s' push_stack set_stack set_macs macs]. assert (i < length e)%nat by (apply nth_error_Some; congruence). rewrite aget_aset_other by lia. apply M2, J.
  - cbn [s' push_stack set_macs set_stack stack]. constructor.
    + split; [reflexivity|]. split; [eapply calm_chain; [exact CA|exact A3]|]. split; [exact A4|]. exists i, b. auto.
    + eapply Forall2_impl'; [|apply (w_stack _ _ _ _ H)]. intros. eapply calm_frame; eauto.
  - cbn [map fst]. constructor; [|apply H]. intro I. unfold hides in NH. assert (X : existsb (word_eq w) (map fst K) = true); [|congruence].
    apply existsb_exists. exists w. split; [exact I|]. apply word_eq_true. reflexivity.
  - destruct (w_pool _ _ _ _ H) as (fl & BB & X1 & X2 & X3 & X4). exists fl, BB. split; [exact X1|]. split; [exact X2|]. split; [|exact X4].
    intros j m c J _. specialize (X3 j m c J (fun x => x)). cbn [s' push_stack set_stack set_macs macs pool]. destruct (Nat.eq_dec j i) as [->|NE].
    + rewrite aget_aset_same. exact X3.
    + rewrite aget_aset_other by lia. exact X3.
Qed.
Lemma stack_len e u K s : world e u K s -> length (stack s) = length K.
Proof. intro H. pose proof (w_stack _ _ _ _ H) as F. clear H. induction F; cbn [length]; congruence. Qed.
Lemma GetArg_none e u K s id : world e u K s -> GetArg id s = Ok (None, s).
Proof.
  intro H. unfold GetArg. unfold SccState.bind, SccState.gets. pose proof (w_stack _ _ _ _ H) as F. destruct F as [|f k r K' FO F]; [reflexivity|].
  destruct k as [n l]. destruct (frame_hide _ _ _ _ _ _ _ H FO) as (_ & A & N). destruct (Z.eqb_spec (f_mac f) (-1)); [contradiction|]. rewrite A. reflexivity.
Qed.
Lemma after_id e u K s w a : world e u K s -> wf_lexeme (Id w) = true -> raw_tok s (Id w) -> action e (map fst K) w = Some a ->
  exists s', inp s' = inp s /\ quiet s s' /\
  match a with
  | Give y => (forall f, after f s = Ok (tt, s')) /\ world e u K s' /\ has_tok e s' y
  | Skip => (forall f, after f s = GetToken f s') /\ world e u K s'
  | Push b => (length K < NEST)%nat -> (forall f, after f s = GetToken f s') /\ world e u ((w, b) :: K) s'
  end.
Proof.
  intros H WF (T1 & T2 & T3) A. pose proof (w_base _ _ _ _ H) as B.
  assert (NP : npos s <= TOKEN_DATA_MAX) by (rewrite (b_npos _ _ _ B); apply (b_u _ _ _ B)).
  destruct (ReplaceId_spec (names e) w s (b_table _ _ _ B) (b_names _ _ _ B) NP T1 (T2 eq_refl) (T3 w eq_refl)) as [h RI].
  set (s1 := set_tok (set_chash s h) (mktok (id_code (names e) w) (t_text (tok s)))) in RI.
  assert (W1 : world e u K s1) by (apply (idle_world e u K s); [constructor; reflexivity|exact H]).
  assert (START : forall f, after f s = by_code f (id_code (names e) w) s1).
  { intro f. unfold after. unfold SccState.bind at 1, SccState.gets at 1. rewrite T1. cbn [lex_type]. change (TOK_RAW_ID =? 35) with false.
    change (TOK_RAW_ID =? TOK_ARG) with false. change (TOK_RAW_ID =? TOK_RAW_ID) with true. cbn [negb]. cbv iota.
    rewrite (bind_eq _ _ _ _ _ RI). reflexivity. }
  assert (SH1 : has_tok e s1 (Id w)).
  { split; [reflexivity|]. split; [|exact WF]. intros _. pose proof (T2 eq_refl) as SW. cbn [s1 set_tok tok t_text] in *. exact SW. }
  assert (Q1 : quiet s s1) by (constructor; reflexivity).
  revert A. unfold action. pose proof (word_kind e w) as WK. remember (id_code (names e) w) as c eqn:EC. destruct WK as [N1 N2|i N1 N2 N3|i b N1 N2 N3].
  - destruct (not_keyword _ N1) as (-> & -> & ->). cbn [orb]. rewrite N2. intros [= <-]. exists s1. split; [reflexivity|]. split; [exact Q1|].
    split; [|split; [exact W1|exact SH1]]. intro f. rewrite START. reflexivity.
  - rewrite (keyword_lookup _ _ _ _ _ B N3). destruct (keyword_special _ _ N3 N2) as [(L & -> & ->)|[E|[-> ->]]].
    + intros [= <-]. exists s1. split; [reflexivity|]. split; [exact Q1|]. split; [|split; [exact W1|exact SH1]]. intro f. rewrite START.
      unfold by_code. unfold TOK_ID, TOK_DEFINE, TOK_USER_ID, TOK_DEFINED in *. destruct (Z.ltb_spec (257 + Z.of_nat i) 273); [|lia].
      destruct (Z.ltb_spec 269 (257 + Z.of_nat i)); [lia|]. reflexivity.
    + rewrite E. destruct (word_eq w (bytes "__SCC__")) eqn:X; [|discriminate]. apply word_eq_true in X. subst w. discriminate.
    + change (word_eq (bytes "__SCC__") (bytes "__SCC__")) with true. intros [= <-]. exists (set_tok s1 (mktok TOK_NUM (PStr [49]))).
      split; [reflexivity|]. split; [constructor; reflexivity|]. split; [intro f; rewrite START; reflexivity|]. split.
      * apply (idle_world e u K s1); [constructor; reflexivity|exact W1].
      * split; [reflexivity|split; [intros _; reflexivity|reflexivity]].
  - destruct (not_keyword _ N1) as (-> & -> & ->). cbn [orb]. rewrite N3. destruct (w_macros _ _ _ _ W1) as [M1 _].
    pose proof (M1 i w b N2 (fun x => x)) as [MA MB].
    assert (START2 : forall f, after f s = (let m := aget (macs s1) (Z.of_nat i) in
        if negb (m_hide m =? 0) then ret tt
        else (if negb (m_repl m =? -1) then push_frame (Z.of_nat i) (m_repl m) false;; set_hide (Z.of_nat i) 1 else ret tt);; GetToken f) s1).
    { intro f. rewrite START. unfold by_code. unfold TOK_USER_ID, TOK_DEFINED in *. destruct (Z.ltb_spec (273 + Z.of_nat i) 273); [lia|].
      rewrite (bind_eq _ _ _ _ _ (GetArg_none _ _ _ _ _ W1)). replace (273 + Z.of_nat i - 273) with (Z.of_nat i) by lia.
      unfold SccState.bind at 1, SccState.gets at 1. cbv zeta. destruct (negb (m_hide (aget (macs s1) (Z.of_nat i)) =? 0)); [reflexivity|].
      rewrite MA. cbn [FreeArgs]. reflexivity. }
    destruct b as [b|].
    + destruct MB as (MB & MC & MD). fold (hides K w). destruct (hides K w) eqn:HK.
      * intros [= <-]. exists s1. split; [reflexivity|]. split; [exact Q1|]. split; [|split; [exact W1|exact SH1]]. intro f. rewrite START2. cbv zeta. rewrite MB. reflexivity.
      * destruct b as [|x b].
        -- intros [= <-]. exists s1. split; [reflexivity|]. split; [exact Q1|]. split; [|exact W1]. intro f. rewrite START2. cbv zeta. rewrite MB. cbn [chain] in MC. rewrite MC. reflexivity.
        -- intros [= <-]. exists (push_stack e s1 i). split; [reflexivity|]. split; [constructor; reflexivity|]. intro L. split.
           ++ intro f. rewrite START2. cbv zeta. rewrite MB. cbn [chain] in MC. destruct MC as (MC & _).
              destruct (Z.eqb_spec (m_repl (aget (macs s1) (Z.of_nat i))) (-1)); [contradiction|]. cbn [zb Z.eqb negb].
              assert (PF : (push_frame (Z.of_nat i) (m_repl (aget (macs s1) (Z.of_nat i))) false;; set_hide (Z.of_nat i) 1) s1 = Ok (tt, push_stack e s1 i)).
              { unfold push_frame. unfold SccState.bind, SccState.gets. rewrite (stack_len _ _ _ _ W1). unfold MAX_NEST. unfold NEST in L.
                destruct (Z.ltb_spec (Z.of_nat (length K)) 10); [|lia]. reflexivity. }
              rewrite (bind_eq _ _ _ _ _ PF). reflexivity.
           ++ apply push_world; auto.
    + intros [= <-]. exists s1. split; [reflexivity|]. split; [exact Q1|]. split; [|split; [exact W1|exact SH1]]. intro f. rewrite START2. cbv zeta. rewrite MB. reflexivity.
Qed.

(** ** Replacements *)
Definition leads (s s' : st) : Prop := forall s2, runs GetToken s' tt s2 -> runs GetToken s tt s2.
Lemma leads_refl s : leads s s. Proof. intros s2 H. exact H. Qed.
Lemma leads_trans a b c : leads a b -> leads b c -> leads a c.
Proof. intros H1 H2 s2 R. auto. Qed.
Lemma get_done s s1 s2 : runs RawGetToken s tt s1 -> (forall f, after f s1 = Ok (tt, s2)) -> runs GetToken s tt s2.
Proof.
  intros R A. eapply runs_S; [intro f; apply GetToken_S|]. eapply runs_bind; [exact R|]. cbv beta. exists O. intros f _. apply A.
Qed.
Lemma get_again s s1 s2 : runs RawGetToken s tt s1 -> (forall f, after f s1 = GetToken f s2) -> leads s s2.
Proof.
  intros R A s3 G. eapply runs_S; [intro f; apply GetToken_S|]. eapply runs_bind; [exact R|]. cbv beta. destruct G as [f0 G]. exists f0. intros f F. rewrite A. auto.
Qed.
(** the state where the lexemes of K have been read: Y is what is left *)
Definition from_stack (e : env) (u : Z) (s : st) (Y : list lexeme) : Prop :=
  match Y with
  | [] => exists s' K', leads s s' /\ world e u K' s' /\ spent K' /\ inp s' = inp s /\ quiet s s'
  | y :: ys => exists s' K', runs GetToken s tt s' /\ world e u K' s' /\ kflat e K' = Some ys /\ has_tok e s' y /\ inp s' = inp s /\ quiet s s'
  end.
Lemma from_leads e u s s1 Y : leads s s1 -> inp s1 = inp s -> quiet s s1 -> from_stack e u s1 Y -> from_stack e u s Y.
Proof.
  intros L I Q. destruct Y as [|y ys]; cbn [from_stack]; intros (s' & K' & H).
  - destruct H as (A & B & C & D & E). exists s', K'. parts; auto; try congruence; [eapply leads_trans; eauto|eapply quiet_trans; eauto].
  - destruct H as (A & B & C & D & E & F). exists s', K'. parts; auto; try congruence. eapply quiet_trans; eauto.
Qed.
Lemma frames e u : forall n K s Y, (kcost e K <= n)%nat -> world e u K s -> kflat e K = Some Y -> from_stack e u s Y.
Proof.
  induction n as [|n IH]; intros K s Y C H F; (destruct (normal K) as [S|(P & m & x & l & K' & S & ->)];
    [rewrite (kflat_spent0 _ _ S) in F; injection F as <-; exists s, K; parts; auto using leads_refl, quiet_refl|]);
    rewrite (kcost_spent _ _ _ S) in C; cbn [kcost length map fst] in C; rewrite cost_cons in C; [lia|].
  rewrite (kflat_spent _ _ _ S), kflat_cons in F.
  destruct (raw_frame _ _ _ _ _ _ _ _ S H) as (s1 & R1 & W1 & I1 & T1 & Q1 & C1).
  destruct (kflat e ((m, l) :: K')) as [Y'|] eqn:FK; [|destruct (expand1 _ _ _ x); discriminate].
  assert (PL : (forall w, x <> Id w) -> from_stack e u s Y).
  { intro NI. assert (E1 : expand1 e (NEST - Datatypes.S (length K')) (m :: map fst K') x = Some [x]) by (destruct x; try reflexivity; exfalso; eapply NI; reflexivity).
    rewrite E1 in F. cbn [oapp app] in F. injection F as <-. destruct (after_plain e s1 x (proj1 C1) T1 NI (or_introl (proj2 C1))) as [A1 A2].
    exists s1, ((m, l) :: K'). split; [eapply get_done; eauto|]. auto. }
  destruct x as [| |w|?|?|?]; try (apply PL; intros; discriminate). clear PL.
  cbn [expand1] in F. destruct (action e (m :: map fst K') w) as [a|] eqn:AC; [|discriminate].
  destruct (after_id _ _ _ _ _ _ W1 (proj1 C1) T1 AC) as (s2 & I2 & Q2 & A2).
  assert (I3 : inp s2 = inp s) by congruence. assert (Q3 : quiet s s2) by (eapply quiet_trans; eauto).
  destruct a as [y|b|].
  - cbn [oapp app] in F. injection F as <-. destruct A2 as (A2 & W2 & T2). exists s2, ((m, l) :: K'). split; [eapply get_done; eauto|]. auto.
  - destruct (NEST - Datatypes.S (length K'))%nat as [|d] eqn:ED; [discriminate|]. destruct A2 as [A2 W2]; [cbn [length]; lia|].
    eapply from_leads; [eapply get_again; eauto|exact I3|exact Q3|]. apply (IH ((w, b) :: (m, l) :: K') s2 Y); [|exact W2|].
    + cbn [kcost length map fst]. replace (NEST - Datatypes.S (Datatypes.S (length K')))%nat with d by lia. rewrite ED. lia.
    + cbn [kflat length map fst] in FK |- *. replace (NEST - Datatypes.S (Datatypes.S (length K')))%nat with d by lia. rewrite FK. exact F.
  - cbn [oapp app] in F. injection F as <-. destruct A2 as [A2 W2].
    eapply from_leads; [eapply get_again; eauto|exact I3|exact Q3|]. apply (IH ((m, l) :: K') s2 Y'); [|exact W2|exact FK].
    cbn [kcost length map fst]. lia.
Qed.
Lemma frames' e u K s Y : world e u K s -> kflat e K = Some Y -> from_stack e u s Y.
Proof. intros. eapply frames; eauto. Qed.

(** ** The file *)
Lemma wf_first x T : separated (x :: T) = true -> wf_lexeme x = true.
Proof. cbn [separated]. intro H. apply andb_true_iff in H. destruct H as [H _]. apply andb_true_iff in H. apply H. Qed.
Definition from_file (e : env) (u : Z) (s : st) (T : list lexeme) (Y : list lexeme) : Prop :=
  match Y with
  | [] => exists s' K', leads s s' /\ world e u K' s' /\ spent K' /\ reads T s' /\ quiet s s'
  | y :: ys => exists s' K', runs GetToken s tt s' /\ world e u K' s' /\ kflat e K' = Some ys /\ has_tok e s' y /\ reads T s' /\ quiet s s'
  end.
Lemma file_step e u s K x T Y : spent K -> world e u K s -> reads (x :: T) s -> u + size x <= TEXT -> expand1 e NEST [] x = Some Y -> from_file e u s T Y.
Proof.
  intros S H R F E. destruct (raw_next _ _ _ _ _ _ S H R F) as (s1 & R1 & W1 & RD & T1 & Q1 & _).
  pose proof (wf_first _ _ (proj2 R)) as WF.
  assert (PL : (forall w, x <> Id w) -> from_file e u s T Y).
  { intro NI. assert (E1 : expand1 e NEST [] x = Some [x]) by (destruct x; try reflexivity; exfalso; eapply NI; reflexivity).
    rewrite E1 in E. injection E as <-. pose proof (w_stack _ _ _ _ W1) as ST. inversion ST as [SE|].
    destruct (after_plain e s1 x WF T1 NI (or_intror (eq_sym SE))) as [A1 A2].
    exists s1, []. split; [eapply get_done; eauto|]. parts; auto. }
  destruct x as [| |w|?|?|?]; try (apply PL; intros; discriminate). clear PL.
  cbn [expand1] in E. destruct (action e [] w) as [a|] eqn:AC; [|discriminate].
  destruct (after_id _ _ [] _ _ _ W1 WF T1 AC) as (s2 & I2 & Q2 & A2).
  assert (RD2 : reads T s2) by (destruct RD; split; congruence). assert (Q3 : quiet s s2) by (eapply quiet_trans; eauto).
  destruct a as [y|b|].
  - injection E as <-. destruct A2 as (A2 & W2 & T2). exists s2, []. split; [eapply get_done; eauto|]. parts; auto.
  - unfold NEST in E at 1. destruct A2 as [A2 W2]; [cbn [length]; unfold NEST; lia|]. pose proof (get_again _ _ _ R1 A2) as LD.
    assert (FK : kflat e [(w, b)] = Some Y).
    { cbn [kflat length map fst]. change (NEST - 1)%nat with 9%nat. cbn in E. unfold oapp. cbn. rewrite E. rewrite app_nil_r. reflexivity. }
    pose proof (frames' _ _ _ _ _ W2 FK) as FS. destruct Y as [|y ys]; cbn [from_stack from_file] in *; destruct FS as (s3 & K3 & X).
    + destruct X as (X1 & X2 & X3 & X4 & X5). exists s3, K3. split; [eapply leads_trans; eauto|]. split; [exact X2|]. split; [exact X3|].
      split; [destruct RD2; split; congruence|eapply quiet_trans; eauto].
    + destruct X as (X1 & X2 & X3 & X4 & X5 & X6). exists s3, K3. split; [apply LD, X1|]. split; [exact X2|]. split; [exact X3|]. split; [exact X4|].
      split; [destruct RD2; split; congruence|eapply quiet_trans; eauto].
  - injection E as <-. destruct A2 as [A2 W2]. exists s2, []. split; [eapply get_again; eauto|]. split; [exact W2|]. split; [constructor|]. split; [exact RD2|exact Q3].
Qed.
(** reading a text: the expansion of what is left of the replacements and of the lexemes l *)
Lemma text_step e u : forall l K T s a b, world e u K s -> reads (l ++ T) s -> fits u l -> kflat e K = Some a -> expand e NEST [] l = Some b ->
  match a ++ b with
  | [] => exists s' K', leads s s' /\ world e u K' s' /\ spent K' /\ reads T s' /\ quiet s s'
  | y :: ys => exists s' K' l' a' b', runs GetToken s tt s' /\ world e u K' s' /\ kflat e K' = Some a' /\ expand e NEST [] l' = Some b' /\ ys = a' ++ b' /\
      has_tok e s' y /\ reads (l' ++ T) s' /\ fits u l' /\ quiet s s'
  end.
Proof.
  assert (ST : forall l K T s y a b, world e u K s -> reads (l ++ T) s -> fits u l -> kflat e K = Some (y :: a) -> expand e NEST [] l = Some b ->
     exists s' K' l' a' b', runs GetToken s tt s' /\ world e u K' s' /\ kflat e K' = Some a' /\ expand e NEST [] l' = Some b' /\ a ++ b = a' ++ b' /\
      has_tok e s' y /\ reads (l' ++ T) s' /\ fits u l' /\ quiet s s').
  { intros l K T s y a b H R F FK X. pose proof (frames' _ _ _ _ _ H FK) as (s1 & K1 & A1 & A2 & A3 & A4 & A5 & A6).
    exists s1, K1, l, a, b. parts; auto. destruct R; split; congruence. }
  induction l as [|x l IH]; intros K T s a b H R F FK X.
  - destruct a as [|y a]; [|cbn [app]; eapply ST; eauto]. rewrite expand_nil in X. injection X as <-. cbn [app].
    pose proof (frames' _ _ _ _ _ H FK) as (s1 & K1 & A1 & A2 & A3 & A4 & A5). exists s1, K1. parts; auto. cbn [app] in R. destruct R; split; congruence.
  - destruct a as [|y a]; [|cbn [app]; eapply ST; eauto]. cbn [app] in *.
    pose proof (frames' _ _ _ _ _ H FK) as (s1 & K1 & A1 & A2 & A3 & A4 & A5).
    assert (R1 : reads (x :: l ++ T) s1) by (destruct R; split; congruence).
    rewrite expand_cons in X. destruct (expand1 e NEST [] x) as [Y|] eqn:EX; [|discriminate]. destruct (expand e NEST [] l) as [b'|] eqn:EL; [|discriminate].
    cbn [oapp] in X. injection X as <-. inversion F as [|? ? F1 F2]; subst.
    pose proof (file_step _ _ _ _ _ _ _ A3 A2 R1 F1 EX) as FS. destruct Y as [|y ys]; cbn [from_file app] in *.
    + destruct FS as (s2 & K2 & B1 & B2 & B3 & B4 & B5). specialize (IH K2 T s2 [] b' B2 B4 F2 (kflat_spent0 _ _ B3) eq_refl). cbn [app] in IH.
      assert (LD : leads s s2) by (eapply leads_trans; eauto). assert (Q : quiet s s2) by (eapply quiet_trans; eauto).
      destruct b' as [|y ys].
      * destruct IH as (s3 & K3 & C1 & C2 & C3 & C4 & C5). exists s3, K3. split; [eapply leads_trans; eauto|]. split; [exact C2|]. split; [exact C3|]. split; [exact C4|]. eapply quiet_trans; eauto.
      * destruct IH as (s3 & K3 & l3 & a3 & b3 & C1 & C2 & C3 & C4 & C5 & C6 & C7 & C8 & C9). exists s3, K3, l3, a3, b3.
        split; [apply LD, C1|]. repeat (split; [assumption|]). eapply quiet_trans; eauto.
    + destruct FS as (s2 & K2 & B1 & B2 & B3 & B4 & B5 & B6). exists s2, K2, l, ys, b'. split; [apply A1, B1|]. split; [exact B2|]. split; [exact B3|]. split; [exact EL|].
      split; [reflexivity|]. split; [exact B4|]. split; [exact B5|]. split; [exact F2|]. eapply quiet_trans; eauto.
Qed.
