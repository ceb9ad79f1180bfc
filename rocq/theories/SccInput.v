(** The input of the compiler as a list of characters: what the buffered reader of
    scc.c delivers, independently of how the file is split into reads. *)
From Verif Require Import Base SccState SccEmit SccLex.

Ltac inv H := inversion H; subst; clear H.

(** ** Monad equations *)
Lemma bind_ok {S A B} (m : M S A) (f : A -> M S B) s a s1 : m s = Ok (a, s1) -> bind m f s = f a s1.
Proof. intro H. unfold bind. rewrite H. reflexivity. Qed.
Lemma bind_gets {S A B} (g : S -> A) (f : A -> M S B) s : bind (gets g) f s = f (g s) s.
Proof. reflexivity. Qed.
Lemma bind_upd {S B} (g : S -> S) (f : unit -> M S B) s : bind (upd g) f s = f tt (g s).
Proof. reflexivity. Qed.
Lemma bind_ret {S A B} (a : A) (f : A -> M S B) s : bind (ret a) f s = f a s.
Proof. reflexivity. Qed.
Lemma bind_inv {S A B} (m : M S A) (f : A -> M S B) s b s2 : bind m f s = Ok (b, s2) -> exists a s1, m s = Ok (a, s1) /\ f a s1 = Ok (b, s2).
Proof. unfold bind. destruct (m s) as [[a s1]| | |]; try discriminate. eauto. Qed.
Lemma bind_assoc {S A B C} (m : M S A) (f : A -> M S B) (g : B -> M S C) s :
  bind (bind m f) g s = bind m (fun a => bind (f a) g) s.
Proof. unfold bind. destruct (m s) as [[a s1]| | |]; reflexivity. Qed.
Lemma bind_unread {B} (f : unit -> M lexst B) l : bind unread f l = f tt (set_InBufPtr (InBufPtr l - 1) l).
Proof. reflexivity. Qed.
Lemma bind_incLine {B} (f : unit -> M lexst B) l : bind incLine f l = f tt (set_Line (Line l + 1) l).
Proof. reflexivity. Qed.
Ltac mstep := first [rewrite bind_gets | rewrite bind_upd | rewrite bind_ret | rewrite bind_unread | rewrite bind_incLine].
Ltac mgo := repeat first [mstep | rewrite bind_assoc].

(** ** What is still to be read *)
(** a list stored in an array, followed by a zero *)
Fixpoint stored (b : arr Z) (i : Z) (bs : list Z) : Prop :=
  match bs with
  | nil => aget b i = 0
  | c :: r => aget b i = c /\ stored b (i + 1) r
  end.
Definition nz (cs : list Z) : Prop := Forall (fun c => c <> 0) cs.
(** the characters behind CurChar: what is left in the buffer, then the file *)
Definition later (l : lexst) (cs : list Z) : Prop :=
  exists bs, stored (InBuf l) (InBufPtr l) bs /\ nz bs /\ 0 <= InBufPtr l /\
             InBufPtr l + Z.of_nat (length bs) <= INBUF_MAX /\
             cs = bs ++ map s8 (File l) /\ nz (map s8 (File l)).
(** the characters from CurChar on; [nil] is end of file.  (Before the first character
    is read CurChar is 0, which counts as a blank.) *)
Definition sees (l : lexst) (cs : list Z) : Prop :=
  CurChar l = hd 0 cs /\ later l (tl cs).

(** the rest of the lexer's state, as far as it influences the compiler (not the line number) *)
Record lview := mkview {
  vTok : Z; vNum : Z; vStr : Z; vPrec : Z; vIdPtr : Z; vIdText : arr (list Z); vIdHash : arr Z; vIdCount : Z }.
Definition view (l : lexst) : lview :=
  mkview (TokenType l) (TokenNumVal l) (TokenStrLit l) (OperatorPrecedence l) (IdBufPtr l) (IdText l) (IdHashTab l) (IdCount l).

Lemma stored_hd b i bs : stored b i bs -> aget b i = hd 0 bs.
Proof. destruct bs; cbn; tauto. Qed.
Lemma stored_ext bs : forall b b' i, (forall j, i <= j -> aget b j = aget b' j) -> stored b i bs -> stored b' i bs.
Proof.
  induction bs as [|c bs IH]; cbn; intros b b' i E H.
  - rewrite <- E by lia. exact H.
  - destruct H as [H1 H2]. split; [rewrite <- E by lia; exact H1|]. apply (IH b); auto. intros. apply E. lia.
Qed.
Lemma store_other bs : forall b i j, j < i -> aget (store_bytes b i bs) j = aget b j.
Proof.
  induction bs as [|c bs IH]; cbn [store_bytes]; intros b i j L.
  - rewrite aget_aset_other; auto. lia.
  - rewrite IH by lia. rewrite aget_aset_other; auto. lia.
Qed.
Lemma store_stored bs : forall b i, stored (store_bytes b i bs) i (map s8 bs).
Proof.
  induction bs as [|c bs IH]; cbn [store_bytes map stored]; intros b i.
  - apply aget_aset_same.
  - split; [|apply IH]. rewrite store_other by lia. apply aget_aset_same.
Qed.
Lemma nz_app a b : nz (a ++ b) <-> nz a /\ nz b.
Proof. apply Forall_app. Qed.
Lemma later_nz l cs : later l cs -> nz cs.
Proof. intros (bs & _ & Hb & _ & _ & -> & Hf). apply nz_app. auto. Qed.

(** ** The reader *)
Lemma rawnext_some l c cs : later l (c :: cs) -> aget (InBuf l) (InBufPtr l) <> 0 ->
  exists l', rawnext l = Ok (c, l') /\ CurChar l' = c /\ later l' cs /\ view l' = view l /\
             InBufPtr l' = InBufPtr l + 1 /\ InBuf l' = InBuf l.
Proof.
  intros (bs & S & N & P & L & E & NF) NE. destruct bs as [|b bs]; cbn [stored] in S; [tauto|].
  cbn [app] in E. injection E as -> E. destruct S as [S1 S2].
  unfold rawnext. repeat mstep. rewrite S1. eexists. split; [reflexivity|]. cbn.
  split; [reflexivity|]. split; [|auto]. exists bs. cbn. cbn [length] in L. inv N.
  repeat split; auto; try lia.
Qed.
Lemma rawnext_zero l : aget (InBuf l) (InBufPtr l) = 0 ->
  rawnext l = Ok (0, set_CurChar 0 (set_InBufPtr (InBufPtr l + 1) l)).
Proof. intro H. unfold rawnext. repeat mstep. rewrite H. reflexivity. Qed.
Lemma later_zero l cs : later l cs -> aget (InBuf l) (InBufPtr l) = 0 -> cs = map s8 (File l) /\ nz cs.
Proof.
  intros (bs & S & N & _ & _ & -> & NF) Z0. apply stored_hd in S. destruct bs as [|b bs]; [auto|].
  cbn in S. inv N. congruence.
Qed.

(** reading the file: the buffer then holds its first bytes *)
Lemma read_file_spec l : nz (map s8 (File l)) ->
  exists l' n, read_file l = Ok (n, l') /\ (n = 0 <-> File l = nil) /\
    later (set_InBufPtr 0 l') (map s8 (File l)) /\ view l' = view l /\ CurChar l' = CurChar l /\
    aget (InBuf l') 0 = hd 0 (map s8 (File l)).
Proof.
  intro N. unfold read_file. repeat mstep.
  set (k := Z.to_nat (read_size (Sched l))).
  assert (K : (1 <= k <= 512)%nat).
  { unfold k, read_size, INBUF_MAX. destruct (Sched l) as [|z r]; lia. }
  eexists _, _. split; [reflexivity|]. cbn [InBuf set_InBuf set_Sched set_File].
  assert (ST : stored (store_bytes (InBuf l) 0 (firstn k (File l))) 0 (map s8 (firstn k (File l)))) by apply store_stored.
  split; [|split; [|split; [reflexivity|split; [reflexivity|]]]].
  - rewrite firstn_length. destruct (File l) as [|b r]; cbn [length]; split; intro H; try discriminate; try reflexivity; lia.
  - exists (map s8 (firstn k (File l))). cbn. split; [exact ST|].
    assert (NN : nz (map s8 (firstn k (File l))) /\ nz (map s8 (skipn k (File l)))).
    { apply nz_app. rewrite <- map_app, firstn_skipn. exact N. }
    split; [apply NN|]. split; [lia|]. split; [|split; [rewrite <- map_app, firstn_skipn; reflexivity|apply NN]].
    rewrite map_length. unfold INBUF_MAX. pose proof (firstn_le_length k (File l)). lia.
  - apply stored_hd in ST. etransitivity; [exact ST|].
    destruct k as [|k]; [lia|]. destruct (File l); reflexivity.
Qed.

Theorem NextChar_spec l cs : later l cs ->
  exists l', NextChar l = Ok (tt, l') /\ sees l' cs /\ view l' = view l /\
             (cs <> nil -> 1 <= InBufPtr l' /\ aget (InBuf l') (InBufPtr l' - 1) = hd 0 cs).
Proof.
  intro H. pose proof (later_nz _ _ H) as NZ. unfold NextChar.
  destruct (Z.eq_dec (aget (InBuf l) (InBufPtr l)) 0) as [Z0|NZ0].
  - rewrite (bind_ok _ _ _ _ _ (rawnext_zero l Z0)). cbn [negb Z.eqb].
    destruct (later_zero _ _ H Z0) as [Ecs _].
    set (l1 := set_CurChar 0 (set_InBufPtr (InBufPtr l + 1) l)).
    destruct (read_file_spec l1) as (l2 & n & R & En & La & Vw & Cc & B0).
    { change (File l1) with (File l). rewrite <- Ecs. exact NZ. }
    rewrite (bind_ok _ _ _ _ _ R). mstep.
    change (File l1) with (File l) in *. rewrite <- Ecs in La, B0.
    destruct (Z.eqb_spec n 0) as [->|Nn].
    + assert (F : File l = nil) by tauto. rewrite F in *. cbn in Ecs. subst cs.
      eexists. split; [reflexivity|]. split; [|split; [exact Vw|congruence]].
      split; [reflexivity|]. exact La.
    + destruct cs as [|c cs].
      { exfalso. apply Nn, En. destruct (File l); [reflexivity|discriminate]. }
      destruct (rawnext_some (set_InBufPtr 0 l2) c cs La) as (l3 & R3 & C3 & L3 & V3 & P3 & B3).
      { cbn. rewrite B0. cbn. inv NZ. assumption. }
      rewrite (bind_ok _ _ _ _ _ R3). eexists. split; [reflexivity|].
      split; [|split; [rewrite V3; exact Vw|]]. { split; [exact C3|exact L3]. }
      intros _. rewrite P3, B3. cbn. split; [lia|]. exact B0.
  - destruct cs as [|c cs].
    { destruct H as (bs & S & _ & _ & _ & E & _). destruct bs; [|discriminate]. cbn in S. congruence. }
    destruct (rawnext_some l c cs H NZ0) as (l3 & R3 & C3 & L3 & V3 & P3 & B3).
    rewrite (bind_ok _ _ _ _ _ R3). pose proof (Forall_inv NZ) as NC. rewrite (proj2 (Z.eqb_neq c 0)) by exact NC. cbn [negb].
    eexists. split; [reflexivity|]. split; [split; [exact C3|exact L3]|].
    split; [exact V3|]. intros _. rewrite P3, B3.
    destruct H as (bs & S & N & P & L & E & NF). split; [lia|].
    replace (InBufPtr l + 1 - 1) with (InBufPtr l) by lia. apply stored_hd in S. rewrite S.
    destruct bs; cbn in *; congruence.
Qed.

Lemma unread_later l c cs : sees l (c :: cs) -> c <> 0 -> 1 <= InBufPtr l -> aget (InBuf l) (InBufPtr l - 1) = c ->
  later (set_InBufPtr (InBufPtr l - 1) l) (c :: cs).
Proof.
  intros (C & (bs & S & N & P & L & E & NF)) NZ P1 A. cbn [tl] in *. exists (c :: bs). cbn [stored InBuf InBufPtr File set_InBufPtr length app].
  replace (InBufPtr l - 1 + 1) with (InBufPtr l) by lia.
  split; [auto|]. split; [constructor; [exact NZ|exact N]|].
  split; [lia|]. split; [lia|]. split; [congruence|exact NF].
Qed.
(** a zero at the read position: what unread+NextChar sees *)
Lemma unread_zero l : set_InBufPtr (InBufPtr l + 1 - 1) (set_CurChar 0 (set_InBufPtr (InBufPtr l + 1) l)) =
                      set_CurChar 0 l.
Proof. replace (InBufPtr l + 1 - 1) with (InBufPtr l) by lia. destruct l; reflexivity. Qed.

Lemma nextc_spec l cs : later l cs ->
  exists l', nextc l = Ok (tt, l') /\ sees l' cs /\ view l' = view l.
Proof.
  intro H. unfold nextc. destruct (Z.eq_dec (aget (InBuf l) (InBufPtr l)) 0) as [Z0|NZ0].
  - rewrite (bind_ok _ _ _ _ _ (rawnext_zero l Z0)). cbn [Z.eqb]. mgo.
    cbn [InBufPtr set_CurChar set_InBufPtr].
    destruct (NextChar_spec (set_CurChar 0 l) cs H) as (l' & N & S & V & _).
    rewrite unread_zero. eauto.
  - destruct cs as [|c cs].
    { destruct H as (bs & S & _ & _ & _ & E & _). destruct bs; [|discriminate]. cbn in S. congruence. }
    destruct (rawnext_some l c cs H NZ0) as (l3 & R3 & C3 & L3 & V3 & _).
    pose proof (later_nz _ _ H) as NZ.
    rewrite (bind_ok _ _ _ _ _ R3). rewrite (proj2 (Z.eqb_neq c 0)) by exact (Forall_inv NZ).
    exists l3. split; [reflexivity|]. split; [split; [exact C3|exact L3]|exact V3].
Qed.

(** ** White space, as functions on the character list *)
(** the outcome of a tokenizer step on the characters *)
Definition ends {A} (small : Prop) (o : outcome (A * lexst)) (v : lview) (r : option (A * list Z)) : Prop :=
  small /\ o = OutOfFuel \/
  match r with
  | None => o = Fatal
  | Some (a, cs) => exists l', o = Ok (a, l') /\ sees l' cs /\ view l' = v
  end.

(** blanks: everything up to the space character, and (as char is signed) 0x80-0xFF *)
Fixpoint drop_blanks (cs : list Z) : list Z :=
  match cs with
  | c :: r => if c <=? ch_sp then drop_blanks r else cs
  | nil => nil
  end.
(** the rest behind the next newline *)
Fixpoint drop_line (cs : list Z) : list Z :=
  match cs with
  | c :: r => if c =? ch_nl then r else drop_line r
  | nil => nil
  end.
(** the rest behind the end of a block comment; [star]: the previous character was '*' *)
Fixpoint comment_end (star : bool) (cs : list Z) : option (list Z) :=
  match cs with
  | nil => None
  | c :: r => if star && (c =? ch_slash) then Some r else comment_end (c =? ch_star) r
  end.
(** white space and comments (and # lines); true: the rest is preceded by a '/' operator *)
Fixpoint skipws_n (n : nat) (cs : list Z) : option (bool * list Z) :=
  match n with
  | O => None
  | S n =>
      match drop_blanks cs with
      | nil => Some (false, nil)
      | c :: r =>
          if c =? ch_slash then
            match r with
            | d :: r' =>
                if d =? ch_slash then skipws_n n (drop_line r')
                else if d =? ch_star then
                  match comment_end false r' with
                  | None => None
                  | Some r'' => skipws_n n r''
                  end
                else Some (true, r)
            | nil => Some (true, nil)
            end
          else if c =? ch_hash then skipws_n n (drop_line r)
          else Some (false, c :: r)
      end
  end.
Definition skipws (cs : list Z) := skipws_n (S (length cs)) cs.

Lemma drop_blanks_len cs : (length (drop_blanks cs) <= length cs)%nat.
Proof. induction cs as [|c cs IH]; cbn; [lia|]. destruct (c <=? ch_sp); cbn; lia. Qed.
Lemma drop_line_len cs : (length (drop_line cs) <= length cs)%nat.
Proof. induction cs as [|c cs IH]; cbn; [lia|]. destruct (c =? ch_nl); cbn; lia. Qed.
Lemma comment_end_len cs : forall b r, comment_end b cs = Some r -> (length r <= length cs)%nat.
Proof.
  induction cs as [|c cs IH]; cbn; intros b r H; [discriminate|].
  destruct (b && (c =? ch_slash)); [injection H as <-; lia|]. apply IH in H. lia.
Qed.
Lemma skipws_n_enough n : forall m cs, (length cs < n)%nat -> (length cs < m)%nat -> skipws_n n cs = skipws_n m cs.
Proof.
  induction n as [|n IH]; intros m cs Ln Lm; [lia|]. destruct m as [|m]; [lia|]. cbn [skipws_n].
  pose proof (drop_blanks_len cs) as D. destruct (drop_blanks cs) as [|c r]; [reflexivity|]. cbn [length] in D.
  destruct (c =? ch_slash).
  - destruct r as [|d r']; [reflexivity|]. cbn [length] in D.
    destruct (d =? ch_slash). { pose proof (drop_line_len r'). apply IH; lia. }
    destruct (d =? ch_star); [|reflexivity].
    destruct (comment_end false r') as [r''|] eqn:E; [|reflexivity]. apply comment_end_len in E. apply IH; lia.
  - destruct (c =? ch_hash); [|reflexivity]. pose proof (drop_line_len r). apply IH; lia.
Qed.

(** equations of [skipws] *)
Lemma skipws_eq cs : skipws cs =
  match drop_blanks cs with
  | nil => Some (false, nil)
  | c :: r =>
      if c =? ch_slash then
        match r with
        | d :: r' =>
            if d =? ch_slash then skipws (drop_line r')
            else if d =? ch_star then
              match comment_end false r' with None => None | Some r'' => skipws r'' end
            else Some (true, r)
        | nil => Some (true, nil)
        end
      else if c =? ch_hash then skipws (drop_line r)
      else Some (false, c :: r)
  end.
Proof.
  unfold skipws at 1. cbn [skipws_n].
  pose proof (drop_blanks_len cs) as D. destruct (drop_blanks cs) as [|c r]; [reflexivity|]. cbn [length] in D.
  destruct (c =? ch_slash).
  - destruct r as [|d r']; [reflexivity|]. cbn [length] in D.
    destruct (d =? ch_slash). { pose proof (drop_line_len r'). apply skipws_n_enough; lia. }
    destruct (d =? ch_star); [|reflexivity].
    destruct (comment_end false r') as [r''|] eqn:E; [|reflexivity]. apply comment_end_len in E. apply skipws_n_enough; lia.
  - destruct (c =? ch_hash); [|reflexivity]. pose proof (drop_line_len r). apply skipws_n_enough; lia.
Qed.

Section Fuel.
Variable F : nat.

Lemma loopM_S {S X A} n (body : X -> M S (X + A)) x s :
  loopM (Datatypes.S n) body x s = bind (body x) (fun r => match r with inl x' => loopM n body x' | inr a => ret a end) s.
Proof. reflexivity. Qed.

Lemma skip_blanks_spec l cs : later l cs ->
  (F <= 2 * length cs + (if (aget (InBuf l) (InBufPtr l) =? 0)%Z then 1 else 0))%nat /\ skip_blanks F l = OutOfFuel \/
  exists l', skip_blanks F l = Ok (match drop_blanks cs with nil => true | _ => false end, l') /\
             sees l' (drop_blanks cs) /\ view l' = view l.
Proof.
  unfold skip_blanks. revert l cs. induction F as [|n IH]; intros l cs H; [left; split; [lia|reflexivity]|].
  rewrite loopM_S. mgo.
  destruct (Z.eq_dec (aget (InBuf l) (InBufPtr l)) 0) as [Z0|NZ0].
  - rewrite (bind_ok _ _ _ _ _ (rawnext_zero l Z0)). change (ch_sp <? 0) with false. change (0 =? ch_nl) with false.
    cbn [Z.eqb]. mgo. cbn [InBufPtr set_CurChar set_InBufPtr].
    rewrite unread_zero.
    destruct (NextChar_spec (set_CurChar 0 l) cs H) as (l' & N & S & V & P).
    mgo. rewrite (bind_ok _ _ _ _ _ N). mgo.
    destruct cs as [|c cs].
    + destruct S as [C S]. rewrite C. cbn. right. eexists. split; [reflexivity|]. split; [split; [exact C|exact S]|exact V].
    + destruct P as [P1 P2]; [discriminate|]. cbn [hd] in P2.
      destruct S as [C S]. rewrite C. cbn [hd]. rewrite (proj2 (Z.eqb_neq c 0)) by exact (Forall_inv (later_nz _ _ H)).
      mgo.
      destruct (IH (set_InBufPtr (InBufPtr l' - 1) l') (c :: cs)) as [(LF & ->)|(l2 & E & S2 & V2)].
      { apply unread_later; auto; [split; [exact C|exact S]|exact (Forall_inv (later_nz _ _ H))]. }
      { left. split; [|reflexivity]. rewrite Z0. cbn [InBuf InBufPtr set_InBufPtr] in LF. rewrite P2 in LF.
        rewrite (proj2 (Z.eqb_neq c 0)) in LF by exact (Forall_inv (later_nz _ _ H)). cbn [length Z.eqb] in *. lia. }
      right. exists l2. split; [exact E|]. split; [exact S2|]. rewrite V2. exact V.
  - destruct cs as [|c cs].
    { destruct H as (bs & S & _ & _ & _ & E & _). destruct bs; [|discriminate]. cbn in S. congruence. }
    destruct (rawnext_some l c cs H NZ0) as (l3 & R3 & C3 & L3 & V3 & _).
    pose proof (later_nz _ _ H) as NZ.
    rewrite (bind_ok _ _ _ _ _ R3). cbn [drop_blanks].
    destruct (Z.ltb_spec ch_sp c) as [Lt|Ge].
    + rewrite (proj2 (Z.leb_gt c ch_sp)) by lia. mgo. right. exists l3. split; [reflexivity|].
      split; [split; [exact C3|exact L3]|exact V3].
    + rewrite (proj2 (Z.leb_le c ch_sp)) by lia.
      assert (G : forall l4, later l4 cs -> view l4 = view l3 ->
        loopM n (fun _ : unit => let! c0 := rawnext in
           if ch_sp <? c0 then ret (inr false) else if c0 =? ch_nl then incLine;; ret (inl tt) else
           if c0 =? 0 then unread;; NextChar;; (let! c1 := gets CurChar in if c1 =? 0 then ret (inr true) else unread;; ret (inl tt))
           else ret (inl tt)) tt l4 = OutOfFuel /\ (S n <= 2 * S (length cs))%nat \/
        exists l', loopM n (fun _ : unit => let! c0 := rawnext in
           if ch_sp <? c0 then ret (inr false) else if c0 =? ch_nl then incLine;; ret (inl tt) else
           if c0 =? 0 then unread;; NextChar;; (let! c1 := gets CurChar in if c1 =? 0 then ret (inr true) else unread;; ret (inl tt))
           else ret (inl tt)) tt l4 = Ok (match drop_blanks cs with nil => true | _ => false end, l') /\
           sees l' (drop_blanks cs) /\ view l' = view l).
      { intros l4 L4 V4. destruct (IH l4 cs L4) as [(LF & ->)|(l2 & E & S2 & V2)]; [left; split; [reflexivity|destruct (_ =? 0) in LF; lia]|].
        right. exists l2. split; [exact E|]. split; [exact S2|]. congruence. }
      destruct (c =? ch_nl).
      * mgo. destruct (G (set_Line (Line l3 + 1) l3) L3 eq_refl) as [(-> & LF)|GG]; [left; split; [cbn [length]; lia|reflexivity]|right; exact GG].
      * rewrite (proj2 (Z.eqb_neq c 0)) by exact (Forall_inv NZ). mgo. destruct (G l3 L3 eq_refl) as [(-> & LF)|GG]; [left; split; [cbn [length]; lia|reflexivity]|right; exact GG].
Qed.

Lemma skip_line_spec l cs : later l cs ->
  (F <= length cs)%nat /\ skip_line F l = OutOfFuel \/
  exists b l', skip_line F l = Ok (b, l') /\ view l' = view l /\
     (if b : bool then drop_line cs = nil /\ sees l' nil else later l' (drop_line cs)).
Proof.
  unfold skip_line. revert l cs. induction F as [|n IH]; intros l cs H; [left; split; [lia|reflexivity]|].
  rewrite loopM_S. mgo.
  destruct (Z.eq_dec (aget (InBuf l) (InBufPtr l)) 0) as [Z0|NZ0].
  - rewrite (bind_ok _ _ _ _ _ (rawnext_zero l Z0)). change (0 =? ch_nl) with false.
    cbn [Z.eqb negb]. mgo. cbn [InBufPtr set_CurChar set_InBufPtr].
    rewrite unread_zero.
    destruct (NextChar_spec (set_CurChar 0 l) cs H) as (l' & N & S & V & _).
    mgo. rewrite (bind_ok _ _ _ _ _ N). mgo.
    destruct S as (C & La). rewrite C. destruct cs as [|c cs].
    + cbn. right. exists true, l'. split; [reflexivity|]. split; [exact V|]. split; [reflexivity|].
      split; [exact C|exact La].
    + cbn [hd drop_line tl] in *. destruct (c =? ch_nl).
      { mgo. right. exists false, l'. split; [reflexivity|]. split; [exact V|exact La]. }
      rewrite (proj2 (Z.eqb_neq c 0)) by exact (Forall_inv (later_nz _ _ H)). mgo.
      destruct (IH l' cs La) as [(LF & ->)|(b & l2 & E & V2 & S2)]; [left; split; [cbn [length]; lia|reflexivity]|].
      right. exists b, l2. split; [exact E|]. split; [rewrite V2; exact V|exact S2].
  - destruct cs as [|c cs].
    { destruct H as (bs & S & _ & _ & _ & E & _). destruct bs; [|discriminate]. cbn in S. congruence. }
    destruct (rawnext_some l c cs H NZ0) as (l3 & R3 & C3 & L3 & V3 & _).
    pose proof (later_nz _ _ H) as NZ.
    rewrite (bind_ok _ _ _ _ _ R3). cbn [drop_line].
    destruct (c =? ch_nl).
    { mgo. right. exists false, l3. split; [reflexivity|]. split; [exact V3|exact L3]. }
    rewrite (proj2 (Z.eqb_neq c 0)) by exact (Forall_inv NZ). cbn [negb]. mgo.
    destruct (IH l3 cs L3) as [(LF & ->)|(b & l2 & E & V2 & S2)]; [left; split; [cbn [length]; lia|reflexivity]|].
    right. exists b, l2. split; [exact E|]. split; [rewrite V2; exact V3|exact S2].
Qed.

Lemma skip_comment_spec l cs : sees l cs ->
  (F <= length cs)%nat /\ skip_comment F l = OutOfFuel \/
  match comment_end false cs with
  | None => skip_comment F l = Fatal
  | Some r => exists l', skip_comment F l = Ok (tt, l') /\ later l' r /\ view l' = view l
  end.
Proof.
  unfold skip_comment. generalize false. revert l cs.
  induction F as [|n IH]; intros l cs star H; [left; split; [lia|reflexivity]|].
  rewrite loopM_S. mgo. destruct H as (C & La). rewrite C.
  destruct cs as [|c cs].
  - cbn [comment_end hd tl] in *. change (0 =? ch_slash) with false. cbn [negb]. rewrite orb_true_r.
    change (0 =? ch_nl) with false. cbn [when]. mgo.
    destruct (NextChar_spec l nil La) as (l' & N & S & V & _). rewrite (bind_ok _ _ _ _ _ N). mgo.
    destruct S as (C' & _). rewrite C'. cbn. right. reflexivity.
  - cbn [comment_end hd tl] in *. destruct (star && (c =? ch_slash)) eqn:E.
    + apply andb_true_iff in E. destruct E as [-> E]. rewrite E. cbn [negb orb]. mgo. right. exists l. split; [reflexivity|]. split; [exact La|reflexivity].
    + assert (E' : negb star || negb (c =? ch_slash) = true) by (destruct star, (c =? ch_slash); cbn in *; congruence).
      rewrite E'. mgo.
      assert (exists l1, when (c =? ch_nl) incLine l = Ok (tt, l1) /\ later l1 cs /\ view l1 = view l) as (l1 & E1 & La1 & V1).
      { destruct (c =? ch_nl); eexists; (split; [reflexivity|]); split; auto. }
      rewrite (bind_ok _ _ _ _ _ E1). mgo.
      destruct (NextChar_spec l1 cs La1) as (l' & N & S & V & _). rewrite (bind_ok _ _ _ _ _ N). mgo.
      pose proof (later_nz _ _ La1) as NZ'. destruct S as (C' & La'). rewrite C'. destruct cs as [|d cs].
      * cbn. right. reflexivity.
      * cbn [hd]. rewrite (proj2 (Z.eqb_neq d 0)) by exact (Forall_inv NZ'). cbn [failif]. mgo.
        destruct (IH l' (d :: cs) (c =? ch_star)) as [(LF & ->)|HH].
        { split; [exact C'|exact La']. } { left; split; [cbn [length] in *; lia|reflexivity]. }
        right. destruct (comment_end (c =? ch_star) (d :: cs)); [|exact HH].
        destruct HH as (l2 & E2 & L2 & V2). exists l2. split; [exact E2|]. split; [exact L2|]. congruence.
Qed.
End Fuel.

Theorem SkipWhitespace_spec F l cs : sees l cs -> ends (F <= 2 * length cs + 1)%nat (SkipWhitespace F l) (view l) (skipws cs).
Proof.
  unfold SkipWhitespace. match goal with |- context [loopM F ?b tt] => set (body := b) end.
  enough (G : forall m l cs, sees l cs -> ends (F <= 2 * length cs + 1 \/ m <= length cs)%nat (loopM m body tt l) (view l) (skipws cs)).
  { intro H. destruct (G F l cs H) as [[GF G1]|G1]; [left; split; [lia|exact G1]|right; exact G1]. }
  clear l cs. intro m. unfold ends. induction m as [|n IH]; intros l cs H; [left; split; [lia|reflexivity]|].
  rewrite loopM_S. unfold body at 1 3 5. mgo.
  (* blanks *)
  assert (B : (F <= 2 * length cs + 1)%nat /\ (if CurChar l <=? ch_sp then skip_blanks F else ret false) l = OutOfFuel \/
    exists l', (if CurChar l <=? ch_sp then skip_blanks F else ret false) l = Ok (match drop_blanks cs with nil => true | _ => false end, l') /\
      sees l' (drop_blanks cs) /\ view l' = view l).
  { destruct H as (C & La). rewrite C. destruct cs as [|c cs]; cbn [hd tl] in *.
    - change (0 <=? ch_sp) with true. destruct (skip_blanks_spec F l nil La) as [[LF E]|E]; [left; split; [destruct (_ =? 0) in LF; cbn in *; lia|exact E]|right; exact E].
    - cbn [drop_blanks]. destruct (c <=? ch_sp).
      + destruct (skip_blanks_spec F l cs La) as [[LF E]|E]; [left; split; [destruct (_ =? 0) in LF; cbn [length]; lia|exact E]|right; exact E].
      + right. exists l. split; [reflexivity|]. split; [split; [exact C|exact La]|reflexivity]. }
  destruct B as [[LF B]|(l1 & B & S & V)]; [left; split; [left; exact LF|unfold bind; rewrite B; reflexivity]|].
  pose proof (drop_blanks_len cs) as DL.
  rewrite (bind_ok _ _ _ _ _ B). rewrite skipws_eq. clear H B.
  destruct (drop_blanks cs) as [|c r]. { right. exists l1. split; [reflexivity|]. auto. }
  mgo. destruct S as (C & La). rewrite C. cbn [hd tl] in *.
  (* skipping a line *)
  assert (SL : forall l2 r', later l2 r' -> view l2 = view l -> (S (length r') <= length cs)%nat ->
    let m := (let! r0 := (let! eof := skip_line F in if eof then ret (inr false) else NextChar;; incLine;; ret (inl tt)) in
        match r0 with
        | inl x' => loopM n body x'
        | inr a => ret a end) l2 in
     (F <= 2 * length cs + 1 \/ S n <= length cs)%nat /\ m = OutOfFuel \/ match skipws (drop_line r') with None => m = Fatal | Some (a, cs0) => exists l', m = Ok (a, l') /\ sees l' cs0 /\ view l' = view l end).
  { intros l2 r' L2 V2 LL. cbv zeta. mgo. pose proof (drop_line_len r') as DLL.
    destruct (skip_line_spec F l2 r' L2) as [[LF E]|(b & l3 & E & V3 & HH)]; [left; split; [left; lia|unfold bind; rewrite E; reflexivity]|].
    rewrite (bind_ok _ _ _ _ _ E). destruct b.
    - destruct HH as [-> HH]. mgo. right. exists l3. split; [reflexivity|]. split; [exact HH|congruence].
    - mgo. destruct (NextChar_spec l3 _ HH) as (l4 & N & S4 & V4 & _).
      rewrite (bind_ok _ _ _ _ _ N). mgo.
      specialize (IH (set_Line (Line l4 + 1) l4) (drop_line r') S4).
      change (view (set_Line (Line l4 + 1) l4)) with (view l4) in IH. rewrite V4, V3, V2 in IH.
      destruct IH as [[LF E5]|E5]; [left; split; [lia|exact E5]|right; exact E5]. }
  destruct (Z.ltb_spec ch_slash c) as [Lt|Ge].
  { rewrite (proj2 (Z.eqb_neq c ch_slash)) by lia. rewrite (proj2 (Z.eqb_neq c ch_hash)) by (unfold ch_hash, ch_slash in *; lia).
    mgo. right. exists l1. split; [reflexivity|]. split; [split; [exact C|exact La]|exact V]. }
  destruct (Z.eqb_spec c ch_slash) as [->|N1].
  - mgo. destruct (NextChar_spec l1 r La) as (l2 & N & S & V2 & _).
    rewrite (bind_ok _ _ _ _ _ N). mgo. destruct S as (C2 & La2). rewrite C2.
    destruct r as [|d r]; cbn [hd tl] in *.
    { change (0 =? ch_slash) with false. change (0 =? ch_star) with false. mgo. right. exists l2. split; [reflexivity|].
      split; [split; [exact C2|exact La2]|congruence]. }
    destruct (d =? ch_slash). { apply SL; [exact La2|congruence|cbn [length] in *; lia]. }
    destruct (d =? ch_star).
    + mgo. destruct (NextChar_spec l2 r La2) as (l3 & N3 & S3 & V3 & _).
      rewrite (bind_ok _ _ _ _ _ N3). mgo.
      destruct (skip_comment_spec F l3 r S3) as [[LF E]|E]; [left; split; [cbn [length] in *; lia|unfold bind; rewrite E; reflexivity]|].
      destruct (comment_end false r) as [r''|] eqn:CE; [|right; unfold bind; rewrite E; reflexivity].
      destruct E as (l4 & E & L4 & V4). rewrite (bind_ok _ _ _ _ _ E). mgo.
      destruct (NextChar_spec l4 r'' L4) as (l5 & N5 & S5 & V5 & _). rewrite (bind_ok _ _ _ _ _ N5). mgo.
      specialize (IH l5 r'' S5). rewrite V5, V4, V3, V2, V in IH.
      apply comment_end_len in CE.
      destruct IH as [[LF E6]|E6]; [left; split; [cbn [length] in *; lia|exact E6]|right; exact E6].
    + mgo. right. exists l2. split; [reflexivity|]. split; [split; [exact C2|exact La2]|congruence].
  - destruct (c =? ch_hash). { apply SL; [exact La|exact V|cbn [length] in *; lia]. }
    mgo. right. exists l1. split; [reflexivity|]. split; [split; [exact C|exact La]|exact V].
Qed.
