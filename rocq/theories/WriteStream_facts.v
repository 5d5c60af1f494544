(** The writing side: bytes are kept in order, writing stops, what an error leaves behind. *)
From Verif Require Import Base Base_facts Packets Encoder ReadStream WriteStream Encoder_facts.
Open Scope N_scope.
Ltac Zify.zify_post_hook ::= Z.div_mod_to_equations.

(** [len() <= capacity()] *)
Definition wwf (st : wstream) : Prop := lenN (data (wbuf st)) <= cap (wbuf st).

(** All bytes given to the stream so far: accepted by the socket, then buffered. *)
Definition written (st : wstream) : bytes := accepted (wsk st) ++ data (wbuf st).

Definition prefix (a b : bytes) : Prop := exists t, b = a ++ t.

(** Socket reactions still to come. *)
Definition acts (st : wstream) : list wact := wacts (wsk st).

Definition later {A} (l' l : list A) : Prop := exists h, l = h ++ l'.

Lemma later_refl {A} (l : list A) : later l l.
Proof. now exists []. Qed.

Lemma later_trans {A} (a b c : list A) : later a b -> later b c -> later a c.
Proof. intros [h ->] [h' ->]. exists (h' ++ h). now rewrite app_assoc. Qed.

Lemma write_buf_facts st : wwf st ->
  match write_buf st with
  | WOk st' => wwf st' /\ written st' = written st /\ later (acts st') (acts st)
      /\ prefix (accepted (wsk st)) (accepted (wsk st'))
      /\ cap (wbuf st) - lenN (data (wbuf st)) <= cap (wbuf st') - lenN (data (wbuf st'))
  | WErr st' => wwf st' /\ written st' = written st /\ later (acts st') (acts st) /\ In WFail (acts st)
      /\ prefix (accepted (wsk st)) (accepted (wsk st'))
  | WWait st' => st' = st /\ In WBlock (acts st)
  | WHung | WPanic => False
  end.
Proof.
  intros W. unfold write_buf. unfold wwf, written, acts in *.
  destruct (data (wbuf st)) as [|x xs] eqn:E.
  - rewrite E. repeat split; auto using later_refl; [now exists []; rewrite app_nil_r|lia].
  - set (d := x :: xs) in *.
    assert (HN : forall n, n <= lenN d ->
      (accepted (wsk st) ++ takeN n d) ++ dropN n d = accepted (wsk st) ++ d).
    { intros n _. rewrite <- app_assoc. now rewrite takeN_dropN. }
    destruct (wacts (wsk st)) as [|[n| |] rest] eqn:Ea;
      cbn [wbuf wsk advance data cap accepted wacts]; rewrite ?E, ?Ea.
    + split; [rewrite lenN_dropN; destruct (wreuse (wsk st) && _); lia|]. split; [apply HN; lia|]. split; [apply later_refl|].
      split; [eexists; reflexivity|]. rewrite lenN_dropN. destruct (wreuse (wsk st) && _); lia.
    + split; [rewrite lenN_dropN; destruct (wreuse (wsk st) && _); lia|]. split; [apply HN; lia|]. split; [now exists [WAccept n]|].
      split; [eexists; reflexivity|]. rewrite lenN_dropN. destruct (wreuse (wsk st) && _); lia.
    + repeat split; auto. { now exists [WFail]. } { now left. } { now exists []; rewrite app_nil_r. }
    + split; [reflexivity|now left].
Qed.

Lemma append_facts bs st : wwf st ->
  let st' := append bs st in
  wwf st' /\ data (wbuf st') = data (wbuf st) ++ bs /\ written st' = written st ++ bs /\ acts st' = acts st
  /\ accepted (wsk st') = accepted (wsk st).
Proof.
  intros W. unfold append, wwf, written, acts in *.
  destruct (N.ltb_spec (cap (wbuf st) - lenN (data (wbuf st))) (lenN bs));
    cbn [wbuf wsk data cap accepted wacts]; repeat split;
    rewrite ?lenN_app, ?app_assoc; try reflexivity; lia.
Qed.

Lemma too_small_facts n st : wwf st ->
  match write_buffer_if_too_small n st with
  | WOk st' => wwf st' /\ written st' = written st /\ later (acts st') (acts st)
      /\ prefix (accepted (wsk st)) (accepted (wsk st'))
  | WErr st' => wwf st' /\ written st' = written st /\ later (acts st') (acts st) /\ In WFail (acts st)
      /\ prefix (accepted (wsk st)) (accepted (wsk st'))
  | WWait st' => st' = st /\ In WBlock (acts st)
  | WHung | WPanic => False
  end.
Proof.
  intros W. unfold write_buffer_if_too_small.
  destruct (cap (wbuf st) <=? lenN (data (wbuf st)) + n).
  - pose proof (write_buf_facts st W) as H. destruct (write_buf st); tauto.
  - repeat split; auto using later_refl. now exists []; rewrite app_nil_r.
Qed.

Lemma prefix_trans a b c : prefix a b -> prefix b c -> prefix a c.
Proof. intros [t ->] [t' ->]. exists (t ++ t'). now rewrite app_assoc. Qed.

Lemma prefix_refl a : prefix a a.
Proof. exists []. now rewrite app_nil_r. Qed.

(** Result of a write operation that gives the bytes [bs] to a stream. *)
Definition wpost (st : wstream) (bs : bytes) (r : wout) : Prop :=
  match r with
  | WOk st' => wwf st' /\ written st' = written st ++ bs /\ later (acts st') (acts st)
      /\ prefix (accepted (wsk st)) (accepted (wsk st')) /\ 0 < cap (wbuf st')
  | WErr st' => wwf st' /\ (exists pre, prefix pre bs /\ written st' = written st ++ pre)
      /\ later (acts st') (acts st) /\ In WFail (acts st)
      /\ prefix (accepted (wsk st)) (accepted (wsk st'))
  | WWait st' => wwf st' /\ (exists pre, prefix pre bs /\ written st' = written st ++ pre)
      /\ later (acts st') (acts st) /\ In WBlock (acts st)
      /\ prefix (accepted (wsk st)) (accepted (wsk st'))
  | WHung | WPanic => False
  end.

Lemma pb_loop_facts fuel : forall bs st, wwf st -> 0 < cap (wbuf st) -> (length bs < fuel)%nat ->
  wpost st bs (pb_loop fuel bs st).
Proof.
  induction fuel as [|fuel IH]; intros bs st W Hc Hf; [lia|].
  cbn [pb_loop]. unfold pb_step.
  destruct (N.ltb_spec 0 (lenN bs)) as [Hr|Hr].
  2:{ assert (bs = []) as -> by (apply lenN_0; lia). cbn [wpost].
      rewrite app_nil_r. auto using later_refl, prefix_refl. }
  set (k := if cap (wbuf st) <? lenN bs then cap (wbuf st) else lenN bs).
  assert (Hk : 0 < k /\ k <= lenN bs).
  { unfold k. destruct (N.ltb_spec (cap (wbuf st)) (lenN bs)); lia. }
  clearbody k.
  pose proof (too_small_facts k st W) as HT.
  destruct (write_buffer_if_too_small k st) as [st1|st1|st1| |]; try contradiction.
  - destruct HT as (W1 & Hw1 & Hl1 & Hp1).
    destruct (append_facts (takeN k bs) st1 W1) as (W2 & Hd2 & Hw2 & Ha2 & Hacc2).
    set (st2 := append (takeN k bs) st1) in *.
    assert (Hlt : lenN (takeN k bs) = k) by (rewrite lenN_takeN; lia).
    assert (Hc2 : 0 < cap (wbuf st2)).
    { unfold wwf in W2. rewrite Hd2, lenN_app in W2. lia. }
    assert (Hf2 : (length (dropN k bs) < fuel)%nat).
    { unfold dropN. rewrite skipn_length. unfold lenN in *. lia. }
    specialize (IH (dropN k bs) st2 W2 Hc2 Hf2).
    destruct (pb_loop fuel (dropN k bs) st2) as [st3|st3|st3| |]; cbn [wpost] in *; try contradiction.
    + destruct IH as (W3 & Hw3 & Hl3 & Hp3 & Hc3). split; [exact W3|]. split.
      { rewrite Hw3, Hw2, Hw1, <- app_assoc. f_equal. apply takeN_dropN. }
      split. { eapply later_trans; [exact Hl3|]. rewrite Ha2. exact Hl1. }
      rewrite Hacc2 in Hp3. split; [eapply prefix_trans; eauto|exact Hc3].
    + destruct IH as (W3 & (pre & [t Ht] & Hw3) & Hl3 & HF & Hp3). split; [exact W3|]. split.
      { exists (takeN k bs ++ pre). split.
        - exists t. rewrite <- app_assoc, <- Ht. symmetry. apply takeN_dropN.
        - now rewrite Hw3, Hw2, Hw1, <- app_assoc. }
      split. { eapply later_trans; [exact Hl3|]. rewrite Ha2. exact Hl1. }
      split. { rewrite Ha2 in HF. destruct Hl1 as [h Hh]. rewrite Hh. apply in_or_app. now right. }
      rewrite Hacc2 in Hp3. eapply prefix_trans; eauto.
    + destruct IH as (W3 & (pre & [t Ht] & Hw3) & Hl3 & HF & Hp3). split; [exact W3|]. split.
      { exists (takeN k bs ++ pre). split.
        - exists t. rewrite <- app_assoc, <- Ht. symmetry. apply takeN_dropN.
        - now rewrite Hw3, Hw2, Hw1, <- app_assoc. }
      split. { eapply later_trans; [exact Hl3|]. rewrite Ha2. exact Hl1. }
      split. { rewrite Ha2 in HF. destruct Hl1 as [h Hh]. rewrite Hh. apply in_or_app. now right. }
      rewrite Hacc2 in Hp3. eapply prefix_trans; eauto.
  - destruct HT as (W1 & Hw1 & Hl1 & HF & Hp1). cbn [wpost]. split; [exact W1|]. split.
    { exists []. split; [now exists bs|]. now rewrite app_nil_r. }
    auto.
  - destruct HT as (-> & HF). cbn [wpost]. split; [exact W|]. split.
    { exists []. split; [now exists bs|]. now rewrite app_nil_r. }
    auto using later_refl, prefix_refl.
Qed.

(** One call; [put_bytes] needs a buffer with some capacity. *)
Lemma run_put_facts c st : wwf st -> match c with PutBytes _ => 0 < cap (wbuf st) | _ => True end ->
  wpost st (put_bytes_of c) (run_put c st).
Proof.
  intros W HC.
  assert (HU : forall n bs, bs <> [] ->
    wpost st bs match write_buffer_if_too_small n st with WOk st' => WOk (append bs st') | r => r end).
  { intros n bs Hne. pose proof (too_small_facts n st W) as HT.
    destruct (write_buffer_if_too_small n st) as [st1|st1|st1| |]; try contradiction.
    - destruct HT as (W1 & Hw1 & Hl1 & Hp1).
      destruct (append_facts bs st1 W1) as (W2 & Hd2 & Hw2 & Ha2 & Hacc2).
      cbn [wpost]. split; [exact W2|]. split; [now rewrite Hw2, Hw1|]. rewrite Ha2, Hacc2.
      split; [exact Hl1|]. split; [exact Hp1|].
      unfold wwf in W2. rewrite Hd2, lenN_app in W2. destruct bs; [congruence|]. rewrite lenN_cons in W2. lia.
    - destruct HT as (W1 & Hw1 & Hl1 & HF & Hp1). cbn [wpost]. split; [exact W1|]. split.
      { exists []. split; [now exists bs|]. now rewrite app_nil_r. } auto.
    - destruct HT as (-> & HF). cbn [wpost]. split; [exact W|]. split.
      { exists []. split; [now exists bs|]. now rewrite app_nil_r. } auto using later_refl, prefix_refl. }
  destruct c as [n|n|bs]; cbn [run_put put_bytes_of] in *.
  - now apply HU.
  - now apply HU.
  - apply pb_loop_facts; auto.
Qed.

Lemma wpost_seq st bs1 bs2 st1 r : wpost st bs1 (WOk st1) -> wpost st1 bs2 r -> wpost st (bs1 ++ bs2) r.
Proof.
  intros (W1 & Hw1 & Hl1 & Hp1 & Hc1) HI.
  destruct r as [st2|st2|st2| |]; cbn [wpost] in *; try contradiction.
  - destruct HI as (W2 & Hw2 & Hl2 & Hp2 & Hc2). split; [exact W2|].
    split; [now rewrite Hw2, Hw1, <- app_assoc|].
    split; [eapply later_trans; eauto|]. split; [eapply prefix_trans; eauto|exact Hc2].
  - destruct HI as (W2 & (pre & [t Ht] & Hw2) & Hl2 & HF & Hp2). split; [exact W2|]. split.
    { exists (bs1 ++ pre). split; [exists t; now rewrite <- app_assoc, <- Ht|].
      now rewrite Hw2, Hw1, <- app_assoc. }
    split; [eapply later_trans; eauto|].
    split; [destruct Hl1 as [h Hh]; rewrite Hh; apply in_or_app; now right|eapply prefix_trans; eauto].
  - destruct HI as (W2 & (pre & [t Ht] & Hw2) & Hl2 & HF & Hp2). split; [exact W2|]. split.
    { exists (bs1 ++ pre). split; [exists t; now rewrite <- app_assoc, <- Ht|].
      now rewrite Hw2, Hw1, <- app_assoc. }
    split; [eapply later_trans; eauto|].
    split; [destruct Hl1 as [h Hh]; rewrite Hh; apply in_or_app; now right|eapply prefix_trans; eauto].
Qed.

Lemma wpost_weaken st bs1 bs2 r : wpost st bs1 r -> (forall st', r <> WOk st') -> wpost st (bs1 ++ bs2) r.
Proof.
  intros H HN. destruct r as [st2|st2|st2| |]; cbn [wpost] in *; try contradiction; auto.
  - exfalso. now apply (HN st2).
  - destruct H as (W1 & (pre & [t Ht] & Hw1) & Hr). split; [exact W1|]. split; [|exact Hr].
    exists pre. split; [exists (t ++ bs2); now rewrite Ht, <- app_assoc|exact Hw1].
  - destruct H as (W1 & (pre & [t Ht] & Hw1) & Hr). split; [exact W1|]. split; [|exact Hr].
    exists pre. split; [exists (t ++ bs2); now rewrite Ht, <- app_assoc|exact Hw1].
Qed.

Lemma run_puts_facts cs : forall st, wwf st -> 0 < cap (wbuf st) ->
  wpost st (flat_map put_bytes_of cs) (run_puts cs st).
Proof.
  induction cs as [|c cs IH]; intros st W Hc; cbn [run_puts flat_map].
  - cbn [wpost]. rewrite app_nil_r. auto using later_refl, prefix_refl.
  - assert (HP : wpost st (put_bytes_of c) (run_put c st)) by (apply run_put_facts; [exact W|now destruct c]).
    destruct (run_put c st) as [st1|st1| | |].
    + eapply wpost_seq; [exact HP|]. destruct HP as (W1 & _ & _ & _ & Hc1). now apply IH.
    + eapply wpost_weaken; [exact HP|discriminate].
    + eapply wpost_weaken; [exact HP|discriminate].
    + contradiction.
    + contradiction.
Qed.

Lemma packet_puts_first p cs : packet_puts p = Some cs -> exists n cs', cs = PutU8 n :: cs'.
Proof.
  destruct p; cbn [packet_puts]; intros H; try discriminate H; apply (f_equal (fun o => match o with Some l => l | None => [] end)) in H;
    subst cs; eexists; eexists; reflexivity.
Qed.

(** Result of write_packet: as [wpost], without the capacity, which the final write may take away. *)
Definition wdone (st : wstream) (bs : bytes) (r : wout) : Prop :=
  match r with
  | WOk st' => wwf st' /\ written st' = written st ++ bs /\ later (acts st') (acts st)
      /\ prefix (accepted (wsk st)) (accepted (wsk st'))
  | WErr st' => wwf st' /\ (exists pre, prefix pre bs /\ written st' = written st ++ pre)
      /\ later (acts st') (acts st) /\ In WFail (acts st)
      /\ prefix (accepted (wsk st)) (accepted (wsk st'))
  | WWait st' => wwf st' /\ (exists pre, prefix pre bs /\ written st' = written st ++ pre)
      /\ later (acts st') (acts st) /\ In WBlock (acts st)
      /\ prefix (accepted (wsk st)) (accepted (wsk st'))
  | WHung | WPanic => False
  end.

Theorem write_packet_facts p st bs : wwf st -> encode p = Some bs -> wdone st bs (write_packet p st).
Proof.
  intros W HE. unfold encode in HE. unfold write_packet.
  destruct (packet_puts p) as [cs|] eqn:EP; [|discriminate]. cbn [option_map] in HE. injection HE as <-.
  destruct (packet_puts_first p cs EP) as (n & cs' & ->).
  cbn [run_puts flat_map].
  assert (HP : wpost st (put_bytes_of (PutU8 n)) (run_put (PutU8 n) st)) by (now apply run_put_facts).
  destruct (run_put (PutU8 n) st) as [st1|st1|st1| |]; cbn [wpost] in HP; try contradiction.
  - assert (HQ : wpost st (put_bytes_of (PutU8 n) ++ flat_map put_bytes_of cs') (run_puts cs' st1)).
    { eapply wpost_seq; [exact HP|]. destruct HP as (W1 & _ & _ & _ & Hc1). now apply run_puts_facts. }
    destruct (run_puts cs' st1) as [st2|st2|st2| |]; cbn [wpost] in HQ; try contradiction; auto.
    destruct HQ as (W2 & Hw2 & Hl2 & Hp2 & _). unfold finish_packet.
    pose proof (write_buf_facts st2 W2) as HF.
    destruct (write_buf st2) as [st3|st3|st3| |]; try contradiction; cbn [wdone].
    + destruct HF as (W3 & Hw3 & Hl3 & Hp3 & _). split; [exact W3|]. split; [congruence|].
      split; [eapply later_trans; eauto|eapply prefix_trans; eauto].
    + destruct HF as (W3 & Hw3 & Hl3 & HF & Hp3). split; [exact W3|]. split.
      { eexists. split; [apply prefix_refl|]. congruence. }
      split; [eapply later_trans; eauto|].
      split; [destruct Hl2 as [h Hh]; rewrite Hh; apply in_or_app; now right|eapply prefix_trans; eauto].
    + destruct HF as (-> & HF). split; [exact W2|]. split.
      { eexists. split; [apply prefix_refl|exact Hw2]. }
      split; [exact Hl2|]. split; [destruct Hl2 as [h Hh]; rewrite Hh; apply in_or_app; now right|exact Hp2].
  - destruct HP as (W1 & (pre & [t Ht] & Hw1) & Hr). cbn [wdone]. split; [exact W1|]. split; [|exact Hr].
    exists pre. split; [exists (t ++ flat_map put_bytes_of cs'); now rewrite Ht, <- app_assoc|exact Hw1].
  - destruct HP as (W1 & (pre & [t Ht] & Hw1) & Hr). cbn [wdone]. split; [exact W1|]. split; [|exact Hr].
    exists pre. split; [exists (t ++ flat_map put_bytes_of cs'); now rewrite Ht, <- app_assoc|exact Hw1].
Qed.

(** ** Sequences of packets *)

Lemma write_all_clean ps : forall st, wwf st -> Forall (fun p => encode p <> None) ps ->
  Forall (fun a => exists n, a = WAccept n) (acts st) ->
  exists st', write_all ps st = WOk st' /\ wwf st'
    /\ written st' = written st ++ flat_map (fun p => match encode p with Some bs => bs | None => [] end) ps
    /\ prefix (accepted (wsk st)) (accepted (wsk st')).
Proof.
  induction ps as [|p ps IH]; intros st W HE HA; cbn [write_all flat_map].
  - exists st. rewrite app_nil_r. auto using prefix_refl.
  - inversion HE as [|? ? HE1 HE2]; subst.
    destruct (encode p) as [bs|] eqn:E; [|congruence].
    assert (HN : forall a, In a (acts st) -> a <> WFail /\ a <> WBlock).
    { intros a Ha. rewrite Forall_forall in HA. destruct (HA a Ha) as [n ->]. split; discriminate. }
    pose proof (write_packet_facts p st bs W E) as HP.
    destruct (write_packet p st) as [st1|st1| | |]; cbn [wdone] in HP; try contradiction.
    + destruct HP as (W1 & Hw1 & Hl1 & Hp1).
      assert (HA1 : Forall (fun a => exists n, a = WAccept n) (acts st1)).
      { destruct Hl1 as [h Hh]. rewrite Hh in HA. apply Forall_app in HA. tauto. }
      destruct (IH st1 W1 HE2 HA1) as (st2 & -> & W2 & Hw2 & Hp2).
      exists st2. split; [reflexivity|]. split; [exact W2|].
      split; [now rewrite Hw2, Hw1, <- app_assoc|eapply prefix_trans; eauto].
    + exfalso. destruct HP as (_ & _ & _ & HF & _). apply HN in HF. tauto.
    + exfalso. destruct HP as (_ & _ & _ & HF & _). apply HN in HF. tauto.
Qed.

(** Even with failing writes: each packet contributes a prefix of its encoding, in order. *)
Lemma write_all_prefixes ps : forall st st', wwf st -> Forall (fun p => encode p <> None) ps ->
  write_all ps st = WOk st' ->
  exists pres, Forall2 (fun p pre => exists bs, encode p = Some bs /\ prefix pre bs) ps pres
    /\ written st' = written st ++ concat pres /\ wwf st'
    /\ prefix (accepted (wsk st)) (accepted (wsk st')).
Proof.
  induction ps as [|p ps IH]; intros st st' W HE H; cbn [write_all] in H.
  - injection H as <-. exists []. cbn. rewrite app_nil_r. auto using prefix_refl.
  - inversion HE as [|? ? HE1 HE2]; subst.
    destruct (encode p) as [bs|] eqn:E; [|congruence].
    pose proof (write_packet_facts p st bs W E) as HP.
    destruct (write_packet p st) as [st1|st1| | |]; cbn [wdone] in HP; try contradiction; try discriminate.
    + destruct HP as (W1 & Hw1 & Hl1 & Hp1).
      destruct (IH st1 st' W1 HE2 H) as (pres & HF & Hw2 & W2 & Hp2).
      exists (bs :: pres). split; [constructor; eauto using prefix_refl|].
      cbn [concat]. rewrite Hw2, Hw1, <- app_assoc. split; [reflexivity|]. split; [exact W2|eapply prefix_trans; eauto].
    + destruct HP as (W1 & (pre & Hpre & Hw1) & Hl1 & _ & Hp1).
      destruct (IH st1 st' W1 HE2 H) as (pres & HF & Hw2 & W2 & Hp2).
      exists (pre :: pres). split; [constructor; eauto|].
      cbn [concat]. rewrite Hw2, Hw1, <- app_assoc. split; [reflexivity|]. split; [exact W2|eapply prefix_trans; eauto].
Qed.

(** A socket that never fails: whatever was written is exactly the encodings; if it blocks, the packet
    being written contributes a prefix. *)
Lemma write_all_exact ps : forall st st', wwf st -> Forall (fun p => encode p <> None) ps -> ~ In WFail (acts st) ->
  write_all ps st = WOk st' ->
  wwf st' /\ written st' = written st ++ flat_map (fun p => match encode p with Some bs => bs | None => [] end) ps
  /\ later (acts st') (acts st).
Proof.
  induction ps as [|p ps IH]; intros st st' W HE HA H; cbn [write_all flat_map] in *.
  - injection H as <-. rewrite app_nil_r. auto using later_refl.
  - inversion HE as [|? ? HE1 HE2]; subst.
    destruct (encode p) as [bs|] eqn:E; [|congruence].
    pose proof (write_packet_facts p st bs W E) as HP.
    destruct (write_packet p st) as [st1|st1|st1| |]; cbn [wdone] in HP; try contradiction; try discriminate H.
    + destruct HP as (W1 & Hw1 & Hl1 & Hp1).
      assert (HA1 : ~ In WFail (acts st1)).
      { intros K. apply HA. destruct Hl1 as [h Hh]. rewrite Hh. apply in_or_app. now right. }
      destruct (IH st1 st' W1 HE2 HA1 H) as (W2 & Hw2 & Hl2).
      split; [exact W2|]. split; [now rewrite Hw2, Hw1, <- app_assoc|eapply later_trans; eauto].
    + exfalso. apply HA. apply HP.
Qed.

(** ** What stays behind *)

Lemma write_buf_whole st : acts st = [] -> exists st', write_buf st = WOk st' /\ data (wbuf st') = [] /\ acts st' = [].
Proof.
  unfold acts. intros H. unfold write_buf. destruct (data (wbuf st)) as [|x xs] eqn:E.
  - exists st. auto.
  - rewrite H. eexists. split; [reflexivity|]. cbn [wbuf wsk advance data wacts]. split; [|reflexivity].
    rewrite E. apply lenN_0. rewrite lenN_dropN. lia.
Qed.

Lemma wwf_new n s : wwf (wstream_new n s).
Proof. unfold wwf; cbn. lia. Qed.
