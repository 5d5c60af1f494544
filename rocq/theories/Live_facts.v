(** Every run with clients that decide as they go is a run with clients that decided beforehand. *)
From Verif Require Import Base Base_facts Packets HashMap Messaging Handler Decoder ReadStream ReadStream_facts Plain Plain_facts Conn
  Encoder WriteStream System System_facts Live.
Open Scope N_scope.

(** ** Reading: bytes that come later do not matter *)

Definition later (z : bytes) (e : peer_end) (c : list N) (st : rstream) : rstream :=
  {| rbuf := rbuf st;
     rsk := {| arriving := arriving (rsk st) ++ z; ending := e; chunks := c; grants := grants (rsk st); reuse := reuse (rsk st) |} |}.

Definition may (e : peer_end) (z : bytes) (e' : peer_end) : Prop := e = PeerOpen \/ (z = [] /\ e' = e).

(** [r] is a result on [st]; with the right sizes of reads, [m] has it with more to come. *)
Definition holds {A} (m : rstream -> rout A) (st : rstream) (r : rout A) : Prop :=
  match r with
  | ROk x st' => ending (rsk st') = ending (rsk st)
      /\ exists c1, forall z e c2, may (ending (rsk st)) z e -> m (later z e (c1 ++ c2) st) = ROk x (later z e c2 st')
  | RErr x => exists c1, forall z e c2, may (ending (rsk st)) z e -> m (later z e (c1 ++ c2) st) = RErr x
  | RPanic => exists c1, forall z e c2, may (ending (rsk st)) z e -> m (later z e (c1 ++ c2) st) = RPanic
  | _ => True
  end.

Lemma takeN_le {A} n (a b : list A) : n <= lenN a -> takeN n (a ++ b) = takeN n a.
Proof.
  intros H. unfold takeN, lenN in *. rewrite firstn_app.
  replace (N.to_nat n - length a)%nat with 0%nat by lia. cbn [firstn]. apply app_nil_r.
Qed.

Lemma dropN_le {A} n (a b : list A) : n <= lenN a -> dropN n (a ++ b) = dropN n a ++ b.
Proof.
  intros H. unfold dropN, lenN in *. rewrite skipn_app.
  replace (N.to_nat n - length a)%nat with 0%nat by lia. reflexivity.
Qed.

Lemma grow_later z e c st : grow_if_full (later z e c st) = later z e c (grow_if_full st).
Proof. unfold grow_if_full. cbn [later rbuf]. now destruct (_ =? _). Qed.

Lemma grow_ending st : ending (rsk (grow_if_full st)) = ending (rsk st).
Proof. unfold grow_if_full. now destruct (_ =? _). Qed.

Lemma read_buf_later st : holds read_buf st (read_buf st).
Proof.
  unfold read_buf at 2. destruct (arriving (rsk (grow_if_full st))) as [|b bs] eqn:EA.
  - destruct (ending (rsk (grow_if_full st))) eqn:EE; cbn [holds].
    + exact I.
    + split; [apply grow_ending|]. exists []. intros z e c2 [HM|(-> & ->)]; [rewrite grow_ending in EE; congruence|].
      unfold read_buf. rewrite grow_later. cbn [later rsk arriving ending app]. rewrite EA. cbn [app].
      rewrite grow_ending in EE. rewrite EE. reflexivity.
    + exists []. intros z e c2 [HM|(-> & ->)]; [rewrite grow_ending in EE; congruence|].
      unfold read_buf. rewrite grow_later. cbn [later rsk arriving ending app]. rewrite EA. cbn [app].
      rewrite grow_ending in EE. now rewrite EE.
  - cbn [holds]. split; [cbn [rsk ending]; apply grow_ending|].
    set (st1 := grow_if_full st) in *. set (most := match chunks (rsk st1) with [] => _ | c :: _ => _ end).
    set (n := N.min most _). exists [n]. intros z e c2 _. unfold read_buf. rewrite grow_later. fold st1.
    cbn [later rsk arriving ending rbuf chunks app]. rewrite EA. cbn [app]. rewrite app_comm_cons.
    set (spare := cap (rbuf st1) - lenN (data (rbuf st1))) in *.
    assert (E : N.min (N.max 1 n) (N.min spare (lenN ((b :: bs) ++ z))) = n).
    { rewrite lenN_app. assert (H : n <= spare /\ n <= lenN (b :: bs)) by (unfold n; lia).
      assert (H1 : spare = 0 \/ n <> 0).
      { unfold n, most. rewrite lenN_cons. destruct (chunks (rsk st1)); lia. }
      lia. }
    rewrite E. assert (H : n <= lenN (b :: bs)) by (unfold n; lia). rewrite takeN_le, dropN_le by exact H. reflexivity.
Qed.

Definition ends_ok {A} (m : nat -> rstream -> rout A) (fuel : nat) (st : rstream) (r : rout A) : Prop :=
  match r with
  | ROk x st' => ending (rsk st') = ending (rsk st)
      /\ exists c1, forall f z e c2, (fuel <= f)%nat -> may (ending (rsk st)) z e -> m f (later z e (c1 ++ c2) st) = ROk x (later z e c2 st')
  | RErr x => exists c1, forall f z e c2, (fuel <= f)%nat -> may (ending (rsk st)) z e -> m f (later z e (c1 ++ c2) st) = RErr x
  | RPanic => exists c1, forall f z e c2, (fuel <= f)%nat -> may (ending (rsk st)) z e -> m f (later z e (c1 ++ c2) st) = RPanic
  | _ => True
  end.

Lemma wait_loop_later fuel : forall n st, ends_ok (fun f => wait_for_data_loop f n) fuel st (wait_for_data_loop fuel n st).
Proof.
  induction fuel as [|fuel IH]; intros n st; [exact I|]. cbn [wait_for_data_loop].
  destruct (lenN (data (rbuf st)) <? n) eqn:EL.
  2:{ cbn [ends_ok]. split; [reflexivity|]. exists []. intros [|f] z e c2 Hf _; [lia|]. cbn [wait_for_data_loop later rbuf app]. now rewrite EL. }
  pose proof (read_buf_later st) as HR. destruct (read_buf st) as [k st1|x| | | |] eqn:ER; cbn [holds] in HR.
  - destruct HR as (He & c1 & H1). destruct (k =? 0) eqn:EK.
    + assert (G : forall x, match data (rbuf st1) with [] => RErr ErrClosed | _ :: _ => RErr ErrInterrupted end = @RErr unit x ->
        exists c1, forall f z e c2, (Datatypes.S fuel <= f)%nat -> may (ending (rsk st)) z e -> wait_for_data_loop f n (later z e (c1 ++ c2) st) = RErr x).
      { intros x Ex. exists c1. intros [|f] z e c2 Hf HM; [lia|]. cbn [wait_for_data_loop].
        replace (lenN (data (rbuf (later z e (c1 ++ c2) st))) <? n) with true by (symmetry; exact EL).
        rewrite H1 by exact HM. rewrite EK. cbn [later rbuf]. exact Ex. }
      destruct (data (rbuf st1)); cbn [ends_ok]; now apply G.
    + specialize (IH n st1).
      assert (G : forall f z e c c2, (Datatypes.S fuel <= f)%nat -> may (ending (rsk st)) z e ->
        exists f', (fuel <= f')%nat /\ wait_for_data_loop f n (later z e (c1 ++ c ++ c2) st) = wait_for_data_loop f' n (later z e (c ++ c2) st1)).
      { intros [|f] z e c c2 Hf HM; [lia|]. exists f. split; [lia|]. cbn [wait_for_data_loop].
        replace (lenN (data (rbuf (later z e (c1 ++ c ++ c2) st))) <? n) with true by (symmetry; exact EL).
        rewrite H1 by exact HM. now rewrite EK. }
      destruct (wait_for_data_loop fuel n st1) as [u st2|x| | | |]; cbn [ends_ok] in IH |- *; try exact I.
      * destruct IH as (He2 & c & H2). split; [congruence|]. exists (c1 ++ c). intros f z e c2 Hf HM. rewrite <- app_assoc.
        destruct (G f z e c c2 Hf HM) as (f' & Hf' & ->). apply H2; [exact Hf'|now rewrite He].
      * destruct IH as (c & H2). exists (c1 ++ c). intros f z e c2 Hf HM. rewrite <- app_assoc.
        destruct (G f z e c c2 Hf HM) as (f' & Hf' & ->). apply H2; [exact Hf'|now rewrite He].
      * destruct IH as (c & H2). exists (c1 ++ c). intros f z e c2 Hf HM. rewrite <- app_assoc.
        destruct (G f z e c c2 Hf HM) as (f' & Hf' & ->). apply H2; [exact Hf'|now rewrite He].
  - destruct HR as (c1 & H1). cbn [ends_ok]. exists c1. intros [|f] z e c2 Hf HM; [lia|]. cbn [wait_for_data_loop].
    replace (lenN (data (rbuf (later z e (c1 ++ c2) st))) <? n) with true by (symmetry; exact EL). now rewrite H1.
  - destruct HR as (c1 & H1). cbn [ends_ok]. exists c1. intros [|f] z e c2 Hf HM; [lia|]. cbn [wait_for_data_loop].
    replace (lenN (data (rbuf (later z e (c1 ++ c2) st))) <? n) with true by (symmetry; exact EL). now rewrite H1.
  - exact I.
  - exact I.
  - exact I.
Qed.

Lemma wait_later n st : holds (wait_for_data n) st (wait_for_data n st).
Proof.
  unfold wait_for_data at 2. pose proof (wait_loop_later (Datatypes.S (length (arriving (rsk st)))) n st) as H.
  assert (F : forall z e c, (Datatypes.S (length (arriving (rsk st))) <= Datatypes.S (length (arriving (rsk (later z e c st)))))%nat).
  { intros. cbn [later rsk arriving]. rewrite app_length. lia. }
  destruct (wait_for_data_loop _ n st); cbn [ends_ok holds] in *; try exact I.
  - destruct H as (He & c1 & H). split; [exact He|]. exists c1. intros z e c2 HM. unfold wait_for_data. apply H; auto.
  - destruct H as (c1 & H). exists c1. intros z e0 c2 HM. unfold wait_for_data. apply H; auto.
  - destruct H as (c1 & H). exists c1. intros z e0 c2 HM. unfold wait_for_data. apply H; auto.
Qed.

(** In sequence. *)
Lemma holds_then {A B} (m : rstream -> rout A) (f : A -> rstream -> rout B) (g : rstream -> rout B) st :
  (forall st, g st = match m st with ROk x st' => f x st' | RErr e => RErr e | RPanic => RPanic | RWait => RWait | RHung => RHung | RNoFuel => RNoFuel end) ->
  holds m st (m st) -> (forall x st', m st = ROk x st' -> holds (f x) st' (f x st')) -> holds g st (g st).
Proof.
  intros HG HM HF. rewrite (HG st). destruct (m st) as [x st'|x| | | |]; cbn [holds] in HM; try exact I.
  - destruct HM as (He & c1 & H1). specialize (HF x st' eq_refl). destruct (f x st') as [y st''|y| | | |]; cbn [holds] in *; try exact I.
    + destruct HF as (He2 & c & H2). split; [congruence|]. exists (c1 ++ c). intros z e c2 HM. rewrite HG, <- app_assoc, H1 by exact HM.
      apply H2. now rewrite He.
    + destruct HF as (c & H2). exists (c1 ++ c). intros z e c2 HM. rewrite HG, <- app_assoc, H1 by exact HM. apply H2. now rewrite He.
    + destruct HF as (c & H2). exists (c1 ++ c). intros z e c2 HM. rewrite HG, <- app_assoc, H1 by exact HM. apply H2. now rewrite He.
  - destruct HM as (c1 & H1). cbn [holds]. exists c1. intros z e c2 HM. now rewrite HG, H1.
  - destruct HM as (c1 & H1). cbn [holds]. exists c1. intros z e c2 HM. now rewrite HG, H1.
Qed.

Lemma u8_later st : holds stream_get_u8 st (stream_get_u8 st).
Proof.
  eapply (holds_then (wait_for_data 1) (fun _ st' => match data (rbuf st') with
    | b :: _ => ROk b (set_rbuf (advance (reuse (rsk st')) 1 (rbuf st')) st') | [] => RPanic end)); [reflexivity|apply wait_later|].
  intros x st' _. destruct (data (rbuf st')) as [|b r] eqn:ED; cbn [holds].
  - exists []. intros z e c2 _. cbn [later rbuf]. now rewrite ED.
  - split; [reflexivity|]. exists []. intros z e c2 _. cbn [later rbuf]. rewrite ED. reflexivity.
Qed.

Lemma u16_later st : holds stream_get_u16 st (stream_get_u16 st).
Proof.
  eapply (holds_then (wait_for_data 2) (fun _ st' => match data (rbuf st') with
    | b1 :: b0 :: _ => ROk (b2n b1 * 256 + b2n b0) (set_rbuf (advance (reuse (rsk st')) 2 (rbuf st')) st') | _ => RPanic end));
    [reflexivity|apply wait_later|].
  intros x st' _. destruct (data (rbuf st')) as [|b1 [|b0 r]] eqn:ED; cbn [holds].
  - exists []. intros z e c2 _. cbn [later rbuf]. now rewrite ED.
  - exists []. intros z e c2 _. cbn [later rbuf]. now rewrite ED.
  - split; [reflexivity|]. exists []. intros z e c2 _. cbn [later rbuf]. rewrite ED. reflexivity.
Qed.

Lemma gb_loop_later fuel : forall acc rem st, holds (gb_loop fuel acc rem) st (gb_loop fuel acc rem st).
Proof.
  induction fuel as [|fuel IH]; intros acc rem st; [exact I|].
  destruct (0 <? rem) eqn:E0.
  2:{ cbn [gb_loop]. unfold gb_step. rewrite E0. cbn [holds]. split; [reflexivity|]. now exists []. }
  pose (w := if cap (rbuf st) <? rem then cap (rbuf st) else rem).
  assert (G : forall st0, rbuf st0 = rbuf st -> gb_loop (Datatypes.S fuel) acc rem st0
    = match wait_for_data w st0 with
      | ROk _ st' => gb_loop fuel (acc ++ takeN w (data (rbuf st'))) (rem - w) (set_rbuf (consume w (rbuf st')) st')
      | RErr e => RErr e | RPanic => RPanic | RWait => RWait | RHung => RHung | RNoFuel => RNoFuel end).
  { intros st0 E. cbn [gb_loop]. unfold gb_step. rewrite E0, E. fold w. now destruct (wait_for_data w st0). }
  pose proof (holds_then (wait_for_data w)
    (fun _ st' => gb_loop fuel (acc ++ takeN w (data (rbuf st'))) (rem - w) (set_rbuf (consume w (rbuf st')) st'))
    (fun st0 => match wait_for_data w st0 with
      | ROk _ st' => gb_loop fuel (acc ++ takeN w (data (rbuf st'))) (rem - w) (set_rbuf (consume w (rbuf st')) st')
      | RErr e => RErr e | RPanic => RPanic | RWait => RWait | RHung => RHung | RNoFuel => RNoFuel end) st
    (fun _ => eq_refl) (wait_later w st)) as H.
  assert (K : forall (x : unit) st', wait_for_data w st = ROk x st' ->
    holds (fun st' => gb_loop fuel (acc ++ takeN w (data (rbuf st'))) (rem - w) (set_rbuf (consume w (rbuf st')) st')) st'
      (gb_loop fuel (acc ++ takeN w (data (rbuf st'))) (rem - w) (set_rbuf (consume w (rbuf st')) st'))).
  { intros _ st' _. exact (IH (acc ++ takeN w (data (rbuf st'))) (rem - w) (set_rbuf (consume w (rbuf st')) st')). }
  specialize (H K). cbn beta in H. rewrite <- (G st eq_refl) in H.
  destruct (gb_loop (Datatypes.S fuel) acc rem st) as [y st''|y| | | |]; cbn [holds] in *; try exact I.
  - destruct H as (He & c1 & H). split; [exact He|]. exists c1. intros z e c2 HM. rewrite G by reflexivity. now apply H.
  - destruct H as (c1 & H). exists c1. intros z e c2 HM. rewrite G by reflexivity. now apply H.
  - destruct H as (c1 & H). exists c1. intros z e c2 HM. rewrite G by reflexivity. now apply H.
Qed.

Lemma bytes_later size st : holds (stream_get_bytes size) st (stream_get_bytes size st).
Proof.
  unfold stream_get_bytes. destruct (isize_max <? size); [|apply gb_loop_later].
  cbn [holds]. exists []. reflexivity.
Qed.

Lemma run_later {A} (m : rd A) : forall st, holds (run m) st (run m st).
Proof.
  induction m as [a|e| | |k IH|k IH|size k IH]; intros st.
  - cbn [run holds]. split; [reflexivity|]. now exists [].
  - cbn [run holds]. now exists [].
  - cbn [run holds]. now exists [].
  - exact I.
  - eapply (holds_then stream_get_u8 (fun b st' => run (k b) st')); [intros s0; cbn [run]; now destruct (stream_get_u8 s0)|apply u8_later|intros; apply IH].
  - eapply (holds_then stream_get_u16 (fun b st' => run (k b) st')); [intros s0; cbn [run]; now destruct (stream_get_u16 s0)|apply u16_later|intros; apply IH].
  - eapply (holds_then (stream_get_bytes size) (fun b st' => run (k b) st')); [intros s0; cbn [run]; now destruct (stream_get_bytes size s0)|apply bytes_later|intros; apply IH].
Qed.

Lemma le_run {A} (m m' : rd A) : le_rd m m' -> forall st, run m st <> RNoFuel -> run m' st = run m st.
Proof.
  intros H. induction H; intros st HN; cbn [run] in *; try reflexivity; try congruence.
  - destruct (stream_get_u8 st); auto.
  - destruct (stream_get_u16 st); auto.
  - destruct (stream_get_bytes size st); auto.
Qed.

Theorem read_later dbg st : holds (stream_read_packet dbg) st (stream_read_packet dbg st).
Proof.
  unfold stream_read_packet at 2. set (f := Datatypes.S (length (pending st))).
  assert (F : forall z e c r, run (read_packet f dbg) (later z e c st) = r -> r <> RNoFuel -> stream_read_packet dbg (later z e c st) = r).
  { intros z e c r Hr Hn. unfold stream_read_packet. rewrite <- Hr. apply le_run; [|now rewrite Hr]. apply read_packet_mono.
    unfold f, pending. cbn [later rbuf rsk arriving]. rewrite !app_length. lia. }
  pose proof (run_later (read_packet f dbg) st) as H. destruct (run (read_packet f dbg) st) as [p st'|x| | | |]; cbn [holds] in *; try exact I.
  - destruct H as (He & c1 & H). split; [exact He|]. exists c1. intros z e c2 HM. apply F; [now apply H|discriminate].
  - destruct H as (c1 & H). exists c1. intros z e c2 HM. apply F; [now apply H|discriminate].
  - destruct H as (c1 & H). exists c1. intros z e c2 HM. apply F; [now apply H|discriminate].
Qed.

(** ** Writing *)

Definition wlater (a : list wact) (st : wstream) : wstream :=
  {| wbuf := wbuf st; wsk := {| accepted := accepted (wsk st); wacts := a; wgrants := wgrants (wsk st); wreuse := wreuse (wsk st) |} |}.

Definition from (st : wstream) (a : wact) : Prop := (exists n, a = WAccept n) \/ In a (wacts (wsk st)).

Definition wholds (m : wstream -> wout) (r : wout) (st : wstream) : Prop :=
  match r with
  | WOk st' => incl (wacts (wsk st')) (wacts (wsk st)) /\ exists a1, Forall (from st) a1 /\ forall a2, m (wlater (a1 ++ a2) st) = WOk (wlater a2 st')
  | WErr st' => incl (wacts (wsk st')) (wacts (wsk st)) /\ exists a1, Forall (from st) a1 /\ forall a2, m (wlater (a1 ++ a2) st) = WErr (wlater a2 st')
  | WPanic => exists a1, Forall (from st) a1 /\ forall a2, m (wlater (a1 ++ a2) st) = WPanic
  | _ => True
  end.

Lemma write_buf_later st : wholds write_buf (write_buf st) st.
Proof.
  unfold write_buf at 2. destruct (data (wbuf st)) as [|b bs] eqn:ED.
  - cbn [wholds]. split; [apply incl_refl|]. exists []. split; [constructor|]. intros a2. unfold write_buf. cbn [wlater wbuf app]. now rewrite ED.
  - destruct (wacts (wsk st)) as [|[n| |] rest] eqn:EA; cbn [wholds wsk wacts].
    + split; [rewrite EA; apply incl_refl|]. exists [WAccept (lenN (b :: bs))]. split; [constructor; [left; eauto|constructor]|].
      intros a2. unfold write_buf. cbn [wlater wbuf app wsk wacts]. rewrite ED.
      assert (E : N.min (N.max 1 (lenN (b :: bs))) (lenN (b :: bs)) = lenN (b :: bs)) by (rewrite lenN_cons; lia).
      rewrite E. reflexivity.
    + split; [rewrite EA; apply incl_tl, incl_refl|]. exists [WAccept n]. split; [constructor; [left; eauto|constructor]|].
      intros a2. unfold write_buf. cbn [wlater wbuf app wsk wacts]. rewrite ED. reflexivity.
    + split; [rewrite EA; apply incl_tl, incl_refl|]. exists [WFail]. split; [constructor; [right; rewrite EA; now left|constructor]|].
      intros a2. unfold write_buf. cbn [wlater wbuf app wsk wacts]. rewrite ED. reflexivity.
    + exact I.
Qed.

Lemma append_later bs a st : append bs (wlater a st) = wlater a (append bs st).
Proof. unfold append. cbn [wlater wbuf wsk wgrants]. now destruct (_ <? _). Qed.

Lemma append_acts bs st : wacts (wsk (append bs st)) = wacts (wsk st).
Proof. unfold append. now destruct (_ <? _). Qed.

Lemma from_incl st st' l : incl (wacts (wsk st')) (wacts (wsk st)) -> Forall (from st') l -> Forall (from st) l.
Proof. intros H. apply Forall_impl. intros a [(n & ->)|Ha]; [left; eauto|right; now apply H]. Qed.

Lemma wholds_then (m f g : wstream -> wout) st :
  (forall a, g (wlater a st) = match m (wlater a st) with WOk st' => f st' | r => r end) ->
  g st = match m st with WOk st' => f st' | r => r end ->
  wholds m (m st) st -> (forall st', m st = WOk st' -> wholds f (f st') st') -> wholds g (g st) st.
Proof.
  intros HG HG0 HM HF. rewrite HG0. destruct (m st) as [st'|st'| | |]; cbn [wholds] in HM; try exact I.
  - destruct HM as (HI & a1 & HA & H1). specialize (HF st' eq_refl). destruct (f st') as [st2|st2| | |]; cbn [wholds] in *; try exact I.
    + destruct HF as (HI2 & a & HA2 & H2). split; [eapply incl_tran; eauto|]. exists (a1 ++ a).
      split; [apply Forall_app; split; [exact HA|eapply from_incl; eauto]|]. intros a2. rewrite HG, <- app_assoc, H1. apply H2.
    + destruct HF as (HI2 & a & HA2 & H2). split; [eapply incl_tran; eauto|]. exists (a1 ++ a).
      split; [apply Forall_app; split; [exact HA|eapply from_incl; eauto]|]. intros a2. rewrite HG, <- app_assoc, H1. apply H2.
    + destruct HF as (a & HA2 & H2). exists (a1 ++ a).
      split; [apply Forall_app; split; [exact HA|eapply from_incl; eauto]|]. intros a2. rewrite HG, <- app_assoc, H1. apply H2.
  - destruct HM as (HI & a1 & HA & H1). cbn [wholds]. split; [exact HI|]. exists a1. split; [exact HA|]. intros a2. now rewrite HG, H1.
  - destruct HM as (a1 & HA & H1). cbn [wholds]. exists a1. split; [exact HA|]. intros a2. now rewrite HG, H1.
Qed.

Lemma wholds_eq (m m' : wstream -> wout) st r : (forall a, m' (wlater a st) = m (wlater a st)) -> wholds m r st -> wholds m' r st.
Proof.
  intros E H. destruct r; cbn [wholds] in *; try exact I.
  - destruct H as (HI & a1 & HA & H). split; [exact HI|]. exists a1. split; [exact HA|]. intros. rewrite E. apply H.
  - destruct H as (HI & a1 & HA & H). split; [exact HI|]. exists a1. split; [exact HA|]. intros. rewrite E. apply H.
  - destruct H as (a1 & HA & H). exists a1. split; [exact HA|]. intros. rewrite E. apply H.
Qed.

Lemma wholds_ok st : wholds WOk (WOk st) st.
Proof. cbn [wholds]. split; [apply incl_refl|]. exists []. split; [constructor|reflexivity]. Qed.

Lemma small_later n st : wholds (write_buffer_if_too_small n) (write_buffer_if_too_small n st) st.
Proof.
  unfold write_buffer_if_too_small at 2. destruct (cap (wbuf st) <=? _) eqn:E.
  - apply (wholds_eq write_buf); [|apply write_buf_later]. intros a. unfold write_buffer_if_too_small. cbn [wlater wbuf]. now rewrite E.
  - apply (wholds_eq WOk); [|apply wholds_ok]. intros a. unfold write_buffer_if_too_small. cbn [wlater wbuf]. now rewrite E.
Qed.

Lemma append_then bs (m : wstream -> wout) st : wholds m (m (append bs st)) (append bs st) -> wholds (fun st => m (append bs st)) (m (append bs st)) st.
Proof.
  intros H. apply (wholds_then (fun s => WOk (append bs s)) m (fun s => m (append bs s)) st); [reflexivity|reflexivity| |].
  - cbn [wholds]. split; [rewrite append_acts; apply incl_refl|]. exists []. split; [constructor|]. intros a2. now rewrite append_later.
  - intros st' E. injection E as <-. exact H.
Qed.

Lemma append_holds bs st : wholds (fun st => WOk (append bs st)) (WOk (append bs st)) st.
Proof. apply (append_then bs WOk). apply wholds_ok. Qed.

Lemma pb_loop_later fuel : forall bs st, wholds (pb_loop fuel bs) (pb_loop fuel bs st) st.
Proof.
  induction fuel as [|fuel IH]; intros bs st; [exact I|].
  destruct (0 <? lenN bs) eqn:E0.
  2:{ assert (G : forall s, pb_loop (Datatypes.S fuel) bs s = WOk s) by (intros s; cbn [pb_loop]; unfold pb_step; cbv zeta; now rewrite E0).
      rewrite G. apply (wholds_eq WOk); [intros; apply G|apply wholds_ok]. }
  pose (w := if cap (wbuf st) <? lenN bs then cap (wbuf st) else lenN bs).
  apply (wholds_then (write_buffer_if_too_small w) (fun st' => pb_loop fuel (dropN w bs) (append (takeN w bs) st'))).
  - intros a. cbn [pb_loop]. unfold pb_step. cbv zeta. rewrite E0. cbn [wlater wbuf]. fold w. fold (wlater a st).
    now destruct (write_buffer_if_too_small w (wlater a st)).
  - cbn [pb_loop]. unfold pb_step. cbv zeta. rewrite E0. fold w. now destruct (write_buffer_if_too_small w st).
  - apply small_later.
  - intros st' _. apply (append_then (takeN w bs) (pb_loop fuel (dropN w bs))). apply IH.
Qed.

Lemma run_put_later c st : wholds (run_put c) (run_put c st) st.
Proof.
  destruct c as [x|x|bs].
  - apply (wholds_then (write_buffer_if_too_small 1) (fun st' => WOk (append (put_bytes_of (PutU8 x)) st')));
      [reflexivity|reflexivity|apply small_later|intros; apply append_holds].
  - apply (wholds_then (write_buffer_if_too_small 2) (fun st' => WOk (append (put_bytes_of (PutU16 x)) st')));
      [reflexivity|reflexivity|apply small_later|intros; apply append_holds].
  - apply pb_loop_later.
Qed.

Lemma run_puts_later cs : forall st, wholds (run_puts cs) (run_puts cs st) st.
Proof.
  induction cs as [|c cs IH]; intros st.
  - apply wholds_ok.
  - apply (wholds_then (run_put c) (run_puts cs)); [reflexivity|reflexivity|apply run_put_later|intros; apply IH].
Qed.

Theorem write_later p st : wholds (write_packet p) (write_packet p st) st.
Proof.
  destruct (packet_puts p) as [cs|] eqn:E.
  2:{ assert (G : forall s, write_packet p s = WPanic) by (intros s; unfold write_packet; now rewrite E).
      rewrite G. cbn [wholds]. exists []. split; [constructor|]. intros. apply G. }
  apply (wholds_then (run_puts cs) finish_packet (write_packet p));
    [intros a; unfold write_packet; now rewrite E|unfold write_packet; now rewrite E|apply run_puts_later|intros; apply write_buf_later].
Qed.

(** ** The whole broker *)

(** What a peer will do from now on: bytes it will send, how it will end, sizes of the coming reads, reactions to
    writes. *)
Record fate := { f_bytes : bytes; f_end : peer_end; f_chunks : list N; f_acts : list wact }.

(** Records that no task looks at. *)
Record extra := { x_chunks : list N; x_acts : list wact; x_closed : list wact }.

Definition ext_reader (z : fate) (r : reader) : reader :=
  match r with
  | RFirst st => RFirst (later (f_bytes z) (f_end z) (f_chunks z) st)
  | RPush e cid st => RPush e cid (later (f_bytes z) (f_end z) (f_chunks z) st)
  | RLoop cid st => RLoop cid (later (f_bytes z) (f_end z) (f_chunks z) st)
  | RDone => RDone
  end.

Definition ext_writer (z : fate) (x : extra) (w : writer) : writer :=
  match w with
  | WIdle st => WIdle (wlater (f_acts z) st)
  | WBusy p st => WBusy p (wlater (f_acts z) st)
  | WClosed st => WClosed (wlater (x_closed x) st)
  end.

Definition ext (z : fate) (x : extra) (c : cstate) : cstate :=
  {| c_addr := c_addr c;
     c_rsock := {| arriving := arriving (c_rsock c) ++ f_bytes z; ending := f_end z; chunks := x_chunks x;
                   grants := grants (c_rsock c); reuse := reuse (c_rsock c) |};
     c_wsock := {| accepted := accepted (c_wsock c); wacts := x_acts x; wgrants := wgrants (c_wsock c); wreuse := wreuse (c_wsock c) |};
     c_reader := ext_reader z (c_reader c); c_read := c_read c; c_queue := c_queue c;
     c_writer := ext_writer z x (c_writer c); c_sent := c_sent c |}.

Fixpoint mapi {A B} (f : nat -> A -> B) (i : nat) (l : list A) : list B :=
  match l with [] => [] | a :: l' => f i a :: mapi f (Datatypes.S i) l' end.

Definition ext_conns (z : nat -> fate) (x : nat -> extra) (cs : list cstate) : list cstate := mapi (fun k => ext (z k) (x k)) 0 cs.

Definition ext_sys (z : nat -> fate) (x : nat -> extra) (s : sys) : sys := set_conns (ext_conns z x (conns s)) s.

Lemma mapi_nth {A B} (f : nat -> A -> B) l : forall i k, nth_error (mapi f i l) k = option_map (f (i + k)%nat) (nth_error l k).
Proof.
  induction l as [|a l IH]; intros i [|k]; cbn [mapi nth_error option_map]; try reflexivity.
  - now rewrite Nat.add_0_r.
  - rewrite IH. now replace (Datatypes.S i + k)%nat with (i + Datatypes.S k)%nat by lia.
Qed.

Lemma ext_nth z x cs k : nth_error (ext_conns z x cs) k = option_map (ext (z k) (x k)) (nth_error cs k).
Proof. unfold ext_conns. now rewrite mapi_nth. Qed.

Lemma list_ext {A} : forall (a b : list A), (forall k, nth_error a k = nth_error b k) -> a = b.
Proof.
  induction a as [|x a IH]; intros [|y b] H; [reflexivity|specialize (H O); discriminate|specialize (H O); discriminate|].
  pose proof (H O) as H0. cbn [nth_error] in H0. injection H0 as ->. f_equal. apply IH. intros k. exact (H (Datatypes.S k)).
Qed.

Lemma nth_update_any {A} (l : list A) : forall k x j, nth_error (update k x l) j
  = if Nat.eqb j k then option_map (fun _ => x) (nth_error l j) else nth_error l j.
Proof.
  induction l as [|y l IH]; intros [|k] x [|j]; cbn [update nth_error Nat.eqb option_map]; try reflexivity.
  - now destruct (Nat.eqb j k).
  - apply IH.
Qed.

Definition but (k : nat) (z z1 : nat -> fate) (x x1 : nat -> extra) : Prop := forall j, j <> k -> z j = z1 j /\ x j = x1 j.

Lemma ext_put z z1 x x1 k c1 s : but k z z1 x x1 ->
  set_conn k (ext (z1 k) (x1 k) c1) (ext_sys z x s) = ext_sys z1 x1 (set_conn k c1 s).
Proof.
  intros H. unfold set_conn, ext_sys, set_conns. cbn [conns events hdl svc service_running listeners ctrl_c main handled log]. f_equal.
  apply list_ext. intros j. rewrite nth_update_any, !ext_nth, nth_update_any.
  destruct (Nat.eqb j k) eqn:E.
  - apply Nat.eqb_eq in E as ->. now destruct (nth_error (conns s) k).
  - apply Nat.eqb_neq in E. destruct (H j E) as (-> & ->). reflexivity.
Qed.

Lemma ext_keep z z1 x x1 k c c1 s : but k z z1 x x1 -> nth_error (conns s) k = Some c -> ext (z k) (x k) c = ext (z1 k) (x1 k) c1 ->
  ext_sys z x s = ext_sys z1 x1 (set_conn k c1 s).
Proof.
  intros H EC E. rewrite <- (ext_put z z1 x x1 k c1 s H), <- E. unfold set_conn, ext_sys, set_conns.
  cbn [conns events hdl svc service_running listeners ctrl_c main handled log]. f_equal.
  apply list_ext. intros j. rewrite nth_update_any, ext_nth. destruct (Nat.eqb j k) eqn:EJ; [|reflexivity].
  apply Nat.eqb_eq in EJ as ->. now rewrite EC.
Qed.

Lemma mapi_length {A B} (f : nat -> A -> B) l : forall i, length (mapi f i l) = length l.
Proof. induction l as [|a l IH]; intros i; cbn [mapi length]; [reflexivity|]. now rewrite IH. Qed.

Lemma ext_accept z x v s c :
  set_conns (conns (ext_sys z x s) ++ [ext (z (length (conns s))) v c]) (ext_sys z x s)
  = ext_sys z (fun j => if Nat.eqb j (length (conns s)) then v else x j) (set_conns (conns s ++ [c]) s).
Proof.
  unfold ext_sys, set_conns. cbn [conns events hdl svc service_running listeners ctrl_c main handled log]. f_equal.
  apply list_ext. intros j. rewrite nth_error_snoc, !ext_nth, nth_error_snoc.
  unfold ext_conns. rewrite mapi_length. destruct (Nat.eqb j (length (conns s))) eqn:E; [|reflexivity].
  apply Nat.eqb_eq in E as ->. reflexivity.
Qed.

(** Reader and record agree on how the peer ended. *)
Definition agree (c : cstate) : Prop :=
  match c_reader c with
  | RFirst st | RPush _ _ st | RLoop _ st => ending (rsk st) = ending (c_rsock c)
  | RDone => True
  end
  /\ match c_writer c with WIdle st | WBusy _ st => incl (wacts (wsk st)) (wacts (c_wsock c)) | WClosed _ => True end.

Definition all_agree (s : sys) : Prop := forall k c, nth_error (conns s) k = Some c -> agree c.

Definition allowed (s : sys) (z : nat -> fate) : Prop :=
  forall k c, nth_error (conns s) k = Some c -> may (ending (c_rsock c)) (f_bytes (z k)) (f_end (z k)).

(** Reactions of its own, of those so far, or to come. *)
Definition known (c : cstate) (z : fate) (a : wact) : Prop := (exists n, a = WAccept n) \/ In a (wacts (c_wsock c)) \/ In a (f_acts z).

Definition all_known (s : sys) (z : nat -> fate) (x : nat -> extra) : Prop :=
  forall k c, nth_error (conns s) k = Some c -> Forall (known c (z k)) (x_acts (x k)).

(** Whatever the peers will do from here on, a run of [System.v] in which they decided so beforehand has come here. *)
Definition foreseen (auth : bytes -> bytes -> bool) (dbg : bool) (n : nat) (s : sys) : Prop :=
  all_agree s /\ forall z, allowed s z -> exists x, all_known s z x /\ reachable auth dbg n (ext_sys z x s).

Definition at_k {A} (k : nat) (v : A) (f : nat -> A) : nat -> A := fun j => if Nat.eqb j k then v else f j.

Lemma at_k_same {A} k (v : A) f : at_k k v f k = v.
Proof. unfold at_k. now rewrite Nat.eqb_refl. Qed.

Lemma at_k_other {A} k (v : A) f j : j <> k -> at_k k v f j = f j.
Proof. intros H. unfold at_k. now rewrite (proj2 (Nat.eqb_neq j k) H). Qed.

Lemma known_self c z : Forall (known c z) (f_acts z).
Proof. apply Forall_forall. intros a Ha. right. now right. Qed.

Lemma known_then c c1 zk z1 l : c_wsock c1 = c_wsock c -> Forall (known c zk) l -> Forall (known c z1) (f_acts zk) -> Forall (known c1 z1) l.
Proof.
  intros E H1 H2. rewrite Forall_forall in *. intros a Ha. unfold known. rewrite E. destruct (H1 a Ha) as [K|[K|K]]; auto. exact (H2 a K).
Qed.

Lemma known_update s k c c1 zk z1 x x1 : nth_error (conns s) k = Some c -> c_wsock c1 = c_wsock c -> Forall (known c (z1 k)) (f_acts zk) ->
  x_acts x1 = x_acts (x k) -> all_known s (at_k k zk z1) x -> all_known (set_conn k c1 s) z1 (at_k k x1 x).
Proof.
  intros EC EW HZ EX H j cj Hj. unfold set_conn, set_conns in Hj. cbn [conns] in Hj. rewrite nth_update_any in Hj.
  destruct (Nat.eqb j k) eqn:E.
  - apply Nat.eqb_eq in E as ->. rewrite EC in Hj. injection Hj as <-. rewrite at_k_same, EX.
    specialize (H k c EC). rewrite at_k_same in H. eapply known_then; eauto.
  - apply Nat.eqb_neq in E. specialize (H j cj Hj). rewrite at_k_other in H by exact E. now rewrite at_k_other.
Qed.

Lemma agree_update s k c c1 : all_agree s -> nth_error (conns s) k = Some c -> agree c1 -> all_agree (set_conn k c1 s).
Proof.
  intros HA EC H1 j cj Hj. unfold set_conn, set_conns in Hj. cbn [conns] in Hj. rewrite nth_update_any in Hj.
  destruct (Nat.eqb j k); [destruct (nth_error (conns s) j); [now injection Hj as <-|discriminate]|now apply (HA j)].
Qed.

(** A step of connection [k] in which its peer behaves as [zk] in place of [z1 k]. *)
Lemma foreseen_conn auth dbg n s k c c1 l :
  foreseen auth dbg n s -> nth_error (conns s) k = Some c -> agree c1 -> c_rsock c1 = c_rsock c -> c_wsock c1 = c_wsock c ->
  (forall z1, exists zk, f_bytes zk = f_bytes z1 /\ f_end zk = f_end z1 /\ Forall (known c z1) (f_acts zk) /\
     forall x, exists x1, x_acts x1 = x_acts x /\ (may (ending (c_rsock c)) (f_bytes z1) (f_end z1) -> forall S', nth_error (conns S') k = Some (ext zk x c) ->
       events S' = events s -> hdl S' = hdl s -> svc S' = svc s -> service_running S' = service_running s -> running S' = true ->
       step auth dbg S' l = Some (set_conn k (ext z1 x1 c1) S'))) ->
  running s = true ->
  foreseen auth dbg n (set_conn k c1 s).
Proof.
  intros (HA & HP) EC HA1 HE HW HS HR. split; [now apply (agree_update s k c)|].
  intros z1 HZ1. destruct (HS (z1 k)) as (zk & EB & EE & HK & HX).
  assert (HM : may (ending (c_rsock c)) (f_bytes (z1 k)) (f_end (z1 k))).
  { rewrite <- HE. apply (HZ1 k). unfold set_conn, set_conns. cbn [conns]. rewrite nth_update_any, Nat.eqb_refl, EC. reflexivity. }
  destruct (HP (at_k k zk z1)) as (x & HAK & HRS).
  { intros j cj Hj. destruct (Nat.eq_dec j k) as [->|Hne].
    - rewrite at_k_same, EB, EE. rewrite EC in Hj. injection Hj as <-. exact HM.
    - rewrite at_k_other by exact Hne. apply HZ1. unfold set_conn, set_conns. cbn [conns]. rewrite nth_update_any.
      now rewrite (proj2 (Nat.eqb_neq j k) Hne). }
  destruct (HX (x k)) as (x1 & EX & Hstep). exists (at_k k x1 x). split; [eapply known_update; eauto|].
  assert (E : set_conn k (ext (z1 k) (at_k k x1 x k) c1) (ext_sys (at_k k zk z1) x s) = ext_sys z1 (at_k k x1 x) (set_conn k c1 s)).
  { apply ext_put. intros j Hj. now rewrite !at_k_other. }
  rewrite <- E. eapply reachable_step; [exact HRS|]. rewrite at_k_same. apply (Hstep HM); try reflexivity; [|exact HR].
  unfold ext_sys, set_conns. cbn [conns]. rewrite ext_nth, EC. cbn [option_map]. now rewrite at_k_same.
Qed.

Lemma foreseen_same auth dbg n s s' l :
  foreseen auth dbg n s -> all_agree s' -> (forall z, allowed s' z -> allowed s z) -> (forall z x, all_known s z x -> all_known s' z x) ->
  (forall z x, step auth dbg (ext_sys z x s) l = Some (ext_sys z x s')) -> foreseen auth dbg n s'.
Proof.
  intros (HA & HP) HA' HZ HK HS. split; [exact HA'|]. intros z Hz. destruct (HP z (HZ z Hz)) as (x & Hx1 & Hx2). exists x.
  split; [now apply HK|]. eapply reachable_step; [exact Hx2|apply HS].
Qed.

Lemma known_put s k c c1 z x : nth_error (conns s) k = Some c -> c_wsock c1 = c_wsock c -> all_known s z x -> all_known (set_conn k c1 s) z x.
Proof.
  intros EC E H j cj Hj. unfold set_conn, set_conns in Hj. cbn [conns] in Hj. rewrite nth_update_any in Hj.
  destruct (Nat.eqb j k) eqn:EJ; [|now apply H]. apply Nat.eqb_eq in EJ as ->. rewrite EC in Hj. injection Hj as <-.
  specialize (H k c EC). unfold known. rewrite E. exact H.
Qed.

Lemma allowed_update s k c c1 z : nth_error (conns s) k = Some c -> c_rsock c1 = c_rsock c -> allowed (set_conn k c1 s) z -> allowed s z.
Proof.
  intros EC E H j cj Hj. destruct (Nat.eq_dec j k) as [->|Hne].
  - rewrite EC in Hj. injection Hj as <-. rewrite <- E. apply H. unfold set_conn, set_conns. cbn [conns].
    now rewrite nth_update_any, Nat.eqb_refl, EC.
  - apply H. unfold set_conn, set_conns. cbn [conns]. rewrite nth_update_any. now rewrite (proj2 (Nat.eqb_neq j k) Hne).
Qed.

Lemma ext_id z x s : forall k c, nth_error (conns s) k = Some c -> nth_error (conns (ext_sys z x s)) k = Some (ext (z k) (x k) c).
Proof. intros k c H. unfold ext_sys, set_conns. cbn [conns]. now rewrite ext_nth, H. Qed.

Lemma ext_put_same z x k c1 s : set_conn k (ext (z k) (x k) c1) (ext_sys z x s) = ext_sys z x (set_conn k c1 s).
Proof. apply ext_put. intros j _. split; reflexivity. Qed.

(** The read task *)
Ltac read_case HL HA ER c1 := intros z1; exists {| f_bytes := f_bytes z1; f_end := f_end z1; f_chunks := c1 ++ f_chunks z1; f_acts := f_acts z1 |};
  split; [reflexivity|]; split; [reflexivity|]; split; [exact (known_self _ z1)|]; intros x; exists x; split; [reflexivity|];
  intros HM S' EC' _ _ _ _ HR'; unfold step; rewrite HR'; unfold step_reader; rewrite EC';
  unfold ext at 1; cbn [c_reader]; rewrite ER; cbn [ext_reader f_bytes f_end f_chunks]; rewrite HL by (rewrite HA; exact HM); reflexivity.

Lemma foreseen_reader auth dbg n s k uuid s' :
  foreseen auth dbg n s -> running s = true -> step_reader dbg s k uuid = Some s' -> foreseen auth dbg n s'.
Proof.
  intros HF HR HS. unfold step_reader in HS. destruct (nth_error (conns s) k) as [c|] eqn:EC; [|discriminate].
  pose proof (proj1 HF k c EC) as (HA & HB).
  assert (READ : forall c1, agree c1 -> c_rsock c1 = c_rsock c -> c_wsock c1 = c_wsock c ->
    (forall z1, exists zk, f_bytes zk = f_bytes z1 /\ f_end zk = f_end z1 /\ Forall (known c z1) (f_acts zk) /\
     forall x, exists x1, x_acts x1 = x_acts x /\ (may (ending (c_rsock c)) (f_bytes z1) (f_end z1) -> forall S', nth_error (conns S') k = Some (ext zk x c) ->
       events S' = events s -> hdl S' = hdl s -> svc S' = svc s -> service_running S' = service_running s -> running S' = true ->
       step auth dbg S' (LReader k uuid) = Some (set_conn k (ext z1 x1 c1) S'))) -> foreseen auth dbg n (set_conn k c1 s)).
  { intros c1 H1 H2 H3 H4. now apply (foreseen_conn auth dbg n s k c c1 (LReader k uuid)). }
  destruct (c_reader c) as [st|e cid st|cid st|] eqn:ER; [| | |discriminate].
  - pose proof (read_later dbg st) as HL. destruct (stream_read_packet dbg st) as [p st'|e| | | |] eqn:EP; cbn [holds] in HL; try discriminate.
    + destruct HL as (He & c1 & HL). destruct p; injection HS as <-;
        (apply READ; [split; [try exact I; cbn [set_reader set_read c_reader c_rsock]; congruence|exact HB]|reflexivity|reflexivity|read_case HL HA ER c1]).
    + destruct HL as (c1 & HL). injection HS as <-. apply READ; [split; [exact I|exact HB]|reflexivity|reflexivity|read_case HL HA ER c1].
    + destruct HL as (c1 & HL). injection HS as <-. apply READ; [split; [exact I|exact HB]|reflexivity|reflexivity|read_case HL HA ER c1].
  - assert (PUSH : forall s1, (s1 = set_events (events s ++ [e]) (set_conn k (set_reader (RLoop cid st) c) s) \/ s1 = set_conn k (set_reader (RLoop cid st) c) s) ->
      (forall z x, step_reader dbg (ext_sys z x s) k uuid = Some (ext_sys z x s1)) -> foreseen auth dbg n s1).
    { intros s1 E H. assert (EC1 : conns s1 = conns (set_conn k (set_reader (RLoop cid st) c) s)) by (destruct E as [-> | ->]; reflexivity).
      apply (foreseen_same auth dbg n s s1 (LReader k uuid) HF).
      - intros j cj Hj. rewrite EC1 in Hj. revert Hj. apply (agree_update s k c); [apply HF|exact EC|split; [exact HA|exact HB]].
      - intros z Hz. apply (allowed_update s k c (set_reader (RLoop cid st) c) z EC eq_refl). intros j cj Hj. apply Hz. now rewrite EC1.
      - intros z x Hz j cj Hj. rewrite EC1 in Hj. revert j cj Hj. exact (known_put s k c (set_reader (RLoop cid st) c) z x EC eq_refl Hz).
      - intros z x. unfold step. replace (running (ext_sys z x s)) with true. apply H. }
    destruct (handler_alive (hdl s)) eqn:EH.
    + destruct (Nat.ltb (length (events s)) channel_size) eqn:EL; [|discriminate]. injection HS as <-. apply PUSH; [now left|].
      intros z x. unfold step_reader.
      rewrite (ext_id z x s k c EC). unfold ext at 1. cbn [c_reader]. rewrite ER. cbn [ext_reader].
      replace (handler_alive (hdl (ext_sys z x s))) with true. cbn [ext_sys set_conns events]. rewrite EL. f_equal.
      pose proof (ext_put_same z x k (set_reader (RLoop cid st) c) s) as E.
      change (ext_sys z x (set_events (events s ++ [e]) (set_conn k (set_reader (RLoop cid st) c) s)))
        with (set_events (events s ++ [e]) (ext_sys z x (set_conn k (set_reader (RLoop cid st) c) s))).
      rewrite <- E. reflexivity.
    + injection HS as <-. apply PUSH; [now right|].
      intros z x. unfold step_reader. rewrite (ext_id z x s k c EC). unfold ext at 1. cbn [c_reader]. rewrite ER. cbn [ext_reader].
      replace (handler_alive (hdl (ext_sys z x s))) with false. f_equal.
      rewrite <- ext_put_same. reflexivity.
  - pose proof (read_later dbg st) as HL. destruct (stream_read_packet dbg st) as [p st'|e| | | |] eqn:EP; cbn [holds] in HL; try discriminate.
    + destruct HL as (He & c1 & HL). injection HS as <-.
      apply READ; [split; [cbn [set_reader set_read c_reader c_rsock]; congruence|exact HB]|reflexivity|reflexivity|read_case HL HA ER c1].
    + destruct HL as (c1 & HL). injection HS as <-. apply READ; [split; [exact I|exact HB]|reflexivity|reflexivity|read_case HL HA ER c1].
    + destruct HL as (c1 & HL). injection HS as <-. apply READ; [split; [exact I|exact HB]|reflexivity|reflexivity|read_case HL HA ER c1].
Qed.

(** The write task *)
Ltac write_case HL HF1 EW a1 xc := intros z1; exists {| f_bytes := f_bytes z1; f_end := f_end z1; f_chunks := f_chunks z1; f_acts := a1 ++ f_acts z1 |};
  split; [reflexivity|]; split; [reflexivity|]; split; [apply Forall_app; split; [apply HF1|exact (known_self _ z1)]|];
  intros x; exists {| x_chunks := x_chunks x; x_acts := x_acts x; x_closed := xc x z1 |}; split; [reflexivity|];
  intros HM S' EC' _ _ _ _ HR'; unfold step; rewrite HR'; unfold step_writer; rewrite EC';
  unfold ext at 1; cbn [c_writer]; rewrite EW; cbn [ext_writer f_acts]; rewrite HL; reflexivity.

Lemma foreseen_writer auth dbg n s k s' :
  foreseen auth dbg n s -> running s = true -> step_writer s k = Some s' -> foreseen auth dbg n s'.
Proof.
  intros HF HR HS. unfold step_writer in HS. destruct (nth_error (conns s) k) as [c|] eqn:EC; [|discriminate].
  pose proof (proj1 HF k c EC) as (HA & HB).
  assert (SAME : forall c1, agree c1 -> c_rsock c1 = c_rsock c -> c_wsock c1 = c_wsock c ->
    (forall z1 x, exists x1, x_acts x1 = x_acts x /\ forall S', nth_error (conns S') k = Some (ext z1 x c) ->
       events S' = events s -> hdl S' = hdl s -> svc S' = svc s -> service_running S' = service_running s ->
       step_writer S' k = Some (set_conn k (ext z1 x1 c1) S')) -> foreseen auth dbg n (set_conn k c1 s)).
  { intros c1 H1 H2 H2' H3. apply (foreseen_conn auth dbg n s k c _ (LWriter k) HF EC H1 H2 H2'); [|exact HR].
    intros z1. exists z1. split; [reflexivity|]. split; [reflexivity|]. split; [apply known_self|]. intros x. destruct (H3 z1 x) as (x1 & EX & H). exists x1.
    split; [exact EX|]. intros _ S' E1 E2 E3 E4 E5 HR'. unfold step. rewrite HR'. now apply H. }
  destruct (c_writer c) as [st|p st|st] eqn:EW; [| |discriminate].
  - destruct (c_queue c) as [|[f [p|]] q] eqn:EQ.
    + destruct (has_sender s k c) eqn:EH; [discriminate|]. injection HS as <-. apply SAME; [split; [exact HA|exact I]|reflexivity|reflexivity|].
      intros z x. exists {| x_chunks := x_chunks x; x_acts := x_acts x; x_closed := f_acts z |}. split; [reflexivity|].
      intros S' EC' E1 E2 E3 E4. unfold step_writer. rewrite EC'. unfold ext at 1. cbn [c_writer]. rewrite EW. cbn [ext_writer].
      unfold ext at 1. cbn [c_queue]. rewrite EQ.
      assert (EH' : has_sender S' k (ext z x c) = false).
      { rewrite <- EH. unfold has_sender. rewrite E1, E2, E3, E4. unfold ext. cbn [c_reader]. now destruct (c_reader c). }
      rewrite EH'. unfold set_writer, ext. cbn [c_addr c_rsock c_wsock c_reader c_read c_queue c_writer c_sent ext_writer x_closed x_chunks x_acts].
      rewrite EQ. reflexivity.
    + injection HS as <-. apply SAME; [split; [exact HA|exact HB]|reflexivity|reflexivity|].
      intros z x. exists x. split; [reflexivity|]. intros S' EC' E1 E2 E3 E4. unfold step_writer. rewrite EC'. unfold ext at 1. cbn [c_writer]. rewrite EW. cbn [ext_writer].
      unfold ext at 1. cbn [c_queue]. rewrite EQ. reflexivity.
    + injection HS as <-. apply SAME; [split; [exact HA|exact I]|reflexivity|reflexivity|].
      intros z x. exists {| x_chunks := x_chunks x; x_acts := x_acts x; x_closed := f_acts z |}. split; [reflexivity|].
      intros S' EC' E1 E2 E3 E4. unfold step_writer. rewrite EC'. unfold ext at 1. cbn [c_writer]. rewrite EW. cbn [ext_writer].
      unfold ext at 1. cbn [c_queue]. rewrite EQ. reflexivity.
  - pose proof (write_later p st) as HL.
    assert (FROM : forall z1 a1, Forall (from st) a1 -> Forall (known c z1) a1).
    { intros z1 a1. apply Forall_impl. intros a [(m & ->)|Ha]; [left; eauto|right; left; now apply HB]. }
    destruct (write_packet p st) as [st'|st'|w| |]; cbn [wholds] in HL; try discriminate; injection HS as <-.
    + destruct HL as (HI & a1 & HF1 & HL). apply (foreseen_conn auth dbg n s k c _ (LWriter k) HF EC);
        [split; [exact HA|exact (incl_tran HI HB)]|reflexivity|reflexivity|pose proof (fun z => FROM z a1 HF1) as HK; write_case HL HK EW a1 (fun (x : extra) (_ : fate) => x_closed x)|exact HR].
    + destruct HL as (HI & a1 & HF1 & HL). apply (foreseen_conn auth dbg n s k c _ (LWriter k) HF EC);
        [split; [exact HA|exact (incl_tran HI HB)]|reflexivity|reflexivity|pose proof (fun z => FROM z a1 HF1) as HK; write_case HL HK EW a1 (fun (x : extra) (_ : fate) => x_closed x)|exact HR].
    + destruct HL as (a1 & HF1 & HL). apply (foreseen_conn auth dbg n s k c _ (LWriter k) HF EC);
        [split; [exact HA|exact I]|reflexivity|reflexivity|pose proof (fun z => FROM z a1 HF1) as HK; write_case HL HK EW a1 (fun (_ : extra) (z : fate) => a1 ++ f_acts z)|exact HR].
Qed.

(** The handler *)
Lemma foreseen_handler auth dbg n s now s' :
  foreseen auth dbg n s -> running s = true -> step_handler auth s now = Some s' -> foreseen auth dbg n s'.
Proof.
  intros HF HR HS.
  assert (QUIET : conns s' = conns s -> (forall z x, step_handler auth (ext_sys z x s) now = Some (ext_sys z x s')) -> foreseen auth dbg n s').
  { intros E H. apply (foreseen_same auth dbg n s s' (LHandler now) HF).
    - intros k c Hk. rewrite E in Hk. exact (proj1 HF k c Hk).
    - intros z Hz k c Hk. apply Hz. now rewrite E.
    - intros z x Hz k c Hk. rewrite E in Hk. exact (Hz k c Hk).
    - intros z x. unfold step. replace (running (ext_sys z x s)) with true. apply H. }
  unfold step_handler in HS. destruct (hdl s) as [|tx p| |] eqn:EH; try discriminate.
  - destruct (events s) as [|e es] eqn:EE; [discriminate|]. injection HS as <-. apply QUIET; [reflexivity|].
    intros z x. unfold step_handler. cbn [ext_sys set_conns hdl events]. rewrite EH, EE. reflexivity.
  - destruct p as [| |T op f|to e p'].
    + injection HS as <-. apply QUIET; [reflexivity|]. intros z x. unfold step_handler. cbn [ext_sys set_conns hdl]. now rewrite EH.
    + injection HS as <-. apply QUIET; [reflexivity|]. intros z x. unfold step_handler. cbn [ext_sys set_conns hdl]. now rewrite EH.
    + destruct (serve (svc s) op) as [m r] eqn:ES. injection HS as <-. apply QUIET; [reflexivity|].
      intros z x. unfold step_handler. cbn [ext_sys set_conns hdl svc]. rewrite EH, ES. reflexivity.
    + destruct (nth_error (conns s) to) as [c|] eqn:EC; [|discriminate].
      assert (NOT : forall z x, nth_error (conns (ext_sys z x s)) to = Some (ext (z to) (x to) c)) by (intros; now apply ext_id).
      assert (SEND : s' = set_hdl (HBusy tx p') (set_log (log s ++ [(tx, to, e)]) (set_conn to (set_queue (c_queue c ++ [(tx, e)]) c) s)) ->
        match c_writer c with WClosed _ => False | _ => True end -> Nat.ltb (length (c_queue c)) channel_size = true -> foreseen auth dbg n s').
      { intros -> HW HQ. apply (foreseen_same auth dbg n s _ (LHandler now) HF).
        - apply (agree_update s to c); [apply HF|exact EC|exact (proj1 HF to c EC)].
        - intros z Hz. apply (allowed_update s to c (set_queue (c_queue c ++ [(tx, e)]) c) z EC eq_refl Hz).
        - intros z x Hz. exact (known_put s to c (set_queue (c_queue c ++ [(tx, e)]) c) z x EC eq_refl Hz).
        - intros z x. unfold step. replace (running (ext_sys z x s)) with true. unfold step_handler.
          replace (hdl (ext_sys z x s)) with (HBusy tx (Send to e p')) by (symmetry; exact EH). rewrite NOT.
          pose proof (ext_put_same z x to (set_queue (c_queue c ++ [(tx, e)]) c) s) as E.
          change (ext_sys z x (set_hdl (HBusy tx p') (set_log (log s ++ [(tx, to, e)]) (set_conn to (set_queue (c_queue c ++ [(tx, e)]) c) s))))
            with (set_hdl (HBusy tx p') (set_log (log s ++ [(tx, to, e)]) (ext_sys z x (set_conn to (set_queue (c_queue c ++ [(tx, e)]) c) s)))).
          rewrite <- E. change (c_queue (ext (z to) (x to) c)) with (c_queue c). rewrite HQ.
          change (c_writer (ext (z to) (x to) c)) with (ext_writer (z to) (x to) (c_writer c)).
          destruct (c_writer c); cbn [ext_writer]; [| |contradiction]; reflexivity. }
      destruct (c_writer c) as [st|p st|st] eqn:EW.
      * destruct (Nat.ltb _ _) eqn:EL; [|discriminate]. injection HS as <-. apply SEND; auto.
      * destruct (Nat.ltb _ _) eqn:EL; [|discriminate]. injection HS as <-. apply SEND; auto.
      * injection HS as <-. apply QUIET; [reflexivity|]. intros z x. unfold step_handler.
        replace (hdl (ext_sys z x s)) with (HBusy tx (Send to e p')) by (symmetry; exact EH). rewrite NOT.
        unfold ext at 1. cbn [c_writer]. rewrite EW. reflexivity.
Qed.

Lemma foreseen_step auth dbg n s l s' : foreseen auth dbg n s -> step auth dbg s l = Some s' -> foreseen auth dbg n s'.
Proof.
  intros HF HS. pose proof HS as HS0. unfold step in HS. destruct (running s) eqn:HR; [|discriminate].
  assert (QUIET : conns s' = conns s -> (forall z x, step auth dbg (ext_sys z x s) l = Some (ext_sys z x s')) -> foreseen auth dbg n s').
  { intros E H. apply (foreseen_same auth dbg n s s' l HF).
    - intros k c Hk. rewrite E in Hk. exact (proj1 HF k c Hk).
    - intros z Hz k c Hk. apply Hz. now rewrite E.
    - intros z x Hz k c Hk. rewrite E in Hk. exact (Hz k c Hk).
    - exact H. }
  destruct l as [r w address|k uuid|k|now| | | | |].
  - destruct (listeners s) as [|m] eqn:EL; [discriminate|]. injection HS as <-. split.
    + intros k c Hk. unfold set_conns in Hk. cbn [conns] in Hk. rewrite nth_error_snoc in Hk.
      destruct (Nat.eqb k _); [injection Hk as <-; split; [reflexivity|apply incl_refl]|now apply (proj1 HF k)].
    + intros z Hz. destruct (proj2 HF z) as (x & HK & Hx).
      { intros k c Hk. apply Hz. unfold set_conns. cbn [conns]. rewrite nth_error_snoc.
        assert (k < length (conns s))%nat by (apply nth_error_Some; congruence).
        rewrite (proj2 (Nat.eqb_neq k (length (conns s)))) by lia. exact Hk. }
      set (v := {| x_chunks := f_chunks (z (length (conns s))); x_acts := f_acts (z (length (conns s))); x_closed := [] |}).
      exists (fun j => if Nat.eqb j (length (conns s)) then v else x j). split.
      { intros k c Hk. unfold set_conns in Hk. cbn [conns] in Hk. rewrite nth_error_snoc in Hk.
        destruct (Nat.eqb k (length (conns s))) eqn:E; [apply Nat.eqb_eq in E as ->; apply known_self|now apply HK]. }
      rewrite <- ext_accept.
      set (zk := z (length (conns s))) in *.
      eapply (reachable_step auth dbg n _ (LAccept {| arriving := arriving r ++ f_bytes zk; ending := f_end zk; chunks := f_chunks zk; grants := grants r; reuse := reuse r |}
        {| accepted := accepted w; wacts := f_acts zk; wgrants := wgrants w; wreuse := wreuse w |} address)); [exact Hx|].
      unfold step. replace (running (ext_sys z x s)) with true. cbn [ext_sys set_conns listeners]. rewrite EL. reflexivity.
  - now apply (foreseen_reader auth dbg n s k uuid).
  - now apply (foreseen_writer auth dbg n s k).
  - now apply (foreseen_handler auth dbg n s now).
  - destruct (hdl s) eqn:EH; try discriminate. destruct (ctrl_c s) eqn:EC; [|discriminate]. injection HS as <-. apply QUIET; [reflexivity|].
    intros z x. unfold step. replace (running (ext_sys z x s)) with true. cbn [ext_sys set_conns hdl ctrl_c]. now rewrite EH, EC.
  - destruct (listeners s) eqn:EH; try discriminate. destruct (ctrl_c s) eqn:EC; [|discriminate]. injection HS as <-. apply QUIET; [reflexivity|].
    intros z x. unfold step. replace (running (ext_sys z x s)) with true. cbn [ext_sys set_conns listeners ctrl_c]. now rewrite EH, EC.
  - destruct (service_running s && negb (handler_alive (hdl s)))%bool eqn:EH; try discriminate. injection HS as <-. apply QUIET; [reflexivity|].
    intros z x. unfold step. replace (running (ext_sys z x s)) with true. cbn [ext_sys set_conns hdl service_running]. now rewrite EH.
  - destruct (main s) eqn:EM; try discriminate.
    destruct (handler_alive (hdl s) || negb (Nat.eqb (listeners s) 0))%bool eqn:EH; injection HS as <-; apply QUIET; try reflexivity;
      intros z x; unfold step; replace (running (ext_sys z x s)) with true; cbn [ext_sys set_conns hdl listeners main]; rewrite EM, EH; reflexivity.
  - unfold step_main in HS. destruct (main s) eqn:EM; try discriminate.
    + destruct (Nat.eqb (listeners s) 0) eqn:EL; [|discriminate]. injection HS as <-. apply QUIET; [reflexivity|].
      intros z x. unfold step. replace (running (ext_sys z x s)) with true. unfold step_main. cbn [ext_sys set_conns main listeners]. now rewrite EM, EL.
    + destruct (service_running s) eqn:EL; [discriminate|]. injection HS as <-. apply QUIET; [reflexivity|].
      intros z x. unfold step. replace (running (ext_sys z x s)) with true. unfold step_main. cbn [ext_sys set_conns main service_running]. now rewrite EM, EL.
    + destruct (hdl s) eqn:EL; try discriminate; injection HS as <-; (apply QUIET; [reflexivity|]);
      intros z x; unfold step; replace (running (ext_sys z x s)) with true; unfold step_main; cbn [ext_sys set_conns main hdl]; rewrite EM, EL; reflexivity.
Qed.

(** The peers *)
Lemma foreseen_peer auth dbg n s k c c1 :
  foreseen auth dbg n s -> nth_error (conns s) k = Some c -> agree c1 -> incl (wacts (c_wsock c)) (wacts (c_wsock c1)) ->
  (forall z1, may (ending (c_rsock c1)) (f_bytes z1) (f_end z1) -> exists zk, may (ending (c_rsock c)) (f_bytes zk) (f_end zk)
     /\ f_acts zk = f_acts z1 /\ forall x, ext zk x c = ext z1 x c1) ->
  foreseen auth dbg n (set_conn k c1 s).
Proof.
  intros (HA & HP) EC H1 HI HS. split; [now apply (agree_update s k c)|]. intros z1 HZ1.
  destruct (HS (z1 k)) as (zk & HM & EF & HX).
  { apply (HZ1 k). unfold set_conn, set_conns. cbn [conns]. now rewrite nth_update_any, Nat.eqb_refl, EC. }
  destruct (HP (at_k k zk z1)) as (x & HK & HRS).
  { intros j cj Hj. destruct (Nat.eq_dec j k) as [->|Hne].
    - rewrite at_k_same. rewrite EC in Hj. injection Hj as <-. exact HM.
    - rewrite at_k_other by exact Hne. apply HZ1. unfold set_conn, set_conns. cbn [conns]. rewrite nth_update_any.
      now rewrite (proj2 (Nat.eqb_neq j k) Hne). }
  exists x. split.
  - intros j cj Hj. unfold set_conn, set_conns in Hj. cbn [conns] in Hj. rewrite nth_update_any in Hj.
    destruct (Nat.eqb j k) eqn:E.
    + apply Nat.eqb_eq in E as ->. rewrite EC in Hj. injection Hj as <-. specialize (HK k c EC). rewrite at_k_same in HK.
      eapply Forall_impl; [|exact HK]. intros a [Ha|[Ha|Ha]]; [now left|right; left; now apply HI|right; right; congruence].
    + apply Nat.eqb_neq in E. specialize (HK j cj Hj). now rewrite at_k_other in HK.
  - rewrite <- (ext_keep (at_k k zk z1) z1 x x k c c1 s); [exact HRS| |exact EC|rewrite at_k_same; apply HX].
    intros j Hj. now rewrite !at_k_other.
Qed.

Lemma foreseen_live auth dbg n s a s' : foreseen auth dbg n s -> live_step auth dbg s a = Some s' -> foreseen auth dbg n s'.
Proof.
  intros HF HS. destruct a as [l|k bs sizes|k e|k acts]; cbn [live_step] in HS.
  - now apply (foreseen_step auth dbg n s l).
  - destruct (nth_error (conns s) k) as [c|] eqn:EC; [|discriminate]. destruct (ending (c_rsock c)) eqn:EE; try discriminate.
    injection HS as <-. pose proof (proj1 HF k c EC) as (HA & HB). apply (foreseen_peer auth dbg n s k c); [exact HF|exact EC| |apply incl_refl|].
    + split; [|exact HB]. cbn [on_rsock c_reader c_rsock]. now destruct (c_reader c).
    + intros z1 _. exists {| f_bytes := bs ++ f_bytes z1; f_end := f_end z1; f_chunks := f_chunks z1; f_acts := f_acts z1 |}.
      split; [left; exact EE|]. split; [reflexivity|]. intros x. unfold ext.
      cbn [on_rsock c_addr c_rsock c_wsock c_reader c_read c_queue c_writer c_sent f_bytes f_end f_chunks f_acts arrive arriving grants reuse].
      rewrite <- app_assoc. f_equal. destruct (c_reader c); cbn [ext_reader on_reader]; try reflexivity;
        unfold later, on_rstream; cbn [rbuf rsk arrive arriving grants reuse f_bytes f_end f_chunks]; now rewrite <- app_assoc.
  - destruct (nth_error (conns s) k) as [c|] eqn:EC; [|discriminate]. destruct (ending (c_rsock c)) eqn:EE; try discriminate.
    injection HS as <-. pose proof (proj1 HF k c EC) as (HA & HB). apply (foreseen_peer auth dbg n s k c); [exact HF|exact EC| |apply incl_refl|].
    + split; [|exact HB]. cbn [on_rsock c_reader c_rsock]. now destruct (c_reader c).
    + intros z1 _. exists z1. split; [left; exact EE|]. split; [reflexivity|]. intros x. unfold ext.
      cbn [on_rsock c_addr c_rsock c_wsock c_reader c_read c_queue c_writer c_sent finish arriving grants reuse].
      f_equal. now destruct (c_reader c).
  - destruct (nth_error (conns s) k) as [c|] eqn:EC; [|discriminate].
    injection HS as <-. pose proof (proj1 HF k c EC) as (HA & HB). apply (foreseen_peer auth dbg n s k c); [exact HF|exact EC| | |].
    + split; [exact HA|]. cbn [on_wsock c_writer c_wsock react wacts]. destruct (c_writer c); cbn [on_writer on_wstream wsk react wacts]; try exact I;
        (apply incl_app; [apply incl_appl; exact HB|apply incl_appr, incl_refl]).
    + apply incl_appl, incl_refl.
    + intros z1 HM. exists z1. split; [exact HM|]. split; [reflexivity|]. intros x. unfold ext.
      cbn [on_wsock c_addr c_rsock c_wsock c_reader c_read c_queue c_writer c_sent react accepted wgrants wreuse].
      f_equal. now destruct (c_writer c).
Qed.

Theorem live_foreseen auth dbg n s : live_reachable auth dbg n s -> foreseen auth dbg n s.
Proof.
  intros (l & H). assert (G : forall l s0, foreseen auth dbg n s0 -> live_steps auth dbg s0 l = Some s -> foreseen auth dbg n s).
  { clear. induction l as [|a l IH]; intros s0 HF H; cbn [live_steps] in H; [now injection H as <-|].
    destruct (live_step auth dbg s0 a) as [s1|] eqn:E; [|discriminate]. apply (IH s1); [|exact H]. now apply (foreseen_live auth dbg n s0 a). }
  apply (G l (sys_init n)); [|exact H]. split.
  - intros k c Hk. now destruct k.
  - intros z _. exists (fun _ => {| x_chunks := []; x_acts := []; x_closed := [] |}). split; [intros [|k] c Hk; discriminate|]. now exists [].
Qed.
