(** Infinite runs in which clients keep coming and keep sending: every task that keeps being able to go on does go on. *)
From Verif Require Import Base Base_facts Packets HashMap Messaging Handler Decoder ReadStream ReadStream_facts
  Plain_facts Conn Conn_facts Encoder Encoder_facts WriteStream WriteStream_facts Spec_broker System System_facts System_hist
  System_conn System_queue System_first System_progress System_exit System_rest Service_facts System_fair
  Live Live_facts Prop_live.
Open Scope nat_scope.

(** ** Invariants of live runs *)

Section Invariants.
Context (auth : bytes -> bytes -> bool) (dbg : bool) (n : nat) (s : sys).
Hypothesis HL : live_reachable auth dbg n s.

Lemma live_alive_running : handler_alive (hdl s) = true -> running s = true.
Proof.
  destruct (C111_no_difference auth dbg n s HL) as (s' & HR & HK). pose proof (alive_running auth dbg n s' HR) as H.
  destruct HK as (_ & E1 & _ & _ & _ & _ & E2 & _). unfold running in *. now rewrite E1, E2 in H.
Qed.

Lemma live_bounded : bounded s.
Proof.
  destruct (C111_no_difference auth dbg n s HL) as (s' & HR & HK). pose proof (bounded_inv auth dbg n s' HR) as (H1 & H2).
  split; [now destruct HK as (<- & _)|]. intros k c Hk. destruct (like_some s s' k c HK Hk) as (c' & Hk' & HC).
  pose proof (H2 k c' Hk') as H. cbn beta in H. now destruct HC as (_ & _ & <- & _).
Qed.

Lemma live_target tx to e p : hdl s = HBusy tx (Send to e p) -> nth_error (conns s) to <> None.
Proof.
  destruct (C111_no_difference auth dbg n s HL) as (s' & HR & HK). intros EH EC. pose proof (like_nth s s' to HK) as K. rewrite EC in K.
  apply (target_exists auth dbg n s' tx to e p HR); [destruct HK as (_ & E1 & _); congruence|]. destruct (nth_error (conns s') to); [destruct K|reflexivity].
Qed.

Lemma live_busy k c p ws : nth_error (conns s) k = Some c -> c_writer c = WBusy p ws ->
  match write_packet p ws with WOk _ | WErr _ => True | WWait _ => blocks (c_wsock c) | WHung | WPanic => False end.
Proof.
  destruct (C111_no_difference auth dbg n s HL) as (s' & HR & HK). intros Hk EW.
  destruct (like_some s s' k c HK Hk) as (c' & Hk' & (_ & _ & _ & _ & _ & E6 & _ & _ & _ & _ & _ & E12)).
  rewrite EW in E6. pose proof (busy_blocked auth dbg n s' k c' p ws HR Hk' E6) as H.
  destruct (write_packet p ws); auto. unfold blocks in *. destruct (E12 _ H) as [(m & ?)|H']; [discriminate|exact H'].
Qed.

Lemma live_hist : hist_inv auth s.
Proof.
  destruct (C111_no_difference auth dbg n s HL) as (s' & HR & HK). pose proof (hist_invariant auth dbg n s' HR) as H.
  destruct HK as (_ & E1 & E2 & _ & _ & _ & _ & E3 & E4 & _). unfold hist_inv, midway in *. now rewrite E1, E2, E3, E4 in H.
Qed.

Lemma live_flow k : flow_ok s k.
Proof.
  destruct (C111_no_difference auth dbg n s HL) as (s' & HR & HK). pose proof (flow_invariant auth dbg n s' HR k) as H.
  pose proof (like_nth s s' k HK) as K. destruct HK as (E0 & E1 & E2 & _ & _ & _ & _ & E3 & E4 & _). unfold flow_ok in *.
  rewrite E0, E1, E3 in H. destruct (nth_error (conns s) k) as [c|], (nth_error (conns s') k) as [c'|]; try contradiction; [|exact H].
  destruct K as (K1 & K2 & _ & _ & K5 & _). now rewrite K1, K2, K5 in H.
Qed.

(** What was put for [k] went to its queue. *)
Lemma live_queue k c : nth_error (conns s) k = Some c ->
  match c_writer c with
  | WIdle _ | WBusy _ _ => put_to k (log s) = map as_sent (c_sent c) ++ c_queue c
  | WClosed _ => put_to k (log s) = map as_sent (c_sent c) \/ exists f r, put_to k (log s) = map as_sent (c_sent c) ++ (f, ServerDisconnect) :: r
  end.
Proof.
  destruct (C111_no_difference auth dbg n s HL) as (s' & HR & HK). intros Hk. pose proof (queue_invariant auth dbg n s' HR k) as H.
  destruct (like_some s s' k c HK Hk) as (c' & Hk' & (_ & _ & E3 & E4 & _ & E6 & _)). unfold queue_ok in H. rewrite Hk' in H. destruct H as (_ & H).
  destruct HK as (_ & _ & _ & _ & _ & _ & _ & _ & E & _). rewrite E, E3, E4 in H.
  destruct (c_writer c) as [ws|p ws|ws], (c_writer c') as [ws'|p' ws'|ws']; try discriminate E6; try contradiction; try exact H.
  destruct H as (_ & [(H & _)|H]); auto.
Qed.
End Invariants.

(** ** How far a read task comes *)

(** A read task ended because of an error, or because its first packet was not CONNECT. *)
Lemma done_end auth dbg n s : reachable auth dbg n s ->
  each (fun _ c => c_reader c = RDone ->
    (exists rs, reads dbg (connection_stream (c_rsock c)) (c_read c) rs /\ (stream_read_packet dbg rs = RPanic \/ exists e, stream_read_packet dbg rs = RErr e))
    \/ exists p, c_read c = [p] /\ forall c', p <> Connect c') s.
Proof.
  set (P := fun (_ : conn) c => c_reader c = RDone ->
    (exists rs, reads dbg (connection_stream (c_rsock c)) (c_read c) rs /\ (stream_read_packet dbg rs = RPanic \/ exists e, stream_read_packet dbg rs = RErr e))
    \/ exists p, c_read c = [p] /\ forall c', p <> Connect c').
  revert s. apply (reachable_trans_ind auth dbg n (each P)).
  - intros [|k] c; discriminate.
  - intros s s' HR HI T. pose proof (reader_invariant auth dbg n s HR) as HRD.
    assert (U : forall k c c', nth_error (conns s) k = Some c -> c_reader c' = c_reader c -> c_read c' = c_read c ->
                c_rsock c' = c_rsock c -> each P (set_conn k c' s)).
    { intros k c c' Hk H1 H2 H3. apply each_update; [exact HI|]. unfold P. rewrite H1, H2, H3. exact (HI k c Hk). }
    destruct T; try exact HI; try (eapply U; eauto; reflexivity); try (apply each_update; [exact HI|discriminate]).
    + intros k c. cbn [conns set_conns]. rewrite nth_error_snoc. destruct (Nat.eqb k _); [|apply HI].
      intros [= <-]. discriminate.
    + apply each_update; [exact HI|]. intros _. right. cbn [c_read set_reader set_read].
      destruct (HRD k c H) as (rs0 & _ & Hd). rewrite H0 in Hd. destruct Hd as (_ & Hd). rewrite Hd. exists p. auto.
    + apply each_update; [exact HI|]. intros _. left. cbn [c_read c_rsock set_reader].
      destruct (HRD k c H) as (rs0 & Hr & Hd). exists rs. split; [|exact H1].
      assert (rs0 = rs) as <-; [|exact Hr].
      destruct H0 as [H0|(cid & H0)]; rewrite H0 in Hd; now destruct Hd as (-> & _).
Qed.

Definition reader_hung (dbg : bool) (c : cstate) : Prop :=
  match c_reader c with RFirst rs | RLoop _ rs => stream_read_packet dbg rs = RHung | _ => False end.

(** What can go on only when something arrives, and what not. *)
Definition waits (dbg : bool) (r : reader) : Prop :=
  match r with
  | RFirst rs | RLoop _ rs => match stream_read_packet dbg rs with ROk _ _ | RErr _ | RPanic => False | _ => True end
  | RPush _ _ _ => False
  | RDone => True
  end.

Definition not_connect (l : list ControlPacket) : Prop := exists p, l = [p] /\ forall c, p <> Connect c.

Section Reading.
Context (auth : bytes -> bytes -> bool) (dbg : bool) (n : nat) (s : sys) (k : conn) (c : cstate).
Hypothesis HL : live_reachable auth dbg n s.
Hypothesis Hk : nth_error (conns s) k = Some c.
Context (ps : list ControlPacket) (bss : list bytes) (rest : bytes).
Hypothesis HA : arriving (c_rsock c) = concat bss ++ rest.
Hypothesis HF : Forall2 sent_as ps bss.

(** The packets sent are read before anything else. *)
Lemma live_read_prefix : length ps <= length (c_read c) -> exists l, c_read c = ps ++ l.
Proof.
  intros HLen. destruct (C111_no_difference auth dbg n s HL) as (s' & HR & HK).
  destruct (like_some s s' k c HK Hk) as (c' & Hk' & (_ & E2 & _ & _ & _ & _ & E7 & _)).
  destruct (read_prefix auth dbg n s' k c' HR Hk') as (r & Er). rewrite E2 in Er.
  destruct (read_all_sent_any dbg ps bss (connection_stream (c_rsock c')) rest (wf_connection _) HF) as [(m & E)|(st' & W & _ & _ & E)].
  - unfold pending, connection_stream. cbn. congruence.
  - rewrite E in Er. cbn [fst] in Er.
    assert (K : ps = c_read c).
    { pose proof (f_equal (@length ControlPacket) Er) as L. rewrite app_length in L. pose proof (firstn_le_length m ps) as L2.
      assert (L3 : length (firstn m ps) = length ps) by (pose proof (firstn_length m ps); lia).
      assert (L4 : length ps <= m) by (rewrite firstn_length in L3; lia). rewrite (firstn_all2 _ L4) in Er.
      rewrite L3 in L.
      destruct r as [|x r]; [now rewrite app_nil_r in Er|]. cbn [length] in L. lia. }
    exists []. now rewrite app_nil_r.
  - destruct (read_all dbg st') as [qs e]. rewrite E in Er. cbn [fst] in Er. symmetry in Er. exact (app_prefix _ _ _ _ Er HLen).
Qed.

(** A read task that does not go on has read them, or spins, or refused the client. *)
Lemma live_waits : waits dbg (c_reader c) -> reader_hung dbg c \/ (exists l, c_read c = ps ++ l) \/ not_connect (c_read c).
Proof.
  intros HW. destruct (C111_no_difference auth dbg n s HL) as (s' & HR & HK).
  destruct (like_some s s' k c HK Hk) as (c' & Hk' & (_ & E2 & _ & _ & E5 & _ & E7 & _)).
  pose proof (reader_invariant auth dbg n s' HR k c' Hk') as (rs & Hr & Hd).
  pose proof (done_end auth dbg n s' HR k c' Hk') as HD. cbn beta in HD. rewrite E2, E5 in *.
  assert (G : forall rs, reads dbg (connection_stream (c_rsock c')) (c_read c) rs ->
    match stream_read_packet dbg rs with ROk _ _ | RHung => False | _ => True end -> exists l, c_read c = ps ++ l).
  { intros rs0 Hr0 HN. destruct (reads_read_all dbg _ _ _ (wf_connection (c_rsock c')) Hr0) as (W0 & E0).
    rewrite (read_all_step dbg rs0 W0) in E0.
    destruct (read_all_sent_any dbg ps bss (connection_stream (c_rsock c')) rest (wf_connection _) HF) as [(m & E)|(st' & W & _ & _ & E)].
    - unfold pending, connection_stream. cbn. congruence.
    - rewrite E in E0. destruct (stream_read_packet dbg rs0); try destruct HN; discriminate.
    - destruct (read_all dbg st') as [qs e]. rewrite E in E0. exists qs.
      destruct (stream_read_packet dbg rs0); try destruct HN; cbn [fst snd] in E0; rewrite app_nil_r in E0; now injection E0 as <- _. }
  unfold reader_hung, waits in *. destruct (c_reader c) as [rs'|e cid rs'|cid rs'|].
  - destruct Hd as (-> & _). destruct (stream_read_packet dbg rs) eqn:E; try destruct HW; auto; right; left; apply (G rs Hr); now rewrite E.
  - destruct HW.
  - destruct Hd as (-> & _). destruct (stream_read_packet dbg rs) eqn:E; try destruct HW; auto; right; left; apply (G rs Hr); now rewrite E.
  - destruct (HD eq_refl) as [(rs0 & Hr0 & HE)|(p & Hp & HN)].
    + right. left. apply (G rs0 Hr0). destruct HE as [-> |(e & ->)]; exact I.
    + right. right. exists p. auto.
Qed.

(** With at most 4096 bytes it does not spin before it has read them. *)
Lemma live_no_hang : (lenN (concat bss) <= 4096)%N -> reader_hung dbg c -> exists l, c_read c = ps ++ l.
Proof.
  intros HLen HH. destruct (C111_no_difference auth dbg n s HL) as (s' & HR & HK).
  destruct (like_some s s' k c HK Hk) as (c' & Hk' & (_ & E2 & _ & _ & E5 & _ & E7 & _)).
  pose proof (reader_invariant auth dbg n s' HR k c' Hk') as (rs & Hr & Hd). rewrite E2, E5 in *.
  destruct (reads_read_all dbg _ _ _ (wf_connection (c_rsock c')) Hr) as (W0 & E0). rewrite (read_all_step dbg rs W0) in E0.
  destruct (read_all_sent dbg ps bss (connection_stream (c_rsock c')) rest (wf_connection _) HF) as (st' & W & _ & _ & _ & _ & _ & _ & E).
  { unfold pending, connection_stream. cbn. congruence. }
  { exact HLen. }
  destruct (read_all dbg st') as [qs e]. rewrite E in E0. exists qs. unfold reader_hung in HH.
  destruct (c_reader c) as [rs'|e' cid rs'|cid rs'|]; try contradiction; destruct Hd as (-> & _); rewrite HH in E0; cbn [fst snd] in E0;
    rewrite app_nil_r in E0; now injection E0 as <- _.
Qed.
End Reading.

(** ** Fair runs *)

Definition own (a : option act) : option label := match a with Some (Own l) => Some l | _ => None end.

(** An infinite run; [None] is a moment in which nothing happens. The peers do what they want when they want. No task
    that can always go on is passed over for ever. A read task that waits for a place in the handler's channel is not
    either if there is one again and again: places in a channel are given out in the order in which senders came (tokio's
    mpsc; Prop_fifo.v derives [lf_places] from that). It is said so that it can be used without deciding what the future
    brings: if, as long as [Q] does not come, the task can go on again and again, then it goes on, or [Q] comes. *)
Record live_fair_run auth dbg n (run : nat -> sys) (lab : nat -> option act) : Prop := {
  lf_start : live_reachable auth dbg n (run 0);
  lf_step : forall i, match lab i with
                      | Some a => live_step auth dbg (run i) a = Some (run (S i))
                      | None => run (S i) = run i
                      end;
  lf_tasks : forall t i, exists j, i <= j /\ (runs t (own (lab j)) = true \/ ~ can auth dbg t (run j));
  lf_places : forall k c e cid st (Q : nat -> Prop) i,
    nth_error (conns (run i)) k = Some c -> c_reader c = RPush e cid st ->
    (forall j, i <= j -> exists j', j <= j' /\ (can auth dbg (TReader k) (run j') \/ Q j')) ->
    exists j, i <= j /\ (runs (TReader k) (own (lab j)) = true \/ Q j) }.

(** Alike but for what is in the sockets. *)
Definition same_place (r r' : reader) : Prop :=
  match r, r' with
  | RFirst _, RFirst _ | RDone, RDone => True
  | RPush e cid _, RPush e' cid' _ => e' = e /\ cid' = cid
  | RLoop cid _, RLoop cid' _ => cid' = cid
  | _, _ => False
  end.

Definition same_write (w w' : writer) : Prop :=
  match w, w' with
  | WIdle _, WIdle _ | WClosed _, WClosed _ => True
  | WBusy p _, WBusy p' _ => p' = p
  | _, _ => False
  end.

Lemma same_place_refl r : same_place r r.
Proof. destruct r; cbn; auto. Qed.

Lemma same_place_trans r1 r2 r3 : same_place r1 r2 -> same_place r2 r3 -> same_place r1 r3.
Proof. destruct r1, r2, r3; cbn; try tauto; intuition congruence. Qed.

Lemma same_write_refl w : same_write w w.
Proof. destruct w; cbn; auto. Qed.

Lemma same_write_trans w1 w2 w3 : same_write w1 w2 -> same_write w2 w3 -> same_write w1 w3.
Proof. destruct w1, w2, w3; cbn; try tauto; congruence. Qed.

Lemma same_place_on f r : same_place r (on_reader f r).
Proof. destruct r; cbn; auto. Qed.

Lemma same_write_on f w : same_write w (on_writer f w).
Proof. destruct w; cbn; auto. Qed.

(** What a peer does changes nothing but its connection's sockets. *)
Lemma peer_frame auth dbg s a s' : live_step auth dbg s a = Some s' -> (forall l, a <> Own l) ->
  hdl s' = hdl s /\ handled s' = handled s /\ log s' = log s /\ svc s' = svc s /\ events s' = events s /\ running s' = running s
  /\ length (conns s') = length (conns s)
  /\ forall k c, nth_error (conns s) k = Some c -> exists c', nth_error (conns s') k = Some c'
     /\ c_addr c' = c_addr c /\ c_read c' = c_read c /\ c_queue c' = c_queue c /\ c_sent c' = c_sent c
     /\ same_place (c_reader c) (c_reader c') /\ same_write (c_writer c) (c_writer c')
     /\ exists z, arriving (c_rsock c') = arriving (c_rsock c) ++ z.
Proof.
  intros HS HN.
  assert (UPD : forall k0 c0 c1, nth_error (conns s) k0 = Some c0 -> s' = set_conn k0 c1 s ->
    (c_addr c1 = c_addr c0 /\ c_read c1 = c_read c0 /\ c_queue c1 = c_queue c0 /\ c_sent c1 = c_sent c0
     /\ same_place (c_reader c0) (c_reader c1) /\ same_write (c_writer c0) (c_writer c1)
     /\ exists z, arriving (c_rsock c1) = arriving (c_rsock c0) ++ z) ->
    hdl s' = hdl s /\ handled s' = handled s /\ log s' = log s /\ svc s' = svc s /\ events s' = events s /\ running s' = running s
    /\ length (conns s') = length (conns s)
    /\ forall k c, nth_error (conns s) k = Some c -> exists c', nth_error (conns s') k = Some c'
       /\ c_addr c' = c_addr c /\ c_read c' = c_read c /\ c_queue c' = c_queue c /\ c_sent c' = c_sent c
       /\ same_place (c_reader c) (c_reader c') /\ same_write (c_writer c) (c_writer c')
       /\ exists z, arriving (c_rsock c') = arriving (c_rsock c) ++ z).
  { intros k0 c0 c1 Hk0 -> HC. repeat (split; [reflexivity|]). split; [cbn; apply update_length|].
    intros k c Hk. cbn [conns set_conn set_conns]. rewrite nth_update. destruct (Nat.eqb_spec k k0) as [->|Hd].
    - rewrite Hk0. rewrite Hk in Hk0. injection Hk0 as ->. exists c1. auto.
    - exists c. repeat (split; [reflexivity||exact Hk|]). split; [apply same_place_refl|]. split; [apply same_write_refl|].
      exists []. now rewrite app_nil_r. }
  destruct a as [l|k0 bs sz|k0 e|k0 ra]; cbn [live_step] in HS.
  - now destruct (HN l).
  - destruct (nth_error (conns s) k0) as [c0|] eqn:Hk0; [|discriminate]. destruct (ending (c_rsock c0)); try discriminate. injection HS as HS.
    apply (UPD k0 c0 _ Hk0 (eq_sym HS)). repeat (split; [reflexivity|]). split; [apply same_place_on|]. split; [apply same_write_refl|]. now exists bs.
  - destruct (nth_error (conns s) k0) as [c0|] eqn:Hk0; [|discriminate]. destruct (ending (c_rsock c0)); try discriminate. injection HS as HS.
    apply (UPD k0 c0 _ Hk0 (eq_sym HS)). repeat (split; [reflexivity|]). split; [apply same_place_on|]. split; [apply same_write_refl|]. exists []. now rewrite app_nil_r.
  - destruct (nth_error (conns s) k0) as [c0|] eqn:Hk0; [|discriminate]. injection HS as HS.
    apply (UPD k0 c0 _ Hk0 (eq_sym HS)). repeat (split; [reflexivity|]). split; [apply same_place_refl|]. split; [apply same_write_on|]. exists []. now rewrite app_nil_r.
Qed.

Section LiveFair.
Context {auth : bytes -> bytes -> bool} {dbg : bool} {n : nat} {run : nat -> sys} {lab : nat -> option act}.
Hypothesis FR : live_fair_run auth dbg n run lab.

Lemma lf_reachable i : live_reachable auth dbg n (run i).
Proof.
  induction i as [|i (l & IH)]; [apply (lf_start _ _ _ _ _ FR)|]. pose proof (lf_step _ _ _ _ _ FR i) as H.
  destruct (lab i) as [a|]; [|rewrite H; now exists l]. exists (l ++ [a]).
  revert IH. generalize (sys_init n). induction l as [|b l IHl]; intros s; cbn [live_steps app].
  - intros [= ->]. now rewrite H.
  - destruct (live_step auth dbg s b); [apply IHl|discriminate].
Qed.

(** What a moment leaves alone. *)
Lemma moment j : (exists l, own (lab j) = Some l /\ step auth dbg (run j) l = Some (run (S j)))
  \/ own (lab j) = None
     /\ hdl (run (S j)) = hdl (run j) /\ handled (run (S j)) = handled (run j) /\ log (run (S j)) = log (run j) /\ svc (run (S j)) = svc (run j)
     /\ events (run (S j)) = events (run j) /\ running (run (S j)) = running (run j).
Proof.
  pose proof (lf_step _ _ _ _ _ FR j) as HS. destruct (lab j) as [a|]; [|right; rewrite HS; auto 10].
  destruct a as [l|k bs sz|k e|k ra].
  - left. exists l. split; [reflexivity|exact HS].
  - right. split; [reflexivity|]. edestruct peer_frame as (H1 & H2 & H3 & H4 & H5 & H6 & _); [exact HS|discriminate|]. auto 10.
  - right. split; [reflexivity|]. edestruct peer_frame as (H1 & H2 & H3 & H4 & H5 & H6 & _); [exact HS|discriminate|]. auto 10.
  - right. split; [reflexivity|]. edestruct peer_frame as (H1 & H2 & H3 & H4 & H5 & H6 & _); [exact HS|discriminate|]. auto 10.
Qed.

Lemma live_conn_frame j k c : nth_error (conns (run j)) k = Some c ->
  exists c', nth_error (conns (run (S j))) k = Some c' /\ c_addr c' = c_addr c
    /\ (exists z, arriving (c_rsock c') = arriving (c_rsock c) ++ z)
    /\ (runs (TReader k) (own (lab j)) = false -> c_read c' = c_read c /\ same_place (c_reader c) (c_reader c'))
    /\ (runs (TWriter k) (own (lab j)) = false -> c_sent c' = c_sent c /\ same_write (c_writer c) (c_writer c')
        /\ exists more, c_queue c' = c_queue c ++ more /\ (runs THandler (own (lab j)) = false -> more = [])).
Proof.
  intros Hk. pose proof (lf_step _ _ _ _ _ FR j) as HS.
  assert (NIL : forall {A} (x y : list A), x = y -> exists z, x = y ++ z) by (intros A x y ->; exists []; now rewrite app_nil_r).
  assert (PEER : forall a, (forall l, a <> Own l) -> live_step auth dbg (run j) a = Some (run (S j)) ->
    exists c', nth_error (conns (run (S j))) k = Some c' /\ c_addr c' = c_addr c
    /\ (exists z, arriving (c_rsock c') = arriving (c_rsock c) ++ z)
    /\ (c_read c' = c_read c /\ same_place (c_reader c) (c_reader c'))
    /\ (c_sent c' = c_sent c /\ same_write (c_writer c) (c_writer c')
        /\ exists more, c_queue c' = c_queue c ++ more /\ more = [])).
  { intros a HN HS'. edestruct peer_frame as (_ & _ & _ & _ & _ & _ & _ & H); [exact HS'|exact HN|].
    destruct (H k c Hk) as (c' & H1 & H2 & H3 & H4 & H5 & H6 & H7 & H8). exists c'. repeat (split; [assumption|]). split; [now split|].
    split; [exact H5|]. split; [exact H7|]. exists []. now rewrite app_nil_r. }
  destruct (lab j) as [a|].
  2:{ rewrite HS. exists c. split; [exact Hk|]. split; [reflexivity|]. split; [now apply NIL|]. split; [intros _; split; [reflexivity|apply same_place_refl]|].
      intros _. split; [reflexivity|]. split; [apply same_write_refl|]. exists []. now rewrite app_nil_r. }
  destruct a as [l|k0 bs sz|k0 e|k0 ra].
  - cbn [own live_step] in *. destruct (conn_frame _ _ _ _ _ _ _ HS Hk) as (c' & H1 & H2 & _ & H4 & H5 & H6).
    exists c'. split; [exact H1|]. split; [exact H4|]. split; [rewrite H2; now apply NIL|]. split.
    + intros HR. destruct H5 as (-> & ->); [|split; [reflexivity|apply same_place_refl]]. intros u ->. cbn in HR. now rewrite Nat.eqb_refl in HR.
    + intros HR. destruct H6 as (-> & -> & m & -> & HM); [|split; [reflexivity|split; [apply same_write_refl|]]].
      * intros ->. cbn in HR. now rewrite Nat.eqb_refl in HR.
      * exists m. split; [reflexivity|]. intros HH. apply HM. intros now ->. discriminate.
  - destruct (PEER (Arrive k0 bs sz) ltac:(intros; discriminate) HS) as (c' & H1 & H2 & H3 & H4 & H5 & H6 & m & H7 & H8). exists c'. repeat (split; [assumption|]). split; [auto|]. intros _. split; [exact H5|]. split; [exact H6|]. eauto.
  - destruct (PEER (Finish k0 e) ltac:(intros; discriminate) HS) as (c' & H1 & H2 & H3 & H4 & H5 & H6 & m & H7 & H8). exists c'. repeat (split; [assumption|]). split; [auto|]. intros _. split; [exact H5|]. split; [exact H6|]. eauto.
  - destruct (PEER (React k0 ra) ltac:(intros; discriminate) HS) as (c' & H1 & H2 & H3 & H4 & H5 & H6 & m & H7 & H8). exists c'. repeat (split; [assumption|]). split; [auto|]. intros _. split; [exact H5|]. split; [exact H6|]. eauto.
Qed.

(** [P] lasts until [t] goes on, or [Q]. *)
Lemma live_until (P Q : nat -> Prop) t i : P i ->
  (forall j, i <= j -> P j -> runs t (own (lab j)) = true \/ P (S j) \/ Q (S j)) ->
  (forall j, i <= j -> P j -> can auth dbg t (run j)) ->
  exists j, i <= j /\ (P j /\ runs t (own (lab j)) = true \/ Q j).
Proof.
  intros HP HN HC. destruct (lf_tasks _ _ _ _ _ FR t i) as (j0 & Hj & H0).
  remember (j0 - i) as d eqn:Ed. revert i HP HN HC Hj Ed. induction d as [|d IH]; intros i HP HN HC Hj Ed.
  - assert (j0 = i) as -> by lia. destruct H0 as [H0|H0]; [exists i; auto|]. destruct H0. now apply HC.
  - destruct (HN i) as [H|[H|H]]; auto; [exists i; auto| |exists (S i); auto].
    destruct (IH (S i)) as (j & Hj' & K); auto; try lia.
    + intros j Hj' HPj. apply HN; [lia|exact HPj].
    + intros j Hj' HPj. apply HC; [lia|exact HPj].
    + exists j. split; [lia|exact K].
Qed.

Definition live_alive (i : nat) : Prop := handler_alive (hdl (run i)) = true.
Definition live_dead (i : nat) : Prop := handler_alive (hdl (run i)) = false.

Definition live_unblocked : Prop := forall i k c, nth_error (conns (run i)) k = Some c -> ~ blocks (c_wsock c).
Hypothesis NB : live_unblocked.

(** At [j] the handler has the same program as at [i], and has taken no event in between. *)
Definition live_same (i j : nat) : Prop :=
  hdl (run j) = hdl (run i) /\ handled (run j) = handled (run i) /\ log (run j) = log (run i)
  /\ exists more, events (run j) = events (run i) ++ more.

Lemma live_same_refl i : live_same i i.
Proof. repeat split. exists []. now rewrite app_nil_r. Qed.

Lemma live_same_trans i j k : live_same i j -> live_same j k -> live_same i k.
Proof.
  intros (H1 & H2 & H3 & m & H4) (K1 & K2 & K3 & m' & K4). unfold live_same. rewrite K1, K2, K3, K4, H1, H2, H3, H4, <- app_assoc.
  repeat split. eauto.
Qed.

Lemma live_same_next i j tx p : hdl (run i) = HBusy tx p -> live_same i j -> runs THandler (own (lab j)) = true \/ live_same i (S j).
Proof.
  intros EH (H1 & H2 & H3 & more & H4). destruct (moment j) as [(l & EL & HS)|(EL & K1 & K2 & K3 & _ & K4 & _)].
  2:{ right. unfold live_same. rewrite K1, K2, K3, K4, H1, H2, H3, H4. repeat split. eauto. }
  rewrite EL. assert (K : match l with LHandler _ => True | LStopHandler => False | _ => True end).
  { destruct l; auto. unfold step in HS. rewrite H1, EH in HS. destruct (running (run j)); discriminate. }
  destruct l as [r w a|k u|k|now| | | | |]; try destruct K; try (left; reflexivity); right;
    (destruct (handler_frame _ _ _ _ _ HS I) as (K1 & K2 & K3 & _ & more' & K4); unfold live_same;
     rewrite K1, K2, K3, K4, H1, H2, H3, H4, <- app_assoc; repeat split; eauto).
Qed.

(** ** Room in a queue comes *)

Lemma own_handler j : runs THandler (own (lab j)) = true -> exists now, own (lab j) = Some (LHandler now) /\ step auth dbg (run j) (LHandler now) = Some (run (S j)).
Proof.
  intros H. destruct (moment j) as [(l & EL & HS)|(EL & _)]; rewrite EL in *; [|discriminate]. destruct (handler_runs l H) as (now & ->). eauto.
Qed.

Lemma own_writer j k : runs (TWriter k) (own (lab j)) = true -> own (lab j) = Some (LWriter k) /\ step auth dbg (run j) (LWriter k) = Some (run (S j)).
Proof.
  intros H. destruct (moment j) as [(l & EL & HS)|(EL & _)]; rewrite EL in *; [|discriminate]. rewrite (writer_runs k l H) in *. auto.
Qed.

Lemma own_reader j k : runs (TReader k) (own (lab j)) = true -> exists u, own (lab j) = Some (LReader k u) /\ step auth dbg (run j) (LReader k u) = Some (run (S j)).
Proof.
  intros H. destruct (moment j) as [(l & EL & HS)|(EL & _)]; rewrite EL in *; [|discriminate]. destruct (reader_runs k l H) as (u & ->). eauto.
Qed.

Lemma live_running i : live_alive i -> running (run i) = true.
Proof. intros H. apply (live_alive_running auth dbg n); [apply lf_reachable|exact H]. Qed.

Definition live_same_writer (c : cstate) (to : conn) (j : nat) : Prop :=
  exists c', nth_error (conns (run j)) to = Some c' /\ same_write (c_writer c) (c_writer c') /\ c_queue c' = c_queue c.

Lemma live_blocked_send i j tx to e p c : hdl (run i) = HBusy tx (Send to e p) -> live_same i j ->
  nth_error (conns (run j)) to = Some c -> (forall ws, c_writer c <> WClosed ws) -> channel_size <= length (c_queue c) ->
  runs THandler (own (lab j)) = false.
Proof.
  intros EH (H1 & _) Hc HW HL. destruct (runs THandler (own (lab j))) eqn:ER; [exfalso|reflexivity].
  destruct (own_handler j ER) as (now & _ & HS).
  unfold step, step_handler in HS. rewrite H1, EH, Hc in HS. destruct (running (run j)); [|discriminate].
  apply Nat.ltb_ge in HL. rewrite HL in HS. destruct (c_writer c); try discriminate. now destruct (HW ws).
Qed.

Lemma live_full_until i tx to e p c : hdl (run i) = HBusy tx (Send to e p) -> nth_error (conns (run i)) to = Some c ->
  (forall ws, c_writer c <> WClosed ws) -> channel_size <= length (c_queue c) ->
  exists j, i <= j /\ live_same i j /\ live_same_writer c to j /\ runs (TWriter to) (own (lab j)) = true.
Proof.
  intros EH Hc HW HL.
  destruct (live_until (fun j => live_same i j /\ live_same_writer c to j) (fun _ => False) (TWriter to) i) as (j & Hj & K).
  - split; [apply live_same_refl|]. exists c. split; [exact Hc|]. split; [apply same_write_refl|reflexivity].
  - intros j Hj (H1 & c' & Hc' & Hw & Hq).
    assert (NH : runs THandler (own (lab j)) = false).
    { eapply live_blocked_send; eauto; [|now rewrite Hq]. intros ws E. rewrite E in Hw. destruct (c_writer c); try destruct Hw. now destruct (HW ws0). }
    destruct (live_same_next i j _ _ EH H1) as [K|K]; [congruence|].
    destruct (runs (TWriter to) (own (lab j))) eqn:ER; [now left|]. right. left. split; [exact K|].
    destruct (live_conn_frame j to c' Hc') as (c2 & Hc2 & _ & _ & _ & F). destruct (F ER) as (_ & F1 & more & F2 & F3).
    exists c2. split; [exact Hc2|]. rewrite F3, app_nil_r in F2 by exact NH. split; [eapply same_write_trans; eauto|congruence].
  - intros j Hj (H1 & c' & Hc' & Hw & Hq). exists (LWriter to). split; [cbn; apply Nat.eqb_refl|].
    assert (RN : running (run j) = true).
    { apply live_running. unfold live_alive. destruct H1 as (-> & _). now rewrite EH. }
    unfold step, step_writer. rewrite RN, Hc'. destruct (c_writer c') as [ws|q ws|ws] eqn:EW.
    + rewrite Hq. destruct (c_queue c) as [|[f [q|]] r] eqn:EQ; try discriminate. cbn in HL. unfold channel_size in HL. lia.
    + pose proof (live_busy auth dbg n (run j) (lf_reachable j) to c' q ws Hc' EW) as B.
      destruct (write_packet q ws); try discriminate; try contradiction. destruct (NB j to c' Hc' B).
    + destruct (c_writer c); try destruct Hw. now destruct (HW ws0).
  - destruct K as [((H1 & H2) & H3)|[]]. exists j. auto.
Qed.

Lemma live_after_writer i j tx p : hdl (run i) = HBusy tx p -> live_same i j -> forall k, runs (TWriter k) (own (lab j)) = true -> live_same i (S j).
Proof.
  intros EH H k E. destruct (live_same_next i j _ _ EH H) as [K|K]; [|exact K]. destruct (own_writer j k E) as (EL & _). rewrite EL in K. discriminate.
Qed.

Lemma live_room_comes i tx to e p : hdl (run i) = HBusy tx (Send to e p) ->
  exists j, i <= j /\ live_same i j /\ room (run j) to.
Proof.
  intros EH.
  assert (A1 : forall j c, live_same i j -> i <= j -> nth_error (conns (run j)) to = Some c -> (forall p ws, c_writer c <> WBusy p ws) ->
    exists j', i <= j' /\ live_same i j' /\ room (run j') to).
  { intros j c HP Hj Hc HB. destruct (Nat.lt_ge_cases (length (c_queue c)) channel_size) as [L|L].
    { exists j. split; [exact Hj|]. split; [exact HP|]. exists c. auto. }
    destruct (c_writer c) as [ws|q ws|ws] eqn:EW.
    - assert (EHj : hdl (run j) = HBusy tx (Send to e p)) by (destruct HP as (-> & _); exact EH).
      destruct (live_full_until j tx to e p c EHj Hc) as (j1 & Hj1 & HP1 & (c1 & Hc1 & Hw & Hq) & HL); [congruence|exact L|].
      exists (S j1). split; [lia|]. split; [eapply live_same_trans; [exact HP|]; eapply live_after_writer; eauto|].
      destruct (own_writer j1 to HL) as (_ & HS). unfold step, step_writer in HS.
      destruct (running (run j1)); [|discriminate]. rewrite EW in Hw. rewrite Hc1, Hq in HS. destruct (c_writer c1) as [ws1|q1 ws1|ws1] eqn:EW1; try destruct Hw.
      pose proof (proj2 (live_bounded auth dbg n (run j) (lf_reachable j)) to c Hc) as HB2. cbn beta in HB2.
      destruct (c_queue c) as [|[f [q|]] r] eqn:EQ.
      + cbn in L. unfold channel_size in L. lia.
      + injection HS as HS. rewrite <- HS. eexists. split; [eapply nth_set_conn; eassumption|]. right. cbn in *. unfold channel_size in *. lia.
      + injection HS as HS. rewrite <- HS. eexists. split; [eapply nth_set_conn; eassumption|]. left. eexists. reflexivity.
    - now destruct (HB q ws).
    - exists j. split; [exact Hj|]. split; [exact HP|]. exists c. split; [exact Hc|]. left. eauto. }
  pose proof (live_target auth dbg n (run i) (lf_reachable i) tx to e p EH) as HT.
  destruct (nth_error (conns (run i)) to) as [c|] eqn:Hc; [|congruence].
  destruct (c_writer c) as [ws|q ws|ws] eqn:EW.
  - apply (A1 i c (live_same_refl i) (le_n i) Hc). congruence.
  - destruct (Nat.lt_ge_cases (length (c_queue c)) channel_size) as [L|L].
    { exists i. split; [lia|]. split; [apply live_same_refl|]. exists c. auto. }
    destruct (live_full_until i tx to e p c EH Hc) as (j1 & Hj1 & HP1 & (c1 & Hc1 & Hw & Hq) & HL); [congruence|exact L|].
    destruct (own_writer j1 to HL) as (_ & HS). unfold step, step_writer in HS.
    destruct (running (run j1)); [|discriminate]. rewrite EW in Hw. rewrite Hc1 in HS. destruct (c_writer c1) as [ws1|q1 ws1|ws1] eqn:EW1; try destruct Hw.
    assert (HP2 : live_same i (S j1)) by (eapply live_after_writer; eauto).
    destruct (write_packet q1 ws1) as [ws'|ws'| | |]; try discriminate; injection HS as HS;
      (eapply (A1 (S j1)); [exact HP2|lia|rewrite <- HS; eapply nth_set_conn; eassumption|cbn; discriminate]).
  - apply (A1 i c (live_same_refl i) (le_n i) Hc). congruence.
Qed.

(** Room stays until the handler uses it. *)
Lemma live_room_stays j to : room (run j) to -> runs THandler (own (lab j)) = true \/ room (run (S j)) to.
Proof.
  intros (c & Hc & HR).
  destruct (runs THandler (own (lab j))) eqn:ER; [now left|right].
  destruct (runs (TWriter to) (own (lab j))) eqn:EW.
  - destruct (own_writer j to EW) as (_ & HS). unfold step, step_writer in HS. destruct (running (run j)); [|discriminate]. rewrite Hc in HS.
    destruct (c_writer c) as [ws|q ws|ws]; [| |discriminate].
    + destruct HR as [(ws' & HR)|HR]; [discriminate|].
      destruct (c_queue c) as [|[f [q|]] r] eqn:EQ; [destruct (has_sender (run j) to c); [discriminate|]| |]; injection HS as HS; rewrite <- HS;
        (eexists; split; [eapply nth_set_conn; eassumption|]).
      * left. eexists. reflexivity.
      * right. cbn in *. lia.
      * left. eexists. reflexivity.
    + destruct HR as [(ws' & HR)|HR]; [discriminate|].
      destruct (write_packet q ws); try discriminate; injection HS as HS; rewrite <- HS; (eexists; split; [eapply nth_set_conn; eassumption|]).
      * right. exact HR.
      * right. exact HR.
      * left. eexists. reflexivity.
  - destruct (live_conn_frame j to c Hc) as (c2 & Hc2 & _ & _ & _ & F). destruct (F EW) as (_ & F1 & more & F2 & F3).
    exists c2. split; [exact Hc2|]. rewrite F3, app_nil_r in F2 by exact ER. rewrite F2.
    destruct HR as [(ws & HR)|HR]; [left|now right]. rewrite HR in F1. destruct (c_writer c2); try destruct F1. eauto.
Qed.

(** ** The handler goes on *)

Lemma live_idle_comes p : forall tx i, hdl (run i) = HBusy tx p -> exists j, i <= j /\ (live_dead j
  \/ hdl (run j) = HIdle /\ handled (run j) = handled (run i) /\ exists more, events (run j) = events (run i) ++ more).
Proof.
  assert (ONE : forall tx p i (R : nat -> Prop), hdl (run i) = HBusy tx p -> R i ->
    (forall j, R j -> runs THandler (own (lab j)) = true \/ R (S j)) ->
    (forall j, i <= j -> live_same i j -> R j -> step auth dbg (run j) (LHandler 0) <> None) ->
    exists j now, i <= j /\ live_same i j /\ R j /\ step auth dbg (run j) (LHandler now) = Some (run (S j))).
  { intros tx q i R EH HR HN HC.
    destruct (live_until (fun j => live_same i j /\ R j) (fun _ => False) THandler i) as (j & Hj & K).
    - split; [apply live_same_refl|exact HR].
    - intros j Hj (H1 & H2). destruct (live_same_next i j _ _ EH H1) as [K|K]; [now left|].
      destruct (HN j H2) as [K'|K']; [now left|]. auto.
    - intros j Hj (H1 & H2). exists (LHandler 0). split; [reflexivity|]. now apply HC.
    - destruct K as [((H1 & H2) & H3)|[]]. destruct (own_handler j H3) as (now & _ & HS). exists j, now. auto. }
  assert (RN : forall tx q i j, hdl (run i) = HBusy tx q -> live_same i j -> running (run j) = true).
  { intros tx q i j EH (H1 & _). apply live_running. unfold live_alive. now rewrite H1, EH. }
  assert (NEXT : forall tx tx' q q' i j, hdl (run i) = HBusy tx q -> live_same i j -> i <= j ->
    hdl (run (S j)) = HBusy tx' q' -> handled (run (S j)) = handled (run j) -> events (run (S j)) = events (run j) ->
    (forall tx i, hdl (run i) = HBusy tx q' -> exists j, i <= j /\ (live_dead j
      \/ hdl (run j) = HIdle /\ handled (run j) = handled (run i) /\ exists more, events (run j) = events (run i) ++ more)) ->
    exists j, i <= j /\ (live_dead j
      \/ hdl (run j) = HIdle /\ handled (run j) = handled (run i) /\ exists more, events (run j) = events (run i) ++ more)).
  { intros tx tx' q q' i j EH (H1 & H2 & _ & m & H3) Hj K1 K2 K3 IH.
    destruct (IH tx' (S j) K1) as (j' & Hj' & [K|(K4 & K5 & m' & K6)]); exists j'; (split; [lia|]); [now left|right].
    split; [exact K4|]. split; [congruence|]. exists (m ++ m'). rewrite K6, K3, H3. now rewrite app_assoc. }
  induction p as [| |R op f IH|to e p IH]; intros tx i EH.
  - destruct (ONE tx Done i (fun _ => True) EH I) as (j & now & Hj & HP & _ & HS); [auto|intros j Hj HP _; unfold step, step_handler; pose proof HP as (H1 & _); rewrite (RN _ _ _ _ EH HP), H1, EH; discriminate|].
    pose proof HP as (H1 & H2 & _ & m & H3).
    unfold step, step_handler in HS. rewrite (RN _ _ _ _ EH HP), H1, EH in HS. injection HS as HS.
    exists (S j). split; [lia|]. right. rewrite <- HS. cbn. rewrite H2, H3. repeat split. eauto.
  - destruct (ONE tx Panic i (fun _ => True) EH I) as (j & now & Hj & HP & _ & HS); [auto|intros j Hj HP _; unfold step, step_handler; pose proof HP as (H1 & _); rewrite (RN _ _ _ _ EH HP), H1, EH; discriminate|].
    pose proof HP as (H1 & H2 & _ & m & H3).
    unfold step, step_handler in HS. rewrite (RN _ _ _ _ EH HP), H1, EH in HS. injection HS as HS.
    exists (S j). split; [lia|]. left. unfold live_dead. rewrite <- HS. reflexivity.
  - destruct (ONE tx (Call op f) i (fun _ => True) EH I) as (j & now & Hj & HP & _ & HS); [auto|intros j Hj HP _; unfold step, step_handler; pose proof HP as (H1 & _); rewrite (RN _ _ _ _ EH HP), H1, EH; destruct (serve _ op); discriminate|].
    pose proof HP as (H1 & _).
    unfold step, step_handler in HS. rewrite (RN _ _ _ _ EH HP), H1, EH in HS. destruct (serve _ op) as [m r]. injection HS as HS.
    apply (NEXT tx tx (Call op f) (f r) i j EH HP Hj); [now rewrite <- HS|now rewrite <- HS|now rewrite <- HS|exact (IH r)].
  - destruct (live_room_comes i tx to e p EH) as (j0 & Hj0 & HP0 & HR0).
    assert (EH0 : hdl (run j0) = HBusy tx (Send to e p)) by (destruct HP0 as (-> & _); exact EH).
    destruct (ONE tx (Send to e p) j0 (fun j => room (run j) to) EH0 HR0) as (j & now & Hj & HP & (c & Hc & HR) & HS).
    { intros j. apply live_room_stays. }
    { intros j Hj HP (c & Hc & HR). unfold step, step_handler. pose proof HP as (H1 & _). rewrite (RN _ _ _ _ EH0 HP), H1, EH0, Hc.
      destruct HR as [(ws & ->)|HR]; [discriminate|]. apply Nat.ltb_lt in HR. rewrite HR. destruct (c_writer c); discriminate. }
    assert (HP' : live_same i j) by (eapply live_same_trans; eauto).
    pose proof HP' as (H1 & _).
    unfold step, step_handler in HS. rewrite (RN _ _ _ _ EH HP'), H1, EH, Hc in HS.
    assert (DEAD : Some (panic_handler (run j)) = Some (run (S j)) -> live_dead (S j)).
    { unfold live_dead. intros [= <-]. reflexivity. }
    assert (GO : Some (set_hdl (HBusy tx p) (set_log (log (run j) ++ [(tx, to, e)]) (set_conn to (set_queue (c_queue c ++ [(tx, e)]) c) (run j)))) = Some (run (S j)) ->
      exists j, i <= j /\ (live_dead j
      \/ hdl (run j) = HIdle /\ handled (run j) = handled (run i) /\ exists more, events (run j) = events (run i) ++ more)).
    { intros [= HG]. apply (NEXT tx tx (Send to e p) p i j EH HP'); [lia|now rewrite <- HG|now rewrite <- HG|now rewrite <- HG|exact IH]. }
    destruct (c_writer c); try (destruct (_ <? _); [|discriminate]); auto.
    exists (S j). split; [lia|]. left. now apply DEAD.
Qed.

(** An event waiting is taken. *)
Lemma live_takes i : live_alive i -> events (run i) <> [] -> exists j, i <= j /\ (live_dead j
  \/ hdl (run j) = HIdle /\ handled (run j) = handled (run i) /\ (exists more, events (run j) = events (run i) ++ more)
     /\ exists now, step auth dbg (run j) (LHandler now) = Some (run (S j))).
Proof.
  intros HA HE.
  assert (K : exists j, i <= j /\ (live_dead j
    \/ hdl (run j) = HIdle /\ handled (run j) = handled (run i) /\ exists more, events (run j) = events (run i) ++ more)).
  { unfold live_alive in HA. destruct (hdl (run i)) as [|tx p| |] eqn:EH; try discriminate HA.
    - exists i. split; [lia|]. right. repeat split; auto. exists []. now rewrite app_nil_r.
    - exact (live_idle_comes p tx i EH). }
  destruct K as (j0 & Hj0 & [K|(K1 & K2 & K3)]); [exists j0; auto|].
  destruct (live_until (fun j => hdl (run j) = HIdle /\ handled (run j) = handled (run i) /\ exists more, events (run j) = events (run i) ++ more)
              live_dead THandler j0) as (j & Hj & H).
  - auto.
  - intros j Hj (H1 & H2 & m & H3). destruct (moment j) as [(l & EL & HS)|(EL & F1 & F2 & _ & _ & F3 & _)].
    2:{ right. left. rewrite F1, F2, F3. eauto. }
    rewrite EL. destruct l as [r w a|k u|k|now| | | | |]; try (left; reflexivity); right;
      try (left; destruct (handler_frame _ _ _ _ _ HS I) as (F1 & F2 & _ & _ & m' & F3);
           rewrite F1, F2, F3, H1, H2, H3, <- app_assoc; repeat split; eauto).
    right. unfold step in HS. rewrite H1 in HS. destruct (running (run j)); [|discriminate].
    destruct (ctrl_c (run j)); [|discriminate]. injection HS as HS. unfold live_dead. now rewrite <- HS.
  - intros j Hj (H1 & H2 & m & H3). exists (LHandler 0). split; [reflexivity|]. unfold step, step_handler.
    rewrite live_running by (unfold live_alive; now rewrite H1). rewrite H1, H3. destruct (events (run i)); [congruence|discriminate].
  - exists j. split; [lia|]. destruct H as [((H1 & H2 & H3) & H4)|H]; [right|now left]. repeat split; auto.
    destruct (own_handler j H4) as (now & _ & HS). eauto.
Qed.

(** All events in the channel are handled. *)
Lemma live_queued_handled es : forall i, (exists more, events (run i) = es ++ more) -> exists j, i <= j /\ (live_dead j
  \/ exists more, map snd (handled (run j)) = map snd (handled (run i)) ++ es ++ more).
Proof.
  induction es as [|e es IH]; intros i (m & Em).
  - exists i. split; [lia|]. right. exists []. now rewrite !app_nil_r.
  - destruct (handler_alive (hdl (run i))) eqn:HA; [|exists i; auto].
    destruct (live_takes i HA) as (j & Hj & [K|(K1 & K2 & (m' & K3) & now & HS)]); [rewrite Em; discriminate|exists j; auto|].
    unfold step, step_handler in HS.
    destruct (running (run j)); [|discriminate]. rewrite K1, K3, Em in HS. cbn [app] in HS. injection HS as HS.
    destruct (IH (S j)) as (j' & Hj' & [K|(m2 & K)]).
    + rewrite <- HS. cbn [events set_hdl set_handled set_events]. exists (m ++ m'). now rewrite app_assoc.
    + exists j'. split; [lia|now left].
    + exists j'. split; [lia|right]. exists m2. rewrite K, <- HS. cbn [handled set_hdl set_handled]. rewrite K2, map_app, <- app_assoc. reflexivity.
Qed.

(** ** The read tasks go on *)

Lemma waits_dec r : waits dbg r \/ ~ waits dbg r.
Proof. destruct r as [rs|e cid rs|cid rs|]; cbn [waits]; auto; destruct (stream_read_packet dbg rs); auto. Qed.

Lemma waits_pend r : waits dbg r -> pend r = [].
Proof. destruct r; cbn; auto. intros []. Qed.

Lemma live_alive_or_dead j : live_alive j \/ live_dead j.
Proof. unfold live_alive, live_dead. destruct (handler_alive (hdl (run j))); auto. Qed.

Section Reader.
Context (k : conn) (ps : list ControlPacket) (bss : list bytes).
Hypothesis HF : Forall2 sent_as ps bss.

Definition has_sent (c : cstate) : Prop := exists rest, arriving (c_rsock c) = concat bss ++ rest.

(** It has read the packets, refused the client, or spins. *)
Definition through (j : nat) : Prop := exists c, nth_error (conns (run j)) k = Some c /\ has_sent c
  /\ (reader_hung dbg c \/ pend (c_reader c) = [] /\ ((exists l, c_read c = ps ++ l) \/ not_connect (c_read c))).

Definition to_do (c : cstate) : nat :=
  match c_reader c with
  | RDone => 0
  | RPush _ _ _ => 2 * (length ps - length (c_read c)) + 1
  | RFirst _ | RLoop _ _ => 2 * (length ps - length (c_read c))
  end.

Lemma waits_through j c : nth_error (conns (run j)) k = Some c -> has_sent c -> waits dbg (c_reader c) -> through j.
Proof.
  intros Hc (rest & HS) HW. exists c. split; [exact Hc|]. split; [now exists rest|].
  destruct (live_waits auth dbg n (run j) k c (lf_reachable j) Hc ps bss rest HS HF HW) as [H|H]; [now left|right].
  split; [now apply waits_pend|exact H].
Qed.

(** Connection [k] still has read what it had read in [c]. *)
Definition stays (c : cstate) (j : nat) : Prop :=
  exists c', nth_error (conns (run j)) k = Some c' /\ has_sent c' /\ c_read c' = c_read c /\ same_place (c_reader c) (c_reader c').

Lemma stays_next c j : stays c j -> runs (TReader k) (own (lab j)) = true \/ stays c (S j).
Proof.
  intros (c' & Hc & (rest & HS) & HR & HP). destruct (runs (TReader k) (own (lab j))) eqn:ER; [now left|right].
  destruct (live_conn_frame j k c' Hc) as (c2 & Hc2 & _ & (z & Hz) & F & _). destruct (F ER) as (F1 & F2).
  exists c2. split; [exact Hc2|]. split; [exists (rest ++ z); now rewrite Hz, HS, app_assoc|]. split; [congruence|]. eapply same_place_trans; eauto.
Qed.

Lemma stays_self c j : nth_error (conns (run j)) k = Some c -> has_sent c -> stays c j.
Proof. intros Hc HS. exists c. repeat split; auto. apply same_place_refl. Qed.

(** A step of it. *)
Lemma reader_steps c j : stays c j -> runs (TReader k) (own (lab j)) = true -> live_alive j ->
  match c_reader c with RFirst _ | RLoop _ _ => length (c_read c) < length ps | _ => True end ->
  exists c', nth_error (conns (run (S j))) k = Some c' /\ has_sent c' /\ to_do c' < to_do c.
Proof.
  intros (c' & Hc & HS & HR & HP) ER HA HD. destruct (own_reader j k ER) as (u & _ & ST).
  unfold step, step_reader in ST. destruct (running (run j)); [|discriminate]. rewrite Hc in ST.
  assert (D : forall c2 s, Some s = Some (run (S j)) -> nth_error (conns s) k = Some c2 -> c_rsock c2 = c_rsock c' -> to_do c2 < to_do c ->
    exists c', nth_error (conns (run (S j))) k = Some c' /\ has_sent c' /\ to_do c' < to_do c).
  { intros c2 s [= <-] H1 H2 H3. exists c2. split; [exact H1|]. split; [unfold has_sent in *; now rewrite H2|exact H3]. }
  unfold to_do in *. rewrite HR in *.
  destruct (c_reader c) as [rs|e cid rs|cid rs|] eqn:E1, (c_reader c') as [rs'|e' cid' rs'|cid' rs'|] eqn:E2; try destruct HP; try discriminate.
  - destruct (stream_read_packet dbg rs') as [p rs2|e| | | |]; try discriminate.
    + destruct p; (eapply D; [exact ST|eapply nth_set_conn; eassumption|reflexivity|cbn [c_reader c_read set_reader set_read]; rewrite ?app_length; cbn [length]; lia]).
    + eapply D; [exact ST|eapply nth_set_conn; eassumption|reflexivity|cbn [c_reader c_read set_reader set_read]; lia].
    + eapply D; [exact ST|eapply nth_set_conn; eassumption|reflexivity|cbn [c_reader c_read set_reader set_read]; lia].
  - destruct (handler_alive (hdl (run j))); [destruct (_ <? _); [|discriminate]|].
    + eapply D; [exact ST|eapply nth_set_conn; cbn [conns set_events]; eassumption|reflexivity|cbn [c_reader c_read set_reader set_read]; rewrite HR; lia].
    + eapply D; [exact ST|eapply nth_set_conn; eassumption|reflexivity|cbn [c_reader c_read set_reader set_read]; rewrite HR; lia].
  - destruct (stream_read_packet dbg rs') as [p rs2|e'| | | |]; try discriminate.
    + eapply D; [exact ST|eapply nth_set_conn; eassumption|reflexivity|cbn [c_reader c_read set_reader set_read]; rewrite ?app_length; cbn [length]; lia].
    + eapply D; [exact ST|eapply nth_set_conn; eassumption|reflexivity|cbn [c_reader c_read set_reader set_read]; lia].
    + eapply D; [exact ST|eapply nth_set_conn; eassumption|reflexivity|cbn [c_reader c_read set_reader set_read]; lia].
Qed.

Lemma live_reader_comes r : forall i c, nth_error (conns (run i)) k = Some c -> has_sent c -> to_do c < r ->
  exists j, i <= j /\ (live_dead j \/ through j).
Proof.
  induction r as [|r IH]; intros i c Hc HS Hr; [lia|].
  assert (TAKEN : forall j, i <= j -> stays c j -> runs (TReader k) (own (lab j)) = true -> 
    match c_reader c with RFirst _ | RLoop _ _ => length (c_read c) < length ps | _ => True end ->
    exists j, i <= j /\ (live_dead j \/ through j)).
  { intros j Hj HSt HL HD. destruct (live_alive_or_dead j) as [HA|HA]; [|exists j; auto].
    destruct (reader_steps c j HSt HL HA HD) as (c2 & Hc2 & HS2 & L).
    destruct (IH (S j) c2 Hc2 HS2) as (j' & Hj' & K); [lia|]. exists j'. split; [lia|exact K]. }
  assert (READ : match c_reader c with RFirst _ | RLoop _ _ => True | _ => False end ->
    exists j, i <= j /\ (live_dead j \/ through j)).
  { intros HRd. destruct (live_alive_or_dead i) as [HA|HA]; [|exists i; auto].
    destruct (Nat.lt_ge_cases (length (c_read c)) (length ps)) as [L|L].
    2:{ exists i. split; [lia|right]. exists c. split; [exact Hc|]. split; [exact HS|]. right. split; [destruct (c_reader c); try destruct HRd; reflexivity|left].
        destruct HS as (rest & HS). exact (live_read_prefix auth dbg n (run i) k c (lf_reachable i) Hc ps bss rest HS HF L). }
    destruct (waits_dec (c_reader c)) as [HW|HW]; [exists i; split; [lia|right]; now apply (waits_through i c)|].
    destruct (live_until (fun j => live_alive j /\ exists c', nth_error (conns (run j)) k = Some c' /\ has_sent c' /\ c_read c' = c_read c /\ same_place (c_reader c) (c_reader c')
        /\ ~ waits dbg (c_reader c')) (fun j => live_dead j \/ through j) (TReader k) i) as (j & Hj & K).
    - split; [exact HA|]. exists c. repeat split; auto. apply same_place_refl.
    - intros j Hj (H1 & c' & H2 & H3 & H4 & H5 & H6). destruct (stays_next c j) as [K|(c2 & K1 & K2 & K3 & K4)]; [now exists c'|now left|right].
      destruct (live_alive_or_dead (S j)) as [HAj|HAj]; [|auto].
      destruct (waits_dec (c_reader c2)) as [HW2|HW2]; [right; right; now apply (waits_through (S j) c2)|left]. split; [exact HAj|]. exists c2. auto.
    - intros j Hj (H1 & c' & H2 & H3 & H4 & H5 & H6). exists (LReader k []). split; [cbn; apply Nat.eqb_refl|].
      unfold step, step_reader. rewrite (live_running j H1), H2.
      destruct (c_reader c) as [rs|e cid rs|cid rs|], (c_reader c') as [rs'|e' cid' rs'|cid' rs'|]; try destruct HRd; try destruct H5; cbn [waits] in H6.
      + destruct (stream_read_packet dbg rs') as [p ?| | | | |]; try discriminate; try (now destruct H6). destruct p; discriminate.
      + destruct (stream_read_packet dbg rs') as [p ?| | | | |]; try discriminate; now destruct H6.
    - destruct K as [((_ & c' & H2 & H3 & H4 & H5 & _) & H6)|K]; [|exists j; auto].
      apply (TAKEN j Hj); [exists c'; auto|exact H6|]. destruct (c_reader c); try destruct HRd; exact L. }
  destruct (c_reader c) as [rs|e cid rs|cid rs|] eqn:ER; [now apply READ| |now apply READ|].
  2:{ exists i. split; [lia|right]. apply (waits_through i c Hc HS). rewrite ER. exact I. }
  (* a place in the channel *)
  set (G := exists j, i <= j /\ stays c j /\ runs (TReader k) (own (lab j)) = true).
  set (E := exists j, i <= j /\ (live_dead j \/ through j)).
  assert (W : forall j, i <= j -> G \/ stays c j).
  { intros j Hj. induction Hj as [|j Hj [K|K]]; [right; now apply stays_self|now left|].
    destruct (stays_next c j K) as [K'|K']; [left; exists j; auto|now right]. }
  assert (ROOM : forall j, live_alive j -> stays c j -> length (events (run j)) < channel_size -> can auth dbg (TReader k) (run j)).
  { intros j HA (c' & H1 & _ & _ & H2) L. exists (LReader k []). split; [cbn; apply Nat.eqb_refl|]. unfold step, step_reader.
    rewrite (live_running j HA), H1. rewrite ER in H2. destruct (c_reader c'); try destruct H2. unfold live_alive in HA. rewrite HA.
    apply Nat.ltb_lt in L. rewrite L. discriminate. }
  destruct (lf_places _ _ _ _ _ FR k c e cid rs (fun _ => G \/ E) i Hc ER) as (j & Hj & [K|[K|K]]).
  - intros j Hj. destruct (W j Hj) as [K|K]; [exists j; auto|].
    destruct (live_alive_or_dead j) as [HA|HA]; [|exists j; split; [lia|right; right; exists j; auto]].
    destruct (Nat.lt_ge_cases (length (events (run j))) channel_size) as [L|L]; [exists j; auto|].
    destruct (live_takes j HA) as (j1 & Hj1 & [K'|(K1 & K2 & (m & K3) & now & ST)]).
    { intros E0. rewrite E0 in L. cbn in L. unfold channel_size in L. lia. }
    { exists j1. split; [lia|right; right]. exists j1. split; [lia|now left]. }
    exists (S j1). split; [lia|]. destruct (W (S j1)) as [K'|K']; [lia|auto|left]. 
    pose proof (proj1 (live_bounded auth dbg n (run j1) (lf_reachable j1))) as B.
    unfold step, step_handler in ST. destruct (running (run j1)); [|discriminate]. rewrite K1 in ST.
    destruct (events (run j1)) as [|e0 es] eqn:EE; [discriminate|]. injection ST as ST.
    apply ROOM; [unfold live_alive; rewrite <- ST; reflexivity|exact K'|]. rewrite <- ST. cbn [events set_hdl set_handled set_events]. cbn [length] in B. lia.
  - destruct (W j Hj) as [(j1 & H1 & H2 & H3)|K']; [exact (TAKEN j1 H1 H2 H3 I)|exact (TAKEN j Hj K' K I)].
  - destruct K as (j1 & H1 & H2 & H3). exact (TAKEN j1 H1 H2 H3 I).
  - exact K.
Qed.
End Reader.

(** ** The write tasks go on *)

Lemma live_log_grows i j : i <= j -> exists more, log (run j) = log (run i) ++ more.
Proof.
  induction 1 as [|j Hj (m & IH)]; [exists []; now rewrite app_nil_r|].
  assert (K : exists m', log (run (S j)) = log (run j) ++ m').
  { assert (SAME : log (run (S j)) = log (run j) -> exists m', log (run (S j)) = log (run j) ++ m').
    { intros ->. exists []. now rewrite app_nil_r. }
    destruct (moment j) as [(l & _ & HS)|(_ & _ & _ & HS & _)]; [|now apply SAME].
    destruct l as [r w a|k u|k|now| | | | |]; try (apply SAME; now destruct (handler_frame _ _ _ _ _ HS I) as (_ & _ & -> & _)).
    - unfold step, step_handler in HS. destruct (running (run j)); [|discriminate].
      destruct (hdl (run j)) as [|tx p| |]; try discriminate.
      + destruct (events (run j)); [discriminate|]. injection HS as HS. apply SAME. now rewrite <- HS.
      + destruct p as [| |R op f|to e p].
        * injection HS as HS. apply SAME. now rewrite <- HS.
        * injection HS as HS. apply SAME. now rewrite <- HS.
        * destruct (serve _ op). injection HS as HS. apply SAME. now rewrite <- HS.
        * destruct (nth_error _ to) as [c|]; [|discriminate].
          destruct (c_writer c); try (destruct (_ <? _); [|discriminate]); injection HS as HS; rewrite <- HS; cbn; eauto.
          exists []. now rewrite app_nil_r.
    - unfold step in HS. destruct (running (run j)); [|discriminate]. destruct (hdl (run j)); try discriminate.
      destruct (ctrl_c (run j)); [|discriminate]. injection HS as HS. apply SAME. now rewrite <- HS. }
  destruct K as (m' & K). exists (m ++ m'). now rewrite K, IH, app_assoc.
Qed.

Lemma live_handled_grows i j : i <= j -> exists more, handled (run j) = handled (run i) ++ more.
Proof.
  induction 1 as [|j Hj (m & IH)]; [exists []; now rewrite app_nil_r|].
  assert (K : exists m', handled (run (S j)) = handled (run j) ++ m').
  { assert (SAME : handled (run (S j)) = handled (run j) -> exists m', handled (run (S j)) = handled (run j) ++ m').
    { intros ->. exists []. now rewrite app_nil_r. }
    destruct (moment j) as [(l & _ & HS)|(_ & _ & HS & _)]; [|now apply SAME].
    destruct l as [r w a|k u|k|now| | | | |]; try (apply SAME; now destruct (handler_frame _ _ _ _ _ HS I) as (_ & -> & _)).
    - unfold step, step_handler in HS. destruct (running (run j)); [|discriminate].
      destruct (hdl (run j)) as [|tx p| |]; try discriminate.
      + destruct (events (run j)); [discriminate|]. injection HS as HS. rewrite <- HS. cbn. eauto.
      + destruct p as [| |R op f|to e p].
        * injection HS as HS. apply SAME. now rewrite <- HS.
        * injection HS as HS. apply SAME. now rewrite <- HS.
        * destruct (serve _ op). injection HS as HS. apply SAME. now rewrite <- HS.
        * destruct (nth_error _ to) as [c|]; [|discriminate].
          destruct (c_writer c); try (destruct (_ <? _); [|discriminate]); injection HS as HS; apply SAME; now rewrite <- HS.
    - unfold step in HS. destruct (running (run j)); [|discriminate]. destruct (hdl (run j)); try discriminate.
      destruct (ctrl_c (run j)); [|discriminate]. injection HS as HS. apply SAME. now rewrite <- HS. }
  destruct K as (m' & K). exists (m ++ m'). now rewrite K, IH, app_assoc.
Qed.

Lemma live_conn_stays i j k c : i <= j -> nth_error (conns (run i)) k = Some c ->
  exists c', nth_error (conns (run j)) k = Some c' /\ c_addr c' = c_addr c /\ exists z, arriving (c_rsock c') = arriving (c_rsock c) ++ z.
Proof.
  intros Hj Hk. induction Hj as [|j Hj (c' & H1 & H2 & z & H3)]; [exists c; repeat split; auto; exists []; now rewrite app_nil_r|].
  destruct (live_conn_frame j k c' H1) as (c2 & K1 & K2 & (z' & K3) & _). exists c2. split; [exact K1|]. split; [congruence|].
  exists (z ++ z'). now rewrite K3, H3, app_assoc.
Qed.

Definition live_due (k : conn) (i : nat) : list ControlPacket := before_close (map snd (put_to k (log (run i)))).

Lemma live_due_sent k i j c : i <= j -> nth_error (conns (run j)) k = Some c ->
  match c_writer c with WClosed _ => True | WIdle _ => c_queue c = [] \/ length (live_due k i) <= length (c_sent c) | WBusy _ _ => False end ->
  exists rest, map snd (c_sent c) = live_due k i ++ rest.
Proof.
  intros Hj Hk HC. pose proof (live_queue auth dbg n (run j) (lf_reachable j) k c Hk) as HQ.
  assert (M : map snd (map as_sent (c_sent c)) = map ServerPacket (map snd (c_sent c))).
  { rewrite !map_map. reflexivity. }
  assert (G : exists r, live_due k j = live_due k i ++ r).
  { unfold live_due. destruct (live_log_grows i j Hj) as (m & ->). rewrite put_to_app, map_app. apply before_close_snoc. }
  destruct G as (r & G). unfold live_due in G at 1.
  destruct (c_writer c) as [ws|p ws|ws]; [|destruct HC|].
  - rewrite HQ, map_app, M, before_close_sent in G. destruct HC as [HC|HC].
    + rewrite HC, app_nil_r in G. eauto.
    + apply (app_prefix _ _ _ _ G). now rewrite map_length.
  - destruct HQ as [HQ|(f & r' & HQ)]; rewrite HQ in G.
    + rewrite M, <- (app_nil_r (map ServerPacket _)), before_close_sent, app_nil_r in G. eauto.
    + rewrite map_app, M, before_close_sent in G. cbn in G. rewrite app_nil_r in G. eauto.
Qed.

Lemma live_running_or j : running (run j) = true \/ running (run j) = false.
Proof. destruct (running (run j)); auto. Qed.

Lemma live_writer_turn k i c : nth_error (conns (run i)) k = Some c ->
  (forall j c', nth_error (conns (run j)) k = Some c' -> running (run j) = true -> same_write (c_writer c) (c_writer c') ->
     (exists more, c_queue c' = c_queue c ++ more) -> step auth dbg (run j) (LWriter k) <> None) ->
  exists j, i <= j /\ (running (run j) = false \/ exists c', nth_error (conns (run j)) k = Some c' /\ same_write (c_writer c) (c_writer c')
    /\ c_sent c' = c_sent c /\ (exists more, c_queue c' = c_queue c ++ more) /\ step auth dbg (run j) (LWriter k) = Some (run (S j))).
Proof.
  intros Hk HC.
  destruct (live_running_or i) as [HR|HR]; [|exists i; auto].
  destruct (live_until (fun j => running (run j) = true /\ exists c', nth_error (conns (run j)) k = Some c' /\ same_write (c_writer c) (c_writer c')
    /\ c_sent c' = c_sent c /\ (exists more, c_queue c' = c_queue c ++ more)) (fun j => running (run j) = false) (TWriter k) i) as (j & Hj & K).
  - split; [exact HR|]. exists c. repeat split; auto; [apply same_write_refl|]. exists []. now rewrite app_nil_r.
  - intros j Hj (_ & c' & H1 & H2 & H3 & m & H4).
    destruct (runs (TWriter k) (own (lab j))) eqn:ER; [now left|right].
    destruct (live_running_or (S j)) as [HR'|HR']; [left; split; [exact HR'|]|now right].
    destruct (live_conn_frame j k c' H1) as (c2 & Hc2 & _ & _ & _ & F). destruct (F ER) as (F1 & F2 & m' & F3 & _).
    exists c2. split; [exact Hc2|]. split; [eapply same_write_trans; eauto|]. split; [congruence|]. exists (m ++ m'). now rewrite F3, H4, app_assoc.
  - intros j Hj (H0 & c' & H1 & H2 & H3 & H4). exists (LWriter k). split; [cbn; apply Nat.eqb_refl|]. now apply (HC j c').
  - exists j. split; [exact Hj|]. destruct K as [((_ & c' & H1 & H2 & H3 & H4) & H5)|K]; [right|now left].
    exists c'. destruct (own_writer j k H5) as (_ & HS). auto.
Qed.

Lemma live_writer_done k i c : nth_error (conns (run i)) k = Some c ->
  exists j, i <= j /\ (running (run j) = false \/ exists c', nth_error (conns (run j)) k = Some c' /\ writer_free c'
    /\ length (c_sent c) <= length (c_sent c')).
Proof.
  intros Hk. destruct (c_writer c) as [ws|q ws|ws] eqn:EW;
    try (exists i; split; [lia|right]; exists c; split; [exact Hk|]; split; [intros p' ws'; rewrite EW; discriminate|lia]).
  destruct (live_writer_turn k i c Hk) as (j & Hj & [K|(c' & H1 & H2 & H3 & H4 & H5)]).
  - intros j c' H1 H2 H3 _. unfold step, step_writer. rewrite H2, H1. rewrite EW in H3. destruct (c_writer c') as [ws'|q' ws'|ws'] eqn:EW'; try destruct H3.
    pose proof (live_busy auth dbg n (run j) (lf_reachable j) k c' q' ws' H1 EW') as B.
    destruct (write_packet q' ws'); try discriminate; try contradiction. destruct (NB j k c' H1 B).
  - exists j. auto.
  - exists (S j). split; [lia|right]. unfold step, step_writer in H5. destruct (running (run j)); [|discriminate]. rewrite H1 in H5.
    rewrite EW in H2. destruct (c_writer c') as [ws'|q' ws'|ws'] eqn:EW'; try destruct H2.
    destruct (write_packet q' ws'); try discriminate; injection H5 as H5; rewrite <- H5;
      (eexists; split; [eapply nth_set_conn; eassumption|]; split; [intros ? ?; cbn; discriminate|cbn; rewrite H3; lia]).
Qed.

Lemma live_sent_comes k i0 d : forall i c, i0 <= i -> nth_error (conns (run i)) k = Some c ->
  length (live_due k i0) <= d + length (c_sent c) ->
  exists j, i <= j /\ (running (run j) = false \/ exists c', nth_error (conns (run j)) k = Some c' /\ writer_free c'
    /\ exists rest, map snd (c_sent c') = live_due k i0 ++ rest).
Proof.
  induction d as [|d IH]; intros i c Hi Hk HL;
    (destruct (live_writer_done k i c Hk) as (j & Hj & [K|(c1 & H1 & H2 & H3)]); [exists j; auto|]).
  - exists j. split; [exact Hj|right]. exists c1. split; [exact H1|]. split; [exact H2|].
    apply (live_due_sent k i0 j c1); [lia|exact H1|]. pose proof H2 as H2'. unfold writer_free in H2'. destruct (c_writer c1) as [ws|p ws|ws] eqn:EW; [right; cbn in HL; lia|now apply (H2' p ws)|exact I].
  - destruct (c_writer c1) as [ws|p ws|ws] eqn:EW; [|now destruct (H2 p ws)|].
    2:{ exists j. split; [exact Hj|right]. exists c1. split; [exact H1|]. split; [exact H2|].
        apply (live_due_sent k i0 j c1); [lia|exact H1|]. now rewrite EW. }
    destruct (c_queue c1) as [|[f e] q] eqn:EQ.
    { exists j. split; [exact Hj|right]. exists c1. split; [exact H1|]. split; [exact H2|].
      apply (live_due_sent k i0 j c1); [lia|exact H1|]. rewrite EW. now left. }
    destruct (live_writer_turn k j c1 H1) as (j' & Hj' & [K|(c2 & K1 & K2 & K3 & (m & K4) & K5)]).
    + intros j2 c' P1 P2 P3 (m & P4). unfold step, step_writer. rewrite P2, P1. rewrite EW in P3. destruct (c_writer c'); try destruct P3.
      rewrite P4, EQ. destruct e; discriminate.
    + exists j'. split; [lia|now left].
    + unfold step, step_writer in K5. destruct (running (run j')); [|discriminate]. rewrite K1, K4, EQ in K5.
      rewrite EW in K2. destruct (c_writer c2) as [ws2|q2 ws2|ws2] eqn:EW2; try destruct K2. cbn [app] in K5.
      destruct e as [p|]; injection K5 as K5.
      * destruct (IH (S j') (set_writer (WBusy p ws2) (set_queue (q ++ m) (set_sent (c_sent c2 ++ [(f, p)]) c2)))) as (j2 & Hj2 & K).
        { lia. } { rewrite <- K5. eapply nth_set_conn. eassumption. } { cbn. rewrite K3, app_length. cbn. lia. }
        exists j2. split; [lia|exact K].
      * exists (S j'). split; [lia|right]. assert (Hn := K5). apply (f_equal (fun s => nth_error (conns s) k)) in Hn.
        erewrite nth_set_conn in Hn by exact K1. symmetry in Hn. eexists. split; [exact Hn|].
        split; [intros ? ?; cbn; discriminate|]. eapply live_due_sent; [|exact Hn|exact I]. lia.
Qed.
End LiveFair.
