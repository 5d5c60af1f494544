(** Properties C64-C82: rules of MQTT 3.1.1 for servers, and what this broker does instead where it
    breaks them. [Cnn_statement] is the rule, [.._refuted] shows a run that breaks it, and the other
    theorems say what the broker does. A state of rest (C61) shows that nothing more will happen. *)
From Verif Require Import Base Base_facts Packets HashMap Subscriptions Messaging Handler Decoder ReadStream
  Conn Encoder WriteStream Spec_wire Spec_subs Spec_broker Spec_ref Subscriptions_facts Handler_facts System System_facts
  System_hist System_conn System_queue System_first System_progress System_exit System_rest
  Prop_subs Prop_stream Prop_broker Prop_system Prop_rest.
Open Scope N_scope.

(** The broker is up, every socket takes what is written, and nothing is left to do. *)
Definition quiet auth dbg (n : nat) (s : sys) : Prop :=
  reachable auth dbg n s /\ at_rest auth dbg s
  /\ (forall k c, nth_error (conns s) k = Some c -> ~ blocks (c_wsock c))
  /\ handler_alive (hdl s) = true.

Definition quietb dbg (s : sys) : bool :=
  idleb dbg s && handler_alive (hdl s)
  && forallb (fun c => forallb (fun a => match a with WBlock => false | _ => true end) (wacts (c_wsock c))) (conns s).

Lemma quiet_run auth dbg n ls : quietb dbg (drive auth dbg (sys_init n) ls) = true ->
  quiet auth dbg n (drive auth dbg (sys_init n) ls).
Proof.
  intros K. split; [apply drive_reachable|]. generalize dependent (drive auth dbg (sys_init n) ls). intros s K.
  apply andb_true_iff in K. destruct K as (K & K3). apply andb_true_iff in K. destruct K as (K1 & K2).
  split; [|split; [|exact K2]].
  - intros l Hl. destruct (step auth dbg s l) as [s'|] eqn:E; [|reflexivity]. exfalso. exact (idleb_idle auth dbg s K1 l s' Hl E).
  - intros k c Hk Hb. apply nth_error_In in Hk. rewrite forallb_forall in K3. specialize (K3 c Hk).
    rewrite forallb_forall in K3. specialize (K3 WBlock Hb). discriminate.
Qed.

Definition nobody_closed (s : sys) : bool := forallb (fun x => match snd x with ServerDisconnect => false | _ => true end) (log s).

Lemma nobody_told s k : nobody_closed s = true -> ~ told_to_close s k.
Proof. intros K (f & Hf). unfold nobody_closed in K. rewrite forallb_forall in K. specialize (K _ Hf). discriminate. Qed.

(** Every packet sent comes from handling some event. *)
Lemma sent_cause auth dbg n s k c p : reachable auth dbg n s -> nth_error (conns s) k = Some c -> In p (broker_sent c) ->
  exists h te r m, handled s = h ++ te :: r /\ after auth h m /\ In (k, ServerPacket p) (replies auth m te).
Proof.
  intros HR Hk Hp. apply in_map_iff in Hp. destruct Hp as ((f & q) & E & Hin). cbn [snd] in E. subst q.
  pose proof (in_sent_log auth dbg n s k c f p HR Hk Hin) as Hl.
  destruct (log_cause auth dbg n s f k _ HR Hl) as (h1 & te & h2 & m1 & l1 & Eh & Ha & _ & Hr).
  exists h1, te, h2, m1. split; [exact Eh|]. split; [exists l1; exact Ha|exact Hr].
Qed.

(** What one event can make the broker send, by packet. *)
Lemma reply_cases auth m te k p : In (k, ServerPacket p) (replies auth m te) ->
  match p with
  | ConnAck a => (exists c ad, snd te = Connected c ad k) /\ session_present a = false
                 /\ (return_code a = Accepted \/ return_code a = NotAuthorized)
  | SubAck i codes => exists cid subs, snd te = ClientPacket cid (Subscribe i subs) k /\ codes = map (fun _ => SuccessQoS0) subs
  | UnsubAck i => exists cid fs, snd te = ClientPacket cid (Unsubscribe i fs) k
  | PingResp => exists cid, snd te = ClientPacket cid PingReq k
  | Publish q => exists cid j, snd te = ClientPacket cid (Publish q) j
  | _ => False
  end.
Proof.
  destruct te as [now e]. unfold replies. cbn [snd]. destruct e as [c a k0|cid q k0|cid|cid].
  - destruct (connect_cases auth c) as [A|[A|(u & H1 & H2)]].
    + rewrite (handle_accepted auth m now c a k0 A). intros [[= -> <-]|[]]. split; [eauto|]. auto.
    + rewrite (handle_rejected auth m now c a k0 A). intros [[= -> <-]|[H|[]]]; [split; [eauto|]; auto|discriminate].
    + rewrite (handle_no_password auth m now c a k0 u H1 H2). intros [].
  - destruct (ignored q) eqn:EI; [rewrite handle_ignored by exact EI; intros []|]. destruct q; try discriminate EI.
    + rewrite handle_publish. cbn [fst snd]. intros H. apply in_map_iff in H. destruct H as (r & [= _ <-] & _). eauto.
    + rewrite handle_subscribe. intros [[= -> <-]|[]]. eauto.
    + rewrite handle_unsubscribe. intros [[= -> <-]|[]]. eauto.
    + rewrite handle_ping. intros [H|[]]. destruct (session_exists m cid); [|discriminate]. injection H as -> <-. eauto.
    + rewrite handle_disconnect. intros [].
  - intros [].
  - intros [].
Qed.

(** ** C64 *)

(** A QoS 1 message is acknowledged. *)
Definition C64_statement : Prop := forall auth dbg n s k c p qs q i, quiet auth dbg n s ->
  nth_error (conns s) k = Some c -> client_sends dbg c = Connect p :: qs -> In (Publish q) qs ->
  qos (message q) = AtLeastOnce -> pub_packet_id q = Some i -> ~ told_to_close s k -> In (PubAck i) (broker_sent c).

Definition ex_one (ps : list ControlPacket) : list label :=
  [LAccept (ex_peer ps PeerOpen) (ex_socket []) 1] ++ ex_rounds 30 [0%nat].

Definition ex_qos1 (t : String.string) (i : N) : PublishPacket := PublishPacket_new (str t) (str "x") AtLeastOnce false (Some i) false.
Arguments ex_qos1 t%string i.

Lemma unacknowledged : exists s c, quiet ex_deny true 1 s /\ nth_error (conns s) 0 = Some c /\ nobody_closed s = true
  /\ client_sends true c = [ex_client "p" None None; Publish (ex_qos1 "a" 7)]
  /\ broker_sent c = [ConnAck {| session_present := false; return_code := Accepted |}].
Proof.
  eexists. eexists. split; [apply (quiet_run ex_deny true 1 (ex_one [ex_client "p" None None; Publish (ex_qos1 "a" 7)])); vm_compute; reflexivity|].
  split; [vm_compute; reflexivity|]. split; [vm_compute; reflexivity|]. split; vm_compute; reflexivity.
Qed.

Theorem C64_qos1_acknowledged_refuted : ~ C64_statement.
Proof.
  intros H. destruct unacknowledged as (s & c & Q & Hk & Hn & Hc & Hb).
  specialize (H ex_deny true 1%nat s 0%nat c _ _ (ex_qos1 "a" 7) 7 Q Hk Hc (or_introl eq_refl) eq_refl eq_refl (nobody_told s 0%nat Hn)).
  rewrite Hb in H. destruct H as [H|[]]. discriminate.
Qed.

(** The only packets the broker ever sends: no PUBACK, PUBREC, PUBREL or PUBCOMP. *)
Theorem C64_packets_sent auth dbg n s k c p : reachable auth dbg n s -> nth_error (conns s) k = Some c ->
  In p (broker_sent c) ->
  match p with ConnAck _ | SubAck _ _ | UnsubAck _ | PingResp | Publish _ => True | _ => False end.
Proof.
  intros HR Hk Hp. destruct (sent_cause auth dbg n s k c p HR Hk Hp) as (h & te & r & m & _ & _ & Hr).
  apply reply_cases in Hr. destruct p; auto.
Qed.

(** Acknowledgements from clients change nothing and are answered by nothing. *)
Theorem C64_acks_ignored auth m now cid p k :
  match p with PubAck _ | PubRec _ | PubRel _ | PubComp _ => True | _ => False end ->
  next auth m (now, ClientPacket cid p k) = m /\ replies auth m (now, ClientPacket cid p k) = [].
Proof.
  intros H. unfold next, replies. rewrite handle_ignored; [auto|]. destruct p; try destruct H; reflexivity.
Qed.

(** A state of rest after a QoS 1 message without PUBACK. *)
Example C64_case : exists s c, quiet ex_deny true 1 s /\ nth_error (conns s) 0 = Some c
  /\ In (Publish (ex_qos1 "a" 7)) (client_sends true c) /\ length (broker_sent c) = 1%nat.
Proof.
  destruct unacknowledged as (s & c & Q & Hk & _ & Hc & Hb). exists s, c. split; [exact Q|]. split; [exact Hk|].
  rewrite Hc, Hb. split; [right; now left|reflexivity].
Qed.

(** ** C65 *)

(** A client gets messages at no higher QoS than some SUBACK granted it. *)
Definition C65_statement : Prop := forall auth dbg n s k c q, reachable auth dbg n s -> nth_error (conns s) k = Some c ->
  In (Publish q) (broker_sent c) ->
  qos (message q) = AtMostOnce
  \/ exists i codes code, In (SubAck i codes) (broker_sent c) /\ In code codes /\ code <> Failure
       /\ qos_bits (qos (message q)) <= suback_code code.

(** A client that subscribes to "a" and publishes to it. *)
Definition ex_self (q : PublishPacket) : list ControlPacket :=
  [ex_client "c" None None; Subscribe 1 [{| sub_topic := str "a"; sub_qos := ExactlyOnce |}]; Publish q].

Lemma self_served q : quietb true (drive ex_deny true (sys_init 1) (ex_one (ex_self q))) = true ->
  option_map broker_sent (nth_error (conns (drive ex_deny true (sys_init 1) (ex_one (ex_self q)))) 0)
  = Some [ConnAck {| session_present := false; return_code := Accepted |}; SubAck 1 [SuccessQoS0]; Publish q] ->
  exists s c, quiet ex_deny true 1 s /\ nth_error (conns s) 0 = Some c
    /\ broker_sent c = [ConnAck {| session_present := false; return_code := Accepted |}; SubAck 1 [SuccessQoS0]; Publish q].
Proof.
  intros H1 H2. exists (drive ex_deny true (sys_init 1) (ex_one (ex_self q))).
  destruct (nth_error (conns (drive ex_deny true (sys_init 1) (ex_one (ex_self q)))) 0) as [c|]; [|discriminate].
  exists c. split; [now apply quiet_run|]. split; [reflexivity|]. now injection H2.
Qed.

Theorem C65_delivered_at_granted_qos_refuted : ~ C65_statement.
Proof.
  intros H. destruct (self_served (ex_qos1 "a" 7)) as (s & c & (HR & _) & Hk & Hb); [vm_compute; reflexivity|vm_compute; reflexivity|].
  destruct (H ex_deny true 1%nat s 0%nat c (ex_qos1 "a" 7) HR Hk) as [K|(i & codes & code & K1 & K2 & _ & K3)].
  - rewrite Hb. right. right. now left.
  - discriminate.
  - rewrite Hb in K1. destruct K1 as [K1|[K1|[K1|[]]]]; try discriminate. injection K1 as <- <-.
    destruct K2 as [<-|[]]. now apply K3.
Qed.

(** Every SUBACK grants QoS 0 for every filter; the QoS of messages is the publisher's (C50). So the rule
    holds for publishers that use QoS 0. *)
Theorem C65_grants_only_qos0 auth dbg n s k c i codes : reachable auth dbg n s -> nth_error (conns s) k = Some c ->
  In (SubAck i codes) (broker_sent c) -> Forall (eq SuccessQoS0) codes.
Proof.
  intros HR Hk Hp. destruct (sent_cause auth dbg n s k c _ HR Hk Hp) as (h & te & r & m & _ & _ & Hr).
  apply reply_cases in Hr. destruct Hr as (cid & subs & _ & ->). clear. induction subs; cbn [map]; constructor; auto.
Qed.

Theorem C65_qos_of_the_publisher auth dbg n s k c q : reachable auth dbg n s -> nth_error (conns s) k = Some c ->
  (forall j cj q', nth_error (conns s) j = Some cj -> In (Publish q') (client_sends dbg cj) -> qos (message q') = AtMostOnce) ->
  In (Publish q) (broker_sent c) -> qos (message q) = AtMostOnce.
Proof.
  intros HR Hk HP Hp. destruct (C50_no_invented_messages auth dbg n s k c q HR Hk Hp) as (j & cj & Hj & Hq). eauto.
Qed.

(** With a publisher at QoS 0 (all hypotheses of the last theorem). *)
Example C65_case : exists s c, quiet ex_deny true 1 s /\ nth_error (conns s) 0 = Some c
  /\ In (Publish (ex_message "a" "x")) (broker_sent c) /\ qos (message (ex_message "a" "x")) = AtMostOnce.
Proof.
  destruct (self_served (ex_message "a" "x")) as (s & c & Q & Hk & Hb); [vm_compute; reflexivity|vm_compute; reflexivity|].
  exists s, c. split; [exact Q|]. split; [exact Hk|]. rewrite Hb. split; [right; right; now left|reflexivity].
Qed.

(** ** C66 *)

(** A client that sends a second CONNECT is disconnected. *)
Definition C66_statement : Prop := forall auth dbg n s k c p qs p', quiet auth dbg n s ->
  nth_error (conns s) k = Some c -> client_sends dbg c = Connect p :: qs -> In (Connect p') qs -> told_to_close s k.

Theorem C66_second_connect_refuted : ~ C66_statement.
Proof.
  intros H. assert (X : exists s c, quiet ex_deny true 1 s /\ nth_error (conns s) 0 = Some c /\ nobody_closed s = true
    /\ client_sends true c = [ex_client "p" None None; ex_client "q" None None]).
  { eexists. eexists. split; [apply (quiet_run ex_deny true 1 (ex_one [ex_client "p" None None; ex_client "q" None None])); vm_compute; reflexivity|].
    split; [vm_compute; reflexivity|]. split; vm_compute; reflexivity. }
  destruct X as (s & c & Q & Hk & Hn & Hc). apply (nobody_told s 0%nat Hn).
  exact (H ex_deny true 1%nat s 0%nat c _ _ _ Q Hk Hc (or_introl eq_refl)).
Qed.

(** It has no effect at all. *)
Theorem C66_second_connect_ignored auth m now cid p k :
  next auth m (now, ClientPacket cid (Connect p) k) = m /\ replies auth m (now, ClientPacket cid (Connect p) k) = [].
Proof. unfold next, replies. rewrite handle_ignored by reflexivity. auto. Qed.

Example C66_case : exists s c, quiet ex_deny true 1 s /\ nth_error (conns s) 0 = Some c
  /\ length (client_sends true c) = 2%nat /\ length (handled s) = 2%nat /\ length (broker_sent c) = 1%nat.
Proof.
  eexists. eexists. split; [apply (quiet_run ex_deny true 1 (ex_one [ex_client "p" None None; ex_client "q" None None])); vm_compute; reflexivity|].
  split; [vm_compute; reflexivity|]. repeat split; vm_compute; reflexivity.
Qed.

(** ** C67 *)

(** When a client id connects on a second connection, the first is disconnected. *)
Definition C67_statement : Prop := forall auth dbg n s h te k cid k' r, quiet auth dbg n s ->
  handled s = h ++ te :: r -> accepted_on auth cid k' te -> owns auth h k cid -> k <> k' -> told_to_close s k.

Definition ex_takeover : list label :=
  [LAccept (ex_peer [ex_client "c" None None; Subscribe 1 [{| sub_topic := str "a"; sub_qos := AtMostOnce |}]] PeerOpen) (ex_socket []) 1]
  ++ ex_rounds 20 [0%nat]
  ++ [LAccept (ex_peer [ex_client "c" None None] PeerOpen) (ex_socket []) 2] ++ ex_rounds 20 [0%nat; 1%nat].

Lemma taken_over : exists s h te, quiet ex_deny true 1 s /\ handled s = h ++ [te] /\ nobody_closed s = true
  /\ accepted_on ex_deny (str "c") 1%nat te /\ owns ex_deny h 0%nat (str "c").
Proof.
  assert (X : exists s h te, quiet ex_deny true 1 s /\ handled s = h ++ [te] /\ nobody_closed s = true
    /\ te = (5%Z, Connected (ConnectPacket_new Mqtt3 (str "c") 60 true None None None) 2 1%nat) /\ owner ex_deny h (str "c") = Some 0%nat).
  { eexists. exists (firstn 2 (handled (drive ex_deny true (sys_init 1) ex_takeover))). eexists.
    split; [apply (quiet_run ex_deny true 1 ex_takeover); vm_compute; reflexivity|].
    split; [vm_compute; reflexivity|]. split; [vm_compute; reflexivity|]. split; vm_compute; reflexivity. }
  destruct X as (s & h & te & Q & Eh & Hn & Et & Ho). exists s, h, te. split; [exact Q|]. split; [exact Eh|]. split; [exact Hn|].
  split; [|now apply owner_owns]. rewrite Et. eexists. eexists. split; [reflexivity|]. split; [reflexivity|exact I].
Qed.

Theorem C67_takeover_closes_old_refuted : ~ C67_statement.
Proof.
  intros H. destruct taken_over as (s & h & te & Q & Eh & Hn & Ha & Ho). apply (nobody_told s 0%nat Hn).
  eapply (H ex_deny true 1%nat s h te 0%nat (str "c") 1%nat []); eauto.
Qed.

(** Accepting a client tells nobody else anything. *)
Theorem C67_connect_is_private auth m now c a k k' e :
  In (k', e) (replies auth m (now, Connected c a k)) -> k' = k.
Proof.
  unfold replies. intros H. destruct (handle_receivers auth m _ _ _ H) as [(c' & a' & E)|[(cid & p & E)|(cid & p & k0 & x & E & _)]];
    cbn [snd] in E; congruence.
Qed.

Example C67_case : exists s h te, quiet ex_deny true 1 s /\ handled s = h ++ [te]
  /\ accepted_on ex_deny (str "c") 1%nat te /\ owns ex_deny h 0%nat (str "c").
Proof. destruct taken_over as (s & h & te & Q & Eh & _ & Ha & Ho). exists s, h, te. auto. Qed.

(** ** C68 *)

(** The last retained message of a topic that an event history leaves: set by the last PUBLISH with the
    retain flag, cleared if its payload is empty. *)
Definition retained_step (t : bytes) (o : option PublishPacket) (te : Z * ClientEvent) : option PublishPacket :=
  match snd te with
  | ClientPacket _ (Publish q) _ =>
    if retain (message q) && bytes_eqb (topic (message q)) t
    then match payload (message q) with [] => None | _ :: _ => Some q end else o
  | _ => o
  end.

Definition retained (h : history) (t : bytes) : option PublishPacket := fold_left (retained_step t) h None.

(** A new subscription gets the retained messages that match it. *)
Definition C68_statement : Prop := forall auth h m now cid i subs k sub t q, after auth h m ->
  owns auth h k cid -> In sub subs -> wildcard_free t -> matches (sub_topic sub) t -> retained h t = Some q ->
  exists q', In (k, ServerPacket (Publish q')) (replies auth m (now, ClientPacket cid (Subscribe i subs) k))
    /\ topic (message q') = t /\ payload (message q') = payload (message q).

(** Only a PUBLISH makes the broker send a PUBLISH, the same one. *)
Theorem C68_only_live_messages auth m te k q : In (k, ServerPacket (Publish q)) (replies auth m te) ->
  exists cid j, snd te = ClientPacket cid (Publish q) j.
Proof. intros H. exact (reply_cases auth m te k (Publish q) H). Qed.

Definition ex_retain : PublishPacket := PublishPacket_new (str "a") (str "x") AtMostOnce true None false.

Definition ex_retained : history :=
  [(1%Z, Connected (ex_connect "p" true) 1 0%nat); (2%Z, ClientPacket (str "p") (Publish ex_retain) 0%nat);
   (3%Z, Connected (ex_connect "c" true) 1 1%nat)].

Example C68_case : exists m, after ex_auth ex_retained m /\ retained ex_retained (str "a") = Some ex_retain
  /\ owns ex_auth ex_retained 1%nat (str "c").
Proof.
  eexists. split; [eexists; vm_compute; reflexivity|]. split; [vm_compute; reflexivity|].
  apply owner_owns. vm_compute. reflexivity.
Qed.

Theorem C68_retained_messages_refuted : ~ C68_statement.
Proof.
  intros H. destruct C68_case as (m & Ha & Hr & Ho).
  destruct (H ex_auth ex_retained m 4%Z (str "c") 1 [ex_sub "a"] 1%nat (ex_sub "a") (str "a") ex_retain Ha Ho) as (q & Hq & _).
  - now left.
  - apply wildcard_free_dec; reflexivity.
  - apply matchesb_spec. vm_compute. reflexivity.
  - exact Hr.
  - apply C68_only_live_messages in Hq. destruct Hq as (cid & j & E). discriminate.
Qed.

(** ** C69 *)

(** The will of a client whose connection is lost is published: to a subscriber that owns its client id. *)
Definition C69_statement : Prop := forall auth h m now c a k w cid k' f, after auth h m ->
  (exists t, In (t, Connected c a k) h) -> owns auth h k (client_id c) -> will_message c = Some w ->
  owns auth h k' cid -> live (requests h) cid f <> O -> matches f (topic w) -> wildcard_free (topic w) ->
  exists q, In (k', ServerPacket (Publish q)) (replies auth m (now, ConnectionLost (client_id c))) /\ message q = w.

Definition ex_will : ConnectPacket :=
  ConnectPacket_new Mqtt3 (str "p") 60 true (Some {| topic := str "a"; payload := str "gone"; qos := AtMostOnce; retain := false |}) None None.

Definition ex_will_history : history :=
  [(1%Z, Connected ex_will 1 0%nat); (2%Z, Connected (ex_connect "c" true) 1 1%nat);
   (3%Z, ClientPacket (str "c") (Subscribe 1 [ex_sub "a"]) 1%nat)].

Theorem C69_will_published_refuted : ~ C69_statement.
Proof.
  intros H. assert (X : exists m, after ex_auth ex_will_history m) by (eexists; eexists; vm_compute; reflexivity).
  destruct X as (m & Ha).
  destruct (H ex_auth ex_will_history m 4%Z ex_will 1 0%nat {| topic := str "a"; payload := str "gone"; qos := AtMostOnce; retain := false |}
    (str "c") 1%nat (str "a") Ha) as (q & Hq & _).
  - exists 1%Z. now left.
  - apply owner_owns. vm_compute. reflexivity.
  - reflexivity.
  - apply owner_owns. vm_compute. reflexivity.
  - vm_compute. discriminate.
  - apply matchesb_spec. vm_compute. reflexivity.
  - apply wildcard_free_dec; reflexivity.
  - destruct Hq.
Qed.

Lemma handled_connect auth dbg n s t c a k : reachable auth dbg n s -> In (t, Connected c a k) (handled s) ->
  exists ck p qs cid, nth_error (conns s) k = Some ck /\ c_read ck = Connect p :: qs /\ c = with_id p cid /\ a = c_addr ck.
Proof.
  intros HR Hin.
  assert (He : In (Connected c a k) (events_of k (map snd (handled s) ++ events s))).
  { apply filter_In. split; [|cbn; apply Nat.eqb_refl]. apply in_or_app. left.
    apply in_map_iff. exists (t, Connected c a k). auto. }
  destruct (handled_issued auth dbg n s HR k) as (ck & [(Hk & cid & rs & Hi & _)|Hi]); [|rewrite Hi in He; destruct He].
  assert (He' : In (Connected c a k) (issued k (c_addr ck) cid (c_read ck))) by (rewrite <- Hi; apply in_or_app; now left).
  destruct (c_read ck) as [|[q| | | | | | | | | | | | |] qs] eqn:ER; try (destruct He'; fail).
  cbn [issued] in He'. destruct He' as [[= <- <-]|He'].
  - exists ck, q, qs, cid. auto.
  - apply in_map_iff in He'. destruct He' as (q' & [=] & _).
Qed.

Theorem C69_loss_is_silent auth m now cid : replies auth m (now, ConnectionLost cid) = [].
Proof. unfold replies. now rewrite handle_lost. Qed.

(** In every execution no will even reaches the handler, and a lost connection is no event. *)
Theorem C69_wills_never_seen auth dbg n s t e : reachable auth dbg n s -> In (t, e) (handled s) ->
  match e with
  | Connected c _ _ => will_message c = None
  | ClientPacket _ _ _ => True
  | Disconnected _ | ConnectionLost _ => False
  end.
Proof.
  intros HR Hin. destruct (only_client_events auth dbg n s e HR) as (k0 & E0).
  { apply in_or_app. left. apply in_map_iff. exists (t, e). auto. }
  destruct e as [c a k|cid p k|cid|cid]; [|exact I|discriminate|discriminate].
  destruct (handled_connect auth dbg n s t c a k HR Hin) as (ck & p & qs & cid & Hk & Hr & -> & _). cbn [will_message with_id].
  destruct (reader_invariant auth dbg n s HR k ck Hk) as (rs & Hrs & _).
  pose proof (reads_ok dbg _ _ _ (wf_connection (c_rsock ck)) Hrs) as HA.
  rewrite Hr in HA. apply Forall_inv in HA. exact (proj2 HA).
Qed.

Example C69_case : exists m k', after ex_auth ex_will_history m /\ owns ex_auth ex_will_history k' (str "c")
  /\ live (requests ex_will_history) (str "c") (str "a") = 1%nat /\ replies ex_auth m (4%Z, ConnectionLost (str "p")) = [].
Proof.
  eexists. exists 1%nat. split; [eexists; vm_compute; reflexivity|]. split; [apply owner_owns; vm_compute; reflexivity|].
  split; reflexivity.
Qed.

(** ** C70 *)

(** A client that connects with clean session off keeps its subscriptions when it disconnects. *)
Definition persistent_on auth (cid : ClientId) (k : conn) (te : Z * ClientEvent) : Prop :=
  accepted_on auth cid k te /\ exists c a, snd te = Connected c a k /\ clean_session c = false.

Definition C70_statement : Prop := forall auth h0 te0 h1 te1 te2 k0 k1 k2 cid f t m now q cid' k',
  persistent_on auth cid k0 te0 -> (forall x k, In x h1 -> ~ accepted_on auth cid k x) ->
  snd te1 = ClientPacket cid Disconnect k1 -> persistent_on auth cid k2 te2 ->
  live (requests (h0 ++ te0 :: h1)) cid f <> O -> matches f t -> wildcard_free t -> topic (message q) = t ->
  after auth (h0 ++ te0 :: h1 ++ [te1; te2]) m ->
  In (k2, ServerPacket (Publish q)) (replies auth m (now, ClientPacket cid' (Publish q) k')).

Definition ex_persist : history :=
  [(1%Z, Connected (ex_connect "c" false) 1 0%nat); (2%Z, ClientPacket (str "c") (Subscribe 1 [ex_sub "a"]) 0%nat);
   (3%Z, ClientPacket (str "c") Disconnect 0%nat); (4%Z, Connected (ex_connect "c" false) 1 1%nat)].

Theorem C70_persistent_session_refuted : ~ C70_statement.
Proof.
  intros H. assert (X : exists m, after ex_auth ex_persist m /\
    replies ex_auth m (5%Z, ClientPacket (str "p") (Publish (ex_publish "a")) 2%nat) = []).
  { eexists. split; [eexists; vm_compute; reflexivity|vm_compute; reflexivity]. }
  destruct X as (m & Ha & Hr).
  specialize (H ex_auth [] (1%Z, Connected (ex_connect "c" false) 1 0%nat) [(2%Z, ClientPacket (str "c") (Subscribe 1 [ex_sub "a"]) 0%nat)]
    (3%Z, ClientPacket (str "c") Disconnect 0%nat) (4%Z, Connected (ex_connect "c" false) 1 1%nat) 0%nat 0%nat 1%nat (str "c") (str "a") (str "a")
    m 5%Z (ex_publish "a") (str "p") 2%nat).
  rewrite Hr in H. apply H.
  - split; [eexists; eexists; split; [reflexivity|split; [reflexivity|exact I]]|]. eexists. eexists. split; reflexivity.
  - intros x k [<-|[]] (c & a & E & _). discriminate.
  - reflexivity.
  - split; [eexists; eexists; split; [reflexivity|split; [reflexivity|exact I]]|]. eexists. eexists. split; reflexivity.
  - vm_compute. discriminate.
  - apply matchesb_spec. vm_compute. reflexivity.
  - apply wildcard_free_dec; reflexivity.
  - reflexivity.
  - exact Ha.
Qed.

(** What is kept does not depend on the session kind: DISCONNECT takes one copy of each subscription,
    CONNECT none. *)
Theorem C70_what_is_kept h te1 te2 k1 c2 a2 k2 cid f : snd te1 = ClientPacket cid Disconnect k1 -> snd te2 = Connected c2 a2 k2 ->
  live (requests (h ++ [te1; te2])) cid f = (live (requests h) cid f - 1)%nat.
Proof.
  intros E1 E2. unfold requests. rewrite flat_map_app. cbn [flat_map]. unfold requests_of at 2 3. rewrite E1, E2.
  cbn [app]. rewrite live_app. cbn [fold_left live_step]. now rewrite bytes_eqb_refl.
Qed.

(** Two copies: one survives, here for a session that was to be clean. *)
Example C70_case : exists h m, h = [(1%Z, Connected (ex_connect "c" true) 1 0%nat); (2%Z, ClientPacket (str "c") (Subscribe 1 [ex_sub "a"; ex_sub "a"]) 0%nat);
    (3%Z, ClientPacket (str "c") Disconnect 0%nat); (4%Z, Connected (ex_connect "c" true) 1 1%nat)]
  /\ after ex_auth h m /\ live (requests h) (str "c") (str "a") = 1%nat
  /\ replies ex_auth m (5%Z, ClientPacket (str "p") (Publish (ex_publish "a")) 2%nat) = [(1%nat, ServerPacket (Publish (ex_publish "a")))].
Proof. eexists. eexists. split; [reflexivity|]. split; [eexists; vm_compute; reflexivity|]. split; vm_compute; reflexivity. Qed.

(** ** C71 *)

(** A client that connects with clean session on gets no message before it subscribes. *)
Definition C71_statement : Prop := forall auth h te c a k m now q cid' k', snd te = Connected c a k ->
  accepts auth c -> clean_session c = true -> (forall x c' a', In x h -> snd x <> Connected c' a' k) ->
  after auth (h ++ [te]) m ->
  ~ In (k, ServerPacket (Publish q)) (replies auth m (now, ClientPacket cid' (Publish q) k')).

Definition ex_dirty : history :=
  [(1%Z, Connected (ex_connect "c" true) 1 0%nat); (2%Z, ClientPacket (str "c") (Subscribe 1 [ex_sub "a"]) 0%nat);
   (3%Z, Connected (ex_connect "c" true) 1 1%nat)].

Theorem C71_clean_session_refuted : ~ C71_statement.
Proof.
  intros H. assert (X : exists m, after ex_auth ex_dirty m /\
    replies ex_auth m (5%Z, ClientPacket (str "p") (Publish (ex_publish "a")) 2%nat) = [(1%nat, ServerPacket (Publish (ex_publish "a")))]).
  { eexists. split; [eexists; vm_compute; reflexivity|vm_compute; reflexivity]. }
  destruct X as (m & Ha & Hr).
  specialize (H ex_auth (firstn 2 ex_dirty) (3%Z, Connected (ex_connect "c" true) 1 1%nat) (ex_connect "c" true) 1 1%nat m 5%Z (ex_publish "a") (str "p") 2%nat).
  rewrite Hr in H. apply H; [reflexivity|exact I|reflexivity| |exact Ha|now left].
  intros x c' a' [<-|[<-|[]]]; discriminate.
Qed.

(** CONNECT leaves all subscriptions as they are. *)
Theorem C71_connect_keeps_subscriptions auth m now c a k :
  subscriptions (next auth m (now, Connected c a k)) = subscriptions m.
Proof.
  unfold next. pose proof (handle_subs auth m (now, Connected c a k)) as H.
  destruct (handle auth m (now, Connected c a k)) as [[m' l] o]. exact H.
Qed.

(** The rule holds for a client id that has no subscription left. *)
Theorem C71_clean_if_none_left auth h te c a k m now q cid' k' : snd te = Connected c a k ->
  (forall x c' a', In x h -> snd x <> Connected c' a' k) -> (forall f, live (requests h) (client_id c) f = O) ->
  after auth (h ++ [te]) m ->
  ~ In (k, ServerPacket (Publish q)) (replies auth m (now, ClientPacket cid' (Publish q) k')).
Proof.
  intros Et Hk Hl Ha Hin. destruct (C32_messages_go_to_owner auth (h ++ [te]) m now cid' q k' k _ Ha Hin) as (_ & cid & Ho & Hs).
  destruct Ho as (b & te' & r & E & (c' & a' & Et' & Hc' & _) & _).
  assert (Hc : client_id c = cid).
  { destruct r as [|x r] using rev_ind; [|clear IHr].
    - apply app_inj_tail in E. destruct E as (_ & <-). rewrite Et in Et'. injection Et' as <- _. exact Hc'.
    - exfalso. rewrite app_comm_cons, app_assoc in E. apply app_inj_tail in E. destruct E as (-> & _).
      apply (Hk te' c' a'); [apply in_or_app; right; now left|exact Et']. }
  rewrite <- Hc in Hs. assert (Hr : requests (h ++ [te]) = requests h).
  { unfold requests. rewrite flat_map_app. cbn [flat_map]. unfold requests_of at 2. rewrite Et. cbn [app]. apply app_nil_r. }
  rewrite Hr in Hs.
  assert (Z : occurs (client_id c) (selected (requests h) (topic (message q))) = O) by (rewrite selected_count; apply sum_zero; auto).
  exact (proj2 (count_occ_not_In bytes_eq_dec _ _) Z Hs).
Qed.

Example C71_case : exists h m, h = [(1%Z, Connected (ex_connect "c" true) 1 0%nat); (2%Z, ClientPacket (str "c") (Subscribe 1 [ex_sub "a"]) 0%nat);
    (3%Z, ClientPacket (str "c") Disconnect 0%nat)]
  /\ after ex_auth (h ++ [(4%Z, Connected (ex_connect "c" true) 1 1%nat)]) m /\ (forall f, live (requests h) (str "c") f = O).
Proof.
  eexists. eexists. split; [reflexivity|]. split; [eexists; vm_compute; reflexivity|].
  intros f. unfold live, requests, requests_of. cbn [flat_map app map snd fold_left live_step sub_topic ex_sub].
  rewrite bytes_eqb_refl. destruct (bytes_eqb f (str "a")); reflexivity.
Qed.

(** ** C72 *)

(** A message to a name with a wildcard level is not delivered. *)
Definition C72_statement : Prop := forall auth h m now cid q k, after auth h m -> ~ wildcard_free (topic (message q)) ->
  replies auth m (now, ClientPacket cid (Publish q) k) = [].

Definition ex_hash : history :=
  [(1%Z, Connected (ex_connect "c" true) 1 0%nat); (2%Z, ClientPacket (str "c") (Subscribe 1 [ex_sub "#"]) 0%nat)].

(** It is, even twice. *)
Example C72_case : exists m, after ex_auth ex_hash m /\ ~ wildcard_free (str "#")
  /\ replies ex_auth m (3%Z, ClientPacket (str "c") (Publish (ex_publish "#")) 0%nat)
     = [(0%nat, ServerPacket (Publish (ex_publish "#"))); (0%nat, ServerPacket (Publish (ex_publish "#")))].
Proof.
  eexists. split; [eexists; vm_compute; reflexivity|]. split; [|vm_compute; reflexivity].
  intros H. apply wildcard_free_split in H. apply H. vm_compute. now left.
Qed.

Theorem C72_wildcard_names_refuted : ~ C72_statement.
Proof.
  intros H. destruct C72_case as (m & Ha & Hw & Hr).
  specialize (H ex_auth ex_hash m 3%Z (str "c") (ex_publish "#") 0%nat Ha Hw). rewrite Hr in H. discriminate.
Qed.

Lemma sum_by {A} (dec : forall x y : A, {x = y} + {x <> y}) (g : A -> nat) F L : NoDup F ->
  (forall x, In x L -> g x <> O -> In x F) -> sum g L = sum (fun f => g f * count_occ dec L f)%nat F.
Proof.
  intros HN. induction L as [|x L IH]; intros HL.
  - symmetry. apply sum_zero. intros f _. cbn. lia.
  - rewrite sum_cons, IH by (intros y Hy; apply HL; now right).
    assert (K : forall F', NoDup F' -> (g x <> O -> In x F') ->
      sum (fun f => g f * count_occ dec (x :: L) f)%nat F' = (g x + sum (fun f => g f * count_occ dec L f) F')%nat).
    { clear IH HL HN. induction F' as [|f F' IHF]; intros HN HI.
      - cbn. destruct (g x); [reflexivity|]. destruct HI. discriminate.
      - apply NoDup_cons_iff in HN. destruct HN as (Hf & HN). rewrite !sum_cons. cbn [count_occ].
        destruct (dec x f) as [<-|Hxf].
        + assert (E : sum (fun f => g f * count_occ dec (x :: L) f)%nat F' = sum (fun f => g f * count_occ dec L f)%nat F').
          { apply sum_ext. intros y Hy. cbn [count_occ]. destruct (dec x y) as [->|]; [contradiction|reflexivity]. }
          rewrite <- E. cbn [count_occ]. lia.
        + change (sum (fun f0 => g f0 * (if dec x f0 then Datatypes.S (count_occ dec L f0) else count_occ dec L f0))%nat F')
            with (sum (fun f => g f * count_occ dec (x :: L) f)%nat F').
          rewrite IHF; [lia|exact HN|]. intros Hx. destruct (HI Hx) as [E|Hin]; [congruence|exact Hin]. }
    symmetry. apply K; [exact HN|]. intros Hx. apply HL; [now left|exact Hx].
Qed.

Definition levels_dec : forall x y : list bytes, {x = y} + {x <> y} := list_eq_dec bytes_eq_dec.

Lemma count_app {A} (dec : forall x y : A, {x = y} + {x <> y}) a b x : count_occ dec (a ++ b) x = (count_occ dec a x + count_occ dec b x)%nat.
Proof. apply count_occ_app. Qed.

Lemma count_cons_nil l L : count_occ levels_dec (map (cons l) L) [] = O.
Proof. apply count_occ_not_In. intros H. apply in_map_iff in H. destruct H as (y & [=] & _). Qed.

Lemma count_cons_map l L x f : count_occ levels_dec (map (cons l) L) (x :: f)
  = if bytes_eqb x l then count_occ levels_dec L f else O.
Proof.
  induction L as [|p L IH]; cbn [map count_occ]; [now destruct (bytes_eqb x l)|]. rewrite IH.
  destruct (bytes_eqb_spec x l) as [->|Hx].
  - destruct (levels_dec (l :: p) (l :: f)) as [E|N], (levels_dec p f) as [->|N']; congruence.
  - destruct (levels_dec (l :: p) (x :: f)) as [[= E _]|N]; congruence.
Qed.

Lemma selecting_ways tl : forall f, count_occ levels_dec (selecting tl) f = ways tl f.
Proof.
  induction tl as [|l tl IH]; intros f; cbn [selecting ways].
  - cbn [count_occ]. destruct f as [|x f]; [now destruct (levels_dec [] [])|]. destruct (levels_dec [] (x :: f)); [discriminate|reflexivity].
  - rewrite !count_app. destruct f as [|x f].
    + rewrite !count_cons_nil. cbn [count_occ]. destruct (levels_dec [seg_hash] []); [discriminate|reflexivity].
    + rewrite !count_cons_map, !IH. change seg_plus with plus. change seg_hash with hash. cbn [count_occ].
      destruct (levels_dec [hash] (x :: f)) as [[= <- <-]|N].
      * rewrite bytes_eqb_refl. lia.
      * destruct (bytes_eqb_spec x hash) as [->|]; [|lia]. destruct f; [congruence|lia].
Qed.

(** The exact deliveries for any name: a filter is selected once for each of the [ways] (Spec_ref.v) to build its
    levels from those of the name, taking each level or [+], and possibly ending early with [#]. *)
Theorem C72_copies_for_any_name h c t tl fs (lv : bytes -> list bytes) : has_levels t tl ->
  NoDup fs -> (forall f, In f fs <-> In f (filters h)) -> (forall f, has_levels f (lv f)) ->
  occurs c (selected h t) = sum (fun f => live h c f * ways tl (lv f))%nat fs.
Proof.
  intros Ht HN Hfs Hlv. apply levels_split in Ht. subst tl. rewrite selected_count.
  rewrite (sum_by levels_dec (fun p => live h c (join p)) (map split_slash fs) (selecting (split_slash t))).
  - rewrite sum_map. apply sum_ext. intros f _. rewrite join_split, selecting_ways.
    now replace (lv f) with (split_slash f) by (symmetry; apply levels_split, Hlv).
  - apply NoDup_map_inj; [|exact HN]. intros a b _ _. apply split_inj.
  - intros p Hp Hl. apply live_filters in Hl. apply in_map_iff. exists (join p). split; [|now apply Hfs].
    now apply (selecting_split t).
Qed.

(** ** C73 *)

(** MQTT's rules for filters: not empty, [+] and [#] only as a whole level, [#] only as the last. *)
Definition level_ok (l : bytes) : Prop := l = plus \/ l = hash \/ (~ In x2b l /\ ~ In x23 l).
Definition filter_ok (f : bytes) : Prop :=
  f <> [] /\ forall ls, has_levels f ls -> (forall l, In l ls -> level_ok l) /\ ~ In hash (removelast ls).

(** The broker refuses a filter that breaks them. *)
Definition C73_statement : Prop := forall auth m now cid i f q k, ~ filter_ok f ->
  In (k, ServerPacket (SubAck i [Failure]))
     (replies auth m (now, ClientPacket cid (Subscribe i [{| sub_topic := f; sub_qos := q |}]) k)).

Theorem C73_bad_filters_refused_refuted : ~ C73_statement.
Proof.
  intros H. specialize (H ex_auth MessagingService_new 0%Z (str "c") 1 (str "a/#/b") AtMostOnce 0%nat).
  destruct H as [H|[]].
  - intros (_ & H). destruct (H (map str ["a"; "#"; "b"]%string)) as (_ & K); [apply levels_split; reflexivity|].
    apply K. right. now left.
  - discriminate.
Qed.

(** Every filter is granted (C30). One with a [#] that is not the last level never gets a message. *)
Theorem C73_inner_hash_is_dead h c f ls t : has_levels f ls -> In hash (removelast ls) -> wildcard_free t ->
  live (h ++ [ReqSubscribe c f]) c f <> O /\ occurs c (selected (h ++ [ReqSubscribe c f]) t) = occurs c (selected h t).
Proof.
  intros Hf Hh Hw. split.
  - rewrite live_app. cbn [fold_left live_step]. rewrite !bytes_eqb_refl. discriminate.
  - apply C28_each_request_adds_a_copy; [exact Hw|]. intros Hm. apply matches_split in Hm.
    apply levels_split in Hf. subst ls. apply wildcard_free_split in Hw. destruct Hw as (_ & Hw).
    assert (G : forall fl tl, levels_match fl tl -> In hash (removelast fl) -> In hash tl).
    { induction 1 as [|l fl tl H IH|l fl tl H IH|l tl]; cbn [removelast].
      - intros [].
      - destruct fl as [|x fl]; [intros []|]. intros [->|Hi]; [now left|right; auto].
      - destruct fl as [|x fl]; [intros []|]. intros [Hi|Hi]; [discriminate|right; auto].
      - intros []. }
    exact (Hw (G _ _ Hm Hh)).
Qed.

Example C73_case : exists ls, has_levels (str "a/#/b") ls /\ In hash (removelast ls) /\ wildcard_free (str "a/b")
  /\ selected [ReqSubscribe (str "c") (str "a/#/b"); ReqSubscribe (str "c") (str "a/+")] (str "a/b") = [str "c"].
Proof.
  exists (map str ["a"; "#"; "b"]%string). split; [apply levels_split; reflexivity|]. split; [right; now left|].
  split; [apply wildcard_free_dec; reflexivity|vm_compute; reflexivity].
Qed.

(** ** C74 *)

(** DUP and RETAIN are 0 in messages sent for an existing subscription (all messages here, C68). *)
Definition C74_statement : Prop := forall auth dbg n s k c q, reachable auth dbg n s -> nth_error (conns s) k = Some c ->
  In (Publish q) (broker_sent c) -> dup q = false /\ retain (message q) = false.

Definition ex_flags : PublishPacket := PublishPacket_new (str "a") (str "x") AtLeastOnce true (Some 7) true.

Theorem C74_flags_cleared_refuted : ~ C74_statement.
Proof.
  intros H. destruct (self_served ex_flags) as (s & c & (HR & _) & Hk & Hb); [vm_compute; reflexivity|vm_compute; reflexivity|].
  destruct (H ex_deny true 1%nat s 0%nat c ex_flags HR Hk) as (K & _); [rewrite Hb; right; right; now left|discriminate].
Qed.

Theorem C74_flags_of_the_publisher auth dbg n s k c q : reachable auth dbg n s -> nth_error (conns s) k = Some c ->
  (forall j cj q', nth_error (conns s) j = Some cj -> In (Publish q') (client_sends dbg cj) ->
     dup q' = false /\ retain (message q') = false) ->
  In (Publish q) (broker_sent c) -> dup q = false /\ retain (message q) = false.
Proof.
  intros HR Hk HP Hp. destruct (C50_no_invented_messages auth dbg n s k c q HR Hk Hp) as (j & cj & Hj & Hq). eauto.
Qed.

Example C74_case : exists s c, quiet ex_deny true 1 s /\ nth_error (conns s) 0 = Some c /\ In (Publish ex_flags) (broker_sent c).
Proof.
  destruct (self_served ex_flags) as (s & c & Q & Hk & Hb); [vm_compute; reflexivity|vm_compute; reflexivity|].
  exists s, c. rewrite Hb. split; [exact Q|]. split; [exact Hk|]. right. right. now left.
Qed.

(** ** C75 *)

Fixpoint nodes (n : SubscriptionNode) : nat :=
  match n with Node ch _ => Datatypes.S (list_sum (map (fun x => nodes (snd x)) ch)) end.

(** When no subscription is left the tree is empty again. *)
Definition C75_statement : Prop := forall h, (forall c f, live h c f = O) -> nodes (repo_after h) = 1%nat.

Theorem C75_tree_is_pruned_refuted : ~ C75_statement.
Proof.
  intros H. specialize (H [ReqUnsubscribe (str "c") [str "a"]]). assert (K : 2%nat = 1%nat); [|discriminate].
  transitivity (nodes (repo_after [ReqUnsubscribe (str "c") [str "a"]])); [vm_compute; reflexivity|].
  apply H. intros c f. cbn [live fold_left live_step]. now destruct (bytes_eqb c (str "c")).
Qed.

Lemma nodes_pos n : (1 <= nodes n)%nat.
Proof. destruct n. cbn [nodes]. lia. Qed.

Lemma nodes_insert k v (ch : hmap SubscriptionNode) :
  (list_sum (map (fun x => nodes (snd x)) (hm_insert k v ch))
   + match hm_get k ch with Some w => nodes w | None => 0 end
   = list_sum (map (fun x => nodes (snd x)) ch) + nodes v)%nat.
Proof.
  induction ch as [|(a, w) ch IH]; cbn [hm_insert hm_get map list_sum fold_right snd]; [lia|].
  destruct (bytes_eqb k a); cbn [map list_sum fold_right snd]; unfold list_sum in *; lia.
Qed.

Lemma nodes_update f segs : forall n, (nodes n <= nodes (update_node f segs n) <= nodes n + length segs)%nat.
Proof.
  induction segs as [|x segs IH]; intros [ch cl]; cbn [update_node children clients length].
  - cbn [nodes]. lia.
  - cbn [nodes]. pose proof (nodes_insert x (update_node f segs (match hm_get x ch with Some c => c | None => SubscriptionNode_new end)) ch) as E.
    destruct (hm_get x ch) as [w|].
    + specialize (IH w). lia.
    + specialize (IH SubscriptionNode_new). cbn [nodes map list_sum SubscriptionNode_new fold_right] in IH.
      pose proof (nodes_pos (update_node f segs SubscriptionNode_new)). lia.
Qed.

Lemma nodes_fresh f segs : nodes (update_node f segs SubscriptionNode_new) = Datatypes.S (length segs).
Proof.
  induction segs as [|x segs IH]; [reflexivity|]. unfold SubscriptionNode_new at 1. cbn [update_node hm_get hm_insert children clients].
  cbn [nodes map list_sum fold_right snd length]. rewrite IH. lia.
Qed.

Lemma nodes_remove c : forall n, nodes (remove_client c n) = nodes n.
Proof.
  fix IH 1. intros [ch cl]. cbn [remove_client nodes]. f_equal. f_equal. unfold hm_map. rewrite map_map. cbn [snd].
  induction ch as [|(a, w) ch IHc]; cbn [map snd]; [reflexivity|]. now rewrite IH, IHc.
Qed.

(** Levels mentioned in a request. *)
Definition mentioned (r : request) : list bytes :=
  match r with ReqSubscribe _ f => [f] | ReqUnsubscribe _ fs => fs | ReqDisconnect _ => [] end.

Definition slashes (f : bytes) : nat := count_occ Byte.byte_eq_dec f slash.

Lemma split_length f : length (split_slash f) = Datatypes.S (slashes f).
Proof.
  unfold split_slash, slashes. generalize (@nil byte) as cur. induction f as [|b f IH]; intros cur; [reflexivity|].
  cbn [split_slash_from count_occ]. unfold byte_eqb. destruct (Byte.byte_eq_dec b slash) as [->|Hb].
  - rewrite Byte.byte_dec_lb by reflexivity. cbn [length]. now rewrite IH.
  - destruct (Byte.eqb b x2f) eqn:E; [|apply IH]. apply Byte.byte_dec_bl in E. contradiction.
Qed.

Lemma nodes_unsubscribe c fs : forall n, (nodes n <= nodes (unsubscribe n c fs) <= nodes n + sum (fun f => 1 + slashes f) fs)%nat.
Proof.
  unfold unsubscribe. induction fs as [|f fs IH]; intros n; cbn [fold_left]; [cbn; lia|].
  rewrite sum_cons. specialize (IH (update_node (remove_first c) (split_slash f) n)).
  pose proof (nodes_update (remove_first c) (split_slash f) n) as K. rewrite split_length in K. lia.
Qed.

(** The tree never shrinks, and a request adds at most a node for each level it mentions. *)
Theorem C75_tree_grows h r :
  (nodes (repo_after h) <= nodes (repo_after (h ++ [r]))
   <= nodes (repo_after h) + sum (fun f => 1 + slashes f) (mentioned r))%nat.
Proof.
  unfold repo_after. rewrite fold_left_app. cbn [fold_left]. generalize (fold_left apply_request h SubscriptionNode_new). intros n.
  destruct r as [c f|c fs|c]; cbn [apply_request mentioned].
  - unfold subscribe. cbn [fst sub_topic]. rewrite sum_cons. pose proof (nodes_update (fun l : list ClientId => l ++ [c]) (split_slash f) n) as K.
    rewrite split_length in K. change (sum (fun f0 : bytes => 1 + slashes f0)%nat []) with O.
    change (list ClientId) with (list bytes) in *. change ClientId with bytes in *. lia.
  - apply nodes_unsubscribe.
  - unfold disconnected. rewrite nodes_remove. cbn. lia.
Qed.

(** Requests that never make a subscription can make it as large as one likes. *)
Theorem C75_unbounded (c : bytes) (k : nat) : exists h, (forall c f, live h c f = O) /\ filters h = []
  /\ (k < nodes (repo_after h))%nat.
Proof.
  exists [ReqUnsubscribe c [repeat slash k]]. split; [|split; [reflexivity|]].
  - intros c' f. cbn [live fold_left live_step]. now destruct (bytes_eqb c' c).
  - cbn [repo_after fold_left apply_request unsubscribe]. rewrite nodes_fresh, split_length.
    unfold slashes. enough (E : count_occ Byte.byte_eq_dec (repeat slash k) slash = k) by lia.
    induction k as [|k IH]; [reflexivity|]. cbn [repeat count_occ]. rewrite IH. now destruct (Byte.byte_eq_dec slash slash).
Qed.

Example C75_case : map (fun h => nodes (repo_after h))
    [[]; [ReqSubscribe (str "c") (str "a/b")]; [ReqSubscribe (str "c") (str "a/b"); ReqUnsubscribe (str "c") [str "a/b"; str "x/y/z"]];
     [ReqSubscribe (str "c") (str "a/b"); ReqUnsubscribe (str "c") [str "a/b"; str "x/y/z"]; ReqDisconnect (str "c")]]
  = [1; 3; 6; 6]%nat.
Proof. vm_compute. reflexivity. Qed.

(** ** C76 *)

Definition ids (ps : list ControlPacket) : list N := flat_map (fun q => match pub_packet_id q with Some i => [i] | None => [] end) (publishes ps).

(** Packet ids of messages to one client are distinct while it acknowledges none, if no client uses an
    id twice. *)
Definition C76_statement : Prop := forall auth dbg n s k c, reachable auth dbg n s -> nth_error (conns s) k = Some c ->
  (forall j cj, nth_error (conns s) j = Some cj -> NoDup (ids (client_sends dbg cj))) ->
  (forall p, In p (client_sends dbg c) -> match p with PubAck _ | PubRec _ | PubComp _ => False | _ => True end) ->
  NoDup (ids (broker_sent c)).

Definition ex_two_publishers : list label :=
  [LAccept (ex_peer [ex_client "s" None None; Subscribe 1 [{| sub_topic := str "a"; sub_qos := AtLeastOnce |}]] PeerOpen) (ex_socket []) 1]
  ++ ex_rounds 20 [0%nat]
  ++ [LAccept (ex_peer [ex_client "p" None None; Publish (ex_qos1 "a" 7)] PeerOpen) (ex_socket []) 2;
      LAccept (ex_peer [ex_client "q" None None; Publish (ex_qos1 "a" 7)] PeerOpen) (ex_socket []) 3]
  ++ ex_rounds 20 [0%nat; 1%nat; 2%nat].

Lemma same_id_twice : exists s c, quiet ex_deny true 1 s /\ nth_error (conns s) 0 = Some c
  /\ map (client_sends true) (conns s) = [[ex_client "s" None None; Subscribe 1 [{| sub_topic := str "a"; sub_qos := AtLeastOnce |}]];
       [ex_client "p" None None; Publish (ex_qos1 "a" 7)]; [ex_client "q" None None; Publish (ex_qos1 "a" 7)]]
  /\ ids (broker_sent c) = [7; 7].
Proof.
  eexists. eexists. split; [apply (quiet_run ex_deny true 1 ex_two_publishers); vm_compute; reflexivity|].
  split; [vm_compute; reflexivity|]. split; vm_compute; reflexivity.
Qed.

Theorem C76_packet_ids_unique_refuted : ~ C76_statement.
Proof.
  intros H. destruct same_id_twice as (s & c & (HR & _) & Hk & Hc & Hi).
  specialize (H ex_deny true 1%nat s 0%nat c HR Hk). rewrite Hi in H.
  assert (K : NoDup [7; 7]); [apply H|apply NoDup_cons_iff in K; destruct K as (K & _); apply K; now left].
  - intros j cj Hj. assert (E : nth_error (map (client_sends true) (conns s)) j = Some (client_sends true cj)) by (rewrite nth_error_map, Hj; reflexivity).
    rewrite Hc in E. destruct j as [|[|[|j]]]; [| | |destruct j; discriminate E]; cbn [nth_error] in E; injection E as <-; vm_compute;
      repeat constructor; intros [].
  - assert (E : nth_error (map (client_sends true) (conns s)) 0 = Some (client_sends true c)) by (rewrite nth_error_map, Hk; reflexivity).
    rewrite Hc in E. cbn [nth_error] in E. injection E as <-. intros p [<-|[<-|[]]]; exact I.
Qed.

(** They are the ids the publishers chose. *)
Theorem C76_ids_of_the_publishers auth dbg n s k c i : reachable auth dbg n s -> nth_error (conns s) k = Some c ->
  In i (ids (broker_sent c)) -> exists j cj, nth_error (conns s) j = Some cj /\ In i (ids (client_sends dbg cj)).
Proof.
  intros HR Hk Hi. apply in_flat_map in Hi. destruct Hi as (q & Hq & Hi). apply in_flat_map in Hq. destruct Hq as (p & Hp & Hq).
  destruct p as [| |q'| | | | | | | | | | |]; try (destruct Hq; fail). destruct Hq as [->|[]].
  destruct (C50_no_invented_messages auth dbg n s k c q HR Hk Hp) as (j & cj & Hj & Hs). exists j, cj. split; [exact Hj|].
  apply in_flat_map. exists q. split; [|exact Hi]. apply in_flat_map. exists (Publish q). split; [exact Hs|now left].
Qed.

Example C76_case : exists s c, quiet ex_deny true 1 s /\ nth_error (conns s) 0 = Some c /\ ids (broker_sent c) = [7; 7].
Proof. destruct same_id_twice as (s & c & Q & Hk & _ & Hi). exists s, c. auto. Qed.

(** ** C77 *)

(** A CONNECT of another protocol level is refused with the code for that. *)
Definition C77_statement : Prop := forall auth dbg n s k c w rest, quiet auth dbg n s -> nth_error (conns s) k = Some c ->
  lenN (connect_body w) < 128 -> arriving (c_rsock c) = [x10; n2b (lenN (connect_body w))] ++ connect_body w ++ rest ->
  wc_level w <> x04 ->
  broker_sent c = [ConnAck {| session_present := false; return_code := UnacceptableProtocolVersion |}].

Definition ex_level9 := {| wc_name := str "MQTT"; wc_level := x09; wc_clean := true; wc_keep := 60; wc_id := str "c";
                           wc_will := None; wc_user := None; wc_pass := None |}.

Lemma level9_accepted : exists s c, quiet ex_deny true 1 s /\ nth_error (conns s) 0 = Some c
  /\ arriving (c_rsock c) = [x10; n2b (lenN (connect_body ex_level9))] ++ connect_body ex_level9 ++ []
  /\ broker_sent c = [ConnAck {| session_present := false; return_code := Accepted |}].
Proof.
  eexists. eexists. split.
  - apply (quiet_run ex_deny true 1 ([LAccept {| arriving := [x10; n2b (lenN (connect_body ex_level9))] ++ connect_body ex_level9;
      ending := PeerOpen; chunks := []; grants := []; reuse := true |} (ex_socket []) 1] ++ ex_rounds 10 [0%nat])). vm_compute. reflexivity.
  - split; [vm_compute; reflexivity|]. split; vm_compute; reflexivity.
Qed.

Theorem C77_protocol_level_refuted : ~ C77_statement.
Proof.
  intros H. destruct level9_accepted as (s & c & Q & Hk & Ha & Hb).
  specialize (H ex_deny true 1%nat s 0%nat c ex_level9 [] Q Hk eq_refl Ha). rewrite Hb in H.
  assert (K : wc_level ex_level9 <> x04) by discriminate. specialize (H K). discriminate.
Qed.

(** The only codes ever sent. *)
Theorem C77_codes auth dbg n s k c a : reachable auth dbg n s -> nth_error (conns s) k = Some c ->
  In (ConnAck a) (broker_sent c) -> session_present a = false /\ (return_code a = Accepted \/ return_code a = NotAuthorized).
Proof.
  intros HR Hk Hp. destruct (sent_cause auth dbg n s k c _ HR Hk Hp) as (h & te & r & m & _ & _ & Hr).
  apply reply_cases in Hr. apply Hr.
Qed.

Example C77_case : exists s c, quiet ex_deny true 1 s /\ nth_error (conns s) 0 = Some c
  /\ broker_sent c = [ConnAck {| session_present := false; return_code := Accepted |}].
Proof. destruct level9_accepted as (s & c & Q & Hk & _ & Hb). exists s, c. auto. Qed.

(** ** C78 *)

(** A client without a client id must use a clean session, else it is refused. *)
Definition C78_statement : Prop := forall auth dbg n s k c p qs, quiet auth dbg n s -> nth_error (conns s) k = Some c ->
  client_sends dbg c = Connect p :: qs -> client_id p = [] -> clean_session p = false ->
  broker_sent c = [ConnAck {| session_present := false; return_code := IdentifierRejected |}].

(** Any client with acceptable credentials is accepted, whatever its CONNECT says otherwise. *)
Theorem C78_credentials_decide auth dbg n s k c p qs : quiet auth dbg n s -> nth_error (conns s) k = Some c ->
  client_sends dbg c = Connect p :: qs -> accepts auth p ->
  exists rest, broker_sent c = ConnAck {| session_present := false; return_code := Accepted |} :: rest.
Proof.
  intros (HR & HS & HB & HA) Hk Hc Hp. destruct (C61_nothing_left_undone auth dbg n s HR HS HB HA) as ((l & Hall) & Hup).
  destruct (Hup k c Hk) as ((cid & _ & He) & Hs). rewrite Hc in He. cbn [issued] in He.
  assert (Hin : In (Connected (with_id p cid) (c_addr c) k) (map snd (handled s))).
  { assert (K : In (Connected (with_id p cid) (c_addr c) k) (events_of k (map snd (handled s)))) by (rewrite He; now left).
    apply filter_In in K. apply K. }
  apply in_map_iff in Hin. destruct Hin as ((t & e) & Ee & Hin). cbn [snd] in Ee. subst e.
  apply in_split in Hin. destruct Hin as (h1 & h2 & Eh).
  pose proof Hall as Hall'. rewrite Eh in Hall'. destruct (handle_all_middle auth h1 _ h2 _ _ _ Hall') as (m1 & l1 & l2 & E1 & El).
  assert (Hr : In (ServerPacket (ConnAck {| session_present := false; return_code := Accepted |})) (sent_to k l)).
  { apply sent_to_in. rewrite El. apply in_or_app. right. apply in_or_app. left. rewrite handle_accepted by exact Hp. now left. }
  pose proof (put_first_connack auth dbg n s HR k) as F.
  destruct (rest_settled auth dbg n s HR HS HB HA) as (Hall2 & _). rewrite Hall in Hall2. injection Hall2 as El2.
  rewrite put_to_sent, <- El2 in F. rewrite Hall in Hs. cbn [fst snd] in Hs. rewrite Hs.
  destruct (sent_to k l) as [|e r]; [destruct Hr|]. destruct Hr as [->|Hr]; [eexists; reflexivity|].
  destruct F as (_ & F). rewrite Forall_forall in F. specialize (F _ Hr). discriminate F.
Qed.

Definition ex_no_id := {| version := Mqtt3; client_id := []; keep_alive_seconds := 60; clean_session := false;
                          will_message := None; user_name := None; password := None |}.

Lemma no_id_accepted : exists s c, quiet ex_deny true 1 s /\ nth_error (conns s) 0 = Some c
  /\ client_sends true c = [Connect ex_no_id]
  /\ broker_sent c = [ConnAck {| session_present := false; return_code := Accepted |}].
Proof.
  eexists. eexists. split; [apply (quiet_run ex_deny true 1 (ex_one [Connect ex_no_id])); vm_compute; reflexivity|].
  split; [vm_compute; reflexivity|]. split; vm_compute; reflexivity.
Qed.

Theorem C78_empty_id_refused_refuted : ~ C78_statement.
Proof.
  intros H. destruct no_id_accepted as (s & c & Q & Hk & Hc & Hb).
  specialize (H ex_deny true 1%nat s 0%nat c ex_no_id [] Q Hk Hc eq_refl eq_refl). rewrite Hb in H. discriminate.
Qed.

Example C78_case : exists s c, quiet ex_deny true 1 s /\ nth_error (conns s) 0 = Some c
  /\ client_sends true c = [Connect ex_no_id] /\ accepts ex_deny ex_no_id.
Proof. destruct no_id_accepted as (s & c & Q & Hk & Hc & _). exists s, c. repeat split; try exact Hk; try exact Hc; apply Q. Qed.

(** ** C79 *)

(** What a client sends after its DISCONNECT has no effect. *)
Definition C79_statement : Prop := forall auth dbg n s j cj p qs1 qs2 q k c, reachable auth dbg n s ->
  nth_error (conns s) j = Some cj -> client_sends dbg cj = Connect p :: qs1 ++ Disconnect :: qs2 ->
  ~ In (Publish q) qs1 -> nth_error (conns s) k = Some c -> ~ In (Some j, Publish q) (c_sent c).

Definition ex_after_bye : list label :=
  [LAccept (ex_peer [ex_client "s" None None; Subscribe 1 [{| sub_topic := str "a"; sub_qos := AtMostOnce |}]] PeerOpen) (ex_socket []) 1]
  ++ ex_rounds 20 [0%nat]
  ++ [LAccept (ex_peer [ex_client "p" None None; Disconnect; Publish (ex_qos1 "a" 7)] PeerOpen) (ex_socket []) 2]
  ++ ex_rounds 20 [0%nat; 1%nat].

Lemma after_bye : exists s c0 c1, quiet ex_deny true 1 s /\ nth_error (conns s) 0 = Some c0 /\ nth_error (conns s) 1 = Some c1
  /\ client_sends true c1 = [ex_client "p" None None; Disconnect; Publish (ex_qos1 "a" 7)]
  /\ In (Some 1%nat, Publish (ex_qos1 "a" 7)) (c_sent c0).
Proof.
  eexists. eexists. eexists. split; [apply (quiet_run ex_deny true 1 ex_after_bye); vm_compute; reflexivity|].
  split; [vm_compute; reflexivity|]. split; [vm_compute; reflexivity|]. split; vm_compute; auto.
Qed.

Theorem C79_nothing_after_disconnect_refuted : ~ C79_statement.
Proof.
  intros H. destruct after_bye as (s & c0 & c1 & (HR & _) & H0 & H1 & Hc & Hi).
  refine (H ex_deny true 1%nat s 1%nat c1 _ [] _ _ 0%nat c0 HR H1 Hc _ H0 Hi). intros [].
Qed.

(** Every packet after CONNECT is handled, also after DISCONNECT. *)
Theorem C79_all_packets_handled auth dbg n s k c p qs q : quiet auth dbg n s -> nth_error (conns s) k = Some c ->
  client_sends dbg c = Connect p :: qs -> In q qs -> exists t cid, In (t, ClientPacket cid q k) (handled s).
Proof.
  intros (HR & HS & HB & HA) Hk Hc Hq. destruct (C61_nothing_left_undone auth dbg n s HR HS HB HA) as (_ & Hup).
  destruct (Hup k c Hk) as ((cid & _ & He) & _). rewrite Hc in He. cbn [issued] in He.
  assert (K : In (ClientPacket cid q k) (events_of k (map snd (handled s)))).
  { rewrite He. right. apply in_map_iff. exists q. auto. }
  apply filter_In in K. destruct K as (K & _). apply in_map_iff in K. destruct K as ((t & e) & Ee & Hin). cbn [snd] in Ee. subst e.
  exists t, cid. exact Hin.
Qed.

Example C79_case : exists s c0 c1, quiet ex_deny true 1 s /\ nth_error (conns s) 0 = Some c0 /\ nth_error (conns s) 1 = Some c1
  /\ client_sends true c1 = [ex_client "p" None None; Disconnect; Publish (ex_qos1 "a" 7)]
  /\ In (Some 1%nat, Publish (ex_qos1 "a" 7)) (c_sent c0).
Proof. exact after_bye. Qed.

(** ** C80 *)

(** Once its read side has ended, a connection gets closed. *)
Definition C80_statement : Prop := forall auth dbg n s k c, quiet auth dbg n s -> nth_error (conns s) k = Some c ->
  c_reader c = RDone -> exists ws, c_writer c = WClosed ws.

Lemma dropped_stays_open : exists s c ws, quiet ex_deny true 1 s /\ nth_error (conns s) 0 = Some c
  /\ c_reader c = RDone /\ c_writer c = WIdle ws.
Proof.
  eexists. eexists. eexists. split.
  - apply (quiet_run ex_deny true 1 ([LAccept (ex_peer [ex_client "s" None None] PeerEof) (ex_socket []) 1] ++ ex_rounds 20 [0%nat])).
    vm_compute. reflexivity.
  - split; [vm_compute; reflexivity|]. split; vm_compute; reflexivity.
Qed.

Theorem C80_ended_connection_closes_refuted : ~ C80_statement.
Proof.
  intros H. destruct dropped_stays_open as (s & c & ws & Q & Hk & Hr & Hw).
  destruct (H ex_deny true 1%nat s 0%nat c Q Hk Hr) as (ws' & E). rewrite Hw in E. discriminate.
Qed.

(** It does exactly if it was told to, or no client is connected through it any more. *)
Theorem C80_when_closed auth dbg n s k c : quiet auth dbg n s -> nth_error (conns s) k = Some c ->
  c_reader c = RDone ->
  ((exists ws, c_writer c = WClosed ws) <-> told_to_close s k \/ forall cid, ~ owns auth (handled s) k cid).
Proof.
  intros (HR & HS & HB & HA) Hk Hd. destruct (C61_nothing_left_undone auth dbg n s HR HS HB HA) as (Hafter & _).
  destruct (rest_handler auth dbg n s HR HS HB HA) as (Hh & He).
  pose proof (alive_running auth dbg n s HR HA) as Hr.
  destruct (rest_writers auth dbg n s k c HR HS Hr Hk (HB k c Hk)) as (Hq & Hw).
  destruct (dead_invariant auth dbg n s HR) as (_ & Hsr). specialize (Hsr HA).
  pose proof (queue_invariant auth dbg n s HR k) as HQ. unfold queue_ok in HQ. rewrite Hk in HQ. destruct HQ as (_ & HQ).
  assert (HO : session_of k (svc s) = false <-> forall cid, ~ owns auth (handled s) k cid).
  { rewrite session_of_false. split.
    - intros H cid Ho. apply (C32_session_belongs_to_owner auth _ _ cid k Hafter) in Ho. destruct Ho as (x & Hx & Ex).
      apply hm_get_In in Hx. exact (H _ Hx Ex).
    - intros H (cid & x) Hx Ex. cbn [snd] in Ex. apply (H cid). apply (C32_session_belongs_to_owner auth _ _ cid k Hafter).
      exists x. split; [|exact Ex]. apply hm_In_get; [exact (after_ok auth _ _ Hafter)|exact Hx]. }
  assert (HN : nth_sender s k = false <-> session_of k (svc s) = false).
  { rewrite nth_sender_false. split.
    - intros (c' & _ & _ & _ & _ & H). now apply H.
    - intros H. exists c. split; [exact Hk|]. split; [exact Hd|]. rewrite He. split; [intros e []|].
      split; [rewrite Hh; discriminate|intros _; exact H]. }
  split.
  - intros (ws & E). rewrite E in HQ. destruct HQ as (_ & [(_ & H)|(f & r & H)]).
    + right. apply HO, HN, H.
    + left. exists f. apply put_to_in. rewrite H. apply in_or_app. right. now left.
  - intros H. destruct (c_writer c) as [ws|p ws|ws] eqn:EW; [|exfalso; eapply Hw; reflexivity|eauto]. exfalso. destruct H as [(f & H)|H].
    + apply put_to_in in H. rewrite HQ, Hq, app_nil_r in H. apply in_map_iff in H. destruct H as (x & E & _). discriminate.
    + apply HO, HN in H. specialize (HS (LWriter k) I). unfold step, step_writer in HS. unfold nth_sender in H.
      rewrite Hk in H. rewrite Hr, Hk, EW, Hq, H in HS. discriminate.
Qed.

Example C80_case : exists s c ws, quiet ex_deny true 1 s /\ nth_error (conns s) 0 = Some c
  /\ c_reader c = RDone /\ c_writer c = WIdle ws.
Proof. exact dropped_stays_open. Qed.

(** ** C81 *)

Lemma NoDup_map_by {A B C} (f : A -> B) (g : A -> C) l : NoDup (map f l) ->
  (forall x y, In x l -> In y l -> g x = g y -> f x = f y) -> NoDup (map g l).
Proof.
  induction l as [|a l IH]; intros H E; [constructor|]. cbn [map] in *. apply NoDup_cons_iff in H. destruct H as (H1 & H2).
  constructor.
  - intros Hin. apply in_map_iff in Hin. destruct Hin as (y & Ey & Hy). apply H1. rewrite (E a y); [now apply in_map|now left|now right|now symmetry].
  - apply IH; [exact H2|]. intros x y Hx Hy. apply E; now right.
Qed.

Lemma svc_ok auth dbg n s : reachable auth dbg n s -> hm_ok (sessions (svc s)).
Proof.
  revert s. apply (reachable_trans_ind auth dbg n (fun s => hm_ok (sessions (svc s)))); [exact hm_ok_nil|].
  intros s s' _ H T. destruct T; try exact H. cbn [svc set_hdl set_svc].
  destruct op; cbn [serve fst sessions session_insert connection_lost disconnect]; try exact H;
    [now apply hm_ok_insert|now apply hm_ok_remove|now apply hm_ok_remove].
Qed.

(** Each session belongs to a connection, and no connection has two. *)
Theorem C81_one_session_per_connection auth dbg n s : reachable auth dbg n s ->
  NoDup (map fst (sessions (svc s))) /\ NoDup (map (fun x => s_sender (snd x)) (sessions (svc s)))
  /\ (forall x, In x (sessions (svc s)) -> exists c p qs, nth_error (conns s) (s_sender (snd x)) = Some c
        /\ c_read c = Connect p :: qs /\ accepts auth p)
  /\ (session_count (svc s) <= length (conns s))%nat.
Proof.
  intros HR. pose proof (svc_ok auth dbg n s HR) as H1. split; [exact H1|].
  assert (HO : forall x, In x (sessions (svc s)) -> exists c a, In (Connected c a (s_sender (snd x))) (events_of (s_sender (snd x)) (map snd (handled s)))
             /\ client_id c = fst x /\ accepts auth c).
  { intros x Hx. destruct (session_origin auth dbg n s HR x Hx) as ((t & e) & Hin & c & a & Ee & Ei & Ha). cbn [snd] in Ee. subst e.
    exists c, a. split; [|auto]. apply filter_In. split; [|cbn; apply Nat.eqb_refl]. apply in_map_iff. eexists. split; [|exact Hin]. reflexivity. }
  assert (H2 : NoDup (map (fun x => s_sender (snd x)) (sessions (svc s)))).
  { apply (NoDup_map_by fst); [exact H1|]. intros x y Hx Hy E. destruct (HO x Hx) as (cx & ax & Ix & <- & _). destruct (HO y Hy) as (cy & ay & Iy & <- & _).
    rewrite <- E in Iy. pose proof (one_connect_prefix _ _ _ (one_connect_system auth dbg n s HR (s_sender (snd x)))) as K. unfold one_connect in K.
    destruct (events_of (s_sender (snd x)) (map snd (handled s))) as [|e r]; [destruct Ix|]. destruct e as [c1 a1 k1| | |]; try contradiction.
    rewrite Forall_forall in K. destruct Ix as [Ix|Ix]; [|destruct (K _ Ix)]. destruct Iy as [Iy|Iy]; [|destruct (K _ Iy)].
    rewrite Ix in Iy. injection Iy as ->. reflexivity. }
  assert (H3 : forall x, In x (sessions (svc s)) -> exists c p qs, nth_error (conns s) (s_sender (snd x)) = Some c
        /\ c_read c = Connect p :: qs /\ accepts auth p).
  { intros x Hx. destruct (session_origin auth dbg n s HR x Hx) as ((t & e) & Hin & c & a & Ee & Ei & Ha). cbn [snd] in Ee. subst e.
    destruct (handled_connect auth dbg n s t c a _ HR Hin) as (ck & p & qs & cid & Hk & Hr & -> & _).
    exists ck, p, qs. split; [exact Hk|]. split; [exact Hr|exact Ha]. }
  split; [exact H2|]. split; [exact H3|].
  unfold session_count, hm_len. rewrite <- (map_length (fun x => s_sender (snd x)) (sessions (svc s))), <- (seq_length (length (conns s)) 0).
  apply NoDup_incl_length; [exact H2|]. intros k Hk. apply in_map_iff in Hk. destruct Hk as (x & <- & Hx).
  destruct (H3 x Hx) as (c & p & qs & Hc & _). apply in_seq. assert (nth_error (conns s) (s_sender (snd x)) <> None) by congruence.
  apply nth_error_Some in H. lia.
Qed.

Example C81_case : exists s, reachable ex_deny true 1 s /\ session_count (svc s) = 2%nat /\ length (conns s) = 3%nat.
Proof.
  eexists. split; [apply (drive_reachable ex_deny true 1 (ex_rounds 0 [] ++ [LAccept (ex_peer [ex_client "s" None None] PeerOpen) (ex_socket []) 1;
    LAccept (ex_peer [ex_client "p" None None] PeerOpen) (ex_socket []) 2; LAccept (ex_peer [ex_client "s" None None] PeerOpen) (ex_socket []) 3]
    ++ ex_rounds 20 [0%nat; 1%nat; 2%nat]))|]. split; vm_compute; reflexivity.
Qed.

(** ** C82 *)

(** The state without the times of the sessions. *)
Definition timeless_session (x : Session) : Session :=
  Session_new (s_client_id x) (s_ip x) (s_persistent x) (s_sender x) (s_keep_alive_seconds x) 0.

Definition timeless (m : MessagingService) : MessagingService :=
  {| sessions := map (fun x => (fst x, timeless_session (snd x))) (sessions m); subscriptions := subscriptions m |}.

Lemma timeless_get c (l : hmap Session) : hm_get c (map (fun x => (fst x, timeless_session (snd x))) l) = option_map timeless_session (hm_get c l).
Proof. induction l as [|(k & v) l IH]; [reflexivity|]. cbn [map fst snd hm_get]. destruct (bytes_eqb c k); [reflexivity|exact IH]. Qed.

Lemma timeless_insert c v (l : hmap Session) : map (fun x => (fst x, timeless_session (snd x))) (hm_insert c v l)
  = hm_insert c (timeless_session v) (map (fun x => (fst x, timeless_session (snd x))) l).
Proof. induction l as [|(k & w) l IH]; [reflexivity|]. cbn [map fst snd hm_insert]. destruct (bytes_eqb c k); [reflexivity|]. cbn [map fst snd]. now rewrite IH. Qed.

Lemma timeless_remove c (l : hmap Session) : map (fun x => (fst x, timeless_session (snd x))) (hm_remove c l)
  = hm_remove c (map (fun x => (fst x, timeless_session (snd x))) l).
Proof.
  unfold hm_remove. induction l as [|(k & w) l IH]; [reflexivity|]. cbn [map fst snd filter]. destruct (negb (bytes_eqb c k)); cbn [map fst snd]; now rewrite IH.
Qed.

Lemma handle_timeless auth m m' t t' e : timeless m = timeless m' ->
  timeless (fst (fst (handle auth m (t, e)))) = timeless (fst (fst (handle auth m' (t', e))))
  /\ snd (fst (handle auth m (t, e))) = snd (fst (handle auth m' (t', e)))
  /\ snd (handle auth m (t, e)) = snd (handle auth m' (t', e)).
Proof.
  intros E. assert (Es : map (fun x => (fst x, timeless_session (snd x))) (sessions m) = map (fun x => (fst x, timeless_session (snd x))) (sessions m'))
    by (injection E; auto).
  assert (Eu : subscriptions m = subscriptions m') by (injection E; auto).
  assert (Eg : forall c, option_map timeless_session (hm_get c (sessions m)) = option_map timeless_session (hm_get c (sessions m')))
    by (intros c; rewrite <- !timeless_get, Es; reflexivity).
  destruct e as [c a k|cid q k|cid|cid].
  - destruct (connect_cases auth c) as [A|[A|(u & H1 & H2)]].
    + rewrite !handle_accepted by exact A. cbn [fst snd]. split; [|auto]. unfold timeless, session_insert. cbn [sessions subscriptions].
      rewrite !timeless_insert, Es, Eu. reflexivity.
    + rewrite !handle_rejected by exact A. auto.
    + rewrite !(handle_no_password auth _ _ c a k u H1 H2). auto.
  - destruct (ignored q) eqn:EI; [rewrite !handle_ignored by exact EI; auto|]. destruct q as [| |pp| | | | |sid subs| |uid ts| | | |]; try discriminate EI.
    + rewrite !handle_publish. cbn [fst snd]. split; [exact E|]. split; [|reflexivity]. f_equal. unfold senders_to_publish. rewrite Eu.
      destruct (subscribed_clients (subscriptions m') _) as [l|]; [|reflexivity]. apply flat_map_ext. intros c. specialize (Eg c).
      destruct (hm_get c (sessions m)), (hm_get c (sessions m')); try discriminate Eg; [|reflexivity]. cbn [option_map] in Eg. injection Eg. congruence.
    + rewrite !handle_subscribe. cbn [fst snd]. split; [|auto]. unfold timeless. cbn [sessions subscriptions]. rewrite Es, Eu. reflexivity.
    + rewrite !handle_unsubscribe. cbn [fst snd]. split; [|auto]. unfold timeless. cbn [sessions subscriptions]. rewrite Es, Eu. reflexivity.
    + rewrite !handle_ping. cbn [fst snd]. split; [exact E|]. split; [|reflexivity]. unfold session_exists, hm_mem. specialize (Eg cid).
      destruct (hm_get cid (sessions m)), (hm_get cid (sessions m')); try discriminate Eg; reflexivity.
    + rewrite !handle_disconnect. cbn [fst snd]. split; [|auto]. unfold timeless. cbn [sessions subscriptions]. rewrite !timeless_remove, Es, Eu. reflexivity.
  - unfold handle. cbn. auto.
  - rewrite !handle_lost. cbn [fst snd]. split; [|auto]. unfold timeless. cbn [sessions subscriptions]. rewrite !timeless_remove, Es, Eu. reflexivity.
Qed.

Lemma handle_all_timeless auth h : forall h' m m', map snd h = map snd h' -> timeless m = timeless m' ->
  timeless (fst (fst (handle_all auth m h))) = timeless (fst (fst (handle_all auth m' h')))
  /\ snd (fst (handle_all auth m h)) = snd (fst (handle_all auth m' h'))
  /\ snd (handle_all auth m h) = snd (handle_all auth m' h').
Proof.
  induction h as [|(t & e) h IH]; intros [|(t' & e') h'] m m' Eh Em; try discriminate Eh; [auto|]. cbn [map snd] in Eh. injection Eh as -> Eh.
  destruct (handle_timeless auth m m' t t' e' Em) as (H1 & H2 & H3). cbn [handle_all].
  destruct (handle auth m (t, e')) as [[m1 l1] o1]. destruct (handle auth m' (t', e')) as [[m1' l1'] o1']. cbn [fst snd] in *. subst l1' o1'.
  destruct o1; [|auto]. destruct (IH h' m1 m1' Eh H1) as (J1 & J2 & J3).
  destruct (handle_all auth m1 h) as [[m2 l2] o2]. destruct (handle_all auth m1' h') as [[m2' l2'] o2']. cbn [fst snd] in *.
  subst. auto.
Qed.

(** At rest, what was sent to whom is determined by the order of the handled events alone: not by the
    times, the interleaving of the tasks, the addresses of listeners, or the queues in between. *)
Theorem C82_order_decides auth dbg n s dbg' n' s' k c c' : quiet auth dbg n s -> quiet auth dbg' n' s' ->
  map snd (handled s) = map snd (handled s') ->
  nth_error (conns s) k = Some c -> nth_error (conns s') k = Some c' ->
  broker_sent c = broker_sent c' /\ timeless (svc s) = timeless (svc s').
Proof.
  intros (HR & HS & HB & HA) (HR' & HS' & HB' & HA') Eh Hk Hk'.
  destruct (rest_settled auth dbg n s HR HS HB HA) as (H1 & H2). destruct (rest_settled auth dbg' n' s' HR' HS' HB' HA') as (H1' & H2').
  destruct (H2 k c Hk) as (_ & E). destruct (H2' k c' Hk') as (_ & E'). unfold broker_sent. rewrite E, E'.
  destruct (handle_all_timeless auth (handled s) (handled s') MessagingService_new MessagingService_new Eh eq_refl) as (J1 & J2 & _).
  split; [now rewrite J2|]. rewrite H1, H1' in J1. exact J1.
Qed.

(** Another interleaving with other times. *)
Example C82_case : exists s s', quiet ex_deny true 1 s /\ quiet ex_deny true 1 s' /\ map snd (handled s) = map snd (handled s')
  /\ map fst (handled s) <> map fst (handled s') /\ length (handled s) = 6%nat.
Proof.
  exists (drive ex_deny true (sys_init 1) (ex_sub_pub [] 3)).
  exists (drive ex_deny true (sys_init 1) (map (fun l => match l with LHandler _ => LHandler 9 | _ => l end) (ex_sub_pub [] 3))).
  split; [apply quiet_run; vm_compute; reflexivity|]. split; [apply quiet_run; vm_compute; reflexivity|].
  split; [vm_compute; reflexivity|]. split; [vm_compute; discriminate|vm_compute; reflexivity].
Qed.
