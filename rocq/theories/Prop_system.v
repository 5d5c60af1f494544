(** Properties C39, C43, C44, C48-C51, C53, C54, C56-C58: the whole broker, every interleaving. *)
From Verif Require Import Base Base_facts Packets HashMap Subscriptions Messaging Handler Decoder ReadStream
  ReadStream_facts Conn Conn_facts Encoder Encoder_facts WriteStream WriteStream_facts
  Spec_wire Spec_broker Handler_facts System System_facts System_hist
  System_conn System_queue System_first System_progress System_exit.
Open Scope N_scope.

(** ** What can be observed of a connection *)

(** The packets in the bytes the peer ever sends. *)
Definition client_sends (dbg : bool) (c : cstate) : list ControlPacket :=
  fst (read_all dbg (connection_stream (c_rsock c))).

(** The packets the broker sent on it. *)
Definition broker_sent (c : cstate) : list ControlPacket := map snd (c_sent c).

(** The PUBLISH packets sent on it because of connection [src]. *)
Definition forwarded (src : conn) (c : cstate) : list PublishPacket :=
  flat_map (fun x => match x with
                     | (Some j, Publish q) => if Nat.eqb j src then [q] else []
                     | _ => []
                     end) (c_sent c).

Definition publishes (ps : list ControlPacket) : list PublishPacket :=
  flat_map (fun p => match p with Publish q => [q] | _ => [] end) ps.

(** Runs for the cases: labels that are not enabled are skipped. *)
Fixpoint drive (auth : bytes -> bytes -> bool) (dbg : bool) (s : sys) (ls : list label) : sys :=
  match ls with
  | [] => s
  | l :: ls' => drive auth dbg (match step auth dbg s l with Some s' => s' | None => s end) ls'
  end.

Lemma drive_steps auth dbg ls : forall s, exists ls', steps auth dbg s ls' = Some (drive auth dbg s ls).
Proof.
  induction ls as [|l ls IH]; intros s; cbn [drive]; [now exists []|].
  destruct (step auth dbg s l) as [s1|] eqn:E; [|apply IH].
  destruct (IH s1) as (ls' & H). exists (l :: ls'). cbn [steps]. now rewrite E.
Qed.

Lemma drive_reachable auth dbg n ls : reachable auth dbg n (drive auth dbg (sys_init n) ls).
Proof. apply drive_steps. Qed.

Definition ex_bytes (ps : list ControlPacket) : bytes :=
  flat_map (fun p => n2b (head_byte p) :: n2b (lenN (packet_body p)) :: packet_body p) ps.

Definition ex_peer (ps : list ControlPacket) (e : peer_end) : rsock :=
  {| arriving := ex_bytes ps; ending := e; chunks := []; grants := []; reuse := true |}.

Definition ex_socket (l : list wact) : wsock := {| accepted := []; wacts := l; wgrants := []; wreuse := true |}.

Definition ex_client (id : String.string) (u p : option bytes) : ControlPacket :=
  Connect (ConnectPacket_new Mqtt3 (str id) 60 true None u p).
Arguments ex_client id%string u p.

Definition ex_message (t b : String.string) : PublishPacket :=
  PublishPacket_new (str t) (str b) AtMostOnce false None false.
Arguments ex_message (t b)%string.

Definition ex_deny (u p : bytes) : bool := false.

(** All tasks in turn, [n] times. *)
Definition ex_rounds (n : nat) (ks : list conn) : list label :=
  concat (repeat (map (fun k => LReader k (str "fresh")) ks ++ [LHandler 5; LHandler 5; LHandler 5]
                  ++ map LWriter ks) n).

(** A subscriber and a publisher. *)
Definition ex_sub_pub (blocked : list wact) (m : nat) : list label :=
  [LAccept (ex_peer [ex_client "s" None None; Subscribe 1 [{| sub_topic := str "a"; sub_qos := AtMostOnce |}]] PeerOpen)
     (ex_socket blocked) 1]
  ++ ex_rounds 20 [0%nat]
  ++ [LAccept (ex_peer (ex_client "p" None None :: map (fun i => Publish (ex_message "a" (if Nat.even i then "x" else "y"))) (seq 0 m)) PeerOpen)
        (ex_socket []) 2]
  ++ ex_rounds (20 + 6 * m) [0%nat; 1%nat].

(** ** C48 *)

Lemma sent_put auth dbg n s k c : reachable auth dbg n s -> nth_error (conns s) k = Some c ->
  exists r, put_to k (log s) = map as_sent (c_sent c) ++ r.
Proof.
  intros HR Hk. pose proof (queue_invariant auth dbg n s HR k) as HQ. unfold queue_ok in HQ. rewrite Hk in HQ.
  destruct HQ as (_ & HQ). destruct (c_writer c); eauto.
  destruct HQ as (_ & [(HQ & _)|(f & r & HQ)]); [|eauto]. exists []. now rewrite app_nil_r.
Qed.

Theorem C48_connack_first_and_once auth dbg n s k c : reachable auth dbg n s -> nth_error (conns s) k = Some c ->
  broker_sent c = []
  \/ exists a rest, broker_sent c = ConnAck a :: rest /\ forall a', ~ In (ConnAck a') rest.
Proof.
  intros HR Hk. destruct (sent_put auth dbg n s k c HR Hk) as (r & E).
  pose proof (put_first_connack auth dbg n s HR k) as F. rewrite E, map_app in F. apply first_connack_prefix in F.
  unfold broker_sent. destruct (c_sent c) as [|[f p] l]; [now left|]. right. cbn [map as_sent snd] in *.
  destruct F as (Hp & Hl). destruct p; try discriminate. exists c0, (map snd l). split; [reflexivity|].
  intros a' Hin. apply in_map_iff in Hin. destruct Hin as ((f' & p') & E' & Hin). cbn [snd] in E'. subst p'.
  rewrite Forall_forall in Hl. specialize (Hl (ServerPacket (ConnAck a'))).
  assert (K : true = false); [|discriminate]. apply Hl. apply in_map_iff. exists (f', ServerPacket (ConnAck a')).
  split; [reflexivity|]. apply in_map_iff. exists (f', ConnAck a'). split; [reflexivity|exact Hin].
Qed.

(** Its code says whether the credentials of the CONNECT were acceptable. *)
Theorem C48_connack_code auth dbg n s k c a rest : reachable auth dbg n s -> nth_error (conns s) k = Some c ->
  broker_sent c = ConnAck a :: rest ->
  exists p ps, client_sends dbg c = Connect p :: ps /\ session_present a = false
    /\ (return_code a = Accepted <-> accepts auth p) /\ (return_code a = NotAuthorized <-> ~ accepts auth p).
Proof.
  intros HR Hk HE. destruct (sent_put auth dbg n s k c HR Hk) as (r & E).
  assert (Hput : exists r', map snd (put_to k (log s)) = ServerPacket (ConnAck a) :: r').
  { rewrite E, map_app. unfold broker_sent in HE. destruct (c_sent c) as [|[f p] l]; [discriminate|].
    cbn [map snd] in HE. injection HE as -> _. cbn [map as_sent snd app]. eauto. }
  destruct Hput as (r' & Hput).
  destruct (put_prefix auth dbg n s HR k) as (r2 & HP). rewrite Hput in HP. cbn [app] in HP.
  destruct (events_of k (map snd (handled s))) as [|e l] eqn:EE.
  { pose proof (no_events auth k (handled s) EE) as K.
    destruct (handle_all auth MessagingService_new (handled s)) as [[m l] o]. destruct K as (_ & K). cbn [fst snd] in HP.
    rewrite K in HP. discriminate. }
  pose proof (one_connect_system auth dbg n s HR k) as H1. apply one_connect_prefix in H1.
  assert (HC : exists c1 a1, e = Connected c1 a1 k).
  { unfold one_connect in H1. rewrite EE in H1. destruct e as [c1 a1 k'| | |]; try contradiction.
    assert (Hin : In (Connected c1 a1 k') (events_of k (map snd (handled s)))) by (rewrite EE; now left).
    apply filter_In in Hin. destruct Hin as (_ & Hk'). cbn in Hk'. apply Nat.eqb_eq in Hk'. subst k'. eauto. }
  destruct HC as (c1 & a1 & ->).
  destruct (first_answer auth k (handled s) c1 a1 l (upto_handled auth dbg n s HR) H1 EE) as (rest' & Es & _ & _ & Hf).
  rewrite Es in HP.
  destruct (handled_issued auth dbg n s HR k) as (c2 & [(Hk2 & cid & rs & Hi & _)|Hi]).
  2:{ rewrite events_of_app, EE in Hi. discriminate. }
  rewrite Hk in Hk2. injection Hk2 as <-. rewrite events_of_app, EE in Hi. cbn [app] in Hi.
  destruct (read_prefix auth dbg n s k c HR Hk) as (rd & Hrd).
  destruct (c_read c) as [|[p| | | | | | | | | | | | |] qs] eqn:ER; try discriminate. cbn [issued] in Hi.
  injection Hi as Hc1 Ha1 _. exists p, (qs ++ rd). split; [exact Hrd|].
  assert (HA : accepts auth p <-> accepts auth c1) by (rewrite Hc1; reflexivity).
  assert (HX : answer auth c1 = [] \/ answer auth c1 = [ServerPacket (ConnAck {| session_present := false; return_code := Accepted |})] /\ accepts auth c1
     \/ answer auth c1 = [ServerPacket (ConnAck {| session_present := false; return_code := NotAuthorized |}); ServerDisconnect] /\ ~ accepts auth c1).
  { unfold answer, accepts. destruct (user_name c1); [destruct (password c1); [destruct (auth _ _)|]|]; auto 6. }
  destruct HX as [HX|[(HX & HY)|(HX & HY)]].
  - rewrite HX, (Hf HX) in HP. discriminate.
  - rewrite HX in HP. cbn [app] in HP. injection HP as <- _. cbn. rewrite HA. split; [reflexivity|].
    split; split; auto; [discriminate|contradiction].
  - rewrite HX in HP. cbn [app] in HP. injection HP as <- _. cbn. rewrite HA. split; [reflexivity|].
    split; split; auto; [discriminate|contradiction].
Qed.

Example C48_case :
  let s := drive ex_deny true (sys_init 1) (ex_sub_pub [] 3) in
  map broker_sent (conns s)
  = [[ConnAck {| session_present := false; return_code := Accepted |}; SubAck 1 [SuccessQoS0];
      Publish (ex_message "a" "x"); Publish (ex_message "a" "y"); Publish (ex_message "a" "x")];
     [ConnAck {| session_present := false; return_code := Accepted |}]].
Proof. vm_compute. reflexivity. Qed.

(** ** C49 *)

Lemma no_connect_no_events auth dbg n s k c : reachable auth dbg n s -> nth_error (conns s) k = Some c ->
  (forall p ps, client_sends dbg c <> Connect p :: ps) ->
  events_of k (map snd (handled s) ++ events s) = [].
Proof.
  intros HR Hk HN. destruct (handled_issued auth dbg n s HR k) as (c2 & [(Hk2 & cid & rs & Hi & _)|Hi]); [|exact Hi].
  rewrite Hk in Hk2. injection Hk2 as <-. destruct (read_prefix auth dbg n s k c HR Hk) as (rd & Hrd).
  destruct (c_read c) as [|[p| | | | | | | | | | | | |] qs] eqn:ER; cbn [issued] in Hi;
    try (now destruct (app_eq_nil _ _ Hi)).
  exfalso. eapply HN. unfold client_sends. rewrite Hrd. reflexivity.
Qed.

Lemma events_of_none k es e : events_of k es = [] -> In e es -> event_tx e <> Some k.
Proof.
  intros H Hin E. assert (K : In e (events_of k es)); [|rewrite H in K; destruct K].
  apply filter_In. split; [exact Hin|]. rewrite E. cbn. apply Nat.eqb_refl.
Qed.

Theorem C49_nothing_before_connect auth dbg n s k c : reachable auth dbg n s -> nth_error (conns s) k = Some c ->
  (forall p ps, client_sends dbg c <> Connect p :: ps) ->
  (* no client event *)
  (forall e, In e (map snd (handled s) ++ events s) -> event_tx e <> Some k)
  (* no session *)
  /\ (forall x, In x (sessions (svc s)) -> s_sender (snd x) <> k)
  (* nothing sent to it, and nothing sent to anyone because of it *)
  /\ broker_sent c = [] /\ c_queue c = []
  /\ (forall dst e, ~ In (Some k, dst, e) (log s)).
Proof.
  intros HR Hk HN. pose proof (no_connect_no_events auth dbg n s k c HR Hk HN) as HE.
  pose proof HE as HE1. rewrite events_of_app in HE1. apply app_eq_nil in HE1. destruct HE1 as (HE1 & _).
  split; [intros e; now apply events_of_none|].
  split; [apply session_of_false, (no_event_no_session auth dbg n s k HR HE1)|].
  assert (HP : put_to k (log s) = []).
  { destruct (put_prefix auth dbg n s HR k) as (r & HP). pose proof (no_events auth k (handled s) HE1) as K.
    destruct (handle_all auth MessagingService_new (handled s)) as [[m l] o]. destruct K as (_ & K). cbn [fst snd] in HP.
    rewrite K in HP. symmetry in HP. apply app_eq_nil in HP. destruct HP as (HP & _). now apply map_eq_nil in HP. }
  pose proof (queue_invariant auth dbg n s HR k) as HQ. unfold queue_ok in HQ. rewrite Hk, HP in HQ.
  destruct HQ as (_ & HQ).
  assert (HS : c_sent c = [] /\ c_queue c = []).
  { destruct (c_writer c).
    - symmetry in HQ. apply app_eq_nil in HQ. destruct HQ as (HQ & HQ2). apply map_eq_nil in HQ. auto.
    - symmetry in HQ. apply app_eq_nil in HQ. destruct HQ as (HQ & HQ2). apply map_eq_nil in HQ. auto.
    - destruct HQ as (Eq & [(HQ & _)|(f & r & HQ)]).
      + symmetry in HQ. apply map_eq_nil in HQ. auto.
      + symmetry in HQ. apply app_eq_nil in HQ. destruct HQ as (_ & [=]). }
  destruct HS as (HS1 & HS2). split; [unfold broker_sent; now rewrite HS1|]. split; [exact HS2|].
  intros dst e Hin. destruct (log_cause auth dbg n s _ _ _ HR Hin) as (h1 & te & h2 & m1 & l1 & Eh & _ & Et & _).
  apply (events_of_none k (map snd (handled s)) (snd te) HE1); [|exact Et].
  rewrite Eh, map_app. apply in_or_app. right. now left.
Qed.

Example C49_case :
  let s := drive ex_deny true (sys_init 1)
    ([LAccept (ex_peer [Publish (ex_message "a" "x"); ex_client "s" None None] PeerOpen) (ex_socket []) 1] ++ ex_rounds 5 [0%nat]) in
  map (client_sends true) (conns s) = [[Publish (ex_message "a" "x"); ex_client "s" None None]]
  /\ handled s = [] /\ map c_reader (conns s) = [RDone].
Proof. vm_compute. auto. Qed.

(** ** C50 *)

Lemma in_sent_log auth dbg n s k c f p : reachable auth dbg n s -> nth_error (conns s) k = Some c ->
  In (f, p) (c_sent c) -> In (f, k, ServerPacket p) (log s).
Proof.
  intros HR Hk Hin. destruct (sent_put auth dbg n s k c HR Hk) as (r & E). apply put_to_in. rewrite E.
  apply in_or_app. left. apply in_map_iff. exists (f, p). auto.
Qed.

Lemma handled_read auth dbg n s t cid p j : reachable auth dbg n s -> In (t, ClientPacket cid p j) (handled s) ->
  exists c, nth_error (conns s) j = Some c /\ In p (tl (c_read c)).
Proof.
  intros HR Hin.
  assert (He : In (ClientPacket cid p j) (events_of j (map snd (handled s) ++ events s))).
  { apply filter_In. split; [|cbn; apply Nat.eqb_refl]. apply in_or_app. left.
    apply in_map_iff. exists (t, ClientPacket cid p j). auto. }
  destruct (handled_issued auth dbg n s HR j) as (c & [(Hk & cid' & rs & Hi & _)|Hi]); [|rewrite Hi in He; destruct He].
  exists c. split; [exact Hk|].
  assert (He' : In (ClientPacket cid p j) (issued j (c_addr c) cid' (c_read c))) by (rewrite <- Hi; apply in_or_app; now left).
  destruct (c_read c) as [|[q| | | | | | | | | | | | |] qs]; try (destruct He'; fail).
  cbn [issued] in He'. destruct He' as [[=]|He']. apply in_map_iff in He'. destruct He' as (q' & [= _ <-] & Hq).
  exact Hq.
Qed.

Theorem C50_no_invented_messages auth dbg n s k c q : reachable auth dbg n s -> nth_error (conns s) k = Some c ->
  In (Publish q) (broker_sent c) ->
  exists j c', nth_error (conns s) j = Some c' /\ In (Publish q) (client_sends dbg c').
Proof.
  intros HR Hk Hin. apply in_map_iff in Hin. destruct Hin as ((f & p) & E & Hin). cbn [snd] in E. subst p.
  pose proof (in_sent_log auth dbg n s k c f _ HR Hk Hin) as Hl.
  destruct (relayed_source auth dbg n s f k q HR Hl) as (t & cid & j & Hh & _).
  destruct (handled_read auth dbg n s t cid _ j HR Hh) as (c' & Hj & Hr). exists j, c'. split; [exact Hj|].
  destruct (read_prefix auth dbg n s j c' HR Hj) as (rd & Hrd). unfold client_sends. rewrite Hrd. apply in_or_app. left.
  destruct (c_read c'); [destruct Hr|]. now right.
Qed.

(** The message was read from that connection before it was sent. *)
Theorem C50_read_before_sent auth dbg n s k c f q : reachable auth dbg n s -> nth_error (conns s) k = Some c ->
  In (f, Publish q) (c_sent c) ->
  exists j c', f = Some j /\ nth_error (conns s) j = Some c' /\ In (Publish q) (c_read c').
Proof.
  intros HR Hk Hin. pose proof (in_sent_log auth dbg n s k c f _ HR Hk Hin) as Hl.
  destruct (relayed_source auth dbg n s f k q HR Hl) as (t & cid & j & Hh & Ef).
  destruct (handled_read auth dbg n s t cid _ j HR Hh) as (c' & Hj & Hr). exists j, c'. split; [exact Ef|].
  split; [exact Hj|]. destruct (c_read c'); [destruct Hr|]. now right.
Qed.

Example C50_case :
  let s := drive ex_deny true (sys_init 1) (ex_sub_pub [] 3) in
  exists c, nth_error (conns s) 0 = Some c /\ In (Publish (ex_message "a" "y")) (broker_sent c).
Proof. eexists. split; [vm_compute; reflexivity|]. vm_compute. auto 10. Qed.

(** ** C51 *)

Lemma publishes_events k es : publishes_from k es
  = publishes (flat_map (fun e => match e with ClientPacket _ p _ => [p] | _ => [] end) (events_of k es)).
Proof.
  induction es as [|e es IH]; [reflexivity|]. cbn [publishes_from flat_map events_of filter].
  fold (publishes_from k es). fold (events_of k es). rewrite IH.
  destruct e as [c a k'|cid p k'|cid|cid]; cbn [event_tx opt_is].
  - destruct (Nat.eqb k k'); reflexivity.
  - destruct (Nat.eqb k k'); [|now destruct p]. cbn [flat_map app]. now destruct p.
  - reflexivity.
  - reflexivity.
Qed.

Lemma issued_packets k a cid ps :
  publishes (flat_map (fun e => match e with ClientPacket _ p _ => [p] | _ => [] end) (issued k a cid ps))
  = match ps with Connect _ :: qs => publishes qs | _ => [] end.
Proof.
  destruct ps as [|[p| | | | | | | | | | | | |] qs]; try reflexivity. cbn [issued flat_map app]. f_equal.
  induction qs as [|q qs IH]; [reflexivity|]. cbn [map flat_map app]. congruence.
Qed.

Lemma publishes_app l1 l2 : publishes (l1 ++ l2) = publishes l1 ++ publishes l2.
Proof. apply flat_map_app. Qed.

Lemma in_order_skip {A} (l a src : list A) : in_order l src -> in_order l (a ++ src).
Proof. intros H. induction a; [exact H|]. now apply InSkip. Qed.

Definition of_source (src : conn) (x : option conn * ServerEvent) : list PublishPacket :=
  match x with
  | (Some j, ServerPacket (Publish q)) => if Nat.eqb src j then [q] else []
  | _ => []
  end.

Lemma relayed_put src k l : relayed src k l = flat_map (of_source src) (put_to k l).
Proof.
  induction l as [|[[f d] e] l IH]; [reflexivity|].
  change ((f, d, e) :: l) with ([(f, d, e)] ++ l). rewrite put_to_app, flat_map_app, <- IH.
  unfold relayed at 1. rewrite flat_map_app. fold (relayed src k l). f_equal.
  unfold put_to. cbn [flat_map fst snd app].
  destruct (Nat.eqb k d) eqn:E; destruct f as [j|]; cbn [of_source flat_map app]; try reflexivity;
    destruct e as [[]|]; cbn [flat_map of_source app]; try reflexivity; destruct (Nat.eqb src j); reflexivity.
Qed.

Lemma forwarded_relayed src k c log r : put_to k log = map as_sent (c_sent c) ++ r ->
  exists r', relayed src k log = forwarded src c ++ r'.
Proof.
  intros E. rewrite relayed_put, E, flat_map_app. eexists. f_equal. unfold forwarded. clear E.
  induction (c_sent c) as [|[f p] l IH]; [reflexivity|]. cbn [map flat_map]. rewrite IH. f_equal.
  destruct f as [j|]; [|reflexivity]. destruct p; try reflexivity. cbn. now rewrite Nat.eqb_sym.
Qed.

(** [in_order l src]: the elements of [l] are elements of [src] in the order of [src] (an element may
    come several times in a row, once per matching subscription, or not at all). *)
Theorem C51_messages_in_order auth dbg n s src c1 dst c2 : reachable auth dbg n s ->
  nth_error (conns s) src = Some c1 -> nth_error (conns s) dst = Some c2 ->
  in_order (forwarded src c2) (publishes (client_sends dbg c1)).
Proof.
  intros HR H1 H2. pose proof (order_invariant auth dbg n s src dst HR) as HO.
  destruct (sent_put auth dbg n s dst c2 HR H2) as (r & E). destruct (forwarded_relayed src dst c2 (log s) r E) as (r' & Er).
  rewrite Er in HO. apply in_order_prefix in HO.
  destruct (read_prefix auth dbg n s src c1 HR H1) as (rd & Hrd). unfold client_sends. rewrite Hrd, publishes_app.
  apply in_order_more. rewrite publishes_events in HO.
  destruct (handled_issued auth dbg n s HR src) as (c & [(Hk & cid & rs & Hi & _)|Hi]).
  - rewrite H1 in Hk. injection Hk as <-. rewrite events_of_app in Hi.
    pose proof (issued_packets src (c_addr c1) cid (c_read c1)) as HP. rewrite <- Hi in HP.
    rewrite !flat_map_app, !publishes_app in HP.
    apply (in_order_more _ _ (publishes (flat_map (fun e => match e with ClientPacket _ p _ => [p] | _ => [] end) (events_of src (events s))))) in HO.
    apply (in_order_more _ _ (publishes (flat_map (fun e => match e with ClientPacket _ p _ => [p] | _ => [] end) rs))) in HO.
    rewrite HP in HO. destruct (c_read c1) as [|[p| | | | | | | | | | | | |] qs]; try exact HO;
    inversion HO; constructor.
  - rewrite events_of_app in Hi. apply app_eq_nil in Hi. destruct Hi as (Hi & _). rewrite Hi in HO. cbn in HO.
    inversion HO. constructor.
Qed.

Example C51_case :
  let s := drive ex_deny true (sys_init 1) (ex_sub_pub [] 3) in
  map (forwarded 1%nat) (conns s) = [[ex_message "a" "x"; ex_message "a" "y"; ex_message "a" "x"]; []]
  /\ map (fun c => publishes (client_sends true c)) (conns s)
     = [[]; [ex_message "a" "x"; ex_message "a" "y"; ex_message "a" "x"]].
Proof. vm_compute. auto. Qed.

(** ** C53 *)

(** A handler that is not running any more was told to stop, or panicked on its last event: a CONNECT
    with a user name but no password, or an event answered to a connection that had been told to
    close. *)
Theorem C53_why_the_handler_ends auth dbg n s : reachable auth dbg n s -> handler_alive (hdl s) = false ->
  (hdl s = HStopped /\ ctrl_c s = true)
  \/ (hdl s = HPanicked /\
      exists h te m l, handled s = h ++ [te] /\ handle_all auth MessagingService_new h = (m, l, Finished)
        /\ (user_without_password te
            \/ exists k e f, In (k, e) (snd (fst (handle auth m te))) /\ In (f, k, ServerDisconnect) (log s))).
Proof.
  intros HR HD. destruct (hdl s) eqn:EH; try discriminate.
  - right. split; [reflexivity|]. exact (panic_cause auth dbg n s HR EH).
  - left. split; [reflexivity|]. revert EH. clear HD. revert s HR.
    apply (reachable_trans_ind auth dbg n (fun s => hdl s = HStopped -> ctrl_c s = true)).
    + discriminate.
    + intros s s' HR HI T. destruct T; try exact HI; try (intros H'; discriminate H').
      * intros _. exact H0.
      * intros _. reflexivity.
Qed.

Theorem C53_an_ended_handler_does_nothing auth dbg s ls s' : steps auth dbg s ls = Some s' ->
  handler_alive (hdl s) = false ->
  hdl s' = hdl s /\ handled s' = handled s /\ log s' = log s /\ svc s' = svc s.
Proof. apply dead_steps. Qed.

(** One client, refused, that then sends PINGREQ. *)
Definition ex_refused_ping : sys :=
  drive ex_deny true (sys_init 1)
    ([LAccept (ex_peer [ex_client "s" (Some (str "bob")) (Some (str "pw")); PingReq] PeerOpen) (ex_socket []) 1;
      LReader 0%nat []; LReader 0%nat []] ++ repeat (LHandler 5) 6 ++ repeat (LWriter 0%nat) 6 ++ ex_rounds 10 [0%nat]).

Example C53_case : hdl ex_refused_ping = HPanicked
  /\ map snd (handled ex_refused_ping)
     = [Connected (ConnectPacket_new Mqtt3 (str "s") 60 true None (Some (str "bob")) (Some (str "pw"))) 1 0%nat;
        ClientPacket (str "s") PingReq 0%nat]
  /\ log ex_refused_ping
     = [(Some 0%nat, 0%nat, ServerPacket (ConnAck {| session_present := false; return_code := NotAuthorized |}));
        (Some 0%nat, 0%nat, ServerDisconnect)].
Proof. vm_compute. auto. Qed.

(** ** C44 *)

Definition C44_statement : Prop :=
  forall auth dbg n s, reachable auth dbg n s -> hdl s <> HPanicked.

Definition ex_no_password : sys :=
  drive ex_deny true (sys_init 1)
    ([LAccept (ex_peer [ex_client "s" (Some (str "bob")) None] PeerOpen) (ex_socket []) 1] ++ ex_rounds 3 [0%nat]).

Theorem C44_no_client_can_crash_refuted : ~ C44_statement.
Proof.
  intros H. apply (H ex_deny true 1%nat ex_no_password); [apply drive_reachable|vm_compute; reflexivity].
Qed.

(** The other way to crash it needs no malformed CONNECT. *)
Theorem C44_crash_by_ping_refuted :
  ~ (forall auth dbg n s, reachable auth dbg n s ->
       (forall te, In te (handled s) -> ~ user_without_password te) -> hdl s <> HPanicked).
Proof.
  intros H. apply (H ex_deny true 1%nat ex_refused_ping); [apply drive_reachable| |vm_compute; reflexivity].
  intros te Hin (c & a & k & u & E & Hu & Hp).
  assert (K : forallb (fun te => match snd te with
                | Connected c _ _ => match user_name c, password c with Some _, None => false | _, _ => true end
                | _ => true end) (handled ex_refused_ping) = true) by (vm_compute; reflexivity).
  rewrite forallb_forall in K. specialize (K te Hin). rewrite E, Hu, Hp in K. discriminate.
Qed.

(** There is no further way: without such a CONNECT, and as long as no connection has been told to
    close (CONNECT refused, or PINGREQ without a session), the handler does not panic. *)
Theorem C44_no_other_crash_partial auth dbg n s : reachable auth dbg n s ->
  (forall te, In te (handled s) -> ~ user_without_password te) ->
  (forall f k, ~ In (f, k, ServerDisconnect) (log s)) ->
  hdl s <> HPanicked.
Proof.
  intros HR H1 H2 HP. destruct (panic_cause auth dbg n s HR HP) as (h & te & m & l & Eh & _ & [K|(k & e & f & _ & K)]).
  - apply (H1 te); [|exact K]. rewrite Eh. apply in_or_app. right. now left.
  - exact (H2 f k K).
Qed.

Example C44_case :
  let s := drive ex_deny true (sys_init 1) (ex_sub_pub [] 3) in
  forallb (fun te => match snd te with
             | Connected c _ _ => match user_name c, password c with Some _, None => false | _, _ => true end
             | _ => true end) (handled s) = true
  /\ forallb (fun x => match snd x with ServerDisconnect => false | _ => true end) (log s) = true
  /\ length (handled s) = 6%nat.
Proof. vm_compute. auto. Qed.

(** ** C43 *)

(** Connection [k] was refused. *)
Definition refused (s : sys) (k : conn) : Prop :=
  exists f, In (f, k, ServerPacket (ConnAck {| session_present := false; return_code := NotAuthorized |})) (log s).

(** What it sends reaches nobody and changes nothing. *)
Definition C43_statement : Prop :=
  forall auth dbg n s k, reachable auth dbg n s -> refused s k ->
    (forall dst e, In (Some k, dst, e) (log s) -> dst = k)
    /\ (forall l s', step auth dbg s l = Some s' -> (exists p, hdl s = HBusy (Some k) p) -> svc s' = svc s).

Definition ex_refused_publish : list label :=
  [LAccept (ex_peer [ex_client "s" None None; Subscribe 1 [{| sub_topic := str "a"; sub_qos := AtMostOnce |}]] PeerOpen)
     (ex_socket []) 1]
  ++ ex_rounds 20 [0%nat]
  ++ [LAccept (ex_peer [ex_client "e" (Some (str "bob")) (Some (str "pw")); Publish (ex_message "a" "forged");
                        Subscribe 2 [{| sub_topic := str "b"; sub_qos := AtMostOnce |}]] PeerOpen) (ex_socket []) 2].

(** False of the code: the read task goes on after the refusal. *)
Theorem C43_refused_has_no_effect_refuted : ~ C43_statement.
Proof.
  intros H. set (s := drive ex_deny true (sys_init 1) (ex_refused_publish ++ ex_rounds 10 [1%nat])).
  destruct (H ex_deny true 1%nat s 1%nat) as (K & _).
  - apply drive_reachable.
  - exists (Some 1%nat). vm_compute. auto 10.
  - assert (E : 0%nat = 1%nat); [|discriminate].
    apply (K 0%nat (ServerPacket (Publish (ex_message "a" "forged")))). vm_compute. auto 10.
Qed.

(** Where sessions come from. *)
Fixpoint inserts (P : Session -> Prop) (p : prog) : Prop :=
  match p with
  | Done | Panic => True
  | Send _ _ p' => inserts P p'
  | Call op f => match op with SessionInsert x => P x | _ => True end /\ forall r, inserts P (f r)
  end.

Lemma inserts_more (P Q : Session -> Prop) p : (forall x, P x -> Q x) -> inserts P p -> inserts Q p.
Proof.
  intros H. induction p as [| |R op f IH|to e p IH]; cbn [inserts]; auto.
  intros (H1 & H2). split; [|intros r; apply IH, H2]. destruct op; auto.
Qed.

Lemma send_to_all_inserts P l e : inserts P (send_to_all l e).
Proof. induction l; [exact I|assumption]. Qed.

Lemma subscribe_all_inserts P cid subs : forall codes f, (forall c, inserts P (f c)) ->
  inserts P (subscribe_all cid subs codes f).
Proof.
  induction subs as [|x subs IH]; intros codes f H; cbn [subscribe_all]; [apply H|].
  cbn [inserts]. split; [exact I|]. intros r. now apply IH.
Qed.

Lemma on_event_inserts auth now e :
  inserts (fun x => accepted_on auth (s_client_id x) (s_sender x) (now, e)) (on_event auth now e).
Proof.
  destruct e as [c a k|cid p k|cid|cid]; cbn [on_event].
  - unfold on_connect. set (rest := Call _ _).
    assert (HR : accepts auth c -> inserts (fun x => accepted_on auth (s_client_id x) (s_sender x) (now, Connected c a k)) rest).
    { intros HA. cbn. split; [exact I|].
      assert (K : accepted_on auth (client_id c) k (now, Connected c a k)) by (exists c, a; auto).
      intros [x|]; cbn; auto. }
    unfold accepts in HR. destruct (user_name c); [|now apply HR]. destruct (password c); [|exact I].
    destruct (auth _ _); [now apply HR|]. cbn. exact I.
  - destruct p; try exact I; cbn [on_packet].
    + cbn. split; [exact I|]. intros r. apply send_to_all_inserts.
    + apply subscribe_all_inserts. intros c. exact I.
    + cbn. auto.
    + cbn. split; [exact I|]. intros []; exact I.
    + cbn. auto.
  - exact I.
  - cbn. auto.
Qed.

Theorem session_origin auth dbg n s : reachable auth dbg n s -> forall x, In x (sessions (svc s)) ->
  exists te, In te (handled s) /\ accepted_on auth (fst x) (s_sender (snd x)) te.
Proof.
  intros HR.
  assert (K : (forall x, In x (sessions (svc s)) -> exists te, In te (handled s) /\ accepted_on auth (fst x) (s_sender (snd x)) te)
     /\ match hdl s with
        | HBusy _ p => inserts (fun x => exists te, In te (handled s) /\ accepted_on auth (s_client_id x) (s_sender x) te) p
        | _ => True
        end); [|apply K].
  revert s HR. apply (reachable_trans_ind auth dbg n (fun s =>
     (forall x, In x (sessions (svc s)) -> exists te, In te (handled s) /\ accepted_on auth (fst x) (s_sender (snd x)) te)
     /\ match hdl s with
        | HBusy _ p => inserts (fun x => exists te, In te (handled s) /\ accepted_on auth (s_client_id x) (s_sender x) te) p
        | _ => True
        end)).
  - split; [intros x []|exact I].
  - intros s s' HR (HI & HP) T. destruct T; try (split; [exact HI|exact HP]); try (split; [exact HI|exact I]).
    + cbn [hdl handled svc set_hdl set_handled set_events]. split.
      * intros x Hx. destruct (HI x Hx) as (te & Ht & Ha). exists te. split; [apply in_or_app; now left|exact Ha].
      * eapply inserts_more; [|apply on_event_inserts]. intros x Hx. exists (now, e). split; [|exact Hx].
        apply in_or_app. right. now left.
    + rewrite H in HP. cbn [hdl handled svc set_hdl set_svc] in *. cbn [inserts] in HP. destruct HP as (Ho & Hf).
      split; [|apply Hf]. intros x.
      destruct op; cbn [serve fst sessions session_insert connection_lost disconnect]; try (apply HI).
      * intros Hx. apply in_insert in Hx. destruct Hx as [->|Hx]; [exact Ho|now apply HI].
      * intros Hx. apply in_remove in Hx. now apply HI.
      * intros Hx. apply in_remove in Hx. now apply HI.
    + rewrite H in HP. split; [exact HI|exact HP].
Qed.

(** What does hold: such a connection gets the refusal and nothing else, and never a session. *)
Theorem C43_refused_gets_nothing_partial auth dbg n s k c p ps : reachable auth dbg n s ->
  nth_error (conns s) k = Some c -> client_sends dbg c = Connect p :: ps -> rejected auth p ->
  (broker_sent c = [] \/ broker_sent c = [ConnAck {| session_present := false; return_code := NotAuthorized |}])
  /\ (forall x, In x (sessions (svc s)) -> s_sender (snd x) <> k).
Proof.
  intros HR Hk Hs Hrej.
  assert (HE : forall e, In e (events_of k (map snd (handled s))) -> forall c1 a1, e = Connected c1 a1 k -> rejected auth c1).
  { intros e Hin c1 a1 ->. destruct (handled_issued auth dbg n s HR k) as (c2 & [(Hk2 & cid & rs & Hi & _)|Hi]).
    2:{ rewrite events_of_app in Hi. apply app_eq_nil in Hi. destruct Hi as (Hi & _). rewrite Hi in Hin. destruct Hin. }
    rewrite Hk in Hk2. injection Hk2 as <-. destruct (read_prefix auth dbg n s k c HR Hk) as (rd & Hrd).
    unfold client_sends in Hs. rewrite Hs in Hrd.
    assert (Hin' : In (Connected c1 a1 k) (issued k (c_addr c) cid (c_read c))).
    { rewrite <- Hi, events_of_app. apply in_or_app. left. apply in_or_app. now left. }
    destruct (c_read c) as [|q qs]; [destruct Hin'|]. cbn [app] in Hrd. injection Hrd as <- _. cbn [issued] in Hin'.
    destruct Hin' as [[= <- _]|Hin']; [exact Hrej|]. apply in_map_iff in Hin'. destruct Hin' as (? & [=] & _). }
  split.
  - destruct (sent_put auth dbg n s k c HR Hk) as (r & E).
    destruct (put_prefix auth dbg n s HR k) as (r2 & HP). rewrite E, map_app, <- app_assoc in HP.
    destruct (events_of k (map snd (handled s))) as [|e l] eqn:EE.
    { pose proof (no_events auth k (handled s) EE) as K.
      destruct (handle_all auth MessagingService_new (handled s)) as [[m l] o]. destruct K as (_ & K). cbn [fst snd] in HP.
      rewrite K in HP. symmetry in HP. apply app_eq_nil in HP. destruct HP as (HP & _). apply map_eq_nil in HP.
      apply map_eq_nil in HP. left. unfold broker_sent. now rewrite HP. }
    pose proof (one_connect_system auth dbg n s HR k) as H1. apply one_connect_prefix in H1.
    assert (HC : exists c1 a1, e = Connected c1 a1 k).
    { unfold one_connect in H1. rewrite EE in H1. destruct e as [c1 a1 k'| | |]; try contradiction.
      assert (Hin : In (Connected c1 a1 k') (events_of k (map snd (handled s)))) by (rewrite EE; now left).
      apply filter_In in Hin. destruct Hin as (_ & Hk'). cbn in Hk'. apply Nat.eqb_eq in Hk'. subst k'. eauto. }
    destruct HC as (c1 & a1 & ->).
    destruct (HE _ (or_introl eq_refl) c1 a1 eq_refl) as (u & pw & Hu & Hp & Ha).
    destruct (first_answer auth k (handled s) c1 a1 l (upto_handled auth dbg n s HR) H1 EE) as (rest' & Es & _).
    rewrite Es in HP. unfold answer in HP. rewrite Hu, Hp, Ha in HP. cbn [app] in HP. unfold broker_sent.
    destruct (c_sent c) as [|[f1 p1] [|[f2 p2] l2]]; [now left| |].
    + cbn in HP. injection HP as HP _. right. cbn. now rewrite HP.
    + cbn in HP. injection HP as _ HP _. discriminate.
  - intros x Hx Ex. destruct (session_origin auth dbg n s HR x Hx) as ([t e] & Hin & c1 & a1 & Ee & _ & Hacc).
    cbn [snd] in Ee. rewrite Ex in Ee. subst e.
    destruct (HE (Connected c1 a1 k)) with (c1 := c1) (a1 := a1) as (u & pw & Hu & Hp & Ha); [|reflexivity|].
    + apply filter_In. split; [|cbn; apply Nat.eqb_refl]. apply in_map_iff. exists (t, Connected c1 a1 k). auto.
    + unfold accepts in Hacc. rewrite Hu, Hp, Ha in Hacc. discriminate.
Qed.

Example C43_case :
  let s := drive ex_deny true (sys_init 1) (ex_refused_publish ++ ex_rounds 20 [0%nat; 1%nat]) in
  map broker_sent (conns s)
  = [[ConnAck {| session_present := false; return_code := Accepted |}; SubAck 1 [SuccessQoS0];
      Publish (ex_message "a" "forged")];
     [ConnAck {| session_present := false; return_code := NotAuthorized |}]]
  /\ hdl s = HPanicked.
Proof. vm_compute. auto. Qed.

(** ** C54 *)

(** The next event gets processed, unless the handler panics first. *)
Definition C54_statement : Prop :=
  forall auth dbg n s e es, reachable auth dbg n s -> running s = true -> handler_alive (hdl s) = true ->
    events s = e :: es ->
    exists ls s', steps auth dbg s ls = Some s'
      /\ ((exists now h, handled s' = handled s ++ (now, e) :: h) \/ hdl s' = HPanicked).

Definition stuckb (s : sys) : bool :=
  match hdl s with
  | HBusy _ (Send to _ _) =>
    match nth_error (conns s) to with
    | Some c =>
      Nat.eqb (length (c_queue c)) channel_size
      && match c_writer c with
         | WBusy q ws => match write_packet q ws with WWait _ => true | _ => false end
         | _ => false
         end
    | None => false
    end
  | _ => false
  end.

Lemma stuckb_stuck s : stuckb s = true -> stuck s.
Proof.
  unfold stuckb. destruct (hdl s) as [|tx p| |] eqn:EH; try discriminate.
  destruct p as [| |R op f|to e p]; try discriminate.
  destruct (nth_error (conns s) to) as [c|] eqn:Ec; [|discriminate].
  intros H. apply andb_true_iff in H. destruct H as (H1 & H2). apply Nat.eqb_eq in H1.
  destruct (c_writer c) as [|q ws|] eqn:EW; try discriminate.
  destruct (write_packet q ws) eqn:EP; try discriminate. exists tx, to, e, p, c, q, ws. eauto 10.
Qed.

(** A subscriber that reads CONNACK and SUBACK and then stops reading; 40 messages for it. *)
Definition ex_stalled : sys :=
  drive ex_deny true (sys_init 1) (ex_sub_pub [WAccept 100; WAccept 100; WBlock] 40).

Lemma stalled_exists : exists s, reachable ex_deny true 1 s /\ stuck s /\ running s = true
  /\ handler_alive (hdl s) = true /\ events s <> [] /\ main s = MServing.
Proof.
  exists ex_stalled. split; [apply drive_reachable|].
  assert (K : stuckb ex_stalled && running ex_stalled && handler_alive (hdl ex_stalled)
              && match events ex_stalled with [] => false | _ => true end
              && match main ex_stalled with MServing => true | _ => false end = true) by (vm_compute; reflexivity).
  generalize dependent ex_stalled. intros s K. repeat (apply andb_true_iff in K; destruct K as (K & ?)).
  split; [now apply stuckb_stuck|]. split; [assumption|]. split; [assumption|].
  split; [now destruct (events s)|]. now destruct (main s).
Qed.

Theorem C54_slow_subscriber_stalls_nobody_refuted : ~ C54_statement.
Proof.
  intros H. destruct stalled_exists as (s & HR & HS & Hr & Ha & He & _).
  destruct (events s) as [|e es] eqn:EE; [contradiction|].
  destruct (H ex_deny true 1%nat s e es HR Hr Ha EE) as (ls & s' & Hs & K).
  destruct (stuck_steps ex_deny true ls _ s' HS Hs) as ((tx & to & x & p & c & q & ws & Hh & _) & _ & Eh & _).
  destruct K as [(now & h & K)|K]; [|congruence]. rewrite Eh in K. apply (f_equal (@length _)) in K.
  rewrite app_length in K. cbn in K. lia.
Qed.

(** What does hold: from every reachable state the next event can be processed, with steps of the
    handler and of write tasks only, or the handler panics, or it waits for room in the full queue of
    a connection whose peer does not read. *)
Theorem C54_next_event_partial auth dbg n s e es : reachable auth dbg n s -> running s = true ->
  handler_alive (hdl s) = true -> events s = e :: es ->
  exists ls s', steps auth dbg s ls = Some s' /\ Forall inner ls
    /\ ((exists now, handled s' = handled s ++ [(now, e)]) \/ hdl s' = HPanicked
        \/ stuck s' /\ exists k c, nth_error (conns s') k = Some c /\ In WBlock (wacts (c_wsock c))).
Proof.
  intros HR Hr Ha He. destruct (next_event auth dbg n s e es HR Hr Ha He) as (ls & s' & Hs & Hin & [K|[K|K]]).
  - eauto 10.
  - eauto 10.
  - exists ls, s'. split; [exact Hs|]. split; [exact Hin|]. right. right. split; [exact K|].
    apply (stuck_blocked auth dbg n); [eapply reachable_steps; eauto|exact K].
Qed.

(** Once stalled, it is so for ever: nothing is handled or sent any more. *)
Theorem C54_stalled_for_ever_partial auth dbg s ls s' : stuck s -> steps auth dbg s ls = Some s' ->
  stuck s' /\ handled s' = handled s /\ log s' = log s /\ svc s' = svc s.
Proof.
  intros Hs H. destruct (stuck_steps auth dbg ls s s' Hs H) as (K & _ & K2 & K3 & K4 & _). auto.
Qed.

Example C54_case :
  length (handled ex_stalled) = 37%nat /\ length (events ex_stalled) = 6%nat
  /\ map (fun c => length (c_queue c)) (conns ex_stalled) = [32%nat; 0%nat].
Proof. vm_compute. auto. Qed.

(** ** C57 *)

Definition C57_statement : Prop :=
  forall auth dbg n s, reachable auth dbg n s -> ctrl_c s = true ->
    exists ls s', steps auth dbg s ls = Some s' /\ (main s' = MExited \/ main s' = MPanicked).

(** False of the code: a stalled handler never sees the signal, and main waits for it. *)
Theorem C57_shutdown_completes_refuted : ~ C57_statement.
Proof.
  intros H. destruct stalled_exists as (s0 & HR0 & HS0 & Hr & Ha & _ & HM).
  assert (E : step ex_deny true s0 LCtrlC = Some (set_main MJoinListeners (set_ctrl_c true s0))).
  { unfold step. now rewrite Hr, HM, Ha. }
  set (s := set_main MJoinListeners (set_ctrl_c true s0)) in *.
  assert (HR : reachable ex_deny true 1 s) by (eapply reachable_step; eauto).
  assert (HC : ctrl_c s = true) by reflexivity.
  assert (HS : stuck s) by (eapply stuck_forever; [exact HS0|eapply step_trans; exact E]).
  destruct (H ex_deny true 1%nat s HR HC) as (ls & s' & Hs & K).
  pose proof (stuck_never_exits ex_deny true 1 s ls s' HR HS Hs) as R. unfold running in R.
  destruct K as [K|K]; rewrite K in R; discriminate.
Qed.

(** What does hold: from every state after ctrl-c the program can exit, unless the handler is or
    becomes stalled by a peer that does not read. *)
Theorem C57_shutdown_partial auth dbg n s : reachable auth dbg n s -> ctrl_c s = true ->
  exists ls s', steps auth dbg s ls = Some s'
    /\ (main s' = MExited \/ main s' = MPanicked
        \/ stuck s' /\ exists k c, nth_error (conns s') k = Some c /\ In WBlock (wacts (c_wsock c))).
Proof.
  intros HR HC. destruct (running s) eqn:Hr.
  - destruct (can_exit auth dbg n s HR HC Hr) as (ls & s' & Hs & [K|K]); exists ls, s'; (split; [exact Hs|]).
    + unfold running in K. destruct (main s'); try discriminate; auto.
    + right. right. split; [exact K|]. apply (stuck_blocked auth dbg n); [eapply reachable_steps; eauto|exact K].
  - exists [], s. split; [reflexivity|]. unfold running in Hr. destruct (main s); try discriminate; auto.
Qed.

(** A program that has exited has stopped everything. *)
Theorem C57_exit_after_handler auth dbg n s : reachable auth dbg n s -> main s = MExited ->
  handler_alive (hdl s) = false.
Proof. intros HR HM. pose proof (main_invariant auth dbg n s HR) as K. now rewrite HM in K. Qed.

Example C57_case :
  let s := drive ex_deny true (sys_init 2) (ex_sub_pub [] 3 ++ [LCtrlC]) in
  ctrl_c s = true
  /\ main (drive ex_deny true s [LStopHandler; LStopListener; LStopListener; LMain; LStopService; LMain; LMain]) = MExited.
Proof. vm_compute. auto. Qed.

(** ** C58 *)

Theorem C58_queues_bounded auth dbg n s : reachable auth dbg n s ->
  (length (events s) <= 32)%nat /\ forall k c, nth_error (conns s) k = Some c -> (length (c_queue c) <= 32)%nat.
Proof. intros HR. destruct (bounded_inv auth dbg n s HR) as (H1 & H2). split; [exact H1|]. intros k c. exact (H2 k c). Qed.

Example C58_case : reachable ex_deny true 1 ex_stalled
  /\ map (fun c => length (c_queue c)) (conns ex_stalled) = [32%nat; 0%nat].
Proof. split; [apply drive_reachable|vm_compute; reflexivity]. Qed.

(** ** C56 *)

(** Steps the broker takes by itself. *)
Definition own (l : label) : Prop := match l with LAccept _ _ _ | LCtrlC => False | _ => True end.

(** Connection [k] is told to close. *)
Definition told_to_close (s : sys) (k : conn) : Prop := exists f, In (f, k, ServerDisconnect) (log s).

(** A client with a session and a keep-alive that sends nothing is told to close at some time. *)
Definition C56_statement : Prop :=
  forall auth dbg n s k c rs cid x, reachable auth dbg n s -> nth_error (conns s) k = Some c ->
    hm_get cid (sessions (svc s)) = Some x -> s_sender x = k -> 0 < s_keep_alive_seconds x ->
    c_reader c = RLoop cid rs -> stream_read_packet dbg rs = RWait ->
    exists ls s', steps auth dbg s ls = Some s' /\ Forall own ls /\ told_to_close s' k.

Definition ex_silent : sys :=
  drive ex_deny true (sys_init 1) ([LAccept (ex_peer [ex_client "s" None None] PeerOpen) (ex_socket []) 1] ++ ex_rounds 10 [0%nat]).

(** [s] can do nothing by itself. *)
Definition idle auth dbg (s : sys) : Prop := forall l s', own l -> step auth dbg s l <> Some s'.

Lemma idle_steps auth dbg s ls s' : idle auth dbg s -> Forall own ls -> steps auth dbg s ls = Some s' -> s' = s.
Proof.
  intros HI HF. destruct HF as [|l ls Hl HF]; cbn [steps]; [congruence|].
  destruct (step auth dbg s l) as [s1|] eqn:E; [|discriminate]. exfalso. exact (HI l s1 Hl E).
Qed.

(** Nothing to read, write or handle. *)
Definition idleb dbg (s : sys) : bool :=
  match hdl s, events s, main s with
  | HIdle, [], MServing => negb (ctrl_c s)
  | _, _, _ => false
  end
  && forallb (fun x => match c_reader (snd x) with
              | RDone => true
              | RFirst rs | RLoop _ rs => match stream_read_packet dbg rs with RWait => true | _ => false end
              | RPush _ _ _ => false
              end
              && match c_writer (snd x), c_queue (snd x) with
                 | WIdle _, [] => has_sender s (fst x) (snd x)
                 | WClosed _, _ => true
                 | WBusy p ws, _ => match write_packet p ws with WWait _ => true | _ => false end
                 | _, _ => false
                 end) (combine (seq 0 (length (conns s))) (conns s)).

Lemma nth_combine_seq {A} (l : list A) k x : nth_error l k = Some x -> forall b, In ((b + k)%nat, x) (combine (seq b (length l)) l).
Proof.
  revert k. induction l as [|y l IH]; intros [|k]; cbn; try discriminate.
  - intros [= <-] b. left. f_equal. lia.
  - intros H b. right. replace (b + S k)%nat with (S b + k)%nat by lia. now apply IH.
Qed.

Lemma idleb_idle auth dbg s : idleb dbg s = true -> idle auth dbg s.
Proof.
  unfold idleb. intros H. apply andb_true_iff in H. destruct H as (H1 & H2).
  destruct (hdl s) eqn:EH; try discriminate. destruct (events s) eqn:EE; [|discriminate].
  destruct (main s) eqn:EM; try discriminate. apply negb_true_iff in H1. rewrite forallb_forall in H2.
  intros l s' Hl. unfold step. destruct (running s); [|discriminate].
  destruct l as [r w a|k uuid|k|now| | | | |]; try contradiction.
  - unfold step_reader. destruct (nth_error (conns s) k) as [c|] eqn:Ec; [|discriminate].
    specialize (H2 (k, c) (nth_combine_seq (conns s) k c Ec 0)). cbn [fst snd] in H2. apply andb_true_iff in H2. destruct H2 as (H2 & _).
    destruct (c_reader c); try discriminate; destruct (stream_read_packet dbg rs); discriminate.
  - unfold step_writer. destruct (nth_error (conns s) k) as [c|] eqn:Ec; [|discriminate].
    specialize (H2 (k, c) (nth_combine_seq (conns s) k c Ec 0)). cbn [fst snd] in H2. apply andb_true_iff in H2. destruct H2 as (_ & H2).
    destruct (c_writer c) as [ws|p ws|ws]; try discriminate.
    + destruct (c_queue c); [|discriminate]. rewrite H2. discriminate.
    + destruct (write_packet p ws); discriminate.
  - unfold step_handler. rewrite EH, EE. discriminate.
  - rewrite EH, H1. discriminate.
  - rewrite H1. destruct (listeners s); discriminate.
  - rewrite EH. cbn. rewrite andb_false_r. discriminate.
  - unfold step_main. rewrite EM. discriminate.
Qed.

Lemma silent_exists : exists s c rs x, reachable ex_deny true 1 s /\ idle ex_deny true s /\ nth_error (conns s) 0 = Some c
     /\ hm_get (str "s") (sessions (svc s)) = Some x /\ s_sender x = 0%nat /\ 0 < s_keep_alive_seconds x
     /\ c_reader c = RLoop (str "s") rs /\ stream_read_packet true rs = RWait
     /\ ~ told_to_close s 0%nat.
Proof.
  exists ex_silent.
  assert (K : idleb true ex_silent && forallb (fun x => match snd x with ServerDisconnect => false | _ => true end) (log ex_silent) &&
              match nth_error (conns ex_silent) 0 with
              | Some c => match hm_get (str "s") (sessions (svc ex_silent)), c_reader c with
                | Some x, RLoop cid rs => Nat.eqb (s_sender x) 0 && (0 <? s_keep_alive_seconds x) && bytes_eqb cid (str "s")
                   && match stream_read_packet true rs with RWait => true | _ => false end
                | _, _ => false end
              | None => false end = true) by (vm_compute; reflexivity).
  assert (HR : reachable ex_deny true 1 ex_silent) by apply drive_reachable. generalize dependent ex_silent. intros s K HR.
  apply andb_true_iff in K. destruct K as (K & K3). apply andb_true_iff in K. destruct K as (K1 & K2).
  destruct (nth_error (conns s) 0) as [c|]; [|discriminate].
  destruct (hm_get (str "s") (sessions (svc s))) as [x|]; [|discriminate].
  destruct (c_reader c) as [|e cid rs|cid rs|] eqn:EC; try discriminate.
  apply andb_true_iff in K3. destruct K3 as (K3 & K4). apply andb_true_iff in K3. destruct K3 as (K3 & K5).
  apply andb_true_iff in K3. destruct K3 as (K3 & K6). apply Nat.eqb_eq in K3. apply N.ltb_lt in K6.
  destruct (bytes_eqb_spec cid (str "s")) as [->|]; [|discriminate].
  exists c, rs, x. split; [exact HR|]. split; [now apply idleb_idle|]. split; [reflexivity|]. split; [reflexivity|].
  split; [exact K3|]. split; [exact K6|]. split; [exact EC|]. split; [now destruct (stream_read_packet true rs)|].
  intros (f & Hf). rewrite forallb_forall in K2. specialize (K2 _ Hf). discriminate.
Qed.

Theorem C56_idle_clients_are_disconnected_refuted : ~ C56_statement.
Proof.
  intros H. destruct silent_exists as (s & c & rs & x & HR & HI & K1 & K2 & K3 & K4 & K5 & K6 & HN).
  destruct (H ex_deny true 1%nat s 0%nat c rs (str "s") x HR K1 K2 K3 K4 K5 K6) as (ls & s' & Hs & Ho & Hf).
  rewrite (idle_steps _ _ _ _ _ HI Ho Hs) in Hf. exact (HN Hf).
Qed.

(** What does hold: the only reasons to tell a connection to close are a refused CONNECT and a
    PINGREQ on a client id without session; the time never plays a role. *)
Theorem C56_reasons_to_close_partial auth dbg n s k : reachable auth dbg n s -> told_to_close s k ->
  exists h1 te h2 m l, handled s = h1 ++ te :: h2 /\ handle_all auth MessagingService_new h1 = (m, l, Finished)
    /\ ((exists c a, snd te = Connected c a k /\ rejected auth c)
        \/ (exists cid, snd te = ClientPacket cid PingReq k /\ session_exists m cid = false)).
Proof.
  intros HR (f & Hf). destruct (log_cause auth dbg n s f k _ HR Hf) as (h1 & te & h2 & m & l & Eh & Ha & _ & Hin).
  exists h1, te, h2, m, l. split; [exact Eh|]. split; [exact Ha|]. now apply disconnect_cause.
Qed.

Example C56_case : told_to_close ex_refused_ping 0%nat /\ map (fun x => s_keep_alive_seconds (snd x)) (sessions (svc ex_silent)) = [60].
Proof. split; [exists (Some 0%nat); vm_compute; auto|vm_compute; reflexivity]. Qed.

(** ** C39 *)

(** A client whose connection ended loses its session at some time. *)
Definition C39_statement : Prop :=
  forall auth dbg n s k c x, reachable auth dbg n s -> nth_error (conns s) k = Some c ->
    c_reader c = RDone -> In x (sessions (svc s)) -> s_sender (snd x) = k ->
    exists ls s', steps auth dbg s ls = Some s' /\ Forall own ls /\ ~ In x (sessions (svc s')).

Definition ex_lost : sys :=
  drive ex_deny true (sys_init 1) ([LAccept (ex_peer [ex_client "s" None None] PeerEof) (ex_socket []) 1] ++ ex_rounds 10 [0%nat]).

Lemma lost_exists : exists s c x, reachable ex_deny true 1 s /\ idle ex_deny true s /\ nth_error (conns s) 0 = Some c
  /\ c_reader c = RDone /\ In x (sessions (svc s)) /\ s_sender (snd x) = 0%nat.
Proof.
  exists ex_lost.
  assert (K : idleb true ex_lost && match nth_error (conns ex_lost) 0, sessions (svc ex_lost) with
     | Some c, x :: _ => match c_reader c with RDone => true | _ => false end && Nat.eqb (s_sender (snd x)) 0
     | _, _ => false end = true) by (vm_compute; reflexivity).
  assert (HR : reachable ex_deny true 1 ex_lost) by apply drive_reachable. generalize dependent ex_lost. intros s K HR. apply andb_true_iff in K. destruct K as (K1 & K2).
  destruct (nth_error (conns s) 0) as [c|]; [|discriminate]. destruct (sessions (svc s)) as [|x l]; [discriminate|].
  apply andb_true_iff in K2. destruct K2 as (K2 & K3). apply Nat.eqb_eq in K3.
  exists c, x. split; [exact HR|]. split; [now apply idleb_idle|]. split; [reflexivity|].
  split; [now destruct (c_reader c)|]. split; [now left|exact K3].
Qed.

Theorem C39_lost_connection_cleaned_up_refuted : ~ C39_statement.
Proof.
  intros H. destruct lost_exists as (s & c & x & HR & HI & K1 & K2 & K3 & K4).
  destruct (H ex_deny true 1%nat s 0%nat c x HR K1 K2 K3 K4) as (ls & s' & Hs & Ho & Hn).
  rewrite (idle_steps _ _ _ _ _ HI Ho Hs) in Hn. exact (Hn K3).
Qed.

(** The loss of a connection is never reported to the handler: the only events it gets are packets.
    So a session ends by a DISCONNECT packet only. *)
Theorem C39_only_disconnect_ends_a_session_partial auth dbg n s cid te : reachable auth dbg n s ->
  In te (handled s) -> ends cid te -> exists k, snd te = ClientPacket cid Disconnect k.
Proof.
  intros HR Hin [H|H]; [exact H|]. exfalso. destruct (only_client_events auth dbg n s (snd te) HR) as (k & E).
  - apply in_or_app. left. now apply in_map.
  - rewrite H in E. discriminate.
Qed.

Example C39_case : map fst (sessions (svc ex_lost)) = [str "s"] /\ map c_reader (conns ex_lost) = [RDone]
  /\ map ending (map c_rsock (conns ex_lost)) = [PeerEof].
Proof. vm_compute. auto. Qed.
