(** Property C142: everything the handler and the service log, at all levels. *)
From Verif Require Import Base Base_facts Packets HashMap Subscriptions Messaging Handler Decoder ReadStream Conn
  Encoder WriteStream Spec_subs Spec_broker Spec_ref Subscriptions_facts Handler_facts System System_facts
  System_hist Logging Log_facts Prop_subs Prop_broker Prop_ref Prop_system Prop_log.

(** ** The texts, written out *)

Definition yes_no (b : bool) : bytes := match b with true => str "true" | false => str "false" end.
Definition qos_name (q : QoS) : bytes :=
  match q with AtMostOnce => str "AtMostOnce" | AtLeastOnce => str "AtLeastOnce" | ExactlyOnce => str "ExactlyOnce" end.
Definition maybe (L : library) (o : option bytes) : bytes :=
  match o with None => str "None" | Some t => str "Some(" ++ show_string L t ++ str ")" end.

(** Texts with a comma and a space before each but the first. *)
Definition enumerated (ts : list bytes) : bytes :=
  match ts with [] => [] | t :: ts => t ++ concat (map (fun t => str ", " ++ t) ts) end.

Definition message_words (L : library) (m : Message) : bytes :=
  str "Message { topic: " ++ show_string L (topic m) ++ str ", payload: " ++ show_bytes (payload m)
  ++ str ", qos: " ++ qos_name (qos m) ++ str ", retain: " ++ yes_no (retain m) ++ str " }".

Definition will_words (L : library) (o : option Message) : bytes :=
  match o with None => str "None" | Some m => str "Some(" ++ message_words L m ++ str ")" end.

Definition connect_words (L : library) (c : ConnectPacket) : bytes :=
  str "ConnectPacket { version: " ++ (match version c with Mqtt3 => str "Mqtt3" | Mqtt5 => str "Mqtt5" end)
  ++ str ", client_id: " ++ show_string L (client_id c) ++ str ", keep_alive_seconds: " ++ show_u16 (keep_alive_seconds c)
  ++ str ", clean_session: " ++ yes_no (clean_session c) ++ str ", will_message: " ++ will_words L (will_message c)
  ++ str ", user_name: " ++ maybe L (user_name c) ++ str ", password: " ++ maybe L (password c) ++ str " }".

Definition subscription_words (L : library) (s : Subscription) : bytes :=
  str "Subscription { topic: " ++ show_string L (sub_topic s) ++ str ", qos: " ++ qos_name (sub_qos s) ++ str " }".

Definition listed (ts : list bytes) : bytes := str "[" ++ enumerated ts ++ str "]".

Definition packet_words (L : library) (p : ControlPacket) : bytes :=
  match p with
  | Connect c => str "Connect(" ++ connect_words L c ++ str ")"
  | ConnAck c =>
    str "ConnAck(ConnAckPacket { session_present: " ++ yes_no (session_present c) ++ str ", return_code: "
    ++ (match return_code c with
        | Accepted => str "Accepted" | UnacceptableProtocolVersion => str "UnacceptableProtocolVersion"
        | IdentifierRejected => str "IdentifierRejected" | ServerUnavailable => str "ServerUnavailable"
        | BadUserNameOrPassword => str "BadUserNameOrPassword" | NotAuthorized => str "NotAuthorized" end) ++ str " })"
  | Publish p =>
    str "Publish(PublishPacket { packet_id: " ++ (match pub_packet_id p with None => str "None" | Some i => str "Some(" ++ show_u16 i ++ str ")" end)
    ++ str ", dup: " ++ yes_no (dup p) ++ str ", message: " ++ message_words L (message p) ++ str " })"
  | PubAck i => str "PubAck(PubAckPacket { packet_id: " ++ show_u16 i ++ str " })"
  | PubRec i => str "PubRec(PubRecPacket { packet_id: " ++ show_u16 i ++ str " })"
  | PubRel i => str "PubRel(PubRelPacket { packet_id: " ++ show_u16 i ++ str " })"
  | PubComp i => str "PubComp(PubCompPacket { packet_id: " ++ show_u16 i ++ str " })"
  | Subscribe i ss =>
    str "Subscribe(SubscribePacket { packet_id: " ++ show_u16 i ++ str ", subscriptions: " ++ listed (map (subscription_words L) ss) ++ str " })"
  | SubAck i cs =>
    str "SubAck(SubAckPacket { packet_id: " ++ show_u16 i ++ str ", return_codes: "
    ++ listed (map (fun c => match c with SuccessQoS0 => str "SuccessQoS0" | SuccessQoS1 => str "SuccessQoS1"
                             | SuccessQoS2 => str "SuccessQoS2" | Failure => str "Failure" end) cs) ++ str " })"
  | Unsubscribe i ts =>
    str "Unsubscribe(UnsubscribePacket { packet_id: " ++ show_u16 i ++ str ", topics: " ++ listed (map (show_string L) ts) ++ str " })"
  | UnsubAck i => str "UnsubAck(UnSubAckPacket { packet_id: " ++ show_u16 i ++ str " })"
  | PingReq => str "PingReq"
  | PingResp => str "PingResp"
  | Disconnect => str "Disconnect(DisconnectPacket)"
  end.

Definition event_words (L : library) (e : ClientEvent) : bytes :=
  match e with
  | Connected c a k => str "Connected(" ++ connect_words L c ++ str ", " ++ of_address L a ++ str ", " ++ of_sender L k ++ str ")"
  | ClientPacket cid p k => str "ControlPacket(" ++ show_string L cid ++ str ", " ++ packet_words L p ++ str ", " ++ of_sender L k ++ str ")"
  | Disconnected cid => str "Disconnected(" ++ show_string L cid ++ str ")"
  | ConnectionLost cid => str "ConnectionLost(" ++ show_string L cid ++ str ")"
  end.

(** ** What is logged *)

Definition record (l : level) (t : bytes) : entry := {| lvl := l; said := t |}.

(** At level trace: the event, and for a packet the packet once more. *)
Definition traced (L : library) (e : ClientEvent) : list entry :=
  record Trace (str "Got event " ++ event_words L e) ::
  match e with ClientPacket _ p _ => [record Trace (str "Got packet " ++ packet_words L p)] | _ => [] end.

(** At level debug: who did what, of logins (also those refused) and the requests that are supported, but not PINGREQ. *)
Definition debugged (L : library) (e : ClientEvent) : list entry :=
  match e with
  | Connected c _ _ => [record Debug (str "New client " ++ show_string L (client_id c) ++ str " connected")]
  | ClientPacket cid p _ =>
    match p with
    | Publish p => [record Debug (str "Client " ++ show_string L cid ++ str " published message on topic " ++ show_string L (topic (message p)))]
    | Subscribe _ ss => [record Debug (str "Client " ++ show_string L cid ++ str " subscribed to topics " ++ listed (map (subscription_words L) ss))]
    | Unsubscribe _ ts => [record Debug (str "Client " ++ show_string L cid ++ str " unsubscribed from topics " ++ listed (map (show_string L) ts))]
    | Disconnect => [record Debug (str "Client " ++ show_string L cid ++ str " disconnected")]
    | _ => []
    end
  | _ => []
  end.

(** All of it, [told] being C113's account of level info. *)
Definition told_fully (auth : bytes -> bytes -> bool) (L : library) (r : ref) (e : ClientEvent) (rs : list entry) : Prop :=
  exists rest, told auth L r e rest /\ rs = traced L e ++ debugged L e ++ rest.

Inductive told_all_fully (auth : bytes -> bytes -> bool) (L : library) : list ClientEvent -> list entry -> Prop :=
| fully_none : told_all_fully auth L [] []
| fully_more es rs e rs' : told_all_fully auth L es rs -> told_fully auth L (ref_after auth es) e rs' ->
    told_all_fully auth L (es ++ [e]) (rs ++ rs').

(** ** Proofs *)

Lemma commas_enumerated ts : commas ts = enumerated ts.
Proof.
  destruct ts as [|t ts]; [reflexivity|]. revert t. induction ts as [|u ts IH]; intros t; [cbn; now rewrite app_nil_r|].
  change (commas (t :: u :: ts)) with (t ++ str ", " ++ commas (u :: ts)). rewrite IH. cbn [enumerated map concat].
  now rewrite <- !app_assoc.
Qed.

Lemma list_words {A} (f : A -> bytes) l : show_list f l = listed (map f l).
Proof. unfold show_list, listed. now rewrite commas_enumerated. Qed.

Ltac words := unfold struct, tuple, member; cbn [commas]; rewrite <- ?app_assoc; reflexivity.

Lemma message_same L m : show_message L m = message_words L m.
Proof. unfold show_message, message_words. destruct (qos m), (retain m); words. Qed.

Lemma connect_same L c : show_connect L c = connect_words L c.
Proof.
  unfold show_connect, connect_words, show_option, maybe, will_words.
  destruct (will_message c) as [w|]; [rewrite (message_same L w)|];
    destruct (version c), (clean_session c), (user_name c), (password c); words.
Qed.

Lemma subscription_same L s : show_subscription L s = subscription_words L s.
Proof. unfold show_subscription, subscription_words. destruct (sub_qos s); words. Qed.

Lemma packet_same L p : show_packet L p = packet_words L p.
Proof.
  destruct p as [c|c|p|i|i|i|i|i ss|i cs|i ts|i| | |]; cbn [show_packet packet_words]; try reflexivity; try (unfold show_id; words).
  - rewrite connect_same. words.
  - unfold show_publish, show_option. rewrite message_same. destruct (pub_packet_id p), (dup p); words.
  - rewrite list_words, (map_ext _ _ (subscription_same L)). words.
  - rewrite list_words. unfold listed. words.
  - rewrite list_words. words.
Qed.

Lemma event_same L e : show_client_event L e = event_words L e.
Proof.
  destruct e as [c a k|cid p k|cid|cid]; cbn [show_client_event event_words]; [rewrite connect_same|rewrite packet_same| |]; words.
Qed.

Lemma fully_event auth L h m te : after auth h m ->
  told_fully auth L (ref_after auth (map snd h)) (snd te) (handle_entries auth L m te).
Proof.
  intros H. exists (upto Info (handle_entries auth L m te)). split; [now apply told_event|].
  rewrite handle_entries_eq, upto_app. unfold traced. rewrite <- event_same. destruct te as [now e]. cbn [snd]. unfold event_entries.
  destruct e as [c a k|cid p k|cid|cid]; cbn [later_entries debugged].
  - rewrite !app_nil_r. cbn [upto filter lvl rank Nat.leb entry_of app]. unfold record.
    destruct (user_name c) as [u|]; [|reflexivity]. destruct (password c) as [p|]; [|reflexivity]. now destruct (auth u p).
  - rewrite <- packet_same. unfold packet_entries, record, entry_of.
    destruct p as [| |pp| | | | |sid ss| |uid ts| | | |]; cbn [upto filter lvl rank Nat.leb app]; rewrite ?app_nil_r; try reflexivity.
    + assert (W : upto Info (warned L m (topic (message pp))) = warned L m (topic (message pp))) by (apply warned_upto; cbn; lia).
      change (filter (fun r => (rank (lvl r) <=? rank Info)%nat)) with (upto Info). now rewrite W.
    + now rewrite list_words, (map_ext _ _ (subscription_same L)).
    + now rewrite list_words.
    + now destruct (session_exists m cid).
  - reflexivity.
  - reflexivity.
Qed.

Lemma fully_history auth L h : forall m l, handle_all auth MessagingService_new h = (m, l, Finished) ->
  told_all_fully auth L (map snd h) (all_entries auth L MessagingService_new h).
Proof.
  induction h as [|te h IH] using rev_ind; intros m l H; [constructor|].
  rewrite handle_all_snoc in H. rewrite map_app, all_entries_snoc.
  destruct (handle_all auth MessagingService_new h) as [[m1 l1] [|]] eqn:E; [|discriminate].
  apply fully_more; [exact (IH m1 l1 eq_refl)|]. apply fully_event. now exists l1.
Qed.

(** C142: the whole log of the handler and the service, in order. The last event may still be in progress. *)
Theorem C142_handler auth dbg n L ls s : steps auth dbg (sys_init n) ls = Some s ->
  exists rs rest, told_all_fully auth L (map snd (handled s)) rs
    /\ rs = run_entries by_handler auth L dbg (sys_init n) ls ++ rest
    /\ (hdl s = HIdle \/ hdl s = HStopped -> rest = []).
Proof.
  intros H. destruct (handler_log auth dbg n L ls s H) as (rest & K & KI).
  exists (all_entries auth L MessagingService_new (handled s)), rest.
  split; [|split; [exact K|exact KI]].
  destruct (handled_finished auth dbg n s) as [(m & l & E)|(h & te & m & l & E1 & E2)]; [now exists ls|exact (fully_history auth L _ m l E)|].
  rewrite E1, map_app, all_entries_snoc, E2. apply fully_more; [exact (fully_history auth L h m l E2)|].
  apply fully_event. now exists l.
Qed.

(** Hence what is there up to debug. *)
Theorem C142_debug auth L r e rs : told_fully auth L r e rs ->
  exists rest, told auth L r e rest /\ upto Debug rs = debugged L e ++ rest /\ upto Info rs = rest.
Proof.
  intros (rest & HT & ->). exists rest. split; [exact HT|].
  assert (K : Forall (fun x => lvl x = Error \/ lvl x = Warn \/ lvl x = Info) rest).
  { destruct e as [c a k|cid p k|cid|cid]; cbn [told] in HT.
    - destruct (user_name c) as [u|]; [|subst; constructor]. destruct (password c) as [p|]; [|subst; constructor].
      destruct (auth u p); subst; constructor; [cbn; auto|constructor].
    - destruct p; try (subst; constructor; [cbn; auto|constructor]; fail); try (subst; constructor; fail).
      + destruct HT as (cids & -> & _). apply Forall_forall. intros x Hx. apply in_map_iff in Hx. destruct Hx as (c & <- & _). cbn. auto.
      + destruct (place r cid); subst; constructor; [cbn; auto|constructor].
    - subst. constructor.
    - subst. constructor; [cbn; auto|constructor]. }
  assert (KD : upto Debug rest = rest /\ upto Info rest = rest).
  { clear HT. induction K as [|x l [E|[E|E]] _ [I1 I2]]; [now split| | |]; unfold upto in *; cbn [filter]; rewrite E; cbn [rank Nat.leb] in *;
      (split; [now rewrite I1|now rewrite I2]). }
  destruct KD as [KD KI]. rewrite !upto_app, KD, KI.
  assert (T : upto Debug (traced L e) = [] /\ upto Info (traced L e) = []) by (destruct e; split; reflexivity).
  assert (D : upto Debug (debugged L e) = debugged L e /\ upto Info (debugged L e) = [])
    by (destruct e as [c a k|cid p k|cid|cid]; [| destruct p| |]; split; reflexivity).
  destruct T as [-> ->], D as [-> ->]. split; reflexivity.
Qed.

(** The log of a client that logs in, subscribes to two filters, publishes and leaves. *)
Definition ex_full : list (Z * ClientEvent) :=
  [(1%Z, Connected (ex_login "d" "alice" "secret") 1 2%nat); (2%Z, ClientPacket (str "d") (Subscribe 7 [ex_sub "a/#"; ex_sub "b"]) 2%nat);
   (3%Z, ClientPacket (str "d") (Publish (ex_publish "c")) 2%nat); (4%Z, ClientPacket (str "d") Disconnect 2%nat);
   (5%Z, ClientPacket (str "d") PingReq 2%nat)].

Example C142_case : exists rs, told_all_fully ex_auth ex_library (map snd ex_full) rs
  /\ map (fun r => (lvl r, said r)) rs
     = [(Trace, str "Got event Connected(ConnectPacket { version: Mqtt3, client_id: ""d"", keep_alive_seconds: 60, clean_session: true, will_message: None, user_name: Some(""alice""), password: Some(""secret"") }, 127.0.0.1:1, Sender)");
        (Debug, str "New client ""d"" connected");
        (Trace, str "Got event ControlPacket(""d"", Subscribe(SubscribePacket { packet_id: 7, subscriptions: [Subscription { topic: ""a/#"", qos: AtLeastOnce }, Subscription { topic: ""b"", qos: AtLeastOnce }] }), Sender)");
        (Trace, str "Got packet Subscribe(SubscribePacket { packet_id: 7, subscriptions: [Subscription { topic: ""a/#"", qos: AtLeastOnce }, Subscription { topic: ""b"", qos: AtLeastOnce }] })");
        (Debug, str "Client ""d"" subscribed to topics [Subscription { topic: ""a/#"", qos: AtLeastOnce }, Subscription { topic: ""b"", qos: AtLeastOnce }]");
        (Trace, str "Got event ControlPacket(""d"", Publish(PublishPacket { packet_id: None, dup: false, message: Message { topic: ""c"", payload: b""hello"", qos: AtMostOnce, retain: false } }), Sender)");
        (Trace, str "Got packet Publish(PublishPacket { packet_id: None, dup: false, message: Message { topic: ""c"", payload: b""hello"", qos: AtMostOnce, retain: false } })");
        (Debug, str "Client ""d"" published message on topic ""c""");
        (Trace, str "Got event ControlPacket(""d"", Disconnect(DisconnectPacket), Sender)");
        (Trace, str "Got packet Disconnect(DisconnectPacket)");
        (Debug, str "Client ""d"" disconnected");
        (Trace, str "Got event ControlPacket(""d"", PingReq, Sender)");
        (Trace, str "Got packet PingReq");
        (Error, str "Received PING from not existing session with client id d")].
Proof.
  assert (T : forall h, let '(_, _, o) := handle_all ex_auth MessagingService_new h in o = Finished ->
    told_all_fully ex_auth ex_library (map snd h) (all_entries ex_auth ex_library MessagingService_new h)).
  { intros h. destruct (handle_all ex_auth MessagingService_new h) as [[m l] o] eqn:E. intros ->. now apply (fully_history _ _ h m l). }
  eexists. split; [exact (T ex_full eq_refl)|]. vm_compute. reflexivity.
Qed.
