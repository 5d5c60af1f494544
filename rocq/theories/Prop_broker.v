(** Properties C30-C38, C42 and C52: what the event handler does, for every history of events. *)
From Coq Require Import Permutation.
From Verif Require Import Base Base_facts Packets HashMap Subscriptions Messaging Handler
  Spec_subs Spec_wire Spec_broker Subscriptions_facts Handler_facts
  Prop_subs Utf8 Utf8_facts Decoder_facts Encoder Encoder_facts WriteStream WriteStream_facts.
Open Scope N_scope.

(** [m] is the broker's state after the history [h]. *)
Definition after (auth : bytes -> bytes -> bool) (h : history) (m : MessagingService) : Prop :=
  exists l, handle_all auth MessagingService_new h = (m, l, Finished).

(** The packets and close requests queued by handling one event in state [m], with their
    destinations, oldest first. *)
Definition replies (auth : bytes -> bytes -> bool) (m : MessagingService) (te : Z * ClientEvent)
  : list (conn * ServerEvent) := snd (fst (handle auth m te)).

Definition next (auth : bytes -> bytes -> bool) (m : MessagingService) (te : Z * ClientEvent)
  : MessagingService := fst (fst (handle auth m te)).

Lemma after_owner auth h m cid : after auth h m -> session_owner m cid = owner auth h cid.
Proof. intros (l & H). exact (handle_all_owner auth h _ m l cid H). Qed.

Lemma after_subs auth h m : after auth h m -> subscriptions m = repo_after (requests h).
Proof. intros (l & H). exact (handle_all_subs auth h _ m l H). Qed.

Lemma after_ok auth h m : after auth h m -> hm_ok (sessions m).
Proof.
  intros (l & H). pose proof (handle_all_ok auth h MessagingService_new hm_ok_nil) as K. now rewrite H in K.
Qed.

Lemma after_next auth h m te : after auth h m -> ~ user_without_password te -> after auth (h ++ [te]) (next auth m te).
Proof.
  intros (l & H) HP. unfold after, next. rewrite handle_all_snoc, H.
  pose proof (handle_panics auth m te) as K. destruct (handle auth m te) as [[m' l'] o]. cbn [fst snd] in *.
  exists (l ++ l'). f_equal. destruct o; [reflexivity|]. exfalso. tauto.
Qed.

(** Events for the cases. *)
Definition ex_connect (id : String.string) (clean : bool) : ConnectPacket :=
  ConnectPacket_new Mqtt3 (str id) 60 clean None None None.
Arguments ex_connect id%string clean.
Definition ex_login (id u p : String.string) : ConnectPacket :=
  ConnectPacket_new Mqtt3 (str id) 60 true None (Some (str u)) (Some (str p)).
Arguments ex_login (id u p)%string.
Definition ex_publish (t : String.string) : PublishPacket :=
  PublishPacket_new (str t) (str "hello") AtMostOnce false None false.
Arguments ex_publish t%string.
Definition ex_sub (f : String.string) : Subscription := {| sub_topic := str f; sub_qos := AtLeastOnce |}.
Arguments ex_sub f%string.
Definition ex_auth (u p : bytes) : bool := bytes_eqb u (str "alice") && bytes_eqb p (str "secret").

(** ** C30 *)

Theorem C30_suback auth m now cid i subs k :
  let te := (now, ClientPacket cid (Subscribe i subs) k) in
  replies auth m te = [(k, ServerPacket (SubAck i (repeat SuccessQoS0 (length subs))))]
  /\ subscriptions (next auth m te)
     = fold_left apply_request (map (fun s => ReqSubscribe cid (sub_topic s)) subs) (subscriptions m)
  /\ sessions (next auth m te) = sessions m.
Proof.
  cbv zeta. unfold replies, next. rewrite handle_subscribe. cbn [fst snd]. split; [|split; reflexivity].
  repeat f_equal. induction subs as [|s subs IH]; cbn [map repeat length]; congruence.
Qed.

(** The acknowledgement is sent only after the subscriptions are stored: every program of the
    handler first calls the service and then sends. *)
Theorem C30_calls_before_sends auth now e : calls_then_sends (on_event auth now e).
Proof. apply on_event_shape. Qed.

(** Effect on deliveries: each filter counts from now on, for every name. *)
Theorem C30_takes_effect auth h m now cid i subs k t c : after auth h m ->
  match subscribed_clients (subscriptions (next auth m (now, ClientPacket cid (Subscribe i subs) k))) t with
  | Some l => occurs c l
              = occurs c (selected (requests h ++ map (fun s => ReqSubscribe cid (sub_topic s)) subs) t)
  | None => False
  end.
Proof.
  intros Ha. destruct (C30_suback auth m now cid i subs k) as (_ & E & _). cbv zeta in E. rewrite E.
  rewrite (after_subs auth h m Ha). unfold selected, repo_after. rewrite fold_left_app.
  destruct (subscribed_clients _ t) eqn:X; [reflexivity|discriminate].
Qed.

Example C30_case :
  let m := next ex_auth MessagingService_new (5%Z, Connected (ex_connect "c" true) 1 7%nat) in
  replies ex_auth m (6%Z, ClientPacket (str "c") (Subscribe 9 [ex_sub "a"; ex_sub "b/#"]) 7%nat)
  = [(7%nat, ServerPacket (SubAck 9 [SuccessQoS0; SuccessQoS0]))].
Proof. vm_compute. reflexivity. Qed.

(** ** C31 *)

Theorem C31_session_exactly_when_connected auth h m cid : after auth h m ->
  (session_exists m cid = true <-> connected auth h cid).
Proof.
  intros H. rewrite session_exists_owner, connected_owner, (after_owner auth h m cid H). reflexivity.
Qed.

Definition ex_history : history :=
  [(1%Z, Connected (ex_connect "c" true) 1 1%nat); (2%Z, Connected (ex_login "d" "alice" "wrong") 1 2%nat);
   (3%Z, Connected (ex_login "e" "alice" "secret") 1 3%nat);
   (4%Z, ClientPacket (str "e") (Subscribe 1 [ex_sub "a/#"]) 3%nat);
   (5%Z, Connected (ex_connect "c" false) 1 4%nat); (6%Z, ClientPacket (str "e") Disconnect 3%nat);
   (7%Z, ClientPacket (str "c") (Subscribe 2 [ex_sub "a/+"; ex_sub "a/#"]) 4%nat)].

Definition ex_state : MessagingService := fst (fst (handle_all ex_auth MessagingService_new ex_history)).

Lemma ex_after : after ex_auth ex_history ex_state.
Proof. eexists. vm_compute. reflexivity. Qed.

Example C31_case : after ex_auth ex_history ex_state
  /\ session_exists ex_state (str "c") = true /\ session_exists ex_state (str "d") = false
  /\ session_exists ex_state (str "e") = false.
Proof. split; [apply ex_after|]. repeat split; vm_compute; reflexivity. Qed.

(** ** C32 *)

(** The session's connection is that of the most recent accepted CONNECT. *)
Theorem C32_session_belongs_to_owner auth h m cid k : after auth h m ->
  (exists s, hm_get cid (sessions m) = Some s /\ s_sender s = k) <-> owns auth h k cid.
Proof.
  intros H. rewrite <- owner_owns, <- (after_owner auth h m cid H). unfold session_owner.
  destruct (hm_get cid (sessions m)) as [s|]; cbn [option_map]; split.
  - intros (s' & [= <-] & <-). reflexivity.
  - intros [= <-]. eauto.
  - intros (s' & [=] & _).
  - discriminate.
Qed.

Lemma senders_owned auth h m t : after auth h m ->
  senders_to_publish m t
  = flat_map (fun c => match owner auth h c with Some k => [k] | None => [] end) (selected (requests h) t).
Proof.
  intros H. unfold senders_to_publish, selected. rewrite (after_subs auth h m H).
  cbn [subscribed_clients]. apply flat_map_ext. intros c. rewrite <- (after_owner auth h m c H).
  unfold session_owner. destruct (hm_get c (sessions m)); reflexivity.
Qed.

(** Messages for a client go to its owner and to no other connection. *)
Theorem C32_messages_go_to_owner auth h m now cid p k0 k e : after auth h m ->
  In (k, e) (replies auth m (now, ClientPacket cid (Publish p) k0)) ->
  e = ServerPacket (Publish p)
  /\ exists c, owns auth h k c /\ In c (selected (requests h) (topic (message p))).
Proof.
  intros H Hin. unfold replies in Hin. rewrite handle_publish in Hin. cbn [fst snd] in Hin.
  apply in_map_iff in Hin. destruct Hin as (r & [= -> <-] & Hr). split; [reflexivity|].
  rewrite (senders_owned auth h m _ H) in Hr. apply in_flat_map in Hr. destruct Hr as (c & Hc & Hk).
  exists c. split; [|exact Hc]. apply owner_owns. destruct (owner auth h c) as [k'|]; [|destruct Hk].
  destruct Hk as [->|[]]. reflexivity.
Qed.

(** And every client the message is for, if it has an owner, gets it there. *)
Theorem C32_owner_gets_them auth h m now cid p k0 k c : after auth h m -> owns auth h k c ->
  In c (selected (requests h) (topic (message p))) ->
  In (k, ServerPacket (Publish p)) (replies auth m (now, ClientPacket cid (Publish p) k0)).
Proof.
  intros H Ho Hc. unfold replies. rewrite handle_publish. cbn [fst snd]. apply in_map_iff. exists k. split; [reflexivity|].
  rewrite (senders_owned auth h m _ H). apply in_flat_map. exists c. split; [exact Hc|].
  apply owner_owns in Ho. rewrite Ho. now left.
Qed.

(** A client id has at most one owner. *)
Theorem C32_one_owner auth h cid k k' : owns auth h k cid -> owns auth h k' cid -> k = k'.
Proof. rewrite <- !owner_owns. congruence. Qed.

Example C32_case :
  replies ex_auth ex_state (8%Z, ClientPacket (str "x") (Publish (ex_publish "a/b")) 9%nat)
  = [(4%nat, ServerPacket (Publish (ex_publish "a/b"))); (4%nat, ServerPacket (Publish (ex_publish "a/b")))].
Proof. vm_compute. reflexivity. Qed.

(** ** C33 *)

(** State kept for the client id: an earlier accepted CONNECT without clean session, not ended. *)
Definition kept (auth : bytes -> bytes -> bool) (h : history) (cid : ClientId) : Prop :=
  exists before t c a k later, h = before ++ (t, Connected c a k) :: later
    /\ client_id c = cid /\ accepts auth c /\ clean_session c = false
    /\ forall x, In x later -> ~ ends cid x.

Definition C33_statement : Prop :=
  forall auth h m now c a k, after auth h m -> accepts auth c ->
    exists present,
      replies auth m (now, Connected c a k)
      = [(k, ServerPacket (ConnAck {| session_present := present; return_code := Accepted |}))]
      /\ (present = true <-> kept auth h (client_id c)).

(** What the code does: the flag is never set. *)
Theorem C33_never_set auth m now c a k : accepts auth c ->
  replies auth m (now, Connected c a k)
  = [(k, ServerPacket (ConnAck {| session_present := false; return_code := Accepted |}))].
Proof. intros H. unfold replies. now rewrite (handle_accepted auth m now c a k H). Qed.

Theorem C33_session_present_refuted : ~ C33_statement.
Proof.
  intros H. specialize (H ex_auth ex_history ex_state 8%Z (ex_connect "c" false) 1 5%nat ex_after I).
  destruct H as (present & E & Hp). rewrite C33_never_set in E by exact I. injection E as <-.
  assert (K : kept ex_auth ex_history (client_id (ex_connect "c" false))).
  { exists (firstn 4 ex_history), 5%Z, (ex_connect "c" false), 1, 4%nat, (skipn 5 ex_history).
    split; [reflexivity|]. split; [reflexivity|]. split; [exact I|]. split; [reflexivity|].
    intros x [<-|[<-|[]]] [(k & [=])|[=]]. }
  apply Hp in K. discriminate.
Qed.

(** What holds: the flag is right whenever no state was kept. *)
Theorem C33_truthful_when_nothing_kept_partial auth h m now c a k : after auth h m ->
  accepts auth c -> ~ kept auth h (client_id c) ->
  exists present,
    replies auth m (now, Connected c a k)
    = [(k, ServerPacket (ConnAck {| session_present := present; return_code := Accepted |}))]
    /\ (present = true <-> kept auth h (client_id c)).
Proof.
  intros _ Ha Hk. exists false. split; [now apply C33_never_set|]. split; [discriminate|]. contradiction.
Qed.

Example C33_case : session_exists ex_state (str "c") = true
  /\ replies ex_auth ex_state (8%Z, Connected (ex_connect "c" false) 1 5%nat)
     = [(5%nat, ServerPacket (ConnAck {| session_present := false; return_code := Accepted |}))].
Proof. split; vm_compute; reflexivity. Qed.

(** ** C34 *)

Theorem C34_session_count auth h m ids : after auth h m ->
  NoDup ids -> (forall cid, In cid ids <-> connected auth h cid) ->
  session_count m = length ids.
Proof.
  intros H Hn Hi. unfold session_count, hm_len. rewrite <- (map_length fst).
  apply Permutation_length. apply NoDup_Permutation; [exact (after_ok auth h m H)|exact Hn|].
  intros cid. rewrite Hi, <- (C31_session_exactly_when_connected auth h m cid H).
  unfold session_exists, hm_mem. pose proof (hm_get_None cid (sessions m)) as K.
  destruct (hm_get cid (sessions m)) as [s|] eqn:E.
  - split; [reflexivity|]. intros _. apply hm_get_In in E. apply in_map_iff. now exists (cid, s).
  - split; [|discriminate]. intros C. exfalso. now apply K.
Qed.

(** There is such a list for every history. *)
Theorem C34_ids_listed auth h m : after auth h m ->
  exists ids, NoDup ids /\ forall cid, In cid ids <-> connected auth h cid.
Proof.
  intros H. exists (map fst (sessions m)). split; [exact (after_ok auth h m H)|].
  intros cid. rewrite <- (C31_session_exactly_when_connected auth h m cid H).
  unfold session_exists, hm_mem. pose proof (hm_get_None cid (sessions m)) as K.
  destruct (hm_get cid (sessions m)) as [s|] eqn:E.
  - split; [reflexivity|]. intros _. apply hm_get_In in E. apply in_map_iff. now exists (cid, s).
  - split; [|discriminate]. intros C. exfalso. now apply K.
Qed.

Example C34_case : session_count ex_state = 1%nat.
Proof. vm_compute. reflexivity. Qed.

(** ** C35 *)

Theorem C35_ping auth h m now cid k : after auth h m ->
  next auth m (now, ClientPacket cid PingReq k) = m
  /\ (connected auth h cid ->
      replies auth m (now, ClientPacket cid PingReq k) = [(k, ServerPacket PingResp)])
  /\ (~ connected auth h cid ->
      replies auth m (now, ClientPacket cid PingReq k) = [(k, ServerDisconnect)]).
Proof.
  intros H. unfold next, replies. rewrite handle_ping. cbn [fst snd]. split; [reflexivity|].
  pose proof (C31_session_exactly_when_connected auth h m cid H) as K.
  destruct (session_exists m cid); split; intros C; try reflexivity; exfalso; intuition discriminate.
Qed.

Example C35_case :
  replies ex_auth ex_state (9%Z, ClientPacket (str "c") PingReq 4%nat) = [(4%nat, ServerPacket PingResp)]
  /\ replies ex_auth ex_state (9%Z, ClientPacket (str "e") PingReq 3%nat) = [(3%nat, ServerDisconnect)].
Proof. split; vm_compute; reflexivity. Qed.

(** ** C36 *)

Theorem C36_unsuback auth m now cid i fs k :
  let te := (now, ClientPacket cid (Unsubscribe i fs) k) in
  replies auth m te = [(k, ServerPacket (UnsubAck i))]
  /\ subscriptions (next auth m te) = apply_request (subscriptions m) (ReqUnsubscribe cid fs)
  /\ sessions (next auth m te) = sessions m.
Proof. repeat split. Qed.

(** Effect on deliveries, for every client and name. *)
Theorem C36_takes_effect auth h m now cid i fs k t c : after auth h m ->
  match subscribed_clients (subscriptions (next auth m (now, ClientPacket cid (Unsubscribe i fs) k))) t with
  | Some l => occurs c l = occurs c (selected (requests h ++ [ReqUnsubscribe cid fs]) t)
  | None => False
  end.
Proof.
  intros Ha. unfold next. rewrite handle_unsubscribe. cbn [fst subscriptions].
  rewrite (after_subs auth h m Ha). unfold selected, repo_after. rewrite fold_left_app. reflexivity.
Qed.

Example C36_case :
  let te := (9%Z, ClientPacket (str "c") (Unsubscribe 77 [str "a/#"]) 4%nat) in
  replies ex_auth ex_state te = [(4%nat, ServerPacket (UnsubAck 77))]
  /\ replies ex_auth (next ex_auth ex_state te) (10%Z, ClientPacket (str "x") (Publish (ex_publish "a/b")) 9%nat)
     = [(4%nat, ServerPacket (Publish (ex_publish "a/b")))].
Proof. split; vm_compute; reflexivity. Qed.

(** ** C37 *)

Lemma entries_length subs : (length subs <= length (flat_map sub_entry subs))%nat.
Proof.
  induction subs as [|s subs IH]; cbn [flat_map length]; [auto|]. rewrite app_length.
  assert (1 <= length (sub_entry s))%nat by (unfold sub_entry; rewrite app_length; cbn [length]; lia). lia.
Qed.

Theorem C37_only_writable auth m te k p : event_receivable te ->
  In (k, ServerPacket p) (replies auth m te) ->
  writable p = true /\ packet_ok p /\ lenN (packet_body p) <= mqtt_max.
Proof.
  unfold replies. destruct te as [now e]. unfold event_receivable. cbn [snd].
  destruct e as [c a k0|cid q k0|cid|cid]; intros HR Hin.
  - destruct (connect_cases auth c) as [A|[A|(u & H1 & H2)]].
    + rewrite (handle_accepted auth m now c a k0 A) in Hin. destruct Hin as [[= _ <-]|[]].
      repeat split. cbn [packet_body]. unfold lenN, mqtt_max. cbn. lia.
    + rewrite (handle_rejected auth m now c a k0 A) in Hin. destruct Hin as [[= _ <-]|[[=]|[]]].
      repeat split. cbn [packet_body]. unfold lenN, mqtt_max. cbn. lia.
    + rewrite (handle_no_password auth m now c a k0 u H1 H2) in Hin. destruct Hin.
  - destruct HR as (b & hd & n & body & Hv & Hl & Hok & HC).
    pose proof (varint3_bound hd n Hv Hl) as Hn.
    destruct q; try (exfalso; exact Hin).
    + rewrite handle_publish in Hin. cbn [fst snd] in Hin. apply in_map_iff in Hin.
      destruct Hin as (r & [= -> <-] & _). destruct HC as (_ & _ & Hb).
      split; [reflexivity|]. split; [exact Hok|]. rewrite <- Hb. unfold mqtt_max. lia.
    + rewrite handle_subscribe in Hin. destruct Hin as [[= _ <-]|[]]. destruct HC as (_ & _ & Hb).
      split; [reflexivity|]. destruct Hok as (Hi & _). split; [exact Hi|].
      cbn [packet_body] in *. rewrite !lenN_app in *. unfold lenN in *. rewrite !map_length.
      match goal with H : context [flat_map sub_entry ?l] |- _ => pose proof (entries_length l) end. unfold mqtt_max. lia.
    + rewrite handle_unsubscribe in Hin. destruct Hin as [[= _ <-]|[]].
      split; [reflexivity|]. destruct Hok as (Hi & _). split; [exact Hi|].
      cbn [packet_body]. unfold lenN, be16, mqtt_max. cbn. lia.
    + rewrite handle_ping in Hin. destruct Hin as [E|[]]. destruct (session_exists m cid); [|discriminate].
      injection E as _ <-. repeat split. cbn [packet_body]. unfold lenN, mqtt_max. cbn. lia.
  - destruct Hin.
  - destruct Hin.
Qed.

(** So the writer has a legal encoding for it, and never panics or spins. *)
Theorem C37_writer_never_panics auth m te k p st : event_receivable te ->
  In (k, ServerPacket p) (replies auth m te) -> wwf st ->
  (exists bs, encode p = Some bs /\ wire p bs)
  /\ write_packet p st <> WPanic /\ write_packet p st <> WHung.
Proof.
  intros HR Hin W. destruct (C37_only_writable auth m te k p HR Hin) as (H1 & H2 & H3).
  destruct (encode_wire p H2 H1 H3) as (bs & E & Hw). split; [eauto|].
  pose proof (write_packet_facts p st bs W E) as HD.
  destruct (write_packet p st); cbn [wdone] in HD; split; congruence || contradiction.
Qed.

Example C37_case :
  event_receivable (1%Z, ClientPacket (str "x") (Publish (ex_publish "a/b")) 9%nat)
  /\ In (4%nat, ServerPacket (Publish (ex_publish "a/b")))
       (replies ex_auth ex_state (1%Z, ClientPacket (str "x") (Publish (ex_publish "a/b")) 9%nat)).
Proof.
  split; [|vm_compute; auto].
  exists 0x30, [x0a], 10, (packet_body (Publish (ex_publish "a/b"))).
  split; [apply (varint_last x0a); reflexivity|]. split; [cbn; lia|].
  split; [|split; [reflexivity|split; reflexivity]]. split; [|reflexivity].
  split; [|reflexivity]. apply utf8_ok_iff. vm_compute. reflexivity.
Qed.

(** ** C38 *)

(** After a client id reconnected on another connection, a DISCONNECT from the old connection leaves
    the session with the new one, and the subscriptions as they were. *)
Definition C38_statement : Prop :=
  forall auth h m now cid k k', after auth h m -> owns auth h k cid -> k' <> k ->
    let m' := next auth m (now, ClientPacket cid Disconnect k') in
    (exists s, hm_get cid (sessions m') = Some s /\ s_sender s = k)
    /\ subscriptions m' = subscriptions m.

(** False of the code, in every state. *)
Theorem C38_old_connection_ends_session auth m now cid k' :
  hm_get cid (sessions (next auth m (now, ClientPacket cid Disconnect k'))) = None.
Proof.
  unfold next. rewrite handle_disconnect. cbn [fst sessions]. rewrite hm_get_remove. now rewrite bytes_eqb_refl.
Qed.

Theorem C38_stale_disconnect_refuted : ~ C38_statement.
Proof.
  intros H. destruct (H ex_auth ex_history ex_state 9%Z (str "c") 4%nat 1%nat) as ((s & E & _) & _).
  - apply ex_after.
  - apply owner_owns. vm_compute. reflexivity.
  - discriminate.
  - rewrite C38_old_connection_ends_session in E. discriminate.
Qed.

(** What holds: no event of another client id can end a session or move it. *)
Definition about (cid : ClientId) (te : Z * ClientEvent) : Prop :=
  match snd te with
  | Connected c _ _ => client_id c = cid
  | ClientPacket cid' _ _ | Disconnected cid' | ConnectionLost cid' => cid' = cid
  end.

Theorem C38_other_ids_cannot_partial auth m te cid : ~ about cid te ->
  hm_get cid (sessions (next auth m te)) = hm_get cid (sessions m).
Proof.
  intros Hn. unfold next. pose proof (handle_sessions auth m te) as E.
  destruct (handle auth m te) as [[m' l] o]. cbn [fst]. rewrite E. unfold about in Hn.
  destruct (snd te) as [c a k|cid' p k|cid'|cid'].
  - assert (X : forall s, hm_get cid (hm_insert (client_id c) s (sessions m)) = hm_get cid (sessions m)).
    { intros s. rewrite hm_get_insert. destruct (bytes_eqb_spec cid (client_id c)); [congruence|reflexivity]. }
    destruct (user_name c); [|apply X]. destruct (password c); [|reflexivity].
    destruct (auth _ _); [apply X|reflexivity].
  - destruct p; try reflexivity. rewrite hm_get_remove.
    destruct (bytes_eqb_spec cid cid'); [congruence|reflexivity].
  - reflexivity.
  - rewrite hm_get_remove. destruct (bytes_eqb_spec cid cid'); [congruence|reflexivity].
Qed.

Lemma requests_of_about cid te r : ~ about cid te -> In r (requests_of te) -> requester r <> cid.
Proof.
  unfold about, requests_of. destruct (snd te) as [c a k|cid' p k|cid'|cid']; intros Hn Hin; try contradiction.
  - destruct p; try contradiction.
    + apply in_map_iff in Hin. destruct Hin as (s & <- & _). exact Hn.
    + destruct Hin as [<-|[]]. exact Hn.
    + destruct Hin as [<-|[]]. exact Hn.
  - destruct Hin as [<-|[]]. exact Hn.
Qed.

(** Nor can it change how often the client is selected for a name. *)
Theorem C38_other_ids_subscriptions_partial auth h m te cid t : after auth h m -> ~ about cid te ->
  occurs cid (selected (requests (h ++ [te])) t) = occurs cid (selected (requests h) t)
  /\ subscriptions (next auth m te) = repo_after (requests (h ++ [te])).
Proof.
  intros Ha Hn. split.
  - apply C27_no_interference. unfold requests. rewrite flat_map_app, filter_app. cbn [flat_map].
    rewrite app_nil_r. rewrite <- (app_nil_r (filter _ (flat_map requests_of h))) at 2. f_equal.
    pose proof (fun r => requests_of_about cid te r Hn) as K. induction (requests_of te) as [|r l IH]; [reflexivity|].
    cbn [filter]. destruct (bytes_eqb_spec (requester r) cid) as [E|_].
    + exfalso. exact (K r (or_introl eq_refl) E).
    + apply IH. intros r' Hr'. apply K. now right.
  - unfold next. pose proof (handle_subs auth m te) as E. destruct (handle auth m te) as [[m' l] o]. cbn [fst].
    rewrite E, (after_subs auth h m Ha). unfold repo_after, requests. rewrite flat_map_app, fold_left_app.
    cbn [flat_map]. now rewrite app_nil_r.
Qed.

Example C38_case : owns ex_auth ex_history 4%nat (str "c")
  /\ session_exists (next ex_auth ex_state (9%Z, ClientPacket (str "c") Disconnect 1%nat)) (str "c") = false
  /\ session_exists (next ex_auth ex_state (9%Z, ClientPacket (str "d") Disconnect 2%nat)) (str "c") = true.
Proof.
  split; [apply owner_owns; vm_compute; reflexivity|]. split; vm_compute; reflexivity.
Qed.

(** ** C42 *)

Theorem C42_rejected_login auth m now c a k u p :
  user_name c = Some u -> password c = Some p -> auth u p = false ->
  replies auth m (now, Connected c a k)
  = [(k, ServerPacket (ConnAck {| session_present := false; return_code := NotAuthorized |}));
     (k, ServerDisconnect)]
  /\ next auth m (now, Connected c a k) = m.
Proof.
  intros H1 H2 H3. unfold replies, next. rewrite (handle_rejected auth m now c a k); [auto|].
  exists u, p. auto.
Qed.

Example C42_case :
  replies ex_auth ex_state (9%Z, Connected (ex_login "c" "alice" "wrong") 1 8%nat)
  = [(8%nat, ServerPacket (ConnAck {| session_present := false; return_code := NotAuthorized |}));
     (8%nat, ServerDisconnect)].
Proof. vm_compute. reflexivity. Qed.

(** ** C52 *)

Lemma count_senders (g : bytes -> option nat) k cids L : NoDup cids ->
  (forall c, In c cids <-> g c = Some k) ->
  count_occ Nat.eq_dec (flat_map (fun c => match g c with Some x => [x] | None => [] end) L) k
  = sum (fun c => occurs c L) cids.
Proof.
  intros Hn Hg. induction L as [|a L IH]; cbn [flat_map].
  - symmetry. apply sum_zero. reflexivity.
  - rewrite count_occ_app, IH.
    assert (E : sum (fun c => occurs c (a :: L)) cids
                = (sum (fun c => if bytes_eq_dec a c then 1 else 0) cids + sum (fun c => occurs c L) cids)%nat).
    { rewrite <- sum_plus. apply sum_ext. intros c _. rewrite occurs_cons. destruct (bytes_eq_dec a c); lia. }
    rewrite E. f_equal. clear E IH.
    assert (G : forall l, NoDup l -> sum (fun c => if bytes_eq_dec a c then 1%nat else 0%nat) l
                = if in_dec bytes_eq_dec a l then 1%nat else 0%nat).
    { induction 1 as [|x l Hx Hl IH]; [reflexivity|]. rewrite sum_cons, IH.
      destruct (bytes_eq_dec a x) as [->|Hne].
      - destruct (in_dec bytes_eq_dec x l); [contradiction|].
        destruct (in_dec bytes_eq_dec x (x :: l)) as [_|C]; [reflexivity|]. exfalso. apply C. now left.
      - destruct (in_dec bytes_eq_dec a l) as [i|n0], (in_dec bytes_eq_dec a (x :: l)) as [i'|n']; try reflexivity.
        + exfalso. apply n'. now right.
        + destruct i' as [i'|i']; [congruence|contradiction]. }
    rewrite G by exact Hn. specialize (Hg a).
    destruct (in_dec bytes_eq_dec a cids) as [i|n0].
    + apply Hg in i. rewrite i. cbn [count_occ]. destruct (Nat.eq_dec k k); congruence.
    + destruct (g a) as [x|]; [|reflexivity]. cbn [count_occ]. destruct (Nat.eq_dec x k) as [->|_]; [|reflexivity].
      exfalso. apply n0. now apply Hg.
Qed.

(** [cids] are the client ids whose session belongs to connection [k]. Each connection gets as many
    copies as its client ids are selected; state does not change. *)
Theorem C52_publish_reaches_subscribers auth h m now cid p k0 k cids : after auth h m ->
  NoDup cids -> (forall c, In c cids <-> owns auth h k c) ->
  let te := (now, ClientPacket cid (Publish p) k0) in
  count_occ Nat.eq_dec (map fst (replies auth m te)) k
    = sum (fun c => occurs c (selected (requests h) (topic (message p)))) cids
  /\ (forall x, In x (replies auth m te) -> snd x = ServerPacket (Publish p))
  /\ next auth m te = m.
Proof.
  intros H Hn Hc. cbv zeta. unfold replies, next. rewrite handle_publish. cbn [fst snd].
  split; [|split; [|reflexivity]].
  - rewrite map_map. cbn [fst]. rewrite map_id, (senders_owned auth h m _ H).
    apply count_senders; [exact Hn|]. intros c. rewrite Hc. symmetry. apply owner_owns.
  - intros x Hx. apply in_map_iff in Hx. destruct Hx as (r & <- & _). reflexivity.
Qed.

(** With the count of C22, for names without wildcards: one copy per live matching subscription. *)
Theorem C52_copies auth h m now cid p k0 k cids fs : after auth h m ->
  NoDup cids -> (forall c, In c cids <-> owns auth h k c) ->
  wildcard_free (topic (message p)) -> matching_filters (requests h) (topic (message p)) fs ->
  count_occ Nat.eq_dec (map fst (replies auth m (now, ClientPacket cid (Publish p) k0))) k
  = sum (fun c => sum (live (requests h) c) fs) cids.
Proof.
  intros H Hn Hc Hw Hf.
  destruct (C52_publish_reaches_subscribers auth h m now cid p k0 k cids H Hn Hc) as (E & _).
  cbv zeta in E. rewrite E. apply sum_ext. intros c _. now apply selected_live.
Qed.

Example C52_case : after ex_auth ex_history ex_state
  /\ (forall c, In c [str "c"] <-> owns ex_auth ex_history 4%nat c)
  /\ matching_filters (requests ex_history) (str "a/b") [str "a/#"; str "a/+"]
  /\ sum (fun c => sum (live (requests ex_history) c) [str "a/#"; str "a/+"]) [str "c"] = 2%nat.
Proof.
  split; [apply ex_after|]. split.
  - intros c. rewrite <- owner_owns. split.
    + intros [<-|[]]. vm_compute. reflexivity.
    + intros H. left. unfold ex_history, owner in H. cbn [fold_left owner_step snd] in H.
      destruct (bytes_eqb_spec c (str "c")) as [->|Hn]; [reflexivity|exfalso].
      cbn [client_id ex_connect ex_login ConnectPacket_new user_name password] in H.
      apply bytes_eqb_neq in Hn. rewrite Hn in H.
      destruct (bytes_eqb c (str "e")), (bytes_eqb c (str "d")); vm_compute in H; discriminate.
  - split; [|vm_compute; reflexivity].
    assert (E : matching (requests ex_history) (str "a/b") = [str "a/+"; str "a/#"]) by (vm_compute; reflexivity).
    pose proof (matching_ok (requests ex_history) (str "a/b")) as (_ & K). rewrite E in K.
    split; [|intros f; rewrite <- K; cbn [In]; tauto].
    constructor; [intros [C|[]]; discriminate|]. constructor; [intros []|constructor].
Qed.

(** ** C22, C25, C26 and C28 for what the handler does with packets *)

Lemma broker_selects auth h m t : after auth h m -> subscribed_clients (subscriptions m) t = Some (selected (requests h) t).
Proof.
  intros Ha. rewrite (after_subs auth h m Ha). unfold selected.
  destruct (subscribed_clients (repo_after (requests h)) t) eqn:E; [reflexivity|discriminate].
Qed.

Theorem C22_in_the_broker auth h m t fs : after auth h m -> wildcard_free t -> matching_filters (requests h) t fs ->
  exists l, subscribed_clients (subscriptions m) t = Some l /\ forall c, occurs c l = sum (live (requests h) c) fs.
Proof.
  intros Ha Hw Hf. exists (selected (requests h) t). split; [exact (broker_selects auth h m t Ha)|].
  intros c. exact (C22_selected_exactly _ t c fs Hw Hf).
Qed.

Lemma requests_snoc h te : requests (h ++ [te]) = requests h ++ requests_of te.
Proof. unfold requests. rewrite flat_map_app. cbn [flat_map]. now rewrite app_nil_r. Qed.

Theorem C25_in_the_broker_partial auth h m now cid i fs k t ms : no_repeats (requests h) ->
  after auth (h ++ [(now, ClientPacket cid (Unsubscribe i fs) k)]) m -> wildcard_free t -> matching_filters (requests h) t ms ->
  exists l, subscribed_clients (subscriptions m) t = Some l
    /\ occurs cid l = sum (fun f => if existsb (bytes_eqb f) fs then 0%nat else live (requests h) cid f) ms
    /\ forall d, d <> cid -> occurs d l = sum (live (requests h) d) ms.
Proof.
  intros Hn Ha Hw Hm. eexists. split; [exact (broker_selects auth _ m t Ha)|]. rewrite requests_snoc.
  change (requests_of (now, ClientPacket cid (Unsubscribe i fs) k)) with [ReqUnsubscribe cid fs]. split.
  - now apply C25_unsubscribe_stops_delivery_partial.
  - intros d Hd. rewrite C25_others_unaffected by exact Hd. exact (C22_selected_exactly _ t d ms Hw Hm).
Qed.

Theorem C26_in_the_broker_partial auth h later m now cid k t : no_repeats (requests h) -> ~ subscribes cid (requests later) ->
  after auth (h ++ [(now, ClientPacket cid Disconnect k)] ++ later) m ->
  exists l, subscribed_clients (subscriptions m) t = Some l /\ ~ In cid l.
Proof.
  intros Hn Hs Ha. eexists. split; [exact (broker_selects auth _ m t Ha)|].
  replace (requests (h ++ [(now, ClientPacket cid Disconnect k)] ++ later)) with (requests h ++ [ReqDisconnect cid] ++ requests later)
    by (unfold requests; rewrite !flat_map_app; reflexivity).
  now apply C26_disconnect_forgets_partial.
Qed.

Theorem C28_in_the_broker auth h m m' now cid i s k t : after auth h m ->
  after auth (h ++ [(now, ClientPacket cid (Subscribe i [s]) k)]) m' -> wildcard_free t -> matches (sub_topic s) t ->
  exists l l', subscribed_clients (subscriptions m) t = Some l /\ subscribed_clients (subscriptions m') t = Some l'
    /\ occurs cid l' = (1 + occurs cid l)%nat.
Proof.
  intros Ha Ha' Hw Hm. eexists _, _. split; [exact (broker_selects auth _ m t Ha)|]. split; [exact (broker_selects auth _ m' t Ha')|].
  rewrite requests_snoc. now apply C28_each_request_adds_a_copy.
Qed.

Example C26_in_the_broker_case :
  let h := [(1%Z, Connected (ex_connect "c" true) 1 7%nat); (2%Z, ClientPacket (str "c") (Subscribe 9 [ex_sub "a"; ex_sub "b/#"]) 7%nat)] in
  let later := [(4%Z, Connected (ex_connect "c" true) 2 8%nat)] in
  no_repeats (requests h) /\ ~ subscribes (str "c") (requests later)
  /\ (exists m, after ex_auth h m /\ subscribed_clients (subscriptions m) (str "a") = Some [str "c"])
  /\ exists m, after ex_auth (h ++ [(3%Z, ClientPacket (str "c") Disconnect 7%nat)] ++ later) m
       /\ subscribed_clients (subscriptions m) (str "a") = Some [] /\ session_exists m (str "c") = true.
Proof.
  cbv zeta. split; [|split; [intros (f & [])|split]].
  - intros before c f aft E. destruct before as [|r before]; [injection E as <- <- _; reflexivity|].
    destruct before as [|r2 before]; [injection E as <- <- <- _; vm_compute; reflexivity|].
    exfalso. apply (f_equal (@length _)) in E. cbn [length] in E. rewrite app_length in E. cbn in E. lia.
  - eexists. split; [eexists; vm_compute; reflexivity|vm_compute; reflexivity].
  - eexists. split; [eexists; vm_compute; reflexivity|split; vm_compute; reflexivity].
Qed.
