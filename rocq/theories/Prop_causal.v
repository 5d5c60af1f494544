(** Property C118: everybody gets the messages in one order, which is a causal one. *)
From Verif Require Import Base Base_facts Packets HashMap Subscriptions Messaging Handler Decoder ReadStream ReadStream_facts
  Plain_facts Conn Conn_facts Encoder Encoder_facts WriteStream WriteStream_facts Spec_wire Spec_subs Spec_broker Spec_ref
  Subscriptions_facts Handler_facts System System_facts
  System_hist System_conn System_queue System_first System_progress System_exit System_rest
  Prop_codec Prop_subs Prop_stream Prop_broker Prop_system Prop_rest Prop_mqtt Prop_ref Prop_stop Prop_any Service_facts System_fair Prop_fair
  Prop_apart Live Live_facts Prop_live Live_fair Prop_real.
Open Scope nat_scope.
Local Notation S := Datatypes.S.

(** The messages published, in the order in which the handler took them. *)
Definition published (es : list ClientEvent) : list PublishPacket :=
  flat_map (fun e => match e with ClientPacket _ (Publish p) _ => [p] | _ => [] end) es.

(** [ns] says how often each of them is sent. *)
Definition stream (pubs : list PublishPacket) (ns : list nat) : list ControlPacket :=
  flat_map (fun x => repeat (Publish (fst x)) (snd x)) (combine pubs ns).

Definition is_publish (p : ControlPacket) : bool := match p with Publish _ => true | _ => false end.

(** [a] comes, and [b] comes later. *)
Definition before {A} (l : list A) (a b : A) : Prop := exists l1 l2 l3, l = l1 ++ a :: l2 ++ b :: l3.

(** ** One order *)

Definition is_message (e : ServerEvent) : bool := match e with ServerPacket p => is_publish p | ServerDisconnect => false end.

Lemma stream_zero pubs : forall m, stream pubs (repeat 0 m) = [].
Proof. unfold stream. induction pubs as [|p pubs IH]; intros [|m]; cbn [repeat combine flat_map]; auto. cbn [snd repeat app]. apply IH. Qed.

Lemma filter_repeat_true {A} (f : A -> bool) x m : f x = true -> filter f (repeat x m) = repeat x m.
Proof. intros H. induction m as [|m IH]; [reflexivity|]. cbn [repeat filter]. now rewrite H, IH. Qed.

Lemma map_repeat_packet (p : ControlPacket) m : map ServerPacket (repeat p m) = repeat (ServerPacket p) m.
Proof. induction m as [|m IH]; [reflexivity|]. cbn. now rewrite IH. Qed.

Lemma ref_stream auth k es : forall r, exists ns, length ns = length (published es)
  /\ filter is_message (ref_sends auth r es k) = map ServerPacket (stream (published es) ns).
Proof.
  induction es as [|e es IH]; intros r; [now exists []|]. cbn [ref_sends published flat_map]. rewrite filter_app.
  fold (published es).
  assert (TAIL : exists ns, length ns = length (published es)
    /\ filter is_message (if stops auth e then [] else ref_sends auth (ref_next auth r e) es k) = map ServerPacket (stream (published es) ns)).
  { destruct (stops auth e); [|apply IH]. exists (repeat 0 (length (published es))). rewrite repeat_length, stream_zero. auto. }
  destruct TAIL as (ns & L & ->).
  assert (QUIET : filter is_message (ref_out auth r e k) = [] -> (match e with ClientPacket _ (Publish p) _ => [p] | _ => [] end) = [] ->
    exists ns0, length ns0 = length ((match e with ClientPacket _ (Publish p) _ => [p] | _ => [] end) ++ published es)
    /\ filter is_message (ref_out auth r e k) ++ map ServerPacket (stream (published es) ns)
       = map ServerPacket (stream ((match e with ClientPacket _ (Publish p) _ => [p] | _ => [] end) ++ published es) ns0)).
  { intros -> ->. now exists ns. }
  destruct e as [c a j|cid p j|cid|cid].
  - apply QUIET; [|reflexivity]. cbn [ref_out]. destruct (Nat.eqb k j); [|reflexivity]. now destruct (let_in auth c) as [[]|].
  - destruct p; try (apply QUIET; [|reflexivity]; cbn [ref_out]; try reflexivity; destruct (Nat.eqb k j); try reflexivity; now destruct (place r cid)).
    cbn [ref_out]. rewrite filter_repeat_true by reflexivity.
    eexists (_ :: ns). split; [cbn [length app]; now rewrite L|]. unfold stream. cbn [app combine flat_map fst snd]. rewrite map_app, map_repeat_packet. reflexivity.
  - now apply QUIET.
  - now apply QUIET.
Qed.

Lemma filter_sent ps : filter is_message (map ServerPacket ps) = map ServerPacket (filter is_publish ps).
Proof. induction ps as [|p ps IH]; [reflexivity|]. cbn [map filter is_message]. destruct (is_publish p); cbn [map]; now rewrite IH. Qed.

Lemma map_inj_app (l m : list ControlPacket) r : map ServerPacket l ++ r = map ServerPacket m -> exists r', m = l ++ r'.
Proof.
  revert m. induction l as [|x l IH]; intros m H; [now exists m|]. destruct m as [|y m]; [discriminate|].
  cbn [map app] in H. injection H as -> H. destruct (IH m H) as (r' & ->). now exists r'.
Qed.

(** There is one sequence of messages, those published in the order handled, and what each connection is sent of it is
    this sequence with each message left out, or repeated a number of times, as far as it has been sent. *)
Theorem C118_one_order auth dbg n s k c : live_reachable auth dbg n s -> nth_error (conns s) k = Some c ->
  exists ns rest, length ns = length (published (map snd (handled s)))
    /\ stream (published (map snd (handled s))) ns = filter is_publish (broker_sent c) ++ rest.
Proof.
  intros HL Hk. destruct (ref_stream auth k (map snd (handled s)) ref_init) as (ns & L & E). exists ns.
  destruct (C111_reference auth dbg n s k c HL Hk) as (r & ER). rewrite ER, filter_app, filter_sent in E.
  destruct (map_inj_app _ _ _ E) as (r' & E'). exists r'. auto.
Qed.

(** ** No two orders *)

Lemma stream_split pubs : forall ns l1 a m, stream pubs ns = l1 ++ a :: m ->
  exists P1 p P2, pubs = P1 ++ p :: P2 /\ a = Publish p /\ forall x, In x m -> exists p', In p' (p :: P2) /\ x = Publish p'.
Proof.
  assert (ALL : forall pubs ns x, In x (stream pubs ns) -> exists p, In p pubs /\ x = Publish p).
  { clear. induction pubs as [|p pubs IH]; intros ns x H; [destruct H|]. destruct ns as [|k ns]; [destruct H|].
    unfold stream in H. cbn [combine flat_map fst snd] in H. apply in_app_or in H. destruct H as [H|H].
    - apply repeat_spec in H. exists p. split; [now left|exact H].
    - destruct (IH ns x H) as (p' & H1 & H2). exists p'. split; [now right|exact H2]. }
  induction pubs as [|p0 pubs IH]; intros ns l1 a m E; [destruct l1; discriminate|].
  destruct ns as [|n0 ns]; [destruct l1; discriminate|]. unfold stream in E. cbn [combine flat_map fst snd] in E. fold (stream pubs ns) in E.
  assert (LATER : forall l1', stream pubs ns = l1' ++ a :: m -> exists P1 p P2, p0 :: pubs = P1 ++ p :: P2 /\ a = Publish p
    /\ forall x, In x m -> exists p', In p' (p :: P2) /\ x = Publish p').
  { intros l1' E'. destruct (IH ns l1' a m E') as (P1 & p & P2 & -> & H). now exists (p0 :: P1), p, P2. }
  apply app_eq_app in E. destruct E as (l & [(E1 & E2)|(E1 & E2)]).
  - destruct l as [|x l]; [cbn in E2; apply (LATER []); now symmetry|]. cbn [app] in E2. injection E2 as -> ->.
    assert (HR : forall y, In y (x :: l) -> y = Publish p0).
    { intros y Hy. apply (repeat_spec n0). rewrite E1. apply in_or_app. now right. }
    exists [], p0, pubs. split; [reflexivity|]. split; [apply HR; now left|]. intros y Hy. apply in_app_or in Hy. destruct Hy as [Hy|Hy].
    + exists p0. split; [now left|]. apply HR. now right.
    + destruct (ALL pubs ns y Hy) as (p' & H1 & H2). exists p'. split; [now right|exact H2].
  - now apply (LATER l).
Qed.

Lemma two_places {A} (L P1 P2 Q1 Q2 : list A) p p' : NoDup L -> L = P1 ++ p :: P2 -> In p' P2 -> L = Q1 ++ p' :: Q2 -> In p Q2 -> False.
Proof.
  intros HN EP. revert L HN EP Q1. induction P1 as [|x P1 IH]; intros L HN EP Q1 HP EQ HQ.
  - cbn [app] in EP. destruct Q1 as [|y Q1]; cbn [app] in EQ; rewrite EP in *; injection EQ as E1 E2.
    + subst. apply NoDup_cons_iff in HN. tauto.
    + apply NoDup_cons_iff in HN. destruct HN as (HN & _). apply HN. rewrite E2. apply in_or_app. right. now right.
  - cbn [app] in EP. destruct Q1 as [|y Q1]; cbn [app] in EQ; rewrite EP in *; injection EQ as E1 E2.
    + apply NoDup_cons_iff in HN. destruct HN as (HN & _). apply HN. rewrite E1. apply in_or_app. right. now right.
    + apply NoDup_cons_iff in HN. destruct HN as (_ & HN). exact (IH _ HN eq_refl Q1 HP E2 HQ).
Qed.

Lemma before_filter {A} (f : A -> bool) l a b : f a = true -> f b = true -> before l a b -> before (filter f l) a b.
Proof.
  intros Ha Hb (l1 & l2 & l3 & ->). exists (filter f l1), (filter f l2), (filter f l3).
  rewrite !filter_app. cbn [filter]. rewrite Ha, filter_app. cbn [filter]. now rewrite Hb.
Qed.

Lemma sent_order auth dbg n s k c p p' : live_reachable auth dbg n s -> nth_error (conns s) k = Some c ->
  before (broker_sent c) (Publish p) (Publish p') -> p <> p' ->
  exists P1 P2, published (map snd (handled s)) = P1 ++ p :: P2 /\ In p' P2.
Proof.
  intros HL Hk HB HD. destruct (C118_one_order auth dbg n s k c HL Hk) as (ns & rest & _ & E).
  apply (before_filter is_publish (broker_sent c) (Publish p) (Publish p') eq_refl eq_refl) in HB. destruct HB as (l1 & l2 & l3 & EB). rewrite EB, <- app_assoc in E.
  cbn [app] in E. rewrite <- app_assoc in E. destruct (stream_split _ _ _ _ _ E) as (P1 & q & P2 & EP & Eq & H). injection Eq as <-.
  exists P1, P2. split; [exact EP|]. destruct (H (Publish p')) as (q & [<-|Hq] & Eq).
  - apply in_or_app. right. now left.
  - injection Eq as ->. now destruct HD.
  - now injection Eq as ->.
Qed.

(** Messages that can be told apart reach all clients in the same order. *)
Theorem C118_no_two_orders auth dbg n s k c k' c' p p' : live_reachable auth dbg n s ->
  nth_error (conns s) k = Some c -> nth_error (conns s) k' = Some c' -> NoDup (published (map snd (handled s))) -> p <> p' ->
  before (broker_sent c) (Publish p) (Publish p') -> ~ before (broker_sent c') (Publish p') (Publish p).
Proof.
  intros HL Hk Hk' HN HD HB HB'. destruct (sent_order auth dbg n s k c p p' HL Hk HB HD) as (P1 & P2 & E1 & H1).
  destruct (sent_order auth dbg n s k' c' p' p HL Hk' HB' ltac:(congruence)) as (Q1 & Q2 & E2 & H2).
  exact (two_places _ P1 P2 Q1 Q2 p p' HN E1 H1 E2 H2).
Qed.

(** ** A causal order *)

Lemma published_app a b : published (a ++ b) = published a ++ published b.
Proof. unfold published. apply flat_map_app. Qed.

(** A message that was sent to anybody was published before. *)
Lemma sent_published auth dbg n s k c p : live_reachable auth dbg n s -> nth_error (conns s) k = Some c ->
  In (Publish p) (broker_sent c) -> In p (published (map snd (handled s))).
Proof.
  intros HL Hk HI. destruct (C118_one_order auth dbg n s k c HL Hk) as (ns & rest & _ & E).
  assert (HF : In (Publish p) (filter is_publish (broker_sent c))) by (apply filter_In; auto).
  apply in_split in HF. destruct HF as (l1 & l2 & EF). rewrite EF, <- app_assoc in E. cbn [app] in E.
  destruct (stream_split _ _ _ _ _ E) as (P1 & q & P2 & EP & Eq & _). injection Eq as <-. rewrite EP. apply in_or_app. right. now left.
Qed.

(** At one moment a message [p] has been sent to some client, and another message [p'] is not yet all there. Then nobody
    ever gets [p'] before [p]. In particular if [p'] was published by somebody who had read [p]. *)
Theorem C118_causal auth dbg n s1 acts s2 j c p k d qs css rest' m p' :
  live_reachable auth dbg n s1 -> live_steps auth dbg s1 acts = Some s2 ->
  nth_error (conns s1) j = Some c -> In (Publish p) (broker_sent c) ->
  nth_error (conns s2) k = Some d -> arriving (c_rsock d) = concat css ++ rest' -> Forall2 sent_as qs css -> nth_error qs m = Some (Publish p') ->
  (forall d1, nth_error (conns s1) k = Some d1 -> length (arriving (c_rsock d1)) < length (concat (firstn (S m) css))) ->
  m < length (events_of k (map snd (handled s2))) ->
  (exists pubs1 pubs2 pubs3, published (map snd (handled s2)) = pubs1 ++ p :: pubs2 ++ p' :: pubs3)
  /\ (NoDup (published (map snd (handled s2))) ->
      forall x cx, nth_error (conns s2) x = Some cx -> ~ before (broker_sent cx) (Publish p') (Publish p)).
Proof.
  intros HL1 HS Hj HI Hk HA' HF' Hq' HU HH.
  pose proof (live_steps_reachable _ _ _ _ _ _ HL1 HS) as HL2.
  destruct (C117_order_grows auth dbg acts s1 s2 HS) as ((more & EM) & HC).
  pose proof (sent_published auth dbg n s1 j c p HL1 Hj HI) as HP.
  assert (B : length (events_of k (map snd (handled s1))) <= m).
  { destruct (nth_error (conns s1) k) as [d1|] eqn:Ek.
    - destruct (HC k d1 Ek) as (d2 & Ek2 & z & Ez). rewrite Hk in Ek2. injection Ek2 as <-.
      apply (C117_unsent_not_handled auth dbg n s1 HL1 k d1 z qs css rest' m Ek); auto.
      + now rewrite <- Ez.
      + apply nth_error_Some. congruence.
    - rewrite (done_nobody auth dbg n s1 HL1 k Ek). cbn. lia. }
  destruct (nth_error (events_of k (map snd (handled s2))) m) as [e|] eqn:Ee; [|apply nth_error_None in Ee; lia].
  pose proof (done_is_for auth dbg n s2 HL2 k d qs css rest' m (Publish p') e Hk HA' HF' Hq' Ee) as FB.
  rewrite EM, map_app, events_of_app, nth_error_app2 in Ee by exact B.
  destruct (nth_event k more _ e Ee) as (g1 & tb & g2 & -> & <- & LB).
  assert (EX : exists pubs1 pubs2 pubs3, published (map snd (handled s2)) = pubs1 ++ p :: pubs2 ++ p' :: pubs3).
  { apply in_split in HP. destruct HP as (a & b & HP). rewrite EM, !map_app, !published_app, HP. cbn [map].
    replace (published (snd tb :: map snd g2)) with (p' :: published (map snd g2)).
    - exists a, (b ++ published (map snd g1)), (published (map snd g2)). rewrite <- !app_assoc. reflexivity.
    - unfold published at 2. cbn [flat_map]. destruct (snd tb) as [? ? ?|? ? ?|?|?]; try destruct FB as (_ & (? & ? & ? & _)); try discriminate; try destruct FB.
      subst. reflexivity. }
  split; [exact EX|]. intros HN x cx Hx HB. destruct EX as (P1 & P2 & P3 & EX).
  assert (HD : p' <> p).
  { intros ->. rewrite EX in HN. apply NoDup_remove_2 in HN. apply HN. apply in_or_app. right. apply in_or_app. right. now left. }
  destruct (sent_order auth dbg n s2 x cx p' p HL2 Hx HB HD) as (Q1 & Q2 & E2 & H2).
  apply (two_places _ P1 (P2 ++ p' :: P3) Q1 Q2 p p' HN EX); [|exact E2|exact H2]. apply in_or_app. right. now left.
Qed.

(** Both clients subscribe to everything; client 0 says "one"; when client 1 has it, client 1 says "two". *)
Definition ex_first : list act :=
  [Own (LAccept ex_open (ex_socket []) 1%N); Own (LAccept ex_open (ex_socket []) 2%N);
   Arrive 0 (ex_bytes [ex_client "x" None None]) []; Arrive 1 (ex_bytes [ex_client "y" None None]) []] ++ ex_two
  ++ [Arrive 0 (ex_bytes [Subscribe 1 [{| sub_topic := str "+"; sub_qos := AtMostOnce |}]]) [];
      Arrive 1 (ex_bytes [Subscribe 2 [{| sub_topic := str "+"; sub_qos := AtMostOnce |}]]) []] ++ ex_two
  ++ [Arrive 0 (ex_bytes [Publish (ex_message "a" "one")]) []] ++ ex_two ++ ex_two.

Definition ex_second : list act := [Arrive 1 (ex_bytes [Publish (ex_message "b" "two")]) []] ++ ex_two ++ ex_two.

Example C118_case :
  let s1 := live_drive ex_deny true (sys_init 1) ex_first in
  let s2 := live_drive ex_deny true s1 ex_second in
  let qs := [ex_client "y" None None; Subscribe 2 [{| sub_topic := str "+"; sub_qos := AtMostOnce |}]; Publish (ex_message "b" "two")] in
  let ack := ConnAck {| session_present := false; return_code := Accepted |} in
  live_reachable ex_deny true 1 s1 /\ (exists acts, live_steps ex_deny true s1 acts = Some s2)
  /\ map broker_sent (conns s1) = [[ack; SubAck 1 [SuccessQoS0]; Publish (ex_message "a" "one")]; [ack; SubAck 2 [SuccessQoS0]; Publish (ex_message "a" "one")]]
  /\ Forall2 sent_as qs (map (fun p => ex_bytes [p]) qs)
  /\ (exists d, nth_error (conns s2) 1 = Some d /\ arriving (c_rsock d) = concat (map (fun p => ex_bytes [p]) qs) ++ [])
  /\ (exists d1, nth_error (conns s1) 1 = Some d1 /\ length (arriving (c_rsock d1)) < length (concat (firstn 3 (map (fun p => ex_bytes [p]) qs))))
  /\ 2 < length (events_of 1 (map snd (handled s2)))
  /\ published (map snd (handled s2)) = [ex_message "a" "one"; ex_message "b" "two"]
  /\ map broker_sent (conns s2) = [[ack; SubAck 1 [SuccessQoS0]; Publish (ex_message "a" "one"); Publish (ex_message "b" "two")];
                                   [ack; SubAck 2 [SuccessQoS0]; Publish (ex_message "a" "one"); Publish (ex_message "b" "two")]].
Proof.
  intros s1 s2 qs ack. split; [apply live_drive_reachable|]. split; [apply live_drive_steps|].
  assert (V : forall p, lenN (packet_body p) = b2n (n2b (lenN (packet_body p))) -> (b2n (n2b (lenN (packet_body p))) < 128)%N ->
    packet_ok p -> readable p = true -> sent_as p (ex_bytes [p])).
  { intros p E L H1 H2. split; [exact H1|]. split; [exact H2|]. exists [n2b (lenN (packet_body p))].
    split; [rewrite E at 2; now constructor|]. split; [cbn; lia|]. unfold ex_bytes. cbn [flat_map]. now rewrite app_nil_r. }
  split; [vm_compute; reflexivity|]. split.
  { apply Forall2_cons; [|apply Forall2_cons; [|apply Forall2_cons; [|apply Forall2_nil]]]; apply V; try reflexivity; repeat split; try discriminate;
      try (now apply text_lit); try (constructor; [now apply text_lit|constructor]). }
  split; [eexists; split; vm_compute; reflexivity|].
  split; [eexists; split; [vm_compute; reflexivity|apply Nat.ltb_lt; vm_compute; reflexivity]|].
  split; [apply Nat.ltb_lt; vm_compute; reflexivity|]. split; vm_compute; reflexivity.
Qed.
