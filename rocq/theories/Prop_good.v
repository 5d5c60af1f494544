(** Property C101: clients that behave get full service. *)
From Verif Require Import Base Base_facts Packets HashMap Subscriptions Messaging Handler Decoder ReadStream ReadStream_facts
  Plain_facts Conn Conn_facts Encoder Encoder_facts WriteStream WriteStream_facts Spec_wire Spec_subs Spec_broker Spec_ref
  Subscriptions_facts Handler_facts System System_facts
  System_hist System_conn System_queue System_first System_progress System_exit System_rest
  Prop_subs Prop_stream Prop_broker Prop_system Prop_rest Prop_mqtt Prop_ref Prop_stop Prop_any Prop_who Prop_stack Sockets Prop_sockets.
Open Scope nat_scope.

(** No PINGREQ after a DISCONNECT. *)
Definition polite (qs : list ControlPacket) : Prop := forall a b, qs = a ++ Disconnect :: b -> ~ In PingReq b.

(** What a client sends, if it begins with a CONNECT: a client id, credentials that are accepted, and then anything
    polite. A peer that does not begin with a CONNECT may send what it likes. *)
Definition behaves (auth : bytes -> bytes -> bool) (sends : list ControlPacket) : Prop :=
  match sends with
  | Connect p :: qs => client_id p <> [] /\ accepts auth p /\ polite qs
  | _ => True
  end.

(** All do, and no two use the same id. *)
Definition all_behave auth dbg (s : sys) : Prop :=
  (forall k c, nth_error (conns s) k = Some c -> behaves auth (client_sends dbg c))
  /\ forall j k cj ck p q ps qs, nth_error (conns s) j = Some cj -> nth_error (conns s) k = Some ck ->
       client_sends dbg cj = Connect p :: ps -> client_sends dbg ck = Connect q :: qs -> client_id p = client_id q -> j = k.

(** Why a connection is told to close, with the state in which it happens. *)
Lemma close_when auth k es : forall r, In ServerDisconnect (ref_sends auth r es k) ->
  exists es1 e es2, es = es1 ++ e :: es2 /\ event_tx e = Some k
    /\ match e with
       | Connected c _ _ => Spec_ref.let_in auth c = Some false
       | ClientPacket cid PingReq _ => place (fold_left (ref_next auth) es1 r) cid = None
       | _ => False
       end.
Proof.
  induction es as [|e es IH]; intros r; cbn [ref_sends]; [intros []|]. intros H. apply in_app_or in H. destruct H as [H|H].
  - exists [], e, es. split; [reflexivity|]. destruct e as [c a j|cid p j|cid|cid]; cbn [ref_out] in H; try (destruct H; fail).
    + destruct (Nat.eqb_spec k j) as [->|]; [|destruct H]. split; [reflexivity|].
      destruct (Spec_ref.let_in auth c) as [[]|]; [destruct H as [[=]|[]]|reflexivity|destruct H].
    + destruct p; try (destruct H; fail).
      * apply repeat_spec in H. discriminate.
      * destruct (Nat.eqb k j); [|destruct H]. destruct H as [[=]|[]].
      * destruct (Nat.eqb k j); [|destruct H]. destruct H as [[=]|[]].
      * destruct (Nat.eqb_spec k j) as [->|]; [|destruct H]. split; [reflexivity|]. cbn [fold_left].
        destruct (place r cid); [destruct H as [[=]|[]]|reflexivity].
  - destruct (stops auth e); [destruct H|]. destruct (IH _ H) as (es1 & e' & es2 & -> & K). exists (e :: es1), e', es2. split; [reflexivity|exact K].
Qed.

Section Behave.
Variables (auth : bytes -> bytes -> bool) (dbg : bool) (n : nat) (s : sys).
Hypothesis HR : reachable auth dbg n s.
Hypothesis HW : all_behave auth dbg s.

(** Every event is of a connection that began with a CONNECT, and names its id. *)
Definition event_id (e : ClientEvent) : ClientId :=
  match e with Connected c _ _ => client_id c | ClientPacket cid _ _ | Disconnected cid | ConnectionLost cid => cid end.

Lemma event_owner e : In e (map snd (handled s)) -> exists k c p qs, event_tx e = Some k /\ nth_error (conns s) k = Some c
  /\ client_sends dbg c = Connect p :: qs /\ event_id e = client_id p /\ client_id p <> [] /\ accepts auth p /\ polite qs.
Proof.
  intros Hin. destruct (only_client_events auth dbg n s e HR ltac:(apply in_or_app; now left)) as (k & Hk).
  destruct e as [cp a j|cid p j|cid|cid]; cbn [event_tx] in Hk; try discriminate; injection Hk as ->.
  - destruct (handled_who auth dbg n s cp a k HR Hin) as (c & q & qs & Hc & Hs & Hg & _).
    pose proof (proj1 HW k c Hc) as B. unfold behaves in B. rewrite Hs in B. destruct B as (B1 & B2 & B3).
    exists k, c, q, qs. repeat split; auto.
  - destruct (handled_whose auth dbg n s cid p k HR Hin) as (c & q & qs & Hc & Hs & Hg & _).
    pose proof (proj1 HW k c Hc) as B. unfold behaves in B. rewrite Hs in B. destruct B as (B1 & B2 & B3).
    exists k, c, q, qs. repeat split; auto.
Qed.

Lemma same_id e e' : In e (map snd (handled s)) -> In e' (map snd (handled s)) -> event_id e = event_id e' -> event_tx e = event_tx e'.
Proof.
  intros H H' E. destruct (event_owner e H) as (k & c & p & qs & Ht & Hc & Hs & Hi & _).
  destruct (event_owner e' H') as (k' & c' & p' & qs' & Ht' & Hc' & Hs' & Hi' & _).
  rewrite Ht, Ht'. f_equal. apply (proj2 HW k k' c c' p p' qs qs' Hc Hc' Hs Hs'). congruence.
Qed.

Lemma own_events k c p qs : nth_error (conns s) k = Some c -> client_sends dbg c = Connect p :: qs -> client_id p <> [] ->
  exists more, issued k (c_addr c) (client_id p) (Connect p :: qs) = events_of k (map snd (handled s)) ++ more.
Proof.
  intros Hk Hs Hne. destruct (handled_prefix auth dbg n s k c HR Hk) as (cid & more & E). rewrite Hs in E.
  destruct (events_of k (map snd (handled s))) as [|e es] eqn:EE; [eexists; reflexivity|].
  exists more. rewrite <- E. assert (Hin : In e (map snd (handled s))).
  { assert (K : In e (events_of k (map snd (handled s)))) by (rewrite EE; now left). now apply filter_In in K. }
  destruct (event_owner e Hin) as (k' & c' & p' & qs' & Ht & Hc & Hs' & Hi & _).
  cbn [issued] in E. injection E as <- _. cbn [event_tx] in Ht. injection Ht as <-. rewrite Hk in Hc. injection Hc as <-.
  rewrite Hs in Hs'. injection Hs' as <- <-. cbn [event_id client_id] in Hi. now rewrite Hi.
Qed.

(** The events of a connection before a certain packet of it. *)
Lemma before_packet h1 te h2 cid q k : handled s = h1 ++ te :: h2 -> snd te = ClientPacket cid q k ->
  exists c p q1 q2 e0 l, nth_error (conns s) k = Some c /\ client_sends dbg c = Connect p :: q1 ++ q :: q2
    /\ cid = client_id p /\ accepts auth p /\ polite (q1 ++ q :: q2)
    /\ events_of k (map snd h1) = e0 :: l /\ l = map (fun q => ClientPacket cid q k) q1
    /\ accepted_on auth cid k (0%Z, e0).
Proof.
  intros Eh Et. assert (Hin : In (snd te) (map snd (handled s))) by (apply in_map; rewrite Eh; apply in_or_app; right; now left).
  destruct (event_owner _ Hin) as (k' & c & p & qs & Ht & Hc & Hs & Hi & Hne & Ha & Hp). rewrite Et in Ht, Hi. cbn [event_tx event_id] in Ht, Hi.
  injection Ht as <-. destruct (own_events k c p qs Hc Hs Hne) as (more & E). rewrite Eh, map_app in E. cbn [map] in E.
  rewrite events_of_app, Et in E. unfold events_of in E at 2. cbn [filter event_tx opt_is] in E. rewrite Nat.eqb_refl in E.
  cbn [issued] in E. destruct (events_of k (map snd h1)) as [|e0 l]; [discriminate|]. cbn [app] in E. injection E as <- E.
  rewrite <- app_assoc in E. apply map_eq_app in E. destruct E as (q1 & q2 & -> & El & E). destruct q2 as [|q' q2]; [discriminate|].
  cbn [map app] in E. injection E as _ -> _. exists c, p, q1, q2. eexists _, l. rewrite Hi. repeat split; auto.
  eexists _, _. split; [reflexivity|]. cbn [client_id]. split; [reflexivity|exact Ha].
Qed.

(** A client that did not send DISCONNECT before has its session. *)
Lemma has_session h1 te h2 cid q k : handled s = h1 ++ te :: h2 -> snd te = ClientPacket cid q k ->
  ~ In (ClientPacket cid Disconnect k) (map snd h1) -> owns auth h1 k cid.
Proof.
  intros Eh Et HD. destruct (before_packet h1 te h2 cid q k Eh Et) as (c & p & q1 & q2 & e0 & l & Hc & Hs & Hi & Ha & _ & Ev & El & Hacc).
  destruct (events_of_split _ _ _ _ Ev) as (es1 & es2 & E1 & E2). apply map_eq_app in E1. destruct E1 as (b & r & Ehb & <- & E1).
  destruct r as [|te0 aft]; [discriminate|]. injection E1 as E0 E1. subst es2.
  assert (Hsub : forall x, In x aft -> In (snd x) (map snd (handled s))).
  { intros x Hx. apply in_map. rewrite Eh, Ehb. apply in_or_app. left. apply in_or_app. right. now right. }
  assert (Hte : In (snd te) (map snd (handled s))) by (apply in_map; rewrite Eh; apply in_or_app; right; now left).
  exists b, te0, aft. split; [exact Ehb|]. split.
  - destruct Hacc as (cp & a & E & K). exists cp, a. cbn [snd] in E. rewrite E0. auto.
  - split.
    + intros x Hx [(k' & E)|E].
      * pose proof (same_id _ _ (Hsub x Hx) Hte) as K. rewrite E, Et in K. specialize (K eq_refl). cbn [event_tx] in K. injection K as ->.
        apply HD. rewrite Ehb, map_app. apply in_or_app. right. right. rewrite <- E. now apply in_map.
      * destruct (event_owner _ (Hsub x Hx)) as (? & ? & ? & ? & K & _). rewrite E in K. discriminate.
    + intros x k' Hx (cp & a & E & Ei & _). pose proof (same_id _ _ (Hsub x Hx) Hte) as K. rewrite E, Et in K. specialize (K Ei).
      cbn [event_tx] in K. injection K as ->.
      assert (Hin : In (snd x) (events_of k (map snd aft))) by (apply in_events_of; [now apply in_map|now rewrite E]).
      rewrite E2, El, E in Hin. apply in_map_iff in Hin. destruct Hin as (y & Ey & _). discriminate.
Qed.

(** Nobody is told to close. *)
Lemma nobody_told k : ~ told_to_close s k.
Proof.
  intros (f & H). apply put_to_in in H. apply (in_map snd) in H. cbn [snd] in H.
  destruct (C86_every_execution auth dbg n s k HR) as ((rest & E) & _).
  assert (K : In ServerDisconnect (ref_sends auth ref_init (map snd (handled s)) k)) by (rewrite E; apply in_or_app; now left).
  destruct (close_when auth k _ _ K) as (es1 & e & es2 & Ee & Ht & HM). apply map_eq_app in Ee. destruct Ee as (h1 & r & Eh & <- & Er).
  destruct r as [|te h2]; [discriminate|]. injection Er as Et _.
  destruct e as [cp a j|cid p j|cid|cid]; try (destruct HM; fail).
  - assert (Hin : In (Connected cp a j) (map snd (handled s))) by (rewrite <- Et; apply in_map; rewrite Eh; apply in_or_app; right; now left).
    destruct (handled_who auth dbg n s cp a j HR Hin) as (c & q & qs & Hc & Hs & _ & Hl).
    pose proof (proj1 HW j c Hc) as B. unfold behaves in B. rewrite Hs in B. destruct B as (_ & B & _). apply accepts_let_in in B. congruence.
  - destruct p; try (destruct HM; fail). cbn [event_tx] in Ht. injection Ht as ->.
    change (place (ref_after auth (map snd h1)) cid = None) in HM. rewrite ref_online in HM.
    assert (HO : owns auth h1 k cid); [|apply owner_owns in HO; congruence].
    apply (has_session h1 te h2 cid PingReq k Eh Et). intros Hd.
    destruct (before_packet h1 te h2 cid PingReq k Eh Et) as (c & p & q1 & q2 & e0 & l & Hc & Hs & Hi & _ & Hp & Ev & El & Hacc).
    assert (Hd2 : In (ClientPacket cid Disconnect k) (events_of k (map snd h1))) by (apply in_events_of; [exact Hd|reflexivity]).
    rewrite Ev in Hd2. destruct Hd2 as [Hd2|Hd2].
    + destruct Hacc as (cp & a & E' & _). cbn [snd] in E'. congruence.
    + rewrite El in Hd2. apply in_map_iff in Hd2. destruct Hd2 as (y & Ey & Hy). injection Ey as ->.
      apply in_split in Hy. destruct Hy as (x1 & x2 & ->). rewrite <- app_assoc in Hp. cbn [app] in Hp.
      apply (Hp x1 _ eq_refl). apply in_or_app. right. now left.
Qed.

Lemma no_fault te : In te (handled s) -> ~ user_without_password te.
Proof.
  intros Hin (cp & a & k & u & E & Hu & Hp). apply (in_map snd) in Hin. rewrite E in Hin.
  destruct (handled_who auth dbg n s cp a k HR Hin) as (c & q & qs & Hc & Hs & _ & Hl).
  pose proof (proj1 HW k c Hc) as B. unfold behaves in B. rewrite Hs in B. destruct B as (_ & B & _). apply accepts_let_in in B.
  rewrite B in Hl. unfold Spec_ref.let_in in Hl. rewrite Hu, Hp in Hl. discriminate.
Qed.

Lemma handler_lives : ctrl_c s = false -> handler_alive (hdl s) = true.
Proof.
  intros HC. destruct (handler_alive (hdl s)) eqn:EA; [reflexivity|exfalso].
  destruct (C53_why_the_handler_ends auth dbg n s HR EA) as [(_ & K)|(EH & h & te & m & l & Eh & _ & [K|K])]; [congruence| |].
  - apply (no_fault te); [rewrite Eh; apply in_or_app; right; now left|exact K].
  - destruct K as (k & e & f & _ & Hlog). apply (nobody_told k). now exists f.
Qed.
End Behave.

(** ** In every execution *)

(** The handler never stops by itself and no connection is closed by the broker's decision. *)
Theorem C101_no_harm auth dbg n s : reachable auth dbg n s -> all_behave auth dbg s -> 
  (forall k, ~ told_to_close s k) /\ (ctrl_c s = false -> handler_alive (hdl s) = true).
Proof. intros HR HW. split; [exact (nobody_told auth dbg n s HR HW)|exact (handler_lives auth dbg n s HR HW)]. Qed.

(** What each packet is answered with. *)
Definition reply_to (q : ControlPacket) : list ControlPacket :=
  match q with
  | Subscribe i ss => [SubAck i (repeat SuccessQoS0 (length ss))]
  | Unsubscribe i _ => [UnsubAck i]
  | PingReq => [PingResp]
  | _ => []
  end.

Definition accepted_reply : ControlPacket := ConnAck {| session_present := false; return_code := Accepted |}.

(** All a client asked was done and answered, once and in order. *)
Definition served auth dbg (s : sys) : Prop :=
  forall k c p qs, nth_error (conns s) k = Some c -> client_sends dbg c = Connect p :: qs ->
    events_of k (map snd (handled s)) = issued k (c_addr c) (client_id p) (Connect p :: qs)
    /\ map ServerPacket (broker_sent c) = ref_sends auth ref_init (map snd (handled s)) k
    /\ filter not_publish (broker_sent c) = accepted_reply :: flat_map reply_to qs.

Lemma before_close_all l : ~ In ServerDisconnect l -> map ServerPacket (before_close l) = l.
Proof.
  induction l as [|[p|] l IH]; cbn [before_close map In]; intros H; [reflexivity| |exfalso; apply H; now left].
  f_equal. apply IH. tauto.
Qed.

Lemma answers_are qs : forall answers, Forall2 Prop_ref.answer qs answers -> ~ In ServerDisconnect (concat answers) ->
  concat answers = map ServerPacket (flat_map reply_to qs).
Proof.
  induction qs as [|q qs IH]; intros answers H HN; destruct answers as [|a answers]; inversion H; subst; [reflexivity|].
  cbn [concat flat_map] in *. rewrite map_app, (IH answers); [|assumption|intros K; apply HN; apply in_or_app; now right]. f_equal.
  destruct q; cbn [Prop_ref.answer reply_to map] in *; try assumption.
  destruct H3 as [->| ->]; [reflexivity|]. exfalso. apply HN. apply in_or_app. left. now left.
Qed.

Theorem C101_all_served auth dbg n s : reachable auth dbg n s -> all_behave auth dbg s -> at_rest auth dbg s -> unblocked s ->
  ctrl_c s = false -> served auth dbg s.
Proof.
  intros HR HW HT HB HC. assert (HQ : quiet auth dbg n s) by (split; [exact HR|split; [exact HT|split; [exact HB|exact (handler_lives auth dbg n s HR HW HC)]]]).
  intros k c p qs Hk Hs. pose proof (proj1 HW k c Hk) as B. unfold behaves in B. rewrite Hs in B. destruct B as (Hne & Ha & _).
  assert (ND : ~ In ServerDisconnect (ref_sends auth ref_init (map snd (handled s)) k)).
  { rewrite <- (rest_sends auth dbg n s k HQ). intros K. apply in_map_iff in K. destruct K as ((f & e) & E & K). cbn [snd] in E. subst e.
    apply put_to_in in K. apply (nobody_told auth dbg n s HR HW k). now exists f. }
  destruct (C61_nothing_left_undone auth dbg n s HR HT HB (proj2 (proj2 (proj2 HQ)))) as ((lg & Hall) & H).
  destruct (H k c Hk) as ((cid & Hg & HI) & _). clear H.
  assert (Ei : cid = client_id p) by (exact (Hg p qs Hs Hne)). subst cid. rewrite Hs in HI.
  destruct (C86_at_rest auth dbg n s HQ k c Hk) as (E & _).
  assert (E2 : map ServerPacket (broker_sent c) = ref_sends auth ref_init (map snd (handled s)) k) by (rewrite E; now apply before_close_all).
  split; [exact HI|]. split; [exact E2|].
  destruct (answers_in_order auth k (map snd (handled s)) ref_init) as (ls & rest & H1 & H2 & H3).
  rewrite H3, app_nil_r in H2 by (apply (finished_stops auth (handled s) MessagingService_new); now rewrite Hall).
  rewrite HI in H1. destruct (answers_packets auth k _ _ p qs ls H1) as (first & answers & Hf & Has & ->).
  assert (NC : ~ In ServerDisconnect (first ++ concat answers)) by (cbn [concat] in H2; rewrite H2; intros K; apply filter_In in K; tauto).
  assert (F : first = [ServerPacket accepted_reply]).
  { destruct Hf as [(_ & ->)|[(_ & ->)|((u & Hu & Hp) & _)]]; [reflexivity| |].
    - exfalso. apply NC. right. now left.
    - exfalso. unfold accepts in Ha. now rewrite Hu, Hp in Ha. }
  assert (EA : concat answers = map ServerPacket (flat_map reply_to qs)) by (apply answers_are; [exact Has|intros K; apply NC; apply in_or_app; now right]).
  rewrite E, <- before_close_filter, <- H2. cbn [concat]. rewrite EA, F. cbn [app before_close].
  f_equal. rewrite <- (app_nil_r (map ServerPacket _)), before_close_sent. cbn. now rewrite app_nil_r.
Qed.

(** And this happens on every schedule, from every state. *)
Theorem C101_every_run auth dbg n s : reachable auth dbg n s -> all_behave auth dbg s -> unblocked s -> ctrl_c s = false ->
  inevitably auth dbg (served auth dbg) s.
Proof.
  intros HR HW HB HC. pose proof (dies_out auth dbg n s HR) as HA. induction HA as [s _ IH]. constructor.
  - intros HT. exact (C101_all_served auth dbg n s HR HW HT HB HC).
  - intros l s' Hl Hs. apply IH.
    + exists l. split; [destruct l; try exact I; destruct Hl|exact Hs].
    + eapply reachable_step; eauto.
    + assert (B : forall k c, nth_error (conns s') k = Some c -> exists c0, nth_error (conns s) k = Some c0 /\ c_wsock c = c_wsock c0 /\ c_rsock c = c_rsock c0).
      { intros k c Hk. destruct (peers_stay auth dbg s s' (step_trans _ _ _ _ _ Hs) k c Hk) as [(c0 & H0 & E1 & E2)|K]; [exists c0; auto|].
        exfalso. apply nth_error_None in K. rewrite <- (no_new_conns auth dbg s l s' Hl Hs) in K. apply nth_error_None in K. congruence. }
      split.
      * intros k c Hk. destruct (B k c Hk) as (c0 & H0 & _ & E). unfold client_sends. rewrite E. exact (proj1 HW k c0 H0).
      * intros j k cj ck p q ps qs Hj Hk Hp Hq. destruct (B j cj Hj) as (c0 & H0 & _ & E). destruct (B k ck Hk) as (c1 & H1 & _ & E1).
        unfold client_sends in Hp, Hq. rewrite E in Hp. rewrite E1 in Hq. exact (proj2 HW j k c0 c1 p q ps qs H0 H1 Hp Hq).
    + intros k c Hk. destruct (peers_stay auth dbg s s' (step_trans _ _ _ _ _ Hs) k c Hk) as [(c0 & H0 & E1 & E2)|K]; [rewrite <- E1; exact (HB k c0 H0)|].
      exfalso. apply nth_error_None in K. rewrite <- (no_new_conns auth dbg s l s' Hl Hs) in K. apply nth_error_None in K. congruence.
    + rewrite (step_ctrl_c auth dbg s l s' Hs); [exact HC|destruct l; try discriminate; destruct Hl].
Qed.

(** ** Messages arrive *)

(** The requests a client's packets amount to. *)
Definition own_requests (cid : ClientId) (qs : list ControlPacket) : list request :=
  flat_map (fun q => requests_of (0%Z, ClientPacket cid q 0)) qs.

Lemma requests_names te r : In r (requests_of te) -> requester r = event_id (snd te).
Proof.
  unfold requests_of. destruct (snd te) as [c a k|cid p k|cid|cid]; cbn [event_id]; try (intros []; fail).
  - destruct p; try (intros []; fail).
    + intros H. apply in_map_iff in H. destruct H as (x & <- & _). reflexivity.
    + intros [<-|[]]; reflexivity.
    + intros [<-|[]]; reflexivity.
  - intros [<-|[]]; reflexivity.
Qed.

Lemma filter_all {A} f (l : list A) : (forall x, In x l -> f x = true) -> filter f l = l.
Proof.
  induction l as [|x l IH]; cbn [filter]; intros H; [reflexivity|]. rewrite (H x (or_introl eq_refl)). f_equal. apply IH. intros y Hy. apply H. now right.
Qed.

Lemma filter_none {A} f (l : list A) : (forall x, In x l -> f x = false) -> filter f l = [].
Proof.
  induction l as [|x l IH]; cbn [filter]; intros H; [reflexivity|]. rewrite (H x (or_introl eq_refl)). apply IH. intros y Hy. apply H. now right.
Qed.

(** The requests in a client's name are those of its connection. *)
Lemma own_history auth dbg n s k c p qs h h2 : reachable auth dbg n s -> all_behave auth dbg s ->
  nth_error (conns s) k = Some c -> client_sends dbg c = Connect p :: qs -> handled s = h ++ h2 ->
  events_of k (map snd h) = issued k (c_addr c) (client_id p) (Connect p :: qs) ->
  filter (fun r => bytes_eqb (requester r) (client_id p)) (requests h) = own_requests (client_id p) qs.
Proof.
  intros HR HW Hk Hs Eh HI.
  assert (Hall : forall te, In te h -> In (snd te) (map snd (handled s))) by (intros te Hte; apply in_map; rewrite Eh; apply in_or_app; now left).
  assert (Hid : forall te, In te h -> event_tx (snd te) = Some k <-> event_id (snd te) = client_id p).
  { intros te Hte. destruct (event_owner auth dbg n s HR HW _ (Hall te Hte)) as (k' & c' & p' & qs' & Ht & Hc & Hs' & Hi & _). rewrite Ht, Hi. split.
    - intros [= ->]. rewrite Hk in Hc. injection Hc as <-. rewrite Hs in Hs'. now injection Hs' as <- <-.
    - intros E. f_equal. exact (proj2 HW k' k c' c p' p qs' qs Hc Hk Hs' Hs E). }
  assert (K : forall h', (forall te, In te h' -> In te h) ->
    filter (fun r => bytes_eqb (requester r) (client_id p)) (requests h') = flat_map (fun e => requests_of (0%Z, e)) (events_of k (map snd h'))).
  { induction h' as [|te h' IH]; intros Hin; [reflexivity|]. unfold requests. cbn [flat_map map]. rewrite filter_app.
    change (flat_map requests_of h') with (requests h'). rewrite IH by (intros x Hx; apply Hin; now right).
    unfold events_of at 2. cbn [filter]. fold (events_of k (map snd h')). specialize (Hid te (Hin te (or_introl eq_refl))).
    destruct (opt_is k (event_tx (snd te))) eqn:EO.
    - cbn [flat_map]. f_equal. change (requests_of (0%Z, snd te)) with (requests_of te). apply filter_all. intros r Hr.
      rewrite (requests_names te r Hr). rewrite (proj1 Hid); [apply bytes_eqb_refl|].
      destruct (event_tx (snd te)) as [k'|]; [|discriminate]. apply Nat.eqb_eq in EO. now subst.
    - rewrite <- (app_nil_l (flat_map _ _)). f_equal. apply filter_none. intros r Hr. rewrite (requests_names te r Hr).
      destruct (bytes_eqb_spec (event_id (snd te)) (client_id p)) as [E|]; [|reflexivity]. apply Hid in E. rewrite E in EO.
      cbn [opt_is] in EO. rewrite Nat.eqb_refl in EO. discriminate. }
  rewrite (K h (fun te H => H)), HI. cbn [issued flat_map requests_of snd app]. unfold own_requests. clear. induction qs as [|q qs IH]; [reflexivity|].
  cbn [map flat_map]. now rewrite IH.
Qed.

Lemma requests_keep cid f qs : forall m, m <> 0 -> ~ In Disconnect qs -> (forall i fs, In (Unsubscribe i fs) qs -> ~ In f fs) ->
  fold_left (live_step cid f) (own_requests cid qs) m <> 0.
Proof.
  assert (G : forall ss m, m <= fold_left (live_step cid f) (map (fun x => ReqSubscribe cid (sub_topic x)) ss) m).
  { induction ss as [|x ss IH]; intros m; cbn [map fold_left live_step]; [lia|]. rewrite bytes_eqb_refl. cbn [andb].
    destruct (bytes_eqb f (sub_topic x)); [specialize (IH (Datatypes.S m))|specialize (IH m)]; lia. }
  induction qs as [|q qs IH]; intros m Hm HD HU; [exact Hm|]. unfold own_requests. cbn [flat_map]. rewrite fold_left_app. apply IH.
  - destruct q; cbn [requests_of snd fold_left]; try exact Hm.
    + match goal with |- fold_left _ (map _ ?ss) m <> 0 => specialize (G ss m) end. lia.
    + cbn [live_step]. rewrite bytes_eqb_refl. assert (E : occurs f topics = 0).
      { unfold occurs. apply count_occ_not_In. eapply HU. left. reflexivity. } lia.
    + exfalso. apply HD. now left.
  - intros H. apply HD. now right.
  - intros i fs H. apply (HU i fs). now right.
Qed.

Lemma own_live cid a b i ss x : ~ In Disconnect b -> In x ss -> (forall i' fs, In (Unsubscribe i' fs) b -> ~ In (sub_topic x) fs) ->
  live (own_requests cid (a ++ Subscribe i ss :: b)) cid (sub_topic x) <> 0.
Proof.
  intros HD Hx HU. unfold own_requests. rewrite flat_map_app. cbn [flat_map requests_of snd]. rewrite live_app, fold_left_app.
  apply requests_keep; [|exact HD|exact HU]. apply in_split in Hx. destruct Hx as (s1 & s2 & ->). rewrite map_app. cbn [map]. rewrite fold_left_app. cbn [fold_left live_step].
  rewrite !bytes_eqb_refl. cbn [andb].
  assert (G : forall ss m, m <= fold_left (live_step cid (sub_topic x)) (map (fun x => ReqSubscribe cid (sub_topic x)) ss) m).
  { clear. induction ss as [|y ss IH]; intros m; cbn [map fold_left live_step]; [lia|]. rewrite bytes_eqb_refl. cbn [andb].
    destruct (bytes_eqb (sub_topic x) (sub_topic y)); [specialize (IH (Datatypes.S m))|specialize (IH m)]; lia. }
  match goal with |- fold_left _ _ ?m <> 0 => specialize (G s2 m) end. lia.
Qed.

(** All that happened up to [s] is done there; then others come. Whatever a newcomer publishes goes to every client of [s]
    that subscribed to a filter for it and neither took it back nor left. *)
Theorem C101_delivered auth dbg n s ls s2 k c p a i ss b x j cj pj qj q :
  quiet auth dbg n s -> steps auth dbg s ls = Some s2 ->
  all_behave auth dbg s2 -> at_rest auth dbg s2 -> unblocked s2 -> ctrl_c s2 = false ->
  nth_error (conns s) k = Some c -> client_sends dbg c = Connect p :: a ++ Subscribe i ss :: b ->
  In x ss -> ~ In Disconnect (a ++ b) -> (forall i' fs, In (Unsubscribe i' fs) b -> ~ In (sub_topic x) fs) ->
  length (conns s) <= j -> nth_error (conns s2) j = Some cj -> client_sends dbg cj = Connect pj :: qj -> In (Publish q) qj ->
  matches (sub_topic x) (topic (message q)) -> wildcard_free (topic (message q)) ->
  exists c2, nth_error (conns s2) k = Some c2 /\ In (Publish q) (broker_sent c2)
    /\ (eager (c_wsock c2) -> finite_peers s2 -> exists ps, client_reads (peer_got c2) ps [] /\ In (Publish q) ps).
Proof.
  intros HQ HL HW HT HB HC Hk Hs Hx HD HU Hj Hcj Hsj Hq Hm Hw.
  pose proof (reachable_steps auth dbg n s ls s2 (proj1 HQ) HL) as HR2.
  pose proof (handler_lives auth dbg n s2 HR2 HW HC) as HA2.
  destruct (peer_run auth dbg ls s s2 k c HL Hk) as (c2 & Hk2 & Er & Ew). exists c2. split; [exact Hk2|].
  assert (Hs2 : client_sends dbg c2 = Connect p :: a ++ Subscribe i ss :: b) by (unfold client_sends in *; now rewrite Er).
  pose proof (proj1 HW k c2 Hk2) as B. unfold behaves in B. rewrite Hs2 in B. destruct B as (Hne & Ha & Hp).
  destruct (handled_runs auth dbg ls s s2 HL) as (m & Em).
  destruct (C61_nothing_left_undone auth dbg n s (proj1 HQ) (proj1 (proj2 HQ)) (proj1 (proj2 (proj2 HQ))) (proj2 (proj2 (proj2 HQ)))) as (_ & HU1).
  destruct (HU1 k c Hk) as ((cid & Hg & HI) & _). assert (Ei : cid = client_id p) by exact (Hg p _ Hs Hne). subst cid. rewrite Hs in HI.
  destruct (C63_message_arrives auth dbg n s2 j cj pj qj q HR2 HT HB HA2 Hcj Hsj Hq Hw) as (h1 & t & cid & h2 & Eh & HF).
  apply (HF k c2 Hk2); [|intros f Hf; apply (nobody_told auth dbg n s2 HR2 HW k); now exists f].
  (* the newcomer's message came after all of [s] *)
  assert (HP : exists m1, h1 = handled s ++ m1).
  { rewrite Em in Eh. apply app_eq_app in Eh. destruct Eh as (l & [(E1 & E2)|(E1 & E2)]); [|eauto].
    destruct l as [|te l]; [exists []; rewrite app_nil_r in *; congruence|]. exfalso. cbn [app] in E2. injection E2 as <- E2.
    assert (Hin : In (ClientPacket cid (Publish q) j) (map snd (handled s))) by (rewrite E1, map_app; apply in_or_app; right; now left).
    destruct (handled_whose auth dbg n s cid (Publish q) j (proj1 HQ) Hin) as (c' & ? & ? & Hc' & _).
    assert (j < length (conns s)) by (apply nth_error_Some; congruence). lia. }
  destruct HP as (m1 & E1).
  destruct (own_events auth dbg n s2 HR2 HW k c2 p _ Hk2 Hs2 Hne) as (more & Eo).
  assert (Hev : events_of k (map snd h1) = issued k (c_addr c) (client_id p) (Connect p :: a ++ Subscribe i ss :: b)).
  { assert (L2 : length (events_of k (map snd m1)) = 0).
    { rewrite Eh, E1, !map_app, !events_of_app, HI in Eo. apply (f_equal (@length _)) in Eo. rewrite !app_length in Eo.
      cbn [issued length] in Eo. rewrite !map_length in Eo. lia. }
    rewrite E1, map_app, events_of_app, HI. destruct (events_of k (map snd m1)); [apply app_nil_r|discriminate]. }
  exists (client_id p), (sub_topic x). split; [|split; [|exact Hm]].
  - (* it still has its session *)
    assert (Hsub : forall te, In te h1 -> In (snd te) (map snd (handled s2))).
    { intros te Hte. apply in_map. rewrite Eh. apply in_or_app. now left. }
    cbn [issued] in Hev. destruct (events_of_split _ _ _ _ Hev) as (es1 & es2 & X1 & X2). apply map_eq_app in X1. destruct X1 as (b1 & r & Eb & <- & X1).
    destruct r as [|te0 aft]; [discriminate|]. injection X1 as X0 X1. subst es2.
    assert (Hte0 : In te0 h1) by (rewrite Eb; apply in_or_app; right; now left).
    assert (Hk1 : forall y, In y aft -> event_id (snd y) = client_id p -> In (snd y) (events_of k (map snd aft))).
    { intros y Hy Ey. apply in_events_of; [now apply in_map|].
      rewrite (same_id auth dbg n s2 HR2 HW (snd y) (snd te0)); [now rewrite X0| |now apply Hsub|now rewrite X0].
      apply Hsub. rewrite Eb. apply in_or_app. right. now right. }
    exists b1, te0, aft. split; [exact Eb|]. split; [eexists _, _; split; [exact X0|]; cbn [client_id]; split; [reflexivity|exact Ha]|]. split.
    + intros y Hy [(k' & Ey)|Ey].
      * pose proof (Hk1 y Hy ltac:(rewrite Ey; reflexivity)) as K. rewrite X2, Ey in K. apply in_map_iff in K. destruct K as (z & Ez & Hz).
        injection Ez as -> _. apply in_app_or in Hz. apply HD. apply in_or_app. destruct Hz as [Hz|[Hz|Hz]]; [now left|discriminate|now right].
      * pose proof (Hk1 y Hy ltac:(rewrite Ey; reflexivity)) as K. rewrite X2, Ey in K. apply in_map_iff in K. destruct K as (z & Ez & _). discriminate.
    + intros y k' Hy (cp & a' & Ey & Ei & _). pose proof (Hk1 y Hy ltac:(rewrite Ey; exact Ei)) as K. rewrite X2, Ey in K.
      apply in_map_iff in K. destruct K as (z & Ez & _). discriminate.
  - rewrite <- live_own.
    rewrite (own_history auth dbg n s2 k c2 p _ h1 ((t, ClientPacket cid (Publish q) j) :: h2) HR2 HW Hk2 Hs2 Eh).
    + apply own_live; [intros K; apply HD; apply in_or_app; now right|exact Hx|exact HU].
    + assert (Eaddr : c_addr c2 = c_addr c); [|now rewrite Eaddr].
      cbn [issued] in Eo. rewrite Eh, (map_app snd h1), events_of_app, Hev in Eo. cbn [issued app] in Eo. now injection Eo.
Qed.

Lemma drive_steps auth dbg ls : forall s, exists ls', steps auth dbg s ls' = Some (drive auth dbg s ls).
Proof.
  induction ls as [|l ls IH]; intros s; cbn [drive]; [now exists []|].
  destruct (step auth dbg s l) as [s1|] eqn:E; [|apply IH].
  destruct (IH s1) as (ls' & H). exists (l :: ls'). cbn [steps]. now rewrite E.
Qed.

(** Client "s" subscribes to "b", gives it up and subscribes to "a/+"; client "t" comes, does the same and leaves. Then "p" comes and publishes. *)
Definition ex_wish (f g : String.string) : list ControlPacket :=
  [Subscribe 1 [{| sub_topic := str f; sub_qos := AtMostOnce |}]; Unsubscribe 2 [str f];
   Subscribe 3 [{| sub_topic := str g; sub_qos := AtMostOnce |}]].
Arguments ex_wish (f g)%string.

Definition ex_first : list label :=
  [LAccept (ex_peer (ex_client "s" None None :: ex_wish "b" "a/+" ++ [PingReq]) PeerOpen) (ex_socket []) 1;
   LAccept (ex_peer (ex_client "t" None None :: ex_wish "b" "a/+" ++ [Disconnect]) PeerOpen) (ex_socket []) 2]
  ++ ex_rounds 20 [0; 1].

Definition ex_second : list label :=
  LAccept (ex_peer [ex_client "p" None None; Publish (ex_message "a/b" "x"); Publish (ex_message "b" "y")] PeerOpen) (ex_socket []) 3 :: ex_rounds 20 [0; 1; 2].

Definition ex_all : list (list ControlPacket) :=
  [ex_client "s" None None :: ex_wish "b" "a/+" ++ [PingReq]; ex_client "t" None None :: ex_wish "b" "a/+" ++ [Disconnect];
   [ex_client "p" None None; Publish (ex_message "a/b" "x"); Publish (ex_message "b" "y")]].

Lemma ex_behave s : map (client_sends true) (conns s) = ex_all -> all_behave ex_deny true s.
Proof.
  intros E. assert (K : forall k c, nth_error (conns s) k = Some c -> nth_error ex_all k = Some (client_sends true c)).
  { intros k c Hk. rewrite <- E, nth_error_map, Hk. reflexivity. }
  split.
  - intros k c Hk. apply K in Hk. destruct k as [|[|[|k]]]; cbn [nth_error ex_all] in Hk; [..|destruct k; discriminate]; injection Hk as <-;
      (split; [discriminate|]; split; [exact I|]); intros a b E2 Hin;
      (assert (H : In Disconnect (a ++ Disconnect :: b)) by (apply in_or_app; right; now left));
      (assert (H' : In PingReq (a ++ Disconnect :: b)) by (apply in_or_app; right; now right)); rewrite <- E2 in H, H'; cbn in H, H'; intuition discriminate.
  - intros j k cj ck p q ps qs Hj Hk Hp Hq Ei. apply K in Hj, Hk. rewrite Hp in Hj. rewrite Hq in Hk.
    destruct j as [|[|[|j]]]; cbn [nth_error ex_all] in Hj; [..|destruct j; discriminate]; injection Hj as <- _;
    (destruct k as [|[|[|k]]]; cbn [nth_error ex_all] in Hk; [..|destruct k; discriminate]; injection Hk as <- _); try reflexivity; discriminate Ei.
Qed.

Example C101_case :
  let s := drive ex_deny true (sys_init 1) ex_first in
  let s2 := drive ex_deny true s ex_second in
  quiet ex_deny true 1 s /\ quiet ex_deny true 1 s2 /\ (exists ls, steps ex_deny true s ls = Some s2)
  /\ all_behave ex_deny true s2 /\ ctrl_c s2 = false
  /\ map broker_sent (conns s2)
     = [[accepted_reply; SubAck 1 [SuccessQoS0]; UnsubAck 2; SubAck 3 [SuccessQoS0]; PingResp; Publish (ex_message "a/b" "x")];
        [accepted_reply; SubAck 1 [SuccessQoS0]; UnsubAck 2; SubAck 3 [SuccessQoS0]]; [accepted_reply]].
Proof.
  split; [apply quiet_run; vm_compute; reflexivity|]. split.
  { cbv zeta. assert (E : drive ex_deny true (drive ex_deny true (sys_init 1) ex_first) ex_second = drive ex_deny true (sys_init 1) (ex_first ++ ex_second))
      by (vm_compute; reflexivity).
    rewrite E. apply quiet_run. vm_compute. reflexivity. }
  split; [apply drive_steps|]. split; [apply ex_behave; vm_compute; reflexivity|]. split; vm_compute; reflexivity.
Qed.

(** ** C102: after a DISCONNECT *)

Lemma must_stop_peers auth dbg n ps :
  (forall s, reachable auth dbg n s -> peers s = ps -> rest_state auth dbg s -> handler_alive (hdl s) = false \/ stuck s) ->
  forall s, reachable auth dbg n s -> peers s = ps -> inevitably auth dbg (out_of_service auth dbg) s.
Proof.
  intros HP s HR. pose proof (dies_out auth dbg n s HR) as HA. revert HR. induction HA as [s _ IH]. intros HR Hp. constructor.
  - intros HS. destruct (HP s HR Hp (C87_rest auth dbg n s HR HS)) as [H|H]; [now apply ended_out|now apply stuck_out].
  - intros l s' Hl Hs. apply IH; [|eapply reachable_step; eauto|now rewrite (peers_step auth dbg s l s' Hl Hs)].
    exists l. split; [destruct l; try exact I; destruct Hl|exact Hs].
Qed.

Lemma place_leave cid cid' l : (forall r, place {| online := leave cid l; subs := r |} cid = None)
  /\ (forall r r', place {| online := l; subs := r |} cid' = None -> place {| online := leave cid l; subs := r' |} cid' = None).
Proof.
  unfold place, leave. cbn [online]. split.
  - intros _. induction l as [|x l IH]; cbn [filter find option_map]; [reflexivity|].
    destruct (bytes_eqb cid (fst x)) eqn:E; cbn [negb]; [exact IH|]. cbn [find]. rewrite E. exact IH.
  - intros _ _. induction l as [|x l IH]; cbn [filter find option_map]; [reflexivity|].
    destruct (bytes_eqb cid' (fst x)) eqn:E; [discriminate|]. intros H. specialize (IH H).
    destruct (bytes_eqb cid (fst x)); cbn [negb]; [exact IH|]. cbn [find]. rewrite E. exact IH.
Qed.

(** Without a CONNECT of its own, a client that has no session has none later. *)
Lemma stays_away auth cid es : forall r, place r cid = None -> (forall c a k, In (Connected c a k) es -> client_id c <> cid) ->
  place (fold_left (ref_next auth) es r) cid = None.
Proof.
  induction es as [|e es IH]; intros r Hr HN; cbn [fold_left]; [exact Hr|]. apply IH; [|intros c a k H; apply (HN c a k); now right].
  destruct r as [o sb]. destruct e as [c a k|cid' p k|cid'|cid']; cbn [ref_next].
  - destruct (Spec_ref.let_in auth c) as [[]|]; try exact Hr. unfold place. cbn [online find fst].
    destruct (bytes_eqb_spec cid (client_id c)) as [E|_]; [exfalso; apply (HN c a k); [now left|congruence]|].
    exact (proj2 (place_leave (client_id c) cid o) sb sb Hr).
  - destruct p; try exact Hr. exact (proj2 (place_leave cid' cid o) sb _ Hr).
  - exact Hr.
  - exact (proj2 (place_leave cid' cid o) sb _ Hr).
Qed.

Lemma ref_sends_at auth k es1 : forall r es, existsb (stops auth) (es1 ++ es) = false ->
  ref_sends auth r (es1 ++ es) k = ref_sends auth r es1 k ++ ref_sends auth (fold_left (ref_next auth) es1 r) es k.
Proof.
  induction es1 as [|e es1 IH]; intros r es H; [reflexivity|]. cbn [app existsb ref_sends fold_left] in *. apply orb_false_iff in H. destruct H as (H1 & H2).
  rewrite H1, (IH _ _ H2), app_assoc. reflexivity.
Qed.

(** A client with an id of its own that goes on after its DISCONNECT with a PINGREQ and 32 more requests ends the service for all,
    from every state and on every schedule. It needs no password. *)
Theorem C102_requests_after_disconnect auth dbg n s k c p a b1 b2 :
  reachable auth dbg n s -> nth_error (conns s) k = Some c ->
  client_sends dbg c = Connect p :: a ++ Disconnect :: b1 ++ PingReq :: b2 -> client_id p <> [] ->
  (forall j cj q qs, j <> k -> nth_error (conns s) j = Some cj -> client_sends dbg cj = Connect q :: qs ->
     client_id q <> [] /\ client_id q <> client_id p) ->
  32 <= length (filter answered b2) ->
  inevitably auth dbg (out_of_service auth dbg) s.
Proof.
  intros HR Hk HC Hne HO HL. apply (must_stop_peers auth dbg n (peers s)); [|exact HR|reflexivity].
  intros s1 HR1 HP [H|j cj H _ _|Hh Ha Hs]; [now left|now right|exfalso].
  assert (B : forall j cj, nth_error (conns s1) j = Some cj -> exists c0, nth_error (conns s) j = Some c0 /\ client_sends dbg c0 = client_sends dbg cj).
  { intros j cj Hj. assert (K : nth_error (peers s1) j = Some (c_rsock cj, c_wsock cj, c_addr cj)) by (unfold peers; now rewrite nth_error_map, Hj).
    rewrite HP in K. unfold peers in K. rewrite nth_error_map in K. destruct (nth_error (conns s) j) as [c0|]; [|discriminate].
    exists c0. split; [reflexivity|]. unfold client_sends. now injection K as -> _ _. }
  assert (exists c1, nth_error (conns s1) k = Some c1) as (c1 & Hk1).
  { destruct (nth_error (conns s1) k) as [c1|] eqn:E; [eauto|exfalso]. assert (L : length (peers s1) = length (peers s)) by congruence.
    unfold peers in L. rewrite !map_length in L. apply nth_error_None in E. assert (k < length (conns s)) by (apply nth_error_Some; congruence). lia. }
  destruct (B k c1 Hk1) as (c0 & H0 & E0). rewrite Hk in H0. injection H0 as <-. rewrite HC in E0. symmetry in E0.
  destruct (Hs k c1 Hk1) as ((cid & Hg & HI) & _). assert (Ei : cid = client_id p) by exact (Hg p _ E0 Hne). subst cid. rewrite E0 in HI.
  pose proof (hist_invariant auth dbg n s1 HR1) as HH. unfold hist_inv in HH. rewrite Hh in HH.
  pose proof (proj1 (finished_stops auth (handled s1) MessagingService_new)) as HF. rewrite HH in HF. specialize (HF eq_refl).
  pose proof (after_close auth dbg n s1 HR1 k) as HRm. rewrite put_to_sent in HRm.
  assert (ES : sent_to k (map out (log s1)) = ref_sends auth ref_init (map snd (handled s1)) k).
  { rewrite <- (proj1 (C86_all_events auth (handled s1) k)), HH. reflexivity. }
  rewrite ES in HRm. clear ES HH. cbn [issued] in HI. rewrite map_app in HI. cbn [map] in HI. rewrite map_app in HI. cbn [map] in HI.
  destruct (events_of_split _ _ _ _ HI) as (es0 & es1 & X1 & X2).
  assert (SP : forall l es e r, events_of k es = l ++ e :: r -> exists u v, es = u ++ e :: v /\ events_of k v = r /\ events_of k u = l).
  { clear. induction l as [|x l IH]; intros es e r H; cbn [app] in H.
    - induction es as [|y es IH]; [discriminate|]. unfold events_of in H. cbn [filter] in H. destruct (opt_is k (event_tx y)) eqn:EO.
      + injection H as -> H. exists [], es. auto.
      + destruct (IH H) as (u & v & -> & E1 & E2). exists (y :: u), v. repeat split; auto. unfold events_of. cbn [filter]. now rewrite EO.
    - induction es as [|y es IH2]; [discriminate|]. unfold events_of in H. cbn [filter] in H. destruct (opt_is k (event_tx y)) eqn:EO.
      + injection H as -> H. destruct (IH es e r H) as (u & v & -> & E1 & E2). exists (x :: u), v. repeat split; auto.
        unfold events_of. cbn [filter]. rewrite EO. f_equal. exact E2.
      + destruct (IH2 H) as (u & v & -> & E1 & E2). exists (y :: u), v. repeat split; auto. unfold events_of. cbn [filter]. now rewrite EO. }
  destruct (SP _ _ _ _ X2) as (u1 & v1 & -> & Y1 & _). destruct (SP _ _ _ _ Y1) as (u2 & v2 & -> & Z1 & _).
  (* nobody comes by that id in between *)
  assert (HU : forall cp ad j, In (Connected cp ad j) u2 -> client_id cp <> client_id p).
  { intros cp ad j Hin E. assert (Hin' : In (Connected cp ad j) (map snd (handled s1))).
    { rewrite X1. apply in_or_app. right. right. apply in_or_app. right. right. apply in_or_app. now left. }
    destruct (Nat.eq_dec j k) as [->|Hj].
    - assert (K : In (Connected cp ad k) (events_of k (u2 ++ ClientPacket (client_id p) PingReq k :: v2))).
      { apply in_events_of; [apply in_or_app; now left|reflexivity]. }
      rewrite Y1 in K. apply in_app_or in K. destruct K as [K|[K|K]]; [|discriminate|];
        apply in_map_iff in K; destruct K as (z & Ez & _); discriminate.
    - destruct (handled_who auth dbg n s1 cp ad j HR1 Hin') as (cj & q & qs & Hcj & Hsj & Hgb & _).
      destruct (B j cj Hcj) as (c2 & H2 & E2). rewrite Hsj in E2. destruct (HO j c2 q qs Hj H2 E2) as (N1 & N2).
      apply N2. rewrite <- (Hgb N1). exact E. }
  set (D := ClientPacket (client_id p) Disconnect k) in *. set (P := ClientPacket (client_id p) PingReq k) in *.
  match type of X1 with _ = es0 ++ ?e0 :: _ => remember (e0 :: u1) as w eqn:Ew end.
  assert (XE : map snd (handled s1) = (es0 ++ (w ++ [D]) ++ u2) ++ P :: v2).
  { rewrite X1. rewrite Ew. rewrite <- !app_assoc. reflexivity. }
  rewrite XE in HF, HRm. rewrite ref_sends_at in HRm by exact HF. cbn [ref_sends] in HRm.
  assert (HF2 : existsb (stops auth) v2 = false).
  { rewrite existsb_app in HF. apply orb_false_iff in HF. destruct HF as (_ & HF). cbn [existsb] in HF. now apply orb_false_iff in HF. }
  change (stops auth P) with false in HRm. cbv iota in HRm.
  match type of HRm with context [ref_out auth ?r P k] => assert (EP : place r (client_id p) = None) end.
  { rewrite !fold_left_app. cbn [fold_left]. apply stays_away; [|exact HU]. cbn [ref_next D]. apply (proj1 (place_leave (client_id p) (client_id p) _)). }
  unfold P in HRm at 1. cbn [ref_out] in HRm. rewrite Nat.eqb_refl, EP in HRm. cbn [app] in HRm. specialize (HRm _ _ eq_refl).
  match type of HRm with context [ref_sends auth ?r v2 k] => pose proof (answers_least auth k v2 r HF2) as HL2 end.
  rewrite Z1 in HL2.
  assert (HL3 : length (filter event_answered (map (fun q => ClientPacket (client_id p) q k) b2)) = length (filter answered b2)).
  { clear. induction b2 as [|q qs IH]; [reflexivity|]. cbn [map filter event_answered]. destruct (answered q); cbn [length]; congruence. }
  lia.
Qed.

(** Client "z" comes without user name or password, leaves, and sends 33 times PINGREQ, while two others are served. With 32 the broker may live on. *)
Definition ex_lingers (m : nat) : list peer :=
  [(ex_peer (ex_client "z" None None :: Disconnect :: repeat PingReq m) PeerOpen, ex_socket [], 1%N)].

Definition ex_lingering : sys := drive ex_deny true (sys_init 1)
  (ex_sub_pub [] 3 ++ [LAccept (fst (fst (hd (ex_peer [] PeerOpen, ex_socket [], 0%N) (ex_lingers 33)))) (ex_socket []) 3]).

Example C102_case :
  (inevitably ex_deny true (out_of_service ex_deny true) ex_lingering /\ hdl ex_lingering = HIdle)
  /\ (exists s, quiet ex_deny true 1 s /\ peers s = ex_lingers 32 /\ length (handled s) = 34).
Proof.
  split; [split; [|vm_compute; reflexivity]|].
  - assert (K : map (client_sends true) (conns ex_lingering)
        = [[ex_client "s" None None; Subscribe 1 [{| sub_topic := str "a"; sub_qos := AtMostOnce |}]];
           ex_client "p" None None :: map (fun i => Publish (ex_message "a" (if Nat.even i then "x" else "y"))) (seq 0 3);
           ex_client "z" None None :: Disconnect :: PingReq :: repeat PingReq 32]) by (vm_compute; reflexivity).
    assert (HR : reachable ex_deny true 1 ex_lingering) by apply drive_reachable.
    generalize dependent ex_lingering. intros s K HR.
    assert (N : forall k c, nth_error (conns s) k = Some c -> nth_error (map (client_sends true) (conns s)) k = Some (client_sends true c))
      by (intros k c Hk; now rewrite nth_error_map, Hk).
    rewrite K in N. destruct (nth_error (conns s) 2) as [c|] eqn:Hk.
    + pose proof (N _ _ Hk) as E. cbn [nth_error] in E. injection E as E. symmetry in E.
      refine (C102_requests_after_disconnect ex_deny true 1 s 2 c _ [] [] _ HR Hk E _ _ _); [discriminate| |vm_compute; lia].
      intros [|[|[|j]]] cj q qs Hj Hcj Hq; [..|destruct j; discriminate (N _ _ Hcj)]; [| |congruence];
        apply N in Hcj; rewrite Hq in Hcj; cbn [nth_error] in Hcj; injection Hcj as <- _; split; discriminate.
    + exfalso. apply (f_equal (@length _)) in K. rewrite map_length in K. apply nth_error_None in Hk. cbn in K. lia.
  - set (es := issued 0 1 (str "z") (ex_client "z" None None :: Disconnect :: repeat PingReq 32)).
    destruct (proj2 (C92_possible_orders ex_deny true 1 (ex_lingers 32) es ltac:(discriminate)
                ltac:(intros r w a [H|[]]; injection H as <- <- <-; intros []))) as (s & HQ & HP & HH).
    + split; [split|split].
      * intros e He. exists 0. split; [|cbn; lia].
        assert (K : forallb (fun e => match event_tx e with Some 0 => true | _ => false end) es = true) by (vm_compute; reflexivity).
        rewrite forallb_forall in K. specialize (K e He). destruct (event_tx e) as [[|]|]; congruence.
      * intros [|k] r w a H; [injection H as <- <- <-|destruct k; discriminate H]. intros sends. exists (str "z").
        assert (E : sends = ex_client "z" None None :: Disconnect :: repeat PingReq 32) by (vm_compute; reflexivity).
        rewrite E. split; [intros p qs [= <- _] _; reflexivity|]. vm_compute. reflexivity.
      * vm_compute. reflexivity.
      * intros k l1 l2 E. assert (L : length (ref_sends ex_deny ref_init es k) <= 33).
        { destruct k as [|k]; vm_compute; lia. }
        destruct l1 as [|x l1].
        -- exfalso. destruct k as [|k]; vm_compute in E; discriminate E.
        -- rewrite E in L. cbn [app length] in L. rewrite app_length in L. cbn [length] in L. lia.
    + exists s. split; [exact HQ|]. split; [exact HP|]. rewrite <- (map_length snd), HH. vm_compute. reflexivity.
Qed.
