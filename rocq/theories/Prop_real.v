(** Property C117: what clients see respects time. When the answer to a packet was sent before another packet was
    wholly there, the one is handled before the other (linearizability). *)
From Verif Require Import Base Base_facts Packets HashMap Subscriptions Messaging Handler Decoder ReadStream ReadStream_facts
  Plain_facts Conn Conn_facts Encoder Encoder_facts WriteStream WriteStream_facts Spec_wire Spec_subs Spec_broker Spec_ref
  Subscriptions_facts Handler_facts System System_facts
  System_hist System_conn System_queue System_first System_progress System_exit System_rest
  Prop_codec Prop_subs Prop_stream Prop_broker Prop_system Prop_rest Prop_mqtt Prop_ref Prop_stop Prop_any Service_facts System_fair Prop_fair
  Prop_apart Live Live_facts Prop_live Live_fair.
Open Scope nat_scope.
Local Notation S := Datatypes.S.

(** ** Time passes *)

Lemma live_step_grows auth dbg s a s' : live_step auth dbg s a = Some s' ->
  (exists more, handled s' = handled s ++ more)
  /\ forall k c, nth_error (conns s) k = Some c -> exists c', nth_error (conns s') k = Some c'
       /\ exists z, arriving (c_rsock c') = arriving (c_rsock c) ++ z.
Proof.
  intros HS.
  assert (PEER : (forall l, a <> Own l) -> (exists more, handled s' = handled s ++ more)
    /\ forall k c, nth_error (conns s) k = Some c -> exists c', nth_error (conns s') k = Some c'
       /\ exists z, arriving (c_rsock c') = arriving (c_rsock c) ++ z).
  { intros HN. edestruct peer_frame as (_ & E & _ & _ & _ & _ & _ & H); [exact HS|exact HN|]. split; [exists []; now rewrite app_nil_r|].
    intros k c Hk. destruct (H k c Hk) as (c' & H1 & _ & _ & _ & _ & _ & _ & H2). eauto. }
  destruct a as [l| | |]; try (apply PEER; discriminate). clear PEER. cbn [live_step] in HS. split.
  - assert (SAME : handled s' = handled s -> exists m', handled s' = handled s ++ m') by (intros ->; exists []; now rewrite app_nil_r).
    destruct l as [r w a|k u|k|now| | | | |]; try (apply SAME; now destruct (handler_frame _ _ _ _ _ HS I) as (_ & -> & _)).
    + unfold step, step_handler in HS. destruct (running s); [|discriminate].
      destruct (hdl s) as [|tx p| |]; try discriminate.
      * destruct (events s); [discriminate|]. injection HS as HS. rewrite <- HS. cbn. eauto.
      * destruct p as [| |R op f|to e p].
        -- injection HS as HS. apply SAME. now rewrite <- HS.
        -- injection HS as HS. apply SAME. now rewrite <- HS.
        -- destruct (serve _ op). injection HS as HS. apply SAME. now rewrite <- HS.
        -- destruct (nth_error _ to) as [c|]; [|discriminate].
           destruct (c_writer c); try (destruct (_ <? _); [|discriminate]); injection HS as HS; apply SAME; now rewrite <- HS.
    + unfold step in HS. destruct (running s); [|discriminate]. destruct (hdl s); try discriminate.
      destruct (ctrl_c s); [|discriminate]. injection HS as HS. apply SAME. now rewrite <- HS.
  - intros k c Hk. destruct (conn_frame _ _ _ _ _ _ _ HS Hk) as (c' & H1 & H2 & _). exists c'. split; [exact H1|]. rewrite H2. exists []. now rewrite app_nil_r.
Qed.

(** The order in which events are handled only grows at its end, and what a client sent stays sent. *)
Theorem C117_order_grows auth dbg acts : forall s1 s2, live_steps auth dbg s1 acts = Some s2 ->
  (exists more, handled s2 = handled s1 ++ more)
  /\ forall k c, nth_error (conns s1) k = Some c -> exists c', nth_error (conns s2) k = Some c'
       /\ exists z, arriving (c_rsock c') = arriving (c_rsock c) ++ z.
Proof.
  induction acts as [|a acts IH]; intros s1 s2; cbn [live_steps].
  - intros [= <-]. split; [exists []; now rewrite app_nil_r|]. intros k c Hk. exists c. split; [exact Hk|]. exists []. now rewrite app_nil_r.
  - destruct (live_step auth dbg s1 a) as [s|] eqn:E; [|discriminate]. intros HS.
    destruct (live_step_grows _ _ _ _ _ E) as ((m & H1) & H2). destruct (IH _ _ HS) as ((m' & H3) & H4).
    split; [exists (m ++ m'); now rewrite H3, H1, app_assoc|]. intros k c Hk. destruct (H2 k c Hk) as (c1 & Hk1 & z & Hz).
    destruct (H4 k c1 Hk1) as (c2 & Hk2 & z' & Hz'). exists c2. split; [exact Hk2|]. exists (z ++ z'). now rewrite Hz', Hz, app_assoc.
Qed.

Lemma live_steps_reachable auth dbg n s1 acts s2 : live_reachable auth dbg n s1 -> live_steps auth dbg s1 acts = Some s2 -> live_reachable auth dbg n s2.
Proof.
  intros (l & H1) H2. exists (l ++ acts). revert H1. generalize (sys_init n). induction l as [|a l IH]; intros s; cbn [live_steps app].
  - now intros [= ->].
  - destruct (live_step auth dbg s a); [apply IH|discriminate].
Qed.

(** ** The events made of the packets a client sent *)

(** [e] is the event made of packet [q] of connection [k]. *)
Definition is_for (k : conn) (q : ControlPacket) (e : ClientEvent) : Prop :=
  match e with
  | Connected c _ k' => k' = k /\ exists p cid, q = Connect p /\ c = with_id p cid
  | ClientPacket _ q' k' => k' = k /\ q' = q
  | _ => False
  end.

Lemma Forall2_firstn {A B} (R : A -> B -> Prop) l l' : Forall2 R l l' -> forall m, Forall2 R (firstn m l) (firstn m l').
Proof. induction 1 as [|a b l l' H _ IH]; intros [|m]; cbn [firstn]; constructor; auto. Qed.

Lemma issued_is_for k a cid ps i e q : nth_error (issued k a cid ps) i = Some e -> nth_error ps i = Some q -> is_for k q e.
Proof.
  destruct ps as [|p ps]; [destruct i; discriminate|]. destruct p as [p| | | | | | | | | | | | |]; cbn [issued]; try (destruct i; discriminate).
  destruct i as [|i]; cbn [nth_error].
  - intros [= <-] [= <-]. cbn. split; [reflexivity|]. now exists p, cid.
  - intros H1 H2. rewrite nth_error_map, H2 in H1. injection H1 as <-. cbn. auto.
Qed.

Lemma issued_length k a cid ps : length (issued k a cid ps) <= length ps.
Proof. destruct ps as [|p ps]; cbn; [lia|]. destruct p; cbn; try lia. rewrite map_length. lia. Qed.

Section OneState.
Context (auth : bytes -> bytes -> bool) (dbg : bool) (n : nat) (s : sys).
Hypothesis HL : live_reachable auth dbg n s.

(** The events of a connection handled so far. *)
Notation done k := (events_of k (map snd (handled s))).

Lemma done_issued k c : nth_error (conns s) k = Some c -> exists cid more, done k ++ more = issued k (c_addr c) cid (c_read c).
Proof.
  intros Hk. pose proof (live_flow auth dbg n s HL k) as H. unfold flow_ok in H. rewrite Hk in H. destruct H as (cid & _ & _ & H).
  exists cid. destruct (handler_alive (hdl s)).
  - rewrite events_of_app, <- app_assoc in H. eauto.
  - exact H.
Qed.

Lemma done_read k c : nth_error (conns s) k = Some c -> length (done k) <= length (c_read c).
Proof.
  intros Hk. destruct (done_issued k c Hk) as (cid & more & E). pose proof (issued_length k (c_addr c) cid (c_read c)) as L.
  rewrite <- E, app_length in L. lia.
Qed.

Lemma done_nobody k : nth_error (conns s) k = None -> done k = [].
Proof.
  intros Hk. pose proof (live_flow auth dbg n s HL k) as H. unfold flow_ok in H. rewrite Hk, events_of_app in H.
  now apply app_eq_nil in H.
Qed.

Lemma done_is_for k c ps bss rest i q e : nth_error (conns s) k = Some c ->
  arriving (c_rsock c) = concat bss ++ rest -> Forall2 sent_as ps bss ->
  nth_error ps i = Some q -> nth_error (done k) i = Some e -> is_for k q e.
Proof.
  intros Hk HA HF Hq He. destruct (done_issued k c Hk) as (cid & more & E).
  assert (Li : i < length (done k)) by (apply nth_error_Some; congruence).
  assert (Lq : i < length ps) by (apply nth_error_Some; congruence).
  assert (Hi : nth_error (issued k (c_addr c) cid (c_read c)) i = Some e) by (rewrite <- E, nth_error_app1; auto).
  pose proof (done_read k c Hk) as Lr.
  destruct (live_read_prefix auth dbg n s k c HL Hk (firstn (S i) ps) (firstn (S i) bss) (concat (skipn (S i) bss) ++ rest)) as (l & El).
  - rewrite HA. rewrite <- (firstn_skipn (S i) bss) at 1. now rewrite concat_app, app_assoc.
  - now apply Forall2_firstn.
  - rewrite firstn_length. lia.
  - apply (issued_is_for k (c_addr c) cid (c_read c) i e q Hi). rewrite El, nth_error_app1 by (rewrite firstn_length; lia).
    rewrite <- Hq. rewrite <- (firstn_skipn (S i) ps) at 2. rewrite nth_error_app1; [reflexivity|rewrite firstn_length; lia].
Qed.

(** ** What was answered was handled *)

(** Packets that get an answer: the first one, if it is CONNECT, and then SUBSCRIBE, UNSUBSCRIBE and PINGREQ. *)
Definition asks (q : ControlPacket) : bool := match q with Subscribe _ _ | Unsubscribe _ _ | PingReq => true | _ => false end.

Definition asked (ps : list ControlPacket) : nat := match ps with [] => 0 | _ :: qs => S (length (filter asks qs)) end.

Definition is_packet (e : ServerEvent) : bool := match e with ServerPacket _ => true | ServerDisconnect => false end.

Lemma asked_firstn ps : forall i m, i <= m -> asked (firstn i ps) <= asked (firstn m ps).
Proof.
  destruct ps as [|p ps]; intros i m L; [now rewrite !firstn_nil|].
  destruct i as [|i]; cbn [firstn asked]; [lia|]. destruct m as [|m]; [lia|]. cbn [firstn asked]. apply le_n_S.
  assert (L' : i <= m) by lia. clear L. revert i m L'. induction ps as [|q ps IH]; intros i m L; [now rewrite !firstn_nil|].
  destruct i as [|i]; cbn [firstn filter length]; [lia|]. destruct m as [|m]; [lia|]. cbn [firstn filter].
  specialize (IH i m ltac:(lia)). destruct (asks q); cbn [length]; lia.
Qed.

Lemma answer_count q l : answer q l -> length (filter is_packet l) <= if asks q then 1 else 0.
Proof. destruct q; cbn [answer asks]; intros H; try (rewrite H; cbn; lia). destruct H as [-> | ->]; cbn; lia. Qed.

Lemma first_count c l : first_answer auth c l -> length (filter is_packet l) <= 1.
Proof. intros [(_ & ->)|[(_ & ->)|(_ & ->)]]; cbn; lia. Qed.

Lemma answers_count k es ls : Forall2 (event_answer auth) es ls -> Forall (fun e => match e with ClientPacket _ _ _ => True | _ => False end) es ->
  forall qs, (forall i q e, nth_error qs i = Some q -> nth_error es i = Some e -> is_for k q e) -> length es <= length qs ->
  length (filter is_packet (concat ls)) <= length (filter asks (firstn (length es) qs)).
Proof.
  induction 1 as [|e l es ls HA HAs IH]; intros HN qs HQ HLen; [cbn; lia|].
  apply Forall_cons_iff in HN. destruct HN as (HN & HNs). destruct qs as [|q qs]; [cbn in HLen; lia|].
  cbn [concat length firstn]. rewrite filter_app, app_length.
  assert (IH' : length (filter is_packet (concat ls)) <= length (filter asks (firstn (length es) qs))).
  { apply (IH HNs); [|cbn in HLen; lia]. intros i. exact (HQ (S i)). }
  pose proof (HQ 0 q e eq_refl eq_refl) as H. destruct e as [c a j|cid q' j|cid|cid]; try destruct HN. destruct H as (_ & ->).
  pose proof (answer_count q l HA). cbn [filter]. destruct (asks q); cbn [length]; lia.
Qed.

Lemma is_packet_sent (ps : list ControlPacket) : length (filter is_packet (filter not_message (map ServerPacket ps))) = length (filter not_publish ps).
Proof.
  induction ps as [|p ps IH]; [reflexivity|]. cbn [map filter not_message]. destruct (not_publish p); [|exact IH].
  cbn [filter is_packet length]. now rewrite IH.
Qed.

Lemma nth_event k h : forall i e, nth_error (events_of k (map snd h)) i = Some e ->
  exists h1 te h2, h = h1 ++ te :: h2 /\ snd te = e /\ length (events_of k (map (@snd Z ClientEvent) h1)) = i.
Proof.
  induction h as [|te h IH]; intros i e; [destruct i; discriminate|]. unfold events_of. cbn [map filter]. fold (events_of k (map snd h)).
  destruct (opt_is k (event_tx (snd te))) eqn:E.
  - destruct i as [|i]; cbn [nth_error].
    + intros [= <-]. exists [], te, h. auto.
    + intros H. destruct (IH i e H) as (h1 & te' & h2 & -> & H1 & H2). exists (te :: h1), te', h2.
      split; [reflexivity|]. split; [exact H1|]. cbn [map filter]. rewrite E. cbn [length]. now f_equal.
  - intros H. destruct (IH i e H) as (h1 & te' & h2 & -> & H1 & H2). exists (te :: h1), te', h2.
    split; [reflexivity|]. split; [exact H1|]. cbn [map filter]. now rewrite E.
Qed.

Lemma answers_bound k c ps bss rest : nth_error (conns s) k = Some c ->
  arriving (c_rsock c) = concat bss ++ rest -> Forall2 sent_as ps bss -> length (done k) <= length ps ->
  length (filter not_publish (broker_sent c)) <= asked (firstn (length (done k)) ps).
Proof.
  intros Hk HA HF HLen.
  destruct (answers_in_order auth k (map snd (handled s)) ref_init) as (ls & r & H1 & H2 & _).
  destruct (C111_reference auth dbg n s k c HL Hk) as (r' & E). rewrite E, filter_app, <- app_assoc in H2.
  apply (f_equal (fun l => length (filter is_packet l))) in H2. cbn beta in H2. rewrite filter_app, app_length, is_packet_sent in H2.
  assert (B : length (filter is_packet (concat ls)) <= asked (firstn (length (done k)) ps)); [|lia]. clear H2 E.
  pose proof (fun i q e => done_is_for k c ps bss rest i q e Hk HA HF) as HQ.
  destruct (done_issued k c Hk) as (cid & more & HI). pose proof (one_connect_issued _ _ _ _ _ _ HI) as HO.
  remember (done k) as es eqn:Ees. clear Ees HI. destruct H1 as [|e l es ls HE H1]; [cbn; lia|].
  destruct e as [p a j| | |]; try contradiction. destruct ps as [|q ps]; [cbn in HLen; lia|].
  cbn [length firstn asked concat]. rewrite filter_app, app_length. pose proof (first_count p l HE) as C1.
  assert (C2 : length (filter is_packet (concat ls)) <= length (filter asks (firstn (length es) ps))); [|lia].
  apply (answers_count k es ls H1 HO); [|cbn in HLen; lia]. intros i. exact (HQ (S i)).
Qed.

(** If a client was sent more answers than its first [i] packets can have had, the handler has taken the one after them. *)
Theorem C117_answered_is_handled k c ps bss rest i q : nth_error (conns s) k = Some c ->
  arriving (c_rsock c) = concat bss ++ rest -> Forall2 sent_as ps bss -> nth_error ps i = Some q ->
  asked (firstn i ps) < length (filter not_publish (broker_sent c)) ->
  exists h te h', handled s = h ++ te :: h' /\ is_for k q (snd te) /\ length (events_of k (map snd h)) = i.
Proof.
  intros Hk HA HF Hq HLt. assert (Lq : i < length ps) by (apply nth_error_Some; congruence).
  destruct (nth_error (done k) i) as [e|] eqn:He.
  - pose proof (done_is_for k c ps bss rest i q e Hk HA HF Hq He) as H. destruct (nth_event k (handled s) i e He) as (h & te & h' & E1 & <- & E2).
    eauto 6.
  - exfalso. apply nth_error_None in He. pose proof (answers_bound k c ps bss rest Hk HA HF ltac:(lia)) as B.
    pose proof (asked_firstn ps _ _ He). lia.
Qed.

(** ** What has not come was not handled *)

Lemma reads_firstn st ps st' m : reads dbg st ps st' -> m <= length ps -> exists st1, reads dbg st (firstn m ps) st1.
Proof.
  induction 1 as [|ps st1 p st2 H IH HP]; intros HM.
  - cbn in HM. replace m with 0 by lia. eexists. constructor.
  - rewrite app_length in HM. cbn [length] in HM. destruct (Nat.eq_dec m (length ps + 1)) as [->|HN].
    + exists st2. rewrite firstn_all2 by (rewrite app_length; cbn; lia). now apply (ReadsSnoc dbg st ps st1 p st2).
    + rewrite firstn_app. replace (m - length ps) with 0 by lia. cbn [firstn]. rewrite app_nil_r. apply IH. lia.
Qed.

Lemma skipn_nth {A} m : forall l : list A, m < length l -> exists x, nth_error l m = Some x /\ skipn m l = x :: skipn (S m) l.
Proof.
  induction m as [|m IH]; intros [|y l] HM; cbn [length] in HM; try lia; [now exists y|]. cbn [nth_error skipn]. apply IH. lia.
Qed.

Lemma Forall2_nth {A B} (R : A -> B -> Prop) l l' : Forall2 R l l' -> forall m b, nth_error l' m = Some b -> exists a, nth_error l m = Some a /\ R a b.
Proof. induction 1 as [|a b l l' H _ IH]; intros [|m] x; cbn [nth_error]; try discriminate; [intros [= <-]; eauto|apply IH]. Qed.

Lemma reads_pending st xs st' qs css z rest : wf st -> reads dbg st xs st' -> pending st ++ z = concat css ++ rest -> Forall2 sent_as qs css ->
  length xs <= length css -> wf st' /\ pending st' ++ z = concat (skipn (length xs) css) ++ rest.
Proof.
  intros W H HP HF. induction H as [|xs st1 p st2 H IH HR]; intros HLen; [auto|].
  rewrite app_length in *. cbn [length] in *. destruct IH as (W1 & E); [lia|].
  destruct (read_packet_consumes dbg st1 p st2 W1 HR) as (W2 & _ & HD & _). split; [exact W2|].
  apply (decode_ext dbg _ _ _ z) in HD. rewrite E in HD. rewrite Nat.add_1_r.
  destruct (skipn_nth (length xs) css) as (b & Hb & Es); [lia|]. rewrite Es in HD. cbn [concat] in HD. rewrite <- app_assoc in HD.
  destruct (Forall2_nth _ _ _ HF _ _ Hb) as (q & _ & HS). rewrite (decode_sent dbg q b _ HS) in HD. now injection HD.
Qed.

(** As long as the bytes of a packet are not all there, the packet is not handled, whatever the missing ones will be. *)
Theorem C117_unsent_not_handled k c z qs css rest m : nth_error (conns s) k = Some c ->
  arriving (c_rsock c) ++ z = concat css ++ rest -> Forall2 sent_as qs css -> m < length qs ->
  length (arriving (c_rsock c)) < length (concat (firstn (S m) css)) -> length (done k) <= m.
Proof.
  intros Hk HA HF HM HLt. pose proof (done_read k c Hk) as Lr. apply Nat.le_trans with (1 := Lr).
  destruct (Nat.le_gt_cases (length (c_read c)) m) as [|HG]; [assumption|exfalso].
  destruct (C111_no_difference auth dbg n s HL) as (s' & HR & HK).
  destruct (like_some s s' k c HK Hk) as (c' & Hk' & (_ & E2 & _ & _ & _ & _ & E7 & _)).
  pose proof (reader_invariant auth dbg n s' HR k c' Hk') as (rs & Hr & _). rewrite E2 in Hr.
  destruct (reads_firstn _ _ _ (S m) Hr HG) as (st1 & H1).
  assert (LC : length css = length qs) by (clear - HF; induction HF; cbn; congruence).
  assert (LF : length (firstn (S m) (c_read c)) = S m) by (rewrite firstn_length; lia).
  destruct (reads_pending _ _ _ qs css z rest (wf_connection _) H1) as (_ & E).
  - unfold pending, connection_stream. cbn. now rewrite E7.
  - exact HF.
  - lia.
  - rewrite LF in E. apply (f_equal (@length byte)) in E. apply (f_equal (@length byte)) in HA.
    rewrite !app_length in *. rewrite <- (firstn_skipn (S m) css), concat_app, app_length in HA. lia.
Qed.
End OneState.

(** ** Linearizability *)

(** [te], coming after the events [h], is packet [i], [q], of connection [k]. *)
Definition request (k : conn) (i : nat) (q : ControlPacket) (h : list (Z * ClientEvent)) (te : Z * ClientEvent) : Prop :=
  length (events_of k (map snd h)) = i /\ is_for k q (snd te).

(** At one moment, client [j] has been answered packet [i], and client [k] has not yet sent all of packet [m] (which
    may not exist, nor may the connection). Later, packet [m] has been handled. Then packet [i] was handled before it. *)
Theorem C117_linearizable auth dbg n s1 acts s2 j c ps bss rest i q k d qs css rest' m q' :
  live_reachable auth dbg n s1 -> live_steps auth dbg s1 acts = Some s2 ->
  nth_error (conns s1) j = Some c -> arriving (c_rsock c) = concat bss ++ rest -> Forall2 sent_as ps bss -> nth_error ps i = Some q ->
  asked (firstn i ps) < length (filter not_publish (broker_sent c)) ->
  nth_error (conns s2) k = Some d -> arriving (c_rsock d) = concat css ++ rest' -> Forall2 sent_as qs css -> nth_error qs m = Some q' ->
  (forall d1, nth_error (conns s1) k = Some d1 -> length (arriving (c_rsock d1)) < length (concat (firstn (S m) css))) ->
  m < length (events_of k (map snd (handled s2))) ->
  exists h1 ta h2 tb h3, handled s2 = h1 ++ ta :: h2 ++ tb :: h3
    /\ request j i q h1 ta /\ request k m q' (h1 ++ ta :: h2) tb.
Proof.
  intros HL1 HS Hj HA HF Hq HAns Hk HA' HF' Hq' HU HH.
  pose proof (live_steps_reachable _ _ _ _ _ _ HL1 HS) as HL2.
  destruct (C117_order_grows auth dbg acts s1 s2 HS) as ((more & EM) & HC).
  destruct (C117_answered_is_handled auth dbg n s1 HL1 j c ps bss rest i q Hj HA HF Hq HAns) as (h & ta & h' & EA & FA & LA).
  assert (B : length (events_of k (map snd (handled s1))) <= m).
  { destruct (nth_error (conns s1) k) as [d1|] eqn:Ek.
    - destruct (HC k d1 Ek) as (d2 & Ek2 & z & Ez). rewrite Hk in Ek2. injection Ek2 as <-.
      apply (C117_unsent_not_handled auth dbg n s1 HL1 k d1 z qs css rest' m Ek); auto.
      + now rewrite <- Ez.
      + apply nth_error_Some. congruence.
    - rewrite (done_nobody auth dbg n s1 HL1 k Ek). cbn. lia. }
  destruct (nth_error (events_of k (map snd (handled s2))) m) as [e|] eqn:Ee; [|apply nth_error_None in Ee; lia].
  pose proof (done_is_for auth dbg n s2 HL2 k d qs css rest' m q' e Hk HA' HF' Hq' Ee) as FB.
  rewrite EM, map_app, events_of_app, nth_error_app2 in Ee by exact B.
  destruct (nth_event k more _ e Ee) as (g1 & tb & g2 & -> & <- & LB).
  exists h, ta, (h' ++ g1), tb, g2. rewrite EM, EA. split; [|split; split; auto].
  - rewrite <- !app_assoc. reflexivity.
  - rewrite app_comm_cons, app_assoc, <- EA, map_app, events_of_app, app_length, LB. lia.
Qed.

(** ** Reading one's own subscription *)

(** The event takes the session of [cid] elsewhere or ends it. *)
Definition moves (auth : bytes -> bytes -> bool) (cid : bytes) (e : ClientEvent) : bool :=
  match e with
  | Connected c _ _ => match let_in auth c with Some true => bytes_eqb cid (client_id c) | _ => false end
  | ClientPacket cid' Disconnect _ | ConnectionLost cid' => bytes_eqb cid cid'
  | _ => false
  end.

(** The event may take a subscription of [cid] away. *)
Definition undoes (auth : bytes -> bytes -> bool) (cid : bytes) (e : ClientEvent) : bool :=
  moves auth cid e || match e with ClientPacket cid' (Unsubscribe _ _) _ => bytes_eqb cid cid' | _ => false end.

Lemma place_kept auth r e cid : moves auth cid e = false -> place (ref_next auth r e) cid = place r cid.
Proof.
  destruct e as [c a k|cid' p k|cid'|cid']; cbn [moves ref_next]; [|destruct p; try reflexivity| |]; try reflexivity.
  - destruct (let_in auth c) as [[]|]; try reflexivity. intros H. now rewrite place_cons, H.
  - intros H. unfold gone. now rewrite place_leave, H.
  - intros H. unfold gone. now rewrite place_leave, H.
Qed.

Lemma own_in cid f l : In (cid, f) (Prop_apart.own cid l) <-> In (cid, f) l.
Proof. unfold Prop_apart.own. rewrite filter_In. cbn [fst]. rewrite bytes_eqb_refl. tauto. Qed.

Lemma drop_kept cid cid' fs f l : bytes_eqb cid cid' = false -> In (cid, f) l -> In (cid, f) (drop_all_of cid' fs l).
Proof.
  intros H HI. apply own_in. rewrite own_drop_all_other; [now apply own_in|]. intros ->. now rewrite bytes_eqb_refl in H.
Qed.

Lemma sub_kept auth r e cid f : undoes auth cid e = false -> In (cid, f) (subs r) -> In (cid, f) (subs (ref_next auth r e)).
Proof.
  intros H HI. unfold undoes in H. apply orb_false_iff in H. destruct H as (H1 & H2).
  destruct e as [c a k|cid' p k|cid'|cid']; cbn [moves ref_next] in *; [|destruct p; try exact HI| |exact (drop_kept _ _ _ _ _ H1 HI)]; try exact HI.
  - destruct (let_in auth c) as [[]|]; exact HI.
  - cbn [subs]. apply in_or_app. now right.
  - exact (drop_kept _ _ _ _ _ H2 HI).
  - exact (drop_kept _ _ _ _ _ H1 HI).
Qed.

Lemma place_kept_all auth cid es : forall r, Forall (fun e => moves auth cid e = false) es -> place (fold_left (ref_next auth) es r) cid = place r cid.
Proof.
  induction es as [|e es IH]; intros r H; [reflexivity|]. apply Forall_cons_iff in H. destruct H as (H & Hs). cbn [fold_left].
  rewrite (IH _ Hs). now apply place_kept.
Qed.

Lemma sub_kept_all auth cid f es : forall r, Forall (fun e => undoes auth cid e = false) es -> In (cid, f) (subs r) ->
  In (cid, f) (subs (fold_left (ref_next auth) es r)).
Proof.
  induction es as [|e es IH]; intros r H HI; [exact HI|]. apply Forall_cons_iff in H. destruct H as (H & Hs). cbn [fold_left].
  apply (IH _ Hs). now apply sub_kept.
Qed.

Lemma sum_in {A} (g : A -> nat) l x : In x l -> g x <= sum g l.
Proof.
  induction l as [|y l IH]; intros H; [destruct H|]. rewrite sum_cons. destruct H as [->|H]; [lia|]. specialize (IH H). lia.
Qed.

Lemma ref_sends_split auth es e es' k : forall r, existsb (stops auth) es = false ->
  exists l, ref_sends auth r (es ++ e :: es') k = ref_sends auth r es k ++ ref_out auth (fold_left (ref_next auth) es r) e k ++ l.
Proof.
  induction es as [|e0 es IH]; intros r H; cbn [app ref_sends fold_left]; [eauto|].
  cbn [existsb] in H. apply orb_false_iff in H. destruct H as (-> & H). destruct (IH (ref_next auth r e0) H) as (l & ->). exists l. now rewrite app_assoc.
Qed.

(** The events before the last one did not stop the handler. *)
Lemma live_no_stop auth dbg n s h te h' : live_reachable auth dbg n s -> handled s = h ++ te :: h' -> existsb (stops auth) (map snd h) = false.
Proof.
  intros HL E. pose proof (live_hist auth dbg n s HL) as HI. unfold hist_inv in HI.
  assert (G : forall g, handle_all auth MessagingService_new g = (fst (fst (handle_all auth MessagingService_new g)), snd (fst (handle_all auth MessagingService_new g)), Finished) ->
    (exists g', g = h ++ g') -> existsb (stops auth) (map snd h) = false).
  { intros g Hg (g' & ->). assert (K : existsb (stops auth) (map snd (h ++ g')) = false).
    { apply (finished_stops auth (h ++ g') MessagingService_new). now rewrite Hg. }
    rewrite map_app, existsb_app in K. now apply orb_false_iff in K. }
  assert (L : forall g x, handled s = g ++ [x] -> exists g', g = h ++ g').
  { intros g x Eg. rewrite Eg in E. destruct h' as [|y h'] using rev_ind.
    - exists []. apply app_inj_tail in E. destruct E as (-> & _). now rewrite app_nil_r.
    - exists (te :: h'). rewrite app_comm_cons, app_assoc in E. now apply app_inj_tail in E. }
  destruct (hdl s) as [|tx p| |].
  - apply (G (handled s)); [now rewrite HI|eauto].
  - destruct HI as (g & x & m0 & l0 & m & dn & r & o & (E1 & E2 & _) & _). apply (G g); [now rewrite E2|]. eapply L. exact E1.
  - destruct HI as (g & x & m0 & l0 & m & dn & r & o & (E1 & E2 & _)). apply (G g); [now rewrite E2|]. eapply L. exact E1.
  - apply (G (handled s)); [now rewrite HI|eauto].
Qed.

(** A client is let in, then its SUBSCRIBE is handled, then a PUBLISH that its filter selects, and in between nothing
    moved its session or took the subscription away: the message is among what its connection is owed; and when the handler
    is at rest and all that was put for the connection is written, the message is written. *)
Theorem C117_after_suback auth dbg n s hc tc h1 ta h2 tb h3 p a j i ss j' f cid' m k :
  live_reachable auth dbg n s -> handled s = hc ++ tc :: h1 ++ ta :: h2 ++ tb :: h3 ->
  snd tc = Connected p a j -> let_in auth p = Some true ->
  Forall (fun e => moves auth (client_id p) e = false) (map snd h1) ->
  snd ta = ClientPacket (client_id p) (Subscribe i ss) j' -> In f (map sub_topic ss) ->
  Forall (fun e => undoes auth (client_id p) e = false) (map snd h2) ->
  snd tb = ClientPacket cid' (Publish m) k -> ways (levels (topic (message m))) (levels f) <> 0 ->
  In (ServerPacket (Publish m)) (ref_sends auth ref_init (map snd (handled s)) j)
  /\ forall c, nth_error (conns s) j = Some c -> hdl s = HIdle -> (exists ws, c_writer c = WIdle ws) -> c_queue c = [] ->
       In (Publish m) (broker_sent c).
Proof.
  intros HL E Etc HLI H1 Eta Hf H2 Etb HW.
  set (before := hc ++ tc :: h1 ++ ta :: h2).
  assert (E' : handled s = before ++ tb :: h3) by (rewrite E; unfold before; rewrite <- app_assoc; cbn [app]; now rewrite <- app_assoc).
  assert (HI : In (ServerPacket (Publish m)) (ref_sends auth ref_init (map snd (handled s)) j)).
  { rewrite E', map_app. cbn [map].
    destruct (ref_sends_split auth (map snd before) (snd tb) (map snd h3) j ref_init (live_no_stop _ _ _ _ _ _ _ HL E')) as (l & ->).
    apply in_or_app. right. apply in_or_app. left. rewrite Etb. cbn [ref_out].
    set (r := fold_left (ref_next auth) (map snd before) ref_init).
    assert (HC : copies r j (topic (message m)) <> 0).
    { unfold r, before. rewrite map_app. cbn [map]. rewrite map_app. cbn [map]. rewrite fold_left_app. cbn [fold_left].
      rewrite fold_left_app. cbn [fold_left]. set (r0 := fold_left _ (map snd hc) ref_init).
      set (r1 := fold_left _ (map snd h1) _). rewrite Eta.
      assert (P1 : place r1 (client_id p) = Some j).
      { unfold r1. rewrite place_kept_all by exact H1. rewrite Etc. cbn [ref_next]. rewrite HLI, place_cons. now rewrite bytes_eqb_refl. }
      set (r2 := ref_next auth r1 _).
      assert (P2 : place r2 (client_id p) = Some j) by (unfold r2; now rewrite place_kept).
      assert (S2 : In (client_id p, f) (subs r2)).
      { unfold r2. cbn [ref_next subs]. apply in_or_app. left. apply in_map_iff in Hf. destruct Hf as (x & <- & Hx). apply in_map_iff. eauto. }
      assert (P3 : place (fold_left (ref_next auth) (map snd h2) r2) (client_id p) = Some j).
      { rewrite place_kept_all; [exact P2|]. eapply Forall_impl; [|exact H2]. intros e He. unfold undoes in He. now apply orb_false_iff in He. }
      pose proof (sub_kept_all auth (client_id p) f (map snd h2) r2 H2 S2) as S3.
      unfold copies. pose proof (sum_in (fun x => match place (fold_left (ref_next auth) (map snd h2) r2) (fst x) with
                | Some j0 => if Nat.eqb j j0 then ways (levels (topic (message m))) (levels (snd x)) else 0
                | None => 0
                end) _ _ S3) as K. cbn [fst snd] in K. rewrite P3, Nat.eqb_refl in K. lia. }
    destruct (copies r j (topic (message m))); [congruence|]. cbn [repeat]. now left. }
  split; [exact HI|]. intros c Hc HH (ws & EW) EQ.
  pose proof (live_queue auth dbg n s HL j c Hc) as HQ. rewrite EW, EQ, app_nil_r in HQ.
  pose proof (live_hist auth dbg n s HL) as HI2. unfold hist_inv in HI2. rewrite HH in HI2.
  pose proof (proj1 (C86_all_events auth (handled s) j)) as K. rewrite HI2 in K. cbn [fst snd] in K. rewrite <- K, <- put_to_sent, HQ in HI.
  unfold broker_sent. rewrite map_map in HI. apply in_map_iff in HI. destruct HI as (x & Ex & Hx). apply in_map_iff. exists x.
  split; [|exact Hx]. cbn in Ex. now injection Ex.
Qed.

(** Client 0 subscribes and is sent SUBACK; at that moment client 1 has sent its CONNECT and half of a PUBLISH. Then the
    other half comes, and the message reaches client 0. *)
Lemma live_drive_steps auth dbg l : forall s, exists acts, live_steps auth dbg s acts = Some (live_drive auth dbg s l).
Proof.
  induction l as [|a l IH]; intros s; cbn [live_drive]; [now exists []|].
  destruct (live_step auth dbg s a) as [s1|] eqn:E; [|apply IH]. destruct (IH s1) as (l' & H). exists (a :: l'). cbn [live_steps]. now rewrite E.
Qed.

Definition ex_two : list act :=
  map Own ([LReader 0 []; LReader 1 []; LReader 0 []; LReader 1 []] ++ repeat (LHandler 5) 12 ++ [LWriter 0; LWriter 1; LWriter 0; LWriter 1]).

Definition ex_half : bytes := ex_bytes [Publish (ex_message "a" "hello")].

Definition ex_before : list act :=
  [Own (LAccept ex_open (ex_socket []) 1%N); Own (LAccept ex_open (ex_socket []) 2%N);
   Arrive 0 (ex_bytes [ex_client "s" None None]) []; Arrive 1 (ex_bytes [ex_client "p" None None]) []] ++ ex_two
  ++ [Arrive 0 (ex_bytes [Subscribe 1 [{| sub_topic := str "a"; sub_qos := AtMostOnce |}]]) []; Arrive 1 (firstn 4 ex_half) []] ++ ex_two.

Definition ex_then : list act := [Arrive 1 (skipn 4 ex_half) []] ++ ex_two ++ ex_two.

Example C117_case :
  let s1 := live_drive ex_deny true (sys_init 1) ex_before in
  let s2 := live_drive ex_deny true s1 ex_then in
  let ps := [ex_client "s" None None; Subscribe 1 [{| sub_topic := str "a"; sub_qos := AtMostOnce |}]] in
  let qs := [ex_client "p" None None; Publish (ex_message "a" "hello")] in
  live_reachable ex_deny true 1 s1 /\ (exists acts, live_steps ex_deny true s1 acts = Some s2)
  /\ Forall2 sent_as ps (map (fun p => ex_bytes [p]) ps) /\ Forall2 sent_as qs (map (fun p => ex_bytes [p]) qs)
  /\ (exists c, nth_error (conns s1) 0 = Some c /\ arriving (c_rsock c) = concat (map (fun p => ex_bytes [p]) ps) ++ []
        /\ asked (firstn 1 ps) < length (filter not_publish (broker_sent c)))
  /\ (exists d1, nth_error (conns s1) 1 = Some d1 /\ length (arriving (c_rsock d1)) < length (concat (firstn 2 (map (fun p => ex_bytes [p]) qs))))
  /\ (exists d, nth_error (conns s2) 1 = Some d /\ arriving (c_rsock d) = concat (map (fun p => ex_bytes [p]) qs) ++ [])
  /\ 1 < length (events_of 1 (map snd (handled s2)))
  /\ (exists c, nth_error (conns s2) 0 = Some c /\ hdl s2 = HIdle /\ (exists ws, c_writer c = WIdle ws) /\ c_queue c = []
        /\ broker_sent c = [ConnAck {| session_present := false; return_code := Accepted |}; SubAck 1 [SuccessQoS0]; Publish (ex_message "a" "hello")]).
Proof.
  intros s1 s2 ps qs. split; [apply live_drive_reachable|]. split; [apply live_drive_steps|].
  assert (V : forall p, lenN (packet_body p) = b2n (n2b (lenN (packet_body p))) -> (b2n (n2b (lenN (packet_body p))) < 128)%N ->
    packet_ok p -> readable p = true -> sent_as p (ex_bytes [p])).
  { intros p E L H1 H2. split; [exact H1|]. split; [exact H2|]. exists [n2b (lenN (packet_body p))].
    split; [rewrite E at 2; now constructor|]. split; [cbn; lia|]. unfold ex_bytes. cbn [flat_map]. now rewrite app_nil_r. }
  split; [|split].
  - apply Forall2_cons; [|apply Forall2_cons; [|apply Forall2_nil]]; apply V; try reflexivity; repeat split; try discriminate; try (now apply text_lit); try (constructor; [now apply text_lit|constructor]).
  - apply Forall2_cons; [|apply Forall2_cons; [|apply Forall2_nil]]; apply V; try reflexivity; repeat split; try discriminate; try (now apply text_lit); try (constructor; [now apply text_lit|constructor]).
  - split; [eexists; split; [vm_compute; reflexivity|]; split; [vm_compute; reflexivity|apply Nat.ltb_lt; vm_compute; reflexivity]|].
    split; [eexists; split; [vm_compute; reflexivity|apply Nat.ltb_lt; vm_compute; reflexivity]|].
    split; [eexists; split; vm_compute; reflexivity|]. split; [apply Nat.ltb_lt; vm_compute; reflexivity|].
    eexists. split; [vm_compute; reflexivity|]. split; [vm_compute; reflexivity|]. split; [eexists; vm_compute; reflexivity|]. split; vm_compute; reflexivity.
Qed.
