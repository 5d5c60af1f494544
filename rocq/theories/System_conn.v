(** Per-connection invariants: what was read, queued and written. *)
From Verif Require Import Base Base_facts Packets HashMap Subscriptions Messaging Handler Decoder ReadStream Conn
  Encoder Encoder_facts WriteStream WriteStream_facts Spec_broker Handler_facts System System_facts System_hist.

(** ** Reading *)

(** [ps] are the packets successive read_packet calls return, ending in [st']. *)
Inductive reads (dbg : bool) (st : rstream) : list ControlPacket -> rstream -> Prop :=
| ReadsNil : reads dbg st [] st
| ReadsSnoc ps st1 p st2 : reads dbg st ps st1 -> stream_read_packet dbg st1 = ROk p st2 ->
    reads dbg st (ps ++ [p]) st2.

(** A client goes by the id it gave, if it gave one. *)
Definition goes_by (p : ConnectPacket) (cid : ClientId) : Prop := client_id p <> [] -> cid = client_id p.

Lemma chosen_goes_by p uuid : goes_by p (chosen_id p uuid).
Proof. unfold goes_by, chosen_id. destruct (client_id p); [congruence|reflexivity]. Qed.

(** The events the read task makes of the packets it read: the CONNECT as it was sent but for the
    id, and then every packet as it was sent. *)
Definition issued (k : conn) (a : N) (cid : ClientId) (ps : list ControlPacket) : list ClientEvent :=
  match ps with
  | Connect p :: qs =>
    Connected {| version := version p; clean_session := clean_session p; keep_alive_seconds := keep_alive_seconds p;
                 client_id := cid; will_message := will_message p; user_name := user_name p; password := password p |} a k
    :: map (fun q => ClientPacket cid q k) qs
  | _ => []
  end.

Definition events_of (k : conn) (es : list ClientEvent) : list ClientEvent :=
  filter (fun e => opt_is k (event_tx e)) es.

Definition pend (r : reader) : list ClientEvent := match r with RPush e _ _ => [e] | _ => [] end.

Definition opened (c : cstate) (cid : ClientId) : Prop :=
  exists p qs, c_read c = Connect p :: qs /\ goes_by p cid.

Definition reader_ok (dbg : bool) (k : conn) (c : cstate) : Prop :=
  exists rs, reads dbg (connection_stream (c_rsock c)) (c_read c) rs /\
    match c_reader c with
    | RFirst rs' => rs' = rs /\ c_read c = []
    | RPush e cid rs' => rs' = rs /\ opened c cid /\ event_tx e = Some k
    | RLoop cid rs' => rs' = rs /\ opened c cid
    | RDone => True
    end.

Lemma reader_ok_same dbg k c c' : c_reader c' = c_reader c -> c_read c' = c_read c -> c_rsock c' = c_rsock c ->
  reader_ok dbg k c -> reader_ok dbg k c'.
Proof. intros H1 H2 H3. unfold reader_ok, opened. now rewrite H1, H2, H3. Qed.

Theorem reader_invariant auth dbg n s : reachable auth dbg n s -> each (reader_ok dbg) s.
Proof.
  apply (reachable_trans_ind auth dbg n (each (reader_ok dbg))).
  - intros [|k] c; discriminate.
  - clear s. intros s s' _ HI T.
    destruct T; try exact HI.
    + intros k c. cbn [conns set_conns]. rewrite nth_error_snoc. destruct (Nat.eqb k _); [|apply HI].
      intros [= <-]. exists (connection_stream r). split; [apply ReadsNil|]. split; reflexivity.
    + apply each_update; [exact HI|]. destruct (HI k c H) as (rs0 & Hr & Hd). rewrite H0 in Hd. destruct Hd as (-> & E0).
      exists rs'. cbn [c_rsock c_read c_reader set_reader set_read]. split; [eapply ReadsSnoc; eauto|].
      split; [reflexivity|]. split; [|reflexivity]. exists p, []. cbn [c_read]. rewrite E0. split; [reflexivity|apply chosen_goes_by].
    + apply each_update; [exact HI|]. destruct (HI k c H) as (rs0 & Hr & Hd). rewrite H0 in Hd. destruct Hd as (-> & E0).
      exists rs'. cbn [c_rsock c_read c_reader set_reader set_read]. split; [eapply ReadsSnoc; eauto|exact I].
    + apply each_update; [exact HI|]. destruct (HI k c H) as (rs0 & Hr & Hd).
      exists rs0. split; [exact Hr|exact I].
    + intros k' c' Hk'. revert Hk'. change (nth_error (conns (set_conn k (set_reader (RLoop cid rs) c) s)) k' = Some c' -> reader_ok dbg k' c').
      apply each_update; [exact HI|]. destruct (HI k c H) as (rs0 & Hr & Hd). rewrite H0 in Hd. destruct Hd as (-> & Ho & _).
      exists rs0. split; [exact Hr|]. split; [reflexivity|exact Ho].
    + apply each_update; [exact HI|]. destruct (HI k c H) as (rs0 & Hr & Hd). rewrite H0 in Hd. destruct Hd as (-> & Ho & _).
      exists rs0. split; [exact Hr|]. split; [reflexivity|exact Ho].
    + apply each_update; [exact HI|]. destruct (HI k c H) as (rs0 & Hr & Hd). rewrite H0 in Hd. destruct Hd as (-> & p0 & qs & E & Hu).
      exists rs'. cbn [c_rsock c_read c_reader set_reader set_read]. split; [eapply ReadsSnoc; eauto|].
      split; [reflexivity|]. split; [|reflexivity]. exists p0, (qs ++ [p]). cbn [c_read set_reader set_read].
      rewrite E. split; [reflexivity|exact Hu].
    + apply each_update; [exact HI|]. apply (reader_ok_same dbg k c); auto.
    + apply each_update; [exact HI|]. apply (reader_ok_same dbg k c); auto.
    + apply each_update; [exact HI|]. apply (reader_ok_same dbg k c); auto.
    + apply each_update; [exact HI|]. apply (reader_ok_same dbg k c); auto.
    + apply each_update; [exact HI|]. apply (reader_ok_same dbg k c); auto.
    + intros k' c' Hk'. revert Hk'. change (nth_error (conns (set_conn to (set_queue (c_queue c ++ [(tx, e)]) c) s)) k' = Some c' -> reader_ok dbg k' c').
      apply each_update; [exact HI|]. apply (reader_ok_same dbg to c); auto.
Qed.

(** The handler's receiver and the service's sender live as long as the handler. *)
Lemma dead_invariant auth dbg n s : reachable auth dbg n s ->
  (handler_alive (hdl s) = false -> events s = []) /\ (handler_alive (hdl s) = true -> service_running s = true).
Proof.
  apply (reachable_trans_ind auth dbg n (fun s =>
    (handler_alive (hdl s) = false -> events s = []) /\ (handler_alive (hdl s) = true -> service_running s = true))).
  - split; reflexivity || discriminate.
  - clear s. intros s s' _ (H1 & H2) T.
    destruct T; try (split; [exact H1|exact H2]);
      try (match goal with H : hdl s = _ |- _ => rewrite H in H1, H2 end);
      cbn [hdl events service_running set_hdl set_events set_conn set_conns set_handled set_svc set_log
           panic_handler set_service_running handler_alive] in *;
      try (split; [discriminate || reflexivity|auto || discriminate]); split; auto; congruence.
Qed.

(** Which of a connection's events are handled, queued or about to be queued. *)
Definition flow_ok (s : sys) (k : conn) : Prop :=
  match nth_error (conns s) k with
  | None => events_of k (map snd (handled s) ++ events s) = []
  | Some c =>
    exists cid,
      match c_reader c with RPush _ cid' _ | RLoop cid' _ => cid' = cid | _ => True end
      /\ (forall p qs, c_read c = Connect p :: qs -> goes_by p cid)
      /\ if handler_alive (hdl s)
         then events_of k (map snd (handled s) ++ events s) ++ pend (c_reader c) = issued k (c_addr c) cid (c_read c)
         else exists rest, events_of k (map snd (handled s)) ++ rest = issued k (c_addr c) cid (c_read c)
  end.

Lemma events_of_app k l1 l2 : events_of k (l1 ++ l2) = events_of k l1 ++ events_of k l2.
Proof. apply filter_app. Qed.

Lemma events_of_one k e : events_of k [e] = if opt_is k (event_tx e) then [e] else [].
Proof. reflexivity. Qed.

Lemma flow_same s s' k :
  conns s' = conns s -> handled s' = handled s -> events s' = events s -> handler_alive (hdl s') = handler_alive (hdl s) ->
  flow_ok s k -> flow_ok s' k.
Proof. intros H1 H2 H3 H4. unfold flow_ok. now rewrite H1, H2, H3, H4. Qed.

Lemma flow_conn s k0 c c' k : nth_error (conns s) k0 = Some c ->
  c_reader c' = c_reader c -> c_read c' = c_read c -> c_addr c' = c_addr c ->
  flow_ok s k -> flow_ok (set_conn k0 c' s) k.
Proof.
  intros Hk H1 H2 H3. unfold flow_ok. cbn [conns set_conn set_conns handled events hdl]. rewrite nth_update.
  destruct (Nat.eqb_spec k k0) as [->|_]; [|auto]. rewrite Hk, H1, H2, H3. auto.
Qed.

(** The handler goes away. *)
Lemma flow_gone s s' k : handler_alive (hdl s) = true -> handler_alive (hdl s') = false ->
  conns s' = conns s -> handled s' = handled s -> events s' = [] -> flow_ok s k -> flow_ok s' k.
Proof.
  intros Ha Ha' H1 H2 H3. unfold flow_ok. rewrite H1, H2, H3, Ha, Ha'. destruct (nth_error (conns s) k) as [c|].
  - intros (cid & Hc & Hi & E). exists cid. split; [exact Hc|]. split; [exact Hi|].
    rewrite events_of_app, <- app_assoc in E. eauto.
  - rewrite events_of_app, app_nil_r. intros E. now destruct (app_eq_nil _ _ E).
Qed.

Lemma issued_snoc k a cid p qs q : issued k a cid ((Connect p :: qs) ++ [q])
  = issued k a cid (Connect p :: qs) ++ [ClientPacket cid q k].
Proof. cbn [app issued]. now rewrite map_app. Qed.

Theorem flow_invariant auth dbg n s : reachable auth dbg n s -> forall k, flow_ok s k.
Proof.
  apply (reachable_trans_ind auth dbg n (fun s => forall k, flow_ok s k)).
  - intros k. unfold flow_ok. cbn. now destruct k.
  - clear s. intros s s' HR HI T k0. specialize (HI k0).
    pose proof (reader_invariant auth dbg n s HR) as HRD.
    destruct T.
    + (* accept *)
      unfold flow_ok in *. cbn [conns set_conns handled events hdl]. rewrite nth_error_snoc.
      destruct (Nat.eqb_spec k0 (length (conns s))) as [->|_]; [|exact HI].
      rewrite (proj2 (nth_error_None (conns s) (length (conns s))) (le_n _)) in HI.
      exists []. cbn [c_reader new_conn c_read c_addr pend issued]. split; [exact I|]. split; [intros p qs; discriminate|].
      rewrite app_nil_r. destruct (handler_alive (hdl s)); [exact HI|].
      exists []. rewrite app_nil_r. rewrite events_of_app in HI. now destruct (app_eq_nil _ _ HI).
    + (* CONNECT *)
      destruct (HRD k c H) as (rs0 & _ & Hd). rewrite H0 in Hd. destruct Hd as (_ & E0).
      unfold flow_ok in *. cbn [conns set_conn set_conns handled events hdl]. rewrite nth_update.
      destruct (Nat.eqb_spec k0 k) as [->|_]; [|exact HI]. rewrite H in *. destruct HI as (cid & _ & _ & HI).
      exists (chosen_id p uuid). cbn [c_reader set_reader set_read c_read c_addr pend]. split; [reflexivity|].
      rewrite E0, H0 in *. cbn [app issued pend] in *. split.
      { intros p1 qs1 [= <- _]. apply chosen_goes_by. }
      destruct (handler_alive (hdl s)).
      * rewrite app_nil_r in HI. rewrite HI. reflexivity.
      * destruct HI as (rest & HI). destruct (app_eq_nil _ _ HI) as (-> & _). eexists. reflexivity.
    + (* another first packet *)
      destruct (HRD k c H) as (rs0 & _ & Hd). rewrite H0 in Hd. destruct Hd as (_ & E0).
      unfold flow_ok in *. cbn [conns set_conn set_conns handled events hdl]. rewrite nth_update.
      destruct (Nat.eqb_spec k0 k) as [->|_]; [|exact HI]. rewrite H in *. destruct HI as (cid & _ & _ & HI).
      exists cid. cbn [c_reader set_reader set_read c_read c_addr pend]. split; [exact I|].
      rewrite E0, H0 in *. cbn [app pend] in *. split.
      { intros p1 qs1 [= -> _]. exfalso. now apply (H2 p1). }
      assert (E : issued k (c_addr c) cid [p] = []) by (destruct p; try reflexivity; exfalso; eapply H2; reflexivity).
      rewrite E. exact HI.
    + (* end of reading *)
      unfold flow_ok in *. cbn [conns set_conn set_conns handled events hdl]. rewrite nth_update.
      destruct (Nat.eqb_spec k0 k) as [->|_]; [|exact HI]. rewrite H in *. destruct HI as (cid & _ & Hi & HI).
      exists cid. cbn [c_reader set_reader c_read c_addr pend]. split; [exact I|]. split; [exact Hi|].
      replace (pend (c_reader c)) with (@nil ClientEvent) in HI; [exact HI|].
      destruct H0 as [->|(cid' & ->)]; reflexivity.
    + (* push *)
      destruct (HRD k c H) as (rs0 & _ & Hd). rewrite H0 in Hd. destruct Hd as (_ & _ & Ht).
      unfold flow_ok in *. cbn [conns set_conn set_conns handled events hdl set_events]. rewrite nth_update.
      destruct (Nat.eqb_spec k0 k) as [->|Hn].
      * rewrite H in *. destruct HI as (cid0 & Hc & Hi & HI). rewrite H0 in *. subst cid0.
        exists cid. cbn [c_reader set_reader c_read c_addr pend]. split; [reflexivity|]. split; [exact Hi|].
        rewrite H1 in *. rewrite app_assoc, events_of_app, events_of_one, Ht. cbn [opt_is].
        rewrite Nat.eqb_refl, app_nil_r. exact HI.
      * rewrite app_assoc, events_of_app, events_of_one, Ht. cbn [opt_is].
        apply Nat.eqb_neq in Hn. rewrite Hn, app_nil_r. exact HI.
    + (* push to nobody *)
      unfold flow_ok in *. cbn [conns set_conn set_conns handled events hdl]. rewrite nth_update.
      destruct (Nat.eqb_spec k0 k) as [->|_]; [|exact HI]. rewrite H in *. destruct HI as (cid0 & Hc & Hi & HI).
      rewrite H0 in *. subst cid0. exists cid. cbn [c_reader set_reader c_read c_addr pend]. split; [reflexivity|].
      split; [exact Hi|]. rewrite H1 in *. exact HI.
    + (* next packet *)
      destruct (HRD k c H) as (rs0 & _ & Hd). rewrite H0 in Hd. destruct Hd as (_ & p0 & qs & E & Hu).
      unfold flow_ok in *. cbn [conns set_conn set_conns handled events hdl]. rewrite nth_update.
      destruct (Nat.eqb_spec k0 k) as [->|_]; [|exact HI]. rewrite H in *. destruct HI as (cid0 & Hc & Hi & HI).
      rewrite H0 in *. subst cid0. exists cid. cbn [c_reader set_reader set_read c_read c_addr pend] in *.
      split; [reflexivity|]. rewrite E in *. split.
      { intros p1 qs1 [= <- _]. exact Hu. }
      rewrite issued_snoc. destruct (handler_alive (hdl s)).
      * rewrite app_nil_r in HI. now rewrite HI.
      * destruct HI as (rest & HI). exists (rest ++ [ClientPacket cid p k]). now rewrite app_assoc, HI.
    + eapply flow_conn; eauto.
    + eapply flow_conn; eauto.
    + eapply flow_conn; eauto.
    + eapply flow_conn; eauto.
    + eapply flow_conn; eauto.
    + (* event *)
      unfold flow_ok in *. cbn [conns handled events hdl set_hdl set_handled set_events handler_alive].
      rewrite H in HI. cbn [handler_alive] in HI. rewrite H0 in HI.
      rewrite map_app, <- app_assoc. cbn [map snd app]. exact HI.
    + eapply flow_same; [..|exact HI]; try reflexivity. cbn [hdl set_hdl]. now rewrite H.
    + eapply flow_gone; [..|exact HI]; try reflexivity. now rewrite H.
    + eapply flow_same; [..|exact HI]; try reflexivity. cbn [hdl set_hdl]. now rewrite H.
    + assert (K : flow_ok (set_conn to (set_queue (c_queue c ++ [(tx, e)]) c) s) k0) by (eapply flow_conn; eauto).
      eapply flow_same; [..|exact K]; try reflexivity. cbn [hdl set_hdl set_conn set_conns]. now rewrite H.
    + eapply flow_gone; [..|exact HI]; try reflexivity. now rewrite H.
    + eapply flow_gone; [..|exact HI]; try reflexivity. now rewrite H.
    + exact HI.
    + exact HI.
    + exact HI.
    + exact HI.
Qed.
