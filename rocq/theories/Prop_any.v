(** Property C92: which orders of the peers' packets, and so which outcomes, are possible. *)
From Verif Require Import Base Base_facts Packets HashMap Subscriptions Messaging Handler Decoder ReadStream ReadStream_facts
  Plain_facts Conn Conn_facts Encoder Encoder_facts WriteStream WriteStream_facts Spec_wire Spec_subs Spec_broker Spec_ref
  Subscriptions_facts Handler_facts System System_facts
  System_hist System_conn System_queue System_first System_progress System_exit System_rest
  Prop_subs Prop_stream Prop_broker Prop_system Prop_rest Prop_mqtt Prop_ref Prop_stop.
Open Scope nat_scope.

(** A peer: what it sends, how its socket takes what it is sent, its address. *)
Definition peer : Type := rsock * wsock * N.

Definition peers (s : sys) : list peer := map (fun c => (c_rsock c, c_wsock c, c_addr c)) (conns s).

(** [es] is an interleaving of the peers' packets that keeps the order of each peer's own. *)
Definition interleaving (dbg : bool) (ps : list peer) (es : list ClientEvent) : Prop :=
  (forall e, In e es -> exists k, event_tx e = Some k /\ k < length ps)
  /\ forall k r w a, nth_error ps k = Some (r, w, a) ->
       let sends := fst (read_all dbg (connection_stream r)) in
       exists cid, (forall p qs, sends = Connect p :: qs -> goes_by p cid) /\ events_of k es = issued k a cid sends.

(** No connection is sent 32 or more events after a close request. *)
Definition roomy (l : list ServerEvent) : Prop :=
  forall l1 l2, l = l1 ++ ServerDisconnect :: l2 -> length l2 < 32.

Definition fits (auth : bytes -> bytes -> bool) (es : list ClientEvent) : Prop :=
  existsb (stops auth) es = false /\ forall k, roomy (ref_sends auth ref_init es k).

Lemma roomy_prefix l r : roomy (l ++ r) -> roomy l.
Proof.
  intros H l1 l2 ->. specialize (H l1 (l2 ++ r)). rewrite <- app_assoc in H. specialize (H eq_refl).
  rewrite app_length in H. lia.
Qed.

Lemma ref_sends_app auth k es2 : forall es1 r, exists rest, ref_sends auth r (es1 ++ es2) k = ref_sends auth r es1 k ++ rest.
Proof.
  intros es1. revert es2. induction es1 as [|e es1 IH]; intros es2 r; cbn [app ref_sends].
  - eauto.
  - destruct (stops auth e).
    + exists []. now rewrite !app_nil_r.
    + destruct (IH es2 (ref_next auth r e)) as (rest & E). exists rest. now rewrite E, app_assoc.
Qed.

Lemma fits_prefix auth es1 es2 : fits auth (es1 ++ es2) -> fits auth es1.
Proof.
  intros (H1 & H2). rewrite existsb_app in H1. apply orb_false_iff in H1. split; [apply H1|].
  intros k. destruct (ref_sends_app auth k es2 es1 ref_init) as (rest & E). specialize (H2 k). rewrite E in H2.
  exact (roomy_prefix _ _ H2).
Qed.

(** ** Every outcome is one of these *)

(** Whoever was told to close got at most 31 more events: the queue has 32 places. *)
Theorem after_close auth dbg n s : reachable auth dbg n s -> forall k, roomy (map snd (put_to k (log s))).
Proof.
  intros HR0. revert s HR0. apply (reachable_trans_ind auth dbg n (fun s => forall k, roomy (map snd (put_to k (log s))))).
  - intros k l1 l2. cbn. destruct l1; discriminate.
  - intros s s' HR HI T k. destruct T; try exact (HI k).
    cbn [log set_hdl set_log set_conn set_conns]. rewrite put_to_app, map_app. cbn [put_to flat_map fst snd].
    destruct (Nat.eqb_spec k to) as [->|_]; [|cbn [app map]; rewrite app_nil_r; exact (HI k)].
    pose proof (queue_invariant auth dbg n s HR to) as HQ. unfold queue_ok in HQ. rewrite H0 in HQ. destruct HQ as (_ & HQ).
    assert (Q : put_to to (log s) = map as_sent (c_sent c) ++ c_queue c).
    { destruct (c_writer c) as [ws|p0 ws|ws]; auto. exfalso. eapply H1. reflexivity. }
    rewrite Q, map_app, <- app_assoc. cbn [app map snd].
    assert (M : map snd (map as_sent (c_sent c)) = map ServerPacket (map snd (c_sent c))).
    { rewrite !map_map. reflexivity. }
    rewrite M. intros l1 l2 E.
    assert (L : length l2 < length (map snd (c_queue c) ++ [e])).
    { revert l1 E. generalize (map snd (c_sent c)). intros ps. induction ps as [|p0 ps IH]; intros l1 E; cbn [map app] in E.
      - rewrite E, app_length. cbn [length]. lia.
      - destruct l1 as [|x l1]; [discriminate|]. injection E as _ E. exact (IH l1 E). }
    rewrite app_length, map_length in L. cbn [length] in L. unfold channel_size in *. lia.
Qed.

Lemma has_tx auth dbg n s : reachable auth dbg n s ->
  (forall e, In e (map snd (handled s) ++ events s) -> event_tx e <> None)
  /\ each (fun _ c => forall e, In e (pend (c_reader c)) -> event_tx e <> None) s.
Proof.
  revert s. apply (reachable_trans_ind auth dbg n (fun s => (forall e, In e (map snd (handled s) ++ events s) -> event_tx e <> None)
    /\ each (fun _ c => forall e, In e (pend (c_reader c)) -> event_tx e <> None) s)).
  - split; [intros e []|]. intros [|k] c; discriminate.
  - intros s s' HR (H0 & HI) T. pose proof (reader_invariant auth dbg n s HR) as HRD.
    assert (U : forall k c c', nth_error (conns s) k = Some c -> (forall e, In e (pend (c_reader c')) -> event_tx e <> None) ->
                each (fun _ c => forall e, In e (pend (c_reader c)) -> event_tx e <> None) (set_conn k c' s)).
    { intros k c c' Hk H. apply each_update; [exact HI|exact H]. }
    assert (V : forall k c c', nth_error (conns s) k = Some c -> c_reader c' = c_reader c ->
                each (fun _ c => forall e, In e (pend (c_reader c)) -> event_tx e <> None) (set_conn k c' s)).
    { intros k c c' Hk H. apply (U k c c' Hk). rewrite H. exact (HI k c Hk). }
    destruct T; try (split; [exact H0|exact HI]).
    + split; [exact H0|]. intros k c. cbn [conns set_conns]. rewrite nth_error_snoc. destruct (Nat.eqb k _); [|apply HI].
      intros [= <-] e [].
    + split; [exact H0|]. eapply U; [eassumption|]. cbn. intros e [<-|[]]. discriminate.
    + split; [exact H0|]. eapply U; [eassumption|]. intros e [].
    + split; [exact H0|]. eapply U; [eassumption|]. intros e [].
    + split; [|exact (U k c (set_reader (RLoop cid rs) c) H (fun e (F : False) => match F with end))].
      cbn [handled events set_events set_conn set_conns]. intros x Hx. rewrite app_assoc in Hx. apply in_app_iff in Hx.
      destruct Hx as [Hx|[<-|[]]]; [now apply H0|]. apply (HI k c H). rewrite H1. now left.
    + split; [exact H0|]. eapply U; [eassumption|]. intros x [].
    + split; [exact H0|]. eapply U; [eassumption|]. cbn. intros e [<-|[]]. discriminate.
    + split; [exact H0|]. eapply V; [eassumption|reflexivity].
    + split; [exact H0|]. eapply V; [eassumption|reflexivity].
    + split; [exact H0|]. eapply V; [eassumption|reflexivity].
    + split; [exact H0|]. eapply V; [eassumption|reflexivity].
    + split; [exact H0|]. eapply V; [eassumption|reflexivity].
    + split; [|exact HI]. cbn [handled events set_hdl set_handled set_events]. rewrite map_app, <- app_assoc. cbn [map snd app].
      rewrite <- H1. exact H0.
    + split; [|exact HI]. cbn [handled events panic_handler set_hdl set_events]. intros x Hx. apply H0. rewrite app_nil_r in Hx.
      apply in_or_app. now left.
    + split; [exact H0|]. exact (V to c (set_queue (c_queue c ++ [(tx, e)]) c) H1 eq_refl).
    + split; [|exact HI]. cbn [handled events panic_handler set_hdl set_events]. intros x Hx. apply H0. rewrite app_nil_r in Hx.
      apply in_or_app. now left.
    + split; [|exact HI]. cbn [handled events set_hdl set_events]. intros x Hx. apply H0. rewrite app_nil_r in Hx.
      apply in_or_app. now left.
Qed.

Lemma in_events_of e k es : In e es -> event_tx e = Some k -> In e (events_of k es).
Proof. intros H E. apply filter_In. split; [exact H|]. rewrite E. apply Nat.eqb_refl. Qed.

Lemma nth_peers s k r w a : nth_error (peers s) k = Some (r, w, a) ->
  exists c, nth_error (conns s) k = Some c /\ c_rsock c = r /\ c_wsock c = w /\ c_addr c = a.
Proof.
  unfold peers. rewrite nth_error_map. destruct (nth_error (conns s) k) as [c|]; [|discriminate].
  cbn. intros [= <- <- <-]. eauto.
Qed.

Theorem outcome_possible auth dbg n s : quiet auth dbg n s ->
  interleaving dbg (peers s) (map snd (handled s)) /\ fits auth (map snd (handled s)).
Proof.
  intros (HR & HS & HB & HA). destruct (rest_settled auth dbg n s HR HS HB HA) as (HH & HC). split.
  - split.
    + intros e He. destruct (event_tx e) as [k|] eqn:ET.
      * exists k. split; [reflexivity|]. unfold peers. rewrite map_length. apply nth_error_Some. intros HN.
        pose proof (flow_invariant auth dbg n s HR k) as HF. unfold flow_ok in HF. rewrite HN in HF.
        assert (K : In e (events_of k (map snd (handled s) ++ events s))).
        { apply in_events_of; [apply in_or_app; now left|exact ET]. }
        rewrite HF in K. destruct K.
      * exfalso. destruct (has_tx auth dbg n s HR) as (H & _). apply (H e); [apply in_or_app; now left|exact ET].
    + intros k r w a Hp. destruct (nth_peers s k r w a Hp) as (c & Hk & <- & <- & <-). exact (proj1 (HC k c Hk)).
  - split.
    + apply (finished_stops auth (handled s) MessagingService_new). now rewrite HH.
    + intros k. rewrite <- (proj1 (C86_all_events auth (handled s) k)), HH. cbn [fst snd]. rewrite <- put_to_sent.
      exact (after_close auth dbg n s HR k).
Qed.

(** ** Each of these is an outcome *)

(** The readers' side of a connection. *)
Definition front (c : cstate) : peer * reader * list ControlPacket := ((c_rsock c, c_wsock c, c_addr c), c_reader c, c_read c).

(** Only the handler and writers have moved, and nobody was closed. *)
Record calm (s s' : sys) : Prop := {
  calm_front : map front (conns s') = map front (conns s);
  calm_events : events s' = events s;
  calm_main : main s' = main s;
  calm_ctrl : ctrl_c s' = ctrl_c s;
  calm_handled : handled s' = handled s;
  calm_open : each (fun _ c => forall ws, c_writer c <> WClosed ws) s' }.

Lemma calm_trans s1 s2 s3 : calm s1 s2 -> calm s2 s3 -> calm s1 s3.
Proof. intros [A1 A2 A3 A4 A5 A6] [B1 B2 B3 B4 B5 B6]. constructor; try congruence. exact B6. Qed.

Lemma map_update {A B} (f : A -> B) k x l y : nth_error l k = Some y -> f x = f y -> map f (update k x l) = map f l.
Proof.
  revert k. induction l as [|z l IH]; intros [|k]; cbn [nth_error update map]; try reflexivity.
  - intros [= ->] ->. reflexivity.
  - intros H E. now rewrite (IH k H E).
Qed.

Lemma calm_conn s k c c' : nth_error (conns s) k = Some c -> front c' = front c -> (forall ws, c_writer c' <> WClosed ws) ->
  each (fun _ c => forall ws, c_writer c <> WClosed ws) s -> calm s (set_conn k c' s).
Proof.
  intros Hk Hf Hw Ho. constructor; try reflexivity.
  - cbn [conns set_conn set_conns]. now apply (map_update front k c' (conns s) c).
  - now apply each_update.
Qed.

Definition unblocked (s : sys) : Prop := forall k c, nth_error (conns s) k = Some c -> ~ blocks (c_wsock c).

Lemma front_unblocked s s' : map front (conns s') = map front (conns s) -> unblocked s -> unblocked s'.
Proof.
  intros E H k c Hk. assert (F : nth_error (map front (conns s)) k = Some (front c)).
  { rewrite <- E, nth_error_map, Hk. reflexivity. }
  rewrite nth_error_map in F. destruct (nth_error (conns s) k) as [c0|] eqn:Hc; [|discriminate]. cbn in F.
  injection F as _ E2 _ _ _. rewrite <- E2. exact (H k c0 Hc).
Qed.

(** A writer makes room without closing. *)
Lemma room_for auth dbg n s to e tx p c : reachable auth dbg n s -> running s = true -> unblocked s ->
  each (fun _ c => forall ws, c_writer c <> WClosed ws) s -> hdl s = HBusy tx (Send to e p) ->
  roomy (ref_sends auth ref_init (map snd (handled s)) to) ->
  nth_error (conns s) to = Some c ->
  exists ls s' c', steps auth dbg s ls = Some s' /\ calm s s' /\ hdl s' = hdl s /\ svc s' = svc s
    /\ nth_error (conns s') to = Some c' /\ (length (c_queue c') < channel_size).
Proof.
  intros HR Hrun HB HO Hh HRm Hc.
  destruct (Nat.lt_ge_cases (length (c_queue c)) channel_size) as [L|L].
  { exists [], s, c. split; [reflexivity|]. split; [constructor; auto|auto]. }
  assert (L' : length (c_queue c) = channel_size).
  { destruct (bounded_inv auth dbg n s HR) as (_ & BQ). specialize (BQ to c Hc). cbn beta in BQ. lia. }
  (* the head is a packet *)
  assert (HD : exists f q t, c_queue c = (f, ServerPacket q) :: t).
  { destruct (c_queue c) as [|[f [q|]] t] eqn:EQ; [discriminate|eauto|exfalso].
    pose proof (queue_invariant auth dbg n s HR to) as HQ. unfold queue_ok in HQ. rewrite Hc in HQ. destruct HQ as (_ & HQ).
    assert (Q : put_to to (log s) = map as_sent (c_sent c) ++ c_queue c).
    { specialize (HO to c Hc). cbn beta in HO. destruct (c_writer c) as [ws|p0 ws|ws]; auto. exfalso. eapply HO. reflexivity. }
    pose proof (hist_invariant auth dbg n s HR) as HI. unfold hist_inv in HI. rewrite Hh in HI.
    destruct HI as (h & te & m0 & l0 & m & done & r & o & (Eh & Ha & He & Hl) & _ & Hx).
    cbn [exec] in Hx. destruct (exec p (svc s)) as [[m' r'] o']. injection Hx as <- <- <-.
    assert (S : sent_to to (snd (fst (handle_all auth MessagingService_new (handled s))))
                = map snd (put_to to (log s)) ++ e :: sent_to to r').
    { rewrite Eh, handle_all_snoc, Ha, He. cbn [fst snd]. rewrite app_assoc, <- Hl, sent_to_app, put_to_sent.
      unfold sent_to at 2. cbn [filter fst]. rewrite Nat.eqb_refl. reflexivity. }
    rewrite (proj1 (C86_all_events auth (handled s) to)) in S. rewrite S, Q, EQ, map_app, <- app_assoc in HRm.
    cbn [map snd app] in HRm. specialize (HRm _ _ eq_refl). rewrite app_length, map_length in HRm.
    cbn [length] in HRm, L'. unfold channel_size in L'. lia. }
  destruct HD as (f & q & t & EQ).
  assert (TK : forall s1 c1 ws, running s1 = true -> nth_error (conns s1) to = Some c1 -> c_writer c1 = WIdle ws -> c_queue c1 = c_queue c ->
    each (fun _ c => forall ws, c_writer c <> WClosed ws) s1 ->
    exists s2 c2, step auth dbg s1 (LWriter to) = Some s2 /\ calm s1 s2 /\ hdl s2 = hdl s1 /\ svc s2 = svc s1
      /\ nth_error (conns s2) to = Some c2 /\ length (c_queue c2) < channel_size).
  { intros s1 c1 ws Hr1 Hc1 Hw1 Hq1 Ho1.
    exists (set_conn to (set_writer (WBusy q ws) (set_queue t (set_sent (c_sent c1 ++ [(f, q)]) c1))) s1),
           (set_writer (WBusy q ws) (set_queue t (set_sent (c_sent c1 ++ [(f, q)]) c1))).
    split; [unfold step; rewrite Hr1; unfold step_writer; rewrite Hc1, Hw1, Hq1, EQ; reflexivity|].
    split; [eapply calm_conn; eauto; discriminate|]. split; [reflexivity|]. split; [reflexivity|].
    split; [cbn [conns set_conn set_conns]; now rewrite nth_update, Nat.eqb_refl, Hc1|].
    cbn [c_queue set_writer set_queue]. rewrite EQ in L'. cbn [length] in L'. lia. }
  pose proof (HO to c Hc) as HOc. cbn beta in HOc.
  destruct (c_writer c) as [ws|p0 ws|ws] eqn:EW.
  - destruct (TK s c ws Hrun Hc EW eq_refl HO) as (s2 & c2 & H1 & H2 & H3 & H4 & H5 & H6).
    exists [LWriter to], s2, c2. cbn [steps]. rewrite H1. auto 10.
  - pose proof (busy_blocked auth dbg n s to c p0 ws HR Hc EW) as K. specialize (HB to c Hc).
    assert (W : exists ws', step auth dbg s (LWriter to) = Some (set_conn to (set_writer (WIdle ws') c) s)).
    { unfold step. rewrite Hrun. unfold step_writer. rewrite Hc, EW. destruct (write_packet p0 ws) as [ws'|ws'| | |]; try contradiction; eauto. }
    destruct W as (ws' & W). set (s1 := set_conn to (set_writer (WIdle ws') c) s) in *.
    assert (C1 : calm s s1) by (eapply calm_conn; eauto; discriminate).
    destruct (TK s1 (set_writer (WIdle ws') c) ws') as (s2 & c2 & H1 & H2 & H3 & H4 & H5 & H6).
    + exact Hrun.
    + subst s1. cbn [conns set_conn set_conns]. now rewrite nth_update, Nat.eqb_refl, Hc.
    + reflexivity.
    + reflexivity.
    + apply C1.
    + exists [LWriter to; LWriter to], s2, c2. cbn [steps]. rewrite W, H1. split; [reflexivity|].
      split; [eapply calm_trans; eauto|]. auto 10.
  - exfalso. eapply HOc. reflexivity.
Qed.

(** The handler finishes an event, and no writer closes. *)
Lemma finish auth dbg n p : forall s tx, reachable auth dbg n s -> running s = true -> unblocked s ->
  each (fun _ c => forall ws, c_writer c <> WClosed ws) s -> hdl s = HBusy tx p -> fits auth (map snd (handled s)) ->
  exists ls s', steps auth dbg s ls = Some s' /\ calm s s' /\ hdl s' = HIdle.
Proof.
  induction p as [| |R op f IH|to e p IH]; intros s tx HR Hrun HB HO Hh HF.
  - exists [LHandler 0], (set_hdl HIdle s). cbn [steps]. unfold step. rewrite Hrun. unfold step_handler. rewrite Hh.
    split; [reflexivity|]. split; [constructor; auto|reflexivity].
  - exfalso. destruct HF as (HF & _). pose proof (proj2 (finished_stops auth (handled s) MessagingService_new) HF) as K.
    pose proof (hist_invariant auth dbg n s HR) as HI. unfold hist_inv in HI. rewrite Hh in HI.
    destruct HI as (h & te & m0 & l0 & m & done & r & o & (Eh & Ha & He & Hl) & _ & Hx).
    cbn [exec] in Hx. injection Hx as <- <- <-. rewrite Eh, handle_all_snoc, Ha, He in K. discriminate.
  - set (s1 := set_hdl (HBusy tx (f (snd (serve (svc s) op)))) (set_svc (fst (serve (svc s) op)) s)).
    assert (HS : step auth dbg s (LHandler 0) = Some s1).
    { unfold step. rewrite Hrun. unfold step_handler. rewrite Hh. subst s1. now destruct (serve (svc s) op). }
    destruct (IH (snd (serve (svc s) op)) s1 tx) as (ls & s' & H1 & H2 & H3); auto.
    { eapply reachable_step; eauto. }
    exists (LHandler 0 :: ls), s'. cbn [steps]. rewrite HS. split; [exact H1|]. split; [|exact H3].
    eapply calm_trans; [|exact H2]. constructor; auto.
  - assert (HT : exists c, nth_error (conns s) to = Some c).
    { pose proof (target_exists auth dbg n s tx to e p HR Hh). destruct (nth_error (conns s) to); [eauto|congruence]. }
    destruct HT as (c0 & Hc0).
    destruct (room_for auth dbg n s to e tx p c0 HR Hrun HB HO Hh (proj2 HF to) Hc0) as (ls1 & s1 & c & S1 & C1 & H1 & V1 & Hc & HL).
    assert (Hrun1 : running s1 = true) by (unfold running; rewrite (calm_main s s1 C1); exact Hrun).
    pose proof (calm_open s s1 C1) as HO1.
    set (s2 := set_hdl (HBusy tx p) (set_log (log s1 ++ [(tx, to, e)]) (set_conn to (set_queue (c_queue c ++ [(tx, e)]) c) s1))).
    assert (HS : step auth dbg s1 (LHandler 0) = Some s2).
    { unfold step. rewrite Hrun1. unfold step_handler. rewrite H1, Hh, Hc. apply Nat.ltb_lt in HL. rewrite HL.
      specialize (HO1 to c Hc). cbn beta in HO1. destruct (c_writer c) eqn:EW; try reflexivity. exfalso. eapply HO1. reflexivity. }
    assert (HR1 : reachable auth dbg n s1) by (eapply reachable_steps; eauto).
    assert (C0 : calm s1 (set_conn to (set_queue (c_queue c ++ [(tx, e)]) c) s1)).
    { eapply calm_conn; eauto. exact (HO1 to c Hc). }
    assert (C2 : calm s1 s2).
    { destruct C0 as [A1 A2 A3 A4 A5 A6]. constructor; auto. }
    assert (C3 : calm s s2) by (eapply calm_trans; eauto).
    destruct (IH s2 tx) as (ls2 & s3 & S2 & C4 & H3).
    + eapply reachable_step; eauto.
    + exact Hrun1.
    + exact (front_unblocked s s2 (calm_front _ _ C3) HB).
    + apply C3.
    + reflexivity.
    + now rewrite (calm_handled _ _ C3).
    + exists (ls1 ++ LHandler 0 :: ls2), s3. rewrite steps_app, S1. cbn [steps]. rewrite HS. split; [exact S2|].
      split; [eapply calm_trans; eauto|exact H3].
Qed.

(** Everybody's next packet waits to be read, and there is nothing else to do for the handler. *)
Record point auth dbg n (ps : list peer) (es : list ClientEvent) (s : sys) : Prop := {
  pt_reachable : reachable auth dbg n s;
  pt_idle : hdl s = HIdle;
  pt_events : events s = [];
  pt_main : main s = MServing;
  pt_ctrl : ctrl_c s = false;
  pt_handled : map snd (handled s) = es;
  pt_peers : peers s = ps;
  pt_readers : each (fun _ c => match c_reader c with RFirst _ | RLoop _ _ => True | _ => False end) s;
  pt_open : each (fun _ c => forall ws, c_writer c <> WClosed ws) s }.

(** The read task gets to its next event. *)
Lemma next_read auth dbg n ps es s e rest : point auth dbg n ps es s -> interleaving dbg ps (es ++ e :: rest) ->
  exists k c uuid ps1 cid rs, nth_error (conns s) k = Some c /\ event_tx e = Some k
    /\ step auth dbg s (LReader k uuid) = Some (set_conn k (set_reader (RPush e cid rs) (set_read ps1 c)) s).
Proof.
  intros [HR Hh He Hm _ Hd Hp Hrd _] (I1 & I2).
  destruct (I1 e) as (k & ET & Lk). { apply in_or_app. right. now left. }
  assert (Hk : exists c, nth_error (conns s) k = Some c).
  { destruct (nth_error (conns s) k) eqn:E; [eauto|]. apply nth_error_None in E. rewrite <- Hp in Lk. unfold peers in Lk.
    rewrite map_length in Lk. lia. }
  destruct Hk as (c & Hk). exists k, c.
  assert (HP : nth_error ps k = Some (c_rsock c, c_wsock c, c_addr c)).
  { rewrite <- Hp. unfold peers. rewrite nth_error_map, Hk. reflexivity. }
  destruct (I2 k _ _ _ HP) as (cid & G & EV). clear I1 I2. rewrite events_of_app in EV. cbn [events_of filter] in EV.
  rewrite ET in EV. cbn [opt_is] in EV. rewrite Nat.eqb_refl in EV. fold (events_of k rest) in EV.
  pose proof (flow_invariant auth dbg n s HR k) as HF. unfold flow_ok in HF. rewrite Hk, Hh, He, app_nil_r, Hd in HF.
  cbn [handler_alive] in HF. destruct HF as (cid0 & F1 & F2 & F3).
  destruct (reader_invariant auth dbg n s HR k c Hk) as (rs & Hr & RI).
  destruct (reads_read_all dbg _ _ _ (wf_connection (c_rsock c)) Hr) as (W & ER).
  assert (ER' : fst (read_all dbg (connection_stream (c_rsock c))) = c_read c ++ fst (read_all dbg rs)) by now rewrite ER.
  rewrite ER' in *. clear ER ER'.
  assert (Hrun : running s = true) by (unfold running; now rewrite Hm).
  specialize (Hrd k c Hk). cbn beta in Hrd.
  assert (RS : forall q qs, fst (read_all dbg rs) = q :: qs -> exists rs', stream_read_packet dbg rs = ROk q rs').
  { intros q qs E. rewrite (read_all_step dbg rs W) in E. destruct (stream_read_packet dbg rs) as [q' rs'| | | | |]; try discriminate.
    destruct (read_all dbg rs'). cbn [fst] in E. injection E as -> _. eauto. }
  destruct (c_reader c) as [rs0|e0 cid' rs0|cid' rs0|] eqn:EC; try contradiction.
  - destruct RI as (-> & ER). rewrite ER in *. cbn [app pend issued] in *. rewrite app_nil_r in F3. rewrite F3 in EV. cbn [app] in EV.
    destruct (fst (read_all dbg rs)) as [|q qs] eqn:EA; [discriminate|].
    destruct q as [p| | | | | | | | | | | | |]; try discriminate. cbn [issued] in EV. injection EV as -> EV.
    specialize (G p qs eq_refl). destruct (RS _ _ eq_refl) as (rs' & E).
    assert (EI : chosen_id p cid = cid).
    { unfold chosen_id. unfold goes_by in G. destruct (client_id p); [reflexivity|]. symmetry. apply G. discriminate. }
    exists cid, ([] ++ [Connect p]), cid, rs'. split; [exact Hk|]. split; [exact ET|].
    unfold step. rewrite Hrun. unfold step_reader. rewrite Hk, EC, E, EI, ER. reflexivity.
  - destruct RI as (-> & p0 & qs0 & ER & G0). subst cid0. rewrite ER in *. cbn [pend] in F3. rewrite app_nil_r in F3. rewrite F3 in EV.
    cbn [app issued] in EV. injection EV as -> EV. rewrite map_app in EV. apply app_inv_head in EV.
    destruct (fst (read_all dbg rs)) as [|q qs] eqn:EA; [discriminate|]. cbn [map] in EV. injection EV as -> EV.
    destruct (RS _ _ eq_refl) as (rs' & E).
    exists [], (c_read c ++ [q]), cid, rs'. split; [exact Hk|]. split; [exact ET|].
    unfold step. rewrite Hrun. unfold step_reader. rewrite Hk, EC, E. reflexivity.
Qed.

Lemma point_next auth dbg n ps es s e rest : (forall r w a, In (r, w, a) ps -> ~ blocks w) ->
  point auth dbg n ps es s -> interleaving dbg ps (es ++ e :: rest) -> fits auth (es ++ e :: rest) ->
  exists s', point auth dbg n ps (es ++ [e]) s'.
Proof.
  intros HB HPt HIn HFt. destruct (next_read auth dbg n ps es s e rest HPt HIn) as (k & c & uuid & ps1 & cid & rs & Hk & ET & S1).
  destruct HPt as [HR Hh He Hm Hc Hd Hp Hrd HO].
  set (c1 := set_reader (RPush e cid rs) (set_read ps1 c)) in *. set (s1 := set_conn k c1 s) in *.
  assert (Hrun : running s = true) by (unfold running; now rewrite Hm).
  assert (Hk1 : nth_error (conns s1) k = Some c1).
  { subst s1. cbn [conns set_conn set_conns]. now rewrite nth_update, Nat.eqb_refl, Hk. }
  set (s2 := set_events (events s1 ++ [e]) (set_conn k (set_reader (RLoop cid rs) c1) s1)).
  assert (S2 : step auth dbg s1 (LReader k []) = Some s2).
  { unfold step. change (running s1) with (running s). rewrite Hrun. unfold step_reader. rewrite Hk1. subst c1. cbn [c_reader set_reader].
    change (hdl s1) with (hdl s). rewrite Hh. cbn [handler_alive]. assert (EE : events s1 = []) by exact He. subst s2. rewrite EE. reflexivity. }
  set (s3 := set_hdl (HBusy (event_tx e) (on_event auth 0 e)) (set_handled (handled s2 ++ [(0%Z, e)]) (set_events [] s2))).
  assert (S3 : step auth dbg s2 (LHandler 0) = Some s3).
  { unfold step. change (running s2) with (running s). rewrite Hrun. unfold step_handler. change (hdl s2) with (hdl s). rewrite Hh.
    change (events s2) with (events s ++ [e]). rewrite He. reflexivity. }
  assert (HR3 : reachable auth dbg n s3).
  { eapply reachable_step; [|exact S3]. eapply reachable_step; [|exact S2]. eapply reachable_step; eauto. }
  assert (C3 : conns s3 = update k (set_reader (RLoop cid rs) c1) (update k c1 (conns s))) by reflexivity.
  assert (HP3 : peers s3 = ps).
  { unfold peers. rewrite C3. rewrite <- Hp. unfold peers.
    rewrite (map_update _ k _ _ c1); [|now rewrite nth_update, Nat.eqb_refl, Hk|reflexivity].
    now apply (map_update _ k _ _ c). }
  assert (HO3 : each (fun _ c => forall ws, c_writer c <> WClosed ws) s3).
  { intros j cj. rewrite C3, !nth_update. destruct (Nat.eqb_spec j k) as [->|Hn]; [|apply HO].
    rewrite Nat.eqb_refl, Hk. intros [= <-]. exact (HO k c Hk). }
  assert (HB3 : unblocked s3).
  { intros j cj Hj. apply (HB (c_rsock cj) (c_wsock cj) (c_addr cj)). rewrite <- HP3. unfold peers.
    apply nth_error_In in Hj. apply (in_map (fun c => (c_rsock c, c_wsock c, c_addr c))) in Hj. exact Hj. }
  assert (HH3 : map snd (handled s3) = es ++ [e]).
  { subst s3. cbn [handled set_hdl set_handled]. change (handled s2) with (handled s). now rewrite map_app, Hd. }
  assert (HF3 : fits auth (map snd (handled s3))).
  { rewrite HH3. apply (fits_prefix auth _ rest). now rewrite <- app_assoc. }
  destruct (finish auth dbg n (on_event auth 0 e) s3 (event_tx e) HR3 Hrun HB3 HO3 eq_refl HF3) as (ls & s4 & S4 & C & H4).
  exists s4. destruct C as [A1 A2 A3 A4 A5 A6]. constructor.
  - eapply reachable_steps; eauto.
  - exact H4.
  - now rewrite A2.
  - rewrite A3. exact Hm.
  - rewrite A4. exact Hc.
  - now rewrite A5.
  - rewrite <- HP3. unfold peers.
    assert (E : forall l, map (fun c => (c_rsock c, c_wsock c, c_addr c)) l = map (fun f => fst (fst f)) (map front l)).
    { intros l. rewrite map_map. reflexivity. }
    now rewrite !E, A1.
  - intros j cj Hj. assert (F : nth_error (map front (conns s3)) j = Some (front cj)) by now rewrite <- A1, nth_error_map, Hj.
    rewrite nth_error_map, C3, !nth_update in F. destruct (Nat.eqb_spec j k) as [->|Hn].
    + rewrite Nat.eqb_refl, Hk in F. cbn in F. injection F as _ _ _ F _. now rewrite <- F.
    + destruct (nth_error (conns s) j) as [c0|] eqn:E0; [|discriminate]. cbn in F. injection F as _ _ _ F _. rewrite <- F.
      exact (Hrd j c0 E0).
  - exact A6.
Qed.

Lemma point_start auth dbg n ps : n <> 0 -> exists s, point auth dbg n ps [] s.
Proof.
  intros Hn. exists (set_conns (map (fun x => new_conn (fst (fst x)) (snd (fst x)) (snd x)) ps) (sys_init n)).
  constructor; try reflexivity.
  - exists (map (fun x => LAccept (fst (fst x)) (snd (fst x)) (snd x)) ps).
    assert (K : forall ps s, running s = true -> listeners s <> 0 ->
      steps auth dbg s (map (fun x : peer => LAccept (fst (fst x)) (snd (fst x)) (snd x)) ps)
      = Some (set_conns (conns s ++ map (fun x => new_conn (fst (fst x)) (snd (fst x)) (snd x)) ps) s)).
    { intros qs. induction qs as [|q qs IH]; intros s Hr Hl; cbn [map steps].
      - rewrite app_nil_r. now destruct s.
      - unfold step. rewrite Hr. destruct (listeners s) eqn:EL; [congruence|]. rewrite IH.
        + cbn [conns set_conns]. rewrite <- app_assoc. reflexivity.
        + exact Hr.
        + cbn [listeners set_conns]. congruence. }
    apply (K ps (sys_init n)); [reflexivity|exact Hn].
  - unfold peers. cbn [conns set_conns]. rewrite map_map. rewrite <- (map_id ps) at 2. apply map_ext. now intros [[r w] a].
  - intros k c. cbn [conns set_conns]. rewrite nth_error_map. destruct (@nth_error (rsock * wsock * N) ps k); cbn [option_map]; [|intros [=]]. intros [= <-]. exact I.
  - intros k c. cbn [conns set_conns]. rewrite nth_error_map. destruct (@nth_error (rsock * wsock * N) ps k); cbn [option_map]; [|intros [=]]. intros [= <-] ws. cbn. discriminate.
Qed.

Lemma point_all auth dbg n ps es : n <> 0 -> (forall r w a, In (r, w, a) ps -> ~ blocks w) ->
  interleaving dbg ps es -> fits auth es -> exists s, point auth dbg n ps es s.
Proof.
  intros Hn HB HI HF.
  assert (K : forall es2 es1, es = es1 ++ es2 -> (exists s, point auth dbg n ps es1 s) -> exists s, point auth dbg n ps es s).
  { intros es2. induction es2 as [|e es2 IH]; intros es1 E (s & HP).
    - rewrite app_nil_r in E. subst es1. eauto.
    - subst es. destruct (point_next auth dbg n ps es1 s e es2 HB HP HI HF) as (s' & HP').
      apply (IH (es1 ++ [e])); [now rewrite <- app_assoc|eauto]. }
  apply (K es []); [reflexivity|]. now apply point_start.
Qed.

(** ** To rest *)

Lemma rest_or_step auth dbg s : at_rest auth dbg s \/ exists l s', internal l /\ step auth dbg s l = Some s'.
Proof.
  assert (D : forall l, internal l -> step auth dbg s l = None \/ exists l s', internal l /\ step auth dbg s l = Some s').
  { intros l Hl. destruct (step auth dbg s l) as [s'|] eqn:E; [right; eauto|now left]. }
  assert (DL : forall f : nat -> label, (forall k, internal (f k)) -> forall m,
    (forall k, k < m -> step auth dbg s (f k) = None) \/ exists l s', internal l /\ step auth dbg s l = Some s').
  { intros f Hf m. induction m as [|m [IH|IH]]; [left; lia| |now right].
    destruct (D (f m) (Hf m)) as [H|H]; [|now right]. left. intros k Hk.
    destruct (Nat.eq_dec k m) as [->|]; [exact H|]. apply IH. lia. }
  destruct (running s) eqn:Hr.
  2:{ left. intros l _. unfold step. now rewrite Hr. }
  destruct (DL (fun k => LReader k []) (fun _ => I) (length (conns s))) as [H1|H]; [|now right].
  destruct (DL LWriter (fun _ => I) (length (conns s))) as [H2|H]; [|now right].
  destruct (D (LHandler 0) I) as [H3|H]; [|now right].
  destruct (D LStopHandler I) as [H4|H]; [|now right].
  destruct (D LStopListener I) as [H5|H]; [|now right].
  destruct (D LStopService I) as [H6|H]; [|now right].
  destruct (D LMain I) as [H7|H]; [|now right].
  left. intros l Hl. destruct l as [r w a|k uuid|k|now| | | | |]; try contradiction; auto.
  - destruct (Nat.lt_ge_cases k (length (conns s))) as [L|L].
    + specialize (H1 k L). unfold step in *. rewrite Hr in *. unfold step_reader in *.
      destruct (nth_error (conns s) k) as [c|]; [|reflexivity]. destruct (c_reader c) as [rs|e cid rs|cid rs|]; auto.
      destruct (stream_read_packet dbg rs) as [p rs'| | | | |]; auto. destruct p; discriminate.
    + apply nth_error_None in L. unfold step. rewrite Hr. unfold step_reader. now rewrite L.
  - destruct (Nat.lt_ge_cases k (length (conns s))) as [L|L]; [now apply H2|].
    apply nth_error_None in L. unfold step. rewrite Hr. unfold step_writer. now rewrite L.
  - unfold step in *. rewrite Hr in *. unfold step_handler in *. destruct (hdl s) as [|tx p| |]; auto.
    destruct (events s); [reflexivity|discriminate].
Qed.

(** Wherever a run gets to, it can go on until there is nothing left to do. *)
Lemma runs_to_rest auth dbg n (P : sys -> Prop) :
  (forall s l s', reachable auth dbg n s -> P s -> internal l -> step auth dbg s l = Some s' -> P s') ->
  forall s, reachable auth dbg n s -> P s -> exists s', reachable auth dbg n s' /\ P s' /\ at_rest auth dbg s'.
Proof.
  intros HP s HR. pose proof (dies_out auth dbg n s HR) as HA. induction HA as [s _ IH]. intros Hs.
  destruct (rest_or_step auth dbg s) as [H|(l & s' & Hl & Hst)]; [eauto|].
  apply (IH s'); [|eapply reachable_step; eauto|eauto].
  exists l. split; [destruct l; try exact I; destruct Hl|exact Hst].
Qed.

Lemma issued_prefix k a cid cid' ps rest : length (issued k a cid ps) <= length (issued k a cid' (ps ++ rest)).
Proof.
  destruct ps as [|[] ps]; cbn [app issued length]; try lia. rewrite !map_length, app_length. lia.
Qed.

(** All events handled: none is left anywhere. *)
Lemma all_handled auth dbg n s : reachable auth dbg n s -> handler_alive (hdl s) = true ->
  interleaving dbg (peers s) (map snd (handled s)) -> events s = [].
Proof.
  intros HR HA (_ & HI). destruct (events s) as [|e es] eqn:EE; [reflexivity|exfalso].
  destruct (event_tx e) as [k|] eqn:ET.
  2:{ destruct (has_tx auth dbg n s HR) as (H & _). apply (H e); [rewrite EE; apply in_or_app; right; now left|exact ET]. }
  pose proof (flow_invariant auth dbg n s HR k) as HF. unfold flow_ok in HF. rewrite EE in HF.
  destruct (nth_error (conns s) k) as [c|] eqn:Hk.
  - rewrite HA in HF. destruct HF as (cid & _ & _ & HF).
    assert (HP : nth_error (peers s) k = Some (c_rsock c, c_wsock c, c_addr c)).
    { unfold peers. now rewrite nth_error_map, Hk. }
    destruct (HI k _ _ _ HP) as (cid' & _ & EV). destruct (read_prefix auth dbg n s k c HR Hk) as (rest & ER). rewrite ER in EV.
    pose proof (issued_prefix k (c_addr c) cid cid' (c_read c) rest) as L. rewrite <- HF, <- EV, events_of_app in L.
    cbn [events_of filter] in L. rewrite ET in L. cbn [opt_is] in L. rewrite Nat.eqb_refl in L. rewrite !app_length in L.
    cbn [length] in L. fold (events_of k (map snd (handled s))) in L. lia.
  - rewrite events_of_app in HF. cbn [events_of filter] in HF. rewrite ET in HF. cbn [opt_is] in HF. rewrite Nat.eqb_refl in HF.
    apply app_eq_nil in HF. destruct HF as (_ & HF). discriminate.
Qed.

Lemma peers_step auth dbg s l s' : internal l -> step auth dbg s l = Some s' -> peers s' = peers s.
Proof.
  intros HI. unfold step. destruct (running s); [|discriminate].
  assert (U : forall k c c', nth_error (conns s) k = Some c -> c_rsock c' = c_rsock c -> c_wsock c' = c_wsock c -> c_addr c' = c_addr c ->
              map (fun c => (c_rsock c, c_wsock c, c_addr c)) (update k c' (conns s)) = peers s).
  { intros k c c' Hk E1 E2 E3. apply (map_update _ k c' (conns s) c Hk). now rewrite E1, E2, E3. }
  destruct l as [r w a|k uuid|k|now| | | | |]; [destruct HI|..]; unfold peers.
  - unfold step_reader. destruct (nth_error (conns s) k) as [c|] eqn:Hk; [|discriminate].
    repeat match goal with |- context [match ?x with _ => _ end] => destruct x; try discriminate end;
    intros [= <-]; now apply (U k c).
  - unfold step_writer. destruct (nth_error (conns s) k) as [c|] eqn:Hk; [|discriminate].
    repeat match goal with |- context [match ?x with _ => _ end] => destruct x; try discriminate end;
    intros [= <-]; now apply (U k c).
  - unfold step_handler. destruct (hdl s) as [|tx p| |]; try discriminate.
    + destruct (events s); [discriminate|]. intros [= <-]. reflexivity.
    + destruct p as [| |R op f|to e p].
      * intros [= <-]. reflexivity.
      * intros [= <-]. reflexivity.
      * destruct (serve (svc s) op). intros [= <-]. reflexivity.
      * destruct (nth_error (conns s) to) as [c|] eqn:Hk; [|discriminate].
        repeat match goal with |- context [match ?x with _ => _ end] => destruct x; try discriminate end;
        intros [= <-]; try reflexivity; now apply (U to c).
  - repeat match goal with |- context [match ?x with _ => _ end] => destruct x; try discriminate end; intros [= <-]; reflexivity.
  - repeat match goal with |- context [match ?x with _ => _ end] => destruct x; try discriminate end; intros [= <-]; reflexivity.
  - repeat match goal with |- context [match ?x with _ => _ end] => destruct x; try discriminate end; intros [= <-]; reflexivity.
  - destruct HI.
  - unfold step_main.
    repeat match goal with |- context [match ?x with _ => _ end] => destruct x; try discriminate end; intros [= <-]; reflexivity.
Qed.

Lemma nth_error_same {A} (l l' : list A) : (forall k, nth_error l k = nth_error l' k) -> l = l'.
Proof.
  revert l'. induction l as [|x l IH]; intros [|y l'] H; [reflexivity|discriminate (H 0)|discriminate (H 0)|].
  pose proof (H 0) as E. cbn in E. injection E as ->. f_equal. apply IH. intros k. exact (H (Datatypes.S k)).
Qed.

Lemma point_quiet auth dbg n ps es s : (forall r w a, In (r, w, a) ps -> ~ blocks w) -> interleaving dbg ps es ->
  point auth dbg n ps es s -> exists s', quiet auth dbg n s' /\ peers s' = ps /\ map snd (handled s') = es.
Proof.
  intros HB HI [HR Hh He Hm Hc Hd Hp Hrd HO].
  assert (HX : exists s', reachable auth dbg n s' /\ (hdl s' = HIdle /\ events s' = [] /\ main s' = MServing /\ ctrl_c s' = false
      /\ map snd (handled s') = es /\ peers s' = ps) /\ at_rest auth dbg s').
  { apply (runs_to_rest auth dbg n (fun s => hdl s = HIdle /\ events s = [] /\ main s = MServing /\ ctrl_c s = false
      /\ map snd (handled s) = es /\ peers s = ps)) with (s := s); auto 10.
    clear s HR Hh He Hm Hc Hd Hp Hrd HO. intros s l s' HR (A1 & A2 & A3 & A4 & A5 & A6) Hl Hs.
    pose proof (peers_step auth dbg s l s' Hl Hs) as HP. rewrite A6 in HP.
    assert (HR' : reachable auth dbg n s') by (eapply reachable_step; eauto).
    assert (K : hdl s' = HIdle /\ main s' = MServing /\ ctrl_c s' = false /\ handled s' = handled s).
    { revert Hs. unfold step. destruct (running s); [|discriminate]. destruct l as [r w a|k uuid|k|now| | | | |]; try contradiction.
      - unfold step_reader. rewrite A1.
        repeat match goal with |- context [match ?x with _ => _ end] => destruct x; try discriminate end;
        intros [= <-]; repeat split; assumption.
      - unfold step_writer.
        repeat match goal with |- context [match ?x with _ => _ end] => destruct x; try discriminate end;
        intros [= <-]; repeat split; assumption.
      - unfold step_handler. rewrite A1, A2. discriminate.
      - rewrite A1, A4. discriminate.
      - rewrite A4. destruct (listeners s); discriminate.
      - rewrite A1. cbn. rewrite andb_false_r. discriminate.
      - unfold step_main. rewrite A3. discriminate. }
    destruct K as (K1 & K2 & K3 & K4). repeat split; try congruence.
    apply (all_handled auth dbg n s' HR'); [now rewrite K1|]. rewrite HP, K4, A5. exact HI. }
  destruct HX as (s' & HR' & (A1 & A2 & A3 & A4 & A5 & A6) & HS).
  - exists s'. split; [|auto]. split; [exact HR'|]. split; [exact HS|]. split; [|now rewrite A1].
    intros k c Hk. apply (HB (c_rsock c) (c_wsock c) (c_addr c)). rewrite <- A6. unfold peers.
    apply nth_error_In in Hk. apply (in_map (fun c => (c_rsock c, c_wsock c, c_addr c))) in Hk. exact Hk.
Qed.

(** ** C92 *)

(** With some peers connected, the orders in which their packets may get handled, all of them, with the broker
    still up and nothing left to do, are exactly the interleavings in which nobody gives a user name without
    password and nobody is sent 32 events after being told to close. *)
Theorem C92_possible_orders auth dbg n ps es : n <> 0 -> (forall r w a, In (r, w, a) ps -> ~ blocks w) ->
  (exists s, quiet auth dbg n s /\ peers s = ps /\ map snd (handled s) = es)
  <-> interleaving dbg ps es /\ fits auth es.
Proof.
  intros Hn HB. split.
  - intros (s & HQ & <- & <-). exact (outcome_possible auth dbg n s HQ).
  - intros (HI & HF). destruct (point_all auth dbg n ps es Hn HB HI HF) as (s & HP).
    exact (point_quiet auth dbg n ps es s HB HI HP).
Qed.

(** So the possible outcomes, what everybody is sent, are what the reference broker sends for these orders. *)
Theorem C92_possible_outcomes auth dbg n ps (o : list (list ControlPacket)) : n <> 0 ->
  (forall r w a, In (r, w, a) ps -> ~ blocks w) ->
  (exists s, quiet auth dbg n s /\ peers s = ps /\ map broker_sent (conns s) = o)
  <-> exists es, interleaving dbg ps es /\ fits auth es
       /\ o = map (fun k => before_close (ref_sends auth ref_init es k)) (seq 0 (length ps)).
Proof.
  intros Hn HB.
  assert (K : forall s, quiet auth dbg n s -> map broker_sent (conns s)
    = map (fun k => before_close (ref_sends auth ref_init (map snd (handled s)) k)) (seq 0 (length (peers s)))).
  { intros s HQ. unfold peers. rewrite map_length. apply nth_error_same. intros k. rewrite !nth_error_map.
    destruct (nth_error (conns s) k) as [c|] eqn:Hk.
    - assert (L : k < length (conns s)) by (apply nth_error_Some; congruence).
      assert (E : @nth_error conn (seq 0 (length (conns s))) k = Some k).
      { change conn with nat. rewrite (nth_error_nth' (seq 0 (length (conns s))) 0) by now rewrite seq_length. now rewrite seq_nth. }
      rewrite E. cbn [option_map].
      f_equal. exact (proj1 (C86_at_rest auth dbg n s HQ k c Hk)).
    - apply nth_error_None in Hk. assert (E : @nth_error conn (seq 0 (length (conns s))) k = None) by (apply nth_error_None; now rewrite seq_length).
      now rewrite E. }
  split.
  - intros (s & HQ & <- & <-). exists (map snd (handled s)). destruct (outcome_possible auth dbg n s HQ) as (H1 & H2).
    split; [exact H1|]. split; [exact H2|]. exact (K s HQ).
  - intros (es & H1 & H2 & ->). destruct (proj2 (C92_possible_orders auth dbg n ps es Hn HB) (conj H1 H2)) as (s & HQ & E1 & E2).
    exists s. split; [exact HQ|]. split; [exact E1|]. rewrite (K s HQ), E1, E2. reflexivity.
Qed.

(** A client that subscribes and one that publishes. Whether the message gets through is open. *)
Definition ex_two : list peer :=
  [(ex_peer [ex_client "s" None None; Subscribe 1 [{| sub_topic := str "a"; sub_qos := AtMostOnce |}]] PeerOpen, ex_socket [], 1%N);
   (ex_peer [ex_client "p" None None; Publish (ex_message "a" "x")] PeerOpen, ex_socket [], 2%N)].

Example C92_case :
  let ack := ConnAck {| session_present := false; return_code := Accepted |} in
  forall l, l = [Publish (ex_message "a" "x")] \/ l = [] ->
  exists s, quiet ex_deny true 1 s /\ peers s = ex_two
    /\ map broker_sent (conns s) = [ack :: SubAck 1 [SuccessQoS0] :: l; [ack]].
Proof.
  intros ack l Hl.
  set (cs := Connected (ConnectPacket_new Mqtt3 (str "s") 60 true None None None) 1 0).
  set (cp := Connected (ConnectPacket_new Mqtt3 (str "p") 60 true None None None) 2 1).
  set (es := ClientPacket (str "s") (Subscribe 1 [{| sub_topic := str "a"; sub_qos := AtMostOnce |}]) 0).
  set (ep := ClientPacket (str "p") (Publish (ex_message "a" "x")) 1).
  apply C92_possible_outcomes; [discriminate| |].
  { intros r w a [H|[H|[]]]; injection H as <- <- <-; intros []. }
  assert (HI : forall o, o = [cs; cp; es; ep] \/ o = [cp; cs; ep; es] -> interleaving true ex_two o).
  { intros o Ho. split.
    - intros e He. assert (K : In e [cs; cp; es; ep]) by (destruct Ho as [-> | ->]; cbn [In] in *; tauto).
      destruct K as [<-|[<-|[<-|[<-|[]]]]]; eexists; (split; [reflexivity|]); cbn; lia.
    - intros [|[|k]] r w a H; [injection H as <- <- <-|injection H as <- <- <-|destruct k; discriminate H]; intros sends.
      + exists (str "s"). assert (E : sends = [ex_client "s" None None; Subscribe 1 [{| sub_topic := str "a"; sub_qos := AtMostOnce |}]]) by (vm_compute; reflexivity).
        rewrite E. split; [intros p qs [= <- _] _; reflexivity|]. destruct Ho as [-> | ->]; vm_compute; reflexivity.
      + exists (str "p"). assert (E : sends = [ex_client "p" None None; Publish (ex_message "a" "x")]) by (vm_compute; reflexivity).
        rewrite E. split; [intros p qs [= <- _] _; reflexivity|]. destruct Ho as [-> | ->]; vm_compute; reflexivity. }
  assert (HX : forall o, o = [cs; cp; es; ep] \/ o = [cp; cs; ep; es] -> fits ex_deny o).
  { intros o Ho. split; [destruct Ho as [-> | ->]; vm_compute; reflexivity|].
    intros k l1 l2 E. exfalso. assert (K : In ServerDisconnect (ref_sends ex_deny ref_init o k)) by (rewrite E; apply in_or_app; right; now left).
    clear E l1 l2. revert K. destruct k as [|[|k]].
    - destruct Ho as [-> | ->]; vm_compute; intuition discriminate.
    - destruct Ho as [-> | ->]; vm_compute; intuition discriminate.
    - destruct Ho as [-> | ->]; vm_compute; intuition discriminate. }
  destruct Hl as [-> | ->].
  - exists [cs; cp; es; ep]. split; [now apply HI; left|]. split; [now apply HX; left|]. vm_compute. reflexivity.
  - exists [cp; cs; ep; es]. split; [now apply HI; right|]. split; [now apply HX; right|]. vm_compute. reflexivity.
Qed.

(** ** C93 *)

(** Packets that get an answer, with or without a session. *)
Definition answered (p : ControlPacket) : bool :=
  match p with Subscribe _ _ | Unsubscribe _ _ | PingReq => true | _ => false end.

Definition event_answered (e : ClientEvent) : bool := match e with ClientPacket _ p _ => answered p | _ => false end.

Lemma answers_least auth k es : forall r, existsb (stops auth) es = false ->
  length (filter event_answered (events_of k es)) <= length (ref_sends auth r es k).
Proof.
  induction es as [|e es IH]; intros r HS; cbn [ref_sends]; [cbn; lia|].
  cbn [existsb] in HS. apply orb_false_iff in HS. destruct HS as (HS1 & HS). rewrite HS1.
  assert (HE : length (filter event_answered (events_of k [e])) <= length (ref_out auth r e k)).
  { unfold events_of. cbn [filter]. destruct e as [c a j|cid p j|cid|cid]; cbn [event_tx opt_is].
    - destruct (Nat.eqb k j); cbn; lia.
    - destruct (Nat.eqb k j) eqn:Ej; cbn [filter event_answered length]; [|lia].
      destruct p; cbn [ref_out answered length]; rewrite ?Ej; cbn [length]; try lia. destruct (place r cid); cbn; lia.
    - cbn. lia.
    - cbn. lia. }
  specialize (IH (ref_next auth r e) HS). change (e :: es) with ([e] ++ es). rewrite events_of_app, filter_app, !app_length. lia.
Qed.

Lemma events_of_split k es e l : events_of k es = e :: l ->
  exists es1 es2, es = es1 ++ e :: es2 /\ events_of k es2 = l.
Proof.
  induction es as [|x es IH]; [discriminate|]. unfold events_of. cbn [filter].
  destruct (opt_is k (event_tx x)).
  - intros [= -> H]. exists [], es. auto.
  - intros H. destruct (IH H) as (es1 & es2 & -> & E). exists (x :: es1), es2. auto.
Qed.

Lemma ref_sends_split auth k e es2 : forall es1 r, existsb (stops auth) (es1 ++ e :: es2) = false ->
  exists l r', ref_sends auth r (es1 ++ e :: es2) k = l ++ ref_out auth r' e k ++ ref_sends auth (ref_next auth r' e) es2 k.
Proof.
  induction es1 as [|x es1 IH]; intros r; cbn [app existsb ref_sends]; intros H; apply orb_false_iff in H; destruct H as (H1 & H2); rewrite H1.
  - exists [], r. reflexivity.
  - destruct (IH (ref_next auth r x) H2) as (l & r' & E). exists (ref_out auth r x k ++ l), r'. now rewrite E, app_assoc.
Qed.

(** A client that is turned away and then sends 32 requests all the same ends the service for all clients, from
    every state and on every schedule: the answers fill the queue behind the close request, or meet a closed
    connection. *)
Theorem C93_a_refused_client_stops_the_broker auth dbg n s k c p qs u w :
  reachable auth dbg n s -> nth_error (conns s) k = Some c -> client_sends dbg c = Connect p :: qs ->
  user_name p = Some u -> password p = Some w -> auth u w = false -> 32 <= length (filter answered qs) ->
  inevitably auth dbg (out_of_service auth dbg) s.
Proof.
  intros HR Hk HC Hu Hw HA HL. apply (must_stop auth dbg n (c_rsock c) (c_wsock c) k) with (c := c); auto. clear s HR Hk.
  intros s c1 HR Hk Er Ew Hs. destruct Hs as [H|j cj H _ _|Hh Ha Hs]; [now left|now right|exfalso].
  destruct (Hs k c1 Hk) as ((cid & _ & HI) & _). unfold client_sends in HI, HC. rewrite Er, HC in HI. cbn [issued] in HI.
  pose proof (hist_invariant auth dbg n s HR) as HH. unfold hist_inv in HH. rewrite Hh in HH.
  pose proof (proj1 (finished_stops auth (handled s) MessagingService_new)) as HF. rewrite HH in HF. specialize (HF eq_refl).
  pose proof (after_close auth dbg n s HR k) as HRm. rewrite put_to_sent in HRm.
  assert (E0 : sent_to k (map out (log s)) = ref_sends auth ref_init (map snd (handled s)) k).
  { rewrite <- (proj1 (C86_all_events auth (handled s) k)), HH. reflexivity. }
  rewrite E0 in HRm. clear E0 HH. destruct (events_of_split _ _ _ _ HI) as (es1 & es2 & E & E2). rewrite E in HF, HRm.
  destruct (ref_sends_split auth k _ es2 es1 ref_init HF) as (l & r' & E3). rewrite E3 in HRm. clear E3.
  cbn [ref_out] in HRm. rewrite Nat.eqb_refl in HRm. unfold let_in in HRm at 1. cbn [user_name password] in HRm.
  rewrite Hu, Hw, HA in HRm. cbn [app] in HRm.
  change (l ++ ?a :: ?b :: ?t) with (l ++ [a] ++ b :: t) in HRm. rewrite app_assoc in HRm. specialize (HRm _ _ eq_refl).
  rewrite existsb_app in HF. apply orb_false_iff in HF. destruct HF as (_ & HF). cbn [existsb] in HF.
  apply orb_false_iff in HF. destruct HF as (_ & HF).
  match type of HRm with context [ref_sends auth ?r es2 k] => pose proof (answers_least auth k es2 r HF) as HL2 end.
  rewrite E2 in HL2.
  assert (HL3 : length (filter event_answered (map (fun q => ClientPacket cid q k) qs)) = length (filter answered qs)).
  { clear. induction qs as [|q qs IH]; [reflexivity|]. cbn [map filter event_answered]. destruct (answered q); cbn [length]; congruence. }
  lia.
Qed.

(** With 31 requests the broker may survive, so the number is exact. *)
Definition ex_insistent (m : nat) : list peer :=
  [(ex_peer (ex_client "z" (Some (str "z")) (Some (str "z")) :: repeat PingReq m) PeerOpen, ex_socket [], 1%N)].

Definition ex_bold : sys := drive ex_deny true (sys_init 1)
  (ex_sub_pub [] 3 ++ [LAccept (fst (fst (hd (ex_peer [] PeerOpen, ex_socket [], 0%N) (ex_insistent 32)))) (ex_socket []) 3]).

Example C93_case :
  (inevitably ex_deny true (out_of_service ex_deny true) ex_bold /\ hdl ex_bold = HIdle)
  /\ (exists s, quiet ex_deny true 1 s /\ peers s = ex_insistent 31 /\ length (handled s) = 32).
Proof.
  split; [split; [|vm_compute; reflexivity]|].
  - assert (K : exists c p, nth_error (conns ex_bold) 2 = Some c /\ client_sends true c = Connect p :: repeat PingReq 32
      /\ user_name p = Some (str "z") /\ password p = Some (str "z")).
    { eexists. eexists. split; [vm_compute; reflexivity|]. split; [vm_compute; reflexivity|]. split; vm_compute; reflexivity. }
    assert (HR : reachable ex_deny true 1 ex_bold) by apply drive_reachable.
    generalize dependent ex_bold. intros s (c & p & Hk & Hs & Hu & Hp) HR.
    refine (C93_a_refused_client_stops_the_broker ex_deny true 1 s 2 c p _ (str "z") (str "z") HR Hk Hs Hu Hp eq_refl _).
    vm_compute. lia.
  - set (es := issued 0 1 (str "z") (ex_client "z" (Some (str "z")) (Some (str "z")) :: repeat PingReq 31)).
    destruct (proj2 (C92_possible_orders ex_deny true 1 (ex_insistent 31) es ltac:(discriminate)
                ltac:(intros r w a [H|[]]; injection H as <- <- <-; intros []))) as (s & HQ & HP & HH).
    + split; [split|split].
      * intros e He. exists 0. split; [|cbn; lia].
        assert (K : forallb (fun e => match event_tx e with Some 0 => true | _ => false end) es = true) by (vm_compute; reflexivity).
        rewrite forallb_forall in K. specialize (K e He). destruct (event_tx e) as [[|]|]; congruence.
      * intros [|k] r w a H; [injection H as <- <- <-|destruct k; discriminate H]. intros sends. exists (str "z").
        assert (E : sends = ex_client "z" (Some (str "z")) (Some (str "z")) :: repeat PingReq 31) by (vm_compute; reflexivity).
        rewrite E. split; [intros p qs [= <- _] _; reflexivity|]. vm_compute. reflexivity.
      * vm_compute. reflexivity.
      * intros k l1 l2 E. assert (L : length (ref_sends ex_deny ref_init es k) <= 33).
        { destruct k as [|k]; vm_compute; lia. }
        destruct l1 as [|x l1].
        -- exfalso. destruct k as [|k]; vm_compute in E; discriminate E.
        -- rewrite E in L. cbn [app length] in L. rewrite app_length in L. cbn [length] in L. lia.
    + exists s. split; [exact HQ|]. split; [exact HP|]. rewrite <- (map_length snd), HH. vm_compute. reflexivity.
Qed.
