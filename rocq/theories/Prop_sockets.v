(** Property C100: the sockets that clients leave behind. *)
From Verif Require Import Base Base_facts Packets HashMap Subscriptions Messaging Handler Decoder ReadStream ReadStream_facts
  Plain_facts Conn Conn_facts Encoder Encoder_facts WriteStream WriteStream_facts Spec_wire Spec_subs Spec_broker Spec_ref
  Subscriptions_facts Handler_facts System System_facts
  System_hist System_conn System_queue System_first System_progress System_exit System_rest
  Prop_subs Prop_stream Prop_broker Prop_system Prop_rest Prop_mqtt Prop_ref Prop_stop Prop_any Prop_who Prop_stack Sockets.
Open Scope nat_scope.

(** ** The limit *)

Lemma nstep_step auth dbg limit s l s' : nstep auth dbg limit s l = Some s' -> step auth dbg s l = Some s'.
Proof. destruct l; cbn [nstep]; auto. destruct (open_sockets s <? limit); [auto|discriminate]. Qed.

Lemma nsteps_steps auth dbg limit ls : forall s s', nsteps auth dbg limit s ls = Some s' -> steps auth dbg s ls = Some s'.
Proof.
  induction ls as [|l ls IH]; cbn [nsteps steps]; intros s s'; [auto|]. destruct (nstep auth dbg limit s l) as [s1|] eqn:E; [|discriminate].
  rewrite (nstep_step _ _ _ _ _ _ E). apply IH.
Qed.

Lemma nreachable_reachable auth dbg limit n s : nreachable auth dbg limit n s -> reachable auth dbg n s.
Proof. intros (ls & H). exists ls. exact (nsteps_steps _ _ _ _ _ _ H). Qed.

(** ** A socket once closed stays closed *)

Lemma closed_stays auth dbg s s' : trans auth dbg s s' -> forall k c, nth_error (conns s) k = Some c ->
  exists c', nth_error (conns s') k = Some c' /\ (held c' = true -> held c = true).
Proof.
  intros T k0 c0 H0.
  assert (ID : exists c', nth_error (conns s) k0 = Some c' /\ (held c' = true -> held c0 = true)) by eauto.
  assert (U : forall k c c1, nth_error (conns s) k = Some c -> (held c1 = true -> held c = true) ->
              exists c', nth_error (update k c1 (conns s)) k0 = Some c' /\ (held c' = true -> held c0 = true)).
  { intros k c c1 Hk H1. rewrite nth_update. destruct (Nat.eqb_spec k0 k) as [->|Hn].
    - rewrite Hk in H0. injection H0 as <-. rewrite Hk. eauto.
    - rewrite H0. eauto. }
  destruct T; cbn [conns set_conns set_conn set_events set_hdl set_handled set_log set_svc set_listeners set_service_running
    set_main set_ctrl_c panic_handler]; try exact ID;
    try (eapply U; [eassumption|]; unfold held; cbn [c_reader c_writer set_reader set_read set_writer set_queue set_sent];
      repeat match goal with H : c_reader _ = _ |- _ => rewrite H | H : c_writer _ = _ |- _ => rewrite H end;
      try destruct (c_reader c); try destruct (c_writer c); auto; fail).
  - rewrite nth_error_snoc. destruct (Nat.eqb_spec k0 (length (conns s))) as [->|_]; [|exact ID].
    exfalso. assert (length (conns s) < length (conns s)) by (apply nth_error_Some; congruence). lia.
Qed.

Lemma closed_stays_run auth dbg ls : forall s s' k c, steps auth dbg s ls = Some s' -> nth_error (conns s) k = Some c ->
  exists c', nth_error (conns s') k = Some c' /\ (held c' = true -> held c = true).
Proof.
  induction ls as [|l ls IH]; cbn [steps]; intros s s' k c H Hk; [injection H as <-; eauto|].
  destruct (step auth dbg s l) as [s1|] eqn:E; [|discriminate].
  destruct (closed_stays auth dbg s s1 (step_trans _ _ _ _ _ E) k c Hk) as (c1 & H1 & K1).
  destruct (IH s1 s' k c1 H H1) as (c2 & H2 & K2). eauto.
Qed.

(** A reader that waits for its peer waits for ever: what the peer sends is fixed. *)
Definition waits (dbg : bool) (r : reader) : Prop :=
  match r with
  | RFirst rs | RLoop _ rs => match stream_read_packet dbg rs with RWait | RHung | RNoFuel => True | _ => False end
  | _ => False
  end.

Lemma waits_stays auth dbg s s' : trans auth dbg s s' -> forall k c, nth_error (conns s) k = Some c -> waits dbg (c_reader c) ->
  exists c', nth_error (conns s') k = Some c' /\ c_reader c' = c_reader c.
Proof.
  intros T k0 c0 H0 HW.
  assert (ID : exists c', nth_error (conns s) k0 = Some c' /\ c_reader c' = c_reader c0) by eauto.
  assert (U : forall k c c1, nth_error (conns s) k = Some c -> (waits dbg (c_reader c) -> c_reader c1 = c_reader c) ->
              exists c', nth_error (update k c1 (conns s)) k0 = Some c' /\ c_reader c' = c_reader c0).
  { intros k c c1 Hk H1. rewrite nth_update. destruct (Nat.eqb_spec k0 k) as [->|Hn].
    - rewrite Hk in H0. injection H0 as <-. rewrite Hk. eauto.
    - rewrite H0. eauto. }
  destruct T; cbn [conns set_conns set_conn set_events set_hdl set_handled set_log set_svc set_listeners set_service_running
    set_main set_ctrl_c panic_handler]; try exact ID; try (eapply U; [eassumption|reflexivity]).
  - rewrite nth_error_snoc. destruct (Nat.eqb_spec k0 (length (conns s))) as [->|_]; [|exact ID].
    exfalso. assert (length (conns s) < length (conns s)) by (apply nth_error_Some; congruence). lia.
  - eapply U; [eassumption|]. rewrite H1. cbn [waits]. rewrite H2. intros [].
  - eapply U; [eassumption|]. rewrite H1. cbn [waits]. rewrite H2. intros [].
  - eapply U; [eassumption|]. intros K. exfalso. destruct H1 as [H1|(cid & H1)], H2 as [H2|(e & H2)]; rewrite H1 in K; cbn [waits] in K; rewrite H2 in K; exact K.
  - eapply U; [eassumption|]. rewrite H1. intros [].
  - eapply U; [eassumption|]. rewrite H1. intros [].
  - eapply U; [eassumption|]. rewrite H1. cbn [waits]. rewrite H2. intros [].
Qed.

Lemma waits_run auth dbg ls : forall s s' k c, steps auth dbg s ls = Some s' -> nth_error (conns s) k = Some c ->
  waits dbg (c_reader c) -> exists c', nth_error (conns s') k = Some c' /\ c_reader c' = c_reader c.
Proof.
  induction ls as [|l ls IH]; cbn [steps]; intros s s' k c H Hk HW; [injection H as <-; eauto|].
  destruct (step auth dbg s l) as [s1|] eqn:E; [|discriminate].
  destruct (waits_stays auth dbg s s1 (step_trans _ _ _ _ _ E) k c Hk HW) as (c1 & H1 & K1).
  destruct (IH s1 s' k c1 H H1) as (c2 & H2 & K2); [now rewrite K1|]. exists c2. split; [exact H2|congruence].
Qed.

Lemma rest_waits auth dbg n s k c : quiet auth dbg n s -> nth_error (conns s) k = Some c ->
  waits dbg (c_reader c) \/ c_reader c = RDone.
Proof.
  intros (HR & HS & HB & HA) Hk. pose proof (alive_running auth dbg n s HR HA) as Hr.
  destruct (rest_handler auth dbg n s HR HS HB HA) as (Hh & He).
  specialize (HS (LReader k []) I). unfold step, step_reader in HS. rewrite Hr, Hk in HS.
  destruct (c_reader c) as [rs|e cid rs|cid rs|]; [| | |now right]; left; cbn [waits].
  - destruct (stream_read_packet dbg rs) as [p rs'|e| | | |]; try discriminate; try exact I. destruct p; discriminate.
  - rewrite HA, He in HS. discriminate.
  - destruct (stream_read_packet dbg rs); try discriminate; exact I.
Qed.

Lemma peer_run auth dbg ls : forall s s' k c, steps auth dbg s ls = Some s' -> nth_error (conns s) k = Some c ->
  exists c', nth_error (conns s') k = Some c' /\ c_rsock c' = c_rsock c /\ c_wsock c' = c_wsock c.
Proof.
  induction ls as [|l ls IH]; cbn [steps]; intros s s' k c H Hk; [injection H as <-; eauto|].
  destruct (step auth dbg s l) as [s1|] eqn:E; [|discriminate]. pose proof (step_trans _ _ _ _ _ E) as T.
  destruct (closed_stays auth dbg s s1 T k c Hk) as (c1 & H1 & _).
  destruct (peers_stay auth dbg s s1 T k c1 H1) as [(c0 & H0 & E1 & E2)|K]; [|congruence]. rewrite Hk in H0. injection H0 as <-.
  destruct (IH s1 s' k c1 H H1) as (c2 & H2 & E3 & E4). exists c2. repeat split; congruence.
Qed.

Lemma idle_run auth dbg ls : forall s s', steps auth dbg s ls = Some s' -> hdl s = HIdle -> handled s' = handled s ->
  hdl s' = HIdle \/ hdl s' = HStopped.
Proof.
  induction ls as [|l ls IH]; cbn [steps]; intros s s' H HI HH; [injection H as <-; auto|].
  destruct (step auth dbg s l) as [s1|] eqn:E; [|discriminate].
  destruct (handled_more _ _ _ _ _ E) as (m1 & E1). destruct (handled_runs _ _ _ _ _ H) as (m2 & E2).
  assert (EM : m1 = [] /\ m2 = []).
  { apply app_eq_nil, length_zero_iff_nil. apply (f_equal (@length _)) in HH. rewrite E2, E1, !app_length in HH. rewrite app_length. lia. }
  destruct EM as (-> & ->). rewrite app_nil_r in E1, E2.
  assert (K : hdl s1 = HIdle \/ hdl s1 = HStopped).
  { pose proof (step_trans _ _ _ _ _ E) as T. destruct T; cbn [hdl set_conns set_conn set_events set_hdl set_handled set_log set_svc
      set_listeners set_service_running set_main set_ctrl_c panic_handler] in *; auto; try congruence.
    exfalso. cbn in E1. apply (f_equal (@length _)) in E1. rewrite app_length in E1. cbn in E1. lia. }
  destruct K as [K|K]; [apply (IH s1 s' H K); congruence|].
  right. destruct (dead_steps auth dbg ls s1 s' H ltac:(now rewrite K)) as (-> & _). exact K.
Qed.

Lemma close_cause auth k es : forall r, In ServerDisconnect (ref_sends auth r es k) ->
  exists e, In e es /\ event_tx e = Some k
    /\ match e with Connected c _ _ => let_in auth c = Some false | ClientPacket _ PingReq _ => True | _ => False end.
Proof.
  induction es as [|e es IH]; intros r; cbn [ref_sends]; [intros []|]. intros H. apply in_app_or in H. destruct H as [H|H].
  - exists e. split; [now left|]. destruct e as [c a j|cid p j|cid|cid]; cbn [ref_out] in H; try (destruct H; fail).
    + destruct (Nat.eqb_spec k j) as [->|]; [|destruct H]. split; [reflexivity|].
      destruct (let_in auth c) as [[]|]; [destruct H as [[=]|[]]|reflexivity|destruct H].
    + destruct p; try (destruct H; fail).
      * apply repeat_spec in H. discriminate.
      * destruct (Nat.eqb k j); [|destruct H]. destruct H as [[=]|[]].
      * destruct (Nat.eqb k j); [|destruct H]. destruct H as [[=]|[]].
      * destruct (Nat.eqb_spec k j) as [->|]; [|destruct H]. split; [reflexivity|exact I].
  - destruct (stops auth e); [destruct H|]. destruct (IH _ H) as (e' & Hin & K). exists e'. split; [now right|exact K].
Qed.

Lemma ref_sends_more auth k b : forall a r, exists rest, ref_sends auth r (a ++ b) k = ref_sends auth r a k ++ rest
  /\ (rest = [] \/ exists r', rest = ref_sends auth r' b k).
Proof.
  induction a as [|e a IH]; intros r; cbn [app ref_sends].
  - exists (ref_sends auth r b k). split; [reflexivity|eauto].
  - destruct (stops auth e).
    + exists []. split; [now rewrite !app_nil_r|now left].
    + destruct (IH (ref_next auth r e)) as (rest & -> & K). exists rest. split; [now rewrite app_assoc|exact K].
Qed.

Lemma rest_sends auth dbg n s k : quiet auth dbg n s -> map snd (put_to k (log s)) = ref_sends auth ref_init (map snd (handled s)) k.
Proof.
  intros HQ. pose proof (quiet_idle _ _ _ _ HQ) as Hh. destruct HQ as (HR & _).
  pose proof (hist_invariant auth dbg n s HR) as HH. unfold hist_inv in HH. rewrite Hh in HH.
  rewrite put_to_sent, <- (proj1 (C86_all_events auth (handled s) k)), HH. reflexivity.
Qed.

Lemma accepts_let_in auth p : accepts auth p <-> let_in auth p = Some true.
Proof.
  unfold accepts, let_in. destruct (user_name p) as [u|]; [|split; auto]. destruct (password p) as [w|]; [|split; [intros []|discriminate]].
  destruct (auth u w); split; congruence.
Qed.

(** ** Clients that connect, are let in, and say no more *)

Definition newcomer (auth : bytes -> bytes -> bool) (dbg : bool) (c : cstate) (id : ClientId) : Prop :=
  exists p, client_sends dbg c = [Connect p] /\ client_id p = id /\ id <> [] /\ accepts auth p /\ ~ blocks (c_wsock c).

(** Since state [s] only such clients came, each with an id nobody else has. *)
Definition only_newcomers auth dbg (s s' : sys) : Prop :=
  forall k c, length (conns s) <= k -> nth_error (conns s') k = Some c ->
  exists id, newcomer auth dbg c id /\ (forall j, ~ owns auth (handled s) j id)
    /\ forall j c', length (conns s) <= j -> j <> k -> nth_error (conns s') j = Some c' -> ~ newcomer auth dbg c' id.

Lemma issued_length k a cid a' cid' sends : length (issued k a cid sends) = length (issued k a' cid' sends).
Proof. destruct sends as [|[] qs]; cbn [issued length]; try reflexivity. now rewrite !map_length. Qed.

Section Later.
Variables (auth : bytes -> bytes -> bool) (dbg : bool) (n : nat) (s s2 : sys) (ls : list label).
Hypothesis HQ : quiet auth dbg n s.
Hypothesis HS : steps auth dbg s ls = Some s2.
Hypothesis HN : only_newcomers auth dbg s s2.
Hypothesis HC : ctrl_c s2 = false.

Lemma later_reachable : reachable auth dbg n s2.
Proof. exact (reachable_steps _ _ _ _ _ _ (proj1 HQ) HS). Qed.

Lemma old_events k c : nth_error (conns s) k = Some c -> exists cid, events_of k (map snd (handled s)) = issued k (c_addr c) cid (client_sends dbg c).
Proof.
  intros Hk. destruct HQ as (HR & HT & HB & HA).
  destruct (C61_nothing_left_undone auth dbg n s HR HT HB HA) as (_ & H). destruct (H k c Hk) as ((cid & _ & E) & _). eauto.
Qed.

Lemma more_handled : exists more, handled s2 = handled s ++ more
  /\ forall te, In te more -> exists cp a k c, snd te = Connected cp a k /\ length (conns s) <= k /\ nth_error (conns s2) k = Some c
       /\ newcomer auth dbg c (client_id cp) /\ accepts auth cp.
Proof.
  destruct (handled_runs _ _ _ _ _ HS) as (more & E). exists more. split; [exact E|]. intros te Hin.
  pose proof later_reachable as HR2.
  assert (Hin2 : In (snd te) (map snd (handled s2))) by (apply in_map; rewrite E; apply in_or_app; now right).
  destruct (only_client_events auth dbg n s2 (snd te) HR2 ltac:(apply in_or_app; now left)) as (k & Hk).
  destruct (Nat.lt_ge_cases k (length (conns s))) as [Hlt|Hge].
  - exfalso. destruct (nth_error (conns s) k) as [c|] eqn:Hc; [|apply nth_error_None in Hc; lia].
    destruct (old_events k c Hc) as (cid & E1). destruct (peer_run auth dbg ls s s2 k c HS Hc) as (c2 & Hc2 & Er & _).
    destruct (handled_prefix auth dbg n s2 k c2 HR2 Hc2) as (cid2 & m2 & E2). unfold client_sends in *. rewrite Er in E2.
    apply (f_equal (@length _)) in E1, E2. rewrite E, map_app, events_of_app, !app_length in E2.
    rewrite (issued_length k (c_addr c2) cid2 (c_addr c) cid) in E2.
    assert (length (events_of k (map snd more)) <> 0); [|lia].
    assert (K : In (snd te) (events_of k (map snd more))) by (apply in_events_of; [now apply in_map|exact Hk]).
    destruct (events_of k (map snd more)); [destruct K|discriminate].
  - destruct (snd te) as [cp a j|cid p j|cid|cid] eqn:ET; cbn [event_tx] in Hk; try discriminate; injection Hk as ->.
    + destruct (handled_who auth dbg n s2 cp a k HR2 Hin2) as (c & q & qs & Hc & Hs & Hg & Hl).
      destruct (HN k c Hge Hc) as (id & (p & Hp & Hid & Hne & Ha & Hb) & _ & _). rewrite Hp in Hs. injection Hs as <- <-.
      assert (Ei : client_id cp = id) by (rewrite <- Hid; apply Hg; congruence).
      exists cp, a, k, c. split; [reflexivity|]. split; [exact Hge|]. split; [exact Hc|]. split.
      * exists p. rewrite Ei. auto.
      * apply accepts_let_in. rewrite <- Hl. now apply accepts_let_in.
    + exfalso. destruct (handled_whose auth dbg n s2 cid p k HR2 Hin2) as (c & q & qs & Hc & Hs & _ & Hq).
      destruct (HN k c Hge Hc) as (id & (p' & Hp & _) & _). rewrite Hp in Hs. injection Hs as <- <-. destruct Hq.
Qed.

Lemma no_old_events k e : length (conns s) <= k -> In e (map snd (handled s)) -> event_tx e <> Some k.
Proof.
  intros Hk Hin HT. destruct e as [cp a j|cid p j|cid|cid]; cbn [event_tx] in HT; try discriminate; injection HT as ->.
  - destruct (handled_who auth dbg n s cp a k (proj1 HQ) Hin) as (c & _ & _ & Hc & _).
    assert (k < length (conns s)) by (apply nth_error_Some; congruence). lia.
  - destruct (handled_whose auth dbg n s cid p k (proj1 HQ) Hin) as (c & _ & _ & Hc & _).
    assert (k < length (conns s)) by (apply nth_error_Some; congruence). lia.
Qed.

Lemma new_not_told k : length (conns s) <= k -> ~ told_to_close s2 k.
Proof.
  intros Hk (f & H). apply put_to_in in H. apply (in_map snd) in H. cbn [snd] in H.
  destruct (C86_every_execution auth dbg n s2 k later_reachable) as ((rest & E) & _).
  assert (K : In ServerDisconnect (ref_sends auth ref_init (map snd (handled s2)) k)) by (rewrite E; apply in_or_app; now left).
  destruct (close_cause auth k _ _ K) as (e & He & HT & HM). destruct more_handled as (more & Em & HX).
  rewrite Em, map_app in He. apply in_app_or in He. destruct He as [He|He]; [exact (no_old_events k e Hk He HT)|].
  apply in_map_iff in He. destruct He as (te & <- & Hin). destruct (HX te Hin) as (cp & a & j & c & Et & _ & _ & _ & Ha).
  rewrite Et in HM. apply accepts_let_in in Ha. congruence.
Qed.

Lemma still_alive : handler_alive (hdl s2) = true.
Proof.
  destruct (handler_alive (hdl s2)) eqn:EA; [reflexivity|exfalso].
  destruct (C53_why_the_handler_ends auth dbg n s2 later_reachable EA) as [(_ & K)|(EH & h & te & m & l & Eh & _ & K)]; [congruence|].
  destruct more_handled as (more & Em & HX). destruct more as [|x more] using rev_ind; [|clear IHmore].
  - rewrite app_nil_r in Em. destruct (idle_run auth dbg ls s s2 HS (quiet_idle _ _ _ _ HQ) Em); congruence.
  - rewrite app_assoc, Eh in Em. apply app_inj_tail in Em. destruct Em as (_ & ->).
    destruct (HX x ltac:(apply in_or_app; right; now left)) as (cp & a & k & c & Et & Hge & _ & _ & Ha). destruct K as [K|K].
    + destruct K as (c' & a' & k' & u & E & Hu & Hp). rewrite Et in E. injection E as <- <- <-. unfold accepts in Ha. now rewrite Hu, Hp in Ha.
    + destruct K as (k' & e & f & Hin & Hlog). destruct x as [t x]. cbn [snd] in Et. subst x.
      rewrite (handle_accepted auth m t cp a k Ha) in Hin. destruct Hin as [[= <- _]|[]].
      apply (new_not_told k Hge). now exists f.
Qed.

Lemma later_unblocked : forall k c, nth_error (conns s2) k = Some c -> ~ blocks (c_wsock c).
Proof.
  intros k c Hk. destruct (nth_error (conns s) k) as [c0|] eqn:H0.
  - destruct (peer_run auth dbg ls s s2 k c0 HS H0) as (c' & Hc' & _ & Ew). rewrite Hk in Hc'. injection Hc' as <-. rewrite Ew.
    destruct HQ as (_ & _ & HB & _). exact (HB k c0 H0).
  - apply nth_error_None in H0. destruct (HN k c H0 Hk) as (id & (p & _ & _ & _ & _ & Hb) & _). exact Hb.
Qed.

Hypothesis HT : at_rest auth dbg s2.

Lemma later_quiet : quiet auth dbg n s2.
Proof. split; [exact later_reachable|]. split; [exact HT|]. split; [exact later_unblocked|exact still_alive]. Qed.

Lemma old_owner k cid : owns auth (handled s) k cid -> owns auth (handled s2) k cid.
Proof.
  intros HO. pose proof HO as (b & te & a & Eh & Ha & H1 & H2). destruct more_handled as (more & Em & HX).
  exists b, te, (a ++ more). split; [rewrite Em, Eh, <- app_assoc; reflexivity|]. split; [exact Ha|].
  assert (ND : forall x, In x more -> exists cp a k, snd x = Connected cp a k /\ client_id cp <> cid).
  { intros x Hx. destruct (HX x Hx) as (cp & a' & j & c & Et & Hge & Hc & Hnew & _). exists cp, a', j. split; [exact Et|]. intros <-.
    destruct (HN j c Hge Hc) as (id & (p & Hp & Hid & _) & Hfree & _). destruct Hnew as (p' & Hp' & Hid' & _).
    rewrite Hp in Hp'. injection Hp' as <-. apply (Hfree k). rewrite <- Hid, Hid'. exact HO. }
  split.
  - intros x Hx. apply in_app_or in Hx. destruct Hx as [Hx|Hx]; [now apply H1|].
    destruct (ND x Hx) as (cp & a' & j & Et & _). intros [(k' & E)|E]; congruence.
  - intros x k' Hx. apply in_app_or in Hx. destruct Hx as [Hx|Hx]; [now apply H2|].
    destruct (ND x Hx) as (cp & a' & j & Et & Hne). intros (c' & a2 & E & Hid & _). rewrite Et in E. injection E as <- _ _. congruence.
Qed.

Lemma new_owner k c : length (conns s) <= k -> nth_error (conns s2) k = Some c -> exists cid, owns auth (handled s2) k cid.
Proof.
  intros Hge Hk. destruct (HN k c Hge Hk) as (id & (p & Hp & Hid & Hne & Ha & _) & _ & Hdist).
  pose proof later_quiet as (HR2 & HT2 & HB2 & HA2).
  destruct (C61_nothing_left_undone auth dbg n s2 HR2 HT2 HB2 HA2) as (_ & H). destruct (H k c Hk) as ((cid & Hg & E) & _). clear H.
  unfold client_sends in Hp. specialize (Hg p [] Hp). unfold client_sends in E. rewrite Hp in E. cbn [issued map] in E.
  destruct more_handled as (more & Em & HX). rewrite Em, map_app, events_of_app in E.
  assert (E0 : events_of k (map snd (handled s)) = []).
  { destruct (events_of k (map snd (handled s))) as [|e es] eqn:EE; [reflexivity|exfalso].
    assert (K : In e (events_of k (map snd (handled s)))) by (rewrite EE; now left). apply filter_In in K. destruct K as (K1 & K2).
    apply (no_old_events k e Hge K1). unfold opt_is in K2. destruct (event_tx e); [|discriminate]. apply Nat.eqb_eq in K2. now subst. }
  rewrite E0 in E. cbn [app] in E. destruct (events_of_split _ _ _ _ E) as (e1 & e2 & E1 & E2).
  apply map_eq_app in E1. destruct E1 as (m1 & m2 & -> & <- & E1). destruct m2 as [|te m2]; [discriminate|]. injection E1 as Et E1.
  exists id. exists (handled s ++ m1), te, m2. split; [rewrite Em, app_assoc; reflexivity|]. split.
  { eexists. eexists. split; [exact Et|]. cbn [client_id]. split; [rewrite Hg; [exact Hid|congruence]|exact Ha]. }
  split; intros x.
  - intros Hx. destruct (HX x ltac:(apply in_or_app; right; now right)) as (cp & a & j & c' & Ex & _). intros [(k' & K)|K]; congruence.
  - intros k' Hx (c' & a & Ex & Hid' & _). destruct (HX x ltac:(apply in_or_app; right; now right)) as (cp & a' & j & cj & Ex' & Hj & Hcj & Hnew & _).
    rewrite Ex in Ex'. injection Ex' as <- <- <-. rewrite Hid' in Hnew. destruct (Nat.eq_dec k' k) as [->|Hd]; [|exact (Hdist k' cj Hj Hd Hcj Hnew)].
    assert (K : In (snd x) (events_of k e2)) by (apply in_events_of; [rewrite <- E1; now apply in_map|rewrite Ex; reflexivity]).
    rewrite E2 in K. destruct K.
Qed.

Lemma rest_all_held k c : nth_error (conns s2) k = Some c ->
  match nth_error (conns s) k with Some c0 => held c0 = true | None => True end -> held c = true.
Proof.
  intros Hk H0. destruct (held c) eqn:EH; [reflexivity|exfalso].
  assert (EC : c_reader c = RDone /\ exists ws, c_writer c = WClosed ws).
  { unfold held in EH. destruct (c_reader c); try discriminate. destruct (c_writer c); try discriminate. eauto. }
  destruct EC as (ER & EW). apply (C80_when_closed auth dbg n s2 k c later_quiet Hk ER) in EW.
  destruct (nth_error (conns s) k) as [c0|] eqn:Hk0.
  - destruct (rest_waits auth dbg n s k c0 HQ Hk0) as [HW|HD].
    { destruct (waits_run auth dbg ls s s2 k c0 HS Hk0 HW) as (c' & Hc' & E). rewrite Hk in Hc'. injection Hc' as <-.
      rewrite ER in E. rewrite <- E in HW. exact HW. }
    assert (HO : exists cid, owns auth (handled s) k cid).
    { destruct HQ as (HR & HT1 & HB & HA). destruct (C61_nothing_left_undone auth dbg n s HR HT1 HB HA) as (Haft & _).
      destruct (session_of k (svc s)) eqn:ES.
      - unfold session_of in ES. apply existsb_exists in ES. destruct ES as ((cid & x) & Hx & Ex). cbn [snd] in Ex. apply Nat.eqb_eq in Ex.
        exists cid. apply (C32_session_belongs_to_owner auth _ _ cid k Haft). exists x. split; [|congruence].
        apply hm_In_get; [exact (after_ok auth _ _ Haft)|exact Hx].
      - exfalso. assert (K : exists ws, c_writer c0 = WClosed ws).
        { apply (C80_when_closed auth dbg n s k c0 HQ Hk0 HD). right. intros cid Ho.
          apply (C32_session_belongs_to_owner auth _ _ cid k Haft) in Ho. destruct Ho as (x & Hx & Ex).
          apply hm_get_In in Hx. apply (proj1 (session_of_false k (svc s)) ES _ Hx Ex). }
        destruct K as (ws & K). unfold held in H0. rewrite HD, K in H0. discriminate. }
    destruct HO as (cid & HO). destruct EW as [(f & EW)|EW]; [|exact (EW cid (old_owner k cid HO))].
    apply put_to_in in EW. apply (in_map snd) in EW. cbn [snd] in EW. rewrite (rest_sends auth dbg n s2 k later_quiet) in EW.
    destruct more_handled as (more & Em & HX). rewrite Em, map_app in EW.
    destruct (ref_sends_more auth k (map snd more) (map snd (handled s)) ref_init) as (rest & Er & Hrest). rewrite Er in EW.
    apply in_app_or in EW. destruct EW as [EW|EW].
    + rewrite <- (rest_sends auth dbg n s k HQ) in EW. apply in_map_iff in EW. destruct EW as ((f' & e) & E & EW). cbn [snd] in E. subst e.
      apply put_to_in in EW. assert (K : exists ws, c_writer c0 = WClosed ws) by (apply (C80_when_closed auth dbg n s k c0 HQ Hk0 HD); left; now exists f').
      destruct K as (ws & K). unfold held in H0. rewrite HD, K in H0. discriminate.
    + destruct Hrest as [->|(r' & ->)]; [destruct EW|]. destruct (close_cause auth k _ _ EW) as (e & He & _ & HM).
      apply in_map_iff in He. destruct He as (te & <- & Hin). destruct (HX te Hin) as (cp & a & j & cj & Et & _ & _ & _ & Ha).
      rewrite Et in HM. apply accepts_let_in in Ha. congruence.
  - apply nth_error_None in Hk0. destruct (new_owner k c Hk0 Hk) as (cid & HO). destruct EW as [EW|EW]; [exact (new_not_told k Hk0 EW)|exact (EW cid HO)].
Qed.
End Later.

(** ** What is open at rest *)

Lemma session_owner_dec auth dbg n s k : quiet auth dbg n s ->
  (exists cid, owns auth (handled s) k cid) \/ forall cid, ~ owns auth (handled s) k cid.
Proof.
  intros (HR & HT1 & HB & HA). destruct (C61_nothing_left_undone auth dbg n s HR HT1 HB HA) as (Haft & _).
  destruct (session_of k (svc s)) eqn:ES.
  - left. unfold session_of in ES. apply existsb_exists in ES. destruct ES as ((cid & x) & Hx & Ex). cbn [snd] in Ex. apply Nat.eqb_eq in Ex.
    exists cid. apply (C32_session_belongs_to_owner auth _ _ cid k Haft). exists x. split; [|congruence].
    apply hm_In_get; [exact (after_ok auth _ _ Haft)|exact Hx].
  - right. intros cid Ho. apply (C32_session_belongs_to_owner auth _ _ cid k Haft) in Ho. destruct Ho as (x & Hx & Ex).
    apply hm_get_In in Hx. apply (proj1 (session_of_false k (svc s)) ES _ Hx Ex).
Qed.

(** At rest the broker keeps a socket open exactly if the peer may still send, or if the connection belongs to a client
    id and was not told to close: a client that left without DISCONNECT and whose id nobody used since. *)
Theorem C100_open_at_rest auth dbg n s k c : quiet auth dbg n s -> nth_error (conns s) k = Some c ->
  (held c = true <-> c_reader c <> RDone \/ (~ told_to_close s k /\ exists cid, owns auth (handled s) k cid)).
Proof.
  intros HQ Hk. pose proof (C80_when_closed auth dbg n s k c HQ Hk) as K.
  assert (HD : c_reader c = RDone \/ c_reader c <> RDone) by (destruct (c_reader c); auto; right; discriminate).
  destruct HD as [HD|HD].
  - specialize (K HD). assert (EH : held c = true <-> ~ exists ws, c_writer c = WClosed ws).
    { unfold held. rewrite HD. destruct (c_writer c); split; try reflexivity; try discriminate; try (intros _ (ws' & E); discriminate).
      intros H. exfalso. apply H. eauto. }
    rewrite EH, K. split.
    + intros H. right. split; [tauto|]. destruct (session_owner_dec auth dbg n s k HQ) as [HO|HO]; [exact HO|tauto].
    + intros [H|(H1 & (cid & H2))] [H3|H3]; try contradiction. exact (H3 cid H2).
  - split; [auto|]. intros _. unfold held. destruct (c_reader c); try reflexivity. congruence.
Qed.

(** ** Counting *)

Lemma held_count_eq (l : list cstate) : forall l', length l <= length l' ->
  (forall k c c', nth_error l k = Some c -> nth_error l' k = Some c' -> held c' = held c) ->
  (forall k c', length l <= k -> nth_error l' k = Some c' -> held c' = true) ->
  length (filter held l') = length (filter held l) + (length l' - length l).
Proof.
  induction l as [|x l IH]; intros l' HL H1 H2.
  - cbn [filter length]. rewrite Nat.sub_0_r. assert (K : filter held l' = l'); [|now rewrite K].
    clear H1 HL. induction l' as [|y l' IH]; [reflexivity|]. cbn [filter]. rewrite (H2 0 y); [|cbn; lia|reflexivity]. f_equal. apply IH.
    intros k c' _ Hk. apply (H2 (Datatypes.S k) c'); [cbn; lia|exact Hk].
  - destruct l' as [|x' l']; [cbn in HL; lia|]. cbn [filter length]. rewrite (H1 0 x x' eq_refl eq_refl).
    assert (K : length (filter held l') = length (filter held l) + (length l' - length l)).
    { apply IH; [cbn in HL; lia| |].
      - intros k c c' Hc Hc'. exact (H1 (Datatypes.S k) c c' Hc Hc').
      - intros k c' Hl Hc'. apply (H2 (Datatypes.S k) c'); [cbn; lia|exact Hc']. }
    destruct (held x); cbn [length]; lia.
Qed.

Lemma held_count_le (l : list cstate) : forall l', length l' = length l ->
  (forall k c c', nth_error l k = Some c -> nth_error l' k = Some c' -> held c' = true -> held c = true) ->
  length (filter held l') <= length (filter held l).
Proof.
  induction l as [|x l IH]; intros [|x' l'] HL H; try discriminate; [reflexivity|]. cbn [filter].
  assert (K : length (filter held l') <= length (filter held l)).
  { apply IH; [now injection HL|]. intros k. exact (H (Datatypes.S k)). }
  specialize (H 0 x x' eq_refl eq_refl). destruct (held x'); [rewrite (H eq_refl)|destruct (held x)]; cbn [length]; lia.
Qed.

Lemma step_ctrl_c auth dbg s l s' : step auth dbg s l = Some s' -> l <> LCtrlC -> ctrl_c s' = ctrl_c s.
Proof.
  intros H HL. unfold step in H. destruct (running s); [|discriminate]. destruct l as [r w a|k uuid|k|now| | | | |]; try congruence.
  - destruct (listeners s); [discriminate|]. injection H as <-. reflexivity.
  - revert H. unfold step_reader.
    repeat match goal with |- context [match ?x with _ => _ end] => destruct x; try discriminate end; intros [= <-]; reflexivity.
  - revert H. unfold step_writer.
    repeat match goal with |- context [match ?x with _ => _ end] => destruct x; try discriminate end; intros [= <-]; reflexivity.
  - unfold step_handler in H. destruct (hdl s) as [|tx p| |]; try discriminate.
    + destruct (events s); [discriminate|]. injection H as <-. reflexivity.
    + destruct p as [| |R op f|to e p]; try (injection H as <-; reflexivity).
      * destruct (serve (svc s) op). injection H as <-. reflexivity.
      * destruct (nth_error (conns s) to) as [c|]; [|discriminate].
        destruct (c_writer c); try (destruct (length (c_queue c) <? channel_size); [|discriminate]); injection H as <-; reflexivity.
  - destruct (hdl s); try discriminate. destruct (ctrl_c s) eqn:E; [|discriminate]. injection H as <-. exact E.
  - destruct (listeners s); try discriminate. destruct (ctrl_c s) eqn:E; [|discriminate]. injection H as <-. exact E.
  - destruct (service_running s && _); [|discriminate]. injection H as <-. reflexivity.
  - unfold step_main in H. destruct (main s); try discriminate.
    + destruct (Nat.eqb (listeners s) 0); [|discriminate]. injection H as <-. reflexivity.
    + destruct (service_running s); [discriminate|]. injection H as <-. reflexivity.
    + destruct (hdl s); try discriminate; injection H as <-; reflexivity.
Qed.

Lemma ctrl_c_stays auth dbg s l s' : step auth dbg s l = Some s' -> ctrl_c s' = false -> ctrl_c s = false.
Proof.
  intros H HC. assert (D : l = LCtrlC \/ l <> LCtrlC) by (destruct l; auto; right; discriminate). destruct D as [->|D].
  - unfold step in H. destruct (running s); [|discriminate]. destruct (main s); try discriminate.
    destruct (handler_alive (hdl s) || _); injection H as <-; [discriminate HC|exact HC].
  - now rewrite <- (step_ctrl_c _ _ _ _ _ H D).
Qed.

Lemma newcomers_stay auth dbg s s' l s2 : internal l \/ l = LCtrlC -> step auth dbg s' l = Some s2 -> only_newcomers auth dbg s s' -> only_newcomers auth dbg s s2.
Proof.
  intros Hl Hs HN k c Hge Hk. pose proof (step_trans _ _ _ _ _ Hs) as T.
  assert (HLn : length (conns s2) = length (conns s')).
  { destruct Hl as [Hl| ->]; [exact (no_new_conns auth dbg s' l s2 Hl Hs)|].
    unfold step in Hs. destruct (running s'); [|discriminate]. destruct (main s'); try discriminate.
    destruct (handler_alive (hdl s') || _); injection Hs as <-; reflexivity. }
  assert (B : forall j cj, nth_error (conns s2) j = Some cj ->
    exists c0, nth_error (conns s') j = Some c0 /\ forall id, newcomer auth dbg c0 id <-> newcomer auth dbg cj id).
  { intros j cj Hj. destruct (peers_stay auth dbg s' s2 T j cj Hj) as [(c0 & H0 & E1 & E2)|K].
    - exists c0. split; [exact H0|]. intros id. unfold newcomer, client_sends. now rewrite E1, E2.
    - exfalso. apply nth_error_None in K. rewrite <- HLn in K. apply nth_error_None in K. congruence. }
  destruct (B k c Hk) as (c0 & H0 & E0). destruct (HN k c0 Hge H0) as (id & Hid & Hf & Hd).
  exists id. split; [now apply E0|]. split; [exact Hf|]. intros j c' Hj Hne Hc'. destruct (B j c' Hc') as (c1 & H1 & E1).
  intros K. apply (Hd j c1 Hj Hne H1). now apply E1.
Qed.

(** As long as only newcomers come, no socket is closed. *)
Theorem C100_none_closed auth dbg n s ls s' : quiet auth dbg n s -> steps auth dbg s ls = Some s' -> ctrl_c s' = false ->
  only_newcomers auth dbg s s' ->
  open_sockets s' = open_sockets s + (length (conns s') - length (conns s)) /\ handler_alive (hdl s') = true.
Proof.
  intros HQ HS HC HN. split; [|exact (still_alive auth dbg n s s' ls HQ HS HN HC)].
  assert (HR : reachable auth dbg n s') by (exact (reachable_steps _ _ _ _ _ _ (proj1 HQ) HS)).
  destruct (runs_to_rest auth dbg n (fun s2 => (exists ls2, steps auth dbg s' ls2 = Some s2) /\ ctrl_c s2 = false /\ only_newcomers auth dbg s s2))
    with (s := s') as (s2 & HR2 & ((ls2 & H2) & HC2 & HN2) & HT2); [|exact HR|split; [exists []; reflexivity|auto]|].
  { intros x l x' _ ((lx & Hx) & Hcx & Hnx) Hl Hst. split; [exists (lx ++ [l]); rewrite steps_app, Hx; cbn; now rewrite Hst|].
    split; [rewrite (step_ctrl_c _ _ _ _ _ Hst); [exact Hcx|destruct l; try discriminate; destruct Hl]|].
    exact (newcomers_stay auth dbg s x l x' (or_introl Hl) Hst Hnx). }
  assert (H02 : steps auth dbg s (ls ++ ls2) = Some s2) by (rewrite steps_app, HS; exact H2).
  pose proof (rest_all_held auth dbg n s s2 (ls ++ ls2) HQ H02 HN2 HC2 HT2) as HA.
  unfold open_sockets. apply held_count_eq.
  - destruct (Nat.le_gt_cases (length (conns s)) (length (conns s'))) as [K|K]; [exact K|exfalso].
    destruct (nth_error (conns s) (length (conns s'))) as [c|] eqn:E; [|apply nth_error_None in E; lia].
    destruct (peer_run auth dbg ls s s' _ c HS E) as (c' & E' & _). assert (length (conns s') < length (conns s')) by (apply nth_error_Some; congruence). lia.
  - intros k c c' Hk Hk'. destruct (closed_stays_run auth dbg ls s s' k c HS Hk) as (c1 & E1 & K1). rewrite Hk' in E1. injection E1 as <-.
    destruct (held c) eqn:EC; [|destruct (held c'); [now specialize (K1 eq_refl)|reflexivity]].
    destruct (closed_stays_run auth dbg ls2 s' s2 k c' H2 Hk') as (c2 & E2 & K2). apply K2. apply (HA k c2 E2). now rewrite Hk.
  - intros k c' Hge Hk'. destruct (closed_stays_run auth dbg ls2 s' s2 k c' H2 Hk') as (c2 & E2 & K2). apply K2. apply (HA k c2 E2).
    apply nth_error_None in Hge. now rewrite Hge.
Qed.

(** ** The limit is kept, and can be reached for ever *)

Theorem C100_limit_kept auth dbg limit n s : nreachable auth dbg limit n s -> open_sockets s <= limit.
Proof.
  intros (ls & H). revert s H. induction ls as [|l ls IH] using rev_ind; intros s H.
  - injection H as <-. cbn. lia.
  - assert (E : exists s1, nsteps auth dbg limit (sys_init n) ls = Some s1 /\ nstep auth dbg limit s1 l = Some s).
    { clear IH. revert H. generalize (sys_init n). induction ls as [|x ls IH]; cbn [app nsteps]; intros s0.
      - destruct (nstep auth dbg limit s0 l) as [s1|] eqn:E; [|discriminate]. intros [= <-]. eauto.
      - destruct (nstep auth dbg limit s0 x); [apply IH|discriminate]. }
    destruct E as (s1 & E1 & E2). specialize (IH s1 E1). unfold open_sockets in *.
    assert (D : (exists r w a, l = LAccept r w a) \/ forall r w a, l <> LAccept r w a) by (destruct l; try (right; discriminate); left; eauto).
    destruct D as [(r & w & a & ->)|D].
    + cbn [nstep] in E2. destruct (Nat.ltb_spec (open_sockets s1) limit) as [HL|]; [|discriminate]. unfold open_sockets in HL.
      unfold step in E2. destruct (running s1); [|discriminate]. destruct (listeners s1); [discriminate|]. injection E2 as <-.
      cbn [conns set_conns]. rewrite filter_app, app_length. cbn. lia.
    + apply nstep_step in E2. etransitivity; [|exact IH]. apply held_count_le.
      * assert (D2 : internal l \/ l = LCtrlC) by (destruct l; try (left; exact I); [destruct (D r w address eq_refl)|now right]).
        destruct D2 as [D2| ->]; [exact (no_new_conns auth dbg s1 l s D2 E2)|].
        unfold step in E2. destruct (running s1); [|discriminate]. destruct (main s1); try discriminate.
        destruct (handler_alive (hdl s1) || _); injection E2 as <-; reflexivity.
      * intros k c c' Hk Hk'. destruct (closed_stays auth dbg s1 s (step_trans _ _ _ _ _ E2) k c Hk) as (c1 & H1 & K1). rewrite Hk' in H1.
        injection H1 as <-. exact K1.
Qed.

(** When newcomers have taken all there are, nobody is accepted any more. *)
Theorem C100_full_for_ever auth dbg limit n s ls s' : quiet auth dbg n s -> nsteps auth dbg limit s ls = Some s' ->
  only_newcomers auth dbg s s' -> open_sockets s' = limit ->
  forall ls2 s2, nsteps auth dbg limit s' ls2 = Some s2 -> ctrl_c s2 = false ->
  peers s2 = peers s' /\ open_sockets s2 = limit /\ handler_alive (hdl s2) = true
  /\ forall r w a, nstep auth dbg limit s2 (LAccept r w a) = None.
Proof.
  intros HQ HS HN HO ls2. induction ls2 as [|l ls2 IH] using rev_ind; intros s2 H2 HC.
  - injection H2 as <-. split; [reflexivity|]. split; [exact HO|].
    split; [exact (proj2 (C100_none_closed auth dbg n s ls s' HQ (nsteps_steps _ _ _ _ _ _ HS) HC HN))|].
    intros r w a. cbn [nstep]. now rewrite HO, Nat.ltb_irrefl.
  - assert (E : exists s1, nsteps auth dbg limit s' ls2 = Some s1 /\ nstep auth dbg limit s1 l = Some s2).
    { clear - H2. revert H2. generalize s'. induction ls2 as [|x ls2 IH]; cbn [app nsteps]; intros s0.
      - destruct (nstep auth dbg limit s0 l) as [s1|] eqn:E; [|discriminate]. intros [= <-]. eauto.
      - destruct (nstep auth dbg limit s0 x); [apply IH|discriminate]. }
    destruct E as (s1 & E1 & E2). pose proof (nstep_step _ _ _ _ _ _ E2) as E3.
    destruct (IH s1 E1 (ctrl_c_stays _ _ _ _ _ E3 HC)) as (P1 & O1 & A1 & F1).
    assert (HL : internal l).
    { destruct l; try exact I; [rewrite (F1 r w address) in E2; discriminate|]. exfalso. cbn [nstep] in E2.
      unfold step in E2. destruct (running s1); [|discriminate]. destruct (main s1); try discriminate. rewrite A1 in E2. cbn [orb] in E2.
      injection E2 as <-. discriminate HC. }
    assert (PS : peers s2 = peers s') by (rewrite (peers_step auth dbg s1 l s2 HL E3); exact P1).
    assert (HN2 : only_newcomers auth dbg s s2).
    { revert HN PS. clear. intros HN PS k c Hge Hk.
      assert (B : forall j cj, nth_error (conns s2) j = Some cj ->
        exists c0, nth_error (conns s') j = Some c0 /\ forall id, newcomer auth dbg c0 id <-> newcomer auth dbg cj id).
      { intros j cj Hj. assert (K : nth_error (peers s2) j = Some (c_rsock cj, c_wsock cj, c_addr cj)) by (unfold peers; now rewrite nth_error_map, Hj).
        rewrite PS in K. destruct (nth_peers s' j _ _ _ K) as (c0 & H0 & E1 & E2 & _). exists c0. split; [exact H0|].
        intros id. unfold newcomer, client_sends. now rewrite E1, E2. }
      destruct (B k c Hk) as (c0 & H0 & E0). destruct (HN k c0 Hge H0) as (id & Hid & Hf & Hd).
      exists id. split; [now apply E0|]. split; [exact Hf|]. intros j c' Hj Hne Hc'. destruct (B j c' Hc') as (c1 & H1 & E1).
      intros K. apply (Hd j c1 Hj Hne H1). now apply E1. }
    assert (LE : length (conns s2) = length (conns s')) by (apply (f_equal (@length _)) in PS; unfold peers in PS; now rewrite !map_length in PS).
    assert (ST : steps auth dbg s ((ls ++ ls2) ++ [l]) = Some s2).
    { rewrite !steps_app, (nsteps_steps _ _ _ _ _ _ HS), (nsteps_steps _ _ _ _ _ _ E1). cbn [steps]. now rewrite E3. }
    destruct (C100_none_closed auth dbg n s _ s2 HQ ST HC HN2) as (K1 & K2).
    assert (O2 : open_sockets s2 = limit).
    { assert (HC' : ctrl_c s' = false).
      { pose proof (ctrl_c_stays _ _ _ _ _ E3 HC) as HC1. revert E1 HC1. clear. generalize s'. induction ls2 as [|x ls2 IH]; cbn [nsteps]; intros s0 H HC1.
        - injection H as ->. exact HC1.
        - destruct (nstep auth dbg limit s0 x) as [s3|] eqn:E; [|discriminate]. apply (ctrl_c_stays auth dbg s0 x s3 (nstep_step _ _ _ _ _ _ E)). eauto. }
      destruct (C100_none_closed auth dbg n s ls s' HQ (nsteps_steps _ _ _ _ _ _ HS) HC' HN) as (K0 & _). rewrite K1, LE, <- HO, K0. reflexivity. }
    split; [exact PS|]. split; [exact O2|]. split; [exact K2|]. intros r w a. cbn [nstep]. now rewrite O2, Nat.ltb_irrefl.
Qed.

(** As many newcomers as there are sockets left can always come. *)
Theorem C100_can_be_filled auth dbg limit n s (nps : list peer) : quiet auth dbg n s -> listeners s <> 0 ->
  open_sockets s + length nps = limit ->
  exists s', nsteps auth dbg limit s (map (fun x => LAccept (fst (fst x)) (snd (fst x)) (snd x)) nps) = Some s'
    /\ peers s' = peers s ++ nps /\ handled s' = handled s /\ open_sockets s' = limit.
Proof.
  intros HQ HL HO. assert (Hr : running s = true) by (destruct HQ as (HR & _ & _ & HA); exact (alive_running auth dbg n s HR HA)).
  clear HQ. revert s HL HO Hr. induction nps as [|[[r w] a] nps IH]; intros s HL HO Hr.
  - exists s. cbn in *. rewrite app_nil_r. repeat split; auto; lia.
  - cbn [map fst snd nsteps nstep]. cbn [length] in HO. destruct (Nat.ltb_spec (open_sockets s) limit) as [HO1|HO1]; [|lia].
    unfold step. rewrite Hr. destruct (listeners s) as [|m] eqn:EL; [congruence|].
    set (s1 := set_conns (conns s ++ [new_conn r w a]) s).
    destruct (IH s1) as (s' & E1 & E2 & E3 & E4).
    + cbn. congruence.
    + unfold open_sockets, s1 in *. cbn [conns set_conns]. rewrite filter_app, app_length. cbn. lia.
    + exact Hr.
    + exists s'. split; [exact E1|]. split; [|auto]. rewrite E2. unfold peers, s1. cbn [conns set_conns]. rewrite map_app, <- app_assoc. reflexivity.
Qed.

(** Put together: from every quiet state, as many strangers as there are sockets left, each sending one CONNECT and
    nothing else, shut everybody else out for as long as the broker runs. *)
Theorem C100_nobody_else auth dbg limit n s (nps : list peer) : quiet auth dbg n s -> listeners s <> 0 -> 
  open_sockets s + length nps = limit ->
  (forall i r w a, nth_error nps i = Some (r, w, a) ->
     exists id, newcomer auth dbg (new_conn r w a) id /\ (forall j, ~ owns auth (handled s) j id)
       /\ forall j r' w' a', j <> i -> nth_error nps j = Some (r', w', a') -> ~ newcomer auth dbg (new_conn r' w' a') id) ->
  exists ls s', nsteps auth dbg limit s ls = Some s'
    /\ forall ls2 s2, nsteps auth dbg limit s' ls2 = Some s2 -> ctrl_c s2 = false ->
         peers s2 = peers s ++ nps /\ forall r w a, nstep auth dbg limit s2 (LAccept r w a) = None.
Proof.
  intros HQ HL HO HP. destruct (C100_can_be_filled auth dbg limit n s nps HQ HL HO) as (s' & E1 & E2 & E3 & E4).
  eexists _, s'. split; [exact E1|]. intros ls2 s2 H2 HC. rewrite <- E2.
  assert (LP : length (conns s) = length (peers s)) by (unfold peers; now rewrite map_length).
  assert (B : forall j c, length (conns s) <= j -> nth_error (conns s') j = Some c ->
    nth_error nps (j - length (conns s)) = Some (c_rsock c, c_wsock c, c_addr c)).
  { intros j c Hge Hj. assert (K : nth_error (peers s') j = Some (c_rsock c, c_wsock c, c_addr c)) by (unfold peers; now rewrite nth_error_map, Hj).
    rewrite E2, nth_error_app2 in K by lia. now rewrite LP. }
  assert (W : forall c id, newcomer auth dbg (new_conn (c_rsock c) (c_wsock c) (c_addr c)) id <-> newcomer auth dbg c id) by reflexivity.
  assert (HN : only_newcomers auth dbg s s').
  { intros k c Hge Hk. destruct (HP _ _ _ _ (B k c Hge Hk)) as (id & Hi & Hf & Hd). exists id. split; [now apply W|]. split; [exact Hf|].
    intros j c' Hj Hne Hc'. rewrite <- W. apply (Hd (j - length (conns s))); [lia|exact (B j c' Hj Hc')]. }
  destruct (C100_full_for_ever auth dbg limit n s _ s' HQ E1 HN E4 ls2 s2 H2 HC) as (K1 & _ & _ & K2). auto.
Qed.

(** Room for three. Client "x" came, stayed and is served. "a" and "b" come, send CONNECT and are gone; their sockets stay,
    and "y" is not accepted. Had they sent DISCONNECT as well, "y" would be. *)
Definition ndrive auth dbg limit (s : sys) (ls : list label) : sys :=
  fold_left (fun s l => match nstep auth dbg limit s l with Some s' => s' | None => s end) ls s.

Definition ex_stays : list label :=
  LAccept (ex_peer [ex_client "x" None None] PeerOpen) (ex_socket []) 1 :: ex_rounds 10 [0].

Definition ex_gone (ps : list ControlPacket) : list label :=
  [LAccept (ex_peer (ex_client "a" None None :: ps) PeerEof) (ex_socket []) 2;
   LAccept (ex_peer (ex_client "b" None None :: ps) PeerEof) (ex_socket []) 3] ++ ex_rounds 20 [1; 2].

Definition ex_late : label := LAccept (ex_peer [ex_client "y" None None] PeerOpen) (ex_socket []) 4.

Lemma some3 {A B C} (x x' : A) (y y' : B) (z z' : C) : Some (x, y, z) = Some (x', y', z') -> x = x' /\ y = y' /\ z = z'.
Proof. intros [= -> -> ->]. auto. Qed.

Example C100_case :
  (let s := drive ex_deny true (sys_init 1) ex_stays in
   quiet ex_deny true 1 s /\ listeners s = 1 /\ open_sockets s = 1)
  /\ (let s := ndrive ex_deny true 3 (drive ex_deny true (sys_init 1) ex_stays) (ex_gone []) in
      length (conns s) = 3 /\ open_sockets s = 3 /\ nstep ex_deny true 3 s ex_late = None
      /\ handler_alive (hdl s) = true)
  /\ (let s := ndrive ex_deny true 3 (drive ex_deny true (sys_init 1) ex_stays) (ex_gone [Disconnect]) in
      length (conns s) = 3 /\ open_sockets s = 1 /\ nstep ex_deny true 3 s ex_late <> None)
  /\ (forall i r w a, nth_error [(ex_peer [ex_client "a" None None] PeerEof, ex_socket [], 2%N);
                                 (ex_peer [ex_client "b" None None] PeerEof, ex_socket [], 3%N)] i = Some (r, w, a) ->
      exists id, newcomer ex_deny true (new_conn r w a) id
        /\ forall j r' w' a', j <> i -> nth_error [(ex_peer [ex_client "a" None None] PeerEof, ex_socket [], 2%N);
                                 (ex_peer [ex_client "b" None None] PeerEof, ex_socket [], 3%N)] j = Some (r', w', a') ->
             ~ newcomer ex_deny true (new_conn r' w' a') id).
Proof.
  split; [split; [apply quiet_run; vm_compute; reflexivity|split; vm_compute; reflexivity]|].
  split; [repeat split; try (vm_compute; reflexivity); vm_compute; discriminate|].
  split; [repeat split; try (vm_compute; reflexivity); vm_compute; discriminate|].
  assert (NA : client_sends true (new_conn (ex_peer [ex_client "a" None None] PeerEof) (ex_socket []) 2) = [ex_client "a" None None])
    by (vm_compute; reflexivity).
  assert (NB : client_sends true (new_conn (ex_peer [ex_client "b" None None] PeerEof) (ex_socket []) 3) = [ex_client "b" None None])
    by (vm_compute; reflexivity).
  intros [|[|[|i]]] r w a; cbn [nth_error]; intros H; [| |discriminate|discriminate]; apply some3 in H as (<- & <- & <-).
  - exists (str "a"). split.
    + eexists. split; [exact NA|]. repeat split; [discriminate|intros []].
    + intros [|[|[|j]]] r' w' a' Hj; cbn [nth_error]; intros H; [now elim Hj| |discriminate|discriminate].
      apply some3 in H as (<- & <- & <-).
      intros (p & E & Ei & _). rewrite NB in E. injection E as <-. discriminate Ei.
  - exists (str "b"). split.
    + eexists. split; [exact NB|]. repeat split; [discriminate|intros []].
    + intros [|[|[|j]]] r' w' a' Hj; cbn [nth_error]; intros H; [|now elim Hj|discriminate|discriminate].
      apply some3 in H as (<- & <- & <-).
      intros (p & E & Ei & _). rewrite NA in E. injection E as <-. discriminate Ei.
Qed.
