(** Causes of sends, and what the handler can always do. *)
From Verif Require Import Base Base_facts Packets HashMap Subscriptions Messaging Handler Decoder ReadStream
  ReadStream_facts Conn Conn_facts
  Encoder Encoder_facts WriteStream WriteStream_facts Spec_broker Handler_facts System System_facts System_hist
  System_conn System_queue System_first.

(** ** Causes *)

Theorem log_cause auth dbg n s src dst e : reachable auth dbg n s -> In (src, dst, e) (log s) ->
  exists h1 te h2 m1 l1, handled s = h1 ++ te :: h2
    /\ handle_all auth MessagingService_new h1 = (m1, l1, Finished)
    /\ event_tx (snd te) = src /\ In (dst, e) (snd (fst (handle auth m1 te))).
Proof.
  intros HR. revert s HR. apply (reachable_trans_ind auth dbg n (fun s => In (src, dst, e) (log s) ->
    exists h1 te h2 m1 l1, handled s = h1 ++ te :: h2
    /\ handle_all auth MessagingService_new h1 = (m1, l1, Finished)
    /\ event_tx (snd te) = src /\ In (dst, e) (snd (fst (handle auth m1 te))))).
  - intros [].
  - intros s s' HR HI T. destruct T; try exact HI.
    + intros Hin. destruct (HI Hin) as (h1 & te & h2 & m1 & l1 & E & K). exists h1, te, (h2 ++ [(now, e0)]), m1, l1.
      split; [|exact K]. cbn [handled set_hdl set_handled set_events]. rewrite E, <- app_assoc. reflexivity.
    + cbn [log handled set_hdl set_log set_conn set_conns]. intros Hin. apply in_app_or in Hin.
      destruct Hin as [Hin|[[= -> -> ->]|[]]]; [now apply HI|].
      pose proof (hist_invariant auth dbg n s HR) as HH. unfold hist_inv in HH. rewrite H in HH.
      destruct HH as (h & te & m0 & l0 & m & done & r & o & (Hh & Ha & He & Hl) & Ht & Hx).
      cbn [exec] in Hx. destruct (exec p (svc s)) as [[m' r'] o']. injection Hx as <- <- <-.
      exists h, te, [], m0, l0. split; [exact Hh|]. split; [exact Ha|]. split; [exact Ht|].
      rewrite He. cbn [fst snd]. apply in_or_app. right. now left.
Qed.

(** The read task issues only CONNECT and packet events. *)
Theorem only_client_events auth dbg n s e : reachable auth dbg n s ->
  In e (map snd (handled s) ++ events s) -> exists k, event_tx e = Some k.
Proof.
  intros HR. revert s HR. apply (reachable_trans_ind auth dbg n (fun s =>
    In e (map snd (handled s) ++ events s) -> exists k, event_tx e = Some k)).
  - intros [].
  - intros s s' HR HI T. destruct T; try exact HI.
    + cbn [handled events set_events set_conn set_conns]. rewrite app_assoc. intros Hin. apply in_app_or in Hin.
      destruct Hin as [Hin|[<-|[]]]; [now apply HI|].
      destruct (reader_invariant auth dbg n s HR k c H) as (rs0 & _ & Hd). rewrite H0 in Hd. exists k. apply Hd.
    + cbn [handled events set_events set_hdl set_handled]. rewrite map_app, <- app_assoc. cbn [map app snd].
      rewrite H0 in HI. exact HI.
    + cbn [handled events panic_handler set_events set_hdl]. intros Hin. apply HI. apply in_app_or in Hin.
      destruct Hin as [Hin|[]]. apply in_or_app. now left.
    + cbn [handled events panic_handler set_events set_hdl]. intros Hin. apply HI. apply in_app_or in Hin.
      destruct Hin as [Hin|[]]. apply in_or_app. now left.
    + cbn [handled events set_events set_hdl]. intros Hin. apply HI. apply in_app_or in Hin.
      destruct Hin as [Hin|[]]. apply in_or_app. now left.
Qed.

(** Whose sender a session holds. *)
Theorem no_event_no_session auth dbg n s k : reachable auth dbg n s ->
  events_of k (map snd (handled s)) = [] -> session_of k (svc s) = false.
Proof.
  intros HR. revert s HR. apply (reachable_trans_ind auth dbg n (fun s =>
    events_of k (map snd (handled s)) = [] -> session_of k (svc s) = false)).
  - reflexivity.
  - intros s s' HR HI T. destruct T; try exact HI.
    + cbn [handled svc set_hdl set_handled set_events]. rewrite map_app, events_of_app. intros E. apply HI.
      now destruct (app_eq_nil _ _ E).
    + cbn [handled svc set_hdl set_svc]. intros E. specialize (HI E).
      pose proof (hist_invariant auth dbg n s HR) as HH. unfold hist_inv in HH. rewrite H in HH.
      destruct HH as (h & te & m0 & l0 & m & done & r & o & (Hh & _) & Ht & _).
      assert (Htx : tx <> Some k).
      { intros ->. rewrite Hh, map_app, events_of_app in E. apply app_eq_nil in E. destruct E as (_ & E).
        cbn [map] in E. rewrite events_of_one, Ht in E. cbn in E. rewrite Nat.eqb_refl in E. discriminate. }
      apply serve_sessions; [|exact HI].
      pose proof (prog_invariant auth dbg n s HR) as HP. rewrite H in HP.
      destruct HP as [HP|[(q & E')|(l & e & E')]].
      * destruct (HP k Htx) as (Ho & _). destruct op; auto.
      * unfold on_publish in E'.
        pose (P := fun z : prog => match z with
                | Call (SessionInsert s0) _ => s_sender s0 <> k
                | _ => True end).
        assert (K : P (Call op f)) by (rewrite E'; exact I). unfold P in K. destruct op; auto.
      * destruct l; discriminate.
Qed.

(** ** Reading against the whole stream *)

Lemma reads_read_all dbg st ps st' : wf st -> reads dbg st ps st' ->
  wf st' /\ read_all dbg st = (ps ++ fst (read_all dbg st'), snd (read_all dbg st')).
Proof.
  intros W. induction 1 as [|ps st1 p st2 H (W1 & IH) E].
  - split; [exact W|]. now destruct (read_all dbg st).
  - destruct (read_packet_consumes dbg st1 p st2 W1 E) as (W2 & _). split; [exact W2|].
    rewrite IH, (read_all_step dbg st1 W1), E. destruct (read_all dbg st2) as [qs e]. cbn [fst snd].
    now rewrite <- app_assoc.
Qed.

Lemma wf_connection r : wf (connection_stream r).
Proof. unfold wf. cbn. discriminate. Qed.

(** The packets read from a connection are the first of those its bytes contain. *)
Theorem read_prefix auth dbg n s k c : reachable auth dbg n s -> nth_error (conns s) k = Some c ->
  exists rest, fst (read_all dbg (connection_stream (c_rsock c))) = c_read c ++ rest.
Proof.
  intros HR Hk. destruct (reader_invariant auth dbg n s HR k c Hk) as (rs & Hr & _).
  destruct (reads_read_all dbg _ _ _ (wf_connection (c_rsock c)) Hr) as (_ & E). rewrite E. cbn [fst]. eauto.
Qed.

(** ** Blocking *)

(** The handler waits for room in the queue of a connection whose socket takes no more data. *)
Definition stuck (s : sys) : Prop :=
  exists tx to e p c q ws, hdl s = HBusy tx (Send to e p) /\ nth_error (conns s) to = Some c
    /\ length (c_queue c) = channel_size /\ c_writer c = WBusy q ws /\ (exists st, write_packet q ws = WWait st).

Lemma stuck_forever auth dbg s s' : stuck s -> trans auth dbg s s' ->
  stuck s' /\ hdl s' = hdl s /\ handled s' = handled s /\ log s' = log s /\ svc s' = svc s
  /\ service_running s' = service_running s.
Proof.
  intros (tx & to & e & p & c & q & ws & Hh & Hc & Hq & Hw & st & Hb) T.
  assert (K : forall s1, hdl s1 = hdl s -> nth_error (conns s1) to = Some c -> stuck s1).
  { intros s1 E1 E2. exists tx, to, e, p, c, q, ws. rewrite E1. eauto 10. }
  assert (U : forall k c0 c' s1, nth_error (conns s) k = Some c0 -> conns s1 = update k c' (conns s) ->
              hdl s1 = hdl s -> (k = to -> c_queue c' = c_queue c /\ c_writer c' = c_writer c) -> stuck s1).
  { intros k c0 c' s1 Hk Ec E1 Hs. destruct (Nat.eqb_spec k to) as [->|Hn].
    - destruct (Hs eq_refl) as (Hs1 & Hs2). exists tx, to, e, p, c', q, ws. rewrite E1, Ec, nth_update, Nat.eqb_refl, Hk, Hs1, Hs2. eauto 10.
    - apply K; [exact E1|]. rewrite Ec, nth_update. destruct (Nat.eqb_spec to k); [congruence|]. exact Hc. }
  destruct T; try congruence;
    try (split; [apply K; [reflexivity|exact Hc]|auto]);
    try (split; [eapply U; [eassumption|reflexivity|reflexivity|]; intros ->; cbn; rewrite Hc in *; split; congruence|auto]).
  - split; [|auto]. apply K; [reflexivity|]. cbn [conns set_conns]. rewrite nth_error_snoc.
    assert (Hl : (to < length (conns s))%nat) by (apply nth_error_Some; congruence).
    destruct (Nat.eqb_spec to (length (conns s))); [lia|exact Hc].
  - split; [|auto]. eapply U; [eassumption|reflexivity|reflexivity|]. intros ->. rewrite Hc in H. injection H as <-.
    rewrite Hw in H0. injection H0 as <- <-. destruct H1; congruence.
  - exfalso. rewrite Hh in H. injection H as <- <- <- <-. rewrite Hc in H0. injection H0 as <-. lia.
  - exfalso. rewrite Hh in H0. discriminate.
Qed.

Lemma stuck_steps auth dbg ls : forall s s', stuck s -> steps auth dbg s ls = Some s' ->
  stuck s' /\ hdl s' = hdl s /\ handled s' = handled s /\ log s' = log s /\ svc s' = svc s
  /\ service_running s' = service_running s.
Proof.
  induction ls as [|l ls IH]; intros s s' Hs; cbn [steps].
  - intros [= <-]. auto 10.
  - destruct (step auth dbg s l) as [s1|] eqn:E; [|discriminate]. intros H. apply step_trans in E.
    destruct (stuck_forever auth dbg s s1 Hs E) as (Hs1 & E1 & E2 & E3 & E4 & E5).
    destruct (IH s1 s' Hs1 H) as (Hs2 & F1 & F2 & F3 & F4 & F5). split; [exact Hs2|]. repeat split; congruence.
Qed.

(** ** The handler can finish what it is doing *)

(** The rest of the state. *)
Definition same_env (s s' : sys) : Prop :=
  ctrl_c s' = ctrl_c s /\ main s' = main s /\ listeners s' = listeners s /\ handled s' = handled s
  /\ service_running s' = service_running s /\ length (conns s') = length (conns s).

Lemma same_env_trans s1 s2 s3 : same_env s1 s2 -> same_env s2 s3 -> same_env s1 s3.
Proof. intros (A1 & A2 & A3 & A4 & A5 & A6) (B1 & B2 & B3 & B4 & B5 & B6). repeat split; congruence. Qed.

Lemma same_env_running s s' : same_env s s' -> running s' = running s.
Proof. intros (_ & H & _). unfold running. now rewrite H. Qed.

(** Only the handler and write tasks move. *)
Definition inner (l : label) : Prop := match l with LHandler _ | LWriter _ => True | _ => False end.

(** A full queue gets room, the connection closes, or the socket blocks. *)
Lemma make_room auth dbg n s to c : reachable auth dbg n s -> running s = true ->
  nth_error (conns s) to = Some c -> length (c_queue c) = channel_size ->
  (exists q ws, c_writer c = WBusy q ws /\ (exists st, write_packet q ws = WWait st))
  \/ (exists ws, c_writer c = WClosed ws)
  \/ exists ls s' c', steps auth dbg s ls = Some s' /\ Forall inner ls /\ same_env s s' /\ hdl s' = hdl s
       /\ svc s' = svc s /\ events s' = events s /\ nth_error (conns s') to = Some c'
       /\ ((exists ws, c_writer c' = WClosed ws) \/
           ((forall ws, c_writer c' <> WClosed ws) /\ (length (c_queue c') < channel_size)%nat)).
Proof.
  intros HR Hrun Hc Hq.
  assert (HT : forall s1 c1 ws, running s1 = true -> nth_error (conns s1) to = Some c1 -> c_queue c1 = c_queue c ->
             c_writer c1 = WIdle ws ->
             exists s2 c2, step auth dbg s1 (LWriter to) = Some s2 /\ same_env s1 s2 /\ hdl s2 = hdl s1
               /\ svc s2 = svc s1 /\ events s2 = events s1 /\ nth_error (conns s2) to = Some c2
               /\ ((exists ws, c_writer c2 = WClosed ws) \/
                   ((forall ws, c_writer c2 <> WClosed ws) /\ (length (c_queue c2) < channel_size)%nat))).
  { intros s1 c1 ws Hr1 Hc1 Eq Hw. unfold step. rewrite Hr1. unfold step_writer. rewrite Hc1, Hw, Eq.
    destruct (c_queue c) as [|[f [p|]] q] eqn:EQ; [discriminate| |].
    - eexists. eexists. split; [reflexivity|]. cbn [conns set_conn set_conns]. rewrite nth_update, Nat.eqb_refl, Hc1.
      split; [repeat split; cbn; now rewrite update_length|].
      split; [reflexivity|]. split; [reflexivity|]. split; [reflexivity|]. split; [reflexivity|]. right.
      cbn [c_writer set_writer c_queue set_queue]. split; [discriminate|]. cbn [length] in Hq. lia.
    - eexists. eexists. split; [reflexivity|]. cbn [conns set_conn set_conns]. rewrite nth_update, Nat.eqb_refl, Hc1.
      split; [repeat split; cbn; now rewrite update_length|].
      split; [reflexivity|]. split; [reflexivity|]. split; [reflexivity|]. split; [reflexivity|]. left.
      cbn [c_writer set_writer c_queue set_queue]. eauto. }
  destruct (c_writer c) as [ws|q ws|ws] eqn:EW.
  - right. right. destruct (HT s c ws Hrun Hc eq_refl EW) as (s2 & c2 & Hs & E1 & E2 & E3 & E4 & E5 & E6).
    exists [LWriter to], s2, c2. cbn [steps]. rewrite Hs. split; [reflexivity|]. split; [repeat constructor|]. auto 10.
  - pose proof (queue_invariant auth dbg n s HR to) as HQ. unfold queue_ok in HQ. rewrite Hc in HQ.
    destruct HQ as (HWr & HP). unfold writer_ok in HWr. rewrite EW in *. destruct HWr as (ps & f & Es & Hwr & W).
    assert (Hp : writable q = true).
    { apply (log_writable auth dbg n s f to q HR). apply put_to_in. rewrite HP, Es, map_app, <- app_assoc.
      apply in_or_app. right. now left. }
    pose proof (write_ok q ws Hp W) as HO.
    assert (HS : forall ws', (write_packet q ws = WOk ws' \/ write_packet q ws = WErr ws') ->
      step auth dbg s (LWriter to) = Some (set_conn to (set_writer (WIdle ws') c) s)).
    { intros ws' Hw'. unfold step. rewrite Hrun. unfold step_writer. rewrite Hc, EW. destruct Hw' as [-> | ->]; reflexivity. }
    assert (HX : forall ws', (write_packet q ws = WOk ws' \/ write_packet q ws = WErr ws') ->
      exists ls s' c', steps auth dbg s ls = Some s' /\ Forall inner ls /\ same_env s s' /\ hdl s' = hdl s
       /\ svc s' = svc s /\ events s' = events s /\ nth_error (conns s') to = Some c'
       /\ ((exists ws, c_writer c' = WClosed ws) \/
           ((forall ws, c_writer c' <> WClosed ws) /\ (length (c_queue c') < channel_size)%nat))).
    { intros ws' Hw'. specialize (HS ws' Hw'). set (s1 := set_conn to (set_writer (WIdle ws') c) s) in *.
      destruct (HT s1 (set_writer (WIdle ws') c) ws') as (s2 & c2 & Hs & E1 & E2 & E3 & E4 & E5 & E6).
      - exact Hrun.
      - subst s1. cbn [conns set_conn set_conns]. now rewrite nth_update, Nat.eqb_refl, Hc.
      - reflexivity.
      - reflexivity.
      - exists [LWriter to; LWriter to], s2, c2. cbn [steps]. rewrite HS, Hs. split; [reflexivity|].
        split; [repeat constructor|]. split; [|auto].
        eapply same_env_trans; [|exact E1]. repeat split. subst s1. cbn. now rewrite update_length. }
    destruct (write_packet q ws) as [ws'|ws'| | |] eqn:EP; try contradiction.
    + right. right. eauto.
    + right. right. eauto.
    + left. eauto.
  - right. left. eauto.
Qed.

(** From any point in an event, the handler finishes it, panics or is stuck. *)
Theorem finish_program auth dbg n p : forall s tx, reachable auth dbg n s -> running s = true ->
  hdl s = HBusy tx p ->
  exists ls s', steps auth dbg s ls = Some s' /\ Forall inner ls /\ same_env s s'
    /\ ((hdl s' = HIdle /\ events s' = events s) \/ hdl s' = HPanicked \/ stuck s').
Proof.
  assert (ONE : forall s s1, running s = true -> step auth dbg s (LHandler 0) = Some s1 -> same_env s s1 ->
     forall P : sys -> Prop,
     (exists ls s', steps auth dbg s1 ls = Some s' /\ Forall inner ls /\ same_env s1 s' /\ P s') ->
     exists ls s', steps auth dbg s ls = Some s' /\ Forall inner ls /\ same_env s s' /\ P s').
  { intros s s1 Hr Hs He P (ls & s' & H1 & H2 & H3 & H4). exists (LHandler 0 :: ls), s'. cbn [steps]. rewrite Hs.
    split; [exact H1|]. split; [constructor; [exact I|exact H2]|]. split; [eapply same_env_trans; eauto|exact H4]. }
  induction p as [| |R op f IH|to e p IH]; intros s tx HR Hrun Hh.
  - exists [LHandler 0], (set_hdl HIdle s). cbn [steps]. unfold step. rewrite Hrun. unfold step_handler. rewrite Hh.
    split; [reflexivity|]. split; [repeat constructor|]. split; [repeat split|]. left. split; reflexivity.
  - exists [LHandler 0], (panic_handler s). cbn [steps]. unfold step. rewrite Hrun. unfold step_handler. rewrite Hh.
    split; [reflexivity|]. split; [repeat constructor|]. split; [repeat split|]. right. left. reflexivity.
  - assert (HS : step auth dbg s (LHandler 0) = Some (set_hdl (HBusy tx (f (snd (serve (svc s) op)))) (set_svc (fst (serve (svc s) op)) s))).
    { unfold step. rewrite Hrun. unfold step_handler. rewrite Hh. now destruct (serve (svc s) op). }
    apply (ONE s _ Hrun HS).
    + repeat split.
    + change (events s) with (events (set_hdl (HBusy tx (f (snd (serve (svc s) op)))) (set_svc (fst (serve (svc s) op)) s))).
      eapply IH; [eapply reachable_step; eauto|exact Hrun|reflexivity].
  - (* send *)
    assert (SENT : forall s, reachable auth dbg n s -> running s = true -> hdl s = HBusy tx (Send to e p) ->
      forall c, nth_error (conns s) to = Some c ->
        (exists ws, c_writer c = WClosed ws) \/ ((forall ws, c_writer c <> WClosed ws) /\ (length (c_queue c) < channel_size)%nat) ->
        exists ls s', steps auth dbg s ls = Some s' /\ Forall inner ls /\ same_env s s'
          /\ ((hdl s' = HIdle /\ events s' = events s) \/ hdl s' = HPanicked \/ stuck s')).
    { clear s HR Hrun Hh. intros s HR Hrun Hh c Hc [(ws & Hw)|(Hw & Hq)].
      - exists [LHandler 0], (panic_handler s). cbn [steps]. unfold step. rewrite Hrun. unfold step_handler. rewrite Hh, Hc, Hw.
        split; [reflexivity|]. split; [repeat constructor|]. split; [repeat split|]. right. left. reflexivity.
      - set (s1 := set_hdl (HBusy tx p) (set_log (log s ++ [(tx, to, e)])
                     (set_conn to (set_queue (c_queue c ++ [(tx, e)]) c) s))).
        assert (HS : step auth dbg s (LHandler 0) = Some s1).
        { unfold step. rewrite Hrun. unfold step_handler. rewrite Hh, Hc. apply Nat.ltb_lt in Hq. rewrite Hq.
          destruct (c_writer c) eqn:EW; try reflexivity. exfalso. eapply Hw. reflexivity. }
        apply (ONE s s1 Hrun HS).
        + repeat split. subst s1. cbn. now rewrite update_length.
        + change (events s) with (events s1). eapply IH; [eapply reachable_step; eauto|exact Hrun|reflexivity]. }
    destruct (nth_error (conns s) to) as [c|] eqn:Hc.
    2:{ (* targets exist *)
      exfalso. pose proof (hist_invariant auth dbg n s HR) as HH. unfold hist_inv in HH. rewrite Hh in HH.
      destruct HH as (h & te & m0 & l0 & m & done & r & o & (Eh & Ha & He & Hl) & Ht & Hx).
      cbn [exec] in Hx. destruct (exec p (svc s)) as [[m' r'] o']. injection Hx as <- <- <-.
      pose proof (flow_invariant auth dbg n s HR to) as HF. unfold flow_ok in HF. rewrite Hc in HF.
      rewrite events_of_app in HF. apply app_eq_nil in HF. destruct HF as (HF & _).
      pose proof (no_events auth to (handled s) HF) as K. rewrite Eh, handle_all_snoc, Ha, He in K. destruct K as (_ & K).
      rewrite !sent_to_app in K. apply app_eq_nil in K. destruct K as (_ & K). apply app_eq_nil in K. destruct K as (_ & K).
      unfold sent_to in K. cbn [filter fst] in K. rewrite Nat.eqb_refl in K. discriminate. }
    destruct (Nat.ltb_spec (length (c_queue c)) channel_size) as [Hlt|Hge].
    + destruct (c_writer c) as [ws|q ws|ws] eqn:EW; eapply SENT; eauto.
      * right. split; [congruence|exact Hlt].
      * right. split; [congruence|exact Hlt].
    + destruct (bounded_inv auth dbg n s HR) as (_ & HB). specialize (HB to c Hc). cbn beta in HB.
      assert (Hq : length (c_queue c) = channel_size) by lia.
      destruct (make_room auth dbg n s to c HR Hrun Hc Hq) as [(q & ws & Hw & Hb)|[(ws & Hw)|(ls & s1 & c1 & Hs & Hin & He & Eh & _ & Ee & Hc1 & Hr)]].
      * exists [], s. split; [reflexivity|]. split; [constructor|]. split; [repeat split|]. right. right.
        exists tx, to, e, p, c, q, ws. auto.
      * eapply SENT; eauto.
      * destruct (SENT s1) with (c := c1) as (ls2 & s2 & Hs2 & Hin2 & He2 & Hfin).
        -- eapply reachable_steps; eauto.
        -- rewrite (same_env_running s s1 He). exact Hrun.
        -- congruence.
        -- exact Hc1.
        -- exact Hr.
        -- exists (ls ++ ls2), s2. rewrite steps_app, Hs. split; [exact Hs2|]. split; [apply Forall_app; auto|].
           split; [eapply same_env_trans; eauto|]. rewrite Ee in Hfin. exact Hfin.
Qed.

