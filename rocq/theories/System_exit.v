(** Blocked sockets, the end of the handler, and shutdown. *)
From Verif Require Import Base Base_facts Packets HashMap Subscriptions Messaging Handler Decoder ReadStream
  ReadStream_facts Conn Conn_facts
  Encoder Encoder_facts WriteStream WriteStream_facts Spec_broker Handler_facts System System_facts System_hist
  System_conn System_queue System_first System_progress.

(** ** Sockets that never block *)

Lemma write_all_acts ps : forall st st', wwf st -> Forall (fun p => writable p = true) ps ->
  write_all ps st = WOk st' -> later (acts st') (acts st).
Proof.
  induction ps as [|p ps IH]; intros st st' W HF; cbn [write_all].
  - intros [= <-]. apply later_refl.
  - destruct (encode p) as [bs|] eqn:E; [|apply encode_none in E; apply Forall_inv in HF; congruence].
    pose proof (write_packet_facts p st bs W E) as H. apply Forall_inv_tail in HF.
    destruct (write_packet p st) as [st1|st1| | |]; cbn [wdone] in H; try discriminate.
    + intros Hw. destruct H as (W1 & _ & Hl & _). eapply later_trans; [eapply IH; eauto|exact Hl].
    + intros Hw. destruct H as (W1 & _ & Hl & _). eapply later_trans; [eapply IH; eauto|exact Hl].
Qed.

Lemma sent_writable auth dbg n s k c : reachable auth dbg n s -> nth_error (conns s) k = Some c ->
  Forall (fun p => writable p = true) (map snd (c_sent c)).
Proof.
  intros HR Hk. apply Forall_forall. intros p Hp. apply in_map_iff in Hp. destruct Hp as ((f & p') & <- & Hin).
  cbn [snd]. apply (log_writable auth dbg n s f k p' HR). apply put_to_in.
  assert (Hin' : In (f, ServerPacket p') (map as_sent (c_sent c))).
  { apply in_map_iff. exists (f, p'). split; [reflexivity|exact Hin]. }
  pose proof (queue_invariant auth dbg n s HR k) as HQ. unfold queue_ok in HQ. rewrite Hk in HQ. destruct HQ as (_ & HQ).
  destruct (c_writer c); [| |destruct HQ as (_ & [(HQ & _)|(f' & r & HQ)])]; rewrite HQ; auto; apply in_or_app; now left.
Qed.

(** A handler that is stuck waits for a peer that stopped reading. *)
Theorem stuck_blocked auth dbg n s : reachable auth dbg n s -> stuck s ->
  exists k c, nth_error (conns s) k = Some c /\ In WBlock (wacts (c_wsock c)).
Proof.
  intros HR (tx & to & e & p & c & q & ws & Hh & Hc & Hq & Hw & st & Hb). exists to, c. split; [exact Hc|].
  pose proof (queue_invariant auth dbg n s HR to) as HQ. unfold queue_ok in HQ. rewrite Hc in HQ. destruct HQ as (HWr & _).
  unfold writer_ok in HWr. rewrite Hw in HWr. destruct HWr as (ps & f & Es & Hwr & W).
  pose proof (sent_writable auth dbg n s to c HR Hc) as HF. rewrite Es, map_app in HF. apply Forall_app in HF.
  destruct HF as (HF1 & HF2). cbn [map snd] in HF2. apply Forall_inv in HF2.
  destruct (encode q) as [bs|] eqn:E; [|apply encode_none in E; congruence].
  pose proof (write_packet_facts q ws bs W E) as H. rewrite Hb in H. cbn [wdone] in H.
  destruct H as (_ & _ & _ & H & _).
  destruct (write_all_acts (map snd ps) (connection_wstream (c_wsock c)) ws (wwf_new _ _) HF1 Hwr) as (h & Eh).
  change (wacts (c_wsock c)) with (acts (connection_wstream (c_wsock c))). rewrite Eh. apply in_or_app. now right.
Qed.

(** ** A handler that ended stays so *)

Lemma dead_trans auth dbg s s' : trans auth dbg s s' -> handler_alive (hdl s) = false ->
  hdl s' = hdl s /\ handled s' = handled s /\ log s' = log s /\ svc s' = svc s.
Proof.
  intros T HD. destruct T; cbn; auto;
    match goal with H : hdl s = _ |- _ => rewrite H in HD; discriminate end.
Qed.

Theorem dead_steps auth dbg ls : forall s s', steps auth dbg s ls = Some s' -> handler_alive (hdl s) = false ->
  hdl s' = hdl s /\ handled s' = handled s /\ log s' = log s /\ svc s' = svc s.
Proof.
  induction ls as [|l ls IH]; intros s s'; cbn [steps].
  - intros [= <-]. auto.
  - destruct (step auth dbg s l) as [s1|] eqn:E; [|discriminate]. intros H HD. apply step_trans in E.
    destruct (dead_trans auth dbg s s1 E HD) as (E1 & E2 & E3 & E4). rewrite <- E1 in HD.
    destruct (IH s1 s' H HD) as (F1 & F2 & F3 & F4). repeat split; congruence.
Qed.

(** Why it panicked. *)
Theorem panic_cause auth dbg n s : reachable auth dbg n s -> hdl s = HPanicked ->
  exists h te m l, handled s = h ++ [te] /\ handle_all auth MessagingService_new h = (m, l, Finished)
    /\ (user_without_password te
        \/ exists k e f, In (k, e) (snd (fst (handle auth m te))) /\ In (f, k, ServerDisconnect) (log s)).
Proof.
  revert s. apply (reachable_trans_ind auth dbg n (fun s => hdl s = HPanicked ->
    exists h te m l, handled s = h ++ [te] /\ handle_all auth MessagingService_new h = (m, l, Finished)
    /\ (user_without_password te
        \/ exists k e f, In (k, e) (snd (fst (handle auth m te))) /\ In (f, k, ServerDisconnect) (log s)))).
  - discriminate.
  - intros s s' HR HI T. destruct T; try exact HI; try (intros H'; discriminate H').
    + intros _. pose proof (hist_invariant auth dbg n s HR) as HH. unfold hist_inv in HH. rewrite H in HH.
      destruct HH as (h & te & m0 & l0 & m & done & r & o & (Hh & Ha & He & Hl) & Ht & Hx).
      cbn [exec] in Hx. injection Hx as <- <- <-. exists h, te, m0, l0. split; [exact Hh|]. split; [exact Ha|]. left.
      apply (handle_panics auth m0). now rewrite He.
    + intros _. pose proof (hist_invariant auth dbg n s HR) as HH. unfold hist_inv in HH. rewrite H in HH.
      destruct HH as (h & te & m0 & l0 & m & done & r & o & (Hh & Ha & He & Hl) & Ht & Hx).
      cbn [exec] in Hx. destruct (exec p (svc s)) as [[m' r'] o']. injection Hx as <- <- <-.
      exists h, te, m0, l0. split; [exact Hh|]. split; [exact Ha|]. right.
      pose proof (queue_invariant auth dbg n s HR to) as HQ. unfold queue_ok in HQ. rewrite H0, H1 in HQ.
      destruct HQ as (_ & _ & [(_ & HQ)|(f & r & HQ)]).
      * exfalso. apply nth_sender_false in HQ. destruct HQ as (_ & _ & _ & _ & HQ & _).
        destruct (HQ tx _ H) as (_ & HQ'). apply HQ'. now left.
      * exists to, e, f. split; [rewrite He; cbn [fst snd]; apply in_or_app; right; now left|].
        cbn [log panic_handler set_events set_hdl]. apply put_to_in. rewrite HQ. apply in_or_app. right. now left.
Qed.

(** ** The next event *)

Theorem next_event auth dbg n s e es : reachable auth dbg n s -> running s = true -> handler_alive (hdl s) = true ->
  events s = e :: es ->
  exists ls s', steps auth dbg s ls = Some s' /\ Forall inner ls
    /\ ((exists now, handled s' = handled s ++ [(now, e)]) \/ hdl s' = HPanicked \/ stuck s').
Proof.
  intros HR Hrun Ha He.
  assert (IDLE : forall s1, running s1 = true -> hdl s1 = HIdle -> events s1 = e :: es -> handled s1 = handled s ->
            exists s2, step auth dbg s1 (LHandler 0) = Some s2 /\ handled s2 = handled s ++ [(0%Z, e)]).
  { intros s1 H1 H2 H3 H4. eexists. unfold step. rewrite H1. unfold step_handler. rewrite H2, H3.
    split; [reflexivity|]. cbn. now rewrite H4. }
  destruct (hdl s) as [|tx p| |] eqn:EH; try discriminate.
  - destruct (IDLE s Hrun EH He eq_refl) as (s2 & Hs & E). exists [LHandler 0], s2. cbn [steps]. rewrite Hs.
    split; [reflexivity|]. split; [repeat constructor|]. left. eauto.
  - destruct (finish_program auth dbg n p s tx HR Hrun EH) as (ls & s1 & Hs & Hin & Henv & [(Ei & Ee)|[Hp|Hp]]).
    + destruct (IDLE s1) as (s2 & Hs2 & E).
      * now rewrite (same_env_running s s1 Henv).
      * exact Ei.
      * congruence.
      * apply Henv.
      * exists (ls ++ [LHandler 0]), s2. rewrite steps_app, Hs. cbn [steps]. rewrite Hs2. split; [reflexivity|].
        split; [apply Forall_app; split; [exact Hin|repeat constructor]|]. left. eauto.
    + exists ls, s1. auto.
    + exists ls, s1. auto.
Qed.

(** ** Shutdown *)

Lemma serving_invariant auth dbg n s : reachable auth dbg n s -> ctrl_c s = true -> main s <> MServing.
Proof.
  revert s. apply (reachable_trans_ind auth dbg n (fun s => ctrl_c s = true -> main s <> MServing)).
  - discriminate.
  - intros s s' HR HI T. destruct T; try exact HI.
    + discriminate.
    + intros _. exact H.
Qed.

Lemma step_main_only auth dbg s l s' : step auth dbg s l = Some s' ->
  main s' = main s \/ l = LCtrlC \/ l = LMain.
Proof.
  unfold step. destruct (running s); [|discriminate]. destruct l as [r w a|k uuid|k|now| | | | |]; auto; intros E; left.
  - destruct (listeners s); [discriminate|]. injection E as <-. reflexivity.
  - revert E. unfold step_reader.
    repeat match goal with |- context [match ?x with _ => _ end] => destruct x; try discriminate end;
    intros [= <-]; reflexivity.
  - revert E. unfold step_writer.
    repeat match goal with |- context [match ?x with _ => _ end] => destruct x; try discriminate end;
    intros [= <-]; reflexivity.
  - revert E. unfold step_handler.
    repeat match goal with |- context [match ?x with _ => _ end] => destruct x; try discriminate end;
    intros [= <-]; reflexivity.
  - destruct (hdl s); try discriminate. destruct (ctrl_c s); [|discriminate]. injection E as <-. reflexivity.
  - destruct (listeners s); [discriminate|]. destruct (ctrl_c s); [|discriminate]. injection E as <-. reflexivity.
  - destruct (service_running s && negb (handler_alive (hdl s))); [|discriminate]. injection E as <-. reflexivity.
Qed.

(** Once main is past joining the service, the handler has ended. *)
Lemma main_invariant auth dbg n s : reachable auth dbg n s ->
  match main s with
  | MJoinHandler | MExited | MPanicked => handler_alive (hdl s) = false
  | _ => True
  end.
Proof.
  revert s. apply (reachable_ind auth dbg n (fun s =>
    match main s with MJoinHandler | MExited | MPanicked => handler_alive (hdl s) = false | _ => True end)).
  - exact I.
  - intros s l s' HR HI E. pose proof (step_trans _ _ _ _ _ E) as T.
    destruct (step_main_only auth dbg s l s' E) as [Em|[->| ->]].
    + rewrite Em. destruct (main s); auto; destruct (dead_trans auth dbg s s' T HI) as (-> & _); exact HI.
    + clear T. unfold step in E. destruct (running s); [|discriminate]. destruct (main s); try discriminate.
      destruct (handler_alive (hdl s)) eqn:EH; cbn [orb] in E; [injection E as <-; exact I|].
      destruct (negb _); injection E as <-; [exact I|exact EH].
    + clear T. unfold step in E. destruct (running s); [|discriminate]. unfold step_main in E.
      destruct (main s) eqn:EM; try discriminate.
      * destruct (Nat.eqb _ _); [|discriminate]. injection E as <-. exact I.
      * destruct (service_running s) eqn:ES; [discriminate|]. injection E as <-. cbn [main set_main hdl].
        destruct (handler_alive (hdl s)) eqn:EH; [|reflexivity].
        pose proof (proj2 (dead_invariant auth dbg n s HR) EH). congruence.
      * destruct (hdl s) eqn:EH; try discriminate; injection E as <-; cbn [main set_main hdl]; now rewrite EH.
Qed.

(** A broker whose handler is stuck never exits. *)
Theorem stuck_never_exits auth dbg n s ls s' : reachable auth dbg n s -> stuck s -> steps auth dbg s ls = Some s' ->
  running s' = true.
Proof.
  intros HR HS H. destruct (stuck_steps auth dbg ls s s' HS H) as ((tx & to & e & p & c & q & ws & Hh & _) & _).
  pose proof (main_invariant auth dbg n s' (reachable_steps auth dbg n s ls s' HR H)) as K. rewrite Hh in K.
  unfold running. destruct (main s'); auto; discriminate.
Qed.

(** Main goes on as soon as the tasks ended. *)
Lemma main_finishes auth dbg s : main s <> MServing -> listeners s = O -> handler_alive (hdl s) = false ->
  exists ls s', steps auth dbg s ls = Some s' /\ running s' = false.
Proof.
  intros Hm Hl Hd.
  assert (SV : forall s, handler_alive (hdl s) = false -> main s <> MServing -> running s = true -> listeners s = O ->
             exists ls s', steps auth dbg s ls = Some s' /\ service_running s' = false
               /\ hdl s' = hdl s /\ main s' = main s /\ listeners s' = O /\ running s' = true).
  { clear. intros s Hd Hm Hr Hl. destruct (service_running s) eqn:ES.
    - exists [LStopService], (set_service_running false s). cbn [steps]. unfold step. rewrite Hr, ES, Hd. cbn [andb negb].
      repeat split; auto.
    - exists [], s. repeat split; auto. }
  destruct (running s) eqn:Hrun; [|exists [], s; split; [reflexivity|exact Hrun]].
  destruct (SV s Hd Hm Hrun Hl) as (ls & s1 & H1 & Es & Eh & Em & El & Er).
  assert (JH : forall s, main s = MJoinHandler -> handler_alive (hdl s) = false ->
            exists s', step auth dbg s LMain = Some s' /\ running s' = false).
  { clear. intros s Em Hd. unfold step, running, step_main. rewrite Em. destruct (hdl s); try discriminate; eexists; split; reflexivity. }
  assert (JS : forall s, main s = MJoinService -> service_running s = false -> handler_alive (hdl s) = false ->
            exists s', steps auth dbg s [LMain; LMain] = Some s' /\ running s' = false).
  { clear - JH. intros s Em Es Hd.
    assert (E : step auth dbg s LMain = Some (set_main MJoinHandler s)).
    { unfold step, running, step_main. now rewrite Em, Es. }
    destruct (JH (set_main MJoinHandler s) eq_refl Hd) as (s' & E' & Hr). exists s'. cbn [steps]. rewrite E, E'. auto. }
  rewrite <- Eh in Hd. destruct (main s) eqn:EM; try (unfold running in Hrun; rewrite EM in Hrun; discriminate).
  - contradiction.
  - assert (E : step auth dbg s1 LMain = Some (set_main MJoinService s1)).
    { unfold step, running, step_main. now rewrite Em, El. }
    destruct (JS (set_main MJoinService s1) eq_refl Es Hd) as (s' & E' & Hr).
    exists (ls ++ [LMain] ++ [LMain; LMain]), s'. rewrite steps_app, H1. cbn [app]. cbn [steps] in *. rewrite E. auto.
  - destruct (JS s1 Em Es Hd) as (s' & E' & Hr). exists (ls ++ [LMain; LMain]), s'. rewrite steps_app, H1. auto.
  - destruct (JH s1 Em Hd) as (s' & E' & Hr). exists (ls ++ [LMain]), s'. rewrite steps_app, H1. cbn [steps]. rewrite E'. auto.
Qed.

Lemma stop_listeners auth dbg k : forall s, listeners s = k -> ctrl_c s = true -> running s = true ->
  exists ls s', steps auth dbg s ls = Some s' /\ listeners s' = O /\ ctrl_c s' = true /\ hdl s' = hdl s
    /\ main s' = main s /\ events s' = events s /\ running s' = true.
Proof.
  induction k as [|k IH]; intros s Hl Hc Hr.
  - exists [], s. repeat split; auto.
  - destruct (IH (set_listeners k s) eq_refl Hc Hr) as (ls & s' & H & K). exists (LStopListener :: ls), s'.
    cbn [steps]. unfold step at 1. rewrite Hr, Hl, Hc. auto.
Qed.

Theorem can_exit auth dbg n s : reachable auth dbg n s -> ctrl_c s = true -> running s = true ->
  exists ls s', steps auth dbg s ls = Some s' /\ (running s' = false \/ stuck s').
Proof.
  intros HR Hc Hr.
  destruct (stop_listeners auth dbg (listeners s) s eq_refl Hc Hr) as (ls1 & s1 & H1 & Hl1 & Hc1 & Eh1 & Em1 & _ & Hr1).
  pose proof (reachable_steps auth dbg n s ls1 s1 HR H1) as HR1.
  assert (Hm1 : main s1 <> MServing) by (apply (serving_invariant auth dbg n); auto).
  assert (IDLE : forall s2, running s2 = true -> hdl s2 = HIdle -> ctrl_c s2 = true -> listeners s2 = O -> main s2 <> MServing ->
            exists ls s', steps auth dbg s2 ls = Some s' /\ running s' = false).
  { intros s2 A B C D F. destruct (main_finishes auth dbg (set_events [] (set_hdl HStopped s2)) F D eq_refl) as (ls & s' & H & K).
    exists (LStopHandler :: ls), s'. cbn [steps]. unfold step at 1. rewrite A, B, C. auto. }
  destruct (hdl s1) as [|tx p| |] eqn:EH.
  - destruct (IDLE s1 Hr1 EH Hc1 Hl1 Hm1) as (ls2 & s2 & H2 & K). exists (ls1 ++ ls2), s2. rewrite steps_app, H1. auto.
  - destruct (finish_program auth dbg n p s1 tx HR1 Hr1 EH) as (ls2 & s2 & H2 & _ & Henv & K).
    pose proof (same_env_running s1 s2 Henv) as Hr2. rewrite Hr1 in Hr2. destruct Henv as (Ec & Em & El & _).
    rewrite <- Ec in Hc1. rewrite <- El in Hl1. rewrite <- Em in Hm1.
    destruct K as [(K & _)|[K|K]].
    + destruct (IDLE s2 Hr2 K Hc1 Hl1 Hm1) as (ls3 & s3 & H3 & K3). exists (ls1 ++ ls2 ++ ls3), s3.
      rewrite steps_app, H1, steps_app, H2. auto.
    + destruct (main_finishes auth dbg s2 Hm1 Hl1) as (ls3 & s3 & H3 & K3); [now rewrite K|].
      exists (ls1 ++ ls2 ++ ls3), s3. rewrite steps_app, H1, steps_app, H2. auto.
    + exists (ls1 ++ ls2), s2. rewrite steps_app, H1. auto.
  - destruct (main_finishes auth dbg s1 Hm1 Hl1) as (ls3 & s3 & H3 & K3); [now rewrite EH|].
    exists (ls1 ++ ls3), s3. rewrite steps_app, H1. auto.
  - destruct (main_finishes auth dbg s1 Hm1 Hl1) as (ls3 & s3 & H3 & K3); [now rewrite EH|].
    exists (ls1 ++ ls3), s3. rewrite steps_app, H1. auto.
Qed.

(** ** Close requests *)

Lemma disconnect_cause auth m te k : In (k, ServerDisconnect) (snd (fst (handle auth m te))) ->
  (exists c a, snd te = Connected c a k /\ rejected auth c)
  \/ (exists cid, snd te = ClientPacket cid PingReq k /\ session_exists m cid = false).
Proof.
  destruct te as [now e]. cbn [snd]. destruct e as [c a k0|cid p k0|cid|cid]; intros Hin.
  - destruct (connect_cases auth c) as [A|[A|(u & H1 & H2)]].
    + rewrite (handle_accepted auth m now c a k0 A) in Hin. destruct Hin as [[=]|[]].
    + rewrite (handle_rejected auth m now c a k0 A) in Hin. destruct Hin as [[=]|[[= ->]|[]]]. left. eauto.
    + rewrite (handle_no_password auth m now c a k0 u H1 H2) in Hin. destruct Hin.
  - destruct p; try (exfalso; exact Hin).
    + rewrite handle_publish in Hin. cbn [fst snd] in Hin. apply in_map_iff in Hin.
      destruct Hin as (r & [=] & _).
    + rewrite handle_subscribe in Hin. destruct Hin as [[=]|[]].
    + rewrite handle_unsubscribe in Hin. destruct Hin as [[=]|[]].
    + rewrite handle_ping in Hin. destruct Hin as [E|[]]. destruct (session_exists m cid) eqn:ES; [discriminate|].
      injection E as ->. right. eauto.
  - destruct Hin.
  - destruct Hin.
Qed.
