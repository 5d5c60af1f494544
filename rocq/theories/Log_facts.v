(** What the handler logs in a run is decided by the events it has taken. *)
From Verif Require Import Base Base_facts Packets HashMap Subscriptions Messaging Handler Decoder ReadStream Conn
  Encoder WriteStream Spec_broker Handler_facts System System_facts System_hist Logging.

(** The entries of a program, of one event, and of a history. *)
Fixpoint exec_entries (L : library) (p : prog) (m : MessagingService) : list entry :=
  match p with
  | Done | Panic => []
  | Call op k => call_entries L m op ++ (let (m', r) := serve m op in exec_entries L (k r) m')
  | Send _ _ k => exec_entries L k m
  end.

Definition handle_entries auth L (m : MessagingService) (te : Z * ClientEvent) : list entry :=
  event_entries auth L (snd te) ++ exec_entries L (on_event auth (fst te) (snd te)) m.

Fixpoint all_entries auth L (m : MessagingService) (h : list (Z * ClientEvent)) : list entry :=
  match h with
  | [] => []
  | te :: h' =>
    handle_entries auth L m te
    ++ (let '(m', _, o) := handle auth m te in match o with Finished => all_entries auth L m' h' | Panicked => [] end)
  end.

Lemma all_entries_snoc auth L h te : forall m, all_entries auth L m (h ++ [te])
  = all_entries auth L m h
    ++ (let '(m', _, o) := handle_all auth m h in match o with Finished => handle_entries auth L m' te | Panicked => [] end).
Proof.
  induction h as [|x h IH]; intros m; cbn [app all_entries handle_all].
  - destruct (handle auth m te) as [[m' l] []]; now rewrite app_nil_r.
  - destruct (handle auth m x) as [[m' l] []]; [|now rewrite !app_nil_r].
    rewrite IH, <- app_assoc. destruct (handle_all auth m' h) as [[m2 l2] []]; reflexivity.
Qed.

Lemma run_entries_snoc which auth L dbg ls l : forall s s1 s2, steps auth dbg s ls = Some s1 -> step auth dbg s1 l = Some s2 ->
  run_entries which auth L dbg s (ls ++ [l])
  = run_entries which auth L dbg s ls ++ (if which l then step_entries auth L dbg s1 l else []).
Proof.
  induction ls as [|x ls IH]; intros s s1 s2 HS H2; cbn [steps app run_entries] in *.
  - injection HS as ->. rewrite H2, app_nil_r. reflexivity.
  - destruct (step auth dbg s x) as [s'|]; [|discriminate]. rewrite (IH s' s1 s2 HS H2), app_assoc. reflexivity.
Qed.

(** Steps of other tasks than the handler leave its state alone. *)
Lemma other_step auth dbg s l s' : step auth dbg s l = Some s' -> by_handler l = false ->
  svc s' = svc s /\ handled s' = handled s
  /\ (hdl s' = hdl s \/ (hdl s = HIdle /\ hdl s' = HStopped)).
Proof.
  unfold step. destruct (running s); [|discriminate]. destruct l as [r w a|k uuid|k|now| | | | |]; cbn [by_handler]; intros H I;
    try discriminate.
  - destruct (listeners s); [discriminate|]. injection H as <-. auto.
  - unfold step_reader in H. destruct (nth_error (conns s) k) as [c|]; [|discriminate].
    destruct (c_reader c) as [rs|e cid rs|cid rs|]; [| | |discriminate].
    + destruct (stream_read_packet dbg rs) as [p rs'|e| | | |]; try discriminate; [destruct p| |]; injection H as <-; auto.
    + destruct (handler_alive (hdl s)); [destruct (_ <? _)%nat; [|discriminate]|]; injection H as <-; auto.
    + destruct (stream_read_packet dbg rs) as [p rs'|e| | | |]; try discriminate; injection H as <-; auto.
  - unfold step_writer in H. destruct (nth_error (conns s) k) as [c|]; [|discriminate].
    destruct (c_writer c) as [ws|p ws|ws]; [| |discriminate].
    + destruct (c_queue c) as [|[from [p|]] q]; [destruct (has_sender s k c); [discriminate|]| |]; injection H as <-; auto.
    + destruct (write_packet p ws); try discriminate; injection H as <-; auto.
  - destruct (hdl s) eqn:E; try discriminate. destruct (ctrl_c s); [|discriminate]. injection H as <-. auto.
  - destruct (listeners s); [discriminate|]. destruct (ctrl_c s); [|discriminate]. injection H as <-. auto.
  - destruct (service_running s && negb (handler_alive (hdl s))); [|discriminate]. injection H as <-. auto.
  - destruct (main s); try discriminate.
    destruct (handler_alive (hdl s) || negb (Nat.eqb (listeners s) 0)); injection H as <-; auto.
  - unfold step_main in H. destruct (main s); try discriminate.
    + destruct (Nat.eqb (listeners s) 0); [|discriminate]. injection H as <-. auto.
    + destruct (service_running s); [discriminate|]. injection H as <-. auto.
    + destruct (hdl s) eqn:E; try discriminate; injection H as <-; auto.
Qed.

Definition begun auth L (s : sys) (R rest : list entry) : Prop :=
  exists h te m0 l0, handled s = h ++ [te] /\ handle_all auth MessagingService_new h = (m0, l0, Finished)
    /\ all_entries auth L MessagingService_new h ++ handle_entries auth L m0 te = R ++ rest.

Definition log_inv auth L (s : sys) (R : list entry) : Prop :=
  match hdl s with
  | HIdle | HStopped => R = all_entries auth L MessagingService_new (handled s)
  | HBusy tx p => begun auth L s R (exec_entries L p (svc s))
  | HPanicked => exists rest, begun auth L s R rest
  end.

Lemma log_step auth dbg n L ls s l s' : steps auth dbg (sys_init n) ls = Some s -> step auth dbg s l = Some s' ->
  log_inv auth L s (run_entries by_handler auth L dbg (sys_init n) ls) ->
  log_inv auth L s' (run_entries by_handler auth L dbg (sys_init n) (ls ++ [l])).
Proof.
  intros H0 HS HI. rewrite (run_entries_snoc by_handler auth L dbg ls l _ s s' H0 HS).
  set (R := run_entries by_handler auth L dbg (sys_init n) ls) in *.
  destruct (by_handler l) eqn:EB.
  2:{ rewrite app_nil_r. destruct (other_step auth dbg s l s' HS EB) as (K1 & K2 & K3). unfold log_inv, begun in *. rewrite K1, K2.
      destruct K3 as [->|[E ->]]; [exact HI|]. now rewrite E in HI. }
  destruct l; try discriminate EB. cbn [step_entries].
  assert (HR : reachable auth dbg n s) by now exists ls.
  pose proof (hist_invariant auth dbg n s HR) as HH.
  unfold step in HS. destruct (running s); [|discriminate]. unfold step_handler in HS. unfold handler_entries.
  destruct (hdl s) as [|tx p| |] eqn:Eh; try discriminate.
  - destruct (events s) as [|e es]; [discriminate|]. injection HS as <-. unfold log_inv, hist_inv in *. rewrite Eh in *.
    cbn [hdl set_hdl svc set_handled set_events]. unfold begun. cbn [handled set_hdl set_handled].
    exists (handled s), (now, e), (svc s), (map out (System.log s)). split; [reflexivity|]. split; [exact HH|].
    unfold handle_entries. cbn [fst snd]. rewrite <- app_assoc, <- HI. reflexivity.
  - unfold log_inv in HI. rewrite Eh in HI. unfold hist_inv in HH. rewrite Eh in HH.
    destruct HI as (h & te & m0 & l0 & K1 & K2 & K3).
    destruct p as [| |T op f|to e p'].
    + injection HS as <-. unfold log_inv. cbn [hdl set_hdl handled]. cbn [exec_entries] in K3. rewrite app_nil_r in *.
      rewrite K1, all_entries_snoc, K2. symmetry. exact K3.
    + injection HS as <-. unfold log_inv. cbn [hdl set_hdl set_events panic_handler handled]. rewrite app_nil_r.
      exists []. exists h, te, m0, l0. auto.
    + cbn [exec_entries] in K3. destruct (serve (svc s) op) as [m r]. injection HS as <-. unfold log_inv.
      cbn [hdl set_hdl svc set_svc]. exists h, te, m0, l0. split; [exact K1|]. split; [exact K2|]. now rewrite <- app_assoc.
    + rewrite app_nil_r. cbn [exec_entries] in K3. destruct (nth_error (conns s) to) as [c|]; [|discriminate].
      assert (HP : log_inv auth L (panic_handler s) R).
      { unfold log_inv. cbn [hdl set_hdl set_events panic_handler handled]. eexists. exists h, te, m0, l0. eauto. }
      destruct (c_writer c); [| |injection HS as <-; exact HP].
      * destruct (_ <? _)%nat; [|discriminate]. injection HS as <-. unfold log_inv. cbn. exists h, te, m0, l0. auto.
      * destruct (_ <? _)%nat; [|discriminate]. injection HS as <-. unfold log_inv. cbn. exists h, te, m0, l0. auto.
Qed.

(** The handler's log is a prefix of what handling the events says, and all of it when it is not in the middle of one. *)
Theorem handler_log auth dbg n L ls s : steps auth dbg (sys_init n) ls = Some s ->
  exists rest, all_entries auth L MessagingService_new (handled s) = run_entries by_handler auth L dbg (sys_init n) ls ++ rest
    /\ (hdl s = HIdle \/ hdl s = HStopped -> rest = []).
Proof.
  intros H0.
  assert (K : log_inv auth L s (run_entries by_handler auth L dbg (sys_init n) ls)).
  { revert s H0. induction ls as [|l ls IH] using rev_ind; intros s H0.
    - injection H0 as <-. reflexivity.
    - rewrite steps_app in H0. destruct (steps auth dbg (sys_init n) ls) as [s1|] eqn:E; [|discriminate].
      cbn [steps] in H0. destruct (step auth dbg s1 l) as [s2|] eqn:E2; [|discriminate]. injection H0 as <-.
      eapply log_step; eauto. }
  assert (B : forall rest, begun auth L s (run_entries by_handler auth L dbg (sys_init n) ls) rest ->
    all_entries auth L MessagingService_new (handled s) = run_entries by_handler auth L dbg (sys_init n) ls ++ rest).
  { intros rest (h & te & m0 & l0 & K1 & K2 & K3). now rewrite K1, all_entries_snoc, K2. }
  unfold log_inv in K. destruct (hdl s) as [|tx p| |] eqn:Eh.
  - exists []. rewrite app_nil_r. split; [now symmetry|auto].
  - exists (exec_entries L p (svc s)). split; [now apply B|]. intros [E|E]; discriminate.
  - destruct K as (rest & K). exists rest. split; [now apply B|]. intros [E|E]; discriminate.
  - exists []. rewrite app_nil_r. split; [now symmetry|auto].
Qed.
