(** C57 for all schedules: where every run after ctrl-c ends. *)
From Verif Require Import Base Packets Messaging Handler ReadStream Encoder WriteStream Spec_broker System
  System_facts System_hist System_conn System_queue System_first System_progress System_exit System_rest Prop_system
  Prop_rest Prop_stop.
Open Scope N_scope.

Lemma after_the_end auth dbg s l s' : step auth dbg s l = Some s' -> handler_alive (hdl s) = false -> hdl s' = hdl s.
Proof. intros E H. exact (proj1 (dead_trans auth dbg s s' (step_trans _ _ _ _ _ E) H)). Qed.

(** How main ended tells how the handler ended. *)
Lemma end_invariant auth dbg n s : reachable auth dbg n s ->
  (main s = MExited -> hdl s = HStopped) /\ (main s = MPanicked -> ctrl_c s = true -> hdl s = HPanicked).
Proof.
  intros HR. split; revert HR; revert s.
  - apply (reachable_ind auth dbg n (fun s => main s = MExited -> hdl s = HStopped)).
    + discriminate.
    + intros s l s' HR HI E HM. unfold step in E. destruct (running s) eqn:Hr; [|discriminate].
      assert (K : main s <> MExited) by (intros K; unfold running in Hr; rewrite K in Hr; discriminate).
      destruct (step_main_only auth dbg s l s') as [Em|[->| ->]]; [unfold step; now rewrite Hr|congruence| |].
      * destruct (main s) eqn:EM; try discriminate. destruct (_ || _); injection E as <-; discriminate.
      * unfold step_main in E. destruct (main s) eqn:EM; try discriminate.
        -- destruct (Nat.eqb _ _); [|discriminate]. injection E as <-. discriminate.
        -- destruct (service_running s); [discriminate|]. injection E as <-. discriminate.
        -- destruct (hdl s) eqn:EH; try discriminate; injection E as <-; first [exact EH|discriminate].
  - apply (reachable_ind auth dbg n (fun s => main s = MPanicked -> ctrl_c s = true -> hdl s = HPanicked)).
    + discriminate.
    + intros s l s' HR HI E HM HC. unfold step in E. destruct (running s) eqn:Hr; [|discriminate].
      assert (K : main s <> MPanicked) by (intros K; unfold running in Hr; rewrite K in Hr; discriminate).
      destruct (step_main_only auth dbg s l s') as [Em|[->| ->]]; [unfold step; now rewrite Hr|congruence| |].
      * destruct (main s) eqn:EM; try discriminate. destruct (_ || _); injection E as <-; [discriminate|].
        cbn in HC. exfalso. exact (serving_invariant auth dbg n s HR HC EM).
      * unfold step_main in E. destruct (main s) eqn:EM; try discriminate.
        -- destruct (Nat.eqb _ _); [|discriminate]. injection E as <-. discriminate.
        -- destruct (service_running s); [discriminate|]. injection E as <-. discriminate.
        -- destruct (hdl s) eqn:EH; try discriminate; injection E as <-; first [exact EH|discriminate].
Qed.

(** After ctrl-c the broker rests only when the program has ended or its handler waits for a peer. *)
Lemma rest_after_signal auth dbg n s : reachable auth dbg n s -> at_rest auth dbg s -> ctrl_c s = true ->
  main s = MExited \/ main s = MPanicked \/ stuck s /\ exists k c, nth_error (conns s) k = Some c /\ blocks (c_wsock c).
Proof.
  intros HR HS HC. destruct (running s) eqn:Hr.
  2:{ unfold running in Hr. destruct (main s); try discriminate; auto. }
  assert (D : handler_alive (hdl s) = false \/ stuck s /\ exists k c, nth_error (conns s) k = Some c /\ blocks (c_wsock c)).
  { destruct (C87_rest auth dbg n s HR HS) as [H|k c H1 H2 H3|H _ _]; [now left|right; eauto|].
    pose proof (HS LStopHandler I) as K. unfold step in K. rewrite Hr, H, HC in K. discriminate. }
  destruct D as [D|D]; [|auto]. exfalso.
  assert (EL : listeners s = O).
  { pose proof (HS LStopListener I) as K. unfold step in K. rewrite Hr, HC in K. destruct (listeners s); [reflexivity|discriminate]. }
  assert (ES : service_running s = false).
  { pose proof (HS LStopService I) as K. unfold step in K. rewrite Hr, D in K. destruct (service_running s); [discriminate|reflexivity]. }
  pose proof (HS LMain I) as K. unfold step, step_main in K. rewrite Hr, EL, ES in K.
  pose proof (serving_invariant auth dbg n s HR HC) as HM. unfold running in Hr.
  destruct (main s); try discriminate; [congruence|]. destruct (hdl s); discriminate.
Qed.

(** The signal is not taken back. *)
Lemma signal_stays auth dbg s l s' : step auth dbg s l = Some s' -> ctrl_c s = true -> ctrl_c s' = true.
Proof.
  intros E HC. apply step_trans in E. destruct E; try exact HC; try reflexivity.
Qed.

(** C57 of every run from every state after the signal: main exits after a handler that stopped, or panics after
    a handler that panicked, or the handler waits for ever for a peer that does not read, main for the handler. *)
Theorem C57_every_run_partial auth dbg n s : reachable auth dbg n s -> ctrl_c s = true ->
  inevitably auth dbg (fun s' =>
    main s' = MExited /\ hdl s' = HStopped
    \/ main s' = MPanicked /\ hdl s' = HPanicked
    \/ running s' = true /\ stuck s' /\ exists k c, nth_error (conns s') k = Some c /\ In WBlock (wacts (c_wsock c))) s.
Proof.
  intros HR. pose proof (dies_out auth dbg n s HR) as HA. induction HA as [s _ IH]. intros HC. constructor.
  - intros HS. destruct (end_invariant auth dbg n s HR) as (I1 & I2).
    destruct (rest_after_signal auth dbg n s HR HS HC) as [H|[H|H]]; [auto|auto|].
    right. right. split; [|exact H]. exact (stuck_never_exits auth dbg n s [] s HR (proj1 H) eq_refl).
  - intros l s' Hl Hs. apply IH; [|eapply reachable_step; eauto|eapply signal_stays; eauto].
    exists l. split; [destruct l; try exact I; destruct Hl|exact Hs].
Qed.

(** With peers that read, every run ends the program. *)
Theorem C57_program_ends_partial auth dbg n s : reachable auth dbg n s -> ctrl_c s = true ->
  (forall k c, nth_error (conns s) k = Some c -> ~ In WBlock (wacts (c_wsock c))) ->
  inevitably auth dbg (fun s' => main s' = MExited /\ hdl s' = HStopped \/ main s' = MPanicked /\ hdl s' = HPanicked) s.
Proof.
  intros HR HC HB. pose proof (C57_every_run_partial auth dbg n s HR HC) as H.
  revert HR HB. clear HC. induction H as [s H0 H1 IH]. intros HR HB. constructor.
  - intros HS. destruct (H0 HS) as [K|[K|(_ & _ & k & c & Hk & Hc)]]; auto. exfalso. exact (HB k c Hk Hc).
  - intros l s' Hl Hs. apply (IH l s' Hl Hs); [eapply reachable_step; eauto|]. eapply unblocked_stays; eauto.
Qed.

(** A broker with two clients that read, after the signal. *)
Example C57_every_run_case :
  let s := drive ex_deny true (sys_init 2) (ex_sub_pub [] 3 ++ [LCtrlC]) in
  reachable ex_deny true 2 s /\ ctrl_c s = true /\ running s = true
  /\ forallb (fun c => match wacts (c_wsock c) with [] => true | _ => false end) (conns s) = true.
Proof. split; [apply drive_reachable|]. vm_compute. auto. Qed.
