(** Property C94: the messaging service as a task of its own, with its channel and its oneshots, makes no difference. *)
From Verif Require Import Base Base_facts Packets HashMap Subscriptions Messaging Handler Decoder ReadStream
  Conn Encoder WriteStream Spec_wire Spec_broker Spec_ref System System_facts System_conn System_queue System_progress
  System_exit System_rest Service Service_facts Prop_subs Prop_broker Prop_system Prop_rest Prop_mqtt Prop_ref Prop_stop.
Open Scope nat_scope.

(** ** Calls *)

(** While the handler is in a call the service runs; at most one operation or answer is on its way, that of the
    call; one of the two can go on; and the handler does not panic there, that is no [unwrap] on these channels
    ever fails. *)
Theorem C94_calls_succeed auth dbg n c : sreachable auth dbg n c ->
  length (inbox c) + length (oneshots c) <= 1
  /\ forall tx R (op : MessagingOperation R) f, hdl (core c) = HBusy tx (Call op f) ->
     service_running (core c) = true
     /\ (forall now c', sstep auth dbg c (SStep (LHandler now)) = Some c' ->
           hdl (core c') = HBusy tx (Call op f) \/ exists r, hdl (core c') = HBusy tx (f r))
     /\ ((forall now, sstep auth dbg c (SStep (LHandler now)) <> None) \/ sstep auth dbg c SServe <> None).
Proof.
  intros HS. destruct (sinv_reachable auth dbg n c HS) as (HR & HM & _). split.
  - destruct HM as [(_ & -> & ->)|(id & tx & R & op & f & _ & _ & _ & _ & [(-> & ->)|(m & -> & ->)])]; cbn; lia.
  - intros tx R op f EH.
    assert (EA : handler_alive (hdl (seen c)) = true /\ service_running (seen c) = service_running (core c)
                 /\ running (seen c) = running (core c)).
    { unfold seen. destruct (waiting c); [|now rewrite EH]. destruct (oneshots c) as [|[i a] [|? ?]]; try (rewrite EH; auto).
      destruct (resume _ a); cbn; auto. now rewrite EH. }
    destruct EA as (EA & ES & ER).
    assert (SR : service_running (core c) = true).
    { rewrite <- ES. now apply (dead_invariant auth dbg n _ HR). }
    assert (RN : running (core c) = true).
    { rewrite <- ER. now apply (alive_running auth dbg n). }
    split; [exact SR|]. unfold sstep. rewrite RN. unfold s_handler, s_serve. rewrite EH, SR.
    destruct HM as [(H1 & H2 & H3)|(id & tx' & R' & op' & f' & H1 & H2 & HP & HG & HM)].
    + rewrite H1, H2. cbn [length Nat.ltb Nat.leb]. split; [|left; discriminate].
      intros now c' [= <-]. left. exact EH.
    + rewrite H1. destruct HM as [(H3 & H4)|(m & H3 & H4)].
      * rewrite H3, H4. cbn [find existsb fst]. rewrite Nat.eqb_refl. split; [discriminate|]. right.
        destruct (serve (svc (core c)) op'). discriminate.
      * rewrite H3, H4. cbn [find fst]. rewrite Nat.eqb_refl.
        assert (K : exists r, answer_as op (answer_of op' (snd (serve m op'))) = Some r).
        { rewrite H2 in EH.
          pose proof (f_equal (fun h => match h with HBusy _ p => resume p (answer_of op' (snd (serve m op'))) | _ => None end) EH) as K.
          cbn [resume] in K.
          rewrite answer_back in K. destruct (answer_as op _) as [r|]; [eauto|discriminate]. }
        destruct K as (r & ->). split; [|left; discriminate]. intros now c' [= <-]. right. exists r. reflexivity.
Qed.

(** ** Executions *)

(** All the states agree on but where the handler is inside a call. *)
Definition agree (s s' : sys) : Prop := exists h, s' = set_hdl h s.

Theorem C94_same_executions auth dbg n c : sreachable auth dbg n c ->
  exists s, reachable auth dbg n s /\ agree s (core c)
    /\ (handler_alive (hdl (core c)) = handler_alive (hdl s))
    /\ ((forall tx R (op : MessagingOperation R) f, hdl (core c) <> HBusy tx (Call op f)) -> s = core c).
Proof.
  intros HS. destruct (sinv_reachable auth dbg n c HS) as (HR & HM & _). exists (seen c). split; [exact HR|].
  destruct HM as [(H1 & H2 & H3)|(id & tx & R & op & f & H1 & H2 & _ & _ & [(H3 & H4)|(m & H3 & H4)])].
  - rewrite seen_core by auto. split; [exists (hdl (core c)); symmetry; apply set_hdl_same|]. auto.
  - rewrite seen_core by auto. split; [exists (hdl (core c)); symmetry; apply set_hdl_same|]. auto.
  - rewrite (seen_served c id id tx R op f (snd (serve m op)) H1 H2 H4). split.
    + exists (hdl (core c)). cbn [set_hdl]. now rewrite <- set_hdl_same at 1.
    + split; [now rewrite H2|]. intros K. exfalso. exact (K _ _ _ _ H2).
Qed.

(** The other direction. *)
Inductive abreast (c : ssys) (s : sys) : Prop :=
| Abreast : waiting c = None -> inbox c = [] -> oneshots c = [] -> maybe_sessions c = [] ->
    core c = s \/ (exists tx, hdl s = HBusy tx Done /\ core c = set_hdl HIdle s) -> abreast c s.

Lemma eager_close auth dbg s k s' tx : hdl s = HBusy tx Done -> step auth dbg s (LWriter k) = Some s' ->
  step auth dbg (set_hdl HIdle s) (LWriter k) = Some (set_hdl HIdle s').
Proof.
  intros EH. unfold step. change (running (set_hdl HIdle s)) with (running s). destruct (running s); [|discriminate].
  unfold step_writer. cbn [conns set_hdl]. destruct (nth_error (conns s) k) as [c|] eqn:Hk; [|discriminate].
  destruct (c_writer c) as [ws|p ws|ws]; [| |discriminate].
  - destruct (c_queue c) as [|[f [p|]] q]; [|now intros [= <-]|now intros [= <-]].
    destruct (has_sender s k c) eqn:E; [discriminate|]. intros [= <-].
    assert (K : has_sender (set_hdl HIdle s) k c = false); [|now rewrite K].
    unfold has_sender in *. cbn [hdl set_hdl events service_running svc]. rewrite EH in E.
    apply Bool.orb_false_elim in E. destruct E as (E & E3). apply Bool.orb_false_elim in E. destruct E as (E & E2).
    now rewrite E, E3.
  - destruct (write_packet p ws); try discriminate; now intros [= <-].
Qed.

Lemma core_runs auth dbg c l s' : waiting c = None -> inbox c = [] -> oneshots c = [] -> maybe_sessions c = [] ->
  (forall tx R (op : MessagingOperation R) f, hdl (core c) <> HBusy tx (Call op f)) \/ (forall now, l <> LHandler now) ->
  step auth dbg (core c) l = Some s' -> sstep auth dbg c (SStep l) = Some (with_core s' c).
Proof.
  intros H1 H2 H3 H4 HC HS.
  assert (RN : running (core c) = true) by (unfold step in HS; now destruct (running (core c))).
  assert (E : match hdl s' with HBusy _ _ => maybe_sessions c | _ => [] end = maybe_sessions c) by (rewrite H4; now destruct (hdl s')).
  unfold sstep. rewrite RN. destruct l as [r w a|k uuid|k|now| | | | |]; try (now rewrite HS).
  - unfold elsewhere. rewrite H2, H3, H4. cbn [flat_map app existsb]. rewrite Bool.andb_false_r. now rewrite HS.
  - destruct HC as [HC|HC]; [|now destruct (HC now)]. unfold s_handler.
    destruct (hdl (core c)) as [|tx p| |] eqn:EH.
    + rewrite HS, E. reflexivity.
    + destruct p as [| |R op f|to e p]; [| |now destruct (HC tx R op f)|]; rewrite HS, E; reflexivity.
    + rewrite HS, E. reflexivity.
    + rewrite HS, E. reflexivity.
  - rewrite H2. now rewrite HS.
Qed.

Lemma abreast_step auth dbg n c s l s' : reachable auth dbg n s -> abreast c s -> step auth dbg s l = Some s' ->
  exists ls c', ssteps auth dbg c ls = Some c' /\ abreast c' s'.
Proof.
  intros HR [H1 H2 H3 H4 [HC|(tx & EH & HC)]] HS.
  - assert (ONE : (forall tx R (op : MessagingOperation R) f, hdl (core c) <> HBusy tx (Call op f)) \/ (forall now, l <> LHandler now) ->
      exists ls c', ssteps auth dbg c ls = Some c' /\ abreast c' s').
    { intros K. exists [SStep l], (with_core s' c). cbn [ssteps]. rewrite (core_runs auth dbg c l s'); auto; [|now rewrite HC].
      split; [reflexivity|]. constructor; auto. }
    destruct l as [r w a|k uuid|k|now| | | | |]; try (apply ONE; right; discriminate).
    destruct (hdl s) as [|tx p| |] eqn:EH; try (apply ONE; left; rewrite HC, EH; discriminate).
    destruct p as [| |R op f|to e p]; try (apply ONE; left; rewrite HC, EH; discriminate).
    (* a call: send the operation, serve it, take the answer; and return, if that lets go of a session *)
    assert (RN : running s = true) by (unfold step in HS; now destruct (running s)).
    assert (SR : service_running s = true) by (apply (dead_invariant auth dbg n _ HR); now rewrite EH).
    unfold step, step_handler in HS. rewrite RN, EH in HS. destruct (serve (svc s) op) as [m r] eqn:EV. injection HS as <-.
    set (c1 := {| core := s; waiting := Some (fresh c); inbox := [(fresh c, Operation op)]; oneshots := []; maybe_sessions := []; fresh := Datatypes.S (fresh c) |}).
    set (c2 := {| core := set_svc m s; waiting := Some (fresh c); inbox := []; oneshots := [(fresh c, answer_of op r)]; maybe_sessions := []; fresh := Datatypes.S (fresh c) |}).
    set (c3 := {| core := set_hdl (HBusy tx (f r)) (set_svc m s); waiting := None; inbox := []; oneshots := [];
                  maybe_sessions := match answer_of op r with ASession _ => senders_in (answer_of op r) | _ => [] end; fresh := Datatypes.S (fresh c) |}).
    assert (S1 : sstep auth dbg c (SStep (LHandler 0)) = Some c1).
    { unfold sstep, s_handler. rewrite HC, RN, EH, H1, SR, H2, H3, H4. reflexivity. }
    assert (S2 : sstep auth dbg c1 SServe = Some c2).
    { unfold sstep, s_serve, c1. cbn [core inbox waiting oneshots maybe_sessions fresh]. rewrite RN, SR, EV. cbn [app]. now rewrite Nat.eqb_refl. }
    assert (S3 : sstep auth dbg c2 (SStep (LHandler 0)) = Some c3).
    { unfold sstep, s_handler, c2. cbn [core inbox waiting oneshots maybe_sessions fresh hdl set_svc].
      change (running (set_svc m s)) with (running s). rewrite RN, EH. cbn [find filter fst]. rewrite Nat.eqb_refl. cbn [negb].
      rewrite answer_back. reflexivity. }
    assert (RUN : ssteps auth dbg c [SStep (LHandler 0); SServe; SStep (LHandler 0)] = Some c3).
    { cbn [ssteps]. now rewrite S1, S2, S3. }
    destruct (maybe_sessions c3) as [|x l] eqn:EK.
    + exists [SStep (LHandler 0); SServe; SStep (LHandler 0)], c3. split; [exact RUN|]. constructor; auto.
    + assert (ED : f r = Done).
      { pose proof (lets_go_invariant auth dbg n s HR) as HG. rewrite EH in HG. unfold c3 in EK. cbn [maybe_sessions] in EK.
        destruct (answer_of op r) as [| |s0| | | |] eqn:EA; try discriminate EK.
        destruct (session_answers R op f (svc s) r s0 HG) as [K|K]; [now rewrite EV|exact EA|rewrite EA in K; rewrite K in EK; discriminate|exact K]. }
      exists ([SStep (LHandler 0); SServe; SStep (LHandler 0)] ++ [SStep (LHandler 0)]).
      exists {| core := set_hdl HIdle (core c3); waiting := None; inbox := []; oneshots := []; maybe_sessions := []; fresh := Datatypes.S (fresh c) |}.
      rewrite ssteps_app, RUN. split.
      * cbn [ssteps]. unfold sstep, s_handler, c3. cbn [core hdl set_hdl]. change (running (set_hdl _ (set_svc m s))) with (running s).
        rewrite RN, ED. unfold step. change (running (set_hdl _ (set_svc m s))) with (running s). rewrite RN. reflexivity.
      * constructor; auto. right. exists tx. cbn [hdl set_hdl core c3]. split; [now rewrite ED|reflexivity].
  - (* the concrete handler has already returned *)
    assert (ONE : step auth dbg (set_hdl HIdle s) l = Some (set_hdl HIdle s') -> hdl s' = hdl s ->
      exists ls c', ssteps auth dbg c ls = Some c' /\ abreast c' s').
    { intros K1 K2. exists [SStep l], (with_core (set_hdl HIdle s') c). cbn [ssteps].
      rewrite (core_runs auth dbg c l (set_hdl HIdle s')); auto; [|left; rewrite HC; discriminate|now rewrite HC].
      split; [reflexivity|]. constructor; auto. right. exists tx. split; [congruence|reflexivity]. }
    assert (TAME : tame l -> step auth dbg (set_hdl HIdle s) l = Some (set_hdl HIdle s')).
    { intros HL. rewrite swap_handler; [now rewrite HS|exact HL|now rewrite EH|reflexivity]. }
    pose proof (step_keeps_handler auth dbg s l s') as KH.
    destruct l as [r w a|k uuid|k|now| | | | |]; try (apply ONE; [now apply TAME|now apply KH]).
    + apply ONE; [eapply eager_close; eauto|now apply KH].
    + exists [], c. split; [reflexivity|]. unfold step, step_handler in HS. rewrite EH in HS. destruct (running s); [|discriminate].
      injection HS as <-. constructor; auto.
    + unfold step in HS. rewrite EH in HS. destruct (running s); discriminate.
Qed.

Theorem C94_all_executions auth dbg n s : reachable auth dbg n s ->
  exists c, sreachable auth dbg n c /\ agree s (core c) /\ ((forall tx, hdl s <> HBusy tx Done) -> core c = s).
Proof.
  intros HR.
  assert (K : exists c, sreachable auth dbg n c /\ abreast c s).
  { revert s HR. apply (reachable_ind auth dbg n (fun s => exists c, sreachable auth dbg n c /\ abreast c s)).
    - exists (ssys_init n). split; [now exists []|]. constructor; auto.
    - intros s l s' HR (c & HC & HA) HS. destruct (abreast_step auth dbg n c s l s' HR HA HS) as (ls & c' & H & HA').
      exists c'. split; [eapply sreachable_steps; eauto|exact HA']. }
  destruct K as (c & HC & [H1 H2 H3 H4 [HE|(tx & EH & HE)]]); exists c; split; auto; split.
  - exists (hdl s). now rewrite HE, set_hdl_same.
  - auto.
  - exists HIdle. exact HE.
  - intros K. destruct (K tx EH).
Qed.

(** While a call is under way nobody else waits for it: what a read task, a writer that has something to send, a listener
    or the main task can do without the separate service it can do at once. *)
Theorem C94_nobody_else_waits auth dbg c l s' : step auth dbg (core c) l = Some s' ->
  match l with
  | LHandler _ | LStopService => False
  | LWriter k => exists cs, nth_error (conns (core c)) k = Some cs /\ (c_queue cs <> [] \/ exists p ws, c_writer cs = WBusy p ws)
  | _ => True
  end -> sstep auth dbg c (SStep l) = Some (with_core s' c).
Proof.
  intros HS HL. assert (RN : running (core c) = true) by (unfold step in HS; now destruct (running (core c))).
  unfold sstep. rewrite RN. destruct l as [r w a|k uuid|k|now| | | | |]; try contradiction; try (now rewrite HS).
  destruct HL as (cs & Hk & HW).
  assert (E : idle_writer (core c) k = false).
  { unfold idle_writer. rewrite Hk. destruct HW as [HW|(p & ws & ->)]; [|reflexivity]. destruct (c_queue cs); [congruence|]. now destruct (c_writer cs). }
  rewrite E. cbn [andb]. now rewrite HS.
Qed.

(** ** Rest *)

Definition s_internal (l : slabel) : Prop := match l with SStep l' => internal l' | SServe => True end.

Definition s_at_rest auth dbg (c : ssys) : Prop := forall l, s_internal l -> sstep auth dbg c l = None.

(** As [inevitably]. *)
Inductive s_inevitably auth dbg (P : ssys -> Prop) (c : ssys) : Prop :=
| SInevitably : (s_at_rest auth dbg c -> P c) ->
    (forall l c', s_internal l -> sstep auth dbg c l = Some c' -> s_inevitably auth dbg P c') ->
    s_inevitably auth dbg P c.

(** At rest no operation, no answer and no session is on its way, and the rest is at rest as in [System.v]. *)
Theorem C94_rest auth dbg n c : sreachable auth dbg n c -> s_at_rest auth dbg c ->
  reachable auth dbg n (core c) /\ at_rest auth dbg (core c) /\ inbox c = [] /\ oneshots c = [] /\ maybe_sessions c = [].
Proof.
  intros HS HA. pose proof (sinv_reachable auth dbg n c HS) as (HR & HM & HK).
  assert (NC : forall tx R (op : MessagingOperation R) f, hdl (core c) <> HBusy tx (Call op f)).
  { intros tx R op f EH. destruct (C94_calls_succeed auth dbg n c HS) as (_ & K).
    destruct (K tx R op f EH) as (_ & _ & [K1|K1]).
    - apply (K1 0%Z). now apply HA.
    - apply K1. now apply HA. }
  destruct HM as [(H1 & H2 & H3)|(id & tx & R & op & f & _ & EH & _)]; [|destruct (NC _ _ _ _ EH)].
  rewrite seen_core in HR by auto.
  assert (K : maybe_sessions c = []).
  { destruct HK as [HK|(tx & EH)]; [exact HK|]. exfalso.
    assert (RN : running (core c) = true) by (apply (alive_running auth dbg n _ HR); now rewrite EH).
    pose proof (HA (SStep (LHandler 0)) I) as K. unfold sstep, s_handler, step, step_handler in K.
    rewrite RN, EH in K. discriminate. }
  split; [exact HR|]. split; [|auto]. intros l Hl.
  destruct (step auth dbg (core c) l) as [s'|] eqn:E; [|reflexivity].
  pose proof (core_runs auth dbg c l s' H1 H2 H3 K (or_introl NC) E) as K'. rewrite (HA (SStep l)) in K'; [discriminate|exact Hl].
Qed.

(** The run ends, whatever the schedule. *)
Lemma s_dies_out auth dbg n (P : ssys -> Prop) c : sreachable auth dbg n c ->
  (forall c', sreachable auth dbg n c' -> s_at_rest auth dbg c' -> P c') -> s_inevitably auth dbg P c.
Proof.
  intros HS HP. pose proof (sinv_reachable auth dbg n c HS) as (HR & _).
  pose proof (dies_out auth dbg n (seen c) HR) as HA. remember (seen c) as s eqn:Es. revert c HS HR Es.
  induction HA as [s _ IH]. intros c HS HR Es.
  remember (stage c) as m eqn:Em. revert c HS Es Em.
  induction m as [m IHm] using lt_wf_ind. intros c HS Es Em. constructor; [intros K; now apply HP|].
  intros l c' Hl HT. pose proof (sinv_reachable auth dbg n c HS) as HI.
  pose proof (sreachable_step auth dbg n c l c' HS HT) as HS'.
  destruct (sstep_seen auth dbg n c l c' HI HT) as (HI' & [(K1 & K2 & _)|(l' & K1 & K2)]).
  - apply (IHm (stage c')); [lia|exact HS'|congruence|reflexivity].
  - apply (IH (seen c')); [|exact HS'|apply HI'|reflexivity]. exists l'. split; [|congruence].
    destruct l as [l|]; subst l'; [|exact I]. destruct l; try exact I; destruct Hl.
Qed.

Theorem C94_every_run auth dbg n c : sreachable auth dbg n c ->
  s_inevitably auth dbg (fun c' => rest_state auth dbg (core c')) c.
Proof.
  intros HS. apply (s_dies_out auth dbg n); [exact HS|]. intros c' HS' HA.
  destruct (C94_rest auth dbg n c' HS' HA) as (HR & HA' & _). now apply (C87_rest auth dbg n).
Qed.

(** A subscriber, a publisher and a subscriber leaving: while the operation is in the channel, another read task
    goes on; at the end all is as in [System.v]. *)
Fixpoint sdrive auth dbg (c : ssys) (ls : list slabel) : ssys :=
  match ls with
  | [] => c
  | l :: ls' => sdrive auth dbg (match sstep auth dbg c l with Some c' => c' | None => c end) ls'
  end.

Lemma sdrive_steps auth dbg ls : forall c, exists ls', ssteps auth dbg c ls' = Some (sdrive auth dbg c ls).
Proof.
  induction ls as [|l ls IH]; intros c; cbn [sdrive]; [now exists []|].
  destruct (sstep auth dbg c l) as [c1|] eqn:E; [|apply IH].
  destruct (IH c1) as (ls' & H). exists (l :: ls'). cbn [ssteps]. now rewrite E.
Qed.

Lemma sdrive_reachable auth dbg n ls : sreachable auth dbg n (sdrive auth dbg (ssys_init n) ls).
Proof. apply sdrive_steps. Qed.

Definition ex_s_labels (ls : list label) : list slabel := flat_map (fun l => [SStep l; SServe]) ls.

Definition ex_s_middle : ssys :=
  sdrive ex_deny true (ssys_init 1)
    (map SStep [LAccept (ex_peer [ex_client "s" None None; Subscribe 1 [{| sub_topic := str "a"; sub_qos := AtMostOnce |}]; Disconnect] PeerOpen)
                  (ex_socket []) 1;
                LReader 0 []; LReader 0 []; LHandler 5; LHandler 5; LReader 0 []; LReader 0 []]).

Definition ex_s_end : ssys :=
  sdrive ex_deny true ex_s_middle (SServe :: ex_s_labels (ex_rounds 20 [0])).

Example C94_case : sreachable ex_deny true 1 ex_s_middle
  /\ map snd (inbox ex_s_middle) = [Operation (SessionGet (str "s"))] /\ waiting ex_s_middle = Some 0
  /\ length (events (core ex_s_middle)) = 1 /\ sstep ex_deny true ex_s_middle (SStep (LHandler 5)) = None
  /\ sreachable ex_deny true 1 ex_s_end /\ s_at_rest ex_deny true ex_s_end
  /\ map broker_sent (conns (core ex_s_end))
     = [[ConnAck {| session_present := false; return_code := Accepted |}; SubAck 1 [SuccessQoS0]]]
  /\ length (handled (core ex_s_end)) = 3 /\ fresh ex_s_end = 4 /\ sessions (svc (core ex_s_end)) = [].
Proof.
  split; [apply sdrive_reachable|]. split; [vm_compute; reflexivity|]. split; [vm_compute; reflexivity|].
  split; [vm_compute; reflexivity|]. split; [vm_compute; reflexivity|]. split.
  { destruct (sdrive_steps ex_deny true (SServe :: ex_s_labels (ex_rounds 20 [0])) ex_s_middle) as (ls & H).
    exact (sreachable_steps ex_deny true 1 ex_s_middle ls ex_s_end (sdrive_reachable _ _ _ _) H). }
  split; [|vm_compute; auto].
  assert (K : idleb true (core ex_s_end) = true) by (vm_compute; reflexivity).
  assert (K1 : hdl (core ex_s_end) = HIdle) by (vm_compute; reflexivity).
  assert (K2 : inbox ex_s_end = []) by (vm_compute; reflexivity).
  generalize dependent ex_s_end. intros c K K1 K2 l Hl.
  unfold sstep. destruct (running (core c)); [|reflexivity]. destruct l as [l|].
  - assert (N : step ex_deny true (core c) l = None).
    { destruct (step ex_deny true (core c) l) as [s'|] eqn:E; [|reflexivity]. exfalso.
      exact (idleb_idle ex_deny true (core c) K l s' Hl E). }
    destruct l; try now rewrite N.
    + destruct (_ && _); [reflexivity|]. now rewrite N.
    + unfold s_handler. now rewrite K1, N.
    + rewrite K2. now rewrite N.
  - unfold s_serve. rewrite K2. now destruct (service_running (core c)).
Qed.
