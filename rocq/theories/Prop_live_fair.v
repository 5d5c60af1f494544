(** Property C112: clients that keep coming and keep sending hold nobody up. *)
From Verif Require Import Base Base_facts Packets HashMap Subscriptions Messaging Handler Decoder ReadStream ReadStream_facts
  Plain_facts Conn Conn_facts Encoder Encoder_facts WriteStream WriteStream_facts Spec_wire Spec_subs Spec_broker Spec_ref
  Subscriptions_facts Handler_facts System System_facts
  System_hist System_conn System_queue System_first System_progress System_exit System_rest
  Prop_subs Prop_stream Prop_broker Prop_system Prop_rest Prop_mqtt Prop_ref Prop_stop Prop_any Service_facts System_fair Prop_fair
  Live Live_facts Prop_live Live_fair.
Open Scope nat_scope.

(** The read task of connection [k] spins in get_bytes (C04) when it reads what has come so far. *)
Definition spins (dbg : bool) (s : sys) (k : conn) : Prop := exists c, nth_error (conns s) k = Some c /\ reader_hung dbg c.

Section Served.
Context {auth : bytes -> bytes -> bool} {dbg : bool} {n : nat} {run : nat -> sys} {lab : nat -> option act}.
Hypothesis FR : live_fair_run auth dbg n run lab.
Hypothesis NB : forall i k c, nth_error (conns (run i)) k = Some c -> ~ blocks (c_wsock c).

Lemma issued_app k a cid ps l : exists more, issued k a cid (ps ++ l) = issued k a cid ps ++ more.
Proof.
  destruct ps as [|p ps]; [exists (issued k a cid l); reflexivity|]. cbn [app issued].
  destruct p; try (exists []; reflexivity). exists (map (fun q => ClientPacket cid q k) l). cbn. now rewrite map_app.
Qed.

(** What the client has sent by now, whole packets, comes to be handled, in order, whatever it and the others send after. *)
Theorem C112_packets_handled i k c ps bss rest : nth_error (conns (run i)) k = Some c ->
  arriving (c_rsock c) = concat bss ++ rest -> Forall2 sent_as ps bss ->
  exists j, i <= j /\ (handler_alive (hdl (run j)) = false
    \/ (4096 < lenN (concat bss))%N /\ spins dbg (run j) k
    \/ exists cid more, (forall p qs, ps = Connect p :: qs -> goes_by p cid)
       /\ events_of k (map snd (handled (run j))) = issued k (c_addr c) cid ps ++ more).
Proof.
  intros Hk HA HF.
  destruct (live_reader_comes FR NB k ps bss HF (Datatypes.S (to_do ps c)) i c Hk) as (j1 & Hj1 & [K|K]); [now exists rest|lia|exists j1; auto|].
  destruct K as (c1 & H1 & (rest1 & HA1) & K).
  assert (K' : (4096 < lenN (concat bss))%N /\ spins dbg (run j1) k
    \/ pend (c_reader c1) = [] /\ ((exists l, c_read c1 = ps ++ l) \/ not_connect (c_read c1))).
  { destruct K as [K|K]; [|now right]. destruct (N.lt_ge_cases 4096 (lenN (concat bss))) as [L|L].
    - left. split; [exact L|]. exists c1. auto.
    - right. split; [unfold reader_hung in K; destruct (c_reader c1); try destruct K; reflexivity|left].
      exact (live_no_hang auth dbg n (run j1) k c1 (lf_reachable FR j1) H1 ps bss rest1 HA1 HF L K). }
  clear K. destruct K' as [K'|(HP & K')]; [exists j1; auto|].
  destruct (live_alive_or_dead (run := run) j1) as [HAl|HAl]; [|exists j1; auto]. unfold live_alive in HAl.
  assert (EA : c_addr c1 = c_addr c).
  { destruct (live_conn_stays FR i j1 k c Hj1 Hk) as (c' & E1 & E2 & _). rewrite H1 in E1. injection E1 as <-. exact E2. }
  assert (ALL : exists cid more, (forall p qs, ps = Connect p :: qs -> goes_by p cid)
     /\ events_of k (map snd (handled (run j1)) ++ events (run j1)) = issued k (c_addr c) cid ps ++ more).
  { pose proof (live_flow auth dbg n (run j1) (lf_reachable FR j1) k) as HFl. unfold flow_ok in HFl. rewrite H1, HAl, HP, app_nil_r, EA in HFl.
    destruct HFl as (cid & _ & Hi & HFl). destruct K' as [(l & El)|(p & Ep & HN)].
    - destruct (issued_app k (c_addr c) cid ps l) as (m & Em). exists cid, m. split; [|congruence].
      intros p qs ->. apply (Hi p (qs ++ l)). rewrite El. reflexivity.
    - destruct ps as [|q qs]; [exists cid, (issued k (c_addr c) cid (c_read c1)); split; [discriminate|exact HFl]|].
      inversion HF as [|? b ? bss' HS HF' E1 E2]; subst.
      destruct (live_read_prefix auth dbg n (run j1) k c1 (lf_reachable FR j1) H1 [q] [b] (concat bss' ++ rest1)) as (l & El).
      + cbn [concat] in *. now rewrite HA1, app_nil_r, app_assoc.
      + constructor; [exact HS|constructor].
      + rewrite Ep. cbn. lia.
      + rewrite Ep in El. injection El as -> _. exists cid, []. split.
        * intros p' qs' [= -> _]. now destruct (HN p').
        * rewrite HFl, Ep. destruct q; try reflexivity. now destruct (HN c0). }
  destruct ALL as (cid & m & G & ALL).
  destruct (live_queued_handled FR NB (events (run j1)) j1) as (j2 & Hj2 & [K|(m' & K)]).
  { exists []. now rewrite app_nil_r. }
  { exists j2. split; [lia|now left]. }
  exists j2. split; [lia|right; right]. exists cid, (m ++ events_of k m'). split; [exact G|].
  rewrite K, app_assoc, events_of_app, ALL. now rewrite <- app_assoc.
Qed.

(** Everything the reference broker sends because of the events handled by now is sent. *)
Theorem C112_answers_sent i k c : nth_error (conns (run i)) k = Some c ->
  exists j, i <= j /\ (handler_alive (hdl (run j)) = false
    \/ exists c', nth_error (conns (run j)) k = Some c' /\ (forall p ws, c_writer c' <> WBusy p ws)
       /\ exists rest, broker_sent c' = before_close (ref_sends auth ref_init (map snd (handled (run i))) k) ++ rest).
Proof.
  intros Hk.
  assert (K : exists j, i <= j /\ (handler_alive (hdl (run j)) = false \/ hdl (run j) = HIdle /\ handled (run j) = handled (run i))).
  { destruct (hdl (run i)) as [|tx p| |] eqn:EH.
    - exists i. auto.
    - destruct (live_idle_comes FR NB p tx i EH) as (j & Hj & [K|(K1 & K2 & _)]); exists j; auto.
    - exists i. rewrite EH. auto.
    - exists i. rewrite EH. auto. }
  destruct K as (j1 & Hj1 & [K|(K1 & K2)]); [exists j1; auto|].
  destruct (live_conn_stays FR i j1 k c Hj1 Hk) as (c1 & H1 & _).
  destruct (live_sent_comes FR NB k j1 (length (live_due (run := run) k j1)) j1 c1 (le_n _) H1) as (j & Hj & [K|(c' & P1 & P2 & rest & P3)]); [lia| |].
  - exists j. split; [lia|left]. destruct (handler_alive (hdl (run j))) eqn:HA; [|reflexivity].
    rewrite (live_alive_running auth dbg n (run j) (lf_reachable FR j) HA) in K. discriminate.
  - exists j. split; [lia|right]. exists c'. split; [exact P1|]. split; [exact P2|]. exists rest. unfold broker_sent. rewrite P3. f_equal.
    unfold live_due. f_equal. pose proof (live_hist auth dbg n (run j1) (lf_reachable FR j1)) as HH. unfold hist_inv in HH. rewrite K1 in HH.
    rewrite <- K2, <- (proj1 (C86_all_events auth (handled (run j1)) k)), HH. cbn [fst snd]. apply put_to_sent.
Qed.

(** Both together. *)
Theorem C112_served i k c ps bss rest : nth_error (conns (run i)) k = Some c ->
  arriving (c_rsock c) = concat bss ++ rest -> Forall2 sent_as ps bss ->
  exists j, i <= j /\ (handler_alive (hdl (run j)) = false
    \/ (4096 < lenN (concat bss))%N /\ spins dbg (run j) k
    \/ exists es cid more c', (exists more, map snd (handled (run j)) = es ++ more)
       /\ (forall p qs, ps = Connect p :: qs -> goes_by p cid)
       /\ events_of k es = issued k (c_addr c) cid ps ++ more
       /\ nth_error (conns (run j)) k = Some c' /\ (forall p ws, c_writer c' <> WBusy p ws)
       /\ exists rest, broker_sent c' = before_close (ref_sends auth ref_init es k) ++ rest).
Proof.
  intros Hk HA HF. destruct (C112_packets_handled i k c ps bss rest Hk HA HF) as (j1 & Hj1 & [K|[K|(cid & m & G & K)]]); [exists j1; auto|exists j1; auto|].
  destruct (live_conn_stays FR i j1 k c Hj1 Hk) as (c1 & H1 & _).
  destruct (C112_answers_sent j1 k c1 H1) as (j & Hj & [K'|(c' & P1 & P2 & P3)]); [exists j; split; [lia|now left]|].
  exists j. split; [lia|right; right]. exists (map snd (handled (run j1))), cid, m, c'. split.
  { destruct (live_handled_grows FR j1 j Hj) as (m' & ->). rewrite map_app. eauto. }
  split; [exact G|]. split; [exact K|]. auto.
Qed.
End Served.

(** ** There are such runs *)

(** What the world does, in turn; a peer may come, send, close, and react, but does not stop reading. *)
Definition world_act (a : act) : Prop :=
  match a with
  | Own (LAccept _ w _) => ~ blocks w
  | Own _ => False
  | Arrive _ _ _ | Finish _ _ => True
  | React _ acts => ~ In WBlock acts
  end.

(** The first task that can go on goes on; when none can, the world does what comes next, if it can. *)
Definition live_label auth dbg (ws : nat -> act) (x : sys * nat) : option act :=
  match find (enabled auth dbg (fst x)) (try_labels (fst x)) with
  | Some l => Some (Own l)
  | None => match live_step auth dbg (fst x) (ws (snd x)) with Some _ => Some (ws (snd x)) | None => None end
  end.

Definition live_next auth dbg (ws : nat -> act) (x : sys * nat) : sys * nat :=
  match find (enabled auth dbg (fst x)) (try_labels (fst x)) with
  | Some l => (match step auth dbg (fst x) l with Some s' => s' | None => fst x end, snd x)
  | None => (match live_step auth dbg (fst x) (ws (snd x)) with Some s' => s' | None => fst x end, Datatypes.S (snd x))
  end.

Fixpoint live_sched auth dbg (ws : nat -> act) (s0 : sys) (i : nat) : sys * nat :=
  match i with
  | O => (s0, 0)
  | Datatypes.S i => live_next auth dbg ws (live_sched auth dbg ws s0 i)
  end.

Lemma live_dies_out auth dbg n s : live_reachable auth dbg n s -> Acc (next_state auth dbg) s.
Proof.
  intros HL. destruct (C111_no_difference auth dbg n s HL) as (s' & HR & HK). pose proof (dies_out auth dbg n s' HR) as HA.
  clear HR HL. revert s HK. induction HA as [s' _ IH]. intros s HK. constructor. intros s1 (l & Hl & Hs).
  pose proof (like_step auth dbg s s' l HK) as K. rewrite Hs in K. destruct (step auth dbg s' l) as [s1'|] eqn:E; [|contradiction].
  apply (IH s1'); [now exists l|exact K].
Qed.

Lemma live_rest_handler auth dbg n s : live_reachable auth dbg n s -> at_rest auth dbg s ->
  (forall k c, nth_error (conns s) k = Some c -> ~ blocks (c_wsock c)) ->
  handler_alive (hdl s) = true -> hdl s = HIdle /\ events s = [].
Proof.
  intros HL HS HB HA. destruct (C111_no_difference auth dbg n s HL) as (s' & HR & HK). pose proof HK as (E1 & E2 & _).
  rewrite <- E1, <- E2 in *. apply (rest_handler auth dbg n s' HR); [| |exact HA].
  - intros l Hl. pose proof (like_step auth dbg s s' l HK) as K. rewrite (HS l Hl) in K. destruct (step auth dbg s' l); [contradiction|reflexivity].
  - intros j cj' Hj Hb. pose proof (like_nth s s' j HK) as K. rewrite Hj in K. destruct (nth_error (conns s) j) as [cj|] eqn:Ej; [|contradiction].
    destruct K as (_ & _ & _ & _ & _ & _ & _ & _ & _ & _ & _ & K). destruct (K WBlock Hb) as [(m & ?)|K']; [discriminate|]. exact (HB j cj Ej K').
Qed.

Lemma live_reachable_next auth dbg n s a s' : live_reachable auth dbg n s -> live_step auth dbg s a = Some s' -> live_reachable auth dbg n s'.
Proof.
  intros (l & IH) H. exists (l ++ [a]). revert IH. generalize (sys_init n). induction l as [|b l IHl]; intros s1; cbn [live_steps app].
  - intros [= ->]. now rewrite H.
  - destruct (live_step auth dbg s1 b); [apply IHl|discriminate].
Qed.

Section Sched.
Context (auth : bytes -> bytes -> bool) (dbg : bool) (n : nat) (ws : nat -> act) (s0 : sys).
Hypothesis R0 : live_reachable auth dbg n s0.
Hypothesis S0 : serving s0.
Hypothesis B1 : forall m, world_act (ws m).

Let run i := fst (live_sched auth dbg ws s0 i).
Let num i := snd (live_sched auth dbg ws s0 i).
Let lab i := live_label auth dbg ws (live_sched auth dbg ws s0 i).

Lemma serving_world s a s' : world_act a -> live_step auth dbg s a = Some s' -> serving s -> serving s'.
Proof.
  intros HW HS (H1 & H2 & H3 & H4). destruct a as [l|k bs sz|k e|k ra]; cbn [live_step] in HS.
  - destruct l as [r w a| | | | | | | |]; try contradiction. unfold step, running in HS. rewrite H1 in HS. destruct (listeners s) as [|m] eqn:EL; [discriminate|].
    injection HS as <-. unfold serving. cbn [main ctrl_c listeners conns set_conns]. rewrite EL. repeat split; auto. intros k c. rewrite nth_error_snoc.
    destruct (Nat.eqb k _); [intros [= <-]; exact HW|apply H4].
  - destruct (nth_error (conns s) k) as [c|] eqn:Hk; [|discriminate]. destruct (ending (c_rsock c)); try discriminate. injection HS as <-.
    repeat split; auto. intros k' c'. cbn [conns set_conn set_conns]. rewrite nth_update. destruct (Nat.eqb_spec k' k) as [->|_]; [|apply H4].
    rewrite Hk. intros [= <-]. exact (H4 k c Hk).
  - destruct (nth_error (conns s) k) as [c|] eqn:Hk; [|discriminate]. destruct (ending (c_rsock c)); try discriminate. injection HS as <-.
    repeat split; auto. intros k' c'. cbn [conns set_conn set_conns]. rewrite nth_update. destruct (Nat.eqb_spec k' k) as [->|_]; [|apply H4].
    rewrite Hk. intros [= <-]. exact (H4 k c Hk).
  - destruct (nth_error (conns s) k) as [c|] eqn:Hk; [|discriminate]. injection HS as <-.
    repeat split; auto. intros k' c'. cbn [conns set_conn set_conns]. rewrite nth_update. destruct (Nat.eqb_spec k' k) as [->|_]; [|apply H4].
    rewrite Hk. intros [= <-] HB. unfold blocks in HB. cbn in HB. apply in_app_or in HB. destruct HB as [HB|HB]; [exact (H4 k c Hk HB)|exact (HW HB)].
Qed.

(** Each step of the schedule is one of a task, or the world's at rest. *)
Lemma live_sched_steps i : serving (run i) /\ live_reachable auth dbg n (run i)
  /\ ((exists l, lab i = Some (Own l) /\ step auth dbg (run i) l = Some (run (Datatypes.S i)) /\ worker l /\ num (Datatypes.S i) = num i)
      \/ at_rest auth dbg (run i) /\ num (Datatypes.S i) = Datatypes.S (num i)
         /\ (lab i = Some (ws (num i)) /\ live_step auth dbg (run i) (ws (num i)) = Some (run (Datatypes.S i))
             \/ lab i = None /\ live_step auth dbg (run i) (ws (num i)) = None /\ run (Datatypes.S i) = run i)).
Proof.
  assert (ONE : forall i, serving (run i) -> live_reachable auth dbg n (run i) ->
    (serving (run (Datatypes.S i)) /\ live_reachable auth dbg n (run (Datatypes.S i)))
    /\ ((exists l, lab i = Some (Own l) /\ step auth dbg (run i) l = Some (run (Datatypes.S i)) /\ worker l /\ num (Datatypes.S i) = num i)
      \/ at_rest auth dbg (run i) /\ num (Datatypes.S i) = Datatypes.S (num i)
         /\ (lab i = Some (ws (num i)) /\ live_step auth dbg (run i) (ws (num i)) = Some (run (Datatypes.S i))
             \/ lab i = None /\ live_step auth dbg (run i) (ws (num i)) = None /\ run (Datatypes.S i) = run i))).
  { clear i. intros i HS HR. unfold run, num, lab in *. cbn [live_sched]. unfold live_next, live_label.
    set (x := live_sched auth dbg ws s0 i) in *.
    destruct (find (enabled auth dbg (fst x)) (try_labels (fst x))) as [l|] eqn:EF.
    - destruct (find_some _ _ EF) as (HIn & HE). unfold enabled in HE. pose proof (try_worker _ _ HIn) as HW.
      destruct (step auth dbg (fst x) l) as [s'|] eqn:ES; [|discriminate]. cbn [fst snd]. split.
      + split; [exact (serving_worker auth dbg (fst x) l s' HW ES HS)|exact (live_reachable_next auth dbg n (fst x) (Own l) s' HR ES)].
      + left. exists l. auto.
    - assert (HT : at_rest auth dbg (fst x)).
      { pose proof HS as (_ & _ & HS3 & HS4).
        exact (try_rest auth dbg (fun _ => (ex_open, ex_socket [], 0%N)) (fst x) HS3 HS4 (fun _ H => H) (fst x) HS EF). }
      cbn [fst snd].
      destruct (live_step auth dbg (fst x) (ws (snd x))) as [s'|] eqn:ES; (split; [|right; split; [exact HT|split; [reflexivity|auto]]]).
      + split; [exact (serving_world (fst x) (ws (snd x)) s' (B1 _) ES HS)|exact (live_reachable_next auth dbg n (fst x) (ws (snd x)) s' HR ES)].
      + auto. }
  assert (ALL : forall i, serving (run i) /\ live_reachable auth dbg n (run i)).
  { clear i. induction i as [|i (IH1 & IH2)]; [split; [exact S0|exact R0]|]. now apply ONE. }
  destruct (ALL i) as (H1 & H2). destruct (ONE i H1 H2) as (_ & H3). auto.
Qed.

(** The schedule comes to rest again and again. *)
Lemma live_sched_rests i : exists j, i <= j /\ at_rest auth dbg (run j) /\ num j = num i.
Proof.
  assert (K : forall s, Acc (next_state auth dbg) s -> forall i, run i = s -> exists j, i <= j /\ at_rest auth dbg (run j) /\ num j = num i).
  { induction 1 as [s _ IH]. intros i' E. destruct (live_sched_steps i') as (_ & _ & [(l & _ & HS & HW & HN)|(HR & _)]); [|exists i'; auto].
    destruct (IH (run (Datatypes.S i'))) with (i := Datatypes.S i') as (j & Hj & H1 & H2); [|reflexivity|].
    - exists l. rewrite <- E. split; [destruct l; try destruct HW; exact I|exact HS].
    - exists j. split; [lia|]. split; [exact H1|congruence]. }
  apply (K (run i)); [|reflexivity]. apply (live_dies_out auth dbg n). apply live_sched_steps.
Qed.

(** So each act of the world gets its turn. *)
Lemma live_sched_turn m : exists i, num i = m /\ at_rest auth dbg (run i).
Proof.
  induction m as [|m (i & H1 & H2)].
  - destruct (live_sched_rests 0) as (j & _ & H1 & H2). exists j. auto.
  - assert (E : num (Datatypes.S i) = Datatypes.S m).
    { destruct (live_sched_steps i) as (_ & _ & [(l & _ & HS & HW & _)|(_ & E & _)]); [|congruence].
      rewrite H2 in HS; [discriminate|]. destruct l; try destruct HW; exact I. }
    destruct (live_sched_rests (Datatypes.S i)) as (j & _ & K1 & K2). exists j. split; [congruence|exact K1].
Qed.

(** A read task that has something to do goes on before the schedule comes to rest. *)
Definition wants (k : conn) (s : sys) : Prop := exists c, nth_error (conns s) k = Some c /\ ~ waits dbg (c_reader c).

Lemma can_wants k s : can auth dbg (TReader k) s -> wants k s.
Proof.
  intros (l & Hl & HS). destruct (reader_runs k l Hl) as (u & ->). unfold step, step_reader in HS. destruct (running s); [|now destruct HS].
  destruct (nth_error (conns s) k) as [c|] eqn:Hk; [|now destruct HS]. exists c. split; [exact Hk|]. intros HW. apply HS.
  destruct (c_reader c) as [rs|e cid rs|cid rs|]; cbn [waits] in HW; [|destruct HW| |reflexivity];
    destruct (stream_read_packet dbg rs); try destruct HW; reflexivity.
Qed.

Lemma wants_runs k i : wants k (run i) -> exists j, i <= j /\ runs (TReader k) (own (lab j)) = true.
Proof.
  assert (K : forall s, Acc (next_state auth dbg) s -> forall i, run i = s -> wants k (run i) -> exists j, i <= j /\ runs (TReader k) (own (lab j)) = true).
  { induction 1 as [s _ IH]. intros i' E (c & Hk & HN). destruct (live_sched_steps i') as (HSv & HRe & [(l & EL & HS & HW & _)|(HR & _)]).
    - destruct (runs (TReader k) (own (lab i'))) eqn:ER; [exists i'; auto|].
      destruct (IH (run (Datatypes.S i'))) with (i := Datatypes.S i') as (j & Hj & H); [|reflexivity| |exists j; split; [lia|exact H]].
      + exists l. rewrite <- E. split; [destruct l; try destruct HW; exact I|exact HS].
      + destruct (conn_frame _ _ _ _ _ _ _ HS Hk) as (c2 & K1 & _ & _ & _ & K2 & _). exists c2. split; [exact K1|].
        destruct K2 as (-> & _); [|exact HN]. intros u ->. rewrite EL in ER. cbn in ER. now rewrite Nat.eqb_refl in ER.
    - exfalso. apply HN. pose proof HSv as (S1 & S2 & S3 & S4). pose proof (HR (LReader k []) I) as H. unfold step, step_reader, running in H. rewrite S1, Hk in H.
      destruct (c_reader c) as [rs|e cid rs|cid rs|] eqn:ER; [| | |exact I]; cbn [waits].
      + destruct (stream_read_packet dbg rs) as [p ?| | | | |]; auto; try discriminate. destruct p; discriminate.
      + destruct (handler_alive (hdl (run i'))) eqn:EA; [|discriminate].
        destruct (live_rest_handler auth dbg n (run i') HRe HR S4 EA) as (_ & HE). rewrite HE in H. discriminate.
      + destruct (stream_read_packet dbg rs) as [p ?| | | | |]; auto; discriminate. }
  apply (K (run i)); [|reflexivity]. apply (live_dies_out auth dbg n). apply live_sched_steps.
Qed.

Theorem live_sched_fair : live_fair_run auth dbg n run lab.
Proof.
  constructor.
  - exact R0.
  - intros i. destruct (live_sched_steps i) as (_ & _ & [(l & EL & HS & _)|(_ & _ & [(EL & HS)|(EL & _ & HS)])]); rewrite EL; exact HS.
  - intros t i. destruct (live_sched_rests i) as (j & Hj & HR & _). exists j. split; [exact Hj|right]. intros (l & Hl & HN). apply HN. apply HR.
    destruct t, l; try discriminate Hl; exact I.
  - intros k c e cid st Q i _ _ H. destruct (H i (le_n i)) as (j & Hj & [K|K]); [|exists j; auto].
    destruct (wants_runs k j (can_wants k _ K)) as (j' & Hj' & HX). exists j'. split; [lia|now left].
Qed.
End Sched.

(** Whatever the world does and keeps doing, there is such a run in which it does all it can, in that order: [num i] is how
    many of its acts have had their turn. *)
Theorem C112_fair_runs auth dbg n s0 (ws : nat -> act) : live_reachable auth dbg n s0 -> main s0 = MServing -> ctrl_c s0 = false ->
  listeners s0 <> 0 -> (forall k c, nth_error (conns s0) k = Some c -> ~ blocks (c_wsock c)) -> (forall m, world_act (ws m)) ->
  exists run lab num, live_fair_run auth dbg n run lab /\ run 0 = s0 /\ num 0 = 0
    /\ (forall i k c, nth_error (conns (run i)) k = Some c -> ~ blocks (c_wsock c))
    /\ (forall i, (exists l, lab i = Some (Own l) /\ internal l) /\ num (Datatypes.S i) = num i
        \/ lab i = match live_step auth dbg (run i) (ws (num i)) with Some _ => Some (ws (num i)) | None => None end
           /\ num (Datatypes.S i) = Datatypes.S (num i))
    /\ forall m, exists i, num i = m.
Proof.
  intros R0 M0 C0 L0 B0 B1. assert (S0 : serving s0) by (repeat split; assumption).
  exists (fun i => fst (live_sched auth dbg ws s0 i)), (fun i => live_label auth dbg ws (live_sched auth dbg ws s0 i)), (fun i => snd (live_sched auth dbg ws s0 i)).
  split; [exact (live_sched_fair auth dbg n ws s0 R0 S0 B1)|]. split; [reflexivity|]. split; [reflexivity|]. split.
  - intros i. destruct (live_sched_steps auth dbg n ws s0 R0 S0 B1 i) as ((_ & _ & _ & H) & _). exact H.
  - split.
    + intros i. destruct (live_sched_steps auth dbg n ws s0 R0 S0 B1 i) as (_ & _ & [(l & EL & _ & HW & HN)|(_ & HN & [(EL & HS)|(EL & HS & _)])]).
      * left. split; [|exact HN]. exists l. split; [exact EL|]. destruct l; try destruct HW; exact I.
      * right. split; [|exact HN]. cbn beta. rewrite HS. exact EL.
      * right. split; [|exact HN]. cbn beta. rewrite HS. exact EL.
    + intros m. destruct (live_sched_turn auth dbg n ws s0 R0 S0 B1 m) as (i & H & _). exists i. exact H.
Qed.

(** A client that sends PINGREQ for ever, one byte at a time, and is answered; now and then another comes. *)
Definition ex_world (m : nat) : act :=
  match m with
  | O => Own (LAccept ex_open (ex_socket []) 1%N)
  | 1 => Arrive 0 (ex_bytes [ex_client "p" None None]) [2%N; 1%N]
  | _ => match Nat.modulo m 3 with
         | 2 => Arrive 0 [Byte.xc0] []
         | 0 => Arrive 0 [Byte.x00] []
         | _ => Own (LAccept (ex_peer [ex_client (String.concat "c"%string (repeat "c"%string m)) None None] PeerOpen) (ex_socket []) (N.of_nat m))
         end
  end.

Example C112_case :
  let run i := fst (live_sched ex_deny true ex_world (sys_init 1) i) in
  let lab i := live_label ex_deny true ex_world (live_sched ex_deny true ex_world (sys_init 1) i) in
  let ack := ConnAck {| session_present := false; return_code := Accepted |} in
  live_fair_run ex_deny true 1 run lab
  /\ (forall i k c, nth_error (conns (run i)) k = Some c -> ~ blocks (c_wsock c))
  /\ (forall m, exists i, m <= snd (live_sched ex_deny true ex_world (sys_init 1) i))
  /\ handler_alive (hdl (run 100)) = true
  /\ map broker_sent (conns (run 100)) = [[ack; PingResp; PingResp; PingResp; PingResp; PingResp]; [ack]; [ack]; [ack]; [ack]].
Proof.
  intros run lab ack.
  assert (B : forall m, world_act (ex_world m)).
  { intros [|[|m]]; [intros H; exact H|exact I|]. unfold ex_world. destruct (Nat.modulo _ 3) as [|[|[|q]]]; cbn; auto. }
  assert (S0 : serving (sys_init 1)).
  { repeat split; try discriminate. intros [|k] c H; discriminate H. }
  assert (R0 : live_reachable ex_deny true 1 (sys_init 1)) by now exists [].
  split; [exact (live_sched_fair ex_deny true 1 ex_world (sys_init 1) R0 S0 B)|].
  split; [intros i; destruct (live_sched_steps ex_deny true 1 ex_world (sys_init 1) R0 S0 B i) as ((_ & _ & _ & H) & _); exact H|].
  split.
  { intros m. destruct (live_sched_turn ex_deny true 1 ex_world (sys_init 1) R0 S0 B m) as (i & H & _). exists i. lia. }
  split; vm_compute; reflexivity.
Qed.
