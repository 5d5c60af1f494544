(** Property C95: clients that keep coming hold nobody up. *)
From Verif Require Import Base Base_facts Packets HashMap Subscriptions Messaging Handler Decoder ReadStream ReadStream_facts
  Plain_facts Conn Conn_facts Encoder Encoder_facts WriteStream WriteStream_facts Spec_wire Spec_subs Spec_broker Spec_ref
  Subscriptions_facts Handler_facts System System_facts
  System_hist System_conn System_queue System_first System_progress System_exit System_rest
  Prop_subs Prop_stream Prop_broker Prop_system Prop_rest Prop_mqtt Prop_ref Prop_stop Prop_any Service_facts System_fair.
Open Scope nat_scope.

Section Served.
Context {auth : bytes -> bytes -> bool} {dbg : bool} {n : nat} {run : nat -> sys} {lab : nat -> option label}.
Hypothesis FR : fair_run auth dbg n run lab.

Lemma handled_grows i j : i <= j -> exists more, handled (run j) = handled (run i) ++ more.
Proof.
  induction 1 as [|j Hj (m & IH)]; [exists []; now rewrite app_nil_r|].
  assert (K : exists m', handled (run (Datatypes.S j)) = handled (run j) ++ m').
  { pose proof (fr_step _ _ _ _ _ FR j) as HS.
    assert (SAME : handled (run (Datatypes.S j)) = handled (run j) -> exists m', handled (run (Datatypes.S j)) = handled (run j) ++ m').
    { intros ->. exists []. now rewrite app_nil_r. }
    destruct (lab j) as [l|]; [|apply SAME; now rewrite HS].
    destruct l as [r w a|k u|k|now| | | | |]; try (apply SAME; now destruct (handler_frame _ _ _ _ _ HS I) as (_ & -> & _)).
    - unfold step, step_handler in HS. destruct (running (run j)); [|discriminate].
      destruct (hdl (run j)) as [|tx p| |]; try discriminate.
      + destruct (events (run j)); [discriminate|]. injection HS as HS. rewrite <- HS. cbn. eauto.
      + destruct p as [| |R op f|to e p].
        * injection HS as HS. apply SAME. now rewrite <- HS.
        * injection HS as HS. apply SAME. now rewrite <- HS.
        * destruct (serve _ op). injection HS as HS. apply SAME. now rewrite <- HS.
        * destruct (nth_error _ to) as [c|]; [|discriminate].
          destruct (c_writer c); try (destruct (_ <? _); [|discriminate]); injection HS as HS; apply SAME; now rewrite <- HS.
    - unfold step in HS. destruct (running (run j)); [|discriminate]. destruct (hdl (run j)); try discriminate.
      destruct (ctrl_c (run j)); [|discriminate]. injection HS as HS. apply SAME. now rewrite <- HS. }
  destruct K as (m' & K). exists (m ++ m'). now rewrite K, IH, app_assoc.
Qed.

Lemma conn_stays i j k c : i <= j -> nth_error (conns (run i)) k = Some c ->
  exists c', nth_error (conns (run j)) k = Some c' /\ c_rsock c' = c_rsock c /\ c_wsock c' = c_wsock c /\ c_addr c' = c_addr c.
Proof.
  intros Hj Hk. induction Hj as [|j Hj (c1 & H1 & H2 & H3 & H4)]; [exists c; auto|].
  pose proof (fr_step _ _ _ _ _ FR j) as HS. destruct (lab j) as [l|]; [|rewrite HS; exists c1; auto].
  destruct (conn_frame _ _ _ _ _ _ _ HS H1) as (c2 & K1 & K2 & K3 & K4 & _). exists c2. repeat split; congruence.
Qed.

Hypothesis NB : forall i k c, nth_error (conns (run i)) k = Some c -> ~ blocks (c_wsock c).

(** Everything the client sends comes to be handled, in order, and stays so. *)
Theorem C95_packets_handled i k c : nth_error (conns (run i)) k = Some c ->
  exists j, i <= j /\ (handler_alive (hdl (run j)) = false
    \/ exists cid, (forall p qs, client_sends dbg c = Connect p :: qs -> goes_by p cid)
       /\ forall j', j <= j' -> events_of k (map snd (handled (run j'))) = issued k (c_addr c) cid (client_sends dbg c)).
Proof.
  intros Hk. destruct (reader_comes FR NB k (Datatypes.S (reader_rank (c_reader c))) i c Hk) as (j1 & Hj1 & [K|(c1 & H1 & H2 & H3)]);
    [lia|exists j1; auto|].
  destruct (alive_or_dead (run := run) j1) as [HA|HA]; [|exists j1; auto]. unfold alive in HA.
  assert (SAME : c_rsock c1 = c_rsock c /\ c_addr c1 = c_addr c).
  { destruct (conn_stays i j1 k c Hj1 Hk) as (c' & E1 & E2 & _ & E3). rewrite H1 in E1. injection E1 as <-. auto. }
  destruct SAME as (S1 & S2).
  assert (ALL : exists cid, (forall p qs, client_sends dbg c = Connect p :: qs -> goes_by p cid)
     /\ events_of k (map snd (handled (run j1)) ++ events (run j1)) = issued k (c_addr c) cid (client_sends dbg c)).
  { pose proof (flow_invariant auth dbg n (run j1) (fr_reachable FR j1) k) as HF. unfold flow_ok in HF. rewrite H1, HA, H3, app_nil_r, S2 in HF.
    destruct HF as (cid & _ & Hi & HF). unfold read_out in H2. rewrite S1 in H2. fold (client_sends dbg c) in H2.
    destruct H2 as [Ho|(p & Ho & HN)].
    + exists cid. rewrite Ho. split; [exact Hi|exact HF].
    + exists cid. destruct (read_prefix auth dbg n (run j1) k c1 (fr_reachable FR j1) H1) as (rest & Hrest). rewrite S1, Ho in Hrest.
      fold (client_sends dbg c) in Hrest. cbn [app] in Hrest. rewrite Hrest. split.
      * intros p' qs [= -> _]. exfalso. now apply (HN p').
      * rewrite HF, Ho. destruct p; try reflexivity. exfalso. eapply HN. reflexivity. }
  destruct ALL as (cid & G & ALL).
  destruct (queued_handled FR NB (events (run j1)) j1) as (j2 & Hj2 & [K|(m & K)]).
  { exists []. now rewrite app_nil_r. }
  { exists j2. split; [lia|now left]. }
  exists j2. split; [lia|right]. exists cid. split; [exact G|]. intros j' Hj'.
  destruct (handled_grows j2 j' Hj') as (m' & E'). rewrite E', map_app, K.
  assert (E0 : events_of k (((map snd (handled (run j1)) ++ events (run j1) ++ m)) ++ map snd m')
    = issued k (c_addr c) cid (client_sends dbg c) ++ events_of k (m ++ map snd m')).
  { rewrite <- ALL, <- events_of_app. f_equal. now rewrite <- !app_assoc. }
  rewrite E0. destruct (conn_stays i j' k c ltac:(lia) Hk) as (c' & P1 & P2 & _ & P3).
  pose proof (flow_invariant auth dbg n (run j') (fr_reachable FR j') k) as HF. unfold flow_ok in HF. rewrite P1, P3 in HF.
  destruct HF as (cid' & _ & _ & HF).
  assert (L : length (events_of k (map snd (handled (run j')))) <= length (issued k (c_addr c) cid' (c_read c'))).
  { destruct (handler_alive (hdl (run j'))).
    - rewrite <- HF, events_of_app, !app_length. lia.
    - destruct HF as (rest & HF). rewrite <- HF, app_length. lia. }
  destruct (read_prefix auth dbg n (run j') k c' (fr_reachable FR j') P1) as (rest & Hrest). rewrite P2 in Hrest. fold (client_sends dbg c) in Hrest.
  pose proof (issued_prefix k (c_addr c) cid' cid (c_read c') rest) as L2. rewrite <- Hrest in L2.
  rewrite E', map_app, K, E0, app_length in L.
  destruct (events_of k (m ++ map snd m')); [apply app_nil_r|cbn in L; lia].
Qed.

(** Everything the reference broker sends because of the events handled by now is sent. *)
Theorem C95_answers_sent i k c : nth_error (conns (run i)) k = Some c ->
  exists j, i <= j /\ (handler_alive (hdl (run j)) = false
    \/ exists c', nth_error (conns (run j)) k = Some c' /\ (forall p ws, c_writer c' <> WBusy p ws)
       /\ exists rest, broker_sent c' = before_close (ref_sends auth ref_init (map snd (handled (run i))) k) ++ rest).
Proof.
  intros Hk.
  assert (K : exists j, i <= j /\ (handler_alive (hdl (run j)) = false \/ hdl (run j) = HIdle /\ handled (run j) = handled (run i))).
  { destruct (hdl (run i)) as [|tx p| |] eqn:EH.
    - exists i. auto.
    - destruct (idle_comes FR NB p tx i EH) as (j & Hj & [K|(K1 & K2 & _)]); exists j; auto.
    - exists i. rewrite EH. auto.
    - exists i. rewrite EH. auto. }
  destruct K as (j1 & Hj1 & [K|(K1 & K2)]); [exists j1; auto|].
  destruct (conn_stays i j1 k c Hj1 Hk) as (c1 & H1 & _).
  destruct (sent_comes FR NB k j1 (length (due (run := run) k j1)) j1 c1 (le_n _) H1) as (j & Hj & [K|(c' & P1 & P2 & rest & P3)]); [lia| |].
  - exists j. split; [lia|left]. destruct (handler_alive (hdl (run j))) eqn:HA; [|reflexivity].
    rewrite (alive_running auth dbg n (run j) (fr_reachable FR j) HA) in K. discriminate.
  - exists j. split; [lia|right]. exists c'. split; [exact P1|]. split; [exact P2|]. exists rest. unfold broker_sent. rewrite P3. f_equal.
    unfold due. f_equal. pose proof (hist_invariant auth dbg n (run j1) (fr_reachable FR j1)) as HH. unfold hist_inv in HH. rewrite K1 in HH.
    rewrite <- K2, <- (proj1 (C86_all_events auth (handled (run j1)) k)), HH. cbn [fst snd]. apply put_to_sent.
Qed.

(** Both together. *)
Theorem C95_served i k c : nth_error (conns (run i)) k = Some c ->
  exists j, i <= j /\ (handler_alive (hdl (run j)) = false
    \/ exists es cid c', (exists more, map snd (handled (run j)) = es ++ more)
       /\ (forall p qs, client_sends dbg c = Connect p :: qs -> goes_by p cid)
       /\ events_of k es = issued k (c_addr c) cid (client_sends dbg c)
       /\ nth_error (conns (run j)) k = Some c' /\ (forall p ws, c_writer c' <> WBusy p ws)
       /\ exists rest, broker_sent c' = before_close (ref_sends auth ref_init es k) ++ rest).
Proof.
  intros Hk. destruct (C95_packets_handled i k c Hk) as (j1 & Hj1 & [K|(cid & G & K)]); [exists j1; auto|].
  destruct (conn_stays i j1 k c Hj1 Hk) as (c1 & H1 & _).
  destruct (C95_answers_sent j1 k c1 H1) as (j & Hj & [K'|(c' & P1 & P2 & P3)]); [exists j; split; [lia|now left]|].
  exists j. split; [lia|right]. exists (map snd (handled (run j1))), cid, c'. split.
  { destruct (handled_grows j1 j Hj) as (m & ->). rewrite map_app. eauto. }
  split; [exact G|]. split; [now apply K|]. auto.
Qed.
End Served.

(** ** There are such runs *)

Definition try_labels (s : sys) : list label :=
  map (fun k => LReader k []) (seq 0 (length (conns s))) ++ map LWriter (seq 0 (length (conns s))) ++ [LHandler 0; LStopService].

Definition enabled auth dbg (s : sys) (l : label) : bool := match step auth dbg s l with Some _ => true | None => false end.

(** The first task that can go on goes on; when none can, the next peer comes. *)
Definition sched_label auth dbg (ps : nat -> peer) (x : sys * nat) : label :=
  match find (enabled auth dbg (fst x)) (try_labels (fst x)) with
  | Some l => l
  | None => let '(r, w, a) := ps (snd x) in LAccept r w a
  end.

Definition is_accept (l : label) : bool := match l with LAccept _ _ _ => true | _ => false end.

Definition sched_next auth dbg (ps : nat -> peer) (x : sys * nat) : sys * nat :=
  let l := sched_label auth dbg ps x in
  (match step auth dbg (fst x) l with Some s' => s' | None => fst x end,
   if is_accept l then Datatypes.S (snd x) else snd x).

Fixpoint sched auth dbg (ps : nat -> peer) (s0 : sys) (i : nat) : sys * nat :=
  match i with
  | O => (s0, 0)
  | Datatypes.S i => sched_next auth dbg ps (sched auth dbg ps s0 i)
  end.

Section Sched.
Context (auth : bytes -> bytes -> bool) (dbg : bool) (n : nat) (ps : nat -> peer) (s0 : sys).
Hypothesis R0 : reachable auth dbg n s0.
Hypothesis M0 : main s0 = MServing.
Hypothesis C0 : ctrl_c s0 = false.
Hypothesis L0 : listeners s0 <> 0.
Hypothesis B0 : forall k c, nth_error (conns s0) k = Some c -> ~ blocks (c_wsock c).
Hypothesis B1 : forall m, ~ blocks (snd (fst (ps m))).

Let run i := fst (sched auth dbg ps s0 i).
Let num i := snd (sched auth dbg ps s0 i).
Let lab i := sched_label auth dbg ps (sched auth dbg ps s0 i).

Definition serving (s : sys) : Prop :=
  main s = MServing /\ ctrl_c s = false /\ listeners s <> 0 /\ forall k c, nth_error (conns s) k = Some c -> ~ blocks (c_wsock c).

Definition worker (l : label) : Prop := match l with LReader _ _ | LWriter _ | LHandler _ | LStopService => True | _ => False end.

Lemma serving_worker s l s' : worker l -> step auth dbg s l = Some s' -> serving s -> serving s'.
Proof.
  intros HL HS (H1 & H2 & H3 & H4).
  assert (HI : internal l) by (destruct l; try destruct HL; exact I).
  assert (K : main s' = main s /\ ctrl_c s' = ctrl_c s /\ listeners s' = listeners s).
  { revert HS. unfold step. destruct (running s); [|discriminate]. destruct l as [r w a|k uuid|k|now| | | | |]; try destruct HL.
    - unfold step_reader.
      repeat match goal with |- context [match ?x with _ => _ end] => destruct x; try discriminate end; intros [= <-]; auto.
    - unfold step_writer.
      repeat match goal with |- context [match ?x with _ => _ end] => destruct x; try discriminate end; intros [= <-]; auto.
    - unfold step_handler. destruct (hdl s) as [|tx p| |]; try discriminate.
      + destruct (events s); [discriminate|]. intros [= <-]. auto.
      + destruct p as [| |R op f|to e p].
        * intros [= <-]. auto.
        * intros [= <-]. auto.
        * destruct (serve (svc s) op). intros [= <-]. auto.
        * destruct (nth_error (conns s) to) as [c|]; [|discriminate].
          destruct (c_writer c); try (destruct (_ <? _); [|discriminate]); intros [= <-]; auto.
    - destruct (_ && _); [|discriminate]. intros [= <-]. auto. }
  destruct K as (K1 & K2 & K3). unfold serving. rewrite K1, K2, K3. repeat split; auto.
  exact (unblocked_stays auth dbg s l s' HI HS H4).
Qed.

Lemma serving_accept s r w a : serving s -> ~ blocks w ->
  exists s', step auth dbg s (LAccept r w a) = Some s' /\ serving s' /\ length (conns s') = Datatypes.S (length (conns s)).
Proof.
  intros (H1 & H2 & H3 & H4) HB. unfold step, running. rewrite H1. destruct (listeners s) as [|m] eqn:EL; [congruence|].
  eexists. split; [reflexivity|]. split.
  - unfold serving. cbn [main ctrl_c listeners conns set_conns]. rewrite EL. repeat split; auto. intros k c. rewrite nth_error_snoc.
    destruct (Nat.eqb k _); [intros [= <-]; exact HB|apply H4].
  - cbn [conns set_conns]. rewrite app_length. cbn. lia.
Qed.

Lemma try_worker s l : In l (try_labels s) -> worker l.
Proof.
  unfold try_labels. intros H. apply in_app_or in H. destruct H as [H|H].
  - apply in_map_iff in H. destruct H as (k & <- & _). exact I.
  - apply in_app_or in H. destruct H as [H|H].
    + apply in_map_iff in H. destruct H as (k & <- & _). exact I.
    + destruct H as [<-|[<-|[]]]; exact I.
Qed.

Lemma try_rest s : serving s -> find (enabled auth dbg s) (try_labels s) = None -> at_rest auth dbg s.
Proof.
  intros (H1 & H2 & H3 & H4) HF.
  assert (N : forall l, In l (try_labels s) -> step auth dbg s l = None).
  { intros l Hl. pose proof (find_none _ _ HF l Hl) as K. unfold enabled in K. destruct (step auth dbg s l); [discriminate|reflexivity]. }
  assert (Hr : running s = true) by (unfold running; now rewrite H1).
  intros l Hl. destruct l as [r w a|k uuid|k|now| | | | |]; try contradiction.
  - destruct (Nat.lt_ge_cases k (length (conns s))) as [L|L].
    + assert (K : step auth dbg s (LReader k []) = None).
      { apply N. apply in_or_app. left. apply (in_map (fun k => LReader k [])). apply in_seq. lia. }
      unfold step in *. rewrite Hr in *. unfold step_reader in *.
      destruct (nth_error (conns s) k) as [c|]; [|reflexivity]. destruct (c_reader c) as [rs|e cid rs|cid rs|]; auto.
      destruct (stream_read_packet dbg rs) as [p rs'| | | | |]; auto. destruct p; discriminate.
    + apply nth_error_None in L. unfold step. rewrite Hr. unfold step_reader. now rewrite L.
  - destruct (Nat.lt_ge_cases k (length (conns s))) as [L|L].
    + apply N. apply in_or_app. right. apply in_or_app. left. apply in_map. apply in_seq. lia.
    + apply nth_error_None in L. unfold step. rewrite Hr. unfold step_writer. now rewrite L.
  - assert (K : step auth dbg s (LHandler 0) = None).
    { apply N. apply in_or_app. right. apply in_or_app. right. now left. }
    unfold step in *. rewrite Hr in *. unfold step_handler in *. destruct (hdl s) as [|tx p| |]; auto.
    destruct (events s); [reflexivity|discriminate].
  - unfold step. rewrite Hr, H2. now destruct (hdl s).
  - unfold step. rewrite Hr, H2. now destruct (listeners s).
  - apply N. apply in_or_app. right. apply in_or_app. right. right. now left.
  - unfold step. rewrite Hr. unfold step_main. now rewrite H1.
Qed.

(** Each step of the schedule is a step of the broker. *)
Lemma sched_steps i : serving (run i) /\ reachable auth dbg n (run i) /\ step auth dbg (run i) (lab i) = Some (run (Datatypes.S i))
  /\ (find (enabled auth dbg (run i)) (try_labels (run i)) = Some (lab i) /\ worker (lab i) /\ length (conns (run (Datatypes.S i))) = length (conns (run i))
      \/ at_rest auth dbg (run i) /\ length (conns (run (Datatypes.S i))) = Datatypes.S (length (conns (run i)))
         /\ num (Datatypes.S i) = Datatypes.S (num i)
         /\ exists r w a, ps (num i) = (r, w, a) /\ lab i = LAccept r w a).
Proof.
  assert (ONE : forall i, serving (run i) -> step auth dbg (run i) (lab i) = Some (run (Datatypes.S i)) /\ serving (run (Datatypes.S i))
    /\ (find (enabled auth dbg (run i)) (try_labels (run i)) = Some (lab i) /\ worker (lab i) /\ length (conns (run (Datatypes.S i))) = length (conns (run i))
      \/ at_rest auth dbg (run i) /\ length (conns (run (Datatypes.S i))) = Datatypes.S (length (conns (run i)))
         /\ num (Datatypes.S i) = Datatypes.S (num i)
         /\ exists r w a, ps (num i) = (r, w, a) /\ lab i = LAccept r w a)).
  { clear i. intros i HS. unfold run, num in *. cbn [sched]. unfold sched_next. fold (lab i). cbn [fst snd].
    set (x := sched auth dbg ps s0 i) in *.
    destruct (find (enabled auth dbg (fst x)) (try_labels (fst x))) as [l|] eqn:EF.
    - assert (EL : lab i = l) by (unfold lab, sched_label; fold x; now rewrite EF).
      rewrite EL. destruct (find_some _ _ EF) as (HIn & HE). unfold enabled in HE. pose proof (try_worker _ _ HIn) as HW.
      destruct (step auth dbg (fst x) l) as [s'|] eqn:ES; [|discriminate]. split; [reflexivity|].
      split; [exact (serving_worker (fst x) l s' HW ES HS)|]. left. split; [reflexivity|]. split; [exact HW|].
      apply (no_new_conns auth dbg (fst x) l s'); [destruct l; try destruct HW; exact I|exact ES].
    - pose proof (B1 (snd x)) as HB. destruct (ps (snd x)) as [[r w] a] eqn:EP. cbn [fst snd] in HB.
      assert (EL : lab i = LAccept r w a) by (unfold lab, sched_label; fold x; now rewrite EF, EP).
      rewrite EL. destruct (serving_accept (fst x) r w a HS HB) as (s' & ES & HS' & HL). rewrite ES. split; [reflexivity|].
      split; [exact HS'|]. right. split; [exact (try_rest (fst x) HS EF)|]. split; [exact HL|]. split; [reflexivity|]. exists r, w, a. auto. }
  assert (ALL : forall i, serving (run i) /\ reachable auth dbg n (run i)).
  { clear i. induction i as [|i (IH1 & IH2)]; [split; [repeat split; assumption|exact R0]|].
    destruct (ONE i IH1) as (H1 & H2 & _). split; [exact H2|]. eapply reachable_step; eauto. }
  destruct (ALL i) as (H1 & H2). destruct (ONE i H1) as (H3 & _ & H4). auto.
Qed.

(** The schedule comes to rest again and again. *)
Lemma sched_rests i : exists j, i <= j /\ at_rest auth dbg (run j) /\ length (conns (run j)) = length (conns (run i)).
Proof.
  assert (K : forall s, Acc (next_state auth dbg) s -> forall i, run i = s ->
    exists j, i <= j /\ at_rest auth dbg (run j) /\ length (conns (run j)) = length (conns (run i))).
  { induction 1 as [s _ IH]. intros i' E. destruct (sched_steps i') as (_ & _ & HS & [(_ & HW & HL)|(HR & _)]); [|exists i'; auto].
    destruct (IH (run (Datatypes.S i'))) with (i := Datatypes.S i') as (j & Hj & H1 & H2); [|reflexivity|].
    - exists (lab i'). rewrite <- E. split; [destruct (lab i'); try destruct HW; exact I|exact HS].
    - exists j. split; [lia|]. split; [exact H1|congruence]. }
  apply (K (run i)); [|reflexivity]. apply (dies_out auth dbg n). apply sched_steps.
Qed.

Lemma rest_accepts i : at_rest auth dbg (run i) -> length (conns (run (Datatypes.S i))) = Datatypes.S (length (conns (run i))).
Proof.
  intros HR. destruct (sched_steps i) as (_ & _ & HS & [(_ & HW & _)|(_ & H & _)]); [|exact H].
  rewrite HR in HS; [discriminate|]. destruct (lab i); try destruct HW; exact I.
Qed.

Lemma sched_many m : forall i, exists j, i <= j /\ at_rest auth dbg (run j) /\ m <= length (conns (run j)).
Proof.
  induction m as [|m IH]; intros i.
  - destruct (sched_rests i) as (j & Hj & H & _). exists j. repeat split; auto. lia.
  - destruct (IH i) as (j & Hj & H1 & H2). pose proof (rest_accepts j H1) as E.
    destruct (sched_rests (Datatypes.S j)) as (j' & Hj' & H3 & H4). exists j'. repeat split; auto; lia.
Qed.

Theorem sched_fair : fair_run auth dbg n run (fun i => Some (lab i)).
Proof.
  assert (ST : forall i, match Some (lab i) with Some l => step auth dbg (run i) l = Some (run (Datatypes.S i)) | None => run (Datatypes.S i) = run i end).
  { intros i. apply sched_steps. }
  constructor.
  - exact R0.
  - exact ST.
  - intros t i. destruct (sched_rests i) as (j & Hj & HR & _). exists j. split; [exact Hj|right]. intros (l & Hl & HN). apply HN. apply HR.
    destruct t, l; try discriminate Hl; exact I.
  - intros k i. destruct (sched_many (Datatypes.S k) i) as (j & Hj & HR & HL). exists j. split; [exact Hj|right].
    destruct (nth_error (conns (run j)) k) as [c|] eqn:Hk; [|apply nth_error_None in Hk; lia].
    destruct (sched_steps j) as ((S1 & S2 & S3 & S4) & HRj & _).
    assert (HD : match c_reader c with
       | RFirst rs | RLoop _ rs => stream_read_packet dbg rs = RWait \/ stream_read_packet dbg rs = RHung \/ stream_read_packet dbg rs = RNoFuel
       | RPush _ _ _ => False | RDone => True end).
    { pose proof (HR (LReader k []) I) as H. unfold step, step_reader, running in H. rewrite S1, Hk in H.
      destruct (c_reader c) as [rs|e cid rs|cid rs|] eqn:ER; [| | |exact I].
      - destruct (stream_read_packet dbg rs) as [p ?| | | | |]; auto; try discriminate. destruct p; discriminate.
      - destruct (handler_alive (hdl (run j))) eqn:EA; [|discriminate].
        destruct (rest_handler auth dbg n (run j) HRj HR S4 EA) as (_ & HE). rewrite HE in H. discriminate.
      - destruct (stream_read_packet dbg rs) as [p ?| | | | |]; auto; discriminate. }
    assert (HN : forall c', c_reader c' = c_reader c -> forall s u, nth_error (conns s) k = Some c' -> step auth dbg s (LReader k u) = None).
    { intros c' E s u Hc. unfold step, step_reader. destruct (running s); [|reflexivity]. rewrite Hc, E.
      destruct (c_reader c) as [rs|e cid rs|cid rs|]; [|destruct HD| |reflexivity]; destruct HD as [-> |[-> | ->]]; reflexivity. }
    assert (HF : forall j', j <= j' -> exists c', nth_error (conns (run j')) k = Some c' /\ c_reader c' = c_reader c).
    { intros j' Hj'. induction Hj' as [|j' Hj' (c1 & H1 & H2)]; [exists c; auto|].
      specialize (ST j'). cbn iota in ST.
      destruct (conn_frame _ _ _ _ _ _ _ ST H1) as (c2 & K1 & _ & _ & _ & K2 & _). exists c2. split; [exact K1|].
      destruct K2 as (K2 & _); [|congruence]. intros u EL. rewrite EL in ST. rewrite (HN c1 H2 _ u H1) in ST. discriminate. }
    intros j' Hj' (l & Hl & HX). destruct (reader_runs k l Hl) as (u & ->). destruct (HF j' Hj') as (c' & H1 & H2).
    apply HX. exact (HN c' H2 _ u H1).
Qed.

(** All the peers come. *)
Theorem sched_all m : exists i, length (conns s0) + m <= length (conns (run i))
  /\ forall k r w a, k < m -> ps k = (r, w, a) -> exists c, nth_error (conns (run i)) (length (conns s0) + k) = Some c /\ c_rsock c = r /\ c_wsock c = w /\ c_addr c = a.
Proof.
  assert (NUM : forall i, length (conns (run i)) = length (conns s0) + num i).
  { induction i as [|i IH]; [cbn; lia|]. destruct (sched_steps i) as (_ & _ & _ & [(EF & HW & HL)|(_ & HL & HN & _)]); [|lia].
    rewrite HL, IH. f_equal. unfold num. cbn [sched]. unfold sched_next. cbn [snd]. fold (lab i). destruct (lab i); try destruct HW; reflexivity. }
  assert (HERE : forall i k r w a, k < num i -> ps k = (r, w, a) ->
    exists c, nth_error (conns (run i)) (length (conns s0) + k) = Some c /\ c_rsock c = r /\ c_wsock c = w /\ c_addr c = a).
  { induction i as [|i IH]; intros k r w a Hk EP; [cbn in Hk; lia|].
    destruct (sched_steps i) as (_ & _ & HS & HC).
    destruct (Nat.lt_ge_cases k (num i)) as [L|L].
    - destruct (IH k r w a L EP) as (c & H1 & H2 & H3 & H4).
      destruct (conn_frame _ _ _ _ _ _ _ HS H1) as (c2 & K1 & K2 & K3 & K4 & _). exists c2. repeat split; congruence.
    - destruct HC as [(_ & _ & HL)|(_ & _ & HN & r' & w' & a' & EP' & EL)].
      + pose proof (NUM i). pose proof (NUM (Datatypes.S i)). lia.
      + assert (k = num i) as -> by lia. rewrite EP in EP'. injection EP' as <- <- <-.
        rewrite EL in HS. unfold step in HS. destruct (running (run i)); [|discriminate]. destruct (listeners (run i)); [discriminate|].
        injection HS as HS. rewrite <- HS. cbn [conns set_conns]. rewrite <- NUM.
        exists (new_conn r w a). split; [|auto]. rewrite nth_error_app2, Nat.sub_diag by lia. reflexivity. }
  destruct (sched_many (length (conns s0) + m) 0) as (j & _ & _ & H). exists j. split; [exact H|].
  intros k r w a Hk EP. apply HERE; [|exact EP]. rewrite NUM in H. lia.
Qed.
End Sched.

(** Whatever peers come and keep coming, there is such a run in which they all come. *)
Theorem C95_fair_runs auth dbg n s0 (ps : nat -> peer) : reachable auth dbg n s0 -> main s0 = MServing -> ctrl_c s0 = false ->
  listeners s0 <> 0 -> (forall k c, nth_error (conns s0) k = Some c -> ~ blocks (c_wsock c)) -> (forall m, ~ blocks (snd (fst (ps m)))) ->
  exists run lab, fair_run auth dbg n run lab /\ run 0 = s0
    /\ (forall i k c, nth_error (conns (run i)) k = Some c -> ~ blocks (c_wsock c))
    /\ forall m r w a, ps m = (r, w, a) ->
         exists i c, nth_error (conns (run i)) (length (conns s0) + m) = Some c /\ c_rsock c = r /\ c_wsock c = w /\ c_addr c = a.
Proof.
  intros R0 M0 C0 L0 B0 B1. exists (fun i => fst (sched auth dbg ps s0 i)), (fun i => Some (sched_label auth dbg ps (sched auth dbg ps s0 i))).
  split; [exact (sched_fair auth dbg n ps s0 R0 M0 C0 L0 B0 B1)|]. split; [reflexivity|]. split.
  - intros i. destruct (sched_steps auth dbg n ps s0 R0 M0 C0 L0 B0 B1 i) as ((_ & _ & _ & H) & _). exact H.
  - intros m r w a EP. destruct (sched_all auth dbg n ps s0 R0 M0 C0 L0 B0 B1 (Datatypes.S m)) as (i & _ & H). exists i. apply (H m r w a); [lia|exact EP].
Qed.

(** A subscriber, a publisher, and then clients without end. *)
Definition ex_crowd (m : nat) : peer :=
  match m with
  | O => (ex_peer [ex_client "s" None None; Subscribe 1 [{| sub_topic := str "a"; sub_qos := AtMostOnce |}]] PeerOpen, ex_socket [], 1%N)
  | 1 => (ex_peer [ex_client "p" None None; Publish (ex_message "a" "x")] PeerOpen, ex_socket [], 2%N)
  | _ => (ex_peer [ex_client (String.concat "c"%string (repeat "c"%string (m - 1))) None None; PingReq] PeerOpen, ex_socket [], N.of_nat (m + 1))
  end.

Example C95_case :
  let run i := fst (sched ex_deny true ex_crowd (sys_init 1) i) in
  let lab i := Some (sched_label ex_deny true ex_crowd (sched ex_deny true ex_crowd (sys_init 1) i)) in
  let ack := ConnAck {| session_present := false; return_code := Accepted |} in
  fair_run ex_deny true 1 run lab
  /\ (forall i k c, nth_error (conns (run i)) k = Some c -> ~ blocks (c_wsock c))
  /\ (forall m, exists i, m <= length (conns (run i)))
  /\ handler_alive (hdl (run 100)) = true
  /\ map broker_sent (firstn 3 (conns (run 100))) = [[ack; SubAck 1 [SuccessQoS0]; Publish (ex_message "a" "x")]; [ack]; [ack; PingResp]].
Proof.
  intros run lab ack.
  assert (B : forall m, ~ blocks (snd (fst (ex_crowd m)))) by (intros [|[|m]]; intros H; exact H).
  assert (B0 : forall k c, nth_error (conns (sys_init 1)) k = Some c -> ~ blocks (c_wsock c)) by (intros [|k] c H; discriminate H).
  assert (L0 : listeners (sys_init 1) <> 0) by discriminate.
  assert (R0 : reachable ex_deny true 1 (sys_init 1)) by apply reachable_init.
  split; [exact (sched_fair ex_deny true 1 ex_crowd (sys_init 1) R0 eq_refl eq_refl L0 B0 B)|].
  split; [intros i; destruct (sched_steps ex_deny true 1 ex_crowd (sys_init 1) R0 eq_refl eq_refl L0 B0 B i) as ((_ & _ & _ & H) & _); exact H|].
  split.
  { intros m. destruct (sched_all ex_deny true 1 ex_crowd (sys_init 1) R0 eq_refl eq_refl L0 B0 B m) as (i & H & _). exists i. exact H. }
  split; vm_compute; reflexivity.
Qed.
