(** C126: how often each of the lines is logged that do not come from the handler. And, for C115: what is shown in the log
    is printable, and numbers can be read back. *)
From Verif Require Import Base Base_facts Packets HashMap Messaging Handler Decoder ReadStream Encoder WriteStream
  System System_facts System_conn Logging Log_facts Prop_log.
Open Scope N_scope.

Definition entry_dec (x y : entry) : {x = y} + {x <> y}.
Proof. decide equality; [apply bytes_eq_dec|decide equality]. Defined.

(** How often a line is in a log. *)
Definition times (e : entry) (rs : list entry) : nat := count_occ entry_dec rs e.

Definition not_connect (c : cstate) : bool := match c_read c with [] | Connect _ :: _ => false | _ => true end.

(** The connection's first packet was not a CONNECT. *)
Definition strangers (s : sys) : nat := length (filter not_connect (conns s)).

Definition taken (s : sys) : nat := list_sum (map (fun c => length (c_sent c)) (conns s)).

Definition busy (c : cstate) : nat := match c_writer c with WBusy _ _ => 1%nat | _ => O end.

Definition others (l : label) : bool := negb (by_handler l).

(** Sums over the connections. *)
Lemma sum_update (g : cstate -> nat) l : forall k c c', nth_error l k = Some c ->
  (list_sum (map g (update k c' l)) + g c = list_sum (map g l) + g c')%nat.
Proof.
  induction l as [|x l IH]; intros [|k] c c' H; try discriminate; cbn [nth_error update map list_sum fold_right] in *;
    unfold list_sum in *; cbn [fold_right].
  - injection H as ->. lia.
  - specialize (IH k c c' H). lia.
Qed.

Lemma filter_sum (f : cstate -> bool) l : length (filter f l) = list_sum (map (fun c => if f c then 1%nat else O) l).
Proof. unfold list_sum. induction l as [|x l IH]; [reflexivity|]. cbn [filter map fold_right]. destruct (f x); cbn [length]; lia. Qed.

Lemma sum_snoc (g : cstate -> nat) l c : list_sum (map g (l ++ [c])) = (list_sum (map g l) + g c)%nat.
Proof. rewrite map_app, list_sum_app. cbn. lia. Qed.

Lemma times_app e a b : times e (a ++ b) = (times e a + times e b)%nat.
Proof. apply count_occ_app. Qed.

Lemma times_other e rs : Forall (fun r => lvl r <> lvl e \/ said r <> said e) rs -> times e rs = O.
Proof.
  intros H. apply count_occ_not_In. intros HI. rewrite Forall_forall in H. destruct (H e HI); congruence.
Qed.

Definition line (l : level) (t : bytes) : entry := {| lvl := l; said := t |}.

(** What a step of another task than the handler adds. *)
Definition adds (auth : bytes -> bytes -> bool) (dbg : bool) (L : library) (e : entry) (q : sys -> nat) : Prop :=
  forall n s l s', reachable auth dbg n s -> step auth dbg s l = Some s' ->
    (q s + times e (if others l then step_entries auth L dbg s l else []) = q s')%nat.

Lemma adds_run auth dbg L e q n ls : adds auth dbg L e q -> q (sys_init n) = O -> forall s, steps auth dbg (sys_init n) ls = Some s ->
  times e (run_entries others auth L dbg (sys_init n) ls) = q s.
Proof.
  intros HA H0. induction ls as [|l ls IH] using rev_ind; intros s H; [now injection H as <-|].
  rewrite steps_app in H. destruct (steps auth dbg (sys_init n) ls) as [s1|] eqn:E; [|discriminate].
  cbn [steps] in H. destruct (step auth dbg s1 l) as [s2|] eqn:E2; [|discriminate]. injection H as ->.
  rewrite (run_entries_snoc others auth L dbg ls l _ s1 s E E2), times_app, (IH s1 eq_refl).
  apply (HA n); [now exists ls|exact E2].
Qed.

Ltac no_entry := apply times_other; repeat (apply Forall_cons; [first [left; discriminate|right; discriminate]|]); apply Forall_nil.

(** Lines of readers and writers are neither of level debug nor of level info. *)
Lemma reader_levels L dbg s k : Forall (fun r => lvl r = Trace \/ lvl r = Error \/ lvl r = Warn) (reader_entries L dbg s k).
Proof.
  unfold reader_entries. destruct (nth_error (conns s) k) as [c|]; [|constructor].
  destruct (c_reader c) as [rs|e cid rs|cid rs|]; [| | |constructor].
  - destruct (stream_read_packet dbg rs) as [p rs'|e| | | |]; try constructor; [cbn; tauto|].
    destruct p as [cp| | | | | | | | | | | | |]; try (constructor; [cbn; tauto|constructor]).
    destruct (client_id cp); repeat constructor.
  - destruct (handler_alive (hdl s)); repeat constructor; cbn; tauto.
  - destruct (stream_read_packet dbg rs) as [p rs'|e| | | |]; repeat constructor; cbn; tauto.
Qed.

Lemma writer_levels L s k : Forall (fun r => lvl r = Trace \/ lvl r = Error) (writer_entries L s k).
Proof.
  unfold writer_entries. destruct (nth_error (conns s) k) as [c|]; [|constructor].
  destruct (c_writer c) as [ws|p ws|ws]; [| |constructor].
  - destruct (c_queue c) as [|[from [p|]] q]; repeat constructor; cbn; tauto.
  - destruct (write_packet p ws); repeat constructor; cbn; tauto.
Qed.

Lemma reader_no L dbg s k e : lvl e = Info \/ lvl e = Debug -> times e (reader_entries L dbg s k) = O.
Proof.
  intros H. apply times_other. eapply Forall_impl; [|apply (reader_levels L dbg s k)]. cbn. intros r K. left. intuition congruence.
Qed.

Lemma writer_no L s k e : lvl e <> Trace -> lvl e <> Error -> times e (writer_entries L s k) = O.
Proof.
  intros H H2. apply times_other. eapply Forall_impl; [|apply (writer_levels L s k)]. cbn. intros r K. left. intuition congruence.
Qed.

(** What readers, writers and the handler leave alone. *)
Lemma keeps auth dbg s l s' : step auth dbg s l = Some s' ->
  match l with LReader _ _ | LWriter _ | LHandler _ => True | _ => False end ->
  main s' = main s /\ service_running s' = service_running s /\ (hdl s' = HStopped <-> hdl s = HStopped).
Proof.
  unfold step. destruct (running s); [|discriminate]. intros H HL. destruct l as [r w a|k uuid|k|now| | | | |]; try contradiction.
  - unfold step_reader in H. destruct (nth_error (conns s) k) as [c|]; [|discriminate].
    destruct (c_reader c) as [rs|e cid rs|cid rs|]; [| | |discriminate].
    + destruct (stream_read_packet dbg rs) as [p rs'|e| | | |]; try discriminate; [destruct p| |]; injection H as <-; cbn; tauto.
    + destruct (handler_alive (hdl s)); [destruct (_ <? _)%nat; [|discriminate]|]; injection H as <-; cbn; tauto.
    + destruct (stream_read_packet dbg rs) as [p rs'|e| | | |]; try discriminate; injection H as <-; cbn; tauto.
  - unfold step_writer in H. destruct (nth_error (conns s) k) as [c|]; [|discriminate].
    destruct (c_writer c) as [ws|p ws|ws]; [| |discriminate].
    + destruct (c_queue c) as [|[from [p|]] q]; [destruct (has_sender s k c); [discriminate|]| |]; injection H as <-; cbn; tauto.
    + destruct (write_packet p ws); try discriminate; injection H as <-; cbn; tauto.
  - unfold step_handler in H. destruct (hdl s) as [|tx p| |] eqn:EH; try discriminate.
    + destruct (events s); [discriminate|]. injection H as <-. cbn. intuition discriminate.
    + destruct p as [| |R op f|to e p].
      * injection H as <-. cbn. intuition discriminate.
      * injection H as <-. cbn. intuition discriminate.
      * destruct (serve (svc s) op). injection H as <-. cbn. intuition discriminate.
      * destruct (nth_error (conns s) to) as [c|]; [|discriminate].
        destruct (c_writer c); [destruct (_ <? _)%nat; [|discriminate]..|]; injection H as <-; cbn; intuition discriminate.
Qed.

Lemma adds_ctrl_c auth dbg L : adds auth dbg L (line Info (str "Stopping RatelMQ..."))
  (fun s => match main s with MServing => O | _ => 1%nat end).
Proof.
  intros n s l s' _ HS. pose proof (keeps auth dbg s l s' HS) as K.
  destruct l as [r w a|k uuid|k|now| | | | |]; cbn [others by_handler negb step_entries].
  2:{ rewrite reader_no by (cbn; tauto). destruct (K I) as (-> & _). lia. }
  2:{ rewrite writer_no by discriminate. destruct (K I) as (-> & _). lia. }
  2:{ destruct (K I) as (-> & _). cbn [times count_occ]. lia. }
  all: clear K; unfold step in HS; destruct (running s); [|discriminate].
  - destruct (listeners s); [discriminate|]. injection HS as <-. cbn. lia.
  - destruct (hdl s); try discriminate. destruct (ctrl_c s); [|discriminate]. injection HS as <-.
    replace (times _ _) with O by (symmetry; no_entry). cbn. lia.
  - destruct (listeners s); [discriminate|]. destruct (ctrl_c s); [|discriminate]. injection HS as <-.
    replace (times _ _) with O by (symmetry; no_entry). cbn. lia.
  - destruct (service_running s && negb (handler_alive (hdl s))); [|discriminate]. injection HS as <-.
    replace (times _ _) with O by (symmetry; no_entry). cbn. lia.
  - destruct (main s); try discriminate. destruct (_ || _); injection HS as <-; reflexivity.
  - unfold step_main in HS. destruct (main s); try discriminate.
    + destruct (listeners s =? 0)%nat; [|discriminate]. injection HS as <-. reflexivity.
    + destruct (service_running s); [discriminate|]. injection HS as <-. reflexivity.
    + destruct (hdl s); try discriminate; injection HS as <-; [reflexivity|].
      replace (times _ _) with O by (symmetry; no_entry). reflexivity.
Qed.

Lemma adds_stopped auth dbg L : adds auth dbg L (line Info (str "RatelMQ stopped"))
  (fun s => match main s with MExited => 1%nat | _ => O end).
Proof.
  intros n s l s' _ HS. pose proof (keeps auth dbg s l s' HS) as K.
  destruct l as [r w a|k uuid|k|now| | | | |]; cbn [others by_handler negb step_entries].
  2:{ rewrite reader_no by (cbn; tauto). destruct (K I) as (-> & _). lia. }
  2:{ rewrite writer_no by discriminate. destruct (K I) as (-> & _). lia. }
  2:{ destruct (K I) as (-> & _). cbn [times count_occ]. lia. }
  all: clear K; unfold step in HS; destruct (running s); [|discriminate].
  - destruct (listeners s); [discriminate|]. injection HS as <-. cbn. lia.
  - destruct (hdl s); try discriminate. destruct (ctrl_c s); [|discriminate]. injection HS as <-.
    replace (times _ _) with O by (symmetry; no_entry). cbn. lia.
  - destruct (listeners s); [discriminate|]. destruct (ctrl_c s); [|discriminate]. injection HS as <-.
    replace (times _ _) with O by (symmetry; no_entry). cbn. lia.
  - destruct (service_running s && negb (handler_alive (hdl s))); [|discriminate]. injection HS as <-.
    replace (times _ _) with O by (symmetry; no_entry). cbn. lia.
  - replace (times _ _) with O by (symmetry; no_entry). destruct (main s); try discriminate. destruct (_ || _); injection HS as <-; reflexivity.
  - unfold step_main in HS. destruct (main s); try discriminate.
    + destruct (listeners s =? 0)%nat; [|discriminate]. injection HS as <-. reflexivity.
    + destruct (service_running s); [discriminate|]. injection HS as <-. reflexivity.
    + destruct (hdl s); try discriminate; injection HS as <-; reflexivity.
Qed.

Definition handler_left (s : sys) : nat := match hdl s with HStopped => 1%nat | _ => O end.

Lemma handler_left_same s s' : (hdl s' = HStopped <-> hdl s = HStopped) -> handler_left s' = handler_left s.
Proof. unfold handler_left. intros H. destruct (hdl s), (hdl s'); try reflexivity; exfalso; intuition discriminate. Qed.

Lemma adds_manager auth dbg L t : t = str "Stopping manager..." \/ t = str "Stopped Manager" ->
  adds auth dbg L (line Debug t) handler_left.
Proof.
  intros Ht n s l s' HR HS. pose proof (keeps auth dbg s l s' HS) as K.
  assert (N : forall r, lvl r <> Debug -> times (line Debug t) [r] = O) by (intros r Hr; apply times_other; constructor; [now left|constructor]).
  destruct l as [r w a|k uuid|k|now| | | | |]; cbn [others by_handler negb step_entries].
  2:{ rewrite reader_no by (cbn; tauto). destruct (K I) as (_ & _ & X). rewrite (handler_left_same _ _ X). lia. }
  2:{ rewrite writer_no by discriminate. destruct (K I) as (_ & _ & X). rewrite (handler_left_same _ _ X). lia. }
  2:{ destruct (K I) as (_ & _ & X). rewrite (handler_left_same _ _ X). cbn [times count_occ]. lia. }
  all: clear K; unfold step in HS; destruct (running s); [|discriminate].
  - destruct (listeners s); [discriminate|]. injection HS as <-. apply Nat.add_0_r.
  - unfold handler_left at 1. destruct (hdl s); try discriminate. destruct (ctrl_c s); [|discriminate]. injection HS as <-.
    destruct Ht as [-> | ->]; reflexivity.
  - rewrite N by discriminate. destruct (listeners s); [discriminate|]. destruct (ctrl_c s); [|discriminate]. injection HS as <-. apply Nat.add_0_r.
  - destruct (service_running s && negb (handler_alive (hdl s))); [|discriminate]. injection HS as <-.
    destruct Ht as [-> | ->]; (replace (times _ _) with O by (symmetry; no_entry)); apply Nat.add_0_r.
  - rewrite N by discriminate. destruct (main s); try discriminate. destruct (_ || _); injection HS as <-; apply Nat.add_0_r.
  - unfold step_main in HS. unfold handler_left at 1. destruct (main s); try discriminate.
    + destruct (listeners s =? 0)%nat; [|discriminate]. injection HS as <-. apply Nat.add_0_r.
    + destruct (service_running s); [discriminate|]. injection HS as <-. apply Nat.add_0_r.
    + destruct (hdl s) eqn:EH; try discriminate; injection HS as <-; rewrite ?N by discriminate; unfold handler_left; cbn [hdl set_main]; rewrite EH; reflexivity.
Qed.

Definition service_left (s : sys) : nat := if service_running s then O else 1%nat.

Lemma adds_service auth dbg L : adds auth dbg L (line Debug (str "Stopped Messaging Manager")) service_left.
Proof.
  intros n s l s' HR HS. pose proof (keeps auth dbg s l s' HS) as K. unfold service_left.
  destruct l as [r w a|k uuid|k|now| | | | |]; cbn [others by_handler negb step_entries].
  2:{ rewrite reader_no by (cbn; tauto). destruct (K I) as (_ & -> & _). lia. }
  2:{ rewrite writer_no by discriminate. destruct (K I) as (_ & -> & _). lia. }
  2:{ destruct (K I) as (_ & -> & _). cbn [times count_occ]. lia. }
  all: clear K; unfold step in HS; destruct (running s); [|discriminate].
  - destruct (listeners s); [discriminate|]. injection HS as <-. cbn. lia.
  - replace (times _ _) with O by (symmetry; no_entry). destruct (hdl s); try discriminate. destruct (ctrl_c s); [|discriminate]. injection HS as <-. cbn. lia.
  - replace (times _ _) with O by (symmetry; no_entry). destruct (listeners s); [discriminate|]. destruct (ctrl_c s); [|discriminate]. injection HS as <-. cbn. lia.
  - destruct (service_running s); [|discriminate]. destruct (negb (handler_alive (hdl s))); [|discriminate]. injection HS as <-. reflexivity.
  - replace (times _ _) with O by (symmetry; no_entry). destruct (main s); try discriminate. destruct (_ || _); injection HS as <-; cbn; lia.
  - unfold step_main in HS. destruct (main s); try discriminate.
    + destruct (listeners s =? 0)%nat; [|discriminate]. injection HS as <-. cbn. lia.
    + destruct (service_running s) eqn:ES; [discriminate|]. injection HS as <-. cbn. now rewrite ES.
    + destruct (hdl s); try discriminate; injection HS as <-; (replace (times _ _) with O by (symmetry; no_entry)); cbn; lia.
Qed.

Lemma strangers_update s k c c' : nth_error (conns s) k = Some c ->
  (strangers (set_conn k c' s) + (if not_connect c then 1 else 0) = strangers s + (if not_connect c' then 1 else 0))%nat.
Proof. intros H. unfold strangers. rewrite !filter_sum. cbn [conns set_conn set_conns]. now apply (sum_update (fun c => if not_connect c then 1%nat else O)). Qed.

Lemma strangers_same s k c c' : nth_error (conns s) k = Some c -> not_connect c' = not_connect c -> strangers (set_conn k c' s) = strangers s.
Proof. intros H E. pose proof (strangers_update s k c c' H). rewrite E in *. lia. Qed.

Lemma opened_first c cid p : opened c cid -> not_connect (set_read (c_read c ++ [p]) c) = not_connect c.
Proof. intros (q & qs & E & _). unfold not_connect. cbn [c_read set_read]. now rewrite E. Qed.

Lemma told_once x t : times (line Warn t) [entry_of Trace x; entry_of Warn t] = 1%nat.
Proof.
  unfold times. cbn [count_occ]. destruct (entry_dec (entry_of Trace x) (line Warn t)); [discriminate|].
  destruct (entry_dec (entry_of Warn t) (line Warn t)); [reflexivity|]. now exfalso.
Qed.

Lemma adds_stranger auth dbg L : adds auth dbg L (line Warn (str "The first received packet is not CONNECT")) strangers.
Proof.
  intros n s l s' HR HS. pose proof (reader_invariant auth dbg n s HR) as RI. unfold step in HS. destruct (running s); [|discriminate].
  destruct l as [r w a|k uuid|k|now| | | | |]; cbn [others by_handler negb step_entries].
  - destruct (listeners s); [discriminate|]. injection HS as <-. unfold strangers. rewrite !filter_sum. cbn [conns set_conns].
    rewrite sum_snoc. reflexivity.
  - unfold step_reader in HS. unfold reader_entries. destruct (nth_error (conns s) k) as [c|] eqn:Hk; [|discriminate].
    specialize (RI k c Hk). destruct RI as (rs0 & _ & RI).
    destruct (c_reader c) as [rs|e cid rs|cid rs|]; [| | |discriminate].
    + destruct RI as (_ & RE).
      assert (NC : not_connect c = false) by (unfold not_connect; now rewrite RE).
      destruct (stream_read_packet dbg rs) as [p rs'|e| | | |]; try discriminate.
      * destruct p as [cp| | | | | | | | | | | | |]; injection HS as <-;
          [rewrite (strangers_same s k c _ Hk)|match goal with |- (_ + _ = strangers (set_conn k ?c2 s))%nat => pose proof (strangers_update s k c c2 Hk) as U end..];
          try (unfold not_connect at 2 in U; cbn [c_read set_reader set_read] in U; rewrite RE, NC in U; rewrite RE; cbn [app] in U |- *;
               rewrite told_once; lia).
        -- destruct (client_id cp); (replace (times _ _) with O by (symmetry; no_entry)); lia.
        -- unfold not_connect at 1. cbn [c_read set_reader set_read]. rewrite RE. now rewrite NC.
      * injection HS as <-. rewrite (strangers_same s k c _ Hk) by reflexivity. cbn. lia.
      * injection HS as <-. rewrite (strangers_same s k c _ Hk) by reflexivity. cbn. lia.
    + destruct (handler_alive (hdl s)).
      * destruct (_ <? _)%nat; [|discriminate]. injection HS as <-.
        change (strangers (set_events ?e ?x)) with (strangers x). rewrite (strangers_same s k c _ Hk) by reflexivity. cbn. lia.
      * injection HS as <-. rewrite (strangers_same s k c _ Hk) by reflexivity. replace (times _ _) with O by (symmetry; no_entry). lia.
    + destruct (stream_read_packet dbg rs) as [p rs'|e| | | |]; try discriminate; injection HS as <-.
      * rewrite (strangers_same s k c _ Hk) by (apply (opened_first c cid p); apply RI).
        replace (times _ _) with O by (symmetry; no_entry). lia.
      * rewrite (strangers_same s k c _ Hk) by reflexivity. replace (times _ _) with O by (symmetry; no_entry). lia.
      * rewrite (strangers_same s k c _ Hk) by reflexivity. cbn. lia.
  - rewrite writer_no by discriminate. unfold step_writer in HS. destruct (nth_error (conns s) k) as [c|] eqn:Hk; [|discriminate].
    rewrite Nat.add_0_r. symmetry. destruct (c_writer c) as [ws|p ws|ws]; [| |discriminate].
    + destruct (c_queue c) as [|[from [p|]] q]; [destruct (has_sender s k c); [discriminate|]| |]; injection HS as <-; now apply (strangers_same s k c _ Hk).
    + destruct (write_packet p ws); try discriminate; injection HS as <-; now apply (strangers_same s k c _ Hk).
  - cbn [times count_occ]. rewrite Nat.add_0_r. symmetry. unfold step_handler in HS. destruct (hdl s) as [|tx p| |]; try discriminate.
    + destruct (events s); [discriminate|]. now injection HS as <-.
    + destruct p as [| |R op f|to e p]; try (now injection HS as <-).
      * destruct (serve (svc s) op). now injection HS as <-.
      * destruct (nth_error (conns s) to) as [c|] eqn:Hk; [|discriminate].
        destruct (c_writer c); [destruct (_ <? _)%nat; [|discriminate]..|]; injection HS as <-; try reflexivity;
          change (strangers (set_hdl ?h (set_log ?g ?x))) with (strangers x); now apply (strangers_same s to c _ Hk).
  - replace (times _ _) with O by (symmetry; no_entry). destruct (hdl s); try discriminate. destruct (ctrl_c s); [|discriminate]. injection HS as <-. apply Nat.add_0_r.
  - replace (times _ _) with O by (symmetry; no_entry). destruct (listeners s); [discriminate|]. destruct (ctrl_c s); [|discriminate]. injection HS as <-. apply Nat.add_0_r.
  - replace (times _ _) with O by (symmetry; no_entry). destruct (_ && _); [|discriminate]. injection HS as <-. apply Nat.add_0_r.
  - replace (times _ _) with O by (symmetry; no_entry). destruct (main s); try discriminate. destruct (_ || _); injection HS as <-; apply Nat.add_0_r.
  - unfold step_main in HS. destruct (main s); try discriminate.
    + destruct (listeners s =? 0)%nat; [|discriminate]. injection HS as <-. apply Nat.add_0_r.
    + destruct (service_running s); [discriminate|]. injection HS as <-. apply Nat.add_0_r.
    + destruct (hdl s); try discriminate; injection HS as <-; (replace (times _ _) with O by (symmetry; no_entry)); apply Nat.add_0_r.
Qed.

(** In every run the log has the following lines exactly as often as it says here, in terms of the state reached. *)
Theorem C126_how_often auth dbg n L ls s : steps auth dbg (sys_init n) ls = Some s ->
  let often l t := times (line l t) (run_entries others auth L dbg (sys_init n) ls) in
  often Info (str "Stopping RatelMQ...") = match main s with MServing => O | _ => 1%nat end
  /\ often Info (str "RatelMQ stopped") = match main s with MExited => 1%nat | _ => O end
  /\ often Debug (str "Stopping manager...") = match hdl s with HStopped => 1%nat | _ => O end
  /\ often Debug (str "Stopped Manager") = match hdl s with HStopped => 1%nat | _ => O end
  /\ often Debug (str "Stopped Messaging Manager") = (if service_running s then O else 1%nat)
  /\ often Warn (str "The first received packet is not CONNECT")
     = length (filter (fun c => match c_read c with [] | Connect _ :: _ => false | _ => true end) (conns s)).
Proof.
  intros H often. unfold often. repeat split.
  - exact (adds_run _ _ _ _ _ n ls (adds_ctrl_c auth dbg L) eq_refl s H).
  - exact (adds_run _ _ _ _ _ n ls (adds_stopped auth dbg L) eq_refl s H).
  - exact (adds_run _ _ _ _ _ n ls (adds_manager auth dbg L _ (or_introl eq_refl)) eq_refl s H).
  - exact (adds_run _ _ _ _ _ n ls (adds_manager auth dbg L _ (or_intror eq_refl)) eq_refl s H).
  - exact (adds_run _ _ _ _ _ n ls (adds_service auth dbg L) eq_refl s H).
  - exact (adds_run _ _ _ _ _ n ls (adds_stranger auth dbg L) eq_refl s H).
Qed.

(** Nobody is told that the handler's channel is closed while the handler lives, and a failure to write is logged at most
    once per packet a writer has taken and done with. *)
Lemma sums_update (g : cstate -> nat) s k c c' : nth_error (conns s) k = Some c ->
  (list_sum (map g (conns (set_conn k c' s))) + g c = list_sum (map g (conns s)) + g c')%nat.
Proof. intros H. cbn [conns set_conn set_conns]. now apply sum_update. Qed.

Definition at_work (s : sys) : nat := list_sum (map busy (conns s)).

Lemma write_step auth dbg L s l s' : step auth dbg s l = Some s' ->
  (at_work s' + times (line Error (str "Error while writing packet: " ++ of_error L)) (if others l then step_entries auth L dbg s l else []) + taken s
   <= taken s' + at_work s)%nat.
Proof.
  intros HS. unfold step in HS. destruct (running s); [|discriminate]. set (e := line Error _).
  assert (SAME : forall s2, conns s2 = conns s -> (at_work s2 + 0 + taken s <= taken s2 + at_work s)%nat).
  { intros s2 E. unfold at_work, taken. rewrite E. lia. }
  assert (ONE : forall k c c', nth_error (conns s) k = Some c -> busy c' = busy c -> c_sent c' = c_sent c ->
    (at_work (set_conn k c' s) + 0 + taken s <= taken (set_conn k c' s) + at_work s)%nat).
  { intros k c c' Hk E1 E2. pose proof (sums_update busy s k c c' Hk) as U1.
    pose proof (sums_update (fun c => length (c_sent c)) s k c c' Hk) as U2. cbn beta in U2. rewrite E2 in U2. unfold at_work, taken. lia. }
  destruct l as [r w a|k uuid|k|now| | | | |]; cbn [others by_handler negb step_entries].
  - destruct (listeners s); [discriminate|]. injection HS as <-. unfold at_work, taken. cbn [conns set_conns times count_occ].
    rewrite !sum_snoc. cbn. lia.
  - assert (Z : times e (reader_entries L dbg s k) = O).
    { unfold reader_entries. destruct (nth_error (conns s) k) as [c|]; [|reflexivity].
      destruct (c_reader c) as [rs|ev cid rs|cid rs|]; [| | |reflexivity].
      - destruct (stream_read_packet dbg rs) as [p rs'|x| | | |]; try reflexivity.
        destruct p as [cp| | | | | | | | | | | | |]; try (unfold e; no_entry). destruct (client_id cp); unfold e; no_entry.
      - destruct (handler_alive (hdl s)); [reflexivity|unfold e; no_entry].
      - destruct (stream_read_packet dbg rs) as [p rs'|x| | | |]; try reflexivity; unfold e; no_entry. }
    rewrite Z. unfold step_reader in HS. destruct (nth_error (conns s) k) as [c|] eqn:Hk; [|discriminate].
    destruct (c_reader c) as [rs|ev cid rs|cid rs|]; [| | |discriminate].
    + destruct (stream_read_packet dbg rs) as [p rs'|x| | | |]; try discriminate; [destruct p| |]; injection HS as <-; now apply (ONE k c).
    + destruct (handler_alive (hdl s)); [destruct (_ <? _)%nat; [|discriminate]|]; injection HS as <-; now apply (ONE k c).
    + destruct (stream_read_packet dbg rs) as [p rs'|x| | | |]; try discriminate; injection HS as <-; now apply (ONE k c).
  - unfold writer_entries. unfold step_writer in HS. destruct (nth_error (conns s) k) as [c|] eqn:Hk; [|discriminate].
    destruct (c_writer c) as [ws|p ws|ws] eqn:EW; [| |discriminate].
    + assert (B : busy c = O) by (unfold busy; now rewrite EW).
      destruct (c_queue c) as [|[from [p|]] q]; [destruct (has_sender s k c); [discriminate|]| |]; injection HS as <-;
        (replace (times _ _) with O by (symmetry; unfold e; no_entry)).
      * now apply (ONE k c).
      * match goal with |- (at_work (set_conn k ?c2 s) + _ + _ <= _)%nat =>
          pose proof (sums_update busy s k c c2 Hk) as U1; pose proof (sums_update (fun c => length (c_sent c)) s k c c2 Hk) as U2 end.
        cbn in U1, U2. rewrite app_length in U2. cbn in U2. unfold at_work, taken. cbn. lia.
      * now apply (ONE k c).
    + assert (B : busy c = 1%nat) by (unfold busy; now rewrite EW).
      assert (T : forall rs, (times e (match write_packet p ws with WErr _ => [entry_of Error (str "Error while writing packet: " ++ of_error L)] | _ => rs end)
                    <= times e rs + 1)%nat).
      { intros rs. destruct (write_packet p ws); try lia. unfold times. cbn [count_occ]. destruct (entry_dec _ _); lia. }
      specialize (T []). cbn [times count_occ] in T.
      assert (K : exists c2, s' = set_conn k c2 s /\ busy c2 = O /\ c_sent c2 = c_sent c).
      { destruct (write_packet p ws); try discriminate; injection HS as <-; eexists; split; try reflexivity; split; reflexivity. }
      destruct K as (c2 & -> & B2 & E2). pose proof (sums_update busy s k c c2 Hk) as U1.
      pose proof (sums_update (fun c => length (c_sent c)) s k c c2 Hk) as U2. cbn beta in U2. rewrite E2 in U2. unfold at_work, taken.
      destruct (write_packet p ws); lia.
  - cbn [times count_occ]. unfold step_handler in HS. destruct (hdl s) as [|tx p| |]; try discriminate.
    + destruct (events s); [discriminate|]. injection HS as <-. now apply SAME.
    + destruct p as [| |R op f|to ev p]; try (injection HS as <-; now apply SAME).
      * destruct (serve (svc s) op). injection HS as <-. now apply SAME.
      * destruct (nth_error (conns s) to) as [c|] eqn:Hk; [|discriminate].
        destruct (c_writer c) eqn:EW; [destruct (_ <? _)%nat; [|discriminate]..|]; injection HS as <-; try (now apply SAME);
          now apply (ONE to c).
  - replace (times _ _) with O by (symmetry; unfold e; no_entry). destruct (hdl s); try discriminate. destruct (ctrl_c s); [|discriminate]. injection HS as <-. now apply SAME.
  - replace (times _ _) with O by (symmetry; unfold e; no_entry). destruct (listeners s); [discriminate|]. destruct (ctrl_c s); [|discriminate]. injection HS as <-. now apply SAME.
  - replace (times _ _) with O by (symmetry; unfold e; no_entry). destruct (_ && _); [|discriminate]. injection HS as <-. now apply SAME.
  - replace (times _ _) with O by (symmetry; unfold e; no_entry). destruct (main s); try discriminate. destruct (_ || _); injection HS as <-; now apply SAME.
  - replace (times _ _) with O by (symmetry; unfold e; destruct (main s), (hdl s); try reflexivity; no_entry).
    unfold step_main in HS. destruct (main s); try discriminate.
    + destruct (listeners s =? 0)%nat; [|discriminate]. injection HS as <-. now apply SAME.
    + destruct (service_running s); [discriminate|]. injection HS as <-. now apply SAME.
    + destruct (hdl s); try discriminate; injection HS as <-; now apply SAME.
Qed.

Theorem C126_failed_writes auth dbg n L ls s : steps auth dbg (sys_init n) ls = Some s ->
  (times (line Error (str "Error while writing packet: " ++ of_error L)) (run_entries others auth L dbg (sys_init n) ls)
   + list_sum (map (fun c => match c_writer c with WBusy _ _ => 1%nat | _ => O end) (conns s))
   <= list_sum (map (fun c => length (c_sent c)) (conns s)))%nat.
Proof.
  revert s. induction ls as [|l ls IH] using rev_ind; intros s H; [injection H as <-; cbn; lia|].
  rewrite steps_app in H. destruct (steps auth dbg (sys_init n) ls) as [s1|] eqn:E; [|discriminate].
  cbn [steps] in H. destruct (step auth dbg s1 l) as [s2|] eqn:E2; [|discriminate]. injection H as ->.
  rewrite (run_entries_snoc others auth L dbg ls l _ s1 s E E2), times_app. specialize (IH s1 eq_refl).
  pose proof (write_step auth dbg L s1 l s E2) as W. unfold at_work, taken, busy in W. lia.
Qed.

Lemma closed_step auth dbg L s l s' : step auth dbg s l = Some s' -> handler_alive (hdl s') = true ->
  handler_alive (hdl s) = true
  /\ times (line Error (str "Error while sending client event to be processed: channel closed"))
       (if others l then step_entries auth L dbg s l else []) = O.
Proof.
  intros HS HA. unfold step in HS. destruct (running s); [|discriminate].
  destruct l as [r w a|k uuid|k|now| | | | |]; cbn [others by_handler negb step_entries].
  - destruct (listeners s); [discriminate|]. injection HS as <-. now split.
  - unfold step_reader in HS. unfold reader_entries. destruct (nth_error (conns s) k) as [c|]; [|discriminate].
    destruct (c_reader c) as [rs|e cid rs|cid rs|]; [| | |discriminate].
    + destruct (stream_read_packet dbg rs) as [p rs'|e| | | |]; try discriminate; [|injection HS as <-; now split..].
      split; [destruct p; injection HS as <-; exact HA|].
      destruct p as [cp| | | | | | | | | | | | |]; try no_entry. destruct (client_id cp); no_entry.
    + destruct (handler_alive (hdl s)) eqn:EA; [now split|]. injection HS as <-. cbn in HA. congruence.
    + destruct (stream_read_packet dbg rs) as [p rs'|e| | | |]; try discriminate; injection HS as <-; split; try exact HA; try reflexivity; no_entry.
  - unfold step_writer in HS. unfold writer_entries. destruct (nth_error (conns s) k) as [c|]; [|discriminate].
    destruct (c_writer c) as [ws|p ws|ws]; [| |discriminate].
    + destruct (c_queue c) as [|[from [p|]] q]; [destruct (has_sender s k c); [discriminate|]| |]; injection HS as <-; (split; [exact HA|no_entry]).
    + destruct (write_packet p ws); try discriminate; injection HS as <-; (split; [exact HA|]); try reflexivity; no_entry.
  - split; [|reflexivity]. unfold step_handler in HS. now destruct (hdl s).
  - split; [|no_entry]. destruct (hdl s); try discriminate; reflexivity.
  - split; [|no_entry]. destruct (listeners s); [discriminate|]. destruct (ctrl_c s); [|discriminate]. injection HS as <-. exact HA.
  - split; [|no_entry]. destruct (_ && _); [|discriminate]. injection HS as <-. exact HA.
  - split; [|no_entry]. destruct (main s); try discriminate. destruct (_ || _); injection HS as <-; exact HA.
  - split; [|destruct (main s), (hdl s); try reflexivity; no_entry]. unfold step_main in HS. destruct (main s); try discriminate.
    + destruct (listeners s =? 0)%nat; [|discriminate]. injection HS as <-. exact HA.
    + destruct (service_running s); [discriminate|]. injection HS as <-. exact HA.
    + destruct (hdl s) eqn:EH; try discriminate; injection HS as <-; cbn in HA; rewrite EH in HA; exact HA.
Qed.

Theorem C126_channel_closed auth dbg n L ls s : steps auth dbg (sys_init n) ls = Some s -> handler_alive (hdl s) = true ->
  times (line Error (str "Error while sending client event to be processed: channel closed"))
    (run_entries others auth L dbg (sys_init n) ls) = O.
Proof.
  revert s. induction ls as [|l ls IH] using rev_ind; intros s H HA; [reflexivity|].
  rewrite steps_app in H. destruct (steps auth dbg (sys_init n) ls) as [s1|] eqn:E; [|discriminate].
  cbn [steps] in H. destruct (step auth dbg s1 l) as [s2|] eqn:E2; [|discriminate]. injection H as ->.
  rewrite (run_entries_snoc others auth L dbg ls l _ s1 s E E2), times_app.
  destruct (closed_step auth dbg L s1 l s E2 HA) as (HA1 & ->). now rewrite (IH s1 eq_refl HA1).
Qed.

(** ** C115: what is shown is printable *)

Definition printable (b : byte) : Prop := 32 <= b2n b <= 126.

Theorem C115_printable L s : Forall printable (show_bytes s) /\ (Forall (fun b => b2n b < 128) s -> Forall printable (show_string L s)).
Proof.
  assert (Q : printable x22) by (unfold printable; vm_compute; split; discriminate).
  assert (E1 : forall b, Forall printable (escape_byte b)).
  { intros b. apply Forall_forall. intros x Hx. unfold printable.
    assert (K : forallb (fun b => forallb (fun x => (32 <=? b2n x) && (b2n x <=? 126)) (escape_byte b)) (map n2b (map N.of_nat (seq 0 256))) = true) by (vm_compute; reflexivity).
    rewrite forallb_forall in K. specialize (K b). rewrite forallb_forall in K.
    assert (HI : In b (map n2b (map N.of_nat (seq 0 256)))).
    { apply in_map_iff. exists (b2n b). split; [apply n2b_b2n|]. apply in_map_iff. exists (N.to_nat (b2n b)). split; [lia|].
      apply in_seq. pose proof (b2n_lt b). lia. }
    specialize (K HI x Hx). lia. }
  assert (E2 : forall b, b2n b < 128 -> Forall printable (escape_char b)).
  { intros b Hb. apply Forall_forall. intros x Hx. unfold printable.
    assert (K : forallb (fun b => forallb (fun x => (32 <=? b2n x) && (b2n x <=? 126)) (escape_char b)) (map n2b (map N.of_nat (seq 0 128))) = true) by (vm_compute; reflexivity).
    rewrite forallb_forall in K. specialize (K b). rewrite forallb_forall in K.
    assert (HI : In b (map n2b (map N.of_nat (seq 0 128)))).
    { apply in_map_iff. exists (b2n b). split; [apply n2b_b2n|]. apply in_map_iff. exists (N.to_nat (b2n b)). split; [lia|].
      apply in_seq. lia. }
    specialize (K HI x Hx). lia. }
  split.
  - unfold show_bytes. apply Forall_app. split; [repeat constructor; vm_compute; discriminate|]. apply Forall_app. split; [now constructor|].
    apply Forall_app. split; [|now constructor]. apply Forall_flat_map. apply Forall_forall. intros b _. apply E1.
  - intros HA. unfold show_string.
    assert (A : forallb ascii s = true).
    { apply forallb_forall. intros b Hb. rewrite Forall_forall in HA. specialize (HA b Hb). unfold ascii. lia. }
    rewrite A. apply Forall_app. split; [now constructor|]. apply Forall_app. split; [|now constructor].
    apply Forall_flat_map. eapply Forall_impl; [|exact HA]. exact E2.
Qed.

(** Character by character, by the table of rust's escapes. *)
Definition named : list (byte * bytes) :=
  [(x00, str "\0"); (x09, str "\t"); (x0a, str "\n"); (x0d, str "\r"); (x22, [x5c; x22]); (x5c, [x5c; x5c])].
Definition digits : bytes := str "0123456789abcdef".

Inductive escaped (coded : byte -> byte -> bytes) : byte -> bytes -> Prop :=
| as_it_is b : printable b -> ~ In b (map fst named) -> escaped coded b [b]
| by_name b l : In (b, l) named -> escaped coded b l
| by_number b h l : ~ printable b -> ~ In b (map fst named) ->
    nth_error digits (N.to_nat (b2n b / 16)) = Some h -> nth_error digits (N.to_nat (b2n b mod 16)) = Some l ->
    escaped coded b (coded h l).

Theorem C115_escapes L s :
  (exists cells, Forall2 (escaped (fun h l => str "\x" ++ [h; l])) s cells /\ show_bytes s = str "b""" ++ concat cells ++ str """")
  /\ (Forall (fun b => b2n b < 128) s ->
      exists cells, Forall2 (escaped (fun h l => str "\u{" ++ (if byte_eqb h x30 then [l] else [h; l]) ++ str "}")) s cells
      /\ show_string L s = str """" ++ concat cells ++ str """").
Proof.
  assert (D : forall coded esc, (forall b, escaped coded b (esc b)) -> forall s, Forall2 (escaped coded) s (map esc s)).
  { intros coded esc H. induction s0; cbn; constructor; auto. }
  assert (NP : forall b, (32 <=? b2n b) && (b2n b <=? 126) = false -> ~ printable b) by (unfold printable; intros; lia).
  assert (YP : forall b, (32 <=? b2n b) && (b2n b <=? 126) = true -> printable b) by (unfold printable; intros; lia).
  assert (NN : forall b, existsb (fun x => byte_eqb b x) (map fst named) = false -> ~ In b (map fst named)).
  { intros b E H. enough (existsb (fun x => byte_eqb b x) (map fst named) = true) by congruence. apply existsb_exists. exists b.
    split; [exact H|]. now destruct (byte_eqb_spec b b). }
  split.
  - exists (map escape_byte s). split; [|unfold show_bytes; rewrite flat_map_concat_map; reflexivity].
    apply D. intros b.
    destruct b; first [apply by_name; vm_compute; tauto | apply as_it_is; [apply YP; reflexivity|apply NN; reflexivity]
                      | match goal with |- escaped _ ?b _ =>
                          let h := eval vm_compute in (nth (N.to_nat (b2n b / 16)) digits x00) in
                          let l := eval vm_compute in (nth (N.to_nat (b2n b mod 16)) digits x00) in
                          exact (by_number _ b h l (NP b eq_refl) (NN b eq_refl) eq_refl eq_refl) end].
  - intros HA. exists (map escape_char s). split.
    + clear D. induction s as [|b s IH]; [constructor|]. inversion HA; subst. cbn [map]. constructor; [|now apply IH].
      clear IH HA. destruct b; first [apply by_name; vm_compute; tauto | apply as_it_is; [apply YP; reflexivity|apply NN; reflexivity]
                      | match goal with |- escaped _ ?b _ =>
                          let h := eval vm_compute in (nth (N.to_nat (b2n b / 16)) digits x00) in
                          let l := eval vm_compute in (nth (N.to_nat (b2n b mod 16)) digits x00) in
                          exact (by_number _ b h l (NP b eq_refl) (NN b eq_refl) eq_refl eq_refl) end
                      | exfalso; match goal with H : b2n _ < 128 |- _ => vm_compute in H; discriminate H end].
    + unfold show_string. assert (A : forallb ascii s = true).
      { apply forallb_forall. intros b Hb. rewrite Forall_forall in HA. specialize (HA b Hb). unfold ascii. lia. }
      rewrite A, flat_map_concat_map. reflexivity.
Qed.

(** A number is shown by its decimal digits, without leading zeros. *)
Definition value_of (ds : bytes) : N := fold_left (fun a d => 10 * a + (b2n d - 48)) ds 0.

Lemma decimal_value f : forall n, n < 10 ^ N.of_nat f -> (f > 0)%nat ->
  value_of (decimal f n) = n /\ Forall (fun d => 48 <= b2n d <= 57) (decimal f n) /\ (n <> 0 -> hd x30 (decimal f n) <> x30) /\ (n = 0 -> decimal f n = [x30]).
Proof.
  induction f as [|f IH]; intros n Hn Hf; [lia|]. cbn [decimal].
  assert (D : b2n (n2b (48 + n mod 10)) = 48 + n mod 10) by (apply b2n_n2b; pose proof (N.mod_lt n 10); lia).
  pose proof (N.mod_lt n 10 ltac:(discriminate)) as M. pose proof (N.div_mod n 10 ltac:(discriminate)) as DM.
  destruct (N.ltb_spec n 10) as [L|L].
  - cbn [app]. unfold value_of. cbn [fold_left hd]. rewrite D. rewrite N.mod_small in * by exact L. repeat split.
    + lia.
    + constructor; [|constructor]. rewrite D. lia.
    + intros N0 E. apply (f_equal b2n) in E. rewrite D in E. change (b2n x30) with 48 in E. lia.
    + intros ->. reflexivity.
  - assert (Hf' : (f > 0)%nat).
    { destruct f; [|lia]. cbn in Hn. lia. }
    assert (Hn' : n / 10 < 10 ^ N.of_nat f).
    { apply N.div_lt_upper_bound; [discriminate|]. rewrite Nat2N.inj_succ, N.pow_succ_r' in Hn. exact Hn. }
    destruct (IH (n / 10) Hn' Hf') as (V & A & H0 & _).
    assert (P : n / 10 <> 0) by lia.
    repeat split.
    + unfold value_of in *. rewrite fold_left_app. cbn [fold_left]. rewrite V, D. lia.
    + apply Forall_app. split; [exact A|]. constructor; [|constructor]. rewrite D. lia.
    + intros _. specialize (H0 P). destruct (decimal f (n / 10)) as [|d ds]; [now destruct H0|exact H0].
    + intros ->. lia.
Qed.

Theorem C115_numbers n : n < 65536 ->
  value_of (show_u16 n) = n /\ Forall (fun d => 48 <= b2n d <= 57) (show_u16 n) /\ (n <> 0 -> hd x30 (show_u16 n) <> x30) /\ show_u16 0 = [x30].
Proof.
  intros Hn. destruct (decimal_value 5 n) as (A & B & C & _); [cbn; lia|lia|]. repeat split; auto.
Qed.

From Verif Require Import Prop_system.

(** A stranger is turned away and the broker is stopped. *)
Example C126_case :
  let ls := [LAccept (ex_peer [PingReq] PeerOpen) (ex_socket []) 1; LReader 0%nat [];
             LCtrlC; LStopHandler; LStopService; LStopListener; LMain; LMain; LMain] in
  exists s, steps ex_deny true (sys_init 1) ls = Some s
  /\ map said (upto Debug (run_entries others ex_deny ex_library true (sys_init 1) ls))
     = [str "The first received packet is not CONNECT"; str "Stopping RatelMQ..."; str "Stopping manager..."; str "Stopped Manager";
        str "Stopped Messaging Manager"; str "RatelMQ stopped"].
Proof. eexists. split; vm_compute; reflexivity. Qed.
