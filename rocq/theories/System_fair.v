(** Infinite runs with new connections all the time: every task that keeps being able to go on does go on. *)
From Verif Require Import Base Base_facts Packets HashMap Messaging Handler Decoder ReadStream ReadStream_facts
  Plain_facts Conn Conn_facts Encoder Encoder_facts WriteStream WriteStream_facts System System_facts System_hist
  System_conn System_queue System_first System_progress System_exit System_rest Service_facts.
Open Scope nat_scope.

Lemma nth_set_conn k c c' s : nth_error (conns s) k = Some c -> nth_error (conns (set_conn k c' s)) k = Some c'.
Proof. intros H. cbn [conns set_conn set_conns]. now rewrite nth_update, Nat.eqb_refl, H. Qed.

(** ** What a step leaves alone *)

Lemma conn_frame auth dbg s l s' k c : step auth dbg s l = Some s' -> nth_error (conns s) k = Some c ->
  exists c', nth_error (conns s') k = Some c'
    /\ c_rsock c' = c_rsock c /\ c_wsock c' = c_wsock c /\ c_addr c' = c_addr c
    /\ ((forall u, l <> LReader k u) -> c_reader c' = c_reader c /\ c_read c' = c_read c)
    /\ (l <> LWriter k -> c_writer c' = c_writer c /\ c_sent c' = c_sent c
        /\ exists more, c_queue c' = c_queue c ++ more /\ ((forall now, l <> LHandler now) -> more = [])).
Proof.
  intros HS Hk.
  assert (SAME : conns s' = conns s -> exists c', nth_error (conns s') k = Some c'
    /\ c_rsock c' = c_rsock c /\ c_wsock c' = c_wsock c /\ c_addr c' = c_addr c
    /\ ((forall u, l <> LReader k u) -> c_reader c' = c_reader c /\ c_read c' = c_read c)
    /\ (l <> LWriter k -> c_writer c' = c_writer c /\ c_sent c' = c_sent c
        /\ exists more, c_queue c' = c_queue c ++ more /\ ((forall now, l <> LHandler now) -> more = []))).
  { intros ->. exists c. split; [exact Hk|]. repeat split. exists []. now rewrite app_nil_r. }
  assert (UPD : forall k0 c0 c1, nth_error (conns s) k0 = Some c0 -> conns s' = update k0 c1 (conns s) ->
    c_rsock c1 = c_rsock c0 -> c_wsock c1 = c_wsock c0 -> c_addr c1 = c_addr c0 ->
    (k0 = k -> (forall u, l <> LReader k u) -> c_reader c1 = c_reader c0 /\ c_read c1 = c_read c0) ->
    (k0 = k -> l <> LWriter k -> c_writer c1 = c_writer c0 /\ c_sent c1 = c_sent c0
        /\ exists more, c_queue c1 = c_queue c0 ++ more /\ ((forall now, l <> LHandler now) -> more = [])) ->
    exists c', nth_error (conns s') k = Some c'
    /\ c_rsock c' = c_rsock c /\ c_wsock c' = c_wsock c /\ c_addr c' = c_addr c
    /\ ((forall u, l <> LReader k u) -> c_reader c' = c_reader c /\ c_read c' = c_read c)
    /\ (l <> LWriter k -> c_writer c' = c_writer c /\ c_sent c' = c_sent c
        /\ exists more, c_queue c' = c_queue c ++ more /\ ((forall now, l <> LHandler now) -> more = []))).
  { intros k0 c0 c1 Hk0 E H1 H2 H3 H4 H5. rewrite E, nth_update. destruct (Nat.eqb_spec k k0) as [->|Hn].
    - rewrite Hk0. exists c1. rewrite Hk in Hk0. injection Hk0 as ->. auto 10.
    - exists c. split; [exact Hk|]. repeat split. exists []. now rewrite app_nil_r. }
  assert (Q0 : forall c1 c0 : cstate, c_writer c1 = c_writer c0 -> c_sent c1 = c_sent c0 -> c_queue c1 = c_queue c0 ->
     c_writer c1 = c_writer c0 /\ c_sent c1 = c_sent c0
        /\ exists more, c_queue c1 = c_queue c0 ++ more /\ ((forall now, l <> LHandler now) -> more = [])).
  { intros c1 c0 -> -> ->. repeat split. exists []. now rewrite app_nil_r. }
  unfold step in HS. destruct (running s); [|discriminate].
  destruct l as [r w a|k0 uuid|k0|now| | | | |].
  - destruct (listeners s); [discriminate|]. injection HS as <-. cbn [conns set_conns].
    exists c. rewrite nth_error_app1 by (apply nth_error_Some; congruence).
    split; [exact Hk|]. repeat split. exists []. now rewrite app_nil_r.
  - unfold step_reader in HS. destruct (nth_error (conns s) k0) as [c0|] eqn:Hk0; [|discriminate].
    assert (R : forall c1, conns s' = update k0 c1 (conns s) ->
      c_rsock c1 = c_rsock c0 -> c_wsock c1 = c_wsock c0 -> c_addr c1 = c_addr c0 ->
      c_writer c1 = c_writer c0 -> c_sent c1 = c_sent c0 -> c_queue c1 = c_queue c0 -> exists c', nth_error (conns s') k = Some c'
      /\ c_rsock c' = c_rsock c /\ c_wsock c' = c_wsock c /\ c_addr c' = c_addr c
      /\ ((forall u, LReader k0 uuid <> LReader k u) -> c_reader c' = c_reader c /\ c_read c' = c_read c)
      /\ (LReader k0 uuid <> LWriter k -> c_writer c' = c_writer c /\ c_sent c' = c_sent c
          /\ exists more, c_queue c' = c_queue c ++ more /\ ((forall now, LReader k0 uuid <> LHandler now) -> more = []))).
    { intros c1 E H1 H2 H3 H4 H5 H6. apply (UPD k0 c0 c1 Hk0 E H1 H2 H3).
      - intros -> HN. now destruct (HN uuid).
      - intros _ _. now apply Q0. }
    destruct (c_reader c0) as [rs|e cid rs|cid rs|]; [| | |discriminate].
    + destruct (stream_read_packet dbg rs) as [p rs'| | | | |]; try discriminate; [destruct p| |]; injection HS as <-; (eapply R; reflexivity).
    + destruct (handler_alive (hdl s)); [destruct (_ <? _); [|discriminate]|]; injection HS as <-; (eapply R; reflexivity).
    + destruct (stream_read_packet dbg rs); try discriminate; injection HS as <-; (eapply R; reflexivity).
  - unfold step_writer in HS. destruct (nth_error (conns s) k0) as [c0|] eqn:Hk0; [|discriminate].
    assert (R : forall c1, conns s' = update k0 c1 (conns s) ->
      c_rsock c1 = c_rsock c0 -> c_wsock c1 = c_wsock c0 -> c_addr c1 = c_addr c0 ->
      c_reader c1 = c_reader c0 -> c_read c1 = c_read c0 -> exists c', nth_error (conns s') k = Some c'
      /\ c_rsock c' = c_rsock c /\ c_wsock c' = c_wsock c /\ c_addr c' = c_addr c
      /\ ((forall u, LWriter k0 <> LReader k u) -> c_reader c' = c_reader c /\ c_read c' = c_read c)
      /\ (LWriter k0 <> LWriter k -> c_writer c' = c_writer c /\ c_sent c' = c_sent c
          /\ exists more, c_queue c' = c_queue c ++ more /\ ((forall now, LWriter k0 <> LHandler now) -> more = []))).
    { intros c1 E H1 H2 H3 H4 H5. apply (UPD k0 c0 c1 Hk0 E H1 H2 H3); [auto|]. intros -> HN. now destruct HN. }
    destruct (c_writer c0) as [ws|p ws|ws]; [| |discriminate].
    + destruct (c_queue c0) as [|[f [p|]] q]; [destruct (has_sender s k0 c0); [discriminate|]| |]; injection HS as <-; (eapply R; reflexivity).
    + destruct (write_packet p ws); try discriminate; injection HS as <-; (eapply R; reflexivity).
  - unfold step_handler in HS. destruct (hdl s) as [|tx p| |]; try discriminate.
    + destruct (events s); [discriminate|]. injection HS as <-. now apply SAME.
    + destruct p as [| |R op f|to e p].
      * injection HS as <-. now apply SAME.
      * injection HS as <-. now apply SAME.
      * destruct (serve (svc s) op). injection HS as <-. now apply SAME.
      * destruct (nth_error (conns s) to) as [c0|] eqn:Hk0; [|discriminate].
        assert (R : s' = set_hdl (HBusy tx p) (set_log (log s ++ [(tx, to, e)]) (set_conn to (set_queue (c_queue c0 ++ [(tx, e)]) c0) s)) ->
          exists c', nth_error (conns s') k = Some c'
          /\ c_rsock c' = c_rsock c /\ c_wsock c' = c_wsock c /\ c_addr c' = c_addr c
          /\ ((forall u, LHandler now <> LReader k u) -> c_reader c' = c_reader c /\ c_read c' = c_read c)
          /\ (LHandler now <> LWriter k -> c_writer c' = c_writer c /\ c_sent c' = c_sent c
              /\ exists more, c_queue c' = c_queue c ++ more /\ ((forall now0, LHandler now <> LHandler now0) -> more = []))).
        { intros E. apply (UPD to c0 (set_queue (c_queue c0 ++ [(tx, e)]) c0) Hk0); try reflexivity; [now rewrite E|auto|].
          intros _ _. repeat split. exists [(tx, e)]. split; [reflexivity|]. intros HN. now destruct (HN now). }
        destruct (c_writer c0); try (destruct (_ <? _); [|discriminate]); injection HS as <-; try (apply R; reflexivity); now apply SAME.
  - destruct (hdl s); try discriminate. destruct (ctrl_c s); [|discriminate]. injection HS as <-. now apply SAME.
  - destruct (listeners s); [discriminate|]. destruct (ctrl_c s); [|discriminate]. injection HS as <-. now apply SAME.
  - destruct (_ && _); [|discriminate]. injection HS as <-. now apply SAME.
  - destruct (main s); try discriminate. destruct (_ || _); injection HS as <-; now apply SAME.
  - unfold step_main in HS. destruct (main s); try discriminate.
    + destruct (Nat.eqb _ _); [|discriminate]. injection HS as <-. now apply SAME.
    + destruct (service_running s); [discriminate|]. injection HS as <-. now apply SAME.
    + destruct (hdl s); try discriminate; injection HS as <-; now apply SAME.
Qed.

(** Only the handler takes events, handles and sends. *)
Lemma handler_frame auth dbg s l s' : step auth dbg s l = Some s' ->
  match l with LHandler _ | LStopHandler => False | _ => True end ->
  hdl s' = hdl s /\ handled s' = handled s /\ log s' = log s /\ svc s' = svc s /\ exists more, events s' = events s ++ more.
Proof.
  intros HS HL. split; [eapply step_keeps_handler; eauto|]. unfold step in HS. destruct (running s); [|discriminate].
  assert (SAME : handled s' = handled s -> log s' = log s -> svc s' = svc s -> events s' = events s ->
    handled s' = handled s /\ log s' = log s /\ svc s' = svc s /\ exists more, events s' = events s ++ more).
  { intros -> -> -> ->. repeat split. exists []. now rewrite app_nil_r. }
  destruct l as [r w a|k uuid|k|now| | | | |]; try destruct HL.
  - destruct (listeners s); [discriminate|]. injection HS as <-. now apply SAME.
  - unfold step_reader in HS. destruct (nth_error (conns s) k) as [c|]; [|discriminate].
    destruct (c_reader c) as [rs|e cid rs|cid rs|]; [| | |discriminate].
    + destruct (stream_read_packet dbg rs) as [p rs'| | | | |]; try discriminate; [destruct p| |]; injection HS as <-; now apply SAME.
    + destruct (handler_alive (hdl s)); [destruct (_ <? _); [|discriminate]|]; injection HS as <-.
      * repeat split. cbn. eauto.
      * now apply SAME.
    + destruct (stream_read_packet dbg rs); try discriminate; injection HS as <-; now apply SAME.
  - unfold step_writer in HS. destruct (nth_error (conns s) k) as [c|]; [|discriminate].
    destruct (c_writer c) as [ws|p ws|ws]; [| |discriminate].
    + destruct (c_queue c) as [|[f [p|]] q]; [destruct (has_sender s k c); [discriminate|]| |]; injection HS as <-; now apply SAME.
    + destruct (write_packet p ws); try discriminate; injection HS as <-; now apply SAME.
  - destruct (listeners s); [discriminate|]. destruct (ctrl_c s); [|discriminate]. injection HS as <-. now apply SAME.
  - destruct (_ && _); [|discriminate]. injection HS as <-. now apply SAME.
  - destruct (main s); try discriminate. destruct (_ || _); injection HS as <-; now apply SAME.
  - unfold step_main in HS. destruct (main s); try discriminate.
    + destruct (Nat.eqb _ _); [|discriminate]. injection HS as <-. now apply SAME.
    + destruct (service_running s); [discriminate|]. injection HS as <-. now apply SAME.
    + destruct (hdl s); try discriminate; injection HS as <-; now apply SAME.
Qed.

(** ** Fair runs *)

(** The tasks that serve clients. *)
Inductive task := TReader (k : conn) | TWriter (k : conn) | THandler.

Definition runs (t : task) (l : option label) : bool :=
  match t, l with
  | TReader k, Some (LReader k' _) => Nat.eqb k k'
  | TWriter k, Some (LWriter k') => Nat.eqb k k'
  | THandler, Some (LHandler _) => true
  | _, _ => false
  end.

Definition can auth dbg (t : task) (s : sys) : Prop := exists l, runs t (Some l) = true /\ step auth dbg s l <> None.

(** An infinite run; [None] is a moment in which nothing happens. No task that can always go on is passed over
    for ever. A read task that can go on again and again is not either: places in a channel are given out in
    the order in which senders came (tokio's mpsc). *)
Record fair_run auth dbg n (run : nat -> sys) (lab : nat -> option label) : Prop := {
  fr_start : reachable auth dbg n (run 0);
  fr_step : forall i, match lab i with
                      | Some l => step auth dbg (run i) l = Some (run (S i))
                      | None => run (S i) = run i
                      end;
  fr_tasks : forall t i, exists j, i <= j /\ (runs t (lab j) = true \/ ~ can auth dbg t (run j));
  fr_readers : forall k i, exists j, i <= j /\ (runs (TReader k) (lab j) = true
                                              \/ forall j', j <= j' -> ~ can auth dbg (TReader k) (run j')) }.

Section Fair.
Context {auth : bytes -> bytes -> bool} {dbg : bool} {n : nat} {run : nat -> sys} {lab : nat -> option label}.
Hypothesis FR : fair_run auth dbg n run lab.

Lemma fr_reachable i : reachable auth dbg n (run i).
Proof.
  induction i as [|i IH]; [apply (fr_start _ _ _ _ _ FR)|]. pose proof (fr_step _ _ _ _ _ FR i) as H.
  destruct (lab i) as [l|]; [eapply reachable_step; eauto|now rewrite H].
Qed.

(** [P] lasts until [t] goes on, or [Q]. *)
Lemma until (P Q : nat -> Prop) t i : P i ->
  (forall j, i <= j -> P j -> runs t (lab j) = true \/ P (S j) \/ Q (S j)) ->
  (forall j, i <= j -> P j -> can auth dbg t (run j)) ->
  exists j, i <= j /\ (P j /\ runs t (lab j) = true \/ Q j).
Proof.
  intros HP HN HC. destruct (fr_tasks _ _ _ _ _ FR t i) as (j0 & Hj & H0).
  remember (j0 - i) as d eqn:Ed. revert i HP HN HC Hj Ed. induction d as [|d IH]; intros i HP HN HC Hj Ed.
  - assert (j0 = i) as -> by lia. destruct H0 as [H0|H0]; [exists i; auto|]. destruct H0. now apply HC.
  - destruct (HN i) as [H|[H|H]]; auto; [exists i; auto| |exists (S i); auto].
    destruct (IH (S i)) as (j & Hj' & K); auto; try lia.
    + intros j Hj' HPj. apply HN; [lia|exact HPj].
    + intros j Hj' HPj. apply HC; [lia|exact HPj].
    + exists j. split; [lia|exact K].
Qed.

Definition alive (i : nat) : Prop := handler_alive (hdl (run i)) = true.
Definition dead (i : nat) : Prop := handler_alive (hdl (run i)) = false.

Definition unblocked_run : Prop := forall i k c, nth_error (conns (run i)) k = Some c -> ~ blocks (c_wsock c).
Hypothesis NB : unblocked_run.

(** At [j] the handler has the same program as at [i], and has taken no event in between. *)
Definition same_program (i j : nat) : Prop :=
  hdl (run j) = hdl (run i) /\ handled (run j) = handled (run i) /\ log (run j) = log (run i)
  /\ exists more, events (run j) = events (run i) ++ more.

Lemma same_refl i : same_program i i.
Proof. repeat split. exists []. now rewrite app_nil_r. Qed.

Lemma same_next i j tx p : hdl (run i) = HBusy tx p -> same_program i j -> runs THandler (lab j) = true \/ same_program i (S j).
Proof.
  intros EH (H1 & H2 & H3 & more & H4). pose proof (fr_step _ _ _ _ _ FR j) as HS.
  destruct (lab j) as [l|]; [|right; unfold same_program; rewrite HS; repeat split; eauto].
  assert (K : match l with LHandler _ => True | LStopHandler => False | _ => True end).
  { destruct l; auto. unfold step in HS. rewrite H1, EH in HS. destruct (running (run j)); discriminate. }
  destruct l as [r w a|k u|k|now| | | | |]; try destruct K; try (left; reflexivity); right;
    (destruct (handler_frame _ _ _ _ _ HS I) as (K1 & K2 & K3 & _ & more' & K4); unfold same_program;
     rewrite K1, K2, K3, K4, H1, H2, H3, H4, <- app_assoc; repeat split; eauto).
Qed.

(** ** Room in a queue comes *)

Definition room (s : sys) (to : conn) : Prop :=
  exists c, nth_error (conns s) to = Some c /\ ((exists ws, c_writer c = WClosed ws) \/ length (c_queue c) < channel_size).

Definition same_writer (c : cstate) (to : conn) (j : nat) : Prop :=
  exists c', nth_error (conns (run j)) to = Some c' /\ c_writer c' = c_writer c /\ c_queue c' = c_queue c.

Lemma handler_runs l : runs THandler (Some l) = true -> exists now, l = LHandler now.
Proof. destruct l; try discriminate. eauto. Qed.

Lemma writer_runs k l : runs (TWriter k) (Some l) = true -> l = LWriter k.
Proof. destruct l; try discriminate. cbn. intros H. apply Nat.eqb_eq in H. now subst. Qed.

Lemma blocked_send i j tx to e p c : hdl (run i) = HBusy tx (Send to e p) -> same_program i j ->
  nth_error (conns (run j)) to = Some c -> (forall ws, c_writer c <> WClosed ws) -> channel_size <= length (c_queue c) ->
  runs THandler (lab j) = false.
Proof.
  intros EH (H1 & _) Hc HW HL. pose proof (fr_step _ _ _ _ _ FR j) as HS.
  destruct (lab j) as [l|]; [|reflexivity]. destruct l; try reflexivity. exfalso.
  unfold step, step_handler in HS. rewrite H1, EH, Hc in HS. destruct (running (run j)); [|discriminate].
  apply Nat.ltb_ge in HL. rewrite HL in HS. destruct (c_writer c); try discriminate. now destruct (HW ws).
Qed.

Lemma full_until i tx to e p c : hdl (run i) = HBusy tx (Send to e p) -> nth_error (conns (run i)) to = Some c ->
  (forall ws, c_writer c <> WClosed ws) -> channel_size <= length (c_queue c) ->
  exists j, i <= j /\ same_program i j /\ same_writer c to j /\ lab j = Some (LWriter to).
Proof.
  intros EH Hc HW HL.
  destruct (until (fun j => same_program i j /\ same_writer c to j) (fun _ => False) (TWriter to) i) as (j & Hj & K).
  - split; [apply same_refl|]. exists c. auto.
  - intros j Hj (H1 & c' & Hc' & Hw & Hq).
    assert (NH : runs THandler (lab j) = false).
    { eapply blocked_send; eauto; [now rewrite Hw|now rewrite Hq]. }
    destruct (same_next i j _ _ EH H1) as [K|K]; [congruence|].
    destruct (runs (TWriter to) (lab j)) eqn:ER; [now left|]. right. left. split; [exact K|].
    pose proof (fr_step _ _ _ _ _ FR j) as HS. destruct (lab j) as [l|]; [|unfold same_writer; rewrite HS; exists c'; auto].
    destruct (conn_frame _ _ _ _ _ _ _ HS Hc') as (c2 & Hc2 & _ & _ & _ & _ & F).
    destruct F as (F1 & _ & more & F2 & F3).
    + intros ->. cbn in ER. now rewrite Nat.eqb_refl in ER.
    + exists c2. split; [exact Hc2|]. rewrite F3, app_nil_r in F2 by (intros now ->; discriminate). split; congruence.
  - intros j Hj (H1 & c' & Hc' & Hw & Hq). exists (LWriter to). split; [cbn; apply Nat.eqb_refl|].
    assert (RN : running (run j) = true).
    { apply (alive_running auth dbg n); [apply fr_reachable|]. destruct H1 as (-> & _). now rewrite EH. }
    unfold step, step_writer. rewrite RN, Hc'. destruct (c_writer c') as [ws|q ws|ws] eqn:EW.
    + rewrite Hq. destruct (c_queue c) as [|[f [q|]] r] eqn:EQ; try discriminate. cbn in HL. unfold channel_size in HL. lia.
    + pose proof (busy_blocked auth dbg n (run j) to c' q ws (fr_reachable j) Hc' EW) as B.
      destruct (write_packet q ws); try discriminate; try contradiction. destruct (NB j to c' Hc' B).
    + destruct (HW ws). congruence.
  - destruct K as [((H1 & H2) & H3)|[]]. exists j. split; [exact Hj|]. split; [exact H1|]. split; [exact H2|].
    destruct (lab j) as [l|]; [|discriminate]. now rewrite (writer_runs to l H3).
Qed.

Lemma after_writer i j tx p : hdl (run i) = HBusy tx p -> same_program i j -> forall k, lab j = Some (LWriter k) -> same_program i (S j).
Proof.
  intros EH H k E. destruct (same_next i j _ _ EH H) as [K|K]; [|exact K]. rewrite E in K. discriminate.
Qed.

Lemma same_trans i j k : same_program i j -> same_program j k -> same_program i k.
Proof.
  intros (H1 & H2 & H3 & m & H4) (K1 & K2 & K3 & m' & K4). unfold same_program. rewrite K1, K2, K3, K4, H1, H2, H3, H4, <- app_assoc.
  repeat split. eauto.
Qed.

Lemma room_comes i tx to e p : hdl (run i) = HBusy tx (Send to e p) ->
  exists j, i <= j /\ same_program i j /\ room (run j) to.
Proof.
  intros EH.
  assert (A1 : forall j c, same_program i j -> i <= j -> nth_error (conns (run j)) to = Some c -> (forall p ws, c_writer c <> WBusy p ws) ->
    exists j', i <= j' /\ same_program i j' /\ room (run j') to).
  { intros j c HP Hj Hc HB. destruct (Nat.lt_ge_cases (length (c_queue c)) channel_size) as [L|L].
    { exists j. split; [exact Hj|]. split; [exact HP|]. exists c. auto. }
    destruct (c_writer c) as [ws|q ws|ws] eqn:EW.
    - assert (EHj : hdl (run j) = HBusy tx (Send to e p)) by (destruct HP as (-> & _); exact EH).
      destruct (full_until j tx to e p c EHj Hc) as (j1 & Hj1 & HP1 & (c1 & Hc1 & Hw & Hq) & HL); [congruence|exact L|].
      exists (S j1). split; [lia|]. split; [eapply same_trans; [exact HP|]; eapply after_writer; eauto|].
      pose proof (fr_step _ _ _ _ _ FR j1) as HS. rewrite HL in HS. unfold step, step_writer in HS.
      destruct (running (run j1)); [|discriminate]. rewrite Hc1, Hw, EW, Hq in HS.
      pose proof (proj2 (bounded_inv auth dbg n (run j) (fr_reachable j)) to c Hc) as HB2. cbn beta in HB2.
      destruct (c_queue c) as [|[f [q|]] r] eqn:EQ.
      + cbn in L. unfold channel_size in L. lia.
      + injection HS as HS. rewrite <- HS. eexists. split; [eapply nth_set_conn; eassumption|]. right. cbn in *. unfold channel_size in *. lia.
      + injection HS as HS. rewrite <- HS. eexists. split; [eapply nth_set_conn; eassumption|]. left. eexists. reflexivity.
    - now destruct (HB q ws).
    - exists j. split; [exact Hj|]. split; [exact HP|]. exists c. split; [exact Hc|]. left. eauto. }
  pose proof (target_exists auth dbg n (run i) tx to e p (fr_reachable i) EH) as HT.
  destruct (nth_error (conns (run i)) to) as [c|] eqn:Hc; [|congruence].
  destruct (c_writer c) as [ws|q ws|ws] eqn:EW.
  - apply (A1 i c (same_refl i) (le_n i) Hc). congruence.
  - destruct (Nat.lt_ge_cases (length (c_queue c)) channel_size) as [L|L].
    { exists i. split; [lia|]. split; [apply same_refl|]. exists c. auto. }
    destruct (full_until i tx to e p c EH Hc) as (j1 & Hj1 & HP1 & (c1 & Hc1 & Hw & Hq) & HL); [congruence|exact L|].
    pose proof (fr_step _ _ _ _ _ FR j1) as HS. rewrite HL in HS. unfold step, step_writer in HS.
    destruct (running (run j1)); [|discriminate]. rewrite Hc1, Hw, EW in HS.
    assert (HP2 : same_program i (S j1)) by (eapply after_writer; eauto).
    destruct (write_packet q ws) as [ws'|ws'| | |]; try discriminate; injection HS as HS;
      (eapply (A1 (S j1)); [exact HP2|lia|rewrite <- HS; eapply nth_set_conn; eassumption|cbn; discriminate]).
  - apply (A1 i c (same_refl i) (le_n i) Hc). congruence.
Qed.

(** Room stays until the handler uses it. *)
Lemma room_stays j to : room (run j) to -> runs THandler (lab j) = true \/ room (run (S j)) to.
Proof.
  intros (c & Hc & HR). pose proof (fr_step _ _ _ _ _ FR j) as HS. destruct (lab j) as [l|] eqn:EL; [|right; rewrite HS; exists c; auto].
  destruct (runs THandler (Some l)) eqn:ER; [now left|right].
  destruct (runs (TWriter to) (Some l)) eqn:EW.
  - rewrite (writer_runs to l EW) in HS. unfold step, step_writer in HS. destruct (running (run j)); [|discriminate]. rewrite Hc in HS.
    destruct (c_writer c) as [ws|q ws|ws]; [| |discriminate].
    + destruct HR as [(ws' & HR)|HR]; [discriminate|].
      destruct (c_queue c) as [|[f [q|]] r] eqn:EQ; [destruct (has_sender (run j) to c); [discriminate|]| |]; injection HS as HS; rewrite <- HS;
        (eexists; split; [eapply nth_set_conn; eassumption|]).
      * left. eexists. reflexivity.
      * right. cbn in *. lia.
      * left. eexists. reflexivity.
    + destruct HR as [(ws' & HR)|HR]; [discriminate|].
      destruct (write_packet q ws); try discriminate; injection HS as HS; rewrite <- HS; (eexists; split; [eapply nth_set_conn; eassumption|]).
      * right. exact HR.
      * right. exact HR.
      * left. eexists. reflexivity.
  - destruct (conn_frame _ _ _ _ _ _ _ HS Hc) as (c2 & Hc2 & _ & _ & _ & _ & F).
    destruct F as (F1 & _ & more & F2 & F3).
    + intros ->. cbn in EW. now rewrite Nat.eqb_refl in EW.
    + exists c2. split; [exact Hc2|]. rewrite F3, app_nil_r in F2 by (intros now ->; discriminate). now rewrite F1, F2.
Qed.

(** ** The handler goes on *)

Lemma running_alive i : alive i -> running (run i) = true.
Proof. intros H. apply (alive_running auth dbg n); [apply fr_reachable|exact H]. Qed.

Lemma idle_comes p : forall tx i, hdl (run i) = HBusy tx p -> exists j, i <= j /\ (dead j
  \/ hdl (run j) = HIdle /\ handled (run j) = handled (run i) /\ exists more, events (run j) = events (run i) ++ more).
Proof.
  assert (ONE : forall tx p i (R : nat -> Prop), hdl (run i) = HBusy tx p -> R i ->
    (forall j, R j -> runs THandler (lab j) = true \/ R (S j)) ->
    (forall j, i <= j -> same_program i j -> R j -> step auth dbg (run j) (LHandler 0) <> None) ->
    exists j now, i <= j /\ same_program i j /\ R j /\ lab j = Some (LHandler now)).
  { intros tx q i R EH HR HN HC.
    destruct (until (fun j => same_program i j /\ R j) (fun _ => False) THandler i) as (j & Hj & K).
    - split; [apply same_refl|exact HR].
    - intros j Hj (H1 & H2). destruct (same_next i j _ _ EH H1) as [K|K]; [now left|].
      destruct (HN j H2) as [K'|K']; [now left|]. auto.
    - intros j Hj (H1 & H2). exists (LHandler 0). split; [reflexivity|]. now apply HC.
    - destruct K as [((H1 & H2) & H3)|[]]. destruct (lab j) as [l|] eqn:EL; [|discriminate].
      destruct (handler_runs l H3) as (now & ->). exists j, now. auto. }
  assert (RN : forall tx q i j, hdl (run i) = HBusy tx q -> same_program i j -> running (run j) = true).
  { intros tx q i j EH (H1 & _). apply running_alive. unfold alive. now rewrite H1, EH. }
  assert (NEXT : forall tx tx' q q' i j, hdl (run i) = HBusy tx q -> same_program i j -> i <= j ->
    hdl (run (S j)) = HBusy tx' q' -> handled (run (S j)) = handled (run j) -> events (run (S j)) = events (run j) ->
    (forall tx i, hdl (run i) = HBusy tx q' -> exists j, i <= j /\ (dead j
      \/ hdl (run j) = HIdle /\ handled (run j) = handled (run i) /\ exists more, events (run j) = events (run i) ++ more)) ->
    exists j, i <= j /\ (dead j
      \/ hdl (run j) = HIdle /\ handled (run j) = handled (run i) /\ exists more, events (run j) = events (run i) ++ more)).
  { intros tx tx' q q' i j EH (H1 & H2 & _ & m & H3) Hj K1 K2 K3 IH.
    destruct (IH tx' (S j) K1) as (j' & Hj' & [K|(K4 & K5 & m' & K6)]); exists j'; (split; [lia|]); [now left|right].
    split; [exact K4|]. split; [congruence|]. exists (m ++ m'). rewrite K6, K3, H3. now rewrite app_assoc. }
  induction p as [| |R op f IH|to e p IH]; intros tx i EH.
  - destruct (ONE tx Done i (fun _ => True) EH I) as (j & now & Hj & HP & _ & HL); [auto|intros j Hj HP _; unfold step, step_handler; pose proof HP as (H1 & _); rewrite (RN _ _ _ _ EH HP), H1, EH; discriminate|].
    pose proof (fr_step _ _ _ _ _ FR j) as HS. rewrite HL in HS. pose proof HP as (H1 & H2 & _ & m & H3).
    unfold step, step_handler in HS. rewrite (RN _ _ _ _ EH HP), H1, EH in HS. injection HS as HS.
    exists (S j). split; [lia|]. right. rewrite <- HS. cbn. rewrite H2, H3. repeat split. eauto.
  - destruct (ONE tx Panic i (fun _ => True) EH I) as (j & now & Hj & HP & _ & HL); [auto|intros j Hj HP _; unfold step, step_handler; pose proof HP as (H1 & _); rewrite (RN _ _ _ _ EH HP), H1, EH; discriminate|].
    pose proof (fr_step _ _ _ _ _ FR j) as HS. rewrite HL in HS. pose proof HP as (H1 & H2 & _ & m & H3).
    unfold step, step_handler in HS. rewrite (RN _ _ _ _ EH HP), H1, EH in HS. injection HS as HS.
    exists (S j). split; [lia|]. left. unfold dead. rewrite <- HS. reflexivity.
  - destruct (ONE tx (Call op f) i (fun _ => True) EH I) as (j & now & Hj & HP & _ & HL); [auto|intros j Hj HP _; unfold step, step_handler; pose proof HP as (H1 & _); rewrite (RN _ _ _ _ EH HP), H1, EH; destruct (serve _ op); discriminate|].
    pose proof (fr_step _ _ _ _ _ FR j) as HS. rewrite HL in HS. pose proof HP as (H1 & _).
    unfold step, step_handler in HS. rewrite (RN _ _ _ _ EH HP), H1, EH in HS. destruct (serve _ op) as [m r]. injection HS as HS.
    apply (NEXT tx tx (Call op f) (f r) i j EH HP Hj); [now rewrite <- HS|now rewrite <- HS|now rewrite <- HS|exact (IH r)].
  - destruct (room_comes i tx to e p EH) as (j0 & Hj0 & HP0 & HR0).
    assert (EH0 : hdl (run j0) = HBusy tx (Send to e p)) by (destruct HP0 as (-> & _); exact EH).
    destruct (ONE tx (Send to e p) j0 (fun j => room (run j) to) EH0 HR0) as (j & now & Hj & HP & (c & Hc & HR) & HL).
    { intros j. apply room_stays. }
    { intros j Hj HP (c & Hc & HR). unfold step, step_handler. pose proof HP as (H1 & _). rewrite (RN _ _ _ _ EH0 HP), H1, EH0, Hc.
      destruct HR as [(ws & ->)|HR]; [discriminate|]. apply Nat.ltb_lt in HR. rewrite HR. destruct (c_writer c); discriminate. }
    assert (HP' : same_program i j) by (eapply same_trans; eauto).
    pose proof (fr_step _ _ _ _ _ FR j) as HS. rewrite HL in HS. pose proof HP' as (H1 & _).
    unfold step, step_handler in HS. rewrite (RN _ _ _ _ EH HP'), H1, EH, Hc in HS.
    assert (DEAD : Some (panic_handler (run j)) = Some (run (S j)) -> dead (S j)).
    { unfold dead. intros [= <-]. reflexivity. }
    assert (GO : Some (set_hdl (HBusy tx p) (set_log (log (run j) ++ [(tx, to, e)]) (set_conn to (set_queue (c_queue c ++ [(tx, e)]) c) (run j)))) = Some (run (S j)) ->
      exists j, i <= j /\ (dead j
      \/ hdl (run j) = HIdle /\ handled (run j) = handled (run i) /\ exists more, events (run j) = events (run i) ++ more)).
    { intros [= HG]. apply (NEXT tx tx (Send to e p) p i j EH HP'); [lia|now rewrite <- HG|now rewrite <- HG|now rewrite <- HG|exact IH]. }
    destruct (c_writer c); try (destruct (_ <? _); [|discriminate]); auto.
    exists (S j). split; [lia|]. left. now apply DEAD.
Qed.

(** An event waiting is taken. *)
Lemma takes i : alive i -> events (run i) <> [] -> exists j, i <= j /\ (dead j
  \/ hdl (run j) = HIdle /\ handled (run j) = handled (run i) /\ (exists more, events (run j) = events (run i) ++ more)
     /\ exists now, lab j = Some (LHandler now)).
Proof.
  intros HA HE.
  assert (K : exists j, i <= j /\ (dead j
    \/ hdl (run j) = HIdle /\ handled (run j) = handled (run i) /\ exists more, events (run j) = events (run i) ++ more)).
  { unfold alive in HA. destruct (hdl (run i)) as [|tx p| |] eqn:EH; try discriminate HA.
    - exists i. split; [lia|]. right. repeat split; auto. exists []. now rewrite app_nil_r.
    - exact (idle_comes p tx i EH). }
  destruct K as (j0 & Hj0 & [K|(K1 & K2 & K3)]); [exists j0; auto|].
  destruct (until (fun j => hdl (run j) = HIdle /\ handled (run j) = handled (run i) /\ exists more, events (run j) = events (run i) ++ more)
              dead THandler j0) as (j & Hj & H).
  - auto.
  - intros j Hj (H1 & H2 & m & H3). pose proof (fr_step _ _ _ _ _ FR j) as HS.
    destruct (lab j) as [l|]; [|right; left; rewrite HS; eauto].
    destruct l as [r w a|k u|k|now| | | | |]; try (left; reflexivity); right;
      try (left; destruct (handler_frame _ _ _ _ _ HS I) as (F1 & F2 & _ & _ & m' & F3);
           rewrite F1, F2, F3, H1, H2, H3, <- app_assoc; repeat split; eauto).
    right. unfold step in HS. rewrite H1 in HS. destruct (running (run j)); [|discriminate].
    destruct (ctrl_c (run j)); [|discriminate]. injection HS as HS. unfold dead. now rewrite <- HS.
  - intros j Hj (H1 & H2 & m & H3). exists (LHandler 0). split; [reflexivity|]. unfold step, step_handler.
    rewrite running_alive by (unfold alive; now rewrite H1). rewrite H1, H3. destruct (events (run i)); [congruence|discriminate].
  - exists j. split; [lia|]. destruct H as [((H1 & H2 & H3) & H4)|H]; [right|now left]. repeat split; auto.
    destruct (lab j) as [l|]; [|discriminate]. destruct (handler_runs l H4) as (now & ->). eauto.
Qed.

(** All events in the channel are handled. *)
Lemma queued_handled es : forall i, (exists more, events (run i) = es ++ more) -> exists j, i <= j /\ (dead j
  \/ exists more, map snd (handled (run j)) = map snd (handled (run i)) ++ es ++ more).
Proof.
  induction es as [|e es IH]; intros i (m & Em).
  - exists i. split; [lia|]. right. exists []. now rewrite !app_nil_r.
  - destruct (handler_alive (hdl (run i))) eqn:HA; [|exists i; auto].
    destruct (takes i HA) as (j & Hj & [K|(K1 & K2 & (m' & K3) & now & K4)]); [rewrite Em; discriminate|exists j; auto|].
    pose proof (fr_step _ _ _ _ _ FR j) as HS. rewrite K4 in HS. unfold step, step_handler in HS.
    destruct (running (run j)); [|discriminate]. rewrite K1, K3, Em in HS. cbn [app] in HS. injection HS as HS.
    destruct (IH (S j)) as (j' & Hj' & [K|(m2 & K)]).
    + rewrite <- HS. cbn [events set_hdl set_handled set_events]. exists (m ++ m'). now rewrite app_assoc.
    + exists j'. split; [lia|now left].
    + exists j'. split; [lia|right]. exists m2. rewrite K, <- HS. cbn [handled set_hdl set_handled]. rewrite K2, map_app, <- app_assoc. reflexivity.
Qed.

(** ** The read tasks go on *)

Definition stuck (r : reader) : Prop :=
  match r with
  | RFirst rs | RLoop _ rs =>
    stream_read_packet dbg rs = RWait \/ stream_read_packet dbg rs = RHung \/ stream_read_packet dbg rs = RNoFuel
  | RPush _ _ _ => False
  | RDone => True
  end.

Lemma stuck_out j k c : nth_error (conns (run j)) k = Some c -> stuck (c_reader c) -> read_out dbg c /\ pend (c_reader c) = [].
Proof.
  intros Hk HS. destruct (reader_invariant auth dbg n (run j) (fr_reachable j) k c Hk) as (rs & Hrd & Hd).
  destruct (reads_read_all dbg _ _ _ (wf_connection (c_rsock c)) Hrd) as (W & E).
  assert (K : (stream_read_packet dbg rs = RWait \/ stream_read_packet dbg rs = RHung \/ stream_read_packet dbg rs = RNoFuel) ->
              fst (read_all dbg (connection_stream (c_rsock c))) = c_read c).
  { intros K. rewrite E. cbn [fst]. rewrite (read_all_step dbg rs W).
    destruct K as [-> |[-> | ->]]; cbn [fst]; apply app_nil_r. }
  destruct (c_reader c) as [rs'|e cid rs'|cid rs'|] eqn:ER; cbn [stuck] in HS.
  - destruct Hd as (-> & _). split; [left; auto|reflexivity].
  - destruct HS.
  - destruct Hd as (-> & _). split; [left; auto|reflexivity].
  - split; [|reflexivity]. exact (done_read auth dbg n (run j) (fr_reachable j) k c Hk ER).
Qed.

Definition same_reader (c : cstate) (k : conn) (j : nat) : Prop :=
  exists c', nth_error (conns (run j)) k = Some c' /\ c_reader c' = c_reader c.

Lemma reader_next c k j : same_reader c k j -> runs (TReader k) (lab j) = true \/ same_reader c k (S j).
Proof.
  intros (c' & Hc & E). pose proof (fr_step _ _ _ _ _ FR j) as HS.
  destruct (lab j) as [l|]; [|right; unfold same_reader; rewrite HS; eauto].
  destruct (runs (TReader k) (Some l)) eqn:ER; [now left|right].
  destruct (conn_frame _ _ _ _ _ _ _ HS Hc) as (c2 & Hc2 & _ & _ & _ & F & _). destruct F as (F & _).
  - intros u ->. cbn in ER. now rewrite Nat.eqb_refl in ER.
  - exists c2. split; [exact Hc2|congruence].
Qed.

Lemma reader_runs k l : runs (TReader k) (Some l) = true -> exists u, l = LReader k u.
Proof. destruct l; try discriminate. cbn. intros H. apply Nat.eqb_eq in H. subst. eauto. Qed.

Lemma reader_lower k j c u : nth_error (conns (run j)) k = Some c -> lab j = Some (LReader k u) ->
  exists c', nth_error (conns (run (S j))) k = Some c' /\ reader_rank (c_reader c') < reader_rank (c_reader c).
Proof.
  intros Hk HL. pose proof (fr_step _ _ _ _ _ FR j) as HS. rewrite HL in HS.
  pose proof (readers_ok auth dbg n (run j) (fr_reachable j) k c Hk) as HW. cbn beta in HW.
  unfold step, step_reader in HS. destruct (running (run j)); [|discriminate]. rewrite Hk in HS.
  assert (D : forall c' s, Some s = Some (run (S j)) -> nth_error (conns s) k = Some c' -> reader_rank (c_reader c') < reader_rank (c_reader c) ->
    exists c', nth_error (conns (run (S j))) k = Some c' /\ reader_rank (c_reader c') < reader_rank (c_reader c)).
  { intros c' s [= <-] H1 H2. eauto. }
  destruct (c_reader c) as [rs|e cid rs|cid rs|] eqn:ER; [| | |discriminate].
  - destruct (stream_read_packet dbg rs) as [p rs'|e| | | |] eqn:EP; try discriminate.
    + destruct (read_packet_consumes dbg rs p rs' HW EP) as (_ & _ & _ & L).
      destruct p; (eapply D; [exact HS|eapply nth_set_conn; eassumption|cbn [c_reader set_reader set_read reader_rank]; lia]).
    + eapply D; [exact HS|eapply nth_set_conn; eassumption|cbn [c_reader set_reader set_read reader_rank]; lia].
    + eapply D; [exact HS|eapply nth_set_conn; eassumption|cbn [c_reader set_reader set_read reader_rank]; lia].
  - destruct (handler_alive (hdl (run j))).
    + destruct (_ <? _); [|discriminate].
      eapply D; [exact HS|eapply nth_set_conn; cbn [conns set_events]; eassumption|cbn [c_reader set_reader set_read reader_rank]; lia].
    + eapply D; [exact HS|eapply nth_set_conn; eassumption|cbn [c_reader set_reader set_read reader_rank]; lia].
  - destruct (stream_read_packet dbg rs) as [p rs'|e| | | |] eqn:EP; try discriminate.
    + destruct (read_packet_consumes dbg rs p rs' HW EP) as (_ & _ & _ & L).
      eapply D; [exact HS|eapply nth_set_conn; eassumption|cbn [c_reader set_reader set_read reader_rank]; lia].
    + eapply D; [exact HS|eapply nth_set_conn; eassumption|cbn [c_reader set_reader set_read reader_rank]; lia].
    + eapply D; [exact HS|eapply nth_set_conn; eassumption|cbn [c_reader set_reader set_read reader_rank]; lia].
Qed.

Lemma alive_or_dead j : alive j \/ dead j.
Proof. unfold alive, dead. destruct (handler_alive (hdl (run j))); auto. Qed.

Lemma reader_comes k r : forall i c, nth_error (conns (run i)) k = Some c -> reader_rank (c_reader c) < r ->
  exists j, i <= j /\ (dead j \/ exists c', nth_error (conns (run j)) k = Some c' /\ read_out dbg c' /\ pend (c_reader c') = []).
Proof.
  induction r as [|r IH]; intros i c Hc Hr; [lia|].
  destruct (alive_or_dead i) as [HA|HA]; [|exists i; auto].
  assert (TAKEN : forall j, i <= j -> same_reader c k j -> runs (TReader k) (lab j) = true ->
    exists j, i <= j /\ (dead j \/ exists c', nth_error (conns (run j)) k = Some c' /\ read_out dbg c' /\ pend (c_reader c') = [])).
  { intros j Hj (c1 & Hc1 & E1) HL. destruct (lab j) as [l|] eqn:EL; [|discriminate]. destruct (reader_runs k l HL) as (u & ->).
    destruct (reader_lower k j c1 u Hc1 EL) as (c2 & Hc2 & L). rewrite E1 in L.
    destruct (IH (S j) c2 Hc2) as (j' & Hj' & K); [lia|]. exists j'. split; [lia|exact K]. }
  assert (GO : (forall j, i <= j -> alive j -> same_reader c k j -> can auth dbg (TReader k) (run j)) ->
    exists j, i <= j /\ (dead j \/ exists c', nth_error (conns (run j)) k = Some c' /\ read_out dbg c' /\ pend (c_reader c') = [])).
  { intros HC. destruct (until (fun j => alive j /\ same_reader c k j) dead (TReader k) i) as (j & Hj & K).
    - split; [exact HA|]. exists c. auto.
    - intros j Hj (H1 & H2). destruct (reader_next c k j H2) as [K|K]; [now left|right].
      destruct (alive_or_dead (S j)); auto.
    - intros j Hj (H1 & H2). now apply HC.
    - destruct K as [((_ & K1) & K2)|K]; [now apply (TAKEN j)|exists j; auto]. }
  destruct (c_reader c) as [rs|e cid rs|cid rs|] eqn:ER.
  - assert (K : stuck (c_reader c) \/ match stream_read_packet dbg rs with ROk _ _ | RErr _ | RPanic => True | _ => False end).
    { rewrite ER. cbn [stuck]. destruct (stream_read_packet dbg rs); auto. }
    destruct K as [K|K]; [exists i; split; [lia|right]; exists c; split; [exact Hc|now apply (stuck_out i k)]|].
    apply GO. intros j Hj HAj (c1 & Hc1 & E1). exists (LReader k []). split; [cbn; apply Nat.eqb_refl|].
    unfold step, step_reader. rewrite (running_alive j HAj), Hc1, E1, ER. destruct (stream_read_packet dbg rs) as [p ?| | | | |]; try destruct K; try discriminate. destruct p; discriminate.
  - (* a place in the channel *)
    destruct (fr_readers _ _ _ _ _ FR k i) as (j0 & Hj0 & K0).
    assert (W : forall d j, i <= j -> j0 = j + d -> same_reader c k j -> 
      (exists j', i <= j' /\ same_reader c k j' /\ runs (TReader k) (lab j') = true) \/ same_reader c k j0).
    { induction d as [|d IHd]; intros j Hj Ed HS.
      - right. assert (j0 = j) as -> by lia. exact HS.
      - destruct (reader_next c k j HS) as [K|K]; [left; eauto|]. apply (IHd (S j)); [lia|lia|exact K]. }
    destruct (W (j0 - i) i) as [(j' & H1 & H2 & H3)|HS]; [lia|lia|exists c; auto|now apply (TAKEN j')|].
    destruct K0 as [K0|K0]; [now apply (TAKEN j0)|].
    destruct (alive_or_dead j0) as [HA0|HA0]; [|exists j0; auto].
    assert (NEV : forall j, j0 <= j -> same_reader c k j).
    { intros j Hj. induction Hj as [|j Hj IHj]; [exact HS|]. destruct (reader_next c k j IHj) as [K|K]; [|exact K].
      exfalso. apply (K0 j Hj). destruct (lab j) as [l|] eqn:EL; [|discriminate]. exists l. split; [exact K|].
      pose proof (fr_step _ _ _ _ _ FR j) as HSj. rewrite EL in HSj. rewrite HSj. discriminate. }
    assert (FULL : forall j, j0 <= j -> alive j -> channel_size <= length (events (run j))).
    { intros j Hj HAj. destruct (Nat.lt_ge_cases (length (events (run j))) channel_size) as [L|L]; [|exact L]. exfalso.
      destruct (NEV j Hj) as (c1 & Hc1 & E1). apply (K0 j Hj). exists (LReader k []). split; [cbn; apply Nat.eqb_refl|].
      unfold step, step_reader. rewrite (running_alive j HAj), Hc1, E1, ER. unfold alive in HAj. rewrite HAj.
      apply Nat.ltb_lt in L. rewrite L. discriminate. }
    destruct (takes j0 HA0) as (j & Hj & [K|(K1 & K2 & (m & K3) & now & K4)]).
    { intros E. pose proof (FULL j0 (le_n _) HA0) as F. rewrite E in F. cbn in F. unfold channel_size in F. lia. }
    { exists j. split; [lia|now left]. }
    exfalso. pose proof (proj1 (bounded_inv auth dbg n (run j) (fr_reachable j))) as B.
    pose proof (fr_step _ _ _ _ _ FR j) as HSj. rewrite K4 in HSj. unfold step, step_handler in HSj.
    destruct (running (run j)); [|discriminate]. rewrite K1 in HSj. destruct (events (run j)) as [|e0 es] eqn:EE; [discriminate|]. injection HSj as HSj.
    assert (HAS : alive (S j)) by (unfold alive; rewrite <- HSj; reflexivity).
    pose proof (FULL (S j) ltac:(lia) HAS) as F. rewrite <- HSj in F. cbn [events set_hdl set_handled set_events] in F. cbn [length] in B. lia.
  - assert (K : stuck (c_reader c) \/ match stream_read_packet dbg rs with ROk _ _ | RErr _ | RPanic => True | _ => False end).
    { rewrite ER. cbn [stuck]. destruct (stream_read_packet dbg rs); auto. }
    destruct K as [K|K]; [exists i; split; [lia|right]; exists c; split; [exact Hc|now apply (stuck_out i k)]|].
    apply GO. intros j Hj HAj (c1 & Hc1 & E1). exists (LReader k []). split; [cbn; apply Nat.eqb_refl|].
    unfold step, step_reader. rewrite (running_alive j HAj), Hc1, E1, ER. destruct (stream_read_packet dbg rs) as [p ?| | | | |]; try destruct K; discriminate.
  - exists i. split; [lia|right]. exists c. split; [exact Hc|]. apply (stuck_out i k); [exact Hc|]. rewrite ER. exact I.
Qed.

(** ** The write tasks go on *)

Lemma log_grows i j : i <= j -> exists more, log (run j) = log (run i) ++ more.
Proof.
  induction 1 as [|j Hj (m & IH)]; [exists []; now rewrite app_nil_r|].
  assert (K : exists m', log (run (S j)) = log (run j) ++ m').
  { pose proof (fr_step _ _ _ _ _ FR j) as HS.
    assert (SAME : log (run (S j)) = log (run j) -> exists m', log (run (S j)) = log (run j) ++ m').
    { intros ->. exists []. now rewrite app_nil_r. }
    destruct (lab j) as [l|]; [|apply SAME; now rewrite HS].
    destruct l as [r w a|k u|k|now| | | | |]; try (apply SAME; now destruct (handler_frame _ _ _ _ _ HS I) as (_ & _ & -> & _)).
    - unfold step, step_handler in HS. destruct (running (run j)); [|discriminate].
      destruct (hdl (run j)) as [|tx p| |]; try discriminate.
      + destruct (events (run j)); [discriminate|]. injection HS as HS. apply SAME. now rewrite <- HS.
      + destruct p as [| |R op f|to e p].
        * injection HS as HS. apply SAME. now rewrite <- HS.
        * injection HS as HS. apply SAME. now rewrite <- HS.
        * destruct (serve _ op). injection HS as HS. apply SAME. now rewrite <- HS.
        * destruct (nth_error _ to) as [c|]; [|discriminate].
          destruct (c_writer c); try (destruct (_ <? _); [|discriminate]); injection HS as HS; rewrite <- HS; cbn; eauto.
          exists []. now rewrite app_nil_r.
    - unfold step in HS. destruct (running (run j)); [|discriminate]. destruct (hdl (run j)); try discriminate.
      destruct (ctrl_c (run j)); [|discriminate]. injection HS as HS. apply SAME. now rewrite <- HS. }
  destruct K as (m' & K). exists (m ++ m'). now rewrite K, IH, app_assoc.
Qed.

Lemma app_prefix {A} (a b l x : list A) : a ++ b = l ++ x -> length l <= length a -> exists rest, a = l ++ rest.
Proof.
  revert a. induction l as [|y l IH]; intros a H HL; [now exists a|]. destruct a as [|z a]; [cbn in HL; lia|].
  cbn in H. injection H as -> H. destruct (IH a H) as (r & ->); [cbn [length] in HL; lia|]. exists r. reflexivity.
Qed.

Lemma before_close_snoc a b : exists r, before_close (a ++ b) = before_close a ++ r.
Proof. induction a as [|[p|] a (r & IH)]; cbn; [eauto| |exists []; reflexivity]. exists r. now rewrite IH. Qed.

Definition due (k : conn) (i : nat) : list ControlPacket := before_close (map snd (put_to k (log (run i)))).

Lemma due_sent k i j c : i <= j -> nth_error (conns (run j)) k = Some c ->
  match c_writer c with WClosed _ => True | WIdle _ => c_queue c = [] \/ length (due k i) <= length (c_sent c) | WBusy _ _ => False end ->
  exists rest, map snd (c_sent c) = due k i ++ rest.
Proof.
  intros Hj Hk HC. pose proof (queue_invariant auth dbg n (run j) (fr_reachable j) k) as HQ. unfold queue_ok in HQ. rewrite Hk in HQ.
  destruct HQ as (_ & HQ).
  assert (M : map snd (map as_sent (c_sent c)) = map ServerPacket (map snd (c_sent c))).
  { rewrite !map_map. reflexivity. }
  assert (G : exists r, due k j = due k i ++ r).
  { unfold due. destruct (log_grows i j Hj) as (m & ->). rewrite put_to_app, map_app. apply before_close_snoc. }
  destruct G as (r & G). unfold due in G at 1.
  destruct (c_writer c) as [ws|p ws|ws]; [|destruct HC|].
  - rewrite HQ, map_app, M, before_close_sent in G. destruct HC as [HC|HC].
    + rewrite HC, app_nil_r in G. eauto.
    + apply (app_prefix _ _ _ _ G). now rewrite map_length.
  - destruct HQ as (_ & [(HQ & _)|(f & r' & HQ)]); rewrite HQ in G.
    + rewrite M, <- (app_nil_r (map ServerPacket _)), before_close_sent, app_nil_r in G. eauto.
    + rewrite map_app, M, before_close_sent in G. cbn in G. rewrite app_nil_r in G. eauto.
Qed.

Definition writer_free (c : cstate) : Prop := forall p ws, c_writer c <> WBusy p ws.

Lemma running_or j : running (run j) = true \/ running (run j) = false.
Proof. destruct (running (run j)); auto. Qed.

Lemma writer_turn k i c : nth_error (conns (run i)) k = Some c -> 
  (forall j c', nth_error (conns (run j)) k = Some c' -> running (run j) = true -> c_writer c' = c_writer c ->
     (exists more, c_queue c' = c_queue c ++ more) -> step auth dbg (run j) (LWriter k) <> None) ->
  exists j, i <= j /\ (running (run j) = false \/ exists c', nth_error (conns (run j)) k = Some c' /\ c_writer c' = c_writer c
    /\ c_sent c' = c_sent c /\ (exists more, c_queue c' = c_queue c ++ more) /\ step auth dbg (run j) (LWriter k) = Some (run (S j))).
Proof.
  intros Hk HC.
  destruct (running_or i) as [HR|HR]; [|exists i; auto].
  destruct (until (fun j => running (run j) = true /\ exists c', nth_error (conns (run j)) k = Some c' /\ c_writer c' = c_writer c
    /\ c_sent c' = c_sent c /\ (exists more, c_queue c' = c_queue c ++ more)) (fun j => running (run j) = false) (TWriter k) i) as (j & Hj & K).
  - split; [exact HR|]. exists c. repeat split; auto. exists []. now rewrite app_nil_r.
  - intros j Hj (_ & c' & H1 & H2 & H3 & m & H4). pose proof (fr_step _ _ _ _ _ FR j) as HS.
    destruct (runs (TWriter k) (lab j)) eqn:ER; [now left|right].
    destruct (running_or (S j)) as [HR'|HR']; [left; split; [exact HR'|]|now right].
    destruct (lab j) as [l|]; [|rewrite HS; exists c'; eauto 10].
    destruct (conn_frame _ _ _ _ _ _ _ HS H1) as (c2 & Hc2 & _ & _ & _ & _ & F).
    destruct F as (F1 & F2 & m' & F3 & _).
    { intros ->. cbn in ER. now rewrite Nat.eqb_refl in ER. }
    exists c2. split; [exact Hc2|]. split; [congruence|]. split; [congruence|]. exists (m ++ m'). now rewrite F3, H4, app_assoc.
  - intros j Hj (H0 & c' & H1 & H2 & H3 & H4). exists (LWriter k). split; [cbn; apply Nat.eqb_refl|]. now apply (HC j c').
  - exists j. split; [exact Hj|]. destruct K as [((_ & c' & H1 & H2 & H3 & H4) & H5)|K]; [right|now left].
    exists c'. pose proof (fr_step _ _ _ _ _ FR j) as HS. destruct (lab j) as [l|]; [|discriminate].
    rewrite (writer_runs k l H5) in HS. auto.
Qed.

Lemma writer_done k i c : nth_error (conns (run i)) k = Some c ->
  exists j, i <= j /\ (running (run j) = false \/ exists c', nth_error (conns (run j)) k = Some c' /\ writer_free c'
    /\ length (c_sent c) <= length (c_sent c')).
Proof.
  intros Hk. destruct (c_writer c) as [ws|q ws|ws] eqn:EW;
    try (exists i; split; [lia|right]; exists c; split; [exact Hk|]; split; [intros p' ws'; rewrite EW; discriminate|lia]).
  destruct (writer_turn k i c Hk) as (j & Hj & [K|(c' & H1 & H2 & H3 & H4 & H5)]).
  - intros j c' H1 H2 H3 _. unfold step, step_writer. rewrite H2, H1, H3, EW.
    rewrite EW in H3. pose proof (busy_blocked auth dbg n (run j) k c' q ws (fr_reachable j) H1 H3) as B.
    destruct (write_packet q ws); try discriminate; try contradiction. destruct (NB j k c' H1 B).
  - exists j. auto.
  - exists (S j). split; [lia|right]. unfold step, step_writer in H5. destruct (running (run j)); [|discriminate]. rewrite H1, H2, EW in H5.
    destruct (write_packet q ws); try discriminate; injection H5 as H5; rewrite <- H5;
      (eexists; split; [eapply nth_set_conn; eassumption|]; split; [intros ? ?; cbn; discriminate|cbn; rewrite H3; lia]).
Qed.

Lemma sent_comes k i0 d : forall i c, i0 <= i -> nth_error (conns (run i)) k = Some c ->
  length (due k i0) <= d + length (c_sent c) ->
  exists j, i <= j /\ (running (run j) = false \/ exists c', nth_error (conns (run j)) k = Some c' /\ writer_free c'
    /\ exists rest, map snd (c_sent c') = due k i0 ++ rest).
Proof.
  induction d as [|d IH]; intros i c Hi Hk HL;
    (destruct (writer_done k i c Hk) as (j & Hj & [K|(c1 & H1 & H2 & H3)]); [exists j; auto|]).
  - exists j. split; [exact Hj|right]. exists c1. split; [exact H1|]. split; [exact H2|].
    apply (due_sent k i0 j c1); [lia|exact H1|]. pose proof H2 as H2'. unfold writer_free in H2'. destruct (c_writer c1) as [ws|p ws|ws] eqn:EW; [right; cbn in HL; lia|now apply (H2' p ws)|exact I].
  - destruct (c_writer c1) as [ws|p ws|ws] eqn:EW; [|now destruct (H2 p ws)|].
    2:{ exists j. split; [exact Hj|right]. exists c1. split; [exact H1|]. split; [exact H2|].
        apply (due_sent k i0 j c1); [lia|exact H1|]. now rewrite EW. }
    destruct (c_queue c1) as [|[f e] q] eqn:EQ.
    { exists j. split; [exact Hj|right]. exists c1. split; [exact H1|]. split; [exact H2|].
      apply (due_sent k i0 j c1); [lia|exact H1|]. rewrite EW. now left. }
    destruct (writer_turn k j c1 H1) as (j' & Hj' & [K|(c2 & K1 & K2 & K3 & (m & K4) & K5)]).
    + intros j2 c' P1 P2 P3 (m & P4). unfold step, step_writer. rewrite P2, P1, P3, EW, P4, EQ. destruct e; discriminate.
    + exists j'. split; [lia|now left].
    + unfold step, step_writer in K5. destruct (running (run j')); [|discriminate]. rewrite K1, K2, EW, K4, EQ in K5. cbn [app] in K5.
      destruct e as [p|]; injection K5 as K5.
      * destruct (IH (S j') (set_writer (WBusy p ws) (set_queue (q ++ m) (set_sent (c_sent c2 ++ [(f, p)]) c2)))) as (j2 & Hj2 & K).
        { lia. } { rewrite <- K5. eapply nth_set_conn. eassumption. } { cbn. rewrite K3, app_length. cbn. lia. }
        exists j2. split; [lia|exact K].
      * exists (S j'). split; [lia|right]. assert (Hn := K5). apply (f_equal (fun s => nth_error (conns s) k)) in Hn.
        erewrite nth_set_conn in Hn by exact K1. symmetry in Hn. eexists. split; [exact Hn|].
        split; [intros ? ?; cbn; discriminate|]. eapply due_sent; [|exact Hn|exact I]. lia.
Qed.
End Fair.
