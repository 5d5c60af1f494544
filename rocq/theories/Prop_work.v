(** Property C128: how many steps it takes, whatever the schedule. *)
From Verif Require Import Base Base_facts Packets HashMap Subscriptions Messaging Handler Decoder ReadStream Conn Encoder
  WriteStream Spec_subs Spec_broker Spec_ref Handler_facts System System_facts System_hist System_conn System_queue
  System_progress System_exit System_rest.
Open Scope nat_scope.

(** ** Counting steps *)

Definition number (g : label -> bool) (ls : list label) : nat := length (filter g ls).

Definition by_reader (k : conn) (l : label) : bool := match l with LReader j _ => j =? k | _ => false end.
Definition by_writer (k : conn) (l : label) : bool := match l with LWriter j => j =? k | _ => false end.
Definition by_the_handler (l : label) : bool := match l with LHandler _ => true | _ => false end.
Definition by_listener (l : label) : bool := match l with LAccept _ _ _ => true | _ => false end.
Definition an_end (l : label) : bool :=
  match l with LStopHandler | LStopListener | LStopService | LCtrlC | LMain => true | _ => false end.

Lemma number_snoc g ls l : number g (ls ++ [l]) = number g ls + if g l then 1 else 0.
Proof. unfold number. rewrite filter_app, app_length. cbn [filter]. now destruct (g l). Qed.

(** ** What the steps are spent on *)

(** A read task: two steps for each packet (reading it, handing it over) and one for its end; only one in all if the
    first packet is not a CONNECT. *)
Definition read_steps (c : cstate) : nat :=
  match c_read c with
  | [] => match c_reader c with RDone => 1 | _ => 0 end
  | Connect _ :: _ =>
    match c_reader c with
    | RPush _ _ _ => 2 * length (c_read c) - 1
    | RDone => 2 * length (c_read c) + 1
    | _ => 2 * length (c_read c)
    end
  | _ => 1
  end.

(** A write task: two for each packet (taking it, writing it) and one for its end. *)
Definition write_steps (c : cstate) : nat :=
  match c_writer c with
  | WIdle _ => 2 * length (c_sent c)
  | WBusy _ _ => 2 * length (c_sent c) - 1
  | WClosed _ => 2 * length (c_sent c) + 1
  end.

(** The questions to the messaging service that an event takes. *)
Definition questions (auth : bytes -> bytes -> bool) (e : ClientEvent) : nat :=
  match e with
  | Connected c _ _ => match let_in auth c with Some true => 2 | _ => 0 end
  | ClientPacket _ (Subscribe _ fs) _ => length fs
  | ClientPacket _ (Publish _) _ | ClientPacket _ (Unsubscribe _ _) _ | ClientPacket _ PingReq _ | ClientPacket _ Disconnect _ => 1
  | ClientPacket _ _ _ | Disconnected _ => 0
  | ConnectionLost _ => 1
  end.

(** The handler: for each event one step to take it, one for each question, one for each packet it sends, one to finish.
    [to_do] is what it still has to do about the present event, other than sending. *)
Fixpoint calls_left (p : prog) (m : MessagingService) : nat :=
  match p with
  | Done | Panic => 0
  | Call op k => let (m', r) := serve m op in 1 + calls_left (k r) m'
  | Send _ _ k => calls_left k m
  end.

Definition to_do (s : sys) : nat := match hdl s with HBusy _ p => 1 + calls_left p (svc s) | _ => 0 end.

Definition for_events (auth : bytes -> bytes -> bool) (h : list (Z * ClientEvent)) : nat :=
  list_sum (map (fun te => 2 + questions auth (snd te)) h).

(** [main]: Ctrl-C, then one step for each thing it waits for. *)
Definition main_steps (s : sys) : nat :=
  match main s with
  | MServing => 0 | MJoinListeners => 1 | MJoinService => 2 | MJoinHandler => 3 | MExited => 4
  | MPanicked => if ctrl_c s then 4 else 1
  end.

(** [main], and handler, listeners and service ending. *)
Definition closing_steps (n : nat) (s : sys) : nat :=
  (match hdl s with HStopped => 1 | _ => 0 end) + (n - listeners s) + (if service_running s then 0 else 1) + main_steps s.

(** ** Programs *)

Lemma calls_left_sends p m : only_sends p -> calls_left p m = 0.
Proof. induction p as [| |R op k IH|to e p IH]; cbn; auto; contradiction. Qed.

Lemma calls_left_subscribe cid fs : forall codes k m, (forall c m, calls_left (k c) m = 0) ->
  calls_left (subscribe_all cid fs codes k) m = length fs.
Proof.
  induction fs as [|f fs IH]; intros codes k m H; cbn [subscribe_all calls_left length]; [apply H|].
  destruct (serve m (SubscribeOp cid f)) as [m' r]. now rewrite IH.
Qed.

Lemma calls_left_event auth now e m : calls_left (on_event auth now e) m = questions auth e.
Proof.
  destruct e as [c a k|cid p k|cid|cid]; cbn [on_event questions].
  - unfold on_connect, let_in. destruct (user_name c) as [u|]; [|reflexivity]. destruct (password c) as [p|]; [|reflexivity].
    destruct (auth u p); reflexivity.
  - destruct p; cbn [on_packet]; try reflexivity.
    + unfold on_publish. cbn [calls_left]. destruct (serve m _) as [m' r]. rewrite calls_left_sends; [reflexivity|]. apply send_to_all_sends.
    + apply calls_left_subscribe. reflexivity.
    + unfold on_ping_req. cbn [calls_left]. destruct (serve m _) as [m' []]; reflexivity.
  - reflexivity.
  - reflexivity.
Qed.

(** ** Connections *)

Definition reader_well (c : cstate) : Prop :=
  match c_reader c with
  | RFirst _ => c_read c = []
  | RPush _ _ _ | RLoop _ _ => exists p r, c_read c = Connect p :: r
  | RDone => True
  end.

Definition counted (ls : list label) (k : conn) (c : cstate) : Prop :=
  reader_well c /\ number (by_reader k) ls = read_steps c /\ number (by_writer k) ls = write_steps c
  /\ (match c_writer c with WBusy _ _ => c_sent c <> [] | _ => True end).

(** A step of another task, or of this one. *)
Lemma counted_same ls l k c c' : counted ls k c -> by_reader k l = false -> by_writer k l = false ->
  c_reader c' = c_reader c -> c_read c' = c_read c -> c_writer c' = c_writer c -> c_sent c' = c_sent c -> counted (ls ++ [l]) k c'.
Proof.
  unfold counted, reader_well, read_steps, write_steps. intros (A & B & C & D) H1 H2 -> -> -> ->. rewrite !number_snoc, H1, H2, !Nat.add_0_r. auto.
Qed.

Lemma counted_reader ls u k c c' : counted ls k c -> reader_well c' -> read_steps c' = S (read_steps c) ->
  c_writer c' = c_writer c -> c_sent c' = c_sent c -> counted (ls ++ [LReader k u]) k c'.
Proof.
  unfold counted, write_steps. intros (A & B & C & D) W R -> ->. rewrite !number_snoc. cbn [by_reader by_writer]. rewrite Nat.eqb_refl.
  repeat split; auto; lia.
Qed.

Lemma counted_writer ls k c c' : counted ls k c -> c_reader c' = c_reader c -> c_read c' = c_read c ->
  write_steps c' = S (write_steps c) -> (match c_writer c' with WBusy _ _ => c_sent c' <> [] | _ => True end) ->
  counted (ls ++ [LWriter k]) k c'.
Proof.
  unfold counted, reader_well, read_steps. intros (A & B & C & D) -> -> W Q. rewrite !number_snoc. cbn [by_reader by_writer].
  rewrite Nat.eqb_refl. repeat split; auto; lia.
Qed.

Definition all_counted (ls : list label) (s : sys) : Prop :=
  (forall k c, nth_error (conns s) k = Some c -> counted ls k c)
  /\ (forall k, nth_error (conns s) k = None -> number (by_reader k) ls = 0 /\ number (by_writer k) ls = 0)
  /\ number by_listener ls = length (conns s).

Lemma nth_update_same {A} (l : list A) k x y : nth_error l k = Some x -> nth_error (update k y l) k = Some y.
Proof. intros H. now rewrite nth_update, Nat.eqb_refl, H. Qed.

Lemma nth_update_other {A} (l : list A) j k x : j <> k -> nth_error (update k x l) j = nth_error l j.
Proof. intros H. rewrite nth_update. apply Nat.eqb_neq in H. now rewrite H. Qed.

Lemma all_set ls l s k c c' : all_counted ls s -> nth_error (conns s) k = Some c -> by_listener l = false ->
  (forall j, j <> k -> by_reader j l = false /\ by_writer j l = false) -> counted (ls ++ [l]) k c' ->
  all_counted (ls ++ [l]) (set_conn k c' s).
Proof.
  intros (A & B & C) Hk HL HO HC. cbn [conns set_conn set_conns]. split; [|split].
  - intros j cj Hj. cbn [conns set_conn set_conns] in Hj. destruct (Nat.eq_dec j k) as [->|NE].
    + rewrite (nth_update_same _ _ _ c' Hk) in Hj. now injection Hj as <-.
    + rewrite nth_update_other in Hj by auto. destruct (HO j NE) as (O1 & O2). now apply (counted_same ls l j cj cj (A j cj Hj)).
  - intros j Hj. cbn [conns set_conn set_conns] in Hj. assert (NE : j <> k).
    { intros ->. rewrite (nth_update_same _ _ _ c' Hk) in Hj. discriminate. }
    rewrite nth_update_other in Hj by auto. destruct (HO j NE) as (O1 & O2). rewrite !number_snoc, O1, O2, !Nat.add_0_r. auto.
  - rewrite number_snoc, HL, Nat.add_0_r, C. cbn [conns set_conn set_conns]. now rewrite update_length.
Qed.

Lemma all_same ls l s s' : all_counted ls s -> conns s' = conns s -> by_listener l = false ->
  (forall j, by_reader j l = false /\ by_writer j l = false) -> all_counted (ls ++ [l]) s'.
Proof.
  intros (A & B & C) E HL HO. unfold all_counted. rewrite E. split; [|split].
  - intros k c Hk. destruct (HO k) as (O1 & O2). now apply (counted_same ls l k c c (A k c Hk)).
  - intros k Hk. destruct (HO k) as (O1 & O2). rewrite !number_snoc, O1, O2, !Nat.add_0_r. auto.
  - now rewrite number_snoc, HL, Nat.add_0_r.
Qed.

Lemma all_accept ls s r w a : all_counted ls s -> all_counted (ls ++ [LAccept r w a]) (set_conns (conns s ++ [new_conn r w a]) s).
Proof.
  intros (A & B & C). unfold all_counted. cbn [conns set_conns]. split; [|split].
  - intros k c Hk. rewrite nth_error_snoc in Hk. destruct (Nat.eqb_spec k (length (conns s))) as [->|NE].
    + injection Hk as <-. destruct (B (length (conns s))) as (B1 & B2); [apply nth_error_None; lia|].
      unfold counted. rewrite !number_snoc. cbn [by_reader by_writer]. rewrite B1, B2. repeat split.
    + now apply (counted_same ls _ k c c (A k c Hk)).
  - intros k Hk. rewrite nth_error_snoc in Hk. destruct (Nat.eqb k (length (conns s))); [discriminate|].
    rewrite !number_snoc. cbn [by_reader by_writer]. rewrite !Nat.add_0_r. auto.
  - rewrite number_snoc, app_length. cbn [by_listener length]. now rewrite C.
Qed.

Lemma all_reader dbg ls s k u s' : all_counted ls s -> step_reader dbg s k u = Some s' -> all_counted (ls ++ [LReader k u]) s'.
Proof.
  intros H E. unfold step_reader in E. destruct (nth_error (conns s) k) as [c|] eqn:Hk; [|discriminate].
  pose proof (proj1 H k c Hk) as HC.
  assert (HO : forall j, j <> k -> by_reader j (LReader k u) = false /\ by_writer j (LReader k u) = false).
  { intros j NE. cbn [by_reader by_writer]. split; [now apply Nat.eqb_neq; auto|reflexivity]. }
  assert (HSet : forall c', counted (ls ++ [LReader k u]) k c' -> all_counted (ls ++ [LReader k u]) (set_conn k c' s)).
  { intros c' HC'. now apply (all_set ls _ s k c c'). }
  assert (HStep : forall c', reader_well c' -> read_steps c' = Datatypes.S (read_steps c) -> c_writer c' = c_writer c -> c_sent c' = c_sent c ->
            all_counted (ls ++ [LReader k u]) (set_conn k c' s)).
  { intros c' W R Q1 Q2. apply HSet. now apply (counted_reader ls u k c c'). }
  destruct HC as (W & _). unfold reader_well in W, HStep. unfold read_steps in HStep.
  destruct (c_reader c) as [rs|e cid rs|cid rs|] eqn:ER; [| | |discriminate].
  - destruct (stream_read_packet dbg rs) as [p rs'|x| | | |]; try discriminate.
    + destruct p; injection E as <-; apply HStep; try reflexivity; cbn [c_reader c_read set_reader set_read]; rewrite W; cbn [app length]; eauto.
    + injection E as <-. apply HStep; try reflexivity; cbn [c_reader c_read set_reader set_read]; auto. now rewrite W.
    + injection E as <-. apply HStep; try reflexivity; cbn [c_reader c_read set_reader set_read]; auto. now rewrite W.
  - destruct W as (p & r & EQ). rewrite EQ in HStep. cbn [length] in HStep.
    assert (E' : exists es, s' = set_events es (set_conn k (set_reader (RLoop cid rs) c) s) \/ s' = set_conn k (set_reader (RLoop cid rs) c) s).
    { destruct (handler_alive (hdl s)); [destruct (length (events s) <? channel_size); [|discriminate]|]; injection E as <-; [eauto|exists []; auto]. }
    assert (HA : all_counted (ls ++ [LReader k u]) (set_conn k (set_reader (RLoop cid rs) c) s)).
    { apply HStep; try reflexivity; cbn [c_reader c_read set_reader set_read]; rewrite EQ; cbn [length]; eauto; lia. }
    destruct E' as (es & [-> | ->]); exact HA.
  - destruct W as (p & r & EQ). rewrite EQ in HStep. cbn [length] in HStep.
    destruct (stream_read_packet dbg rs) as [q rs'|x| | | |]; try discriminate; injection E as <-; apply HStep; try reflexivity;
      cbn [c_reader c_read set_reader set_read]; rewrite ?EQ; cbn [app length]; rewrite ?app_length; cbn [length]; eauto; lia.
Qed.

Lemma all_writer auth dbg n ls s k s' : reachable auth dbg n s -> all_counted ls s -> step_writer s k = Some s' ->
  all_counted (ls ++ [LWriter k]) s'.
Proof.
  intros HR H E. unfold step_writer in E. destruct (nth_error (conns s) k) as [c|] eqn:Hk; [|discriminate].
  pose proof (proj1 H k c Hk) as HC.
  assert (HO : forall j, j <> k -> by_reader j (LWriter k) = false /\ by_writer j (LWriter k) = false).
  { intros j NE. cbn [by_reader by_writer]. split; [reflexivity|now apply Nat.eqb_neq; auto]. }
  assert (HStep : forall c', c_reader c' = c_reader c -> c_read c' = c_read c -> write_steps c' = Datatypes.S (write_steps c) ->
            (match c_writer c' with WBusy _ _ => c_sent c' <> [] | _ => True end) -> all_counted (ls ++ [LWriter k]) (set_conn k c' s)).
  { intros c' W R Q1 Q2. apply (all_set ls _ s k c c'); auto. now apply (counted_writer ls k c c'). }
  destruct HC as (_ & _ & _ & W). unfold write_steps in HStep.
  destruct (c_writer c) as [ws|p ws|ws] eqn:EW; [| |discriminate].
  - destruct (c_queue c) as [|[from [p|]] q].
    + destruct (has_sender s k c); [discriminate|]. injection E as <-. apply HStep; cbn [c_reader c_read c_writer c_sent set_writer]; auto; lia.
    + injection E as <-. apply HStep; cbn [c_reader c_read c_writer c_sent set_writer set_queue set_sent]; auto.
      * rewrite app_length. cbn [length]. lia.
      * intros X. apply app_eq_nil in X. now destruct X.
    + injection E as <-. apply HStep; cbn [c_reader c_read c_writer c_sent set_writer set_queue]; auto; lia.
  - pose proof (busy_blocked auth dbg n s k c p ws HR Hk EW) as HB.
    assert (HP : length (c_sent c) > 0) by (destruct (c_sent c); [congruence|cbn [length]; lia]).
    destruct (write_packet p ws); try discriminate; try contradiction; injection E as <-;
      apply HStep; cbn [c_reader c_read c_writer c_sent set_writer]; auto; lia.
Qed.

Lemma all_send ls now s to c q : all_counted ls s -> nth_error (conns s) to = Some c ->
  all_counted (ls ++ [LHandler now]) (set_conn to (set_queue q c) s).
Proof. intros H Hk. apply (all_set ls _ s to c); auto. now apply (counted_same ls _ to c _ (proj1 H to c Hk)). Qed.

(** ** The handler *)

(** After a packet is sent nothing is asked. *)
Fixpoint asks_first (p : prog) : Prop :=
  match p with Done | Panic => True | Call _ k => forall r, asks_first (k r) | Send _ _ k => only_sends k end.

Lemma sends_first p : only_sends p -> asks_first p.
Proof. destruct p; cbn [only_sends asks_first]; auto; contradiction. Qed.

Lemma cts_first p : calls_then_sends p -> asks_first p.
Proof. induction 1 as [p H| |R op k _ IH]; cbn [asks_first]; auto. now apply sends_first. Qed.

Definition handler_counted auth (ls : list label) (s : sys) : Prop :=
  number by_the_handler ls + to_do s = for_events auth (handled s) + length (log s)
  /\ match hdl s with HBusy _ p => asks_first p | _ => True end.

Lemma handler_same auth ls l s s' : handler_counted auth ls s -> by_the_handler l = false -> hdl s' = hdl s -> svc s' = svc s ->
  handled s' = handled s -> log s' = log s -> handler_counted auth (ls ++ [l]) s'.
Proof. unfold handler_counted, to_do. intros (A & B) HL -> -> -> ->. rewrite number_snoc, HL, Nat.add_0_r. auto. Qed.

Lemma handler_step auth ls s now s' : handler_counted auth ls s -> step_handler auth s now = Some s' ->
  handler_counted auth (ls ++ [LHandler now]) s'.
Proof.
  intros (A & B) E. unfold step_handler in E. unfold handler_counted. rewrite number_snoc. cbn [by_the_handler]. unfold to_do in *.
  destruct (hdl s) as [|tx p| |] eqn:EH; try discriminate.
  - destruct (events s) as [|e es]; [discriminate|]. injection E as <-. cbn [hdl svc handled log set_hdl set_handled set_events].
    rewrite calls_left_event. split; [|apply cts_first, on_event_shape]. unfold for_events in *. rewrite map_app, list_sum_app. cbn [map list_sum fold_right snd]. lia.
  - destruct p as [| |R op f|to e p].
    + injection E as <-. cbn [hdl svc handled log set_hdl]. cbn [calls_left] in A. split; [lia|exact I].
    + injection E as <-. unfold panic_handler. cbn [hdl svc handled log set_hdl set_events]. cbn [calls_left] in A. split; [lia|exact I].
    + cbn [calls_left] in A. destruct (serve (svc s) op) as [m r]. injection E as <-. cbn [hdl svc handled log set_hdl set_svc].
      split; [lia|apply B].
    + cbn [asks_first] in B. cbn [calls_left] in A. rewrite calls_left_sends in A by exact B.
      destruct (nth_error (conns s) to) as [c|]; [|discriminate].
      assert (X : s' = panic_handler s \/ s' = set_hdl (HBusy tx p) (set_log (log s ++ [(tx, to, e)])
                       (set_conn to (set_queue (c_queue c ++ [(tx, e)]) c) s))).
      { destruct (c_writer c); try destruct (length (c_queue c) <? channel_size); try discriminate; injection E as <-; auto. }
      destruct X as [-> | ->].
      * unfold panic_handler. cbn [hdl svc handled log set_hdl set_events]. split; [lia|exact I].
      * cbn [hdl svc handled log set_hdl set_log set_conn set_conns]. rewrite calls_left_sends by exact B. rewrite app_length. cbn [length].
        split; [lia|now apply sends_first].
Qed.

(** ** Ends *)

Definition is_stop_handler (l : label) : bool := match l with LStopHandler => true | _ => false end.
Definition is_stop_listener (l : label) : bool := match l with LStopListener => true | _ => false end.
Definition is_stop_service (l : label) : bool := match l with LStopService => true | _ => false end.
Definition by_main (l : label) : bool := match l with LCtrlC | LMain => true | _ => false end.

Definition ends_counted (n : nat) (ls : list label) (s : sys) : Prop :=
  number is_stop_handler ls = (match hdl s with HStopped => 1 | _ => 0 end)
  /\ number is_stop_listener ls + listeners s = n
  /\ number is_stop_service ls = (if service_running s then 0 else 1)
  /\ number by_main ls = main_steps s
  /\ match main s with MServing => ctrl_c s = false | MPanicked => True | _ => ctrl_c s = true end.

Lemma ends_same n ls l s s' : ends_counted n ls s -> an_end l = false -> main s' = main s -> ctrl_c s' = ctrl_c s ->
  listeners s' = listeners s -> service_running s' = service_running s ->
  (match hdl s' with HStopped => 1 | _ => 0 end) = (match hdl s with HStopped => 1 | _ => 0 end) -> ends_counted n (ls ++ [l]) s'.
Proof.
  unfold ends_counted, main_steps. intros (A & B & C & D & F) HL -> -> -> -> ->. rewrite !number_snoc.
  destruct l; try discriminate; cbn [is_stop_handler is_stop_listener is_stop_service by_main]; rewrite !Nat.add_0_r; auto.
Qed.

Lemma ends_step auth dbg n ls s l s' : ends_counted n ls s -> an_end l = true -> step auth dbg s l = Some s' ->
  ends_counted n (ls ++ [l]) s'.
Proof.
  unfold ends_counted, main_steps. intros (A & B & C & D & F) HL E. rewrite !number_snoc. unfold step in E.
  destruct (running s); [|discriminate]. destruct l; try discriminate; cbn [is_stop_handler is_stop_listener is_stop_service by_main].
  - destruct (hdl s) eqn:EH; try discriminate. destruct (ctrl_c s) eqn:EC; [|discriminate]. injection E as <-.
    cbn [hdl listeners service_running main ctrl_c set_events set_hdl]. rewrite EC. repeat split; try lia; auto.
  - destruct (listeners s) as [|m] eqn:EL; [discriminate|]. destruct (ctrl_c s) eqn:EC; [|discriminate]. injection E as <-.
    cbn [hdl listeners service_running main ctrl_c set_listeners]. rewrite EC. repeat split; try lia; auto.
  - destruct (service_running s) eqn:ES; [|discriminate]. destruct (handler_alive (hdl s)); [discriminate|]. injection E as <-.
    cbn [hdl listeners service_running main ctrl_c set_service_running]. repeat split; try lia; auto.
  - destruct (main s) eqn:EM; try discriminate. destruct (handler_alive (hdl s) || negb (Nat.eqb (listeners s) 0)); injection E as <-;
      cbn [hdl listeners service_running main ctrl_c set_main set_ctrl_c]; rewrite ?F; repeat split; try lia; auto.
  - unfold step_main in E. destruct (main s) eqn:EM; try discriminate.
    + destruct (Nat.eqb (listeners s) 0); [|discriminate]. injection E as <-. cbn [hdl listeners service_running main ctrl_c set_main]. repeat split; try lia; auto.
    + destruct (service_running s) eqn:ES; [discriminate|]. injection E as <-. cbn [hdl listeners service_running main ctrl_c set_main]. rewrite ES. repeat split; try lia; auto.
    + destruct (hdl s) eqn:EH; try discriminate; injection E as <-; cbn [hdl listeners service_running main ctrl_c set_main]; rewrite EH, ?F; repeat split; try lia; auto.
Qed.

(** ** What each step leaves alone *)

Lemma end_frame auth dbg s l s' : an_end l = true -> step auth dbg s l = Some s' -> conns s' = conns s.
Proof.
  intros HE E. unfold step in E. destruct (running s); [|discriminate]. destruct l; try discriminate.
  - destruct (hdl s); try discriminate. destruct (ctrl_c s); [|discriminate]. now injection E as <-.
  - destruct (listeners s); [discriminate|]. destruct (ctrl_c s); [|discriminate]. now injection E as <-.
  - destruct (service_running s && negb (handler_alive (hdl s))); [|discriminate]. now injection E as <-.
  - destruct (main s); try discriminate. destruct (handler_alive (hdl s) || negb (Nat.eqb (listeners s) 0)); now injection E as <-.
  - unfold step_main in E. destruct (main s); try discriminate.
    + destruct (Nat.eqb (listeners s) 0); [|discriminate]. now injection E as <-.
    + destruct (service_running s); [discriminate|]. now injection E as <-.
    + destruct (hdl s); try discriminate; now injection E as <-.
Qed.

Lemma end_handler auth dbg s l s' : an_end l = true -> step auth dbg s l = Some s' ->
  svc s' = svc s /\ handled s' = handled s /\ log s' = log s /\ (hdl s' = hdl s \/ (hdl s = HIdle /\ hdl s' = HStopped)).
Proof.
  intros HE E. unfold step in E. destruct (running s); [|discriminate]. destruct l; try discriminate.
  - destruct (hdl s) eqn:EH; try discriminate. destruct (ctrl_c s); [|discriminate]. injection E as <-. repeat split. right. split; reflexivity.
  - destruct (listeners s); [discriminate|]. destruct (ctrl_c s); [|discriminate]. injection E as <-. repeat split. now left.
  - destruct (service_running s && negb (handler_alive (hdl s))); [|discriminate]. injection E as <-. repeat split. now left.
  - destruct (main s); try discriminate. destruct (handler_alive (hdl s) || negb (Nat.eqb (listeners s) 0)); injection E as <-; repeat split; now left.
  - unfold step_main in E. destruct (main s); try discriminate.
    + destruct (Nat.eqb (listeners s) 0); [|discriminate]. injection E as <-. repeat split; now left.
    + destruct (service_running s); [discriminate|]. injection E as <-. repeat split; now left.
    + destruct (hdl s) eqn:EH; try discriminate; injection E as <-; repeat split; now left.
Qed.

Lemma reader_frame dbg s k u s' : step_reader dbg s k u = Some s' -> exists es c, s' = set_events es (set_conn k c s).
Proof.
  assert (HS : forall c, exists es c', set_conn k c s = set_events es (set_conn k c' s)) by (intros c; exists (events s), c; now destruct s).
  intros E. unfold step_reader in E. destruct (nth_error (conns s) k) as [c|]; [|discriminate].
  destruct (c_reader c) as [rs|e cid rs|cid rs|]; [| | |discriminate].
  - destruct (stream_read_packet dbg rs) as [p rs'|x| | | |]; try discriminate; [destruct p|..]; injection E as <-; apply HS.
  - destruct (handler_alive (hdl s)); [destruct (length (events s) <? channel_size); [|discriminate]|]; injection E as <-; [eauto|apply HS].
  - destruct (stream_read_packet dbg rs) as [p rs'|x| | | |]; try discriminate; injection E as <-; apply HS.
Qed.

Lemma writer_frame s k s' : step_writer s k = Some s' -> exists c, s' = set_conn k c s.
Proof.
  intros E. unfold step_writer in E. destruct (nth_error (conns s) k) as [c|]; [|discriminate].
  destruct (c_writer c) as [ws|p ws|ws]; [| |discriminate].
  - destruct (c_queue c) as [|[from [p|]] q]; [destruct (has_sender s k c); [discriminate|]|..]; injection E as <-; eauto.
  - destruct (write_packet p ws); try discriminate; injection E as <-; eauto.
Qed.

Lemma handler_frame auth s now s' : step_handler auth s now = Some s' ->
  main s' = main s /\ ctrl_c s' = ctrl_c s /\ listeners s' = listeners s /\ service_running s' = service_running s
  /\ hdl s <> HStopped /\ hdl s' <> HStopped.
Proof.
  intros E. unfold step_handler in E. destruct (hdl s) as [|tx p| |]; try discriminate.
  - destruct (events s); [discriminate|]. injection E as <-. repeat split; discriminate.
  - destruct p as [| |R op f|to e p].
    + injection E as <-. repeat split; discriminate.
    + injection E as <-. repeat split; discriminate.
    + destruct (serve (svc s) op). injection E as <-. repeat split; discriminate.
    + destruct (nth_error (conns s) to) as [c|]; [|discriminate].
      destruct (c_writer c); try destruct (length (c_queue c) <? channel_size); try discriminate; injection E as <-; repeat split; discriminate.
Qed.

Lemma all_handler auth ls s now s' : all_counted ls s -> step_handler auth s now = Some s' -> all_counted (ls ++ [LHandler now]) s'.
Proof.
  intros A E. assert (HS : conns s' = conns s -> all_counted (ls ++ [LHandler now]) s') by (intros X; now apply (all_same ls _ s)).
  unfold step_handler in E. destruct (hdl s) as [|tx p| |]; try discriminate.
  - destruct (events s); [discriminate|]. injection E as <-. now apply HS.
  - destruct p as [| |R op f|to e p].
    + injection E as <-. now apply HS.
    + injection E as <-. now apply HS.
    + destruct (serve (svc s) op). injection E as <-. now apply HS.
    + destruct (nth_error (conns s) to) as [c|] eqn:Hk; [|discriminate].
      pose proof (all_send ls now s to c (c_queue c ++ [(tx, e)]) A Hk) as AS.
      destruct (c_writer c); try destruct (length (c_queue c) <? channel_size); try discriminate; injection E as <-;
        first [exact AS | now apply HS].
Qed.

(** ** Together *)

Lemma all_steps_counted auth dbg n ls : forall s, steps auth dbg (sys_init n) ls = Some s ->
  all_counted ls s /\ handler_counted auth ls s /\ ends_counted n ls s.
Proof.
  induction ls as [|l ls IH] using rev_ind; intros s H.
  - cbn [steps] in H. injection H as <-. repeat split; try (destruct k; discriminate); try exact I.
  - rewrite steps_app in H. destruct (steps auth dbg (sys_init n) ls) as [s0|] eqn:E0; [|discriminate].
    destruct (IH s0 eq_refl) as (A & B & C). cbn [steps] in H. destruct (step auth dbg s0 l) as [s1|] eqn:E; [|discriminate]. injection H as <-.
    assert (HR : reachable auth dbg n s0) by (exists ls; exact E0).
    destruct (an_end l) eqn:HE.
    + pose proof (ends_step auth dbg n ls s0 l s1 C HE E) as C1. split; [|split; [|exact C1]].
      * apply (all_same ls l s0 s1 A); [|destruct l; try discriminate; reflexivity|intros j; destruct l; try discriminate; split; reflexivity].
        now apply (end_frame auth dbg s0 l s1).
      * destruct (end_handler auth dbg s0 l s1 HE E) as (F1 & F2 & F3 & F4). unfold handler_counted, to_do in *.
        rewrite number_snoc, F2, F3. replace (by_the_handler l) with false by (destruct l; try discriminate; reflexivity). rewrite F1, Nat.add_0_r.
        destruct F4 as [-> | (X & ->)]; [exact B|]. rewrite X in B. exact B.
    + destruct l as [r w a|k u|k|now| | | | |]; try discriminate; unfold step in E; destruct (running s0); try discriminate.
      * destruct (listeners s0) eqn:EL; [discriminate|]. injection E as <-. split; [now apply all_accept|]. split.
        -- now apply (handler_same auth ls _ s0).
        -- now apply (ends_same n ls _ s0).
      * pose proof (all_reader dbg ls s0 k u s1 A E) as A1. destruct (reader_frame dbg s0 k u s1 E) as (es & c & ->). split; [exact A1|]. split.
        -- now apply (handler_same auth ls _ s0).
        -- now apply (ends_same n ls _ s0).
      * pose proof (all_writer auth dbg n ls s0 k s1 HR A E) as A1. destruct (writer_frame s0 k s1 E) as (c & ->). split; [exact A1|]. split.
        -- now apply (handler_same auth ls _ s0).
        -- now apply (ends_same n ls _ s0).
      * split; [|split; [now apply (handler_step auth ls s0)|]].
        -- now apply (all_handler auth ls s0 now).
        -- destruct (handler_frame auth s0 now s1 E) as (F1 & F2 & F3 & F4 & F5 & F6). apply (ends_same n ls _ s0); auto.
           destruct (hdl s0); try congruence; destruct (hdl s1); congruence.
Qed.

(** ** Sums *)

Definition by_connection (l : label) : bool := match l with LReader _ _ | LWriter _ => true | _ => false end.

Lemma number_total ls : length ls = number by_listener ls + number by_connection ls + number by_the_handler ls + number an_end ls.
Proof.
  unfold number. induction ls as [|l ls IH]; [reflexivity|]. cbn [filter].
  destruct l; cbn [by_listener by_connection by_the_handler an_end length]; lia.
Qed.

Lemma number_ends ls : number an_end ls
  = number is_stop_handler ls + number is_stop_listener ls + number is_stop_service ls + number by_main ls.
Proof.
  unfold number. induction ls as [|l ls IH]; [reflexivity|]. cbn [filter].
  destruct l; cbn [is_stop_handler is_stop_listener is_stop_service by_main an_end length]; lia.
Qed.

Lemma sum_bump (f g : nat -> nat) j : forall N a, a <= j < a + N -> (forall k, g k = f k + if j =? k then 1 else 0) ->
  list_sum (map g (seq a N)) = 1 + list_sum (map f (seq a N)).
Proof.
  induction N as [|N IH]; intros a H HG; [lia|]. cbn [seq map list_sum fold_right]. fold (list_sum (map g (seq (Datatypes.S a) N))).
  fold (list_sum (map f (seq (Datatypes.S a) N))). rewrite (HG a). destruct (Nat.eqb_spec j a) as [->|NE].
  - assert (X : map g (seq (Datatypes.S a) N) = map f (seq (Datatypes.S a) N)); [|rewrite X; lia].
    apply map_ext_in. intros k Hk. apply in_seq in Hk. rewrite HG. destruct (Nat.eqb_spec a k); lia.
  - rewrite IH by (auto; lia). lia.
Qed.

Lemma number_cons g l ls : number g (l :: ls) = number g ls + if g l then 1 else 0.
Proof. unfold number. cbn [filter]. destruct (g l); cbn [length]; lia. Qed.

Lemma number_connections N ls : (forall k, N <= k -> number (by_reader k) ls = 0 /\ number (by_writer k) ls = 0) ->
  number by_connection ls = list_sum (map (fun k => number (by_reader k) ls + number (by_writer k) ls) (seq 0 N)).
Proof.
  induction ls as [|l ls IH]; intros H.
  - clear H. change (0 = list_sum (map (fun _ => 0) (seq 0 N))). induction (seq 0 N) as [|x xs IN]; [reflexivity|exact IN].
  - assert (H' : forall k, N <= k -> number (by_reader k) ls = 0 /\ number (by_writer k) ls = 0).
    { intros k Hk. specialize (H k Hk). rewrite !number_cons in H. lia. }
    rewrite number_cons, (IH H').
    assert (HB : forall j, (forall k, (if by_reader k l then 1 else 0) + (if by_writer k l then 1 else 0) = if j =? k then 1 else 0) ->
              list_sum (map (fun k => number (by_reader k) (l :: ls) + number (by_writer k) (l :: ls)) (seq 0 N))
              = 1 + list_sum (map (fun k => number (by_reader k) ls + number (by_writer k) ls) (seq 0 N))).
    { intros j HJ. apply (sum_bump _ _ j).
      - destruct (Nat.lt_ge_cases j N) as [L|L]; [lia|]. specialize (H j L). rewrite !number_cons in H. specialize (HJ j).
        rewrite Nat.eqb_refl in HJ. lia.
      - intros k. rewrite !number_cons. specialize (HJ k). lia. }
    destruct l as [r w a|j u|j|now| | | | |]; cbn [by_connection];
      try (rewrite Nat.add_0_r; f_equal; apply map_ext; intros k; rewrite !number_cons; cbn [by_reader by_writer]; lia).
    + rewrite (HB j); [lia|]. intros k. cbn [by_reader by_writer]. destruct (j =? k); reflexivity.
    + rewrite (HB j); [lia|]. intros k. cbn [by_reader by_writer]. destruct (j =? k); reflexivity.
Qed.

Lemma sum_over {A} (g : nat -> nat) (h : A -> nat) : forall (l : list A) a,
  (forall k x, nth_error l k = Some x -> g (a + k) = h x) -> list_sum (map g (seq a (length l))) = list_sum (map h l).
Proof.
  induction l as [|x l IH]; intros a H; [reflexivity|]. cbn [length seq map list_sum fold_right].
  fold (list_sum (map g (seq (Datatypes.S a) (length l)))). fold (list_sum (map h l)). f_equal.
  - rewrite <- (H 0 x eq_refl). f_equal. lia.
  - apply IH. intros k y Hk. rewrite <- (H (Datatypes.S k) y Hk). f_equal. lia.
Qed.

(** ** C128 *)

(** The turns each task has had, read off the state. *)
Theorem C128_turns auth dbg n ls s : steps auth dbg (sys_init n) ls = Some s ->
  (forall k c, nth_error (conns s) k = Some c ->
     number (by_reader k) ls = read_steps c /\ number (by_writer k) ls = write_steps c)
  /\ number by_listener ls = length (conns s)
  /\ number by_the_handler ls + to_do s = for_events auth (handled s) + length (log s)
  /\ number an_end ls = closing_steps n s.
Proof.
  intros H. destruct (all_steps_counted auth dbg n ls s H) as ((A1 & A2 & A3) & (B & _) & (C1 & C2 & C3 & C4 & _)).
  split; [|split; [exact A3|split; [exact B|]]].
  - intros k c Hk. destruct (A1 k c Hk) as (_ & X & Y & _). auto.
  - rewrite number_ends, C1, C3, C4. unfold closing_steps. lia.
Qed.

(** All steps. *)
Theorem C128_total auth dbg n ls s : steps auth dbg (sys_init n) ls = Some s ->
  length ls + to_do s
  = length (conns s) + list_sum (map (fun c => read_steps c + write_steps c) (conns s))
    + for_events auth (handled s) + length (log s) + closing_steps n s.
Proof.
  intros H. destruct (C128_turns auth dbg n ls s H) as (A & B & C & D).
  destruct (all_steps_counted auth dbg n ls s H) as ((_ & A2 & _) & _).
  rewrite number_total, B, D, (number_connections (length (conns s)) ls).
  - rewrite (sum_over _ (fun c => read_steps c + write_steps c)); [lia|]. intros k c Hk. cbn [Nat.add]. destruct (A k c Hk) as (-> & ->). reflexivity.
  - intros k Hk. apply A2. now apply nth_error_None.
Qed.

(** Two ways to the same state take the same number of steps, task by task. *)
Theorem C128_same auth dbg n ls ls' s : steps auth dbg (sys_init n) ls = Some s -> steps auth dbg (sys_init n) ls' = Some s ->
  length ls = length ls' /\ number by_the_handler ls = number by_the_handler ls'
  /\ forall k, number (by_reader k) ls = number (by_reader k) ls' /\ number (by_writer k) ls = number (by_writer k) ls'.
Proof.
  intros H H'. pose proof (C128_total auth dbg n ls s H) as T. pose proof (C128_total auth dbg n ls' s H') as T'.
  destruct (C128_turns auth dbg n ls s H) as (A & B & C & D). destruct (C128_turns auth dbg n ls' s H') as (A' & B' & C' & D').
  split; [lia|]. split; [lia|]. intros k. destruct (nth_error (conns s) k) as [c|] eqn:Hk.
  - destruct (A k c Hk) as (-> & ->). destruct (A' k c Hk) as (-> & ->). auto.
  - destruct (all_steps_counted auth dbg n ls s H) as ((_ & X & _) & _). destruct (all_steps_counted auth dbg n ls' s H') as ((_ & X' & _) & _).
    destruct (X k Hk) as (-> & ->). destruct (X' k Hk) as (-> & ->). auto.
Qed.

(** No state comes twice. *)
Theorem C128_never_back auth dbg n s ls : reachable auth dbg n s -> steps auth dbg s ls = Some s -> ls = [].
Proof.
  intros (ls0 & H0) H. destruct (C128_same auth dbg n ls0 (ls0 ++ ls) s H0) as (E & _).
  - now rewrite steps_app, H0.
  - rewrite app_length in E. destruct ls; [reflexivity|cbn [length] in E; lia].
Qed.

(** The steps are linear in the packets read and sent, the events handled and their filters, and the connections. *)
Theorem C128_linear auth dbg n ls s : steps auth dbg (sys_init n) ls = Some s ->
  length ls <= 3 * length (conns s) + 2 * list_sum (map (fun c => length (c_read c) + length (c_sent c)) (conns s))
               + 2 * length (handled s) + list_sum (map (fun te => questions auth (snd te)) (handled s)) + length (log s) + n + 6.
Proof.
  intros H. pose proof (C128_total auth dbg n ls s H) as T.
  assert (R : forall c, read_steps c + write_steps c <= 2 * (length (c_read c) + length (c_sent c)) + 2).
  { intros c. unfold read_steps, write_steps. destruct (c_read c) as [|[] r]; destruct (c_reader c), (c_writer c); cbn [length]; lia. }
  assert (S1 : forall l : list cstate, list_sum (map (fun c => read_steps c + write_steps c) l)
                 <= 2 * list_sum (map (fun c => length (c_read c) + length (c_sent c)) l) + 2 * length l).
  { induction l as [|c l IH]; [cbn; lia|]. cbn [map list_sum fold_right length]. specialize (R c). unfold list_sum in IH. lia. }
  assert (S2 : forall h : list (Z * ClientEvent), for_events auth h = 2 * length h + list_sum (map (fun te => questions auth (snd te)) h)).
  { induction h as [|te h IH]; [reflexivity|]. unfold for_events in *. cbn [map list_sum fold_right length] in *. unfold list_sum in IH. lia. }
  specialize (S1 (conns s)). rewrite S2 in T.
  assert (E : closing_steps n s <= n + 6).
  { unfold closing_steps, main_steps. destruct (hdl s), (service_running s), (main s); try destruct (ctrl_c s); lia. }
  lia.
Qed.

From Verif Require Import Prop_system.
Open Scope nat_scope.

(** A client subscribes and hears its own message: by turns or one task after the other, the same 26 steps. *)
Definition ex_work : list label :=
  [LAccept (ex_peer [ex_client "s" None None; Subscribe 1 [{| sub_topic := str "a"; sub_qos := AtMostOnce |}]; Publish (ex_message "a" "x")] PeerOpen)
     (ex_socket []) 1].

Definition ex_one_by_one : list label := repeat (LReader 0%nat []) 6 ++ repeat (LHandler 5) 13 ++ repeat (LWriter 0%nat) 6.
Definition ex_by_turns : list label :=
  concat (repeat ([LReader 0%nat []; LReader 0%nat []] ++ repeat (LHandler 5) 4) 1) ++ [LHandler 5; LWriter 0%nat; LReader 0%nat []; LWriter 0%nat; LReader 0%nat []]
  ++ repeat (LHandler 5) 4 ++ [LWriter 0%nat; LReader 0%nat []; LWriter 0%nat; LReader 0%nat []] ++ repeat (LHandler 5) 4 ++ [LWriter 0%nat; LWriter 0%nat].

Example C128_case : exists s c,
  steps ex_deny true (sys_init 1) (ex_work ++ ex_one_by_one) = Some s /\ steps ex_deny true (sys_init 1) (ex_work ++ ex_by_turns) = Some s
  /\ nth_error (conns s) 0 = Some c /\ length (c_read c) = 3 /\ length (c_sent c) = 3
  /\ map (fun te => questions ex_deny (snd te)) (handled s) = [2; 1; 1]
  /\ length (ex_work ++ ex_one_by_one) = 26 /\ to_do s = 0.
Proof. do 2 eexists. split; [vm_compute; reflexivity|]. repeat split; vm_compute; reflexivity. Qed.
