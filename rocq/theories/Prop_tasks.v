(** Property C143: what the two tasks of a connection log at level trace. *)
From Verif Require Import Base Base_facts Packets HashMap Subscriptions Messaging Handler Decoder ReadStream ReadStream_facts Conn Conn_facts
  Encoder Encoder_facts WriteStream WriteStream_facts Spec_broker Handler_facts System System_facts System_hist System_conn System_queue System_progress
  Logging Log_facts Prop_broker Prop_system Prop_log Prop_full.

Definition is_trace (r : entry) : bool := match lvl r with Trace => true | _ => false end.

Definition of_reader (k : conn) (l : label) : bool := match l with LReader j _ => Nat.eqb j k | _ => false end.
Definition of_writer (k : conn) (l : label) : bool := match l with LWriter j => Nat.eqb j k | _ => false end.

(** ** Reading *)

(** The packets read, the first in words of its own, and whether a client without an id came. *)
Definition read_words (L : library) (ps : list ControlPacket) : list entry :=
  match ps with
  | [] => []
  | p :: ps =>
    [record Trace (str "Read the first packet: " ++ packet_words L p)]
    ++ (match p with
        | Connect c => match client_id c with [] => [record Trace (str "Client did not provide client id, id will be generated")] | _ => [] end
        | _ => [] end)
    ++ map (fun p => record Trace (str "Read packet: " ++ packet_words L p)) ps
  end.

(** A client that logged in and whose bytes end in an error (an end of file is one), all of which has been read. *)
Definition read_to_error (dbg : bool) (c : cstate) : bool :=
  match c_reader c, c_read c, snd (read_all dbg (connection_stream (c_rsock c))) with
  | RDone, Connect _ :: _, EndErr _ => true
  | _, _, _ => false
  end.

Definition reader_says (L : library) (dbg : bool) (c : cstate) : list entry :=
  read_words L (c_read c) ++ (if read_to_error dbg c then [record Trace (str "Client read task ended")] else []).

(** ** Writing *)

Definition to_disconnect (x : option conn * conn * ServerEvent) (k : conn) : bool :=
  match x with (_, to, ServerDisconnect) => Nat.eqb to k | _ => false end.

Definition writer_says (L : library) (s : sys) (k : conn) (c : cstate) : list entry :=
  flat_map (fun x => [record Trace (str "Received server event: ControlPacket(" ++ packet_words L (snd x) ++ str ")");
                      record Trace (str "Writing packet: " ++ packet_words L (snd x))]) (c_sent c)
  ++ match c_writer c with
     | WClosed _ =>
       (if existsb (fun x => to_disconnect x k) (log s) then [record Trace (str "Received server event: Disconnect")] else [])
       ++ [record Trace (str "Client write task ended")]
     | _ => []
     end.

(** ** Proofs *)

Definition at_conn (f : cstate -> list entry) (s : sys) (k : conn) : list entry :=
  match nth_error (conns s) k with Some c => f c | None => [] end.

Lemma conn_after s k c c' j : nth_error (conns s) k = Some c ->
  nth_error (conns (set_conn k c' s)) j = if Nat.eqb j k then Some c' else nth_error (conns s) j.
Proof.
  intros H. cbn [conns set_conn set_conns]. rewrite nth_update. destruct (Nat.eqb_spec j k) as [->|]; [|reflexivity]. now rewrite H.
Qed.

(** Steps of other tasks leave alone what the read task of a connection has. *)
Lemma not_the_reader auth dbg s l s' k : step auth dbg s l = Some s' -> of_reader k l = false ->
  (exists r w a, nth_error (conns s) k = None /\ nth_error (conns s') k = Some (new_conn r w a))
  \/ option_map (fun c => (c_reader c, c_read c, c_rsock c)) (nth_error (conns s') k)
     = option_map (fun c => (c_reader c, c_read c, c_rsock c)) (nth_error (conns s) k).
Proof.
  intros H HL. unfold step in H. destruct (running s); [|discriminate].
  destruct l as [r w a|j uuid|j|now| | | | |]; cbn [of_reader] in HL.
  - destruct (listeners s); [discriminate|]. injection H as <-. cbn [conns set_conns]. rewrite nth_error_snoc.
    destruct (Nat.eqb_spec k (length (conns s))) as [->|]; [|now right]. left. exists r, w, a. split; [|reflexivity].
    apply nth_error_None. lia.
  - right. apply Nat.eqb_neq in HL. unfold step_reader in H. destruct (nth_error (conns s) j) as [c|] eqn:Ej; [|discriminate].
    assert (K : forall c' s1, conns s1 = conns (set_conn j c' s) -> option_map (fun c => (c_reader c, c_read c, c_rsock c)) (nth_error (conns s1) k)
      = option_map (fun c => (c_reader c, c_read c, c_rsock c)) (nth_error (conns s) k)).
    { intros c' s1 E. rewrite E, (conn_after s j c c' k Ej). now destruct (Nat.eqb_spec k j) as [->|]. }
    destruct (c_reader c) as [rs|e cid rs|cid rs|]; [| | |discriminate].
    + destruct (stream_read_packet dbg rs) as [p rs'|e| | | |]; try discriminate; [destruct p| |]; injection H as <-; now eapply K.
    + destruct (handler_alive (hdl s)); [destruct (_ <? _)%nat; [|discriminate]|]; injection H as <-; now eapply K.
    + destruct (stream_read_packet dbg rs) as [p rs'|e| | | |]; try discriminate; injection H as <-; now eapply K.
  - right. unfold step_writer in H. destruct (nth_error (conns s) j) as [c|] eqn:Ej; [|discriminate].
    assert (K : forall c', c_reader c' = c_reader c -> c_read c' = c_read c -> c_rsock c' = c_rsock c ->
      option_map (fun c => (c_reader c, c_read c, c_rsock c)) (nth_error (conns (set_conn j c' s)) k)
      = option_map (fun c => (c_reader c, c_read c, c_rsock c)) (nth_error (conns s) k)).
    { intros c' E1 E2 E3. rewrite (conn_after s j c c' k Ej). destruct (Nat.eqb_spec k j) as [->|]; [|reflexivity].
      rewrite Ej. cbn [option_map]. now rewrite E1, E2, E3. }
    destruct (c_writer c) as [ws|p ws|ws]; [| |discriminate].
    + destruct (c_queue c) as [|[from [p|]] q]; [destruct (has_sender s j c); [discriminate|]| |]; injection H as <-; now apply K.
    + destruct (write_packet p ws); try discriminate; injection H as <-; now apply K.
  - right. unfold step_handler in H. destruct (hdl s) as [|tx p| |] eqn:EH; try discriminate.
    + destruct (events s); [discriminate|]. now injection H as <-.
    + destruct p as [| |R op f|to e p].
      * now injection H as <-.
      * now injection H as <-.
      * destruct (serve (svc s) op). now injection H as <-.
      * destruct (nth_error (conns s) to) as [c|] eqn:Ej; [|discriminate].
        assert (K : forall s1 c', conns s1 = conns (set_conn to c' s) -> c_reader c' = c_reader c -> c_read c' = c_read c -> c_rsock c' = c_rsock c ->
          option_map (fun c => (c_reader c, c_read c, c_rsock c)) (nth_error (conns s1) k)
          = option_map (fun c => (c_reader c, c_read c, c_rsock c)) (nth_error (conns s) k)).
        { intros s1 c' E E1 E2 E3. rewrite E, (conn_after s to c c' k Ej). destruct (Nat.eqb_spec k to) as [->|]; [|reflexivity].
          rewrite Ej. cbn [option_map]. now rewrite E1, E2, E3. }
        destruct (c_writer c); [destruct (_ <? _)%nat; [|discriminate]..|]; injection H as <-; try reflexivity; now eapply K.
  - right. destruct (hdl s); try discriminate. destruct (ctrl_c s); [|discriminate]. now injection H as <-.
  - right. destruct (listeners s); [discriminate|]. destruct (ctrl_c s); [|discriminate]. now injection H as <-.
  - right. destruct (service_running s && negb (handler_alive (hdl s))); [|discriminate]. now injection H as <-.
  - right. destruct (main s); try discriminate. destruct (_ || _); now injection H as <-.
  - right. unfold step_main in H. destruct (main s); try discriminate.
    + destruct (listeners s =? 0)%nat; [|discriminate]. now injection H as <-.
    + destruct (service_running s); [discriminate|]. now injection H as <-.
    + destruct (hdl s); try discriminate; now injection H as <-.
Qed.

Lemma read_words_snoc L q ps p : read_words L ((q :: ps) ++ [p]) = read_words L (q :: ps) ++ [record Trace (str "Read packet: " ++ packet_words L p)].
Proof. unfold read_words. cbn [app]. rewrite map_app. cbn [map]. now rewrite !app_assoc. Qed.

(** Where a stream has failed, so has the connection's. *)
Lemma failed_end dbg c rs : reads dbg (connection_stream (c_rsock c)) (c_read c) rs ->
  (forall e, stream_read_packet dbg rs = RErr e -> snd (read_all dbg (connection_stream (c_rsock c))) = EndErr e)
  /\ (stream_read_packet dbg rs = RPanic -> snd (read_all dbg (connection_stream (c_rsock c))) = EndPanic).
Proof.
  intros H. destruct (reads_read_all dbg _ _ _ (wf_connection (c_rsock c)) H) as (W & E). rewrite E. cbn [snd].
  rewrite (read_all_step dbg rs W). split; [intros e|]; intros ->; reflexivity.
Qed.

Lemma reader_adds auth dbg L n s l s' k : reachable auth dbg n s -> step auth dbg s l = Some s' ->
  at_conn (reader_says L dbg) s' k
  = at_conn (reader_says L dbg) s k ++ filter is_trace (if of_reader k l then step_entries auth L dbg s l else []).
Proof.
  intros HR HS. destruct (of_reader k l) eqn:HL.
  2:{ cbn [filter]. rewrite app_nil_r. unfold at_conn. destruct (not_the_reader auth dbg s l s' k HS HL) as [(r & w & a & E & E')|E].
      - now rewrite E, E'.
      - destruct (nth_error (conns s') k) as [c'|], (nth_error (conns s) k) as [c|]; try discriminate E; [|reflexivity].
        cbn [option_map] in E. unfold reader_says, read_to_error. injection E as E1 E2 E3. now rewrite E1, E2, E3. }
  destruct l as [| j uuid| | | | | | |]; try discriminate HL. cbn [of_reader] in HL. apply Nat.eqb_eq in HL. subst j.
  unfold step in HS. destruct (running s); [|discriminate]. cbn [step_entries]. unfold step_reader, reader_entries in *.
  pose proof (reader_invariant auth dbg n s HR k) as HI.
  destruct (nth_error (conns s) k) as [c|] eqn:Ek; [|discriminate]. specialize (HI c eq_refl). destruct HI as (rs0 & Hr & Hd).
  assert (AT : forall c' s1, conns s1 = conns (set_conn k c' s) -> at_conn (reader_says L dbg) s1 k = reader_says L dbg c').
  { intros c' s1 E. unfold at_conn. now rewrite E, (conn_after s k c c' k Ek), Nat.eqb_refl. }
  unfold at_conn at 2. rewrite Ek.
  destruct (c_reader c) as [rs|e cid rs|cid rs|] eqn:Er; [| | |discriminate].
  - destruct Hd as (-> & E0). assert (B : reader_says L dbg c = []) by (unfold reader_says, read_to_error; now rewrite E0, Er). rewrite B. cbn [app].
    destruct (failed_end dbg c rs0 Hr) as (F1 & F2).
    destruct (stream_read_packet dbg rs0) as [p rs'|e| | | |]; try discriminate.
    + assert (D : forall r, (exists x y z, r = RPush x y z) \/ (r = RDone /\ forall q, p <> Connect q) ->
        reader_says L dbg (set_reader r (set_read (c_read c ++ [p]) c))
        = read_words L [p]).
      { intros r Hrr. unfold reader_says, read_to_error. cbn [c_reader c_read c_rsock set_reader set_read]. rewrite E0. cbn [app].
        destruct Hrr as [(x & y & z & ->)|(-> & HN)]; [now rewrite app_nil_r|]. destruct p; try now rewrite app_nil_r. now destruct (HN c0). }
      destruct p as [cp| | | | | | | | | | | | |]; injection HS as <-.
      1:{ rewrite (AT _ _ eq_refl), D by eauto. cbn [read_words map app]. rewrite packet_same. cbn [filter is_trace lvl entry_of]. 
          unfold is_trace. destruct (client_id cp); reflexivity. }
      all: rewrite (AT _ _ eq_refl), D by (right; split; [reflexivity|discriminate]); cbn [read_words map app]; rewrite packet_same; reflexivity.
    + injection HS as <-. rewrite (AT _ _ eq_refl). unfold reader_says, read_to_error. cbn [c_reader c_read c_rsock set_reader]. now rewrite E0.
    + injection HS as <-. rewrite (AT _ _ eq_refl). unfold reader_says, read_to_error. cbn [c_reader c_read c_rsock set_reader]. now rewrite E0.
  - assert (D : forall s1, conns s1 = conns (set_conn k (set_reader (RLoop cid rs) c) s) ->
      at_conn (reader_says L dbg) s1 k = reader_says L dbg c).
    { intros s1 E. rewrite (AT _ _ E). unfold reader_says, read_to_error. cbn [c_reader c_read c_rsock set_reader]. now rewrite Er. }
    destruct (handler_alive (hdl s)); [destruct (_ <? _)%nat; [|discriminate]|]; injection HS as <-; rewrite D by reflexivity;
      cbn [filter is_trace lvl entry_of]; now rewrite app_nil_r.
  - destruct Hd as (-> & q & qs & E0 & _). destruct (failed_end dbg c rs0 Hr) as (F1 & F2).
    assert (B : reader_says L dbg c = read_words L (c_read c)) by (unfold reader_says, read_to_error; now rewrite Er, app_nil_r). rewrite B.
    destruct (stream_read_packet dbg rs0) as [p rs'|e| | | |]; try discriminate; injection HS as <-; rewrite (AT _ _ eq_refl);
      unfold reader_says, read_to_error; cbn [c_reader c_read c_rsock set_reader set_read].
    + rewrite E0, read_words_snoc, app_nil_r, packet_same. reflexivity.
    + rewrite E0, (F1 e eq_refl). reflexivity.
    + rewrite E0, (F2 eq_refl). reflexivity.
Qed.

Lemma log_run (f : sys -> conn -> list entry) (which : conn -> label -> bool) auth dbg L n k :
  (forall s l s', reachable auth dbg n s -> step auth dbg s l = Some s' ->
     f s' k = f s k ++ filter is_trace (if which k l then step_entries auth L dbg s l else [])) -> f (sys_init n) k = [] ->
  forall ls s, steps auth dbg (sys_init n) ls = Some s -> filter is_trace (run_entries (which k) auth L dbg (sys_init n) ls) = f s k.
Proof.
  intros HA H0. induction ls as [|l ls IH] using rev_ind; intros s H; [injection H as <-; now rewrite H0|].
  rewrite steps_app in H. destruct (steps auth dbg (sys_init n) ls) as [s1|] eqn:E; [|discriminate].
  cbn [steps] in H. destruct (step auth dbg s1 l) as [s2|] eqn:E2; [|discriminate]. injection H as ->.
  rewrite (run_entries_snoc (which k) auth L dbg ls l _ s1 s E E2), filter_app, (IH s1 eq_refl). symmetry. apply HA; [now exists ls|exact E2].
Qed.

(** C143, reading: the packets read, each once and in order, and the end unless the task still runs, was refused its first
    packet, or panicked. *)
Theorem C143_reader auth dbg L n ls s k c : steps auth dbg (sys_init n) ls = Some s -> nth_error (conns s) k = Some c ->
  filter is_trace (run_entries (of_reader k) auth L dbg (sys_init n) ls) = reader_says L dbg c.
Proof.
  intros H Hk. rewrite (log_run (at_conn (reader_says L dbg)) of_reader auth dbg L n k) with (s := s); [unfold at_conn; now rewrite Hk| | |exact H].
  - intros s0 l s' HR HS. now apply (reader_adds auth dbg L n).
  - unfold at_conn. cbn. now destruct k.
Qed.

(** *** The write task *)

(** Steps of other tasks leave alone what the write task of a connection has; once it has ended nothing more is sent to it. *)
Lemma not_the_writer auth dbg s l s' k : step auth dbg s l = Some s' -> of_writer k l = false ->
  (exists r w a, nth_error (conns s) k = None /\ nth_error (conns s') k = Some (new_conn r w a))
  \/ option_map (fun c => (c_writer c, c_sent c)) (nth_error (conns s') k)
     = option_map (fun c => (c_writer c, c_sent c)) (nth_error (conns s) k)
     /\ (forall c ws, nth_error (conns s) k = Some c -> c_writer c = WClosed ws ->
           existsb (fun x => to_disconnect x k) (log s') = existsb (fun x => to_disconnect x k) (log s)).
Proof.
  intros H HL. unfold step in H. destruct (running s); [|discriminate].
  destruct l as [r w a|j uuid|j|now| | | | |]; cbn [of_writer] in HL.
  - destruct (listeners s); [discriminate|]. injection H as <-. cbn [conns set_conns log]. rewrite nth_error_snoc.
    destruct (Nat.eqb_spec k (length (conns s))) as [->|]; [|now right]. left. exists r, w, a. split; [|reflexivity].
    apply nth_error_None. lia.
  - right. unfold step_reader in H. destruct (nth_error (conns s) j) as [c|] eqn:Ej; [|discriminate].
    assert (K : forall c' s1, conns s1 = conns (set_conn j c' s) -> log s1 = log s -> c_writer c' = c_writer c -> c_sent c' = c_sent c ->
      option_map (fun c => (c_writer c, c_sent c)) (nth_error (conns s1) k) = option_map (fun c => (c_writer c, c_sent c)) (nth_error (conns s) k)
      /\ (forall c ws, nth_error (conns s) k = Some c -> c_writer c = WClosed ws ->
            existsb (fun x => to_disconnect x k) (log s1) = existsb (fun x => to_disconnect x k) (log s))).
    { intros c' s1 E E0 E1 E2. split; [|intros; now rewrite E0]. rewrite E, (conn_after s j c c' k Ej).
      destruct (Nat.eqb_spec k j) as [->|]; [|reflexivity]. rewrite Ej. cbn [option_map]. now rewrite E1, E2. }
    destruct (c_reader c) as [rs|e cid rs|cid rs|]; [| | |discriminate].
    + destruct (stream_read_packet dbg rs) as [p rs'|e| | | |]; try discriminate; [destruct p| |]; injection H as <-; now eapply K.
    + destruct (handler_alive (hdl s)); [destruct (_ <? _)%nat; [|discriminate]|]; injection H as <-; now eapply K.
    + destruct (stream_read_packet dbg rs) as [p rs'|e| | | |]; try discriminate; injection H as <-; now eapply K.
  - right. apply Nat.eqb_neq in HL. unfold step_writer in H. destruct (nth_error (conns s) j) as [c|] eqn:Ej; [|discriminate].
    assert (K : forall c', option_map (fun c => (c_writer c, c_sent c)) (nth_error (conns (set_conn j c' s)) k)
      = option_map (fun c => (c_writer c, c_sent c)) (nth_error (conns s) k)).
    { intros c'. rewrite (conn_after s j c c' k Ej). now destruct (Nat.eqb_spec k j) as [->|]. }
    destruct (c_writer c) as [ws|p ws|ws]; [| |discriminate].
    + destruct (c_queue c) as [|[from [p|]] q]; [destruct (has_sender s j c); [discriminate|]| |]; injection H as <-; (split; [apply K|reflexivity]).
    + destruct (write_packet p ws); try discriminate; injection H as <-; (split; [apply K|reflexivity]).
  - right. unfold step_handler in H. destruct (hdl s) as [|tx p| |] eqn:EH; try discriminate.
    + destruct (events s); [discriminate|]. injection H as <-. now split.
    + destruct p as [| |R op f|to e p].
      * injection H as <-. now split.
      * injection H as <-. now split.
      * destruct (serve (svc s) op). injection H as <-. now split.
      * destruct (nth_error (conns s) to) as [c|] eqn:Ej; [|discriminate].
        assert (K : forall s1 c', conns s1 = conns (set_conn to c' s) -> c_writer c' = c_writer c -> c_sent c' = c_sent c ->
          log s1 = log s ++ [(tx, to, e)] -> (forall ws, c_writer c <> WClosed ws) ->
          option_map (fun c => (c_writer c, c_sent c)) (nth_error (conns s1) k) = option_map (fun c => (c_writer c, c_sent c)) (nth_error (conns s) k)
          /\ (forall c ws, nth_error (conns s) k = Some c -> c_writer c = WClosed ws ->
                existsb (fun x => to_disconnect x k) (log s1) = existsb (fun x => to_disconnect x k) (log s))).
        { intros s1 c' E E1 E2 E3 E4. split.
          - rewrite E, (conn_after s to c c' k Ej). destruct (Nat.eqb_spec k to) as [->|]; [|reflexivity]. rewrite Ej. cbn [option_map]. now rewrite E1, E2.
          - intros c0 ws Hk Hw. rewrite E3, existsb_app. cbn [existsb]. destruct (Nat.eqb_spec to k) as [->|HN].
            + rewrite Ej in Hk. injection Hk as ->. now destruct (E4 ws).
            + apply Nat.eqb_neq in HN. assert (F : to_disconnect (tx, to, e) k = false) by (unfold to_disconnect; now destruct e).
              rewrite F, !orb_false_r. reflexivity. }
        destruct (c_writer c) eqn:Ew; [destruct (_ <? _)%nat; [|discriminate]..|]; injection H as <-.
        -- eapply K; [reflexivity|exact Ew|reflexivity|reflexivity|discriminate].
        -- eapply K; [reflexivity|exact Ew|reflexivity|reflexivity|discriminate].
        -- now split.
  - right. destruct (hdl s); try discriminate. destruct (ctrl_c s); [|discriminate]. injection H as <-. now split.
  - right. destruct (listeners s); [discriminate|]. destruct (ctrl_c s); [|discriminate]. injection H as <-. now split.
  - right. destruct (service_running s && negb (handler_alive (hdl s))); [|discriminate]. injection H as <-. now split.
  - right. destruct (main s); try discriminate. destruct (_ || _); injection H as <-; now split.
  - right. unfold step_main in H. destruct (main s); try discriminate.
    + destruct (listeners s =? 0)%nat; [|discriminate]. injection H as <-. now split.
    + destruct (service_running s); [discriminate|]. injection H as <-. now split.
    + destruct (hdl s); try discriminate; injection H as <-; now split.
Qed.

Lemma disconnect_put k l : existsb (fun x => to_disconnect x k) l
  = existsb (fun y : option conn * ServerEvent => match snd y with ServerDisconnect => true | _ => false end) (put_to k l).
Proof.
  induction l as [|[[from to] e] l IH]; [reflexivity|]. cbn [existsb put_to flat_map fst snd to_disconnect]. rewrite IH, (Nat.eqb_sym k to).
  destruct e, (Nat.eqb to k); cbn [app existsb snd orb]; reflexivity.
Qed.

Lemma writer_adds auth dbg L n s l s' k : reachable auth dbg n s -> step auth dbg s l = Some s' ->
  at_conn (writer_says L s' k) s' k
  = at_conn (writer_says L s k) s k ++ filter is_trace (if of_writer k l then step_entries auth L dbg s l else []).
Proof.
  intros HR HS. destruct (of_writer k l) eqn:HL.
  2:{ cbn [filter]. rewrite app_nil_r. unfold at_conn. destruct (not_the_writer auth dbg s l s' k HS HL) as [(r & w & a & E & E')|(E & EL)].
      - now rewrite E, E'.
      - destruct (nth_error (conns s') k) as [c'|], (nth_error (conns s) k) as [c|] eqn:Ek; try discriminate E; [|reflexivity].
        cbn [option_map] in E. unfold writer_says. injection E as E1 E2. rewrite E1, E2.
        destruct (c_writer c) as [ws|p ws|ws] eqn:Ew; try reflexivity. now rewrite (EL c ws eq_refl Ew). }
  destruct l as [| | j| | | | | |]; try discriminate HL. cbn [of_writer] in HL. apply Nat.eqb_eq in HL. subst j.
  unfold step in HS. destruct (running s); [|discriminate]. cbn [step_entries]. unfold step_writer, writer_entries in *.
  pose proof (queue_invariant auth dbg n s HR k) as HI. unfold queue_ok in HI.
  destruct (nth_error (conns s) k) as [c|] eqn:Ek; [|discriminate]. destruct HI as (HW & HQ).
  assert (AT : forall f c', at_conn f (set_conn k c' s) k = f c').
  { intros f c'. unfold at_conn. now rewrite (conn_after s k c c' k Ek), Nat.eqb_refl. }
  unfold at_conn at 2. rewrite Ek.
  destruct (c_writer c) as [ws|p ws|ws] eqn:Ew; [| |discriminate].
  - assert (B : forall c', c_sent c' = c_sent c -> (forall w, c_writer c' <> WClosed w) -> writer_says L s k c' = writer_says L s k c).
    { intros c' E1 E2. unfold writer_says. rewrite E1, Ew. destruct (c_writer c'); try reflexivity. now destruct (E2 ws0). }
    destruct (c_queue c) as [|[from [p|]] q] eqn:Eq.
    + destruct (has_sender s k c); [discriminate|]. injection HS as <-. rewrite AT. unfold writer_says.
      cbn [c_writer set_writer c_sent log set_conn set_conns]. rewrite Ew, app_nil_r, disconnect_put, HQ, app_nil_r.
      assert (F : forall l, existsb (fun y : option conn * ServerEvent => match snd y with ServerDisconnect => true | _ => false end) (map as_sent l) = false)
        by (induction l as [|[f0 p0] l IHl]; [reflexivity|exact IHl]).
      rewrite F. reflexivity.
    + injection HS as <-. rewrite AT. unfold writer_says. cbn [c_writer set_writer set_queue set_sent c_sent]. rewrite Ew, flat_map_app, !app_nil_r.
      f_equal. cbn [flat_map snd app filter is_trace lvl entry_of show_server_event]. unfold is_trace. cbn [lvl entry_of].
      rewrite packet_same. unfold tuple. cbn [commas]. rewrite <- ?app_assoc. reflexivity.
    + injection HS as <-. rewrite AT. unfold writer_says. cbn [c_writer set_writer set_queue c_sent log set_conn set_conns].
      rewrite Ew, app_nil_r, disconnect_put, HQ, existsb_app. cbn [existsb snd orb]. rewrite orb_true_r. reflexivity.
  - assert (HP : writable p = true /\ wwf ws).
    { unfold writer_ok in HW. rewrite Ew in HW. destruct HW as (ps & f & Es & Hwr). split; [|apply Hwr].
      apply (log_writable auth dbg n s f k p HR). apply put_to_in. rewrite HQ, Es, map_app, <- app_assoc.
      apply in_or_app. right. now left. }
    pose proof (write_ok p ws (proj1 HP) (proj2 HP)) as HO.
    destruct (write_packet p ws) as [ws'|ws'|ws'| |]; try discriminate; try contradiction; injection HS as <-; rewrite AT;
      unfold writer_says; cbn [c_writer set_writer c_sent]; rewrite Ew; cbn [filter is_trace lvl entry_of]; now rewrite !app_nil_r.
Qed.

(** C143, writing: every event taken from the queue, with the packet written, in order; at the end, whether it was told to. *)
Theorem C143_writer auth dbg L n ls s k c : steps auth dbg (sys_init n) ls = Some s -> nth_error (conns s) k = Some c ->
  filter is_trace (run_entries (of_writer k) auth L dbg (sys_init n) ls) = writer_says L s k c.
Proof.
  intros H Hk. rewrite (log_run (fun s k => at_conn (writer_says L s k) s k) of_writer auth dbg L n k) with (s := s); [unfold at_conn; now rewrite Hk| | |exact H].
  - intros s0 l s' HR HS. now apply (writer_adds auth dbg L n).
  - unfold at_conn. cbn. now destruct k.
Qed.

(** Other tasks have nothing at level trace but that a listener stops. *)
Definition of_connection (l : label) : bool := match l with LReader _ _ | LWriter _ => true | _ => false end.

Theorem C143_others auth dbg L s l : of_connection l = false -> by_handler l = false ->
  filter is_trace (step_entries auth L dbg s l)
  = match l with LStopListener => [record Trace (str "Stopping listener")] | _ => [] end.
Proof.
  intros H1 H2. destruct l; try discriminate; try reflexivity. cbn [step_entries]. destruct (main s); try reflexivity. now destruct (hdl s).
Qed.

(** A client that gives no id, logs in, pings, disconnects and closes its socket: its two tasks at level trace. *)
Fixpoint feasible (auth : bytes -> bytes -> bool) (dbg : bool) (s : sys) (ls : list label) : list label :=
  match ls with
  | [] => []
  | l :: ls => match step auth dbg s l with Some s' => l :: feasible auth dbg s' ls | None => feasible auth dbg s ls end
  end.

Definition ex_task_run : list label :=
  feasible ex_deny true (sys_init 1)
    (LAccept (ex_peer [ex_client "" None None; PingReq; Disconnect] PeerEof) (ex_socket []) 1 :: ex_rounds 8 [0%nat]).

Example C143_case : (exists s c, steps ex_deny true (sys_init 1) ex_task_run = Some s /\ nth_error (conns s) 0%nat = Some c)
  /\ map said (filter is_trace (run_entries (of_reader 0%nat) ex_deny ex_library true (sys_init 1) ex_task_run))
     = [str "Read the first packet: Connect(ConnectPacket { version: Mqtt3, client_id: """", keep_alive_seconds: 60, clean_session: true, will_message: None, user_name: None, password: None })";
        str "Client did not provide client id, id will be generated";
        str "Read packet: PingReq"; str "Read packet: Disconnect(DisconnectPacket)"; str "Client read task ended"]
  /\ map said (filter is_trace (run_entries (of_writer 0%nat) ex_deny ex_library true (sys_init 1) ex_task_run))
     = [str "Received server event: ControlPacket(ConnAck(ConnAckPacket { session_present: false, return_code: Accepted }))";
        str "Writing packet: ConnAck(ConnAckPacket { session_present: false, return_code: Accepted })";
        str "Received server event: ControlPacket(PingResp)"; str "Writing packet: PingResp";
        str "Client write task ended"].
Proof. split; [do 2 eexists; split; vm_compute; reflexivity|]. split; vm_compute; reflexivity. Qed.
