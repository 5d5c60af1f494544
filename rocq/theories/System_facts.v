(** Invariants of the transition system. *)
From Verif Require Import Base Base_facts Packets HashMap Messaging Handler Decoder ReadStream Conn
  Encoder WriteStream System.

Definition reachable (auth : bytes -> bytes -> bool) (dbg : bool) (n : nat) (s : sys) : Prop :=
  exists ls, steps auth dbg (sys_init n) ls = Some s.

Lemma steps_app auth dbg ls1 : forall s ls2,
  steps auth dbg s (ls1 ++ ls2)
  = match steps auth dbg s ls1 with Some s' => steps auth dbg s' ls2 | None => None end.
Proof.
  induction ls1 as [|l ls1 IH]; intros s ls2; cbn [steps app]; [reflexivity|].
  destruct (step auth dbg s l); [apply IH|reflexivity].
Qed.

Lemma reachable_init auth dbg n : reachable auth dbg n (sys_init n).
Proof. now exists []. Qed.

Lemma reachable_step auth dbg n s l s' : reachable auth dbg n s -> step auth dbg s l = Some s' ->
  reachable auth dbg n s'.
Proof. intros (ls & H) HS. exists (ls ++ [l]). rewrite steps_app, H. cbn [steps]. now rewrite HS. Qed.

Lemma reachable_steps auth dbg n s ls s' : reachable auth dbg n s -> steps auth dbg s ls = Some s' ->
  reachable auth dbg n s'.
Proof. intros (ls0 & H) HS. exists (ls0 ++ ls). now rewrite steps_app, H. Qed.

(** Invariants: along any list of steps. *)
Lemma steps_ind auth dbg (P : sys -> Prop) :
  (forall s l s', P s -> step auth dbg s l = Some s' -> P s') ->
  forall ls s s', P s -> steps auth dbg s ls = Some s' -> P s'.
Proof.
  intros HP ls. induction ls as [|l ls IH]; intros s s' Hs; cbn [steps].
  - intros [= <-]. exact Hs.
  - destruct (step auth dbg s l) as [s1|] eqn:E; [|discriminate]. intros H. eapply IH; [|exact H]. eauto.
Qed.

Lemma reachable_ind auth dbg n (P : sys -> Prop) : P (sys_init n) ->
  (forall s l s', reachable auth dbg n s -> P s -> step auth dbg s l = Some s' -> P s') ->
  forall s, reachable auth dbg n s -> P s.
Proof.
  intros H0 HS s (ls & H).
  assert (K : reachable auth dbg n s /\ P s); [|apply K].
  eapply (steps_ind auth dbg (fun s => reachable auth dbg n s /\ P s)); [|split; [apply reachable_init|exact H0]|exact H].
  intros s1 l s2 (Hr & Hp) E. split; [eapply reachable_step; eauto|eauto].
Qed.

(** ** The elementary transitions *)

Inductive trans (auth : bytes -> bytes -> bool) (dbg : bool) (s : sys) : sys -> Prop :=
| TAccept r w a : listeners s <> O ->
    trans auth dbg s (set_conns (conns s ++ [new_conn r w a]) s)
| TReadConnect k c rs p rs' uuid : nth_error (conns s) k = Some c -> c_reader c = RFirst rs ->
    stream_read_packet dbg rs = ROk (Connect p) rs' ->
    trans auth dbg s (set_conn k (set_reader (RPush (Connected (with_id p (chosen_id p uuid)) (c_addr c) k)
                                                (chosen_id p uuid) rs')
                                    (set_read (c_read c ++ [Connect p]) c)) s)
| TReadOther k c rs p rs' : nth_error (conns s) k = Some c -> c_reader c = RFirst rs ->
    stream_read_packet dbg rs = ROk p rs' -> (forall q, p <> Connect q) ->
    trans auth dbg s (set_conn k (set_reader RDone (set_read (c_read c ++ [p]) c)) s)
| TReadEnd k c rs : nth_error (conns s) k = Some c ->
    (c_reader c = RFirst rs \/ exists cid, c_reader c = RLoop cid rs) ->
    (stream_read_packet dbg rs = RPanic \/ exists e, stream_read_packet dbg rs = RErr e) ->
    trans auth dbg s (set_conn k (set_reader RDone c) s)
| TPush k c e cid rs : nth_error (conns s) k = Some c -> c_reader c = RPush e cid rs ->
    handler_alive (hdl s) = true -> (length (events s) < channel_size)%nat ->
    trans auth dbg s (set_events (events s ++ [e]) (set_conn k (set_reader (RLoop cid rs) c) s))
| TPushLost k c e cid rs : nth_error (conns s) k = Some c -> c_reader c = RPush e cid rs ->
    handler_alive (hdl s) = false ->
    trans auth dbg s (set_conn k (set_reader (RLoop cid rs) c) s)
| TReadLoop k c cid rs p rs' : nth_error (conns s) k = Some c -> c_reader c = RLoop cid rs ->
    stream_read_packet dbg rs = ROk p rs' ->
    trans auth dbg s (set_conn k (set_reader (RPush (ClientPacket cid p k) cid rs')
                                    (set_read (c_read c ++ [p]) c)) s)
| TTake k c ws from p q : nth_error (conns s) k = Some c -> c_writer c = WIdle ws ->
    c_queue c = (from, ServerPacket p) :: q ->
    trans auth dbg s (set_conn k (set_writer (WBusy p ws) (set_queue q (set_sent (c_sent c ++ [(from, p)]) c))) s)
| TDisconnect k c ws from q : nth_error (conns s) k = Some c -> c_writer c = WIdle ws ->
    c_queue c = (from, ServerDisconnect) :: q ->
    trans auth dbg s (set_conn k (set_writer (WClosed ws) (set_queue [] c)) s)
| TWriterEnd k c ws : nth_error (conns s) k = Some c -> c_writer c = WIdle ws ->
    c_queue c = [] -> has_sender s k c = false ->
    trans auth dbg s (set_conn k (set_writer (WClosed ws) c) s)
| TWrote k c p ws ws' : nth_error (conns s) k = Some c -> c_writer c = WBusy p ws ->
    (write_packet p ws = WOk ws' \/ write_packet p ws = WErr ws') ->
    trans auth dbg s (set_conn k (set_writer (WIdle ws') c) s)
| TWriterPanic k c p ws : nth_error (conns s) k = Some c -> c_writer c = WBusy p ws ->
    write_packet p ws = WPanic ->
    trans auth dbg s (set_conn k (set_writer (WClosed ws) (set_queue [] c)) s)
| TEvent now e es : hdl s = HIdle -> events s = e :: es ->
    trans auth dbg s (set_hdl (HBusy (event_tx e) (on_event auth now e))
                        (set_handled (handled s ++ [(now, e)]) (set_events es s)))
| TDone tx : hdl s = HBusy tx Done -> trans auth dbg s (set_hdl HIdle s)
| TPanic tx : hdl s = HBusy tx Panic -> trans auth dbg s (panic_handler s)
| TCall tx R (op : MessagingOperation R) f : hdl s = HBusy tx (Call op f) ->
    trans auth dbg s (set_hdl (HBusy tx (f (snd (serve (svc s) op)))) (set_svc (fst (serve (svc s) op)) s))
| TSend tx to e p c : hdl s = HBusy tx (Send to e p) -> nth_error (conns s) to = Some c ->
    (forall ws, c_writer c <> WClosed ws) -> (length (c_queue c) < channel_size)%nat ->
    trans auth dbg s (set_hdl (HBusy tx p) (set_log (log s ++ [(tx, to, e)])
                        (set_conn to (set_queue (c_queue c ++ [(tx, e)]) c) s)))
| TSendClosed tx to e p c ws : hdl s = HBusy tx (Send to e p) -> nth_error (conns s) to = Some c ->
    c_writer c = WClosed ws ->
    trans auth dbg s (panic_handler s)
| TStopHandler : hdl s = HIdle -> ctrl_c s = true -> trans auth dbg s (set_events [] (set_hdl HStopped s))
| TStopListener n : listeners s = S n -> ctrl_c s = true -> trans auth dbg s (set_listeners n s)
| TStopService : service_running s = true -> handler_alive (hdl s) = false ->
    trans auth dbg s (set_service_running false s)
| TCtrlC : main s = MServing -> trans auth dbg s (set_main MJoinListeners (set_ctrl_c true s))
| TMain m : m <> MServing -> trans auth dbg s (set_main m s).

Lemma step_trans auth dbg s l s' : step auth dbg s l = Some s' -> trans auth dbg s s'.
Proof.
  unfold step. destruct (running s); [|discriminate]. destruct l as [r w a|k uuid|k|now| | | | |].
  - destruct (listeners s) eqn:E; [discriminate|]. intros [= <-]. apply TAccept. congruence.
  - unfold step_reader. destruct (nth_error (conns s) k) as [c|] eqn:E; [|discriminate].
    destruct (c_reader c) as [rs|e cid rs|cid rs|] eqn:ER; [| | |discriminate].
    + destruct (stream_read_packet dbg rs) as [p rs'|e| | | |] eqn:EP; try discriminate.
      * destruct p; intros [= <-]; try (eapply TReadOther; eauto; intros; discriminate).
        eapply TReadConnect; eauto.
      * intros [= <-]. eapply TReadEnd; eauto.
      * intros [= <-]. eapply TReadEnd; eauto.
    + destruct (handler_alive (hdl s)) eqn:EH.
      * destruct (Nat.ltb_spec (length (events s)) channel_size); [|discriminate]. intros [= <-]. eapply TPush; eauto.
      * intros [= <-]. eapply TPushLost; eauto.
    + destruct (stream_read_packet dbg rs) as [p rs'|e| | | |] eqn:EP; try discriminate; intros [= <-].
      * eapply TReadLoop; eauto.
      * eapply TReadEnd; eauto.
      * eapply TReadEnd; eauto.
  - unfold step_writer. destruct (nth_error (conns s) k) as [c|] eqn:E; [|discriminate].
    destruct (c_writer c) as [ws|p ws|ws] eqn:EW; [| |discriminate].
    + destruct (c_queue c) as [|[from [p|]] q] eqn:EQ.
      * destruct (has_sender s k c) eqn:EH; [discriminate|]. intros [= <-]. eapply TWriterEnd; eauto.
      * intros [= <-]. eapply TTake; eauto.
      * intros [= <-]. eapply TDisconnect; eauto.
    + destruct (write_packet p ws) as [ws'|ws'| | |] eqn:EP; try discriminate; intros [= <-].
      * eapply TWrote; eauto.
      * eapply TWrote; eauto.
      * eapply TWriterPanic; eauto.
  - unfold step_handler. destruct (hdl s) as [|tx p| |] eqn:EH; try discriminate.
    + destruct (events s) as [|e es] eqn:EE; [discriminate|]. intros [= <-]. eapply TEvent; eauto.
    + destruct p as [| |R op f|to e p].
      * intros [= <-]. eapply TDone; eauto.
      * intros [= <-]. eapply TPanic; eauto.
      * pose proof (TCall auth dbg s tx R op f EH) as K. destruct (serve (svc s) op) as [m r]. intros [= <-]. exact K.
      * destruct (nth_error (conns s) to) as [c|] eqn:E; [|discriminate].
        destruct (c_writer c) as [ws|p0 ws|ws] eqn:EW.
        1, 2: destruct (Nat.ltb_spec (length (c_queue c)) channel_size); [|discriminate];
          intros [= <-]; eapply TSend; eauto; congruence.
        intros [= <-]. eapply TSendClosed; eauto.
  - destruct (hdl s) eqn:EH; try discriminate. destruct (ctrl_c s) eqn:EC; [|discriminate].
    intros [= <-]. eapply TStopHandler; eauto.
  - destruct (listeners s) eqn:EL; [discriminate|]. destruct (ctrl_c s) eqn:EC; [|discriminate].
    intros [= <-]. eapply TStopListener; eauto.
  - destruct (service_running s) eqn:ES; [|discriminate]. destruct (handler_alive (hdl s)) eqn:EH; [discriminate|].
    intros [= <-]. eapply TStopService; eauto.
  - destruct (main s) eqn:EM; try discriminate.
    destruct (handler_alive (hdl s) || negb (Nat.eqb (listeners s) 0)); intros [= <-].
    + now apply TCtrlC.
    + apply TMain. discriminate.
  - unfold step_main. destruct (main s); try discriminate.
    + destruct (Nat.eqb _ _); [|discriminate]. intros [= <-]. apply TMain. discriminate.
    + destruct (service_running s); [discriminate|]. intros [= <-]. apply TMain. discriminate.
    + destruct (hdl s); try discriminate; intros [= <-]; apply TMain; discriminate.
Qed.

Lemma reachable_trans_ind auth dbg n (P : sys -> Prop) : P (sys_init n) ->
  (forall s s', reachable auth dbg n s -> P s -> trans auth dbg s s' -> P s') ->
  forall s, reachable auth dbg n s -> P s.
Proof. intros H0 HS. apply reachable_ind; [exact H0|]. intros s l s' Hr Hp E. eapply HS; eauto. eapply step_trans; eauto. Qed.

(** ** Lists of connections *)

Lemma nth_update {A} k (x : A) l j :
  nth_error (update k x l) j
  = if Nat.eqb j k then match nth_error l k with Some _ => Some x | None => None end else nth_error l j.
Proof.
  revert k j. induction l as [|y l IH]; intros [|k] [|j]; cbn [update nth_error Nat.eqb]; try reflexivity.
  - destruct (Nat.eqb j k); reflexivity.
  - apply IH.
Qed.

Lemma update_length {A} k (x : A) l : length (update k x l) = length l.
Proof. revert k. induction l as [|y l IH]; intros [|k]; cbn [update length]; auto. Qed.

Lemma nth_error_snoc {A} (l : list A) x j :
  nth_error (l ++ [x]) j = if Nat.eqb j (length l) then Some x else nth_error l j.
Proof.
  revert j. induction l as [|y l IH]; intros [|j]; cbn [app nth_error length Nat.eqb]; try reflexivity.
  - now destruct j.
  - apply IH.
Qed.

(** A property of every connection, kept by every transition. *)
Definition each (P : conn -> cstate -> Prop) (s : sys) : Prop :=
  forall k c, nth_error (conns s) k = Some c -> P k c.

Lemma each_update P s k c' : each P s -> P k c' -> each P (set_conn k c' s).
Proof.
  intros H Hc j c. cbn [conns set_conn set_conns]. rewrite nth_update.
  destruct (Nat.eqb_spec j k) as [->|Hn]; [|apply H].
  destruct (nth_error (conns s) k); [|discriminate]. intros [= <-]. exact Hc.
Qed.

(** ** C58: bounds *)

Definition bounded (s : sys) : Prop :=
  (length (events s) <= channel_size)%nat /\ each (fun _ c => (length (c_queue c) <= channel_size)%nat) s.

Lemma bounded_inv auth dbg n s : reachable auth dbg n s -> bounded s.
Proof.
  apply (reachable_trans_ind auth dbg n bounded).
  - split; [cbn; lia|]. intros [|k] c H; discriminate.
  - clear s. intros s s' _ (HE & HC) T.
    assert (U : forall k c c', nth_error (conns s) k = Some c -> (length (c_queue c') <= length (c_queue c))%nat ->
                each (fun _ c => (length (c_queue c) <= channel_size)%nat) (set_conn k c' s)).
    { intros k c c' H Hl. apply each_update; [exact HC|]. specialize (HC k c H). cbn beta in HC. lia. }
    destruct T; try (split; [first [exact HE | cbn; lia]|exact HC]);
      try (split; [exact HE|eapply U; [eassumption|]; cbn [c_queue set_reader set_read set_writer set_queue set_sent];
                   try match goal with H : c_queue _ = _ |- _ => rewrite H end; cbn [length]; lia]).
    + split; [exact HE|]. intros k c. cbn [conns set_conns]. rewrite nth_error_snoc.
      destruct (Nat.eqb k _); [intros [= <-]; cbn; lia|apply HC].
    + split; [cbn [events set_events]; rewrite app_length; cbn [length]; lia|].
      exact (U k c (set_reader (RLoop cid rs) c) H (le_n _)).
    + split; [|exact HC]. cbn [events set_hdl set_handled set_events]. rewrite H0 in HE. cbn [length] in HE. lia.
    + split; [exact HE|].
      exact (each_update (fun _ c => (length (c_queue c) <= channel_size)%nat) s to (set_queue (c_queue c ++ [(tx, e)]) c)
               HC ltac:(cbn [c_queue set_queue]; rewrite app_length; cbn [length]; lia)).
Qed.
