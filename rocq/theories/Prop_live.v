(** Property C111: it makes no difference whether clients decide beforehand or as they go. *)
From Verif Require Import Base Base_facts Packets HashMap Subscriptions Messaging Handler Decoder ReadStream ReadStream_facts Plain_facts
  Conn Conn_facts Encoder Encoder_facts WriteStream WriteStream_facts Spec_wire Spec_subs Spec_broker Spec_ref
  Subscriptions_facts Handler_facts System System_facts
  System_hist System_conn System_queue System_first System_progress System_exit System_rest
  Prop_subs Prop_stream Prop_broker Prop_system Prop_rest Prop_mqtt Prop_ref Prop_stop Live Live_facts.
Open Scope N_scope.

(** ** C111 *)

(** Two connections that differ in nothing a task or a peer can see: only in the sizes of reads and the reactions to
    writes that were recorded (the read task and the write task have their own), and in reactions that would come
    after the end of the write task. No reaction but taking bytes is new in the second. *)
Definition like_reactions (w w' : wsock) : Prop := accepted w' = accepted w /\ wgrants w' = wgrants w /\ wreuse w' = wreuse w.

Definition like_conn (c c' : cstate) : Prop :=
  c_addr c' = c_addr c /\ c_read c' = c_read c /\ c_queue c' = c_queue c /\ c_sent c' = c_sent c
  /\ c_reader c' = c_reader c
  /\ match c_writer c, c_writer c' with
     | WClosed ws, WClosed ws' => wbuf ws' = wbuf ws /\ like_reactions (wsk ws) (wsk ws')
     | w, w' => w' = w
     end
  /\ arriving (c_rsock c') = arriving (c_rsock c) /\ ending (c_rsock c') = ending (c_rsock c)
  /\ grants (c_rsock c') = grants (c_rsock c) /\ reuse (c_rsock c') = reuse (c_rsock c)
  /\ like_reactions (c_wsock c) (c_wsock c')
  /\ forall a, In a (wacts (c_wsock c')) -> (exists m, a = WAccept m) \/ In a (wacts (c_wsock c)).

Definition like (s s' : sys) : Prop :=
  events s' = events s /\ hdl s' = hdl s /\ svc s' = svc s /\ service_running s' = service_running s
  /\ listeners s' = listeners s /\ ctrl_c s' = ctrl_c s /\ main s' = main s /\ handled s' = handled s /\ log s' = log s
  /\ Forall2 like_conn (conns s) (conns s').

(** Every state that clients deciding as they go can bring about, clients that decided beforehand can. *)
Definition rest_of_reader (c : cstate) : list N :=
  match c_reader c with RFirst st | RPush _ _ st | RLoop _ st => chunks (rsk st) | RDone => [] end.

Definition rest_of_writer (c : cstate) : list wact :=
  match c_writer c with WIdle st | WBusy _ st => wacts (wsk st) | WClosed _ => [] end.

Lemma later_id st : later [] (ending (rsk st)) (chunks (rsk st)) st = st.
Proof. destruct st as [b [ar en ch gr re]]. unfold later. cbn [rbuf rsk arriving ending chunks grants reuse]. now rewrite app_nil_r. Qed.

Lemma wlater_id st : wlater (wacts (wsk st)) st = st.
Proof. now destruct st as [b [ac wa gr re]]. Qed.

Theorem C111_no_difference auth dbg n s : live_reachable auth dbg n s -> exists s', reachable auth dbg n s' /\ like s s'.
Proof.
  intros HL. destruct (live_foreseen auth dbg n s HL) as (HA & HP).
  pose (z := fun k => match nth_error (conns s) k with
    | Some c => {| f_bytes := []; f_end := ending (c_rsock c); f_chunks := rest_of_reader c; f_acts := rest_of_writer c |}
    | None => {| f_bytes := []; f_end := PeerOpen; f_chunks := []; f_acts := [] |} end).
  destruct (HP z) as (x & HK & HR).
  { intros k c Hk. unfold z. rewrite Hk. right. split; reflexivity. }
  exists (ext_sys z x s). split; [exact HR|]. repeat split; try reflexivity. cbn [ext_sys set_conns conns].
  assert (G : forall cs i, (forall k c, nth_error cs k = Some c -> like_conn c (ext (z (i + k)%nat) (x (i + k)%nat) c)) ->
    Forall2 like_conn cs (mapi (fun k => ext (z k) (x k)) i cs)).
  { induction cs as [|c cs IH]; intros i H; cbn [mapi]; constructor.
    - specialize (H O c eq_refl). now rewrite Nat.add_0_r in H.
    - apply IH. intros k c' Hk. specialize (H (Datatypes.S k) c' Hk). now replace (Datatypes.S i + k)%nat with (i + Datatypes.S k)%nat by lia. }
  apply G. intros k c Hk. cbn [Nat.add]. destruct (HA k c Hk) as (H1 & H2). specialize (HK k c Hk).
  assert (EZ : z k = {| f_bytes := []; f_end := ending (c_rsock c); f_chunks := rest_of_reader c; f_acts := rest_of_writer c |}) by (unfold z; now rewrite Hk).
  rewrite EZ in *. unfold like_conn, ext. cbn [c_addr c_rsock c_wsock c_reader c_read c_queue c_writer c_sent arriving ending grants reuse f_bytes f_end f_chunks f_acts].
  repeat split; try reflexivity.
  - unfold ext_reader, rest_of_reader. cbn [f_bytes f_end f_chunks]. destruct (c_reader c) as [st|e cid st|cid st|]; try reflexivity; rewrite <- H1, later_id; reflexivity.
  - unfold ext_writer, rest_of_writer. cbn [f_acts]. destruct (c_writer c) as [st|p st|st]; [now rewrite wlater_id|now rewrite wlater_id|].
    repeat split.
  - apply app_nil_r.
  - cbn [wacts]. rewrite Forall_forall in HK. intros a Ha. destruct (HK a Ha) as [K|[K|K]]; [now left|now right|right].
    cbn [f_acts] in K. unfold rest_of_writer in K. destruct (c_writer c); [now apply H2|now apply H2|destruct K].
Qed.

(** And the other way round. *)
Theorem C111_converse auth dbg n s : reachable auth dbg n s -> live_reachable auth dbg n s.
Proof.
  intros (ls & H). exists (map Own ls). revert H. generalize (sys_init n). induction ls as [|l ls IH]; intros s0 H; [exact H|].
  cbn [map live_steps live_step steps] in *. destruct (step auth dbg s0 l); [now apply IH|discriminate].
Qed.

(** So whatever holds of every state of [System.v], and does not look at those records, holds. *)
Theorem C111_transfer auth dbg n (P : sys -> Prop) : (forall s s', like s s' -> P s' -> P s) ->
  (forall s, reachable auth dbg n s -> P s) -> forall s, live_reachable auth dbg n s -> P s.
Proof. intros HP H s HL. destruct (C111_no_difference auth dbg n s HL) as (s' & HR & HK). now apply (HP s s' HK), H. Qed.

Lemma like_nth s s' k : like s s' ->
  match nth_error (conns s) k, nth_error (conns s') k with Some c, Some c' => like_conn c c' | None, None => True | _, _ => False end.
Proof.
  intros (_ & _ & _ & _ & _ & _ & _ & _ & _ & H). revert k. induction H as [|c c' cs cs' Hc _ IH]; intros [|k]; cbn [nth_error]; try exact I; [exact Hc|apply IH].
Qed.

Lemma like_some s s' k c : like s s' -> nth_error (conns s) k = Some c -> exists c', nth_error (conns s') k = Some c' /\ like_conn c c'.
Proof. intros H Hk. pose proof (like_nth s s' k H) as K. rewrite Hk in K. destruct (nth_error (conns s') k) as [c'|]; [eauto|contradiction]. Qed.

(** For one thing: in every run each connection is sent what the reference broker sends, in its order. *)
Theorem C111_reference auth dbg n s k c : live_reachable auth dbg n s -> nth_error (conns s) k = Some c ->
  exists rest, ref_sends auth ref_init (map snd (handled s)) k = map ServerPacket (broker_sent c) ++ rest.
Proof.
  intros HL Hk. destruct (C111_no_difference auth dbg n s HL) as (s' & HR & HK).
  destruct (like_some s s' k c HK Hk) as (c' & Hk' & HC). destruct (C86_every_execution auth dbg n s' k HR) as (_ & H).
  destruct (H c' Hk') as (rest & E). exists rest. destruct HK as (_ & _ & _ & _ & _ & _ & _ & <- & _). rewrite E.
  unfold broker_sent. destruct HC as (_ & _ & _ & -> & _). reflexivity.
Qed.

(** ** What the tasks do next *)

Lemma Forall2_update {A} (R : A -> A -> Prop) l l' : Forall2 R l l' -> forall k c c', R c c' -> Forall2 R (update k c l) (update k c' l').
Proof. induction 1 as [|a a' l l' H H2 IH]; intros [|k] c c' Hc; cbn [update]; constructor; auto. Qed.

Lemma like_put s s' k c c' : like s s' -> like_conn c c' -> like (set_conn k c s) (set_conn k c' s').
Proof.
  intros (H1 & H2 & H3 & H4 & H5 & H6 & H7 & H8 & H9 & H) Hc. unfold like, set_conn, set_conns. cbn [conns events hdl svc service_running listeners ctrl_c main handled log].
  repeat (split; [assumption|]). now apply Forall2_update.
Qed.

Definition both (o o' : option sys) : Prop :=
  match o, o' with Some s, Some s' => like s s' | None, None => True | _, _ => False end.

Lemma like_reader dbg s s' k uuid : like s s' -> both (step_reader dbg s k uuid) (step_reader dbg s' k uuid).
Proof.
  intros HK. unfold step_reader. pose proof (like_nth s s' k HK) as HC.
  destruct (nth_error (conns s) k) as [c|], (nth_error (conns s') k) as [c'|]; try contradiction; [|exact I].
  pose proof HC as (E1 & E2 & E3 & E4 & E5 & E6 & E7 & E8 & E9 & E10 & E11 & E12).
  assert (SET : forall r ps, like_conn (set_reader r (set_read ps c)) (set_reader r (set_read ps c'))) by (intros; repeat split; try assumption; apply E11).
  assert (SET1 : forall r, like_conn (set_reader r c) (set_reader r c')) by (intros; repeat split; try assumption; apply E11).
  pose proof HK as (H1 & H2 & _). rewrite E5, E2, E1, H1, H2.
  destruct (c_reader c) as [st|e cid st|cid st|]; [| | |exact I].
  - destruct (stream_read_packet dbg st) as [p st'| | | | |]; try exact I; [destruct p| |]; cbn [both]; now apply like_put.
  - destruct (handler_alive (hdl s)); [destruct (Nat.ltb _ _); [|exact I]|]; cbn [both].
    + pose proof (like_put s s' k _ _ HK (SET1 (RLoop cid st))) as (K1 & K2 & K3 & K4 & K5 & K6 & K7 & K8 & K9 & K10).
      repeat split; try assumption.
    + now apply like_put.
  - destruct (stream_read_packet dbg st) as [p st'| | | | |]; try exact I; cbn [both]; now apply like_put.
Qed.

Lemma like_writer s s' k : like s s' -> both (step_writer s k) (step_writer s' k).
Proof.
  intros HK. unfold step_writer. pose proof (like_nth s s' k HK) as HC.
  destruct (nth_error (conns s) k) as [c|], (nth_error (conns s') k) as [c'|]; try contradiction; [|exact I].
  pose proof HC as (E1 & E2 & E3 & E4 & E5 & E6 & E7 & E8 & E9 & E10 & E11 & E12).
  pose proof HK as (H1 & H2 & H3 & H4 & _).
  assert (HS : has_sender s' k c' = has_sender s k c) by (unfold has_sender; now rewrite E5, H1, H2, H3, H4).
  assert (SAME : forall c1 c1', c_addr c1' = c_addr c1 -> c_read c1' = c_read c1 -> c_queue c1' = c_queue c1 -> c_sent c1' = c_sent c1 ->
    c_reader c1' = c_reader c1 -> c_writer c1' = c_writer c1 -> c_rsock c1 = c_rsock c -> c_rsock c1' = c_rsock c' -> c_wsock c1 = c_wsock c -> c_wsock c1' = c_wsock c' ->
    like_conn c1 c1').
  { intros c1 c1' A1 A2 A3 A4 A5 A6 A7 A8 A9 A10. unfold like_conn. rewrite A1, A2, A3, A4, A5, A6, A7, A8, A9, A10. repeat (split; [reflexivity|]).
    split; [now destruct (c_writer c1)|]. repeat (split; [assumption|]). exact E12. }
  destruct (c_writer c) as [st|p st|st] eqn:EW, (c_writer c') as [st'|p' st'|st'] eqn:EW'; try discriminate E6; try exact I.
  - injection E6 as ->. rewrite E3, HS. destruct (c_queue c) as [|[f [p|]] q] eqn:EQ.
    + destruct (has_sender s k c); [exact I|]. cbn [both]. apply like_put; [exact HK|]. apply SAME; cbn; auto; congruence.
    + cbn [both]. apply like_put; [exact HK|]. apply SAME; cbn; auto; congruence.
    + cbn [both]. apply like_put; [exact HK|]. apply SAME; cbn; auto; congruence.
  - injection E6 as -> ->. destruct (write_packet p st); cbn [both]; try exact I; (apply like_put; [exact HK|]); apply SAME; cbn; auto; congruence.
Qed.

Lemma like_handler auth s s' now : like s s' -> both (step_handler auth s now) (step_handler auth s' now).
Proof.
  intros HK. unfold step_handler. pose proof HK as (H1 & H2 & H3 & H4 & H5 & H6 & H7 & H8 & H9 & H10). rewrite H2, H1, H3.
  destruct (hdl s) as [|tx p| |]; try exact I.
  - destruct (events s) as [|e es]; [exact I|]. cbn [both]. unfold like, set_hdl, set_handled, set_events.
    cbn [conns events hdl svc service_running listeners ctrl_c main handled log]. rewrite H8. repeat (split; [try assumption; reflexivity|]). exact H10.
  - destruct p as [| |T op f|to e p'].
    + cbn [both]. unfold like, set_hdl. cbn [conns events hdl svc service_running listeners ctrl_c main handled log].
      repeat (split; [try assumption; reflexivity|]). exact H10.
    + cbn [both]. unfold like, panic_handler, set_events, set_hdl. cbn [conns events hdl svc service_running listeners ctrl_c main handled log].
      repeat (split; [try assumption; reflexivity|]). exact H10.
    + destruct (serve (svc s) op) as [m r]. cbn [both]. unfold like, set_hdl, set_svc. cbn [conns events hdl svc service_running listeners ctrl_c main handled log].
      repeat (split; [try assumption; reflexivity|]). exact H10.
    + pose proof (like_nth s s' to HK) as HC.
      destruct (nth_error (conns s) to) as [c|], (nth_error (conns s') to) as [c'|]; try contradiction; [|exact I].
      pose proof HC as (E1 & E2 & E3 & E4 & E5 & E6 & E7 & E8 & E9 & E10 & E11 & E12). rewrite E3.
      assert (PANIC : like (panic_handler s) (panic_handler s')).
      { unfold like, panic_handler, set_events, set_hdl. cbn [conns events hdl svc service_running listeners ctrl_c main handled log].
        repeat (split; [try assumption; reflexivity|]). exact H10. }
      assert (SEND : like (set_hdl (HBusy tx p') (set_log (log s ++ [(tx, to, e)]) (set_conn to (set_queue (c_queue c ++ [(tx, e)]) c) s)))
                          (set_hdl (HBusy tx p') (set_log (log s' ++ [(tx, to, e)]) (set_conn to (set_queue (c_queue c ++ [(tx, e)]) c') s')))).
      { assert (HC' : like_conn (set_queue (c_queue c ++ [(tx, e)]) c) (set_queue (c_queue c ++ [(tx, e)]) c')) by (repeat split; try assumption; apply E11).
        pose proof (like_put s s' to _ _ HK HC') as (K1 & K2 & K3 & K4 & K5 & K6 & K7 & K8 & K9 & K10).
        unfold like, set_hdl, set_log. cbn [conns events hdl svc service_running listeners ctrl_c main handled log]. rewrite H9.
        repeat (split; [try assumption; reflexivity|]). exact K10. }
      destruct (c_writer c) as [st|p st|st], (c_writer c') as [st'|q st'|st']; try discriminate E6; try exact PANIC;
        destruct (Nat.ltb _ _); try exact I; exact SEND.
Qed.

(** What the tasks can do from two such states is the same. *)
Theorem like_step auth dbg s s' l : like s s' -> both (step auth dbg s l) (step auth dbg s' l).
Proof.
  intros HK. pose proof HK as (H1 & H2 & H3 & H4 & H5 & H6 & H7 & H8 & H9 & H10). unfold step.
  assert (ER : running s' = running s) by (unfold running; now rewrite H7). rewrite ER. destruct (running s); [|exact I].
  destruct l as [r w address|k uuid|k|now| | | | |].
  - rewrite H5. destruct (listeners s) eqn:EL; [exact I|]. cbn [both]. unfold like, set_conns. cbn [conns events hdl svc service_running listeners ctrl_c main handled log].
    repeat (split; [try assumption; congruence|]). apply Forall2_app; [exact H10|]. constructor; [|constructor]. repeat split; auto.
  - now apply like_reader.
  - now apply like_writer.
  - now apply like_handler.
  - rewrite H2, H6. destruct (hdl s) eqn:EH; try exact I. destruct (ctrl_c s) eqn:E; [|exact I]. cbn [both]. unfold like, set_hdl, set_events.
    cbn [conns events hdl svc service_running listeners ctrl_c main handled log]. repeat (split; [try assumption; congruence|]). exact H10.
  - rewrite H5, H6. destruct (listeners s) eqn:EL; try exact I. destruct (ctrl_c s) eqn:E; [|exact I]. cbn [both]. unfold like, set_listeners.
    cbn [conns events hdl svc service_running listeners ctrl_c main handled log]. repeat (split; [try assumption; congruence|]). exact H10.
  - rewrite H2, H4. destruct (_ && _)%bool; [|exact I]. cbn [both]. unfold like, set_service_running.
    cbn [conns events hdl svc service_running listeners ctrl_c main handled log]. repeat (split; [try assumption; congruence|]). exact H10.
  - rewrite H7, H2, H5. destruct (main s) eqn:EM; try exact I. destruct (_ || _)%bool; cbn [both]; unfold like, set_main, set_ctrl_c;
      cbn [conns events hdl svc service_running listeners ctrl_c main handled log]; repeat (split; [try assumption; congruence|]); exact H10.
  - unfold step_main. rewrite H7, H5, H4, H2. destruct (main s) eqn:EM; try exact I.
    + destruct (Nat.eqb _ _); [|exact I]. cbn [both]. unfold like, set_main. cbn [conns events hdl svc service_running listeners ctrl_c main handled log].
      repeat (split; [try assumption; congruence|]). exact H10.
    + destruct (service_running s) eqn:E; [exact I|]. cbn [both]. unfold like, set_main. cbn [conns events hdl svc service_running listeners ctrl_c main handled log].
      repeat (split; [try assumption; congruence|]). exact H10.
    + destruct (hdl s) eqn:E; try exact I; cbn [both]; unfold like, set_main; cbn [conns events hdl svc service_running listeners ctrl_c main handled log];
      repeat (split; [try assumption; congruence|]); exact H10.
Qed.

Lemma inevitably_like auth dbg (P : sys -> Prop) s' : inevitably auth dbg P s' -> forall s, like s s' ->
  inevitably auth dbg (fun s1 => exists s1', like s1 s1' /\ P s1') s.
Proof.
  induction 1 as [s' HR HN IH]. intros s HK. constructor.
  - intros HS. exists s'. split; [exact HK|]. apply HR. intros l Hl. pose proof (like_step auth dbg s s' l HK) as K. rewrite (HS l Hl) in K.
    destruct (step auth dbg s' l); [contradiction|reflexivity].
  - intros l s1 Hl Hs. pose proof (like_step auth dbg s s' l HK) as K. rewrite Hs in K. destruct (step auth dbg s' l) as [s1'|] eqn:E; [|contradiction].
    exact (IH l s1' Hl E s1 K).
Qed.

(** If from some moment on the clients do nothing new, the broker comes to rest, in one of the states of C87. *)
Theorem C111_comes_to_rest auth dbg n s : live_reachable auth dbg n s ->
  inevitably auth dbg (fun s1 => exists s1', like s1 s1' /\ rest_state auth dbg s1') s.
Proof.
  intros HL. destruct (C111_no_difference auth dbg n s HL) as (s' & HR & HK).
  exact (inevitably_like auth dbg _ s' (C87_every_run auth dbg n s' HR) s HK).
Qed.

(** With clients that send nothing but whole packets, 4096 bytes in all, and that read what they are sent: all their packets
    have been handled then, and they have been sent what the reference broker sends. *)
Definition reads_on (w : wsock) : Prop := ~ In WBlock (wacts w).

Lemma inevitably_impl auth dbg (P Q : sys -> Prop) s : (forall s, P s -> Q s) -> inevitably auth dbg P s -> inevitably auth dbg Q s.
Proof. intros H. induction 1 as [s HR _ IH]. constructor; auto. Qed.

Theorem C111_served auth dbg n s : live_reachable auth dbg n s ->
  inevitably auth dbg (fun s1 => handler_alive (hdl s1) = true ->
    (forall k c, nth_error (conns s1) k = Some c -> reads_on (c_wsock c)) ->
    forall k c ps bss, nth_error (conns s1) k = Some c -> arriving (c_rsock c) = concat bss -> Forall2 sent_as ps bss -> lenN (concat bss) <= 4096 ->
    (exists cid, (forall p qs, ps = Connect p :: qs -> goes_by p cid) /\ events_of k (map snd (handled s1)) = issued k (c_addr c) cid ps)
    /\ broker_sent c = before_close (ref_sends auth ref_init (map snd (handled s1)) k)) s.
Proof.
  intros HL. eapply inevitably_impl; [|exact (C111_comes_to_rest auth dbg n s HL)].
  intros s1 (s1' & HK & HR) HA HB k c ps bss Hk HArr HF HLen.
  pose proof HK as (_ & HH & _ & _ & _ & _ & _ & HHd & _).
  assert (BL : forall j cj', nth_error (conns s1') j = Some cj' -> ~ blocks (c_wsock cj')).
  { intros j cj' Hj Hb. pose proof (like_nth s1 s1' j HK) as K. rewrite Hj in K. destruct (nth_error (conns s1) j) as [cj|] eqn:Ej; [|contradiction].
    destruct K as (_ & _ & _ & _ & _ & _ & _ & _ & _ & _ & _ & K). destruct (K WBlock Hb) as [(m & ?)|K']; [discriminate|]. exact (HB j cj Ej K'). }
  destruct (like_some s1 s1' k c HK Hk) as (c' & Hk' & HC). pose proof HC as (E1 & _ & _ & E4 & _ & _ & E7 & _).
  destruct HR as [HR|j cj _ Hj HR|HI HAf HR].
  - rewrite HH in HR. congruence.
  - destruct (BL j cj Hj HR).
  - destruct (HR k c' Hk') as (H1 & w & H2 & _ & H3). rewrite (H3 (BL k c' Hk')), app_nil_r in H2.
    rewrite HHd in *. rewrite E1 in H1. unfold broker_sent in *. rewrite E4 in H2. split; [|now symmetry].
    assert (ES : client_sends dbg c' = ps).
    { unfold client_sends. destruct (read_all_sent dbg ps bss (connection_stream (c_rsock c')) [] (wf_connection _) HF) as (st' & W & HP & _ & _ & _ & _ & _ & ER).
      - unfold pending, connection_stream. cbn. rewrite E7, app_nil_r. exact HArr.
      - exact HLen.
      - rewrite ER. rewrite (read_all_step dbg st' W).
        destruct (stream_read_packet dbg st') as [p st2|e| | | |] eqn:EP; cbn [fst]; try apply app_nil_r.
        exfalso. destruct (read_packet_consumes dbg st' p st2 W EP) as (_ & _ & _ & HLn). rewrite HP in HLn. cbn in HLn. lia. }
    rewrite ES in H1. exact H1.
Qed.

(** A client that subscribes only after it was let in, and publishes only after its subscription was acknowledged; it takes
    one byte of each write. *)
Definition ex_round : list act :=
  map Own ([LReader 0%nat []; LReader 0%nat []] ++ repeat (LHandler 5) 6%nat ++ [LWriter 0%nat; LWriter 0%nat]).

Fixpoint live_drive (auth : bytes -> bytes -> bool) (dbg : bool) (s : sys) (l : list act) : sys :=
  match l with
  | [] => s
  | a :: l' => live_drive auth dbg (match live_step auth dbg s a with Some s' => s' | None => s end) l'
  end.

Lemma live_drive_reachable auth dbg n l : live_reachable auth dbg n (live_drive auth dbg (sys_init n) l).
Proof.
  unfold live_reachable. generalize (sys_init n). induction l as [|a l IH]; intros s; cbn [live_drive]; [now exists []|].
  destruct (live_step auth dbg s a) as [s1|] eqn:E; [|apply IH]. destruct (IH s1) as (l' & H). exists (a :: l'). cbn [live_steps]. now rewrite E.
Qed.

Definition ex_open : rsock := {| arriving := []; ending := PeerOpen; chunks := []; grants := []; reuse := true |}.

Definition ex_talk1 : list act :=
  [Own (LAccept ex_open (ex_socket []) 1); Arrive 0%nat (ex_bytes [ex_client "c" None None]) [3; 1]; React 0%nat (repeat (WAccept 1) 9%nat)] ++ ex_round.
Definition ex_talk2 : list act := [Arrive 0%nat (ex_bytes [Subscribe 1 [{| sub_topic := str "a"; sub_qos := AtMostOnce |}]]) []] ++ ex_round.
Definition ex_talk3 : list act := [Arrive 0%nat (ex_bytes [Publish (ex_message "a" "hello")]) []; Finish 0%nat PeerEof] ++ ex_round ++ ex_round.

Example C111_case :
  let s1 := live_drive ex_deny true (sys_init 1) ex_talk1 in
  let s2 := live_drive ex_deny true (sys_init 1) (ex_talk1 ++ ex_talk2) in
  let s3 := live_drive ex_deny true (sys_init 1) (ex_talk1 ++ ex_talk2 ++ ex_talk3) in
  live_reachable ex_deny true 1 s3
  /\ map broker_sent (conns s1) = [[ConnAck {| session_present := false; return_code := Accepted |}]]
  /\ map broker_sent (conns s2) = [[ConnAck {| session_present := false; return_code := Accepted |}; SubAck 1 [SuccessQoS0]]]
  /\ map broker_sent (conns s3) = [[ConnAck {| session_present := false; return_code := Accepted |}; SubAck 1 [SuccessQoS0];
       Publish (ex_message "a" "hello")]]
  /\ map (fun c => (c_reader c, reads_on (c_wsock c))) (conns s3) = [(RDone, reads_on (react (repeat (WAccept 1) 9%nat) (ex_socket [])))].
Proof. split; [apply live_drive_reachable|]. vm_compute. auto. Qed.
