(** Properties C87-C89: what every run comes to, whatever the sockets do, and how one client stops it. *)
From Verif Require Import Base Base_facts Packets HashMap Subscriptions Messaging Handler Decoder ReadStream
  Conn Encoder Encoder_facts WriteStream WriteStream_facts Spec_wire Spec_subs Spec_broker Spec_ref Subscriptions_facts
  Handler_facts System System_facts System_hist System_conn System_queue System_first System_progress System_exit
  System_rest Prop_subs Prop_stream Prop_broker Prop_system Prop_rest Prop_mqtt Prop_ref.
Open Scope N_scope.

(** ** C87 *)

(** A state of rest is one of three: the handler has ended; it waits for ever for room in the queue of a peer
    that stopped reading; or every packet that arrived was handled, in order, and each connection was sent what
    the reference broker sends, up to the first close request, but for at most 32 packets that a peer which
    stopped reading did not take. *)
Inductive rest_state auth dbg (s : sys) : Prop :=
| RestEnded : handler_alive (hdl s) = false -> rest_state auth dbg s
| RestStuck k c : stuck s -> nth_error (conns s) k = Some c -> blocks (c_wsock c) -> rest_state auth dbg s
| RestDone : hdl s = HIdle -> after auth (handled s) (svc s) ->
    (forall k c, nth_error (conns s) k = Some c ->
       (exists cid, (forall p qs, client_sends dbg c = Connect p :: qs -> goes_by p cid)
          /\ events_of k (map snd (handled s)) = issued k (c_addr c) cid (client_sends dbg c))
       /\ exists waiting, before_close (ref_sends auth ref_init (map snd (handled s)) k) = broker_sent c ++ waiting
            /\ (length waiting <= 32)%nat /\ (~ blocks (c_wsock c) -> waiting = [])) ->
    rest_state auth dbg s.

Lemma before_close_length l : (length (before_close l) <= length l)%nat.
Proof. induction l as [|[p|] l IH]; cbn; lia. Qed.

Theorem C87_rest auth dbg n s : reachable auth dbg n s -> at_rest auth dbg s -> rest_state auth dbg s.
Proof.
  intros HR HS. destruct (handler_alive (hdl s)) eqn:HA; [|now apply RestEnded].
  pose proof (alive_running auth dbg n s HR HA) as Hr.
  pose proof (HS (LHandler 0) I) as H. unfold step, step_handler in H. rewrite Hr in H.
  destruct (hdl s) as [|tx p| |] eqn:EH; try discriminate.
  - destruct (events s) as [|e es] eqn:EE; [|discriminate]. clear H.
    pose proof (hist_invariant auth dbg n s HR) as HH. unfold hist_inv in HH. rewrite EH in HH.
    apply RestDone; [exact EH|eexists; exact HH|]. intros k c Hk. split.
    + destruct (rest_reader auth dbg n s k c HR HS Hr Hk (fun _ => EE)) as (Ho & Hp).
      pose proof (flow_invariant auth dbg n s HR k) as HF. unfold flow_ok in HF. rewrite Hk, EH, Hp, EE, !app_nil_r in HF.
      cbn [handler_alive] in HF. unfold client_sends.
      destruct HF as (cid & _ & Hi & HF). destruct Ho as [Ho|(p & Ho & HN)].
      * exists cid. rewrite Ho. split; [exact Hi|exact HF].
      * exists cid. destruct (read_prefix auth dbg n s k c HR Hk) as (rest & Hrest). rewrite Ho in Hrest. cbn [app] in Hrest.
        rewrite Hrest. split.
        -- intros p' qs [= -> _]. exfalso. now apply (HN p').
        -- rewrite HF, Ho. destruct p; try reflexivity. exfalso. eapply HN. reflexivity.
    + rewrite <- (proj1 (C86_all_events auth (handled s) k)), HH. cbn [fst snd]. rewrite <- put_to_sent.
      pose proof (queue_invariant auth dbg n s HR k) as HQ. unfold queue_ok in HQ. rewrite Hk in HQ. destruct HQ as (_ & HQ).
      assert (M : map snd (map as_sent (c_sent c)) = map ServerPacket (broker_sent c)).
      { unfold broker_sent. rewrite !map_map. reflexivity. }
      assert (Q : map snd (put_to k (log s)) = map ServerPacket (broker_sent c) ++ map snd (c_queue c) ->
        exists waiting, before_close (map snd (put_to k (log s))) = broker_sent c ++ waiting
          /\ (length waiting <= 32)%nat /\ (~ blocks (c_wsock c) -> waiting = [])).
      { intros ->. exists (before_close (map snd (c_queue c))). rewrite before_close_sent. split; [reflexivity|]. split.
        - pose proof (before_close_length (map snd (c_queue c))) as K. rewrite map_length in K.
          destruct (C58_queues_bounded auth dbg n s HR) as (_ & K2). specialize (K2 k c Hk). lia.
        - intros HB. destruct (rest_writers auth dbg n s k c HR HS Hr Hk HB) as (-> & _). reflexivity. }
      destruct (c_writer c) as [ws|p ws|ws].
      * apply Q. now rewrite HQ, map_app, M.
      * apply Q. now rewrite HQ, map_app, M.
      * destruct HQ as (Eq & [(HQ & _)|(f & r & HQ)]).
        -- apply Q. now rewrite HQ, M, Eq, app_nil_r.
        -- exists []. rewrite HQ, map_app, M, before_close_sent. cbn. auto with arith.
  - destruct p as [| |R op f|to e p]; try discriminate.
    + destruct (serve (svc s) op); discriminate.
    + pose proof (target_exists auth dbg n s tx to e p HR EH) as HT.
      destruct (nth_error (conns s) to) as [c|] eqn:Hc; [|congruence].
      destruct (C58_queues_bounded auth dbg n s HR) as (_ & HB). specialize (HB to c Hc).
      assert (HL : length (c_queue c) = 32%nat).
      { destruct (Nat.ltb_spec (length (c_queue c)) channel_size) as [Hl|Hl]; [destruct (c_writer c); discriminate|].
        unfold channel_size in Hl. lia. }
      pose proof (HS (LWriter to) I) as HW. unfold step, step_writer in HW. rewrite Hr, Hc in HW.
      destruct (c_writer c) as [ws|q ws|ws] eqn:EW.
      * destruct (c_queue c) as [|[f [q|]] l]; [discriminate HL|discriminate HW|discriminate HW].
      * pose proof (busy_blocked auth dbg n s to c q ws HR Hc EW) as K.
        destruct (write_packet q ws) as [| |st| |] eqn:EP; try discriminate HW; try contradiction.
        apply (RestStuck _ _ _ to c); [|exact Hc|exact K]. exists tx, to, e, p, c, q, ws. unfold channel_size. eauto 10.
      * discriminate H.
Qed.

(** Every run from every reachable state comes to such a state, if no more connections are accepted. *)
Theorem C87_every_run auth dbg n s : reachable auth dbg n s -> inevitably auth dbg (rest_state auth dbg) s.
Proof.
  intros HR. pose proof (dies_out auth dbg n s HR) as HA. induction HA as [s _ IH]. constructor.
  - intros HS. now apply (C87_rest auth dbg n).
  - intros l s' Hl Hs. apply IH; [|eapply reachable_step; eauto].
    exists l. split; [destruct l; try exact I; destruct Hl|exact Hs].
Qed.

(** The third case with a peer that does not read at all: 32 messages wait for it, and the publisher is served. *)
Definition ex_lazy : sys := drive ex_deny true (sys_init 1) (ex_sub_pub [WBlock] 10).

Example C87_case : reachable ex_deny true 1 ex_lazy /\ at_rest ex_deny true ex_lazy /\ hdl ex_lazy = HIdle
  /\ map (fun c => (length (broker_sent c), length (c_queue c))) (conns ex_lazy) = [(1%nat, 11%nat); (1%nat, 0%nat)].
Proof.
  split; [apply drive_reachable|]. split; [|vm_compute; auto].
  assert (K : idleb true ex_lazy = true) by (vm_compute; reflexivity). generalize dependent ex_lazy. intros s K l Hl.
  destruct (step ex_deny true s l) as [s'|] eqn:E; [|reflexivity]. exfalso. exact (idleb_idle ex_deny true s K l s' Hl E).
Qed.

(** ** C88 *)

(** Nothing is handled or sent any more, whatever happens. *)
Definition out_of_service auth dbg (s : sys) : Prop :=
  forall ls s', steps auth dbg s ls = Some s' -> handled s' = handled s /\ log s' = log s.

Lemma ended_out auth dbg s : handler_alive (hdl s) = false -> out_of_service auth dbg s.
Proof. intros H ls s' Hs. destruct (C53_an_ended_handler_does_nothing auth dbg s ls s' Hs H) as (_ & H1 & H2 & _). auto. Qed.

Lemma stuck_out auth dbg s : stuck s -> out_of_service auth dbg s.
Proof. intros H ls s' Hs. destruct (C54_stalled_for_ever_partial auth dbg s ls s' H Hs) as (_ & H1 & H2 & _). auto. Qed.

(** The peer of a connection stays the same. *)
Lemma peer_stays auth dbg s l s' k c : internal l -> step auth dbg s l = Some s' -> nth_error (conns s) k = Some c ->
  exists c', nth_error (conns s') k = Some c' /\ c_rsock c' = c_rsock c /\ c_wsock c' = c_wsock c.
Proof.
  intros HI HS Hk. destruct (nth_error (conns s') k) as [c'|] eqn:Hk'.
  - destruct (peers_stay auth dbg s s' (step_trans auth dbg s l s' HS) k c' Hk') as [(c0 & H0 & E1 & E2)|HN]; [|congruence].
    rewrite Hk in H0. injection H0 as <-. eauto.
  - exfalso. apply nth_error_None in Hk'. rewrite (no_new_conns auth dbg s l s' HI HS) in Hk'.
    apply nth_error_None in Hk'. congruence.
Qed.

(** What no state of rest allows must end the service. *)
Lemma must_stop auth dbg n (r : rsock) (w : wsock) k :
  (forall s c, reachable auth dbg n s -> nth_error (conns s) k = Some c -> c_rsock c = r -> c_wsock c = w ->
     rest_state auth dbg s -> handler_alive (hdl s) = false \/ stuck s) ->
  forall s c, reachable auth dbg n s -> nth_error (conns s) k = Some c -> c_rsock c = r -> c_wsock c = w ->
  inevitably auth dbg (out_of_service auth dbg) s.
Proof.
  intros HP s c HR. pose proof (dies_out auth dbg n s HR) as HA. revert c HR. induction HA as [s _ IH]. intros c HR Hk Hr Hw.
  constructor.
  - intros HS. destruct (HP s c HR Hk Hr Hw (C87_rest auth dbg n s HR HS)) as [H|H]; [now apply ended_out|now apply stuck_out].
  - intros l s' Hl Hs. destruct (peer_stays auth dbg s l s' k c Hl Hs Hk) as (c' & Hk' & E1 & E2).
    apply (IH s') with (c := c'); auto; [|eapply reachable_step; eauto|congruence|congruence].
    exists l. split; [destruct l; try exact I; destruct Hl|exact Hs].
Qed.

(** ** Every packet costs a reaction of the socket *)

(** A reaction [WBlock] is never used up. *)
Definition stays (st st' : wstream) : Prop := In WBlock (acts st) -> In WBlock (acts st').

(** The reactions before the first [WBlock]. *)
Fixpoint fore (l : list wact) : nat :=
  match l with [] | WBlock :: _ => O | _ :: l => Datatypes.S (fore l) end.

Definition wcost (st : wstream) (r : wout) : Prop :=
  match r with
  | WOk st' => (fore (acts st') <= fore (acts st))%nat /\ stays st st'
  | WErr st' => (fore (acts st') < fore (acts st))%nat /\ stays st st'
  | _ => True
  end.

Lemma wcost_refl st : wcost st (WOk st).
Proof. split; [lia|]. intros H. exact H. Qed.

Lemma wcost_seq st st1 r : wcost st (WOk st1) -> wcost st1 r -> wcost st r.
Proof.
  intros (H & Hs). destruct r; cbn [wcost]; auto; intros (H1 & Hs1); (split; [lia|]); intros Hi; now apply Hs1, Hs.
Qed.

Lemma write_buf_cost st : wcost st (write_buf st)
  /\ (data (wbuf st) <> [] -> forall st', write_buf st = WOk st' -> In WBlock (acts st) -> (fore (acts st') < fore (acts st))%nat).
Proof.
  unfold write_buf, acts. destruct (data (wbuf st)) as [|x xs]; [split; [apply wcost_refl|congruence]|].
  destruct (wacts (wsk st)) as [|[n| |] rest] eqn:E; cbn [wcost wsk wacts fore]; unfold stays, acts; rewrite ?E; cbn [wsk wacts fore].
  - split; [split; [lia|auto]|]. intros _ st' _ [].
  - split; [split; [lia|]|]; [intros [H|H]; [discriminate|exact H]|]. intros _ st' [= <-] _. cbn. lia.
  - split; [split; [lia|]|]; [intros [H|H]; [discriminate|exact H]|]. intros _ st' [=].
  - split; [exact I|]. intros _ st' [=].
Qed.

Lemma append_acts bs st : acts (append bs st) = acts st.
Proof. unfold append, acts. destruct (_ <? _); reflexivity. Qed.

Lemma append_data bs st : data (wbuf (append bs st)) = data (wbuf st) ++ bs.
Proof. unfold append. destruct (_ <? _); reflexivity. Qed.

Lemma too_small_cost n st : wcost st (write_buffer_if_too_small n st).
Proof. unfold write_buffer_if_too_small. destruct (_ <=? _); [apply write_buf_cost|apply wcost_refl]. Qed.

Lemma pb_loop_cost fuel : forall bs st, wcost st (pb_loop fuel bs st).
Proof.
  induction fuel as [|fuel IH]; intros bs st; cbn [pb_loop]; [exact I|]. unfold pb_step.
  destruct (0 <? lenN bs); [|apply wcost_refl].
  set (k := if _ <? _ then _ else _). pose proof (too_small_cost k st) as H.
  destruct (write_buffer_if_too_small k st) as [st1|st1| | |]; auto.
  eapply wcost_seq; [|apply IH]. cbn [wcost] in *. unfold stays in *. now rewrite append_acts.
Qed.

Lemma run_put_cost c st : wcost st (run_put c st).
Proof.
  assert (HU : forall n bs, wcost st match write_buffer_if_too_small n st with WOk st' => WOk (append bs st') | r => r end).
  { intros n bs. pose proof (too_small_cost n st) as H. destruct (write_buffer_if_too_small n st); auto.
    cbn [wcost] in *. unfold stays in *. now rewrite append_acts. }
  destruct c; cbn [run_put]; [apply HU|apply HU|apply pb_loop_cost].
Qed.

Lemma run_puts_cost cs : forall st, wcost st (run_puts cs st).
Proof.
  induction cs as [|c cs IH]; intros st; cbn [run_puts]; [apply wcost_refl|].
  pose proof (run_put_cost c st) as H. destruct (run_put c st); auto. eapply wcost_seq; [exact H|apply IH].
Qed.

Lemma pb_loop_data fuel : forall bs st st', wwf st -> 0 < cap (wbuf st) -> data (wbuf st) <> [] \/ bs <> [] ->
  pb_loop fuel bs st = WOk st' -> data (wbuf st') <> [].
Proof.
  induction fuel as [|fuel IH]; intros bs st st' W Hc H; cbn [pb_loop]; [discriminate|]. unfold pb_step.
  destruct (N.ltb_spec 0 (lenN bs)) as [Hb|Hb].
  2:{ intros [= <-]. destruct H as [H|H]; [exact H|]. destruct bs; [congruence|]. rewrite lenN_cons in Hb. lia. }
  set (k := if _ <? _ then _ else _).
  assert (Hk : 0 < k /\ k <= lenN bs) by (unfold k; destruct (N.ltb_spec (cap (wbuf st)) (lenN bs)); lia).
  pose proof (too_small_facts k st W) as HT.
  destruct (write_buffer_if_too_small k st) as [st1|st1| | |]; try discriminate. destruct HT as (W1 & _).
  destruct (append_facts (takeN k bs) st1 W1) as (W2 & Hd & _).
  assert (HN : data (wbuf (append (takeN k bs) st1)) <> []).
  { rewrite Hd. intros E. apply app_eq_nil in E. destruct E as (_ & E). apply (f_equal lenN) in E.
    rewrite lenN_takeN in E. change (lenN []) with 0 in E. lia. }
  apply IH; [exact W2| |now left].
  unfold wwf in W2. destruct (data (wbuf (append (takeN k bs) st1))); [congruence|]. rewrite lenN_cons in W2. lia.
Qed.

Lemma run_put_data c st st' : wwf st -> 0 < cap (wbuf st) -> data (wbuf st) <> [] ->
  run_put c st = WOk st' -> data (wbuf st') <> [].
Proof.
  intros W Hc H.
  assert (HU : forall n bs, bs <> [] -> match write_buffer_if_too_small n st with WOk st' => WOk (append bs st') | r => r end = WOk st' ->
    data (wbuf st') <> []).
  { intros n bs Hb. destruct (write_buffer_if_too_small n st); try discriminate. intros [= <-]. rewrite append_data.
    intros E. apply app_eq_nil in E. tauto. }
  destruct c; cbn [run_put]; [apply HU; discriminate|apply HU; discriminate|]. apply pb_loop_data; auto.
Qed.

Lemma run_puts_data cs : forall st st', wwf st -> 0 < cap (wbuf st) -> data (wbuf st) <> [] ->
  run_puts cs st = WOk st' -> data (wbuf st') <> [].
Proof.
  induction cs as [|c cs IH]; intros st st' W Hc H; cbn [run_puts]; [intros [= <-]; exact H|].
  pose proof (run_put_facts c st W) as HP. destruct (run_put c st) as [st1| | | |] eqn:E; try discriminate.
  assert (HP' : wpost st (put_bytes_of c) (WOk st1)) by (apply HP; now destruct c).
  destruct HP' as (W1 & _ & _ & _ & Hc1). exact (IH st1 st' W1 Hc1 (run_put_data c st st1 W Hc H E)).
Qed.

Theorem write_packet_cost p st st' : wwf st -> write_packet p st = WOk st' \/ write_packet p st = WErr st' ->
  In WBlock (acts st) -> (fore (acts st') < fore (acts st))%nat /\ In WBlock (acts st').
Proof.
  intros W. unfold write_packet. destruct (packet_puts p) as [cs|] eqn:E; [|intros [H|H]; discriminate].
  destruct (packet_puts_first p cs E) as (n & cs' & ->). cbn [run_puts].
  pose proof (run_put_facts (PutU8 n) st W I) as HP. pose proof (run_put_cost (PutU8 n) st) as HC.
  assert (HD : forall st1, run_put (PutU8 n) st = WOk st1 -> data (wbuf st1) <> []).
  { intros st1. cbn [run_put]. destruct (write_buffer_if_too_small 1 st); try discriminate. intros [= <-].
    rewrite append_data. intros K. apply app_eq_nil in K. destruct K as (_ & K). discriminate. }
  destruct (run_put (PutU8 n) st) as [st1|st1| | |]; cbn [wcost] in HC.
  2:{ intros [H|[= <-]] Hi; [discriminate|]. split; [lia|now apply HC]. }
  2,3,4: intros [H|H]; discriminate.
  destruct HP as (W1 & _ & _ & _ & Hc1). specialize (HD st1 eq_refl).
  pose proof (run_puts_cost cs' st1) as HC1. pose proof (run_puts_data cs' st1) as HD1.
  destruct (run_puts cs' st1) as [st2|st2| | |]; cbn [wcost] in HC1.
  2:{ intros [H|[= <-]] Hi; [discriminate|]. split; [lia|]. now apply HC1, HC. }
  2,3,4: intros [H|H]; discriminate.
  destruct (write_buf_cost st2) as (HB1 & HB2). unfold finish_packet.
  intros [H|H] Hi; assert (Hi2 : In WBlock (acts st2)) by now apply HC1, HC.
  - specialize (HB2 (HD1 st2 W1 Hc1 HD eq_refl) st' H Hi2). rewrite H in HB1. cbn [wcost] in HB1. split; [lia|now apply HB1].
  - rewrite H in HB1. cbn [wcost] in HB1. split; [lia|now apply HB1].
Qed.

Lemma write_all_cost ps : forall st st', wwf st -> Forall (fun p => encode p <> None) ps ->
  write_all ps st = WOk st' -> In WBlock (acts st) ->
  (length ps + fore (acts st') <= fore (acts st))%nat /\ In WBlock (acts st').
Proof.
  induction ps as [|p ps IH]; intros st st' W HF; cbn [write_all].
  - intros [= <-] Hi. split; [cbn; lia|exact Hi].
  - destruct (encode p) as [bs|] eqn:E; [|apply Forall_inv in HF; congruence]. apply Forall_inv_tail in HF.
    pose proof (write_packet_facts p st bs W E) as H. pose proof (write_packet_cost p st) as HC.
    destruct (write_packet p st) as [st1|st1| | |]; cbn [wdone] in H; try discriminate; destruct H as (W1 & _);
      intros Hw Hi; cbn [length].
    + destruct (HC st1 W (or_introl eq_refl) Hi) as (H1 & H2). destruct (IH st1 st' W1 HF Hw H2) as (IH1 & IH2). split; [lia|exact IH2].
    + destruct (HC st1 W (or_intror eq_refl) Hi) as (H1 & H2). destruct (IH st1 st' W1 HF Hw H2) as (IH1 & IH2). split; [lia|exact IH2].
Qed.

(** A socket that blocks some time takes at most one packet for each reaction before that, and part of one more. *)
Theorem sent_bound auth dbg n s k c : reachable auth dbg n s -> nth_error (conns s) k = Some c -> blocks (c_wsock c) ->
  (length (broker_sent c) <= 1 + fore (wacts (c_wsock c)))%nat.
Proof.
  intros HR Hk HB. pose proof (sent_encodes auth dbg n s k c HR Hk) as HE.
  pose proof (queue_invariant auth dbg n s HR k) as HQ. unfold queue_ok in HQ. rewrite Hk in HQ. destruct HQ as (HW & _).
  assert (HC : forall ps ws, wrote (c_wsock c) ps ws -> Forall (fun p => encode p <> None) ps ->
    (length ps <= fore (wacts (c_wsock c)))%nat).
  { intros ps ws (HA & W) HF.
    destruct (write_all_cost ps _ ws (proj2 (wrote_new (c_wsock c))) HF HA HB) as (K & _).
    change (acts (connection_wstream (c_wsock c))) with (wacts (c_wsock c)) in K. lia. }
  unfold writer_ok in HW. unfold broker_sent in *. destruct (c_writer c) as [ws|p ws|ws].
  - specialize (HC _ _ HW HE). lia.
  - destruct HW as (ps & f & Es & HW). rewrite Es, map_app in *. apply Forall_app in HE. specialize (HC _ _ HW (proj1 HE)).
    rewrite app_length. cbn [length map]. lia.
  - specialize (HC _ _ HW HE). lia.
Qed.

(** The requests that are answered by a packet, whatever the state. *)
Definition asks (p : ControlPacket) : bool := match p with Subscribe _ _ | Unsubscribe _ _ => true | _ => false end.

Definition event_asks (e : ClientEvent) : bool := match e with Connected _ _ _ => true | ClientPacket _ p _ => asks p | _ => false end.

(** An event that can be answered by a close request. *)
Definition risky auth (e : ClientEvent) : bool :=
  match e with
  | ClientPacket _ PingReq _ => true
  | Connected c _ _ => match let_in auth c with Some true => false | _ => true end
  | _ => false
  end.

Lemma answers_count auth k es : forall r, existsb (stops auth) es = false -> existsb (risky auth) (events_of k es) = false ->
  ~ In ServerDisconnect (ref_sends auth r es k)
  /\ (length (filter event_asks (events_of k es)) <= length (ref_sends auth r es k))%nat.
Proof.
  induction es as [|e es IH]; intros r HS HN; cbn [ref_sends]; [split; [intros []|cbn; lia]|].
  cbn [existsb] in HS. apply orb_false_iff in HS. destruct HS as (HS1 & HS). rewrite HS1.
  assert (HE : ~ In ServerDisconnect (ref_out auth r e k)
    /\ (length (filter event_asks (events_of k [e])) <= length (ref_out auth r e k))%nat
    /\ existsb (risky auth) (events_of k es) = false).
  { unfold events_of in HN |- *. cbn [filter] in HN |- *.
    destruct e as [c a j|cid p j|cid|cid]; cbn [event_tx opt_is] in *.
    - cbn [ref_out]. destruct (Nat.eqb k j); cbn [existsb risky filter event_asks length] in *; [|auto with arith].
      apply orb_false_iff in HN. destruct HN as (HN & HN2). destruct (let_in auth c) as [[]|]; try discriminate.
      split; [intros [K|[]]; discriminate|]. auto with arith.
    - destruct (Nat.eqb k j) eqn:Ej; cbn [existsb risky filter event_asks length] in *.
      + apply orb_false_iff in HN. destruct HN as (HN & HN2).
        destruct p; try discriminate HN; cbn [ref_out asks length filter]; rewrite ?Ej; split; try (intros []);
          try (split; [auto with arith|exact HN2]); try discriminate; try tauto.
        intros K. apply repeat_spec in K. discriminate.
      + split; [|auto with arith]. destruct p; cbn [ref_out]; rewrite ?Ej; try (intros []).
        intros K. apply repeat_spec in K. discriminate.
    - cbn. auto.
    - cbn. auto. }
  destruct HE as (H1 & H2 & H3). destruct (IH (ref_next auth r e) HS H3) as (H4 & H5).
  split; [intros Hi; apply in_app_or in Hi; tauto|].
  change (e :: es) with ([e] ++ es). rewrite events_of_app, filter_app, !app_length. lia.
Qed.

Lemma accepts_with_id auth p cid : accepts auth (with_id p cid) <-> accepts auth p.
Proof. reflexivity. Qed.

Lemma accepts_let_in auth p cid : accepts auth p -> let_in auth (with_id p cid) = Some true.
Proof.
  unfold accepts, let_in. cbn [with_id user_name password]. destruct (user_name p); [|reflexivity].
  destruct (password p); [intros ->; reflexivity|intros []].
Qed.

Lemma before_close_full l : ~ In ServerDisconnect l -> length (before_close l) = length l.
Proof. intros H. rewrite <- (before_close_all l H) at 2. now rewrite map_length. Qed.

(** One client that is let in, then sends enough SUBSCRIBE or UNSUBSCRIBE packets, and some time stops reading the
    answers, ends the service for all clients, from every state and on every schedule. (Until then it must not send
    PINGREQ, for which its connection might be closed.) *)
Theorem C88_a_client_that_stops_reading_stops_the_broker auth dbg n s k c p qs :
  reachable auth dbg n s -> nth_error (conns s) k = Some c ->
  client_sends dbg c = Connect p :: qs -> accepts auth p -> ~ In PingReq qs ->
  blocks (c_wsock c) -> (32 + fore (wacts (c_wsock c)) < length (filter asks qs))%nat ->
  inevitably auth dbg (out_of_service auth dbg) s.
Proof.
  intros HR Hk HC HA HP HB HL. apply (must_stop auth dbg n (c_rsock c) (c_wsock c) k) with (c := c); auto. clear s HR Hk.
  intros s c1 HR Hk Er Ew Hs. destruct Hs as [H|j cj H _ _|_ Ha Hs]; [now left|now right|exfalso].
  destruct (Hs k c1 Hk) as ((cid & _ & HI) & waiting & HW & Hlen & _).
  unfold client_sends in HI, HC. rewrite Er, HC in HI. cbn [issued] in HI.
  destruct Ha as (l & Ha). pose proof (proj1 (finished_stops auth (handled s) MessagingService_new)) as HF.
  rewrite Ha in HF. specialize (HF eq_refl).
  assert (HN : existsb (risky auth) (events_of k (map snd (handled s))) = false).
  { rewrite HI. cbn [existsb risky]. pose proof (accepts_let_in auth p cid HA) as HL1. unfold with_id in HL1. rewrite HL1. cbn [orb].
    apply not_true_iff_false. intros E. apply existsb_exists in E. destruct E as (e & He & Hr).
    apply in_map_iff in He. destruct He as (q & <- & Hq). cbn [risky] in Hr. destruct q; try discriminate. contradiction. }
  destruct (answers_count auth k (map snd (handled s)) ref_init HF HN) as (HD & Hlen2).
  apply (f_equal (@length _)) in HW. rewrite (before_close_full _ HD), app_length in HW.
  pose proof (sent_bound auth dbg n s k c1 HR Hk) as HSB. rewrite Ew in HSB. specialize (HSB HB).
  assert (Hlen3 : length (filter event_asks (events_of k (map snd (handled s)))) = Datatypes.S (length (filter asks qs))).
  { rewrite HI. cbn [filter event_asks length]. f_equal. clear. induction qs as [|q qs IH]; [reflexivity|]. cbn [map filter event_asks].
    destruct (asks q); cbn [length]; congruence. }
  lia.
Qed.

(** Such a client, from the start of the broker, with as few requests as the theorem asks for. With one less the broker
    comes to rest with nothing unhandled. *)
Definition ex_deaf_with (m : nat) : sys := drive ex_deny true (sys_init 1)
  [LAccept (ex_peer (ex_client "d" None None :: repeat (Unsubscribe 1 [str "x"]) m) PeerOpen) (ex_socket [WAccept 3; WBlock]) 1].
Definition ex_deaf : sys := ex_deaf_with 34.

Example C88_case : inevitably ex_deny true (out_of_service ex_deny true) ex_deaf
  /\ let s := drive ex_deny true ex_deaf (ex_rounds 100 [0%nat]) in
     stuck s /\ length (handled s) = 35%nat /\ length (events s) = 0%nat
     /\ let s33 := drive ex_deny true (ex_deaf_with 33) (ex_rounds 100 [0%nat]) in
        hdl s33 = HIdle /\ idleb true s33 = true /\ length (handled s33) = 34%nat.
Proof.
  split; [|cbv zeta; split; [apply stuckb_stuck|]; vm_compute; auto 10].
  assert (K : exists c p, nth_error (conns ex_deaf) 0 = Some c /\ client_sends true c = Connect p :: repeat (Unsubscribe 1 [str "x"]) 34
     /\ user_name p = None /\ wacts (c_wsock c) = [WAccept 3; WBlock]).
  { eexists. eexists. split; [vm_compute; reflexivity|]. split; [vm_compute; reflexivity|]. split; vm_compute; reflexivity. }
  pose proof (drive_reachable ex_deny true 1 [LAccept (ex_peer (ex_client "d" None None :: repeat (Unsubscribe 1 [str "x"]) 34) PeerOpen) (ex_socket [WAccept 3; WBlock]) 1]) as HR.
  change (reachable ex_deny true 1 ex_deaf) in HR. generalize dependent ex_deaf. intros s (c & p & Hk & Hs & Hu & Hw) HR.
  apply (C88_a_client_that_stops_reading_stops_the_broker ex_deny true 1 s 0 c p _ HR Hk Hs).
  - unfold accepts. now rewrite Hu.
  - intros H. apply repeat_spec in H. discriminate.
  - unfold blocks. rewrite Hw. right. now left.
  - rewrite Hw. vm_compute. lia.
Qed.

(** ** C89 *)

(** One CONNECT with a user name and no password, on one connection, ends the service for all clients, from every
    state and on every schedule. No account is needed. *)
Theorem C89_a_user_name_without_password_stops_the_broker auth dbg n s k c p qs u :
  reachable auth dbg n s -> nth_error (conns s) k = Some c ->
  client_sends dbg c = Connect p :: qs -> user_name p = Some u -> password p = None ->
  inevitably auth dbg (out_of_service auth dbg) s.
Proof.
  intros HR Hk HC Hu Hp. apply (must_stop auth dbg n (c_rsock c) (c_wsock c) k) with (c := c); auto. clear s HR Hk.
  intros s c1 HR Hk Er Ew Hs. destruct Hs as [H|j cj H _ _|_ Ha Hs]; [now left|now right|exfalso].
  destruct (Hs k c1 Hk) as ((cid & _ & HI) & _). unfold client_sends in HI, HC. rewrite Er, HC in HI. cbn [issued] in HI.
  destruct Ha as (l & Ha). pose proof (proj1 (finished_stops auth (handled s) MessagingService_new)) as HF.
  rewrite Ha in HF. specialize (HF eq_refl).
  assert (Hin : In (Connected (with_id p cid) (c_addr c1) k) (map snd (handled s))).
  { assert (K : In (Connected (with_id p cid) (c_addr c1) k) (events_of k (map snd (handled s)))) by (rewrite HI; now left).
    unfold events_of in K. apply filter_In in K. tauto. }
  assert (K : existsb (stops auth) (map snd (handled s)) = true); [|congruence].
  apply existsb_exists. exists (Connected (with_id p cid) (c_addr c1) k). split; [exact Hin|].
  unfold stops, let_in. cbn [with_id user_name password]. now rewrite Hu, Hp.
Qed.

Definition ex_intruder : sys := drive ex_deny true (sys_init 1)
  (ex_sub_pub [] 3 ++ [LAccept (ex_peer [ex_client "z" (Some (str "z")) None] PeerOpen) (ex_socket []) 3]).

Example C89_case : inevitably ex_deny true (out_of_service ex_deny true) ex_intruder
  /\ hdl ex_intruder = HIdle /\ hdl (drive ex_deny true ex_intruder (ex_rounds 3 [2%nat])) = HPanicked.
Proof.
  split; [|vm_compute; auto].
  assert (K : exists c p, nth_error (conns ex_intruder) 2 = Some c /\ client_sends true c = [Connect p]
     /\ user_name p = Some (str "z") /\ password p = None).
  { eexists. eexists. split; [vm_compute; reflexivity|]. split; [vm_compute; reflexivity|]. split; vm_compute; reflexivity. }
  assert (HR : reachable ex_deny true 1 ex_intruder) by apply drive_reachable.
  generalize dependent ex_intruder. intros s (c & p & Hk & Hs & Hu & Hp) HR.
  exact (C89_a_user_name_without_password_stops_the_broker ex_deny true 1 s 2 c p [] (str "z") HR Hk Hs Hu Hp).
Qed.
