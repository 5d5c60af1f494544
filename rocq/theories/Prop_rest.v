(** Properties C59-C63: bytes on the wire, and what the broker has done when it comes to rest. *)
From Verif Require Import Base Base_facts Packets HashMap Subscriptions Messaging Handler Decoder ReadStream
  ReadStream_facts Plain_facts Conn Conn_facts Conform_facts Encoder Encoder_facts WriteStream WriteStream_facts
  Spec_wire Spec_subs Spec_broker Subscriptions_facts Handler_facts System System_facts System_hist
  System_conn System_queue System_first System_progress System_exit System_rest Prop_subs Prop_stream Prop_broker Prop_system.
From Verif Require Prop_codec.
Open Scope N_scope.

(** ** C59 *)

(** The bytes the peer's end of a connection accepted.  While a packet is being written and its socket
    blocks, the part of the packet handed over before it blocked counts; a write in progress that does not
    block is one step of the model, so the states in the middle of it are those of the socket that blocks
    there. *)
Definition peer_got (c : cstate) : bytes :=
  match c_writer c with
  | WIdle ws | WClosed ws => accepted (wsk ws)
  | WBusy p ws => match write_packet p ws with WWait ws' => accepted (wsk ws') | _ => accepted (wsk ws) end
  end.

(** A new socket that does not fail; it may take any part of each write, and it may block. *)
Definition healthy (w : wsock) : Prop := accepted w = [] /\ ~ In WFail (wacts w).

(** One that takes every write whole. *)
Definition eager (w : wsock) : Prop := accepted w = [] /\ wacts w = [].

Lemma eager_healthy w : eager w -> healthy w.
Proof. intros (H1 & H2). split; [exact H1|]. rewrite H2. intros []. Qed.

Lemma sent_encodes auth dbg n s k c : reachable auth dbg n s -> nth_error (conns s) k = Some c ->
  Forall (fun p => encode p <> None) (broker_sent c).
Proof.
  intros HR Hk. pose proof (sent_writable auth dbg n s k c HR Hk) as H. eapply Forall_impl; [|exact H].
  intros p Hp E. apply encode_none in E. congruence.
Qed.

Lemma encodings_app l1 l2 : encodings (l1 ++ l2) = encodings l1 ++ encodings l2.
Proof. apply flat_map_app. Qed.

Lemma wrote_clean w ps ws : wrote w ps ws -> healthy w -> Forall (fun p => encode p <> None) ps ->
  wwf ws /\ written ws = encodings ps /\ ~ In WFail (acts ws).
Proof.
  intros (HW & _) (H1 & H2) HE.
  destruct (write_all_exact ps (connection_wstream w) ws (wwf_new _ _) HE H2 HW) as (W & Hw & h & Hh).
  split; [exact W|]. split.
  - rewrite Hw. unfold written at 1. cbn [connection_wstream wstream_new wsk wbuf with_capacity data]. now rewrite H1.
  - intros K. apply H2. change (wacts w) with (acts (connection_wstream w)). rewrite Hh. apply in_or_app. now right.
Qed.

(** The peer holds a prefix of the encodings of the packets sent, in order. *)
Theorem C59_bytes_on_the_wire auth dbg n s k c : reachable auth dbg n s -> nth_error (conns s) k = Some c ->
  healthy (c_wsock c) -> exists rest, encodings (broker_sent c) = peer_got c ++ rest.
Proof.
  intros HR Hk HH. pose proof (sent_encodes auth dbg n s k c HR Hk) as HE.
  pose proof (queue_invariant auth dbg n s HR k) as HQ. unfold queue_ok in HQ. rewrite Hk in HQ. destruct HQ as (HW & _).
  unfold writer_ok in HW. unfold peer_got, broker_sent in *. destruct (c_writer c) as [ws|p ws|ws].
  - destruct (wrote_clean _ _ _ HW HH HE) as (_ & <- & _). unfold written. eauto.
  - destruct HW as (ps & f & Es & HW). rewrite Es, map_app in *. apply Forall_app in HE. destruct HE as (HE & Hp).
    cbn [map snd] in *. apply Forall_inv in Hp. destruct (encode p) as [bs|] eqn:Ep; [|congruence].
    destruct (wrote_clean _ _ _ HW HH HE) as (W & Hw & _). pose proof (write_packet_facts p ws bs W Ep) as HP.
    rewrite encodings_app, <- Hw. cbn [encodings flat_map]. rewrite Ep, app_nil_r. unfold written.
    destruct (write_packet p ws) as [st|st|st| |]; cbn [wdone] in HP; try (rewrite <- app_assoc; eauto; fail).
    destruct HP as (_ & (pre & (t & ->) & HP) & _). unfold written in HP. rewrite app_assoc, <- HP, <- app_assoc. eauto.
  - destruct (wrote_clean _ _ _ HW HH HE) as (_ & <- & _). unfold written. eauto.
Qed.

(** A client that reads packet after packet from some bytes. *)
Inductive client_reads : bytes -> list ControlPacket -> bytes -> Prop :=
| CrStop bs : client_parse bs = None -> client_reads bs [] bs
| CrMore bs p r ps t : client_parse bs = Some (p, r) -> client_reads r ps t -> client_reads bs (p :: ps) t.

Lemma parse_varint_more d : forall bs v r x, parse_varint d bs = Some (v, r) -> parse_varint d (bs ++ x) = Some (v, r ++ x).
Proof.
  induction d as [|d IH]; intros bs v r x; cbn [parse_varint]; [discriminate|].
  destruct bs as [|b bs]; [discriminate|]. cbn [app]. destruct (b2n b <? 128); [now intros [= <- <-]|].
  destruct (parse_varint d bs) as [[v' r']|] eqn:E; [|discriminate]. rewrite (IH _ _ _ x E). now intros [= <- <-].
Qed.

Lemma client_parse_more bs p r x : client_parse bs = Some (p, r) -> client_parse (bs ++ x) = Some (p, r ++ x).
Proof.
  unfold client_parse. destruct bs as [|b bs]; [discriminate|]. cbn [app].
  destruct (parse_varint 4 bs) as [[v r']|] eqn:E; [|discriminate]. rewrite (parse_varint_more _ _ _ _ x E).
  destruct (N.ltb_spec (lenN r') v) as [_|H]; [discriminate|].
  destruct (N.ltb_spec (lenN (r' ++ x)) v) as [H'|_]; [rewrite lenN_app in H'; lia|].
  rewrite takeN_app_le, dropN_app_le by exact H. destruct (parse_body (b2n b) (takeN v r')); [|discriminate].
  now intros [= <- <-].
Qed.

(** Packets a client can be sent. *)
Definition sendable (p : ControlPacket) : Prop := forall r, exists bs, encode p = Some bs /\ client_parse (bs ++ r) = Some (p, r).

Lemma client_reads_prefix bs ps t : client_reads bs ps t ->
  forall qs x, Forall sendable qs -> encodings qs = bs ++ x -> exists rest, qs = ps ++ rest /\ encodings rest = t ++ x.
Proof.
  induction 1 as [bs HN|bs p r ps t HP HR IH]; intros qs x HF E.
  - exists qs. auto.
  - destruct qs as [|q qs].
    { cbn in E. symmetry in E. apply app_eq_nil in E. destruct E as (-> & _). discriminate. }
    apply Forall_cons_iff in HF. destruct HF as (Hq & HF). destruct (Hq (encodings qs)) as (b1 & E1 & P1).
    cbn [encodings flat_map] in E. rewrite E1 in E. fold (encodings qs) in E. rewrite E in P1.
    rewrite (client_parse_more _ _ _ x HP) in P1. injection P1 as -> E'.
    destruct (IH qs x HF (eq_sym E')) as (rest & -> & Er). exists rest. auto.
Qed.

(** Peers send less than 2^64 bytes. *)
Definition finite_peers (s : sys) : Prop :=
  forall k c, nth_error (conns s) k = Some c -> lenN (arriving (c_rsock c)) < 2 ^ 64.

Lemma reads_receivable dbg st ps st' : wf st -> lenN (pending st) < 2 ^ 64 -> reads dbg st ps st' ->
  (lenN (pending st') <= lenN (pending st)) /\ Forall receivable ps.
Proof.
  intros W HL. induction 1 as [|ps st1 p st2 H (IH1 & IH2) E]; [split; [lia|constructor]|].
  destruct (reads_read_all dbg _ _ _ W H) as (W1 & _).
  destruct (read_packet_consumes dbg st1 p st2 W1 E) as (_ & _ & HD & Hlen). split.
  - unfold lenN in *. lia.
  - apply Forall_app. split; [exact IH2|]. constructor; [|constructor].
    apply decode_conforms in HD; [|lia]. destruct HD as (b & h & m & body & _ & Hv & Hh & HC).
    exists (b2n b), h, m, body. auto.
Qed.

(** On any input, packets have fields within limits and no will. *)
Lemma reads_ok dbg st ps st' : wf st -> reads dbg st ps st' ->
  Forall (fun p => packet_ok p /\ match p with Connect c => will_message c = None | _ => True end) ps.
Proof.
  intros W. induction 1 as [|ps st1 p st2 H IH E]; [constructor|].
  destruct (reads_read_all dbg _ _ _ W H) as (W1 & _).
  destruct (read_packet_consumes dbg st1 p st2 W1 E) as (_ & _ & HD & _).
  apply Forall_app. split; [exact IH|]. constructor; [|constructor].
  destruct (Prop_codec.decode_reads _ _ _ _ HD) as (b & h & m & body & _ & _ & _ & [(HK & HC)|(_ & _ & HK & HC)]); (split; [exact HK|]).
  - destruct p; try exact I. destruct HC as (_ & HC & _). exact HC.
  - destruct p; try exact I. destruct HC.
Qed.

Lemma handled_ok auth dbg n s t cid p k : reachable auth dbg n s -> In (t, ClientPacket cid p k) (handled s) -> packet_ok p.
Proof.
  intros HR Hin. destruct (handled_read auth dbg n s t cid p k HR Hin) as (c & Hk & Hp).
  destruct (reader_invariant auth dbg n s HR k c Hk) as (rs & Hr & _).
  pose proof (reads_ok dbg _ _ _ (wf_connection (c_rsock c)) Hr) as HA.
  rewrite Forall_forall in HA. apply HA. destruct (c_read c); [destruct Hp|now right].
Qed.

Lemma handled_receivable auth dbg n s te : reachable auth dbg n s -> finite_peers s -> In te (handled s) -> event_receivable te.
Proof.
  intros HR HF Hin. destruct te as [t e]. unfold event_receivable. cbn [snd]. destruct e as [c a k|cid p k|cid|cid]; try exact I.
  destruct (handled_read auth dbg n s t cid p k HR Hin) as (c & Hk & Hp).
  destruct (reader_invariant auth dbg n s HR k c Hk) as (rs & Hr & _).
  destruct (reads_receivable dbg _ _ _ (wf_connection (c_rsock c)) (HF k c Hk) Hr) as (_ & HA).
  rewrite Forall_forall in HA. apply HA. destruct (c_read c); [destruct Hp|now right].
Qed.

Lemma sent_sendable auth dbg n s k c : reachable auth dbg n s -> finite_peers s -> nth_error (conns s) k = Some c ->
  Forall sendable (broker_sent c).
Proof.
  intros HR HF Hk. apply Forall_forall. intros p Hp. apply in_map_iff in Hp. destruct Hp as ((f & q) & E & Hin). cbn [snd] in E. subst q.
  pose proof (in_sent_log auth dbg n s k c f p HR Hk Hin) as Hl.
  destruct (log_handled auth dbg n s _ _ _ HR Hl) as (h1 & te & h2 & m1 & l1 & Eh & _ & Hr).
  destruct (C37_only_writable auth m1 te k p) as (K1 & K2 & K3).
  - apply (handled_receivable auth dbg n s te HR HF). rewrite Eh. apply in_or_app. right. now left.
  - exact Hr.
  - intros r. apply C17_client_understands; auto. destruct p; try discriminate; exact I.
Qed.

(** What a conforming client makes of the bytes it got: the first packets the broker sent it. *)
Theorem C59_client_reads auth dbg n s k c ps t : reachable auth dbg n s -> finite_peers s ->
  nth_error (conns s) k = Some c -> healthy (c_wsock c) -> client_reads (peer_got c) ps t ->
  exists rest, broker_sent c = ps ++ rest.
Proof.
  intros HR HF Hk HH Hc. destruct (C59_bytes_on_the_wire auth dbg n s k c HR Hk HH) as (x & E).
  destruct (client_reads_prefix _ _ _ Hc _ _ (sent_sendable auth dbg n s k c HR HF Hk) E) as (rest & E' & _). eauto.
Qed.

Lemma wrote_whole w ps : forall ws, write_all ps (connection_wstream w) = WOk ws -> eager w ->
  Forall (fun p => encode p <> None) ps -> wwf ws /\ data (wbuf ws) = [] /\ wacts (wsk ws) = [] /\ accepted (wsk ws) = encodings ps.
Proof.
  intros ws HW (H1 & H2). revert ws HW. induction ps as [|p ps IH] using rev_ind; intros ws HW HE.
  - injection HW as <-. split; [apply wwf_new|]. split; [reflexivity|]. split; [exact H2|exact H1].
  - rewrite write_all_snoc in HW. apply Forall_app in HE. destruct HE as (HE & Hp). apply Forall_inv in Hp.
    destruct (write_all ps (connection_wstream w)) as [st| | | |] eqn:EA; try discriminate.
    destruct (IH st eq_refl HE) as (W & I1 & I2 & I3). destruct (encode p) as [bs|] eqn:EP; [|congruence].
    pose proof (write_packet_facts p st bs W EP) as HF.
    destruct (C19_whole_writes_partial p bs st W EP I2) as (st' & Ew & Hd & Ha). rewrite Ew in HW, HF. injection HW as <-.
    cbn [wdone] in HF. destruct HF as (W' & _ & (h & HL) & _). split; [exact W'|]. split; [exact Hd|]. split.
    + unfold acts in HL. rewrite I2 in HL. symmetry in HL. now apply app_eq_nil in HL.
    + rewrite Ha, I1, I3, encodings_app. cbn [encodings flat_map app]. now rewrite EP, app_nil_r.
Qed.

(** With a socket that takes every write whole, the client has got everything, unless a packet is just
    being written. *)
Theorem C59_all_arrived auth dbg n s k c : reachable auth dbg n s -> finite_peers s ->
  nth_error (conns s) k = Some c -> eager (c_wsock c) -> (forall p ws, c_writer c <> WBusy p ws) ->
  peer_got c = encodings (broker_sent c) /\ client_reads (peer_got c) (broker_sent c) [].
Proof.
  intros HR HF Hk HE HB. pose proof (sent_encodes auth dbg n s k c HR Hk) as Hen.
  pose proof (queue_invariant auth dbg n s HR k) as HQ. unfold queue_ok in HQ. rewrite Hk in HQ. destruct HQ as (HW & _).
  assert (K : peer_got c = encodings (broker_sent c)).
  { unfold writer_ok in HW. unfold peer_got. destruct (c_writer c) as [ws|p ws|ws]; [|exfalso; eapply HB; reflexivity|];
      destruct HW as (HW & _); now apply (wrote_whole _ _ _ HW HE Hen). }
  split; [exact K|]. rewrite K. pose proof (sent_sendable auth dbg n s k c HR HF Hk) as HS. clear -HS.
  induction (broker_sent c) as [|p ps IH]; [now apply CrStop|].
  apply Forall_cons_iff in HS. destruct HS as (Hp & HS). destruct (Hp (encodings ps)) as (bs & E & P).
  cbn [encodings flat_map]. rewrite E. fold (encodings ps). eapply CrMore; [exact P|auto].
Qed.

(** With failing writes each packet contributes a prefix. *)
Theorem C59_with_errors auth dbg n s k c : reachable auth dbg n s -> nth_error (conns s) k = Some c ->
  exists pres rest, Forall2 (fun p pre => exists bs, encode p = Some bs /\ prefix pre bs) (broker_sent c) pres
    /\ accepted (c_wsock c) ++ concat pres = peer_got c ++ rest.
Proof.
  intros HR Hk. pose proof (sent_encodes auth dbg n s k c HR Hk) as Hen.
  pose proof (queue_invariant auth dbg n s HR k) as HQ. unfold queue_ok in HQ. rewrite Hk in HQ. destruct HQ as (HW & _).
  assert (K : forall ps ws, wrote (c_wsock c) ps ws -> Forall (fun p => encode p <> None) ps ->
    wwf ws /\ exists pres, Forall2 (fun p pre => exists bs, encode p = Some bs /\ prefix pre bs) ps pres
      /\ accepted (c_wsock c) ++ concat pres = written ws).
  { intros ps ws (H & _) HE. destruct (write_all_prefixes ps _ ws (wwf_new _ _) HE H) as (pres & H1 & H2 & H3 & _).
    split; [exact H3|]. exists pres. split; [exact H1|]. rewrite H2. unfold written at 1.
    cbn [connection_wstream wstream_new wsk wbuf with_capacity data]. now rewrite app_nil_r. }
  unfold writer_ok in HW. unfold peer_got, broker_sent in *. destruct (c_writer c) as [ws|p ws|ws].
  - destruct (K _ _ HW Hen) as (_ & pres & H1 & H2). exists pres, (data (wbuf ws)). auto.
  - destruct HW as (ps & f & Es & HW). rewrite Es, map_app in *. apply Forall_app in Hen. destruct Hen as (Hen & Hp).
    cbn [map snd] in *. apply Forall_inv in Hp. destruct (encode p) as [bs|] eqn:Ep; [|congruence].
    destruct (K _ _ HW Hen) as (W & pres & H1 & H2). pose proof (write_packet_facts p ws bs W Ep) as HP.
    assert (Z : forall pre, prefix pre bs ->
      Forall2 (fun p pre => exists bs, encode p = Some bs /\ prefix pre bs) (map snd ps ++ [p]) (pres ++ [pre])).
    { intros pre Hpre. apply Forall2_app; [exact H1|]. constructor; [eauto|constructor]. }
    assert (D : exists pres' rest,
      Forall2 (fun p pre => exists bs, encode p = Some bs /\ prefix pre bs) (map snd ps ++ [p]) pres'
      /\ accepted (c_wsock c) ++ concat pres' = accepted (wsk ws) ++ rest).
    { exists (pres ++ [[]]), (data (wbuf ws)). split; [apply Z; now exists bs|].
      rewrite concat_app, app_assoc, H2. cbn [concat app]. now rewrite app_nil_r. }
    destruct (write_packet p ws) as [st|st|st| |]; try exact D. cbn [wdone] in HP.
    destruct HP as (_ & (pre & Hpre & HP) & _). exists (pres ++ [pre]), (data (wbuf st)). split; [now apply Z|].
    rewrite concat_app, app_assoc, H2. cbn [concat]. rewrite app_nil_r, <- HP. reflexivity.
  - destruct (K _ _ HW Hen) as (_ & pres & H1 & H2). exists pres, (data (wbuf ws)). auto.
Qed.

Definition ex_two : sys := drive ex_deny true (sys_init 1) (ex_sub_pub [WAccept 3; WAccept 1] 3).

Example C59_case : exists c, nth_error (conns ex_two) 0 = Some c /\ healthy (c_wsock c)
  /\ peer_got c = [x20; x02; x00; x00; x90; x03; x00; x01; x00; x30; x04; x00; x01; x61; x78;
                   x30; x04; x00; x01; x61; x79; x30; x04; x00; x01; x61; x78]
  /\ length (broker_sent c) = 5%nat.
Proof.
  eexists. split; [vm_compute; reflexivity|]. split; [|split; vm_compute; reflexivity].
  split; [reflexivity|]. cbn. intuition discriminate.
Qed.

(** A socket that takes 17 bytes and blocks: the client has the first packets and part of the next one. *)
Definition ex_blocked : sys :=
  drive ex_deny true (sys_init 1) (ex_sub_pub [WAccept 5; WAccept 7; WAccept 4; WAccept 4; WBlock] 3).

Example C59_case_blocked : exists c, nth_error (conns ex_blocked) 0 = Some c /\ healthy (c_wsock c)
  /\ peer_got c = [x20; x02; x00; x00; x90; x03; x00; x01; x00; x30; x04; x00; x01; x61; x78; x30; x04]
  /\ length (broker_sent c) = 5%nat.
Proof.
  eexists. split; [vm_compute; reflexivity|]. split; [|split; vm_compute; reflexivity].
  split; [reflexivity|]. cbn. intuition discriminate.
Qed.

(** ** C60 *)

(** No infinite run without new connections: the state is accessible. *)
Theorem C60_dies_out auth dbg n s : reachable auth dbg n s ->
  Acc (fun s' s => exists l, (forall r w a, l <> LAccept r w a) /\ step auth dbg s l = Some s') s.
Proof.
  intros HR. pose proof (dies_out auth dbg n s HR) as H. clear HR. induction H as [s _ IH]. constructor.
  intros s' (l & Hl & Hs). apply IH. exists l. split; [|exact Hs]. destruct l; try exact I. exfalso. eapply Hl. reflexivity.
Qed.

Theorem C60_no_infinite_run auth dbg n : ~ exists run : nat -> sys, reachable auth dbg n (run O)
  /\ forall i, exists l, (forall r w a, l <> LAccept r w a) /\ step auth dbg (run i) l = Some (run (Datatypes.S i)).
Proof.
  intros (run & H0 & HS). pose proof (C60_dies_out auth dbg n _ H0) as HA.
  remember (run O) as s eqn:E. assert (K : exists i, s = run i) by eauto. clear E H0. induction HA as [s _ IH].
  destruct K as (i & ->). destruct (HS i) as (l & Hl & Hs). eapply IH; eauto.
Qed.

(** ** C61 *)

(** Everything its peer sent was read and handled, in order, and the broker has sent on it all that
    handling the events so far sends to it, up to the first close request. *)
Definition up_to_date auth dbg (s : sys) (k : conn) (c : cstate) : Prop :=
  (exists cid, (forall p qs, client_sends dbg c = Connect p :: qs -> goes_by p cid)
     /\ events_of k (map snd (handled s)) = issued k (c_addr c) cid (client_sends dbg c))
  /\ broker_sent c = before_close (sent_to k (snd (fst (handle_all auth MessagingService_new (handled s))))).

Theorem C61_nothing_left_undone auth dbg n s : reachable auth dbg n s -> at_rest auth dbg s ->
  (forall k c, nth_error (conns s) k = Some c -> ~ blocks (c_wsock c)) ->
  handler_alive (hdl s) = true ->
  after auth (handled s) (svc s) /\ forall k c, nth_error (conns s) k = Some c -> up_to_date auth dbg s k c.
Proof.
  intros HR HS HB HA. destruct (rest_settled auth dbg n s HR HS HB HA) as (H1 & H2).
  split; [eexists; exact H1|exact H2].
Qed.

(** ** C62 *)

(** [P] holds wherever the broker comes to rest, and it does come to rest, however it is scheduled. *)
Inductive inevitably auth dbg (P : sys -> Prop) (s : sys) : Prop :=
| Inevitably : (at_rest auth dbg s -> P s) ->
    (forall l s', internal l -> step auth dbg s l = Some s' -> inevitably auth dbg P s') ->
    inevitably auth dbg P s.

Theorem C62_everything_gets_done auth dbg n s : reachable auth dbg n s ->
  (forall k c, nth_error (conns s) k = Some c -> ~ blocks (c_wsock c)) ->
  inevitably auth dbg (fun s' => handler_alive (hdl s') = true ->
    after auth (handled s') (svc s') /\ forall k c, nth_error (conns s') k = Some c -> up_to_date auth dbg s' k c) s.
Proof.
  intros HR HB. pose proof (dies_out auth dbg n s HR) as HA. induction HA as [s _ IH]. constructor.
  - intros HS HA. now apply (C61_nothing_left_undone auth dbg n).
  - intros l s' Hl Hs. apply IH.
    + exists l. split; [destruct l; try exact I; destruct Hl|exact Hs].
    + eapply reachable_step; eauto.
    + eapply unblocked_stays; eauto.
Qed.

(** ** C63 *)

Lemma handle_all_middle auth h1 te h2 m0 m l : handle_all auth m0 (h1 ++ te :: h2) = (m, l, Finished) ->
  exists m1 l1 l2, handle_all auth m0 h1 = (m1, l1, Finished) /\ l = l1 ++ snd (fst (handle auth m1 te)) ++ l2.
Proof.
  rewrite handle_all_app. destruct (handle_all auth m0 h1) as [[m1 l1] o1]. destruct o1; [|discriminate].
  cbn [handle_all]. destruct (handle auth m1 te) as [[m2 l2] o2] eqn:E. destruct o2; [|discriminate].
  destruct (handle_all auth m2 h2) as [[m3 l3] o3]. intros H. injection H as _ <- _.
  exists m1, l1, l3. now rewrite E.
Qed.

Lemma before_close_all l : ~ In ServerDisconnect l -> map ServerPacket (before_close l) = l.
Proof.
  induction l as [|e l IH]; [reflexivity|]. intros H. destruct e as [p|]; [|exfalso; apply H; now left].
  cbn [before_close map]. rewrite IH; [reflexivity|]. intros Hin. apply H. now right.
Qed.

(** The owner of client id [cid] at the time of the history [h] has a subscription that covers topic [t]. *)
Definition subscribed auth (h : history) (k : conn) (t : bytes) : Prop :=
  exists cid f, owns auth h k cid /\ live (requests h) cid f <> O /\ matches f t.

Lemma subscribed_selected auth h k t : wildcard_free t -> subscribed auth h k t ->
  exists cid, owns auth h k cid /\ In cid (selected (requests h) t).
Proof.
  intros Hw (cid & f & Ho & Hl & Hm). exists cid. split; [exact Ho|].
  destruct (C22_filters_listed (requests h) t) as (fs & Hfs).
  pose proof (C22_selected_exactly (requests h) t cid fs Hw Hfs) as E. destruct Hfs as (_ & Hfs).
  assert (Hf : In f fs) by (apply Hfs; split; [eapply live_filters; eauto|exact Hm]).
  apply in_split in Hf. destruct Hf as (a & b & ->). rewrite sum_app, sum_cons in E. unfold occurs in E.
  apply (count_occ_In bytes_eq_dec). lia.
Qed.

(** A message that its publisher sent after its CONNECT, at rest: it was handled after some history [h1];
    every connection then subscribed to it, and not closed by the broker since, was sent it, and if its
    socket takes all writes whole its client has read it. *)
Theorem C63_message_arrives auth dbg n s j cj p qs q : reachable auth dbg n s -> at_rest auth dbg s ->
  (forall k c, nth_error (conns s) k = Some c -> ~ blocks (c_wsock c)) -> handler_alive (hdl s) = true ->
  nth_error (conns s) j = Some cj -> client_sends dbg cj = Connect p :: qs -> In (Publish q) qs ->
  wildcard_free (topic (message q)) ->
  exists h1 t cid h2, handled s = h1 ++ (t, ClientPacket cid (Publish q) j) :: h2
    /\ forall k ck, nth_error (conns s) k = Some ck -> subscribed auth h1 k (topic (message q)) ->
         (forall f, ~ In (f, k, ServerDisconnect) (log s)) ->
         In (Publish q) (broker_sent ck)
         /\ (eager (c_wsock ck) -> finite_peers s -> exists ps, client_reads (peer_got ck) ps [] /\ In (Publish q) ps).
Proof.
  intros HR HS HB HA Hj Hsend Hq Hw.
  destruct (C61_nothing_left_undone auth dbg n s HR HS HB HA) as ((l & Hall) & Hup).
  destruct (Hup j cj Hj) as ((cid & _ & He) & _). rewrite Hsend in He. cbn [issued] in He.
  assert (Hin : In (ClientPacket cid (Publish q) j) (map snd (handled s))).
  { assert (K : In (ClientPacket cid (Publish q) j) (events_of j (map snd (handled s)))).
    { rewrite He. right. apply in_map_iff. exists (Publish q). auto. }
    apply filter_In in K. apply K. }
  apply in_map_iff in Hin. destruct Hin as ((t & e) & Ee & Hin). cbn [snd] in Ee. subst e.
  apply in_split in Hin. destruct Hin as (h1 & h2 & Eh). exists h1, t, cid, h2. split; [exact Eh|].
  intros k ck Hk Hsub Hnc.
  pose proof Hall as Hall'. rewrite Eh in Hall'. destruct (handle_all_middle auth h1 _ h2 _ _ _ Hall') as (m1 & l1 & l2 & E1 & El).
  destruct (subscribed_selected auth h1 k _ Hw Hsub) as (c & Ho & Hsel).
  assert (Hr : In (k, ServerPacket (Publish q)) (snd (fst (handle auth m1 (t, ClientPacket cid (Publish q) j))))).
  { rewrite handle_publish. cbn [fst snd]. apply in_map_iff. exists k. split; [reflexivity|].
    rewrite (senders_owned auth h1 m1 _ (ex_intro _ l1 E1)). apply in_flat_map. exists c. split; [exact Hsel|].
    apply owner_owns in Ho. rewrite Ho. now left. }
  assert (Hs : In (Publish q) (broker_sent ck)).
  { destruct (Hup k ck Hk) as (_ & Hsent). rewrite Hsent, Hall. cbn [fst snd].
    assert (K : In (ServerPacket (Publish q)) (sent_to k l)).
    { apply sent_to_in. rewrite El. apply in_or_app. right. apply in_or_app. now left. }
    assert (ND : ~ In ServerDisconnect (sent_to k l)).
    { intros Hd. apply sent_to_in in Hd. destruct (rest_settled auth dbg n s HR HS HB HA) as (Hall2 & _).
      rewrite Hall in Hall2. injection Hall2 as ->. apply in_map_iff in Hd. destruct Hd as ([[f d] e] & [= -> ->] & Hd).
      exact (Hnc f Hd). }
    rewrite <- (before_close_all _ ND) in K. apply in_map_iff in K. destruct K as (p' & [= ->] & K). exact K. }
  split; [exact Hs|]. intros Hea HF. exists (broker_sent ck). split; [|exact Hs].
  apply (C59_all_arrived auth dbg n s k ck HR HF Hk Hea).
  apply (rest_writers auth dbg n s k ck HR HS (alive_running auth dbg n s HR HA) Hk (HB k ck Hk)).
Qed.

(** ** Concrete cases *)

Definition ex_done : sys := drive ex_deny true (sys_init 1) (ex_sub_pub [] 3).

Lemma ex_done_rests : reachable ex_deny true 1 ex_done /\ at_rest ex_deny true ex_done
  /\ (forall k c, nth_error (conns ex_done) k = Some c -> eager (c_wsock c)) /\ handler_alive (hdl ex_done) = true
  /\ finite_peers ex_done.
Proof.
  split; [apply drive_reachable|].
  assert (K : idleb true ex_done && forallb (fun c => match accepted (c_wsock c), wacts (c_wsock c) with [], [] => true | _, _ => false end
     && (lenN (arriving (c_rsock c)) <? 2 ^ 64)) (conns ex_done) && handler_alive (hdl ex_done) = true) by (vm_compute; reflexivity).
  generalize dependent ex_done. intros s K. apply andb_true_iff in K. destruct K as (K & K3). apply andb_true_iff in K. destruct K as (K1 & K2).
  rewrite forallb_forall in K2. split.
  { intros l Hl. destruct (step ex_deny true s l) as [s'|] eqn:E; [|reflexivity]. exfalso.
    exact (idleb_idle ex_deny true s K1 l s' Hl E). }
  split; [|split; [exact K3|]]; intros k c Hk; apply nth_error_In, K2, andb_true_iff in Hk; destruct Hk as (H1 & H2).
  - unfold eager. destruct (accepted (c_wsock c)); [|discriminate]. destruct (wacts (c_wsock c)); [auto|discriminate].
  - now apply N.ltb_lt.
Qed.

Fixpoint taken auth dbg (s : sys) (ls : list label) : list label :=
  match ls with
  | [] => []
  | l :: ls' => match step auth dbg s l with Some s' => l :: taken auth dbg s' ls' | None => taken auth dbg s ls' end
  end.

Lemma taken_steps auth dbg ls : forall s, steps auth dbg s (taken auth dbg s ls) = Some (drive auth dbg s ls).
Proof.
  induction ls as [|l ls IH]; intros s; cbn [taken drive]; [reflexivity|].
  destruct (step auth dbg s l) as [s'|] eqn:E; [cbn [steps]; rewrite E|]; apply IH.
Qed.

(** A run of 52 steps that ends at rest. *)
Example C60_case : exists ls, steps ex_deny true (sys_init 1) ls = Some ex_done /\ length ls = 52%nat
  /\ at_rest ex_deny true ex_done.
Proof.
  exists (taken ex_deny true (sys_init 1) (ex_sub_pub [] 3)). split; [apply taken_steps|].
  split; [vm_compute; reflexivity|apply ex_done_rests].
Qed.

(** All packets of both clients were handled; the subscriber has read the broker's answers and three
    messages. *)
Example C61_case : reachable ex_deny true 1 ex_done /\ at_rest ex_deny true ex_done
  /\ (forall k c, nth_error (conns ex_done) k = Some c -> ~ blocks (c_wsock c))
  /\ handler_alive (hdl ex_done) = true
  /\ length (handled ex_done) = 6%nat
  /\ map (fun c => length (broker_sent c)) (conns ex_done) = [5%nat; 1%nat].
Proof.
  destruct ex_done_rests as (H1 & H2 & H3 & H4 & _). split; [exact H1|]. split; [exact H2|]. split.
  { intros k c Hk Hb. destruct (H3 k c Hk) as (_ & E). unfold blocks in Hb. rewrite E in Hb. destruct Hb. }
  split; [exact H4|]. split; vm_compute; reflexivity.
Qed.

(** Just after a connection with a failing socket is accepted. *)
Example C62_case : exists s, reachable ex_deny true 1 s
  /\ (forall k c, nth_error (conns s) k = Some c -> ~ blocks (c_wsock c))
  /\ (exists l s', internal l /\ step ex_deny true s l = Some s') /\ handler_alive (hdl s) = true.
Proof.
  exists (drive ex_deny true (sys_init 1) [LAccept (ex_peer [ex_client "s" None None] PeerOpen) (ex_socket [WAccept 2; WFail]) 1]).
  split; [apply drive_reachable|]. split.
  { intros [|k] c; [|destruct k; discriminate]. intros [= <-] Hb. destruct Hb as [H|[H|[]]]; discriminate H. }
  split; [|reflexivity]. exists (LReader 0%nat (str "u")). eexists. split; [exact I|vm_compute; reflexivity].
Qed.

Example C63_case : exists h1 cid h2 ck, handled ex_done = h1 ++ (5%Z, ClientPacket cid (Publish (ex_message "a" "y")) 1%nat) :: h2
  /\ nth_error (conns ex_done) 0 = Some ck /\ subscribed ex_deny h1 0%nat (str "a") /\ wildcard_free (str "a")
  /\ (forall f, ~ In (f, 0%nat, ServerDisconnect) (log ex_done)) /\ nth_error (broker_sent ck) 3 = Some (Publish (ex_message "a" "y")).
Proof.
  assert (K : exists h1 h2, handled ex_done = h1 ++ (5%Z, ClientPacket (str "p") (Publish (ex_message "a" "y")) 1%nat) :: h2
     /\ owner ex_deny h1 (str "s") = Some 0%nat /\ Nat.eqb (live (requests h1) (str "s") (str "a")) 1 = true).
  { exists (firstn 4 (handled ex_done)), (skipn 5 (handled ex_done)). split; [|split]; vm_compute; reflexivity. }
  assert (K2 : forallb (fun x => match snd x with ServerDisconnect => false | _ => true end) (log ex_done) = true) by (vm_compute; reflexivity).
  assert (K3 : exists ck, nth_error (conns ex_done) 0 = Some ck /\ nth_error (broker_sent ck) 3 = Some (Publish (ex_message "a" "y"))).
  { eexists. split; vm_compute; reflexivity. }
  generalize dependent ex_done. intros s K K2 (ck & K3 & K4). destruct K as (h1 & h2 & E & Ho & Hl).
  exists h1, (str "p"), h2, ck. split; [exact E|]. split; [exact K3|]. split.
  { exists (str "s"), (str "a"). split; [now apply owner_owns|]. split; [intros X; rewrite X in Hl; discriminate|].
    apply matchesb_spec. vm_compute. reflexivity. }
  split; [apply wildcard_free_dec; reflexivity|]. split; [|exact K4].
  intros f Hf. rewrite forallb_forall in K2. specialize (K2 _ Hf). discriminate.
Qed.
