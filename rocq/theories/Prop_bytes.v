(** Property C135: from the bytes the clients send to the bytes they get. *)
From Verif Require Import Base Base_facts Packets HashMap Subscriptions Messaging Handler Decoder ReadStream ReadStream_facts
  Plain Plain_facts Conn Conn_facts Encoder Encoder_facts WriteStream WriteStream_facts Spec_wire Spec_subs Spec_broker Spec_ref
  Subscriptions_facts Handler_facts System System_facts
  System_hist System_conn System_queue System_first System_progress System_exit System_rest
  Prop_codec Prop_subs Prop_stream Prop_broker Prop_system Prop_rest Prop_mqtt Prop_ref Prop_stop Prop_any.
Open Scope nat_scope.

(** A client that sends the packets [qs], in any of their wire forms ([sent_as], Spec_wire.v), in at most 4096
    bytes, cut up in any way, and takes whatever it is sent. Whether it then closes, fails or waits is open. *)
Definition says (p : peer) (qs : list ControlPacket) : Prop :=
  let '(r, w, _) := p in
  eager w /\ exists bss, Forall2 sent_as qs bss /\ arriving r = concat bss /\ (lenN (arriving r) <= 4096)%N.

(** [es] mixes what the clients send, one list of packets for each, with the address it comes from. Each client's
    packets keep their order; a client that gives no id goes by any. *)
Definition mixes (sends : list (N * list ControlPacket)) (es : list ClientEvent) : Prop :=
  (forall e, In e es -> exists k, event_tx e = Some k /\ k < length sends)
  /\ forall k a qs, nth_error sends k = Some (a, qs) ->
       exists cid, (forall p rest, qs = Connect p :: rest -> goes_by p cid) /\ events_of k es = issued k a cid qs.

Definition addressed (ps : list peer) (qss : list (list ControlPacket)) : list (N * list ControlPacket) :=
  combine (map snd ps) qss.

(** What such a client sends is what gets read of it. *)
Lemma says_read dbg r w a qs : says (r, w, a) qs -> fst (read_all dbg (connection_stream r)) = qs.
Proof.
  intros (_ & bss & HF & HA & HL).
  assert (HP : pending (connection_stream r) = concat bss ++ []) by (rewrite app_nil_r; exact HA).
  destruct (read_all_sent dbg qs bss (connection_stream r) [] (wf_new 4096 r) HF HP)
    as (st' & W' & Hp' & _ & _ & _ & _ & _ & HR); [rewrite <- HA; exact HL|].
  rewrite HR. destruct (read_all dbg st') as [xs e] eqn:E. cbn [fst].
  assert (Z : fst (read_all dbg st') = []).
  { rewrite (read_all_step dbg st' W'). unfold stream_read_packet.
    destruct (run (read_packet (Datatypes.S (length (pending st'))) dbg) st') as [q t| | | | |] eqn:E'; try reflexivity. exfalso.
    assert (HN : run (read_packet (Datatypes.S (length (pending st'))) dbg) st' <> RHung) by congruence.
    pose proof (run_plain _ st' W' HN) as HP'.
    assert (HM : plain (read_packet (Datatypes.S (length (pending st'))) dbg) (pending st') = PMore []) by (rewrite Hp'; reflexivity).
    rewrite HM in HP'. rewrite E' in HP'. cbn [obs] in HP'. destruct (ending (rsk st')); discriminate. }
  rewrite E in Z. cbn [fst] in Z. subst xs. apply app_nil_r.
Qed.

Lemma addressed_nth ps : forall qss k r w a, Forall2 says ps qss -> nth_error ps k = Some (r, w, a) ->
  exists qs, nth_error (addressed ps qss) k = Some (a, qs) /\ says (r, w, a) qs.
Proof.
  induction ps as [|p ps IH]; intros qss k r w a HS Hk; [destruct k; discriminate|].
  inversion HS as [|? qs ? qss' H1 H2]; subst. destruct k as [|k]; cbn [nth_error addressed map combine] in *.
  - injection Hk as ->. exists qs. auto.
  - exact (IH qss' k r w a H2 Hk).
Qed.

Lemma says_length ps qss : Forall2 says ps qss -> length ps = length qss.
Proof. induction 1; cbn [length]; congruence. Qed.

Lemma addressed_length ps : forall qss, Forall2 says ps qss -> length (addressed ps qss) = length ps.
Proof.
  intros qss H. induction H as [|p qs ps qss H1 H2 IH]; [reflexivity|]. unfold addressed in *. cbn [map combine length]. now rewrite IH.
Qed.

Lemma mixes_interleaving dbg ps qss es : Forall2 says ps qss ->
  (interleaving dbg ps es <-> mixes (addressed ps qss) es).
Proof.
  intros HS. unfold interleaving, mixes. rewrite (addressed_length ps qss HS). split; intros (H1 & H2); (split; [exact H1|]).
  - intros k a qs Hk.
    assert (L : k < length ps) by (rewrite <- (addressed_length ps qss HS); apply nth_error_Some; congruence).
    destruct (nth_error ps k) as [((r, w), a')|] eqn:Hp; [|apply nth_error_None in Hp; lia].
    destruct (addressed_nth ps qss k r w a' HS Hp) as (qs' & E & Hq). rewrite Hk in E. injection E as <- <-.
    pose proof (H2 k r w a Hp) as K. cbn zeta in K. rewrite (says_read dbg r w a qs Hq) in K. exact K.
  - intros k r w a Hp. destruct (addressed_nth ps qss k r w a HS Hp) as (qs & E & Hq). cbn zeta.
    rewrite (says_read dbg r w a qs Hq). exact (H2 k a qs E).
Qed.

Lemma says_unblocked ps qss : Forall2 says ps qss -> forall r w a, In (r, w, a) ps -> ~ blocks w.
Proof.
  intros HS r w a Hin. apply In_nth_error in Hin. destruct Hin as (k & Hk).
  destruct (addressed_nth ps qss k r w a HS Hk) as (qs & _ & ((_ & HE) & _)). unfold blocks. rewrite HE. intros [].
Qed.

(** What the clients hold when all is quiet. *)
Lemma quiet_bytes auth dbg n s qss : quiet auth dbg n s -> Forall2 says (peers s) qss ->
  forall k c, nth_error (conns s) k = Some c ->
    peer_got c = encodings (broker_sent c) /\ client_reads (peer_got c) (broker_sent c) [].
Proof.
  intros HQ HS k c Hk. pose proof HQ as (HR & HA & HB & HH).
  assert (PK : forall j d, nth_error (conns s) j = Some d -> nth_error (peers s) j = Some (c_rsock d, c_wsock d, c_addr d)).
  { intros j d Hj. unfold peers. now rewrite nth_error_map, Hj. }
  assert (HF : finite_peers s).
  { intros j d Hj. destruct (addressed_nth _ _ _ _ _ _ HS (PK j d Hj)) as (qs & _ & (_ & bss & _ & _ & HL)).
    eapply N.le_lt_trans; [exact HL|]. reflexivity. }
  destruct (addressed_nth _ _ _ _ _ _ HS (PK k c Hk)) as (qs & _ & (HE & _)).
  apply (C59_all_arrived auth dbg n s k c HR HF Hk HE).
  exact (proj2 (rest_writers auth dbg n s k c HR HA (alive_running auth dbg n s HR HH) Hk (HB k c Hk))).
Qed.

(** ** C135 *)

(** The byte strings the clients may end up with, when everything has been dealt with, are exactly the encodings
    of what the reference broker sends for some mix of their packets. *)
Theorem C135_bytes_out auth dbg n ps qss (o : list bytes) : n <> 0 -> Forall2 says ps qss ->
  (exists s, quiet auth dbg n s /\ peers s = ps /\ map peer_got (conns s) = o)
  <-> exists es, mixes (addressed ps qss) es /\ fits auth es
       /\ o = map (fun k => encodings (before_close (ref_sends auth ref_init es k))) (seq 0 (length ps)).
Proof.
  intros Hn HS. pose proof (C92_possible_outcomes auth dbg n ps) as HO.
  assert (G : forall s, quiet auth dbg n s -> peers s = ps -> map peer_got (conns s) = map encodings (map broker_sent (conns s))).
  { intros s HQ HP. rewrite map_map. apply map_ext_in. intros c Hc. apply In_nth_error in Hc. destruct Hc as (k & Hk).
    rewrite <- HP in HS. exact (proj1 (quiet_bytes auth dbg n s qss HQ HS k c Hk)). }
  split.
  - intros (s & HQ & HP & <-).
    destruct (proj1 (HO _ Hn (says_unblocked ps qss HS)) (ex_intro _ s (conj HQ (conj HP eq_refl)))) as (es & H1 & H2 & H3).
    exists es. split; [now apply (mixes_interleaving dbg ps qss es HS)|]. split; [exact H2|].
    rewrite (G s HQ HP), H3, map_map. reflexivity.
  - intros (es & H1 & H2 & ->).
    destruct (proj2 (HO (map (fun k => before_close (ref_sends auth ref_init es k)) (seq 0 (length ps))) Hn (says_unblocked ps qss HS)))
      as (s & HQ & HP & HB).
    { exists es. split; [now apply (mixes_interleaving dbg ps qss es HS)|]. auto. }
    exists s. split; [exact HQ|]. split; [exact HP|]. rewrite (G s HQ HP), HB, map_map. reflexivity.
Qed.

(** Every client can read the whole of what it gets, and reads what the reference broker sends it. *)
Theorem C135_read_back auth dbg n s qss : quiet auth dbg n s -> Forall2 says (peers s) qss ->
  exists es, mixes (addressed (peers s) qss) es /\ fits auth es
    /\ forall k c, nth_error (conns s) k = Some c ->
         client_reads (peer_got c) (before_close (ref_sends auth ref_init es k)) [].
Proof.
  intros HQ HS. exists (map snd (handled s)). destruct (outcome_possible auth dbg n s HQ) as (H1 & H2).
  split; [now apply (mixes_interleaving dbg (peers s) qss _ HS)|]. split; [exact H2|].
  intros k c Hk. destruct (quiet_bytes auth dbg n s qss HQ HS k c Hk) as (_ & K).
  destruct (C86_at_rest auth dbg n s HQ k c Hk) as (E & _). rewrite E in K. exact K.
Qed.

(** So the possible outcomes depend on the packets and the addresses alone: not on the wire forms chosen, on how
    the bytes were cut up, on what the allocator grants, on the build, on the number of listeners, or on whether
    the clients hang up afterwards. *)
Theorem C135_only_packets auth dbg1 dbg2 n1 n2 ps1 ps2 qss (o : list bytes) : n1 <> 0 -> n2 <> 0 ->
  Forall2 says ps1 qss -> Forall2 says ps2 qss -> map snd ps1 = map snd ps2 ->
  (exists s, quiet auth dbg1 n1 s /\ peers s = ps1 /\ map peer_got (conns s) = o) ->
  exists s, quiet auth dbg2 n2 s /\ peers s = ps2 /\ map peer_got (conns s) = o.
Proof.
  intros N1 N2 S1 S2 HA H. apply (C135_bytes_out auth dbg1 n1 ps1 qss o N1 S1) in H.
  apply (C135_bytes_out auth dbg2 n2 ps2 qss o N2 S2). unfold addressed in *. rewrite <- HA.
  assert (L : length ps2 = length ps1) by (apply says_length in S1; apply says_length in S2; lia).
  rewrite L. exact H.
Qed.

(** The subscriber and the publisher of C92, cut up byte by byte and hanging up at the end. The subscriber ends up
    with a CONNACK and a SUBACK, and either with the message or without. *)
Definition ex_cut (p : peer) : peer :=
  let '(r, w, a) := p in
  ({| arriving := arriving r; ending := PeerEof; chunks := repeat 1%N 100; grants := [5%N]; reuse := false |}, w, a).

Definition ex_two_sends : list (list ControlPacket) :=
  [[ex_client "s" None None; Subscribe 1 [{| sub_topic := str "a"; sub_qos := AtMostOnce |}]];
   [ex_client "p" None None; Publish (ex_message "a" "x")]].

Lemma ex_says : Forall2 says ex_two ex_two_sends /\ Forall2 says (map ex_cut ex_two) ex_two_sends.
Proof.
  assert (V : forall p, lenN (packet_body p) = b2n (n2b (lenN (packet_body p))) -> (b2n (n2b (lenN (packet_body p))) < 128)%N ->
    packet_ok p -> readable p = true -> sent_as p (ex_bytes [p])).
  { intros p E L H1 H2. split; [exact H1|]. split; [exact H2|]. exists [n2b (lenN (packet_body p))].
    split; [rewrite E at 2; now constructor|]. split; [cbn; lia|]. unfold ex_bytes. cbn [flat_map]. now rewrite app_nil_r. }
  assert (A : forall qs, In qs ex_two_sends -> exists bss, Forall2 sent_as qs bss /\ concat bss = ex_bytes qs).
  { intros qs Hq. exists (map (fun p => ex_bytes [p]) qs). destruct Hq as [<-|[<-|[]]]; (split; [|vm_compute; reflexivity]).
    all: apply Forall2_cons; [|apply Forall2_cons; [|apply Forall2_nil]]; apply V; try reflexivity; repeat split; try discriminate;
      try (now apply text_lit); try (constructor; [now apply text_lit|constructor]). }
  destruct (A _ (or_introl eq_refl)) as (b0 & F0 & E0), (A _ (or_intror (or_introl eq_refl))) as (b1 & F1 & E1).
  split; (constructor; [|constructor; [|constructor]]).
  all: split; [split; reflexivity|].
  1,3: exists b0; split; [exact F0|]; split; [symmetry; exact E0|vm_compute; discriminate].
  all: exists b1; split; [exact F1|]; split; [symmetry; exact E1|vm_compute; discriminate].
Qed.

Example C135_case : forall l, l = [x30; x04; x00; x01; x61; x78] \/ l = [] ->
  exists s, quiet ex_deny false 2 s /\ peers s = map ex_cut ex_two
    /\ map peer_got (conns s) = [[x20; x02; x00; x00; x90; x03; x00; x01; x00] ++ l; [x20; x02; x00; x00]].
Proof.
  intros l Hl. destruct ex_says as (S1 & S2).
  apply (C135_only_packets ex_deny true false 1 2 ex_two (map ex_cut ex_two) ex_two_sends); auto.
  set (m := if l then [] else [Publish (ex_message "a" "x")]).
  destruct (C92_case m) as (s & HQ & HP & HB).
  { destruct Hl as [-> | ->]; [now left|now right]. }
  exists s. split; [exact HQ|]. split; [exact HP|].
  rewrite <- HP in S1.
  assert (E : map peer_got (conns s) = map encodings (map broker_sent (conns s))).
  { rewrite map_map. apply map_ext_in. intros c Hc. apply In_nth_error in Hc. destruct Hc as (k & Hk).
    exact (proj1 (quiet_bytes _ _ _ s _ HQ S1 k c Hk)). }
  rewrite E, HB. subst m. destruct Hl as [-> | ->]; vm_compute; reflexivity.
Qed.
