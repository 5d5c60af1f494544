(** Properties C14, C15 and C17-C21: buffered reading and writing. *)
From Verif Require Import Base Base_facts Utf8 Spec_utf8 Utf8_facts Packets Spec_wire Decoder
  ReadStream Plain ReadStream_facts Plain_facts Decoder_facts Conn Panic_facts Hang_facts
  Encoder Encoder_facts Conform_facts Conn_facts WriteStream WriteStream_facts Prop_codec.
Open Scope N_scope.
Ltac Zify.zify_post_hook ::= Z.div_mod_to_equations.

(** ** C14 *)

(** Two connections on which the same bytes arrive, whatever the reads they come in ([chunks]), the buffer
    capacities, the allocator's choices and the version of the bytes library, read the same packets as far as
    both get; a difference remains only if one of them spins forever (C15). *)
Theorem C14_allocation_choices dbg s1 s2 : wf s1 -> wf s2 ->
  pending s1 = pending s2 -> ending (rsk s1) = ending (rsk s2) ->
  (snd (read_all dbg s1) = EndHung /\ exists l, fst (read_all dbg s2) = fst (read_all dbg s1) ++ l)
  \/ (snd (read_all dbg s2) = EndHung /\ exists l, fst (read_all dbg s1) = fst (read_all dbg s2) ++ l)
  \/ read_all dbg s1 = read_all dbg s2.
Proof. exact (read_all_agree dbg s1 s2). Qed.

(** Before bytes 1.7 not even that: same packets, same end. *)
Theorem C14_segmentation_irrelevant dbg bs en gr ch1 ch2 :
  read_all dbg (connection_stream {| arriving := bs; ending := en; chunks := ch1; grants := gr; reuse := false |})
  = read_all dbg (connection_stream {| arriving := bs; ending := en; chunks := ch2; grants := gr; reuse := false |}).
Proof. apply read_all_same; try apply wf_new. repeat split. Qed.

(** Also from any later state of the two connections. *)
Theorem C14_from_any_state dbg s1 s2 : wf s1 -> wf s2 ->
  pending s1 = pending s2 -> ending (rsk s1) = ending (rsk s2) ->
  cap (rbuf s1) = cap (rbuf s2) -> grants (rsk s1) = grants (rsk s2) ->
  reuse (rsk s1) = false -> reuse (rsk s2) = false ->
  read_all dbg s1 = read_all dbg s2.
Proof. intros W1 W2 H1 H2 H3 H4 H5 H6. apply read_all_same; auto. repeat split; auto. Qed.

(** In every version: packets of at most 4096 bytes in all are read alike, however they come in. *)
Theorem C14_first_4096_bytes dbg ps bss en gr1 gr2 ch1 ch2 ru1 ru2 : Forall2 sent_as ps bss -> lenN (concat bss) <= 4096 ->
  fst (read_all dbg (connection_stream {| arriving := concat bss; ending := en; chunks := ch1; grants := gr1; reuse := ru1 |}))
  = fst (read_all dbg (connection_stream {| arriving := concat bss; ending := en; chunks := ch2; grants := gr2; reuse := ru2 |})).
Proof.
  intros HF HL.
  assert (K : forall st, wf st -> pending st = concat bss -> cap (rbuf st) = 4096 ->
    exists st', read_all dbg st = (ps ++ fst (read_all dbg st'), snd (read_all dbg st')) /\ pending st' = [] /\ wf st').
  { intros st W Hp Hc.
    destruct (read_all_sent dbg ps bss st [] W HF) as (st' & W' & Hp' & _ & _ & _ & _ & _ & HR);
      [now rewrite app_nil_r|now rewrite Hc|].
    exists st'. split; [|split; assumption]. rewrite HR. destruct (read_all dbg st'); reflexivity. }
  assert (Z : forall st, wf st -> pending st = [] -> fst (read_all dbg st) = []).
  { intros st W Hp. rewrite (read_all_step dbg st W). unfold stream_read_packet.
    destruct (run (read_packet (S (length (pending st))) dbg) st) as [q t| | | | |] eqn:E; try reflexivity. exfalso.
    assert (HN : run (read_packet (S (length (pending st))) dbg) st <> RHung) by congruence.
    pose proof (run_plain _ st W HN) as HP.
    assert (HM : plain (read_packet (S (length (pending st))) dbg) (pending st) = PMore []) by (rewrite Hp; reflexivity).
    rewrite HM in HP.
    rewrite E in HP. cbn [obs] in HP. destruct (ending (rsk st)); discriminate. }
  destruct (K _ (wf_new 4096 {| arriving := concat bss; ending := en; chunks := ch1; grants := gr1; reuse := ru1 |}) eq_refl eq_refl)
    as (s1 & E1 & P1 & W1).
  destruct (K _ (wf_new 4096 {| arriving := concat bss; ending := en; chunks := ch2; grants := gr2; reuse := ru2 |}) eq_refl eq_refl)
    as (s2 & E2 & P2 & W2).
  unfold connection_stream, listener_buffer_size. rewrite E1, E2. cbn [fst]. now rewrite (Z s1 W1 P1), (Z s2 W2 P2).
Qed.

Example C14_case : forall ch,
  read_all true (connection_stream {| arriving := [xc0; x00; x40; x02; x12; x34; xe0]; ending := PeerEof;
                                      chunks := ch; grants := []; reuse := false |})
  = ([PingReq; PubAck 0x1234], EndErr ErrClosed).
Proof. intros ch. rewrite (C14_segmentation_irrelevant _ _ _ _ ch []). vm_compute. reflexivity. Qed.

(** Since bytes 1.7 the reads do decide which of them spins: a PUBLISH of 4098 bytes is read if its length
    digits come alone, and not if it comes at once. *)
Example C14_case_reuse :
  let bs := [x30; xff; x1f; x00; x01; x61] ++ repeat x00 4092 in
  let c ch := connection_stream {| arriving := bs; ending := PeerOpen; chunks := ch; grants := []; reuse := true |} in
  snd (read_all true (c [])) = EndHung
  /\ match read_all true (c [1; 1; 1; 2]) with ([Publish _], EndWait) => True | _ => False end.
Proof. split; vm_compute; [reflexivity|exact I]. Qed.

(** ** C15 *)

(** False of the code: a PUBLISH all of whose bytes have arrived makes the reader spin whenever its topic and
    payload are larger than the capacity left in the buffer (4096 on a new connection, less what was consumed
    before); and only if the whole packet is larger. *)
Theorem C15_large_publish_spins_refuted dbg h p r st : wf st -> packet_ok (Publish p) ->
  varint h (lenN (packet_body (Publish p))) -> (length h <= 3)%nat ->
  pending st = n2b (head_byte (Publish p)) :: h ++ packet_body (Publish p) ++ r ->
  lenN (publish_head (n2b (head_byte (Publish p))) h p) <= cap (rbuf st) ->
  (stream_read_packet dbg st = RHung -> cap (rbuf st) < 1 + lenN h + lenN (packet_body (Publish p)))
  /\ (cap (rbuf st) < lenN (topic (message p)) + lenN (payload (message p)) -> stream_read_packet dbg st = RHung)
  /\ (reuse (rsk st) = false -> cap (rbuf st) < 1 + lenN h + lenN (packet_body (Publish p)) -> stream_read_packet dbg st = RHung).
Proof.
  intros W [Ht Hid] Hv Hl Hp Hc.
  set (b := n2b (head_byte (Publish p))) in *.
  assert (HB : b2n b = head_byte (Publish p)) by (unfold b; apply b2n_n2b, head_byte_lt).
  assert (HL : 1 + lenN h + lenN (packet_body (Publish p)) = lenN (publish_head b h p) + lenN (payload (message p))).
  { unfold publish_head. cbn [packet_body]. unfold id_bytes. rewrite lenN_cons, !lenN_app. lia. }
  rewrite HL. apply (publish_hung dbg b h p r st); auto.
  - rewrite HB. apply ptype_publish.
  - rewrite HB. cbn [head_byte]. destruct (dup p), (qos (message p)), (retain (message p)); reflexivity.
  - unfold opt_id. destruct (pub_packet_id p) as [i|], (qos (message p)); try tauto; try discriminate; try (now destruct Hid).
  - rewrite Hp. unfold publish_head. cbn [packet_body app]. unfold id_bytes. now rewrite <- !app_assoc.
Qed.

(** Spinning means that no number of iterations of the loop in get_bytes is enough. *)
Theorem C15_spin_is_divergence size st : wf st -> size <= isize_max ->
  (stream_get_bytes size st = RHung <-> forall n, gb_after n [] size st <> None).
Proof. exact (get_bytes_hung_iff_diverges size st). Qed.

Definition big_publish : PublishPacket :=
  {| pub_packet_id := None; dup := false;
     message := {| topic := str "a"; payload := repeat x00 4096; qos := AtMostOnce; retain := false |} |}.

Theorem C15_reading_finishes_refuted dbg : exists bs p, wire p bs /\ lenN bs = 4102
  /\ forall ch gr ru, read_all dbg (connection_stream
       {| arriving := bs; ending := PeerOpen; chunks := ch; grants := gr; reuse := ru |}) = ([], EndHung).
Proof.
  exists (n2b (head_byte (Publish big_publish)) :: [x83; x20] ++ packet_body (Publish big_publish)), (Publish big_publish).
  assert (HV : varint [x83; x20] (lenN (packet_body (Publish big_publish)))).
  { change (lenN (packet_body (Publish big_publish))) with (b2n x83 - 128 + 128 * b2n x20).
    repeat constructor; vm_compute; congruence. }
  assert (HO : packet_ok (Publish big_publish)) by (split; [now apply text_lit|reflexivity]).
  split; [split; [exact HO|]; exists [x83; x20]; split; [exact HV|split; [cbn; lia|reflexivity]]|].
  split; [vm_compute; reflexivity|].
  intros ch gr ru. rewrite read_all_step by apply wf_new.
  set (st := connection_stream _).
  assert (HS : stream_read_packet dbg st = RHung).
  { destruct (C15_large_publish_spins_refuted dbg [x83; x20] big_publish [] st) as (_ & HH & _); try assumption.
    - apply wf_new.
    - cbn. lia.
    - rewrite app_nil_r. reflexivity.
    - vm_compute. congruence.
    - apply HH. vm_compute. reflexivity. }
  now rewrite HS.
Qed.

Definition C15_statement (dbg : bool) : Prop := forall p bs r st, wf st -> wire p bs -> pending st = bs ++ r ->
  stream_read_packet dbg st <> RHung.

Theorem C15_refuted dbg : ~ C15_statement dbg.
Proof.
  intros H. destruct (C15_reading_finishes_refuted dbg) as (bs & p & Hw & _ & E). specialize (E [] [] true).
  rewrite read_all_step in E by apply wf_new.
  set (st := connection_stream _) in E.
  pose proof (H p bs [] st (wf_new _ _) Hw ltac:(rewrite app_nil_r; reflexivity)) as HN.
  destruct (stream_read_packet dbg st) as [q st'| | | | |]; try discriminate; [|auto].
  destruct (read_all dbg st'); discriminate.
Qed.

(** The exact condition for any reader program on any stream: at some field of the packet the
    capacity left is smaller than the field, and that many bytes have arrived ([overrun],
    [Hang_facts.v]). [given_back]: the numbers that were all there was in the buffer when they were read,
    whose room is kept since bytes 1.7; before, none. *)
Theorem C15_spins_exactly_partial dbg st : wf st ->
  (stream_read_packet dbg st = RHung <->
   overrun (pending st) (cap (rbuf st)) (grants (rsk st)) (given_back (read_packet (S (length (pending st))) dbg) st)
     (reads (read_packet (S (length (pending st))) dbg) (pending st))).
Proof. intros W. apply run_hung. exact W. Qed.

(** What holds: a packet no longer than the capacity left is read, however it arrives. *)
Theorem C15_small_packets_finish_partial dbg p bs r st : wf st -> sent_as p bs ->
  pending st = bs ++ r -> lenN bs <= cap (rbuf st) ->
  exists st', stream_read_packet dbg st = ROk p st' /\ pending st' = r /\ wf st'.
Proof.
  intros W HS Hp Hc.
  assert (HD : plain (read_packet (S (length (pending st))) dbg) (pending st) = POk p r)
    by (fold (decode dbg (pending st)); rewrite Hp; now apply decode_sent).
  destruct (run_fits _ st p bs r W Hp HD Hc) as (st' & H1 & H2 & H3 & _). exists st'. auto.
Qed.

(** So a connection reads every sequence of packets of at most 4096 bytes in all. *)
Theorem C15_first_4096_bytes_partial dbg ps bss en ch gr ru : Forall2 sent_as ps bss ->
  lenN (concat bss) <= 4096 ->
  exists e, read_all dbg (connection_stream {| arriving := concat bss; ending := en; chunks := ch; grants := gr; reuse := ru |})
            = (ps, e) /\ match en with PeerOpen => e = EndWait | PeerEof => e = EndErr ErrClosed | PeerError => e = EndErr ErrIo end.
Proof.
  intros HF HL.
  destruct (read_all_sent dbg ps bss (connection_stream {| arriving := concat bss; ending := en; chunks := ch; grants := gr; reuse := ru |}) []
    (wf_new _ _) HF) as (st' & W' & Hp & He & _ & _ & _ & _ & HR).
  - cbn. now rewrite app_nil_r.
  - exact HL.
  - rewrite HR, (read_all_step dbg st' W').
    assert (HN : stream_read_packet dbg st' <> RHung).
    { intros H. apply (run_hung _ st' W') in H. rewrite Hp in H at 3. rewrite Hp in H at 3.
      destruct H as (pre & n & post & E & _). unfold read_packet in E. cbn in E.
      destruct pre as [|x pre]; [discriminate|]. apply cons_inj in E. destruct E as [_ E]. destruct pre; discriminate. }
    unfold stream_read_packet in *. pose proof (run_plain _ st' W' HN) as HP. rewrite Hp in HP, HN. rewrite Hp.
    replace (plain (read_packet (S (length (@nil byte))) dbg) []) with (@PMore ControlPacket []) in HP by reflexivity.
    rewrite He in HP. cbn [connection_stream rstream_new rsk ending] in HP.
    destruct (run (read_packet (S (length (@nil byte))) dbg) st') as [a s|e| | | |]; cbn [obs end_out] in HP; destruct en; try discriminate;
      eexists; rewrite app_nil_r; (split; [reflexivity|]); auto; now injection HP as ->.
Qed.

Example C15_case : Forall2 sent_as [PubAck 1] [[x40; x02; x00; x01]].
Proof. constructor; [exact C16_case|constructor]. Qed.

(** ** C17 *)

Theorem C17_client_understands p r : packet_ok p -> lenN (packet_body p) <= mqtt_max ->
  match p with
  | ConnAck _ | Publish _ | PubAck _ | PubRec _ | PubRel _ | PubComp _ | SubAck _ _ | UnsubAck _ | PingResp => True
  | _ => False
  end ->
  exists bs, encode p = Some bs /\ client_parse (bs ++ r) = Some (p, r).
Proof.
  intros Hok Hl HK. assert (Hw : writable p = true) by (destruct p; try contradiction; reflexivity).
  destruct (encode_wire p Hok Hw Hl) as (bs & HE & HW). exists bs. split; [exact HE|]. now apply client_parse_wire.
Qed.

(** The client's parser is not lax: it takes only the standard's form. *)
Theorem C17_other_kinds_not_written p :
  match p with Connect _ | Subscribe _ _ | Unsubscribe _ _ | PingReq | Disconnect => True | _ => False end ->
  encode p = None.
Proof. destruct p; try contradiction; reflexivity. Qed.

Example C17_case :
  encode (SubAck 258 [SuccessQoS0; Failure]) = Some [x90; x04; x01; x02; x00; x80]
  /\ client_parse [x90; x04; x01; x02; x00; x80; xd0; x00] = Some (SubAck 258 [SuccessQoS0; Failure], [xd0; x00])
  /\ client_parse [x90; x04; x01; x02; x00; x03] = None.
Proof. repeat split; vm_compute; reflexivity. Qed.

(** ** C18 *)

Definition encodings (ps : list ControlPacket) : bytes :=
  flat_map (fun p => match encode p with Some bs => bs | None => [] end) ps.

(** The socket may accept any part of each write ([WAccept n]). *)
Theorem C18_bytes_once_in_order ps ns gr ru :
  Forall (fun p => writable p = true) ps ->
  exists st', write_all ps (connection_wstream {| accepted := []; wacts := map WAccept ns; wgrants := gr; wreuse := ru |}) = WOk st'
    /\ accepted (wsk st') ++ data (wbuf st') = encodings ps.
Proof.
  intros HW.
  destruct (write_all_clean ps (connection_wstream {| accepted := []; wacts := map WAccept ns; wgrants := gr; wreuse := ru |}))
    as (st' & H1 & _ & H2 & _).
  - apply wwf_new.
  - eapply Forall_impl; [|exact HW]. intros p Hp E. apply encode_none in E. congruence.
  - unfold acts. cbn. rewrite Forall_forall. intros a Ha. apply in_map_iff in Ha. destruct Ha as (n & <- & _). eauto.
  - exists st'. split; [exact H1|]. exact H2.
Qed.

(** From any state of the stream. *)
Theorem C18_from_any_state ps st : wwf st -> Forall (fun p => writable p = true) ps ->
  Forall (fun a => exists n, a = WAccept n) (wacts (wsk st)) ->
  exists st', write_all ps st = WOk st' /\ wwf st'
    /\ accepted (wsk st') ++ data (wbuf st') = (accepted (wsk st) ++ data (wbuf st)) ++ encodings ps.
Proof.
  intros W HW HA.
  destruct (write_all_clean ps st W) as (st' & H1 & W' & H2 & _); auto.
  - eapply Forall_impl; [|exact HW]. intros p Hp E. apply encode_none in E. congruence.
  - exists st'. auto.
Qed.

(** With write errors too, which the write loop only logs: each packet contributes a prefix of its
    encoding, in order. *)
Theorem C18_with_errors ps st st' : wwf st -> Forall (fun p => writable p = true) ps ->
  write_all ps st = WOk st' ->
  exists pres, Forall2 (fun p pre => exists bs t, encode p = Some bs /\ bs = pre ++ t) ps pres
    /\ accepted (wsk st') ++ data (wbuf st') = (accepted (wsk st) ++ data (wbuf st)) ++ concat pres.
Proof.
  intros W HW HR. destruct (write_all_prefixes ps st st' W) as (pres & H1 & H2 & _); auto.
  - eapply Forall_impl; [|exact HW]. intros p Hp E. apply encode_none in E. congruence.
  - exists pres. split; [|exact H2]. clear - H1.
    induction H1 as [|p pre ps pres (bs & HE & t & Ht) _ IH]; constructor; eauto.
Qed.

(** So an error that passes breaks the framing: here the beginning of a PUBLISH, up to its topic, is
    followed by a whole PINGRESP. *)
Theorem C18_errors_break_framing : exists big bs st',
  encode big = Some bs
  /\ write_all [big; PingResp] (connection_wstream {| accepted := []; wacts := [WFail]; wgrants := []; wreuse := true |}) = WOk st'
  /\ accepted (wsk st') = firstn 6 bs ++ [xd0; x00] /\ (length bs = 4106)%nat.
Proof.
  exists (Publish (PublishPacket_new [x61] (repeat x62 4100) AtMostOnce false None false)).
  eexists. eexists. split; [vm_compute; reflexivity|]. split; [vm_compute; reflexivity|].
  split; vm_compute; reflexivity.
Qed.

Example C18_case :
  match write_all [PubAck 1; PingResp] (connection_wstream {| accepted := []; wacts := map WAccept [3; 0]; wgrants := []; wreuse := true |}) with
  | WOk st => (accepted (wsk st), data (wbuf st)) = ([x40; x02; x00; x01], [xd0; x00])
  | _ => False
  end.
Proof. vm_compute. reflexivity. Qed.

(** ** C19 *)

(** False of the code: after a short write success is reported with bytes still in the buffer, where
    they stay until the next packet is written. *)
Theorem C19_handed_to_socket_refuted : exists p bs st',
  encode p = Some bs
  /\ write_packet p (connection_wstream {| accepted := []; wacts := [WAccept 1]; wgrants := []; wreuse := true |}) = WOk st'
  /\ accepted (wsk st') = firstn 1 bs /\ (length bs = 4)%nat.
Proof.
  exists (PubAck 1). eexists. eexists. split; [reflexivity|].
  split; [vm_compute; reflexivity|]. split; reflexivity.
Qed.

Definition C19_statement : Prop := forall p bs st st', wwf st -> encode p = Some bs -> write_packet p st = WOk st' ->
  accepted (wsk st') = accepted (wsk st) ++ data (wbuf st) ++ bs.

Theorem C19_refuted : ~ C19_statement.
Proof.
  intros H. destruct C19_handed_to_socket_refuted as (p & bs & st & E & Ew & Ha & Hl).
  specialize (H p bs _ st (wwf_new _ _) E Ew). rewrite Ha in H. apply (f_equal (@length byte)) in H.
  cbn [connection_wstream wstream_new wsk wbuf accepted with_capacity data app] in H.
  rewrite firstn_length in H. lia.
Qed.

(** With a socket that takes whole writes everything is handed over, the residue of earlier short
    writes included. *)
Theorem C19_whole_writes_partial p bs st : wwf st -> encode p = Some bs -> wacts (wsk st) = [] ->
  exists st', write_packet p st = WOk st' /\ data (wbuf st') = []
    /\ accepted (wsk st') = accepted (wsk st) ++ data (wbuf st) ++ bs.
Proof.
  intros W HE HA. pose proof (write_packet_facts p st bs W HE) as H.
  unfold write_packet in *. destruct (packet_puts p) as [cs|] eqn:EP; [|unfold encode in HE; rewrite EP in HE; discriminate].
  destruct (run_puts cs st) as [st1|st1| | |] eqn:ER.
  2:{ destruct H as (_ & _ & _ & HI & _). unfold acts in HI. rewrite HA in HI. contradiction. }
  2:{ destruct H as (_ & _ & _ & HI & _). unfold acts in HI. rewrite HA in HI. contradiction. }
  2, 3: contradiction.
  assert (H1 : acts st1 = []).
  { destruct (packet_puts_first p cs EP) as (n & cs' & ->). cbn [run_puts] in ER.
    pose proof (run_put_facts (PutU8 n) st W I) as HP.
    destruct (run_put (PutU8 n) st) as [st0|st0| | |]; try discriminate.
    destruct HP as (W0 & _ & HL0 & _ & Hc0). pose proof (run_puts_facts cs' st0 W0 Hc0) as HQ. rewrite ER in HQ.
    destruct HQ as (_ & _ & HL1 & _). destruct (later_trans _ _ _ HL1 HL0) as [x Hx].
    unfold acts in Hx at 1. rewrite HA in Hx. now destruct x, (acts st1). }
  destruct (write_buf_whole st1 H1) as (st2 & HB & HD & _). unfold finish_packet in *. rewrite HB in *.
  exists st2. split; [reflexivity|]. split; [exact HD|].
  destruct H as (_ & HW & _). unfold written in HW. rewrite HD, app_nil_r in HW. now rewrite HW, <- app_assoc.
Qed.

(** In general what is missing from the socket is a suffix of what was given to the stream. *)
Theorem C19_suffix_missing_partial p bs st st' : wwf st -> encode p = Some bs -> write_packet p st = WOk st' ->
  accepted (wsk st') ++ data (wbuf st') = accepted (wsk st) ++ data (wbuf st) ++ bs
  /\ exists t, accepted (wsk st') = accepted (wsk st) ++ t.
Proof.
  intros W HE HR. pose proof (write_packet_facts p st bs W HE) as H. rewrite HR in H.
  destruct H as (_ & HW & _ & HP). unfold written in HW. rewrite <- app_assoc in HW. auto.
Qed.

(** ** C20 *)

(** No packet, buffer state or socket behaviour makes writing spin or panic, and it waits only for a
    socket that stopped accepting. *)
Theorem C20_writing_finishes p st : wwf st -> writable p = true ->
  match write_packet p st with
  | WOk _ => True
  | WErr _ => In WFail (wacts (wsk st))
  | WWait _ => In WBlock (wacts (wsk st))
  | WHung | WPanic => False
  end.
Proof.
  intros W Hw. destruct (encode p) as [bs|] eqn:E.
  - pose proof (write_packet_facts p st bs W E) as H. destruct (write_packet p st); cbn [wdone] in H; tauto.
  - apply encode_none in E. congruence.
Qed.

(** Reachable stream states satisfy the hypothesis. *)
Theorem C20_states_wellformed n s : wwf (wstream_new n s)
  /\ forall p st st', wwf st -> writable p = true -> write_packet p st = WOk st' \/ write_packet p st = WErr st' -> wwf st'.
Proof.
  split; [apply wwf_new|]. intros p st st' W Hw HR. destruct (encode p) as [bs|] eqn:E.
  - pose proof (write_packet_facts p st bs W E) as H. destruct HR as [HR|HR]; rewrite HR in H; apply H.
  - apply encode_none in E. congruence.
Qed.

(** Even on a stream created with capacity 0. *)
Example C20_case : exists st', write_packet (Publish big_publish)
  (wstream_new 0 {| accepted := []; wacts := []; wgrants := []; wreuse := true |}) = WOk st' /\ lenN (accepted (wsk st')) = 4102.
Proof. eexists. split; vm_compute; reflexivity. Qed.

(** ** C21 *)

Theorem C21_relay dbg bs p r : decode dbg bs = POk (Publish p) r ->
  exists out, encode (Publish p) = Some out
    /\ (forall s, client_parse (out ++ s) = Some (Publish p, s))
    /\ (forall b h body n, bs = b :: h ++ body ++ r -> varint h n -> n = lenN body -> shortest h -> bs = out ++ r).
Proof.
  intros HD. apply C10_accepted_exactly in HD; [|exact I].
  destruct HD as (b & h & n & body & -> & Hv & Hh & Hok & Hb & -> & ->).
  pose proof (varint3_bound _ _ Hv Hh) as HB.
  rewrite (encode_bytes (Publish p) Hok eq_refl). eexists. split; [reflexivity|]. split.
  - intros s. apply client_parse_wire; [|reflexivity]. split; [exact Hok|].
    exists (erl (lenN (packet_body (Publish p)))).
    split; [apply erl_spec; change (2 ^ 64) with 18446744073709551616; lia|]. split; [|reflexivity].
    apply erl_le4. unfold mqtt_max. lia.
  - intros b' h' body' n' E Hv' _ Hs. apply cons_inj in E. destruct E as [<- E].
    destruct (varint_prefix _ _ Hv _ _ _ _ Hv' E) as (<- & _ & <-).
    assert (HE : h = erl (lenN (packet_body (Publish p)))).
    { apply C03_unique; auto. change (2 ^ 64) with 18446744073709551616. lia. }
    rewrite <- HE, <- Hb, n2b_b2n. cbn [app]. now rewrite <- app_assoc.
Qed.

Example C21_case : decode false [x3b; x85; x00; x00; x01; x61; x00; x09]
  = POk (Publish {| pub_packet_id := Some 9; dup := true;
      message := {| topic := str "a"; payload := []; qos := AtLeastOnce; retain := true |} |}) []
  /\ encode (Publish {| pub_packet_id := Some 9; dup := true;
      message := {| topic := str "a"; payload := []; qos := AtLeastOnce; retain := true |} |})
     = Some [x3b; x05; x00; x01; x61; x00; x09].
Proof. split; vm_compute; reflexivity. Qed.
