(** Properties C01-C13 and C16: what the packet reader accepts and what the writer produces. *)
From Verif Require Import Base Base_facts Utf8 Spec_utf8 Utf8_facts Packets Spec_wire Decoder
  ReadStream Plain ReadStream_facts Plain_facts Decoder_facts Conn Panic_facts Hang_facts
  Encoder Encoder_facts Conform_facts Conn_facts.
Open Scope N_scope.
Ltac Zify.zify_post_hook ::= Z.div_mod_to_equations.

(** Bytes written by a list of calls. *)
Definition bytes_of (l : list put) : bytes := flat_map put_bytes_of l.

(** ** C01 *)

Lemma reads_drl fuel : forall v m bs r0, In r0 (reads (decode_remaining_length_loop fuel v m) bs) ->
  r0 = RNum 1.
Proof.
  induction fuel as [|fuel IH]; intros v m bs r0 H; [contradiction|].
  cbn [decode_remaining_length_loop get_u8 bind reads] in H.
  destruct H as [<-|H]; [reflexivity|]. destruct bs as [|b r]; [contradiction|].
  destruct (128 * 128 * 128 <? m * 128); [contradiction|].
  destruct (N.land (b2n b) 128 =? 0); [contradiction|]. eauto.
Qed.

Lemma drl_no_hang st : wf st -> run decode_remaining_length st <> RHung.
Proof.
  intros W H. apply (run_hung _ st W) in H.
  destruct H as (pre & n & post & E & _).
  assert (HI : In (RField n) (reads decode_remaining_length (pending st)))
    by (rewrite E; apply in_or_app; right; now left).
  apply reads_drl in HI. discriminate.
Qed.

Theorem C01_remaining_length_round_trip n r : n < 2097152 ->
  plain decode_remaining_length (bytes_of (encode_remaining_length n) ++ r) = POk n r.
Proof.
  intros H. apply decode_remaining_length_ok. exists (erl n). split; [reflexivity|].
  split; [|now apply erl_le3]. apply erl_spec. change (2 ^ 64) with 18446744073709551616. lia.
Qed.

(** The same on a connection, however the bytes arrive and whatever the buffer state. *)
Theorem C01_on_a_stream n r st : n < 2097152 -> wf st ->
  pending st = bytes_of (encode_remaining_length n) ++ r ->
  exists st', run decode_remaining_length st = ROk n st' /\ pending st' = r /\ wf st'.
Proof.
  intros H W Hp. pose proof (run_plain _ st W (drl_no_hang st W)) as HP.
  rewrite Hp, (C01_remaining_length_round_trip n r H) in HP.
  destruct HP as (st' & H1 & H2 & H3 & _). eauto.
Qed.

Example C01_case : bytes_of (encode_remaining_length 2097151) = [xff; xff; x7f]
  /\ plain decode_remaining_length ([xff; xff; x7f] ++ [x80; x01]) = POk 2097151 [x80; x01].
Proof. split; vm_compute; reflexivity. Qed.

(** ** C02 *)

(** False of the code: a legal length may have four digits, and none of those is accepted. *)
Theorem C02_four_byte_lengths_refuted h n r : varint h n -> length h = 4%nat ->
  plain decode_remaining_length (h ++ r) = PErr ErrLength.
Proof.
  intros Hv Hl.
  destruct (drl_cases (h ++ r))
    as [(h1 & n1 & r1 & E & Hr1 & Hv1 & Hl1)|[(b1 & b2 & b3 & b4 & r1 & _ & _ & _ & _ & E)|(l & E & HM & _)]].
  - exfalso. destruct (varint_prefix _ _ Hv _ _ _ _ Hv1 Hr1) as [-> _]. lia.
  - exact E.
  - rewrite app_length in HM. lia.
Qed.

Theorem C02_every_legal_length_refuted :
  exists h n, varint h n /\ (length h <= 4)%nat /\ n <= mqtt_max /\ shortest h
    /\ forall r, plain decode_remaining_length (h ++ r) <> POk n r.
Proof.
  exists [x80; x80; x80; x01], 2097152.
  assert (HV : varint [x80; x80; x80; x01] 2097152).
  { change 2097152 with (b2n x80 - 128 + 128 * (b2n x80 - 128 + 128 * (b2n x80 - 128 + 128 * b2n x01))).
    repeat constructor; vm_compute; congruence. }
  split; [exact HV|]. split; [cbn; lia|]. split; [vm_compute; congruence|].
  split; [right; vm_compute; congruence|].
  intros r H. rewrite (C02_four_byte_lengths_refuted _ _ r HV eq_refl) in H. discriminate.
Qed.

Definition C02_statement : Prop := forall h n r, n <= mqtt_max -> varint h n -> (length h <= 4)%nat ->
  plain decode_remaining_length (h ++ r) = POk n r.

Theorem C02_refuted : ~ C02_statement.
Proof.
  intros H. destruct C02_every_legal_length_refuted as (h & n & Hv & Hl & Hn & _ & Hr). now apply (Hr []), H.
Qed.

(** What holds instead: exactly the lengths of one to three digits are accepted. *)
Theorem C02_accepted_lengths_partial bs n r :
  plain decode_remaining_length bs = POk n r <->
  exists h, bs = h ++ r /\ varint h n /\ (length h <= 3)%nat.
Proof. exact (decode_remaining_length_ok bs n r). Qed.

(** ** C03 *)

Theorem C03_length_form n : n < 2 ^ 64 ->
  varint (bytes_of (encode_remaining_length n)) n /\ shortest (bytes_of (encode_remaining_length n)).
Proof. intros H. destruct (erl_spec n H) as (H1 & H2 & _). auto. Qed.

(** It is the only such byte sequence. *)
Theorem C03_unique n h : n < 2 ^ 64 -> varint h n -> shortest h ->
  h = bytes_of (encode_remaining_length n).
Proof. intros H Hv Hs. destruct (C03_length_form n H) as [H1 H2]. now apply (shortest_unique h n). Qed.

Theorem C03_at_most_four n : n <= mqtt_max -> (length (bytes_of (encode_remaining_length n)) <= 4)%nat.
Proof. exact (erl_le4 n). Qed.

Example C03_case : bytes_of (encode_remaining_length 268435455) = [xff; xff; xff; x7f]
  /\ bytes_of (encode_remaining_length 16384) = [x80; x80; x01].
Proof. split; vm_compute; reflexivity. Qed.

(** ** C04, C05 *)

Lemma round_trip dbg p r : packet_ok p -> readable p = true -> writable p = true ->
  lenN (packet_body p) < 2097152 ->
  exists bs, encode p = Some bs /\ decode dbg (bs ++ r) = POk p r.
Proof.
  intros Hok Hr Hw Hl. rewrite (encode_bytes p Hok Hw). eexists. split; [reflexivity|].
  cbn [app]. rewrite <- app_assoc. apply decode_wire; auto; [|now apply erl_le3].
  apply erl_spec. change (2 ^ 64) with 18446744073709551616. lia.
Qed.

Theorem C04_publish_round_trip dbg t pl q ret pid d r :
  text t -> match pid with Some i => q <> AtMostOnce /\ i < 65536 | None => q = AtMostOnce end ->
  2 + lenN t + match pid with Some _ => 2 | None => 0 end + lenN pl < 2097152 ->
  let p := Publish {| pub_packet_id := pid; dup := d;
                      message := {| topic := t; payload := pl; qos := q; retain := ret |} |} in
  exists bs, encode p = Some bs /\ decode dbg (bs ++ r) = POk p r.
Proof.
  intros Ht Hi Hl p. apply round_trip; auto.
  - split; assumption.
  - subst p. cbn [packet_body message topic payload pub_packet_id].
    rewrite !lenN_app, lenN_field. destruct pid as [i|]; [change (lenN (be16 i)) with 2|rewrite lenN_nil]; lia.
Qed.

Theorem C05_ack_round_trip dbg i r : i < 65536 ->
  (exists bs, encode (PubAck i) = Some bs /\ decode dbg (bs ++ r) = POk (PubAck i) r)
  /\ (exists bs, encode (PubRec i) = Some bs /\ decode dbg (bs ++ r) = POk (PubRec i) r)
  /\ (exists bs, encode (PubRel i) = Some bs /\ decode dbg (bs ++ r) = POk (PubRel i) r)
  /\ (exists bs, encode (PubComp i) = Some bs /\ decode dbg (bs ++ r) = POk (PubComp i) r).
Proof.
  intros Hi. repeat split; apply round_trip; try exact Hi; try reflexivity;
    cbn [packet_body]; change (lenN (be16 i)) with 2; lia.
Qed.

Example C04_case :
  let p := Publish {| pub_packet_id := Some 65535; dup := true;
                      message := {| topic := str "a/b"; payload := [x00; xff]; qos := ExactlyOnce; retain := true |} |} in
  text (str "a/b") /\ encode p = Some [x3d; x09; x00; x03; x61; x2f; x62; xff; xff; x00; xff]
  /\ decode false [x3d; x09; x00; x03; x61; x2f; x62; xff; xff; x00; xff; xe0] = POk p [xe0].
Proof.
  split; [split; [apply utf8_ok_iff|]; vm_compute; reflexivity|]. split; vm_compute; reflexivity.
Qed.

(** ** C06, C07 *)

Theorem C06_connect_as_sent dbg c h r : wc_will c = None -> wconnect_ok c ->
  varint h (lenN (connect_body c)) -> (length h <= 3)%nat ->
  decode dbg (x10 :: h ++ connect_body c ++ r) = POk (Connect (connect_of c)) r.
Proof.
  intros Hw Hok Hv Hl.
  replace (x10 :: h ++ connect_body c ++ r) with ((x10 :: h ++ connect_body c) ++ r)
    by (cbn [app]; now rewrite <- app_assoc).
  replace r with ([] ++ r) at 2 by reflexivity. apply decode_ext. apply decode_exact.
  - rewrite lenN_cons, lenN_app. assert (lenN h <= 3) by (unfold lenN; lia).
    pose proof (varint3_bound _ _ Hv Hl).
    change (2 ^ 64) with 18446744073709551616. lia.
  - exists x10, h, (lenN (connect_body c)), (connect_body c). rewrite app_nil_r.
    split; [reflexivity|]. split; [exact Hv|]. split; [exact Hl|]. now apply accepted_connect.
Qed.

(** Every CONNECT within field limits has such a length: at most 65535 bytes per field. *)
Theorem C06_length_fits c : wconnect_ok c ->
  exists h, varint h (lenN (connect_body c)) /\ (length h <= 3)%nat.
Proof.
  intros ([_ Hn] & Hk & [_ Hi] & Hw & Hu & Hp).
  assert (HB : lenN (connect_body c) < 2097152).
  { unfold connect_body. rewrite !lenN_app, !lenN_field, !lenN_cons, lenN_nil.
    change (lenN (be16 (wc_keep c))) with 2. unfold fits16 in *.
    pose proof (lenN_opt_field _ Hu). pose proof (lenN_opt_field _ Hp).
    assert (lenN (will_fields (wc_will c)) < 131076).
    { destruct (wc_will c) as [w|]; cbn [will_fields].
      - destruct Hw as [[_ H1] H2]. unfold fits16 in *. rewrite lenN_app, !lenN_field. lia.
      - rewrite lenN_nil. lia. }
    lia. }
  exists (erl (lenN (connect_body c))). split; [|now apply erl_le3].
  apply erl_spec. change (2 ^ 64) with 18446744073709551616. lia.
Qed.

Definition example_connect (w : option Message) : wconnect :=
  {| wc_name := str "MQTT"; wc_level := x04; wc_clean := true; wc_keep := 60; wc_id := str "id";
     wc_will := w; wc_user := Some (str "bob"); wc_pass := Some (str "pw") |}.

Definition example_will : Message :=
  {| topic := str "root"; payload := str "toor"; qos := AtLeastOnce; retain := false |}.

Lemma text_lit s : utf8_ok s = true -> lenN s < 65536 -> text s.
Proof. intros H1 H2. split; [now apply utf8_ok_iff|exact H2]. Qed.

Lemma example_connect_ok w : match w with Some w => text (topic w) /\ fits16 (payload w) | None => True end ->
  wconnect_ok (example_connect w).
Proof.
  intros Hw. split; [now apply text_lit|]. split; [vm_compute; reflexivity|].
  split; [now apply text_lit|]. split; [exact Hw|]. split; now apply text_lit.
Qed.

Example C06_case dbg : wconnect_ok (example_connect None)
  /\ decode dbg (x10 :: x17 :: connect_body (example_connect None) ++ [xc0; x00])
     = POk (Connect {| version := Mqtt3; client_id := str "id"; keep_alive_seconds := 60; clean_session := true;
                       will_message := None; user_name := Some (str "bob"); password := Some (str "pw") |})
           [xc0; x00].
Proof. split; [now apply example_connect_ok|destruct dbg; vm_compute; reflexivity]. Qed.

(** False of the code: the user name and password obtained are the will's topic and payload, and
    the bytes of the real ones are left to be read as the next packet. *)
Theorem C07_will_taken_for_credentials_refuted dbg c w u p h r :
  wc_will c = Some w -> wc_user c = Some u -> wc_pass c = Some p -> wconnect_ok c ->
  is_utf8 (payload w) -> varint h (lenN (connect_body c)) -> (length h <= 3)%nat ->
  decode dbg (x10 :: h ++ connect_body c ++ r)
  = POk (Connect {| version := Mqtt3; client_id := wc_id c; keep_alive_seconds := wc_keep c;
                    clean_session := wc_clean c; will_message := None;
                    user_name := Some (topic w); password := Some (payload w) |})
        (field u ++ field p ++ r).
Proof.
  intros Hw Hu Hp Hok HU Hv Hl. rewrite (decode_connect_will dbg c w h r Hw Hok (fun _ _ => HU) Hv Hl).
  unfold misread. rewrite Hu, Hp. cbn [fst snd]. now rewrite <- app_assoc.
Qed.

Theorem C07_connect_with_will_refuted dbg : exists c h p,
  wconnect_ok c /\ is_some (wc_will c) = true /\ varint h (lenN (connect_body c)) /\ (length h <= 3)%nat
  /\ wc_user c = Some (str "bob") /\ wc_pass c = Some (str "pw")
  /\ (exists r, decode dbg (x10 :: h ++ connect_body c) = POk (Connect p) r /\ r <> [])
  /\ user_name p = Some (str "root") /\ password p = Some (str "toor").
Proof.
  exists (example_connect (Some example_will)), [x23]. eexists.
  assert (HV : varint [x23] (lenN (connect_body (example_connect (Some example_will)))))
    by (change (lenN _) with (b2n x23); constructor; vm_compute; reflexivity).
  assert (HO : wconnect_ok (example_connect (Some example_will)))
    by (apply example_connect_ok; split; [now apply text_lit|vm_compute; reflexivity]).
  split; [exact HO|]. split; [reflexivity|]. split; [exact HV|]. split; [cbn; lia|].
  split; [reflexivity|]. split; [reflexivity|]. split.
  - eexists. split.
    + rewrite <- (app_nil_r (connect_body _)).
      apply (C07_will_taken_for_credentials_refuted dbg (example_connect (Some example_will)) example_will
               (str "bob") (str "pw") [x23] []); auto; try reflexivity.
      apply utf8_ok_iff. vm_compute. reflexivity.
    + vm_compute. congruence.
  - split; reflexivity.
Qed.

Definition C07_statement (dbg : bool) : Prop := forall c h r, wconnect_ok c -> is_some (wc_will c) = true ->
  varint h (lenN (connect_body c)) -> (length h <= 3)%nat ->
  exists p, decode dbg (x10 :: h ++ connect_body c ++ r) = POk (Connect p) r
    /\ user_name p = wc_user c /\ password p = wc_pass c.

Theorem C07_refuted dbg : ~ C07_statement dbg.
Proof.
  intros H. destruct (C07_connect_with_will_refuted dbg) as (c & h & p & Ho & Hw & Hv & Hl & _ & _ & (r & E & Hr) & _).
  destruct (H c h [] Ho Hw Hv Hl) as (q & E' & _). rewrite app_nil_r, E in E'. congruence.
Qed.

(** What is read in every case, and so: the client id, keep alive and clean-session flag are right, the will
    itself is dropped, and something of the packet is left over.  The one exception is a CONNECT with both
    credentials whose will payload is not text: it is an error. *)
Theorem C07_what_is_read_partial dbg c w h r : wc_will c = Some w -> wconnect_ok c ->
  (wc_user c <> None -> wc_pass c <> None -> is_utf8 (payload w)) ->
  varint h (lenN (connect_body c)) -> (length h <= 3)%nat ->
  decode dbg (x10 :: h ++ connect_body c ++ r)
  = POk (Connect (fst (misread c w))) (snd (misread c w) ++ r)
  /\ client_id (fst (misread c w)) = wc_id c /\ keep_alive_seconds (fst (misread c w)) = wc_keep c
  /\ clean_session (fst (misread c w)) = wc_clean c /\ will_message (fst (misread c w)) = None
  /\ snd (misread c w) <> [].
Proof.
  intros Hw Hok HU Hv Hl. split; [now apply decode_connect_will|].
  unfold misread. destruct (wc_user c), (wc_pass c); repeat split; discriminate.
Qed.

(** The error names the length of the longest part of the payload that is text, plus one. *)
Theorem C07_binary_will_partial dbg c w h r : wc_will c = Some w -> wconnect_ok c ->
  wc_user c <> None -> wc_pass c <> None -> ~ is_utf8 (payload w) ->
  varint h (lenN (connect_body c)) -> (length h <= 3)%nat ->
  exists i, decode dbg (x10 :: h ++ connect_body c ++ r) = PErr (ErrUtf8 (i + 1))
    /\ i < lenN (payload w) /\ is_utf8 (takeN i (payload w))
    /\ forall j, i < j -> j <= lenN (payload w) -> ~ is_utf8 (takeN j (payload w)).
Proof.
  intros Hw Hok Hu Hp HN Hv Hl. destruct (from_utf8 (payload w)) as [i|] eqn:E.
  - exists i. split; [now apply (decode_connect_will_bad dbg c w)|].
    destruct (from_utf8_pos (payload w) i E) as (K1 & K2 & K3). auto.
  - exfalso. apply HN, utf8_ok_iff. unfold utf8_ok. now rewrite E.
Qed.

Example C07_case dbg :
  let c w := example_connect (Some {| topic := str "root"; payload := w; qos := AtLeastOnce; retain := false |}) in
  decode dbg (x10 :: x21 :: connect_body (c [x61; xff])) = PErr (ErrUtf8 2)
  /\ decode dbg (x10 :: x21 :: connect_body (c [x61; x62]))
     = POk (Connect {| version := Mqtt3; client_id := str "id"; keep_alive_seconds := 60; clean_session := true;
                       will_message := None; user_name := Some (str "root"); password := Some (str "ab") |})
           (field (str "bob") ++ field (str "pw")).
Proof. destruct dbg; vm_compute; auto. Qed.

(** ** C08, C09 *)

Theorem C08_subscribe_as_sent dbg i subs h r :
  i < 65536 -> subs <> [] -> Forall (fun s => text (sub_topic s)) subs ->
  varint h (2 + lenN (flat_map sub_entry subs)) -> (length h <= 3)%nat ->
  decode dbg (x82 :: h ++ be16 i ++ flat_map sub_entry subs ++ r) = POk (Subscribe i subs) r.
Proof.
  intros Hi Hn HF Hv Hl.
  pose proof (decode_wire dbg (Subscribe i subs) h r) as H. cbn [packet_body head_byte packet_ok] in H.
  rewrite <- app_assoc in H. apply H; auto.
  rewrite lenN_app. exact Hv.
Qed.

Theorem C09_unsubscribe_as_sent dbg i ts h r :
  i < 65536 -> ts <> [] -> Forall text ts ->
  varint h (2 + lenN (flat_map field ts)) -> (length h <= 3)%nat ->
  decode dbg (xa2 :: h ++ be16 i ++ flat_map field ts ++ r) = POk (Unsubscribe i ts) r.
Proof.
  intros Hi Hn HF Hv Hl.
  pose proof (decode_wire dbg (Unsubscribe i ts) h r) as H. cbn [packet_body head_byte packet_ok] in H.
  rewrite <- app_assoc in H. apply H; auto.
  rewrite lenN_app. exact Hv.
Qed.

Example C08_case dbg :
  let subs := [{| sub_topic := str "a/#"; sub_qos := ExactlyOnce |}; {| sub_topic := str ""; sub_qos := AtMostOnce |}] in
  Forall (fun s => text (sub_topic s)) subs /\ varint [x0b] (2 + lenN (flat_map sub_entry subs))
  /\ decode dbg ([x82; x0b; x00; x07; x00; x03; x61; x2f; x23; x02; x00; x00; x00] ++ [xff]) = POk (Subscribe 7 subs) [xff].
Proof.
  split; [repeat constructor; apply text_lit; vm_compute; reflexivity|].
  split; [change (2 + lenN _) with (b2n x0b); constructor; vm_compute; reflexivity|].
  destruct dbg; vm_compute; reflexivity.
Qed.

Example C09_case dbg : Forall text [str "a/#"; str "b"] /\ varint [x0a] (2 + lenN (flat_map field [str "a/#"; str "b"]))
  /\ decode dbg ([xa2; x0a; x00; x07; x00; x03; x61; x2f; x23; x00; x01; x62] ++ [xff])
     = POk (Unsubscribe 7 [str "a/#"; str "b"]) [xff].
Proof.
  split; [repeat constructor; apply text_lit; vm_compute; reflexivity|].
  split; [change (2 + lenN _) with (b2n x0a); constructor; vm_compute; reflexivity|].
  destruct dbg; vm_compute; reflexivity.
Qed.

(** ** C10 *)

(** The remaining length of a SUBSCRIBE or UNSUBSCRIBE, a u64, wraps around in release builds if its entries are longer
    than declared, so that an input of 2^64 bytes and more can be read as one of them. *)
Definition no_wrap (dbg : bool) (bs : bytes) (p : ControlPacket) : Prop :=
  match p with Subscribe _ _ | Unsubscribe _ _ => dbg = true \/ lenN bs < 2 ^ 64 | _ => True end.

Lemma subscribe_reads fuel dbg b n bs p r : n < 2097152 -> plain (decode_subscribe fuel dbg (b2n b) n) bs = POk p r ->
  exists i l, p = Subscribe i l /\ b2n b = 0x82 /\ packet_ok p /\ bs = packet_body p ++ r
    /\ (n = lenN (packet_body p) \/ dbg = false /\ 2 ^ 64 <= lenN (packet_body p)).
Proof.
  intros Hn. unfold decode_subscribe. rewrite plain_bind.
  destruct (plain (decode_packet_with_packet_id (b2n b) 130) bs) as [i t| | | |] eqn:E1; try discriminate.
  apply with_id_ok in E1. destruct E1 as (Hb & -> & Hi). cbn [pbind]. intros H.
  assert (HS : exists rl', sub64 dbg n 2 = Ret rl' /\ rl' < 2 ^ 64 /\ (n = 2 + rl' \/ dbg = false /\ 2 ^ 64 <= 2 + rl')).
  { destruct (sub64_cases dbg n 2) as [(G1 & ES)|[(G1 & _ & ES)|(G1 & G2 & ES)]].
    - exists (n - 2). split; [exact ES|]. split; lia.
    - rewrite ES in H. discriminate.
    - eexists. split; [exact ES|]. split; [lia|]. right. split; [exact G2|lia]. }
  destruct HS as (rl' & ES & HB & HS). rewrite ES in H. cbn [bind] in H. clear ES.
  destruct (N.eqb_spec rl' 0) as [|Hnz]; [discriminate|].
  apply map_ok in H. destruct H as (subs & -> & H).
  apply sub_loop_inv in H; [|exact HB]. destruct H as (new & -> & -> & Hnew & HR). cbn [app].
  exists i, new. split; [reflexivity|]. split; [exact Hb|]. split.
  - split; [exact Hi|]. split.
    + intros ->. change (sub_size []) with 0 in HR. destruct HR as [HR|(_ & HR)]; lia.
    + eapply Forall_impl; [|exact Hnew]. intros x (H1 & H2). split; [now apply utf8_ok_iff|exact H2].
  - cbn [packet_body]. rewrite <- app_assoc. split; [reflexivity|]. rewrite lenN_app. fold (sub_size new).
    change (lenN (be16 i)) with 2. destruct HR as [HR|(HD & HR)]; [|right; split; [exact HD|lia]].
    destruct HS as [HS|(HD & HS)]; [left; lia|right; split; [exact HD|lia]].
Qed.

Lemma unsubscribe_reads fuel dbg b n bs p r : n < 2097152 -> plain (decode_unsubscribe fuel dbg (b2n b) n) bs = POk p r ->
  exists i l, p = Unsubscribe i l /\ b2n b = 0xA2 /\ packet_ok p /\ bs = packet_body p ++ r
    /\ (n = lenN (packet_body p) \/ dbg = false /\ 2 ^ 64 <= lenN (packet_body p)).
Proof.
  intros Hn. unfold decode_unsubscribe. rewrite plain_bind.
  destruct (plain (decode_packet_with_packet_id (b2n b) 162) bs) as [i t| | | |] eqn:E1; try discriminate.
  apply with_id_ok in E1. destruct E1 as (Hb & -> & Hi). cbn [pbind]. intros H.
  assert (HS : exists rl', sub64 dbg n 2 = Ret rl' /\ rl' < 2 ^ 64 /\ (n = 2 + rl' \/ dbg = false /\ 2 ^ 64 <= 2 + rl')).
  { destruct (sub64_cases dbg n 2) as [(G1 & ES)|[(G1 & _ & ES)|(G1 & G2 & ES)]].
    - exists (n - 2). split; [exact ES|]. split; lia.
    - rewrite ES in H. discriminate.
    - eexists. split; [exact ES|]. split; [lia|]. right. split; [exact G2|lia]. }
  destruct HS as (rl' & ES & HB & HS). rewrite ES in H. cbn [bind] in H. clear ES.
  destruct (N.eqb_spec rl' 0) as [|Hnz]; [discriminate|].
  apply map_ok in H. destruct H as (ts & -> & H).
  apply unsub_loop_inv in H; [|exact HB]. destruct H as (new & -> & -> & Hnew & HR). cbn [app].
  exists i, new. split; [reflexivity|]. split; [exact Hb|]. split.
  - split; [exact Hi|]. split.
    + intros ->. change (unsub_size []) with 0 in HR. destruct HR as [HR|(_ & HR)]; lia.
    + eapply Forall_impl; [|exact Hnew]. intros x (H1 & H2). split; [now apply utf8_ok_iff|exact H2].
  - cbn [packet_body]. rewrite <- app_assoc. split; [reflexivity|]. rewrite lenN_app. fold (unsub_size new).
    change (lenN (be16 i)) with 2. destruct HR as [HR|(HD & HR)]; [|right; split; [exact HD|lia]].
    destruct HS as [HS|(HD & HS)]; [left; lia|right; split; [exact HD|lia]].
Qed.

(** A packet whose declared length wrapped around. *)
Definition wrapped (dbg : bool) (body : bytes) (p : ControlPacket) : Prop :=
  dbg = false /\ 2 ^ 64 <= lenN body /\ packet_ok p /\ match p with Subscribe _ _ | Unsubscribe _ _ => True | _ => False end.

Lemma dispatch_reads fuel dbg b n bs p r : n < 2097152 -> plain (dispatch fuel dbg (b2n b) n) bs = POk p r ->
  exists u, bs = u ++ r /\ (conforms (b2n b) n u p \/ wrapped dbg u p).
Proof.
  intros Hn. unfold dispatch. cbv zeta. rewrite shiftr4.
  unfold PACKET_TYPE_CONNECT, PACKET_TYPE_PUBLISH, PACKET_TYPE_PUB_ACK, PACKET_TYPE_PUB_REC,
    PACKET_TYPE_PUB_REL, PACKET_TYPE_PUB_COMP, PACKET_TYPE_SUBSCRIBE, PACKET_TYPE_UNSUBSCRIBE,
    PACKET_TYPE_PING_REQ, PACKET_TYPE_DISCONNECT.
  destruct (N.eqb_spec (b2n b / 16) 1) as [T|T1].
  { rewrite decode_connect_ok. intros (c & u & -> & -> & H). exists u. split; [reflexivity|]. left. apply accepted_conforms. now constructor. }
  destruct (N.eqb_spec (b2n b / 16) 3) as [T|T3].
  { rewrite decode_publish_ok by exact Hn. intros (c & u & -> & -> & H). exists u. split; [reflexivity|]. left. apply accepted_conforms. now constructor. }
  destruct (N.eqb_spec (b2n b / 16) 4) as [T|T4].
  { unfold decode_pub_ack. rewrite map_ok. intros (i & -> & H). apply with_id_ok in H. destruct H as (H1 & -> & H2).
    exists (be16 i). split; [reflexivity|]. left. apply accepted_conforms. now constructor. }
  destruct (N.eqb_spec (b2n b / 16) 5) as [T|T5].
  { unfold decode_pub_rec. rewrite map_ok. intros (i & -> & H). apply with_id_ok in H. destruct H as (H1 & -> & H2).
    exists (be16 i). split; [reflexivity|]. left. apply accepted_conforms. now constructor. }
  destruct (N.eqb_spec (b2n b / 16) 6) as [T|T6].
  { unfold decode_pub_rel. rewrite map_ok. intros (i & -> & H). apply with_id_ok in H. destruct H as (H1 & -> & H2).
    exists (be16 i). split; [reflexivity|]. left. apply accepted_conforms. now constructor. }
  destruct (N.eqb_spec (b2n b / 16) 7) as [T|T7].
  { unfold decode_pub_comp. rewrite map_ok. intros (i & -> & H). apply with_id_ok in H. destruct H as (H1 & -> & H2).
    exists (be16 i). split; [reflexivity|]. left. apply accepted_conforms. now constructor. }
  destruct (N.eqb_spec (b2n b / 16) 8) as [T|T8].
  { intros H. apply subscribe_reads in H; [|exact Hn]. destruct H as (i & l & -> & Hb & Hok & -> & HL).
    eexists. split; [reflexivity|]. destruct HL as [HL|(HD & HL)]; [left; split; [exact Hok|auto]|right; split; auto]. }
  destruct (N.eqb_spec (b2n b / 16) 10) as [T|T10].
  { intros H. apply unsubscribe_reads in H; [|exact Hn]. destruct H as (i & l & -> & Hb & Hok & -> & HL).
    eexists. split; [reflexivity|]. destruct HL as [HL|(HD & HL)]; [left; split; [exact Hok|auto]|right; split; auto]. }
  destruct (N.eqb_spec (b2n b / 16) 12) as [T|T12].
  { cbn. intros H. injection H as <- <-. exists []. split; [reflexivity|]. left. apply accepted_conforms. now constructor. }
  destruct (N.eqb_spec (b2n b / 16) 14) as [T|T14].
  { cbn. intros H. injection H as <- <-. exists []. split; [reflexivity|]. left. apply accepted_conforms. now constructor. }
  cbn. discriminate.
Qed.

(** Every input that is accepted, without a bound on its length. *)
Lemma decode_reads dbg bs p r : decode dbg bs = POk p r ->
  exists b h n body, bs = b :: h ++ body ++ r /\ varint h n /\ (length h <= 3)%nat
    /\ (conforms (b2n b) n body p \/ wrapped dbg body p).
Proof.
  intros H. unfold decode in H. rewrite read_packet_dispatch, plain_bind, plain_get_u8 in H.
  destruct bs as [|b t]; [discriminate|]. cbn [pbind] in H. rewrite plain_bind in H.
  destruct (plain decode_remaining_length t) as [n t1| | | |] eqn:E; try discriminate.
  apply decode_remaining_length_ok in E. destruct E as (h & -> & Hv & Hh). cbn [pbind] in H.
  destruct (dispatch_reads _ _ _ _ _ _ _ (varint3_bound _ _ Hv Hh) H) as (u & -> & HA).
  exists b, h, n, u. auto.
Qed.

Lemma conforms_short b h n body p : varint h n -> (length h <= 3)%nat -> conforms b n body p -> lenN body < 2 ^ 63.
Proof.
  intros Hv Hh (Hok & HC). pose proof (varint3_bound _ _ Hv Hh) as HB. change (2 ^ 63) with 9223372036854775808.
  destruct p as [c|c|pp|i|i|i|i|i subs|i codes|i ts|i| | |]; try contradiction;
    try (destruct HC as (_ & -> & E); lia); try (destruct HC as (_ & ->); cbn; lia).
  destruct HC as (_ & _ & name & level & flags & (_ & Hname) & _ & _ & _ & ->).
  destruct Hok as (_ & (_ & Hid) & _ & _ & Hu & Hp).
  rewrite !lenN_app, !lenN_field. change (lenN [level; flags]) with 2. change (lenN (be16 (keep_alive_seconds c))) with 2.
  assert (K : forall o, opt_text o -> lenN (opt_field o) < 65538) by apply lenN_opt_field.
  unfold fits16 in Hname, Hid.
  pose proof (K _ Hu). pose proof (K _ Hp). lia.
Qed.

(** Exactly the conforming inputs are accepted ([conforms], [Spec_wire.v]). *)
Theorem C10_accepted_exactly dbg bs p r : no_wrap dbg bs p ->
  decode dbg bs = POk p r <->
  exists b h n body, bs = b :: h ++ body ++ r /\ varint h n /\ (length h <= 3)%nat
                     /\ conforms (b2n b) n body p.
Proof.
  intros Hl. split.
  - intros H. destruct (decode_reads dbg bs p r H) as (b & h & n & body & -> & Hv & Hh & [HC|(HD & HL & _ & HK)]).
    + exists b, h, n, body. auto.
    + exfalso. assert (K : dbg = true \/ lenN (b :: h ++ body ++ r) < 2 ^ 64) by (destruct p; try destruct HK; exact Hl).
      rewrite lenN_cons, !lenN_app in K. destruct K as [K|K]; [congruence|lia].
  - intros (b & h & n & body & -> & Hv & Hh & HC). apply conforms_decode with (n := n); auto.
    exact (conforms_short _ _ _ _ _ Hv Hh HC).
Qed.

(** On every input. *)
Theorem C10_fields_within_limits dbg bs p r : decode dbg bs = POk p r -> packet_ok p.
Proof.
  intros H. destruct (decode_reads dbg bs p r H) as (b & h & n & body & _ & _ & _ & [(HC & _)|(_ & _ & HC & _)]); exact HC.
Qed.

(** The malformed inputs named in the property. *)
Inductive malformed : bytes -> Prop :=
| mal_flags b e r : In (b2n b / 16, e) [(4, 0x40); (5, 0x50); (6, 0x62); (7, 0x70); (8, 0x82); (10, 0xA2)] ->
    b2n b <> e -> malformed (b :: r)
| mal_qos3 b r : b2n b / 16 = 3 -> b2n b / 2 mod 4 = 3 -> malformed (b :: r)
| mal_empty b h n r : In (b2n b) [0x82; 0xA2] -> varint h n -> n <= 2 -> malformed (b :: h ++ r)
| mal_sub_qos h n i subs t q r : varint h n -> Forall (fun s => text (sub_topic s)) subs -> fits16 t ->
    2 < b2n q -> i < 65536 -> 2 + lenN (flat_map sub_entry subs) < n ->
    malformed (x82 :: h ++ be16 i ++ flat_map sub_entry subs ++ field t ++ q :: r)
| mal_sub_text h n i subs t r : varint h n -> Forall (fun s => text (sub_topic s)) subs -> fits16 t ->
    ~ is_utf8 t -> i < 65536 -> 2 + lenN (flat_map sub_entry subs) < n ->
    malformed (x82 :: h ++ be16 i ++ flat_map sub_entry subs ++ field t ++ r)
| mal_unsub_text h n i ts t r : varint h n -> Forall text ts -> fits16 t ->
    ~ is_utf8 t -> i < 65536 -> 2 + lenN (flat_map field ts) < n ->
    malformed (xa2 :: h ++ be16 i ++ flat_map field ts ++ field t ++ r)
| mal_publish_text b h n t r : b2n b / 16 = 3 -> varint h n -> fits16 t -> ~ is_utf8 t ->
    malformed (b :: h ++ field t ++ r)
| mal_connect_name b h n t r : b2n b / 16 = 1 -> varint h n -> fits16 t -> ~ is_utf8 t ->
    malformed (b :: h ++ field t ++ r)
| mal_connect_id b h n name level flags k t r : b2n b / 16 = 1 -> varint h n -> fits16 name ->
    fits16 t -> ~ is_utf8 t -> k < 65536 ->
    malformed (b :: h ++ field name ++ [level; flags] ++ be16 k ++ field t ++ r)
| mal_connect_credential b h n name level flags k cid o t r : b2n b / 16 = 1 -> varint h n -> fits16 name ->
    fits16 cid -> k < 65536 ->
    match o with
    | None => N.odd (b2n flags / 128) = true \/ N.odd (b2n flags / 64) = true     (* t comes first *)
    | Some u => N.odd (b2n flags / 128) = true /\ N.odd (b2n flags / 64) = true /\ fits16 u
    end ->
    fits16 t -> ~ is_utf8 t ->
    malformed (b :: h ++ field name ++ [level; flags] ++ be16 k ++ field cid ++ opt_field o ++ field t ++ r).

Lemma field_inj s s' r r' : fits16 s -> fits16 s' -> field s ++ r = field s' ++ r' -> s = s' /\ r = r'.
Proof.
  intros H H' E. rewrite !field_app in E. destruct (be16_app_inj _ _ _ _ H H' E) as [EL E2].
  split.
  - rewrite <- (takeN_lenN_app s r), <- (takeN_lenN_app s' r'). now rewrite E2, EL.
  - rewrite <- (dropN_lenN_app s r), <- (dropN_lenN_app s' r'). now rewrite E2, EL.
Qed.

(** A list of entries longer than a prefix of the bytes begins with that prefix's entries. *)
Lemma sub_entries_prefix subs : forall subs' x r', Forall (fun s => text (sub_topic s)) subs ->
  Forall (fun s => text (sub_topic s)) subs' ->
  flat_map sub_entry subs ++ x = flat_map sub_entry subs' ++ r' ->
  lenN (flat_map sub_entry subs) < lenN (flat_map sub_entry subs') ->
  exists s rest, text (sub_topic s) /\ x = sub_entry s ++ rest.
Proof.
  induction subs as [|s0 subs IH]; intros subs' x r' HF HF' E HL.
  - destruct subs' as [|s rest]; [cbn in HL; lia|]. cbn [flat_map app] in E. inversion HF'; subst.
    exists s, (flat_map sub_entry rest ++ r'). split; [assumption|]. now rewrite <- app_assoc.
  - destruct subs' as [|s' subs']; [cbn [flat_map] in HL; rewrite lenN_nil in HL; lia|].
    cbn [flat_map] in *. inversion HF as [|? ? T1 F1]; subst. inversion HF' as [|? ? T2 F2]; subst.
    unfold sub_entry at 1 3 in E. rewrite <- !app_assoc in E.
    destruct (field_inj _ _ _ _ (proj2 T1) (proj2 T2) E) as [ET E2]. cbn [app] in E2. apply cons_inj in E2.
    destruct E2 as [EQ E2]. apply (IH subs' x r' F1 F2 E2).
    rewrite !lenN_app in HL. unfold sub_entry at 1 3 in HL. rewrite !lenN_app, !lenN_field, !lenN_cons, ET in HL. lia.
Qed.

Lemma fields_prefix ts : forall ts' x r', Forall text ts -> Forall text ts' ->
  flat_map field ts ++ x = flat_map field ts' ++ r' ->
  lenN (flat_map field ts) < lenN (flat_map field ts') ->
  exists s rest, text s /\ x = field s ++ rest.
Proof.
  induction ts as [|s0 ts IH]; intros ts' x r' HF HF' E HL.
  - destruct ts' as [|s rest]; [cbn in HL; lia|]. cbn [flat_map app] in E. inversion HF'; subst.
    exists s, (flat_map field rest ++ r'). split; [assumption|]. now rewrite <- app_assoc.
  - destruct ts' as [|s' ts']; [cbn [flat_map] in HL; rewrite lenN_nil in HL; lia|].
    cbn [flat_map] in *. inversion HF as [|? ? T1 F1]; subst. inversion HF' as [|? ? T2 F2]; subst.
    rewrite <- !app_assoc in E.
    destruct (field_inj _ _ _ _ (proj2 T1) (proj2 T2) E) as [ET E2]. subst s'. apply (IH ts' x r' F1 F2 E2).
    rewrite !lenN_app in HL. lia.
Qed.

Lemma qos_num_le q : qos_num q <= 2.
Proof. destruct q; cbn; lia. Qed.

Definition ptype (p : ControlPacket) : N := head_byte p / 16.

Lemma ptype_publish pp : ptype (Publish pp) = 3.
Proof.
  unfold ptype. cbn [head_byte]. destruct (dup pp), (qos (message pp)), (retain (message pp)); reflexivity.
Qed.

Lemma conforms_type b n body p : conforms b n body p -> b / 16 = ptype p.
Proof.
  intros [_ H]. destruct p as [c|c|pp|i|i|i|i|i subs|i codes|i ts|i| | |]; try contradiction;
    destruct H as [-> _]; reflexivity.
Qed.

Theorem C10_malformed_never_accepted dbg bs p r : no_wrap dbg bs p -> malformed bs -> decode dbg bs <> POk p r.
Proof.
  intros Hl HM HD. apply C10_accepted_exactly in HD; [|exact Hl].
  destruct HD as (b & h & n & body & -> & Hv & _ & HCC).
  pose proof (conforms_type _ _ _ _ HCC) as HT. destruct HCC as [Hok HC].
  remember (b :: h ++ body ++ r) as bs eqn:E; destruct HM as [b0 e r0 HI Hne|b0 r0 H1 H2|b0 h0 n0 r0 HI HV Hn
    |h0 n0 i subs t q r0 HV HF Ht Hq Hi Hn
    |h0 n0 i subs t r0 HV HF Ht Hu Hi Hn
    |h0 n0 i ts t r0 HV HF Ht Hu Hi Hn
    |b0 h0 n0 t r0 H1 HV Ht Hu|b0 h0 n0 t r0 H1 HV Ht Hu
    |b0 h0 n0 name level flags k t r0 H1 HV Hname Ht Hu Hk
    |b0 h0 n0 name level flags k cid o t r0 H1 HV Hname Hcid Hk Hc Ht Hu].
  - apply cons_inj in E. destruct E as [-> _]. rewrite HT in HI. cbn [In] in HI.
    destruct p as [c|c|pp|i|i|i|i|i subs|i codes|i ts|i| | |]; try contradiction;
      try (rewrite ptype_publish in HI);
      repeat (destruct HI as [HI|HI]; [apply pair_equal_spec in HI; destruct HI as [HI <-]; try discriminate HI|]);
      try contradiction; destruct HC as [HC _]; now apply Hne.
  - apply cons_inj in E. destruct E as [-> _]. rewrite HT in H1.
    destruct p as [c|c|pp|i|i|i|i|i subs|i codes|i ts|i| | |]; try contradiction; try discriminate H1.
    destruct HC as [HC _]. rewrite HC in H2. cbn [head_byte] in H2.
    destruct (dup pp), (qos (message pp)), (retain (message pp)); discriminate H2.
  - apply cons_inj in E. destruct E as [-> E]. destruct (varint_prefix _ _ HV _ _ _ _ Hv E) as (-> & E' & <-).
    clear E. assert (HI' : ptype p = 8 \/ ptype p = 10)
      by (rewrite <- HT; destruct HI as [<-|[<-|[]]]; [left|right]; reflexivity).
    destruct p as [c|c|pp|i|i|i|i|i subs|i codes|i ts|i| | |]; try contradiction;
      try (rewrite ptype_publish in HI'); destruct HI' as [HI'|HI']; try discriminate HI'; destruct HC as [HC HC2].
    + destruct HC2 as [_ HL]. cbn [packet_body] in HL. rewrite lenN_app in HL. change (lenN (be16 i)) with 2 in HL.
      destruct Hok as (_ & Hne & _). destruct subs as [|s subs]; [congruence|].
      cbn [flat_map] in HL. rewrite lenN_app, lenN_sub_entry in HL. lia.
    + destruct HC2 as [_ HL]. cbn [packet_body] in HL. rewrite lenN_app in HL. change (lenN (be16 i)) with 2 in HL.
      destruct Hok as (_ & Hne & _). destruct ts as [|s ts]; [congruence|].
      cbn [flat_map] in HL. rewrite lenN_app, lenN_field in HL. lia.
  - apply cons_inj in E. destruct E as [<- E]. destruct (varint_prefix _ _ HV _ _ _ _ Hv E) as (-> & E' & <-).
    clear E. rename E' into E. change (b2n x82 / 16) with 8 in HT.
    destruct p as [c|c|pp|i'|i'|i'|i'|i' subs'|i' codes|i' ts'|i'| | |]; try contradiction;
      try (rewrite ptype_publish in HT); try discriminate HT; destruct HC as [HC HC2].
    destruct HC2 as [-> HL]. cbn [packet_body] in *. destruct Hok as (Hi' & _ & HF').
    rewrite <- app_assoc in E. destruct (be16_app_inj _ _ _ _ Hi Hi' E) as [_ E2].
    rewrite lenN_app in HL. change (lenN (be16 i')) with 2 in HL.
    destruct (sub_entries_prefix _ _ _ _ HF HF' E2 ltac:(lia)) as (s & rest & Hs & ES).
    unfold sub_entry in ES. rewrite <- app_assoc in ES. destruct (field_inj _ _ _ _ Ht (proj2 Hs) ES) as [_ EQ].
    cbn [app] in EQ. apply cons_inj in EQ. destruct EQ as [EQ _]. subst q.
    pose proof (qos_num_le (sub_qos s)). rewrite b2n_n2b in Hq by lia. lia.
  - apply cons_inj in E. destruct E as [<- E]. destruct (varint_prefix _ _ HV _ _ _ _ Hv E) as (-> & E' & <-).
    clear E. rename E' into E. change (b2n x82 / 16) with 8 in HT.
    destruct p as [c|c|pp|i'|i'|i'|i'|i' subs'|i' codes|i' ts'|i'| | |]; try contradiction;
      try (rewrite ptype_publish in HT); try discriminate HT; destruct HC as [HC HC2].
    destruct HC2 as [-> HL]. cbn [packet_body] in *. destruct Hok as (Hi' & _ & HF').
    rewrite <- app_assoc in E. destruct (be16_app_inj _ _ _ _ Hi Hi' E) as [_ E2].
    rewrite lenN_app in HL. change (lenN (be16 i')) with 2 in HL.
    destruct (sub_entries_prefix _ _ _ _ HF HF' E2 ltac:(lia)) as (s & rest & Hs & ES).
    unfold sub_entry in ES. rewrite <- app_assoc in ES. destruct (field_inj _ _ _ _ Ht (proj2 Hs) ES) as [-> _].
    apply Hu. apply Hs.
  - apply cons_inj in E. destruct E as [<- E]. destruct (varint_prefix _ _ HV _ _ _ _ Hv E) as (-> & E' & <-).
    clear E. rename E' into E. change (b2n xa2 / 16) with 10 in HT.
    destruct p as [c|c|pp|i'|i'|i'|i'|i' subs'|i' codes|i' ts'|i'| | |]; try contradiction;
      try (rewrite ptype_publish in HT); try discriminate HT; destruct HC as [HC HC2].
    destruct HC2 as [-> HL]. cbn [packet_body] in *. destruct Hok as (Hi' & _ & HF').
    rewrite <- app_assoc in E. destruct (be16_app_inj _ _ _ _ Hi Hi' E) as [_ E2].
    rewrite lenN_app in HL. change (lenN (be16 i')) with 2 in HL.
    destruct (fields_prefix _ _ _ _ HF HF' E2 ltac:(lia)) as (s & rest & Hs & ES).
    destruct (field_inj _ _ _ _ Ht (proj2 Hs) ES) as [-> _]. apply Hu. apply Hs.
  - apply cons_inj in E. destruct E as [-> E]. destruct (varint_prefix _ _ HV _ _ _ _ Hv E) as (-> & E' & <-).
    clear E. rename E' into E.
    rewrite HT in H1. clear HT.
    destruct p as [c|c|pp|i'|i'|i'|i'|i' subs'|i' codes|i' ts'|i'| | |]; try contradiction;
      try discriminate H1; destruct HC as [HC HC2].
    destruct HC2 as [-> HL]. destruct Hok as [HT _]. cbn [packet_body] in *. rewrite <- !app_assoc in E.
    destruct (field_inj _ _ _ _ Ht (proj2 HT) E) as [-> _]. apply Hu, HT.
  - apply cons_inj in E. destruct E as [-> E]. destruct (varint_prefix _ _ HV _ _ _ _ Hv E) as (-> & E' & <-).
    clear E. rename E' into E.
    rewrite HT in H1. clear HT.
    destruct p as [c|c|pp|i'|i'|i'|i'|i' subs'|i' codes|i' ts'|i'| | |]; try contradiction;
      try (rewrite ptype_publish in H1); try discriminate H1; destruct HC as [HC HC2].
    destruct HC2 as (_ & name' & level' & flags' & HT & _ & _ & _ & ->). rewrite <- !app_assoc in E.
    destruct (field_inj _ _ _ _ Ht (proj2 HT) E) as [-> _]. apply Hu, HT.
  - apply cons_inj in E. destruct E as [-> E]. destruct (varint_prefix _ _ HV _ _ _ _ Hv E) as (-> & E' & <-).
    clear E. rename E' into E.
    rewrite HT in H1. clear HT.
    destruct p as [c|c|pp|i'|i'|i'|i'|i' subs'|i' codes|i' ts'|i'| | |]; try contradiction;
      try (rewrite ptype_publish in H1); try discriminate H1; destruct HC as [HC HC2].
    destruct HC2 as (_ & name' & level' & flags' & HT & _ & _ & _ & ->). rewrite <- !app_assoc in E.
    destruct (field_inj _ _ _ _ Hname (proj2 HT) E) as [-> E2]. cbn [app] in E2.
    apply cons_inj in E2. destruct E2 as [-> E2]. apply cons_inj in E2. destruct E2 as [-> E2].
    destruct Hok as (Hk' & Hid & _). destruct (be16_app_inj _ _ _ _ Hk Hk' E2) as [_ E3].
    destruct (field_inj _ _ _ _ Ht (proj2 Hid) E3) as [-> _]. apply Hu, Hid.
  - apply cons_inj in E. destruct E as [-> E]. destruct (varint_prefix _ _ HV _ _ _ _ Hv E) as (-> & E' & <-).
    clear E. rename E' into E.
    rewrite HT in H1. clear HT.
    destruct p as [c|c|pp|i'|i'|i'|i'|i' subs'|i' codes|i' ts'|i'| | |]; try contradiction;
      try (rewrite ptype_publish in H1); try discriminate H1; destruct HC as [HC HC2].
    destruct HC2 as (_ & name' & level' & flags' & HT & _ & HFu & HFp & ->). rewrite <- !app_assoc in E.
    destruct (field_inj _ _ _ _ Hname (proj2 HT) E) as [-> E2]. cbn [app] in E2.
    apply cons_inj in E2. destruct E2 as [-> E2]. apply cons_inj in E2. destruct E2 as [-> E2].
    destruct Hok as (Hk' & Hid & _ & _ & HOu & HOp). destruct (be16_app_inj _ _ _ _ Hk Hk' E2) as [_ E3].
    destruct (field_inj _ _ _ _ Hcid (proj2 Hid) E3) as [_ E4].
    destruct (user_name c) as [u'|], (password c) as [p'|]; cbn [is_some opt_text opt_field app] in *;
      destruct o as [u|]; cbn [opt_field app] in E4;
      try (destruct Hc as (Hc1 & Hc2 & Hc3)); try congruence; try (destruct Hc; congruence).
    + rewrite <- ?app_assoc in E4. destruct (field_inj _ _ _ _ Hc3 (proj2 HOu) E4) as [_ E5].
      destruct (field_inj _ _ _ _ Ht (proj2 HOp) E5) as [-> _]. apply Hu, HOp.
    + rewrite <- ?app_assoc in E4. destruct (field_inj _ _ _ _ Ht (proj2 HOu) E4) as [-> _]. apply Hu, HOu.
    + rewrite <- ?app_assoc in E4. destruct (field_inj _ _ _ _ Ht (proj2 HOu) E4) as [-> _]. apply Hu, HOu.
    + rewrite <- ?app_assoc in E4. destruct (field_inj _ _ _ _ Ht (proj2 HOp) E4) as [-> _]. apply Hu, HOp.
Qed.

(** Lone surrogate U+D800 in the second filter. *)
Example C10_case : malformed ([x82; x0b; x00; x01; x00; x01; x61; x00; x00; x03; xed; xa0; x80; x00])
  /\ decode false [x82; x0b; x00; x01; x00; x01; x61; x00; x00; x03; xed; xa0; x80; x00] = PErr (ErrUtf8 1).
Proof.
  split; [|vm_compute; reflexivity].
  apply (mal_sub_text [x0b] 11 1 [{| sub_topic := str "a"; sub_qos := AtMostOnce |}] [xed; xa0; x80] [x00]).
  - change 11 with (b2n x0b). constructor. vm_compute. reflexivity.
  - constructor; [now apply text_lit|constructor].
  - vm_compute. reflexivity.
  - intros H. apply utf8_ok_iff in H. vm_compute in H. discriminate.
  - vm_compute. reflexivity.
  - vm_compute. reflexivity.
Qed.

(** ** C11 *)

Theorem C11_strings_are_utf8 s r : fits16 s ->
  (plain get_string (field s ++ r) = POk s r <-> is_utf8 s)
  /\ (~ is_utf8 s -> exists e, plain get_string (field s ++ r) = PErr e /\ is_invalid_data e = true).
Proof.
  intros Hf. split.
  - rewrite get_string_ok, <- utf8_ok_iff. split; [tauto|]. intros H. auto.
  - intros Hn. destruct (get_string_cases (field s ++ r))
      as [(s' & r' & _ & E & F & U)|[(s' & r' & i & H & _)|(l & H)]].
    + destruct (field_inj _ _ _ _ Hf F E) as [-> _]. now apply utf8_ok_iff in U.
    + eexists. split; [exact H|reflexivity].
    + exfalso. unfold get_string in H. rewrite plain_bind in H.
      rewrite (proj2 (get_u16_ok (field s ++ r) (lenN s) (s ++ r))) in H by (split; [apply field_app|exact Hf]).
      cbn [pbind] in H. rewrite plain_bind, plain_get_bytes in H.
      rewrite isize_max_big in H by (unfold fits16 in Hf; lia).
      rewrite lenN_app in H. destruct (N.ltb_spec (lenN s + lenN r) (lenN s)); [lia|].
      cbn [pbind] in H. rewrite takeN_lenN_app in H. destruct (from_utf8 s); discriminate.
Qed.

(** The position reported is that of the first byte that does not continue valid text. *)
Theorem C11_error_position s r i : fits16 s -> plain get_string (field s ++ r) = PErr (ErrUtf8 (i + 1)) ->
  i < lenN s /\ is_utf8 (takeN i s) /\ forall j, i < j -> j <= lenN s -> ~ is_utf8 (takeN j s).
Proof.
  intros Hf H. destruct (get_string_cases (field s ++ r))
      as [(s' & r' & H' & _)|[(s' & r' & i' & H' & E & F & U)|(l & H')]]; try congruence.
  rewrite H in H'. injection H' as Hi. assert (i = i') as <- by lia.
  destruct (field_inj _ _ _ _ Hf F E) as [-> _]. now apply from_utf8_pos.
Qed.

Example C11_case : plain get_string [x00; x03; xe2; x82; xac; x07] = POk [xe2; x82; xac] [x07]
  /\ plain get_string [x00; x03; x61; xc0; x80; x07] = PErr (ErrUtf8 2).
Proof. split; vm_compute; reflexivity. Qed.

(** ** C12 *)

(** PUBLISH, SUBSCRIBE and UNSUBSCRIBE consume exactly the declared length. *)
Theorem C12_declared_length_consumed_partial dbg bs p r : no_wrap dbg bs p -> decode dbg bs = POk p r ->
  match p with Publish _ | Subscribe _ _ | Unsubscribe _ _ => True | _ => False end ->
  exists b h body, bs = b :: h ++ body ++ r /\ varint h (lenN body).
Proof.
  intros Hl H HK. apply C10_accepted_exactly in H; [|exact Hl].
  destruct H as (b & h & n & body & -> & Hv & _ & _ & HC). exists b, h, body. split; [reflexivity|].
  destruct p; try contradiction; destruct HC as (_ & -> & <-); exact Hv.
Qed.

(** Any sequence of conforming packets is read as that sequence. *)
Fixpoint decode_seq (n : nat) (dbg : bool) (bs : bytes) : list ControlPacket * bytes :=
  match n with
  | O => ([], bs)
  | S n => match decode dbg bs with POk p r => let '(ps, r') := decode_seq n dbg r in (p :: ps, r') | _ => ([], bs) end
  end.

Theorem C12_conforming_sequence_partial dbg ps : forall bss r, Forall2 sent_as ps bss ->
  decode_seq (length ps) dbg (concat bss ++ r) = (ps, r).
Proof.
  induction ps as [|p ps IH]; intros bss r HF; inversion HF as [|? bs ? bss' HS HF']; subst; [reflexivity|].
  cbn [length decode_seq concat]. rewrite <- app_assoc, (decode_sent dbg p bs _ HS), (IH bss' r HF'). reflexivity.
Qed.

(** False for the other kinds: a PUBACK declaring any length consumes two bytes of it. *)
Theorem C12_boundaries_refuted dbg : exists bs p r b h n body,
  decode dbg bs = POk p r /\ bs = b :: h ++ body ++ r /\ varint h n /\ lenN body <> n.
Proof.
  exists [x40; x05; x00; x01; xc0; x00; xe0], (PubAck 1), [xc0; x00; xe0], x40, [x05], 5, [x00; x01].
  split; [destruct dbg; vm_compute; reflexivity|]. split; [reflexivity|].
  split; [change 5 with (b2n x05); constructor; vm_compute; reflexivity|]. vm_compute. congruence.
Qed.

Definition C12_statement (dbg : bool) : Prop := forall bs p r, decode dbg bs = POk p r ->
  exists b h n body, bs = b :: h ++ body ++ r /\ varint h n /\ lenN body = n.

Theorem C12_refuted dbg : ~ C12_statement dbg.
Proof.
  intros H. destruct (C12_boundaries_refuted dbg) as (bs & p & r & b & h & n & body & E & -> & Hv & Hn).
  destruct (H _ _ _ E) as (b' & h' & n' & body' & E' & Hv' & Hn'). injection E' as _ E'.
  destruct (varint_prefix _ _ Hv _ _ _ _ Hv' E') as (-> & E2 & <-). apply app_inv_tail in E2. subst body'.
  congruence.
Qed.

(** In general: acknowledgements take two bytes, PINGREQ and DISCONNECT none, whatever is declared. *)
Theorem C12_unchecked_lengths_refuted dbg h n i r : varint h n -> (length h <= 3)%nat -> i < 65536 ->
  decode dbg (x40 :: h ++ be16 i ++ r) = POk (PubAck i) r
  /\ decode dbg (x50 :: h ++ be16 i ++ r) = POk (PubRec i) r
  /\ decode dbg (x62 :: h ++ be16 i ++ r) = POk (PubRel i) r
  /\ decode dbg (x70 :: h ++ be16 i ++ r) = POk (PubComp i) r
  /\ decode dbg (xc0 :: h ++ r) = POk PingReq r
  /\ decode dbg (xe0 :: h ++ r) = POk Disconnect r.
Proof.
  intros Hv Hh Hi.
  assert (H2 : lenN (be16 i) < 2 ^ 63) by (change (lenN (be16 i)) with 2; lia).
  assert (H0 : @lenN byte [] < 2 ^ 63) by (rewrite lenN_nil; lia).
  assert (HP : decode dbg (xc0 :: h ++ [] ++ r) = POk PingReq r)
    by (apply conforms_decode with (n := n); auto; split; [exact I|split; reflexivity]).
  assert (HQ : decode dbg (xe0 :: h ++ [] ++ r) = POk Disconnect r)
    by (apply conforms_decode with (n := n); auto; split; [exact I|split; reflexivity]).
  split; [|split; [|split; [|split; [|split; assumption]]]];
    apply conforms_decode with (n := n); auto; (split; [exact Hi|]); split; reflexivity.
Qed.

(** ** C13 *)

Lemma decode_prefix dbg used r p pre t : decode dbg (used ++ r) = POk p r -> used = pre ++ t -> t <> [] ->
  exists l, decode dbg pre = PMore l.
Proof.
  intros H -> Ht. unfold decode in H.
  destruct (plain_prefix _ _ _ _ pre t H eq_refl Ht) as [l HL]. exists l.
  rewrite <- HL. symmetry. apply read_packet_any_fuel. rewrite !app_length. lia.
Qed.

Theorem C13_no_packet_before_all_bytes dbg used r p pre t st :
  decode dbg (used ++ r) = POk p r -> used = pre ++ t -> t <> [] ->
  wf st -> pending st = pre ->
  match stream_read_packet dbg st with
  | RWait => ending (rsk st) = PeerOpen
  | RErr e => ending (rsk st) <> PeerOpen /\ is_invalid_data e = false
  | RHung => cap (rbuf st) <= lenN pre
  | ROk _ _ | RPanic | RNoFuel => False
  end.
Proof.
  intros HD Hu Ht W Hp. destruct (decode_prefix _ _ _ _ _ _ HD Hu Ht) as [l HL].
  unfold stream_read_packet. set (m := read_packet (S (length (pending st))) dbg).
  assert (HX : forall o, o = run m st -> o <> RHung ->
    match o with RWait => ending (rsk st) = PeerOpen
    | RErr e => ending (rsk st) <> PeerOpen /\ is_invalid_data e = false
    | RHung => cap (rbuf st) <= lenN pre | _ => False end).
  { intros o -> HN. pose proof (run_plain m st W HN) as HP.
    assert (HE : plain m (pending st) = PMore l) by (unfold m; fold (decode dbg (pending st)); now rewrite Hp).
    rewrite HE in HP. destruct (run m st) as [a s|e| | | |]; cbn [obs] in HP; unfold end_out in HP;
      destruct (ending (rsk st)); try discriminate; auto.
    - injection HP as ->. split; [discriminate|]. destruct l; reflexivity.
    - injection HP as ->. split; [discriminate|reflexivity]. }
  destruct (run m st) as [a s|e| | | |] eqn:ER; try (apply (HX _ eq_refl); discriminate).
  apply (run_hung m st W) in ER. destruct ER as (q & n & post & _ & _ & _ & HL2).
  rewrite Hp in HL2.
  assert (HR : forall rs c g ks, c <= total rs + room c g ks rs).
  { clear. induction rs as [|x rs IH]; intros c g ks; [cbn; lia|].
    rewrite total_cons. destruct x as [k|k]; cbn [room req_size].
    - pose proof (taken_le ks k). destruct (N.leb_spec k c).
      + specialize (IH (c - taken ks k) g (tl ks)). lia.
      + specialize (IH (c + 64 + hd 0 g - taken ks k) (tl g) (tl ks)). lia.
    - specialize (IH (c - k) g ks). lia. }
  specialize (HR q (cap (rbuf st)) (grants (rsk st)) (given_back m st)). lia.
Qed.

Example C13_case : decode true ([x40; x02; x00; x01] ++ []) = POk (PubAck 1) []
  /\ stream_read_packet true (connection_stream
       {| arriving := [x40; x02; x00]; ending := PeerOpen; chunks := [1; 1]; grants := []; reuse := true |}) = RWait.
Proof. split; vm_compute; reflexivity. Qed.

(** ** C16 *)

(** False of the code. *)
Theorem C16_no_panic_refuted dbg : exists bs, decode dbg bs = PPanic /\ lenN bs = 2.
Proof. exists [xf0; x00]. split; [destruct dbg|]; vm_compute; reflexivity. Qed.

Definition C16_statement (dbg : bool) : Prop := forall bs, decode dbg bs <> PPanic.

Theorem C16_refuted dbg : ~ C16_statement dbg.
Proof. intros H. destruct (C16_no_panic_refuted dbg) as (bs & E & _). now apply (H bs). Qed.

(** A CONNECTed client can do the same to its own connection with a QoS 3 PUBLISH. *)
Theorem C16_qos3_refuted dbg : decode dbg [x36; x00] = PPanic.
Proof. destruct dbg; vm_compute; reflexivity. Qed.

(** Exactly the following inputs make it panic: packet types it does not implement, QoS 3, a PUBLISH
    whose declared length is shorter than its topic and packet id, and with debug assertions a
    SUBSCRIBE or UNSUBSCRIBE whose declared length ends inside an entry ([panics], [Panic_facts.v]). *)
Theorem C16_panics_exactly_partial dbg bs :
  decode dbg bs = PPanic <->
  exists b h n r, bs = b :: h ++ r /\ varint h n /\ (length h <= 3)%nat /\ panics dbg (b2n b) n r.
Proof. exact (decode_panics dbg bs). Qed.

(** On a connection, a panic happens only for such input. *)
Theorem C16_stream_panics_partial dbg st : wf st -> stream_read_packet dbg st = RPanic ->
  exists b h n r, pending st = b :: h ++ r /\ varint h n /\ (length h <= 3)%nat /\ panics dbg (b2n b) n r.
Proof.
  intros W H. apply decode_panics. unfold stream_read_packet in H. unfold decode.
  assert (HN : run (read_packet (S (length (pending st))) dbg) st <> RHung) by congruence.
  pose proof (run_plain _ st W HN) as HP.
  destruct (plain (read_packet (S (length (pending st))) dbg) (pending st)) as [a r|e| |l|]; try congruence.
  - destruct HP as (st' & HP & _). congruence.
  - rewrite H in HP. cbn in HP. destruct (ending (rsk st)); discriminate.
Qed.

(** Conforming clients cannot make it panic: neither on whole packets nor on any prefix. *)
Theorem C16_conforming_never_panics_partial dbg p bs pre t r : sent_as p bs -> bs ++ r = pre ++ t ->
  decode dbg pre <> PPanic.
Proof.
  intros HS E H. pose proof (decode_sent dbg p bs r HS) as HD. rewrite E in HD.
  pose proof (plain_ext (read_packet (S (length pre)) dbg) pre t) as HX. fold (decode dbg pre) in HX.
  rewrite H in HX. unfold decode in HD.
  rewrite (le_plain _ _ (read_packet_mono dbg (S (length pre)) (S (length (pre ++ t))) ltac:(rewrite app_length; lia)) _) in HD.
  - rewrite HX in HD. discriminate.
  - rewrite HX. discriminate.
Qed.

Example C16_case : sent_as (PubAck 1) [x40; x02; x00; x01].
Proof.
  split; [vm_compute; reflexivity|]. split; [reflexivity|]. exists [x02]. split; [|split; [cbn; lia|reflexivity]].
  change (lenN _) with (b2n x02). constructor. vm_compute. reflexivity.
Qed.

