(** The encoder writes MQTT packets; an independent parser and the decoder read them back. *)
From Verif Require Import Base Base_facts Utf8 Spec_utf8 Utf8_facts Packets Spec_wire Decoder
  ReadStream Plain ReadStream_facts Plain_facts Decoder_facts Encoder.
Open Scope N_scope.
Ltac Zify.zify_post_hook ::= Z.div_mod_to_equations.

(** ** Remaining length *)

Definition erl (n : N) : bytes := flat_map put_bytes_of (encode_remaining_length n).

Lemma lor128 k : k < 128 -> N.lor k 128 = k + 128.
Proof.
  intros H.
  assert (HL : N.land k 128 = 0).
  { apply N.bits_inj. intros i. rewrite N.land_spec, N.bits_0.
    destruct (N.eq_dec i 7) as [->|Hi].
    - rewrite (N.testbit_eqb k 7). change (2 ^ 7) with 128. rewrite N.div_small by exact H. reflexivity.
    - change 128 with (2 ^ 7). rewrite N.pow2_bits_false by (apply not_eq_sym; exact Hi). apply andb_false_r. }
  symmetry. rewrite N.add_nocarry_lxor by exact HL. apply N.lxor_lor. exact HL.
Qed.

Lemma erl_loop fuel : forall n, n < 128 ^ N.of_nat fuel -> (0 < fuel)%nat ->
  exists h, flat_map put_bytes_of (encode_remaining_length_loop fuel n) = h
    /\ varint h n /\ (last h x00 <> x00 \/ n = 0) /\ h <> []
    /\ forall k, 0 < k -> n < 128 ^ k -> lenN h <= k.
Proof.
  induction fuel as [|fuel IH]; intros n Hn Hf; [lia|].
  eexists. split; [reflexivity|].
  cbn [encode_remaining_length_loop].
  destruct (N.eqb_spec (n / 128) 0) as [E|E].
  - rewrite E. change (0 <? 0) with false. cbn [flat_map put_bytes_of app].
    assert (Hs : n < 128) by lia. rewrite (N.mod_small n 128) by exact Hs.
    assert (Hb : b2n (n2b n) = n) by (apply b2n_n2b; lia).
    split. { rewrite <- Hb at 2. constructor. lia. }
    split. { cbn [last]. destruct (N.eq_dec n 0) as [->|Hne]; [now right|left].
             intros Heq. apply (f_equal b2n) in Heq. rewrite Hb in Heq. cbn in Heq. lia. }
    split; [discriminate|]. intros k Hk _. rewrite lenN_cons, lenN_nil. lia.
  - assert (Hl : 0 <? n / 128 = true) by (apply N.ltb_lt; lia). rewrite Hl.
    cbn [flat_map put_bytes_of app].
    destruct fuel as [|fuel'].
    { exfalso. change (128 ^ N.of_nat 1) with 128 in Hn. lia. }
    set (fuel := S fuel') in *.
    assert (Hn' : n / 128 < 128 ^ N.of_nat fuel).
    { replace (N.of_nat (S fuel)) with (N.succ (N.of_nat fuel)) in Hn by lia.
      rewrite N.pow_succ_r' in Hn. apply N.div_lt_upper_bound; lia. }
    destruct (IH (n / 128) Hn' ltac:(lia)) as (h & -> & Hv & Hlast & Hne & Hk).
    assert (Hm : n mod 128 < 128) by (apply N.mod_upper_bound; lia).
    rewrite lor128 by exact Hm.
    assert (Hb : b2n (n2b (n mod 128 + 128)) = n mod 128 + 128) by (apply b2n_n2b; lia).
    split.
    { replace n with (b2n (n2b (n mod 128 + 128)) - 128 + 128 * (n / 128)) at 2.
      - constructor; [lia|exact Hv].
      - rewrite Hb. pose proof (N.div_mod n 128). lia. }
    split.
    { left. destruct h as [|x h]; [congruence|]. cbn [last]. destruct Hlast as [Hlast|?]; [exact Hlast|lia]. }
    split; [discriminate|].
    intros k Hk0 Hk1. rewrite lenN_cons.
    destruct (N.eq_dec k 1) as [->|Hk2]; [change (128 ^ 1) with 128 in Hk1; lia|].
    assert (lenN h <= k - 1); [|lia].
    apply Hk; [lia|]. apply N.div_lt_upper_bound; [lia|].
    replace (128 * 128 ^ (k - 1)) with (128 ^ k); [exact Hk1|].
    rewrite <- N.pow_succ_r'. f_equal. lia.
Qed.

Lemma erl_spec n : n < 2 ^ 64 ->
  varint (erl n) n /\ shortest (erl n) /\ forall k, 0 < k -> n < 128 ^ k -> lenN (erl n) <= k.
Proof.
  intros Hn.
  assert (H128 : n < 128 ^ N.of_nat 10).
  { change (128 ^ N.of_nat 10) with (2 ^ 70). change (2 ^ 64) with 18446744073709551616 in Hn.
    change (2 ^ 70) with 1180591620717411303424. lia. }
  destruct (erl_loop 10 n H128 ltac:(lia)) as (h & Hh & Hv & Hl & Hne & Hk).
  unfold erl, encode_remaining_length. rewrite Hh. split; [exact Hv|]. split; [|exact Hk].
  destruct Hl as [Hl| ->]; [right; exact Hl|]. left.
  assert (lenN h <= 1) by (apply Hk; lia). destruct h as [|? [|? ?]]; [congruence|reflexivity|].
  rewrite !lenN_cons in *. lia.
Qed.

Lemma erl_le3 n : n < 2097152 -> (length (erl n) <= 3)%nat.
Proof.
  intros H. destruct (erl_spec n) as (_ & _ & Hk). { change (2 ^ 64) with 18446744073709551616. lia. }
  assert (lenN (erl n) <= 3) by (apply Hk; [lia|]; change (128 ^ 3) with 2097152; lia). unfold lenN in *. lia.
Qed.

Lemma erl_le4 n : n <= mqtt_max -> (length (erl n) <= 4)%nat.
Proof.
  unfold mqtt_max. intros H.
  destruct (erl_spec n) as (_ & _ & Hk). { change (2 ^ 64) with 18446744073709551616. lia. }
  assert (lenN (erl n) <= 4) by (apply Hk; [lia|]; change (128 ^ 4) with 268435456; lia). unfold lenN in *. lia.
Qed.

(** The shortest form is unique. *)
Lemma varint_zero h : varint h 0 -> shortest h -> h = [x00].
Proof.
  intros H. remember 0 as z eqn:Hz. induction H as [b Hb|b h v Hb H IH]; intros Hs.
  - f_equal. apply b2n_inj. rewrite Hz. reflexivity.
  - exfalso.
    assert (v = 0 /\ b2n b = 128) as [-> _] by lia.
    assert (Hs' : shortest h).
    { destruct Hs as [Hs|Hs].
      - destruct h; [now apply varint_nonempty in H|discriminate].
      - right. destruct h; [now apply varint_nonempty in H|]. exact Hs. }
    specialize (IH eq_refl Hs'). subst h.
    destruct Hs as [Hs|Hs]; [discriminate|]. now apply Hs.
Qed.

Lemma shortest_tail b h : h <> [] -> shortest (b :: h) -> shortest h.
Proof.
  intros Hne [Hs|Hs].
  - destruct h; [congruence|discriminate].
  - right. destruct h; [congruence|]. exact Hs.
Qed.

Lemma varint_inv h v : varint h v ->
  (exists b, h = [b] /\ v = b2n b /\ b2n b < 128)
  \/ (exists b h' v', h = b :: h' /\ v = b2n b - 128 + 128 * v' /\ 128 <= b2n b /\ varint h' v').
Proof. intros []; [left|right]; eauto 8. Qed.

Lemma shortest_unique h v : varint h v -> forall h', varint h' v -> shortest h -> shortest h' -> h = h'.
Proof.
  induction 1 as [b Hb|b h v Hb H IH]; intros h' H' Hs Hs'.
  - apply varint_inv in H'. destruct H' as [(b' & -> & E & Hb')|(b' & h1 & v1 & -> & E & Hb1 & H1)].
    + f_equal. now apply b2n_inj.
    + exfalso. assert (v1 = 0) as -> by lia.
      assert (h1 <> []) by (now apply varint_nonempty in H1).
      apply varint_zero in H1; [|eapply shortest_tail; eauto]. subst h1.
      destruct Hs' as [Hs'|Hs']; [discriminate|]. now apply Hs'.
  - pose proof (b2n_lt b) as Hb256.
    apply varint_inv in H'. destruct H' as [(b' & -> & E & Hb')|(b' & h1 & v1 & -> & E & Hb1 & H1)].
    + exfalso. assert (v = 0) as -> by lia.
      assert (h <> []) by (now apply varint_nonempty in H).
      apply varint_zero in H; [|eapply shortest_tail; eauto]. subst h.
      destruct Hs as [Hs|Hs]; [discriminate|]. now apply Hs.
    + pose proof (b2n_lt b') as Hb256'.
      assert (v1 = v /\ b2n b' = b2n b) as [-> E2] by lia.
      f_equal; [now apply b2n_inj|]. apply IH; auto.
      * eapply shortest_tail; [|exact Hs]. now apply varint_nonempty in H.
      * eapply shortest_tail; [|exact Hs']. now apply varint_nonempty in H1.
Qed.

(** ** Packets *)

(** Kinds the broker can write *)
Definition writable (p : ControlPacket) : bool :=
  match p with
  | ConnAck _ | Publish _ | PubAck _ | PubRec _ | PubRel _ | PubComp _ | SubAck _ _ | UnsubAck _
  | PingResp => true
  | _ => false
  end.

Lemma connack_code_num c : connack_code c = connack_num c.
Proof. destruct c; reflexivity. Qed.

Lemma suback_code_num c : suback_code c = suback_num c.
Proof. destruct c; reflexivity. Qed.

Lemma flat_map_codes cs :
  flat_map put_bytes_of (map (fun c => PutU8 (suback_code c)) cs) = map (fun c => n2b (suback_num c)) cs.
Proof. induction cs as [|c cs IH]; [reflexivity|]. cbn. now rewrite IH, suback_code_num. Qed.

Lemma publish_first p : publish_first_byte p = head_byte (Publish p).
Proof.
  unfold publish_first_byte, head_byte, bit.
  destruct (dup p), (qos (message p)), (retain (message p)); reflexivity.
Qed.

Theorem encode_bytes p : packet_ok p -> writable p = true ->
  encode p = Some (n2b (head_byte p) :: erl (lenN (packet_body p)) ++ packet_body p).
Proof.
  intros Hok Hw. unfold encode.
  destruct p; try discriminate; cbn [packet_puts option_map]; f_equal;
    unfold write_conn_ack, write_publish, write_pub_ack, write_pub_rec, write_pub_rel, write_pub_comp,
      write_sub_ack, write_unsub_ack, write_ping_resp, write_packet_with_packet_id;
    rewrite !flat_map_app; try reflexivity.
  - cbn [flat_map put_bytes_of app]. rewrite publish_first. f_equal.
    assert (HL : publish_remaining_length p = lenN (packet_body (Publish p))).
    { unfold publish_remaining_length. cbn [packet_body]. rewrite !lenN_app, lenN_field.
      destruct Hok as [_ Hid].
      destruct (pub_packet_id p).
      - change (lenN (be16 n)) with 2. destruct Hid as [Hq _]. destruct (qos (message p)); cbn [qos_gt0]; [congruence|lia|lia].
      - rewrite lenN_nil. rewrite Hid. cbn [qos_gt0]. lia. }
    rewrite HL. fold (erl (lenN (packet_body (Publish p)))). f_equal.
    cbn [packet_body]. destruct Hok as [[_ Ht] _]. unfold fits16 in Ht.
    rewrite app_nil_r. f_equal.
    { unfold put_string. cbn [flat_map put_bytes_of]. rewrite app_nil_r.
      rewrite N.mod_small by (change (2 ^ 16) with 65536; lia). reflexivity. }
    f_equal. destruct (pub_packet_id p); reflexivity.
  - cbn [flat_map put_bytes_of app]. f_equal. cbn [packet_body]. rewrite lenN_app.
    change (lenN (be16 packet_id)) with 2.
    replace (lenN (map (fun c => n2b (suback_num c)) return_codes)) with (lenN return_codes)
      by (unfold lenN; now rewrite map_length).
    fold (erl (2 + lenN return_codes)). f_equal. f_equal.
    now rewrite flat_map_codes.
Qed.

Theorem encode_none p : writable p = false <-> encode p = None.
Proof. destruct p; cbn; split; congruence. Qed.

Lemma erl_varint p : lenN (packet_body p) <= mqtt_max -> varint (erl (lenN (packet_body p))) (lenN (packet_body p)).
Proof. intros H. apply erl_spec. unfold mqtt_max in H. change (2 ^ 64) with 18446744073709551616. lia. Qed.

Theorem encode_wire p : packet_ok p -> writable p = true -> lenN (packet_body p) <= mqtt_max ->
  exists bs, encode p = Some bs /\ wire p bs.
Proof.
  intros Hok Hw Hm. eexists. split; [now apply encode_bytes|].
  split; [exact Hok|]. exists (erl (lenN (packet_body p))).
  split; [now apply erl_varint|]. split; [now apply erl_le4|reflexivity].
Qed.

(** ** The client's parser *)

Lemma parse_varint_ok h v : varint h v -> forall d r, (length h <= d)%nat ->
  parse_varint d (h ++ r) = Some (v, r).
Proof.
  induction 1 as [b Hb|b h v Hb H IH]; intros [|d] r Hd; cbn [length] in Hd; try lia; cbn [app parse_varint].
  - destruct (N.ltb_spec (b2n b) 128); [reflexivity|lia].
  - destruct (N.ltb_spec (b2n b) 128); [lia|]. rewrite IH by lia. reflexivity.
Qed.

Lemma parse_be16_ok i r : i < 65536 -> parse_be16 (be16 i ++ r) = Some (i, r).
Proof. intros H. cbn. rewrite !b2n_n2b_mod. do 2 f_equal. lia. Qed.

Lemma parse_id_ok i : i < 65536 -> parse_id (be16 i) = Some i.
Proof. intros H. cbn. rewrite !b2n_n2b_mod. f_equal. lia. Qed.

Lemma parse_field_ok s r : fits16 s -> parse_field (field s ++ r) = Some (s, r).
Proof.
  intros H. unfold parse_field, field. rewrite <- app_assoc, parse_be16_ok by exact H.
  rewrite lenN_app. destruct (N.ltb_spec (lenN s + lenN r) (lenN s)); [lia|].
  now rewrite takeN_lenN_app, dropN_lenN_app.
Qed.

Lemma parse_codes_ok cs : parse_codes (map (fun c => n2b (suback_num c)) cs) = Some cs.
Proof.
  induction cs as [|c cs IH]; [reflexivity|]. cbn [map parse_codes]. rewrite IH.
  destruct c; reflexivity.
Qed.

Lemma head_byte_lt p : head_byte p < 256.
Proof.
  destruct p as [| |p| | | | | | | | | | |]; cbn [head_byte]; try lia.
  destruct p as [i d [t pl q r]]. cbn. destruct d, q, r; cbn; lia.
Qed.

Lemma parse_publish_first p :
  forall body, parse_body (head_byte (Publish p)) body = parse_publish (head_byte (Publish p)) body.
Proof.
  intros body. destruct p as [i d [t pl q r]]. cbn [head_byte].
  destruct d, q, r; reflexivity.
Qed.

Lemma parse_body_ok p : packet_ok p -> writable p = true ->
  parse_body (head_byte p) (packet_body p) = Some p.
Proof.
  intros Hok Hw. destruct p as [c|c|p|i|i|i|i|i subs|i codes|i ts|i| | |]; try discriminate.
  - cbn [head_byte parse_body packet_body]. destruct c as [sp rc].
    destruct sp, rc; reflexivity.
  - rewrite parse_publish_first. unfold parse_publish. cbn [packet_body].
    destruct Hok as [[Hu Hf] Hid]. destruct p as [i d [t pl q r]]. cbn [message topic payload qos retain pub_packet_id dup] in *.
    assert (Hq : parse_qos (head_byte (Publish {| pub_packet_id := i; dup := d; message := {| topic := t; payload := pl; qos := q; retain := r |} |}) / 2 mod 4) = Some q).
    { cbn [head_byte message qos retain dup]. destruct d, q, r; reflexivity. }
    rewrite Hq, parse_field_ok by exact Hf.
    assert (Hd : N.odd (head_byte (Publish {| pub_packet_id := i; dup := d; message := {| topic := t; payload := pl; qos := q; retain := r |} |}) / 8) = d).
    { cbn [head_byte message qos retain dup]. destruct d, q, r; reflexivity. }
    assert (Hr : N.odd (head_byte (Publish {| pub_packet_id := i; dup := d; message := {| topic := t; payload := pl; qos := q; retain := r |} |})) = r).
    { cbn [head_byte message qos retain dup]. destruct d, q, r; reflexivity. }
    rewrite Hd, Hr. clear Hd Hr Hq.
    destruct i as [i|].
    + destruct Hid as [Hq Hi]. rewrite parse_be16_ok by exact Hi. destruct q; [congruence|reflexivity|reflexivity].
    + rewrite Hid. reflexivity.
  - cbn [head_byte parse_body packet_body]. now rewrite parse_id_ok.
  - cbn [head_byte parse_body packet_body]. now rewrite parse_id_ok.
  - cbn [head_byte parse_body packet_body]. now rewrite parse_id_ok.
  - cbn [head_byte parse_body packet_body]. now rewrite parse_id_ok.
  - cbn [head_byte parse_body packet_body]. rewrite parse_be16_ok by exact Hok. now rewrite parse_codes_ok.
  - cbn [head_byte parse_body packet_body]. now rewrite parse_id_ok.
  - reflexivity.
Qed.

Theorem client_parse_wire p bs r : wire p bs -> writable p = true ->
  client_parse (bs ++ r) = Some (p, r).
Proof.
  intros (Hok & h & Hv & Hh & ->) Hw. unfold client_parse. cbn [app].
  rewrite <- app_assoc, (parse_varint_ok _ _ Hv) by exact Hh.
  rewrite lenN_app.
  destruct (N.ltb_spec (lenN (packet_body p) + lenN r) (lenN (packet_body p))); [lia|].
  rewrite takeN_lenN_app, dropN_lenN_app, b2n_n2b by apply head_byte_lt.
  now rewrite parse_body_ok.
Qed.

(** ** The decoder on MQTT packets *)

(** Kinds the broker reads, without a will *)
Definition readable (p : ControlPacket) : bool :=
  match p with
  | Connect c => match will_message c with None => true | Some _ => false end
  | Publish _ | PubAck _ | PubRec _ | PubRel _ | PubComp _ | Subscribe _ _ | Unsubscribe _ _
  | PingReq | Disconnect => true
  | _ => false
  end.

Lemma opt_text_ok o : opt_text o -> match o with Some s => fits16 s /\ utf8_ok s = true | None => True end.
Proof. destruct o as [s|]; [|auto]. intros [Hu Hf]. split; [exact Hf|]. now apply utf8_ok_iff. Qed.

Lemma odd_flags c : wc_will c = None ->
  connect_flags c < 256
  /\ N.odd (connect_flags c / 2) = wc_clean c
  /\ N.odd (connect_flags c / 128) = is_some (wc_user c)
  /\ N.odd (connect_flags c / 64) = is_some (wc_pass c).
Proof.
  intros Hw. unfold connect_flags. rewrite Hw.
  destruct (is_some (wc_user c)), (is_some (wc_pass c)), (wc_clean c); repeat split.
Qed.

Lemma connect_reads_body c : wc_will c = None -> wconnect_ok c -> connect_reads (connect_body c) (connect_of c).
Proof.
  intros Hw ([Hn1 Hn2] & Hk & [Hi1 Hi2] & _ & Hu & Hp).
  unfold connect_body. rewrite Hw. cbn [will_fields app].
  destruct (odd_flags c Hw) as (HF & H1 & H2 & H3).
  apply (connect_reads_intro (wc_name c) (wc_level c) (n2b (connect_flags c)) (connect_of c)); cbn [connect_of];
    rewrite ?b2n_n2b by exact HF; auto.
  - now apply utf8_ok_iff.
  - now apply utf8_ok_iff.
  - now apply opt_text_ok.
  - now apply opt_text_ok.
Qed.

Lemma accepted_connect c b n : wc_will c = None -> wconnect_ok c -> b2n b / 16 = 1 ->
  accepted (b2n b) n (connect_body c) (Connect (connect_of c)).
Proof. intros. apply acc_connect; [assumption|]. now apply connect_reads_body. Qed.

Lemma text_str_ok s : text s -> str_ok s.
Proof. intros [Hu Hf]. split; [now apply utf8_ok_iff|exact Hf]. Qed.

Lemma accepted_wire p : packet_ok p -> readable p = true ->
  accepted (head_byte p) (lenN (packet_body p)) (packet_body p) p.
Proof.
  intros Hok Hr.
  destruct p as [c|c|p|i|i|i|i|i subs|i codes|i ts|i| | |]; try discriminate; cbn [head_byte].
  - destruct c as [v ci ka cs w u pw]. cbn [readable will_message] in Hr. destruct w; [discriminate|].
    cbn [packet_ok keep_alive_seconds client_id version will_message user_name password] in Hok.
    destruct Hok as (Hk & Hi & -> & _ & Hu & Hp).
    apply acc_connect; [reflexivity|]. cbn [packet_body clean_session keep_alive_seconds client_id will_message user_name password].
    match goal with |- connect_reads (connect_body ?x) _ => apply (connect_reads_body x); [reflexivity|] end.
    split; [|cbn; tauto]. split; [|reflexivity]. apply utf8_ok_iff. reflexivity.
  - destruct Hok as [[Hu Hf] Hid]. destruct p as [i d [t pl q r]]. cbn [message topic payload qos retain pub_packet_id dup] in *.
    apply acc_publish.
    + destruct d, q, r; reflexivity.
    + apply publish_reads_intro; cbn [message topic payload qos retain pub_packet_id dup]; auto.
      * destruct d, q, r; reflexivity.
      * destruct d, q, r; reflexivity.
      * destruct d, q, r; reflexivity.
      * now apply utf8_ok_iff.
      * destruct i as [i|]; [destruct Hid as [Hq Hi]; destruct q; [congruence|exact Hi|exact Hi]|rewrite Hid; exact I].
  - now apply acc_puback.
  - now apply acc_pubrec.
  - now apply acc_pubrel.
  - now apply acc_pubcomp.
  - destruct Hok as (Hi & Hne & Hall). apply acc_subscribe; auto.
    eapply Forall_impl; [|exact Hall]. intros s [Hu Hf]. split; [now apply utf8_ok_iff|exact Hf].
  - destruct Hok as (Hi & Hne & Hall). apply acc_unsubscribe; auto.
    eapply Forall_impl; [|exact Hall]. intros s Hs. now apply text_str_ok.
  - now apply acc_pingreq.
  - now apply acc_disconnect.
Qed.

Lemma decode_ext dbg bs p r s : decode dbg bs = POk p r -> decode dbg (bs ++ s) = POk p (r ++ s).
Proof.
  intros H. unfold decode in H. pose proof (plain_ext (read_packet (S (length bs)) dbg) bs s) as HX.
  rewrite H in HX. rewrite <- HX.
  rewrite <- (read_packet_any_fuel (S (length (bs ++ s))) dbg (bs ++ s)) by lia.
  apply le_plain.
  - apply read_packet_mono. rewrite app_length. lia.
  - rewrite HX. discriminate.
Qed.

(** Any conforming packet whose length takes at most three digits is read as sent. *)
Theorem decode_wire dbg p h r : packet_ok p -> readable p = true ->
  varint h (lenN (packet_body p)) -> (length h <= 3)%nat ->
  decode dbg (n2b (head_byte p) :: h ++ packet_body p ++ r) = POk p r.
Proof.
  intros Hok Hr Hv Hh.
  replace (n2b (head_byte p) :: h ++ packet_body p ++ r) with ((n2b (head_byte p) :: h ++ packet_body p) ++ r)
    by (cbn [app]; now rewrite <- app_assoc).
  replace r with ([] ++ r) at 2 by reflexivity. apply decode_ext.
  apply decode_exact.
  - pose proof (varint3_bound _ _ Hv Hh). rewrite lenN_cons, lenN_app.
    assert (lenN h <= 3) by (unfold lenN; lia). change (2 ^ 64) with 18446744073709551616. lia.
  - exists (n2b (head_byte p)), h, (lenN (packet_body p)), (packet_body p).
    rewrite b2n_n2b by apply head_byte_lt. rewrite app_nil_r.
    split; [reflexivity|]. split; [exact Hv|]. split; [exact Hh|]. now apply accepted_wire.
Qed.

(** ** Everything accepted is within protocol limits *)

Lemma str_ok_text s : str_ok s -> text s.
Proof. intros [Hu Hf]. split; [now apply utf8_ok_iff|exact Hf]. Qed.

Lemma opt_ok_text o : match o with Some s => fits16 s /\ utf8_ok s = true | None => True end -> opt_text o.
Proof. destruct o as [s|]; [|auto]. intros [Hf Hu]. split; [now apply utf8_ok_iff|exact Hf]. Qed.

Theorem accepted_ok first n u p : accepted first n u p -> packet_ok p /\ readable p = true.
Proof.
  intros H. inversion H as [? ? ? H1|? ? ? H1| | | | | | | |]; subst; cbn [packet_ok readable]; auto.
  - inversion H1 as [name level flags c' U1 F1 U2 F2 K V W C1 C2 C3 O1 O2]; subst.
    rewrite W. repeat split; auto.
    + now apply utf8_ok_iff.
    + now apply opt_ok_text.
    + now apply opt_ok_text.
  - inversion H1 as [p' Q D R U F Hid L]; subst. split; [|reflexivity]. split.
    + split; [now apply utf8_ok_iff|exact F].
    + destruct (pub_packet_id p0), (qos (message p0)); cbn in Hid; try tauto; split; congruence || auto.
  - repeat split; auto. eapply Forall_impl; [|eassumption]. intros s [Hu Hf]. split; [now apply utf8_ok_iff|exact Hf].
  - repeat split; auto. eapply Forall_impl; [|eassumption]. intros s Hs. now apply str_ok_text.
Qed.
