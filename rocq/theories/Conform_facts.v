(** The accepted inputs in the vocabulary of the wire specification; CONNECT with a will. *)
From Verif Require Import Base Base_facts Utf8 Spec_utf8 Utf8_facts Packets Spec_wire Decoder
  ReadStream Plain ReadStream_facts Plain_facts Decoder_facts Encoder Encoder_facts.
Open Scope N_scope.
Ltac Zify.zify_post_hook ::= Z.div_mod_to_equations.

Lemma publish_head_unique b p : b2n b / 16 = 3 -> b2n b / 2 mod 4 = qos_num (qos (message p)) ->
  dup p = N.odd (b2n b / 8) -> retain (message p) = N.odd (b2n b) -> b2n b = head_byte (Publish p).
Proof.
  intros H1 H2 H3 H4. cbn [head_byte]. rewrite H3, H4, <- H2.
  assert (HX : forall x, N.odd x = (x mod 2 =? 1)).
  { intros x. rewrite <- N.bit0_odd, N.bit0_eqb. reflexivity. }
  rewrite !HX. unfold bit. pose proof (b2n_lt b).
  destruct (N.eqb_spec (b2n b / 8 mod 2) 1), (N.eqb_spec (b2n b mod 2) 1); lia.
Qed.

Theorem accepted_conforms b n u p : accepted (b2n b) n u p <-> conforms (b2n b) n u p.
Proof.
  split.
  - intros H. pose proof (accepted_ok _ _ _ _ H) as [Hok Hr]. split; [exact Hok|].
    inversion H as [? c T H1|? pp T H1| | | | | | | |]; subst; auto.
    + inversion H1 as [name level flags c' U1 F1 U2 F2 K V W C1 C2 C3 O1 O2]; subst.
      split; [exact T|]. split; [exact W|]. exists name, level, flags.
      split; [split; [now apply utf8_ok_iff|exact F1]|]. auto.
    + inversion H1 as [p' Q D R U F Hid L]; subst.
      split; [now apply publish_head_unique|]. auto.
  - intros [Hok H]. destruct p as [c|c|p|i|i|i|i|i subs|i codes|i ts|i| | |]; try contradiction.
    + destruct H as (T & W & name & level & flags & [U1 F1] & C1 & C2 & C3 & ->).
      destruct Hok as (K & [U2 F2] & V & _ & O1 & O2).
      apply acc_connect; [exact T|]. apply connect_reads_intro; auto.
      * now apply utf8_ok_iff.
      * now apply utf8_ok_iff.
      * now apply opt_text_ok.
      * now apply opt_text_ok.
    + destruct H as (Hb & -> & ->). rewrite Hb. now apply accepted_wire.
    + destruct H as (Hb & ->). rewrite Hb. now apply acc_puback.
    + destruct H as (Hb & ->). rewrite Hb. now apply acc_pubrec.
    + destruct H as (Hb & ->). rewrite Hb. now apply acc_pubrel.
    + destruct H as (Hb & ->). rewrite Hb. now apply acc_pubcomp.
    + destruct H as (Hb & -> & ->). rewrite Hb. now apply accepted_wire.
    + destruct H as (Hb & -> & ->). rewrite Hb. now apply accepted_wire.
    + destruct H as (Hb & ->). now apply acc_pingreq.
    + destruct H as (Hb & ->). now apply acc_disconnect.
Qed.

Theorem decode_conforms dbg bs p r : lenN bs < 2 ^ 64 ->
  decode dbg bs = POk p r <->
  exists b h n body, bs = b :: h ++ body ++ r /\ varint h n /\ (length h <= 3)%nat
                     /\ conforms (b2n b) n body p.
Proof.
  intros Hl. rewrite (decode_exact dbg bs p r Hl).
  split; intros (b & h & n & u & H1 & H2 & H3 & H4); exists b, h, n, u; repeat (split; [assumption|]);
    now apply accepted_conforms.
Qed.

(** Same, without the size hypothesis, in the direction from the specification. *)
Theorem conforms_decode dbg b h n body r p : varint h n -> (length h <= 3)%nat ->
  lenN body < 2 ^ 63 -> conforms (b2n b) n body p ->
  decode dbg (b :: h ++ body ++ r) = POk p r.
Proof.
  intros Hv Hh Hl HC.
  replace (b :: h ++ body ++ r) with ((b :: h ++ body) ++ r) by (cbn [app]; now rewrite <- app_assoc).
  replace r with ([] ++ r) at 2 by reflexivity. apply decode_ext. apply decode_conforms.
  - rewrite lenN_cons, lenN_app. assert (lenN h <= 3) by (unfold lenN; lia).
    change (2 ^ 63) with 9223372036854775808 in Hl. change (2 ^ 64) with 18446744073709551616. lia.
  - exists b, h, n, body. rewrite app_nil_r. auto.
Qed.

Lemma lenN_opt_field o : opt_text o -> lenN (opt_field o) < 65538.
Proof.
  destruct o as [s|]; cbn [opt_field].
  - intros [_ H]. unfold fits16 in H. rewrite lenN_field. lia.
  - intros _. rewrite lenN_nil. lia.
Qed.

(** ** CONNECT with a will *)

(** How the broker reads a CONNECT with a will: it takes the will's topic and payload for the
    credentials and leaves the rest of the packet to be read as the next packet. *)
Definition misread (c : wconnect) (w : Message) : ConnectPacket * bytes :=
  let mk u p := {| version := Mqtt3; client_id := wc_id c; keep_alive_seconds := wc_keep c;
                   clean_session := wc_clean c; will_message := None; user_name := u; password := p |} in
  match wc_user c, wc_pass c with
  | None, None => (mk None None, field (topic w) ++ field (payload w))
  | Some u, None => (mk (Some (topic w)) None, field (payload w) ++ field u)
  | None, Some p => (mk None (Some (topic w)), field (payload w) ++ field p)
  | Some u, Some p => (mk (Some (topic w)) (Some (payload w)), field u ++ field p)
  end.

Lemma will_flags c w : wc_will c = Some w ->
  connect_flags c < 256
  /\ N.odd (connect_flags c / 2) = wc_clean c
  /\ N.odd (connect_flags c / 128) = is_some (wc_user c)
  /\ N.odd (connect_flags c / 64) = is_some (wc_pass c).
Proof.
  intros Hw. unfold connect_flags. rewrite Hw.
  destruct (is_some (wc_user c)), (is_some (wc_pass c)), (wc_clean c), (retain w), (qos w); repeat split.
Qed.

Theorem decode_connect_will dbg c w h r : wc_will c = Some w -> wconnect_ok c ->
  (wc_user c <> None -> wc_pass c <> None -> is_utf8 (payload w)) -> varint h (lenN (connect_body c)) -> (length h <= 3)%nat ->
  decode dbg (x10 :: h ++ connect_body c ++ r)
  = POk (Connect (fst (misread c w))) (snd (misread c w) ++ r).
Proof.
  intros Hw (Hn & Hk & Hi & Hwill & Hu & Hp) HU Hv Hh. rewrite Hw in Hwill. destruct Hwill as [Ht Hpl].
  destruct (will_flags c w Hw) as (HF & H1 & H2 & H3).
  set (cp := fst (misread c w)).
  set (body := field (wc_name c) ++ [wc_level c; n2b (connect_flags c)] ++ be16 (keep_alive_seconds cp)
               ++ field (client_id cp) ++ opt_field (user_name cp) ++ opt_field (password cp)).
  assert (HB : connect_body c ++ r = body ++ snd (misread c w) ++ r).
  { unfold body, cp, connect_body, misread. rewrite Hw.
    destruct (wc_user c), (wc_pass c);
      cbn [fst snd keep_alive_seconds client_id user_name password opt_field will_fields];
      rewrite <- ?app_assoc; cbn [app]; rewrite <- ?app_assoc; reflexivity. }
  rewrite HB.
  assert (HX : wc_user c <> None -> wc_pass c <> None -> text (payload w)) by (intros; split; auto).
  assert (Hcp : opt_text (user_name cp) /\ opt_text (password cp) /\ is_some (user_name cp) = is_some (wc_user c)
     /\ is_some (password cp) = is_some (wc_pass c) /\ keep_alive_seconds cp = wc_keep c
     /\ client_id cp = wc_id c /\ version cp = Mqtt3 /\ will_message cp = None /\ clean_session cp = wc_clean c).
  { unfold cp, misread. destruct (wc_user c), (wc_pass c); cbn; repeat split; auto; try apply Ht; try (apply HX; discriminate). }
  destruct Hcp as (O1 & O2 & O3 & O4 & K & I & V & W & C).
  apply conforms_decode with (n := lenN (connect_body c)); auto.
  - unfold body. rewrite !lenN_app, !lenN_field, !lenN_cons, lenN_nil. change (lenN (be16 (keep_alive_seconds cp))) with 2.
    pose proof (lenN_opt_field _ O1). pose proof (lenN_opt_field _ O2).
    destruct Hn as [_ Hn]. destruct Hi as [_ Hi]. unfold fits16 in Hn, Hi. rewrite I.
    change (2 ^ 63) with 9223372036854775808. lia.
  - split.
    + cbn [packet_ok]. rewrite K, I, V, W. auto 10.
    + split; [reflexivity|]. split; [exact W|]. exists (wc_name c), (wc_level c), (n2b (connect_flags c)).
      rewrite b2n_n2b by exact HF. split; [exact Hn|]. split; [congruence|]. split; [congruence|]. split; [congruence|].
      reflexivity.
Qed.

(** With both credentials present the will's payload is read as a string, so one that is not text is an error,
    which names the place where it stops being text. *)
Theorem decode_connect_will_bad dbg c w i h r : wc_will c = Some w -> wconnect_ok c ->
  wc_user c <> None -> wc_pass c <> None -> from_utf8 (payload w) = Some i ->
  varint h (lenN (connect_body c)) -> (length h <= 3)%nat ->
  decode dbg (x10 :: h ++ connect_body c ++ r) = PErr (ErrUtf8 (i + 1)).
Proof.
  intros Hw (Hn & Hk & Hi & Hwill & Hu & Hp) HU HP HX Hv Hh. rewrite Hw in Hwill. destruct Hwill as [Ht Hpl].
  destruct (will_flags c w Hw) as (HF & _ & H2 & H3).
  unfold decode, read_packet. rewrite plain_bind, plain_get_u8. cbn [pbind]. rewrite plain_bind.
  assert (E0 : plain decode_remaining_length (h ++ connect_body c ++ r) = POk (lenN (connect_body c)) (connect_body c ++ r))
    by (apply decode_remaining_length_ok; eauto).
  rewrite E0. cbn [pbind]. unfold dispatch. cbv zeta. rewrite shiftr4.
  change (b2n x10 / 16 =? PACKET_TYPE_CONNECT) with true. cbv iota. unfold decode_connect, connect_body. rewrite Hw.
  cbn [will_fields]. repeat rewrite <- app_assoc. rewrite plain_bind.
  assert (GS : forall s t, text s -> plain get_string (field s ++ t) = POk s t).
  { intros s t [A B]. apply get_string_ok. split; [reflexivity|]. split; [exact B|now apply utf8_ok_iff]. }
  rewrite GS by exact Hn. cbn [pbind app]. rewrite plain_bind, plain_get_u8. cbn [pbind].
  rewrite plain_bind, plain_get_u8. cbn [pbind]. rewrite plain_bind.
  assert (E4 : forall t, plain get_u16 (be16 (wc_keep c) ++ t) = POk (wc_keep c) t) by (intros t; apply get_u16_ok; auto).
  rewrite E4. cbn [pbind]. rewrite plain_bind, GS by exact Hi. cbn [pbind].
  rewrite b2n_n2b by exact HF.
  assert (F1 : flag_set (connect_flags c) 128 = true).
  { rewrite <- (b2n_n2b (connect_flags c)) by exact HF. change 128 with (2 ^ 7). rewrite flag_bit by (cbn; tauto).
    rewrite b2n_n2b by exact HF. change (2 ^ 7) with 128. rewrite H2. now destruct (wc_user c). }
  assert (F2 : flag_set (connect_flags c) 64 = true).
  { rewrite <- (b2n_n2b (connect_flags c)) by exact HF. change 64 with (2 ^ 6). rewrite flag_bit by (cbn; tauto).
    rewrite b2n_n2b by exact HF. change (2 ^ 6) with 64. rewrite H3. now destruct (wc_pass c). }
  rewrite F1, F2. cbv iota. rewrite plain_bind, plain_bind, GS by exact Ht. cbn [pbind plain].
  rewrite plain_bind, plain_bind.
  rewrite field_app. set (t := opt_field (wc_user c) ++ opt_field (wc_pass c) ++ r). unfold get_string. rewrite plain_bind.
  assert (E5 : plain get_u16 (be16 (lenN (payload w)) ++ payload w ++ t) = POk (lenN (payload w)) (payload w ++ t))
    by (apply get_u16_ok; auto).
  rewrite E5. cbn [pbind]. unfold fits16 in Hpl. rewrite plain_bind, plain_get_bytes, isize_max_big by lia.
  rewrite lenN_app. destruct (N.ltb_spec (lenN (payload w) + lenN t) (lenN (payload w))); [lia|].
  cbn [pbind]. rewrite takeN_lenN_app, dropN_lenN_app, HX. reflexivity.
Qed.
