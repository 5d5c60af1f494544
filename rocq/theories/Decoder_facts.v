(** The set of byte sequences the decoder accepts, exactly; panics and errors, exactly. *)
From Verif Require Import Base Base_facts Utf8 Spec_utf8 Utf8_facts Packets Spec_wire Decoder
  ReadStream Plain ReadStream_facts Plain_facts.
Open Scope N_scope.
Ltac Zify.zify_post_hook ::= Z.div_mod_to_equations.

(** ** Bits of a byte *)

Lemma land127 b : N.land (b2n b) 127 = b2n b mod 128.
Proof. destruct b; reflexivity. Qed.

Lemma land128 b : (N.land (b2n b) 128 =? 0) = (b2n b <? 128).
Proof. destruct b; reflexivity. Qed.

Lemma shiftr4 b : N.shiftr (b2n b) 4 = b2n b / 16.
Proof. destruct b; reflexivity. Qed.

Lemma flag_bit b i : In i [0; 1; 2; 3; 4; 5; 6; 7] ->
  flag_set (b2n b) (2 ^ i) = N.odd (b2n b / 2 ^ i).
Proof.
  cbn [In]. intros H. repeat (destruct H as [<-|H]; [destruct b; reflexivity|]). contradiction.
Qed.

(** ** Remaining length *)

Lemma varint_nonempty h v : varint h v -> h <> [].
Proof. destruct 1; discriminate. Qed.

Lemma varint_fun h v : varint h v -> forall v', varint h v' -> v = v'.
Proof.
  induction 1 as [b Hb|b h v Hb Hv IH]; intros v' H'; inversion H'; subst; try reflexivity; try lia.
  f_equal. f_equal. now apply IH.
Qed.

(** A varint is recognisable in front of anything. *)
Lemma varint_prefix h v : varint h v -> forall h' v' r r',
  varint h' v' -> h ++ r = h' ++ r' -> h = h' /\ r = r' /\ v = v'.
Proof.
  induction 1 as [b Hb|b h v Hb Hv IH]; intros h' v' r r' H' HE; inversion H'; subst;
    cbn in HE; injection HE as -> HE; try lia; subst.
  - auto.
  - match goal with H1 : varint ?h0 ?v0, H2 : h ++ r = ?h0 ++ r' |- _ =>
      destruct (IH _ _ _ _ H1 H2) as (-> & -> & ->) end. auto.
Qed.

Lemma drl_loop fuel : forall rl mult bs n r,
  plain (decode_remaining_length_loop fuel rl mult) bs = POk n r ->
  0 < mult ->
  exists h v, bs = h ++ r /\ varint h v /\ n = rl + mult * v
              /\ mult * 128 ^ lenN h <= 2097152.
Proof.
  induction fuel as [|fuel IH]; intros rl mult bs n r H Hm; [discriminate|].
  cbn [decode_remaining_length_loop] in H. rewrite plain_bind, plain_get_u8 in H.
  destruct bs as [|b t]; [discriminate|]. cbn [pbind] in H. cbv zeta in H.
  rewrite land127, land128 in H.
  replace (128 * 128 * 128) with 2097152 in H by reflexivity.
  destruct (N.ltb_spec 2097152 (mult * 128)) as [|Hle]; [discriminate|].
  pose proof (b2n_lt b) as B.
  destruct (N.ltb_spec (b2n b) 128) as [Hb|Hb].
  - cbn in H. injection H as <- <-. exists [b], (b2n b).
    split; [reflexivity|]. split; [now constructor|]. split; [|cbn; lia].
    rewrite N.mod_small by lia. lia.
  - apply IH in H; [|lia]. destruct H as (h & v & -> & Hv & -> & Hl).
    exists (b :: h), (b2n b - 128 + 128 * v). split; [reflexivity|]. split; [now constructor|].
    rewrite lenN_cons, N.pow_add_r, N.pow_1_r. split; [|lia].
    replace (b2n b mod 128) with (b2n b - 128) by lia. lia.
Qed.

Lemma drl_step fuel rl mult b r : mult * 128 <= 2097152 ->
  plain (decode_remaining_length_loop (S fuel) rl mult) (b :: r)
  = if b2n b <? 128 then POk (rl + b2n b mod 128 * mult) r
    else plain (decode_remaining_length_loop fuel (rl + b2n b mod 128 * mult) (mult * 128)) r.
Proof.
  intros H. cbn [decode_remaining_length_loop]. rewrite plain_bind, plain_get_u8. cbn [pbind]. cbv zeta.
  rewrite land127, land128. replace (128 * 128 * 128) with 2097152 by reflexivity.
  destruct (N.ltb_spec 2097152 (mult * 128)); [lia|]. now destruct (b2n b <? 128).
Qed.

Lemma drl_step_err fuel rl mult b r : 2097152 < mult * 128 ->
  plain (decode_remaining_length_loop (S fuel) rl mult) (b :: r) = PErr ErrLength.
Proof.
  intros H. cbn [decode_remaining_length_loop]. rewrite plain_bind, plain_get_u8. cbn [pbind]. cbv zeta.
  replace (128 * 128 * 128) with 2097152 by reflexivity.
  destruct (N.ltb_spec 2097152 (mult * 128)); [reflexivity|lia].
Qed.

Lemma drl_step_nil fuel rl mult :
  plain (decode_remaining_length_loop (S fuel) rl mult) [] = PMore [].
Proof. reflexivity. Qed.

Lemma pow128_le3 n : 128 ^ n <= 2097152 -> n <= 3.
Proof.
  intros H. destruct (N.le_gt_cases n 3) as [|Hn]; [assumption|]. exfalso.
  assert (128 ^ 4 <= 128 ^ n) by (apply N.pow_le_mono_r; lia).
  change (128 ^ 4) with 268435456 in *. lia.
Qed.

Lemma decode_remaining_length_ok bs n r :
  plain decode_remaining_length bs = POk n r <->
  exists h, bs = h ++ r /\ varint h n /\ (length h <= 3)%nat.
Proof.
  split.
  - intros H. apply drl_loop in H; [|lia]. destruct H as (h & v & -> & Hv & -> & Hl).
    exists h. rewrite N.mul_1_l in *. cbn [N.add]. split; [reflexivity|]. split; [exact Hv|].
    apply pow128_le3 in Hl. unfold lenN in Hl. lia.
  - intros (h & -> & Hv & Hl). unfold decode_remaining_length.
    inversion Hv as [b1 B1|b1 h1 v1 B1 V1]; subst; pose proof (b2n_lt b1); cbn [app].
    { rewrite drl_step by lia. destruct (N.ltb_spec (b2n b1) 128); [|lia]. f_equal. lia. }
    rewrite drl_step by lia. destruct (N.ltb_spec (b2n b1) 128); [lia|].
    inversion V1 as [b2 B2|b2 h2 v2 B2 V2]; subst; pose proof (b2n_lt b2); cbn [app].
    { rewrite drl_step by lia. destruct (N.ltb_spec (b2n b2) 128); [|lia]. f_equal. lia. }
    rewrite drl_step by lia. destruct (N.ltb_spec (b2n b2) 128); [lia|].
    inversion V2 as [b3 B3|b3 h3 v3 B3 V3]; subst; pose proof (b2n_lt b3); cbn [app].
    { rewrite drl_step by lia. destruct (N.ltb_spec (b2n b3) 128); [|lia]. f_equal. lia. }
    exfalso. destruct h3; [now apply varint_nonempty in V3|]. cbn in Hl. lia.
Qed.

Lemma varint_bound h v : varint h v -> v < 128 ^ lenN h.
Proof.
  induction 1 as [b Hb|b h v Hb Hv IH].
  - cbn. lia.
  - rewrite lenN_cons, N.pow_add_r, N.pow_1_r. pose proof (b2n_lt b). lia.
Qed.

Lemma varint3_bound h v : varint h v -> (length h <= 3)%nat -> v < 2097152.
Proof.
  intros Hv Hl. apply varint_bound in Hv.
  assert (128 ^ lenN h <= 128 ^ 3) by (apply N.pow_le_mono_r; unfold lenN; lia).
  change (128 ^ 3) with 2097152 in *. lia.
Qed.

(** The other results: three continuation bytes and a fourth are an error, fewer bytes wait. *)
Lemma drl_cases bs :
  (exists h n r, plain decode_remaining_length bs = POk n r /\ bs = h ++ r /\ varint h n
                 /\ (length h <= 3)%nat)
  \/ (exists b1 b2 b3 b4 r, bs = b1 :: b2 :: b3 :: b4 :: r
       /\ 128 <= b2n b1 /\ 128 <= b2n b2 /\ 128 <= b2n b3
       /\ plain decode_remaining_length bs = PErr ErrLength)
  \/ (exists l, plain decode_remaining_length bs = PMore l
       /\ (length bs <= 3)%nat /\ Forall (fun b => 128 <= b2n b) bs).
Proof.
  destruct bs as [|b1 r1]; [right; right; exists []; repeat split; cbn; auto; lia|].
  destruct (N.lt_ge_cases (b2n b1) 128) as [H1|H1].
  { left. exists [b1], (b2n b1), r1. rewrite decode_remaining_length_ok.
    assert (varint [b1] (b2n b1)) by now constructor.
    split; [exists [b1]|]; repeat split; auto; cbn; lia. }
  destruct r1 as [|b2 r2].
  { right; right. unfold decode_remaining_length. rewrite drl_step by lia.
    destruct (N.ltb_spec (b2n b1) 128); [lia|]. rewrite drl_step_nil. eexists; repeat split; [cbn; lia|]; repeat constructor; auto. }
  destruct (N.lt_ge_cases (b2n b2) 128) as [H2|H2].
  { left. assert (HV : varint [b1; b2] (b2n b1 - 128 + 128 * b2n b2)) by (repeat constructor; auto).
    eexists [b1; b2], _, r2. rewrite decode_remaining_length_ok.
    split; [exists [b1; b2]|]; repeat split; eauto; cbn; lia. }
  destruct r2 as [|b3 r3].
  { right; right. unfold decode_remaining_length. rewrite drl_step by lia.
    destruct (N.ltb_spec (b2n b1) 128); [lia|]. rewrite drl_step by lia.
    destruct (N.ltb_spec (b2n b2) 128); [lia|]. rewrite drl_step_nil. eexists; repeat split; [cbn; lia|]; repeat constructor; auto. }
  destruct (N.lt_ge_cases (b2n b3) 128) as [H3|H3].
  { left. assert (HV : varint [b1; b2; b3] (b2n b1 - 128 + 128 * (b2n b2 - 128 + 128 * b2n b3)))
      by (repeat constructor; auto).
    eexists [b1; b2; b3], _, r3. rewrite decode_remaining_length_ok.
    split; [exists [b1; b2; b3]|]; repeat split; eauto; cbn; lia. }
  destruct r3 as [|b4 r4].
  { right; right. unfold decode_remaining_length. rewrite drl_step by lia.
    destruct (N.ltb_spec (b2n b1) 128); [lia|]. rewrite drl_step by lia.
    destruct (N.ltb_spec (b2n b2) 128); [lia|]. rewrite drl_step by lia.
    destruct (N.ltb_spec (b2n b3) 128); [lia|]. rewrite drl_step_nil.
    eexists; repeat split; [cbn; lia|]; repeat constructor; auto. }
  right; left. exists b1, b2, b3, b4, r4. repeat split; auto.
  unfold decode_remaining_length. rewrite drl_step by lia.
  destruct (N.ltb_spec (b2n b1) 128); [lia|]. rewrite drl_step by lia.
  destruct (N.ltb_spec (b2n b2) 128); [lia|]. rewrite drl_step by lia.
  destruct (N.ltb_spec (b2n b3) 128); [lia|]. apply drl_step_err. lia.
Qed.

(** ** Dispatch *)

Definition dispatch (fuel : nat) (dbg : bool) (first_byte remaining_length : N) : rd ControlPacket :=
  let packet_type := N.shiftr first_byte 4 in
  if packet_type =? PACKET_TYPE_CONNECT then decode_connect first_byte remaining_length
  else if packet_type =? PACKET_TYPE_PUBLISH then decode_publish dbg first_byte remaining_length
  else if packet_type =? PACKET_TYPE_PUB_ACK then decode_pub_ack first_byte remaining_length
  else if packet_type =? PACKET_TYPE_PUB_REC then decode_pub_rec first_byte remaining_length
  else if packet_type =? PACKET_TYPE_PUB_REL then decode_pub_rel first_byte remaining_length
  else if packet_type =? PACKET_TYPE_PUB_COMP then decode_pub_comp first_byte remaining_length
  else if packet_type =? PACKET_TYPE_SUBSCRIBE then
    decode_subscribe fuel dbg first_byte remaining_length
  else if packet_type =? PACKET_TYPE_UNSUBSCRIBE then
    decode_unsubscribe fuel dbg first_byte remaining_length
  else if packet_type =? PACKET_TYPE_PING_REQ then Ret PingReq
  else if packet_type =? PACKET_TYPE_DISCONNECT then Ret Disconnect
  else Boom.

Lemma read_packet_dispatch fuel dbg :
  read_packet fuel dbg
  = bind get_u8 (fun b => bind decode_remaining_length (fun rl => dispatch fuel dbg (b2n b) rl)).
Proof. reflexivity. Qed.

Lemma plain_read_packet fuel dbg b h n r : varint h n -> (length h <= 3)%nat ->
  plain (read_packet fuel dbg) (b :: h ++ r) = plain (dispatch fuel dbg (b2n b) n) r.
Proof.
  intros Hv Hl. rewrite read_packet_dispatch, plain_bind, plain_get_u8. cbn [pbind].
  rewrite plain_bind.
  assert (E : plain decode_remaining_length (h ++ r) = POk n r)
    by (apply decode_remaining_length_ok; eauto).
  now rewrite E.
Qed.

(** ** Connect *)

Definition opt_string (c : bool) : rd (option bytes) :=
  if c then s <- get_string ;; Ret (Some s) else Ret None.

Lemma opt_string_ok c bs o r :
  plain (opt_string c) bs = POk o r <->
  bs = opt_field o ++ r /\ is_some o = c
  /\ match o with Some s => fits16 s /\ utf8_ok s = true | None => True end.
Proof.
  unfold opt_string, fits16. destruct c.
  - rewrite plain_bind. split.
    + destruct (plain get_string bs) as [s t| | | |] eqn:E; try discriminate. cbn.
      intros H. injection H as <- <-. apply get_string_ok in E. destruct E as (-> & ? & ?). auto.
    + intros (-> & Ho & Hs). destruct o as [s|]; [|discriminate]. cbn [opt_field].
      assert (E : plain get_string (field s ++ r) = POk s r) by (apply get_string_ok; tauto).
      rewrite E. reflexivity.
  - cbn. split.
    + intros H. injection H as <- <-. auto.
    + intros (-> & Ho & _). destruct o; [discriminate|reflexivity].
Qed.

(** The bytes CONNECT decoding consumes after the fixed header. *)
Inductive connect_reads : bytes -> ConnectPacket -> Prop :=
| connect_reads_intro name level flags c :
    utf8_ok name = true -> fits16 name ->
    utf8_ok (client_id c) = true -> fits16 (client_id c) ->
    keep_alive_seconds c < 65536 ->
    version c = Mqtt3 -> will_message c = None ->
    clean_session c = N.odd (b2n flags / 2) ->
    is_some (user_name c) = N.odd (b2n flags / 128) ->
    is_some (password c) = N.odd (b2n flags / 64) ->
    match user_name c with Some s => fits16 s /\ utf8_ok s = true | None => True end ->
    match password c with Some s => fits16 s /\ utf8_ok s = true | None => True end ->
    connect_reads
      (field name ++ [level; flags] ++ be16 (keep_alive_seconds c) ++ field (client_id c)
       ++ opt_field (user_name c) ++ opt_field (password c)) c.

Lemma decode_connect_ok fb rl bs p r :
  plain (decode_connect fb rl) bs = POk p r <->
  exists c u, p = Connect c /\ bs = u ++ r /\ connect_reads u c.
Proof.
  assert (HD : decode_connect fb rl =
    (_protocol_name <- get_string ;;
     _protocol_level <- get_u8 ;;
     connect_flags_byte <- get_u8 ;;
     keep_alive <- get_u16 ;;
     cid <- get_string ;;
     user <- opt_string (flag_set (b2n connect_flags_byte) 128) ;;
     pass <- opt_string (flag_set (b2n connect_flags_byte) 64) ;;
     Ret (Connect (ConnectPacket_new Mqtt3 cid keep_alive
        (flag_set (b2n connect_flags_byte) 2) None user pass)))) by reflexivity.
  rewrite HD. clear HD.
  split.
  - intros H. rewrite plain_bind in H.
    destruct (plain get_string bs) as [name t1| | | |] eqn:E1; try discriminate. cbn [pbind] in H.
    rewrite plain_bind, plain_get_u8 in H. destruct t1 as [|level t2]; [discriminate|]. cbn [pbind] in H.
    rewrite plain_bind, plain_get_u8 in H. destruct t2 as [|flags t3]; [discriminate|]. cbn [pbind] in H.
    rewrite plain_bind in H.
    destruct (plain get_u16 t3) as [ka t4| | | |] eqn:E4; try discriminate. cbn [pbind] in H.
    rewrite plain_bind in H.
    destruct (plain get_string t4) as [cid t5| | | |] eqn:E5; try discriminate. cbn [pbind] in H.
    rewrite plain_bind in H.
    destruct (plain (opt_string (flag_set (b2n flags) 128)) t5) as [user t6| | | |] eqn:E6; try discriminate.
    cbn [pbind] in H. rewrite plain_bind in H.
    destruct (plain (opt_string (flag_set (b2n flags) 64)) t6) as [pass t7| | | |] eqn:E7; try discriminate.
    cbn [pbind plain] in H. injection H as <- <-.
    apply get_string_ok in E1. destruct E1 as (-> & L1 & U1).
    apply get_u16_ok in E4. destruct E4 as (-> & L4).
    apply get_string_ok in E5. destruct E5 as (-> & L5 & U5).
    apply opt_string_ok in E6. destruct E6 as (-> & S6 & U6).
    apply opt_string_ok in E7. destruct E7 as (-> & S7 & U7).
    change 128 with (2 ^ 7) in S6. rewrite flag_bit in S6 by (cbn; tauto).
    change 64 with (2 ^ 6) in S7. rewrite flag_bit in S7 by (cbn; tauto).
    change (flag_set (b2n flags) 2) with (flag_set (b2n flags) (2 ^ 1)).
    rewrite flag_bit by (cbn; tauto).
    set (c := ConnectPacket_new Mqtt3 cid ka (N.odd (b2n flags / 2 ^ 1)) None user pass).
    exists c, (field name ++ [level; flags] ++ be16 ka ++ field cid ++ opt_field user ++ opt_field pass).
    split; [reflexivity|]. split.
    { cbn [app]. repeat rewrite <- app_assoc. cbn [app]. repeat rewrite <- app_assoc. reflexivity. }
    apply (connect_reads_intro name level flags c); auto.
  - intros (c & u & -> & -> & HR). destruct HR as [name level flags c U1 L1 U5 L5 L4 HV HW HC S6 S7 U6 U7].
    repeat rewrite <- app_assoc.
    rewrite plain_bind.
    set (t1 := [level; flags] ++ _).
    assert (E1 : plain get_string (field name ++ t1) = POk name t1) by (apply get_string_ok; auto).
    rewrite E1. unfold t1. cbn [pbind app].
    rewrite plain_bind, plain_get_u8. cbn [pbind]. rewrite plain_bind, plain_get_u8. cbn [pbind].
    rewrite plain_bind. repeat rewrite <- app_assoc.
    set (t4 := field _ ++ _).
    assert (E4 : plain get_u16 (be16 (keep_alive_seconds c) ++ t4) = POk (keep_alive_seconds c) t4)
      by (apply get_u16_ok; auto).
    rewrite E4. unfold t4. cbn [pbind]. rewrite plain_bind.
    set (t5 := opt_field _ ++ _).
    assert (E5 : plain get_string (field (client_id c) ++ t5) = POk (client_id c) t5)
      by (apply get_string_ok; auto).
    rewrite E5. unfold t5. cbn [pbind]. rewrite plain_bind.
    set (t6 := opt_field (password c) ++ _).
    change 128 with (2 ^ 7). change 64 with (2 ^ 6).
    change (flag_set (b2n flags) 2) with (flag_set (b2n flags) (2 ^ 1)).
    rewrite !flag_bit by (cbn; tauto).
    assert (E6 : plain (opt_string (N.odd (b2n flags / 2 ^ 7))) (opt_field (user_name c) ++ t6)
                 = POk (user_name c) t6) by (apply opt_string_ok; auto).
    rewrite E6. unfold t6. cbn [pbind]. rewrite plain_bind.
    assert (E7 : plain (opt_string (N.odd (b2n flags / 2 ^ 6))) (opt_field (password c) ++ r)
                 = POk (password c) r) by (apply opt_string_ok; auto).
    rewrite E7. cbn [pbind plain]. f_equal. f_equal.
    destruct c as [v ci ka cs wm un pw]; cbn in *. subst. reflexivity.
Qed.

(** ** Publish *)

Lemma odd_bit0 b : flag_set (b2n b) 1 = N.odd (b2n b).
Proof. destruct b; reflexivity. Qed.
Lemma odd_bit3 b : flag_set (b2n b) 8 = N.odd (b2n b / 8).
Proof. destruct b; reflexivity. Qed.
Lemma qos_field b : N.shiftr (N.land (b2n b) 6) 1 = b2n b / 2 mod 4.
Proof. destruct b; reflexivity. Qed.

Definition opt_id (q : QoS) (pid : option N) : Prop :=
  match q, pid with
  | AtMostOnce, None => True
  | AtMostOnce, Some _ => False
  | _, Some i => i < 65536
  | _, None => False
  end.

Definition id_bytes (pid : option N) : bytes := match pid with Some i => be16 i | None => [] end.

Lemma sub64_wrap_big a b : a < b -> b < 2 ^ 60 -> a + 2 ^ 64 - b > 2 ^ 63 + 2 ^ 62.
Proof. lia. Qed.

Inductive publish_reads (first rl : N) : bytes -> PublishPacket -> Prop :=
| publish_reads_intro p :
    first / 2 mod 4 = qos_num (qos (message p)) ->
    dup p = N.odd (first / 8) -> retain (message p) = N.odd first ->
    utf8_ok (topic (message p)) = true -> fits16 (topic (message p)) ->
    opt_id (qos (message p)) (pub_packet_id p) ->
    rl = lenN (packet_body (Publish p)) ->
    publish_reads first rl (packet_body (Publish p)) p.

Lemma QoS_from_bits_cases n :
  (exists q, QoS_from_bits n = Ret q /\ n = qos_num q) \/ (QoS_from_bits n = Boom /\ 3 <= n).
Proof.
  unfold QoS_from_bits.
  destruct (N.eqb_spec n 0) as [->|]; [left; now exists AtMostOnce|].
  destruct (N.eqb_spec n 1) as [->|]; [left; now exists AtLeastOnce|].
  destruct (N.eqb_spec n 2) as [->|]; [left; now exists ExactlyOnce|].
  right. split; [reflexivity|lia].
Qed.

Lemma QoS_from_bits_num q : QoS_from_bits (qos_num q) = Ret q.
Proof. destruct q; reflexivity. Qed.

Lemma opt_id_len q pid : opt_id q pid -> lenN (id_bytes pid) = if qos_gt0 q then 2 else 0.
Proof. destruct q, pid; cbn; try tauto; reflexivity. Qed.

Lemma decode_publish_ok dbg b rl bs p r : rl < 2097152 ->
  plain (decode_publish dbg (b2n b) rl) bs = POk p r <->
  exists pp u, p = Publish pp /\ bs = u ++ r /\ publish_reads (b2n b) rl u pp.
Proof.
  intros Hrl. unfold decode_publish. rewrite odd_bit0, odd_bit3, qos_field. split.
  - intros H.
    destruct (QoS_from_bits_cases (b2n b / 2 mod 4)) as [(q & Eq & Hq)|(Eq & _)];
      rewrite Eq in H; cbn [bind] in H; [|discriminate].
    rewrite plain_bind in H.
    destruct (plain get_string bs) as [t t1| | | |] eqn:E1; try discriminate. cbn [pbind] in H.
    apply get_string_ok in E1. destruct E1 as (-> & L1 & U1).
    assert (Hbig : forall n (k : bytes -> rd ControlPacket) bs' x, 2 ^ 63 + 2 ^ 61 < n ->
              plain (GetBytes n k) bs' = POk x r -> False).
    { intros n k bs' x Hn HX. cbn -[isize_max] in HX.
      replace (isize_max <? n) with true in HX; [discriminate|].
      symmetry. apply N.ltb_lt. unfold isize_max. lia. }
    destruct (sub64_cases dbg rl (lenN t)) as [(G1 & ES)|[(G1 & _ & ES)|(G1 & _ & ES)]];
      rewrite ES in H; cbn [bind] in H; try discriminate.
    2:{ exfalso. clear ES.
        destruct (sub64_cases dbg (rl + 2 ^ 64 - lenN t) 2) as [(G2 & ES)|[(G2 & _ & ES)|(G2 & _ & ES)]];
          rewrite ES in H; cbn [bind] in H; try discriminate; [|lia].
        destruct q; cbn [qos_gt0 bind] in H.
        - eapply Hbig; [|exact H]; lia.
        - destruct (sub64_cases dbg (rl + 2 ^ 64 - lenN t - 2) 2) as [(G3 & ES3)|[(G3 & _ & ES3)|(G3 & _ & ES3)]];
            rewrite ES3 in H; cbn [bind] in H; try discriminate; [|lia].
          unfold get_u16 in H. cbn [bind] in H.
          destruct t1 as [|x1 [|x2 t1]]; try discriminate. cbn [plain] in H.
          eapply Hbig; [|exact H]; lia.
        - destruct (sub64_cases dbg (rl + 2 ^ 64 - lenN t - 2) 2) as [(G3 & ES3)|[(G3 & _ & ES3)|(G3 & _ & ES3)]];
            rewrite ES3 in H; cbn [bind] in H; try discriminate; [|lia].
          unfold get_u16 in H. cbn [bind] in H.
          destruct t1 as [|x1 [|x2 t1]]; try discriminate. cbn [plain] in H.
          eapply Hbig; [|exact H]; lia. }
    clear ES.
    destruct (sub64_cases dbg (rl - lenN t) 2) as [(G2 & ES)|[(G2 & _ & ES)|(G2 & _ & ES)]];
      rewrite ES in H; cbn [bind] in H; try discriminate; clear ES.
    2:{ exfalso. destruct q; cbn [qos_gt0 bind] in H.
        - eapply Hbig; [|exact H]; lia.
        - destruct (sub64_cases dbg (rl - lenN t + 2 ^ 64 - 2) 2) as [(G3 & ES3)|[(G3 & _ & ES3)|(G3 & _ & ES3)]];
            rewrite ES3 in H; cbn [bind] in H; try discriminate; [|lia].
          unfold get_u16 in H. cbn [bind] in H.
          destruct t1 as [|x1 [|x2 t1]]; try discriminate. cbn [plain] in H.
          eapply Hbig; [|exact H]; lia.
        - destruct (sub64_cases dbg (rl - lenN t + 2 ^ 64 - 2) 2) as [(G3 & ES3)|[(G3 & _ & ES3)|(G3 & _ & ES3)]];
            rewrite ES3 in H; cbn [bind] in H; try discriminate; [|lia].
          unfold get_u16 in H. cbn [bind] in H.
          destruct t1 as [|x1 [|x2 t1]]; try discriminate. cbn [plain] in H.
          eapply Hbig; [|exact H]; lia. }
    assert (HM : exists pid t2 rl', t1 = id_bytes pid ++ t2 /\ opt_id q pid
              /\ rl = lenN t + 2 + lenN (id_bytes pid) + rl'
              /\ plain (GetBytes rl' (fun body => Ret (Publish
                   (PublishPacket_new t body q (N.odd (b2n b)) pid (N.odd (b2n b / 8)))))) t2 = POk p r).
    { destruct (qos_gt0 q) eqn:Egt.
      - destruct (sub64_cases dbg (rl - lenN t - 2) 2) as [(G3 & ES3)|[(G3 & _ & ES3)|(G3 & _ & ES3)]];
          rewrite ES3 in H; cbn [bind] in H; try discriminate.
        + unfold get_u16 in H. cbn [bind] in H.
          destruct t1 as [|x1 [|x2 t1]]; try discriminate. cbn [plain] in H.
          exists (Some (b2n x1 * 256 + b2n x2)), t1, (rl - lenN t - 2 - 2).
          pose proof (b2n_lt x1). pose proof (b2n_lt x2).
          cbn [id_bytes]. rewrite be16_inv. split; [reflexivity|].
          split; [destruct q; try discriminate; cbn; lia|]. split; [change (lenN [x1; x2]) with 2; lia|exact H].
        + exfalso. unfold get_u16 in H. cbn [bind] in H.
          destruct t1 as [|x1 [|x2 t1]]; try discriminate. cbn [plain] in H.
          eapply Hbig; [|exact H]; lia.
      - exists None, t1, (rl - lenN t - 2). cbn [bind] in H.
        split; [reflexivity|]. split; [destruct q; try discriminate; exact I|].
        split; [change (lenN (id_bytes None)) with 0; lia|]. exact H. }
    clear H. destruct HM as (pid & t2 & rl' & -> & HI & HR & H).
    cbn -[isize_max] in H. rewrite isize_max_big in H by lia.
    destruct (N.ltb_spec (lenN t2) rl') as [|Hl]; [discriminate|].
    injection H as <- <-.
    set (pp := PublishPacket_new t (takeN rl' t2) q (N.odd (b2n b)) pid (N.odd (b2n b / 8))).
    exists pp, (packet_body (Publish pp)). split; [reflexivity|]. split.
    + cbn [packet_body]. rewrite <- !app_assoc. cbn [pp PublishPacket_new message topic payload pub_packet_id].
      fold (id_bytes pid). now rewrite takeN_dropN.
    + constructor; auto. cbn [packet_body pp PublishPacket_new message topic payload pub_packet_id].
      fold (id_bytes pid). rewrite !lenN_app, lenN_field, lenN_takeN. lia.
  - intros (pp & u & -> & -> & HR). destruct HR as [pp Hq Hd Hr U1 L1 HI Hlen].
    rewrite Hq, QoS_from_bits_num. cbn [bind].
    cbn [packet_body]. fold (id_bytes (pub_packet_id pp)).
    cbn [packet_body] in Hlen. fold (id_bytes (pub_packet_id pp)) in Hlen.
    rewrite !lenN_app, lenN_field in Hlen. pose proof (opt_id_len _ _ HI) as HL.
    rewrite <- !app_assoc. rewrite plain_bind.
    set (t1 := id_bytes _ ++ _).
    assert (E1 : plain get_string (field (topic (message pp)) ++ t1) = POk (topic (message pp)) t1)
      by (apply get_string_ok; auto).
    rewrite E1. cbn [pbind]. unfold t1; clear E1 t1.
    set (t := topic (message pp)) in *.
    destruct (sub64_cases dbg rl (lenN t)) as [(G1 & ES)|[(G1 & _ & ES)|(G1 & _ & ES)]];
      rewrite ES; cbn [bind]; try lia. clear ES.
    destruct (sub64_cases dbg (rl - lenN t) 2) as [(G2 & ES)|[(G2 & _ & ES)|(G2 & _ & ES)]];
      rewrite ES; cbn [bind]; try lia. clear ES.
    assert (HF : Publish pp = Publish (PublishPacket_new t (payload (message pp)) (qos (message pp))
                    (N.odd (b2n b)) (pub_packet_id pp) (N.odd (b2n b / 8)))).
    { rewrite <- Hd, <- Hr. destruct pp as [i d [a1 a2 a3 a4]]. reflexivity. }
    assert (HB : forall k, k = lenN (payload (message pp)) ->
       plain (GetBytes k (fun body => Ret (Publish (PublishPacket_new t body (qos (message pp))
                    (N.odd (b2n b)) (pub_packet_id pp) (N.odd (b2n b / 8))))))
         (payload (message pp) ++ r) = POk (Publish pp) r).
    { intros k ->. cbn -[isize_max]. rewrite isize_max_big by lia.
      rewrite lenN_app. destruct (N.ltb_spec (lenN (payload (message pp)) + lenN r) (lenN (payload (message pp)))); [lia|].
      rewrite takeN_lenN_app, dropN_lenN_app. f_equal. now symmetry. }
    destruct (qos (message pp)) eqn:Eqos, (pub_packet_id pp) as [i|] eqn:Epid; cbn in HI; try tauto;
      cbn [qos_gt0 id_bytes app bind].
    + apply HB. change (lenN (id_bytes None)) with 0 in *. lia.
    + change (lenN (id_bytes (Some i))) with 2 in *.
      destruct (sub64_cases dbg (rl - lenN t - 2) 2) as [(G3 & ES)|[(G3 & _ & ES)|(G3 & _ & ES)]];
        rewrite ES; cbn [bind]; try lia.
      unfold get_u16; cbn [bind be16 app plain]. rewrite be16_val by exact HI. apply HB. lia.
    + change (lenN (id_bytes (Some i))) with 2 in *.
      destruct (sub64_cases dbg (rl - lenN t - 2) 2) as [(G3 & ES)|[(G3 & _ & ES)|(G3 & _ & ES)]];
        rewrite ES; cbn [bind]; try lia.
      unfold get_u16; cbn [bind be16 app plain]. rewrite be16_val by exact HI. apply HB. lia.
Qed.

(** ** Packets with only an id *)

Lemma with_id_ok b fb bs i r :
  plain (decode_packet_with_packet_id (b2n b) fb) bs = POk i r <->
  b2n b = fb /\ bs = be16 i ++ r /\ i < 65536.
Proof.
  unfold decode_packet_with_packet_id, validate_first_byte.
  destruct (N.eqb_spec (b2n b) fb) as [E|E]; cbn [bind].
  - rewrite get_u16_ok. tauto.
  - cbn. split; [discriminate|tauto].
Qed.

Lemma map_ok {A B} (m : rd A) (f : A -> B) bs p r :
  plain (x <- m ;; Ret (f x)) bs = POk p r <-> exists x, p = f x /\ plain m bs = POk x r.
Proof.
  rewrite plain_bind. destruct (plain m bs) as [x t| | | |]; cbn; split;
    try discriminate; try (intros (? & ? & ?); congruence).
  intros H. injection H as <- <-. eauto.
Qed.

(** ** Subscribe *)

Definition sub_size (subs : list Subscription) : N := lenN (flat_map sub_entry subs).

Definition sub_ok (s : Subscription) : Prop := utf8_ok (sub_topic s) = true /\ fits16 (sub_topic s).

Lemma lenN_sub_entry s : lenN (sub_entry s) = lenN (sub_topic s) + 3.
Proof. unfold sub_entry. rewrite lenN_app, lenN_field, lenN_cons, lenN_nil. lia. Qed.

Lemma sub_size_cons s subs : sub_size (s :: subs) = lenN (sub_topic s) + 3 + sub_size subs.
Proof. unfold sub_size. cbn [flat_map]. now rewrite lenN_app, lenN_sub_entry. Qed.

(** Success: the entries read add up to the declared length, exactly unless a release build
    wrapped around 2^64. *)
Lemma sub_loop_inv dbg fuel : forall rl acc bs subs r,
  plain (decode_subscribe_loop fuel dbg rl acc) bs = POk subs r -> rl < 2 ^ 64 ->
  exists new, subs = acc ++ new /\ bs = flat_map sub_entry new ++ r /\ Forall sub_ok new
    /\ (rl = sub_size new \/ (dbg = false /\ 2 ^ 64 <= sub_size new)).
Proof.
  induction fuel as [|fuel IH]; intros rl acc bs subs r H Hrl; [discriminate|].
  cbn [decode_subscribe_loop] in H. destruct (N.ltb_spec 0 rl) as [Hpos|Hz].
  2:{ cbn in H. injection H as <- <-. exists []. rewrite app_nil_r. repeat split; auto. left. change (sub_size []) with 0. lia. }
  rewrite plain_bind in H.
  destruct (plain get_string bs) as [t t1| | | |] eqn:E1; try discriminate. cbn [pbind] in H.
  apply get_string_ok in E1. destruct E1 as (-> & L1 & U1).
  rewrite plain_bind, plain_get_u8 in H. destruct t1 as [|q t2]; [discriminate|]. cbn [pbind] in H.
  destruct (N.ltb_spec 2 (b2n q)) as [|Hq]; [discriminate|].
  destruct (QoS_from_bits_cases (b2n q)) as [(qs & Eq & Hqs)|(_ & ?)]; [|lia].
  rewrite Eq in H.
  assert (HE : sub_entry {| sub_topic := t; sub_qos := qs |} = field t ++ [q]).
  { unfold sub_entry. cbn [sub_topic sub_qos]. now rewrite <- Hqs, n2b_b2n. }
  destruct (sub64_cases dbg rl (lenN t + 3)) as [(G1 & ES)|[(G1 & _ & ES)|(G1 & Hd & ES)]];
    rewrite ES in H; cbn [bind] in H; try discriminate; apply IH in H; try lia.
  - destruct H as (new & -> & -> & Hnew & HS).
    exists ({| sub_topic := t; sub_qos := qs |} :: new). rewrite <- app_assoc. split; [reflexivity|].
    split.
    { cbn [flat_map]. rewrite HE, <- !app_assoc. reflexivity. }
    split; [constructor; [split; auto|exact Hnew]|].
    rewrite sub_size_cons. cbn [sub_topic]. destruct HS as [HS|(-> & HS)]; [left; lia|right; split; [reflexivity|lia]].
  - destruct H as (new & -> & -> & Hnew & HS).
    exists ({| sub_topic := t; sub_qos := qs |} :: new). rewrite <- app_assoc. split; [reflexivity|].
    split.
    { cbn [flat_map]. rewrite HE, <- !app_assoc. reflexivity. }
    split; [constructor; [split; auto|exact Hnew]|].
    rewrite sub_size_cons. cbn [sub_topic]. right. split; [exact Hd|]. destruct HS as [HS|(_ & HS)]; lia.
Qed.

Lemma sub_loop_ok dbg new : forall fuel acc r, (length new < fuel)%nat -> Forall sub_ok new ->
  plain (decode_subscribe_loop fuel dbg (sub_size new) acc) (flat_map sub_entry new ++ r)
  = POk (acc ++ new) r.
Proof.
  induction new as [|s new IH]; intros fuel acc r Hf Hok.
  - destruct fuel; [cbn in Hf; lia|]. cbn. now rewrite app_nil_r.
  - destruct fuel as [|fuel]; [cbn in Hf; lia|]. inversion Hok as [|? ? [U1 L1] Hok']; subst.
    cbn [decode_subscribe_loop]. rewrite sub_size_cons.
    destruct (N.ltb_spec 0 (lenN (sub_topic s) + 3 + sub_size new)); [|lia].
    cbn [flat_map]. unfold sub_entry at 1. rewrite <- !app_assoc. rewrite plain_bind.
    set (t1 := [_] ++ _).
    assert (E1 : plain get_string (field (sub_topic s) ++ t1) = POk (sub_topic s) t1)
      by (apply get_string_ok; auto).
    rewrite E1. unfold t1. cbn [pbind app]. rewrite plain_bind, plain_get_u8. cbn [pbind].
    assert (Hq : qos_num (sub_qos s) <= 2) by (destruct (sub_qos s); cbn; lia).
    rewrite b2n_n2b by lia.
    destruct (N.ltb_spec 2 (qos_num (sub_qos s))); [lia|].
    destruct (sub64_cases dbg (lenN (sub_topic s) + 3 + sub_size new) (lenN (sub_topic s) + 3))
      as [(G1 & ES)|[(G1 & _ & ES)|(G1 & _ & ES)]]; rewrite ES; cbn [bind]; try lia.
    rewrite QoS_from_bits_num. cbn [bind].
    replace (lenN (sub_topic s) + 3 + sub_size new - (lenN (sub_topic s) + 3)) with (sub_size new) by lia.
    rewrite IH; [|cbn in Hf; lia|exact Hok']. rewrite <- app_assoc. cbn [app].
    destruct s; reflexivity.
Qed.

Lemma sub_entries_length subs : (length subs <= length (flat_map sub_entry subs))%nat.
Proof.
  induction subs as [|s subs IH]; [auto|]. cbn [flat_map length]. rewrite app_length.
  pose proof (lenN_sub_entry s). unfold lenN in *. lia.
Qed.

Lemma decode_subscribe_ok fuel dbg b rl bs p r :
  (length bs < fuel)%nat -> lenN bs < 2 ^ 64 -> rl < 2097152 ->
  plain (decode_subscribe fuel dbg (b2n b) rl) bs = POk p r <->
  exists i subs, p = Subscribe i subs /\ b2n b = 0x82 /\ i < 65536 /\ subs <> [] /\ Forall sub_ok subs
    /\ bs = packet_body p ++ r /\ rl = lenN (packet_body p).
Proof.
  intros Hf Hbs Hrl. unfold decode_subscribe. rewrite plain_bind. split.
  - destruct (plain (decode_packet_with_packet_id (b2n b) 130) bs) as [i t| | | |] eqn:E1; try discriminate.
    apply with_id_ok in E1. destruct E1 as (Hb & -> & Hi). cbn [pbind]. intros H.
    assert (HS : exists rl', sub64 dbg rl 2 = Ret rl' /\ rl' < 2 ^ 64 /\ (rl = 2 + rl' \/ 2 ^ 64 <= 2 + rl')).
    { destruct (sub64_cases dbg rl 2) as [(G1 & ES)|[(G1 & _ & ES)|(G1 & _ & ES)]].
      - exists (rl - 2). split; [exact ES|]. split; lia.
      - rewrite ES in H. discriminate.
      - eexists. split; [exact ES|]. split; lia. }
    destruct HS as (rl' & ES & HB & HS). rewrite ES in H. cbn [bind] in H. clear ES.
    destruct (N.eqb_spec rl' 0) as [|Hnz]; [discriminate|].
    apply map_ok in H. destruct H as (subs & -> & H).
    apply sub_loop_inv in H; [|exact HB]. destruct H as (new & -> & -> & Hnew & HR). cbn [app].
    assert (Hsz : sub_size new < 2 ^ 64).
    { rewrite !lenN_app in Hbs. unfold sub_size. lia. }
    destruct HR as [HR|(_ & HR)]; [|lia].
    assert (Hrr : rl = 2 + rl').
    { destruct HS as [HS|HS]; [exact HS|]. exfalso.
      rewrite !lenN_app in Hbs. fold (sub_size new) in Hbs. change (lenN (be16 i)) with 2 in Hbs. lia. }
    exists i, new. split; [reflexivity|]. split; [exact Hb|]. split; [exact Hi|].
    split. { intros ->. change (sub_size []) with 0 in HR. lia. }
    split; [exact Hnew|]. cbn [packet_body]. rewrite <- app_assoc. split; [reflexivity|].
    rewrite lenN_app. fold (sub_size new). change (lenN (be16 i)) with 2. lia.
  - intros (i & subs & -> & Hb & Hi & Hne & Hok & -> & ->).
    cbn [packet_body] in *. rewrite <- app_assoc.
    assert (E1 : plain (decode_packet_with_packet_id (b2n b) 130) (be16 i ++ flat_map sub_entry subs ++ r)
                 = POk i (flat_map sub_entry subs ++ r)) by (apply with_id_ok; auto).
    rewrite E1. cbn [pbind]. rewrite lenN_app. fold (sub_size subs). change (lenN (be16 i)) with 2.
    destruct (sub64_cases dbg (2 + sub_size subs) 2) as [(G1 & ES)|[(G1 & _ & ES)|(G1 & _ & ES)]];
      rewrite ES; cbn [bind]; try lia.
    replace (2 + sub_size subs - 2) with (sub_size subs) by lia.
    destruct (N.eqb_spec (sub_size subs) 0) as [E0|_].
    { destruct subs; [congruence|]. rewrite sub_size_cons in E0. lia. }
    apply map_ok. exists subs. split; [reflexivity|].
    rewrite sub_loop_ok; [reflexivity| |exact Hok].
    rewrite !app_length in Hf. pose proof (sub_entries_length subs). lia.
Qed.

(** ** Unsubscribe *)

Definition unsub_size (ts : list bytes) : N := lenN (flat_map field ts).

Definition str_ok (s : bytes) : Prop := utf8_ok s = true /\ fits16 s.

Lemma unsub_size_cons t ts : unsub_size (t :: ts) = lenN t + 2 + unsub_size ts.
Proof. unfold unsub_size. cbn [flat_map]. rewrite lenN_app, lenN_field. lia. Qed.

Lemma unsub_loop_inv dbg fuel : forall rl acc bs ts r,
  plain (decode_unsubscribe_loop fuel dbg rl acc) bs = POk ts r -> rl < 2 ^ 64 ->
  exists new, ts = acc ++ new /\ bs = flat_map field new ++ r /\ Forall str_ok new
    /\ (rl = unsub_size new \/ (dbg = false /\ 2 ^ 64 <= unsub_size new)).
Proof.
  induction fuel as [|fuel IH]; intros rl acc bs ts r H Hrl; [discriminate|].
  cbn [decode_unsubscribe_loop] in H. destruct (N.ltb_spec 0 rl) as [Hpos|Hz].
  2:{ cbn in H. injection H as <- <-. exists []. rewrite app_nil_r. repeat split; auto.
      left. change (unsub_size []) with 0. lia. }
  rewrite plain_bind in H.
  destruct (plain get_string bs) as [t t1| | | |] eqn:E1; try discriminate. cbn [pbind] in H.
  apply get_string_ok in E1. destruct E1 as (-> & L1 & U1).
  destruct (sub64_cases dbg rl (lenN t + 2)) as [(G1 & ES)|[(G1 & _ & ES)|(G1 & Hd & ES)]];
    rewrite ES in H; cbn [bind] in H; try discriminate; apply IH in H; try lia;
    destruct H as (new & -> & -> & Hnew & HS);
    exists (t :: new); (split; [now rewrite <- app_assoc|]);
    (split; [cbn [flat_map]; now rewrite <- app_assoc|]);
    (split; [constructor; [split; auto|exact Hnew]|]);
    rewrite unsub_size_cons.
  - destruct HS as [HS|(-> & HS)]; [left; lia|right; split; [reflexivity|lia]].
  - right. split; [exact Hd|]. destruct HS as [HS|(_ & HS)]; lia.
Qed.

Lemma unsub_loop_ok dbg new : forall fuel acc r, (length new < fuel)%nat -> Forall str_ok new ->
  plain (decode_unsubscribe_loop fuel dbg (unsub_size new) acc) (flat_map field new ++ r)
  = POk (acc ++ new) r.
Proof.
  induction new as [|s new IH]; intros fuel acc r Hf Hok.
  - destruct fuel; [cbn in Hf; lia|]. cbn. now rewrite app_nil_r.
  - destruct fuel as [|fuel]; [cbn in Hf; lia|]. inversion Hok as [|? ? [U1 L1] Hok']; subst.
    cbn [decode_unsubscribe_loop]. rewrite unsub_size_cons.
    destruct (N.ltb_spec 0 (lenN s + 2 + unsub_size new)); [|lia].
    cbn [flat_map]. rewrite <- !app_assoc. rewrite plain_bind.
    set (t1 := flat_map field new ++ r).
    assert (E1 : plain get_string (field s ++ t1) = POk s t1) by (apply get_string_ok; auto).
    rewrite E1. unfold t1. cbn [pbind].
    destruct (sub64_cases dbg (lenN s + 2 + unsub_size new) (lenN s + 2))
      as [(G1 & ES)|[(G1 & _ & ES)|(G1 & _ & ES)]]; rewrite ES; cbn [bind]; try lia.
    replace (lenN s + 2 + unsub_size new - (lenN s + 2)) with (unsub_size new) by lia.
    rewrite IH; [|cbn in Hf; lia|exact Hok']. now rewrite <- app_assoc.
Qed.

Lemma fields_length ts : (length ts <= length (flat_map field ts))%nat.
Proof.
  induction ts as [|s ts IH]; [auto|]. cbn [flat_map length]. rewrite app_length.
  pose proof (lenN_field s). unfold lenN in *. lia.
Qed.

Lemma decode_unsubscribe_ok fuel dbg b rl bs p r :
  (length bs < fuel)%nat -> lenN bs < 2 ^ 64 -> rl < 2097152 ->
  plain (decode_unsubscribe fuel dbg (b2n b) rl) bs = POk p r <->
  exists i ts, p = Unsubscribe i ts /\ b2n b = 0xA2 /\ i < 65536 /\ ts <> [] /\ Forall str_ok ts
    /\ bs = packet_body p ++ r /\ rl = lenN (packet_body p).
Proof.
  intros Hf Hbs Hrl. unfold decode_unsubscribe. rewrite plain_bind. split.
  - destruct (plain (decode_packet_with_packet_id (b2n b) 162) bs) as [i t| | | |] eqn:E1; try discriminate.
    apply with_id_ok in E1. destruct E1 as (Hb & -> & Hi). cbn [pbind]. intros H.
    assert (HS : exists rl', sub64 dbg rl 2 = Ret rl' /\ rl' < 2 ^ 64 /\ (rl = 2 + rl' \/ 2 ^ 64 <= 2 + rl')).
    { destruct (sub64_cases dbg rl 2) as [(G1 & ES)|[(G1 & _ & ES)|(G1 & _ & ES)]].
      - exists (rl - 2). split; [exact ES|]. split; lia.
      - rewrite ES in H. discriminate.
      - eexists. split; [exact ES|]. split; lia. }
    destruct HS as (rl' & ES & HB & HS). rewrite ES in H. cbn [bind] in H. clear ES.
    destruct (N.eqb_spec rl' 0) as [|Hnz]; [discriminate|].
    apply map_ok in H. destruct H as (subs & -> & H).
    apply unsub_loop_inv in H; [|exact HB]. destruct H as (new & -> & -> & Hnew & HR). cbn [app].
    assert (Hsz : unsub_size new < 2 ^ 64).
    { rewrite !lenN_app in Hbs. unfold unsub_size. lia. }
    destruct HR as [HR|(_ & HR)]; [|lia].
    assert (Hrr : rl = 2 + rl').
    { destruct HS as [HS|HS]; [exact HS|]. exfalso.
      rewrite !lenN_app in Hbs. fold (unsub_size new) in Hbs. change (lenN (be16 i)) with 2 in Hbs. lia. }
    exists i, new. split; [reflexivity|]. split; [exact Hb|]. split; [exact Hi|].
    split. { intros ->. change (unsub_size []) with 0 in HR. lia. }
    split; [exact Hnew|]. cbn [packet_body]. rewrite <- app_assoc. split; [reflexivity|].
    rewrite lenN_app. fold (unsub_size new). change (lenN (be16 i)) with 2. lia.
  - intros (i & subs & -> & Hb & Hi & Hne & Hok & -> & ->).
    cbn [packet_body] in *. rewrite <- app_assoc.
    assert (E1 : plain (decode_packet_with_packet_id (b2n b) 162) (be16 i ++ flat_map field subs ++ r)
                 = POk i (flat_map field subs ++ r)) by (apply with_id_ok; auto).
    rewrite E1. cbn [pbind]. rewrite lenN_app. fold (unsub_size subs). change (lenN (be16 i)) with 2.
    destruct (sub64_cases dbg (2 + unsub_size subs) 2) as [(G1 & ES)|[(G1 & _ & ES)|(G1 & _ & ES)]];
      rewrite ES; cbn [bind]; try lia.
    replace (2 + unsub_size subs - 2) with (unsub_size subs) by lia.
    destruct (N.eqb_spec (unsub_size subs) 0) as [E0|_].
    { destruct subs; [congruence|]. rewrite unsub_size_cons in E0. lia. }
    apply map_ok. exists subs. split; [reflexivity|].
    rewrite unsub_loop_ok; [reflexivity| |exact Hok].
    rewrite !app_length in Hf. pose proof (fields_length subs). lia.
Qed.

(** ** What the decoder accepts *)

Inductive accepted (first n : N) : bytes -> ControlPacket -> Prop :=
| acc_connect u c : first / 16 = 1 -> connect_reads u c -> accepted first n u (Connect c)
| acc_publish u p : first / 16 = 3 -> publish_reads first n u p -> accepted first n u (Publish p)
| acc_puback i : first = 0x40 -> i < 65536 -> accepted first n (be16 i) (PubAck i)
| acc_pubrec i : first = 0x50 -> i < 65536 -> accepted first n (be16 i) (PubRec i)
| acc_pubrel i : first = 0x62 -> i < 65536 -> accepted first n (be16 i) (PubRel i)
| acc_pubcomp i : first = 0x70 -> i < 65536 -> accepted first n (be16 i) (PubComp i)
| acc_subscribe i subs :
    first = 0x82 -> i < 65536 -> subs <> [] -> Forall sub_ok subs ->
    n = lenN (packet_body (Subscribe i subs)) ->
    accepted first n (packet_body (Subscribe i subs)) (Subscribe i subs)
| acc_unsubscribe i ts :
    first = 0xA2 -> i < 65536 -> ts <> [] -> Forall str_ok ts ->
    n = lenN (packet_body (Unsubscribe i ts)) ->
    accepted first n (packet_body (Unsubscribe i ts)) (Unsubscribe i ts)
| acc_pingreq : first / 16 = 12 -> accepted first n [] PingReq
| acc_disconnect : first / 16 = 14 -> accepted first n [] Disconnect.

Lemma dispatch_ok fuel dbg b n bs p r :
  (length bs < fuel)%nat -> lenN bs < 2 ^ 64 -> n < 2097152 ->
  plain (dispatch fuel dbg (b2n b) n) bs = POk p r <->
  exists u, bs = u ++ r /\ accepted (b2n b) n u p.
Proof.
  intros Hf Hl Hn. unfold dispatch. cbv zeta. rewrite shiftr4.
  unfold PACKET_TYPE_CONNECT, PACKET_TYPE_PUBLISH, PACKET_TYPE_PUB_ACK, PACKET_TYPE_PUB_REC,
    PACKET_TYPE_PUB_REL, PACKET_TYPE_PUB_COMP, PACKET_TYPE_SUBSCRIBE, PACKET_TYPE_UNSUBSCRIBE,
    PACKET_TYPE_PING_REQ, PACKET_TYPE_DISCONNECT.
  destruct (N.eqb_spec (b2n b / 16) 1) as [T|T1].
  { rewrite decode_connect_ok. split.
    - intros (c & u & -> & -> & H). exists u. split; [reflexivity|]. now constructor.
    - intros (u & -> & H). inversion H; subst; try lia. eauto 10. }
  destruct (N.eqb_spec (b2n b / 16) 3) as [T|T3].
  { rewrite decode_publish_ok by exact Hn. split.
    - intros (c & u & -> & -> & H). exists u. split; [reflexivity|]. now constructor.
    - intros (u & -> & H). inversion H; subst; try lia. eauto 10. }
  destruct (N.eqb_spec (b2n b / 16) 4) as [T|T4].
  { unfold decode_pub_ack. rewrite map_ok. split.
    - intros (i & -> & H). apply with_id_ok in H. destruct H as (H1 & -> & H2).
      exists (be16 i). split; [reflexivity|]. now constructor.
    - intros (u & -> & H). inversion H; subst; try lia. exists i. split; [reflexivity|].
      apply with_id_ok. auto. }
  destruct (N.eqb_spec (b2n b / 16) 5) as [T|T5].
  { unfold decode_pub_rec. rewrite map_ok. split.
    - intros (i & -> & H). apply with_id_ok in H. destruct H as (H1 & -> & H2).
      exists (be16 i). split; [reflexivity|]. now constructor.
    - intros (u & -> & H). inversion H; subst; try lia. exists i. split; [reflexivity|].
      apply with_id_ok. auto. }
  destruct (N.eqb_spec (b2n b / 16) 6) as [T|T6].
  { unfold decode_pub_rel. rewrite map_ok. split.
    - intros (i & -> & H). apply with_id_ok in H. destruct H as (H1 & -> & H2).
      exists (be16 i). split; [reflexivity|]. now constructor.
    - intros (u & -> & H). inversion H; subst; try lia. exists i. split; [reflexivity|].
      apply with_id_ok. auto. }
  destruct (N.eqb_spec (b2n b / 16) 7) as [T|T7].
  { unfold decode_pub_comp. rewrite map_ok. split.
    - intros (i & -> & H). apply with_id_ok in H. destruct H as (H1 & -> & H2).
      exists (be16 i). split; [reflexivity|]. now constructor.
    - intros (u & -> & H). inversion H; subst; try lia. exists i. split; [reflexivity|].
      apply with_id_ok. auto. }
  destruct (N.eqb_spec (b2n b / 16) 8) as [T|T8].
  { rewrite decode_subscribe_ok by assumption. split.
    - intros (i & subs & -> & Hb & Hi & Hne & Hok & -> & ->). eexists. split; [reflexivity|].
      now constructor.
    - intros (u & -> & H). inversion H; subst; try lia. exists i, subs. repeat split; auto. }
  destruct (N.eqb_spec (b2n b / 16) 10) as [T|T10].
  { rewrite decode_unsubscribe_ok by assumption. split.
    - intros (i & subs & -> & Hb & Hi & Hne & Hok & -> & ->). eexists. split; [reflexivity|].
      now constructor.
    - intros (u & -> & H). inversion H; subst; try lia. exists i, ts. repeat split; auto. }
  destruct (N.eqb_spec (b2n b / 16) 12) as [T|T12].
  { cbn. split.
    - intros H. injection H as <- <-. exists []. split; [reflexivity|]. now constructor.
    - intros (u & -> & H). inversion H; subst; try lia. reflexivity. }
  destruct (N.eqb_spec (b2n b / 16) 14) as [T|T14].
  { cbn. split.
    - intros H. injection H as <- <-. exists []. split; [reflexivity|]. now constructor.
    - intros (u & -> & H). inversion H; subst; try lia. reflexivity. }
  cbn. split; [discriminate|]. intros (u & -> & H). inversion H; subst; lia.
Qed.

(** Exactly the accepted inputs, for any sufficient fuel. *)
Theorem read_packet_exact fuel dbg bs p r :
  (length bs < fuel)%nat -> lenN bs < 2 ^ 64 ->
  plain (read_packet fuel dbg) bs = POk p r <->
  exists b h n u, bs = b :: h ++ u ++ r /\ varint h n /\ (length h <= 3)%nat
                  /\ accepted (b2n b) n u p.
Proof.
  intros Hf Hl. split.
  - intros H. rewrite read_packet_dispatch, plain_bind, plain_get_u8 in H.
    destruct bs as [|b t]; [discriminate|]. cbn [pbind] in H. rewrite plain_bind in H.
    destruct (plain decode_remaining_length t) as [n t1| | | |] eqn:E; try discriminate.
    apply decode_remaining_length_ok in E. destruct E as (h & -> & Hv & Hh).
    cbn [pbind] in H. pose proof (varint3_bound _ _ Hv Hh) as Hn.
    cbn [length] in Hf. rewrite app_length in Hf. rewrite lenN_cons, lenN_app in Hl.
    apply dispatch_ok in H; [|lia|lia|exact Hn]. destruct H as (u & -> & H).
    exists b, h, n, u. auto.
  - intros (b & h & n & u & -> & Hv & Hh & HA).
    rewrite plain_read_packet with (n := n) by assumption.
    cbn [length] in Hf. rewrite app_length in Hf. rewrite lenN_cons, lenN_app in Hl.
    apply dispatch_ok; [lia|lia|now apply (varint3_bound h)|]. eauto.
Qed.

Theorem decode_exact dbg bs p r : lenN bs < 2 ^ 64 ->
  decode dbg bs = POk p r <->
  exists b h n u, bs = b :: h ++ u ++ r /\ varint h n /\ (length h <= 3)%nat
                  /\ accepted (b2n b) n u p.
Proof. intros Hl. unfold decode. apply read_packet_exact; [lia|exact Hl]. Qed.

(** ** Fuel *)

Lemma dispatch_fuel fuel dbg b n bs : (length bs < fuel)%nat ->
  plain (dispatch fuel dbg (b2n b) n) bs <> PNoFuel.
Proof.
  intros Hf.
  assert (HG : forall A (m : rd A) (f : A -> rd ControlPacket) bs',
     plain m bs' <> PNoFuel -> (forall a r, plain m bs' = POk a r -> plain (f a) r <> PNoFuel) ->
     plain (bind m f) bs' <> PNoFuel).
  { intros A m f bs' H1 H2. rewrite plain_bind. destruct (plain m bs') eqn:E; cbn; try discriminate; auto. }
  assert (HS : forall bs', plain get_string bs' <> PNoFuel).
  { intros bs'. destruct (get_string_cases bs') as [(s & r & -> & _)|[(s & r & i & -> & _)|(l & ->)]]; discriminate. }
  assert (HO : forall c bs', plain (opt_string c) bs' <> PNoFuel).
  { intros c bs'. unfold opt_string. destruct c; [|discriminate]. rewrite plain_bind.
    specialize (HS bs'). destruct (plain get_string bs'); cbn; congruence. }
  assert (H8 : forall bs', plain get_u8 bs' <> PNoFuel).
  { intros [|? ?]; discriminate. }
  assert (H16 : forall bs', plain get_u16 bs' <> PNoFuel).
  { intros [|? [|? ?]]; discriminate. }
  assert (HB : forall k bs', plain (get_bytes k) bs' <> PNoFuel).
  { intros k bs'. rewrite plain_get_bytes. destruct (isize_max <? k); [discriminate|].
    destruct (lenN bs' <? k); discriminate. }
  assert (HI : forall fb bs', plain (decode_packet_with_packet_id (b2n b) fb) bs' <> PNoFuel).
  { intros fb bs'. unfold decode_packet_with_packet_id, validate_first_byte.
    destruct (b2n b =? fb); cbn [bind]; [apply H16|discriminate]. }
  assert (H64 : forall a c bs', plain (sub64 dbg a c) bs' <> PNoFuel).
  { intros a c bs'. destruct (sub64_cases dbg a c) as [(_ & ->)|[(_ & _ & ->)|(_ & _ & ->)]]; discriminate. }
  unfold dispatch. cbv zeta.
  repeat match goal with |- plain (if ?c then _ else _) _ <> _ => destruct c; [|] end;
    try discriminate.
  - unfold decode_connect. do 5 (apply HG; [auto|intros]). apply HG; [apply HO|intros].
    apply HG; [apply HO|intros]. discriminate.
  - unfold decode_publish. apply HG.
    { destruct (QoS_from_bits_cases (N.shiftr (N.land (b2n b) 6) 1)) as [(q & -> & _)|(-> & _)]; discriminate. }
    intros q ? _. do 3 (apply HG; [auto|intros]). apply HG.
    { destruct (qos_gt0 q); [|discriminate]. rewrite plain_bind.
      match goal with |- pbind (plain (sub64 dbg ?u 2) ?v) _ <> _ =>
        specialize (H64 u 2 v); destruct (plain (sub64 dbg u 2) v) as [x y| | | |] end;
        cbn [pbind]; try congruence.
      rewrite plain_bind. specialize (H16 y). destruct (plain get_u16 y); cbn; congruence. }
    intros [x y] ? _. apply HG; [auto|intros]. discriminate.
  - apply HG; [auto|intros; discriminate].
  - apply HG; [auto|intros; discriminate].
  - apply HG; [auto|intros; discriminate].
  - apply HG; [auto|intros; discriminate].
  - unfold decode_subscribe. apply HG; [auto|]. intros i t Hi. apply with_id_ok in Hi.
    destruct Hi as (_ & -> & _). rewrite app_length in Hf.
    apply HG; [auto|]. intros rl t' Ht.
    assert (t' = t) as ->.
    { destruct (sub64_cases dbg n 2) as [(_ & ES)|[(_ & _ & ES)|(_ & _ & ES)]]; rewrite ES in Ht;
        try discriminate; cbn in Ht; congruence. }
    destruct (rl =? 0); [discriminate|]. apply HG; [|intros; discriminate].
    apply sub_loop_fuel. lia.
  - unfold decode_unsubscribe. apply HG; [auto|]. intros i t Hi. apply with_id_ok in Hi.
    destruct Hi as (_ & -> & _). rewrite app_length in Hf.
    apply HG; [auto|]. intros rl t' Ht.
    assert (t' = t) as ->.
    { destruct (sub64_cases dbg n 2) as [(_ & ES)|[(_ & _ & ES)|(_ & _ & ES)]]; rewrite ES in Ht;
        try discriminate; cbn in Ht; congruence. }
    destruct (rl =? 0); [discriminate|]. apply HG; [|intros; discriminate].
    apply unsub_loop_fuel. lia.
Qed.

Theorem read_packet_fuel fuel dbg bs : (length bs < fuel)%nat ->
  plain (read_packet fuel dbg) bs <> PNoFuel.
Proof.
  intros Hf. rewrite read_packet_dispatch, plain_bind, plain_get_u8.
  destruct bs as [|b t]; cbn [pbind]; [discriminate|]. rewrite plain_bind.
  destruct (drl_cases t) as [(h & n & r & -> & -> & _)|[(b1 & b2 & b3 & b4 & r & _ & _ & _ & _ & ->)|(l & -> & _)]];
    cbn [pbind]; try discriminate.
  apply dispatch_fuel. cbn [length] in Hf. rewrite app_length in Hf. lia.
Qed.

(** More fuel changes nothing. *)
Theorem read_packet_any_fuel fuel dbg bs : (length bs < fuel)%nat ->
  plain (read_packet fuel dbg) bs = decode dbg bs.
Proof.
  intros Hf. unfold decode. apply le_plain.
  - apply read_packet_mono. lia.
  - apply read_packet_fuel. lia.
Qed.

Theorem stream_read_packet_fuel dbg st : wf st -> stream_read_packet dbg st <> RNoFuel.
Proof.
  intros W H. unfold stream_read_packet in H.
  set (m := read_packet (S (length (pending st))) dbg) in *.
  assert (HN : run m st <> RHung) by congruence.
  pose proof (run_plain m st W HN) as HP.
  pose proof (read_packet_fuel (S (length (pending st))) dbg (pending st) ltac:(lia)) as HF.
  fold m in HF.
  destruct (plain m (pending st)) as [a r|e| |l|]; try congruence.
  - destruct HP as (st' & HP & _). congruence.
  - rewrite H in HP. cbn in HP. destruct (ending (rsk st)); discriminate.
Qed.
