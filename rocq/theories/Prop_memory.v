(** What one unfinished packet costs the broker in memory (packet_decoder.rs,
    mqtt_bytes_stream.rs:218-239): how many bytes of it may be read before it is finished or refused, and
    how large a buffer is reserved on the word of its length fields. *)
From Verif Require Import Base Base_facts Utf8 Utf8_facts Packets Decoder ReadStream Plain Plain_facts Decoder_facts
  ReadStream_facts Spec_wire Spec_utf8 Conn.
Open Scope N_scope.
Ltac Zify.zify_post_hook ::= Z.div_mod_to_equations.

(** ** C120 *)

(** A filter as it stands in SUBSCRIBE, with its QoS, and in UNSUBSCRIBE. *)
Definition sub_item (f : bytes) : Prop := exists s q, f = be16 (lenN s) ++ s ++ [q] /\ text s /\ b2n q <= 2.
Definition unsub_item (f : bytes) : Prop := exists s, f = be16 (lenN s) ++ s /\ text s.

(** The length [n] ends inside an item of the list [xs] stands at the beginning of. *)
Definition ends_inside (item : bytes -> Prop) (n : N) (xs : bytes) : Prop :=
  exists fs f rest, xs = concat fs ++ f ++ rest /\ Forall item fs /\ item f
    /\ lenN (concat fs) < n /\ n < lenN (concat fs) + lenN f.

(** A SUBSCRIBE or UNSUBSCRIBE whose length field ends inside one of its filters. *)
Definition overrun (bs : bytes) : Prop :=
  exists h n i1 i0 xs, varint h n /\ (length h <= 3)%nat
    /\ (bs = x82 :: h ++ i1 :: i0 :: xs /\ (n < 2 \/ ends_inside sub_item (n - 2) xs)
        \/ bs = xa2 :: h ++ i1 :: i0 :: xs /\ (n < 2 \/ ends_inside unsub_item (n - 2) xs)).

Lemma get_string_more bs l : plain get_string bs = PMore l -> lenN bs <= 65536.
Proof.
  unfold get_string. rewrite plain_bind, plain_get_u16.
  destruct bs as [|b1 [|b0 t]]; cbn [pbind]; intros H; [rewrite lenN_nil; lia|rewrite lenN_cons, lenN_nil; lia|].
  pose proof (b2n_lt b1). pose proof (b2n_lt b0).
  rewrite plain_bind, plain_get_bytes, isize_max_big in H by lia.
  destruct (N.ltb_spec (lenN t) (b2n b1 * 256 + b2n b0)) as [Hl|Hl]; cbn [pbind] in H.
  - rewrite !lenN_cons. lia.
  - destruct (from_utf8 _); discriminate.
Qed.

Lemma sub_loop_within dbg fuel : forall rem acc bs left,
  plain (decode_subscribe_loop fuel dbg rem acc) bs = PMore left ->
  lenN bs <= rem + 65536 \/ dbg = false /\ ends_inside sub_item rem bs.
Proof.
  induction fuel as [|fuel IH]; intros rem acc bs left H; [discriminate|].
  cbn [decode_subscribe_loop] in H. destruct (N.ltb_spec 0 rem) as [Hr|Hr]; [|discriminate].
  rewrite plain_bind in H.
  destruct (get_string_cases bs) as [(s & r & ES & -> & Hs & HU)|[(s & r & i & ES & _)|(l & ES)]];
    rewrite ES in H; cbn [pbind] in H; try discriminate.
  2:{ apply get_string_more in ES. lia. }
  rewrite plain_bind, plain_get_u8 in H. destruct r as [|q r]; cbn [pbind] in H.
  { left. rewrite app_nil_r, lenN_field. lia. }
  destruct (N.ltb_spec 2 (b2n q)) as [|Hq]; [discriminate|].
  assert (HI : sub_item (field s ++ [q])).
  { exists s, q. split; [unfold field; now rewrite <- app_assoc|].
    split; [split; [now apply utf8_ok_iff|exact Hs]|exact Hq]. }
  assert (HL : lenN (field s ++ [q]) = lenN s + 3) by (rewrite lenN_app, lenN_field, lenN_cons, lenN_nil; lia).
  assert (HB : field s ++ q :: r = (field s ++ [q]) ++ r) by (rewrite <- app_assoc; reflexivity).
  rewrite HB.
  destruct (sub64_cases dbg rem (lenN s + 3)) as [(Hle & E)|[(_ & _ & E)|(Hlt & -> & _)]].
  - rewrite E in H. cbn [bind] in H. rewrite plain_bind in H.
    destruct (plain (QoS_from_bits (b2n q)) r) as [q' r'| | |l|] eqn:EQ; cbn [pbind] in H; try discriminate.
    2:{ unfold QoS_from_bits in EQ. destruct (b2n q =? 0), (b2n q =? 1), (b2n q =? 2); discriminate. }
    assert (r' = r) as ->.
    { unfold QoS_from_bits in EQ. destruct (b2n q =? 0), (b2n q =? 1), (b2n q =? 2); cbn in EQ; congruence. }
    apply IH in H. destruct H as [H|(-> & fs & f & rest & -> & Hfs & Hf & H1 & H2)].
    + left. rewrite lenN_app. lia.
    + right. split; [reflexivity|]. exists ((field s ++ [q]) :: fs), f, rest.
      cbn [concat]. rewrite !lenN_app. rewrite lenN_app in HL. rewrite <- !app_assoc.
      split; [reflexivity|]. split; [constructor; assumption|]. split; [exact Hf|]. lia.
  - rewrite E in H. discriminate.
  - right. split; [reflexivity|]. exists [], (field s ++ [q]), r. cbn [concat app].
    rewrite lenN_nil. split; [reflexivity|]. split; [constructor|]. split; [exact HI|]. lia.
Qed.

Lemma unsub_loop_within dbg fuel : forall rem acc bs left,
  plain (decode_unsubscribe_loop fuel dbg rem acc) bs = PMore left ->
  lenN bs <= rem + 65536 \/ dbg = false /\ ends_inside unsub_item rem bs.
Proof.
  induction fuel as [|fuel IH]; intros rem acc bs left H; [discriminate|].
  cbn [decode_unsubscribe_loop] in H. destruct (N.ltb_spec 0 rem) as [Hr|Hr]; [|discriminate].
  rewrite plain_bind in H.
  destruct (get_string_cases bs) as [(s & r & ES & -> & Hs & HU)|[(s & r & i & ES & _)|(l & ES)]];
    rewrite ES in H; cbn [pbind] in H; try discriminate.
  2:{ apply get_string_more in ES. lia. }
  assert (HI : unsub_item (field s)).
  { exists s. split; [reflexivity|]. split; [now apply utf8_ok_iff|exact Hs]. }
  pose proof (lenN_field s) as HL.
  destruct (sub64_cases dbg rem (lenN s + 2)) as [(Hle & E)|[(_ & _ & E)|(Hlt & -> & _)]].
  - rewrite E in H. cbn [bind] in H.
    apply IH in H. destruct H as [H|(-> & fs & f & rest & -> & Hfs & Hf & H1 & H2)].
    + left. rewrite lenN_app. lia.
    + right. split; [reflexivity|]. exists (field s :: fs), f, rest.
      cbn [concat]. rewrite !lenN_app. rewrite <- !app_assoc.
      split; [reflexivity|]. split; [constructor; assumption|]. split; [exact Hf|]. lia.
  - rewrite E in H. discriminate.
  - right. split; [reflexivity|]. exists [], (field s), r. cbn [concat app].
    rewrite lenN_nil. split; [reflexivity|]. split; [constructor|]. split; [exact HI|]. lia.
Qed.

(** One reading step of a program that runs out of bytes. *)
Lemma within_string {A} (k : bytes -> rd A) bs left B : plain (bind get_string k) bs = PMore left ->
  65536 <= 65537 + B -> (forall s r l, plain (k s) r = PMore l -> lenN r <= B) -> lenN bs <= 65537 + B.
Proof.
  intros H HB HK. rewrite plain_bind in H.
  destruct (get_string_cases bs) as [(s & r & ES & -> & Hs & HU)|[(s & r & i & ES & _)|(l & ES)]];
    rewrite ES in H; cbn [pbind] in H; try discriminate.
  - apply HK in H. rewrite lenN_app, lenN_field. lia.
  - apply get_string_more in ES. lia.
Qed.

Lemma within_u8 {A} (k : byte -> rd A) bs left B : plain (bind get_u8 k) bs = PMore left ->
  (forall s r l, plain (k s) r = PMore l -> lenN r <= B) -> lenN bs <= 1 + B.
Proof.
  intros H HK. rewrite plain_bind, plain_get_u8 in H. destruct bs as [|b r]; cbn [pbind] in H.
  - rewrite lenN_nil. lia.
  - apply HK in H. rewrite lenN_cons. lia.
Qed.

Lemma within_u16 {A} (k : N -> rd A) bs left B : plain (bind get_u16 k) bs = PMore left ->
  (forall s r l, plain (k s) r = PMore l -> lenN r <= B) -> lenN bs <= 2 + B.
Proof.
  intros H HK. rewrite plain_bind, plain_get_u16 in H. destruct bs as [|b1 [|b0 r]]; cbn [pbind] in H.
  - rewrite lenN_nil. lia.
  - rewrite lenN_cons, lenN_nil. lia.
  - apply HK in H. rewrite !lenN_cons. lia.
Qed.

Lemma connect_within fb n bs left : plain (decode_connect fb n) bs = PMore left -> lenN bs <= 262152.
Proof.
  intros H. unfold decode_connect in H.
  change 262152 with (65537 + (1 + (1 + (2 + (65537 + (65537 + (65537 + 0))))))).
  eapply within_string; [exact H|lia|]. clear. intros s r l H.
  eapply within_u8; [exact H|]. clear. intros b r l H.
  eapply within_u8; [exact H|]. clear. intros b0 r l H. cbv zeta in H.
  eapply within_u16; [exact H|]. clear. intros ka r l H.
  eapply within_string; [exact H|lia|]. clear. intros s r l H.
  assert (HP : forall u r l, plain (bind (if flag_set (b2n b0) 64 then s <- get_string ;; Ret (Some s) else Ret None)
     (fun pass => Ret (Connect (ConnectPacket_new Mqtt3 s ka (flag_set (b2n b0) 2) None u pass)))) r = PMore l -> lenN r <= 65537 + 0).
  { clear. intros u r l H. destruct (flag_set (b2n b0) 64); [|discriminate].
    rewrite plain_bind in H.
    destruct (plain (s0 <- get_string ;; Ret (Some s0)) r) as [o r'| | |l'|] eqn:E; cbn [pbind] in H; try discriminate.
    eapply within_string; [exact E|lia|]. intros; discriminate. }
  destruct (flag_set (b2n b0) 128).
  - rewrite plain_bind, plain_bind in H.
    destruct (get_string_cases r) as [(u & r' & ES & -> & Hs & HU)|[(u & r' & i & ES & _)|(l' & ES)]];
      rewrite ES in H; cbn [pbind plain] in H; try discriminate.
    + apply HP in H. rewrite lenN_app, lenN_field. lia.
    + apply get_string_more in ES. lia.
  - rewrite plain_bind in H. cbn [pbind plain] in H. apply HP in H. lia.
Qed.

Lemma publish_within dbg fb n bs left : n < 2097152 ->
  plain (decode_publish dbg fb n) bs = PMore left -> lenN bs <= 2097151.
Proof.
  intros Hn H. unfold decode_publish in H. cbv zeta in H. rewrite plain_bind in H.
  destruct (plain (QoS_from_bits (N.shiftr (N.land fb 6) 1)) bs) as [q r0| | |l|] eqn:EQ;
    cbn [pbind] in H; try discriminate.
  2:{ unfold QoS_from_bits in EQ. repeat (destruct (_ =? _) in EQ); discriminate. }
  assert (r0 = bs) as ->.
  { unfold QoS_from_bits in EQ. repeat (destruct (_ =? _) in EQ); cbn in EQ; congruence. }
  clear EQ. rewrite plain_bind in H.
  destruct (get_string_cases bs) as [(s & r & ES & -> & Hs & HU)|[(s & r & i & ES & _)|(l & ES)]];
    rewrite ES in H; cbn [pbind] in H; try discriminate.
  2:{ apply get_string_more in ES. lia. }
  rewrite lenN_app, lenN_field.
  assert (HB : forall m pid bs' left', plain (body <- get_bytes m ;;
      Ret (Publish (PublishPacket_new s body q (flag_set fb 1) pid (flag_set fb 8)))) bs' = PMore left' ->
      m <= isize_max /\ lenN bs' < m).
  { intros m pid bs' left' HP. rewrite plain_bind, plain_get_bytes in HP.
    destruct (N.ltb_spec isize_max m); [discriminate|].
    destruct (N.ltb_spec (lenN bs') m); [split; assumption|discriminate]. }
  assert (HS : forall (a b c : N) (k : N -> rd ControlPacket) bs' left', plain (bind (sub64 dbg a b) k) bs' = PMore left' ->
      exists c, (b <= a /\ c = a - b \/ a < b /\ c = a + 2 ^ 64 - b) /\ plain (k c) bs' = PMore left').
  { intros a b _ k bs' left' HP.
    destruct (sub64_cases dbg a b) as [(X & E)|[(X & _ & E)|(X & _ & E)]]; rewrite E in HP; cbn [bind] in HP;
      [exists (a - b); auto|discriminate|exists (a + 2 ^ 64 - b); auto]. }
  apply HS in H; [|exact 0]. destruct H as (n1 & Hn1 & H).
  apply HS in H; [|exact 0]. destruct H as (n2 & Hn2 & H).
  destruct (qos_gt0 q).
  - rewrite plain_bind in H.
    destruct (sub64_cases dbg n2 2) as [(X & E)|[(X & _ & E)|(X & _ & E)]]; rewrite E in H; cbn [bind] in H;
      [|discriminate|];
      (rewrite plain_bind, plain_get_u16 in H; destruct r as [|b1 [|b0 r]]; cbn [pbind plain] in H;
        [rewrite lenN_nil; lia|rewrite lenN_cons, lenN_nil; lia|]; apply HB in H; rewrite !lenN_cons;
        unfold isize_max in H; lia).
  - rewrite plain_bind in H. cbn [plain pbind] in H. apply HB in H. unfold isize_max in H. lia.
Qed.

Lemma ack_within fb e (k : N -> ControlPacket) bs left :
  plain (i <- decode_packet_with_packet_id fb e ;; Ret (k i)) bs = PMore left -> lenN bs <= 2.
Proof.
  intros H. unfold decode_packet_with_packet_id, validate_first_byte in H.
  destruct (fb =? e); cbn [bind] in H; [|discriminate].
  change 2 with (2 + 0). eapply within_u16; [exact H|]. intros; discriminate.
Qed.

Lemma byte_of b n : b2n b = n -> n < 256 -> b = n2b n.
Proof. intros <- _. now rewrite n2b_b2n. Qed.

(** At most 2 162 691 bytes of a packet are read before it is finished or refused, except that in a
    release build a SUBSCRIBE or UNSUBSCRIBE may overrun its length. *)
Theorem C120_unfinished dbg bs left : decode dbg bs = PMore left ->
  lenN bs <= 2162691 \/ dbg = false /\ overrun bs.
Proof.
  unfold decode, read_packet. rewrite plain_bind, plain_get_u8.
  destruct bs as [|b t]; [intros _; left; rewrite lenN_nil; lia|].
  generalize (S (length (b :: t))) as fuel. intros fuel. cbn [pbind]. cbv zeta.
  rewrite plain_bind. intros H.
  destruct (drl_cases t) as [(h & n & r & E & -> & Hv & Hh)|[(b1 & b2 & b3 & b4 & r & _ & _ & _ & _ & E)|(l & E & Hl & _)]].
  2:{ rewrite E in H. discriminate. }
  2:{ left. rewrite lenN_cons. unfold lenN. lia. }
  rewrite E in H. cbn [pbind] in H. clear E.
  pose proof (varint3_bound h n Hv Hh) as Hn.
  rewrite lenN_cons, lenN_app.
  assert (Hh' : lenN h <= 3) by (unfold lenN; lia).
  destruct (_ =? PACKET_TYPE_CONNECT); [apply connect_within in H; lia|].
  destruct (_ =? PACKET_TYPE_PUBLISH); [apply publish_within in H; lia|].
  destruct (_ =? PACKET_TYPE_PUB_ACK); [apply ack_within in H; lia|].
  destruct (_ =? PACKET_TYPE_PUB_REC); [apply ack_within in H; lia|].
  destruct (_ =? PACKET_TYPE_PUB_REL); [apply ack_within in H; lia|].
  destruct (_ =? PACKET_TYPE_PUB_COMP); [apply ack_within in H; lia|].
  destruct (_ =? PACKET_TYPE_SUBSCRIBE); [|destruct (_ =? PACKET_TYPE_UNSUBSCRIBE)].
  - unfold decode_subscribe, decode_packet_with_packet_id, validate_first_byte in H.
    destruct (N.eqb_spec (b2n b) 0x82) as [Eb|]; cbn [bind] in H; [|discriminate].
    apply byte_of in Eb; [|lia]. change (n2b 130) with x82 in Eb. subst b.
    rewrite plain_bind, plain_get_u16 in H.
    destruct r as [|i1 [|i0 xs]]; [left; rewrite lenN_nil; lia|left; rewrite lenN_cons, lenN_nil; lia|].
    cbn [pbind] in H. rewrite !lenN_cons.
    assert (HO : dbg = false -> n < 2 \/ ends_inside sub_item (n - 2) xs -> overrun (x82 :: h ++ i1 :: i0 :: xs)).
    { intros _ HX. exists h, n, i1, i0, xs. split; [exact Hv|]. split; [exact Hh|]. left. auto. }
    destruct (sub64_cases dbg n 2) as [(X & E)|[(X & _ & E)|(X & E' & E)]]; rewrite E in H; cbn [bind] in H;
      [|discriminate|right; split; [exact E'|apply HO; auto]].
    destruct (n - 2 =? 0); [discriminate|].
    rewrite plain_bind in H.
    destruct (plain (decode_subscribe_loop fuel dbg (n - 2) []) xs) as [| | |l|] eqn:EL; cbn [pbind] in H; try discriminate.
    apply sub_loop_within in EL. destruct EL as [EL|(E' & EL)]; [left; lia|right; split; [exact E'|apply HO; auto]].
  - unfold decode_unsubscribe, decode_packet_with_packet_id, validate_first_byte in H.
    destruct (N.eqb_spec (b2n b) 0xA2) as [Eb|]; cbn [bind] in H; [|discriminate].
    apply byte_of in Eb; [|lia]. change (n2b 162) with xa2 in Eb. subst b.
    rewrite plain_bind, plain_get_u16 in H.
    destruct r as [|i1 [|i0 xs]]; [left; rewrite lenN_nil; lia|left; rewrite lenN_cons, lenN_nil; lia|].
    cbn [pbind] in H. rewrite !lenN_cons.
    assert (HO : dbg = false -> n < 2 \/ ends_inside unsub_item (n - 2) xs -> overrun (xa2 :: h ++ i1 :: i0 :: xs)).
    { intros _ HX. exists h, n, i1, i0, xs. split; [exact Hv|]. split; [exact Hh|]. right. auto. }
    destruct (sub64_cases dbg n 2) as [(X & E)|[(X & _ & E)|(X & E' & E)]]; rewrite E in H; cbn [bind] in H;
      [|discriminate|right; split; [exact E'|apply HO; auto]].
    destruct (n - 2 =? 0); [discriminate|].
    rewrite plain_bind in H.
    destruct (plain (decode_unsubscribe_loop fuel dbg (n - 2) []) xs) as [| | |l|] eqn:EL; cbn [pbind] in H; try discriminate.
    apply unsub_loop_within in EL. destruct EL as [EL|(E' & EL)]; [left; lia|right; split; [exact E'|apply HO; auto]].
  - repeat (destruct (_ =? _) in H); discriminate.
Qed.

(** What a program has still to do when it has used all the bytes it can of [bs], and those it has not. *)
Fixpoint left_at {A} (m : rd A) (bs : bytes) : rd A * bytes :=
  match m with
  | GetU8 k => match bs with b :: r => left_at (k b) r | [] => (m, bs) end
  | GetU16 k => match bs with b1 :: b0 :: r => left_at (k (b2n b1 * 256 + b2n b0)) r | _ => (m, bs) end
  | GetBytes size k =>
    if isize_max <? size then (m, bs)
    else if lenN bs <? size then (m, bs)
    else left_at (k (takeN size bs)) (dropN size bs)
  | _ => (m, bs)
  end.

Lemma left_at_plain {A} (m : rd A) : forall bs, plain m bs = plain (fst (left_at m bs)) (snd (left_at m bs)).
Proof.
  induction m as [a|e| | |k IH|k IH|size k IH]; intros bs; try reflexivity; cbn [plain left_at].
  - destruct bs as [|b r]; [reflexivity|apply IH].
  - destruct bs as [|b1 [|b0 r]]; try reflexivity. apply IH.
  - destruct (isize_max <? size) eqn:E1; [cbn [fst snd plain]; now rewrite E1|].
    destruct (lenN bs <? size) eqn:E2; [cbn [fst snd plain]; now rewrite E1, E2|]. apply IH.
Qed.

Lemma left_at_bind {A B} (m : rd A) (f : A -> rd B) a r : forall bs, left_at m bs = (Ret a, r) ->
  left_at (bind m f) bs = left_at (f a) r.
Proof.
  induction m as [a'|e| | |k IH|k IH|size k IH]; intros bs H; cbn [left_at bind] in *; try discriminate.
  - now injection H as -> ->.
  - destruct bs as [|b t]; [discriminate|]. now apply IH.
  - destruct bs as [|b1 [|b0 t]]; try discriminate. now apply IH.
  - destruct (isize_max <? size); [discriminate|]. destruct (lenN bs <? size); [discriminate|]. now apply IH.
Qed.

Lemma left_at_string s r : text s -> left_at get_string (be16 (lenN s) ++ s ++ r) = (Ret s, r).
Proof.
  intros [HU Hs]. apply utf8_ok_iff in HU. unfold fits16 in Hs. unfold get_string.
  cbn [bind get_u16 be16 app left_at]. rewrite be16_val by lia. cbn [get_bytes bind left_at].
  rewrite isize_max_big by lia. rewrite lenN_app.
  destruct (N.ltb_spec (lenN s + lenN r) (lenN s)); [lia|].
  rewrite takeN_lenN_app, dropN_lenN_app. unfold utf8_ok in HU. destruct (from_utf8 s); [discriminate|reflexivity].
Qed.

Definition qos_num (q : QoS) : N := match q with AtMostOnce => 0 | AtLeastOnce => 1 | ExactlyOnce => 2 end.

Lemma qos_item q r : b2n q <= 2 -> exists x, left_at (QoS_from_bits (b2n q)) r = (Ret x, r).
Proof.
  intros H. unfold QoS_from_bits.
  destruct (N.eqb_spec (b2n q) 0); [eexists; reflexivity|].
  destruct (N.eqb_spec (b2n q) 1); [eexists; reflexivity|].
  destruct (N.eqb_spec (b2n q) 2); [eexists; reflexivity|]. lia.
Qed.

(** One filter more. *)
Lemma sub_item_read fuel dbg rem acc f r : sub_item f -> 0 < rem ->
  (dbg = false \/ lenN f <= rem) ->
  exists acc', length acc' = S (length acc)
    /\ left_at (decode_subscribe_loop (S fuel) dbg rem acc) (f ++ r)
       = left_at (decode_subscribe_loop fuel dbg (if lenN f <=? rem then rem - lenN f else rem + 2 ^ 64 - lenN f) acc') r.
Proof.
  intros (s & q & -> & Hs & Hq) Hr Hd. cbn [decode_subscribe_loop].
  destruct (N.ltb_spec 0 rem) as [_|]; [|lia].
  rewrite <- !app_assoc. cbn [app].
  rewrite (left_at_bind _ _ _ _ _ (left_at_string s (q :: r) Hs)).
  cbn [get_u8 bind left_at]. destruct (N.ltb_spec 2 (b2n q)) as [|_]; [lia|].
  assert (HL : lenN (be16 (lenN s) ++ s ++ [q]) = lenN s + 3).
  { cbn [be16 app]. rewrite !lenN_cons, lenN_app, lenN_cons, lenN_nil. lia. }
  rewrite HL in *. unfold sub64.
  destruct (qos_item q r Hq) as (x & Hx).
  destruct (N.leb_spec (lenN s + 3) rem) as [Hle|Hlt].
  - cbn [bind]. rewrite (left_at_bind _ _ _ _ _ Hx). eexists. split; [|reflexivity]. rewrite app_length. cbn. lia.
  - destruct Hd as [->|]; [|lia]. cbn [bind]. rewrite (left_at_bind _ _ _ _ _ Hx).
    eexists. split; [|reflexivity]. rewrite app_length. cbn. lia.
Qed.

Lemma unsub_item_read fuel dbg rem acc f r : unsub_item f -> 0 < rem ->
  (dbg = false \/ lenN f <= rem) ->
  exists acc', length acc' = S (length acc)
    /\ left_at (decode_unsubscribe_loop (S fuel) dbg rem acc) (f ++ r)
       = left_at (decode_unsubscribe_loop fuel dbg (if lenN f <=? rem then rem - lenN f else rem + 2 ^ 64 - lenN f) acc') r.
Proof.
  intros (s & -> & Hs) Hr Hd. cbn [decode_unsubscribe_loop].
  destruct (N.ltb_spec 0 rem) as [_|]; [|lia].
  rewrite <- !app_assoc.
  rewrite (left_at_bind _ _ _ _ _ (left_at_string s r Hs)).
  assert (HL : lenN (be16 (lenN s) ++ s) = lenN s + 2).
  { cbn [be16 app]. rewrite !lenN_cons. lia. }
  rewrite HL in *. unfold sub64.
  destruct (N.leb_spec (lenN s + 2) rem) as [Hle|Hlt].
  - cbn [bind]. eexists. split; [|reflexivity]. rewrite app_length. cbn. lia.
  - destruct Hd as [->|]; [|lia]. cbn [bind].
    eexists. split; [|reflexivity]. rewrite app_length. cbn. lia.
Qed.

Lemma sub_items_read dbg fs : forall fuel rem acc r, Forall sub_item fs -> lenN (concat fs) < rem ->
  exists acc', length acc' = (length acc + length fs)%nat
    /\ left_at (decode_subscribe_loop (length fs + fuel) dbg rem acc) (concat fs ++ r)
       = left_at (decode_subscribe_loop fuel dbg (rem - lenN (concat fs)) acc') r.
Proof.
  induction fs as [|f fs IH]; intros fuel rem acc r HF HL.
  - exists acc. cbn [length concat app Nat.add]. rewrite lenN_nil, N.sub_0_r. split; [lia|reflexivity].
  - inversion HF as [|? ? Hf HF']; subst. cbn [length concat Nat.add] in *. rewrite lenN_app in *.
    rewrite <- app_assoc.
    destruct (sub_item_read (length fs + fuel) dbg rem acc f (concat fs ++ r) Hf ltac:(lia) ltac:(right; lia))
      as (acc1 & L1 & ->).
    destruct (N.leb_spec (lenN f) rem) as [_|]; [|lia].
    destruct (IH fuel (rem - lenN f) acc1 r HF' ltac:(lia)) as (acc2 & L2 & ->).
    exists acc2. split; [lia|]. do 2 f_equal. lia.
Qed.

Lemma unsub_items_read dbg fs : forall fuel rem acc r, Forall unsub_item fs -> lenN (concat fs) < rem ->
  exists acc', length acc' = (length acc + length fs)%nat
    /\ left_at (decode_unsubscribe_loop (length fs + fuel) dbg rem acc) (concat fs ++ r)
       = left_at (decode_unsubscribe_loop fuel dbg (rem - lenN (concat fs)) acc') r.
Proof.
  induction fs as [|f fs IH]; intros fuel rem acc r HF HL.
  - exists acc. cbn [length concat app Nat.add]. rewrite lenN_nil, N.sub_0_r. split; [lia|reflexivity].
  - inversion HF as [|? ? Hf HF']; subst. cbn [length concat Nat.add] in *. rewrite lenN_app in *.
    rewrite <- app_assoc.
    destruct (unsub_item_read (length fs + fuel) dbg rem acc f (concat fs ++ r) Hf ltac:(lia) ltac:(right; lia))
      as (acc1 & L1 & ->).
    destruct (N.leb_spec (lenN f) rem) as [_|]; [|lia].
    destruct (IH fuel (rem - lenN f) acc1 r HF' ltac:(lia)) as (acc2 & L2 & ->).
    exists acc2. split; [lia|]. do 2 f_equal. lia.
Qed.

Lemma left_at_ok {A} (m : rd A) a r : forall bs, plain m bs = POk a r -> left_at m bs = (Ret a, r).
Proof.
  induction m as [a'|e| | |k IH|k IH|size k IH]; intros bs H; cbn [left_at plain] in *; try discriminate.
  - now injection H as -> ->.
  - destruct bs as [|b t]; [discriminate|]. now apply IH.
  - destruct bs as [|b1 [|b0 t]]; try discriminate. now apply IH.
  - destruct (isize_max <? size); [discriminate|]. destruct (lenN bs <? size); [discriminate|]. now apply IH.
Qed.

(** At a number for which no byte has come. *)
Definition at_number {A} (m : rd A) : Prop := match m with GetU16 _ => True | _ => False end.

Lemma left_at_stuck {A B} (m m' : rd A) (f : A -> rd B) r : at_number m' ->
  forall bs, left_at m bs = (m', r) -> left_at (bind m f) bs = (bind m' f, r).
Proof.
  intros Hm. induction m as [a'|e| | |k IH|k IH|size k IH]; intros bs H; cbn [left_at bind] in *;
    try (injection H as <- <-; contradiction).
  - destruct bs as [|b t]; [injection H as <- <-; contradiction|]. now apply IH.
  - destruct bs as [|b1 [|b0 t]]; try (injection H as <- <-; reflexivity). now apply IH.
  - destruct (isize_max <? size); [injection H as <- <-; contradiction|].
    destruct (lenN bs <? size); [injection H as <- <-; contradiction|]. now apply IH.
Qed.

Lemma sub_loop_stops fuel dbg rem acc : 0 < rem ->
  at_number (decode_subscribe_loop (S fuel) dbg rem acc)
  /\ left_at (decode_subscribe_loop (S fuel) dbg rem acc) [] = (decode_subscribe_loop (S fuel) dbg rem acc, []).
Proof. intros H. cbn [decode_subscribe_loop]. destruct (N.ltb_spec 0 rem); [|lia]. split; [exact I|reflexivity]. Qed.

Lemma unsub_loop_stops fuel dbg rem acc : 0 < rem ->
  at_number (decode_unsubscribe_loop (S fuel) dbg rem acc)
  /\ left_at (decode_unsubscribe_loop (S fuel) dbg rem acc) [] = (decode_unsubscribe_loop (S fuel) dbg rem acc, []).
Proof. intros H. cbn [decode_unsubscribe_loop]. destruct (N.ltb_spec 0 rem); [|lia]. split; [exact I|reflexivity]. Qed.

(** Filters [fs], then [f], inside which the declared length ends, then [gs], which are beyond it. *)
Lemma sub_loop_overrun fs f gs fuel rem : Forall sub_item fs -> sub_item f -> Forall sub_item gs ->
  lenN (concat fs) < rem -> rem < lenN (concat fs) + lenN f -> lenN (concat fs ++ f ++ concat gs) < 2 ^ 64 ->
  exists rem' subs, 0 < rem' /\ length subs = (length fs + 1 + length gs)%nat
    /\ left_at (decode_subscribe_loop (length fs + S (length gs + S fuel)) false rem []) (concat fs ++ f ++ concat gs)
       = (decode_subscribe_loop (S fuel) false rem' subs, []).
Proof.
  intros Hfs Hf Hgs H1 H2 HT. rewrite !lenN_app in HT.
  destruct (sub_items_read false fs (S (length gs + S fuel)) rem [] (f ++ concat gs) Hfs H1) as (a1 & L1 & ->).
  destruct (sub_item_read (length gs + S fuel) false (rem - lenN (concat fs)) a1 f (concat gs) Hf ltac:(lia) ltac:(now left))
    as (a2 & L2 & ->).
  destruct (N.leb_spec (lenN f) (rem - lenN (concat fs))) as [|_]; [lia|].
  rewrite <- (app_nil_r (concat gs)).
  destruct (sub_items_read false gs (S fuel) (rem - lenN (concat fs) + 2 ^ 64 - lenN f) a2 [] Hgs ltac:(lia))
    as (a3 & L3 & ->).
  eexists _, a3. split; [|split; [|apply sub_loop_stops]]; [|cbn [length] in *; lia|]; lia.
Qed.

Lemma unsub_loop_overrun fs f gs fuel rem : Forall unsub_item fs -> unsub_item f -> Forall unsub_item gs ->
  lenN (concat fs) < rem -> rem < lenN (concat fs) + lenN f -> lenN (concat fs ++ f ++ concat gs) < 2 ^ 64 ->
  exists rem' subs, 0 < rem' /\ length subs = (length fs + 1 + length gs)%nat
    /\ left_at (decode_unsubscribe_loop (length fs + S (length gs + S fuel)) false rem []) (concat fs ++ f ++ concat gs)
       = (decode_unsubscribe_loop (S fuel) false rem' subs, []).
Proof.
  intros Hfs Hf Hgs H1 H2 HT. rewrite !lenN_app in HT.
  destruct (unsub_items_read false fs (S (length gs + S fuel)) rem [] (f ++ concat gs) Hfs H1) as (a1 & L1 & ->).
  destruct (unsub_item_read (length gs + S fuel) false (rem - lenN (concat fs)) a1 f (concat gs) Hf ltac:(lia) ltac:(now left))
    as (a2 & L2 & ->).
  destruct (N.leb_spec (lenN f) (rem - lenN (concat fs))) as [|_]; [lia|].
  rewrite <- (app_nil_r (concat gs)).
  destruct (unsub_items_read false gs (S fuel) (rem - lenN (concat fs) + 2 ^ 64 - lenN f) a2 [] Hgs ltac:(lia))
    as (a3 & L3 & ->).
  eexists _, a3. split; [|split; [|apply unsub_loop_stops]]; [|cbn [length] in *; lia|]; lia.
Qed.

(** So the task that reads holds all these filters and waits for more: release build, any number of
    filters up to 2^64 bytes. *)
Theorem C120_collects h n i1 i0 fs f gs fuel : varint h n -> (length h <= 3)%nat ->
  Forall sub_item fs -> sub_item f -> Forall sub_item gs ->
  2 + lenN (concat fs) < n -> n < 2 + lenN (concat fs) + lenN f -> lenN (concat fs ++ f ++ concat gs) < 2 ^ 64 ->
  exists rem subs, 0 < rem /\ length subs = (length fs + 1 + length gs)%nat
    /\ left_at (read_packet (length fs + S (length gs + S fuel)) false) (x82 :: h ++ i1 :: i0 :: concat fs ++ f ++ concat gs)
       = (bind (decode_subscribe_loop (S fuel) false rem subs) (fun l => Ret (Subscribe (b2n i1 * 256 + b2n i0) l)), []).
Proof.
  intros Hv Hh Hfs Hf Hgs H1 H2 HT. unfold read_packet. cbn [get_u8 bind left_at]. cbv zeta.
  assert (HD : plain decode_remaining_length (h ++ i1 :: i0 :: concat fs ++ f ++ concat gs)
               = POk n (i1 :: i0 :: concat fs ++ f ++ concat gs)) by (apply decode_remaining_length_ok; eauto).
  rewrite (left_at_bind _ _ _ _ _ (left_at_ok _ _ _ _ HD)).
  change (N.shiftr (b2n x82) 4) with 8.
  cbn [N.eqb Pos.eqb PACKET_TYPE_CONNECT PACKET_TYPE_PUBLISH PACKET_TYPE_PUB_ACK PACKET_TYPE_PUB_REC PACKET_TYPE_PUB_REL
       PACKET_TYPE_PUB_COMP PACKET_TYPE_SUBSCRIBE].
  unfold decode_subscribe, decode_packet_with_packet_id, validate_first_byte.
  change (b2n x82 =? 0x82) with true. cbn [bind get_u16 left_at]. unfold sub64.
  destruct (N.leb_spec 2 n) as [_|]; [|lia]. cbn [bind].
  destruct (N.eqb_spec (n - 2) 0) as [|_]; [lia|].
  destruct (sub_loop_overrun fs f gs fuel (n - 2) Hfs Hf Hgs ltac:(lia) ltac:(lia) HT) as (rem & subs & Hr & HL & HE).
  exists rem, subs. split; [exact Hr|]. split; [exact HL|].
  apply left_at_stuck; [apply sub_loop_stops; exact Hr|exact HE].
Qed.

Theorem C120_collects_names h n i1 i0 fs f gs fuel : varint h n -> (length h <= 3)%nat ->
  Forall unsub_item fs -> unsub_item f -> Forall unsub_item gs ->
  2 + lenN (concat fs) < n -> n < 2 + lenN (concat fs) + lenN f -> lenN (concat fs ++ f ++ concat gs) < 2 ^ 64 ->
  exists rem names, 0 < rem /\ length names = (length fs + 1 + length gs)%nat
    /\ left_at (read_packet (length fs + S (length gs + S fuel)) false) (xa2 :: h ++ i1 :: i0 :: concat fs ++ f ++ concat gs)
       = (bind (decode_unsubscribe_loop (S fuel) false rem names) (fun l => Ret (Unsubscribe (b2n i1 * 256 + b2n i0) l)), []).
Proof.
  intros Hv Hh Hfs Hf Hgs H1 H2 HT. unfold read_packet. cbn [get_u8 bind left_at]. cbv zeta.
  assert (HD : plain decode_remaining_length (h ++ i1 :: i0 :: concat fs ++ f ++ concat gs)
               = POk n (i1 :: i0 :: concat fs ++ f ++ concat gs)) by (apply decode_remaining_length_ok; eauto).
  rewrite (left_at_bind _ _ _ _ _ (left_at_ok _ _ _ _ HD)).
  change (N.shiftr (b2n xa2) 4) with 10.
  cbn [N.eqb Pos.eqb PACKET_TYPE_CONNECT PACKET_TYPE_PUBLISH PACKET_TYPE_PUB_ACK PACKET_TYPE_PUB_REC PACKET_TYPE_PUB_REL
       PACKET_TYPE_PUB_COMP PACKET_TYPE_SUBSCRIBE PACKET_TYPE_UNSUBSCRIBE].
  unfold decode_unsubscribe, decode_packet_with_packet_id, validate_first_byte.
  change (b2n xa2 =? 0xA2) with true. cbn [bind get_u16 left_at]. unfold sub64.
  destruct (N.leb_spec 2 n) as [_|]; [|lia]. cbn [bind].
  destruct (N.eqb_spec (n - 2) 0) as [|_]; [lia|].
  destruct (unsub_loop_overrun fs f gs fuel (n - 2) Hfs Hf Hgs ltac:(lia) ltac:(lia) HT) as (rem & subs & Hr & HL & HE).
  exists rem, subs. split; [exact Hr|]. split; [exact HL|].
  apply left_at_stuck; [apply unsub_loop_stops; exact Hr|exact HE].
Qed.

(** The same if the length field does not even cover the packet identifier. *)
Theorem C120_collects_short h n i1 i0 gs fuel : varint h n -> (length h <= 3)%nat -> n < 2 ->
  Forall sub_item gs -> lenN (concat gs) < 2 ^ 64 - 2 ->
  exists rem subs, 0 < rem /\ length subs = length gs
    /\ left_at (read_packet (length gs + S fuel) false) (x82 :: h ++ i1 :: i0 :: concat gs)
       = (bind (decode_subscribe_loop (S fuel) false rem subs) (fun l => Ret (Subscribe (b2n i1 * 256 + b2n i0) l)), []).
Proof.
  intros Hv Hh Hn Hgs HT. unfold read_packet. cbn [get_u8 bind left_at]. cbv zeta.
  assert (HD : plain decode_remaining_length (h ++ i1 :: i0 :: concat gs) = POk n (i1 :: i0 :: concat gs))
    by (apply decode_remaining_length_ok; eauto).
  rewrite (left_at_bind _ _ _ _ _ (left_at_ok _ _ _ _ HD)).
  change (N.shiftr (b2n x82) 4) with 8.
  cbn [N.eqb Pos.eqb PACKET_TYPE_CONNECT PACKET_TYPE_PUBLISH PACKET_TYPE_PUB_ACK PACKET_TYPE_PUB_REC PACKET_TYPE_PUB_REL
       PACKET_TYPE_PUB_COMP PACKET_TYPE_SUBSCRIBE].
  unfold decode_subscribe, decode_packet_with_packet_id, validate_first_byte.
  change (b2n x82 =? 0x82) with true. cbn [bind get_u16 left_at]. unfold sub64.
  destruct (N.leb_spec 2 n) as [|_]; [lia|]. cbn [bind].
  destruct (N.eqb_spec (n + 2 ^ 64 - 2) 0) as [|_]; [lia|].
  rewrite <- (app_nil_r (concat gs)).
  destruct (sub_items_read false gs (S fuel) (n + 2 ^ 64 - 2) [] [] Hgs ltac:(lia)) as (subs & HL & HE).
  eexists _, subs. split; [|split; [exact HL|]].
  2:{ apply left_at_stuck; [apply (sub_loop_stops fuel false (n + 2 ^ 64 - 2 - lenN (concat gs))); lia|].
      rewrite HE. apply sub_loop_stops. lia. }
  lia.
Qed.

Theorem C120_collects_names_short h n i1 i0 gs fuel : varint h n -> (length h <= 3)%nat -> n < 2 ->
  Forall unsub_item gs -> lenN (concat gs) < 2 ^ 64 - 2 ->
  exists rem names, 0 < rem /\ length names = length gs
    /\ left_at (read_packet (length gs + S fuel) false) (xa2 :: h ++ i1 :: i0 :: concat gs)
       = (bind (decode_unsubscribe_loop (S fuel) false rem names) (fun l => Ret (Unsubscribe (b2n i1 * 256 + b2n i0) l)), []).
Proof.
  intros Hv Hh Hn Hgs HT. unfold read_packet. cbn [get_u8 bind left_at]. cbv zeta.
  assert (HD : plain decode_remaining_length (h ++ i1 :: i0 :: concat gs) = POk n (i1 :: i0 :: concat gs))
    by (apply decode_remaining_length_ok; eauto).
  rewrite (left_at_bind _ _ _ _ _ (left_at_ok _ _ _ _ HD)).
  change (N.shiftr (b2n xa2) 4) with 10.
  cbn [N.eqb Pos.eqb PACKET_TYPE_CONNECT PACKET_TYPE_PUBLISH PACKET_TYPE_PUB_ACK PACKET_TYPE_PUB_REC PACKET_TYPE_PUB_REL
       PACKET_TYPE_PUB_COMP PACKET_TYPE_SUBSCRIBE PACKET_TYPE_UNSUBSCRIBE].
  unfold decode_unsubscribe, decode_packet_with_packet_id, validate_first_byte.
  change (b2n xa2 =? 0xA2) with true. cbn [bind get_u16 left_at]. unfold sub64.
  destruct (N.leb_spec 2 n) as [|_]; [lia|]. cbn [bind].
  destruct (N.eqb_spec (n + 2 ^ 64 - 2) 0) as [|_]; [lia|].
  rewrite <- (app_nil_r (concat gs)).
  destruct (unsub_items_read false gs (S fuel) (n + 2 ^ 64 - 2) [] [] Hgs ltac:(lia)) as (subs & HL & HE).
  eexists _, subs. split; [|split; [exact HL|]].
  2:{ apply left_at_stuck; [apply (unsub_loop_stops fuel false (n + 2 ^ 64 - 2 - lenN (concat gs))); lia|].
      rewrite HE. apply unsub_loop_stops. lia. }
  lia.
Qed.

(** ** An overrunning packet never becomes one *)

Lemma sub_loop_never dbg fuel : forall rem acc bs l r, lenN bs < rem ->
  plain (decode_subscribe_loop fuel dbg rem acc) bs <> POk l r.
Proof.
  induction fuel as [|fuel IH]; intros rem acc bs l r HL H; [discriminate|].
  cbn [decode_subscribe_loop] in H. destruct (N.ltb_spec 0 rem) as [Hr|Hr]; [|lia].
  rewrite plain_bind in H.
  destruct (get_string_cases bs) as [(s & r' & ES & -> & Hs & HU)|[(s & r' & i & ES & _)|(l' & ES)]];
    rewrite ES in H; cbn [pbind] in H; try discriminate.
  rewrite plain_bind, plain_get_u8 in H. destruct r' as [|q r']; cbn [pbind] in H; [discriminate|].
  destruct (2 <? b2n q); [discriminate|].
  assert (HK : lenN s + 3 + lenN r' < rem).
  { unfold field, be16, lenN in *. rewrite ?app_length in HL. cbn [length app] in HL. lia. }
  unfold sub64 in H. destruct (N.leb_spec (lenN s + 3) rem) as [_|]; [|lia]. cbn [bind] in H. rewrite plain_bind in H.
  destruct (plain (QoS_from_bits (b2n q)) r') as [x r2| | | |] eqn:EQ; cbn [pbind] in H; try discriminate.
  assert (r2 = r').
  { unfold QoS_from_bits in EQ. destruct (b2n q =? 0); [now injection EQ|]. destruct (b2n q =? 1); [now injection EQ|].
    destruct (b2n q =? 2); [now injection EQ|discriminate]. }
  subst r2. refine (IH _ _ _ _ _ _ H). lia.
Qed.

Lemma unsub_loop_never dbg fuel : forall rem acc bs l r, lenN bs < rem ->
  plain (decode_unsubscribe_loop fuel dbg rem acc) bs <> POk l r.
Proof.
  induction fuel as [|fuel IH]; intros rem acc bs l r HL H; [discriminate|].
  cbn [decode_unsubscribe_loop] in H. destruct (N.ltb_spec 0 rem) as [Hr|Hr]; [|lia].
  rewrite plain_bind in H.
  destruct (get_string_cases bs) as [(s & r' & ES & -> & Hs & HU)|[(s & r' & i & ES & _)|(l' & ES)]];
    rewrite ES in H; cbn [pbind] in H; try discriminate.
  assert (HK : lenN s + 2 + lenN r' < rem).
  { unfold field, be16, lenN in *. rewrite ?app_length in HL. cbn [length app] in HL. lia. }
  unfold sub64 in H. destruct (N.leb_spec (lenN s + 2) rem) as [_|]; [|lia]. cbn [bind] in H.
  refine (IH _ _ _ _ _ _ H). lia.
Qed.

Lemma items_short (P : bytes -> Prop) fs : (forall f, P f -> f <> []) -> Forall P fs -> (length fs <= length (concat fs))%nat.
Proof.
  intros HP. induction 1 as [|f fs Hf _ IH]; cbn [concat length]; [lia|]. rewrite app_length.
  specialize (HP f Hf). destruct f; [congruence|]. cbn [length]. lia.
Qed.

(** The packet is never finished, and with overflow checks the task panics. *)
Theorem C120_no_packet bs : overrun bs ->
  decode true bs = PPanic /\ (lenN bs < 2 ^ 64 -> forall p r, decode false bs <> POk p r).
Proof.
  intros (h & n & i1 & i0 & xs & Hv & Hh & HC).
  assert (HD : plain decode_remaining_length (h ++ i1 :: i0 :: xs) = POk n (i1 :: i0 :: xs))
    by (apply decode_remaining_length_ok; eauto).
  assert (HB : forall (P : bytes -> Prop) fs f rest, (forall f, P f -> f <> []) -> Forall P fs -> P f -> xs = concat fs ++ f ++ rest ->
    lenN bs = 3 + lenN h + lenN xs -> exists fuel', S (length bs) = (length fs + S fuel')%nat).
  { intros P fs f rest HP HF Hf -> HL. exists (length bs - length fs)%nat. pose proof (items_short P fs HP HF).
    unfold lenN in HL. rewrite app_length in HL. lia. }
  destruct HC as [(E & HC)|(E & HC)].
  - assert (HX : forall dbg, decode dbg bs = plain (decode_subscribe (S (length bs)) dbg (b2n x82) n) (i1 :: i0 :: xs)).
    { intros dbg. unfold decode. rewrite E at 2. unfold read_packet. rewrite plain_bind, plain_get_u8. cbn [pbind]. cbv zeta.
      rewrite plain_bind, HD. cbn [pbind]. reflexivity. }
    rewrite !HX. assert (HLB : lenN bs = 3 + lenN h + lenN xs).
    { rewrite E, lenN_cons, lenN_app, !lenN_cons. lia. }
    set (F := S (length bs)) in *. clearbody F.
    unfold decode_subscribe, decode_packet_with_packet_id, validate_first_byte. change (b2n x82 =? 0x82) with true. cbv iota. cbn [bind].
    rewrite !plain_bind, plain_get_u16. cbn [pbind]. unfold sub64. destruct (N.leb_spec 2 n) as [Hn|Hn].
    + destruct HC as [|(fs & f & rest & -> & HF & Hf & H1 & H2)]; [lia|].
      destruct (HB sub_item fs f rest) as (fuel & ->); try assumption; try reflexivity.
      { intros g (s & q & -> & _). discriminate. }
      cbn [bind]. destruct (N.eqb_spec (n - 2) 0) as [|_]; [lia|]. split.
      * rewrite plain_bind, left_at_plain.
        destruct (sub_items_read true fs (S fuel) (n - 2) [] (f ++ rest) HF H1) as (acc & _ & ->).
        rewrite <- left_at_plain. destruct Hf as (s & q & -> & Hs & Hq). cbn [decode_subscribe_loop].
        destruct (N.ltb_spec 0 (n - 2 - lenN (concat fs))) as [_|]; [|lia].
        rewrite plain_bind. rewrite left_at_plain, <- !app_assoc, (left_at_string s _ Hs). cbn [fst snd plain pbind app].
        rewrite plain_bind, plain_get_u8. cbn [pbind]. destruct (N.ltb_spec 2 (b2n q)) as [|_]; [lia|].
        unfold sub64. cbn [be16 app] in H2. rewrite ?lenN_cons, ?lenN_app, ?lenN_cons, ?lenN_nil in H2.
        destruct (N.leb_spec (lenN s + 3) (n - 2 - lenN (concat fs))) as [|_]; [lia|]. reflexivity.
      * intros HT p r H. rewrite plain_bind, left_at_plain in H.
        destruct (sub_items_read false fs (S fuel) (n - 2) [] (f ++ rest) HF H1) as (acc & _ & EA). rewrite EA in H.
        destruct (sub_item_read fuel false (n - 2 - lenN (concat fs)) acc f rest Hf ltac:(lia) ltac:(now left)) as (acc' & _ & EB).
        rewrite EB in H. rewrite <- left_at_plain in H. destruct (N.leb_spec (lenN f) (n - 2 - lenN (concat fs))) as [|_]; [lia|].
        destruct (plain _ rest) eqn:EQ in H; cbn [pbind] in H; try discriminate.
        refine (sub_loop_never _ _ _ _ _ _ _ _ EQ). rewrite HLB, !lenN_app in HT. lia.
    + cbn [bind]. split; [reflexivity|]. intros HT p r. destruct (N.eqb_spec (n + 2 ^ 64 - 2) 0) as [|_]; [lia|].
      rewrite plain_bind. intros H. destruct (plain _ xs) eqn:EQ in H; cbn [pbind] in H; try discriminate.
      refine (sub_loop_never _ _ _ _ _ _ _ _ EQ). lia.
  - assert (HX : forall dbg, decode dbg bs = plain (decode_unsubscribe (S (length bs)) dbg (b2n xa2) n) (i1 :: i0 :: xs)).
    { intros dbg. unfold decode. rewrite E at 2. unfold read_packet. rewrite plain_bind, plain_get_u8. cbn [pbind]. cbv zeta.
      rewrite plain_bind, HD. cbn [pbind]. reflexivity. }
    rewrite !HX. assert (HLB : lenN bs = 3 + lenN h + lenN xs).
    { rewrite E, lenN_cons, lenN_app, !lenN_cons. lia. }
    set (F := S (length bs)) in *. clearbody F.
    unfold decode_unsubscribe, decode_packet_with_packet_id, validate_first_byte. change (b2n xa2 =? 0xA2) with true. cbv iota. cbn [bind].
    rewrite !plain_bind, plain_get_u16. cbn [pbind]. unfold sub64. destruct (N.leb_spec 2 n) as [Hn|Hn].
    + destruct HC as [|(fs & f & rest & -> & HF & Hf & H1 & H2)]; [lia|].
      destruct (HB unsub_item fs f rest) as (fuel & ->); try assumption; try reflexivity.
      { intros g (s & -> & _). discriminate. }
      cbn [bind]. destruct (N.eqb_spec (n - 2) 0) as [|_]; [lia|]. split.
      * rewrite plain_bind, left_at_plain.
        destruct (unsub_items_read true fs (S fuel) (n - 2) [] (f ++ rest) HF H1) as (acc & _ & ->).
        rewrite <- left_at_plain. destruct Hf as (s & -> & Hs). cbn [decode_unsubscribe_loop].
        destruct (N.ltb_spec 0 (n - 2 - lenN (concat fs))) as [_|]; [|lia].
        rewrite plain_bind. rewrite left_at_plain, <- !app_assoc, (left_at_string s _ Hs). cbn [fst snd plain pbind app].
        unfold sub64. cbn [be16 app] in H2. rewrite ?lenN_cons, ?lenN_app, ?lenN_cons, ?lenN_nil in H2.
        destruct (N.leb_spec (lenN s + 2) (n - 2 - lenN (concat fs))) as [|_]; [lia|]. reflexivity.
      * intros HT p r H. rewrite plain_bind, left_at_plain in H.
        destruct (unsub_items_read false fs (S fuel) (n - 2) [] (f ++ rest) HF H1) as (acc & _ & EA). rewrite EA in H.
        destruct (unsub_item_read fuel false (n - 2 - lenN (concat fs)) acc f rest Hf ltac:(lia) ltac:(now left)) as (acc' & _ & EB).
        rewrite EB in H. rewrite <- left_at_plain in H. destruct (N.leb_spec (lenN f) (n - 2 - lenN (concat fs))) as [|_]; [lia|].
        destruct (plain _ rest) eqn:EQ in H; cbn [pbind] in H; try discriminate.
        refine (unsub_loop_never _ _ _ _ _ _ _ _ EQ). rewrite HLB, !lenN_app in HT. lia.
    + cbn [bind]. split; [reflexivity|]. intros HT p r. destruct (N.eqb_spec (n + 2 ^ 64 - 2) 0) as [|_]; [lia|].
      rewrite plain_bind. intros H. destruct (plain _ xs) eqn:EQ in H; cbn [pbind] in H; try discriminate.
      refine (unsub_loop_never _ _ _ _ _ _ _ _ EQ). lia.
Qed.

(** ** What is reserved *)

(** Every size for which the program asks for a buffer, whatever bytes come. *)
Fixpoint asks {A} (P : N -> Prop) (m : rd A) : Prop :=
  match m with
  | GetU8 k => forall b, asks P (k b)
  | GetU16 k => forall n, n < 65536 -> asks P (k n)
  | GetBytes size k => P size /\ forall x, lenN x = size -> asks P (k x)
  | _ => True
  end.

Lemma asks_bind {A B} P (m : rd A) (f : A -> rd B) : asks P m -> (forall a, asks P (f a)) -> asks P (bind m f).
Proof.
  intros Hm Hf. induction m as [a|e| | |k IH|k IH|size k IH]; cbn [bind asks] in *; auto.
  destruct Hm as [H1 H2]. auto.
Qed.

(** As much as a PUBLISH can announce after its empty topic; or so much that the broker panics at once. *)
Definition modest (size : N) : Prop := size <= 2097149 \/ isize_max < size.

Lemma asks_string_bind {A} (k : bytes -> rd A) : (forall s, lenN s < 65536 -> asks modest (k s)) ->
  asks modest (bind get_string k).
Proof.
  intros H. cbn [get_string get_u16 get_bytes bind asks]. intros n Hn. split; [left; lia|].
  intros x Hx. destruct (from_utf8 x); cbn [bind]; [exact I|]. apply H. lia.
Qed.

Lemma asks_sub64 {A} dbg a b (k : N -> rd A) : asks modest (k (if b <=? a then a - b else a + 2 ^ 64 - b)) ->
  asks modest (bind (sub64 dbg a b) k).
Proof. unfold sub64. destruct (b <=? a); [auto|]. destruct dbg; cbn [bind asks]; auto. Qed.

Lemma asks_qos {A} bits (k : QoS -> rd A) : (forall q, asks modest (k q)) -> asks modest (bind (QoS_from_bits bits) k).
Proof. intros H. unfold QoS_from_bits. destruct (bits =? 0), (bits =? 1), (bits =? 2); cbn [bind asks]; auto. Qed.

Lemma asks_sub_loop dbg fuel : forall rem acc, asks modest (decode_subscribe_loop fuel dbg rem acc).
Proof.
  induction fuel as [|fuel IH]; intros rem acc; [exact I|]. cbn [decode_subscribe_loop].
  destruct (0 <? rem); [|exact I]. apply asks_string_bind. intros s _. cbn [get_u8 bind asks]. intros b.
  destruct (2 <? b2n b); [exact I|]. apply asks_sub64. apply asks_qos. intros q. apply IH.
Qed.

Lemma asks_unsub_loop dbg fuel : forall rem acc, asks modest (decode_unsubscribe_loop fuel dbg rem acc).
Proof.
  induction fuel as [|fuel IH]; intros rem acc; [exact I|]. cbn [decode_unsubscribe_loop].
  destruct (0 <? rem); [|exact I]. apply asks_string_bind. intros s _. apply asks_sub64. apply IH.
Qed.

Lemma land127_lt b : N.land (b2n b) 127 <= 127.
Proof. rewrite land127. lia. Qed.

Lemma asks_length {A} (k : N -> rd A) fuel : forall rl mult, rl < mult -> (forall n, n < 2097152 -> asks modest (k n)) ->
  asks modest (bind (decode_remaining_length_loop fuel rl mult) k).
Proof.
  induction fuel as [|fuel IH]; intros rl mult Hr Hk; [exact I|].
  cbn [decode_remaining_length_loop get_u8 bind asks]. intros b. cbv zeta.
  pose proof (land127_lt b) as Hb.
  change (128 * 128 * 128) with 2097152.
  destruct (N.ltb_spec 2097152 (mult * 128)) as [|Hm]; [exact I|].
  destruct (N.land (b2n b) 128 =? 0); [apply Hk; nia|].
  apply IH; [nia|exact Hk].
Qed.

Lemma asks_publish dbg fb n : n < 2097152 -> asks modest (decode_publish dbg fb n).
Proof.
  intros Hn. unfold decode_publish. cbv zeta. apply asks_qos. intros q.
  apply asks_string_bind. intros t Ht. apply asks_sub64. apply asks_sub64.
  set (m := if 2 <=? _ then _ else _).
  assert (Hm : m + 2 <= n \/ 2 ^ 63 + 100 < m).
  { unfold m. destruct (N.leb_spec (lenN t) n).
    - destruct (N.leb_spec 2 (n - lenN t)); lia.
    - destruct (N.leb_spec 2 (n + 2 ^ 64 - lenN t)); lia. }
  clearbody m.
  assert (HB : forall pid m', m' + 2 <= n \/ isize_max < m' -> asks modest (body <- get_bytes m' ;;
      Ret (Publish (PublishPacket_new t body q (flag_set fb 1) pid (flag_set fb 8))))).
  { intros pid m' Hm'. cbn [get_bytes bind asks]. split; [|intros; exact I]. unfold modest. lia. }
  destruct (qos_gt0 q).
  - unfold sub64. destruct (N.leb_spec 2 m).
    + cbn [bind get_u16 asks]. intros i _. apply HB. unfold isize_max. lia.
    + destruct dbg; cbn [bind get_u16 asks]; [exact I|]. intros i _. apply HB. unfold isize_max. lia.
  - cbn [bind]. apply HB. unfold isize_max. lia.
Qed.

Theorem C120_reserved fuel dbg : asks modest (read_packet fuel dbg).
Proof.
  unfold read_packet. cbn [get_u8 bind asks]. intros b. cbv zeta.
  apply asks_length; [lia|]. intros n Hn.
  assert (HA : forall e (k : N -> ControlPacket), asks modest (i <- decode_packet_with_packet_id (b2n b) e ;; Ret (k i))).
  { intros e k. unfold decode_packet_with_packet_id, validate_first_byte.
    destruct (b2n b =? e); cbn [bind get_u16 asks]; [|exact I]. intros; exact I. }
  destruct (_ =? PACKET_TYPE_CONNECT).
  { unfold decode_connect. apply asks_string_bind. intros _ _. cbn [get_u8 get_u16 bind asks]. intros _ f. cbv zeta. intros ka _.
    apply asks_string_bind. intros cid _.
    apply asks_bind; [destruct (flag_set (b2n f) 128); [apply asks_string_bind; intros; exact I|exact I]|]. intros u.
    apply asks_bind; [destruct (flag_set (b2n f) 64); [apply asks_string_bind; intros; exact I|exact I]|]. intros p. exact I. }
  destruct (_ =? PACKET_TYPE_PUBLISH); [now apply asks_publish|].
  destruct (_ =? PACKET_TYPE_PUB_ACK); [apply HA|].
  destruct (_ =? PACKET_TYPE_PUB_REC); [apply HA|].
  destruct (_ =? PACKET_TYPE_PUB_REL); [apply HA|].
  destruct (_ =? PACKET_TYPE_PUB_COMP); [apply HA|].
  destruct (_ =? PACKET_TYPE_SUBSCRIBE).
  { unfold decode_subscribe, decode_packet_with_packet_id, validate_first_byte.
    destruct (b2n b =? 0x82); cbn [bind get_u16 asks]; [|exact I]. intros i _. apply asks_sub64.
    destruct (_ =? 0); [exact I|]. apply asks_bind; [apply asks_sub_loop|]. intros; exact I. }
  destruct (_ =? PACKET_TYPE_UNSUBSCRIBE).
  { unfold decode_unsubscribe, decode_packet_with_packet_id, validate_first_byte.
    destruct (b2n b =? 0xA2); cbn [bind get_u16 asks]; [|exact I]. intros i _. apply asks_sub64.
    destruct (_ =? 0); [exact I|]. apply asks_bind; [apply asks_unsub_loop|]. intros; exact I. }
  destruct (_ =? PACKET_TYPE_PING_REQ); [exact I|]. destruct (_ =? PACKET_TYPE_DISCONNECT); exact I.
Qed.

(** The bound is reached with six bytes, before CONNECT: a PUBLISH of QoS 0 with an empty topic. *)
Theorem C120_six_bytes fuel dbg : exists k,
  left_at (read_packet fuel dbg) [x30; xff; xff; x7f; x00; x00] = (GetBytes 2097149 k, []).
Proof. eexists. destruct dbg; cbv; reflexivity. Qed.

(** On the stream itself: one filter of one byte in a SUBSCRIBE of length 5, where it takes six; then
    [k] empty filters of three bytes each. *)
Definition flood (k : nat) : bytes := [x82; x05; x00; x01; x00; x01; x61; x00] ++ concat (repeat [x00; x00; x00] k).

Lemma lrun_flood en k : forall fuel rem acc c g ks, (k < fuel)%nat -> 3 * N.of_nat k < rem ->
  lrun en (bind (decode_subscribe_loop fuel false rem acc) (fun l => Ret (Subscribe 1 l)))
       (concat (repeat [x00; x00; x00] k)) c g ks = end_out en [].
Proof.
  induction k as [|k IH]; intros fuel rem acc c g ks Hf Hr; (destruct fuel as [|fuel]; [lia|]);
    cbn [decode_subscribe_loop repeat concat app]; (destruct (N.ltb_spec 0 rem) as [_|]; [|lia]).
  - reflexivity.
  - unfold get_string. cbn [get_u16 get_u8 get_bytes bind lrun].
    change (b2n x00 * 256 + b2n x00) with 0.
    destruct (N.ltb_spec isize_max 0); [unfold isize_max in *; lia|].
    match goal with |- context [if ?a <? 0 then _ else _] => destruct (N.ltb_spec a 0) as [|_]; [lia|] end.
    match goal with |- context [if ?a <? 0 then _ else _] => destruct (N.ltb_spec a 0) as [|_]; [lia|] end.
    rewrite takeN_0, dropN_0. change (from_utf8 []) with (@None N). cbn [bind lrun].
    change (2 <? b2n x00) with false. cbv iota. unfold sub64.
    change (lenN [] + 3) with 3. destruct (N.leb_spec 3 rem) as [_|]; [|lia]. cbn [bind].
    change (QoS_from_bits (b2n x00)) with (Ret AtMostOnce). cbn [bind].
    apply IH; lia.
Qed.

Lemma grown_keeps n c g ks k : n <= c -> k <= n -> c - n <= fst (grown n c g) - taken ks n /\ snd (grown n c g) = g.
Proof.
  intros H _. unfold grown, taken. destruct (N.leb_spec n c); [|lia]. cbn [fst snd].
  split; [|reflexivity]. destruct (hd false ks); lia.
Qed.

Lemma length_flood k : length (flood k) = (8 + 3 * k)%nat.
Proof.
  unfold flood. rewrite app_length. cbn [length]. f_equal.
  induction k as [|k IH]; [reflexivity|]. cbn [repeat concat app length]. lia.
Qed.

Theorem C120_stream k s : arriving s = flood k -> 3 * N.of_nat k < 2 ^ 64 - 1 ->
  stream_read_packet false (connection_stream s)
  = match ending s with PeerOpen => RWait | PeerEof => RErr ErrClosed | PeerError => RErr ErrIo end.
Proof.
  intros Ha Hk. unfold stream_read_packet.
  assert (HP : pending (connection_stream s) = flood k) by exact Ha.
  rewrite HP, length_flood.
  destruct (run_eq (read_packet (S (8 + 3 * k)) false) (connection_stream s) (wf_new _ s)) as [HE _].
  rewrite HP in HE. set (ks := given_back _ _) in HE. clearbody ks.
  change (ending (rsk (connection_stream s))) with (ending s) in HE.
  change (grants (rsk (connection_stream s))) with (grants s) in HE.
  change (cap (rbuf (connection_stream s))) with 4096 in HE.
  assert (HL : lrun (ending s) (read_packet (S (8 + 3 * k)) false) (flood k) 4096 (grants s) ks = end_out (ending s) []).
  { clear HE HP. unfold flood, read_packet. cbn [get_u8 bind lrun app].
    pose proof (grown_keeps 1 4096 (grants s) ks 0 ltac:(lia) ltac:(lia)) as [C1 ->].
    set (c1 := fst _ - _) in *. clearbody c1.
    unfold decode_remaining_length. cbn [decode_remaining_length_loop get_u8 bind lrun].
    pose proof (grown_keeps 1 c1 (grants s) (tl ks) 0 ltac:(lia) ltac:(lia)) as [C2 ->].
    set (c2 := fst _ - _) in *. clearbody c2.
    cbv zeta. change (128 * 128 * 128 <? 1 * 128) with false. cbv iota.
    change (N.land (b2n x05) 128 =? 0) with true. cbv iota. cbn [bind].
    change (N.shiftr (b2n x82) 4) with 8.
    cbn [N.eqb Pos.eqb PACKET_TYPE_CONNECT PACKET_TYPE_PUBLISH PACKET_TYPE_PUB_ACK PACKET_TYPE_PUB_REC PACKET_TYPE_PUB_REL
         PACKET_TYPE_PUB_COMP PACKET_TYPE_SUBSCRIBE].
    unfold decode_subscribe, decode_packet_with_packet_id, validate_first_byte.
    change (b2n x82 =? 0x82) with true. cbv iota. cbn [bind get_u16 lrun].
    pose proof (grown_keeps 2 c2 (grants s) (tl (tl ks)) 0 ltac:(lia) ltac:(lia)) as [C3 ->].
    set (c3 := fst _ - _) in *. clearbody c3.
    change (0 + N.land (b2n x05) 127 * 1) with 5. unfold sub64 at 1. change (2 <=? 5) with true. cbv iota. cbn [bind].
    change (5 - 2 =? 0) with false. change (5 - 2) with 3. change (b2n x00 * 256 + b2n x01) with 1. cbv iota.
    remember (8 + 3 * k)%nat as fuel eqn:Ef. cbn [decode_subscribe_loop]. change (0 <? 3) with true. cbv iota.
    unfold get_string. cbn [get_u16 get_u8 get_bytes bind lrun].
    pose proof (grown_keeps 2 c3 (grants s) (tl (tl (tl ks))) 0 ltac:(lia) ltac:(lia)) as [C4 ->].
    set (c4 := fst _ - _) in *. clearbody c4.
    change (b2n x00 * 256 + b2n x01) with 1.
    change (isize_max <? 1) with false. cbv iota.
    destruct (N.ltb_spec c4 1) as [|_]; [lia|].
    match goal with |- context [if ?a <? 1 then _ else _] => destruct (N.ltb_spec a 1) as [Hx|_] end.
    { rewrite !lenN_cons in Hx. lia. }
    change (takeN 1 (x61 :: x00 :: ?r)) with [x61]. change (dropN 1 (x61 :: x00 :: ?r)) with (x00 :: r).
    change (from_utf8 [x61]) with (@None N). cbn [bind lrun].
    change (2 <? b2n x00) with false. cbv iota. unfold sub64.
    change (lenN [x61] + 3) with 4. change (4 <=? 3) with false. cbv iota. cbn [bind].
    change (QoS_from_bits (b2n x00)) with (Ret AtMostOnce). cbn [bind].
    apply lrun_flood; lia. }
  rewrite HL in HE. destruct (ending s), (run _ _); cbn in HE; congruence.
Qed.

(** The bound of [C120_unfinished] is reached, in both builds. *)
Lemma text_repeat k : N.of_nat k < 65536 -> text (repeat x61 k) /\ lenN (repeat x61 k) = N.of_nat k.
Proof.
  intros Hk. assert (HL : lenN (repeat x61 k) = N.of_nat k) by (unfold lenN; now rewrite repeat_length).
  split; [|exact HL]. split; [|unfold fits16; lia].
  exists (repeat 97 k). split.
  - apply Forall_forall. intros c Hc. apply repeat_spec in Hc. subst c. unfold scalar. lia.
  - clear. induction k as [|k IH]; [reflexivity|]. cbn [repeat flat_map]. rewrite <- IH. reflexivity.
Qed.

Lemma sub_item_repeat k : N.of_nat k < 65536 ->
  sub_item (be16 (lenN (repeat x61 k)) ++ repeat x61 k ++ [x00])
  /\ lenN (be16 (lenN (repeat x61 k)) ++ repeat x61 k ++ [x00]) = N.of_nat k + 3.
Proof.
  intros Hk. destruct (text_repeat k Hk) as [HT HL]. split.
  - exists (repeat x61 k), x00. split; [reflexivity|]. split; [exact HT|]. cbn. lia.
  - cbn [be16 app]. rewrite !lenN_cons, lenN_app, HL, lenN_cons, lenN_nil. lia.
Qed.

Lemma lenN_concat_repeat {A} (f : list A) k : lenN (concat (repeat f k)) = N.of_nat k * lenN f.
Proof.
  induction k as [|k IH]; [reflexivity|]. cbn [repeat concat]. rewrite lenN_app, IH. lia.
Qed.

Theorem C120_bound_reached dbg : exists bs, decode dbg bs = PMore [] /\ lenN bs = 2162691.
Proof.
  set (K := N.to_nat 65535). set (J := N.to_nat 65467).
  assert (HK : N.of_nat K = 65535) by (unfold K; lia). assert (HJ : N.of_nat J = 65467) by (unfold J; lia).
  clearbody K J.
  destruct (sub_item_repeat K ltac:(lia)) as [IK LK]. set (a := be16 (lenN (repeat x61 K)) ++ repeat x61 K ++ [x00]) in *.
  destruct (sub_item_repeat J ltac:(lia)) as [IJ LJ]. set (b := be16 (lenN (repeat x61 J)) ++ repeat x61 J ++ [x00]) in *.
  destruct (text_repeat K ltac:(lia)) as [TK TL]. clearbody a b.
  set (s := repeat x61 K) in *. clearbody s.
  set (fs := b :: repeat a 31).
  assert (HF : Forall sub_item fs).
  { constructor; [exact IJ|]. apply Forall_forall. intros f Hf. apply repeat_spec in Hf. now subst f. }
  assert (HL : lenN (concat fs) = 2097148).
  { unfold fs. cbn [concat]. rewrite lenN_app, lenN_concat_repeat, LK, LJ, HK, HJ. reflexivity. }
  assert (HN : length fs = 32%nat) by reflexivity.
  clearbody fs.
  exists ([x82; xff; xff; x7f] ++ [x00; x01] ++ concat fs ++ be16 (lenN s) ++ s).
  split; [|rewrite !lenN_app, HL, TL, HK; cbn [be16]; rewrite !lenN_cons, !lenN_nil; reflexivity].
  unfold decode. set (fuel := S (length _)).
  assert (Hfuel : exists fuel', fuel = (length fs + S fuel')%nat).
  { exists (fuel - 33)%nat. rewrite HN. unfold fuel. rewrite !app_length.
    enough (1000 <= length s)%nat by lia. unfold lenN in TL. lia. }
  clearbody fuel. destruct Hfuel as (fuel' & ->).
  unfold read_packet. cbn [app]. rewrite plain_bind, plain_get_u8. cbn [pbind]. cbv zeta.
  rewrite plain_bind.
  assert (HD : plain decode_remaining_length (xff :: xff :: x7f :: x00 :: x01 :: concat fs ++ be16 (lenN s) ++ s)
               = POk 2097151 (x00 :: x01 :: concat fs ++ be16 (lenN s) ++ s)).
  { apply decode_remaining_length_ok. exists [xff; xff; x7f]. split; [reflexivity|]. split; [|cbn; lia].
    change 2097151 with (b2n xff - 128 + 128 * (b2n xff - 128 + 128 * b2n x7f)).
    repeat constructor; cbn; lia. }
  rewrite HD. cbn [pbind]. change (N.shiftr (b2n x82) 4) with 8.
  cbn [N.eqb Pos.eqb PACKET_TYPE_CONNECT PACKET_TYPE_PUBLISH PACKET_TYPE_PUB_ACK PACKET_TYPE_PUB_REC PACKET_TYPE_PUB_REL
       PACKET_TYPE_PUB_COMP PACKET_TYPE_SUBSCRIBE].
  unfold decode_subscribe, decode_packet_with_packet_id, validate_first_byte.
  change (b2n x82 =? 0x82) with true. cbv iota. cbn [bind]. rewrite plain_bind, plain_get_u16. cbn [pbind].
  unfold sub64. change (2 <=? 2097151) with true. cbv iota. cbn [bind].
  change (2097151 - 2 =? 0) with false. change (2097151 - 2) with 2097149. cbv iota. rewrite plain_bind.
  rewrite left_at_plain.
  destruct (sub_items_read dbg fs (S fuel') 2097149 [] (be16 (lenN s) ++ s) HF ltac:(lia)) as (acc & _ & ->).
  rewrite HL. rewrite <- left_at_plain. change (2097149 - 2097148) with 1.
  cbn [decode_subscribe_loop]. change (0 <? 1) with true. cbv iota. rewrite plain_bind.
  assert (ES : plain get_string (be16 (lenN s) ++ s) = POk s []).
  { apply get_string_ok. split; [unfold field; now rewrite app_nil_r|]. destruct TK as [TU TF].
    split; [exact TF|now apply utf8_ok_iff]. }
  rewrite ES. cbn [pbind]. rewrite plain_bind. reflexivity.
Qed.

Example C120_case :
  decode true [x30; xff; xff; x7f; x00; x00] = PMore []
  /\ decode true (flood 2) = PPanic /\ decode false (flood 2) = PMore [] /\ overrun (flood 2)
  /\ stream_read_packet false (connection_stream {| arriving := flood 2; ending := PeerOpen; chunks := [3; 1]; grants := [];
                                                    reuse := true |}) = RWait.
Proof.
  split; [vm_compute; reflexivity|]. split; [vm_compute; reflexivity|]. split; [vm_compute; reflexivity|].
  split; [|vm_compute; reflexivity].
  exists [x05], 5, x00, x01, [x00; x01; x61; x00; x00; x00; x00; x00; x00; x00].
  split; [apply (varint_last x05); cbn; lia|]. split; [cbn; lia|]. left. split; [reflexivity|]. right.
  exists [], [x00; x01; x61; x00], [x00; x00; x00; x00; x00; x00]. split; [reflexivity|]. split; [constructor|].
  split; [|cbn; lia]. exists [x61], x00. split; [reflexivity|]. split; [|cbn; lia].
  split; [|unfold fits16; cbn; lia]. apply utf8_ok_iff. reflexivity.
Qed.
