(** Property C106: ordinary traffic makes a read task spin. *)
From Verif Require Import Base Base_facts Utf8 Spec_utf8 Utf8_facts Packets Spec_wire Decoder
  ReadStream Plain ReadStream_facts Plain_facts Decoder_facts Panic_facts Conn Hang_facts
  Encoder Encoder_facts Conform_facts Conn_facts Traffic_facts Prop_codec Prop_stream.
Open Scope N_scope.
Ltac Zify.zify_post_hook ::= Z.div_mod_to_equations.

(** ** C106 *)

(** A cut after [x] bytes of [bs], a PUBLISH of [p], goes through its topic or its payload; [before] says
    whether the text may also begin right there. *)
Definition cuts_text (before : N -> N -> Prop) (p : PublishPacket) (bs : bytes) (x : N) : Prop :=
  let payload_at := lenN bs - lenN (payload (message p)) in
  let topic_end := payload_at - match pub_packet_id p with Some _ => 2 | None => 0 end in
  (before (topic_end - lenN (topic (message p))) x /\ x < topic_end) \/ (before payload_at x /\ x < lenN bs).

(** Where the reads of a connection end, if its peer's bytes come in pieces of at most [chunks]. *)
Definition read_ends (r : rsock) : list N := ends_from 0 (chunks r).

(** The field that is cut. *)
Lemma cut_field (before : N -> N -> Prop) dbg p bs r x : (forall a b, before a b -> a <= b) -> sent_as (Publish p) bs -> cuts_text before p bs x ->
  exists front n post, reads (read_packet (S (length (bs ++ r))) dbg) (bs ++ r) = front ++ RField n :: post
    /\ n <= isize_max /\ before (total front) x /\ x < total front + n /\ total front + n <= lenN bs.
Proof.
  intros HB HS HC. pose proof (decode_sent dbg _ _ r HS) as HD. unfold decode in HD.
  destruct (reads_publish_parts _ _ _ _ _ HD) as (a & c & E & Ec).
  pose proof (total_reads _ _ _ _ HD) as HT. rewrite E, lenN_app in HT.
  rewrite total_app, total_cons, total_app, total_cons in HT. change (total []) with 0 in HT. cbn [req_size] in HT.
  assert (Eid : lenN (id_bytes (pub_packet_id p)) = match pub_packet_id p with Some _ => 2 | None => 0 end).
  { unfold id_bytes. destruct (pub_packet_id p); [reflexivity|reflexivity]. }
  assert (HM : lenN bs < 2097155 + 1).
  { destruct HS as (_ & _ & h & Hv & Hh & ->). pose proof (varint3_bound _ _ Hv Hh). rewrite lenN_cons, lenN_app.
    assert (lenN h <= 3) by (unfold lenN; lia). lia. }
  rewrite Eid in Ec. unfold cuts_text in HC. cbv zeta in HC. destruct HC as [(H1 & H2)|(H1 & H2)].
  - exists a, (lenN (topic (message p))), (c ++ [RField (lenN (payload (message p)))]). split; [exact E|].
    split; [unfold isize_max; lia|].
    replace (lenN bs - _ - _ - _) with (total a) in H1 by lia. split; [exact H1|]. lia.
  - exists (a ++ RField (lenN (topic (message p))) :: c), (lenN (payload (message p))), [].
    split; [rewrite E, <- app_assoc; reflexivity|]. split; [unfold isize_max; lia|].
    rewrite total_app, total_cons. cbn [req_size]. replace (lenN bs - _) with (total a + (lenN (topic (message p)) + total c)) in H1 by lia.
    split; [exact H1|]. lia.
Qed.

Lemma room_false : forall rs c g ks, Forall (eq false) ks -> room c g ks rs = room c g [] rs.
Proof.
  induction rs as [|[k|k] rs IH]; intros c g ks H; cbn [room]; [reflexivity| |now apply IH].
  assert (T : taken ks k = taken [] k /\ Forall (eq false) (tl ks)).
  { destruct H as [|b ks Hb H]; [split; [reflexivity|constructor]|]. subst b. split; [reflexivity|exact H]. }
  destruct T as (-> & HT). cbn [tl]. now rewrite !(IH _ _ _ HT).
Qed.

Lemma cut_hangs (before : N -> N -> Prop) dbg p bs rest st : (forall a b, before a b -> a <= b) -> wf st -> sent_as (Publish p) bs ->
  pending st = bs ++ rest -> cuts_text before p bs (cap (rbuf st)) ->
  Forall (eq false) (given_back (read_packet (S (length (pending st))) dbg) st) ->
  stream_read_packet dbg st = RHung.
Proof.
  intros HB W HS Hp HC HG. unfold stream_read_packet. apply run_hung; [exact W|].
  destruct (cut_field before dbg p bs rest _ HB HS HC) as (front & n & post & E & Hn & H1 & H2 & H3).
  apply HB in H1. exists front, n, post. rewrite Hp in *. split; [exact E|]. split; [exact Hn|].
  rewrite (room_false _ _ _ _ HG), room_plain by exact H1. split; [lia|]. rewrite lenN_app. lia.
Qed.

(** A peer sends packets in the form MQTT prescribes, of any size. If byte 4096 of what it sends falls into the
    topic or the payload of a PUBLISH, then the read task hands on the packets before that one and spins for
    ever on that one: before bytes 1.7 however the bytes come in; since then, if the reads that end before
    byte 4096 do so behind packets that end in a text or payload (or if there is none). *)
Theorem C106_ordinary_traffic_spins dbg ps bss p bs rest r :
  Forall2 sent_as ps bss -> sent_as (Publish p) bs -> arriving r = concat bss ++ bs ++ rest ->
  lenN (concat bss) <= 4096 ->
  (reuse r = false /\ cuts_text N.le p bs (4096 - lenN (concat bss)))
  \/ (cuts_text N.lt p bs (4096 - lenN (concat bss))
      /\ forall x, In x (read_ends r) -> 0 < x -> x < 4096 -> text_ends ps bss x) ->
  read_all dbg (connection_stream r) = (ps, EndHung).
Proof.
  intros HF HS Ha HL HC. set (st := connection_stream r).
  assert (Hp : pending st = concat bss ++ bs ++ rest) by exact Ha.
  assert (W : wf st) by apply wf_new.
  assert (EC : cap (rbuf st) = 4096) by reflexivity.
  assert (K : forall st' : rstream, wf st' -> stream_read_packet dbg st' = RHung ->
    read_all dbg st = (let '(qs, e) := read_all dbg st' in (ps ++ qs, e)) -> read_all dbg st = (ps, EndHung)).
  { intros st' W' E ->. rewrite (read_all_step dbg st' W'), E. now rewrite app_nil_r. }
  destruct HC as [(HU & HC)|(HC & HE)].
  - destruct (read_all_sent dbg ps bss st (bs ++ rest) W HF Hp ltac:(lia)) as (st' & W' & Hp' & _ & _ & Hc' & _ & Hu' & HR).
    apply (K st' W'); [|exact HR]. specialize (Hc' HU). rewrite EC in Hc'.
    apply (cut_hangs N.le dbg p bs rest st'); auto; [now rewrite Hc'|].
    rewrite given_back_old; [constructor|]. rewrite Hu'. exact HU.
  - assert (HB : forall a b, a < b -> a <= b) by (intros; lia).
    assert (HX : lenN (concat bss) < 4096 /\ 4096 - lenN (concat bss) < lenN bs).
    { destruct (cut_field N.lt dbg p bs rest _ HB HS HC) as (front & n & post & _ & _ & H1 & H2 & H3). lia. }
    destruct HX as (HX1 & HX2).
    destruct (read_all_quiet dbg ps bss st (bs ++ rest) W HF Hp) as (st' & W' & Hp' & _ & Hc' & HE' & HR).
    + intros E. apply (f_equal lenN) in E. rewrite lenN_app, lenN_nil in E. lia.
    + exact HX1.
    + intros x H1 H2 H3 _. now apply HE.
    + apply (K st' W'); [|exact HR]. rewrite EC in Hc'.
      apply (cut_hangs N.lt dbg p bs rest st'); auto; [now rewrite Hc'|]. apply given_back_quiet. apply quiet_run; [exact W'|].
      intros pre k post E HT. rewrite Hp' in E |- *.
      destruct (cut_field N.lt dbg p bs rest _ HB HS HC) as (front & n & post' & E' & _ & H1 & H2 & H3).
      rewrite E' in E.
      assert (HK : total pre + k <= total front).
      { rewrite Hc' in HT. clear - E HT H2. revert front E HT H2. generalize (4096 - lenN (concat bss)). intros c0 front.
        revert pre c0. induction front as [|q front IH]; intros pre c0 E HT H2; destruct pre as [|q0 pre]; cbn [app] in E.
        - discriminate.
        - apply cons_inj in E. destruct E as (<- & _). rewrite total_cons in HT. cbn [req_size] in HT. change (total []) with 0 in H2. lia.
        - apply cons_inj in E. destruct E as (-> & _). rewrite total_cons. change (total []) with 0. cbn [req_size]. lia.
        - apply cons_inj in E. destruct E as (<- & E). rewrite !total_cons in *.
          specialize (IH pre (c0 - req_size q) E ltac:(lia) ltac:(lia)). lia. }
      assert (Hk : 1 <= k).
      { eapply reads_num_pos with (m := read_packet (S (length (bs ++ rest))) dbg) (bs := bs ++ rest). rewrite E', E. apply in_elt. }
      rewrite lenN_app. split; [lia|]. split; [lia|]. intros Hin. apply (HE' _ Hin); [lia|lia|rewrite lenN_app; lia].
Qed.

Lemma repeat_sent p bs : sent_as p bs -> forall n, Forall2 sent_as (repeat p n) (repeat bs n).
Proof. intros H. induction n; constructor; auto. Qed.

Lemma lenN_concat_repeat (bs : bytes) : forall n, lenN (concat (repeat bs n)) = N.of_nat n * lenN bs.
Proof. induction n as [|n IH]; [reflexivity|]. cbn [repeat concat]. rewrite lenN_app, IH. lia. Qed.

Lemma ends_repeat l : forall j t x, 1 <= l -> In x (ends_from t (repeat l j)) -> exists i, x = t + N.of_nat i * l.
Proof.
  induction j as [|j IH]; intros t x Hl; cbn [repeat ends_from].
  - intros [<-|[]]. exists O. lia.
  - intros [<-|H]; [exists O; lia|]. apply IH in H; [|exact Hl]. destruct H as (i & ->). exists (S i). lia.
Qed.

Lemma repeat_text_ends c bs0 p bs m i : last_text c <> [] -> last_text p <> [] -> (i <= m)%nat ->
  text_ends (c :: repeat p m) (bs0 :: repeat bs m) (lenN bs0 + N.of_nat i * lenN bs).
Proof.
  intros Hc Hp Hi. destruct i as [|i].
  - exists [], c, (repeat p m), [], bs0, (repeat bs m). repeat split; auto. cbn [concat]. rewrite (@lenN_nil byte). lia.
  - exists (c :: repeat p i), p, (repeat p (m - S i)), (bs0 :: repeat bs i), bs, (repeat bs (m - S i)).
    assert (E : forall A (z : A), repeat z m = repeat z i ++ z :: repeat z (m - S i)).
    { intros A z. replace m with (i + S (m - S i))%nat at 1 by lia. now rewrite repeat_app. }
    rewrite !E. cbn [app length]. rewrite !repeat_length. repeat split; auto. cbn [concat].
    rewrite lenN_app, lenN_concat_repeat. lia.
Qed.

(** The simplest client: it connects and publishes the same small message again and again, each packet in a
    write of its own or faster. Unless byte 4096 happens to fall between two texts, the broker serves it
    [(4096 - length of CONNECT) / length of PUBLISH] messages, and no more. *)
Theorem C106_steady_publisher dbg c bs0 p bs rest r k :
  sent_as (Connect c) bs0 -> sent_as (Publish p) bs -> lenN bs0 <= 4096 ->
  let m := (4096 - lenN bs0) / lenN bs in
  m < k -> arriving r = bs0 ++ concat (repeat bs (N.to_nat k)) ++ rest ->
  (reuse r = false /\ cuts_text N.le p bs ((4096 - lenN bs0) mod lenN bs))
  \/ (cuts_text N.lt p bs ((4096 - lenN bs0) mod lenN bs)
      /\ last_text (Connect c) <> [] /\ payload (message p) <> []
      /\ (chunks r = [] \/ exists j, chunks r = lenN bs0 :: repeat (lenN bs) j)) ->
  read_all dbg (connection_stream r) = (Connect c :: repeat (Publish p) (N.to_nat m), EndHung).
Proof.
  intros H0 H1 HL m Hk Ha HC.
  assert (P0 : 1 <= lenN bs0) by (destruct H0 as (_ & _ & h & _ & _ & ->); rewrite lenN_cons; lia).
  assert (P1 : 1 <= lenN bs) by (destruct H1 as (_ & _ & h & _ & _ & ->); rewrite lenN_cons; lia).
  pose proof (N.div_mod (4096 - lenN bs0) (lenN bs) ltac:(lia)) as HD.
  pose proof (N.mod_lt (4096 - lenN bs0) (lenN bs) ltac:(lia)) as HM. fold m in HD.
  assert (HT : lenN (concat (bs0 :: repeat bs (N.to_nat m))) = lenN bs0 + m * lenN bs).
  { cbn [concat]. rewrite lenN_app, lenN_concat_repeat, N2Nat.id. reflexivity. }
  assert (HX : 4096 - (lenN bs0 + m * lenN bs) = (4096 - lenN bs0) mod lenN bs) by lia.
  apply (C106_ordinary_traffic_spins dbg _ (bs0 :: repeat bs (N.to_nat m)) p bs (concat (repeat bs (N.to_nat k - N.to_nat m - 1)) ++ rest)).
  - constructor; [exact H0|]. now apply repeat_sent.
  - exact H1.
  - rewrite Ha. cbn [concat]. rewrite <- !app_assoc. f_equal.
    replace (N.to_nat k) with (N.to_nat m + S (N.to_nat k - N.to_nat m - 1))%nat at 1 by lia.
    rewrite repeat_app, concat_app. cbn [repeat concat]. now rewrite <- !app_assoc.
  - rewrite HT. lia.
  - rewrite HT, HX. destruct HC as [HC|(HC & T0 & T1 & HJ)]; [now left|right]. split; [exact HC|].
    intros x Hin Hx1 Hx2. unfold read_ends in Hin. destruct HJ as [HJ|(j & HJ)]; rewrite HJ in Hin; cbn [ends_from] in Hin.
    + destruct Hin as [<-|[]]. lia.
    + destruct Hin as [<-|Hin]; [lia|]. rewrite N.max_r in Hin by exact P0. apply ends_repeat in Hin; [|exact P1].
      destruct Hin as (i & ->). apply repeat_text_ends; auto.
      assert (N.of_nat i < m + 1); [|lia]. apply N.mul_lt_mono_pos_r with (p := lenN bs); lia.
Qed.

(** A client that sends 25-byte messages is served 163 of them. *)
Definition ex_steady_connect : ConnectPacket :=
  {| version := Mqtt3; client_id := str "q"; keep_alive_seconds := 60; clean_session := true;
     will_message := None; user_name := None; password := None |}.

Definition ex_steady : PublishPacket :=
  {| pub_packet_id := None; dup := false;
     message := {| topic := str "t"; payload := str "twenty bytes of data"; qos := AtMostOnce; retain := false |} |}.

Definition ex_steady_bytes (p : ControlPacket) : bytes := n2b (head_byte p) :: [n2b (lenN (packet_body p))] ++ packet_body p.

Lemma ex_steady_sent : sent_as (Connect ex_steady_connect) (ex_steady_bytes (Connect ex_steady_connect))
  /\ sent_as (Publish ex_steady) (ex_steady_bytes (Publish ex_steady)).
Proof.
  split; (split; [|split; [reflexivity|]]).
  - repeat split; now apply text_lit.
  - exists [n2b (lenN (packet_body (Connect ex_steady_connect)))].
    split; [|split; [cbn; lia|reflexivity]].
    match goal with |- varint [?b] ?n => change n with (b2n b) end. constructor. reflexivity.
  - split; [now apply text_lit|reflexivity].
  - exists [n2b (lenN (packet_body (Publish ex_steady)))].
    split; [|split; [cbn; lia|reflexivity]].
    match goal with |- varint [?b] ?n => change n with (b2n b) end. constructor. reflexivity.
Qed.

Example C106_case dbg (r : rsock) j : arriving r = ex_steady_bytes (Connect ex_steady_connect)
    ++ concat (repeat (ex_steady_bytes (Publish ex_steady)) (N.to_nat 200)) ++ [] ->
  chunks r = 15 :: repeat 25 j ->
  read_all dbg (connection_stream r) = (Connect ex_steady_connect :: repeat (Publish ex_steady) 163, EndHung).
Proof.
  intros Ha Hc. destruct ex_steady_sent as (S0 & S1).
  apply (C106_steady_publisher dbg _ _ _ _ [] r 200 S0 S1).
  - vm_compute. congruence.
  - vm_compute. reflexivity.
  - exact Ha.
  - right. split; [right; split; vm_compute; reflexivity|]. split; [discriminate|]. split; [discriminate|]. right. exists j. exact Hc.
Qed.
