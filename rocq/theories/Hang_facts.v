(** When the reader spins forever, exactly; and the whole-connection read loop. *)
From Verif Require Import Base Base_facts Utf8 Spec_utf8 Utf8_facts Packets Spec_wire Decoder
  ReadStream Plain ReadStream_facts Plain_facts Decoder_facts Panic_facts Conn.
Open Scope N_scope.
Ltac Zify.zify_post_hook ::= Z.div_mod_to_equations.

(** The read requests a program makes on the bytes [bs], in order; the last one may lack bytes. *)
Inductive req := RNum (n : N) | RField (n : N).

Definition req_size (r : req) : N := match r with RNum n | RField n => n end.

Definition total (rs : list req) : N := fold_right (fun r n => req_size r + n) 0 rs.

Fixpoint reads {A} (m : rd A) (bs : bytes) : list req :=
  match m with
  | Ret _ | Err _ | Boom | NoFuel => []
  | GetU8 k => RNum 1 :: match bs with b :: r => reads (k b) r | [] => [] end
  | GetU16 k => RNum 2 :: match bs with
                          | b1 :: b0 :: r => reads (k (b2n b1 * 256 + b2n b0)) r
                          | _ => [] end
  | GetBytes size k =>
    RField size ::
    (if isize_max <? size then [] else
     if lenN bs <? size then [] else reads (k (takeN size bs)) (dropN size bs))
  end.

(** Buffer capacity left after the requests [rs], starting from [c]: every consumed byte takes one
    away, except those of numbers whose room is given back ([ks], see [lrun]); a number that does not fit
    makes room for 64 bytes plus what the allocator gives. *)
Fixpoint room (c : N) (g : list N) (ks : list bool) (rs : list req) : N :=
  match rs with
  | [] => c
  | RNum k :: rs =>
    if k <=? c then room (c - taken ks k) g (tl ks) rs
    else room (c + 64 + hd 0 g - taken ks k) (tl g) (tl ks) rs
  | RField k :: rs => room (c - k) g ks rs
  end.

(** A field larger than the capacity left, when the rest of the capacity can be filled. *)
Definition overrun (bs : bytes) (c : N) (g : list N) (ks : list bool) (rs : list req) : Prop :=
  exists pre n post, rs = pre ++ RField n :: post /\ n <= isize_max
    /\ room c g ks pre < n /\ total pre + room c g ks pre <= lenN bs.

Lemma lrun_hung {A} en (m : rd A) : forall bs c g ks,
  lrun en m bs c g ks = LHung <-> overrun bs c g ks (reads m bs).
Proof.
  assert (HNIL : forall bs c g ks, overrun bs c g ks [] -> False).
  { intros bs c g ks (pre & n & post & H & _). destruct pre; discriminate. }
  assert (HE : forall {A} en bs, @end_out A en bs <> LHung) by (intros ? [] ?; discriminate).
  (* one request down *)
  assert (HNUM : forall k bs r rs c g ks c' g' ks', lenN bs = k + lenN r ->
     (forall rs', room c g ks (RNum k :: rs') = room c' g' ks' rs') ->
     overrun bs c g ks (RNum k :: rs) <-> overrun r c' g' ks' rs).
  { intros k bs r rs c g ks c' g' ks' Hl Hr. split.
    - intros (pre & n & post & H & Hn & H1 & H2). destruct pre as [|x pre]; [discriminate|].
      cbn [app] in H. injection H as <- ->. rewrite Hr in *.
      exists pre, n, post. cbn [total fold_right req_size] in H2. fold (total pre) in H2. repeat split; auto; lia.
    - intros (pre & n & post & -> & Hn & H1 & H2).
      exists (RNum k :: pre), n, post. rewrite Hr. cbn [total fold_right req_size]. fold (total pre). repeat split; auto; lia. }
  induction m as [a|e| | |k IH|k IH|size k IH]; intros bs c g ks; cbn [lrun reads];
    try (split; [discriminate|intros H; now apply HNIL in H]).
  - destruct bs as [|b r].
    { split; [intros H; now apply HE in H|]. intros (pre & n & post & H & _).
      destruct pre as [|? [|? ?]]; discriminate. }
    rewrite IH. symmetry. apply HNUM; [rewrite lenN_cons; lia|].
    intros rs'. cbn [room]. unfold grown. destruct (1 <=? c); reflexivity.
  - destruct bs as [|b1 [|b0 r]].
    { split; [intros H; now apply HE in H|]. intros (pre & n & post & H & _).
      destruct pre as [|? [|? ?]]; discriminate. }
    { split; [intros H; now apply HE in H|]. intros (pre & n & post & H & _).
      destruct pre as [|? [|? ?]]; discriminate. }
    rewrite IH. symmetry. apply HNUM; [rewrite !lenN_cons; lia|].
    intros rs'. cbn [room]. unfold grown. destruct (2 <=? c); reflexivity.
  - destruct (N.ltb_spec isize_max size) as [Hi|Hi].
    { split; [discriminate|]. intros (pre & n & post & H & Hn & _).
      destruct pre as [|? [|? ?]]; try discriminate. cbn [app] in H. injection H as -> _. lia. }
    destruct (N.ltb_spec c size) as [Hc|Hc].
    + destruct (N.ltb_spec (lenN bs) c) as [Hb|Hb].
      * split; [intros H; now apply HE in H|].
        destruct (N.ltb_spec (lenN bs) size); [|lia].
        intros (pre & n & post & H0 & Hn & H1 & H2).
        destruct pre as [|? [|? ?]]; try discriminate. cbn [app room] in *. change (total []) with 0 in H2. lia.
      * split; [|reflexivity]. intros _. exists [], size. eexists. cbn [app room].
        split; [reflexivity|]. change (total []) with 0. repeat split; auto; lia.
    + destruct (N.ltb_spec (lenN bs) size) as [Hb|Hb].
      * split; [intros H; now apply HE in H|].
        intros (pre & n & post & H0 & Hn & H1 & H2).
        destruct pre as [|? [|? ?]]; try discriminate. cbn [app room] in *. injection H0 as <-. lia.
      * rewrite IH. split.
        -- intros (pre & n & post & -> & Hn & H1 & H2).
           exists (RField size :: pre), n, post. cbn [app room total fold_right req_size]. fold (total pre).
           rewrite lenN_dropN in H2. repeat split; auto; lia.
        -- intros (pre & n & post & H0 & Hn & H1 & H2).
           destruct pre as [|x pre].
           { exfalso. cbn [app room] in *. injection H0 as <- _. lia. }
           cbn [app] in H0. injection H0 as <- H0. rewrite H0.
           exists pre, n, post. cbn [room total fold_right req_size] in *. fold (total pre) in H2.
           rewrite lenN_dropN. repeat split; auto; lia.
Qed.

Theorem run_hung {A} (m : rd A) st : wf st ->
  (run m st = RHung <->
   overrun (pending st) (cap (rbuf st)) (grants (rsk st)) (given_back m st) (reads m (pending st))).
Proof.
  intros W. destruct (run_eq m st W) as (HE & _).
  rewrite <- lrun_hung with (en := ending (rsk st)). rewrite <- HE.
  destruct (run m st); cbn; split; congruence.
Qed.

Lemma given_back_old {A} (m : rd A) st : reuse (rsk st) = false -> given_back m st = [].
Proof. unfold given_back. now intros ->. Qed.

(** ** Requests of composed programs *)

Lemma reads_bind {A B} (m : rd A) (f : A -> rd B) : forall bs,
  reads (bind m f) bs = reads m bs ++ match plain m bs with POk a r => reads (f a) r | _ => [] end.
Proof.
  induction m as [a|e| | |k IH|k IH|size k IH]; intros bs; cbn -[isize_max]; try reflexivity.
  - destruct bs; [reflexivity|]. now rewrite IH.
  - destruct bs as [|? [|? ?]]; try reflexivity. now rewrite IH.
  - destruct (isize_max <? size); [reflexivity|].
    destruct (lenN bs <? size); [reflexivity|]. now rewrite IH.
Qed.

Lemma total_app a b : total (a ++ b) = total a + total b.
Proof. induction a as [|x a IH]; [reflexivity|]. cbn [app total fold_right]. fold (total (a ++ b)) (total a). lia. Qed.

Lemma total_reads {A} (m : rd A) : forall bs a r,
  plain m bs = POk a r -> total (reads m bs) + lenN r = lenN bs.
Proof.
  induction m as [a0|e| | |k IH|k IH|size k IH]; intros bs a r H; cbn -[isize_max total] in *; try discriminate.
  - injection H as _ ->. reflexivity.
  - destruct bs; [discriminate|]. apply IH in H. cbn [total fold_right req_size].
    fold (total (reads (k b) bs)). rewrite lenN_cons. lia.
  - destruct bs as [|b1 [|b0 bs]]; try discriminate. apply IH in H. cbn [total fold_right req_size].
    fold (total (reads (k (b2n b1 * 256 + b2n b0)) bs)). rewrite !lenN_cons. lia.
  - destruct (isize_max <? size); [discriminate|].
    destruct (N.ltb_spec (lenN bs) size); [discriminate|]. apply IH in H. cbn [total fold_right req_size].
    fold (total (reads (k (takeN size bs)) (dropN size bs))). rewrite lenN_dropN in H. lia.
Qed.

Lemma total_cons x rs : total (x :: rs) = req_size x + total rs.
Proof. reflexivity. Qed.

(** Bytes requested as fields. *)
Definition fields (rs : list req) : N := fold_right (fun r n => match r with RNum _ => 0 | RField k => k end + n) 0 rs.

Lemma fields_cons x rs : fields (x :: rs) = match x with RNum _ => 0 | RField k => k end + fields rs.
Proof. reflexivity. Qed.

Lemma fields_app a b : fields (a ++ b) = fields a + fields b.
Proof. induction a as [|x a IH]; [reflexivity|]. cbn [app]. rewrite !fields_cons. lia. Qed.

Lemma fields_le rs : fields rs <= total rs.
Proof.
  induction rs as [|x rs IH]; [reflexivity|]. rewrite fields_cons, total_cons. destruct x; cbn [req_size]; lia.
Qed.

Lemma taken_le ks k : taken ks k <= k.
Proof. unfold taken. destruct (hd false ks); lia. Qed.

Lemma room_fits : forall rs c g ks, total rs <= c -> c - total rs <= room c g ks rs <= c - fields rs.
Proof.
  induction rs as [|[k|k] rs IH]; intros c g ks H; cbn [room].
  - change (total []) with 0. change (fields []) with 0. lia.
  - rewrite total_cons in *. rewrite fields_cons. cbn [req_size] in *. destruct (N.leb_spec k c); [|lia].
    pose proof (taken_le ks k). specialize (IH (c - taken ks k) g (tl ks) ltac:(lia)).
    pose proof (fields_le rs). lia.
  - rewrite total_cons in *. rewrite fields_cons. cbn [req_size] in *.
    specialize (IH (c - k) g ks ltac:(lia)). pose proof (fields_le rs). lia.
Qed.

Lemma room_plain : forall rs c g, total rs <= c -> room c g [] rs = c - total rs.
Proof.
  induction rs as [|[k|k] rs IH]; intros c g H; cbn [room].
  - change (total []) with 0. lia.
  - rewrite total_cons in H. cbn [req_size] in H. destruct (N.leb_spec k c); [|lia].
    unfold taken. cbn [hd tl]. rewrite IH by lia. rewrite total_cons. cbn [req_size]. lia.
  - rewrite total_cons in H. cbn [req_size] in H. rewrite IH by lia.
    rewrite total_cons. cbn [req_size]. lia.
Qed.

(** A complete item no larger than the capacity is read, and takes at most its length off the capacity. *)
Lemma lrun_fits {A} en (m : rd A) : forall bs a r c g ks,
  plain m bs = POk a r -> lenN bs - lenN r <= c ->
  exists c', lrun en m bs c g ks = LOk a r c' g /\ c - (lenN bs - lenN r) <= c' <= c
    /\ (ks = [] -> c' = c - (lenN bs - lenN r)).
Proof.
  induction m as [a0|e| | |k IH|k IH|size k IH]; intros bs a r c g ks H Hc; cbn [plain lrun] in *; try discriminate.
  - injection H as -> ->. exists c. split; [reflexivity|]. lia.
  - destruct bs as [|b bs]; [discriminate|].
    destruct (plain_suffix _ _ _ _ H) as [u Hu].
    assert (lenN bs = lenN u + lenN r) by (rewrite Hu, lenN_app; reflexivity).
    rewrite lenN_cons in *. unfold grown. destruct (N.leb_spec 1 c); [|lia]. cbn [fst snd].
    pose proof (taken_le ks 1).
    destruct (IH b bs a r (c - taken ks 1) g (tl ks)) as (c' & -> & HB & HK); [auto|lia|].
    exists c'. split; [reflexivity|]. split; [lia|]. intros ->. rewrite HK by reflexivity. unfold taken. cbn [hd]. lia.
  - destruct bs as [|b1 [|b0 bs]]; try discriminate.
    destruct (plain_suffix _ _ _ _ H) as [u Hu].
    assert (lenN bs = lenN u + lenN r) by (rewrite Hu, lenN_app; reflexivity).
    rewrite !lenN_cons in *. unfold grown. destruct (N.leb_spec 2 c); [|lia]. cbn [fst snd].
    pose proof (taken_le ks 2).
    destruct (IH _ bs a r (c - taken ks 2) g (tl ks) H) as (c' & -> & HB & HK); [lia|].
    exists c'. split; [reflexivity|]. split; [lia|]. intros ->. rewrite HK by reflexivity. unfold taken. cbn [hd]. lia.
  - destruct (isize_max <? size); [discriminate|].
    destruct (N.ltb_spec (lenN bs) size) as [|Hb]; [discriminate|].
    destruct (plain_suffix _ _ _ _ H) as [u Hu].
    assert (HL : lenN (dropN size bs) = lenN u + lenN r) by (rewrite Hu, lenN_app; reflexivity).
    pose proof HL as HL'. rewrite lenN_dropN in HL'.
    destruct (N.ltb_spec c size); [lia|].
    destruct (IH _ _ a r (c - size) g ks H) as (c' & -> & HB & HK); [lia|]. rewrite lenN_dropN in *.
    exists c'. split; [reflexivity|]. split; [lia|]. intros ->. rewrite HK by reflexivity. lia.
Qed.

Lemma run_fits {A} (m : rd A) st a u r : wf st ->
  pending st = u ++ r -> plain m (pending st) = POk a r -> lenN u <= cap (rbuf st) ->
  exists st', run m st = ROk a st' /\ pending st' = r /\ wf st' /\ ending (rsk st') = ending (rsk st)
    /\ cap (rbuf st) - lenN u <= cap (rbuf st') <= cap (rbuf st)
    /\ (reuse (rsk st) = false -> cap (rbuf st') = cap (rbuf st) - lenN u)
    /\ grants (rsk st') = grants (rsk st) /\ reuse (rsk st') = reuse (rsk st).
Proof.
  intros W Hp H Hc. destruct (run_eq m st W) as (HE & HG).
  pose proof (given_back_old m st) as Hks. set (ks := given_back m st) in *.
  destruct (lrun_fits (ending (rsk st)) m (pending st) a r (cap (rbuf st)) (grants (rsk st)) ks H) as (c' & HF & HB & HK).
  { rewrite Hp, lenN_app. lia. }
  rewrite HF in HE. rewrite Hp, lenN_app in HB, HK.
  destruct (run m st) as [a' st'| | | | |]; try discriminate. injection HE as -> H1 H2 H3.
  destruct HG as (W' & E' & U'). exists st'. split; [reflexivity|]. split; [exact H1|]. split; [exact W'|]. split; [exact E'|].
  split; [rewrite H2; lia|]. split; [|split; assumption].
  intros Hu. rewrite H2, HK by auto. lia.
Qed.

(** ** PUBLISH *)

Definition publish_head (b : byte) (h : bytes) (p : PublishPacket) : bytes :=
  b :: h ++ field (topic (message p)) ++ id_bytes (pub_packet_id p).

Lemma fields_length_loop fuel : forall bs n m, fields (reads (decode_remaining_length_loop fuel n m) bs) = 0.
Proof.
  induction fuel as [|fuel IH]; intros bs n m; [reflexivity|].
  cbn [decode_remaining_length_loop bind get_u8 reads]. rewrite fields_cons. destruct bs as [|b bs]; [reflexivity|].
  destruct (128 * 128 * 128 <? m * 128); [reflexivity|].
  destruct (N.land (b2n b) 128 =? 0); [reflexivity|]. rewrite IH. reflexivity.
Qed.

Lemma fields_string t r : fits16 t -> fields (reads get_string (field t ++ r)) = lenN t.
Proof.
  intros Hf. unfold get_string. rewrite reads_bind, fields_app. unfold field. rewrite <- app_assoc.
  unfold be16. cbn [app].
  unfold get_u16. cbn [reads plain bind get_bytes]. rewrite fields_cons. change (fields []) with 0.
  rewrite be16_val by exact Hf. cbn [reads get_bytes bind]. rewrite fields_cons.
  unfold fits16 in Hf. destruct (N.ltb_spec isize_max (lenN t)); [unfold isize_max in *; lia|].
  destruct (N.ltb_spec (lenN (t ++ r)) (lenN t)); [rewrite lenN_app in *; lia|].
  assert (K : forall x, fields (reads (match from_utf8 (takeN (lenN t) (t ++ r)) with
     | None => Ret (takeN (lenN t) (t ++ r)) | Some v => Err (ErrUtf8 (v + 1)) end) x) = 0).
  { intros x. destruct (from_utf8 _); reflexivity. }
  rewrite K. lia.
Qed.

Lemma reads_publish fuel dbg b h p r :
  varint h (lenN (packet_body (Publish p))) -> (length h <= 3)%nat -> b2n b / 16 = 3 ->
  b2n b / 2 mod 4 = qos_num (qos (message p)) -> text (topic (message p)) ->
  opt_id (qos (message p)) (pub_packet_id p) ->
  exists pre, reads (read_packet fuel dbg) (publish_head b h p ++ payload (message p) ++ r)
              = pre ++ [RField (lenN (payload (message p)))]
    /\ total pre = lenN (publish_head b h p) /\ fields pre = lenN (topic (message p)).
Proof.
  intros Hv Hh Ht Hq [Hu Hf] Hid.
  apply utf8_ok_iff in Hu.
  assert (Hlen : lenN (packet_body (Publish p))
     = lenN (topic (message p)) + 2 + lenN (id_bytes (pub_packet_id p)) + lenN (payload (message p))).
  { cbn [packet_body]. fold (id_bytes (pub_packet_id p)). rewrite !lenN_app, lenN_field. lia. }
  pose proof (opt_id_len _ _ Hid) as Hil.
  pose proof (varint3_bound _ _ Hv Hh) as Hb3.
  set (pl := payload (message p)) in *.
  set (t := topic (message p)) in *. set (ib := id_bytes (pub_packet_id p)) in *.
  unfold publish_head. fold t ib.
  rewrite read_packet_dispatch, reads_bind. cbn [app].
  rewrite plain_get_u8. rewrite <- !app_assoc.
  rewrite reads_bind.
  assert (E1 : plain decode_remaining_length (h ++ field t ++ ib ++ pl ++ r)
               = POk (lenN (packet_body (Publish p))) (field t ++ ib ++ pl ++ r))
    by (apply decode_remaining_length_ok; eauto).
  rewrite E1.
  pose proof (total_reads _ _ _ _ E1) as T1.
  unfold dispatch. cbv zeta. rewrite shiftr4, Ht. cbn [N.eqb Pos.eqb PACKET_TYPE_CONNECT PACKET_TYPE_PUBLISH].
  change (3 =? PACKET_TYPE_CONNECT) with false. change (3 =? PACKET_TYPE_PUBLISH) with true. cbv iota.
  unfold decode_publish. rewrite qos_field, Hq, QoS_from_bits_num. cbn [bind].
  rewrite reads_bind.
  assert (E2 : plain get_string (field t ++ ib ++ pl ++ r) = POk t (ib ++ pl ++ r))
    by (apply get_string_ok; auto).
  rewrite E2. pose proof (total_reads _ _ _ _ E2) as T2.
  destruct (sub64_cases dbg (lenN (packet_body (Publish p))) (lenN t)) as [(G1 & ES)|[(G1 & _ & ES)|(G1 & _ & ES)]];
    try (exfalso; lia). rewrite ES; clear ES. cbn [bind].
  destruct (sub64_cases dbg (lenN (packet_body (Publish p)) - lenN t) 2) as [(G2 & ES)|[(G2 & _ & ES)|(G2 & _ & ES)]];
    try (exfalso; lia). rewrite ES; clear ES. cbn [bind].
  rewrite !lenN_app in *.
  destruct (qos_gt0 (qos (message p))) eqn:Eq.
  - destruct (sub64_cases dbg (lenN (packet_body (Publish p)) - lenN t - 2) 2) as [(G3 & ES)|[(G3 & _ & ES)|(G3 & _ & ES)]];
      try (exfalso; lia). rewrite ES; clear ES. cbn [bind].
    replace (lenN (packet_body (Publish p)) - lenN t - 2 - 2) with (lenN pl) by lia.
    unfold get_u16 at 1. cbn [bind reads].
    destruct ib as [|i1 [|i0 [|]]]; try (rewrite ?lenN_cons, ?lenN_nil in Hil; lia).
    cbn [app].
    exists (reads get_u8 (b :: h ++ field t ++ i1 :: i0 :: pl ++ r) ++ reads decode_remaining_length (h ++ field t ++ i1 :: i0 :: pl ++ r)
       ++ reads get_string (field t ++ i1 :: i0 :: pl ++ r) ++ [RNum 2]).
    split.
    + rewrite <- !app_assoc. cbn [app]. do 4 f_equal.
      unfold get_bytes. cbn [bind reads].
      destruct (isize_max <? lenN pl); [reflexivity|]. destruct (lenN (pl ++ r) <? lenN pl); reflexivity.
    + split.
      2:{ rewrite !fields_app, fields_cons. unfold decode_remaining_length. rewrite fields_length_loop, fields_string by exact Hf.
          change (fields []) with 0. cbn [reads get_u8]. rewrite fields_cons. change (fields []) with 0. lia. }
      rewrite !total_app. cbn [app] in *. rewrite lenN_cons, !lenN_app, !lenN_cons, lenN_nil.
      rewrite total_cons. change (total []) with 0. cbn [req_size].
      cbn [reads get_u8]. rewrite total_cons. change (total []) with 0. cbn [req_size].
      rewrite ?lenN_cons in *. rewrite ?lenN_app in *. rewrite ?lenN_cons in *. rewrite ?lenN_app in *. lia.
  - cbn [bind].
    replace (lenN (packet_body (Publish p)) - lenN t - 2) with (lenN pl) by lia.
    assert (ib = []) as Hib by (apply lenN_0; lia). rewrite Hib in *. cbn [app].
    exists (reads get_u8 (b :: h ++ field t ++ pl ++ r) ++ reads decode_remaining_length (h ++ field t ++ pl ++ r)
       ++ reads get_string (field t ++ pl ++ r)).
    split.
    + rewrite <- !app_assoc. do 3 f_equal.
      unfold get_bytes. cbn [bind reads].
      destruct (isize_max <? lenN pl); [reflexivity|]. destruct (lenN (pl ++ r) <? lenN pl); reflexivity.
    + split.
      2:{ rewrite !fields_app. unfold decode_remaining_length. rewrite fields_length_loop, fields_string by exact Hf.
          cbn [reads get_u8]. rewrite fields_cons. change (fields []) with 0. lia. }
      rewrite !total_app. cbn [app] in *. rewrite lenN_cons, !lenN_app, ?lenN_nil.
      cbn [reads get_u8]. rewrite total_cons. change (total []) with 0. cbn [req_size].
      rewrite ?lenN_app in *. rewrite ?lenN_nil in *. lia.
Qed.

(** Once a PUBLISH has fully arrived and its header fits the capacity left, the reader hangs if topic and
    payload do not fit, and only if the whole packet does not fit; without [reuse] exactly then. *)
Theorem publish_hung dbg b h p r st : wf st ->
  varint h (lenN (packet_body (Publish p))) -> (length h <= 3)%nat -> b2n b / 16 = 3 ->
  b2n b / 2 mod 4 = qos_num (qos (message p)) -> text (topic (message p)) ->
  opt_id (qos (message p)) (pub_packet_id p) ->
  pending st = publish_head b h p ++ payload (message p) ++ r ->
  lenN (publish_head b h p) <= cap (rbuf st) ->
  (stream_read_packet dbg st = RHung -> cap (rbuf st) < lenN (publish_head b h p) + lenN (payload (message p)))
  /\ (cap (rbuf st) < lenN (topic (message p)) + lenN (payload (message p)) -> stream_read_packet dbg st = RHung)
  /\ (reuse (rsk st) = false -> cap (rbuf st) < lenN (publish_head b h p) + lenN (payload (message p)) ->
      stream_read_packet dbg st = RHung).
Proof.
  intros W Hv Hh Ht Hq Htx Hid Hp Hc. unfold stream_read_packet.
  pose proof (run_hung (read_packet (S (length (pending st))) dbg) st W) as HI.
  pose proof (given_back_old (read_packet (S (length (pending st))) dbg) st) as Hks.
  set (ks := given_back (read_packet (S (length (pending st))) dbg) st) in *.
  destruct (reads_publish (S (length (pending st))) dbg b h p r Hv Hh Ht Hq Htx Hid) as (pre & HR & HT & HF).
  rewrite <- Hp in HR. rewrite HR in HI.
  assert (Hpl : lenN (payload (message p)) < 2097152).
  { pose proof (varint3_bound _ _ Hv Hh) as X. cbn [packet_body] in X. rewrite !lenN_app in X. lia. }
  pose proof (room_fits pre (cap (rbuf st)) (grants (rsk st)) ks ltac:(lia)) as HB.
  assert (HO : room (cap (rbuf st)) (grants (rsk st)) ks pre < lenN (payload (message p)) ->
    total pre + room (cap (rbuf st)) (grants (rsk st)) ks pre <= lenN (pending st) ->
    run (read_packet (S (length (pending st))) dbg) st = RHung).
  { intros H1 H2. apply HI. exists pre, (lenN (payload (message p))), [].
    split; [reflexivity|]. split; [unfold isize_max; lia|]. split; assumption. }
  assert (HL : lenN (pending st) = lenN (publish_head b h p) + lenN (payload (message p)) + lenN r)
    by (rewrite Hp, !lenN_app; lia).
  split; [|split].
  - intros H. apply HI in H. destruct H as (pre' & n & post & E & Hn & H1 & H2).
    assert (HC : (pre' = pre /\ n = lenN (payload (message p))) \/ exists post', pre = pre' ++ RField n :: post').
    { clear - E. destruct post as [|x post] using rev_ind.
      - apply app_inj_tail in E. destruct E as [-> E]. injection E as <-. auto.
      - right. rewrite app_comm_cons, app_assoc in E. apply app_inj_tail in E. destruct E as [-> _]. eauto. }
    destruct HC as [(-> & ->)|(post' & ->)].
    + lia.
    + exfalso. rewrite total_app, total_cons in HT. cbn [req_size] in HT.
      pose proof (room_fits pre' (cap (rbuf st)) (grants (rsk st)) ks ltac:(lia)) as HB'. lia.
  - intros H. pose proof (fields_le pre). apply HO; lia.
  - intros Hu H. rewrite Hks in * by exact Hu. rewrite room_plain in * by lia. apply HO; lia.
Qed.
