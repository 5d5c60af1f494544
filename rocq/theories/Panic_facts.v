(** Which inputs make the packet reader panic, exactly. *)
From Verif Require Import Base Base_facts Utf8 Spec_utf8 Utf8_facts Packets Spec_wire Decoder
  ReadStream Plain ReadStream_facts Plain_facts Decoder_facts.
Open Scope N_scope.
Ltac Zify.zify_post_hook ::= Z.div_mod_to_equations.

(** [panics dbg b n r]: the body bytes [r] after a fixed header with first byte [b] and declared
    length [n] make the reader panic. *)
Inductive panics (dbg : bool) (b n : N) : bytes -> Prop :=
| panics_type r : In (b / 16) [0; 2; 9; 11; 13; 15] -> panics dbg b n r
| panics_qos3 r : b / 16 = 3 -> b / 2 mod 4 = 3 -> panics dbg b n r
| panics_publish q t r : b / 16 = 3 -> b / 2 mod 4 = qos_num q -> str_ok t ->
    n < 2 + lenN t + (if qos_gt0 q then 2 else 0) ->
    (dbg = true \/ qos_gt0 q = false \/ (2 <= length r)%nat) ->
    panics dbg b n (field t ++ r)
| panics_subscribe i subs r : b = 0x82 -> dbg = true -> i < 65536 -> Forall sub_ok subs ->
    (subs = [] \/ 2 + sub_size (removelast subs) < n) -> n < 2 + sub_size subs ->
    panics dbg b n (be16 i ++ flat_map sub_entry subs ++ r)
| panics_unsubscribe i ts r : b = 0xA2 -> dbg = true -> i < 65536 -> Forall str_ok ts ->
    (ts = [] \/ 2 + unsub_size (removelast ts) < n) -> n < 2 + unsub_size ts ->
    panics dbg b n (be16 i ++ flat_map field ts ++ r).

Lemma get_string_nopanic bs : plain get_string bs <> PPanic.
Proof.
  destruct (get_string_cases bs) as [(s & r & -> & _)|[(s & r & i & -> & _)|(l & ->)]]; discriminate.
Qed.

Lemma opt_string_nopanic c bs : plain (opt_string c) bs <> PPanic.
Proof.
  unfold opt_string. destruct c; [|discriminate]. rewrite plain_bind.
  pose proof (get_string_nopanic bs). destruct (plain get_string bs); cbn; congruence.
Qed.

Lemma get_u8_nopanic bs : plain get_u8 bs <> PPanic.
Proof. destruct bs; discriminate. Qed.

Lemma get_u16_nopanic bs : plain get_u16 bs <> PPanic.
Proof. destruct bs as [|? [|? ?]]; discriminate. Qed.

Lemma with_id_nopanic b fb bs : plain (decode_packet_with_packet_id b fb) bs <> PPanic.
Proof.
  unfold decode_packet_with_packet_id, validate_first_byte.
  destruct (b =? fb); cbn [bind]; [apply get_u16_nopanic|discriminate].
Qed.

Lemma bind_nopanic {A B} (m : rd A) (f : A -> rd B) bs :
  plain m bs <> PPanic -> (forall a r, plain m bs = POk a r -> plain (f a) r <> PPanic) ->
  plain (bind m f) bs <> PPanic.
Proof.
  intros H1 H2. rewrite plain_bind. destruct (plain m bs) eqn:E; cbn; try discriminate; auto.
Qed.

Lemma connect_nopanic fb rl bs : plain (decode_connect fb rl) bs <> PPanic.
Proof.
  unfold decode_connect.
  apply bind_nopanic; [apply get_string_nopanic|intros].
  apply bind_nopanic; [apply get_u8_nopanic|intros].
  apply bind_nopanic; [apply get_u8_nopanic|intros].
  apply bind_nopanic; [apply get_u16_nopanic|intros].
  apply bind_nopanic; [apply get_string_nopanic|intros].
  apply bind_nopanic; [apply opt_string_nopanic|intros].
  apply bind_nopanic; [apply opt_string_nopanic|intros].
  discriminate.
Qed.

Lemma big_panics n (k : bytes -> rd ControlPacket) bs : isize_max < n -> plain (GetBytes n k) bs = PPanic.
Proof. intros H. cbn -[isize_max]. apply N.ltb_lt in H. now rewrite H. Qed.

Lemma small_nopanic n (f : bytes -> ControlPacket) bs : n < 2 ^ 62 ->
  plain (GetBytes n (fun b => Ret (f b))) bs <> PPanic.
Proof.
  intros H. cbn -[isize_max]. rewrite isize_max_big by exact H. destruct (lenN bs <? n); discriminate.
Qed.

Lemma qos_num_inj q q' : qos_num q = qos_num q' -> q = q'.
Proof. destruct q, q'; cbn; congruence. Qed.

Lemma publish_panics dbg b n bs : n < 2097152 -> b2n b / 16 = 3 ->
  plain (decode_publish dbg (b2n b) n) bs = PPanic <-> panics dbg (b2n b) n bs.
Proof.
  intros Hn Ht. unfold decode_publish. rewrite qos_field.
  destruct (QoS_from_bits_cases (b2n b / 2 mod 4)) as [(q & Eq & Hq)|(Eq & Hq)]; rewrite Eq; cbn [bind].
  2:{ split; [intros _|reflexivity]. apply panics_qos3; [exact Ht|]. lia. }
  rewrite plain_bind.
  destruct (get_string_cases bs) as [(s & r & E & Hb & L & U)|[(s & r & i & E & Hb & L & U)|(l & E)]];
    rewrite E; cbn [pbind].
  - assert (HP : panics dbg (b2n b) n bs <->
       n < 2 + lenN s + (if qos_gt0 q then 2 else 0) /\ (dbg = true \/ qos_gt0 q = false \/ (2 <= length r)%nat)).
    { split.
      - intros H. inversion H; subst; try lia.
        + cbn [In] in *. lia.
        + exfalso. rewrite Hq in *. destruct q; cbn in *; lia.
        + match goal with H : b2n b / 2 mod 4 = qos_num ?q' |- _ =>
            assert (q' = q) as -> by (apply qos_num_inj; congruence) end.
          match goal with Hs : str_ok ?t, HE : field ?t ++ ?r0 = field s ++ r |- _ =>
            assert (t = s /\ r0 = r) as [-> ->] end; [|auto].
          { match goal with Hs : str_ok ?t, HE : field ?t ++ ?r0 = field s ++ r |- _ =>
              destruct Hs as [Hs1 Hs2];
              assert (X1 : plain get_string (field t ++ r0) = POk t r0) by (apply get_string_ok; auto);
              rewrite HE, E in X1; injection X1 as -> ->; auto end. }
      - intros [H1 H2]. rewrite Hb. apply panics_publish with (q := q); auto. split; auto. }
    rewrite HP. clear HP. subst bs.
    assert (Hd : dbg = true -> plain Boom r = @PPanic ControlPacket) by reflexivity.
    destruct (sub64_cases dbg n (lenN s)) as [(G1 & ES)|[(G1 & D1 & ES)|(G1 & D1 & ES)]]; rewrite ES; cbn [bind]; clear ES.
    + destruct (sub64_cases dbg (n - lenN s) 2) as [(G2 & ES)|[(G2 & D2 & ES)|(G2 & D2 & ES)]]; rewrite ES; cbn [bind]; clear ES.
      * destruct (qos_gt0 q).
        -- destruct (sub64_cases dbg (n - lenN s - 2) 2) as [(G3 & ES)|[(G3 & D3 & ES)|(G3 & D3 & ES)]]; rewrite ES; cbn [bind]; clear ES.
           ++ unfold get_u16. cbn [bind]. destruct r as [|x1 [|x2 r]].
              ** cbn [plain length]. split; [discriminate|lia].
              ** cbn [plain length]. split; [discriminate|lia].
              ** cbn [plain]. split; [|lia]. intros H. exfalso. revert H. apply small_nopanic. lia.
           ++ split; [|reflexivity]. intros _. split; [lia|now left].
           ++ unfold get_u16. cbn [bind]. destruct r as [|x1 [|x2 r]].
              ** cbn [plain length]. split; [discriminate|]. intros [_ [?|[?|?]]]; [congruence|discriminate|lia].
              ** cbn [plain length]. split; [discriminate|]. intros [_ [?|[?|?]]]; [congruence|discriminate|lia].
              ** cbn [plain]. split; [intros _; split; [lia|right; right; cbn; lia]|].
                 intros _. apply big_panics. unfold isize_max. lia.
        -- cbn [bind]. split; [|lia]. intros H. exfalso. revert H. apply small_nopanic. lia.
      * split; [|reflexivity]. intros _. split; [lia|now left].
      * destruct (qos_gt0 q).
        -- destruct (sub64_cases dbg (n - lenN s + 2 ^ 64 - 2) 2) as [(G3 & ES)|[(G3 & D3 & ES)|(G3 & D3 & ES)]]; rewrite ES; cbn [bind]; clear ES.
           ++ unfold get_u16. cbn [bind]. destruct r as [|x1 [|x2 r]].
              ** cbn [plain length]. split; [discriminate|]. intros [_ [?|[?|?]]]; [congruence|discriminate|lia].
              ** cbn [plain length]. split; [discriminate|]. intros [_ [?|[?|?]]]; [congruence|discriminate|lia].
              ** cbn [plain]. split; [intros _; split; [lia|right; right; cbn; lia]|].
                 intros _. apply big_panics. unfold isize_max. lia.
           ++ congruence.
           ++ lia.
        -- cbn [bind]. split; [intros _; split; [lia|auto]|]. intros _. apply big_panics. unfold isize_max. lia.
    + split; [|reflexivity]. intros _. split; [|now left]. destruct (qos_gt0 q); lia.
    + destruct (sub64_cases dbg (n + 2 ^ 64 - lenN s) 2) as [(G2 & ES)|[(G2 & D2 & ES)|(G2 & D2 & ES)]]; rewrite ES; cbn [bind]; clear ES; [|congruence|lia].
      destruct (qos_gt0 q).
      * destruct (sub64_cases dbg (n + 2 ^ 64 - lenN s - 2) 2) as [(G3 & ES)|[(G3 & D3 & ES)|(G3 & D3 & ES)]]; rewrite ES; cbn [bind]; clear ES; [|congruence|lia].
        unfold get_u16. cbn [bind]. destruct r as [|x1 [|x2 r]].
        -- cbn [plain length]. split; [discriminate|]. intros [_ [?|[?|?]]]; [congruence|discriminate|lia].
        -- cbn [plain length]. split; [discriminate|]. intros [_ [?|[?|?]]]; [congruence|discriminate|lia].
        -- cbn [plain]. split; [intros _; split; [lia|right; right; cbn; lia]|].
           intros _. apply big_panics. unfold isize_max. lia.
      * cbn [bind]. split; [intros _; split; [lia|auto]|]. intros _. apply big_panics. unfold isize_max. lia.
  - split; [discriminate|]. intros H. inversion H; subst; try lia.
    + cbn [In] in *. lia.
    + rewrite Hq in *. destruct q; cbn in *; lia.
    + match goal with Hs : str_ok ?t, HE : field ?t ++ ?r0 = _ |- _ =>
        destruct Hs as [Hs1 Hs2];
        assert (X1 : plain get_string (field t ++ r0) = POk t r0) by (apply get_string_ok; auto);
        rewrite HE, E in X1; discriminate end.
  - split; [discriminate|]. intros H. inversion H; subst; try lia.
    + cbn [In] in *. lia.
    + rewrite Hq in *. destruct q; cbn in *; lia.
    + match goal with Hs : str_ok ?t |- _ =>
        destruct Hs as [Hs1 Hs2];
        match goal with X : plain get_string (field t ++ ?r0) = PMore _ |- _ =>
        assert (X1 : plain get_string (field t ++ r0) = POk t r0) by (apply get_string_ok; auto);
        rewrite X in X1; discriminate end end.
Qed.

(** The payload loops panic when an entry crosses the declared end, in debug builds only. *)
Lemma sub_loop_panics dbg fuel : forall rl acc bs, (length bs < fuel)%nat ->
  (plain (decode_subscribe_loop fuel dbg rl acc) bs = PPanic <->
   dbg = true /\ exists subs r, bs = flat_map sub_entry subs ++ r /\ Forall sub_ok subs /\ subs <> []
     /\ sub_size (removelast subs) < rl /\ rl < sub_size subs).
Proof.
  induction fuel as [|fuel IH]; intros rl acc bs Hf; [lia|].
  cbn [decode_subscribe_loop]. destruct (N.ltb_spec 0 rl) as [Hp|Hz].
  2:{ cbn. split; [discriminate|]. intros (_ & subs & r & _ & _ & Hne & H1 & _). lia. }
  rewrite plain_bind.
  (* what a bad first entry implies *)
  assert (HNE : forall x, plain get_string bs = x -> (forall s r, x <> POk s r) ->
    ~ exists subs r, bs = flat_map sub_entry subs ++ r /\ Forall sub_ok subs /\ subs <> []
     /\ sub_size (removelast subs) < rl /\ rl < sub_size subs).
  { intros x E Hx (subs & r & Hb & Hok & Hne & _). destruct subs as [|s0 subs]; [congruence|].
    inversion Hok as [|? ? [U0 L0] _]; subst. cbn [flat_map] in *. unfold sub_entry at 1 in Hx.
    eapply Hx. apply get_string_ok. rewrite <- !app_assoc. repeat split; eauto. }
  destruct (get_string_cases bs) as [(s & r & E & Hb & L & U)|[(s & r & i & E & Hb & L & U)|(l & E)]].
  2:{ rewrite E. cbn. split; [discriminate|]. intros (_ & H). exfalso. eapply HNE; eauto. discriminate. }
  2:{ rewrite E. cbn. split; [discriminate|]. intros (_ & H). exfalso. eapply HNE; eauto. discriminate. }
  rewrite E. cbn [pbind]. clear HNE.
  rewrite plain_bind, plain_get_u8. destruct r as [|q r].
  { cbn. split; [discriminate|]. intros (_ & subs & r & Hb' & Hok & Hne & _).
    destruct subs as [|s0 subs]; [congruence|]. inversion Hok as [|? ? [U0 L0] _]; subst.
    cbn [flat_map] in Hb'. unfold sub_entry at 1 in Hb'. rewrite <- !app_assoc in Hb'.
    rewrite Hb' in E.
    assert (X : plain get_string (field (sub_topic s0) ++ [n2b (qos_num (sub_qos s0))] ++ flat_map sub_entry subs ++ r)
             = POk (sub_topic s0) ([n2b (qos_num (sub_qos s0))] ++ flat_map sub_entry subs ++ r))
      by (apply get_string_ok; auto).
    rewrite X in E. discriminate. }
  cbn [pbind].
  (* the first entry of any witness is this one *)
  assert (HF : forall s0 subs r0, sub_ok s0 -> bs = flat_map sub_entry (s0 :: subs) ++ r0 ->
            sub_topic s0 = s /\ b2n q = qos_num (sub_qos s0) /\ r = flat_map sub_entry subs ++ r0).
  { intros s0 subs r0 [U0 L0] Hb'. cbn [flat_map] in Hb'. unfold sub_entry at 1 in Hb'. rewrite <- !app_assoc in Hb'.
    assert (X : plain get_string (field (sub_topic s0) ++ [n2b (qos_num (sub_qos s0))] ++ flat_map sub_entry subs ++ r0)
             = POk (sub_topic s0) ([n2b (qos_num (sub_qos s0))] ++ flat_map sub_entry subs ++ r0))
      by (apply get_string_ok; auto).
    rewrite <- Hb', E in X. cbn [app] in X. injection X as X1 X2 X3.
    rewrite X2, b2n_n2b; [auto|]. destruct (sub_qos s0); cbn; lia. }
  destruct (N.ltb_spec 2 (b2n q)) as [Hq|Hq].
  { cbn. split; [discriminate|]. intros (_ & subs & r0 & Hb' & Hok & Hne & _).
    destruct subs as [|s0 subs]; [congruence|]. inversion Hok; subst.
    destruct (HF s0 subs r0) as (_ & X & _); auto. destruct (sub_qos s0); cbn in X; lia. }
  destruct (QoS_from_bits_cases (b2n q)) as [(qs & Eq & Hqs)|(_ & ?)]; [|lia].
  rewrite Eq. cbn [bind].
  assert (HE : sub_entry {| sub_topic := s; sub_qos := qs |} = field s ++ [q]).
  { unfold sub_entry. cbn [sub_topic sub_qos]. now rewrite <- Hqs, n2b_b2n. }
  assert (Hlen : (length r < fuel)%nat).
  { rewrite Hb, app_length in Hf. cbn [length] in Hf. lia. }
  destruct (sub64_cases dbg rl (lenN s + 3)) as [(G1 & ES)|[(G1 & D1 & ES)|(G1 & D1 & ES)]]; rewrite ES; cbn [bind].
  - rewrite IH by exact Hlen. split.
    + intros (D & subs & r0 & -> & Hok & Hne & H1 & H2). split; [exact D|].
      exists ({| sub_topic := s; sub_qos := qs |} :: subs), r0.
      split. { cbn [flat_map]. rewrite HE, Hb, <- !app_assoc. reflexivity. }
      split; [constructor; [split; auto|exact Hok]|]. split; [discriminate|].
      cbn [removelast]. destruct subs as [|s1 subs]; [congruence|].
      rewrite !sub_size_cons in *. cbn [sub_topic] in *. split; lia.
    + intros (D & subs & r0 & Hb' & Hok & Hne & H1 & H2). split; [exact D|].
      destruct subs as [|s0 subs]; [congruence|]. inversion Hok; subst.
      destruct (HF s0 subs r0) as (X1 & X2 & X3); auto. subst s.
      destruct subs as [|s1 subs].
      { exfalso. rewrite sub_size_cons in H2. change (sub_size []) with 0 in H2. lia. }
      exists (s1 :: subs), r0. split; [exact X3|]. split; [assumption|]. split; [discriminate|].
      cbn [removelast] in *. rewrite sub_size_cons in H1. rewrite (sub_size_cons s0) in H2. split; lia.
  - split; [|reflexivity]. intros _. split; [exact D1|].
    exists [{| sub_topic := s; sub_qos := qs |}], r.
    split. { cbn [flat_map]. rewrite app_nil_r, HE, Hb, <- app_assoc. reflexivity. }
    split; [constructor; [split; auto|constructor]|]. split; [discriminate|].
    cbn [removelast]. rewrite sub_size_cons. change (sub_size []) with 0. cbn [sub_topic]. split; lia.
  - rewrite IH by exact Hlen. rewrite D1. split; intros (D & _); discriminate.
Qed.

Lemma unsub_loop_panics dbg fuel : forall rl acc bs, (length bs < fuel)%nat ->
  (plain (decode_unsubscribe_loop fuel dbg rl acc) bs = PPanic <->
   dbg = true /\ exists ts r, bs = flat_map field ts ++ r /\ Forall str_ok ts /\ ts <> []
     /\ unsub_size (removelast ts) < rl /\ rl < unsub_size ts).
Proof.
  induction fuel as [|fuel IH]; intros rl acc bs Hf; [lia|].
  cbn [decode_unsubscribe_loop]. destruct (N.ltb_spec 0 rl) as [Hp|Hz].
  2:{ cbn. split; [discriminate|]. intros (_ & ts & r & _ & _ & Hne & H1 & _). lia. }
  rewrite plain_bind.
  assert (HNE : forall x, plain get_string bs = x -> (forall s r, x <> POk s r) ->
    ~ exists ts r, bs = flat_map field ts ++ r /\ Forall str_ok ts /\ ts <> []
     /\ unsub_size (removelast ts) < rl /\ rl < unsub_size ts).
  { intros x E Hx (ts & r & Hb & Hok & Hne & _). destruct ts as [|s0 ts]; [congruence|].
    inversion Hok as [|? ? [U0 L0] _]; subst. cbn [flat_map] in *.
    eapply Hx. apply get_string_ok. rewrite <- !app_assoc. repeat split; eauto. }
  destruct (get_string_cases bs) as [(s & r & E & Hb & L & U)|[(s & r & i & E & Hb & L & U)|(l & E)]].
  2:{ rewrite E. cbn. split; [discriminate|]. intros (_ & H). exfalso. eapply HNE; eauto. discriminate. }
  2:{ rewrite E. cbn. split; [discriminate|]. intros (_ & H). exfalso. eapply HNE; eauto. discriminate. }
  rewrite E. cbn [pbind]. clear HNE.
  assert (HF : forall s0 ts r0, str_ok s0 -> bs = flat_map field (s0 :: ts) ++ r0 ->
            s0 = s /\ r = flat_map field ts ++ r0).
  { intros s0 ts r0 [U0 L0] Hb'. cbn [flat_map] in Hb'. rewrite <- !app_assoc in Hb'.
    assert (X : plain get_string (field s0 ++ flat_map field ts ++ r0) = POk s0 (flat_map field ts ++ r0))
      by (apply get_string_ok; auto).
    rewrite <- Hb', E in X. injection X as X1 X2. auto. }
  assert (Hlen : (length r < fuel)%nat).
  { rewrite Hb, app_length in Hf. pose proof (lenN_field s). unfold lenN in *. lia. }
  destruct (sub64_cases dbg rl (lenN s + 2)) as [(G1 & ES)|[(G1 & D1 & ES)|(G1 & D1 & ES)]]; rewrite ES; cbn [bind].
  - rewrite IH by exact Hlen. split.
    + intros (D & ts & r0 & -> & Hok & Hne & H1 & H2). split; [exact D|].
      exists (s :: ts), r0.
      split. { cbn [flat_map]. now rewrite Hb, <- !app_assoc. }
      split; [constructor; [split; auto|exact Hok]|]. split; [discriminate|].
      cbn [removelast]. destruct ts as [|s1 ts]; [congruence|].
      rewrite !unsub_size_cons in *. split; lia.
    + intros (D & ts & r0 & Hb' & Hok & Hne & H1 & H2). split; [exact D|].
      destruct ts as [|s0 ts]; [congruence|]. inversion Hok; subst.
      destruct (HF s0 ts r0) as (X1 & X3); auto. subst s0.
      destruct ts as [|s1 ts].
      { exfalso. rewrite unsub_size_cons in H2. change (unsub_size []) with 0 in H2. lia. }
      exists (s1 :: ts), r0. split; [exact X3|]. split; [assumption|]. split; [discriminate|].
      cbn [removelast] in *. rewrite unsub_size_cons in H1. rewrite (unsub_size_cons s) in H2. split; lia.
  - split; [|reflexivity]. intros _. split; [exact D1|].
    exists [s], r.
    split. { cbn [flat_map]. now rewrite app_nil_r, Hb. }
    split; [constructor; [split; auto|constructor]|]. split; [discriminate|].
    cbn [removelast]. rewrite unsub_size_cons. change (unsub_size []) with 0. split; lia.
  - rewrite IH by exact Hlen. rewrite D1. split; intros (D & _); discriminate.
Qed.

Lemma be16_app_inj i r i' r' : i < 65536 -> i' < 65536 -> be16 i ++ r = be16 i' ++ r' -> i = i' /\ r = r'.
Proof.
  intros Hi Hi' H.
  assert (X : plain get_u16 (be16 i ++ r) = POk i r) by (apply get_u16_ok; auto).
  assert (X' : plain get_u16 (be16 i' ++ r') = POk i' r') by (apply get_u16_ok; auto).
  rewrite H, X' in X. injection X. auto.
Qed.

Lemma map_nopanic {A B} (m : rd A) (f : A -> B) bs :
  plain (x <- m ;; Ret (f x)) bs = PPanic <-> plain m bs = PPanic.
Proof. rewrite plain_bind. destruct (plain m bs); cbn; split; congruence. Qed.

Lemma subscribe_panics fuel dbg b n bs : (length bs < fuel)%nat -> n < 2097152 -> b2n b / 16 = 8 ->
  plain (decode_subscribe fuel dbg (b2n b) n) bs = PPanic <-> panics dbg (b2n b) n bs.
Proof.
  intros Hf Hn Ht. unfold decode_subscribe. rewrite plain_bind.
  assert (HI : panics dbg (b2n b) n bs <->
    exists i subs r, bs = be16 i ++ flat_map sub_entry subs ++ r /\ b2n b = 0x82 /\ dbg = true
      /\ i < 65536 /\ Forall sub_ok subs
      /\ (subs = [] \/ 2 + sub_size (removelast subs) < n) /\ n < 2 + sub_size subs).
  { split.
    - intros H. inversion H; subst; try lia.
      + cbn [In] in *. lia.
      + exists i, subs, r. auto 10.
    - intros (i & subs & r & -> & H1 & H2 & H3 & H4 & H5 & H6). apply panics_subscribe; auto. }
  rewrite HI. clear HI.
  destruct (plain (decode_packet_with_packet_id (b2n b) 130) bs) as [i t|e| |l|] eqn:E.
  - apply with_id_ok in E. destruct E as (Hb & -> & Hi). cbn [pbind].
    destruct (sub64_cases dbg n 2) as [(G1 & ES)|[(G1 & D1 & ES)|(G1 & D1 & ES)]]; rewrite ES; cbn [bind].
    + destruct (N.eqb_spec (n - 2) 0) as [E0|E0].
      * cbn [plain]. split; [discriminate|]. intros (i' & subs & r & _ & _ & _ & _ & _ & [->|H1] & H2).
        { change (sub_size []) with 0 in H2. lia. } lia.
      * rewrite map_nopanic. rewrite app_length in Hf. rewrite sub_loop_panics by lia. split.
        -- intros (D & subs & r & -> & Hok & Hne & H1 & H2).
           exists i, subs, r. split; [reflexivity|]. split; [exact Hb|]. split; [exact D|].
           split; [exact Hi|]. split; [exact Hok|]. split; [right; lia|lia].
        -- intros (i' & subs & r & HE & _ & D & Hi' & Hok & H1 & H2).
           apply be16_app_inj in HE; auto. destruct HE as [-> ->].
           split; [exact D|]. exists subs, r. split; [reflexivity|]. split; [exact Hok|].
           split; [|split].
           ++ intros ->. change (sub_size []) with 0 in H2. lia.
           ++ destruct H1 as [->|H1]; [change (sub_size []) with 0 in H2; lia|lia].
           ++ lia.
    + split; [|reflexivity]. intros _. exists i, [], t. split; [reflexivity|]. split; [exact Hb|]. split; [exact D1|].
      split; [exact Hi|]. split; [constructor|]. split; [now left|].
      change (sub_size []) with 0. lia.
    + split; [|intros (i' & subs & r & _ & _ & D & _); congruence].
      intros H. destruct (n + 2 ^ 64 - 2 =? 0); [discriminate|].
      rewrite map_nopanic in H. rewrite app_length in Hf. rewrite sub_loop_panics in H by lia.
      destruct H as (D & _). congruence.
  - cbn [pbind]. split; [discriminate|]. intros (i & subs & r & -> & Hb & _ & Hi & _).
    assert (X : plain (decode_packet_with_packet_id (b2n b) 130) (be16 i ++ flat_map sub_entry subs ++ r)
              = POk i (flat_map sub_entry subs ++ r)) by (apply with_id_ok; auto). congruence.
  - exfalso. revert E. apply with_id_nopanic.
  - cbn [pbind]. split; [discriminate|]. intros (i & subs & r & -> & Hb & _ & Hi & _).
    assert (X : plain (decode_packet_with_packet_id (b2n b) 130) (be16 i ++ flat_map sub_entry subs ++ r)
              = POk i (flat_map sub_entry subs ++ r)) by (apply with_id_ok; auto). congruence.
  - cbn [pbind]. split; [discriminate|]. intros (i & subs & r & -> & Hb & _ & Hi & _).
    assert (X : plain (decode_packet_with_packet_id (b2n b) 130) (be16 i ++ flat_map sub_entry subs ++ r)
              = POk i (flat_map sub_entry subs ++ r)) by (apply with_id_ok; auto). congruence.
Qed.

Lemma unsubscribe_panics fuel dbg b n bs : (length bs < fuel)%nat -> n < 2097152 -> b2n b / 16 = 10 ->
  plain (decode_unsubscribe fuel dbg (b2n b) n) bs = PPanic <-> panics dbg (b2n b) n bs.
Proof.
  intros Hf Hn Ht. unfold decode_unsubscribe. rewrite plain_bind.
  assert (HI : panics dbg (b2n b) n bs <->
    exists i ts r, bs = be16 i ++ flat_map field ts ++ r /\ b2n b = 0xA2 /\ dbg = true
      /\ i < 65536 /\ Forall str_ok ts
      /\ (ts = [] \/ 2 + unsub_size (removelast ts) < n) /\ n < 2 + unsub_size ts).
  { split.
    - intros H. inversion H; subst; try lia.
      + cbn [In] in *. lia.
      + exists i, ts, r. auto 10.
    - intros (i & ts & r & -> & H1 & H2 & H3 & H4 & H5 & H6). apply panics_unsubscribe; auto. }
  rewrite HI. clear HI.
  destruct (plain (decode_packet_with_packet_id (b2n b) 162) bs) as [i t|e| |l|] eqn:E.
  - apply with_id_ok in E. destruct E as (Hb & -> & Hi). cbn [pbind].
    destruct (sub64_cases dbg n 2) as [(G1 & ES)|[(G1 & D1 & ES)|(G1 & D1 & ES)]]; rewrite ES; cbn [bind].
    + destruct (N.eqb_spec (n - 2) 0) as [E0|E0].
      * cbn [plain]. split; [discriminate|]. intros (i' & ts & r & _ & _ & _ & _ & _ & [->|H1] & H2).
        { change (unsub_size []) with 0 in H2. lia. } lia.
      * rewrite map_nopanic. rewrite app_length in Hf. rewrite unsub_loop_panics by lia. split.
        -- intros (D & ts & r & -> & Hok & Hne & H1 & H2).
           exists i, ts, r. split; [reflexivity|]. split; [exact Hb|]. split; [exact D|].
           split; [exact Hi|]. split; [exact Hok|]. split; [right; lia|lia].
        -- intros (i' & ts & r & HE & _ & D & Hi' & Hok & H1 & H2).
           apply be16_app_inj in HE; auto. destruct HE as [-> ->].
           split; [exact D|]. exists ts, r. split; [reflexivity|]. split; [exact Hok|].
           split; [|split].
           ++ intros ->. change (unsub_size []) with 0 in H2. lia.
           ++ destruct H1 as [->|H1]; [change (unsub_size []) with 0 in H2; lia|lia].
           ++ lia.
    + split; [|reflexivity]. intros _. exists i, [], t. split; [reflexivity|]. split; [exact Hb|]. split; [exact D1|].
      split; [exact Hi|]. split; [constructor|]. split; [now left|].
      change (unsub_size []) with 0. lia.
    + split; [|intros (i' & ts & r & _ & _ & D & _); congruence].
      intros H. destruct (n + 2 ^ 64 - 2 =? 0); [discriminate|].
      rewrite map_nopanic in H. rewrite app_length in Hf. rewrite unsub_loop_panics in H by lia.
      destruct H as (D & _). congruence.
  - cbn [pbind]. split; [discriminate|]. intros (i & ts & r & -> & Hb & _ & Hi & _).
    assert (X : plain (decode_packet_with_packet_id (b2n b) 162) (be16 i ++ flat_map field ts ++ r)
              = POk i (flat_map field ts ++ r)) by (apply with_id_ok; auto). congruence.
  - exfalso. revert E. apply with_id_nopanic.
  - cbn [pbind]. split; [discriminate|]. intros (i & ts & r & -> & Hb & _ & Hi & _).
    assert (X : plain (decode_packet_with_packet_id (b2n b) 162) (be16 i ++ flat_map field ts ++ r)
              = POk i (flat_map field ts ++ r)) by (apply with_id_ok; auto). congruence.
  - cbn [pbind]. split; [discriminate|]. intros (i & ts & r & -> & Hb & _ & Hi & _).
    assert (X : plain (decode_packet_with_packet_id (b2n b) 162) (be16 i ++ flat_map field ts ++ r)
              = POk i (flat_map field ts ++ r)) by (apply with_id_ok; auto). congruence.
Qed.

Lemma dispatch_panics fuel dbg b n bs : (length bs < fuel)%nat -> n < 2097152 ->
  plain (dispatch fuel dbg (b2n b) n) bs = PPanic <-> panics dbg (b2n b) n bs.
Proof.
  intros Hf Hn. unfold dispatch. cbv zeta. rewrite shiftr4.
  unfold PACKET_TYPE_CONNECT, PACKET_TYPE_PUBLISH, PACKET_TYPE_PUB_ACK, PACKET_TYPE_PUB_REC,
    PACKET_TYPE_PUB_REL, PACKET_TYPE_PUB_COMP, PACKET_TYPE_SUBSCRIBE, PACKET_TYPE_UNSUBSCRIBE,
    PACKET_TYPE_PING_REQ, PACKET_TYPE_DISCONNECT.
  pose proof (b2n_lt b) as B.
  assert (HN : forall k, In k [1; 4; 5; 6; 7; 12; 14] -> b2n b / 16 = k -> ~ panics dbg (b2n b) n bs).
  { intros k Hk E H. cbn [In] in Hk. inversion H; subst; cbn [In] in *; lia. }
  destruct (N.eqb_spec (b2n b / 16) 1) as [T|T1].
  { split; [intros H; exfalso; revert H; apply connect_nopanic|intros H; exfalso; eapply HN; eauto; cbn; tauto]. }
  destruct (N.eqb_spec (b2n b / 16) 3) as [T|T3]; [now apply publish_panics|].
  destruct (N.eqb_spec (b2n b / 16) 4) as [T|T4].
  { unfold decode_pub_ack. rewrite map_nopanic.
    split; [intros H; exfalso; revert H; apply with_id_nopanic|intros H; exfalso; eapply HN; eauto; cbn; tauto]. }
  destruct (N.eqb_spec (b2n b / 16) 5) as [T|T5].
  { unfold decode_pub_rec. rewrite map_nopanic.
    split; [intros H; exfalso; revert H; apply with_id_nopanic|intros H; exfalso; eapply HN; eauto; cbn; tauto]. }
  destruct (N.eqb_spec (b2n b / 16) 6) as [T|T6].
  { unfold decode_pub_rel. rewrite map_nopanic.
    split; [intros H; exfalso; revert H; apply with_id_nopanic|intros H; exfalso; eapply HN; eauto; cbn; tauto]. }
  destruct (N.eqb_spec (b2n b / 16) 7) as [T|T7].
  { unfold decode_pub_comp. rewrite map_nopanic.
    split; [intros H; exfalso; revert H; apply with_id_nopanic|intros H; exfalso; eapply HN; eauto; cbn; tauto]. }
  destruct (N.eqb_spec (b2n b / 16) 8) as [T|T8]; [now apply subscribe_panics|].
  destruct (N.eqb_spec (b2n b / 16) 10) as [T|T10]; [now apply unsubscribe_panics|].
  destruct (N.eqb_spec (b2n b / 16) 12) as [T|T12].
  { split; [discriminate|intros H; exfalso; eapply HN; eauto; cbn; tauto]. }
  destruct (N.eqb_spec (b2n b / 16) 14) as [T|T14].
  { split; [discriminate|intros H; exfalso; eapply HN; eauto; cbn; tauto]. }
  split; [|reflexivity]. intros _. apply panics_type. cbn [In]. lia.
Qed.

Theorem decode_panics dbg bs :
  decode dbg bs = PPanic <->
  exists b h n r, bs = b :: h ++ r /\ varint h n /\ (length h <= 3)%nat /\ panics dbg (b2n b) n r.
Proof.
  unfold decode. split.
  - intros H. rewrite read_packet_dispatch, plain_bind, plain_get_u8 in H.
    destruct bs as [|b t]; [discriminate|]. cbn [pbind] in H. rewrite plain_bind in H.
    destruct (drl_cases t) as [(h & n & r & E & -> & Hv & Hh)|[(b1 & b2 & b3 & b4 & r & _ & _ & _ & _ & E)|(l & E & _)]];
      rewrite E in H; cbn [pbind] in H; try discriminate.
    apply dispatch_panics in H.
    + exists b, h, n, r. auto.
    + cbn [length]. rewrite app_length. lia.
    + now apply (varint3_bound h).
  - intros (b & h & n & r & -> & Hv & Hh & HP).
    rewrite plain_read_packet with (n := n) by assumption.
    apply dispatch_panics; [cbn [length]; rewrite app_length; lia|now apply (varint3_bound h)|exact HP].
Qed.
