(** Property C144: at level trace the packets can be read back from the log. *)
From Verif Require Import Base Base_facts Packets HashMap Subscriptions Messaging Handler Decoder ReadStream ReadStream_facts Conn Conn_facts
  Encoder Encoder_facts WriteStream WriteStream_facts Spec_wire Spec_broker Handler_facts System System_facts System_hist System_conn System_queue System_progress
  Logging Log_facts Prop_broker Prop_system Prop_rest Prop_log Prop_records Prop_full Prop_tasks.
Open Scope N_scope.

(** A way of showing values from which they can be told apart, whatever follows. *)
Definition told_apart {A} (P : A -> Prop) (f : A -> bytes) : Prop :=
  forall a b r r', P a -> P b -> f a ++ r = f b ++ r' -> a = b /\ r = r'.

(** What is needed of the library for the texts in [T]; for those of ASCII characters it is so, see [C144_ascii]. *)
Definition legible (L : library) (T : bytes -> Prop) : Prop :=
  told_apart T (show_string L) /\ forall t, T t -> exists r, show_string L t = x22 :: r.

Definition plain (t : bytes) : Prop := Forall (fun b => b2n b < 128) t.

(** The texts and the numbers of a packet. *)
Definition texts (p : ControlPacket) : list bytes :=
  match p with
  | Connect c =>
    client_id c :: (match will_message c with Some w => [topic w] | None => [] end)
    ++ (match user_name c with Some u => [u] | None => [] end) ++ (match password c with Some u => [u] | None => [] end)
  | Publish p => [topic (message p)]
  | Subscribe _ ss => map sub_topic ss
  | Unsubscribe _ ts => ts
  | _ => []
  end.

Definition numbers (p : ControlPacket) : list N :=
  match p with
  | Connect c => [keep_alive_seconds c]
  | Publish p => match pub_packet_id p with Some i => [i] | None => [] end
  | PubAck i | PubRec i | PubRel i | PubComp i | Subscribe i _ | SubAck i _ | Unsubscribe i _ | UnsubAck i => [i]
  | ConnAck _ | PingReq | PingResp | Disconnect => []
  end.

Definition shown_well (T : bytes -> Prop) (p : ControlPacket) : Prop := Forall T (texts p) /\ Forall (fun i => i < 65536) (numbers p).

(** ** The parts *)

Lemma no_quote_byte y r r' : x22 :: r <> escape_byte y ++ r'.
Proof. destruct y; discriminate. Qed.

Lemma no_quote_char y r r' : ascii y = true -> x22 :: r <> escape_char y ++ r'.
Proof. destruct y; intros H; try discriminate H; discriminate. Qed.

Lemma apart_bytes P : told_apart P show_bytes.
Proof.
  intros a b r r' _ _ H. unfold show_bytes in H. rewrite <- !app_assoc in H. apply app_inv_head in H. apply app_inv_head in H.
  revert b H. induction a as [|x a IH]; intros [|y b] H; cbn [flat_map] in H; rewrite <- ?app_assoc in H.
  - cbn [app] in H. injection H as H. now split.
  - exfalso. exact (no_quote_byte y _ _ H).
  - exfalso. exact (no_quote_byte x _ _ (eq_sym H)).
  - apply (f_equal unescape) in H. rewrite !unescape_byte in H. injection H as <- H. destruct (IH b H) as (-> & ->). now split.
Qed.

Lemma plain_ascii t : plain t -> forallb ascii t = true.
Proof. induction 1 as [|b t H _ IH]; [reflexivity|]. cbn [forallb]. rewrite IH. unfold ascii. now apply N.ltb_lt in H as ->. Qed.

Theorem C144_ascii L : legible L plain.
Proof.
  split.
  - intros a b r r' HA HB H. apply plain_ascii in HA, HB. unfold show_string in H. rewrite HA, HB, <- !app_assoc in H. apply app_inv_head in H.
    revert b HB H. induction a as [|x a IH]; intros [|y b] HB H; cbn [flat_map forallb] in *; rewrite <- ?app_assoc in H.
    + cbn [app] in H. injection H as H. now split.
    + exfalso. apply andb_true_iff in HB. exact (no_quote_char y _ _ (proj1 HB) H).
    + exfalso. apply andb_true_iff in HA. exact (no_quote_char x _ _ (proj1 HA) (eq_sym H)).
    + apply andb_true_iff in HA, HB. destruct HA as (HX & HA), HB as (HY & HB).
      apply (f_equal unescape) in H. rewrite !unescape_char in H by assumption. injection H as <- H.
      destruct (IH HA b HB H) as (-> & ->). now split.
  - intros t H. apply plain_ascii in H. unfold show_string. rewrite H. now eexists.
Qed.

Definition digit (d : byte) : Prop := 48 <= b2n d <= 57.

Lemma apart_digits a : forall b d r d' r', Forall digit a -> Forall digit b -> ~ digit d -> ~ digit d' ->
  a ++ d :: r = b ++ d' :: r' -> a = b /\ d :: r = d' :: r'.
Proof.
  induction a as [|x a IH]; intros [|y b] d r d' r' HA HB Hd Hd' H; cbn [app] in H.
  - now split.
  - injection H as -> _. now apply Forall_inv in HB.
  - injection H as <- _. now apply Forall_inv in HA.
  - injection H as <- H. destruct (IH b d r d' r' (Forall_inv_tail HA) (Forall_inv_tail HB) Hd Hd' H) as (-> & E). now split.
Qed.

(** A number is told apart when no digit follows. *)
Lemma apart_number n m d r d' r' : n < 65536 -> m < 65536 -> ~ digit d -> ~ digit d' ->
  show_u16 n ++ d :: r = show_u16 m ++ d' :: r' -> n = m /\ d :: r = d' :: r'.
Proof.
  intros HN HM Hd Hd' H. destruct (C115_numbers n HN) as (VN & DN & _). destruct (C115_numbers m HM) as (VM & DM & _).
  destruct (apart_digits _ _ _ _ _ _ DN DM Hd Hd' H) as (E & E'). split; [|exact E']. now rewrite <- VN, <- VM, E.
Qed.

Lemma apart_bool P : told_apart P yes_no.
Proof. intros [|] [|] r r' _ _ H; try discriminate H; apply app_inv_head in H; now split. Qed.

Lemma apart_qos P : told_apart P qos_name.
Proof. intros [| |] [| |] r r' _ _ H; try discriminate H; apply app_inv_head in H; now split. Qed.

Ltac lit H := rewrite <- ?app_assoc in H; apply app_inv_head in H.

Lemma apart_maybe L T : legible L T -> told_apart (fun o => match o with Some t => T t | None => True end) (maybe L).
Proof.
  intros (HL & _) [a|] [b|] r r' HA HB H; cbn [maybe] in H; try discriminate H.
  - lit H. destruct (HL _ _ _ _ HA HB H) as (-> & H'). lit H'. now split.
  - lit H. now split.
Qed.

Lemma apart_message L T : legible L T -> told_apart (fun m => T (topic m)) (message_words L).
Proof.
  intros (HL & _) a b r r' HA HB H. unfold message_words in H. lit H.
  destruct (HL _ _ _ _ HA HB H) as (E1 & H1). lit H1.
  destruct (apart_bytes (fun _ => True) _ _ _ _ I I H1) as (E2 & H2). lit H2.
  destruct (apart_qos (fun _ => True) _ _ _ _ I I H2) as (E3 & H3). lit H3.
  destruct (apart_bool (fun _ => True) _ _ _ _ I I H3) as (E4 & H4). lit H4.
  split; [|exact H4]. destruct a, b. cbn in *. now subst.
Qed.

Lemma apart_will L T : legible L T -> told_apart (fun o => match o with Some m => T (topic m) | None => True end) (will_words L).
Proof.
  intros HL [a|] [b|] r r' HA HB H; cbn [will_words] in H; try discriminate H.
  - lit H. destruct (apart_message L T HL _ _ _ _ HA HB H) as (-> & H'). lit H'. now split.
  - lit H. now split.
Qed.

Lemma apart_connect L T : legible L T -> told_apart (fun c => shown_well T (Connect c)) (connect_words L).
Proof.
  intros HL a b r r' (HA & NA) (HB & NB) H. apply Forall_inv in NA, NB. unfold connect_words in H. lit H.
  assert (E : version a = version b /\ str ", client_id: " ++ show_string L (client_id a) ++ str ", keep_alive_seconds: " ++ show_u16 (keep_alive_seconds a)
    ++ str ", clean_session: " ++ yes_no (clean_session a) ++ str ", will_message: " ++ will_words L (will_message a)
    ++ str ", user_name: " ++ maybe L (user_name a) ++ str ", password: " ++ maybe L (password a) ++ str " }" ++ r
    = str ", client_id: " ++ show_string L (client_id b) ++ str ", keep_alive_seconds: " ++ show_u16 (keep_alive_seconds b)
    ++ str ", clean_session: " ++ yes_no (clean_session b) ++ str ", will_message: " ++ will_words L (will_message b)
    ++ str ", user_name: " ++ maybe L (user_name b) ++ str ", password: " ++ maybe L (password b) ++ str " }" ++ r').
  { rewrite <- ?app_assoc in H. destruct (version a), (version b); try discriminate H; apply app_inv_head in H; now split. }
  destruct E as (E0 & H0). clear H. lit H0.
  cbn [texts] in HA, HB. apply Forall_cons_iff in HA, HB. destruct HA as (A1 & HA), HB as (B1 & HB).
  apply Forall_app in HA, HB. destruct HA as (A2 & HA), HB as (B2 & HB). apply Forall_app in HA, HB. destruct HA as (A3 & A4), HB as (B3 & B4).
  destruct (proj1 HL _ _ _ _ A1 B1 H0) as (E1 & H1). lit H1.
  apply apart_number in H1; [|exact NA|exact NB|cbn; unfold digit; cbn; lia..]. destruct H1 as (E2 & H2).
  assert (H2' : str ", clean_session: " ++ yes_no (clean_session a) ++ str ", will_message: " ++ will_words L (will_message a)
    ++ str ", user_name: " ++ maybe L (user_name a) ++ str ", password: " ++ maybe L (password a) ++ str " }" ++ r
    = str ", clean_session: " ++ yes_no (clean_session b) ++ str ", will_message: " ++ will_words L (will_message b)
    ++ str ", user_name: " ++ maybe L (user_name b) ++ str ", password: " ++ maybe L (password b) ++ str " }" ++ r') by exact H2.
  clear H2. lit H2'.
  destruct (apart_bool (fun _ => True) _ _ _ _ I I H2') as (E3 & H3). lit H3.
  destruct (apart_will L T HL (will_message a) (will_message b)) with (3 := H3) as (E4 & H4);
    [destruct (will_message a); [exact (Forall_inv A2)|exact I]|destruct (will_message b); [exact (Forall_inv B2)|exact I]|]. lit H4.
  destruct (apart_maybe L T HL (user_name a) (user_name b)) with (3 := H4) as (E5 & H5);
    [destruct (user_name a); [exact (Forall_inv A3)|exact I]|destruct (user_name b); [exact (Forall_inv B3)|exact I]|]. lit H5.
  destruct (apart_maybe L T HL (password a) (password b)) with (3 := H5) as (E6 & H6);
    [destruct (password a); [exact (Forall_inv A4)|exact I]|destruct (password b); [exact (Forall_inv B4)|exact I]|]. lit H6.
  split; [|exact H6]. destruct a, b. cbn in *. now subst.
Qed.

Lemma apart_subscription L T : legible L T -> told_apart (fun s => T (sub_topic s)) (subscription_words L).
Proof.
  intros (HL & _) a b r r' HA HB H. unfold subscription_words in H. lit H.
  destruct (HL _ _ _ _ HA HB H) as (E1 & H1). lit H1.
  destruct (apart_qos (fun _ => True) _ _ _ _ I I H1) as (E2 & H2). lit H2.
  split; [|exact H2]. destruct a, b. cbn in *. now subst.
Qed.

(** Elements told apart that do not begin with a bracket: so are lists of them. *)
Lemma apart_list {A} (P : A -> Prop) f : told_apart P f -> (forall a r r', P a -> f a ++ r <> x5d :: r') ->
  told_apart (Forall P) (fun l => listed (map f l)).
Proof.
  intros HF HN.
  assert (K : told_apart (Forall P) (fun l => concat (map (fun t => str ", " ++ t) (map f l)) ++ str "]")).
  { intros a. induction a as [|x a IH]; intros [|y b] r r' HA HB H; cbn [map concat] in H.
    - lit H. lit H. now split.
    - discriminate H.
    - discriminate H.
    - lit H. destruct (HF _ _ _ _ (Forall_inv HA) (Forall_inv HB) H) as (-> & H').
      rewrite !app_assoc in H'. destruct (IH b r r' (Forall_inv_tail HA) (Forall_inv_tail HB) H') as (-> & E). now split. }
  intros [|x a] [|y b] r r' HA HB H; unfold listed in H; cbn [map enumerated] in H.
  - lit H. lit H. lit H. now split.
  - exfalso. lit H. rewrite <- ?app_assoc in H. exact (HN y _ _ (Forall_inv HB) (eq_sym H)).
  - exfalso. lit H. rewrite <- ?app_assoc in H. exact (HN x _ _ (Forall_inv HA) H).
  - lit H. rewrite <- ?app_assoc in H. destruct (HF _ _ _ _ (Forall_inv HA) (Forall_inv HB) H) as (-> & H').
    rewrite !app_assoc in H'. destruct (K a b r r' (Forall_inv_tail HA) (Forall_inv_tail HB) H') as (-> & E). now split.
Qed.

Definition code_name (c : SubAckReturnCode) : bytes :=
  match c with SuccessQoS0 => str "SuccessQoS0" | SuccessQoS1 => str "SuccessQoS1"
  | SuccessQoS2 => str "SuccessQoS2" | Failure => str "Failure" end.

Lemma apart_code : told_apart (fun _ => True) code_name.
Proof. intros [| | |] [| | |] r r' _ _ H; try discriminate H; apply app_inv_head in H; now split. Qed.

Lemma apart_id i j t u : i < 65536 -> j < 65536 -> ~ digit (hd x00 t) -> ~ digit (hd x00 u) -> t <> [] -> u <> [] ->
  show_u16 i ++ t = show_u16 j ++ u -> i = j /\ t = u.
Proof.
  intros Hi Hj Ht Hu Nt Nu H. destruct t as [|d t]; [now destruct Nt|]. destruct u as [|e u]; [now destruct Nu|]. now apply apart_number.
Qed.

(** What comes first in the texts of two packets of different kinds differs. *)
Definition kind (p : ControlPacket) : nat :=
  match p with Connect _ => 0 | ConnAck _ => 1 | Publish _ => 2 | PubAck _ => 3 | PubRec _ => 4 | PubRel _ => 5 | PubComp _ => 6
  | Subscribe _ _ => 7 | SubAck _ _ => 8 | Unsubscribe _ _ => 9 | UnsubAck _ => 10 | PingReq => 11 | PingResp => 12 | Disconnect => 13 end.

Definition kind_of (s : bytes) : nat :=
  match firstn 7 s with
  | [x43; x6f; x6e; x6e; x65; _; _] => 0 | [x43; x6f; x6e; x6e; x41; _; _] => 1
  | [x50; x75; x62; x6c; _; _; _] => 2 | [x50; x75; x62; x41; _; _; _] => 3
  | [x50; x75; x62; x52; x65; x63; _] => 4 | [x50; x75; x62; x52; x65; x6c; _] => 5 | [x50; x75; x62; x43; _; _; _] => 6
  | [x53; x75; x62; x73; _; _; _] => 7 | [x53; x75; x62; x41; _; _; _] => 8
  | [x55; x6e; x73; x75; x62; x73; _] => 9 | [x55; x6e; x73; x75; x62; x41; _] => 10
  | [x50; x69; x6e; x67; x52; x65; x71] => 11 | [x50; x69; x6e; x67; x52; x65; x73] => 12
  | _ => 13
  end.

Lemma kind_words L p r : kind_of (packet_words L p ++ r) = kind p.
Proof. destruct p; reflexivity. Qed.

Theorem C144_packet L T : legible L T -> told_apart (shown_well T) (packet_words L).
Proof.
  intros HL p q r r' HP HQ H. pose proof (f_equal kind_of H) as K. rewrite !kind_words in K.
  assert (N : forall i j t u, Forall (fun i => i < 65536) [i] -> Forall (fun i => i < 65536) [j] -> ~ digit (hd x00 t) -> ~ digit (hd x00 u) -> t <> [] -> u <> [] ->
    show_u16 i ++ t = show_u16 j ++ u -> i = j /\ t = u).
  { intros i j t u Hi Hj. apply apart_id; [exact (Forall_inv Hi)|exact (Forall_inv Hj)]. }
  assert (D : ~ digit x20 /\ ~ digit x2c /\ ~ digit x29) by (unfold digit; cbn; lia).
  destruct p as [a|a|a|i|i|i|i|i ss|i cs|i ts|i| | |], q as [b|b|b|j|j|j|j|j ss'|j cs'|j ts'|j| | |]; try discriminate K; clear K;
    cbn [packet_words] in H; lit H.
  all: try (apply N in H; [|exact (proj2 HP)|exact (proj2 HQ)|cbn; tauto|cbn; tauto|discriminate|discriminate]; destruct H as (-> & H); lit H).
  - destruct (apart_connect L T HL a b _ _ HP HQ H) as (-> & H1). lit H1. now split.
  - destruct (apart_bool (fun _ => True) _ _ _ _ I I H) as (E1 & H1). lit H1.
    destruct a as [sa ca], b as [sb cb]. cbn [session_present return_code] in *. subst sb. destruct ca, cb; try discriminate H1; lit H1; lit H1; now split.
  - destruct HP as (TP & NP), HQ as (TQ & NQ). cbn [texts numbers] in *. apply Forall_inv in TP, TQ.
    destruct a as [ia da ma], b as [ib db mb]. cbn [pub_packet_id dup message] in *.
    assert (E : ia = ib /\ str ", dup: " ++ yes_no da ++ str ", message: " ++ message_words L ma ++ str " })" ++ r
      = str ", dup: " ++ yes_no db ++ str ", message: " ++ message_words L mb ++ str " })" ++ r').
    { destruct ia as [ia|], ib as [ib|]; try discriminate H; lit H; [|now split].
      apply N in H; [|exact NP|exact NQ|cbn; tauto|cbn; tauto|discriminate|discriminate]. destruct H as (-> & H). lit H. now split. }
    destruct E as (-> & H1). lit H1. destruct (apart_bool (fun _ => True) _ _ _ _ I I H1) as (-> & H2). lit H2.
    destruct (apart_message L T HL ma mb _ _ TP TQ H2) as (-> & H3). lit H3. now split.
  - now split.
  - now split.
  - now split.
  - now split.
  - assert (M : told_apart (Forall (fun s => T (sub_topic s))) (fun l => listed (map (subscription_words L) l))).
    { apply apart_list; [now apply apart_subscription|]. intros s t u _ E. discriminate E. }
    destruct (M ss ss' (str " })" ++ r) (str " })" ++ r')) as (-> & H1); [apply Forall_map, HP|apply Forall_map, HQ|exact H|]. lit H1. now split.
  - assert (M : told_apart (Forall (fun _ => True)) (fun l => listed (map code_name l))).
    { apply apart_list; [apply apart_code|]. intros [| | |] t u _ E; discriminate E. }
    destruct (M cs cs' (str " })" ++ r) (str " })" ++ r')) as (-> & H1); [apply Forall_forall; auto|apply Forall_forall; auto|exact H|]. lit H1. now split.
  - assert (M : told_apart (Forall T) (fun l => listed (map (show_string L) l))).
    { apply apart_list; [apply HL|]. intros s t u Hs E. destruct (proj2 HL s Hs) as (v & Ev). rewrite Ev in E. discriminate E. }
    destruct (M ts ts' (str " })" ++ r) (str " })" ++ r')) as (-> & H1); [exact (proj1 HP)|exact (proj1 HQ)|exact H|]. lit H1. now split.
  - now split.
  - now split.
  - now split.
  - now split.
Qed.

(** ** In a run *)

Lemma ok_numbers p : packet_ok p -> Forall (fun i => i < 65536) (numbers p).
Proof.
  destruct p as [c|c|[i d m]|i|i|i|i|i ss|i cs|i ts|i| | |]; cbn [packet_ok numbers pub_packet_id message]; intros H; repeat constructor; try tauto.
  destruct H as (_ & H). destruct i as [i|]; repeat constructor. tauto.
Qed.

Lemma read_ok auth dbg n s k c : reachable auth dbg n s -> nth_error (conns s) k = Some c ->
  Forall (fun p => Forall (fun i => i < 65536) (numbers p)) (c_read c).
Proof.
  intros HR Hk. destruct (reader_invariant auth dbg n s HR k c Hk) as (rs & Hr & _).
  pose proof (reads_ok dbg _ _ _ (wf_connection (c_rsock c)) Hr) as HA.
  eapply Forall_impl; [|exact HA]. intros p (H & _). now apply ok_numbers.
Qed.

Lemma reply_numbers auth m te k p : (forall cid q j, snd te = ClientPacket cid q j -> packet_ok q) ->
  In (k, ServerPacket p) (snd (fst (handle auth m te))) -> Forall (fun i => i < 65536) (numbers p).
Proof.
  destruct te as [now e]. cbn [snd]. destruct e as [c a k0|cid q k0|cid|cid]; intros HO Hin.
  - destruct (connect_cases auth c) as [A|[A|(u & H1 & H2)]].
    + rewrite (handle_accepted auth m now c a k0 A) in Hin. destruct Hin as [[= _ <-]|[]]. constructor.
    + rewrite (handle_rejected auth m now c a k0 A) in Hin. destruct Hin as [[= _ <-]|[[=]|[]]]. constructor.
    + rewrite (handle_no_password auth m now c a k0 u H1 H2) in Hin. destruct Hin.
  - specialize (HO cid q k0 eq_refl). destruct q; try (exfalso; exact Hin).
    + rewrite handle_publish in Hin. cbn [fst snd] in Hin. apply in_map_iff in Hin.
      destruct Hin as (r & [= _ <-] & _). now apply ok_numbers.
    + rewrite handle_subscribe in Hin. destruct Hin as [[= _ <-]|[]]. apply (ok_numbers _ HO).
    + rewrite handle_unsubscribe in Hin. destruct Hin as [[= _ <-]|[]]. apply (ok_numbers _ HO).
    + rewrite handle_ping in Hin. destruct Hin as [E|[]]. destruct (session_exists m cid); [|discriminate].
      injection E as _ <-. constructor.
  - destruct Hin.
  - destruct Hin.
Qed.

Lemma sent_numbers auth dbg n s k c : reachable auth dbg n s -> nth_error (conns s) k = Some c ->
  Forall (fun x => Forall (fun i => i < 65536) (numbers (snd x))) (c_sent c).
Proof.
  intros HR Hk. apply Forall_forall. intros [f p] Hin. cbn [snd].
  assert (HL : In (f, k, ServerPacket p) (log s)).
  { apply put_to_in. assert (Hin' : In (f, ServerPacket p) (map as_sent (c_sent c))) by (apply in_map_iff; exists (f, p); split; [reflexivity|exact Hin]).
    pose proof (queue_invariant auth dbg n s HR k) as HQ. unfold queue_ok in HQ. rewrite Hk in HQ. destruct HQ as (_ & HQ).
    destruct (c_writer c); [| |destruct HQ as (_ & [(HQ & _)|(f' & r & HQ)])]; rewrite HQ; auto; apply in_or_app; now left. }
  destruct (log_handled auth dbg n s f k _ HR HL) as (h1 & te & h2 & m1 & l1 & EH & _ & Hr).
  eapply reply_numbers; [|exact Hr]. intros cid q j E. destruct te as [t e]. cbn [snd] in E. subst e.
  apply (handled_ok auth dbg n s t cid q j HR). rewrite EH. apply in_or_app. right. now left.
Qed.

Lemma cons_eq {A} (x y : A) l l' : x :: l = y :: l' -> x = y /\ l = l'.
Proof. intros [= -> ->]. now split. Qed.

Lemma whole {A} (P : A -> Prop) f a b : told_apart P f -> P a -> P b -> f a = f b -> a = b.
Proof. intros H HA HB E. apply (H a b [] []); [exact HA|exact HB|now rewrite E]. Qed.

Lemma read_back L T dbg dbg' c c' : legible L T -> Forall (shown_well T) (c_read c) -> Forall (shown_well T) (c_read c') ->
  map said (reader_says L dbg c) = map said (reader_says L dbg' c') -> c_read c = c_read c'.
Proof.
  intros HL HA HB H. unfold reader_says in H.
  assert (R : forall d c, c_read c = [] -> read_to_error d c = false) by (intros d x Ex; unfold read_to_error; rewrite Ex; now destruct (c_reader x)).
  pose proof (R dbg c) as R1. pose proof (R dbg' c') as R2. clear R.
  set (t1 := if read_to_error dbg c then _ else _) in H. set (t2 := if read_to_error dbg' c' then _ else _) in H.
  assert (T1 : t1 = [] \/ t1 = [record Trace (str "Client read task ended")]) by (subst t1; destruct (read_to_error dbg c); auto).
  assert (T2 : t2 = [] \/ t2 = [record Trace (str "Client read task ended")]) by (subst t2; destruct (read_to_error dbg' c'); auto).
  assert (N1 : c_read c = [] -> t1 = []) by (intros E; subst t1; now rewrite (R1 E)).
  assert (N2 : c_read c' = [] -> t2 = []) by (intros E; subst t2; now rewrite (R2 E)).
  clearbody t1 t2. clear R1 R2. destruct (c_read c) as [|p ps], (c_read c') as [|q qs].
  - reflexivity.
  - rewrite N1 in H by reflexivity. discriminate H.
  - rewrite N2 in H by reflexivity. discriminate H.
  - cbn [read_words] in H. rewrite !map_app in H. cbn [map said record app] in H. apply cons_eq in H. destruct H as (H1 & H). apply app_inv_head in H1.
    apply (whole _ _ _ _ (C144_packet L T HL) (Forall_inv HA) (Forall_inv HB)) in H1. subst q. f_equal.
    rewrite <- !app_assoc in H. apply app_inv_head in H. apply Forall_inv_tail in HA, HB. clear N1 N2 p.
    revert qs HB H. induction ps as [|p ps IH]; intros [|q qs] HB H; [reflexivity| | |].
    + destruct T1 as [-> | ->]; discriminate H.
    + destruct T2 as [-> | ->]; discriminate H.
    + cbn [map app said record] in H. apply cons_eq in H. destruct H as (H1 & H). apply app_inv_head in H1.
      apply (whole _ _ _ _ (C144_packet L T HL) (Forall_inv HA) (Forall_inv HB)) in H1. subst q. f_equal.
      apply IH; [exact (Forall_inv_tail HA)|exact (Forall_inv_tail HB)|exact H].
Qed.

Lemma both T (ps : list ControlPacket) : Forall (fun p => Forall T (texts p)) ps -> Forall (fun p => Forall (fun i => i < 65536) (numbers p)) ps ->
  Forall (shown_well T) ps.
Proof. intros H K. rewrite Forall_forall in *. intros p Hp. split; auto. Qed.

(** C144, reading: two connections, perhaps of different runs, whose read tasks have the same lines read the same packets. *)
Theorem C144_read dbg dbg' L T auth n ls s k c auth' n' ls' s' k' c' : legible L T ->
  steps auth dbg (sys_init n) ls = Some s -> nth_error (conns s) k = Some c -> Forall (fun p => Forall T (texts p)) (c_read c) ->
  steps auth' dbg' (sys_init n') ls' = Some s' -> nth_error (conns s') k' = Some c' -> Forall (fun p => Forall T (texts p)) (c_read c') ->
  map said (filter is_trace (run_entries (of_reader k) auth L dbg (sys_init n) ls))
  = map said (filter is_trace (run_entries (of_reader k') auth' L dbg' (sys_init n') ls')) -> c_read c = c_read c'.
Proof.
  intros HL H1 K1 X1 H2 K2 X2 H. rewrite (C143_reader _ _ L _ _ _ _ _ H1 K1), (C143_reader _ _ L _ _ _ _ _ H2 K2) in H.
  apply (read_back L T dbg dbg' c c' HL); [| |exact H]; apply both; auto.
  - apply (read_ok auth dbg n s k c); [now exists ls|exact K1].
  - apply (read_ok auth' dbg' n' s' k' c'); [now exists ls'|exact K2].
Qed.

Lemma sent_back L T s k c s' k' c' : legible L T -> Forall (shown_well T) (map snd (c_sent c)) -> Forall (shown_well T) (map snd (c_sent c')) ->
  map said (writer_says L s k c) = map said (writer_says L s' k' c') -> map snd (c_sent c) = map snd (c_sent c').
Proof.
  intros HL HA HB H. unfold writer_says in H.
  set (t1 := match c_writer c with WClosed _ => _ | _ => _ end) in H. set (t2 := match c_writer c' with WClosed _ => _ | _ => _ end) in H.
  assert (W : forall (w : writer) (b : bool), let t := match w with WClosed _ => (if b then [record Trace (str "Received server event: Disconnect")] else [])
    ++ [record Trace (str "Client write task ended")] | _ => [] end in
    t = [] \/ (exists u, t = record Trace (str "Received server event: Disconnect") :: u) \/ exists u, t = record Trace (str "Client write task ended") :: u).
  { intros w b. destruct w; cbn [app]; [now left|now left|right]. destruct b; [left|right]; now eexists. }
  pose proof (W (c_writer c) (existsb (fun x => to_disconnect x k) (log s))) as T1.
  pose proof (W (c_writer c') (existsb (fun x => to_disconnect x k') (log s'))) as T2. clear W. cbv zeta in T1, T2. fold t1 in T1. fold t2 in T2.
  clearbody t1 t2. rewrite !map_app in H. revert HA HB H. generalize (c_sent c), (c_sent c'). clear c c'. intros l. 
  induction l as [|[f p] l IH]; intros [|[g q] l'] HA HB H; [reflexivity| | |].
  - destruct T1 as [->|[(u & ->)|(u & ->)]]; discriminate H.
  - destruct T2 as [->|[(u & ->)|(u & ->)]]; discriminate H.
  - cbn [flat_map map app snd said record] in *. apply cons_eq in H. destruct H as (_ & H). apply cons_eq in H. destruct H as (H1 & H).
    apply app_inv_head in H1. apply (whole _ _ _ _ (C144_packet L T HL) (Forall_inv HA) (Forall_inv HB)) in H1. subst q. f_equal.
    apply (IH l' (Forall_inv_tail HA) (Forall_inv_tail HB) H).
Qed.

(** C144, writing: the same of the packets given to the client. *)
Theorem C144_sent dbg dbg' L T auth n ls s k c auth' n' ls' s' k' c' : legible L T ->
  steps auth dbg (sys_init n) ls = Some s -> nth_error (conns s) k = Some c -> Forall (fun p => Forall T (texts p)) (map snd (c_sent c)) ->
  steps auth' dbg' (sys_init n') ls' = Some s' -> nth_error (conns s') k' = Some c' -> Forall (fun p => Forall T (texts p)) (map snd (c_sent c')) ->
  map said (filter is_trace (run_entries (of_writer k) auth L dbg (sys_init n) ls))
  = map said (filter is_trace (run_entries (of_writer k') auth' L dbg' (sys_init n') ls')) -> map snd (c_sent c) = map snd (c_sent c').
Proof.
  intros HL H1 K1 X1 H2 K2 X2 H. rewrite (C143_writer _ _ L _ _ _ _ _ H1 K1), (C143_writer _ _ L _ _ _ _ _ H2 K2) in H.
  apply (sent_back L T s k c s' k' c' HL); [| |exact H]; apply both; auto; apply Forall_map.
  - apply (sent_numbers auth dbg n s k c); [now exists ls|exact K1].
  - apply (sent_numbers auth' dbg' n' s' k' c'); [now exists ls'|exact K2].
Qed.

(** A client whose topic imitates the rest of the line: the line is another than that of the message it imitates. *)
Definition ex_shown (t p : bytes) (r : bool) : ControlPacket :=
  Publish {| pub_packet_id := None; dup := false; message := {| topic := t; payload := p; qos := AtMostOnce; retain := r |} |}.

Example C144_case :
  let p := ex_shown (str "a") (str "x") true in
  let q := ex_shown (str "a"", payload: b""x"", qos: AtMostOnce, retain: true } })") [] false in
  shown_well plain p /\ shown_well plain q /\ p <> q
  /\ packet_words ex_library p = str "Publish(PublishPacket { packet_id: None, dup: false, message: Message { topic: ""a"", payload: b""x"", qos: AtMostOnce, retain: true } })"
  /\ packet_words ex_library q
     = str "Publish(PublishPacket { packet_id: None, dup: false, message: Message { topic: ""a\"", payload: b\""x\"", qos: AtMostOnce, retain: true } })"", payload: b"""", qos: AtMostOnce, retain: false } })".
Proof.
  assert (P : forall t, forallb (fun b => b2n b <? 128) t = true -> plain t).
  { intros t H. apply Forall_forall. intros b Hb. rewrite forallb_forall in H. now apply N.ltb_lt, H. }
  cbv zeta. split; [split; [cbn; constructor; [apply P; reflexivity|constructor]|constructor]|]. split; [split; [cbn; constructor; [apply P; reflexivity|constructor]|constructor]|].
  split; [discriminate|]. split; vm_compute; reflexivity.
Qed.

(** The client of C143's case: what it sent is what its lines show. *)
Example C144_run : exists s c, steps ex_deny true (sys_init 1) ex_task_run = Some s /\ nth_error (conns s) 0%nat = Some c
  /\ c_read c = [ex_client "" None None; PingReq; Disconnect] /\ map snd (c_sent c) = [ConnAck {| session_present := false; return_code := Accepted |}; PingResp]
  /\ Forall (fun p => Forall plain (texts p)) (c_read c) /\ Forall (fun p => Forall plain (texts p)) (map snd (c_sent c)).
Proof.
  do 2 eexists. split; [vm_compute; reflexivity|]. split; [vm_compute; reflexivity|]. split; [vm_compute; reflexivity|]. split; [vm_compute; reflexivity|].
  split; repeat constructor.
Qed.
