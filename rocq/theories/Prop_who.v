(** Property C91: who gets a message, and because of whom. *)
From Verif Require Import Base Base_facts Packets HashMap Subscriptions Messaging Handler Decoder ReadStream
  Conn Encoder WriteStream Spec_wire Spec_subs Spec_broker Spec_ref Subscriptions_facts Handler_facts System System_facts
  System_hist System_conn System_queue System_first System_progress System_exit System_rest
  Prop_subs Prop_stream Prop_broker Prop_system Prop_rest Prop_mqtt Prop_ref.
Open Scope N_scope.

(** ** The reference broker *)

Lemma sends_publish auth k q es : forall r, In (ServerPacket (Publish q)) (ref_sends auth r es k) ->
  exists es1 cid j es2, es = es1 ++ ClientPacket cid (Publish q) j :: es2
    /\ copies (fold_left (ref_next auth) es1 r) k (topic (message q)) <> O.
Proof.
  induction es as [|e es IH]; intros r; cbn [ref_sends]; [intros []|]. intros H. apply in_app_or in H. destruct H as [H|H].
  - assert (K : exists cid j, e = ClientPacket cid (Publish q) j /\ copies r k (topic (message q)) <> O).
    { destruct e as [c a j|cid p j|cid|cid]; cbn [ref_out] in H; try (destruct H; fail).
      - destruct (Nat.eqb k j); [|destruct H]. destruct (let_in auth c) as [[]|]; cbn in H; intuition discriminate.
      - destruct p as [| |pp| | | | |sid ss| |uid ts| | | |]; try (destruct H; fail).
        + destruct (copies r k (topic (message pp))) eqn:E; [destruct H|].
          apply repeat_spec in H. injection H as ->. exists cid, j. split; [reflexivity|]. rewrite E. discriminate.
        + destruct (Nat.eqb k j); [|destruct H]. cbn in H. intuition discriminate.
        + destruct (Nat.eqb k j); [|destruct H]. cbn in H. intuition discriminate.
        + destruct (Nat.eqb k j); [|destruct H]. destruct (place r cid); cbn in H; intuition discriminate. }
    destruct K as (cid & j & -> & K). exists [], cid, j, es. split; [reflexivity|exact K].
  - destruct (stops auth e); [destruct H|]. destruct (IH _ H) as (es1 & cid & j & es2 & -> & K).
    exists (e :: es1), cid, j, es2. split; [reflexivity|exact K].
Qed.

Lemma sum_pos {A} (f : A -> nat) l : sum f l <> O -> exists x, In x l /\ f x <> O.
Proof.
  induction l as [|x l IH]; cbn; [congruence|]. intros H. destruct (f x) eqn:E.
  - destruct IH as (y & Hy & K); [cbn in H; exact H|]. exists y. auto.
  - exists x. split; [auto|]. rewrite E. discriminate.
Qed.

Lemma copies_pos r k name : copies r k name <> O ->
  exists cid f, In (cid, f) (subs r) /\ place r cid = Some k /\ ways (levels name) (levels f) <> O.
Proof.
  intros H. apply sum_pos in H. destruct H as ((cid & f) & Hin & H). exists cid, f. split; [exact Hin|]. cbn [fst snd] in H.
  destruct (place r cid) as [j|]; [|congruence]. destruct (Nat.eqb_spec k j) as [->|]; [|congruence]. auto.
Qed.

Lemma drop_one_in cid f l x : In x (drop_one cid f l) -> In x l.
Proof.
  induction l as [|y l IH]; cbn [drop_one]; [auto|]. destruct (_ && _); [intros H; now right|].
  intros [H|H]; [now left|right; auto].
Qed.

Lemma drop_all_in cid fs x : forall l, In x (drop_all_of cid fs l) -> In x l.
Proof.
  unfold drop_all_of. induction fs as [|f fs IH]; intros l; cbn [fold_left]; [auto|]. intros H. apply IH in H.
  eapply drop_one_in; exact H.
Qed.

(** A subscription that is held was asked for. *)
Lemma sub_origin auth es cid f : In (cid, f) (subs (ref_after auth es)) ->
  exists i ss j, In (ClientPacket cid (Subscribe i ss) j) es /\ In f (map sub_topic ss).
Proof.
  unfold ref_after. induction es as [|e es IH] using rev_ind; [intros []|]. rewrite fold_left_app. cbn [fold_left].
  set (r := fold_left (ref_next auth) es ref_init) in *. intros H.
  assert (K : In (cid, f) (subs r) \/ exists i ss j, e = ClientPacket cid (Subscribe i ss) j /\ In f (map sub_topic ss)).
  { destruct e as [c a j|cid' p j|cid'|cid']; cbn [ref_next] in H; auto.
    - destruct (let_in auth c) as [[]|]; auto.
    - destruct p as [| |pp| | | | |sid ss| |uid ts| | | |]; cbn [ref_next] in H; auto.
      + cbn [subs] in H. apply in_app_or in H. destruct H as [H|H]; [|now left].
        apply in_map_iff in H. destruct H as (s & [= -> <-] & Hs). right. exists sid, ss, j. split; [reflexivity|].
        apply in_map_iff. eauto.
      + left. cbn [subs] in H. eapply drop_all_in; exact H.
      + left. cbn [gone subs] in H. eapply drop_all_in; exact H.
    - left. cbn [gone subs] in H. eapply drop_all_in; exact H. }
  destruct K as [K|(i & ss & j & -> & K)].
  - destruct (IH K) as (i & ss & j & Hin & Hf). exists i, ss, j. split; [apply in_or_app; now left|exact Hf].
  - exists i, ss, j. split; [apply in_or_app; right; now left|exact K].
Qed.

(** A session that exists was opened by a client that was let in. *)
Lemma place_origin auth es cid k : place (ref_after auth es) cid = Some k ->
  exists c a, In (Connected c a k) es /\ client_id c = cid /\ let_in auth c = Some true.
Proof.
  unfold ref_after. induction es as [|e es IH] using rev_ind; [discriminate|]. rewrite fold_left_app. cbn [fold_left].
  set (r := fold_left (ref_next auth) es ref_init) in *. intros H.
  assert (K : place r cid = Some k \/ exists c a, e = Connected c a k /\ client_id c = cid /\ let_in auth c = Some true).
  { destruct e as [c a j|cid' p j|cid'|cid']; cbn [ref_next] in H; auto.
    - destruct (let_in auth c) as [[]|] eqn:E; auto. rewrite place_cons in H.
      destruct (bytes_eqb_spec cid (client_id c)) as [->|]; [|auto]. injection H as ->. right. eauto.
    - destruct p; auto. unfold gone in H. rewrite place_leave in H. destruct (bytes_eqb cid cid'); [discriminate|auto].
    - unfold gone in H. rewrite place_leave in H. destruct (bytes_eqb cid cid'); [discriminate|auto]. }
  destruct K as [K|(c & a & -> & K1 & K2)].
  - destruct (IH K) as (c & a & Hin & Hc). exists c, a. split; [apply in_or_app; now left|exact Hc].
  - exists c, a. split; [apply in_or_app; right; now left|auto].
Qed.

(** ** Executions *)

(** An event that was handled was caused by a packet of a client that goes by that id. *)
Lemma handled_whose auth dbg n s cid p j : reachable auth dbg n s -> In (ClientPacket cid p j) (map snd (handled s)) ->
  exists c q qs, nth_error (conns s) j = Some c /\ client_sends dbg c = Connect q :: qs /\ goes_by q cid /\ In p qs.
Proof.
  intros HR Hin.
  assert (He : In (ClientPacket cid p j) (events_of j (map snd (handled s) ++ events s))).
  { apply filter_In. split; [|cbn; apply Nat.eqb_refl]. apply in_or_app. now left. }
  destruct (handled_issued auth dbg n s HR j) as (c & [(Hk & cid' & rs & Hi & Hg)|Hi]); [|rewrite Hi in He; destruct He].
  destruct (read_prefix auth dbg n s j c HR Hk) as (rd & Hrd). unfold client_sends.
  assert (He' : In (ClientPacket cid p j) (issued j (c_addr c) cid' (c_read c))) by (rewrite <- Hi; apply in_or_app; now left).
  destruct (c_read c) as [|[q| | | | | | | | | | | | |] qs]; try (destruct He'; fail).
  cbn [issued] in He'. destruct He' as [[=]|He']. apply in_map_iff in He'. destruct He' as (q' & [= -> ->] & Hq).
  exists c, q, (qs ++ rd). split; [exact Hk|]. split; [exact Hrd|]. split; [eapply Hg; reflexivity|].
  apply in_or_app. now left.
Qed.

Lemma handled_who auth dbg n s cp a j : reachable auth dbg n s -> In (Connected cp a j) (map snd (handled s)) ->
  exists c q qs, nth_error (conns s) j = Some c /\ client_sends dbg c = Connect q :: qs /\ goes_by q (client_id cp)
    /\ let_in auth q = let_in auth cp.
Proof.
  intros HR Hin.
  assert (He : In (Connected cp a j) (events_of j (map snd (handled s) ++ events s))).
  { apply filter_In. split; [|cbn; apply Nat.eqb_refl]. apply in_or_app. now left. }
  destruct (handled_issued auth dbg n s HR j) as (c & [(Hk & cid' & rs & Hi & Hg)|Hi]); [|rewrite Hi in He; destruct He].
  destruct (read_prefix auth dbg n s j c HR Hk) as (rd & Hrd). unfold client_sends.
  assert (He' : In (Connected cp a j) (issued j (c_addr c) cid' (c_read c))) by (rewrite <- Hi; apply in_or_app; now left).
  destruct (c_read c) as [|[q| | | | | | | | | | | | |] qs]; try (destruct He'; fail).
  cbn [issued] in He'. destruct He' as [[= <- _]|He'].
  - exists c, q, (qs ++ rd). split; [exact Hk|]. split; [exact Hrd|]. split; [apply (Hg q qs); reflexivity|reflexivity].
  - apply in_map_iff in He'. destruct He' as (q' & [=] & _).
Qed.

(** Wanted: a client gets only messages it asked for, itself, after it was let in. *)
Definition C91_statement : Prop := forall auth dbg n s k c q, reachable auth dbg n s -> nth_error (conns s) k = Some c ->
  In (Publish q) (broker_sent c) ->
  exists p ps i ss f, client_sends dbg c = Connect p :: ps /\ let_in auth p = Some true
    /\ In (Subscribe i ss) ps /\ In f (map sub_topic ss) /\ ways (levels (topic (message q))) (levels f) <> O.

(** Nor is it enough to look at clients that were let in. *)
Definition C91_statement2 : Prop := forall auth dbg n s k c q, reachable auth dbg n s -> nth_error (conns s) k = Some c ->
  In (Publish q) (broker_sent c) ->
  exists j c' p ps i ss f, nth_error (conns s) j = Some c'
    /\ client_sends dbg c' = Connect p :: ps /\ let_in auth p = Some true
    /\ In (Subscribe i ss) ps /\ In f (map sub_topic ss) /\ ways (levels (topic (message q))) (levels f) <> O.

(** Holds: the receiver was let in. Its id is that of some connection, let in or not, that asked for the message.
    Some connection published the message, let in or not. The request and the CONNECT were handled before the message. *)
Theorem C91_who_gets_a_message auth dbg n s k c q : reachable auth dbg n s -> nth_error (conns s) k = Some c ->
  In (Publish q) (broker_sent c) ->
  exists cid before cidp jp later, map snd (handled s) = before ++ ClientPacket cidp (Publish q) jp :: later
    /\ (exists p ps cp a, client_sends dbg c = Connect p :: ps /\ goes_by p cid /\ let_in auth p = Some true
          /\ client_id cp = cid /\ In (Connected cp a k) before)
    /\ (exists j cj p ps i ss f, nth_error (conns s) j = Some cj /\ client_sends dbg cj = Connect p :: ps
          /\ goes_by p cid /\ In (Subscribe i ss) ps /\ In f (map sub_topic ss)
          /\ ways (levels (topic (message q))) (levels f) <> O /\ In (ClientPacket cid (Subscribe i ss) j) before)
    /\ (exists cj p ps, nth_error (conns s) jp = Some cj /\ client_sends dbg cj = Connect p :: ps
          /\ goes_by p cidp /\ In (Publish q) ps).
Proof.
  intros HR Hk Hin. destruct (proj2 (C86_every_execution auth dbg n s k HR) c Hk) as (rest & E).
  assert (H : In (ServerPacket (Publish q)) (ref_sends auth ref_init (map snd (handled s)) k)).
  { rewrite E. apply in_or_app. left. now apply in_map. }
  destruct (sends_publish auth k q _ _ H) as (es1 & cidp & j & es2 & Eh & HC).
  apply copies_pos in HC. destruct HC as (cid & f & Hs & Hp & Hw). exists cid, es1, cidp, j, es2. split; [exact Eh|].
  assert (HI : forall e, In e es1 -> In e (map snd (handled s))) by (intros e He; rewrite Eh; apply in_or_app; now left).
  split; [|split].
  - destruct (place_origin auth es1 cid k Hp) as (cp & a & Hi & <- & Hl).
    destruct (handled_who auth dbg n s cp a k HR (HI _ Hi)) as (c1 & p & ps & Hk1 & Hc & Hg & Hl').
    rewrite Hk in Hk1. injection Hk1 as <-. exists p, ps, cp, a. rewrite Hl'. auto 10.
  - destruct (sub_origin auth es1 cid f Hs) as (i & ss & j' & Hi & Hf).
    destruct (handled_whose auth dbg n s cid _ j' HR (HI _ Hi)) as (c1 & p & ps & Hk1 & Hc & Hg & Hin1).
    exists j', c1, p, ps, i, ss, f. auto 12.
  - destruct (handled_whose auth dbg n s cidp (Publish q) j HR) as (c1 & p & ps & Hk1 & Hc & Hg & Hin1).
    { rewrite Eh. apply in_or_app. right. now left. }
    exists c1, p, ps. auto.
Qed.

(** A later connection under the same id gets what an earlier one asked for. *)
Definition ex_heir : list label :=
  [LAccept (ex_peer [ex_client "c" None None; Subscribe 1 [{| sub_topic := str "a"; sub_qos := AtMostOnce |}]] PeerOpen) (ex_socket []) 1]
  ++ ex_rounds 20 [0%nat]
  ++ [LAccept (ex_peer [ex_client "c" None None; Publish (ex_message "a" "x")] PeerOpen) (ex_socket []) 2]
  ++ ex_rounds 20 [0%nat; 1%nat].

Lemma heir : exists s c, reachable ex_deny true 1 s /\ nth_error (conns s) 1 = Some c
  /\ client_sends true c = [ex_client "c" None None; Publish (ex_message "a" "x")]
  /\ In (Publish (ex_message "a" "x")) (broker_sent c).
Proof.
  exists (drive ex_deny true (sys_init 1) ex_heir). eexists. split; [apply drive_reachable|].
  split; [vm_compute; reflexivity|]. split; vm_compute; auto.
Qed.

Theorem C91_only_what_it_asked_for_refuted : ~ C91_statement.
Proof.
  intros H. destruct heir as (s & c & HR & Hk & Hc & Hin).
  destruct (H ex_deny true 1%nat s 1%nat c _ HR Hk Hin) as (p & ps & i & ss & f & E & _ & Hs & _).
  rewrite Hc in E. injection E as _ <-. destruct Hs as [[=]|[]].
Qed.

(** A connection that is turned away asks for messages in the name of one that was not. *)
Definition ex_proxy : list label :=
  [LAccept (ex_peer [ex_client "c" None None; Publish (ex_message "a" "x")] PeerOpen) (ex_socket []) 1;
   LAccept (ex_peer [ex_client "c" (Some (str "u")) (Some (str "wrong"));
                     Subscribe 1 [{| sub_topic := str "a"; sub_qos := AtMostOnce |}]] PeerOpen) (ex_socket []) 2]
  ++ [LReader 0%nat []; LReader 0%nat []] ++ repeat (LHandler 0) 5
  ++ [LReader 1%nat []; LReader 1%nat []; LReader 1%nat []; LReader 1%nat []] ++ repeat (LHandler 0) 10
  ++ [LReader 0%nat []; LReader 0%nat []] ++ repeat (LHandler 0) 5
  ++ repeat (LWriter 0%nat) 6.

Lemma proxy : exists s c c1, reachable ex_deny true 1 s /\ conns s = [c; c1]
  /\ client_sends true c = [ex_client "c" None None; Publish (ex_message "a" "x")]
  /\ client_sends true c1 = [ex_client "c" (Some (str "u")) (Some (str "wrong"));
                             Subscribe 1 [{| sub_topic := str "a"; sub_qos := AtMostOnce |}]]
  /\ In (Publish (ex_message "a" "x")) (broker_sent c).
Proof.
  exists (drive ex_deny true (sys_init 1) ex_proxy). eexists. eexists. split; [apply drive_reachable|].
  split; [vm_compute; reflexivity|]. split; [vm_compute; reflexivity|]. split; vm_compute; auto.
Qed.

Theorem C91_asked_for_by_clients_let_in_refuted : ~ C91_statement2.
Proof.
  intros H. destruct proxy as (s & c & c1 & HR & Hc & H0 & H1 & Hin).
  destruct (H ex_deny true 1%nat s 0%nat c (ex_message "a" "x") HR) as (j & c' & p & ps & i & ss & f & Hj & E & Hl & Hs & _).
  - rewrite Hc. reflexivity.
  - exact Hin.
  - rewrite Hc in Hj. destruct j as [|[|j]]; cbn [nth_error] in Hj.
    + injection Hj as <-. rewrite H0 in E. injection E as _ <-. destruct Hs as [[=]|[]].
    + injection Hj as <-. rewrite H1 in E. injection E as <- _. discriminate Hl.
    + destruct j; discriminate.
Qed.

Example C91_case : exists s c, reachable ex_deny true 1 s /\ nth_error (conns s) 1 = Some c
  /\ client_sends true c = [ex_client "c" None None; Publish (ex_message "a" "x")]
  /\ In (Publish (ex_message "a" "x")) (broker_sent c).
Proof. exact heir. Qed.
