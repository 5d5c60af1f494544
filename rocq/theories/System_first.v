(** Consequences of the invariants: first packet, causes, progress of the handler. *)
From Verif Require Import Base Base_facts Packets HashMap Subscriptions Messaging Handler Decoder ReadStream
  ReadStream_facts Conn Conn_facts
  Encoder Encoder_facts WriteStream WriteStream_facts Spec_broker Handler_facts System System_facts System_hist
  System_conn System_queue.

(** ** What a connection is sent, as a function of the history *)

Definition sent_to (k : conn) (l : list (conn * ServerEvent)) : list ServerEvent :=
  map snd (filter (fun x => Nat.eqb k (fst x)) l).

Lemma sent_to_app k l1 l2 : sent_to k (l1 ++ l2) = sent_to k l1 ++ sent_to k l2.
Proof. unfold sent_to. now rewrite filter_app, map_app. Qed.

Lemma sent_to_in k l e : In e (sent_to k l) <-> In (k, e) l.
Proof.
  unfold sent_to. rewrite in_map_iff. split.
  - intros ([k' e'] & <- & H). apply filter_In in H. destruct H as (H & E). cbn [fst] in E. apply Nat.eqb_eq in E.
    now subst.
  - intros H. exists (k, e). split; [reflexivity|]. apply filter_In. split; [exact H|apply Nat.eqb_refl].
Qed.

Lemma sent_to_none k l : (forall e, ~ In (k, e) l) -> sent_to k l = [].
Proof.
  intros H. destruct (sent_to k l) as [|e r] eqn:E; [reflexivity|]. exfalso. apply (H e), sent_to_in. rewrite E. now left.
Qed.

Lemma put_to_sent k l : map snd (put_to k l) = sent_to k (map out l).
Proof.
  induction l as [|[[f d] e] l IH]; [reflexivity|]. unfold put_to, sent_to in *. cbn [flat_map map filter out fst snd].
  destruct (Nat.eqb k d); cbn [app map fst snd]; now rewrite <- IH.
Qed.

(** Of connection [k]'s events, only the first is a CONNECT. *)
Definition one_connect (k : conn) (es : list ClientEvent) : Prop :=
  match events_of k es with
  | [] => True
  | Connected _ _ _ :: r => Forall (fun e => match e with ClientPacket _ _ _ => True | _ => False end) r
  | _ => False
  end.

Lemma one_connect_issued k a cid ps l r : l ++ r = issued k a cid ps ->
  match l with
  | [] => True
  | Connected _ _ _ :: r => Forall (fun e => match e with ClientPacket _ _ _ => True | _ => False end) r
  | _ => False
  end.
Proof.
  destruct l as [|e l]; [exact (fun _ => I)|]. cbn [app]. unfold issued. destruct ps as [|q ps]; [discriminate|].
  destruct q; try discriminate. intros [= -> E]. apply Forall_forall. intros e He.
  assert (Hin : In e (map (fun q => ClientPacket cid q k) ps)) by (rewrite <- E; apply in_or_app; now left).
  apply in_map_iff in Hin. destruct Hin as (q & <- & _). exact I.
Qed.

Lemma one_connect_prefix k es1 es2 : one_connect k (es1 ++ es2) -> one_connect k es1.
Proof.
  unfold one_connect. rewrite events_of_app. destruct (events_of k es1) as [|e l]; [exact (fun _ => I)|]. cbn [app].
  destruct e; auto. intros H. apply Forall_app in H. apply H.
Qed.

Definition first_connack (l : list ServerEvent) : Prop :=
  match l with [] => True | e :: r => is_connack e = true /\ Forall (fun x => is_connack x = false) r end.

Lemma first_connack_app l1 l2 : l1 <> [] -> first_connack l1 -> Forall (fun x => is_connack x = false) l2 ->
  first_connack (l1 ++ l2).
Proof.
  destruct l1 as [|e l1]; [congruence|]. intros _ (H1 & H2) H3. cbn [app first_connack]. split; [exact H1|].
  apply Forall_app. auto.
Qed.

Lemma first_connack_prefix l1 l2 : first_connack (l1 ++ l2) -> first_connack l1.
Proof.
  destruct l1 as [|e l1]; [exact (fun _ => I)|]. cbn [app first_connack]. intros (H1 & H2). split; [exact H1|].
  apply Forall_app in H2. apply H2.
Qed.

(** What one event sends to [k]. *)
Lemma handle_other auth m te k : event_tx (snd te) <> Some k ->
  (forall e, In (k, e) (snd (fst (handle auth m te))) -> is_connack e = false)
  /\ (session_of k m = false -> (forall e, ~ In (k, e) (snd (fst (handle auth m te))))
      /\ session_of k (fst (fst (handle auth m te))) = false).
Proof.
  intros Ht. split.
  - intros e Hin. destruct (handle_receivers auth m te k e Hin) as [(c & a & E)|[(cid & p & E)|(cid & p & k0 & s & E & -> & _)]].
    + rewrite E in Ht. cbn in Ht. congruence.
    + rewrite E in Ht. cbn in Ht. congruence.
    + reflexivity.
  - rewrite session_of_false. intros Hm. split.
    + intros e Hin. destruct (handle_receivers auth m te k e Hin) as [(c & a & E)|[(cid & p & E)|(cid & p & k0 & s & E & -> & Hs & Ek)]].
      * rewrite E in Ht. cbn in Ht. congruence.
      * rewrite E in Ht. cbn in Ht. congruence.
      * apply in_map_iff in Hs. destruct Hs as (x & <- & Hx). exact (Hm x Hx Ek).
    + apply session_of_false. pose proof (handle_sessions auth m te) as E. destruct (handle auth m te) as [[m' l] o].
      cbn [fst]. intros x Hx. rewrite E in Hx. destruct (snd te) as [c a k0|cid p k0|cid|cid].
      * assert (K : In x (hm_insert (client_id c) (new_session (fst te) c a k0) (sessions m)) -> s_sender (snd x) <> k).
        { intros H. apply in_insert in H. destruct H as [->|H]; [|now apply Hm]. cbn in *. congruence. }
        destruct (user_name c); [|now apply K]. destruct (password c); [|now apply Hm].
        destruct (auth _ _); [now apply K|now apply Hm].
      * destruct p; try (now apply Hm). apply in_remove in Hx. now apply Hm.
      * now apply Hm.
      * apply in_remove in Hx. now apply Hm.
Qed.

Lemma handle_packet_connack auth m now cid p k e :
  In (k, e) (snd (fst (handle auth m (now, ClientPacket cid p k)))) -> is_connack e = false.
Proof.
  intros Hin. destruct p; try (exfalso; exact Hin).
  - rewrite handle_publish in Hin. cbn [fst snd] in Hin. apply in_map_iff in Hin. destruct Hin as (r & [= _ <-] & _). reflexivity.
  - rewrite handle_subscribe in Hin. destruct Hin as [[= <-]|[]]. reflexivity.
  - rewrite handle_unsubscribe in Hin. destruct Hin as [[= <-]|[]]. reflexivity.
  - rewrite handle_ping in Hin. destruct Hin as [[= E]|[]]. destruct (session_exists m cid); subst; reflexivity.
Qed.

(** No events, no session and nothing sent. *)
Lemma no_events auth k h : events_of k (map snd h) = [] ->
  let '(m, l, o) := handle_all auth MessagingService_new h in session_of k m = false /\ sent_to k l = [].
Proof.
  induction h as [|te h IH] using rev_ind; [split; reflexivity|].
  rewrite map_app, events_of_app. intros H. apply app_eq_nil in H. destruct H as (H1 & H2). specialize (IH H1).
  rewrite handle_all_snoc. destruct (handle_all auth MessagingService_new h) as [[m l] o]. destruct o; [|exact IH].
  destruct IH as (I1 & I2). cbn [map] in H2. rewrite events_of_one in H2.
  assert (Ht : event_tx (snd te) <> Some k).
  { intros E. rewrite E in H2. cbn in H2. rewrite Nat.eqb_refl in H2. discriminate. }
  destruct (handle_other auth m te k Ht) as (_ & K). specialize (K I1).
  destruct (handle auth m te) as [[m' l'] o']. cbn [fst snd] in K. destruct K as (K1 & K2). split; [exact K2|].
  rewrite sent_to_app, I2, (sent_to_none k l' K1). reflexivity.
Qed.

(** What CONNECT is answered with. *)
Definition answer (auth : bytes -> bytes -> bool) (c : ConnectPacket) : list ServerEvent :=
  match user_name c, password c with
  | Some u, Some p =>
    if auth u p then [ServerPacket (ConnAck {| session_present := false; return_code := Accepted |})]
    else [ServerPacket (ConnAck {| session_present := false; return_code := NotAuthorized |}); ServerDisconnect]
  | Some _, None => []
  | None, _ => [ServerPacket (ConnAck {| session_present := false; return_code := Accepted |})]
  end.

Lemma handle_connect_answer auth m now c a k :
  snd (fst (handle auth m (now, Connected c a k))) = map (pair k) (answer auth c)
  /\ (snd (handle auth m (now, Connected c a k)) = Finished -> answer auth c <> []).
Proof.
  unfold answer. destruct (connect_cases auth c) as [A|[A|(u & H1 & H2)]].
  - rewrite (handle_accepted auth m now c a k A). unfold accepts in A.
    destruct (user_name c); [destruct (password c); [rewrite A|contradiction]|]; split; try reflexivity; discriminate.
  - rewrite (handle_rejected auth m now c a k A). destruct A as (u & p & -> & -> & ->). split; [reflexivity|discriminate].
  - rewrite (handle_no_password auth m now c a k u H1 H2), H1, H2. split; [reflexivity|]. cbn [snd]. discriminate.
Qed.

Lemma sent_to_pair k l : sent_to k (map (pair k) l) = l.
Proof.
  induction l as [|e l IH]; [reflexivity|]. unfold sent_to in *. cbn [map filter fst]. rewrite Nat.eqb_refl.
  cbn [map snd]. now rewrite IH.
Qed.

(** Nothing was handled after a panic. *)
Definition upto auth (h : history) : Prop :=
  forall h' te, h = h' ++ [te] -> snd (handle_all auth MessagingService_new h') = Finished.

Lemma finished_prefix auth h1 h2 m : snd (handle_all auth m (h1 ++ h2)) = Finished -> snd (handle_all auth m h1) = Finished.
Proof. rewrite handle_all_app. destruct (handle_all auth m h1) as [[m1 l1] []]; [reflexivity|]. auto. Qed.

Lemma upto_snoc auth h te : upto auth (h ++ [te]) -> snd (handle_all auth MessagingService_new h) = Finished /\ upto auth h.
Proof.
  intros H. assert (K : snd (handle_all auth MessagingService_new h) = Finished) by (eapply H; reflexivity).
  split; [exact K|]. intros h' te' ->. eapply finished_prefix; exact K.
Qed.

(** The first thing sent to [k] is the answer to its CONNECT, and nothing later is a CONNACK. *)
Lemma first_answer auth k h c a r : upto auth h -> one_connect k (map snd h) ->
  events_of k (map snd h) = Connected c a k :: r ->
  exists rest, sent_to k (snd (fst (handle_all auth MessagingService_new h))) = answer auth c ++ rest
    /\ Forall (fun x => is_connack x = false) rest
    /\ (snd (handle_all auth MessagingService_new h) = Finished -> answer auth c <> [])
    /\ (answer auth c = [] -> rest = []).
Proof.
  revert r. induction h as [|te h IH] using rev_ind; [discriminate|]. intros r HU H1 H2. rewrite map_app in *.
  destruct (upto_snoc auth h te HU) as (HF & HU').
  pose proof (one_connect_prefix _ _ _ H1) as H1'. rewrite events_of_app in H2. cbn [map] in H2. rewrite events_of_one in H2.
  rewrite handle_all_snoc. destruct (events_of k (map snd h)) as [|e0 r0] eqn:E0.
  - (* this is the CONNECT *)
    pose proof (no_events auth k h E0) as K. destruct (handle_all auth MessagingService_new h) as [[m l] o].
    cbn [snd] in HF. subst o.
    destruct K as (_ & K). cbn [app] in H2. destruct (opt_is k (event_tx (snd te))); [|discriminate]. injection H2 as H2 _.
    destruct te as [now e]. cbn [snd] in H2. subst e. pose proof (handle_connect_answer auth m now c a k) as (Hs & Hf).
    destruct (handle auth m (now, Connected c a k)) as [[m' l'] o']. cbn [fst snd] in *. exists [].
    rewrite sent_to_app, K, Hs, sent_to_pair, app_nil_r. auto.
  - cbn [app] in H2. injection H2 as -> H2. destruct (IH r0 HU' H1' eq_refl) as (rest & Es & Hr & Hf & _).
    destruct (handle_all auth MessagingService_new h) as [[m l] o]. cbn [fst snd] in *. subst o. specialize (Hf eq_refl).
    assert (K : Forall (fun x => is_connack x = false) (sent_to k (snd (fst (handle auth m te))))).
    { apply Forall_forall. intros e He. apply sent_to_in in He. destruct (event_tx (snd te)) as [k'|] eqn:Et.
      - destruct (Nat.eqb_spec k k') as [<-|Hn].
        + (* a packet of [k] itself *)
          unfold one_connect in H1. rewrite events_of_app, E0 in H1. cbn [map] in H1. rewrite events_of_one, Et in H1.
          cbn [opt_is] in H1. rewrite Nat.eqb_refl in H1. cbn [app] in H1. apply Forall_app in H1. destruct H1 as (_ & H1).
          apply Forall_inv in H1. destruct te as [now e']. cbn [snd] in *. destruct e' as [|cid p k''| |]; try contradiction.
          cbn in Et. injection Et as ->. exact (handle_packet_connack auth m now cid p k e He).
        + apply (proj1 (handle_other auth m te k ltac:(congruence))). exact He.
      - apply (proj1 (handle_other auth m te k ltac:(congruence))). exact He. }
    destruct (handle auth m te) as [[m' l'] o']. cbn [fst snd] in *. exists (rest ++ sent_to k l').
    rewrite sent_to_app, Es, <- app_assoc. split; [reflexivity|]. split; [apply Forall_app; auto|].
    split; [intros _; exact Hf|contradiction].
Qed.

(** ** The same in the system *)

Section Reachable.

Context (auth : bytes -> bytes -> bool) (dbg : bool) (n : nat) (s : sys) (HR : reachable auth dbg n s).

Lemma upto_handled : upto auth (handled s).
Proof.
  pose proof (hist_invariant auth dbg n s HR) as HI. unfold hist_inv in HI.
  assert (K : forall h te m0 l0 m done r o, midway auth s h te m0 l0 m done r o -> upto auth (handled s)).
  { intros h te m0 l0 m done r o (Hh & Ha & _) h' te' E. rewrite Hh in E. apply app_inj_tail in E. destruct E as (<- & _).
    now rewrite Ha. }
  assert (K2 : snd (handle_all auth MessagingService_new (handled s)) = Finished -> upto auth (handled s)).
  { intros H h' te E. rewrite E in H. eapply finished_prefix; exact H. }
  destruct (hdl s).
  - apply K2. now rewrite HI.
  - destruct HI as (h & te & m0 & l0 & m & done & r & o & HM & _). eapply K; exact HM.
  - destruct HI as (h & te & m0 & l0 & m & done & r & o & HM). eapply K; exact HM.
  - apply K2. now rewrite HI.
Qed.

(** Events of a connection, handled or queued, are a prefix of those it issued. *)
Lemma handled_issued k : exists c, nth_error (conns s) k = Some c /\
    (exists cid rest, events_of k (map snd (handled s) ++ events s) ++ rest = issued k (c_addr c) cid (c_read c)
      /\ forall p qs, c_read c = Connect p :: qs -> goes_by p cid)
  \/ events_of k (map snd (handled s) ++ events s) = [].
Proof.
  pose proof (flow_invariant auth dbg n s HR k) as HF. pose proof (dead_invariant auth dbg n s HR) as (HD & _).
  unfold flow_ok in HF. destruct (nth_error (conns s) k) as [c|].
  - exists c. left. split; [reflexivity|]. destruct HF as (cid & _ & Hi & HF). exists cid. destruct (handler_alive (hdl s)).
    + eauto.
    + rewrite (HD eq_refl), app_nil_r. destruct HF as (rest & HF). eauto.
  - exists (new_conn {| arriving := []; ending := PeerOpen; chunks := []; grants := []; reuse := true |}
              {| accepted := []; wacts := []; wgrants := []; wreuse := true |} 0%N). right. exact HF.
Qed.

Lemma one_connect_system k : one_connect k (map snd (handled s) ++ events s).
Proof.
  destruct (handled_issued k) as (c & [(_ & cid & rest & H & _)|H]); unfold one_connect.
  - eapply one_connect_issued; exact H.
  - now rewrite H.
Qed.

(** Everything sent to [k] so far is a prefix of what handling the history sends. *)
Lemma put_prefix k : exists r, sent_to k (snd (fst (handle_all auth MessagingService_new (handled s))))
  = map snd (put_to k (log s)) ++ r.
Proof.
  destruct (log_prefix auth dbg n s HR) as (m & l & o & r & Ha & Hl). rewrite Ha. cbn [fst snd].
  exists (sent_to k r). rewrite Hl, sent_to_app, put_to_sent. reflexivity.
Qed.

Lemma put_first_connack k : first_connack (map snd (put_to k (log s))).
Proof.
  destruct (put_prefix k) as (r & E). apply (first_connack_prefix _ r). rewrite <- E.
  pose proof (one_connect_prefix _ _ _ (one_connect_system k)) as H1.
  destruct (events_of k (map snd (handled s))) as [|e l] eqn:EE.
  - pose proof (no_events auth k (handled s) EE) as K.
    destruct (handle_all auth MessagingService_new (handled s)) as [[m l] o]. destruct K as (_ & K). cbn [fst snd].
    rewrite K. exact I.
  - assert (HE : exists c a, e = Connected c a k).
    { unfold one_connect in H1. rewrite EE in H1. destruct e as [c a k'| | |]; try contradiction.
      assert (Hin : In (Connected c a k') (events_of k (map snd (handled s)))) by (rewrite EE; now left).
      apply filter_In in Hin. destruct Hin as (_ & Hk). cbn in Hk. apply Nat.eqb_eq in Hk. subst k'. eauto. }
    destruct HE as (c & a & ->).
    destruct (first_answer auth k (handled s) c a l upto_handled H1 EE) as (rest & Es & Hr & _ & Hf).
    rewrite Es. unfold answer in *.
    destruct (user_name c); [destruct (password c); [destruct (auth _ _)|]|]; cbn [app first_connack];
      try (split; [reflexivity|exact Hr || (constructor; [reflexivity|exact Hr])]).
    (* no answer: the handler panicked *)
    rewrite Hf; [exact I|reflexivity].
Qed.

End Reachable.
