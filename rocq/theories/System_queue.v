(** Senders, queues and writers. *)
From Verif Require Import Base Base_facts Packets HashMap Subscriptions Messaging Handler Decoder ReadStream Conn
  Encoder Encoder_facts WriteStream WriteStream_facts Spec_broker Handler_facts System System_facts System_hist
  System_conn.

(** ** Where senders come from *)

(** Calls of other operations than SendersToPublish that store no sender [k]. *)
Definition harmless (k : conn) {R} (op : MessagingOperation R) : Prop :=
  match op with
  | SessionInsert s => s_sender s <> k
  | SendersToPublish _ => False
  | _ => True
  end.

(** A program that neither sends to [k] nor stores its sender, whatever the replies. *)
Fixpoint avoids (k : conn) (p : prog) : Prop :=
  match p with
  | Done | Panic => True
  | Send to _ p' => to <> k /\ avoids k p'
  | Call op f => harmless k op /\ forall r, avoids k (f r)
  end.

Definition prog_ok (tx : option conn) (p : prog) : Prop :=
  (forall k, tx <> Some k -> avoids k p) \/ (exists q, p = on_publish q) \/ (exists l e, p = send_to_all l e).

Lemma avoids_pending k p : avoids k p -> ~ In k (pending_targets p).
Proof.
  induction p as [| |R op f IH|to e p IH]; cbn [avoids pending_targets]; intros H; try exact (fun x => x).
  intros [->|Hin]; [now apply H|]. now apply IH.
Qed.

Lemma subscribe_all_avoids k cid subs : forall codes f, (forall c, avoids k (f c)) ->
  avoids k (subscribe_all cid subs codes f).
Proof.
  induction subs as [|s subs IH]; intros codes f H; cbn [subscribe_all]; [apply H|].
  cbn [avoids harmless]. split; [exact I|]. intros r. now apply IH.
Qed.

Lemma on_event_ok auth now e : prog_ok (event_tx e) (on_event auth now e).
Proof.
  destruct e as [c a k|cid p k|cid|cid]; cbn [on_event event_tx].
  - left. intros j Hj. assert (k <> j) by congruence. unfold on_connect.
    set (rest := Call _ _).
    assert (HR : avoids j rest).
    { cbn. split; [exact I|]. intros [s|]; cbn; auto. }
    destruct (user_name c); [|exact HR]. destruct (password c); [|exact I].
    destruct (auth _ _); [exact HR|]. cbn. auto.
  - destruct p; try (left; intros j Hj; exact I).
    + right. left. eexists. reflexivity.
    + left. intros j Hj. assert (k <> j) by congruence. apply subscribe_all_avoids. intros c. cbn. auto.
    + left. intros j Hj. assert (k <> j) by congruence. cbn. auto.
    + left. intros j Hj. assert (k <> j) by congruence. cbn. split; [exact I|]. intros []; cbn; auto.
    + left. intros j Hj. cbn. auto.
  - left. intros j Hj. exact I.
  - left. intros j Hj. cbn. auto.
Qed.

Theorem prog_invariant auth dbg n s : reachable auth dbg n s ->
  match hdl s with HBusy tx p => prog_ok tx p | _ => True end.
Proof.
  apply (reachable_trans_ind auth dbg n (fun s => match hdl s with HBusy tx p => prog_ok tx p | _ => True end));
    [exact I|].
  clear s. intros s s' _ HI T. destruct T; try exact HI; cbn [hdl set_hdl panic_handler set_events]; try exact I.
  - apply on_event_ok.
  - rewrite H in HI. destruct HI as [HI|[(q & E)|(l & e & E)]].
    + left. intros k Hk. destruct (HI k Hk) as (_ & Ha). apply Ha.
    + right. right. unfold on_publish in E.
      assert (K : forall R (op' : MessagingOperation R) f', Call op f = Call op' f' ->
                  f (snd (serve (svc s) op)) = f' (snd (serve (svc s) op'))).
      { intros R0 op' f' EE. exact (match EE in _ = z return
          f (snd (serve (svc s) op)) = match z with Call o g => g (snd (serve (svc s) o)) | _ => f (snd (serve (svc s) op)) end
          with eq_refl => eq_refl end). }
      rewrite (K _ _ _ E). eauto.
    + destruct l; discriminate.
  - rewrite H in HI. destruct HI as [HI|[(q & E)|(l & e' & E)]].
    + left. intros k Hk. now destruct (HI k Hk).
    + discriminate.
    + right. right. destruct l as [|x l]; [discriminate|]. cbn [send_to_all] in E. injection E as -> -> ->. eauto.
Qed.

(** Sessions with sender [k]. *)
Definition session_of (k : conn) (m : MessagingService) : bool :=
  existsb (fun x => Nat.eqb k (s_sender (snd x))) (sessions m).

Lemma session_of_false k m : session_of k m = false <-> forall x, In x (sessions m) -> s_sender (snd x) <> k.
Proof.
  unfold session_of. split.
  - intros H x Hx E. assert (existsb (fun x => Nat.eqb k (s_sender (snd x))) (sessions m) = true); [|congruence].
    apply existsb_exists. exists x. split; [exact Hx|]. apply Nat.eqb_eq. congruence.
  - intros H. destruct (existsb _ _) eqn:E; [|reflexivity]. apply existsb_exists in E. destruct E as (x & Hx & E).
    apply Nat.eqb_eq in E. exfalso. now apply (H x).
Qed.

Lemma in_insert {V} k (v : V) m x : In x (hm_insert k v m) -> x = (k, v) \/ In x m.
Proof.
  induction m as [|[k' v'] m IH]; cbn [hm_insert].
  - intros [<-|[]]. now left.
  - destruct (bytes_eqb_spec k k') as [<-|_]; cbn [In]; intros [H|H]; auto.
    destruct (IH H); auto.
Qed.

Lemma in_remove {V} k (m : hmap V) x : In x (hm_remove k m) -> In x m.
Proof. intros H. now apply filter_In in H. Qed.

Lemma serve_sessions {R} m (op : MessagingOperation R) k :
  (match op with SessionInsert s => s_sender s <> k | _ => True end) ->
  session_of k m = false -> session_of k (fst (serve m op)) = false.
Proof.
  rewrite !session_of_false. intros Ho Hm x.
  destruct op; cbn [serve fst sessions session_insert connection_lost disconnect]; try (apply Hm).
  - intros Hx. apply in_insert in Hx. destruct Hx as [->|Hx]; [exact Ho|now apply Hm].
  - intros Hx. apply in_remove in Hx. now apply Hm.
  - intros Hx. apply in_remove in Hx. now apply Hm.
Qed.

Lemma senders_none m t k : session_of k m = false -> ~ In k (senders_to_publish m t).
Proof.
  rewrite session_of_false. intros Hm Hin. unfold senders_to_publish in Hin.
  destruct (subscribed_clients (subscriptions m) t) as [l|]; [|destruct Hin].
  apply in_flat_map in Hin. destruct Hin as (c & _ & Hin). destruct (hm_get c (sessions m)) as [s|] eqn:E; [|destruct Hin].
  destruct Hin as [Hs|[]]. apply hm_get_In in E. exact (Hm _ E Hs).
Qed.

(** ** A connection without senders stays without *)

Definition nth_sender (s : sys) (k : conn) : bool :=
  match nth_error (conns s) k with Some c => has_sender s k c | None => true end.

Lemma nth_sender_false s k : nth_sender s k = false <->
  exists c, nth_error (conns s) k = Some c /\ c_reader c = RDone
    /\ (forall e, In e (events s) -> event_tx e <> Some k)
    /\ (forall tx p, hdl s = HBusy tx p -> tx <> Some k /\ ~ In k (pending_targets p))
    /\ (service_running s = true -> session_of k (svc s) = false).
Proof.
  unfold nth_sender, has_sender. fold (session_of k (svc s)). destruct (nth_error (conns s) k) as [c|].
  2:{ split; [discriminate|]. intros (c & [=] & _). }
  rewrite !orb_false_iff, andb_false_iff. split.
  - intros (((H1 & H2) & H3) & H4). exists c. split; [reflexivity|]. split; [destruct (c_reader c); congruence|]. split; [|split].
    + intros e He Et. assert (existsb (fun e => opt_is k (event_tx e)) (events s) = true); [|congruence].
      apply existsb_exists. exists e. split; [exact He|]. rewrite Et. cbn. apply Nat.eqb_refl.
    + intros tx p E. rewrite E in H3. apply orb_false_iff in H3. destruct H3 as (H3 & H5). split.
      * intros ->. cbn in H3. rewrite Nat.eqb_refl in H3. discriminate.
      * intros Hin. assert (existsb (Nat.eqb k) (pending_targets p) = true); [|congruence].
        apply existsb_exists. exists k. split; [exact Hin|apply Nat.eqb_refl].
    + intros E. destruct H4; congruence.
  - intros (c' & [= <-] & H1 & H2 & H3 & H4). split; [split; [split|]|].
    + now rewrite H1.
    + destruct (existsb _ _) eqn:E; [|reflexivity]. apply existsb_exists in E. destruct E as (e & He & Et).
      exfalso. apply (H2 e He). destruct (event_tx e) as [k'|]; [|discriminate]. cbn in Et. apply Nat.eqb_eq in Et. congruence.
    + destruct (hdl s) as [|tx p| |]; try reflexivity. destruct (H3 tx p eq_refl) as (Ht & Hp). apply orb_false_iff. split.
      * destruct tx as [k'|]; [|reflexivity]. cbn. apply Nat.eqb_neq. congruence.
      * destruct (existsb _ _) eqn:E; [|reflexivity]. apply existsb_exists in E. destruct E as (x & Hx & E).
        apply Nat.eqb_eq in E. subst x. contradiction.
    + destruct (service_running s); [right; now apply H4|now left].
Qed.

Theorem sender_gone auth dbg n s s' k : reachable auth dbg n s -> trans auth dbg s s' ->
  nth_sender s k = false -> nth_sender s' k = false.
Proof.
  intros HR T. pose proof (reader_invariant auth dbg n s HR) as HRD.
  pose proof (prog_invariant auth dbg n s HR) as HP. pose proof (dead_invariant auth dbg n s HR) as (_ & HS).
  rewrite !nth_sender_false. intros (c0 & Hk & Hd & He & Hh & Hs).
  assert (U : forall j c c', nth_error (conns s) j = Some c -> (j = k -> c_reader c' = RDone) ->
              exists x, nth_error (conns (set_conn j c' s)) k = Some x /\ c_reader x = RDone).
  { intros j c c' Hj Hr. cbn [conns set_conn set_conns]. rewrite nth_update. destruct (Nat.eqb_spec k j) as [->|Hn].
    - rewrite Hj. eauto.
    - eauto. }
  destruct T;
    try (exists c0; split; [exact Hk|]; split; [exact Hd|]; split; [exact He|]; split; [exact Hh|exact Hs]).
  - exists c0. cbn [conns set_conns]. rewrite nth_error_snoc.
    assert (Hl : (k < length (conns s))%nat) by (apply nth_error_Some; congruence).
    destruct (Nat.eqb_spec k (length (conns s))); [lia|]. auto.
  - match goal with |- context [set_conn k0 ?c' s] => destruct (U k0 c c' H) as (x & Hx & Hxd) end;
      [intros ->; congruence|]. exists x. auto.
  - match goal with |- context [set_conn k0 ?c' s] => destruct (U k0 c c' H) as (x & Hx & Hxd) end;
      [intros ->; congruence|]. exists x. auto.
  - match goal with |- context [set_conn k0 ?c' s] => destruct (U k0 c c' H) as (x & Hx & Hxd) end;
      [intros ->; reflexivity|]. exists x. auto.
  - (* push *)
    assert (Hn : k0 <> k) by (intros ->; congruence).
    destruct (HRD k0 c H) as (rs0 & _ & Hr). rewrite H0 in Hr. destruct Hr as (_ & _ & Ht).
    match goal with |- context [set_conn k0 ?c' s] => destruct (U k0 c c' H) as (x & Hx & Hxd) end; [congruence|].
    exists x. cbn [conns set_events]. split; [exact Hx|]. split; [exact Hxd|]. cbn [events set_events].
    split; [|auto]. intros e' Hin. apply in_app_or in Hin. destruct Hin as [Hin|[<-|[]]]; [now apply He|congruence].
  - match goal with |- context [set_conn k0 ?c' s] => destruct (U k0 c c' H) as (x & Hx & Hxd) end;
      [intros ->; congruence|]. exists x. auto.
  - match goal with |- context [set_conn k0 ?c' s] => destruct (U k0 c c' H) as (x & Hx & Hxd) end;
      [intros ->; congruence|]. exists x. auto.
  - match goal with |- context [set_conn k0 ?c' s] => destruct (U k0 c c' H) as (x & Hx & Hxd) end;
      [intros ->; cbn; congruence|]. exists x. auto.
  - match goal with |- context [set_conn k0 ?c' s] => destruct (U k0 c c' H) as (x & Hx & Hxd) end;
      [intros ->; cbn; congruence|]. exists x. auto.
  - match goal with |- context [set_conn k0 ?c' s] => destruct (U k0 c c' H) as (x & Hx & Hxd) end;
      [intros ->; cbn; congruence|]. exists x. auto.
  - match goal with |- context [set_conn k0 ?c' s] => destruct (U k0 c c' H) as (x & Hx & Hxd) end;
      [intros ->; cbn; congruence|]. exists x. auto.
  - match goal with |- context [set_conn k0 ?c' s] => destruct (U k0 c c' H) as (x & Hx & Hxd) end;
      [intros ->; cbn; congruence|]. exists x. auto.
  - (* event *)
    assert (Ht : event_tx e <> Some k) by (apply He; rewrite H0; now left).
    exists c0. split; [exact Hk|]. split; [exact Hd|]. split; [|split; [|exact Hs]].
    + cbn [events set_hdl set_handled set_events]. intros e' Hin. apply He. rewrite H0. now right.
    + cbn [hdl set_hdl]. intros tx p [= <- <-]. split; [exact Ht|].
      destruct (on_event_ok auth now e) as [HA|[(q & ->)|(l & ev & E)]].
      * now apply avoids_pending, HA.
      * exact (fun x => x).
      * destruct e as [c a k'|cid p k'|cid|cid]; cbn [on_event event_tx] in *.
        -- unfold on_connect in E |- *. destruct (user_name c) as [u|]; [destruct (password c) as [pw|]; [destruct (auth u pw)|]|];
             try (exact (fun x => x)). cbn. intros [E'|[E'|[]]]; congruence.
        -- destruct p; try exact (fun x => x). cbn [on_packet]. unfold on_subscribe in *. cbn [on_packet] in E.
           unfold on_subscribe in E. destruct subscriptions; cbn; [|exact (fun x => x)]. intros [E'|[]]; congruence.
        -- exact (fun x => x).
        -- exact (fun x => x).
  - exists c0. split; [exact Hk|]. split; [exact Hd|]. split; [exact He|]. split; [|exact Hs].
    cbn [hdl set_hdl]. intros ? ? [=].
  - exists c0. split; [exact Hk|]. split; [exact Hd|]. split; [intros e []|]. split; [|exact Hs].
    cbn [hdl set_hdl panic_handler set_events]. intros ? ? [=].
  - (* call *)
    destruct (Hh _ _ H) as (Ht & _). rewrite H in HP. rewrite H in HS. specialize (HS eq_refl). specialize (Hs HS).
    exists c0. split; [exact Hk|]. split; [exact Hd|]. split; [exact He|].
    cbn [hdl set_hdl svc set_svc service_running].
    assert (K : (exists q, Call op f = on_publish q) \/ harmless k op /\ forall r, avoids k (f r)).
    { destruct HP as [HP|[HP|(l & e & E)]]; [right; exact (HP k Ht)|left; exact HP|destruct l; discriminate]. }
    destruct K as [(q & E)|(Ho & Ha)].
    + unfold on_publish in E.
      assert (K : forall R (op' : MessagingOperation R) f', Call op f = Call op' f' ->
                  f (snd (serve (svc s) op)) = f' (snd (serve (svc s) op')) /\ fst (serve (svc s) op) = fst (serve (svc s) op')).
      { intros R0 op' f' EE. exact (match EE in _ = z return
          match z with Call o g => f (snd (serve (svc s) op)) = g (snd (serve (svc s) o)) /\ fst (serve (svc s) op) = fst (serve (svc s) o)
                     | _ => True end
          with eq_refl => conj eq_refl eq_refl end). }
      destruct (K _ _ _ E) as (E1 & E2). rewrite E1, E2. cbn [serve fst snd]. split; [|intros _; exact Hs].
      intros tx' p' [= <- <-]. split; [exact Ht|].
      pose proof (senders_none (svc s) (topic (message q)) k Hs) as HN.
      induction (senders_to_publish (svc s) (topic (message q))) as [|x l IH]; [exact (fun x => x)|].
      cbn [send_to_all pending_targets]. intros [->|Hin]; [apply HN; now left|]. apply IH; [|exact Hin].
      intros Hl. apply HN. now right.
    + split.
      * intros tx' p' [= <- <-]. split; [exact Ht|]. now apply avoids_pending, Ha.
      * intros _. apply serve_sessions; [|exact Hs]. destruct op; auto.
  - (* send *)
    destruct (Hh _ _ H) as (Ht & Hp).
    match goal with |- context [set_conn to ?c' s] => destruct (U to c c' H0) as (x & Hx & Hxd) end;
      [intros ->; cbn; congruence|].
    exists x. cbn [conns set_hdl set_log]. split; [exact Hx|]. split; [exact Hxd|]. split; [exact He|].
    cbn [hdl set_hdl]. split; [|exact Hs]. intros tx' p' [= <- <-]. split; [exact Ht|]. intros Hin. apply Hp. now right.
  - exists c0. split; [exact Hk|]. split; [exact Hd|]. split; [intros e' []|]. split; [|exact Hs].
    cbn [hdl set_hdl panic_handler set_events]. intros ? ? [=].
  - exists c0. split; [exact Hk|]. split; [exact Hd|]. split; [intros e' []|]. split; [|exact Hs].
    cbn [hdl set_hdl set_events]. intros ? ? [=].
  - exists c0. split; [exact Hk|]. split; [exact Hd|]. split; [exact He|]. split; [exact Hh|].
    cbn [service_running set_service_running]. discriminate.
Qed.

(** ** What the handler sends can be written *)

Lemma handle_all_sends auth h : forall m x, In x (snd (fst (handle_all auth m h))) ->
  exists h1 te h2 m1 l1, h = h1 ++ te :: h2 /\ handle_all auth m h1 = (m1, l1, Finished)
    /\ In x (snd (fst (handle auth m1 te))).
Proof.
  induction h as [|te h IH]; intros m x; cbn [handle_all]; [intros []|].
  destruct (handle auth m te) as [[m1 l1] o1] eqn:E1.
  assert (K : In x l1 -> exists h1 te0 h2 m1 l1, te :: h = h1 ++ te0 :: h2 /\ handle_all auth m h1 = (m1, l1, Finished)
                /\ In x (snd (fst (handle auth m1 te0)))).
  { intros Hx. exists [], te, h, m, []. split; [reflexivity|]. split; [reflexivity|]. now rewrite E1. }
  destruct o1; [|exact K].
  specialize (IH m1 x). destruct (handle_all auth m1 h) as [[m2 l2] o2] eqn:E2. cbn [fst snd] in *.
  intros Hx. apply in_app_or in Hx. destruct Hx as [Hx|Hx]; [now apply K|].
  destruct (IH Hx) as (h1 & te0 & h2 & m3 & l3 & -> & Ha & Hin).
  exists (te :: h1), te0, h2, m3, (l1 ++ l3). split; [reflexivity|]. split; [|exact Hin].
  cbn [handle_all]. now rewrite E1, Ha.
Qed.

Lemma handle_writable auth m te k p : In (k, ServerPacket p) (snd (fst (handle auth m te))) -> writable p = true.
Proof.
  destruct te as [now e]. destruct e as [c a k0|cid q k0|cid|cid]; intros Hin.
  - destruct (connect_cases auth c) as [A|[A|(u & H1 & H2)]].
    + rewrite (handle_accepted auth m now c a k0 A) in Hin. destruct Hin as [[= _ <-]|[]]. reflexivity.
    + rewrite (handle_rejected auth m now c a k0 A) in Hin. destruct Hin as [[= _ <-]|[[=]|[]]]. reflexivity.
    + rewrite (handle_no_password auth m now c a k0 u H1 H2) in Hin. destruct Hin.
  - destruct q; try (exfalso; exact Hin).
    + rewrite handle_publish in Hin. cbn [fst snd] in Hin. apply in_map_iff in Hin.
      destruct Hin as (r & [= _ <-] & _). reflexivity.
    + rewrite handle_subscribe in Hin. destruct Hin as [[= _ <-]|[]]. reflexivity.
    + rewrite handle_unsubscribe in Hin. destruct Hin as [[= _ <-]|[]]. reflexivity.
    + rewrite handle_ping in Hin. destruct Hin as [E|[]]. destruct (session_exists m cid); [|discriminate].
      injection E as _ <-. reflexivity.
  - destruct Hin.
  - destruct Hin.
Qed.

Lemma log_handled auth dbg n s src dst e : reachable auth dbg n s -> In (src, dst, e) (log s) ->
  exists h1 te h2 m1 l1, handled s = h1 ++ te :: h2
    /\ handle_all auth MessagingService_new h1 = (m1, l1, Finished)
    /\ In (dst, e) (snd (fst (handle auth m1 te))).
Proof.
  intros HR Hin. destruct (log_prefix auth dbg n s HR) as (m & l & o & r & Ha & Hl).
  apply (handle_all_sends auth (handled s) MessagingService_new (dst, e)). rewrite Ha. cbn [fst snd]. rewrite Hl.
  apply in_or_app. left. apply in_map_iff. now exists (src, dst, e).
Qed.

Lemma log_writable auth dbg n s src dst p : reachable auth dbg n s ->
  In (src, dst, ServerPacket p) (log s) -> writable p = true.
Proof.
  intros HR Hin. destruct (log_handled auth dbg n s src dst _ HR Hin) as (h1 & te & h2 & m1 & l1 & _ & _ & H).
  eapply handle_writable; eauto.
Qed.

(** ** Queues *)

(** Everything sent to connection [k], with its cause. *)
Definition put_to (k : conn) (l : list (option conn * conn * ServerEvent)) : list (option conn * ServerEvent) :=
  flat_map (fun x => if Nat.eqb k (snd (fst x)) then [(fst (fst x), snd x)] else []) l.

Definition as_sent (x : option conn * ControlPacket) : option conn * ServerEvent := (fst x, ServerPacket (snd x)).

Definition wrote (w : wsock) (ps : list ControlPacket) (ws : wstream) : Prop :=
  write_all ps (connection_wstream w) = WOk ws /\ wwf ws.

Definition writer_ok (c : cstate) : Prop :=
  match c_writer c with
  | WIdle ws | WClosed ws => wrote (c_wsock c) (map snd (c_sent c)) ws
  | WBusy p ws => exists ps f, c_sent c = ps ++ [(f, p)] /\ wrote (c_wsock c) (map snd ps) ws
  end.

Definition queue_ok (s : sys) (k : conn) : Prop :=
  match nth_error (conns s) k with
  | None => put_to k (log s) = []
  | Some c =>
    writer_ok c /\
    match c_writer c with
    | WIdle _ | WBusy _ _ => put_to k (log s) = map as_sent (c_sent c) ++ c_queue c
    | WClosed _ =>
      c_queue c = []
      /\ ((put_to k (log s) = map as_sent (c_sent c) /\ nth_sender s k = false)
          \/ exists f r, put_to k (log s) = map as_sent (c_sent c) ++ (f, ServerDisconnect) :: r)
    end
  end.

Lemma put_to_app k l1 l2 : put_to k (l1 ++ l2) = put_to k l1 ++ put_to k l2.
Proof. apply flat_map_app. Qed.

Lemma put_to_in k l f e : In (f, e) (put_to k l) <-> In (f, k, e) l.
Proof.
  unfold put_to. rewrite in_flat_map. split.
  - intros ([[f' k'] e'] & Hin & Hx). cbn [fst snd] in Hx. destruct (Nat.eqb_spec k k') as [<-|_]; [|destruct Hx].
    destruct Hx as [[= -> ->]|[]]. exact Hin.
  - intros Hin. exists (f, k, e). split; [exact Hin|]. cbn [fst snd]. rewrite Nat.eqb_refl. now left.
Qed.

Lemma write_all_snoc ps : forall p st, write_all (ps ++ [p]) st
  = match write_all ps st with
    | WOk st' => match write_packet p st' with WOk st'' | WErr st'' => WOk st'' | r => r end
    | r => r
    end.
Proof.
  induction ps as [|q ps IH]; intros p st; cbn [write_all app].
  - destruct (write_packet p st); reflexivity.
  - destruct (write_packet q st); auto.
Qed.

Lemma wrote_new w : wrote w [] (connection_wstream w).
Proof. split; [reflexivity|]. unfold wwf. cbn. discriminate. Qed.

Lemma write_ok p ws : writable p = true -> wwf ws ->
  match write_packet p ws with WOk ws' | WErr ws' => wwf ws' | WWait _ => True | WPanic | WHung => False end.
Proof.
  intros Hp W. destruct (encode p) as [bs|] eqn:E.
  - pose proof (write_packet_facts p ws bs W E) as H. destruct (write_packet p ws); cbn [wdone] in H; auto; apply H.
  - apply encode_none in E. congruence.
Qed.

Theorem queue_invariant auth dbg n s : reachable auth dbg n s -> forall k, queue_ok s k.
Proof.
  apply (reachable_trans_ind auth dbg n (fun s => forall k, queue_ok s k)).
  - intros k. unfold queue_ok. cbn. now destruct k.
  - clear s. intros s s' HR HI T.
    assert (HG : forall k, nth_sender s k = false -> nth_sender s' k = false).
    { intros k. eapply sender_gone; eauto. }
    assert (HW : forall k c p ws, nth_error (conns s) k = Some c -> c_writer c = WBusy p ws ->
              writable p = true /\ exists ps f, c_sent c = ps ++ [(f, p)] /\ wrote (c_wsock c) (map snd ps) ws).
    { intros k c p ws Hk Hw. pose proof (HI k) as K. unfold queue_ok in K. rewrite Hk in K. unfold writer_ok in K.
      rewrite Hw in K. destruct K as ((ps & f & Es & Hwr) & Ep). split; [|eauto].
      apply (log_writable auth dbg n s f k p HR). apply put_to_in. rewrite Ep, Es, map_app, <- app_assoc.
      apply in_or_app. right. now left. }
    assert (A : forall k, log s' = log s -> nth_error (conns s') k = nth_error (conns s) k -> queue_ok s' k).
    { intros k El Ec. specialize (HI k). unfold queue_ok in *. rewrite El, Ec. destruct (nth_error (conns s) k) as [c|]; [|exact HI].
      destruct HI as (HWr & HI). split; [exact HWr|]. destruct (c_writer c); auto.
      destruct HI as (Eq & [(E & Hs)|HI]); split; auto. }
    assert (B : forall k c c', nth_error (conns s) k = Some c -> c_writer c' = c_writer c ->
              c_queue c' = c_queue c -> c_sent c' = c_sent c -> c_wsock c' = c_wsock c ->
              log s' = log s -> conns s' = update k c' (conns s) -> forall j, queue_ok s' j).
    { intros k c c' Hk E1 E2 E3 E4 El Ec j. destruct (Nat.eqb_spec j k) as [->|Hn].
      - specialize (HI k). unfold queue_ok in *. rewrite El, Ec, nth_update, Nat.eqb_refl, Hk in *.
        unfold writer_ok in *. rewrite E1, E2, E3, E4. destruct HI as (HWr & HI). split; [exact HWr|].
        destruct (c_writer c); auto. destruct HI as (Eq & [(E & Hs)|HI]); split; auto.
      - apply A; [exact El|]. rewrite Ec, nth_update. apply Nat.eqb_neq in Hn. now rewrite Hn. }
    assert (C : forall k c', log s' = log s -> conns s' = update k c' (conns s) ->
              queue_ok s' k -> forall j, queue_ok s' j).
    { intros k c' El Ec Hk j. destruct (Nat.eqb_spec j k) as [->|Hn]; [exact Hk|].
      apply A; [exact El|]. rewrite Ec, nth_update. apply Nat.eqb_neq in Hn. now rewrite Hn. }
    destruct T; try (intros k0; apply A; reflexivity).
    + intros k. destruct (Nat.eqb_spec k (length (conns s))) as [->|Hn].
      * specialize (HI (length (conns s))). unfold queue_ok in *. cbn [conns set_conns log].
        rewrite nth_error_snoc, Nat.eqb_refl.
        rewrite (proj2 (nth_error_None (conns s) (length (conns s))) (le_n _)) in HI.
        unfold writer_ok. cbn [c_writer new_conn c_wsock c_sent c_queue map app]. split; [apply wrote_new|exact HI].
      * apply A; [reflexivity|]. cbn [conns set_conns]. rewrite nth_error_snoc. apply Nat.eqb_neq in Hn. now rewrite Hn.
    + eapply B; [exact H|..|reflexivity]; reflexivity.
    + eapply B; [exact H|..|reflexivity]; reflexivity.
    + eapply B; [exact H|..|reflexivity]; reflexivity.
    + eapply B; [exact H|..|reflexivity]; reflexivity.
    + eapply B; [exact H|..|reflexivity]; reflexivity.
    + eapply B; [exact H|..|reflexivity]; reflexivity.
    + (* take *)
      eapply C; [reflexivity|reflexivity|]. specialize (HI k). unfold queue_ok, writer_ok in *.
      cbn [conns set_conn set_conns log]. rewrite nth_update, Nat.eqb_refl, H in *. rewrite H0, H1 in HI.
      cbn [c_writer set_writer c_sent set_queue set_sent c_wsock c_queue]. destruct HI as (HWr & HI). split.
      * exists (c_sent c), from. split; [reflexivity|exact HWr].
      * rewrite map_app, <- app_assoc. exact HI.
    + (* told to close *)
      eapply C; [reflexivity|reflexivity|]. specialize (HI k). unfold queue_ok, writer_ok in *.
      cbn [conns set_conn set_conns log]. rewrite nth_update, Nat.eqb_refl, H in *. rewrite H0, H1 in HI.
      cbn [c_writer set_writer c_sent set_queue set_sent c_wsock c_queue]. destruct HI as (HWr & HI). split; [exact HWr|].
      split; [reflexivity|]. right. eauto.
    + (* no senders *)
      eapply C; [reflexivity|reflexivity|].
      assert (HN : nth_sender s k = false) by (unfold nth_sender; now rewrite H).
      specialize (HG k HN). specialize (HI k). unfold queue_ok, writer_ok in *.
      cbn [conns set_conn set_conns log]. rewrite nth_update, Nat.eqb_refl, H in *. rewrite H0, H1 in HI.
      cbn [c_writer set_writer c_sent set_queue set_sent c_wsock c_queue]. destruct HI as (HWr & HI). split; [exact HWr|].
      split; [exact H1|]. left. rewrite app_nil_r in HI. split; [exact HI|exact HG].
    + (* wrote *)
      eapply C; [reflexivity|reflexivity|]. destruct (HW k c p ws H H0) as (Hp & ps & f & Es & Hwr & W).
      specialize (HI k). unfold queue_ok, writer_ok in *.
      cbn [conns set_conn set_conns log]. rewrite nth_update, Nat.eqb_refl, H in *. rewrite H0 in HI.
      cbn [c_writer set_writer c_sent c_wsock c_queue]. destruct HI as (_ & HI). split; [|exact HI].
      pose proof (write_ok p ws Hp W) as HO. unfold wrote. rewrite Es, map_app. cbn [map snd]. rewrite write_all_snoc, Hwr.
      destruct H1 as [H1|H1]; rewrite H1 in *; auto.
    + (* writer panic *)
      exfalso. destruct (HW k c p ws H H0) as (Hp & ps & f & Es & Hwr & W).
      pose proof (write_ok p ws Hp W) as HO. now rewrite H1 in HO.
    + (* send *)
      intros k. destruct (Nat.eqb_spec k to) as [->|Hn].
      * specialize (HI to). unfold queue_ok, writer_ok in *.
        cbn [conns set_hdl set_log set_conn set_conns log]. rewrite nth_update, Nat.eqb_refl, H0 in *.
        cbn [c_writer set_queue c_sent c_wsock c_queue]. destruct HI as (HWr & HI). split; [exact HWr|].
        rewrite put_to_app. unfold put_to at 2 4. cbn [flat_map fst snd]. rewrite Nat.eqb_refl. cbn [app].
        destruct (c_writer c) eqn:EW; [| |exfalso; eapply H1; reflexivity];
          rewrite HI, app_assoc; reflexivity.
      * specialize (HI k). specialize (HG k). unfold queue_ok in *.
        cbn [conns set_hdl set_log set_conn set_conns log]. rewrite nth_update.
        assert (E : put_to k (log s ++ [(tx, to, e)]) = put_to k (log s)).
        { rewrite put_to_app. unfold put_to at 2. cbn [flat_map fst snd]. apply Nat.eqb_neq in Hn. rewrite Hn. apply app_nil_r. }
        rewrite E. apply Nat.eqb_neq in Hn. rewrite Hn. destruct (nth_error (conns s) k) as [c0|]; [|exact HI].
        destruct HI as (HWr & HI). split; [exact HWr|]. destruct (c_writer c0); auto.
        destruct HI as (Eq & [(E' & Hs)|HI]); split; auto.
Qed.
