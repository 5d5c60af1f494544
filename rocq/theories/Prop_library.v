(** Properties C140 and C141: what a session records, and the public methods the broker never calls. *)
From Coq Require Import Permutation.
From Verif Require Import Base Base_facts Packets HashMap Subscriptions Messaging Handler Spec_broker Handler_facts
  Prop_broker KeepAlive Prop_keepalive Library System System_facts System_hist.

(** ** C140: the session of a client *)

(** The CONNECT [c], handled at [t] on connection [k] from address [a], is the last that [cid] was accepted with, and
    nothing has ended the session since. *)
Definition made_at (auth : bytes -> bytes -> bool) (h : history) (cid : ClientId)
    (t : Z) (c : ConnectPacket) (a : N) (k : conn) : Prop :=
  exists before after, h = before ++ (t, Connected c a k) :: after /\ client_id c = cid /\ accepts auth c
    /\ (forall x, In x after -> ~ ends cid x)
    /\ (forall x k', In x after -> ~ accepted_on auth cid k' x).

(** One event changes the session of [cid] as follows. *)
Lemma session_get_step auth m te cid m' l : handle auth m te = (m', l, Finished) ->
  (forall t c a k, te = (t, Connected c a k) -> client_id c = cid -> accepts auth c ->
     session_get m' cid = Some (new_session t c a k))
  /\ (ends cid te -> session_get m' cid = None)
  /\ ((forall k, ~ accepted_on auth cid k te) -> ~ ends cid te -> session_get m' cid = session_get m cid).
Proof.
  intros E. pose proof (handle_sessions auth m te) as H. rewrite E in H. unfold session_get. cbn [r_get in_memory].
  rewrite H. clear H E. split; [|split].
  - intros t c a k -> <- Ha. cbn [fst snd]. unfold accepts in Ha. destruct (user_name c) as [u|].
    + destruct (password c) as [p|]; [|destruct Ha]. rewrite Ha, hm_get_insert. now rewrite bytes_eqb_refl.
    + rewrite hm_get_insert. now rewrite bytes_eqb_refl.
  - intros [(k & X)|X]; rewrite X, hm_get_remove; now rewrite bytes_eqb_refl.
  - intros HA HE. unfold accepted_on, ends in *. destruct (snd te) as [c a k|cid' p k|cid'|cid'].
    + assert (K : forall x : Session, accepts auth c -> hm_get cid (hm_insert (client_id c) x (sessions m)) = hm_get cid (sessions m)).
      { intros x Ha. rewrite hm_get_insert. destruct (bytes_eqb_spec cid (client_id c)) as [->|_]; [|reflexivity].
        exfalso. apply (HA k). exists c, a. auto. }
      unfold accepts in K. destruct (user_name c) as [u|]; [|now apply K]. destruct (password c) as [p|]; [|reflexivity].
      destruct (auth u p); [now apply K|reflexivity].
    + destruct p; try reflexivity. rewrite hm_get_remove. destruct (bytes_eqb_spec cid cid') as [->|_]; [|reflexivity].
      exfalso. apply HE. left. now exists k.
    + reflexivity.
    + rewrite hm_get_remove. destruct (bytes_eqb_spec cid cid') as [->|_]; [|reflexivity]. exfalso. apply HE. now right.
Qed.

Lemma made_at_snoc auth h te cid t c a k : made_at auth (h ++ [te]) cid t c a k <->
  (te = (t, Connected c a k) /\ client_id c = cid /\ accepts auth c)
  \/ (made_at auth h cid t c a k /\ ~ ends cid te /\ forall k', ~ accepted_on auth cid k' te).
Proof.
  split.
  - intros (b & r & E & H1 & H2 & H3 & H4). destruct r as [|x r _] using rev_ind.
    + apply app_inj_tail in E. destruct E as (_ & <-). left. auto.
    + replace (b ++ (t, Connected c a k) :: r ++ [x]) with ((b ++ (t, Connected c a k) :: r) ++ [x]) in E
        by (rewrite <- app_assoc; reflexivity).
      apply app_inj_tail in E. destruct E as (-> & <-). right.
      assert (HI : In te (r ++ [te])) by (apply in_or_app; right; now left).
      split; [|split; [now apply H3|intros k'; now apply H4]].
      exists b, r. split; [reflexivity|]. split; [exact H1|]. split; [exact H2|]. split.
      * intros y Hy. apply H3. apply in_or_app. now left.
      * intros y k' Hy. apply H4. apply in_or_app. now left.
  - intros [(-> & H1 & H2)|((b & r & -> & H1 & H2 & H3 & H4) & H5 & H6)].
    + exists h, []. split; [reflexivity|]. split; [exact H1|]. split; [exact H2|]. split; intros x; [|intros ?]; intros [].
    + exists b, (r ++ [te]). split; [rewrite <- app_assoc; reflexivity|]. split; [exact H1|]. split; [exact H2|]. split.
      * intros x Hx. apply in_app_iff in Hx. destruct Hx as [Hx|[<-|[]]]; auto.
      * intros x k' Hx. apply in_app_iff in Hx. destruct Hx as [Hx|[<-|[]]]; auto.
Qed.

Lemma after_snoc auth h te m : after auth (h ++ [te]) m ->
  exists m0 l, after auth h m0 /\ handle auth m0 te = (m, l, Finished).
Proof.
  intros (l & E). rewrite handle_all_snoc in E. destruct (handle_all auth MessagingService_new h) as [[m1 l1] o1] eqn:E1.
  destruct o1; [|discriminate]. destruct (handle auth m1 te) as [[m2 l2] o2] eqn:E2. injection E as <- _ ->.
  exists m1, l2. split; [now exists l1|exact E2].
Qed.

Lemma session_made auth h : forall m cid s, after auth h m ->
  (session_get m cid = Some s <-> exists t c a k, made_at auth h cid t c a k /\ s = new_session t c a k).
Proof.
  induction h as [|te h IH] using rev_ind; intros m cid s Ha.
  - destruct Ha as (l & [= <- <-]). split; [discriminate|].
    intros (t & c & a & k & (b & r & E & _) & _). destruct b; discriminate.
  - destruct (after_snoc auth h te m Ha) as (m0 & l & H0 & E). specialize (IH m0 cid s H0).
    destruct (session_get_step auth m0 te cid m l E) as (S1 & S2 & S3).
    destruct (event_dec auth cid te) as [(k1 & HA)|[HE|(HA & HE)]].
    + pose proof HA as HA0. destruct HA as (c1 & a1 & Ee & Ei & Hc). destruct te as [t1 e1]. cbn [snd] in Ee. subst e1.
      rewrite (S1 t1 c1 a1 k1 eq_refl Ei Hc). split.
      * intros [= <-]. exists t1, c1, a1, k1. split; [|reflexivity]. apply made_at_snoc. left. auto.
      * intros (t & c & a & k & HM & ->). apply made_at_snoc in HM. destruct HM as [(X & _)|(_ & _ & X)].
        -- injection X as -> -> -> ->. reflexivity.
        -- exfalso. exact (X k1 HA0).
    + rewrite (S2 HE). split; [discriminate|]. intros (t & c & a & k & HM & _). apply made_at_snoc in HM.
      destruct HM as [(-> & H1 & H2)|(_ & X & _)]; [|contradiction]. exfalso. destruct HE as [(? & [=])|[=]].
    + rewrite (S3 HA HE), IH. split; intros (t & c & a & k & HM & ->); exists t, c, a, k; (split; [|reflexivity]).
      * apply made_at_snoc. right. auto.
      * apply made_at_snoc in HM. destruct HM as [(-> & H1 & H2)|(X & _)]; [|exact X]. exfalso. apply (HA k). exists c, a. auto.
Qed.

(** A session is what the CONNECT said, from where and when it came. *)
Theorem C140_session auth h m cid s : after auth h m ->
  (session_get m cid = Some s <->
   exists t c a k, made_at auth h cid t c a k
     /\ s_client_id s = cid /\ s_ip s = a /\ s_persistent s = negb (clean_session c) /\ s_sender s = k
     /\ s_keep_alive_seconds s = keep_alive_seconds c /\ s_last_activity s = t).
Proof.
  intros Ha. rewrite (session_made auth h m cid s Ha). split.
  - intros (t & c & a & k & HM & ->). exists t, c, a, k. split; [exact HM|]. destruct HM as (b & r & _ & <- & _). repeat split.
  - intros (t & c & a & k & HM & H1 & H2 & H3 & H4 & H5 & H6). exists t, c, a, k. split; [exact HM|].
    destruct HM as (b & r & _ & <- & _). destruct s. cbn in *. subst. reflexivity.
Qed.

(** Whatever else is handled, a client keeps the session it has: nothing it sends counts as activity. *)
Theorem C140_untouched auth h more m m' cid : after auth h m -> after auth (h ++ more) m' ->
  (forall x, In x more -> ~ ends cid x) -> (forall x k, In x more -> ~ accepted_on auth cid k x) ->
  session_get m' cid = session_get m cid.
Proof.
  intros H. revert m'. induction more as [|te more IH] using rev_ind; intros m' H' HE HA.
  - rewrite app_nil_r in H'. destruct H as (l & E). destruct H' as (l' & E'). rewrite E in E'. now injection E' as <- _.
  - rewrite app_assoc in H'. destruct (after_snoc auth (h ++ more) te m' H') as (m1 & l & H1 & E).
    destruct (session_get_step auth m1 te cid m' l E) as (_ & _ & S3).
    assert (HI : In te (more ++ [te])) by (apply in_or_app; right; now left).
    rewrite S3; [|intros k; now apply HA|now apply HE]. apply IH.
    + exact H1.
    + intros x Hx. apply HE. apply in_or_app. now left.
    + intros x k Hx. apply HA. apply in_or_app. now left.
Qed.

(** In the running broker: whenever the handler waits for an event, its sessions are those of its history, and so the
    theorems of this section apply. *)
Theorem C140_running auth dbg n s : reachable auth dbg n s -> hdl s = HIdle -> after auth (handled s) (svc s).
Proof.
  intros HR E. pose proof (hist_invariant auth dbg n s HR) as H. unfold hist_inv in H. rewrite E in H. eexists. exact H.
Qed.

(** *** Expired sessions *)

Definition tolerable (last : Z) (s : Session) : Prop :=
  (s_keep_alive_seconds s < 65536)%N /\ (s_last_activity s + 98302 * second <= last)%Z.

Definition overdue (now : Z) (s : Session) : Prop :=
  (0 < s_keep_alive_seconds s)%N /\ (now - s_last_activity s >= 3 * Z.of_N (s_keep_alive_seconds s) / 2 * second)%Z.

Lemma keep_expired_spec last now l : (forall x, In x l -> tolerable last (snd x)) ->
  exists found, keep_expired last now l = Some found
    /\ (forall s, In s found <-> overdue now s /\ In s (map snd l))
    /\ exists l', incl l' l /\ found = map snd l' /\ (NoDup (map fst l) -> NoDup (map fst l')).
Proof.
  induction l as [|(c, s) l IH]; intros HT; cbn [keep_expired].
  - exists []. split; [reflexivity|]. split; [intros s; cbn; tauto|]. exists []. split; [intros x []|]. split; [reflexivity|auto].
  - destruct IH as (found & E & HI & l' & H1 & H2 & H3); [intros x Hx; apply HT; now right|]. rewrite E.
    destruct (HT (c, s) (or_introl eq_refl)) as (K1 & K2). cbn [snd] in K1, K2.
    destruct (C55_deadline last s now K1 K2) as (D0 & D1).
    assert (HB : exists b, is_keep_alive_expired last s now = Some b /\ (b = true <-> overdue now s)).
    { unfold overdue. destruct (N.eq_dec (s_keep_alive_seconds s) 0) as [Z0|NZ].
      - exists false. split; [now apply D0|]. split; [discriminate|]. intros (X & _). lia.
      - destruct D1 as (b & Eb & Hb); [lia|]. exists b. split; [exact Eb|]. rewrite Hb. intuition lia. }
    destruct HB as (b & -> & Hb). destruct b.
    + exists (s :: found). split; [reflexivity|]. split.
      * intros x. cbn [map snd In]. rewrite HI. split.
        -- intros [<-|(X1 & X2)]; [split; [now apply Hb|now left]|split; [exact X1|now right]].
        -- intros (X1 & [<-|X2]); [now left|right; auto].
      * exists ((c, s) :: l'). split; [|split].
        -- intros x [<-|Hx]; [now left|right; auto].
        -- cbn [map snd]. now rewrite H2.
        -- cbn [map fst]. intros HN. inversion HN as [|? ? N1 N2]; subst. constructor; [|auto].
           intros C. apply N1. apply in_map_iff in C. destruct C as (x & <- & Hx). apply in_map. auto.
    + exists found. split; [reflexivity|]. split.
      * intros x. cbn [map snd In]. rewrite HI. split.
        -- intros (X1 & X2). split; [exact X1|now right].
        -- intros (X1 & [<-|X2]); [apply Hb in X1; discriminate|auto].
      * exists l'. split; [|split].
        -- intros x Hx. right. auto.
        -- exact H2.
        -- cbn [map fst]. intros HN. inversion HN; subst. auto.
Qed.

(** The times of a history are far enough from the end of chrono's range, and the keep-alives are 16-bit numbers. *)
Definition sane (last : Z) (te : Z * ClientEvent) : Prop :=
  match snd te with
  | Connected c _ _ => (keep_alive_seconds c < 65536)%N /\ (fst te + 98302 * second <= last)%Z
  | _ => True
  end.

Lemma session_key auth h m x : after auth h m -> In x (sessions m) ->
  exists t c a k, made_at auth h (fst x) t c a k /\ snd x = new_session t c a k.
Proof.
  intros Ha Hx. apply (session_made auth h m (fst x) (snd x) Ha). apply hm_In_get; [exact (after_ok auth h m Ha)|].
  now destruct x.
Qed.

(** The method lists, each once, the clients whose CONNECT is older than one and a half keep-alives. *)
Theorem C140_expired auth h m last now : after auth h m -> (forall te, In te h -> sane last te) ->
  exists l, session_get_keep_alive_expired last now m = Some l
    /\ NoDup (map s_client_id l)
    /\ forall cid, In cid (map s_client_id l) <->
         exists t c a k, made_at auth h cid t c a k /\ (0 < keep_alive_seconds c)%N
           /\ (now - t >= 3 * Z.of_N (keep_alive_seconds c) / 2 * second)%Z.
Proof.
  intros Ha HS. unfold session_get_keep_alive_expired. cbn [r_iter in_memory]. unfold hm_iter.
  destruct (keep_expired_spec last now (sessions m)) as (l & E & HI & l' & H1 & H2 & H3).
  { intros x Hx. destruct (session_key auth h m x Ha Hx) as (t & c & a & k & (b & r & Eh & _) & Ex).
    destruct x as (xk, xs). cbn [fst snd] in *. subst xs. apply (HS (t, Connected c a k)). rewrite Eh. apply in_or_app. right. now left. }
  assert (HK : forall x, In x (sessions m) -> s_client_id (snd x) = fst x).
  { intros x Hx. destruct (session_key auth h m x Ha Hx) as (t & c & a & k & (b & r & _ & Ei & _) & Ex).
    destruct x as (xk, xs). cbn [fst snd] in *. subst xs. exact Ei. }
  exists l. split; [exact E|]. split.
  - rewrite H2, map_map. rewrite (map_ext_in (fun x => s_client_id (snd x)) fst l').
    + apply H3. exact (after_ok auth h m Ha).
    + intros x Hx. apply HK. now apply H1.
  - intros cid. split.
    + intros Hc. apply in_map_iff in Hc. destruct Hc as (s & <- & Hs). apply HI in Hs. destruct Hs as ((O1 & O2) & Hs).
      apply in_map_iff in Hs. destruct Hs as (x & <- & Hx).
      destruct (session_key auth h m x Ha Hx) as (t & c & a & k & HM & Ex). exists t, c, a, k.
      pose proof (HK x Hx) as Ki. destruct x as (xk, xs). cbn [fst snd] in *. rewrite Ki. split; [exact HM|]. subst xs. split; [exact O1|exact O2].
    + intros (t & c & a & k & HM & O1 & O2). apply in_map_iff. exists (new_session t c a k).
      split; [destruct HM as (b & r & _ & <- & _); reflexivity|]. apply HI. split; [split; [exact O1|exact O2]|].
      assert (G : session_get m cid = Some (new_session t c a k)).
      { apply (session_made auth h m cid _ Ha). exists t, c, a, k. split; [exact HM|reflexivity]. }
      apply in_map_iff. exists (cid, new_session t c a k). split; [reflexivity|]. apply hm_get_In. exact G.
Qed.

(** It panics exactly if the deadline of one of the clients is past the last instant chrono can represent. *)
Theorem C140_panics auth h m last now : after auth h m ->
  (forall t c a k, In (t, Connected c a k) h -> (keep_alive_seconds c < 65536)%N) ->
  (session_get_keep_alive_expired last now m = None <->
   exists cid t c a k, made_at auth h cid t c a k /\ (0 < keep_alive_seconds c)%N
     /\ (last < t + 3 * Z.of_N (keep_alive_seconds c) / 2 * second)%Z).
Proof.
  intros Ha HB.
  assert (H1 : forall l, (keep_expired last now l = None <-> exists x, In x l /\ is_keep_alive_expired last (snd x) now = None)).
  { induction l as [|(c, s) l IH]; cbn [keep_expired].
    - split; [discriminate|]. intros (x & [] & _).
    - destruct (is_keep_alive_expired last s now) as [b|] eqn:E.
      + destruct (keep_expired last now l) as [f|].
        * split; [discriminate|]. intros (x & [<-|Hx] & X); [cbn [snd] in X; congruence|].
          destruct IH as (_ & IH). discriminate IH. exists x. auto.
        * split; [intros _|reflexivity]. destruct IH as (IH & _). destruct (IH eq_refl) as (x & Hx & X). exists x. split; [now right|exact X].
      + split; [intros _|reflexivity]. exists (c, s). split; [now left|exact E]. }
  assert (H2 : forall s, (s_keep_alive_seconds s < 65536)%N -> (is_keep_alive_expired last s now = None <->
    (0 < s_keep_alive_seconds s)%N /\ (last < s_last_activity s + 3 * Z.of_N (s_keep_alive_seconds s) / 2 * second)%Z)).
  { intros s Hk. unfold is_keep_alive_expired. rewrite (C55_leeway _ Hk). unfold second.
    destruct (N.eqb_spec (s_keep_alive_seconds s) 0) as [->|HN]; [split; [discriminate|intros (X & _); lia]|].
    destruct (Z.ltb_spec last (s_last_activity s + 3 * Z.of_N (s_keep_alive_seconds s) / 2 * 1000000000)) as [L|L].
    - split; [intros _; split; [lia|exact L]|reflexivity].
    - split; [discriminate|]. intros (_ & X). lia. }
  unfold session_get_keep_alive_expired. rewrite H1. cbn [r_iter in_memory]. unfold hm_iter.
  assert (HK : forall cid t c a k, made_at auth h cid t c a k -> (keep_alive_seconds c < 65536)%N).
  { intros cid t c a k (b & r & -> & _). apply (HB t c a k). apply in_or_app. right. now left. }
  split.
  - intros (x & Hx & X). destruct (session_key auth h m x Ha Hx) as (t & c & a & k & HM & Ex).
    exists (fst x), t, c, a, k. split; [exact HM|]. specialize (H2 (new_session t c a k) (HK _ _ _ _ _ HM)).
    destruct x as (xk, xs). cbn [fst snd] in *. subst xs. exact (proj1 H2 X).
  - intros (cid & t & c & a & k & HM & O1 & O2). exists (cid, new_session t c a k). split.
    + apply hm_get_In. change (session_get m cid = Some (new_session t c a k)).
      apply (session_made auth h m cid _ Ha). exists t, c, a, k. split; [exact HM|reflexivity].
    + apply (H2 (new_session t c a k) (HK _ _ _ _ _ HM)). split; [exact O1|exact O2].
Qed.

(** Two clients with keep-alive 60 (90 seconds); the first sends a PINGREQ just before, and is listed all the same. *)
Definition idle_history : history :=
  [(0%Z, Connected (ex_connect "c" true) 1%N 1%nat); ((50 * second)%Z, Connected (ex_connect "d" false) 2%N 2%nat);
   ((89 * second)%Z, ClientPacket (str "c") PingReq 1%nat)].

Example C140_case :
  let m := fst (fst (handle_all ex_auth MessagingService_new idle_history)) in
  after ex_auth idle_history m
  /\ (forall te, In te idle_history -> sane (10 ^ 30)%Z te)
  /\ session_get m (str "d") = Some (Session_new (str "d") 2%N true 2%nat 60%N (50 * second)%Z)
  /\ option_map (map s_client_id) (session_get_keep_alive_expired (10 ^ 30)%Z (90 * second)%Z m) = Some [str "c"]
  /\ option_map (map s_client_id) (session_get_keep_alive_expired (10 ^ 30)%Z (90 * second - 1)%Z m) = Some []
  /\ session_get_keep_alive_expired (100 * second)%Z (60 * second)%Z m = None.
Proof.
  split; [eexists; vm_compute; reflexivity|]. split.
  - intros te [<-|[<-|[<-|[]]]]; vm_compute; auto; split; first [reflexivity|discriminate].
  - vm_compute. auto.
Qed.

(** ** C141: the methods nobody calls *)

(** Awaited, [publish] would be the handler's own loop: the same sends in the same order, so that it can be read off the
    senders the handler asks for. *)
Theorem C141_publish m message publish :
  publish_awaited m message publish = send_to_all (senders_to_publish m (topic message)) (ServerPacket (Publish publish)).
Proof.
  unfold publish_awaited, senders_to_publish. destruct (subscribed_clients (subscriptions m) (topic message)) as [ids|]; [|reflexivity].
  induction ids as [|c ids IH]; cbn [publish_loop flat_map]; [reflexivity|]. cbn [r_get in_memory].
  destruct (hm_get c (sessions m)); cbn [app send_to_all]; [now rewrite IH|exact IH].
Qed.

(** Handling a PUBLISH is asking for the senders and then doing just that, in the state in which they were asked for. *)
Corollary C141_same_as_handler auth now cid p k m :
  exec (on_event auth now (ClientPacket cid (Publish p) k)) m = exec (publish_awaited m (message p) p) m
  /\ serve m (PublishOp (message p) p) = (m, tt).
Proof.
  split; [|reflexivity]. rewrite C141_publish. cbn [on_event on_packet]. unfold on_publish. cbn [exec serve]. reflexivity.
Qed.

(** Changes to a repository, oldest first. *)
Inductive change :=
| CInsert (s : Session)
| CDelete (c : ClientId)
| CChange (c : ClientId) (f : Session -> Session).

Definition changed {T} (R : SessionRepository T) (x : T) (o : change) : T :=
  match o with
  | CInsert s => r_insert R x s
  | CDelete c => fst (r_delete R x c)
  | CChange c f => r_change R x c f
  end.

(** What is stored for [c]: the latest of what was inserted for it, changed as said, unless deleted. *)
Fixpoint stored (start : option Session) (c : ClientId) (os : list change) : option Session :=
  match os with
  | [] => start
  | CInsert s :: os' => stored (if bytes_eqb c (s_client_id s) then Some s else start) c os'
  | CDelete c' :: os' => stored (if bytes_eqb c c' then None else start) c os'
  | CChange c' f :: os' => stored (if bytes_eqb c c' then option_map f start else start) c os'
  end.

Lemma hm_get_change {V} k k' (f : V -> V) m :
  hm_get k (hm_change k' f m) = if bytes_eqb k k' then option_map f (hm_get k m) else hm_get k m.
Proof.
  induction m as [|(a, w) m IH]; cbn [hm_change hm_get]; [now destruct bytes_eqb|].
  destruct (bytes_eqb_spec k' a) as [->|Hn]; cbn [hm_get].
  - destruct (bytes_eqb_spec k a); reflexivity.
  - destruct (bytes_eqb_spec k a) as [->|Hm]; [|exact IH]. destruct (bytes_eqb_spec a k'); [congruence|reflexivity].
Qed.

Lemma hm_keys_change {V} k (f : V -> V) m : map fst (hm_change k f m) = map fst m.
Proof.
  induction m as [|(a, w) m IH]; cbn [hm_change map fst]; [reflexivity|]. destruct (bytes_eqb k a); cbn [map fst]; congruence.
Qed.

Lemma in_memory_ok os : forall m, hm_ok m -> hm_ok (fold_left (changed in_memory) os m).
Proof.
  induction os as [|o os IH]; intros m H; cbn [fold_left]; [exact H|]. apply IH.
  destruct o as [s|c|c f]; cbn [changed r_insert r_delete r_change in_memory fst].
  - now apply hm_ok_insert.
  - now apply hm_ok_remove.
  - unfold hm_ok. rewrite hm_keys_change. exact H.
Qed.

(** The repository in memory is a map. *)
Theorem C141_map start os c : hm_ok start ->
  let m := fold_left (changed in_memory) os start in
  let v := stored (hm_get c start) c os in
  r_get in_memory m c = v
  /\ (r_exists in_memory m c = true <-> v <> None)
  /\ snd (r_delete in_memory m c) = v
  /\ (forall s, In (c, s) (r_iter in_memory m) <-> v = Some s)
  /\ NoDup (map fst (r_iter in_memory m))
  /\ forall ids, NoDup ids -> (forall i, In i ids <-> stored (hm_get i start) i os <> None) -> r_count in_memory m = length ids.
Proof.
  intros Hs m v.
  assert (G : forall i, hm_get i m = stored (hm_get i start) i os).
  { intros i. subst m. clear v Hs. revert start. induction os as [|o os IH]; intros start; cbn [fold_left stored]; [reflexivity|].
    rewrite IH. destruct o as [s|c'|c' f]; cbn [changed r_insert r_delete r_change in_memory fst stored].
    - now rewrite hm_get_insert.
    - now rewrite hm_get_remove.
    - now rewrite hm_get_change. }
  assert (HO : hm_ok m) by (now apply in_memory_ok).
  cbn [r_get r_exists r_delete r_iter r_count in_memory snd]. unfold hm_iter, hm_len, hm_mem. rewrite G. fold v.
  split; [reflexivity|]. split; [destruct v; split; congruence|]. split; [reflexivity|]. split; [|split].
  - intros s. split; intros H.
    + unfold v. rewrite <- G. now apply hm_In_get.
    + apply hm_get_In. now rewrite G.
  - exact HO.
  - intros ids HN HI. rewrite <- (map_length fst). apply Permutation_length. apply NoDup_Permutation; [exact HO|exact HN|].
    intros i. rewrite HI, <- G. pose proof (hm_get_None i m) as K. destruct (hm_get i m) as [s|] eqn:E.
    + split; [congruence|]. intros _. apply hm_get_In in E. apply in_map_iff. now exists (i, s).
    + split; [|congruence]. intros C. exfalso. now apply K.
Qed.

(** The service does what its repository does, whatever that is. *)
Theorem C141_service {T} (R : SessionRepository T) x s c :
  repository (service_insert R (SessionService_new x) s) = r_insert R x s
  /\ service_exists R (SessionService_new x) c = r_exists R x c
  /\ service_get R (SessionService_new x) c = r_get R x c
  /\ repository (fst (service_delete R (SessionService_new x) c)) = fst (r_delete R x c)
  /\ snd (service_delete R (SessionService_new x) c) = snd (r_delete R x c)
  /\ service_count R (SessionService_new x) = r_count R x.
Proof. repeat split. Qed.

(** The change the source has commented out (client_packet_handler.rs:145): with it, activity would be recorded, and
    nothing but that changed. *)
Theorem C141_activity m c t :
  let m' := session_change m c (set_last_activity t) in
  subscriptions m' = subscriptions m
  /\ (forall c', c' <> c -> session_get m' c' = session_get m c')
  /\ match session_get m c with
     | None => session_get m' c = None
     | Some s => exists s', session_get m' c = Some s' /\ s_last_activity s' = t
         /\ s_client_id s' = s_client_id s /\ s_ip s' = s_ip s /\ s_persistent s' = s_persistent s
         /\ s_sender s' = s_sender s /\ s_keep_alive_seconds s' = s_keep_alive_seconds s
     end
  /\ session_count m' = session_count m.
Proof.
  intros m'. split; [reflexivity|]. unfold session_get, m', session_change. cbn [sessions r_get r_change in_memory]. split; [|split].
  - intros c' Hc. rewrite hm_get_change. destruct (bytes_eqb_spec c' c); [contradiction|reflexivity].
  - rewrite hm_get_change, bytes_eqb_refl. destruct (hm_get c (sessions m)) as [s|]; cbn [option_map]; [|reflexivity].
    exists (set_last_activity t s). repeat split.
  - unfold session_count, hm_len. cbn [sessions]. rewrite <- (map_length fst), hm_keys_change. apply map_length.
Qed.

Example C141_case :
  let s i t := Session_new i 1%N true 3%nat 60%N t in
  let m := fold_left (changed in_memory)
             [CInsert (s (str "a") 1%Z); CInsert (s (str "b") 2%Z); CChange (str "b") (set_last_activity 9%Z); CInsert (s (str "c") 3%Z); CDelete (str "a")] [] in
  r_get in_memory m (str "b") = Some (s (str "b") 9%Z) /\ r_exists in_memory m (str "a") = false /\ r_count in_memory m = 2%nat
  /\ publish_awaited ex_state (message (ex_publish "a/x")) (ex_publish "a/x")
     = Send 4%nat (ServerPacket (Publish (ex_publish "a/x"))) (Send 4%nat (ServerPacket (Publish (ex_publish "a/x"))) Done).
Proof. vm_compute. auto. Qed.
