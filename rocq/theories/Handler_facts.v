(** Facts about the event handler. *)
From Coq Require Import Permutation.
From Verif Require Import Base Base_facts Packets HashMap Subscriptions Messaging Handler
  Spec_subs Spec_wire Spec_broker Subscriptions_facts.

(** ** Programs call first and send last *)

Fixpoint only_sends (p : prog) : Prop :=
  match p with
  | Done => True
  | Panic => False
  | Call _ _ => False
  | Send _ _ k => only_sends k
  end.

Inductive calls_then_sends : prog -> Prop :=
| CtsSends p : only_sends p -> calls_then_sends p
| CtsPanic : calls_then_sends Panic
| CtsCall R (op : MessagingOperation R) k : (forall r, calls_then_sends (k r)) -> calls_then_sends (Call op k).

Lemma send_to_all_sends l e : only_sends (send_to_all l e).
Proof. induction l; cbn; auto. Qed.

Lemma subscribe_all_cts cid subs : forall codes k, (forall c, calls_then_sends (k c)) ->
  calls_then_sends (subscribe_all cid subs codes k).
Proof.
  induction subs as [|s subs IH]; intros codes k H; cbn [subscribe_all]; [apply H|].
  apply CtsCall. intros r. now apply IH.
Qed.

Theorem on_event_shape auth now e : calls_then_sends (on_event auth now e).
Proof.
  destruct e as [c a k|cid p k|cid|cid]; cbn [on_event].
  - unfold on_connect. set (rest := Call _ _).
    assert (HR : calls_then_sends rest).
    { apply CtsCall. intros [s|]; [apply CtsSends; exact I|]. apply CtsCall. intros _. apply CtsSends. exact I. }
    destruct (user_name c); [|exact HR]. destruct (password c); [|apply CtsPanic].
    destruct (auth _ _); [exact HR|]. apply CtsSends. exact I.
  - destruct p; cbn [on_packet]; try (apply CtsSends; exact I).
    + apply CtsCall. intros l. apply CtsSends, send_to_all_sends.
    + apply subscribe_all_cts. intros c. apply CtsSends. exact I.
    + apply CtsCall. intros _. apply CtsSends. exact I.
    + apply CtsCall. intros []; apply CtsSends; exact I.
    + apply CtsCall. intros _. apply CtsSends. exact I.
  - apply CtsSends. exact I.
  - apply CtsCall. intros _. apply CtsSends. exact I.
Qed.

(** ** Results, event by event *)

Lemma exec_send_to_all l e m : exec (send_to_all l e) m = (m, map (fun k => (k, e)) l, Finished).
Proof. induction l as [|k l IH]; cbn [send_to_all exec map]; [reflexivity|]. now rewrite IH. Qed.

Lemma exec_subscribe_all cid subs : forall codes k m,
  exec (subscribe_all cid subs codes k) m
  = exec (k (codes ++ map (fun _ => SuccessQoS0) subs))
      {| sessions := sessions m;
         subscriptions := fold_left apply_request (map (fun s => ReqSubscribe cid (sub_topic s)) subs)
                            (subscriptions m) |}.
Proof.
  induction subs as [|s subs IH]; intros codes k m; cbn [subscribe_all map fold_left].
  - rewrite app_nil_r. now destruct m.
  - cbn [exec serve]. unfold subscribe at 1. rewrite IH. cbn [sessions subscriptions].
    rewrite <- app_assoc. reflexivity.
Qed.

Definition new_session (now : Z) (c : ConnectPacket) (a : N) (k : conn) : Session :=
  Session_new (client_id c) a (negb (clean_session c)) k (keep_alive_seconds c) now.

Lemma handle_accepted auth m now c a k : accepts auth c ->
  handle auth m (now, Connected c a k)
  = (session_insert m (new_session now c a k),
     [(k, ServerPacket (ConnAck {| session_present := false; return_code := Accepted |}))], Finished).
Proof.
  unfold accepts, handle. cbn [fst snd on_event]. unfold on_connect.
  destruct (user_name c); [|reflexivity]. destruct (password c); [|intros []].
  intros ->. reflexivity.
Qed.

Definition rejected (auth : bytes -> bytes -> bool) (c : ConnectPacket) : Prop :=
  exists u p, user_name c = Some u /\ password c = Some p /\ auth u p = false.

Lemma handle_rejected auth m now c a k : rejected auth c ->
  handle auth m (now, Connected c a k)
  = (m, [(k, ServerPacket (ConnAck {| session_present := false; return_code := NotAuthorized |}));
         (k, ServerDisconnect)], Finished).
Proof.
  intros (u & p & Hu & Hp & Ha). unfold handle. cbn [fst snd on_event]. unfold on_connect.
  rewrite Hu, Hp, Ha. reflexivity.
Qed.

Lemma handle_no_password auth m now c a k u : user_name c = Some u -> password c = None ->
  handle auth m (now, Connected c a k) = (m, [], Panicked).
Proof.
  intros Hu Hp. unfold handle. cbn [fst snd on_event]. unfold on_connect. now rewrite Hu, Hp.
Qed.

Lemma connect_cases auth c : accepts auth c \/ rejected auth c
  \/ exists u, user_name c = Some u /\ password c = None.
Proof.
  unfold accepts, rejected. destruct (user_name c) as [u|]; [|now left].
  destruct (password c) as [p|]; [|right; right; now exists u].
  destruct (auth u p) eqn:E; [now left|]. right. left. now exists u, p.
Qed.

Lemma handle_publish auth m now cid p k :
  handle auth m (now, ClientPacket cid (Publish p) k)
  = (m, map (fun r => (r, ServerPacket (Publish p))) (senders_to_publish m (topic (message p))), Finished).
Proof. unfold handle. cbn [fst snd on_event on_packet on_publish exec serve]. apply exec_send_to_all. Qed.

Lemma handle_subscribe auth m now cid i subs k :
  handle auth m (now, ClientPacket cid (Subscribe i subs) k)
  = ({| sessions := sessions m;
        subscriptions := fold_left apply_request (map (fun s => ReqSubscribe cid (sub_topic s)) subs)
                            (subscriptions m) |},
     [(k, ServerPacket (SubAck i (map (fun _ => SuccessQoS0) subs)))], Finished).
Proof.
  unfold handle. cbn [fst snd on_event on_packet]. unfold on_subscribe. rewrite exec_subscribe_all. reflexivity.
Qed.

Lemma handle_unsubscribe auth m now cid i fs k :
  handle auth m (now, ClientPacket cid (Unsubscribe i fs) k)
  = ({| sessions := sessions m; subscriptions := unsubscribe (subscriptions m) cid fs |},
     [(k, ServerPacket (UnsubAck i))], Finished).
Proof. reflexivity. Qed.

Lemma handle_ping auth m now cid k :
  handle auth m (now, ClientPacket cid PingReq k)
  = (m, [(k, if session_exists m cid then ServerPacket PingResp else ServerDisconnect)], Finished).
Proof. unfold handle. cbn. now destruct (session_exists m cid). Qed.

Lemma handle_disconnect auth m now cid k :
  handle auth m (now, ClientPacket cid Disconnect k)
  = ({| sessions := hm_remove cid (sessions m); subscriptions := disconnected (subscriptions m) cid |},
     [], Finished).
Proof. reflexivity. Qed.

Lemma handle_lost auth m now cid :
  handle auth m (now, ConnectionLost cid)
  = ({| sessions := hm_remove cid (sessions m); subscriptions := connections_lost (subscriptions m) cid |},
     [], Finished).
Proof. reflexivity. Qed.

(** Packets that the handler only logs. *)
Definition ignored (p : ControlPacket) : bool :=
  match p with Publish _ | Subscribe _ _ | Unsubscribe _ _ | PingReq | Disconnect => false | _ => true end.

Lemma handle_ignored auth m now cid p k : ignored p = true ->
  handle auth m (now, ClientPacket cid p k) = (m, [], Finished).
Proof. destruct p; cbn [ignored]; intros H; try discriminate; reflexivity. Qed.

(** All events by case. *)
Lemma handle_sessions auth m te : let '(m', _, o) := handle auth m te in
  sessions m' =
    match snd te with
    | Connected c a k =>
      match user_name c, password c with
      | Some u, Some p => if auth u p then hm_insert (client_id c) (new_session (fst te) c a k) (sessions m)
                          else sessions m
      | Some _, None => sessions m
      | None, _ => hm_insert (client_id c) (new_session (fst te) c a k) (sessions m)
      end
    | ClientPacket cid Disconnect _ | ConnectionLost cid => hm_remove cid (sessions m)
    | _ => sessions m
    end.
Proof.
  destruct te as [now e]. cbn [fst snd]. destruct e as [c a k|cid p k|cid|cid].
  - destruct (connect_cases auth c) as [H|[H|(u & H1 & H2)]].
    + rewrite (handle_accepted auth m now c a k H). unfold accepts in H.
      destruct (user_name c); [|reflexivity]. destruct (password c); [|destruct H]. now rewrite H.
    + rewrite (handle_rejected auth m now c a k H). destruct H as (u & p & -> & -> & ->). reflexivity.
    + rewrite (handle_no_password auth m now c a k u H1 H2). now rewrite H1, H2.
  - destruct p; try reflexivity.
    + now rewrite handle_publish.
    + now rewrite handle_subscribe.
    + rewrite handle_ping. reflexivity.
  - reflexivity.
  - reflexivity.
Qed.

Lemma handle_subs auth m te : let '(m', _, _) := handle auth m te in
  subscriptions m' = fold_left apply_request (requests_of te) (subscriptions m).
Proof.
  destruct te as [now e]. destruct e as [c a k|cid p k|cid|cid]; unfold requests_of; cbn [snd].
  - destruct (connect_cases auth c) as [H|[H|(u & H1 & H2)]].
    + now rewrite (handle_accepted auth m now c a k H).
    + now rewrite (handle_rejected auth m now c a k H).
    + now rewrite (handle_no_password auth m now c a k u H1 H2).
  - destruct p; try reflexivity.
    + now rewrite handle_publish.
    + now rewrite handle_subscribe.
    + now rewrite handle_ping.
  - reflexivity.
  - reflexivity.
Qed.

Lemma handle_panics auth m te : snd (handle auth m te) = Panicked <-> user_without_password te.
Proof.
  destruct te as [now e]. split.
  - destruct e as [c a k|cid p k|cid|cid].
    + destruct (connect_cases auth c) as [H|[H|(u & H1 & H2)]].
      * rewrite (handle_accepted auth m now c a k H). discriminate.
      * rewrite (handle_rejected auth m now c a k H). discriminate.
      * intros _. exists c, a, k, u. auto.
    + destruct p; try discriminate.
      * rewrite handle_publish. discriminate.
      * rewrite handle_subscribe. discriminate.
      * rewrite handle_ping. discriminate.
    + discriminate.
    + discriminate.
  - intros (c & a & k & u & E & H1 & H2). cbn [snd] in E. subst e.
    now rewrite (handle_no_password auth m now c a k u H1 H2).
Qed.

(** Whom an event's sends go to. *)
Lemma handle_receivers auth m te k e : In (k, e) (snd (fst (handle auth m te))) ->
  (exists c a, snd te = Connected c a k) \/ (exists cid p, snd te = ClientPacket cid p k)
  \/ (exists cid p k0 s, snd te = ClientPacket cid (Publish p) k0 /\ e = ServerPacket (Publish p)
        /\ In s (map snd (sessions m)) /\ s_sender s = k).
Proof.
  destruct te as [now ev]. destruct ev as [c a k0|cid p k0|cid|cid]; cbn [snd].
  - intros H. left. exists c, a. f_equal.
    destruct (connect_cases auth c) as [A|[A|(u & H1 & H2)]].
    + rewrite (handle_accepted auth m now c a k0 A) in H. cbn in H. destruct H as [[= -> _]|[]]. reflexivity.
    + rewrite (handle_rejected auth m now c a k0 A) in H. cbn in H.
      destruct H as [[= -> _]|[[= -> _]|[]]]; reflexivity.
    + rewrite (handle_no_password auth m now c a k0 u H1 H2) in H. destruct H.
  - intros H. right. destruct p; try (exfalso; exact H).
    + right. rewrite handle_publish in H. cbn [fst snd] in H. apply in_map_iff in H.
      destruct H as (r & [= <- <-] & Hr). exists cid, p, k0.
      unfold senders_to_publish, subscribed_clients in Hr. apply in_flat_map in Hr.
      destruct Hr as (x & _ & Hx). destruct (hm_get x (sessions m)) as [s|] eqn:E; [|destruct Hx].
      destruct Hx as [<-|[]]. exists s. split; [reflexivity|]. split; [reflexivity|]. split; [|reflexivity].
      apply hm_get_In in E. apply in_map_iff. now exists (x, s).
    + left. rewrite handle_subscribe in H. cbn in H. destruct H as [[= -> _]|[]]. eauto.
    + left. rewrite handle_unsubscribe in H. cbn in H. destruct H as [[= -> _]|[]]. eauto.
    + left. rewrite handle_ping in H. cbn in H. destruct H as [[= -> _]|[]]. eauto.
  - intros [].
  - intros [].
Qed.

(** ** Histories *)

Lemma handle_all_app auth h1 : forall h2 m,
  handle_all auth m (h1 ++ h2)
  = let '(m1, l1, o1) := handle_all auth m h1 in
    match o1 with
    | Panicked => (m1, l1, Panicked)
    | Finished => let '(m2, l2, o2) := handle_all auth m1 h2 in (m2, l1 ++ l2, o2)
    end.
Proof.
  induction h1 as [|e h1 IH]; intros h2 m; cbn [app handle_all].
  - destruct (handle_all auth m h2) as [[m2 l2] o2]. reflexivity.
  - destruct (handle auth m e) as [[m1 l1] o1]. destruct o1; [|reflexivity].
    rewrite IH. destruct (handle_all auth m1 h1) as [[m2 l2] o2]. destruct o2; [|reflexivity].
    destruct (handle_all auth m2 h2) as [[m3 l3] o3]. now rewrite app_assoc.
Qed.

Lemma handle_all_snoc auth h te m : handle_all auth m (h ++ [te])
  = let '(m1, l1, o1) := handle_all auth m h in
    match o1 with
    | Panicked => (m1, l1, Panicked)
    | Finished => let '(m2, l2, o2) := handle auth m1 te in (m2, l1 ++ l2, o2)
    end.
Proof.
  rewrite handle_all_app. destruct (handle_all auth m h) as [[m1 l1] o1]. destruct o1; [|reflexivity].
  cbn [handle_all]. destruct (handle auth m1 te) as [[m2 l2] o2]. destruct o2; [|reflexivity].
  cbn. now rewrite app_nil_r.
Qed.

Theorem handle_all_panics auth h m :
  snd (handle_all auth m h) = Panicked <-> exists te, In te h /\ user_without_password te.
Proof.
  revert m. induction h as [|te h IH]; intros m; cbn [handle_all].
  - split; [discriminate|]. intros (x & [] & _).
  - pose proof (handle_panics auth m te) as HP. destruct (handle auth m te) as [[m1 l1] o1].
    cbn [snd] in HP. destruct o1.
    + specialize (IH m1). destruct (handle_all auth m1 h) as [[m2 l2] o2]. cbn [snd] in *. rewrite IH.
      split.
      * intros (x & Hx & U). exists x. split; [now right|exact U].
      * intros (x & [<-|Hx] & U); [apply HP in U; discriminate|eauto].
    + split; [intros _|reflexivity]. exists te. split; [now left|]. now apply HP.
Qed.

Theorem handle_all_subs auth h m m' l : handle_all auth m h = (m', l, Finished) ->
  subscriptions m' = fold_left apply_request (requests h) (subscriptions m).
Proof.
  revert m m' l. induction h as [|te h IH]; intros m m' l; cbn [handle_all].
  - intros [= <- <-]. reflexivity.
  - pose proof (handle_subs auth m te) as HS. destruct (handle auth m te) as [[m1 l1] o1].
    destruct o1; [|discriminate]. destruct (handle_all auth m1 h) as [[m2 l2] o2] eqn:E.
    intros [= <- <- ->]. rewrite (IH _ _ _ E), HS. unfold requests. cbn [flat_map].
    now rewrite fold_left_app.
Qed.

(** The specification's relations are decidable step by step: the owner of a client id. *)
Definition owner_step (auth : bytes -> bytes -> bool) (cid : ClientId) (o : option conn)
    (te : Z * ClientEvent) : option conn :=
  match snd te with
  | Connected c _ k =>
    if bytes_eqb cid (client_id c) then
      match user_name c, password c with
      | None, _ => Some k
      | Some u, Some p => if auth u p then Some k else o
      | Some _, None => o
      end
    else o
  | ClientPacket cid' Disconnect _ | ConnectionLost cid' => if bytes_eqb cid cid' then None else o
  | _ => o
  end.

Definition owner auth h cid := fold_left (owner_step auth cid) h None.

Lemma owner_step_spec auth cid o te :
  (forall k, accepted_on auth cid k te -> owner_step auth cid o te = Some k)
  /\ (ends cid te -> owner_step auth cid o te = None)
  /\ ((forall k, ~ accepted_on auth cid k te) -> ~ ends cid te -> owner_step auth cid o te = o).
Proof.
  destruct te as [now e]. unfold accepted_on, ends, owner_step. cbn [snd]. split; [|split].
  - intros k (c & a & -> & <- & A). rewrite bytes_eqb_refl. unfold accepts in A.
    destruct (user_name c); [|reflexivity]. destruct (password c); [now rewrite A|destruct A].
  - intros [(k & ->)| ->]; now rewrite bytes_eqb_refl.
  - intros HA HE. destruct e as [c a k|cid' p k|cid'|cid'].
    + destruct (bytes_eqb_spec cid (client_id c)) as [->|_]; [|reflexivity].
      assert (NA : ~ accepts auth c) by (intros A; apply (HA k); exists c, a; auto).
      unfold accepts in NA. destruct (user_name c); [|tauto]. destruct (password c); [|reflexivity].
      destruct (auth _ _); [exfalso; now apply NA|reflexivity].
    + destruct p; try reflexivity. destruct (bytes_eqb_spec cid cid') as [->|_]; [|reflexivity].
      exfalso. apply HE. left. now exists k.
    + reflexivity.
    + destruct (bytes_eqb_spec cid cid') as [->|_]; [|reflexivity]. exfalso. apply HE. now right.
Qed.

Lemma event_dec auth cid te :
  (exists k, accepted_on auth cid k te) \/ ends cid te \/ ((forall k, ~ accepted_on auth cid k te) /\ ~ ends cid te).
Proof.
  destruct te as [now e]. unfold accepted_on, ends. cbn [snd].
  destruct e as [c a k|cid' p k|cid'|cid'].
  - destruct (bytes_eqb_spec cid (client_id c)) as [->|Hn].
    + destruct (connect_cases auth c) as [A|[(u & p & H1 & H2 & H3)|(u & H1 & H2)]].
      * left. exists k, c, a. auto.
      * right. right. split; [|intros [(? & [=])|[=]]].
        intros k' (c' & a' & [= <- <- <-] & _ & A). unfold accepts in A. rewrite H1, H2, H3 in A. discriminate.
      * right. right. split; [|intros [(? & [=])|[=]]].
        intros k' (c' & a' & [= <- <- <-] & _ & A). unfold accepts in A. rewrite H1, H2 in A. destruct A.
    + right. right. split; [|intros [(? & [=])|[=]]].
      intros k' (c' & a' & [= <- <- <-] & E & A). congruence.
  - destruct p; try solve [right; right; split;
      [intros k' (c' & a' & [=] & _)|intros [(? & [=])|[=]]]].
    destruct (bytes_eqb_spec cid cid') as [->|Hn].
    + right. left. left. now exists k.
    + right. right. split; [intros k' (c' & a' & [=] & _)|intros [(? & [=])|[=]]]. congruence.
  - right. right. split; [intros k' (c' & a' & [=] & _)|intros [(? & [=])|[=]]].
  - destruct (bytes_eqb_spec cid cid') as [->|Hn].
    + right. left. now right.
    + right. right. split; [intros k' (c' & a' & [=] & _)|intros [(? & [=])|[=]]]. congruence.
Qed.

Lemma accepted_not_ends auth cid k te : accepted_on auth cid k te -> ~ ends cid te.
Proof. intros (c & a & E & _) [(k' & E')|E']; congruence. Qed.

Lemma accepted_unique auth cid k k' te : accepted_on auth cid k te -> accepted_on auth cid k' te -> k = k'.
Proof. intros (c & a & E & _) (c' & a' & E' & _). congruence. Qed.

Theorem owner_owns auth h cid k : owner auth h cid = Some k <-> owns auth h k cid.
Proof.
  unfold owner. induction h as [|te h IH] using rev_ind.
  - split; [discriminate|]. intros (b & te & a & E & _). destruct b; discriminate.
  - rewrite fold_left_app. cbn [fold_left]. set (o := fold_left _ h None) in *.
    destruct (owner_step_spec auth cid o te) as (S1 & S2 & S3).
    destruct (event_dec auth cid te) as [(k1 & HA)|[HE|(HA & HE)]].
    + rewrite (S1 k1 HA). split.
      * intros [= ->]. exists h, te, []. split; [reflexivity|]. split; [exact HA|].
        split; intros x; [|intros ?]; intros [].
      * intros (b & te' & a & E & HA' & _ & HN).
        destruct a as [|x a _] using rev_ind.
        -- apply app_inj_tail in E. destruct E as (_ & <-). f_equal. eapply accepted_unique; eassumption.
        -- replace (b ++ te' :: a ++ [x]) with ((b ++ te' :: a) ++ [x]) in E
             by (rewrite <- app_assoc; reflexivity).
           apply app_inj_tail in E. destruct E as (_ & <-). exfalso.
           apply (HN te k1); [apply in_or_app; right; now left|exact HA].
    + rewrite (S2 HE). split; [discriminate|].
      intros (b & te' & a & E & HA' & HN & _).
      destruct a as [|x a _] using rev_ind.
      * apply app_inj_tail in E. destruct E as (_ & <-). exfalso. eapply accepted_not_ends; eassumption.
      * replace (b ++ te' :: a ++ [x]) with ((b ++ te' :: a) ++ [x]) in E
          by (rewrite <- app_assoc; reflexivity).
        apply app_inj_tail in E. destruct E as (_ & <-). exfalso.
        apply (HN te); [apply in_or_app; right; now left|exact HE].
    + rewrite (S3 HA HE), IH. split.
      * intros (b & te' & a & -> & H1 & H2 & H3). exists b, te', (a ++ [te]).
        split; [rewrite <- app_assoc; reflexivity|]. split; [exact H1|]. split.
        -- intros x Hx. apply in_app_iff in Hx. destruct Hx as [Hx|[<-|[]]]; auto.
        -- intros x k' Hx. apply in_app_iff in Hx. destruct Hx as [Hx|[<-|[]]]; auto.
      * intros (b & te' & a & E & H1 & H2 & H3).
        destruct a as [|x a _] using rev_ind.
        -- apply app_inj_tail in E. destruct E as (_ & <-). exfalso. exact (HA k H1).
        -- replace (b ++ te' :: a ++ [x]) with ((b ++ te' :: a) ++ [x]) in E
             by (rewrite <- app_assoc; reflexivity).
           apply app_inj_tail in E. destruct E as (-> & <-). exists b, te', a.
           split; [reflexivity|]. split; [exact H1|]. split.
           ++ intros y Hy. apply H2. apply in_or_app. now left.
           ++ intros y k' Hy. apply H3. apply in_or_app. now left.
Qed.

Theorem connected_owner auth h cid : connected auth h cid <-> exists k, owner auth h cid = Some k.
Proof.
  split.
  - induction h as [|te h IH] using rev_ind.
    + intros (b & te & a & k & E & _). destruct b; discriminate.
    + intros (b & te' & a & k & E & H1 & H2). unfold owner. rewrite fold_left_app. cbn [fold_left].
      fold (owner auth h cid). destruct (owner_step_spec auth cid (owner auth h cid) te) as (S1 & S2 & S3).
      destruct a as [|x a _] using rev_ind.
      * apply app_inj_tail in E. destruct E as (_ & <-). exists k. now apply S1.
      * replace (b ++ te' :: a ++ [x]) with ((b ++ te' :: a) ++ [x]) in E
          by (rewrite <- app_assoc; reflexivity).
        apply app_inj_tail in E. destruct E as (-> & <-).
        assert (HE : ~ ends cid te) by (apply H2; apply in_or_app; right; now left).
        destruct (event_dec auth cid te) as [(k1 & HA)|[C|(HA & _)]]; [exists k1; now apply S1|contradiction|].
        rewrite (S3 HA HE). apply IH. exists b, te', a, k. split; [reflexivity|]. split; [exact H1|].
        intros y Hy. apply H2. apply in_or_app. now left.
  - intros (k & H). apply owner_owns in H. destruct H as (b & te & a & E & H1 & H2 & _).
    exists b, te, a, k. auto.
Qed.

(** Sessions after a history. *)
Definition session_owner (m : MessagingService) (cid : ClientId) : option conn :=
  option_map s_sender (hm_get cid (sessions m)).

Lemma handle_owner auth m te cid : let '(m', _, _) := handle auth m te in
  session_owner m' cid = owner_step auth cid (session_owner m cid) te.
Proof.
  pose proof (handle_sessions auth m te) as H. destruct (handle auth m te) as [[m' l] o].
  unfold session_owner, owner_step. rewrite H. destruct (snd te) as [c a k|cid' p k|cid'|cid'].
  - destruct (user_name c) as [u|].
    + destruct (password c) as [p|]; [|now destruct bytes_eqb].
      destruct (auth u p); [|now destruct bytes_eqb]. rewrite hm_get_insert. now destruct bytes_eqb.
    + rewrite hm_get_insert. now destruct bytes_eqb.
  - destruct p; try reflexivity. rewrite hm_get_remove. now destruct bytes_eqb.
  - reflexivity.
  - rewrite hm_get_remove. now destruct bytes_eqb.
Qed.

Theorem handle_all_owner auth h m m' l cid : handle_all auth m h = (m', l, Finished) ->
  session_owner m' cid = fold_left (owner_step auth cid) h (session_owner m cid).
Proof.
  revert m m' l. induction h as [|te h IH]; intros m m' l; cbn [handle_all].
  - intros [= <- <-]. reflexivity.
  - pose proof (handle_owner auth m te cid) as HO. destruct (handle auth m te) as [[m1 l1] o1].
    destruct o1; [|discriminate]. destruct (handle_all auth m1 h) as [[m2 l2] o2] eqn:E.
    intros [= <- <- ->]. rewrite (IH _ _ _ E), HO. reflexivity.
Qed.

Lemma handle_ok auth m te : hm_ok (sessions m) -> hm_ok (sessions (fst (fst (handle auth m te)))).
Proof.
  intros H. pose proof (handle_sessions auth m te) as E. destruct (handle auth m te) as [[m' l] o].
  cbn [fst]. rewrite E. destruct (snd te) as [c a k|cid' p k|cid'|cid'].
  - destruct (user_name c) as [u|]; [|now apply hm_ok_insert].
    destruct (password c) as [p|]; [|exact H]. destruct (auth u p); [now apply hm_ok_insert|exact H].
  - destruct p; try exact H. now apply hm_ok_remove.
  - exact H.
  - now apply hm_ok_remove.
Qed.

Lemma handle_all_ok auth h : forall m, hm_ok (sessions m) ->
  hm_ok (sessions (fst (fst (handle_all auth m h)))).
Proof.
  induction h as [|te h IH]; intros m H; cbn [handle_all]; [exact H|].
  pose proof (handle_ok auth m te H) as H1. destruct (handle auth m te) as [[m1 l1] o1]. cbn [fst] in H1.
  destruct o1; [|exact H1]. specialize (IH m1 H1). destruct (handle_all auth m1 h) as [[m2 l2] o2]. exact IH.
Qed.

Lemma session_exists_owner m cid : session_exists m cid = true <-> exists k, session_owner m cid = Some k.
Proof.
  unfold session_exists, session_owner, hm_mem. destruct (hm_get cid (sessions m)) as [s|]; cbn [option_map].
  - split; [intros _; now exists (s_sender s)|reflexivity].
  - split; [discriminate|]. intros (k & [=]).
Qed.
