(** Properties C113-C116: what the log says and what it gives away. *)
From Verif Require Import Base Base_facts Packets HashMap Subscriptions Messaging Handler Decoder ReadStream ReadStream_facts Conn
  Encoder WriteStream Encoder_facts Plain_facts Utf8_facts Conn_facts Spec_subs Spec_wire Spec_broker Spec_ref Conform_facts Subscriptions_facts Handler_facts System System_facts
  System_hist Logging Log_facts Prop_subs Prop_codec Prop_stream Prop_broker Prop_mqtt Prop_ref Prop_system Auth Prop_auth.

(** ** C113: the log at INFO *)

(** How many copies of a message are for a client that has no session. *)
Definition unplaced (r : ref) (c : bytes) (name : bytes) : nat :=
  match place r c with
  | Some _ => O
  | None => sum (fun x => if bytes_eqb c (fst x) then ways (levels name) (levels (snd x)) else O) (subs r)
  end.

(** What an event leaves in the log up to level info, in terms of the reference broker's state before it. *)
Definition told (auth : bytes -> bytes -> bool) (L : library) (r : ref) (e : ClientEvent) (rs : list entry) : Prop :=
  match e with
  | Connected c _ _ =>
    match user_name c, password c with
    | Some u, Some p =>
      rs = if auth u p then []
           else [{| lvl := Info; said := str "Client " ++ u ++ str " authentication error: " ++ of_refusal L u p |}]
    | _, _ => rs = []
    end
  | ClientPacket cid (Publish p) _ =>
    exists cids, rs = map (fun c => {| lvl := Warn; said := str "Tried to send message, but session for client "
                                                            ++ show_string L c ++ str " not found" |}) cids
      /\ forall c, count_occ bytes_eq_dec cids c = unplaced r c (topic (message p))
  | ClientPacket cid PingReq _ =>
    rs = match place r cid with
         | Some _ => []
         | None => [{| lvl := Error; said := str "Received PING from not existing session with client id " ++ cid |}]
         end
  | ClientPacket _ (Subscribe _ _) _ | ClientPacket _ (Unsubscribe _ _) _ | ClientPacket _ Disconnect _ => rs = []
  | ClientPacket _ p _ => rs = [{| lvl := Error; said := str "Packet " ++ packet_name p ++ str " not supported" |}]
  | Disconnected _ => rs = []
  | ConnectionLost cid =>
    rs = [{| lvl := Info; said := str "Client " ++ show_string L cid ++ str " disconnected unexpectedly" |}]
  end.

(** ... and a sequence of events. *)
Inductive told_all (auth : bytes -> bytes -> bool) (L : library) : list ClientEvent -> list entry -> Prop :=
| told_none : told_all auth L [] []
| told_more es rs e rs' : told_all auth L es rs -> told auth L (ref_after auth es) e rs' ->
    told_all auth L (es ++ [e]) (rs ++ rs').

Lemma upto_app l a b : upto l (a ++ b) = upto l a ++ upto l b.
Proof. apply filter_app. Qed.

Lemma entries_subscribe_all L cid ss k : (forall codes m, exec_entries L (k codes) m = []) ->
  forall codes m, exec_entries L (subscribe_all cid ss codes k) m = [].
Proof.
  intros HK. induction ss as [|s ss IH]; intros codes m; cbn [subscribe_all]; [apply HK|].
  cbn [exec_entries call_entries app serve]. destruct (subscribe (subscriptions m) cid s) as [m' r]. apply IH.
Qed.

Lemma entries_send_all L l e m : exec_entries L (send_to_all l e) m = [].
Proof. induction l; cbn [send_to_all exec_entries]; auto. Qed.

(** The warnings of a publish. *)
Definition warned (L : library) (m : MessagingService) (t : bytes) : list entry :=
  map (fun c => {| lvl := Warn; said := str "Tried to send message, but session for client " ++ show_string L c ++ str " not found" |})
    (filter (fun c => negb (hm_mem c (sessions m))) (walk (split_slash t) [subscriptions m] [])).

(** What remains to be said after the first await. *)
Definition later_entries (L : library) (m : MessagingService) (e : ClientEvent) : list entry :=
  match e with
  | ClientPacket cid (Publish p) _ => warned L m (topic (message p))
  | ClientPacket cid PingReq _ =>
    if session_exists m cid then []
    else [{| lvl := Error; said := str "Received PING from not existing session with client id " ++ cid |}]
  | _ => []
  end.

Lemma handle_entries_eq auth L m te : handle_entries auth L m te = event_entries auth L (snd te) ++ later_entries L m (snd te).
Proof.
  destruct te as [now e]. unfold handle_entries. cbn [fst snd]. f_equal.
  destruct e as [c a k|cid p k|cid|cid]; cbn [on_event later_entries].
  - unfold on_connect. destruct (user_name c); [|reflexivity]. destruct (password c); [|reflexivity]. now destruct (auth _ _).
  - destruct p as [| |pp| | | | |sid ss| |uid ts| | | |]; cbn [on_packet]; try reflexivity.
    + unfold on_publish. cbn [exec_entries call_entries serve]. rewrite entries_send_all, app_nil_r.
      unfold subscribed_clients, warned. induction (walk _ _ _) as [|x l IH]; [reflexivity|]. cbn [flat_map filter].
      unfold hm_mem in *. destruct (hm_get x (sessions m)); cbn [negb map app]; now rewrite IH.
    + unfold on_subscribe. apply entries_subscribe_all. reflexivity.
    + unfold on_ping_req. cbn [exec_entries call_entries serve]. destruct (session_exists m cid); cbn [exec_entries]; now rewrite app_nil_r.
  - reflexivity.
  - reflexivity.
Qed.

Lemma warned_count auth h m name c : after auth h m ->
  count_occ bytes_eq_dec (filter (fun c => negb (hm_mem c (sessions m))) (walk (split_slash name) [subscriptions m] [])) c
  = unplaced (ref_after auth (map snd h)) c name.
Proof.
  intros H. unfold unplaced. rewrite ref_online, <- (after_owner auth h m c H). unfold session_owner.
  assert (CF : forall l, count_occ bytes_eq_dec (filter (fun c => negb (hm_mem c (sessions m))) l) c
    = if hm_mem c (sessions m) then O else count_occ bytes_eq_dec l c).
  { induction l as [|x l IH]; cbn [filter count_occ]; [now destruct (hm_mem c (sessions m))|].
    destruct (hm_mem x (sessions m)) eqn:Ex; cbn [negb count_occ].
    - rewrite IH. destruct (bytes_eq_dec x c) as [->|]; [now rewrite Ex|reflexivity].
    - destruct (bytes_eq_dec x c) as [->|]; rewrite IH; [now rewrite Ex|reflexivity]. }
  rewrite CF. unfold hm_mem. destruct (hm_get c (sessions m)); [reflexivity|]. cbn [option_map].
  set (S := subs (ref_after auth (map snd h))). set (F := nodup bytes_eq_dec (filters (requests h))).
  assert (HF : forall f, In f F <-> In f (filters (requests h))) by (intros f; apply nodup_In).
  assert (HS : forall c f, held S c f = live (requests h) c f) by (intros; apply ref_subs).
  assert (HO : occurs c (selected (requests h) name) = sum (fun f => held S c f * ways (levels name) (levels f))%nat F).
  { rewrite (C72_copies_for_any_name (requests h) c name (levels name) F levels (levels_ok name) (NoDup_nodup _ _) HF levels_ok).
    apply sum_ext. intros f _. now rewrite HS. }
  transitivity (occurs c (selected (requests h) name)).
  { unfold occurs, selected. rewrite <- (after_subs auth h m H). reflexivity. }
  rewrite HO.
  rewrite (sum_by pair_dec _ (list_prod [c] F) S (NoDup_prod [c] F (NoDup_cons c (@in_nil bytes c) (NoDup_nil _)) (NoDup_nodup _ _))).
  2:{ intros [c' f] Hi Hn. apply in_prod_iff. cbn [fst snd] in Hn. destruct (bytes_eqb c c') eqn:E; [|congruence].
      apply bytes_eqb_eq in E. subst c'. split; [now left|]. apply HF. apply held_in in Hi. rewrite HS in Hi. now apply live_filters in Hi. }
  rewrite sum_prod, sum_cons. cbn [sum map list_sum fold_right]. rewrite Nat.add_0_r. apply sum_ext. intros f _. cbn [fst snd].
  rewrite bytes_eqb_refl. apply Nat.mul_comm.
Qed.

Lemma warned_upto L l m t : (rank Warn <= rank l)%nat -> upto l (warned L m t) = warned L m t.
Proof.
  intros H. unfold warned, upto. induction (filter (fun c => negb _) _) as [|x r IH]; [reflexivity|]. cbn [map filter lvl].
  apply Nat.leb_le in H. rewrite H. now rewrite IH.
Qed.

Lemma told_event auth L h m te : after auth h m ->
  told auth L (ref_after auth (map snd h)) (snd te) (upto Info (handle_entries auth L m te)).
Proof.
  intros H. rewrite handle_entries_eq, upto_app. destruct te as [now e]. cbn [snd].
  destruct e as [c a k|cid p k|cid|cid]; unfold event_entries; cbn [later_entries told].
  - unfold upto, entry_of. cbn [filter lvl rank Nat.leb app]. rewrite app_nil_r.
    destruct (user_name c) as [u|]; [|reflexivity]. destruct (password c) as [p|]; [|reflexivity].
    destruct (auth u p); reflexivity.
  - destruct p as [| |pp| | | | |sid ss| |uid ts| | | |]; try reflexivity.
    + eexists. split; [rewrite (warned_upto L Info) by (cbn; lia); reflexivity|].
      intros c. now apply warned_count.
    + rewrite ref_online, <- (after_owner auth h m cid H). unfold session_owner, session_exists, hm_mem.
      destruct (hm_get cid (sessions m)); reflexivity.
  - reflexivity.
  - reflexivity.
Qed.

Lemma told_history auth L h : forall m l, handle_all auth MessagingService_new h = (m, l, Finished) ->
  told_all auth L (map snd h) (upto Info (all_entries auth L MessagingService_new h)).
Proof.
  induction h as [|te h IH] using rev_ind; intros m l H; [constructor|].
  rewrite handle_all_snoc in H. rewrite map_app, all_entries_snoc, upto_app.
  destruct (handle_all auth MessagingService_new h) as [[m1 l1] [|]] eqn:E; [|discriminate].
  apply told_more; [exact (IH m1 l1 eq_refl)|]. apply told_event. now exists l1.
Qed.

(** The state is the end of the events taken, all but the last of which were handled to the end. *)
Lemma handled_finished auth dbg n s : reachable auth dbg n s ->
  (exists m l, handle_all auth MessagingService_new (handled s) = (m, l, Finished))
  \/ exists h te m l, handled s = h ++ [te] /\ handle_all auth MessagingService_new h = (m, l, Finished).
Proof.
  intros HR. pose proof (hist_invariant auth dbg n s HR) as H. unfold hist_inv in H. destruct (hdl s).
  - left. eauto.
  - right. destruct H as (h & te & m0 & l0 & m & done & r & o & (K1 & K2 & _) & _). eauto 6.
  - right. destruct H as (h & te & m0 & l0 & m & done & r & o & (K1 & K2 & _)). eauto 6.
  - left. eauto.
Qed.

(** C113: the handler and the service. The last event may still be in progress. *)
Theorem C113_handler auth dbg n L ls s : steps auth dbg (sys_init n) ls = Some s ->
  exists rs rest, told_all auth L (map snd (handled s)) rs
    /\ rs = upto Info (run_entries by_handler auth L dbg (sys_init n) ls) ++ rest
    /\ (hdl s = HIdle \/ hdl s = HStopped -> rest = []).
Proof.
  intros H. destruct (handler_log auth dbg n L ls s H) as (rest & K & KI).
  exists (upto Info (all_entries auth L MessagingService_new (handled s))), (upto Info rest).
  split; [|split; [now rewrite K, upto_app|intros HI; now rewrite (KI HI)]].
  destruct (handled_finished auth dbg n s) as [(m & l & E)|(h & te & m & l & E1 & E2)]; [now exists ls|exact (told_history auth L _ m l E)|].
  rewrite E1, map_app, all_entries_snoc, upto_app, E2. apply told_more; [exact (told_history auth L h m l E2)|].
  apply told_event. now exists l.
Qed.

(** The other tasks say one of five things. *)
Definition five (L : library) : list entry :=
  [{| lvl := Warn; said := str "The first received packet is not CONNECT" |};
   {| lvl := Error; said := str "Error while sending client event to be processed: channel closed" |};
   {| lvl := Error; said := str "Error while writing packet: " ++ of_error L |};
   {| lvl := Info; said := str "Stopping RatelMQ..." |};
   {| lvl := Info; said := str "RatelMQ stopped" |}].

(** At debug three more. *)
Definition eight (L : library) : list entry :=
  five L ++ [{| lvl := Debug; said := str "Stopping manager..." |}; {| lvl := Debug; said := str "Stopped Manager" |};
             {| lvl := Debug; said := str "Stopped Messaging Manager" |}].

Ltac one_of := repeat match goal with H : In _ (_ :: _) |- _ => destruct H as [<-|H] | H : In _ [] |- _ => destruct H end;
  try (left; reflexivity); try (right; cbn; auto 12; fail).

Lemma other_entries auth L dbg s l r : by_handler l = false -> In r (step_entries auth L dbg s l) -> lvl r = Trace \/ In r (eight L).
Proof.
  intros HB H. destruct l as [rr w a|k uuid|k|now| | | | |]; try discriminate HB; cbn [step_entries] in H; try (one_of; fail).
  - unfold reader_entries in H. destruct (nth_error (conns s) k) as [c|]; [|one_of].
    destruct (c_reader c) as [rs|e cid rs|cid rs|]; [| | |one_of].
    + destruct (stream_read_packet dbg rs) as [p rs'|e| | | |]; try (one_of; fail).
      destruct H as [<-|H]; [now left|]. destruct p as [cp| | | | | | | | | | | | |]; try (one_of; fail).
      destruct (client_id cp); one_of.
    + destruct (handler_alive (hdl s)); one_of.
    + destruct (stream_read_packet dbg rs) as [p rs'|e| | | |]; one_of.
  - unfold writer_entries in H. destruct (nth_error (conns s) k) as [c|]; [|one_of].
    destruct (c_writer c) as [ws|p ws|ws]; [| |one_of].
    + destruct (c_queue c) as [|[from [p|]] q]; one_of.
    + destruct (write_packet p ws); one_of.
  - destruct (main s); try (one_of; fail). destruct (hdl s); one_of.
Qed.

Lemma run_others auth L dbg ls : forall s r, In r (run_entries (fun l => negb (by_handler l)) auth L dbg s ls) ->
  lvl r = Trace \/ In r (eight L).
Proof.
  induction ls as [|l ls IH]; intros s r H; cbn [run_entries] in H; [destruct H|].
  destruct (step auth dbg s l) as [s'|]; [|destruct H]. apply in_app_or in H. destruct H as [H|H]; [|now apply (IH s')].
  destruct (by_handler l) eqn:EB; cbn [negb] in H; [destruct H|]. eapply other_entries; eauto.
Qed.

(** What a logger set to a level keeps, in order: the records of that level and those more urgent. *)
Definition urgent (l : level) : list level :=
  match l with
  | Error => [Error]
  | Warn => [Error; Warn]
  | Info => [Error; Warn; Info]
  | Debug => [Error; Warn; Info; Debug]
  | Trace => [Error; Warn; Info; Debug; Trace]
  end.

Inductive kept (l : level) : list entry -> list entry -> Prop :=
| kept_nil : kept l [] []
| kept_this r rs ks : In (lvl r) (urgent l) -> kept l rs ks -> kept l (r :: rs) (r :: ks)
| kept_not r rs ks : ~ In (lvl r) (urgent l) -> kept l rs ks -> kept l (r :: rs) ks.

Theorem C113_levels l rs : kept l rs (upto l rs).
Proof.
  induction rs as [|r rs IH]; [constructor|]. unfold upto in *. cbn [filter].
  destruct l, (lvl r) eqn:E; cbn [rank Nat.leb]; constructor; rewrite ?E; cbn [urgent In]; intuition discriminate.
Qed.

Theorem C113_others auth dbg n L ls r : In r (upto Info (run_entries (fun l => negb (by_handler l)) auth L dbg (sys_init n) ls)) ->
  In r (five L).
Proof.
  intros H. apply filter_In in H. destruct H as [H HL]. apply run_others in H. destruct H as [H|H]; [rewrite H in HL; discriminate|].
  unfold eight in H. apply in_app_or in H. destruct H as [H|H]; [exact H|].
  destruct H as [<-|[<-|[<-|[]]]]; discriminate HL.
Qed.

(** A refused login, a message for a client that has gone, and a PINGREQ of nobody. *)
Definition ex_library : library :=
  {| of_address := fun _ => str "127.0.0.1:1"; of_sender := fun _ => str "Sender"; of_string := fun s => s;
     of_refusal := fun _ _ => str "InvalidPassword"; of_error := str "BrokenPipe" |}.

Example C113_case : told_all ex_auth ex_library
    [Connected (ex_login "d" "alice" "wrong") 1 2%nat; Connected (ex_login "e" "alice" "secret") 1 3%nat;
     ClientPacket (str "d") (Subscribe 1 [ex_sub "a/#"]) 2%nat; ClientPacket (str "e") (Publish (ex_publish "a/b")) 3%nat;
     ClientPacket (str "d") PingReq 2%nat]
    [{| lvl := Info; said := str "Client alice authentication error: InvalidPassword" |};
     {| lvl := Warn; said := str "Tried to send message, but session for client ""d"" not found" |};
     {| lvl := Error; said := str "Received PING from not existing session with client id d" |}].
Proof.
  assert (T : forall h, let '(_, _, o) := handle_all ex_auth MessagingService_new h in o = Finished ->
    told_all ex_auth ex_library (map snd h) (upto Info (all_entries ex_auth ex_library MessagingService_new h))).
  { intros h. destruct (handle_all ex_auth MessagingService_new h) as [[m l] o] eqn:E. intros ->. now apply (told_history _ _ h m l). }
  exact (T [(1%Z, Connected (ex_login "d" "alice" "wrong") 1 2%nat); (2%Z, Connected (ex_login "e" "alice" "secret") 1 3%nat);
     (3%Z, ClientPacket (str "d") (Subscribe 1 [ex_sub "a/#"]) 2%nat); (4%Z, ClientPacket (str "e") (Publish (ex_publish "a/b")) 3%nat);
     (5%Z, ClientPacket (str "d") PingReq 2%nat)] eq_refl).
Qed.

(** ** C114: no secrets up to DEBUG *)

(** Packets that differ in nothing public: payloads, flags, packet ids, and anything in a packet that is not supported
    may differ. *)
Definition same_packet (p q : ControlPacket) : Prop :=
  match p, q with
  | Publish a, Publish b => topic (message a) = topic (message b)
  | Subscribe _ a, Subscribe _ b => a = b
  | Unsubscribe _ a, Unsubscribe _ b => a = b
  | _, _ => packet_name p = packet_name q
  end.

(** Logins that are judged the same way; the passwords may differ. *)
Definition same_login (auth : bytes -> bytes -> bool) (L : library) (c d : ConnectPacket) : Prop :=
  user_name c = user_name d /\
  match password c, password d with
  | Some p, Some q => match user_name c with
                      | Some u => auth u p = auth u q /\ (auth u p = false -> of_refusal L u p = of_refusal L u q)
                      | None => True
                      end
  | None, None => True
  | _, _ => user_name c = None
  end.

(** Events that differ in nothing public: wills, keep alive times, addresses and connections may differ too. *)
Definition same_event (auth : bytes -> bytes -> bool) (L : library) (e f : ClientEvent) : Prop :=
  match e, f with
  | Connected c _ _, Connected d _ _ => client_id c = client_id d /\ same_login auth L c d
  | ClientPacket c p _, ClientPacket d q _ => c = d /\ same_packet p q
  | Disconnected c, Disconnected d | ConnectionLost c, ConnectionLost d => c = d
  | _, _ => False
  end.

(** The states they lead to. *)
Definition alike (m n : MessagingService) : Prop :=
  subscriptions m = subscriptions n /\ forall c, hm_mem c (sessions m) = hm_mem c (sessions n).

Lemma mem_owner m c : hm_mem c (sessions m) = is_some (session_owner m c).
Proof. unfold hm_mem, session_owner. now destruct (hm_get c (sessions m)). Qed.

Lemma same_entries auth L m n te tf : alike m n -> same_event auth L (snd te) (snd tf) ->
  upto Debug (handle_entries auth L m te) = upto Debug (handle_entries auth L n tf).
Proof.
  intros [HS HM] H. rewrite !handle_entries_eq, !upto_app. destruct te as [t1 e], tf as [t2 f]. cbn [snd] in *.
  destruct e as [c a k|cid p k|cid|cid], f as [d b l|did q l|did|did]; cbn [same_event] in H; try contradiction.
  - destruct H as (HC & HU & HP). cbn [later_entries]. f_equal. unfold event_entries, upto, entry_of. cbn [filter lvl rank Nat.leb].
    rewrite HC, <- HU. destruct (user_name c) as [u|]; [|reflexivity].
    destruct (password c) as [p|], (password d) as [q|]; try discriminate HP; [|reflexivity].
    destruct HP as [HA HR]. rewrite <- HA. destruct (auth u p); [reflexivity|]. now rewrite (HR eq_refl).
  - destruct H as (<- & H). unfold event_entries. cbn [upto filter lvl rank Nat.leb entry_of].
    destruct p, q; cbn [same_packet packet_name] in H; try discriminate H; try reflexivity.
    + cbn [later_entries packet_entries upto filter lvl rank Nat.leb entry_of]. rewrite H. f_equal. unfold warned. rewrite HS.
      f_equal. f_equal. apply filter_ext. intros c. now rewrite HM.
    + subst. reflexivity.
    + subst. reflexivity.
    + cbn [later_entries]. unfold session_exists. now rewrite HM.
  - now subst.
  - now subst.
Qed.

Lemma same_next auth L m n te tf : alike m n -> same_event auth L (snd te) (snd tf) ->
  alike (fst (fst (handle auth m te))) (fst (fst (handle auth n tf))) /\ snd (handle auth m te) = snd (handle auth n tf).
Proof.
  intros [HS HM] H. split.
  - pose proof (handle_subs auth m te) as S1. pose proof (handle_subs auth n tf) as S2.
    assert (O1 := fun c => handle_owner auth m te c). assert (O2 := fun c => handle_owner auth n tf c).
    destruct (handle auth m te) as [[m1 l1] o1], (handle auth n tf) as [[n1 k1] p1]. cbn [fst]. split.
    + rewrite S1, S2, HS. f_equal. unfold requests_of.
      destruct (snd te) as [c a k|cid p k|cid|cid], (snd tf) as [d b l|did q l|did|did]; cbn [same_event] in H; try contradiction; try reflexivity.
      * destruct H as [<- H]. destruct p, q; cbn [same_packet packet_name] in H; try discriminate H; try reflexivity; now subst.
      * now subst.
    + intros c. rewrite !mem_owner, O1, O2. specialize (HM c). rewrite !mem_owner in HM. unfold owner_step.
      destruct (snd te) as [cp a k|cid p k|cid|cid], (snd tf) as [d b l|did q l|did|did]; cbn [same_event] in H; try contradiction; try exact HM.
      * destruct H as (HC & HU & HP). rewrite <- HC, <- HU. destruct (bytes_eqb c (client_id cp)); [|exact HM].
        destruct (user_name cp) as [u|]; [|reflexivity].
        destruct (password cp) as [p|], (password d) as [q|]; try discriminate HP; [|exact HM].
        destruct HP as [HA _]. rewrite <- HA. now destruct (auth u p).
      * destruct H as [<- H]. destruct p, q; cbn [same_packet packet_name] in H; try discriminate H; try exact HM.
        now destruct (bytes_eqb c cid).
      * subst did. now destruct (bytes_eqb c cid).
  - assert (K : user_without_password te <-> user_without_password tf).
    { destruct te as [t1 e], tf as [t2 f]. unfold user_without_password. cbn [snd] in *.
      destruct e as [cp a k|cid p k|cid|cid], f as [d b l|did q l|did|did]; cbn [same_event] in H; try contradiction;
        try (split; intros (c' & a' & k' & u' & E & _); discriminate E).
      destruct H as (_ & HU & HP). split; intros (c' & a' & k' & u' & E & EU & EP); injection E as <- _ _.
      - exists d, b, l, u'. split; [reflexivity|]. split; [congruence|]. rewrite EP in HP. destruct (password d); [|reflexivity]. congruence.
      - exists cp, a, k, u'. split; [reflexivity|]. split; [congruence|]. rewrite EP in HP. destruct (password cp); [|reflexivity]. congruence. }
    rewrite <- (handle_panics auth m te), <- (handle_panics auth n tf) in K.
    destruct (snd (handle auth m te)), (snd (handle auth n tf)); try reflexivity; [now apply K|symmetry; now apply K].
Qed.

Lemma same_log auth L hm hn : Forall2 (same_event auth L) (map snd hm) (map snd hn) -> forall m n, alike m n ->
  upto Debug (all_entries auth L m hm) = upto Debug (all_entries auth L n hn).
Proof.
  revert hn. induction hm as [|te hm IH]; intros [|tf hn] H m n A; cbn [map] in H; inversion H as [|? ? ? ? H1 H2]; subst; [reflexivity|].
  cbn [all_entries]. rewrite !upto_app, (same_entries auth L m n te tf A H1). f_equal.
  pose proof (same_next auth L m n te tf A H1) as (K1 & K2).
  destruct (handle auth m te) as [[m1 l1] o1], (handle auth n tf) as [[n1 k1] p1]. cbn [fst snd] in *. subst p1.
  destruct o1; [|reflexivity]. now apply IH.
Qed.

(** C114: two runs whose events differ in nothing public log the same up to debug (each as far as it has come). *)
Theorem C114_no_secrets auth L dbg1 n1 ls1 s1 dbg2 n2 ls2 s2 :
  steps auth dbg1 (sys_init n1) ls1 = Some s1 -> steps auth dbg2 (sys_init n2) ls2 = Some s2 ->
  Forall2 (same_event auth L) (map snd (handled s1)) (map snd (handled s2)) ->
  exists rs r1 r2,
    rs = upto Debug (run_entries by_handler auth L dbg1 (sys_init n1) ls1) ++ r1
    /\ rs = upto Debug (run_entries by_handler auth L dbg2 (sys_init n2) ls2) ++ r2
    /\ (hdl s1 = HIdle \/ hdl s1 = HStopped -> r1 = []) /\ (hdl s2 = HIdle \/ hdl s2 = HStopped -> r2 = []).
Proof.
  intros H1 H2 HF. destruct (handler_log auth dbg1 n1 L ls1 s1 H1) as (r1 & K1 & I1).
  destruct (handler_log auth dbg2 n2 L ls2 s2 H2) as (r2 & K2 & I2).
  exists (upto Debug (all_entries auth L MessagingService_new (handled s1))), (upto Debug r1), (upto Debug r2).
  split; [now rewrite K1, upto_app|]. split.
  - rewrite (same_log auth L _ _ HF MessagingService_new MessagingService_new); [now rewrite K2, upto_app|]. now split.
  - split; intros HI; [now rewrite (I1 HI)|now rewrite (I2 HI)].
Qed.

(** The other tasks say one of eight things. *)
Theorem C114_others auth dbg n L ls r : In r (upto Debug (run_entries (fun l => negb (by_handler l)) auth L dbg (sys_init n) ls)) ->
  In r (eight L).
Proof.
  intros H. apply filter_In in H. destruct H as [H HL]. apply run_others in H. destruct H as [H|H]; [rewrite H in HL; discriminate|exact H].
Qed.

(** With the password file, the reason of a refusal tells nothing of the password: for one user all refused passwords
    get the same, whatever text [show] makes of it. *)
Theorem C114_refusals {H E} (parse : bytes -> H + E) (verify : bytes -> H -> bool) (m : FileIdentityManager) (show : AuthenticationError E -> bytes) L u p q :
  (forall u p e, authenticate parse verify m u p = Some e -> of_refusal L u p = show e) ->
  file_auth parse verify m u p = false -> file_auth parse verify m u q = false -> of_refusal L u p = of_refusal L u q.
Proof.
  intros HL. unfold file_auth. pose proof (HL u p) as H1. pose proof (HL u q) as H2. unfold authenticate in *.
  destruct (hm_get u m) as [hash|]; [|intros _ _; now rewrite (H1 _ eq_refl), (H2 _ eq_refl)].
  destruct (parse hash) as [h|e]; [|intros _ _; now rewrite (H1 _ eq_refl), (H2 _ eq_refl)].
  destruct (verify p h); [discriminate|]. destruct (verify q h); [discriminate|].
  intros _ _. now rewrite (H1 _ eq_refl), (H2 _ eq_refl).
Qed.

Example C114_case : let p := ex_publish "a/b" in
  Forall2 (same_event ex_auth ex_library)
    [Connected (ex_login "d" "alice" "wrong") 1 2%nat; ClientPacket (str "d") (Publish p) 2%nat]
    [Connected (ex_login "d" "alice" "guess") 1 2%nat;
     ClientPacket (str "d") (Publish {| pub_packet_id := None; dup := true;
       message := {| topic := topic (message p); payload := str "secret"; qos := AtMostOnce; retain := true |} |}) 2%nat].
Proof. repeat constructor. Qed.

(** ** C115: TRACE shows everything *)

(** The handler logs an event when it takes it. *)
Lemma taken_entries auth dbg n L ls : forall s, steps auth dbg (sys_init n) ls = Some s -> forall te, In te (handled s) ->
  incl (event_entries auth L (snd te)) (run_entries by_handler auth L dbg (sys_init n) ls).
Proof.
  induction ls as [|l ls IH] using rev_ind; intros s H te Hte.
  - injection H as <-. destruct Hte.
  - rewrite steps_app in H. destruct (steps auth dbg (sys_init n) ls) as [s1|] eqn:E; [|discriminate].
    cbn [steps] in H. destruct (step auth dbg s1 l) as [s2|] eqn:E2; [|discriminate]. injection H as ->.
    rewrite (run_entries_snoc by_handler auth L dbg ls l _ s1 s E E2).
    assert (K : In te (handled s1) \/ (by_handler l = true /\ step_entries auth L dbg s1 l = event_entries auth L (snd te))).
    { destruct (by_handler l) eqn:EB; [|left; now rewrite <- (proj1 (proj2 (other_step auth dbg s1 l s E2 EB)))].
      destruct l; try discriminate EB. unfold step in E2. destruct (running s1); [|discriminate]. cbn [step_entries].
      unfold step_handler in E2. unfold handler_entries. destruct (hdl s1) as [|tx p| |]; try discriminate.
      - destruct (events s1) as [|e es]; [discriminate|]. injection E2 as <-. cbn in Hte. apply in_app_or in Hte.
        destruct Hte as [Hte|[<-|[]]]; [now left|now right].
      - left. destruct p as [| |R op k|to e k].
        + injection E2 as <-. exact Hte.
        + injection E2 as <-. exact Hte.
        + destruct (serve (svc s1) op) as [m r]. injection E2 as <-. exact Hte.
        + destruct (nth_error (conns s1) to) as [c|]; [|discriminate].
          destruct (c_writer c); [destruct (_ <? _)%nat; [|discriminate]..|]; injection E2 as <-; exact Hte. }
    destruct K as [K|[KB K]].
    + apply incl_appl. now apply (IH s1).
    + rewrite KB, K. apply incl_appr, incl_refl.
Qed.

(** [t] stands somewhere in [s]. *)
Definition within (t s : bytes) : Prop := exists before after, s = before ++ t ++ after.

Lemma within_all t : within t t.
Proof. exists [], []. now rewrite app_nil_r. Qed.

Lemma within_l t a b : within t a -> within t (a ++ b).
Proof. intros (x & y & ->). exists x, (y ++ b). now rewrite <- !app_assoc. Qed.

Lemma within_r t a b : within t b -> within t (a ++ b).
Proof. intros (x & y & ->). exists (a ++ x), y. now rewrite <- !app_assoc. Qed.

Lemma within_commas t f fs : In f fs -> within t f -> within t (commas fs).
Proof.
  intros H HW. induction fs as [|g fs IH]; [destruct H|]. cbn [commas]. destruct fs as [|g' fs].
  - destruct H as [<-|[]]. exact HW.
  - destruct H as [<-|H]; [now apply within_l|]. apply within_r, within_r. now apply IH.
Qed.

Lemma within_struct t name f fs : In f fs -> within t f -> within t (struct name fs).
Proof. intros H HW. unfold struct. apply within_r, within_r, within_l. now apply (within_commas t f). Qed.

Lemma within_tuple t name f fs : In f fs -> within t f -> within t (tuple name fs).
Proof. intros H HW. unfold tuple. apply within_r, within_r, within_l. now apply (within_commas t f). Qed.

(** C115: every password, right or wrong, used or not, is in the log ... *)
Theorem C115_passwords auth dbg n L ls s now c a k p : steps auth dbg (sys_init n) ls = Some s ->
  In (now, Connected c a k) (handled s) -> password c = Some p ->
  exists r, In r (run_entries by_handler auth L dbg (sys_init n) ls) /\ lvl r = Trace
    /\ within (str "password: Some(" ++ show_string L p ++ str ")") (said r).
Proof.
  intros H HE HP. exists (entry_of Trace (str "Got event " ++ show_client_event L (Connected c a k))). split; [|split; [reflexivity|]].
  - apply (taken_entries auth dbg n L ls s H _ HE). now left.
  - cbn [said entry_of show_client_event]. apply within_r. apply (within_tuple _ _ (show_connect L c)); [now left|].
    unfold show_connect. apply (within_struct _ _ (member (str "password") (show_option (show_string L) (password c)))); [cbn; auto 12|].
    rewrite HP. apply within_all.
Qed.

(** ... and so is every payload, with the topic, the quality of service and the retain flag. *)
Definition qos_words (q : QoS) : bytes :=
  match q with AtMostOnce => str ", qos: AtMostOnce" | AtLeastOnce => str ", qos: AtLeastOnce" | ExactlyOnce => str ", qos: ExactlyOnce" end.
Definition retain_words (b : bool) : bytes := match b with true => str ", retain: true" | false => str ", retain: false" end.

Theorem C115_payloads auth dbg n L ls s now cid p k : steps auth dbg (sys_init n) ls = Some s ->
  In (now, ClientPacket cid (Publish p) k) (handled s) ->
  exists r, In r (run_entries by_handler auth L dbg (sys_init n) ls) /\ lvl r = Trace
    /\ within (str "topic: " ++ show_string L (topic (message p)) ++ str ", payload: " ++ show_bytes (payload (message p))
      ++ qos_words (qos (message p)) ++ retain_words (retain (message p))) (said r).
Proof.
  intros H HE. exists (entry_of Trace (str "Got event " ++ show_client_event L (ClientPacket cid (Publish p) k))). split; [|split; [reflexivity|]].
  - apply (taken_entries auth dbg n L ls s H _ HE). now left.
  - cbn [said entry_of show_client_event show_packet]. apply within_r. apply (within_tuple _ _ (tuple (str "Publish") [show_publish L p])); [cbn; auto|].
    apply (within_tuple _ _ (show_publish L p)); [now left|]. unfold show_publish.
    apply (within_struct _ _ (member (str "message") (show_message L (message p)))); [cbn; auto|]. unfold member at 1. apply within_r, within_r.
    unfold show_message, struct. apply within_r, within_r, within_l. cbn [commas]. unfold member at 1 2.
    exists [], []. rewrite app_nil_r. destruct (qos (message p)), (retain (message p)); cbn [app]; rewrite <- !app_assoc; reflexivity.
Qed.

(** Nothing is lost: what is shown can be read back. *)
Definition of_hex (b : byte) : N := if b2n b <? 58 then b2n b - 48 else b2n b - 87.

Definition unescape (s : bytes) : option (byte * bytes) :=
  match s with
  | x5c :: x30 :: r => Some (x00, r)
  | x5c :: x74 :: r => Some (x09, r)
  | x5c :: x6e :: r => Some (x0a, r)
  | x5c :: x72 :: r => Some (x0d, r)
  | x5c :: x22 :: r => Some (x22, r)
  | x5c :: x5c :: r => Some (x5c, r)
  | x5c :: x78 :: a :: b :: r => Some (n2b (16 * of_hex a + of_hex b), r)
  | x5c :: x75 :: x7b :: a :: x7d :: r => Some (n2b (of_hex a), r)
  | x5c :: x75 :: x7b :: a :: b :: x7d :: r => Some (n2b (16 * of_hex a + of_hex b), r)
  | b :: r => Some (b, r)
  | [] => None
  end.

Lemma unescape_byte b r : unescape (escape_byte b ++ r) = Some (b, r).
Proof. destruct b; reflexivity. Qed.

Lemma unescape_char b r : ascii b = true -> unescape (escape_char b ++ r) = Some (b, r).
Proof. destruct b; intros H; try discriminate H; reflexivity. Qed.

Lemma escaped_bytes a b : flat_map escape_byte a = flat_map escape_byte b -> a = b.
Proof.
  revert b. induction a as [|x a IH]; intros [|y b] H; cbn [flat_map] in H; [reflexivity| | |].
  - pose proof (unescape_byte y (flat_map escape_byte b)) as K. rewrite <- H in K. discriminate K.
  - pose proof (unescape_byte x (flat_map escape_byte a)) as K. rewrite H in K. discriminate K.
  - pose proof (unescape_byte x (flat_map escape_byte a)) as K. rewrite H, unescape_byte in K. injection K as <- K. now rewrite (IH b).
Qed.

Lemma escaped_chars a b : forallb ascii a = true -> forallb ascii b = true -> flat_map escape_char a = flat_map escape_char b -> a = b.
Proof.
  revert b. induction a as [|x a IH]; intros [|y b] HA HB H; cbn [flat_map forallb] in *; [reflexivity| | |].
  - apply andb_true_iff in HB. destruct HB as [HY HB]. pose proof (unescape_char y (flat_map escape_char b) HY) as K. rewrite <- H in K. discriminate K.
  - apply andb_true_iff in HA. destruct HA as [HX HA]. pose proof (unescape_char x (flat_map escape_char a) HX) as K. rewrite H in K. discriminate K.
  - apply andb_true_iff in HA. destruct HA as [HX HA]. apply andb_true_iff in HB. destruct HB as [HY HB].
    pose proof (unescape_char x (flat_map escape_char a) HX) as K. rewrite H, (unescape_char y _ HY) in K. injection K as <- K.
    now rewrite (IH b HA HB).
Qed.

Theorem C115_payload_readable a b : show_bytes a = show_bytes b -> a = b.
Proof.
  unfold show_bytes. intros H. apply app_inv_head in H. apply app_inv_head in H. apply app_inv_tail in H. now apply escaped_bytes.
Qed.

Theorem C115_ascii_password_readable L a b : forallb ascii a = true -> forallb ascii b = true -> show_string L a = show_string L b -> a = b.
Proof.
  unfold show_string. intros HA HB. rewrite HA, HB. intros H. apply app_inv_head in H. apply app_inv_tail in H. now apply escaped_chars.
Qed.

(** Most are shown as they are. *)
Definition plain_char (b : byte) : bool := (32 <=? b2n b)%N && (b2n b <? 127)%N && negb (b2n b =? 34)%N && negb (b2n b =? 92)%N.

Theorem C115_verbatim L p : forallb plain_char p = true -> show_string L p = [x22] ++ p ++ [x22].
Proof.
  intros H. unfold show_string.
  assert (HA : forallb ascii p = true).
  { apply forallb_forall. intros b Hb. apply (proj1 (forallb_forall _ _) H) in Hb. destruct b; try discriminate Hb; reflexivity. }
  rewrite HA. f_equal. f_equal. clear HA. induction p as [|b p IH]; [reflexivity|]. cbn [forallb flat_map] in *.
  apply andb_true_iff in H. destruct H as [HB H]. rewrite (IH H). destruct b; try discriminate HB; reflexivity.
Qed.

Definition ex_log_run : list label :=
  [LAccept (ex_peer [ex_client "d" (Some (str "alice")) (Some (str "secret"))] PeerOpen) (ex_socket []) 1;
   LReader 0%nat []; LReader 0%nat []; LHandler 1%Z].

Example C115_case : (exists s, steps ex_auth true (sys_init 1) ex_log_run = Some s)
  /\ map said (run_entries by_handler ex_auth ex_library true (sys_init 1) ex_log_run)
     = [str "Got event Connected(ConnectPacket { version: Mqtt3, client_id: ""d"", keep_alive_seconds: 60, clean_session: true, will_message: None, user_name: Some(""alice""), password: Some(""secret"") }, 127.0.0.1:1, Sender)";
        str "New client ""d"" connected"].
Proof. split; [eexists; vm_compute; reflexivity|vm_compute; reflexivity]. Qed.

(** ** C116: anybody can write into the log *)

Lemma nth_new {A} (l : list A) x : nth_error (l ++ [x]) (length l) = Some x.
Proof. now rewrite nth_error_app2, Nat.sub_diag. Qed.

(** A packet that can be sent has a way to be sent. *)
Lemma can_be_sent c : packet_ok (Connect c) -> will_message c = None -> exists bs, sent_as (Connect c) bs
  /\ lenN bs <= 24 + lenN (client_id c) + match user_name c with Some u => lenN u | None => 0 end
                  + match password c with Some p => lenN p | None => 0 end.
Proof.
  intros HO HW. pose proof HO as HO'. cbn [packet_ok] in HO. destruct HO as (HK & HI & HV & _ & HU & HP).
  set (w := {| wc_name := str "MQTT"; wc_level := x04; wc_clean := clean_session c; wc_keep := keep_alive_seconds c;
               wc_id := client_id c; wc_will := None; wc_user := user_name c; wc_pass := password c |}).
  assert (HE : packet_body (Connect c) = connect_body w) by (cbn [packet_body]; now rewrite HW).
  destruct (C06_length_fits w) as (h & Hv & Hl).
  { split; [split; [now apply utf8_ok_iff|reflexivity]|]. split; [exact HK|]. split; [exact HI|]. split; [exact I|]. now split. }
  exists (x10 :: h ++ connect_body w). split.
  - split; [exact HO'|]. split; [cbn [readable]; now rewrite HW|]. exists h. rewrite HE. auto.
  - unfold connect_body. rewrite lenN_cons, !lenN_app, !lenN_field, !lenN_cons, lenN_nil. cbn [wc_name wc_id wc_will wc_user wc_pass w].
    change (lenN (be16 (wc_keep w))) with 2. change (lenN (str "MQTT")) with 4. cbn [will_fields].
    assert (lenN h <= 3) by (unfold lenN; lia).
    destruct (user_name c) as [u|], (password c) as [p|]; cbn [opt_field]; rewrite ?lenN_field; repeat change (lenN []) with 0; lia.
Qed.

(** The visit: a connection on which a refused login and perhaps a PINGREQ are sent. *)
Definition login (id t pw : bytes) : ConnectPacket := ConnectPacket_new Mqtt3 id 60 true None (Some t) (Some pw).

Definition visitor (bs : bytes) (en : peer_end) (ch gr : list N) (ru : bool) : rsock :=
  {| arriving := bs; ending := en; chunks := ch; grants := gr; reuse := ru |}.

(** The state of a visit: the visitor's connection is the last one. *)
Definition during (s : sys) (c : cstate) (es : list ClientEvent) (h : handler) (hd : history) (lg : list (option conn * conn * ServerEvent)) : sys :=
  {| conns := conns s ++ [c]; events := es; hdl := h; svc := svc s; service_running := service_running s; listeners := listeners s;
     ctrl_c := ctrl_c s; main := main s; handled := hd; log := lg |}.

Lemma update_last {A} (l : list A) x y : update (length l) x (l ++ [y]) = l ++ [x].
Proof. induction l as [|z l IH]; cbn [length app update]; [reflexivity|]. now rewrite IH. Qed.

Lemma visit_accept auth dbg s r w a : running s = true -> listeners s <> O ->
  step auth dbg s (LAccept r w a) = Some (during s (new_conn r w a) (events s) (hdl s) (handled s) (log s)).
Proof. intros HR HL. unfold step. rewrite HR. now destruct (listeners s). Qed.

Lemma visit_first auth dbg s c es h hd lg uuid rs p st : running s = true -> c_reader c = RFirst rs ->
  stream_read_packet dbg rs = ROk (Connect p) st ->
  step auth dbg (during s c es h hd lg) (LReader (length (conns s)) uuid)
  = Some (during s (set_reader (RPush (Connected (with_id p (chosen_id p uuid)) (c_addr c) (length (conns s))) (chosen_id p uuid) st)
                      (set_read (c_read c ++ [Connect p]) c)) es h hd lg).
Proof.
  intros HR HC E. unfold step. change (running (during s c es h hd lg)) with (running s). rewrite HR. unfold step_reader, during at 1. cbn [conns].
  rewrite nth_new, HC, E. unfold set_conn, set_conns, during. cbn [conns events hdl svc service_running listeners ctrl_c main handled log].
  now rewrite update_last.
Qed.

Lemma visit_more auth dbg s c es h hd lg uuid cid rs p st : running s = true -> c_reader c = RLoop cid rs ->
  stream_read_packet dbg rs = ROk p st ->
  step auth dbg (during s c es h hd lg) (LReader (length (conns s)) uuid)
  = Some (during s (set_reader (RPush (ClientPacket cid p (length (conns s))) cid st) (set_read (c_read c ++ [p]) c)) es h hd lg).
Proof.
  intros HR HC E. unfold step. change (running (during s c es h hd lg)) with (running s). rewrite HR. unfold step_reader, during at 1. cbn [conns].
  rewrite nth_new, HC, E. unfold set_conn, set_conns, during. cbn [conns events hdl svc service_running listeners ctrl_c main handled log].
  now rewrite update_last.
Qed.

Lemma visit_push auth dbg s c hd lg uuid e cid rs : running s = true -> c_reader c = RPush e cid rs ->
  step auth dbg (during s c [] HIdle hd lg) (LReader (length (conns s)) uuid)
  = Some (during s (set_reader (RLoop cid rs) c) [e] HIdle hd lg).
Proof.
  intros HR HC. unfold step. change (running (during s c [] HIdle hd lg)) with (running s). rewrite HR. unfold step_reader, during at 1. cbn [conns].
  rewrite nth_new, HC. unfold during. cbn [hdl handler_alive events length channel_size Nat.ltb Nat.leb app].
  unfold set_conn, set_conns, set_events. cbn [conns events hdl svc service_running listeners ctrl_c main handled log].
  now rewrite update_last.
Qed.

Lemma visit_take auth dbg s c e hd lg now : running s = true ->
  step auth dbg (during s c [e] HIdle hd lg) (LHandler now)
  = Some (during s c [] (HBusy (event_tx e) (on_event auth now e)) (hd ++ [(now, e)]) lg).
Proof. intros HR. unfold step. change (running (during s c [e] HIdle hd lg)) with (running s). rewrite HR. reflexivity. Qed.

Lemma visit_send auth dbg s c es tx e p hd lg now ws : running s = true -> c_writer c = WIdle ws -> (length (c_queue c) < channel_size)%nat ->
  step auth dbg (during s c es (HBusy tx (Send (length (conns s)) e p)) hd lg) (LHandler now)
  = Some (during s (set_queue (c_queue c ++ [(tx, e)]) c) es (HBusy tx p) hd (lg ++ [(tx, length (conns s), e)])).
Proof.
  intros HR HW HQ. unfold step. change (running (during s c es _ hd lg)) with (running s). rewrite HR. unfold step_handler.
  cbn [during hdl conns]. rewrite nth_new, HW. apply Nat.ltb_lt in HQ. rewrite HQ. unfold set_conn, set_conns, set_log, set_hdl, during.
  cbn [conns events hdl svc service_running listeners ctrl_c main handled log]. now rewrite update_last.
Qed.

Lemma visit_done auth dbg s c es tx hd lg now : running s = true ->
  step auth dbg (during s c es (HBusy tx Done) hd lg) (LHandler now) = Some (during s c es HIdle hd lg).
Proof. intros HR. unfold step. change (running (during s c es _ hd lg)) with (running s). rewrite HR. reflexivity. Qed.

Lemma visit_ping auth dbg s c es tx t k0 hd lg now : running s = true -> session_exists (svc s) t = false ->
  (exists s', step auth dbg (during s c es (HBusy tx (on_event auth now (ClientPacket t PingReq k0))) hd lg) (LHandler now) = Some s')
  /\ forall L, step_entries auth L dbg (during s c es (HBusy tx (on_event auth now (ClientPacket t PingReq k0))) hd lg) (LHandler now)
              = [{| lvl := Error; said := str "Received PING from not existing session with client id " ++ t |}].
Proof.
  intros HR HX. split.
  - unfold step. change (running (during s c es _ hd lg)) with (running s). rewrite HR. eexists. reflexivity.
  - intros L. cbn [step_entries]. unfold handler_entries, during. cbn [hdl on_event on_packet]. unfold on_ping_req. cbn [svc call_entries].
    now rewrite HX.
Qed.

Theorem C116_user_name auth dbg s t pw L : running s = true -> listeners s <> O -> hdl s = HIdle -> events s = [] ->
  text t -> text pw -> lenN t + lenN pw <= 4000 -> auth t pw = false ->
  exists bs, sent_as (Connect (login [] t pw)) bs /\ forall en ch gr ru w a uuid now,
    let k := length (conns s) in
    let ls := [LAccept (visitor bs en ch gr ru) w a; LReader k uuid; LReader k uuid; LHandler now] in
    steps auth dbg s ls <> None
    /\ In {| lvl := Info; said := str "Client " ++ t ++ str " authentication error: " ++ of_refusal L t pw |}
         (run_entries by_handler auth L dbg s ls).
Proof.
  intros HR HL HH HE HT HP HN HA. destruct (can_be_sent (login [] t pw)) as (bs & HS & HB).
  { split; [reflexivity|]. split; [split; [now apply utf8_ok_iff|reflexivity]|]. split; [reflexivity|]. split; [exact I|]. now split. }
  { reflexivity. }
  exists bs. split; [exact HS|]. intros en ch gr ru w a uuid now k ls.
  destruct (C15_small_packets_finish_partial dbg (Connect (login [] t pw)) bs [] (connection_stream (visitor bs en ch gr ru))) as (st' & E & _).
  { apply wf_new. }
  { exact HS. }
  { unfold pending, connection_stream. cbn. now rewrite app_nil_r. }
  { cbn [client_id user_name password login ConnectPacket_new] in HB. rewrite lenN_nil in HB. cbn. unfold listener_buffer_size. lia. }
  unfold ls, k. cbn [steps run_entries by_handler app]. rewrite (visit_accept auth dbg s _ w a HR HL), HH, HE.
  erewrite visit_first; [|exact HR|reflexivity|exact E]. erewrite visit_push; [|exact HR|reflexivity]. rewrite (visit_take auth dbg s _ _ _ _ now HR).
  split; [discriminate|]. rewrite app_nil_r. cbn [step_entries]. unfold handler_entries, during. cbn [hdl events]. unfold event_entries.
  cbn [user_name password with_id login ConnectPacket_new]. rewrite HA. cbn [In]. auto.
Qed.

(** A client id is written at level error, as it is. *)
Theorem C116_client_id auth dbg s t u pw L : running s = true -> listeners s <> O -> hdl s = HIdle -> events s = [] ->
  t <> [] -> text t -> text u -> text pw -> lenN t + lenN u + lenN pw <= 4000 -> auth u pw = false ->
  session_exists (svc s) t = false ->
  exists bs bs', sent_as (Connect (login t u pw)) bs /\ sent_as PingReq bs' /\ forall en ch gr ru w a uuid now,
    let k := length (conns s) in
    let ls := [LAccept (visitor (bs ++ bs') en ch gr ru) w a; LReader k uuid; LReader k uuid; LHandler now; LHandler now; LHandler now;
               LHandler now; LReader k uuid; LReader k uuid; LHandler now; LHandler now] in
    steps auth dbg s ls <> None
    /\ In {| lvl := Error; said := str "Received PING from not existing session with client id " ++ t |}
         (run_entries by_handler auth L dbg s ls).
Proof.
  intros HR HL HH HE HT0 HT HU HP HN HA HX. destruct (can_be_sent (login t u pw)) as (bs & HS & HB).
  { split; [reflexivity|]. split; [exact HT|]. split; [reflexivity|]. split; [exact I|]. now split. }
  { reflexivity. }
  assert (HS' : sent_as PingReq [xc0; x00]).
  { split; [exact I|]. split; [reflexivity|]. exists [x00]. split; [now constructor|]. split; [cbn; lia|reflexivity]. }
  exists bs, [xc0; x00]. split; [exact HS|]. split; [exact HS'|]. intros en ch gr ru w a uuid now k ls.
  set (sock := visitor (bs ++ [xc0; x00]) en ch gr ru).
  cbn [client_id user_name password login ConnectPacket_new] in HB.
  destruct (read_all_sent dbg [Connect (login t u pw); PingReq] [bs; [xc0; x00]] (connection_stream sock) []) as (st2 & W2 & _ & _ & _ & _ & _ & _ & RA).
  { apply wf_new. }
  { constructor; [exact HS|]. constructor; [exact HS'|constructor]. }
  { unfold pending, connection_stream. cbn. now rewrite app_nil_r. }
  { cbn [concat]. rewrite !lenN_app. change (lenN [xc0; x00]) with 2. change (lenN []) with 0. cbn. unfold listener_buffer_size. lia. }
  assert (exists st0 st1, stream_read_packet dbg (connection_stream sock) = ROk (Connect (login t u pw)) st0
    /\ stream_read_packet dbg st0 = ROk PingReq st1) as (st0 & st1 & E0 & E1).
  { rewrite (read_all_step dbg (connection_stream sock) (wf_new _ _)) in RA. destruct (read_all dbg st2) as [qs e].
    destruct (stream_read_packet dbg (connection_stream sock)) as [p st0|er| | | |] eqn:E0; try discriminate RA.
    assert (W0 : wf st0) by (destruct (read_packet_consumes dbg _ p st0 (wf_new _ _) E0) as (X & _); exact X).
    rewrite (read_all_step dbg st0 W0) in RA.
    destruct (stream_read_packet dbg st0) as [q st1|er| | | |] eqn:E1; try discriminate RA.
    destruct (read_all dbg st1) as [qs' e']. injection RA as -> -> _ _. exists st0, st1. now split. }
  unfold ls, k. cbn [steps run_entries by_handler app]. rewrite (visit_accept auth dbg s _ w a HR HL), HH, HE.
  erewrite visit_first; [|exact HR|reflexivity|exact E0]. erewrite visit_push; [|exact HR|reflexivity].
  assert (EC : chosen_id (login t u pw) uuid = t) by (destruct t; [contradiction|reflexivity]). rewrite EC.
  rewrite (visit_take auth dbg s _ _ _ _ now HR). cbn [on_event]. unfold on_connect.
  cbn [user_name password with_id login ConnectPacket_new]. rewrite HA.
  erewrite visit_send; [|exact HR|reflexivity|apply Nat.ltb_lt; reflexivity].
  erewrite visit_send; [|exact HR|reflexivity|apply Nat.ltb_lt; reflexivity].
  rewrite (visit_done auth dbg s _ _ _ _ _ now HR).
  erewrite visit_more; [|exact HR|reflexivity|exact E1]. erewrite visit_push; [|exact HR|reflexivity]. rewrite (visit_take auth dbg s _ _ _ _ now HR).
  match goal with |- context [during s ?c [] (HBusy ?tx (on_event auth now (ClientPacket t PingReq ?k0))) ?hd ?lg] =>
    destruct (visit_ping auth dbg s c [] tx t k0 hd lg now HR HX) as [(s' & ES) EL]; rewrite ES, EL end.
  split; [discriminate|]. rewrite app_nil_r. repeat (apply in_or_app; right). now left.
Qed.

(** A user name of two lines makes two lines. *)
Definition ex_forged : bytes := str "eve" ++ [x0a] ++ str "[2026-11-17T08:00:00Z INFO  ratelmq] Client admin connected" ++ [x0a].

Definition ex_visit : list label :=
  [LAccept (ex_peer [Connect (login (str "x") ex_forged (str "p")); PingReq] PeerOpen) (ex_socket []) 1;
   LReader 0%nat []; LReader 0%nat []; LHandler 1%Z; LHandler 1%Z; LHandler 1%Z; LHandler 1%Z; LReader 0%nat []; LReader 0%nat []; LHandler 2%Z; LHandler 2%Z].

Example C116_case : text ex_forged /\ ex_auth ex_forged (str "p") = false
  /\ map said (upto Info (run_entries by_handler ex_auth ex_library true (sys_init 1) ex_visit))
     = [str "Client eve" ++ [x0a] ++ str "[2026-11-17T08:00:00Z INFO  ratelmq] Client admin connected" ++ [x0a]
        ++ str " authentication error: InvalidPassword";
        str "Received PING from not existing session with client id x"].
Proof. split; [split; [now apply utf8_ok_iff|reflexivity]|]. split; vm_compute; reflexivity. Qed.
