(** Property C105: one message that the broker has to send 2^k times, while everybody waits. *)
From Verif Require Import Base Base_facts Packets HashMap Subscriptions Messaging Handler Decoder ReadStream ReadStream_facts
  Plain_facts Conn Conn_facts Encoder Encoder_facts WriteStream WriteStream_facts Spec_wire Spec_subs Spec_broker Spec_ref
  Subscriptions_facts Handler_facts System System_facts
  System_hist System_conn System_queue System_first System_progress System_exit System_rest
  Prop_subs Prop_stream Prop_broker Prop_system Prop_rest Prop_mqtt Prop_ref Prop_stop Prop_any Prop_who Prop_stack Sockets Prop_sockets Prop_good
  Prop_stranger.
Open Scope nat_scope.

(** The name "+/+/.../+" with [1 + d] levels is [1 + 2 * d] bytes long. *)
Lemma pluses_length d : length (pluses d) = 1 + 2 * d.
Proof.
  unfold pluses. induction d as [|d IH]; [reflexivity|]. cbn [Nat.add times] in *.
  rewrite join_cons by discriminate. rewrite app_length. cbn [length]. rewrite IH. cbn. lia.
Qed.

Lemma pluses_levels d : levels (pluses d) = times (1 + d) plus.
Proof. rewrite <- split_pluses. apply levels_split. apply levels_ok. Qed.

Lemma pluses_ways m : ways (times m plus) (times m plus) = 2 ^ m.
Proof.
  induction m as [|m IH]; [reflexivity|]. cbn [times ways]. rewrite bytes_eqb_refl, IH. replace (bytes_eqb plus hash) with false by reflexivity.
  cbn [Nat.pow]. lia.
Qed.

Definition many (i : N) (m d : nat) (x : QoS) : ControlPacket := Subscribe i (repeat {| sub_topic := pluses d; sub_qos := x |} m).

Lemma sum_app_n {A} (g : A -> nat) l1 l2 : sum g (l1 ++ l2) = sum g l1 + sum g l2.
Proof. unfold sum. rewrite map_app. apply list_sum_app. Qed.

Lemma copies_many rr cid k m d x : place rr cid = Some k ->
  sum (fun y => match place rr (fst y) with Some j => if Nat.eqb k j then ways (levels (pluses d)) (levels (snd y)) else 0 | None => 0 end)
      (map (fun y => (cid, sub_topic y)) (repeat {| sub_topic := pluses d; sub_qos := x |} m)) = m * 2 ^ (1 + d).
Proof.
  intros EP. rewrite pluses_levels. induction m as [|m IH]; [reflexivity|]. cbn [repeat map]. rewrite sum_cons, IH. cbn [fst snd sub_topic].
  rewrite EP, Nat.eqb_refl, pluses_levels, pluses_ways. reflexivity.
Qed.

(** All is done. Somebody comes with no user name, subscribes [m] times to "+/+/.../+" and publishes one message to that name. On every
    schedule the broker has then queued at least [m * 2 ^ (1 + d)] copies of the message for them: exactly that many, if their client id
    had no subscriptions before. *)
Theorem C105_one_message_many_copies auth dbg n s r w a s1 p i m d x q :
  quiet auth dbg n s -> step auth dbg s (LAccept r w a) = Some s1 -> ctrl_c s = false ->
  client_sends dbg (new_conn r w a) = [Connect p; many i m d x; Publish q] -> topic (message q) = pluses d ->
  client_id p <> [] -> user_name p = None -> ~ blocks w ->
  inevitably auth dbg (fun s' => quiet auth dbg n s'
    /\ exists c N, nth_error (conns s') (length (conns s)) = Some c
         /\ broker_sent c = ConnAck {| session_present := false; return_code := Accepted |} :: SubAck i (repeat SuccessQoS0 m)
                            :: repeat (Publish q) N
         /\ m * 2 ^ (1 + d) <= N
         /\ ((forall f, live (requests (handled s)) (client_id p) f = 0) -> N = m * 2 ^ (1 + d))
         /\ (eager (c_wsock c) -> finite_peers s' -> client_reads (peer_got c) (broker_sent c) [])) s1.
Proof.
  intros HQ HA HC Hs Hq Hne Hu Hw.
  assert (Hl : Spec_ref.let_in auth p = Some true) by (unfold Spec_ref.let_in; now rewrite Hu).
  pose proof (visit auth dbg n s r w a s1 p [many i m d x; Publish q] HQ HA HC Hs Hne Hl ltac:(cbn; intuition discriminate) Hw) as HV.
  assert (IW : forall P Q : sys -> Prop, (forall x, P x -> Q x) -> forall x, inevitably auth dbg P x -> inevitably auth dbg Q x).
  { intros P Q HPQ y HX. induction HX as [y H1 H2 IH]. constructor; [auto|]. intros l y' Hl' Hx. exact (IH l y' Hl' Hx). }
  revert s1 HA HV. intros s1 HA. apply IW. clear s1 HA IW. intros s' (HQ' & HC' & (ls0 & Hrun) & Em).
  cbn [issued map] in Em. set (k := length (conns s)) in *. split; [exact HQ'|].
  match type of Em with _ = _ ++ [Connected ?c _ _; _; _] => remember c as cp eqn:Ecp end.
  assert (Eid : client_id cp = client_id p) by now subst cp.
  assert (Hlc : Spec_ref.let_in auth cp = Some true) by (subst cp; exact Hl).
  assert (exists c, nth_error (conns s') k = Some c) as (c & Hk).
  { assert (Hin : In (Connected cp a k) (map snd (handled s'))) by (rewrite Em; apply in_or_app; right; now left).
    destruct (handled_who auth dbg n s' _ _ _ (proj1 HQ') Hin) as (c & _ & _ & Hc & _). eauto. }
  assert (HN : ref_sends auth ref_init (map snd (handled s)) k = []).
  { rewrite <- (rest_sends auth dbg n s k HQ). pose proof (queue_invariant auth dbg n s (proj1 HQ) k) as K. unfold queue_ok in K.
    assert (E : nth_error (conns s) k = None) by (apply nth_error_None; reflexivity). rewrite E in K. now rewrite K. }
  assert (HF : existsb (stops auth) (map snd (handled s)) = false).
  { destruct HQ as (HR & HT & HB & HL). destruct (C61_nothing_left_undone auth dbg n s HR HT HB HL) as ((l & E) & _).
    apply (finished_stops auth (handled s) MessagingService_new). now rewrite E. }
  assert (HL : forall f, live (requests (handled s)) (client_id p) f = Prop_ref.held (Spec_ref.subs (ref_after auth (map snd (handled s)))) (client_id p) f)
    by (intros f; symmetry; apply ref_subs).
  assert (HP : forall id, place (ref_after auth (map snd (handled s))) id <> Some k).
  { intros id E. rewrite ref_online in E. apply owner_owns in E. destruct E as (b & t0 & aft & E0 & (c0 & a0 & Et0 & _) & _).
    assert (Hin : In (Connected c0 a0 k) (map snd (handled s))) by (rewrite <- Et0; apply in_map_snd; rewrite E0; apply in_or_app; right; now left).
    destruct (handled_who auth dbg n s _ _ _ (proj1 HQ) Hin) as (c1 & _ & _ & Hc1 & _).
    assert (k < length (conns s)) by (apply nth_error_Some; congruence). unfold k in *. lia. }
  destruct (C86_at_rest auth dbg n s' HQ' k c Hk) as (EB & ER). rewrite <- EB in ER.
  rewrite Em, ref_sends_cut, HN, HF in EB. fold (ref_after auth (map snd (handled s))) in EB.
  set (rf := ref_after auth (map snd (handled s))) in *. clearbody rf.
  unfold many in EB. cbn [app ref_sends ref_out ref_next stops] in EB. rewrite Nat.eqb_refl, Hlc in EB. cbn [app Spec_ref.subs online] in EB.
  rewrite Hq, repeat_length, Eid in EB.
  match type of EB with context [copies ?y k _] => set (rr := y) in EB end.
  exists c, (copies rr k (pluses d)). split; [exact Hk|].
  assert (Ebc : forall N l, before_close (repeat (ServerPacket (Publish q)) N ++ l) = repeat (Publish q) N ++ before_close l).
  { induction N as [|N IH]; intros l; [reflexivity|]. cbn [repeat app before_close]. now rewrite IH. }
  split; [rewrite EB; cbn [before_close]; rewrite Ebc, app_nil_r; reflexivity|].
  assert (EP : place rr (client_id p) = Some k) by (unfold rr, place; cbn [online find fst]; rewrite bytes_eqb_refl; reflexivity).
  assert (EC : copies rr k (pluses d) = m * 2 ^ (1 + d)
     + sum (fun y => match place rr (fst y) with Some j => if Nat.eqb k j then ways (levels (pluses d)) (levels (snd y)) else 0 | None => 0 end) (Spec_ref.subs rf)).
  { unfold copies. change (Spec_ref.subs rr) with (map (fun y => (client_id p, sub_topic y)) (repeat {| sub_topic := pluses d; sub_qos := x |} m) ++ Spec_ref.subs rf).
    rewrite sum_app_n. f_equal. exact (copies_many rr (client_id p) k m d x EP). }
  split; [rewrite EC; lia|]. split; [|intros H1 H2; exact (ER H2 H1)].
  intros H0. rewrite EC, sum_zero; [lia|]. intros y Hy. destruct (place rr (fst y)) as [j|] eqn:E; [|reflexivity].
  destruct (Nat.eqb_spec k j) as [<-|]; [exfalso|reflexivity].
  destruct y as [id f]. cbn [fst] in E. destruct (bytes_eqb_spec id (client_id p)) as [->|Hn].
  - specialize (H0 f). rewrite HL in H0. now apply held_in in Hy.
  - unfold rr in E. rewrite place_cons in E. destruct (bytes_eqb_spec id (client_id p)); [congruence|]. exact (HP id E).
Qed.

(** Before the handler takes up the next event, it has queued all there is to send because of the earlier ones. So nobody else is served
    before the last of those copies is queued. *)
Theorem C105_others_wait auth dbg n s h te te2 rest k : reachable auth dbg n s -> handled s = h ++ te :: te2 :: rest ->
  exists more, map snd (put_to k (log s)) = ref_sends auth ref_init (map snd (h ++ [te])) k ++ more.
Proof.
  intros HR Eh. assert (HC : forall h1 h2 : history, exists more, ref_sends auth ref_init (map snd (h1 ++ h2)) k = ref_sends auth ref_init (map snd h1) k ++ more).
  { intros h1 h2. rewrite map_app, ref_sends_cut. eauto. }
  assert (HM : forall h1 x m0 l0 m done r o, midway auth s h1 x m0 l0 m done r o ->
    exists more, map snd (put_to k (log s)) = ref_sends auth ref_init (map snd (h ++ [te])) k ++ more).
  { intros h1 x m0 l0 m done r o (E1 & E2 & _ & E4). rewrite put_to_sent, E4, sent_to_app.
    pose proof (proj1 (C86_all_events auth h1 k)) as K. rewrite E2 in K. cbn [fst snd] in K. rewrite K.
    assert (exists t, h1 = (h ++ [te]) ++ t) as (t & ->).
    { rewrite Eh in E1. destruct (exists_last (l := te2 :: rest) ltac:(discriminate)) as (t & y & Ey). rewrite Ey in E1.
      exists t. change (te :: t ++ [y]) with ([te] ++ t ++ [y]) in E1. rewrite !app_assoc in E1. apply app_inj_tail in E1. destruct E1 as (<- & _). reflexivity. }
    destruct (HC (h ++ [te]) t) as (more & E). rewrite E, <- app_assoc. eauto. }
  pose proof (hist_invariant auth dbg n s HR) as HH. unfold hist_inv in HH.
  assert (HI : handle_all auth MessagingService_new (handled s) = (svc s, map out (log s), Finished) ->
    exists more, map snd (put_to k (log s)) = ref_sends auth ref_init (map snd (h ++ [te])) k ++ more).
  { intros E. rewrite put_to_sent. pose proof (proj1 (C86_all_events auth (handled s) k)) as K. rewrite E in K. cbn [fst snd] in K. rewrite K, Eh.
    replace (h ++ te :: te2 :: rest) with ((h ++ [te]) ++ te2 :: rest) by (rewrite <- app_assoc; reflexivity). apply HC. }
  destruct (hdl s) as [|tx p| |].
  - exact (HI HH).
  - destruct HH as (h1 & x & m0 & l0 & m & done & r & o & Hm & _). eapply HM, Hm.
  - destruct HH as (h1 & x & m0 & l0 & m & done & r & o & Hm). eapply HM, Hm.
  - exact (HI HH).
Qed.

(** A client that sends 18 bytes of filters and a name of 5 bytes, and is sent 24 copies. *)
Definition ex_flood : rsock :=
  ex_peer [ex_client "x" None None; many 1 3 2 AtMostOnce; Publish (ex_message "+/+/+" "m")] PeerOpen.

Example C105_case :
  let s := drive ex_auth true (sys_init 1) ex_quiet in
  quiet ex_auth true 1 s /\ ctrl_c s = false
  /\ (exists s1, step ex_auth true s (LAccept ex_flood (ex_socket []) 2) = Some s1)
  /\ (exists p, client_sends true (new_conn ex_flood (ex_socket []) 2) = [Connect p; many 1 3 2 AtMostOnce; Publish (ex_message "+/+/+" "m")]
        /\ client_id p = str "x" /\ user_name p = None)
  /\ topic (message (ex_message "+/+/+" "m")) = pluses 2 /\ ~ blocks (ex_socket [])
  /\ (forall f, live (requests (handled s)) (str "x") f = 0)
  /\ (let s' := drive ex_auth true s (LAccept ex_flood (ex_socket []) 2 :: ex_rounds 80 [0; 1]) in
      quiet ex_auth true 1 s' /\ option_map broker_sent (nth_error (conns s') 1)
      = Some (ConnAck {| session_present := false; return_code := Accepted |} :: SubAck 1 [SuccessQoS0; SuccessQoS0; SuccessQoS0]
              :: repeat (Publish (ex_message "+/+/+" "m")) 24)).
Proof.
  cbv zeta. split; [apply quiet_run; vm_compute; reflexivity|]. split; [vm_compute; reflexivity|].
  split; [apply ex_accept; vm_compute; [reflexivity|discriminate]|].
  split; [eexists; split; [vm_compute; reflexivity|split; reflexivity]|]. split; [reflexivity|]. split; [intros []|].
  split.
  - intros f. replace (requests (handled (drive ex_auth true (sys_init 1) ex_quiet))) with [ReqSubscribe (str "s") (str "a")] by (vm_compute; reflexivity).
    reflexivity.
  - split; [|vm_compute; reflexivity].
    assert (E : forall s l1 l2, drive ex_auth true (drive ex_auth true s l1) l2 = drive ex_auth true s (l1 ++ l2)).
    { intros s l1. revert s. induction l1 as [|l l1 IH]; intros s l2; [reflexivity|]. cbn [app drive]. apply IH. }
    rewrite E. apply quiet_run. vm_compute. reflexivity.
Qed.
