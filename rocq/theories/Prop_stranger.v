(** Properties C103 and C104: what anybody can do to others without user name or password. *)
From Verif Require Import Base Base_facts Packets HashMap Subscriptions Messaging Handler Decoder ReadStream ReadStream_facts
  Plain_facts Conn Conn_facts Encoder Encoder_facts WriteStream WriteStream_facts Spec_wire Spec_subs Spec_broker Spec_ref
  Subscriptions_facts Handler_facts System System_facts
  System_hist System_conn System_queue System_first System_progress System_exit System_rest
  Prop_subs Prop_stream Prop_broker Prop_system Prop_rest Prop_mqtt Prop_ref Prop_stop Prop_any Prop_who Prop_stack Sockets Prop_sockets Prop_good.
Open Scope nat_scope.

(** ** Once a connection has lost its session it never gets a message again *)

Definition message_sent (e : ServerEvent) : bool := match e with ServerPacket (Publish _) => true | _ => false end.
Definition is_message (p : ControlPacket) : bool := match p with Publish _ => true | _ => false end.

Lemma ref_sends_cut auth k es1 : forall r es,
  ref_sends auth r (es1 ++ es) k
  = ref_sends auth r es1 k ++ if existsb (stops auth) es1 then [] else ref_sends auth (fold_left (ref_next auth) es1 r) es k.
Proof.
  induction es1 as [|e es1 IH]; intros r es; [reflexivity|]. cbn [app existsb ref_sends fold_left].
  destruct (stops auth e); cbn [orb]; [now rewrite <- app_assoc|]. now rewrite IH, app_assoc.
Qed.

Lemma no_copies r k t : (forall cid, place r cid <> Some k) -> copies r k t = 0.
Proof.
  intros H. unfold copies. apply sum_zero. intros x _. destruct (place r (fst x)) as [j|] eqn:E; [|reflexivity].
  destruct (Nat.eqb_spec k j) as [->|]; [|reflexivity]. destruct (H _ E).
Qed.

Lemma no_messages auth k es : forall r,
  (forall es1 es2, es = es1 ++ es2 -> forall cid, place (fold_left (ref_next auth) es1 r) cid <> Some k) ->
  filter message_sent (ref_sends auth r es k) = [].
Proof.
  induction es as [|e es IH]; intros r H; [reflexivity|]. cbn [ref_sends]. rewrite filter_app.
  assert (E1 : filter message_sent (ref_out auth r e k) = []).
  { destruct e as [c a j|cid p j|cid|cid]; cbn [ref_out]; try reflexivity.
    - destruct (Nat.eqb k j); [|reflexivity]. destruct (Spec_ref.let_in auth c) as [[]|]; reflexivity.
    - destruct p; try reflexivity; try (destruct (Nat.eqb k j); reflexivity).
      + now rewrite (no_copies r k _ (H [] _ eq_refl)).
      + destruct (Nat.eqb k j); [|reflexivity]. destruct (place r cid); reflexivity. }
  rewrite E1. destruct (stops auth e); [reflexivity|]. apply IH. intros es1 es2 -> cid. exact (H (e :: es1) es2 eq_refl cid).
Qed.

(** A connection is in the events with its one CONNECT. *)
Lemma one_connect auth dbg n s k c a c' a' : reachable auth dbg n s ->
  In (Connected c a k) (map snd (handled s)) -> In (Connected c' a' k) (map snd (handled s)) -> client_id c = client_id c'.
Proof.
  intros HR H H'. destruct (handled_who auth dbg n s c a k HR H) as (x & q & qs & Hc & Hs & _).
  destruct (handled_prefix auth dbg n s k x HR Hc) as (cid & more & E). rewrite Hs in E. cbn [issued] in E.
  assert (G : forall c a, In (Connected c a k) (map snd (handled s)) -> client_id c = cid).
  { intros c0 a0 K. assert (K2 : In (Connected c0 a0 k) (events_of k (map snd (handled s)) ++ more)) by (apply in_or_app; left; now apply in_events_of).
    rewrite <- E in K2. destruct K2 as [K2|K2]; [now injection K2 as <- _|]. apply in_map_iff in K2. destruct K2 as (z & Ez & _). discriminate. }
  rewrite (G _ _ H), (G _ _ H'). reflexivity.
Qed.

Lemma in_map_snd {A B} (x : A * B) l : In x l -> In (snd x) (map snd l).
Proof. apply in_map. Qed.

Lemma no_second auth dbg n s h1 h2 cp a c2 a2 k : reachable auth dbg n s -> handled s = h1 ++ h2 ->
  In (Connected cp a k) (map snd h1) -> ~ In (Connected c2 a2 k) (map snd h2).
Proof.
  intros HR Eh Hin Hin2. assert (Hcp : In (Connected cp a k) (map snd (handled s))) by (rewrite Eh, map_app; apply in_or_app; now left).
  destruct (handled_who auth dbg n s cp a k HR Hcp) as (x & q & qs & Hc & Hs & _).
  destruct (handled_prefix auth dbg n s k x HR Hc) as (cid' & more & E). rewrite Hs in E. cbn [issued] in E.
  rewrite Eh, map_app, events_of_app in E. assert (K1 : In (Connected cp a k) (events_of k (map snd h1))) by now apply in_events_of.
  destruct (events_of k (map snd h1)) as [|e0 l0]; [destruct K1|]. cbn [app] in E. injection E as _ E. rewrite <- app_assoc in E.
  assert (K3 : In (Connected c2 a2 k) (l0 ++ events_of k (map snd h2) ++ more)) by (apply in_or_app; right; apply in_or_app; left; now apply in_events_of).
  rewrite <- E in K3. apply in_map_iff in K3. destruct K3 as (z & Ez & _). discriminate.
Qed.

Lemma never_owner auth dbg n s h1 m h2 cp a k : reachable auth dbg n s -> handled s = h1 ++ m ++ h2 ->
  In (Connected cp a k) (map snd h1) -> ~ owns auth h1 k (client_id cp) -> forall cid, ~ owns auth (h1 ++ m) k cid.
Proof.
  intros HR Eh Hin HN cid (b & te & aft & E & (c2 & a2 & Et & Ei & Ha) & H1 & H2).
  assert (Hte : In (Connected c2 a2 k) (map snd (handled s))).
  { rewrite <- Et. apply in_map_snd. rewrite Eh, app_assoc, E. apply in_or_app. left. apply in_or_app. right. now left. }
  assert (Hcp : In (Connected cp a k) (map snd (handled s))) by (rewrite Eh, map_app; apply in_or_app; now left).
  pose proof (one_connect auth dbg n s k cp a c2 a2 HR Hcp Hte) as Ec.
  (* the CONNECT is in [h1] *)
  assert (HL : forall l, m = l ++ te :: aft -> False).
  { intros l El. apply (no_second auth dbg n s h1 (m ++ h2) cp a c2 a2 k HR Eh Hin). rewrite <- Et. apply in_map_snd. rewrite El.
    apply in_or_app. left. apply in_or_app. right. now left. }
  apply app_eq_app in E. destruct E as (l & [(E1 & E2)|(E1 & E2)]); [|exact (HL l E2)].
  destruct l as [|x l]; [exact (HL [] (eq_sym E2))|].
  cbn [app] in E2. injection E2 as <- E2. apply HN. exists b, te, l. split; [exact E1|]. rewrite Ec, Ei.
  split; [exists c2, a2; auto|]. split; [intros y Hy; apply H1|intros y k' Hy; apply H2]; rewrite E2; apply in_or_app; now left.
Qed.

(** [h1] is what was handled up to some time. A connection whose CONNECT is in it, but that has no session then (refused, replaced,
    or somebody sent DISCONNECT under its id), is sent no message because of anything that is handled later. *)
Theorem C103_never_again auth dbg n s h1 h2 cp a k c : reachable auth dbg n s -> handled s = h1 ++ h2 ->
  In (Connected cp a k) (map snd h1) -> ~ owns auth h1 k (client_id cp) -> nth_error (conns s) k = Some c ->
  exists rest, filter message_sent (ref_sends auth ref_init (map snd h1) k) = map ServerPacket (filter is_message (broker_sent c)) ++ rest.
Proof.
  intros HR Eh Hin HN Hk. destruct (C86_every_execution auth dbg n s k HR) as (_ & H). destruct (H c Hk) as (rest & E).
  rewrite Eh, map_app, ref_sends_cut in E. apply (f_equal (filter message_sent)) in E. rewrite !filter_app in E.
  assert (E0 : filter message_sent (map ServerPacket (broker_sent c)) = map ServerPacket (filter is_message (broker_sent c))).
  { clear. induction (broker_sent c) as [|p l IH]; [reflexivity|]. cbn [map filter message_sent is_message]. destruct p; cbn [map]; now rewrite IH. }
  rewrite E0 in E. exists (filter message_sent rest). rewrite <- E. symmetry. rewrite <- app_nil_r. f_equal.
  destruct (existsb (stops auth) (map snd h1)); [reflexivity|]. apply no_messages. intros es1 es2 E2 cid K.
  apply map_eq_app in E2. destruct E2 as (m & m2 & -> & <- & _).
  change (fold_left (ref_next auth) (map snd h1) ref_init) with (ref_after auth (map snd h1)) in K.
  unfold ref_after in K. rewrite <- fold_left_app, <- map_app in K. fold (ref_after auth (map snd (h1 ++ m))) in K. rewrite ref_online in K.
  apply owner_owns in K. exact (never_owner auth dbg n s h1 m m2 cp a k HR Eh Hin HN cid K).
Qed.

Lemma prefix_keeps auth dbg n s h1 te h2 cid q k : reachable auth dbg n s -> handled s = h1 ++ te :: h2 -> snd te = ClientPacket cid q k ->
  exists cp a, In (Connected cp a k) (map snd h1) /\ client_id cp = cid.
Proof.
  intros HR Eh Et. assert (Hin : In (ClientPacket cid q k) (map snd (handled s))).
  { rewrite <- Et. apply in_map_snd. rewrite Eh. apply in_or_app. right. now left. }
  destruct (handled_whose auth dbg n s cid q k HR Hin) as (x & p & qs & Hc & Hs & _).
  destruct (handled_prefix auth dbg n s k x HR Hc) as (cid' & more & E). rewrite Hs in E. cbn [issued] in E.
  rewrite Eh, map_app in E. cbn [map] in E. rewrite events_of_app, Et in E. unfold events_of in E at 2. cbn [filter event_tx opt_is] in E.
  rewrite Nat.eqb_refl in E. destruct (events_of k (map snd h1)) as [|e0 l0] eqn:E0; [discriminate|]. cbn [app] in E. injection E as Ee E.
  rewrite <- app_assoc in E. assert (K : In (ClientPacket cid q k) (map (fun q => ClientPacket cid' q k) qs)) by (rewrite E; apply in_or_app; right; now left).
  apply in_map_iff in K. destruct K as (z & Ez & _). injection Ez as -> _.
  assert (K : In e0 (events_of k (map snd h1))) by (rewrite E0; now left). apply filter_In in K. rewrite <- Ee in K. eexists _, _. split; [apply K|reflexivity].
Qed.

(** A connection that has a session was not told to close before. *)
Lemma owner_open_then auth dbg n s h t k cid : reachable auth dbg n s -> handled s = h ++ t -> owns auth h k cid ->
  ~ In ServerDisconnect (ref_sends auth ref_init (map snd h) k).
Proof.
  intros HR EH HO HIn. destruct (close_when auth k _ _ HIn) as (es1 & e & es2 & E & Ht & HM).
  apply map_eq_app in E. destruct E as (h1 & r & Eh & <- & E). destruct r as [|te h2]; [discriminate|]. injection E as Et _.
  pose proof HO as (b & t0 & aft & E0 & (c0 & a0 & Et0 & Ei0 & Ha0) & _).
  assert (HI : forall x, In x h -> In (snd x) (map snd (handled s))) by (intros x Hx; apply in_map_snd; rewrite EH; apply in_or_app; now left).
  assert (Hc0 : In (Connected c0 a0 k) (map snd (handled s))) by (rewrite <- Et0; apply HI; rewrite E0; apply in_or_app; right; now left).
  destruct e as [cp a j|cd q j|cd|cd]; try (destruct HM; fail); cbn [event_tx] in Ht; injection Ht as ->.
  - assert (Hcp : In (Connected cp a k) (map snd (handled s))) by (rewrite <- Et; apply HI; rewrite Eh; apply in_or_app; right; now left).
    destruct (handled_who auth dbg n s c0 a0 k HR Hc0) as (x & y & z & Hx & Hs & _ & L0).
    destruct (handled_who auth dbg n s cp a k HR Hcp) as (x' & y' & z' & Hx' & Hs' & _ & L1).
    rewrite Hx in Hx'. injection Hx' as <-. rewrite Hs in Hs'. injection Hs' as <- _. apply accepts_let_in in Ha0. congruence.
  - destruct q; try (destruct HM; fail). assert (Eh' : handled s = h1 ++ te :: h2 ++ t) by (rewrite EH, Eh, <- app_assoc; reflexivity).
    destruct (prefix_keeps auth dbg n s h1 te (h2 ++ t) cd PingReq k HR Eh' Et) as (cp & a & Hin & Ei).
    apply (never_owner auth dbg n s h1 (te :: h2) t cp a k HR) with (cid := cid); [exact Eh'|exact Hin| |now rewrite <- Eh].
    intros HX. apply owner_owns in HX. change (place (ref_after auth (map snd h1)) cd = None) in HM. rewrite ref_online in HM. congruence.
Qed.

Lemma owner_open auth dbg n s k cid : reachable auth dbg n s -> owns auth (handled s) k cid ->
  ~ In ServerDisconnect (ref_sends auth ref_init (map snd (handled s)) k).
Proof. intros HR. apply (owner_open_then auth dbg n s (handled s) [] k cid HR). now rewrite app_nil_r. Qed.

(** Sessions in the service are those of the history. *)
Lemma service_owner auth h m : after auth h m -> forall k x, In x (map snd (sessions m)) -> s_sender x = k -> exists cid, owns auth h k cid.
Proof.
  intros HA k x Hx Ek. apply in_map_iff in Hx. destruct Hx as ((cid & y) & E & Hx). cbn [snd] in E. subst y. exists cid.
  apply (C32_session_belongs_to_owner auth h m cid k HA). exists x. split; [|exact Ek].
  apply hm_In_get; [exact (after_ok auth h m HA)|exact Hx].
Qed.

(** ** A visit *)

Lemma inevitably_runs auth dbg n s (P : sys -> Prop) : reachable auth dbg n s ->
  (forall ls s', Forall internal ls -> steps auth dbg s ls = Some s' -> at_rest auth dbg s' -> P s') -> inevitably auth dbg P s.
Proof.
  intros HR. pose proof (dies_out auth dbg n s HR) as HA. revert HR. induction HA as [s _ IH]. intros HR H. constructor.
  - intros HT. exact (H [] s (Forall_nil _) eq_refl HT).
  - intros l s' Hl Hs. apply IH; [|eapply reachable_step; eauto|].
    + exists l. split; [destruct l; try exact I; destruct Hl|exact Hs].
    + intros ls s2 Hls Hst. apply (H (l :: ls) s2); [now constructor|]. cbn [steps]. now rewrite Hs.
Qed.

Lemma internal_run auth dbg ls : forall s s', Forall internal ls -> steps auth dbg s ls = Some s' ->
  peers s' = peers s /\ ctrl_c s' = ctrl_c s.
Proof.
  induction ls as [|l ls IH]; cbn [steps]; intros s s' HF H; [injection H as <-; auto|].
  destruct (step auth dbg s l) as [s1|] eqn:E; [|discriminate]. inversion HF as [|? ? H1 H2]; subst.
  destruct (IH s1 s' H2 H) as (E1 & E2). rewrite E1, E2, (peers_step auth dbg s l s1 H1 E). split; [reflexivity|].
  apply (step_ctrl_c auth dbg s l s1 E). intros ->. exact H1.
Qed.

(** All is done; then one more client comes, is let in and sends anything but PINGREQ. *)
Lemma visit auth dbg n s r w a s1 p qs : quiet auth dbg n s -> step auth dbg s (LAccept r w a) = Some s1 -> ctrl_c s = false ->
  client_sends dbg (new_conn r w a) = Connect p :: qs -> client_id p <> [] -> Spec_ref.let_in auth p = Some true -> ~ In PingReq qs ->
  ~ blocks w ->
  inevitably auth dbg (fun s' => quiet auth dbg n s' /\ ctrl_c s' = false
    /\ (exists ls, steps auth dbg s ls = Some s')
    /\ map snd (handled s') = map snd (handled s) ++ issued (length (conns s)) a (client_id p) (Connect p :: qs)) s1.
Proof.
  intros HQ HA HC Hs Hne Hl Hm Hw. set (j := length (conns s)).
  assert (HR1 : reachable auth dbg n s1) by (eapply reachable_step; [exact (proj1 HQ)|exact HA]).
  assert (E1 : conns s1 = conns s ++ [new_conn r w a] /\ handled s1 = handled s /\ ctrl_c s1 = ctrl_c s).
  { unfold step in HA. destruct (running s); [|discriminate]. destruct (listeners s); [discriminate|]. injection HA as <-. auto. }
  destruct E1 as (Ec1 & Eh1 & Ectl).
  apply (inevitably_runs auth dbg n); [exact HR1|]. intros ls s' Hi Hst HT.
  destruct (internal_run auth dbg ls s1 s' Hi Hst) as (Ep & Ectl'). rewrite Ectl, HC in Ectl'.
  assert (HR : reachable auth dbg n s') by (eapply reachable_steps; eauto).
  assert (Hrun : steps auth dbg s (LAccept r w a :: ls) = Some s') by (cbn [steps]; now rewrite HA).
  assert (EP : peers s' = peers s ++ [(r, w, a)]) by (rewrite Ep; unfold peers; rewrite Ec1, map_app; reflexivity).
  assert (LP : length (peers s) = j) by (unfold peers; now rewrite map_length).
  assert (PN : forall k c, nth_error (conns s') k = Some c -> nth_error (peers s') k = Some (c_rsock c, c_wsock c, c_addr c)).
  { intros k c Hk. unfold peers. now rewrite nth_error_map, Hk. }
  (* old and new connections *)
  assert (Hold : forall k c, nth_error (conns s') k = Some c -> k < j -> exists c0, nth_error (conns s) k = Some c0
    /\ c_rsock c = c_rsock c0 /\ c_wsock c = c_wsock c0 /\ c_addr c = c_addr c0).
  { intros k c Hk Hlt. pose proof (PN k c Hk) as K. rewrite EP, nth_error_app1 in K by (rewrite LP; exact Hlt). unfold peers in K.
    rewrite nth_error_map in K. destruct (nth_error (conns s) k) as [c0|]; [|discriminate]. exists c0. injection K as -> -> ->. auto. }
  assert (Hnew : forall k c, nth_error (conns s') k = Some c -> ~ k < j -> k = j /\ c_rsock c = r /\ c_wsock c = w /\ c_addr c = a).
  { intros k c Hk Hge. pose proof (PN k c Hk) as K. rewrite EP, nth_error_app2 in K by (rewrite LP; lia). rewrite LP in K.
    destruct (k - j) as [|[|i]] eqn:Ed; cbn [nth_error] in K; try discriminate. injection K as <- <- <-. repeat split; auto. lia. }
  assert (HU : unblocked s').
  { intros k c Hk. destruct (le_lt_dec j k) as [H|H].
    - destruct (Hnew k c Hk ltac:(lia)) as (_ & _ & E & _). now rewrite E.
    - destruct (Hold k c Hk H) as (c0 & H0 & _ & E & _). rewrite E. exact (proj1 (proj2 (proj2 HQ)) k c0 H0). }
  destruct (handled_runs auth dbg _ s s' Hrun) as (m & Em).
  destruct (C61_nothing_left_undone auth dbg n s (proj1 HQ) (proj1 (proj2 HQ)) (proj1 (proj2 (proj2 HQ))) (proj2 (proj2 (proj2 HQ)))) as (_ & HD).
  (* events in [m] are of the newcomer *)
  assert (Hmk : forall te, In te m -> event_tx (snd te) = Some j).
  { intros te Hte. destruct (only_client_events auth dbg n s' (snd te) HR) as (k & Hk).
    { apply in_or_app. left. rewrite Em, map_app. apply in_or_app. right. now apply in_map_snd. }
    rewrite Hk. f_equal.
    assert (Hin : In (snd te) (events_of k (map snd m))) by (apply in_events_of; [now apply in_map_snd|exact Hk]).
    destruct (nth_error (conns s') k) as [c|] eqn:Hc.
    - destruct (le_lt_dec j k) as [H|H]; [exact (proj1 (Hnew k c Hc ltac:(lia)))|exfalso].
      destruct (Hold k c Hc H) as (c0 & H0 & Er & Ew & Ea). destruct (HD k c0 H0) as ((cid & _ & HI) & _).
      destruct (handled_prefix auth dbg n s' k c HR Hc) as (cid' & more & E). rewrite Em, map_app, events_of_app, HI in E.
      unfold client_sends in E. rewrite Er in E. apply (f_equal (@length _)) in E. rewrite !app_length in E.
      assert (EL : length (issued k (c_addr c) cid' (fst (read_all dbg (connection_stream (c_rsock c0)))))
                 = length (issued k (c_addr c0) cid (fst (read_all dbg (connection_stream (c_rsock c0)))))).
      { destruct (fst (read_all dbg (connection_stream (c_rsock c0)))) as [|x l]; [reflexivity|]. destruct x; try reflexivity. cbn [issued length]. now rewrite !map_length. }
      rewrite EL in E. destruct (events_of k (map snd m)); [destruct Hin|cbn [length] in E; lia].
    - exfalso. assert (Hh : In (snd te) (map snd (handled s'))) by (rewrite Em, map_app; apply in_or_app; right; now apply in_map_snd).
      destruct (snd te) as [cp ad k0|cid q k0|cid|cid]; cbn [event_tx] in Hk; try discriminate; injection Hk as ->.
      + destruct (handled_who auth dbg n s' cp ad k HR Hh) as (c & _ & _ & Hc' & _). congruence.
      + destruct (handled_whose auth dbg n s' cid q k HR Hh) as (c & _ & _ & Hc' & _). congruence. }
  assert (Hmm : events_of j (map snd m) = map snd m).
  { unfold events_of. apply filter_all. intros e He. apply in_map_iff in He. destruct He as (te & <- & Hte). rewrite (Hmk te Hte).
    cbn [opt_is]. apply Nat.eqb_refl. }
  assert (Hsj : events_of j (map snd (handled s)) = []).
  { destruct (events_of j (map snd (handled s))) as [|e l] eqn:E; [reflexivity|exfalso].
    assert (K : In e (events_of j (map snd (handled s)))) by (rewrite E; now left). apply filter_In in K. destruct K as (K1 & K2).
    destruct (event_tx e) as [k|] eqn:Ek; [|discriminate]. cbn [opt_is] in K2. apply Nat.eqb_eq in K2. subst k.
    assert (HX : exists c, nth_error (conns s) j = Some c).
    { destruct e as [cp ad k0|cid q k0|cid|cid]; cbn [event_tx] in Ek; try discriminate; injection Ek as ->.
      - destruct (handled_who auth dbg n s cp ad j (proj1 HQ) K1) as (c & _ & _ & Hc' & _). eauto.
      - destruct (handled_whose auth dbg n s cid q j (proj1 HQ) K1) as (c & _ & _ & Hc' & _). eauto. }
    destruct HX as (c & Hc). assert (j < length (conns s)) by (apply nth_error_Some; congruence). unfold j in *. lia. }
  assert (exists cj, nth_error (conns s') j = Some cj) as (cj & Hj).
  { destruct (nth_error (conns s') j) as [cj|] eqn:E; [eauto|exfalso]. apply nth_error_None in E.
    assert (L : length (conns s') = length (peers s')) by (unfold peers; now rewrite map_length). rewrite EP, app_length, LP in L. cbn [length] in L. lia. }
  destruct (Hnew j cj Hj (Nat.lt_irrefl j)) as (_ & Er & Ew & Ea).
  assert (Hsj' : client_sends dbg cj = Connect p :: qs) by (unfold client_sends in *; rewrite Er; exact Hs).
  destruct (handled_prefix auth dbg n s' j cj HR Hj) as (cid & more & Epre). rewrite Em, map_app, events_of_app, Hsj, Hmm, Hsj', Ea in Epre. cbn [app] in Epre.
  (* the handler lives on *)
  assert (HAl : handler_alive (hdl s') = true).
  { destruct (handler_alive (hdl s')) eqn:EA; [reflexivity|exfalso].
    destruct (C53_why_the_handler_ends auth dbg n s' HR EA) as [(_ & K)|(EH & h & te & mm & l & Eh & Hall & K)]; [congruence|].
    destruct m as [|te0 m].
    { rewrite app_nil_r in Em. destruct (idle_run auth dbg _ s s' Hrun (quiet_idle _ _ _ _ HQ) Em) as [K2|K2]; congruence. }
    assert (Hte : In te (te0 :: m)).
    { destruct (exists_last (l := te0 :: m) ltac:(discriminate)) as (m' & x & Ex). rewrite Em, Ex, app_assoc in Eh.
      apply app_inj_tail in Eh. destruct Eh as (_ & ->). rewrite Ex. apply in_or_app. right. now left. }
    assert (Hev : In (snd te) (issued j a cid (Connect p :: qs))) by (rewrite Epre; apply in_or_app; left; now apply in_map_snd).
    assert (NC : forall f, ~ In (f, j, ServerDisconnect) (log s')).
    { intros f Hf. apply (put_to_in) in Hf. apply (in_map snd) in Hf. cbn [snd] in Hf.
      destruct (C86_every_execution auth dbg n s' j HR) as ((rest & E) & _).
      assert (K2 : In ServerDisconnect (ref_sends auth ref_init (map snd (handled s')) j)) by (rewrite E; apply in_or_app; now left).
      destruct (close_cause auth j _ _ K2) as (e & He & Ht & HM).
      assert (He2 : In e (issued j a cid (Connect p :: qs))).
      { rewrite Epre. apply in_or_app. left. rewrite <- Hmm. change (events_of j (map snd (te0 :: m))) with ([] ++ events_of j (map snd (te0 :: m))).
        rewrite <- Hsj, <- events_of_app, <- map_app, <- Em. now apply in_events_of. }
      cbn [issued] in He2. destruct He2 as [<-|He2].
      - unfold Spec_ref.let_in in HM, Hl. cbn [user_name password] in HM. rewrite Hl in HM. discriminate.
      - apply in_map_iff in He2. destruct He2 as (q & <- & Hq). destruct q; contradiction. }
    destruct K as [(cp & ad & k & u & E & Hu & Hp)|(k & e & f & Hin & Hlog)].
    - cbn [issued] in Hev. destruct Hev as [Hev|Hev]; [|rewrite E in Hev; apply in_map_iff in Hev; destruct Hev as (? & ? & _); discriminate].
      rewrite E in Hev. injection Hev as <- _ _. cbn [user_name password] in Hu, Hp. unfold Spec_ref.let_in in Hl. now rewrite Hu, Hp in Hl.
    - destruct (handle_receivers auth mm te k e Hin) as [(c' & a' & E)|[(cid' & p' & E)|(cid' & p' & k0 & x & E & _ & Hx & Ek)]].
      + pose proof (Hmk te Hte) as T. rewrite E in T. injection T as ->. exact (NC f Hlog).
      + pose proof (Hmk te Hte) as T. rewrite E in T. injection T as ->. exact (NC f Hlog).
      + (* a message to a connection with a session *)
        destruct (service_owner auth h mm (ex_intro _ l Hall) k x Hx Ek) as (id & Ho).
        apply (owner_open_then auth dbg n s' h [te] k id HR Eh Ho).
        apply put_to_in in Hlog. apply (in_map snd) in Hlog. cbn [snd] in Hlog.
        destruct (C86_every_execution auth dbg n s' k HR) as ((rest & E2) & _).
        assert (K2 : In ServerDisconnect (ref_sends auth ref_init (map snd (handled s')) k)) by (rewrite E2; apply in_or_app; now left).
        rewrite Eh, map_app, ref_sends_cut in K2. apply in_app_or in K2. destruct K2 as [K2|K2]; [exact K2|exfalso].
        destruct (existsb (stops auth) (map snd h)); [destruct K2|]. cbn [map] in K2. rewrite E in K2. cbn [ref_sends ref_out stops] in K2.
        apply in_app_or in K2. destruct K2 as [K2|[]]. apply repeat_spec in K2. discriminate. }
  split; [split; [exact HR|split; [exact HT|split; [exact HU|exact HAl]]]|]. split; [exact Ectl'|]. split; [eauto|].
  rewrite Em, map_app. f_equal. rewrite <- Hmm.
  destruct (C61_nothing_left_undone auth dbg n s' HR HT HU HAl) as (_ & HD'). destruct (HD' j cj Hj) as ((cid' & Hg & HI) & _).
  assert (Ei : cid' = client_id p) by exact (Hg p qs Hsj' Hne). subst cid'. rewrite Em, map_app, events_of_app, Hsj, Hsj', Ea in HI. exact HI.
Qed.

(** ** C103: ending others' sessions *)

Lemma owner_by auth h cid h' : map snd h = map snd h' -> owner auth h cid = owner auth h' cid.
Proof. intros E. rewrite <- !ref_online, E. reflexivity. Qed.

Lemma filter_map_sent l : filter message_sent (map ServerPacket l) = map ServerPacket (filter is_message l).
Proof. induction l as [|p l IH]; [reflexivity|]. cbn [map filter message_sent is_message]. destruct p; cbn [map]; now rewrite IH. Qed.

Lemma map_sent_prefix l1 l2 rest : map ServerPacket l1 = map ServerPacket l2 ++ rest -> exists r, l1 = l2 ++ r.
Proof.
  revert l1. induction l2 as [|x l2 IH]; intros l1 H; [exists l1; reflexivity|]. destruct l1 as [|y l1]; [discriminate H|].
  assert (E : y = x /\ map ServerPacket l1 = map ServerPacket l2 ++ rest) by (cbn [map app] in H; now injection H).
  destruct E as (-> & E). destruct (IH _ E) as (r & ->). exists r. reflexivity.
Qed.

(** All is done. Somebody comes, with no user name and under any client id, and leaves with DISCONNECT. On every schedule this ends the
    session of that id and no other, the broker goes on, and the connection that had the session is never again sent a message, whatever
    anybody does. *)
Theorem C103_anybody_ends_any_session auth dbg n s r w a s1 p :
  quiet auth dbg n s -> step auth dbg s (LAccept r w a) = Some s1 -> ctrl_c s = false ->
  client_sends dbg (new_conn r w a) = [Connect p; Disconnect] -> client_id p <> [] -> user_name p = None -> ~ blocks w ->
  inevitably auth dbg (fun s' => quiet auth dbg n s'
    /\ (forall k, ~ owns auth (handled s') k (client_id p))
    /\ (forall k id, id <> client_id p -> (owns auth (handled s') k id <-> owns auth (handled s) k id))
    /\ (forall k c ls s2 c2, owns auth (handled s) k (client_id p) -> nth_error (conns s) k = Some c ->
          steps auth dbg s' ls = Some s2 -> nth_error (conns s2) k = Some c2 ->
          exists rest, filter is_message (broker_sent c) = filter is_message (broker_sent c2) ++ rest)) s1.
Proof.
  intros HQ HA HC Hs Hne Hu Hw.
  assert (Hl : Spec_ref.let_in auth p = Some true) by (unfold Spec_ref.let_in; now rewrite Hu).
  pose proof (visit auth dbg n s r w a s1 p [Disconnect] HQ HA HC Hs Hne Hl ltac:(cbn; intuition discriminate) Hw) as HV.
  assert (IW : forall P Q : sys -> Prop, (forall x, P x -> Q x) -> forall x, inevitably auth dbg P x -> inevitably auth dbg Q x).
  { intros P Q HPQ x HX. induction HX as [x H1 H2 IH]. constructor; [auto|]. intros l x' Hl' Hx. exact (IH l x' Hl' Hx). }
  revert s1 HA HV. intros s1 HA. apply IW. clear s1 HA IW. intros s' (HQ' & HC' & (ls0 & Hrun) & Em).
  cbn [issued map] in Em. set (j := length (conns s)) in *.
  assert (EO : forall id, owner auth (handled s') id = if bytes_eqb id (client_id p) then None else owner auth (handled s) id).
  { intros id. rewrite <- !ref_online, Em. unfold ref_after. rewrite fold_left_app. cbn [fold_left ref_next].
    assert (HL' : Spec_ref.let_in auth {| version := version p; client_id := client_id p; keep_alive_seconds := keep_alive_seconds p;
      clean_session := clean_session p; will_message := will_message p; user_name := user_name p; password := password p |} = Some true)
      by (unfold Spec_ref.let_in; cbn [user_name]; now rewrite Hu).
    rewrite HL'. cbn [client_id]. unfold gone. cbn [online Spec_ref.subs]. unfold place, leave. cbn [online].
    destruct (fold_left (ref_next auth) (map snd (handled s)) ref_init) as [o sb]. cbn [online Spec_ref.subs filter fst]. rewrite bytes_eqb_refl. cbn [negb].
    destruct (bytes_eqb_spec id (client_id p)) as [->|Hn].
    - induction o as [|x o IH]; [reflexivity|]. cbn [filter]. destruct (bytes_eqb (client_id p) (fst x)) eqn:E; cbn [negb filter]; [exact IH|].
      rewrite E. cbn [negb find]. rewrite E. exact IH.
    - induction o as [|x o IH]; [reflexivity|]. cbn [filter find]. destruct (bytes_eqb (client_id p) (fst x)) eqn:E; cbn [negb filter].
      + destruct (bytes_eqb_spec id (fst x)) as [E2|]; [|exact IH]. apply bytes_eqb_eq in E. congruence.
      + rewrite E. cbn [negb find]. destruct (bytes_eqb id (fst x)); [reflexivity|exact IH]. }
  split; [exact HQ'|]. split; [|split].
  - intros k K. apply owner_owns in K. rewrite EO, bytes_eqb_refl in K. discriminate.
  - intros k id Hid. rewrite <- !owner_owns, EO. destruct (bytes_eqb_spec id (client_id p)); [congruence|tauto].
  - intros k c ls s2 c2 HO Hk H2 Hk2.
    pose proof (reachable_steps auth dbg n s' ls s2 (proj1 HQ') H2) as HR2.
    destruct (handled_runs auth dbg ls s' s2 H2) as (m & Eh).
    pose proof HO as (b & t0 & aft & E0 & (c0 & a0 & Et0 & Ei0 & Ha0) & _).
    assert (Hin : In (Connected c0 a0 k) (map snd (handled s))) by (rewrite <- Et0; apply in_map_snd; rewrite E0; apply in_or_app; right; now left).
    destruct (C103_never_again auth dbg n s2 (handled s') m c0 a0 k c2 HR2 Eh) as (rest & E); [rewrite Em; apply in_or_app; now left| |exact Hk2|].
    { rewrite Ei0. intros K. apply owner_owns in K. rewrite EO, bytes_eqb_refl in K. discriminate. }
    assert (Hkj : k <> j).
    { assert (k < length (conns s)) by (apply nth_error_Some; congruence). unfold j. lia. }
    rewrite Em, ref_sends_cut, filter_app in E.
    assert (EZ : forall (b : bool) l1 l2, filter message_sent (if b then l1 else l2) = if b then filter message_sent l1 else filter message_sent l2) by (intros []; reflexivity).
    rewrite EZ in E. cbn [ref_sends ref_out filter] in E. apply Nat.eqb_neq in Hkj. rewrite Hkj in E. cbn [app] in E.
    assert (E1 : filter message_sent (ref_sends auth ref_init (map snd (handled s)) k) = map ServerPacket (filter is_message (broker_sent c2)) ++ rest).
    { revert E. repeat match goal with |- context [if ?b then _ else _] => destruct b end; cbn [filter]; rewrite app_nil_r; auto. }
    destruct (C86_at_rest auth dbg n s HQ k c Hk) as (EC & _).
    pose proof (before_close_all _ (owner_open auth dbg n s k _ (proj1 HQ) HO)) as EB. rewrite <- EC in EB. rewrite <- EB, filter_map_sent in E1.
    exact (map_sent_prefix _ _ _ E1).
Qed.

(** ** C104: reading everything *)

Definition to_all (i : N) (q : QoS) : ControlPacket := Subscribe i [{| sub_topic := hash; sub_qos := q |}].

Lemma hash_matches t : matches hash t.
Proof.
  pose proof (levels_ok t) as Ht. exists [hash], (levels t). generalize dependent (levels t). intros tl Ht. split; [split; [discriminate|split; [|reflexivity]]|].
  - intros l [<-|[]]. cbn. intuition discriminate.
  - split; [exact Ht|]. destruct Ht as (Hn & _). destruct tl as [|l tl]; [congruence|]. apply LmHash.
Qed.

(** All is done. Somebody comes with no user name and subscribes to "#". On every schedule the broker then owes them, until somebody
    else uses their client id, every message of every client that comes later. *)
Theorem C104_anybody_reads_everything auth dbg n s r w a s1 p i x :
  quiet auth dbg n s -> step auth dbg s (LAccept r w a) = Some s1 -> ctrl_c s = false ->
  client_sends dbg (new_conn r w a) = [Connect p; to_all i x] -> client_id p <> [] -> user_name p = None -> ~ blocks w ->
  inevitably auth dbg (fun s' => quiet auth dbg n s'
    /\ forall ls s2 m, steps auth dbg s' ls = Some s2 -> at_rest auth dbg s2 -> unblocked s2 -> handler_alive (hdl s2) = true ->
         handled s2 = handled s' ++ m -> (forall te, In te m -> event_id (snd te) <> client_id p) ->
         exists c, nth_error (conns s2) (length (conns s)) = Some c
           /\ forall j cj pj qj q, length (conns s') <= j -> nth_error (conns s2) j = Some cj -> client_sends dbg cj = Connect pj :: qj ->
                In (Publish q) qj -> wildcard_free (topic (message q)) ->
                In (Publish q) (broker_sent c)
                /\ (eager (c_wsock c) -> finite_peers s2 -> exists ps, client_reads (peer_got c) ps [] /\ In (Publish q) ps)) s1.
Proof.
  intros HQ HA HC Hs Hne Hu Hw.
  assert (Hl : Spec_ref.let_in auth p = Some true) by (unfold Spec_ref.let_in; now rewrite Hu).
  pose proof (visit auth dbg n s r w a s1 p [to_all i x] HQ HA HC Hs Hne Hl ltac:(cbn; intuition discriminate) Hw) as HV.
  assert (IW : forall P Q : sys -> Prop, (forall x, P x -> Q x) -> forall x, inevitably auth dbg P x -> inevitably auth dbg Q x).
  { intros P Q HPQ y HX. induction HX as [y H1 H2 IH]. constructor; [auto|]. intros l y' Hl' Hx. exact (IH l y' Hl' Hx). }
  revert s1 HA HV. intros s1 HA. apply IW. clear s1 HA IW. intros s' (HQ' & HC' & (ls0 & Hrun) & Em).
  cbn [issued map] in Em. set (k := length (conns s)) in *. split; [exact HQ'|]. intros ls s2 m H2 HT HB HL Eh Hid.
  pose proof (reachable_steps auth dbg n s' ls s2 (proj1 HQ') H2) as HR2.
  (* the CONNECT and the SUBSCRIBE *)
  apply map_eq_app in Em. destruct Em as (h0 & r0 & E0 & _ & Er0). destruct r0 as [|t1 [|t2 [|? ?]]]; try discriminate. injection Er0 as T1 T2.
  assert (Hh2 : handled s2 = h0 ++ t1 :: t2 :: m) by (rewrite Eh, E0, <- app_assoc; reflexivity).
  assert (HO : forall m1 m2, m = m1 ++ m2 -> owns auth (h0 ++ t1 :: t2 :: m1) k (client_id p)).
  { intros m1 m2 ->. exists h0, t1, (t2 :: m1). split; [reflexivity|]. split; [eexists _, _; split; [exact T1|]; cbn [client_id]; split; [reflexivity|]|].
    - apply accepts_let_in. unfold Spec_ref.let_in. cbn [user_name]. now rewrite Hu.
    - split.
      + intros y [<-|Hy] [(k' & Ey)|Ey]; try (rewrite T2 in Ey; discriminate);
          apply (Hid y); (try (apply in_or_app; now left)); rewrite Ey; reflexivity.
      + intros y k' [<-|Hy] (cp & ad & Ey & Ei & _); [rewrite T2 in Ey; discriminate|]. apply (Hid y); [apply in_or_app; now left|].
        rewrite Ey. exact Ei. }
  assert (HOe : owns auth (handled s2) k (client_id p)) by (rewrite Hh2; apply (HO m []); now rewrite app_nil_r).
  assert (exists c, nth_error (conns s2) k = Some c) as (c & Hk).
  { assert (Hin : In (snd t1) (map snd (handled s2))) by (apply in_map_snd; rewrite Hh2; apply in_or_app; right; now left).
    rewrite T1 in Hin. destruct (handled_who auth dbg n s2 _ _ _ HR2 Hin) as (c & _ & _ & Hc & _). eauto. }
  exists c. split; [exact Hk|]. intros j cj pj qj q Hj Hcj Hsj Hq Hwf.
  destruct (C63_message_arrives auth dbg n s2 j cj pj qj q HR2 HT HB HL Hcj Hsj Hq Hwf) as (h1 & t & cid & h2 & Eh2 & HF).
  apply (HF k c Hk).
  - assert (HP : exists m1 m2, h1 = h0 ++ t1 :: t2 :: m1 /\ m = m1 ++ m2).
    { assert (E3 : handled s' ++ m = h1 ++ (t, ClientPacket cid (Publish q) j) :: h2) by congruence.
      apply app_eq_app in E3. destruct E3 as (l & [(E1 & E2)|(E1 & E2)]).
      - destruct l as [|te l].
        + cbn [app] in E2. rewrite app_nil_r in E1. exists [], m. rewrite <- E1, E0. split; reflexivity.
        + exfalso. cbn [app] in E2. injection E2 as <- E2.
          assert (Hin : In (ClientPacket cid (Publish q) j) (map snd (handled s'))) by (rewrite E1, map_app; apply in_or_app; right; now left).
          destruct (handled_whose auth dbg n s' cid (Publish q) j (proj1 HQ') Hin) as (c' & ? & ? & Hc' & _).
          assert (j < length (conns s')) by (apply nth_error_Some; congruence). lia.
      - exists l. eexists. split; [rewrite E1, E0, <- app_assoc; reflexivity|exact E2]. }
    destruct HP as (m1 & m2 & -> & Em). exists (client_id p), hash. split; [exact (HO m1 m2 Em)|]. split; [|apply hash_matches].
    unfold requests. rewrite flat_map_app. cbn [flat_map]. rewrite live_app.
    assert (R1 : requests_of t1 = []) by (unfold requests_of; now rewrite T1).
    assert (R2 : requests_of t2 = [ReqSubscribe (client_id p) hash]) by (unfold requests_of; rewrite T2; reflexivity).
    rewrite R1, R2. cbn [app fold_left live_step]. rewrite !bytes_eqb_refl. cbn [andb].
    generalize (live (flat_map requests_of h0) (client_id p) hash) as z. intros z.
    assert (G : forall l z, (forall te, In te l -> event_id (snd te) <> client_id p) ->
      fold_left (live_step (client_id p) hash) (flat_map requests_of l) z = z).
    { clear. induction l as [|te l IH]; intros z H; [reflexivity|]. cbn [flat_map]. rewrite fold_left_app, IH by (intros y Hy; apply H; now right).
      assert (K : forall rq, In rq (requests_of te) -> requester rq <> client_id p).
      { intros rq Hr. rewrite (requests_names te rq Hr). apply H. now left. }
      revert z. induction (requests_of te) as [|rq l2 IH2]; intros z; [reflexivity|]. cbn [fold_left].
      rewrite (live_step_other _ _ _ _ (K rq (or_introl eq_refl))). apply IH2. intros y Hy. apply K. now right. }
    rewrite G; [discriminate|]. intros te Hte. apply Hid. rewrite Em. apply in_or_app. now left.
  - intros f Hf. apply put_to_in in Hf. apply (in_map snd) in Hf. cbn [snd] in Hf.
    destruct (C86_every_execution auth dbg n s2 k HR2) as ((rest & E) & _).
    apply (owner_open auth dbg n s2 k (client_id p) HR2 HOe). rewrite E. apply in_or_app. now left.
Qed.

(** Client "s" subscribes to "a" and "p" publishes to it. If somebody else came as "s" and left in between, "s" gets nothing. *)
Definition ex_quiet : list label :=
  LAccept (ex_peer [ex_client "s" None None; Subscribe 1 [{| sub_topic := str "a"; sub_qos := AtMostOnce |}]] PeerOpen) (ex_socket []) 1
  :: ex_rounds 20 [0].

Definition ex_ends : rsock := ex_peer [ex_client "s" None None; Disconnect] PeerOpen.
Definition ex_listens : rsock := ex_peer [ex_client "x" None None; to_all 1 AtMostOnce] PeerOpen.
Definition ex_harmless : rsock := ex_peer [ex_client "y" None None; Disconnect] PeerOpen.

Definition ex_secret : rsock :=
  ex_peer [ex_client "p" (Some (str "alice")) (Some (str "secret")); Publish (ex_message "a" "x"); Publish (ex_message "$b/c" "y")] PeerOpen.

(** Messages that connection [k] was sent. *)
Definition ex_got (r : rsock) (k : nat) : option (list ControlPacket) :=
  let s := drive ex_auth true (sys_init 1) (ex_quiet ++ LAccept r (ex_socket []) 2 :: ex_rounds 20 [0; 1]
                                            ++ LAccept ex_secret (ex_socket []) 3 :: ex_rounds 20 [0; 1; 2]) in
  option_map (fun c => filter is_message (broker_sent c)) (nth_error (conns s) k).

Lemma ex_accept auth dbg s r w a : running s = true -> listeners s <> 0 -> exists s1, step auth dbg s (LAccept r w a) = Some s1.
Proof. intros H1 H2. unfold step. rewrite H1. destruct (listeners s); [congruence|]. eauto. Qed.

Example C103_case :
  let s := drive ex_auth true (sys_init 1) ex_quiet in
  quiet ex_auth true 1 s /\ ctrl_c s = false /\ owns ex_auth (handled s) 0 (str "s")
  /\ (exists s1, step ex_auth true s (LAccept ex_ends (ex_socket []) 2) = Some s1)
  /\ (exists p, client_sends true (new_conn ex_ends (ex_socket []) 2) = [Connect p; Disconnect] /\ client_id p = str "s" /\ user_name p = None)
  /\ ~ blocks (ex_socket [])
  /\ ex_got ex_ends 0 = Some [] /\ ex_got ex_harmless 0 = Some [Publish (ex_message "a" "x")].
Proof.
  cbv zeta. split; [apply quiet_run; vm_compute; reflexivity|]. split; [vm_compute; reflexivity|].
  split; [apply owner_owns; vm_compute; reflexivity|].
  split; [apply ex_accept; vm_compute; [reflexivity|discriminate]|].
  split; [eexists; split; [vm_compute; reflexivity|split; reflexivity]|]. split; [intros []|]. split; vm_compute; reflexivity.
Qed.

Example C104_case :
  let s := drive ex_auth true (sys_init 1) ex_quiet in
  quiet ex_auth true 1 s /\ ctrl_c s = false /\ (exists s1, step ex_auth true s (LAccept ex_listens (ex_socket []) 2) = Some s1)
  /\ (exists p, client_sends true (new_conn ex_listens (ex_socket []) 2) = [Connect p; to_all 1 AtMostOnce] /\ client_id p = str "x" /\ user_name p = None)
  /\ ~ blocks (ex_socket [])
  /\ ex_got ex_listens 1 = Some [Publish (ex_message "a" "x"); Publish (ex_message "$b/c" "y")].
Proof.
  cbv zeta. split; [apply quiet_run; vm_compute; reflexivity|]. split; [vm_compute; reflexivity|].
  split; [apply ex_accept; vm_compute; [reflexivity|discriminate]|].
  split; [eexists; split; [vm_compute; reflexivity|split; reflexivity]|]. split; [intros []|]. vm_compute; reflexivity.
Qed.
