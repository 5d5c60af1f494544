(** Properties C86 and C90: the broker is the reference broker of Spec_ref.v, and answers what it is asked. *)
From Verif Require Import Base Base_facts Packets HashMap Subscriptions Messaging Handler Decoder ReadStream
  Conn Encoder WriteStream Spec_wire Spec_subs Spec_broker Spec_ref Subscriptions_facts Handler_facts System System_facts
  System_hist System_conn System_queue System_first System_progress System_exit System_rest
  Prop_subs Prop_stream Prop_broker Prop_system Prop_rest Prop_mqtt.
Open Scope N_scope.

(** ** Levels *)

Lemma levels_ne t : levels t <> [].
Proof. destruct t as [|b t]; cbn; [discriminate|]. destruct (byte_eqb b slash); [discriminate|]. destruct (levels t); discriminate. Qed.

Lemma join_cons l ls : ls <> [] -> join (l :: ls) = l ++ slash :: join ls.
Proof. destruct ls; [congruence|reflexivity]. Qed.

Lemma levels_ok t : has_levels t (levels t).
Proof.
  induction t as [|b t (HN & HS & HJ)]; cbn [levels].
  - split; [discriminate|]. split; [intros l [<-|[]] []|reflexivity].
  - destruct (byte_eqb_spec b slash) as [->|Hb].
    + split; [discriminate|]. split; [intros l [<-|Hl]; [intros []|now apply HS]|].
      rewrite join_cons by exact HN. cbn. now rewrite <- HJ.
    + destruct (levels t) as [|l ls]; [congruence|]. split; [discriminate|]. split.
      * intros l' [<-|Hl]; [|apply HS; now right]. intros [E|E]; [congruence|]. apply (HS l); [now left|exact E].
      * rewrite HJ. now destruct ls.
Qed.

(** ** Sessions *)

Lemma place_leave r cid cid' s : place {| online := leave cid (online r); subs := s |} cid'
  = if bytes_eqb cid' cid then None else place r cid'.
Proof.
  unfold place, leave. cbn [online]. induction (online r) as [|[x j] l IH]; cbn [filter find fst].
  - now destruct (bytes_eqb cid' cid).
  - destruct (bytes_eqb_spec cid x) as [<-|Hx]; cbn [negb].
    + rewrite IH. destruct (bytes_eqb cid' cid) eqn:E; reflexivity.
    + cbn [find fst]. destruct (bytes_eqb_spec cid' x) as [->|].
      * destruct (bytes_eqb_spec x cid) as [->|]; [congruence|reflexivity].
      * exact IH.
Qed.

Lemma place_cons r cid cid' k s : place {| online := (cid, k) :: leave cid (online r); subs := s |} cid'
  = if bytes_eqb cid' cid then Some k else place r cid'.
Proof.
  pose proof (place_leave r cid cid' s) as H. unfold place in *. cbn [online find fst] in *.
  destruct (bytes_eqb cid' cid); [reflexivity|exact H].
Qed.

Lemma place_step auth r te cid : place (ref_next auth r (snd te)) cid = owner_step auth cid (place r cid) te.
Proof.
  destruct te as [now e]. unfold owner_step. cbn [snd]. destruct e as [c a k|cid' p k|cid'|cid']; cbn [ref_next].
  - unfold let_in. destruct (user_name c) as [u|].
    + destruct (password c) as [p|]; [|now destruct (bytes_eqb cid (client_id c))].
      destruct (auth u p); [apply place_cons|now destruct (bytes_eqb cid (client_id c))].
    + apply place_cons.
  - destruct p; try reflexivity. apply place_leave.
  - reflexivity.
  - apply place_leave.
Qed.

(** ** Subscriptions *)

Definition pair_dec : forall x y : bytes * bytes, {x = y} + {x <> y}.
Proof. decide equality; apply bytes_eq_dec. Defined.

Definition held (l : list (bytes * bytes)) (c f : bytes) : nat := count_occ pair_dec l (c, f).

Lemma held_cons x l c f : held (x :: l) c f
  = ((if bytes_eqb c (fst x) && bytes_eqb f (snd x) then 1 else 0) + held l c f)%nat.
Proof.
  unfold held. cbn [count_occ]. destruct x as [c' f']. cbn [fst snd].
  destruct (pair_dec (c', f') (c, f)) as [[= -> ->]|N].
  - rewrite !bytes_eqb_refl. reflexivity.
  - destruct (bytes_eqb_spec c c') as [->|]; [|reflexivity]. destruct (bytes_eqb_spec f f') as [->|]; [congruence|reflexivity].
Qed.

Lemma held_drop_one cid g l c f : held (drop_one cid g l) c f
  = (held l c f - (if bytes_eqb c cid && bytes_eqb f g then 1 else 0))%nat.
Proof.
  induction l as [|x l IH]; cbn [drop_one]; [reflexivity|].
  rewrite held_cons. destruct (bytes_eqb_spec cid (fst x)) as [->|Hc]; [destruct (bytes_eqb_spec g (snd x)) as [->|Hg]|];
    cbn [andb]; try rewrite held_cons, IH.
  - destruct (bytes_eqb c (fst x) && bytes_eqb f (snd x)); lia.
  - destruct (bytes_eqb_spec c (fst x)); cbn [andb]; [|lia].
    destruct (bytes_eqb_spec f g); destruct (bytes_eqb_spec f (snd x)); try congruence; lia.
  - destruct (bytes_eqb_spec c cid); cbn [andb]; [|lia].
    destruct (bytes_eqb_spec c (fst x)); [congruence|]. cbn [andb]. lia.
Qed.

Lemma held_drop_all cid fs : forall l c f, held (drop_all_of cid fs l) c f
  = if bytes_eqb c cid then (held l c f - occurs f fs)%nat else held l c f.
Proof.
  unfold drop_all_of. induction fs as [|g fs IH]; intros l c f; cbn [fold_left].
  - unfold occurs. cbn. destruct (bytes_eqb c cid); [lia|reflexivity].
  - rewrite IH, held_drop_one. rewrite occurs_cons. destruct (bytes_eqb_spec c cid) as [->|]; cbn [andb]; [|lia].
    destruct (bytes_eqb_spec f g); destruct (bytes_eq_dec g f); try congruence; lia.
Qed.

Lemma held_in l c f : held l c f <> O <-> In (c, f) l.
Proof. unfold held. rewrite (count_occ_In pair_dec). lia. Qed.

Lemma held_map cid ss : forall l c f, held (map (fun s => (cid, sub_topic s)) ss ++ l) c f
  = fold_left (live_step c f) (map (fun s => ReqSubscribe cid (sub_topic s)) ss) (held l c f).
Proof.
  assert (K : forall x n c f, fold_left (live_step c f) (map (fun s => ReqSubscribe cid (sub_topic s)) x) n
    = (n + fold_left (live_step c f) (map (fun s => ReqSubscribe cid (sub_topic s)) x) 0)%nat).
  { induction x as [|s x IH]; intros n c f; cbn [map fold_left live_step]; [lia|]. rewrite IH.
    destruct (bytes_eqb c cid && bytes_eqb f (sub_topic s)); [rewrite (IH 1%nat)|]; lia. }
  induction ss as [|s ss IH]; intros l c f; cbn [map app fold_left live_step]; [reflexivity|].
  rewrite held_cons, IH. cbn [fst snd]. rewrite (K ss (held l c f)).
  destruct (bytes_eqb c cid && bytes_eqb f (sub_topic s)); [rewrite (K ss (Datatypes.S _))|rewrite (K ss (held l c f))]; lia.
Qed.

Lemma occurs_nodup f l : occurs f (nodup bytes_eq_dec l) = if in_dec bytes_eq_dec f l then 1%nat else 0%nat.
Proof.
  unfold occurs. destruct (in_dec bytes_eq_dec f l) as [H|H].
  - apply NoDup_count_occ'; [apply NoDup_nodup|]. now apply nodup_In.
  - apply count_occ_not_In. now rewrite nodup_In.
Qed.

Lemma held_gone cid l c f : held (drop_all_of cid (filters_of cid l) l) c f
  = if bytes_eqb c cid then (held l c f - 1)%nat else held l c f.
Proof.
  rewrite held_drop_all. destruct (bytes_eqb_spec c cid) as [->|]; [|reflexivity].
  unfold filters_of. rewrite occurs_nodup. destruct (in_dec _ _ _) as [|H]; [reflexivity|].
  destruct (held l cid f) eqn:E; [reflexivity|]. exfalso. apply H. apply in_map_iff. exists (cid, f). split; [reflexivity|].
  apply filter_In. split; [apply held_in; congruence|]. cbn [fst]. apply bytes_eqb_refl.
Qed.

Lemma held_step auth r te c f : held (subs (ref_next auth r (snd te))) c f
  = fold_left (live_step c f) (requests_of te) (held (subs r) c f).
Proof.
  destruct te as [now e]. unfold requests_of. cbn [snd]. destruct e as [p a k|cid p k|cid|cid]; cbn [ref_next].
  - destruct (let_in auth p) as [[]|]; reflexivity.
  - destruct p; try reflexivity; cbn [subs fold_left live_step].
    + apply held_map.
    + apply held_drop_all.
    + apply held_gone.
  - reflexivity.
  - apply held_gone.
Qed.

(** ** The state of the reference broker *)

Lemma ref_after_snoc auth es e : ref_after auth (es ++ [e]) = ref_next auth (ref_after auth es) e.
Proof. unfold ref_after. now rewrite fold_left_app. Qed.

Theorem ref_online auth h cid : place (ref_after auth (map snd h)) cid = owner auth h cid.
Proof.
  induction h as [|te h IH] using rev_ind; [reflexivity|].
  rewrite map_app. cbn [map]. rewrite ref_after_snoc, place_step, IH. unfold owner. now rewrite fold_left_app.
Qed.

Theorem ref_subs auth h c f : held (subs (ref_after auth (map snd h))) c f = live (requests h) c f.
Proof.
  induction h as [|te h IH] using rev_ind; [reflexivity|].
  rewrite map_app. cbn [map]. rewrite ref_after_snoc, held_step, IH.
  unfold requests. rewrite flat_map_app. cbn [flat_map]. rewrite app_nil_r. symmetry. apply live_app.
Qed.

Lemma count_flat (g : bytes -> option nat) k L :
  count_occ Nat.eq_dec (flat_map (fun c => match g c with Some x => [x] | None => [] end) L) k
  = sum (fun c => match g c with Some j => if Nat.eqb k j then 1 else 0 | None => 0 end)%nat L.
Proof.
  induction L as [|c L IH]; [reflexivity|]. cbn [flat_map]. rewrite count_occ_app, IH, sum_cons. f_equal.
  destruct (g c) as [j|]; [|reflexivity]. cbn [count_occ]. destruct (Nat.eq_dec j k) as [->|N].
  - now rewrite Nat.eqb_refl.
  - destruct (Nat.eqb_spec k j); congruence.
Qed.

Lemma sum_prod {A B} (g : A * B -> nat) l l' : sum g (list_prod l l') = sum (fun a => sum (fun b => g (a, b)) l') l.
Proof.
  induction l as [|a l IH]; [reflexivity|]. cbn [list_prod]. rewrite sum_app, sum_map, sum_cons, IH. reflexivity.
Qed.

Lemma NoDup_prod {A B} (l : list A) (l' : list B) : NoDup l -> NoDup l' -> NoDup (list_prod l l').
Proof.
  intros H H'. induction H as [|a l Ha H IH]; cbn [list_prod]; [constructor|]. apply NoDup_app_intro.
  - apply NoDup_map_inj; [|exact H']. intros x y _ _ E. congruence.
  - exact IH.
  - intros x Hx Hx'. apply in_map_iff in Hx. destruct Hx as (b & <- & _). apply in_prod_iff in Hx'. tauto.
Qed.

Lemma sum_scale {A} (g : A -> nat) n l : sum (fun a => n * g a)%nat l = (n * sum g l)%nat.
Proof. induction l as [|a l IH]; [cbn; lia|]. rewrite !sum_cons, IH. lia. Qed.

Theorem ref_copies auth h m k name : after auth h m ->
  count_occ Nat.eq_dec (senders_to_publish m name) k = copies (ref_after auth (map snd h)) k name.
Proof.
  intros H. rewrite (senders_owned auth h m name H), count_flat. unfold copies.
  set (S := subs (ref_after auth (map snd h))). set (C := nodup bytes_eq_dec (map fst S)).
  set (F := nodup bytes_eq_dec (filters (requests h))).
  assert (HF : forall f, In f F <-> In f (filters (requests h))) by (intros f; apply nodup_In).
  assert (HS : forall c f, held S c f = live (requests h) c f) by (intros; apply ref_subs).
  assert (HO : forall c, occurs c (selected (requests h) name)
    = sum (fun f => held S c f * ways (levels name) (levels f))%nat F).
  { intros c. rewrite (C72_copies_for_any_name (requests h) c name (levels name) F levels (levels_ok name) (NoDup_nodup _ _) HF levels_ok).
    apply sum_ext. intros f _. now rewrite HS. }
  assert (HC : forall c f, In (c, f) S -> In c C /\ In f F).
  { intros c f Hi. split.
    - apply nodup_In, in_map_iff. now exists (c, f).
    - apply HF. apply held_in in Hi. rewrite HS in Hi. now apply live_filters in Hi. }
  rewrite (sum_by bytes_eq_dec _ C (selected (requests h) name) (NoDup_nodup _ _)).
  2:{ intros c Hc _. apply (count_occ_In bytes_eq_dec) in Hc. change (count_occ bytes_eq_dec (selected (requests h) name) c)
        with (occurs c (selected (requests h) name)) in Hc. rewrite HO in Hc.
      destruct (in_dec bytes_eq_dec c C) as [|Hn]; [assumption|exfalso]. rewrite sum_zero in Hc; [lia|].
      intros f _. destruct (held S c f) eqn:E; [reflexivity|]. exfalso. apply Hn, (HC c f), held_in. congruence. }
  rewrite (sum_by pair_dec _ (list_prod C F) S (NoDup_prod _ _ (NoDup_nodup _ _) (NoDup_nodup _ _))).
  2:{ intros [c f] Hi _. apply in_prod_iff. now apply HC. }
  rewrite sum_prod. apply sum_ext. intros c _. cbn [fst snd].
  change (count_occ bytes_eq_dec (selected (requests h) name) c) with (occurs c (selected (requests h) name)).
  rewrite HO, <- sum_scale. apply sum_ext. intros f _. rewrite ref_online.
  change (count_occ pair_dec S (c, f)) with (held S c f).
  destruct (owner auth h c) as [j|]; [|lia]. destruct (Nat.eqb k j); lia.
Qed.

(** ** C86 *)

Lemma stops_iff auth te : stops auth (snd te) = true <-> user_without_password te.
Proof.
  destruct te as [now e]. unfold user_without_password, stops, let_in. cbn [snd]. destruct e as [c a k|cid p k|cid|cid].
  - split.
    + destruct (user_name c) as [u|] eqn:Eu; [|discriminate]. destruct (password c) eqn:Ep; [discriminate|]. intros _.
      exists c, a, k, u. auto.
    + intros (c' & a' & k' & u & [= <- <- <-] & -> & ->). reflexivity.
  - split; [discriminate|]. intros (c' & a' & k' & u & [=] & _).
  - split; [discriminate|]. intros (c' & a' & k' & u & [=] & _).
  - split; [discriminate|]. intros (c' & a' & k' & u & [=] & _).
Qed.

Lemma sent_to_map k (e : ServerEvent) l : sent_to k (map (fun x => (x, e)) l) = repeat e (count_occ Nat.eq_dec l k).
Proof.
  unfold sent_to. induction l as [|x l IH]; cbn [map filter count_occ fst]; [reflexivity|].
  destruct (Nat.eq_dec x k) as [->|N].
  - rewrite Nat.eqb_refl. cbn [map repeat snd]. now rewrite IH.
  - destruct (Nat.eqb_spec k x); [congruence|]. exact IH.
Qed.

Lemma map_const {A B} (b : B) (l : list A) : map (fun _ => b) l = repeat b (length l).
Proof. induction l; cbn; congruence. Qed.

(** One event. *)
Theorem C86_one_event auth h m te k : after auth h m ->
  sent_to k (replies auth m te) = ref_out auth (ref_after auth (map snd h)) (snd te) k.
Proof.
  intros H. destruct te as [now e]. unfold replies. cbn [snd]. destruct e as [c a j|cid p j|cid|cid]; cbn [ref_out].
  - unfold let_in. destruct (connect_cases auth c) as [A|[A|(u & H1 & H2)]].
    + rewrite (handle_accepted auth m now c a j A). unfold accepts in A. cbn. destruct (Nat.eqb k j); [|reflexivity].
      destruct (user_name c); [|reflexivity]. destruct (password c); [|destruct A]. now rewrite A.
    + rewrite (handle_rejected auth m now c a j A). destruct A as (u & p & -> & -> & ->). cbn.
      destruct (Nat.eqb k j); reflexivity.
    + rewrite (handle_no_password auth m now c a j u H1 H2), H1, H2. cbn. now destruct (Nat.eqb k j).
  - destruct p as [| |pp| | | | |sid ss| |uid ts| | | |]; try reflexivity.
    + rewrite handle_publish. cbn [fst snd]. rewrite sent_to_map. f_equal. now apply ref_copies.
    + rewrite handle_subscribe. cbn. rewrite map_const. destruct (Nat.eqb k j); reflexivity.
    + rewrite handle_unsubscribe. cbn. destruct (Nat.eqb k j); reflexivity.
    + rewrite handle_ping, ref_online, <- (after_owner auth h m cid H). unfold session_exists, session_owner.
      unfold hm_mem. cbn. destruct (Nat.eqb k j); [|reflexivity]. now destruct (hm_get cid (sessions m)).
  - reflexivity.
  - reflexivity.
Qed.

Lemma ref_sends_snoc auth k e es : forall r, ref_sends auth r (es ++ [e]) k
  = ref_sends auth r es k ++ (if existsb (stops auth) es then [] else ref_out auth (fold_left (ref_next auth) es r) e k).
Proof.
  induction es as [|x es IH]; intros r; cbn [app ref_sends existsb fold_left].
  - destruct (stops auth e); now rewrite app_nil_r.
  - destruct (stops auth x); cbn [orb]; [now rewrite !app_nil_r|]. now rewrite IH, app_assoc.
Qed.

Lemma finished_stops auth h : forall m, snd (handle_all auth m h) = Finished <-> existsb (stops auth) (map snd h) = false.
Proof.
  induction h as [|te h IH]; intros m; cbn [handle_all map existsb]; [tauto|].
  pose proof (handle_panics auth m te) as HP. rewrite <- stops_iff with (auth := auth) in HP.
  destruct (handle auth m te) as [[m1 l1] []]; cbn [snd] in HP.
  - destruct (stops auth (snd te)); [destruct HP as (_ & HP); discriminate (HP eq_refl)|]. cbn [orb].
    specialize (IH m1). destruct (handle_all auth m1 h) as [[m2 l2] o2]. exact IH.
  - rewrite (proj1 HP eq_refl). cbn. split; discriminate.
Qed.

(** Any events: what handling them sends to a connection, in order, and when it stops. *)
Theorem C86_all_events auth h k :
  sent_to k (snd (fst (handle_all auth MessagingService_new h))) = ref_sends auth ref_init (map snd h) k
  /\ (snd (handle_all auth MessagingService_new h) = Panicked <-> exists e, In e (map snd h) /\ stops auth e = true).
Proof.
  split.
  - induction h as [|te h IH] using rev_ind; [reflexivity|].
    rewrite map_app. cbn [map]. rewrite ref_sends_snoc, <- IH, handle_all_snoc.
    pose proof (finished_stops auth h MessagingService_new) as HF.
    destruct (handle_all auth MessagingService_new h) as [[m1 l1] []] eqn:E; cbn [snd] in HF.
    + rewrite (proj1 HF eq_refl). assert (Ha : after auth h m1) by (eexists; exact E).
      pose proof (C86_one_event auth h m1 te k Ha) as K. unfold replies in K.
      destruct (handle auth m1 te) as [[m2 l2] o2]. cbn [fst snd] in *. now rewrite sent_to_app, K.
    + destruct (existsb (stops auth) (map snd h)); [now rewrite app_nil_r|]. discriminate (proj2 HF eq_refl).
  - rewrite <- existsb_exists. pose proof (finished_stops auth h MessagingService_new) as HF.
    destruct (snd (handle_all auth MessagingService_new h)), (existsb (stops auth) (map snd h)); intuition congruence.
Qed.

(** Every execution: what has been queued for a connection, and what its writer took, are prefixes of what
    the reference broker sends to it when given the events handled so far. *)
Theorem C86_every_execution auth dbg n s k : reachable auth dbg n s ->
  (exists rest, ref_sends auth ref_init (map snd (handled s)) k = map snd (put_to k (log s)) ++ rest)
  /\ forall c, nth_error (conns s) k = Some c ->
       exists rest, ref_sends auth ref_init (map snd (handled s)) k = map ServerPacket (broker_sent c) ++ rest.
Proof.
  intros HR. destruct (put_prefix auth dbg n s HR k) as (r & E). rewrite (proj1 (C86_all_events auth (handled s) k)) in E.
  split; [now exists r|]. intros c Hk. rewrite E.
  pose proof (queue_invariant auth dbg n s HR k) as HQ. unfold queue_ok in HQ. rewrite Hk in HQ. destruct HQ as (_ & HQ).
  assert (M : map snd (map as_sent (c_sent c)) = map ServerPacket (broker_sent c)).
  { unfold broker_sent. rewrite !map_map. reflexivity. }
  destruct (c_writer c) as [ws|p ws|ws].
  - rewrite HQ, map_app, M, <- app_assoc. eauto.
  - rewrite HQ, map_app, M, <- app_assoc. eauto.
  - destruct HQ as (_ & [(HQ & _)|(f & r' & HQ)]); rewrite HQ.
    + rewrite M. eauto.
    + rewrite map_app, M, <- app_assoc. eauto.
Qed.

(** Once nothing is left to do, it is exactly what the reference broker sends, up to the first close request,
    and on a socket that takes all it is given the peer has its bytes. *)
Theorem C86_at_rest auth dbg n s : quiet auth dbg n s -> forall k c, nth_error (conns s) k = Some c ->
  broker_sent c = before_close (ref_sends auth ref_init (map snd (handled s)) k)
  /\ (finite_peers s -> eager (c_wsock c) ->
      client_reads (peer_got c) (before_close (ref_sends auth ref_init (map snd (handled s)) k)) []).
Proof.
  intros (HR & HS & HB & HA) k c Hk. destruct (C61_nothing_left_undone auth dbg n s HR HS HB HA) as (_ & H).
  destruct (H k c Hk) as (_ & E). rewrite (proj1 (C86_all_events auth (handled s) k)) in E. split; [exact E|].
  intros HF HE. rewrite <- E.
  assert (Hr : running s = true) by (eapply alive_running; eauto).
  destruct (rest_writers auth dbg n s k c HR HS Hr Hk (HB k c Hk)) as (_ & HW).
  now apply (C59_all_arrived auth dbg n s k c).
Qed.

(** So the tasks together do what the reference broker does when it gets the peers' packets one at a time, in some
    order that keeps each peer's own. *)
Theorem C86_some_order auth dbg n s : quiet auth dbg n s -> exists es,
  forall k c, nth_error (conns s) k = Some c ->
    (exists cid, (forall p qs, client_sends dbg c = Connect p :: qs -> goes_by p cid)
       /\ events_of k es = issued k (c_addr c) cid (client_sends dbg c))
    /\ broker_sent c = before_close (ref_sends auth ref_init es k).
Proof.
  intros HQ. exists (map snd (handled s)). intros k c Hk. pose proof HQ as (HR & HS & HB & HA).
  destruct (C61_nothing_left_undone auth dbg n s HR HS HB HA) as (_ & H).
  split; [exact (proj1 (H k c Hk))|]. exact (proj1 (C86_at_rest auth dbg n s HQ k c Hk)).
Qed.

(** Two subscriptions of one client and one of another. The second publication comes after the first client's
    DISCONNECT, which ends its session. *)
Example C86_case :
  let es := [Connected (ex_connect "c" true) 1 0%nat; Connected (ex_connect "d" true) 2 1%nat;
             ClientPacket (str "c") (Subscribe 7 [ex_sub "a/#"; ex_sub "+/b"]) 0%nat;
             ClientPacket (str "d") (Subscribe 8 [ex_sub "a/b"]) 1%nat;
             ClientPacket (str "d") (Publish (ex_publish "a/b")) 1%nat;
             ClientPacket (str "c") Disconnect 0%nat;
             ClientPacket (str "d") (Publish (ex_publish "a/b")) 1%nat] in
  map (ref_sends ex_auth ref_init es) [0%nat; 1%nat]
  = [[ServerPacket (ConnAck {| session_present := false; return_code := Accepted |});
      ServerPacket (SubAck 7 [SuccessQoS0; SuccessQoS0]);
      ServerPacket (Publish (ex_publish "a/b")); ServerPacket (Publish (ex_publish "a/b"))];
     [ServerPacket (ConnAck {| session_present := false; return_code := Accepted |});
      ServerPacket (SubAck 8 [SuccessQoS0]);
      ServerPacket (Publish (ex_publish "a/b")); ServerPacket (Publish (ex_publish "a/b"))]].
Proof. vm_compute. reflexivity. Qed.

Example C86_case_run :
  let s := drive ex_deny true (sys_init 1) (ex_sub_pub [] 3) in
  quiet ex_deny true 1 s
  /\ map broker_sent (conns s) = map (fun k => before_close (ref_sends ex_deny ref_init (map snd (handled s)) k)) [0%nat; 1%nat]
  /\ map (fun c => length (broker_sent c)) (conns s) = [5%nat; 1%nat].
Proof. split; [apply quiet_run; vm_compute; reflexivity|]. split; vm_compute; reflexivity. Qed.

(** ** C90 *)

(** What a connection is sent as the answer to its CONNECT, and to each later packet. A PINGREQ is answered by a close
    request if the client has no session. *)
Definition first_answer (auth : bytes -> bytes -> bool) (p : ConnectPacket) (l : list ServerEvent) : Prop :=
  accepts auth p /\ l = [ServerPacket (ConnAck {| session_present := false; return_code := Accepted |})]
  \/ rejected auth p /\ l = [ServerPacket (ConnAck {| session_present := false; return_code := NotAuthorized |}); ServerDisconnect]
  \/ (exists u, user_name p = Some u /\ password p = None) /\ l = [].

Definition answer (q : ControlPacket) (l : list ServerEvent) : Prop :=
  match q with
  | Subscribe i ss => l = [ServerPacket (SubAck i (repeat SuccessQoS0 (length ss)))]
  | Unsubscribe i _ => l = [ServerPacket (UnsubAck i)]
  | PingReq => l = [ServerPacket PingResp] \/ l = [ServerDisconnect]
  | _ => l = []
  end.

Definition not_publish (p : ControlPacket) : bool := match p with Publish _ => false | _ => true end.

Definition not_message (e : ServerEvent) : bool := match e with ServerPacket p => not_publish p | ServerDisconnect => true end.

Definition event_answer (auth : bytes -> bytes -> bool) (e : ClientEvent) (l : list ServerEvent) : Prop :=
  match e with
  | Connected c _ _ => first_answer auth c l
  | ClientPacket _ q _ => answer q l
  | _ => l = []
  end.

Lemma some_answer auth e : exists l, event_answer auth e l.
Proof.
  destruct e as [c a k|cid q k|cid|cid]; cbn [event_answer]; eauto.
  - unfold first_answer. destruct (connect_cases auth c) as [H|[H|H]]; eexists; [left|right; left|right; right]; split; eauto.
  - destruct q; cbn [answer]; eauto.
Qed.

Lemma some_answers auth es : exists ls, Forall2 (event_answer auth) es ls.
Proof.
  induction es as [|e es (ls & IH)]; [exists []; constructor|]. destruct (some_answer auth e) as (l & H). exists (l :: ls). now constructor.
Qed.

Lemma filter_repeat {A} (f : A -> bool) x m : f x = false -> filter f (repeat x m) = [].
Proof. intros H. induction m; cbn; [reflexivity|]. now rewrite H. Qed.

Lemma out_answers auth r e k :
  if opt_is k (event_tx e) then event_answer auth e (filter not_message (ref_out auth r e k))
  else filter not_message (ref_out auth r e k) = [].
Proof.
  destruct e as [c a j|cid q j|cid|cid]; cbn [event_tx opt_is ref_out event_answer]; try reflexivity.
  - destruct (Nat.eqb k j); [|reflexivity]. unfold first_answer, let_in.
    destruct (connect_cases auth c) as [H|[H|(u & H1 & H2)]].
    + left. split; [exact H|]. unfold accepts in H. destruct (user_name c); [|reflexivity]. destruct (password c); [|destruct H].
      rewrite H. reflexivity.
    + right. left. split; [exact H|]. destruct H as (u & p & -> & -> & ->). reflexivity.
    + right. right. split; [eauto|]. rewrite H1, H2. reflexivity.
  - destruct (Nat.eqb k j) eqn:E.
    + destruct q; cbn [answer]; try reflexivity.
      * now apply filter_repeat.
      * destruct (place r cid); cbn; auto.
    + destruct q; try reflexivity. now apply filter_repeat.
Qed.

(** The events of a connection are answered in order. *)
Lemma answers_in_order auth k es : forall r, exists ls rest, Forall2 (event_answer auth) (events_of k es) ls
  /\ concat ls = filter not_message (ref_sends auth r es k) ++ rest
  /\ (existsb (stops auth) es = false -> rest = []).
Proof.
  induction es as [|e es IH]; intros r; [exists [], []; cbn; auto|].
  cbn [ref_sends existsb]. pose proof (out_answers auth r e k) as H. unfold events_of. cbn [filter].
  fold (events_of k es). rewrite filter_app.
  destruct (stops auth e) eqn:ES.
  - destruct (some_answers auth (events_of k es)) as (ls & Hls). destruct (opt_is k (event_tx e)).
    + exists (filter not_message (ref_out auth r e k) :: ls), (concat ls). split; [now constructor|].
      split; [cbn; now rewrite app_nil_r|discriminate].
    + exists ls, (concat ls). split; [exact Hls|]. rewrite H. split; [reflexivity|discriminate].
  - destruct (IH (ref_next auth r e)) as (ls & rest & H1 & H2 & H3). destruct (opt_is k (event_tx e)).
    + exists (filter not_message (ref_out auth r e k) :: ls), rest. split; [now constructor|].
      cbn [concat orb]. rewrite H2, app_assoc. auto.
    + exists ls, rest. split; [exact H1|]. rewrite H. auto.
Qed.

Lemma before_close_filter l : before_close (filter not_message l) = filter not_publish (before_close l).
Proof. induction l as [|[p|] l IH]; cbn; [reflexivity| |reflexivity]. destruct (not_publish p); cbn; now rewrite IH. Qed.

Lemma before_close_app a b : exists r, before_close (a ++ b) = before_close a ++ r.
Proof. induction a as [|[p|] a (r & IH)]; cbn; [eauto| |exists []; reflexivity]. exists r. now rewrite IH. Qed.

Lemma answers_packets auth k a cid p qs ls : Forall2 (event_answer auth) (issued k a cid (Connect p :: qs)) ls ->
  exists first answers, first_answer auth p first /\ Forall2 answer qs answers /\ ls = first :: answers.
Proof.
  cbn [issued]. intros H. destruct ls as [|first answers]; [inversion H|]. inversion H as [|e0 l0 es0 ls0 H1 H2]; subst.
  exists first, answers. split; [exact H1|]. split; [|reflexivity].
  clear H H1. revert answers H2. induction qs as [|q qs IH]; intros answers H; inversion H; subst; constructor; auto.
Qed.

Lemma handled_prefix auth dbg n s k c : reachable auth dbg n s -> nth_error (conns s) k = Some c ->
  exists cid more, issued k (c_addr c) cid (client_sends dbg c) = events_of k (map snd (handled s)) ++ more.
Proof.
  intros HR Hk. destruct (read_prefix auth dbg n s k c HR Hk) as (rest & Hrest). unfold client_sends. rewrite Hrest.
  destruct (handled_issued auth dbg n s HR k) as (c1 & [(Hk1 & cid & r & E & _)|E]); rewrite events_of_app in E.
  - rewrite Hk in Hk1. injection Hk1 as <-. rewrite <- app_assoc in E. destruct (c_read c) as [|q qs].
    + exists cid. apply app_eq_nil in E. destruct E as (-> & _). eexists. reflexivity.
    + exists cid. destruct q; cbn [issued app] in *; try (exists []; apply app_eq_nil in E; destruct E as (-> & _); reflexivity).
      rewrite map_app, app_comm_cons, <- E, <- app_assoc. eauto.
  - apply app_eq_nil in E. destruct E as (-> & _). exists []. eexists. reflexivity.
Qed.

(** In every execution the packets other than PUBLISH that a connection was sent are a prefix of the answers to
    its own packets, in order, up to the first close request. *)
Theorem C90_answers_in_order auth dbg n s k c p qs : reachable auth dbg n s -> nth_error (conns s) k = Some c ->
  client_sends dbg c = Connect p :: qs ->
  exists first answers rest, first_answer auth p first /\ Forall2 answer qs answers
    /\ before_close (first ++ concat answers) = filter not_publish (broker_sent c) ++ rest.
Proof.
  intros HR Hk HC. destruct (handled_prefix auth dbg n s k c HR Hk) as (cid & more & HI). rewrite HC in HI.
  destruct (answers_in_order auth k (map snd (handled s)) ref_init) as (ls & rest & H1 & H2 & _).
  destruct (some_answers auth more) as (ls2 & H3). pose proof (Forall2_app H1 H3) as H4. rewrite <- HI in H4.
  destruct (answers_packets auth k _ cid p qs _ H4) as (first & answers & Hf & Has & E).
  destruct (C86_every_execution auth dbg n s k HR) as (_ & K). destruct (K c Hk) as (r & Er).
  apply (f_equal (@concat _)) in E. rewrite concat_app, H2 in E. cbn [concat] in E.
  exists first, answers. rewrite <- E, <- app_assoc.
  destruct (before_close_app (filter not_message (ref_sends auth ref_init (map snd (handled s)) k)) (rest ++ concat ls2)) as (x & Ex).
  rewrite Ex, before_close_filter, Er, before_close_sent, filter_app, <- app_assoc. eauto.
Qed.

(** At rest they are all of them. *)
Theorem C90_all_answered auth dbg n s k c p qs : quiet auth dbg n s -> nth_error (conns s) k = Some c ->
  client_sends dbg c = Connect p :: qs ->
  exists first answers, first_answer auth p first /\ Forall2 answer qs answers
    /\ filter not_publish (broker_sent c) = before_close (first ++ concat answers).
Proof.
  intros HQ Hk HC. pose proof HQ as (HR & HS & HB & HA).
  destruct (C61_nothing_left_undone auth dbg n s HR HS HB HA) as ((l & Ha) & H).
  destruct (H k c Hk) as ((cid & _ & HI) & _). rewrite HC in HI.
  destruct (C86_at_rest auth dbg n s HQ k c Hk) as (E & _).
  destruct (answers_in_order auth k (map snd (handled s)) ref_init) as (ls & rest & H1 & H2 & H3).
  rewrite HI in H1. destruct (answers_packets auth k _ cid p qs ls H1) as (first & answers & Hf & Has & ->).
  exists first, answers. split; [exact Hf|]. split; [exact Has|].
  rewrite H3, app_nil_r in H2.
  - cbn [concat] in H2. rewrite H2, before_close_filter. now rewrite <- E.
  - apply (finished_stops auth (handled s) MessagingService_new). now rewrite Ha.
Qed.

(** A SUBSCRIBE, a PINGREQ, an UNSUBSCRIBE and a PUBLISH to oneself. *)
Example C90_case :
  let s := drive ex_deny true (sys_init 1)
    ([LAccept (ex_peer [ex_client "s" None None; Subscribe 1 [ex_sub "a"; ex_sub "b"]; PingReq; Publish (ex_message "a" "x");
                        Unsubscribe 2 [str "a"]; Publish (ex_message "a" "y"); PingReq] PeerOpen) (ex_socket []) 1] ++ ex_rounds 40 [0%nat]) in
  quiet ex_deny true 1 s
  /\ map broker_sent (conns s) = [[ConnAck {| session_present := false; return_code := Accepted |}; SubAck 1 [SuccessQoS0; SuccessQoS0];
        PingResp; Publish (ex_message "a" "x"); UnsubAck 2; PingResp]].
Proof. split; [apply quiet_run; vm_compute; reflexivity|]. vm_compute. reflexivity. Qed.
