(** Property C108: what a client gets depends on its own packets and on the messages, on nothing else the others do. *)
From Verif Require Import Base Base_facts Packets HashMap Subscriptions Messaging Handler Decoder ReadStream ReadStream_facts
  Plain_facts Conn Conn_facts Encoder Encoder_facts WriteStream WriteStream_facts Spec_wire Spec_subs Spec_broker Spec_ref
  Subscriptions_facts Handler_facts System System_facts
  System_hist System_conn System_queue System_first System_progress System_exit System_rest
  Prop_subs Prop_stream Prop_broker Prop_system Prop_rest Prop_mqtt Prop_ref Prop_stop Prop_any Prop_who Prop_stack Sockets Prop_sockets
  Prop_good.
Open Scope nat_scope.

(** ** The reference broker *)

Definition own (cid : bytes) (l : list (bytes * bytes)) : list (bytes * bytes) := filter (fun x => bytes_eqb cid (fst x)) l.

Lemma own_drop_one cid f l : own cid (drop_one cid f l) = drop_one cid f (own cid l).
Proof.
  unfold own. induction l as [|[c g] l IH]; cbn [drop_one filter fst snd]; [reflexivity|].
  destruct (bytes_eqb cid c) eqn:E; cbn [andb filter fst snd drop_one]; rewrite ?E; cbn [andb].
  - destruct (bytes_eqb f g); [reflexivity|]. cbn [filter fst]. rewrite E. now rewrite IH.
  - exact IH.
Qed.

Lemma own_drop_other cid cid' f l : cid <> cid' -> own cid (drop_one cid' f l) = own cid l.
Proof.
  intros N. unfold own. induction l as [|[c g] l IH]; cbn [drop_one filter fst snd]; [reflexivity|].
  destruct (bytes_eqb_spec cid' c) as [<-|]; cbn [andb].
  - destruct (bytes_eqb_spec cid cid') as [|_]; [contradiction|]. destruct (bytes_eqb f g); [reflexivity|].
    cbn [filter fst]. destruct (bytes_eqb_spec cid cid'); [contradiction|exact IH].
  - cbn [filter fst]. destruct (bytes_eqb cid c); now rewrite IH.
Qed.

Lemma own_drop_all cid fs : forall l, own cid (drop_all_of cid fs l) = drop_all_of cid fs (own cid l).
Proof. unfold drop_all_of. induction fs as [|f fs IH]; intros l; cbn [fold_left]; [reflexivity|]. now rewrite IH, own_drop_one. Qed.

Lemma own_drop_all_other cid cid' fs : cid <> cid' -> forall l, own cid (drop_all_of cid' fs l) = own cid l.
Proof.
  intros N. unfold drop_all_of. induction fs as [|f fs IH]; intros l; cbn [fold_left]; [reflexivity|].
  now rewrite IH, own_drop_other.
Qed.

Lemma own_own cid l : own cid (own cid l) = own cid l.
Proof.
  unfold own. induction l as [|x l IH]; cbn [filter]; [reflexivity|]. destruct (bytes_eqb cid (fst x)) eqn:E; [|exact IH].
  cbn [filter]. rewrite E. now rewrite IH.
Qed.

Lemma own_all cid (ss : list Subscription) : own cid (map (fun s => (cid, sub_topic s)) ss) = map (fun s => (cid, sub_topic s)) ss.
Proof. unfold own. induction ss as [|s ss IH]; cbn [map filter fst]; [reflexivity|]. rewrite bytes_eqb_refl. now rewrite IH. Qed.

Lemma own_none cid cid' (ss : list Subscription) : cid <> cid' -> own cid (map (fun s => (cid', sub_topic s)) ss) = [].
Proof.
  intros N. unfold own. induction ss as [|s ss IH]; cbn [map filter fst]; [reflexivity|].
  destruct (bytes_eqb_spec cid cid'); [contradiction|exact IH].
Qed.

Lemma own_app cid a b : own cid (a ++ b) = own cid a ++ own cid b.
Proof. apply filter_app. Qed.

(** Two states of the reference broker that look alike to the client [cid], which is connection [k] in one and [k'] in the other. *)
Record alike (cid : bytes) (k k' : conn) (r r' : ref) : Prop := {
  alike_place : (place r cid = None /\ place r' cid = None) \/ (place r cid = Some k /\ place r' cid = Some k');
  alike_only : forall c, place r c = Some k -> c = cid;
  alike_only' : forall c, place r' c = Some k' -> c = cid;
  alike_subs : own cid (subs r) = own cid (subs r') }.

Lemma sum_cons {A} (g : A -> nat) x l : sum g (x :: l) = g x + sum g l.
Proof. reflexivity. Qed.

Lemma copies_own cid k r name : (forall c, place r c = Some k -> c = cid) ->
  copies r k name = match place r cid with
                    | Some j => if Nat.eqb k j then sum (fun x => ways (levels name) (levels (snd x))) (own cid (subs r)) else O
                    | None => O
                    end.
Proof.
  intros H. unfold copies.
  assert (G : forall l, sum (fun x : bytes * bytes => match place r (fst x) with
                | Some j => if Nat.eqb k j then ways (levels name) (levels (snd x)) else O
                | None => O
                end) l = match place r cid with
                    | Some j => if Nat.eqb k j then sum (fun x => ways (levels name) (levels (snd x))) (own cid l) else O
                    | None => O
                    end).
  { induction l as [|[c f] l IH].
    - cbn. destruct (place r cid) as [j|]; [destruct (Nat.eqb k j)|]; reflexivity.
    - rewrite sum_cons, IH. clear IH. cbn [fst snd].
      unfold own. cbn [filter fst]. destruct (bytes_eqb_spec cid c) as [<-|N].
      + destruct (place r cid) as [j|]; [|reflexivity]. destruct (Nat.eqb k j); [now rewrite sum_cons|reflexivity].
      + destruct (place r c) as [j|] eqn:E; [|reflexivity]. destruct (Nat.eqb_spec k j) as [<-|]; [|reflexivity].
        exfalso. apply N. symmetry. now apply H. }
  apply G.
Qed.

Lemma alike_copies cid k k' r r' name : alike cid k k' r r' -> copies r k name = copies r' k' name.
Proof.
  intros [HP H1 H2 HS]. rewrite (copies_own cid k r name H1), (copies_own cid k' r' name H2), HS.
  destruct HP as [(-> & ->)|(-> & ->)]; [reflexivity|]. now rewrite !Nat.eqb_refl.
Qed.

(** The same event, of the client [cid] as connection [k] and as connection [k']. *)
Inductive twin (cid : bytes) (k k' : conn) : ClientEvent -> ClientEvent -> Prop :=
| TwinConnect c a a' : client_id c = cid -> twin cid k k' (Connected c a k) (Connected c a' k')
| TwinPacket p : twin cid k k' (ClientPacket cid p k) (ClientPacket cid p k').

Lemma filters_own cid l : filters_of cid (own cid l) = filters_of cid l.
Proof. unfold filters_of. fold (own cid (own cid l)). fold (own cid l). now rewrite own_own. Qed.

Lemma filters_alike cid l l' : own cid l = own cid l' -> filters_of cid l = filters_of cid l'.
Proof. intros H. rewrite <- (filters_own cid l), <- (filters_own cid l'). now rewrite H. Qed.

Lemma twin_next auth cid k k' r r' e e' : alike cid k k' r r' -> twin cid k k' e e' ->
  ref_out auth r e k = ref_out auth r' e' k' /\ stops auth e = stops auth e'
  /\ alike cid k k' (ref_next auth r e) (ref_next auth r' e').
Proof.
  intros HA HT. pose proof (alike_copies cid k k' r r') as HC. destruct HA as [HP H1 H2 HS]. destruct HT as [c a a' Hc|p].
  - cbn [ref_out stops ref_next]. rewrite !Nat.eqb_refl. destruct (let_in auth c) as [[]|].
    + split; [reflexivity|]. split; [reflexivity|]. rewrite Hc.
      split; cbn [subs]; [right|intros c0|intros c0|exact HS]; rewrite !Prop_ref.place_cons.
      * rewrite bytes_eqb_refl. auto.
      * destruct (bytes_eqb_spec c0 cid); [auto|apply H1].
      * destruct (bytes_eqb_spec c0 cid); [auto|apply H2].
    + split; [reflexivity|]. split; [reflexivity|]. now constructor.
    + split; [reflexivity|]. split; [reflexivity|]. now constructor.
  - split; [|split; [reflexivity|]].
    + destruct p; cbn [ref_out]; rewrite ?Nat.eqb_refl; try reflexivity.
      * f_equal. apply HC. now constructor.
      * destruct HP as [(-> & ->)|(-> & ->)]; reflexivity.
    + destruct p; cbn [ref_next]; try (now constructor).
      * split; cbn [subs]; auto. rewrite !own_app, HS. reflexivity.
      * split; cbn [subs]; auto. now rewrite !own_drop_all, HS.
      * unfold gone. split; cbn [subs].
        -- left. rewrite !Prop_ref.place_leave, bytes_eqb_refl. auto.
        -- intros c. rewrite Prop_ref.place_leave. destruct (bytes_eqb c cid); [discriminate|apply H1].
        -- intros c. rewrite Prop_ref.place_leave. destruct (bytes_eqb c cid); [discriminate|apply H2].
        -- rewrite !own_drop_all, HS. now rewrite (filters_alike cid _ _ HS).
Qed.

(** The client does not notice what another one does in its own name, but for messages. *)
Lemma other_next auth cid k k' r r' e : alike cid k k' r r' -> event_tx e <> Some k -> event_id e <> cid ->
  alike cid k k' (ref_next auth r e) r'
  /\ ref_out auth r e k = match e with
                          | ClientPacket _ (Publish p) _ => repeat (ServerPacket (Publish p)) (copies r k (topic (message p)))
                          | _ => []
                          end.
Proof.
  intros [HP H1 H2 HS] Ht Hi.
  assert (HG : forall cid', cid' <> cid -> alike cid k k' (gone r cid') r').
  { intros cid' N. unfold gone. split; cbn [subs]; auto.
    - rewrite Prop_ref.place_leave. destruct (bytes_eqb_spec cid cid'); [congruence|exact HP].
    - intros c. rewrite Prop_ref.place_leave. destruct (bytes_eqb c cid'); [discriminate|apply H1].
    - rewrite own_drop_all_other; [exact HS|congruence]. }
  destruct e as [c a j|cid' p j|cid'|cid']; cbn [event_tx event_id] in Ht, Hi.
  - split.
    + cbn [ref_next]. destruct (let_in auth c) as [[]|]; [|now constructor|now constructor].
      split; cbn [subs]; auto.
      * rewrite Prop_ref.place_cons. destruct (bytes_eqb_spec cid (client_id c)); [congruence|exact HP].
      * intros c0. rewrite Prop_ref.place_cons. destruct (bytes_eqb c0 (client_id c)); [congruence|apply H1].
    + cbn [ref_out]. destruct (Nat.eqb_spec k j); [congruence|reflexivity].
  - split.
    + destruct p; cbn [ref_next]; try (now constructor).
      * split; cbn [subs]; auto. rewrite own_app, own_none; [exact HS|congruence].
      * split; cbn [subs]; auto. rewrite own_drop_all_other; [exact HS|congruence].
      * now apply HG.
    + destruct p; cbn [ref_out]; try reflexivity; destruct (Nat.eqb_spec k j); try congruence; reflexivity.
  - split; [now constructor|reflexivity].
  - split; [now apply HG|reflexivity].
Qed.

(** [es] without what the others do: the client's own events and messages, some or all of those it has no filter for left out.
    [F] are filters the client may have. *)
Inductive without (F : bytes -> Prop) (cid : bytes) (k k' : conn) : list ClientEvent -> list ClientEvent -> Prop :=
| WithoutEnd : without F cid k k' [] []
| WithoutOwn e e' es es' : twin cid k k' e e' -> (forall i ss j x, e = ClientPacket cid (Subscribe i ss) j -> In x ss -> F (sub_topic x)) ->
    without F cid k k' es es' -> without F cid k k' (e :: es) (e' :: es')
| WithoutMessage c p j es es' : c <> cid -> j <> k -> without F cid k k' es es' ->
    without F cid k k' (ClientPacket c (Publish p) j :: es) (ClientPacket c (Publish p) j :: es')
| WithoutOther e es es' : event_tx e <> Some k -> event_id e <> cid ->
    (forall c p j, e = ClientPacket c (Publish p) j -> forall f, F f -> ways (levels (topic (message p))) (levels f) = O) ->
    without F cid k k' es es' -> without F cid k k' (e :: es) es'.

Lemma sum_zero {A} (f : A -> nat) l : (forall x, In x l -> f x = O) -> sum f l = O.
Proof.
  intros H. destruct (sum f l) eqn:E; [reflexivity|]. destruct (sum_pos f l) as (x & Hx & K); [congruence|].
  exfalso. apply K. now apply H.
Qed.

Lemma own_in cid l x : In x (own cid l) <-> In x l /\ fst x = cid.
Proof.
  unfold own. rewrite filter_In. destruct (bytes_eqb_spec cid (fst x)); split; intros (H1 & H2); split; congruence.
Qed.

Lemma own_filters (F : bytes -> Prop) auth cid k k' r r' e e' : twin cid k k' e e' ->
  (forall i ss j x, e = ClientPacket cid (Subscribe i ss) j -> In x ss -> F (sub_topic x)) ->
  (forall f, In (cid, f) (subs r) -> F f) -> alike cid k k' r r' -> forall f, In (cid, f) (subs (ref_next auth r e)) -> F f.
Proof.
  intros HT HF HI _ f. destruct HT as [c a a' Hc|p]; cbn [ref_next].
  - destruct (let_in auth c) as [[]|]; cbn [subs]; apply HI.
  - destruct p; cbn [subs]; try apply HI.
    + intros H. apply in_app_or in H. destruct H as [H|H]; [|now apply HI].
      apply in_map_iff in H. destruct H as (x & [= <-] & Hx). eapply HF; eauto.
    + intros H. apply drop_all_in in H. now apply HI.
    + unfold gone. cbn [subs]. intros H. apply drop_all_in in H. now apply HI.
Qed.

Lemma other_filters auth cid r e f : event_id e <> cid -> In (cid, f) (subs (ref_next auth r e)) -> In (cid, f) (subs r).
Proof.
  intros Hi. destruct e as [c a j|cid' p j|cid'|cid']; cbn [ref_next event_id] in *.
  - destruct (let_in auth c) as [[]|]; cbn [subs]; auto.
  - destruct p; cbn [subs]; auto.
    + intros H. apply in_app_or in H. destruct H as [H|H]; [|exact H].
      apply in_map_iff in H. destruct H as (x & [= <- _] & Hx). congruence.
    + apply drop_all_in.
    + unfold gone. cbn [subs]. apply drop_all_in.
  - auto.
  - unfold gone. cbn [subs]. apply drop_all_in.
Qed.

Theorem sends_without (F : bytes -> Prop) auth cid k k' es es' : without F cid k k' es es' ->
  forall r r', alike cid k k' r r' -> (forall f, In (cid, f) (subs r) -> F f) ->
  exists rest, ref_sends auth r' es' k' = ref_sends auth r es k ++ rest /\ (existsb (stops auth) es = false -> rest = []).
Proof.
  intros H. induction H as [|e e' es es' HT HF H IH|c p j es es' Hc Hj H IH|e es es' Ht Hi HP H IH]; intros r r' HA HI.
  - exists []. auto.
  - destruct (twin_next auth cid k k' r r' e e' HA HT) as (E1 & E2 & HA').
    cbn [ref_sends existsb]. rewrite <- E1, <- E2. destruct (stops auth e) eqn:S.
    + exists []. now rewrite !app_nil_r.
    + destruct (IH _ _ HA' (own_filters F auth cid k k' r r' e e' HT HF HI HA)) as (rest & E & K).
      exists rest. rewrite E, app_assoc. cbn [orb]. auto.
  - cbn [ref_sends existsb stops orb ref_out ref_next]. rewrite <- (alike_copies cid k k' r r' _ HA).
    destruct (IH _ _ HA HI) as (rest & E & K).
    exists rest. rewrite E, app_assoc. auto.
  - destruct (other_next auth cid k k' r r' e HA Ht Hi) as (HA' & E1).
    assert (E : ref_out auth r e k = []).
    { rewrite E1. destruct e as [| cid' p j| |]; try reflexivity. destruct p as [| |q| | | | | | | | | | |]; try reflexivity.
      rewrite (copies_own cid k r _ (alike_only cid k k' r r' HA)).
      assert (Z : sum (fun x => ways (levels (topic (message q))) (levels (snd x))) (own cid (subs r)) = O).
      { apply sum_zero. intros [c f] Hin. apply own_in in Hin. destruct Hin as (Hin & <-). cbn [snd fst] in *.
        eapply HP; [reflexivity|]. now apply HI. }
      rewrite Z. destruct (place r cid) as [m|]; [destruct (Nat.eqb k m)|]; reflexivity. }
    cbn [ref_sends existsb]. rewrite E. cbn [app]. destruct (stops auth e) eqn:S.
    + exists (ref_sends auth r' es' k'). split; [reflexivity|]. discriminate.
    + destruct (IH _ _ HA' (fun f Hf => HI f (other_filters auth cid r e f Hi Hf))) as (rest & E2 & K).
      exists rest. cbn [orb]. auto.
Qed.

(** ** Executions *)

(** What the reference broker sends to a client that is the only one. *)
Definition alone auth (p : ConnectPacket) (qs : list ControlPacket) : list ControlPacket :=
  before_close (ref_sends auth ref_init (issued 0 0%N (client_id p) (Connect p :: qs)) 0).

(** The filters a client names. *)
Definition named (qs : list ControlPacket) (f : bytes) : Prop := exists i ss x, In (Subscribe i ss) qs /\ In x ss /\ f = sub_topic x.

(** Connection [k] has a client id of its own. *)
Definition own_id dbg (s : sys) (k : conn) (p : ConnectPacket) : Prop :=
  client_id p <> []
  /\ forall j cj q rs, j <> k -> nth_error (conns s) j = Some cj -> client_sends dbg cj = Connect q :: rs ->
       client_id q <> [] /\ client_id q <> client_id p.

(** Nobody else publishes what a client that sends [qs] could have subscribed to. *)
Definition unheard dbg (s : sys) (k : conn) (qs : list ControlPacket) : Prop :=
  forall j cj q rs m f, j <> k -> nth_error (conns s) j = Some cj -> client_sends dbg cj = Connect q :: rs ->
    In (Publish m) rs -> named qs f -> ways (levels (topic (message m))) (levels f) = O.

Definition is_message (e : ClientEvent) : bool := match e with ClientPacket _ (Publish _) _ => true | _ => false end.

(** The events that are a client's own, or messages of any client. *)
Definition own_or_message (k : conn) (es : list ClientEvent) : list ClientEvent :=
  filter (fun e => opt_is k (event_tx e) || is_message e) es.

Definition renumber (e : ClientEvent) : ClientEvent :=
  match e with Connected c _ _ => Connected c 0%N 0 | ClientPacket cid p _ => ClientPacket cid p 0 | _ => e end.

Lemma renumber_issued k a cid sends : map renumber (issued k a cid sends) = issued 0 0%N cid sends.
Proof. destruct sends as [|[] qs]; cbn [issued map renumber]; try reflexivity. f_equal. rewrite map_map. reflexivity. Qed.

Section Apart.
Variables (auth : bytes -> bytes -> bool) (dbg : bool) (n : nat) (s : sys) (k : conn) (c : cstate) (p : ConnectPacket) (qs : list ControlPacket).
Hypothesis HR : reachable auth dbg n s.
Hypothesis Hk : nth_error (conns s) k = Some c.
Hypothesis Hs : client_sends dbg c = Connect p :: qs.
Hypothesis HO : own_id dbg s k p.

Notation cid := (client_id p).

Lemma own_issued : exists more, issued k (c_addr c) cid (Connect p :: qs) = events_of k (map snd (handled s)) ++ more.
Proof.
  destruct (handled_prefix auth dbg n s k c HR Hk) as (cid' & more & E). rewrite Hs in E.
  destruct (events_of k (map snd (handled s))) as [|e es] eqn:EE; [eexists; reflexivity|].
  exists more. rewrite <- E. assert (Hin : In e (map snd (handled s))).
  { assert (K : In e (events_of k (map snd (handled s)))) by (rewrite EE; now left). now apply filter_In in K. }
  cbn [issued] in E. injection E as <- _. destruct (handled_who auth dbg n s _ _ _ HR Hin) as (c' & q & rs & Hc & Hq & Hg & _).
  rewrite Hk in Hc. injection Hc as <-. rewrite Hs in Hq. injection Hq as <- <-. cbn [client_id] in Hg.
  now rewrite (Hg (proj1 HO)).
Qed.

(** Every event is the client's own or another one's. *)
Lemma own_or_other e : In e (map snd (handled s)) ->
  (event_tx e = Some k /\ (forall k', twin cid k k' e (match e with Connected c a _ => Connected c a k' | ClientPacket i q _ => ClientPacket i q k' | _ => e end))
     /\ twin cid k 0 e (renumber e)
     /\ forall i ss j x, e = ClientPacket cid (Subscribe i ss) j -> In x ss -> named qs (sub_topic x))
  \/ (event_tx e <> Some k /\ event_id e <> cid).
Proof.
  intros Hin. destruct (only_client_events auth dbg n s e HR ltac:(apply in_or_app; now left)) as (j & Hj).
  destruct (Nat.eq_dec j k) as [->|N].
  - left. split; [exact Hj|].
    destruct e as [cp a j|cid' q j|cid'|cid']; cbn [event_tx] in Hj; try discriminate; injection Hj as ->.
    + destruct (handled_who auth dbg n s cp a k HR Hin) as (c' & q & rs & Hc & Hq & Hg & _).
      rewrite Hk in Hc. injection Hc as <-. rewrite Hs in Hq. injection Hq as <- <-. specialize (Hg (proj1 HO)).
      split; [|split]; [intros k'; now constructor|now constructor|intros i ss j x [=]].
    + destruct (handled_whose auth dbg n s cid' q k HR Hin) as (c' & q' & rs & Hc & Hq & Hg & Hi).
      rewrite Hk in Hc. injection Hc as <-. rewrite Hs in Hq. injection Hq as <- <-. specialize (Hg (proj1 HO)). subst cid'.
      split; [|split]; [intros k'; constructor|constructor|]. intros i ss j x [= -> ->] Hx. now exists i, ss, x.
  - right. split; [congruence|].
    destruct e as [cp a i|cid' q i|cid'|cid']; cbn [event_tx] in Hj; try discriminate; injection Hj as ->; cbn [event_id].
    + destruct (handled_who auth dbg n s cp a j HR Hin) as (c' & q & rs & Hc & Hq & Hg & _).
      destruct (proj2 HO j c' q rs N Hc Hq) as (H1 & H2). rewrite (Hg H1). exact H2.
    + destruct (handled_whose auth dbg n s cid' q j HR Hin) as (c' & q' & rs & Hc & Hq & Hg & _).
      destruct (proj2 HO j c' q' rs N Hc Hq) as (H1 & H2). rewrite (Hg H1). exact H2.
Qed.

Lemma alike_init k' : alike cid k k' ref_init ref_init.
Proof. split; [left; split; reflexivity|intros x [=]|intros x [=]|reflexivity]. Qed.

Lemma handled_messages : without (named qs) cid k k (map snd (handled s)) (own_or_message k (map snd (handled s))).
Proof.
  assert (G : forall es, (forall e, In e es -> In e (map snd (handled s))) -> without (named qs) cid k k es (own_or_message k es)).
  { induction es as [|e es IH]; intros HI; [constructor|]. assert (HI' : forall x, In x es -> In x (map snd (handled s))) by (intros x Hx; apply HI; now right).
    specialize (IH HI'). unfold own_or_message in *. cbn [filter].
    destruct (own_or_other e (HI e (or_introl eq_refl))) as [(Ht & HT & _ & HF)|(Ht & Hi)].
    - rewrite Ht. cbn [opt_is]. rewrite Nat.eqb_refl. cbn [orb]. apply WithoutOwn; [|exact HF|exact IH].
      specialize (HT k). destruct e as [cp a j|i q j| |]; cbn [event_tx] in Ht; try discriminate; injection Ht as ->; exact HT.
    - assert (E : opt_is k (event_tx e) = false).
      { destruct (event_tx e) as [j|]; [|reflexivity]. cbn [opt_is]. apply Nat.eqb_neq. congruence. }
      rewrite E. cbn [orb]. destruct e as [cp a j|i q j|i|i]; try (apply WithoutOther; auto; discriminate).
      destruct q; cbn [is_message]; try (apply WithoutOther; auto; discriminate).
      apply WithoutMessage; auto. cbn [event_tx] in Ht. congruence. }
  apply G. auto.
Qed.

Lemma handled_alone : unheard dbg s k qs -> without (named qs) cid k 0 (map snd (handled s)) (map renumber (events_of k (map snd (handled s)))).
Proof.
  intros HU.
  assert (G : forall es, (forall e, In e es -> In e (map snd (handled s))) -> without (named qs) cid k 0 es (map renumber (events_of k es))).
  { induction es as [|e es IH]; intros HI; [constructor|]. assert (HI' : forall x, In x es -> In x (map snd (handled s))) by (intros x Hx; apply HI; now right).
    specialize (IH HI'). unfold events_of in *. cbn [filter]. pose proof (HI e (or_introl eq_refl)) as He.
    destruct (own_or_other e He) as [(Ht & _ & HT & HF)|(Ht & Hi)].
    - rewrite Ht. cbn [opt_is]. rewrite Nat.eqb_refl. cbn [map]. now apply WithoutOwn.
    - assert (E : opt_is k (event_tx e) = false).
      { destruct (event_tx e) as [j|]; [|reflexivity]. cbn [opt_is]. apply Nat.eqb_neq. congruence. }
      rewrite E. apply WithoutOther; auto. intros c' m j -> f Hf. cbn [event_tx] in Ht.
      destruct (handled_whose auth dbg n s c' (Publish m) j HR He) as (cj & q & rs & Hc & Hq & _ & Hin).
      apply (HU j cj q rs m f); auto; congruence. }
  apply G. auto.
Qed.

Lemma quiet_no_stop : quiet auth dbg n s -> existsb (stops auth) (map snd (handled s)) = false.
Proof.
  intros (_ & HS & HB & HA). destruct (C61_nothing_left_undone auth dbg n s HR HS HB HA) as ((l & Ha) & _).
  pose proof (proj1 (finished_stops auth (handled s) MessagingService_new)) as HF. rewrite Ha in HF. exact (HF eq_refl).
Qed.

(** In every execution: what the others do makes no difference to the client, but for their messages. *)
Theorem own_packets_and_messages : (exists rest,
  ref_sends auth ref_init (own_or_message k (map snd (handled s))) k = map ServerPacket (broker_sent c) ++ rest)
  /\ (quiet auth dbg n s -> broker_sent c = before_close (ref_sends auth ref_init (own_or_message k (map snd (handled s))) k)).
Proof.
  destruct (sends_without (named qs) auth cid k k _ _ handled_messages ref_init ref_init (alike_init k) ltac:(intros f [])) as (r1 & E1 & N1).
  destruct (proj2 (C86_every_execution auth dbg n s k HR) c Hk) as (r2 & E2).
  split; [exists (r2 ++ r1); now rewrite E1, E2, app_assoc|]. intros HQ.
  rewrite E1, (N1 (quiet_no_stop HQ)), app_nil_r. exact (proj1 (C86_at_rest auth dbg n s HQ k c Hk)).
Qed.

(** And if none of their messages is for it, they make none at all. *)
Theorem as_if_alone : unheard dbg s k qs -> (exists rest, alone auth p qs = broker_sent c ++ rest)
  /\ (quiet auth dbg n s -> broker_sent c = alone auth p qs).
Proof.
  intros HU.
  destruct (sends_without (named qs) auth cid k 0 _ _ (handled_alone HU) ref_init ref_init (alike_init 0) ltac:(intros f [])) as (r1 & E1 & N1).
  destruct (proj2 (C86_every_execution auth dbg n s k HR) c Hk) as (r2 & E2).
  destruct own_issued as (more & E3). apply (f_equal (map renumber)) in E3. rewrite renumber_issued, map_app in E3.
  destruct (ref_sends_app auth 0 (map renumber more) (map renumber (events_of k (map snd (handled s)))) ref_init) as (r3 & E4).
  unfold alone. split; [rewrite E3, E4, E1, E2, <- !app_assoc, before_close_sent; eexists; reflexivity|]. intros HQ.
  rewrite (proj1 (C86_at_rest auth dbg n s HQ k c Hk)). rewrite (N1 (quiet_no_stop HQ)), app_nil_r in E1. rewrite <- E1.
  destruct HQ as (_ & HS & HB & HA). destruct (C61_nothing_left_undone auth dbg n s HR HS HB HA) as (_ & H).
  destruct (H k c Hk) as ((cid' & Hg & HI) & _). rewrite (Hg p qs Hs (proj1 HO)) in HI. rewrite HI, renumber_issued, Hs. reflexivity.
Qed.
End Apart.

Lemma packets_auth auth auth' k l : forall r, ref_sends auth r (map (fun q => ClientPacket (fst q) (snd q) k) l) k
  = ref_sends auth' r (map (fun q => ClientPacket (fst q) (snd q) k) l) k.
Proof. induction l as [|[c q] l IH]; intros r; cbn [map ref_sends stops fst snd]; [reflexivity|]. f_equal. rewrite IH. reflexivity. Qed.

Lemma alone_auth auth auth' p qs : let_in auth p = let_in auth' p -> alone auth p qs = alone auth' p qs.
Proof.
  intros E. unfold alone. f_equal. unfold issued. cbn [ref_sends ref_out ref_next stops].
  assert (L : forall f cid, let_in f {| version := version p; clean_session := clean_session p; keep_alive_seconds := keep_alive_seconds p;
    client_id := cid; will_message := will_message p; user_name := user_name p; password := password p |} = let_in f p) by reflexivity.
  rewrite !L, E. f_equal. destruct (let_in auth' p) as [[]|]; [| |reflexivity];
    rewrite <- (map_map (fun q => (client_id p, q)) (fun q => ClientPacket (fst q) (snd q) 0)); apply packets_auth.
Qed.

(** ** C108 *)

(** What a client with an id of its own is sent is decided by the order of its own packets and of the messages of all
    clients: whatever else the others do (connect, subscribe, be refused, take over each other's ids, vanish) can be left out. *)
Theorem C108_only_messages_matter auth dbg n s k c p qs : reachable auth dbg n s -> nth_error (conns s) k = Some c ->
  client_sends dbg c = Connect p :: qs -> own_id dbg s k p ->
  (exists rest, ref_sends auth ref_init (own_or_message k (map snd (handled s))) k = map ServerPacket (broker_sent c) ++ rest)
  /\ (quiet auth dbg n s -> broker_sent c = before_close (ref_sends auth ref_init (own_or_message k (map snd (handled s))) k)).
Proof. intros HR Hk Hs HO. exact (own_packets_and_messages auth dbg n s k c p qs HR Hk Hs HO). Qed.

(** If the others publish nothing it could have asked for, it is sent what it would be sent if it were alone: in every
    execution a beginning of that, in the end all of it. *)
Theorem C108_as_if_alone auth dbg n s k c p qs : reachable auth dbg n s -> nth_error (conns s) k = Some c ->
  client_sends dbg c = Connect p :: qs -> own_id dbg s k p -> unheard dbg s k qs ->
  (exists rest, alone auth p qs = broker_sent c ++ rest)
  /\ (quiet auth dbg n s -> broker_sent c = alone auth p qs
      /\ (finite_peers s -> eager (c_wsock c) -> client_reads (peer_got c) (alone auth p qs) [])).
Proof.
  intros HR Hk Hs HO HU. destruct (as_if_alone auth dbg n s k c p qs HR Hk Hs HO HU) as (H1 & H2). split; [exact H1|].
  intros HQ. specialize (H2 HQ). split; [exact H2|]. intros HF HE. rewrite <- H2.
  destruct (C86_at_rest auth dbg n s HQ k c Hk) as (E & K). rewrite E. now apply K.
Qed.

(** And on every schedule, from every state: with sockets that take what is written, the broker comes to rest, and unless
    its handler has ended by then, the client has been sent what it would be sent if it were alone. *)
Theorem C108_every_run auth dbg n s k c p qs : reachable auth dbg n s -> unblocked s -> nth_error (conns s) k = Some c ->
  client_sends dbg c = Connect p :: qs -> own_id dbg s k p -> unheard dbg s k qs ->
  inevitably auth dbg (fun s' => handler_alive (hdl s') = true ->
    exists c', nth_error (conns s') k = Some c' /\ c_rsock c' = c_rsock c /\ c_wsock c' = c_wsock c
      /\ broker_sent c' = alone auth p qs
      /\ (finite_peers s -> eager (c_wsock c) -> client_reads (peer_got c') (alone auth p qs) [])) s.
Proof.
  intros HR HB Hk Hs HO HU. pose proof (dies_out auth dbg n s HR) as HA.
  assert (G : exists c1, nth_error (conns s) k = Some c1 /\ c_rsock c1 = c_rsock c /\ c_wsock c1 = c_wsock c) by (exists c; auto).
  assert (HF : finite_peers s -> finite_peers s) by auto. revert HF. generalize (finite_peers s) at 1 3 as F. intros F HF. clear Hk.
  induction HA as [s _ IH]. destruct G as (c1 & Hk & E1 & E2).
  assert (Hs1 : client_sends dbg c1 = Connect p :: qs) by (unfold client_sends in *; now rewrite E1).
  constructor.
  - intros HT HL. assert (HQ : quiet auth dbg n s) by (split; [exact HR|split; [exact HT|split; [exact HB|exact HL]]]).
    exists c1. split; [exact Hk|]. split; [exact E1|]. split; [exact E2|].
    destruct (proj2 (C108_as_if_alone auth dbg n s k c1 p qs HR Hk Hs1 HO HU) HQ) as (K1 & K2).
    split; [exact K1|]. intros X Y. apply K2; [now apply HF|now rewrite E2].
  - intros l s' Hl Hst.
    assert (B : forall j cj, nth_error (conns s') j = Some cj -> exists c0, nth_error (conns s) j = Some c0 /\ c_wsock cj = c_wsock c0 /\ c_rsock cj = c_rsock c0).
    { intros j cj Hj. destruct (peers_stay auth dbg s s' (step_trans _ _ _ _ _ Hst) j cj Hj) as [(c0 & H0 & X1 & X2)|K]; [exists c0; auto|].
      exfalso. apply nth_error_None in K. rewrite <- (no_new_conns auth dbg s l s' Hl Hst) in K. apply nth_error_None in K. congruence. }
    apply IH.
    + exists l. split; [destruct l; try exact I; destruct Hl|exact Hst].
    + eapply reachable_step; eauto.
    + intros j cj Hj. destruct (B j cj Hj) as (c0 & H0 & -> & _). exact (HB j c0 H0).
    + split; [exact (proj1 HO)|]. intros j cj q rs Nj Hj Hq. destruct (B j cj Hj) as (c0 & H0 & _ & E). unfold client_sends in Hq.
      rewrite E in Hq. exact (proj2 HO j c0 q rs Nj H0 Hq).
    + intros j cj q rs m f Nj Hj Hq. destruct (B j cj Hj) as (c0 & H0 & _ & E). unfold client_sends in Hq.
      rewrite E in Hq. exact (HU j c0 q rs m f Nj H0 Hq).
    + destruct (nth_error (conns s') k) as [c2|] eqn:E.
      * exists c2. split; [reflexivity|]. destruct (B k c2 E) as (c0 & H0 & -> & ->). rewrite Hk in H0. injection H0 as <-. auto.
      * exfalso. apply nth_error_None in E. rewrite (no_new_conns auth dbg s l s' Hl Hst) in E. apply nth_error_None in E. congruence.
    + intros X j cj Hj. destruct (B j cj Hj) as (c0 & H0 & _ & ->). exact (HF X j c0 H0).
Qed.

Lemma inevitably_weaken auth dbg (P Q : sys -> Prop) s : (forall s, P s -> Q s) -> inevitably auth dbg P s -> inevitably auth dbg Q s.
Proof. intros H K. induction K as [s KR _ IH]. constructor; [intros HT; apply H; exact (KR HT)|exact IH]. Qed.

(** With clients that behave the handler does not end, so nothing is left to be said. *)
Corollary C108_among_the_well_behaved auth dbg n s k c p qs : reachable auth dbg n s -> all_behave auth dbg s -> unblocked s ->
  ctrl_c s = false -> nth_error (conns s) k = Some c -> client_sends dbg c = Connect p :: qs -> unheard dbg s k qs ->
  inevitably auth dbg (fun s' => exists c', nth_error (conns s') k = Some c' /\ broker_sent c' = alone auth p qs) s.
Proof.
  intros HR HW HB HC Hk Hs HU.
  assert (HO : own_id dbg s k p).
  { pose proof (proj1 HW k c Hk) as B. unfold behaves in B. rewrite Hs in B. split; [exact (proj1 B)|].
    intros j cj q rs Nj Hj Hq. pose proof (proj1 HW j cj Hj) as B'. unfold behaves in B'. rewrite Hq in B'. split; [exact (proj1 B')|].
    intros E. apply Nj. exact (proj2 HW j k cj c q p rs qs Hj Hk Hq Hs E). }
  pose proof (C108_every_run auth dbg n s k c p qs HR HB Hk Hs HO HU) as K.
  apply (inevitably_weaken auth dbg _ (fun s' => handler_alive (hdl s') = true ->
    exists c', nth_error (conns s') k = Some c' /\ broker_sent c' = alone auth p qs)) in K.
  2: { intros s' H X. destruct (H X) as (c' & H1 & _ & _ & H2 & _). exists c'. auto. }
  clear Hk Hs HO HU HB.
  induction K as [s KR _ IH]. constructor.
  - intros HT. apply (KR HT). exact (proj2 (C101_no_harm auth dbg n s HR HW) HC).
  - intros l s' Hl Hst. apply (IH l s' Hl Hst).
    + eapply reachable_step; eauto.
    + assert (B : forall j cj, nth_error (conns s') j = Some cj -> exists c0, nth_error (conns s) j = Some c0 /\ c_rsock cj = c_rsock c0).
      { intros j cj Hj. destruct (peers_stay auth dbg s s' (step_trans _ _ _ _ _ Hst) j cj Hj) as [(c0 & H0 & X1 & X2)|K]; [exists c0; auto|].
        exfalso. apply nth_error_None in K. rewrite <- (no_new_conns auth dbg s l s' Hl Hst) in K. apply nth_error_None in K. congruence. }
      split.
      * intros j cj Hj. destruct (B j cj Hj) as (c0 & H0 & E). unfold client_sends. rewrite E. exact (proj1 HW j c0 H0).
      * intros j i cj ci q q' ps ps' Hj Hi Hp Hq. destruct (B j cj Hj) as (c0 & H0 & E). destruct (B i ci Hi) as (c1 & H1 & E1).
        unfold client_sends in Hp, Hq. rewrite E in Hp. rewrite E1 in Hq. exact (proj2 HW j i c0 c1 q q' ps ps' H0 H1 Hp Hq).
    + rewrite (step_ctrl_c auth dbg s l s' Hst); [exact HC|destruct l; try discriminate; destruct Hl].
Qed.

(** So in two brokers, with other password files, other clients and other schedules, it sees the same. *)
Theorem C108_no_difference auth auth' dbg dbg' n n' s s' k k' c c' p qs :
  quiet auth dbg n s -> quiet auth' dbg' n' s' -> nth_error (conns s) k = Some c -> nth_error (conns s') k' = Some c' ->
  client_sends dbg c = Connect p :: qs -> client_sends dbg' c' = Connect p :: qs -> let_in auth p = let_in auth' p ->
  own_id dbg s k p -> own_id dbg' s' k' p -> unheard dbg s k qs -> unheard dbg' s' k' qs ->
  broker_sent c = broker_sent c'.
Proof.
  intros HQ HQ' Hk Hk' Hs Hs' E HO HO' HU HU'.
  destruct (proj2 (C108_as_if_alone auth dbg n s k c p qs (proj1 HQ) Hk Hs HO HU) HQ) as (-> & _).
  destruct (proj2 (C108_as_if_alone auth' dbg' n' s' k' c' p qs (proj1 HQ') Hk' Hs' HO' HU') HQ') as (-> & _).
  now apply alone_auth.
Qed.

(** A client that subscribes and publishes to itself, among others that are refused, subscribe to the same filter, publish to other
    topics, take over an id, and leave. *)
Definition ex_busy : list ControlPacket :=
  ex_wish "b" "a/+" ++ [Publish (ex_message "a/b" "x"); Publish (ex_message "c" "y"); PingReq].

Definition ex_crowd : list label :=
  [LAccept (ex_peer (ex_client "s" None None :: ex_busy) PeerOpen) (ex_socket []) 1;
   LAccept (ex_peer (ex_client "t" None None :: ex_wish "b" "a/+" ++ [Publish (ex_message "z" "y"); Disconnect]) PeerOpen) (ex_socket []) 2;
   LAccept (ex_peer (ex_client "t" None None :: ex_wish "c" "#") PeerOpen) (ex_socket []) 3;
   LAccept (ex_peer [ex_client "u" (Some (str "u")) (Some (str "v"))] PeerOpen) (ex_socket []) 4]
  ++ ex_rounds 30 [2; 1; 0; 3].

Definition ex_seen : list ControlPacket :=
  [accepted_reply; SubAck 1 [SuccessQoS0]; UnsubAck 2; SubAck 3 [SuccessQoS0]; Publish (ex_message "a/b" "x"); PingResp].

Example C108_case :
  let s := drive ex_deny true (sys_init 1) ex_crowd in
  quiet ex_deny true 1 s
  /\ (exists c p, nth_error (conns s) 0 = Some c /\ client_sends true c = Connect p :: ex_busy /\ client_id p = str "s"
        /\ own_id true s 0 p /\ unheard true s 0 ex_busy /\ broker_sent c = ex_seen /\ alone ex_deny p ex_busy = ex_seen)
  /\ map (fun c => length (broker_sent c)) (conns s) = [6; 7; 4; 1].
Proof.
  split; [apply quiet_run; vm_compute; reflexivity|]. split; [|vm_compute; reflexivity].
  set (s := drive _ _ _ _).
  assert (K : map (client_sends true) (conns s) =
    [ex_client "s" None None :: ex_busy; ex_client "t" None None :: ex_wish "b" "a/+" ++ [Publish (ex_message "z" "y"); Disconnect];
     ex_client "t" None None :: ex_wish "c" "#"; [ex_client "u" (Some (str "u")) (Some (str "v"))]]) by (vm_compute; reflexivity).
  assert (B : map broker_sent (firstn 1 (conns s)) = [ex_seen]) by (vm_compute; reflexivity).
  generalize dependent s. intros s K B. destruct (conns s) as [|c [|c1 [|c2 [|c3 [|]]]]] eqn:EC; try discriminate K.
  cbn [map firstn] in K, B. injection K as K0 K1 K2 K3. injection B as B. unfold ex_client in *.
  eexists c, _. split; [reflexivity|]. split; [exact K0|]. split; [reflexivity|].
  assert (O : forall j cj q rs, j <> 0 -> nth_error (conns s) j = Some cj -> client_sends true cj = Connect q :: rs ->
    (j = 1 /\ client_id q = str "t" /\ rs = ex_wish "b" "a/+" ++ [Publish (ex_message "z" "y"); Disconnect])
    \/ (client_id q = str "t" /\ rs = ex_wish "c" "#") \/ (client_id q = str "u" /\ rs = [])).
  { intros j cj q rs Nj Hj Hq. rewrite EC in Hj. destruct j as [|[|[|[|j]]]]; cbn [nth_error] in Hj; [congruence|..|destruct j; discriminate];
      injection Hj as <-.
    - rewrite K1 in Hq. injection Hq as <- <-. auto.
    - rewrite K2 in Hq. injection Hq as <- <-. auto.
    - rewrite K3 in Hq. injection Hq as <- <-. auto. }
  split; [|split; [|split; [exact B|vm_compute; reflexivity]]].
  - split; [discriminate|]. intros j cj q rs Nj Hj Hq. destruct (O j cj q rs Nj Hj Hq) as [(_ & -> & _)|[(-> & _)|(-> & _)]]; split; discriminate.
  - intros j cj q rs m f Nj Hj Hq Hin (i & ss & x & Hss & Hx & ->).
    assert (F : sub_topic x = str "b" \/ sub_topic x = str "a/+").
    { cbn in Hss. repeat (destruct Hss as [Hss|Hss]; [first [discriminate Hss|injection Hss as _ <-; destruct Hx as [<-|[]]; auto]|]). destruct Hss. }
    assert (M : m = ex_message "z" "y").
    { destruct (O j cj q rs Nj Hj Hq) as [(_ & _ & ->)|[(_ & ->)|(_ & ->)]]; cbn in Hin;
        repeat (destruct Hin as [Hin|Hin]; [first [discriminate Hin|injection Hin as <-; reflexivity]|]); destruct Hin. }
    rewrite M. destruct F as [-> | ->]; vm_compute; reflexivity.
Qed.

(** Two clients that have only just been accepted: the first subscribes and publishes to itself, the second publishes to
    another topic. Whatever the schedule, the first gets what it would get alone. *)
Definition ex_pair : list (list ControlPacket) :=
  [ex_client "s" None None :: ex_busy; [ex_client "t" None None; Publish (ex_message "z" "y")]].

Definition ex_arrived : sys :=
  drive ex_deny true (sys_init 1) (map (fun ps => LAccept (ex_peer ps PeerOpen) (ex_socket []) 1) ex_pair).

Example C108_run_case :
  reachable ex_deny true 1 ex_arrived /\ all_behave ex_deny true ex_arrived /\ unblocked ex_arrived /\ ctrl_c ex_arrived = false
  /\ exists c p, nth_error (conns ex_arrived) 0 = Some c /\ client_sends true c = Connect p :: ex_busy
       /\ unheard true ex_arrived 0 ex_busy /\ broker_sent c = [] /\ alone ex_deny p ex_busy = ex_seen.
Proof.
  assert (K : map (client_sends true) (conns ex_arrived) = ex_pair) by (vm_compute; reflexivity).
  assert (B : map broker_sent (conns ex_arrived) = [[]; []]) by (vm_compute; reflexivity).
  assert (W : map (fun c => wacts (c_wsock c)) (conns ex_arrived) = [[]; []]) by (vm_compute; reflexivity).
  split; [apply drive_reachable|].
  assert (C : ctrl_c ex_arrived = false) by (vm_compute; reflexivity).
  generalize dependent ex_arrived. intros s K B W C.
  assert (N : forall k c, nth_error (conns s) k = Some c -> nth_error ex_pair k = Some (client_sends true c)).
  { intros k c Hk. rewrite <- K, nth_error_map, Hk. reflexivity. }
  split; [|split; [|split; [exact C|]]].
  - split.
    + intros k c Hk. apply N in Hk. destruct k as [|[|k]]; cbn [nth_error ex_pair] in Hk; [..|destruct k; discriminate]; injection Hk as <-;
        (split; [discriminate|]; split; [exact I|]); intros a b E2 Hin;
        (assert (H : In Disconnect (a ++ Disconnect :: b)) by (apply in_or_app; right; now left)); rewrite <- E2 in H; cbn in H; intuition discriminate.
    + intros j k cj ck p q ps qs Hj Hk Hp Hq Ei. apply N in Hj, Hk. rewrite Hp in Hj. rewrite Hq in Hk.
      destruct j as [|[|j]]; cbn [nth_error ex_pair] in Hj; [..|destruct j; discriminate]; injection Hj as <- _;
      (destruct k as [|[|k]]; cbn [nth_error ex_pair] in Hk; [..|destruct k; discriminate]; injection Hk as <- _); try reflexivity; discriminate Ei.
  - intros k c Hk. assert (E : nth_error [[]; []] k = Some (wacts (c_wsock c))) by (rewrite <- W, nth_error_map, Hk; reflexivity).
    unfold blocks. destruct k as [|[|k]]; cbn [nth_error] in E; [..|destruct k; discriminate]; injection E as <-; intros [].
  - destruct (conns s) as [|c [|c1 [|]]] eqn:EC; try discriminate K. cbn [map] in K, B. injection K as K0 K1. injection B as B _.
    eexists c, _. split; [reflexivity|]. split; [exact K0|]. split; [|split; [exact B|vm_compute; reflexivity]].
    intros j cj q rs m f Nj Hj Hq Hin (i & ss & x & Hss & Hx & ->). rewrite EC in Hj.
    destruct j as [|[|j]]; cbn [nth_error] in Hj; [congruence| |destruct j; discriminate]. injection Hj as <-. rewrite K1 in Hq. injection Hq as _ <-.
    assert (F : sub_topic x = str "b" \/ sub_topic x = str "a/+").
    { cbn in Hss. repeat (destruct Hss as [Hss|Hss]; [first [discriminate Hss|injection Hss as _ <-; destruct Hx as [<-|[]]; auto]|]). destruct Hss. }
    destruct Hin as [Hin|[]]. injection Hin as <-. destruct F as [-> | ->]; vm_compute; reflexivity.
Qed.
