(** The handler's history: what it did is what [handle_all] does. *)
From Verif Require Import Base Base_facts Packets HashMap Messaging Handler Decoder ReadStream Conn
  Encoder WriteStream Spec_broker Handler_facts System System_facts.

Definition out (x : option conn * conn * ServerEvent) : conn * ServerEvent := (snd (fst x), snd x).

(** The handler is processing, or panicked while processing, [te], the last event of the history:
    [done] was sent before that happened, [r] is what remained. *)
Definition midway auth (s : sys) h te m0 l0 m done r o : Prop :=
  handled s = h ++ [te] /\ handle_all auth MessagingService_new h = (m0, l0, Finished)
  /\ handle auth m0 te = (m, done ++ r, o) /\ map out (log s) = l0 ++ done.

Definition hist_inv auth (s : sys) : Prop :=
  match hdl s with
  | HIdle | HStopped => handle_all auth MessagingService_new (handled s) = (svc s, map out (log s), Finished)
  | HBusy tx p =>
    exists h te m0 l0 m done r o, midway auth s h te m0 l0 m done r o
      /\ event_tx (snd te) = tx /\ exec p (svc s) = (m, r, o)
  | HPanicked => exists h te m0 l0 m done r o, midway auth s h te m0 l0 m done r o
  end.

Theorem hist_invariant auth dbg n s : reachable auth dbg n s -> hist_inv auth s.
Proof.
  apply (reachable_trans_ind auth dbg n (hist_inv auth)); [reflexivity|].
  clear s. intros s s' _ HI T. destruct T; try exact HI.
  - (* event *)
    unfold hist_inv in *. rewrite H in HI. cbn [hdl set_hdl].
    destruct (handle auth (svc s) (now, e)) as [[m l] o] eqn:EH.
    exists (handled s), (now, e), (svc s), (map out (log s)), m, [], l, o.
    unfold midway. cbn [handled set_hdl set_handled set_events log app snd]. rewrite app_nil_r.
    repeat split; auto.
  - (* done *)
    unfold hist_inv in *. rewrite H in HI. cbn [hdl set_hdl svc log handled].
    destruct HI as (h & te & m0 & l0 & m & done & r & o & (Hh & Ha & He & Hl) & _ & Hx).
    cbn [exec] in Hx. injection Hx as <- <- <-.
    rewrite Hh, handle_all_snoc, Ha, He, Hl, app_nil_r. reflexivity.
  - (* panic *)
    unfold hist_inv in *. rewrite H in HI. cbn [hdl set_hdl set_events panic_handler].
    destruct HI as (h & te & m0 & l0 & m & done & r & o & HM & _). exists h, te, m0, l0, m, done, r, o. exact HM.
  - (* call *)
    unfold hist_inv in *. rewrite H in HI. cbn [hdl set_hdl].
    destruct HI as (h & te & m0 & l0 & m & done & r & o & HM & Ht & Hx).
    exists h, te, m0, l0, m, done, r, o. split; [exact HM|]. split; [exact Ht|].
    cbn [svc set_hdl set_svc]. cbn [exec] in Hx. destruct (serve (svc s) op) as [m' r']. exact Hx.
  - (* send *)
    unfold hist_inv in *. rewrite H in HI. cbn [hdl set_hdl].
    destruct HI as (h & te & m0 & l0 & m & done & r & o & (Hh & Ha & He & Hl) & Ht & Hx).
    cbn [exec] in Hx. destruct (exec p (svc s)) as [[m' r'] o'] eqn:EX. injection Hx as <- <- <-.
    exists h, te, m0, l0, m', (done ++ [(to, e)]), r', o'. unfold midway.
    cbn [handled log svc set_hdl set_log set_conn set_conns]. split; [|split; [exact Ht|exact EX]].
    split; [exact Hh|]. split; [exact Ha|]. split; [rewrite <- app_assoc; exact He|].
    rewrite map_app, Hl, app_assoc. reflexivity.
  - (* send to a closed connection *)
    unfold hist_inv in *. rewrite H in HI. cbn [hdl set_hdl set_events panic_handler].
    destruct HI as (h & te & m0 & l0 & m & done & r & o & HM & _). exists h, te, m0, l0, m, done, r, o. exact HM.
  - (* stop *)
    unfold hist_inv in *. rewrite H in HI. exact HI.
Qed.

(** In every case the log is a prefix of what handling the whole history sends. *)
Corollary log_prefix auth dbg n s : reachable auth dbg n s ->
  exists m l o r, handle_all auth MessagingService_new (handled s) = (m, l, o) /\ l = map out (log s) ++ r.
Proof.
  intros HR. pose proof (hist_invariant auth dbg n s HR) as HI. unfold hist_inv in HI.
  assert (K : forall h te m0 l0 m done r o, midway auth s h te m0 l0 m done r o ->
    exists m l o r, handle_all auth MessagingService_new (handled s) = (m, l, o) /\ l = map out (log s) ++ r).
  { intros h te m0 l0 m done r o (Hh & Ha & He & Hl). exists m, (l0 ++ done ++ r), o, r.
    rewrite Hh, handle_all_snoc, Ha, He, Hl. split; [reflexivity|]. now rewrite app_assoc. }
  destruct (hdl s) as [|tx p| |].
  - exists (svc s), (map out (log s)), Finished, []. now rewrite app_nil_r.
  - destruct HI as (h & te & m0 & l0 & m & done & r & o & HM & _). eapply K; exact HM.
  - destruct HI as (h & te & m0 & l0 & m & done & r & o & HM). eapply K; exact HM.
  - exists (svc s), (map out (log s)), Finished, []. now rewrite app_nil_r.
Qed.

(** ** Who may be sent what *)

Definition is_connack (e : ServerEvent) : bool := match e with ServerPacket (ConnAck _) => true | _ => false end.

Lemma handle_publish_source auth m te k q : In (k, ServerPacket (Publish q)) (snd (fst (handle auth m te))) ->
  exists cid k0, snd te = ClientPacket cid (Publish q) k0.
Proof.
  destruct te as [now e]. cbn [snd]. destruct e as [c a k0|cid p k0|cid|cid]; intros Hin.
  - destruct (connect_cases auth c) as [A|[A|(u & H1 & H2)]].
    + rewrite (handle_accepted auth m now c a k0 A) in Hin. destruct Hin as [[=]|[]].
    + rewrite (handle_rejected auth m now c a k0 A) in Hin. destruct Hin as [[=]|[[=]|[]]].
    + rewrite (handle_no_password auth m now c a k0 u H1 H2) in Hin. destruct Hin.
  - destruct p; try (exfalso; exact Hin).
    + rewrite handle_publish in Hin. cbn [fst snd] in Hin. apply in_map_iff in Hin.
      destruct Hin as (r & [= _ <-] & _). eauto.
    + rewrite handle_subscribe in Hin. destruct Hin as [[=]|[]].
    + rewrite handle_unsubscribe in Hin. destruct Hin as [[=]|[]].
    + rewrite handle_ping in Hin. destruct Hin as [E|[]]. destruct (session_exists m cid); discriminate.
  - destruct Hin.
  - destruct Hin.
Qed.

(** ** In order, with repetitions and omissions *)

(** [in_order l src]: [l] lists elements of [src], each possibly several times or not at all, in the
    order in which they are in [src]. *)
Inductive in_order {A} : list A -> list A -> Prop :=
| InNil src : in_order [] src
| InSkip l x src : in_order l src -> in_order l (x :: src)
| InCopy l x src : in_order l (x :: src) -> in_order (x :: l) (x :: src).

Lemma in_order_more {A} (l src : list A) more : in_order l src -> in_order l (src ++ more).
Proof. induction 1; cbn [app]; constructor; assumption. Qed.

Lemma in_order_last {A} (l src : list A) x : in_order l (src ++ [x]) -> in_order (l ++ [x]) (src ++ [x]).
Proof.
  remember (src ++ [x]) as t eqn:E. intros H. revert src E. induction H as [t|l y t H IH|l y t H IH]; intros src E; subst.
  - induction src as [|y src IH]; cbn [app]; [apply InCopy, InNil|apply InSkip, IH].
  - destruct src as [|z src]; cbn [app] in E; injection E as -> ->.
    + (* l in order of [] *) inversion H; subst. cbn [app]. apply InCopy, InNil.
    + apply InSkip. exact (IH src eq_refl).
  - cbn [app]. rewrite E in *. destruct src as [|z src]; cbn [app] in E; injection E as -> ->.
    + apply InCopy. exact (IH [] eq_refl).
    + apply InCopy. exact (IH (z :: src) eq_refl).
Qed.

Lemma in_order_prefix {A} (l l2 src : list A) : in_order (l ++ l2) src -> in_order l src.
Proof.
  remember (l ++ l2) as t eqn:E. intros H. revert l E. induction H as [src|t x src H IH|t x src H IH]; intros l E; subst.
  - destruct l; [|discriminate]. constructor.
  - apply InSkip. now apply IH.
  - destruct l as [|y l]; [constructor|]. cbn [app] in E. injection E as <- E. apply InCopy. now apply IH.
Qed.

(** The publishes of connection [k] among some events, in order. *)
Definition publishes_from (k : conn) (es : list ClientEvent) : list PublishPacket :=
  flat_map (fun e => match e with
                     | ClientPacket _ (Publish q) k' => if Nat.eqb k k' then [q] else []
                     | _ => []
                     end) es.

(** The messages sent to [dst] because of events of [src]. *)
Definition relayed (src dst : conn) (l : list (option conn * conn * ServerEvent)) : list PublishPacket :=
  flat_map (fun x => match x with
                     | (Some k, d, ServerPacket (Publish q)) =>
                       if Nat.eqb src k && Nat.eqb dst d then [q] else []
                     | _ => []
                     end) l.

Theorem order_invariant auth dbg n s src dst : reachable auth dbg n s ->
  in_order (relayed src dst (log s)) (publishes_from src (map snd (handled s))).
Proof.
  intros HR. revert s HR.
  apply (reachable_trans_ind auth dbg n
    (fun s => in_order (relayed src dst (log s)) (publishes_from src (map snd (handled s))))).
  - constructor.
  - intros s s' HR HI T. destruct T; try exact HI.
    + cbn [log handled set_hdl set_handled set_events]. rewrite map_app. unfold publishes_from.
      rewrite flat_map_app. now apply in_order_more.
    + cbn [log handled set_hdl set_log set_conn set_conns]. unfold relayed. rewrite flat_map_app. cbn [flat_map].
      rewrite app_nil_r. pose proof (hist_invariant auth dbg n s HR) as HH. unfold hist_inv in HH. rewrite H in HH.
      destruct HH as (h & te & m0 & l0 & m & done & r & o & (Hh & Ha & He & Hl) & Ht & Hx).
      cbn [exec] in Hx. destruct (exec p (svc s)) as [[m' r'] o']. injection Hx as <- <- <-.
      destruct tx as [k|]; [|rewrite app_nil_r; exact HI].
      destruct e as [q|]; [|rewrite app_nil_r; exact HI]. destruct q; try (rewrite app_nil_r; exact HI).
      destruct (Nat.eqb_spec src k) as [->|_]; [|rewrite app_nil_r; exact HI].
      destruct (Nat.eqb_spec dst to) as [->|_]; [|rewrite app_nil_r; exact HI]. cbn [andb].
      destruct (handle_publish_source auth m0 te to p0) as (cid & k0 & E).
      { rewrite He. cbn [fst snd]. apply in_or_app. right. now left. }
      rewrite E in Ht. cbn [event_tx] in Ht. injection Ht as ->.
      rewrite Hh, map_app in HI |- *. unfold publishes_from in *. rewrite flat_map_app in HI |- *.
      cbn [map flat_map] in HI |- *. rewrite E, Nat.eqb_refl, app_nil_r in HI |- *.
      now apply in_order_last.
Qed.

(** Every message sent is one that was handled. *)
Theorem relayed_source auth dbg n s src dst q : reachable auth dbg n s ->
  In (src, dst, ServerPacket (Publish q)) (log s) ->
  exists t cid k, In (t, ClientPacket cid (Publish q) k) (handled s) /\ src = Some k.
Proof.
  intros HR. revert s HR.
  apply (reachable_trans_ind auth dbg n
    (fun s => In (src, dst, ServerPacket (Publish q)) (log s) ->
              exists t cid k, In (t, ClientPacket cid (Publish q) k) (handled s) /\ src = Some k)).
  - intros [].
  - intros s s' HR HI T. destruct T; try exact HI.
    + intros Hin. destruct (HI Hin) as (t & cid & k & Hh & E). exists t, cid, k. split; [|exact E].
      apply in_or_app. now left.
    + cbn [log handled set_hdl set_log set_conn set_conns]. intros Hin. apply in_app_or in Hin.
      destruct Hin as [Hin|[[= -> -> ->]|[]]]; [now apply HI|].
      pose proof (hist_invariant auth dbg n s HR) as HH. unfold hist_inv in HH. rewrite H in HH.
      destruct HH as (h & te & m0 & l0 & m & done & r & o & (Hh & Ha & He & Hl) & Ht & Hx).
      cbn [exec] in Hx. destruct (exec p (svc s)) as [[m' r'] o']. injection Hx as <- <- <-.
      destruct (handle_publish_source auth m0 te dst q) as (cid & k0 & E).
      { rewrite He. cbn [fst snd]. apply in_or_app. right. now left. }
      destruct te as [t e]. cbn [snd] in E, Ht. subst e. cbn [event_tx] in Ht. subst src.
      exists t, cid, k0. split; [|reflexivity]. rewrite Hh. apply in_or_app. right. now left.
Qed.
