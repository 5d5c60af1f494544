(** Property C99: how deep the broker recurses. *)
From Verif Require Import Base Base_facts Packets HashMap Subscriptions Messaging Handler Decoder ReadStream ReadStream_facts
  Plain_facts Conn Conn_facts Encoder Encoder_facts WriteStream WriteStream_facts Spec_wire Spec_subs Spec_broker Spec_ref
  Subscriptions_facts Handler_facts System System_facts
  System_hist System_conn System_queue System_first System_progress System_exit System_rest
  Prop_subs Prop_stream Prop_broker Prop_system Prop_rest Prop_mqtt Prop_ref Prop_stop Prop_any Spec_utf8 Stack.
Open Scope nat_scope.

(** ** The tree *)

(** The longest way down, in nodes. *)
Fixpoint height (n : SubscriptionNode) : nat :=
  match n with Node ch _ => Datatypes.S (list_max (map (fun x => height (snd x)) ch)) end.

Lemma remove_client_on_spec room c : forall n,
  remove_client_on room c n = if height n <=? room then Some (remove_client c n) else None.
Proof.
  induction room as [|room IH]; intros [ch cl]; cbn [remove_client_on height]; [reflexivity|].
  match goal with |- match ?f ch with _ => _ end = _ => set (all := f) end.
  assert (K : all ch = if list_max (map (fun x => height (snd x)) ch) <=? room then Some (hm_map (remove_client c) ch) else None).
  { induction ch as [|[k x] ch IHc]; [reflexivity|]. cbn [map list_max fold_right snd].
    change (all ((k, x) :: ch)) with (match remove_client_on room c x, all ch with Some c', Some ch'' => Some ((k, c') :: ch'') | _, _ => None end).
    rewrite IH, IHc. fold (list_max (map (fun x => height (snd x)) ch)).
    destruct (Nat.leb_spec (height x) room), (Nat.leb_spec (list_max (map (fun x => height (snd x)) ch)) room),
      (Nat.leb_spec (Nat.max (height x) (list_max (map (fun x => height (snd x)) ch))) room); try lia; reflexivity. }
  rewrite K. cbn [Nat.leb remove_client]. destruct (list_max _ <=? room); reflexivity.
Qed.

Lemma list_max_insert k v (ch : hmap SubscriptionNode) : (forall w, hm_get k ch = Some w -> height w <= height v) ->
  list_max (map (fun x => height (snd x)) (hm_insert k v ch)) = Nat.max (list_max (map (fun x => height (snd x)) ch)) (height v).
Proof.
  induction ch as [|[a x] ch IH]; intros H; cbn [hm_insert hm_get map snd list_max fold_right] in *; [lia|].
  destruct (bytes_eqb k a); cbn [map snd list_max fold_right].
  - specialize (H x eq_refl). fold (list_max (map (fun x => height (snd x)) ch)). lia.
  - fold (list_max (map (fun x => height (snd x)) ch)) (list_max (map (fun x => height (snd x)) (hm_insert k v ch))).
    rewrite (IH H). lia.
Qed.

Lemma list_max_in (ch : hmap SubscriptionNode) k w : hm_get k ch = Some w -> height w <= list_max (map (fun x => height (snd x)) ch).
Proof.
  induction ch as [|[a x] ch IH]; cbn [hm_get map snd list_max fold_right]; [discriminate|].
  fold (list_max (map (fun x => height (snd x)) ch)). destruct (bytes_eqb k a); [intros [= ->]; lia|]. intros H. specialize (IH H). lia.
Qed.

Lemma height_update f : forall segs n, height (update_node f segs n) = Nat.max (height n) (Datatypes.S (length segs)).
Proof.
  induction segs as [|s segs IH]; intros [ch cl]; cbn [update_node children clients height length]; [lia|].
  set (child := match hm_get s ch with Some c => c | None => SubscriptionNode_new end).
  rewrite list_max_insert.
  - rewrite IH. unfold child. destruct (hm_get s ch) as [w|] eqn:E; [apply list_max_in in E|cbn [height SubscriptionNode_new map list_max fold_right]]; lia.
  - intros w E. rewrite IH. unfold child. rewrite E. lia.
Qed.

Lemma height_remove c : forall n, height (remove_client c n) = height n.
Proof.
  fix IH 1. intros [ch cl]. cbn [remove_client height]. f_equal. unfold hm_map. rewrite map_map. cbn [snd].
  induction ch as [|[k x] ch IHc]; [reflexivity|]. cbn [map list_max fold_right snd]. rewrite IH.
  fold (list_max (map (fun x => height (remove_client c (snd x))) ch)) (list_max (map (fun x => height (snd x)) ch)). now rewrite IHc.
Qed.

(** How many levels a filter has. *)
Definition level_count (f : bytes) : nat := Datatypes.S (slashes f).

Lemma height_unsubscribe c fs : forall n, height (unsubscribe n c fs) = Nat.max (height n) (list_max (map (fun f => Datatypes.S (level_count f)) fs)).
Proof.
  unfold unsubscribe. induction fs as [|f fs IH]; intros n; cbn [fold_left map list_max fold_right]; [lia|].
  rewrite IH, height_update, split_length. fold (list_max (map (fun f => Datatypes.S (level_count f)) fs)). unfold level_count. lia.
Qed.

(** The filters an event names. *)
Definition named (e : ClientEvent) : list bytes :=
  match e with
  | ClientPacket _ (Subscribe _ subs) _ => map sub_topic subs
  | ClientPacket _ (Unsubscribe _ fs) _ => fs
  | _ => []
  end.

Lemma list_max_succ (l : list nat) : Nat.max 1 (list_max (map Datatypes.S l)) = Datatypes.S (list_max l).
Proof.
  induction l as [|x l IH]; [reflexivity|]. cbn [map list_max fold_right].
  fold (list_max (map Datatypes.S l)) (list_max l). lia.
Qed.

Lemma height_requests r : forall n, height (fold_left apply_request r n)
  = Nat.max (height n) (list_max (map (fun f => Datatypes.S (level_count f)) (flat_map mentioned r))).
Proof.
  induction r as [|x r IH]; intros n; cbn [fold_left flat_map]; [cbn; lia|].
  rewrite IH, map_app, list_max_app. enough (E : height (apply_request n x) = Nat.max (height n) (list_max (map (fun f => Datatypes.S (level_count f)) (mentioned x)))) by (rewrite E; lia).
  destruct x as [c f|c fs|c]; cbn [apply_request mentioned map].
  - unfold subscribe. cbn [fst sub_topic list_max fold_right]. rewrite height_update, split_length. unfold level_count. lia.
  - apply height_unsubscribe.
  - unfold disconnected. rewrite height_remove. cbn. lia.
Qed.

Lemma mentioned_named h : flat_map mentioned (requests h) = flat_map named (map snd h).
Proof.
  induction h as [|[t e] h IH]; [reflexivity|]. cbn [requests flat_map map snd]. rewrite flat_map_app. fold (requests h). rewrite IH. f_equal.
  destruct e as [c a k|cid p k|cid|cid]; cbn [requests_of snd named]; try reflexivity.
  destruct p; try reflexivity; cbn; rewrite ?app_nil_r; try reflexivity.
  match goal with |- flat_map _ (map _ ?l) = _ => induction l as [|x l IHl]; [reflexivity|]; cbn; now rewrite IHl end.
Qed.

(** The tree is as high as the longest filter anybody ever named. *)
Theorem C99_height auth h m : after auth h m ->
  height (subscriptions m) = Datatypes.S (list_max (map level_count (flat_map named (map snd h)))).
Proof.
  intros Ha. rewrite (after_subs auth h m Ha). unfold repo_after. rewrite height_requests, mentioned_named.
  rewrite <- list_max_succ, map_map. reflexivity.
Qed.

(** ** The broker *)

(** Somebody named a filter of [room] levels or more. *)
Definition too_deep (room : nat) (es : list ClientEvent) : Prop :=
  exists e f, In e es /\ In f (named e) /\ room <= level_count f.

Lemma too_deep_height room auth h m : 1 <= room -> after auth h m -> (room < height (subscriptions m) <-> too_deep room (map snd h)).
Proof.
  intros HR Ha. rewrite (C99_height auth h m Ha). set (l := flat_map named (map snd h)). split.
  - intros H. destruct (Exists_dec (fun f => room <= level_count f) l) as [D|D].
    + intros f. destruct (le_dec room (level_count f)); [now left|now right].
    + apply Exists_exists in D. destruct D as (f & Hf & Hl). apply in_flat_map in Hf. destruct Hf as (e & He & Hf). exists e, f. auto.
    + exfalso. assert (K : list_max (map level_count l) <= room - 1); [|lia]. apply list_max_le. apply Forall_map.
      apply Forall_Exists_neg in D. eapply Forall_impl; [|exact D]. cbn. intros. lia.
  - intros (e & f & He & Hf & Hl). assert (K : In f l) by (apply in_flat_map; eauto).
    enough (level_count f <= list_max (map level_count l)) by lia. clear - K. induction l as [|x l IH]; [destruct K|].
    cbn [map list_max fold_right]. fold (list_max (map level_count l)). destruct K as [->|K]; [lia|]. specialize (IH K). lia.
Qed.

Definition removal_op {R} (op : MessagingOperation R) : bool :=
  match op with ConnectionLostOp _ | ConnectionDisconnected _ => true | _ => false end.

(** A program that removes nobody, and one that only removes somebody. *)
Fixpoint mild (p : prog) : Prop :=
  match p with
  | Done | Panic => True
  | Call op k => removal_op op = false /\ forall r, mild (k r)
  | Send _ _ k => mild k
  end.

Definition removing (p : prog) : Prop :=
  match p with Call op k => removal_op op = true /\ forall r, k r = Done | _ => False end.

Definition is_removal (e : ClientEvent) : Prop :=
  match e with ClientPacket _ Disconnect _ | ConnectionLost _ => True | _ => False end.

Lemma mild_subscribe cid subs : forall codes k, (forall c, mild (k c)) -> mild (subscribe_all cid subs codes k).
Proof. induction subs as [|x subs IH]; intros codes k H; cbn; [apply H|]. split; [reflexivity|]. intros r. now apply IH. Qed.

Lemma mild_send e : forall l, mild (send_to_all l e).
Proof. induction l; cbn; auto. Qed.

Lemma event_program auth now e : mild (on_event auth now e) /\ ~ is_removal e \/ removing (on_event auth now e) /\ is_removal e.
Proof.
  destruct e as [c a k|cid p k|cid|cid]; cbn [on_event is_removal].
  - left. split; [|intros []]. unfold on_connect. destruct (user_name c) as [u|]; [destruct (password c) as [pw|]; [destruct (auth u pw)|]|]; cbn; auto;
      (split; [reflexivity|intros [x|]]); cbn; auto.
  - destruct p; cbn [on_packet]; try (left; split; [cbn; auto|intros []]; fail).
    + left. split; [|intros []]. cbn. split; [reflexivity|]. intros r. apply mild_send.
    + left. split; [|intros []]. apply mild_subscribe. intros r. exact I.
    + left. split; [|intros []]. cbn. split; [reflexivity|]. intros r. destruct r; cbn; auto.
    + right. split; [cbn; auto|exact I].
  - left. split; [exact I|intros []].
  - right. split; [cbn; auto|exact I].
Qed.

(** What the handler is busy with. *)
Definition busy_ok auth (s : sys) : Prop :=
  match hdl s with
  | HBusy _ p =>
    mild p /\ (p = Done \/ exists h te, handled s = h ++ [te] /\ ~ is_removal (snd te))
    \/ removing p /\ exists h te, handled s = h ++ [te] /\ is_removal (snd te) /\ after auth h (svc s)
  | _ => True
  end.

Lemma busy_invariant auth dbg n s : reachable auth dbg n s -> busy_ok auth s.
Proof.
  apply (reachable_trans_ind auth dbg n (busy_ok auth)); [exact I|].
  clear s. intros s s' HR HI T. destruct T; try exact HI; try exact I.
  - unfold busy_ok. cbn [hdl set_hdl handled set_handled set_events svc].
    destruct (event_program auth now e) as [(H1 & H2)|(H1 & H2)].
    + left. split; [exact H1|]. right. exists (handled s), (now, e). auto.
    + right. split; [exact H1|]. exists (handled s), (now, e). split; [reflexivity|]. split; [exact H2|].
      pose proof (hist_invariant auth dbg n s HR) as K. unfold hist_inv in K. rewrite H in K. eexists. exact K.
  - unfold busy_ok in *. rewrite H in HI. cbn [hdl set_hdl]. cbn [handled set_hdl set_svc].
    destruct HI as [((_ & HM) & HI)|((_ & HM) & _)].
    + left. split; [apply HM|]. destruct HI as [HI|HI]; [discriminate HI|now right].
    + left. rewrite HM. split; [exact I|now left].
  - unfold busy_ok in *. rewrite H in HI. cbn [hdl set_hdl handled set_log set_conn set_conns].
    destruct HI as [(HM & HI)|(HM & _)]; [|destruct HM]. left. split; [exact HM|]. destruct HI as [HI|HI]; [discriminate HI|now right].
Qed.

Lemma serve_on_spec R room m (op : MessagingOperation R) :
  serve_on room m op = if removal_op op && (room <? height (subscriptions m)) then None else Some (serve m op).
Proof.
  assert (K : forall c, removal room m c = if room <? height (subscriptions m) then None else Some (disconnect m c)).
  { intros c. unfold removal. rewrite remove_client_on_spec.
    destruct (Nat.leb_spec (height (subscriptions m)) room), (Nat.ltb_spec room (height (subscriptions m))); try lia; reflexivity. }
  destruct op; cbn [serve_on removal_op andb]; try reflexivity; apply K.
Qed.

(** The next step of the handler needs more stack than there is. *)
Definition overflows (room : nat) (s : sys) (l : label) : bool :=
  match l, hdl s with
  | LHandler _, HBusy _ (Call op _) => running s && (removal_op op && (room <? height (subscriptions (svc s))))
  | _, _ => false
  end.

Lemma sstep_spec auth dbg room s l : sstep auth dbg room s l =
  if aborted s then None
  else if overflows room (score s) l then Some {| score := score s; aborted := true |}
  else match step auth dbg (score s) l with Some s' => Some {| score := s'; aborted := false |} | None => None end.
Proof.
  unfold sstep, overflows. destruct (aborted s); [reflexivity|].
  destruct l as [r w a|k uuid|k|now| | | | |]; try reflexivity.
  destruct (hdl (score s)) as [|tx p| |] eqn:EH; try reflexivity. destruct p as [| |R op f|to e p]; try reflexivity.
  rewrite serve_on_spec. unfold step, step_handler. rewrite EH. destruct (running (score s)); [|reflexivity]. cbn [andb].
  destruct (removal_op op && _); [reflexivity|]. destruct (serve (svc (score s)) op). reflexivity.
Qed.

Lemma sreachable_ind auth dbg room n (P : ssys -> Prop) : P (sinit n) ->
  (forall s l s', sreachable auth dbg room n s -> P s -> sstep auth dbg room s l = Some s' -> P s') ->
  forall s, sreachable auth dbg room n s -> P s.
Proof.
  intros H0 HS s (ls & H).
  assert (SN : forall ls s0 s1 l, ssteps auth dbg room s0 ls = Some s1 -> ssteps auth dbg room s0 (ls ++ [l]) = sstep auth dbg room s1 l).
  { clear. induction ls as [|x ls IH]; intros s0 s1 l; cbn.
    - intros [= ->]. now destruct (sstep auth dbg room s1 l).
    - destruct (sstep auth dbg room s0 x) as [s2|]; [apply IH|discriminate]. }
  revert s H. induction ls as [|l ls IH] using rev_ind; intros s H; [injection H as <-; exact H0|].
  assert (E : exists s1, ssteps auth dbg room (sinit n) ls = Some s1).
  { clear - H. revert H. generalize (sinit n). induction ls as [|x ls IH]; intros s0; cbn; [eauto|].
    destruct (sstep auth dbg room s0 x); [apply IH|discriminate]. }
  destruct E as (s1 & E). rewrite (SN _ _ _ _ E) in H. apply (HS s1 l s); [now exists ls|now apply IH|exact H].
Qed.

(** The same broker, as long as it lives. *)
Theorem C99_same_broker auth dbg room n s : sreachable auth dbg room n s -> reachable auth dbg n (score s).
Proof.
  apply (sreachable_ind auth dbg room n (fun s => reachable auth dbg n (score s))); [apply reachable_init|].
  intros s0 l s' _ HR H. rewrite sstep_spec in H. destruct (aborted s0); [discriminate|]. destruct (overflows room (score s0) l); [injection H as <-; exact HR|].
  destruct (step auth dbg (score s0) l) as [s1|] eqn:E; [|discriminate]. injection H as <-. exact (reachable_step _ _ _ _ _ _ HR E).
Qed.

(** When it dies: at a DISCONNECT, after somebody named a filter of too many levels. *)
Theorem C99_aborts auth dbg room n s : 1 <= room -> sreachable auth dbg room n s -> aborted s = true ->
  exists h now cid k, handled (score s) = h ++ [(now, ClientPacket cid Disconnect k)] /\ too_deep room (map snd h).
Proof.
  intros HRm. revert s. apply (sreachable_ind auth dbg room n (fun s => aborted s = true ->
    exists h now cid k, handled (score s) = h ++ [(now, ClientPacket cid Disconnect k)] /\ too_deep room (map snd h))); [discriminate|].
  intros s0 l s' HS _ H. rewrite sstep_spec in H. destruct (aborted s0); [discriminate|].
  destruct (overflows room (score s0) l) eqn:EO.
  - injection H as <-. intros _. cbn [score]. unfold overflows in EO. destruct l; try discriminate.
    destruct (hdl (score s0)) as [|tx p| |] eqn:EH; try discriminate. destruct p as [| |R op f|]; try discriminate.
    apply andb_true_iff in EO. destruct EO as (_ & EO). apply andb_true_iff in EO. destruct EO as (E1 & E2). apply Nat.ltb_lt in E2.
    pose proof (C99_same_broker _ _ _ _ _ HS) as HR. pose proof (busy_invariant _ _ _ _ HR) as HB. unfold busy_ok in HB. rewrite EH in HB.
    destruct HB as [((K & _) & _)|(_ & h & te & Hh & Hr & Ha)]; [congruence|].
    destruct (only_client_events auth dbg n (score s0) (snd te) HR) as (k & Hk).
    { rewrite Hh, map_app. apply in_or_app. left. apply in_or_app. right. now left. }
    destruct te as [t e]. cbn [snd] in *. destruct e as [c a k'|cid p k'|cid|cid]; cbn in Hr, Hk; try (exfalso; exact Hr); try discriminate.
    destruct p; try (exfalso; exact Hr). exists h, t, cid, k'. split; [exact Hh|]. now apply (too_deep_height room auth h _ HRm Ha).
  - destruct (step auth dbg (score s0) l); [|discriminate]. injection H as <-. discriminate.
Qed.

Lemma other_steps auth dbg s l s' : step auth dbg s l = Some s' -> (forall now, l <> LHandler now) ->
  handled s' = handled s /\ (hdl s' = hdl s \/ hdl s = HIdle).
Proof.
  intros H HN. unfold step in H. destruct (running s); [|discriminate]. destruct l as [r w a|k uuid|k|now| | | | |]; try (exfalso; exact (HN now eq_refl)).
  - destruct (listeners s); [discriminate|]. injection H as <-. auto.
  - unfold step_reader in H. destruct (nth_error (conns s) k) as [c|]; [|discriminate]. destruct (c_reader c); try discriminate.
    + destruct (stream_read_packet dbg rs) as [p| | | | |]; try discriminate; [destruct p|..]; injection H as <-; auto.
    + destruct (handler_alive (hdl s)); [destruct (length (events s) <? channel_size); [|discriminate]|]; injection H as <-; auto.
    + destruct (stream_read_packet dbg rs) as [p| | | | |]; try discriminate; injection H as <-; auto.
  - unfold step_writer in H. destruct (nth_error (conns s) k) as [c|]; [|discriminate]. destruct (c_writer c) as [ws|p ws|ws]; [|destruct (write_packet p ws)|]; try discriminate;
      try (injection H as <-; auto; fail).
    destruct (c_queue c) as [|[from [p|]] q]; [destruct (has_sender s k c); [discriminate|]|..]; injection H as <-; auto.
  - destruct (hdl s) eqn:E; try discriminate. destruct (ctrl_c s); [|discriminate]. injection H as <-. auto.
  - destruct (listeners s); [discriminate|]. destruct (ctrl_c s); [|discriminate]. injection H as <-. auto.
  - destruct (service_running s && _); [|discriminate]. injection H as <-. auto.
  - destruct (main s); try discriminate. destruct (handler_alive (hdl s) || _); injection H as <-; auto.
  - unfold step_main in H. destruct (main s); try discriminate.
    + destruct (Nat.eqb (listeners s) 0); [|discriminate]. injection H as <-. auto.
    + destruct (service_running s); [discriminate|]. injection H as <-. auto.
    + destruct (hdl s) eqn:E; try discriminate; injection H as <-; auto.
Qed.

Lemma snoc_split {A} (l : list A) x h te rest : l ++ [x] = h ++ te :: rest ->
  rest = [] /\ l = h /\ x = te \/ exists rest', rest = rest' ++ [x] /\ l = h ++ te :: rest'.
Proof.
  intros E. destruct rest as [|y rest] using rev_ind.
  - apply app_inj_tail in E. destruct E as (-> & ->). left. auto.
  - right. clear IHrest. rewrite app_comm_cons, app_assoc in E. apply app_inj_tail in E. destruct E as (-> & ->). eauto.
Qed.

(** And it dies every time: a DISCONNECT after such a filter is never finished. *)
Theorem C99_never_passes auth dbg room n s : 1 <= room -> sreachable auth dbg room n s ->
  forall h te rest, handled (score s) = h ++ te :: rest -> is_removal (snd te) -> too_deep room (map snd h) ->
  rest = [] /\ exists tx p, hdl (score s) = HBusy tx p /\ removing p.
Proof.
  intros HRm. revert s. apply (sreachable_ind auth dbg room n (fun s =>
    forall h te rest, handled (score s) = h ++ te :: rest -> is_removal (snd te) -> too_deep room (map snd h) ->
    rest = [] /\ exists tx p, hdl (score s) = HBusy tx p /\ removing p)).
  { intros h te rest E. destruct h; discriminate. }
  intros s0 l s' HS HI H. rewrite sstep_spec in H. destruct (aborted s0); [discriminate|].
  destruct (overflows room (score s0) l) eqn:EO; [injection H as <-; exact HI|].
  destruct (step auth dbg (score s0) l) as [s1|] eqn:E; [|discriminate]. injection H as <-. cbn [score].
  pose proof (C99_same_broker _ _ _ _ _ HS) as HR.
  assert (D : (exists now, l = LHandler now) \/ forall now, l <> LHandler now) by (destruct l; try (right; discriminate); left; eauto).
  destruct D as [(now & ->)|D].
  - unfold step in E. destruct (running (score s0)) eqn:ER; [|discriminate]. unfold step_handler in E. unfold overflows in EO.
    destruct (hdl (score s0)) as [|tx p| |] eqn:EH; try discriminate.
    + destruct (events (score s0)) as [|e es]; [discriminate|]. injection E as <-. cbn [handled hdl set_hdl set_handled set_events].
      intros h te rest Eh Hr Hd. apply snoc_split in Eh. destruct Eh as [(-> & <- & <-)|(rest' & -> & Eh)].
      * split; [reflexivity|]. exists (event_tx e), (on_event auth now e). split; [reflexivity|].
        destruct (event_program auth now e) as [(_ & K)|(K & _)]; [destruct (K Hr)|exact K].
      * destruct (HI h te rest' Eh Hr Hd) as (_ & tx & p & K & _). discriminate K.
    + intros h te rest.
      assert (ST : forall h te rest, handled (score s0) = h ++ te :: rest -> is_removal (snd te) -> too_deep room (map snd h) -> rest = [] /\ removing p).
      { intros h1 te1 rest1 Q1 Q2 Q3. destruct (HI h1 te1 rest1 Q1 Q2 Q3) as (Q4 & tx' & p' & [= <- <-] & Q6). auto. }
      destruct p as [| |R op f|to e p].
      * injection E as <-. cbn [handled hdl set_hdl]. intros Eh Hr Hd. destruct (ST h te rest Eh Hr Hd) as (_ & []).
      * injection E as <-. cbn [handled hdl panic_handler set_hdl set_events]. intros Eh Hr Hd. destruct (ST h te rest Eh Hr Hd) as (_ & []).
      * destruct (serve (svc (score s0)) op) as [m r]. injection E as <-. cbn [handled hdl set_hdl set_svc]. intros Eh Hr Hd. exfalso.
        destruct (ST h te rest Eh Hr Hd) as (-> & (E1 & _)). rewrite ER, E1 in EO. cbn [andb] in EO. apply Nat.ltb_ge in EO.
        pose proof (busy_invariant _ _ _ _ HR) as HB. unfold busy_ok in HB. rewrite EH in HB.
        destruct HB as [((K & _) & _)|(_ & h' & te' & Hh & _ & Ha)]; [congruence|].
        rewrite Eh in Hh. apply app_inj_tail in Hh. destruct Hh as (<- & _). apply (too_deep_height room auth h _ HRm Ha) in Hd. lia.
      * destruct (nth_error (conns (score s0)) to) as [c|]; [|discriminate].
        assert (HD : handled s1 = handled (score s0)).
        { destruct (c_writer c); try (destruct (length (c_queue c) <? channel_size); [|discriminate]); injection E as <-; reflexivity. }
        rewrite HD. intros Eh Hr Hd. destruct (ST h te rest Eh Hr Hd) as (_ & []).
  - destruct (other_steps _ _ _ _ _ E D) as (E1 & E2). rewrite E1. intros h te rest Eh Hr Hd.
    destruct (HI h te rest Eh Hr Hd) as (K1 & tx & p & K2 & K3). split; [exact K1|]. exists tx, p. split; [|exact K3].
    destruct E2 as [E2|E2]; [now rewrite E2|congruence].
Qed.

(** ** Which orders are possible now *)

(** A DISCONNECT after a filter of too many levels. *)
Definition deadly (room : nat) (es : list ClientEvent) : Prop :=
  exists h e rest, es = h ++ e :: rest /\ is_removal e /\ too_deep room h.

Lemma handled_more auth dbg s l s' : step auth dbg s l = Some s' -> exists m, handled s' = handled s ++ m.
Proof.
  intros H. destruct l; try (destruct (other_steps _ _ _ _ _ H) as (-> & _); [discriminate|exists []; now rewrite app_nil_r]).
  unfold step in H. destruct (running s); [|discriminate]. unfold step_handler in H.
  destruct (hdl s) as [|tx p| |]; try discriminate.
  - destruct (events s); [discriminate|]. injection H as <-. eexists. reflexivity.
  - exists []. rewrite app_nil_r. destruct p as [| |R op f|to e p]; try (injection H as <-; reflexivity).
    + destruct (serve (svc s) op). injection H as <-. reflexivity.
    + destruct (nth_error (conns s) to) as [c|]; [|discriminate].
      destruct (c_writer c); try (destruct (length (c_queue c) <? channel_size); [|discriminate]); injection H as <-; reflexivity.
Qed.

Lemma handled_runs auth dbg ls : forall s s', steps auth dbg s ls = Some s' -> exists m, handled s' = handled s ++ m.
Proof.
  induction ls as [|l ls IH]; cbn [steps]; intros s s' H; [injection H as <-; exists []; now rewrite app_nil_r|].
  destruct (step auth dbg s l) as [s1|] eqn:E; [|discriminate]. destruct (handled_more _ _ _ _ _ E) as (m1 & E1).
  destruct (IH _ _ H) as (m2 & ->). exists (m1 ++ m2). now rewrite E1, app_assoc.
Qed.

(** A run of the broker of [System] is a run here, or gets as far as the abort. *)
Lemma follow auth dbg room ls : forall s s', steps auth dbg s ls = Some s' ->
  ssteps auth dbg room {| score := s; aborted := false |} ls = Some {| score := s'; aborted := false |}
  \/ exists ls1 s1 m, ssteps auth dbg room {| score := s; aborted := false |} ls1 = Some {| score := s1; aborted := true |}
       /\ handled s' = handled s1 ++ m.
Proof.
  induction ls as [|l ls IH]; cbn [steps]; intros s s' H; [injection H as <-; now left|].
  destruct (step auth dbg s l) as [s1|] eqn:E; [|discriminate].
  destruct (overflows room s l) eqn:EO.
  - right. destruct (handled_more _ _ _ _ _ E) as (m1 & E1). destruct (handled_runs _ _ _ _ _ H) as (m2 & E2).
    exists [l], s, (m1 ++ m2). split; [|now rewrite E2, E1, app_assoc].
    cbn [ssteps]. rewrite sstep_spec. cbn [aborted score]. now rewrite EO.
  - assert (ES : sstep auth dbg room {| score := s; aborted := false |} l = Some {| score := s1; aborted := false |}).
    { rewrite sstep_spec. cbn [aborted score]. now rewrite EO, E. }
    destruct (IH s1 s' H) as [K|(ls1 & s2 & m & K & Em)].
    + left. cbn [ssteps]. now rewrite ES.
    + right. exists (l :: ls1), s2, m. split; [|exact Em]. cbn [ssteps]. now rewrite ES.
Qed.

Lemma quiet_idle auth dbg n s : quiet auth dbg n s -> hdl s = HIdle.
Proof.
  intros (HR & HS & HB & HA). destruct (C87_rest auth dbg n s HR HS) as [H|j c _ Hj Hb|H _ _]; [congruence| |exact H].
  destruct (HB j c Hj Hb).
Qed.

Lemma survived auth dbg room n s : 1 <= room -> sreachable auth dbg room n s -> hdl (score s) = HIdle ->
  ~ deadly room (map snd (handled (score s))).
Proof.
  intros HRm HS HI (h & e & rest & E & Hr & Hd). apply map_eq_app in E. destruct E as (h' & r' & E & <- & E2).
  destruct r' as [|te r']; [discriminate|]. injection E2 as <- <-.
  destruct (C99_never_passes auth dbg room n s HRm HS h' te r' E Hr Hd) as (_ & tx & p & K & _). congruence.
Qed.

Lemma died auth dbg room n s : 1 <= room -> sreachable auth dbg room n s -> aborted s = true -> deadly room (map snd (handled (score s))).
Proof.
  intros HRm HS HA. destruct (C99_aborts auth dbg room n s HRm HS HA) as (h & now & cid & k & E & Hd).
  exists (map snd h), (ClientPacket cid Disconnect k), []. rewrite E, map_app. repeat split; assumption.
Qed.

Lemma deadly_more room es m : deadly room es -> deadly room (es ++ m).
Proof. intros (h & e & rest & -> & H). exists h, e, (rest ++ m). now rewrite <- app_assoc. Qed.

(** The orders of C92 that the broker survives are those without such a DISCONNECT. *)
Theorem C99_possible_orders auth dbg room n ps es : 1 <= room -> n <> 0 -> (forall r w a, In (r, w, a) ps -> ~ blocks w) ->
  (exists s, sreachable auth dbg room n s /\ aborted s = false /\ quiet auth dbg n (score s) /\ peers (score s) = ps
     /\ map snd (handled (score s)) = es)
  <-> interleaving dbg ps es /\ fits auth es /\ ~ deadly room es.
Proof.
  intros HRm Hn HB. split.
  - intros (s & HS & HA & HQ & Hp & <-).
    assert (K : interleaving dbg ps (map snd (handled (score s))) /\ fits auth (map snd (handled (score s)))).
    { apply (C92_possible_orders auth dbg n ps); auto. exists (score s). auto. }
    split; [apply K|]. split; [apply K|].
    apply (survived auth dbg room n s HRm HS). exact (quiet_idle _ _ _ _ HQ).
  - intros (HI & HF & HD). destruct (proj2 (C92_possible_orders auth dbg n ps es Hn HB) (conj HI HF)) as (s & HQ & Hp & He).
    destruct HQ as ((ls & HR) & HQ). destruct (follow auth dbg room ls _ _ HR) as [K|(ls1 & s1 & m & K & Em)].
    + exists {| score := s; aborted := false |}. split; [now exists ls|]. split; [reflexivity|].
      split; [split; [now exists ls|exact HQ]|]. auto.
    + exfalso. apply HD. rewrite <- He, Em, map_app. apply deadly_more.
      apply (died auth dbg room n {| score := s1; aborted := true |} HRm); [now exists ls1|reflexivity].
Qed.

(** In the others it dies on the way. *)
Theorem C99_takes_down auth dbg room n ps es : 1 <= room -> n <> 0 -> (forall r w a, In (r, w, a) ps -> ~ blocks w) ->
  interleaving dbg ps es -> fits auth es -> deadly room es ->
  exists s more, sreachable auth dbg room n s /\ aborted s = true /\ es = map snd (handled (score s)) ++ more.
Proof.
  intros HRm Hn HB HI HF HD. destruct (proj2 (C92_possible_orders auth dbg n ps es Hn HB) (conj HI HF)) as (s & HQ & Hp & He).
  pose proof (quiet_idle _ _ _ _ HQ) as HH. destruct HQ as ((ls & HR) & _).
  destruct (follow auth dbg room ls _ _ HR) as [K|(ls1 & s1 & m & K & Em)].
  - exfalso. apply (survived auth dbg room n {| score := s; aborted := false |} HRm); [now exists ls|exact HH|].
    cbn [score]. now rewrite He.
  - exists {| score := s1; aborted := true |}, (map snd m). split; [now exists ls1|]. split; [reflexivity|].
    cbn [score]. now rewrite <- He, Em, map_app.
Qed.

(** ** One client is enough *)

Inductive sinevitably auth dbg room (P : ssys -> Prop) (s : ssys) : Prop :=
| SInevitably : ((forall l, internal l -> sstep auth dbg room s l = None) -> P s) ->
    (forall l s', internal l -> sstep auth dbg room s l = Some s' -> sinevitably auth dbg room P s') ->
    sinevitably auth dbg room P s.

(** A client names a filter of [room] levels or more and then disconnects: whatever else goes on, the broker's
    process is killed, or the broker had stopped serving anybody already. *)
Theorem C99_one_client auth dbg room n s k c p q1 q2 q3 q f : 1 <= room ->
  sreachable auth dbg room n s -> nth_error (conns (score s)) k = Some c ->
  client_sends dbg c = Connect p :: q1 ++ q :: q2 ++ Disconnect :: q3 ->
  match q with Subscribe _ subs => In f (map sub_topic subs) | Unsubscribe _ fs => In f fs | _ => False end ->
  room <= level_count f ->
  sinevitably auth dbg room (fun s' => aborted s' = true \/ out_of_service auth dbg (score s')) s.
Proof.
  intros HRm HS Hk HC Hq Hf. pose proof (dies_out auth dbg n (score s) (C99_same_broker _ _ _ _ _ HS)) as HA.
  assert (G : forall x, Acc (next_state auth dbg) x -> forall s c, score s = x -> sreachable auth dbg room n s ->
    nth_error (conns (score s)) k = Some c -> client_sends dbg c = Connect p :: q1 ++ q :: q2 ++ Disconnect :: q3 ->
    sinevitably auth dbg room (fun s' => aborted s' = true \/ out_of_service auth dbg (score s')) s);
    [|exact (G (score s) HA s c eq_refl HS Hk HC)].
  clear s c HS Hk HC HA. intros x HA. induction HA as [x _ IH]. intros s c <- HS Hk HC.
  pose proof (C99_same_broker _ _ _ _ _ HS) as HR.
  constructor.
  - intros HN. destruct (aborted s) eqn:EA; [now left|]. right.
    assert (HT : at_rest auth dbg (score s)).
    { intros l Hl. specialize (HN l Hl). rewrite sstep_spec, EA in HN. destruct (overflows room (score s) l); [discriminate|].
      destruct (step auth dbg (score s) l); [discriminate|reflexivity]. }
    destruct (C87_rest auth dbg n (score s) HR HT) as [H|j cj H _ _|Hh _ Hs]; [now apply ended_out|now apply stuck_out|exfalso].
    destruct (Hs k c Hk) as ((cid & _ & HI) & _). unfold client_sends in HI, HC. rewrite HC in HI. cbn [issued] in HI.
    apply (survived auth dbg room n s HRm HS Hh).
    rewrite map_app in HI. cbn [map] in HI. rewrite map_app in HI. cbn [map] in HI. clear - HI Hq Hf.
    revert HI. generalize (map snd (handled (score s))). intros es HI.
    destruct (events_of_split _ _ _ _ HI) as (e1 & e2 & -> & H2). clear HI.
    assert (SP : forall l e l' es, events_of k es = l ++ e :: l' -> exists es1 es2, es = es1 ++ e :: es2 /\ events_of k es2 = l').
    { clear. induction l as [|x l IH]; cbn [app]; intros e l' es H; [exact (events_of_split _ _ _ _ H)|].
      destruct (events_of_split _ _ _ _ H) as (a & b & -> & H2). destruct (IH _ _ _ H2) as (a' & b' & -> & H3).
      exists (a ++ x :: a'), b'. split; [|exact H3]. now rewrite <- app_assoc. }
    destruct (SP _ _ _ _ H2) as (e3 & e4 & -> & H4). destruct (SP _ _ _ _ H4) as (e5 & e6 & -> & _).
    match goal with |- deadly room (e1 ++ ?x :: e3 ++ ?y :: e5 ++ ?z :: e6) =>
      exists (e1 ++ x :: e3 ++ y :: e5), z, e6 end.
    split; [repeat (rewrite <- app_assoc; cbn [app]); reflexivity|]. split; [exact I|].
    exists (ClientPacket cid q k), f. split; [|split; [|exact Hf]].
    + apply in_or_app. right. right. apply in_or_app. right. now left.
    + destruct q; try (exfalso; exact Hq); exact Hq.
  - intros l s' Hl Hs.
    assert (HS' : sreachable auth dbg room n s').
    { destruct HS as (ls & HS). exists (ls ++ [l]). revert HS Hs. clear. generalize (sinit n). induction ls as [|y ls IH]; cbn; intros s0.
      - intros [= ->] ->. reflexivity.
      - destruct (sstep auth dbg room s0 y); [apply IH|discriminate]. }
    rewrite sstep_spec in Hs. destruct (aborted s) eqn:EA; [discriminate|]. destruct (overflows room (score s) l).
    + injection Hs as <-. constructor; [now left|]. intros l2 s2 _ H2. rewrite sstep_spec in H2. discriminate.
    + destruct (step auth dbg (score s) l) as [s1|] eqn:E; [|discriminate]. injection Hs as <-.
      destruct (peer_stays auth dbg (score s) l s1 k c Hl E Hk) as (c' & Hk' & E1 & E2).
      apply (IH s1) with (c := c'); auto.
      * exists l. split; [destruct l; try exact I; destruct Hl|exact E].
      * unfold client_sends. rewrite E1. exact HC.
Qed.

(** ** How much room is enough *)

Lemma slashes_length f : slashes f <= length f.
Proof. unfold slashes. induction f as [|b f IH]; cbn [count_occ length]; [lia|]. destruct (Byte.byte_eq_dec b slash); lia. Qed.

(** The filters a packet names. *)
Definition names (p : ControlPacket) (f : bytes) : Prop :=
  match p with Subscribe _ subs => exists s, In s subs /\ sub_topic s = f | Unsubscribe _ fs => In f fs | _ => False end.

Lemma ok_filter p f : packet_ok p -> names p f -> (N.of_nat (level_count f) <= 65536)%N.
Proof.
  intros Hok HN. assert (K : text f).
  { destruct p; try (exfalso; exact HN); cbn [names packet_ok] in *; destruct Hok as (_ & _ & HF); rewrite Forall_forall in HF.
    - destruct HN as (s & Hs & <-). now apply HF.
    - now apply HF. }
  destruct K as (_ & K). unfold fits16, lenN in K. pose proof (slashes_length f). unfold level_count. lia.
Qed.

(** No packet names a filter of more than 65536 levels, so that 65537 nested calls are always enough. *)
Theorem C99_never auth dbg room n s : (65536 < N.of_nat room)%N -> sreachable auth dbg room n s -> aborted s = false.
Proof.
  intros HRm HS. destruct (aborted s) eqn:EA; [exfalso|reflexivity].
  destruct (C99_aborts auth dbg room n s ltac:(lia) HS EA) as (h & now & cid & k & Eh & e & f & He & Hf & Hl).
  apply in_map_iff in He. destruct He as ((t & e') & <- & Hin). cbn [snd] in Hf.
  destruct e' as [c a j|c p j|c|c]; try (exfalso; exact Hf).
  pose proof (handled_ok auth dbg n (score s) t c p j (C99_same_broker _ _ _ _ _ HS)) as K.
  rewrite Eh in K. specialize (K ltac:(apply in_or_app; now left)). destruct p; try (exfalso; exact Hf); cbn [named] in Hf.
  - apply in_map_iff in Hf. destruct Hf as (x & E & Hx). assert (N.of_nat (level_count f) <= 65536)%N by (eapply ok_filter; [exact K|cbn; eauto]). lia.
  - assert (N.of_nat (level_count f) <= 65536)%N by (eapply ok_filter; [exact K|exact Hf]). lia.
Qed.

Lemma slashes_text m : is_utf8 (repeat slash m).
Proof.
  exists (repeat 47%N m). induction m as [|m (IH1 & IH2)]; [split; [constructor|reflexivity]|].
  split; [constructor; [left; reflexivity|exact IH1]|]. cbn [repeat flat_map]. rewrite <- IH2. reflexivity.
Qed.

Lemma slashes_repeat m : slashes (repeat slash m) = m.
Proof.
  unfold slashes. induction m as [|m IH]; [reflexivity|]. cbn [repeat count_occ].
  destruct (Byte.byte_eq_dec slash slash); [now f_equal|congruence].
Qed.

Lemma deep_packet m : N.of_nat m = 65535%N -> receivable (Unsubscribe 1 [repeat slash m]).
Proof.
  intros Hm. pose proof (slashes_text m) as HU. assert (HL : lenN (repeat slash m) = 65535%N) by (unfold lenN; now rewrite repeat_length).
  generalize dependent (repeat slash m). intros f HU HL.
  exists 162%N, [x83; x80; x04], 65539%N, (packet_body (Unsubscribe 1 [f])). split; [|split; [cbn; lia|]].
  - change 65539%N with (b2n x83 - 128 + 128 * (b2n x80 - 128 + 128 * b2n x04))%N. repeat constructor; cbn; lia.
  - split; [|split; [reflexivity|split; [reflexivity|]]].
    + split; [reflexivity|]. split; [discriminate|]. constructor; [|constructor]. split; [exact HU|]. unfold fits16. rewrite HL. reflexivity.
    + cbn [packet_body flat_map]. rewrite app_nil_r, lenN_app, lenN_field, HL. reflexivity.
Qed.

(** And there is a packet with a filter of 65536 levels. *)
Theorem C99_limit : exists p f, receivable p /\ names p f /\ N.of_nat (level_count f) = 65536%N.
Proof.
  destruct (ex_intro (fun m => N.of_nat m = 65535%N) (N.to_nat 65535) (N2Nat.id _)) as (m & Hm).
  exists (Unsubscribe 1 [repeat slash m]), (repeat slash m). split; [exact (deep_packet m Hm)|]. split; [now left|].
  unfold level_count. rewrite slashes_repeat, Nat2N.inj_succ, Hm. reflexivity.
Qed.

Definition sdrive auth dbg room (s : ssys) (ls : list label) : ssys :=
  fold_left (fun s l => match sstep auth dbg room s l with Some s' => s' | None => s end) ls s.

Lemma sdrive_reachable auth dbg room n ls : sreachable auth dbg room n (sdrive auth dbg room (sinit n) ls).
Proof.
  assert (G : forall ls s, sreachable auth dbg room n s -> sreachable auth dbg room n (sdrive auth dbg room s ls)).
  { clear ls. induction ls as [|l ls IH]; intros s HS; [exact HS|]. cbn [sdrive fold_left]. apply IH.
    destruct (sstep auth dbg room s l) as [s'|] eqn:E; [|exact HS]. destruct HS as (ls' & HS). exists (ls' ++ [l]).
    revert HS E. clear. generalize (sinit n). induction ls' as [|y ls IH]; cbn; intros s0.
    - intros [= ->] ->. reflexivity.
    - destruct (sstep auth dbg room s0 y); [apply IH|discriminate]. }
  apply G. exists []. reflexivity.
Qed.

(** A subscriber, and somebody who unsubscribes from a filter of 100 levels and leaves. *)
Definition ex_deep : list label :=
  [LAccept (ex_peer [ex_client "s" None None; Subscribe 1 [{| sub_topic := str "a"; sub_qos := AtMostOnce |}]] PeerOpen) (ex_socket []) 1]
  ++ ex_rounds 20 [0]
  ++ [LAccept (ex_peer [ex_client "z" None None; Unsubscribe 1 [repeat slash 99]; Disconnect] PeerOpen) (ex_socket []) 2]
  ++ ex_rounds 40 [0; 1].

Example C99_case :
  (let s := sdrive ex_deny true 100 (sinit 1) ex_deep in
   sreachable ex_deny true 100 1 s /\ aborted s = true /\ length (handled (score s)) = 5 /\ level_count (repeat slash 99) = 100)
  /\ (let s := sdrive ex_deny true 101 (sinit 1) ex_deep in
      sreachable ex_deny true 101 1 s /\ aborted s = false /\ length (handled (score s)) = 5 /\ hdl (score s) = HIdle
      /\ height (subscriptions (svc (score s))) = 101).
Proof.
  split; (split; [apply sdrive_reachable|]).
  - repeat split; vm_compute; reflexivity.
  - repeat split; vm_compute; reflexivity.
Qed.
