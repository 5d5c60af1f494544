(** Property C139: an address that cannot be bound, and the depth of the tree. *)
From Verif Require Import Base Base_facts Packets HashMap Subscriptions Messaging Handler Decoder ReadStream ReadStream_facts
  Plain_facts Conn Conn_facts Encoder Encoder_facts WriteStream WriteStream_facts Spec_wire Spec_subs Spec_broker Spec_ref
  Subscriptions_facts Handler_facts System System_facts
  System_hist System_conn System_queue System_first System_progress System_exit System_rest
  Prop_subs Prop_stream Prop_broker Prop_system Prop_rest Prop_mqtt Prop_ref Prop_stop Prop_any Prop_exit Spec_utf8 Stack Prop_stack Drop Prop_drop
  Pool Prop_pool Startup Prop_start Teardown Prop_end Abort Prop_abort Burst.
Open Scope nat_scope.

(** ** What is true of the threads, whatever has been dropped *)

Lemma serve_height R (op : MessagingOperation R) m : height (subscriptions m) <= height (subscriptions (fst (serve m op)))
  /\ (removal_op op = true -> height (subscriptions (fst (serve m op))) = height (subscriptions m)).
Proof.
  destruct op; cbn [removal_op]; (split; [|try discriminate]); cbn [serve fst]; try apply le_n.
  - unfold connection_lost, disconnect, connections_lost, disconnected. cbn [fst subscriptions]. rewrite height_remove. apply le_n.
  - intros _. unfold connection_lost, disconnect, connections_lost, disconnected. cbn [fst subscriptions]. apply height_remove.
  - unfold connection_lost, disconnect, connections_lost, disconnected. cbn [fst subscriptions]. rewrite height_remove. apply le_n.
  - intros _. unfold connection_lost, disconnect, connections_lost, disconnected. cbn [fst subscriptions]. apply height_remove.
  - cbn [subscribe fst subscriptions]. rewrite height_update. lia.
  - cbn [fst subscriptions]. rewrite height_unsubscribe. lia.
Qed.

Lemma exec_height p : forall m, height (subscriptions m) <= height (subscriptions (fst (fst (exec p m)))).
Proof.
  induction p as [| |R op f IH|to e p IH]; intros m; cbn [exec]; try apply le_n.
  - destruct (serve_height R op m) as (H & _). destruct (serve m op) as [m1 r]. cbn [fst] in H. specialize (IH r m1). lia.
  - specialize (IH m). destruct (exec p m) as [[m1 l] o]. exact IH.
Qed.

Lemma trans_height auth dbg s s' : trans auth dbg s s' -> height (subscriptions (svc s)) <= height (subscriptions (svc s')).
Proof. intros T. destruct T; try apply le_n. apply (proj1 (serve_height R op (svc s))). Qed.

Lemma named_height_more h te : named_height h <= named_height (h ++ [te]).
Proof. rewrite named_height_snoc. lia. Qed.

Lemma starts_base auth dbg w adr (P : sys -> Prop) : P (sys_init 0) ->
  (forall s s', P s -> trans auth dbg s s' -> P s') -> (forall s t s', P s -> drop_task s t = Some s' -> P s') ->
  (forall s, P s -> P (panic_handler s)) -> (forall s m, P s -> P (set_main m s)) ->
  (forall s n, P s -> P (set_listeners n s)) -> (forall s, P s -> P (set_ctrl_c true s)) ->
  forall b, starts auth dbg w adr b -> P (base (threads b)).
Proof.
  intros H0 HT HD HP HM HL HC. apply (starts_ind auth dbg w adr (fun b => P (base (threads b)))); [exact H0|].
  intros b l b' _ HI E. destruct (astep_cases _ _ _ _ _ _ E) as [x rest _ _ _ ->|x rest _ _ _ ->|_ _ ->|l' HE _ _]; cbn [set_base base]; auto.
  destruct (end_step_cases _ _ _ _ _ _ HE) as [l0 HQ|l0 s Hr Hw Hl Hs Hm Eb Es|now Hr Hw Ha Hv Eb Es|k c Hr Hw Hni Hk Hh Eb Es|t Hr Hw Ht Ed Es].
  - destruct (pool_step_cases _ _ _ _ _ _ HQ) as [(l1 & -> & Hs & _ & _)|(k & c & _ & -> & _)]; [|exact HI].
    eapply HT; [exact HI|]. eapply step_trans; eauto.
  - rewrite Eb. apply HM. eapply HT; [|eapply step_trans; exact Hs]. now apply HM.
  - rewrite Eb. now apply HP.
  - now rewrite Eb.
  - eapply HD; eauto.
Qed.

(** The tree is not higher than the filters named so far account for; before a removal, not higher than those of the
    events before it. *)
Definition stack_inv (s : sys) : Prop :=
  match hdl s with
  | HBusy _ p =>
    mild p /\ height (subscriptions (fst (fst (exec p (svc s))))) <= named_height (handled s)
    \/ removing p /\ exists h te, handled s = h ++ [te] /\ is_removal (snd te) /\ height (subscriptions (svc s)) <= named_height h
  | _ => height (subscriptions (svc s)) <= named_height (handled s)
  end.

Lemma stack_inv_bound s : stack_inv s -> height (subscriptions (svc s)) <= named_height (handled s).
Proof.
  unfold stack_inv. destruct (hdl s) as [|tx p| |]; auto. intros [(_ & H)|(_ & h & te & -> & _ & H)].
  - pose proof (exec_height p (svc s)). lia.
  - pose proof (named_height_more h te). lia.
Qed.

Lemma stack_inv_trans auth dbg s s' : stack_inv s -> trans auth dbg s s' -> stack_inv s'.
Proof.
  intros HI T. pose proof (stack_inv_bound s HI) as HB. destruct T; try exact HI; try exact HB; unfold stack_inv in *; cbn [hdl set_hdl]; rewrite H in HI.
  - cbn [handled svc set_hdl set_handled set_events]. destruct (event_program auth now e) as [(H1 & _)|(H1 & H2)].
    + left. split; [exact H1|]. pose proof (handle_subs auth (svc s) (now, e)) as HS. unfold handle in HS. cbn [fst snd] in HS.
      destruct (exec (on_event auth now e) (svc s)) as [[m l] o]. cbn [fst]. rewrite HS, height_requests, mentioned_one, named_height_snoc. lia.
    + right. split; [exact H1|]. exists (handled s), (now, e). auto.
  - cbn [handled svc set_hdl set_svc]. left. destruct HI as [((_ & H1) & H2)|((H0 & H1) & h & te & Eh & _ & H2)].
    + split; [apply H1|]. cbn [exec] in H2. destruct (serve (svc s) op) as [m r]. exact H2.
    + rewrite H1. split; [exact I|]. cbn [exec fst]. rewrite (proj2 (serve_height R op (svc s)) H0). exact HB.
  - cbn [handled svc set_hdl set_log set_conn set_conns]. destruct HI as [(K1 & K2)|(K1 & _)]; [|destruct K1].
    left. split; [exact K1|]. cbn [exec] in K2. destruct (exec p (svc s)) as [[m l] o]. exact K2.
Qed.

Lemma stack_invariant auth dbg w adr b : starts auth dbg w adr b -> stack_inv (base (threads b)).
Proof.
  revert b. apply starts_base; try (intros; assumption); [vm_compute; apply le_n|exact (stack_inv_trans auth dbg)| |].
  - intros s t s' HI E. pose proof (stack_inv_bound s HI) as HB. unfold drop_task in E. destruct t as [k|k| | |].
    + destruct (nth_error (conns s) k) as [c|]; [|discriminate]. destruct (c_reader c); try discriminate; injection E as <-; exact HI.
    + destruct (nth_error (conns s) k) as [c|]; [|discriminate]. destruct (c_writer c); try discriminate; injection E as <-; exact HI.
    + destruct (handler_alive (hdl s)); [|discriminate]. injection E as <-. exact HB.
    + destruct (listeners s); [discriminate|]. injection E as <-. exact HI.
    + destruct (service_running s); [|discriminate]. injection E as <-. exact HI.
  - intros s HI. exact (stack_inv_bound s HI).
Qed.

(** Packets within their limits, wherever they are. *)
Definition sound (e : ClientEvent) : Prop := match e with ClientPacket _ p _ => packet_ok p | _ => True end.

Definition sound_inv dbg (s : sys) : Prop :=
  each (fun _ => on_track dbg) s
  /\ each (fun _ c => match c_reader c with RPush e _ _ => sound e | _ => True end) s
  /\ Forall sound (events s) /\ Forall sound (map snd (handled s)).

Lemma sound_read dbg rs p rs' : wf rs -> stream_read_packet dbg rs = ROk p rs' -> packet_ok p.
Proof.
  intros W E. assert (HR : reads dbg rs ([] ++ [p]) rs') by (econstructor; [constructor|exact E]).
  apply (reads_ok dbg _ _ _ W) in HR. cbn [app] in HR. apply Forall_inv in HR. apply HR.
Qed.

Lemma sound_trans auth dbg s s' : sound_inv dbg s -> trans auth dbg s s' -> sound_inv dbg s'.
Proof.
  intros (HT & HP & HE & HH) T. pose proof (on_track_trans auth dbg s s' T HT) as HT'. unfold sound_inv. split; [exact HT'|].
  assert (U : forall k c c', nth_error (conns s) k = Some c ->
    match c_reader c' with RPush e _ _ => sound e | _ => True end ->
    each (fun _ c => match c_reader c with RPush e _ _ => sound e | _ => True end) (set_conn k c' s)).
  { intros k c c' Hk H1. now apply each_update. }
  assert (V : forall k c, nth_error (conns s) k = Some c -> match c_reader c with RPush e _ _ => sound e | _ => True end) by exact HP.
  destruct T; try (split; [exact HP|now split]);
    try (split; [eapply U; [eassumption|]; try exact I; exact (V _ _ ltac:(eassumption))|now split]).
  - split; [|now split]. intros k c. cbn [conns set_conns]. rewrite nth_error_snoc. destruct (Nat.eqb k _); [|apply HP]. intros [= <-]. exact I.
  - split; [eapply U; [eassumption|exact I]|]. split; [|exact HH]. apply Forall_app. split; [exact HE|]. constructor; [|constructor].
    specialize (V k c H). now rewrite H0 in V.
  - split; [|now split]. eapply U; [eassumption|]. cbn. pose proof (HT k c H) as K. unfold on_track in K. rewrite H0 in K.
    destruct K as (W & _). eapply sound_read; eauto.
  - split; [exact HP|]. cbn [events handled set_hdl set_handled set_events]. rewrite H0 in HE. split; [exact (Forall_inv_tail HE)|].
    rewrite map_app. apply Forall_app. split; [exact HH|]. constructor; [exact (Forall_inv HE)|constructor].
  - split; [exact HP|]. split; [constructor|exact HH].
  - split; [exact HP|]. split; [constructor|exact HH].
  - split; [exact HP|]. split; [constructor|exact HH].
Qed.

Lemma sound_invariant auth dbg w adr b : starts auth dbg w adr b -> sound_inv dbg (base (threads b)).
Proof.
  revert b. apply starts_base; try (intros; assumption).
  - split; [intros [|k] c; discriminate|]. split; [intros [|k] c; discriminate|]. split; constructor.
  - exact (sound_trans auth dbg).
  - intros s t s' (HT & HP & HE & HH) E. split; [|split].
    + intros k c' Hk'. destruct (nth_error (conns s) k) as [c|] eqn:Hk.
      * destruct (drop_conns _ _ _ _ _ E Hk) as (c1 & H1 & H2 & _ & H3). assert (c1 = c') as -> by congruence.
        unfold on_track. destruct H3 as [H3|(H3 & _)]; rewrite H3; [|exact I]. rewrite H2. exact (HT k c Hk).
      * exfalso. apply nth_error_None in Hk. rewrite <- (drop_length _ _ _ E) in Hk. apply nth_error_None in Hk. congruence.
    + intros k c' Hk'. destruct (nth_error (conns s) k) as [c|] eqn:Hk.
      * destruct (drop_conns _ _ _ _ _ E Hk) as (c1 & H1 & H2 & _ & H3). assert (c1 = c') as -> by congruence.
        destruct H3 as [H3|(H3 & _)]; rewrite H3; [|exact I]. exact (HP k c Hk).
      * exfalso. apply nth_error_None in Hk. rewrite <- (drop_length _ _ _ E) in Hk. apply nth_error_None in Hk. congruence.
    + unfold drop_task in E. destruct t as [k|k| | |].
      * destruct (nth_error (conns s) k) as [c|]; [|discriminate]. destruct (c_reader c); try discriminate; injection E as <-; now split.
      * destruct (nth_error (conns s) k) as [c|]; [|discriminate]. destruct (c_writer c); try discriminate; injection E as <-; now split.
      * destruct (handler_alive (hdl s)); [|discriminate]. injection E as <-. split; [constructor|exact HH].
      * destruct (listeners s); [discriminate|]. injection E as <-. now split.
      * destruct (service_running s); [|discriminate]. injection E as <-. now split.
  - intros s (HT & HP & HE & HH). split; [exact HT|]. split; [exact HP|]. split; [constructor|exact HH].
Qed.

(** ** C139 *)

Definition fstarts auth dbg w room droom adr f := exists ls, fsteps auth dbg w room droom {| fstart := starting_init adr; killed := false |} ls = Some f.

Lemma fsteps_app auth dbg w room droom ls1 : forall f ls2, fsteps auth dbg w room droom f (ls1 ++ ls2)
  = match fsteps auth dbg w room droom f ls1 with Some f' => fsteps auth dbg w room droom f' ls2 | None => None end.
Proof.
  induction ls1 as [|l ls1 IH]; intros f ls2; cbn [app fsteps]; [reflexivity|].
  destruct (fstep auth dbg w room droom f l); [apply IH|reflexivity].
Qed.

Lemma fstarts_ind auth dbg w room droom adr (P : fsys -> Prop) : P {| fstart := starting_init adr; killed := false |} ->
  (forall f l f', fstarts auth dbg w room droom adr f -> P f -> fstep auth dbg w room droom f l = Some f' -> P f') ->
  forall f, fstarts auth dbg w room droom adr f -> P f.
Proof.
  intros H0 HS f (ls & H). revert f H. induction ls as [|l ls IH] using rev_ind; intros f H.
  - injection H as <-. exact H0.
  - rewrite fsteps_app in H. destruct (fsteps auth dbg w room droom _ ls) as [f1|] eqn:E; [|discriminate].
    cbn [fsteps] in H. destruct (fstep auth dbg w room droom f1 l) as [f2|] eqn:E2; [|discriminate]. injection H as <-.
    eapply HS; [exists ls; exact E| |exact E2]. now apply IH.
Qed.

(** The start of C136 as long as the process lives. *)
Theorem C139_same_start auth dbg w room droom adr f : fstarts auth dbg w room droom adr f -> starts auth dbg w adr (fstart f).
Proof.
  revert f. apply (fstarts_ind auth dbg w room droom adr (fun f => starts auth dbg w adr (fstart f))); [now exists []|].
  intros f l f' _ HI E. unfold fstep in E. destruct (killed f); [discriminate|].
  destruct (astep auth dbg w (fstart f) l) as [b|] eqn:EA; [|discriminate]. destruct (no_room _ _ _ _); injection E as <-; [exact HI|].
  apply (starts_steps auth dbg w adr [l] (fstart f)); [exact HI|]. cbn [asteps fstart]. now rewrite EA.
Qed.

(** What [no_room] says, in terms of the tree. *)
Lemma no_room_spec room droom s l : no_room room droom s l = true ->
  droom < height (subscriptions (svc s))
  \/ (exists tx R (op : MessagingOperation R) f, hdl s = HBusy tx (Call op f) /\ removal_op op = true) /\ room < height (subscriptions (svc s)).
Proof.
  assert (D : negb (drop_on droom (subscriptions (svc s))) = true -> droom < height (subscriptions (svc s))).
  { rewrite drop_on_spec. intros H. apply negb_true_iff in H. now apply Nat.leb_gt in H. }
  unfold no_room. cbv zeta. intros H.
  assert (H' : negb (drop_on droom (subscriptions (svc s))) = true
    \/ match hdl s with HBusy _ (Call op _) => service_running s && match serve_on room (svc s) op with Some _ => false | None => true end | _ => false end = true).
  { destruct l as [ok| |[l|l|k|t]]; cbn [inner] in H; try discriminate; [destruct l as [l|k]; [|discriminate]| |];
      try (destruct l; try discriminate; auto). destruct t; try discriminate; auto. }
  clear H. destruct H' as [H|H]; [left; auto|right].
  destruct (hdl s) as [|tx p| |] eqn:EH; try discriminate. destruct p as [| |R op f|to e p]; try discriminate.
  apply andb_true_iff in H. destruct H as (_ & H). rewrite serve_on_spec in H.
  destruct (removal_op op) eqn:EO; cbn [andb] in H; [|discriminate]. destruct (Nat.ltb_spec room (height (subscriptions (svc s)))); [|discriminate].
  split; [|assumption]. exists tx, R, op, f. auto.
Qed.

(** The steps that drop the tree, and those that remove a client from it. *)
Definition frees_tree (l : alabel) : Prop :=
  l = AThreads (XDrop TaskService) \/ l = AThreads (XTask LStopService) \/ l = AThreads (XRun (PStep LStopService)).

Definition removes_client (s : sys) (l : alabel) : Prop :=
  service_running s = true /\ (exists now, l = AThreads (XTask (LHandler now)) \/ l = AThreads (XRun (PStep (LHandler now))))
  /\ exists tx R (op : MessagingOperation R) f, hdl s = HBusy tx (Call op f) /\ removal_op op = true.

(** Each step of C136 is one here, and it is the last exactly if it needs more nested calls than there is room for. *)
Theorem C139_which_step auth dbg w room droom f l b : killed f = false -> astep auth dbg w (fstart f) l = Some b ->
  let tree := subscriptions (svc (base (threads (fstart f)))) in
  let deep := frees_tree l /\ droom < height tree \/ removes_client (base (threads (fstart f))) l /\ room < height tree in
  (deep -> fstep auth dbg w room droom f l = Some {| fstart := fstart f; killed := true |}
           /\ forall l', fstep auth dbg w room droom {| fstart := fstart f; killed := true |} l' = None)
  /\ (~ deep -> fstep auth dbg w room droom f l = Some {| fstart := b; killed := false |}).
Proof.
  intros EK EA tree deep. set (s := base (threads (fstart f))) in *.
  assert (K : no_room room droom s l = true <-> deep).
  { assert (D : negb (drop_on droom tree) = true <-> droom < height tree).
    { rewrite drop_on_spec, negb_true_iff. apply Nat.leb_gt. }
    assert (R : match hdl s with HBusy _ (Call op _) => service_running s && match serve_on room (svc s) op with Some _ => false | None => true end | _ => false end = true
      <-> service_running s = true /\ (exists tx R (op : MessagingOperation R) f, hdl s = HBusy tx (Call op f) /\ removal_op op = true) /\ room < height tree).
    { split.
      - destruct (hdl s) as [|tx p| |] eqn:EH; try discriminate. destruct p as [| |R op g|to e p]; try discriminate.
        intros H. apply andb_true_iff in H. destruct H as (H1 & H2). rewrite serve_on_spec in H2.
        destruct (removal_op op) eqn:EO; cbn [andb] in H2; [|discriminate]. fold tree in H2. destruct (Nat.ltb_spec room (height tree)); [|discriminate].
        split; [exact H1|]. split; [exists tx, R, op, g; auto|assumption].
      - intros (H1 & (tx & R & op & g & EH & EO) & H2). rewrite EH, H1, serve_on_spec, EO. fold tree.
        now rewrite (proj2 (Nat.ltb_lt _ _) H2). }
    unfold no_room, deep, frees_tree, removes_client. cbv zeta. fold tree. split.
    - destruct l as [ok| |[l|l|k|t]]; cbn [inner]; try discriminate; [destruct l as [l|k]; [|discriminate]| |].
      + destruct l; try discriminate; intros H; [right|left; split; [auto|now apply D]].
        apply R in H. destruct H as (H1 & H2 & H3). split; [|exact H3]. split; [exact H1|]. split; [eauto|exact H2].
      + destruct l; try discriminate; intros H; [right|left; split; [auto|now apply D]].
        apply R in H. destruct H as (H1 & H2 & H3). split; [|exact H3]. split; [exact H1|]. split; [eauto|exact H2].
      + destruct t; try discriminate. intros H. left. split; [auto|now apply D].
    - intros [([-> |[-> | ->]] & H)|((H1 & (now & [-> | ->]) & H2) & H3)]; cbn [inner]; try (now apply D); apply R; auto. }
  unfold fstep. rewrite EK, EA. fold s. split.
  - intros H. apply K in H. rewrite H. split; [reflexivity|]. intros l'. reflexivity.
  - intros H. destruct (no_room room droom s l); [|reflexivity]. exfalso. apply H, K. reflexivity.
Qed.

(** What kills it: a DISCONNECT after a filter of [room] or more levels (C99), or a filter of [droom] or more. *)
Theorem C139_aborts auth dbg w room droom adr f : 1 <= room -> 1 <= droom -> fstarts auth dbg w room droom adr f -> killed f = true ->
  deadly room (map snd (handled (base (threads (fstart f))))) \/ too_deep droom (map snd (handled (base (threads (fstart f))))).
Proof.
  intros H1 H2. revert f. apply (fstarts_ind auth dbg w room droom adr (fun f => killed f = true ->
    deadly room (map snd (handled (base (threads (fstart f))))) \/ too_deep droom (map snd (handled (base (threads (fstart f))))))); [discriminate|].
  intros f l f' HF _ E. unfold fstep in E. destruct (killed f); [discriminate|].
  destruct (astep auth dbg w (fstart f) l) as [b|] eqn:EA; [|discriminate].
  destruct (no_room room droom (base (threads (fstart f))) l) eqn:EN; injection E as <-; [intros _|discriminate]. cbn [fstart].
  pose proof (stack_invariant _ _ _ _ _ (C139_same_start _ _ _ _ _ _ _ HF)) as HI. set (s := base (threads (fstart f))) in *.
  destruct (no_room_spec _ _ _ _ EN) as [HD|((tx & R & op & g & EH & EO) & HD)].
  - right. apply too_deep_named; [exact H2|]. pose proof (stack_inv_bound s HI). lia.
  - left. unfold stack_inv in HI. rewrite EH in HI. destruct HI as [((K & _) & _)|(_ & h & te & Eh & Hr & HB)]; [congruence|].
    exists (map snd h), (snd te), []. rewrite Eh, map_app. split; [reflexivity|]. split; [exact Hr|]. apply too_deep_named; [exact H1|]. lia.
Qed.

(** Room for 65537 nested calls is always enough. *)
Theorem C139_never auth dbg w room droom adr f : (65536 < N.of_nat room)%N -> (65536 < N.of_nat droom)%N ->
  fstarts auth dbg w room droom adr f -> killed f = false.
Proof.
  intros HR1 HR2 HF. destruct (killed f) eqn:EK; [exfalso|reflexivity].
  destruct (sound_invariant _ _ _ _ _ (C139_same_start _ _ _ _ _ _ _ HF)) as (_ & _ & _ & HH). rewrite Forall_forall in HH.
  assert (K : forall r h, (65536 < N.of_nat r)%N -> incl h (map snd (handled (base (threads (fstart f))))) -> too_deep r h -> False).
  { intros r h Hr Hi (e & x & He & Hx & Hl). pose proof (HH e (Hi e He)) as K.
    destruct e as [c a j|c p j|c|c]; try (exfalso; exact Hx). cbn [sound] in K. destruct p; try (exfalso; exact Hx); cbn [named] in Hx.
    - apply in_map_iff in Hx. destruct Hx as (y & E & Hy). assert (N.of_nat (level_count x) <= 65536)%N by (eapply ok_filter; [exact K|cbn; eauto]). lia.
    - assert (N.of_nat (level_count x) <= 65536)%N by (eapply ok_filter; [exact K|exact Hx]). lia. }
  destruct (C139_aborts auth dbg w room droom adr f ltac:(lia) ltac:(lia) HF EK) as [(h & e & rest & E & _ & HT)|HT].
  - apply (K room h HR1); [|exact HT]. rewrite E. apply incl_appl, incl_refl.
  - exact (K droom _ HR2 (incl_refl _) HT).
Qed.

(** Without such filters nothing changes: any run of C136 is one here. *)
Lemma handled_end auth dbg w p l p' : end_step auth dbg w p l = Some p' -> exists m, handled (base p') = handled (base p) ++ m.
Proof.
  intros E. destruct (end_step_cases _ _ _ _ _ _ E) as [l0 HQ|l0 s Hr Hw Hl Hs Hm Eb Es|now Hr Hw Ha Hv Eb Es|k c Hr Hw Hni Hk Hh Eb Es|t Hr Hw Ht Ed Es].
  - destruct (pool_step_cases _ _ _ _ _ _ HQ) as [(l1 & -> & Hs & _ & _)|(k & c & _ & -> & _)]; [|exists []; now rewrite app_nil_r].
    eapply handled_more; eauto.
  - rewrite Eb. destruct (handled_more _ _ _ _ _ Hs) as (m & Em). exists m. exact Em.
  - rewrite Eb. exists []. now rewrite app_nil_r.
  - rewrite Eb. exists []. now rewrite app_nil_r.
  - exists []. rewrite app_nil_r. unfold drop_task in Ed. destruct t as [k|k| | |].
    + destruct (nth_error (conns (base p)) k) as [c|]; [|discriminate]. destruct (c_reader c); try discriminate; injection Ed as <-; reflexivity.
    + destruct (nth_error (conns (base p)) k) as [c|]; [|discriminate]. destruct (c_writer c); try discriminate; injection Ed as <-; reflexivity.
    + destruct (handler_alive (hdl (base p))); [|discriminate]. injection Ed as <-. reflexivity.
    + destruct (listeners (base p)); [discriminate|]. injection Ed as <-. reflexivity.
    + destruct (service_running (base p)); [|discriminate]. injection Ed as <-. reflexivity.
Qed.

Lemma handled_asteps auth dbg w ls : forall b b', asteps auth dbg w b ls = Some b' ->
  exists m, handled (base (threads b')) = handled (base (threads b)) ++ m.
Proof.
  induction ls as [|l ls IH]; intros b b'; cbn [asteps]; [intros [= <-]; exists []; now rewrite app_nil_r|].
  destruct (astep auth dbg w b l) as [b1|] eqn:E; [|discriminate]. intros H. destruct (IH _ _ H) as (m2 & ->).
  assert (K : exists m, handled (base (threads b1)) = handled (base (threads b)) ++ m).
  { destruct (astep_cases _ _ _ _ _ _ E) as [x rest _ _ _ ->|x rest _ _ _ ->|_ _ ->|l' HE _ _]; try (exists []; now rewrite app_nil_r).
    eapply handled_end; eauto. }
  destruct K as (m1 & ->). exists (m1 ++ m2). now rewrite app_assoc.
Qed.

Theorem C139_shallow auth dbg w room droom adr ls b : 1 <= room -> 1 <= droom ->
  asteps auth dbg w (starting_init adr) ls = Some b ->
  ~ deadly room (map snd (handled (base (threads b)))) -> ~ too_deep droom (map snd (handled (base (threads b)))) ->
  fsteps auth dbg w room droom {| fstart := starting_init adr; killed := false |} ls = Some {| fstart := b; killed := false |}.
Proof.
  intros H1 H2. revert b. induction ls as [|l ls IH] using rev_ind; intros b H ND NT.
  - injection H as <-. reflexivity.
  - rewrite asteps_app in H. destruct (asteps auth dbg w (starting_init adr) ls) as [b1|] eqn:E; [|discriminate].
    destruct (handled_asteps _ _ _ _ _ _ H) as (m & Em).
    assert (E1 : fsteps auth dbg w room droom {| fstart := starting_init adr; killed := false |} ls = Some {| fstart := b1; killed := false |}).
    { apply IH; [reflexivity|intros X; apply ND|intros X; apply NT]; rewrite Em, map_app; [now apply deadly_more|now apply too_deep_more]. }
    rewrite fsteps_app, E1. cbn [asteps fsteps] in H |- *. unfold fstep. cbn [killed fstart].
    destruct (astep auth dbg w b1 l) as [b2|] eqn:EA; [|discriminate]. injection H as ->.
    destruct (no_room room droom (base (threads b1)) l) eqn:EN; [exfalso|reflexivity].
    assert (HF : fstarts auth dbg w room droom adr {| fstart := b1; killed := true |}).
    { exists (ls ++ [l]). rewrite fsteps_app, E1. cbn [fsteps]. unfold fstep. cbn [killed fstart]. now rewrite EA, EN. }
    destruct (C139_aborts _ _ _ _ _ _ _ H1 H2 HF eq_refl) as [X|X]; cbn [fstart] in X;
      [apply ND|apply NT]; rewrite Em, map_app; [now apply deadly_more|now apply too_deep_more].
Qed.

(** *** Every schedule *)

Definition finternal (l : alabel) : Prop := match l with AThreads l => end_internal l | _ => True end.

Inductive finevitably auth dbg w room droom (P : fsys -> Prop) (f : fsys) : Prop :=
| FInevitably : ((forall l, finternal l -> fstep auth dbg w room droom f l = None) -> P f) ->
    (forall l f', finternal l -> fstep auth dbg w room droom f l = Some f' -> finevitably auth dbg w room droom P f') ->
    finevitably auth dbg w room droom P f.

(** Only its end stops the service. *)
Lemma service_end auth dbg s l s' : step auth dbg s l = Some s' -> service_running s = true -> l <> LStopService -> service_running s' = true.
Proof.
  intros ES E0 HN. unfold step in ES. destruct (running s); [|discriminate]. destruct l as [r w a|k uuid|k|now| | | | |]; try congruence.
  - destruct (listeners s); [discriminate|]. injection ES as <-. exact E0.
  - unfold step_reader in ES. destruct (nth_error (conns s) k) as [c|]; [|discriminate]. destruct (c_reader c); try discriminate.
    + destruct (stream_read_packet dbg rs) as [p| | | | |]; try discriminate; [destruct p|..]; injection ES as <-; exact E0.
    + destruct (handler_alive _); [destruct (_ <? _); [|discriminate]|]; injection ES as <-; exact E0.
    + destruct (stream_read_packet dbg rs) as [p| | | | |]; try discriminate; injection ES as <-; exact E0.
  - unfold step_writer in ES. destruct (nth_error (conns s) k) as [c|]; [|discriminate].
    destruct (c_writer c) as [ws|p ws|ws]; [|destruct (write_packet p ws)|]; try discriminate; try (injection ES as <-; exact E0).
    destruct (c_queue c) as [|[from [p|]] q]; [destruct (has_sender _ k c); [discriminate|]|..]; injection ES as <-; exact E0.
  - unfold step_handler in ES. destruct (hdl s) as [|tx p| |]; try discriminate.
    + destruct (events s); [discriminate|]. injection ES as <-; exact E0.
    + destruct p as [| |R op f|to e p]; try (injection ES as <-; exact E0).
      * destruct (serve _ op). injection ES as <-; exact E0.
      * destruct (nth_error _ to) as [c|]; [|discriminate]. destruct (c_writer c); try (destruct (_ <? _); [|discriminate]); injection ES as <-; exact E0.
  - destruct (hdl s); try discriminate. destruct (ctrl_c _); [|discriminate]. injection ES as <-; exact E0.
  - destruct (listeners s); [discriminate|]. destruct (ctrl_c _); [|discriminate]. injection ES as <-; exact E0.
  - destruct (main s); try discriminate. destruct (_ || _); injection ES as <-; exact E0.
  - unfold step_main in ES. destruct (main s); try discriminate.
    + destruct (Nat.eqb _ _); [|discriminate]. injection ES as <-; exact E0.
    + rewrite E0 in ES. discriminate.
    + destruct (hdl s); try discriminate; injection ES as <-; exact E0.
Qed.

Lemma drops_service droom p : droom < height (subscriptions (svc (base p))) -> drop_on droom (subscriptions (svc (base p))) = false.
Proof. intros H. rewrite drop_on_spec. now apply Nat.leb_gt. Qed.

Lemma panicked_burst auth dbg w room droom x rest p : tracked dbg p -> running (base p) = false -> overrunning dbg p < w ->
  service_running (base p) = true -> droom < height (subscriptions (svc (base p))) ->
  finevitably auth dbg w room droom (fun f => killed f = true) {| fstart := {| threads := p; unbound := Some (x :: rest) |}; killed := false |}.
Proof.
  intros HT Hr. pose proof (stopped_finite auth dbg w (fun _ => True) p HT Hr (fun _ _ _ _ _ => I)) as HA.
  induction HA as [p _ HS IH]. intros HO HV HH. pose proof (drops_service droom p HH) as HD. constructor.
  - intros HN. exfalso. specialize (HN (AThreads (XDrop TaskService)) I). unfold fstep in HN. cbn [killed fstart astep unbound on_main threads end_step] in HN.
    pose proof (spinning_overrun auth dbg w 0 p (tracked_alive auth dbg w 0 p HT Hr)) as HL.
    assert (X : (length (spinning p) <? w) = true) by (apply Nat.ltb_lt; lia). rewrite Hr, X in HN. cbn [negb andb spins drop_task] in HN.
    rewrite HV in HN. destruct (no_room _ _ _ _); discriminate.
  - intros l f' Hl E. unfold fstep in E. cbn [killed fstart] in E.
    destruct (astep auth dbg w {| threads := p; unbound := Some (x :: rest) |} l) as [b|] eqn:EA; [|discriminate].
    destruct (panicked_only_threads auth dbg w {| threads := p; unbound := Some (x :: rest) |} l b Hr ltac:(discriminate) EA) as (l' & -> & HE & EU & Hr'). cbn [threads unbound] in *.
    destruct (no_room room droom (base p) (AThreads l')) eqn:EN; injection E as <-.
    + constructor; [reflexivity|]. intros l2 f2 _ H2. discriminate H2.
    + destruct b as [p' u]. cbn [threads unbound] in *. subst u.
      assert (K : service_running (base p') = true /\ height (subscriptions (svc (base p))) <= height (subscriptions (svc (base p')))).
      { destruct (end_step_cases _ _ _ _ _ _ HE) as [l0 HQ|l0 s _ Hw Hl0 Hs Hm Eb Es|now _ Hw Ha Hv Eb Es|k c _ Hw Hni Hk Hh Eb Es|t _ Hw Ht Ed Es].
        - exfalso. destruct (pool_step_cases _ _ _ _ _ _ HQ) as [(l1 & -> & Hs & _ & _)|(k & c & _ & _ & _ & _ & _ & _ & _ & H)]; [|congruence].
          unfold step in Hs. now rewrite Hr in Hs.
        - rewrite Eb. cbn [service_running svc set_main]. split; [|exact (trans_height _ _ _ _ (step_trans _ _ _ _ _ Hs))].
          apply (service_end _ _ _ _ _ Hs HV). intros ->. cbn [no_room inner] in EN. rewrite HD in EN. discriminate.
        - congruence.
        - rewrite Eb. auto.
        - unfold drop_task in Ed. destruct t as [k|k| | |].
          + destruct (nth_error (conns (base p)) k) as [c|]; [|discriminate]. destruct (c_reader c); try discriminate; injection Ed as <-; auto.
          + destruct (nth_error (conns (base p)) k) as [c|]; [|discriminate]. destruct (c_writer c); try discriminate; injection Ed as <-; auto.
          + destruct (handler_alive (hdl (base p))); [|discriminate]. injection Ed as <-. auto.
          + destruct (listeners (base p)); [discriminate|]. injection Ed as <-. auto.
          + cbn [no_room] in EN. rewrite HD in EN. discriminate. }
      destruct K as (K1 & K2). apply (IH l' p' Hl HE); auto; [eapply tracked_step; eauto| |lia].
      rewrite (overrunning_peers dbg p p'); [exact HO|]. eapply end_peers; eauto.
Qed.

(** The events before the one the handler is busy with. *)
Definition finished (s : sys) : list (Z * ClientEvent) := match hdl s with HBusy _ _ => removelast (handled s) | _ => handled s end.

Lemma finished_height auth dbg n s : reachable auth dbg n s -> named_height (finished s) <= height (subscriptions (svc s)).
Proof.
  apply (reachable_trans_ind auth dbg n (fun s => named_height (finished s) <= height (subscriptions (svc s)))); [vm_compute; apply le_n|].
  clear s. intros s s' HR HI T. pose proof (tree_invariant auth dbg n s HR) as HT.
  unfold tree_inv in HT. destruct T; try exact HI; unfold finished in *; cbn [hdl handled svc set_hdl set_handled set_events panic_handler];
    rewrite ?H in HI, HT.
  - rewrite removelast_last. exact HI.
  - destruct HT as (_ & HT). cbn [exec fst] in HT. cbn. lia.
  - destruct HT as (_ & HT). cbn [exec fst] in HT. cbn. lia.
  - cbn [handled svc set_svc]. pose proof (proj1 (serve_height R op (svc s))). lia.
  - exact HI.
  - destruct HT as (HC & HT). cbn [calm] in HC. cbn [exec] in HT. pose proof (trailing_exec p (svc s) HC) as E.
    destruct (exec p (svc s)) as [[m l] o]. cbn [fst] in HT, E. rewrite E in HT. cbn. lia.
  - exact HI.
Qed.

Lemma started_height auth dbg w adr b x rest : starts auth dbg w adr b -> running (base (threads b)) = true -> unbound b = Some (x :: rest) ->
  named_height (finished (base (threads b))) <= height (subscriptions (svc (base (threads b)))).
Proof.
  intros HB Hr EU. set (p := threads b) in *.
  pose proof (boot_invariant _ _ _ _ (C136_same_start _ _ _ _ _ HB Hr)) as HI. unfold boot_ok in HI. cbn [todo core] in HI. rewrite EU in HI.
  destruct HI as (bound & s & _ & HR & _ & _ & Es & _ & _). pose proof (finished_height _ _ _ _ HR) as K.
  assert (E1 : finished s = finished (base p)) by (rewrite Es; reflexivity).
  assert (E2 : svc s = svc (base p)) by (rewrite Es; reflexivity).
  now rewrite E1, E2 in K.
Qed.

(** While main runs the service has ended only with the handler, and with a tree that could be dropped. *)
Lemma good_end auth dbg w room droom adr f : fstarts auth dbg w room droom adr f -> running (base (threads (fstart f))) = true ->
  service_running (base (threads (fstart f))) = false ->
  handler_alive (hdl (base (threads (fstart f)))) = false /\ height (subscriptions (svc (base (threads (fstart f))))) <= droom.
Proof.
  revert f. apply (fstarts_ind auth dbg w room droom adr (fun f => running (base (threads (fstart f))) = true ->
    service_running (base (threads (fstart f))) = false ->
    handler_alive (hdl (base (threads (fstart f)))) = false /\ height (subscriptions (svc (base (threads (fstart f))))) <= droom)); [discriminate|].
  intros f l f' _ HI E Hr' HV'. unfold fstep in E. destruct (killed f); [discriminate|].
  destruct (astep auth dbg w (fstart f) l) as [b|] eqn:EA; [|discriminate].
  destruct (no_room room droom (base (threads (fstart f))) l) eqn:EN; injection E as <-; [now apply HI|]. cbn [fstart] in *.
  destruct (astep_cases _ _ _ _ _ _ EA) as [x rest _ Hr _ ET|x rest _ _ _ ET|_ _ ET|l' HE _ _].
  - rewrite ET in HV' |- *. exact (HI Hr HV').
  - rewrite ET in Hr'. discriminate.
  - rewrite ET in Hr', HV' |- *. exact (HI Hr' HV').
  - destruct (end_step_cases _ _ _ _ _ _ HE) as [l0 HQ|l0 s Hr Hw Hl Hs Hm Eb Es|now Hr Hw Ha Hv Eb Es|k c Hr Hw Hni Hk Hh Eb Es|t Hr Hw Ht Ed Es].
    + destruct (pool_step_cases _ _ _ _ _ _ HQ) as [(l1 & -> & Hs & _ & _)|(k & c & _ & Eb & _ & _ & _ & _ & _ & Hr)].
      * assert (Hr : running (base (threads (fstart f))) = true) by (unfold step in Hs; destruct (running (base (threads (fstart f)))); [reflexivity|discriminate]).
        destruct (service_running (base (threads (fstart f)))) eqn:HV.
        -- assert (D : l1 = LStopService \/ l1 <> LStopService) by (destruct l1; auto; right; discriminate).
           destruct D as [->|D]; [|rewrite (service_end _ _ _ _ _ Hs HV D) in HV'; discriminate].
           cbn [no_room inner] in EN. rewrite drop_on_spec in EN. apply negb_false_iff, Nat.leb_le in EN.
           unfold step in Hs. rewrite Hr, HV in Hs. cbn [andb] in Hs.
           destruct (handler_alive (hdl (base (threads (fstart f))))) eqn:EH; [discriminate|]. injection Hs as <-. auto.
        -- destruct (HI Hr eq_refl) as (K1 & K2). pose proof (step_trans _ _ _ _ _ Hs) as T.
           destruct (dead_trans _ _ _ _ T K1) as (-> & _). split; [exact K1|].
           assert (ES : svc (base (threads b)) = svc (base (threads (fstart f)))) by (destruct T; try reflexivity; rewrite H in K1; discriminate).
           now rewrite ES.
      * rewrite Eb in HV' |- *. exact (HI Hr HV').
    + exfalso. rewrite Eb in Hr'. change (running (set_main (main (base (threads (fstart f)))) s)) with (running (base (threads (fstart f)))) in Hr'. congruence.
    + exfalso. rewrite Eb in Hr'. change (running (panic_handler (base (threads (fstart f))))) with (running (base (threads (fstart f)))) in Hr'. congruence.
    + exfalso. congruence.
    + exfalso. pose proof (drop_main _ _ _ Ed) as Em. unfold running in Hr, Hr'. rewrite Em in Hr'. congruence.
Qed.

(** After somebody named a filter of [droom] or more levels, an address that cannot be bound ends in the abort of the
    process on every schedule, as long as fewer connections overrun their buffer than there are threads; read tasks
    that spin do not keep it. *)
Theorem C139_every_run auth dbg w room droom adr f x rest : 1 <= droom -> fstarts auth dbg w room droom adr f -> killed f = false ->
  running (base (threads (fstart f))) = true -> unbound (fstart f) = Some (x :: rest) ->
  overrunning dbg (threads (fstart f)) < w -> too_deep droom (map snd (finished (base (threads (fstart f))))) ->
  exists f', fstep auth dbg w room droom f (ABind false) = Some f' /\ main (base (threads (fstart f'))) = MPanicked
    /\ finevitably auth dbg w room droom (fun f'' => killed f'' = true) f'.
Proof.
  intros H1 HF EK Hr EU HO HD. pose proof (C139_same_start _ _ _ _ _ _ _ HF) as HB.
  pose proof (good_end _ _ _ _ _ _ _ HF Hr) as HG. set (p := threads (fstart f)) in *.
  set (p' := set_base (set_main MPanicked (set_ctrl_c true (base p))) p).
  exists {| fstart := {| threads := p'; unbound := Some (x :: rest) |}; killed := false |}. split; [|split; [reflexivity|]].
  { unfold fstep. rewrite EK. cbn [astep]. fold p. rewrite EU, Hr. reflexivity. }
  assert (HH : droom < height (subscriptions (svc (base p)))).
  { apply too_deep_named in HD; [|exact H1]. pose proof (started_height _ _ _ _ _ _ _ HB Hr EU) as K. fold p in K. lia. }
  apply panicked_burst; [exact (starts_tracked _ _ _ _ _ HB)|reflexivity|exact HO| |exact HH].
  cbn [p' set_base base service_running set_main set_ctrl_c].
  destruct (service_running (base p)); [reflexivity|]. destruct (HG eq_refl). lia.
Qed.

(** Two addresses. A client unsubscribes from a filter of 100 levels before the second address fails; another one makes
    its read task spin. With room for 100 nested drops the process is aborted; with room for 101 it stays. *)
Definition ex_deep_start : list alabel :=
  ABind true :: map (fun l => AThreads (XRun (PStep l)))
    [LAccept (ex_peer [ex_client "z" None None; Unsubscribe 1 [repeat slash 99]] PeerOpen) (ex_socket []) 1; LReader 0 []; LReader 0 [];
     LReader 0 []; LReader 0 []; LHandler 0; LHandler 0; LHandler 0; LHandler 0; LHandler 0; LHandler 0; LHandler 0; LHandler 0; LHandler 0;
     LAccept ex_big (ex_socket []) 2]
  ++ [AThreads (XRun (PSpin 1))].

Definition ex_drops : list alabel := map (fun t => AThreads (XDrop t)) [TaskListener; TaskService].

Definition ex_fstart (droom : nat) : option fsys :=
  fsteps ex_deny true 3 200 droom {| fstart := starting_init [str "a:1883"; str "b:1883"]; killed := false |} ex_deep_start.

Example C139_case : exists f f1 f2,
  ex_fstart 100 = Some f /\ killed f = false /\ running (base (threads (fstart f))) = true /\ unbound (fstart f) = Some [str "b:1883"]
  /\ overrunning true (threads (fstart f)) = 1 /\ spinning (threads (fstart f)) = [1]
  /\ too_deep 100 (map snd (finished (base (threads (fstart f)))))
  /\ fsteps ex_deny true 3 200 100 f (ABind false :: ex_drops) = Some f1 /\ killed f1 = true
  /\ match ex_fstart 101 with Some g => fsteps ex_deny true 3 200 101 g (ABind false :: ex_drops) | None => None end = Some f2
  /\ killed f2 = false /\ service_running (base (threads (fstart f2))) = false.
Proof.
  assert (E : exists f, ex_fstart 100 = Some f) by (eexists; vm_compute; reflexivity). destruct E as (f & E).
  assert (E1 : exists f1, match ex_fstart 100 with Some f => fsteps ex_deny true 3 200 100 f (ABind false :: ex_drops) | None => None end = Some f1
    /\ killed f1 = true) by (eexists; split; vm_compute; reflexivity).
  destruct E1 as (f1 & E1 & K1). rewrite E in E1.
  assert (E2 : exists f2, match ex_fstart 101 with Some g => fsteps ex_deny true 3 200 101 g (ABind false :: ex_drops) | None => None end = Some f2
    /\ killed f2 = false /\ service_running (base (threads (fstart f2))) = false) by (eexists; split; [vm_compute; reflexivity|split; vm_compute; reflexivity]).
  destruct E2 as (f2 & E2 & K2 & K3). exists f, f1, f2. split; [exact E|].
  assert (Q : option_map (fun f => (killed f, running (base (threads (fstart f))), unbound (fstart f), overrunning true (threads (fstart f)),
      spinning (threads (fstart f)))) (ex_fstart 100) = Some (false, true, Some [str "b:1883"], 1, [1])) by (vm_compute; reflexivity).
  rewrite E in Q. cbn [option_map] in Q. injection Q as Q1 Q2 Q3 Q4 Q5. repeat (split; [assumption|]). split; [|auto].
  assert (E3 : exists e1, option_map (fun f => map snd (finished (base (threads (fstart f))))) (ex_fstart 100)
    = Some [e1; ClientPacket (str "z") (Unsubscribe 1 [repeat slash 99]) 0]) by (eexists; vm_compute; reflexivity).
  destruct E3 as (e1 & E3). rewrite E in E3. cbn [option_map] in E3. injection E3 as ->.
  exists (ClientPacket (str "z") (Unsubscribe 1 [repeat slash 99]) 0), (repeat slash 99).
  split; [right; now left|]. split; [now left|]. apply Nat.leb_le. vm_compute. reflexivity.
Qed.
