(** Properties C83-C85: the broker on a fixed number of worker threads. *)
From Verif Require Import Base Base_facts Packets Messaging Handler Decoder ReadStream ReadStream_facts Plain_facts Decoder_facts Panic_facts Hang_facts Encoder_facts Conform_facts
  Conn Conn_facts Spec_wire WriteStream System System_facts System_conn System_queue System_progress System_exit System_rest
  Utf8 Spec_utf8 Utf8_facts Prop_codec Prop_stream Prop_broker Prop_system Prop_rest Pool.
Open Scope N_scope.

Definition pool_reachable auth dbg workers n p := exists ls, pool_steps auth dbg workers (pool_init n) ls = Some p.

Lemma pool_steps_app auth dbg w ls1 : forall p ls2, pool_steps auth dbg w p (ls1 ++ ls2)
  = match pool_steps auth dbg w p ls1 with Some p' => pool_steps auth dbg w p' ls2 | None => None end.
Proof.
  induction ls1 as [|l ls1 IH]; intros p ls2; cbn [app pool_steps]; [reflexivity|].
  destruct (pool_step auth dbg w p l); [apply IH|reflexivity].
Qed.

Lemma pool_reachable_step auth dbg w n p l p' : pool_reachable auth dbg w n p -> pool_step auth dbg w p l = Some p' ->
  pool_reachable auth dbg w n p'.
Proof. intros (ls & H) E. exists (ls ++ [l]). rewrite pool_steps_app, H. cbn [pool_steps]. now rewrite E. Qed.

Lemma pool_reachable_ind auth dbg w n (P : pool -> Prop) : P (pool_init n) ->
  (forall p l p', pool_reachable auth dbg w n p -> P p -> pool_step auth dbg w p l = Some p' -> P p') ->
  forall p, pool_reachable auth dbg w n p -> P p.
Proof.
  intros H0 HS p (ls & H). revert p H. induction ls as [|l ls IH] using rev_ind; intros p.
  - intros [= <-]. exact H0.
  - rewrite pool_steps_app. destruct (pool_steps auth dbg w (pool_init n) ls) as [p1|] eqn:E; [|discriminate].
    cbn [pool_steps]. destruct (pool_step auth dbg w p1 l) as [p2|] eqn:E2; [|discriminate]. intros [= <-].
    eapply HS; [exists ls; exact E| |exact E2]. now apply IH.
Qed.

(** What a step of the pool is. *)
Lemma pool_step_cases auth dbg w p l p' : pool_step auth dbg w p l = Some p' ->
  (exists l', l = PStep l' /\ step auth dbg (base p) l' = Some (base p') /\ spinning p' = spinning p
     /\ (on_worker l' = true -> (length (spinning p) < w)%nat))
  \/ (exists k c, l = PSpin k /\ base p' = base p /\ spinning p' = k :: spinning p /\ (length (spinning p) < w)%nat
        /\ ~ In k (spinning p) /\ nth_error (conns (base p)) k = Some c /\ hangs dbg c = true /\ running (base p) = true).
Proof.
  destruct l as [l|k]; cbn [pool_step].
  - destruct (on_worker l && negb (length (spinning p) <? w)%nat) eqn:EW; [discriminate|].
    destruct (step auth dbg (base p) l) as [s|] eqn:E; [|discriminate]. intros [= <-]. left. exists l. cbn [base spinning].
    repeat split; auto. intros HW. rewrite HW in EW. cbn [andb] in EW. apply negb_false_iff, Nat.ltb_lt in EW. exact EW.
  - destruct (running (base p)) eqn:ER; [|discriminate]. cbn [andb].
    destruct (Nat.ltb_spec (length (spinning p)) w) as [HL|_]; [|discriminate]. cbn [andb].
    destruct (existsb (Nat.eqb k) (spinning p)) eqn:EX; [discriminate|]. cbn [negb andb].
    destruct (nth_error (conns (base p)) k) as [c|] eqn:Ek; [|discriminate]. destruct (hangs dbg c) eqn:EH; [|discriminate].
    intros [= <-]. right. exists k, c. cbn [base spinning]. repeat split; auto.
    intros Hin. apply not_true_iff_false in EX. apply EX. apply existsb_exists. exists k. split; [exact Hin|apply Nat.eqb_refl].
Qed.

(** A read task that spins stays where it is. *)
Lemma hangs_stays auth dbg s s' k c : trans auth dbg s s' -> nth_error (conns s) k = Some c -> hangs dbg c = true ->
  exists c', nth_error (conns s') k = Some c' /\ hangs dbg c' = true /\ c_rsock c' = c_rsock c.
Proof.
  intros T Hk Hh.
  assert (U : forall j c0 c1, nth_error (conns s) j = Some c0 -> (j = k -> c_reader c1 = c_reader c /\ c_rsock c1 = c_rsock c) ->
    exists c', nth_error (update j c1 (conns s)) k = Some c' /\ hangs dbg c' = true /\ c_rsock c' = c_rsock c).
  { intros j c0 c1 Hj Hs. rewrite nth_update. destruct (Nat.eqb_spec k j) as [->|Hn].
    - rewrite Hj. destruct (Hs eq_refl) as (H1 & H2). exists c1. unfold hangs. rewrite H1. auto.
    - exists c. auto. }
  destruct T; cbn [conns set_conns set_conn set_events set_hdl set_handled set_log set_svc set_listeners set_ctrl_c set_main
                   set_service_running panic_handler]; try (exists c; auto; fail);
    try (eapply U; [eassumption|]; intros ->; rewrite Hk in *;
         match goal with H : Some _ = Some _ |- _ => injection H as -> end; auto; fail);
    try (eapply U; [eassumption|]; intros ->; exfalso; rewrite Hk in *;
         match goal with H : Some _ = Some _ |- _ => injection H as -> end;
         unfold hangs in Hh; 
         repeat match goal with
                | H : _ \/ _ |- _ => destruct H
                | H : exists _, _ |- _ => destruct H
                end;
         repeat match goal with H : c_reader _ = _ |- _ => rewrite H in Hh end;
         try match goal with H : stream_read_packet _ _ = _ |- _ => rewrite H in Hh end; discriminate).
  exists c. split; [|auto]. rewrite nth_error_app1; [exact Hk|]. apply nth_error_Some. congruence.
Qed.

(** ** C84 *)

(** The peer's bytes make the read task spin, sooner or later. *)
Definition overruns dbg (c : cstate) : bool :=
  match snd (read_all dbg (connection_stream (c_rsock c))) with EndHung => true | _ => false end.

Lemma hangs_overruns auth dbg n s k c : reachable auth dbg n s -> nth_error (conns s) k = Some c -> hangs dbg c = true ->
  overruns dbg c = true.
Proof.
  intros HR Hk Hh. destruct (reader_invariant auth dbg n s HR k c Hk) as (rs & Hr & K). unfold overruns.
  destruct (reads_read_all dbg _ _ _ (wf_connection (c_rsock c)) Hr) as (W & ->). cbn [snd].
  assert (E : stream_read_packet dbg rs = RHung).
  { unfold hangs in Hh. destruct (c_reader c); try discriminate; destruct K as (-> & _);
      destruct (stream_read_packet dbg rs); congruence. }
  now rewrite (read_all_step dbg rs W), E.
Qed.

(** Runs on worker threads are runs of the broker; at most as many threads as there are spin. *)
Theorem C84_same_broker auth dbg w n p : pool_reachable auth dbg w n p ->
  reachable auth dbg n (base p) /\ (length (spinning p) <= w)%nat /\ NoDup (spinning p)
  /\ forall k, In k (spinning p) -> exists c, nth_error (conns (base p)) k = Some c /\ hangs dbg c = true.
Proof.
  revert p. apply pool_reachable_ind.
  - split; [apply reachable_init|]. cbn. split; [lia|]. split; [constructor|]. intros k [].
  - intros p l p' _ (HR & HL & HN & HS) E. destruct (pool_step_cases _ _ _ _ _ _ E)
      as [(l' & -> & Es & -> & _)|(k & c & -> & Eb & -> & Hl & Hni & Hk & Hh & _)].
    + split; [eapply reachable_step; eauto|]. split; [exact HL|]. split; [exact HN|]. intros k Hin.
      destruct (HS k Hin) as (c & Hk & Hh). destruct (hangs_stays _ _ _ _ _ _ (step_trans _ _ _ _ _ Es) Hk Hh) as (c' & H1 & H2 & _). eauto.
    + rewrite Eb. split; [exact HR|]. split; [cbn; lia|]. split; [now constructor|]. intros j [<-|Hin]; eauto.
Qed.

Lemma filter_positions {A} (f : A -> bool) : forall l ks, NoDup ks ->
  (forall k, In k ks -> exists x, nth_error l k = Some x /\ f x = true) -> (length ks <= length (filter f l))%nat.
Proof.
  intros l. set (g := fun k => match nth_error l k with Some x => f x | None => false end).
  assert (E : length (filter g (seq 0 (length l))) = length (filter f l)).
  { unfold g. clear g. induction l as [|x l IH] using rev_ind; [reflexivity|].
    rewrite app_length, seq_app, !filter_app, !app_length. cbn [length seq filter Nat.add].
    rewrite nth_error_app2, Nat.sub_diag by lia. cbn [nth_error]. rewrite <- IH. f_equal; [|now destruct (f x)].
    f_equal. apply filter_ext_in. intros k Hk. apply in_seq in Hk. rewrite nth_error_app1 by lia. reflexivity. }
  intros ks HN HK. rewrite <- E. apply NoDup_incl_length; [exact HN|]. intros k Hin. destruct (HK k Hin) as (x & Hx & Hf).
  apply filter_In. split; [|unfold g; now rewrite Hx]. apply in_seq. assert (k < length l)%nat by (apply nth_error_Some; congruence). lia.
Qed.

(** No more threads spin than connections sent bytes that overrun the buffer. *)
Theorem C84_spinning_overruns auth dbg w n p : pool_reachable auth dbg w n p ->
  (length (spinning p) <= length (filter (overruns dbg) (conns (base p))))%nat.
Proof.
  intros HP. destruct (C84_same_broker _ _ _ _ _ HP) as (HR & _ & HN & HS). apply filter_positions; [exact HN|].
  intros k Hin. destruct (HS k Hin) as (c & Hk & Hh). exists c. split; [exact Hk|]. eapply hangs_overruns; eauto.
Qed.

(** With fewer such connections than threads, every step the broker can take is possible. *)
Theorem C84_free_worker auth dbg w n p l s' : pool_reachable auth dbg w n p ->
  (length (filter (overruns dbg) (conns (base p))) < w)%nat -> step auth dbg (base p) l = Some s' ->
  pool_step auth dbg w p (PStep l) = Some {| base := s'; spinning := spinning p |}.
Proof.
  intros HP HF Hs. pose proof (C84_spinning_overruns _ _ _ _ _ HP) as HL. cbn [pool_step].
  assert (E : (length (spinning p) <? w)%nat = true) by (apply Nat.ltb_lt; lia). rewrite E. cbn [negb].
  now rewrite andb_false_r, Hs.
Qed.

(** ** C83 *)

(** All threads spin. *)
Definition stalled (w : nat) (p : pool) : Prop := (w <= length (spinning p))%nat.

(** Nothing is ever read, handled, sent or accepted again; only the main thread can still notice ctrl-c. *)
Lemma stalled_step auth dbg w p l p' : stalled w p -> pool_step auth dbg w p l = Some p' ->
  stalled w p' /\ (l = PStep LCtrlC \/ l = PStep LMain) /\ spinning p' = spinning p
  /\ conns (base p') = conns (base p) /\ events (base p') = events (base p) /\ hdl (base p') = hdl (base p)
  /\ svc (base p') = svc (base p) /\ service_running (base p') = service_running (base p)
  /\ listeners (base p') = listeners (base p)
  /\ handled (base p') = handled (base p) /\ log (base p') = log (base p)
  /\ (listeners (base p) <> O -> main (base p) = MServing \/ main (base p) = MJoinListeners -> main (base p') = MJoinListeners).
Proof.
  unfold stalled. intros HS E. destruct (pool_step_cases _ _ _ _ _ _ E)
    as [(l' & -> & Es & -> & Hw)|(k & c & -> & _ & _ & Hl & _)]; [|lia].
  split; [exact HS|]. destruct l'; cbn [on_worker] in Hw; try (specialize (Hw eq_refl); lia).
  - split; [auto|]. unfold step in Es. destruct (running (base p)); [|discriminate].
    destruct (main (base p)) eqn:EM; try discriminate.
    destruct (handler_alive (hdl (base p)) || negb (listeners (base p) =? 0)%nat) eqn:EH; injection Es as <-; cbn; repeat split; auto.
    intros Hn. exfalso. apply orb_false_iff in EH. destruct EH as (_ & EH). apply negb_false_iff, Nat.eqb_eq in EH. contradiction.
  - split; [auto|]. unfold step in Es. destruct (running (base p)); [|discriminate]. unfold step_main in Es.
    destruct (main (base p)) eqn:EM; try discriminate.
    + destruct (Nat.eqb_spec (listeners (base p)) 0) as [EL|]; [|discriminate]. injection Es as <-. cbn. repeat split; auto; now intros ?.
    + destruct (service_running (base p)) eqn:ES; [discriminate|]. injection Es as <-. cbn. repeat split; auto; intros _ [H|H]; discriminate.
    + destruct (hdl (base p)) eqn:ES; try discriminate; injection Es as <-; cbn; repeat split; auto; intros _ [H|H]; discriminate.
Qed.

Lemma stalled_steps auth dbg w ls : forall p p', stalled w p -> pool_steps auth dbg w p ls = Some p' ->
  listeners (base p) <> O -> main (base p) = MServing \/ main (base p) = MJoinListeners ->
  stalled w p' /\ Forall (fun l => l = PStep LCtrlC \/ l = PStep LMain) ls /\ running (base p') = true
  /\ conns (base p') = conns (base p) /\ events (base p') = events (base p) /\ hdl (base p') = hdl (base p)
  /\ svc (base p') = svc (base p) /\ listeners (base p') = listeners (base p)
  /\ handled (base p') = handled (base p) /\ log (base p') = log (base p).
Proof.
  induction ls as [|l ls IH]; intros p p' HS; cbn [pool_steps].
  - intros [= <-] _ HM. repeat split; auto. unfold running. destruct HM as [->| ->]; reflexivity.
  - destruct (pool_step auth dbg w p l) as [p1|] eqn:E; [|discriminate]. intros H HL HM.
    destruct (stalled_step _ _ _ _ _ _ HS E) as (HS1 & Hl & _ & E1 & E2 & E3 & E4 & _ & E5 & E6 & E7 & HM1).
    destruct (IH p1 p' HS1 H) as (K1 & K2 & K3 & F1 & F2 & F3 & F4 & F5 & F6 & F7); [congruence|auto|].
    repeat split; try congruence. now constructor.
Qed.

(** While listeners run, shutdown is not past waiting for them. *)
Lemma main_waits auth dbg n s : reachable auth dbg n s -> listeners s <> O ->
  main s = MServing \/ main s = MJoinListeners \/ main s = MPanicked.
Proof.
  revert s. apply (reachable_ind auth dbg n (fun s => listeners s <> O -> main s = MServing \/ main s = MJoinListeners \/ main s = MPanicked)).
  - auto.
  - intros s l s' _ IH E.
    assert (K : main s' = main s -> (listeners s' <> O -> listeners s <> O) ->
      listeners s' <> O -> main s' = MServing \/ main s' = MJoinListeners \/ main s' = MPanicked) by (intros ->; auto).
    unfold step in E. destruct (running s); [|discriminate]. destruct l as [r w a|k uuid|k|now| | | | |].
    + destruct (listeners s) eqn:EL; [discriminate|]. injection E as <-. apply K; auto.
    + unfold step_reader in E. destruct (nth_error (conns s) k) as [c|]; [|discriminate].
      destruct (c_reader c) as [rs|e cid rs|cid rs|]; try discriminate.
      * destruct (stream_read_packet dbg rs) as [p rs'|e| | | |]; try discriminate; [destruct p|..]; injection E as <-; now apply K.
      * destruct (handler_alive (hdl s)); [destruct (length (events s) <? channel_size)%nat; [|discriminate]|]; injection E as <-; now apply K.
      * destruct (stream_read_packet dbg rs) as [p rs'|e| | | |]; try discriminate; injection E as <-; now apply K.
    + unfold step_writer in E. destruct (nth_error (conns s) k) as [c|]; [|discriminate].
      destruct (c_writer c) as [ws|p ws|ws]; [| |discriminate].
      * destruct (c_queue c) as [|[f [p|]] q]; [destruct (has_sender s k c); [discriminate|]|..]; injection E as <-; now apply K.
      * destruct (write_packet p ws); try discriminate; injection E as <-; now apply K.
    + unfold step_handler in E. destruct (hdl s) as [|tx p| |]; try discriminate.
      * destruct (events s); [discriminate|]. injection E as <-; now apply K.
      * destruct p as [| |R op f|to e p].
        -- injection E as <-; now apply K.
        -- injection E as <-; now apply K.
        -- destruct (serve (svc s) op). injection E as <-; now apply K.
        -- destruct (nth_error (conns s) to) as [c|]; [|discriminate].
           destruct (c_writer c); try (injection E as <-; now apply K);
             (destruct (length (c_queue c) <? channel_size)%nat; [|discriminate]; injection E as <-; now apply K).
    + destruct (hdl s); try discriminate. destruct (ctrl_c s); [|discriminate]. injection E as <-; now apply K.
    + destruct (listeners s); [discriminate|]. destruct (ctrl_c s); [|discriminate]. injection E as <-. apply K; auto.
    + destruct (service_running s && negb (handler_alive (hdl s))); [|discriminate]. injection E as <-; now apply K.
    + destruct (main s); try discriminate. destruct (handler_alive (hdl s) || negb (listeners s =? 0)%nat); injection E as <-; cbn; auto.
    + unfold step_main in E. destruct (main s) eqn:EM; try discriminate.
      * destruct (Nat.eqb_spec (listeners s) 0) as [EL|]; [|discriminate]. injection E as <-. cbn. intros H. contradiction.
      * destruct (service_running s); [discriminate|]. injection E as <-. cbn. intros H. destruct (IH H) as [X|[X|X]]; discriminate.
      * destruct (hdl s); try discriminate; injection E as <-; cbn; intros H; destruct (IH H) as [X|[X|X]]; discriminate.
Qed.

(** A peer that begins by sending a PUBLISH with topic and payload of more than 4096 bytes, no more than 4096
    bytes of it before the payload, in the form MQTT prescribes. *)
Definition oversized (r : rsock) : Prop := exists p h rest, packet_ok (Publish p)
  /\ varint h (lenN (packet_body (Publish p))) /\ (length h <= 3)%nat
  /\ arriving r = n2b (head_byte (Publish p)) :: h ++ packet_body (Publish p) ++ rest
  /\ 1 + lenN h + lenN (packet_body (Publish p)) <= 4096 + lenN (payload (message p))
  /\ 4096 < lenN (topic (message p)) + lenN (payload (message p)).

Lemma oversized_hangs dbg r w a : oversized r -> hangs dbg (new_conn r w a) = true.
Proof.
  intros (p & h & rest & Ho & Hv & Hh & Ha & Hc & Hs). unfold hangs. cbn [new_conn c_reader].
  destruct (C15_large_publish_spins_refuted dbg h p rest (connection_stream r)) as (_ & K & _); auto.
  - apply wf_connection.
  - change (cap (rbuf (connection_stream r))) with 4096. 
    assert (HL : 1 + lenN h + lenN (packet_body (Publish p))
                 = lenN (publish_head (n2b (head_byte (Publish p))) h p) + lenN (payload (message p))).
    { unfold publish_head. cbn [packet_body]. unfold id_bytes. rewrite lenN_cons, !lenN_app. lia. }
    lia.
  - now rewrite K.
Qed.

(** The attack: as many connections as there are threads left, one packet each. *)
Definition attack (r : rsock) (w : wsock) (a : N) (first m : nat) : list plabel :=
  flat_map (fun k => [PStep (LAccept r w a); PSpin k]) (seq first m).

Lemma attack_works auth dbg workers r w a : oversized r -> forall m p, running (base p) = true -> listeners (base p) <> O ->
  (forall k, In k (spinning p) -> (k < length (conns (base p)))%nat) -> (m + length (spinning p) = workers)%nat ->
  exists p', pool_steps auth dbg workers p (attack r w a (length (conns (base p))) m) = Some p' /\ stalled workers p'
    /\ base p' = set_conns (conns (base p) ++ repeat (new_conn r w a) m) (base p).
Proof.
  intros HO. induction m as [|m IH]; intros p HR HL HK HM.
  - exists p. split; [reflexivity|]. split; [unfold stalled; lia|]. cbn [repeat]. rewrite app_nil_r. now destruct (base p).
  - set (s1 := set_conns (conns (base p) ++ [new_conn r w a]) (base p)).
    assert (E1 : pool_step auth dbg workers p (PStep (LAccept r w a)) = Some {| base := s1; spinning := spinning p |}).
    { cbn [pool_step on_worker]. assert (X : (length (spinning p) <? workers)%nat = true) by (apply Nat.ltb_lt; lia).
      rewrite X. cbn [andb negb]. unfold step. rewrite HR. destruct (listeners (base p)); [congruence|reflexivity]. }
    set (p2 := {| base := s1; spinning := length (conns (base p)) :: spinning p |}).
    assert (E2 : pool_step auth dbg workers {| base := s1; spinning := spinning p |} (PSpin (length (conns (base p)))) = Some p2).
    { cbn [pool_step base spinning]. change (running s1) with (running (base p)). rewrite HR.
      assert (X : (length (spinning p) <? workers)%nat = true) by (apply Nat.ltb_lt; lia). rewrite X.
      assert (Y : existsb (Nat.eqb (length (conns (base p)))) (spinning p) = false).
      { destruct (existsb (Nat.eqb (length (conns (base p)))) (spinning p)) eqn:Y; [|reflexivity]. apply existsb_exists in Y.
        destruct Y as (k & Hin & Ek). apply Nat.eqb_eq in Ek. subst k. specialize (HK _ Hin). lia. }
      rewrite Y. cbn [andb negb]. cbn [s1 conns set_conns]. rewrite nth_error_app2, Nat.sub_diag by lia. cbn [nth_error].
      rewrite (oversized_hangs dbg r w a HO). reflexivity. }
    destruct (IH p2) as (p' & E & HS & Eb).
    + exact HR.
    + exact HL.
    + cbn [p2 base spinning s1 conns set_conns]. rewrite app_length. cbn [length]. intros k [<-|Hin]; [lia|].
      specialize (HK _ Hin). lia.
    + cbn [p2 spinning length]. lia.
    + exists p'. split; [|split; [exact HS|]].
      * unfold attack. cbn [seq flat_map app]. cbn [pool_steps]. rewrite E1. cbn [pool_steps]. rewrite E2.
        cbn [p2 base s1 conns set_conns] in E. rewrite app_length in E. cbn [length] in E.
        replace (length (conns (base p)) + 1)%nat with (Datatypes.S (length (conns (base p)))) in E by lia. exact E.
      * rewrite Eb. cbn [p2 base s1 conns set_conns]. unfold set_conns. cbn. rewrite <- app_assoc. reflexivity.
Qed.

(** Whatever state the broker is in: with one connection and one packet for each thread, without logging in,
    a client stops it. Afterwards nothing is ever read, handled, sent or accepted, and ctrl-c does not end
    the program. *)
Theorem C83_oversized_packets_stop_the_broker auth dbg workers n p r w a : pool_reachable auth dbg workers n p ->
  running (base p) = true -> listeners (base p) <> O -> oversized r ->
  exists m p', (m <= workers)%nat /\ pool_steps auth dbg workers p (attack r w a (length (conns (base p))) m) = Some p'
    /\ base p' = set_conns (conns (base p) ++ repeat (new_conn r w a) m) (base p)
    /\ forall ls p'', pool_steps auth dbg workers p' ls = Some p'' ->
         conns (base p'') = conns (base p') /\ handled (base p'') = handled (base p) /\ log (base p'') = log (base p)
         /\ svc (base p'') = svc (base p) /\ running (base p'') = true
         /\ Forall (fun l => l = PStep LCtrlC \/ l = PStep LMain) ls.
Proof.
  intros HP HR HL HO. destruct (C84_same_broker _ _ _ _ _ HP) as (HB & HW & _ & HS).
  destruct (attack_works auth dbg workers r w a HO (workers - length (spinning p)) p HR HL) as (p' & E & Hst & Eb).
  - intros k Hin. destruct (HS k Hin) as (c & Hk & _). apply nth_error_Some. congruence.
  - lia.
  - exists (workers - length (spinning p))%nat, p'. split; [lia|]. split; [exact E|]. split; [exact Eb|].
    intros ls p'' Els. destruct (stalled_steps _ _ _ _ _ _ Hst Els) as (_ & K2 & K3 & F1 & _ & _ & F4 & _ & F6 & F7).
    + rewrite Eb. exact HL.
    + rewrite Eb. cbn [main set_conns]. destruct (main_waits auth dbg n (base p) HB HL) as [H|[H|H]]; auto.
      unfold running in HR. rewrite H in HR. discriminate.
    + rewrite Eb in F4, F6, F7. auto 10.
Qed.

(** Conversely every run of the broker is one on worker threads. *)
Theorem C84_all_runs auth dbg w n s : w <> O -> reachable auth dbg n s ->
  pool_reachable auth dbg w n {| base := s; spinning := [] |}.
Proof.
  intros Hw. revert s. apply reachable_ind.
  - now exists [].
  - intros s l s' _ IH E. eapply pool_reachable_step; [exact IH|]. instantiate (1 := PStep l). cbn [pool_step spinning length base].
    destruct w; [congruence|]. cbn [Nat.ltb Nat.leb negb]. now rewrite andb_false_r, E.
Qed.

Definition ex_big : rsock :=
  {| arriving := n2b (head_byte (Publish big_publish)) :: [x83; x20] ++ packet_body (Publish big_publish) ++ [];
     ending := PeerOpen; chunks := []; grants := []; reuse := true |}.

Lemma ex_big_oversized : oversized ex_big /\ lenN (arriving ex_big) = 4102.
Proof.
  split; [|vm_compute; reflexivity]. exists big_publish, [x83; x20], [].
  split; [split; [now apply text_lit|reflexivity]|]. split.
  { change (lenN (packet_body (Publish big_publish))) with (b2n x83 - 128 + 128 * b2n x20).
    repeat constructor; vm_compute; congruence. }
  split; [cbn; lia|]. split; [reflexivity|]. split; vm_compute; congruence.
Qed.

(** A broker on two threads that serves a subscriber and a publisher, and has forwarded messages. *)
Example C83_case : exists p, pool_reachable ex_deny true 2 1 p /\ running (base p) = true /\ listeners (base p) = 1%nat
  /\ length (handled (base p)) = 6%nat /\ length (log (base p)) = 6%nat /\ oversized ex_big.
Proof.
  exists {| base := ex_two; spinning := [] |}. split.
  - apply C84_all_runs; [discriminate|]. apply drive_reachable.
  - split; [vm_compute; reflexivity|]. split; [vm_compute; reflexivity|]. split; [vm_compute; reflexivity|].
    split; [vm_compute; reflexivity|]. apply ex_big_oversized.
Qed.

(** ** C85 *)

Definition pool_internal (l : plabel) : Prop := match l with PStep l => internal l | PSpin _ => True end.

(** No worker and not the main thread has anything to do, other than spinning. *)
Definition pool_at_rest auth dbg w (p : pool) : Prop := forall l, pool_internal l -> pool_step auth dbg w p l = None.

Inductive pool_inevitably auth dbg w (P : sys -> Prop) (p : pool) : Prop :=
| PoolInevitably : (pool_at_rest auth dbg w p -> P (base p)) ->
    (forall l p', pool_internal l -> pool_step auth dbg w p l = Some p' -> pool_inevitably auth dbg w P p') ->
    pool_inevitably auth dbg w P p.

Lemma nth_error_ext {A} (l1 : list A) : forall l2, (forall k, nth_error l1 k = nth_error l2 k) -> l1 = l2.
Proof.
  induction l1 as [|x l1 IH]; intros [|y l2] H; [reflexivity|discriminate (H O)|discriminate (H O)|].
  specialize (H O) as H0. injection H0 as ->. f_equal. apply IH. intros k. exact (H (Datatypes.S k)).
Qed.

Lemma rsocks_stay auth dbg s l s' : internal l -> step auth dbg s l = Some s' ->
  map c_rsock (conns s') = map c_rsock (conns s).
Proof.
  intros HI HS. apply nth_error_ext. intros k. rewrite !nth_error_map.
  destruct (nth_error (conns s') k) as [c|] eqn:Hk.
  - destruct (peers_stay auth dbg s s' (step_trans auth dbg s l s' HS) k c Hk) as [(c0 & H0 & _ & E)|HN].
    + rewrite H0. cbn [option_map]. now rewrite E.
    + exfalso. apply nth_error_None in HN. rewrite <- (no_new_conns auth dbg s l s' HI HS) in HN.
      apply nth_error_None in HN. congruence.
  - apply nth_error_None in Hk. rewrite (no_new_conns auth dbg s l s' HI HS) in Hk. apply nth_error_None in Hk. now rewrite Hk.
Qed.

Lemma overruns_stay auth dbg s l s' : internal l -> step auth dbg s l = Some s' ->
  length (filter (overruns dbg) (conns s')) = length (filter (overruns dbg) (conns s)).
Proof.
  intros HI HS. pose proof (rsocks_stay auth dbg s l s' HI HS) as E.
  set (g := fun r => match snd (read_all dbg (connection_stream r)) with EndHung => true | _ => false end).
  assert (K : forall l, length (filter (overruns dbg) l) = length (filter g (map c_rsock l))).
  { clear. induction l as [|c l IH]; [reflexivity|]. cbn [filter map]. change (overruns dbg c) with (g (c_rsock c)).
    destruct (g (c_rsock c)); cbn [length]; congruence. }
  now rewrite !K, E.
Qed.

(** With fewer overrunning connections than threads everything owed gets done, as in C62. *)
Theorem C85_everything_gets_done auth dbg w n p : pool_reachable auth dbg w n p ->
  (length (filter (overruns dbg) (conns (base p))) < w)%nat ->
  (forall k c, nth_error (conns (base p)) k = Some c -> ~ blocks (c_wsock c)) ->
  pool_inevitably auth dbg w (fun s' => handler_alive (hdl s') = true ->
    after auth (handled s') (svc s') /\ forall k c, nth_error (conns s') k = Some c -> up_to_date auth dbg s' k c) p.
Proof.
  intros HP HF HB. destruct (C84_same_broker _ _ _ _ _ HP) as (HR & _).
  pose proof (dies_out auth dbg n (base p) HR) as HA. remember (base p) as s eqn:Es.
  revert p HP Es. induction HA as [s _ IH]. intros p.
  remember (w - length (spinning p))%nat as free eqn:Ef. revert p Ef.
  induction free as [free IHf] using (well_founded_induction lt_wf). intros p Ef HP Es. subst s.
  pose proof (C84_spinning_overruns _ _ _ _ _ HP) as HL. constructor.
  - intros HS HA. apply (C61_nothing_left_undone auth dbg n); auto. intros l Hl.
    destruct (step auth dbg (base p) l) as [s'|] eqn:E; [|reflexivity]. exfalso.
    pose proof (C84_free_worker auth dbg w n p l s' HP HF E) as K. rewrite (HS (PStep l) Hl) in K. discriminate.
  - intros l p' Hl E. destruct (pool_step_cases _ _ _ _ _ _ E)
      as [(l' & -> & Hs & Esp & _)|(k & c & -> & Eb & Esp & Hw & _)].
    + cbn [pool_internal] in Hl. apply (IH (base p')).
      * exists l'. split; [destruct l'; try exact I; destruct Hl|exact Hs].
      * rewrite (overruns_stay _ _ _ _ _ Hl Hs). exact HF.
      * eapply unblocked_stays; eauto.
      * eapply reachable_step; eauto.
      * eapply pool_reachable_step; eauto.
      * reflexivity.
    + apply (IHf (w - length (spinning p'))%nat).
      * rewrite Esp. cbn [length]. lia.
      * reflexivity.
      * eapply pool_reachable_step; eauto.
      * congruence.
Qed.

(** Two threads, one of which spins; a subscriber has been served, a publisher waits. *)
Definition ex_waiting : sys := drive ex_deny true (sys_init 1)
  (ex_sub_pub [] 0 ++ [LAccept (ex_peer [ex_client "q" None None; Publish (ex_message "a" "x")] PeerOpen) (ex_socket []) 2;
                       LAccept ex_big (ex_socket []) 3]).

Example C85_case : exists p, pool_reachable ex_deny true 2 1 p /\ spinning p = [3%nat]
  /\ length (filter (overruns true) (conns (base p))) = 1%nat
  /\ (forall k c, nth_error (conns (base p)) k = Some c -> ~ blocks (c_wsock c))
  /\ (exists c, nth_error (conns (base p)) 2%nat = Some c /\ client_sends true c = [ex_client "q" None None; Publish (ex_message "a" "x")]
        /\ c_read c = []) /\ handler_alive (hdl (base p)) = true.
Proof.
  exists {| base := ex_waiting; spinning := [3%nat] |}. split; [|split; [reflexivity|split; [vm_compute; reflexivity|]]].
  - eapply pool_reachable_step; [apply (C84_all_runs ex_deny true 2 1 ex_waiting); [discriminate|apply drive_reachable]|].
    instantiate (1 := PSpin 3%nat). vm_compute. reflexivity.
  - cbn [base]. split; [|split; [eexists; split; [vm_compute; reflexivity|split; vm_compute; reflexivity]|vm_compute; reflexivity]].
    assert (E : forallb (fun c => match wacts (c_wsock c) with [] => true | _ => false end) (conns ex_waiting) = true) by (vm_compute; reflexivity).
    rewrite forallb_forall in E. intros k c Hk Hb. apply nth_error_In, E in Hk. unfold blocks in Hb.
    destruct (wacts (c_wsock c)); [destruct Hb|discriminate].
Qed.

Example C84_case : exists p, pool_reachable ex_deny true 2 1 p /\ spinning p = [3%nat]
  /\ step ex_deny true (base p) (LReader 2%nat []) <> None.
Proof.
  exists {| base := ex_waiting; spinning := [3%nat] |}. split; [|split; [reflexivity|vm_compute; discriminate]].
  eapply pool_reachable_step; [apply (C84_all_runs ex_deny true 2 1 ex_waiting); [discriminate|apply drive_reachable]|].
  instantiate (1 := PSpin 3%nat). vm_compute. reflexivity.
Qed.
