(** Property C107: as many connections as threads that overrun their read buffer stop the broker. *)
From Verif Require Import Base Base_facts Packets Messaging Handler Decoder ReadStream ReadStream_facts Plain_facts
  Conn Conn_facts Spec_wire WriteStream System System_facts System_hist System_conn System_queue System_progress System_exit System_rest
  Prop_system Prop_rest Pool Prop_pool Prop_stop Prop_traffic.
Open Scope nat_scope.

(** ** C107 *)

(** The bytes the peer sends make the read task spin, and no packet before makes it end. *)
Definition doomed dbg (c : cstate) : bool :=
  match read_all dbg (connection_stream (c_rsock c)) with
  | ([], EndHung) | (Connect _ :: _, EndHung) => true
  | _ => false
  end.

Lemma doomed_end dbg c : doomed dbg c = true -> snd (read_all dbg (connection_stream (c_rsock c))) = EndHung
  /\ forall p qs, fst (read_all dbg (connection_stream (c_rsock c))) = p :: qs -> exists c', p = Connect c'.
Proof.
  unfold doomed. destruct (read_all dbg (connection_stream (c_rsock c))) as [[|q ps] e]; cbn [fst snd].
  - destruct e; try discriminate. intros _. split; [reflexivity|discriminate].
  - destruct q; try discriminate. destruct e; try discriminate. intros _. split; [reflexivity|]. intros p qs [= <- _]. eauto.
Qed.

(** Such a read task does not end. *)
Theorem doomed_reads auth dbg n s : reachable auth dbg n s ->
  each (fun _ c => doomed dbg c = true -> c_reader c <> RDone) s.
Proof.
  revert s. apply (reachable_trans_ind auth dbg n (each (fun _ c => doomed dbg c = true -> c_reader c <> RDone))).
  - intros [|k] c; discriminate.
  - intros s s' HR HI T.
    pose proof (reader_invariant auth dbg n s HR) as HRD.
    assert (U : forall k c c', nth_error (conns s) k = Some c -> c_reader c' = c_reader c ->
                c_rsock c' = c_rsock c -> each (fun _ c => doomed dbg c = true -> c_reader c <> RDone) (set_conn k c' s)).
    { intros k c c' Hk H1 H2. apply each_update; [exact HI|]. rewrite H1. unfold doomed. rewrite H2. exact (HI k c Hk). }
    destruct T; try exact HI; try (eapply U; eauto; reflexivity); try (apply each_update; [exact HI|discriminate]).
    + intros k c. cbn [conns set_conns]. rewrite nth_error_snoc. destruct (Nat.eqb k _); [|apply HI].
      intros [= <-]. discriminate.
    + apply each_update; [exact HI|]. intros HD _. apply doomed_end in HD. destruct HD as (_ & HD).
      cbn [c_rsock set_reader set_read] in HD.
      destruct (HRD k c H) as (rs0 & Hr & Hd). rewrite H0 in Hd. destruct Hd as (-> & E0). rewrite E0 in Hr.
      destruct (reads_read_all dbg _ _ _ (wf_connection (c_rsock c)) Hr) as (W & E).
      rewrite E, (read_all_step dbg rs0 W), H1 in HD. cbn [app fst] in HD. destruct (read_all dbg rs') as [qs e].
      destruct (HD p qs eq_refl) as (c' & ->). now apply (H2 c').
    + apply each_update; [exact HI|]. intros HD _. apply doomed_end in HD. destruct HD as (HD & _). cbn [c_rsock set_reader] in HD.
      destruct (HRD k c H) as (rs0 & Hr & Hd).
      destruct (reads_read_all dbg _ _ _ (wf_connection (c_rsock c)) Hr) as (W & E). rewrite E in HD. cbn [snd] in HD.
      assert (rs0 = rs) as ->.
      { destruct H0 as [H0|(cid & H0)]; rewrite H0 in Hd; now destruct Hd as (-> & _). }
      rewrite (read_all_step dbg rs W) in HD. destruct H1 as [E1|(e & E1)]; rewrite E1 in HD; discriminate.
Qed.

(** On every run of the broker's own tasks [P] holds in the end. *)
Inductive pool_must auth dbg w (P : pool -> Prop) (p : pool) : Prop :=
| PoolMust : (pool_at_rest auth dbg w p -> P p) ->
    (forall l p', pool_internal l -> pool_step auth dbg w p l = Some p' -> pool_must auth dbg w P p') ->
    pool_must auth dbg w P p.

(** Whatever happens from now on, new connections and ctrl-c included, nothing is handled or sent. *)
Definition no_more_service auth dbg w (p : pool) : Prop := forall ls p', pool_steps auth dbg w p ls = Some p' ->
  handled (base p') = handled (base p) /\ log (base p') = log (base p).

Lemma stalled_no_more auth dbg w p : stalled w p -> no_more_service auth dbg w p.
Proof.
  intros HS ls. revert p HS. induction ls as [|l ls IH]; intros p HS p'; cbn [pool_steps]; [intros [= <-]; auto|].
  destruct (pool_step auth dbg w p l) as [p1|] eqn:E; [|discriminate]. intros H.
  destruct (stalled_step _ _ _ _ _ _ HS E) as (HS1 & _ & _ & _ & _ & _ & _ & _ & _ & E1 & E2 & _).
  destruct (IH p1 HS1 p' H) as (F1 & F2). split; congruence.
Qed.

Lemma base_no_more auth dbg w (p : pool) : out_of_service auth dbg (base p) -> no_more_service auth dbg w p.
Proof.
  intros HO ls p' H.
  assert (K : exists ls', steps auth dbg (base p) ls' = Some (base p')).
  { clear HO. revert p H. induction ls as [|l ls IH]; intros p; cbn [pool_steps]; [intros [= <-]; now exists []|].
    destruct (pool_step auth dbg w p l) as [p1|] eqn:E; [|discriminate]. intros H. destruct (IH p1 H) as (ls' & E').
    destruct (pool_step_cases _ _ _ _ _ _ E) as [(l' & _ & Es & _)|(k & c & _ & Eb & _)].
    - exists (l' :: ls'). cbn [steps]. now rewrite Es.
    - exists ls'. now rewrite <- Eb. }
  destruct K as (ls' & K). exact (HO ls' (base p') K).
Qed.

Lemma filter_covered {A} (f : A -> bool) (l : list A) ks :
  (forall k x, nth_error l k = Some x -> f x = true -> In k ks) -> length (filter f l) <= length ks.
Proof.
  set (g := fun k => match nth_error l k with Some x => f x | None => false end). intros HK.
  assert (E : length (filter g (seq 0 (length l))) = length (filter f l)).
  { unfold g. clear. induction l as [|x l IH] using rev_ind; [reflexivity|].
    rewrite app_length, seq_app, !filter_app, !app_length. cbn [length seq filter Nat.add].
    rewrite nth_error_app2, Nat.sub_diag by lia. cbn [nth_error]. rewrite <- IH. f_equal; [|now destruct (f x)].
    f_equal. apply filter_ext_in. intros k Hk. apply in_seq in Hk. rewrite nth_error_app1 by lia. reflexivity. }
  rewrite <- E. apply NoDup_incl_length; [apply NoDup_filter, seq_NoDup|]. intros k Hk. apply filter_In in Hk.
  destruct Hk as (_ & Hk). unfold g in Hk. destruct (nth_error l k) as [x|] eqn:Ex; [|discriminate]. now apply (HK k x).
Qed.

(** Where the broker's tasks come to rest. *)
Lemma doomed_rest auth dbg w n p : pool_reachable auth dbg w n p -> pool_at_rest auth dbg w p ->
  w <= length (filter (doomed dbg) (conns (base p))) ->
  stalled w p \/ handler_alive (hdl (base p)) = false \/ stuck (base p).
Proof.
  intros HP HS HW. unfold stalled. destruct (Nat.le_gt_cases w (length (spinning p))) as [|HL]; [now left|right].
  destruct (C84_same_broker _ _ _ _ _ HP) as (HR & _ & _ & _).
  assert (HB : at_rest auth dbg (base p)).
  { intros l Hl. pose proof (HS (PStep l) Hl) as H. cbn [pool_step] in H.
    assert (X : (length (spinning p) <? w) = true) by (apply Nat.ltb_lt; lia). rewrite X in H. cbn [negb] in H.
    rewrite andb_false_r in H. destruct (step auth dbg (base p) l); [discriminate|reflexivity]. }
  destruct (C87_rest auth dbg n (base p) HR HB) as [HA|k c HA _ _|HI _ _]; [now left|now right|exfalso].
  assert (HA : handler_alive (hdl (base p)) = true) by now rewrite HI.
  pose proof (alive_running auth dbg n (base p) HR HA) as Hr.
  assert (HE : events (base p) = []).
  { pose proof (HB (LHandler 0%Z) I) as H. unfold step, step_handler in H. rewrite Hr, HI in H. now destruct (events (base p)). }
  assert (HC : length (filter (doomed dbg) (conns (base p))) <= length (spinning p)); [|lia].
  apply filter_covered. intros k c Hk HD.
  assert (Hh : hangs dbg c = true).
  { pose proof (HB (LReader k []) I) as H. unfold step, step_reader in H. rewrite Hr, Hk in H.
    destruct (reader_invariant auth dbg n (base p) HR k c Hk) as (rs & Hrd & Hd).
    destruct (reads_read_all dbg _ _ _ (wf_connection (c_rsock c)) Hrd) as (W & E).
    destruct (doomed_end dbg c HD) as (HD1 & _). rewrite E in HD1. cbn [snd] in HD1. rewrite (read_all_step dbg rs W) in HD1.
    pose proof (doomed_reads auth dbg n (base p) HR k c Hk HD) as HN. unfold hangs.
    destruct (c_reader c) as [rs'|e cid rs'|cid rs'|]; [| | |congruence].
    - destruct Hd as (-> & _). destruct (stream_read_packet dbg rs) as [q ?| | | | |]; try discriminate; [destruct q; discriminate|reflexivity].
    - rewrite HA, HE in H. discriminate.
    - destruct Hd as (-> & _). destruct (stream_read_packet dbg rs) as [q ?| | | | |]; try discriminate; reflexivity. }
  pose proof (HS (PSpin k) I) as H. cbn [pool_step] in H. rewrite Hr, Hk, Hh in H.
  assert (X : (length (spinning p) <? w) = true) by (apply Nat.ltb_lt; lia). rewrite X in H. cbn [andb] in H.
  rewrite andb_true_r in H. destruct (existsb (Nat.eqb k) (spinning p)) eqn:EX; [|discriminate].
  apply existsb_exists in EX. destruct EX as (j & Hin & Ej). apply Nat.eqb_eq in Ej. now subst j.
Qed.

Lemma doomed_stay auth dbg s l s' : internal l -> step auth dbg s l = Some s' ->
  length (filter (doomed dbg) (conns s')) = length (filter (doomed dbg) (conns s)).
Proof.
  intros HI HS. pose proof (rsocks_stay auth dbg s l s' HI HS) as E.
  set (g := fun r => match read_all dbg (connection_stream r) with
                     | ([], EndHung) | (Connect _ :: _, EndHung) => true | _ => false end).
  assert (K : forall l, length (filter (doomed dbg) l) = length (filter g (map c_rsock l))).
  { clear. induction l as [|c l IH]; [reflexivity|]. cbn [filter map]. change (doomed dbg c) with (g (c_rsock c)).
    destruct (g (c_rsock c)); cbn [length]; congruence. }
  now rewrite !K, E.
Qed.

(** From every state of a broker on [w] threads of which [w] connections send bytes that overrun the read
    buffer: however its tasks are scheduled, it comes to a state from which nothing is handled or sent any more. *)
Theorem C107_service_ends auth dbg w n p : pool_reachable auth dbg w n p ->
  w <= length (filter (doomed dbg) (conns (base p))) ->
  pool_must auth dbg w (fun p' => (stalled w p' \/ handler_alive (hdl (base p')) = false \/ stuck (base p'))
                                  /\ no_more_service auth dbg w p') p.
Proof.
  intros HP HF. destruct (C84_same_broker _ _ _ _ _ HP) as (HR & _).
  pose proof (dies_out auth dbg n (base p) HR) as HA. remember (base p) as s eqn:Es.
  revert p HP Es. induction HA as [s _ IH]. intros p.
  remember (w - length (spinning p)) as free eqn:Ef. revert p Ef.
  induction free as [free IHf] using (well_founded_induction lt_wf). intros p Ef HP Es. subst s. constructor.
  - intros HS. pose proof (doomed_rest auth dbg w n p HP HS HF) as HD. split; [exact HD|].
    destruct HD as [HD|[HD|HD]]; [now apply stalled_no_more|apply base_no_more; now apply ended_out|apply base_no_more; now apply stuck_out].
  - intros l p' Hl E. destruct (pool_step_cases _ _ _ _ _ _ E)
      as [(l' & -> & Hs & Esp & _)|(k & c & -> & Eb & Esp & Hw & _)].
    + cbn [pool_internal] in Hl. apply (IH (base p')).
      * exists l'. split; [destruct l'; try exact I; destruct Hl|exact Hs].
      * rewrite (doomed_stay _ _ _ _ _ Hl Hs). exact HF.
      * eapply reachable_step; eauto.
      * eapply pool_reachable_step; eauto.
      * reflexivity.
    + apply (IHf (w - length (spinning p'))).
      * rewrite Esp. cbn [length]. lia.
      * reflexivity.
      * eapply pool_reachable_step; eauto.
      * congruence.
Qed.

(** So [w] clients that each send ordinary small messages (C106) stop a broker on [w] threads, whatever it was
    doing before, without logging in successfully. *)
Theorem C107_ordinary_clients auth dbg w n p (peers : list (rsock * wsock * N)) : pool_reachable auth dbg w n p ->
  running (base p) = true -> listeners (base p) <> 0 -> length (spinning p) < w -> length peers = w ->
  (forall r ws a, In (r, ws, a) peers -> exists c qs, read_all dbg (connection_stream r) = (Connect c :: qs, EndHung)) ->
  exists p', pool_steps auth dbg w p (map (fun x => PStep (LAccept (fst (fst x)) (snd (fst x)) (snd x))) peers) = Some p'
    /\ pool_must auth dbg w (fun p'' => (stalled w p'' \/ handler_alive (hdl (base p'')) = false \/ stuck (base p''))
                                        /\ no_more_service auth dbg w p'') p'.
Proof.
  intros HP Hr HL HS HW HO.
  assert (K : forall l p, running (base p) = true -> listeners (base p) <> 0 -> length (spinning p) < w ->
    exists p', pool_steps auth dbg w p (map (fun x => PStep (LAccept (fst (fst x)) (snd (fst x)) (snd x))) l) = Some p'
      /\ conns (base p') = conns (base p) ++ map (fun x => new_conn (fst (fst x)) (snd (fst x)) (snd x)) l).
  { clear. induction l as [|[[r ws] a] l IH]; intros p Hr HL HS.
    - exists p. split; [reflexivity|]. cbn [map]. now rewrite app_nil_r.
    - cbn [map fst snd pool_steps].
      assert (E1 : pool_step auth dbg w p (PStep (LAccept r ws a))
                   = Some {| base := set_conns (conns (base p) ++ [new_conn r ws a]) (base p); spinning := spinning p |}).
      { cbn [pool_step on_worker]. assert (X : (length (spinning p) <? w) = true) by (apply Nat.ltb_lt; lia).
        rewrite X. cbn [andb negb]. unfold step. rewrite Hr. destruct (listeners (base p)); [congruence|reflexivity]. }
      rewrite E1. set (p1 := {| base := _; spinning := _ |}).
      destruct (IH p1) as (p' & E & Em); auto.
      exists p'. split; [exact E|]. rewrite Em. cbn [p1 base conns set_conns]. now rewrite <- app_assoc. }
  destruct (K peers p Hr HL HS) as (p' & E & Em). exists p'. split; [exact E|]. apply (C107_service_ends auth dbg w n).
  - destruct HP as (ls0 & HP). exists (ls0 ++ map (fun x => PStep (LAccept (fst (fst x)) (snd (fst x)) (snd x))) peers).
    now rewrite pool_steps_app, HP.
  - rewrite Em, filter_app, app_length.
    assert (HM : length (filter (doomed dbg) (map (fun x => new_conn (fst (fst x)) (snd (fst x)) (snd x)) peers)) = length peers).
    { clear - HO. induction peers as [|[[r ws] a] peers IH]; [reflexivity|]. cbn [map fst snd filter].
      destruct (HO r ws a (or_introl eq_refl)) as (c & qs & E). unfold doomed at 1. cbn [new_conn c_rsock]. rewrite E. cbn [length].
      f_equal. apply IH. intros r0 ws0 a0 Hin. apply (HO r0 ws0 a0). now right. }
    lia.
Qed.

(** Two clients that send 25-byte messages, on a broker with two threads that serves two others. *)
Definition ex_steady_peer : rsock :=
  {| arriving := ex_steady_bytes (Connect ex_steady_connect)
       ++ concat (repeat (ex_steady_bytes (Publish ex_steady)) (N.to_nat 200)) ++ [];
     ending := PeerOpen; chunks := 15%N :: repeat 25%N 200; grants := []; reuse := true |}.

Definition ex_steady_peers : list (rsock * wsock * N) :=
  [(ex_steady_peer, ex_socket [], 5%N); (ex_steady_peer, ex_socket [], 6%N)].

Example C107_case : exists p, pool_reachable ex_deny true 2 1 p /\ running (base p) = true /\ listeners (base p) <> 0
  /\ length (handled (base p)) = 6 /\ length (spinning p) < 2 /\ length ex_steady_peers = 2
  /\ forall r ws a, In (r, ws, a) ex_steady_peers -> exists c qs, read_all true (connection_stream r) = (Connect c :: qs, EndHung).
Proof.
  exists {| base := ex_two; spinning := [] |}. split; [apply C84_all_runs; [discriminate|]; apply drive_reachable|].
  split; [vm_compute; reflexivity|]. split; [vm_compute; discriminate|]. split; [vm_compute; reflexivity|].
  split; [cbn; lia|]. split; [reflexivity|].
  assert (E : read_all true (connection_stream ex_steady_peer) = (Connect ex_steady_connect :: repeat (Publish ex_steady) 163, EndHung)).
  { apply (C106_case true ex_steady_peer 200); reflexivity. }
  intros r ws a [H|[H|[]]]; injection H as <- _ _; eauto.
Qed.

(** And for any state after they were accepted. *)
Example C107_case_doomed : doomed true (new_conn ex_steady_peer (ex_socket []) 5%N) = true.
Proof. unfold doomed. cbn [new_conn c_rsock]. rewrite (C106_case true ex_steady_peer 200); reflexivity. Qed.
