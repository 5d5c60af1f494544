(** Property C122: when the process ends. *)
From Verif Require Import Base Base_facts Packets Messaging Handler Decoder ReadStream ReadStream_facts Plain_facts
  Conn Conn_facts Spec_wire WriteStream System System_facts System_hist System_conn System_queue System_progress System_exit System_rest
  Prop_system Prop_rest Prop_stop Prop_exit Pool Prop_pool Teardown.
Open Scope nat_scope.
Local Notation S := Datatypes.S.

Definition end_reachable auth dbg w n p := exists ls, end_steps auth dbg w (pool_init n) ls = Some p.

Lemma end_steps_app auth dbg w ls1 : forall p ls2, end_steps auth dbg w p (ls1 ++ ls2)
  = match end_steps auth dbg w p ls1 with Some p' => end_steps auth dbg w p' ls2 | None => None end.
Proof.
  induction ls1 as [|l ls1 IH]; intros p ls2; cbn [app end_steps]; [reflexivity|].
  destruct (end_step auth dbg w p l); [apply IH|reflexivity].
Qed.

Lemma end_reachable_step auth dbg w n p l p' : end_reachable auth dbg w n p -> end_step auth dbg w p l = Some p' ->
  end_reachable auth dbg w n p'.
Proof. intros (ls & H) E. exists (ls ++ [l]). rewrite end_steps_app, H. cbn [end_steps]. now rewrite E. Qed.

Lemma end_reachable_steps auth dbg w n ls : forall p p', end_reachable auth dbg w n p -> end_steps auth dbg w p ls = Some p' ->
  end_reachable auth dbg w n p'.
Proof.
  induction ls as [|l ls IH]; intros p p' HP; cbn [end_steps]; [intros [= <-]; exact HP|].
  destruct (end_step auth dbg w p l) as [p1|] eqn:E; [|discriminate]. apply IH. eapply end_reachable_step; eauto.
Qed.

Lemma end_reachable_ind auth dbg w n (P : pool -> Prop) : P (pool_init n) ->
  (forall p l p', end_reachable auth dbg w n p -> P p -> end_step auth dbg w p l = Some p' -> P p') ->
  forall p, end_reachable auth dbg w n p -> P p.
Proof.
  intros H0 HS p (ls & H). revert p H. induction ls as [|l ls IH] using rev_ind; intros p.
  - intros [= <-]. exact H0.
  - rewrite end_steps_app. destruct (end_steps auth dbg w (pool_init n) ls) as [p1|] eqn:E; [|discriminate].
    cbn [end_steps]. destruct (end_step auth dbg w p1 l) as [p2|] eqn:E2; [|discriminate]. intros [= <-].
    eapply HS; [exists ls; exact E| |exact E2]. now apply IH.
Qed.

(** What a step is. *)
Inductive end_cases auth dbg w (p p' : pool) : xlabel -> Prop :=
| CaseRun l : pool_step auth dbg w p l = Some p' -> end_cases auth dbg w p p' (XRun l)
| CaseTask l s : running (base p) = false -> length (spinning p) < w -> on_worker l = true ->
    step auth dbg (set_main MServing (base p)) l = Some s -> main s = MServing ->
    base p' = set_main (main (base p)) s -> spinning p' = spinning p -> end_cases auth dbg w p p' (XTask l)
| CaseLost now : running (base p) = false -> length (spinning p) < w -> asks_service (base p) = true ->
    service_running (base p) = false -> base p' = panic_handler (base p) -> spinning p' = spinning p ->
    end_cases auth dbg w p p' (XTask (LHandler now))
| CaseSpin k c : running (base p) = false -> length (spinning p) < w -> ~ In k (spinning p) ->
    nth_error (conns (base p)) k = Some c -> hangs dbg c = true -> base p' = base p -> spinning p' = k :: spinning p ->
    end_cases auth dbg w p p' (XSpin k)
| CaseDrop t : running (base p) = false -> length (spinning p) < w -> (forall k, t = TaskReader k -> ~ In k (spinning p)) ->
    drop_task (base p) t = Some (base p') -> spinning p' = spinning p -> end_cases auth dbg w p p' (XDrop t).

Lemma existsb_eqb k l : existsb (Nat.eqb k) l = true <-> In k l.
Proof.
  rewrite existsb_exists. split; [intros (j & Hin & E); apply Nat.eqb_eq in E; now subst|].
  intros H. exists k. split; [exact H|apply Nat.eqb_refl].
Qed.

Lemma end_step_cases auth dbg w p l p' : end_step auth dbg w p l = Some p' -> end_cases auth dbg w p p' l.
Proof.
  destruct l as [l|l|k|t]; cbn [end_step]; [intros H; now constructor|..];
    destruct (running (base p)) eqn:Hr; cbn [negb andb]; try discriminate;
    destruct (Nat.ltb_spec (length (spinning p)) w) as [HL|_]; try discriminate.
  - unfold task_step. destruct (on_worker l) eqn:EW; [|discriminate].
    destruct (match l with LHandler _ => asks_service (base p) && negb (service_running (base p)) | _ => false end) eqn:EA.
    { destruct l; try discriminate. rewrite EA. intros [= <-]. apply andb_true_iff in EA. destruct EA as (EA & EV).
      apply negb_true_iff in EV. now constructor. }
    intros HS. assert (HS' : match step auth dbg (set_main MServing (base p)) l with
      | Some s => Some {| base := set_main (main (base p)) s; spinning := spinning p |} | None => None end = Some p').
    { destruct l; rewrite ?EA in HS; destruct (step auth dbg (set_main MServing (base p)) _); exact HS. }
    clear HS. revert HS'.
    destruct (step auth dbg (set_main MServing (base p)) l) as [s|] eqn:E; [|discriminate]. intros [= <-].
    apply (CaseTask _ _ _ _ _ l s); auto.
    destruct (step_main_only _ _ _ _ _ E) as [->|[-> | ->]]; [reflexivity|discriminate|discriminate].
  - destruct (existsb (Nat.eqb k) (spinning p)) eqn:EX; [discriminate|]. cbn [negb andb].
    destruct (nth_error (conns (base p)) k) as [c|] eqn:Hk; [|discriminate]. destruct (hangs dbg c) eqn:Hh; [|discriminate].
    intros [= <-]. apply (CaseSpin _ _ _ _ _ k c); auto. intros Hin. apply existsb_eqb in Hin. congruence.
  - destruct (spins p t) eqn:ES; [discriminate|]. destruct (drop_task (base p) t) as [s|] eqn:E; [|discriminate].
    intros [= <-]. apply (CaseDrop _ _ _ _ _ t); auto. intros k -> Hin. cbn [spins] in ES. apply existsb_eqb in Hin. congruence.
Qed.

(** ** What stays *)

Lemma drop_main s t s' : drop_task s t = Some s' -> main s' = main s.
Proof.
  destruct t as [k|k| | |]; cbn [drop_task].
  - destruct (nth_error (conns s) k) as [c|]; [|discriminate]. destruct (c_reader c); try discriminate; now intros [= <-].
  - destruct (nth_error (conns s) k) as [c|]; [|discriminate]. destruct (c_writer c); try discriminate; now intros [= <-].
  - destruct (handler_alive (hdl s)); [|discriminate]. now intros [= <-].
  - destruct (listeners s); [discriminate|]. now intros [= <-].
  - destruct (service_running s); [|discriminate]. now intros [= <-].
Qed.

(** A connection after a task is dropped. *)
Lemma drop_conns s t s' k c : drop_task s t = Some s' -> nth_error (conns s) k = Some c ->
  exists c', nth_error (conns s') k = Some c' /\ c_rsock c' = c_rsock c /\ c_wsock c' = c_wsock c
    /\ (c_reader c' = c_reader c \/ c_reader c' = RDone /\ t = TaskReader k).
Proof.
  assert (U : forall j c0 c1, nth_error (conns s) j = Some c0 -> (j = k -> c0 = c -> c_rsock c1 = c_rsock c /\ c_wsock c1 = c_wsock c
      /\ (c_reader c1 = c_reader c \/ c_reader c1 = RDone /\ t = TaskReader k)) -> nth_error (conns s) k = Some c ->
    exists c', nth_error (update j c1 (conns s)) k = Some c' /\ c_rsock c' = c_rsock c /\ c_wsock c' = c_wsock c
      /\ (c_reader c' = c_reader c \/ c_reader c' = RDone /\ t = TaskReader k)).
  { intros j c0 c1 Hj Hc Hk. rewrite nth_update. destruct (Nat.eqb_spec k j) as [->|Hn].
    - rewrite Hj. exists c1. split; [reflexivity|]. apply Hc; congruence.
    - exists c. auto. }
  intros E Hk. destruct t as [j|j| | |]; cbn [drop_task] in E.
  - destruct (nth_error (conns s) j) as [c0|] eqn:Hj; [|discriminate].
    destruct (c_reader c0) eqn:ER; try discriminate; injection E as <-; cbn [conns set_conn set_conns];
      (eapply U; [exact Hj| |exact Hk]; intros -> ->; cbn; auto).
  - destruct (nth_error (conns s) j) as [c0|] eqn:Hj; [|discriminate].
    destruct (c_writer c0) eqn:EW; try discriminate; injection E as <-; cbn [conns set_conn set_conns];
      (eapply U; [exact Hj| |exact Hk]; intros -> ->; cbn; auto).
  - destruct (handler_alive (hdl s)); [|discriminate]. injection E as <-. exists c. auto.
  - destruct (listeners s); [discriminate|]. injection E as <-. exists c. auto.
  - destruct (service_running s); [|discriminate]. injection E as <-. exists c. auto.
Qed.

Lemma drop_length s t s' : drop_task s t = Some s' -> length (conns s') = length (conns s).
Proof.
  destruct t as [k|k| | |]; cbn [drop_task].
  - destruct (nth_error (conns s) k) as [c|]; [|discriminate]. destruct (c_reader c); try discriminate; intros [= <-]; apply update_length.
  - destruct (nth_error (conns s) k) as [c|]; [|discriminate]. destruct (c_writer c); try discriminate; intros [= <-]; apply update_length.
  - destruct (handler_alive (hdl s)); [|discriminate]. now intros [= <-].
  - destruct (listeners s); [discriminate|]. now intros [= <-].
  - destruct (service_running s); [|discriminate]. now intros [= <-].
Qed.

(** What a read task still reads ends as all that the peer sends does. *)
Definition on_track dbg (c : cstate) : Prop :=
  match c_reader c with
  | RFirst rs | RLoop _ rs | RPush _ _ rs =>
    wf rs /\ snd (read_all dbg (connection_stream (c_rsock c))) = snd (read_all dbg rs)
  | RDone => True
  end.

Lemma on_track_read dbg rs p rs' e : wf rs -> stream_read_packet dbg rs = ROk p rs' -> e = snd (read_all dbg rs) ->
  wf rs' /\ e = snd (read_all dbg rs').
Proof.
  intros W E ->. destruct (read_packet_consumes dbg rs p rs' W E) as (W' & _). split; [exact W'|].
  rewrite (read_all_step dbg rs W), E. now destruct (read_all dbg rs').
Qed.

Lemma on_track_trans auth dbg s s' : trans auth dbg s s' -> each (fun _ => on_track dbg) s -> each (fun _ => on_track dbg) s'.
Proof.
  intros T HI.
  assert (U : forall k c c', nth_error (conns s) k = Some c -> c_reader c' = c_reader c ->
              c_rsock c' = c_rsock c -> each (fun _ => on_track dbg) (set_conn k c' s)).
  { intros k c c' Hk H1 H2. apply each_update; [exact HI|]. unfold on_track. rewrite H1, H2. exact (HI k c Hk). }
  destruct T; try exact HI; try (eapply U; eauto; reflexivity); try (apply each_update; [exact HI|exact I]).
  - intros k c. cbn [conns set_conns]. rewrite nth_error_snoc. destruct (Nat.eqb k _); [|apply HI].
    intros [= <-]. unfold on_track. cbn [c_reader new_conn c_rsock]. split; [apply wf_connection|reflexivity].
  - apply each_update; [exact HI|]. pose proof (HI k c H) as K. unfold on_track in K |- *. rewrite H0 in K.
    cbn [c_reader set_reader c_rsock set_read]. destruct K as (W & K). eapply on_track_read; eauto.
  - apply (each_update (fun _ => on_track dbg) s k); [exact HI|]. pose proof (HI k c H) as K. unfold on_track in K |- *.
    rewrite H0 in K. exact K.
  - apply (each_update (fun _ => on_track dbg) s k); [exact HI|]. pose proof (HI k c H) as K. unfold on_track in K |- *.
    rewrite H0 in K. exact K.
  - apply each_update; [exact HI|]. pose proof (HI k c H) as K. unfold on_track in K |- *. rewrite H0 in K.
    cbn [c_reader set_reader c_rsock set_read]. destruct K as (W & K). eapply on_track_read; eauto.
Qed.

Lemma on_track_hangs dbg c : on_track dbg c -> hangs dbg c = true -> overruns dbg c = true.
Proof.
  unfold on_track, hangs, overruns. intros K H. destruct (c_reader c) as [rs|e cid rs|cid rs|]; try discriminate;
    destruct K as (W & ->); rewrite (read_all_step dbg rs W); destruct (stream_read_packet dbg rs); now try discriminate.
Qed.

(** The invariants of the whole life of a process. *)
Record alive auth dbg w n (p : pool) : Prop := {
  alive_run : running (base p) = true -> pool_reachable auth dbg w n p;
  alive_track : each (fun _ => on_track dbg) (base p);
  alive_spin : NoDup (spinning p) /\ forall k, In k (spinning p) -> exists c, nth_error (conns (base p)) k = Some c /\ hangs dbg c = true }.

Lemma alive_step auth dbg w n p l p' : alive auth dbg w n p -> end_step auth dbg w p l = Some p' -> alive auth dbg w n p'.
Proof.
  intros [HA HT [HN HS]] E. destruct (end_step_cases _ _ _ _ _ _ E) as [l HP|l s Hr Hw Hl Hs Hm Eb Es|now Hr Hw Ha Hv Eb Es|k c Hr Hw Hni Hk Hh Eb Es|t Hr Hw Ht Ed Es].
  - assert (Hr : running (base p) = true).
    { destruct (pool_step_cases _ _ _ _ _ _ HP) as [(l' & -> & Hs & _)|(k & c & _ & _ & _ & _ & _ & _ & _ & Hr)]; [|exact Hr].
      unfold step in Hs. destruct (running (base p)); [reflexivity|discriminate]. }
    pose proof (pool_reachable_step _ _ _ _ _ _ _ (HA Hr) HP) as HP'.
    destruct (C84_same_broker _ _ _ _ _ HP') as (_ & _ & HN' & HS'). split; auto.
    destruct (pool_step_cases _ _ _ _ _ _ HP) as [(l' & -> & Hs & _)|(k & c & _ & -> & _)]; [|exact HT].
    eapply on_track_trans; [eapply step_trans; exact Hs|exact HT].
  - split.
    + rewrite Eb. intros H. exfalso. assert (X : running (set_main (main (base p)) s) = running (base p)) by reflexivity. congruence.
    + rewrite Eb. apply (on_track_trans _ _ _ _ (step_trans _ _ _ _ _ Hs)). exact HT.
    + rewrite Es, Eb. split; [exact HN|]. intros k Hin. destruct (HS k Hin) as (c & Hk & Hh).
      destruct (hangs_stays _ _ _ _ k c (step_trans _ _ _ _ _ Hs) Hk Hh) as (c' & H1 & H2 & _). exists c'. auto.
  - split; rewrite ?Eb, ?Es; [|exact HT|now split].
    intros H. exfalso. change (running (panic_handler (base p))) with (running (base p)) in H. congruence.
  - split; rewrite ?Eb; auto; [congruence|]. rewrite Es. split; [now constructor|]. intros j [<-|Hin]; eauto.
  - pose proof (drop_main _ _ _ Ed) as Em. split.
    + intros H. exfalso. unfold running in H, Hr. rewrite Em in H. congruence.
    + intros k c' Hk'. destruct (nth_error (conns (base p)) k) as [c|] eqn:Hk.
      * destruct (drop_conns _ _ _ _ _ Ed Hk) as (c1 & H1 & H2 & _ & H3). assert (c1 = c') as -> by congruence.
        unfold on_track. destruct H3 as [H3|(H3 & _)]; rewrite H3; [|exact I]. rewrite H2. exact (HT k c Hk).
      * exfalso. apply nth_error_None in Hk. rewrite <- (drop_length _ _ _ Ed) in Hk. apply nth_error_None in Hk. congruence.
    + rewrite Es. split; [exact HN|]. intros k Hin. destruct (HS k Hin) as (c & Hk & Hh).
      destruct (drop_conns _ _ _ _ _ Ed Hk) as (c1 & H1 & H2 & _ & H3). exists c1. split; [exact H1|].
      destruct H3 as [H3|(_ & ->)]; [unfold hangs; rewrite H3; exact Hh|]. exfalso. exact (Ht k eq_refl Hin).
Qed.

Lemma end_alive auth dbg w n p : end_reachable auth dbg w n p -> alive auth dbg w n p.
Proof.
  revert p. apply end_reachable_ind; [|intros p l p' _ HA E; eapply alive_step; eauto].
  split; [intros _; now exists []|intros [|k] c; discriminate|]. split; [constructor|intros k []].
Qed.

(** ** C122: a process with a spinning read task does not end *)

Lemma spinning_not_gone auth dbg w n p : alive auth dbg w n p -> spinning p <> [] -> gone p = false.
Proof.
  intros [_ _ [_ HS]] H. destruct (spinning p) as [|k ks] eqn:E; [congruence|]. destruct (HS k (or_introl eq_refl)) as (c & Hk & Hh).
  unfold gone. destruct (forallb _ (conns (base p))) eqn:F; [|now rewrite !andb_false_r].
  rewrite forallb_forall in F. pose proof (F c (nth_error_In _ _ Hk)) as K. unfold hangs in Hh.
  destruct (c_reader c); discriminate.
Qed.

Lemma spinning_stays auth dbg w p l p' k : end_step auth dbg w p l = Some p' -> In k (spinning p) -> In k (spinning p').
Proof.
  intros E Hin. destruct (end_step_cases _ _ _ _ _ _ E) as [l HP|l s Hr Hw Hl Hs Hm Eb Es|now Hr Hw Ha Hv Eb Es|j c Hr Hw Hni Hk Hh Eb Es|t Hr Hw Ht Ed Es];
    try (rewrite Es; auto with datatypes; fail).
  destruct (pool_step_cases _ _ _ _ _ _ HP) as [(l' & _ & _ & -> & _)|(j & c & _ & _ & -> & _)]; auto with datatypes.
Qed.

(** Whatever happens: ctrl-c, main returning, everything else being dropped. *)
Theorem C122_spinning_never_ends auth dbg w n p : end_reachable auth dbg w n p -> spinning p <> [] ->
  forall ls p', end_steps auth dbg w p ls = Some p' -> gone p' = false.
Proof.
  intros HP HS ls p' H. destruct (spinning p) as [|k ks] eqn:E; [congruence|].
  assert (K : In k (spinning p')).
  { assert (Hin : In k (spinning p)) by (rewrite E; now left). clear - Hin H. revert p p' Hin H.
    induction ls as [|l ls IH]; intros p p' Hin; cbn [end_steps]; [intros [= <-]; exact Hin|].
    destruct (end_step auth dbg w p l) as [p1|] eqn:E; [|discriminate]. apply IH. eapply spinning_stays; eauto. }
  apply (spinning_not_gone auth dbg w n); [apply end_alive; eapply end_reachable_steps; eauto|]. intros Z. now rewrite Z in K.
Qed.

(** One packet of a client that does not even log in brings that about, whatever the number of threads and
    whatever state the broker is in (without a free thread some read task spins already). *)
Theorem C122_one_packet auth dbg w n p r ws a : end_reachable auth dbg w n p -> running (base p) = true ->
  listeners (base p) <> O -> length (spinning p) < w -> oversized r ->
  exists p', end_steps auth dbg w p [XRun (PStep (LAccept r ws a)); XRun (PSpin (length (conns (base p))))] = Some p'
    /\ base p' = set_conns (conns (base p) ++ [new_conn r ws a]) (base p)
    /\ forall ls p'', end_steps auth dbg w p' ls = Some p'' -> gone p'' = false.
Proof.
  intros HP Hr HL HW HO. destruct (end_alive _ _ _ _ _ HP) as [_ _ [HN HS]].
  set (s1 := set_conns (conns (base p) ++ [new_conn r ws a]) (base p)).
  set (p' := {| base := s1; spinning := length (conns (base p)) :: spinning p |}).
  assert (X : (length (spinning p) <? w) = true) by now apply Nat.ltb_lt.
  assert (Y : existsb (Nat.eqb (length (conns (base p)))) (spinning p) = false).
  { apply not_true_iff_false. rewrite existsb_eqb. intros Hin. destruct (HS _ Hin) as (c & Hk & _).
    rewrite (proj2 (nth_error_None _ _) (Nat.le_refl _)) in Hk. discriminate. }
  assert (E : end_steps auth dbg w p [XRun (PStep (LAccept r ws a)); XRun (PSpin (length (conns (base p))))] = Some p').
  { cbn [end_steps end_step pool_step on_worker]. rewrite X. cbn [andb negb]. unfold step. rewrite Hr.
    destruct (listeners (base p)) as [|m] eqn:EL; [congruence|]. fold s1. cbn [base spinning].
    change (running s1) with (running (base p)). rewrite Hr, X, Y. cbn [andb negb]. cbn [s1 conns set_conns].
    rewrite nth_error_app2, Nat.sub_diag by lia. cbn [nth_error]. now rewrite (oversized_hangs dbg r ws a HO). }
  exists p'. split; [exact E|]. split; [reflexivity|].
  apply (C122_spinning_never_ends auth dbg w n); [eapply end_reachable_steps; eauto|discriminate].
Qed.

(** ** C122: otherwise it does *)

(** Steps of the threads themselves: no new connection, no signal. *)
Definition end_internal (l : xlabel) : Prop :=
  match l with XRun l => pool_internal l | XTask l => settled l | XSpin _ | XDrop _ => True end.

Definition end_at_rest auth dbg w (p : pool) : Prop := forall l, end_internal l -> end_step auth dbg w p l = None.

(** Every run of the threads is finite and [P] holds where it ends. *)
Inductive end_inevitably auth dbg w (P : pool -> Prop) (p : pool) : Prop :=
| EndInevitably : (end_at_rest auth dbg w p -> P p) ->
    (forall l p', end_internal l -> end_step auth dbg w p l = Some p' -> end_inevitably auth dbg w P p') ->
    end_inevitably auth dbg w P p.

Lemma drop_lower s t s' : drop_task s t = Some s' -> lower (rank s') (rank s).
Proof.
  destruct t as [k|k| | |]; cbn [drop_task].
  - destruct (nth_error (conns s) k) as [c|] eqn:Hk; [|discriminate].
    assert (D : c_reader c <> RDone -> lower (rank (set_conn k (set_reader RDone c) s)) (rank s)).
    { intros H. left. cbn [conns main listeners service_running hdl set_conn set_conns].
      pose proof (total_lt (fun c => reader_rank (c_reader c)) k c (set_reader RDone c) (conns s) Hk) as L. cbn beta in L.
      cbn [c_reader set_reader reader_rank] in L. assert (0 < reader_rank (c_reader c)) by (destruct (c_reader c); cbn [reader_rank]; try lia; congruence).
      lia. }
    destruct (c_reader c); try discriminate; intros [= <-]; apply D; discriminate.
  - destruct (nth_error (conns s) k) as [c|] eqn:Hk; [|discriminate].
    assert (D : forall ws, (forall v, c_writer c <> WClosed v) ->
      lower (rank (set_conn k (set_writer (WClosed ws) (set_queue [] c)) s)) (rank s)).
    { intros ws H. right. cbn [conns main listeners service_running hdl events set_conn set_conns].
      rewrite (total_eq (fun c => reader_rank (c_reader c)) k c _ (conns s) Hk) by reflexivity.
      split; [reflexivity|]. right. split; [reflexivity|]. right. split; [reflexivity|]. apply (total_lt writer_rank k c); [exact Hk|].
      unfold writer_rank. cbn. destruct (c_writer c); try lia. exfalso. now apply (H ws0). }
    destruct (c_writer c); try discriminate; intros [= <-]; apply D; discriminate.
  - destruct (hdl s) eqn:EH; try discriminate; cbn [handler_alive]; intros [= <-]; left; cbn; rewrite EH; cbn; lia.
  - destruct (listeners s) eqn:EL; [discriminate|]. intros [= <-]. left. cbn. rewrite EL. lia.
  - destruct (service_running s) eqn:ES; [|discriminate]. intros [= <-]. left. cbn. rewrite ES. cbn. lia.
Qed.

Lemma track_wf dbg s : each (fun _ => on_track dbg) s -> readers_wf s.
Proof.
  intros H k c Hk. specialize (H k c Hk). unfold on_track in H. destruct (c_reader c); [apply H..|exact I].
Qed.

Lemma lower_main m m' s s' : lower (rank (set_main m s)) (rank (set_main m s')) -> lower (rank (set_main m' s)) (rank (set_main m' s')).
Proof.
  unfold rank. cbn [conns main listeners service_running hdl events set_main lower]. intros [H|(H1 & H2)]; [left; lia|right].
  split; [lia|exact H2].
Qed.

Lemma set_main_same s : set_main (main s) s = s.
Proof. now destruct s. Qed.

Lemma end_lower auth dbg w n p l p' : alive auth dbg w n p -> end_internal l -> end_step auth dbg w p l = Some p' ->
  lower (rank (base p')) (rank (base p))
  \/ base p' = base p /\ length (spinning p) < w /\ length (spinning p') = 1 + length (spinning p).
Proof.
  intros HA HI E. pose proof (track_wf dbg _ (alive_track _ _ _ _ _ HA)) as HW.
  destruct (end_step_cases _ _ _ _ _ _ E) as [l HP|l s Hr Hw Hl Hs Hm Eb Es|now Hr Hw Ha Hv Eb Es|j c Hr Hw Hni Hk Hh Eb Es|t Hr Hw Ht Ed Es].
  - destruct (pool_step_cases _ _ _ _ _ _ HP) as [(l' & -> & Hs & _)|(j & c & -> & Eb & -> & Hw & _)]; [left|auto].
    cbn [end_internal pool_internal] in HI. eapply step_lower; [exact HW| |exact Hs]. destruct l'; try exact I; destruct HI.
  - left. cbn [end_internal] in HI. rewrite Eb, <- (set_main_same (base p)) at 1.
    pose proof (step_lower auth dbg (set_main MServing (base p)) l s HW HI Hs) as L.
    rewrite <- (set_main_same s), Hm in L. rewrite <- (set_main_same (base p)) at 2. exact (lower_main _ _ _ _ L).
  - left. rewrite Eb. unfold asks_service in Ha. destruct (hdl (base p)) eqn:EH; try discriminate. left. cbn. rewrite EH. cbn. lia.
  - right. rewrite Es. auto.
  - left. eapply drop_lower; eauto.
Qed.

Lemma running_signal auth dbg n s : reachable auth dbg n s -> running s = true -> main s <> MServing -> ctrl_c s = true.
Proof.
  revert s. apply (reachable_ind auth dbg n (fun s => running s = true -> main s <> MServing -> ctrl_c s = true)); [intros _ []; reflexivity|].
  intros s l s' HR HI E Hr' Hm. assert (Hr : running s = true) by (unfold step in E; destruct (running s); [reflexivity|discriminate]).
  destruct (step_main_only auth dbg s l s' E) as [Em|[-> | ->]].
  - apply (signal_stays auth dbg s l s' E). apply HI; [exact Hr|congruence].
  - unfold step in E. rewrite Hr in E. destruct (main s); try discriminate. destruct (_ || _); injection E as <-; [reflexivity|discriminate].
  - apply (signal_stays auth dbg s LMain s' E). apply HI; [exact Hr|]. intros M. unfold step, step_main in E. rewrite Hr, M in E. discriminate.
Qed.

(** Where the threads come to rest once main has left its wait for the signal: at the end of the process, or some
    read task spins, or the handler waits for a peer that does not read. *)
Theorem C122_rest auth dbg w n p : end_reachable auth dbg w n p -> w <> O -> main (base p) <> MServing -> end_at_rest auth dbg w p ->
  gone p = true \/ spinning p <> []
  \/ running (base p) = true /\ stuck (base p) /\ exists k c, nth_error (conns (base p)) k = Some c /\ In WBlock (wacts (c_wsock c)).
Proof.
  intros HP HW HM HS. destruct (spinning p) as [|k ks] eqn:ES; [|right; left; discriminate].
  assert (X : (length (spinning p) <? w) = true) by (rewrite ES; cbn; destruct w; [congruence|reflexivity]).
  pose proof (end_alive _ _ _ _ _ HP) as HA. destruct (running (base p)) eqn:Hr.
  - right. right. split; [reflexivity|]. destruct (C84_same_broker _ _ _ _ _ (alive_run _ _ _ _ _ HA Hr)) as (HR & _).
    assert (HB : at_rest auth dbg (base p)).
    { intros l Hl. pose proof (HS (XRun (PStep l)) Hl) as H. cbn [end_step pool_step] in H. rewrite X in H. cbn [negb] in H.
      rewrite andb_false_r in H. destruct (step auth dbg (base p) l); [discriminate|reflexivity]. }
    destruct (rest_after_signal auth dbg n (base p) HR HB) as [H|[H|H]]; [now apply (running_signal auth dbg n)| | |exact H];
      unfold running in Hr; rewrite H in Hr; discriminate.
  - left.
    assert (D : forall t, drop_task (base p) t = None).
    { intros t. pose proof (HS (XDrop t) I) as H. cbn [end_step] in H. rewrite Hr, X in H. cbn [negb andb] in H.
      assert (Y : spins p t = false) by (unfold spins; rewrite ES; now destruct t). rewrite Y in H.
      destruct (drop_task (base p) t); [discriminate|reflexivity]. }
    unfold gone. rewrite Hr. cbn [negb andb].
    assert (F : forallb (fun c => match c_reader c with RDone => true | _ => false end
                       && match c_writer c with WClosed _ => true | _ => false end) (conns (base p)) = true).
    { apply forallb_forall. intros c Hin. apply In_nth_error in Hin. destruct Hin as (k & Hk).
      pose proof (D (TaskReader k)) as D1. pose proof (D (TaskWriter k)) as D2. cbn [drop_task] in D1, D2. rewrite Hk in D1, D2.
      destruct (c_reader c); try discriminate. destruct (c_writer c); try discriminate. reflexivity. }
    rewrite F. pose proof (D TaskHandler) as D1. pose proof (D TaskListener) as D2. pose proof (D TaskService) as D3.
    cbn [drop_task] in D1, D2, D3. destruct (handler_alive (hdl (base p))); [discriminate|].
    destruct (listeners (base p)); [|discriminate]. destruct (service_running (base p)); [discriminate|reflexivity].
Qed.

(** Main does not go back to waiting for the signal. *)
Lemma main_left auth dbg w p l p' : end_step auth dbg w p l = Some p' -> main (base p) <> MServing -> main (base p') <> MServing.
Proof.
  intros E HM. destruct (end_step_cases _ _ _ _ _ _ E) as [l HP|l s Hr Hw Hl Hs Hm Eb Es|now Hr Hw Ha Hv Eb Es|j c Hr Hw Hni Hk Hh Eb Es|t Hr Hw Ht Ed Es].
  - destruct (pool_step_cases _ _ _ _ _ _ HP) as [(l' & -> & Hs & _)|(j & c & -> & -> & _)]; [|exact HM].
    apply step_trans in Hs. destruct Hs; try exact HM; [discriminate|assumption].
  - rewrite Eb. exact HM.
  - rewrite Eb. exact HM.
  - now rewrite Eb.
  - now rewrite (drop_main _ _ _ Ed).
Qed.

Lemma end_finite auth dbg w n (P : pool -> Prop) : forall p, end_reachable auth dbg w n p ->
  (forall p', end_reachable auth dbg w n p' -> (exists ls, Forall end_internal ls /\ end_steps auth dbg w p ls = Some p') ->
     end_at_rest auth dbg w p' -> P p') ->
  end_inevitably auth dbg w P p.
Proof.
  intros p. remember (rank (base p)) as r eqn:Er. revert p Er.
  induction r as [r IH] using (well_founded_induction lower_wf). intros p.
  remember (w - length (spinning p)) as free eqn:Ef. revert p Ef.
  induction free as [free IHf] using (well_founded_induction lt_wf). intros p Ef Er HP HX. constructor.
  - intros HS. apply HX; [exact HP| |exact HS]. now exists [].
  - intros l p' Hl E. pose proof (end_reachable_step _ _ _ _ _ _ _ HP E) as HP'.
    assert (HX' : forall p'', end_reachable auth dbg w n p'' ->
      (exists ls, Forall end_internal ls /\ end_steps auth dbg w p' ls = Some p'') -> end_at_rest auth dbg w p'' -> P p'').
    { intros p'' H1 (ls & H2 & H3). apply HX; [exact H1|]. exists (l :: ls). split; [now constructor|]. cbn [end_steps]. now rewrite E. }
    destruct (end_lower _ _ _ _ _ _ _ (end_alive _ _ _ _ _ HP) Hl E) as [L|(Eb & Hw & Es)].
    + apply (IH (rank (base p'))); auto. now rewrite Er.
    + apply (IHf (w - length (spinning p'))); auto; [lia|now rewrite Eb].
Qed.

(** Peers and their bytes stay. *)
Lemma end_peers auth dbg w p l p' : end_internal l -> end_step auth dbg w p l = Some p' ->
  map (fun c => (c_rsock c, c_wsock c)) (conns (base p')) = map (fun c => (c_rsock c, c_wsock c)) (conns (base p)).
Proof.
  assert (T : forall s l s', internal l -> step auth dbg s l = Some s' ->
    map (fun c => (c_rsock c, c_wsock c)) (conns s') = map (fun c => (c_rsock c, c_wsock c)) (conns s)).
  { intros s l0 s' HI HS. apply nth_error_ext. intros k. rewrite !nth_error_map.
    destruct (nth_error (conns s') k) as [c|] eqn:Hk.
    - destruct (peers_stay auth dbg s s' (step_trans auth dbg s l0 s' HS) k c Hk) as [(c0 & H0 & E1 & E2)|HN].
      + rewrite H0. cbn [option_map]. now rewrite E1, E2.
      + exfalso. apply nth_error_None in HN. rewrite <- (no_new_conns auth dbg s l0 s' HI HS) in HN.
        apply nth_error_None in HN. congruence.
    - apply nth_error_None in Hk. rewrite (no_new_conns auth dbg s l0 s' HI HS) in Hk. apply nth_error_None in Hk. now rewrite Hk. }
  intros HI E. destruct (end_step_cases _ _ _ _ _ _ E) as [l HP|l s Hr Hw Hl Hs Hm Eb Es|now Hr Hw Ha Hv Eb Es|j c Hr Hw Hni Hk Hh Eb Es|t Hr Hw Ht Ed Es].
  - destruct (pool_step_cases _ _ _ _ _ _ HP) as [(l' & -> & Hs & _)|(j & c & -> & -> & _)]; [|reflexivity].
    eapply T; [|exact Hs]. exact HI.
  - rewrite Eb. cbn [conns set_main]. rewrite (T _ l _ ltac:(destruct l; try exact I; try destruct HI; discriminate) Hs). reflexivity.
  - now rewrite Eb.
  - now rewrite Eb.
  - apply nth_error_ext. intros k. rewrite !nth_error_map. destruct (nth_error (conns (base p)) k) as [c|] eqn:Hk.
    + destruct (drop_conns _ _ _ _ _ Ed Hk) as (c' & -> & H1 & H2 & _). cbn [option_map]. now rewrite H1, H2.
    + apply nth_error_None in Hk. rewrite <- (drop_length _ _ _ Ed) in Hk. apply nth_error_None in Hk. now rewrite Hk.
Qed.

Lemma end_peers_steps auth dbg w ls : forall p p', Forall end_internal ls -> end_steps auth dbg w p ls = Some p' ->
  map (fun c => (c_rsock c, c_wsock c)) (conns (base p')) = map (fun c => (c_rsock c, c_wsock c)) (conns (base p))
  /\ (main (base p) <> MServing -> main (base p') <> MServing).
Proof.
  induction ls as [|l ls IH]; intros p p' HF; cbn [end_steps]; [intros [= <-]; auto|].
  destruct (end_step auth dbg w p l) as [p1|] eqn:E; [|discriminate]. intros H. inversion HF as [|? ? H1 H2]; subst.
  destruct (IH p1 p' H2 H) as (K1 & K2). rewrite K1. split; [eapply end_peers; eauto|]. intros HM. apply K2. eapply main_left; eauto.
Qed.

(** The number of connections that overrun their buffer. *)
Definition overrunning dbg (p : pool) : nat := length (filter (overruns dbg) (conns (base p))).

Lemma spinning_overrun auth dbg w n p : alive auth dbg w n p -> length (spinning p) <= overrunning dbg p.
Proof.
  intros [_ HT [HN HS]]. apply filter_positions; [exact HN|]. intros k Hin. destruct (HS k Hin) as (c & Hk & Hh).
  exists c. split; [exact Hk|]. exact (on_track_hangs dbg c (HT k c Hk) Hh).
Qed.

Lemma overrunning_peers dbg p p' :
  map (fun c => (c_rsock c, c_wsock c)) (conns (base p')) = map (fun c => (c_rsock c, c_wsock c)) (conns (base p)) ->
  overrunning dbg p' = overrunning dbg p.
Proof.
  intros E. unfold overrunning.
  set (g := fun r : rsock * wsock => match snd (read_all dbg (connection_stream (fst r))) with EndHung => true | _ => false end).
  assert (K : forall l, length (filter (overruns dbg) l) = length (filter g (map (fun c => (c_rsock c, c_wsock c)) l))).
  { clear. induction l as [|c l IH]; [reflexivity|]. cbn [filter map].
    change (overruns dbg c) with (g (c_rsock c, c_wsock c)).
    destruct (g (c_rsock c, c_wsock c)); cbn [length]; congruence. }
  now rewrite !K, E.
Qed.

(** After ctrl-c, with peers that read and fewer overrunning connections than threads: every run of the threads ends
    with main having returned or panicked, and with the process gone exactly if no read task spins. *)
Theorem C122_every_run auth dbg w n p : end_reachable auth dbg w n p -> main (base p) <> MServing ->
  (forall k c, nth_error (conns (base p)) k = Some c -> ~ In WBlock (wacts (c_wsock c))) -> overrunning dbg p < w ->
  end_inevitably auth dbg w (fun p' => running (base p') = false /\ (gone p' = true <-> spinning p' = [])) p.
Proof.
  intros HP HM HB HO. apply end_finite with (n := n); [exact HP|]. intros p' HP' (ls & HF & HE) HS.
  destruct (end_peers_steps _ _ _ _ _ _ HF HE) as (EP & EM). specialize (EM HM).
  pose proof (end_alive _ _ _ _ _ HP') as HA.
  assert (HB' : forall k c, nth_error (conns (base p')) k = Some c -> ~ In WBlock (wacts (c_wsock c))).
  { intros k c Hk. pose proof (f_equal (fun l => nth_error l k) EP) as E. cbn beta in E. rewrite !nth_error_map, Hk in E.
    destruct (nth_error (conns (base p)) k) as [c0|] eqn:H0; [|discriminate]. cbn [option_map] in E. injection E as _ E.
    rewrite E. exact (HB k c0 H0). }
  pose proof (spinning_overrun _ _ _ _ _ HA) as HL. rewrite (overrunning_peers dbg p p' EP) in HL.
  assert (HR : running (base p') = false).
  { destruct (running (base p')) eqn:Hr; [|reflexivity]. exfalso.
    destruct (C84_same_broker _ _ _ _ _ (alive_run _ _ _ _ _ HA Hr)) as (HR & _).
    assert (X : (length (spinning p') <? w) = true) by (apply Nat.ltb_lt; lia).
    assert (HR' : at_rest auth dbg (base p')).
    { intros l Hl. pose proof (HS (XRun (PStep l)) Hl) as H. cbn [end_step pool_step] in H. rewrite X in H. cbn [negb] in H.
      rewrite andb_false_r in H. destruct (step auth dbg (base p') l); [discriminate|reflexivity]. }
    destruct (rest_after_signal auth dbg n (base p') HR HR') as [H|[H|(_ & k & c & Hk & Hc)]].
    - now apply (running_signal auth dbg n).
    - unfold running in Hr; rewrite H in Hr; discriminate.
    - unfold running in Hr; rewrite H in Hr; discriminate.
    - exact (HB' k c Hk Hc). }
  split; [exact HR|]. split.
  - intros HG. destruct (spinning p') as [|k ks] eqn:ES; [reflexivity|]. exfalso.
    rewrite (spinning_not_gone _ _ _ _ _ HA) in HG; [discriminate|]. rewrite ES. discriminate.
  - intros ES. destruct (C122_rest auth dbg w n p' HP') as [H|[H|(H & _)]]; [lia|exact EM|exact HS|exact H|congruence|congruence].
Qed.

(** So with no overrunning connection the process ends, whatever the schedule. *)
Theorem C122_process_ends auth dbg w n p : end_reachable auth dbg w n p -> w <> O -> main (base p) <> MServing ->
  (forall k c, nth_error (conns (base p)) k = Some c -> ~ In WBlock (wacts (c_wsock c)) /\ overruns dbg c = false) ->
  end_inevitably auth dbg w (fun p' => gone p' = true) p.
Proof.
  intros HP HW HM HB.
  assert (HO : overrunning dbg p = 0).
  { unfold overrunning. destruct (filter (overruns dbg) (conns (base p))) as [|c l] eqn:E; [reflexivity|]. exfalso.
    assert (Hin : In c (filter (overruns dbg) (conns (base p)))) by (rewrite E; now left). apply filter_In in Hin.
    destruct Hin as (Hin & Hc). apply In_nth_error in Hin. destruct Hin as (k & Hk). destruct (HB k c Hk). congruence. }
  apply end_finite with (n := n); [exact HP|]. intros p' HP' (ls & HF & HE) HS.
  destruct (end_peers_steps _ _ _ _ _ _ HF HE) as (EP & EM). specialize (EM HM).
  pose proof (end_alive _ _ _ _ _ HP') as HA. pose proof (spinning_overrun _ _ _ _ _ HA) as HL.
  rewrite (overrunning_peers dbg p p' EP), HO in HL.
  destruct (C122_rest auth dbg w n p' HP' HW EM HS) as [H|[H|(_ & _ & k & c & Hk & Hc)]]; [exact H| |].
  - destruct (spinning p'); [congruence|cbn in HL; lia].
  - exfalso. pose proof (f_equal (fun l => nth_error l k) EP) as E. cbn beta in E. rewrite !nth_error_map, Hk in E.
    destruct (nth_error (conns (base p)) k) as [c0|] eqn:H0; [|discriminate]. cbn [option_map] in E. injection E as _ E.
    apply (proj1 (HB k c0 H0)). now rewrite <- E.
Qed.

Lemma pool_end auth dbg w n p : pool_reachable auth dbg w n p -> end_reachable auth dbg w n p.
Proof.
  intros (ls & H). exists (map XRun ls). revert H. generalize (pool_init n). induction ls as [|l ls IH]; intros q; cbn [pool_steps map end_steps end_step]; [auto|].
  destruct (pool_step auth dbg w q l); [apply IH|discriminate].
Qed.

(** Two threads; one connection of four has sent an oversized PUBLISH. After ctrl-c main returns and all tasks are dropped
    but one. *)
Definition ex_stopping : list xlabel :=
  map (fun l => XRun (PStep l)) [LCtrlC; LStopListener; LStopHandler; LMain; LStopService; LMain; LMain]
  ++ map XDrop [TaskReader 0; TaskReader 1; TaskReader 2; TaskWriter 0; TaskWriter 1; TaskWriter 2; TaskWriter 3].

Example C122_case : exists p p', end_reachable ex_deny true 2 1 p /\ spinning p = [3] /\ running (base p) = true
  /\ listeners (base p) <> O /\ length (spinning p) < 2 /\ oversized ex_big
  /\ end_steps ex_deny true 2 p ex_stopping = Some p' /\ main (base p') = MExited
  /\ (forall l, end_step ex_deny true 2 p' (XDrop l) = None) /\ gone p' = false.
Proof.
  exists {| base := ex_waiting; spinning := [3] |}. eexists. split.
  { apply pool_end. eapply pool_reachable_step; [apply (C84_all_runs ex_deny true 2 1 ex_waiting); [discriminate|apply drive_reachable]|].
    instantiate (1 := PSpin 3). vm_compute. reflexivity. }
  split; [reflexivity|]. split; [vm_compute; reflexivity|]. split; [vm_compute; discriminate|].
  split; [cbn; lia|]. split; [apply ex_big_oversized|].
  split; [vm_compute; reflexivity|]. split; [vm_compute; reflexivity|].
  split; [|vm_compute; reflexivity]. intros [k|k| | |]; [|clear|reflexivity..].
  - do 4 (destruct k as [|k]; [vm_compute; reflexivity|]). destruct k; reflexivity.
  - do 4 (destruct k as [|k]; [vm_compute; reflexivity|]). destruct k; reflexivity.
Qed.

(** Two clients of the usual kind, after the signal. *)
Example C122_ends_case : let s := drive ex_deny true (sys_init 2) (ex_sub_pub [] 3 ++ [LCtrlC]) in
  end_reachable ex_deny true 4 2 {| base := s; spinning := [] |} /\ main s <> MServing /\ length (conns s) = 2 /\ running s = true
  /\ forall k c, nth_error (conns s) k = Some c -> ~ In WBlock (wacts (c_wsock c)) /\ overruns true c = false.
Proof.
  cbv zeta. split; [apply pool_end, C84_all_runs; [discriminate|apply drive_reachable]|].
  split; [vm_compute; discriminate|]. split; [vm_compute; reflexivity|]. split; [vm_compute; reflexivity|].
  assert (E : forallb (fun c => match wacts (c_wsock c) with [] => true | _ => false end && negb (overruns true c))
                (conns (drive ex_deny true (sys_init 2) (ex_sub_pub [] 3 ++ [LCtrlC]))) = true) by (vm_compute; reflexivity).
  rewrite forallb_forall in E. intros k c Hk. apply nth_error_In, E, andb_true_iff in Hk. destruct Hk as (H1 & H2).
  split; [|now apply negb_true_iff in H2]. destruct (wacts (c_wsock c)); [intros []|discriminate].
Qed.
