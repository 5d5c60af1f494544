(** Activity dies out: without new connections every run of the transition system is finite. What
    holds where it ends. *)
From Verif Require Import Base Base_facts Packets HashMap Messaging Handler Decoder ReadStream ReadStream_facts
  Plain_facts Conn Conn_facts Encoder Encoder_facts WriteStream WriteStream_facts System System_facts System_hist
  System_conn System_queue System_first System_progress System_exit.
Open Scope nat_scope.

(** ** A well-founded measure *)

(** [q] is what is left of [p] after one step. *)
Definition part_of (q p : prog) : Prop :=
  match p with
  | Call op f => exists r, q = f r
  | Send _ _ p' => q = p'
  | _ => False
  end.

Lemma part_of_wf : well_founded part_of.
Proof.
  intros p. induction p as [| |R op f IH|to e p IH]; constructor; cbn [part_of]; try tauto.
  - intros q (r & ->). apply IH.
  - intros q ->. exact IH.
Qed.

Definition opart (q p : option prog) : Prop :=
  match q, p with
  | None, Some _ => True
  | Some q', Some p' => part_of q' p'
  | _, None => False
  end.

Lemma opart_wf : well_founded opart.
Proof.
  assert (N : Acc opart None) by (constructor; intros [q|]; cbn [opart]; tauto).
  intros [p|]; [|exact N]. induction p as [p IH] using (well_founded_induction part_of_wf).
  constructor. intros [q|] H; [|exact N]. apply IH. exact H.
Qed.

Definition measure : Type := nat * nat * option prog * nat.

Definition lower (x y : measure) : Prop :=
  let '(a, b, p, q) := x in
  let '(a', b', p', q') := y in
  (a < a' \/ a = a' /\ (b < b' \/ b = b' /\ (opart p p' \/ p = p' /\ q < q')))%nat.

Lemma lower_wf : well_founded lower.
Proof.
  intros [[[a b] p] q]. revert b p q.
  induction a as [a IHa] using lt_wf_ind. induction b as [b IHb] using lt_wf_ind.
  induction p as [p IHp] using (well_founded_induction opart_wf). induction q as [q IHq] using lt_wf_ind.
  constructor. intros [[[a' b'] p'] q'] [H|(-> & [H|(-> & [H|(-> & H)])])]; auto.
Qed.

Definition reader_rank (r : reader) : nat :=
  match r with
  | RFirst rs | RLoop _ rs => 2 * length (pending rs) + 1
  | RPush _ _ rs => 2 * length (pending rs) + 2
  | RDone => 0
  end.

Definition writer_rank (c : cstate) : nat :=
  2 * length (c_queue c) + match c_writer c with WIdle _ => 1 | WBusy _ _ => 2 | WClosed _ => 0 end.

Definition main_rank (m : mstage) : nat :=
  match m with MServing => 4 | MJoinListeners => 3 | MJoinService => 2 | MJoinHandler => 1 | _ => 0 end.

Definition bit (b : bool) : nat := if b then 1 else 0.

Definition total (f : cstate -> nat) (l : list cstate) : nat := list_sum (map f l).
Arguments total f l : simpl never.

Definition rank (s : sys) : measure :=
  (total (fun c => reader_rank (c_reader c)) (conns s) + main_rank (main s) + listeners s + bit (service_running s)
     + bit (handler_alive (hdl s)),
   length (events s),
   match hdl s with HBusy _ p => Some p | _ => None end,
   total writer_rank (conns s)).

Lemma total_update f k c c' l : nth_error l k = Some c ->
  total f (update k c' l) + f c = total f l + f c'.
Proof.
  revert k. induction l as [|x l IH]; intros [|k]; cbn [nth_error]; try discriminate.
  - intros [= ->]. unfold total. cbn [update map list_sum fold_right]. change (fold_right Nat.add 0) with list_sum. lia.
  - intros H. specialize (IH k H). unfold total in *. cbn [update map list_sum fold_right].
    change (fold_right Nat.add 0) with list_sum. lia.
Qed.

Lemma total_lt f k c c' l : nth_error l k = Some c -> (f c' < f c)%nat -> (total f (update k c' l) < total f l)%nat.
Proof. intros H Hf. pose proof (total_update f k c c' l H). lia. Qed.

Lemma total_eq f k c c' l : nth_error l k = Some c -> f c' = f c -> total f (update k c' l) = total f l.
Proof. intros H Hf. pose proof (total_update f k c c' l H). lia. Qed.

(** All labels but new connections. *)
Definition settled (l : label) : Prop := match l with LAccept _ _ _ => False | _ => True end.

Definition readers_wf (s : sys) : Prop := each (fun _ c =>
  match c_reader c with RFirst rs | RLoop _ rs | RPush _ _ rs => wf rs | RDone => True end) s.

Lemma readers_ok auth dbg n s : reachable auth dbg n s -> readers_wf s.
Proof.
  intros HR k c Hk. destruct (reader_invariant auth dbg n s HR k c Hk) as (rs & Hr & K).
  destruct (reads_read_all dbg _ _ _ (wf_connection (c_rsock c)) Hr) as (W & _).
  destruct (c_reader c); [|destruct K as (-> & _)|destruct K as (-> & _)|exact I]; auto. now destruct K as (-> & _).
Qed.

Theorem step_lower auth dbg s l s' : readers_wf s -> settled l -> step auth dbg s l = Some s' -> lower (rank s') (rank s).
Proof.
  intros HW HS. unfold step. destruct (running s); [|discriminate].
  destruct l as [r w a|k uuid|k|now| | | | |]; [destruct HS|..].
  - (* reader *)
    unfold step_reader. destruct (nth_error (conns s) k) as [c|] eqn:Hk; [|discriminate].
    specialize (HW k c Hk). cbn beta in HW.
    assert (D : forall c', (reader_rank (c_reader c') < reader_rank (c_reader c))%nat -> lower (rank (set_conn k c' s)) (rank s)).
    { intros c' H. left. cbn [conns main listeners service_running hdl set_conn set_conns].
      pose proof (total_lt (fun c => reader_rank (c_reader c)) k c c' (conns s) Hk H). lia. }
    destruct (c_reader c) as [rs|e cid rs|cid rs|] eqn:ER; [| | |discriminate].
    + destruct (stream_read_packet dbg rs) as [p rs'|e| | | |] eqn:EP; try discriminate.
      * destruct (read_packet_consumes dbg rs p rs' HW EP) as (_ & _ & _ & HL).
        destruct p; intros [= <-]; apply D; cbn [c_reader set_reader set_read reader_rank]; lia.
      * intros [= <-]. apply D. cbn [c_reader set_reader reader_rank]. lia.
      * intros [= <-]. apply D. cbn [c_reader set_reader reader_rank]. lia.
    + destruct (handler_alive (hdl s)) eqn:EA.
      * destruct (length (events s) <? channel_size)%nat; [|discriminate]. intros [= <-].
        assert (K : lower (rank (set_conn k (set_reader (RLoop cid rs) c) s)) (rank s)).
        { apply D. cbn [c_reader set_reader reader_rank]. lia. }
        left. cbn [conns main listeners service_running hdl set_conn set_conns set_events].
        pose proof (total_lt (fun c => reader_rank (c_reader c)) k c (set_reader (RLoop cid rs) c) (conns s) Hk) as L.
        cbn beta in L. rewrite ER in L. cbn [c_reader set_reader reader_rank] in L. lia.
      * intros [= <-]. apply D. cbn [c_reader set_reader reader_rank]. lia.
    + destruct (stream_read_packet dbg rs) as [p rs'|e| | | |] eqn:EP; try discriminate.
      * destruct (read_packet_consumes dbg rs p rs' HW EP) as (_ & _ & _ & HL).
        intros [= <-]; apply D; cbn [c_reader set_reader set_read reader_rank]; lia.
      * intros [= <-]. apply D. cbn [c_reader set_reader reader_rank]. lia.
      * intros [= <-]. apply D. cbn [c_reader set_reader reader_rank]. lia.
  - (* writer *)
    unfold step_writer. destruct (nth_error (conns s) k) as [c|] eqn:Hk; [|discriminate].
    assert (D : forall c', c_reader c' = c_reader c -> (writer_rank c' < writer_rank c)%nat -> lower (rank (set_conn k c' s)) (rank s)).
    { intros c' H1 H2. right. cbn [conns main listeners service_running hdl events set_conn set_conns].
      rewrite (total_eq (fun c => reader_rank (c_reader c)) k c c' (conns s) Hk) by now rewrite H1.
      split; [reflexivity|]. right. split; [reflexivity|]. right. split; [reflexivity|]. now apply (total_lt writer_rank k c). }
    unfold writer_rank in D. destruct (c_writer c) as [ws|p ws|ws] eqn:EW; [| |discriminate].
    + destruct (c_queue c) as [|[from [p|]] q] eqn:EQ.
      * destruct (has_sender s k c); [discriminate|]. intros [= <-]. apply D; [reflexivity|]. cbn. rewrite EQ. cbn. lia.
      * intros [= <-]. apply D; [reflexivity|]. cbn. lia.
      * intros [= <-]. apply D; [reflexivity|]. cbn. lia.
    + destruct (write_packet p ws) as [ws'|ws'| | |]; try discriminate; intros [= <-]; (apply D; [reflexivity|]); cbn; lia.
  - (* handler *)
    unfold step_handler. destruct (hdl s) as [|tx p| |] eqn:EH; try discriminate.
    + destruct (events s) as [|e es] eqn:EE; [discriminate|]. intros [= <-]. right. cbn. rewrite EH, EE. cbn. split; [reflexivity|]. left. lia.
    + assert (PN : lower (rank (panic_handler s)) (rank s)).
      { left. cbn. rewrite EH. cbn. lia. }
      destruct p as [| |R op f|to e p].
      * intros [= <-]. right. cbn. rewrite EH. cbn. split; [reflexivity|]. right. split; [reflexivity|]. left. exact I.
      * intros [= <-]. exact PN.
      * destruct (serve (svc s) op) as [m r]. intros [= <-]. right. cbn. rewrite EH. cbn. split; [reflexivity|].
        right. split; [reflexivity|]. left. now exists r.
      * destruct (nth_error (conns s) to) as [c|] eqn:Hk; [|discriminate].
        assert (Q : forall c', c_reader c' = c_reader c ->
          lower (rank (set_hdl (HBusy tx p) (set_log (log s ++ [(tx, to, e)]) (set_conn to c' s)))) (rank s)).
        { intros c' H. right. cbn [conns main listeners service_running hdl events set_conn set_conns set_log set_hdl].
          rewrite (total_eq (fun c => reader_rank (c_reader c)) to c c' (conns s) Hk) by now rewrite H.
          rewrite EH. split; [reflexivity|]. right. split; [reflexivity|]. left. reflexivity. }
        destruct (c_writer c) eqn:EW.
        -- destruct (length (c_queue c) <? channel_size)%nat; [|discriminate]. intros [= <-]. now apply Q.
        -- destruct (length (c_queue c) <? channel_size)%nat; [|discriminate]. intros [= <-]. now apply Q.
        -- intros [= <-]. exact PN.
  - destruct (hdl s) eqn:EH; try discriminate. destruct (ctrl_c s); [|discriminate]. intros [= <-]. left. cbn. rewrite EH. cbn. lia.
  - destruct (listeners s) eqn:EL; [discriminate|]. destruct (ctrl_c s); [|discriminate]. intros [= <-]. left. cbn. lia.
  - destruct (service_running s) eqn:ES; [|discriminate]. cbn [andb]. destruct (negb _); [|discriminate].
    intros [= <-]. left. cbn. rewrite ES. cbn. lia.
  - destruct (main s) eqn:EM; try discriminate. destruct (_ || _); intros [= <-]; left; cbn; rewrite EM; cbn; lia.
  - unfold step_main. destruct (main s) eqn:EM; try discriminate.
    + destruct (Nat.eqb _ _); [|discriminate]. intros [= <-]. left; cbn; rewrite EM; cbn; lia.
    + destruct (service_running s); [discriminate|]. intros [= <-]. left; cbn; rewrite EM; cbn; lia.
    + destruct (hdl s); try discriminate; intros [= <-]; left; cbn; rewrite EM; cbn; lia.
Qed.

(** One step of some task or of shutdown. *)
Definition next_state auth dbg (s' s : sys) : Prop := exists l, settled l /\ step auth dbg s l = Some s'.

Theorem dies_out auth dbg n s : reachable auth dbg n s -> Acc (next_state auth dbg) s.
Proof.
  assert (K : forall r s, rank s = r -> reachable auth dbg n s -> Acc (next_state auth dbg) s).
  { intros r. induction r as [r IH] using (well_founded_induction lower_wf). intros s0 Er HR.
    constructor. intros s' (l & Hl & Hs). apply (IH (rank s')); [|reflexivity|eapply reachable_step; eauto].
    rewrite <- Er. eapply step_lower; eauto. eapply readers_ok; eauto. }
  intros HR. now apply (K (rank s)).
Qed.

(** ** Rest *)

(** Labels of the broker's own tasks. *)
Definition internal (l : label) : Prop := match l with LAccept _ _ _ | LCtrlC => False | _ => True end.

(** No task of the broker can take a step. *)
Definition at_rest auth dbg (s : sys) : Prop := forall l, internal l -> step auth dbg s l = None.

Definition blocks (w : wsock) : Prop := In WBlock (wacts w).

Lemma busy_blocked auth dbg n s k c p ws : reachable auth dbg n s -> nth_error (conns s) k = Some c ->
  c_writer c = WBusy p ws ->
  match write_packet p ws with WOk _ | WErr _ => True | WWait _ => blocks (c_wsock c) | WHung | WPanic => False end.
Proof.
  intros HR Hc Hw. pose proof (queue_invariant auth dbg n s HR k) as HQ. unfold queue_ok in HQ. rewrite Hc in HQ.
  destruct HQ as (HWr & _). unfold writer_ok in HWr. rewrite Hw in HWr. destruct HWr as (ps & f & Es & Hwr & W).
  pose proof (sent_writable auth dbg n s k c HR Hc) as HF. rewrite Es, map_app in HF. apply Forall_app in HF.
  destruct HF as (HF1 & HF2). cbn [map snd] in HF2. apply Forall_inv in HF2.
  destruct (encode p) as [bs|] eqn:E; [|apply encode_none in E; congruence].
  pose proof (write_packet_facts p ws bs W E) as H.
  pose proof (write_all_acts _ _ _ (proj2 (wrote_new (c_wsock c))) HF1 Hwr) as HL.
  destruct (write_packet p ws); cbn [wdone] in H; auto. destruct HL as (h & HL). unfold blocks, acts in *.
  change (wacts (c_wsock c)) with (wacts (wsk (connection_wstream (c_wsock c)))). rewrite HL. apply in_or_app. now right.
Qed.

Lemma target_exists auth dbg n s tx to e p : reachable auth dbg n s -> hdl s = HBusy tx (Send to e p) ->
  nth_error (conns s) to <> None.
Proof.
  intros HR Hh Hc. pose proof (hist_invariant auth dbg n s HR) as HH. unfold hist_inv in HH. rewrite Hh in HH.
  destruct HH as (h & te & m0 & l0 & m & done & r & o & (Eh & Ha & He & Hl) & Ht & Hx).
  cbn [exec] in Hx. destruct (exec p (svc s)) as [[m' r'] o']. injection Hx as <- <- <-.
  pose proof (flow_invariant auth dbg n s HR to) as HF. unfold flow_ok in HF. rewrite Hc in HF.
  rewrite events_of_app in HF. apply app_eq_nil in HF. destruct HF as (HF & _).
  pose proof (no_events auth to (handled s) HF) as K. rewrite Eh, Handler_facts.handle_all_snoc, Ha, He in K. destruct K as (_ & K).
  rewrite !sent_to_app in K. apply app_eq_nil in K. destruct K as (_ & K). apply app_eq_nil in K. destruct K as (_ & K).
  unfold sent_to in K. cbn [filter fst] in K. rewrite Nat.eqb_refl in K. discriminate.
Qed.

Lemma alive_running auth dbg n s : reachable auth dbg n s -> handler_alive (hdl s) = true -> running s = true.
Proof.
  intros HR HA. pose proof (main_invariant auth dbg n s HR) as K. unfold running.
  destruct (main s); auto; congruence.
Qed.

(** At rest the tasks wait for something that does not come. *)
Theorem rest_writers auth dbg n s k c : reachable auth dbg n s -> at_rest auth dbg s -> running s = true ->
  nth_error (conns s) k = Some c -> ~ blocks (c_wsock c) ->
  c_queue c = [] /\ forall p ws, c_writer c <> WBusy p ws.
Proof.
  intros HR HS Hr Hk HB. specialize (HS (LWriter k) I). unfold step, step_writer in HS. rewrite Hr, Hk in HS.
  destruct (c_writer c) as [ws|p ws|ws] eqn:EW.
  - destruct (c_queue c) as [|[f [p|]] q]; try discriminate. split; [reflexivity|discriminate].
  - pose proof (busy_blocked auth dbg n s k c p ws HR Hk EW) as K.
    destruct (write_packet p ws); try discriminate; contradiction.
  - pose proof (queue_invariant auth dbg n s HR k) as HQ. unfold queue_ok in HQ. rewrite Hk, EW in HQ.
    destruct HQ as (_ & HQ & _). split; [exact HQ|discriminate].
Qed.

Theorem rest_handler auth dbg n s : reachable auth dbg n s -> at_rest auth dbg s ->
  (forall k c, nth_error (conns s) k = Some c -> ~ blocks (c_wsock c)) ->
  handler_alive (hdl s) = true -> hdl s = HIdle /\ events s = [].
Proof.
  intros HR HS HB HA. pose proof (alive_running auth dbg n s HR HA) as Hr.
  pose proof (HS (LHandler 0) I) as H. unfold step, step_handler in H. rewrite Hr in H.
  destruct (hdl s) as [|tx p| |] eqn:EH; try discriminate.
  - destruct (events s); [auto|discriminate].
  - exfalso. destruct p as [| |R op f|to e p]; try discriminate.
    + destruct (serve (svc s) op); discriminate.
    + pose proof (target_exists auth dbg n s tx to e p HR EH) as HT.
      destruct (nth_error (conns s) to) as [c|] eqn:Hc; [|congruence].
      destruct (rest_writers auth dbg n s to c HR HS Hr Hc (HB to c Hc)) as (Hq & _). rewrite Hq in H.
      cbn in H. destruct (c_writer c); discriminate.
Qed.

(** A reader that has ended read all there was, or its first packet was not CONNECT. *)
Definition read_out dbg (c : cstate) : Prop :=
  fst (read_all dbg (connection_stream (c_rsock c))) = c_read c
  \/ exists p, c_read c = [p] /\ forall c', p <> Connect c'.

Theorem done_read auth dbg n s : reachable auth dbg n s ->
  each (fun _ c => c_reader c = RDone -> read_out dbg c) s.
Proof.
  revert s. apply (reachable_trans_ind auth dbg n (each (fun _ c => c_reader c = RDone -> read_out dbg c))).
  - intros [|k] c; discriminate.
  - intros s s' HR HI T.
    pose proof (reader_invariant auth dbg n s HR) as HRD.
    assert (U : forall k c c', nth_error (conns s) k = Some c -> c_reader c' = c_reader c -> c_read c' = c_read c ->
                c_rsock c' = c_rsock c -> each (fun _ c => c_reader c = RDone -> read_out dbg c) (set_conn k c' s)).
    { intros k c c' Hk H1 H2 H3. apply each_update; [exact HI|]. rewrite H1. unfold read_out. rewrite H2, H3. exact (HI k c Hk). }
    destruct T; try exact HI; try (eapply U; eauto; reflexivity); try (apply each_update; [exact HI|discriminate]).
    + intros k c. cbn [conns set_conns]. rewrite nth_error_snoc. destruct (Nat.eqb k _); [|apply HI].
      intros [= <-]. discriminate.
    + apply each_update; [exact HI|]. intros _. right. cbn [c_read set_reader set_read].
      destruct (HRD k c H) as (rs0 & _ & Hd). rewrite H0 in Hd. destruct Hd as (_ & Hd). rewrite Hd. exists p. auto.
    + apply each_update; [exact HI|]. intros _. left. cbn [c_read c_rsock set_reader].
      destruct (HRD k c H) as (rs0 & Hr & Hd).
      destruct (reads_read_all dbg _ _ _ (wf_connection (c_rsock c)) Hr) as (W & E). rewrite E. cbn [fst].
      assert (rs0 = rs) as ->.
      { destruct H0 as [H0|(cid & H0)]; rewrite H0 in Hd; now destruct Hd as (-> & _). }
      rewrite (read_all_step dbg rs W). destruct H1 as [->|(e & ->)]; cbn [fst]; apply app_nil_r.
Qed.

Theorem rest_reader auth dbg n s k c : reachable auth dbg n s -> at_rest auth dbg s -> running s = true ->
  nth_error (conns s) k = Some c -> (handler_alive (hdl s) = true -> events s = []) ->
  read_out dbg c /\ pend (c_reader c) = [].
Proof.
  intros HR HS Hr Hk HE. destruct (reader_invariant auth dbg n s HR k c Hk) as (rs & Hrd & Hd).
  destruct (reads_read_all dbg _ _ _ (wf_connection (c_rsock c)) Hrd) as (W & E).
  pose proof (HS (LReader k []) I) as H. unfold step, step_reader in H. rewrite Hr, Hk in H.
  assert (K : (stream_read_packet dbg rs = RWait \/ stream_read_packet dbg rs = RHung \/ stream_read_packet dbg rs = RNoFuel) ->
              fst (read_all dbg (connection_stream (c_rsock c))) = c_read c).
  { intros K. rewrite E. cbn [fst]. rewrite (read_all_step dbg rs W).
    destruct K as [-> |[-> | ->]]; cbn [fst]; apply app_nil_r. }
  destruct (c_reader c) as [rs'|e cid rs'|cid rs'|] eqn:ER.
  - destruct Hd as (-> & _). split; [left|reflexivity]. apply K.
    destruct (stream_read_packet dbg rs) as [p ?| | | | |]; auto; try discriminate. destruct p; discriminate.
  - destruct (handler_alive (hdl s)) eqn:EA; [|discriminate]. rewrite HE in H by reflexivity. discriminate.
  - destruct Hd as (-> & _). split; [left|reflexivity]. apply K.
    destruct (stream_read_packet dbg rs) as [p ?| | | | |]; auto; discriminate.
  - split; [|reflexivity]. exact (done_read auth dbg n s HR k c Hk ER).
Qed.

(** The packets before the first close request. *)
Fixpoint before_close (l : list ServerEvent) : list ControlPacket :=
  match l with
  | ServerPacket p :: l' => p :: before_close l'
  | _ => []
  end.

Lemma before_close_sent ps r : before_close (map ServerPacket ps ++ r) = ps ++ before_close r.
Proof. induction ps as [|p ps IH]; cbn; congruence. Qed.

(** Everything was read, handled in order, and all that handling it sends was taken by the writers. *)
Definition settled_conn auth dbg (s : sys) (k : conn) (c : cstate) : Prop :=
  (exists cid, (forall p qs, fst (read_all dbg (connection_stream (c_rsock c))) = Connect p :: qs -> goes_by p cid)
     /\ events_of k (map snd (handled s)) = issued k (c_addr c) cid (fst (read_all dbg (connection_stream (c_rsock c)))))
  /\ map snd (c_sent c) = before_close (sent_to k (snd (fst (handle_all auth MessagingService_new (handled s))))).

Theorem rest_settled auth dbg n s : reachable auth dbg n s -> at_rest auth dbg s ->
  (forall k c, nth_error (conns s) k = Some c -> ~ blocks (c_wsock c)) ->
  handler_alive (hdl s) = true ->
  handle_all auth MessagingService_new (handled s) = (svc s, map out (log s), Finished)
  /\ forall k c, nth_error (conns s) k = Some c -> settled_conn auth dbg s k c.
Proof.
  intros HR HS HB HA. destruct (rest_handler auth dbg n s HR HS HB HA) as (Hh & He).
  pose proof (alive_running auth dbg n s HR HA) as Hr.
  pose proof (hist_invariant auth dbg n s HR) as HH. unfold hist_inv in HH. rewrite Hh in HH. split; [exact HH|].
  intros k c Hk. split.
  - destruct (rest_reader auth dbg n s k c HR HS Hr Hk (fun _ => He)) as (Ho & Hp).
    pose proof (flow_invariant auth dbg n s HR k) as HF. unfold flow_ok in HF. rewrite Hk, HA, Hp, He, !app_nil_r in HF.
    destruct HF as (cid & _ & Hi & HF). destruct Ho as [Ho|(p & Ho & HN)].
    + exists cid. rewrite Ho. split; [exact Hi|exact HF].
    + exists cid. destruct (read_prefix auth dbg n s k c HR Hk) as (rest & Hrest). rewrite Ho in Hrest. cbn [app] in Hrest.
      rewrite Hrest. split.
      * intros p' qs [= -> _]. exfalso. now apply (HN p').
      * rewrite HF, Ho. destruct p; try reflexivity. exfalso. eapply HN. reflexivity.
  - rewrite HH. cbn [fst snd]. rewrite <- put_to_sent.
    destruct (rest_writers auth dbg n s k c HR HS Hr Hk (HB k c Hk)) as (Hq & Hw).
    pose proof (queue_invariant auth dbg n s HR k) as HQ. unfold queue_ok in HQ. rewrite Hk in HQ. destruct HQ as (_ & HQ).
    assert (M : map snd (map as_sent (c_sent c)) = map ServerPacket (map snd (c_sent c))).
    { rewrite !map_map. reflexivity. }
    destruct (c_writer c) as [ws|p ws|ws]; [| exfalso; eapply Hw; reflexivity |].
    + rewrite HQ, Hq, app_nil_r, M, <- (app_nil_r (map ServerPacket _)), before_close_sent. symmetry. apply app_nil_r.
    + destruct HQ as (_ & [(HQ & _)|(f & r & HQ)]); rewrite HQ.
      * rewrite M, <- (app_nil_r (map ServerPacket _)), before_close_sent. symmetry. apply app_nil_r.
      * rewrite map_app, M, before_close_sent. cbn. symmetry. apply app_nil_r.
Qed.

(** The sockets given with the connections stay. *)
Lemma peers_stay auth dbg s s' : trans auth dbg s s' -> forall k c', nth_error (conns s') k = Some c' ->
  (exists c, nth_error (conns s) k = Some c /\ c_wsock c = c_wsock c' /\ c_rsock c = c_rsock c')
  \/ nth_error (conns s) k = None.
Proof.
  intros T k0 c0.
  assert (U : forall k c c1, nth_error (conns s) k = Some c -> c_wsock c1 = c_wsock c -> c_rsock c1 = c_rsock c ->
              nth_error (update k c1 (conns s)) k0 = Some c0 ->
              exists c, nth_error (conns s) k0 = Some c /\ c_wsock c = c_wsock c0 /\ c_rsock c = c_rsock c0).
  { intros k c c1 Hk H1 H2. rewrite nth_update. destruct (Nat.eqb_spec k0 k) as [->|Hn].
    - rewrite Hk. intros [= <-]. exists c. auto.
    - intros H. exists c0. auto. }
  destruct T; cbn [conns set_conns set_conn set_events set_hdl set_handled set_log set_svc set_listeners set_service_running
    set_main set_ctrl_c panic_handler]; try (intros HX; left; solve [eapply U; [| | |exact HX]; [eassumption|reflexivity|reflexivity]]); try (intros HX; left; exists c0; repeat split; assumption).
  rewrite nth_error_snoc. destruct (Nat.eqb_spec k0 (length (conns s))) as [->|_]; [|intros HX; left; exists c0; auto].
  intros _. right. apply nth_error_None. lia.
Qed.

Lemma no_new_conns auth dbg s l s' : internal l -> step auth dbg s l = Some s' -> length (conns s') = length (conns s).
Proof.
  intros HI. unfold step. destruct (running s); [|discriminate]. destruct l as [r w a|k uuid|k|now| | | | |]; [destruct HI|..].
  - unfold step_reader.
    repeat match goal with |- context [match ?x with _ => _ end] => destruct x; try discriminate end;
    intros [= <-]; cbn; rewrite ?update_length; reflexivity.
  - unfold step_writer.
    repeat match goal with |- context [match ?x with _ => _ end] => destruct x; try discriminate end;
    intros [= <-]; cbn; rewrite ?update_length; reflexivity.
  - unfold step_handler.
    repeat match goal with |- context [match ?x with _ => _ end] => destruct x; try discriminate end;
    intros [= <-]; cbn; rewrite ?update_length; reflexivity.
  - repeat match goal with |- context [match ?x with _ => _ end] => destruct x; try discriminate end; intros [= <-]; reflexivity.
  - repeat match goal with |- context [match ?x with _ => _ end] => destruct x; try discriminate end; intros [= <-]; reflexivity.
  - repeat match goal with |- context [match ?x with _ => _ end] => destruct x; try discriminate end; intros [= <-]; reflexivity.
  - repeat match goal with |- context [match ?x with _ => _ end] => destruct x; try discriminate end; intros [= <-]; reflexivity.
  - unfold step_main.
    repeat match goal with |- context [match ?x with _ => _ end] => destruct x; try discriminate end; intros [= <-]; reflexivity.
Qed.

Theorem unblocked_stays auth dbg s l s' : internal l -> step auth dbg s l = Some s' ->
  (forall k c, nth_error (conns s) k = Some c -> ~ blocks (c_wsock c)) ->
  forall k c, nth_error (conns s') k = Some c -> ~ blocks (c_wsock c).
Proof.
  intros HI HS HB k c Hk. destruct (peers_stay auth dbg s s' (step_trans auth dbg s l s' HS) k c Hk) as [(c0 & H0 & E & _)|HN].
  - rewrite <- E. exact (HB k c0 H0).
  - exfalso. apply nth_error_None in HN. rewrite <- (no_new_conns auth dbg s l s' HI HS) in HN.
    apply nth_error_None in HN. congruence.
Qed.
