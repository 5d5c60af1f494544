(** Property C136: an address that cannot be bound. *)
From Verif Require Import Base Base_facts Packets Messaging Handler Decoder ReadStream ReadStream_facts Plain_facts
  Conn Conn_facts Spec_wire WriteStream System System_facts System_hist System_conn System_queue System_progress System_exit System_rest
  Prop_system Prop_rest Prop_stop Prop_exit Pool Prop_pool Startup Prop_start Teardown Prop_end Abort.
Open Scope nat_scope.
Local Notation S := Datatypes.S.

Definition starts auth dbg w addresses b := exists ls, asteps auth dbg w (starting_init addresses) ls = Some b.

Lemma asteps_app auth dbg w ls1 : forall b ls2, asteps auth dbg w b (ls1 ++ ls2)
  = match asteps auth dbg w b ls1 with Some b' => asteps auth dbg w b' ls2 | None => None end.
Proof.
  induction ls1 as [|l ls1 IH]; intros b ls2; cbn [app asteps]; [reflexivity|].
  destruct (astep auth dbg w b l); [apply IH|reflexivity].
Qed.

Lemma starts_steps auth dbg w adr ls b b' : starts auth dbg w adr b -> asteps auth dbg w b ls = Some b' -> starts auth dbg w adr b'.
Proof. intros (l0 & H0) H. exists (l0 ++ ls). now rewrite asteps_app, H0. Qed.

Lemma starts_ind auth dbg w adr (P : starting -> Prop) : P (starting_init adr) ->
  (forall b l b', starts auth dbg w adr b -> P b -> astep auth dbg w b l = Some b' -> P b') ->
  forall b, starts auth dbg w adr b -> P b.
Proof.
  intros H0 HS b (ls & H). revert b H. induction ls as [|l ls IH] using rev_ind; intros b H.
  - injection H as <-. exact H0.
  - rewrite asteps_app in H. destruct (asteps auth dbg w (starting_init adr) ls) as [b1|] eqn:E; [|discriminate].
    cbn [asteps] in H. destruct (astep auth dbg w b1 l) as [b2|] eqn:E2; [|discriminate]. injection H as <-.
    eapply HS; [exists ls; exact E| |exact E2]. now apply IH.
Qed.

(** What a step is. *)
Inductive acases auth dbg w (b b' : starting) : alabel -> Prop :=
| ABound x rest : unbound b = Some (x :: rest) -> running (base (threads b)) = true -> unbound b' = Some rest ->
    threads b' = set_base (set_listeners (S (listeners (base (threads b)))) (base (threads b))) (threads b) ->
    acases auth dbg w b b' (ABind true)
| AFailed x rest : unbound b = Some (x :: rest) -> running (base (threads b)) = true -> unbound b' = Some (x :: rest) ->
    threads b' = set_base (set_main MPanicked (set_ctrl_c true (base (threads b)))) (threads b) ->
    acases auth dbg w b b' (ABind false)
| AAllBound : unbound b = Some [] -> unbound b' = None -> threads b' = threads b -> acases auth dbg w b b' AReady
| AMoved l : end_step auth dbg w (threads b) l = Some (threads b') -> unbound b' = unbound b ->
    (unbound b <> None -> on_main l = false) -> acases auth dbg w b b' (AThreads l).

Lemma astep_cases auth dbg w b l b' : astep auth dbg w b l = Some b' -> acases auth dbg w b b' l.
Proof.
  destruct l as [ok| |l]; cbn [astep].
  - destruct (unbound b) as [[|x rest]|] eqn:EU; try discriminate. destruct (running (base (threads b))) eqn:ER; [|discriminate].
    destruct ok; intros [= <-]; [eapply ABound|eapply AFailed]; eauto.
  - destruct (unbound b) as [[|x rest]|] eqn:EU; try discriminate. intros [= <-]. now constructor.
  - destruct (unbound b) as [u|] eqn:EU.
    + destruct (on_main l) eqn:EM; [discriminate|]. destruct (end_step auth dbg w (threads b) l) eqn:E; [|discriminate].
      intros [= <-]. constructor; auto.
    + destruct (end_step auth dbg w (threads b) l) eqn:E; [|discriminate].
      intros [= <-]. constructor; auto. congruence.
Qed.

(** ** What stays *)

Definition tracked dbg (p : pool) : Prop :=
  each (fun _ => on_track dbg) (base p)
  /\ NoDup (spinning p) /\ forall k, In k (spinning p) -> exists c, nth_error (conns (base p)) k = Some c /\ hangs dbg c = true.

Lemma tracked_alive auth dbg w n p : tracked dbg p -> running (base p) = false -> alive auth dbg w n p.
Proof. intros (H1 & H2) Hr. split; [congruence|exact H1|exact H2]. Qed.

Lemma tracked_step auth dbg w p l p' : tracked dbg p -> end_step auth dbg w p l = Some p' -> tracked dbg p'.
Proof.
  intros HT E. destruct (running (base p)) eqn:Hr.
  - destruct HT as (HT & HN & HS).
    destruct (end_step_cases _ _ _ _ _ _ E) as [l HP|l s Hr' Hw Hl Hs Hm Eb Es|now Hr' Hw Ha Hv Eb Es|k c Hr' Hw Hni Hk Hh Eb Es|t Hr' Hw Ht Ed Es]; try congruence.
    destruct (pool_step_cases _ _ _ _ _ _ HP) as [(l' & -> & Hs & Es & _)|(k & c & _ & Eb & Es & _ & Hni & Hk & Hh & _)].
    + split; [eapply on_track_trans; [eapply step_trans; exact Hs|exact HT]|]. rewrite Es. split; [exact HN|].
      intros k Hin. destruct (HS k Hin) as (c & Hk & Hh).
      destruct (hangs_stays _ _ _ _ k c (step_trans _ _ _ _ _ Hs) Hk Hh) as (c' & H1 & H2 & _). exists c'. auto.
    + unfold tracked. rewrite Eb, Es. split; [exact HT|]. split; [now constructor|]. intros j [<-|Hin]; eauto.
  - pose proof (alive_step auth dbg w 0 p l p' (tracked_alive auth dbg w 0 p HT Hr) E) as [_ H1 H2]. split; auto.
Qed.

Lemma starts_tracked auth dbg w adr b : starts auth dbg w adr b -> tracked dbg (threads b).
Proof.
  revert b. apply (starts_ind auth dbg w adr (fun b => tracked dbg (threads b))).
  - split; [intros [|k] c; discriminate|]. split; [constructor|intros k []].
  - intros b l b' _ HT E. destruct (astep_cases _ _ _ _ _ _ E) as [x rest _ _ _ ->|x rest _ _ _ ->|_ _ ->|l' HE _ _]; try exact HT.
    eapply tracked_step; eauto.
Qed.

(** Up to then it is the start of C96. *)
Theorem C136_same_start auth dbg w adr b : starts auth dbg w adr b -> running (base (threads b)) = true ->
  booted auth dbg adr {| core := base (threads b); todo := unbound b |}.
Proof.
  intros HB. revert b HB. apply (starts_ind auth dbg w adr (fun b => running (base (threads b)) = true ->
    booted auth dbg adr {| core := base (threads b); todo := unbound b |})); [intros _; now exists []|].
  intros b l b' _ HI E Hr'.
  assert (SN : forall x l0, booted auth dbg adr x -> boot_step auth dbg x l0 = Some {| core := base (threads b'); todo := unbound b' |} ->
    booted auth dbg adr {| core := base (threads b'); todo := unbound b' |}).
  { intros x l0 (ls & H) H0. exists (ls ++ [l0]). clear - H H0. revert H. generalize (boot_init adr). induction ls as [|y ls IH]; intros z.
    - intros [= ->]. cbn [app boot_steps]. now rewrite H0.
    - cbn [app boot_steps]. destruct (boot_step auth dbg z y); [apply IH|discriminate]. }
  destruct (astep_cases _ _ _ _ _ _ E) as [x rest EU Hr EU' ET|x rest EU Hr EU' ET|EU EU' ET|l' HE EU HM].
  - apply (SN _ (BBind true) (HI Hr)). cbn [boot_step todo core]. rewrite EU, Hr, EU', ET. reflexivity.
  - exfalso. rewrite ET in Hr'. discriminate.
  - rewrite ET in Hr'. apply (SN _ BReady (HI Hr')). cbn [boot_step todo core]. now rewrite EU, EU', ET.
  - destruct (end_step_cases _ _ _ _ _ _ HE) as [l HP|l s Hr Hw Hl Hs Hm Eb Es|now Hr Hw Ha Hv Eb Es|k c Hr Hw Hni Hk Hh Eb Es|t Hr Hw Ht Ed Es].
    + destruct (pool_step_cases _ _ _ _ _ _ HP) as [(l1 & -> & Hs & _ & _)|(k & c & _ & Eb & _ & _ & _ & _ & _ & Hr)].
      * assert (Hr : running (base (threads b)) = true) by (unfold step in Hs; destruct (running (base (threads b))); [reflexivity|discriminate]).
        apply (SN _ (BStep l1) (HI Hr)). cbn [boot_step todo core]. rewrite Hs, EU.
        destruct (unbound b) as [u|] eqn:EB; [|reflexivity]. specialize (HM ltac:(discriminate)).
        cbn [on_main] in HM. apply negb_false_iff in HM. destruct l1; try discriminate HM; reflexivity.
      * rewrite Eb, EU. exact (HI Hr).
    + exfalso. rewrite Eb in Hr'. change (running (set_main (main (base (threads b))) s)) with (running (base (threads b))) in Hr'. congruence.
    + exfalso. rewrite Eb in Hr'. change (running (panic_handler (base (threads b)))) with (running (base (threads b))) in Hr'. congruence.
    + exfalso. congruence.
    + exfalso. pose proof (drop_main _ _ _ Ed) as Em. unfold running in Hr, Hr'. rewrite Em in Hr'. congruence.
Qed.

(** A failing address: main has panicked for good, and only the threads go on. *)
Lemma panicked_only_threads auth dbg w b l b' : running (base (threads b)) = false -> unbound b <> Some [] -> astep auth dbg w b l = Some b' ->
  exists l', l = AThreads l' /\ end_step auth dbg w (threads b) l' = Some (threads b') /\ unbound b' = unbound b
    /\ running (base (threads b')) = false.
Proof.
  intros Hr HU E. destruct (astep_cases _ _ _ _ _ _ E) as [x rest EU Hr' EU' ET|x rest EU Hr' EU' ET|EU EU' ET|l' HE EU HM]; try congruence.
  exists l'. split; [reflexivity|]. split; [exact HE|]. split; [exact EU|].
  destruct (end_step_cases _ _ _ _ _ _ HE) as [l HP|l s _ Hw Hl Hs Hm Eb Es|now _ Hw Ha Hv Eb Es|k c _ Hw Hni Hk Hh Eb Es|t _ Hw Ht Ed Es].
  - exfalso. destruct (pool_step_cases _ _ _ _ _ _ HP) as [(l1 & -> & Hs & _ & _)|(k & c & _ & _ & _ & _ & _ & _ & _ & Hr')]; [|congruence].
    unfold step in Hs. now rewrite Hr in Hs.
  - rewrite Eb. exact Hr.
  - rewrite Eb. exact Hr.
  - congruence.
  - unfold running in *. now rewrite (drop_main _ _ _ Ed).
Qed.

(** ** C136 *)

(** A process with a spinning read task does not end, whatever else fails. *)
Theorem C136_spinning_never_ends auth dbg w adr b : starts auth dbg w adr b -> spinning (threads b) <> [] ->
  forall ls b', asteps auth dbg w b ls = Some b' -> gone (threads b') = false.
Proof.
  intros HB HS ls b' H. destruct (spinning (threads b)) as [|k ks] eqn:E; [congruence|].
  assert (K : In k (spinning (threads b'))).
  { assert (Hin : In k (spinning (threads b))) by (rewrite E; now left). clear - Hin H. revert b b' Hin H.
    induction ls as [|l ls IH]; intros b b' Hin; cbn [asteps]; [intros [= <-]; exact Hin|].
    destruct (astep auth dbg w b l) as [b1|] eqn:E; [|discriminate]. apply IH.
    destruct (astep_cases _ _ _ _ _ _ E) as [x rest _ _ _ ->|x rest _ _ _ ->|_ _ ->|l' HE _ _]; try exact Hin.
    eapply spinning_stays; eauto. }
  destruct (running (base (threads b'))) eqn:Hr; [unfold gone; now rewrite Hr|].
  apply (spinning_not_gone auth dbg w 0); [|intros Z; now rewrite Z in K].
  apply tracked_alive; [|exact Hr]. eapply starts_tracked, starts_steps; eauto.
Qed.

(** So one packet to an address bound before is enough: main panics at the next one, and the process stays. *)
Theorem C136_one_packet auth dbg w adr b x rest r ws a : starts auth dbg w adr b -> running (base (threads b)) = true ->
  unbound b = Some (x :: rest) -> listeners (base (threads b)) <> 0 -> length (spinning (threads b)) < w -> oversized r ->
  exists b', asteps auth dbg w b [AThreads (XRun (PStep (LAccept r ws a))); AThreads (XRun (PSpin (length (conns (base (threads b)))))); ABind false] = Some b'
    /\ main (base (threads b')) = MPanicked
    /\ forall ls b'', asteps auth dbg w b' ls = Some b'' -> gone (threads b'') = false.
Proof.
  intros HB Hr HU HL HW HO. destruct (starts_tracked _ _ _ _ _ HB) as (_ & HN & HS).
  set (p := threads b) in *. set (s1 := set_conns (conns (base p) ++ [new_conn r ws a]) (base p)).
  assert (X : (length (spinning p) <? w) = true) by now apply Nat.ltb_lt.
  assert (Y : existsb (Nat.eqb (length (conns (base p)))) (spinning p) = false).
  { apply not_true_iff_false. rewrite existsb_eqb. intros Hin. destruct (HS _ Hin) as (c & Hk & _).
    rewrite (proj2 (nth_error_None _ _) (Nat.le_refl _)) in Hk. discriminate. }
  set (q := {| base := s1; spinning := length (conns (base p)) :: spinning p |}).
  assert (E1 : end_step auth dbg w p (XRun (PStep (LAccept r ws a))) = Some {| base := s1; spinning := spinning p |}).
  { cbn [end_step pool_step on_worker]. rewrite X. cbn [andb negb]. unfold step. rewrite Hr.
    destruct (listeners (base p)) as [|m] eqn:EL; [congruence|]. reflexivity. }
  assert (E2 : end_step auth dbg w {| base := s1; spinning := spinning p |} (XRun (PSpin (length (conns (base p))))) = Some q).
  { cbn [end_step pool_step base spinning]. change (running s1) with (running (base p)). rewrite Hr, X, Y. cbn [andb negb]. cbn [s1 conns set_conns].
    rewrite nth_error_app2, Nat.sub_diag by lia. cbn [nth_error]. now rewrite (oversized_hangs dbg r ws a HO). }
  set (b' := {| threads := set_base (set_main MPanicked (set_ctrl_c true s1)) q; unbound := unbound b |}).
  assert (E : asteps auth dbg w b [AThreads (XRun (PStep (LAccept r ws a))); AThreads (XRun (PSpin (length (conns (base p))))); ABind false] = Some b').
  { cbn [asteps astep on_main on_worker negb]. fold p. rewrite HU, E1. cbn [threads unbound]. rewrite E2. cbn [threads unbound q base].
    change (running s1) with (running (base p)). rewrite Hr. unfold b'. now rewrite HU. }
  exists b'. split; [exact E|]. split; [reflexivity|].
  apply (C136_spinning_never_ends auth dbg w adr b'); [eapply starts_steps; eauto|discriminate].
Qed.

Lemma stopped_finite auth dbg w (P : pool -> Prop) : forall p, tracked dbg p -> running (base p) = false ->
  (forall p', tracked dbg p' -> running (base p') = false -> (exists ls, Forall end_internal ls /\ end_steps auth dbg w p ls = Some p') ->
     end_at_rest auth dbg w p' -> P p') ->
  end_inevitably auth dbg w P p.
Proof.
  intros p. remember (rank (base p)) as r eqn:Er. revert p Er.
  induction r as [r IH] using (well_founded_induction lower_wf). intros p.
  remember (w - length (spinning p)) as free eqn:Ef. revert p Ef.
  induction free as [free IHf] using (well_founded_induction lt_wf). intros p Ef Er HT Hr HX. constructor.
  - intros HS. apply HX; [exact HT|exact Hr| |exact HS]. now exists [].
  - intros l p' Hl E. pose proof (tracked_step _ _ _ _ _ _ HT E) as HT'.
    assert (Hr' : running (base p') = false).
    { destruct (end_step_cases _ _ _ _ _ _ E) as [l0 HP|l0 s _ Hw Hl0 Hs Hm Eb Es|now _ Hw Ha Hv Eb Es|k c _ Hw Hni Hk Hh Eb Es|t _ Hw Ht Ed Es].
      - exfalso. destruct (pool_step_cases _ _ _ _ _ _ HP) as [(l1 & -> & Hs & _ & _)|(k & c & _ & _ & _ & _ & _ & _ & _ & H)]; [|congruence].
        unfold step in Hs. now rewrite Hr in Hs.
      - rewrite Eb. exact Hr.
      - rewrite Eb. exact Hr.
      - congruence.
      - unfold running in *. now rewrite (drop_main _ _ _ Ed). }
    assert (HX' : forall p'', tracked dbg p'' -> running (base p'') = false ->
      (exists ls, Forall end_internal ls /\ end_steps auth dbg w p' ls = Some p'') -> end_at_rest auth dbg w p'' -> P p'').
    { intros p'' H1 H1' (ls & H2 & H3). apply HX; [exact H1|exact H1'|]. exists (l :: ls). split; [now constructor|]. cbn [end_steps]. now rewrite E. }
    destruct (end_lower auth dbg w 0 p l p' (tracked_alive _ _ _ _ _ HT Hr) Hl E) as [L|(Eb & Hw & Es)].
    + apply (IH (rank (base p'))); auto. now rewrite Er.
    + apply (IHf (w - length (spinning p'))); auto; [lia|now rewrite Eb].
Qed.

(** At rest with a thread free everything has been dropped that does not spin. *)
Lemma stopped_rest auth dbg w p : running (base p) = false -> spinning p = [] -> w <> 0 -> end_at_rest auth dbg w p -> gone p = true.
Proof.
  intros Hr ES HW HS.
  assert (X : (length (spinning p) <? w) = true) by (rewrite ES; cbn; destruct w; [congruence|reflexivity]).
  assert (D : forall t, drop_task (base p) t = None).
  { intros t. pose proof (HS (XDrop t) I) as H. cbn [end_step] in H. rewrite Hr, X in H. cbn [negb andb] in H.
    assert (Y : spins p t = false) by (unfold spins; rewrite ES; now destruct t). rewrite Y in H.
    destruct (drop_task (base p) t); [discriminate|reflexivity]. }
  unfold gone. rewrite Hr. cbn [negb andb].
  assert (F : forallb (fun c => match c_reader c with RDone => true | _ => false end
                     && match c_writer c with WClosed _ => true | _ => false end) (conns (base p)) = true).
  { apply forallb_forall. intros c Hin. apply In_nth_error in Hin. destruct Hin as (k & Hk).
    pose proof (D (TaskReader k)) as D1. pose proof (D (TaskWriter k)) as D2. cbn [drop_task] in D1, D2. rewrite Hk in D1, D2.
    destruct (c_reader c); try discriminate. destruct (c_writer c); try discriminate. reflexivity. }
  rewrite F. pose proof (D TaskHandler) as D1. pose proof (D TaskListener) as D2. pose proof (D TaskService) as D3.
  cbn [drop_task] in D1, D2, D3. destruct (handler_alive (hdl (base p))); [discriminate|].
  destruct (listeners (base p)); [|discriminate]. destruct (service_running (base p)); [discriminate|reflexivity].
Qed.

(** Otherwise it ends: every run of the threads is finite, and ends with the process gone exactly if no read task spins.
    Peers that do not read cannot hold it up. *)
Theorem C136_ends auth dbg w adr b : starts auth dbg w adr b -> running (base (threads b)) = false -> w <> 0 ->
  end_inevitably auth dbg w (fun p => gone p = true <-> spinning p = []) (threads b).
Proof.
  intros HB Hr HW. apply stopped_finite; [exact (starts_tracked _ _ _ _ _ HB)|exact Hr|].
  intros p HT Hr' _ HS. split.
  - intros HG. destruct (spinning p) as [|k ks] eqn:ES; [reflexivity|exfalso].
    rewrite (spinning_not_gone auth dbg w 0 p (tracked_alive _ _ _ _ _ HT Hr')) in HG; [discriminate|]. rewrite ES. discriminate.
  - intros ES. exact (stopped_rest auth dbg w p Hr' ES HW HS).
Qed.

(** With no connection that overruns its buffer the process is gone in the end. *)
Theorem C136_process_ends auth dbg w adr b : starts auth dbg w adr b -> running (base (threads b)) = false -> w <> 0 ->
  (forall k c, nth_error (conns (base (threads b))) k = Some c -> overruns dbg c = false) ->
  end_inevitably auth dbg w (fun p => gone p = true) (threads b).
Proof.
  intros HB Hr HW HO.
  assert (HZ : overrunning dbg (threads b) = 0).
  { unfold overrunning. destruct (filter (overruns dbg) (conns (base (threads b)))) as [|c l] eqn:E; [reflexivity|]. exfalso.
    assert (Hin : In c (filter (overruns dbg) (conns (base (threads b))))) by (rewrite E; now left). apply filter_In in Hin.
    destruct Hin as (Hin & Hc). apply In_nth_error in Hin. destruct Hin as (k & Hk). rewrite (HO k c Hk) in Hc. discriminate. }
  apply stopped_finite; [exact (starts_tracked _ _ _ _ _ HB)|exact Hr|].
  intros p HT Hr' (ls & HF & HE) HS. apply (stopped_rest auth dbg w p Hr'); auto.
  destruct (end_peers_steps _ _ _ _ _ _ HF HE) as (EP & _).
  pose proof (spinning_overrun auth dbg w 0 p (tracked_alive _ _ _ _ _ HT Hr')) as HL.
  rewrite (overrunning_peers dbg _ _ EP), HZ in HL. destruct (spinning p); [reflexivity|cbn in HL; lia].
Qed.

(** Two addresses. The first client is accepted with a CONNACK before the second address fails; then all is dropped. With
    one oversized PUBLISH before that, the process stays. *)
Definition ex_first : list alabel :=
  ABind true :: map (fun l => AThreads (XRun (PStep l)))
    [LAccept (ex_peer [ex_client "s" None None] PeerOpen) (ex_socket []) 1; LReader 0 []; LReader 0 []; LHandler 0; LHandler 0;
     LHandler 0; LHandler 0; LHandler 0; LWriter 0; LWriter 0].

Example C136_case : exists b b1 b2,
  asteps ex_deny true 2 (starting_init [str "a:1883"; str "b:1883"]) ex_first = Some b
  /\ unbound b = Some [str "b:1883"] /\ running (base (threads b)) = true /\ listeners (base (threads b)) <> 0
  /\ map broker_sent (conns (base (threads b))) = [[ConnAck {| session_present := false; return_code := Accepted |}]]
  /\ asteps ex_deny true 2 b [ABind false] = Some b1 /\ running (base (threads b1)) = false
  /\ (forall k c, nth_error (conns (base (threads b1))) k = Some c -> overruns true c = false)
  /\ asteps ex_deny true 2 b1 (map (fun t => AThreads (XDrop t)) [TaskListener; TaskService; TaskReader 0; TaskHandler; TaskWriter 0]) = Some b2
  /\ gone (threads b2) = true /\ oversized ex_big.
Proof.
  eexists. eexists. eexists. split; [vm_compute; reflexivity|]. split; [reflexivity|]. split; [reflexivity|].
  split; [discriminate|]. split; [vm_compute; reflexivity|]. split; [vm_compute; reflexivity|]. split; [reflexivity|].
  split; [|split; [vm_compute; reflexivity|split; [vm_compute; reflexivity|apply ex_big_oversized]]].
  intros [|[|k]] c Hk; [|discriminate Hk|destruct k; discriminate Hk]. cbn [threads base conns nth_error] in Hk. injection Hk as <-. vm_compute. reflexivity.
Qed.
