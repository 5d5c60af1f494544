(** The broker of [Service.v] against the broker of [System.v]. *)
From Verif Require Import Base Base_facts Packets HashMap Subscriptions Messaging Handler Decoder ReadStream Conn
  WriteStream System System_facts System_conn System_queue System_exit System_rest Service.
Open Scope nat_scope.

Definition sreachable auth dbg n (c : ssys) : Prop := exists ls, ssteps auth dbg (ssys_init n) ls = Some c.

Lemma ssteps_app auth dbg ls1 : forall c ls2,
  ssteps auth dbg c (ls1 ++ ls2)
  = match ssteps auth dbg c ls1 with Some c' => ssteps auth dbg c' ls2 | None => None end.
Proof.
  induction ls1 as [|l ls1 IH]; intros c ls2; cbn [ssteps app]; [reflexivity|].
  destruct (sstep auth dbg c l); [apply IH|reflexivity].
Qed.

Lemma sreachable_step auth dbg n c l c' : sreachable auth dbg n c -> sstep auth dbg c l = Some c' ->
  sreachable auth dbg n c'.
Proof. intros (ls & H) HS. exists (ls ++ [l]). rewrite ssteps_app, H. cbn [ssteps]. now rewrite HS. Qed.

Lemma sreachable_steps auth dbg n c ls c' : sreachable auth dbg n c -> ssteps auth dbg c ls = Some c' ->
  sreachable auth dbg n c'.
Proof. intros (ls0 & H) HS. exists (ls0 ++ ls). now rewrite ssteps_app, H. Qed.

Lemma answer_back {R} (op : MessagingOperation R) r : answer_as op (answer_of op r) = Some r.
Proof. destruct op; try reflexivity; now destruct r. Qed.

(** ** What a waiting handler will do *)

(** What the program is after the answer. *)
Definition resume (p : prog) (a : answer) : option prog :=
  match p with Call op f => option_map f (answer_as op a) | _ => None end.

(** The state of [System.v]: an answered call is over. *)
Definition seen (c : ssys) : sys :=
  match waiting c, oneshots c, hdl (core c) with
  | Some _, [(_, a)], HBusy tx p =>
    match resume p a with Some p' => set_hdl (HBusy tx p') (core c) | None => core c end
  | _, _, _ => core c
  end.

(** A program that ends as soon as it has been given somebody's session. *)
Definition is_get {R} (op : MessagingOperation R) : Prop := match op with SessionGet _ => True | _ => False end.

Fixpoint lets_go (p : prog) : Prop :=
  match p with
  | Done | Panic => True
  | Send _ _ p' => lets_go p'
  | Call op f => (forall r s, answer_of op r = ASession s -> is_get op \/ f r = Done) /\ forall r, lets_go (f r)
  end.

Lemma lets_go_subscribe cid subs : forall codes f, (forall c, lets_go (f c)) -> lets_go (subscribe_all cid subs codes f).
Proof.
  induction subs as [|s subs IH]; intros codes f H; cbn [subscribe_all]; [apply H|].
  cbn [lets_go]. split; [discriminate|]. intros r. now apply IH.
Qed.

Lemma lets_go_all l e : lets_go (send_to_all l e).
Proof. induction l; cbn [send_to_all lets_go]; auto. Qed.

Lemma lets_go_event auth now e : lets_go (on_event auth now e).
Proof.
  destruct e as [c a k|cid p k|cid|cid]; cbn [on_event].
  - unfold on_connect. set (rest := Call _ _).
    assert (HR : lets_go rest).
    { cbn. split; [auto|]. intros [s|]; cbn; auto. split; auto. discriminate. }
    destruct (user_name c); [|exact HR]. destruct (password c); [|exact I].
    destruct (auth _ _); [exact HR|]. cbn. auto.
  - destruct p as [| |q| | | | |i subs| |i ts| | | |]; try exact I.
    + cbn. split; [discriminate|]. intros r. apply lets_go_all.
    + apply lets_go_subscribe. intros c. exact I.
    + cbn. split; [discriminate|]. auto.
    + cbn. split; [discriminate|]. intros []; exact I.
    + cbn. split; auto.
  - exact I.
  - cbn. split; auto.
Qed.

Lemma lets_go_invariant auth dbg n s : reachable auth dbg n s ->
  match hdl s with HBusy _ p => lets_go p | _ => True end.
Proof.
  apply (reachable_trans_ind auth dbg n (fun s => match hdl s with HBusy _ p => lets_go p | _ => True end)); [exact I|].
  clear s. intros s s' _ HI T. destruct T; try exact HI; cbn [hdl set_hdl panic_handler set_events]; try exact I.
  - apply lets_go_event.
  - rewrite H in HI. apply HI.
  - rewrite H in HI. exact HI.
Qed.

(** ** The invariant *)

Definition mode (c : ssys) : Prop :=
  (waiting c = None /\ inbox c = [] /\ oneshots c = [])
  \/ exists id tx R (op : MessagingOperation R) f,
       waiting c = Some id /\ hdl (core c) = HBusy tx (Call op f) /\ prog_ok tx (Call op f) /\ lets_go (Call op f)
       /\ (inbox c = [(id, Operation op)] /\ oneshots c = []
           \/ exists m, inbox c = [] /\ oneshots c = [(id, answer_of op (snd (serve m op)))]).

Definition sinv auth dbg n (c : ssys) : Prop :=
  reachable auth dbg n (seen c) /\ mode c /\ (maybe_sessions c = [] \/ exists tx, hdl (core c) = HBusy tx Done).

Lemma seen_core c : waiting c = None \/ oneshots c = [] -> seen c = core c.
Proof.
  intros H. unfold seen. destruct H as [-> | ->]; [reflexivity|]. now destruct (waiting c).
Qed.

Lemma seen_served c id id' tx R (op : MessagingOperation R) f r : waiting c = Some id ->
  hdl (core c) = HBusy tx (Call op f) -> oneshots c = [(id', answer_of op r)] ->
  seen c = set_hdl (HBusy tx (f r)) (core c).
Proof. intros H1 H2 H3. unfold seen. rewrite H1, H2, H3. cbn [resume]. now rewrite answer_back. Qed.

(** ** Steps that leave the handler alone *)

Definition tame (l : label) : Prop := match l with LHandler _ | LWriter _ | LStopHandler => False | _ => True end.

Lemma set_hdl_same s : set_hdl (hdl s) s = s.
Proof. now destruct s. Qed.

Lemma swap_handler auth dbg s h l : tame l -> handler_alive (hdl s) = true -> handler_alive h = true ->
  step auth dbg (set_hdl h s) l = option_map (set_hdl h) (step auth dbg s l).
Proof.
  intros HL HA Hh. unfold step. change (running (set_hdl h s)) with (running s). destruct (running s); [|reflexivity].
  destruct l as [r w a|k uuid|k|now| | | | |]; try destruct HL.
  - cbn [listeners set_hdl]. now destruct (listeners s).
  - unfold step_reader. cbn [conns set_hdl hdl events]. destruct (nth_error (conns s) k) as [c|]; [|reflexivity].
    rewrite HA, Hh. destruct (c_reader c) as [rs|e cid rs|cid rs|]; [| | |reflexivity].
    + destruct (stream_read_packet dbg rs) as [p rs'| | | | |]; try reflexivity. now destruct p.
    + now destruct (length (events s) <? channel_size).
    + now destruct (stream_read_packet dbg rs).
  - cbn [listeners set_hdl ctrl_c]. destruct (listeners s); [reflexivity|]. now destruct (ctrl_c s).
  - cbn [service_running set_hdl hdl]. rewrite HA, Hh. cbn [negb]. now rewrite !Bool.andb_false_r.
  - cbn [main set_hdl listeners hdl]. rewrite HA, Hh. cbn [orb]. now destruct (main s).
  - unfold step_main. cbn [main set_hdl listeners service_running hdl]. destruct (main s); try reflexivity.
    + now destruct (Nat.eqb _ _).
    + now destruct (service_running s).
    + destruct (hdl s), h; try discriminate; reflexivity.
Qed.

Lemma swap_writer auth dbg s h k :
  (forall c ws, nth_error (conns s) k = Some c -> c_writer c = WIdle ws -> c_queue c = [] ->
     has_sender (set_hdl h s) k c = has_sender s k c) ->
  step auth dbg (set_hdl h s) (LWriter k) = option_map (set_hdl h) (step auth dbg s (LWriter k)).
Proof.
  intros H. unfold step. change (running (set_hdl h s)) with (running s). destruct (running s); [|reflexivity].
  unfold step_writer. cbn [conns set_hdl]. destruct (nth_error (conns s) k) as [c|] eqn:Hk; [|reflexivity].
  destruct (c_writer c) as [ws|p ws|ws] eqn:EW; [| |reflexivity].
  - destruct (c_queue c) as [|[f [p|]] q] eqn:EQ; try reflexivity.
    rewrite (H c ws eq_refl EW EQ). now destruct (has_sender s k c).
  - now destruct (write_packet p ws).
Qed.

Lemma step_keeps_handler auth dbg s l s' : match l with LHandler _ | LStopHandler => False | _ => True end ->
  step auth dbg s l = Some s' -> hdl s' = hdl s.
Proof.
  intros HL. unfold step. destruct (running s); [|discriminate].
  destruct l as [r w a|k uuid|k|now| | | | |]; try destruct HL.
  - destruct (listeners s); [discriminate|]. now intros [= <-].
  - unfold step_reader. destruct (nth_error (conns s) k) as [c|]; [|discriminate].
    destruct (c_reader c) as [rs|e cid rs|cid rs|]; [| | |discriminate].
    + destruct (stream_read_packet dbg rs) as [p rs'| | | | |]; try discriminate; [destruct p| |]; now intros [= <-].
    + destruct (handler_alive (hdl s)); [destruct (_ <? _); [|discriminate]|]; now intros [= <-].
    + destruct (stream_read_packet dbg rs); try discriminate; now intros [= <-].
  - unfold step_writer. destruct (nth_error (conns s) k) as [c|]; [|discriminate].
    destruct (c_writer c) as [ws|p ws|ws]; [| |discriminate].
    + destruct (c_queue c) as [|[f [p|]] q]; [destruct (has_sender s k c); [discriminate|]| |]; now intros [= <-].
    + destruct (write_packet p ws); try discriminate; now intros [= <-].
  - destruct (listeners s); [discriminate|]. destruct (ctrl_c s); [|discriminate]. now intros [= <-].
  - destruct (_ && _); [|discriminate]. now intros [= <-].
  - destruct (main s); try discriminate. destruct (_ || _); now intros [= <-].
  - unfold step_main. destruct (main s); try discriminate.
    + destruct (Nat.eqb _ _); [|discriminate]. now intros [= <-].
    + destruct (service_running s); [discriminate|]. now intros [= <-].
    + destruct (hdl s) eqn:EH; try discriminate; intros [= <-]; exact EH.
Qed.

(** A step of [System.v] taken by the other tasks here, whatever the handler waits for. *)
Lemma core_step auth dbg n c l s' : sinv auth dbg n c -> step auth dbg (core c) l = Some s' -> tame l ->
  step auth dbg (seen c) l = Some (seen (with_core s' c)) /\ sinv auth dbg n (with_core s' c).
Proof.
  intros (HR & HM & HK) HS HL.
  assert (HH : hdl s' = hdl (core c)).
  { apply (step_keeps_handler auth dbg _ l); [destruct l; auto|exact HS]. }
  assert (E : step auth dbg (seen c) l = Some (seen (with_core s' c))).
  { destruct HM as [(H1 & H2 & H3)|(id & tx & R & op & f & H1 & H2 & _ & _ & [(H3 & H4)|(m & H3 & H4)])].
    - rewrite !seen_core by auto. exact HS.
    - rewrite !seen_core by auto. exact HS.
    - rewrite (seen_served c id id tx R op f (snd (serve m op)) H1 H2 H4).
      rewrite (seen_served (with_core s' c) id id tx R op f (snd (serve m op)) H1) by (cbn [core with_core]; congruence || exact H4).
      rewrite swap_handler; [|exact HL|now rewrite H2|reflexivity]. now rewrite HS. }
  split; [exact E|]. split; [eapply reachable_step; eauto|]. split.
  - destruct HM as [HM|(id & tx & R & op & f & H1 & H2 & HM)]; [left; exact HM|right].
    exists id, tx, R, op, f. cbn [core with_core waiting inbox oneshots]. now rewrite HH.
  - cbn [core with_core maybe_sessions]. now rewrite HH.
Qed.

Lemma pending_all l e : pending_targets (send_to_all l e) = l.
Proof. induction l as [|x l IH]; cbn [send_to_all pending_targets]; congruence. Qed.

Lemma existsb_app_false {A} (f : A -> bool) l l' : existsb f (l ++ l') = false -> existsb f l = false /\ existsb f l' = false.
Proof. rewrite existsb_app. apply Bool.orb_false_elim. Qed.

(** Senders a resumed program holds: its own connection's, or those just given to it. *)
Lemma resumed_targets tx R (op : MessagingOperation R) f r k : prog_ok tx (Call op f) ->
  opt_is k tx = false -> existsb (Nat.eqb k) (senders_in (answer_of op r)) = false ->
  existsb (Nat.eqb k) (pending_targets (f r)) = false.
Proof.
  intros HP HT HA. destruct HP as [HP|[(q & E)|(l & e & E)]].
  - assert (Ht : tx <> Some k).
    { intros ->. cbn [opt_is] in HT. now rewrite Nat.eqb_refl in HT. }
    destruct (HP k Ht) as (_ & HV). specialize (HV r). apply avoids_pending in HV.
    apply Bool.not_true_iff_false. rewrite existsb_exists. intros (x & Hx & Ex). apply Nat.eqb_eq in Ex. now subst.
  - pose proof (f_equal (fun p => resume p (answer_of op r)) E) as K. cbn [resume on_publish] in K.
    rewrite answer_back in K. cbn [option_map answer_as] in K.
    destruct (answer_of op r) as [| | | | | |l]; try discriminate K. cbn [option_map] in K. injection K as K.
    rewrite K, pending_all. exact HA.
  - destruct l; discriminate.
Qed.

Lemma idle_writer_true s k c ws : nth_error (conns s) k = Some c -> c_writer c = WIdle ws -> c_queue c = [] ->
  idle_writer s k = true.
Proof. intros H1 H2 H3. unfold idle_writer. now rewrite H1, H2, H3. Qed.

Lemma writer_step auth dbg n c k c' : sinv auth dbg n c -> sstep auth dbg c (SStep (LWriter k)) = Some c' ->
  step auth dbg (seen c) (LWriter k) = Some (seen c') /\ sinv auth dbg n c'.
Proof.
  intros (HR & HM & HK) HS. unfold sstep in HS. destruct (running (core c)) eqn:HRun; [|discriminate].
  destruct (idle_writer (core c) k && existsb (Nat.eqb k) (elsewhere c)) eqn:EI; [discriminate|].
  destruct (step auth dbg (core c) (LWriter k)) as [s'|] eqn:ES; [|discriminate]. cbn [option_map] in HS. injection HS as <-.
  assert (HH : hdl s' = hdl (core c)) by (apply (step_keeps_handler auth dbg _ (LWriter k)); [exact I|exact ES]).
  assert (E : step auth dbg (seen c) (LWriter k) = Some (seen (with_core s' c))).
  { destruct HM as [(H1 & H2 & H3)|(id & tx & R & op & f & H1 & H2 & HP & _ & [(H3 & H4)|(m & H3 & H4)])].
    - rewrite !seen_core by auto. exact ES.
    - rewrite !seen_core by auto. exact ES.
    - set (r := snd (serve m op)) in *.
      rewrite (seen_served c id id tx R op f r H1 H2 H4).
      rewrite (seen_served (with_core s' c) id id tx R op f r H1) by (cbn [core with_core]; congruence || exact H4).
      rewrite swap_writer; [now rewrite ES|].
      intros cs ws Hk Hw Hq. rewrite (idle_writer_true _ k cs ws Hk Hw Hq) in EI. cbn [andb] in EI.
      unfold elsewhere in EI. rewrite H3, H4 in EI. cbn [flat_map app] in EI.
      apply existsb_app_false in EI. destruct EI as (EI & _). rewrite app_nil_r in EI. cbn [snd] in EI.
      unfold has_sender. cbn [hdl set_hdl events service_running svc]. rewrite H2. cbn [pending_targets existsb].
      rewrite Bool.orb_false_r. destruct (opt_is k tx) eqn:ET; [reflexivity|].
      now rewrite (resumed_targets tx R op f r k HP ET EI). }
  split; [exact E|]. split; [eapply reachable_step; eauto|]. split.
  - destruct HM as [HM|(id & tx & R & op & f & H1 & H2 & HM)]; [left; exact HM|right].
    exists id, tx, R, op, f. cbn [core with_core waiting inbox oneshots]. now rewrite HH.
  - cbn [core with_core maybe_sessions]. now rewrite HH.
Qed.

(** The answer to [SessionGet] holds no session. *)
Lemma session_answers R (op : MessagingOperation R) f m r s : lets_go (Call op f) -> r = snd (serve m op) ->
  answer_of op r = ASession s -> senders_in (answer_of op r) = [] \/ f r = Done.
Proof.
  intros (HG & _) Hr Ha. destruct (HG r s Ha) as [K|K]; [left|right; exact K].
  destruct op; try destruct K. subst r. reflexivity.
Qed.

Definition stage (c : ssys) : nat :=
  match waiting c, oneshots c with
  | Some _, _ :: _ => 2
  | None, _ => 1
  | _, _ => 0
  end.

(** Every step is one of [System.v] or is not seen there. *)
Theorem sstep_seen auth dbg n c l c' : sinv auth dbg n c -> sstep auth dbg c l = Some c' ->
  sinv auth dbg n c' /\
  (seen c' = seen c /\ stage c' < stage c /\ (exists now, l = SStep (LHandler now))
   \/ exists l', step auth dbg (seen c) l' = Some (seen c')
      /\ match l with SServe => l' = LHandler 0 | SStep l0 => l' = l0 end).
Proof.
  intros HI HS. pose proof HI as (HR & HM & HK).
  assert (HRun : running (core c) = true) by (unfold sstep in HS; now destruct (running (core c))).
  destruct l as [l|].
  - destruct l as [r w a|k uuid|k|now| | | | |].
    + unfold sstep in HS. rewrite HRun in HS. destruct (step auth dbg (core c) _) as [s'|] eqn:ES; [|discriminate]. cbn [option_map] in HS. injection HS as <-.
      destruct (core_step auth dbg n c _ s' HI ES I) as (E & HI'). split; [exact HI'|right; eauto].
    + unfold sstep in HS. rewrite HRun in HS. destruct (step auth dbg (core c) _) as [s'|] eqn:ES; [|discriminate]. cbn [option_map] in HS. injection HS as <-.
      destruct (core_step auth dbg n c _ s' HI ES I) as (E & HI'). split; [exact HI'|right; eauto].
    + destruct (writer_step auth dbg n c k c' HI HS) as (E & HI'). split; [exact HI'|right; eauto].
    + unfold sstep in HS. rewrite HRun in HS. unfold s_handler in HS.
      destruct HM as [(H1 & H2 & H3)|(id & tx & R & op & f & H1 & H2 & HP & HG & HM)].
      * pose proof (seen_core c (or_introl H1)) as EC. rewrite EC in HR.
        destruct (hdl (core c)) as [|tx p| |] eqn:EH.
        -- destruct (step auth dbg (core c) (LHandler now)) as [s'|] eqn:ES; [|discriminate]. injection HS as <-.
           rewrite EC. split; [|right; exists (LHandler now); rewrite seen_core by auto; auto].
           split; [rewrite seen_core by auto; eapply reachable_step; eauto|]. split; [now left|]. left.
           cbn [maybe_sessions core]. destruct HK as [->|(tx & HK)]; [now destruct (hdl s')|discriminate].
        -- destruct p as [| |R op f|to e p].
           ++ destruct (step auth dbg (core c) (LHandler now)) as [s'|] eqn:ES; [|discriminate]. injection HS as <-.
              rewrite EC. split; [|right; exists (LHandler now); rewrite seen_core by auto; auto].
              split; [rewrite seen_core by auto; eapply reachable_step; eauto|]. split; [now left|]. left.
              unfold step, step_handler in ES. rewrite HRun, EH in ES. injection ES as <-. reflexivity.
           ++ destruct (step auth dbg (core c) (LHandler now)) as [s'|] eqn:ES; [|discriminate]. injection HS as <-.
              rewrite EC. split; [|right; exists (LHandler now); rewrite seen_core by auto; auto].
              split; [rewrite seen_core by auto; eapply reachable_step; eauto|]. split; [now left|]. left.
              unfold step, step_handler in ES. rewrite HRun, EH in ES. injection ES as <-. reflexivity.
           ++ rewrite H1 in HS.
              assert (HSR : service_running (core c) = true).
              { apply (dead_invariant auth dbg n _ HR). now rewrite EH. }
              rewrite HSR, H2 in HS. cbn in HS. injection HS as <-. rewrite EC.
              assert (E' : forall w i k f, seen {| core := core c; waiting := w; inbox := i; oneshots := oneshots c; maybe_sessions := k; fresh := f |} = core c).
              { intros w i k g. rewrite seen_core; [reflexivity|]. right. exact H3. }
              split; [|left; split; [apply E'|]; split; [unfold stage; cbn [waiting oneshots]; rewrite H1, H3; auto|eauto]].
              split; [rewrite E'; exact HR|]. split; [|left; destruct HK as [HK|(t & HK)]; [exact HK|discriminate]]. right. exists (fresh c), tx, R, op, f.
              cbn [waiting core inbox oneshots]. split; [reflexivity|]. split; [exact EH|].
              pose proof (prog_invariant auth dbg n _ HR) as Hp. pose proof (lets_go_invariant auth dbg n _ HR) as Hg. rewrite EH in Hp, Hg.
              split; [exact Hp|]. split; [exact Hg|]. left. auto.
           ++ destruct (step auth dbg (core c) (LHandler now)) as [s'|] eqn:ES; [|discriminate]. injection HS as <-.
              rewrite EC. split; [|right; exists (LHandler now); rewrite seen_core by auto; auto].
              split; [rewrite seen_core by auto; eapply reachable_step; eauto|]. split; [now left|]. left.
              cbn [maybe_sessions core]. destruct HK as [->|(tx' & HK)]; [now destruct (hdl s')|discriminate].
        -- unfold step, step_handler in HS. rewrite HRun, EH in HS. discriminate.
        -- unfold step, step_handler in HS. rewrite HRun, EH in HS. discriminate.
      * rewrite H1, H2 in HS. destruct HM as [(H3 & H4)|(m & H3 & H4)].
        -- rewrite H3, H4 in HS. cbn [find existsb fst] in HS. rewrite Nat.eqb_refl in HS. discriminate.
        -- rewrite (seen_served c id id tx R op f (snd (serve m op)) H1 H2 H4) in *.
           rewrite H3, H4 in HS. cbn [find filter fst] in HS. rewrite Nat.eqb_refl in HS. cbn [negb] in HS.
           rewrite answer_back in HS. injection HS as <-. split.
           ++ split; [rewrite seen_core by auto; exact HR|]. split; [left; auto|]. cbn [maybe_sessions core].
              destruct HK as [HK|(tx' & HK)]; [|rewrite H2 in HK; discriminate].
              destruct (answer_of op (snd (serve m op))) as [| |s0| | | |] eqn:EA; auto.
              destruct (session_answers R op f m _ s0 HG eq_refl EA) as [K|K].
              ** left. now rewrite EA in K.
              ** right. exists tx. cbn [hdl set_hdl]. now rewrite K.
           ++ left. split; [now rewrite seen_core by auto|]. split; [unfold stage; cbn [waiting oneshots]; rewrite H1, H4; auto|eauto].
    + (* the handler stops *)
      unfold sstep in HS. rewrite HRun in HS. destruct (step auth dbg (core c) LStopHandler) as [s'|] eqn:ES; [|discriminate]. cbn [option_map] in HS. injection HS as <-.
      assert (EH : hdl (core c) = HIdle).
      { unfold step in ES. rewrite HRun in ES. now destruct (hdl (core c)). }
      destruct HM as [(H1 & H2 & H3)|(id & tx & R & op & f & H1 & HE & _)]; [|rewrite EH in HE; discriminate].
      rewrite !seen_core in * by auto. cbn [core with_core]. split.
      * split; [rewrite seen_core by auto; eapply reachable_step; eauto|]. split; [now left|]. left. cbn [maybe_sessions with_core].
        destruct HK as [HK|(tx & HK)]; [exact HK|rewrite EH in HK; discriminate].
      * right. eauto.
    + unfold sstep in HS. rewrite HRun in HS. destruct (step auth dbg (core c) _) as [s'|] eqn:ES; [|discriminate]. cbn [option_map] in HS. injection HS as <-.
      destruct (core_step auth dbg n c _ s' HI ES I) as (E & HI'). split; [exact HI'|right; eauto].
    + unfold sstep in HS. rewrite HRun in HS. destruct (inbox c); [|discriminate]. destruct (step auth dbg (core c) _) as [s'|] eqn:ES; [|discriminate]. cbn [option_map] in HS. injection HS as <-.
      destruct (core_step auth dbg n c _ s' HI ES I) as (E & HI'). split; [exact HI'|right; eauto].
    + unfold sstep in HS. rewrite HRun in HS. destruct (step auth dbg (core c) _) as [s'|] eqn:ES; [|discriminate]. cbn [option_map] in HS. injection HS as <-.
      destruct (core_step auth dbg n c _ s' HI ES I) as (E & HI'). split; [exact HI'|right; eauto].
    + unfold sstep in HS. rewrite HRun in HS. destruct (step auth dbg (core c) _) as [s'|] eqn:ES; [|discriminate]. cbn [option_map] in HS. injection HS as <-.
      destruct (core_step auth dbg n c _ s' HI ES I) as (E & HI'). split; [exact HI'|right; eauto].
  - unfold sstep in HS. rewrite HRun in HS. unfold s_serve in HS. destruct (service_running (core c)); [|discriminate].
    destruct HM as [(H1 & H2 & H3)|(id & tx & R & op & f & H1 & H2 & HP & HG & [(H3 & H4)|(m & H3 & H4)])].
    + rewrite H2 in HS. discriminate.
    + rewrite H1, H3, H4 in HS. cbn [app] in HS. rewrite Nat.eqb_refl in HS.
      destruct (serve (svc (core c)) op) as [m r] eqn:EV. injection HS as <-.
      set (c' := {| core := _ |}).
      assert (E' : seen c' = set_hdl (HBusy tx (f r)) (set_svc m (core c))).
      { apply (seen_served c' (id) id tx R op f r); [exact H1 || reflexivity|exact H2|reflexivity]. }
      assert (EC : seen c = core c) by (apply seen_core; auto). rewrite EC in *.
      assert (E : step auth dbg (core c) (LHandler 0) = Some (seen c')).
      { rewrite E'. unfold step, step_handler. now rewrite HRun, H2, EV. }
      split; [|right; exists (LHandler 0); auto].
      split; [eapply reachable_step; eauto|]. split; [|exact HK]. right. exists id, tx, R, op, f.
      split; [reflexivity|]. split; [exact H2|]. split; [exact HP|]. split; [exact HG|]. right. exists (svc (core c)).
      split; [reflexivity|]. now rewrite EV.
    + rewrite H3 in HS. discriminate.
Qed.

Theorem sinv_reachable auth dbg n c : sreachable auth dbg n c -> sinv auth dbg n c.
Proof.
  intros (ls & H). assert (K : sinv auth dbg n (ssys_init n)).
  { split; [exact (reachable_init auth dbg n)|]. split; [left; auto|now left]. }
  revert K H. generalize (ssys_init n). induction ls as [|l ls IH]; intros c0 K; cbn [ssteps].
  - now intros [= <-].
  - destruct (sstep auth dbg c0 l) as [c1|] eqn:E; [|discriminate]. apply IH.
    now destruct (sstep_seen auth dbg n c0 l c1 K E).
Qed.
