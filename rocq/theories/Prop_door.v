(** Property C127: those who wait at the door. *)
From Verif Require Import Base Base_facts Packets HashMap Subscriptions Messaging Handler Decoder ReadStream ReadStream_facts
  Plain_facts Conn Conn_facts Encoder Encoder_facts WriteStream WriteStream_facts Spec_wire Spec_subs Spec_broker Spec_ref
  Subscriptions_facts Handler_facts System System_facts
  System_hist System_conn System_queue System_first System_progress System_exit System_rest
  Prop_subs Prop_stream Prop_broker Prop_system Prop_rest Prop_mqtt Prop_ref Prop_stop Prop_any Prop_who Prop_stack Sockets
  Prop_sockets Logging Accept.
Open Scope nat_scope.

(** ** Queues *)

Lemma set_queue_nth i q l : i < length l -> nth_error (set_queue i q l) i = Some q.
Proof.
  revert l. induction i as [|i IH]; intros [|x l] H; cbn in *; try lia; [reflexivity|]. apply IH. lia.
Qed.

Lemma set_queue_other i j q l : i <> j -> nth_error (set_queue i q l) j = nth_error l j.
Proof.
  revert j l. induction i as [|i IH]; intros [|j] [|x l] H; try reflexivity; try (now elim H).
  apply (IH j l). lia.
Qed.

Lemma nth_lt {A} (l : list A) i x : nth_error l i = Some x -> i < length l.
Proof. intros H. apply nth_error_Some. congruence. Qed.

Definition opened (q : option (list knocker)) : bool := match q with Some _ => true | None => false end.

Lemma set_queue_open i q q' l : nth_error l i = Some q' ->
  length (filter opened (set_queue i q l)) + (if opened q' then 1 else 0) = length (filter opened l) + (if opened q then 1 else 0).
Proof.
  revert l. induction i as [|i IH]; intros [|x l] H; try discriminate.
  - injection H as ->. cbn [set_queue firstn skipn app filter]. destruct (opened q), (opened q'); cbn [length]; lia.
  - specialize (IH l H). cbn [set_queue firstn skipn app filter] in *. unfold set_queue in IH. destruct (opened x); cbn [length]; lia.
Qed.

Lemma filter_open_some l : length (filter opened l) <> 0 -> exists i q, nth_error l i = Some (Some q).
Proof.
  induction l as [|[q|] l IH]; cbn; intros H; [lia|now exists 0, q|]. destruct (IH H) as (i & q & E). now exists (Datatypes.S i), q.
Qed.

(** ** Steps *)

(** What a step does to the broker inside. *)
Lemma front_step auth dbg limit backlog f l f' : fstep auth dbg limit backlog f l = Some f' ->
  inside f' = inside f \/ exists l', nstep auth dbg limit (inside f) l' = Some (inside f').
Proof.
  destruct l as [i p|i|i|l]; cbn [fstep].
  - destruct (nth_error (queues f) i) as [[q|]|]; try discriminate. destruct (running (inside f)); [|discriminate].
    destruct (length q <? backlog); intros [= <-]; now left.
  - destruct (nth_error (queues f) i) as [[[|p q]|]|]; try discriminate. destruct (running (inside f)); [|discriminate].
    destruct (open_sockets (inside f) <? limit) eqn:EO; [|intros [= <-]; now left].
    destruct (step auth dbg (inside f) _) as [s'|] eqn:E; [|discriminate]. intros [= <-]. right.
    exists (LAccept (fst (fst p)) (snd (fst p)) (snd p)). cbn [nstep inside]. now rewrite EO.
  - destruct (nth_error (queues f) i) as [[q|]|]; try discriminate. destruct (step auth dbg (inside f) LStopListener) as [s'|] eqn:E; [|discriminate].
    intros [= <-]. right. now exists LStopListener.
  - intros H. assert (D : exists s', step auth dbg (inside f) l = Some s' /\ inside f' = s' /\ nstep auth dbg limit (inside f) l = Some s').
    { destruct l; try discriminate; cbn [nstep]; (destruct (step auth dbg (inside f) _) as [s'|]; [|discriminate]); injection H as <-; now exists s'. }
    destruct D as (s' & _ & -> & D). right. eauto.
Qed.

Lemma nsteps_app auth dbg limit ls1 : forall ls2 s, nsteps auth dbg limit s (ls1 ++ ls2)
  = match nsteps auth dbg limit s ls1 with Some s1 => nsteps auth dbg limit s1 ls2 | None => None end.
Proof. induction ls1 as [|l ls1 IH]; cbn [app nsteps]; intros ls2 s; [reflexivity|]. destruct (nstep auth dbg limit s l); [apply IH|reflexivity]. Qed.

Lemma fsteps_app auth dbg limit backlog ls1 : forall ls2 f, fsteps auth dbg limit backlog f (ls1 ++ ls2)
  = match fsteps auth dbg limit backlog f ls1 with Some f1 => fsteps auth dbg limit backlog f1 ls2 | None => None end.
Proof. induction ls1 as [|l ls1 IH]; cbn [app fsteps]; intros ls2 f; [reflexivity|]. destruct (fstep auth dbg limit backlog f l); [apply IH|reflexivity]. Qed.

Lemma front_run auth dbg limit backlog ls : forall f f', fsteps auth dbg limit backlog f ls = Some f' ->
  exists ls', nsteps auth dbg limit (inside f) ls' = Some (inside f').
Proof.
  induction ls as [|l ls IH]; cbn [fsteps]; intros f f' H; [injection H as <-; now exists []|].
  destruct (fstep auth dbg limit backlog f l) as [f1|] eqn:E; [|discriminate]. destruct (IH f1 f' H) as (ls' & H').
  destruct (front_step _ _ _ _ _ _ _ E) as [E1|(l' & E1)]; [exists ls'; now rewrite <- E1|].
  exists (l' :: ls'). cbn [nsteps]. now rewrite E1.
Qed.

(** An invariant of a step is one of a run. *)
Lemma front_induct auth dbg limit backlog n (P : front -> Prop) : P (front_init n) ->
  (forall f l f', P f -> fstep auth dbg limit backlog f l = Some f' -> P f') ->
  forall ls f, fsteps auth dbg limit backlog (front_init n) ls = Some f -> P f.
Proof.
  intros H0 HS ls. induction ls as [|l ls IH] using rev_ind; intros f H; [now injection H as <-|].
  rewrite fsteps_app in H. destruct (fsteps auth dbg limit backlog (front_init n) ls) as [f1|]; [|discriminate].
  cbn [fsteps] in H. destruct (fstep auth dbg limit backlog f1 l) as [f2|] eqn:E; [|discriminate]. injection H as <-. eauto.
Qed.

Definition doors (f : front) : Prop := length (filter opened (queues f)) = listeners (inside f).

Lemma step_listeners auth dbg s l s' : l <> LStopListener -> step auth dbg s l = Some s' -> listeners s' = listeners s.
Proof.
  intros Hl H. unfold step in H. destruct (running s); [|discriminate].
  destruct l as [r w a|k u|k|now| | | | |]; try (now elim Hl).
  - destruct (listeners s) eqn:E; [discriminate|]. injection H as <-. exact E.
  - unfold step_reader in H. destruct (nth_error (conns s) k) as [c|]; [|discriminate].
    destruct (c_reader c) as [rs|e cid rs|cid rs|]; [| | |discriminate].
    + destruct (stream_read_packet dbg rs) as [p rs'|x| | | |]; try discriminate; [destruct p| |]; now injection H as <-.
    + destruct (handler_alive (hdl s)); [destruct (_ <? _); [|discriminate]|]; now injection H as <-.
    + destruct (stream_read_packet dbg rs) as [p rs'|x| | | |]; try discriminate; now injection H as <-.
  - unfold step_writer in H. destruct (nth_error (conns s) k) as [c|]; [|discriminate].
    destruct (c_writer c) as [ws|p ws|ws]; [| |discriminate].
    + destruct (c_queue c) as [|[from [p|]] q]; [destruct (has_sender s k c); [discriminate|]| |]; now injection H as <-.
    + destruct (write_packet p ws); try discriminate; now injection H as <-.
  - unfold step_handler in H. destruct (hdl s) as [|tx p| |]; try discriminate.
    + destruct (events s); [discriminate|]. now injection H as <-.
    + destruct p as [| |R op f|to ev p]; try (now injection H as <-).
      * destruct (serve (svc s) op). now injection H as <-.
      * destruct (nth_error (conns s) to) as [c|]; [|discriminate].
        destruct (c_writer c); [destruct (_ <? _); [|discriminate]..|]; now injection H as <-.
  - destruct (hdl s); try discriminate. destruct (ctrl_c s); [|discriminate]. now injection H as <-.
  - destruct (_ && _); [|discriminate]. now injection H as <-.
  - destruct (main s); try discriminate. destruct (_ || _); now injection H as <-.
  - unfold step_main in H. destruct (main s); try discriminate.
    + destruct (listeners s =? 0); [|discriminate]. now injection H as <-.
    + destruct (service_running s); [discriminate|]. now injection H as <-.
    + destruct (hdl s); try discriminate; now injection H as <-.
Qed.

Lemma step_stop auth dbg s s' : step auth dbg s LStopListener = Some s' -> running s = true /\ ctrl_c s = true /\ listeners s = Datatypes.S (listeners s') /\ conns s' = conns s.
Proof.
  unfold step. destruct (running s); [|discriminate]. destruct (listeners s) as [|m]; [discriminate|].
  destruct (ctrl_c s); [|discriminate]. intros [= <-]. auto.
Qed.

Lemma doors_kept auth dbg limit backlog f l f' : doors f -> fstep auth dbg limit backlog f l = Some f' -> doors f'.
Proof.
  unfold doors. intros D. destruct l as [i p|i|i|l]; cbn [fstep].
  - destruct (nth_error (queues f) i) as [[q|]|] eqn:E; try discriminate. destruct (running (inside f)); [|discriminate].
    destruct (length q <? backlog); intros [= <-]; [|exact D]. cbn [inside queues].
    pose proof (set_queue_open i (Some (q ++ [p])) _ _ E) as K. cbn [opened] in K. lia.
  - destruct (nth_error (queues f) i) as [[[|p q]|]|] eqn:E; try discriminate. destruct (running (inside f)); [|discriminate].
    destruct (open_sockets (inside f) <? limit); [|intros [= <-]; exact D].
    destruct (step auth dbg (inside f) _) as [s'|] eqn:ES; [|discriminate]. intros [= <-]. cbn [inside queues].
    apply step_listeners in ES; [|discriminate]. pose proof (set_queue_open i (Some q) _ _ E) as K. cbn [opened] in K. lia.
  - destruct (nth_error (queues f) i) as [[q|]|] eqn:E; try discriminate.
    destruct (step auth dbg (inside f) LStopListener) as [s'|] eqn:ES; [|discriminate]. intros [= <-]. cbn [inside queues].
    apply step_stop in ES. destruct ES as (_ & _ & ES & _). pose proof (set_queue_open i None _ _ E) as K. cbn [opened] in K. lia.
  - intros H. destruct l; try discriminate;
      (destruct (step auth dbg (inside f) _) as [s'|] eqn:ES; [|discriminate]); injection H as <-; cbn [inside queues];
      (apply step_listeners in ES; [|discriminate]); congruence.
Qed.

Lemma doors_run auth dbg limit backlog n ls f : fsteps auth dbg limit backlog (front_init n) ls = Some f -> doors f.
Proof.
  apply (front_induct auth dbg limit backlog n doors); [|intros f0 l f1; apply doors_kept].
  unfold doors, front_init. cbn. induction n; cbn; congruence.
Qed.

(** ** The same broker *)

Theorem C127_same auth dbg limit backlog n :
  (forall ls f, fsteps auth dbg limit backlog (front_init n) ls = Some f -> nreachable auth dbg limit n (inside f))
  /\ (0 < backlog -> forall s, nreachable auth dbg limit n s ->
      exists ls f, fsteps auth dbg limit backlog (front_init n) ls = Some f /\ inside f = s).
Proof.
  split.
  - intros ls f H. apply (front_run auth dbg limit backlog ls (front_init n) f H).
  - intros HB s (ls & H). revert s H. 
    enough (K : forall s, nsteps auth dbg limit (sys_init n) ls = Some s -> exists ls' f,
      fsteps auth dbg limit backlog (front_init n) ls' = Some f /\ inside f = s
      /\ forall i q, nth_error (queues f) i = Some (Some q) -> q = []).
    { intros s H. destruct (K s H) as (ls' & f & A & B & _). eauto. }
    induction ls as [|l ls IH] using rev_ind; intros s H.
    + injection H as <-. exists [], (front_init n). repeat split. intros i q E. cbn in E. apply nth_error_In, repeat_spec in E. congruence.
    + rewrite nsteps_app in H. destruct (nsteps auth dbg limit (sys_init n) ls) as [s1|]; [|discriminate].
      cbn [nsteps] in H. destruct (nstep auth dbg limit s1 l) as [s2|] eqn:E; [|discriminate]. injection H as ->.
      destruct (IH s1 eq_refl) as (ls' & f & HF & HI & HQ). clear IH.
      pose proof (doors_run _ _ _ _ _ _ _ HF) as HD. unfold doors in HD. rewrite HI in HD.
      assert (OPEN : listeners s1 <> 0 -> exists i, nth_error (queues f) i = Some (Some [])).
      { intros HL. rewrite <- HD in HL. destruct (filter_open_some _ HL) as (i & q & Ei). exists i. now rewrite (HQ i q Ei) in Ei. }
      assert (INS : (forall r w a, l <> LAccept r w a) -> l <> LStopListener -> exists ls' f,
        fsteps auth dbg limit backlog (front_init n) ls' = Some f /\ inside f = s /\ forall i q, nth_error (queues f) i = Some (Some q) -> q = []).
      { intros N1 N2. apply nstep_step in E.
        exists (ls' ++ [FInside l]), {| inside := s; queues := queues f; came := came f; entered := entered f |}.
        split; [|split; [reflexivity|exact HQ]]. rewrite fsteps_app, HF. cbn [fsteps fstep]. rewrite HI.
        destruct l; try (rewrite E; reflexivity); [now elim (N1 r w address)|now elim N2]. }
      destruct l as [r w a|k u|k|now| | | | |]; try (apply INS; discriminate).
      * cbn [nstep] in E. destruct (open_sockets s1 <? limit) eqn:EO; [|discriminate].
        assert (HL : listeners s1 <> 0 /\ running s1 = true).
        { unfold step in E. destruct (running s1); [|discriminate]. split; [|reflexivity]. intros K. now rewrite K in E. }
        destruct HL as (HL & HR). destruct (OPEN HL) as (i & Ei).
        eexists (ls' ++ [FKnock i (r, w, a); FAccept i]), _. rewrite fsteps_app, HF. cbn [fsteps fstep]. rewrite Ei, HI, HR.
        cbn [length]. destruct (Nat.ltb_spec 0 backlog) as [_|]; [|lia]. cbn [fsteps fstep inside queues came entered app].
        rewrite (set_queue_nth i _ _ (nth_lt _ _ _ Ei)), HR, EO. cbn [fst snd]. rewrite E. split; [reflexivity|]. split; [reflexivity|].
        cbn [queues]. intros j q Ej. destruct (Nat.eq_dec i j) as [<-|NE].
        { rewrite set_queue_nth in Ej; [congruence|]. apply nth_error_Some. rewrite set_queue_nth; [discriminate|exact (nth_lt _ _ _ Ei)]. }
        rewrite !set_queue_other in Ej by exact NE. eauto.
      * apply nstep_step in E. destruct (step_stop _ _ _ _ E) as (_ & _ & HL & _). destruct (OPEN ltac:(lia)) as (i & Ei).
        eexists (ls' ++ [FStop i]), _. rewrite fsteps_app, HF. cbn [fsteps fstep]. rewrite Ei, HI, E. split; [reflexivity|]. split; [reflexivity|].
        cbn [queues]. intros j q Ej. destruct (Nat.eq_dec i j) as [<-|NE]; [rewrite set_queue_nth in Ej by exact (nth_lt _ _ _ Ei); discriminate|].
        rewrite set_queue_other in Ej by exact NE. eauto.
Qed.

(** ** In order *)

Definition at_door (i : nat) (l : list (nat * knocker)) : list knocker := map snd (filter (fun x => fst x =? i) l).

Definition knocks (ls : list flabel) : list (nat * knocker) :=
  flat_map (fun l => match l with FKnock i p => [(i, p)] | _ => [] end) ls.

Lemma at_door_snoc i l j p : at_door i (l ++ [(j, p)]) = at_door i l ++ (if j =? i then [p] else []).
Proof. unfold at_door. rewrite filter_app, map_app. cbn [filter fst]. now destruct (j =? i). Qed.

Definition in_order (f : front) : Prop :=
  peers (inside f) = map snd (entered f)
  /\ (forall i q, nth_error (queues f) i = Some (Some q) -> at_door i (came f) = at_door i (entered f) ++ q)
  /\ (forall i, exists left, at_door i (came f) = at_door i (entered f) ++ left)
  /\ (forall x, In x (came f) -> fst x < length (queues f)).

Lemma set_queue_length i q l : length (set_queue i q l) = length l.
Proof. revert l. induction i as [|i IH]; intros [|x l]; try reflexivity. cbn. now rewrite <- (IH l). Qed.

Lemma in_order_kept auth dbg limit backlog f l f' : in_order f -> fstep auth dbg limit backlog f l = Some f' -> in_order f'.
Proof.
  intros (P & Q & R & B). destruct l as [i p|i|i|l]; cbn [fstep].
  - destruct (nth_error (queues f) i) as [[q|]|] eqn:E; try discriminate. destruct (running (inside f)); [|discriminate].
    destruct (length q <? backlog); intros [= <-]; [|now repeat split]. unfold in_order. cbn [inside queues came entered]. split; [exact P|].
    assert (EQ : forall j, at_door j (came f ++ [(i, p)]) = at_door j (came f) ++ if i =? j then [p] else []) by (intros j; apply at_door_snoc).
    split; [|split].
    + intros j q0 Ej. rewrite EQ. destruct (Nat.eqb_spec i j) as [<-|NE].
      * rewrite set_queue_nth in Ej by exact (nth_lt _ _ _ E). injection Ej as <-. now rewrite (Q i q E), app_assoc.
      * rewrite set_queue_other in Ej by exact NE. rewrite app_nil_r. auto.
    + intros j. destruct (R j) as (left & Hl). rewrite EQ, Hl, <- app_assoc. eauto.
    + intros x Hx. rewrite set_queue_length. apply in_app_or in Hx. destruct Hx as [Hx|[<-|[]]]; [auto|exact (nth_lt _ _ _ E)].
  - destruct (nth_error (queues f) i) as [[[|p q]|]|] eqn:E; try discriminate. destruct (running (inside f)) eqn:ER; [|discriminate].
    destruct (open_sockets (inside f) <? limit); [|intros [= <-]; now repeat split].
    destruct (step auth dbg (inside f) _) as [s'|] eqn:ES; [|discriminate]. intros [= <-]. unfold in_order. cbn [inside queues came entered].
    split; [|split; [|split]].
    + unfold step in ES. rewrite ER in ES. destruct (listeners (inside f)); [discriminate|]. injection ES as <-.
      unfold peers in *. cbn [conns set_conns]. rewrite !map_app, P. destruct p as [[r w] a]. reflexivity.
    + intros j q0 Ej. rewrite at_door_snoc. destruct (Nat.eqb_spec i j) as [<-|NE].
      * rewrite set_queue_nth in Ej by exact (nth_lt _ _ _ E). injection Ej as <-. rewrite (Q i _ E), <- app_assoc. reflexivity.
      * rewrite set_queue_other in Ej by exact NE. rewrite app_nil_r. auto.
    + intros j. rewrite at_door_snoc. destruct (Nat.eqb_spec i j) as [<-|NE].
      * exists q. rewrite (Q i _ E), <- app_assoc. reflexivity.
      * rewrite app_nil_r. auto.
    + intros x Hx. rewrite set_queue_length. auto.
  - destruct (nth_error (queues f) i) as [[q|]|] eqn:E; try discriminate.
    destruct (step auth dbg (inside f) LStopListener) as [s'|] eqn:ES; [|discriminate]. intros [= <-]. unfold in_order. cbn [inside queues came entered].
    apply step_stop in ES. destruct ES as (_ & _ & _ & ES). split; [unfold peers in *; now rewrite ES|]. split; [|split; [exact R|]].
    + intros j q0 Ej. destruct (Nat.eq_dec i j) as [<-|NE].
      * rewrite set_queue_nth in Ej by exact (nth_lt _ _ _ E). discriminate.
      * rewrite set_queue_other in Ej by exact NE. auto.
    + intros x Hx. rewrite set_queue_length. auto.
  - intros H.
    assert (D : exists s', step auth dbg (inside f) l = Some s' /\ (internal l \/ l = LCtrlC)
                           /\ f' = {| inside := s'; queues := queues f; came := came f; entered := entered f |}).
    { destruct l; try discriminate; (destruct (step auth dbg (inside f) _) as [s'|] eqn:ES; [|discriminate]); injection H as <-; exists s';
        (split; [reflexivity|]); (split; [|reflexivity]); first [now right | left; exact I]. }
    destruct D as (s' & ES & HL & ->). unfold in_order. cbn [inside queues came entered]. split; [|now repeat split].
    rewrite <- P. destruct HL as [HL| ->]; [exact (peers_step auth dbg _ _ _ HL ES)|].
    unfold step in ES. destruct (running (inside f)); [|discriminate]. destruct (main (inside f)); try discriminate.
    destruct (_ || _); injection ES as <-; reflexivity.
Qed.

Lemma in_order_run auth dbg limit backlog n ls f : fsteps auth dbg limit backlog (front_init n) ls = Some f -> in_order f.
Proof.
  apply (front_induct auth dbg limit backlog n in_order); [|intros f0 l f1; apply in_order_kept].
  unfold in_order, front_init. cbn. split; [reflexivity|]. split; [|split; [intros i; now exists []|intros x []]].
  intros i q E. apply nth_error_In, repeat_spec in E. injection E as <-. reflexivity.
Qed.

(** Those who connect to a listener are accepted in the order in which they come, each at most once, and the broker's
    connections are those accepted; who is not accepted waits, or waited when the listener stopped. *)
Theorem C127_in_order auth dbg limit backlog n ls f : fsteps auth dbg limit backlog (front_init n) ls = Some f ->
  peers (inside f) = map snd (entered f)
  /\ (forall i q, nth_error (queues f) i = Some (Some q) -> at_door i (came f) = at_door i (entered f) ++ q)
  /\ (forall i, exists left, at_door i (came f) = at_door i (entered f) ++ left)
  /\ (length (knocks ls) <= backlog -> came f = knocks ls).
Proof.
  intros H. destruct (in_order_run _ _ _ _ _ _ _ H) as (P & Q & R & _). split; [exact P|]. split; [exact Q|]. split; [exact R|].
  clear P Q R. revert f H. induction ls as [|l ls IH] using rev_ind; intros f H HB; [now injection H as <-|].
  rewrite fsteps_app in H. destruct (fsteps auth dbg limit backlog (front_init n) ls) as [f1|] eqn:E1; [|discriminate].
  cbn [fsteps] in H. destruct (fstep auth dbg limit backlog f1 l) as [f2|] eqn:E; [|discriminate]. injection H as ->.
  unfold knocks in HB |- *. rewrite flat_map_app in HB |- *. cbn [flat_map] in HB |- *. rewrite app_nil_r in HB |- *. fold (knocks ls) in *.
  rewrite app_length in HB. specialize (IH f1 eq_refl ltac:(lia)). rewrite <- IH.
  destruct l as [i p|i|i|l]; cbn [fstep] in E; rewrite ?app_nil_r.
  - destruct (nth_error (queues f1) i) as [[q|]|] eqn:EQ; try discriminate. destruct (running (inside f1)); [|discriminate].
    destruct (Nat.ltb_spec (length q) backlog) as [L|L]; injection E as <-; [reflexivity|exfalso].
    destruct (in_order_run _ _ _ _ _ _ _ E1) as (_ & Q & _). specialize (Q i q EQ). apply (f_equal (@length _)) in Q.
    rewrite app_length in Q. assert (K : length (at_door i (came f1)) <= length (came f1)).
    { unfold at_door. rewrite map_length. generalize (came f1). intros l. induction l as [|x l IHl]; cbn; [lia|]. destruct (fst x =? i); cbn; lia. }
    rewrite IH in K, Q. cbn [length] in HB. lia.
  - destruct (nth_error (queues f1) i) as [[[|p q]|]|]; try discriminate. destruct (running (inside f1)); [|discriminate].
    destruct (open_sockets (inside f1) <? limit); [|now injection E as <-].
    destruct (step auth dbg (inside f1) _); [|discriminate]. now injection E as <-.
  - destruct (nth_error (queues f1) i) as [[q|]|]; try discriminate. destruct (step auth dbg (inside f1) LStopListener); [|discriminate]. now injection E as <-.
  - destruct l; try discriminate; (destruct (step auth dbg (inside f1) _); [|discriminate]); now injection E as <-.
Qed.

(** Nobody is accepted by a listener that has stopped. *)
Theorem C127_left_behind auth dbg limit backlog i ls : forall f f', fsteps auth dbg limit backlog f ls = Some f' ->
  nth_error (queues f) i = Some None -> nth_error (queues f') i = Some None /\ at_door i (entered f') = at_door i (entered f).
Proof.
  induction ls as [|l ls IH]; cbn [fsteps]; intros f f' H HN; [injection H as <-; auto|].
  destruct (fstep auth dbg limit backlog f l) as [f1|] eqn:E; [|discriminate].
  assert (K : nth_error (queues f1) i = Some None /\ at_door i (entered f1) = at_door i (entered f)).
  { destruct l as [j p|j|j|l]; cbn [fstep] in E.
    - destruct (nth_error (queues f) j) as [[q|]|] eqn:EQ; try discriminate. destruct (running (inside f)); [|discriminate].
      assert (NE : j <> i) by congruence.
      destruct (length q <? backlog); injection E as <-; cbn [queues entered]; [now rewrite set_queue_other|auto].
    - destruct (nth_error (queues f) j) as [[[|p q]|]|] eqn:EQ; try discriminate. destruct (running (inside f)); [|discriminate].
      assert (NE : j <> i) by congruence.
      destruct (open_sockets (inside f) <? limit); [|now injection E as <-].
      destruct (step auth dbg (inside f) _); [|discriminate]. injection E as <-. cbn [queues entered]. rewrite set_queue_other by exact NE.
      split; [exact HN|]. rewrite at_door_snoc. apply Nat.eqb_neq in NE. now rewrite NE, app_nil_r.
    - destruct (nth_error (queues f) j) as [[q|]|] eqn:EQ; try discriminate. destruct (step auth dbg (inside f) LStopListener); [|discriminate].
      assert (NE : j <> i) by congruence. injection E as <-. cbn [queues entered]. now rewrite set_queue_other.
    - destruct l; try discriminate; (destruct (step auth dbg (inside f) _); [|discriminate]); injection E as <-; auto. }
  destruct K as (K1 & K2). destruct (IH f1 f' H K1) as (A & B). split; [exact A|]. now rewrite B.
Qed.

(** ** Failing accepts *)

Definition complaint (L : library) : entry := {| lvl := Error; said := str "Error while accepting connection: " ++ of_error L |}.

(** A failing accept leaves one record and changes nothing, and accept fails exactly when all sockets are open. *)
Theorem C127_failing auth dbg limit backlog L f l f' : fstep auth dbg limit backlog f l = Some f' ->
  (front_entries L limit f l = []
   /\ forall i, l = FAccept i -> open_sockets (inside f) < limit /\ exists p q, nth_error (queues f) i = Some (Some (p :: q))
        /\ entered f' = entered f ++ [(i, p)])
  \/ (front_entries L limit f l = [complaint L] /\ f' = f /\ limit <= open_sockets (inside f)
      /\ exists i p q, l = FAccept i /\ nth_error (queues f) i = Some (Some (p :: q))).
Proof.
  intros H. destruct l as [i p|i|i|l]; try (left; split; [reflexivity|discriminate]).
  cbn [fstep front_entries] in *. destruct (nth_error (queues f) i) as [[[|p q]|]|] eqn:E; try discriminate.
  destruct (running (inside f)); [|discriminate]. destruct (Nat.ltb_spec (open_sockets (inside f)) limit) as [HL|HL].
  - left. split; [reflexivity|]. intros j [= <-]. split; [exact HL|]. exists p, q. split; [exact E|].
    destruct (step auth dbg (inside f) _); [|discriminate]. now injection H as <-.
  - right. split; [reflexivity|]. injection H as <-. split; [reflexivity|]. split; [exact HL|]. now exists i, p, q.
Qed.

(** So the log grows without bound while nothing else happens. *)
Theorem C127_flood auth dbg limit backlog L f i p q : running (inside f) = true -> limit <= open_sockets (inside f) ->
  nth_error (queues f) i = Some (Some (p :: q)) ->
  forall N, exists ls, length ls = N /\ fsteps auth dbg limit backlog f ls = Some f
    /\ front_log L auth dbg limit backlog f ls = repeat (complaint L) N.
Proof.
  intros HR HL HQ N. exists (repeat (FAccept i) N). split; [apply repeat_length|].
  apply Nat.ltb_ge in HL.
  assert (F : fstep auth dbg limit backlog f (FAccept i) = Some f) by (cbn [fstep]; now rewrite HQ, HR, HL).
  assert (G : front_entries L limit f (FAccept i) = [complaint L]) by (cbn [front_entries]; now rewrite HQ, HL).
  induction N as [|N (IH1 & IH2)]; [now split|]. cbn [repeat fsteps front_log]. rewrite F, G. split; [exact IH1|].
  cbn [app]. now rewrite IH2.
Qed.

(** And it need not end before ctrl-c: when strangers have taken the sockets that were left, as in C100, everybody
    who comes later waits for as long as the broker runs, and all the while the listener complains. *)
Theorem C127_shut_out auth dbg limit backlog n L ls0 f i (nps : list peer) : 0 < backlog ->
  fsteps auth dbg limit backlog (front_init n) ls0 = Some f -> quiet auth dbg n (inside f) ->
  nth_error (queues f) i = Some (Some []) -> open_sockets (inside f) + length nps = limit ->
  (forall i r w a, nth_error nps i = Some (r, w, a) ->
     exists id, newcomer auth dbg (new_conn r w a) id /\ (forall j, ~ owns auth (handled (inside f)) j id)
       /\ forall j r' w' a', j <> i -> nth_error nps j = Some (r', w', a') -> ~ newcomer auth dbg (new_conn r' w' a') id) ->
  exists ls f', fsteps auth dbg limit backlog f ls = Some f' /\ entered f' = entered f ++ map (fun p => (i, p)) nps
    /\ nth_error (queues f') i = Some (Some [])
    /\ forall ls2 f2, fsteps auth dbg limit backlog f' ls2 = Some f2 -> ctrl_c (inside f2) = false ->
         entered f2 = entered f'
         /\ forall j p q, nth_error (queues f2) j = Some (Some (p :: q)) ->
              forall N, exists ls3, length ls3 = N /\ fsteps auth dbg limit backlog f2 ls3 = Some f2
                /\ front_log L auth dbg limit backlog f2 ls3 = repeat (complaint L) N.
Proof.
  intros HB H0 HQ Hi HO HP.
  assert (HL : listeners (inside f) <> 0).
  { rewrite <- (doors_run _ _ _ _ _ _ _ H0). clear - Hi. revert Hi. generalize (queues f). intros l.
    revert i. induction l as [|x l IH]; intros [|i] Hi; try discriminate; cbn.
    - injection Hi as ->. cbn. lia.
    - destruct (opened x); cbn [length]; [lia|eauto]. }
  assert (Hr : running (inside f) = true) by (destruct HQ as (HR & _ & _ & HA); exact (alive_running auth dbg n _ HR HA)).
  (* they come and are accepted one by one *)
  assert (FILL : forall nps f0, running (inside f0) = true -> listeners (inside f0) <> 0 -> nth_error (queues f0) i = Some (Some []) ->
    open_sockets (inside f0) + length nps = limit ->
    exists ls f', fsteps auth dbg limit backlog f0 ls = Some f' /\ entered f' = entered f0 ++ map (fun p => (i, p)) nps
      /\ nth_error (queues f') i = Some (Some [])
      /\ nsteps auth dbg limit (inside f0) (map (fun x => LAccept (fst (fst x)) (snd (fst x)) (snd x)) nps) = Some (inside f')).
  { clear - HB. intros nps. induction nps as [|p nps IH]; intros f0 Hr HL Hi HO.
    - exists [], f0. cbn. rewrite app_nil_r. auto.
    - cbn [length] in HO. set (s1 := set_conns (conns (inside f0) ++ [new_conn (fst (fst p)) (snd (fst p)) (snd p)]) (inside f0)).
      assert (ST : step auth dbg (inside f0) (LAccept (fst (fst p)) (snd (fst p)) (snd p)) = Some s1).
      { unfold step. rewrite Hr. destruct (listeners (inside f0)); [congruence|reflexivity]. }
      destruct (IH {| inside := s1; queues := set_queue i (Some []) (set_queue i (Some [p]) (queues f0)); came := came f0 ++ [(i, p)];
                      entered := entered f0 ++ [(i, p)] |}) as (ls & f' & E1 & E2 & E3 & E4).
      + exact Hr.
      + exact HL.
      + cbn [queues]. rewrite set_queue_nth; [reflexivity|]. rewrite set_queue_length. exact (nth_lt _ _ _ Hi).
      + cbn [inside]. unfold open_sockets, s1 in *. cbn [conns set_conns]. rewrite filter_app, app_length. cbn. lia.
      + exists (FKnock i p :: FAccept i :: ls), f'. cbn [entered inside] in E2, E4. cbn [fsteps fstep]. rewrite Hi, Hr. cbn [length app].
        destruct (Nat.ltb_spec 0 backlog) as [_|]; [|lia]. cbn [fsteps fstep inside queues came entered].
        rewrite (set_queue_nth i _ _ (nth_lt _ _ _ Hi)), Hr.
        destruct (Nat.ltb_spec (open_sockets (inside f0)) limit) as [_|]; [|lia]. rewrite ST. split; [exact E1|].
        split; [rewrite E2, <- app_assoc; reflexivity|]. split; [exact E3|]. cbn [map nsteps nstep].
        destruct (Nat.ltb_spec (open_sockets (inside f0)) limit) as [_|]; [|lia]. now rewrite ST. }
  destruct (FILL nps f Hr HL Hi HO) as (ls & f' & E1 & E2 & E3 & E4). clear FILL. exists ls, f'. split; [exact E1|]. split; [exact E2|].
  split; [exact E3|].
  assert (R' : fsteps auth dbg limit backlog (front_init n) (ls0 ++ ls) = Some f') by (rewrite fsteps_app, H0; exact E1).
  intros ls2 f2 H2 HC. destruct (front_run _ _ _ _ _ _ _ H2) as (ls2' & H2').
  (* as in C100_nobody_else *)
  destruct (C100_can_be_filled auth dbg limit n (inside f) nps HQ HL HO) as (s' & F1 & F2 & F3 & F4). rewrite E4 in F1. injection F1 as <-.
  assert (HN : only_newcomers auth dbg (inside f) (inside f')).
  { assert (LP : length (conns (inside f)) = length (peers (inside f))) by (unfold peers; now rewrite map_length).
    assert (B : forall j c, length (conns (inside f)) <= j -> nth_error (conns (inside f')) j = Some c ->
      nth_error nps (j - length (conns (inside f))) = Some (c_rsock c, c_wsock c, c_addr c)).
    { intros j c Hge Hj. assert (K : nth_error (peers (inside f')) j = Some (c_rsock c, c_wsock c, c_addr c)) by (unfold peers; now rewrite nth_error_map, Hj).
      rewrite F2, nth_error_app2 in K by lia. now rewrite LP. }
    assert (W : forall c id, newcomer auth dbg (new_conn (c_rsock c) (c_wsock c) (c_addr c)) id <-> newcomer auth dbg c id) by reflexivity.
    intros k c Hge Hk. destruct (HP _ _ _ _ (B k c Hge Hk)) as (id & Hid & Hf & Hd). exists id. split; [now apply W|]. split; [exact Hf|].
    intros j c' Hj Hne Hc'. rewrite <- W. apply (Hd (j - length (conns (inside f)))); [lia|exact (B j c' Hj Hc')]. }
  destruct (C100_full_for_ever auth dbg limit n (inside f) _ (inside f') HQ E4 HN F4 ls2' (inside f2) H2' HC) as (K1 & K2 & K3 & _).
  assert (R2 : fsteps auth dbg limit backlog (front_init n) ((ls0 ++ ls) ++ ls2) = Some f2) by (rewrite fsteps_app, R'; exact H2).
  split.
  - destruct (in_order_run _ _ _ _ _ _ _ R') as (P1 & _). destruct (in_order_run _ _ _ _ _ _ _ R2) as (P2 & _).
    assert (G : forall ls f f', fsteps auth dbg limit backlog f ls = Some f' -> exists more, entered f' = entered f ++ more).
    { clear. induction ls as [|l ls IH]; cbn [fsteps]; intros f f' H; [injection H as <-; exists []; now rewrite app_nil_r|].
      destruct (fstep auth dbg limit backlog f l) as [f1|] eqn:E; [|discriminate]. destruct (IH f1 f' H) as (more & ->).
      assert (K : exists m, entered f1 = entered f ++ m).
      { destruct l as [j p|j|j|l]; cbn [fstep] in E.
        - destruct (nth_error (queues f) j) as [[q|]|]; try discriminate. destruct (running (inside f)); [|discriminate].
          destruct (length q <? backlog); injection E as <-; exists []; now rewrite app_nil_r.
        - destruct (nth_error (queues f) j) as [[[|p q]|]|]; try discriminate. destruct (running (inside f)); [|discriminate].
          destruct (open_sockets (inside f) <? limit); [|injection E as <-; exists []; now rewrite app_nil_r].
          destruct (step auth dbg (inside f) _); [|discriminate]. injection E as <-. eexists. reflexivity.
        - destruct (nth_error (queues f) j) as [[q|]|]; try discriminate. destruct (step auth dbg (inside f) LStopListener); [|discriminate].
          injection E as <-. exists []. now rewrite app_nil_r.
        - destruct l; try discriminate; (destruct (step auth dbg (inside f) _); [|discriminate]); injection E as <-; exists []; now rewrite app_nil_r. }
      destruct K as (m & ->). exists (m ++ more). now rewrite app_assoc. }
    destruct (G _ _ _ H2) as (more & EM). rewrite P1, P2, EM, map_app in K1.
    destruct more as [|x more]; [now rewrite app_nil_r in EM|]. exfalso. apply (f_equal (@length _)) in K1. rewrite app_length, !map_length in K1. cbn in K1. lia.
  - intros j p q Hj. assert (HR2 : nreachable auth dbg limit n (inside f2)) by exact (proj1 (C127_same auth dbg limit backlog n) _ _ R2).
    apply (C127_flood auth dbg limit backlog L f2 j p q); [|lia|exact Hj].
    exact (alive_running auth dbg n _ (nreachable_reachable _ _ _ _ _ HR2) K3).
Qed.

(** Room for three, one listener. Client "x" stays; "a" and "b" come, send CONNECT and are gone. "y" comes, and the listener
    complains for as long as one likes. *)
Definition ex_visits (id : String.string) (e : peer_end) (a : N) : knocker := (ex_peer [ex_client id None None] e, ex_socket [], a).
Arguments ex_visits id%string e a%N.

Definition ex_front_library : library :=
  {| of_address := fun _ => []; of_sender := fun _ => []; of_string := fun s => s; of_refusal := fun _ _ => [];
     of_error := str "Os { code: 24, kind: Uncategorized, message: ""Too many open files"" }" |}.

Definition ex_door : list flabel :=
  [FKnock 0 (ex_visits "x" PeerOpen 1); FKnock 0 (ex_visits "a" PeerEof 2); FAccept 0; FKnock 0 (ex_visits "b" PeerEof 3); FAccept 0; FAccept 0]
  ++ [FKnock 0 (ex_visits "y" PeerOpen 4)] ++ repeat (FAccept 0) 5.

Example C127_case : exists f, fsteps ex_deny true 3 1024 (front_init 1) ex_door = Some f
  /\ length (conns (inside f)) = 3 /\ at_door 0 (entered f) = [ex_visits "x" PeerOpen 1; ex_visits "a" PeerEof 2; ex_visits "b" PeerEof 3]
  /\ queues f = [Some [ex_visits "y" PeerOpen 4]]
  /\ map said (front_log ex_front_library ex_deny true 3 1024 (front_init 1) ex_door)
     = repeat (str "Error while accepting connection: Os { code: 24, kind: Uncategorized, message: ""Too many open files"" }") 5.
Proof. eexists. split; [vm_compute; reflexivity|]. repeat split; vm_compute; reflexivity. Qed.

(** The hypotheses of C127_shut_out: "x" has been served, the queue is empty, and "a" and "b" are as in C100_case. *)
Definition ex_served : list flabel := FKnock 0 (ex_visits "x" PeerOpen 1) :: FAccept 0 :: map FInside
  [LReader 0 []; LReader 0 []; LHandler 5; LHandler 5; LHandler 5; LHandler 5; LHandler 5; LHandler 5; LWriter 0; LWriter 0].

Definition fdrive (f : front) (ls : list flabel) : front :=
  fold_left (fun f l => match fstep ex_deny true 3 1024 f l with Some f' => f' | None => f end) ls f.

Lemma fdrive_run ls : forall f, exists ls', fsteps ex_deny true 3 1024 f ls' = Some (fdrive f ls).
Proof.
  induction ls as [|l ls IH]; intros f; [now exists []|]. cbn [fdrive fold_left].
  destruct (fstep ex_deny true 3 1024 f l) as [f'|] eqn:E; [|apply IH]. destruct (IH f') as (ls' & H). exists (l :: ls'). cbn [fsteps]. now rewrite E.
Qed.

Example C127_shut_out_case : let f := fdrive (front_init 1) ex_served in
  (exists ls, fsteps ex_deny true 3 1024 (front_init 1) ls = Some f)
  /\ quiet ex_deny true 1 (inside f) /\ nth_error (queues f) 0 = Some (Some []) /\ open_sockets (inside f) + 2 = 3.
Proof.
  assert (E : inside (fdrive (front_init 1) ex_served) = drive ex_deny true (sys_init 1) ex_stays) by (vm_compute; reflexivity).
  cbv zeta. split; [apply fdrive_run|]. rewrite E. split; [apply quiet_run; vm_compute; reflexivity|]. split; vm_compute; reflexivity.
Qed.
