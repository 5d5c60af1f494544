(** Property C119: with the channel's places given out in order, no read task is starved of a place as long as every task
    that can go on does. *)
From Verif Require Import Base Base_facts Packets HashMap Subscriptions Messaging Handler Decoder ReadStream ReadStream_facts
  Plain_facts Conn Conn_facts Encoder Encoder_facts WriteStream WriteStream_facts Spec_wire Spec_subs Spec_broker Spec_ref
  Subscriptions_facts Handler_facts System System_facts
  System_hist System_conn System_queue System_first System_progress System_exit System_rest
  Prop_subs Prop_stream Prop_broker Prop_system Prop_rest Prop_mqtt Prop_ref Prop_stop Prop_any Service_facts System_fair Prop_fair
  Live Live_facts Prop_live Live_fair Prop_live_fair Fifo Fifo_facts.
Open Scope nat_scope.
Local Notation S := Datatypes.S.

(** ** The same states *)

Definition plain (s : sys) : fsys := {| base := s; waiting := []; granted := [] |}.

Lemma live_plain auth dbg s a s' : live_step auth dbg s a = Some s' -> fifo_step auth dbg (plain s) a = Some (plain s').
Proof.
  intros HS.
  assert (G : option_map (fun s1 => if handler_alive (hdl s1) then if takes s a then hand_over (plain s) s1 else keep (plain s) s1 else closed s1)
    (live_step auth dbg s a) = Some (plain s')).
  { rewrite HS. cbn [option_map]. destruct (handler_alive (hdl s')); [|reflexivity]. now destruct (takes s a). }
  destruct a as [[|k u| | | | | | |]| | |]; try exact G.
  unfold fifo_step. cbn [base granted waiting plain mem existsb]. rewrite HS. destruct (pushing s k && handler_alive (hdl s)) eqn:EP; [|reflexivity].
  apply andb_true_iff in EP. destruct (reader_push _ _ _ _ _ _ HS (proj1 EP) (proj2 EP)) as (_ & L & _).
  unfold has_place. cbn [base granted plain length]. rewrite Nat.add_0_r. apply Nat.ltb_lt in L. now rewrite L.
Qed.

(** The order of the places changes nothing about what states there are, and so about none of the other properties that speak
    of reachable states. *)
Theorem C119_same_states auth dbg n s :
  live_reachable auth dbg n s <-> exists f, fifo_reachable auth dbg n f /\ base f = s.
Proof.
  split; [|intros (f & H & <-); exact (fifo_reachable_base auth dbg n f H)].
  intros (l & H). exists (plain s). split; [|reflexivity]. exists l. change (fifo_init n) with (plain (sys_init n)).
  revert H. generalize (sys_init n). induction l as [|a l IH]; intros s1; cbn [live_steps fifo_steps].
  - now intros [= ->].
  - destruct (live_step auth dbg s1 a) as [s2|] eqn:E; [|discriminate]. rewrite (live_plain _ _ _ _ _ E). apply IH.
Qed.

(** There are never more than 32 events in the channel and places given out, and nobody waits while there is one. *)
Theorem C119_places auth dbg n f : fifo_reachable auth dbg n f ->
  length (events (base f)) + length (granted f) <= 32
  /\ (waiting f <> [] -> length (events (base f)) + length (granted f) = 32)
  /\ NoDup (granted f ++ waiting f)
  /\ forall k, In k (granted f ++ waiting f) -> exists c e cid st, nth_error (conns (base f)) k = Some c /\ c_reader c = RPush e cid st.
Proof.
  intros HR. pose proof (fifo_reachable_ok auth dbg n f HR) as H. unfold fifo_ok in H. destruct (handler_alive (hdl (base f))) eqn:HA.
  - destruct H as (H1 & H2 & H3 & H4). repeat split; auto. intros k Hk. now apply pushing_some, H2.
  - destruct H as (H1 & H2). rewrite H1, H2. repeat split; [|congruence|constructor|intros ? []].
    pose proof (proj1 (live_bounded auth dbg n (base f) (fifo_reachable_base auth dbg n f HR))) as B. cbn. unfold channel_size in B. lia.
Qed.

Section Fifo.
Context {auth : bytes -> bytes -> bool} {dbg : bool} {n : nat} {run : nat -> fsys} {lab : nat -> option act}.
Hypothesis FF : fifo_fair_run auth dbg n run lab.

(** What the run is without the queue. *)
Definition seen (i : nat) : option act :=
  match lab i with Some a => if joins (run i) a then None else Some a | None => None end.

Lemma ff_reachable i : fifo_reachable auth dbg n (run i).
Proof.
  induction i as [|i IH]; [apply (ff_start _ _ _ _ _ FF)|]. pose proof (ff_step _ _ _ _ _ FF i) as H.
  destruct (lab i) as [a|]; [|now rewrite H]. eapply fifo_reachable_next; eauto.
Qed.

Lemma ff_ok i : fifo_ok (run i).
Proof. eapply fifo_reachable_ok, ff_reachable. Qed.

Lemma ff_base i : live_reachable auth dbg n (base (run i)).
Proof. apply fifo_reachable_base, ff_reachable. Qed.

Lemma seen_step i : match seen i with
                    | Some a => live_step auth dbg (base (run i)) a = Some (base (run (S i)))
                    | None => base (run (S i)) = base (run i)
                    end.
Proof.
  pose proof (ff_step _ _ _ _ _ FF i) as H. unfold seen. destruct (lab i) as [a|]; [|now rewrite H].
  pose proof (fifo_live _ _ _ _ _ H) as HL. now destruct (joins (run i) a).
Qed.

Definition alive (i : nat) : Prop := handler_alive (hdl (base (run i))) = true.
Definition dead (i : nat) : Prop := handler_alive (hdl (base (run i))) = false.

Lemma alive_or_dead i : alive i \/ dead i.
Proof. unfold alive, dead. destruct (handler_alive _); auto. Qed.

Lemma alive_runs i : alive i -> running (base (run i)) = true.
Proof. apply (live_alive_running auth dbg n), ff_base. Qed.

Definition goes (t : task) (i : nat) : Prop := runs t (own_label (lab i)) = true.

Lemma goes_reader k i : goes (TReader k) i -> exists u, lab i = Some (Own (LReader k u)).
Proof.
  unfold goes. destruct (lab i) as [[l| | |]|]; try discriminate. cbn [own_label]. intros H. destruct (reader_runs k l H) as (u & ->). eauto.
Qed.

Lemma goes_not k i u : ~ goes (TReader k) i -> lab i <> Some (Own (LReader k u)).
Proof. intros H E. apply H. unfold goes. rewrite E. cbn. apply Nat.eqb_refl. Qed.

Lemma goes_dec t i : goes t i \/ ~ goes t i.
Proof. unfold goes. destruct (runs t _); auto. Qed.

(** [P] lasts until [t] goes on, or [Q]. *)
Lemma fifo_until (P Q : nat -> Prop) t i : P i ->
  (forall j, i <= j -> P j -> ~ goes t j -> P (S j) \/ Q (S j)) ->
  (forall j, i <= j -> P j -> fifo_can auth dbg t (run j)) ->
  exists j, i <= j /\ (P j /\ goes t j \/ Q j).
Proof.
  intros HP HN HC. destruct (ff_tasks _ _ _ _ _ FF t i) as (j0 & Hj & H0).
  remember (j0 - i) as d eqn:Ed. revert i HP HN HC Hj Ed. induction d as [|d IH]; intros i HP HN HC Hj Ed.
  - assert (j0 = i) as -> by lia. destruct H0 as [H0|H0]; [exists i; auto|]. destruct H0. now apply HC.
  - destruct (goes_dec t i) as [G|G]; [exists i; auto|]. destruct (HN i) as [H|H]; auto; [|exists (S i); auto].
    destruct (IH (S i)) as (j & Hj' & K); auto; try lia.
    + intros j Hj' HPj. apply HN; [lia|exact HPj].
    + intros j Hj' HPj. apply HC; [lia|exact HPj].
    + exists j. split; [lia|exact K].
Qed.

(** One moment of the queue. *)
Lemma queue_step i : alive (S i) -> alive i /\ ((run (S i) = run i /\ lab i = None) \/ exists a, lab i = Some a /\ moved (run i) a (run (S i))).
Proof.
  intros HA. pose proof (ff_step _ _ _ _ _ FF i) as H. destruct (lab i) as [a|]; [|unfold alive in *; rewrite H in HA; auto].
  destruct (fifo_moved _ _ _ _ _ H (ff_ok i) HA) as (H1 & _ & H2). split; [exact H1|]. right. eauto.
Qed.

Lemma push_stays k i : pushing (base (run i)) k = true -> ~ goes (TReader k) i -> pushing (base (run (S i))) k = true.
Proof.
  intros HP HG. pose proof (seen_step i) as H. unfold seen in H. destruct (lab i) as [a|] eqn:EL; [|now rewrite H].
  destruct (joins (run i) a); [now rewrite H|]. eapply pushing_kept; [exact H| |exact HP]. intros u ->. now apply (goes_not k i u).
Qed.

Lemma stopped i j : i <= j -> running (base (run i)) = false -> running (base (run j)) = false.
Proof.
  intros Hj H0. induction Hj as [|j Hj IH]; [exact H0|]. pose proof (seen_step j) as H. destruct (seen j) as [a|]; [|now rewrite H].
  destruct a as [l|k bs sz|k e|k ra].
  - cbn [live_step] in H. unfold step in H. rewrite IH in H. discriminate.
  - destruct (peer_frame _ _ _ _ _ H) as (_ & _ & _ & _ & _ & E & _); [discriminate|]. now rewrite E.
  - destruct (peer_frame _ _ _ _ _ H) as (_ & _ & _ & _ & _ & E & _); [discriminate|]. now rewrite E.
  - destruct (peer_frame _ _ _ _ _ H) as (_ & _ & _ & _ & _ & E & _); [discriminate|]. now rewrite E.
Qed.

Lemma dead_stays i : dead i -> dead (S i).
Proof.
  intros H. destruct (alive_or_dead (S i)) as [HA|HA]; [|exact HA]. destruct (queue_step i HA) as (HA' & _). unfold alive, dead in *. congruence.
Qed.

Section Place.
Context (k : conn) (Q : nat -> Prop) (i0 : nat).
Hypothesis HQ : forall j, i0 <= j -> exists j', j <= j' /\ (can auth dbg (TReader k) (base (run j')) \/ Q j').

(** The read task has put its event into the channel, or [Q]. *)
Definition got (j : nat) : Prop := runs (TReader k) (own_label (seen j)) = true \/ Q j.

Lemma goes_got j : goes (TReader k) j -> (forall u, joins (run j) (Own (LReader k u)) = false) -> got j.
Proof. intros HG HJ. destruct (goes_reader k j HG) as (u & E). left. unfold seen. rewrite E, HJ. cbn. apply Nat.eqb_refl. Qed.

Lemma no_join_alive j u : dead j -> joins (run j) (Own (LReader k u)) = false.
Proof. intros H. destruct (joins _ _) eqn:E; [|reflexivity]. apply joins_reader in E. unfold dead in H. destruct E as (_ & E & _). congruence. Qed.

Lemma running_dec j : running (base (run j)) = true \/ running (base (run j)) = false.
Proof. destruct (running _); auto. Qed.

Lemma place_stopped i : i0 <= i -> running (base (run i)) = false -> exists j, i <= j /\ got j.
Proof.
  intros Hi HR. destruct (HQ i Hi) as (j & Hj & [(l & _ & HC)|K]); [|exists j; split; [exact Hj|now right]].
  exfalso. apply HC. unfold step. now rewrite (stopped i j Hj HR).
Qed.

(** The receiver is gone: [send] returns at once. *)
Lemma place_dead i : i0 <= i -> dead i -> pushing (base (run i)) k = true -> exists j, i <= j /\ got j.
Proof.
  intros Hi HD HP. destruct (running_dec i) as [HR|HR]; [|now apply place_stopped].
  destruct (fifo_until (fun j => dead j /\ pushing (base (run j)) k = true /\ running (base (run j)) = true) (fun j => running (base (run j)) = false) (TReader k) i)
    as (j & Hj & [((H1 & H2 & H3) & H4)|H]).
  - auto.
  - intros j Hj (H1 & H2 & H3) HG. destruct (running_dec (S j)) as [HR'|HR']; [left|now right].
    split; [now apply dead_stays|]. split; [now apply push_stays|exact HR'].
  - intros j Hj (H1 & H2 & H3). exists (LReader k []). split; [cbn; apply Nat.eqb_refl|]. cbn [fifo_step].
    unfold dead in H1. rewrite H1, andb_false_r. cbn [live_step]. unfold step, step_reader. rewrite H3.
    apply pushing_some in H2. destruct H2 as (c & e & cid & st & -> & ->). rewrite H1. discriminate.
  - exists j. split; [exact Hj|]. apply goes_got; [exact H4|]. intros u. now apply no_join_alive.
  - destruct (place_stopped j) as (j' & Hj' & K); [lia|exact H|]. exists j'. split; [lia|exact K].
Qed.

Lemma granted_can k' j : alive j -> In k' (granted (run j)) -> fifo_can auth dbg (TReader k') (run j).
Proof.
  intros HA HG. pose proof (ff_ok j) as HI. pose proof HA as HA'. unfold fifo_ok in HI. unfold alive in HA'. rewrite HA' in HI. destruct HI as (N1 & N2 & N3 & _).
  assert (HP : pushing (base (run j)) k' = true) by (apply N2, in_or_app; now left).
  exists (LReader k' []). split; [cbn; apply Nat.eqb_refl|]. cbn [fifo_step]. rewrite HP, HA'. cbn [andb].
  pose proof HG as HM. apply mem_In in HM. rewrite HM. cbn [live_step]. unfold step, step_reader. rewrite (alive_runs j HA).
  apply pushing_some in HP. destruct HP as (c & e & cid & st & -> & ->). rewrite HA'.
  assert (L : length (events (base (run j))) < channel_size) by (destruct (granted (run j)); [destruct HG|cbn in N3; lia]).
  apply Nat.ltb_lt in L. rewrite L. discriminate.
Qed.

Lemma granted_pushing k' j : alive j -> In k' (granted (run j) ++ waiting (run j)) -> pushing (base (run j)) k' = true.
Proof. intros HA HG. pose proof (ff_ok j) as HI. unfold fifo_ok in HI. unfold alive in HA. rewrite HA in HI. apply HI, HG. Qed.

(** It has a place. *)
Lemma place_granted i : i0 <= i -> alive i -> In k (granted (run i)) -> exists j, i <= j /\ got j.
Proof.
  intros Hi HA HG.
  destruct (fifo_until (fun j => alive j /\ In k (granted (run j))) (fun j => dead j /\ pushing (base (run j)) k = true) (TReader k) i)
    as (j & Hj & [((H1 & H2) & H3)|(H1 & H2)]).
  - auto.
  - intros j Hj (H1 & H2) HN. destruct (alive_or_dead (S j)) as [HA'|HD].
    + left. split; [exact HA'|]. destruct (queue_step j HA') as (_ & [(E & _)|(a & EL & M)]); [now rewrite E|].
      destruct M as [k' u Ea M1 M2 M3 M4 M6|k' u Ea M1 M2 M3 M4|M1 M2 M3 M4 M5|M1 M2 M3 M4 M5 M6].
      * rewrite M2. apply drop_In. split; [exact H2|]. intros ->. subst a. now apply (goes_not k' j u).
      * now rewrite M3.
      * rewrite M3. apply in_or_app. now left.
      * now rewrite M2.
    + right. split; [exact HD|]. apply push_stays; [|exact HN]. apply granted_pushing; [exact H1|apply in_or_app; now left].
  - intros j Hj (H1 & H2). now apply granted_can.
  - exists j. split; [exact Hj|]. apply goes_got; [exact H3|]. intros u. destruct (joins _ _) eqn:E; [|reflexivity]. apply joins_reader in E. tauto.
  - destruct (place_dead j) as (j' & Hj' & K); [lia|exact H1|exact H2|]. exists j'. split; [lia|exact K].
Qed.

(** How far it is from a place: those before it in the queue, and those who have one and have not used it. *)
Definition rank (j m : nat) : Prop :=
  exists l1 l2, waiting (run j) = l1 ++ k :: l2 /\ m = (channel_size + 1) * length l1 + length (granted (run j)).

Definition nearer (j m : nat) : Prop := alive j /\ (In k (granted (run j)) \/ exists m', m' < m /\ rank j m').

Lemma rank_in j m : rank j m -> In k (waiting (run j)).
Proof. intros (l1 & l2 & -> & _). apply in_or_app. right. now left. Qed.

Lemma granted_bound j : alive j -> length (granted (run j)) <= channel_size.
Proof. intros HA. pose proof (ff_ok j) as HI. unfold fifo_ok in HI. unfold alive in HA. rewrite HA in HI. lia. Qed.

Lemma rank_step j m : alive (S j) -> rank j m -> nearer (S j) m \/ rank (S j) m /\ granted (run (S j)) = granted (run j)
  /\ forall k', In k' (granted (run j)) -> ~ goes (TReader k') j.
Proof.
  intros HA (l1 & l2 & HW & Hm). destruct (queue_step j HA) as (HA' & [(E & EL)|(a & EL & M)]).
  { right. unfold rank. rewrite E. split; [eauto|]. split; [reflexivity|]. intros k' _ HG. destruct (goes_reader k' j HG) as (u & E'). congruence. }
  destruct M as [k' u Ea M1 M2 M3 M4 M6|k' u Ea M1 M2 M3 M4|M1 M2 M3 M4 M5|M1 M2 M3 M4 M5 M6].
  - left. split; [exact HA|]. right. exists (m - 1).
    assert (ND : NoDup (granted (run j))) by (pose proof (ff_ok j) as HI; unfold fifo_ok in HI; unfold alive in HA'; rewrite HA' in HI; eapply NoDup_left; apply HI).
    pose proof (drop_length k' _ ND M1) as DL. split; [lia|]. exists l1, l2. rewrite M3, M2. split; [exact HW|lia].
  - right. split; [exists l1, (l2 ++ [k']); rewrite M4, M3, HW, <- app_assoc; now split|]. split; [exact M3|].
    intros k2 HI HG. destruct (goes_reader k2 j HG) as (u' & E'). rewrite EL in E'. subst a. injection E' as <- _. apply joins_reader in M1. tauto.
  - left. split; [exact HA|]. destruct l1 as [|x l1]; rewrite HW in M3, M4; cbn [app firstn skipn] in M3, M4.
    + left. rewrite M3. apply in_or_app. right. now left.
    + right. exists (m - channel_size). pose proof (granted_bound j HA') as B. cbn [length] in Hm. unfold channel_size in *. split; [lia|]. exists l1, l2. split; [exact M4|].
      rewrite M3, app_length. cbn [length]. unfold channel_size. lia.
  - right. split; [exists l1, l2; rewrite M3, M2; now split|]. split; [exact M2|]. intros k2 HI HG. destruct (goes_reader k2 j HG) as (u' & E').
    rewrite EL in E'. injection E' as E'. exact (M5 k2 u' E' HI).
Qed.

Lemma rank_stays m i : alive i -> rank i m -> forall j, i <= j ->
  (exists j', i <= j' /\ (nearer j' m \/ dead j' /\ pushing (base (run j')) k = true))
  \/ alive j /\ rank j m /\ granted (run j) = granted (run i).
Proof.
  intros HA HR j Hj. induction Hj as [|j Hj [K|(K1 & K2 & K3)]]; [right; auto|now left|].
  destruct (alive_or_dead (S j)) as [HA'|HD].
  - destruct (rank_step j m HA' K2) as [K|(H1 & H2 & _)]; [left; exists (S j); split; [lia|auto]|right]. split; [exact HA'|]. split; [exact H1|congruence].
  - left. exists (S j). split; [lia|right]. split; [exact HD|]. apply push_stays.
    + apply granted_pushing; [exact K1|]. apply in_or_app. right. eapply rank_in, K2.
    + intros HG. destruct (goes_reader k j HG) as (u & EL). pose proof (ff_step _ _ _ _ _ FF j) as H. rewrite EL in H. cbn [fifo_step] in H.
      rewrite (granted_pushing k j K1) in H by (apply in_or_app; right; eapply rank_in, K2). unfold alive in K1. rewrite K1 in H. cbn [andb] in H.
      pose proof (rank_in j m K2) as KW. apply mem_In in KW. rewrite KW in H.
      destruct (mem k (granted (run j))) eqn:EG; [|discriminate]. apply mem_In in EG. apply mem_In in KW.
      pose proof (ff_ok j) as HI. unfold fifo_ok in HI. rewrite K1 in HI. destruct HI as (N1 & _).
      clear - N1 EG KW. induction (granted (run j)) as [|x g IH]; [destruct EG|]. cbn in N1. inversion N1 as [|? ? H1 H2]; subst.
      destruct EG as [->|EG]; [apply H1, in_or_app; now right|exact (IH EG H2)].
Qed.

(** It is in the queue. *)
Lemma place_waiting m : forall i, i0 <= i -> alive i -> rank i m -> exists j, i <= j /\ got j.
Proof.
  induction m as [m IH] using lt_wf_ind. intros i Hi HA HR.
  assert (NEXT : forall j', i <= j' -> nearer j' m \/ dead j' /\ pushing (base (run j')) k = true -> exists j, i <= j /\ got j).
  { intros j' Hj' [(H1 & [H2|(m' & H2 & H3)])|(H1 & H2)].
    - destruct (place_granted j') as (j & Hj & K); [lia|exact H1|exact H2|]. exists j. split; [lia|exact K].
    - destruct (IH m' H2 j') as (j & Hj & K); [lia|exact H1|exact H3|]. exists j. split; [lia|exact K].
    - destruct (place_dead j') as (j & Hj & K); [lia|exact H1|exact H2|]. exists j. split; [lia|exact K]. }
  destruct (granted (run i)) as [|k' gs] eqn:EG.
  - destruct (HQ i Hi) as (j & Hj & [(l & Hl & HC)|K]); [|exists j; split; [exact Hj|now right]].
    destruct (rank_stays m i HA HR j Hj) as [(j' & Hj' & K)|(K1 & K2 & K3)]; [exact (NEXT j' Hj' K)|]. exfalso. rewrite EG in K3.
    pose proof (ff_ok j) as HI. unfold fifo_ok in HI. pose proof K1 as K1'. unfold alive in K1'. rewrite K1' in HI. destruct HI as (_ & N2 & _ & N4).
    rewrite K3, Nat.add_0_r in N4. pose proof (rank_in j m K2) as KW. assert (NE : waiting (run j) <> []) by (intros E; rewrite E in KW; destruct KW).
    specialize (N4 NE). apply HC. destruct (reader_runs k l Hl) as (u & ->). unfold step, step_reader.
    assert (HP : pushing (base (run j)) k = true) by (apply N2, in_or_app; now right). apply pushing_some in HP. destruct HP as (c & e & cid & st & -> & ->).
    rewrite (alive_runs j K1), K1', N4. reflexivity.
  - destruct (fifo_until (fun j => alive j /\ rank j m /\ granted (run j) = k' :: gs) (fun j => exists j', i <= j' /\ (nearer j' m \/ dead j' /\ pushing (base (run j')) k = true)) (TReader k') i)
      as (j & Hj & [((H1 & H2 & H3) & H4)|(j' & Hj' & K)]).
    + auto.
    + intros j Hj (H1 & H2 & H3) HN. destruct (rank_stays m j H1 H2 (S j)) as [(j' & Hj' & K)|(K1 & K2 & K3)]; [lia|right; exists j'; split; [lia|exact K]|left].
      split; [exact K1|]. split; [exact K2|congruence].
    + intros j Hj (H1 & H2 & H3). apply granted_can; [exact H1|]. rewrite H3. now left.
    + destruct (rank_stays m j H1 H2 (S j)) as [(j' & Hj' & K)|(K1 & _)]; [lia|apply (NEXT j'); [lia|exact K]|].
      destruct (rank_step j m K1 H2) as [K|(_ & _ & K)]; [apply (NEXT (S j)); [lia|now left]|]. exfalso. apply (K k'); [rewrite H3; now left|exact H4].
    + exact (NEXT j' Hj' K).
Qed.

(** A read task at [send] comes to go on. *)
Lemma place_comes : pushing (base (run i0)) k = true -> exists j, i0 <= j /\ got j.
Proof.
  intros HP. destruct (alive_or_dead i0) as [HA|HD]; [|now apply place_dead].
  destruct (mem k (granted (run i0))) eqn:EG; [apply place_granted; auto; now apply mem_In|].
  assert (WAIT : forall i, i0 <= i -> alive i -> In k (waiting (run i)) -> exists j, i <= j /\ got j).
  { intros i Hi HA' HI. destruct (in_split k _ HI) as (l1 & l2 & E). eapply place_waiting; [exact Hi|exact HA'|]. exists l1, l2. split; [exact E|reflexivity]. }
  destruct (mem k (waiting (run i0))) eqn:EW; [apply WAIT; auto; now apply mem_In|].
  destruct (fifo_until (fun j => alive j /\ pushing (base (run j)) k = true /\ ~ In k (granted (run j)) /\ ~ In k (waiting (run j)))
     (fun j => dead j /\ pushing (base (run j)) k = true) (TReader k) i0) as (j & Hj & [((H1 & H2 & H3 & H4) & H5)|(H1 & H2)]).
  - split; [exact HA|]. split; [exact HP|]. split; intros K; apply mem_In in K; congruence.
  - intros j Hj (H1 & H2 & H3 & H4) HN. pose proof (push_stays k j H2 HN) as HP'. destruct (alive_or_dead (S j)) as [HA'|HD]; [left|now right].
    split; [exact HA'|]. split; [exact HP'|]. destruct (queue_step j HA') as (_ & [(E & _)|(a & EL & M)]); [now rewrite E|].
    destruct M as [k' u Ea M1 M2 M3 M4 M6|k' u Ea M1 M2 M3 M4|M1 M2 M3 M4 M5|M1 M2 M3 M4 M5 M6].
    + rewrite M2, M3. split; [|exact H4]. intros K. apply drop_In in K. tauto.
    + rewrite M3, M4. split; [exact H3|]. intros K. apply in_app_or in K. destruct K as [K|[<-|[]]]; [tauto|]. subst a. now apply (goes_not k' j u).
    + rewrite M3, M4. split; intros K.
      * apply in_app_or in K. destruct K as [K|K]; [tauto|]. apply H4. destruct (waiting (run j)); [destruct K|]. cbn in K. destruct K as [->|[]]. now left.
      * apply H4. destruct (waiting (run j)); [destruct K|]. now right.
    + rewrite M2, M3. auto.
  - intros j Hj (H1 & H2 & H3 & H4). exists (LReader k []). split; [cbn; apply Nat.eqb_refl|]. cbn [fifo_step]. pose proof H1 as HA'. unfold alive in HA'. rewrite H2, HA'. cbn [andb].
    destruct (mem k (granted (run j))) eqn:E1; [apply mem_In in E1; tauto|]. destruct (mem k (waiting (run j))) eqn:E2; [apply mem_In in E2; tauto|].
    rewrite (alive_runs j H1). destruct (has_place (run j)) eqn:E3; [|discriminate]. cbn [live_step]. unfold step, step_reader. rewrite (alive_runs j H1).
    apply pushing_some in H2. destruct H2 as (c & e & cid & st & -> & ->). rewrite HA'. unfold has_place in E3. apply Nat.ltb_lt in E3.
    assert (L : length (events (base (run j))) < channel_size) by lia. apply Nat.ltb_lt in L. rewrite L. discriminate.
  - destruct (goes_reader k j H5) as (u & EL). destruct (joins (run j) (Own (LReader k u))) eqn:EJ.
    + pose proof (ff_step _ _ _ _ _ FF j) as H. rewrite EL in H. pose proof (fifo_live _ _ _ _ _ H) as HB. rewrite EJ in HB.
      assert (HA' : alive (S j)) by (unfold alive in *; now rewrite HB).
      destruct (queue_step j HA') as (_ & [(_ & E)|(a & EL' & M)]); [congruence|]. rewrite EL in EL'. injection EL' as <-.
      destruct M as [k' u' Ea M1 M2 M3 M4 M6|k' u' Ea M1 M2 M3 M4|M1 M2 M3 M4 M5|M1 M2 M3 M4 M5 M6]; try congruence.
      injection Ea as <- <-. destruct (WAIT (S j)) as (j' & Hj' & K); [lia|exact HA'|rewrite M4; apply in_or_app; right; now left|]. exists j'. split; [lia|exact K].
    + exists j. split; [exact Hj|]. left. unfold seen. rewrite EL, EJ. cbn. apply Nat.eqb_refl.
  - destruct (place_dead j) as (j' & Hj' & K); [lia|exact H1|exact H2|]. exists j'. split; [lia|exact K].
Qed.
End Place.

Lemma can_dec t s : can auth dbg t s \/ ~ can auth dbg t s.
Proof.
  assert (G : forall l, runs t (Some l) = true -> (forall l', runs t (Some l') = true -> (step auth dbg s l' = None <-> step auth dbg s l = None)) ->
    can auth dbg t s \/ ~ can auth dbg t s).
  { intros l Hl HE. destruct (step auth dbg s l) eqn:E; [left; exists l; split; [exact Hl|congruence]|right].
    intros (l' & Hl' & HN). apply HN, HE; auto. }
  destruct t as [k|k|].
  - apply (G (LReader k [])); [cbn; apply Nat.eqb_refl|]. intros l' Hl'. destruct (reader_runs k l' Hl') as (u & ->).
    unfold step, step_reader. destruct (running s); [|tauto]. destruct (nth_error (conns s) k) as [c|]; [|tauto].
    destruct (c_reader c) as [rs|e cid rs|cid rs|]; try tauto.
    destruct (stream_read_packet dbg rs) as [p ?| | | | |]; try tauto; try (split; discriminate). destruct p; split; discriminate.
  - apply (G (LWriter k)); [cbn; apply Nat.eqb_refl|]. intros l' Hl'. rewrite (writer_runs k l' Hl'). tauto.
  - apply (G (LHandler 0%Z)); [reflexivity|]. intros l' Hl'. destruct (handler_runs l' Hl') as (now & ->).
    unfold step, step_handler. destruct (running s); [|tauto]. destruct (hdl s) as [|tx p| |]; try tauto.
    destruct (events s); [tauto|split; discriminate].
Qed.

(** A task that can go on without the queue can with it, unless it is a read task at [send]. *)
Lemma can_fifo t j : can auth dbg t (base (run j)) -> fifo_can auth dbg t (run j)
  \/ exists k, t = TReader k /\ pushing (base (run j)) k = true.
Proof.
  intros (l & Hl & HC). destruct t as [k|k|].
  - destruct (pushing (base (run j)) k) eqn:EP; [right; eauto|left]. exists l. split; [exact Hl|]. destruct (reader_runs k l Hl) as (u & ->).
    cbn [fifo_step]. rewrite EP. cbn [andb live_step]. destruct (step auth dbg (base (run j)) (LReader k u)); [discriminate|congruence].
  - left. exists l. split; [exact Hl|]. rewrite (writer_runs k l Hl) in *. cbn [fifo_step live_step]. destruct (step auth dbg (base (run j)) (LWriter k)); [discriminate|congruence].
  - left. exists l. split; [exact Hl|]. destruct (handler_runs l Hl) as (now & ->). cbn [fifo_step live_step].
    destruct (step auth dbg (base (run j)) (LHandler now)); [discriminate|congruence].
Qed.

(** Weak fairness is enough. *)
Theorem C119_weak_is_enough : live_fair_run auth dbg n (fun i => base (run i)) seen.
Proof.
  assert (OL : forall a, Live_fair.own a = own_label a) by (intros [[]|]; reflexivity).
  assert (PL : forall k (Q : nat -> Prop) i, pushing (base (run i)) k = true ->
    (forall j, i <= j -> exists j', j <= j' /\ (can auth dbg (TReader k) (base (run j')) \/ Q j')) ->
    exists j, i <= j /\ (runs (TReader k) (Live_fair.own (seen j)) = true \/ Q j)).
  { intros k Q i HP HQ. destruct (place_comes k Q i HQ HP) as (j & Hj & K). exists j. split; [exact Hj|]. rewrite OL. exact K. }
  constructor.
  - apply ff_base.
  - exact seen_step.
  - intros t i.
    assert (PUSH : forall k j, i <= j -> t = TReader k -> pushing (base (run j)) k = true ->
      exists j, i <= j /\ (runs t (Live_fair.own (seen j)) = true \/ ~ can auth dbg t (base (run j)))).
    { intros k j Hj -> HP. destruct (PL k (fun j => ~ can auth dbg (TReader k) (base (run j))) j HP) as (j' & Hj' & K); [|exists j'; split; [lia|exact K]].
      intros j1 _. exists j1. split; [lia|apply can_dec]. }
    destruct (ff_tasks _ _ _ _ _ FF t i) as (j & Hj & [K|K]).
    + destruct (lab j) as [a|] eqn:EL; [|destruct t; discriminate]. destruct (joins (run j) a) eqn:EJ.
      * destruct a as [[|k u| | | | | | |]| | |]; try (cbn in EJ; discriminate EJ). destruct t as [k'| |]; try (cbn in K; discriminate K). cbn in K. apply Nat.eqb_eq in K. subst k'.
        apply (PUSH k j Hj eq_refl). apply joins_reader in EJ. tauto.
      * exists j. split; [exact Hj|left]. unfold seen. rewrite EL, EJ, OL. exact K.
    + destruct (can_dec t (base (run j))) as [C|C]; [|exists j; auto]. destruct (can_fifo t j C) as [F|(k & Et & HP)]; [now destruct K|].
      exact (PUSH k j Hj Et HP).
  - intros k c e cid st Q i Hk ER HQ. apply PL; [|exact HQ]. apply pushing_some. eauto 6.
Qed.

(** So what C112 says holds with the queue and weak fairness. *)
Theorem C119_served : (forall i k c, nth_error (conns (base (run i))) k = Some c -> ~ blocks (c_wsock c)) ->
  forall i k c ps bss rest, nth_error (conns (base (run i))) k = Some c ->
  arriving (c_rsock c) = concat bss ++ rest -> Forall2 sent_as ps bss ->
  exists j, i <= j /\ (handler_alive (hdl (base (run j))) = false
    \/ (4096 < lenN (concat bss))%N /\ spins dbg (base (run j)) k
    \/ exists es cid more c', (exists more, map snd (handled (base (run j))) = es ++ more)
       /\ (forall p qs, ps = Connect p :: qs -> goes_by p cid)
       /\ events_of k es = issued k (c_addr c) cid ps ++ more
       /\ nth_error (conns (base (run j))) k = Some c' /\ (forall p ws, c_writer c' <> WBusy p ws)
       /\ exists rest, broker_sent c' = before_close (ref_sends auth ref_init es k) ++ rest).
Proof. intros NB. exact (C112_served C119_weak_is_enough NB). Qed.
End Fifo.

(** ** In the order in which they came *)

Lemma alive_before auth dbg l : forall f f', fifo_ok f -> fifo_steps auth dbg f l = Some f' -> handler_alive (hdl (base f')) = true ->
  handler_alive (hdl (base f)) = true.
Proof.
  induction l as [|a l IH]; intros f f' HI; cbn [fifo_steps]; [intros [= <-]; auto|].
  destruct (fifo_step auth dbg f a) as [g|] eqn:E; [|discriminate]. intros HS HA.
  destruct (fifo_moved _ _ _ _ _ E HI) as (H & _); [|exact H]. exact (IH g f' (fifo_ok_step _ _ _ _ _ E HI) HS HA).
Qed.

(** When the handler has taken one event more than there are read tasks before it in the queue, a read task has its place. *)
Theorem C119_place_after auth dbg n f k l1 l2 l f' : fifo_reachable auth dbg n f -> waiting f = l1 ++ k :: l2 ->
  fifo_steps auth dbg f l = Some f' -> handler_alive (hdl (base f')) = true ->
  length (handled (base f)) + length l1 < length (handled (base f')) ->
  exists la lb f1, l = la ++ lb /\ fifo_steps auth dbg f la = Some f1 /\ In k (granted f1)
    /\ length (handled (base f1)) = length (handled (base f)) + length l1 + 1.
Proof.
  intros HR. apply fifo_reachable_ok in HR. revert f l1 l2 HR. induction l as [|a l IH]; intros f l1 l2 HI HW; cbn [fifo_steps].
  - intros [= <-]. lia.
  - destruct (fifo_step auth dbg f a) as [g|] eqn:E; [|discriminate]. intros HS HA HL.
    pose proof (fifo_ok_step _ _ _ _ _ E HI) as HIg. pose proof (alive_before _ _ _ _ _ HIg HS HA) as HAg.
    destruct (fifo_moved _ _ _ _ _ E HI HAg) as (_ & _ & M).
    assert (GO : forall l1' l2', waiting g = l1' ++ k :: l2' -> length (handled (base g)) + length l1' = length (handled (base f)) + length l1 ->
      exists la lb f1, a :: l = la ++ lb /\ fifo_steps auth dbg f la = Some f1 /\ In k (granted f1)
        /\ length (handled (base f1)) = length (handled (base f)) + length l1 + 1).
    { intros l1' l2' Hw Hh. destruct (IH g l1' l2' HIg Hw HS HA) as (la & lb & f1 & -> & H2 & H3 & H4); [lia|].
      exists (a :: la), lb, f1. split; [reflexivity|]. cbn [fifo_steps]. rewrite E. split; [exact H2|]. split; [exact H3|lia]. }
    destruct M as [k' u Ea M1 M2 M3 M4 M6|k' u Ea M1 M2 M3 M4|M1 M2 M3 M4 M5|M1 M2 M3 M4 M5 M6].
    + apply (GO l1 l2); [congruence|now rewrite M6].
    + apply (GO l1 (l2 ++ [k'])); [now rewrite M4, HW, <- app_assoc|now rewrite M2].
    + destruct l1 as [|x l1]; rewrite HW in M3, M4; cbn [app firstn skipn length] in *.
      * exists [a], l, g. split; [reflexivity|]. cbn [fifo_steps]. rewrite E. split; [reflexivity|]. rewrite M3. split; [apply in_or_app; right; now left|lia].
      * apply (GO l1 l2); [exact M4|lia].
    + apply (GO l1 l2); [congruence|now rewrite M6].
Qed.

(** Nobody behind it has one before. *)
Theorem C119_in_order auth dbg n f k k' l1 l2 l f' : fifo_reachable auth dbg n f -> waiting f = l1 ++ k :: l2 -> In k' l2 ->
  fifo_steps auth dbg f l = Some f' -> In k' (granted f') ->
  exists la lb f1, l = la ++ lb /\ fifo_steps auth dbg f la = Some f1 /\ In k (granted f1) /\ ~ In k' (granted f1).
Proof.
  intros HR. apply fifo_reachable_ok in HR. revert f l1 l2 HR. induction l as [|a l IH]; intros f l1 l2 HI HW HK; cbn [fifo_steps].
  - intros [= <-] HG. exfalso. unfold fifo_ok in HI. destruct (handler_alive _); [|destruct HI as (E & _); rewrite HW in E; now destruct l1].
    destruct HI as (ND & _). rewrite HW in ND. clear - ND HG HK. induction (granted f) as [|x g IHg]; [destruct HG|]. cbn in ND. inversion ND as [|? ? H1 H2]; subst.
    destruct HG as [->|HG]; [|exact (IHg H2 HG)]. apply H1, in_or_app. right. apply in_or_app. right. now right.
  - destruct (fifo_step auth dbg f a) as [g|] eqn:E; [|discriminate]. intros HS HG.
    pose proof (fifo_ok_step _ _ _ _ _ E HI) as HIg.
    assert (HA : handler_alive (hdl (base f')) = true).
    { assert (HI' : fifo_ok f').
      { clear - HIg HS. revert g HIg HS. induction l as [|b l IHl]; intros g HIg; cbn [fifo_steps]; [now intros [= <-]|].
        destruct (fifo_step auth dbg g b) as [h|] eqn:Eb; [|discriminate]. apply IHl. exact (fifo_ok_step _ _ _ _ _ Eb HIg). }
      unfold fifo_ok in HI'. destruct (handler_alive _); [reflexivity|]. destruct HI' as (_ & E'). rewrite E' in HG. destruct HG. }
    pose proof (alive_before _ _ _ _ _ HIg HS HA) as HAg.
    destruct (fifo_moved _ _ _ _ _ E HI HAg) as (HAf & _ & M).
    assert (GO : forall l1' l2', waiting g = l1' ++ k :: l2' -> In k' l2' ->
      exists la lb f1, a :: l = la ++ lb /\ fifo_steps auth dbg f la = Some f1 /\ In k (granted f1) /\ ~ In k' (granted f1)).
    { intros l1' l2' Hw Hh. destruct (IH g l1' l2' HIg Hw Hh HS HG) as (la & lb & f1 & -> & H2 & H3 & H4).
      exists (a :: la), lb, f1. split; [reflexivity|]. cbn [fifo_steps]. rewrite E. auto. }
    destruct M as [k1 u Ea M1 M2 M3 M4 M6|k1 u Ea M1 M2 M3 M4|M1 M2 M3 M4 M5|M1 M2 M3 M4 M5 M6].
    + apply (GO l1 l2); [congruence|exact HK].
    + apply (GO l1 (l2 ++ [k1])); [now rewrite M4, HW, <- app_assoc|apply in_or_app; now left].
    + destruct l1 as [|x l1]; rewrite HW in M3, M4; cbn [app firstn skipn length] in *.
      * exists [a], l, g. split; [reflexivity|]. cbn [fifo_steps]. rewrite E. split; [reflexivity|]. split; [rewrite M3; apply in_or_app; right; now left|].
        intros K. unfold fifo_ok in HIg. rewrite HAg in HIg. destruct HIg as (ND & _). rewrite M4 in ND.
        clear - ND K HK. induction (granted g) as [|x h IHg]; [destruct K|]. cbn in ND. inversion ND as [|? ? H1 H2]; subst.
        destruct K as [->|K]; [|exact (IHg H2 K)]. apply H1, in_or_app. now right.
      * apply (GO l1 l2); [exact M4|exact HK].
    + apply (GO l1 l2); [congruence|exact HK].
Qed.

(** ** There are such runs *)

(** Whatever the world does and keeps doing: as C112_fair_runs. *)
Theorem C119_fair_runs auth dbg n s0 (ws : nat -> act) : live_reachable auth dbg n s0 -> main s0 = MServing -> ctrl_c s0 = false ->
  listeners s0 <> 0 -> (forall k c, nth_error (conns s0) k = Some c -> ~ blocks (c_wsock c)) -> (forall m, world_act (ws m)) ->
  exists run lab num, fifo_fair_run auth dbg n run lab /\ base (run 0) = s0 /\ num 0 = 0
    /\ (forall i k c, nth_error (conns (base (run i))) k = Some c -> ~ blocks (c_wsock c))
    /\ (forall i, (exists l, lab i = Some (Own l) /\ internal l) /\ num (S i) = num i
        \/ lab i = match live_step auth dbg (base (run i)) (ws (num i)) with Some _ => Some (ws (num i)) | None => None end
           /\ num (S i) = S (num i))
    /\ forall m, exists i, num i = m.
Proof.
  intros R0 M0 C0 L0 B0 B1. assert (S0 : serving s0) by (repeat split; assumption).
  set (run := fun i => fst (live_sched auth dbg ws s0 i)).
  exists (fun i => plain (run i)), (fun i => live_label auth dbg ws (live_sched auth dbg ws s0 i)), (fun i => snd (live_sched auth dbg ws s0 i)).
  assert (ST : forall i, match live_label auth dbg ws (live_sched auth dbg ws s0 i) with
                         | Some a => live_step auth dbg (run i) a = Some (run (S i))
                         | None => run (S i) = run i end).
  { exact (lf_step _ _ _ _ _ (live_sched_fair auth dbg n ws s0 R0 S0 B1)). }
  split; [constructor|].
  - destruct R0 as (l & H). exists l. change (fifo_init n) with (plain (sys_init n)). change (run 0) with s0.
    revert H. generalize (sys_init n). induction l as [|a l IH]; intros s1; cbn [live_steps fifo_steps]; [now intros [= ->]|].
    destruct (live_step auth dbg s1 a) as [s2|] eqn:E; [|discriminate]. rewrite (live_plain _ _ _ _ _ E). apply IH.
  - intros i. pose proof (ST i) as H. destruct (live_label _ _ _ _) as [a|]; [now apply live_plain|now rewrite H].
  - intros t i. destruct (live_sched_rests auth dbg n ws s0 R0 S0 B1 i) as (j & Hj & HR & _). exists j. split; [exact Hj|right].
    destruct (live_sched_steps auth dbg n ws s0 R0 S0 B1 j) as ((_ & _ & _ & NBj) & RJ & _).
    fold (run j) in HR, NBj, RJ |- *. intros (l & Hl & HN). apply HN.
    assert (HI : internal l) by (destruct t, l; try discriminate Hl; exact I).
    pose proof (HR l HI) as HS. destruct l as [r w ad|k u|k|now| | | | |]; try (cbn [fifo_step live_step base plain]; now rewrite HS).
    cbn [fifo_step base plain live_step granted waiting mem existsb]. rewrite HS.
    destruct (pushing (run j) k && handler_alive (hdl (run j))) eqn:EP; [|reflexivity]. exfalso. apply andb_true_iff in EP. destruct EP as (EP & EA).
    destruct (live_rest_handler auth dbg n (run j) RJ HR NBj EA) as (_ & HE).
    unfold step, step_reader in HS. rewrite (live_alive_running auth dbg n (run j) RJ EA) in HS. apply pushing_some in EP.
    destruct EP as (c & e & cid & st & E1 & E2). rewrite E1, E2, EA, HE in HS. discriminate.
  - split; [reflexivity|]. split; [reflexivity|]. split; [|split].
    + intros i. destruct (live_sched_steps auth dbg n ws s0 R0 S0 B1 i) as ((_ & _ & _ & H) & _). exact H.
    + intros i. destruct (live_sched_steps auth dbg n ws s0 R0 S0 B1 i) as (_ & _ & [(l & EL & _ & HW & HN)|(_ & HN & [(EL & HS)|(EL & HS & _)])]).
      * left. split; [|exact HN]. exists l. split; [exact EL|]. destruct l; try destruct HW; exact I.
      * right. split; [|exact HN]. cbn beta. unfold run. cbn [base plain]. rewrite HS. exact EL.
      * right. split; [|exact HN]. cbn beta. unfold run. cbn [base plain]. rewrite HS. exact EL.
    + intros m. destruct (live_sched_turn auth dbg n ws s0 R0 S0 B1 m) as (i & H & _). exists i. exact H.
Qed.

(** Client 0 sends CONNECT and forty PINGREQs, and the handler does not get round to taking any: its read task fills the
    channel and queues up. The one of client 1 queues up behind it. The place that becomes free when the handler takes an event
    is the first one's: the second, which would fit into the channel, must wait. *)
Definition ex_crowd : list act :=
  Own (LAccept (ex_peer (ex_client "p" None None :: repeat PingReq 40) PeerOpen) (ex_socket []) 1%N)
  :: Own (LAccept (ex_peer [ex_client "q" None None] PeerOpen) (ex_socket []) 2%N)
  :: repeat (Own (LReader 0 [])) 66 ++ [Own (LReader 1 []); Own (LReader 1 [])].

Example C119_case :
  exists f f', fifo_steps ex_deny true (fifo_init 1) ex_crowd = Some f
  /\ waiting f = [0; 1] /\ granted f = [] /\ length (events (base f)) = 32
  /\ fifo_steps ex_deny true f [Own (LHandler 0%Z)] = Some f'
  /\ waiting f' = [1] /\ granted f' = [0] /\ length (events (base f')) = 31
  /\ fifo_step ex_deny true f' (Own (LReader 1 [])) = None
  /\ live_step ex_deny true (base f') (Own (LReader 1 [])) <> None.
Proof.
  destruct (fifo_steps ex_deny true (fifo_init 1) ex_crowd) as [f|] eqn:E; [|vm_compute in E; discriminate].
  destruct (fifo_steps ex_deny true f [Own (LHandler 0%Z)]) as [f'|] eqn:E'.
  - exists f, f'. vm_compute in E. injection E as <-. vm_compute in E'. injection E' as <-.
    split; [reflexivity|]. repeat (split; [vm_compute; reflexivity|]). vm_compute. discriminate.
  - exfalso. vm_compute in E. injection E as <-. vm_compute in E'. discriminate.
Qed.
