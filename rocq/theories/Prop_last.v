(** C122, C123: what is left when main ends *)
From Verif Require Import Base Packets Messaging Handler Decoder ReadStream Conn WriteStream System System_facts System_exit Prop_system Prop_exit Pool Prop_pool Teardown Prop_end.
From Verif Require Import Prop_drop.
Open Scope nat_scope.

Definition nobody_home (n : nat) (s : sys) : Prop :=
  (ctrl_c s = false -> listeners s = n /\ hdl s <> HStopped)
  /\ (n = 0 -> conns s = [] /\ events s = [] /\ (hdl s = HIdle \/ hdl s = HStopped))
  /\ listeners s <= n.

Lemma nobody_home_inv auth dbg n s : reachable auth dbg n s -> nobody_home n s.
Proof.
  revert s. apply (reachable_ind auth dbg n (nobody_home n)).
  { repeat split; cbn; auto; discriminate. }
  intros s l s' _ (J1 & J2 & J3) E. apply step_trans in E.
  assert (NC : forall k c, nth_error (conns s) k = Some c -> n <> 0).
  { intros k c H Z. destruct (J2 Z) as (EC & _). rewrite EC in H. destruct k; discriminate. }
  assert (NB : forall tx p, hdl s = HBusy tx p -> n <> 0).
  { intros tx p H Z. destruct (J2 Z) as (_ & _ & [X|X]); congruence. }
  assert (NE : forall e es, events s = e :: es -> n <> 0).
  { intros e es H Z. destruct (J2 Z) as (_ & X & _). congruence. }
  assert (NL : listeners s <> 0 -> n <> 0) by lia.
  destruct E; unfold nobody_home; cbn.
  all: try match goal with H : nth_error (conns ?x) _ = Some _ |- _ => pose proof (NC _ _ H) as NZ end.
  all: try match goal with H : hdl ?x = HBusy _ _ |- _ => pose proof (NB _ _ H) as NZ end.
  all: try match goal with H : events ?x = _ :: _ |- _ => pose proof (NE _ _ H) as NZ end.
  all: try match goal with H : listeners ?x <> 0 |- _ => pose proof (NL H) as NZ end.
  all: try (split; [|split]; [intros C; destruct (J1 C); split; congruence|intros Z; congruence|assumption]).
  - split; [|split]; [congruence| |assumption]. intros Z. destruct (J2 Z) as (? & ? & ?). auto.
  - split; [|split]; [congruence| |lia]. exact J2.
  - split; [|split]; assumption.
  - split; [|split]; [discriminate|exact J2|assumption].
  - split; [|split]; assumption.
Qed.

(** Main ends only after ctrl-c, and last: the listeners, the messaging service and the handler have ended before. *)
Theorem C122_main_is_last auth dbg n s : reachable auth dbg n s -> running s = false ->
  ctrl_c s = true /\ listeners s = 0 /\ service_running s = false /\ handler_alive (hdl s) = false.
Proof.
  intros HR Hr.
  assert (K : match main s with
              | MServing => True
              | MJoinListeners => ctrl_c s = true
              | MJoinService => ctrl_c s = true /\ listeners s = 0
              | _ => ctrl_c s = true /\ listeners s = 0 /\ service_running s = false
              end).
  { clear Hr. revert s HR. apply (reachable_ind auth dbg n (fun s => match main s with
              | MServing => True
              | MJoinListeners => ctrl_c s = true
              | MJoinService => ctrl_c s = true /\ listeners s = 0
              | _ => ctrl_c s = true /\ listeners s = 0 /\ service_running s = false
              end)); [exact I|].
    intros s l s' HR HI E. destruct (step_main_only auth dbg s l s' E) as [Em|[-> | ->]].
    - rewrite Em. pose proof (step_trans _ _ _ _ _ E) as T.
      assert (M1 : ctrl_c s = true -> ctrl_c s' = true) by (destruct T; auto).
      assert (M2 : listeners s = 0 -> listeners s' = 0) by (destruct T; cbn; auto; congruence).
      pose proof (service_stays auth dbg s s' T) as M3.
      destruct (main s); intuition.
    - unfold step in E. destruct (running s); [|discriminate]. destruct (main s) eqn:EM; try discriminate.
      destruct (handler_alive (hdl s)) eqn:EH; cbn [orb] in E; [injection E as <-; reflexivity|].
      destruct (Nat.eqb_spec (listeners s) 0) as [EL|_]; cbn [negb] in E; injection E as <-; [|reflexivity].
      exfalso. destruct (nobody_home_inv auth dbg n s HR) as (J1 & J2 & _).
      assert (C : ctrl_c s = false).
      { destruct (ctrl_c s) eqn:EC; [|reflexivity]. exfalso. clear - HR EM EC.
        revert s HR EM EC. apply (reachable_ind auth dbg n (fun s => main s = MServing -> ctrl_c s = true -> False)); [discriminate|].
        intros s l s' _ HI E EM EC. destruct (step_main_only auth dbg s l s' E) as [Em|[-> | ->]].
        - apply HI; [congruence|]. apply step_trans in E. destruct E; auto; discriminate.
        - unfold step in E. destruct (running s); [|discriminate]. destruct (main s); try discriminate.
          destruct (_ || _); injection E as <-; discriminate.
        - unfold step, step_main in E. destruct (running s); [|discriminate]. destruct (main s); try discriminate.
          all: repeat match type of E with (if ?b then _ else _) = _ => destruct b | match ?h with _ => _ end = _ => destruct h end;
            try discriminate; injection E as <-; discriminate. }
      destruct (J1 C) as (EN & NS). destruct (J2 ltac:(congruence)) as (_ & _ & [X|X]); [|contradiction]. rewrite X in EH. discriminate.
    - unfold step, step_main in E. destruct (running s); [|discriminate]. destruct (main s) eqn:EM; try discriminate.
      + destruct (Nat.eqb_spec (listeners s) 0); [|discriminate]. injection E as <-. cbn. auto.
      + destruct (service_running s) eqn:ES; [discriminate|]. injection E as <-. cbn. intuition.
      + destruct (hdl s); try discriminate; injection E as <-; cbn; exact HI. }
  unfold running in Hr. pose proof (main_invariant auth dbg n s HR) as MI.
  destruct (main s); try discriminate; destruct K as (? & ? & ?); auto.
Qed.

(** So the runtime never has to drop anything but the tasks of connections. *)
Theorem C122_left_over auth dbg w n p : end_reachable auth dbg w n p -> running (base p) = false ->
  (listeners (base p) = 0 /\ service_running (base p) = false /\ handler_alive (hdl (base p)) = false)
  /\ forall t p', end_step auth dbg w p (XDrop t) = Some p' -> exists k, t = TaskReader k \/ t = TaskWriter k.
Proof.
  intros HP Hr.
  assert (K : listeners (base p) = 0 /\ service_running (base p) = false /\ handler_alive (hdl (base p)) = false).
  { revert p HP Hr. apply (end_reachable_ind auth dbg w n (fun p => running (base p) = false ->
      listeners (base p) = 0 /\ service_running (base p) = false /\ handler_alive (hdl (base p)) = false)); [discriminate|].
    intros p l p' HP HI E Hr'. pose proof (end_alive _ _ _ _ _ HP) as HA.
    destruct (running (base p)) eqn:Hr.
    - pose proof (end_alive _ _ _ _ _ (end_reachable_step _ _ _ _ _ _ _ HP E)) as HA'.
      pose proof (alive_run _ _ _ _ _ HA Hr) as HQ.
      unfold end_step in E. rewrite Hr in E. destruct l as [l| | |]; try discriminate.
      pose proof (pool_reachable_step _ _ _ _ _ _ _ HQ E) as HQ'. destruct (C84_same_broker _ _ _ _ _ HQ') as (HR & _).
      destruct (C122_main_is_last _ _ _ _ HR Hr') as (_ & A & B & C). auto.
    - specialize (HI eq_refl). destruct HI as (A & B & C).
      destruct (end_step_cases _ _ _ _ _ _ E) as [l HQ|l s _ Hw Hl Hs Hm Eb Es|now _ Hw Ha Hv Eb Es|k c _ Hw Hni Hk Hh Eb Es|t _ Hw Ht Ed Es].
      + exfalso. destruct (pool_step_cases _ _ _ _ _ _ HQ) as [(l' & -> & Hs & _)|(k & c & _ & _ & _ & _ & _ & _ & _ & X)]; [|congruence].
        unfold step in Hs. rewrite Hr in Hs. discriminate.
      + apply step_trans in Hs. rewrite Eb. cbn [set_main listeners service_running hdl].
        assert (M2 : listeners s = 0) by (destruct Hs; cbn in *; auto; congruence).
        assert (M3 : service_running s = false) by (exact (service_stays _ _ _ _ Hs B)).
        destruct (dead_trans _ _ _ _ Hs C) as (-> & _). auto.
      + exfalso. unfold asks_service in Ha. destruct (hdl (base p)); discriminate.
      + rewrite Eb. auto.
      + unfold drop_task in Ed. destruct t as [k|k| | |].
        * destruct (nth_error (conns (base p)) k) as [c|]; [|discriminate]. destruct (c_reader c); try discriminate; injection Ed as <-; auto.
        * destruct (nth_error (conns (base p)) k) as [c|]; [|discriminate]. destruct (c_writer c); try discriminate; injection Ed as <-; auto.
        * rewrite C in Ed. discriminate.
        * rewrite A in Ed. discriminate.
        * rewrite B in Ed. discriminate. }
  split; [exact K|]. destruct K as (A & B & C). intros t p' E. unfold end_step in E. rewrite Hr in E.
  destruct (_ && _); [|discriminate]. destruct (spins p t); [discriminate|].
  destruct t as [k|k| | |]; eauto; exfalso; unfold drop_task in E; rewrite ?A, ?B, ?C in E; discriminate.
Qed.
