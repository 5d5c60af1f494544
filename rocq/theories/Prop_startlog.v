(** Property C131: what the log says about the start and the end of the broker. *)
From Verif Require Import Base Base_facts Packets HashMap Auth Messaging Handler Conn Decoder ReadStream Encoder WriteStream System System_facts Startup Prop_start
  Logging Prop_log StartLog Prop_subs Prop_broker Prop_system.
Open Scope nat_scope.

(** The steps of [main], and those of the service's task. *)
Definition of_main (l : llabel) : bool :=
  match l with LBoot (BBind _) | LBoot BReady | LBoot (BStep LCtrlC) | LBoot (BStep LMain) => true | _ => false end.
Definition of_service (l : llabel) : bool :=
  match l with LServiceStarts | LBoot (BStep LStopService) => true | _ => false end.

Definition binding (a : bytes) : entry := {| lvl := Debug; said := str "Binding MQTT TCP listener to " ++ a |}.
Definition listening (a : bytes) : entry := {| lvl := Info; said := str "Listening for MQTT TCP connections on " ++ a |}.
Definition ready : entry := {| lvl := Info; said := str "Successfully initialized RatelMQ, ready to accept connections" |}.
Definition stopping : entry := {| lvl := Info; said := str "Stopping RatelMQ..." |}.
Definition stopped : entry := {| lvl := Info; said := str "RatelMQ stopped" |}.
Definition service_up : entry := {| lvl := Debug; said := str "Started Messaging Manager" |}.
Definition service_down : entry := {| lvl := Debug; said := str "Stopped Messaging Manager" |}.

Definition bound_lines (addresses : list bytes) : list entry := flat_map (fun a => [binding a; listening a]) addresses.

(** What [main] and the service have logged, read off the state. *)
Definition main_log (addresses : list bytes) (b : bsys) : list entry :=
  match todo b with
  | Some rest => bound_lines (firstn (length addresses - length rest) addresses)
      ++ match main (core b), rest with MPanicked, a :: _ => [binding a] | _, _ => [] end
  | None => bound_lines addresses ++ [ready]
      ++ match main (core b) with MServing => [] | MExited => [stopping; stopped] | _ => [stopping] end
  end.

Definition service_log (x : lsys) : list entry :=
  (if service_started x then [service_up] else []) ++ (if service_running (core (boot x)) then [] else [service_down]).

Lemma log_run_app which auth L dbg l1 : forall x l2, log_run which auth L dbg x (l1 ++ l2)
  = match log_run which auth L dbg x l1 with
    | Some (es, x1) => match log_run which auth L dbg x1 l2 with Some (es', x2) => Some (es ++ es', x2) | None => None end
    | None => None
    end.
Proof.
  induction l1 as [|l l1 IH]; intros x l2; cbn [log_run app].
  - destruct (log_run which auth L dbg x l2) as [[es x2]|]; reflexivity.
  - destruct (log_step auth dbg x l) as [x1|]; [|reflexivity]. rewrite IH. destruct (log_run which auth L dbg x1 l1) as [[es x2]|]; [|reflexivity].
    destruct (log_run which auth L dbg x2 l2) as [[es' x3]|]; [|reflexivity]. now rewrite app_assoc.
Qed.

(** Steps of the other tasks leave [main] alone, and only its own step ends the service. *)
Lemma other_step auth dbg s l s' : step auth dbg s l = Some s' ->
  (match l with LCtrlC | LMain => False | _ => True end -> main s' = main s)
  /\ (l <> LStopService -> service_running s' = service_running s).
Proof.
  intros E. unfold step in E. destruct (running s); [|discriminate]. destruct l as [r w a|k u|k|now| | | | |].
  - destruct (listeners s); [discriminate|]. injection E as <-. auto.
  - unfold step_reader in E. destruct (nth_error (conns s) k) as [c|]; [|discriminate]. destruct (c_reader c) as [rs|e cid rs|cid rs|]; [| | |discriminate].
    + destruct (stream_read_packet dbg rs) as [p rs'| | | | |]; try discriminate; [destruct p| |]; injection E as <-; auto.
    + destruct (handler_alive (hdl s)); [destruct (length (events s) <? channel_size); [|discriminate]|]; injection E as <-; auto.
    + destruct (stream_read_packet dbg rs); try discriminate; injection E as <-; auto.
  - unfold step_writer in E. destruct (nth_error (conns s) k) as [c|]; [|discriminate]. destruct (c_writer c) as [ws|p ws|ws]; [| |discriminate].
    + destruct (c_queue c) as [|[from [p|]] q]; [destruct (has_sender s k c); [discriminate|]|..]; injection E as <-; auto.
    + destruct (write_packet p ws); try discriminate; injection E as <-; auto.
  - unfold step_handler in E. destruct (hdl s) as [|tx p| |]; try discriminate.
    + destruct (events s); [discriminate|]. injection E as <-. auto.
    + destruct p as [| |R op f|to e p].
      * injection E as <-. auto.
      * injection E as <-. auto.
      * destruct (serve (svc s) op). injection E as <-. auto.
      * destruct (nth_error (conns s) to) as [c|]; [|discriminate].
        destruct (c_writer c); try (destruct (_ <? _); [|discriminate]); injection E as <-; auto.
  - destruct (hdl s); try discriminate. destruct (ctrl_c s); [|discriminate]. injection E as <-. auto.
  - destruct (listeners s); try discriminate. destruct (ctrl_c s); [|discriminate]. injection E as <-. auto.
  - destruct (_ && _); [|discriminate]. injection E as <-. split; [auto|]. now intros K.
  - destruct (main s); try discriminate. destruct (_ || _); injection E as <-; split; auto; contradiction.
  - unfold step_main in E. destruct (main s); try discriminate.
    + destruct (Nat.eqb _ _); [|discriminate]. injection E as <-. split; auto; contradiction.
    + destruct (service_running s) eqn:ES; [discriminate|]. injection E as <-. split; auto; contradiction.
    + destruct (hdl s); try discriminate; injection E as <-; split; auto; contradiction.
Qed.

(** While addresses are left, [main] serves or has panicked on one of them; what is left is an end of the list. *)
Definition start_ok (addresses : list bytes) (b : bsys) : Prop :=
  match todo b with
  | Some rest => exists bound, addresses = bound ++ rest /\ (main (core b) = MServing \/ (main (core b) = MPanicked /\ rest <> []))
  | None => True
  end.

Lemma firstn_bound (l r : list bytes) : firstn (length (l ++ r) - length r) (l ++ r) = l.
Proof. rewrite app_length. replace (length l + length r - length r) with (length l) by lia. rewrite firstn_app, firstn_all, Nat.sub_diag. apply app_nil_r. Qed.

Lemma bound_lines_snoc l a : bound_lines (l ++ [a]) = bound_lines l ++ [binding a; listening a].
Proof. unfold bound_lines. rewrite flat_map_app. reflexivity. Qed.

(** One step. *)
Lemma main_step auth L dbg addresses x l x' : start_ok addresses (boot x) -> log_step auth dbg x l = Some x' ->
  start_ok addresses (boot x') /\ main_log addresses (boot x')
  = main_log addresses (boot x) ++ (if of_main l then log_entries auth L dbg x l else []).
Proof.
  intros HO HS. destruct x as [[s t] u]. cbn [boot] in *. destruct l as [[ok| |l]|]; cbn [log_step needs_service andb boot core service_started] in HS.
  - unfold boot_step in HS. cbn [todo core] in HS. unfold start_ok in HO. cbn [todo core] in HO.
    destruct t as [[|a rest]|]; try discriminate. destruct HO as (bound & -> & HO).
    destruct (running s) eqn:HR; [|discriminate]. assert (HM : main s = MServing) by (destruct HO as [->|(K & _)]; [reflexivity|]; unfold running in HR; rewrite K in HR; discriminate).
    destruct ok; injection HS as <-; cbn [boot]; unfold start_ok, main_log; cbn [todo core of_main log_entries boot].
    + split.
      * exists (bound ++ [a]). rewrite <- app_assoc. cbn [main set_listeners app]. auto.
      * cbn [main set_listeners]. rewrite HM, !app_nil_r.
        replace (bound ++ a :: rest) with ((bound ++ [a]) ++ rest) at 1 2 by (rewrite <- app_assoc; reflexivity).
        rewrite !firstn_bound. rewrite bound_lines_snoc. reflexivity.
    + split.
      * exists bound. split; [reflexivity|]. right. cbn [main set_main]. split; [reflexivity|discriminate].
      * cbn [main set_main]. rewrite HM, !app_nil_r. reflexivity.
  - unfold boot_step in HS. cbn [todo core] in HS. destruct t as [[|]|]; try discriminate. injection HS as <-. cbn [boot]. split; [exact I|].
    unfold start_ok in HO. cbn [todo core] in HO. destruct HO as (bound & -> & [HM|(_ & K)]); [|congruence].
    unfold main_log. cbn [todo core of_main log_entries]. rewrite HM, !app_nil_r. cbn [length]. rewrite Nat.sub_0_r, firstn_all. reflexivity.
  - destruct (_ && _) eqn:EN; [discriminate|]. unfold boot_step in HS. cbn [todo core] in HS.
    destruct (step auth dbg s l) as [s'|] eqn:ES; [|destruct t, l; discriminate].
    destruct (other_step auth dbg s l s' ES) as (KM & _).
    assert (OTHER : match l with LCtrlC | LMain => False | _ => True end -> x' = {| boot := {| core := s'; todo := t |}; service_started := u |} ->
      start_ok addresses (boot x') /\ main_log addresses (boot x') = main_log addresses {| core := s; todo := t |} ++ (if of_main (LBoot (BStep l)) then log_entries auth L dbg {| boot := {| core := s; todo := t |}; service_started := u |} (LBoot (BStep l)) else [])).
    { intros HL ->. cbn [boot]. unfold start_ok, main_log in *. cbn [todo core] in *. rewrite (KM HL). split; [exact HO|].
      replace (of_main (LBoot (BStep l))) with false by (destruct l; try reflexivity; contradiction). now rewrite app_nil_r. }
    destruct l as [r w a|k v|k|now| | | | |]; try (apply OTHER; [exact I|]; destruct t; now injection HS as <-).
    + destruct t; [discriminate|]. injection HS as <-. cbn [boot]. split; [exact I|]. unfold main_log. cbn [todo core of_main log_entries step_entries].
      unfold step in ES. destruct (running s); [|discriminate]. destruct (main s) eqn:EM; try discriminate.
      destruct (_ || _); injection ES as <-; cbn [main set_main set_ctrl_c]; rewrite <- app_assoc; reflexivity.
    + destruct t; [discriminate|]. injection HS as <-. cbn [boot]. split; [exact I|]. unfold main_log. cbn [todo core of_main log_entries step_entries boot].
      unfold step in ES. destruct (running s); [|discriminate]. unfold step_main in ES. destruct (main s) eqn:EM; try discriminate.
      * destruct (Nat.eqb _ _); [|discriminate]. injection ES as <-. cbn [main set_main]. now rewrite app_nil_r.
      * destruct (service_running s); [discriminate|]. injection ES as <-. cbn [main set_main]. now rewrite app_nil_r.
      * destruct (hdl s) eqn:EH; try discriminate; injection ES as <-; cbn [main set_main]; [now rewrite app_nil_r|]. rewrite <- !app_assoc. reflexivity.
  - destruct (_ && _); [|discriminate]. injection HS as <-. cbn [boot of_main]. now rewrite app_nil_r.
Qed.

Definition service_ok (x : lsys) : Prop := service_started x = false -> service_running (core (boot x)) = true /\ svc (core (boot x)) = MessagingService_new.

Lemma service_step auth L dbg x l x' : service_ok x -> log_step auth dbg x l = Some x' ->
  service_ok x' /\ service_log x' = service_log x ++ (if of_service l then log_entries auth L dbg x l else []).
Proof.
  intros HO HS. destruct x as [[s t] u]. unfold service_ok, service_log in *. cbn [boot core service_started] in *.
  destruct l as [[ok| |l]|]; cbn [log_step needs_service andb boot core service_started] in HS; cbn [of_service].
  - unfold boot_step in HS. cbn [todo core] in HS. destruct t as [[|a rest]|]; try discriminate. destruct (running s); [|discriminate].
    destruct ok; injection HS as <-; cbn [boot core service_started service_running set_listeners set_main svc]; now rewrite app_nil_r.
  - unfold boot_step in HS. cbn [todo core] in HS. destruct t as [[|]|]; try discriminate. injection HS as <-. cbn [boot core service_started]. now rewrite app_nil_r.
  - destruct (_ && _) eqn:EN; [discriminate|]. unfold boot_step in HS. cbn [todo core] in HS.
    destruct (step auth dbg s l) as [s'|] eqn:ES; [|destruct t, l; discriminate].
    assert (EX : x' = {| boot := {| core := s'; todo := t |}; service_started := u |}) by (destruct t, l; try discriminate; now injection HS as <-).
    subst x'. cbn [boot core service_started]. destruct (other_step auth dbg s l s' ES) as (_ & KS).
    assert (SV : (forall now, l <> LHandler now) -> svc s' = svc s).
    { intros HL. clear -ES HL. unfold step in ES. destruct (running s); [|discriminate]. destruct l as [r w a|k v|k|now| | | | |].
      - destruct (listeners s); [discriminate|]. now injection ES as <-.
      - unfold step_reader in ES. destruct (nth_error (conns s) k) as [c|]; [|discriminate]. destruct (c_reader c) as [rs|e cid rs|cid rs|]; [| | |discriminate].
        + destruct (stream_read_packet dbg rs) as [p rs'| | | | |]; try discriminate; [destruct p| |]; now injection ES as <-.
        + destruct (handler_alive (hdl s)); [destruct (length (events s) <? channel_size); [|discriminate]|]; now injection ES as <-.
        + destruct (stream_read_packet dbg rs); try discriminate; now injection ES as <-.
      - unfold step_writer in ES. destruct (nth_error (conns s) k) as [c|]; [|discriminate]. destruct (c_writer c) as [ws|p ws|ws]; [| |discriminate].
        + destruct (c_queue c) as [|[from [p|]] q]; [destruct (has_sender s k c); [discriminate|]|..]; now injection ES as <-.
        + destruct (write_packet p ws); try discriminate; now injection ES as <-.
      - now destruct (HL now).
      - destruct (hdl s); try discriminate. destruct (ctrl_c s); [|discriminate]. now injection ES as <-.
      - destruct (listeners s); try discriminate. destruct (ctrl_c s); [|discriminate]. now injection ES as <-.
      - destruct (_ && _); [|discriminate]. now injection ES as <-.
      - destruct (main s); try discriminate. destruct (_ || _); now injection ES as <-.
      - unfold step_main in ES. destruct (main s); try discriminate.
        + destruct (Nat.eqb _ _); [|discriminate]. now injection ES as <-.
        + destruct (service_running s); [discriminate|]. now injection ES as <-.
        + destruct (hdl s); try discriminate; now injection ES as <-. }
    assert (HC : l = LStopService \/ l <> LStopService) by (destruct l; (now left) || (right; discriminate)). destruct HC as [->|HC].
    + destruct u; [|discriminate]. split; [discriminate|]. unfold step in ES. destruct (running s); [|discriminate].
      destruct (service_running s) eqn:ER; cbn [andb] in ES; [|discriminate ES]. destruct (handler_alive (hdl s)); cbn [negb] in ES; [discriminate ES|]. injection ES as <-. reflexivity.
    + rewrite (KS HC). replace (match l with LStopService => true | _ => false end) with false by (destruct l; congruence).
      split; [|now rewrite app_nil_r]. intros ->. destruct (HO eq_refl) as (O1 & O2). split; [exact O1|].
      assert (HH : (exists now, l = LHandler now) \/ forall now, l <> LHandler now) by (destruct l; (left; eexists; reflexivity) || (right; discriminate)).
      destruct HH as [(now & ->)|HH]; [|now rewrite (SV HH)]. cbn [needs_service] in EN. destruct (calling s) eqn:EC; [discriminate|].
      unfold calling in EC. unfold step, step_handler in ES. destruct (running s); [|discriminate]. destruct (hdl s) as [|tx p| |]; try discriminate.
      * destruct (events s); [discriminate|]. injection ES as <-. exact O2.
      * destruct p as [| |R op f|to e p]; [| |discriminate|].
        -- injection ES as <-. exact O2.
        -- injection ES as <-. exact O2.
        -- destruct (nth_error (conns s) to) as [c|]; [|discriminate]. destruct (c_writer c); try (destruct (_ <? _); [|discriminate]); injection ES as <-; exact O2.
  - destruct u; cbn [negb andb] in HS; [discriminate|]. destruct (running s); [|discriminate]. injection HS as <-. cbn [boot core service_started].
    split; [discriminate|]. destruct (HO eq_refl) as (-> & _). reflexivity.
Qed.

(** In every run [main] has logged exactly the two lines of every address bound, in order, the first of the two alone for an
    address that could not be bound, then that it is ready, that it stops and that it has stopped; and the service that it has
    started, before it serves any call, and that it has stopped, after. *)
Theorem C131_log auth L dbg addresses ls : 
  (forall es x, log_run of_main auth L dbg (log_init addresses) ls = Some (es, x) -> es = main_log addresses (boot x))
  /\ (forall es x, log_run of_service auth L dbg (log_init addresses) ls = Some (es, x) -> es = service_log x
        /\ (service_started x = false -> service_running (core (boot x)) = true /\ svc (core (boot x)) = MessagingService_new)).
Proof.
  split.
  - assert (K : forall ls x0 es x, start_ok addresses (boot x0) -> log_run of_main auth L dbg x0 ls = Some (es, x) ->
      main_log addresses (boot x) = main_log addresses (boot x0) ++ es).
    { clear ls. induction ls as [|l ls IH]; intros x0 es x HO H; cbn [log_run] in H; [injection H as <- <-; now rewrite app_nil_r|].
      destruct (log_step auth dbg x0 l) as [x1|] eqn:E; [|discriminate]. destruct (log_run of_main auth L dbg x1 ls) as [[es1 x2]|] eqn:E1; [|discriminate].
      injection H as <- <-. destruct (main_step auth L dbg addresses x0 l x1 HO E) as (HO1 & H1). rewrite (IH x1 es1 x2 HO1 E1), H1. now rewrite app_assoc. }
    intros es x H. assert (HO : start_ok addresses (boot (log_init addresses))) by (exists []; auto).
    rewrite (K ls _ es x HO H). unfold main_log. cbn [boot log_init boot_init todo core sys_init main]. rewrite Nat.sub_diag. reflexivity.
  - assert (K : forall ls x0 es x, service_ok x0 -> log_run of_service auth L dbg x0 ls = Some (es, x) -> service_ok x /\ service_log x = service_log x0 ++ es).
    { clear ls. induction ls as [|l ls IH]; intros x0 es x HO H; cbn [log_run] in H; [injection H as <- <-; now rewrite app_nil_r|].
      destruct (log_step auth dbg x0 l) as [x1|] eqn:E; [|discriminate]. destruct (log_run of_service auth L dbg x1 ls) as [[es1 x2]|] eqn:E1; [|discriminate].
      injection H as <- <-. destruct (service_step auth L dbg x0 l x1 HO E) as (HO1 & H1). destruct (IH x1 es1 x2 HO1 E1) as (H2 & H3). split; [exact H2|].
      rewrite H3, H1. now rewrite app_assoc. }
    intros es x H. assert (HO : service_ok (log_init addresses)) by (intros _; split; reflexivity).
    destruct (K ls _ es x HO H) as (H1 & H2). split; [symmetry; exact H2|exact H1].
Qed.

(** The other way round: that the service's start is a step of its own loses no run of Startup.v, and adds none. *)
Theorem C131_same_runs auth L dbg addresses b :
  booted auth dbg addresses b <-> exists ls es x, log_run (fun _ => true) auth L dbg (log_init addresses) ls = Some (es, x) /\ boot x = b.
Proof.
  split.
  - intros (bl & HB). exists (LServiceStarts :: map LBoot bl). cbn [log_run log_step log_init service_started negb andb boot].
    change (running (core (boot_init addresses))) with true. cbv iota. revert HB. generalize (boot_init addresses). intros b0 HB.
    assert (K : exists es, log_run (fun _ => true) auth L dbg {| boot := b0; service_started := true |} (map LBoot bl) = Some (es, {| boot := b; service_started := true |})).
    { revert b0 HB. induction bl as [|l bl IH]; intros b0 HB; cbn [boot_steps map log_run] in *; [injection HB as <-; eauto|].
      destruct (boot_step auth dbg b0 l) as [b1|] eqn:E; [|discriminate]. unfold log_step at 1. cbn [service_started boot negb]. rewrite Bool.andb_false_r, E.
      destruct (IH b1 HB) as (es & ->). eauto. }
    destruct K as (es & ->). eauto.
  - intros (ls & es & x & H & <-).
    assert (K : forall ls x0 es x, booted auth dbg addresses (boot x0) -> log_run (fun _ => true) auth L dbg x0 ls = Some (es, x) -> booted auth dbg addresses (boot x)).
    { clear. induction ls as [|l ls IH]; intros x0 es x HB H; cbn [log_run] in H; [now injection H as _ <-|].
      destruct (log_step auth dbg x0 l) as [x1|] eqn:E; [|discriminate]. destruct (log_run (fun _ => true) auth L dbg x1 ls) as [[es1 x2]|] eqn:E1; [|discriminate].
      injection H as _ <-. apply (IH x1 es1 x2); [|exact E1]. unfold log_step in E. destruct l as [l|].
      - destruct (_ && _); [discriminate|]. destruct (boot_step auth dbg (boot x0) l) as [b|] eqn:EB; [|discriminate]. injection E as <-. cbn [boot].
        destruct HB as (bl & HB). exists (bl ++ [l]). revert HB EB. generalize (boot_init addresses). clear. intros b0.
        revert b0. induction bl as [|k bl IH]; intros b0 HB EB; cbn [boot_steps app] in *.
        + injection HB as ->. now rewrite EB.
        + destruct (boot_step auth dbg b0 k); [|discriminate]. now apply IH.
      - destruct (_ && _); [|discriminate]. injection E as <-. exact HB. }
    apply (K ls (log_init addresses) es x); [|exact H]. exists []. reflexivity.
Qed.

(** What can be read off the log: ready means that every address is bound, stopped that [main] is about to return; and the last line is about
    binding an address exactly when that address could not be bound, and then the broker is gone. *)
Lemma bound_in l e : In e (bound_lines l) -> exists a, In a l /\ (e = binding a \/ e = listening a).
Proof. unfold bound_lines. rewrite in_flat_map. intros (a & Ha & [<-|[<-|[]]]); eauto. Qed.

Lemma bound_not l e : (forall a, e <> binding a) -> (forall a, e <> listening a) -> ~ In e (bound_lines l).
Proof. intros H1 H2 H. destruct (bound_in l e H) as (a & _ & [K|K]); [destruct (H1 a K)|destruct (H2 a K)]. Qed.

Lemma bound_last l e a : e ++ [binding a] <> bound_lines l.
Proof.
  induction l as [|b l _] using rev_ind; [now destruct e|]. rewrite bound_lines_snoc. change [binding b; listening b] with ([binding b] ++ [listening b]).
  rewrite app_assoc. intros K. apply app_inj_tail in K. destruct K as (_ & K). apply (f_equal lvl) in K. discriminate K.
Qed.

Lemma said_apart e e' : said e <> said e' -> e <> e'.
Proof. congruence. Qed.

Theorem C131_reading auth L dbg addresses ls es x : log_run of_main auth L dbg (log_init addresses) ls = Some (es, x) ->
  (In ready es <-> todo (boot x) = None) /\ (In stopped es <-> main (core (boot x)) = MExited)
  /\ (In ready es -> forall a, In a addresses -> In (listening a) es)
  /\ (forall a, (exists es', es = es' ++ [binding a])
        <-> main (core (boot x)) = MPanicked /\ exists bound rest, addresses = bound ++ a :: rest /\ todo (boot x) = Some (a :: rest)).
Proof.
  intros H. pose proof (proj1 (C131_log auth L dbg addresses ls) es x H) as E.
  assert (HO : start_ok addresses (boot x)).
  { assert (K : forall ls x0 es x, start_ok addresses (boot x0) -> log_run of_main auth L dbg x0 ls = Some (es, x) -> start_ok addresses (boot x)).
    { clear. induction ls as [|l ls IH]; intros x0 es x HO H; cbn [log_run] in H; [now injection H as _ <-|].
      destruct (log_step auth dbg x0 l) as [x1|] eqn:E; [|discriminate]. destruct (log_run of_main auth L dbg x1 ls) as [[es1 x2]|] eqn:E1; [|discriminate].
      injection H as _ <-. apply (IH x1 es1 x2); [|exact E1]. now destruct (main_step auth L dbg addresses x0 l x1 HO E). }
    apply (K ls (log_init addresses) es x); [|exact H]. exists []. auto. }
  clear H. destruct x as [[s t] u]. cbn [boot core todo] in *. unfold main_log, start_ok in *. cbn [todo core] in *.
  assert (R : forall l, ~ In ready (bound_lines l)) by (intros l; apply bound_not; intros a; apply said_apart; discriminate).
  assert (S : forall l, ~ In stopped (bound_lines l)) by (intros l; apply bound_not; intros a; apply said_apart; discriminate).
  assert (RB : forall a, ready <> binding a) by (intros a; apply said_apart; discriminate).
  assert (SB : forall a, stopped <> binding a) by (intros a; apply said_apart; discriminate).
  destruct t as [rest|].
  - destruct HO as (bound & HA & HO). assert (EB : es = bound_lines bound ++ match main s, rest with MPanicked, a :: _ => [binding a] | _, _ => [] end).
    { rewrite E, HA, firstn_bound. reflexivity. }
    clear E. assert (NR : ~ In ready es).
    { rewrite EB, in_app_iff. intros [K|K]; [now apply R in K|]. destruct (main s), rest; try destruct K as [K|[]]; try contradiction. now destruct (RB l). }
    split; [split; [contradiction|discriminate]|]. split; [split|].
    + rewrite EB, in_app_iff. intros [K|K]; [now apply S in K|]. destruct (main s), rest; try destruct K as [K|[]]; try contradiction. now destruct (SB l).
    + intros K. rewrite K in HO. destruct HO as [HO|(HO & _)]; discriminate.
    + split; [contradiction|]. intros a. split.
      * intros (es' & K). rewrite EB in K. destruct HO as [HO|(HO & HN)]; rewrite HO in *.
        -- rewrite app_nil_r in K. symmetry in K. now apply bound_last in K.
        -- destruct rest as [|a' rest]; [congruence|]. apply app_inj_tail in K. destruct K as (_ & K).
           apply (f_equal said) in K. cbn [said binding] in K. apply app_inv_head in K. subst a'. eauto.
      * intros (HM & b' & rest' & HA' & [= ->]). rewrite HM in EB. eauto.
  - clear HO. rewrite E. split; [split; [reflexivity|]; intros _; rewrite !in_app_iff; right; left; now left|]. split; [split|].
    + rewrite !in_app_iff. intros [K|[[K|[]]|K]]; [now apply S in K|apply (f_equal said) in K; discriminate K|].
      destruct (main s); try destruct K as [K|[]]; try contradiction; try (apply (f_equal said) in K; discriminate K). reflexivity.
    + intros ->. rewrite !in_app_iff. right. right. right. now left.
    + split.
      * intros _ a Ha. rewrite in_app_iff. left. unfold bound_lines. rewrite in_flat_map. exists a. split; [exact Ha|]. right. now left.
      * intros a. split; [|intros (_ & b' & rest & _ & K); discriminate K]. intros (es' & K). exfalso.
        assert (Q : exists pre e, bound_lines addresses ++ [ready] ++ match main s with MServing => [] | MExited => [stopping; stopped] | _ => [stopping] end
          = pre ++ [e] /\ forall a, e <> binding a).
        { destruct (main s);
            [exists (bound_lines addresses), ready|exists (bound_lines addresses ++ [ready]), stopping|exists (bound_lines addresses ++ [ready]), stopping
            |exists (bound_lines addresses ++ [ready]), stopping|exists (bound_lines addresses ++ [ready; stopping]), stopped
            |exists (bound_lines addresses ++ [ready]), stopping];
            (split; [rewrite <- ?app_assoc; reflexivity|]); intros a'; apply said_apart; discriminate. }
        destruct Q as (pre & e & Q & NE). rewrite Q in K. apply app_inj_tail in K. destruct K as (_ & K). now destruct (NE a).
Qed.

(** Before that: which lines there are, and what the last of them shows of the settings. *)
Definition quoted (a : bytes) : bytes := str """" ++ a ++ str """".

Fixpoint listed (l : list bytes) : bytes :=
  match l with [] => [] | [a] => quoted a | a :: l' => quoted a ++ str ", " ++ listed l' end.

Theorem C131_first L version filename w :
  length (prepare_entries L version filename w) = (if slice_ok 10 (commit_hash w) then match config w with None => 2 | Some _ => 3 end else 0)
  /\ (forall st m bare, prepare bare w = Some m -> config w = Some st ->
      forallb plain_char (password_file st) = true -> forallb (forallb plain_char) (listeners_tcp st) = true ->
      prepare_entries L version filename w
      = [{| lvl := Info; said := str "Initializing RatelMQ v" ++ version ++ str " (" ++ firstn 10 (commit_hash w) ++ str ")..." |};
         {| lvl := Debug; said := str "Using configuration file " ++ filename |};
         {| lvl := Debug; said := str "Effective settings: Settings { mqtt: MqttSettings { listeners_tcp: [" ++ listed (listeners_tcp st)
              ++ str "] }, authentication: AuthenticationSettings { password_file: " ++ quoted (password_file st) ++ str " } }" |}]).
Proof.
  split; [unfold prepare_entries; destruct (slice_ok 10 (commit_hash w)); [destruct (config w)|]; reflexivity|].
  intros st m bare HP HC H1 H2. unfold prepare in HP. unfold prepare_entries. destruct (slice_ok 10 (commit_hash w)); [|discriminate HP]. rewrite HC. cbn [app].
  assert (EL : show_list (show_string L) (listeners_tcp st) = str "[" ++ listed (listeners_tcp st) ++ str "]").
  { clear - H2. unfold show_list. f_equal. f_equal. induction (listeners_tcp st) as [|a l IH]; [reflexivity|]. cbn [forallb] in H2. apply andb_true_iff in H2. destruct H2 as (H2 & H3).
    specialize (IH H3). cbn [map]. destruct l as [|b l]; cbn [map listed] in *.
    - now rewrite (C115_verbatim L a H2).
    - rewrite <- IH, (C115_verbatim L a H2). reflexivity. }
  unfold show_settings. rewrite EL, (C115_verbatim L _ H1). unfold entry_of, quoted, struct, member. clear.
  generalize (listed (listeners_tcp st)) (password_file st) (firstn 10 (commit_hash w)). intros ls pf h. cbn. do 5 (rewrite <- ?app_assoc; cbn). reflexivity.
Qed.

(** Two addresses: one run to the end, one where the second cannot be bound. *)
Definition ex_settings : Settings := {| listeners_tcp := [str "0.0.0.0:1883"; str "[::]:1883"]; password_file := str "/etc/passwd" |}.
Definition ex_world : world := {| commit_hash := str "0123456789abcdef"; config := Some ex_settings; file := fun _ => Some (str "u:h") |}.

Definition ex_start_run : list llabel :=
  [LBoot (BBind true); LServiceStarts; LBoot (BBind true); LBoot BReady; LBoot (BStep LCtrlC); LBoot (BStep LStopListener);
   LBoot (BStep LStopHandler); LBoot (BStep LStopService); LBoot (BStep LStopListener); LBoot (BStep LMain); LBoot (BStep LMain); LBoot (BStep LMain)].

Example C131_case :
  prepare false ex_world <> None
  /\ map said (prepare_entries ex_library (str "0.1.0") (str "r.conf") ex_world)
     = [str "Initializing RatelMQ v0.1.0 (0123456789)..."; str "Using configuration file r.conf";
        str "Effective settings: Settings { mqtt: MqttSettings { listeners_tcp: [""0.0.0.0:1883"", ""[::]:1883""] }, authentication: AuthenticationSettings { password_file: ""/etc/passwd"" } }"]
  /\ option_map (fun r => (map said (fst r), main (core (boot (snd r))))) (log_run (fun _ => true) ex_auth ex_library true (log_init (listeners_tcp ex_settings)) ex_start_run)
     = Some ([str "Binding MQTT TCP listener to 0.0.0.0:1883"; str "Listening for MQTT TCP connections on 0.0.0.0:1883"; str "Started Messaging Manager";
              str "Binding MQTT TCP listener to [::]:1883"; str "Listening for MQTT TCP connections on [::]:1883";
              str "Successfully initialized RatelMQ, ready to accept connections"; str "Stopping RatelMQ..."; str "Stopping listener"; str "Stopping manager...";
              str "Stopped Manager"; str "Stopped Messaging Manager"; str "Stopping listener"; str "RatelMQ stopped"], MExited)
  /\ option_map (fun r => (map said (fst r), main (core (boot (snd r))))) (log_run of_main ex_auth ex_library true (log_init (listeners_tcp ex_settings)) [LBoot (BBind true); LBoot (BBind false)])
     = Some ([str "Binding MQTT TCP listener to 0.0.0.0:1883"; str "Listening for MQTT TCP connections on 0.0.0.0:1883"; str "Binding MQTT TCP listener to [::]:1883"], MPanicked).
Proof. split; [discriminate|]. split; [reflexivity|]. split; reflexivity. Qed.
