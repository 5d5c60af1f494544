(** Property C96: when the broker starts, and what it does while it starts. *)
From Verif Require Import Base Base_facts Packets Utf8 Spec_utf8 Utf8_facts HashMap Auth Prop_auth Subscriptions Messaging Handler Decoder ReadStream ReadStream_facts
  Plain_facts Conn Conn_facts Encoder Encoder_facts WriteStream WriteStream_facts Spec_wire Spec_subs Spec_broker
  Subscriptions_facts Handler_facts System System_facts
  System_hist System_conn System_queue System_first System_progress System_exit System_rest
  Prop_subs Prop_stream Prop_broker Prop_system Startup.
Open Scope nat_scope.

(** The password file is text and each of its lines has a colon. *)
Definition usable (bare : bool) (content : option bytes) : Prop :=
  exists s ls, content = Some s /\ is_utf8 s /\ text_lines bare s ls /\ forall l, In l ls -> has colon l.

(** The tasks are started exactly when the commit hash has ten bytes that do not end inside a character, there
    are settings, and the password file is usable. *)
Theorem C96_prepared bare w addresses : 
  (exists m, prepare bare w = Some (addresses, m)) <->
  (10 <= length (commit_hash w) /\ (forall b, nth_error (commit_hash w) 10 = Some b -> (b2n b < 128 \/ 192 <= b2n b)%N)
   /\ exists st, config w = Some st /\ listeners_tcp st = addresses /\ usable bare (file w (password_file st))).
Proof.
  assert (SL : slice_ok 10 (commit_hash w) = true <->
    10 <= length (commit_hash w) /\ (forall b, nth_error (commit_hash w) 10 = Some b -> (b2n b < 128 \/ 192 <= b2n b)%N)).
  { unfold slice_ok. destruct (nth_error (commit_hash w) 10) as [b|] eqn:E.
    - assert (L : 10 < length (commit_hash w)) by (apply nth_error_Some; congruence).
      assert (B : inside_char b = false <-> (b2n b < 128 \/ 192 <= b2n b)%N).
      { clear. unfold inside_char. destruct b; cbn; split; intros H; try discriminate H; try reflexivity; try (left; lia); try (right; lia); exfalso; lia. }
      split.
      + intros H. split; [lia|]. intros b' [= <-]. apply B. now apply negb_true_iff.
      + intros (_ & H). apply negb_true_iff. apply B. now apply H.
    - apply nth_error_None in E. rewrite Nat.eqb_eq. split; [intros ->; split; [lia|discriminate]|]. intros (H & _). lia. }
  assert (FI : forall c, (exists m, FileIdentityManager_new bare c = inl m) <-> usable bare c).
  { intros [s|]; [|split; [intros (m & H); discriminate|intros (s & ls & H & _); discriminate]].
    destruct (utf8_ok s) eqn:EU.
    - apply utf8_ok_iff in EU. destruct (C41_every_content bare s EU) as (ls & HT & [HC|HC]).
      + split; [intros _; exists s, ls; auto|]. intros _. destruct (C41_loads bare s ls EU HT HC) as (m & E & _). eauto.
      + rewrite (C41_rejects bare s ls EU HT HC). split; [intros (m & H); discriminate|].
        intros (s' & ls' & [= <-] & _ & HT' & HC'). exfalso.
        destruct HC as (l & Hl & Hn). pose proof (lines_spec _ _ _ HT) as E1. pose proof (lines_spec _ _ _ HT') as E2. apply Hn, HC'. congruence.
    - assert (HU : ~ is_utf8 s) by (intros K; apply utf8_ok_iff in K; congruence).
      rewrite (proj1 (C41_unreadable bare s HU)). split; [intros (m & H); discriminate|].
      intros (s' & ls & [= <-] & K & _). contradiction. }
  unfold prepare. destruct (slice_ok 10 (commit_hash w)) eqn:ES.
  - destruct (proj1 SL eq_refl) as (S1 & S2). destruct (config w) as [st|].
    + specialize (FI (file w (password_file st))). destruct (FileIdentityManager_new bare (file w (password_file st))) as [m|e].
      * split.
        -- intros (m' & [= <- <-]). split; [exact S1|]. split; [exact S2|]. exists st. split; [reflexivity|]. split; [reflexivity|]. apply FI. eauto.
        -- intros (_ & _ & st' & [= <-] & <- & _). eauto.
      * split; [intros (m' & H); discriminate|]. intros (_ & _ & st' & [= <-] & _ & HU). apply FI in HU. destruct HU; discriminate.
    + split; [intros (m' & H); discriminate|]. intros (_ & _ & st' & H & _). discriminate.
  - split; [intros (m' & H); discriminate|]. intros (H1 & H2 & _). assert (K : false = true) by (apply SL; auto). discriminate.
Qed.

(** ** While the addresses are being bound *)

(** More listeners allow the same steps. *)
Lemma step_more auth dbg s l s' m : step auth dbg s l = Some s' -> ctrl_c s = false -> main s = MServing ->
  match l with LCtrlC | LMain => False | LAccept _ _ _ => m <> 0 | _ => True end ->
  step auth dbg (set_listeners m s) l = Some (set_listeners m s') /\ listeners s' = listeners s
  /\ ctrl_c s' = false /\ main s' = MServing.
Proof.
  intros HS HC HM HL. unfold step in *.
  assert (Hr : running s = true) by (unfold running; now rewrite HM).
  replace (running (set_listeners m s)) with true by (symmetry; exact Hr). rewrite Hr in HS.
  destruct l as [r w a|k uuid|k|now| | | | |]; try (exfalso; exact HL).
  - destruct (listeners s) eqn:EL; [discriminate|]. injection HS as <-. cbn [listeners set_listeners]. destruct m; [congruence|]. repeat split; auto.
  - unfold step_reader in *. cbn [conns set_listeners]. destruct (nth_error (conns s) k) as [c|]; [|discriminate].
    destruct (c_reader c) as [rs|e cid rs|cid rs|]; [| | |discriminate].
    + destruct (stream_read_packet dbg rs) as [p rs'| | | | |]; try discriminate; [destruct p| |]; injection HS as <-; auto.
    + cbn [hdl events set_listeners]. destruct (handler_alive (hdl s)); [destruct (_ <? _); [|discriminate]|]; injection HS as <-; auto.
    + destruct (stream_read_packet dbg rs); try discriminate; injection HS as <-; auto.
  - unfold step_writer in *. cbn [conns set_listeners]. destruct (nth_error (conns s) k) as [c|]; [|discriminate].
    destruct (c_writer c) as [ws|p ws|ws]; [| |discriminate].
    + destruct (c_queue c) as [|[f [p|]] q]; [|injection HS as <-; auto|injection HS as <-; auto].
      change (has_sender (set_listeners m s) k c) with (has_sender s k c). destruct (has_sender s k c); [discriminate|]. injection HS as <-. auto.
    + destruct (write_packet p ws); try discriminate; injection HS as <-; auto.
  - unfold step_handler in *. cbn [hdl events conns svc set_listeners]. destruct (hdl s) as [|tx p| |]; try discriminate.
    + destruct (events s); [discriminate|]. injection HS as <-. auto.
    + destruct p as [| |R op f|to e p].
      * injection HS as <-. auto.
      * injection HS as <-. auto.
      * destruct (serve (svc s) op). injection HS as <-. auto.
      * destruct (nth_error (conns s) to) as [c|]; [|discriminate].
        destruct (c_writer c); try (destruct (_ <? _); [|discriminate]); injection HS as <-; auto.
  - rewrite HC in HS. destruct (hdl s); discriminate.
  - rewrite HC in HS. destruct (listeners s); discriminate.
  - cbn [service_running hdl set_listeners]. destruct (_ && _); [|discriminate]. injection HS as <-. auto.
Qed.

(** What is true of the broker while it starts and after. *)
Definition boot_ok auth dbg (addresses : list bytes) (b : bsys) : Prop :=
  match todo b with
  | None => reachable auth dbg (length addresses) (core b)
  | Some rest => exists bound s, addresses = bound ++ rest /\ reachable auth dbg (length addresses) s /\ ctrl_c s = false /\ main s = MServing
      /\ s = set_main MServing (set_listeners (length addresses) (core b)) /\ listeners (core b) = length bound
      /\ (main (core b) = MServing \/ main (core b) = MPanicked /\ rest <> [])
  end.

Lemma set_same (c : sys) : main c = MServing -> set_main MServing (set_listeners (listeners c) c) = c.
Proof. destruct c. cbn. intros ->. reflexivity. Qed.

Theorem boot_invariant auth dbg addresses b : booted auth dbg addresses b -> boot_ok auth dbg addresses b.
Proof.
  intros (ls & H).
  assert (K : forall ls b0, boot_ok auth dbg addresses b0 -> boot_steps auth dbg b0 ls = Some b -> boot_ok auth dbg addresses b).
  { clear ls H. induction ls as [|l ls IH]; intros b0 HO H; cbn in H; [injection H as <-; exact HO|].
    destruct (boot_step auth dbg b0 l) as [b1|] eqn:E; [|discriminate]. apply (IH b1); [|exact H]. clear IH H b.
    unfold boot_step in E. unfold boot_ok in HO. destruct l as [ok| |l].
    - destruct (todo b0) as [[|a rest]|] eqn:ET; try discriminate. destruct HO as (bound & s & EA & HR & HC & HM & ES & EL & HB).
      destruct HB as [HB|(HB & _)]; [|unfold running in E; rewrite HB in E; discriminate].
      unfold running in E. rewrite HB in E. destruct ok; injection E as <-; unfold boot_ok; cbn [core todo].
      + exists (bound ++ [a]), s. split; [now rewrite <- app_assoc|]. repeat split; auto. cbn [listeners set_listeners]. rewrite app_length. cbn. lia.
      + exists bound, s. repeat split; auto. right. split; [reflexivity|discriminate].
    - destruct (todo b0) as [[|a rest]|] eqn:ET; try discriminate. injection E as <-. unfold boot_ok. cbn [core todo].
      destruct HO as (bound & s & EA & HR & HC & HM & ES & EL & HB). destruct HB as [HB|(_ & HB)]; [|congruence].
      rewrite app_nil_r in EA. subst bound. rewrite <- EL, set_same in ES by exact HB. now subst s.
    - destruct (todo b0) as [rest|] eqn:ET.
      + destruct HO as (bound & s & EA & HR & HC & HM & ES & EL & HB).
        assert (HL : match l with LCtrlC | LMain => False | _ => True end) by (destruct l; try exact I; discriminate E).
        destruct (step auth dbg (core b0) l) as [c1|] eqn:EST; [|destruct l; discriminate E].
        assert (b1 = {| core := c1; todo := Some rest |}) as -> by (destruct l; try destruct HL; injection E as <-; reflexivity).
        destruct HB as [HB|(HB & _)]; [|unfold step, running in EST; rewrite HB in EST; discriminate].
        assert (HC0 : ctrl_c (core b0) = false) by (rewrite ES in HC; exact HC).
        assert (HM0 : match l with LCtrlC | LMain => False | LAccept _ _ _ => length addresses <> 0 | _ => True end).
        { destruct l; try destruct HL; try exact I. intros E0. rewrite EA, app_length in E0.
          unfold step in EST. rewrite EL in EST. assert (length bound = 0) as E1 by lia. rewrite E1 in EST. destruct (running (core b0)); discriminate. }
        destruct (step_more auth dbg (core b0) l c1 (length addresses) EST HC0 HB HM0) as (K1 & K2 & K3 & K4).
        assert (ES' : s = set_listeners (length addresses) (core b0)).
        { rewrite ES. unfold set_main. cbn. rewrite <- HB. reflexivity. }
        unfold boot_ok. cbn [core todo]. exists bound, (set_listeners (length addresses) c1). split; [exact EA|].
        split; [eapply reachable_step; [exact HR|]; rewrite ES'; exact K1|]. repeat split; auto.
        * unfold set_main. cbn. rewrite <- K4. reflexivity.
        * congruence.
      + destruct (step auth dbg (core b0) l) as [c1|] eqn:EST; [|destruct l; discriminate E]. injection E as <-.
        unfold boot_ok. cbn [core todo]. eapply reachable_step; eauto. }
  apply (K ls (boot_init addresses)); [|exact H]. unfold boot_ok, boot_init. cbn [todo core].
  exists [], (sys_init (length addresses)). repeat split; auto. apply reachable_init.
Qed.

(** Once started: an execution of the broker with that many listeners. *)
Theorem C96_started auth dbg addresses b : booted auth dbg addresses b -> todo b = None ->
  reachable auth dbg (length addresses) (core b).
Proof. intros H E. pose proof (boot_invariant _ _ _ _ H) as K. unfold boot_ok in K. now rewrite E in K. Qed.

(** Before: the same, apart from how many listeners there are; or an address could not be bound, and then main has panicked (Abort.v goes on from there). *)
Theorem C96_starting auth dbg addresses b rest : booted auth dbg addresses b -> todo b = Some rest ->
  reachable auth dbg (length addresses) (set_main MServing (set_listeners (length addresses) (core b)))
  /\ (exists bound, addresses = bound ++ rest /\ listeners (core b) = length bound)
  /\ (main (core b) = MServing
      \/ main (core b) = MPanicked /\ rest <> [] /\ forall l, boot_step auth dbg b l = None).
Proof.
  intros H E. pose proof (boot_invariant _ _ _ _ H) as K. unfold boot_ok in K. rewrite E in K.
  destruct K as (bound & s & EA & HR & _ & _ & ES & EL & HB). rewrite <- ES. split; [exact HR|]. split; [eauto|].
  destruct HB as [HB|(HB & HN)]; [now left|right]. split; [exact HB|]. split; [exact HN|].
  assert (Hr : running (core b) = false) by (unfold running; now rewrite HB).
  intros [ok| |l]; unfold boot_step; rewrite E.
  - destruct rest; [reflexivity|]. now rewrite Hr.
  - destruct rest; [congruence|reflexivity].
  - unfold step. rewrite Hr. now destruct l.
Qed.

(** Every execution of the broker is one of a broker that started. *)
Theorem C96_all auth dbg addresses s : reachable auth dbg (length addresses) s ->
  booted auth dbg addresses {| core := s; todo := None |}.
Proof.
  assert (APP : forall l1 l2 b, boot_steps auth dbg b (l1 ++ l2) = match boot_steps auth dbg b l1 with Some b' => boot_steps auth dbg b' l2 | None => None end).
  { induction l1 as [|l l1 IH]; intros l2 b; cbn; [reflexivity|]. destruct (boot_step auth dbg b l); [apply IH|reflexivity]. }
  assert (BIND : forall r n, boot_steps auth dbg {| core := sys_init n; todo := Some r |} (repeat (BBind true) (length r) ++ [BReady])
     = Some {| core := sys_init (n + length r); todo := None |}).
  { induction r as [|a r IH]; intros n; cbn [length repeat app boot_steps boot_step todo core].
    - now rewrite Nat.add_0_r.
    - change (running (sys_init n)) with true. cbn iota. change (set_listeners _ _) with (sys_init (Datatypes.S n)). rewrite IH.
      do 3 f_equal. lia. }
  intros HR.
  assert (RUN : exists ls, steps auth dbg (sys_init (length addresses)) ls = Some s) by exact HR.
  destruct RUN as (ls & HS). exists ((repeat (BBind true) (length addresses) ++ [BReady]) ++ map BStep ls).
  rewrite APP. unfold boot_init. rewrite BIND. cbn [plus].
  assert (RUN : forall ls s1, steps auth dbg s1 ls = Some s -> boot_steps auth dbg {| core := s1; todo := None |} (map BStep ls) = Some {| core := s; todo := None |}).
  { clear. induction ls as [|l ls IH]; intros s1 H; cbn in *; [now injection H as ->|].
    destruct (step auth dbg s1 l) as [s2|] eqn:E; [|discriminate]. apply IH. exact H. }
  apply RUN. exact HS.
Qed.

(** Without addresses the broker starts and nobody can reach it. *)
Theorem C96_no_address auth dbg s : reachable auth dbg 0 s -> conns s = [] /\ events s = [] /\ handled s = [] /\ log s = [] /\ (hdl s = HIdle \/ hdl s = HStopped).
Proof.
  intros HR.
  assert (K : listeners s = 0 /\ conns s = [] /\ events s = [] /\ handled s = [] /\ log s = [] /\ (hdl s = HIdle \/ hdl s = HStopped)); [|tauto].
  destruct HR as (ls & H). revert H.
  assert (G : forall ls s0, listeners s0 = 0 /\ conns s0 = [] /\ events s0 = [] /\ handled s0 = [] /\ log s0 = [] /\ (hdl s0 = HIdle \/ hdl s0 = HStopped) ->
    steps auth dbg s0 ls = Some s -> listeners s = 0 /\ conns s = [] /\ events s = [] /\ handled s = [] /\ log s = [] /\ (hdl s = HIdle \/ hdl s = HStopped)).
  { clear ls. induction ls as [|l ls IH]; intros s0 HI H; cbn in H; [injection H as <-; exact HI|].
    destruct (step auth dbg s0 l) as [s1|] eqn:E; [|discriminate]. apply (IH s1); [|exact H].
    destruct HI as (H1 & H2 & H3 & H4 & H5 & H6). unfold step in E. destruct (running s0); [|discriminate].
    destruct l as [r w a|k uuid|k|now| | | | |].
    - rewrite H1 in E. discriminate.
    - unfold step_reader in E. rewrite H2 in E. destruct k; discriminate.
    - unfold step_writer in E. rewrite H2 in E. destruct k; discriminate.
    - unfold step_handler in E. rewrite H3 in E. destruct H6 as [H6|H6]; rewrite H6 in E; discriminate.
    - destruct (hdl s0); try discriminate. destruct (ctrl_c s0); [|discriminate]. injection E as <-. cbn. auto 10.
    - rewrite H1 in E. discriminate.
    - destruct (_ && _); [|discriminate]. injection E as <-. cbn. auto 10.
    - destruct (main s0); try discriminate. destruct (_ || _); injection E as <-; cbn; auto 10.
    - unfold step_main in E. destruct (main s0); try discriminate.
      + destruct (Nat.eqb _ _); [|discriminate]. injection E as <-. cbn. auto 10.
      + destruct (service_running s0); [discriminate|]. injection E as <-. cbn. auto 10.
      + destruct H6 as [H6|H6]; rewrite H6 in E; try discriminate; injection E as <-; cbn; auto 10. }
  apply G. cbn. auto 10.
Qed.

(** A broker given two addresses, the second of which is taken: a client of the first gets its CONNACK, and then
    the process ends. *)
Example C96_case :
  let client := LAccept (ex_peer [ex_client "s" None None] PeerOpen) (ex_socket []) 1%N in
  let ack := ConnAck {| session_present := false; return_code := Accepted |} in
  exists b, booted ex_deny true [str "0.0.0.0:1883"; str "0.0.0.0:80"] b
    /\ main (core b) = MPanicked /\ map broker_sent (conns (core b)) = [[ack]]
    /\ forall l, boot_step ex_deny true b l = None.
Proof.
  intros client ack.
  assert (E : exists b, boot_steps ex_deny true (boot_init [str "0.0.0.0:1883"; str "0.0.0.0:80"])
    (BBind true :: map BStep (client :: [LReader 0 []; LReader 0 []] ++ repeat (LHandler 5) 5 ++ [LWriter 0; LWriter 0]) ++ [BBind false]) = Some b
    /\ main (core b) = MPanicked /\ map broker_sent (conns (core b)) = [[ack]] /\ todo b = Some [str "0.0.0.0:80"]).
  { eexists. split; [vm_compute; reflexivity|]. repeat split. }
  destruct E as (b & E1 & E2 & E3 & E4). exists b. assert (HB : booted ex_deny true [str "0.0.0.0:1883"; str "0.0.0.0:80"] b) by (eexists; exact E1).
  split; [exact HB|]. split; [exact E2|]. split; [exact E3|].
  destruct (C96_starting _ _ _ _ _ HB E4) as (_ & _ & [K|(_ & _ & K)]); [congruence|exact K].
Qed.

(** Ten characters of the hash are shown, and a repository without commits gives the four of HEAD. *)
Example C96_hash : forall c f, (exists m, prepare true {| commit_hash := str "0123456789abcdef"; config := Some {| listeners_tcp := []; password_file := str "p" |}; file := fun _ => Some (str "bob:h") |} = Some ([], m))
  /\ prepare true {| commit_hash := str "HEAD"; config := c; file := f |} = None.
Proof. intros c f. split; [eexists|]; reflexivity. Qed.
