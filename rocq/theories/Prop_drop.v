(** Property C123: the end of the service and the depth of the tree. *)
From Verif Require Import Base Base_facts Packets HashMap Subscriptions Messaging Handler Decoder ReadStream ReadStream_facts
  Plain_facts Conn Conn_facts Encoder Encoder_facts WriteStream WriteStream_facts Spec_wire Spec_subs Spec_broker Spec_ref
  Subscriptions_facts Handler_facts System System_facts
  System_hist System_conn System_queue System_first System_progress System_exit System_rest
  Prop_subs Prop_stream Prop_broker Prop_system Prop_rest Prop_mqtt Prop_ref Prop_stop Prop_any Prop_exit Spec_utf8 Stack Prop_stack Drop.
Open Scope nat_scope.

(** ** C123 *)

Lemma drop_on_spec droom : forall n, drop_on droom n = (height n <=? droom).
Proof.
  induction droom as [|droom IH]; intros [ch cl]; cbn [drop_on height Nat.leb]; [reflexivity|].
  induction ch as [|[k x] ch IHc]; [reflexivity|]. cbn [forallb map list_max fold_right snd]. rewrite IH, IHc.
  fold (list_max (map (fun x => height (snd x)) ch)).
  destruct (Nat.leb_spec (height x) droom), (Nat.leb_spec (list_max (map (fun x => height (snd x)) ch)) droom),
    (Nat.leb_spec (Nat.max (height x) (list_max (map (fun x => height (snd x)) ch))) droom); try lia; reflexivity.
Qed.

(** *** The tree in every state *)

(** Programs that leave the service alone once they have begun to send. *)
Fixpoint trailing (p : prog) : Prop :=
  match p with Done | Panic => True | Send _ _ k => trailing k | Call _ _ => False end.

Fixpoint calm (p : prog) : Prop :=
  match p with Done | Panic => True | Call _ k => forall r, calm (k r) | Send _ _ k => trailing k end.

Lemma trailing_calm p : trailing p -> calm p.
Proof. destruct p; cbn; tauto. Qed.

Lemma trailing_exec p m : trailing p -> fst (fst (exec p m)) = m.
Proof.
  revert m. induction p as [| |R op f IH|to e p IH]; intros m; cbn [trailing exec]; try reflexivity; [intros []|].
  intros H. specialize (IH m H). destruct (exec p m) as [[m' l] o]. exact IH.
Qed.

Lemma calm_event auth now e : calm (on_event auth now e).
Proof.
  assert (T : forall e l, trailing (send_to_all l e)) by (intros e0; induction l; cbn; auto).
  destruct e as [c a k|cid p k|cid|cid]; cbn [on_event].
  - unfold on_connect. destruct (user_name c) as [u|]; [destruct (password c) as [pw|]; [destruct (auth u pw)|]|]; cbn; auto;
      intros [x|]; cbn; auto.
  - destruct p; cbn [on_packet]; try exact I.
    + cbn. intros r. apply trailing_calm, T.
    + assert (K : forall subs codes, calm (subscribe_all cid subs codes (fun codes => Send k (ServerPacket (SubAck packet_id codes)) Done))).
      { induction subs as [|x subs IH]; intros codes; cbn; auto. }
      apply K.
    + cbn. auto.
    + cbn. intros r. destruct r; cbn; auto.
    + cbn. auto.
  - exact I.
  - cbn. auto.
Qed.

(** One level more than the longest filter named in these events. *)
Definition named_height (h : list (Z * ClientEvent)) : nat := Datatypes.S (list_max (map level_count (flat_map named (map snd h)))).

Lemma named_height_snoc h te : named_height (h ++ [te])
  = Nat.max (named_height h) (list_max (map (fun f => Datatypes.S (level_count f)) (named (snd te)))).
Proof.
  unfold named_height. rewrite map_app, flat_map_app, map_app, list_max_app. cbn [map flat_map]. rewrite app_nil_r.
  assert (E : forall l, Nat.max 1 (list_max (map (fun f => Datatypes.S (level_count f)) l)) = Datatypes.S (list_max (map level_count l))).
  { intros l. rewrite <- list_max_succ, map_map. reflexivity. }
  pose proof (E (named (snd te))). lia.
Qed.

(** The tree in the state of the service, or in the one the handler's program will leave behind. *)
Definition tree_inv (s : sys) : Prop :=
  match hdl s with
  | HBusy _ p => calm p /\ height (subscriptions (fst (fst (exec p (svc s))))) = named_height (handled s)
  | _ => height (subscriptions (svc s)) = named_height (handled s)
  end.

Lemma mentioned_one te : flat_map mentioned (requests_of te) = named (snd te).
Proof. pose proof (mentioned_named [te]) as H. unfold requests in H. cbn [flat_map map] in H. now rewrite !app_nil_r in H. Qed.

Lemma tree_invariant auth dbg n s : reachable auth dbg n s -> tree_inv s.
Proof.
  apply (reachable_trans_ind auth dbg n tree_inv); [reflexivity|]. clear s. intros s s' _ HI T.
  destruct T; try exact HI; unfold tree_inv in *; cbn [hdl set_hdl panic_handler set_events]; rewrite ?H in HI.
  - split; [apply calm_event|]. cbn [handled set_hdl set_handled set_events svc].
    pose proof (handle_subs auth (svc s) (now, e)) as HS. unfold handle in HS. cbn [fst snd] in HS.
    destruct (exec (on_event auth now e) (svc s)) as [[m l] o]. cbn [fst]. rewrite HS, height_requests, mentioned_one, HI, named_height_snoc.
    reflexivity.
  - destruct HI as (_ & HI). exact HI.
  - destruct HI as (_ & HI). exact HI.
  - destruct HI as (HC & HI). split; [apply HC|]. cbn [handled set_hdl set_svc svc]. cbn [exec] in HI.
    destruct (serve (svc s) op) as [m r]. exact HI.
  - destruct HI as (HC & HI). cbn [calm] in HC. split; [now apply trailing_calm|].
    cbn [exec] in HI. cbn [handled svc set_log set_conn set_conns set_hdl]. destruct (exec p (svc s)) as [[m l] o]. exact HI.
  - destruct HI as (HC & HI). cbn [calm] in HC. cbn [exec] in HI. cbn [svc handled set_events set_hdl panic_handler].
    pose proof (trailing_exec p (svc s) HC) as E. destruct (exec p (svc s)) as [[m l] o]. cbn [fst] in HI, E. now rewrite E in HI.
  - exact HI.
Qed.

Lemma too_deep_named room h : 1 <= room -> (room < named_height h <-> too_deep room (map snd h)).
Proof.
  intros HR. unfold named_height. set (l := flat_map named (map snd h)). split.
  - intros H. destruct (Exists_dec (fun f => room <= level_count f) l) as [D|D].
    + intros f. destruct (le_dec room (level_count f)); [now left|now right].
    + apply Exists_exists in D. destruct D as (f & Hf & Hl). apply in_flat_map in Hf. destruct Hf as (e & He & Hf). exists e, f. auto.
    + exfalso. assert (K : list_max (map level_count l) <= room - 1); [|lia]. apply list_max_le. apply Forall_map.
      apply Forall_Exists_neg in D. eapply Forall_impl; [|exact D]. cbn. intros. lia.
  - intros (e & f & He & Hf & Hl). assert (K : In f l) by (apply in_flat_map; eauto).
    enough (level_count f <= list_max (map level_count l)) by lia. clear - K. induction l as [|x l IH]; [destruct K|].
    cbn [map list_max fold_right]. fold (list_max (map level_count l)). destruct K as [->|K]; [lia|]. specialize (IH K). lia.
Qed.

(** *** The broker *)

(** Dropping the tree now would need more stack than there is. *)
Definition bursts (droom : nat) (s : sys) (l : label) : bool :=
  match l with LStopService => service_running s && negb (handler_alive (hdl s)) && running s && (droom <? height (subscriptions (svc s))) | _ => false end.

Lemma dstep_spec auth dbg room droom s l : dstep auth dbg room droom s l =
  if aborted s then None
  else if overflows room (score s) l || bursts droom (score s) l then Some {| score := score s; aborted := true |}
  else match step auth dbg (score s) l with Some s' => Some {| score := s'; aborted := false |} | None => None end.
Proof.
  unfold dstep. rewrite sstep_spec. destruct (aborted s); [reflexivity|].
  destruct l as [r w a|k uuid|k|now| | | | |]; cbn [bursts]; rewrite ?orb_false_r;
    try (destruct (overflows room (score s) _); [reflexivity|]; destruct (step auth dbg (score s) _); reflexivity).
  cbn [overflows orb]. unfold step. destruct (running (score s)); [|now rewrite andb_false_r].
  destruct (service_running (score s) && negb (handler_alive (hdl (score s)))); [|reflexivity]. cbn [andb].
  rewrite drop_on_spec. destruct (Nat.leb_spec (height (subscriptions (svc (score s)))) droom),
    (Nat.ltb_spec droom (height (subscriptions (svc (score s))))); try lia; reflexivity.
Qed.

Lemma dsteps_snoc auth dbg room droom ls : forall s l, dsteps auth dbg room droom s (ls ++ [l])
  = match dsteps auth dbg room droom s ls with Some s' => dstep auth dbg room droom s' l | None => None end.
Proof.
  induction ls as [|x ls IH]; intros s l; cbn [app dsteps].
  - now destruct (dstep auth dbg room droom s l).
  - destruct (dstep auth dbg room droom s x); [apply IH|reflexivity].
Qed.

Lemma dreachable_step auth dbg room droom n s l s' : dreachable auth dbg room droom n s -> dstep auth dbg room droom s l = Some s' ->
  dreachable auth dbg room droom n s'.
Proof. intros (ls & H) E. exists (ls ++ [l]). now rewrite dsteps_snoc, H. Qed.

Lemma dreachable_ind auth dbg room droom n (P : ssys -> Prop) : P (sinit n) ->
  (forall s l s', dreachable auth dbg room droom n s -> P s -> dstep auth dbg room droom s l = Some s' -> P s') ->
  forall s, dreachable auth dbg room droom n s -> P s.
Proof.
  intros H0 HS s (ls & H). revert s H. induction ls as [|l ls IH] using rev_ind; intros s.
  - intros [= <-]. exact H0.
  - rewrite dsteps_snoc. destruct (dsteps auth dbg room droom (sinit n) ls) as [s1|] eqn:E; [|discriminate].
    intros H. apply (HS s1 l s); [now exists ls|now apply IH|exact H].
Qed.

(** The broker of [Stack.v] as long as it lives, and so that of [System.v]. *)
Theorem C123_same_broker auth dbg room droom n s : dreachable auth dbg room droom n s ->
  sreachable auth dbg room n s \/ aborted s = true /\ sreachable auth dbg room n {| score := score s; aborted := false |}.
Proof.
  revert s. apply (dreachable_ind auth dbg room droom n (fun s => sreachable auth dbg room n s
    \/ aborted s = true /\ sreachable auth dbg room n {| score := score s; aborted := false |})); [left; now exists []|].
  intros s l s' _ HI E. rewrite dstep_spec in E. destruct (aborted s) eqn:EA; [discriminate|].
  destruct HI as [HI|(HI & _)]; [|discriminate].
  assert (SN : forall s1, sstep auth dbg room s l = Some s1 -> sreachable auth dbg room n s1).
  { intros s1 E1. destruct HI as (ls & HI). exists (ls ++ [l]). revert HI E1. clear. generalize (sinit n). induction ls as [|y ls IH]; cbn; intros s0.
    - intros [= ->] ->. reflexivity.
    - destruct (sstep auth dbg room s0 y); [apply IH|discriminate]. }
  destruct (overflows room (score s) l) eqn:EO; cbn [orb] in E.
  - injection E as <-. left. apply SN. rewrite sstep_spec, EA, EO. reflexivity.
  - destruct (bursts droom (score s) l) eqn:EB.
    + injection E as <-. right. split; [reflexivity|]. cbn [score]. destruct s as [sc ab]. cbn in EA. now rewrite <- EA.
    + left. apply SN. rewrite sstep_spec, EA, EO. exact E.
Qed.

Lemma dscore auth dbg room droom n s : dreachable auth dbg room droom n s -> reachable auth dbg n (score s).
Proof.
  intros HD. destruct (C123_same_broker _ _ _ _ _ _ HD) as [H|(_ & H)]; apply C99_same_broker in H; exact H.
Qed.

Lemma service_stays auth dbg s s' : trans auth dbg s s' -> service_running s = false -> service_running s' = false.
Proof. intros T H. destruct T; auto. Qed.

(** Main waits for the service before it returns. *)
Lemma main_after_service auth dbg n s : reachable auth dbg n s -> main s = MJoinHandler \/ main s = MExited -> service_running s = false.
Proof.
  revert s. apply (reachable_ind auth dbg n (fun s => main s = MJoinHandler \/ main s = MExited -> service_running s = false));
    [intros [H|H]; discriminate|].
  intros s l s' _ HI E HM. destruct (step_main_only auth dbg s l s' E) as [Em|[-> | ->]].
  - rewrite Em in HM. exact (service_stays auth dbg s s' (step_trans _ _ _ _ _ E) (HI HM)).
  - unfold step in E. destruct (running s); [|discriminate]. destruct (main s); try discriminate.
    destruct (_ || _); injection E as <-; destruct HM; discriminate.
  - unfold step, step_main in E. destruct (running s); [|discriminate]. destruct (main s) eqn:EM; try discriminate.
    + destruct (Nat.eqb _ _); [|discriminate]. injection E as <-. destruct HM; discriminate.
    + destruct (service_running s) eqn:ES; [discriminate|]. injection E as <-. exact ES.
    + assert (K : service_running s = false) by auto. destruct (hdl s); try discriminate; injection E as <-; exact K.
Qed.

(** The service has ended in good order only if nobody ever named a filter of [droom] or more levels; so main does not
    return otherwise. *)
Theorem C123_good_end auth dbg room droom n s : 1 <= droom -> dreachable auth dbg room droom n s ->
  (service_running (score s) = false -> handler_alive (hdl (score s)) = false /\ ~ too_deep droom (map snd (handled (score s))))
  /\ (main (score s) = MExited -> ~ too_deep droom (map snd (handled (score s)))).
Proof.
  intros HRm HD.
  assert (K : service_running (score s) = false -> handler_alive (hdl (score s)) = false /\ ~ too_deep droom (map snd (handled (score s)))).
  { revert s HD. apply (dreachable_ind auth dbg room droom n (fun s => service_running (score s) = false ->
      handler_alive (hdl (score s)) = false /\ ~ too_deep droom (map snd (handled (score s))))); [discriminate|].
    intros s l s' HD HI E. pose proof (dscore _ _ _ _ _ _ HD) as HR. rewrite dstep_spec in E. destruct (aborted s); [discriminate|].
    destruct (overflows room (score s) l || bursts droom (score s) l) eqn:EO; [injection E as <-; exact HI|].
    destruct (step auth dbg (score s) l) as [s1|] eqn:ES; [|discriminate]. injection E as <-. cbn [score].
    intros Hs. destruct (service_running (score s)) eqn:E0.
    - assert (l = LStopService) as ->.
      { clear - Hs E0 ES. unfold step in ES. destruct (running (score s)); [|discriminate]. destruct l as [r w a|k uuid|k|now| | | | |]; try reflexivity; exfalso.
        - destruct (listeners (score s)); [discriminate|]. injection ES as <-. cbn in Hs. congruence.
        - unfold step_reader in ES. destruct (nth_error (conns (score s)) k) as [c|]; [|discriminate]. destruct (c_reader c); try discriminate.
          + destruct (stream_read_packet dbg rs) as [p| | | | |]; try discriminate; [destruct p|..]; injection ES as <-; cbn in Hs; congruence.
          + destruct (handler_alive _); [destruct (_ <? _); [|discriminate]|]; injection ES as <-; cbn in Hs; congruence.
          + destruct (stream_read_packet dbg rs) as [p| | | | |]; try discriminate; injection ES as <-; cbn in Hs; congruence.
        - unfold step_writer in ES. destruct (nth_error (conns (score s)) k) as [c|]; [|discriminate].
          destruct (c_writer c) as [ws|p ws|ws]; [|destruct (write_packet p ws)|]; try discriminate; try (injection ES as <-; cbn in Hs; congruence).
          destruct (c_queue c) as [|[from [p|]] q]; [destruct (has_sender _ k c); [discriminate|]|..]; injection ES as <-; cbn in Hs; congruence.
        - unfold step_handler in ES. destruct (hdl (score s)) as [|tx p| |]; try discriminate.
          + destruct (events (score s)); [discriminate|]. injection ES as <-; cbn in Hs; congruence.
          + destruct p as [| |R op f|to e p]; try (injection ES as <-; cbn in Hs; congruence).
            * destruct (serve _ op). injection ES as <-; cbn in Hs; congruence.
            * destruct (nth_error _ to) as [c|]; [|discriminate]. destruct (c_writer c); try (destruct (_ <? _); [|discriminate]); injection ES as <-; cbn in Hs; congruence.
        - destruct (hdl (score s)); try discriminate. destruct (ctrl_c _); [|discriminate]. injection ES as <-; cbn in Hs; congruence.
        - destruct (listeners (score s)); [discriminate|]. destruct (ctrl_c _); [|discriminate]. injection ES as <-; cbn in Hs; congruence.
        - destruct (main (score s)); try discriminate. destruct (_ || _); injection ES as <-; cbn in Hs; congruence.
        - unfold step_main in ES. destruct (main (score s)); try discriminate.
          + destruct (Nat.eqb _ _); [|discriminate]. injection ES as <-; cbn in Hs; congruence.
          + rewrite E0 in ES. discriminate.
          + destruct (hdl (score s)); try discriminate; injection ES as <-; cbn in Hs; congruence. }
      cbn [overflows orb bursts] in EO. unfold step in ES. destruct (running (score s)) eqn:ER; [|discriminate]. rewrite E0 in ES, EO. cbn [andb] in ES, EO.
      destruct (handler_alive (hdl (score s))) eqn:EH; [discriminate|]. injection ES as <-. cbn [hdl handled set_service_running].
      split; [exact EH|]. cbn [negb andb] in EO. apply Nat.ltb_ge in EO.
      pose proof (tree_invariant auth dbg n (score s) HR) as HT. unfold tree_inv in HT.
      intros HX. apply too_deep_named in HX; [|exact HRm]. destruct (hdl (score s)); try discriminate; lia.
    - destruct (HI eq_refl) as (H1 & H2). pose proof (step_trans _ _ _ _ _ ES) as T.
      destruct (dead_trans auth dbg (score s) s1 T H1) as (E1 & _).
      assert (handled s1 = handled (score s)) as ->.
      { destruct T; try reflexivity; rewrite H in H1; discriminate. }
      rewrite E1. auto. }
  split; [exact K|]. intros HM. apply K. apply (main_after_service auth dbg n); [eapply dscore; eauto|auto].
Qed.

(** What kills it: a DISCONNECT (C99), or the end of the service, after somebody named a filter of too many levels. *)
Theorem C123_aborts auth dbg room droom n s : 1 <= room -> 1 <= droom -> dreachable auth dbg room droom n s -> aborted s = true ->
  deadly room (map snd (handled (score s)))
  \/ handler_alive (hdl (score s)) = false /\ too_deep droom (map snd (handled (score s))).
Proof.
  intros HR1 HR2. revert s. apply (dreachable_ind auth dbg room droom n (fun s => aborted s = true ->
    deadly room (map snd (handled (score s)))
    \/ handler_alive (hdl (score s)) = false /\ too_deep droom (map snd (handled (score s))))); [discriminate|].
  intros s l s' HD _ E HA. rewrite dstep_spec in E. destruct (aborted s) eqn:EA; [discriminate|].
  destruct (overflows room (score s) l) eqn:EO; cbn [orb] in E.
  - left. injection E as <-. apply (died auth dbg room n); [exact HR1| |reflexivity].
    destruct (C123_same_broker _ _ _ _ _ _ HD) as [(ls & HS)|(K & _)]; [|congruence]. exists (ls ++ [l]).
    assert (ES : sstep auth dbg room s l = Some {| score := score s; aborted := true |}) by (rewrite sstep_spec, EA, EO; reflexivity).
    revert HS ES. clear. generalize (sinit n). induction ls as [|y ls IH]; cbn; intros s0.
    + intros [= ->] ->. reflexivity.
    + destruct (sstep auth dbg room s0 y); [apply IH|discriminate].
  - destruct (bursts droom (score s) l) eqn:EB.
    + injection E as <-. right. cbn [score]. unfold bursts in EB. destruct l; try discriminate.
      apply andb_true_iff in EB. destruct EB as (EB & E2). apply andb_true_iff in EB. destruct EB as (EB & _).
      apply andb_true_iff in EB. destruct EB as (_ & E1). apply negb_true_iff in E1. split; [exact E1|].
      apply too_deep_named; [exact HR2|]. apply Nat.ltb_lt in E2.
      pose proof (tree_invariant auth dbg n (score s) (dscore _ _ _ _ _ _ HD)) as HT. unfold tree_inv in HT.
      destruct (hdl (score s)); try discriminate; lia.
    + destruct (step auth dbg (score s) l); [|discriminate]. injection E as <-. discriminate.
Qed.

(** No packet names a filter of more than 65536 levels, so that room for 65537 nested calls is always enough. *)
Theorem C123_never auth dbg room droom n s : (65536 < N.of_nat room)%N -> (65536 < N.of_nat droom)%N ->
  dreachable auth dbg room droom n s -> aborted s = false.
Proof.
  intros HR1 HR2 HD. destruct (aborted s) eqn:EA; [exfalso|reflexivity].
  assert (K : forall r h, (65536 < N.of_nat r)%N -> incl h (handled (score s)) -> too_deep r (map snd h) -> False).
  { intros r h Hr Hi (e & f & He & Hf & Hl).
    apply in_map_iff in He. destruct He as ((t & e') & <- & Hin). cbn [snd] in Hf.
    destruct e' as [c a j|c p j|c|c]; try (exfalso; exact Hf).
    pose proof (handled_ok auth dbg n (score s) t c p j (dscore _ _ _ _ _ _ HD) (Hi _ Hin)) as K. destruct p; try (exfalso; exact Hf); cbn [named] in Hf.
    - apply in_map_iff in Hf. destruct Hf as (x & E & Hx). assert (N.of_nat (level_count f) <= 65536)%N by (eapply ok_filter; [exact K|cbn; eauto]). lia.
    - assert (N.of_nat (level_count f) <= 65536)%N by (eapply ok_filter; [exact K|exact Hf]). lia. }
  destruct (C123_aborts auth dbg room droom n s ltac:(lia) ltac:(lia) HD EA) as [(h & e & rest & E & _ & HT)|(_ & HT)].
  - apply map_eq_app in E. destruct E as (h' & r' & E & <- & _). apply (K room h' HR1); [|exact HT].
    rewrite E. apply incl_appl, incl_refl.
  - exact (K droom _ HR2 (incl_refl _) HT).
Qed.

(** *** Every schedule *)

Inductive dinevitably auth dbg room droom (P : ssys -> Prop) (s : ssys) : Prop :=
| DInevitably : ((forall l, internal l -> dstep auth dbg room droom s l = None) -> P s) ->
    (forall l s', internal l -> dstep auth dbg room droom s l = Some s' -> dinevitably auth dbg room droom P s') ->
    dinevitably auth dbg room droom P s.

Lemma still_running auth dbg n s l s' : reachable auth dbg n s -> internal l -> step auth dbg s l = Some s' ->
  service_running s' = true -> running s' = true.
Proof.
  intros HR Hl E HS. assert (Hr : running s = true) by (unfold step in E; destruct (running s); [reflexivity|discriminate]).
  destruct (step_main_only auth dbg s l s' E) as [Em|[-> | ->]]; [unfold running; now rewrite Em|destruct Hl|].
  pose proof (main_after_service auth dbg n s HR) as HM.
  unfold step, step_main in E. rewrite Hr in E. destruct (main s) eqn:EM; try discriminate.
  - destruct (Nat.eqb _ _); [|discriminate]. injection E as <-. reflexivity.
  - destruct (service_running s) eqn:ES; [discriminate|]. injection E as <-. reflexivity.
  - exfalso. specialize (HM (or_introl eq_refl)). destruct (hdl s); try discriminate; injection E as <-; cbn in HS; congruence.
Qed.

Lemma too_deep_more room es m : too_deep room es -> too_deep room (es ++ m).
Proof. intros (e & f & He & H). exists e, f. split; [apply in_or_app; now left|exact H]. Qed.

(** After somebody named a filter of [droom] or more levels, a handler that has panicked, or ctrl-c with peers that
    read, ends in the abort of the process on every schedule. *)
Theorem C123_every_run auth dbg room droom n s : 1 <= droom -> dreachable auth dbg room droom n s -> running (score s) = true ->
  too_deep droom (map snd (handled (score s))) ->
  handler_alive (hdl (score s)) = false
  \/ ctrl_c (score s) = true /\ (forall k c, nth_error (conns (score s)) k = Some c -> ~ In WBlock (wacts (c_wsock c))) ->
  dinevitably auth dbg room droom (fun s' => aborted s' = true) s.
Proof.
  intros HRm HD. pose proof (dies_out auth dbg n (score s) (dscore _ _ _ _ _ _ HD)) as HA.
  remember (score s) as x eqn:Ex. revert s Ex HD. induction HA as [x _ IH]. intros s -> HD Hr HT HC.
  pose proof (dscore _ _ _ _ _ _ HD) as HR.
  assert (HS : service_running (score s) = true).
  { destruct (service_running (score s)) eqn:E; [reflexivity|]. destruct (C123_good_end _ _ _ _ _ _ HRm HD) as (K & _).
    destruct (K E) as (_ & K1). contradiction. }
  constructor.
  - intros HN. destruct (aborted s) eqn:EA; [reflexivity|exfalso].
    assert (HB : at_rest auth dbg (score s)).
    { intros l Hl. specialize (HN l Hl). rewrite dstep_spec, EA in HN. destruct (_ || _); [discriminate|].
      destruct (step auth dbg (score s) l); [discriminate|reflexivity]. }
    destruct (handler_alive (hdl (score s))) eqn:EH.
    + destruct HC as [HC|(HC & HW)]; [discriminate|].
      destruct (rest_after_signal auth dbg n (score s) HR HB HC) as [H|[H|(_ & k & c & Hk & Hc)]];
        [unfold running in Hr; rewrite H in Hr; discriminate..|]. exact (HW k c Hk Hc).
    + specialize (HB LStopService I). unfold step in HB. rewrite Hr, HS, EH in HB. discriminate.
  - intros l s' Hl E. pose proof (dreachable_step _ _ _ _ _ _ _ _ HD E) as HD'.
    rewrite dstep_spec in E. destruct (aborted s) eqn:EA; [discriminate|].
    destruct (overflows room (score s) l || bursts droom (score s) l).
    + injection E as <-. constructor; [reflexivity|]. intros l2 s2 _ H2. rewrite dstep_spec in H2. discriminate.
    + destruct (step auth dbg (score s) l) as [s1|] eqn:ES; [|discriminate]. injection E as <-.
      destruct (handled_more _ _ _ _ _ ES) as (m & Em).
      assert (HT' : too_deep droom (map snd (handled s1))) by (rewrite Em, map_app; now apply too_deep_more).
      apply (IH s1); auto.
      * exists l. split; [destruct l; try exact I; destruct Hl|exact ES].
      * apply (still_running auth dbg n (score s) l s1 HR Hl ES).
        destruct (service_running s1) eqn:E1; [reflexivity|]. destruct (C123_good_end _ _ _ _ _ _ HRm HD') as (K & _).
        destruct (K E1) as (_ & K1). contradiction.
      * destruct HC as [HC|(HC & HW)].
        -- left. destruct (dead_trans auth dbg (score s) s1 (step_trans _ _ _ _ _ ES) HC) as (-> & _). exact HC.
        -- right. split; [eapply signal_stays; eauto|]. eapply unblocked_stays; eauto.
Qed.

(** Somebody unsubscribes from a filter of 100 levels; then ctrl-c, with room for 100 and for 101 nested drops. *)
Definition ddrive auth dbg room droom (s : ssys) (ls : list label) : ssys :=
  fold_left (fun s l => match dstep auth dbg room droom s l with Some s' => s' | None => s end) ls s.

Lemma ddrive_reachable auth dbg room droom n ls : dreachable auth dbg room droom n (ddrive auth dbg room droom (sinit n) ls).
Proof.
  assert (G : forall ls s, dreachable auth dbg room droom n s -> dreachable auth dbg room droom n (ddrive auth dbg room droom s ls)).
  { clear ls. induction ls as [|l ls IH]; intros s HS; [exact HS|]. cbn [ddrive fold_left]. apply IH.
    destruct (dstep auth dbg room droom s l) as [s'|] eqn:E; [|exact HS]. eapply dreachable_step; eauto. }
  apply G. now exists [].
Qed.

Definition ex_deep_end : list label :=
  [LAccept (ex_peer [ex_client "z" None None; Unsubscribe 1 [repeat slash 99]] PeerOpen) (ex_socket []) 1]
  ++ ex_rounds 30 [0] ++ [LCtrlC].
Definition ex_stop_all : list label := [LStopListener; LStopHandler; LMain; LStopService; LMain; LMain].

Example C123_case :
  (let s := ddrive ex_deny true 200 100 (sinit 1) ex_deep_end in
   dreachable ex_deny true 200 100 1 s /\ running (score s) = true /\ ctrl_c (score s) = true /\ aborted s = false
   /\ too_deep 100 (map snd (handled (score s)))
   /\ (forall k c, nth_error (conns (score s)) k = Some c -> ~ In WBlock (wacts (c_wsock c)))
   /\ aborted (ddrive ex_deny true 200 100 s ex_stop_all) = true)
  /\ (let s := ddrive ex_deny true 200 101 (sinit 1) (ex_deep_end ++ ex_stop_all) in
      dreachable ex_deny true 200 101 1 s /\ aborted s = false /\ main (score s) = MExited).
Proof.
  cbv zeta. split; (split; [apply ddrive_reachable|]).
  - split; [vm_compute; reflexivity|]. split; [vm_compute; reflexivity|]. split; [vm_compute; reflexivity|]. split; [|split].
    + set (s := ddrive ex_deny true 200 100 (sinit 1) ex_deep_end).
      assert (E : exists e1, map snd (handled (score s)) = [e1; ClientPacket (str "z") (Unsubscribe 1 [repeat slash 99]) 0]).
      { eexists. vm_compute. reflexivity. }
      destruct E as (e1 & ->). exists (ClientPacket (str "z") (Unsubscribe 1 [repeat slash 99]) 0), (repeat slash 99).
      split; [right; now left|]. split; [now left|]. apply Nat.leb_le. vm_compute. reflexivity.
    + assert (E : forallb (fun c => match wacts (c_wsock c) with [] => true | _ => false end)
                    (conns (score (ddrive ex_deny true 200 100 (sinit 1) ex_deep_end))) = true) by (vm_compute; reflexivity).
      rewrite forallb_forall in E. intros k c Hk. apply nth_error_In, E in Hk. destruct (wacts (c_wsock c)); [intros []|discriminate].
    + vm_compute. reflexivity.
  - split; vm_compute; reflexivity.
Qed.
