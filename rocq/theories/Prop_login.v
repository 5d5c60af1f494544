(** Property C97: from the password file to the CONNACK. *)
From Verif Require Import Base Base_facts Packets Utf8 Spec_utf8 Utf8_facts HashMap Auth Passwd Prop_auth Prop_passwd Subscriptions Messaging Handler Decoder ReadStream ReadStream_facts
  Plain_facts Conn Conn_facts Encoder Encoder_facts WriteStream WriteStream_facts Spec_wire Spec_subs Spec_broker Spec_ref
  Subscriptions_facts Handler_facts System System_facts
  System_hist System_conn System_queue System_first System_progress System_exit System_rest
  Prop_subs Prop_stream Prop_broker Prop_system Prop_rest Prop_mqtt Prop_ref Startup Prop_start.
Open Scope nat_scope.

(** The CONNECT has a user name and a password, and the last line of the file that names the user does not
    verify the password (or there is none). *)
Definition kept_out {H E : Type} (parse : bytes -> H + E) (verify : bytes -> H -> bool) (ls : list bytes) (c : ConnectPacket) : Prop :=
  exists u p, user_name c = Some u /\ password c = Some p
    /\ ~ exists hash h, last_naming ls u hash /\ parse hash = inl h /\ verify p h = true.

Lemma file_accepts {H E : Type} (parse : bytes -> H + E) (verify : bytes -> H -> bool) bare s ls db c :
  is_utf8 s -> text_lines bare s ls -> FileIdentityManager_new bare (Some s) = inl db ->
  (accepts (file_auth parse verify db) c <-> Prop_auth.let_in parse verify ls c)
  /\ (rejected (file_auth parse verify db) c <-> kept_out parse verify ls c).
Proof.
  intros HU HT HM. pose proof (fun u p => C40_file parse verify bare s ls db u p HU HT HM) as HC.
  split.
  - unfold accepts, Prop_auth.let_in. destruct (user_name c) as [u|]; [destruct (password c) as [p|]|].
    + unfold file_auth. split.
      * intros K. right. destruct (authenticate parse verify db u p) eqn:EA; [discriminate|].
        destruct (proj1 (HC u p) EA) as (hash & h & K'). exists u, p, hash, h. auto.
      * intros [Q|(u' & p' & hash & h & [= <-] & [= <-] & K)]; [discriminate|].
        assert (X : authenticate parse verify db u p = None) by (apply HC; eauto). now rewrite X.
    + split; [intros []|]. intros [Q|(u' & p' & hash & h & Q1 & Q2 & K)]; discriminate.
    + split; auto.
  - unfold rejected, kept_out. split; intros (u & p & H1 & H2 & H3); exists u, p; (split; [exact H1|]); (split; [exact H2|]).
    + intros K. apply HC in K. unfold file_auth in H3. rewrite K in H3. discriminate.
    + unfold file_auth. destruct (authenticate parse verify db u p) eqn:EA; [reflexivity|]. exfalso. apply H3. now apply HC.
Qed.

(** What a client gets from a broker started with this password file. *)
Theorem C97_login {H E : Type} (parse : bytes -> H + E) (verify : bytes -> H -> bool) bare w addresses db st s ls dbg b k c p qs :
  prepare bare w = Some (addresses, db) -> config w = Some st -> file w (Startup.password_file st) = Some s -> text_lines bare s ls ->
  booted (file_auth parse verify db) dbg addresses b -> nth_error (conns (core b)) k = Some c -> client_sends dbg c = Connect p :: qs ->
  (Prop_auth.let_in parse verify ls p ->
     broker_sent c = [] \/ exists rest, broker_sent c = ConnAck {| session_present := false; return_code := Accepted |} :: rest)
  /\ (kept_out parse verify ls p ->
     broker_sent c = [] \/ broker_sent c = [ConnAck {| session_present := false; return_code := NotAuthorized |}])
  /\ (user_name p <> None -> password p = None -> broker_sent c = []).
Proof.
  intros HP HCf HF HT HB Hk HC.
  assert (HM : is_utf8 s /\ FileIdentityManager_new bare (Some s) = inl db).
  { unfold prepare in HP. destruct (slice_ok 10 (commit_hash w)); [|discriminate]. rewrite HCf, HF in HP.
    destruct (FileIdentityManager_new bare (Some s)) as [m|] eqn:EM; [|discriminate]. injection HP as _ <-. split; [|reflexivity].
    cbn in EM. destruct (utf8_ok s) eqn:EU; [|discriminate]. now apply utf8_ok_iff. }
  destruct HM as (HU & HM). destruct (file_accepts parse verify bare s ls db p HU HT HM) as (FA & FR).
  assert (HR : exists s', reachable (file_auth parse verify db) dbg (length addresses) s' /\ nth_error (conns s') k = Some c).
  { destruct (todo b) as [rest|] eqn:ET.
    - destruct (C96_starting _ _ _ _ _ HB ET) as (K & _). eexists. split; [exact K|exact Hk].
    - exists (core b). split; [exact (C96_started _ _ _ _ HB ET)|exact Hk]. }
  destruct HR as (s' & HR & Hk').
  assert (FIRST : broker_sent c = [] \/ exists a rest, broker_sent c = ConnAck a :: rest /\ session_present a = false
     /\ (return_code a = Accepted <-> accepts (file_auth parse verify db) p) /\ (return_code a = NotAuthorized <-> ~ accepts (file_auth parse verify db) p)).
  { destruct (C48_connack_first_and_once _ _ _ _ _ _ HR Hk') as [K|(a & rest & K & _)]; [now left|right].
    destruct (C48_connack_code _ _ _ _ _ _ _ _ HR Hk' K) as (p' & ps & E1 & E2 & E3). rewrite HC in E1. injection E1 as <- _. exists a, rest. tauto. }
  split; [|split].
  - intros HL. apply FA in HL. destruct FIRST as [K|(a & rest & K & K1 & K2 & _)]; [now left|right]. exists rest. rewrite K. f_equal. f_equal.
    destruct a as [sp rc]. cbn in *. rewrite K1. f_equal. now apply K2.
  - intros HL. apply FR in HL. apply (C43_refused_gets_nothing_partial _ _ _ _ _ _ _ _ HR Hk' HC HL).
  - intros HN HPw. destruct FIRST as [K|(a & rest & K & _)]; [exact K|exfalso].
    destruct (C90_answers_in_order _ _ _ _ _ _ _ _ HR Hk' HC) as (first & answers & more & Hf & Ha & Hb).
    assert (EF : first = []).
    { destruct Hf as [(K1 & _)|[(K1 & _)|(_ & K1)]]; [|destruct K1 as (u & pw & _ & K1 & _); congruence|exact K1].
      unfold accepts in K1. rewrite HPw in K1. destruct (user_name p); [destruct K1|congruence]. }
    assert (NA : ~ In (ServerPacket (ConnAck a)) (concat answers)).
    { clear - Ha. induction Ha as [|q l qs ls H1 _ IH]; [intros []|]. cbn. rewrite in_app_iff. intros [K|K]; [|now apply IH].
      destruct q; cbn in H1; try (subst l; destruct K as [K|[]]; discriminate K); try (subst l; destruct K).
      destruct H1 as [-> | ->]; destruct K as [K|[]]; discriminate K. }
    apply NA. subst first. cbn [app] in Hb. rewrite K in Hb. cbn [filter not_publish app] in Hb.
    destruct (concat answers) as [|[q|] l]; try discriminate Hb. injection Hb as -> _. now left.
Qed.

(** With nothing left to do and the handler alive, the answer is there. *)
Theorem C97_answered {H E : Type} (parse : bytes -> H + E) (verify : bytes -> H -> bool) bare w addresses db st s ls dbg b k c p qs :
  prepare bare w = Some (addresses, db) -> config w = Some st -> file w (Startup.password_file st) = Some s -> text_lines bare s ls ->
  booted (file_auth parse verify db) dbg addresses b -> nth_error (conns (core b)) k = Some c -> client_sends dbg c = Connect p :: qs ->
  todo b = None -> at_rest (file_auth parse verify db) dbg (core b) -> handler_alive (hdl (core b)) = true ->
  (forall k c, nth_error (conns (core b)) k = Some c -> ~ blocks (c_wsock c)) -> broker_sent c <> [].
Proof.
  intros HP HCf HF HT HB Hk HC ET HS HA HBl. pose proof (C96_started _ _ _ _ HB ET) as HR.
  assert (Q : quiet (file_auth parse verify db) dbg (length addresses) (core b)) by (repeat split; assumption).
  destruct (C90_all_answered _ _ _ _ _ _ _ _ Q Hk HC) as (first & answers & Hf & _ & Hb).
  intros E0. rewrite E0 in Hb. cbn [filter] in Hb.
  destruct Hf as [(_ & ->)|[(_ & ->)|((u & Hu & Hp) & _)]]; try discriminate Hb.
  destruct (C61_nothing_left_undone _ _ _ _ HR HS HBl HA) as ((l & Hall) & Hup).
  destruct (Hup k c Hk) as ((cid & _ & HI) & _). rewrite HC in HI. cbn [issued] in HI.
  pose proof (proj1 (finished_stops (file_auth parse verify db) (handled (core b)) MessagingService_new)) as HFi. rewrite Hall in HFi. specialize (HFi eq_refl).
  assert (Hin : In (Connected (with_id p cid) (c_addr c) k) (map snd (handled (core b)))).
  { assert (K : In (Connected (with_id p cid) (c_addr c) k) (events_of k (map snd (handled (core b))))) by (rewrite HI; now left).
    apply filter_In in K. apply K. }
  assert (K : existsb (stops (file_auth parse verify db)) (map snd (handled (core b))) = true).
  { apply existsb_exists. eexists. split; [exact Hin|]. unfold stops, with_id. cbn. rewrite Hu, Hp. reflexivity. }
  rewrite K in HFi. discriminate.
Qed.

(** ** The tool first *)

Lemma seen_last bare s ls m (db : bytes -> bytes -> Prop) : is_utf8 s -> text_lines bare s ls -> FileIdentityManager_new bare (Some s) = inl m ->
  (forall u h, hm_get u m = Some h <-> db u h) -> forall u h, last_naming ls u h <-> db u h.
Proof.
  intros HU HT HM HG u h. destruct (C41_every_content bare s HU) as (ls' & HT' & HC).
  assert (ls' = ls) as -> by (rewrite <- (lines_spec _ _ _ HT), <- (lines_spec _ _ _ HT'); reflexivity).
  destruct HC as [HC|HC]; [|rewrite (C41_rejects bare s ls HU HT HC) in HM; discriminate].
  destruct (C41_loads bare s ls HU HT HC) as (m' & E & HG'). rewrite HM in E. injection E as <-. rewrite <- HG, <- HG'. reflexivity.
Qed.

(** Who is let in when the password file is the one the tool left after setting a password. *)
Theorem C97_after_set {H E : Type} (parse : bytes -> H + E) (verify : bytes -> H -> bool) ci bare es user hash ls p : folding ci ->
  Forall tool_entry es -> good_user user -> good_hash hash -> unambiguous ci user es ->
  text_lines bare (run_passwd ci user (SetPassword hash) (file_text es)) ls ->
  Prop_auth.let_in parse verify ls p <->
  (user_name p = None
   \/ exists u pw h' h, user_name p = Some u /\ password p = Some pw /\ parse h' = inl h /\ verify pw h = true
        /\ (u = user /\ h' = hash \/ u <> user /\ last_entry es u h')).
Proof.
  intros HCI HF HU HH HA HT. destruct (C45_set_partial ci bare es user hash HCI HF HU HH HA) as (m & EM & HG).
  assert (HUT : is_utf8 (run_passwd ci user (SetPassword hash) (file_text es))).
  { cbn in EM. destruct (utf8_ok _) eqn:EU; [|discriminate]. now apply utf8_ok_iff. }
  pose proof (seen_last _ _ _ _ _ HUT HT EM HG) as K. unfold Prop_auth.let_in. split.
  - intros [L|(u & pw & h' & h & L1 & L2 & L3 & L4 & L5)]; [now left|right]. exists u, pw, h', h. repeat split; auto. now apply K.
  - intros [L|(u & pw & h' & h & L1 & L2 & L3 & L4 & L5)]; [now left|right]. exists u, pw, h', h. repeat split; auto. now apply K.
Qed.

(** And after deleting a user. *)
Theorem C97_after_delete {H E : Type} (parse : bytes -> H + E) (verify : bytes -> H -> bool) ci bare es user ls p : folding ci ->
  Forall tool_entry es -> good_user user -> unambiguous ci user es ->
  text_lines bare (run_passwd ci user DeleteUser (file_text es)) ls ->
  Prop_auth.let_in parse verify ls p <->
  (user_name p = None
   \/ exists u pw h' h, user_name p = Some u /\ password p = Some pw /\ parse h' = inl h /\ verify pw h = true
        /\ u <> user /\ last_entry es u h').
Proof.
  intros HCI HF HU HA HT. destruct (C46_delete_partial ci bare es user HCI HF HU HA) as ((m & EM & HG) & _).
  assert (HUT : is_utf8 (run_passwd ci user DeleteUser (file_text es))).
  { cbn in EM. destruct (utf8_ok _) eqn:EU; [|discriminate]. now apply utf8_ok_iff. }
  pose proof (seen_last _ _ _ _ _ HUT HT EM HG) as K. unfold Prop_auth.let_in. split.
  - intros [L|(u & pw & h' & h & L1 & L2 & L3 & L4 & L5)]; [now left|right]. apply K in L3. destruct L3. exists u, pw, h', h. repeat split; auto.
  - intros [L|(u & pw & h' & h & L1 & L2 & L3 & L4 & L5 & L6)]; [now left|right]. exists u, pw, h', h. repeat split; auto. now apply K.
Qed.

(** The tool gives bob a new password, the broker is started with the file, and bob tries both. *)
Example C97_case :
  let parse (h : bytes) : bytes + unit := inl h in
  let verify (p h : bytes) := bytes_eqb p h in
  let text := run_passwd ascii_ci (str "bob") (SetPassword (str "$n$0")) (file_text ex_entries) in
  let w := {| commit_hash := str "0123456789abcdef"; config := Some {| listeners_tcp := [str "0.0.0.0:1883"]; Startup.password_file := str "p" |};
              file := fun _ => Some text |} in
  let client pw := LAccept (ex_peer [ex_client "s" (Some (str "bob")) (Some (str pw))] PeerOpen) (ex_socket []) 1%N in
  exists db b, prepare true w = Some ([str "0.0.0.0:1883"], db)
    /\ booted (file_auth parse verify db) true [str "0.0.0.0:1883"] b /\ todo b = None
    /\ map broker_sent (conns (core b)) = [ [ConnAck {| session_present := false; return_code := NotAuthorized |}];
                                            [ConnAck {| session_present := false; return_code := Accepted |}] ].
Proof.
  intros parse verify text w client.
  assert (E : exists db, prepare true w = Some ([str "0.0.0.0:1883"], db)) by (eexists; vm_compute; reflexivity).
  destruct E as (db & E). exists db.
  assert (ED : db = match prepare true w with Some (_, m) => m | None => db end) by (rewrite E; reflexivity).
  assert (B : exists b, boot_steps (file_auth parse verify db) true (boot_init [str "0.0.0.0:1883"])
    (BBind true :: BReady :: map BStep (client "$a$2"%string :: [LReader 0 []; LReader 0 []] ++ repeat (LHandler 5) 4 ++ [LWriter 0; LWriter 0]
       ++ client "$n$0"%string :: [LReader 1 []; LReader 1 []] ++ repeat (LHandler 5) 5 ++ [LWriter 1; LWriter 1])) = Some b
    /\ todo b = None /\ map broker_sent (conns (core b)) = [ [ConnAck {| session_present := false; return_code := NotAuthorized |}];
                                            [ConnAck {| session_present := false; return_code := Accepted |}] ]).
  { clear E. rewrite ED. clear ED. eexists. split; [vm_compute; reflexivity|]. split; reflexivity. }
  destruct B as (b & B1 & B2 & B3). exists b. split; [exact E|]. split; [eexists; exact B1|]. split; assumption.
Qed.
