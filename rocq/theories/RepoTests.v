(** The project's own tests (tests/read_packets.rs, tests/write_packets.rs and the two of
    src/broker/session/session_repository.rs) replayed on the model; those of subscriptions_repository.rs are in
    RepoTests_subs.v.
    These are tests of the model, not properties. *)
From Verif Require Import Base Utf8 Packets Decoder ReadStream Plain Encoder WriteStream HashMap Messaging.
Open Scope N_scope.

Definition hex (l : list N) : bytes := map n2b l.

Definition fresh (bs : bytes) : rstream :=
  rstream_new 4096 {| arriving := bs; ending := PeerOpen; chunks := [3; 1; 7]; grants := []; reuse := true |}.

Definition result (r : rout ControlPacket) : option ControlPacket :=
  match r with ROk p _ => Some p | _ => None end.

Definition reads (l : list N) (p : ControlPacket) : Prop :=
  result (stream_read_packet true (fresh (hex l))) = Some p
  /\ decode true (hex l) = POk p [].

Example read_connect_min : reads
  [0x10; 0x23; 0x00; 0x04; 0x4d; 0x51; 0x54; 0x54; 0x04; 0x02; 0x00; 0x3c; 0x00; 0x17; 0x6d;
   0x6f; 0x73; 0x71; 0x2d; 0x6e; 0x73; 0x36; 0x73; 0x7a; 0x33; 0x6b; 0x33; 0x6c; 0x62; 0x66;
   0x4d; 0x31; 0x49; 0x66; 0x62; 0x63; 0x52]
  (Connect (ConnectPacket_new Mqtt3 (str "mosq-ns6sz3k3lbfM1IfbcR") 60 true None None None)).
Proof. split; vm_compute; reflexivity. Qed.

Example read_connect_user_name : reads
  [0x10; 0x28; 0x00; 0x04; 0x4d; 0x51; 0x54; 0x54; 0x04; 0x82; 0x00; 0x3c; 0x00; 0x17; 0x6d;
   0x6f; 0x73; 0x71; 0x2d; 0x6e; 0x79; 0x6f; 0x31; 0x38; 0x6c; 0x39; 0x4c; 0x59; 0x52; 0x76;
   0x56; 0x61; 0x65; 0x73; 0x45; 0x76; 0x6b; 0x00; 0x03; 0x61; 0x73; 0x64]
  (Connect (ConnectPacket_new Mqtt3 (str "mosq-nyo18l9LYRvVaesEvk") 60 true None (Some (str "asd")) None)).
Proof. split; vm_compute; reflexivity. Qed.

(* it_read_connect_password *)
Example read_connect : reads
  [0x10; 0x37; 0x00; 0x04; 0x4d; 0x51; 0x54; 0x54; 0x04; 0xc2; 0x00; 0x3c; 0x00; 0x17; 0x6d;
   0x6f; 0x73; 0x71; 0x2d; 0x76; 0x6b; 0x44; 0x62; 0x4f; 0x6d; 0x71; 0x74; 0x37; 0x31; 0x35;
   0x6a; 0x43; 0x30; 0x56; 0x56; 0x30; 0x72; 0x00; 0x08; 0x75; 0x73; 0x65; 0x72; 0x6e; 0x61;
   0x6d; 0x65; 0x00; 0x08; 0x70; 0x61; 0x73; 0x73; 0x77; 0x6f; 0x72; 0x64]
  (Connect (ConnectPacket_new Mqtt3 (str "mosq-vkDbOmqt715jC0VV0r") 60 true None
              (Some (str "username")) (Some (str "password")))).
Proof. split; vm_compute; reflexivity. Qed.

Example read_disconnect : reads [0xe0; 0x00] Disconnect.
Proof. split; vm_compute; reflexivity. Qed.

Example read_publish0 : reads
  [0x30; 0x10; 0x00; 0x05; 0x61; 0x2f; 0x62; 0x2f; 0x63; 0x74; 0x65; 0x73; 0x74; 0x20; 0x62;
   0x6f; 0x64; 0x79]
  (Publish (PublishPacket_new (str "a/b/c") (str "test body") AtMostOnce false None false)).
Proof. split; vm_compute; reflexivity. Qed.

Example read_publish2 : reads
  [0x3d; 0x12; 0x00; 0x05; 0x61; 0x2f; 0x62; 0x2f; 0x63; 0x12; 0x23; 0x74; 0x65; 0x73; 0x74;
   0x20; 0x62; 0x6f; 0x64; 0x79]
  (Publish (PublishPacket_new (str "a/b/c") (str "test body") ExactlyOnce true (Some 0x1223) true)).
Proof. split; vm_compute; reflexivity. Qed.

Example read_acks :
  reads [0x40; 0x02; 0x00; 0x02] (PubAck 2) /\ reads [0x50; 0x02; 0x12; 0x34] (PubRec 0x1234)
  /\ reads [0x62; 0x02; 0x00; 0x67] (PubRel 0x67) /\ reads [0x70; 0x02; 0xcd; 0x12] (PubComp 0xcd12)
  /\ reads [0xc0; 0x00] PingReq.
Proof. repeat split; vm_compute; reflexivity. Qed.

Example read_subscribe_one : reads
  [0x82; 0x0a; 0x00; 0x01; 0x00; 0x05; 0x61; 0x2f; 0x62; 0x2f; 0x63; 0x00]
  (Subscribe 1 [{| sub_topic := str "a/b/c"; sub_qos := AtMostOnce |}]).
Proof. split; vm_compute; reflexivity. Qed.

Example read_unsubscribe_one : reads
  [0xa2; 0x09; 0x00; 0x02; 0x00; 0x05; 0x61; 0x2f; 0x62; 0x2f; 0x63] (Unsubscribe 2 [str "a/b/c"]).
Proof. split; vm_compute; reflexivity. Qed.

Example read_subscribe : reads
  [0x82; 0x1a; 0x00; 0x01; 0x00; 0x05; 0x61; 0x2f; 0x62; 0x2f; 0x63; 0x00; 0x00; 0x05; 0x7a;
   0x2f; 0x78; 0x2f; 0x63; 0x01; 0x00; 0x05; 0x71; 0x2f; 0x77; 0x2f; 0x65; 0x02]
  (Subscribe 1 [{| sub_topic := str "a/b/c"; sub_qos := AtMostOnce |};
                {| sub_topic := str "z/x/c"; sub_qos := AtLeastOnce |};
                {| sub_topic := str "q/w/e"; sub_qos := ExactlyOnce |}]).
Proof. split; vm_compute; reflexivity. Qed.

Example read_unsubscribe : reads
  [0xa2; 0x17; 0x00; 0x02; 0x00; 0x05; 0x61; 0x2f; 0x62; 0x2f; 0x63; 0x00; 0x05; 0x7a; 0x2f;
   0x78; 0x2f; 0x63; 0x00; 0x05; 0x71; 0x2f; 0x77; 0x2f; 0x65]
  (Unsubscribe 2 [str "a/b/c"; str "z/x/c"; str "q/w/e"]).
Proof. split; vm_compute; reflexivity. Qed.

Definition written (r : wout) : option (list N) :=
  match r with WOk st => Some (map b2n (accepted (wsk st))) | _ => None end.

Definition writes (p : ControlPacket) (l : list N) : Prop :=
  written (write_packet p (wstream_new 4096 {| accepted := []; wacts := []; wgrants := []; wreuse := true |}))
  = Some l.

Example write_all :
  writes (ConnAck {| session_present := false; return_code := Accepted |}) [0x20; 0x02; 0x00; 0x00]
  /\ writes (Publish (PublishPacket_new (str "a/b/c") (str "test body") AtMostOnce false None false))
       [0x30; 0x10; 0x00; 0x05; 0x61; 0x2f; 0x62; 0x2f; 0x63; 0x74; 0x65; 0x73; 0x74; 0x20; 0x62;
        0x6f; 0x64; 0x79]
  /\ writes (Publish (PublishPacket_new (str "a/b/c") (str "test body") ExactlyOnce true (Some 0x1223) true))
       [0x3d; 0x12; 0x00; 0x05; 0x61; 0x2f; 0x62; 0x2f; 0x63; 0x12; 0x23; 0x74; 0x65; 0x73; 0x74;
        0x20; 0x62; 0x6f; 0x64; 0x79]
  /\ writes (PubAck 2) [0x40; 0x02; 0x00; 0x02]
  /\ writes (PubRec 0x1234) [0x50; 0x02; 0x12; 0x34]
  /\ writes (PubRel 0x67) [0x62; 0x02; 0x00; 0x67]
  /\ writes (PubComp 0xcd12) [0x70; 0x02; 0xcd; 0x12]
  /\ writes (SubAck 0xa3c9 [Failure; SuccessQoS0; SuccessQoS1; SuccessQoS2])
       [0x90; 0x06; 0xa3; 0xc9; 0x80; 0x00; 0x01; 0x02]
  /\ writes (UnsubAck 6) [0xb0; 0x02; 0x00; 0x06]
  /\ writes PingResp [0xd0; 0x00].
Proof. repeat split; vm_compute; reflexivity. Qed.

(* test_in_memory_exists_true, test_in_memory_exists_false *)
Example in_memory_exists :
  let s := Session_new (str "client-1") 0 false 0%nat 0 0 in
  session_exists {| sessions := [(str "client-1", s)]; subscriptions := Subscriptions.SubscriptionNode_new |} (str "client-1") = true
  /\ session_exists MessagingService_new (str "client-1") = false.
Proof. split; reflexivity. Qed.
