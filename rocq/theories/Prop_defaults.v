(** Property C132: the packets [ControlPacket::new] makes. *)
From Verif Require Import Base Base_facts Packets Decoder Plain Encoder Spec_wire Defaults.
Open Scope N_scope.

(** All that can be empty is, no flag is set and every number is zero. *)
Definition blank (p : ControlPacket) : Prop :=
  match p with
  | Connect c => client_id c = [] /\ keep_alive_seconds c = 0 /\ clean_session c = false /\ will_message c = None
      /\ user_name c = None /\ password c = None
  | ConnAck c => session_present c = false /\ return_code c = Accepted
  | Publish p => pub_packet_id p = None /\ dup p = false /\ topic (message p) = [] /\ payload (message p) = []
      /\ qos (message p) = AtMostOnce /\ retain (message p) = false
  | PubAck i | PubRec i | PubRel i | PubComp i | UnsubAck i => i = 0
  | Subscribe i l => i = 0 /\ l = []
  | SubAck i l => i = 0 /\ l = []
  | Unsubscribe i l => i = 0 /\ l = []
  | PingReq | PingResp | Disconnect => True
  end.

Ltac each_type n :=
  unfold ControlPacket_new, PACKET_TYPE_CONNECT, PACKET_TYPE_CONN_ACK, PACKET_TYPE_PUBLISH, PACKET_TYPE_PUB_ACK, PACKET_TYPE_PUB_REC, PACKET_TYPE_PUB_REL, PACKET_TYPE_PUB_COMP, PACKET_TYPE_SUBSCRIBE,
    PACKET_TYPE_SUB_ACK, PACKET_TYPE_UNSUBSCRIBE, PACKET_TYPE_UNSUB_ACK, PACKET_TYPE_PING_REQ, PACKET_TYPE_PING_RESP, PACKET_TYPE_DISCONNECT;
  repeat match goal with |- context [n =? ?k] => destruct (N.eqb_spec n k) as [->|?] end.

(** It panics exactly for the two reserved types and what is not a type at all; otherwise it makes the blank packet whose type, as it
    is on the wire, is the given one. *)
Theorem C132_new n : match ControlPacket_new n with
  | Some p => 1 <= n <= 14 /\ head_byte p / 16 = n /\ blank p
  | None => n = 0 \/ 14 < n
  end.
Proof. each_type n; try (repeat split; try reflexivity; lia). Qed.

(** Every packet is of a type it knows, and two packets with the same type number are of the same kind. *)
Theorem C132_every_kind p : exists p0, ControlPacket_new (head_byte p / 16) = Some p0
  /\ match p, p0 with
     | Connect _, Connect _ | ConnAck _, ConnAck _ | Publish _, Publish _ | PubAck _, PubAck _ | PubRec _, PubRec _ | PubRel _, PubRel _
     | PubComp _, PubComp _ | Subscribe _ _, Subscribe _ _ | SubAck _ _, SubAck _ _ | Unsubscribe _ _, Unsubscribe _ _ | UnsubAck _, UnsubAck _
     | PingReq, PingReq | PingResp, PingResp | Disconnect, Disconnect => True
     | _, _ => False
     end.
Proof.
  destruct p as [c|c|[i d [t pl q r]]|i|i|i|i|i l|i l|i l|i| | |]; try (eexists; split; [vm_compute; reflexivity|exact I]).
  exists (Publish PublishPacket_default). split; [|exact I]. destruct d, q, r; vm_compute; reflexivity.
Qed.

(** Section 3 of MQTT 3.1.1, of packets whose strings are blank or not: an empty client id needs a clean session (3.1.3-7), topics have at least
    one character (4.7.3-1), packet ids are not zero (2.3.1-1), SUBSCRIBE, SUBACK and UNSUBSCRIBE list something. *)
Definition allowed (p : ControlPacket) : Prop :=
  match p with
  | Connect c => client_id c <> [] \/ clean_session c = true
  | Publish p => topic (message p) <> [] /\ pub_packet_id p <> Some 0
  | PubAck i | PubRec i | PubRel i | PubComp i | UnsubAck i => i <> 0
  | Subscribe i l => i <> 0 /\ l <> []
  | SubAck i l => i <> 0 /\ l <> []
  | Unsubscribe i l => i <> 0 /\ l <> []
  | ConnAck _ | PingReq | PingResp | Disconnect => True
  end.

(** Most of them are not packets to be sent as they are. *)
Theorem C132_allowed n p : ControlPacket_new n = Some p -> (allowed p <-> n = 2 \/ n = 12 \/ n = 13 \/ n = 14).
Proof.
  each_type n; intros H; try discriminate H; injection H as <-; cbn [allowed]; try (split; [intros K; exfalso; cbn in K; intuition congruence|lia]); tauto.
Qed.

(** Read by the broker from its bytes each comes back as it is, if it is one that a client sends and does not lack its list; the others panic or are
    refused. Written by the broker it is these bytes. *)
Theorem C132_bytes dbg n p : ControlPacket_new n = Some p ->
  let bs := n2b (head_byte p) :: n2b (lenN (packet_body p)) :: packet_body p in
  decode dbg bs = (if existsb (N.eqb n) [2; 9; 11; 13] then PPanic
                      else if existsb (N.eqb n) [8; 10] then PErr ErrPayload else POk p [])
  /\ encode p = (if existsb (N.eqb n) [1; 8; 10; 12; 14] then None else Some bs).
Proof.
  each_type n; intros H; try discriminate H; injection H as <-; (split; [|vm_compute; reflexivity]); destruct dbg; vm_compute; reflexivity.
Qed.

Example C132_case : ControlPacket_new 3 = Some (Publish (PublishPacket_new [] [] AtMostOnce false None false))
  /\ ControlPacket_new 9 = Some (SubAck 0 []) /\ ControlPacket_new 15 = None /\ ControlPacket_new 0 = None
  /\ head_byte (Publish (PublishPacket_new (str "a") (str "b") ExactlyOnce true (Some 7) true)) / 16 = 3
  /\ encode (SubAck 0 []) = Some [x90; x02; x00; x00] /\ allowed (ConnAck ConnAckPacket_default) /\ ~ allowed (SubAck 0 []).
Proof. repeat split. intros (K & _). now apply K. Qed.
