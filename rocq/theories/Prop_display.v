(** Property C146: the texts of QoS and Subscription for people. *)
From Verif Require Import Base Base_facts Packets Spec_wire Logging.

(** Display of QoS (mqtt/packets/mod.rs:75-83). *)
Definition display_qos (q : QoS) : bytes :=
  match q with
  | AtMostOnce => str "0 (at most once)"
  | AtLeastOnce => str "1 (at least once)"
  | ExactlyOnce => str "2 (exactly once)"
  end.

(** Display of Subscription (mqtt/subscription.rs:11-15). The topic goes in as it is. Only this calls the one of QoS, and nothing in the program calls this. *)
Definition display_subscription (s : Subscription) : bytes :=
  str "topic: '" ++ sub_topic s ++ str "' QoS: " ++ display_qos (sub_qos s).

(** The text of a quality of service begins with its number on the wire and a space. *)
Theorem C146_number q : exists t, display_qos q = show_u16 (qos_num q) ++ str " (" ++ t ++ str " once)".
Proof. destruct q; [exists (str "at most")|exists (str "at least")|exists (str "exactly")]; reflexivity. Qed.

(** The text tells the subscription, whatever is in the topic. *)
Theorem C146_told s s' : display_subscription s = display_subscription s' <-> s = s'.
Proof.
  split; [|now intros ->]. destruct s as [t q], s' as [t' q']. unfold display_subscription. cbn [sub_topic sub_qos]. intros H.
  apply app_inv_head in H.
  assert (K : q = q').
  { apply (f_equal (@rev byte)) in H. rewrite !rev_app_distr in H. destruct q, q'; try reflexivity; exfalso; revert H; cbn; discriminate. }
  subst q'. rewrite !app_assoc in H. apply app_inv_tail, app_inv_tail in H. now subst.
Qed.

(** A list of such texts, one after the other with any text between, does not tell the subscriptions: a topic can end one and begin the next. *)
Theorem C146_lists sep : exists a b c : Subscription,
  display_subscription a ++ sep ++ display_subscription b = display_subscription c.
Proof.
  exists {| sub_topic := str "a"; sub_qos := AtMostOnce |}, {| sub_topic := str "b"; sub_qos := ExactlyOnce |},
    {| sub_topic := str "a' QoS: 0 (at most once)" ++ sep ++ str "topic: 'b"; sub_qos := ExactlyOnce |}.
  unfold display_subscription. cbn [sub_topic sub_qos]. rewrite <- !app_assoc. reflexivity.
Qed.

(** The names of the packet types in the order of their numbers (MQTT 3.1.1, table 2.1). *)
Definition type_names : list bytes :=
  map str ["Reserved"; "CONNECT"; "CONNACK"; "PUBLISH"; "PUBACK"; "PUBREC"; "PUBREL"; "PUBCOMP"; "SUBSCRIBE"; "SUBACK"; "UNSUBSCRIBE";
           "UNSUBACK"; "PINGREQ"; "PINGRESP"; "DISCONNECT"]%string.

(** The text of a packet is the standard's name of the type in the upper half of its first byte. *)
Theorem C146_packets p : nth_error type_names (N.to_nat (head_byte p / 16)) = Some (packet_name p).
Proof.
  destruct p as [| |[i d [t l q r]]| | | | | | | | | | |]; try reflexivity. now destruct d, q, r.
Qed.

Example C146_case :
  display_subscription {| sub_topic := str "a/b"; sub_qos := AtLeastOnce |} = str "topic: 'a/b' QoS: 1 (at least once)"
  /\ display_subscription {| sub_topic := str "it's" ++ [x0a]; sub_qos := AtMostOnce |}
     = str "topic: 'it's" ++ [x0a] ++ str "' QoS: 0 (at most once)".
Proof. split; reflexivity. Qed.

(** A PUBLISH with all its flags set is still a PUBLISH. *)
Example C146_case_packet :
  let p := Publish {| pub_packet_id := Some 1; dup := true; message := {| topic := str "a"; payload := []; qos := ExactlyOnce; retain := true |} |} in
  head_byte p = 0x3D /\ packet_name p = str "PUBLISH".
Proof. split; reflexivity. Qed.
