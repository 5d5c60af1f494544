(** A reference broker: what the broker does, in terms of two lists. No tree, no hash map, no queues, no tasks.
    Only the types of packets and events are shared with the model. Prop_ref.v proves that the broker
    does exactly this. *)
From Verif Require Import Base Base_facts Packets Messaging Handler Spec_subs.

Record ref := {
  online : list (bytes * conn);  (* client ids with a session, and the connection of each: one entry per id *)
  subs : list (bytes * bytes)    (* client id and filter: one entry per live copy of a subscription *)
}.

Definition ref_init : ref := {| online := []; subs := [] |}.

(** The levels of a topic name or filter. *)
Fixpoint levels (t : bytes) : list bytes :=
  match t with
  | [] => [[]]
  | b :: t' => if byte_eqb b slash then [] :: levels t'
               else match levels t' with
                    | l :: ls => (b :: l) :: ls
                    | [] => [[b]]
                    end
  end.

(** How often a filter is selected by a name: once for each way to build its levels from those of the name,
    taking each level or [+], and possibly ending early with [#]. At most once if no level of the name is
    itself a wildcard. *)
Fixpoint ways (name filter : list bytes) : nat :=
  match name, filter with
  | [], [] => 1
  | l :: name', x :: filter' =>
    (if bytes_eqb x l then ways name' filter' else 0) + (if bytes_eqb x plus then ways name' filter' else 0)
    + (if bytes_eqb x hash then match filter' with [] => 1 | _ => 0 end else 0)
  | _, _ => 0
  end%nat.

Definition place (r : ref) (cid : bytes) : option conn :=
  option_map snd (find (fun x => bytes_eqb cid (fst x)) (online r)).

Definition leave (cid : bytes) (l : list (bytes * conn)) : list (bytes * conn) :=
  filter (fun x => negb (bytes_eqb cid (fst x))) l.

(** Takes one copy out. *)
Fixpoint drop_one (cid f : bytes) (l : list (bytes * bytes)) : list (bytes * bytes) :=
  match l with
  | [] => []
  | x :: l' => if bytes_eqb cid (fst x) && bytes_eqb f (snd x) then l' else x :: drop_one cid f l'
  end.

Definition drop_all_of (cid : bytes) (fs : list bytes) (l : list (bytes * bytes)) : list (bytes * bytes) :=
  fold_left (fun l f => drop_one cid f l) fs l.

(** The filters of a client, once each. *)
Definition filters_of (cid : bytes) (l : list (bytes * bytes)) : list bytes :=
  nodup bytes_eq_dec (map snd (filter (fun x => bytes_eqb cid (fst x)) l)).

(** [Some true]: let in. [Some false]: turned away. [None]: the broker stops. *)
Definition let_in (auth : bytes -> bytes -> bool) (c : ConnectPacket) : option bool :=
  match user_name c, password c with
  | None, _ => Some true
  | Some u, Some p => Some (auth u p)
  | Some _, None => None
  end.

Definition stops (auth : bytes -> bytes -> bool) (e : ClientEvent) : bool :=
  match e with
  | Connected c _ _ => match let_in auth c with None => true | Some _ => false end
  | _ => false
  end.

Definition gone (r : ref) (cid : bytes) : ref :=
  {| online := leave cid (online r); subs := drop_all_of cid (filters_of cid (subs r)) (subs r) |}.

Definition ref_next (auth : bytes -> bytes -> bool) (r : ref) (e : ClientEvent) : ref :=
  match e with
  | Connected c _ k =>
    match let_in auth c with
    | Some true => {| online := (client_id c, k) :: leave (client_id c) (online r); subs := subs r |}
    | _ => r
    end
  | ClientPacket cid (Subscribe _ ss) _ =>
    {| online := online r; subs := map (fun s => (cid, sub_topic s)) ss ++ subs r |}
  | ClientPacket cid (Unsubscribe _ fs) _ => {| online := online r; subs := drop_all_of cid fs (subs r) |}
  | ClientPacket cid Disconnect _ => gone r cid
  | ConnectionLost cid => gone r cid
  | _ => r
  end.

(** How many copies of a message connection [k] gets. *)
Definition copies (r : ref) (k : conn) (name : bytes) : nat :=
  sum (fun x => match place r (fst x) with
                | Some j => if Nat.eqb k j then ways (levels name) (levels (snd x)) else O
                | None => O
                end) (subs r).

(** What connection [k] is sent because of an event. *)
Definition ref_out (auth : bytes -> bytes -> bool) (r : ref) (e : ClientEvent) (k : conn) : list ServerEvent :=
  match e with
  | Connected c _ j =>
    if Nat.eqb k j then
      match let_in auth c with
      | Some true => [ServerPacket (ConnAck {| session_present := false; return_code := Accepted |})]
      | Some false => [ServerPacket (ConnAck {| session_present := false; return_code := NotAuthorized |});
                       ServerDisconnect]
      | None => []
      end
    else []
  | ClientPacket cid (Publish p) _ => repeat (ServerPacket (Publish p)) (copies r k (topic (message p)))
  | ClientPacket cid (Subscribe i ss) j =>
    if Nat.eqb k j then [ServerPacket (SubAck i (repeat SuccessQoS0 (length ss)))] else []
  | ClientPacket cid (Unsubscribe i _) j => if Nat.eqb k j then [ServerPacket (UnsubAck i)] else []
  | ClientPacket cid PingReq j =>
    if Nat.eqb k j then match place r cid with
                        | Some _ => [ServerPacket PingResp]
                        | None => [ServerDisconnect]
                        end
    else []
  | _ => []
  end.

(** All that connection [k] is sent because of some events, and the state they lead to. *)
Fixpoint ref_sends (auth : bytes -> bytes -> bool) (r : ref) (es : list ClientEvent) (k : conn) : list ServerEvent :=
  match es with
  | [] => []
  | e :: es' => ref_out auth r e k ++ (if stops auth e then [] else ref_sends auth (ref_next auth r e) es' k)
  end.

Definition ref_after (auth : bytes -> bytes -> bool) (es : list ClientEvent) : ref :=
  fold_left (ref_next auth) es ref_init.
