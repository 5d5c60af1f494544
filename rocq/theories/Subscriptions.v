(** The subscription tree: src/broker/messaging/subscriptions_repository.rs. *)
From Verif Require Import Base Packets HashMap.

(** subscriptions_repository.rs:126-130 *)
Inductive SubscriptionNode :=
| Node (children : hmap SubscriptionNode) (clients : list ClientId).

Definition children (n : SubscriptionNode) := match n with Node ch _ => ch end.
Definition clients (n : SubscriptionNode) := match n with Node _ cl => cl end.

(** subscriptions_repository.rs:132-139 *)
Definition SubscriptionNode_new : SubscriptionNode := Node [] [].

(** [str::split("/")] (lines 30, 54, 83): the pieces between slashes, at least one.
    [cur] is the current piece. A slash is a single byte that never occurs inside another
    character's UTF-8 bytes, so splitting bytes is splitting text. *)
Fixpoint split_slash_from (cur : bytes) (s : bytes) : list bytes :=
  match s with
  | [] => [cur]
  | b :: s' => if byte_eqb b x2f then cur :: split_slash_from [] s'
               else split_slash_from (cur ++ [b]) s'
  end.

Definition split_slash (s : bytes) : list bytes := split_slash_from [] s.

(** The loops of lines 31-36 and 55-60, then [f] on the reached node's clients:
    [entry(segment).or_insert(SubscriptionNode::new())] for each segment. *)
Fixpoint update_node (f : list ClientId -> list ClientId) (segments : list bytes)
    (n : SubscriptionNode) : SubscriptionNode :=
  match segments with
  | [] => Node (children n) (f (clients n))
  | segment :: rest =>
    let child := match hm_get segment (children n) with
                 | Some c => c | None => SubscriptionNode_new end in
    Node (hm_insert segment (update_node f rest child) (children n)) (clients n)
  end.

(** [iter().position(|c| c == client_id).map(|p| clients.remove(p))]: lines 62-65, 115-118 *)
Fixpoint remove_first (client_id : ClientId) (l : list ClientId) : list ClientId :=
  match l with
  | [] => []
  | c :: l' => if bytes_eqb c client_id then l' else c :: remove_first client_id l'
  end.

(** subscribe, lines 19-41; the requested QoS is not stored *)
Definition subscribe (root : SubscriptionNode) (client_id : ClientId) (s : Subscription)
  : SubscriptionNode * SubAckReturnCode :=
  (update_node (fun l => l ++ [client_id]) (split_slash (sub_topic s)) root, SuccessQoS0).

(** unsubscribe, lines 43-69 *)
Definition unsubscribe (root : SubscriptionNode) (client_id : ClientId) (topics : list bytes)
  : SubscriptionNode :=
  fold_left (fun n t => update_node (remove_first client_id) (split_slash t) n) topics root.

(** remove_client, lines 114-123 *)
Fixpoint remove_client (client_id : ClientId) (n : SubscriptionNode) : SubscriptionNode :=
  match n with
  | Node ch cl => Node (hm_map (remove_client client_id) ch) (remove_first client_id cl)
  end.

(** disconnected, lines 71-73 *)
Definition disconnected (root : SubscriptionNode) (client_id : ClientId) : SubscriptionNode :=
  remove_client client_id root.

(** connections_lost, lines 75-77 *)
Definition connections_lost (root : SubscriptionNode) (client_id : ClientId) : SubscriptionNode :=
  remove_client client_id root.

Definition seg_plus : bytes := [x2b].
Definition seg_hash : bytes := [x23].

Definition olist {A} (o : option A) : list A := match o with Some a => [a] | None => [] end.

(** Lines 88-94: the nodes one level down that a segment leads to *)
Definition descend (segment : bytes) (n : SubscriptionNode) : list SubscriptionNode :=
  olist (hm_get segment (children n)) ++ olist (hm_get seg_plus (children n)).

(** Lines 96-100: clients of the node's "#" child *)
Definition hash_clients (n : SubscriptionNode) : list ClientId :=
  match hm_get seg_hash (children n) with Some h => clients h | None => [] end.

(** Lines 84-108: [nodes] and [client_ids] are the loop variables *)
Fixpoint walk (segments : list bytes) (nodes : list SubscriptionNode) (client_ids : list ClientId)
  : list ClientId :=
  match segments with
  | [] => client_ids ++ flat_map clients nodes
  | segment :: rest =>
    walk rest (flat_map (descend segment) nodes) (client_ids ++ flat_map hash_clients nodes)
  end.

(** subscribed_clients, lines 79-112; it always returns Some *)
Definition subscribed_clients (root : SubscriptionNode) (t : bytes) : option (list ClientId) :=
  Some (walk (split_slash t) [root] []).
