(** The unit tests of src/broker/messaging/subscriptions_repository.rs:141-341 replayed on the model
    (up to order, as there). These are tests of the model, not properties. *)
From Verif Require Import Base Base_facts Packets HashMap Subscriptions.

Fixpoint subscribed_to (l : list (String.string * String.string)) (root : SubscriptionNode) : SubscriptionNode :=
  match l with
  | [] => root
  | (t, c) :: l' =>
    subscribed_to l' (fst (subscribe root (str c) {| sub_topic := str t; sub_qos := AtMostOnce |}))
  end.

Definition repo (l : list (String.string * String.string)) : SubscriptionNode :=
  subscribed_to l SubscriptionNode_new.

Definition same (a b : list bytes) : bool :=
  Nat.eqb (length a) (length b)
  && forallb (fun x => Nat.eqb (count_occ bytes_eq_dec a x) (count_occ bytes_eq_dec b x)) a.

Definition gives (root : SubscriptionNode) (t : String.string) (expected : list String.string) : bool :=
  match subscribed_clients root (str t) with
  | Some l => same l (map str expected)
  | None => false
  end.
Arguments gives root t%string expected%list.
Arguments repo l%list.
Open Scope string_scope.

Example subscribe_no_wildcard :
  snd (subscribe SubscriptionNode_new (str "client 1") {| sub_topic := str "asd/zxc/qwe"; sub_qos := AtMostOnce |})
  = SuccessQoS0.
Proof. vm_compute; reflexivity. Qed.
Example no_wildcards_matching : gives (repo [("a/b/c", "c1"); ("a/b/c", "c2")]) "a/b/c" ["c1"; "c2"] = true.
Proof. vm_compute; reflexivity. Qed.
Example no_wildcards_not_matching :
  gives (repo [("a", "c1"); ("a/b", "c2"); ("a/b/c/d", "c3")]) "a/b/c" [] = true.
Proof. vm_compute; reflexivity. Qed.
Example no_wildcards_combined :
  gives (repo [("a/b/c", "c1"); ("a/b/d", "c2"); ("a/b/c/d", "c3"); ("a/b", "c4")]) "a/b/c" ["c1"] = true.
Proof. vm_compute; reflexivity. Qed.
Example plus_matching :
  gives (repo [("+/b/c", "c1"); ("a/+/c", "c2"); ("a/b/+", "c3"); ("+/b/+", "c4"); ("+/+/+", "c5")])
    "a/b/c" ["c1"; "c2"; "c3"; "c4"; "c5"] = true.
Proof. vm_compute; reflexivity. Qed.
Example plus_not_matching :
  gives (repo [("+/+/+/+", "c1"); ("+/+", "c2"); ("+", "c3"); ("a/+", "c4"); ("a/+/d", "c5")]) "a/b/c" [] = true.
Proof. vm_compute; reflexivity. Qed.
Example plus_combined :
  gives (repo [("a/b/+", "c1"); ("+/b/+", "c2"); ("+/+/+", "c3"); ("+/+/+/+", "cx"); ("+/+", "cx")])
    "a/b/c" ["c1"; "c2"; "c3"] = true.
Proof. vm_compute; reflexivity. Qed.
Example hash_matching : gives (repo [("a/#", "c1"); ("a/b/#", "c2")]) "a/b/c" ["c1"; "c2"] = true.
Proof. vm_compute; reflexivity. Qed.
Example hash_not_matching :
  gives (repo [("a/b/c/#", "c1"); ("a/d/#", "c2"); ("b/#", "c3")]) "a/b/c" [] = true.
Proof. vm_compute; reflexivity. Qed.
Example hash_combined : gives (repo [("a/#", "c1"); ("a/d/#", "c2"); ("b/#", "c3")]) "a/b/c" ["c1"] = true.
Proof. vm_compute; reflexivity. Qed.
Example combined :
  gives (repo [("a/b/c", "c1"); ("a/b/d", "cx"); ("a/+/+", "c2"); ("a/+/d", "cy"); ("a/#", "c3"); ("a/d/#", "cz")])
    "a/b/c" ["c1"; "c2"; "c3"] = true.
Proof. vm_compute; reflexivity. Qed.
Example disconnect_remove_client :
  let r := disconnected (repo [("a", "c1"); ("a/b/c", "c1"); ("a/+/+", "c1"); ("a/#", "c1")]) (str "c1") in
  (gives r "a" [] && gives r "a/b" [] && gives r "a/b/c" [])%bool = true.
Proof. vm_compute; reflexivity. Qed.
