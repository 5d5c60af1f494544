(** Property C121: what a request costs, in nodes of the subscription tree looked at. *)
From Verif Require Import Base Base_facts Packets HashMap Subscriptions Messaging Handler Spec_wire Spec_subs Spec_broker
  Subscriptions_facts Handler_facts System_hist Prop_subs Prop_broker Prop_mqtt Prop_stack.
Open Scope nat_scope.
Local Notation S := Datatypes.S.

(** ** The functions of Subscriptions.v, counting the nodes they look at *)

(** subscriptions_repository.rs:31-36, 55-60: the root, then one node for each level *)
Fixpoint update_node_counted (f : list ClientId -> list ClientId) (segments : list bytes) (n : SubscriptionNode)
  : SubscriptionNode * nat :=
  match segments with
  | [] => (Node (children n) (f (clients n)), 1)
  | segment :: rest =>
    let child := match hm_get segment (children n) with Some c => c | None => SubscriptionNode_new end in
    let (child', k) := update_node_counted f rest child in
    (Node (hm_insert segment child' (children n)) (clients n), S k)
  end.

(** lines 114-123 *)
Fixpoint remove_client_counted (client_id : ClientId) (n : SubscriptionNode) : SubscriptionNode * nat :=
  match n with
  | Node ch cl =>
    let all := fix all (ch : hmap SubscriptionNode) : hmap SubscriptionNode * nat :=
      match ch with
      | [] => ([], 0)
      | (k, c) :: ch' => let (c', i) := remove_client_counted client_id c in
                         let (ch'', j) := all ch' in ((k, c') :: ch'', i + j)
      end in
    let (ch', i) := all ch in (Node ch' (remove_first client_id cl), S i)
  end.

(** lines 84-108 *)
Fixpoint walk_counted (segments : list bytes) (nodes : list SubscriptionNode) (client_ids : list ClientId)
  : list ClientId * nat :=
  match segments with
  | [] => (client_ids ++ flat_map clients nodes, length nodes)
  | segment :: rest =>
    let (l, k) := walk_counted rest (flat_map (descend segment) nodes) (client_ids ++ flat_map hash_clients nodes) in
    (l, length nodes + k)
  end.

(** They compute what the functions of the model compute. *)
Lemma update_counted f segs : forall n, update_node_counted f segs n = (update_node f segs n, S (length segs)).
Proof.
  induction segs as [|x segs IH]; intros n; [reflexivity|]. cbn [update_node_counted update_node length].
  now rewrite IH.
Qed.

Lemma remove_counted c : forall n, remove_client_counted c n = (remove_client c n, nodes n).
Proof.
  fix IH 1. intros [ch cl]. cbn [remove_client_counted remove_client nodes].
  match goal with |- (let (_, _) := ?f ch in _) = _ => set (all := f) end.
  assert (K : all ch = (hm_map (remove_client c) ch, list_sum (map (fun x => nodes (snd x)) ch))).
  { induction ch as [|[k x] ch IHc]; [reflexivity|].
    change (all ((k, x) :: ch)) with (let (c', i) := remove_client_counted c x in let (ch'', j) := all ch in ((k, c') :: ch'', i + j)).
    rewrite IH, IHc. reflexivity. }
  now rewrite K.
Qed.

Fixpoint looked_at (segs : list bytes) (n : SubscriptionNode) : nat :=
  match segs with
  | [] => 1
  | s :: rest => S (list_sum (map (looked_at rest) (descend s n)))
  end.

Lemma list_sum_flat {A B} (f : A -> list B) (g : B -> nat) l :
  list_sum (map g (flat_map f l)) = list_sum (map (fun a => list_sum (map g (f a))) l).
Proof.
  induction l as [|a l IH]; [reflexivity|]. cbn [flat_map map]. rewrite map_app, list_sum_app, IH. reflexivity.
Qed.

Lemma walk_counted_eq segs : forall ns ids, walk_counted segs ns ids = (walk segs ns ids, list_sum (map (looked_at segs) ns)).
Proof.
  induction segs as [|s segs IH]; intros ns ids; cbn [walk_counted walk].
  - f_equal. induction ns as [|n ns IHn]; [reflexivity|]. cbn [length map looked_at list_sum fold_right] in *.
    unfold list_sum in IHn. cbn [looked_at] in IHn. lia.
  - rewrite IH, list_sum_flat. f_equal. clear. induction ns as [|n ns IHn]; [reflexivity|].
    cbn [length map list_sum fold_right looked_at] in *. unfold list_sum in *. lia.
Qed.

(** ** What the operations of the repository cost *)

Definition subscribe_cost (root : SubscriptionNode) (c : ClientId) (f : bytes) : nat :=
  snd (update_node_counted (fun l => l ++ [c]) (split_slash f) root).
Definition unsubscribe_cost (root : SubscriptionNode) (c : ClientId) (f : bytes) : nat :=
  snd (update_node_counted (remove_first c) (split_slash f) root).
Definition disconnect_cost (root : SubscriptionNode) (c : ClientId) : nat := snd (remove_client_counted c root).
Definition publish_cost (root : SubscriptionNode) (t : bytes) : nat := snd (walk_counted (split_slash t) [root] []).

(** The counting functions return what the model's do. *)
Theorem C121_same_results root c t segs f :
  fst (update_node_counted f segs root) = update_node f segs root
  /\ fst (remove_client_counted c root) = disconnected root c
  /\ Some (fst (walk_counted (split_slash t) [root] [])) = subscribed_clients root t.
Proof. rewrite update_counted, remove_counted, walk_counted_eq. auto. Qed.

(** Naming a filter costs its levels and one. *)
Theorem C121_name root c f : subscribe_cost root c f = S (level_count f) /\ unsubscribe_cost root c f = S (level_count f).
Proof. unfold subscribe_cost, unsubscribe_cost. rewrite !update_counted. cbn [snd]. now rewrite split_length. Qed.

(** *** A message *)

Lemma list_sum_olist {A} (g : A -> nat) o : list_sum (map g (olist o)) = match o with Some a => g a | None => 0 end.
Proof. destruct o; cbn; lia. Qed.

Lemma children_sum2 (g : SubscriptionNode -> nat) k1 k2 (ch : hmap SubscriptionNode) : k1 <> k2 -> (forall n, g n <= nodes n) ->
  match hm_get k1 ch with Some a => g a | None => 0 end + match hm_get k2 ch with Some a => g a | None => 0 end
  <= list_sum (map (fun x => nodes (snd x)) ch).
Proof.
  intros Hk Hg.
  assert (H1 : forall k (ch : hmap SubscriptionNode), match hm_get k ch with Some a => g a | None => 0 end <= list_sum (map (fun x => nodes (snd x)) ch)).
  { intros k. induction ch0 as [|[a x] ch0 IH]; cbn [hm_get map snd list_sum fold_right]; [lia|].
    fold (list_sum (map (fun x => nodes (snd x)) ch0)). destruct (bytes_eqb k a); [specialize (Hg x); lia|lia]. }
  induction ch as [|[a x] ch IH]; cbn [hm_get map snd list_sum fold_right]; [lia|].
  fold (list_sum (map (fun x => nodes (snd x)) ch)). specialize (Hg x).
  pose proof (H1 k1 ch). pose proof (H1 k2 ch).
  destruct (bytes_eqb_spec k1 a) as [->|], (bytes_eqb_spec k2 a) as [->|]; try congruence; lia.
Qed.

Lemma looked_at_nodes segs : ~ In seg_plus segs -> forall n, looked_at segs n <= nodes n.
Proof.
  induction segs as [|s segs IH]; intros Hp n; cbn [looked_at]; [apply nodes_pos|].
  unfold descend. rewrite map_app, list_sum_app, !list_sum_olist. destruct n as [ch cl]. cbn [nodes children].
  assert (Hs : s <> seg_plus) by (intros ->; apply Hp; now left).
  pose proof (children_sum2 (looked_at segs) s seg_plus ch Hs (IH ltac:(intros H; apply Hp; now right))). lia.
Qed.

Lemma looked_at_pow segs : forall n, looked_at segs n < 2 ^ S (length segs).
Proof.
  induction segs as [|s segs IH]; intros n; cbn [looked_at length]; [cbn; lia|].
  unfold descend. rewrite map_app, list_sum_app, !list_sum_olist.
  cbn [Nat.pow] in *.
  assert (H : forall o, match o with Some a => looked_at segs a | None => 0 end < 2 * 2 ^ length segs).
  { intros [a|]; [apply IH|]. pose proof (Nat.pow_nonzero 2 (length segs) ltac:(lia)). lia. }
  pose proof (H (hm_get s (children n))). pose proof (H (hm_get seg_plus (children n))). lia.
Qed.

(** A message costs less than [2 ^ (levels + 1)]; if no level of its name is [+], no more than there are nodes. *)
Theorem C121_message root t : publish_cost root t < 2 ^ S (level_count t)
  /\ (forall ls, has_levels t ls -> ~ In plus ls -> publish_cost root t <= nodes root).
Proof.
  unfold publish_cost. rewrite walk_counted_eq. cbn [snd map list_sum fold_right]. rewrite Nat.add_0_r. split.
  - unfold level_count. rewrite <- split_length. apply looked_at_pow.
  - intros ls Hls Hp. apply levels_split in Hls. subst ls. now apply looked_at_nodes.
Qed.

(** *** How many nodes there are *)

(** The ways down from a node. *)
Fixpoint paths (n : SubscriptionNode) : list (list bytes) :=
  match n with Node ch _ => [] :: flat_map (fun x => map (cons (fst x)) (paths (snd x))) ch end.

Inductive tree_ok : SubscriptionNode -> Prop :=
| tree_ok_node ch cl : hm_ok ch -> (forall k v, hm_get k ch = Some v -> tree_ok v) -> tree_ok (Node ch cl).

Lemma length_paths : forall n, length (paths n) = nodes n.
Proof.
  fix IH 1. intros [ch cl]. cbn [paths nodes length]. f_equal.
  induction ch as [|[k x] ch IHc]; [reflexivity|]. cbn [flat_map map fst snd list_sum fold_right].
  rewrite app_length, map_length, IH, IHc. reflexivity.
Qed.

Lemma In_paths ch cl p : hm_ok ch ->
  (In p (paths (Node ch cl)) <-> p = [] \/ exists k q v, p = k :: q /\ hm_get k ch = Some v /\ In q (paths v)).
Proof.
  intros Hok. cbn [paths In]. rewrite in_flat_map. split.
  - intros [<-|((k, v) & Hv & Hp)]; [now left|]. right. cbn [fst snd] in Hp. apply in_map_iff in Hp. destruct Hp as (q & <- & Hq).
    exists k, q, v. split; [reflexivity|]. split; [now apply hm_In_get|exact Hq].
  - intros [->|(k & q & v & -> & Hk & Hq)]; [now left|]. right. exists (k, v). split; [now apply hm_get_In|].
    cbn [fst snd]. apply in_map_iff. eauto.
Qed.

Lemma NoDup_join {A} (l1 l2 : list A) : NoDup l1 -> NoDup l2 -> (forall x, In x l1 -> ~ In x l2) -> NoDup (l1 ++ l2).
Proof.
  intros H1 H2 H. induction H1 as [|x l1 Hx _ IH]; [exact H2|]. cbn [app]. constructor.
  - rewrite in_app_iff. intros [K|K]; [contradiction|]. apply (H x); [now left|exact K].
  - apply IH. intros y Hy. apply H. now right.
Qed.

Lemma NoDup_paths n : tree_ok n -> NoDup (paths n).
Proof.
  induction 1 as [ch cl Hok Hch IH]. cbn [paths]. constructor.
  { rewrite in_flat_map. intros ((k, v) & _ & Hp). apply in_map_iff in Hp. destruct Hp as (q & Hq & _). discriminate. }
  assert (K : forall k v, In (k, v) ch -> NoDup (paths v)).
  { intros k v Hv. apply (IH k). now apply hm_In_get. }
  clear IH Hch. unfold hm_ok in Hok. induction ch as [|[k v] ch IHc]; [constructor|].
  cbn [map fst] in Hok. inversion Hok as [|? ? Hk Hok']; subst. cbn [flat_map fst snd]. apply NoDup_join.
  - apply FinFun.Injective_map_NoDup; [intros a b E; now injection E|]. apply (K k). now left.
  - apply IHc; [exact Hok'|]. intros k' v' Hv. apply (K k'). now right.
  - intros p Hp Hq. apply in_map_iff in Hp. destruct Hp as (q & <- & _). apply in_flat_map in Hq.
    destruct Hq as ((k', v') & Hv & Hq). cbn [fst snd] in Hq. apply in_map_iff in Hq. destruct Hq as (q' & E & _).
    injection E as -> _. apply Hk. apply in_map_iff. exists (k, v'). auto.
Qed.

Definition begins (p ls : list bytes) : Prop := exists t, ls = p ++ t.

Lemma tree_new : tree_ok SubscriptionNode_new.
Proof. constructor; [apply hm_ok_nil|]. intros k v H. discriminate. Qed.

Lemma paths_update f segs : forall n, tree_ok n ->
  tree_ok (update_node f segs n) /\ forall p, In p (paths (update_node f segs n)) <-> In p (paths n) \/ begins p segs.
Proof.
  induction segs as [|x segs IH]; intros n Hn; inversion Hn as [ch cl Hok Hch]; subst; cbn [update_node children clients].
  - split; [now constructor|]. intros p. cbn [paths]. split; [tauto|]. intros [H|(t & H)]; [exact H|].
    symmetry in H. apply app_eq_nil in H. destruct H as [-> _]. now left.
  - set (child := match hm_get x ch with Some c => c | None => SubscriptionNode_new end).
    assert (Hc : tree_ok child). { unfold child. destruct (hm_get x ch) as [w|] eqn:E; [exact (Hch _ _ E)|apply tree_new]. }
    destruct (IH child Hc) as (Hc' & HP). set (child' := update_node f segs child) in *.
    assert (Hok' : hm_ok (hm_insert x child' ch)) by now apply hm_ok_insert.
    split.
    { constructor; [exact Hok'|]. intros k v. rewrite hm_get_insert. destruct (bytes_eqb k x); [intros [= <-]; exact Hc'|apply Hch]. }
    intros p. rewrite (In_paths _ cl p Hok'), (In_paths _ cl p Hok). split.
    + intros [->|(k & q & v & -> & Hk & Hq)]; [now left; left|].
      rewrite hm_get_insert in Hk. destruct (bytes_eqb_spec k x) as [->|].
      * injection Hk as <-. apply HP in Hq. destruct Hq as [Hq|(t & ->)].
        -- unfold child in Hq. destruct (hm_get x ch) as [w|] eqn:E.
           ++ left; right. exists x, q, w. auto.
           ++ cbn in Hq. destruct Hq as [<-|[]]. right. now exists segs.
        -- right. now exists t.
      * left; right. exists k, q, v. auto.
    + intros [[->|(k & q & v & -> & Hk & Hq)]|(t & Ht)].
      * now left.
      * right. destruct (bytes_eqb_spec k x) as [->|Hne].
        -- exists x, q, child'. split; [reflexivity|]. rewrite hm_get_insert, bytes_eqb_refl. split; [reflexivity|].
           apply HP. left. unfold child. now rewrite Hk.
        -- exists k, q, v. split; [reflexivity|]. rewrite hm_get_insert. destruct (bytes_eqb_spec k x); [contradiction|]. auto.
      * destruct p as [|k q]; [now left|]. injection Ht as <- ->. right. exists x, q, child'. split; [reflexivity|].
        rewrite hm_get_insert, bytes_eqb_refl. split; [reflexivity|]. apply HP. right. now exists t.
Qed.

Lemma paths_remove c : forall n, paths (remove_client c n) = paths n.
Proof.
  fix IH 1. intros [ch cl]. cbn [remove_client paths]. f_equal. unfold hm_map.
  induction ch as [|[k x] ch IHc]; [reflexivity|]. cbn [map flat_map fst snd]. now rewrite IH, IHc.
Qed.

Lemma tree_remove c n : tree_ok n -> tree_ok (remove_client c n).
Proof.
  induction 1 as [ch cl Hok Hch IH]. cbn [remove_client]. constructor.
  - unfold hm_ok, hm_map in *. rewrite map_map. cbn [fst]. exact Hok.
  - intros k v. rewrite hm_get_map. destruct (hm_get k ch) as [w|] eqn:E; [|discriminate].
    intros [= <-]. exact (IH _ _ E).
Qed.

Definition prefixed (p : list bytes) (fs : list bytes) : Prop := exists f ls, In f fs /\ has_levels f ls /\ begins p ls.

Lemma prefixed_one p f : prefixed p [f] <-> begins p (split_slash f).
Proof.
  split.
  - intros (g & ls & [<-|[]] & Hl & H). apply levels_split in Hl. now subst ls.
  - intros H. exists f, (split_slash f). split; [now left|]. split; [now apply levels_split|exact H].
Qed.

Lemma prefixed_app p f g : prefixed p (f ++ g) <-> prefixed p f \/ prefixed p g.
Proof.
  unfold prefixed. split.
  - intros (x & ls & H & K). apply in_app_iff in H. destruct H; [left|right]; eauto.
  - intros [(x & ls & H & K)|(x & ls & H & K)]; exists x, ls; rewrite in_app_iff; tauto.
Qed.

Lemma paths_request r n : tree_ok n ->
  tree_ok (apply_request n r) /\ forall p, In p (paths (apply_request n r)) <-> In p (paths n) \/ prefixed p (mentioned r).
Proof.
  intros Hn. destruct r as [c f|c fs|c]; cbn [apply_request mentioned].
  - unfold subscribe. cbn [fst sub_topic]. destruct (paths_update (fun l : list ClientId => l ++ [c]) (split_slash f) n Hn) as (H1 & H2).
    split; [exact H1|]. intros p. rewrite prefixed_one. apply H2.
  - unfold unsubscribe. revert n Hn. induction fs as [|f fs IH]; intros n Hn; cbn [fold_left].
    + split; [exact Hn|]. intros p. split; [now left|]. intros [H|(f & ls & [] & _)]. exact H.
    + destruct (paths_update (remove_first c) (split_slash f) n Hn) as (H1 & H2). destruct (IH _ H1) as (H3 & H4).
      split; [exact H3|]. intros p. change (f :: fs) with ([f] ++ fs). rewrite prefixed_app, prefixed_one, H4, H2. tauto.
  - unfold disconnected. split; [now apply tree_remove|]. intros p. rewrite paths_remove. split; [now left|].
    intros [H|(f & ls & [] & _)]. exact H.
Qed.

Lemma paths_requests r : forall n, tree_ok n ->
  tree_ok (fold_left apply_request r n)
  /\ forall p, In p (paths (fold_left apply_request r n)) <-> In p (paths n) \/ prefixed p (flat_map mentioned r).
Proof.
  induction r as [|x r IH]; intros n Hn; cbn [fold_left flat_map].
  - split; [exact Hn|]. intros p. split; [now left|]. intros [H|(f & ls & [] & _)]. exact H.
  - destruct (paths_request x n Hn) as (H1 & H2). destruct (IH _ H1) as (H3 & H4). split; [exact H3|].
    intros p. rewrite prefixed_app, H4, H2. tauto.
Qed.

(** A node for every beginning of a filter anybody ever named, and the root. *)
Theorem C121_nodes auth h m starts : after auth h m -> NoDup starts ->
  (forall p, In p starts <-> p <> [] /\ exists f ls, In f (flat_map named (map snd h)) /\ has_levels f ls /\ begins p ls) ->
  nodes (subscriptions m) = S (length starts).
Proof.
  intros Ha HN HS. rewrite (after_subs auth h m Ha). unfold repo_after.
  destruct (paths_requests (requests h) SubscriptionNode_new tree_new) as (HT & HP).
  rewrite mentioned_named in HP. rewrite <- length_paths.
  assert (HI : forall p, In p (paths (fold_left apply_request (requests h) SubscriptionNode_new)) <-> In p ([] :: starts)).
  { intros p. rewrite HP. cbn [SubscriptionNode_new paths flat_map In]. rewrite HS. destruct p as [|k q].
    - split; [now left|]. now left; left.
    - split; [|intros [H|(_ & H)]; [discriminate|now right]]. intros [[H|[]]|H]; [discriminate|]. right. split; [discriminate|exact H]. }
  pose proof (NoDup_paths _ HT) as HD.
  assert (HD' : NoDup ([] :: starts)). { constructor; [|exact HN]. rewrite HS. tauto. }
  change (S (length starts)) with (length ([] :: starts)).
  apply Nat.le_antisymm; apply NoDup_incl_length; try assumption; intros p Hp; now apply HI.
Qed.

(** So that is what each DISCONNECT costs, whoever it comes from and whatever is subscribed. *)
Theorem C121_disconnect auth h m c starts : after auth h m -> NoDup starts ->
  (forall p, In p starts <-> p <> [] /\ exists f ls, In f (flat_map named (map snd h)) /\ has_levels f ls /\ begins p ls) ->
  disconnect_cost (subscriptions m) c = S (length starts).
Proof.
  intros Ha HN HS. unfold disconnect_cost. rewrite remove_counted. cbn [snd]. exact (C121_nodes auth h m starts Ha HN HS).
Qed.

(** With [+] in the name the tree is no limit: here the cost is the most it can be. *)
Lemma plus_cost f m : S (looked_at (times m plus) (update_node f (times m plus) SubscriptionNode_new)) = 2 ^ S m.
Proof.
  induction m as [|m IH]; [reflexivity|]. cbn [times update_node SubscriptionNode_new children hm_get hm_insert clients].
  cbn [looked_at]. unfold descend. cbn [children hm_get]. change (bytes_eqb seg_plus plus) with true. change (bytes_eqb plus plus) with true.
  cbn [olist app map list_sum fold_right]. fold SubscriptionNode_new. cbn [Nat.pow] in *. lia.
Qed.

Theorem C121_pluses (c : bytes) d : S (publish_cost (repo_after [ReqSubscribe c (pluses d)]) (pluses d)) = 2 ^ (2 + d)
  /\ nodes (repo_after [ReqSubscribe c (pluses d)]) = 2 + d.
Proof.
  unfold publish_cost. rewrite walk_counted_eq. cbn [snd map list_sum fold_right]. rewrite Nat.add_0_r.
  unfold repo_after. cbn [fold_left apply_request]. unfold subscribe. cbn [fst sub_topic]. rewrite split_pluses.
  split; [apply (plus_cost _ (1 + d))|]. rewrite nodes_fresh. f_equal.
  induction d as [|d IH]; [reflexivity|]. cbn [Nat.add times length] in *. now rewrite IH.
Qed.

Example C121_case :
  let h := [(0%Z, ClientPacket (str "a") (Subscribe 1 [{| sub_topic := str "x/y"; sub_qos := AtMostOnce |}]) 0);
            (0%Z, ClientPacket (str "b") (Unsubscribe 1 [str "x/z"; str "q"]) 1)] in
  match handle_all (fun _ _ => false) MessagingService_new h with
  | (m, _, Finished) => map (disconnect_cost (subscriptions m)) [str "a"; str "nobody"] = [5; 5]
      /\ map (publish_cost (subscriptions m)) [str "x/y"; str "x/y/z"; str "+"] = [3; 3; 1]
  | _ => False
  end.
Proof. vm_compute. auto. Qed.
