(** Property C145: what the subscription tree keeps of what clients have sent, in bytes. *)
From Coq Require Import Permutation.
From Verif Require Import Base Base_facts Packets HashMap Subscriptions Messaging Handler Spec_wire Spec_subs Spec_broker Spec_ref
  Subscriptions_facts Handler_facts ReadStream System System_facts System_hist Prop_subs Prop_broker Prop_ref Prop_mqtt Prop_stack Prop_cost Prop_system Prop_log Prop_full Prop_tasks.
Open Scope nat_scope.
Local Notation S := Datatypes.S.

(** The client ids a tree holds, and the names of its nodes (both are strings of their own in memory). *)
Fixpoint ids_in (n : SubscriptionNode) : list bytes :=
  match n with Node ch cl => cl ++ flat_map (fun x => ids_in (snd x)) ch end.

Fixpoint names_in (n : SubscriptionNode) : list bytes :=
  match n with Node ch _ => flat_map (fun x => fst x :: names_in (snd x)) ch end.

Definition total (l : list bytes) : nat := sum (@length byte) l.

(** What SUBSCRIBE requests ask to be kept: the client's id once for each filter. *)
Definition asked (e : ClientEvent) : nat :=
  match e with ClientPacket cid (Subscribe _ ss) _ => length ss * length cid | _ => 0 end.

(** ** Proofs *)

Lemma not_in_paths n : tree_ok n -> forall p, ~ In p (paths n) -> clients_at p n = [].
Proof.
  induction 1 as [ch cl Hok Hch IH]. intros [|k p] H; [destruct H; now left|]. cbn [clients_at children].
  destruct (hm_get k ch) as [v|] eqn:E; [|reflexivity]. apply (IH k v E). intros Hp. apply H. apply In_paths; [exact Hok|]. right. now exists k, p, v.
Qed.

Definition entries_of (n : SubscriptionNode) : list (bytes * bytes) :=
  flat_map (fun p => map (fun c => (c, join p)) (clients_at p n)) (paths n).

Lemma flat_map_same {A B} (f g : A -> list B) l : (forall x, In x l -> f x = g x) -> flat_map f l = flat_map g l.
Proof. induction l as [|x l IH]; intros H; [reflexivity|]. cbn [flat_map]. rewrite H by now left. f_equal. apply IH. intros y Hy. apply H. now right. Qed.

Lemma ids_paths n : tree_ok n -> ids_in n = flat_map (fun p => clients_at p n) (paths n).
Proof.
  induction 1 as [ch cl Hok Hch IH]. cbn [ids_in paths flat_map clients_at clients]. f_equal.
  assert (K : forall k v, In (k, v) ch -> hm_get k ch = Some v) by (intros; now apply hm_In_get).
  assert (G : forall l, incl l ch -> flat_map (fun x => ids_in (snd x)) l
    = flat_map (fun p => clients_at p (Node ch cl)) (flat_map (fun x => map (cons (fst x)) (paths (snd x))) l)).
  { induction l as [|[k v] l IHl]; intros HI; [reflexivity|]. cbn [flat_map fst snd].
    rewrite flat_map_app, <- IHl by (intros x Hx; apply HI; now right).
    assert (E : hm_get k ch = Some v) by (apply K, HI; now left). rewrite (IH k v E).
    assert (F : forall ps, flat_map (fun p => clients_at p v) ps = flat_map (fun p => clients_at p (Node ch cl)) (map (cons k) ps)).
    { induction ps as [|p ps IHp]; [reflexivity|]. cbn [map flat_map clients_at children]. now rewrite E, IHp. }
    now rewrite F. }
  apply G. now intros x.
Qed.

Lemma entries_ids n : tree_ok n -> map fst (entries_of n) = ids_in n.
Proof.
  intros H. rewrite (ids_paths n H). unfold entries_of. induction (paths n) as [|p ps IH]; [reflexivity|].
  cbn [flat_map]. etransitivity; [apply map_app|]. refine (f_equal2 (@app bytes) _ IH). rewrite map_map. cbn [fst]. apply map_id.
Qed.

Lemma held_app a b c f : held (a ++ b) c f = held a c f + held b c f.
Proof. unfold held. apply count_occ_app. Qed.

Lemma held_at g l c f : held (map (fun c => (c, g)) l) c f = if bytes_eqb g f then occurs c l else 0.
Proof.
  induction l as [|x l IH]; [now destruct (bytes_eqb g f)|]. cbn [map]. rewrite held_cons, IH, occurs_cons. cbn [fst snd].
  destruct (bytes_eqb_spec g f) as [->|Hn]; destruct (bytes_eq_dec x c) as [->|Hc]; rewrite ?bytes_eqb_refl; cbn [andb];
    try (destruct (bytes_eqb_spec c x); [congruence|]); try (destruct (bytes_eqb_spec f g); [congruence|]); rewrite ?andb_false_r; reflexivity.
Qed.

Lemma root_empty r : clients_at [] (repo_after r) = [].
Proof.
  unfold repo_after. assert (G : forall n, clients_at [] n = [] -> clients_at [] (fold_left apply_request r n) = []).
  { induction r as [|x r IH]; intros n H; [exact H|]. cbn [fold_left]. apply IH.
    assert (N : forall f, split_slash f <> []) by (intros f E; destruct (split_levels f) as (K & _); now rewrite E in K).
    destruct x as [c f|c fs|c]; cbn [apply_request].
    - unfold subscribe. cbn [fst sub_topic]. rewrite clients_at_update. destruct path_eq_dec as [E|]; [now destruct (N f)|exact H].
    - unfold unsubscribe. revert n H. induction fs as [|f fs IHf]; intros n H; [exact H|]. cbn [fold_left]. apply IHf.
      rewrite clients_at_update. destruct path_eq_dec as [E|]; [now destruct (N f)|exact H].
    - unfold disconnected. now rewrite clients_at_remove, H. }
  now apply G.
Qed.

Lemma no_slash_path r p : In p (paths (repo_after r)) -> p <> [] -> split_slash (join p) = p.
Proof.
  intros H Hp. apply split_join; [exact Hp|]. unfold repo_after in H.
  apply (proj2 (paths_requests r SubscriptionNode_new tree_new)) in H. destruct H as [[H|[]]|(f & ls & _ & Hl & t & ->)]; [now destruct Hp|].
  intros l Hin. destruct Hl as (_ & Hl & _). apply Hl. apply in_or_app. now left.
Qed.

Lemma sum_at (g : list bytes -> nat) q l : NoDup l ->
  sum (fun p => if path_eq_dec p q then g p else 0) l = if in_dec path_eq_dec q l then g q else 0.
Proof.
  induction 1 as [|p l Hp _ IH]; [reflexivity|]. rewrite sum_cons, IH.
  destruct (path_eq_dec p q) as [->|Hn].
  - destruct (in_dec path_eq_dec q l); [contradiction|]. destruct (in_dec path_eq_dec q (q :: l)) as [|N]; [lia|]. destruct N. now left.
  - destruct (in_dec path_eq_dec q l) as [Hq|Hq], (in_dec path_eq_dec q (p :: l)) as [H|H]; try reflexivity.
    + destruct H. now right.
    + destruct H; [congruence|contradiction].
Qed.

Lemma held_flat (g : list bytes -> list (bytes * bytes)) ps c f : held (flat_map g ps) c f = sum (fun p => held (g p) c f) ps.
Proof. induction ps as [|p ps IH]; [reflexivity|]. cbn [flat_map]. now rewrite held_app, sum_cons, IH. Qed.

Lemma held_entries r c f : held (entries_of (repo_after r)) c f = live r c f.
Proof.
  pose proof (proj1 (paths_requests r SubscriptionNode_new tree_new)) as HT. fold (repo_after r) in HT.
  rewrite <- repo_live. unfold entries_of. rewrite held_flat.
  rewrite (sum_ext _ (fun p => if path_eq_dec p (split_slash f) then occurs c (clients_at p (repo_after r)) else 0)).
  - rewrite (sum_at (fun p => occurs c (clients_at p (repo_after r)))) by (now apply NoDup_paths).
    destruct (in_dec path_eq_dec (split_slash f) (paths (repo_after r))) as [|N]; [reflexivity|].
    now rewrite (not_in_paths _ HT _ N).
  - intros p Hp. rewrite held_at. destruct (list_eq_dec bytes_eq_dec p []) as [->|Hn].
    + rewrite root_empty. cbn [occurs count_occ]. now destruct (bytes_eqb _ _), (path_eq_dec _ _).
    + pose proof (no_slash_path r p Hp Hn) as E. destruct (path_eq_dec p (split_slash f)) as [K|K].
      * rewrite K, join_split, bytes_eqb_refl. reflexivity.
      * destruct (bytes_eqb_spec (join p) f) as [Ef|]; [|reflexivity]. destruct K. now rewrite <- Ef, E.
Qed.

(** The ids in the tree are those of the reference broker's subscriptions, one for each. *)
Theorem C145_ids auth h m : after auth h m ->
  Permutation (ids_in (subscriptions m)) (map fst (subs (ref_after auth (map snd h)))).
Proof.
  intros Ha. rewrite (after_subs auth h m Ha).
  pose proof (proj1 (paths_requests (requests h) SubscriptionNode_new tree_new)) as HT. fold (repo_after (requests h)) in HT.
  rewrite <- (entries_ids _ HT). apply Permutation_map. apply (Permutation_count_occ pair_dec). intros (c, f).
  change (held (entries_of (repo_after (requests h))) c f = held (subs (ref_after auth (map snd h))) c f).
  now rewrite ref_subs, held_entries.
Qed.

Lemma total_app a b : total (a ++ b) = total a + total b.
Proof. apply sum_app. Qed.

Lemma total_perm a b : Permutation a b -> total a = total b.
Proof. apply sum_perm. Qed.

(** Each filter of a SUBSCRIBE adds the client's id once more, in full, whether or not it is there already. *)
Theorem C145_subscribe auth h m now cid i ss k m' : after auth h m ->
  after auth (h ++ [(now, ClientPacket cid (Subscribe i ss) k)]) m' ->
  Permutation (ids_in (subscriptions m')) (repeat cid (length ss) ++ ids_in (subscriptions m))
  /\ total (ids_in (subscriptions m')) = length ss * length cid + total (ids_in (subscriptions m)).
Proof.
  intros Ha Ha'.
  assert (HP : Permutation (ids_in (subscriptions m')) (repeat cid (length ss) ++ ids_in (subscriptions m))).
  { pose proof (C145_ids auth h m Ha) as P. pose proof (C145_ids auth _ m' Ha') as P'.
    rewrite map_app in P'. cbn [map snd] in P'. rewrite ref_after_snoc in P'. cbn [ref_next subs] in P'.
    assert (E : map fst (map (fun s => (cid, sub_topic s)) ss) = repeat cid (length ss)).
    { rewrite map_map. cbn [fst]. clear. induction ss as [|s ss IH]; [reflexivity|]. exact (f_equal (cons cid) IH). }
    refine (Permutation_trans P' _).
    refine (eq_ind_r (fun z => Permutation z _) _ (map_app fst (map (fun s => (cid, sub_topic s)) ss) (subs (ref_after auth (map snd h))))).
    refine (eq_ind_r (fun z => Permutation (z ++ _) _) _ E). apply Permutation_app_head. symmetry. exact P. }
  split; [exact HP|]. rewrite (total_perm _ _ HP), total_app. f_equal.
  clear. induction ss as [|s ss IH]; [reflexivity|]. cbn [length repeat]. unfold total in *. rewrite sum_cons, IH. lia.
Qed.

(** Other events never add any. *)
Lemma total_drop_one cid f l : total (map fst (drop_one cid f l)) <= total (map fst l).
Proof.
  induction l as [|x l IH]; [reflexivity|]. cbn [drop_one]. destruct (_ && _); cbn [map]; unfold total in *; rewrite ?sum_cons; lia.
Qed.

Lemma total_drop_all cid fs : forall l, total (map fst (drop_all_of cid fs l)) <= total (map fst l).
Proof.
  unfold drop_all_of. induction fs as [|f fs IH]; intros l; [reflexivity|]. cbn [fold_left]. etransitivity; [apply IH|apply total_drop_one].
Qed.

Lemma total_next auth r e : total (map fst (subs (ref_next auth r e))) <= asked e + total (map fst (subs r)).
Proof.
  assert (D : forall cid fs, total (map fst (drop_all_of cid fs (subs r))) <= total (map fst (subs r))) by (intros; apply total_drop_all).
  destruct e as [c a k|cid p k|cid|cid]; cbn [ref_next asked].
  - destruct (let_in auth c) as [[|]|]; cbn [subs]; lia.
  - destruct p as [| | | | | | |i ss| |i ts| | | |]; cbn [ref_next asked subs gone]; try lia; try apply D.
    rewrite map_app, total_app. apply Nat.add_le_mono_r. rewrite map_map. cbn [fst].
    induction ss as [|s ss IH]; [reflexivity|]. cbn [map length]. unfold total in *. rewrite sum_cons. lia.
  - lia.
  - apply D.
Qed.

Definition subscribing (e : ClientEvent) : Prop := exists cid i ss k, e = ClientPacket cid (Subscribe i ss) k.

Lemma occurs_drop_one c cid f l : occurs c (map fst (drop_one cid f l)) <= occurs c (map fst l).
Proof.
  induction l as [|x l IH]; [reflexivity|]. cbn [drop_one]. unfold occurs in *. destruct (_ && _); cbn [map count_occ]; destruct bytes_eq_dec; lia.
Qed.

Lemma occurs_drop_all c cid fs : forall l, occurs c (map fst (drop_all_of cid fs l)) <= occurs c (map fst l).
Proof.
  unfold drop_all_of. induction fs as [|f fs IH]; intros l; [reflexivity|]. cbn [fold_left]. etransitivity; [apply IH|apply occurs_drop_one].
Qed.

(** No event but a SUBSCRIBE adds a copy of any id. *)
Theorem C145_others auth h m now e m' c : after auth h m -> after auth (h ++ [(now, e)]) m' -> ~ subscribing e ->
  occurs c (ids_in (subscriptions m')) <= occurs c (ids_in (subscriptions m)).
Proof.
  intros Ha Ha' HN.
  assert (O : forall x y, Permutation x y -> occurs c x = occurs c y) by (intros x y P; exact (proj1 (Permutation_count_occ bytes_eq_dec x y) P c)).
  rewrite (O _ _ (C145_ids auth h m Ha)), (O _ _ (C145_ids auth _ m' Ha')).
  rewrite map_app. cbn [map snd]. rewrite ref_after_snoc. generalize (ref_after auth (map snd h)). intros r.
  assert (D : forall cid fs, occurs c (map fst (drop_all_of cid fs (subs r))) <= occurs c (map fst (subs r))) by (intros; apply occurs_drop_all).
  destruct e as [p a k|cid p k|cid|cid]; cbn [ref_next].
  - destruct (let_in auth p) as [[|]|]; cbn [subs]; lia.
  - destruct p as [| | | | | | |i ss| |i ts| | | |]; cbn [ref_next subs gone]; try lia; try apply D.
    destruct HN. now exists cid, i, ss, k.
  - lia.
  - apply D.
Qed.

Theorem C145_ids_bound auth h m : after auth h m -> total (ids_in (subscriptions m)) <= sum asked (map snd h).
Proof.
  intros Ha. rewrite (total_perm _ _ (C145_ids auth h m Ha)). clear Ha m.
  induction h as [|te h IH] using rev_ind; [cbn; lia|]. rewrite map_app. cbn [map]. rewrite ref_after_snoc, sum_app.
  pose proof (total_next auth (ref_after auth (map snd h)) (snd te)) as K. unfold sum at 2. cbn [map list_sum fold_right]. lia.
Qed.

(** The names: at most the bytes of the filters named. *)
Lemma names_insert k v (ch : hmap SubscriptionNode) :
  total (names_in (Node (hm_insert k v ch) [])) + match hm_get k ch with Some w => total (names_in w) | None => 0 end
  = total (names_in (Node ch [])) + total (names_in v) + match hm_get k ch with Some _ => 0 | None => length k end.
Proof.
  induction ch as [|[a w] ch IH].
  - cbn [hm_insert hm_get names_in flat_map fst snd]. unfold total. rewrite app_nil_r, sum_cons. cbn. lia.
  - cbn [hm_insert hm_get]. destruct (bytes_eqb_spec k a) as [->|Hn].
    + cbn [names_in flat_map fst snd]. unfold total. rewrite !sum_app, !sum_cons. lia.
    + cbn [names_in flat_map fst snd] in *. unfold total in *. rewrite !sum_app, !sum_cons. destruct (hm_get k ch); lia.
Qed.

Lemma names_update f segs : forall n, total (names_in (update_node f segs n)) <= total (names_in n) + total segs.
Proof.
  induction segs as [|x segs IH]; intros [ch cl]; cbn [update_node children clients]; [cbn; lia|].
  pose proof (names_insert x (update_node f segs (match hm_get x ch with Some c => c | None => SubscriptionNode_new end)) ch) as E.
  change (total (names_in (Node ch cl))) with (total (names_in (Node ch []))).
  match goal with |- total (names_in (Node ?a cl)) <= _ => change (total (names_in (Node a cl))) with (total (names_in (Node a []))) end.
  assert (T : total (x :: segs) = length x + total segs) by (unfold total; now rewrite sum_cons). rewrite T.
  destruct (hm_get x ch) as [w|].
  - specialize (IH w). lia.
  - specialize (IH SubscriptionNode_new). change (total (names_in SubscriptionNode_new)) with 0 in IH. lia.
Qed.

Lemma names_remove c : forall n, names_in (remove_client c n) = names_in n.
Proof.
  fix IH 1. intros [ch cl]. cbn [remove_client names_in]. unfold hm_map.
  induction ch as [|[k x] ch IHc]; [reflexivity|]. cbn [map flat_map fst snd]. now rewrite IH, IHc.
Qed.

Lemma total_split f : total (split_slash f) <= length f.
Proof.
  unfold split_slash. assert (G : forall s cur, total (split_slash_from cur s) <= length cur + length s).
  { induction s as [|b s IH]; intros cur; cbn [split_slash_from length]; [unfold total; rewrite sum_cons; cbn; lia|].
    destruct (byte_eqb b x2f).
    - unfold total in *. rewrite sum_cons. specialize (IH []). cbn [length] in IH. lia.
    - specialize (IH (cur ++ [b])). rewrite app_length in IH. cbn [length] in IH. lia. }
  specialize (G f []). cbn [length] in G. lia.
Qed.

Lemma names_request r n : total (names_in (apply_request n r)) <= total (names_in n) + total (mentioned r).
Proof.
  destruct r as [c f|c fs|c]; cbn [apply_request mentioned].
  - unfold subscribe. cbn [fst sub_topic]. etransitivity; [apply names_update|]. pose proof (total_split f). unfold total in *. rewrite sum_cons. cbn. lia.
  - unfold unsubscribe. revert n. induction fs as [|f fs IH]; intros n; cbn [fold_left]; [cbn; lia|].
    etransitivity; [apply IH|]. pose proof (names_update (remove_first c) (split_slash f) n) as K. pose proof (total_split f).
    unfold total in *. rewrite sum_cons. lia.
  - unfold disconnected. rewrite names_remove. lia.
Qed.

Theorem C145_names auth h m : after auth h m -> total (names_in (subscriptions m)) <= total (flat_map named (map snd h)).
Proof.
  intros Ha. rewrite (after_subs auth h m Ha), <- mentioned_named. unfold repo_after.
  assert (G : forall r n, total (names_in (fold_left apply_request r n)) <= total (names_in n) + total (flat_map mentioned r)).
  { induction r as [|x r IH]; intros n; cbn [fold_left flat_map]; [cbn; lia|]. etransitivity; [apply IH|].
    pose proof (names_request x n). rewrite total_app. lia. }
  apply (G (requests h) SubscriptionNode_new).
Qed.

(** In every run: between events, and after the handler has stopped. *)
Theorem C145_run auth dbg n s : reachable auth dbg n s -> hdl s = HIdle \/ hdl s = HStopped ->
  Permutation (ids_in (subscriptions (svc s))) (map fst (subs (ref_after auth (map snd (handled s)))))
  /\ total (ids_in (subscriptions (svc s))) <= sum asked (map snd (handled s))
  /\ total (names_in (subscriptions (svc s))) <= total (flat_map named (map snd (handled s))).
Proof.
  intros HR HH. pose proof (hist_invariant auth dbg n s HR) as H. unfold hist_inv in H.
  assert (Ha : after auth (handled s) (svc s)) by (destruct HH as [E|E]; rewrite E in H; now exists (map out (log s))).
  split; [exact (C145_ids auth _ _ Ha)|]. split; [exact (C145_ids_bound auth _ _ Ha)|exact (C145_names auth _ _ Ha)].
Qed.

(** ** Nothing but memory is left *)

(** A visit: a client without credentials comes, asks for the same filter [n + 1] times in one SUBSCRIBE and says DISCONNECT. *)
Definition visit (c : ConnectPacket) (a : N) (k : conn) (now : Z) (i : N) (f : bytes) (q : QoS) (n : nat) : history :=
  map (pair now)
    [Connected c a k; ClientPacket (client_id c) (Subscribe i (repeat {| sub_topic := f; sub_qos := q |} (n + 1))) k;
     ClientPacket (client_id c) Disconnect k].

Definition visits (c : ConnectPacket) (a : N) (k : conn) (now : Z) (i : N) (f : bytes) (q : QoS) (n V : nat) : history :=
  concat (repeat (visit c a k now i f q n) V).

Lemma filters_repeat cid f k : filters_of cid (repeat (cid, f) (S k)) = [f].
Proof.
  unfold filters_of. assert (E : forall k, map snd (filter (fun x => bytes_eqb cid (fst x)) (repeat (cid, f) k)) = repeat f k).
  { induction k0 as [|k0 IH]; [reflexivity|]. cbn [repeat filter fst]. rewrite bytes_eqb_refl. cbn [map snd]. now rewrite IH. }
  rewrite E. induction k as [|k IH]; [reflexivity|]. cbn [repeat nodup] in *. destruct (in_dec bytes_eq_dec f (f :: repeat f k)) as [|n]; [exact IH|].
  destruct n. now left.
Qed.

Lemma gone_repeat o cid f k : (forall x, In x o -> fst x = cid) ->
  gone {| online := o; subs := repeat (cid, f) (S k) |} cid = {| online := []; subs := repeat (cid, f) k |}.
Proof.
  intros Ho. unfold gone. cbn [online subs]. rewrite filters_repeat. f_equal.
  - unfold leave. induction o as [|x o IH]; [reflexivity|]. cbn [filter]. rewrite (Ho x) by now left. rewrite bytes_eqb_refl. cbn [negb].
    apply IH. intros y Hy. apply Ho. now right.
  - unfold drop_all_of. cbn [fold_left repeat drop_one fst snd]. now rewrite !bytes_eqb_refl.
Qed.

Lemma one_visit auth c a k now i f q n e : user_name c = None ->
  fold_left (ref_next auth) (map snd (visit c a k now i f q n)) {| online := []; subs := repeat (client_id c, f) e |}
  = {| online := []; subs := repeat (client_id c, f) (n + e) |}.
Proof.
  intros HU. unfold visit. rewrite map_map. cbn [map snd fold_left ref_next]. unfold let_in. rewrite HU. cbn [online subs leave filter].
  assert (E : map (fun s => (client_id c, sub_topic s)) (repeat {| sub_topic := f; sub_qos := q |} (n + 1)) ++ repeat (client_id c, f) e
    = repeat (client_id c, f) (S (n + e))).
  { transitivity (repeat (client_id c, f) (n + 1 + e)); [|f_equal; lia]. generalize (n + 1). intros j.
    induction j as [|j IH]; [reflexivity|]. cbn [repeat map sub_topic app Nat.add]. now rewrite IH. }
  rewrite E, gone_repeat; [reflexivity|]. intros x [<-|[]]. reflexivity.
Qed.

Lemma all_visits auth c a k now i f q n V : user_name c = None ->
  ref_after auth (map snd (visits c a k now i f q n V)) = {| online := []; subs := repeat (client_id c, f) (V * n) |}.
Proof.
  intros HU. unfold visits, ref_after. induction V as [|V IH]; [reflexivity|].
  assert (R : repeat (visit c a k now i f q n) (S V) = repeat (visit c a k now i f q n) V ++ [visit c a k now i f q n])
    by (change (S V) with (1 + V); rewrite (Nat.add_comm 1 V), repeat_app; reflexivity).
  rewrite R, concat_app, map_app, fold_left_app, IH. cbn [concat]. rewrite app_nil_r, (one_visit auth c a k now i f q n _ HU). reflexivity.
Qed.

(** After the visits there is no session, and the broker holds the id of the visitor [V * n] times. *)
Theorem C145_visits auth c a k now i f q n V : user_name c = None -> exists m,
  after auth (visits c a k now i f q n V) m /\ session_count m = 0
  /\ ids_in (subscriptions m) = repeat (client_id c) (V * n)
  /\ total (ids_in (subscriptions m)) = V * n * length (client_id c).
Proof.
  intros HU. set (h := visits c a k now i f q n V).
  assert (HF : snd (handle_all auth MessagingService_new h) = Finished).
  { apply finished_stops. apply Bool.not_true_iff_false. rewrite existsb_exists. intros (e & He & Hs). apply in_map_iff in He.
    destruct He as ((t, e') & <- & He). subst h. unfold visits in He. apply in_concat in He. destruct He as (v & Hv & He). apply repeat_spec in Hv. subst v.
    unfold visit in He. apply in_map_iff in He. destruct He as (x & [= <- <-] & Hx). cbn [snd] in Hs.
    destruct Hx as [<-|[<-|[<-|[]]]]; cbn [stops] in Hs; try discriminate. unfold let_in in Hs. rewrite HU in Hs. discriminate. }
  destruct (handle_all auth MessagingService_new h) as [[m l] o] eqn:E. cbn [snd] in HF. subst o.
  assert (Ha : after auth h m) by (now exists l). exists m. split; [exact Ha|].
  pose proof (C145_ids auth h m Ha) as HP. subst h. rewrite (all_visits auth c a k now i f q n V HU) in HP. cbn [subs] in HP.
  assert (M : map fst (repeat (client_id c, f) (V * n)) = repeat (client_id c) (V * n)).
  { clear. induction (V * n) as [|j IH]; [reflexivity|]. exact (f_equal (cons (client_id c)) IH). }
  assert (HP' : Permutation (ids_in (subscriptions m)) (repeat (client_id c) (V * n))) by (rewrite <- M; exact HP). clear HP. rename HP' into HP.
  assert (EQ : ids_in (subscriptions m) = repeat (client_id c) (V * n)).
  { pose proof (Permutation_length HP) as HN. rewrite repeat_length in HN. rewrite <- HN.
    apply Forall_eq_repeat. apply Forall_forall. intros x Hx. symmetry. apply (Permutation_in x HP) in Hx. now apply repeat_spec in Hx. }
  split; [|split; [exact EQ|]].
  - apply (C34_session_count auth (visits c a k now i f q n V) m [] Ha); [constructor|]. intros cid. split; [intros []|].
    intros HC. apply connected_owner in HC. destruct HC as (j & HC). rewrite <- ref_online, (all_visits auth c a k now i f q n V HU) in HC. discriminate HC.
  - rewrite EQ. clear. induction (V * n) as [|j IH]; [reflexivity|]. cbn [repeat]. unfold total in *. rewrite sum_cons, IH. lia.
Qed.

(** What the SUBSCRIBE costs the visitor: three bytes and the filter for each time. *)
Theorem C145_price i f q n : length (packet_body (Subscribe i (repeat {| sub_topic := f; sub_qos := q |} n))) = 2 + n * (3 + length f).
Proof.
  cbn [packet_body]. rewrite app_length. f_equal. induction n as [|n IH]; [reflexivity|].
  cbn [repeat flat_map]. rewrite app_length, IH. unfold sub_entry. rewrite app_length. cbn. lia.
Qed.

(** Two visits, each with a SUBSCRIBE of four filters of one byte, by a client with an id of eight bytes; then a run in which
    one visitor comes. *)
Example C145_case :
  let h := visits {| version := Mqtt3; client_id := str "client-1"; clean_session := true; will_message := None; user_name := None; password := None;
                     keep_alive_seconds := 60 |} 1 0 0%Z 7 (str "a") AtMostOnce 3 2 in
  let m := fst (fst (handle_all ex_deny MessagingService_new h)) in
  ids_in (subscriptions m) = repeat (str "client-1") 6 /\ names_in (subscriptions m) = [str "a"] /\ sessions m = []
  /\ total (ids_in (subscriptions m)) = 48 /\ sum asked (map snd h) = 64.
Proof. vm_compute. repeat split. Qed.

(** An id already there is added again; an UNSUBSCRIBE afterwards takes one copy away. *)
Example C145_case_events :
  let c := {| version := Mqtt3; client_id := str "c1"; clean_session := true; will_message := None; user_name := None; password := None;
              keep_alive_seconds := 60 |} in
  let s := {| sub_topic := str "a/b"; sub_qos := AtMostOnce |} in
  let h := [(0%Z, Connected c 1 0); (0%Z, ClientPacket (str "c1") (Subscribe 1 [s]) 0)] in
  let held h := ids_in (subscriptions (fst (fst (handle_all ex_deny MessagingService_new h)))) in
  held h = repeat (str "c1") 1
  /\ held (h ++ [(1%Z, ClientPacket (str "c1") (Subscribe 2 [s; s]) 0)]) = repeat (str "c1") 3
  /\ held (h ++ [(1%Z, ClientPacket (str "c1") (Unsubscribe 2 [str "a/b"]) 0)]) = [].
Proof. vm_compute. repeat split. Qed.

Example C145_case_run :
  exists s, steps ex_deny true (sys_init 1)
    (feasible ex_deny true (sys_init 1)
      (LAccept (ex_peer [ex_client "client-1" None None;
                         Subscribe 7 (repeat {| sub_topic := str "a"; sub_qos := AtMostOnce |} 4); Disconnect] PeerEof) (ex_socket []) 1 :: ex_rounds 12 [0])) = Some s
  /\ hdl s = HIdle /\ ids_in (subscriptions (svc s)) = repeat (str "client-1") 3 /\ sessions (svc s) = [] /\ length (handled s) = 3.
Proof. eexists. split; [vm_compute; reflexivity|]. vm_compute. repeat split. Qed.
