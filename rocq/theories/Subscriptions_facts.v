(** Facts about the subscription tree. *)
From Coq Require Import Permutation.
From Verif Require Import Base Base_facts Packets HashMap Subscriptions Spec_subs.

(** ** Splitting *)

Lemma split_from_cur cur s : exists l ls, split_slash_from [] s = l :: ls
  /\ split_slash_from cur s = (cur ++ l) :: ls.
Proof.
  revert cur. induction s as [|b s IH]; intros cur; cbn [split_slash_from].
  - exists [], []. now rewrite app_nil_r.
  - destruct (byte_eqb_spec b x2f) as [->|Hn].
    + exists [], (split_slash_from [] s). now rewrite app_nil_r.
    + destruct (IH (cur ++ [b])) as (l & ls & H1 & H2). destruct (IH [b]) as (l' & ls' & H3 & H4).
      rewrite H1 in H3. injection H3 as <- <-.
      exists ([b] ++ l), ls. split; [exact H4|]. rewrite H2. now rewrite <- app_assoc.
Qed.

Lemma split_no_slash l s : ~ In slash l ->
  split_slash (l ++ s) = match split_slash s with a :: r => (l ++ a) :: r | [] => [] end.
Proof.
  unfold split_slash. intros H.
  assert (G : forall cur, split_slash_from cur (l ++ s) = split_slash_from (cur ++ l) s).
  { induction l as [|b l IH]; intros cur; [now rewrite app_nil_r|].
    cbn [app split_slash_from]. destruct (byte_eqb_spec b x2f) as [->|Hn].
    - exfalso. apply H. now left.
    - rewrite IH; [|intros C; apply H; now right]. now rewrite <- app_assoc. }
  rewrite G. cbn [app]. destruct (split_from_cur l s) as (a & r & H1 & H2). now rewrite H1, H2.
Qed.

Lemma split_join ls : ls <> [] -> (forall l, In l ls -> ~ In slash l) -> split_slash (join ls) = ls.
Proof.
  induction ls as [|l ls IH]; intros Hn H; [congruence|].
  destruct ls as [|l2 ls].
  - cbn [join]. rewrite <- (app_nil_r l) at 1. rewrite split_no_slash by (apply H; now left).
    cbn. now rewrite app_nil_r.
  - change (join (l :: l2 :: ls)) with (l ++ slash :: join (l2 :: ls)).
    rewrite split_no_slash by (apply H; now left).
    unfold split_slash. cbn [split_slash_from]. change (byte_eqb slash x2f) with true.
    cbn iota. fold (split_slash (join (l2 :: ls))).
    rewrite IH; [now rewrite app_nil_r|congruence|]. intros x Hx. apply H. now right.
Qed.

Lemma split_from_levels s : forall cur, ~ In slash cur ->
  split_slash_from cur s <> [] /\ (forall l, In l (split_slash_from cur s) -> ~ In slash l)
  /\ cur ++ s = join (split_slash_from cur s).
Proof.
  induction s as [|b s IH]; intros cur H; cbn [split_slash_from].
  - split; [discriminate|]. split; [|cbn [join]; apply app_nil_r].
    intros l [<-|[]]; exact H.
  - destruct (byte_eqb_spec b x2f) as [->|Hn].
    + destruct (IH [] (fun c => c)) as (H1 & H2 & H3). split; [discriminate|]. split.
      * intros l [<-|Hl]; auto.
      * destruct (split_slash_from [] s) as [|l2 ls] eqn:E; [congruence|].
        change (join (cur :: l2 :: ls)) with (cur ++ slash :: join (l2 :: ls)).
        rewrite <- H3. reflexivity.
    + destruct (IH (cur ++ [b])) as (H1 & H2 & H3).
      { rewrite in_app_iff. intros [C|[C|[]]]; [auto|]. apply Hn. exact C. }
      split; [exact H1|]. split; [exact H2|]. rewrite <- H3, <- app_assoc. reflexivity.
Qed.

Lemma split_levels t : has_levels t (split_slash t).
Proof. exact (split_from_levels t [] (fun c => c)). Qed.

Lemma levels_split t ls : has_levels t ls <-> ls = split_slash t.
Proof.
  split; [|intros ->; apply split_levels].
  intros (H1 & H2 & ->). symmetry. now apply split_join.
Qed.

Lemma join_split t : join (split_slash t) = t.
Proof. symmetry. apply split_levels. Qed.

Lemma split_inj a b : split_slash a = split_slash b -> a = b.
Proof. intros H. rewrite <- (join_split a), H. apply join_split. Qed.

Lemma matches_split f t : matches f t <-> levels_match (split_slash f) (split_slash t).
Proof.
  split.
  - intros (fl & tl & H1 & H2 & H). apply levels_split in H1, H2. now subst.
  - intros H. exists (split_slash f), (split_slash t). auto using split_levels.
Qed.

Lemma wildcard_free_split t : wildcard_free t <-> ~ In plus (split_slash t) /\ ~ In hash (split_slash t).
Proof.
  split.
  - intros H. apply H, split_levels.
  - intros H tl Hl. apply levels_split in Hl. now subst.
Qed.

(** ** Counting *)

Lemma occurs_app x a b : occurs x (a ++ b) = (occurs x a + occurs x b)%nat.
Proof. apply count_occ_app. Qed.

Lemma occurs_cons x a l : occurs x (a :: l) = if bytes_eq_dec a x then S (occurs x l) else occurs x l.
Proof. reflexivity. Qed.

Lemma sum_app {A} (g : A -> nat) a b : sum g (a ++ b) = (sum g a + sum g b)%nat.
Proof. unfold sum. now rewrite map_app, list_sum_app. Qed.

Lemma sum_cons {A} (g : A -> nat) a l : sum g (a :: l) = (g a + sum g l)%nat.
Proof. reflexivity. Qed.

Lemma sum_ext {A} (g k : A -> nat) l : (forall a, In a l -> g a = k a) -> sum g l = sum k l.
Proof.
  intros H. induction l as [|a l IH]; [reflexivity|]. rewrite !sum_cons, H, IH; [reflexivity| |now left].
  intros x Hx. apply H. now right.
Qed.

Lemma sum_map {A B} (g : B -> nat) (f : A -> B) l : sum g (map f l) = sum (fun a => g (f a)) l.
Proof. unfold sum. now rewrite map_map. Qed.

Lemma sum_zero {A} (g : A -> nat) l : (forall a, In a l -> g a = O) -> sum g l = O.
Proof.
  intros H. induction l as [|a l IH]; [reflexivity|]. rewrite sum_cons, H, IH; [reflexivity| |now left].
  intros x Hx. apply H. now right.
Qed.

Lemma sum_plus {A} (g k : A -> nat) l : sum (fun a => g a + k a)%nat l = (sum g l + sum k l)%nat.
Proof. induction l as [|a l IH]; [reflexivity|]. rewrite !sum_cons, IH. lia. Qed.

Lemma sum_perm {A} (g : A -> nat) l r : Permutation l r -> sum g l = sum g r.
Proof. induction 1; rewrite ?sum_cons; try lia; reflexivity. Qed.

Lemma sum_le {A} (g k : A -> nat) l : (forall a, In a l -> (g a <= k a)%nat) -> (sum g l <= sum k l)%nat.
Proof.
  intros H. induction l as [|a l IH]; [auto|]. rewrite !sum_cons.
  pose proof (H a (or_introl eq_refl)). assert (sum g l <= sum k l)%nat; [|lia].
  apply IH. intros x Hx. apply H. now right.
Qed.

Lemma occurs_flat_map {A} x (g : A -> list bytes) l :
  occurs x (flat_map g l) = sum (fun a => occurs x (g a)) l.
Proof. induction l as [|a l IH]; [reflexivity|]. cbn [flat_map]. now rewrite occurs_app, IH, sum_cons. Qed.

Lemma sum_sub (g : bytes -> nat) fs L : NoDup fs -> NoDup L ->
  (forall f, In f fs -> In f L) -> (forall f, In f L -> ~ In f fs -> g f = O) ->
  sum g L = sum g fs.
Proof.
  intros Nf NL Hi Hz.
  set (inb f := existsb (bytes_eqb f) fs).
  assert (Hin : forall f, inb f = true <-> In f fs).
  { intros f. unfold inb. rewrite existsb_exists. split.
    - intros (y & H & E). apply bytes_eqb_eq in E. now subst.
    - intros H. exists f. now rewrite bytes_eqb_refl. }
  assert (E : sum g L = sum g (filter inb L)).
  { clear NL Hi. induction L as [|a L IH]; [reflexivity|].
    cbn [filter]. destruct (inb a) eqn:Ea; rewrite !sum_cons.
    - rewrite IH; [reflexivity|]. intros f Hf. apply Hz. now right.
    - rewrite IH; [|intros f Hf; apply Hz; now right].
      rewrite Hz; [reflexivity|now left|]. rewrite <- Hin. congruence. }
  rewrite E. apply sum_perm. apply NoDup_Permutation; [now apply NoDup_filter|exact Nf|].
  intros f. rewrite filter_In, Hin. split; [tauto|]. auto.
Qed.

Lemma occurs_remove_first x c l :
  occurs x (remove_first c l) = (occurs x l - if bytes_eqb x c then 1 else 0)%nat.
Proof.
  unfold occurs. induction l as [|a l IH]; cbn [remove_first count_occ]; [lia|].
  destruct (bytes_eqb_spec a c) as [->|Hn].
  - destruct (bytes_eqb_spec x c) as [->|Hm].
    + destruct (bytes_eq_dec c c); [lia|congruence].
    + destruct (bytes_eq_dec c x); [congruence|lia].
  - cbn [count_occ]. destruct (bytes_eq_dec a x) as [->|Hm]; [|exact IH].
    rewrite IH. destruct (bytes_eqb_spec x c); [congruence|lia].
Qed.

(** ** What the tree stores at a path *)

Fixpoint clients_at (p : list bytes) (n : SubscriptionNode) : list ClientId :=
  match p with
  | [] => clients n
  | s :: p' => match hm_get s (children n) with Some c => clients_at p' c | None => [] end
  end.

Lemma clients_at_new p : clients_at p SubscriptionNode_new = [].
Proof. destruct p; reflexivity. Qed.

Definition path_eq_dec (p q : list bytes) : {p = q} + {p <> q} := list_eq_dec bytes_eq_dec p q.

Lemma clients_at_update f q : forall p n,
  clients_at p (update_node f q n)
  = if path_eq_dec p q then f (clients_at q n) else clients_at p n.
Proof.
  induction q as [|s q IH]; intros p n; cbn [update_node].
  - destruct p as [|s' p]; cbn [clients_at clients children];
      destruct path_eq_dec; try congruence; reflexivity.
  - destruct p as [|s' p]; cbn [clients_at clients children].
    + destruct path_eq_dec; [congruence|reflexivity].
    + rewrite hm_get_insert. destruct (bytes_eqb_spec s' s) as [->|Hn].
      * rewrite IH. destruct (hm_get s (children n)) as [c|].
        -- destruct (path_eq_dec p q), (path_eq_dec (s :: p) (s :: q)); congruence.
        -- rewrite !clients_at_new.
           destruct (path_eq_dec p q), (path_eq_dec (s :: p) (s :: q)); congruence.
      * destruct (path_eq_dec (s' :: p) (s :: q)); congruence.
Qed.

Lemma clients_at_remove c p : forall n,
  clients_at p (remove_client c n) = remove_first c (clients_at p n).
Proof.
  induction p as [|s p IH]; intros [ch cl]; cbn [clients_at clients children remove_client];
    [reflexivity|].
  rewrite hm_get_map. destruct (hm_get s ch); cbn [option_map]; [apply IH|reflexivity].
Qed.

(** Node paths a name leads to. *)
Fixpoint selecting (tl : list bytes) : list (list bytes) :=
  match tl with
  | [] => [[]]
  | s :: tl' => map (cons s) (selecting tl') ++ map (cons seg_plus) (selecting tl') ++ [[seg_hash]]
  end.

Lemma sum_descend c tl s n :
  sum (fun m => sum (fun p => occurs c (clients_at p m)) (selecting tl)) (descend s n)
  = (sum (fun p => occurs c (clients_at (s :: p) n)) (selecting tl)
     + sum (fun p => occurs c (clients_at (seg_plus :: p) n)) (selecting tl))%nat.
Proof.
  unfold descend. rewrite sum_app. f_equal; cbn [clients_at].
  - destruct (hm_get s (children n)) as [m|]; cbn [olist]; [unfold sum at 1; cbn [map list_sum fold_right]; apply Nat.add_0_r|].
    symmetry. now apply sum_zero.
  - destruct (hm_get seg_plus (children n)) as [m|]; cbn [olist]; [unfold sum at 1; cbn [map list_sum fold_right]; apply Nat.add_0_r|].
    symmetry. now apply sum_zero.
Qed.

Lemma walk_count c tl : forall nodes acc,
  occurs c (walk tl nodes acc)
  = (occurs c acc + sum (fun n => sum (fun p => occurs c (clients_at p n)) (selecting tl)) nodes)%nat.
Proof.
  induction tl as [|s tl IH]; intros nodes acc; cbn [walk selecting].
  - rewrite occurs_app, occurs_flat_map. f_equal. apply sum_ext. intros n _. unfold sum. cbn [map list_sum fold_right clients_at]. symmetry. apply Nat.add_0_r.
  - rewrite IH, occurs_app, occurs_flat_map, <- Nat.add_assoc. f_equal.
    induction nodes as [|n nodes IHn]; [reflexivity|].
    cbn [flat_map]. rewrite sum_app, !sum_cons, sum_descend.
    assert (E : sum (fun p => occurs c (clients_at p n))
                  (map (cons s) (selecting tl) ++ map (cons seg_plus) (selecting tl) ++ [[seg_hash]])
                = (sum (fun p => occurs c (clients_at (s :: p) n)) (selecting tl)
                   + sum (fun p => occurs c (clients_at (seg_plus :: p) n)) (selecting tl)
                   + occurs c (hash_clients n))%nat).
    { rewrite !sum_app, !sum_map, sum_cons. unfold sum at 3. cbn [map list_sum fold_right clients_at].
      unfold hash_clients. destruct (hm_get seg_hash (children n)); cbn [occurs count_occ]; lia. }
    rewrite E. cbn beta in *. lia.
Qed.

(** ** The repository after a history *)

Definition apply_request (root : SubscriptionNode) (r : request) : SubscriptionNode :=
  match r with
  | ReqSubscribe c f => fst (subscribe root c {| sub_topic := f; sub_qos := AtMostOnce |})
  | ReqUnsubscribe c fs => unsubscribe root c fs
  | ReqDisconnect c => disconnected root c
  end.

Definition repo_after (h : list request) : SubscriptionNode :=
  fold_left apply_request h SubscriptionNode_new.

(** The clients selected for a name. *)
Definition selected (h : list request) (t : bytes) : list ClientId :=
  match subscribed_clients (repo_after h) t with Some l => l | None => [] end.

Lemma unsubscribe_at c fs : forall root t d,
  occurs d (clients_at (split_slash t) (unsubscribe root c fs))
  = (occurs d (clients_at (split_slash t) root) - if bytes_eqb d c then occurs t fs else 0)%nat.
Proof.
  unfold unsubscribe. induction fs as [|f fs IH]; intros root t d; cbn [fold_left].
  - destruct (bytes_eqb d c); cbn; lia.
  - rewrite IH, clients_at_update, occurs_cons.
    destruct (path_eq_dec (split_slash t) (split_slash f)) as [E|Hn].
    + apply split_inj in E. subst f. rewrite occurs_remove_first.
      destruct (bytes_eq_dec t t); [|congruence]. destruct (bytes_eqb d c); lia.
    + destruct (bytes_eq_dec f t); [subst; congruence|]. reflexivity.
Qed.

Lemma apply_at root r c t :
  occurs c (clients_at (split_slash t) (apply_request root r))
  = live_step c t (occurs c (clients_at (split_slash t) root)) r.
Proof.
  destruct r as [c' f|c' fs|c']; cbn [apply_request live_step].
  - unfold subscribe. cbn [fst sub_topic]. rewrite clients_at_update.
    destruct path_eq_dec as [E|Hn].
    + apply split_inj in E. subst f. rewrite occurs_app, bytes_eqb_refl, andb_true_r.
      unfold occurs at 2. cbn [count_occ].
      destruct (bytes_eq_dec c' c), (bytes_eqb_spec c c'); try congruence; lia.
    + destruct (bytes_eqb_spec t f) as [->|_]; [congruence|]. now rewrite andb_false_r.
  - rewrite unsubscribe_at. destruct (bytes_eqb c c'); lia.
  - unfold disconnected. rewrite clients_at_remove, occurs_remove_first.
    destruct (bytes_eqb c c'); lia.
Qed.

Lemma repo_live h c t :
  occurs c (clients_at (split_slash t) (repo_after h)) = live h c t.
Proof.
  unfold repo_after, live.
  assert (G : forall root n, occurs c (clients_at (split_slash t) root) = n ->
    occurs c (clients_at (split_slash t) (fold_left apply_request h root))
    = fold_left (live_step c t) h n).
  { induction h as [|r h IH]; intros root n H; cbn [fold_left]; [exact H|].
    apply IH. now rewrite apply_at, H. }
  apply G. now rewrite clients_at_new.
Qed.

(** ** Selected clients *)

Lemma selecting_levels tl p : (forall l, In l tl -> ~ In slash l) -> In p (selecting tl) ->
  forall l, In l p -> ~ In slash l.
Proof.
  revert p. induction tl as [|s tl IH]; intros p H Hp l Hl; cbn [selecting] in Hp.
  - destruct Hp as [<-|[]]. destruct Hl.
  - rewrite !in_app_iff, !in_map_iff in Hp.
    destruct Hp as [(q & <- & Hq)|[(q & <- & Hq)|[<-|[]]]].
    + destruct Hl as [<-|Hl]; [apply H; now left|]. apply (IH q); auto. intros x Hx. apply H. now right.
    + destruct Hl as [<-|Hl]; [intros [C|[]]; discriminate|].
      apply (IH q); auto. intros x Hx. apply H. now right.
    + destruct Hl as [<-|[]]. intros [C|[]]; discriminate.
Qed.

Lemma selecting_nonempty tl p : tl <> [] -> In p (selecting tl) -> p <> [].
Proof.
  destruct tl as [|s tl]; [congruence|]. intros _ Hp. cbn [selecting] in Hp.
  rewrite !in_app_iff, !in_map_iff in Hp.
  destruct Hp as [(q & <- & Hq)|[(q & <- & Hq)|[<-|[]]]]; discriminate.
Qed.

Lemma selecting_split t p : In p (selecting (split_slash t)) -> split_slash (join p) = p.
Proof.
  intros H. destruct (split_levels t) as (H1 & H2 & _). apply split_join.
  - now apply (selecting_nonempty _ _ H1).
  - now apply selecting_levels with (1 := H2).
Qed.

(** Exact count for every name, wildcards or not. *)
Lemma selected_count h t c :
  occurs c (selected h t) = sum (fun p => live h c (join p)) (selecting (split_slash t)).
Proof.
  unfold selected, subscribed_clients. rewrite walk_count, sum_cons. cbn [sum map list_sum occurs count_occ].
  rewrite Nat.add_0_l, Nat.add_0_r. apply sum_ext. intros p Hp.
  rewrite <- repo_live. now rewrite (selecting_split t p Hp).
Qed.

Lemma selecting_match tl p : In p (selecting tl) <-> levels_match p tl.
Proof.
  revert p. induction tl as [|s tl IH]; intros p; cbn [selecting].
  - split; [intros [<-|[]]; constructor|]. intros H. inversion H; now left.
  - rewrite !in_app_iff, !in_map_iff. split.
    + intros [(q & <- & Hq)|[(q & <- & Hq)|[<-|[]]]].
      * constructor. now apply IH.
      * apply LmPlus. now apply IH.
      * apply LmHash.
    + intros H. inversion H; subst.
      * left. exists fl. split; [reflexivity|]. now apply IH.
      * right. left. exists fl. split; [reflexivity|]. now apply IH.
      * right. right. now left.
Qed.

Lemma NoDup_app_intro {A} (a b : list A) : NoDup a -> NoDup b -> (forall x, In x a -> ~ In x b) ->
  NoDup (a ++ b).
Proof.
  induction 1 as [|x a Hx Ha IH]; intros Hb H; cbn [app]; [exact Hb|].
  constructor.
  - rewrite in_app_iff. intros [C|C]; [auto|]. apply (H x); [now left|exact C].
  - apply IH; [exact Hb|]. intros y Hy. apply H. now right.
Qed.

Lemma NoDup_map_inj {A B} (f : A -> B) l :
  (forall a b, In a l -> In b l -> f a = f b -> a = b) -> NoDup l -> NoDup (map f l).
Proof.
  intros H Hl. induction Hl as [|x l Hx Hl IH]; cbn [map]; [constructor|]. constructor.
  - rewrite in_map_iff. intros (y & E & Hy). apply Hx.
    rewrite <- (H y x); [exact Hy|now right|now left|exact E].
  - apply IH. intros a b Ha Hb. apply H; now right.
Qed.

Lemma selecting_nodup tl : ~ In plus tl -> ~ In hash tl -> NoDup (selecting tl).
Proof.
  induction tl as [|s tl IH]; intros Hp Hh; cbn [selecting].
  - constructor; [intros []|constructor].
  - assert (N : NoDup (selecting tl)) by (apply IH; intros C; [apply Hp|apply Hh]; now right).
    assert (Hs1 : s <> seg_plus) by (intros C; apply Hp; left; exact C).
    assert (Hs2 : s <> seg_hash) by (intros C; apply Hh; left; exact C).
    apply NoDup_app_intro; [apply NoDup_map_inj; [intros a b _ _ E; congruence|exact N]| |].
    + apply NoDup_app_intro; [apply NoDup_map_inj; [intros a b _ _ E; congruence|exact N]| |].
      * constructor; [intros []|constructor].
      * intros x Hx [<-|[]]. apply in_map_iff in Hx. destruct Hx as (q & E & _). discriminate.
    + intros x Hx Hy. apply in_map_iff in Hx. destruct Hx as (q & <- & _).
      apply in_app_iff in Hy. destruct Hy as [Hy|[Hy|[]]]; [|congruence].
      apply in_map_iff in Hy. destruct Hy as (q' & E & _). congruence.
Qed.

Lemma live_filters h c f : live h c f <> O -> In f (filters h).
Proof.
  unfold live. assert (G : forall n, fold_left (live_step c f) h n <> O -> n <> O \/ In f (filters h)).
  { induction h as [|r h IH]; intros n H; cbn [fold_left] in H; [now left|].
    unfold filters. cbn [flat_map]. rewrite in_app_iff. fold (filters h).
    destruct (IH _ H) as [Hn|Hi]; [|tauto].
    destruct r as [c' f'|c' fs|c']; cbn [live_step] in Hn.
    - destruct (bytes_eqb_spec f f') as [->|_].
      + right. left. now left.
      + rewrite andb_false_r in Hn. now left.
    - left. destruct (bytes_eqb c c'); lia.
    - left. destruct (bytes_eqb c c'); lia. }
  intros H. destruct (G O H) as [C|C]; [congruence|exact C].
Qed.

Lemma selected_live h t c fs : wildcard_free t -> matching_filters h t fs ->
  occurs c (selected h t) = sum (live h c) fs.
Proof.
  intros Hw (Hn & Hf). apply wildcard_free_split in Hw. destruct Hw as (Hw1 & Hw2).
  rewrite selected_count, <- (sum_map (live h c) join).
  apply sum_sub.
  - exact Hn.
  - apply NoDup_map_inj; [|now apply selecting_nodup].
    intros a b Ha Hb E. rewrite <- (selecting_split t a Ha), E. exact (selecting_split t b Hb).
  - intros f Hi. apply Hf in Hi. destruct Hi as (_ & Hm). apply matches_split in Hm.
    apply in_map_iff. exists (split_slash f). split; [apply join_split|]. now apply selecting_match.
  - intros f Hi Hni. destruct (live h c f) eqn:E; [reflexivity|]. exfalso. apply Hni. apply Hf. split.
    + apply (live_filters h c). congruence.
    + apply in_map_iff in Hi. destruct Hi as (p & <- & Hp). apply matches_split.
      rewrite (selecting_split t p Hp). now apply selecting_match.
Qed.

(** Decision procedure for matching, to enumerate filters. *)
Definition matchesb (f t : bytes) : bool :=
  if in_dec path_eq_dec (split_slash f) (selecting (split_slash t)) then true else false.

Lemma matchesb_spec f t : matchesb f t = true <-> matches f t.
Proof.
  unfold matchesb. rewrite matches_split, <- selecting_match.
  destruct in_dec; intuition congruence.
Qed.

Definition matching (h : list request) (t : bytes) : list bytes :=
  filter (fun f => matchesb f t) (nodup bytes_eq_dec (filters h)).

Lemma matching_ok h t : matching_filters h t (matching h t).
Proof.
  split; [apply NoDup_filter, NoDup_nodup|]. intros f. unfold matching.
  rewrite filter_In, nodup_In, matchesb_spec. tauto.
Qed.

(** ** Projections *)

Lemma live_step_other c f n r : requester r <> c -> live_step c f n r = n.
Proof.
  destruct r as [c' f'|c' fs|c']; cbn [requester live_step]; intros H;
    destruct (bytes_eqb_spec c c'); try congruence; reflexivity.
Qed.

Lemma live_own h c f : live (filter (fun r => bytes_eqb (requester r) c) h) c f = live h c f.
Proof.
  unfold live. generalize O as n. induction h as [|r h IH]; intros n; cbn [filter fold_left]; [reflexivity|].
  destruct (bytes_eqb_spec (requester r) c) as [E|Hn]; cbn [fold_left]; [apply IH|].
  rewrite (live_step_other c f n r Hn). apply IH.
Qed.

Lemma live_app h h' c f : live (h ++ h') c f = fold_left (live_step c f) h' (live h c f).
Proof. unfold live. apply fold_left_app. Qed.

Lemma holds_app h h' c f : holds (h ++ h') c f = fold_left (holds_step c f) h' (holds h c f).
Proof. unfold holds. apply fold_left_app. Qed.

Lemma no_repeats_app h h' : no_repeats (h ++ h') -> no_repeats h.
Proof.
  intros H b c f a E. apply (H b c f (a ++ h')). rewrite E, <- app_assoc. reflexivity.
Qed.

Lemma existsb_occurs f fs : existsb (bytes_eqb f) fs = true <-> occurs f fs <> O.
Proof.
  rewrite existsb_exists. assert (E : occurs f fs <> O <-> In f fs).
  { rewrite (count_occ_In bytes_eq_dec). fold (occurs f fs). lia. }
  rewrite E. clear E. split.
  - intros (y & H & E). apply bytes_eqb_eq in E. now subst.
  - intros H. exists f. now rewrite bytes_eqb_refl.
Qed.

Lemma no_repeats_live h c f : no_repeats h -> live h c f = b2nat (holds h c f).
Proof.
  revert c f. induction h as [|r h IH] using rev_ind; intros c f H; [reflexivity|].
  assert (Hh : no_repeats h) by (eapply no_repeats_app; eauto).
  rewrite live_app, holds_app. cbn [fold_left]. rewrite (IH c f Hh).
  destruct r as [c' f'|c' fs|c']; cbn [live_step holds_step].
  - destruct (bytes_eqb_spec c c') as [->|_]; [|reflexivity].
    destruct (bytes_eqb_spec f f') as [->|_]; [|reflexivity].
    cbn [andb orb]. rewrite (H h c' f' []); reflexivity.
  - destruct (bytes_eqb c c'); cbn [andb]; [|now rewrite andb_true_r].
    pose proof (existsb_occurs f fs) as E. destruct (existsb (bytes_eqb f) fs); cbn [negb].
    + rewrite andb_false_r. assert (occurs f fs <> O) by tauto. unfold b2nat. destruct (holds h c f); lia.
    + rewrite andb_true_r. assert (occurs f fs = O); [|lia].
      destruct (occurs f fs); [reflexivity|]. exfalso. assert (false = true) by (apply E; lia). discriminate.
  - destruct (bytes_eqb c c'); cbn [negb]; [rewrite andb_false_r|rewrite andb_true_r; reflexivity].
    destruct (holds h c f); reflexivity.
Qed.
