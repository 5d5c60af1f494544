(** [std::collections::HashMap] with string keys, as an association list.
    Simplification: Rust's iteration order is unspecified; the list order stands for it, and no
    theorem depends on it. [hm_insert] keeps keys unique, so [hm_remove] may drop every entry with
    the key. *)
From Verif Require Import Base Base_facts.

Definition hmap (V : Type) : Type := list (bytes * V).

(** HashMap::get *)
Fixpoint hm_get {V} (k : bytes) (m : hmap V) : option V :=
  match m with
  | [] => None
  | (k', v) :: m' => if bytes_eqb k k' then Some v else hm_get k m'
  end.

(** HashMap::insert: replaces the value of an existing key *)
Fixpoint hm_insert {V} (k : bytes) (v : V) (m : hmap V) : hmap V :=
  match m with
  | [] => [(k, v)]
  | (k', v') :: m' => if bytes_eqb k k' then (k', v) :: m' else (k', v') :: hm_insert k v m'
  end.

(** HashMap::remove *)
Definition hm_remove {V} (k : bytes) (m : hmap V) : hmap V :=
  filter (fun kv => negb (bytes_eqb k (fst kv))) m.

(** HashMap::contains_key *)
Definition hm_mem {V} (k : bytes) (m : hmap V) : bool :=
  match hm_get k m with Some _ => true | None => false end.

(** HashMap::len *)
Definition hm_len {V} (m : hmap V) : nat := length m.

(** HashMap::iter *)
Definition hm_iter {V} (m : hmap V) : list (bytes * V) := m.

(** HashMap::iter_mut, applied to every value *)
Definition hm_map {V} (f : V -> V) (m : hmap V) : hmap V :=
  map (fun kv => (fst kv, f (snd kv))) m.

(** The keys are unique. *)
Definition hm_ok {V} (m : hmap V) : Prop := NoDup (map fst m).

Lemma hm_get_insert {V} k k' (v : V) m :
  hm_get k (hm_insert k' v m) = if bytes_eqb k k' then Some v else hm_get k m.
Proof.
  induction m as [|(a, w) m IH]; cbn [hm_insert hm_get]; [reflexivity|].
  destruct (bytes_eqb_spec k' a) as [->|Hn]; cbn [hm_get].
  - destruct (bytes_eqb_spec k a); reflexivity.
  - destruct (bytes_eqb_spec k a) as [->|Hm]; [|exact IH].
    destruct (bytes_eqb_spec a k'); [congruence|reflexivity].
Qed.

Lemma hm_get_remove {V} k k' (m : hmap V) :
  hm_get k (hm_remove k' m) = if bytes_eqb k k' then None else hm_get k m.
Proof.
  induction m as [|(a, w) m IH]; cbn [hm_remove filter fst hm_get]; [now destruct bytes_eqb|].
  destruct (bytes_eqb_spec k' a) as [->|Hn]; cbn [negb hm_get].
  - fold (hm_remove a m). rewrite IH. destruct (bytes_eqb_spec k a); reflexivity.
  - fold (hm_remove k' m). rewrite IH.
    destruct (bytes_eqb_spec k a) as [->|Hm]; [|reflexivity].
    destruct (bytes_eqb_spec a k'); [congruence|reflexivity].
Qed.

Lemma hm_get_map {V} (f : V -> V) k m : hm_get k (hm_map f m) = option_map f (hm_get k m).
Proof.
  induction m as [|(a, w) m IH]; cbn [hm_map map fst snd hm_get]; [reflexivity|].
  destruct (bytes_eqb k a); [reflexivity|exact IH].
Qed.

Lemma hm_get_None {V} k (m : hmap V) : hm_get k m = None <-> ~ In k (map fst m).
Proof.
  induction m as [|(a, w) m IH]; cbn [hm_get map fst In]; [tauto|].
  destruct (bytes_eqb_spec k a) as [->|Hn]; [intuition discriminate|].
  rewrite IH. intuition congruence.
Qed.

Lemma hm_get_In {V} k (v : V) m : hm_get k m = Some v -> In (k, v) m.
Proof.
  induction m as [|(a, w) m IH]; cbn [hm_get In]; [discriminate|].
  destruct (bytes_eqb_spec k a) as [->|Hn]; [intros [= ->]; now left|auto].
Qed.

Lemma hm_In_get {V} k (v : V) m : hm_ok m -> In (k, v) m -> hm_get k m = Some v.
Proof.
  unfold hm_ok. induction m as [|(a, w) m IH]; cbn [hm_get In map fst]; [tauto|].
  intros Hn [E|H].
  - injection E as -> ->. now rewrite bytes_eqb_refl.
  - inversion Hn; subst. destruct (bytes_eqb_spec k a) as [->|_]; [|auto].
    exfalso. apply H2. apply in_map_iff. now exists (a, v).
Qed.

Lemma hm_keys_insert {V} k (v : V) m :
  map fst (hm_insert k v m) = if hm_mem k m then map fst m else map fst m ++ [k].
Proof.
  unfold hm_mem. induction m as [|(a, w) m IH]; cbn [hm_insert hm_get map fst]; [reflexivity|].
  destruct (bytes_eqb_spec k a) as [->|Hn]; cbn [map fst]; [reflexivity|].
  rewrite IH. destruct (hm_get k m); reflexivity.
Qed.

Lemma NoDup_snoc {A} (x : A) l : NoDup l -> ~ In x l -> NoDup (l ++ [x]).
Proof.
  intros H. induction H as [|y l Hy Hl IH]; cbn [app]; intros Hx.
  - constructor; [intros []|constructor].
  - constructor.
    + rewrite in_app_iff. cbn [In] in *. intuition congruence.
    + apply IH. cbn [In] in Hx. tauto.
Qed.

Lemma hm_ok_insert {V} k (v : V) m : hm_ok m -> hm_ok (hm_insert k v m).
Proof.
  unfold hm_ok. intros H. rewrite hm_keys_insert. unfold hm_mem.
  destruct (hm_get k m) eqn:E; [exact H|]. apply hm_get_None in E. now apply NoDup_snoc.
Qed.

Lemma hm_ok_remove {V} k (m : hmap V) : hm_ok m -> hm_ok (hm_remove k m).
Proof.
  unfold hm_ok, hm_remove. induction m as [|(a, w) m IH]; cbn [filter map fst]; [auto|].
  intros H. inversion H; subst. destruct (negb (bytes_eqb k a)); cbn [map fst]; [|auto].
  constructor; [|auto]. intros C. apply H2. apply in_map_iff in C.
  destruct C as (x & <- & Hx). apply filter_In in Hx. apply in_map. tauto.
Qed.

Lemma hm_ok_nil {V} : hm_ok (@nil (bytes * V)).
Proof. constructor. Qed.
