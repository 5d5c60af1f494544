(** Specification of subscriptions, independent of the broker's tree: topic levels, MQTT's matching
    rules, and which subscriptions a history of requests leaves alive. *)
From Verif Require Import Base Base_facts.

(** ** Topic names and filters *)

Definition slash : byte := x2f.
Definition plus : bytes := str "+".
Definition hash : bytes := str "#".

(** The text made of some levels, separated by slashes. *)
Fixpoint join (ls : list bytes) : bytes :=
  match ls with
  | [] => []
  | [l] => l
  | l :: rest => l ++ slash :: join rest
  end.

(** [t] is a text with levels [ls]. *)
Definition has_levels (t : bytes) (ls : list bytes) : Prop :=
  ls <> [] /\ (forall l, In l ls -> ~ In slash l) /\ t = join ls.

(** Matching of filter levels against name levels: a literal level matches itself, [+] matches any
    one level, a final [#] matches all remaining levels, at least one. *)
Inductive levels_match : list bytes -> list bytes -> Prop :=
| LmEnd : levels_match [] []
| LmSame l fl tl : levels_match fl tl -> levels_match (l :: fl) (l :: tl)
| LmPlus l fl tl : levels_match fl tl -> levels_match (plus :: fl) (l :: tl)
| LmHash l tl : levels_match [hash] (l :: tl).

Definition matches (filter name : bytes) : Prop :=
  exists fl tl, has_levels filter fl /\ has_levels name tl /\ levels_match fl tl.

(** No level of the name is a wildcard. MQTT forbids wildcard characters in names altogether. *)
Definition wildcard_free (name : bytes) : Prop :=
  forall tl, has_levels name tl -> ~ In plus tl /\ ~ In hash tl.

(** MQTT's full matching relation: a final [#] matches the parent level too, and a leading wildcard
    does not match names starting with [$]. *)
Inductive mqtt_levels_match : list bytes -> list bytes -> Prop :=
| MqEnd : mqtt_levels_match [] []
| MqSame l fl tl : mqtt_levels_match fl tl -> mqtt_levels_match (l :: fl) (l :: tl)
| MqPlus l fl tl : mqtt_levels_match fl tl -> mqtt_levels_match (plus :: fl) (l :: tl)
| MqHash tl : mqtt_levels_match [hash] tl.

Definition starts_with_dollar (name : bytes) : Prop := exists r, name = str "$" ++ r.

Definition mqtt_matches (filter name : bytes) : Prop :=
  exists fl tl, has_levels filter fl /\ has_levels name tl /\ mqtt_levels_match fl tl
    /\ (starts_with_dollar name -> hd [] fl <> plus /\ hd [] fl <> hash).

(** ** Histories of requests *)

Inductive request :=
| ReqSubscribe (client filter : bytes)
| ReqUnsubscribe (client : bytes) (filters : list bytes)
| ReqDisconnect (client : bytes).

Definition requester (r : request) : bytes :=
  match r with ReqSubscribe c _ | ReqUnsubscribe c _ | ReqDisconnect c => c end.

Definition occurs (x : bytes) (l : list bytes) : nat := count_occ bytes_eq_dec l x.

(** Copies of a subscription of [c] to [f]: each subscribe request adds one, each mention in an
    unsubscribe request takes one away, a disconnect takes one away. *)
Definition live_step (c f : bytes) (n : nat) (r : request) : nat :=
  match r with
  | ReqSubscribe c' f' => if bytes_eqb c c' && bytes_eqb f f' then S n else n
  | ReqUnsubscribe c' fs => if bytes_eqb c c' then n - occurs f fs else n
  | ReqDisconnect c' => if bytes_eqb c c' then n - 1 else n
  end.

Definition live (h : list request) (c f : bytes) : nat := fold_left (live_step c f) h O.

(** MQTT's notion: [c] is subscribed to [f] if it asked for it and has since neither unsubscribed
    from it nor disconnected. *)
Definition holds_step (c f : bytes) (b : bool) (r : request) : bool :=
  match r with
  | ReqSubscribe c' f' => (bytes_eqb c c' && bytes_eqb f f') || b
  | ReqUnsubscribe c' fs => b && negb (bytes_eqb c c' && existsb (bytes_eqb f) fs)
  | ReqDisconnect c' => b && negb (bytes_eqb c c')
  end.

Definition holds (h : list request) (c f : bytes) : bool := fold_left (holds_step c f) h false.

(** No client subscribes to a filter it is already subscribed to. *)
Definition no_repeats (h : list request) : Prop :=
  forall before c f after, h = before ++ ReqSubscribe c f :: after -> holds before c f = false.

(** Filters some client subscribed to. *)
Definition filters (h : list request) : list bytes :=
  flat_map (fun r => match r with ReqSubscribe _ f => [f] | _ => [] end) h.

(** [fs] lists, once each, the filters of the history that match the name. *)
Definition matching_filters (h : list request) (name : bytes) (fs : list bytes) : Prop :=
  NoDup fs /\ forall f, In f fs <-> In f (filters h) /\ matches f name.

Definition sum {A} (g : A -> nat) (l : list A) : nat := list_sum (map g l).

Definition b2nat (b : bool) : nat := if b then 1%nat else 0%nat.
