(** Properties C109, C110: settings from the file and the environment. *)
From Coq Require Import Permutation.
From Verif Require Import Base Base_facts Utf8 Spec_utf8 Utf8_facts HashMap Auth Startup Settings.
Open Scope N_scope.

(** The settings of a broker started with this file and this environment: one result for each order in which the
    HashMap of variables is gone through. *)
Definition settings_from (file : option (hmap value)) (env : list (bytes * bytes)) (r : option Settings) : Prop :=
  (forall name v, In (name, v) env -> plain_name name = true)
  /\ exists props, Permutation props (map snd (collect env)) /\ r = Settings_new file env props.

(** A variable with this name in capital or small letters. *)
Definition variable (env : list (bytes * bytes)) (name v : bytes) : Prop :=
  exists spelled, In (spelled, v) env /\ map lower spelled = name.

(** A string, or a number or boolean with this text. *)
Definition shows (v : value) (s : bytes) : Prop := v = VString s \/ v = VScalar s.

(** The field of a struct with one field: by name in a table, first in an array. *)
Definition field_of (k : bytes) (v x : value) : Prop :=
  (exists m, v = VTable m /\ hm_get k m = Some x) \/ (exists l, v = VArray (x :: l)).

(** What the file says about the listeners: an array of strings (or numbers, or booleans). *)
Definition file_listeners (t : hmap value) (ls : list bytes) : Prop :=
  exists m l, hm_get (str "mqtt") t = Some m /\ field_of (str "listeners_tcp") m (VArray l) /\ Forall2 shows l ls.

(** What the file says about the password file. *)
Definition file_password (t : hmap value) (f : bytes) : Prop :=
  exists m x, hm_get (str "authentication") t = Some m /\ field_of (str "password_file") m x /\ shows x f.

Lemma read_string_shows v s : read_string v = Some s <-> shows v s.
Proof. unfold shows. destruct v; cbn [read_string]; split; try (intros [= ->]; auto); intros [H|H]; try discriminate; now injection H as ->. Qed.

Lemma field_at_of k v x : field_at k v = Some x <-> field_of k v x.
Proof.
  unfold field_of. split.
  - destruct v as [| | |[|y l]|m]; cbn [field_at]; try discriminate; [intros [= ->]; eauto|eauto].
  - intros [(m & -> & H)|(l & ->)]; [exact H|reflexivity].
Qed.

Lemma read_strings_shows l : forall ls, read_strings l = Some ls <-> Forall2 shows l ls.
Proof.
  induction l as [|v l IH]; intros ls; cbn [read_strings].
  - split; [intros [= <-]; constructor|intros H; now inversion H].
  - split.
    + destruct (read_string v) eqn:E1; [|discriminate]. destruct (read_strings l) eqn:E2; [|discriminate].
      intros [= <-]. constructor; [now apply read_string_shows|now apply IH].
    + intros H. inversion H as [|? s ? ss H1 H2]; subst. apply read_string_shows in H1. apply IH in H2. now rewrite H1, H2.
Qed.

Lemma file_listeners_read t ls : file_listeners t ls <->
  exists m x, hm_get (str "mqtt") t = Some m /\ field_at (str "listeners_tcp") m = Some x /\ read_vec x = Some ls.
Proof.
  split.
  - intros (m & l & H1 & H2 & H3). exists m, (VArray l). split; [exact H1|]. split; [now apply field_at_of|now apply read_strings_shows].
  - intros (m & x & H1 & H2 & H3). destruct x as [| | |l|]; try discriminate. exists m, l. split; [exact H1|].
    split; [now apply field_at_of|now apply read_strings_shows].
Qed.

Lemma file_password_read t f : file_password t f <->
  exists m x, hm_get (str "authentication") t = Some m /\ field_at (str "password_file") m = Some x /\ read_string x = Some f.
Proof.
  split; intros (m & x & H1 & H2 & H3); exists m, x; (split; [exact H1|]); split; try now apply field_at_of.
  - now apply read_string_shows.
  - now apply read_string_shows.
Qed.

(** ** Collecting *)

Lemma hm_insert_in {V} k (v : V) m : In (k, v) (hm_insert k v m).
Proof.
  induction m as [|[k' v'] m IH]; cbn [hm_insert]; [now left|].
  destruct (bytes_eqb_spec k k') as [->|]; [now left|now right].
Qed.

Lemma hm_insert_other {V} k k' (v v' : V) m : k' <> k -> In (k', v') m -> In (k', v') (hm_insert k v m).
Proof.
  intros Hn. induction m as [|[a w] m IH]; cbn [hm_insert]; [intros []|].
  destruct (bytes_eqb_spec k a) as [<-|]; intros [E|H].
  - injection E as <- <-. congruence.
  - now right.
  - now left.
  - right. auto.
Qed.

Lemma hm_insert_from {V} k (v : V) m x : In x (hm_insert k v m) -> x = (k, v) \/ In x m.
Proof.
  induction m as [|[a w] m IH]; cbn [hm_insert]; [intros [<-|[]]; now left|].
  destruct (bytes_eqb_spec k a) as [<-|]; intros [<-|H]; try (now left); try (right; now left); try (right; now right).
  destruct (IH H) as [->|K]; [now left|right; now right].
Qed.

(** Every key stays once it is there. *)
Lemma collect_keeps env : forall m k, (exists p v, In (k, (p, v)) m /\ k = dotted p) ->
  exists p v, In (k, (p, v)) (fold_left collect_step env m) /\ k = dotted p.
Proof.
  induction env as [|e env IH]; intros m k H; [exact H|]. cbn [fold_left]. apply IH. unfold collect_step.
  destruct (key_of (fst e)) as [q|]; [|exact H]. destruct (bytes_eqb_spec k (dotted q)) as [->|Hn].
  - exists q, (snd e). split; [apply hm_insert_in|reflexivity].
  - destruct H as (p & v & Hin & E). exists p, v. split; [now apply hm_insert_other|exact E].
Qed.

Lemma collect_has env : forall m name v k, In (name, v) env -> key_of name = Some k ->
  exists p v, In (dotted k, (p, v)) (fold_left collect_step env m) /\ dotted k = dotted p.
Proof.
  induction env as [|e env IH]; intros m name v k; [intros []|]. intros [->|H] Hk; cbn [fold_left].
  - apply collect_keeps. unfold collect_step. cbn [fst snd]. rewrite Hk. exists k, v. split; [apply hm_insert_in|reflexivity].
  - eapply IH; eauto.
Qed.

(** Every entry comes from a variable. *)
Lemma collect_from env : forall m x, In x (fold_left collect_step env m) ->
  In x m \/ exists name k v, In (name, v) env /\ key_of name = Some k /\ x = (dotted k, (k, v)).
Proof.
  induction env as [|e env IH]; intros m x H; cbn [fold_left] in H; [now left|].
  destruct (IH _ _ H) as [K|(name & k & v & K1 & K2 & K3)].
  - unfold collect_step in K. destruct (key_of (fst e)) as [q|] eqn:E; [|now left].
    apply hm_insert_from in K. destruct K as [->|K]; [|now left]. right. exists (fst e), q, (snd e).
    split; [left; now destruct e|auto].
  - right. exists name, k, v. split; [now right|auto].
Qed.

(** Paths and their texts *)

Definition no_dot (s : bytes) : Prop := ~ In x2e s.

Lemma no_dot_app p q r r' : no_dot p -> no_dot q -> (r = [] \/ exists t, r = x2e :: t) -> (r' = [] \/ exists t, r' = x2e :: t) ->
  p ++ r = q ++ r' -> p = q /\ r = r'.
Proof.
  revert q. induction p as [|x p IH]; intros q Hp Hq Hr Hr' E.
  - destruct q as [|y q]; [auto|]. cbn [app] in E. exfalso. destruct Hr as [->|(t & ->)]; [discriminate|].
    injection E as <- _. apply Hq. now left.
  - destruct q as [|y q].
    + cbn [app] in E. exfalso. destruct Hr' as [->|(t & ->)]; [discriminate|]. injection E as -> _. apply Hp. now left.
    + cbn [app] in E. injection E as -> E. destruct (IH q) as (-> & ->); auto; intros K; [apply Hp|apply Hq]; now right.
Qed.

Lemma dots_shape (ps : list bytes) : let r := flat_map (fun q => x2e :: q) ps in r = [] \/ exists t, r = x2e :: t.
Proof. destruct ps; cbn; [now left|right; eauto]. Qed.

Lemma dots_inj ps : forall qs, Forall no_dot ps -> Forall no_dot qs ->
  flat_map (fun q => x2e :: q) ps = flat_map (fun q => x2e :: q) qs -> ps = qs.
Proof.
  induction ps as [|p ps IH]; intros [|q qs] Hp Hq E; try reflexivity; try discriminate.
  cbn [flat_map app] in E. injection E as E. inversion_clear Hp. inversion_clear Hq.
  destruct (no_dot_app p q _ _ H H1 (dots_shape ps) (dots_shape qs) E) as (-> & E'). f_equal. auto.
Qed.

Lemma dotted_inj ps qs : ps <> [] -> qs <> [] -> Forall no_dot ps -> Forall no_dot qs -> dotted ps = dotted qs -> ps = qs.
Proof.
  destruct ps as [|p ps]; [congruence|]. destruct qs as [|q qs]; [congruence|]. intros _ _ Hp Hq E. cbn [dotted] in E.
  inversion_clear Hp. inversion_clear Hq.
  destruct (no_dot_app p q _ _ H H1 (dots_shape ps) (dots_shape qs) E) as (-> & E'). f_equal. now apply dots_inj.
Qed.

Lemma parts_some cur s : parts cur s <> [].
Proof.
  revert cur. induction s as [|x s IH]; intros cur; cbn [parts]; [discriminate|].
  destruct (byte_eqb x x5f); [|apply IH]. destruct s as [|y s]; [apply IH|]. destruct (byte_eqb y x5f); [discriminate|apply IH].
Qed.

Lemma parts_no_dot n : forall s cur, (length s < n)%nat -> no_dot cur -> no_dot s -> Forall no_dot (parts cur s).
Proof.
  assert (R : forall cur, no_dot cur -> no_dot (rev cur)) by (intros cur H K; apply H; now apply in_rev).
  induction n as [|n IH]; intros s cur L Hc Hs; [lia|].
  destruct s as [|x s]; cbn [parts]; [constructor; auto|]. cbn [length] in L.
  assert (Hx : no_dot (x :: cur)) by (intros [->|K]; [apply Hs; now left|auto]).
  assert (Hs' : no_dot s) by (intros K; apply Hs; now right).
  destruct (byte_eqb x x5f); [|apply IH; auto; lia].
  destruct s as [|y s]; [apply IH; auto; cbn [length] in *; lia|]. destruct (byte_eqb y x5f); [|apply IH; auto; lia].
  constructor; [auto|]. apply IH; [cbn [length] in L; lia|intros []|]. intros K. apply Hs'. now right.
Qed.

Lemma lower_dot b : plain_char b = true -> lower b <> x2e.
Proof. destruct b; vm_compute; congruence. Qed.

Lemma after_prefix_app p s r : after_prefix p s = Some r -> s = p ++ r.
Proof.
  revert s. induction p as [|x p IH]; intros s; cbn [after_prefix]; [now intros [= <-]|].
  destruct s as [|y s]; [discriminate|]. destruct (byte_eqb x y) eqn:E; [|discriminate].
  intros H. apply IH in H. apply Byte.byte_dec_bl in E. now subst.
Qed.

(** A key is the path of all parts, none empty, or is no path. *)
Lemma key_shape name k : plain_name name = true -> key_of name = Some k ->
  exists ps, ps <> [] /\ Forall no_dot ps /\ dotted k = dotted ps /\ (k = ps \/ In [] ps).
Proof.
  unfold key_of. intros HP. destruct (after_prefix env_prefix (map lower name)) as [rest|] eqn:E; [|discriminate].
  intros [= <-]. exists (parts [] rest). split; [apply parts_some|]. split.
  - apply (parts_no_dot (Datatypes.S (length rest))); [lia|intros []|]. intros K. apply after_prefix_app in E.
    assert (K' : In x2e (map lower name)) by (rewrite E; apply in_or_app; now right).
    apply in_map_iff in K'. destruct K' as (b & Hb & Hin). unfold plain_name in HP. rewrite forallb_forall in HP.
    exact (lower_dot b (HP b Hin) Hb).
  - destruct (existsb _ (parts [] rest)) eqn:EX; [|auto]. split; [cbn; now rewrite app_nil_r|]. right.
    apply existsb_exists in EX. destruct EX as ([|x y] & H1 & H2); [exact H1|discriminate].
Qed.

Lemma key_unique name k ps : plain_name name = true -> key_of name = Some k -> dotted k = dotted ps ->
  ps <> [] -> Forall no_dot ps -> ~ In [] ps -> k = ps.
Proof.
  intros HP HK E Hn Hd Hi. destruct (key_shape name k HP HK) as (qs & H1 & H2 & H3 & H4).
  assert (qs = ps) as -> by (apply dotted_inj; auto; congruence). now destruct H4.
Qed.

(** ** Merging *)

Definition K_mqtt : bytes := str "mqtt".
Definition K_tcp : bytes := str "listeners_tcp".

(** The root holds no listeners that can be read, and not for want of the key [mqtt] or as an array. *)
Definition spoilt (root : value) : Prop :=
  match hm_get K_mqtt (table_of root) with
  | Some (VTable m) => match hm_get K_tcp m with Some (VArray _) => False | _ => True end
  | Some (VArray _) | None => False
  | Some _ => True
  end.

Lemma spoilt_fails root : spoilt root -> read_settings root = None.
Proof.
  unfold spoilt, read_settings. fold K_mqtt. destruct (hm_get K_mqtt (table_of root)) as [v|]; [|intros []].
  intros H. destruct (hm_get (str "authentication") (table_of root)) as [a|]; [|reflexivity].
  assert (E : read_mqtt v = None); [|now rewrite E].
  unfold read_mqtt. fold K_tcp. destruct v as [| | |l|m]; try reflexivity; [destruct H|]. cbn [field_at].
  destruct (hm_get K_tcp m) as [[]|]; try reflexivity; destruct H.
Qed.

Definition under (k : list bytes) (p : list bytes) : Prop := exists more, p = k ++ more.

Lemma set_string_kind ks s v : match set_path ks (VString s) v with VArray _ => False | _ => True end.
Proof. destruct ks; exact I. Qed.

(** What a variable does to the listeners. *)
Lemma set_listeners ks s root : ks <> [] ->
  (ks = [K_mqtt] \/ under [K_mqtt; K_tcp] ks -> spoilt (set_path ks (VString s) root))
  /\ (spoilt root -> spoilt (set_path ks (VString s) root)).
Proof.
  intros Hn. destruct ks as [|k ks]; [congruence|]. unfold spoilt. cbn [set_path table_of]. rewrite hm_get_insert.
  destruct (bytes_eqb_spec K_mqtt k) as [<-|Hk].
  - destruct ks as [|k2 ks]; [split; intros; exact I|]. cbn [set_path]. rewrite hm_get_insert.
    destruct (bytes_eqb_spec K_tcp k2) as [<-|Hk2].
    + split; intros _; pose proof (set_string_kind ks s) as K;
        destruct (hm_get K_mqtt (table_of root)) as [v|]; match goal with |- context [set_path ks (VString s) ?x] => specialize (K x); destruct (set_path ks (VString s) x); auto end.
    + split.
      * intros [E|(more & E)]; [discriminate|]. cbn [app] in E. injection E as E _. congruence.
      * destruct (hm_get K_mqtt (table_of root)) as [[| | | |m]|]; try (intros H; exact I); auto; intros [].
  - split; [|auto]. intros [E|(more & E)]; [|cbn [app] in E]; injection E as E; congruence.
Qed.

Lemma merge_spoilt props : forall root, Forall (fun kv => fst kv <> []) props ->
  (spoilt root \/ exists ks s, In (ks, s) props /\ (ks = [K_mqtt] \/ under [K_mqtt; K_tcp] ks)) -> spoilt (merge root props).
Proof.
  induction props as [|[ks s] props IH]; intros root HF H; cbn [merge fold_left].
  - destruct H as [H|(ks & s & [] & _)]. exact H.
  - inversion_clear HF. cbn [fst snd] in *. destruct (set_listeners ks s root H0) as (S1 & S2).
    apply IH; [assumption|]. destruct H as [H|(ks' & s' & [E|Hin] & H)]; [left; auto| |right; eauto].
    injection E as <- <-. left. auto.
Qed.

(** The listeners are the file's, or spoilt. *)
Definition kept (t : hmap value) (root : value) : Prop :=
  spoilt root \/ hm_get K_mqtt (table_of root) = hm_get K_mqtt t
  \/ exists m m', hm_get K_mqtt (table_of root) = Some (VTable m) /\ hm_get K_mqtt t = Some (VTable m')
       /\ hm_get K_tcp m = hm_get K_tcp m'.

Lemma set_kept t ks s root : ks <> [] -> kept t root -> kept t (set_path ks (VString s) root).
Proof.
  intros Hn [H|H]; [left; now apply set_listeners|].
  destruct ks as [|k ks]; [congruence|]. unfold kept, spoilt. cbn [set_path table_of]. rewrite hm_get_insert.
  destruct (bytes_eqb_spec K_mqtt k) as [<-|Hk]; [|right; exact H].
  destruct ks as [|k2 ks]; [left; exact I|]. cbn [set_path]. rewrite hm_get_insert.
  destruct (bytes_eqb_spec K_tcp k2) as [<-|Hk2].
  - left. match goal with |- context [set_path ks (VString s) ?x] => pose proof (set_string_kind ks s x) as K; destruct (set_path ks (VString s) x); auto end.
  - destruct H as [H|(m & m' & H1 & H2 & H3)].
    + rewrite H. destruct (hm_get K_mqtt t) as [[| | | |m]|]; cbn [table_of hm_get];
        try (left; exact I).
      right. right. exists (hm_insert k2 (set_path ks (VString s) (match hm_get k2 m with Some v => v | None => VNil end)) m), m.
      split; [reflexivity|]. split; [reflexivity|]. rewrite hm_get_insert. destruct (bytes_eqb_spec K_tcp k2); congruence.
    + rewrite H1. cbn [table_of]. right. right. do 2 eexists. split; [reflexivity|]. split; [exact H2|].
      rewrite hm_get_insert. destruct (bytes_eqb_spec K_tcp k2); congruence.
Qed.

Lemma merge_kept t props : forall root, Forall (fun kv => fst kv <> []) props -> kept t root -> kept t (merge root props).
Proof.
  induction props as [|[ks s] props IH]; intros root HF H; [exact H|]. cbn [merge fold_left]. inversion_clear HF.
  apply IH; [assumption|]. now apply set_kept.
Qed.

Lemma key_nonempty name k : key_of name = Some k -> k <> [].
Proof.
  unfold key_of. destruct (after_prefix _ _); [|discriminate]. intros [= <-].
  destruct (existsb _ _); [discriminate|apply parts_some].
Qed.

Lemma props_nonempty env props : Permutation props (map snd (collect env)) -> Forall (fun kv => fst kv <> []) props.
Proof.
  intros HP. apply Forall_forall. intros x Hx. apply (Permutation_in _ HP) in Hx. apply in_map_iff in Hx.
  destruct Hx as (y & <- & Hy). destruct (collect_from env [] y Hy) as [[]|(name & k & v & _ & Hk & ->)].
  cbn [fst snd]. eapply key_nonempty; eauto.
Qed.

(** ** C109 *)

(** Whatever the environment, listeners that are read are the file's. *)
Theorem C109_listeners_from_file t env s : settings_from (Some t) env (Some s) -> file_listeners t (listeners_tcp s).
Proof.
  intros (_ & props & HP & HS). apply file_listeners_read. unfold Settings_new in HS. destruct (unicode env); [|discriminate].
  pose proof (merge_kept t props (VTable t) (props_nonempty env props HP) (or_intror (or_introl eq_refl))) as K.
  destruct K as [K|K]; [rewrite (spoilt_fails _ K) in HS; discriminate|].
  unfold read_settings in HS. fold K_mqtt in HS. destruct (hm_get K_mqtt (table_of (merge (VTable t) props))) as [v|] eqn:EV; [|discriminate].
  destruct (hm_get (str "authentication") _) as [a|]; [|discriminate].
  destruct (read_mqtt v) as [ls|] eqn:EM; [|discriminate]. destruct (read_authentication a); [|discriminate].
  injection HS as ->. cbn [listeners_tcp]. unfold read_mqtt in EM. fold K_tcp in EM.
  destruct (field_at K_tcp v) as [x|] eqn:EF; [|discriminate].
  destruct K as [K|(m & m' & K1 & K2 & K3)].
  - exists v, x. fold K_mqtt K_tcp. auto.
  - injection K1 as ->. cbn [field_at] in EF. exists (VTable m'), x. fold K_mqtt K_tcp. cbn [field_at]. rewrite <- K3. auto.
Qed.

(** The promise of README.md:30-36 for the listeners: some variable changes them. *)
Definition C109_statement : Prop :=
  exists t env s, settings_from (Some t) env (Some s) /\ ~ file_listeners t (listeners_tcp s).

Theorem C109_variables_take_precedence_refuted : ~ C109_statement.
Proof. intros (t & env & s & H & HN). exact (HN (C109_listeners_from_file t env s H)). Qed.

(** The variable for them, or one for the whole table, is an error. *)
Lemma variable_key env name v ps : key_of name = Some ps -> In (name, v) env ->
  forall props, Permutation props (map snd (collect env)) -> (forall n v, In (n, v) env -> plain_name n = true) ->
  Forall no_dot ps -> ~ In [] ps -> exists s, In (ps, s) props.
Proof.
  intros HK Hin props HP Hplain Hd Hi.
  destruct (collect_has env [] name v ps Hin HK) as (p & w & Hc & E). fold (collect env) in Hc.
  destruct (collect_from env [] _ Hc) as [[]|(name' & k' & v' & Hin' & HK' & E')]. injection E' as E1 -> ->.
  assert (k' = ps) as ->.
  { eapply key_unique; eauto; [eapply key_nonempty; eauto]. }
  exists v'. apply (Permutation_in _ (Permutation_sym HP)). apply in_map_iff. exists (dotted ps, (ps, v')). split; [reflexivity|exact Hc].
Qed.

Theorem C109_variable_stops_the_start t env v :
  variable env (str "ratelmq_mqtt__listeners_tcp") v \/ variable env (str "ratelmq_mqtt") v ->
  forall r, settings_from t env r -> r = None.
Proof.
  intros H r (Hplain & props & HP & ->). unfold Settings_new. destruct t as [t|]; [|reflexivity].
  destruct (unicode env); [|reflexivity]. apply spoilt_fails, merge_spoilt; [eapply props_nonempty; eauto|]. right.
  assert (D : forall ps : list bytes, forallb (fun p => forallb (fun b => negb (byte_eqb b x2e)) p && match p with [] => false | _ => true end) ps = true ->
     Forall no_dot ps /\ ~ In [] ps).
  { intros ps HF. rewrite forallb_forall in HF. split.
    - apply Forall_forall. intros p Hp K. specialize (HF p Hp). apply andb_prop in HF. destruct HF as (HF & _).
      rewrite forallb_forall in HF. specialize (HF _ K). discriminate.
    - intros K. specialize (HF _ K). discriminate. }
  destruct H as [(name & Hin & E)|(name & Hin & E)].
  - assert (HK : key_of name = Some [K_mqtt; K_tcp]) by (unfold key_of; rewrite E; vm_compute; reflexivity).
    destruct (D [K_mqtt; K_tcp] eq_refl) as (D1 & D2).
    destruct (variable_key env name v _ HK Hin props HP Hplain D1 D2) as (s & Hs). exists [K_mqtt; K_tcp], s.
    split; [exact Hs|]. right. now exists [].
  - assert (HK : key_of name = Some [K_mqtt]) by (unfold key_of; rewrite E; vm_compute; reflexivity).
    destruct (D [K_mqtt] eq_refl) as (D1 & D2).
    destruct (variable_key env name v _ HK Hin props HP Hplain D1 D2) as (s & Hs). exists [K_mqtt], s. auto.
Qed.

(** And so the program panics before it starts any task. *)
Theorem C109_program_panics t env v bare w :
  variable env (str "ratelmq_mqtt__listeners_tcp") v \/ variable env (str "ratelmq_mqtt") v ->
  settings_from t env (config w) -> prepare bare w = None.
Proof.
  intros H HS. unfold prepare. rewrite (C109_variable_stops_the_start t env v H _ HS). now destruct (slice_ok _ _).
Qed.

Definition ex_table : hmap value :=
  [(str "mqtt", VTable [(str "listeners_tcp", VArray [VString (str "0.0.0.0:1883")])]);
   (str "authentication", VTable [(str "password_file", VString (str "/etc/ratelmq/passwd"))])].

(** config/ratelmq.toml as it is, and with the variable for its own value. *)
Example C109_case :
  settings_from (Some ex_table) [] (Some {| listeners_tcp := [str "0.0.0.0:1883"]; password_file := str "/etc/ratelmq/passwd" |})
  /\ settings_from (Some ex_table) [(str "RATELMQ_MQTT__LISTENERS_TCP", str "0.0.0.0:1883")] None.
Proof.
  split; (split; [|eexists; split; [apply Permutation_refl|vm_compute; reflexivity]]).
  - intros n v [].
  - intros n v [[= <- _]|[]]. vm_compute. reflexivity.
Qed.

(** ** C110 *)

Definition K_auth : bytes := str "authentication".
Definition K_pw : bytes := str "password_file".

Definition begins (p s : bytes) : Prop := exists r, s = p ++ r.

Lemma parts_head n : forall s cur p ps, (length s < n)%nat -> parts cur s = p :: ps -> exists t, rev cur ++ s = p ++ t.
Proof.
  induction n as [|n IH]; intros s cur p ps L; [lia|]. destruct s as [|x s]; cbn [parts].
  - intros [= <- _]. exists []. reflexivity.
  - cbn [length] in L.
    assert (K : parts (x :: cur) s = p :: ps -> exists t, rev cur ++ x :: s = p ++ t).
    { intros H. destruct (IH s (x :: cur) p ps) as (t & E); [lia|exact H|]. exists t. cbn [rev] in E. rewrite <- app_assoc in E. exact E. }
    destruct (byte_eqb x x5f); [|exact K]. destruct s as [|y s]; [exact K|]. destruct (byte_eqb y x5f); [|exact K].
    intros [= <- _]. eauto.
Qed.

(** A key under [h] is of a variable whose name begins with it. *)
Lemma key_head name h more : plain_name name = true -> key_of name = Some (h :: more) -> no_dot h -> h <> [] ->
  begins (env_prefix ++ h) (map lower name).
Proof.
  intros HP HK Hd Hn. pose proof (key_shape name _ HP HK) as (ps & H1 & H2 & H3 & H4).
  unfold key_of in HK. destruct (after_prefix env_prefix (map lower name)) as [rest|] eqn:E; [|discriminate].
  apply after_prefix_app in E.
  destruct (existsb _ (parts [] rest)) eqn:EX.
  - injection HK as E1 <-. exfalso.
    assert (ND : Forall no_dot (parts [] rest)).
    { apply (parts_no_dot (Datatypes.S (length rest))); [lia|intros []|]. intros K.
      assert (K' : In x2e (map lower name)) by (rewrite E; apply in_or_app; now right).
      apply in_map_iff in K'. destruct K' as (b & Hb & Hin). unfold plain_name in HP. rewrite forallb_forall in HP.
      exact (lower_dot b (HP b Hin) Hb). }
    assert (E2 : parts [] rest = [h]).
    { apply dotted_inj; [apply parts_some|discriminate|exact ND|now constructor|]. cbn [dotted flat_map]. now rewrite app_nil_r. }
    rewrite E2 in EX. cbn [existsb] in EX. destruct h; [congruence|discriminate].
  - injection HK as E1. destruct (parts_head (Datatypes.S (length rest)) rest [] h more) as (t & Et); [lia|exact E1|].
    cbn [rev app] in Et. exists t. rewrite E, Et. now rewrite app_assoc.
Qed.

(** The keys that are set, of an environment without other variables that begin with [h]. *)
Lemma props_from env props ks s : Permutation props (map snd (collect env)) -> In (ks, s) props ->
  exists name, In (name, s) env /\ key_of name = Some ks.
Proof.
  intros HP Hin. apply (Permutation_in _ HP) in Hin. apply in_map_iff in Hin. destruct Hin as ([d [k v]] & [= -> ->] & Hc).
  destruct (collect_from env [] _ Hc) as [[]|(name & k & v & Hi & HK & [= _ -> ->])]. eauto.
Qed.

Lemma merge_other h props : forall root, (forall ks s, In (ks, s) props -> exists k more, ks = k :: more /\ k <> h) ->
  hm_get h (table_of (merge root props)) = hm_get h (table_of root).
Proof.
  induction props as [|[ks s] props IH]; intros root H; [reflexivity|]. cbn [merge fold_left fst snd].
  unfold merge in IH. rewrite IH by (intros; apply (H ks0 s0); now right).
  destruct (H ks s (or_introl eq_refl)) as (k & more & -> & Hk). cbn [set_path table_of]. rewrite hm_get_insert.
  destruct (bytes_eqb_spec h k); congruence.
Qed.

Lemma merge_password v props : forall root,
  (forall ks s, In (ks, s) props -> ks <> [] /\ (hd [] ks = K_auth -> ks = [K_auth; K_pw] /\ s = v)) ->
  (exists m, hm_get K_auth (table_of root) = Some (VTable m) /\ hm_get K_pw m = Some (VString v))
  \/ (exists s, In ([K_auth; K_pw], s) props) ->
  exists m, hm_get K_auth (table_of (merge root props)) = Some (VTable m) /\ hm_get K_pw m = Some (VString v).
Proof.
  induction props as [|[ks s] props IH]; intros root H HI.
  - destruct HI as [HI|(s & [])]. exact HI.
  - cbn [merge fold_left fst snd]. apply IH; [intros; apply H; now right|].
    destruct (H ks s (or_introl eq_refl)) as (Hn & Hk). destruct ks as [|k ks]; [congruence|]. cbn [hd] in Hk.
    destruct (bytes_eqb_spec K_auth k) as [<-|Hne].
    + destruct (Hk eq_refl) as ([= ->] & ->). left. cbn [set_path table_of]. rewrite hm_get_insert, bytes_eqb_refl.
      eexists. split; [reflexivity|]. now rewrite hm_get_insert, bytes_eqb_refl.
    + destruct HI as [(m & H1 & H2)|(s' & [E|Hin])].
      * left. cbn [set_path table_of]. rewrite hm_get_insert. destruct (bytes_eqb_spec K_auth k); [congruence|]. eauto.
      * injection E as E _ _. congruence.
      * right. eauto.
Qed.

(** The variable for the password file overrides the file, if no other variable meddles with either table. *)
Theorem C110_password_file_overridden t env v ls : file_listeners t ls ->
  variable env (str "ratelmq_authentication__password_file") v ->
  (forall name w, In (name, w) env -> begins (str "ratelmq_authentication") (map lower name) ->
     map lower name = str "ratelmq_authentication__password_file" /\ w = v) ->
  (forall name w, In (name, w) env -> ~ begins (str "ratelmq_mqtt") (map lower name)) ->
  (forall name w, In (name, w) env -> is_utf8 name /\ is_utf8 w) ->
  forall r, settings_from (Some t) env r -> r = Some {| listeners_tcp := ls; password_file := v |}.
Proof.
  intros FL (name0 & Hin0 & E0) Hauth Hmqtt Hutf r (Hplain & props & HP & ->).
  apply file_listeners_read in FL. destruct FL as (fm & fx & F1 & F2 & F3).
  unfold Settings_new.
  assert (HU : unicode env = true).
  { unfold unicode. apply forallb_forall. intros [n w] Hn. destruct (Hutf n w Hn). cbn [fst snd].
    apply andb_true_iff. split; now apply utf8_ok_iff. }
  rewrite HU. unfold read_settings.
  assert (KM : hm_get K_mqtt (table_of (merge (VTable t) props)) = hm_get K_mqtt t).
  { apply merge_other. intros ks s Hin. destruct (props_from env props ks s HP Hin) as (name & Hn & HK).
    destruct ks as [|k more]; [now apply key_nonempty in HK|]. exists k, more. split; [reflexivity|]. intros ->.
    apply (Hmqtt name s Hn). refine (key_head name K_mqtt more (Hplain _ _ Hn) HK _ _); [|discriminate].
    intros K. vm_compute in K. intuition discriminate. }
  fold K_mqtt in F1 |- *. rewrite KM, F1.
  assert (KA : exists m, hm_get K_auth (table_of (merge (VTable t) props)) = Some (VTable m) /\ hm_get K_pw m = Some (VString v)).
  { apply merge_password.
    - intros ks s Hin. destruct (props_from env props ks s HP Hin) as (name & Hn & HK). split; [eapply key_nonempty; eauto|].
      destruct ks as [|k more]; [discriminate|]. cbn [hd]. intros ->.
      destruct (Hauth name s Hn) as (En & ->); [|split; [|reflexivity]].
      + refine (key_head name K_auth more (Hplain _ _ Hn) HK _ _); [|discriminate]. intros K. vm_compute in K. intuition discriminate.
      + unfold key_of in HK. rewrite En in HK. vm_compute in HK. injection HK as <-. reflexivity.
    - right. refine (variable_key env name0 v _ _ Hin0 props HP Hplain _ _).
      + unfold key_of. rewrite E0. vm_compute. reflexivity.
      + repeat constructor; intros K; vm_compute in K; intuition discriminate.
      + intros [K|[K|[]]]; discriminate. }
  destruct KA as (m & K1 & K2). fold K_auth. rewrite K1. unfold read_mqtt, read_authentication. rewrite F2, F3.
  cbn [field_at]. fold K_pw. rewrite K2. reflexivity.
Qed.

(** Without variables that begin so, the settings are the file's, if it has both. *)
Theorem C110_without_variables t env :
  (forall name w, In (name, w) env -> ~ begins (str "ratelmq_authentication") (map lower name) /\ ~ begins (str "ratelmq_mqtt") (map lower name)) ->
  (forall name w, In (name, w) env -> is_utf8 name /\ is_utf8 w) ->
  forall r, settings_from (Some t) env r ->
    forall s, r = Some s <-> file_listeners t (listeners_tcp s) /\ file_password t (password_file s).
Proof.
  intros Hno Hutf r (Hplain & props & HP & ->) s. unfold Settings_new.
  assert (HU : unicode env = true).
  { unfold unicode. apply forallb_forall. intros [n w] Hn. destruct (Hutf n w Hn). cbn [fst snd].
    apply andb_true_iff. split; now apply utf8_ok_iff. }
  rewrite HU. unfold read_settings.
  assert (KM : forall h, no_dot h -> h <> [] -> (forall name w, In (name, w) env -> ~ begins (env_prefix ++ h) (map lower name)) ->
    hm_get h (table_of (merge (VTable t) props)) = hm_get h t).
  { intros h Hd Hne Hb. apply merge_other. intros ks s' Hin. destruct (props_from env props ks s' HP Hin) as (name & Hn & HK).
    destruct ks as [|k more]; [now apply key_nonempty in HK|]. exists k, more. split; [reflexivity|]. intros ->.
    apply (Hb name s' Hn). exact (key_head name h more (Hplain _ _ Hn) HK Hd Hne). }
  rewrite (KM (str "mqtt")), (KM (str "authentication")).
  - rewrite file_listeners_read, file_password_read. destruct (hm_get (str "mqtt") t) as [m|]; [|split; [discriminate|intros ((? & ? & [=] & _) & _)]].
    destruct (hm_get (str "authentication") t) as [a|]; [|split; [discriminate|intros (_ & ? & ? & [=] & _)]].
    unfold read_mqtt, read_authentication. split.
    + destruct (field_at (str "listeners_tcp") m) as [x|] eqn:E1; [|discriminate]. destruct (read_vec x) as [ls|] eqn:E2; [|discriminate].
      destruct (field_at (str "password_file") a) as [y|] eqn:E3; [|discriminate]. destruct (read_string y) as [f|] eqn:E4; [|discriminate].
      intros [= <-]. cbn [listeners_tcp password_file]. split; [exists m, x|exists a, y]; auto.
    + intros ((? & x & [= <-] & E1 & E2) & (? & y & [= <-] & E3 & E4)). rewrite E1, E2, E3, E4. now destruct s.
  - intros K. vm_compute in K. intuition discriminate.
  - discriminate.
  - intros name w Hn. apply (Hno name w Hn).
  - intros K. vm_compute in K. intuition discriminate.
  - discriminate.
  - intros name w Hn. apply (Hno name w Hn).
Qed.

(** One variable that is not Unicode, whatever its name, and there are no settings. *)
Theorem C110_not_unicode file env name w : In (name, w) env -> ~ (is_utf8 name /\ is_utf8 w) ->
  forall r, settings_from file env r -> r = None.
Proof.
  intros Hin HN r (_ & props & _ & ->). unfold Settings_new. destruct file as [t|]; [|reflexivity].
  destruct (unicode env) eqn:HU; [|reflexivity]. exfalso. unfold unicode in HU. rewrite forallb_forall in HU.
  specialize (HU _ Hin). cbn [fst snd] in HU. apply andb_true_iff in HU. apply HN. split; apply utf8_ok_iff; tauto.
Qed.

Lemma collect_ok env : forall m, hm_ok m -> hm_ok (fold_left collect_step env m).
Proof.
  induction env as [|e env IH]; intros m H; [exact H|]. cbn [fold_left]. apply IH. unfold collect_step.
  destruct (key_of (fst e)); [now apply hm_ok_insert|exact H].
Qed.

(** With a variable for the whole table as well, the order in which the HashMap happens to be gone through decides
    whether there are settings. *)
Theorem C110_order_decides t env v w ls : file_listeners t ls ->
  variable env (str "ratelmq_authentication__password_file") v -> variable env (str "ratelmq_authentication") w ->
  (forall name u, In (name, u) env -> begins (str "ratelmq_authentication") (map lower name) ->
     map lower name = str "ratelmq_authentication" \/ map lower name = str "ratelmq_authentication__password_file" /\ u = v) ->
  (forall name u, In (name, u) env -> ~ begins (str "ratelmq_mqtt") (map lower name)) ->
  (forall name u, In (name, u) env -> is_utf8 name /\ is_utf8 u) ->
  (forall name u, In (name, u) env -> plain_name name = true) ->
  settings_from (Some t) env (Some {| listeners_tcp := ls; password_file := v |}) /\ settings_from (Some t) env None.
Proof.
  intros FL (name0 & Hin0 & E0) (name1 & Hin1 & E1) Hauth Hmqtt Hutf Hplain.
  apply file_listeners_read in FL. destruct FL as (fm & fx & F1 & F2 & F3).
  assert (HU : unicode env = true).
  { unfold unicode. apply forallb_forall. intros [n u] Hn. destruct (Hutf n u Hn). cbn [fst snd].
    apply andb_true_iff. split; now apply utf8_ok_iff. }
  assert (HK1 : key_of name1 = Some [K_auth]) by (unfold key_of; rewrite E1; vm_compute; reflexivity).
  destruct (collect_has env [] name1 w _ Hin1 HK1) as (p & w' & Hc & Ep).
  assert (p = [K_auth]).
  { destruct (collect_from env [] _ Hc) as [[]|(name & k & u & Hi & HK & E)]. injection E as _ -> ->.
    refine (key_unique name k [K_auth] (Hplain _ _ Hi) HK (eq_sym Ep) _ _ _); [discriminate| |].
    - repeat constructor. intros K; vm_compute in K; intuition discriminate.
    - intros [K|[]]; discriminate. }
  subst p. destruct (in_split _ _ Hc) as (l1 & l2 & EC).
  set (rest := map snd (l1 ++ l2)). unfold collect in *.
  assert (PA : Permutation (([K_auth], w') :: rest) (map snd (fold_left collect_step env []))).
  { rewrite EC. unfold rest. rewrite !map_app. cbn [map snd]. apply Permutation_middle. }
  assert (PB : Permutation (rest ++ [([K_auth], w')]) (map snd (fold_left collect_step env []))).
  { rewrite Permutation_app_comm. exact PA. }
  assert (HR : forall ks s, In (ks, s) rest -> ks <> [] /\ (hd [] ks = K_auth -> ks = [K_auth; K_pw] /\ s = v)).
  { intros ks s Hin. apply in_map_iff in Hin. destruct Hin as ([d [k u]] & [= -> ->] & Hd).
    assert (Hd' : In (d, (ks, s)) (fold_left collect_step env [])).
    { rewrite EC. apply in_or_app. apply in_app_or in Hd. cbn [In]. tauto. }
    destruct (collect_from env [] _ Hd') as [[]|(name & k & u & Hi & HK & E)]. injection E as -> -> ->.
    split; [eapply key_nonempty; eauto|]. destruct k as [|k more]; [discriminate|]. cbn [hd]. intros ->.
    destruct (Hauth name u Hi) as [En|(En & ->)].
    - refine (key_head name K_auth more (Hplain _ _ Hi) HK _ _); [|discriminate]. intros K. vm_compute in K. intuition discriminate.
    - exfalso. unfold key_of in HK. rewrite En in HK. vm_compute in HK. injection HK as <-.
      pose proof (collect_ok env [] hm_ok_nil) as HN. rewrite EC in HN. unfold hm_ok in HN. rewrite map_app in HN. cbn [map fst] in HN.
      apply NoDup_remove_2 in HN. apply HN. rewrite <- map_app. apply in_map_iff. eexists. split; [|exact Hd]. reflexivity.
    - split; [|reflexivity]. unfold key_of in HK. rewrite En in HK. vm_compute in HK. injection HK as <-. reflexivity. }
  assert (KM : forall props, Permutation props (map snd (fold_left collect_step env [])) ->
    hm_get K_mqtt (table_of (merge (VTable t) props)) = Some fm).
  { intros props HP. rewrite <- F1. apply merge_other. intros ks s Hin. destruct (props_from env props ks s HP Hin) as (name & Hn & HK).
    destruct ks as [|k more]; [now apply key_nonempty in HK|]. exists k, more. split; [reflexivity|]. intros ->.
    apply (Hmqtt name s Hn). refine (key_head name K_mqtt more (Hplain _ _ Hn) HK _ _); [|discriminate].
    intros K. vm_compute in K. intuition discriminate. }
  split; (split; [exact Hplain|]).
  - eexists. split; [exact PA|]. unfold Settings_new. rewrite HU. unfold read_settings. fold K_mqtt K_auth. rewrite (KM _ PA).
    assert (KA : exists m, hm_get K_auth (table_of (merge (VTable t) (([K_auth], w') :: rest))) = Some (VTable m) /\ hm_get K_pw m = Some (VString v)).
    { unfold merge. cbn [fold_left fst snd]. apply merge_password; [exact HR|]. right.
      destruct (variable_key env name0 v [K_auth; K_pw]) with (props := ([K_auth], w') :: rest) as (s & Hs); try assumption.
      + unfold key_of. rewrite E0. vm_compute. reflexivity.
      + repeat constructor; intros K; vm_compute in K; intuition discriminate.
      + intros [K|[K|[]]]; discriminate.
      + destruct Hs as [K|Hs]; [discriminate|]. eauto. }
    destruct KA as (m & K1 & K2). rewrite K1. unfold read_mqtt, read_authentication. rewrite F2, F3.
    cbn [field_at]. fold K_pw. rewrite K2. reflexivity.
  - eexists. split; [exact PB|]. unfold Settings_new. rewrite HU. unfold read_settings. fold K_mqtt K_auth. rewrite (KM _ PB).
    unfold merge. rewrite fold_left_app. cbn [fold_left fst snd set_path table_of]. rewrite hm_get_insert, bytes_eqb_refl.
    unfold read_authentication. cbn [field_at]. destruct (read_mqtt fm); reflexivity.
Qed.

Definition ex_env : list (bytes * bytes) := [(str "HOME", str "/root"); (str "Ratelmq_Authentication__Password_File", str "p")].

(** The file's password file is overridden.  With a variable for the whole table as well, the order in which the
    HashMap happens to be gone through decides. *)
Example C110_case :
  settings_from (Some ex_table) ex_env (Some {| listeners_tcp := [str "0.0.0.0:1883"]; password_file := str "p" |})
  /\ let env := (str "RATELMQ_AUTHENTICATION", str "x") :: ex_env in
     settings_from (Some ex_table) env (Some {| listeners_tcp := [str "0.0.0.0:1883"]; password_file := str "p" |})
     /\ settings_from (Some ex_table) env None.
Proof.
  assert (P : forall env : list (bytes * bytes), forallb (fun v => plain_name (fst v)) env = true -> forall n v, In (n, v) env -> plain_name n = true).
  { intros env H n v Hin. rewrite forallb_forall in H. exact (H _ Hin). }
  split; [|cbv zeta; split].
  - split; [apply P; vm_compute; reflexivity|]. eexists. split; [apply Permutation_refl|vm_compute; reflexivity].
  - split; [apply P; vm_compute; reflexivity|]. eexists. split; [apply Permutation_refl|vm_compute; reflexivity].
  - split; [apply P; vm_compute; reflexivity|]. eexists. split; [apply Permutation_sym, Permutation_rev|vm_compute; reflexivity].
Qed.

(** What "in capital or small letters" and "letters, digits and underscores" mean, without the model's own functions. *)
Definition capitals : bytes := str "ABCDEFGHIJKLMNOPQRSTUVWXYZ".
Definition smalls : bytes := str "abcdefghijklmnopqrstuvwxyz".

Lemma on_bytes (P : byte -> bool) : forallb P (map n2b (map N.of_nat (seq 0 256))) = true -> forall b, P b = true.
Proof.
  intros H b. rewrite forallb_forall in H. apply H. apply in_map_iff. exists (b2n b). split; [apply n2b_b2n|].
  apply in_map_iff. exists (N.to_nat (b2n b)). split; [lia|]. apply in_seq. pose proof (b2n_lt b). lia.
Qed.

Theorem C109_any_case name text :
  map lower name = text
  <-> Forall2 (fun a b => In (a, b) (combine capitals smalls) \/ a = b /\ ~ In a capitals) name text.
Proof.
  assert (K : forall a b, lower a = b <-> In (a, b) (combine capitals smalls) \/ a = b /\ ~ In a capitals).
  { intros a b.
    assert (A : (if existsb (Coq.Strings.Byte.eqb a) capitals then existsb (fun p => Coq.Strings.Byte.eqb a (fst p) && Coq.Strings.Byte.eqb (lower a) (snd p)) (combine capitals smalls)
                 else Coq.Strings.Byte.eqb (lower a) a) = true).
    { revert a. apply on_bytes. vm_compute. reflexivity. }
    assert (U : forall x y, In (x, y) (combine capitals smalls) -> lower x = y).
    { assert (F : forallb (fun p => Coq.Strings.Byte.eqb (lower (fst p)) (snd p)) (combine capitals smalls) = true) by (vm_compute; reflexivity).
      rewrite forallb_forall in F. intros x y Hin. specialize (F (x, y) Hin). now apply Coq.Strings.Byte.byte_dec_bl in F. }
    destruct (existsb (Coq.Strings.Byte.eqb a) capitals) eqn:E.
    - apply existsb_exists in A. destruct A as ((x & y) & Hin & Heq). apply andb_prop in Heq. destruct Heq as (E1 & E2).
      apply Coq.Strings.Byte.byte_dec_bl in E1, E2. cbn [fst snd] in E1, E2. subst x. apply existsb_exists in E. destruct E as (c & Hc & Ec).
      apply Coq.Strings.Byte.byte_dec_bl in Ec. subst c. split.
      + intros <-. left. now rewrite E2.
      + intros [H|(_ & H)]; [now apply U|now destruct H].
    - apply Coq.Strings.Byte.byte_dec_bl in A. split.
      + intros <-. right. split; [now rewrite A|]. intros Hin.
        enough (existsb (Coq.Strings.Byte.eqb a) capitals = true) by congruence. apply existsb_exists. exists a. split; [exact Hin|]. now apply Coq.Strings.Byte.byte_dec_lb.
      + intros [H|(H & _)]; [now apply U|now rewrite A]. }
  revert text. induction name as [|a name IH]; intros text; cbn [map].
  - split; [intros <-; constructor|]. intros H. now inversion H.
  - split.
    + intros <-. constructor; [now apply K|]. now apply IH.
    + intros H. destruct text as [|b text]; inversion H; subst. f_equal; [now apply K|now apply IH].
Qed.

Theorem C109_plain name :
  plain_name name = true <-> Forall (fun b => In b (capitals ++ smalls ++ str "0123456789_")) name.
Proof.
  assert (K : forall b, plain_char b = true <-> In b (capitals ++ smalls ++ str "0123456789_")).
  { intros b. assert (A : Bool.eqb (plain_char b) (existsb (Coq.Strings.Byte.eqb b) (capitals ++ smalls ++ str "0123456789_")) = true).
    { revert b. apply on_bytes. vm_compute. reflexivity. }
    apply eqb_prop in A. rewrite A, existsb_exists. split.
    - intros (x & Hx & E). apply Coq.Strings.Byte.byte_dec_bl in E. now subst x.
    - intros H. exists b. split; [exact H|]. now apply Coq.Strings.Byte.byte_dec_lb. }
  unfold plain_name. rewrite forallb_forall, Forall_forall. split; intros H b Hb; now apply K, H.
Qed.

Example C109_names_case :
  map lower (str "RatelMQ_Mqtt__Listeners_TCP") = str "ratelmq_mqtt__listeners_tcp"
  /\ plain_name (str "RatelMQ_Mqtt__Listeners_TCP") = true /\ plain_name (str "a.b") = false.
Proof. vm_compute. repeat split. Qed.
