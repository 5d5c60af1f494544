(** C137: what git prints when the broker is built. C138: what .env adds to the environment. *)
From Coq Require Import Permutation.
From Verif Require Import Base Base_facts Utf8 Utf8_facts Spec_utf8 HashMap Startup Settings Prop_settings Launch.
Open Scope nat_scope.

(** ** The hash *)

(** Where cargo builds, and what "git rev-parse HEAD" prints there. *)
Inductive checkout :=
| NoGit                    (* git cannot be started *)
| NoRepository             (* git only complains *)
| NoCommit                 (* git complains, but prints the word HEAD *)
| Commit (h : bytes).

Definition hash_digits (h : bytes) : Prop :=
  (length h = 40 \/ length h = 64) /\ Forall (fun b => In b (str "0123456789abcdef")) h.

Definition git_prints (c : checkout) (out : option bytes) : Prop :=
  match c with
  | NoGit => out = None
  | NoRepository => out = Some []
  | NoCommit => out = Some (str "HEAD" ++ [x0a])
  | Commit h => hash_digits h /\ out = Some (h ++ [x0a])
  end.

Lemma trim_start_word s : (forall b, In b s -> blank b = false) -> trim_start s = s.
Proof. destruct s as [|b s]; intros H; [reflexivity|]. cbn [trim_start]. now rewrite (H b (or_introl eq_refl)). Qed.

Lemma trim_word s : (forall b, In b s -> blank b = false) -> trim s = s.
Proof.
  intros H. unfold trim. rewrite (trim_start_word s H), trim_start_word by (intros b Hb; apply H; now apply in_rev).
  apply rev_involutive.
Qed.

Lemma split_lines_word s r : forall cur, (forall b, In b s -> blank b = false) ->
  split_lines cur (s ++ x0a :: r) = (rev cur ++ s) :: split_lines [] r.
Proof.
  induction s as [|b s IH]; intros cur H; cbn [app split_lines].
  - change (byte_eqb x0a x0a) with true. now rewrite app_nil_r.
  - assert (E : byte_eqb b x0a = false).
    { specialize (H b (or_introl eq_refl)). destruct b; try reflexivity. discriminate H. }
    rewrite E, IH by (intros; apply H; now right). cbn [rev]. now rewrite <- app_assoc.
Qed.

Lemma after_prefix_self p s : after_prefix p (p ++ s) = Some s.
Proof. induction p as [|x p IH]; [reflexivity|]. cbn [app after_prefix]. destruct (byte_eqb_spec x x); [exact IH|congruence]. Qed.

(** What is in the program: the word git prints. *)
Lemma built_word h : h <> [] -> utf8_ok (h ++ [x0a]) = true -> (forall b, In b h -> blank b = false) -> built (Some (h ++ [x0a])) = Some h.
Proof.
  intros HN HU HB. unfold built. rewrite HU. destruct h as [|b h]; [congruence|]. clear HN. remember (b :: h) as w eqn:Ew.
  assert (E : split_lines [] (instruction ++ (w ++ [x0a]) ++ [x0a]) = [instruction ++ w; []; []]).
  { replace (instruction ++ (w ++ [x0a]) ++ [x0a]) with ((instruction ++ w) ++ x0a :: [x0a]) by now rewrite <- !app_assoc.
    rewrite split_lines_word; [reflexivity|]. intros c Hc. apply in_app_or in Hc. destruct Hc as [Hc|Hc]; [|now apply HB].
    vm_compute in Hc. repeat (destruct Hc as [<-|Hc]; [reflexivity|]). destruct Hc. }
  rewrite E. rewrite Ew at 1. cbn [app].
  change (last_hash [instruction ++ w; []; []]) with (hash_in (instruction ++ w)).
  unfold hash_in. rewrite trim_word; [apply after_prefix_self|].
  intros c Hc. apply in_app_or in Hc. destruct Hc as [Hc|Hc]; [|now apply HB].
  vm_compute in Hc. repeat (destruct Hc as [<-|Hc]; [reflexivity|]). destruct Hc.
Qed.

Lemma digit_ascii b : In b (str "0123456789abcdef") -> blank b = false /\ (b2n b < 128)%N.
Proof. intros H. vm_compute in H. repeat (destruct H as [<-|H]; [vm_compute; split; congruence|]). destruct H. Qed.

Lemma ascii_utf8 s : Forall (fun b => (b2n b < 128)%N) s -> is_utf8 s.
Proof.
  induction 1 as [|b s Hb _ (cs & HF & E)]; [exists []; split; [constructor|reflexivity]|].
  exists (b2n b :: cs). split; [constructor; [left; lia|exact HF]|]. cbn [flat_map]. unfold enc at 1.
  assert (E2 : (b2n b <? 0x80)%N = true) by (apply N.ltb_lt; exact Hb).
  rewrite E2. cbn [map app]. now rewrite n2b_b2n, E.
Qed.

(** Built where there is a commit, the program has its hash. *)
Theorem C137_commit h out : git_prints (Commit h) out -> built out = Some h.
Proof.
  intros ((HL & HF) & ->). apply built_word.
  - intros ->. destruct HL; discriminate.
  - apply utf8_ok_iff, ascii_utf8. apply Forall_app. split; [|repeat constructor].
    revert HF. apply Forall_impl. intros b Hb. now apply digit_ascii.
  - intros b Hb. rewrite Forall_forall in HF. now apply digit_ascii, HF.
Qed.

(** Where there is none, there is still a program: git's exit status is not looked at. *)
Theorem C137_no_commit out : git_prints NoCommit out -> built out = Some (str "HEAD").
Proof. intros ->. vm_compute. reflexivity. Qed.

(** Exactly without git and outside of a repository there is none. *)
Theorem C137_when_built c out : git_prints c out -> (built out = None <-> c = NoGit \/ c = NoRepository).
Proof.
  destruct c as [| | |h]; intros H.
  - cbn in H. subst out. cbn. tauto.
  - cbn in H. subst out. vm_compute. tauto.
  - rewrite (C137_no_commit _ H). split; [discriminate|intros [E|E]; discriminate].
  - rewrite (C137_commit _ _ H). split; [discriminate|intros [E|E]; discriminate].
Qed.

Lemma digits_slice h : hash_digits h -> slice_ok 10 h = true.
Proof.
  intros (HL & HF). unfold slice_ok. destruct (nth_error h 10) as [b|] eqn:E.
  - apply nth_error_In in E. rewrite Forall_forall in HF. specialize (HF b E). clear E HL.
    vm_compute in HF. repeat (destruct HF as [<-|HF]; [reflexivity|]). destruct HF.
  - apply nth_error_None in E. destruct HL; lia.
Qed.

(** With a commit the version is shown with the first ten digits, and the hash does not keep the program from
    starting; a program built without one panics at every start, even when it is asked for its version. *)
Theorem C137_start c out hash version bare w : git_prints c out -> built out = Some hash -> commit_hash w = hash ->
  match c with
  | Commit h =>
    version_text version hash = Some (str "v" ++ version ++ str "(" ++ firstn 10 h ++ str ")")
    /\ length (firstn 10 h) = 10
    /\ (prepare bare w = None <-> config w = None \/ exists s e, config w = Some s /\ Auth.FileIdentityManager_new bare (file w (password_file s)) = inr e)
  | _ => version_text version hash = None /\ prepare bare w = None
  end.
Proof.
  intros HG HB HW. destruct c as [| | |h].
  - rewrite (proj2 (C137_when_built NoGit out HG)) in HB by auto. discriminate.
  - rewrite (proj2 (C137_when_built NoRepository out HG)) in HB by auto. discriminate.
  - rewrite (C137_no_commit out HG) in HB. injection HB as <-. split; [reflexivity|]. unfold prepare. now rewrite HW.
  - rewrite (C137_commit h out HG) in HB. injection HB as <-. pose proof (digits_slice h (proj1 HG)) as HS.
    unfold version_text, prepare. rewrite HW, HS. split; [reflexivity|]. split.
    + rewrite firstn_length. destruct HG as ((HL & _) & _). destruct HL; lia.
    + destruct (config w) as [s|]; [|tauto]. destruct (Auth.FileIdentityManager_new bare (file w (password_file s))) as [m|e] eqn:E.
      * split; [discriminate|]. intros [[=]|(s' & e & [= <-] & E')]. congruence.
      * split; [|reflexivity]. intros _. right. eauto.
Qed.

Example C137_case :
  let h := str "05b057e4c1f7a9d2e8b3c6f0a1d4e7b2c5f8a0d3" in
  git_prints (Commit h) (Some (h ++ [x0a])) /\ built (Some (h ++ [x0a])) = Some h
  /\ version_text (str "0.1.0") h = Some (str "v0.1.0(05b057e4c1)")
  /\ git_prints NoCommit (Some (str "HEAD" ++ [x0a])) /\ version_text (str "0.1.0") (str "HEAD") = None.
Proof.
  assert (HD : hash_digits (str "05b057e4c1f7a9d2e8b3c6f0a1d4e7b2c5f8a0d3")).
  { split; [left; reflexivity|]. apply Forall_forall. intros b Hb.
    assert (A : forallb (fun b => existsb (byte_eqb b) (str "0123456789abcdef")) (str "05b057e4c1f7a9d2e8b3c6f0a1d4e7b2c5f8a0d3") = true) by reflexivity.
    rewrite forallb_forall in A. specialize (A b Hb). apply existsb_exists in A. destruct A as (x & Hx & E). apply byte_eqb_eq in E. now subst x. }
  cbv zeta. split; [exact (conj HD eq_refl)|]. split; [apply (C137_commit _ _ (conj HD eq_refl))|]. repeat split; reflexivity.
Qed.

(** ** .env *)

(** The first assignment to a variable, before any line that is none. *)
Definition assigned (lines : list (option (bytes * bytes))) (name v : bytes) : Prop :=
  exists l1 l2, lines = l1 ++ Some (name, v) :: l2 /\ ~ In None l1 /\ forall w, ~ In (Some (name, w)) l1.

(** The environment has a Unicode value for the variable. *)
Definition has_value (env : list (bytes * bytes)) (name v : bytes) : Prop := getenv name env = Some v /\ is_utf8 v.

(** Values from a file that could be read are text. *)
Definition readable (lines : list (option (bytes * bytes))) : Prop := forall name v, In (Some (name, v)) lines -> is_utf8 v.

Lemma env_var_has env name v : env_var name env = Some v <-> has_value env name v.
Proof.
  unfold env_var, has_value. destruct (getenv name env) as [w|]; [|split; [discriminate|intros ([=] & _)]].
  destruct (utf8_ok w) eqn:E.
  - apply utf8_ok_iff in E. split; [intros [= ->]; auto|intros ([= ->] & _); reflexivity].
  - split; [discriminate|]. intros ([= ->] & H). apply utf8_ok_iff in H. congruence.
Qed.

Lemma get_set name n v env : getenv name (setenv n v env) = if bytes_eqb name n then Some v else getenv name env.
Proof.
  induction env as [|[m w] env IH]; cbn [setenv getenv]; [reflexivity|].
  destruct (bytes_eqb_spec n m) as [<-|Hn]; cbn [getenv].
  - destruct (bytes_eqb_spec name n); reflexivity.
  - destruct (bytes_eqb_spec name m) as [->|]; [|exact IH]. destruct (bytes_eqb_spec m n) as [->|]; [congruence|reflexivity].
Qed.

Lemma env_var_set name n v env : utf8_ok v = true -> env_var name (setenv n v env) = if bytes_eqb name n then Some v else env_var name env.
Proof. intros H. unfold env_var. rewrite get_set. destruct (bytes_eqb name n); [now rewrite H|reflexivity]. Qed.

(** What is set stays. *)
Theorem C138_set_stays lines env env' name v : load lines env = Some env' -> has_value env name v -> has_value env' name v.
Proof.
  revert env. induction lines as [|[[n w]|] lines IH]; intros env H HV; cbn [load] in H; [now injection H as <-| |now injection H as <-].
  destruct (env_var n env) eqn:E; [eauto|]. destruct (can_set n w); [|discriminate]. apply (IH _ H).
  destruct HV as (H1 & H2). split; [|exact H2]. rewrite get_set. destruct (bytes_eqb_spec name n) as [->|]; [|exact H1].
  exfalso. assert (K : env_var n env = Some v) by (apply env_var_has; split; assumption). congruence.
Qed.

(** What is not set, or not as text, gets the value of the first assignment. *)
Theorem C138_gets lines env env' name v : readable lines -> load lines env = Some env' -> assigned lines name v ->
  (forall w, ~ has_value env name w) -> has_value env' name v.
Proof.
  intros HR HL (l1 & l2 & -> & HN & HF). revert env HL. induction l1 as [|[[n w]|] l1 IH]; intros env HL HV.
  - cbn [app load] in HL. destruct (env_var name env) eqn:E; [exact (False_ind _ (HV _ (proj1 (env_var_has _ _ _) E)))|].
    destruct (can_set name v); [|discriminate]. eapply C138_set_stays; [exact HL|]. split.
    + now rewrite get_set, bytes_eqb_refl.
    + apply (HR name v). now left.
  - cbn [app load] in HL.
    assert (HR' : readable (l1 ++ Some (name, v) :: l2)) by (intros a b Hab; apply (HR a b); now right).
    assert (HN' : ~ In None l1) by (intros K; apply HN; now right).
    assert (HF' : forall w0, ~ In (Some (name, w0)) l1) by (intros w0 K; apply (HF w0); now right).
    destruct (env_var n env) eqn:E; [now apply (IH HR' HN' HF' env)|]. destruct (can_set n w); [|discriminate].
    apply (IH HR' HN' HF' _ HL). intros u (K1 & K2). rewrite get_set in K1. destruct (bytes_eqb_spec name n) as [->|Hn].
    + apply (HF w). now left.
    + apply (HV u). now split.
  - exfalso. apply HN. now left.
Qed.

(** All others stay as they are. *)
Theorem C138_others lines env env' name : load lines env = Some env' -> (forall v, ~ assigned lines name v) ->
  getenv name env' = getenv name env.
Proof.
  revert env. induction lines as [|[[n w]|] lines IH]; intros env H HN; cbn [load] in H; [now injection H as <-| |now injection H as <-].
  assert (Hne : name <> n).
  { intros ->. apply (HN w). exists [], lines. repeat split; [intros []|intros u []]. }
  assert (HN' : forall v, ~ assigned lines name v).
  { intros v (l1 & l2 & -> & H1 & H2). apply (HN v). exists (Some (n, w) :: l1), l2. split; [reflexivity|]. split.
    - intros [K|K]; [discriminate|auto].
    - intros u [K|K]; [congruence|eapply H2; eauto]. }
  destruct (env_var n env); [eauto|]. destruct (can_set n w); [|discriminate].
  rewrite (IH _ H HN'), get_set. destruct (bytes_eqb_spec name n); congruence.
Qed.

(** A line that is no assignment ends the reading, without any word. *)
Theorem C138_rest_ignored l1 l2 env : load (l1 ++ None :: l2) env = load l1 env.
Proof.
  revert env. induction l1 as [|[[n w]|] l1 IH]; intros env; [reflexivity| |reflexivity]. cbn [app load].
  destruct (env_var n env); [apply IH|]. destruct (can_set n w); [apply IH|reflexivity].
Qed.

Lemma in_bytes_spec b s : in_bytes b s = true <-> In b s.
Proof.
  unfold in_bytes. rewrite existsb_exists. split.
  - intros (x & Hx & E). apply byte_eqb_eq in E. now subst x.
  - intros H. exists b. split; [exact H|]. destruct (byte_eqb_spec b b); congruence.
Qed.

(** The program panics exactly at a variable that has to be set and cannot be. *)
Theorem C138_panics lines env : readable lines ->
  load lines env = None <-> exists name v, assigned lines name v /\ (forall w, ~ has_value env name w)
                                           /\ (name = [] \/ In x3d name \/ In x00 name \/ In x00 v).
Proof.
  assert (CS : forall n v, can_set n v = false <-> n = [] \/ In x3d n \/ In x00 n \/ In x00 v).
  { intros n v. unfold can_set. rewrite <- !in_bytes_spec. destruct n as [|c n]; [cbn; tauto|].
    destruct (in_bytes x3d (c :: n)), (in_bytes x00 (c :: n)), (in_bytes x00 v); cbn; intuition congruence. }
  intros HR. split.
  - revert env HR. induction lines as [|[[n w]|] lines IH]; intros env HR H; cbn [load] in H; [discriminate| |discriminate].
    assert (HR' : readable lines) by (intros a b Hab; apply (HR a b); now right).
    assert (UP : forall name v, name <> n -> assigned lines name v -> assigned (Some (n, w) :: lines) name v).
    { intros name v Hne (l1 & l2 & -> & H1 & H2). exists (Some (n, w) :: l1), l2. split; [reflexivity|]. split.
      - intros [K|K]; [discriminate|auto].
      - intros u [K|K]; [congruence|eapply H2; eauto]. }
    destruct (env_var n env) as [x|] eqn:E.
    + destruct (IH env HR' H) as (name & v & H1 & H2 & H3). exists name, v. split; [|auto]. apply UP; [|exact H1].
      intros ->. apply env_var_has in E. exact (H2 _ E).
    + assert (NV : forall u, ~ has_value env n u) by (intros u K; apply env_var_has in K; congruence).
      destruct (can_set n w) eqn:EC.
      * destruct (IH _ HR' H) as (name & v & H1 & H2 & H3). exists name, v.
        assert (Hne : name <> n).
        { intros ->. apply (H2 w). split; [now rewrite get_set, bytes_eqb_refl|]. apply (HR n w). now left. }
        split; [now apply UP|]. split; [|exact H3]. intros u (K1 & K2). apply (H2 u). split; [|exact K2].
        rewrite get_set. destruct (bytes_eqb_spec name n); [congruence|exact K1].
      * exists n, w. split; [exists [], lines; repeat split; [intros []|intros u []]|]. split; [exact NV|now apply CS].
  - intros (name & v & HA & HV & HB). destruct (load lines env) as [env'|] eqn:EL; [|reflexivity]. exfalso.
    destruct HA as (l1 & l2 & -> & HN & HF). revert env HV EL. induction l1 as [|[[n w]|] l1 IH]; intros env HV EL.
    + cbn [app load] in EL. destruct (env_var name env) eqn:E; [exact (HV _ (proj1 (env_var_has _ _ _) E))|].
      apply CS in HB. rewrite HB in EL. discriminate.
    + cbn [app load] in EL.
      assert (HR' : readable (l1 ++ Some (name, v) :: l2)) by (intros a b Hab; apply (HR a b); now right).
      assert (HN' : ~ In None l1) by (intros K; apply HN; now right).
      assert (HF' : forall w0, ~ In (Some (name, w0)) l1) by (intros w0 K; apply (HF w0); now right).
      destruct (env_var n env) eqn:E; [now apply (IH HR' HN' HF' env HV)|]. destruct (can_set n w); [|discriminate].
      apply (IH HR' HN' HF' _) in EL; [exact EL|]. intros u (K1 & K2). rewrite get_set in K1. destruct (bytes_eqb_spec name n) as [->|Hn].
      * apply (HF w). now left.
      * apply (HV u). now split.
    + apply HN. now left.
Qed.

(** ** The settings *)

Lemma collect_app e1 e2 m : fold_left collect_step (e1 ++ e2) m = fold_left collect_step e2 (fold_left collect_step e1 m).
Proof. apply fold_left_app. Qed.

Lemma collect_untouched e2 k : forall m, (forall name w k', In (name, w) e2 -> key_of name = Some k' -> dotted k' <> dotted k) ->
  hm_get (dotted k) (fold_left collect_step e2 m) = hm_get (dotted k) m.
Proof.
  induction e2 as [|[name w] e2 IH]; intros m H; [reflexivity|]. cbn [fold_left].
  rewrite IH by (intros; eapply H; [right|]; eassumption). unfold collect_step. cbn [fst snd].
  destruct (key_of name) as [k'|] eqn:E; [|reflexivity]. rewrite hm_get_insert.
  destruct (bytes_eqb_spec (dotted k) (dotted k')) as [E'|]; [|reflexivity].
  exfalso. refine (H name w k' (or_introl eq_refl) E _). congruence.
Qed.

(** Of the variables that name the password file in different spellings, the last one in the environment counts. *)
Theorem C110_last_counts t e1 n v e2 ls : let env := e1 ++ (n, v) :: e2 in
  file_listeners t ls -> map lower n = str "ratelmq_authentication__password_file" ->
  (forall name w, In (name, w) e2 -> map lower name <> str "ratelmq_authentication__password_file") ->
  (forall name w, In (name, w) env -> begins (str "ratelmq_authentication") (map lower name) ->
     map lower name = str "ratelmq_authentication__password_file") ->
  (forall name w, In (name, w) env -> ~ begins (str "ratelmq_mqtt") (map lower name)) ->
  (forall name w, In (name, w) env -> is_utf8 name /\ is_utf8 w) ->
  forall r, settings_from (Some t) env r -> r = Some {| listeners_tcp := ls; password_file := v |}.
Proof.
  intros env FL En Hlast Hauth Hmqtt Hutf r (Hplain & props & HP & ->).
  assert (Hin0 : In (n, v) env) by (apply in_or_app; right; now left).
  apply file_listeners_read in FL. destruct FL as (fm & fx & F1 & F2 & F3).
  unfold Settings_new.
  assert (HU : unicode env = true).
  { unfold unicode. apply forallb_forall. intros [a w] Hn. destruct (Hutf a w Hn). cbn [fst snd].
    apply andb_true_iff. split; now apply utf8_ok_iff. }
  rewrite HU. unfold read_settings.
  assert (KM : hm_get K_mqtt (table_of (merge (VTable t) props)) = hm_get K_mqtt t).
  { apply merge_other. intros ks s Hin. destruct (props_from env props ks s HP Hin) as (name & Hn & HK).
    destruct ks as [|k more]; [now apply key_nonempty in HK|]. exists k, more. split; [reflexivity|]. intros ->.
    apply (Hmqtt name s Hn). refine (key_head name K_mqtt more (Hplain _ _ Hn) HK _ _); [|discriminate].
    intros K. vm_compute in K. intuition discriminate. }
  fold K_mqtt in F1 |- *. rewrite KM, F1.
  assert (NK : key_of n = Some [K_auth; K_pw]) by (unfold key_of; rewrite En; vm_compute; reflexivity).
  assert (KEY : forall name k more, plain_name name = true -> (begins (str "ratelmq_authentication") (map lower name) ->
     map lower name = str "ratelmq_authentication__password_file") -> key_of name = Some (k :: more) -> k = K_auth ->
     map lower name = str "ratelmq_authentication__password_file").
  { intros name k more Hpl HB HK ->. apply HB. refine (key_head name K_auth more Hpl HK _ _); [|discriminate].
    intros K. vm_compute in K. intuition discriminate. }
  assert (GV : hm_get (dotted [K_auth; K_pw]) (collect env) = Some ([K_auth; K_pw], v)).
  { unfold collect, env. rewrite collect_app. cbn [fold_left]. rewrite collect_untouched.
    - unfold collect_step. cbn [fst snd]. rewrite NK, hm_get_insert, bytes_eqb_refl. reflexivity.
    - intros name w k' Hin HK E. apply (Hlast name w Hin).
      assert (Hi : In (name, w) env) by (apply in_or_app; right; now right).
      assert (k' = [K_auth; K_pw]) as ->.
      { eapply key_unique; [exact (Hplain _ _ Hi)|exact HK|exact E|discriminate| |].
        - repeat constructor; intros K; vm_compute in K; intuition discriminate.
        - intros [K|[K|[]]]; discriminate. }
      exact (KEY name _ _ (Hplain _ _ Hi) (Hauth name w Hi) HK eq_refl). }
  assert (KA : exists m, hm_get K_auth (table_of (merge (VTable t) props)) = Some (VTable m) /\ hm_get K_pw m = Some (VString v)).
  { apply merge_password.
    - intros ks s Hin. destruct (props_from env props ks s HP Hin) as (name & Hn & HK). split; [eapply key_nonempty; eauto|].
      destruct ks as [|k more]; [discriminate|]. cbn [hd]. intros Ek.
      pose proof (KEY name k more (Hplain _ _ Hn) (Hauth name s Hn) HK Ek) as EN.
      assert (EK : k :: more = [K_auth; K_pw]) by (unfold key_of in HK; rewrite EN in HK; vm_compute in HK; injection HK as <- <-; reflexivity).
      split; [exact EK|]. rewrite EK in Hin. apply (Permutation_in _ HP) in Hin. apply in_map_iff in Hin.
      destruct Hin as ([d [k' v']] & [= -> ->] & Hc). 
      destruct (collect_from env [] _ Hc) as [[]|(name' & k'' & v'' & _ & _ & [= -> <- <-])].
      pose proof (hm_In_get _ _ _ (collect_ok env [] hm_ok_nil) Hc) as G. unfold collect in GV. congruence.
    - right. refine (variable_key env n v _ NK Hin0 props HP Hplain _ _).
      + repeat constructor; intros K; vm_compute in K; intuition discriminate.
      + intros [K|[K|[]]]; discriminate. }
  destruct KA as (m & K1 & K2). fold K_auth. rewrite K1. unfold read_mqtt, read_authentication. rewrite F2, F3.
  cbn [field_at]. fold K_pw. rewrite K2. reflexivity.
Qed.

Lemma set_names n v env : map fst (setenv n v env) = map fst env ++ (if in_dec (list_eq_dec Byte.byte_eq_dec) n (map fst env) then [] else [n]).
Proof.
  induction env as [|[m w] env IH]; [reflexivity|]. cbn [setenv map fst].
  destruct (bytes_eqb_spec n m) as [<-|Hn].
  - destruct (in_dec (list_eq_dec Byte.byte_eq_dec) n (n :: map fst env)) as [_|K]; [now rewrite app_nil_r|exfalso; apply K; now left].
  - cbn [map fst app]. rewrite IH. f_equal. f_equal.
    destruct (in_dec (list_eq_dec Byte.byte_eq_dec) n (map fst env)) as [K|K]; destruct (in_dec (list_eq_dec Byte.byte_eq_dec) n (m :: map fst env)) as [K'|K']; try reflexivity.
    + exfalso. apply K'. now right.
    + exfalso. destruct K'; [congruence|auto].
Qed.

(** New variables come after the old ones, each once. *)
Lemma load_names lines : forall env env', load lines env = Some env' ->
  exists new, map fst env' = map fst env ++ new /\ NoDup new /\ (forall n, In n new -> ~ In n (map fst env) /\ exists v, In (Some (n, v)) lines).
Proof.
  induction lines as [|[[n w]|] lines IH]; intros env env' H; cbn [load] in H.
  - injection H as <-. exists []. rewrite app_nil_r. repeat split; [constructor| |]; destruct H.
  - destruct (env_var n env) eqn:E.
    + destruct (IH env env' H) as (new & H1 & H2 & H3). exists new. split; [exact H1|]. split; [exact H2|].
      intros m Hm. destruct (H3 m Hm) as (K1 & v & K2). split; [exact K1|]. exists v. now right.
    + destruct (can_set n w); [|discriminate]. destruct (IH _ env' H) as (new & H1 & H2 & H3). rewrite set_names in H1.
      destruct (in_dec (list_eq_dec Byte.byte_eq_dec) n (map fst env)) as [Hi|Hi].
      * rewrite app_nil_r in H1. exists new. split; [exact H1|]. split; [exact H2|]. intros m Hm. destruct (H3 m Hm) as (K1 & v & K2).
        rewrite set_names in K1. split; [intros K; apply K1; apply in_or_app; now left|]. exists v. now right.
      * exists (n :: new). split; [rewrite H1, <- app_assoc; reflexivity|].
        assert (Hnew : forall m, In m new -> m <> n /\ ~ In m (map fst env)).
        { intros m Hm. destruct (H3 m Hm) as (K1 & _). rewrite set_names in K1. destruct (in_dec (list_eq_dec Byte.byte_eq_dec) n (map fst env)); [tauto|].
          split; [intros ->; apply K1; apply in_or_app; right; now left|intros K; apply K1; apply in_or_app; now left]. }
        split; [constructor; [intros K; now apply (proj1 (Hnew n K))|exact H2]|].
        intros m [<-|Hm]; [split; [exact Hi|]; exists w; now left|]. split; [apply Hnew, Hm|]. destruct (H3 m Hm) as (_ & v & K). exists v. now right.
  - injection H as <-. exists []. rewrite app_nil_r. repeat split; [constructor| |]; destruct H.
Qed.

Lemma getenv_split env name v : getenv name env = Some v -> exists e1 e2, env = e1 ++ (name, v) :: e2 /\ ~ In name (map fst e1).
Proof.
  induction env as [|[m w] env IH]; cbn [getenv]; [discriminate|]. destruct (bytes_eqb_spec name m) as [<-|Hn].
  - intros [= ->]. exists [], env. split; [reflexivity|intros []].
  - intros H. destruct (IH H) as (e1 & e2 & -> & K). exists ((m, w) :: e1), e2. split; [reflexivity|]. cbn [map fst]. intros [E|E]; [congruence|auto].
Qed.

Lemma getenv_none env name : getenv name env = None <-> ~ In name (map fst env).
Proof.
  induction env as [|[m w] env IH]; cbn [getenv map fst]; [split; [intros _ []|reflexivity]|].
  destruct (bytes_eqb_spec name m) as [<-|Hn]; [split; [discriminate|intros K; exfalso; apply K; now left]|].
  rewrite IH. split; [intros K [E|E]; [congruence|auto]|intros K E; apply K; now right].
Qed.

(** A spelling of the variable for the password file that the environment does not have: .env decides, even if the
    environment has the variable in another spelling. *)
Theorem C138_password_file t lines env env' n v ls : readable lines -> load lines env = Some env' ->
  file_listeners t ls -> map lower n = str "ratelmq_authentication__password_file" -> ~ In n (map fst env) -> assigned lines n v ->
  (forall m u, In (Some (m, u)) lines -> map lower m = map lower n -> m = n) ->
  (forall name w, In (name, w) env' -> begins (str "ratelmq_authentication") (map lower name) ->
     map lower name = str "ratelmq_authentication__password_file") ->
  (forall name w, In (name, w) env' -> ~ begins (str "ratelmq_mqtt") (map lower name)) ->
  (forall name w, In (name, w) env' -> is_utf8 name /\ is_utf8 w) ->
  forall r, settings_from (Some t) env' r -> r = Some {| listeners_tcp := ls; password_file := v |}.
Proof.
  intros HR HL FL En Hnot HA Hone Hauth Hmqtt Hutf r HS.
  assert (HV : has_value env' n v).
  { apply (C138_gets lines env env' n v HR HL HA). intros w (K & _). apply getenv_none in Hnot. congruence. }
  destruct HV as (HG & _). destruct (getenv_split env' n v HG) as (e1 & e2 & -> & He1).
  destruct (load_names lines env _ HL) as (new & EN & ND & HN).
  refine (C110_last_counts t e1 n v e2 ls FL En _ Hauth Hmqtt Hutf r HS).
  intros name w Hin Ek. rewrite map_app in EN. cbn [map fst] in EN.
  (* the part before is at least the old environment *)
  assert (SP : exists rest, map fst e1 = map fst env ++ rest /\ new = rest ++ n :: map fst e2).
  { assert (A : forall (a b c d : list bytes) x, a ++ x :: b = c ++ d -> ~ In x c -> exists r, a = c ++ r /\ d = r ++ x :: b).
    { clear. induction a as [|y a IH]; intros b c d x E Hx.
      - destruct c as [|z c]; [exists []; cbn in *; auto|]. cbn in E. injection E as <- _. exfalso. apply Hx. now left.
      - destruct c as [|z c]; [exists (y :: a); cbn in *; auto|]. cbn in E. injection E as <- E.
        destruct (IH b c d x E) as (r & -> & ->); [intros K; apply Hx; now right|]. exists r. auto. }
    exact (A _ _ _ _ _ EN Hnot). }
  destruct SP as (rest & _ & ->).
  assert (Hm : In name (map fst e2)) by (apply in_map_iff; exists (name, w); auto).
  assert (Hm' : In name (rest ++ n :: map fst e2)) by (apply in_or_app; right; now right).
  destruct (HN name Hm') as (_ & u & Hu).
  assert (name = n) as -> by (apply (Hone name u Hu); congruence).
  apply NoDup_remove_2 in ND. apply ND. apply in_or_app. now right.
Qed.

(** No .env gives the program its listeners. *)
Theorem C138_not_listeners t lines env env' s : load lines env = Some env' -> settings_from (Some t) env' (Some s) ->
  file_listeners t (listeners_tcp s).
Proof. intros _. apply C109_listeners_from_file. Qed.

Definition ex_env : list (bytes * bytes) :=
  [(str "HOME", str "/root"); (str "RATELMQ_AUTHENTICATION__PASSWORD_FILE", str "/run/secrets/passwd"); (str "LANG", [xff])].

Definition ex_lines : list (option (bytes * bytes)) :=
  [Some (str "HOME", str "/tmp"); Some (str "ratelmq_authentication__password_file", str "/tmp/passwd"); Some (str "LANG", str "C");
   None; Some (str "RUST_LOG", str "info")].

(** The environment's password file loses to one of .env spelled in small letters; a value that is not text is
    replaced; a line behind the bad one is not read; a NUL panics. *)
Example C138_case : readable ex_lines
  /\ (exists env', load ex_lines ex_env = Some env'
      /\ getenv (str "HOME") env' = Some (str "/root") /\ getenv (str "LANG") env' = Some (str "C") /\ getenv (str "RUST_LOG") env' = None
      /\ forall r, settings_from (Some ex_table) env' r
         -> r = Some {| listeners_tcp := [str "0.0.0.0:1883"]; password_file := str "/tmp/passwd" |})
  /\ assigned ex_lines (str "ratelmq_authentication__password_file") (str "/tmp/passwd")
  /\ load [Some (str "A", [x61; x00])] ex_env = None.
Proof.
  assert (HR : readable ex_lines).
  { intros a b H. cbn [In ex_lines] in H. apply utf8_ok_iff. repeat (destruct H as [[= <- <-]|H]; [reflexivity|]). destruct H as [|H]; [discriminate|].
    repeat (destruct H as [[= <- <-]|H]; [reflexivity|]). destruct H. }
  assert (HA : assigned ex_lines (str "ratelmq_authentication__password_file") (str "/tmp/passwd")).
  { exists [Some (str "HOME", str "/tmp")], [Some (str "LANG", str "C"); None; Some (str "RUST_LOG", str "info")].
    split; [reflexivity|]. split; [intros [K|[]]; discriminate|intros w [K|[]]; discriminate]. }
  split; [exact HR|]. split; [|split; [exact HA|reflexivity]].
  destruct (load ex_lines ex_env) as [env'|] eqn:EL; [|vm_compute in EL; discriminate].
  exists env'. split; [reflexivity|].
  assert (EE : env' = [(str "HOME", str "/root"); (str "RATELMQ_AUTHENTICATION__PASSWORD_FILE", str "/run/secrets/passwd"); (str "LANG", str "C");
     (str "ratelmq_authentication__password_file", str "/tmp/passwd")]) by (vm_compute in EL; injection EL as <-; reflexivity).
  split; [rewrite EE; reflexivity|]. split; [rewrite EE; reflexivity|]. split; [rewrite EE; reflexivity|].
  refine (C138_password_file ex_table ex_lines ex_env env' (str "ratelmq_authentication__password_file") (str "/tmp/passwd") [str "0.0.0.0:1883"] HR EL _ eq_refl _ HA _ _ _ _).
  - exists (VTable [(str "listeners_tcp", VArray [VString (str "0.0.0.0:1883")])]), [VString (str "0.0.0.0:1883")].
    split; [reflexivity|]. split; [left; eexists; split; reflexivity|]. constructor; [now left|constructor].
  - intros K. vm_compute in K. intuition discriminate.
  - intros m u H. cbn [In ex_lines] in H. destruct H as [[= <- <-]|[[= <- <-]|[[= <- <-]|[H|[[= <- <-]|[]]]]]]; try discriminate; try reflexivity; intros E; vm_compute in E; discriminate.
  - rewrite EE. intros name w H (r & E). cbn [In] in H. destruct H as [[= <- <-]|[[= <- <-]|[[= <- <-]|[[= <- <-]|[]]]]]; try reflexivity; vm_compute in E; discriminate.
  - rewrite EE. intros name w H (r & E). cbn [In] in H. destruct H as [[= <- <-]|[[= <- <-]|[[= <- <-]|[[= <- <-]|[]]]]]; vm_compute in E; discriminate.
  - rewrite EE. intros name w H. cbn [In] in H. destruct H as [[= <- <-]|[[= <- <-]|[[= <- <-]|[[= <- <-]|[]]]]]; split; apply utf8_ok_iff; reflexivity.
Qed.
