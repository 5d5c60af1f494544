(** Property C124: which configuration file is read, and the start of the Docker image. *)
From Coq Require Import Permutation.
From Verif Require Import Base Base_facts Utf8 Spec_utf8 Utf8_facts HashMap Auth Prop_auth Startup Settings Prop_settings ConfigFile.
Open Scope nat_scope.

(** ** The other name *)

(** Slashes, and dots that stand alone between them, at the end of a path. *)
Inductive trailing : bytes -> Prop :=
| TNone : trailing []
| TSlash z : trailing z -> trailing (z ++ [slash])
| TDot z : trailing z -> trailing (z ++ [slash; dot]).

Definition ordinary (f : bytes) : Prop := f <> [] /\ f <> [dot] /\ f <> [dot; dot] /\ ~ has slash f.

(** A name with toml in place of what follows its last dot; a dot at its beginning does not count. *)
Inductive renamed_name : bytes -> bytes -> Prop :=
| RName s e : s <> [] -> ~ has dot e -> renamed_name (s ++ dot :: e) (s ++ str ".toml")
| RBare b f : ~ has dot f -> renamed_name (b :: f) ((b :: f) ++ str ".toml").

Definition renamed (p q : bytes) : Prop :=
  exists d f z g, p = d ++ [slash] ++ f ++ z /\ ordinary f /\ trailing z /\ renamed_name f g /\ q = d ++ [slash] ++ g.

(** A path without a last name. *)
Definition nameless (p : bytes) : Prop :=
  trailing p \/ exists d z, trailing z /\ p = d ++ [slash; dot; dot] ++ z.

Lemma byte_eqb_same b : byte_eqb b b = true.
Proof. destruct (byte_eqb_spec b b); congruence. Qed.

Lemma has_cons c b l : has c (b :: l) <-> b = c \/ has c l.
Proof. unfold has. cbn [In]. tauto. Qed.

Lemma has_app c a b : has c (a ++ b) <-> has c a \/ has c b.
Proof. unfold has. apply in_app_iff. Qed.

Lemma has_rev c a : has c (rev a) <-> has c a.
Proof. unfold has. symmetry. apply in_rev. Qed.

Lemma rev_is (f x : bytes) : rev f = x -> f = rev x.
Proof. intros <-. now rewrite rev_involutive. Qed.

Lemma until_slash_name n : forall m, ~ has slash n -> until_slash (n ++ slash :: m) = (n, slash :: m).
Proof.
  induction n as [|b n IH]; intros m H; cbn [until_slash app].
  - now rewrite byte_eqb_same.
  - rewrite has_cons in H. destruct (byte_eqb_spec b slash) as [->|_]; [tauto|]. rewrite IH by tauto. reflexivity.
Qed.

Lemma skip_trailing z : trailing z -> forall r, skip_tail (rev z ++ r) = skip_tail r.
Proof.
  induction 1 as [|z Hz IH|z Hz IH]; intros r; [reflexivity| |].
  - rewrite rev_app_distr. cbn [rev app skip_tail]. rewrite byte_eqb_same. apply IH.
  - rewrite rev_app_distr. cbn [rev app skip_tail]. change (byte_eqb dot slash) with false. cbv iota.
    rewrite !byte_eqb_same. cbn [andb]. apply IH.
Qed.

Lemma skip_name n m : n <> [] -> n <> [dot] -> ~ has slash n -> skip_tail (n ++ slash :: m) = n ++ slash :: m.
Proof.
  intros H1 H2 H3. destruct n as [|b n]; [congruence|]. rewrite has_cons in H3. cbn [app skip_tail].
  destruct (byte_eqb_spec b slash) as [->|_]; [tauto|]. destruct n as [|c n].
  - cbn [app]. destruct (byte_eqb_spec b dot) as [->|_]; [congruence|]. reflexivity.
  - cbn [app]. rewrite has_cons in H3. destruct (byte_eqb_spec c slash) as [->|_]; [tauto|]. now rewrite andb_false_r.
Qed.

Lemma after_dot_none n : ~ has dot n -> after_dot n = None.
Proof.
  induction n as [|b n IH]; [reflexivity|]. rewrite has_cons. intros H. cbn [after_dot].
  destruct (byte_eqb_spec b dot) as [->|_]; [tauto|]. apply IH. tauto.
Qed.

Lemma after_dot_some n : forall m, ~ has dot n -> after_dot (n ++ dot :: m) = Some m.
Proof.
  induction n as [|b n IH]; intros m H; cbn [after_dot app].
  - now rewrite byte_eqb_same.
  - rewrite has_cons in H. destruct (byte_eqb_spec b dot) as [->|_]; [tauto|]. apply IH. tauto.
Qed.

Lemma renamed_stem f g : renamed_name f g -> rev (stem (rev f)) ++ str ".toml" = g.
Proof.
  intros [s e Hs He|b f' Hf]; unfold stem.
  - rewrite rev_app_distr. cbn [rev]. rewrite <- app_assoc. cbn [app]. rewrite after_dot_some by now rewrite has_rev.
    destruct (rev s) as [|c r] eqn:E; [exfalso; apply Hs; rewrite <- (rev_involutive s), E; reflexivity|].
    rewrite <- E, rev_involutive. reflexivity.
  - cbn [rev]. destruct (byte_eqb_spec b dot) as [->|Hb].
    + rewrite after_dot_some by now rewrite has_rev. now rewrite rev_app_distr, rev_involutive.
    + rewrite after_dot_none; [now rewrite rev_app_distr, rev_involutive|].
      rewrite has_app, has_rev, has_cons. intros [H|[H|[]]]; congruence.
Qed.

(** The second name that is tried. *)
Theorem C124_other_name p q : renamed p q -> with_toml p = q.
Proof.
  intros (d & f & z & g & -> & (F1 & F2 & F3 & F4) & Hz & Hg & ->). unfold with_toml.
  rewrite !rev_app_distr. cbn [rev app]. rewrite <- !app_assoc, (skip_trailing z Hz). cbn [app].
  rewrite skip_name.
  - rewrite until_slash_name by now rewrite has_rev. destruct (rev f) as [|b r] eqn:E; [apply rev_is in E; cbn in E; congruence|].
    destruct (bytes_eqb_spec (b :: r) [dot; dot]) as [K|_]; [rewrite K in E; apply rev_is in E; cbn in E; congruence|].
    rewrite rev_app_distr. cbn [rev]. rewrite rev_involutive, <- E, <- !app_assoc.
    now rewrite (renamed_stem f g Hg).
  - intros K. apply rev_is in K. cbn in K. congruence.
  - intros K. apply rev_is in K. cbn in K. congruence.
  - now rewrite has_rev.
Qed.

Theorem C124_no_other_name p : nameless p -> with_toml p = p.
Proof.
  intros [H|(d & z & Hz & ->)]; unfold with_toml.
  - rewrite <- (app_nil_r (rev p)), (skip_trailing p H). reflexivity.
  - rewrite !rev_app_distr. cbn [rev app]. rewrite <- !app_assoc, (skip_trailing z Hz). cbn [app].
    change (dot :: dot :: slash :: rev d) with ([dot; dot] ++ slash :: rev d).
    rewrite (skip_name [dot; dot] (rev d)) by (try discriminate; intros [K|[K|[]]]; discriminate).
    rewrite (until_slash_name [dot; dot] (rev d)) by (intros [K|[K|[]]]; discriminate). reflexivity.
Qed.

Lemma skip_tail_split n : forall r, length r < n -> exists z, trailing z /\ r = rev z ++ skip_tail r
  /\ (skip_tail r = [] \/ exists b m, skip_tail r = b :: m /\ b <> slash /\ (b = dot -> forall c m', m = c :: m' -> c <> slash)).
Proof.
  induction n as [|n IH]; intros r Hn; [lia|]. destruct r as [|b r]; [exists []; split; [constructor|]; split; [reflexivity|now left]|].
  cbn [length] in Hn. cbn [skip_tail]. destruct (byte_eqb_spec b slash) as [->|Hb].
  - destruct (IH r ltac:(lia)) as (z & Hz & E & HT). exists (z ++ [slash]). split; [now constructor|]. split; [|exact HT].
    rewrite rev_app_distr. cbn [rev app]. now rewrite <- E.
  - destruct r as [|c r].
    { exists []. split; [constructor|]. split; [reflexivity|]. right. exists b, []. split; [reflexivity|]. split; [exact Hb|]. discriminate. }
    destruct (byte_eqb_spec b dot) as [->|Hd]; cbn [andb].
    + destruct (byte_eqb_spec c slash) as [->|Hc].
      * cbn [length] in Hn. destruct (IH r ltac:(lia)) as (z & Hz & E & HT). exists (z ++ [slash; dot]). split; [now constructor|].
        split; [|exact HT]. rewrite rev_app_distr. cbn [rev app]. now rewrite <- E.
      * exists []. split; [constructor|]. split; [reflexivity|]. right. exists dot, (c :: r). split; [reflexivity|]. split; [exact Hb|].
        intros _ c' m' [= <- <-]. exact Hc.
    + exists []. split; [constructor|]. split; [reflexivity|]. right. exists b, (c :: r). split; [reflexivity|]. split; [exact Hb|].
      intros K. congruence.
Qed.

Lemma until_slash_split r : exists n m, until_slash r = (n, m) /\ r = n ++ m /\ ~ has slash n /\ (m = [] \/ exists m', m = slash :: m').
Proof.
  induction r as [|b r (n & m & E & -> & Hn & Hm)]; [exists [], []; split; [reflexivity|]; split; [reflexivity|]; split; [intros []|now left]|].
  cbn [until_slash]. destruct (byte_eqb_spec b slash) as [->|Hb].
  - exists [], (slash :: n ++ m). split; [reflexivity|]. split; [reflexivity|]. split; [intros []|right; eauto].
  - rewrite E. exists (b :: n), m. split; [reflexivity|]. split; [reflexivity|]. split; [|exact Hm]. rewrite has_cons. intuition congruence.
Qed.

Lemma last_dot f : f <> [] -> exists g, renamed_name f g.
Proof.
  intros Hf. assert (K : ~ has dot f \/ exists s e, f = s ++ dot :: e /\ ~ has dot e).
  { clear Hf. induction f as [|b f [IH|(s & e & -> & He)]].
    - left. intros [].
    - destruct (byte_eqb_spec b dot) as [->|Hb]; [right; now exists [], f|]. left. rewrite has_cons. intuition congruence.
    - right. now exists (b :: s), e. }
  destruct K as [K|([|b s] & e & -> & He)].
  - destruct f as [|b f]; [congruence|]. exists ((b :: f) ++ str ".toml"). apply RBare. rewrite has_cons in K. tauto.
  - eexists. apply (RBare dot e He).
  - eexists. apply (RName (b :: s) e); [discriminate|exact He].
Qed.

(** These two are all absolute paths. *)
Theorem C124_every_path p : (exists p', p = slash :: p') -> nameless p \/ exists q, renamed p q.
Proof.
  intros (p' & Hp). destruct (skip_tail_split (S (length (rev p))) (rev p) ltac:(lia)) as (z & Hz & E & HT).
  assert (EP : p = rev (skip_tail (rev p)) ++ z) by (rewrite <- (rev_involutive p), E at 1; rewrite rev_app_distr, rev_involutive; reflexivity).
  destruct HT as [HT|(b & m & HT & Hb & Hd)].
  - left. left. rewrite HT in EP. cbn in EP. now rewrite EP.
  - rewrite HT in EP. destruct (until_slash_split (b :: m)) as (n & m' & _ & EM & Hn & Hm). rewrite EM in *.
    destruct n as [|b' n].
    { destruct Hm as [->|(m1 & ->)]; [cbn in EM; discriminate|]. cbn in EM. injection EM as K _. congruence. }
    cbn [app] in EM. injection EM as <- ->.
    destruct Hm as [->|(m1 & ->)].
    { exfalso. rewrite app_nil_r in EP. assert (K : has slash (rev (b :: n) ++ z)) by (rewrite <- EP, Hp, has_cons; now left).
      destruct (rev (b :: n)) as [|c r] eqn:ER.
      { apply (f_equal (@rev byte)) in ER. rewrite rev_involutive in ER. discriminate. }
      rewrite Hp in EP. cbn [app] in EP. injection EP as <- _. apply Hn. rewrite <- has_rev, ER, has_cons. now left. }
    rewrite rev_app_distr in EP. change (rev (slash :: m1)) with (rev m1 ++ [slash]) in EP.
    destruct (bytes_eqb_spec (b :: n) [dot; dot]) as [K|K].
    + left. right. exists (rev m1), z. split; [exact Hz|]. rewrite K in EP. cbn [rev app] in EP. rewrite EP, <- !app_assoc. reflexivity.
    + right. assert (HF : rev (b :: n) <> []) by (intros K'; apply (f_equal (@rev byte)) in K'; rewrite rev_involutive in K'; discriminate).
      destruct (last_dot _ HF) as (g & Hg). exists (rev m1 ++ [slash] ++ g), (rev m1), (rev (b :: n)), z, g.
      split; [rewrite EP, <- !app_assoc; reflexivity|]. split; [|auto]. split; [exact HF|].
      split; [|split].
      * intros K'. apply rev_is in K'. cbn in K'. injection K' as -> ->. apply (Hd eq_refl slash m1); reflexivity.
      * intros K'. apply rev_is in K'. cbn in K'. congruence.
      * now rewrite has_rev.
Qed.

(** ** What is read *)

(** A text that is read from the file with this name. *)
Definition holds (toml : bytes -> option (hmap value)) (files : file_system) (p : bytes) (t : hmap value) : Prop :=
  exists text, files p = Some (Some text) /\ is_utf8 text /\ toml text = Some t.

Lemma config_table_at toml files d name p t : find_file files d name = Some p ->
  config_table toml files (Some d) name = Some t <-> holds toml files p t.
Proof.
  intros E. unfold config_table, holds. rewrite E. destruct (files p) as [[text|]|].
  - destruct (utf8_ok text) eqn:U.
    + apply utf8_ok_iff in U. split; [intros H; exists text; auto|intros (x & [= <-] & _ & H); exact H].
    + split; [discriminate|intros (x & [= <-] & H & _)]. apply utf8_ok_iff in H. congruence.
  - split; [discriminate|intros (x & [=] & _)].
  - split; [discriminate|intros (x & [=] & _)].
Qed.

(** What a name stands for in a directory that does not end with a slash (47): itself if it starts with one, or else
    what follows the directory and a slash. In the root directory there is no second slash. *)
Theorem C124_relative d b name : b <> x2f ->
  (forall r, join d (x2f :: r) = x2f :: r)
  /\ (forall c, c <> x2f -> join (d ++ [c]) (b :: name) = d ++ [c; x2f] ++ b :: name
                         /\ join (d ++ [c]) [] = d ++ [c; x2f])
  /\ join [x2f] (b :: name) = x2f :: b :: name.
Proof.
  intros Hb. assert (E : byte_eqb b x2f = false) by (destruct (byte_eqb_spec b x2f); congruence).
  unfold join, slash. split; [reflexivity|]. split.
  - intros c Hc. assert (Ec : byte_eqb c x2f = false) by (destruct (byte_eqb_spec c x2f); congruence).
    rewrite E, rev_unit, Ec, <- !app_assoc. split; reflexivity.
  - rewrite E. reflexivity.
Qed.

(** The file as named, if there is one, even if it cannot be read or is no TOML. *)
Theorem C124_exact_name toml files d name t : files (join d name) <> None ->
  config_table toml files (Some d) name = Some t <-> holds toml files (join d name) t.
Proof.
  intros H. apply config_table_at. unfold find_file, is_file. now destruct (files (join d name)).
Qed.

(** Otherwise the one with toml in place of the extension. *)
Theorem C124_other_file toml files d name q t : files (join d name) = None -> renamed (join d name) q ->
  config_table toml files (Some d) name = Some t <-> holds toml files q t.
Proof.
  intros H HR. apply C124_other_name in HR. destruct (files q) as [x|] eqn:E.
  - apply config_table_at. unfold find_file, is_file. now rewrite H, HR, E.
  - unfold config_table, find_file, is_file, holds. rewrite H, HR, E. split; [discriminate|intros (x & [=] & _)].
Qed.

(** So two names that differ in their extensions stand for the same settings, if there is no file with either. *)
Theorem C124_any_extension toml files dir d s e e' : s <> [] -> ~ has slash s -> s <> [dot] -> ~ has dot e -> ~ has dot e' ->
  ~ has slash e -> ~ has slash e' -> let name x := slash :: d ++ [slash] ++ s ++ dot :: x in
  files (name e) = None -> files (name e') = None ->
  config_table toml files dir (name e) = config_table toml files dir (name e').
Proof.
  intros Hs Hs' Hdot He He' Hse Hse' name H H'.
  assert (K : forall x, ~ has dot x -> ~ has slash x -> with_toml (name x) = (slash :: d) ++ [slash] ++ s ++ str ".toml").
  { intros x Hx Hy. apply C124_other_name. exists (slash :: d), (s ++ dot :: x), [], (s ++ str ".toml").
    split; [unfold name; rewrite app_nil_r; reflexivity|]. split; [|split; [constructor|split; [now constructor|reflexivity]]].
    assert (L : length s <> 0) by (destruct s; [congruence|discriminate]).
    split; [intros E; apply (f_equal (@length byte)) in E; rewrite app_length in E; cbn in E; lia|].
    split; [intros E; apply (f_equal (@length byte)) in E; rewrite app_length in E; cbn in E; lia|]. split.
    - destruct s as [|b [|c s]]; [congruence| |].
      + cbn. intros [= -> _]. congruence.
      + intros E. apply (f_equal (@length byte)) in E. cbn in E. rewrite app_length in E. cbn in E. lia.
    - rewrite has_app, has_cons. intros [E|[E|E]]; [tauto|discriminate|tauto]. }
  destruct dir as [dir|]; [|reflexivity]. unfold config_table, find_file, is_file.
  assert (J : forall x, join dir (name x) = name x) by reflexivity. now rewrite !J, H, H', !K.
Qed.

(** Without -c, whatever the current directory. *)
Theorem C124_default toml files d t :
  config_table toml files (Some d) (config_name None) = Some t <->
  holds toml files (str "/etc/ratelmq/ratelmq.conf") t
  \/ files (str "/etc/ratelmq/ratelmq.conf") = None /\ holds toml files (str "/etc/ratelmq/ratelmq.toml") t.
Proof.
  assert (J : join d (config_name None) = str "/etc/ratelmq/ratelmq.conf") by reflexivity.
  destruct (files (str "/etc/ratelmq/ratelmq.conf")) as [x|] eqn:E.
  - rewrite C124_exact_name by (rewrite J, E; discriminate). rewrite J. split; [auto|]. intros [H|([=] & _)]. exact H.
  - rewrite (C124_other_file toml files d _ (str "/etc/ratelmq/ratelmq.toml")).
    + split; [auto|]. intros [(y & H & _)|(_ & H)]; [congruence|exact H].
    + now rewrite J.
    + rewrite J. exists (str "/etc/ratelmq"), (str "ratelmq.conf"), [], (str "ratelmq.toml").
      split; [reflexivity|]. split; [|split; [constructor|split; [|reflexivity]]].
      * split; [discriminate|]. split; [discriminate|]. split; [discriminate|]. intros K. vm_compute in K. intuition discriminate.
      * apply (RName (str "ratelmq") (str "conf")); [discriminate|]. intros K. vm_compute in K. intuition discriminate.
Qed.

(** ** The start *)

(** The program is started with this argument of -c, in this directory and environment. *)
Definition started (toml : bytes -> option (hmap value)) (files : file_system) (dir argument : option bytes)
    (env : list (bytes * bytes)) (w : world) : Prop :=
  settings_from (config_table toml files dir (config_name argument)) env (config w)
  /\ forall p, (exists p', p = slash :: p') -> file w p = match files p with Some (Some s) => Some s | _ => None end.

(** A password file that can be used. *)
Definition usable (bare : bool) (files : file_system) (p : bytes) : Prop :=
  exists s ls, files p = Some (Some s) /\ is_utf8 s /\ text_lines bare s ls /\ forall l, In l ls -> has colon l.

Lemma prepared bare files w st : config w = Some st -> (exists p', password_file st = slash :: p') ->
  (forall p, (exists p', p = slash :: p') -> file w p = match files p with Some (Some s) => Some s | _ => None end) ->
  prepare bare w <> None <-> slice_ok 10 (commit_hash w) = true /\ usable bare files (password_file st).
Proof.
  intros E HP HF. unfold prepare, usable. rewrite E, (HF _ HP). destruct (slice_ok 10 (commit_hash w)); [|split; [congruence|intros ([=] & _)]].
  destruct (files (password_file st)) as [[s|]|]; cbn [FileIdentityManager_new].
  - destruct (utf8_ok s) eqn:U.
    + pose proof (proj1 (utf8_ok_iff s) U) as HU. destruct (C41_every_content bare s HU) as (ls & HT & [HC|HC]).
      * destruct (C41_loads bare s ls HU HT HC) as (m & EM & _). cbn [FileIdentityManager_new] in EM. rewrite U in EM. rewrite EM.
        split; [intros _; split; [reflexivity|]; exists s, ls; auto|discriminate].
      * pose proof (C41_rejects bare s ls HU HT HC) as ER. cbn [FileIdentityManager_new] in ER. rewrite U in ER. rewrite ER.
        split; [congruence|]. intros (_ & s' & ls' & [= <-] & _ & HT' & HC').
        pose proof (C41_loads bare s ls' HU HT' HC') as (m & EM & _). cbn [FileIdentityManager_new] in EM. rewrite U in EM. congruence.
    + split; [congruence|]. intros (_ & s' & ls & [= <-] & HU & _). apply utf8_ok_iff in HU. congruence.
  - split; [congruence|]. intros (_ & s' & ls & [=] & _).
  - split; [congruence|]. intros (_ & s' & ls & [=] & _).
Qed.

(** config/ratelmq.toml as the image has it (Dockerfile: COPY ./config/ratelmq.toml /etc/ratelmq/ratelmq.toml). *)
Definition image_config (toml : bytes -> option (hmap value)) (files : file_system) : Prop :=
  files (str "/etc/ratelmq/ratelmq.conf") = None
  /\ exists t, holds toml files (str "/etc/ratelmq/ratelmq.toml") t
     /\ file_listeners t [str "0.0.0.0:1883"] /\ file_password t (str "/etc/ratelmq/passwd").

(** Started as README.md says, the program gets past reading its settings and identities exactly if there is a usable
    /etc/ratelmq/passwd. *)
Theorem C124_image toml files dir env w bare : image_config toml files -> started toml files (Some dir) None env w ->
  (forall name v, In (name, v) env -> ~ begins (str "ratelmq_authentication") (map lower name) /\ ~ begins (str "ratelmq_mqtt") (map lower name)) ->
  (forall name v, In (name, v) env -> is_utf8 name /\ is_utf8 v) ->
  prepare bare w <> None <-> slice_ok 10 (commit_hash w) = true /\ usable bare files (str "/etc/ratelmq/passwd").
Proof.
  intros (HN & t & HH & HL & HP) (HS & HF) Hno Hutf.
  assert (E : config_table toml files (Some dir) (config_name None) = Some t) by (apply C124_default; auto).
  rewrite E in HS.
  assert (EC : config w = Some {| listeners_tcp := [str "0.0.0.0:1883"]; password_file := str "/etc/ratelmq/passwd" |}).
  { apply (C110_without_variables t env Hno Hutf _ HS). auto. }
  rewrite (prepared bare files w _ EC); [reflexivity| |exact HF]. eexists. reflexivity.
Qed.

(** The image has none, so the program panics. *)
Theorem C124_image_panics toml files dir env w bare : image_config toml files -> files (str "/etc/ratelmq/passwd") = None ->
  started toml files (Some dir) None env w ->
  (forall name v, In (name, v) env -> ~ begins (str "ratelmq_authentication") (map lower name) /\ ~ begins (str "ratelmq_mqtt") (map lower name)) ->
  prepare bare w = None.
Proof.
  intros HI HN HS Hno. destruct (unicode env) eqn:HU.
  - assert (Hutf : forall name v, In (name, v) env -> is_utf8 name /\ is_utf8 v).
    { intros name v Hin. unfold unicode in HU. rewrite forallb_forall in HU. specialize (HU _ Hin). cbn [fst snd] in HU.
      apply andb_true_iff in HU. destruct HU. split; now apply utf8_ok_iff. }
    destruct (prepare bare w) eqn:E; [|reflexivity]. exfalso.
    destruct (proj1 (C124_image toml files dir env w bare HI HS Hno Hutf)) as (_ & s & ls & K & _); [congruence|congruence].
  - destruct HS as ((_ & props & _ & HS) & _). unfold prepare. rewrite HS. unfold Settings_new. rewrite HU.
    destruct (config_table _ _ _ _); now destruct (slice_ok _ _).
Qed.

(** Unless a variable names another file. *)
Theorem C124_image_variable toml files dir env w bare v : image_config toml files -> started toml files (Some dir) None env w ->
  variable env (str "ratelmq_authentication__password_file") v -> (exists v', v = slash :: v') ->
  (forall name u, In (name, u) env -> begins (str "ratelmq_authentication") (map lower name) ->
     map lower name = str "ratelmq_authentication__password_file" /\ u = v) ->
  (forall name u, In (name, u) env -> ~ begins (str "ratelmq_mqtt") (map lower name)) ->
  (forall name u, In (name, u) env -> is_utf8 name /\ is_utf8 u) ->
  prepare bare w <> None <-> slice_ok 10 (commit_hash w) = true /\ usable bare files v.
Proof.
  intros (HN & t & HH & HL & HP) (HS & HF) HV HA H1 H2 H3.
  assert (E : config_table toml files (Some dir) (config_name None) = Some t) by (apply C124_default; auto).
  rewrite E in HS. pose proof (C110_password_file_overridden t env v _ HL HV H1 H2 H3 _ HS) as EC.
  now rewrite (prepared bare files w _ EC).
Qed.

Definition ex_files (p : bytes) : option (option bytes) :=
  if bytes_eqb p (str "/etc/ratelmq/ratelmq.toml") then Some (Some (str "[mqtt] ...")) else None.

Definition ex_world : world :=
  {| commit_hash := str "0123456789abcdef";
     config := Some {| listeners_tcp := [str "0.0.0.0:1883"]; password_file := str "/etc/ratelmq/passwd" |};
     file := fun p => match ex_files p with Some (Some s) => Some s | _ => None end |}.

(** The image, and some other names. *)
Example C124_case :
  image_config (fun _ => Some ex_table) ex_files /\ started (fun _ => Some ex_table) ex_files (Some (str "/")) None [] ex_world
  /\ prepare false ex_world = None
  /\ find_file ex_files (str "/etc") (str "ratelmq/ratelmq.json") = Some (str "/etc/ratelmq/ratelmq.toml")
  /\ find_file ex_files (str "/etc/ratelmq/ratelmq.d") [] = Some (str "/etc/ratelmq/ratelmq.toml")
  /\ find_file ex_files (str "/etc/ratelmq") (str "../ratelmq/ratelmq.toml") = None
  /\ with_toml (str "/a/.conf") = str "/a/.conf.toml" /\ with_toml (str "/a/b/./") = str "/a/b.toml" /\ with_toml (str "/a/..") = str "/a/..".
Proof.
  split; [|split; [|repeat split; vm_compute; reflexivity]].
  - split; [reflexivity|]. exists ex_table. split; [|split].
    + exists (str "[mqtt] ..."). split; [reflexivity|]. split; [apply utf8_ok_iff; reflexivity|reflexivity].
    + exists (VTable [(str "listeners_tcp", VArray [VString (str "0.0.0.0:1883")])]), [VString (str "0.0.0.0:1883")].
      split; [reflexivity|]. split; [left; eexists; split; reflexivity|]. constructor; [now left|constructor].
    + exists (VTable [(str "password_file", VString (str "/etc/ratelmq/passwd"))]), (VString (str "/etc/ratelmq/passwd")).
      split; [reflexivity|]. split; [left; eexists; split; reflexivity|now left].
  - split; [|reflexivity]. split; [intros n v []|]. eexists. split; [apply Permutation_refl|vm_compute; reflexivity].
Qed.
