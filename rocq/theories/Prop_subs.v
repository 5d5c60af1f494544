(** Properties C22-C29: which subscribers a published message is selected for. *)
From Coq Require Import Permutation.
From Verif Require Import Base Base_facts Packets HashMap Subscriptions Spec_subs Subscriptions_facts.

(** ** C22 *)

(** How often a client is selected for a name: the sum of its live copies over the matching filters
    of the history. *)
Theorem C22_selected_exactly h t c fs : wildcard_free t -> matching_filters h t fs ->
  occurs c (selected h t) = sum (live h c) fs.
Proof. apply selected_live. Qed.

(** Every history and name has such a list of filters. *)
Theorem C22_filters_listed h t : exists fs, matching_filters h t fs.
Proof. exists (matching h t). apply matching_ok. Qed.

(** Without repeated subscriptions this is MQTT's rule: one copy per matching filter held. *)
Theorem C22_as_mqtt h t c fs : no_repeats h -> wildcard_free t -> matching_filters h t fs ->
  occurs c (selected h t) = sum (fun f => b2nat (holds h c f)) fs.
Proof.
  intros Hn Hw Hf. rewrite (selected_live h t c fs Hw Hf). apply sum_ext.
  intros f _. now apply no_repeats_live.
Qed.

(** [s/b/c]-style names in the cases below. *)
Definition S (c f : String.string) : request := ReqSubscribe (str c) (str f).
Arguments S (c f)%string.
Definition U (c : String.string) (fs : list String.string) : request := ReqUnsubscribe (str c) (map str fs).
Arguments U c%string fs%list.
Definition D (c : String.string) : request := ReqDisconnect (str c).
Arguments D c%string.

Lemma wildcard_free_dec t :
  (if in_dec bytes_eq_dec plus (split_slash t) then false
   else if in_dec bytes_eq_dec hash (split_slash t) then false else true) = true -> wildcard_free t.
Proof. rewrite wildcard_free_split. destruct in_dec; [discriminate|]. destruct in_dec; [discriminate|auto]. Qed.

Example C22_case :
  let h := [S "c1" "a/+"; S "c2" "a/#"; S "c1" "a/b"; S "c3" "b"; S "c2" "+/+"; U "c2" ["+/+"%string];
            S "c4" "#"; D "c4"] in
  wildcard_free (str "a/b")
  /\ matching_filters h (str "a/b") (map str ["a/+"; "a/#"; "a/b"; "+/+"; "#"]%string)
  /\ selected h (str "a/b") = [str "c2"; str "c1"; str "c1"]
  /\ live h (str "c1") (str "a/+") = 1%nat /\ live h (str "c2") (str "+/+") = 0%nat.
Proof.
  cbv zeta. split; [apply wildcard_free_dec; reflexivity|]. split; [|split; [vm_compute; reflexivity|split; vm_compute; reflexivity]].
  match goal with |- matching_filters ?h ?t ?l =>
    replace l with (matching h t) by (vm_compute; reflexivity) end.
  apply matching_ok.
Qed.

(** ** C23 *)

Definition C23_statement : Prop :=
  forall c base, wildcard_free base ->
    In c (selected [ReqSubscribe c (base ++ str "/#")] base).

Lemma count_subscribe h c f t : wildcard_free t ->
  occurs c (selected (h ++ [ReqSubscribe c f]) t)
  = (occurs c (selected h t) + b2nat (matchesb f t))%nat.
Proof.
  intros Hw. rewrite !selected_count.
  set (L := selecting (split_slash t)).
  assert (E : sum (fun p => live (h ++ [ReqSubscribe c f]) c (join p)) L
              = (sum (fun p => live h c (join p)) L + sum (fun p => b2nat (bytes_eqb (join p) f)) L)%nat).
  { rewrite <- sum_plus. apply sum_ext. intros p _. rewrite live_app. cbn [fold_left live_step].
    rewrite bytes_eqb_refl. cbn [andb]. destruct (bytes_eqb (join p) f); cbn [b2nat]; lia. }
  rewrite E. f_equal. clear E.
  rewrite <- (sum_map (fun x => b2nat (bytes_eqb x f)) join).
  apply wildcard_free_split in Hw. destruct Hw as (Hw1 & Hw2).
  assert (N : NoDup (map join L)).
  { apply NoDup_map_inj; [|now apply selecting_nodup].
    intros a b Ha Hb Eab. rewrite <- (selecting_split t a Ha), Eab. exact (selecting_split t b Hb). }
  assert (G : forall l, NoDup l -> sum (fun x => b2nat (bytes_eqb x f)) l
              = if in_dec bytes_eq_dec f l then 1%nat else 0%nat).
  { induction 1 as [|x l Hx Hl IH]; [reflexivity|]. rewrite sum_cons, IH.
    destruct (bytes_eqb_spec x f) as [->|Hn]; cbn [b2nat].
    - destruct (in_dec bytes_eq_dec f l); [contradiction|].
      destruct (in_dec bytes_eq_dec f (f :: l)) as [_|C]; [reflexivity|]. exfalso. apply C. now left.
    - destruct (in_dec bytes_eq_dec f l) as [i|n0], (in_dec bytes_eq_dec f (x :: l)) as [i'|n']; try reflexivity.
      + exfalso. apply n'. now right.
      + destruct i' as [i'|i']; [congruence|contradiction]. }
  rewrite G by exact N. unfold matchesb. fold L.
  destruct (in_dec bytes_eq_dec f (map join L)) as [i|n0],
    (in_dec path_eq_dec (split_slash f) L) as [i'|n']; try reflexivity.
  - exfalso. apply n'. apply in_map_iff in i. destruct i as (p & <- & Hp).
    rewrite (selecting_split t p Hp). exact Hp.
  - exfalso. apply n0. apply in_map_iff. exists (split_slash f). split; [apply join_split|exact i'].
Qed.

Lemma selected_nil t : selected [] t = [].
Proof.
  unfold selected. cbn [subscribed_clients]. set (l := walk _ _ _).
  assert (H : forall c, occurs c l = 0%nat).
  { intros c. pose proof (selected_count [] t c) as E. unfold selected in E. cbn [subscribed_clients] in E.
    fold l in E. rewrite E. now apply sum_zero. }
  destruct l as [|x l]; [reflexivity|]. specialize (H x). rewrite occurs_cons in H.
  destruct bytes_eq_dec; [discriminate|congruence].
Qed.

Lemma count_single c f t : wildcard_free t ->
  occurs c (selected [ReqSubscribe c f] t) = b2nat (matchesb f t).
Proof. intros Hw. pose proof (count_subscribe [] c f t Hw) as E. now rewrite selected_nil in E. Qed.

Lemma join_snoc ls x : ls <> [] -> join (ls ++ [x]) = join ls ++ slash :: x.
Proof.
  induction ls as [|l ls IH]; intros H; [congruence|]. destruct ls as [|l2 ls]; [reflexivity|].
  change (join ((l :: l2 :: ls) ++ [x])) with (l ++ slash :: join ((l2 :: ls) ++ [x])).
  rewrite IH by discriminate. change (join (l :: l2 :: ls)) with (l ++ slash :: join (l2 :: ls)).
  now rewrite <- app_assoc.
Qed.

Lemma split_hash base : split_slash (base ++ str "/#") = split_slash base ++ [hash].
Proof.
  destruct (split_levels base) as (H1 & H2 & H3).
  rewrite H3 at 1. change (str "/#") with (slash :: hash). rewrite <- join_snoc by exact H1.
  apply split_join; [destruct (split_slash base); discriminate|].
  intros l Hl. apply in_app_iff in Hl. destruct Hl as [Hl|[<-|[]]]; [auto|]. intros [C|[]]; discriminate.
Qed.

Lemma levels_match_longer fl tl : levels_match fl tl -> In hash fl \/ length fl = length tl.
Proof.
  induction 1 as [|l fl tl H IH|l fl tl H IH|]; cbn [length In]; intuition congruence.
Qed.

Lemma not_parent ls : ~ In hash ls -> ~ levels_match (ls ++ [hash]) ls.
Proof.
  assert (G : forall fl tl, levels_match fl tl -> forall ls, fl = ls ++ [hash] -> ~ In hash ls ->
              (length ls < length tl)%nat).
  { clear ls. induction 1 as [|l fl tl H IH|l fl tl H IH|l tl]; intros ls E Hn.
    - destruct ls; discriminate.
    - destruct ls as [|x ls]; cbn [app] in E; injection E as -> E; cbn [length].
      + lia.
      + apply IH in E; [lia|]. intros C. apply Hn. now right.
    - destruct ls as [|x ls]; cbn [app] in E.
      + injection E as E1 E2. cbn [length]. lia.
      + injection E as E1 E2. cbn [length]. apply IH in E2; [lia|]. intros C. apply Hn. now right.
    - destruct ls as [|x ls]; cbn [length]; [lia|].
      cbn [app] in E. injection E as <- E. exfalso. apply Hn. now left. }
  intros Hn Hm. pose proof (G _ _ Hm ls eq_refl Hn). lia.
Qed.

(** False of the code, for every root. *)
Theorem C23_parent_never_selected c base : wildcard_free base ->
  ~ In c (selected [ReqSubscribe c (base ++ str "/#")] base).
Proof.
  intros Hw. pose proof (count_single c (base ++ str "/#") base Hw) as E.
  assert (M : matchesb (base ++ str "/#") base = false).
  { destruct (matchesb (base ++ str "/#") base) eqn:M; [|reflexivity].
    apply matchesb_spec, matches_split in M. rewrite split_hash in M.
    apply wildcard_free_split in Hw. exfalso. apply (not_parent (split_slash base)); tauto. }
  rewrite M in E. rewrite (count_occ_In bytes_eq_dec). unfold occurs in E. rewrite E. cbn. lia.
Qed.

Theorem C23_hash_matches_parent_refuted : ~ C23_statement.
Proof.
  intros H. refine (C23_parent_never_selected (str "c") (str "a") _ (H (str "c") (str "a") _));
    apply wildcard_free_dec; reflexivity.
Qed.

Lemma hash_below_levels base more : more <> [] -> levels_match (base ++ [hash]) (base ++ more).
Proof.
  intros H. induction base as [|l base IH]; cbn [app].
  - destruct more; [congruence|apply LmHash].
  - now constructor.
Qed.

(** What holds: it matches every name below the root. *)
Theorem C23_below_root_partial c base rest : wildcard_free (base ++ slash :: rest) ->
  occurs c (selected [ReqSubscribe c (base ++ str "/#")] (base ++ slash :: rest)) = 1%nat.
Proof.
  intros Hw. rewrite (count_single _ _ _ Hw).
  assert (M : matchesb (base ++ str "/#") (base ++ slash :: rest) = true); [|now rewrite M].
  apply matchesb_spec. exists (split_slash base ++ [hash]), (split_slash base ++ split_slash rest).
  split; [|split].
  - apply levels_split. now rewrite split_hash.
  - destruct (split_levels base) as (H1 & H2 & H3), (split_levels rest) as (K1 & K2 & K3).
    split; [destruct (split_slash base); [congruence|discriminate]|]. split.
    + intros l Hl. apply in_app_iff in Hl. destruct Hl; auto.
    + rewrite H3 at 1. rewrite K3 at 1. clear -H1 K1.
      induction (split_slash base) as [|l ls IH]; [congruence|]. destruct ls as [|l2 ls].
      * cbn [join app]. destruct (split_slash rest); [congruence|reflexivity].
      * change (join (l :: l2 :: ls)) with (l ++ slash :: join (l2 :: ls)).
        change ((l :: l2 :: ls) ++ split_slash rest) with (l :: l2 :: (ls ++ split_slash rest)).
        change (join (l :: l2 :: (ls ++ split_slash rest)))
          with (l ++ slash :: join ((l2 :: ls) ++ split_slash rest)).
        rewrite <- app_assoc, <- IH by discriminate. reflexivity.
  - apply hash_below_levels. apply split_levels.
Qed.

Example C23_case : selected [S "c" "a/b/#"] (str "a/b") = []
  /\ selected [S "c" "a/b/#"] (str "a/b/c/d") = [str "c"]
  /\ selected [S "c" "a/b/#"] (str "a/b/") = [str "c"].
Proof. repeat split; vm_compute; reflexivity. Qed.

(** ** C24 *)

Definition leading_wildcard (f : bytes) : Prop :=
  exists l ls, has_levels f (l :: ls) /\ (l = plus \/ l = hash).

Definition C24_statement : Prop :=
  forall c f t, leading_wildcard f -> starts_with_dollar t -> ~ In c (selected [ReqSubscribe c f] t).

(** False of the code: a subscriber to everything gets every [$]-topic. *)
Theorem C24_dollar_topics_selected c t : starts_with_dollar t -> wildcard_free t ->
  leading_wildcard hash /\ occurs c (selected [ReqSubscribe c hash] t) = 1%nat.
Proof.
  intros Hd Hw. split.
  - exists hash, []. split; [apply levels_split; reflexivity|now right].
  - rewrite (count_single _ _ _ Hw). assert (M : matchesb hash t = true); [|now rewrite M].
    apply matchesb_spec, matches_split. destruct (split_levels t) as (H & _).
    change (split_slash hash) with [hash]. destruct (split_slash t); [congruence|]. apply LmHash.
Qed.

Theorem C24_wildcards_skip_dollar_refuted : ~ C24_statement.
Proof.
  intros H. destruct (C24_dollar_topics_selected (str "c") (str "$SYS/x")) as (H1 & H2).
  - now exists (str "SYS/x").
  - apply wildcard_free_dec; reflexivity.
  - apply (H (str "c") hash (str "$SYS/x") H1).
    + now exists (str "SYS/x").
    + apply (count_occ_In bytes_eq_dec). unfold occurs in H2. rewrite H2. lia.
Qed.

Lemma levels_match_mqtt fl tl : levels_match fl tl -> mqtt_levels_match fl tl.
Proof. induction 1; constructor; assumption. Qed.

Lemma mqtt_match_levels fl tl : mqtt_levels_match fl tl ->
  levels_match fl tl \/ fl = tl ++ [hash] \/ exists a, In plus a /\ length a = length tl /\ fl = a ++ [hash].
Proof.
  induction 1 as [|l fl tl H IH|l fl tl H IH|tl].
  - left; constructor.
  - destruct IH as [IH|[->|(a & H1 & H2 & ->)]]; [left; now constructor|now right; left|].
    right. right. exists (l :: a). cbn [In length]. split; [now right|]. split; [congruence|reflexivity].
  - destruct IH as [IH|[->|(a & H1 & H2 & ->)]]; [left; now constructor| |].
    + right. right. exists (plus :: tl). cbn [In length]. split; [now left|]. split; reflexivity.
    + right. right. exists (plus :: a). cbn [In length]. split; [now left|]. split; [congruence|reflexivity].
  - destruct tl as [|l tl]; [right; now left|left; apply LmHash].
Qed.

(** What holds: the broker's matching is MQTT's for names not starting with [$] and filters not
    ending in [#]. *)
Theorem C24_agrees_with_mqtt_partial f t : ~ starts_with_dollar t ->
  (forall ls, ~ has_levels f (ls ++ [hash])) -> (matches f t <-> mqtt_matches f t).
Proof.
  intros Hd Hf. split.
  - intros (fl & tl & H1 & H2 & H3). exists fl, tl. split; [exact H1|]. split; [exact H2|].
    split; [now apply levels_match_mqtt|tauto].
  - intros (fl & tl & H1 & H2 & H3 & _). exists fl, tl. split; [exact H1|]. split; [exact H2|].
    destruct (mqtt_match_levels fl tl H3) as [H|[->|(a & _ & _ & ->)]]; [exact H| |];
      exfalso; eapply Hf; exact H1.
Qed.

(** Exactly where they differ, for names without wildcard levels.  MQTT's rule has [a/#] match [a]. *)
Lemma mqtt_match_parent fl tl : mqtt_levels_match fl tl -> ~ In hash tl ->
  levels_match fl tl \/ exists gl, fl = gl ++ [hash] /\ ~ In hash gl /\ levels_match gl tl.
Proof.
  induction 1 as [|l fl tl H IH|l fl tl H IH|tl]; intros HN.
  - left; constructor.
  - destruct IH as [IH|(gl & -> & H1 & H2)]; [intros K; apply HN; now right|left; now constructor|].
    right. exists (l :: gl). split; [reflexivity|]. split; [|now constructor]. intros [->|K]; [|tauto]. apply HN. now left.
  - destruct IH as [IH|(gl & -> & H1 & H2)]; [intros K; apply HN; now right|left; now constructor|].
    right. exists (plus :: gl). split; [reflexivity|]. split; [|now constructor]. intros [K|K]; [discriminate|tauto].
  - destruct tl as [|l tl]; [|left; apply LmHash]. right. exists []. split; [reflexivity|]. split; [intros []|constructor].
Qed.

Lemma match_parent_mqtt gl tl : levels_match gl tl -> ~ In hash gl ->
  mqtt_levels_match (gl ++ [hash]) tl /\ ~ levels_match (gl ++ [hash]) tl.
Proof.
  induction 1 as [|l fl tl H IH|l fl tl H IH|l tl]; intros HN; cbn [app].
  - split; [constructor|]. intros K. inversion K.
  - destruct IH as (H1 & H2); [intros K; apply HN; now right|]. split; [now constructor|].
    intros K. apply H2. inversion K as [|? ? ? K'|? ? ? K'|]; subst; auto. now destruct fl.
  - destruct IH as (H1 & H2); [intros K; apply HN; now right|]. split; [now constructor|].
    intros K. apply H2. inversion K as [|? ? ? K'|? ? ? K'|]; subst; auto.
  - exfalso. apply HN. now left.
Qed.

Theorem C24_missed_exactly f t : wildcard_free t ->
  (mqtt_matches f t /\ ~ matches f t
   <-> exists gl tl, has_levels f (gl ++ [hash]) /\ has_levels t tl /\ ~ In hash gl /\ levels_match gl tl
         /\ (starts_with_dollar t -> hd [] gl <> plus)).
Proof.
  intros Hw. split.
  - intros ((fl & tl & H1 & H2 & H3 & H4) & HN). destruct (Hw tl H2) as (_ & Hh).
    destruct (mqtt_match_parent fl tl H3 Hh) as [K|(gl & -> & K1 & K2)].
    + exfalso. apply HN. exists fl, tl. auto.
    + exists gl, tl. split; [exact H1|]. split; [exact H2|]. split; [exact K1|]. split; [exact K2|].
      intros Hd. destruct (H4 Hd) as (K3 & _). destruct gl as [|g gl]; [discriminate|exact K3].
  - intros (gl & tl & H1 & H2 & H3 & H4 & H5). destruct (match_parent_mqtt gl tl H4 H3) as (K1 & K2).
    assert (HG : gl <> []) by (intros ->; inversion H4; subst; now destruct H2).
    split.
    + exists (gl ++ [hash]), tl. split; [exact H1|]. split; [exact H2|]. split; [exact K1|]. intros Hd. specialize (H5 Hd).
      destruct gl as [|g gl]; [congruence|]. split; [exact H5|]. intros K. apply H3. left. exact K.
    + intros (fl & tl' & E1 & E2 & E3). apply levels_split in H1, H2, E1, E2. rewrite <- E1 in H1. rewrite <- E2 in H2. subst fl tl'.
      contradiction.
Qed.

(** And the broker matches a [$]-name by a leading wildcard, wherever it would match another name. *)
Theorem C24_extra_exactly f t :
  matches f t /\ ~ mqtt_matches f t <-> matches f t /\ starts_with_dollar t /\ leading_wildcard f.
Proof.
  split.
  - intros ((fl & tl & H1 & H2 & H3) & HN). split; [exists fl, tl; auto|].
    assert (D : forall P : Prop, P \/ ~ P -> (~ P -> False) -> P) by tauto.
    assert (Hd : starts_with_dollar t).
    { apply D.
      - destruct t as [|x r]; [right; intros (r & [=])|]. destruct (Byte.byte_eq_dec x x24) as [->|Hx]; [left; now exists r|].
        right. intros (r' & E). cbn in E. congruence.
      - intros Hd. apply HN. exists fl, tl. split; [exact H1|]. split; [exact H2|]. split; [now apply levels_match_mqtt|tauto]. }
    split; [exact Hd|]. destruct fl as [|l fl]; [now destruct H1|]. exists l, fl. split; [exact H1|]. apply D.
    + destruct (bytes_eq_dec l plus); [tauto|]. destruct (bytes_eq_dec l hash); tauto.
    + intros K. apply HN. exists (l :: fl), tl. split; [exact H1|]. split; [exact H2|]. split; [now apply levels_match_mqtt|].
      cbn [hd]. tauto.
  - intros (H & Hd & (l & ls & Hl & K)). split; [exact H|]. intros (fl & tl & H1 & _ & _ & H4).
    apply levels_split in H1, Hl. rewrite <- Hl in H1. subst fl. destruct (H4 Hd) as (K1 & K2). cbn [hd] in *. tauto.
Qed.

Example C24_case : selected [S "c" "+/x"] (str "$SYS/x") = [str "c"]
  /\ selected [S "c" "#"] (str "$SYS/x") = [str "c"]
  /\ selected [S "c" "a/+/#"] (str "a/b") = [] /\ mqtt_matches (str "a/+/#") (str "a/b").
Proof.
  split; [vm_compute; reflexivity|]. split; [vm_compute; reflexivity|]. split; [vm_compute; reflexivity|].
  exists [str "a"; plus; hash], [str "a"; str "b"].
  split; [apply levels_split; reflexivity|]. split; [apply levels_split; reflexivity|].
  split; [repeat constructor|]. split; discriminate.
Qed.

(** ** C25 *)

(** Exactly the subscriptions to other filters remain. *)
Definition C25_statement : Prop :=
  forall h c fs t ms, wildcard_free t -> matching_filters h t ms ->
    occurs c (selected (h ++ [ReqUnsubscribe c fs]) t)
    = sum (fun f => if existsb (bytes_eqb f) fs then 0%nat else live h c f) ms.

Lemma filters_app h h' : filters (h ++ h') = filters h ++ filters h'.
Proof. unfold filters. apply flat_map_app. Qed.

Lemma matching_after h r t ms : (forall c f, r <> ReqSubscribe c f) ->
  matching_filters h t ms -> matching_filters (h ++ [r]) t ms.
Proof.
  intros Hr (H1 & H2). split; [exact H1|]. intros f. rewrite H2, filters_app.
  destruct r as [c f'|c fs|c]; [exfalso; now apply (Hr c f')| |]; cbn [filters flat_map app];
    now rewrite app_nil_r.
Qed.

(** Exact effect: each mention of the filter removes one copy. *)
Theorem C25_one_copy_per_mention h c fs t ms : wildcard_free t -> matching_filters h t ms ->
  occurs c (selected (h ++ [ReqUnsubscribe c fs]) t) = sum (fun f => live h c f - occurs f fs)%nat ms.
Proof.
  intros Hw Hm. rewrite (selected_live _ t c ms Hw) by (apply matching_after; [discriminate|exact Hm]).
  apply sum_ext. intros f _. rewrite live_app. cbn [fold_left live_step]. now rewrite bytes_eqb_refl.
Qed.

Theorem C25_unsubscribe_stops_delivery_refuted : ~ C25_statement.
Proof.
  intros H. specialize (H [S "c" "a"; S "c" "a"] (str "c") [str "a"] (str "a") [str "a"]).
  assert (E : 1%nat = 0%nat); [|discriminate].
  transitivity (occurs (str "c") (selected ([S "c" "a"; S "c" "a"] ++ [ReqUnsubscribe (str "c") [str "a"]]) (str "a")));
    [vm_compute; reflexivity|].
  rewrite H; [vm_compute; reflexivity|apply wildcard_free_dec; reflexivity|].
  exact (matching_ok [S "c" "a"; S "c" "a"] (str "a")).
Qed.

(** What holds: the full statement for histories without repeated subscriptions. *)
Theorem C25_unsubscribe_stops_delivery_partial h c fs t ms : no_repeats h ->
  wildcard_free t -> matching_filters h t ms ->
  occurs c (selected (h ++ [ReqUnsubscribe c fs]) t)
  = sum (fun f => if existsb (bytes_eqb f) fs then 0%nat else live h c f) ms.
Proof.
  intros Hn Hw Hm. rewrite (C25_one_copy_per_mention h c fs t ms Hw Hm). apply sum_ext.
  intros f _. pose proof (existsb_occurs f fs) as E.
  destruct (existsb (bytes_eqb f) fs) eqn:B.
  - assert (occurs f fs <> 0%nat) by tauto. rewrite (no_repeats_live h c f Hn).
    unfold b2nat. destruct (holds h c f); lia.
  - assert (occurs f fs = 0%nat); [|lia]. destruct (occurs f fs); [reflexivity|].
    exfalso. assert (false = true) by (apply E; lia). discriminate.
Qed.

(** Other clients are never affected. *)
Theorem C25_others_unaffected h c fs d t : d <> c ->
  occurs d (selected (h ++ [ReqUnsubscribe c fs]) t) = occurs d (selected h t).
Proof.
  intros Hd. rewrite !selected_count. apply sum_ext. intros p _. rewrite live_app. cbn [fold_left].
  apply live_step_other. cbn. congruence.
Qed.

Example C25_case :
  let h := [S "c" "a/+"; S "c" "a/b"; S "d" "a/b"] in
  no_repeats h /\ matching_filters h (str "a/b") [str "a/+"; str "a/b"]
  /\ selected h (str "a/b") = [str "c"; str "d"; str "c"]
  /\ selected (h ++ [U "c" ["a/b"; "x"]%string]) (str "a/b") = [str "d"; str "c"].
Proof.
  cbv zeta. split; [|split; [|split; vm_compute; reflexivity]].
  - intros b c f a E.
    destruct b as [|r1 [|r2 [|r3 b]]]; cbn [app] in E; injection E as E; subst; try reflexivity.
    destruct b; discriminate.
  - exact (matching_ok [S "c" "a/+"; S "c" "a/b"; S "d" "a/b"] (str "a/b")).
Qed.

(** ** C26 *)

Definition subscribes (c : bytes) (h : list request) : Prop := exists f, In (ReqSubscribe c f) h.

Definition C26_statement : Prop :=
  forall h later c t, ~ subscribes c later ->
    ~ In c (selected (h ++ [ReqDisconnect c] ++ later) t).

Theorem C26_disconnect_forgets_refuted : ~ C26_statement.
Proof.
  intros H. apply (H [S "c" "a"; S "c" "a"] [] (str "c") (str "a")).
  - intros (f & []).
  - vm_compute. now left.
Qed.

(** Exact effect: one copy of every subscription is removed. *)
Theorem C26_one_copy_each h c t ms : wildcard_free t -> matching_filters h t ms ->
  occurs c (selected (h ++ [ReqDisconnect c]) t) = sum (fun f => live h c f - 1)%nat ms.
Proof.
  intros Hw Hm. rewrite (selected_live _ t c ms Hw) by (apply matching_after; [discriminate|exact Hm]).
  apply sum_ext. intros f _. rewrite live_app. cbn [fold_left live_step]. now rewrite bytes_eqb_refl.
Qed.

Lemma live_stays_zero c f later : ~ subscribes c later -> fold_left (live_step c f) later 0%nat = 0%nat.
Proof.
  induction later as [|r later IH]; intros H; [reflexivity|]. cbn [fold_left].
  replace (live_step c f 0 r) with 0%nat.
  - apply IH. intros (g & Hg). apply H. exists g. now right.
  - destruct r as [c' f'|c' fs|c']; cbn [live_step].
    + destruct (bytes_eqb_spec c c') as [->|_]; [|reflexivity].
      exfalso. apply H. exists f'. now left.
    + destruct (bytes_eqb c c'); lia.
    + destruct (bytes_eqb c c'); lia.
Qed.

(** What holds: the full statement for histories without repeated subscriptions. *)
Theorem C26_disconnect_forgets_partial h later c t : no_repeats h -> ~ subscribes c later ->
  ~ In c (selected (h ++ [ReqDisconnect c] ++ later) t).
Proof.
  intros Hn Hs. rewrite (count_occ_In bytes_eq_dec). fold (occurs c (selected (h ++ [ReqDisconnect c] ++ later) t)).
  rewrite selected_count, sum_zero; [lia|]. intros p _. rewrite live_app. cbn [app fold_left].
  replace (live_step c (join p) (live h c (join p)) (ReqDisconnect c)) with 0%nat.
  - now apply live_stays_zero.
  - cbn [live_step]. rewrite bytes_eqb_refl, (no_repeats_live h c _ Hn).
    destruct (holds h c (join p)); reflexivity.
Qed.

Theorem C26_others_unaffected h c d t : d <> c ->
  occurs d (selected (h ++ [ReqDisconnect c]) t) = occurs d (selected h t).
Proof.
  intros Hd. rewrite !selected_count. apply sum_ext. intros p _. rewrite live_app. cbn [fold_left].
  apply live_step_other. cbn. congruence.
Qed.

Example C26_case :
  let h := [S "c" "a/+"; S "d" "a/b"; S "c" "#"] in
  selected h (str "a/b") = [str "c"; str "d"; str "c"]
  /\ selected (h ++ [D "c"] ++ [S "d" "x"; U "c" ["x"%string]]) (str "a/b") = [str "d"].
Proof. split; vm_compute; reflexivity. Qed.

(** ** C27 *)

Theorem C27_no_interference h h' c t :
  filter (fun r => bytes_eqb (requester r) c) h = filter (fun r => bytes_eqb (requester r) c) h' ->
  occurs c (selected h t) = occurs c (selected h' t).
Proof.
  intros E. rewrite !selected_count. apply sum_ext. intros p _.
  rewrite <- (live_own h), <- (live_own h'), E. reflexivity.
Qed.

Example C27_case :
  let own := [S "c" "a/+"; S "c" "#"; U "c" ["#"%string]] in
  let h := [S "d" "a/+"; S "c" "a/+"; D "d"; S "c" "#"; S "d" "#"; U "c" ["#"%string]; U "d" ["a/+"%string]] in
  filter (fun r => bytes_eqb (requester r) (str "c")) h = own
  /\ occurs (str "c") (selected h (str "a/b")) = 1%nat.
Proof. split; vm_compute; reflexivity. Qed.

(** ** C28 *)

Definition C28_statement : Prop :=
  forall h c f t, wildcard_free t -> matches f t ->
    occurs c (selected (h ++ [ReqSubscribe c f; ReqSubscribe c f]) t)
    = occurs c (selected (h ++ [ReqSubscribe c f]) t).

(** What the code does: every request adds one copy for every matching name, and nothing else. *)
Theorem C28_each_request_adds_a_copy h c f t : wildcard_free t ->
  (matches f t -> occurs c (selected (h ++ [ReqSubscribe c f]) t) = 1 + occurs c (selected h t))%nat
  /\ (~ matches f t -> occurs c (selected (h ++ [ReqSubscribe c f]) t) = occurs c (selected h t)).
Proof.
  intros Hw. rewrite (count_subscribe h c f t Hw). pose proof (matchesb_spec f t) as M.
  destruct (matchesb f t); cbn [b2nat]; split; intros H; try lia; exfalso; intuition discriminate.
Qed.

(** False of the code for every client and filter. *)
Theorem C28_replaces_refuted : ~ C28_statement.
Proof.
  intros H. assert (Hw : wildcard_free (str "a")) by (apply wildcard_free_dec; reflexivity).
  assert (Hm : matches (str "a") (str "a")) by (apply matchesb_spec; vm_compute; reflexivity).
  specialize (H [] (str "c") (str "a") (str "a") Hw Hm). vm_compute in H. discriminate.
Qed.

Fixpoint times {A} (n : nat) (x : A) : list A := match n with O => [] | Datatypes.S n' => x :: times n' x end.

Theorem C28_copies_accumulate_partial n c f t : wildcard_free t -> matches f t ->
  occurs c (selected (times n (ReqSubscribe c f)) t) = n.
Proof.
  intros Hw Hm. apply matchesb_spec in Hm.
  assert (G : forall h, occurs c (selected (h ++ times n (ReqSubscribe c f)) t)
              = (occurs c (selected h t) + n)%nat).
  { induction n as [|n IH]; intros h; cbn [times]; [rewrite app_nil_r; lia|].
    change (h ++ ReqSubscribe c f :: times n (ReqSubscribe c f))
      with (h ++ [ReqSubscribe c f] ++ times n (ReqSubscribe c f)).
    rewrite app_assoc, IH, (count_subscribe h c f t Hw), Hm. cbn [b2nat]. lia. }
  rewrite <- (app_nil_l (times n _)), G, selected_nil. reflexivity.
Qed.

Example C28_case : selected (times 3 (S "c" "a/+")) (str "a/b") = times 3 (str "c")
  /\ selected [S "c" "a/+"; S "c" "a/+"; U "c" ["a/+"%string]] (str "a/b") = [str "c"].
Proof. split; vm_compute; reflexivity. Qed.

(** ** C29 *)

Definition C29_statement : Prop :=
  forall h c t ms, matching_filters h t ms -> (occurs c (selected h t) <= sum (live h c) ms)%nat.

(** What holds: the bound for names without wildcard levels. *)
Theorem C29_one_copy_per_subscription_partial h c t ms : wildcard_free t ->
  matching_filters h t ms -> (occurs c (selected h t) <= sum (live h c) ms)%nat.
Proof. intros Hw Hm. rewrite (selected_live h t c ms Hw Hm). auto. Qed.

(** False of the code. Publishing to the name [+/+/.../+] with [k] levels selects one subscription
    [2^k] times. *)
Definition pluses (k : nat) : bytes := join (times (1 + k) plus).

Lemma in_times {A} (x y : A) n : In y (times n x) -> y = x.
Proof. induction n as [|n IH]; intros []; auto. Qed.

Lemma split_pluses k : split_slash (pluses k) = times (1 + k) plus.
Proof.
  apply split_join; [discriminate|]. intros l Hl. apply in_times in Hl. subst. intros [C|[]]; discriminate.
Qed.

Theorem C29_exponential_copies k c :
  occurs c (selected [ReqSubscribe c (pluses k)] (pluses k)) = (2 ^ (1 + k))%nat.
Proof.
  rewrite selected_count, split_pluses.
  transitivity (sum (fun p => if path_eq_dec p (times (1 + k) plus) then 1%nat else 0%nat)
                    (selecting (times (1 + k) plus))).
  - apply sum_ext. intros p Hp. cbn [live fold_left live_step]. rewrite bytes_eqb_refl. cbn [andb].
    destruct (bytes_eqb_spec (join p) (pluses k)) as [E|Hn], path_eq_dec as [E'|Hn']; try reflexivity.
    + exfalso. apply Hn'. rewrite <- split_pluses in Hp. rewrite <- (selecting_split _ p Hp), E. apply split_pluses.
    + exfalso. apply Hn. subst p. reflexivity.
  - assert (G : forall n, sum (fun p => if path_eq_dec p (times n plus) then 1%nat else 0%nat)
                            (selecting (times n plus)) = (2 ^ n)%nat); [|apply G].
    induction n as [|n IH]; [reflexivity|]. cbn [times selecting]. rewrite !sum_app, !sum_map, sum_cons.
    assert (E : forall L, sum (fun p => if path_eq_dec (plus :: p) (plus :: times n plus) then 1%nat else 0%nat) L
                = sum (fun p => if path_eq_dec p (times n plus) then 1%nat else 0%nat) L).
    { intros L. apply sum_ext. intros p _.
      destruct path_eq_dec as [e|e], path_eq_dec as [e'|e']; congruence. }
    rewrite E. change seg_plus with plus. rewrite E, IH.
    destruct path_eq_dec as [C|_]; [discriminate|]. cbn [sum map list_sum fold_right Nat.pow]. lia.
Qed.

Theorem C29_at_most_one_copy_refuted : ~ C29_statement.
Proof.
  intros H. specialize (H [S "c" "+"] (str "c") (str "+") [str "+"]).
  assert (2 <= 1)%nat; [|lia]. apply H. exact (matching_ok [S "c" "+"] (str "+")).
Qed.

Example C29_case : pluses 2 = str "+/+/+"
  /\ selected [S "c" "+/+/+"] (str "+/+/+") = times 8 (str "c")
  /\ selected [S "c" "+/+/+"] (str "a/b/c") = [str "c"]
  /\ selected [S "c" "#"; S "d" "+"] (str "#") = [str "c"; str "c"; str "d"].
Proof. repeat split; vm_compute; reflexivity. Qed.
