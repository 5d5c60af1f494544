(** Properties C45, C46 and C47: the password tool, and what the broker makes of the files it writes. *)
From Verif Require Import Base Base_facts Utf8 Spec_utf8 Utf8_facts HashMap Auth Passwd Prop_auth.

(** What the theorems assume of case-insensitive matching: a text matches itself, and colons and
    newlines only match themselves. *)
Record folding (ci : bytes -> bytes -> bool) : Prop := {
  ci_refl : forall u, ci u u = true;
  ci_newline : forall u v, ci u v = true -> has newline v -> has newline u;
  ci_colon : forall u v, ci u v = true -> has colon v -> has colon u }.

(** * C47 *)

Lemma expand_doubled m e : forall n, (length (double_dollars e) <= n)%nat -> expand n m (double_dollars e) = e.
Proof.
  induction e as [|b e IH]; intros n Hn.
  - destruct n; reflexivity.
  - unfold double_dollars in *. cbn [flat_map] in *. destruct (byte_eqb_spec b dollar) as [->|D]; cbn [app length] in *.
    + destruct n as [|n]; [lia|]. cbn [expand]. change (byte_eqb dollar dollar) with true. cbv iota.
      rewrite IH by lia. reflexivity.
    + destruct n as [|n]; [lia|]. cbn [expand]. destruct (byte_eqb_spec b dollar); [contradiction|].
      rewrite IH by lia. reflexivity.
Qed.

Theorem C47_escaping m entry : expand_str m (double_dollars entry) = entry.
Proof. apply expand_doubled. reflexivity. Qed.

(** So the replacement puts exactly the new entry in place of the match. *)
Theorem C47_replacement ci user hash s pre m post : find ci user s = Some (pre, m, post) ->
  replace_first ci user s (double_dollars (build_entry user hash)) = pre ++ build_entry user hash ++ post.
Proof. intros H. unfold replace_first. rewrite H, C47_escaping. reflexivity. Qed.

(** Without the escaping it would not. *)
Example C47_case :
  let m := str "bob:old" ++ [newline] in
  let entry := build_entry (str "bob") (str "$argon2id$v=19$m=4096,t=3$${0}$0") in
  expand_str m (double_dollars entry) = entry
  /\ expand_str m entry = str "bob:=19=4096,t=3${0}" ++ m ++ [newline].
Proof. split; reflexivity. Qed.

(** * The regular expression *)

(** The texts it matches. *)
Definition in_language (ci : bytes -> bytes -> bool) (user m : bytes) : Prop :=
  exists v r, m = v ++ colon :: r ++ [newline] /\ ci user v = true /\ ~ has newline r.

Lemma match_tail_some s m post : match_tail s = Some (m, post) <->
  exists r, m = colon :: r ++ [newline] /\ s = m ++ post /\ ~ has newline r.
Proof.
  destruct s as [|b s]; cbn [match_tail].
  - split; [discriminate|]. intros (r & -> & E & _). discriminate.
  - destruct (byte_eqb_spec b colon) as [->|D].
    + destruct (split_once newline s) as [[x p]|] eqn:E.
      * apply split_once_some in E as (-> & HN). split.
        -- intros Q. injection Q as <- <-. exists x. split; [reflexivity|]. split; [|exact HN].
           cbn [app]. rewrite <- app_assoc. reflexivity.
        -- intros (r & -> & E & HR). cbn [app] in E. rewrite <- app_assoc in E. cbn [app] in E.
           assert (ES : x ++ newline :: p = r ++ newline :: post) by congruence.
           assert (E1 : split_once newline (x ++ newline :: p) = Some (x, p)) by (apply split_once_some; auto).
           assert (E2 : split_once newline (r ++ newline :: post) = Some (r, post)) by (apply split_once_some; auto).
           rewrite ES, E2 in E1. congruence.
      * split; [discriminate|]. intros (r & -> & E1 & _). exfalso. apply split_once_none in E. apply E.
        cbn [app] in E1. assert (ES : s = r ++ [newline] ++ post) by (rewrite app_assoc; congruence).
        rewrite ES. apply in_or_app. right. left. reflexivity.
    + split; [discriminate|]. intros (r & -> & E & _). cbn [app] in E. congruence.
Qed.

Lemma match_here_sound ci user s : forall rp m post, match_here ci user rp s = Some (m, post) ->
  exists a r, s = a ++ colon :: r ++ newline :: post /\ ci user (rev rp ++ a) = true /\ ~ has newline r
    /\ m = rev rp ++ a ++ colon :: r ++ [newline].
Proof.
  induction s as [|b s IH]; intros rp m post H; cbn [match_here] in H.
  - destruct (ci user (rev rp)); cbn in H; discriminate.
  - destruct (ci user (rev rp)) eqn:C; [destruct (match_tail (b :: s)) as [[t p]|] eqn:E|].
    + injection H as <- <-. apply match_tail_some in E as (r & -> & ES & HR).
      exists [], r. rewrite app_nil_r. split; [|auto]. rewrite ES. cbn [app]. rewrite <- app_assoc. reflexivity.
    + destruct (IH _ _ _ H) as (a & r & -> & HC & HR & ->). cbn [rev] in *. rewrite <- app_assoc in *.
      exists (b :: a), r. auto.
    + destruct (IH _ _ _ H) as (a & r & -> & HC & HR & ->). cbn [rev] in *. rewrite <- app_assoc in *.
      exists (b :: a), r. auto.
Qed.

Lemma match_here_complete ci user a : forall s rp r post, s = a ++ colon :: r ++ newline :: post ->
  ci user (rev rp ++ a) = true -> ~ has newline r -> match_here ci user rp s <> None.
Proof.
  induction a as [|b a IH]; intros s rp r post E HC HR.
  - cbn [app] in E. rewrite app_nil_r in HC.
    assert (ET : match_tail s = Some (colon :: r ++ [newline], post)).
    { apply match_tail_some. exists r. split; [reflexivity|]. split; [|exact HR].
      rewrite E. cbn [app]. rewrite <- app_assoc. reflexivity. }
    destruct s as [|b s]; [discriminate|]. cbn [match_here]. rewrite HC, ET. discriminate.
  - subst s. cbn [app match_here].
    destruct (if ci user (rev rp) then match_tail (b :: a ++ colon :: r ++ newline :: post) else None) as [[t p]|]; [discriminate|].
    apply (IH _ (b :: rp) r post); [reflexivity| |exact HR]. cbn [rev]. rewrite <- app_assoc. exact HC.
Qed.

(** [find] is the leftmost match. *)
Lemma find_sound ci user s : forall pre m post, find ci user s = Some (pre, m, post) ->
  s = pre ++ m ++ post /\ in_language ci user m
  /\ forall pre' m' post', s = pre' ++ m' ++ post' -> in_language ci user m' -> (length pre <= length pre')%nat.
Proof.
  induction s as [|b s IH]; intros pre m post H; cbn [find] in H.
  - destruct (match_here ci user [] []) as [[m0 p0]|] eqn:E; [|discriminate].
    apply match_here_sound in E as (a & r & E & _). destruct a; discriminate.
  - destruct (match_here ci user [] (b :: s)) as [[m0 p0]|] eqn:E.
    + injection H as <- <- <-. apply match_here_sound in E as (a & r & E & HC & HR & ->). cbn [rev app] in *.
      split; [rewrite E, <- !app_assoc; cbn [app]; rewrite <- app_assoc; reflexivity|]. split; [exists a, r; auto|]. intros. cbn. lia.
    + destruct (find ci user s) as [[[pre1 m1] post1]|]; [|discriminate]. injection H as <- <- <-.
      destruct (IH _ _ _ eq_refl) as (-> & HL & HF). split; [reflexivity|]. split; [exact HL|].
      intros pre' m' post' ES HM. destruct pre' as [|x pre'].
      * exfalso. destruct HM as (v & r & -> & HC & HR). cbn [app] in ES.
        apply (match_here_complete ci user v (b :: pre1 ++ m1 ++ post1) [] r post'); [|exact HC|exact HR|exact E].
        rewrite ES, <- !app_assoc. cbn [app]. rewrite <- app_assoc. reflexivity.
      * cbn [app length] in *. assert (ES' : pre1 ++ m1 ++ post1 = pre' ++ m' ++ post') by congruence.
        specialize (HF pre' m' post' ES' HM). lia.
Qed.

Lemma find_complete ci user s : find ci user s = None ->
  forall pre m post, s = pre ++ m ++ post -> ~ in_language ci user m.
Proof.
  induction s as [|b s IH]; intros H pre m post ES HM; cbn [find] in H.
  - destruct pre; [|discriminate]. destruct HM as (v & r & -> & _). destruct v; discriminate.
  - destruct (match_here ci user [] (b :: s)) as [[m0 p0]|] eqn:E; [discriminate|].
    destruct (find ci user s) as [[[pre1 m1] post1]|]; [discriminate|].
    destruct pre as [|x pre].
    + destruct HM as (v & r & -> & HC & HR). cbn [app] in ES.
      apply (match_here_complete ci user v (b :: s) [] r post); [|exact HC|exact HR|exact E].
      rewrite ES, <- !app_assoc. cbn [app]. rewrite <- app_assoc. reflexivity.
    + cbn [app] in ES. apply (IH eq_refl pre m post); [congruence|exact HM].
Qed.

(** * Files *)

(** Entries as the tool writes them: hashes contain no colon. *)
Definition tool_entry (e : bytes * bytes) : Prop :=
  good_entry e /\ ~ has colon (snd e) /\ is_utf8 (fst e) /\ is_utf8 (snd e).

(** A file of such entries, the last of which may lack its newline. *)
Definition password_file (es : list (bytes * bytes)) (text : bytes) : Prop :=
  Forall tool_entry es /\ (text = file_text es \/ text ++ [newline] = file_text es).

Definition good_user (u : bytes) : Prop := ~ has colon u /\ ~ has newline u /\ is_utf8 u.
Definition good_hash (h : bytes) : Prop :=
  ~ has colon h /\ ~ has newline h /\ last h newline <> carriage_return /\ is_utf8 h.

(** The broker loads the file and knows exactly the users in [db], with these hashes. *)
Definition broker_sees (bare : bool) (text : bytes) (db : bytes -> bytes -> Prop) : Prop :=
  exists m, FileIdentityManager_new bare (Some text) = inl m /\ forall u h, hm_get u m = Some h <-> db u h.

Definition C45_statement (ci : bytes -> bytes -> bool) : Prop :=
  forall bare es text user hash, password_file es text -> good_user user -> good_hash hash ->
  broker_sees bare (run_passwd ci user (SetPassword hash) text)
    (fun u h => (u = user /\ h = hash) \/ (u <> user /\ last_entry es u h)).

Definition C46_statement (ci : bytes -> bytes -> bool) : Prop :=
  forall bare es text user, password_file es text -> good_user user ->
  broker_sees bare (run_passwd ci user DeleteUser text) (fun u h => u <> user /\ last_entry es u h)
  /\ (~ In user (map fst es) -> run_passwd ci user DeleteUser text = text).

(** * The effect of the tool *)

(** The name ends with something that matches the user, after [p]. *)
Definition ends_with (ci : bytes -> bytes -> bool) (user name p : bytes) : Prop :=
  exists v, name = p ++ v /\ ci user v = true.

(** The first entry whose name ends with the user, and the earliest place where it does. *)
Definition first_hit ci user (es es1 : list (bytes * bytes)) (n h : bytes) es2 (p : bytes) : Prop :=
  es = es1 ++ (n, h) :: es2 /\ ends_with ci user n p
  /\ (forall e p', In e es1 -> ~ ends_with ci user (fst e) p')
  /\ (forall p', ends_with ci user n p' -> (length p <= length p')%nat).

Lemma split_unique c (a b a' b' : bytes) : ~ has c a -> ~ has c a' -> a ++ c :: b = a' ++ c :: b' -> a = a' /\ b = b'.
Proof.
  intros H H' E.
  assert (E1 : split_once c (a ++ c :: b) = Some (a, b)) by (apply split_once_some; auto).
  assert (E2 : split_once c (a' ++ c :: b') = Some (a', b')) by (apply split_once_some; auto).
  rewrite E, E2 in E1. injection E1 as -> ->. auto.
Qed.

Definition line_entry (e : bytes * bytes) : Prop :=
  ~ has colon (fst e) /\ ~ has newline (fst e) /\ ~ has newline (snd e) /\ ~ has colon (snd e).

Lemma tool_line es : Forall tool_entry es -> Forall line_entry es.
Proof. apply Forall_impl. intros e ((A & B & C & D) & F & _). repeat split; assumption. Qed.

Lemma file_text_app a b : file_text (a ++ b) = file_text a ++ file_text b.
Proof. unfold file_text. apply flat_map_app. Qed.

Lemma file_text_cons n h es : file_text ((n, h) :: es) = n ++ colon :: h ++ newline :: file_text es.
Proof. unfold file_text. cbn [flat_map]. unfold entry_text at 1. cbn [fst snd]. rewrite <- !app_assoc. cbn [app]. rewrite <- !app_assoc. reflexivity. Qed.

(** Where a match can be, in a file. *)
Lemma occurrence es : Forall line_entry es -> forall rest pre v r post, ~ has newline rest ->
  ~ has newline v -> ~ has newline r ->
  file_text es ++ rest = pre ++ v ++ colon :: r ++ newline :: post ->
  exists es1 n es2 p, es = es1 ++ (n, r) :: es2 /\ n = p ++ v /\ pre = file_text es1 ++ p
    /\ post = file_text es2 ++ rest.
Proof.
  induction 1 as [|[n h] es (H1 & H2 & H3 & H4) HF IH]; intros rest pre v r post HR HV HN E.
  - exfalso. apply HR. cbn [file_text flat_map app] in E. rewrite E.
    apply in_or_app. right. apply in_or_app. right. right. apply in_or_app. right. left. reflexivity.
  - cbn [fst snd] in *.
    assert (EF : file_text ((n, h) :: es) ++ rest = (n ++ colon :: h) ++ newline :: file_text es ++ rest).
    { unfold file_text. cbn [flat_map]. unfold entry_text at 1. cbn [fst snd]. rewrite <- !app_assoc. cbn [app].
      rewrite <- !app_assoc. reflexivity. }
    rewrite EF in E.
    assert (HNH : ~ has newline (n ++ colon :: h)).
    { intros K. apply in_app_or in K as [K|[K|K]]; [contradiction|discriminate|contradiction]. }
    destruct (has_dec newline pre) as [K|K].
    + destruct (first_of _ _ K) as (x & y & -> & HX). rewrite <- (app_assoc x) in E. cbn [app] in E.
      destruct (split_unique _ _ _ _ _ HNH HX E) as (<- & E').
      destruct (IH rest y v r post HR HV HN E') as (es1 & n' & es2 & p & -> & -> & -> & ->).
      exists ((n, h) :: es1), (p ++ v), es2, p. repeat split.
      rewrite file_text_cons. repeat (rewrite <- ?app_assoc; cbn [app]). reflexivity.
    + assert (HP : ~ has newline (pre ++ v ++ colon :: r)).
      { intros Q. apply in_app_or in Q as [Q|Q]; [contradiction|]. apply in_app_or in Q as [Q|[Q|Q]]; [contradiction|discriminate|contradiction]. }
      assert (E' : (n ++ colon :: h) ++ newline :: file_text es ++ rest = (pre ++ v ++ colon :: r) ++ newline :: post).
      { rewrite E. repeat (rewrite <- ?app_assoc; cbn [app]). reflexivity. }
      destruct (split_unique _ _ _ _ _ HNH HP E') as (EL & EP).
      assert (HC : ~ has colon (pre ++ v)).
      { intros Q. destruct (first_of _ _ Q) as (x & y & EX & HX).
        rewrite app_assoc, EX, <- app_assoc in EL. cbn [app] in EL.
        destruct (split_unique _ _ _ _ _ H1 HX EL) as (_ & ->). apply H4. apply in_or_app. right. left. reflexivity. }
      rewrite app_assoc in EL. destruct (split_unique _ _ _ _ _ H1 HC EL) as (-> & ->).
      exists [], (pre ++ v), es, pre. repeat split. symmetry. exact EP.
Qed.

(** The text of an entry whose name ends with the user is a match. *)
Lemma entry_match ci user es1 n h es2 p v rest : ~ has newline h -> n = p ++ v -> ci user v = true ->
  exists m, file_text (es1 ++ (n, h) :: es2) ++ rest = (file_text es1 ++ p) ++ m ++ file_text es2 ++ rest
    /\ in_language ci user m.
Proof.
  intros HH -> HC. exists (v ++ colon :: h ++ [newline]). split; [|exists v, h; auto].
  rewrite file_text_app, file_text_cons. repeat (rewrite <- ?app_assoc; cbn [app]). reflexivity.
Qed.

Lemma file_text_length es1 e es2 : (length (file_text es1) + length (entry_text e) <= length (file_text (es1 ++ e :: es2)))%nat.
Proof. rewrite file_text_app. unfold file_text at 3. cbn [flat_map]. rewrite !app_length. lia. Qed.

(** The match found in a file, if any. *)
Lemma find_in_file ci user es rest : folding ci -> ~ has newline user ->
  Forall line_entry es -> ~ has newline rest ->
  match find ci user (file_text es ++ rest) with
  | None => forall e p, In e es -> ~ ends_with ci user (fst e) p
  | Some (pre, m, post) => exists es1 n h es2 p, first_hit ci user es es1 n h es2 p
      /\ pre = file_text es1 ++ p /\ post = file_text es2 ++ rest
  end.
Proof.
  intros [HR HNL HCO] HU HF HRE.
  destruct (find ci user (file_text es ++ rest)) as [[[pre m] post]|] eqn:E.
  - apply find_sound in E as (ES & (v & r & -> & HC & HN) & HFirst).
    assert (HV : ~ has newline v) by (intros K; apply HU; eapply HNL; eassumption).
    assert (ES' : file_text es ++ rest = pre ++ v ++ colon :: r ++ newline :: post).
    { rewrite ES. repeat (rewrite <- ?app_assoc; cbn [app]). reflexivity. }
    destruct (occurrence es HF rest pre v r post HRE HV HN ES') as (es1 & n & es2 & p & -> & -> & -> & ->).
    exists es1, (p ++ v), r, es2, p. split; [|auto]. split; [reflexivity|].
    split; [exists v; auto|]. split.
    + intros [n1 h1] p' HI (v' & E1 & HC'). cbn [fst] in E1. apply in_split in HI as (ea & eb & ->).
      apply Forall_app in HF as (HF & _). apply Forall_app in HF as (_ & HF). apply Forall_cons_iff in HF as ((_ & _ & Hh & _) & _). cbn [snd] in Hh.
      destruct (entry_match ci user ea n1 h1 (eb ++ (p ++ v, r) :: es2) p' v' rest Hh E1 HC') as (m' & EM & HM).
      rewrite <- app_assoc in HFirst. cbn [app] in HFirst. specialize (HFirst _ _ _ EM HM).
      pose proof (file_text_length ea (n1, h1) eb) as HL. unfold entry_text in HL. cbn [fst snd] in HL.
      rewrite E1 in HL, HFirst. rewrite !app_length in *. cbn [length] in *. lia.
    + intros p' (v' & E1 & HC').
      destruct (entry_match ci user es1 (p ++ v) r es2 p' v' rest HN E1 HC') as (m' & EM & HM).
      specialize (HFirst _ _ _ EM HM). rewrite !app_length in HFirst. lia.
  - intros [n h] p HI (v & E1 & HC). cbn [fst] in E1. apply in_split in HI as (ea & eb & ->).
    apply Forall_app in HF as (_ & HF). apply Forall_cons_iff in HF as ((_ & _ & Hh & _) & _). cbn [snd] in Hh.
    destruct (entry_match ci user ea n h eb p v rest Hh E1 HC) as (m' & EM & HM).
    exact (find_complete ci user _ E _ _ _ EM HM).
Qed.

(** Exactly what the tool does to a file of entries followed by an unterminated text [rest]: without
    an entry whose name ends with the user, setting a password appends to the text and deleting does
    nothing; otherwise the matching end of the first such name, and its hash, are replaced or, with
    the newline, removed. *)
Theorem C45_effect ci user hash es rest : folding ci -> good_user user ->
  Forall line_entry es -> ~ has newline rest ->
  ((forall e p, In e es -> ~ ends_with ci user (fst e) p)
     /\ run_passwd ci user (SetPassword hash) (file_text es ++ rest) = file_text es ++ rest ++ build_entry user hash)
  \/ (exists es1 n h es2 p, first_hit ci user es es1 n h es2 p
     /\ run_passwd ci user (SetPassword hash) (file_text es ++ rest) = file_text (es1 ++ (p ++ user, hash) :: es2) ++ rest).
Proof.
  intros HCI (HU1 & HU2 & _) HF HR. pose proof (find_in_file ci user es rest HCI HU2 HF HR) as K.
  unfold run_passwd, update. destruct (find ci user (file_text es ++ rest)) as [[[pre m] post]|] eqn:E.
  - right. destruct K as (es1 & n & h & es2 & p & HH & -> & ->). exists es1, n, h, es2, p. split; [exact HH|].
    rewrite (C47_replacement ci user hash _ _ _ _ E), file_text_app, file_text_cons. unfold build_entry.
    repeat (rewrite <- ?app_assoc; cbn [app]). reflexivity.
  - left. split; [exact K|]. rewrite app_assoc. reflexivity.
Qed.

Theorem C46_effect ci user es rest : folding ci -> good_user user ->
  Forall line_entry es -> ~ has newline rest ->
  ((forall e p, In e es -> ~ ends_with ci user (fst e) p)
     /\ run_passwd ci user DeleteUser (file_text es ++ rest) = file_text es ++ rest)
  \/ (exists es1 n h es2 p, first_hit ci user es es1 n h es2 p
     /\ run_passwd ci user DeleteUser (file_text es ++ rest) = file_text es1 ++ p ++ file_text es2 ++ rest).
Proof.
  intros HCI (HU1 & HU2 & _) HF HR. pose proof (find_in_file ci user es rest HCI HU2 HF HR) as K.
  unfold run_passwd, update, replace_first. destruct (find ci user (file_text es ++ rest)) as [[[pre m] post]|] eqn:E.
  - right. destruct K as (es1 & n & h & es2 & p & HH & -> & ->). exists es1, n, h, es2, p. split; [exact HH|].
    cbn [expand_str length expand app]. rewrite <- app_assoc. reflexivity.
  - left. split; [exact K|reflexivity].
Qed.

(** * When it works *)

Lemma is_utf8_app a b : is_utf8 a -> is_utf8 b -> is_utf8 (a ++ b).
Proof.
  intros (ca & HA & ->) (cb & HB & ->). exists (ca ++ cb). split; [apply Forall_app; auto|]. rewrite flat_map_app. reflexivity.
Qed.

Lemma file_utf8 es : Forall tool_entry es -> is_utf8 (file_text es).
Proof.
  induction 1 as [|[n h] es (_ & _ & H1 & H2) HF IH].
  - exists []. split; [constructor|reflexivity].
  - rewrite file_text_cons. cbn [fst snd] in *.
    apply is_utf8_app; [exact H1|]. apply (is_utf8_app [colon]); [apply utf8_ok_iff; reflexivity|].
    apply is_utf8_app; [exact H2|]. apply (is_utf8_app [newline]); [apply utf8_ok_iff; reflexivity|exact IH].
Qed.

Lemma sees_entries bare es (db : bytes -> bytes -> Prop) : Forall tool_entry es ->
  (forall u h, last_entry es u h <-> db u h) -> broker_sees bare (file_text es) db.
Proof.
  intros HF HD. destruct (C41_entries bare es (file_utf8 es HF)) as (m & E & HG).
  - apply (Forall_impl _ (fun e (H : tool_entry e) => proj1 H) HF).
  - exists m. split; [exact E|]. intros u h. rewrite HG. apply HD.
Qed.

Lemma last_entry_cons e es u h : last_entry (e :: es) u h <-> last_entry es u h \/ (e = (u, h) /\ ~ In u (map fst es)).
Proof.
  split.
  - intros (b & a & E & H). destruct b as [|x b]; [injection E as -> ->; auto|].
    injection E as -> ->. left. exists b, a. auto.
  - intros [(b & a & -> & H)|(-> & H)]; [exists (e :: b), a; auto|exists [], es; auto].
Qed.

Lemma last_entry_in es u h : last_entry es u h -> In u (map fst es).
Proof. intros (b & a & -> & _). rewrite map_app. apply in_or_app. right. left. reflexivity. Qed.

Lemma last_entry_app es1 es2 u h :
  last_entry (es1 ++ es2) u h <-> last_entry es2 u h \/ (last_entry es1 u h /\ ~ In u (map fst es2)).
Proof.
  induction es1 as [|e es1 IH].
  - cbn [app]. split; [auto|]. intros [H|((b & a & E & _) & _)]; [exact H|destruct b; discriminate].
  - cbn [app]. rewrite !last_entry_cons, IH, map_app, in_app_iff.
    destruct (in_dec (fun a b => match bytes_eqb_spec a b with ReflectT _ e => left e | ReflectF _ n => right n end) u (map fst es2)) as [D|D].
    + tauto.
    + assert (N2 : ~ last_entry es2 u h) by (intros K; apply last_entry_in in K; contradiction). tauto.
Qed.

Lemma prefix_length (p v : bytes) : (length p <= 0)%nat -> p = [].
Proof. destruct p; [reflexivity|cbn; lia]. Qed.

(** Only the user's own entry, at most one, and a final newline. *)
Definition unambiguous ci user (es : list (bytes * bytes)) : Prop :=
  (forall e p, In e es -> ends_with ci user (fst e) p -> fst e = user)
  /\ forall es1 h es2, es = es1 ++ (user, h) :: es2 -> ~ In user (map fst es2).

(** With such a file the password is set: [C45_statement] for files where it holds. Missing: files in
    which another name ends with the user's or differs from it only by case, files with two
    entries for the user, and files not ended by a newline, for which it is false (below). *)
Theorem C45_set_partial ci bare es user hash : folding ci -> Forall tool_entry es ->
  good_user user -> good_hash hash -> unambiguous ci user es ->
  broker_sees bare (run_passwd ci user (SetPassword hash) (file_text es))
    (fun u h => (u = user /\ h = hash) \/ (u <> user /\ last_entry es u h)).
Proof.
  intros HCI HF HU HH (HA & HD).
  assert (HT : tool_entry (user, hash)).
  { destruct HU as (U1 & U2 & U3), HH as (A & B & C & D). repeat split; assumption. }
  destruct (C45_effect ci user hash es [] HCI HU (tool_line _ HF)) as [(HN & E)|(es1 & n & h0 & es2 & p & (E1 & HE & H1 & HM) & E)];
    [intros []| |].
  - rewrite app_nil_r in E. rewrite E. cbn [app].
    replace (file_text es ++ build_entry user hash) with (file_text (es ++ [(user, hash)]))
      by (rewrite file_text_app; unfold file_text at 2; cbn [flat_map]; rewrite app_nil_r; reflexivity).
    apply sees_entries; [apply Forall_app; split; [exact HF|constructor; [exact HT|constructor]]|].
    intros u h. rewrite last_entry_app. cbn [map fst In]. split.
    + intros [K|(K & D)].
      * left. destruct K as (b & a & Q & _). destruct b as [|x [|y b]]; [injection Q as <- <- _; auto|discriminate|discriminate].
      * right. split; [intros ->; apply D; auto|exact K].
    + intros [(-> & ->)|(D & K)].
      * left. exists [], []. split; [reflexivity|intros []].
      * right. split; [exact K|]. intros [Q|[]]. congruence.
  - assert (Hn : n = user). { apply (HA (n, h0) p); [rewrite E1; apply in_or_app; right; left; reflexivity|exact HE]. }
    subst n. assert (Hp : p = []).
    { apply (prefix_length p []). apply (HM []). exists user. split; [reflexivity|apply (ci_refl ci HCI)]. }
    subst p. rewrite !app_nil_r in E. cbn [app] in E. rewrite E.
    pose proof (HD es1 h0 es2 E1) as HU2. subst es.
    apply Forall_app in HF as (HF1 & HF2). apply Forall_cons_iff in HF2 as (HF2 & HF3).
    apply sees_entries; [apply Forall_app; split; [exact HF1|constructor; [exact HT|exact HF3]]|].
    intros u h. rewrite !last_entry_app, !last_entry_cons. cbn [map fst In].
    destruct (bytes_eqb_spec u user) as [->|D].
    + split.
      * intros [[K|(K & _)]|(_ & K)]; [apply last_entry_in in K; contradiction|injection K as <-; auto|exfalso; apply K; auto].
      * intros [(_ & ->)|(D & _)]; [left; right; auto|congruence].
    + split.
      * intros [[K|(K & _)]|(K1 & K2)]; [right; auto|injection K as <- <-; congruence|right; auto].
      * intros [(K & _)|(_ & [[K|(K & _)]|(K1 & K2)])]; [contradiction|auto|injection K as <- <-; congruence|auto].
Qed.

(** The new password is then accepted by the broker. *)
Corollary C45_login_partial {H E : Type} (parse : bytes -> H + E) (verify : bytes -> H -> bool)
    ci bare es user hash password h0 : folding ci -> Forall tool_entry es ->
  good_user user -> good_hash hash -> unambiguous ci user es ->
  parse hash = inl h0 -> verify password h0 = true ->
  exists m, FileIdentityManager_new bare (Some (run_passwd ci user (SetPassword hash) (file_text es))) = inl m
    /\ authenticate parse verify m user password = None.
Proof.
  intros HCI HF HU HH HA HP HV.
  destruct (C45_set_partial ci bare es user hash HCI HF HU HH HA) as (m & EM & HG).
  exists m. split; [exact EM|]. apply (C40_exact parse verify). exists hash, h0. split; [|auto]. apply HG. auto.
Qed.

(** [C46_statement] for the same files. *)
Theorem C46_delete_partial ci bare es user : folding ci -> Forall tool_entry es ->
  good_user user -> unambiguous ci user es ->
  broker_sees bare (run_passwd ci user DeleteUser (file_text es)) (fun u h => u <> user /\ last_entry es u h)
  /\ (~ In user (map fst es) -> run_passwd ci user DeleteUser (file_text es) = file_text es).
Proof.
  intros HCI HF HU (HA & HD).
  destruct (C46_effect ci user es [] HCI HU (tool_line _ HF)) as [(HN & E)|(es1 & n & h0 & es2 & p & (E1 & HE & H1 & HM) & E)];
    [intros []| |].
  - rewrite !app_nil_r in E. rewrite E. split; [|auto]. apply sees_entries; [exact HF|].
    intros u h. split; [|tauto]. intros K. split; [|exact K]. intros ->.
    apply last_entry_in, in_map_iff in K as (e & E1 & HI). apply (HN e [] HI). exists user. split; [exact E1|apply (ci_refl ci HCI)].
  - assert (Hn : n = user). { apply (HA (n, h0) p); [rewrite E1; apply in_or_app; right; left; reflexivity|exact HE]. }
    subst n. assert (Hp : p = []).
    { apply (prefix_length p []). apply (HM []). exists user. split; [reflexivity|apply (ci_refl ci HCI)]. }
    subst p. rewrite !app_nil_r in E. cbn [app] in E. rewrite E, <- file_text_app.
    pose proof (HD es1 h0 es2 E1) as HU2. subst es. split.
    + apply Forall_app in HF as (HF1 & HF2). apply Forall_cons_iff in HF2 as (HF2 & HF3).
      apply sees_entries; [apply Forall_app; auto|].
      intros u h. rewrite !last_entry_app, last_entry_cons. cbn [map fst In].
      destruct (bytes_eqb_spec u user) as [->|D].
      * split; [|intros (D & _); congruence]. intros K. exfalso. destruct K as [K|(K & _)].
        -- apply last_entry_in in K. contradiction.
        -- apply last_entry_in, in_map_iff in K as (e & E1 & HI). apply (H1 e [] HI). exists user. split; [exact E1|apply (ci_refl ci HCI)].
      * split.
        -- intros [K|(K1 & K2)]; [auto|]. split; [exact D|]. right. split; [exact K1|]. intros [Q|Q]; [congruence|contradiction].
        -- intros (_ & [[K|(K & _)]|(K1 & K2)]); [auto|injection K as <- <-; congruence|]. right. split; [exact K1|]. intros Q. apply K2. auto.
    + intros K. exfalso. apply K. rewrite map_app. apply in_or_app. right. left. reflexivity.
Qed.

(** An absent user whose name no other name ends with: the file is left alone, whatever it ends with. *)
Theorem C46_absent_partial ci es rest user : folding ci -> Forall line_entry es -> ~ has newline rest ->
  good_user user -> (forall e p, In e es -> ~ ends_with ci user (fst e) p) ->
  run_passwd ci user DeleteUser (file_text es ++ rest) = file_text es ++ rest.
Proof.
  intros HCI HF HR HU HN. destruct (C46_effect ci user es rest HCI HU HF HR) as [(_ & E)|(es1 & n & h0 & es2 & p & (E1 & HE & _) & _)]; [exact E|].
  exfalso. apply (HN (n, h0) p); [rewrite E1; apply in_or_app; right; left; reflexivity|exact HE].
Qed.

(** * When it does not *)

Lemma str_tool n h : utf8_ok n = true -> utf8_ok h = true -> split_once colon n = None -> split_once newline n = None ->
  split_once newline h = None -> split_once colon h = None -> byte_eqb (last h newline) carriage_return = false ->
  tool_entry (n, h).
Proof.
  intros. repeat split; cbn [fst snd]; try (apply split_once_none; assumption); try (apply utf8_ok_iff; assumption).
  destruct (byte_eqb_spec (last h newline) carriage_return); [discriminate|assumption].
Qed.

Ltac entries := repeat (constructor; [apply str_tool; reflexivity|]); constructor.

Lemma good_bob : good_user (str "bob").
Proof. split; [apply split_once_none; reflexivity|]. split; [apply split_once_none; reflexivity|apply utf8_ok_iff; reflexivity]. Qed.

Lemma good_new : good_hash (str "new").
Proof.
  split; [apply split_once_none; reflexivity|]. split; [apply split_once_none; reflexivity|]. split; [discriminate|apply utf8_ok_iff; reflexivity].
Qed.

(** Setting bob's password changes the entry of alicebob instead. *)
Theorem C45_set_refuted ci : folding ci -> ~ C45_statement ci.
Proof.
  intros HCI HS.
  set (es := [(str "alicebob", str "old")]).
  assert (HF : Forall tool_entry es) by (unfold es; entries).
  destruct (HS true es (file_text es) (str "bob") (str "new")) as (m & EM & HG);
    [split; [exact HF|left; reflexivity]|exact good_bob|exact good_new|].
  assert (HO : hm_get (str "alicebob") m = Some (str "old")).
  { apply HG. right. split; [discriminate|]. exists [], []. split; [reflexivity|intros []]. }
  destruct (C45_effect ci (str "bob") (str "new") es [] HCI good_bob (tool_line _ HF)) as [(HN & _)|(es1 & n & h & es2 & p & (E1 & HE & _ & _) & E)]; [intros []| |].
  - apply (HN (str "alicebob", str "old") (str "alice")); [left; reflexivity|].
    exists (str "bob"). split; [reflexivity|apply (ci_refl ci HCI)].
  - rewrite !app_nil_r in E. rewrite E in EM.
    unfold es in E1. destruct es1 as [|x [|y es1]]; [|discriminate|discriminate].
    injection E1 as <- <- <-. cbn [app] in EM. destruct HE as (v & EV & HC).
    assert (HX : Forall good_entry [(p ++ str "bob", str "new")]).
    { constructor; [|constructor].
      assert (HP : forall c, has c (p ++ str "bob") -> has c (str "alicebob")).
      { intros c K. apply in_app_or in K as [K|K].
        - rewrite EV. apply in_or_app. left. exact K.
        - change (str "alicebob") with (str "alice" ++ str "bob"). apply in_or_app. right. exact K. }
      split; [|split; [|split]]; cbn [fst snd].
      - intros K. apply HP in K. revert K. apply split_once_none. reflexivity.
      - intros K. apply HP in K. revert K. apply split_once_none. reflexivity.
      - apply split_once_none. reflexivity.
      - discriminate. }
    cbn [FileIdentityManager_new] in EM.
    destruct (utf8_ok (file_text [(p ++ str "bob", str "new")])); [|discriminate].
    rewrite (lines_spec _ _ _ (file_lines true _ HX)) in EM. cbn [map fst snd load_entries] in EM.
    assert (ES : split_once colon ((p ++ str "bob") ++ colon :: str "new") = Some (p ++ str "bob", str "new")).
    { apply split_once_some. split; [reflexivity|]. apply Forall_cons_iff in HX as ((K & _) & _). exact K. }
    rewrite ES in EM. injection EM as <-. cbn [hm_insert hm_get] in HO. destruct (bytes_eqb (str "alicebob") (p ++ str "bob")); discriminate.
Qed.

(** Also when names cannot be confused: of two entries only the first is changed, and the broker
    takes the last; *)
Theorem C45_duplicate_refuted ci : folding ci -> exists es,
  Forall tool_entry es /\ (forall e, In e es -> fst e = str "bob")
  /\ run_passwd ci (str "bob") (SetPassword (str "new")) (file_text es)
     = file_text [(str "bob", str "new"); (str "bob", str "old")].
Proof.
  intros HCI. set (es := [(str "bob", str "older"); (str "bob", str "old")]).
  assert (HF : Forall tool_entry es) by (unfold es; entries).
  exists es. split; [exact HF|]. split; [intros e [<-|[<-|[]]]; reflexivity|].
  destruct (C45_effect ci (str "bob") (str "new") es [] HCI good_bob (tool_line _ HF)) as [(HN & _)|(es1 & n & h & es2 & p & (E1 & HE & H1 & HM) & E)]; [intros []| |].
  - exfalso. apply (HN (str "bob", str "older") []); [left; reflexivity|]. exists (str "bob"). split; [reflexivity|apply (ci_refl ci HCI)].
  - rewrite !app_nil_r in E. rewrite E. destruct es1 as [|e es1].
    + injection E1 as <- <- <-. assert (Hp : p = []).
      { apply (prefix_length p []). apply (HM []). exists (str "bob"). split; [reflexivity|apply (ci_refl ci HCI)]. }
      subst p. reflexivity.
    + exfalso. apply (H1 e []); [left; reflexivity|]. exists (str "bob"). unfold es in E1. injection E1 as <- _.
      split; [reflexivity|apply (ci_refl ci HCI)].
Qed.

(** and an entry without newline at the end of the file is not seen: the new one is glued to it. *)
Theorem C45_no_newline_refuted ci : folding ci -> 
  run_passwd ci (str "bob") (SetPassword (str "new")) (str "bob:old") = str "bob:oldbob:new" ++ [newline].
Proof.
  intros HCI.
  destruct (C45_effect ci (str "bob") (str "new") [] (str "bob:old") HCI good_bob (Forall_nil _)) as [(_ & E)|(es1 & n & h & es2 & p & (E1 & _) & _)].
  - apply split_once_none. reflexivity.
  - exact E.
  - destruct es1; discriminate.
Qed.

(** Deleting bob cuts alicebob's entry, and the broker no longer starts. *)
Theorem C46_delete_refuted ci : folding ci -> ~ C46_statement ci.
Proof.
  intros HCI HS.
  set (es := [(str "alicebob", str "old")]).
  assert (HF : Forall tool_entry es) by (unfold es; entries).
  destruct (HS true es (file_text es) (str "bob")) as (_ & HA);
    [split; [exact HF|left; reflexivity]|exact good_bob|].
  assert (HI : ~ In (str "bob") (map fst es)) by (intros [K|[]]; discriminate).
  specialize (HA HI).
  destruct (C46_effect ci (str "bob") es [] HCI good_bob (tool_line _ HF)) as [(HN & _)|(es1 & n & h & es2 & p & (E1 & HE & _ & _) & E)]; [intros []| |].
  - apply (HN (str "alicebob", str "old") (str "alice")); [left; reflexivity|].
    exists (str "bob"). split; [reflexivity|apply (ci_refl ci HCI)].
  - rewrite !app_nil_r in E. rewrite E in HA.
    unfold es in E1. destruct es1 as [|x [|y es1]]; [|discriminate|discriminate].
    injection E1 as <- <- <-. destruct HE as (v & EV & HC). apply (f_equal (@length byte)) in EV, HA.
    cbn [file_text flat_map app] in HA. rewrite !app_length in *. cbn in HA, EV. lia.
Qed.

(** * Cases *)

(** ASCII case-insensitivity is a folding. *)
Definition lower (b : byte) : byte := if in_range 0x41 0x5A (b2n b) then n2b (b2n b + 32) else b.
Definition ascii_ci (u v : bytes) : bool := bytes_eqb (map lower u) (map lower v).

Lemma lower_special : forall b, lower b = newline \/ lower b = colon -> lower b = b.
Proof. intros b. destruct b; cbn; intros [H|H]; first [reflexivity|discriminate]. Qed.

Lemma ascii_folding : folding ascii_ci.
Proof.
  assert (K : forall c u v, lower c = c -> (forall b, lower b = c -> b = c) -> ascii_ci u v = true -> has c v -> has c u).
  { intros c u v HL HB E HI. unfold ascii_ci in E. destruct (bytes_eqb_spec (map lower u) (map lower v)) as [EQ|]; [|discriminate].
    apply (in_map lower) in HI. rewrite HL, <- EQ in HI. apply in_map_iff in HI as (b & E1 & HI). rewrite <- (HB b E1). exact HI. }
  split.
  - intros u. unfold ascii_ci. destruct (bytes_eqb_spec (map lower u) (map lower u)); congruence.
  - intros u v. apply (K newline); [reflexivity|]. intros b E. rewrite <- (lower_special b); auto.
  - intros u v. apply (K colon); [reflexivity|]. intros b E. rewrite <- (lower_special b); auto.
Qed.

Definition ex_entries : list (bytes * bytes) :=
  [(str "alice", str "$a$1"); (str "bob", str "$a$2"); (str "bobby", str "$a$3")].

Example C45_case : Forall tool_entry ex_entries /\ unambiguous ascii_ci (str "bob") ex_entries
  /\ run_passwd ascii_ci (str "bob") (SetPassword (str "$n$0")) (file_text ex_entries)
     = file_text [(str "alice", str "$a$1"); (str "bob", str "$n$0"); (str "bobby", str "$a$3")]
  /\ run_passwd ascii_ci (str "carol") (SetPassword (str "$n$0")) (file_text ex_entries)
     = file_text (ex_entries ++ [(str "carol", str "$n$0")])
  /\ run_passwd ascii_ci (str "BOB") (SetPassword (str "$n$0")) (file_text ex_entries)
     = file_text [(str "alice", str "$a$1"); (str "BOB", str "$n$0"); (str "bobby", str "$a$3")].
Proof.
  split; [unfold ex_entries; entries|]. split; [split|repeat split].
  - intros e p HI (v & EV & HC). destruct HI as [<-|[<-|[<-|[]]]]; cbn [fst] in *; [exfalso|reflexivity|exfalso].
    all: assert (HL : length v = 3%nat) by (unfold ascii_ci in HC; destruct (bytes_eqb_spec (map lower (str "bob")) (map lower v)) as [Q|]; [|discriminate]; apply (f_equal (@length byte)) in Q; rewrite !map_length in Q; symmetry; exact Q).
    all: assert (HP : length p = 2%nat) by (apply (f_equal (@length byte)) in EV; rewrite app_length, HL in EV; cbn in EV; lia).
    all: destruct p as [|p0 [|p1 [|]]]; try discriminate; cbn [app str String.list_byte_of_string] in EV;
         injection EV as <- <- <-; vm_compute in HC; discriminate.
  - intros es1 h es2 E. destruct es1 as [|e1 [|e2 [|e3 es1]]]; try discriminate.
    + injection E as _ _ <-. intros [K|[]]. discriminate.
    + exfalso. apply (f_equal (@length (bytes * bytes))) in E. cbn in E. rewrite app_length in E. cbn in E. lia.
Qed.

Example C46_case :
  run_passwd ascii_ci (str "bob") DeleteUser (file_text ex_entries)
     = file_text [(str "alice", str "$a$1"); (str "bobby", str "$a$3")]
  /\ run_passwd ascii_ci (str "carol") DeleteUser (file_text ex_entries) = file_text ex_entries
  /\ FileIdentityManager_new true (Some (run_passwd ascii_ci (str "bob") DeleteUser (file_text [(str "alicebob", str "h")]))) = inr InvalidEntry.
Proof. repeat split. Qed.
