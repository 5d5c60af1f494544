(** Properties C40 and C41: authentication against the password file. *)
From Verif Require Import Base Base_facts Utf8 Spec_utf8 Utf8_facts HashMap Packets Messaging Auth.
From Verif Require Handler Spec_broker Prop_broker.

(** * C40 *)

Theorem C40_exact {H E : Type} (parse : bytes -> H + E) (verify : bytes -> H -> bool) m u p :
  (authenticate parse verify m u p = None <->
     exists hash h, hm_get u m = Some hash /\ parse hash = inl h /\ verify p h = true)
  /\ (authenticate parse verify m u p = Some UserNotFound <-> hm_get u m = None)
  /\ (forall e, authenticate parse verify m u p = Some (EncryptionError e) <->
     exists hash, hm_get u m = Some hash /\ parse hash = inr e)
  /\ (authenticate parse verify m u p = Some InvalidPassword <->
     exists hash h, hm_get u m = Some hash /\ parse hash = inl h /\ verify p h = false).
Proof.
  unfold authenticate. destruct (hm_get u m) as [hash|]; [destruct (parse hash) as [h|e0] eqn:P; [destruct (verify p h) eqn:V|]|].
  all: repeat split; intros; try discriminate; try congruence.
  all: repeat match goal with X : exists _, _ |- _ => destruct X | X : _ /\ _ |- _ => destruct X end; try congruence.
  all: eauto. eexists; split; [reflexivity|congruence].
Qed.

(** * C41 *)

Definition has (c : byte) (s : bytes) : Prop := In c s.

(** What the lines of a text are: separated by newlines (10), a carriage return (13) before the newline not
    counting; what follows the last newline is a line unless it is empty. *)
Inductive text_lines (bare_cr : bool) : bytes -> list bytes -> Prop :=
| tl_end : text_lines bare_cr [] []
| tl_last l : l <> [] -> ~ has x0a l -> (bare_cr = true -> last l x0a <> x0d) ->
    text_lines bare_cr l [l]
| tl_last_cr l : bare_cr = true -> ~ has x0a l -> text_lines bare_cr (l ++ [x0d]) [l]
| tl_line l s ls : ~ has x0a l -> last l x0a <> x0d -> text_lines bare_cr s ls ->
    text_lines bare_cr (l ++ x0a :: s) (l :: ls)
| tl_line_cr l s ls : ~ has x0a l -> text_lines bare_cr s ls ->
    text_lines bare_cr (l ++ x0d :: x0a :: s) (l :: ls).

(** A line names a user and gives its hash: they are separated by the first colon (58). *)
Definition names (line u h : bytes) : Prop := line = u ++ x3a :: h /\ ~ has x3a u.

(** [h] is on the last line naming [u]. *)
Definition last_naming (ls : list bytes) (u h : bytes) : Prop :=
  exists before line after, ls = before ++ line :: after /\ names line u h
    /\ forall line' h', In line' after -> ~ names line' u h'.

Lemma byte_eqb_refl b : byte_eqb b b = true.
Proof. destruct (byte_eqb_spec b b); congruence. Qed.

Lemma pieces_plain l : l <> [] -> ~ has newline l -> pieces l = [(l, false)].
Proof.
  induction l as [|b l IH]; intros H0 H; [congruence|]. cbn [pieces].
  destruct (byte_eqb_spec b newline) as [->|D]; [exfalso; apply H; left; reflexivity|].
  destruct l as [|b' l]; [reflexivity|].
  rewrite IH; [reflexivity|discriminate|]. intros K. apply H. right. exact K.
Qed.

Lemma pieces_line l s : ~ has newline l -> pieces (l ++ newline :: s) = (l, true) :: pieces s.
Proof.
  induction l as [|b l IH]; intros H; cbn [app pieces].
  - reflexivity.
  - destruct (byte_eqb_spec b newline) as [->|D]; [exfalso; apply H; left; reflexivity|].
    rewrite IH; [reflexivity|]. intros K. apply H. right. exact K.
Qed.

Lemma strip_cr_snoc l : strip_cr (l ++ [carriage_return]) = l.
Proof.
  induction l as [|b [|c l] IH]; [reflexivity|reflexivity|]. cbn [app strip_cr] in *. rewrite IH. reflexivity.
Qed.

Lemma strip_cr_none l : last l newline <> carriage_return -> strip_cr l = l.
Proof.
  induction l as [|b [|c l] IH]; intros H; [reflexivity| |].
  - cbn in *. destruct (byte_eqb_spec b carriage_return); congruence.
  - cbn [strip_cr]. cbn [strip_cr] in IH. rewrite IH; [reflexivity|exact H].
Qed.

Lemma lines_spec bare s ls : text_lines bare s ls -> lines bare s = ls.
Proof.
  unfold lines. induction 1 as [|l H0 HN HL|l HB HN|l s ls HN HL HT IH|l s ls HN HT IH].
  - reflexivity.
  - rewrite pieces_plain by assumption. cbn. destruct bare; [|reflexivity]. rewrite strip_cr_none; auto.
  - rewrite pieces_plain.
    + cbn. rewrite HB, strip_cr_snoc. reflexivity.
    + destruct l; discriminate.
    + intros K. apply in_app_or in K as [K|[K|[]]]; [contradiction|discriminate].
  - rewrite pieces_line by assumption. cbn. rewrite strip_cr_none by assumption. rewrite IH. reflexivity.
  - change (l ++ x0d :: x0a :: s) with (l ++ [carriage_return] ++ newline :: s).
    rewrite app_assoc, pieces_line.
    + cbn. rewrite strip_cr_snoc, IH. reflexivity.
    + intros K. apply in_app_or in K as [K|[K|[]]]; [contradiction|discriminate].
Qed.

(** Every text has lines (and only one list of them, by [lines_spec]). *)
Lemma has_dec c s : has c s \/ ~ has c s.
Proof.
  destruct (in_dec (fun a b => match byte_eqb_spec a b with ReflectT _ e => left e | ReflectF _ n => right n end) c s); auto.
Qed.

Lemma first_of c s : has c s -> exists a b, s = a ++ c :: b /\ ~ has c a.
Proof.
  induction s as [|x s IH]; intros H; [destruct H|].
  destruct (byte_eqb_spec x c) as [->|D].
  - exists [], s. split; [reflexivity|intros []].
  - destruct H as [H|H]; [congruence|]. destruct (IH H) as (a & b & -> & K).
    exists (x :: a), b. split; [reflexivity|]. intros [Q|Q]; [congruence|contradiction].
Qed.

Lemma last_split (l : bytes) : last l newline = carriage_return -> exists l', l = l' ++ [carriage_return].
Proof.
  intros H. destruct l as [|b l] using rev_ind; [discriminate|].
  rewrite last_last in H. subst b. eauto.
Qed.

Lemma cr_dec l : last l newline = carriage_return \/ last l newline <> carriage_return.
Proof. destruct (byte_eqb_spec (last l newline) carriage_return); auto. Qed.

Lemma text_lines_exist bare s : exists ls, text_lines bare s ls.
Proof.
  remember (length s) as n eqn:E. revert s E.
  induction n as [n IH] using lt_wf_ind. intros s ->.
  destruct (has_dec newline s) as [H|H].
  - destruct (first_of _ _ H) as (a & b & -> & K).
    destruct (IH (length b) ltac:(rewrite app_length; cbn; lia) b eq_refl) as (ls & HT).
    destruct (cr_dec a) as [C|C].
    + destruct (last_split _ C) as (l' & ->). exists (l' :: ls). rewrite <- app_assoc. cbn [app].
      apply tl_line_cr; [|exact HT]. intros Q. apply K. apply in_or_app. left. exact Q.
    + exists (a :: ls). apply tl_line; assumption.
  - destruct s as [|b s]; [exists []; constructor|].
    destruct (cr_dec (b :: s)) as [C|C].
    + destruct bare.
      * destruct (last_split _ C) as (l' & E). rewrite E. exists [l']. apply tl_last_cr; [reflexivity|].
        intros Q. apply H. rewrite E. apply in_or_app. left. exact Q.
      * exists [b :: s]. apply tl_last; [discriminate|exact H|discriminate].
    + exists [b :: s]. apply tl_last; [discriminate|exact H|auto].
Qed.

Lemma split_once_some c s a b : split_once c s = Some (a, b) <-> s = a ++ c :: b /\ ~ has c a.
Proof.
  split.
  - revert a. induction s as [|x s IH]; intros a H; [discriminate|]. cbn [split_once] in H.
    destruct (byte_eqb_spec x c) as [->|D].
    + injection H as <- <-. split; [reflexivity|intros []].
    + destruct (split_once c s) as [[a' b']|]; [|discriminate]. injection H as <- <-.
      destruct (IH a' eq_refl) as (-> & K). split; [reflexivity|]. intros [Q|Q]; [congruence|contradiction].
  - intros (-> & K). induction a as [|x a IH]; cbn [app split_once].
    + rewrite byte_eqb_refl. reflexivity.
    + destruct (byte_eqb_spec x c) as [->|D]; [exfalso; apply K; left; reflexivity|].
      rewrite IH; [reflexivity|]. intros Q. apply K. right. exact Q.
Qed.

Lemma split_once_none c s : split_once c s = None <-> ~ has c s.
Proof.
  split.
  - intros H K. destruct (first_of _ _ K) as (a & b & E). apply split_once_some in E. congruence.
  - intros H. destruct (split_once c s) as [[a b]|] eqn:E; [|reflexivity].
    apply split_once_some in E as (-> & _). exfalso. apply H. apply in_or_app. right. left. reflexivity.
Qed.

Lemma names_split line u h : names line u h <-> split_once colon line = Some (u, h).
Proof. unfold names. rewrite split_once_some. reflexivity. Qed.

Lemma last_naming_cons line ls u h :
  last_naming (line :: ls) u h <->
  last_naming ls u h \/ (names line u h /\ forall line' h', In line' ls -> ~ names line' u h').
Proof.
  split.
  - intros (before & l & after & E & HN & HA). destruct before as [|x before].
    + injection E as <- <-. right. auto.
    + injection E as <- ->. left. exists before, l, after. auto.
  - intros [(before & l & after & -> & HN & HA)|(HN & HA)].
    + exists (line :: before), l, after. auto.
    + exists [], line, ls. auto.
Qed.

Lemma naming_dec ls u : (exists h, last_naming ls u h) \/ (forall line' h', In line' ls -> ~ names line' u h').
Proof.
  induction ls as [|line ls [[h IH]|IH]]; [right; intros ? ? []| |].
  - left. exists h. apply last_naming_cons. auto.
  - destruct (split_once colon line) as [[a b]|] eqn:E.
    + destruct (bytes_eqb_spec a u) as [->|D].
      * left. exists b. apply last_naming_cons. right. rewrite names_split. auto.
      * right. intros l' h' [<-|H]; [|apply IH; exact H]. rewrite names_split. congruence.
    + right. intros l' h' [<-|H]; [|apply IH; exact H]. rewrite names_split. congruence.
Qed.

Lemma last_naming_absent ls u h : (forall line' h', In line' ls -> ~ names line' u h') -> ~ last_naming ls u h.
Proof. intros H (b & l & a & -> & HN & _). apply (H l h); [apply in_or_app; right; left; reflexivity|exact HN]. Qed.

Lemma load_ok ls : forall m, (forall l, In l ls -> has colon l) ->
  exists m', load_entries ls m = inl m'
    /\ forall u h, hm_get u m' = Some h <->
         last_naming ls u h \/ ((forall line' h', In line' ls -> ~ names line' u h') /\ hm_get u m = Some h).
Proof.
  induction ls as [|line ls IH]; intros m HC; cbn [load_entries].
  - exists m. split; [reflexivity|]. intros u h. split.
    + intros H. right. split; [intros ? ? []|exact H].
    + intros [(b & l & a & E & _)|(_ & H)]; [destruct b; discriminate|exact H].
  - destruct (split_once colon line) as [[a b]|] eqn:E.
    2:{ exfalso. apply split_once_none in E. apply E, HC. left. reflexivity. }
    destruct (IH (hm_insert a b m)) as (m' & EL & HG). { intros l Hl. apply HC. right. exact Hl. }
    exists m'. split; [exact EL|]. intros u h. rewrite HG, last_naming_cons, hm_get_insert, names_split, E.
    destruct (bytes_eqb_spec u a) as [->|D].
    + split.
      * intros [H|(H & Q)]; [auto|]. injection Q as ->. left. right. split; [reflexivity|exact H].
      * intros [[H|(Q & H)]|(H & Q)]; [auto| |].
        -- injection Q as ->. right. split; [exact H|reflexivity].
        -- exfalso. apply (H line b); [left; reflexivity|]. apply names_split. exact E.
    + split.
      * intros [H|(H & Q)]; [auto|]. right. split; [|exact Q].
        intros l' h' [<-|K]; [rewrite names_split; congruence|apply H; exact K].
      * intros [[H|(Q & H)]|(H & Q)]; [auto|congruence|]. right. split; [|exact Q].
        intros l' h' K. apply H. right. exact K.
Qed.

Lemma load_bad ls : forall m, (exists l, In l ls /\ ~ has colon l) -> load_entries ls m = inr InvalidEntry.
Proof.
  induction ls as [|line ls IH]; intros m (l & HI & HC); [destruct HI|]. cbn [load_entries].
  destruct (split_once colon line) as [[a b]|] eqn:E; [|reflexivity].
  destruct HI as [->|HI]; [apply split_once_none in HC; congruence|]. apply IH. eauto.
Qed.

(** Every readable content: all its lines have a colon, or it is rejected. *)
Theorem C41_loads bare s ls : is_utf8 s -> text_lines bare s ls -> (forall l, In l ls -> has colon l) ->
  exists m, FileIdentityManager_new bare (Some s) = inl m
    /\ forall u h, hm_get u m = Some h <-> last_naming ls u h.
Proof.
  intros HU HT HC. cbn [FileIdentityManager_new]. rewrite (proj2 (utf8_ok_iff s) HU), (lines_spec _ _ _ HT).
  destruct (load_ok ls [] HC) as (m & E & HG). exists m. split; [exact E|]. intros u h. rewrite HG.
  split; [intros [H|(_ & H)]; [exact H|discriminate]|auto].
Qed.

Theorem C41_rejects bare s ls : is_utf8 s -> text_lines bare s ls -> (exists l, In l ls /\ ~ has colon l) ->
  FileIdentityManager_new bare (Some s) = inr InvalidEntry.
Proof.
  intros HU HT HC. cbn [FileIdentityManager_new]. rewrite (proj2 (utf8_ok_iff s) HU), (lines_spec _ _ _ HT).
  apply load_bad, HC.
Qed.

(** The two theorems above cover every content that is text. *)
Theorem C41_every_content bare s : is_utf8 s -> exists ls, text_lines bare s ls
  /\ ((forall l, In l ls -> has colon l) \/ (exists l, In l ls /\ ~ has colon l)).
Proof.
  intros _. destruct (text_lines_exist bare s) as (ls & HT). exists ls. split; [exact HT|].
  clear HT. induction ls as [|l ls IH]; [left; intros ? []|].
  destruct (has_dec colon l) as [H|H].
  - destruct IH as [IH|(x & HI & HX)].
    + left. intros x [<-|HI]; auto.
    + right. exists x. split; [right; exact HI|exact HX].
  - right. exists l. split; [left; reflexivity|exact H].
Qed.

(** The file written out as entries, each ended by a newline. *)
Definition entry_text (e : bytes * bytes) : bytes := fst e ++ colon :: snd e ++ [newline].
Definition file_text (es : list (bytes * bytes)) : bytes := flat_map entry_text es.

Definition good_entry (e : bytes * bytes) : Prop :=
  ~ has colon (fst e) /\ ~ has newline (fst e) /\ ~ has newline (snd e) /\ last (snd e) newline <> carriage_return.

(** The last entry for a user. *)
Definition last_entry (es : list (bytes * bytes)) (u h : bytes) : Prop :=
  exists before after, es = before ++ (u, h) :: after /\ ~ In u (map fst after).

Lemma last_cons_app (u h : bytes) : last h newline <> carriage_return ->
  last (u ++ colon :: h) newline <> carriage_return.
Proof.
  intros H. destruct h as [|b h] using rev_ind.
  - rewrite last_last. discriminate.
  - rewrite last_last in H. rewrite app_comm_cons, app_assoc, last_last. exact H.
Qed.

Lemma file_lines bare es : Forall good_entry es ->
  text_lines bare (file_text es) (map (fun e => fst e ++ colon :: snd e) es).
Proof.
  induction 1 as [|[u h] es (H1 & H2 & H3 & H4) HF IH]; cbn [file_text flat_map map fst snd].
  - constructor.
  - unfold entry_text at 1. cbn [fst snd] in *.
    replace ((u ++ colon :: h ++ [newline]) ++ flat_map entry_text es)
      with ((u ++ colon :: h) ++ newline :: file_text es)
      by (unfold file_text; rewrite <- !app_assoc; cbn [app]; rewrite <- app_assoc; reflexivity).
    apply tl_line; [|apply last_cons_app; exact H4|exact IH].
    intros K. apply in_app_or in K as [K|[K|K]]; [contradiction|discriminate|contradiction].
Qed.

Lemma names_entry u h u' h' : ~ has colon u -> names (u ++ colon :: h) u' h' <-> u' = u /\ h' = h.
Proof.
  intros H. rewrite names_split.
  assert (E : split_once colon (u ++ colon :: h) = Some (u, h)) by (apply split_once_some; auto).
  rewrite E. split; [intros Q; injection Q; auto|intros (-> & ->); reflexivity].
Qed.

Lemma last_naming_entries es u h : Forall good_entry es ->
  last_naming (map (fun e => fst e ++ colon :: snd e) es) u h <-> last_entry es u h.
Proof.
  intros HF. split.
  - intros (b & l & a & E & HN & HA).
    apply map_eq_app in E as (es1 & es2 & -> & E1 & E2).
    destruct es2 as [|[u0 h0] es2]; [discriminate|]. cbn [map fst snd] in E2.
    apply Forall_app in HF as (_ & HF). apply Forall_cons_iff in HF as ((HC & _) & HF).
    assert (EL : u0 ++ colon :: h0 = l) by congruence. assert (EA : map (fun e => fst e ++ colon :: snd e) es2 = a) by congruence.
    subst l a. apply names_entry in HN as (-> & ->); [|exact HC].
    exists es1, es2. split; [reflexivity|]. intros K. apply in_map_iff in K as ([u1 h1] & E & K).
    cbn [fst] in E. subst u1. apply (HA (u0 ++ colon :: h1) h1).
    + apply in_map_iff. exists (u0, h1). auto.
    + apply names_entry; auto.
  - intros (b & a & -> & HA). apply Forall_app in HF as (_ & HF). apply Forall_cons_iff in HF as ((HC & _) & HF).
    exists (map (fun e => fst e ++ colon :: snd e) b), (u ++ colon :: h), (map (fun e => fst e ++ colon :: snd e) a).
    split; [rewrite map_app; reflexivity|]. split; [apply names_entry; auto|].
    intros l h' K. apply in_map_iff in K as ([u1 h1] & <- & K). cbn [fst snd].
    rewrite Forall_forall in HF. destruct (HF _ K) as (HC1 & _). rewrite names_entry by exact HC1.
    intros (-> & _). apply HA. apply in_map_iff. exists (u1, h1). auto.
Qed.

Theorem C41_entries bare es : is_utf8 (file_text es) -> Forall good_entry es ->
  exists m, FileIdentityManager_new bare (Some (file_text es)) = inl m
    /\ forall u h, hm_get u m = Some h <-> last_entry es u h.
Proof.
  intros HU HF. destruct (C41_loads bare _ _ HU (file_lines bare es HF)) as (m & E & HG).
  - intros l Hl. apply in_map_iff in Hl as (e & <- & _). apply in_or_app. right. left. reflexivity.
  - exists m. split; [exact E|]. intros u h. rewrite HG. apply last_naming_entries, HF.
Qed.

Theorem C41_unreadable bare s : ~ is_utf8 s ->
  FileIdentityManager_new bare (Some s) = inr FileError /\ FileIdentityManager_new bare None = inr FileError.
Proof.
  intros H. split; [|reflexivity]. cbn. destruct (utf8_ok s) eqn:E; [|reflexivity].
  apply utf8_ok_iff in E. contradiction.
Qed.

(** End to end: who gets in with a given file. *)
Theorem C40_file {H E : Type} (parse : bytes -> H + E) (verify : bytes -> H -> bool) bare s ls m u p :
  is_utf8 s -> text_lines bare s ls -> FileIdentityManager_new bare (Some s) = inl m ->
  authenticate parse verify m u p = None <->
  exists hash h, last_naming ls u hash /\ parse hash = inl h /\ verify p h = true.
Proof.
  intros HU HT HM.
  assert (HC : forall l, In l ls -> has colon l).
  { intros l Hl. destruct (has_dec colon l) as [K|K]; [exact K|].
    rewrite (C41_rejects bare s ls HU HT) in HM; [discriminate|eauto]. }
  destruct (C41_loads bare s ls HU HT HC) as (m' & E' & HG). rewrite HM in E'. injection E' as <-.
  rewrite (proj1 (C40_exact parse verify m u p)). setoid_rewrite HG. reflexivity.
Qed.

(** And in the broker: a client has a session exactly when the last CONNECT that names it and carries
    no user name, or one whose entry in the file verifies the password, is not followed by its
    DISCONNECT. *)
Definition file_auth {H E : Type} (parse : bytes -> H + E) (verify : bytes -> H -> bool)
    (m : FileIdentityManager) (u p : bytes) : bool :=
  match authenticate parse verify m u p with None => true | Some _ => false end.

Definition let_in {H E : Type} (parse : bytes -> H + E) (verify : bytes -> H -> bool) (ls : list bytes)
    (c : ConnectPacket) : Prop :=
  user_name c = None
  \/ exists u p hash h, user_name c = Some u /\ password c = Some p
       /\ last_naming ls u hash /\ parse hash = inl h /\ verify p h = true.

Theorem C40_session {H E : Type} (parse : bytes -> H + E) (verify : bytes -> H -> bool) bare s ls db hist m cid :
  is_utf8 s -> text_lines bare s ls -> FileIdentityManager_new bare (Some s) = inl db ->
  Prop_broker.after (file_auth parse verify db) hist m ->
  session_exists m cid = true <->
  exists before te after c a k, hist = before ++ te :: after /\ snd te = Handler.Connected c a k
    /\ client_id c = cid /\ let_in parse verify ls c
    /\ forall x, In x after -> ~ Spec_broker.ends cid x.
Proof.
  intros HU HT HM HA.
  assert (HL : forall c, Spec_broker.accepts (file_auth parse verify db) c <-> let_in parse verify ls c).
  { intros c. unfold Spec_broker.accepts, let_in.
    pose proof (fun u p => C40_file parse verify bare s ls db u p HU HT HM) as HC. unfold file_auth.
    destruct (user_name c) as [u|]; [destruct (password c) as [p|]|].
    - specialize (HC u p). destruct (authenticate parse verify db u p) as [e|].
      + split; [discriminate|]. intros [Q|(u' & p' & hash & h & Q1 & Q2 & K)]; [discriminate|].
        injection Q1 as <-. injection Q2 as <-. assert (X : Some e = None) by (apply HC; exists hash, h; exact K). discriminate.
      + split; [|reflexivity]. intros _. right. destruct (proj1 HC eq_refl) as (hash & h & K). exists u, p, hash, h. auto.
    - split; [intros []|]. intros [Q|(u' & p' & hash & h & Q1 & Q2 & K)]; discriminate.
    - split; auto. }
  rewrite (Prop_broker.C31_session_exactly_when_connected _ _ _ cid HA). unfold Spec_broker.connected, Spec_broker.accepted_on. split.
  - intros (b & te & af & k & -> & (c & a & E1 & E2 & K) & HE). exists b, te, af, c, a, k. rewrite <- HL. auto 6.
  - intros (b & te & af & c & a & k & -> & E1 & E2 & K & HE). exists b, te, af, k. split; [reflexivity|]. split; [|exact HE].
    exists c, a. rewrite HL. auto.
Qed.

Definition ex_file : bytes :=
  str "bob:h1" ++ [x0a] ++ str "eve:$a:b" ++ [x0d; x0a] ++ str "bob:h2".

Example C41_case : exists ls, text_lines true ex_file ls /\ is_utf8 ex_file
  /\ ls = [str "bob:h1"; str "eve:$a:b"; str "bob:h2"]
  /\ (forall l, In l ls -> has colon l)
  /\ exists m, FileIdentityManager_new true (Some ex_file) = inl m
       /\ hm_get (str "bob") m = Some (str "h2") /\ hm_get (str "eve") m = Some (str "$a:b").
Proof.
  exists [str "bob:h1"; str "eve:$a:b"; str "bob:h2"].
  destruct (text_lines_exist true ex_file) as (ls & HT).
  pose proof (lines_spec _ _ _ HT) as E. vm_compute in E. subst ls.
  split; [exact HT|]. split; [apply utf8_ok_iff; reflexivity|]. split; [reflexivity|]. split.
  - intros l Hl. destruct Hl as [<-|[<-|[<-|[]]]];
    match goal with |- has _ ?x => destruct (has_dec colon x) as [K|K]; [exact K|apply split_once_none in K; vm_compute in K; discriminate] end.
  - eexists. split; [reflexivity|]. split; reflexivity.
Qed.

Example C41_rejects_case : FileIdentityManager_new false (Some (str "bob:h" ++ [x0a] ++ str "eve")) = inr InvalidEntry.
Proof. reflexivity. Qed.

Example C40_case :
  let parse := fun h => match h with x24 :: r => inl r | _ => inr 7%N end in
  let verify := bytes_eqb in
  let m := [(str "bob", str "$pw"); (str "eve", str "?")] in
  authenticate parse verify m (str "bob") (str "pw") = None
  /\ authenticate parse verify m (str "bob") (str "px") = Some InvalidPassword
  /\ authenticate parse verify m (str "eve") (str "pw") = Some (EncryptionError 7%N)
  /\ authenticate parse verify m (str "BOB") (str "pw") = Some UserNotFound.
Proof. repeat split. Qed.
