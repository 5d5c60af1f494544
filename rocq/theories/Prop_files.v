(** Property C98: the password file is changed while brokers start. *)
From Verif Require Import Base Base_facts Utf8 Spec_utf8 Utf8_facts HashMap Auth Passwd Prop_auth Prop_passwd Files.
Open Scope nat_scope.

(** What is read when the start of one text is followed by what comes later in another. *)
Definition mix (old new got : bytes) : Prop :=
  exists n m, n <= length old /\ got = firstn n old ++ firstn m (skipn n new).

(** One run of the tool and any number of brokers, none of which has begun to read. *)
Definition one_tool (j : nat) (user : bytes) (req : request) (old : bytes) (f : files) : Prop :=
  content f = old /\ nth_error (procs f) j = Some (Reads (Some (user, req)) [])
  /\ forall k p, nth_error (procs f) k = Some p -> k <> j -> p = Reads None [].

Lemma some_inj {A} (a b : A) : Some a = Some b -> a = b.
Proof. congruence. Qed.

Lemma set_proc_same k p q l : nth_error l k = Some q -> nth_error (set_proc k p l) k = Some p.
Proof. revert k. induction l as [|x l IH]; intros [|k]; cbn; try discriminate; auto. Qed.

Lemma set_proc_other k k' p l : k' <> k -> nth_error (set_proc k p l) k' = nth_error l k'.
Proof. revert k k'. induction l as [|x l IH]; intros [|k] [|k'] H; cbn; try congruence; auto. Qed.

(** After a step of process [k]: what it is now, and the others as they were. *)
Lemma set_proc_cases k p q l k' p' : nth_error l k = Some q -> nth_error (set_proc k p l) k' = Some p' ->
  k' = k /\ p' = p \/ k' <> k /\ nth_error l k' = Some p'.
Proof.
  intros HK H. destruct (Nat.eq_dec k' k) as [->|N].
  - rewrite (set_proc_same _ _ _ _ HK) in H. left. split; congruence.
  - rewrite (set_proc_other _ _ _ _ N) in H. now right.
Qed.

Lemma firstn_min (n : nat) (b : bytes) : firstn n b = firstn (Nat.min n (length b)) b.
Proof. revert n. induction b as [|x b IH]; intros [|n]; cbn; try reflexivity. f_equal. apply IH. Qed.

Lemma firstn_plus (a b : nat) (l : bytes) : firstn (a + b) l = firstn a l ++ firstn b (skipn a l).
Proof. revert l. induction a as [|a IH]; intros l; [reflexivity|]. destruct l; cbn; [now rewrite firstn_nil|]. f_equal. apply IH. Qed.

Lemma skipn_plus (a b : nat) (l : bytes) : skipn (a + b) l = skipn b (skipn a l).
Proof. revert l. induction a as [|a IH]; intros l; [reflexivity|]. destruct l; cbn; [now rewrite skipn_nil|apply IH]. Qed.

Lemma prefix_more (old : bytes) (got : bytes) n : got = firstn (length got) old ->
  got ++ firstn n (skipn (length got) old) = firstn (length (got ++ firstn n (skipn (length got) old))) old.
Proof.
  intros E. rewrite app_length, firstn_plus, <- E. f_equal. rewrite firstn_length. apply firstn_min.
Qed.

Lemma mix_more old new got off n : mix old new got ->
  mix old new (got ++ firstn n (skipn (length got) (firstn off new))).
Proof.
  intros (a & m & HA & E). set (q := firstn m (skipn a new)) in E.
  assert (EQ : q = firstn (length q) (skipn a new)) by (unfold q; rewrite firstn_length; apply firstn_min).
  assert (LG : length got = a + length q) by (rewrite E, app_length, firstn_length; lia).
  rewrite LG, skipn_firstn_comm, firstn_firstn. set (c := Nat.min n _).
  rewrite (skipn_plus a (length q) new).
  exists a, (length q + c). split; [exact HA|]. rewrite firstn_plus, <- EQ, E, <- app_assoc. reflexivity.
Qed.

Lemma write_next off new n : off <= length new ->
  write_at off (firstn n (skipn off new)) (firstn off new) = firstn (off + length (firstn n (skipn off new))) new.
Proof.
  intros L. unfold write_at.
  assert (LF : length (firstn off new) = off) by (rewrite firstn_length; lia).
  rewrite LF, Nat.sub_diag. cbn [repeat]. rewrite app_nil_r, firstn_firstn, Nat.min_id.
  rewrite (skipn_all2 (firstn off new)) by (rewrite LF; lia). rewrite app_nil_r.
  pose proof (prefix_more new (firstn off new) n) as K. rewrite LF in K. specialize (K eq_refl).
  rewrite K at 1. f_equal. rewrite app_length, LF. reflexivity.
Qed.

Section tool.
Variables (ci : bytes -> bytes -> bool) (j : nat) (user : bytes) (req : request) (old : bytes).

Definition new_text : bytes := run_passwd ci user req old.

(** The tool has not opened the file, and everybody has read from the old content. *)
Definition before (f : files) : Prop :=
  content f = old
  /\ (exists p, nth_error (procs f) j = Some p /\
      match p with
      | Reads t got => t = Some (user, req) /\ got = firstn (length got) old
      | Opens new => update ci user req old = Some new
      | Ended => new_text = old
      | Dead => True
      | Writes _ _ | Loaded _ => False
      end)
  /\ forall k p, nth_error (procs f) k = Some p -> k <> j ->
      match p with
      | Reads None got => got = firstn (length got) old
      | Loaded got => got = old
      | Dead => True
      | _ => False
      end.

(** It has, and the file is the start of the new content. *)
Definition since (f : files) : Prop :=
  exists off, off <= length new_text /\ content f = firstn off new_text
  /\ (exists p, nth_error (procs f) j = Some p /\
      match p with
      | Writes o new => o = off /\ new = new_text
      | Ended => off = length new_text
      | Dead => True
      | _ => False
      end)
  /\ forall k p, nth_error (procs f) k = Some p -> k <> j ->
      match p with
      | Reads None got | Loaded got => mix old new_text got
      | Dead => True
      | _ => False
      end.

Lemma prefix_mix got : got = firstn (length got) old -> mix old new_text got.
Proof.
  intros E. exists (length got), 0. split; [rewrite E, firstn_length; lia|]. cbn. rewrite app_nil_r. exact E.
Qed.

Lemma before_step f l f' : fstep ci f l = Some f' -> before f -> before f' \/ since f'.
Proof.
  intros H (HC & (pj & HJ & HP) & HO). destruct l as [k n|k|k n|k]; cbn [fstep] in H.
  - destruct (nth_error (procs f) k) as [[t got| | | | |]|] eqn:EK; try discriminate. left.
    destruct (Nat.eq_dec k j) as [->|N].
    + rewrite HJ in EK. injection EK as ->. destruct HP as (-> & HG). rewrite HC in H.
      destruct (firstn (S n) (skipn (length got) old)) as [|b x] eqn:EP; apply some_inj in H; subst f'; (split; [reflexivity|split]); cbn [procs content].
      * eexists. split; [apply (set_proc_same _ _ _ _ HJ)|]. cbn [has_read].
        assert (EG : got = old).
        { rewrite HG. apply firstn_all2. destruct (skipn (length got) old) eqn:ES; [|discriminate].
          apply (f_equal (@length byte)) in ES. rewrite skipn_length in ES. cbn in ES. lia. }
        rewrite EG. destruct (utf8_ok old); [|exact I]. destruct (update ci user req old) eqn:EU; [reflexivity|].
        unfold new_text, run_passwd. now rewrite EU.
      * intros k p HK N. rewrite set_proc_other in HK by exact N. exact (HO k p HK N).
      * eexists. split; [apply (set_proc_same _ _ _ _ HJ)|]. split; [reflexivity|]. rewrite <- EP. now apply prefix_more.
      * intros k p HK N. rewrite set_proc_other in HK by exact N. exact (HO k p HK N).
    + pose proof (HO _ _ EK N) as HG. cbn in HG. destruct t as [t|]; [destruct HG|]. rewrite HC in H. apply some_inj in H; subst f'.
      split; [reflexivity|split]; cbn [procs content].
      * exists pj. split; [rewrite set_proc_other by auto; exact HJ|exact HP].
      * intros k' p HK N'. destruct (set_proc_cases _ _ _ _ _ _ EK HK) as [(-> & ->)|(_ & K)]; [|exact (HO k' p K N')].
        destruct (firstn (S n) (skipn (length got) old)) as [|b x] eqn:EP.
        -- cbn. rewrite HG. apply firstn_all2. destruct (skipn (length got) old) eqn:ES; [|discriminate].
           apply (f_equal (@length byte)) in ES. rewrite skipn_length in ES. cbn in ES. lia.
        -- rewrite <- EP. now apply prefix_more.
  - destruct (nth_error (procs f) k) as [[| new | | | |]|] eqn:EK; try discriminate. right. apply some_inj in H; subst f'.
    destruct (Nat.eq_dec k j) as [->|N]; [|destruct (HO _ _ EK N)].
    rewrite HJ in EK. injection EK as ->. exists 0. split; [lia|]. split; [reflexivity|]. split; cbn [procs].
    + eexists. split; [apply (set_proc_same _ _ _ _ HJ)|]. split; [reflexivity|]. unfold new_text, run_passwd. now rewrite HP.
    + intros k p HK N. rewrite set_proc_other in HK by exact N. pose proof (HO k p HK N) as K.
      destruct p as [[|] got| | |got| |]; try exact K; apply prefix_mix; [exact K|subst got; now rewrite firstn_all].
  - destruct (nth_error (procs f) k) as [[| |o new| | |]|] eqn:EK; try discriminate.
    destruct (Nat.eq_dec k j) as [->|N]; [|destruct (HO _ _ EK N)]. rewrite HJ in EK. injection EK as ->. destruct HP.
  - destruct (nth_error (procs f) k) as [q|] eqn:EK; [|discriminate]. apply some_inj in H; subst f'. left. split; [exact HC|split]; cbn [procs].
    + destruct (Nat.eq_dec j k) as [<-|N]; [exists Dead; split; [apply (set_proc_same _ _ _ _ EK)|exact I]|].
      exists pj. split; [rewrite set_proc_other by exact N; exact HJ|exact HP].
    + intros k' p HK N. destruct (set_proc_cases _ _ _ _ _ _ EK HK) as [(-> & ->)|(_ & K)]; [exact I|exact (HO k' p K N)].
Qed.

Lemma since_step f l f' : fstep ci f l = Some f' -> since f -> since f'.
Proof.
  intros H (off & HL & HC & (pj & HJ & HP) & HO). destruct l as [k n|k|k n|k]; cbn [fstep] in H.
  - destruct (nth_error (procs f) k) as [[t got| | | | |]|] eqn:EK; try discriminate.
    destruct (Nat.eq_dec k j) as [->|N]; [rewrite HJ in EK; injection EK as ->; destruct HP|].
    pose proof (HO _ _ EK N) as HG. cbn in HG. destruct t as [t|]; [destruct HG|]. apply some_inj in H; subst f'.
    exists off. split; [exact HL|]. split; [exact HC|]. split; cbn [procs].
    + exists pj. split; [rewrite set_proc_other by auto; exact HJ|exact HP].
    + intros k' p HK N'. destruct (set_proc_cases _ _ _ _ _ _ EK HK) as [(-> & ->)|(_ & K)]; [|exact (HO k' p K N')].
      rewrite HC. destruct (firstn (S n) (skipn (length got) (firstn off new_text))) as [|b x] eqn:EP; [exact HG|].
      rewrite <- EP. now apply mix_more.
  - destruct (nth_error (procs f) k) as [[| new | | | |]|] eqn:EK; try discriminate.
    destruct (Nat.eq_dec k j) as [->|N]; [rewrite HJ in EK; injection EK as ->; destruct HP|destruct (HO _ _ EK N)].
  - destruct (nth_error (procs f) k) as [[| |o new| | |]|] eqn:EK; try discriminate.
    destruct (Nat.eq_dec k j) as [->|N]; [|destruct (HO _ _ EK N)]. rewrite HJ in EK. injection EK as ->. destruct HP as (-> & ->).
    destruct (firstn (S n) (skipn off new_text)) as [|b x] eqn:EP; apply some_inj in H; subst f'.
    + exists off. split; [exact HL|]. split; [exact HC|]. split; cbn [procs].
      * eexists. split; [apply (set_proc_same _ _ _ _ HJ)|]. cbn.
        destruct (skipn off new_text) eqn:ES; [|discriminate]. apply (f_equal (@length byte)) in ES. rewrite skipn_length in ES. cbn in ES. lia.
      * intros k p HK N. rewrite set_proc_other in HK by exact N. exact (HO k p HK N).
    + rewrite <- EP. exists (off + length (firstn (S n) (skipn off new_text))). split; [rewrite firstn_length, skipn_length; lia|].
      split; [cbn [content]; rewrite HC; now apply write_next|]. split; cbn [procs].
      * eexists. split; [apply (set_proc_same _ _ _ _ HJ)|]. split; reflexivity.
      * intros k p HK N. rewrite set_proc_other in HK by exact N. exact (HO k p HK N).
  - destruct (nth_error (procs f) k) as [q|] eqn:EK; [|discriminate]. apply some_inj in H; subst f'. exists off. split; [exact HL|]. split; [exact HC|]. split; cbn [procs].
    + destruct (Nat.eq_dec j k) as [<-|N]; [exists Dead; split; [apply (set_proc_same _ _ _ _ EK)|exact I]|].
      exists pj. split; [rewrite set_proc_other by exact N; exact HJ|exact HP].
    + intros k' p HK N. destruct (set_proc_cases _ _ _ _ _ _ EK HK) as [(-> & ->)|(_ & K)]; [exact I|exact (HO k' p K N)].
Qed.
End tool.

Lemma fsteps_app ci l1 l2 f : fsteps ci f (l1 ++ l2) = match fsteps ci f l1 with Some f' => fsteps ci f' l2 | None => None end.
Proof. revert f. induction l1 as [|l l1 IH]; intros f; cbn; [reflexivity|]. destruct (fstep ci f l); [apply IH|reflexivity]. Qed.

Lemma fsteps_trans ci f f' f'' l1 l2 : fsteps ci f l1 = Some f' -> fsteps ci f' l2 = Some f'' -> fsteps ci f (l1 ++ l2) = Some f''.
Proof. intros H1 H2. now rewrite fsteps_app, H1. Qed.

Lemma tool_invariant ci j user req old f0 ls f : one_tool j user req old f0 -> fsteps ci f0 ls = Some f ->
  before ci j user req old f \/ since ci j user req old f.
Proof.
  intros (H1 & H2 & H3).
  assert (K : before ci j user req old f0).
  { split; [exact H1|]. split; [eexists; split; [exact H2|split; reflexivity]|]. intros k p HK N. rewrite (H3 k p HK N). reflexivity. }
  clear H1 H2 H3. assert (K' : before ci j user req old f0 \/ since ci j user req old f0) by now left. clear K. revert f0 K'.
  induction ls as [|l ls IH]; intros f0 K H; cbn in H; [injection H as <-; exact K|].
  destruct (fstep ci f0 l) as [f1|] eqn:E; [|discriminate]. apply (IH f1); [|exact H].
  destruct K as [K|K]; [exact (before_step _ _ _ _ _ _ _ _ E K)|right; exact (since_step _ _ _ _ _ _ _ _ E K)].
Qed.

(** What the file is and what brokers read, at every moment of every interleaving. *)
Theorem C98_one_tool ci j user req old f0 ls f : one_tool j user req old f0 -> fsteps ci f0 ls = Some f ->
  let new := run_passwd ci user req old in
  (content f = old \/ exists n, content f = firstn n new)
  /\ (nth_error (procs f) j = Some Ended -> content f = new)
  /\ (forall k got, nth_error (procs f) k = Some (Loaded got) -> mix old new got)
  /\ ((exists p, nth_error (procs f) j = Some p /\ match p with Reads _ _ | Opens _ => True | _ => False end) ->
      forall k got, nth_error (procs f) k = Some (Loaded got) -> got = old).
Proof.
  intros H0 H new. destruct (tool_invariant _ _ _ _ _ _ _ _ H0 H) as [(HC & (p & HJ & HP) & HO)|(off & HL & HC & (p & HJ & HP) & HO)].
  - split; [now left|]. split; [|split].
    + intros E. rewrite HJ in E. injection E as ->. rewrite HC. symmetry. exact HP.
    + intros k got HK. destruct (Nat.eq_dec k j) as [->|N]; [rewrite HJ in HK; injection HK as ->; destruct HP|].
      specialize (HO k _ HK N). cbn in HO. subst got. exists (length old), 0. split; [lia|]. now rewrite firstn_all, app_nil_r.
    + intros _ k got HK. destruct (Nat.eq_dec k j) as [->|N]; [rewrite HJ in HK; injection HK as ->; destruct HP|]. exact (HO k _ HK N).
  - split; [right; exists off; exact HC|]. split; [|split].
    + intros E. rewrite HJ in E. injection E as ->. rewrite HC, HP. apply firstn_all.
    + intros k got HK. destruct (Nat.eq_dec k j) as [->|N]; [rewrite HJ in HK; injection HK as ->; destruct HP|]. exact (HO k _ HK N).
    + intros (p' & HJ' & HP') k got HK. rewrite HJ in HJ'. injection HJ' as <-. destruct p; try (exfalso; exact HP'); exfalso; exact HP.
Qed.

(** Nobody writes: a broker gets what is in the file. *)
Theorem C98_nobody_writes ci f0 ls f k : fsteps ci f0 ls = Some f ->
  (forall i p, nth_error (procs f0) i = Some p -> match p with Reads None _ | Loaded _ | Ended | Dead => True | _ => False end) ->
  nth_error (procs f0) k = Some (Reads None []) ->
  content f = content f0 /\ forall got, nth_error (procs f) k = Some (Loaded got) -> got = content f0.
Proof.
  intros H HN HK. pose (c := content f0).
  assert (I : content f0 = c /\ (forall i p, nth_error (procs f0) i = Some p -> match p with Reads None _ | Loaded _ | Ended | Dead => True | _ => False end)
     /\ (exists p, nth_error (procs f0) k = Some p /\ match p with Reads _ got => got = firstn (length got) c | Loaded got => got = c | _ => True end)).
  { split; [reflexivity|]. split; [exact HN|]. eexists. split; [exact HK|reflexivity]. }
  enough (G : content f = c /\ exists p, nth_error (procs f) k = Some p /\ match p with Reads _ got => got = firstn (length got) c | Loaded got => got = c | _ => True end).
  { destruct G as (G1 & p & G2 & G3). split; [exact G1|]. intros got E. rewrite G2 in E. injection E as ->. exact G3. }
  clearbody c. clear HN HK. revert f0 I H. induction ls as [|l ls IH]; intros f0 (I1 & I2 & p & I3 & I4) H; cbn in H; [injection H as <-; eauto|].
  destruct (fstep ci f0 l) as [f1|] eqn:E; [|discriminate]. apply (IH f1); [|exact H]. clear IH H.
  destruct l as [i n|i|i n|i]; cbn [fstep] in E; destruct (nth_error (procs f0) i) as [q|] eqn:EI; try discriminate.
  - pose proof (I2 _ _ EI) as K. destruct q as [t got| | | | |]; try discriminate. destruct t; [destruct K|]. apply some_inj in E. subst f1. cbn [content procs].
    split; [exact I1|]. split.
    + intros i' q HI. destruct (set_proc_cases _ _ _ _ _ _ EI HI) as [(-> & ->)|(_ & Q)]; [|exact (I2 _ _ Q)].
      destruct (firstn (S n) _); exact I.
    + destruct (Nat.eq_dec k i) as [->|N]; [|exists p; split; [rewrite set_proc_other by exact N; exact I3|exact I4]].
      rewrite EI in I3. injection I3 as <-. eexists. split; [apply (set_proc_same _ _ _ _ EI)|]. rewrite I1.
      destruct (firstn (S n) (skipn (length got) c)) as [|b x] eqn:EP; [|rewrite <- EP; now apply prefix_more].
      cbn. rewrite I4. apply firstn_all2. destruct (skipn (length got) c) eqn:ES; [|discriminate].
      apply (f_equal (@length byte)) in ES. rewrite skipn_length in ES. cbn in ES. lia.
  - pose proof (I2 _ _ EI) as K. destruct q; try discriminate. destruct K.
  - pose proof (I2 _ _ EI) as K. destruct q; try discriminate. destruct K.
  - apply some_inj in E. subst f1. cbn [content procs]. split; [exact I1|]. split.
    + intros i' q' HI. destruct (set_proc_cases _ _ _ _ _ _ EI HI) as [(-> & ->)|(_ & Q)]; [exact I|exact (I2 _ _ Q)].
    + destruct (Nat.eq_dec k i) as [->|N]; [|exists p; split; [rewrite set_proc_other by exact N; exact I3|exact I4]].
      eexists. split; [apply (set_proc_same _ _ _ _ EI)|]. exact I.
Qed.

(** ** All these readings occur *)

Definition FS (c : bytes) (a b : proc) : files := {| content := c; procs := [a; b] |}.

(** Process 0 reads everything. *)
Lemma reads_all_0 ci c t got b : got = firstn (length got) c -> exists ls, fsteps ci (FS c (Reads t got) b) ls = Some (FS c (has_read ci t c) b).
Proof.
  intros HG. assert (E : c = got ++ skipn (length got) c) by (rewrite HG at 1; symmetry; apply firstn_skipn).
  assert (LAST : fstep ci (FS c (Reads t c) b) (FRead 0 0) = Some (FS c (has_read ci t c) b)).
  { cbn [fstep procs FS nth_error content]. rewrite skipn_all. reflexivity. }
  destruct (skipn (length got) c) as [|y r] eqn:ES.
  - rewrite app_nil_r in E. subst got. exists [FRead 0 0]. cbn [fsteps]. now rewrite LAST.
  - exists [FRead 0 (length r); FRead 0 0]. cbn [fsteps].
    assert (ONE : fstep ci (FS c (Reads t got) b) (FRead 0 (length r)) = Some (FS c (Reads t c) b)).
    { cbn [fstep procs FS nth_error content]. rewrite ES. rewrite (firstn_all2 (y :: r)) by (cbn; lia). cbn [set_proc]. rewrite <- E. reflexivity. }
    rewrite ONE, LAST. reflexivity.
Qed.

Lemma reads_some_1 ci c t a n : n <= length c -> exists ls, fsteps ci (FS c a (Reads t [])) ls = Some (FS c a (Reads t (firstn n c))).
Proof.
  intros L. destruct n as [|n]; [exists []; reflexivity|]. exists [FRead 1 n]. cbn [fsteps fstep procs FS nth_error content length skipn].
  destruct c as [|y r]; [cbn in L; lia|]. reflexivity.
Qed.

Lemma reads_rest_1 ci c t a got : exists ls, fsteps ci (FS c a (Reads t got)) ls = Some (FS c a (has_read ci t (got ++ skipn (length got) c))).
Proof.
  assert (LAST : forall g, skipn (length g) c = [] -> fstep ci (FS c a (Reads t g)) (FRead 1 0) = Some (FS c a (has_read ci t g))).
  { intros g Hg. cbn [fstep procs FS nth_error content]. rewrite Hg. reflexivity. }
  destruct (skipn (length got) c) as [|y r] eqn:ES.
  - rewrite app_nil_r. exists [FRead 1 0]. cbn [fsteps]. rewrite LAST by exact ES. reflexivity.
  - exists [FRead 1 (length r); FRead 1 0]. cbn [fsteps].
    assert (ONE : fstep ci (FS c a (Reads t got)) (FRead 1 (length r)) = Some (FS c a (Reads t (got ++ y :: r)))).
    { cbn [fstep procs FS nth_error content]. rewrite ES. rewrite (firstn_all2 (y :: r)) by (cbn; lia). reflexivity. }
    rewrite ONE. rewrite LAST; [reflexivity|]. rewrite app_length. rewrite skipn_plus, ES. apply skipn_all.
Qed.

Lemma writes_0 ci off n new b : off <= length new -> exists ls,
  fsteps ci (FS (firstn off new) (Writes off new) b) ls = Some (FS (firstn (off + length (firstn n (skipn off new))) new) (Writes (off + length (firstn n (skipn off new))) new) b).
Proof.
  intros L. destruct (firstn n (skipn off new)) as [|y r] eqn:E; [exists []; rewrite Nat.add_0_r; reflexivity|].
  destruct n as [|n]; [discriminate|]. exists [FWrite 0 n]. cbn [fsteps fstep procs FS nth_error content]. rewrite E. cbn [set_proc].
  rewrite <- E. rewrite write_next by exact L. reflexivity.
Qed.

Lemma writes_all_0 ci off new b : off <= length new -> exists ls,
  fsteps ci (FS (firstn off new) (Writes off new) b) ls = Some (FS new Ended b).
Proof.
  intros L. destruct (writes_0 ci off (length new) new b L) as (l1 & H1). exists (l1 ++ [FWrite 0 0]). rewrite fsteps_app, H1.
  replace (off + length (firstn (length new) (skipn off new))) with (length new) by (rewrite firstn_length, skipn_length; lia).
  rewrite firstn_all. cbn [fsteps fstep procs FS nth_error content]. rewrite skipn_all. reflexivity.
Qed.

(** Every mixture of the old and the new content is read by a broker in some run in which nothing goes wrong. *)
Theorem C98_every_mix ci user req old new n m : is_utf8 old -> update ci user req old = Some new -> n <= length old ->
  exists ls f, fsteps ci {| content := old; procs := [Reads (Some (user, req)) []; Reads None []] |} ls = Some f
    /\ content f = run_passwd ci user req old /\ procs f = [Ended; Loaded (firstn n old ++ firstn m (skipn n new))].
Proof.
  intros HU EU L. apply utf8_ok_iff in HU.
  destruct (reads_all_0 ci old (Some (user, req)) [] (Reads None []) eq_refl) as (l1 & H1).
  cbn [has_read] in H1. rewrite HU, EU in H1.
  destruct (reads_some_1 ci old None (Opens new) n L) as (l2 & H2).
  assert (H3 : fsteps ci (FS old (Opens new) (Reads None (firstn n old))) [FOpen 0] = Some (FS (firstn 0 new) (Writes 0 new) (Reads None (firstn n old)))) by reflexivity.
  destruct (writes_0 ci 0 (n + m) new (Reads None (firstn n old)) (Nat.le_0_l _)) as (l4 & H4). cbn [skipn Nat.add] in H4.
  rewrite firstn_length, <- firstn_min in H4. set (o := Nat.min (n + m) (length new)) in H4.
  destruct (reads_rest_1 ci (firstn (n + m) new) None (Writes o new) (firstn n old)) as (l5 & H5).
  cbn [has_read] in H5. rewrite firstn_length, Nat.min_l, skipn_firstn_comm in H5 by exact L. replace (n + m - n) with m in H5 by lia.
  destruct (writes_all_0 ci o new (Loaded (firstn n old ++ firstn m (skipn n new)))) as (l6 & H6); [unfold o; lia|].
  unfold o in H6 at 1. rewrite <- firstn_min in H6.
  exists (l1 ++ l2 ++ [FOpen 0] ++ l4 ++ l5 ++ l6). eexists. split.
  - refine (fsteps_trans _ _ _ _ _ _ H1 _). refine (fsteps_trans _ _ _ _ _ _ H2 _). refine (fsteps_trans _ _ _ _ _ _ H3 _).
    refine (fsteps_trans _ _ _ _ _ _ H4 _). refine (fsteps_trans _ _ _ _ _ _ H5 _). exact H6.
  - cbn. unfold run_passwd. now rewrite EU.
Qed.

(** Two runs of the tool at once: the update of one is lost, and both report success. *)
Theorem C98_lost_update ci u1 r1 u2 r2 old new1 new2 : is_utf8 old -> update ci u1 r1 old = Some new1 -> update ci u2 r2 old = Some new2 ->
  exists ls f, fsteps ci {| content := old; procs := [Reads (Some (u1, r1)) []; Reads (Some (u2, r2)) []] |} ls = Some f
    /\ procs f = [Ended; Ended] /\ content f = run_passwd ci u2 r2 old.
Proof.
  intros HU E1 E2. apply utf8_ok_iff in HU.
  destruct (reads_all_0 ci old (Some (u1, r1)) [] (Reads (Some (u2, r2)) []) eq_refl) as (l1 & H1). cbn [has_read] in H1. rewrite HU, E1 in H1.
  destruct (reads_rest_1 ci old (Some (u2, r2)) (Opens new1) []) as (l2 & H2). cbn [has_read app length skipn] in H2. rewrite HU, E2 in H2.
  assert (H3 : fsteps ci (FS old (Opens new1) (Opens new2)) [FOpen 0] = Some (FS (firstn 0 new1) (Writes 0 new1) (Opens new2))) by reflexivity.
  destruct (writes_all_0 ci 0 new1 (Opens new2) (Nat.le_0_l _)) as (l4 & H4).
  assert (H5 : exists l5, fsteps ci (FS new1 Ended (Opens new2)) l5 = Some (FS new2 Ended Ended)).
  { destruct new2 as [|y r]; [exists [FOpen 1; FWrite 1 0]; reflexivity|].
    exists [FOpen 1; FWrite 1 (length r); FWrite 1 0]. set (new := y :: r). cbn [fsteps].
    assert (W : fstep ci (FS [] Ended (Writes 0 new)) (FWrite 1 (length r)) = Some (FS new Ended (Writes (length new) new))).
    { cbn [fstep procs FS nth_error content skipn]. rewrite (firstn_all2 new) by (cbn; lia). cbn [new write_at set_proc Nat.add].
      unfold write_at. cbn [firstn app]. rewrite skipn_nil, app_nil_r. reflexivity. }
    change (fstep ci (FS new1 Ended (Opens new)) (FOpen 1)) with (Some (FS [] Ended (Writes 0 new))). cbv iota beta. rewrite W.
    cbn [fstep procs FS nth_error content]. rewrite skipn_all. reflexivity. }
  destruct H5 as (l5 & H5). exists (l1 ++ l2 ++ [FOpen 0] ++ l4 ++ l5). eexists. split.
  - refine (fsteps_trans _ _ _ _ _ _ H1 _). refine (fsteps_trans _ _ _ _ _ _ H2 _). refine (fsteps_trans _ _ _ _ _ _ H3 _).
    refine (fsteps_trans _ _ _ _ _ _ H4 _). exact H5.
  - cbn. unfold run_passwd. now rewrite E2.
Qed.

(** Or the two are mixed in the file: the start of one new content, or zeros where it is too short, and the rest of
    the other. Both report success again. *)
Theorem C98_two_mixed ci u1 r1 u2 r2 old new1 new2 i : is_utf8 old -> update ci u1 r1 old = Some new1 -> update ci u2 r2 old = Some new2 ->
  i < length new1 ->
  exists ls f, fsteps ci {| content := old; procs := [Reads (Some (u1, r1)) []; Reads (Some (u2, r2)) []] |} ls = Some f
    /\ procs f = [Ended; Ended]
    /\ content f = firstn i (new2 ++ repeat x00 (i - length new2)) ++ skipn i new1 ++ skipn (length new1) new2.
Proof.
  intros HU E1 E2 Li. apply utf8_ok_iff in HU.
  destruct (reads_all_0 ci old (Some (u1, r1)) [] (Reads (Some (u2, r2)) []) eq_refl) as (l1 & H1). cbn [has_read] in H1. rewrite HU, E1 in H1.
  destruct (reads_rest_1 ci old (Some (u2, r2)) (Opens new1) []) as (l2 & H2). cbn [has_read app length skipn] in H2. rewrite HU, E2 in H2.
  assert (H3 : fsteps ci (FS old (Opens new1) (Opens new2)) [FOpen 0] = Some (FS (firstn 0 new1) (Writes 0 new1) (Opens new2))) by reflexivity.
  destruct (writes_0 ci 0 i new1 (Opens new2) (Nat.le_0_l _)) as (l4 & H4). cbn [skipn Nat.add] in H4.
  rewrite firstn_length, Nat.min_l in H4 by lia.
  assert (H5 : exists l5, fsteps ci (FS (firstn i new1) (Writes i new1) (Opens new2)) l5 = Some (FS new2 (Writes i new1) Ended)).
  { destruct new2 as [|y r]; [exists [FOpen 1; FWrite 1 0]; reflexivity|].
    exists [FOpen 1; FWrite 1 (length r); FWrite 1 0]. set (new := y :: r). cbn [fsteps].
    assert (W : fstep ci (FS [] (Writes i new1) (Writes 0 new)) (FWrite 1 (length r)) = Some (FS new (Writes i new1) (Writes (length new) new))).
    { cbn [fstep procs FS nth_error content skipn]. rewrite (firstn_all2 new) by (cbn; lia). cbn [new write_at set_proc Nat.add].
      unfold write_at. cbn [firstn app]. rewrite skipn_nil, app_nil_r. reflexivity. }
    change (fstep ci (FS (firstn i new1) (Writes i new1) (Opens new)) (FOpen 1)) with (Some (FS [] (Writes i new1) (Writes 0 new))). cbv iota beta. rewrite W.
    cbn [fstep procs FS nth_error content]. rewrite skipn_all. reflexivity. }
  destruct H5 as (l5 & H5).
  set (mix := firstn i (new2 ++ repeat x00 (i - length new2)) ++ skipn i new1 ++ skipn (length new1) new2).
  assert (LS : i + length (skipn i new1) = length new1) by (rewrite skipn_length; lia).
  assert (H6 : fsteps ci (FS new2 (Writes i new1) Ended) [FWrite 0 (length new1); FWrite 0 0] = Some (FS mix Ended Ended)).
  { assert (W : fstep ci (FS new2 (Writes i new1) Ended) (FWrite 0 (length new1)) = Some (FS mix (Writes (length new1) new1) Ended)).
    { cbn [fstep procs FS nth_error content]. rewrite firstn_all2 by (rewrite skipn_length; lia).
      assert (EM : write_at i (skipn i new1) new2 = mix) by (unfold write_at, mix; now rewrite LS).
      clearbody mix. destruct (skipn i new1) as [|y r]; [cbn in LS; lia|]. rewrite EM, LS. reflexivity. }
    cbn [fsteps]. rewrite W. cbn [fstep procs FS nth_error content]. rewrite skipn_all. reflexivity. }
  exists (l1 ++ l2 ++ [FOpen 0] ++ l4 ++ l5 ++ [FWrite 0 (length new1); FWrite 0 0]). eexists. split.
  - refine (fsteps_trans _ _ _ _ _ _ H1 _). refine (fsteps_trans _ _ _ _ _ _ H2 _). refine (fsteps_trans _ _ _ _ _ _ H3 _).
    refine (fsteps_trans _ _ _ _ _ _ H4 _). refine (fsteps_trans _ _ _ _ _ _ H5 _). exact H6.
  - split; reflexivity.
Qed.

(** One run deletes bob, the other sets al's password. Both end well, and then no broker can load the file. *)
Example C98_two_case :
  let old := str "al:1" ++ [x0a] ++ str "bob:2" ++ [x0a] in
  exists ls f, fsteps ascii_ci {| content := old; procs := [Reads (Some (str "bob", SetPassword (str "22"))) []; Reads (Some (str "bob", DeleteUser)) []] |} ls = Some f
    /\ procs f = [Ended; Ended] /\ content f = str "al:1" ++ [x0a] ++ repeat x00 5 ++ str "2" ++ [x0a]
    /\ FileIdentityManager_new true (Some (content f)) = inr InvalidEntry.
Proof.
  intros old. assert (HU : is_utf8 old) by (apply utf8_ok_iff; reflexivity).
  destruct (C98_two_mixed ascii_ci (str "bob") (SetPassword (str "22")) (str "bob") DeleteUser old
    (str "al:1" ++ [x0a] ++ str "bob:22" ++ [x0a]) (str "al:1" ++ [x0a]) 10 HU) as (ls & f & H & HP & HC);
    [reflexivity|reflexivity|cbn; lia|].
  exists ls, f. split; [exact H|]. split; [exact HP|]. rewrite HC. split; reflexivity.
Qed.

(** In particular a broker may start with no names at all, and refuse everybody who gives one. *)
Theorem C98_empty ci user req old new : is_utf8 old -> update ci user req old = Some new ->
  exists ls f, fsteps ci {| content := old; procs := [Reads (Some (user, req)) []; Reads None []] |} ls = Some f
    /\ procs f = [Ended; Loaded []]
    /\ forall bare, exists m, FileIdentityManager_new bare (Some []) = inl m
        /\ forall H E (parse : bytes -> H + E) verify u p, authenticate parse verify m u p <> None.
Proof.
  intros HU EU. destruct (C98_every_mix ci user req old new 0 0 HU EU (Nat.le_0_l _)) as (ls & f & H & _ & HP).
  exists ls, f. split; [exact H|]. split; [exact HP|]. intros bare. exists []. split; [destruct bare; reflexivity|]. intros. discriminate.
Qed.

(** While al's entry is deleted a broker starts and knows a user alb, with bob's password. *)
Example C98_case :
  let old := str "al:1" ++ [newline] ++ str "bob:2" ++ [newline] in
  exists ls f got m, fsteps ascii_ci {| content := old; procs := [Reads (Some (str "al", DeleteUser)) []; Reads None []] |} ls = Some f
    /\ content f = str "bob:2" ++ [newline] /\ procs f = [Ended; Loaded got]
    /\ FileIdentityManager_new true (Some got) = inl m /\ hm_get (str "alb") m = Some (str "2") /\ hm_get (str "bob") m = None.
Proof.
  intros old. assert (HU : is_utf8 old) by (apply utf8_ok_iff; reflexivity).
  assert (EU : update ascii_ci (str "al") DeleteUser old = Some (str "bob:2" ++ [newline])) by reflexivity.
  destruct (C98_every_mix ascii_ci (str "al") DeleteUser old _ 2 100 HU EU) as (ls & f & H & HC & HP); [cbn; lia|].
  exists ls, f. eexists. eexists. split; [exact H|]. split; [rewrite HC; reflexivity|]. split; [exact HP|]. repeat split.
Qed.
