(** C125: what about a packet makes a difference to anybody, and what does not. *)
From Coq Require Import Permutation.
From Verif Require Import Base Base_facts Packets Messaging Handler Spec_subs Spec_ref System System_facts Prop_broker Prop_system Prop_mqtt Prop_ref.
Open Scope N_scope.

(** Nothing any connection is ever sent tells the two events apart, whatever is handled before and after. *)
Definition same_effect (auth : bytes -> bytes -> bool) (e e' : ClientEvent) : Prop :=
  forall before later k,
    ref_sends auth ref_init (before ++ e :: later) k = ref_sends auth ref_init (before ++ e' :: later) k.

(** The session of client [cid] ends. *)
Definition ends (cid : bytes) (e : ClientEvent) : Prop :=
  e = ConnectionLost cid \/ exists k, e = ClientPacket cid Disconnect k.

(** Nothing is done about the event. *)
Definition ignored (e : ClientEvent) : Prop :=
  (exists cid, e = Disconnected cid)
  \/ exists cid k p, e = ClientPacket cid p k
     /\ match p with
        | Publish _ | Subscribe _ _ | Unsubscribe _ _ | PingReq | Disconnect => False
        | _ => True
        end.

(** What two events have to agree in. Not listed, so without any influence: protocol version, clean session flag, keep
    alive, will, the credentials beyond the verdict on them, the peer's address, the requested QoS, the order of filters,
    and who publishes. *)
Inductive alike (auth : bytes -> bytes -> bool) : ClientEvent -> ClientEvent -> Prop :=
| AIn c c' a a' k : let_in auth c = Some true -> let_in auth c' = Some true -> client_id c = client_id c' ->
    alike auth (Connected c a k) (Connected c' a' k)
| ARefused c c' a a' k : let_in auth c = Some false -> let_in auth c' = Some false ->
    alike auth (Connected c a k) (Connected c' a' k)
| AStops c c' a a' k k' : let_in auth c = None -> let_in auth c' = None ->
    alike auth (Connected c a k) (Connected c' a' k')
| APublish cid cid' p k k' : alike auth (ClientPacket cid (Publish p) k) (ClientPacket cid' (Publish p) k')
| ASubscribe cid cid' i ss ss' k : Permutation (map sub_topic ss) (map sub_topic ss') -> (ss <> [] -> cid = cid') ->
    alike auth (ClientPacket cid (Subscribe i ss) k) (ClientPacket cid' (Subscribe i ss') k)
| AUnsubscribe cid cid' i fs fs' k : Permutation fs fs' -> (fs <> [] -> cid = cid') ->
    alike auth (ClientPacket cid (Unsubscribe i fs) k) (ClientPacket cid' (Unsubscribe i fs') k)
| APing cid k : alike auth (ClientPacket cid PingReq k) (ClientPacket cid PingReq k)
| AEnds cid e e' : ends cid e -> ends cid e' -> alike auth e e'
| AIgnored e e' : ignored e -> ignored e' -> alike auth e e'.

(** ** States that cannot be told apart *)

Definition pair_dec (x y : bytes * bytes) : {x = y} + {x <> y}.
Proof. decide equality; apply bytes_eq_dec. Defined.

Definition cnt (l : list (bytes * bytes)) (c f : bytes) : nat := count_occ pair_dec l (c, f).

Definition req (r r' : ref) : Prop :=
  (forall c, place r c = place r' c) /\ forall c f, cnt (subs r) c f = cnt (subs r') c f.

Lemma req_perm r r' : req r r' -> Permutation (subs r) (subs r').
Proof. intros (_ & H). apply (Permutation_count_occ pair_dec). intros [c f]. apply H. Qed.

Lemma req_refl r : req r r. Proof. split; reflexivity. Qed.
Lemma req_sym r r' : req r r' -> req r' r.
Proof. intros (A & B). split; intros; symmetry; auto. Qed.
Lemma req_trans r r' r'' : req r r' -> req r' r'' -> req r r''.
Proof. intros (A & B) (C & D). split; intros; etransitivity; eauto. Qed.

Lemma sum_perm {A} (g : A -> nat) l l' : Permutation l l' -> sum g l = sum g l'.
Proof. intros H. unfold sum. induction H; cbn [map list_sum fold_right] in *; unfold list_sum in *; cbn [fold_right]; lia. Qed.

Lemma sum_ext {A} (g h : A -> nat) l : (forall x, g x = h x) -> sum g l = sum h l.
Proof. intros H. unfold sum. f_equal. apply map_ext. exact H. Qed.

Lemma req_copies r r' k t : req r r' -> copies r k t = copies r' k t.
Proof.
  intros H. unfold copies. rewrite (sum_perm _ _ _ (req_perm r r' H)). apply sum_ext. intros x. now rewrite (proj1 H).
Qed.

Lemma cnt_drop_one c f l c' f' : cnt (drop_one c f l) c' f'
  = if bytes_eqb c c' && bytes_eqb f f' then pred (cnt l c' f') else cnt l c' f'.
Proof.
  unfold cnt. induction l as [|[a b] l IH]; cbn [drop_one count_occ fst snd].
  - now destruct (bytes_eqb c c' && bytes_eqb f f').
  - destruct (bytes_eqb_spec c a) as [<-|N]; [destruct (bytes_eqb_spec f b) as [<-|N]|]; cbn [andb count_occ].
    + destruct (pair_dec (c, f) (c', f')) as [[= <- <-]|N].
      * rewrite !bytes_eqb_refl. reflexivity.
      * destruct (bytes_eqb_spec c c'); destruct (bytes_eqb_spec f f'); cbn [andb]; congruence.
    + rewrite IH. destruct (pair_dec (c, b) (c', f')) as [[= <- <-]|N2]; [|reflexivity].
      destruct (bytes_eqb_spec f b); [congruence|]. now rewrite Bool.andb_false_r.
    + rewrite IH. destruct (pair_dec (a, b) (c', f')) as [[= <- <-]|N2]; [|reflexivity].
      destruct (bytes_eqb_spec c a); [congruence|]. reflexivity.
Qed.

Lemma cnt_drop_all c fs : forall l c' f', cnt (drop_all_of c fs l) c' f'
  = if bytes_eqb c c' then (cnt l c' f' - occurs f' fs)%nat else cnt l c' f'.
Proof.
  unfold drop_all_of, occurs. induction fs as [|f fs IH]; intros l c' f'; cbn [fold_left count_occ].
  - destruct (bytes_eqb c c'); [lia|reflexivity].
  - rewrite IH, cnt_drop_one. destruct (bytes_eqb_spec c c') as [<-|]; cbn [andb]; [|reflexivity].
    destruct (bytes_eq_dec f f') as [<-|N].
    + rewrite bytes_eqb_refl. lia.
    + destruct (bytes_eqb_spec f f'); [congruence|]. reflexivity.
Qed.

Lemma occurs_filters c l f : occurs f (filters_of c l) = match cnt l c f with O => O | Datatypes.S _ => 1%nat end.
Proof.
  unfold occurs, filters_of. set (m := map snd (filter (fun x => bytes_eqb c (fst x)) l)).
  assert (HI : In f m <-> (cnt l c f > 0)%nat).
  { unfold cnt. rewrite <- count_occ_In. unfold m. rewrite in_map_iff. split.
    - intros ([a b] & <- & H). apply filter_In in H. destruct H as (H & E). cbn [fst snd] in *.
      destruct (bytes_eqb_spec c a); [now subst|discriminate].
    - intros H. exists (c, f). split; [reflexivity|]. apply filter_In. split; [exact H|]. cbn. apply bytes_eqb_refl. }
  destruct (cnt l c f) as [|n].
  - apply count_occ_not_In. rewrite nodup_In, HI. lia.
  - apply NoDup_count_occ'; [apply NoDup_nodup|]. apply nodup_In, HI. lia.
Qed.

Lemma cnt_gone r cid c f : cnt (subs (gone r cid)) c f = if bytes_eqb cid c then pred (cnt (subs r) c f) else cnt (subs r) c f.
Proof.
  unfold gone. cbn [subs]. rewrite cnt_drop_all. destruct (bytes_eqb_spec cid c) as [<-|]; [|reflexivity].
  rewrite occurs_filters. destruct (cnt (subs r) cid f); lia.
Qed.

Lemma cnt_app l l' c f : cnt (l ++ l') c f = (cnt l c f + cnt l' c f)%nat.
Proof. unfold cnt. apply count_occ_app. Qed.

Lemma cnt_pairs cid fs c f : cnt (map (fun x => (cid, x)) fs) c f = if bytes_eqb cid c then occurs f fs else O.
Proof.
  unfold cnt, occurs. induction fs as [|g fs IH]; cbn [map count_occ].
  - now destruct (bytes_eqb cid c).
  - rewrite IH. destruct (pair_dec (cid, g) (c, f)) as [[= <- <-]|N].
    + rewrite bytes_eqb_refl. destruct (bytes_eq_dec g g); congruence.
    + destruct (bytes_eqb_spec cid c) as [<-|]; [|reflexivity]. destruct (bytes_eq_dec g f); congruence.
Qed.

Lemma place_leave r l cid c : place {| online := leave cid (online r); subs := l |} c = if bytes_eqb cid c then None else place r c.
Proof.
  unfold place, leave. cbn [online]. induction (online r) as [|[a k] o IH]; cbn [filter find option_map fst].
  - now destruct (bytes_eqb cid c).
  - destruct (bytes_eqb_spec cid a) as [<-|N]; cbn [negb find fst].
    + rewrite IH. destruct (bytes_eqb_spec cid c) as [<-|N]; [reflexivity|]. destruct (bytes_eqb_spec c cid); [congruence|reflexivity].
    + destruct (bytes_eqb_spec c a) as [<-|N2]; [|exact IH]. destruct (bytes_eqb_spec cid c); [congruence|reflexivity].
Qed.

Lemma place_enter r l cid k c : place {| online := (cid, k) :: leave cid (online r); subs := l |} c = if bytes_eqb cid c then Some k else place r c.
Proof.
  unfold place at 1. cbn [online find fst]. destruct (bytes_eqb_spec c cid) as [<-|N]; [now rewrite bytes_eqb_refl|].
  pose proof (place_leave r l cid c) as H. destruct (bytes_eqb_spec cid c); [congruence|]. exact H.
Qed.

(** ** What an event comes to *)

Inductive kind :=
| KIn (cid : bytes) (k : conn) | KRefused (k : conn) | KStops | KPublish (p : PublishPacket)
| KSub (cid : bytes) (i : N) (fs : list bytes) (k : conn) | KUnsub (cid : bytes) (i : N) (fs : list bytes) (k : conn)
| KPing (cid : bytes) (k : conn) | KEnds (cid : bytes) | KNothing.

Definition kind_of (auth : bytes -> bytes -> bool) (e : ClientEvent) : kind :=
  match e with
  | Connected c _ k => match let_in auth c with Some true => KIn (client_id c) k | Some false => KRefused k | None => KStops end
  | ClientPacket _ (Publish p) _ => KPublish p
  | ClientPacket cid (Subscribe i ss) k => KSub cid i (map sub_topic ss) k
  | ClientPacket cid (Unsubscribe i fs) k => KUnsub cid i fs k
  | ClientPacket cid PingReq k => KPing cid k
  | ClientPacket cid Disconnect _ => KEnds cid
  | ConnectionLost cid => KEnds cid
  | _ => KNothing
  end.

Definition akin (a b : kind) : Prop :=
  match a, b with
  | KIn c k, KIn c' k' => c = c' /\ k = k'
  | KRefused k, KRefused k' => k = k'
  | KStops, KStops => True
  | KPublish p, KPublish p' => p = p'
  | KSub c i fs k, KSub c' i' fs' k' => i = i' /\ k = k' /\ Permutation fs fs' /\ (fs <> [] -> c = c')
  | KUnsub c i fs k, KUnsub c' i' fs' k' => i = i' /\ k = k' /\ Permutation fs fs' /\ (fs <> [] -> c = c')
  | KPing c k, KPing c' k' => c = c' /\ k = k'
  | KEnds c, KEnds c' => c = c'
  | KNothing, KNothing => True
  | _, _ => False
  end.

Lemma map_nil_iff {A B} (f : A -> B) l : map f l <> [] <-> l <> [].
Proof. destruct l; cbn; split; intros H; congruence. Qed.

Lemma alike_kind auth e e' : alike auth e e' <-> akin (kind_of auth e) (kind_of auth e').
Proof.
  split.
  - destruct 1; cbn [kind_of].
    + rewrite H, H0. now split.
    + now rewrite H, H0.
    + now rewrite H, H0.
    + reflexivity.
    + repeat split; [assumption|]. now rewrite map_nil_iff.
    + now repeat split.
    + now split.
    + destruct H as [->|(k & ->)], H0 as [->|(k' & ->)]; reflexivity.
    + destruct H as [(c & ->)|(c & k & p & -> & H)], H0 as [(c' & ->)|(c' & k' & p' & -> & H0)]; cbn [kind_of].
      * exact I.
      * destruct p'; try exact I; destruct H0.
      * destruct p; try exact I; destruct H.
      * destruct p; try (exfalso; exact H); destruct p'; try (exfalso; exact H0); exact I.
  - assert (IG : forall e, kind_of auth e = KNothing -> ignored e).
    { intros [c a k|c p k|c|c] E; cbn [kind_of] in E.
      - destruct (let_in auth c) as [[]|]; discriminate.
      - right. exists c, k, p. split; [reflexivity|]. now destruct p.
      - left. now exists c.
      - discriminate. }
    assert (EN : forall e c, kind_of auth e = KEnds c -> ends c e).
    { intros [c a k|c p k|c|c] c2 E; cbn [kind_of] in E.
      - destruct (let_in auth c) as [[]|]; discriminate.
      - destruct p; try discriminate. injection E as <-. right. now exists k.
      - discriminate.
      - injection E as <-. now left. }
    intros H. destruct (kind_of auth e) eqn:E; destruct (kind_of auth e') eqn:E'; try (exfalso; exact H); cbn [akin] in H;
      try (apply AIgnored; apply IG; assumption); try (subst; eapply AEnds; apply EN; eassumption).
    + destruct e as [c a j|c p j|c|c]; try discriminate; [|destruct p; discriminate].
      destruct e' as [c' a' j'|c' p' j'|c'|c']; try discriminate; [|destruct p'; discriminate].
      cbn [kind_of] in *. destruct (let_in auth c) as [[]|] eqn:L; try discriminate.
      destruct (let_in auth c') as [[]|] eqn:L'; try discriminate.
      destruct H as (<- & <-). injection E as <- <-. injection E' as H1 ->. now apply AIn.
    + destruct e as [c a j|c p j|c|c]; try discriminate; [|destruct p; discriminate].
      destruct e' as [c' a' j'|c' p' j'|c'|c']; try discriminate; [|destruct p'; discriminate].
      cbn [kind_of] in *. destruct (let_in auth c) as [[]|] eqn:L; try discriminate.
      destruct (let_in auth c') as [[]|] eqn:L'; try discriminate.
      subst. injection E as ->. injection E' as ->. now apply ARefused.
    + destruct e as [c a j|c p j|c|c]; try discriminate; [|destruct p; discriminate].
      destruct e' as [c' a' j'|c' p' j'|c'|c']; try discriminate; [|destruct p'; discriminate].
      cbn [kind_of] in *. destruct (let_in auth c) as [[]|] eqn:L; try discriminate.
      destruct (let_in auth c') as [[]|] eqn:L'; try discriminate. now apply AStops.
    + destruct e as [c a j|c q j|c|c]; try discriminate; [cbn [kind_of] in E; destruct (let_in auth c) as [[]|]; discriminate|].
      destruct e' as [c' a' j'|c' q' j'|c'|c']; try discriminate; [cbn [kind_of] in E'; destruct (let_in auth c') as [[]|]; discriminate|].
      destruct q; try discriminate. destruct q'; try discriminate. injection E as ->. injection E' as ->. subst. apply APublish.
    + destruct e as [c a j|c q j|c|c]; try discriminate; [cbn [kind_of] in E; destruct (let_in auth c) as [[]|]; discriminate|].
      destruct e' as [c' a' j'|c' q' j'|c'|c']; try discriminate; [cbn [kind_of] in E'; destruct (let_in auth c') as [[]|]; discriminate|].
      destruct q; try discriminate. destruct q'; try discriminate. injection E as -> -> <- ->. injection E' as -> -> <- ->.
      destruct H as (-> & -> & HP & HC). apply ASubscribe; [exact HP|]. now rewrite <- (map_nil_iff sub_topic).
    + destruct e as [c a j|c q j|c|c]; try discriminate; [cbn [kind_of] in E; destruct (let_in auth c) as [[]|]; discriminate|].
      destruct e' as [c' a' j'|c' q' j'|c'|c']; try discriminate; [cbn [kind_of] in E'; destruct (let_in auth c') as [[]|]; discriminate|].
      destruct q; try discriminate. destruct q'; try discriminate. injection E as -> -> -> ->. injection E' as -> -> -> ->.
      destruct H as (-> & -> & HP & HC). now apply AUnsubscribe.
    + destruct e as [c a j|c q j|c|c]; try discriminate; [cbn [kind_of] in E; destruct (let_in auth c) as [[]|]; discriminate|].
      destruct e' as [c' a' j'|c' q' j'|c'|c']; try discriminate; [cbn [kind_of] in E'; destruct (let_in auth c') as [[]|]; discriminate|].
      destruct q; try discriminate. destruct q'; try discriminate. injection E as -> ->. injection E' as -> ->.
      destruct H as (-> & ->). apply APing.
Qed.

Definition kind_next (r : ref) (a : kind) : ref :=
  match a with
  | KIn c k => {| online := (c, k) :: leave c (online r); subs := subs r |}
  | KSub c _ fs _ => {| online := online r; subs := map (fun f => (c, f)) fs ++ subs r |}
  | KUnsub c _ fs _ => {| online := online r; subs := drop_all_of c fs (subs r) |}
  | KEnds c => gone r c
  | _ => r
  end.

Definition kind_out (r : ref) (a : kind) (k : conn) : list ServerEvent :=
  match a with
  | KIn _ j => if Nat.eqb k j then [ServerPacket (ConnAck {| session_present := false; return_code := Accepted |})] else []
  | KRefused j => if Nat.eqb k j then [ServerPacket (ConnAck {| session_present := false; return_code := NotAuthorized |}); ServerDisconnect] else []
  | KPublish p => repeat (ServerPacket (Publish p)) (copies r k (topic (message p)))
  | KSub _ i fs j => if Nat.eqb k j then [ServerPacket (SubAck i (repeat SuccessQoS0 (length fs)))] else []
  | KUnsub _ i _ j => if Nat.eqb k j then [ServerPacket (UnsubAck i)] else []
  | KPing c j => if Nat.eqb k j then match place r c with Some _ => [ServerPacket PingResp] | None => [ServerDisconnect] end else []
  | _ => []
  end.

Definition kind_stops (a : kind) : bool := match a with KStops => true | _ => false end.

Lemma next_kind auth r e : ref_next auth r e = kind_next r (kind_of auth e).
Proof.
  destruct e as [c a k|c p k|c|c]; cbn [ref_next kind_of]; try reflexivity.
  - now destruct (let_in auth c) as [[]|].
  - destruct p; try reflexivity. cbn [kind_next]. now rewrite map_map.
Qed.

Lemma out_kind auth r e k : ref_out auth r e k = kind_out r (kind_of auth e) k.
Proof.
  destruct e as [c a j|c p j|c|c]; cbn [ref_out kind_of]; try reflexivity.
  - destruct (let_in auth c) as [[]|]; try reflexivity. now destruct (Nat.eqb k j).
  - destruct p; try reflexivity. cbn [kind_out]. now rewrite map_length.
Qed.

Lemma stops_kind auth e : stops auth e = kind_stops (kind_of auth e).
Proof.
  destruct e as [c a j|c p j|c|c]; cbn [stops kind_of]; try reflexivity.
  - now destruct (let_in auth c) as [[]|].
  - now destruct p.
Qed.

(** ** One direction *)

Lemma akin_refl a : akin a a.
Proof. destruct a; cbn; auto. Qed.

Lemma occurs_perm fs fs' f : Permutation fs fs' -> occurs f fs = occurs f fs'.
Proof. intros H. unfold occurs. now apply (Permutation_count_occ bytes_eq_dec). Qed.

Lemma akin_next r r' a b : req r r' -> akin a b -> req (kind_next r a) (kind_next r' b).
Proof.
  intros (HP & HC) H. destruct a, b; try (exfalso; exact H); cbn [akin kind_next] in *; try (split; assumption).
  - destruct H as (<- & <-). split; [|exact HC]. intros c. now rewrite !place_enter, HP.
  - destruct H as (<- & <- & P & E). split; [exact HP|]. intros c f. cbn [subs]. rewrite !cnt_app, !cnt_pairs, HC.
    rewrite (occurs_perm _ _ f P). destruct fs as [|g fs]; [|now rewrite E].
    apply Permutation_nil in P. subst fs0. cbn. now destruct (bytes_eqb cid c), (bytes_eqb cid0 c).
  - destruct H as (<- & <- & P & E). split; [exact HP|]. intros c f. cbn [subs]. rewrite !cnt_drop_all, HC.
    rewrite (occurs_perm _ _ f P). destruct fs as [|g fs]; [|now rewrite E].
    apply Permutation_nil in P. subst fs0. unfold occurs. cbn [count_occ]. rewrite Nat.sub_0_r.
    now destruct (bytes_eqb cid c), (bytes_eqb cid0 c).
  - subst cid0. split; [intros c; unfold gone; now rewrite !place_leave, HP|]. intros c f. now rewrite !cnt_gone, HC.
Qed.

Lemma akin_out r r' a b k : req r r' -> akin a b -> kind_out r a k = kind_out r' b k.
Proof.
  intros HR H. destruct a, b; try (exfalso; exact H); cbn [akin kind_out] in *; try reflexivity.
  - destruct H as (<- & <-). reflexivity.
  - now subst.
  - subst. now rewrite (req_copies r r').
  - destruct H as (<- & <- & P & _). now rewrite (Permutation_length P).
  - destruct H as (<- & <- & _). reflexivity.
  - destruct H as (<- & <-). now rewrite (proj1 HR).
Qed.

Lemma alike_sends auth k es es' : Forall2 (alike auth) es es' ->
  forall r r', req r r' -> ref_sends auth r es k = ref_sends auth r' es' k.
Proof.
  induction 1 as [|e e' es es' H HF IH]; intros r r' HR; [reflexivity|]. cbn [ref_sends].
  apply alike_kind in H. rewrite !out_kind, !stops_kind, !next_kind, (akin_out r r' _ _ k HR H). f_equal.
  assert (E : kind_stops (kind_of auth e) = kind_stops (kind_of auth e')).
  { destruct (kind_of auth e), (kind_of auth e'); try reflexivity; destruct H. }
  rewrite E. destruct (kind_stops (kind_of auth e')); [reflexivity|]. apply IH. now apply akin_next.
Qed.

Lemma alike_refl auth e : alike auth e e.
Proof. apply alike_kind, akin_refl. Qed.

Lemma alikes_refl auth es : Forall2 (alike auth) es es.
Proof. induction es; constructor; auto using alike_refl. Qed.

(** ** The other direction *)

Fixpoint ksends (r : ref) (ks : list kind) (k : conn) : list ServerEvent :=
  match ks with
  | [] => []
  | a :: ks' => kind_out r a k ++ (if kind_stops a then [] else ksends (kind_next r a) ks' k)
  end.

Lemma ksends_kind auth k es : forall r, ref_sends auth r es k = ksends r (map (kind_of auth) es) k.
Proof.
  induction es as [|e es IH]; intros r; [reflexivity|]. cbn [ref_sends map ksends].
  now rewrite out_kind, stops_kind, next_kind, IH.
Qed.

Definition guest (c : bytes) : ConnectPacket :=
  {| version := Mqtt3; client_id := c; keep_alive_seconds := 0; clean_session := true; will_message := None;
     user_name := None; password := None |}.

Definition event_of (a : kind) : ClientEvent :=
  match a with
  | KIn c k => Connected (guest c) 0 k
  | KPublish p => ClientPacket [] (Publish p) O
  | KSub c i fs k => ClientPacket c (Subscribe i (map (fun f => {| sub_topic := f; sub_qos := AtMostOnce |}) fs)) k
  | KUnsub c i fs k => ClientPacket c (Unsubscribe i fs) k
  | KPing c k => ClientPacket c PingReq k
  | KEnds c => ConnectionLost c
  | _ => Disconnected []
  end.

Definition usable (a : kind) : Prop := match a with KRefused _ | KStops => False | _ => True end.

Lemma event_kind auth a : usable a -> kind_of auth (event_of a) = a.
Proof. destruct a; try contradiction; intros _; try reflexivity. cbn. rewrite map_map. cbn. now rewrite map_id. Qed.

Definition inseparable (a b : kind) : Prop := forall before later k, Forall usable before -> Forall usable later ->
  ksends ref_init (before ++ a :: later) k = ksends ref_init (before ++ b :: later) k.

Lemma same_inseparable auth e e' : same_effect auth e e' -> inseparable (kind_of auth e) (kind_of auth e').
Proof.
  intros H before later k HB HL.
  assert (E : forall l, Forall usable l -> map (kind_of auth) (map event_of l) = l).
  { induction 1 as [|x l Hx _ IH]; cbn [map]; [reflexivity|]. now rewrite IH, event_kind. }
  specialize (H (map event_of before) (map event_of later) k). rewrite !ksends_kind, !map_app in H. cbn [map] in H.
  now rewrite !E in H.
Qed.

Lemma ways_self t : (1 <= ways t t)%nat.
Proof.
  induction t as [|x t IH]; cbn [ways]; [lia|]. rewrite bytes_eqb_refl. lia.
Qed.

Lemma copies_none r k t : subs r = [] -> copies r k t = O.
Proof. intros H. unfold copies. now rewrite H. Qed.

Lemma copies_only r c j f t : (forall x, place r x = if bytes_eqb c x then Some j else None) ->
  (forall g, g <> f -> cnt (subs r) c g = O) ->
  copies r j t = (cnt (subs r) c f * ways (levels t) (levels f))%nat.
Proof.
  intros HP. unfold copies, cnt. induction (subs r) as [|[a b] l IH]; intros H; [reflexivity|].
  unfold sum in *. cbn [map count_occ fst snd] in *. unfold list_sum in *. cbn [fold_right] in *. rewrite IH.
  - rewrite HP. destruct (pair_dec (a, b) (c, f)) as [E|N].
    + inversion E. subst. rewrite bytes_eqb_refl, Nat.eqb_refl. lia.
    + destruct (bytes_eqb_spec c a) as [<-|]; [|lia].
      destruct (bytes_eq_dec b f) as [->|N2]; [congruence|]. specialize (H b N2).
      destruct (pair_dec (c, b) (c, b)); [discriminate|congruence].
  - intros g Hg. specialize (H g Hg). destruct (pair_dec (a, b) (c, g)); [discriminate|exact H].
Qed.

Lemma occurs_cleared f g l : g <> f -> occurs g (filter (fun x => negb (bytes_eqb f x)) l) = occurs g l.
Proof.
  intros N. unfold occurs. induction l as [|x l IH]; cbn [filter count_occ]; [reflexivity|].
  destruct (bytes_eqb_spec f x) as [<-|N2]; cbn [negb count_occ]; rewrite IH; destruct (bytes_eq_dec _ g); congruence.
Qed.

Lemma cnt_occurs l c g : (cnt l c g <= occurs g (map snd l))%nat.
Proof.
  unfold cnt, occurs. induction l as [|[a b] l IH]; cbn [map count_occ snd]; [lia|].
  destruct (pair_dec (a, b) (c, g)) as [E|N]; destruct (bytes_eq_dec b g) as [E2|N2]; try lia. inversion E. congruence.
Qed.

Lemma probe r r' c j f :
  (forall x, place r x = if bytes_eqb c x then Some j else None) ->
  (forall x, place r' x = if bytes_eqb c x then Some j else None) ->
  (forall later k, Forall usable later -> ksends r later k = ksends r' later k) ->
  cnt (subs r) c f = cnt (subs r') c f.
Proof.
  intros HP HP' H. set (rest := filter (fun x => negb (bytes_eqb f x)) (map snd (subs r ++ subs r'))).
  set (p := {| pub_packet_id := None; dup := false;
               message := {| topic := f; payload := []; qos := AtMostOnce; retain := false |} |}).
  specialize (H [KUnsub c 0 rest (Datatypes.S j); KPublish p] j). cbn [ksends kind_out kind_stops kind_next] in H.
  rewrite (proj2 (Nat.eqb_neq j (Datatypes.S j)) (Nat.neq_succ_diag_r j)) in H. cbn [app topic message p] in H. rewrite !app_nil_r in H.
  assert (E := f_equal (@length _) (H ltac:(repeat constructor))). rewrite !repeat_length in E.
  assert (G : forall q, (forall g, cnt (subs q) c g <= occurs g (map snd (subs r ++ subs r')))%nat ->
    (forall x, place q x = if bytes_eqb c x then Some j else None) ->
    copies {| online := online q; subs := drop_all_of c rest (subs q) |} j f = (cnt (subs q) c f * ways (levels f) (levels f))%nat).
  { intros q Hq Hp. rewrite (copies_only _ c j f).
    - cbn [subs]. rewrite cnt_drop_all, bytes_eqb_refl. replace (occurs f rest) with O; [now rewrite Nat.sub_0_r|].
      unfold rest, occurs. symmetry. apply count_occ_not_In. rewrite filter_In, bytes_eqb_refl. now intros (_ & X).
    - exact Hp.
    - intros g Hg. cbn [subs]. rewrite cnt_drop_all, bytes_eqb_refl. unfold rest. rewrite occurs_cleared by exact Hg. specialize (Hq g). lia. }
  rewrite !G in E; try assumption.
  - pose proof (ways_self (levels f)). nia.
  - intros g. rewrite map_app. unfold occurs. rewrite count_occ_app. pose proof (cnt_occurs (subs r') c g). unfold occurs in *. lia.
  - intros g. rewrite map_app. unfold occurs. rewrite count_occ_app. pose proof (cnt_occurs (subs r) c g). unfold occurs in *. lia.
Qed.

Lemma no_occurs fs : (forall f, occurs f fs = O) -> fs = [].
Proof. destruct fs as [|x l]; [reflexivity|]. intros H. specialize (H x). unfold occurs in H. cbn in H. now destruct (bytes_eq_dec x x). Qed.

Lemma perm_occurs fs fs' : (forall f, occurs f fs = occurs f fs') -> Permutation fs fs'.
Proof. intros H. apply (Permutation_count_occ bytes_eq_dec). exact H. Qed.

(** With [c] alone there, on connection 0, and with some subscriptions. *)
Definition alone (c : bytes) (l : list (bytes * bytes)) : ref := {| online := [(c, O)]; subs := l |}.

Lemma place_alone c l x : place (alone c l) x = if bytes_eqb c x then Some O else None.
Proof.
  unfold place, alone. cbn [online find fst]. destruct (bytes_eqb_spec x c) as [->|N]; [now rewrite bytes_eqb_refl|].
  destruct (bytes_eqb_spec c x); [congruence|reflexivity].
Qed.

Lemma separate_unsub c c' i i' fs fs' k k' : inseparable (KUnsub c i fs k) (KUnsub c' i' fs' k') ->
  i = i' /\ k = k' -> (forall f, occurs f fs' = if bytes_eqb c' c then occurs f fs else (occurs f fs + occurs f fs')%nat).
Proof.
  intros H (<- & <-) f.
  set (l := map (fun x => (c, x)) (fs ++ fs') ++ []).
  assert (K : forall later k0, Forall usable later ->
    ksends (alone c (drop_all_of c fs l)) later k0 = ksends (alone c (drop_all_of c' fs' l)) later k0).
  { intros later k0 HL. specialize (H [KIn c O; KSub c 0 (fs ++ fs') O] later k0 ltac:(repeat constructor) HL).
    cbn [app ksends kind_stops kind_next kind_out online subs leave filter ref_init] in H.
    now do 3 apply app_inv_head in H. }
  pose proof (probe _ _ c O f (place_alone c _) (place_alone c _) K) as E. cbn [subs alone] in E.
  rewrite !cnt_drop_all, bytes_eqb_refl in E. unfold l in E. rewrite app_nil_r, cnt_pairs, bytes_eqb_refl in E.
  unfold occurs in *. rewrite !count_occ_app in E. destruct (bytes_eqb c' c); lia.
Qed.

Lemma separate_sub c c' i i' fs fs' k k' : inseparable (KSub c i fs k) (KSub c' i' fs' k') ->
  i = i' /\ k = k' /\ length fs = length fs' -> (forall f, occurs f fs = if bytes_eqb c' c then occurs f fs' else O).
Proof.
  intros H (<- & <- & HLen) f.
  assert (K : forall later k0, Forall usable later ->
    ksends (alone c (map (fun x => (c, x)) fs ++ [])) later k0 = ksends (alone c (map (fun x => (c', x)) fs' ++ [])) later k0).
  { intros later k0 HL. specialize (H [KIn c O] later k0 ltac:(repeat constructor) HL).
    cbn [app ksends kind_stops kind_next kind_out online subs leave filter ref_init] in H. rewrite HLen in H.
    now do 2 apply app_inv_head in H. }
  pose proof (probe _ _ c O f (place_alone c _) (place_alone c _) K) as E. cbn [subs alone] in E.
  now rewrite !app_nil_r, !cnt_pairs, bytes_eqb_refl in E.
Qed.

Lemma inseparable_sym a b : inseparable a b -> inseparable b a.
Proof. intros H before later k HB HL. symmetry. now apply H. Qed.

Lemma first_out a b k : inseparable a b -> kind_out ref_init a k = kind_out ref_init b k.
Proof.
  intros H. specialize (H [] [] k (Forall_nil _) (Forall_nil _)). cbn [app ksends] in H.
  destruct (kind_stops a), (kind_stops b); now rewrite !app_nil_r in H.
Qed.

(** What comes to nothing by itself. *)
Definition silent (a : kind) : Prop := match a with KStops | KPublish _ | KEnds _ | KNothing => True | _ => False end.

Lemma silent_out a : silent a -> forall k, kind_out ref_init a k = [].
Proof. destruct a; try contradiction; reflexivity. Qed.

Lemma loud_out a : silent a \/ exists k x l, kind_out ref_init a k = x :: l.
Proof.
  destruct a; try (left; exact I); right; exists k; cbn [kind_out]; rewrite Nat.eqb_refl; cbn; eauto.
Qed.

Lemma silent_both a b : inseparable a b -> silent a -> silent b.
Proof.
  intros H S. destruct (loud_out b) as [X|(k & x & l & X)]; [exact X|]. rewrite <- (first_out a b k H), (silent_out a S k) in X. discriminate.
Qed.

Lemma separate_silent a b : inseparable a b -> silent a -> silent b -> akin a b.
Proof.
  intros H HA HB.
  assert (ST : forall x, inseparable KStops x -> silent x -> x = KStops).
  { intros x X SX. specialize (X [] [KPing [] O] O (Forall_nil _) ltac:(repeat constructor)).
    destruct x; try contradiction; try reflexivity; discriminate X. }
  assert (EN : forall c x, inseparable (KEnds c) x -> match x with KEnds c' => c = c' | KNothing => False | _ => True end).
  { intros c x X. specialize (X [KIn c O] [KPing c O] O ltac:(repeat constructor) ltac:(repeat constructor)).
    destruct x; try exact I.
    - cbn [app ksends kind_stops kind_next kind_out online subs leave filter ref_init gone] in X.
      cbn [Nat.eqb] in X. unfold gone in X. rewrite !place_leave, bytes_eqb_refl in X. cbn [app] in X.
      destruct (bytes_eqb_spec cid c); [congruence|]. unfold place in X. cbn [online find fst] in X. rewrite bytes_eqb_refl in X. discriminate X.
    - cbn [app ksends kind_stops kind_next kind_out online subs leave filter ref_init gone] in X.
      cbn [Nat.eqb] in X. unfold gone in X. rewrite !place_leave, bytes_eqb_refl in X. cbn [app] in X.
      unfold place in X. cbn [online find fst] in X. rewrite bytes_eqb_refl in X. discriminate X. }
  assert (PU : forall p x, inseparable (KPublish p) x -> silent x -> x = KPublish p).
  { intros p x X SX. set (t := topic (message p)).
    specialize (X [KIn [] O; KSub [] 0 [t] 1%nat] [] O ltac:(repeat constructor) ltac:(repeat constructor)).
    cbn [app ksends kind_stops kind_next kind_out online subs leave filter ref_init map] in X. cbn [Nat.eqb app] in X.
    apply (f_equal (@tl _)) in X. cbn [tl] in X. set (r := {| online := [([] : bytes, O)]; subs := [([] : bytes, t)] |}).
    assert (C : copies r O t = ways (levels t) (levels t)).
    { unfold copies, sum, r. cbn [subs map list_sum fold_right fst snd]. unfold place. cbn [online find fst bytes_eqb option_map snd Nat.eqb]. cbn. lia. }
    change (repeat (ServerPacket (Publish p)) (copies r O t) ++ [] = kind_out r x O ++ (if kind_stops x then [] else [])) in X. rewrite C in X. pose proof (ways_self (levels t)) as W. destruct (ways (levels t) (levels t)) as [|w]; [lia|].
    cbn [repeat app] in X. destruct x; try contradiction; cbn [kind_stops kind_out] in X; try discriminate X.
    destruct (copies r O (topic (message p0))); cbn [repeat app] in X; [discriminate X|]. injection X as -> _. reflexivity. }
  destruct a; try contradiction.
  - rewrite (ST b H HB). exact I.
  - rewrite (PU p b H HB). reflexivity.
  - apply inseparable_sym in H. destruct b; try contradiction.
    + discriminate (ST _ H I).
    + discriminate (PU _ _ H I).
    + symmetry. exact (EN _ _ H).
    + apply inseparable_sym in H. destruct (EN _ _ H).
  - apply inseparable_sym in H. destruct b; try contradiction.
    + discriminate (ST _ H I).
    + discriminate (PU _ _ H I).
    + destruct (EN _ _ H).
    + exact I.
Qed.

Lemma separate a b : inseparable a b -> akin a b.
Proof.
  intros H. destruct (loud_out a) as [SA|(k1 & x & l & X)].
  { apply separate_silent; [exact H|exact SA|exact (silent_both a b H SA)]. }
  assert (NB : ~ silent b).
  { intros SB. rewrite (first_out a b k1 H), (silent_out b SB k1) in X. discriminate. }
  pose proof (fun k => first_out a b k H) as O1.
  destruct a; try (exfalso; cbn in X; discriminate X);
  specialize (O1 k); cbn [kind_out] in O1; rewrite Nat.eqb_refl in O1;
  destruct b; try (exfalso; exact (NB I)); cbn [kind_out] in O1;
  match type of O1 with context [Nat.eqb ?x ?j] => destruct (Nat.eqb_spec x j) as [<-|]; [|discriminate O1] end;
  try discriminate O1; cbn [akin].
  - split; [|reflexivity].
    specialize (H [] [KPing cid k] k (Forall_nil _) ltac:(repeat constructor)).
    cbn [app ksends kind_stops kind_next kind_out online subs leave filter ref_init] in H. rewrite Nat.eqb_refl in H.
    unfold place in H. cbn [online find fst app] in H. rewrite bytes_eqb_refl in H.
    destruct (bytes_eqb_spec cid cid0) as [E|N]; [exact E|discriminate H].
  - reflexivity.
  - injection O1 as <- EL. assert (HL : length fs = length fs0) by (rewrite <- (repeat_length SuccessQoS0 (length fs)), EL; apply repeat_length).
    split; [reflexivity|]. split; [reflexivity|].
    pose proof (separate_sub _ _ _ _ _ _ _ _ H (conj eq_refl (conj eq_refl HL))) as S.
    destruct (bytes_eqb_spec cid0 cid) as [->|N].
    + split; [now apply perm_occurs|reflexivity].
    + apply no_occurs in S. subst fs. destruct fs0; [|discriminate HL]. split; [constructor|congruence].
  - injection O1 as <-. split; [reflexivity|]. split; [reflexivity|].
    pose proof (separate_unsub _ _ _ _ _ _ _ _ H (conj eq_refl eq_refl)) as S.
    pose proof (separate_unsub _ _ _ _ _ _ _ _ (inseparable_sym _ _ H) (conj eq_refl eq_refl)) as S'.
    destruct (bytes_eqb_spec cid0 cid) as [->|N].
    + split; [|reflexivity]. apply perm_occurs. intros f. symmetry. apply S.
    + destruct (bytes_eqb_spec cid cid0); [congruence|].
      assert (E1 : fs = []) by (apply no_occurs; intros f; specialize (S f); lia).
      assert (E2 : fs0 = []) by (apply no_occurs; intros f; specialize (S' f); lia).
      subst. split; [constructor|congruence].
  - split; [|reflexivity].
    specialize (H [KIn cid O] [] k ltac:(repeat constructor) (Forall_nil _)).
    cbn [app ksends kind_stops kind_next kind_out online subs leave filter ref_init] in H. apply app_inv_head in H.
    rewrite Nat.eqb_refl in H. unfold place in H. cbn [online find fst] in H. rewrite bytes_eqb_refl in H.
    destruct (bytes_eqb_spec cid0 cid) as [E|N]; [now symmetry|discriminate H].
Qed.

(** Two events have the same effect, whatever is handled before and after them, if and only if they are alike. *)
Theorem C125_exact auth e e' : same_effect auth e e' <-> alike auth e e'.
Proof.
  split.
  - intros H. apply alike_kind, separate, same_inseparable, H.
  - intros H before later k. apply alike_sends; [|apply req_refl]. apply Forall2_app; [apply alikes_refl|].
    constructor; [exact H|apply alikes_refl].
Qed.

(** So two whole histories of events that are alike one by one put the same into every queue. *)
Theorem C125_histories auth es es' k : Forall2 (alike auth) es es' ->
  ref_sends auth ref_init es k = ref_sends auth ref_init es' k.
Proof. intros H. now apply alike_sends; [|apply req_refl]. Qed.

(** And in two executions that have come to rest, whose events are alike, the writers took the same packets. *)
Theorem C125_at_rest auth dbg dbg' n n' s s' : quiet auth dbg n s -> quiet auth dbg' n' s' ->
  Forall2 (alike auth) (map snd (handled s)) (map snd (handled s')) ->
  forall k c c', nth_error (conns s) k = Some c -> nth_error (conns s') k = Some c' -> broker_sent c = broker_sent c'.
Proof.
  intros HQ HQ' H k c c' Hk Hk'. rewrite (proj1 (C86_at_rest auth dbg n s HQ k c Hk)), (proj1 (C86_at_rest auth dbg' n' s' HQ' k c' Hk')).
  f_equal. now apply C125_histories.
Qed.

(** At any moment of any execution: what a writer took is a prefix of what any history alike to the handled one calls for. *)
Theorem C125_every_execution auth dbg n s es : reachable auth dbg n s -> Forall2 (alike auth) (map snd (handled s)) es ->
  forall k c, nth_error (conns s) k = Some c ->
    exists rest, ref_sends auth ref_init es k = map ServerPacket (broker_sent c) ++ rest.
Proof.
  intros HR H k c Hk. destruct (proj2 (C86_every_execution auth dbg n s k HR) c Hk) as (rest & E).
  exists rest. rewrite <- E. symmetry. now apply C125_histories.
Qed.

(** Two CONNECTs that differ in all but client id and user, two SUBSCRIBEs that differ in QoS and order. A retained
    message, however, is not the same as one that is not. *)
Example C125_case :
  let c := {| version := Mqtt3; client_id := str "c"; keep_alive_seconds := 60; clean_session := true;
              will_message := Some {| topic := str "t"; payload := []; qos := AtMostOnce; retain := true |};
              user_name := Some (str "u"); password := Some (str "p") |} in
  let c' := {| version := Mqtt5; client_id := str "c"; keep_alive_seconds := 0; clean_session := false;
               will_message := None; user_name := None; password := None |} in
  let sub f q := {| sub_topic := f; sub_qos := q |} in
  let pub b := {| pub_packet_id := None; dup := false;
                  message := {| topic := str "a"; payload := []; qos := AtMostOnce; retain := b |} |} in
  let auth := fun u p : bytes => true in
  same_effect auth (Connected c 1 3%nat) (Connected c' 2 3%nat)
  /\ same_effect auth (ClientPacket (str "c") (Subscribe 7 [sub (str "a") AtMostOnce; sub (str "b") ExactlyOnce]) 3%nat)
                      (ClientPacket (str "c") (Subscribe 7 [sub (str "b") AtLeastOnce; sub (str "a") AtLeastOnce]) 3%nat)
  /\ ~ same_effect auth (ClientPacket (str "c") (Publish (pub true)) 3%nat) (ClientPacket (str "c") (Publish (pub false)) 3%nat).
Proof.
  cbv zeta. split; [|split]; rewrite ?C125_exact.
  - now apply AIn.
  - apply ASubscribe; [|reflexivity]. cbn [map sub_topic]. apply perm_swap.
  - intros H. apply alike_kind in H. discriminate H.
Qed.
