(** The capacity of the read buffer while no number that is read empties it. *)
From Verif Require Import Base Base_facts Utf8 Spec_utf8 Utf8_facts Packets Spec_wire Decoder
  ReadStream Plain ReadStream_facts Plain_facts Decoder_facts Panic_facts Conn Hang_facts Conn_facts.
Open Scope N_scope.
Ltac Zify.zify_post_hook ::= Z.div_mod_to_equations.

(** Where reads of at most [ch] bytes each end, beginning at [t]. *)
Fixpoint ends_from (t : N) (ch : list N) : list N :=
  t :: match ch with [] => [] | c :: ch' => ends_from (t + N.max 1 c) ch' end.

(** Counted from the next byte to be consumed. *)
Definition rel_ends (st : rstream) : list N := ends_from (lenN (data (rbuf st))) (chunks (rsk st)).

Lemma ends_from_le : forall ch t x, In x (ends_from t ch) -> t <= x.
Proof.
  induction ch as [|c ch IH]; intros t x; cbn [ends_from].
  - intros [<-|[]]. lia.
  - intros [<-|H]; [lia|]. apply IH in H. lia.
Qed.

Lemma ends_from_shift : forall ch t n x, n <= t -> (In x (ends_from (t - n) ch) <-> In (x + n) (ends_from t ch)).
Proof.
  induction ch as [|c ch IH]; intros t n x Hn; cbn [ends_from].
  - cbn [In]. split; intros [H|[]]; left; lia.
  - cbn [In]. replace (t - n + N.max 1 c) with (t + N.max 1 c - n) by lia. rewrite IH by lia.
    split; (intros [H|H]; [left; lia|right; exact H]).
Qed.

Lemma rel_ends_data st : In (lenN (data (rbuf st))) (rel_ends st).
Proof. unfold rel_ends. destruct (chunks (rsk st)); left; reflexivity. Qed.

Lemma wait_ends fuel : forall n st st', wf st -> n <= cap (rbuf st) -> wait_for_data_loop fuel n st = ROk tt st' ->
  cap (rbuf st') = cap (rbuf st) /\ pending st' = pending st /\ n <= lenN (data (rbuf st')) /\ wf st'
  /\ forall x, x < cap (rbuf st) -> x < lenN (pending st) -> In x (rel_ends st') -> In x (rel_ends st).
Proof.
  induction fuel as [|fuel IH]; intros n st st' W Hn; cbn [wait_for_data_loop]; [discriminate|].
  destruct (N.ltb_spec (lenN (data (rbuf st))) n) as [HL|HL].
  2:{ intros [= <-]. repeat split; auto. }
  pose proof (read_buf_facts st W) as HB. destruct (read_buf st) as [k st1|e| | | |] eqn:ER; try discriminate.
  destruct HB as (W1 & Hp & _ & Hc & Hk).
  destruct (N.eqb_spec k 0) as [Hz|Hz]; [destruct (data (rbuf st1)); discriminate|]. intros E.
  destruct Hc as [(_ & Hc & _)|(HX & _)]; [|lia].
  destruct (IH n st1 st' W1 ltac:(lia) E) as (H1 & H2 & H3 & H4 & H5).
  split; [lia|]. split; [congruence|]. split; [exact H3|]. split; [exact H4|].
  intros x Hx1 Hx2 Hin. rewrite Hc, Hp in H5. specialize (H5 x Hx1 Hx2 Hin). clear Hin IH E H1 H2 H3 H4.
  unfold read_buf in ER. unfold grow_if_full in ER.
  destruct (N.eqb_spec (cap (rbuf st)) (lenN (data (rbuf st)))) as [HX|_]; [lia|].
  assert (HP : lenN (pending st) = lenN (data (rbuf st)) + lenN (arriving (rsk st))) by (unfold pending; now rewrite lenN_app).
  destruct (arriving (rsk st)) as [|y ys] eqn:EA.
  { destruct (ending (rsk st)); try discriminate. injection ER as <- <-. congruence. }
  set (sp := cap (rbuf st) - lenN (data (rbuf st))) in *.
  assert (HD : lenN (data (rbuf st1)) = lenN (data (rbuf st)) + k /\ chunks (rsk st1) = tl (chunks (rsk st))
    /\ k = N.min (match chunks (rsk st) with [] => sp | c :: _ => N.max 1 c end) (N.min sp (lenN (y :: ys)))).
  { assert (E0 := ER). apply (f_equal (fun r => match r with ROk a _ => a | _ => 0 end)) in E0. cbn beta iota in E0.
    apply (f_equal (fun r => match r with ROk _ s => s | _ => st end)) in ER. cbn beta iota in ER. rewrite E0 in ER. subst st1.
    cbn [rbuf rsk data chunks]. rewrite lenN_app, lenN_takeN. repeat split; auto. lia. }
  destruct HD as (HD & HC & HK). unfold rel_ends in *. rewrite HD, HC in H5.
  destruct (chunks (rsk st)) as [|c ch]; cbn [tl ends_from] in *.
  - destruct H5 as [H5|[]]. exfalso. lia.
  - right. destruct (N.le_gt_cases (N.max 1 c) (N.min sp (lenN (y :: ys)))) as [HM|HM].
    + replace (N.max 1 c) with k by lia. exact H5.
    + exfalso. apply ends_from_le in H5. lia.
Qed.

(** The field is taken out of the buffer in one piece. *)
Lemma get_bytes_at_once size st bs st' : wf st -> stream_get_bytes size st = ROk bs st' ->
  size <= cap (rbuf st) /\ (size = 0 /\ st' = st
   \/ 0 < size /\ exists st1, wait_for_data size st = ROk tt st1 /\ st' = set_rbuf (consume size (rbuf st1)) st1).
Proof.
  intros W E. assert (HC : size <= cap (rbuf st)).
  { destruct (stream_get_bytes_eq size st W) as (HE & _). rewrite E in HE. cbn [obs] in HE. unfold lget in HE.
    destruct (N.ltb_spec isize_max size); [discriminate|]. destruct (N.ltb_spec (cap (rbuf st)) size); [|lia].
    destruct (lenN (pending st) <? cap (rbuf st)); [|discriminate]. destruct (ending (rsk st)); discriminate. }
  split; [exact HC|]. unfold stream_get_bytes in E. destruct (isize_max <? size); [discriminate|].
  cbn [gb_loop] in E. unfold gb_step in E. destruct (N.ltb_spec 0 size) as [H0|H0].
  - right. split; [exact H0|]. destruct (N.ltb_spec (cap (rbuf st)) size); [lia|].
    destruct (wait_for_data size st) as [[] st1| | | | |] eqn:EW; try discriminate. exists st1. split; [reflexivity|].
    rewrite N.sub_diag in E. destruct (N.to_nat size) as [|m] eqn:Em; [lia|]. cbn [gb_loop] in E. unfold gb_step in E.
    cbn [N.ltb N.compare] in E. now injection E as _ <-.
  - left. split; [lia|]. now injection E as _ <-.
Qed.

Lemma lrun_false {A} en (m : rd A) : forall bs c g ks, Forall (eq false) ks -> lrun en m bs c g ks = lrun en m bs c g [].
Proof.
  assert (T : forall ks k, Forall (eq false) ks -> taken ks k = taken [] k /\ Forall (eq false) (tl ks)).
  { intros ks k H. destruct H as [|b ks Hb H]; [split; [reflexivity|constructor]|]. subst b. split; [reflexivity|exact H]. }
  induction m as [a|e| | |k IH|k IH|size k IH]; intros bs c g ks H; cbn [lrun]; try reflexivity.
  - destruct bs; [reflexivity|]. destruct (T ks 1 H) as (-> & HT). now rewrite (IH _ _ _ _ _ HT).
  - destruct bs as [|? [|? ?]]; try reflexivity. destruct (T ks 2 H) as (-> & HT). now rewrite (IH _ _ _ _ _ HT).
  - now rewrite (IH _ _ _ _ ks H).
Qed.

(** While every number read ends strictly inside the buffer's capacity and the bytes that come, and not where
    a read ends, none empties the buffer. *)
Definition quiet {A} (m : rd A) (st : rstream) : Prop := forall pre k post,
  reads m (pending st) = pre ++ RNum k :: post -> total pre <= cap (rbuf st) ->
  total pre + k < cap (rbuf st) /\ total pre + k < lenN (pending st) /\ ~ In (total pre + k) (rel_ends st).

Definition moved_ends (d : N) (st st' : rstream) : Prop := forall x,
  x + d < cap (rbuf st) -> x + d < lenN (pending st) -> In x (rel_ends st') -> In (x + d) (rel_ends st).

Lemma quiet_tail {A B} (m : rd A) (m' : rd B) q st st' : quiet m st ->
  reads m (pending st) = q :: reads m' (pending st') ->
  lenN (pending st) = req_size q + lenN (pending st') -> req_size q <= cap (rbuf st) ->
  cap (rbuf st') = cap (rbuf st) - req_size q -> moved_ends (req_size q) st st' -> quiet m' st'.
Proof.
  intros HQ ER EP HC EC HM pre k post E HT.
  destruct (HQ (q :: pre) k post) as (H1 & H2 & H3).
  - rewrite ER, E. reflexivity.
  - rewrite total_cons. lia.
  - rewrite total_cons in *. repeat split; [lia|lia|]. intros Hin. apply H3.
    replace (req_size q + total pre + k) with (total pre + k + req_size q) by lia. apply HM; [lia|lia|exact Hin].
Qed.

Lemma moved_trans d1 d2 st st1 st2 : moved_ends d1 st st1 -> moved_ends d2 st1 st2 ->
  cap (rbuf st1) = cap (rbuf st) - d1 -> lenN (pending st1) = lenN (pending st) - d1 -> moved_ends (d1 + d2) st st2.
Proof.
  intros H1 H2 HC HP x Hx1 Hx2 Hin. replace (x + (d1 + d2)) with (x + d2 + d1) by lia.
  apply H1; [lia|lia|]. apply H2; [lia|lia|exact Hin].
Qed.

(** A number at the front. *)
Lemma number_quiet k st st1 : wf st -> (1 <= k) -> k < cap (rbuf st) -> k < lenN (pending st) -> ~ In k (rel_ends st) ->
  wait_for_data k st = ROk tt st1 ->
  (k =? lenN (data (rbuf st1))) = false
  /\ let st2 := set_rbuf (advance (reuse (rsk st1)) k (rbuf st1)) st1 in
     wf st2 /\ pending st2 = dropN k (pending st) /\ cap (rbuf st2) = cap (rbuf st) - k /\ moved_ends k st st2.
Proof.
  intros W H1 HC HP HN EW. destruct (wait_ends _ k st st1 W ltac:(lia) EW) as (E1 & E2 & E3 & W1 & E5).
  assert (HF : (k =? lenN (data (rbuf st1))) = false).
  { apply N.eqb_neq. intros E. apply HN. apply E5; auto. rewrite E. apply rel_ends_data. }
  split; [exact HF|]. cbv zeta.
  assert (EA : advance (reuse (rsk st1)) k (rbuf st1) = consume k (rbuf st1)).
  { unfold advance, consume. rewrite HF, andb_false_r. reflexivity. }
  rewrite EA. split; [|split; [|split]].
  - apply wf_consume; [exact E3|exact W1].
  - rewrite pending_consume by exact E3. now rewrite E2.
  - cbn [set_rbuf rbuf consume cap]. lia.
  - intros x Hx1 Hx2 Hin. apply E5; auto. unfold rel_ends in *. cbn [set_rbuf rbuf rsk consume data] in Hin.
    rewrite lenN_dropN in Hin. now apply ends_from_shift in Hin.
Qed.

Lemma run_shrinks {A} (m : rd A) st a st' : wf st -> run m st = ROk a st' -> lenN (pending st') <= lenN (pending st).
Proof.
  intros W ER. assert (HN : run m st <> RHung) by congruence. pose proof (run_plain _ st W HN) as HP. rewrite ER in HP.
  destruct (plain m (pending st)) as [a' r|e| |l|] eqn:Epl; try discriminate.
  - destruct HP as (s2 & HP & HP2 & _). injection HP as _ <-.
    destruct (plain_suffix _ _ _ _ Epl) as [u Hu]. rewrite Hu, lenN_app, HP2. lia.
  - destruct (ending (rsk st)); discriminate.
Qed.

Theorem quiet_run {A} (m : rd A) : forall st, wf st -> quiet m st ->
  Forall (eq false) (emptied m st)
  /\ forall a st', run m st = ROk a st' -> moved_ends (lenN (pending st) - lenN (pending st')) st st'.
Proof.
  induction m as [a|e| | |k IH|k IH|size k IH]; intros st W HQ; cbn [emptied run]; try (split; [constructor|discriminate]).
  - split; [constructor|]. intros a0 st' [= <- <-]. rewrite N.sub_diag. intros x _ _. now rewrite N.add_0_r.
  - destruct (HQ [] 1 (match pending st with b :: r => reads (k b) r | [] => [] end) eq_refl) as (H1 & H2 & H3).
    { change (total []) with 0. lia. }
    change (total [] + 1) with 1 in *. unfold stream_get_u8.
    destruct (wait_for_data 1 st) as [[] st1|e| | | |] eqn:EW; try (split; [constructor|discriminate]).
    destruct (number_quiet 1 st st1 W ltac:(lia) H1 H2 H3 EW) as (HF & HK). rewrite HF.
    set (st2 := set_rbuf (advance (reuse (rsk st1)) 1 (rbuf st1)) st1) in *. cbv zeta in HK. destruct HK as (W2 & EP & EC & HM).
    destruct (wait_ends _ 1 st st1 W ltac:(lia) EW) as (_ & E2 & E3 & _ & _).
    destruct (data (rbuf st1)) as [|b d] eqn:ED; [rewrite lenN_nil in E3; lia|].
    assert (Epe : pending st = b :: pending st2).
    { rewrite EP, <- E2. unfold pending. rewrite ED. reflexivity. }
    assert (HQ2 : quiet (k b) st2).
    { apply (quiet_tail (GetU8 k) (k b) (RNum 1) st st2); auto.
      - cbn [reads]. now rewrite Epe.
      - rewrite Epe, lenN_cons. cbn [req_size]. lia.
      - cbn [req_size]. lia. }
    destruct (IH b st2 W2 HQ2) as (K1 & K2). split; [constructor; auto|]. intros a st' ER.
    pose proof (K2 a st' ER) as K3.
    assert (HL : lenN (pending st) = 1 + lenN (pending st2)) by (rewrite Epe, lenN_cons; lia).
    pose proof (run_shrinks _ st2 a st' W2 ER) as HL2.
    replace (lenN (pending st) - lenN (pending st')) with (1 + (lenN (pending st2) - lenN (pending st'))) by lia.
    apply (moved_trans 1 _ st st2 st'); auto. lia.
  - destruct (HQ [] 2 (match pending st with b1 :: b0 :: r => reads (k (b2n b1 * 256 + b2n b0)) r | _ => [] end) eq_refl) as (H1 & H2 & H3).
    { change (total []) with 0. lia. }
    change (total [] + 2) with 2 in *. unfold stream_get_u16.
    destruct (wait_for_data 2 st) as [[] st1|e| | | |] eqn:EW; try (split; [constructor|discriminate]).
    destruct (number_quiet 2 st st1 W ltac:(lia) H1 H2 H3 EW) as (HF & HK). rewrite HF.
    set (st2 := set_rbuf (advance (reuse (rsk st1)) 2 (rbuf st1)) st1) in *. cbv zeta in HK. destruct HK as (W2 & EP & EC & HM).
    destruct (wait_ends _ 2 st st1 W ltac:(lia) EW) as (_ & E2 & E3 & _ & _).
    destruct (data (rbuf st1)) as [|b1 [|b0 d]] eqn:ED; [rewrite lenN_nil in E3; lia|rewrite lenN_cons, lenN_nil in E3; lia|].
    assert (Epe : pending st = b1 :: b0 :: pending st2).
    { rewrite EP, <- E2. unfold pending. rewrite ED. reflexivity. }
    assert (HQ2 : quiet (k (b2n b1 * 256 + b2n b0)) st2).
    { apply (quiet_tail (GetU16 k) (k (b2n b1 * 256 + b2n b0)) (RNum 2) st st2); auto.
      - cbn [reads]. now rewrite Epe.
      - rewrite Epe, !lenN_cons. cbn [req_size]. lia.
      - cbn [req_size]. lia. }
    destruct (IH _ st2 W2 HQ2) as (K1 & K2). split; [constructor; auto|]. intros a st' ER.
    pose proof (K2 a st' ER) as K3.
    assert (HL : lenN (pending st) = 2 + lenN (pending st2)) by (rewrite Epe, !lenN_cons; lia).
    pose proof (run_shrinks _ st2 a st' W2 ER) as HL2.
    replace (lenN (pending st) - lenN (pending st')) with (2 + (lenN (pending st2) - lenN (pending st'))) by lia.
    apply (moved_trans 2 _ st st2 st'); auto. lia.
  - destruct (stream_get_bytes size st) as [bs st2|e| | | |] eqn:EG; try (split; [constructor|discriminate]).
    destruct (get_bytes_at_once size st bs st2 W EG) as (HC & HG).
    destruct (stream_get_bytes_eq size st W) as (HE & HGo). rewrite EG in HE, HGo. cbn [obs good] in HE, HGo. destruct HGo as (W2 & _).
    unfold lget in HE. destruct (N.ltb_spec isize_max size) as [|HI]; [discriminate|].
    destruct (N.ltb_spec (cap (rbuf st)) size) as [|_]; [lia|].
    destruct (N.ltb_spec (lenN (pending st)) size) as [|HPl]; [destruct (ending (rsk st)); discriminate|].
    injection HE as Hbs Hp2 Hc2 _.
    assert (HM : moved_ends size st st2).
    { destruct HG as [(-> & ->)|(H0 & st1 & EW & ->)].
      - intros x _ _. now rewrite N.add_0_r.
      - destruct (wait_ends _ _ _ _ W HC EW) as (_ & _ & E3 & _ & E5). intros x Hx1 Hx2 Hin. apply E5; auto.
        unfold rel_ends in *. cbn [set_rbuf rbuf rsk consume data] in Hin. rewrite lenN_dropN in Hin.
        now apply ends_from_shift in Hin. }
    assert (HL : lenN (pending st) = size + lenN (pending st2)) by (rewrite Hp2, lenN_dropN; lia).
    assert (HQ2 : quiet (k bs) st2).
    { apply (quiet_tail (GetBytes size k) (k bs) (RField size) st st2); auto. cbn [reads].
      destruct (N.ltb_spec isize_max size); [lia|]. destruct (N.ltb_spec (lenN (pending st)) size); [lia|].
      now rewrite Hbs, Hp2. }
    destruct (IH bs st2 W2 HQ2) as (K1 & K2). split; [exact K1|]. intros a st' ER. pose proof (K2 a st' ER) as K3.
    pose proof (run_shrinks _ st2 a st' W2 ER) as HL2.
    replace (lenN (pending st) - lenN (pending st')) with (size + (lenN (pending st2) - lenN (pending st'))) by lia.
    apply (moved_trans size _ st st2 st'); auto. lia.
Qed.

(** ** The last field of a packet *)

(** The text or payload a packet ends with, if it does. *)
Definition last_text (p : ControlPacket) : bytes :=
  match p with
  | Connect c => match password c, user_name c with Some s, _ => s | None, Some s => s | None, None => client_id c end
  | Publish p => payload (message p)
  | Unsubscribe _ ts => last ts []
  | _ => []
  end.

Lemma bind_inv {A B} (m : rd A) (f : A -> rd B) bs b r : plain (bind m f) bs = POk b r ->
  exists a t, plain m bs = POk a t /\ plain (f a) t = POk b r /\ reads (bind m f) bs = reads m bs ++ reads (f a) t.
Proof.
  rewrite plain_bind, reads_bind. destruct (plain m bs) as [a t| | | |]; try discriminate. cbn [pbind]. eauto.
Qed.

Lemma reads_string bs s r : plain get_string bs = POk s r -> reads get_string bs = [RNum 2; RField (lenN s)].
Proof.
  intros H. unfold get_string in *. destruct (bind_inv _ _ _ _ _ H) as (n & t & E1 & E2 & ->).
  destruct bs as [|b1 [|b0 bs]]; cbn [plain get_u16] in E1; try discriminate. injection E1 as En Et.
  destruct (bind_inv _ _ _ _ _ E2) as (v & t2 & E3 & E4 & ->).
  cbn [reads get_u16 get_bytes]. cbn [get_bytes plain] in E3.
  destruct (isize_max <? n); [discriminate|]. destruct (N.ltb_spec (lenN t) n) as [|HL]; [discriminate|].
  injection E3 as <- <-. destruct (from_utf8 (takeN n t)); cbn [plain] in E4; [discriminate|]. injection E4 as <- <-.
  cbn [reads app]. rewrite lenN_takeN. do 3 f_equal. lia.
Qed.

Lemma reads_connect fb rl bs p r : plain (decode_connect fb rl) bs = POk p r ->
  exists pre, reads (decode_connect fb rl) bs = pre ++ [RField (lenN (last_text p))].
Proof.
  intros H. unfold decode_connect in *.
  destruct (bind_inv _ _ _ _ _ H) as (? & ? & _ & H1 & ->). clear H.
  destruct (bind_inv _ _ _ _ _ H1) as (? & ? & _ & H2 & ->). clear H1.
  destruct (bind_inv _ _ _ _ _ H2) as (fl & ? & _ & H3 & ->). clear H2.
  destruct (bind_inv _ _ _ _ _ H3) as (? & ? & _ & H4 & ->). clear H3.
  destruct (bind_inv _ _ _ _ _ H4) as (cid & ? & E5 & H5 & ->). clear H4. apply reads_string in E5. rewrite E5.
  destruct (bind_inv _ _ _ _ _ H5) as (user & ? & E6 & H6 & ->). clear H5.
  destruct (bind_inv _ _ _ _ _ H6) as (pass & ? & E7 & H7 & ->). clear H6.
  cbn [plain] in H7. injection H7 as <- _. cbn [reads last_text ConnectPacket_new password user_name client_id].
  destruct (flag_set (b2n fl) 64).
  { destruct (bind_inv _ _ _ _ _ E7) as (s & ? & E8 & E9 & ->). apply reads_string in E8. rewrite E8.
    cbn [plain] in E9. injection E9 as <- _. cbn [reads]. rewrite !app_nil_r.
    change [RNum 2; RField (lenN s)] with ([RNum 2] ++ [RField (lenN s)]). rewrite !app_assoc. eexists. reflexivity. }
  cbn [plain] in E7. injection E7 as <- _.
  destruct (flag_set (b2n fl) 128).
  { destruct (bind_inv _ _ _ _ _ E6) as (s & ? & E8 & E9 & ->). apply reads_string in E8. rewrite E8.
    cbn [plain] in E9. injection E9 as <- _. cbn [reads]. rewrite !app_nil_r.
    change [RNum 2; RField (lenN s)] with ([RNum 2] ++ [RField (lenN s)]). rewrite !app_assoc. eexists. reflexivity. }
  cbn [plain] in E6. injection E6 as <- _. cbn [reads]. rewrite !app_nil_r.
  change [RNum 2; RField (lenN cid)] with ([RNum 2] ++ [RField (lenN cid)]). rewrite !app_assoc. eexists. reflexivity.
Qed.

Lemma reads_payload dbg fb rl bs p r : plain (decode_publish dbg fb rl) bs = POk p r ->
  exists pre, reads (decode_publish dbg fb rl) bs = pre ++ [RField (lenN (last_text p))].
Proof.
  intros H. unfold decode_publish in *.
  destruct (bind_inv _ _ _ _ _ H) as (? & ? & _ & H1 & ->). clear H.
  destruct (bind_inv _ _ _ _ _ H1) as (? & ? & _ & H2 & ->). clear H1.
  destruct (bind_inv _ _ _ _ _ H2) as (? & ? & _ & H3 & ->). clear H2.
  destruct (bind_inv _ _ _ _ _ H3) as (? & ? & _ & H4 & ->). clear H3.
  destruct (bind_inv _ _ _ _ _ H4) as ([n pid] & t & _ & H5 & ->). clear H4.
  destruct (bind_inv _ _ _ _ _ H5) as (body & t2 & E6 & H6 & ->). clear H5.
  cbn [plain] in H6. injection H6 as <- _. cbn [get_bytes plain] in E6.
  destruct (isize_max <? n) eqn:EI; [discriminate|]. destruct (N.ltb_spec (lenN t) n) as [|HL]; [discriminate|].
  injection E6 as <- <-. cbn [reads get_bytes last_text PublishPacket_new message payload]. rewrite EI.
  destruct (N.ltb_spec (lenN t) n); [lia|]. rewrite lenN_takeN, N.min_l by exact HL. rewrite app_nil_r, !app_assoc.
  eexists. reflexivity.
Qed.

Lemma reads_unsubscribe_loop fuel dbg : forall rl acc bs ts r, plain (decode_unsubscribe_loop fuel dbg rl acc) bs = POk ts r ->
  ts = acc \/ exists pre, reads (decode_unsubscribe_loop fuel dbg rl acc) bs = pre ++ [RField (lenN (last ts []))].
Proof.
  induction fuel as [|fuel IH]; intros rl acc bs ts r H; cbn [decode_unsubscribe_loop] in *; [discriminate|].
  destruct (0 <? rl); [|cbn [plain] in H; injection H as -> _; now left]. right.
  destruct (bind_inv _ _ _ _ _ H) as (t & u & E1 & H1 & ->). clear H. apply reads_string in E1. rewrite E1.
  destruct (bind_inv _ _ _ _ _ H1) as (n & u2 & E2 & H2 & ->). clear H1.
  destruct (IH _ _ _ _ _ H2) as [-> |(pre & ->)].
  - rewrite last_last.
    assert (E3 : reads (decode_unsubscribe_loop fuel dbg n (acc ++ [t])) u2 = [] \/
                 exists pre, reads (decode_unsubscribe_loop fuel dbg n (acc ++ [t])) u2 = pre ++ [RField (lenN t)]).
    { clear - H2. revert n u2 H2. induction fuel as [|fuel IH]; intros n u2 H2; [discriminate|]. cbn [decode_unsubscribe_loop] in *.
      destruct (0 <? n); [|now left]. exfalso.
      destruct (bind_inv _ _ _ _ _ H2) as (t1 & u3 & _ & H3 & _). destruct (bind_inv _ _ _ _ _ H3) as (n2 & u4 & _ & H4 & _).
      clear - H4. assert (G : forall f dbg rl a bs ts r, plain (decode_unsubscribe_loop f dbg rl a) bs = POk ts r -> (length a <= length ts)%nat).
      { induction f as [|f IHf]; intros d rl a bs ts r0 H; [discriminate|]. cbn [decode_unsubscribe_loop] in H.
        destruct (0 <? rl); [|cbn [plain] in H; injection H as -> _; lia].
        destruct (bind_inv _ _ _ _ _ H) as (x & y & _ & H1 & _). destruct (bind_inv _ _ _ _ _ H1) as (x2 & y2 & _ & H2 & _).
        apply IHf in H2. rewrite app_length in H2. cbn in H2. lia. }
      apply G in H4. rewrite !app_length in H4. cbn in H4. lia. }
    destruct E3 as [-> |(pre & ->)].
    + rewrite app_nil_r. unfold sub64 in E2. unfold sub64. destruct (lenN t + 2 <=? rl); [|destruct dbg]; cbn [reads];
        exists [RNum 2]; reflexivity.
    + rewrite !app_assoc. eexists. reflexivity.
  - rewrite !app_assoc. eexists. reflexivity.
Qed.

Theorem reads_last fuel dbg bs p r : plain (read_packet fuel dbg) bs = POk p r -> last_text p <> [] ->
  exists pre, reads (read_packet fuel dbg) bs = pre ++ [RField (lenN (last_text p))].
Proof.
  rewrite read_packet_dispatch. intros H HT.
  destruct (bind_inv _ _ _ _ _ H) as (b & t & _ & H1 & ->). clear H.
  destruct (bind_inv _ _ _ _ _ H1) as (n & u & _ & H2 & ->). clear H1.
  assert (K : exists pre, reads (dispatch fuel dbg (b2n b) n) u = pre ++ [RField (lenN (last_text p))]).
  { unfold dispatch in *. cbv zeta in *.
    destruct (_ =? PACKET_TYPE_CONNECT); [now apply reads_connect in H2|].
    destruct (_ =? PACKET_TYPE_PUBLISH); [now apply reads_payload in H2|].
    assert (KA : forall e (f : N -> ControlPacket), (forall i, last_text (f i) = []) ->
      plain (i <- decode_packet_with_packet_id (b2n b) e ;; Ret (f i)) u = POk p r -> False).
    { intros e f Hf HX. destruct (bind_inv _ _ _ _ _ HX) as (i & ? & _ & HY & _). cbn [plain] in HY. injection HY as <- _.
      now apply HT. }
    destruct (_ =? PACKET_TYPE_PUB_ACK); [exfalso; now apply (KA 0x40 PubAck)|].
    destruct (_ =? PACKET_TYPE_PUB_REC); [exfalso; now apply (KA 0x50 PubRec)|].
    destruct (_ =? PACKET_TYPE_PUB_REL); [exfalso; now apply (KA 0x62 PubRel)|].
    destruct (_ =? PACKET_TYPE_PUB_COMP); [exfalso; now apply (KA 0x70 PubComp)|].
    destruct (_ =? PACKET_TYPE_SUBSCRIBE).
    { exfalso. unfold decode_subscribe in H2. destruct (bind_inv _ _ _ _ _ H2) as (? & ? & _ & H3 & _).
      destruct (bind_inv _ _ _ _ _ H3) as (rl & ? & _ & H4 & _). destruct (rl =? 0); [discriminate|].
      destruct (bind_inv _ _ _ _ _ H4) as (? & ? & _ & H5 & _). cbn [plain] in H5. injection H5 as <- _. now apply HT. }
    destruct (_ =? PACKET_TYPE_UNSUBSCRIBE).
    - unfold decode_unsubscribe in *.
      destruct (bind_inv _ _ _ _ _ H2) as (? & ? & _ & H3 & ->). destruct (bind_inv _ _ _ _ _ H3) as (rl & ? & _ & H4 & ->).
      destruct (rl =? 0); [discriminate|].
      destruct (bind_inv _ _ _ _ _ H4) as (ts & ? & H5 & H6 & ->). cbn [plain] in H6. injection H6 as <- _. cbn [reads last_text] in *.
      rewrite app_nil_r. destruct (reads_unsubscribe_loop _ _ _ _ _ _ _ H5) as [-> |(pre & ->)]; [now contradict HT|].
      rewrite !app_assoc. eexists. reflexivity.
    - destruct (_ =? PACKET_TYPE_PING_REQ); [cbn [plain] in H2; injection H2 as <- _; now contradict HT|].
      destruct (_ =? PACKET_TYPE_DISCONNECT); [cbn [plain] in H2; injection H2 as <- _; now contradict HT|discriminate]. }
  destruct K as (pre & ->). rewrite !app_assoc. eexists. reflexivity.
Qed.

(** The requests for a PUBLISH: numbers, the topic, the packet id, the payload. *)
Lemma reads_publish_parts fuel dbg bs p r : plain (read_packet fuel dbg) bs = POk (Publish p) r ->
  exists a c, reads (read_packet fuel dbg) bs
              = a ++ RField (lenN (topic (message p))) :: c ++ [RField (lenN (payload (message p)))]
    /\ total c = lenN (id_bytes (pub_packet_id p)).
Proof.
  rewrite read_packet_dispatch. intros H.
  destruct (bind_inv _ _ _ _ _ H) as (b & t & _ & H1 & ->). clear H.
  destruct (bind_inv _ _ _ _ _ H1) as (n & u & _ & H2 & ->). clear H1.
  assert (K : exists a c, reads (dispatch fuel dbg (b2n b) n) u
     = a ++ RField (lenN (topic (message p))) :: c ++ [RField (lenN (payload (message p)))]
     /\ total c = lenN (id_bytes (pub_packet_id p))).
  { unfold dispatch in *. cbv zeta in *.
    destruct (_ =? PACKET_TYPE_CONNECT).
    { exfalso. unfold decode_connect in H2. repeat (destruct (bind_inv _ _ _ _ _ H2) as (? & ? & _ & H3 & _); clear H2; rename H3 into H2).
      discriminate. }
    destruct (_ =? PACKET_TYPE_PUBLISH).
    { unfold decode_publish in *. 
      destruct (bind_inv _ _ _ _ _ H2) as (q & ? & _ & H3 & ->). clear H2.
      destruct (bind_inv _ _ _ _ _ H3) as (tp & u1 & E1 & H4 & ->). clear H3. apply reads_string in E1. rewrite E1.
      destruct (bind_inv _ _ _ _ _ H4) as (n1 & u2 & E2 & H5 & ->). clear H4.
      destruct (bind_inv _ _ _ _ _ H5) as (n2 & u3 & E3 & H6 & ->). clear H5.
      destruct (bind_inv _ _ _ _ _ H6) as ([n3 pid] & u4 & E4 & H7 & ->). clear H6.
      destruct (bind_inv _ _ _ _ _ H7) as (body & u5 & E5 & H8 & ->). clear H7.
      cbn [plain] in H8. injection H8 as <- _. cbn [PublishPacket_new message topic payload pub_packet_id].
      assert (R : forall i j w, reads (sub64 dbg i j) w = []).
      { intros i j w. unfold sub64. destruct (j <=? i); [|destruct dbg]; reflexivity. }
      rewrite !R. cbn [app reads].
      assert (E6 : reads (get_bytes n3) u4 = [RField (lenN body)]).
      { cbn [get_bytes plain reads] in *. destruct (isize_max <? n3); [discriminate|].
        destruct (N.ltb_spec (lenN u4) n3) as [|HL]; [discriminate|]. injection E5 as <- _. now rewrite lenN_takeN, N.min_l. }
      rewrite E6. exists (reads (QoS_from_bits (N.shiftr (N.land (b2n b) 6) 1)) u ++ [RNum 2]).
      destruct (qos_gt0 q).
      - destruct (bind_inv _ _ _ _ _ E4) as (n4 & u6 & _ & E7 & ->). destruct (bind_inv _ _ _ _ _ E7) as (i & u7 & _ & E8 & ->).
        cbn [plain] in E8. injection E8 as <- <- _. rewrite R.
        exists [RNum 2]. split; [|reflexivity]. rewrite <- !app_assoc. cbn [app].
        destruct u6 as [|? [|? ?]]; reflexivity.
      - cbn [plain] in E4. injection E4 as <- <- _. exists []. split; [|reflexivity]. cbn [reads app]. now rewrite <- !app_assoc. }
    exfalso.
    assert (KA : forall e (f : N -> ControlPacket), (forall i, f i <> Publish p) ->
      plain (i <- decode_packet_with_packet_id (b2n b) e ;; Ret (f i)) u = POk (Publish p) r -> False).
    { intros e f Hf HX. destruct (bind_inv _ _ _ _ _ HX) as (i & ? & _ & HY & _). cbn [plain] in HY. injection HY as HY _.
      now apply (Hf i). }
    destruct (_ =? PACKET_TYPE_PUB_ACK); [now apply (KA 0x40 PubAck)|].
    destruct (_ =? PACKET_TYPE_PUB_REC); [now apply (KA 0x50 PubRec)|].
    destruct (_ =? PACKET_TYPE_PUB_REL); [now apply (KA 0x62 PubRel)|].
    destruct (_ =? PACKET_TYPE_PUB_COMP); [now apply (KA 0x70 PubComp)|].
    destruct (_ =? PACKET_TYPE_SUBSCRIBE).
    { unfold decode_subscribe in H2. destruct (bind_inv _ _ _ _ _ H2) as (? & ? & _ & H3 & _).
      destruct (bind_inv _ _ _ _ _ H3) as (rl & ? & _ & H4 & _). destruct (rl =? 0); [discriminate|].
      destruct (bind_inv _ _ _ _ _ H4) as (? & ? & _ & H5 & _). discriminate. }
    destruct (_ =? PACKET_TYPE_UNSUBSCRIBE).
    { unfold decode_unsubscribe in H2. destruct (bind_inv _ _ _ _ _ H2) as (? & ? & _ & H3 & _).
      destruct (bind_inv _ _ _ _ _ H3) as (rl & ? & _ & H4 & _). destruct (rl =? 0); [discriminate|].
      destruct (bind_inv _ _ _ _ _ H4) as (? & ? & _ & H5 & _). discriminate. }
    destruct (_ =? PACKET_TYPE_PING_REQ); [discriminate|]. destruct (_ =? PACKET_TYPE_DISCONNECT); discriminate. }
  destruct K as (a & c & -> & Hc). exists (reads get_u8 bs ++ reads decode_remaining_length t ++ a), c.
  split; [|exact Hc]. now rewrite <- !app_assoc.
Qed.

(** ** Reading a sequence of packets *)

Lemma reads_num_pos {A} (m : rd A) : forall bs k, In (RNum k) (reads m bs) -> 1 <= k.
Proof.
  induction m as [a|e| | |k0 IH|k0 IH|size k0 IH]; intros bs k; cbn [reads]; try (intros []; fail).
  - intros [H|H]; [injection H as <-; lia|]. destruct bs; [destruct H|]. eauto.
  - intros [H|H]; [injection H as <-; lia|]. destruct bs as [|? [|? ?]]; try (destruct H; fail). eauto.
  - intros [H|H]; [discriminate|]. destruct (isize_max <? size); [destruct H|]. destruct (lenN bs <? size); [destruct H|]. eauto.
Qed.

(** [x]: the end of one of the packets [ps], sent as [bss], that ends in a text or payload. *)
Definition text_ends (ps : list ControlPacket) (bss : list bytes) (x : N) : Prop :=
  exists ps1 p ps2 bss1 bs bss2, ps = ps1 ++ p :: ps2 /\ bss = bss1 ++ bs :: bss2 /\ length ps1 = length bss1
    /\ last_text p <> [] /\ x = lenN (concat bss1) + lenN bs.

Lemma text_ends_cons p ps bs bss x : text_ends (p :: ps) (bs :: bss) x ->
  (x = lenN bs /\ last_text p <> []) \/ (lenN bs <= x /\ text_ends ps bss (x - lenN bs)).
Proof.
  intros (ps1 & q & ps2 & bss1 & b & bss2 & E1 & E2 & HL & HT & HX).
  destruct ps1 as [|q0 ps1], bss1 as [|b0 bss1]; try discriminate; cbn [app] in *.
  - apply cons_inj in E1, E2. destruct E1 as (<- & _), E2 as (<- & _). left. split; [|exact HT]. rewrite HX. cbn [concat]. rewrite lenN_nil. lia.
  - apply cons_inj in E1, E2. destruct E1 as (<- & ->), E2 as (<- & ->). right. cbn [concat] in HX. rewrite lenN_app in HX.
    split; [lia|]. exists ps1, q, ps2, bss1, b, bss2. cbn [length] in HL. repeat split; auto; lia.
Qed.

Lemma text_ends_pos ps : forall bss x, Forall2 sent_as ps bss -> text_ends ps bss x -> 0 < x.
Proof.
  induction ps as [|p ps IH]; intros bss x HF HT.
  - destruct HT as (ps1 & ? & ? & ? & ? & ? & E & _). destruct ps1; discriminate.
  - inversion HF as [|? bs ? bss' HS HF']; subst.
    assert (0 < lenN bs) by (destruct HS as (_ & _ & h & _ & _ & ->); rewrite lenN_cons; lia).
    apply text_ends_cons in HT. destruct HT as [(-> & _)|(HX & _)]; lia.
Qed.

Lemma run_fits_quiet {A} (m : rd A) st a u r : wf st ->
  pending st = u ++ r -> plain m (pending st) = POk a r -> lenN u <= cap (rbuf st) ->
  Forall (eq false) (given_back m st) ->
  exists st', run m st = ROk a st' /\ pending st' = r /\ wf st' /\ ending (rsk st') = ending (rsk st)
    /\ cap (rbuf st') = cap (rbuf st) - lenN u
    /\ grants (rsk st') = grants (rsk st) /\ reuse (rsk st') = reuse (rsk st).
Proof.
  intros W Hp H Hc HF. destruct (run_eq m st W) as (HE & HG). rewrite (lrun_false _ _ _ _ _ _ HF) in HE.
  destruct (lrun_fits (ending (rsk st)) m (pending st) a r (cap (rbuf st)) (grants (rsk st)) [] H) as (c' & HF' & HB & HK).
  { rewrite Hp, lenN_app. lia. }
  rewrite HF' in HE. rewrite Hp, lenN_app in HB, HK. specialize (HK eq_refl).
  destruct (run m st) as [a' st'| | | | |]; try discriminate. injection HE as -> H1 H2 H3.
  destruct HG as (W' & E' & U'). exists st'. repeat split; auto. lia.
Qed.

Lemma given_back_quiet {A} (m : rd A) st : Forall (eq false) (emptied m st) -> Forall (eq false) (given_back m st).
Proof. unfold given_back. destruct (reuse (rsk st)); [auto|constructor]. Qed.

Lemma middle_inv {A} (x y : A) pre post pre' : pre ++ x :: post = pre' ++ [y] -> x <> y -> exists post', post = post' ++ [y] /\ pre' = pre ++ x :: post'.
Proof.
  intros E HN. destruct post as [|z post _] using rev_ind.
  - apply app_inj_tail in E. destruct E as (_ & ->). congruence.
  - rewrite app_comm_cons, app_assoc in E. apply app_inj_tail in E. destruct E as (<- & ->). eauto.
Qed.

(** As [read_all_sent], with the capacity left known exactly in all versions of the bytes library, if no read
    ends elsewhere than behind a text. *)
Theorem read_all_quiet dbg ps : forall bss st rest, wf st -> Forall2 sent_as ps bss ->
  pending st = concat bss ++ rest -> rest <> [] -> lenN (concat bss) < cap (rbuf st) ->
  (forall x, In x (rel_ends st) -> 0 < x -> x < cap (rbuf st) -> x < lenN (pending st) -> text_ends ps bss x) ->
  exists st', wf st' /\ pending st' = rest /\ ending (rsk st') = ending (rsk st)
    /\ cap (rbuf st') = cap (rbuf st) - lenN (concat bss)
    /\ (forall x, In x (rel_ends st') -> 0 < x -> x < cap (rbuf st') -> x < lenN rest -> False)
    /\ read_all dbg st = let '(qs, e) := read_all dbg st' in (ps ++ qs, e).
Proof.
  induction ps as [|p ps IH]; intros bss st rest W HF Hp HR Hc HE.
  - inversion HF; subst. cbn [concat app] in *. rewrite lenN_nil in *. exists st. repeat split; auto; [lia| |].
    + intros x H1 H2 H3 H4. rewrite <- Hp in H4. destruct (HE x H1 H2 H3 H4) as (ps1 & ? & ? & ? & ? & ? & E & _). destruct ps1; discriminate.
    + destruct (read_all dbg st); reflexivity.
  - inversion HF as [|? bs ? bss' HS HF']; subst. cbn [concat] in *. rewrite <- app_assoc in Hp. rewrite lenN_app in *.
    assert (HD : plain (read_packet (S (length (pending st))) dbg) (pending st) = POk p (concat bss' ++ rest)).
    { fold (decode dbg (pending st)). rewrite Hp. apply decode_sent. exact HS. }
    assert (HRp : 0 < lenN rest) by (destruct rest; [congruence|rewrite lenN_cons; lia]).
    assert (HPl : lenN (pending st) = lenN bs + lenN (concat bss') + lenN rest) by (rewrite Hp, !lenN_app; lia).
    assert (HTot : total (reads (read_packet (S (length (pending st))) dbg) (pending st)) = lenN bs).
    { pose proof (total_reads _ _ _ _ HD) as HT. rewrite lenN_app in HT. lia. }
    assert (HQ : quiet (read_packet (S (length (pending st))) dbg) st).
    { intros pre k post E _. rewrite E, total_app, total_cons in HTot. cbn [req_size] in HTot.
      assert (Hk : 1 <= k) by (eapply reads_num_pos; rewrite E; apply in_elt).
      split; [lia|]. split; [lia|]. intros Hin. apply HE in Hin; [|lia|lia|lia]. apply text_ends_cons in Hin.
      destruct Hin as [(HX & HT)|(HX & HT)].
      - destruct (reads_last _ _ _ _ _ HD HT) as (pre' & E'). rewrite E in E'.
        apply middle_inv in E'; [|discriminate]. destruct E' as (post' & -> & _).
        rewrite total_app, total_cons in HTot. cbn [req_size] in HTot.
        assert (0 < lenN (last_text p)) by (destruct (last_text p); [congruence|rewrite lenN_cons; lia]). lia.
      - apply (text_ends_pos _ _ _ HF') in HT. lia. }
    destruct (quiet_run _ st W HQ) as (HEm & HMv).
    destruct (run_fits_quiet _ st p bs _ W Hp HD ltac:(lia) (given_back_quiet _ _ HEm)) as (st1 & HRun & Hp1 & W1 & He1 & Hc1 & _).
    specialize (HMv p st1 HRun).
    replace (lenN (pending st) - lenN (pending st1)) with (lenN bs) in HMv by (rewrite Hp1, lenN_app; lia).
    destruct (IH bss' st1 rest W1 HF' Hp1 HR ltac:(lia)) as (st2 & W2 & Hp2 & He2 & Hc2 & HE2 & HR2).
    { intros x H1 H2 H3 H4. rewrite Hp1, lenN_app in H4. specialize (HMv x ltac:(lia) ltac:(lia) H1).
      apply HE in HMv; [|lia|lia|lia]. apply text_ends_cons in HMv. destruct HMv as [(HX & _)|(_ & HT)]; [lia|].
      now replace (x + lenN bs - lenN bs) with x in HT by lia. }
    exists st2. split; [exact W2|]. split; [exact Hp2|]. split; [congruence|]. split; [lia|]. split; [exact HE2|].
    rewrite (read_all_step dbg st W). unfold stream_read_packet. rewrite HRun.
    rewrite HR2. destruct (read_all dbg st2) as [qs e]. reflexivity.
Qed.
