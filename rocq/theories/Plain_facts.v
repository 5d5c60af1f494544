(** Facts about reader programs on plain byte lists: sequencing, extension, fuel, inversion. *)
From Verif Require Import Base Base_facts Utf8 Packets Decoder ReadStream Plain ReadStream_facts Spec_wire.
Open Scope N_scope.
Ltac Zify.zify_post_hook ::= Z.div_mod_to_equations.

Definition pbind {A B} (r : pres A) (f : A -> bytes -> pres B) : pres B :=
  match r with
  | POk a rest => f a rest
  | PErr e => PErr e
  | PPanic => PPanic
  | PMore l => PMore l
  | PNoFuel => PNoFuel
  end.

Lemma plain_bind {A B} (m : rd A) (f : A -> rd B) : forall bs,
  plain (bind m f) bs = pbind (plain m bs) (fun a r => plain (f a) r).
Proof.
  induction m as [a|e| | |k IH|k IH|size k IH]; intros bs; cbn -[isize_max]; try reflexivity.
  - destruct bs; [reflexivity|apply IH].
  - destruct bs as [|? [|? ?]]; try reflexivity. apply IH.
  - destruct (isize_max <? size); [reflexivity|].
    destruct (lenN bs <? size); [reflexivity|]. apply IH.
Qed.

(** ** Extension by later bytes *)

Lemma plain_ext {A} (m : rd A) : forall bs s,
  match plain m bs with
  | POk a r => plain m (bs ++ s) = POk a (r ++ s)
  | PErr e => plain m (bs ++ s) = PErr e
  | PPanic => plain m (bs ++ s) = PPanic
  | PNoFuel => plain m (bs ++ s) = PNoFuel
  | PMore _ => True
  end.
Proof.
  induction m as [a|e| | |k IH|k IH|size k IH]; intros bs s; cbn -[isize_max]; try reflexivity.
  - destruct bs as [|b r]; [exact I|]. apply IH.
  - destruct bs as [|b1 [|b0 r]]; try exact I. apply IH.
  - destruct (isize_max <? size); [reflexivity|].
    destruct (N.ltb_spec (lenN bs) size) as [H|H]; [exact I|].
    rewrite lenN_app. destruct (N.ltb_spec (lenN bs + lenN s) size) as [H'|_]; [lia|].
    rewrite takeN_app_le, dropN_app_le by exact H. apply IH.
Qed.

Lemma plain_suffix {A} (m : rd A) : forall bs a r,
  plain m bs = POk a r -> exists used, bs = used ++ r.
Proof.
  induction m as [a0|e| | |k IH|k IH|size k IH]; intros bs a r H; cbn -[isize_max] in H; try discriminate.
  - injection H as _ <-. now exists [].
  - destruct bs as [|b t]; [discriminate|].
    destruct (IH _ _ _ _ H) as [u ->]. now exists (b :: u).
  - destruct bs as [|b1 [|b0 t]]; try discriminate.
    destruct (IH _ _ _ _ H) as [u ->]. now exists (b1 :: b0 :: u).
  - destruct (isize_max <? size); [discriminate|].
    destruct (lenN bs <? size); [discriminate|].
    destruct (IH _ _ _ _ H) as [u Hu]. exists (takeN size bs ++ u).
    rewrite <- app_assoc, <- Hu. symmetry. apply takeN_dropN.
Qed.

(** What was left unread does not influence a successful read. *)
Lemma plain_used {A} (m : rd A) : forall used r a,
  plain m (used ++ r) = POk a r -> forall s, plain m (used ++ s) = POk a s.
Proof.
  induction m as [a0|e| | |k IH|k IH|size k IH]; intros used r a H s; cbn -[isize_max] in H; try discriminate.
  - injection H as -> H.
    assert (used = []) as ->.
    { apply (f_equal (@length _)) in H. rewrite app_length in H. destruct used; [reflexivity|cbn in H; lia]. }
    reflexivity.
  - destruct used as [|b u]; cbn in *.
    + destruct r as [|b t]; [discriminate|].
      destruct (plain_suffix _ _ _ _ H) as [u Hu].
      exfalso. apply (f_equal (@length _)) in Hu. rewrite app_length in Hu. cbn in Hu. lia.
    + eapply IH. exact H.
  - destruct used as [|b1 [|b0 u]]; cbn in *.
    + destruct r as [|b1 [|b0 t]]; try discriminate.
      destruct (plain_suffix _ _ _ _ H) as [u Hu].
      exfalso. apply (f_equal (@length _)) in Hu. rewrite app_length in Hu. cbn in Hu. lia.
    + destruct r as [|b0 t]; try discriminate.
      destruct (plain_suffix _ _ _ _ H) as [u Hu].
      exfalso. apply (f_equal (@length _)) in Hu. rewrite app_length in Hu. cbn in Hu. lia.
    + eapply IH. exact H.
  - cbn -[isize_max]. destruct (isize_max <? size); [discriminate|].
    rewrite lenN_app in *.
    destruct (N.ltb_spec (lenN used + lenN r) size) as [|Hl]; [discriminate|].
    destruct (N.le_gt_cases size (lenN used)) as [Hu|Hu].
    + rewrite takeN_app_le, dropN_app_le in H by exact Hu.
      destruct (N.ltb_spec (lenN used + lenN s) size) as [|_]; [lia|].
      rewrite takeN_app_le, dropN_app_le by exact Hu. eapply IH. exact H.
    + destruct (plain_suffix _ _ _ _ H) as [u Hu'].
      exfalso. apply (f_equal lenN) in Hu'. rewrite lenN_dropN, !lenN_app in Hu'. lia.
Qed.

(** A proper prefix of what a read consumes is not enough. *)
Lemma plain_prefix {A} (m : rd A) used r a pre t :
  plain m (used ++ r) = POk a r -> used = pre ++ t -> t <> [] ->
  exists l, plain m pre = PMore l.
Proof.
  intros H -> Ht. rewrite <- app_assoc in H.
  pose proof (plain_ext m pre (t ++ r)) as HX.
  destruct (plain m pre) as [a' r'|e| |l|]; try congruence; [|eauto].
  rewrite H in HX. injection HX as _ HX.
  apply (f_equal (@length _)) in HX. rewrite !app_length in HX.
  destruct t; [congruence|]. cbn in HX. lia.
Qed.

(** ** Fuel *)

(** [le_rd m m']: [m'] behaves as [m] except where [m] ran out of fuel. *)
Inductive le_rd {A} : rd A -> rd A -> Prop :=
| le_nofuel m : le_rd NoFuel m
| le_ret a : le_rd (Ret a) (Ret a)
| le_err e : le_rd (Err e) (Err e)
| le_boom : le_rd Boom Boom
| le_u8 k k' : (forall b, le_rd (k b) (k' b)) -> le_rd (GetU8 k) (GetU8 k')
| le_u16 k k' : (forall n, le_rd (k n) (k' n)) -> le_rd (GetU16 k) (GetU16 k')
| le_bytes size k k' : (forall bs, le_rd (k bs) (k' bs)) -> le_rd (GetBytes size k) (GetBytes size k').

Lemma le_refl {A} (m : rd A) : le_rd m m.
Proof. induction m; constructor; auto. Qed.

Lemma le_bind {A B} (m m' : rd A) (f f' : A -> rd B) :
  le_rd m m' -> (forall a, le_rd (f a) (f' a)) -> le_rd (bind m f) (bind m' f').
Proof.
  intros H Hf. induction H; cbn; try constructor; auto.
Qed.

Lemma le_trans {A} (m1 m2 m3 : rd A) : le_rd m1 m2 -> le_rd m2 m3 -> le_rd m1 m3.
Proof.
  intros H. revert m3. induction H; intros m3 H3; inversion H3; subst; constructor; auto.
Qed.

Lemma le_plain {A} (m m' : rd A) : le_rd m m' -> forall bs,
  plain m bs <> PNoFuel -> plain m' bs = plain m bs.
Proof.
  intros H. induction H; intros bs HN; cbn -[isize_max] in *; try reflexivity; try congruence.
  - destruct bs; [reflexivity|]. auto.
  - destruct bs as [|? [|? ?]]; try reflexivity. auto.
  - destruct (isize_max <? size); [reflexivity|]. destruct (lenN bs <? size); [reflexivity|]. auto.
Qed.

Lemma sub_loop_mono dbg fuel : forall fuel' rl acc, (fuel <= fuel')%nat ->
  le_rd (decode_subscribe_loop fuel dbg rl acc) (decode_subscribe_loop fuel' dbg rl acc).
Proof.
  induction fuel as [|fuel IH]; intros fuel' rl acc Hf; [apply le_nofuel|].
  destruct fuel' as [|fuel']; [lia|]. cbn [decode_subscribe_loop].
  destruct (0 <? rl); [|apply le_refl].
  apply le_bind; [apply le_refl|]. intros t.
  apply le_bind; [apply le_refl|]. intros q.
  destruct (2 <? b2n q); [apply le_refl|].
  apply le_bind; [apply le_refl|]. intros rl'.
  apply le_bind; [apply le_refl|]. intros q'. apply IH. lia.
Qed.

Lemma unsub_loop_mono dbg fuel : forall fuel' rl acc, (fuel <= fuel')%nat ->
  le_rd (decode_unsubscribe_loop fuel dbg rl acc) (decode_unsubscribe_loop fuel' dbg rl acc).
Proof.
  induction fuel as [|fuel IH]; intros fuel' rl acc Hf; [apply le_nofuel|].
  destruct fuel' as [|fuel']; [lia|]. cbn [decode_unsubscribe_loop].
  destruct (0 <? rl); [|apply le_refl].
  apply le_bind; [apply le_refl|]. intros t.
  apply le_bind; [apply le_refl|]. intros rl'. apply IH. lia.
Qed.

Lemma read_packet_mono dbg fuel fuel' : (fuel <= fuel')%nat ->
  le_rd (read_packet fuel dbg) (read_packet fuel' dbg).
Proof.
  intros Hf. unfold read_packet.
  apply le_bind; [apply le_refl|]. intros b.
  apply le_bind; [apply le_refl|]. intros rl.
  repeat (match goal with |- le_rd (if ?c then _ else _) _ => destruct c; [try apply le_refl|] end).
  - unfold decode_subscribe. apply le_bind; [apply le_refl|]. intros i.
    apply le_bind; [apply le_refl|]. intros rl'. destruct (rl' =? 0); [apply le_refl|].
    apply le_bind; [now apply sub_loop_mono|]. intros; apply le_refl.
  - unfold decode_unsubscribe. apply le_bind; [apply le_refl|]. intros i.
    apply le_bind; [apply le_refl|]. intros rl'. destruct (rl' =? 0); [apply le_refl|].
    apply le_bind; [now apply unsub_loop_mono|]. intros; apply le_refl.
  - apply le_refl.
Qed.

(** ** Elementary readers *)

Lemma plain_get_u8 bs : plain get_u8 bs = match bs with b :: r => POk b r | [] => PMore [] end.
Proof. destruct bs; reflexivity. Qed.

Lemma plain_get_u16 bs :
  plain get_u16 bs = match bs with b1 :: b0 :: r => POk (b2n b1 * 256 + b2n b0) r | _ => PMore bs end.
Proof. destruct bs as [|? [|? ?]]; reflexivity. Qed.

Lemma plain_get_bytes size bs :
  plain (get_bytes size) bs =
  if isize_max <? size then PPanic
  else if lenN bs <? size then PMore bs
  else POk (takeN size bs) (dropN size bs).
Proof. reflexivity. Qed.

Lemma be16_val n : n < 65536 -> b2n (n2b (n / 256)) * 256 + b2n (n2b n) = n.
Proof. intros H. rewrite !b2n_n2b_mod. lia. Qed.

Lemma be16_inv b1 b0 : be16 (b2n b1 * 256 + b2n b0) = [b1; b0].
Proof.
  pose proof (b2n_lt b1). pose proof (b2n_lt b0). unfold be16.
  replace ((b2n b1 * 256 + b2n b0) / 256) with (b2n b1) by lia.
  rewrite n2b_b2n. f_equal. f_equal.
  rewrite <- n2b_mod. replace ((b2n b1 * 256 + b2n b0) mod 256) with (b2n b0) by lia.
  apply n2b_b2n.
Qed.

Lemma isize_max_big n : n < 2 ^ 62 -> (isize_max <? n) = false.
Proof. unfold isize_max. intros H. apply N.ltb_ge. lia. Qed.

Lemma get_u16_ok bs n r : plain get_u16 bs = POk n r <-> bs = be16 n ++ r /\ n < 65536.
Proof.
  rewrite plain_get_u16. split.
  - destruct bs as [|b1 [|b0 t]]; try discriminate. intros H. injection H as <- <-.
    pose proof (b2n_lt b1). pose proof (b2n_lt b0). rewrite be16_inv. split; [reflexivity|lia].
  - intros [-> Hn]. cbn [be16 app]. now rewrite be16_val.
Qed.

Lemma field_app s r : field s ++ r = be16 (lenN s) ++ s ++ r.
Proof. unfold field. now rewrite <- app_assoc. Qed.

Lemma lenN_field s : lenN (field s) = 2 + lenN s.
Proof. unfold field. rewrite lenN_app. reflexivity. Qed.

Lemma get_string_ok bs s r :
  plain get_string bs = POk s r <->
  bs = field s ++ r /\ lenN s < 65536 /\ utf8_ok s = true.
Proof.
  rewrite field_app. unfold get_string, utf8_ok. rewrite plain_bind. split.
  - destruct (plain get_u16 bs) as [n t| | | |] eqn:E; try discriminate.
    apply get_u16_ok in E. destruct E as [-> Hn]. cbn [pbind].
    rewrite plain_bind, plain_get_bytes, isize_max_big by lia.
    destruct (N.ltb_spec (lenN t) n) as [|Hl]; [discriminate|]. cbn [pbind].
    destruct (from_utf8 (takeN n t)) eqn:EU; [discriminate|].
    cbn [plain]. intros H. injection H as <- <-.
    rewrite EU. assert (HL : lenN (takeN n t) = n) by (rewrite lenN_takeN; lia).
    rewrite HL, takeN_dropN. auto.
  - intros (-> & Hs & HU).
    destruct (plain get_u16 (be16 (lenN s) ++ s ++ r)) as [n t| | | |] eqn:E.
    2-5: exfalso; assert (E' : plain get_u16 (be16 (lenN s) ++ s ++ r) = POk (lenN s) (s ++ r))
           by (apply get_u16_ok; auto); congruence.
    assert (E' : plain get_u16 (be16 (lenN s) ++ s ++ r) = POk (lenN s) (s ++ r))
      by (apply get_u16_ok; auto).
    rewrite E' in E. injection E as <- <-. cbn [pbind].
    rewrite plain_bind, plain_get_bytes, isize_max_big by lia.
    rewrite lenN_app. destruct (N.ltb_spec (lenN s + lenN r) (lenN s)); [lia|].
    cbn [pbind]. rewrite takeN_lenN_app, dropN_lenN_app.
    destruct (from_utf8 s); [discriminate|]. reflexivity.
Qed.

(** All results of get_string *)
Lemma get_string_cases bs :
  (exists s r, plain get_string bs = POk s r /\ bs = field s ++ r /\ lenN s < 65536
               /\ utf8_ok s = true)
  \/ (exists s r i, plain get_string bs = PErr (ErrUtf8 (i + 1)) /\ bs = field s ++ r
                    /\ lenN s < 65536 /\ from_utf8 s = Some i)
  \/ (exists l, plain get_string bs = PMore l).
Proof.
  destruct (plain get_string bs) as [s r|e| |l|] eqn:E.
  - left. exists s, r. split; [reflexivity|]. now apply get_string_ok.
  - right; left. unfold get_string in E. rewrite plain_bind in E.
    destruct (plain get_u16 bs) as [n t|e'| | |] eqn:E1; try discriminate.
    + apply get_u16_ok in E1. destruct E1 as [-> Hn]. cbn [pbind] in E.
      rewrite plain_bind, plain_get_bytes, isize_max_big in E by lia.
      destruct (N.ltb_spec (lenN t) n) as [|Hl]; [discriminate|]. cbn [pbind] in E.
      destruct (from_utf8 (takeN n t)) as [i|] eqn:EU; [|discriminate].
      cbn in E. injection E as <-.
      assert (HL : lenN (takeN n t) = n) by (rewrite lenN_takeN; lia).
      exists (takeN n t), (dropN n t), i. rewrite field_app, HL, takeN_dropN. auto.
    + rewrite plain_get_u16 in E1. destruct bs as [|? [|? ?]]; discriminate.
  - exfalso. unfold get_string in E. rewrite plain_bind in E.
    destruct (plain get_u16 bs) as [n t|e'| | |] eqn:E1; try discriminate.
    + apply get_u16_ok in E1. destruct E1 as [-> Hn]. cbn [pbind] in E.
      rewrite plain_bind, plain_get_bytes, isize_max_big in E by lia.
      destruct (N.ltb_spec (lenN t) n) as [|Hl]; [discriminate|]. cbn [pbind] in E.
      destruct (from_utf8 (takeN n t)) as [i|] eqn:EU; discriminate.
    + rewrite plain_get_u16 in E1. destruct bs as [|? [|? ?]]; discriminate.
  - right; right. eauto.
  - exfalso. unfold get_string in E. rewrite plain_bind in E.
    destruct (plain get_u16 bs) as [n t|e'| | |] eqn:E1; try discriminate.
    + apply get_u16_ok in E1. destruct E1 as [-> Hn]. cbn [pbind] in E.
      rewrite plain_bind, plain_get_bytes, isize_max_big in E by lia.
      destruct (N.ltb_spec (lenN t) n) as [|Hl]; [discriminate|]. cbn [pbind] in E.
      destruct (from_utf8 (takeN n t)) as [i|] eqn:EU; discriminate.
    + rewrite plain_get_u16 in E1. destruct bs as [|? [|? ?]]; discriminate.
Qed.

(** ** The payload loops never exhaust the fuel *)

Lemma sub64_cases dbg a b :
  (b <= a /\ sub64 dbg a b = Ret (a - b))
  \/ (a < b /\ dbg = true /\ sub64 dbg a b = Boom)
  \/ (a < b /\ dbg = false /\ sub64 dbg a b = Ret (a + 2 ^ 64 - b)).
Proof.
  unfold sub64. destruct (N.leb_spec b a); [auto|]. destruct dbg; auto.
Qed.

Lemma sub_loop_fuel dbg fuel : forall rl acc bs, (length bs < fuel)%nat ->
  plain (decode_subscribe_loop fuel dbg rl acc) bs <> PNoFuel.
Proof.
  induction fuel as [|fuel IH]; intros rl acc bs Hf; [lia|].
  cbn [decode_subscribe_loop]. destruct (0 <? rl); [|discriminate].
  rewrite plain_bind.
  destruct (get_string_cases bs) as [(s & r & -> & Hb & _)|[(s & r & i & -> & _)|(l & ->)]];
    cbn [pbind]; try discriminate.
  rewrite plain_bind, plain_get_u8. destruct r as [|q r]; cbn [pbind]; [discriminate|].
  destruct (2 <? b2n q) eqn:Eq; [discriminate|].
  destruct (sub64_cases dbg rl (lenN s + 3)) as [(_ & ->)|[(_ & _ & ->)|(_ & _ & ->)]];
    cbn [bind]; try discriminate; rewrite plain_bind.
  all: unfold QoS_from_bits; apply N.ltb_ge in Eq;
    destruct (b2n q =? 0), (b2n q =? 1), (b2n q =? 2); cbn [plain pbind]; try discriminate;
    apply IH; rewrite Hb in Hf; rewrite field_app in Hf; cbn [be16 app length] in Hf; rewrite app_length in Hf; cbn in Hf; lia.
Qed.

Lemma unsub_loop_fuel dbg fuel : forall rl acc bs, (length bs < fuel)%nat ->
  plain (decode_unsubscribe_loop fuel dbg rl acc) bs <> PNoFuel.
Proof.
  induction fuel as [|fuel IH]; intros rl acc bs Hf; [lia|].
  cbn [decode_unsubscribe_loop]. destruct (0 <? rl); [|discriminate].
  rewrite plain_bind.
  destruct (get_string_cases bs) as [(s & r & -> & Hb & _)|[(s & r & i & -> & _)|(l & ->)]];
    cbn [pbind]; try discriminate.
  destruct (sub64_cases dbg rl (lenN s + 2)) as [(_ & ->)|[(_ & _ & ->)|(_ & _ & ->)]];
    cbn [bind]; try discriminate;
    apply IH; rewrite Hb in Hf; rewrite field_app in Hf; cbn [be16 app length] in Hf; rewrite app_length in Hf; lia.
Qed.
