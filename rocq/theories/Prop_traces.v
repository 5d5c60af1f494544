(** C134: the trace records of the strings read *)
From Verif Require Import Base Base_facts Utf8 Packets Decoder ReadStream Plain Plain_facts ReadStream_facts Conn Spec_utf8 Spec_wire Utf8_facts
  Decoder_facts Conn_facts Logging Traces.
Open Scope N_scope.

(** ** Specification *)

(** The records of one string of [n] bytes, the texts of mqtt_bytes_stream.rs:199-202. *)
Definition asking : entry := {| lvl := Trace; said := str "Parsing string size" |}.

Definition size_told (n : N) : entry :=
  {| lvl := Trace; said := str "String size: " ++ show_u16 n ++ str " (" ++ show_hex n ++ str ")" |}.

Definition about_to_read : entry := {| lvl := Trace; said := str "Parsing string buf" |}.

Definition told (lengths : list N) : list entry := flat_map (fun n => [asking; size_told n; about_to_read]) lengths.

(** The strings in a packet, without the protocol name of a CONNECT, which is not kept. *)
Definition strings_in (p : ControlPacket) : list bytes :=
  match p with
  | Connect c => client_id c :: (match user_name c with Some u => [u] | None => [] end)
                 ++ (match password c with Some w => [w] | None => [] end)
  | Publish m => [topic (message m)]
  | Subscribe _ fs => map sub_topic fs
  | Unsubscribe _ fs => fs
  | _ => []
  end.

(** The number after [show_hex] read back. *)
Definition digit_value (b : byte) : N := if b2n b <? 58 then b2n b - 48 else b2n b - 87.

Definition hex_value (bs : bytes) : N := fold_left (fun v b => 16 * v + digit_value b) bs 0.

(** ** The records change nothing *)

Inductive as_quiet {A} : rt A -> rd A -> Prop :=
| q_ret a : as_quiet (TRet a) (Ret a)
| q_err e : as_quiet (TErr e) (Err e)
| q_boom : as_quiet TBoom Boom
| q_nofuel : as_quiet TNoFuel NoFuel
| q_u8 k k' : (forall b, as_quiet (k b) (k' b)) -> as_quiet (TGetU8 k) (GetU8 k')
| q_u16 k k' : (forall b, as_quiet (k b) (k' b)) -> as_quiet (TGetU16 k) (GetU16 k')
| q_bytes n k k' : (forall b, as_quiet (k b) (k' b)) -> as_quiet (TGetBytes n k) (GetBytes n k')
| q_say e m m' : as_quiet m m' -> as_quiet (Say e m) m'.

Lemma as_quiet_bind {A B} (m : rt A) m' (f : A -> rt B) f' :
  as_quiet m m' -> (forall a, as_quiet (f a) (f' a)) -> as_quiet (tbind m f) (bind m' f').
Proof.
  intros H HF. induction H; cbn [tbind bind]; try constructor; auto.
Qed.

Lemma as_quiet_quietly {A} (m : rd A) : as_quiet (quietly m) m.
Proof. induction m; cbn [quietly]; constructor; auto. Qed.

Lemma run_quiet {A} (m : rt A) m' : as_quiet m m' -> forall st, snd (run_t m st) = run m' st.
Proof.
  induction 1; intros st; cbn [run_t run]; try reflexivity.
  1-3: match goal with |- context[match ?X with ROk _ _ => _ | _ => _ end] => destruct X end; cbn [snd]; auto.
  specialize (IHas_quiet st). destruct (run_t m st). exact IHas_quiet.
Qed.

(** Every program without its records. *)
Fixpoint erased {A} (m : rt A) : rd A :=
  match m with
  | TRet a => Ret a | TErr e => Err e | TBoom => Boom | TNoFuel => NoFuel
  | TGetU8 k => GetU8 (fun b => erased (k b))
  | TGetU16 k => GetU16 (fun n => erased (k n))
  | TGetBytes size k => GetBytes size (fun bs => erased (k bs))
  | Say _ k => erased k
  end.

Lemma as_quiet_erased {A} (m : rt A) : as_quiet m (erased m).
Proof. induction m; cbn [erased]; constructor; auto. Qed.

Ltac quiet_step :=
  match goal with
  | |- as_quiet (tbind _ _) (bind _ _) => apply as_quiet_bind; [|intros ?]
  | |- as_quiet (quietly _) _ => apply as_quiet_quietly
  | |- as_quiet (Say _ _) _ => apply q_say
  | |- as_quiet (TRet _) _ => apply q_ret
  | |- as_quiet (TErr _) _ => apply q_err
  | |- as_quiet TBoom _ => apply q_boom
  | |- as_quiet TNoFuel _ => apply q_nofuel
  | |- as_quiet (if ?b then _ else _) _ => destruct b
  | |- as_quiet (let '(_, _) := ?x in _) _ => destruct x
  | |- as_quiet (match from_utf8 ?x with None => _ | Some _ => _ end) _ => destruct (from_utf8 x)
  end.

Lemma quiet_string : as_quiet get_string_t get_string.
Proof. unfold get_string_t, get_string. repeat quiet_step. Qed.

Ltac quiets := repeat (first [apply quiet_string | quiet_step]).

Lemma quiet_subscribe_loop dbg fuel : forall n acc, as_quiet (decode_subscribe_loop_t fuel dbg n acc) (decode_subscribe_loop fuel dbg n acc).
Proof.
  induction fuel as [|fuel IH]; intros n acc; cbn [decode_subscribe_loop_t decode_subscribe_loop]; [constructor|].
  quiets; apply IH.
Qed.

Lemma quiet_unsubscribe_loop dbg fuel : forall n acc, as_quiet (decode_unsubscribe_loop_t fuel dbg n acc) (decode_unsubscribe_loop fuel dbg n acc).
Proof.
  induction fuel as [|fuel IH]; intros n acc; cbn [decode_unsubscribe_loop_t decode_unsubscribe_loop]; [constructor|].
  quiets; apply IH.
Qed.

Lemma quiet_read_packet fuel dbg : as_quiet (read_packet_t fuel dbg) (read_packet fuel dbg).
Proof.
  unfold read_packet_t, read_packet. quiet_step; [quiet_step|]. cbv zeta. quiet_step; [quiet_step|].
  unfold decode_connect_t, decode_connect, decode_publish_t, decode_publish, decode_subscribe_t, decode_subscribe,
    decode_unsubscribe_t, decode_unsubscribe; cbv zeta.
  repeat (first [apply quiet_string | apply quiet_subscribe_loop | apply quiet_unsubscribe_loop | quiet_step]).
Qed.

(** ** On plain bytes *)

Fixpoint plain_t {A} (m : rt A) (bs : bytes) : list entry * pres A :=
  match m with
  | TRet a => ([], POk a bs)
  | TErr e => ([], PErr e)
  | TBoom => ([], PPanic)
  | TNoFuel => ([], PNoFuel)
  | TGetU8 k => match bs with b :: r => plain_t (k b) r | [] => ([], PMore bs) end
  | TGetU16 k => match bs with b1 :: b0 :: r => plain_t (k (b2n b1 * 256 + b2n b0)) r | _ => ([], PMore bs) end
  | TGetBytes size k =>
    if isize_max <? size then ([], PPanic)
    else if lenN bs <? size then ([], PMore bs)
    else plain_t (k (takeN size bs)) (dropN size bs)
  | Say e k => let '(es, r) := plain_t k bs in (e :: es, r)
  end.

Definition andthen {A B} (x : list entry * pres A) (f : A -> bytes -> list entry * pres B) : list entry * pres B :=
  match snd x with
  | POk a r => (fst x ++ fst (f a r), snd (f a r))
  | PErr e => (fst x, PErr e)
  | PPanic => (fst x, PPanic)
  | PMore l => (fst x, PMore l)
  | PNoFuel => (fst x, PNoFuel)
  end.

Lemma plain_t_bind {A B} (m : rt A) (f : A -> rt B) : forall bs,
  plain_t (tbind m f) bs = andthen (plain_t m bs) (fun a r => plain_t (f a) r).
Proof.
  induction m as [a|e| | |k IH|k IH|size k IH|e m IH]; intros bs; cbn [tbind plain_t]; try reflexivity.
  - unfold andthen; cbn. now destruct (plain_t (f a) bs).
  - destruct bs; [reflexivity|]. apply IH.
  - destruct bs as [|? [|? ?]]; [reflexivity|reflexivity|]. apply IH.
  - destruct (isize_max <? size); [reflexivity|]. destruct (lenN bs <? size); [reflexivity|]. apply IH.
  - rewrite IH. unfold andthen. destruct (plain_t m bs) as [es r]; cbn [fst snd]. destruct r; try reflexivity.
Qed.

Lemma plain_t_quietly {A} (m : rd A) : forall bs, plain_t (quietly m) bs = ([], plain m bs).
Proof.
  induction m as [a|e| | |k IH|k IH|size k IH]; intros bs; cbn [quietly plain_t plain]; try reflexivity.
  - destruct bs; [reflexivity|]. apply IH.
  - destruct bs as [|? [|? ?]]; [reflexivity|reflexivity|]. apply IH.
  - destruct (isize_max <? size); [reflexivity|]. destruct (lenN bs <? size); [reflexivity|]. apply IH.
Qed.

Lemma plain_quiet {A} (m : rt A) m' : as_quiet m m' -> forall bs, snd (plain_t m bs) = plain m' bs.
Proof.
  induction 1; intros bs; cbn [plain_t plain]; try reflexivity.
  - destruct bs; auto.
  - destruct bs as [|? [|? ?]]; auto.
  - destruct (isize_max <? n); [reflexivity|]. destruct (lenN bs <? n); auto.
  - specialize (IHas_quiet bs). destruct (plain_t m bs). exact IHas_quiet.
Qed.

(** The stream makes the records of the plain bytes, all of them unless it spins. *)
Lemma run_t_plain {A} (m : rt A) : forall st, wf st -> exists rest,
  fst (plain_t m (pending st)) = fst (run_t m st) ++ rest /\ (snd (run_t m st) <> RHung -> rest = []).
Proof.
  induction m as [a|e| | |k IH|k IH|size k IH|e m IH]; intros st W; cbn [run_t plain_t]; try (exists []; auto; fail).
  - pose proof (run_plain get_u8 st W) as H. cbn [get_u8 run plain] in H.
    destruct (stream_get_u8 st) as [b st'|x| | | |] eqn:E; [|..|eexists; split; [reflexivity|intros X; now elim X]|].
    all: specialize (H ltac:(discriminate)).
    + destruct (pending st) as [|b0 r]; cbn in H; [destruct (ending (rsk st)); discriminate|].
      destruct H as (st2 & E2 & P & W2 & _). injection E2 as -> ->. rewrite <- P. now apply IH.
    + destruct (pending st) as [|b0 r]; [exists []; auto|]. destruct H as (? & ? & _). discriminate.
    + destruct (pending st) as [|b0 r]; [exists []; auto|]. destruct H as (? & ? & _). discriminate.
    + destruct (pending st) as [|b0 r]; [exists []; auto|]. destruct H as (? & ? & _). discriminate.
    + destruct (pending st) as [|b0 r]; [exists []; auto|]. destruct H as (? & ? & _). discriminate.
  - pose proof (run_plain get_u16 st W) as H. cbn [get_u16 run plain] in H.
    destruct (stream_get_u16 st) as [b st'|x| | | |] eqn:E; [|..|eexists; split; [reflexivity|intros X; now elim X]|].
    all: specialize (H ltac:(discriminate)).
    + destruct (pending st) as [|b0 [|b1 r]]; cbn in H; [destruct (ending (rsk st)); discriminate..|].
      destruct H as (st2 & E2 & P & W2 & _). injection E2 as -> ->. rewrite <- P. now apply IH.
    + destruct (pending st) as [|b0 [|b1 r]]; [exists []; auto..|]. destruct H as (? & ? & _). discriminate.
    + destruct (pending st) as [|b0 [|b1 r]]; [exists []; auto..|]. destruct H as (? & ? & _). discriminate.
    + destruct (pending st) as [|b0 [|b1 r]]; [exists []; auto..|]. destruct H as (? & ? & _). discriminate.
    + destruct (pending st) as [|b0 [|b1 r]]; [exists []; auto..|]. destruct H as (? & ? & _). discriminate.
  - pose proof (run_plain (get_bytes size) st W) as H. cbn [get_bytes run plain] in H.
    destruct (stream_get_bytes size st) as [b st'|x| | | |] eqn:E; [|..|eexists; split; [reflexivity|intros X; now elim X]|].
    all: specialize (H ltac:(discriminate)); destruct (isize_max <? size); [try discriminate; exists []; auto; fail|].
    all: destruct (lenN (pending st) <? size); [try (exists []; auto; fail)|].
    2: { destruct H as (st2 & E2 & P & W2 & _). injection E2 as -> ->. rewrite <- P. now apply IH. }
    1: cbn in H; destruct (ending (rsk st)); discriminate.
    all: destruct H as (? & ? & _); discriminate.
  - destruct (IH st W) as (rest & E & N). destruct (plain_t m (pending st)) as [es r], (run_t m st) as [es' r']. cbn [fst snd] in *.
    exists rest. split; [now rewrite E|exact N].
Qed.

Lemma told_app a b : told (a ++ b) = told a ++ told b.
Proof. apply flat_map_app. Qed.

Lemma plain_t_string bs : plain_t get_string_t bs =
  match bs with
  | b1 :: b0 :: r => (told [b2n b1 * 256 + b2n b0], plain get_string bs)
  | _ => ([asking], PMore bs)
  end.
Proof.
  unfold get_string_t. cbn [plain_t]. rewrite plain_t_bind, plain_t_quietly, plain_get_u16. unfold andthen.
  destruct bs as [|b1 [|b0 r]]; cbn [fst snd]; try reflexivity.
  cbn [plain_t]. rewrite plain_t_bind, plain_t_quietly. unfold andthen. cbn [fst snd].
  unfold get_string. rewrite plain_bind, plain_get_u16. cbn [pbind]. rewrite plain_bind.
  destruct (plain (get_bytes (b2n b1 * 256 + b2n b0)) r) as [s r'| | | |]; cbn [fst snd pbind app]; try reflexivity.
  destruct (from_utf8 s); reflexivity.
Qed.

(** ** The records of a packet that has been read *)

Lemma bind_done {A B} (m : rt A) (f : A -> rt B) bs es b r : plain_t (tbind m f) bs = (es, POk b r) ->
  exists es1 a r1 es2, plain_t m bs = (es1, POk a r1) /\ plain_t (f a) r1 = (es2, POk b r) /\ es = es1 ++ es2.
Proof.
  rewrite plain_t_bind. unfold andthen. destruct (plain_t m bs) as [es1 [a r1| | | |]]; cbn [fst snd]; try discriminate.
  destruct (plain_t (f a) r1) as [es2 x] eqn:E2. cbn [fst snd]. intros H. injection H as <- ->. now exists es1, a, r1, es2.
Qed.

Lemma quietly_done {A} (m : rd A) bs es a r : plain_t (quietly m) bs = (es, POk a r) -> es = [] /\ plain m bs = POk a r.
Proof. rewrite plain_t_quietly. intros H. injection H as <- H. auto. Qed.

Lemma string_done bs es s r : plain_t get_string_t bs = (es, POk s r) -> es = told [lenN s] /\ bs = field s ++ r.
Proof.
  rewrite plain_t_string. destruct bs as [|b1 [|b0 t]]; try discriminate.
  destruct (plain get_string (b1 :: b0 :: t)) as [s' r'| | | |] eqn:E; try discriminate.
  intros H. injection H as <- -> ->. apply get_string_ok in E. destruct E as (E & L & _). split; [|exact E].
  rewrite field_app in E. unfold be16 in E. cbn [app] in E. injection E as -> -> _.
  pose proof (be16_val (lenN s) L) as V. now rewrite V.
Qed.

Ltac peel H :=
  match type of H with
  | plain_t (tbind _ _) _ = _ =>
    let e1 := fresh "e" in let a := fresh "a" in let r1 := fresh "r" in let e2 := fresh "e" in
    let H1 := fresh "H" in let H2 := fresh "H" in let E := fresh "E" in
    apply bind_done in H; destruct H as (e1 & a & r1 & e2 & H1 & H2 & E); subst
  end.

Ltac done_ H :=
  match type of H with
  | plain_t (quietly _) _ = _ => apply quietly_done in H; destruct H as (-> & H)
  | plain_t get_string_t _ = _ => apply string_done in H; destruct H as (-> & H)
  | plain_t (TRet _) _ = _ => cbn [plain_t] in H; injection H; clear H; intros; subst
  end.

Ltac unravel :=
  repeat match goal with
  | H : plain_t (tbind _ _) _ = _ |- _ => peel H
  | H : plain_t (quietly _) _ = _ |- _ => done_ H
  | H : plain_t get_string_t _ = _ |- _ => done_ H; subst
  | H : plain_t (TRet _) _ = _ |- _ => done_ H
  | H : plain_t (TErr _) _ = _ |- _ => discriminate H
  | H : plain_t (if ?b then _ else _) _ = _ |- _ => destruct b
  | H : plain_t (let '(_, _) := ?x in _) _ = _ |- _ => destruct x
  end.

Lemma with_id_done {B} a b (f : N -> B) bs p r :
  plain (bind (decode_packet_with_packet_id a b) (fun i => Ret (f i))) bs = POk p r -> exists i, p = f i.
Proof.
  rewrite plain_bind. destruct (plain _ bs) as [i t| | | |]; cbn [pbind plain]; try discriminate.
  intros H. injection H as <- _. eauto.
Qed.

Lemma subscribe_loop_done dbg fuel : forall n acc bs es fs r,
  plain_t (decode_subscribe_loop_t fuel dbg n acc) bs = (es, POk fs r) ->
  exists new, fs = acc ++ new /\ es = told (map (fun f => lenN (sub_topic f)) new).
Proof.
  induction fuel as [|fuel IH]; intros n acc bs es fs r H; cbn [decode_subscribe_loop_t] in H; [discriminate|].
  destruct (0 <? n).
  2: { done_ H. exists []. now rewrite app_nil_r. }
  unravel.
  match goal with H : plain_t (decode_subscribe_loop_t _ _ _ (_ ++ [?x])) _ = _ |- _ => apply IH in H; destruct H as (new & -> & ->); exists (x :: new) end.
  split; [now rewrite <- app_assoc|reflexivity].
Qed.

Lemma unsubscribe_loop_done dbg fuel : forall n acc bs es fs r,
  plain_t (decode_unsubscribe_loop_t fuel dbg n acc) bs = (es, POk fs r) ->
  exists new, fs = acc ++ new /\ es = told (map lenN new).
Proof.
  induction fuel as [|fuel IH]; intros n acc bs es fs r H; cbn [decode_unsubscribe_loop_t] in H; [discriminate|].
  destruct (0 <? n).
  2: { done_ H. exists []. now rewrite app_nil_r. }
  unravel.
  match goal with H : plain_t (decode_unsubscribe_loop_t _ _ _ (_ ++ [?x])) _ = _ |- _ => apply IH in H; destruct H as (new & -> & ->); exists (x :: new) end.
  split; [now rewrite <- app_assoc|reflexivity].
Qed.

Definition is_connect (p : ControlPacket) : bool := match p with Connect _ => true | _ => false end.

Lemma packet_done fuel dbg bs es p r : plain_t (read_packet_t fuel dbg) bs = (es, POk p r) ->
  if is_connect p then
    exists first header name tl, bs = first :: header ++ field name ++ tl /\ (exists n, varint header n)
      /\ es = told (lenN name :: map lenN (strings_in p))
  else es = told (map lenN (strings_in p)).
Proof.
  intros H. unfold read_packet_t in H.
  apply bind_done in H. destruct H as (e1 & first & t1 & e2 & H1 & H & ->). done_ H1. cbv zeta in H.
  apply bind_done in H. destruct H as (e3 & n & t & e4 & H2 & H & ->). done_ H2.
  rewrite plain_get_u8 in H1. destruct bs as [|b0 t0]; [discriminate|]. injection H1 as -> ->.
  apply decode_remaining_length_ok in H2. destruct H2 as (header & -> & LH & _).
  rename H into H2.
  repeat match type of H2 with plain_t (if ?b then _ else _) _ = _ => destruct b end; try discriminate.
  - unfold decode_connect_t in H2; cbv zeta in H2. unravel.
    all: cbn [is_connect]; do 4 eexists; (split; [reflexivity|]); (split; [eexists; exact LH|]); reflexivity.
  - unfold decode_publish_t in H2; cbv zeta in H2. unravel.
    all: cbn [is_connect]; reflexivity.
  - apply quietly_done in H2. destruct H2 as (-> & H2). unfold decode_pub_ack in H2. apply with_id_done in H2. destruct H2 as (i & ->). reflexivity.
  - apply quietly_done in H2. destruct H2 as (-> & H2). unfold decode_pub_rec in H2. apply with_id_done in H2. destruct H2 as (i & ->). reflexivity.
  - apply quietly_done in H2. destruct H2 as (-> & H2). unfold decode_pub_rel in H2. apply with_id_done in H2. destruct H2 as (i & ->). reflexivity.
  - apply quietly_done in H2. destruct H2 as (-> & H2). unfold decode_pub_comp in H2. apply with_id_done in H2. destruct H2 as (i & ->). reflexivity.
  - unfold decode_subscribe_t in H2; cbv zeta in H2. unravel; try discriminate.
    match goal with H : plain_t (decode_subscribe_loop_t _ _ _ _) _ = _ |- _ => apply subscribe_loop_done in H; destruct H as (new & -> & ->) end.
    cbn [is_connect strings_in app]. now rewrite app_nil_r, map_map.
  - unfold decode_unsubscribe_t in H2; cbv zeta in H2. unravel; try discriminate.
    match goal with H : plain_t (decode_unsubscribe_loop_t _ _ _ _) _ = _ |- _ => apply unsubscribe_loop_done in H; destruct H as (new & -> & ->) end.
    cbn [is_connect strings_in app]. now rewrite app_nil_r.
  - unravel. reflexivity.
  - unravel. reflexivity.
Qed.

(** ** The shape on a stream *)

Lemma u16_ends st : wf st ->
  match stream_get_u16 st with ROk _ st' => wf st' | RWait => True | RErr _ => True | _ => False end.
Proof.
  intros W. pose proof (run_eq get_u16 st W) as [H G]. cbn [get_u16 run] in H, G.
  destruct (stream_get_u16 st) as [b st'|x| | | |]; auto; [exact (proj1 G)|..]; exfalso; cbn [obs lrun] in H.
  all: destruct (pending st) as [|? [|? ?]]; try discriminate; destruct (ending (rsk st)); discriminate.
Qed.

Definition shaped_on {A} (m : rt A) : Prop :=
  forall st, wf st -> exists ls, fst (run_t m st) = told ls
    \/ (fst (run_t m st) = told ls ++ [asking] /\ (snd (run_t m st) = RWait \/ exists e, snd (run_t m st) = RErr e)).

Definition andthen_on {A B} (x : list entry * rout A) (f : A -> rstream -> list entry * rout B) : list entry * rout B :=
  match snd x with
  | ROk a st => (fst x ++ fst (f a st), snd (f a st))
  | RErr e => (fst x, RErr e) | RPanic => (fst x, RPanic) | RWait => (fst x, RWait) | RHung => (fst x, RHung) | RNoFuel => (fst x, RNoFuel)
  end.

Lemma run_t_bind {A B} (m : rt A) (f : A -> rt B) : forall st,
  run_t (tbind m f) st = andthen_on (run_t m st) (fun a st' => run_t (f a) st').
Proof.
  induction m as [a|e| | |k IH|k IH|size k IH|e m IH]; intros st; cbn [tbind run_t]; try reflexivity.
  - unfold andthen_on; cbn. now destruct (run_t (f a) st).
  - destruct (stream_get_u8 st); try reflexivity. apply IH.
  - destruct (stream_get_u16 st); try reflexivity. apply IH.
  - destruct (stream_get_bytes size st); try reflexivity. apply IH.
  - rewrite IH. unfold andthen_on. destruct (run_t m st) as [es r]; cbn [fst snd]. destruct r; reflexivity.
Qed.

Lemma run_t_quietly {A} (m : rd A) : forall st, run_t (quietly m) st = ([], run m st).
Proof.
  induction m as [a|e| | |k IH|k IH|size k IH]; intros st; cbn [quietly run_t run]; try reflexivity.
  - destruct (stream_get_u8 st); try reflexivity. apply IH.
  - destruct (stream_get_u16 st); try reflexivity. apply IH.
  - destruct (stream_get_bytes size st); try reflexivity. apply IH.
Qed.

Lemma wf_kept {A} (m : rt A) st es a st' : wf st -> run_t m st = (es, ROk a st') -> wf st'.
Proof.
  intros W E. pose proof (run_quiet m _ (as_quiet_erased m) st) as H. rewrite E in H. cbn [snd] in H.
  destruct (run_eq (erased m) st W) as [_ G]. rewrite <- H in G. exact (proj1 G).
Qed.

Lemma shaped_on_bind {A B} (m : rt A) (f : A -> rt B) :
  shaped_on m -> (forall a, shaped_on (f a)) -> shaped_on (tbind m f).
Proof.
  intros HM HF st W. rewrite run_t_bind. unfold andthen_on. destruct (HM st W) as (ls & H).
  destruct (run_t m st) as [es r] eqn:E. cbn [fst snd] in H. cbn [fst snd].
  destruct H as [->|(-> & [->|(e & ->)])]; cbn [fst snd].
  2, 3: exists ls; right; eauto.
  destruct r as [a st'| | | | |]; cbn [fst snd]; try (exists ls; now left).
  destruct (HF a st' (wf_kept m st _ a st' W E)) as (ls' & [->|(-> & H)]); exists (ls ++ ls'); rewrite told_app; [now left|right].
  rewrite <- app_assoc. auto.
Qed.

Lemma shaped_on_quietly {A} (m : rd A) : shaped_on (quietly m).
Proof. intros st W. exists []. left. now rewrite run_t_quietly. Qed.

Lemma shaped_on_string : shaped_on get_string_t.
Proof.
  intros st W. unfold get_string_t. cbn [run_t]. rewrite run_t_bind, run_t_quietly. unfold andthen_on. cbn [fst snd get_u16 run].
  pose proof (u16_ends st W) as U. destruct (stream_get_u16 st) as [n st'|x| | | |]; try contradiction; cbn [fst snd].
  2, 3: exists []; right; split; [reflexivity|eauto].
  cbn [run_t]. rewrite run_t_bind, run_t_quietly. unfold andthen_on. cbn [fst snd].
  exists [n]. left. destruct (run (get_bytes n) st') as [s st2| | | | |]; cbn [fst snd app]; try reflexivity.
  destruct (from_utf8 s); reflexivity.
Qed.

Ltac shaped_on_step :=
  match goal with
  | |- shaped_on (tbind _ _) => apply shaped_on_bind; [|intros ?]
  | |- shaped_on get_string_t => apply shaped_on_string
  | |- shaped_on (quietly _) => apply shaped_on_quietly
  | |- shaped_on (TRet ?a) => exact (shaped_on_quietly (Ret a))
  | |- shaped_on (TErr ?a) => exact (shaped_on_quietly (Err a))
  | |- shaped_on TBoom => exact (shaped_on_quietly Boom)
  | |- shaped_on TNoFuel => exact (shaped_on_quietly NoFuel)
  | |- shaped_on (if ?b then _ else _) => destruct b
  | |- shaped_on (let '(_, _) := ?x in _) => destruct x
  end.

Lemma shaped_on_subscribe_loop dbg fuel : forall n acc, shaped_on (decode_subscribe_loop_t fuel dbg n acc).
Proof. induction fuel as [|fuel IH]; intros n acc; cbn [decode_subscribe_loop_t]; repeat shaped_on_step; apply IH. Qed.

Lemma shaped_on_unsubscribe_loop dbg fuel : forall n acc, shaped_on (decode_unsubscribe_loop_t fuel dbg n acc).
Proof. induction fuel as [|fuel IH]; intros n acc; cbn [decode_unsubscribe_loop_t]; repeat shaped_on_step; apply IH. Qed.

Lemma shaped_on_read_packet fuel dbg : shaped_on (read_packet_t fuel dbg).
Proof.
  unfold read_packet_t, decode_connect_t, decode_publish_t, decode_subscribe_t, decode_unsubscribe_t; cbv zeta.
  repeat (first [apply shaped_on_subscribe_loop | apply shaped_on_unsubscribe_loop | shaped_on_step]).
Qed.

(** ** C134 *)

(** Reading is as without the records. *)
Theorem C134_same_reads dbg st :
  snd (stream_read_packet_t dbg st) = stream_read_packet dbg st
  /\ (map snd (fst (read_all_t dbg st)), snd (snd (read_all_t dbg st))) = read_all dbg st.
Proof.
  assert (H1 : forall st, snd (stream_read_packet_t dbg st) = stream_read_packet dbg st)
    by (intros; unfold stream_read_packet_t, stream_read_packet; apply run_quiet, quiet_read_packet).
  split; [apply H1|]. unfold read_all_t, read_all. generalize (S (length (pending st))) as fuel.
  intros fuel. revert st. induction fuel as [|fuel IH]; intros st; cbn [read_all_loop_t read_all_loop]; [reflexivity|].
  rewrite <- (H1 st). destruct (stream_read_packet_t dbg st) as [es r]. cbn [snd]. destruct r as [p st'| | | | |]; try reflexivity.
  specialize (IH st'). destruct (read_all_loop_t fuel dbg st') as [ps e]. rewrite <- IH. reflexivity.
Qed.

(** The records of a packet that has been read are three for each of its strings. For a CONNECT those of the protocol name
    come first. *)
Definition records_of (st : rstream) (p : ControlPacket) (es : list entry) : Prop :=
  if is_connect p then
    exists first header n name tl, pending st = first :: header ++ field name ++ tl /\ varint header n
      /\ es = told (lenN name :: map lenN (strings_in p))
  else es = told (map lenN (strings_in p)).

Theorem C134_packet dbg st es p st' : wf st -> stream_read_packet_t dbg st = (es, ROk p st') -> records_of st p es.
Proof.
  intros W E. unfold stream_read_packet_t in E.
  set (m := read_packet_t (S (length (pending st))) dbg) in E.
  destruct (run_t_plain m st W) as (rest & EP & N). rewrite E in EP, N. cbn [fst snd] in EP, N.
  rewrite (N ltac:(discriminate)), app_nil_r in EP.
  pose proof (run_quiet m _ (quiet_read_packet _ dbg) st) as EQ. rewrite E in EQ. cbn [snd] in EQ.
  pose proof (run_plain (read_packet (S (length (pending st))) dbg) st W ltac:(congruence)) as HP.
  rewrite <- (plain_quiet m _ (quiet_read_packet _ dbg)) in HP.
  destruct (plain_t m (pending st)) as [es' r] eqn:EM. cbn [fst snd] in EP, HP. subst es'.
  assert (exists t, r = POk p t) as (t & ->).
  { destruct r as [a t| | |l|]; try congruence.
    - destruct HP as (st2 & HP & _). rewrite <- EQ in HP. injection HP as -> ->. eauto.
    - rewrite <- EQ in HP. cbn in HP. destruct (ending (rsk st)); discriminate. }
  apply packet_done in EM. unfold records_of. destruct (is_connect p); [|exact EM].
  destruct EM as (first & header & name & tl & A & (n & B) & C). eauto 8.
Qed.

(** Whatever comes and however the read ends: three records for each string whose size has come, and one more if the
    read ends or waits while a size is awaited. *)
Theorem C134_any dbg st es r : wf st -> stream_read_packet_t dbg st = (es, r) ->
  exists lengths, es = told lengths \/ (es = told lengths ++ [asking] /\ (r = RWait \/ exists e, r = RErr e)).
Proof.
  intros W E. pose proof (shaped_on_read_packet (S (length (pending st))) dbg st W) as H.
  unfold stream_read_packet_t in E. rewrite E in H. exact H.
Qed.

(** All the reads of a connection. *)
Theorem C134_connection dbg st : wf st ->
  (forall es p, In (es, p) (fst (read_all_t dbg st)) ->
     if is_connect p then exists n, es = told (n :: map lenN (strings_in p)) else es = told (map lenN (strings_in p)))
  /\ exists lengths, fst (snd (read_all_t dbg st)) = told lengths
       \/ (fst (snd (read_all_t dbg st)) = told lengths ++ [asking]
           /\ (snd (read_all dbg st) = EndWait \/ exists e, snd (read_all dbg st) = EndErr e)).
Proof.
  intros W. destruct (C134_same_reads dbg st) as (_ & <-). cbn [snd].
  unfold read_all_t. generalize (S (length (pending st))) as fuel. intros fuel. revert st W.
  induction fuel as [|fuel IH]; intros st W; cbn [read_all_loop_t].
  { split; [intros es p []|]. exists []. now left. }
  destruct (stream_read_packet_t dbg st) as [es0 r] eqn:E. pose proof (C134_any dbg st es0 r W E) as S.
  destruct r as [p0 st'|e0| | | |].
  2-6: split; [intros es p []|]; cbn [fst snd]; destruct S as (ls & [->|(-> & [X|(e & X)])]); try discriminate; exists ls; first [now left | right; split; [reflexivity|]; eauto].
  - destruct (read_all_loop_t fuel dbg st') as [ps e] eqn:EL.
    pose proof (IH st' (wf_kept _ st _ _ st' W E)) as J. rewrite EL in J. cbn [fst snd] in *. destruct J as (J1 & J2).
    split; [|exact J2]. intros es p [X|X]; [|now apply J1]. injection X as <- <-.
    pose proof (C134_packet dbg st es0 p0 st' W E) as R. unfold records_of in R.
    destruct (is_connect p0); [|exact R]. destruct R as (_ & _ & _ & name & _ & _ & _ & ->). eauto.
Qed.

Lemma after_ok {A B} (m : rt A) (f : A -> rt B) bs e1 a r e2 x :
  plain_t m bs = (e1, POk a r) -> plain_t (f a) r = (e2, x) -> plain_t (tbind m f) bs = (e1 ++ e2, x).
Proof. intros E F. rewrite plain_t_bind, E. unfold andthen. cbn [fst snd]. now rewrite F. Qed.

Lemma after_more {A B} (m : rt A) (f : A -> rt B) bs e l :
  plain_t m bs = (e, PMore l) -> plain_t (tbind m f) bs = (e, PMore l).
Proof. intros E. rewrite plain_t_bind, E. reflexivity. Qed.

(** How the bytes are cut into segments makes no difference, unless a read spins; one that spins has made a part of them. *)
Theorem C134_segments dbg st1 st2 : wf st1 -> wf st2 -> pending st1 = pending st2 ->
  snd (stream_read_packet_t dbg st1) <> RHung ->
  exists rest, fst (stream_read_packet_t dbg st1) = fst (stream_read_packet_t dbg st2) ++ rest
    /\ (snd (stream_read_packet_t dbg st2) <> RHung -> rest = []).
Proof.
  intros W1 W2 E. unfold stream_read_packet_t. rewrite <- E. set (m := read_packet_t _ dbg).
  destruct (run_t_plain m st1 W1) as (r1 & E1 & N1). destruct (run_t_plain m st2 W2) as (r2 & E2 & N2). rewrite <- E in E2.
  intros H. rewrite (N1 H), app_nil_r in E1. exists r2. split; [congruence|exact N2].
Qed.

(** The size of a password is in the log before any byte of the password has come. *)
Theorem C134_early dbg st header len name level flags keep cid user n :
  wf st -> ending (rsk st) = PeerOpen -> snd (stream_read_packet_t dbg st) <> RHung ->
  varint header len -> (length header <= 3)%nat ->
  text name -> keep < 65536 -> text cid -> opt_text user -> 0 < n < 65536 ->
  flag_set (b2n flags) 128 = is_some user -> flag_set (b2n flags) 64 = true ->
  pending st = x10 :: header ++ field name ++ [level; flags] ++ be16 keep ++ field cid ++ opt_field user ++ be16 n ->
  stream_read_packet_t dbg st
  = (told ([lenN name; lenN cid] ++ match user with Some u => [lenN u] | None => [] end ++ [n]), RWait).
Proof.
  intros W EO NH HV HL (U1 & L1) HK (U2 & L2) HU HN F1 F2 EP.
  assert (GS : forall s r, is_utf8 s -> lenN s < 65536 -> plain_t get_string_t (field s ++ r) = (told [lenN s], POk s r)).
  { intros s r U L. assert (G : plain get_string (field s ++ r) = POk s r) by (apply get_string_ok; rewrite utf8_ok_iff; auto).
    rewrite plain_t_string, G. unfold field, be16. cbn [app]. now rewrite be16_val. }
  assert (GU : forall k r, k < 65536 -> plain get_u16 (be16 k ++ r) = POk k r) by (intros; apply get_u16_ok; auto).
  assert (EM : plain_t (read_packet_t (S (length (pending st))) dbg) (pending st)
    = (told ([lenN name; lenN cid] ++ match user with Some u => [lenN u] | None => [] end ++ [n]), PMore [])).
  { rewrite EP at 2.
    assert (GP : plain_t get_string_t (be16 n) = (told [n], PMore [])).
    { rewrite plain_t_string. unfold be16, get_string. rewrite plain_bind, plain_get_u16. cbn [pbind].
      rewrite be16_val by lia. rewrite plain_bind, plain_get_bytes, isize_max_big by lia.
      destruct (N.ltb_spec (lenN (@nil byte)) n) as [|X]; [reflexivity|]. change (lenN (@nil byte)) with 0 in X. lia. }
    eapply (after_ok _ _ _ []); [rewrite plain_t_quietly, plain_get_u8; reflexivity|]. cbv zeta.
    eapply (after_ok _ _ _ []).
    { rewrite plain_t_quietly. f_equal. apply decode_remaining_length_ok. eauto. }
    change (N.shiftr (b2n x10) 4 =? PACKET_TYPE_CONNECT) with true. cbv iota.
    match goal with |- plain_t _ ?bs = (?e, _) => change (plain_t (decode_connect_t (b2n x10) len) bs =
      (told [lenN name] ++ [] ++ [] ++ [] ++ told [lenN cid] ++ told (match user with Some u => [lenN u] | None => [] end ++ [n]), PMore [])) end.
    unfold decode_connect_t. cbv zeta.
    eapply after_ok; [exact (GS _ _ U1 L1)|]. cbn [app].
    eapply (after_ok _ _ _ []); [rewrite plain_t_quietly, plain_get_u8; reflexivity|].
    eapply (after_ok _ _ _ []); [rewrite plain_t_quietly, plain_get_u8; reflexivity|].
    eapply (after_ok _ _ _ []); [rewrite plain_t_quietly, (GU _ _ HK); reflexivity|].
    eapply (after_ok _ _ _ (told [lenN cid])); [exact (GS _ _ U2 L2)|].
    rewrite told_app, F1, F2. eapply after_ok.
    { instantiate (1 := be16 n). instantiate (1 := user). destruct user as [u|]; cbn [is_some opt_field app].
      - destruct HU as (U3 & L3). rewrite <- (app_nil_r (told [lenN u])). eapply after_ok; [exact (GS _ _ U3 L3)|reflexivity].
      - reflexivity. }
    apply after_more, after_more. exact GP. }
  unfold stream_read_packet_t in *. set (m := read_packet_t _ dbg) in *.
  destruct (run_t_plain m st W) as (rest & E & N). rewrite (N NH), app_nil_r, EM in E. cbn [fst] in E.
  pose proof (run_quiet m _ (quiet_read_packet _ dbg) st) as EQ.
  pose proof (run_plain (read_packet (S (length (pending st))) dbg) st W ltac:(congruence)) as HP.
  rewrite <- (plain_quiet m _ (quiet_read_packet _ dbg)), EM in HP. cbn [snd] in HP. rewrite EO in HP. rewrite <- EQ in HP.
  destruct (run_t m st) as [es r]. cbn [fst snd] in *. subst es. destruct r; try discriminate. reflexivity.
Qed.

(** What follows the first x of a text, without its last character. *)
Fixpoint after_x (t : bytes) : bytes :=
  match t with [] => [] | b :: t' => if byte_eqb b x78 then removelast t' else after_x t' end.

Definition size_check (n : N) : bool :=
  (hex_value (after_x (said (size_told n))) =? n) && (hex_value (skipn 2 (show_hex n)) =? n)
  && Nat.leb 4 (length (show_hex n)) && match show_hex n with [_; _; _; _] => true | _ :: _ :: b :: _ => negb (byte_eqb b x30) | _ => false end && forallb (fun b => ((48 <=? b2n b) && (b2n b <? 58)) || ((97 <=? b2n b) && (b2n b <? 103))) (skipn 2 (show_hex n))
  && match show_hex n with x30 :: x78 :: _ => true | _ => false end.

(** There are only 65536 sizes. *)
Lemma size_checked n : n < 65536 -> size_check n = true.
Proof.
  intros H.
  assert (A : forallb (fun hi => forallb (fun lo => size_check (256 * hi + lo)) (map N.of_nat (seq 0 256))) (map N.of_nat (seq 0 256)) = true)
    by (vm_compute; reflexivity).
  assert (I : forall k, k < 256 -> In k (map N.of_nat (seq 0 256))).
  { intros k K. rewrite <- (N2Nat.id k). apply in_map, in_seq. lia. }
  rewrite forallb_forall in A. assert (D : n / 256 < 256) by (apply N.div_lt_upper_bound; [discriminate|exact H]). specialize (A (n / 256) (I _ D)).
  cbv beta in A. rewrite forallb_forall in A. assert (M : n mod 256 < 256) by (apply N.mod_lt; discriminate). specialize (A (n mod 256) (I _ M)).
  cbv beta in A. now rewrite <- N.div_mod in A by discriminate.
Qed.

(** The size is given in full, in both notations, and at level trace only. *)
Theorem C134_size n : n < 65536 ->
  lvl (size_told n) = Trace
  /\ (exists digits, show_hex n = str "0x" ++ digits /\ hex_value digits = n /\ (2 <= length digits)%nat
       /\ (length digits = 2%nat \/ nth_error digits 0 <> Some x30)
       /\ Forall (fun b => 48 <= b2n b < 58 \/ 97 <= b2n b < 103) digits)
  /\ forall k, k < 65536 -> size_told n = size_told k -> n = k.
Proof.
  intros H. pose proof (size_checked n H) as C. unfold size_check in C.
  apply andb_true_iff in C. destruct C as (C & C5). apply andb_true_iff in C. destruct C as (C & C4).
  apply andb_true_iff in C. destruct C as (C & C6). apply andb_true_iff in C. destruct C as (C & C3). apply andb_true_iff in C. destruct C as (C1 & C2).
  split; [reflexivity|]. split.
  - exists (skipn 2 (show_hex n)). destruct (show_hex n) as [|a [|b d]]; [discriminate C5|destruct a; discriminate C5|].
    cbn [skipn] in *. split; [destruct a; try discriminate C5; destruct b; try discriminate C5; reflexivity|].
    split; [now apply N.eqb_eq|]. split; [apply Nat.leb_le in C3; cbn [length] in C3; lia|].
    split.
    { destruct d as [|x [|y [|z d]]]; try discriminate C6; [discriminate C3|now left|]. right. cbn [nth_error]. intros E. injection E as ->. discriminate C6. }
    apply Forall_forall. intros x Hx. rewrite forallb_forall in C4. specialize (C4 x Hx).
    apply orb_true_iff in C4. rewrite !andb_true_iff, !N.leb_le, !N.ltb_lt in C4. lia.
  - intros k Hk E. pose proof (size_checked k Hk) as K. unfold size_check in K.
    apply andb_true_iff in K. destruct K as (K & _). apply andb_true_iff in K. destruct K as (K & _).
    apply andb_true_iff in K. destruct K as (K & _). apply andb_true_iff in K. destruct K as (K & _).
    apply andb_true_iff in K. destruct K as (K1 & _).
    apply N.eqb_eq in C1, K1. rewrite E in C1. congruence.
Qed.

Theorem C134_levels lengths : upto Debug (told lengths ++ [asking]) = [].
Proof.
  induction lengths as [|n l IH]; [reflexivity|]. exact IH.
Qed.

(** A CONNECT of client "a" with user "bob" of which only the size of the password has come, and a PUBLISH read. *)
Example C134_case :
  let sock bs := {| arriving := bs; ending := PeerOpen; chunks := [3; 1]; grants := []; reuse := true |} in
  let hello := x10 :: n2b 31 :: field (str "MQTT") ++ [x04; n2b 194; x00; x3c] ++ field (str "a") ++ field (str "bob") ++ be16 12 in
  stream_read_packet_t true (connection_stream (sock hello)) = (told [4; 1; 3; 12], RWait)
  /\ fst (stream_read_packet_t true (connection_stream (sock (hello ++ str "open "))))= told [4; 1; 3; 12]
  /\ map said (told [12]) = [str "Parsing string size"; str "String size: 12 (0x0c)"; str "Parsing string buf"]
  /\ show_hex 300 = str "0x12c"
  /\ fst (read_all_t true (connection_stream (sock (x30 :: x05 :: field (str "a/b")))))
     = [(told [3], Publish {| pub_packet_id := None; dup := false;
          message := {| topic := str "a/b"; payload := []; qos := AtMostOnce; retain := false |} |})]
  /\ snd (read_all_t true (connection_stream (sock (x30 :: x05 :: field (str "a/b") ++ [x30; x09; x00])))) = ([asking], EndWait).
Proof. vm_compute. repeat split. Qed.
