(** Properties C129 and C130: the stream for both directions, and calls that are given up. *)
From Verif Require Import Base Base_facts Utf8 Packets Decoder Encoder ReadStream ReadStream_facts WriteStream Duplex.
Open Scope N_scope.

(** ** The two halves of the stream *)

Definition reading_half (st : dstream) : rstream := {| rbuf := read_buffer st; rsk := from_peer st |}.
Definition writing_half (st : dstream) : wstream := {| wbuf := write_buffer st; wsk := to_peer st |}.

(** What a call gives, seen from one half. *)
Definition as_read {A} (o : dout A) : rout A :=
  match o with
  | DOk a st => ROk a (reading_half st)
  | DErr e _ => RErr e
  | DWait _ => RWait
  | DPanic => RPanic
  | DHung => RHung
  | DNoFuel => RNoFuel
  end.

Definition as_written {A} (o : dout A) : option wout :=
  match o with
  | DOk _ st => Some (WOk (writing_half st))
  | DErr _ st => Some (WErr (writing_half st))
  | DWait st => Some (WWait (writing_half st))
  | DPanic => Some WPanic
  | DHung => Some WHung
  | DNoFuel => None
  end.

(** The calls of the halves (ReadStream.v, WriteStream.v). *)
Definition r_map {A B} (f : A -> B) (o : rout A) : rout B :=
  match o with
  | ROk a st => ROk (f a) st
  | RErr e => RErr e | RPanic => RPanic | RWait => RWait | RHung => RHung | RNoFuel => RNoFuel
  end.

Definition half_read (c : read_call) (st : rstream) : rout value :=
  match c with
  | CGetU8 => r_map VByte (stream_get_u8 st)
  | CGetU16 => r_map VNumber (stream_get_u16 st)
  | CGetString => r_map VBytes (run get_string st)
  | CGetBytes n => r_map VBytes (stream_get_bytes n st)
  end.

Definition half_write (c : write_call) (st : wstream) : wout :=
  match c with
  | CPutU8 n => run_put (PutU8 n) st
  | CPutU16 n => run_put (PutU16 n) st
  | CPutString s => run_puts (put_string s) st
  | CPutBytes bs => run_put (PutBytes bs) st
  | CFinish => finish_packet st
  end.

(** ** Reading leaves the writing half alone, and the other way round *)

Definition lift {A} (p : dstream -> dstream) (o : dout A) : dout A :=
  match o with
  | DOk a st => DOk a (p st)
  | DErr e st => DErr e (p st)
  | DWait st => DWait (p st)
  | DPanic => DPanic
  | DHung => DHung
  | DNoFuel => DNoFuel
  end.

Definition with_writing (b : BytesMut) (w : wsock) (st : dstream) : dstream :=
  {| read_buffer := read_buffer st; write_buffer := b; from_peer := from_peer st; to_peer := w |}.
Definition with_reading (b : BytesMut) (r : rsock) (st : dstream) : dstream :=
  {| read_buffer := b; write_buffer := write_buffer st; from_peer := r; to_peer := to_peer st |}.

Lemma lift_bind {A B} p (o : dout A) (f : A -> dstream -> dout B) : (forall a st, f a (p st) = lift p (f a st)) ->
  d_bind (lift p o) f = lift p (d_bind o f).
Proof. intros H. destruct o; cbn [lift d_bind]; auto. Qed.

Section Reading.
Context (b : BytesMut) (w : wsock).
Notation p := (with_writing b w).

Lemma lift_read_buf st : d_read_buf (p st) = lift p (d_read_buf st).
Proof.
  unfold d_read_buf. cbn [read_buffer from_peer with_writing].
  destruct (cap (read_buffer st) =? lenN (data (read_buffer st))).
  - cbn [arriving ending chunks grants reuse]. destruct (arriving (from_peer st)); [destruct (ending (from_peer st))|]; reflexivity.
  - destruct (arriving (from_peer st)); [destruct (ending (from_peer st))|]; reflexivity.
Qed.

Lemma lift_wait_loop n : forall fuel st, d_wait_loop fuel n (p st) = lift p (d_wait_loop fuel n st).
Proof.
  induction fuel as [|fuel IH]; intros st; [reflexivity|]. cbn [d_wait_loop].
  change (read_buffer (p st)) with (read_buffer st). destruct (lenN (data (read_buffer st)) <? n); [|reflexivity].
  rewrite lift_read_buf. apply lift_bind. intros a st1. destruct (a =? 0); [|apply IH].
  change (read_buffer (p st1)) with (read_buffer st1). destruct (data (read_buffer st1)); reflexivity.
Qed.

Lemma lift_wait n st : d_wait_for_data n (p st) = lift p (d_wait_for_data n st).
Proof. apply lift_wait_loop. Qed.

Lemma lift_get_u8 st : d_get_u8 (p st) = lift p (d_get_u8 st).
Proof.
  unfold d_get_u8. rewrite lift_wait. apply lift_bind. intros _ st1. change (read_buffer (p st1)) with (read_buffer st1).
  destruct (data (read_buffer st1)); reflexivity.
Qed.

Lemma lift_get_u16 st : d_get_u16 (p st) = lift p (d_get_u16 st).
Proof.
  unfold d_get_u16. rewrite lift_wait. apply lift_bind. intros _ st1. change (read_buffer (p st1)) with (read_buffer st1).
  destruct (data (read_buffer st1)) as [|b1 [|b0 r]]; reflexivity.
Qed.

Lemma lift_gb_loop : forall fuel acc n st, d_gb_loop fuel acc n (p st) = lift p (d_gb_loop fuel acc n st).
Proof.
  induction fuel as [|fuel IH]; intros acc n st; [reflexivity|]. cbn [d_gb_loop]. destruct (0 <? n); [|reflexivity].
  change (read_buffer (p st)) with (read_buffer st). rewrite lift_wait. apply lift_bind. intros _ st1.
  change (read_buffer (p st1)) with (read_buffer st1). rewrite <- IH. reflexivity.
Qed.

Lemma lift_get_bytes n st : d_get_bytes n (p st) = lift p (d_get_bytes n st).
Proof. unfold d_get_bytes. destruct (isize_max <? n); [reflexivity|apply lift_gb_loop]. Qed.

Lemma lift_get_string st : d_get_string (p st) = lift p (d_get_string st).
Proof.
  unfold d_get_string. rewrite lift_get_u16. apply lift_bind. intros n st1. rewrite lift_get_bytes. apply lift_bind. intros bs st2.
  destruct (from_utf8 bs); reflexivity.
Qed.

Lemma lift_map {A B} (f : A -> B) o : d_map f (lift p o) = lift p (d_map f o).
Proof. unfold d_map. now apply lift_bind. Qed.

Lemma lift_read c st : d_read c (p st) = lift p (d_read c st).
Proof.
  destruct c; cbn [d_read]; rewrite <- lift_map; [rewrite lift_get_u8|rewrite lift_get_u16|rewrite lift_get_string|rewrite lift_get_bytes]; reflexivity.
Qed.

End Reading.

Section Writing.
Context (b : BytesMut) (r : rsock).
Notation p := (with_reading b r).

Lemma lift_write_buf st : d_write_buf (p st) = lift p (d_write_buf st).
Proof.
  unfold d_write_buf. cbn [write_buffer to_peer with_reading]. destruct (data (write_buffer st)); [reflexivity|].
  destruct (wacts (to_peer st)) as [|[]]; reflexivity.
Qed.

Lemma lift_append bs st : d_append bs (p st) = p (d_append bs st).
Proof. unfold d_append. cbn [write_buffer to_peer with_reading]. destruct (_ <? _); reflexivity. Qed.

Lemma lift_too_small n st : d_write_if_too_small n (p st) = lift p (d_write_if_too_small n st).
Proof.
  unfold d_write_if_too_small. change (write_buffer (p st)) with (write_buffer st). destruct (_ <=? _); [apply lift_write_buf|reflexivity].
Qed.

Lemma lift_put_u8 n st : d_put_u8 n (p st) = lift p (d_put_u8 n st).
Proof. unfold d_put_u8. rewrite lift_too_small. apply lift_bind. intros _ st1. now rewrite lift_append. Qed.

Lemma lift_put_u16 n st : d_put_u16 n (p st) = lift p (d_put_u16 n st).
Proof. unfold d_put_u16. rewrite lift_too_small. apply lift_bind. intros _ st1. now rewrite lift_append. Qed.

Lemma lift_pb_loop : forall fuel bs st, d_pb_loop fuel bs (p st) = lift p (d_pb_loop fuel bs st).
Proof.
  induction fuel as [|fuel IH]; intros bs st; [reflexivity|]. cbn [d_pb_loop]. destruct (0 <? lenN bs); [|reflexivity].
  change (write_buffer (p st)) with (write_buffer st). rewrite lift_too_small. apply lift_bind. intros _ st1. now rewrite lift_append, IH.
Qed.

Lemma lift_write c st : d_write c (p st) = lift p (d_write c st).
Proof.
  unfold d_write, d_map. rewrite <- lift_bind by reflexivity. f_equal. destruct c as [n|n|s|bs|].
  - apply lift_put_u8.
  - apply lift_put_u16.
  - unfold d_put_string. rewrite lift_put_u16. apply lift_bind. intros _ st1. unfold d_put_bytes. rewrite lift_pb_loop. now apply lift_bind.
  - apply lift_pb_loop.
  - unfold d_finish_packet. rewrite lift_write_buf. now apply lift_bind.
Qed.

End Writing.

(** ** The calls are those of the halves *)

Definition r_bind {A B} (o : rout A) (f : A -> rstream -> rout B) : rout B :=
  match o with
  | ROk a st => f a st
  | RErr e => RErr e | RPanic => RPanic | RWait => RWait | RHung => RHung | RNoFuel => RNoFuel
  end.

Lemma as_read_bind {A B} (o : dout A) (f : A -> dstream -> dout B) (o' : rout A) (g : A -> rstream -> rout B) :
  as_read o = o' -> (forall a st, as_read (f a st) = g a (reading_half st)) -> as_read (d_bind o f) = r_bind o' g.
Proof. intros <- H. destruct o; cbn [as_read d_bind r_bind]; auto. Qed.

Lemma read_buf_same st : as_read (d_read_buf st) = read_buf (reading_half st).
Proof.
  destruct st as [[d c] wb [arr en ch gr ru] w]. unfold d_read_buf, read_buf, grow_if_full, reading_half.
  cbn [read_buffer from_peer rbuf rsk data cap arriving ending chunks grants reuse].
  destruct (c =? lenN d); cbn [rbuf rsk arriving ending chunks grants reuse data cap]; (destruct arr; [destruct en|]); reflexivity.
Qed.

Lemma wait_loop_same n : forall fuel st, as_read (d_wait_loop fuel n st) = wait_for_data_loop fuel n (reading_half st).
Proof.
  induction fuel as [|fuel IH]; intros st; [reflexivity|]. cbn [d_wait_loop wait_for_data_loop].
  change (rbuf (reading_half st)) with (read_buffer st). destruct (lenN (data (read_buffer st)) <? n); [|reflexivity].
  rewrite (as_read_bind _ _ _ (fun a st' => if a =? 0 then match data (rbuf st') with [] => RErr ErrClosed | _ :: _ => RErr ErrInterrupted end
                                              else wait_for_data_loop fuel n st') (read_buf_same st)).
  - destruct (read_buf (reading_half st)); reflexivity.
  - intros a st1. destruct (a =? 0); [|apply IH]. change (rbuf (reading_half st1)) with (read_buffer st1). destruct (data (read_buffer st1)); reflexivity.
Qed.

Lemma wait_same n st : as_read (d_wait_for_data n st) = wait_for_data n (reading_half st).
Proof. apply wait_loop_same. Qed.

Lemma get_u8_same st : as_read (d_get_u8 st) = stream_get_u8 (reading_half st).
Proof.
  unfold d_get_u8, stream_get_u8. rewrite (as_read_bind _ _ _ (fun _ st' =>
    match data (rbuf st') with b :: _ => ROk b (set_rbuf (advance (reuse (rsk st')) 1 (rbuf st')) st') | [] => RPanic end) (wait_same 1 st)).
  - destruct (wait_for_data 1 (reading_half st)); reflexivity.
  - intros _ st1. cbn [rbuf rsk reading_half]. destruct (data (read_buffer st1)); reflexivity.
Qed.

Lemma get_u16_same st : as_read (d_get_u16 st) = stream_get_u16 (reading_half st).
Proof.
  unfold d_get_u16, stream_get_u16. rewrite (as_read_bind _ _ _ (fun _ st' =>
    match data (rbuf st') with b1 :: b0 :: _ => ROk (b2n b1 * 256 + b2n b0) (set_rbuf (advance (reuse (rsk st')) 2 (rbuf st')) st') | _ => RPanic end) (wait_same 2 st)).
  - destruct (wait_for_data 2 (reading_half st)); reflexivity.
  - intros _ st1. cbn [rbuf rsk reading_half]. destruct (data (read_buffer st1)) as [|b1 [|b0 r]]; reflexivity.
Qed.

Lemma gb_loop_same : forall fuel acc n st, as_read (d_gb_loop fuel acc n st) = gb_loop fuel acc n (reading_half st).
Proof.
  induction fuel as [|fuel IH]; intros acc n st; [reflexivity|]. cbn [d_gb_loop gb_loop]. unfold gb_step. destruct (0 <? n); [|reflexivity].
  change (rbuf (reading_half st)) with (read_buffer st). set (k := if cap (read_buffer st) <? n then cap (read_buffer st) else n).
  rewrite (as_read_bind _ _ _ (fun _ st' => gb_loop fuel (acc ++ takeN k (data (rbuf st'))) (n - k) (set_rbuf (consume k (rbuf st')) st')) (wait_same k st)).
  - destruct (wait_for_data k (reading_half st)); reflexivity.
  - intros _ st1. rewrite IH. reflexivity.
Qed.

Lemma get_bytes_same n st : as_read (d_get_bytes n st) = stream_get_bytes n (reading_half st).
Proof. unfold d_get_bytes, stream_get_bytes. destruct (isize_max <? n); [reflexivity|apply gb_loop_same]. Qed.

Lemma get_string_same st : as_read (d_get_string st) = run get_string (reading_half st).
Proof.
  unfold d_get_string, get_string. rewrite (as_read_bind _ _ _ (fun n st1 => r_bind (stream_get_bytes n st1) (fun bs st2 =>
    match from_utf8 bs with None => ROk bs st2 | Some v => RErr (ErrUtf8 (v + 1)) end)) (get_u16_same st)).
  - cbn [get_u16 get_bytes bind run]. destruct (stream_get_u16 (reading_half st)) as [n st1|e| | | |]; cbn [r_bind]; try reflexivity.
    destruct (stream_get_bytes n st1) as [bs st2|e| | | |]; cbn [r_bind]; try reflexivity. destruct (from_utf8 bs); reflexivity.
  - intros n st1. apply as_read_bind; [apply get_bytes_same|]. intros bs st2. destruct (from_utf8 bs); reflexivity.
Qed.

Lemma as_read_map {A B} (f : A -> B) o : as_read (d_map f o) = r_map f (as_read o).
Proof. destruct o; reflexivity. Qed.

(** Writing: a value is never lost, so that [as_written] of a call goes through its parts. *)
Definition w_bind (o : wout) (f : wstream -> wout) : wout := match o with WOk st => f st | o => o end.

Lemma as_written_bind {A B} (o : dout A) (f : A -> dstream -> dout B) o' g : as_written o = Some o' ->
  (forall a st, as_written (f a st) = Some (g (writing_half st))) -> as_written (d_bind o f) = Some (w_bind o' g).
Proof. intros H HF. destruct o; cbn [as_written] in H; try discriminate; injection H as <-; cbn [d_bind as_written w_bind]; auto. Qed.

Lemma write_buf_same st : as_written (d_write_buf st) = Some (write_buf (writing_half st)).
Proof.
  unfold d_write_buf, write_buf. cbn [wbuf wsk writing_half]. destruct (data (write_buffer st)); [reflexivity|].
  destruct (wacts (to_peer st)) as [|[]]; reflexivity.
Qed.

Lemma append_same bs st : writing_half (d_append bs st) = append bs (writing_half st).
Proof. unfold d_append, append. cbn [wbuf wsk writing_half]. destruct (_ <? _); reflexivity. Qed.

Lemma too_small_same n st : as_written (d_write_if_too_small n st) = Some (write_buffer_if_too_small n (writing_half st)).
Proof.
  unfold d_write_if_too_small, write_buffer_if_too_small. cbn [wbuf wsk writing_half]. destruct (_ <=? _); [apply write_buf_same|reflexivity].
Qed.

Lemma put_u8_same n st : as_written (d_put_u8 n st) = Some (run_put (PutU8 n) (writing_half st)).
Proof.
  unfold d_put_u8. rewrite (as_written_bind _ _ _ (fun st' => WOk (append (put_bytes_of (PutU8 n)) st')) (too_small_same 1 st)).
  - cbn [run_put]. destruct (write_buffer_if_too_small 1 (writing_half st)); reflexivity.
  - intros _ st1. cbn [as_written]. now rewrite append_same.
Qed.

Lemma put_u16_same n st : as_written (d_put_u16 n st) = Some (run_put (PutU16 n) (writing_half st)).
Proof.
  unfold d_put_u16. rewrite (as_written_bind _ _ _ (fun st' => WOk (append (put_bytes_of (PutU16 n)) st')) (too_small_same 2 st)).
  - cbn [run_put]. destruct (write_buffer_if_too_small 2 (writing_half st)); reflexivity.
  - intros _ st1. cbn [as_written]. now rewrite append_same.
Qed.

Lemma pb_loop_same : forall fuel bs st, as_written (d_pb_loop fuel bs st) = Some (pb_loop fuel bs (writing_half st)).
Proof.
  induction fuel as [|fuel IH]; intros bs st; [reflexivity|]. cbn [d_pb_loop pb_loop]. unfold pb_step. destruct (0 <? lenN bs); [|reflexivity].
  change (wbuf (writing_half st)) with (write_buffer st). set (k := if cap (write_buffer st) <? lenN bs then cap (write_buffer st) else lenN bs).
  rewrite (as_written_bind _ _ _ (fun st' => pb_loop fuel (dropN k bs) (append (takeN k bs) st')) (too_small_same k st)).
  - destruct (write_buffer_if_too_small k (writing_half st)); reflexivity.
  - intros _ st1. rewrite IH, append_same. reflexivity.
Qed.

Lemma as_written_unit {A B} (f : A -> B) o : as_written (d_bind o (fun a st => DOk (f a) st)) = as_written o.
Proof. destruct o; reflexivity. Qed.

Lemma write_same c st : as_written (d_write c st) = Some (half_write c (writing_half st)).
Proof.
  unfold d_write, d_map. rewrite as_written_unit. destruct c as [n|n|s|bs|]; cbn [half_write].
  - apply put_u8_same.
  - apply put_u16_same.
  - unfold d_put_string. rewrite (as_written_bind _ _ _ (fun st' => w_bind (run_put (PutBytes s) st') (fun st'' => WOk st'')) (put_u16_same _ st)).
    + unfold put_string. cbn [run_puts]. destruct (run_put (PutU16 _) _); cbn [w_bind]; try reflexivity; destruct (run_put (PutBytes s) _); reflexivity.
    + intros _ st1. apply as_written_bind; [apply pb_loop_same|]. reflexivity.
  - apply pb_loop_same.
  - unfold d_finish_packet. rewrite (as_written_unit (fun _ => tt)). apply write_buf_same.
Qed.

(** ** C129 *)

(** Each reading call gives what it gives on the reading half alone, and leaves the writing half as it is. *)
Theorem C129_read c st : as_read (d_read c st) = half_read c (reading_half st)
  /\ match d_read c st with DOk _ st' | DErr _ st' | DWait st' => writing_half st' = writing_half st | _ => True end.
Proof.
  split.
  - destruct c as [| | |n]; cbn [d_read half_read]; rewrite as_read_map;
      [rewrite get_u8_same|rewrite get_u16_same|rewrite get_string_same|rewrite get_bytes_same]; reflexivity.
  - pose proof (lift_read (write_buffer st) (to_peer st) c st) as H.
    change (with_writing (write_buffer st) (to_peer st) st) with (with_writing (write_buffer st) (to_peer st) st) in H.
    replace (with_writing (write_buffer st) (to_peer st) st) with st in H by (now destruct st).
    destruct (d_read c st) as [v st'|e st'|st'| | |]; auto; cbn [lift] in H; injection H as ->; reflexivity.
Qed.

Theorem C129_write c st : as_written (d_write c st) = Some (half_write c (writing_half st))
  /\ match d_write c st with DOk _ st' | DErr _ st' | DWait st' => reading_half st' = reading_half st | _ => True end.
Proof.
  split; [apply write_same|].
  pose proof (lift_write (read_buffer st) (from_peer st) c st) as H.
  replace (with_reading (read_buffer st) (from_peer st) st) with st in H by (now destruct st).
  destruct (d_write c st) as [v st'|e st'|st'| | |]; auto; cbn [lift] in H; injection H as ->; reflexivity.
Qed.

(** In a sequence of calls, what the reading calls give and leave is what they give and leave without the writing calls, whatever
    the writing half; and the other way round. *)
Definition reads (cs : list call) : list call := filter (fun c => match c with ReadCall _ => true | _ => false end) cs.
Definition writes (cs : list call) : list call := filter (fun c => match c with WriteCall _ => true | _ => false end) cs.
Fixpoint given_to (f : call -> bool) (cs : list call) (gs : list given) : list given :=
  match cs, gs with c :: cs', g :: gs' => (if f c then [g] else []) ++ given_to f cs' gs' | _, _ => [] end.

Definition outcome (o : dout value) : option (given * dstream) :=
  match o with DOk v st => Some (Gave v, st) | DErr e st => Some (Failed e, st) | DWait st => Some (GivenUp, st) | _ => None end.

Lemma calls_cons c cs st : d_calls (c :: cs) st
  = match outcome (d_call c st) with
    | Some (g, st1) => match d_calls cs st1 with Some (gs, st') => Some (g :: gs, st') | None => None end
    | None => None
    end.
Proof. cbn [d_calls]. destruct (d_call c st); reflexivity. Qed.

Lemma outcome_read c st st2 g st1 : reading_half st = reading_half st2 -> outcome (d_read c st) = Some (g, st1) ->
  exists st3, outcome (d_read c st2) = Some (g, st3) /\ reading_half st1 = reading_half st3.
Proof.
  intros HE HO. pose proof (lift_read (write_buffer st2) (to_peer st2) c st) as H.
  replace (with_writing (write_buffer st2) (to_peer st2) st) with st2 in H.
  - rewrite H. exists (with_writing (write_buffer st2) (to_peer st2) st1).
    destruct (d_read c st) as [v st'|e st'|st'| | |]; cbn [outcome lift] in *; try discriminate; injection HO as <- <-; split; reflexivity.
  - destruct st, st2. cbn in *. injection HE as -> ->. reflexivity.
Qed.

Lemma outcome_write c st st2 g st1 : writing_half st = writing_half st2 -> outcome (d_write c st) = Some (g, st1) ->
  exists st3, outcome (d_write c st2) = Some (g, st3) /\ writing_half st1 = writing_half st3.
Proof.
  intros HE HO. pose proof (lift_write (read_buffer st2) (from_peer st2) c st) as H.
  replace (with_reading (read_buffer st2) (from_peer st2) st) with st2 in H.
  - rewrite H. exists (with_reading (read_buffer st2) (from_peer st2) st1).
    destruct (d_write c st) as [v st'|e st'|st'| | |]; cbn [outcome lift] in *; try discriminate; injection HO as <- <-; split; reflexivity.
  - destruct st, st2. cbn in *. injection HE as -> ->. reflexivity.
Qed.

Theorem C129_apart : forall cs st gs st', d_calls cs st = Some (gs, st') ->
  (forall st2, reading_half st2 = reading_half st -> exists st2', d_calls (reads cs) st2
     = Some (given_to (fun c => match c with ReadCall _ => true | _ => false end) cs gs, st2') /\ reading_half st2' = reading_half st')
  /\ (forall st2, writing_half st2 = writing_half st -> exists st2', d_calls (writes cs) st2
     = Some (given_to (fun c => match c with WriteCall _ => true | _ => false end) cs gs, st2') /\ writing_half st2' = writing_half st').
Proof.
  induction cs as [|c cs IH]; intros st gs st' H.
  - cbn in H. injection H as <- <-. split; intros st2 HE; exists st2; auto.
  - rewrite calls_cons in H. destruct (outcome (d_call c st)) as [[g st1]|] eqn:HO; [|discriminate].
    destruct (d_calls cs st1) as [[gs1 st1']|] eqn:H1; [|discriminate]. injection H as <- <-. destruct (IH st1 gs1 st1' H1) as (IR & IW).
    destruct c as [c|c]; cbn [d_call] in HO; cbn [reads writes filter given_to app]; fold (reads cs); fold (writes cs).
    + split; intros st2 HE.
      * destruct (outcome_read c st st2 g st1 (eq_sym HE) HO) as (st3 & O3 & R3). destruct (IR st3 (eq_sym R3)) as (st2' & D2 & R2).
        exists st2'. rewrite calls_cons. cbn [d_call]. rewrite O3, D2. auto.
      * apply IW. rewrite HE. destruct (C129_read c st) as (_ & W). destruct (d_read c st); try discriminate; cbn [outcome] in HO; injection HO as <- <-; auto.
    + split; intros st2 HE.
      * apply IR. rewrite HE. destruct (C129_write c st) as (_ & W). destruct (d_write c st); try discriminate; cbn [outcome] in HO; injection HO as <- <-; auto.
      * destruct (outcome_write c st st2 g st1 (eq_sym HE) HO) as (st3 & O3 & R3). destruct (IW st3 (eq_sym R3)) as (st2' & D2 & R2).
        exists st2'. rewrite calls_cons. cbn [d_call]. rewrite O3, D2. auto.
Qed.

(** ** C130 *)

(** What has come and has not been given out; what has been put, sent or not. *)
Definition to_come (st : dstream) : bytes := data (read_buffer st) ++ arriving (from_peer st).
Definition put_so_far (st : dstream) : bytes := accepted (to_peer st) ++ data (write_buffer st).

Definition states {A} (P : dstream -> Prop) (o : dout A) : Prop :=
  match o with DOk _ st | DErr _ st | DWait st => P st | _ => True end.

Lemma read_buf_keeps st : states (fun st' => to_come st' = to_come st) (d_read_buf st).
Proof.
  destruct st as [[d c] wb [arr en ch gr ru] w]. unfold d_read_buf, to_come.
  cbn [read_buffer from_peer data cap arriving ending chunks grants reuse].
  destruct (c =? lenN d); cbn [arriving ending chunks grants reuse data cap]; (destruct arr as [|x arr]; [destruct en; reflexivity|]);
    cbn [states read_buffer from_peer set_from_peer set_read_buffer data arriving]; rewrite <- app_assoc; now rewrite takeN_dropN.
Qed.

Lemma wait_keeps n : forall fuel st, states (fun st' => to_come st' = to_come st) (d_wait_loop fuel n st)
  /\ match d_wait_loop fuel n st with DOk _ st' => n <= lenN (data (read_buffer st')) | _ => True end.
Proof.
  induction fuel as [|fuel IH]; intros st; [split; exact I|]. cbn [d_wait_loop].
  destruct (N.ltb_spec (lenN (data (read_buffer st))) n) as [L|L]; [|split; [reflexivity|exact L]].
  pose proof (read_buf_keeps st) as K. destruct (d_read_buf st) as [a st1|e st1|st1| | |]; cbn [d_bind states] in *; auto.
  destruct (a =? 0).
  - destruct (data (read_buffer st1)); cbn [states]; auto.
  - destruct (IH st1) as (I1 & I2). split; [|exact I2]. destruct (d_wait_loop fuel n st1); cbn [states] in *; congruence.
Qed.

Lemma u8_keeps st : match d_get_u8 st with
  | DOk b st' => to_come st = [b] ++ to_come st'
  | DErr _ st' | DWait st' => to_come st' = to_come st
  | _ => True end.
Proof.
  unfold d_get_u8. destruct (wait_keeps 1 (S (length (arriving (from_peer st)))) st) as (K & _). fold (d_wait_for_data 1 st) in K.
  destruct (d_wait_for_data 1 st) as [u st1|e st1|st1| | |]; cbn [d_bind states] in *; auto.
  unfold to_come in *. destruct (data (read_buffer st1)) as [|b r] eqn:E; [exact I|].
  cbn [read_buffer from_peer set_read_buffer advance data]. rewrite <- K, E. reflexivity.
Qed.

Lemma u16_keeps st : match d_get_u16 st with
  | DOk n st' => exists b1 b0, to_come st = [b1; b0] ++ to_come st' /\ n = b2n b1 * 256 + b2n b0
  | DErr _ st' | DWait st' => to_come st' = to_come st
  | _ => True end.
Proof.
  unfold d_get_u16. destruct (wait_keeps 2 (S (length (arriving (from_peer st)))) st) as (K & _). fold (d_wait_for_data 2 st) in K.
  destruct (d_wait_for_data 2 st) as [u st1|e st1|st1| | |]; cbn [d_bind states] in *; auto.
  unfold to_come in *. destruct (data (read_buffer st1)) as [|b1 [|b0 r]] eqn:E; [exact I|exact I|].
  exists b1, b0. cbn [read_buffer from_peer set_read_buffer advance data]. rewrite <- K, E. split; reflexivity.
Qed.

(** Waiting for no more than the capacity leaves it as it is. *)
Lemma wait_capacity n : forall fuel st u st', n <= cap (read_buffer st) -> d_wait_loop fuel n st = DOk u st' ->
  cap (read_buffer st') = cap (read_buffer st).
Proof.
  induction fuel as [|fuel IH]; intros st u st' HC H; [discriminate|]. cbn [d_wait_loop] in H.
  destruct (N.ltb_spec (lenN (data (read_buffer st))) n) as [L|L]; [|now injection H as _ <-].
  assert (K : match d_read_buf st with DOk _ st1 => cap (read_buffer st1) = cap (read_buffer st) | _ => True end).
  { unfold d_read_buf. destruct (N.eqb_spec (cap (read_buffer st)) (lenN (data (read_buffer st)))); [lia|].
    destruct (arriving (from_peer st)); [destruct (ending (from_peer st))|]; cbn; auto. }
  destruct (d_read_buf st) as [a st1|e st1|st1| | |]; cbn [d_bind] in H; try discriminate. destruct (a =? 0).
  - destruct (data (read_buffer st1)); discriminate.
  - rewrite <- K. apply (IH st1 u st'); [lia|exact H].
Qed.

(** With no capacity left the loop only spins. *)
Lemma gb_spins : forall fuel acc n st, 0 < n -> cap (read_buffer st) = 0 -> d_gb_loop fuel acc n st = DHung.
Proof.
  induction fuel as [|fuel IH]; intros acc n st HN HC; [reflexivity|]. cbn [d_gb_loop]. destruct (N.ltb_spec 0 n) as [_|]; [|lia].
  rewrite HC. destruct (N.ltb_spec 0 n) as [_|]; [|lia]. unfold d_wait_for_data. cbn [d_wait_loop].
  destruct (N.ltb_spec (lenN (data (read_buffer st))) 0) as [|_]; [lia|]. cbn [d_bind]. apply IH; [lia|].
  cbn [read_buffer set_read_buffer consume cap]. lia.
Qed.

Lemma bytes_keep n st : match d_get_bytes n st with
  | DOk bs st' => to_come st = bs ++ to_come st' /\ lenN bs = n
  | DErr _ st' | DWait st' => to_come st' = to_come st
  | _ => True end.
Proof.
  unfold d_get_bytes. destruct (isize_max <? n); [exact I|]. cbn [d_gb_loop]. destruct (N.ltb_spec 0 n) as [P|P].
  - set (k := if cap (read_buffer st) <? n then cap (read_buffer st) else n).
    destruct (wait_keeps k (S (length (arriving (from_peer st)))) st) as (K & L). fold (d_wait_for_data k st) in K, L.
    destruct (d_wait_for_data k st) as [u st1|e st1|st1| | |] eqn:EW; cbn [d_bind states] in *; auto.
    destruct (N.eq_dec k n) as [E|NE].
    + rewrite E in *. rewrite N.sub_diag. destruct (N.to_nat n) as [|f] eqn:EF; [lia|]. cbn [d_gb_loop]. change (0 <? 0) with false. cbv iota.
      unfold to_come in *. cbn [app read_buffer from_peer set_read_buffer consume data]. rewrite <- K, app_assoc, takeN_dropN. split; [reflexivity|].
      rewrite lenN_takeN. lia.
    + rewrite gb_spins; [exact I| |].
      * unfold k in *. destruct (N.ltb_spec (cap (read_buffer st)) n); lia.
      * cbn [read_buffer set_read_buffer consume cap]. pose proof (wait_capacity k _ st u st1 ltac:(unfold k; destruct (N.ltb_spec (cap (read_buffer st)) n); lia) EW). unfold k in *. destruct (N.ltb_spec (cap (read_buffer st)) n); lia.
  - cbn [app]. split; [reflexivity|]. unfold lenN. cbn [length]. lia.
Qed.

(** A reading call that succeeds takes its bytes from the front of what is to come.  One that fails or is given up takes nothing,
    except that a string's two bytes of size are gone once they have been read, and with them the string if it is not UTF-8. *)
Theorem C130_reading c st :
  match d_read c st with
  | DOk v st' => exists taken, to_come st = taken ++ to_come st'
      /\ match c, v with
         | CGetU8, VByte b => taken = [b]
         | CGetU16, VNumber n => exists b1 b0, taken = [b1; b0] /\ n = b2n b1 * 256 + b2n b0
         | CGetBytes n, VBytes bs => taken = bs /\ lenN bs = n
         | CGetString, VBytes s => exists b1 b0, taken = [b1; b0] ++ s /\ lenN s = b2n b1 * 256 + b2n b0 /\ from_utf8 s = None
         | _, _ => False
         end
  | DErr e st' => match c with
      | CGetString => to_come st' = to_come st
          \/ (exists b1 b0, to_come st = [b1; b0] ++ to_come st')
          \/ (exists b1 b0 s n, to_come st = [b1; b0] ++ s ++ to_come st' /\ lenN s = b2n b1 * 256 + b2n b0
                /\ from_utf8 s = Some n /\ e = ErrUtf8 (n + 1))
      | _ => to_come st' = to_come st
      end
  | DWait st' => match c with
      | CGetString => to_come st' = to_come st \/ exists b1 b0, to_come st = [b1; b0] ++ to_come st'
      | _ => to_come st' = to_come st
      end
  | _ => True
  end.
Proof.
  destruct c as [| | |n]; cbn [d_read].
  - pose proof (u8_keeps st) as K. destruct (d_get_u8 st); cbn [d_map d_bind] in *; eauto.
  - pose proof (u16_keeps st) as K. destruct (d_get_u16 st); cbn [d_map d_bind] in *; auto.
    destruct K as (b1 & b0 & K & ->). exists [b1; b0]. split; [exact K|]. eauto.
  - unfold d_get_string. pose proof (u16_keeps st) as K. destruct (d_get_u16 st) as [n st1|e st1|st1| | |]; cbn [d_map d_bind] in *; auto.
    destruct K as (b1 & b0 & K & EN). pose proof (bytes_keep n st1) as B. destruct (d_get_bytes n st1) as [s st2|e st2|st2| | |]; cbn [d_bind] in *; auto.
    + destruct B as (B & LB). destruct (from_utf8 s) as [k|] eqn:EU; cbn [d_bind].
      * right. right. exists b1, b0, s, k. rewrite K, B. repeat split; congruence.
      * exists ([b1; b0] ++ s). rewrite K, B, <- app_assoc. split; [reflexivity|]. exists b1, b0. repeat split; congruence.
    + right. left. exists b1, b0. now rewrite K, B.
    + right. exists b1, b0. now rewrite K, B.
  - pose proof (bytes_keep n st) as B. destruct (d_get_bytes n st) as [s st2|e st2|st2| | |]; cbn [d_map d_bind] in *; auto.
    destruct B as (B & LB). exists s. auto.
Qed.

(** ** Writing *)

Lemma write_buf_keeps st : states (fun st' => put_so_far st' = put_so_far st) (d_write_buf st).
Proof.
  unfold d_write_buf. destruct (data (write_buffer st)) as [|x d] eqn:ED; [reflexivity|].
  assert (K : forall n, accepted (to_peer st) ++ takeN n (x :: d) ++ dropN n (x :: d) = put_so_far st).
  { intros n. unfold put_so_far. now rewrite takeN_dropN, ED. }
  destruct (wacts (to_peer st)) as [|[n| |] rest]; cbn [states]; unfold put_so_far at 1;
    cbn [to_peer write_buffer set_to_peer set_write_buffer accepted advance data]; rewrite ?ED, ?app_assoc_reverse; auto.
  all: try (unfold put_so_far; now rewrite ED).
Qed.

Lemma too_small_keeps n st : states (fun st' => put_so_far st' = put_so_far st) (d_write_if_too_small n st).
Proof. unfold d_write_if_too_small. destruct (_ <=? _); [apply write_buf_keeps|reflexivity]. Qed.

Lemma append_puts bs st : put_so_far (d_append bs st) = put_so_far st ++ bs.
Proof. unfold d_append, put_so_far. destruct (_ <? _); cbn [to_peer write_buffer set_to_peer set_write_buffer accepted data]; now rewrite app_assoc. Qed.

(** [o] comes of putting [bs]: all of it, or, if it failed or was given up, less than all. *)
Definition puts {A} (bs : bytes) (st : dstream) (o : dout A) : Prop :=
  match o with
  | DOk _ st' => put_so_far st' = put_so_far st ++ bs
  | DErr _ st' | DWait st' => exists now later, bs = now ++ later /\ later <> [] /\ put_so_far st' = put_so_far st ++ now
  | _ => True
  end.

Lemma pb_puts : forall fuel bs st, puts bs st (d_pb_loop fuel bs st).
Proof.
  induction fuel as [|fuel IH]; intros bs st; [exact I|]. cbn [d_pb_loop]. destruct (N.ltb_spec 0 (lenN bs)) as [P|P].
  - set (k := if cap (write_buffer st) <? lenN bs then cap (write_buffer st) else lenN bs).
    pose proof (too_small_keeps k st) as K. destruct (d_write_if_too_small k st) as [u st1|e st1|st1| | |]; cbn [d_bind states puts] in *; auto.
    + specialize (IH (dropN k bs) (d_append (takeN k bs) st1)). destruct (d_pb_loop fuel (dropN k bs) (d_append (takeN k bs) st1));
        cbn [puts] in *; auto; rewrite append_puts, K in IH.
      * now rewrite IH, <- app_assoc, takeN_dropN.
      * destruct IH as (now & later & E & NE & IH). exists (takeN k bs ++ now), later. rewrite IH, <- !app_assoc, <- E, takeN_dropN. auto.
      * destruct IH as (now & later & E & NE & IH). exists (takeN k bs ++ now), later. rewrite IH, <- !app_assoc, <- E, takeN_dropN. auto.
    + exists [], bs. rewrite app_nil_r. repeat split; auto. intros ->. unfold lenN in P. cbn in P. lia.
    + exists [], bs. rewrite app_nil_r. repeat split; auto. intros ->. unfold lenN in P. cbn in P. lia.
  - cbn [puts]. destruct bs; [now rewrite app_nil_r|]. rewrite lenN_cons in P. lia.
Qed.

Lemma small_puts bs n st : bs <> [] -> puts bs st (d_bind (d_write_if_too_small n st) (fun _ st1 => DOk tt (d_append bs st1))).
Proof.
  intros NE. pose proof (too_small_keeps n st) as K. destruct (d_write_if_too_small n st); cbn [d_bind states puts] in *; auto.
  - now rewrite append_puts, K.
  - exists [], bs. rewrite app_nil_r. auto.
  - exists [], bs. rewrite app_nil_r. auto.
Qed.

(** The bytes of a writing call. *)
Definition bytes_of (c : write_call) : bytes :=
  match c with
  | CPutU8 n => [n2b n]
  | CPutU16 n => [n2b (n / 256); n2b n]
  | CPutString s => [n2b (lenN s mod 2 ^ 16 / 256); n2b (lenN s mod 2 ^ 16)] ++ s
  | CPutBytes bs => bs
  | CFinish => []
  end.

(** A writing call that succeeds puts its bytes behind all before.  One that fails or is given up has put a part from their front,
    not all; none at all of a single number.  [finish_packet] puts nothing in any case. *)
Theorem C130_writing c st :
  match d_write c st with
  | DOk _ st' => put_so_far st' = put_so_far st ++ bytes_of c
  | DErr _ st' | DWait st' => exists now later, bytes_of c = now ++ later /\ put_so_far st' = put_so_far st ++ now
      /\ match c with CFinish => now = [] | CPutU8 _ | CPutU16 _ => now = [] | CPutString _ => later <> [] /\ lenN now <> 1 | CPutBytes _ => later <> [] end
  | _ => True
  end.
Proof.
  unfold d_write, d_map. destruct c as [n|n|s|bs|]; cbn [bytes_of].
  - unfold d_put_u8. pose proof (too_small_keeps 1 st) as K. destruct (d_write_if_too_small 1 st); cbn [d_bind states] in *; auto.
    + now rewrite append_puts, K.
    + exists [], [n2b n]. rewrite app_nil_r. auto.
    + exists [], [n2b n]. rewrite app_nil_r. auto.
  - unfold d_put_u16. pose proof (too_small_keeps 2 st) as K. destruct (d_write_if_too_small 2 st); cbn [d_bind states] in *; auto.
    + now rewrite append_puts, K.
    + exists [], [n2b (n / 256); n2b n]. rewrite app_nil_r. auto.
    + exists [], [n2b (n / 256); n2b n]. rewrite app_nil_r. auto.
  - unfold d_put_string, d_put_u16. set (hd2 := [_; _]). pose proof (too_small_keeps 2 st) as K.
    destruct (d_write_if_too_small 2 st) as [u st1|e st1|st1| | |]; cbn [d_bind states] in *; auto.
    + unfold d_put_bytes. pose proof (pb_puts (S (length s)) s (d_append hd2 st1)) as P.
      destruct (d_pb_loop (S (length s)) s (d_append hd2 st1)); cbn [d_bind puts] in *; auto; rewrite append_puts, K in P.
      * now rewrite P, <- app_assoc.
      * destruct P as (now & later & E & NE & P). exists (hd2 ++ now), later. rewrite P, E, <- !app_assoc. repeat split; auto. rewrite lenN_app. unfold hd2, lenN. cbn [length]. lia.
      * destruct P as (now & later & E & NE & P). exists (hd2 ++ now), later. rewrite P, E, <- !app_assoc. repeat split; auto. rewrite lenN_app. unfold hd2, lenN. cbn [length]. lia.
    + exists [], (hd2 ++ s). rewrite app_nil_r. repeat split; auto; discriminate.
    + exists [], (hd2 ++ s). rewrite app_nil_r. repeat split; auto; discriminate.
  - unfold d_put_bytes. pose proof (pb_puts (S (length bs)) bs st) as P. destruct (d_pb_loop (S (length bs)) bs st); cbn [d_bind puts] in *; auto.
    + destruct P as (now & later & E & NE & P). exists now, later. auto.
    + destruct P as (now & later & E & NE & P). exists now, later. auto.
  - unfold d_finish_packet. pose proof (write_buf_keeps st) as K. destruct (d_write_buf st); cbn [d_bind states] in *; auto.
    + now rewrite K, app_nil_r.
    + exists [], []. split; [reflexivity|]. split; [now rewrite app_nil_r|reflexivity].
    + exists [], []. split; [reflexivity|]. split; [now rewrite app_nil_r|reflexivity].
Qed.

(** ** Cases *)

Definition ex_sock (arr : bytes) (en : peer_end) : rsock :=
  {| arriving := arr; ending := en; chunks := [3; 2]; grants := []; reuse := true |}.
Definition ex_out (acts : list wact) : wsock := {| accepted := []; wacts := acts; wgrants := []; wreuse := true |}.
Definition ex_calls : list call :=
  [ReadCall CGetU8; WriteCall (CPutString (str "hi")); ReadCall CGetU16; WriteCall CFinish; WriteCall (CPutU8 7); WriteCall CFinish; ReadCall (CGetBytes 2); ReadCall CGetU8].

Example C129_case : exists st',
  d_calls ex_calls (dstream_new 8 8 (ex_sock (str "abcde") PeerEof) (ex_out [WAccept 3; WFail]))
  = Some ([Gave (VByte x61); Gave VNone; Gave (VNumber 25187); Gave VNone; Gave VNone; Failed ErrIo; Gave (VBytes (str "de")); Failed ErrClosed], st')
  /\ accepted (to_peer st') = [x00; x02; x68] /\ data (write_buffer st') = [x69; x07].
Proof. eexists. split; [vm_compute; reflexivity|]. split; vm_compute; reflexivity. Qed.

(** A string of five bytes of which three are there: given up and asked for again, its first two bytes are taken for a size; a
    [get_bytes] given up loses nothing. *)
Example C130_case :
  let arr := {| arriving := [x00; x05; x00; x01; x63]; ending := PeerOpen; chunks := []; grants := []; reuse := true |} in
  let st := dstream_new 64 64 arr (ex_out [WBlock]) in
  (exists st', d_calls [ReadCall CGetString; ReadCall CGetString] st = Some ([GivenUp; Gave (VBytes (str "c"))], st'))
  /\ (exists st', d_calls [ReadCall (CGetBytes 6); ReadCall (CGetBytes 5)] st = Some ([GivenUp; Gave (VBytes [x00; x05; x00; x01; x63])], st'))
  /\ (exists st', d_calls [WriteCall (CPutBytes (repeat x61 100))] st = Some ([GivenUp], st') /\ put_so_far st' = repeat x61 64).
Proof. split; [|split]; eexists; vm_compute; try split; reflexivity. Qed.
