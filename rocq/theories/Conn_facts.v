(** The read loop of a connection, byte level. *)
From Verif Require Import Base Base_facts Utf8 Spec_utf8 Utf8_facts Packets Spec_wire Decoder
  ReadStream Plain ReadStream_facts Plain_facts Decoder_facts Panic_facts Hang_facts Conn Encoder_facts.
Open Scope N_scope.
Ltac Zify.zify_post_hook ::= Z.div_mod_to_equations.

(** What determines a stream's future, whatever the segmentation (before bytes 1.7). *)
Definition same (s1 s2 : rstream) : Prop :=
  pending s1 = pending s2 /\ ending (rsk s1) = ending (rsk s2)
  /\ cap (rbuf s1) = cap (rbuf s2) /\ grants (rsk s1) = grants (rsk s2)
  /\ reuse (rsk s1) = false /\ reuse (rsk s2) = false.

Lemma run_same {A} (m : rd A) s1 s2 : wf s1 -> wf s2 -> same s1 s2 ->
  match run m s1, run m s2 with
  | ROk a1 t1, ROk a2 t2 => a1 = a2 /\ same t1 t2 /\ wf t1 /\ wf t2
  | RErr e1, RErr e2 => e1 = e2
  | RPanic, RPanic | RWait, RWait | RHung, RHung | RNoFuel, RNoFuel => True
  | _, _ => False
  end.
Proof.
  intros W1 W2 (Hp & He & Hc & Hg & Hu1 & Hu2).
  destruct (run_eq m s1 W1) as (E1 & G1). destruct (run_eq m s2 W2) as (E2 & G2).
  rewrite given_back_old in E1 by exact Hu1. rewrite given_back_old in E2 by exact Hu2.
  rewrite Hp, He, Hc, Hg in E1. rewrite <- E2 in E1.
  destruct (run m s1) as [a1 t1|e1| | | |], (run m s2) as [a2 t2|e2| | | |]; cbn in E1; try discriminate; auto.
  - injection E1 as E11 E12 E13 E14. destruct G1 as (G11 & G12 & G13), G2 as (G21 & G22 & G23).
    repeat split; auto; congruence.
  - congruence.
Qed.

Lemma read_packet_consumes dbg st p st' : wf st -> stream_read_packet dbg st = ROk p st' ->
  wf st' /\ ending (rsk st') = ending (rsk st) /\ decode dbg (pending st) = POk p (pending st')
  /\ (length (pending st') < length (pending st))%nat.
Proof.
  intros W H. unfold stream_read_packet in H.
  assert (HN : run (read_packet (S (length (pending st))) dbg) st <> RHung) by congruence.
  pose proof (run_plain _ st W HN) as HP. fold (decode dbg (pending st)) in HP.
  destruct (decode dbg (pending st)) as [a r|e| |l|] eqn:ED; try congruence.
  - destruct HP as (st2 & HP & Hpend & W2 & He & _). rewrite H in HP. injection HP as -> ->.
    split; [exact W2|]. split; [exact He|]. split; [now rewrite Hpend|]. rewrite Hpend.
    unfold decode in ED. rewrite read_packet_dispatch, plain_bind, plain_get_u8 in ED.
    destruct (pending st) as [|b t]; [discriminate|]. cbn [pbind] in ED.
    destruct (plain_suffix _ _ _ _ ED) as [u ->]. cbn [length]. rewrite app_length. lia.
  - rewrite H in HP. cbn in HP. destruct (ending (rsk st)); discriminate.
Qed.

(** Any fuel above the number of pending bytes gives the same result, and never runs out. *)
Lemma read_all_loop_fuel dbg f1 : forall f2 st, wf st ->
  (length (pending st) < f1)%nat -> (length (pending st) < f2)%nat ->
  read_all_loop f1 dbg st = read_all_loop f2 dbg st /\ snd (read_all_loop f1 dbg st) <> EndNoFuel.
Proof.
  induction f1 as [|f1 IH]; intros f2 st W H1 H2; [lia|]. destruct f2 as [|f2]; [lia|].
  cbn [read_all_loop].
  pose proof (stream_read_packet_fuel dbg st W) as HF.
  destruct (stream_read_packet dbg st) as [p st'|e| | | |] eqn:E; try (split; [reflexivity|cbn; congruence]).
  destruct (read_packet_consumes dbg st p st' W E) as (W' & He & HD & HL).
  destruct (IH f2 st' W' ltac:(lia) ltac:(lia)) as [E1 E2].
  rewrite <- E1. destruct (read_all_loop f1 dbg st') as [ps e]. split; [reflexivity|exact E2].
Qed.

Theorem read_all_fuel dbg st : wf st -> snd (read_all dbg st) <> EndNoFuel.
Proof. intros W. unfold read_all. eapply read_all_loop_fuel; [exact W| |]; apply Nat.lt_succ_diag_r. Qed.

(** One step. *)
Lemma read_all_step dbg st : wf st ->
  read_all dbg st =
  match stream_read_packet dbg st with
  | ROk p st' => let '(ps, e) := read_all dbg st' in (p :: ps, e)
  | RErr e => ([], EndErr e)
  | RPanic => ([], EndPanic)
  | RWait => ([], EndWait)
  | RHung => ([], EndHung)
  | RNoFuel => ([], EndNoFuel)
  end.
Proof.
  intros W. unfold read_all at 1. cbn [read_all_loop].
  destruct (stream_read_packet dbg st) as [p st'|e| | | |] eqn:E; try reflexivity.
  destruct (read_packet_consumes dbg st p st' W E) as (W' & He & HD & HL).
  unfold read_all.
  destruct (read_all_loop_fuel dbg (length (pending st)) (S (length (pending st'))) st' W' ltac:(lia) ltac:(lia)) as [-> _].
  reflexivity.
Qed.

(** Before bytes 1.7 segmentation does not matter at all. *)
Theorem read_all_same dbg s1 s2 : wf s1 -> wf s2 -> same s1 s2 -> read_all dbg s1 = read_all dbg s2.
Proof.
  intros W1 W2 HS. unfold read_all. destruct HS as (Hp & HS'). rewrite Hp.
  assert (HS : same s1 s2) by (split; assumption). clear Hp HS'.
  generalize (S (length (pending s2))) at 1 2. intros fuel. revert s1 s2 W1 W2 HS.
  induction fuel as [|fuel IH]; intros s1 s2 W1 W2 HS; [reflexivity|].
  cbn [read_all_loop]. unfold stream_read_packet.
  pose proof (run_same (read_packet (S (length (pending s2))) dbg) s1 s2 W1 W2 HS) as HR.
  pose proof HS as (Hp & _). rewrite Hp.
  destruct (run (read_packet (S (length (pending s2))) dbg) s1) as [p1 t1|e1| | | |],
           (run (read_packet (S (length (pending s2))) dbg) s2) as [p2 t2|e2| | | |]; try contradiction; try reflexivity.
  - destruct HR as (-> & HS' & W1' & W2'). now rewrite (IH t1 t2).
  - now rewrite HR.
Qed.

(** With different buffers or allocators, one packet list is a prefix of the other, and they are
    equal unless one of the runs spins forever. *)
Theorem read_all_agree dbg s1 s2 : wf s1 -> wf s2 ->
  pending s1 = pending s2 -> ending (rsk s1) = ending (rsk s2) ->
  (snd (read_all dbg s1) = EndHung /\ exists l, fst (read_all dbg s2) = fst (read_all dbg s1) ++ l)
  \/ (snd (read_all dbg s2) = EndHung /\ exists l, fst (read_all dbg s1) = fst (read_all dbg s2) ++ l)
  \/ read_all dbg s1 = read_all dbg s2.
Proof.
  intros W1 W2 Hp He. remember (length (pending s1)) as n eqn:Hn.
  revert s1 s2 W1 W2 Hp He Hn. induction n as [n IH] using lt_wf_ind. intros s1 s2 W1 W2 Hp He Hn.
  rewrite (read_all_step dbg s1 W1), (read_all_step dbg s2 W2).
  destruct (stream_read_packet dbg s1) as [p1 t1|e1| | | |] eqn:E1.
  5: { left. split; [reflexivity|]. eexists. reflexivity. }
  all: destruct (stream_read_packet dbg s2) as [p2 t2|e2| | | |] eqn:E2;
    try (right; left; split; [reflexivity|]; eexists; reflexivity).
  all: assert (HA : match stream_read_packet dbg s1, stream_read_packet dbg s2 with
      | ROk a1 t1, ROk a2 t2 => a1 = a2 /\ pending t1 = pending t2 /\ wf t1 /\ wf t2
                            /\ ending (rsk t1) = ending (rsk t2)
      | RErr e1, RErr e2 => e1 = e2 | RPanic, RPanic => True | RWait, RWait => True | RNoFuel, RNoFuel => True
      | _, _ => False end)
    by (unfold stream_read_packet; rewrite <- Hp; unfold stream_read_packet in E1, E2; rewrite <- Hp in E2;
        apply run_agree; auto; congruence).
  all: rewrite E1, E2 in HA; try contradiction; try (right; right; reflexivity).
  - destruct HA as (-> & Hp' & W1' & W2' & He').
    destruct (read_packet_consumes dbg s1 p2 t1 W1 E1) as (_ & _ & _ & HL).
    specialize (IH (length (pending t1)) ltac:(lia) t1 t2 W1' W2' Hp' He' eq_refl).
    destruct (read_all dbg t1) as [ps1 x1], (read_all dbg t2) as [ps2 x2]. cbn [fst snd] in *.
    destruct IH as [(-> & l & ->)|[(-> & l & ->)|IH]].
    + left. split; [reflexivity|]. now exists l.
    + right. left. split; [reflexivity|]. now exists l.
    + right. right. now injection IH as -> ->.
  - right; right. now rewrite HA.
Qed.

(** ** Reading what was sent *)

(** A packet as sent, with its length in at most three digits. *)
Definition sent_as (p : ControlPacket) (bs : bytes) : Prop :=
  packet_ok p /\ readable p = true /\
  exists h, varint h (lenN (packet_body p)) /\ (length h <= 3)%nat
            /\ bs = n2b (head_byte p) :: h ++ packet_body p.

Lemma decode_sent dbg p bs r : sent_as p bs -> decode dbg (bs ++ r) = POk p r.
Proof.
  intros (Hok & Hr & h & Hv & Hh & ->). cbn [app]. rewrite <- app_assoc.
  now apply decode_wire.
Qed.

(** A stream on which complete packets arrive and fit the capacity reads exactly them. *)
Theorem read_all_sent dbg ps : forall bss st rest, wf st -> Forall2 sent_as ps bss ->
  pending st = concat bss ++ rest ->
  lenN (concat bss) <= cap (rbuf st) ->
  exists st', wf st' /\ pending st' = rest /\ ending (rsk st') = ending (rsk st)
    /\ cap (rbuf st) - lenN (concat bss) <= cap (rbuf st') <= cap (rbuf st)
    /\ (reuse (rsk st) = false -> cap (rbuf st') = cap (rbuf st) - lenN (concat bss))
    /\ grants (rsk st') = grants (rsk st) /\ reuse (rsk st') = reuse (rsk st)
    /\ read_all dbg st = let '(qs, e) := read_all dbg st' in (ps ++ qs, e).
Proof.
  induction ps as [|p ps IH]; intros bss st rest W HF Hp Hc.
  - inversion HF; subst. cbn [concat app] in *. rewrite lenN_nil in *. exists st. repeat split; auto; [lia|lia|lia|].
    destruct (read_all dbg st); reflexivity.
  - inversion HF as [|? bs ? bss' HS HF']; subst. cbn [concat] in *. rewrite <- app_assoc in Hp.
    rewrite lenN_app in *.
    assert (HD : plain (read_packet (S (length (pending st))) dbg) (pending st) = POk p (concat bss' ++ rest)).
    { fold (decode dbg (pending st)). rewrite Hp. apply decode_sent. exact HS. }
    destruct (run_fits _ st p bs _ W Hp HD ltac:(lia)) as (st1 & HR & Hp1 & W1 & He1 & Hc1 & Hx1 & Hg1 & Hu1).
    destruct (IH bss' st1 rest W1 HF' Hp1 ltac:(lia)) as (st2 & W2 & Hp2 & He2 & Hc2 & Hx2 & Hg2 & Hu2 & HR2).
    exists st2. split; [exact W2|]. split; [exact Hp2|]. split; [congruence|]. split; [lia|].
    split; [intros Hu; rewrite Hx2, Hx1 by congruence; lia|]. split; [congruence|]. split; [congruence|].
    rewrite (read_all_step dbg st W). unfold stream_read_packet. rewrite HR.
    rewrite HR2. destruct (read_all dbg st2) as [qs e]. reflexivity.
Qed.

(** And in general, whatever the capacity: exactly the packets sent, in order, or a prefix of them
    followed by a spin. *)
Theorem read_all_sent_any dbg ps : forall bss st rest, wf st -> Forall2 sent_as ps bss ->
  pending st = concat bss ++ rest ->
  (exists n, read_all dbg st = (firstn n ps, EndHung))
  \/ exists st', wf st' /\ pending st' = rest /\ ending (rsk st') = ending (rsk st)
      /\ read_all dbg st = let '(qs, e) := read_all dbg st' in (ps ++ qs, e).
Proof.
  induction ps as [|p ps IH]; intros bss st rest W HF Hp.
  - inversion HF; subst. cbn [concat app] in *. right. exists st. repeat split; auto.
    destruct (read_all dbg st); reflexivity.
  - inversion HF as [|? bs ? bss' HS HF']; subst. cbn [concat] in *. rewrite <- app_assoc in Hp.
    assert (HD : decode dbg (pending st) = POk p (concat bss' ++ rest)).
    { rewrite Hp. apply decode_sent. exact HS. }
    rewrite (read_all_step dbg st W).
    destruct (stream_read_packet dbg st) as [q st1|e| | | |] eqn:E.
    + destruct (read_packet_consumes dbg st q st1 W E) as (W1 & He1 & HD1 & _).
      rewrite HD in HD1. injection HD1 as <- Hp1.
      destruct (IH bss' st1 rest W1 HF' (eq_sym Hp1)) as [(n & ->)|(st2 & W2 & Hp2 & He2 & ->)].
      * left. now exists (S n).
      * right. exists st2. repeat split; auto; [congruence|]. destruct (read_all dbg st2); reflexivity.
    + exfalso. assert (HN : run (read_packet (S (length (pending st))) dbg) st <> RHung)
        by (unfold stream_read_packet in E; congruence).
      pose proof (run_plain _ st W HN) as HP. fold (decode dbg (pending st)) in HP. rewrite HD in HP.
      destruct HP as (? & HP & _). unfold stream_read_packet in E. congruence.
    + exfalso. assert (HN : run (read_packet (S (length (pending st))) dbg) st <> RHung)
        by (unfold stream_read_packet in E; congruence).
      pose proof (run_plain _ st W HN) as HP. fold (decode dbg (pending st)) in HP. rewrite HD in HP.
      destruct HP as (? & HP & _). unfold stream_read_packet in E. congruence.
    + exfalso. assert (HN : run (read_packet (S (length (pending st))) dbg) st <> RHung)
        by (unfold stream_read_packet in E; congruence).
      pose proof (run_plain _ st W HN) as HP. fold (decode dbg (pending st)) in HP. rewrite HD in HP.
      destruct HP as (? & HP & _). unfold stream_read_packet in E. congruence.
    + left. now exists 0%nat.
    + exfalso. now apply (stream_read_packet_fuel dbg st W).
Qed.
