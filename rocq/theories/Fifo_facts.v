(** What the order of places in the handler's channel does and does not change. *)
From Coq Require Import Permutation.
From Verif Require Import Base Base_facts Packets HashMap Messaging Handler Decoder ReadStream ReadStream_facts
  Conn Encoder WriteStream System System_facts System_fair Live Live_facts Prop_live Live_fair Fifo.
Open Scope nat_scope.
Local Notation S := Datatypes.S.

Lemma mem_In k l : mem k l = true <-> In k l.
Proof.
  unfold mem. rewrite existsb_exists. split; [intros (x & H & E)|intros H; exists k].
  - apply Nat.eqb_eq in E. now subst.
  - split; [exact H|apply Nat.eqb_refl].
Qed.

Lemma drop_In x k l : In x (drop k l) <-> In x l /\ x <> k.
Proof.
  unfold drop. rewrite filter_In. split; intros (H & E); (split; [exact H|]).
  - intros ->. now rewrite Nat.eqb_refl in E.
  - destruct (Nat.eqb_spec k x) as [->|]; [congruence|reflexivity].
Qed.

Lemma drop_out k l : ~ In k l -> drop k l = l.
Proof.
  intros H. induction l as [|x l IH]; [reflexivity|]. unfold drop in *. cbn [filter]. destruct (Nat.eqb_spec k x) as [->|]; [destruct H; now left|].
  cbn [negb]. now rewrite IH by (intros K; apply H; now right).
Qed.

Lemma drop_length k l : NoDup l -> In k l -> length l = S (length (drop k l)).
Proof.
  induction l as [|x l IH]; intros HN HI; [destruct HI|]. inversion HN as [|? ? H1 H2]; subst. unfold drop. cbn [filter length].
  fold (drop k l). destruct (Nat.eqb_spec k x) as [->|Hd]; cbn [negb length].
  - now rewrite drop_out by exact H1.
  - destruct HI as [->|HI]; [congruence|]. now rewrite (IH H2 HI).
Qed.

Lemma drop_app k a b : drop k (a ++ b) = drop k a ++ drop k b.
Proof. unfold drop. apply filter_app. Qed.

Lemma NoDup_left {A} (a b : list A) : NoDup (a ++ b) -> NoDup a.
Proof.
  induction a as [|x a IH]; intros H; [constructor|]. cbn in H. inversion H as [|? ? H1 H2]; subst. constructor; [|exact (IH H2)].
  intros K. apply H1, in_or_app. now left.
Qed.

Lemma drop_NoDup k l : NoDup l -> NoDup (drop k l).
Proof. apply NoDup_filter. Qed.

(** ** Each step is a step without the queue, or queueing up *)

Lemma fifo_live auth dbg f a f' : fifo_step auth dbg f a = Some f' ->
  if joins f a then base f' = base f else live_step auth dbg (base f) a = Some (base f').
Proof.
  intros H.
  assert (G : forall g, option_map g (live_step auth dbg (base f) a) = Some f' -> (forall s, base (g s) = s) ->
    live_step auth dbg (base f) a = Some (base f')).
  { intros g E HB. destruct (live_step auth dbg (base f) a) as [s|]; [|discriminate]. injection E as <-. now rewrite HB. }
  assert (G2 : option_map (fun s => if handler_alive (hdl s) then if takes (base f) a then hand_over f s else keep f s else closed s)
      (live_step auth dbg (base f) a) = Some f' -> live_step auth dbg (base f) a = Some (base f')).
  { intros E. eapply G; [exact E|]. intros s. cbv beta. destruct (handler_alive (hdl s)); [|reflexivity]. destruct (takes (base f) a); [|reflexivity].
    unfold hand_over. now destruct (waiting f). }
  destruct a as [l|k bs sz|k e|k ra]; [|exact (G2 H)|exact (G2 H)|exact (G2 H)].
  destruct l as [r w ad|k u|k|now| | | | |]; try exact (G2 H).
  unfold fifo_step in H. unfold joins. destruct (pushing (base f) k && handler_alive (hdl (base f))) eqn:EP; cbn [andb].
  2:{ eapply G; [exact H|reflexivity]. }
  destruct (mem k (granted f)) eqn:EG; cbn [negb andb]; [eapply G; [exact H|reflexivity]|].
  destruct (mem k (waiting f)) eqn:EW; cbn [negb andb]; [discriminate|].
  destruct (has_place f) eqn:ER; cbn [negb]; [eapply G; [exact H|reflexivity]|].
  destruct (running (base f)); [|discriminate]. injection H as <-. reflexivity.
Qed.

(** ** What a step does to the channel *)

Lemma read_kept auth dbg s a s' k c : live_step auth dbg s a = Some s' -> (forall u, a <> Own (LReader k u)) -> nth_error (conns s) k = Some c ->
  exists c', nth_error (conns s') k = Some c' /\ same_place (c_reader c) (c_reader c').
Proof.
  intros HS HN Hk.
  assert (P : (forall l, a <> Own l) -> exists c', nth_error (conns s') k = Some c' /\ same_place (c_reader c) (c_reader c')).
  { intros HP. destruct (peer_frame _ _ _ _ _ HS HP) as (_ & _ & _ & _ & _ & _ & _ & H).
    destruct (H k c Hk) as (c' & H1 & _ & _ & _ & _ & H2 & _). eauto. }
  destruct a as [l|k0 bs sz|k0 e|k0 ra]; try (apply P; intros; discriminate).
  destruct (conn_frame _ _ _ _ _ _ _ HS Hk) as (c' & H1 & _ & _ & _ & H2 & _). exists c'. split; [exact H1|].
  destruct H2 as (-> & _); [|apply same_place_refl]. intros u ->. now destruct (HN u).
Qed.

Lemma pushing_some s k : pushing s k = true <-> exists c e cid st, nth_error (conns s) k = Some c /\ c_reader c = RPush e cid st.
Proof.
  unfold pushing. split.
  - destruct (nth_error (conns s) k) as [c|]; [|discriminate]. destruct (c_reader c) eqn:E; try discriminate. intros _. exists c. eauto 6.
  - intros (c & e & cid & st & -> & ->). reflexivity.
Qed.

Lemma pushing_kept auth dbg s a s' k : live_step auth dbg s a = Some s' -> (forall u, a <> Own (LReader k u)) -> pushing s k = true -> pushing s' k = true.
Proof.
  intros HS HN HP. apply pushing_some in HP. destruct HP as (c & e & cid & st & Hk & ER).
  destruct (read_kept _ _ _ _ _ k c HS HN Hk) as (c' & H1 & H2). apply pushing_some. rewrite ER in H2.
  destruct (c_reader c') eqn:E; try destruct H2. exists c'. eauto 6.
Qed.

Lemma reader_push auth dbg s k u s' : live_step auth dbg s (Own (LReader k u)) = Some s' -> pushing s k = true -> handler_alive (hdl s) = true ->
  length (events s') = S (length (events s)) /\ length (events s) < channel_size /\ hdl s' = hdl s /\ pushing s' k = false.
Proof.
  intros HS HP HA. apply pushing_some in HP. destruct HP as (c & e & cid & st & Hk & ER). cbn [live_step] in HS. unfold step, step_reader in HS.
  destruct (running s); [|discriminate]. rewrite Hk, ER, HA in HS. destruct (length (events s) <? channel_size) eqn:EL; [|discriminate].
  injection HS as <-. apply Nat.ltb_lt in EL. cbn [events set_events hdl]. rewrite app_length. cbn [length]. repeat split; auto; [lia|].
  unfold pushing. cbn [conns set_events set_conn set_conns]. now rewrite nth_update, Nat.eqb_refl, Hk.
Qed.

Lemma reader_other auth dbg s k u s' : live_step auth dbg s (Own (LReader k u)) = Some s' -> pushing s k && handler_alive (hdl s) = false ->
  events s' = events s /\ hdl s' = hdl s.
Proof.
  intros HS HP. cbn [live_step] in HS. unfold step, step_reader in HS. unfold pushing in HP.
  destruct (running s); [|discriminate]. destruct (nth_error (conns s) k) as [c|]; [|discriminate].
  destruct (c_reader c) as [rs|e cid rs|cid rs|]; [| | |discriminate].
  - destruct (stream_read_packet dbg rs) as [p rs'| | | | |]; try discriminate; [destruct p| |]; injection HS as <-; now split.
  - cbn [andb] in HP. rewrite HP in HS. injection HS as <-. now split.
  - destruct (stream_read_packet dbg rs); try discriminate; injection HS as <-; now split.
Qed.

Lemma other_step auth dbg s a s' : live_step auth dbg s a = Some s' -> (forall k u, a <> Own (LReader k u)) -> handler_alive (hdl s') = true ->
  handler_alive (hdl s) = true
  /\ if takes s a then length (events s) = S (length (events s')) /\ length (handled s') = S (length (handled s))
     else events s' = events s /\ handled s' = handled s.
Proof.
  intros HS HN HA.
  assert (P : (forall l, a <> Own l) -> handler_alive (hdl s) = true /\ events s' = events s /\ handled s' = handled s).
  { intros HP. destruct (peer_frame _ _ _ _ _ HS HP) as (E1 & E3 & _ & _ & E2 & _). rewrite <- E1. auto. }
  destruct a as [l|k0 bs sz|k0 e|k0 ra]; try (apply P; intros; discriminate).
  cbn [live_step] in HS. unfold step in HS. unfold takes. destruct (running s); [|discriminate].
  destruct l as [r w ad|k u|k|now| | | | |].
  - destruct (listeners s); [discriminate|]. injection HS as <-. now split.
  - now destruct (HN k u).
  - unfold step_writer in HS. destruct (nth_error (conns s) k) as [c|]; [|discriminate].
    destruct (c_writer c) as [ws|p ws|ws]; [| |discriminate].
    + destruct (c_queue c) as [|[f [p|]] q]; [destruct (has_sender s k c); [discriminate|]| |]; injection HS as <-; now split.
    + destruct (write_packet p ws); try discriminate; injection HS as <-; now split.
  - unfold step_handler in HS. destruct (hdl s) as [|tx p| |]; try discriminate.
    + destruct (events s) as [|e es] eqn:EE; [discriminate|]. injection HS as <-. cbn. rewrite app_length. cbn. repeat split; lia.
    + split; [reflexivity|]. destruct p as [| |R op g|to e p].
      * injection HS as <-. now split.
      * injection HS as <-. discriminate HA.
      * destruct (serve _ op). injection HS as <-. now split.
      * destruct (nth_error _ to) as [c|]; [|discriminate].
        destruct (c_writer c); try (destruct (_ <? _); [|discriminate]); injection HS as <-; try discriminate HA; now split.
  - destruct (hdl s) eqn:EH; try discriminate. destruct (ctrl_c s); [|discriminate]. injection HS as <-. discriminate HA.
  - destruct (listeners s); [discriminate|]. destruct (ctrl_c s); [|discriminate]. injection HS as <-. now split.
  - destruct (_ && _); [|discriminate]. injection HS as <-. now split.
  - destruct (main s); try discriminate. destruct (_ || _); injection HS as <-; now split.
  - unfold step_main in HS. destruct (main s); try discriminate.
    + destruct (Nat.eqb _ _); [|discriminate]. injection HS as <-. now split.
    + destruct (service_running s); [discriminate|]. injection HS as <-. now split.
    + destruct (hdl s) eqn:EH; try discriminate; injection HS as <-; cbn [hdl set_main] in HA; rewrite EH in HA; discriminate HA.
Qed.

Lemma reader_handled auth dbg s k u s' : live_step auth dbg s (Own (LReader k u)) = Some s' -> handled s' = handled s.
Proof. intros HS. now destruct (handler_frame auth dbg s (LReader k u) s' HS I) as (_ & H & _). Qed.

(** A channel whose receiver is gone has none waiting; else those with a place and those waiting are different read tasks, all
    at [send], there are no more places than there are, and nobody waits while one is free. *)
Definition fifo_ok (f : fsys) : Prop :=
  if handler_alive (hdl (base f)) then
    NoDup (granted f ++ waiting f)
    /\ (forall k, In k (granted f ++ waiting f) -> pushing (base f) k = true)
    /\ length (events (base f)) + length (granted f) <= channel_size
    /\ (waiting f <> [] -> length (events (base f)) + length (granted f) = channel_size)
  else waiting f = [] /\ granted f = [].

Inductive moved (f : fsys) (a : act) (f' : fsys) : Prop :=
| MPush k u : a = Own (LReader k u) -> In k (granted f) -> granted f' = drop k (granted f) -> waiting f' = waiting f ->
    joins f a = false -> handled (base f') = handled (base f) -> moved f a f'
| MJoin k u : a = Own (LReader k u) -> joins f a = true -> base f' = base f -> granted f' = granted f -> waiting f' = waiting f ++ [k] ->
    moved f a f'
| MTake : takes (base f) a = true -> length (handled (base f')) = S (length (handled (base f))) ->
    granted f' = granted f ++ firstn 1 (waiting f) -> waiting f' = skipn 1 (waiting f) -> joins f a = false -> moved f a f'
| MKeep : takes (base f) a = false -> granted f' = granted f -> waiting f' = waiting f -> joins f a = false ->
    (forall k u, a = Own (LReader k u) -> ~ In k (granted f)) -> handled (base f') = handled (base f) -> moved f a f'.

Lemma joins_reader f k u : joins f (Own (LReader k u)) = true ->
  pushing (base f) k = true /\ handler_alive (hdl (base f)) = true /\ ~ In k (granted f) /\ ~ In k (waiting f) /\ has_place f = false.
Proof.
  unfold joins. intros H. apply andb_true_iff in H. destruct H as (H & H5). apply andb_true_iff in H. destruct H as (H & H4).
  apply andb_true_iff in H. destruct H as (H & H3). apply andb_true_iff in H. destruct H as (H1 & H2).
  apply negb_true_iff in H3, H4, H5. repeat split; auto; intros K; apply mem_In in K; congruence.
Qed.

Lemma fifo_moved auth dbg f a f' : fifo_step auth dbg f a = Some f' -> fifo_ok f -> handler_alive (hdl (base f')) = true ->
  handler_alive (hdl (base f)) = true /\ fifo_ok f' /\ moved f a f'.
Proof.
  intros HF HI HA. pose proof (fifo_live auth dbg f a f' HF) as HL.
  assert (RD : (exists k u, a = Own (LReader k u)) \/ forall k u, a <> Own (LReader k u)).
  { destruct a as [[| k u | | | | | | | ]| | | ]; try (right; intros; discriminate). left. eauto. }
  destruct RD as [(k & u & ->)|RD].
  - cbn [fifo_step] in HF.
    destruct (pushing (base f) k && handler_alive (hdl (base f))) eqn:EP.
    + apply andb_true_iff in EP. destruct EP as (EP & EA). unfold fifo_ok in HI. rewrite EA in HI. destruct HI as (N1 & N2 & N3 & N4).
      split; [exact EA|]. destruct (mem k (granted f)) eqn:EG.
      * apply mem_In in EG. assert (EJ : joins f (Own (LReader k u)) = false).
        { destruct (joins f (Own (LReader k u))) eqn:EJ; [|reflexivity]. apply joins_reader in EJ. tauto. }
        rewrite EJ in HL. destruct (live_step auth dbg (base f) (Own (LReader k u))) as [s|] eqn:ES; [|discriminate]. injection HF as <-.
        cbn [base granted waiting] in *. destruct (reader_push _ _ _ _ _ _ ES EP EA) as (L1 & L2 & L3 & L4).
        assert (KW : ~ In k (waiting f)).
        { intros KW. clear - N1 EG KW. induction (granted f) as [|x g IH]; [destruct EG|]. cbn in N1. inversion N1 as [|? ? H1 H2]; subst.
          destruct EG as [->|EG]; [apply H1, in_or_app; now right|exact (IH EG H2)]. }
        pose proof (NoDup_left _ _ N1) as NG. pose proof (drop_length k (granted f) NG EG) as DL.
        split; [|apply (MPush _ _ _ k u); auto; exact (reader_handled _ _ _ _ _ _ ES)]. unfold fifo_ok. cbn [base granted waiting]. rewrite HA. split; [|split; [|split]].
        -- rewrite <- (drop_out k (waiting f) KW), <- drop_app. now apply drop_NoDup.
        -- intros k' HI'. assert (k' <> k /\ In k' (granted f ++ waiting f)) as (Hd & HI2).
           { apply in_app_or in HI'. destruct HI' as [H|H].
             - apply drop_In in H. split; [tauto|]. apply in_or_app. tauto.
             - split; [intros ->; auto|apply in_or_app; tauto]. }
           eapply pushing_kept; [exact ES|congruence|apply N2, HI2].
        -- lia.
        -- intros HW. specialize (N4 HW). lia.
      * destruct (mem k (waiting f)) eqn:EW; [discriminate|]. destruct (has_place f) eqn:ER.
        -- assert (EJ : joins f (Own (LReader k u)) = false) by (unfold joins; rewrite ER; cbn; apply andb_false_r).
           rewrite EJ in HL. destruct (live_step auth dbg (base f) (Own (LReader k u))) as [s|] eqn:ES; [|discriminate]. injection HF as <-.
           cbn [base granted waiting keep] in *. destruct (reader_push _ _ _ _ _ _ ES EP EA) as (L1 & L2 & L3 & L4).
           unfold has_place in ER. apply Nat.ltb_lt in ER. assert (HW : waiting f = []).
           { destruct (waiting f) as [|x w] eqn:E; [reflexivity|]. exfalso. assert (x :: w <> []) as K by discriminate. specialize (N4 K). lia. }
           split.
           ++ unfold fifo_ok. cbn [base granted waiting keep]. rewrite HA. split; [exact N1|split; [|split]].
              ** intros k' HI'. eapply pushing_kept; [exact ES| |apply N2, HI']. intros u' E. injection E as <- _.
                 rewrite HW, app_nil_r in HI'. apply mem_In in HI'. congruence.
              ** lia.
              ** rewrite HW. congruence.
           ++ apply MKeep; try reflexivity; auto; [|exact (reader_handled _ _ _ _ _ _ ES)]. intros k0 u0 E H. injection E as <- _. apply mem_In in H. congruence.
        -- destruct (running (base f)); [|discriminate]. injection HF as <-. cbn [base granted waiting] in *.
           unfold has_place in ER. apply Nat.ltb_ge in ER.
           assert (EJ : joins f (Own (LReader k u)) = true).
           { unfold joins. rewrite EP, EA, EG, EW. unfold has_place. apply Nat.ltb_ge in ER. now rewrite ER. }
           split; [|now apply (MJoin _ _ _ k u)]. unfold fifo_ok. cbn [base granted waiting]. rewrite EA. rewrite app_assoc.
           split; [|split; [|split; [exact N3|intros _; lia]]].
           ++ apply (Permutation_NoDup (Permutation_cons_append (granted f ++ waiting f) k)). constructor; [|exact N1].
              intros H. apply in_app_or in H. destruct H as [H|H]; apply mem_In in H; congruence.
           ++ intros k' H. apply in_app_or in H. destruct H as [H|[<-|[]]]; [now apply N2|exact EP].
    + assert (EJ : joins f (Own (LReader k u)) = false) by (unfold joins; now rewrite EP).
      rewrite EJ in HL. destruct (live_step auth dbg (base f) (Own (LReader k u))) as [s|] eqn:ES; [|discriminate]. injection HF as <-.
      cbn [base granted waiting keep] in *. destruct (reader_other _ _ _ _ _ _ ES EP) as (L1 & L2).
      assert (EA : handler_alive (hdl (base f)) = true) by (now rewrite <- L2). unfold fifo_ok in HI. rewrite EA in HI. destruct HI as (N1 & N2 & N3 & N4).
      assert (KN : ~ In k (granted f ++ waiting f)) by (intros H; rewrite (N2 k H), EA in EP; discriminate).
      split; [exact EA|]. split.
      * unfold fifo_ok. cbn [base granted waiting keep]. rewrite HA, L1. split; [exact N1|split; [|split; [exact N3|exact N4]]].
        intros k' H. eapply pushing_kept; [exact ES| |apply N2, H]. intros u' E. injection E as <- _. now apply KN.
      * apply MKeep; try reflexivity; auto; [|exact (reader_handled _ _ _ _ _ _ ES)]. intros k0 u0 E H. injection E as <- _. apply KN, in_or_app. now left.
  - assert (HF' : option_map (fun s => if handler_alive (hdl s) then if takes (base f) a then hand_over f s else keep f s else closed s)
      (live_step auth dbg (base f) a) = Some f').
    { destruct a as [[| k u | | | | | | | ]| | | ]; try exact HF. now destruct (RD k u). }
    clear HF. assert (EJ : joins f a = false).
    { destruct a as [[| k u | | | | | | | ]| | | ]; try reflexivity. now destruct (RD k u). }
    rewrite EJ in HL. destruct (live_step auth dbg (base f) a) as [s|] eqn:ES; [|discriminate]. injection HF' as E. injection HL as HB. subst s.
    rewrite HA in E. destruct (other_step _ _ _ _ _ ES RD HA) as (EA & HT). unfold fifo_ok in HI. rewrite EA in HI. destruct HI as (N1 & N2 & N3 & N4).
    assert (PK : forall k, In k (granted f ++ waiting f) -> pushing (base f') k = true).
    { intros k H. eapply pushing_kept; [exact ES|intros u; apply RD|apply N2, H]. }
    split; [exact EA|]. destruct (takes (base f) a) eqn:ET.
    + destruct HT as (HT & HH). split; [unfold fifo_ok; rewrite HA|apply MTake; auto; rewrite <- E; unfold hand_over; destruct (waiting f); cbn; rewrite ?app_nil_r; reflexivity].
      unfold hand_over in E. destruct (waiting f) as [|k w] eqn:EW.
      * assert (E1 : granted f' = granted f) by (now rewrite <- E). assert (E2 : waiting f' = []) by (now rewrite <- E).
        rewrite E1, E2. split; [exact N1|]. split; [exact PK|]. split; [lia|congruence].
      * assert (E1 : granted f' = granted f ++ [k]) by (now rewrite <- E). assert (E2 : waiting f' = w) by (now rewrite <- E).
        rewrite E1, E2, <- app_assoc. cbn [app]. split; [exact N1|]. split; [exact PK|]. rewrite app_length. cbn [length].
        assert (k :: w <> []) as K by discriminate. specialize (N4 K). split; [lia|]. intros _. lia.
    + destruct HT as (HT & HH). assert (E1 : granted f' = granted f) by (now rewrite <- E). assert (E2 : waiting f' = waiting f) by (now rewrite <- E).
      split; [unfold fifo_ok; rewrite HA, E1, E2, HT; auto|]. apply MKeep; auto. intros k u Ea. now destruct (RD k u).
Qed.

(** When the receiver goes, so do those who wait; it does not come back. *)
Lemma fifo_ok_step auth dbg f a f' : fifo_step auth dbg f a = Some f' -> fifo_ok f -> fifo_ok f'.
Proof.
  intros HF HI. destruct (handler_alive (hdl (base f'))) eqn:HA; [now destruct (fifo_moved auth dbg f a f' HF HI HA)|].
  unfold fifo_ok. rewrite HA.
  assert (RD : (exists k u, a = Own (LReader k u)) \/ forall k u, a <> Own (LReader k u)).
  { destruct a as [[| k u | | | | | | | ]| | | ]; try (right; intros; discriminate). left. eauto. }
  destruct RD as [(k & u & ->)|RD].
  - assert (EA : handler_alive (hdl (base f)) = false).
    { pose proof (fifo_live auth dbg f _ f' HF) as HL. destruct (joins f _); [now rewrite <- HL|].
      cbn [live_step] in HL. destruct (handler_frame auth dbg (base f) (LReader k u) (base f') HL I) as (E & _). now rewrite <- E. }
    unfold fifo_ok in HI. rewrite EA in HI. destruct HI as (H1 & H2). cbn [fifo_step] in HF. rewrite EA, andb_false_r in HF.
    destruct (live_step auth dbg (base f) _) as [s|]; [|discriminate]. injection HF as <-. now split.
  - assert (HF' : option_map (fun s => if handler_alive (hdl s) then if takes (base f) a then hand_over f s else keep f s else closed s)
      (live_step auth dbg (base f) a) = Some f').
    { destruct a as [[| k u | | | | | | | ]| | | ]; try exact HF. now destruct (RD k u). }
    destruct (live_step auth dbg (base f) a) as [s|]; [|discriminate]. injection HF' as E.
    destruct (handler_alive (hdl s)) eqn:EA; [|rewrite <- E; now split]. exfalso. rewrite <- E in HA.
    destruct (takes (base f) a); unfold hand_over, keep in HA; [destruct (waiting f)|]; cbn [base] in HA; congruence.
Qed.

Lemma fifo_steps_app auth dbg l : forall f a f1, fifo_steps auth dbg f l = Some f1 -> fifo_steps auth dbg f (l ++ [a]) = fifo_step auth dbg f1 a.
Proof.
  induction l as [|b l IH]; intros f a f1; cbn [fifo_steps app].
  - intros [= ->]. now destruct (fifo_step auth dbg f1 a).
  - destruct (fifo_step auth dbg f b); [apply IH|discriminate].
Qed.

Lemma fifo_reachable_next auth dbg n f a f' : fifo_reachable auth dbg n f -> fifo_step auth dbg f a = Some f' -> fifo_reachable auth dbg n f'.
Proof. intros (l & H) HS. exists (l ++ [a]). now rewrite (fifo_steps_app _ _ _ _ _ _ H). Qed.

Lemma fifo_reachable_ind auth dbg n (P : fsys -> Prop) : P (fifo_init n) ->
  (forall f a f', P f -> fifo_step auth dbg f a = Some f' -> P f') -> forall f, fifo_reachable auth dbg n f -> P f.
Proof.
  intros H0 HS f (l & H). revert H0 H. generalize (fifo_init n). induction l as [|a l IH]; intros g Hg; cbn [fifo_steps].
  - now intros [= <-].
  - destruct (fifo_step auth dbg g a) as [g'|] eqn:E; [|discriminate]. apply IH. exact (HS g a g' Hg E).
Qed.

Lemma fifo_reachable_ok auth dbg n f : fifo_reachable auth dbg n f -> fifo_ok f.
Proof.
  apply (fifo_reachable_ind auth dbg n fifo_ok).
  - unfold fifo_ok. cbn. repeat split; try constructor; try (intros ? []); unfold channel_size; try lia. congruence.
  - intros g a g' H HS. exact (fifo_ok_step _ _ _ _ _ HS H).
Qed.

Lemma fifo_reachable_base auth dbg n f : fifo_reachable auth dbg n f -> live_reachable auth dbg n (base f).
Proof.
  apply (fifo_reachable_ind auth dbg n (fun f => live_reachable auth dbg n (base f))); [now exists []|]. intros g a g' (l & H) HS. pose proof (fifo_live _ _ _ _ _ HS) as HL.
  destruct (joins g a); [rewrite HL; now exists l|]. exists (l ++ [a]). revert H. generalize (sys_init n).
  induction l as [|b l IH]; intros s; cbn [live_steps app].
  - intros [= ->]. now rewrite HL.
  - destruct (live_step auth dbg s b); [apply IH|discriminate].
Qed.
