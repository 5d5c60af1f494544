(** The buffered stream computes a function of the bytes still to come, the capacity of the read
    buffer and the allocator's grants; read sizes do not matter, except that since bytes 1.7 they decide
    how much of the capacity is kept. *)
From Verif Require Import Base Base_facts Packets Decoder ReadStream Plain.
Open Scope N_scope.
Ltac Zify.zify_post_hook ::= Z.div_mod_to_equations.

(** [len() <= capacity()] *)
Definition wf (st : rstream) : Prop := lenN (data (rbuf st)) <= cap (rbuf st).

Inductive lout (A : Type) : Type :=
| LOk (a : A) (rest : bytes) (c : N) (g : list N)
| LErr (e : err)
| LPanic
| LWait
| LHung
| LNoFuel.
Arguments LOk {A} a rest c g.
Arguments LErr {A} e.
Arguments LPanic {A}.
Arguments LWait {A}.
Arguments LHung {A}.
Arguments LNoFuel {A}.

Definition end_out {A} (en : peer_end) (left : bytes) : lout A :=
  match en with
  | PeerOpen => LWait
  | PeerError => LErr ErrIo
  | PeerEof => LErr (match left with [] => ErrClosed | _ :: _ => ErrInterrupted end)
  end.

(** Capacity and grants after waiting for and consuming [k] <= 2 bytes. *)
Definition grown (k c : N) (g : list N) : N * list N :=
  if k <=? c then (c, g) else (c + 64 + hd 0 g, tl g).

(** Room taken by a number of [k] bytes. *)
Definition taken (ks : list bool) (k : N) : N := if hd false ks then 0 else k.

(** Chunk-free interpreter. [ks] says for each number read whether it took out all there was, so that
    its room was given back (bytes 1.7 and later); [[]] is never. *)
Fixpoint lrun {A} (en : peer_end) (m : rd A) (bs : bytes) (c : N) (g : list N) (ks : list bool) : lout A :=
  match m with
  | Ret a => LOk a bs c g
  | Err e => LErr e
  | Boom => LPanic
  | NoFuel => LNoFuel
  | GetU8 k =>
    match bs with
    | b :: r => lrun en (k b) r (fst (grown 1 c g) - taken ks 1) (snd (grown 1 c g)) (tl ks)
    | _ => end_out en bs
    end
  | GetU16 k =>
    match bs with
    | b1 :: b0 :: r =>
      lrun en (k (b2n b1 * 256 + b2n b0)) r (fst (grown 2 c g) - taken ks 2) (snd (grown 2 c g)) (tl ks)
    | _ => end_out en bs
    end
  | GetBytes size k =>
    if isize_max <? size then LPanic
    else if c <? size then (if lenN bs <? c then end_out en bs else LHung)
    else if lenN bs <? size then end_out en bs
    else lrun en (k (takeN size bs)) (dropN size bs) (c - size) g ks
  end.

(** What is visible of a stream result. *)
Definition obs {A} (r : rout A) : lout A :=
  match r with
  | ROk a st => LOk a (pending st) (cap (rbuf st)) (grants (rsk st))
  | RErr e => LErr e
  | RPanic => LPanic
  | RWait => LWait
  | RHung => LHung
  | RNoFuel => LNoFuel
  end.

Definition good {A} (s : rsock) (r : rout A) : Prop :=
  match r with
  | ROk _ st => wf st /\ ending (rsk st) = ending s /\ reuse (rsk st) = reuse s
  | _ => True
  end.

Lemma grow_facts st : wf st ->
  let st' := grow_if_full st in
  wf st' /\ data (rbuf st') = data (rbuf st) /\ arriving (rsk st') = arriving (rsk st)
  /\ (ending (rsk st') = ending (rsk st) /\ reuse (rsk st') = reuse (rsk st))
  /\ chunks (rsk st') = chunks (rsk st)
  /\ lenN (data (rbuf st')) < cap (rbuf st')
  /\ ((lenN (data (rbuf st)) < cap (rbuf st) /\ cap (rbuf st') = cap (rbuf st)
       /\ grants (rsk st') = grants (rsk st))
      \/ (lenN (data (rbuf st)) = cap (rbuf st)
          /\ cap (rbuf st') = cap (rbuf st) + 64 + hd 0 (grants (rsk st))
          /\ grants (rsk st') = tl (grants (rsk st)))).
Proof.
  intros W. unfold grow_if_full, wf in *.
  destruct (N.eqb_spec (cap (rbuf st)) (lenN (data (rbuf st)))) as [E|E]; cbn.
  - repeat split; try lia. right. rewrite E. repeat split; lia.
  - repeat split; try lia; left; repeat split; lia.
Qed.

Lemma read_buf_facts st : wf st ->
  match read_buf st with
  | ROk n st' =>
    wf st' /\ pending st' = pending st
    /\ (ending (rsk st') = ending (rsk st) /\ reuse (rsk st') = reuse (rsk st))
    /\ ((lenN (data (rbuf st)) < cap (rbuf st) /\ cap (rbuf st') = cap (rbuf st)
         /\ grants (rsk st') = grants (rsk st))
        \/ (lenN (data (rbuf st)) = cap (rbuf st)
            /\ cap (rbuf st') = cap (rbuf st) + 64 + hd 0 (grants (rsk st))
            /\ grants (rsk st') = tl (grants (rsk st))))
    /\ ((n = 0 /\ arriving (rsk st) = [] /\ data (rbuf st') = data (rbuf st)
         /\ ending (rsk st) = PeerEof)
        \/ (0 < n /\ (length (arriving (rsk st')) < length (arriving (rsk st)))%nat))
  | RErr e => e = ErrIo /\ arriving (rsk st) = [] /\ ending (rsk st) = PeerError
  | RWait => arriving (rsk st) = [] /\ ending (rsk st) = PeerOpen
  | _ => False
  end.
Proof.
  intros W. destruct (grow_facts st W) as (W' & Hd & Ha & (He & Hu) & Hc & Hlt & Hcap).
  unfold read_buf. set (st1 := grow_if_full st) in *.
  destruct (arriving (rsk st1)) as [|x xs] eqn:Ea.
  - destruct (ending (rsk st1)) eqn:Ee.
    + split; congruence.
    + assert (Hp : pending st1 = pending st) by (unfold pending; now rewrite Hd, Ea, <- Ha).
      split; [exact W'|]. split; [exact Hp|]. split; [split; congruence|]. split; [exact Hcap|].
      left. repeat split; congruence.
    + repeat split; congruence.
  - set (sp := cap (rbuf st1) - lenN (data (rbuf st1))).
    set (most := match chunks (rsk st1) with [] => sp | c :: _ => N.max 1 c end).
    set (n := N.min most (N.min sp (lenN (x :: xs)))).
    assert (Hsp : 0 < sp) by (unfold sp; lia).
    assert (Hm : 0 < most) by (unfold most; destruct (chunks (rsk st1)); lia).
    assert (Hn : 0 < n /\ n <= sp /\ n <= lenN (x :: xs)).
    { unfold n. rewrite lenN_cons. lia. }
    assert (Hls : lenN (data (rbuf st1)) + sp = cap (rbuf st1)) by (unfold sp; lia).
    clearbody n. clear Hm most. clearbody sp.
    split.
    { unfold wf; cbn [rbuf data cap]. rewrite lenN_app, lenN_takeN. lia. }
    split.
    { unfold pending; cbn [rbuf data rsk arriving]. rewrite <- app_assoc, takeN_dropN, Hd.
      now rewrite <- Ha. }
    split; [cbn; split; congruence|]. split; [exact Hcap|].
    right. split; [lia|]. cbn [rsk arriving]. rewrite <- Ha.
    unfold dropN. rewrite skipn_length. cbn [length]. lia.
Qed.

Lemma wait_facts fuel : forall n st,
  wf st -> (length (arriving (rsk st)) < fuel)%nat -> n <= cap (rbuf st) \/ n <= 2 ->
  match wait_for_data_loop fuel n st with
  | ROk _ st' =>
    wf st' /\ pending st' = pending st
    /\ (ending (rsk st') = ending (rsk st) /\ reuse (rsk st') = reuse (rsk st))
    /\ n <= lenN (data (rbuf st'))
    /\ (cap (rbuf st'), grants (rsk st')) = grown n (cap (rbuf st)) (grants (rsk st))
  | RErr e => lenN (pending st) < n /\ LErr e = @end_out unit (ending (rsk st)) (pending st)
  | RWait => lenN (pending st) < n /\ ending (rsk st) = PeerOpen
  | _ => False
  end.
Proof.
  induction fuel as [|fuel IH]; intros n st W Hf Hn; [lia|].
  cbn [wait_for_data_loop].
  destruct (N.ltb_spec (lenN (data (rbuf st))) n) as [Hlt|Hge].
  2:{ repeat split; try assumption. unfold grown, wf in *.
      destruct (N.leb_spec n (cap (rbuf st))); [reflexivity|lia]. }
  pose proof (read_buf_facts st W) as HR.
  destruct (read_buf st) as [k st'|e| | | |] eqn:ER; try contradiction.
  - destruct HR as (W' & Hp & (He & Hu) & Hcap & Hk).
    destruct Hk as [(-> & Ha & Hd & Hee)|(Hk & Hlen)].
    + rewrite N.eqb_refl.
      assert (Hpd : pending st = data (rbuf st)) by (unfold pending; now rewrite Ha, app_nil_r).
      rewrite Hd. unfold end_out. rewrite Hee, Hpd.
      destruct (data (rbuf st)); split; try reflexivity; exact Hlt.
    + destruct (N.eqb_spec k 0) as [->|_]; [lia|].
      assert (Hn' : n <= cap (rbuf st') \/ n <= 2) by lia.
      specialize (IH n st' W' ltac:(lia) Hn').
      destruct (wait_for_data_loop fuel n st') as [u st''|e| | | |]; try contradiction.
      * destruct IH as (W2 & Hp2 & (He2 & Hu2) & Hl2 & Hg2).
        split; [exact W2|]. split; [congruence|]. split; [split; congruence|]. split; [exact Hl2|].
        rewrite Hg2. unfold grown.
        destruct Hcap as [(Hc1 & Hc2 & Hc3)|(Hc1 & Hc2 & Hc3)].
        -- now rewrite Hc2, Hc3.
        -- rewrite Hc2, Hc3.
           destruct (N.leb_spec n (cap (rbuf st))) as [Hle|Hgt].
           ++ exfalso. lia.
           ++ destruct (N.leb_spec n (cap (rbuf st) + 64 + hd 0 (grants (rsk st)))); [reflexivity|lia].
      * rewrite Hp, He in IH. exact IH.
      * rewrite Hp, He in IH. exact IH.
  - destruct HR as (-> & Ha & Hee).
    assert (Hpd : pending st = data (rbuf st)) by (unfold pending; now rewrite Ha, app_nil_r).
    unfold end_out. rewrite Hee, Hpd. split; [exact Hlt|reflexivity].
  - destruct HR as (Ha & Hee).
    assert (Hpd : pending st = data (rbuf st)) by (unfold pending; now rewrite Ha, app_nil_r).
    rewrite Hpd. split; [exact Hlt|exact Hee].
Qed.

Lemma wait_facts' n st : wf st -> n <= cap (rbuf st) \/ n <= 2 ->
  match wait_for_data n st with
  | ROk _ st' =>
    wf st' /\ pending st' = pending st
    /\ (ending (rsk st') = ending (rsk st) /\ reuse (rsk st') = reuse (rsk st))
    /\ n <= lenN (data (rbuf st'))
    /\ (cap (rbuf st'), grants (rsk st')) = grown n (cap (rbuf st)) (grants (rsk st))
  | RErr e => lenN (pending st) < n /\ LErr e = @end_out unit (ending (rsk st)) (pending st)
  | RWait => lenN (pending st) < n /\ ending (rsk st) = PeerOpen
  | _ => False
  end.
Proof. intros W Hn. apply wait_facts; [exact W | lia | exact Hn]. Qed.

Lemma data_pending st n : n <= lenN (data (rbuf st)) -> n <= lenN (pending st).
Proof. unfold pending. rewrite lenN_app. lia. Qed.

Lemma end_out_err {A B} en left e : LErr e = @end_out A en left -> LErr e = @end_out B en left.
Proof. destruct en; cbn; congruence. Qed.

Lemma pending_consume st n :
  n <= lenN (data (rbuf st)) ->
  pending (set_rbuf (consume n (rbuf st)) st) = dropN n (pending st).
Proof. intros H. unfold pending; cbn. now rewrite dropN_app_le. Qed.

Lemma pending_advance ru st n :
  n <= lenN (data (rbuf st)) ->
  pending (set_rbuf (advance ru n (rbuf st)) st) = dropN n (pending st).
Proof. intros H. unfold pending; cbn. now rewrite dropN_app_le. Qed.

Lemma wf_advance ru st n :
  n <= lenN (data (rbuf st)) -> wf st -> wf (set_rbuf (advance ru n (rbuf st)) st).
Proof. unfold wf; cbn. rewrite lenN_dropN. destruct (ru && _); lia. Qed.

Lemma wf_consume st n :
  n <= lenN (data (rbuf st)) -> wf st -> wf (set_rbuf (consume n (rbuf st)) st).
Proof. unfold wf; cbn. rewrite lenN_dropN. lia. Qed.

(** get_bytes in one equation *)
Definition lget (en : peer_end) (size : N) (bs : bytes) (c : N) (g : list N) : lout bytes :=
  if isize_max <? size then LPanic
  else if c <? size then (if lenN bs <? c then end_out en bs else LHung)
  else if lenN bs <? size then end_out en bs
  else LOk (takeN size bs) (dropN size bs) (c - size) g.

Lemma gb_loop_zero_cap fuel : forall acc rem st,
  wf st -> cap (rbuf st) = 0 -> 0 < rem -> gb_loop fuel acc rem st = RHung.
Proof.
  induction fuel as [|fuel IH]; intros acc rem st W Hc Hr; [reflexivity|].
  cbn [gb_loop]. unfold gb_step.
  destruct (N.ltb_spec 0 rem) as [_|]; [|lia]. rewrite Hc.
  destruct (N.ltb_spec 0 rem) as [_|]; [|lia].
  pose proof (wait_facts' 0 st W ltac:(lia)) as HW.
  destruct (wait_for_data 0 st) as [u st'|e| | | |] eqn:EW; try contradiction; try lia.
  destruct HW as (W' & Hp & He & Hl & Hg).
  apply IH.
  - apply wf_consume; [lia|exact W'].
  - unfold grown in Hg. destruct (N.leb_spec 0 (cap (rbuf st))) as [_|]; [|lia].
    injection Hg as Hg _. cbn. rewrite Hg, Hc. reflexivity.
  - lia.
Qed.

Lemma stream_get_bytes_eq size st : wf st ->
  obs (stream_get_bytes size st)
  = lget (ending (rsk st)) size (pending st) (cap (rbuf st)) (grants (rsk st))
  /\ good (rsk st) (stream_get_bytes size st).
Proof.
  intros W. unfold stream_get_bytes, lget.
  destruct (isize_max <? size); [split; [reflexivity|exact I]|].
  destruct (N.eqb_spec size 0) as [->|Hs].
  { destruct (N.ltb_spec (cap (rbuf st)) 0); [lia|].
    destruct (N.ltb_spec (lenN (pending st)) 0); [lia|].
    rewrite N.sub_0_r, takeN_0, dropN_0. repeat split. exact W. }
  cbn [gb_loop]. unfold gb_step at 1.
  unfold gb_step at 1.
  destruct (N.ltb_spec 0 size) as [_|]; [|lia].
  destruct (N.ltb_spec (cap (rbuf st)) size) as [Hc|Hc].
  - (* does not fit *)
    pose proof (wait_facts' (cap (rbuf st)) st W ltac:(lia)) as HW.
    destruct (wait_for_data (cap (rbuf st)) st) as [u st'|e| | | |] eqn:EW; try contradiction.
    + destruct HW as (W' & Hp & He & Hl & Hg).
      unfold grown in Hg. rewrite N.leb_refl in Hg. injection Hg as Hg1 Hg2.
      destruct (N.ltb_spec (lenN (pending st)) (cap (rbuf st))) as [Hx|_].
      { apply data_pending in Hl. rewrite Hp in Hl. lia. }
      destruct (N.to_nat size) as [|k] eqn:Ek; [lia|].
      rewrite gb_loop_zero_cap.
      * split; [reflexivity|exact I].
      * apply wf_consume; assumption.
      * cbn. lia.
      * lia.
    + destruct HW as (Hl & HE).
      destruct (N.ltb_spec (lenN (pending st)) (cap (rbuf st))) as [_|]; [|lia].
      split; [cbn; now apply (@end_out_err unit)|exact I].
    + destruct HW as (Hl & HE).
      destruct (N.ltb_spec (lenN (pending st)) (cap (rbuf st))) as [_|]; [|lia].
      rewrite HE. split; [reflexivity|exact I].
  - pose proof (wait_facts' size st W ltac:(lia)) as HW.
    destruct (wait_for_data size st) as [u st'|e| | | |] eqn:EW; try contradiction.
    + destruct HW as (W' & Hp & He & Hl & Hg).
      unfold grown in Hg. destruct (N.leb_spec size (cap (rbuf st))) as [_|]; [|lia].
      injection Hg as Hg1 Hg2.
      destruct (N.ltb_spec (lenN (pending st)) size) as [Hx|_].
      { apply data_pending in Hl. rewrite Hp in Hl. lia. }
      rewrite N.sub_diag.
      destruct (N.to_nat size) as [|k] eqn:Ek; [lia|].
      cbn [gb_loop]. unfold gb_step. cbn [N.ltb N.compare].
      unfold obs, good. split.
      * rewrite pending_consume by exact Hl. rewrite Hp. cbn [set_rbuf rbuf consume cap rsk].
        rewrite Hg1, Hg2. cbn [app]. f_equal.
        rewrite <- Hp. unfold pending. now rewrite takeN_app_le.
      * split; [now apply wf_consume | exact He].
    + destruct HW as (Hl & HE).
      destruct (N.ltb_spec (lenN (pending st)) size) as [_|]; [|lia].
      split; [cbn; now apply (@end_out_err unit)|exact I].
    + destruct HW as (Hl & HE).
      destruct (N.ltb_spec (lenN (pending st)) size) as [_|]; [|lia].
      rewrite HE. split; [reflexivity|exact I].
Qed.

(** For each number read, whether it was all that was in the buffer. *)
Fixpoint emptied {A} (m : rd A) (st : rstream) : list bool :=
  match m with
  | Ret _ | Err _ | Boom | NoFuel => []
  | GetU8 k =>
    match wait_for_data 1 st with
    | ROk _ st' =>
      (1 =? lenN (data (rbuf st')))
      :: match stream_get_u8 st with ROk b st'' => emptied (k b) st'' | _ => [] end
    | _ => []
    end
  | GetU16 k =>
    match wait_for_data 2 st with
    | ROk _ st' =>
      (2 =? lenN (data (rbuf st')))
      :: match stream_get_u16 st with ROk n st'' => emptied (k n) st'' | _ => [] end
    | _ => []
    end
  | GetBytes size k => match stream_get_bytes size st with ROk bs st' => emptied (k bs) st' | _ => [] end
  end.

(** Those whose room is given back. *)
Definition given_back {A} (m : rd A) (st : rstream) : list bool :=
  if reuse (rsk st) then emptied m st else [].

Theorem run_eq {A} (m : rd A) : forall st, wf st ->
  obs (run m st) = lrun (ending (rsk st)) m (pending st) (cap (rbuf st)) (grants (rsk st)) (given_back m st)
  /\ good (rsk st) (run m st).
Proof.
  induction m as [a|e| | |k IH|k IH|size k IH]; intros st W; cbn [run];
    try (split; [reflexivity|exact I]).
  - split; [reflexivity|]. now split.
  - (* GetU8 *)
    unfold given_back. cbn [emptied]. unfold stream_get_u8. cbn [lrun].
    pose proof (wait_facts' 1 st W ltac:(lia)) as HW.
    destruct (wait_for_data 1 st) as [u st'|e| | | |] eqn:EW; try contradiction.
    + destruct HW as (W' & Hp & (He & Hu) & Hl & Hg).
      pose proof Hp as Hp'. unfold pending at 1 in Hp'.
      destruct (data (rbuf st')) as [|b rest] eqn:Ed; [cbn in Hl; lia|].
      rewrite <- Hp'. cbn [app].
      rewrite <- Hg. cbn [fst snd].
      assert (Hl' : 1 <= lenN (data (rbuf st'))) by (rewrite Ed; exact Hl).
      destruct (IH b (set_rbuf (advance (reuse (rsk st')) 1 (rbuf st')) st') (wf_advance _ _ _ Hl' W'))
        as (HE & HG).
      rewrite pending_advance in HE by exact Hl'. unfold given_back in HE.
      cbn [set_rbuf rbuf advance cap rsk] in HE, HG.
      unfold good in HG. rewrite He, Hu in HG. rewrite He, Hu in HE.
      unfold pending in HE. rewrite Ed in HE. rewrite Hu. unfold good. split; [|exact HG].
      rewrite HE. unfold taken. destruct (reuse (rsk st)) eqn:Er; cbn [hd tl andb]; [|reflexivity].
      destruct (1 =? lenN (b :: rest)); rewrite ?N.sub_0_r; reflexivity.
    + destruct HW as (Hl & HE).
      assert (Hn : pending st = []) by (apply lenN_0; lia).
      rewrite Hn in *. split; [cbn; now apply (@end_out_err unit)|exact I].
    + destruct HW as (Hl & HE).
      assert (Hn : pending st = []) by (apply lenN_0; lia).
      rewrite Hn, HE. split; [reflexivity|exact I].
  - (* GetU16 *)
    unfold given_back. cbn [emptied]. unfold stream_get_u16. cbn [lrun].
    pose proof (wait_facts' 2 st W ltac:(lia)) as HW.
    destruct (wait_for_data 2 st) as [u st'|e| | | |] eqn:EW; try contradiction.
    + destruct HW as (W' & Hp & (He & Hu) & Hl & Hg).
      pose proof Hp as Hp'. unfold pending at 1 in Hp'.
      destruct (data (rbuf st')) as [|b1 [|b0 rest]] eqn:Ed; [cbn in Hl; lia|cbn in Hl; lia|].
      rewrite <- Hp'. cbn [app].
      rewrite <- Hg. cbn [fst snd].
      assert (Hl' : 2 <= lenN (data (rbuf st'))) by (rewrite Ed; exact Hl).
      destruct (IH (b2n b1 * 256 + b2n b0) (set_rbuf (advance (reuse (rsk st')) 2 (rbuf st')) st')
                  (wf_advance _ _ _ Hl' W'))
        as (HE & HG).
      rewrite pending_advance in HE by exact Hl'. unfold given_back in HE.
      cbn [set_rbuf rbuf advance cap rsk] in HE, HG.
      unfold good in HG. rewrite He, Hu in HG. rewrite He, Hu in HE.
      unfold pending in HE. rewrite Ed in HE. rewrite Hu. unfold good. split; [|exact HG].
      rewrite HE. unfold taken. destruct (reuse (rsk st)) eqn:Er; cbn [hd tl andb]; [|reflexivity].
      destruct (2 =? lenN (b1 :: b0 :: rest)); rewrite ?N.sub_0_r; reflexivity.
    + destruct HW as (Hl & HE).
      destruct (pending st) as [|x [|y l]] eqn:Ep.
      * split; [cbn; now apply (@end_out_err unit)|exact I].
      * split; [cbn; now apply (@end_out_err unit)|exact I].
      * rewrite !lenN_cons in Hl. lia.
    + destruct HW as (Hl & HE).
      destruct (pending st) as [|x [|y l]] eqn:Ep.
      * rewrite HE. split; [reflexivity|exact I].
      * rewrite HE. split; [reflexivity|exact I].
      * rewrite !lenN_cons in Hl. lia.
  - (* GetBytes *)
    unfold given_back. cbn [lrun emptied].
    destruct (stream_get_bytes_eq size st W) as [HE HG]. unfold lget in HE.
    destruct (isize_max <? size).
    { destruct (stream_get_bytes size st); try discriminate. split; [reflexivity|exact I]. }
    destruct (cap (rbuf st) <? size).
    { destruct (lenN (pending st) <? cap (rbuf st)).
      - destruct (ending (rsk st)), (stream_get_bytes size st); try discriminate;
          (split; [cbn in *; congruence|exact I]).
      - destruct (stream_get_bytes size st); try discriminate. split; [reflexivity|exact I]. }
    destruct (lenN (pending st) <? size).
    { destruct (ending (rsk st)), (stream_get_bytes size st); try discriminate;
        (split; [cbn in *; congruence|exact I]). }
    destruct (stream_get_bytes size st) as [bs st'|e| | | |] eqn:ES; try discriminate.
    destruct HG as (W' & He & Hu).
    injection HE as -> Hp Hc Hg. rewrite <- Hp, <- Hc, <- Hg, <- He, <- Hu.
    destruct (IH (takeN size (pending st)) st' W') as (HE' & HG').
    split; [exact HE'|]. unfold good in *. rewrite <- He, <- Hu. exact HG'.
Qed.

(** The loop of get_bytes after [n] iterations, if it has not stopped by then. *)
Fixpoint gb_after (n : nat) (acc : bytes) (rem : N) (st : rstream) : option (bytes * N * rstream) :=
  match n with
  | O => Some (acc, rem, st)
  | S n' =>
    match gb_step acc rem st with
    | GbStop _ => None
    | GbNext acc' rem' st' => gb_after n' acc' rem' st'
    end
  end.

Lemma gb_after_hung n : forall acc rem st, gb_after n acc rem st <> None -> gb_loop n acc rem st = RHung.
Proof.
  induction n as [|n IH]; intros acc rem st H; [reflexivity|].
  cbn in *. destruct (gb_step acc rem st); [congruence|]. now apply IH.
Qed.

Lemma gb_after_zero n : forall acc rem st,
  wf st -> cap (rbuf st) = 0 -> 0 < rem -> gb_after n acc rem st <> None.
Proof.
  induction n as [|n IH]; intros acc rem st W Hc Hr; [discriminate|].
  cbn [gb_after]. unfold gb_step.
  destruct (N.ltb_spec 0 rem) as [_|]; [|lia]. rewrite Hc.
  destruct (N.ltb_spec 0 rem) as [_|]; [|lia].
  pose proof (wait_facts' 0 st W ltac:(lia)) as HW.
  destruct (wait_for_data 0 st) as [u st'|e| | | |] eqn:EW; try contradiction; try lia.
  destruct HW as (W' & Hp & He & Hl & Hg).
  apply IH.
  - apply wf_consume; [lia|exact W'].
  - unfold grown in Hg. destruct (N.leb_spec 0 (cap (rbuf st))) as [_|]; [|lia].
    injection Hg as Hg _. cbn. rewrite Hg, Hc. reflexivity.
  - lia.
Qed.

(** RHung is divergence: the loop is still running after any number of iterations. *)
Theorem get_bytes_hung_iff_diverges size st : wf st -> size <= isize_max ->
  (stream_get_bytes size st = RHung <-> forall n, gb_after n [] size st <> None).
Proof.
  intros W Hs. split.
  - intros H n.
    destruct (stream_get_bytes_eq size st W) as [HE _]. rewrite H in HE. cbn [obs] in HE.
    unfold lget in HE.
    destruct (N.ltb_spec isize_max size); [lia|].
    destruct (N.ltb_spec (cap (rbuf st)) size) as [Hc|Hc].
    2:{ destruct (lenN (pending st) <? size); [destruct (ending (rsk st))|]; discriminate. }
    destruct (N.ltb_spec (lenN (pending st)) (cap (rbuf st))) as [Hl|Hl].
    { destruct (ending (rsk st)); discriminate. }
    destruct n as [|n]; [discriminate|].
    cbn [gb_after]. unfold gb_step.
    destruct (N.ltb_spec 0 size) as [_|]; [|lia].
    destruct (N.ltb_spec (cap (rbuf st)) size) as [_|]; [|lia].
    pose proof (wait_facts' (cap (rbuf st)) st W ltac:(lia)) as HW.
    destruct (wait_for_data (cap (rbuf st)) st) as [u st'|e| | | |] eqn:EW; try contradiction; try lia.
    destruct HW as (W' & Hp & He & Hl' & Hg).
    unfold grown in Hg. rewrite N.leb_refl in Hg. injection Hg as Hg1 Hg2.
    apply gb_after_zero.
    + apply wf_consume; assumption.
    + cbn. lia.
    + lia.
  - intros H. unfold stream_get_bytes.
    destruct (N.ltb_spec isize_max size); [lia|].
    apply gb_after_hung. apply H.
Qed.

(** ** Relation to the plain interpreter *)

Lemma lrun_plain {A} en (m : rd A) : forall bs c g ks,
  match plain m bs with
  | POk a r => (exists c' g', lrun en m bs c g ks = LOk a r c' g') \/ lrun en m bs c g ks = LHung
  | PErr e => lrun en m bs c g ks = LErr e \/ lrun en m bs c g ks = LHung
  | PPanic => lrun en m bs c g ks = LPanic \/ lrun en m bs c g ks = LHung
  | PMore lft => lrun en m bs c g ks = end_out en lft \/ lrun en m bs c g ks = LHung
                  (* or an end-of-input while waiting for a partial field *)
  | PNoFuel => lrun en m bs c g ks = LNoFuel \/ lrun en m bs c g ks = LHung
  end.
Proof.
  induction m as [a|e| | |k IH|k IH|size k IH]; intros bs c g ks; cbn [plain lrun]; eauto.
  - destruct bs as [|b r]; [now left|]. apply IH.
  - destruct bs as [|b1 [|b0 r]]; [now left|now left|]. apply IH.
  - destruct (isize_max <? size); [now left|].
    destruct (N.ltb_spec c size) as [Hc|Hc].
    + destruct (N.ltb_spec (lenN bs) c) as [Hb|Hb].
      * destruct (N.ltb_spec (lenN bs) size) as [_|]; [now left|lia].
      * destruct (lenN bs <? size).
        -- now right.
        -- destruct (plain (k (takeN size bs)) (dropN size bs)); now right.
    + destruct (N.ltb_spec (lenN bs) size); [now left|]. apply IH.
Qed.

(** What a program sees on the stream is what it sees on the plain bytes, unless it hangs. *)
Theorem run_plain {A} (m : rd A) st : wf st -> run m st <> RHung ->
  match plain m (pending st) with
  | POk a r => exists st', run m st = ROk a st' /\ pending st' = r /\ wf st'
                           /\ ending (rsk st') = ending (rsk st) /\ reuse (rsk st') = reuse (rsk st)
  | PErr e => run m st = RErr e
  | PPanic => run m st = RPanic
  | PMore lft => obs (run m st) = end_out (ending (rsk st)) lft
  | PNoFuel => run m st = RNoFuel
  end.
Proof.
  intros W HN. destruct (run_eq m st W) as (HE & HG). set (ks := given_back m st) in *.
  assert (HN' : lrun (ending (rsk st)) m (pending st) (cap (rbuf st)) (grants (rsk st)) ks <> LHung).
  { rewrite <- HE. destruct (run m st); cbn; congruence. }
  pose proof (lrun_plain (ending (rsk st)) m (pending st) (cap (rbuf st)) (grants (rsk st)) ks) as HP.
  destruct (plain m (pending st)); destruct HP as [HP|HP]; try congruence.
  - destruct HP as (c' & g' & HP). rewrite HP in HE.
    destruct (run m st) as [a' st'| | | | |]; try discriminate.
    injection HE as -> Hp Hc Hg. destruct HG as (W' & He & Hu).
    exists st'. auto.
  - rewrite HP in HE. destruct (run m st); cbn in HE; congruence.
  - rewrite HP in HE. destruct (run m st); cbn in HE; congruence.
  - rewrite HP in HE. destruct (run m st); cbn in HE; congruence.
Qed.

(** The allocator cannot change results, only whether they are reached. *)
Theorem run_agree {A} (m : rd A) st1 st2 :
  wf st1 -> wf st2 -> pending st1 = pending st2 -> ending (rsk st1) = ending (rsk st2) ->
  run m st1 <> RHung -> run m st2 <> RHung ->
  match run m st1, run m st2 with
  | ROk a1 s1, ROk a2 s2 => a1 = a2 /\ pending s1 = pending s2 /\ wf s1 /\ wf s2
                            /\ ending (rsk s1) = ending (rsk s2)
  | RErr e1, RErr e2 => e1 = e2
  | RPanic, RPanic => True
  | RWait, RWait => True
  | RNoFuel, RNoFuel => True
  | _, _ => False
  end.
Proof.
  intros W1 W2 HP HEn H1 H2.
  pose proof (run_plain m st1 W1 H1) as R1. pose proof (run_plain m st2 W2 H2) as R2.
  rewrite HP in R1. destruct (plain m (pending st2)).
  - destruct R1 as (s1 & -> & E1 & W1' & K1 & _), R2 as (s2 & -> & E2 & W2' & K2 & _).
    repeat split; congruence.
  - rewrite R1, R2. reflexivity.
  - rewrite R1, R2. exact I.
  - rewrite HEn in R1.
    destruct (ending (rsk st2)), (run m st1), (run m st2); cbn in *; try exact I; congruence.
  - rewrite R1, R2. exact I.
Qed.

Lemma wf_new n s : wf (rstream_new n s).
Proof. unfold wf; cbn. lia. Qed.
