From Verif Require Import Base Base_facts Utf8 Spec_utf8.
Open Scope N_scope.
Ltac Zify.zify_post_hook ::= Z.div_mod_to_equations.

Lemma width_cases n :
  (utf8_char_width n = 1 /\ n <= 0x7F)
  \/ (utf8_char_width n = 2 /\ 0xC2 <= n <= 0xDF)
  \/ (utf8_char_width n = 3 /\ 0xE0 <= n <= 0xEF)
  \/ (utf8_char_width n = 4 /\ 0xF0 <= n <= 0xF4)
  \/ (utf8_char_width n = 0 /\ (0x80 <= n <= 0xC1 \/ 0xF5 <= n)).
Proof.
  unfold utf8_char_width, in_range.
  destruct (N.leb_spec n 0x7F); [lia|].
  destruct ((0xC2 <=? n) && (n <=? 0xDF)) eqn:E2; [lia|].
  destruct ((0xE0 <=? n) && (n <=? 0xEF)) eqn:E3; [lia|].
  destruct ((0xF0 <=? n) && (n <=? 0xF4)) eqn:E4; [lia|]. lia.
Qed.

Lemma enc_len c : 1 <= lenN (enc c) <= 4.
Proof.
  unfold enc. destruct (c <? 0x80); [cbn; lia|]. destruct (c <? 0x800); [cbn; lia|].
  destruct (c <? 0x10000); cbn; lia.
Qed.

Lemma enc_nonempty c : enc c <> [].
Proof. intros H. pose proof (enc_len c). rewrite H in *. cbn in *. lia. Qed.

Lemma n2b_eq n b : n = b2n b -> n2b n = b.
Proof. intros ->. apply n2b_b2n. Qed.

Ltac bn := match goal with |- context [b2n (n2b ?x)] => rewrite (b2n_n2b x) by lia end.

Lemma scan_enc idx c r : scalar c ->
  utf8_scan idx (enc c ++ r) = utf8_scan (idx + lenN (enc c)) r.
Proof.
  intros Hc. unfold scalar in Hc. unfold enc.
  destruct (N.ltb_spec c 0x80).
  { cbn [map app utf8_scan]. rewrite b2n_n2b by lia.
    destruct (width_cases c) as [(-> & _)|H']; [reflexivity|lia]. }
  destruct (N.ltb_spec c 0x800).
  { cbn [map app utf8_scan]. rewrite !b2n_n2b by lia.
    destruct (width_cases (0xC0 + c / 64)) as [H'|[(-> & _)|H']]; [lia| |lia].
    cbn [N.eqb Pos.eqb]. unfold is_cont, in_range.
    destruct ((0x80 <=? 0x80 + c mod 64) && (0x80 + c mod 64 <=? 0xBF)) eqn:E; [reflexivity|lia]. }
  destruct (N.ltb_spec c 0x10000).
  { cbn [map app utf8_scan]. rewrite !b2n_n2b by lia.
    destruct (width_cases (0xE0 + c / 4096)) as [H'|[H'|[(-> & _)|H']]]; [lia|lia| |lia].
    cbn [N.eqb Pos.eqb].
    destruct (ok3 (0xE0 + c / 4096) (0x80 + (c / 64) mod 64)) eqn:E3.
    - unfold is_cont, in_range.
      destruct ((0x80 <=? 0x80 + c mod 64) && (0x80 + c mod 64 <=? 0xBF)) eqn:E; [reflexivity|lia].
    - exfalso. unfold ok3, in_range in E3. lia. }
  cbn [map app utf8_scan]. rewrite !b2n_n2b by lia.
  destruct (width_cases (0xF0 + c / 262144)) as [H'|[H'|[H'|[(-> & _)|H']]]]; [lia|lia|lia| |lia].
  cbn [N.eqb Pos.eqb].
  destruct (ok4 (0xF0 + c / 262144) (0x80 + (c / 4096) mod 64)) eqn:E4.
  - unfold is_cont, in_range.
    destruct ((0x80 <=? 0x80 + (c / 64) mod 64) && (0x80 + (c / 64) mod 64 <=? 0xBF)) eqn:E1; [|lia].
    destruct ((0x80 <=? 0x80 + c mod 64) && (0x80 + c mod 64 <=? 0xBF)) eqn:E2; [reflexivity|lia].
  - exfalso. unfold ok4, in_range in E4. lia.
Qed.

Lemma scan_cases idx v : v <> [] ->
  (exists c r, scalar c /\ v = enc c ++ r /\ utf8_scan idx v = utf8_scan (idx + lenN (enc c)) r)
  \/ utf8_scan idx v = Some idx.
Proof.
  intros Hv. destruct v as [|b0 r0]; [congruence|].
  assert (HX : (exists c r, scalar c /\ b0 :: r0 = enc c ++ r) \/ utf8_scan idx (b0 :: r0) = Some idx).
  2:{ destruct HX as [(c & r & Hc & HX)|HX]; [left|now right].
      exists c, r. split; [exact Hc|]. split; [exact HX|]. rewrite HX. now apply scan_enc. }
  pose proof (b2n_lt b0) as B0.
  destruct (width_cases (b2n b0)) as [(HW & H)|[(HW & H)|[(HW & H)|[(HW & H)|(HW & H)]]]];
    cbn [utf8_scan]; rewrite HW; cbn [N.eqb Pos.eqb].
  - left. exists (b2n b0), r0. split; [unfold scalar; lia|].
    unfold enc. destruct (N.ltb_spec (b2n b0) 0x80); [|lia]. cbn. now rewrite n2b_b2n.
  - destruct r0 as [|b1 r1]; [now right|]. pose proof (b2n_lt b1) as B1.
    unfold is_cont, in_range.
    destruct ((0x80 <=? b2n b1) && (b2n b1 <=? 0xBF)) eqn:E; [left|now right].
    exists ((b2n b0 - 0xC0) * 64 + (b2n b1 - 0x80)), r1. split; [unfold scalar; lia|].
    unfold enc. destruct (N.ltb_spec ((b2n b0 - 0xC0) * 64 + (b2n b1 - 0x80)) 0x80); [lia|].
    destruct (N.ltb_spec ((b2n b0 - 0xC0) * 64 + (b2n b1 - 0x80)) 0x800); [|lia].
    cbn [map app]. repeat f_equal; symmetry; apply n2b_eq; lia.
  - destruct r0 as [|b1 r1]; [now right|]. pose proof (b2n_lt b1) as B1.
    destruct (ok3 (b2n b0) (b2n b1)) eqn:E3; [|now right].
    destruct r1 as [|b2 r2]; [now right|]. pose proof (b2n_lt b2) as B2.
    unfold is_cont, in_range.
    destruct ((0x80 <=? b2n b2) && (b2n b2 <=? 0xBF)) eqn:E; [left|now right].
    unfold ok3, in_range in E3.
    set (c := (b2n b0 - 0xE0) * 4096 + (b2n b1 - 0x80) * 64 + (b2n b2 - 0x80)).
    assert (Hc : c = (b2n b0 - 0xE0) * 4096 + (b2n b1 - 0x80) * 64 + (b2n b2 - 0x80)) by reflexivity.
    clearbody c.
    exists c, r2. split; [unfold scalar; lia|].
    unfold enc. destruct (N.ltb_spec c 0x80); [lia|]. destruct (N.ltb_spec c 0x800); [lia|].
    destruct (N.ltb_spec c 0x10000); [|lia].
    cbn [map app]. repeat f_equal; symmetry; apply n2b_eq; lia.
  - destruct r0 as [|b1 r1]; [now right|]. pose proof (b2n_lt b1) as B1.
    destruct (ok4 (b2n b0) (b2n b1)) eqn:E3; [|now right].
    destruct r1 as [|b2 r2]; [now right|]. pose proof (b2n_lt b2) as B2.
    unfold is_cont, in_range.
    destruct ((0x80 <=? b2n b2) && (b2n b2 <=? 0xBF)) eqn:E; [|now right].
    destruct r2 as [|b3 r3]; [now right|]. pose proof (b2n_lt b3) as B3'.
    destruct ((0x80 <=? b2n b3) && (b2n b3 <=? 0xBF)) eqn:E'; [left|now right].
    unfold ok4, in_range in E3.
    set (c := (b2n b0 - 0xF0) * 262144 + (b2n b1 - 0x80) * 4096 + (b2n b2 - 0x80) * 64 + (b2n b3 - 0x80)).
    assert (Hc : c = (b2n b0 - 0xF0) * 262144 + (b2n b1 - 0x80) * 4096 + (b2n b2 - 0x80) * 64 + (b2n b3 - 0x80)) by reflexivity.
    clearbody c.
    exists c, r3. split; [unfold scalar; lia|].
    unfold enc. destruct (N.ltb_spec c 0x80); [lia|]. destruct (N.ltb_spec c 0x800); [lia|].
    destruct (N.ltb_spec c 0x10000); [lia|].
    cbn [map app]. repeat f_equal; symmetry; apply n2b_eq; lia.
  - now right.
Qed.

Lemma scan_complete cs : Forall scalar cs -> forall idx r,
  utf8_scan idx (flat_map enc cs ++ r) = utf8_scan (idx + lenN (flat_map enc cs)) r.
Proof.
  induction 1 as [|c cs Hc _ IH]; intros idx r.
  - cbn. now rewrite N.add_0_r.
  - cbn [flat_map]. rewrite <- app_assoc, scan_enc by exact Hc. rewrite IH, lenN_app. f_equal. lia.
Qed.

(** Scanning splits the input into a maximal encoded part and, on error, an undecodable rest. *)
Lemma scan_split n : forall v idx, (length v <= n)%nat ->
  exists cs r, Forall scalar cs /\ v = flat_map enc cs ++ r
    /\ ((r = [] /\ utf8_scan idx v = None)
        \/ (r <> [] /\ utf8_scan idx v = Some (idx + lenN (flat_map enc cs))
            /\ forall c t, scalar c -> r <> enc c ++ t)).
Proof.
  induction n as [|n IH]; intros v idx Hn.
  - destruct v; [|cbn in Hn; lia]. exists [], []. repeat split; auto.
  - destruct v as [|b v']; [exists [], []; repeat split; auto|].
    destruct (scan_cases idx (b :: v') ltac:(discriminate)) as [(c & r & Hc & Hv & HS)|HS].
    + rewrite Hv in *.
      assert (Hl : (length r <= n)%nat).
      { rewrite app_length in Hn. pose proof (enc_len c). unfold lenN in *. lia. }
      destruct (IH r (idx + lenN (enc c)) Hl) as (cs & r' & Hcs & Hr & HX).
      exists (c :: cs), r'. split; [now constructor|]. split; [cbn; now rewrite <- app_assoc, <- Hr|].
      rewrite HS. destruct HX as [(H1 & H2)|(H1 & H2 & H3)]; [left; auto|right].
      split; [exact H1|]. split; [|exact H3]. rewrite H2. cbn [flat_map]. rewrite lenN_app. f_equal. lia.
    + exists [], (b :: v'). split; [constructor|]. split; [reflexivity|]. right.
      split; [discriminate|]. split; [rewrite HS; cbn; f_equal; lia|].
      intros c t Hc HE. rewrite HE, scan_enc in HS by exact Hc.
      pose proof (enc_len c) as HL.
      assert (Hge : forall v i j, utf8_scan i v = Some j -> i <= j).
      { clear. induction v as [v IHv] using (well_founded_induction (Wf_nat.well_founded_ltof _ (@length byte))).
        intros i j H. destruct v as [|b v]; [discriminate|].
        destruct (scan_cases i (b :: v) ltac:(discriminate)) as [(c & r & Hc & Hv & HS)|HS].
        - rewrite HS in H. apply IHv in H; [lia|].
          unfold ltof. rewrite Hv, app_length. pose proof (enc_len c). unfold lenN in *. lia.
        - rewrite HS in H. injection H as <-. lia. }
      apply Hge in HS. lia.
Qed.

Theorem utf8_ok_iff s : utf8_ok s = true <-> is_utf8 s.
Proof.
  unfold utf8_ok, from_utf8, is_utf8. split.
  - destruct (scan_split (length s) s 0 (le_n _)) as (cs & r & Hcs & Hs & [(-> & H)|(_ & -> & _)]).
    + intros _. exists cs. now rewrite app_nil_r in Hs.
    + discriminate.
  - intros (cs & Hcs & ->). rewrite <- (app_nil_r (flat_map enc cs)), scan_complete by exact Hcs.
    reflexivity.
Qed.

Lemma cons_inj {A} (a b : A) l l' : a :: l = b :: l' -> a = b /\ l = l'.
Proof. intros H. now injection H. Qed.

(** Decoding is deterministic. *)
Lemma enc_prefix c c' t t' : scalar c -> scalar c' -> enc c ++ t = enc c' ++ t' -> c = c' /\ t = t'.
Proof.
  intros Hc Hc' H. unfold scalar in *.
  unfold enc in H.
  destruct (N.ltb_spec c 0x80); [|destruct (N.ltb_spec c 0x800); [|destruct (N.ltb_spec c 0x10000)]];
  (destruct (N.ltb_spec c' 0x80); [|destruct (N.ltb_spec c' 0x800); [|destruct (N.ltb_spec c' 0x10000)]]);
  cbn [map app] in H;
  repeat match goal with
  | H : _ :: _ = _ :: _ |- _ =>
      let h := fresh "E" in apply cons_inj in H; destruct H as [h H];
      apply (f_equal b2n) in h; rewrite !b2n_n2b in h by lia
  end; try lia.
  all: split; [|exact H]; clear H; lia.
Qed.

Lemma flat_enc_split cs : forall cs' r, Forall scalar cs -> Forall scalar cs' ->
  (forall c t, scalar c -> r <> enc c ++ t) ->
  forall u, flat_map enc cs ++ r = flat_map enc cs' ++ u -> lenN (flat_map enc cs') <= lenN (flat_map enc cs).
Proof.
  induction cs as [|c cs IH]; intros cs' r Hcs Hcs' Hr u H.
  - destruct cs' as [|c' cs']; [reflexivity|]. inversion Hcs'; subst.
    cbn in H. rewrite <- app_assoc in H. exfalso. eapply Hr; eauto.
  - destruct cs' as [|c' cs']; [cbn; lia|]. inversion Hcs; inversion Hcs'; subst.
    cbn in H. rewrite <- !app_assoc in H. apply enc_prefix in H; auto. destruct H as [-> H].
    cbn [flat_map]. rewrite !lenN_app. apply N.add_le_mono_l. eapply IH; eauto.
Qed.

(** The reported position is the length of the longest valid prefix. *)
Theorem from_utf8_pos s i : from_utf8 s = Some i ->
  i < lenN s /\ is_utf8 (takeN i s) /\ forall j, i < j -> j <= lenN s -> ~ is_utf8 (takeN j s).
Proof.
  unfold from_utf8. intros H.
  destruct (scan_split (length s) s 0 (le_n _)) as (cs & r & Hcs & Hs & [(-> & H')|(Hr & H' & Hx)]).
  - congruence.
  - rewrite H in H'. assert (Hi : i = lenN (flat_map enc cs)) by (injection H' as ->; lia). clear H'. subst i.
    split. { rewrite Hs, lenN_app. destruct r; [congruence|]. rewrite lenN_cons. lia. }
    split. { exists cs. split; [exact Hcs|]. now rewrite Hs, takeN_lenN_app. }
    intros j Hj Hjl (cs' & Hcs' & HE).
    assert (HS : flat_map enc cs ++ r = flat_map enc cs' ++ dropN j s).
    { rewrite <- HE, takeN_dropN. now symmetry. }
    apply flat_enc_split in HS; auto.
    rewrite <- HE, lenN_takeN in HS. lia.
Qed.
