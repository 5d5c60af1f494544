(** Property C55: the keep-alive deadline. *)
From Coq Require Import Floats.SpecFloat.
From Verif Require Import Base Messaging KeepAlive.
Open Scope Z_scope.

(** The product is exact and the conversion truncates it: checked for each of the 65536 values a
    keep-alive can have. *)
Fixpoint all_from (p : N -> bool) (n : nat) (k : N) : bool :=
  match n with
  | O => true
  | S n' => if p k then all_from p n' (N.succ k) else false
  end.

Lemma all_from_spec p n : forall k, all_from p n k = true -> forall i, (k <= i < k + N.of_nat n)%N -> p i = true.
Proof.
  induction n as [|n IH]; intros k H i Hi.
  - lia.
  - cbn [all_from] in H. destruct (p k) eqn:E; [|discriminate].
    destruct (N.eq_dec i k) as [->|D]; [exact E|]. apply (IH (N.succ k) H). lia.
Qed.

Lemma leeway_all : all_from (fun k => leeway_seconds k =? 3 * Z.of_N k / 2) (N.to_nat 65536) 0 = true.
Proof. vm_compute. reflexivity. Qed.

Theorem C55_leeway (k : N) : (k < 65536)%N -> leeway_seconds k = 3 * Z.of_N k / 2.
Proof.
  intros H. apply Z.eqb_eq.
  apply (all_from_spec (fun k => leeway_seconds k =? 3 * Z.of_N k / 2) _ _ leeway_all).
  rewrite N2Nat.id. split; [apply N.le_0_l|exact H].
Qed.

Definition second : Z := 1000000000.

(** Never without keep-alive; otherwise exactly from floor(1.5 k) seconds after the last activity. *)
Theorem C55_deadline last s now :
  (s_keep_alive_seconds s < 65536)%N ->
  s_last_activity s + 98302 * second <= last ->
  (s_keep_alive_seconds s = 0%N -> is_keep_alive_expired last s now = Some false)
  /\ ((0 < s_keep_alive_seconds s)%N ->
      exists b, is_keep_alive_expired last s now = Some b
        /\ (b = true <-> now - s_last_activity s >= 3 * Z.of_N (s_keep_alive_seconds s) / 2 * second)).
Proof.
  intros Hk Hl. unfold is_keep_alive_expired. split.
  - intros ->. reflexivity.
  - intros H0. destruct (N.eqb_spec (s_keep_alive_seconds s) 0) as [E|_]; [lia|].
    rewrite (C55_leeway _ Hk). unfold second in *.
    assert (HB : 3 * Z.of_N (s_keep_alive_seconds s) / 2 < 98303) by (apply Z.div_lt_upper_bound; lia).
    destruct (Z.ltb_spec last (s_last_activity s + 3 * Z.of_N (s_keep_alive_seconds s) / 2 * 1000000000)); [lia|].
    eexists. split; [reflexivity|]. rewrite Z.leb_le. lia.
Qed.

(** Whole seconds elapsed: at least one and a half periods is enough, and less than that by a second
    is not. *)
Corollary C55_one_and_a_half last s now :
  (0 < s_keep_alive_seconds s < 65536)%N -> s_last_activity s + 98302 * second <= last ->
  (2 * (now - s_last_activity s) >= 3 * Z.of_N (s_keep_alive_seconds s) * second ->
     is_keep_alive_expired last s now = Some true)
  /\ (2 * (now - s_last_activity s) <= (3 * Z.of_N (s_keep_alive_seconds s) - 2) * second ->
     is_keep_alive_expired last s now = Some false).
Proof.
  intros Hk Hl. destruct (C55_deadline last s now ltac:(lia) Hl) as (_ & K). destruct (K ltac:(lia)) as (b & E & Hb).
  rewrite E. unfold second in *.
  pose proof (Z.div_mod (3 * Z.of_N (s_keep_alive_seconds s)) 2 ltac:(lia)) as HD.
  pose proof (Z.mod_pos_bound (3 * Z.of_N (s_keep_alive_seconds s)) 2 ltac:(lia)) as HM.
  split; intros H; f_equal.
  - apply Hb. lia.
  - destruct b; [|reflexivity]. exfalso. assert (HX : true = true) by reflexivity. apply Hb in HX. lia.
Qed.

(** Keep alive 15: 22 seconds. *)
Example C55_case :
  let s := Session_new [] 0%N true 0%nat 15 (100 * second) in
  is_keep_alive_expired (10 ^ 30) s (122 * second - 1) = Some false
  /\ is_keep_alive_expired (10 ^ 30) s (122 * second) = Some true
  /\ is_keep_alive_expired (10 ^ 30) (Session_new [] 0%N true 0%nat 0 0) (10 ^ 29) = Some false.
Proof. vm_compute. auto. Qed.
