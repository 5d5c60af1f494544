(** Facts about bytes, byte strings and the reader monad. *)
From Verif Require Import Base.
Open Scope N_scope.
Ltac Zify.zify_post_hook ::= Z.div_mod_to_equations.

Lemma b2n_lt b : b2n b < 256.
Proof. unfold b2n. pose proof (Coq.Strings.Byte.to_N_bounded b). lia. Qed.

Lemma n2b_b2n b : n2b (b2n b) = b.
Proof.
  unfold n2b, b2n. pose proof (b2n_lt b) as H. unfold b2n in H.
  rewrite N.mod_small by exact H. now rewrite Coq.Strings.Byte.of_to_N.
Qed.

Lemma b2n_n2b n : n < 256 -> b2n (n2b n) = n.
Proof.
  intros H. unfold n2b, b2n. rewrite N.mod_small by exact H.
  destruct (Coq.Strings.Byte.of_N n) as [b|] eqn:E.
  - now apply Coq.Strings.Byte.to_of_N.
  - apply Coq.Strings.Byte.of_N_None_iff in E. lia.
Qed.

Lemma n2b_mod n : n2b (n mod 256) = n2b n.
Proof. unfold n2b. now rewrite N.mod_mod by lia. Qed.

Lemma b2n_n2b_mod n : b2n (n2b n) = n mod 256.
Proof. rewrite <- n2b_mod. apply b2n_n2b. now apply N.mod_upper_bound. Qed.

Lemma b2n_inj a b : b2n a = b2n b -> a = b.
Proof. intros H. rewrite <- (n2b_b2n a), <- (n2b_b2n b). now rewrite H. Qed.

Lemma byte_eqb_spec a b : reflect (a = b) (byte_eqb a b).
Proof.
  unfold byte_eqb. destruct (Coq.Strings.Byte.eqb a b) eqn:E; constructor.
  - now apply Coq.Strings.Byte.byte_dec_bl.
  - intros ->. rewrite (Coq.Strings.Byte.byte_dec_lb eq_refl) in E. discriminate.
Qed.

Lemma byte_eqb_eq a b : byte_eqb a b = true -> a = b.
Proof. destruct (byte_eqb_spec a b); congruence. Qed.

Lemma byte_eqb_neq a b : byte_eqb a b = false -> a <> b.
Proof. destruct (byte_eqb_spec a b); congruence. Qed.

Definition byte_eq_dec (a b : byte) : {a = b} + {a <> b} :=
  match byte_eqb a b as x return byte_eqb a b = x -> _ with
  | true => fun E => left (byte_eqb_eq a b E)
  | false => fun E => right (byte_eqb_neq a b E)
  end eq_refl.

Lemma bytes_eqb_spec a b : reflect (a = b) (bytes_eqb a b).
Proof.
  revert b; induction a as [|x a IH]; intros [|y b]; cbn; try (constructor; congruence).
  destruct (byte_eqb_spec x y) as [->|]; cbn.
  - destruct (IH b) as [->|]; constructor; congruence.
  - constructor; congruence.
Qed.

Lemma bytes_eqb_refl a : bytes_eqb a a = true.
Proof. destruct (bytes_eqb_spec a a); congruence. Qed.

Lemma bytes_eqb_eq a b : bytes_eqb a b = true <-> a = b.
Proof. destruct (bytes_eqb_spec a b); split; congruence. Qed.

Lemma bytes_eqb_neq a b : bytes_eqb a b = false <-> a <> b.
Proof. destruct (bytes_eqb_spec a b); split; congruence. Qed.

Lemma bytes_eqb_sym a b : bytes_eqb a b = bytes_eqb b a.
Proof. destruct (bytes_eqb_spec a b), (bytes_eqb_spec b a); congruence. Qed.

Definition bytes_eq_dec (a b : bytes) : {a = b} + {a <> b} :=
  match bytes_eqb a b as x return bytes_eqb a b = x -> _ with
  | true => fun E => left (proj1 (bytes_eqb_eq a b) E)
  | false => fun E => right (proj1 (bytes_eqb_neq a b) E)
  end eq_refl.

(** lengths *)

Lemma lenN_nil {A} : lenN (@nil A) = 0.
Proof. reflexivity. Qed.

Lemma lenN_cons {A} (x : A) l : lenN (x :: l) = 1 + lenN l.
Proof. unfold lenN; cbn [length]; lia. Qed.

Lemma lenN_app {A} (l r : list A) : lenN (l ++ r) = lenN l + lenN r.
Proof. unfold lenN; rewrite app_length; lia. Qed.

Lemma lenN_0 {A} (l : list A) : lenN l = 0 -> l = [].
Proof. destruct l; [reflexivity | rewrite lenN_cons; lia]. Qed.

Lemma takeN_lenN_app {A} (l r : list A) : takeN (lenN l) (l ++ r) = l.
Proof.
  unfold takeN, lenN. rewrite Nat2N.id, firstn_app, Nat.sub_diag, firstn_all. cbn. now rewrite app_nil_r.
Qed.

Lemma dropN_lenN_app {A} (l r : list A) : dropN (lenN l) (l ++ r) = r.
Proof.
  unfold dropN, lenN. rewrite Nat2N.id, skipn_app, Nat.sub_diag, skipn_all. reflexivity.
Qed.

Lemma takeN_dropN {A} n (l : list A) : takeN n l ++ dropN n l = l.
Proof. apply firstn_skipn. Qed.

Lemma lenN_takeN {A} n (l : list A) : lenN (takeN n l) = N.min n (lenN l).
Proof. unfold takeN, lenN. rewrite firstn_length. lia. Qed.

Lemma lenN_dropN {A} n (l : list A) : lenN (dropN n l) = lenN l - n.
Proof. unfold dropN, lenN. rewrite skipn_length. lia. Qed.

Lemma takeN_0 {A} (l : list A) : takeN 0 l = [].
Proof. reflexivity. Qed.

Lemma dropN_0 {A} (l : list A) : dropN 0 l = l.
Proof. reflexivity. Qed.

Lemma takeN_all {A} n (l : list A) : lenN l <= n -> takeN n l = l.
Proof. unfold takeN, lenN. intros. apply firstn_all2. lia. Qed.

Lemma dropN_all {A} n (l : list A) : lenN l <= n -> dropN n l = [].
Proof. unfold dropN, lenN. intros. apply skipn_all2. lia. Qed.

Lemma takeN_app_le {A} n (l r : list A) : n <= lenN l -> takeN n (l ++ r) = takeN n l.
Proof.
  unfold takeN, lenN. intros. rewrite firstn_app.
  replace (N.to_nat n - length l)%nat with 0%nat by lia. cbn. now rewrite app_nil_r.
Qed.

Lemma dropN_app_le {A} n (l r : list A) : n <= lenN l -> dropN n (l ++ r) = dropN n l ++ r.
Proof.
  unfold dropN, lenN. intros. rewrite skipn_app.
  now replace (N.to_nat n - length l)%nat with 0%nat by lia.
Qed.

Lemma split_at {A} n (l : list A) : n <= lenN l -> exists a b, l = a ++ b /\ lenN a = n.
Proof.
  intros H. exists (takeN n l), (dropN n l). rewrite takeN_dropN, lenN_takeN. split; [reflexivity|lia].
Qed.
