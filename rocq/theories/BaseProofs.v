(** * Lemmas about [Base.v]. *)
From Coq Require Export Lia ZifyBool ZifyNat ZifyN.
From Coq Require Import Strings.Byte.
From Verif Require Import Base.

Lemma bN_lt b : (bN b < 256)%N.
Proof. unfold bN. pose proof (Byte.to_N_bounded b). lia. Qed.

Lemma nB_bN b : nB (bN b) = b.
Proof.
  unfold nB. rewrite N.mod_small by apply bN_lt. unfold bN. rewrite Byte.of_to_N. reflexivity.
Qed.

Lemma bN_nB n : bN (nB n) = (n mod 256)%N.
Proof.
  unfold nB. destruct (Byte.of_N (n mod 256)) as [b|] eqn:E.
  - unfold bN. apply Byte.to_of_N. exact E.
  - exfalso. apply Byte.of_N_None_iff in E.
    pose proof (N.mod_lt n 256). lia.
Qed.

Lemma bN_nB_small n : (n < 256)%N -> bN (nB n) = n.
Proof. intros H. rewrite bN_nB. apply N.mod_small. exact H. Qed.

Lemma bN_inj a b : bN a = bN b -> a = b.
Proof. intros H. rewrite <- (nB_bN a), <- (nB_bN b), H. reflexivity. Qed.

Lemma nB_mod n : nB (n mod 256) = nB n.
Proof. unfold nB. rewrite N.mod_mod by discriminate. reflexivity. Qed.

Lemma nB_inj_small a b : (a < 256)%N -> (b < 256)%N -> nB a = nB b -> a = b.
Proof. intros Ha Hb H. apply (f_equal bN) in H. rewrite !bN_nB_small in H by assumption. exact H. Qed.

Lemma lxor_lt_pow2 k a b : (a < 2 ^ k)%N -> (b < 2 ^ k)%N -> (N.lxor a b < 2 ^ k)%N.
Proof.
  intros Ha Hb.
  rewrite <- (N.mod_small a (2 ^ k)), <- (N.mod_small b (2 ^ k)) by assumption.
  assert (E : (N.lxor (a mod 2 ^ k) (b mod 2 ^ k) = N.lxor a b mod 2 ^ k)%N).
  { apply N.bits_inj. intros i. rewrite N.lxor_spec.
    destruct (N.lt_ge_cases i k) as [H|H].
    - rewrite !N.mod_pow2_bits_low by exact H. symmetry. apply N.lxor_spec.
    - rewrite !N.mod_pow2_bits_high by exact H. reflexivity. }
  rewrite E. apply N.mod_lt. apply N.pow_nonzero. discriminate.
Qed.

Lemma lxor_lt8 a b : (a < 256)%N -> (b < 256)%N -> (N.lxor a b < 256)%N.
Proof. apply (lxor_lt_pow2 8). Qed.

Lemma bN_bxor a b : bN (bxor a b) = N.lxor (bN a) (bN b).
Proof. unfold bxor. apply bN_nB_small. apply lxor_lt8; apply bN_lt. Qed.

Lemma bxor_comm a b : bxor a b = bxor b a.
Proof. unfold bxor. rewrite N.lxor_comm. reflexivity. Qed.

Lemma bxor_assoc a b c : bxor (bxor a b) c = bxor a (bxor b c).
Proof. apply bN_inj. rewrite !bN_bxor. apply N.lxor_assoc. Qed.

Lemma bxor_nilpotent a : bxor a a = Byte.x00.
Proof. apply bN_inj. rewrite bN_bxor, N.lxor_nilpotent. reflexivity. Qed.

Lemma bxor_0_l a : bxor Byte.x00 a = a.
Proof. apply bN_inj. rewrite bN_bxor. apply N.lxor_0_l. Qed.

Lemma bxor_0_r a : bxor a Byte.x00 = a.
Proof. rewrite bxor_comm. apply bxor_0_l. Qed.

Lemma bxor_cancel a b : bxor (bxor a b) b = a.
Proof. rewrite bxor_assoc, bxor_nilpotent. apply bxor_0_r. Qed.

Lemma beqb_eq a b : beqb a b = true <-> a = b.
Proof. unfold beqb. split; [apply Byte.byte_dec_bl | apply Byte.byte_dec_lb]. Qed.

Lemma beqb_refl a : beqb a a = true.
Proof. apply beqb_eq. reflexivity. Qed.

Lemma beqb_neq a b : beqb a b = false <-> a <> b.
Proof.
  split.
  - intros H E. apply beqb_eq in E. congruence.
  - intros H. destruct (beqb a b) eqn:E; [|reflexivity]. apply beqb_eq in E. contradiction.
Qed.

Lemma bytes_eqb_eq a b : bytes_eqb a b = true <-> a = b.
Proof.
  revert b; induction a as [|x a IH]; destruct b as [|y b]; cbn; split; try congruence; intros H.
  - apply andb_true_iff in H as [Hx Ha]. apply beqb_eq in Hx. apply IH in Ha. congruence.
  - injection H as <- <-. rewrite beqb_refl. apply IH. reflexivity.
Qed.

Lemma bytes_eqb_refl a : bytes_eqb a a = true.
Proof. apply bytes_eqb_eq. reflexivity. Qed.

Lemma bytes_eqb_neq a b : bytes_eqb a b = false <-> a <> b.
Proof.
  split.
  - intros H E. apply bytes_eqb_eq in E. congruence.
  - intros H. destruct (bytes_eqb a b) eqn:E; [|reflexivity]. apply bytes_eqb_eq in E. contradiction.
Qed.

Lemma bytes_eqb_sym a b : bytes_eqb a b = bytes_eqb b a.
Proof.
  destruct (bytes_eqb b a) eqn:E.
  - apply bytes_eqb_eq in E. apply bytes_eqb_eq. congruence.
  - apply bytes_eqb_neq in E. apply bytes_eqb_neq. congruence.
Qed.

Lemma bytes_dec (a b : bytes) : {a = b} + {a <> b}.
Proof.
  destruct (bytes_eqb a b) eqn:E; [left; apply bytes_eqb_eq, E | right; apply bytes_eqb_neq, E].
Qed.

(** ** Big-endian integers *)

Lemma be16_length n : length (be16 n) = 2%nat.
Proof. reflexivity. Qed.
Lemma be32_length n : length (be32 n) = 4%nat.
Proof. reflexivity. Qed.

Definition val16 (b : bytes) : N :=
  match b with [x; y] => (bN x * 256 + bN y)%N | _ => 0%N end.

Ltac divmod := Zify.zify; Z.div_mod_to_equations; lia.

Lemma val16_be16 n : (n < 2 ^ 16)%N -> val16 (be16 n) = n.
Proof.
  intros H. unfold be16, val16. rewrite !bN_nB.
  change (2 ^ 16)%N with 65536%N in H.
  rewrite (N.mod_small (n / 256)) by (apply N.div_lt_upper_bound; lia).
  pose proof (N.div_mod n 256). lia.
Qed.

Lemma be16_inj a b : (a < 2 ^ 16)%N -> (b < 2 ^ 16)%N -> be16 a = be16 b -> a = b.
Proof. intros Ha Hb H. apply (f_equal val16) in H. rewrite !val16_be16 in H by assumption. exact H. Qed.

Lemma get_be32_be32 n r : get_be32 (be32 n ++ r) = Ok (n mod 2 ^ 32)%N.
Proof.
  unfold be32, get_be32. cbn [app]. f_equal. rewrite !bN_nB.
  change (2 ^ 24)%N with 16777216%N. change (2 ^ 16)%N with 65536%N.
  change (2 ^ 8)%N with 256%N. change (2 ^ 32)%N with 4294967296%N.
  assert (E1 : (n / 65536 = n / 256 / 256)%N) by (rewrite N.div_div by discriminate; reflexivity).
  assert (E2 : (n / 16777216 = n / 256 / 256 / 256)%N) by (rewrite !N.div_div by discriminate; reflexivity).
  assert (E3 : (n / 4294967296 = n / 256 / 256 / 256 / 256)%N) by (rewrite !N.div_div by discriminate; reflexivity).
  pose proof (N.div_mod n 256 ltac:(discriminate)) as H0.
  pose proof (N.div_mod (n / 256) 256 ltac:(discriminate)) as H1.
  pose proof (N.div_mod (n / 256 / 256) 256 ltac:(discriminate)) as H2.
  pose proof (N.div_mod (n / 256 / 256 / 256) 256 ltac:(discriminate)) as H3.
  pose proof (N.div_mod n 4294967296 ltac:(discriminate)) as H4.
  rewrite E3 in H4. rewrite E1, E2.
  lia.
Qed.

Lemma get_be32_small n r : (n < 2 ^ 32)%N -> get_be32 (be32 n ++ r) = Ok n.
Proof. intros H. rewrite get_be32_be32, N.mod_small by exact H. reflexivity. Qed.

Lemma get_be32_lt b n : get_be32 b = Ok n -> (n < 2 ^ 32)%N.
Proof.
  destruct b as [|b0 [|b1 [|b2 [|b3 b]]]]; cbn [get_be32]; try discriminate.
  intros H; injection H as <-.
  pose proof (bN_lt b0). pose proof (bN_lt b1). pose proof (bN_lt b2). pose proof (bN_lt b3).
  change (2 ^ 24)%N with 16777216%N. change (2 ^ 16)%N with 65536%N.
  change (2 ^ 8)%N with 256%N. change (2 ^ 32)%N with 4294967296%N. lia.
Qed.

Lemma get_be32_ok b : (4 <= length b)%nat -> exists n, get_be32 b = Ok n /\ (n < 2 ^ 32)%N.
Proof.
  intros H. destruct b as [|b0 [|b1 [|b2 [|b3 b]]]]; cbn in H; try lia.
  eexists. split; [reflexivity|]. eapply (get_be32_lt (b0 :: b1 :: b2 :: b3 :: b)). reflexivity.
Qed.

(** Every four bytes are the big-endian form of their value. *)
Lemma be32_get b n : get_be32 b = Ok n -> firstn 4 b = be32 n.
Proof.
  destruct b as [|b0 [|b1 [|b2 [|b3 b]]]]; try discriminate.
  intros H.
  assert (Hn : n = (bN b0 * 16777216 + bN b1 * 65536 + bN b2 * 256 + bN b3)%N)
    by (injection H as <-; reflexivity).
  clear H.
  pose proof (bN_lt b0) as L0. pose proof (bN_lt b1) as L1.
  pose proof (bN_lt b2) as L2. pose proof (bN_lt b3) as L3.
  change (firstn 4 (b0 :: b1 :: b2 :: b3 :: b)) with [b0; b1; b2; b3]. unfold be32.
  change (2 ^ 24)%N with 16777216%N. change (2 ^ 16)%N with 65536%N. change (2 ^ 8)%N with 256%N.
  assert (E0 : (n / 16777216 = bN b0)%N)
    by (symmetry; apply (N.div_unique _ _ _ (bN b1 * 65536 + bN b2 * 256 + bN b3)); lia).
  assert (E1 : (n / 65536 = bN b0 * 256 + bN b1)%N)
    by (symmetry; apply (N.div_unique _ _ _ (bN b2 * 256 + bN b3)); lia).
  assert (E2 : (n / 256 = (bN b0 * 256 + bN b1) * 256 + bN b2)%N)
    by (symmetry; apply (N.div_unique _ _ _ (bN b3)); lia).
  assert (M : forall q r, (bN r < 256)%N -> nB (q * 256 + bN r) = r).
  { intros q r Hr. apply bN_inj. rewrite bN_nB.
    symmetry. apply (N.mod_unique _ _ q); lia. }
  rewrite E0, E1, E2, nB_bN, !M by assumption.
  rewrite Hn. replace (bN b0 * 16777216 + bN b1 * 65536 + bN b2 * 256 + bN b3)%N with (((bN b0 * 256 + bN b1) * 256 + bN b2) * 256 + bN b3)%N by (lia).
  rewrite M by assumption. reflexivity.
Qed.

Lemma be32_inj a b : (a < 2 ^ 32)%N -> (b < 2 ^ 32)%N -> be32 a = be32 b -> a = b.
Proof.
  intros Ha Hb H. pose proof (get_be32_small a [] Ha) as A. rewrite H in A.
  rewrite get_be32_small in A by exact Hb. congruence.
Qed.

Lemma be32_mod n : be32 (n mod 2 ^ 32) = be32 n.
Proof.
  pose proof (be32_get (be32 n ++ []) _ (get_be32_be32 n [])) as H.
  cbn [app] in H. rewrite <- H. reflexivity.
Qed.

(** ** Lists *)

Lemma app_inv_length {A} (a b c d : list A) :
  length a = length c -> a ++ b = c ++ d -> a = c /\ b = d.
Proof.
  revert c; induction a as [|x a IH]; destruct c as [|y c]; cbn; intros HL H; try discriminate.
  - split; [reflexivity|exact H].
  - injection H as <- H. injection HL as HL. apply IH in H as [-> ->]; auto.
Qed.

Lemma firstn_app_exact {A} (a b : list A) n : length a = n -> firstn n (a ++ b) = a.
Proof. intros <-. rewrite firstn_app, Nat.sub_diag, firstn_all. cbn. apply app_nil_r. Qed.

Lemma skipn_app_exact {A} (a b : list A) n : length a = n -> skipn n (a ++ b) = b.
Proof. intros <-. rewrite skipn_app, Nat.sub_diag, skipn_all. reflexivity. Qed.

Lemma skipn_skipn' {A} n m (l : list A) : skipn n (skipn m l) = skipn (m + n) l.
Proof.
  revert l; induction m as [|m IH]; intros l; cbn; [reflexivity|].
  destruct l as [|x l]; [apply skipn_nil|]. apply IH.
Qed.

(** ** Results *)
Lemma Ok_inj {A} (a b : A) : Ok a = Ok b -> a = b.
Proof. intros H. injection H as H. exact H. Qed.
Lemma Some_inj {A} (a b : A) : Some a = Some b -> a = b.
Proof. intros H. injection H as H. exact H. Qed.
Lemma pair_inj {A B} (a a' : A) (b b' : B) : (a, b) = (a', b') -> a = a' /\ b = b'.
Proof. intros H. injection H as H1 H2. auto. Qed.
Lemma bind_ok {A B} (r : res A) (k : A -> res B) b :
  bind r k = Ok b -> exists a, r = Ok a /\ k a = Ok b.
Proof. destruct r; cbn; intros H; try discriminate. eauto. Qed.

(** ** int_wrap at 64 bits *)
Lemma int_wrap_small w z : (0 < w)%Z -> (- 2 ^ (w - 1) <= z < 2 ^ (w - 1))%Z -> int_wrap w z = z.
Proof.
  intros Hw H. unfold int_wrap.
  assert (2 ^ w = 2 * 2 ^ (w - 1))%Z as E.
  { replace w with (Z.succ (w - 1)) at 1 by lia. rewrite Z.pow_succ_r by lia. reflexivity. }
  rewrite Z.mod_small by lia. lia.
Qed.
