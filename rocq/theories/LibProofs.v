(** * Lengths of the library outputs: the only facts about the cryptographic
    functions that the properties use. *)
From Verif Require Import Base BaseProofs Sha256 Hkdf Scrypt.

Lemma flat_map_be32_length l : length (flat_map be32 l) = (4 * length l)%nat.
Proof. induction l as [|x l IH]; [reflexivity|]. cbn [flat_map]. rewrite app_length, be32_length, IH. cbn [length]. lia. Qed.

Lemma sha256_length m : length (sha256 m) = 32%nat.
Proof.
  unfold sha256. cbv zeta. rewrite flat_map_be32_length. unfold digest_words.
  rewrite firstn_length, app_length, repeat_length. lia.
Qed.

Lemma hmac_length k m : length (hmac_sha256 k m) = 32%nat.
Proof. unfold hmac_sha256. cbv zeta. apply sha256_length. Qed.

Lemma hkdf_blocks_length n prk info prev ctr : length (hkdf_blocks n prk info prev ctr) = (32 * n)%nat.
Proof.
  revert prev ctr; induction n as [|n IH]; intros prev ctr; [reflexivity|].
  cbn [hkdf_blocks]. cbv zeta. rewrite app_length, hmac_length, IH. lia.
Qed.

Lemma hkdf_read_ok secret salt info len :
  (N.of_nat len <= 8160)%N -> exists p, hkdf_read secret salt info len = Ok p /\ length p = len.
Proof.
  intros H. unfold hkdf_read, hkdf_limit.
  destruct (8160 <? N.of_nat len)%N eqn:E; [lia|]. eexists. split; [reflexivity|].
  rewrite firstn_length, hkdf_blocks_length.
  pose proof (Nat.div_mod (len + 31) 32). pose proof (Nat.mod_upper_bound (len + 31) 32). lia.
Qed.

Lemma hkdf_read_err secret salt info len :
  (8160 < N.of_nat len)%N -> hkdf_read secret salt info len = Err "hkdf: entropy limit reached".
Proof. intros H. unfold hkdf_read, hkdf_limit. destruct (8160 <? N.of_nat len)%N eqn:E; [reflexivity|lia]. Qed.

Lemma pbkdf2_blocks_length n pw salt i : length (pbkdf2_blocks n pw salt i) = (32 * n)%nat.
Proof.
  revert i; induction n as [|n IH]; intros i; [reflexivity|].
  cbn [pbkdf2_blocks]. rewrite app_length, hmac_length, IH. lia.
Qed.

Lemma pbkdf2_1_length pw salt len : length (pbkdf2_1 pw salt len) = N.to_nat len.
Proof.
  unfold pbkdf2_1. rewrite firstn_length, pbkdf2_blocks_length.
  pose proof (N.div_mod (len + 31) 32). pose proof (N.mod_lt (len + 31) 32). lia.
Qed.

Lemma scrypt_core_length pw salt n r p len : length (scrypt_core pw salt n r p len) = N.to_nat len.
Proof. unfold scrypt_core. apply pbkdf2_1_length. Qed.
