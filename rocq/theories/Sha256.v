(** * SHA-256 and HMAC-SHA-256 (FIPS 180-4, RFC 2104).

    Stands for Go's crypto/sha256 and crypto/hmac, which pkg/migp/hasher.go:52
    and pkg/migp/encryptor.go:130 call.  Executable; checked against published
    vectors in [LibTests.v].  The proofs only use that digests are 32 bytes. *)
From Verif Require Import Base.
Local Open Scope N_scope.

Definition mask32 : N := 4294967295.
Definition w32 (n : N) : N := N.land n mask32.
Definition add32 (a b : N) : N := w32 (a + b).
Definition rotr32 (x : N) (n : N) : N :=
  N.lor (N.shiftr x n) (w32 (N.shiftl x (32 - n))).
Definition not32 (x : N) : N := N.lxor x mask32.

Definition sha_K : list N := [
  0x428a2f98; 0x71374491; 0xb5c0fbcf; 0xe9b5dba5; 0x3956c25b; 0x59f111f1; 0x923f82a4; 0xab1c5ed5;
  0xd807aa98; 0x12835b01; 0x243185be; 0x550c7dc3; 0x72be5d74; 0x80deb1fe; 0x9bdc06a7; 0xc19bf174;
  0xe49b69c1; 0xefbe4786; 0x0fc19dc6; 0x240ca1cc; 0x2de92c6f; 0x4a7484aa; 0x5cb0a9dc; 0x76f988da;
  0x983e5152; 0xa831c66d; 0xb00327c8; 0xbf597fc7; 0xc6e00bf3; 0xd5a79147; 0x06ca6351; 0x14292967;
  0x27b70a85; 0x2e1b2138; 0x4d2c6dfc; 0x53380d13; 0x650a7354; 0x766a0abb; 0x81c2c92e; 0x92722c85;
  0xa2bfe8a1; 0xa81a664b; 0xc24b8b70; 0xc76c51a3; 0xd192e819; 0xd6990624; 0xf40e3585; 0x106aa070;
  0x19a4c116; 0x1e376c08; 0x2748774c; 0x34b0bcb5; 0x391c0cb3; 0x4ed8aa4a; 0x5b9cca4f; 0x682e6ff3;
  0x748f82ee; 0x78a5636f; 0x84c87814; 0x8cc70208; 0x90befffa; 0xa4506ceb; 0xbef9a3f7; 0xc67178f2].

Definition sha_H0 : list N := [
  0x6a09e667; 0xbb67ae85; 0x3c6ef372; 0xa54ff53a; 0x510e527f; 0x9b05688c; 0x1f83d9ab; 0x5be0cd19].

Definition ssig0 x := N.lxor (N.lxor (rotr32 x 7) (rotr32 x 18)) (N.shiftr x 3).
Definition ssig1 x := N.lxor (N.lxor (rotr32 x 17) (rotr32 x 19)) (N.shiftr x 10).
Definition bsig0 x := N.lxor (N.lxor (rotr32 x 2) (rotr32 x 13)) (rotr32 x 22).
Definition bsig1 x := N.lxor (N.lxor (rotr32 x 6) (rotr32 x 11)) (rotr32 x 25).
Definition ch x y z := N.lxor (N.land x y) (N.land (not32 x) z).
Definition maj x y z := N.lxor (N.lxor (N.land x y) (N.land x z)) (N.land y z).

(** Bytes to big-endian 32-bit words (whole words only). *)
Fixpoint words_be (b : bytes) : list N :=
  match b with
  | b0 :: b1 :: b2 :: b3 :: r =>
      (bN b0 * 2 ^ 24 + bN b1 * 2 ^ 16 + bN b2 * 2 ^ 8 + bN b3) :: words_be r
  | _ => []
  end.

(** Message schedule: [w] holds the words so far, most recent first. *)
Fixpoint schedule (n : nat) (w : list N) : list N :=
  match n with
  | O => w
  | S n' =>
      let x := add32 (add32 (ssig1 (nth 1 w 0)) (nth 6 w 0))
                     (add32 (ssig0 (nth 14 w 0)) (nth 15 w 0)) in
      schedule n' (x :: w)
  end.

Definition sha_round (s : list N) (kw : N * N) : list N :=
  match s with
  | [a; b; c; d; e; f; g; h] =>
      let t1 := add32 (add32 h (bsig1 e)) (add32 (ch e f g) (add32 (fst kw) (snd kw))) in
      let t2 := add32 (bsig0 a) (maj a b c) in
      [add32 t1 t2; a; b; c; add32 d t1; e; f; g]
  | _ => s
  end.

Fixpoint map2 {A B C} (f : A -> B -> C) (l : list A) (m : list B) : list C :=
  match l, m with
  | x :: l', y :: m' => f x y :: map2 f l' m'
  | _, _ => []
  end.

Definition sha_block (s : list N) (block : bytes) : list N :=
  let w := rev (schedule 48 (rev (words_be block))) in
  map2 add32 s (fold_left sha_round (combine sha_K w) s).

(** Padding: 0x80, zeros, 64-bit bit length. *)
Definition sha_pad (m : bytes) : bytes :=
  let l := N.of_nat (length m) in
  let z := (119 - l mod 64) mod 64 in
  m ++ Byte.x80 :: zeros (N.to_nat z) ++ be32 ((8 * l) / 2 ^ 32) ++ be32 (8 * l).

Fixpoint sha_blocks (n : nat) (s : list N) (m : bytes) : list N :=
  match n with
  | O => s
  | S n' => sha_blocks n' (sha_block s (firstn 64 m)) (skipn 64 m)
  end.

(** The digest is 8 words of 4 bytes; [firstn 8] of a padded word list states
    the length outright (the state always has exactly 8 words). *)
Definition digest_words (s : list N) : list N := firstn 8 (s ++ repeat 0 8).

Definition sha256 (m : bytes) : bytes :=
  let p := sha_pad m in
  let n := N.to_nat (N.of_nat (length p) / 64) in
  flat_map be32 (digest_words (sha_blocks n sha_H0 p)).

(** HMAC with 64-byte blocks. *)
Definition hmac_key (k : bytes) : bytes :=
  let k0 := if (64 <? length k)%nat then sha256 k else k in
  k0 ++ zeros (64 - length k0).

Definition hmac_sha256 (k m : bytes) : bytes :=
  let k0 := hmac_key k in
  sha256 (map (bxor (nB 0x5c)) k0 ++ sha256 (map (bxor (nB 0x36)) k0 ++ m)).
