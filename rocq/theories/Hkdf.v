(** * HKDF-SHA-256 (golang.org/x/crypto/hkdf), as used by pkg/migp/encryptor.go:130-139.

    [hkdf.New(sha256.New, secret, salt, info)] extracts
    PRK = HMAC(salt, secret) (a nil salt means 32 zero bytes) and returns a
    reader of T(1) | T(2) | ..., T(i) = HMAC(PRK, T(i-1) | info | i).
    [Read(p)] on a fresh reader fails with "hkdf: entropy limit reached" when
    [len(p) > 255*32], otherwise fills [p] completely. *)
From Verif Require Import Base Sha256.

Definition hkdf_size : nat := 32.
Definition hkdf_limit : N := 8160. (* 255 * 32 *)

Definition hkdf_extract (secret salt : bytes) : bytes :=
  hmac_sha256 (match salt with [] => zeros hkdf_size | _ => salt end) secret.

(** [n] blocks starting at counter [ctr] with previous block [prev]. *)
Fixpoint hkdf_blocks (n : nat) (prk info prev : bytes) (ctr : N) : bytes :=
  match n with
  | O => []
  | S n' =>
      let t := hmac_sha256 prk (prev ++ info ++ [nB ctr]) in
      t ++ hkdf_blocks n' prk info t (ctr + 1)
  end.

(** First [Read] of [len] bytes from a fresh HKDF reader. *)
Definition hkdf_read (secret salt info : bytes) (len : nat) : res bytes :=
  if (hkdf_limit <? N.of_nat len)%N then Err "hkdf: entropy limit reached"
  else
    let prk := hkdf_extract secret salt in
    Ok (firstn len (hkdf_blocks (Nat.div (len + 31) 32) prk info [] 1)).
