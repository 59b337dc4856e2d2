(** * Properties C05, C06, C07, C39: pkg/migp/encryptor.go. *)
From Verif Require Import Base BaseProofs Common Encryptor SpecEntry EncryptorProofs.

(** ** C05: encryption round-trips, also with other data after the entry.
    [iw] is the width of Go's int. *)
Theorem C05_entry_roundtrip : forall (enc : BucketEncryptor) (iw : Z) (secret : bytes) (flag : byte) (body rest : bytes),
  (32 <= iw)%Z -> (blen body <= 8160)%Z ->
  exists ct, Encrypt enc secret flag body = Ok ct
    /\ DecryptHeader iw enc secret (ct ++ rest) = Ok (true, flag, blen body)
    /\ exists cbody, slice (ct ++ rest) 25 (25 + blen body) = Ok cbody
                     /\ DecryptBody enc secret cbody = Ok body.
Proof. exact entry_roundtrip. Qed.
Print Assumptions C05_entry_roundtrip.

(** The produced entry is the specified one, byte by byte. *)
Theorem C05_entry_format : forall (enc : BucketEncryptor) (secret : bytes) (flag : byte) (body : bytes),
  (blen body <= 8160)%Z ->
  Encrypt enc secret flag body = Ok (entry_bytes (make_entry secret flag body)).
Proof. exact Encrypt_ok. Qed.
Print Assumptions C05_entry_format.

Example C05_example :
  DecryptHeader 64 hkdfSHA256BucketEncryptor (str "k")
    (match Encrypt hkdfSHA256BucketEncryptor (str "k") Byte.x02 (str "meta") with Ok c => c | _ => [] end)
  = Ok (true, Byte.x02, 4%Z).
Proof. vm_compute. reflexivity. Qed.

(** ** C06: size, length field and size limit. *)
Theorem C06_entry_size : forall (enc : BucketEncryptor) (secret : bytes) (flag : byte) (body ct : bytes),
  Encrypt enc secret flag body = Ok ct ->
  blen ct = (25 + blen body)%Z
  /\ get_be32 (skipn 21 ct) = Ok (N.of_nat (length body)).
Proof. exact entry_size. Qed.
Print Assumptions C06_entry_size.

Theorem C06_size_limit : forall (enc : BucketEncryptor) (secret : bytes) (flag : byte) (body : bytes),
  ((8160 < blen body)%Z <-> exists m, Encrypt enc secret flag body = Err m)
  /\ forall m, Encrypt enc secret flag body <> Panic m.
Proof. exact size_limit. Qed.
Print Assumptions C06_size_limit.

Example C06_example : (8160 < blen (zeros (N.to_nat 8161)))%Z /\ (blen (zeros 100) <= 8160)%Z.
Proof. vm_compute. split; congruence. Qed.

(** ** C07: the key check accepts exactly the secrets with the same 20-byte
    HKDF output. *)
Theorem C07_key_check_exact : forall (enc : BucketEncryptor) (iw : Z) (secret secret' : bytes) (flag : byte) (body ct rest : bytes),
  Encrypt enc secret flag body = Ok ct ->
  exists ok flag' n, DecryptHeader iw enc secret' (ct ++ rest) = Ok (ok, flag', n)
    /\ (ok = true <-> key_check secret = key_check secret').
Proof. exact key_check_exact. Qed.
Print Assumptions C07_key_check_exact.

(** Two concrete secrets on the two sides. *)
Example C07_example : key_check (str "a") <> key_check (str "b").
Proof. vm_compute. discriminate. Qed.

(** DecryptHeader fails exactly on inputs shorter than a header, and never
    panics. *)
Theorem C07_header_errors : forall (enc : BucketEncryptor) (iw : Z) (secret ct : bytes),
  ((length ct < 25)%nat <-> exists m, DecryptHeader iw enc secret ct = Err m)
  /\ forall m, DecryptHeader iw enc secret ct <> Panic m.
Proof. exact header_errors. Qed.
Print Assumptions C07_header_errors.

(** ** C39: entries are not authenticated beyond the key check. *)

(** Flipping the bits [d] of the flag byte and [delta] of the body gives the
    valid entry of the changed plaintext: what a reader sees changes by
    exactly [d] and [delta], and the key check still passes. *)
Theorem C39_malleable : forall (enc : BucketEncryptor) (iw : Z) (secret : bytes) (flag d : byte) (body delta ct : bytes),
  (32 <= iw)%Z -> length delta = length body ->
  Encrypt enc secret flag body = Ok ct ->
  let ct' := xor ct (zeros 20 ++ [d] ++ zeros 4 ++ delta) in
  DecryptHeader iw enc secret ct' = Ok (true, bxor flag d, blen body)
  /\ DecryptBody enc secret (skipn 25 ct') = Ok (xor body delta).
Proof. exact malleable. Qed.
Print Assumptions C39_malleable.

(** Two entries under one secret reuse the pad. *)
Theorem C39_pad_reuse : forall (enc : BucketEncryptor) (secret : bytes) (f f' : byte) (b b' c c' : bytes),
  length b = length b' ->
  Encrypt enc secret f b = Ok c -> Encrypt enc secret f' b' = Ok c' ->
  xor c c' = zeros 20 ++ [bxor f f'] ++ zeros 4 ++ xor b b'.
Proof. exact pad_reuse_enc. Qed.
Print Assumptions C39_pad_reuse.

Example C39_example :
  (* a "breached" entry turned into a "not in breach" one *)
  match Encrypt hkdfSHA256BucketEncryptor (str "k") Byte.x01 (str "m") with
  | Ok c => match DecryptHeader 64 hkdfSHA256BucketEncryptor (str "k") (xor c (zeros 20 ++ [Byte.x01] ++ zeros 5)) with
            | Ok (ok, f, _) => (ok, ToBreachStatus f) | _ => (false, InBreach) end
  | _ => (false, InBreach) end = (true, NotInBreach).
Proof. vm_compute. reflexivity. Qed.
