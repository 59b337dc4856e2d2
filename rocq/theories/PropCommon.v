(** * Properties C01, C02, C03, C13 (flags), C40: pkg/migp/common.go,
    hasher.go, slowhasher.go. *)
From Verif Require Import Base BaseProofs Sha256 Scrypt Hex Common Hasher SpecCommon CommonProofs.

(** ** C01: credential serialization is unambiguous. *)

(** A serialized credential of fields up to 65535 bytes can be read back. *)
Theorem C01_serialized_form_is_readable : forall u p : bytes,
  (blen u <= 65535)%Z -> (blen p <= 65535)%Z ->
  exists s, serializeUsernamePassword u p = Ok s /\ read_credential s = Some (u, p).
Proof. exact serialize_readable. Qed.
Print Assumptions C01_serialized_form_is_readable.

(** Different credentials have different serialized forms, and none is a
    proper prefix of another. *)
Theorem C01_serialization_injective_and_prefix_free : forall (u p u' p' s t : bytes),
  (blen u <= 65535)%Z -> (blen p <= 65535)%Z -> (blen u' <= 65535)%Z -> (blen p' <= 65535)%Z ->
  serializeUsernamePassword u p = Ok s -> serializeUsernamePassword u' p' = Ok (s ++ t) ->
  t = [] /\ u = u' /\ p = p'.
Proof. exact serialize_prefix_free. Qed.
Print Assumptions C01_serialization_injective_and_prefix_free.

(** At 65536 bytes the call still succeeds but is no longer injective. *)
Theorem C01_collision_at_65536_refuted : exists u p u' p' s : bytes,
  (u, p) <> (u', p') /\ blen u = 65536%Z /\
  serializeUsernamePassword u p = Ok s /\ serializeUsernamePassword u' p' = Ok s.
Proof. exact serialize_collision_witness. Qed.
Print Assumptions C01_collision_at_65536_refuted.

(** Above that it panics, and only then. *)
Theorem C01_panics_exactly_above_65536 : forall u p : bytes,
  ((65536 < blen u)%Z \/ (65536 < blen p)%Z) <->
  serializeUsernamePassword u p = Panic "Length overflow".
Proof. exact serialize_panics. Qed.
Print Assumptions C01_panics_exactly_above_65536.

Example C01_example :
  serializeUsernamePassword (str "ab") (str "c") = Ok [Byte.x00; Byte.x02; Byte.x61; Byte.x62; Byte.x00; Byte.x01; Byte.x63]
  /\ serializeUsernamePassword (str "a") (str "bc") <> serializeUsernamePassword (str "ab") (str "c").
Proof. split; [reflexivity | discriminate]. Qed.

(** ** C02: the bucket ID is the leading bits of the bucket hash. *)
Theorem C02_bucket_id_is_leading_bits : forall (h : bytes) (k : Z),
  (4 <= length h)%nat -> (0 <= k <= 32)%Z ->
  bucketHashToID h k = Ok (bits_value (firstn (Z.to_nat k) (bits h)))
  /\ (bits_value (firstn (Z.to_nat k) (bits h)) < 2 ^ Z.to_N k)%N.
Proof. exact bucket_id_leading_bits. Qed.
Print Assumptions C02_bucket_id_is_leading_bits.

Theorem C02_bad_bit_size_panics : forall (h : bytes) (k : Z),
  (4 <= length h)%nat -> (k < 0 \/ 32 < k)%Z -> exists m, bucketHashToID h k = Panic m.
Proof. exact (fun h k Hh Hk => bucketHashToID_bad h k Hk Hh). Qed.
Print Assumptions C02_bad_bit_size_panics.

Example C02_example : bucketHashToID [Byte.xab; Byte.xcd; Byte.xef; Byte.x01; Byte.x23] 20 = Ok 0xabcde%N
  /\ bucketHashToID [Byte.xff; Byte.xff; Byte.xff; Byte.xff] 32 = Ok 0xffffffff%N
  /\ bucketHashToID [Byte.xff; Byte.xff; Byte.xff; Byte.xff] 0 = Ok 0%N.
Proof. vm_compute. auto. Qed.

(** ** C03: hex form of bucket IDs. *)
Theorem C03_hex_form : forall id : N, (id < 2 ^ 32)%N ->
  length (BucketIDToHex id) = 8%nat
  /\ Forall (fun c => In c (str "0123456789abcdef")) (BucketIDToHex id)
  /\ hex_value (BucketIDToHex id) = Some id
  /\ hex_decode (BucketIDToHex id) = Ok (be32 id).
Proof. exact hex_form. Qed.
Print Assumptions C03_hex_form.

Theorem C03_hex_injective : forall a b : N, (a < 2 ^ 32)%N -> (b < 2 ^ 32)%N ->
  BucketIDToHex a = BucketIDToHex b -> a = b.
Proof. exact BucketIDToHex_inj. Qed.
Print Assumptions C03_hex_injective.

Example C03_example : BucketIDToHex 0xabcde = str "000abcde".
Proof. reflexivity. Qed.

(** ** C13, first part: the four recognised flags and their statuses. *)
Theorem C13_flag_validity : forall f : byte, MetadataType_Valid f = true <-> (bN f < 4)%N.
Proof. exact Valid_iff. Qed.
Print Assumptions C13_flag_validity.

Theorem C13_flag_status : forall f : byte,
  ToBreachStatus f = (if (bN f =? 1)%N then InBreach else if (bN f =? 2)%N then SimilarInBreach
                      else if (bN f =? 3)%N then UsernameInBreach else NotInBreach).
Proof. exact ToBreachStatus_cases. Qed.
Print Assumptions C13_flag_status.

(** ** C40: bucket hashing and slow hashing. *)

(** The bucket hash is SHA-256 of length-prefixed salt and username, defined
    exactly up to 65536 bytes. *)
Theorem C40_bucket_hash_defined : forall u : bytes,
  ((blen u <= 65536)%Z ->
     BucketHasher_Hash NewSHA256BucketHasher u
     = Ok (sha256 ([Byte.x00; Byte.x0b] ++ str "MIGP bucket" ++ be16 (N.of_nat (length u) mod 65536) ++ u)))
  /\ ((65536 < blen u)%Z -> exists m, BucketHasher_Hash NewSHA256BucketHasher u = Panic m).
Proof. exact bucket_hash_defined. Qed.
Print Assumptions C40_bucket_hash_defined.

(** What is hashed determines the username, at every length. *)
Theorem C40_bucket_preimage_injective : forall u u' : bytes,
  [Byte.x00; Byte.x0b] ++ str "MIGP bucket" ++ be16 (N.of_nat (length u) mod 65536) ++ u
  = [Byte.x00; Byte.x0b] ++ str "MIGP bucket" ++ be16 (N.of_nat (length u') mod 65536) ++ u' -> u = u'.
Proof. exact bucket_preimage_injective. Qed.
Print Assumptions C40_bucket_preimage_injective.

(** The slow hash with the built-in parameters never fails and gives 32
    bytes, on 64-bit and 32-bit platforms alike. *)
Theorem C40_scrypt_never_fails : forall buf : bytes,
  (exists h, SlowHasher_Hash NewScryptSlowHasher buf = Ok h /\ length h = 32%nat)
  /\ scrypt_key 32 buf SlowHashSalt ScryptN Scryptr Scryptp SlowHashLen
     = SlowHasher_Hash NewScryptSlowHasher buf.
Proof. exact scrypt_never_fails. Qed.
Print Assumptions C40_scrypt_never_fails.

Example C40_example : exists h, BucketHasher_Hash NewSHA256BucketHasher (str "alice") = Ok h /\ length h = 32%nat.
Proof. eexists. split; [reflexivity|]. vm_compute. reflexivity. Qed.
