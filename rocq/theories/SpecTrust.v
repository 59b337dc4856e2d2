(** * Specification: vocabulary of the properties of clients and servers that
    do not fit together or do not trust each other. *)
From Verif Require Import Base Common Oprf Server Client KV Demo Main.

(** A configuration with another bit size. *)
Definition with_bits (cfg : Config) (bits : Z) : Config :=
  mkConfig (cfg_version cfg) bits (cfg_bucketHasher cfg) (cfg_slowHasher cfg) (cfg_bucketEncryptor cfg) (cfg_oprfSuite cfg).

(** A bucket with one entry and, after it, the header of an entry that is cut
    off: 24 zero bytes and a one, hence a body of one byte that is not there. *)
Definition baited (entry : bytes) : bytes := entry ++ repeat Byte.x00 24 ++ [Byte.x01].

(** One list is the beginning of the other. *)
Definition one_extends_other {A} (x y : list A) : Prop := exists t, x ++ t = y \/ y ++ t = x.
