(** * Specification: vocabulary of C69. *)
From Verif Require Import Base Common Oprf Server SpecDemo.

(** The calls whose username is in the bucket [key]. *)
Definition in_bucketb {LIB} (s : Server LIB) (key : bytes) (o : op) : bool :=
  match Server_BucketID s (o_user o) with Ok id => bytes_eqb (BucketIDToHex id) key | _ => false end.
