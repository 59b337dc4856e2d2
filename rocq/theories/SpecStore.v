(** * Specification for C77: how much the store holds. *)
From Verif Require Import Base KV SpecProtocol SpecDemo.

(** The bytes of all buckets, and the number of buckets. *)
Definition store_bytes (kv : kvStore) : nat := fold_right (fun x n => length (sl (snd x)) + n)%nat 0%nat kv.
Definition buckets (kv : kvStore) : list bytes := map fst kv.

(** 25 bytes and the metadata for each credential. *)
Definition entries_bytes (db : list cred) : nat := fold_right (fun d n => 25 + length (d_meta d) + n)%nat 0%nat db.
