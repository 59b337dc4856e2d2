(** * Specification: a store that is regrouped into fewer, larger buckets. *)
From Verif Require Import Base Hex Common Server KV SpecProtocol.

(** [kv] serves buckets of [bits] bits: each is the concatenation, in some
    order, of the buckets of [fine] whose IDs have [more] further bits and begin
    with those of the bucket. *)
Definition regrouped (fine : kvStore) (bits more : N) (kv : Getter) : Prop :=
  forall id, (id < 2 ^ bits)%N ->
  exists v parts, kv (BucketIDToHex id) = Ok v /\ holdable (sl v)
    /\ (forall i, In i parts <-> N.shiftr i more = id)
    /\ sl v = flat_map (fun i => sl (kv_lookup fine (BucketIDToHex i))) parts.

(** A way to serve a store regrouped: join 2^more neighbouring buckets. *)
Definition joined (fine : kvStore) (more id : N) : bytes :=
  flat_map (fun j => sl (kv_lookup fine (BucketIDToHex (id * 2 ^ more + N.of_nat j)))) (seq 0 (N.to_nat (2 ^ more))).
Definition regroup (fine : kvStore) (more : N) : Getter := fun key =>
  b <- Hex.hex_decode key ;; id <- get_be32 b ;; Ok (Some (joined fine more id)).
