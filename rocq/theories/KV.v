(** * Model of cmd/server/kv.go, sequential part: each method as one atomic
    step on the map.  Locking, interleavings and slice aliasing are modelled
    in [KVConc.v]. *)
From Verif Require Import Base.

(** kv.go:11-14: map[string][]byte; the first binding of a key counts. *)
Definition kvStore := list (bytes * gslice).

(** kv.go:17-21 *)
Definition newKVStore : kvStore := [].

(** Map read [kv.store[id]]: nil when absent. *)
Fixpoint kv_lookup (kv : kvStore) (id : bytes) : gslice :=
  match kv with
  | [] => None
  | (k, v) :: r => if bytes_eqb k id then v else kv_lookup r id
  end.

(** Map write [kv.store[id] = v]. *)
Fixpoint kv_set (kv : kvStore) (id : bytes) (v : gslice) : kvStore :=
  match kv with
  | [] => [(id, v)]
  | (k, w) :: r => if bytes_eqb k id then (k, v) :: r else (k, w) :: kv_set r id v
  end.

(** append(s, v...): nil stays nil when nothing is appended. *)
Definition go_append (s : gslice) (v : bytes) : gslice :=
  match s, v with
  | None, [] => None
  | _, _ => Some (sl s ++ v)
  end.

(** kv.go:24-29 *)
Definition kv_Put (kv : kvStore) (id : bytes) (value : gslice) : kvStore := kv_set kv id value.

(** kv.go:32-37 *)
Definition kv_Append (kv : kvStore) (id value : bytes) : kvStore :=
  kv_set kv id (go_append (kv_lookup kv id) value).

(** kv.go:40-44 (never returns an error). *)
Definition kv_Get (kv : kvStore) (id : bytes) : res gslice := Ok (kv_lookup kv id).
