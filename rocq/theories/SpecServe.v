(** * Specification for C87: requests served at the same time. *)
From Verif Require Import Base Common Oprf Server Client KV Json ConfigJson Demo SpecDemo SpecConc KVConc InsertCalls SpecParallel.

(** The main goroutine (here 0) makes the inserts [ops]; no other goroutine
    does (cmd/server/main.go:78-96: the input is inserted line by line, and
    only then the server starts to listen). *)
Definition main_inserts (ops : list op) (t : nat) : list op := if (t =? 0)%nat then ops else [].

(** The events [tr] have no other calls than Gets. *)
Definition only_gets (tr : list event) : Prop := forall t c, In (EInvoke t c) tr -> is_get c = true.

(** The server with another store. *)
Definition with_store {LIB} (srv : server LIB) (store : kvStore) : server LIB := {| migpServer := migpServer srv; kv := store |}.

(** What is asked for under the key [id]: the bucket that the body names. *)
Definition names_bucket (body : bytes) (id : bytes) : Prop := rq_bucketID (fst (ClientRequest_unmarshal body)) = id.
