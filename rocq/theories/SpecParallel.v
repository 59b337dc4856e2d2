(** * Specification for C85: goroutines that insert at the same time. *)
From Verif Require Import Base Common Oprf Server Client KV SpecProtocol Demo SpecDemo SpecConc KVConc InsertCalls.

(** The calls that inserts make, one insert after the other. *)
Definition calls_of {LIB} (s : Server LIB) (ops : list op) : list call :=
  flat_map (fun o => fst (insert_calls s (o_user o) (o_pass o) (o_meta o) (o_num o) (o_incl o))) ops.
Definition is_get (c : call) : bool := match c with CGet _ => true | _ => false end.

(** In the events [tr], goroutine [t] has made the inserts [work t] (and any
    Gets, for queries), for every t, and no call is open. *)
Definition loaded {LIB} (s : Server LIB) (work : nat -> list op) (tr : list event) : Prop :=
  forall t, filter (fun c => negb (is_get c)) (invoked_by t tr) = calls_of s (work t)
            /\ returned_by t tr = length (invoked_by t tr).

(** A list in which the lists [parts 0], [parts 1], ... are merged, each in its
    own order. *)
Definition merge {A} (parts : nat -> list A) (l : list A) : Prop :=
  exists tagged : list (nat * A), map snd tagged = l
    /\ forall t, map snd (filter (fun x => (fst x =? t)%nat) tagged) = parts t.

(** The store as HandleRequest reads it when the goroutines are in state σ. *)
Definition reads (σ : state) : Getter := fun id => Ok (value_of (st_heap σ) (st_map σ id)).

(** The inserts are dealt out to goroutines by username. *)
Definition dealt (deal : bytes -> nat) (ops : list op) (t : nat) : list op := filter (fun o => (deal (o_user o) =? t)%nat) ops.

(** [db] has a credential with username [u] and password [p]. *)
Definition listed (db : list cred) (u p : bytes) : Prop := exists d, In d db /\ d_user d = u /\ d_pass d = p.

(** While the goroutines load: every goroutine [t] has so far called the store
    as its inserts [work t] do, and Get for queries. *)
Definition loading {LIB} (s : Server LIB) (work : nat -> list op) (tr : list event) : Prop :=
  forall t, prefix_of (filter (fun c => negb (is_get c)) (invoked_by t tr)) (calls_of s (work t)).
(** How many entries goroutine [t] has begun to store, and how many of its calls
    that store an entry have returned (a goroutine's calls return in order). *)
Definition begun (t : nat) (tr : list event) : nat := length (filter (fun c => negb (is_get c)) (invoked_by t tr)).
Definition finished (t : nat) (tr : list event) : nat :=
  length (filter (fun c => negb (is_get c)) (firstn (returned_by t tr) (invoked_by t tr))).
