(** * Specification: what the store with Go's reader-writer mutex promises
    beyond [SpecConc.v]. *)
From Verif Require Import Base Common KV SpecConc.

(** What serving an event costs at most, in steps of the store and of the
    mutex, for the caller and for others on its behalf. *)
Definition rw_cost (e : event) : nat :=
  match e with
  | EMake _ _ | EUse _ _ _ _ => 1
  | EInvoke _ (CPut _ _) | EInvoke _ (CGet _) => 9
  | EInvoke _ (CAppend _ v) => 12 + length v
  | EReturn _ _ => 0
  end.

(** Those of [n] goroutines that are inside a call after the events [tr]. *)
Definition open_calls (n : nat) (tr : list event) : list nat :=
  filter (fun t => negb (returned_by t tr =? length (invoked_by t tr))%nat) (seq 0 n).
(** How many calls return in [tr]. *)
Definition returns (tr : list event) : nat :=
  length (filter (fun e => match e with EReturn _ _ => true | _ => false end) tr).
