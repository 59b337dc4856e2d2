(** * Specification for C89: bodies that arrive piece by piece. *)
From Verif Require Import Base Common Oprf Client Demo ReadBody.

(** The body ends, in the way [e], with piece number [n]. *)
Definition ends_at (s : stream) (n : nat) (e : ending) : Prop :=
  a_end (s n) = Some e /\ forall i, (i < n)%nat -> a_end (s i) = None.
(** The peer goes on for ever: it never ends the body and never fails. *)
Definition endless (s : stream) : Prop := forall i, a_end (s i) = None.
(** The bytes of the first [n] pieces. *)
Definition first_pieces (s : stream) (n : nat) : bytes := concat (map (fun i => a_data (s i)) (seq 0 n)).

(** What a reader of the body is told in the end. *)
Definition read_error (e : ending) : option string := match e with EOF => None | Failed m => Some m end.
Definition whole (s : stream) (n : nat) (e : ending) : res bytes :=
  match e with EOF => Ok (first_pieces s (S n)) | Failed m => Err m end.

(** A way for slices to grow: always by some room. *)
Definition grows (grow : nat -> nat) : Prop := forall c, (c < grow c)%nat.
