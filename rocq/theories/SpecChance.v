(** * Specification for C78: how likely a false alarm is, when the pad streams
    are random. *)
From Verif Require Import Base Oprf Server SpecProtocol SpecIdeal Ideal.

(** The first 20 bytes of the header stream of a secret. *)
Definition check_bytes (O : streams) (x : bytes) : bytes := map (O x (str "MIGP derive pad header")) (seq 0 20).

(** The streams of all other secrets are the same. *)
Definition differ_only_at (xs : list bytes) (O O' : streams) : Prop :=
  forall y, ~ In y xs -> forall salt i, O y salt i = O' y salt i.

(** How many of the credentials go to bucket [id]. *)
Fixpoint in_bucket_count {LIB} (s : Server LIB) (id : N) (db : list cred) : nat :=
  match db with
  | [] => 0
  | d :: r => (match Server_BucketID s (d_user d) with Ok i => if N.eqb i id then 1 else 0 | _ => 0 end + in_bucket_count s id r)%nat
  end.
