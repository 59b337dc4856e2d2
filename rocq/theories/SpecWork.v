(** * Specification for C75: how much a call of the library does.

    The unit is one read or write of a byte of memory; a new array costs its
    bytes and one.  What the cryptographic libraries do inside of one of their
    own calls is not counted. *)
From Verif Require Import Base Oprf Mutator Mem MemCode MemProg Shared.

(** [within n p]: the computation ends after at most [n] units, whatever its
    reads return (so also if other goroutines change the memory meanwhile). *)
Inductive within {A} : nat -> prog A -> Prop :=
| w_done n r : within n (PDone r)
| w_new n m b k : (length b + 1 + m <= n)%nat -> (forall a, within m (k a)) -> within n (PNew b k)
| w_read n a i k : (forall o, within n (k o)) -> within (S n) (PRead a i k)
| w_write n a i b k : within n k -> within (S n) (PWrite a i b k).

(** The units of a computation that runs alone. *)
Fixpoint work {A} (p : prog A) (h : heap) : nat :=
  match p with
  | PDone _ => 0
  | PNew b k => length b + 1 + work (k (length h)) (h ++ [b])
  | PRead a i k => S (work (k (nth_error (array h a) i)) h)
  | PWrite a i b k => S (work k (write h a i [b]))
  end.

(** [reaches_in F n m m']: as [reaches], with [n] steps of calls; what the rest
    of the program does is not counted. *)
Inductive reaches_in {A} (F : nat -> nat -> Prop) : nat -> machine A -> machine A -> Prop :=
| ri_refl m : reaches_in F 0 m m
| ri_call n m1 m2 m3 : reaches_in F n m1 m2 -> call_step m2 m3 -> reaches_in F (S n) m1 m3
| ri_other n m h h' g : reaches_in F n m (mkMachine h g) -> keeps F h h' -> reaches_in F n m (mkMachine h' g).

(** The bucket of a response: empty if there is none. *)
Definition bucket_of (r : mresponse) : mslice := match mr_bucket r with Some b => b | None => m_nil end.
(** The texts in a rule have at most [k] bytes. *)
Definition small_rule (k : nat) (r : RDasRule) : Prop := (length (String1 r) <= k)%nat /\ (length (String2 r) <= k)%nat.
