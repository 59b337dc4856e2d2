(** * Specification for C92: the client program and bodies that arrive piece by piece. *)
From Verif Require Import Base Common Json Client Demo Main ReadBody SpecJson SpecRead SpecFetch ClientRead.

(** The page [b] has arrived on [s]: the body has ended with it, or it needs
    nothing more (what would still come is not read). *)
Definition page (s : stream) (b : bytes) : Prop :=
  exists m, (forall i, (i < m)%nat -> a_end (s i) = None) /\ b = first_pieces s (S m) /\ (a_end (s m) = Some EOF \/ ~ unfinished b).
(** The connection broke while the page was unfinished. *)
Definition broken_page (s : stream) : Prop := exists m e, ends_at s m (Failed e) /\ unfinished (first_pieces s (S m)).

(** [whole_get] describes a fetched page, and [whole_post] an answer, by what its
    body came to.  Of an answer with an error status the body is not read. *)
Definition whole_get (a : res (N * stream)) (a' : res (N * bytes)) : Prop :=
  match a, a' with
  | Ok (code, s), Ok (code', b) => code = code' /\ (code = 200%N -> page s b)
  | Ok (code, s), Err _ => code = 200%N /\ broken_page s
  | Err e, Err e' => e = e'
  | Panic m, Panic m' => m = m'
  | _, _ => False
  end.
Definition whole_post (a : res (N * stream)) (a' : res (N * res bytes)) : Prop :=
  match a, a' with
  | Ok (code, s), Ok (code', b) => code = code' /\ (code = 200%N -> exists n e, ends_at s n e /\ b = whole s n e)
  | Err e, Err e' => e = e'
  | Panic m, Panic m' => m = m'
  | _, _ => False
  end.
