(** * Specification for C76: what the order of memory accesses shows.

    An observer sees at which places a call reads and writes and how much it
    allocates, but not the bytes (as through shared caches). *)
From Verif Require Import Base Oprf Mem MemCode MemProg SpecEntry.

Inductive access := Allocate (n : nat) | ReadByte (a i : nat) | WriteByte (a i : nat).
Fixpoint accesses {A} (p : prog A) (h : heap) : list access :=
  match p with
  | PDone _ => []
  | PNew b k => Allocate (length b) :: accesses (k (length h)) (h ++ [b])
  | PRead a i k => ReadByte a i :: accesses (k (nth_error (array h a) i)) h
  | PWrite a i b k => WriteByte a i :: accesses k (write h a i [b])
  end.

(** Memories with the same arrays but other bytes in them. *)
Definition same_shape (h h' : heap) : Prop := map (fun b : bytes => length b) h = map (fun b : bytes => length b) h'.

(** Two buckets, read with two keys: the length fields agree, and the same
    entry is the first that belongs to the key, if there is one. *)
Inductive reads_alike (k k' : bytes) : bytes -> bytes -> Prop :=
| ra_end t t' : short_tail t -> short_tail t' -> reads_alike k k' t t'
| ra_overrun t t' : overrun_tail t -> overrun_tail t' -> reads_alike k k' t t'
| ra_skip e e' b b' : entry_ok e -> entry_ok e' -> length (e_body e) = length (e_body e') ->
    entry_matches k e = false -> entry_matches k' e' = false ->
    reads_alike k k' b b' -> reads_alike k k' (entry_bytes e ++ b) (entry_bytes e' ++ b')
| ra_found e e' b b' : entry_ok e -> entry_ok e' -> length (e_body e) = length (e_body e') ->
    entry_matches k e = true -> entry_matches k' e' = true ->
    reads_alike k k' (entry_bytes e ++ b) (entry_bytes e' ++ b').
