(** * Specification: what the mangling rules do and what a set of variants is.
    Uses only [Base.v]. *)
From Verif Require Import Base.

(** [l] is [m] with some elements left out. *)
Inductive subseq {A} : list A -> list A -> Prop :=
| sub_nil : subseq [] []
| sub_keep : forall x l m, subseq l m -> subseq (x :: l) (x :: m)
| sub_drop : forall x l m, subseq l m -> subseq l (x :: m).

(** A position: from the front, or from the end when negative. *)
Definition resolve (n pos : Z) : Z := (if pos <? 0 then n + pos else pos)%Z.
(** An insertion point: -1 is after the last byte. *)
Definition resolve_gap (n pos : Z) : Z := (if pos <? 0 then n + 1 + pos else pos)%Z.

(** Swapping the case of a byte: ASCII letters; the rest of the table is
    Latin-1, as Go's unicode package sees a single byte, with the two
    truncations the code makes (0xB5 and 0xFF). *)
Definition swap_case (b : byte) : byte :=
  let n := bN b in
  if ((65 <=? n) && (n <=? 90))%N then nB (n + 32)           (* A-Z *)
  else if ((97 <=? n) && (n <=? 122))%N then nB (n - 32)     (* a-z *)
  else if ((192 <=? n) && (n <=? 222) && negb (n =? 215))%N then nB (n + 32)
  else if ((224 <=? n) && (n <=? 254) && negb (n =? 247))%N then nB (n - 32)
  else if (n =? 255)%N then Byte.x78
  else if (n =? 181)%N then Byte.x9c
  else b.

(** [out] is [s] with the byte at [i] swapped in case and nothing else. *)
Definition cap_at (i : nat) (s out : bytes) : Prop :=
  exists a b c, s = a ++ b :: c /\ length a = i /\ out = a ++ swap_case b :: c.

(** The leftmost occurrence of [old] in [pre ++ old ++ rest] is after [pre]. *)
Definition leftmost (old pre rest : bytes) : Prop :=
  forall a b, pre ++ old ++ rest = a ++ old ++ b -> (length pre <= length a)%nat.

(** Replacing the leftmost, then the leftmost of what follows, and so on. *)
Inductive replaced (old new : bytes) : bytes -> bytes -> Prop :=
| rep_none : forall s, (forall a b, s <> a ++ old ++ b) -> replaced old new s s
| rep_some : forall pre rest out, leftmost old pre rest -> replaced old new rest out ->
    replaced old new (pre ++ old ++ rest) (pre ++ new ++ out).
