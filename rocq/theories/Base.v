(** * Go basics used by every part of the model.

    Nothing here models a file of /repo by itself: it fixes how Go's bytes,
    slices, errors, panics and fixed-width integers are represented. *)
From Coq Require Export String NArith ZArith Bool List.
From Coq Require Import Strings.Byte.
Export ListNotations.
Open Scope list_scope.

(** A Go [byte] is an element of the 256-element type [byte]; a [[]byte] or a
    [string] is a list of them. *)
Notation byte := Coq.Init.Byte.byte.
Definition bytes := list byte.

(** Numeric value of a byte, and Go's truncating conversion [byte(n)]. *)
Definition bN (b : byte) : N := Byte.to_N b.
Definition nB (n : N) : byte :=
  match Byte.of_N (n mod 256) with Some b => b | None => Byte.x00 end.

(** The bytes of a Go string literal. *)
Definition str (s : string) : bytes := list_byte_of_string s.

(** [b1 ^ b2] on bytes. *)
Definition bxor (a b : byte) : byte := nB (N.lxor (bN a) (bN b)).

Definition beqb (a b : byte) : bool := Byte.eqb a b.

(** Equality of byte strings ([bytes.Equal], [==] on strings). *)
Fixpoint bytes_eqb (a b : bytes) : bool :=
  match a, b with
  | [], [] => true
  | x :: a', y :: b' => beqb x y && bytes_eqb a' b'
  | _, _ => false
  end.

(** [len(b)] as a Go [int]. *)
Definition blen (b : bytes) : Z := Z.of_nat (length b).

(** Outcome of a Go call: a value, a returned [error] (with its message), or
    a run-time panic (with its message). *)
Inductive res (A : Type) : Type :=
| Ok (a : A)
| Err (e : string)
| Panic (m : string).
Arguments Ok {A} _.
Arguments Err {A} _.
Arguments Panic {A} _.

Definition bind {A B} (r : res A) (k : A -> res B) : res B :=
  match r with Ok a => k a | Err e => Err e | Panic m => Panic m end.

Notation "x <- e ;; k" := (bind e (fun x => k))
  (at level 60, e at next level, right associativity).

(** Two's-complement wrap-around of a Go [int] of [w] bits (w = 32 or 64). *)
Definition int_wrap (w : Z) (z : Z) : Z :=
  ((z + 2 ^ (w - 1)) mod 2 ^ w - 2 ^ (w - 1))%Z.

(** Truncating conversions to unsigned types. *)
Definition u16 (n : N) : N := (n mod 2 ^ 16)%N.
Definition u32 (n : N) : N := (n mod 2 ^ 32)%N.

(** [b[lo:]] and [b[lo:hi]].  Go checks [hi] against the capacity
    of the slice, the model against its length; the only use of [slice], in
    Finalize, comes after a check of [hi] against the length. *)
Definition slice_from (b : bytes) (lo : Z) : res bytes :=
  if (lo <? 0)%Z || (blen b <? lo)%Z
  then Panic "slice bounds out of range"
  else Ok (skipn (Z.to_nat lo) b).

Definition slice (b : bytes) (lo hi : Z) : res bytes :=
  if (lo <? 0)%Z || (hi <? lo)%Z || (blen b <? hi)%Z
  then Panic "slice bounds out of range"
  else Ok (firstn (Z.to_nat (hi - lo)) (skipn (Z.to_nat lo) b)).

(** encoding/binary BigEndian.PutUint16 / PutUint32 as the bytes written. *)
Definition be16 (n : N) : bytes := [nB (n / 256); nB n].
Definition be32 (n : N) : bytes :=
  [nB (n / 2 ^ 24); nB (n / 2 ^ 16); nB (n / 2 ^ 8); nB n].

(** encoding/binary BigEndian.Uint32: panics on fewer than 4 bytes. *)
Definition get_be32 (b : bytes) : res N :=
  match b with
  | b0 :: b1 :: b2 :: b3 :: _ =>
      Ok (bN b0 * 2 ^ 24 + bN b1 * 2 ^ 16 + bN b2 * 2 ^ 8 + bN b3)%N
  | _ => Panic "index out of range"
  end.

(** [make([]byte, n)] for a length already known to be non-negative. *)
Definition zeros (n : nat) : bytes := repeat Byte.x00 n.

(** A slice that may be nil: [None] is nil, [Some b] a non-nil slice. *)
Definition gslice := option bytes.
Definition sl (s : gslice) : bytes := match s with Some b => b | None => [] end.
