(** * murmur3.Sum32 (github.com/spaolacci/murmur3), seed 0, as used by
    pkg/mutator/rdasmutator.go:78,104.  Executable; vectors in [LibTests.v]. *)
From Verif Require Import Base Sha256.
Local Open Scope N_scope.

Definition rotl32 (x n : N) : N := rotr32 x (32 - n).
Definition mul32 (a b : N) : N := w32 (a * b).

Definition mm_c1 : N := 0xcc9e2d51.
Definition mm_c2 : N := 0x1b873593.
Definition mm_k (k : N) : N := mul32 (rotl32 (mul32 k mm_c1) 15) mm_c2.

(** Body in little-endian 4-byte blocks; returns the state and the tail. *)
Fixpoint mm_body (h : N) (b : bytes) : N * bytes :=
  match b with
  | b0 :: b1 :: b2 :: b3 :: r =>
      let k := bN b0 + bN b1 * 2 ^ 8 + bN b2 * 2 ^ 16 + bN b3 * 2 ^ 24 in
      let h := rotl32 (N.lxor h (mm_k k)) 13 in
      mm_body (add32 (mul32 h 5) 0xe6546b64) r
  | _ => (h, b)
  end.

Definition mm_tail (h : N) (t : bytes) : N :=
  match t with
  | [] => h
  | [b0] => N.lxor h (mm_k (bN b0))
  | [b0; b1] => N.lxor h (mm_k (bN b0 + bN b1 * 2 ^ 8))
  | b0 :: b1 :: b2 :: _ => N.lxor h (mm_k (bN b0 + bN b1 * 2 ^ 8 + bN b2 * 2 ^ 16))
  end.

Definition mm_fmix (h : N) : N :=
  let h := N.lxor h (N.shiftr h 16) in
  let h := mul32 h 0x85ebca6b in
  let h := N.lxor h (N.shiftr h 13) in
  let h := mul32 h 0xc2b2ae35 in
  N.lxor h (N.shiftr h 16).

Definition murmur3_sum32 (b : bytes) : N :=
  let (h, t) := mm_body 0 b in
  mm_fmix (N.lxor (mm_tail h t) (w32 (N.of_nat (length b)))).
