(** * Go's memory, for the models of [MemCode.v]: arrays of bytes and slices of
    them, so that two slices may share memory.  Nothing here models a file of
    /repo by itself.

    Simplifications: what [append] and the library functions leave in spare
    capacity is only a length (garbage is zero); arrays are never freed. *)
From Verif Require Import Base.

(** The heap: the arrays allocated so far; an array is named by its number. *)
Definition heap := list bytes.

(** A slice: array, first index, length, capacity. *)
Record mslice := mkM { m_arr : nat; m_off : nat; m_len : nat; m_cap : nat }.
Definition m_nil : mslice := mkM 0 0 0 0.

Definition array (h : heap) (a : nat) : bytes := nth a h [].
(** The bytes a slice shows. *)
Definition view (h : heap) (s : mslice) : bytes := firstn (m_len s) (skipn (m_off s) (array h (m_arr s))).
(** A slice that Go can have made. *)
Definition valid (h : heap) (s : mslice) : Prop :=
  (m_len s <= m_cap s)%nat /\
  (m_cap s = 0%nat \/ (m_arr s < length h)%nat /\ (m_off s + m_cap s <= length (array h (m_arr s)))%nat).

(** Code that uses memory: the outcome and the memory afterwards. *)
Definition mem (A : Type) := heap -> res A * heap.
Definition ret {A} (a : A) : mem A := fun h => (Ok a, h).
Definition fail {A} (e : string) : mem A := fun h => (Err e, h).
Definition panic {A} (m : string) : mem A := fun h => (Panic m, h).
Definition lift {A} (r : res A) : mem A := fun h => (r, h).
Definition mbind {A B} (x : mem A) (k : A -> mem B) : mem B :=
  fun h => match x h with
           | (Ok a, h') => k a h'
           | (Err e, h') => (Err e, h')
           | (Panic m, h') => (Panic m, h')
           end.
Notation "x <~ e ;; k" := (mbind e (fun x => k)) (at level 60, e at next level, right associativity).

Definition mlen (s : mslice) : Z := Z.of_nat (m_len s).

(** A new array that holds [b]. *)
Definition m_new (b : bytes) : mem mslice :=
  fun h => (Ok (mkM (length h) 0 (length b) (length b)), h ++ [b]).
(** make([]byte, n) *)
Definition m_make (n : Z) : mem mslice :=
  if (n <? 0)%Z then panic "makeslice: len out of range" else m_new (zeros (Z.to_nat n)).
(** Reading all bytes, as a library function that only reads does. *)
Definition m_view (s : mslice) : mem bytes := fun h => (Ok (view h s), h).

(** [l] with [d] in place of what is at [o]. *)
Definition splice (l : bytes) (o : nat) (d : bytes) : bytes := firstn o l ++ d ++ skipn (o + length d) l.
Fixpoint upd_nth (n : nat) (x : bytes) (h : heap) : heap :=
  match h, n with
  | [], _ => []
  | _ :: r, O => x :: r
  | y :: r, S n' => y :: upd_nth n' x r
  end.
Definition write (h : heap) (a o : nat) (d : bytes) : heap := upd_nth a (splice (array h a) o d) h.

(** s[i] *)
Definition m_get (s : mslice) (i : Z) : mem byte :=
  fun h => if (i <? 0)%Z || (mlen s <=? i)%Z then (Panic "index out of range", h)
           else (Ok (nth (Z.to_nat i) (view h s) Byte.x00), h).
(** s[i] = b *)
Definition m_set (s : mslice) (i : Z) (b : byte) : mem unit :=
  fun h => if (i <? 0)%Z || (mlen s <=? i)%Z then (Panic "index out of range", h)
           else (Ok tt, write h (m_arr s) (m_off s + Z.to_nat i) [b]).
(** s[lo:hi]: Go checks [hi] against the capacity *)
Definition m_slice (s : mslice) (lo hi : Z) : mem mslice :=
  if (lo <? 0)%Z || (hi <? lo)%Z || (Z.of_nat (m_cap s) <? hi)%Z then panic "slice bounds out of range"
  else ret (mkM (m_arr s) (m_off s + Z.to_nat lo) (Z.to_nat (hi - lo)) (m_cap s - Z.to_nat lo)).
(** s[lo:] and s[:hi] *)
Definition m_from (s : mslice) (lo : Z) : mem mslice := m_slice s lo (mlen s).
Definition m_upto (s : mslice) (hi : Z) : mem mslice := m_slice s 0 hi.
(** copy(dst, string) and copy(dst, src): as much as fits; [src] is read before
    [dst] is written, as memmove does for overlapping slices *)
Definition m_copy_bytes (dst : mslice) (b : bytes) : mem unit :=
  fun h => (Ok tt, write h (m_arr dst) (m_off dst) (firstn (m_len dst) b)).
Definition m_copy (dst src : mslice) : mem unit :=
  b <~ m_view src ;; m_copy_bytes dst b.
(** binary.BigEndian.PutUint16 and PutUint32 *)
Definition m_put (s : mslice) (d : bytes) : mem unit :=
  if (m_len s <? length d)%nat then panic "index out of range" else m_copy_bytes s d.
Definition m_put16 (s : mslice) (n : N) : mem unit := m_put s (be16 n).
Definition m_put32 (s : mslice) (n : N) : mem unit := m_put s (be32 n).

(** append(s, b...): in place if the capacity suffices, otherwise in a new
    array with [spare] extra bytes. *)
Definition m_append (spare : nat) (s : mslice) (b : bytes) : mem mslice :=
  fun h =>
    if (m_len s + length b <=? m_cap s)%nat
    then (Ok (mkM (m_arr s) (m_off s) (m_len s + length b) (m_cap s)), write h (m_arr s) (m_off s + m_len s) b)
    else (Ok (mkM (length h) 0 (m_len s + length b) (m_len s + length b + spare)),
          h ++ [view h s ++ b ++ zeros spare]).
