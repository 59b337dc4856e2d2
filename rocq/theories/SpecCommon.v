(** * Specification: credential serialization, bucket IDs, hex, flags.
    Independent of the model: only [Base.v] types. *)
From Verif Require Import Base.

(** ** Reading back a serialized credential: 16-bit big-endian length and that
    many bytes, twice, and nothing else. *)
Definition read_field (s : bytes) : option (bytes * bytes) :=
  match s with
  | hi :: lo :: r =>
      let n := N.to_nat (256 * bN hi + bN lo) in
      if (n <=? length r)%nat then Some (firstn n r, skipn n r) else None
  | _ => None
  end.
Definition read_credential (s : bytes) : option (bytes * bytes) :=
  match read_field s with
  | Some (u, r) => match read_field r with
                   | Some (p, []) => Some (u, p)
                   | _ => None
                   end
  | None => None
  end.

(** ** Bits of a byte string, most significant first, and the integer a bit
    string stands for. *)
Definition byte_bits (b : byte) : list bool :=
  map (fun i => N.testbit (bN b) i) [7; 6; 5; 4; 3; 2; 1; 0]%N.
Definition bits (s : bytes) : list bool := flat_map byte_bits s.
Definition bits_value (l : list bool) : N :=
  fold_left (fun acc (b : bool) => (2 * acc + (if b then 1 else 0))%N) l 0%N.

(** ** Lower-case hexadecimal numerals. *)
Definition hex_alphabet : bytes := str "0123456789abcdef".
Fixpoint position (c : byte) (l : bytes) : option N :=
  match l with
  | [] => None
  | x :: r => if Byte.eqb x c then Some 0%N
              else match position c r with Some i => Some (1 + i)%N | None => None end
  end.
(** The number a lower-case hex numeral denotes. *)
Definition hex_value (s : bytes) : option N :=
  fold_left (fun acc c => match acc, position c hex_alphabet with
                          | Some a, Some d => Some (16 * a + d)%N
                          | _, _ => None end) s (Some 0%N).
