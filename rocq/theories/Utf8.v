(** * unicode/utf8.DecodeRune and EncodeRune (used through bytes.ReplaceAll in
    pkg/mutator/rdasmutator.go:173 and through encoding/json). *)
From Verif Require Import Base.
Local Open Scope N_scope.

Definition in_range (lo hi : N) (b : byte) : bool := (lo <=? bN b) && (bN b <=? hi).
Definition cont (b : byte) : bool := in_range 128 191 b.

(** The rune at the front and its width, [None] if the front is not valid
    UTF-8 (Go then reports RuneError with width 1). *)
Definition decode_rune (s : bytes) : option (N * nat) :=
  match s with
  | [] => None
  | b0 :: r =>
      if in_range 0 127 b0 then Some (bN b0, 1%nat)
      else if in_range 194 223 b0 then
        match r with
        | b1 :: _ => if cont b1 then Some ((bN b0 - 192) * 64 + (bN b1 - 128), 2%nat) else None
        | _ => None
        end
      else if in_range 224 239 b0 then
        match r with
        | b1 :: b2 :: _ =>
            let lo := if bN b0 =? 224 then 160 else 128 in
            let hi := if bN b0 =? 237 then 159 else 191 in
            if in_range lo hi b1 && cont b2
            then Some ((bN b0 - 224) * 4096 + (bN b1 - 128) * 64 + (bN b2 - 128), 3%nat) else None
        | _ => None
        end
      else if in_range 240 244 b0 then
        match r with
        | b1 :: b2 :: b3 :: _ =>
            let lo := if bN b0 =? 240 then 144 else 128 in
            let hi := if bN b0 =? 244 then 143 else 191 in
            if in_range lo hi b1 && cont b2 && cont b3
            then Some ((bN b0 - 240) * 262144 + (bN b1 - 128) * 4096 + (bN b2 - 128) * 64
                       + (bN b3 - 128), 4%nat) else None
        | _ => None
        end
      else None
  end.

(** Width DecodeRune reports on a non-empty string. *)
Definition rune_width (s : bytes) : nat :=
  match decode_rune s with Some (_, w) => w | None => 1 end.

(** utf8.EncodeRune; surrogates and values above 0x10FFFF encode U+FFFD. *)
Definition encode_rune (r : N) : bytes :=
  if r <? 128 then [nB r]
  else if r <? 2048 then [nB (192 + r / 64); nB (128 + r mod 64)]
  else if ((55296 <=? r) && (r <=? 57343)) || (1114111 <? r)
  then [Byte.xef; Byte.xbf; Byte.xbd]
  else if r <? 65536
  then [nB (224 + r / 4096); nB (128 + (r / 64) mod 64); nB (128 + r mod 64)]
  else [nB (240 + r / 262144); nB (128 + (r / 4096) mod 64); nB (128 + (r / 64) mod 64);
        nB (128 + r mod 64)].
