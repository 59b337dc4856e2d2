(** * Specification for C90: how text is written in the JSON that is sent and
    printed. *)
From Verif Require Import Base Json SpecJson.

Definition lower_hex : bytes := str "0123456789abcdef".
(** \u and four lower-case hexadecimal digits (for characters below 65536). *)
Definition u_escape (u : N) : bytes :=
  str "\u" ++ map (fun i => nth (N.to_nat (u / i mod 16)) lower_hex Byte.x00) [4096; 256; 16; 1]%N.

(** How the character [u] is written: the quote, the backslash, line feed,
    carriage return and tab with a backslash; the other control characters,
    less-than, greater-than, ampersand and the two line separators U+2028 and
    U+2029 in hexadecimal; all others, DEL among them, as they are. *)
Definition as_written (u : N) : bytes :=
  match find (fun e => (fst e =? u)%N) [(34, str "\"""); (92, str "\\"); (10, str "\n"); (13, str "\r"); (9, str "\t")]%N with
  | Some (_, text) => text
  | None => if (u <? 32)%N || existsb (N.eqb u) [60; 62; 38; 8232; 8233]%N then u_escape u else utf8_char u
  end.

(** How the bytes [s] are written: character by character, and \ufffd for every
    byte that is not part of a valid UTF-8 sequence. *)
Inductive written : bytes -> bytes -> Prop :=
| wr_nil : written [] []
| wr_char u s t : scalar u -> written s t -> written (utf8_char u ++ s) (as_written u ++ t)
| wr_bad c s t : (forall u r, scalar u -> c :: s <> utf8_char u ++ r) -> written s t -> written (c :: s) (str "\ufffd" ++ t).

(** A quoted text. *)
Definition quoted (t : bytes) : bytes := str """" ++ t ++ str """".
