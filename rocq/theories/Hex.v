(** * encoding/hex: EncodeToString and the validity part of DecodeString,
    used by pkg/migp/common.go:183 and pkg/migp/server.go:235. *)
From Verif Require Import Base.
Local Open Scope N_scope.

(** One lower-case hex digit (Go's table "0123456789abcdef"). *)
Definition hex_digit (n : N) : byte := if n <? 10 then nB (48 + n) else nB (87 + n).

Definition hex_encode (b : bytes) : bytes :=
  flat_map (fun x => [hex_digit (bN x / 16); hex_digit (bN x mod 16)]) b.

(** fromHexChar: digits, lower- and upper-case letters. *)
Definition hex_val (c : byte) : option N :=
  let n := bN c in
  if (48 <=? n) && (n <=? 57) then Some (n - 48)
  else if (97 <=? n) && (n <=? 102) then Some (n - 87)
  else if (65 <=? n) && (n <=? 70) then Some (n - 55)
  else None.

(** hex.DecodeString: an invalid character or an odd length is an error. *)
Fixpoint hex_decode (s : bytes) : res bytes :=
  match s with
  | [] => Ok []
  | a :: b :: r =>
      match hex_val a, hex_val b with
      | Some x, Some y => r' <- hex_decode r ;; Ok (nB (16 * x + y) :: r')
      | _, _ => Err "encoding/hex: invalid byte"
      end
  | [a] => match hex_val a with
           | Some _ => Err "encoding/hex: odd length hex string"
           | None => Err "encoding/hex: invalid byte"
           end
  end.
