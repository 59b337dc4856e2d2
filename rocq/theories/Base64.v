(** * encoding/base64 StdEncoding, as encoding/json uses it for []byte fields
    (client.go:33, server.go:43). *)
From Verif Require Import Base.
Local Open Scope N_scope.

(** The standard alphabet. *)
Definition b64_char (n : N) : byte :=
  if n <? 26 then nB (65 + n)
  else if n <? 52 then nB (71 + n)
  else if n <? 62 then nB (n - 4)
  else if n =? 62 then Byte.x2b else Byte.x2f.

Definition b64_val (c : byte) : option N :=
  let n := bN c in
  if (65 <=? n) && (n <=? 90) then Some (n - 65)
  else if (97 <=? n) && (n <=? 122) then Some (n - 71)
  else if (48 <=? n) && (n <=? 57) then Some (n + 4)
  else if n =? 43 then Some 62
  else if n =? 47 then Some 63
  else None.

Definition b64_pad : byte := Byte.x3d.

Fixpoint b64_encode (b : bytes) : bytes :=
  match b with
  | x :: y :: z :: r =>
      b64_char (bN x / 4) :: b64_char ((bN x mod 4) * 16 + bN y / 16)
      :: b64_char ((bN y mod 16) * 4 + bN z / 64) :: b64_char (bN z mod 64) :: b64_encode r
  | [x; y] =>
      [b64_char (bN x / 4); b64_char ((bN x mod 4) * 16 + bN y / 16);
       b64_char ((bN y mod 16) * 4); b64_pad]
  | [x] => [b64_char (bN x / 4); b64_char ((bN x mod 4) * 16); b64_pad; b64_pad]
  | [] => []
  end.

(** Decoding after CR and LF have been dropped. *)
Fixpoint b64_decode_strict (s : bytes) : option bytes :=
  match s with
  | [] => Some []
  | a :: b :: c :: d :: r =>
      match b64_val a, b64_val b with
      | Some va, Some vb =>
          let x := nB (va * 4 + vb / 16) in
          match b64_val c with
          | Some vc =>
              let y := nB (vb * 16 + vc / 4) in
              match b64_val d with
              | Some vd =>
                  match b64_decode_strict r with
                  | Some t => Some (x :: y :: nB (vc * 64 + vd) :: t)
                  | None => None
                  end
              | None =>
                  match r with
                  | [] => if beqb d b64_pad then Some [x; y] else None
                  | _ => None
                  end
              end
          | None =>
              match r with
              | [] => if beqb c b64_pad && beqb d b64_pad then Some [x] else None
              | _ => None
              end
          end
      | _, _ => None
      end
  | _ => None
  end.

(** base64 decoding skips CR and LF anywhere. *)
Definition b64_decode (s : bytes) : option bytes :=
  b64_decode_strict (filter (fun c => negb (beqb c Byte.x0a || beqb c Byte.x0d)) s).
