(** * scrypt (golang.org/x/crypto/scrypt.Key, RFC 7914), as used by
    pkg/migp/slowhasher.go:63.  Executable; checked on the small RFC 7914
    vector in [LibTests.v] (the real cost parameters are never evaluated). *)
From Verif Require Import Base Sha256.
Local Open Scope N_scope.

(** PBKDF2-HMAC-SHA256 with one iteration, [len] bytes. *)
Fixpoint pbkdf2_blocks (n : nat) (pw salt : bytes) (i : N) : bytes :=
  match n with
  | O => []
  | S n' => hmac_sha256 pw (salt ++ be32 i) ++ pbkdf2_blocks n' pw salt (i + 1)
  end.
Definition pbkdf2_1 (pw salt : bytes) (len : N) : bytes :=
  firstn (N.to_nat len) (pbkdf2_blocks (N.to_nat ((len + 31) / 32)) pw salt 1).

Definition rotl (x n : N) : N := rotr32 x (32 - n).

(** Salsa20 quarter-round on positions a,b,c,d of a 16-word list. *)
Fixpoint upd (l : list N) (i : nat) (v : N) : list N :=
  match l, i with
  | _ :: t, O => v :: t
  | h :: t, S i' => h :: upd t i' v
  | [], _ => []
  end.
Definition qr (a b c d : nat) (x : list N) : list N :=
  let g i l := nth i l 0 in
  let x := upd x b (N.lxor (g b x) (rotl (add32 (g a x) (g d x)) 7)) in
  let x := upd x c (N.lxor (g c x) (rotl (add32 (g b x) (g a x)) 9)) in
  let x := upd x d (N.lxor (g d x) (rotl (add32 (g c x) (g b x)) 13)) in
  upd x a (N.lxor (g a x) (rotl (add32 (g d x) (g c x)) 18)).
Definition col_round (x : list N) : list N :=
  qr 15 3 7 11 (qr 10 14 2 6 (qr 5 9 13 1 (qr 0 4 8 12 x))).
Definition row_round (x : list N) : list N :=
  qr 15 12 13 14 (qr 10 11 8 9 (qr 5 6 7 4 (qr 0 1 2 3 x))).
Definition salsa20_8 (x : list N) : list N :=
  map2 add32 x (Nat.iter 4 (fun y => row_round (col_round y)) x).

Fixpoint words_le (b : bytes) : list N :=
  match b with
  | b0 :: b1 :: b2 :: b3 :: r =>
      (bN b0 + bN b1 * 2 ^ 8 + bN b2 * 2 ^ 16 + bN b3 * 2 ^ 24) :: words_le r
  | _ => []
  end.
Definition le32 (n : N) : bytes := rev (be32 n).

(** blockMix on 2r chunks of 16 words. *)
Fixpoint chunks (n : nat) (l : list N) : list (list N) :=
  match n with
  | O => []
  | S n' => firstn 16 l :: chunks n' (skipn 16 l)
  end.
Fixpoint bm_loop (x : list N) (cs : list (list N)) : list (list N) :=
  match cs with
  | [] => []
  | c :: cs' => let y := salsa20_8 (map2 N.lxor x c) in y :: bm_loop y cs'
  end.
Fixpoint evens {A} (l : list A) : list A :=
  match l with a :: _ :: r => a :: evens r | [a] => [a] | [] => [] end.
Definition odds {A} (l : list A) : list A := evens (tl l).
Definition block_mix (r : nat) (b : list N) : list N :=
  let cs := chunks (2 * r) b in
  let ys := bm_loop (last cs []) cs in
  concat (evens ys) ++ concat (odds ys).

Definition integerify (r : nat) (b : list N) : N :=
  nth ((2 * r - 1) * 16) b 0.

(** ROMix: [V] is built most-recent-first. *)
Definition smix (r : nat) (n : N) (b : bytes) : bytes :=
  let x := words_le b in
  let '(x, v) := N.iter n (fun '(x, v) => (block_mix r x, x :: v)) (x, []) in
  let v := rev v in
  let x := N.iter n
    (fun x => block_mix r (map2 N.lxor x (nth (N.to_nat (integerify r x mod n)) v []))) x in
  flat_map le32 x.

Fixpoint smix_all (p : nat) (r : nat) (n : N) (b : bytes) : bytes :=
  match p with
  | O => []
  | S p' => smix r n (firstn (128 * r) b) ++ smix_all p' r n (skipn (128 * r) b)
  end.

Definition scrypt_core (pw salt : bytes) (n r p len : N) : bytes :=
  let b := pbkdf2_1 pw salt (p * 128 * r) in
  pbkdf2_1 pw (smix_all (N.to_nat p) (N.to_nat r) n b) len.

(** Parameter checks of scrypt.Key on a platform with [iw]-bit ints. *)
Definition scrypt_key (iw : Z) (pw salt : bytes) (n r p len : Z) : res bytes :=
  let maxInt := (2 ^ (iw - 1) - 1)%Z in
  if (n <=? 1)%Z || negb (Z.land n (n - 1) =? 0)%Z
  then Err "scrypt: N must be > 1 and a power of 2"
  else if (2 ^ 30 <=? r * p)%Z || (maxInt / 128 / p <? r)%Z || (maxInt / 256 <? r)%Z
          || (maxInt / 128 / r <? n)%Z
  then Err "scrypt: parameters are too large"
  else Ok (scrypt_core pw salt (Z.to_N n) (Z.to_N r) (Z.to_N p) (Z.to_N len)).
