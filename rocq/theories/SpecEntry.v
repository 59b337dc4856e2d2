(** * Specification: bucket entries and what a client must read off a bucket.
    Uses only [Base.v], the HKDF function of the library and the status
    names; nothing of the model's encryptor or Finalize. *)
From Verif Require Import Base Hkdf Common.

(** HKDF-SHA256(secret, salt, info = ""), first [n] bytes. *)
Definition hkdf (secret : bytes) (salt : string) (n : nat) : bytes :=
  match hkdf_read secret (str salt) [] n with Ok p => p | _ => [] end.

(** Bytewise exclusive or, on the common length. *)
Fixpoint xor (a b : bytes) : bytes :=
  match a, b with
  | x :: a', y :: b' => bxor x y :: xor a' b'
  | _, _ => []
  end.

(** The 20 key-check bytes of a secret, the byte that masks the flag, and the
    bytes that mask a body of [n] bytes. *)
Definition key_check (secret : bytes) : bytes := hkdf secret "MIGP derive pad header" 20.
Definition flag_mask (secret : bytes) : byte :=
  nth 20 (hkdf secret "MIGP derive pad header" 21) Byte.x00.
Definition body_mask (secret : bytes) (n : nat) : bytes := hkdf secret "MIGP derive pad body" n.

(** An entry as it lies in a bucket: key check, masked flag, body length in 4
    big-endian bytes, masked body. *)
Record entry := mkEntry { e_check : bytes; e_flag : byte; e_body : bytes }.
Definition entry_ok (e : entry) : Prop :=
  length (e_check e) = 20%nat /\ (blen (e_body e) < 2 ^ 32)%Z.
Definition entry_bytes (e : entry) : bytes :=
  e_check e ++ [e_flag e] ++ be32 (N.of_nat (length (e_body e))) ++ e_body e.
Definition bucket_bytes (es : list entry) : bytes := flat_map entry_bytes es.

(** The entry for a secret, flag and body. *)
Definition make_entry (secret : bytes) (flag : byte) (body : bytes) : entry :=
  {| e_check := key_check secret;
     e_flag := bxor flag (flag_mask secret);
     e_body := xor body (body_mask secret (length body)) |}.

(** Does an entry belong to a secret; what the owner reads from it. *)
Definition entry_matches (secret : bytes) (e : entry) : bool := bytes_eqb (e_check e) (key_check secret).
Definition entry_open_flag (secret : bytes) (e : entry) : byte := bxor (e_flag e) (flag_mask secret).
Definition entry_open_body (secret : bytes) (e : entry) : bytes :=
  xor (e_body e) (body_mask secret (length (e_body e))).

(** The status a flag stands for. *)
Definition flag_status (flag : byte) : BreachStatus :=
  match bN flag with
  | 1%N => InBreach
  | 2%N => SimilarInBreach
  | 3%N => UsernameInBreach
  | _ => NotInBreach
  end.

(** What follows the whole entries of a byte string: fewer than 25 bytes, or a
    header whose length field points beyond the end. *)
Definition short_tail (t : bytes) : Prop := (length t < 25)%nat.
Definition overrun_tail (t : bytes) : Prop :=
  exists check flag n rest,
    t = check ++ [flag] ++ be32 n ++ rest /\ length check = 20%nat /\
    (n < 2 ^ 32)%N /\ (Z.of_N n > blen rest)%Z.
