(** * Specification for C79: the protocol as another implementation would
    have to follow it, with all constants written out.  Only SHA-256, HKDF,
    scrypt and the OPRF are used; nothing of the model of this code. *)
From Verif Require Import Base Sha256 Scrypt Oprf SpecCommon SpecEntry SpecProtocol.

(** What both sides agree on: protocol version, number of bits of bucket
    numbers, slow hash (0: none, 1: scrypt), OPRF suite. *)
Record parameters := mkParameters { p_version : N; p_bits : Z; p_slow : N; p_suite : N }.

(** Two bytes of length, then the bytes. *)
Definition field (s : bytes) : bytes := be16 (N.of_nat (length s)) ++ s.

(** The input of the OPRF. *)
Definition slow_hash (alg : N) (x : bytes) : bytes :=
  if N.eqb alg 0 then x else match scrypt_key 64 x (str "MIGP slow hash") 16384 8 1 32 with Ok h => h | _ => [] end.
Definition oprf_input (ps : parameters) (u p : bytes) : bytes := slow_hash (p_slow ps) (field u ++ field p).

(** The secret of a credential. *)
Definition secret_of {LIB} (ps : parameters) (key : PrivateKey LIB) (u p : bytes) : res bytes :=
  full_evaluate LIB (p_suite ps) key (oprf_input ps u p) (str "MIGP oprf info").

(** The name of a bucket: the leading bits of a hash, as a number in 8 hex
    digits. *)
Definition bucket_number (ps : parameters) (u : bytes) : N :=
  bits_value (firstn (Z.to_nat (p_bits ps)) (bits (sha256 (field (str "MIGP bucket") ++ field u)))).
Definition hex8 (n : N) : bytes := map (fun i => nth (N.to_nat (n / 16 ^ i mod 16)) (str "0123456789abcdef") Byte.x00) [7; 6; 5; 4; 3; 2; 1; 0]%N.
Definition bucket_name (ps : parameters) (u : bytes) : bytes := hex8 (bucket_number ps u).

(** Credentials that have an entry, and the contents of a bucket: the entries
    of those that belong to it, in order. *)
Definition has_entry {LIB} (ps : parameters) (key : PrivateKey LIB) (d : cred) : Prop :=
  (blen (d_user d) <= 65535)%Z /\ (blen (d_pass d) <= 65535)%Z /\ (bN (d_flag d) < 4)%N /\ (blen (d_meta d) <= 8160)%Z
  /\ exists k, secret_of ps key (d_user d) (d_pass d) = Ok k.
Definition entry_for {LIB} (ps : parameters) (key : PrivateKey LIB) (d : cred) : bytes :=
  match secret_of ps key (d_user d) (d_pass d) with
  | Ok k => key_check k ++ [bxor (d_flag d) (flag_mask k)] ++ be32 (N.of_nat (length (d_meta d))) ++ xor (d_meta d) (body_mask k (length (d_meta d)))
  | _ => []
  end.
Definition bucket {LIB} (ps : parameters) (key : PrivateKey LIB) (db : list cred) (name : bytes) : bytes :=
  flat_map (fun d => if bytes_eqb (bucket_name ps (d_user d)) name then entry_for ps key d else []) db.
