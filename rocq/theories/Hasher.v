(** * Model of pkg/migp/hasher.go and pkg/migp/slowhasher.go. *)
From Verif Require Import Base Sha256 Scrypt Common.

(** hasher.go:12-16 *)
Definition BucketHasherSHA256 : N := 1.
Definition BucketHashSalt : bytes := str "MIGP bucket".

(** hasher.go:20-28: the only implementation of the BucketHasher interface. *)
Inductive BucketHasher := sha256BucketHasher (salt : bytes).

(** hasher.go:32-34 *)
Definition NewSHA256BucketHasher : BucketHasher := sha256BucketHasher BucketHashSalt.

(** hasher.go:37-39 *)
Definition BucketHasher_ID (h : BucketHasher) : N :=
  match h with sha256BucketHasher _ => BucketHasherSHA256 end.

(** hasher.go:42-54: the bytes that are hashed, and the hash. *)
Definition bucket_preimage (salt buf : bytes) : bytes :=
  be16 (len16 salt) ++ salt ++ be16 (len16 buf) ++ buf.
Definition BucketHasher_Hash (h : BucketHasher) (buf : bytes) : res bytes :=
  match h with
  | sha256BucketHasher salt =>
      if (65536 <? blen salt)%Z || (65536 <? blen buf)%Z
      then Panic "Invalid input"
      else Ok (sha256 (bucket_preimage salt buf))
  end.

(** hasher.go:57-64 *)
Definition NewBucketHasher (id : N) : res BucketHasher :=
  if (id =? BucketHasherSHA256)%N then Ok NewSHA256BucketHasher
  else Err "unsupported bucket hasher".

(** slowhasher.go:12-23 *)
Definition SlowHasherNull : N := 0.
Definition SlowHasherScrypt : N := 1.
Definition SlowHashSalt : bytes := str "MIGP slow hash".
Definition SlowHashLen : Z := 32.
Definition ScryptN : Z := 16384.
Definition Scryptr : Z := 8.
Definition Scryptp : Z := 1.

(** slowhasher.go:26-38,74: the two implementations of SlowHasher. *)
Inductive SlowHasher :=
| scryptSlowHasher (salt : bytes) (N r p L : Z)
| nullSlowHasher.

(** slowhasher.go:46-54 *)
Definition NewScryptSlowHasher : SlowHasher :=
  scryptSlowHasher SlowHashSalt ScryptN Scryptr Scryptp SlowHashLen.

(** slowhasher.go:57-59,82-84 *)
Definition SlowHasher_ID (h : SlowHasher) : N :=
  match h with scryptSlowHasher _ _ _ _ _ => SlowHasherScrypt | nullSlowHasher => SlowHasherNull end.

(** slowhasher.go:62-71,87-89.  Simplification: the int width that
    scrypt.Key's parameter check depends on is fixed to 64 here (the built-in
    parameters pass on 32 bits too, see [scrypt_never_fails]). *)
Definition SlowHasher_Hash (h : SlowHasher) (buf : bytes) : res bytes :=
  match h with
  | scryptSlowHasher salt n r p L =>
      match scrypt_key 64 buf salt n r p L with
      | Ok t => Ok t
      | Err e => Panic e
      | Panic m => Panic m
      end
  | nullSlowHasher => Ok buf
  end.

(** slowhasher.go:92-101 *)
Definition NewSlowHasher (id : N) : res SlowHasher :=
  if (id =? SlowHasherNull)%N then Ok nullSlowHasher
  else if (id =? SlowHasherScrypt)%N then Ok NewScryptSlowHasher
  else Err "Unsupported slow hasher".
