(** * Model of pkg/migp/encryptor.go. *)
From Verif Require Import Base Sha256 Hkdf Common.

(** encryptor.go:16-21 *)
Definition BucketEncryptorHKDFSHA256 : N := 1.
Definition DerivePadHeaderSalt : bytes := str "MIGP derive pad header".
Definition DerivePadBodySalt : bytes := str "MIGP derive pad body".

(** encryptor.go:25-33: the only implementation of BucketEncryptor. *)
Inductive BucketEncryptor := hkdfSHA256BucketEncryptor.

(** encryptor.go:42-44 *)
Definition BucketEncryptor_ID (e : BucketEncryptor) : N := BucketEncryptorHKDFSHA256.

(** encryptor.go:116-125 *)
Definition xorBytes (b1 b2 : bytes) : res bytes :=
  if Nat.eqb (length b1) (length b2) then Ok (map2 bxor b1 b2)
  else Panic "bytes are of mismatched length".

(** encryptor.go:129-140 *)
Definition derivePad (secret salt : bytes) (len : nat) : res bytes :=
  pad <- hkdf_read secret salt [] len ;;
  if Nat.eqb (length pad) len then Ok pad
  else Err "HKDF failed to read requested bytes".

(** encryptor.go:50-74.  The ciphertext buffer filled by copy/PutUint32/copy
    is the concatenation of its parts. *)
Definition Encrypt (e : BucketEncryptor) (secret : bytes) (flag : MetadataType) (body : bytes) : res bytes :=
  headerPad <- derivePad secret DerivePadHeaderSalt (CtxtKeyCheckSize + 1) ;;
  let header := zeros CtxtKeyCheckSize ++ [flag] in
  encryptedHeader <- xorBytes header headerPad ;;
  bodyPad <- derivePad secret DerivePadBodySalt (length body) ;;
  encryptedBody <- xorBytes body bodyPad ;;
  Ok (encryptedHeader ++ be32 (u32 (N.of_nat (length encryptedBody))) ++ encryptedBody).

(** encryptor.go:78-97.  [subtle.ConstantTimeCompare] is byte equality (1 iff
    equal, 0 on different lengths); [int(uint32)] wraps on a 32-bit int
    ([iw] is the width of Go's int). *)
Definition DecryptHeader (iw : Z) (e : BucketEncryptor) (secret ciphertext : bytes)
  : res (bool * MetadataType * Z) :=
  if (length ciphertext <? HeaderSize)%nat
  then Err "ciphertext of insufficient length to parse header"
  else
    headerPad <- derivePad secret DerivePadHeaderSalt (CtxtKeyCheckSize + 1) ;;
    let keyCheck := bytes_eqb (firstn CtxtKeyCheckSize headerPad) (firstn CtxtKeyCheckSize ciphertext) in
    let flag := bxor (nth CtxtKeyCheckSize headerPad Byte.x00) (nth CtxtKeyCheckSize ciphertext Byte.x00) in
    n <- get_be32 (skipn (CtxtKeyCheckSize + 1) ciphertext) ;;
    Ok (keyCheck, flag, int_wrap iw (Z.of_N n)).

(** encryptor.go:102-112 *)
Definition DecryptBody (e : BucketEncryptor) (secret ciphertext : bytes) : res bytes :=
  bodyPad <- derivePad secret DerivePadBodySalt (length ciphertext) ;;
  xorBytes ciphertext bodyPad.

(** encryptor.go:143-150 *)
Definition NewBucketEncryptor (id : N) : res BucketEncryptor :=
  if (id =? BucketEncryptorHKDFSHA256)%N then Ok hkdfSHA256BucketEncryptor
  else Err "unsupported bucket encryptor".
