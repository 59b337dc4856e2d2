(** * The code that uses HKDF, over arbitrary pad streams.

    HKDF enters the code only through [derivePad] (encryptor.go:129-140), which
    takes bytes of the stream that belongs to a secret and a salt.  Here the
    streams are a parameter; [hkdf_streams] are those of HKDF-SHA-256.
    IdealProofs.v proves that with them the functions are those of
    [Encryptor.v], [Client.v] and [Server.v]. *)
From Verif Require Import Base Sha256 Hkdf Common Hasher Encryptor Oprf Server Client KV SpecEntry SpecProtocol.

(** Secret, salt and index give a byte. *)
Definition streams := bytes -> bytes -> nat -> byte.
Definition hkdf_streams : streams :=
  fun secret salt i => nth i (hkdf_blocks 255 (hkdf_extract secret salt) [] [] 1) Byte.x00.

Section Streams.
Variable O : streams.

(** encryptor.go:129-140 *)
Definition derivePad_o (secret salt : bytes) (len : nat) : res bytes :=
  if (hkdf_limit <? N.of_nat len)%N then Err "hkdf: entropy limit reached"
  else Ok (map (O secret salt) (seq 0 len)).

(** encryptor.go:50-74 *)
Definition Encrypt_o (secret : bytes) (flag : MetadataType) (body : bytes) : res bytes :=
  headerPad <- derivePad_o secret DerivePadHeaderSalt (CtxtKeyCheckSize + 1) ;;
  let header := zeros CtxtKeyCheckSize ++ [flag] in
  encryptedHeader <- xorBytes header headerPad ;;
  bodyPad <- derivePad_o secret DerivePadBodySalt (length body) ;;
  encryptedBody <- xorBytes body bodyPad ;;
  Ok (encryptedHeader ++ be32 (u32 (N.of_nat (length encryptedBody))) ++ encryptedBody).

(** encryptor.go:78-97 *)
Definition DecryptHeader_o (iw : Z) (secret ciphertext : bytes) : res (bool * MetadataType * Z) :=
  if (length ciphertext <? HeaderSize)%nat
  then Err "ciphertext of insufficient length to parse header"
  else
    headerPad <- derivePad_o secret DerivePadHeaderSalt (CtxtKeyCheckSize + 1) ;;
    let keyCheck := bytes_eqb (firstn CtxtKeyCheckSize headerPad) (firstn CtxtKeyCheckSize ciphertext) in
    let flag := bxor (nth CtxtKeyCheckSize headerPad Byte.x00) (nth CtxtKeyCheckSize ciphertext Byte.x00) in
    n <- get_be32 (skipn (CtxtKeyCheckSize + 1) ciphertext) ;;
    Ok (keyCheck, flag, int_wrap iw (Z.of_N n)).

(** encryptor.go:102-112 *)
Definition DecryptBody_o (secret ciphertext : bytes) : res bytes :=
  bodyPad <- derivePad_o secret DerivePadBodySalt (length ciphertext) ;;
  xorBytes ciphertext bodyPad.

(** client.go:125-153 *)
Fixpoint finalize_loop_o (iw : Z) (fuel : nat) (secret contents : bytes) (offset : Z) : option (res (BreachStatus * gslice)) :=
  match fuel with
  | 0%nat => None
  | S fuel' =>
      if (blen contents <? int_wrap iw (offset + Z.of_nat HeaderSize))%Z
      then Some (Ok (NotInBreach, None))
      else
        match (tl <- slice_from contents offset ;; DecryptHeader_o iw secret tl) with
        | Err m => Some (Err m)
        | Panic m => Some (Panic m)
        | Ok (valid, flag, bodyLength) =>
            let offset := int_wrap iw (offset + Z.of_nat HeaderSize) in
            if (blen contents <? int_wrap iw (offset + bodyLength))%Z
            then Some (Err "parsing error in bucket")
            else if valid
            then Some (body <- slice contents offset (int_wrap iw (offset + bodyLength)) ;;
                       metadata <- DecryptBody_o secret body ;;
                       Ok (ToBreachStatus flag, Some metadata))
            else finalize_loop_o iw fuel' secret contents (int_wrap iw (offset + bodyLength))
        end
  end.

(** client.go:109-154 on a 64-bit platform. *)
Definition Finalize_o {LIB} (ctx : ClientRequestContext LIB) (response : ServerResponse) : res (BreachStatus * gslice) :=
  match finalize_secret ctx response with
  | Err m => Err m
  | Panic m => Panic m
  | Ok secret =>
      match finalize_loop_o 64 (S (length (sl (rs_bucketContents response)))) secret (sl (rs_bucketContents response)) 0 with
      | Some r => r
      | None => Panic "out of fuel"
      end
  end.

(** server.go:152-162 *)
Definition EncryptBucketEntry_o {LIB} (s : Server LIB) (username password : bytes) (metadataFlag : MetadataType) (metadata : bytes) : res bytes :=
  if negb (MetadataType_Valid metadataFlag) then Err (flag_error metadataFlag)
  else
    key <- deriveBucketEntryKey s username password ;;
    Encrypt_o key metadataFlag metadata.

(** [store_all] and [run_query] of SpecProtocol.v. *)
Fixpoint store_all_o {LIB} (s : Server LIB) (kv : kvStore) (db : list cred) : res kvStore :=
  match db with
  | [] => Ok kv
  | d :: r =>
      id <- Server_BucketID s (d_user d) ;;
      entry <- EncryptBucketEntry_o s (d_user d) (d_pass d) (d_flag d) (d_meta d) ;;
      store_all_o s (kv_Append kv (BucketIDToHex id) entry) r
  end.
Definition run_query_o {LIB} (c : Client) (s : Server LIB) (kv : Getter) (u p : bytes) (r : Blind LIB) : res (BreachStatus * gslice) :=
  match Request c u p r with
  | Ok (request, ctx) => response <- HandleRequest s request kv ;; Finalize_o ctx response
  | Err m => Err m
  | Panic m => Panic m
  end.
End Streams.
