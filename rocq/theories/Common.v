(** * Model of pkg/migp/common.go. *)
From Verif Require Import Base Hex.

(** common.go:16 *)
Definition DefaultMIGPVersion : N := 1.
(** common.go:21 *)
Definition DefaultBucketIDBitSize : Z := 20.
(** common.go:31 *)
Definition CtxtKeyCheckSize : nat := 20.
(** common.go:36 *)
Definition HeaderSize : nat := CtxtKeyCheckSize + 5.
(** common.go:40 *)
Definition OprfInfo : bytes := str "MIGP oprf info".

(** common.go:44-51.  uint16 fields and oprf.SuiteID (a uint16) are [N], the
    Go [int] is [Z]; [wf_config] states the ranges of those types. *)
Record Config := mkConfig {
  cfg_version : N;
  cfg_bits : Z;
  cfg_bucketHasher : N;
  cfg_slowHasher : N;
  cfg_bucketEncryptor : N;
  cfg_oprfSuite : N }.

(** The values a Go [Config] can hold on a platform with [iw]-bit ints. *)
Definition wf_config (iw : Z) (c : Config) : Prop :=
  (cfg_version c < 2 ^ 16 /\ cfg_bucketHasher c < 2 ^ 16 /\ cfg_slowHasher c < 2 ^ 16
   /\ cfg_bucketEncryptor c < 2 ^ 16 /\ cfg_oprfSuite c < 2 ^ 16)%N
  /\ (- 2 ^ (iw - 1) <= cfg_bits c < 2 ^ (iw - 1))%Z.

(** common.go:27: oprf.OPRFP256 of circl is suite 3. *)
Definition DefaultOPRFSuite : N := 3.

(** common.go:54-63 (BucketHasherSHA256 = SlowHasherScrypt =
    BucketEncryptorHKDFSHA256 = 1, hasher.go:13, slowhasher.go:14,
    encryptor.go:16). *)
Definition DefaultConfig : Config :=
  {| cfg_version := DefaultMIGPVersion;
     cfg_bits := DefaultBucketIDBitSize;
     cfg_bucketHasher := 1;
     cfg_slowHasher := 1;
     cfg_bucketEncryptor := 1;
     cfg_oprfSuite := DefaultOPRFSuite |}.

(** common.go:66-77: MetadataType is a uint8; here a [byte]. *)
Definition MetadataType := byte.
Definition MetadataDummy : MetadataType := Byte.x00.
Definition MetadataBreachedPassword : MetadataType := Byte.x01.
Definition MetadataSimilarPassword : MetadataType := Byte.x02.
Definition MetadataBreachedUsername : MetadataType := Byte.x03.

(** common.go:80-93 *)
Definition MetadataType_String (mt : MetadataType) : string :=
  match mt with
  | Byte.x00 => "dummy metadata"
  | Byte.x01 => "breached password"
  | Byte.x02 => "similar password"
  | Byte.x03 => "breached username"
  | _ => "Unknown metadata type"
  end.

(** common.go:96-102 *)
Definition MetadataType_Valid (mt : MetadataType) : bool :=
  beqb mt MetadataDummy || beqb mt MetadataBreachedPassword
  || beqb mt MetadataSimilarPassword || beqb mt MetadataBreachedUsername.

(** common.go:121-134: BreachStatus is a uint8 with these four named values
    (no other value is ever constructed in the repository). *)
Inductive BreachStatus := NotInBreach | InBreach | SimilarInBreach | UsernameInBreach.

(** common.go:105-116 *)
Definition ToBreachStatus (mt : MetadataType) : BreachStatus :=
  if beqb mt MetadataBreachedPassword then InBreach
  else if beqb mt MetadataSimilarPassword then SimilarInBreach
  else if beqb mt MetadataBreachedUsername then UsernameInBreach
  else NotInBreach.

(** common.go:137-150 *)
Definition BreachStatus_String (bs : BreachStatus) : string :=
  match bs with
  | NotInBreach => "password not in breach"
  | InBreach => "password in breach"
  | SimilarInBreach => "similar password in breach"
  | UsernameInBreach => "username in breach"
  end.

(** [uint16(len(b))] *)
Definition len16 (b : bytes) : N := u16 (N.of_nat (length b)).

(** common.go:156-166.  The buffer written by PutUint16/copy is the
    concatenation of the four pieces. *)
Definition serializeUsernamePassword (username password : bytes) : res bytes :=
  if (65536 <? blen username)%Z || (65536 <? blen password)%Z
  then Panic "Length overflow"
  else Ok (be16 (len16 username) ++ username ++ be16 (len16 password) ++ password).

(** common.go:170-177.  [>>] and [&] associate to the left; [1 << bitSize] is
    a uint32, so it wraps to 0 at 32 and the subtraction wraps to 2^32-1; a
    negative shift count panics. *)
Definition bucketHashToID (bucketHash : bytes) (bitSize : Z) : res N :=
  if (32 <? bitSize)%Z then Panic "Bucket ID bit size cannot be greater than 32"
  else
    bucketID <- get_be32 bucketHash ;;
    if (bitSize <? 0)%Z then Panic "negative shift amount"
    else
      let mask := u32 (u32 (N.shiftl 1 (Z.to_N bitSize)) + (2 ^ 32 - 1)) in
      Ok (N.land (N.shiftr bucketID (Z.to_N (32 - bitSize))) mask).

(** common.go:180-184 *)
Definition BucketIDToHex (bucketID : N) : bytes := hex_encode (be32 bucketID).
