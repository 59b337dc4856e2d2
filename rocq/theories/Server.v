(** * Model of pkg/migp/server.go (JSON forms of the configuration are in
    [ConfigJson.v]). *)
From Verif Require Import Base Hex Utf8 Common Hasher Encryptor Oprf.

Section Server.
Variable LIB : OPRF.

(** server.go:22-31.  oprfServer is determined by (oprfSuite, privateKey). *)
Record Server := mkServer {
  s_version : N;
  s_bits : Z;
  s_bucketHasher : BucketHasher;
  s_bucketEncryptor : BucketEncryptor;
  s_slowHasher : SlowHasher;
  s_oprfSuite : N;
  s_privateKey : PrivateKey LIB }.

(** server.go:35-38 *)
Record ServerConfig := mkServerConfig {
  sc_config : Config;
  sc_privateKey : PrivateKey LIB }.

(** server.go:74-86 *)
Definition Server_Config (s : Server) : ServerConfig :=
  {| sc_config :=
       {| cfg_version := s_version s;
          cfg_bits := s_bits s;
          cfg_bucketHasher := BucketHasher_ID (s_bucketHasher s);
          cfg_slowHasher := SlowHasher_ID (s_slowHasher s);
          cfg_bucketEncryptor := BucketEncryptor_ID (s_bucketEncryptor s);
          cfg_oprfSuite := s_oprfSuite s |};
     sc_privateKey := s_privateKey s |}.

(** server.go:105-135 *)
Definition NewServer (cfg : ServerConfig) : res Server :=
  let c := sc_config cfg in
  bh <- NewBucketHasher (cfg_bucketHasher c) ;;
  sh <- NewSlowHasher (cfg_slowHasher c) ;;
  be <- NewBucketEncryptor (cfg_bucketEncryptor c) ;;
  _ <- server_suite LIB (cfg_oprfSuite c) (sc_privateKey cfg) ;;
  Ok {| s_version := cfg_version c;
        s_bits := cfg_bits c;
        s_bucketHasher := bh;
        s_bucketEncryptor := be;
        s_slowHasher := sh;
        s_oprfSuite := cfg_oprfSuite c;
        s_privateKey := sc_privateKey cfg |}.

(** server.go:138-141 *)
Definition deriveBucketEntryKey (s : Server) (username password : bytes) : res bytes :=
  ser <- serializeUsernamePassword username password ;;
  input <- SlowHasher_Hash (s_slowHasher s) ser ;;
  full_evaluate LIB (s_oprfSuite s) (s_privateKey s) input OprfInfo.

(** server.go:144-146 *)
Definition Server_BucketID (s : Server) (username : bytes) : res N :=
  h <- BucketHasher_Hash (s_bucketHasher s) username ;;
  bucketHashToID h (s_bits s).

(** server.go:154: string(metadataFlag), of a byte type, is the UTF-8 encoding
    of the rune with that number. *)
Definition flag_error (metadataFlag : MetadataType) : string :=
  String.append "invalid metadata flag value: " (string_of_list_byte (encode_rune (bN metadataFlag))).

(** server.go:152-162 *)
Definition EncryptBucketEntry (s : Server) (username password : bytes)
    (metadataFlag : MetadataType) (metadata : bytes) : res bytes :=
  if negb (MetadataType_Valid metadataFlag) then Err (flag_error metadataFlag)
  else
    key <- deriveBucketEntryKey s username password ;;
    Encrypt (s_bucketEncryptor s) key metadataFlag metadata.

End Server.

Arguments mkServer {LIB}.
Arguments s_version {LIB} _. Arguments s_bits {LIB} _. Arguments s_bucketHasher {LIB} _.
Arguments s_bucketEncryptor {LIB} _. Arguments s_slowHasher {LIB} _.
Arguments s_oprfSuite {LIB} _. Arguments s_privateKey {LIB} _.
Arguments mkServerConfig {LIB}.
Arguments sc_config {LIB} _. Arguments sc_privateKey {LIB} _.
Arguments Server_Config {LIB} _. Arguments NewServer {LIB} _.
Arguments deriveBucketEntryKey {LIB} _ _ _. Arguments Server_BucketID {LIB} _ _.
Arguments EncryptBucketEntry {LIB} _ _ _ _ _.

(** client.go:30-34 *)
Record ClientRequest := mkClientRequest {
  rq_version : N;          (* uint32 *)
  rq_bucketID : bytes;     (* string *)
  rq_blindElement : gslice }.

(** server.go:165-169.  BucketContents is nil when the key is absent. *)
Record ServerResponse := mkServerResponse {
  rs_version : N;          (* uint32 *)
  rs_evaluatedElement : bytes;
  rs_bucketContents : gslice }.

(** server.go:173-185 (the bytes.Buffer writes cannot fail). *)
Definition MarshalBinary (r : ServerResponse) : res bytes :=
  Ok (be32 (rs_version r) ++ rs_evaluatedElement r ++ sl (rs_bucketContents r)).

(** server.go:189-206.  binary.Read of 4 bytes fails with EOF or
    ErrUnexpectedEOF on a short input; bytes.Buffer.Read of a non-empty slice
    fails with EOF on an empty buffer and otherwise returns what there is.
    The element size is that of the default suite. *)
Definition UnmarshalBinary (LIB : OPRF) (data : bytes) : res ServerResponse :=
  match data with
  | [] => Err "EOF"
  | _ =>
    if (length data <? 4)%nat then Err "unexpected EOF"
    else
      version <- get_be32 data ;;
      let buffer := skipn 4 data in
      n <- elt_size LIB DefaultOPRFSuite ;;
      let elem := firstn n buffer in
      if (length buffer =? 0)%nat && negb (n =? 0)%nat then Err "EOF"
      else if negb (length elem =? n)%nat
      then Err "too few bytes to deserialize EvaluatedElement"
      else Ok {| rs_version := version;
                 rs_evaluatedElement := elem;
                 rs_bucketContents := Some (skipn n buffer) |}
  end.

(** server.go:211-213: Getter, as the function its Get method computes in the
    current state. *)
Definition Getter := bytes -> res gslice.

(** server.go:222-250 *)
Definition HandleRequest {LIB} (s : Server LIB) (request : ClientRequest) (kv : Getter) : res ServerResponse :=
  if negb (u16 (rq_version request) =? s_version s)%N
  then Err "requested version doesn't match server version"
  else
    elements <- evaluate LIB (s_oprfSuite s) (s_privateKey s) [sl (rq_blindElement request)] OprfInfo ;;
    match elements with
    | [] => Err "invalid Evaluation response"
    | element :: _ =>
        match hex_decode (rq_bucketID request) with
        | Panic m => Panic m
        | Err _ => Err "bucket ID not valid hex"
        | Ok _ =>
            bucketContents <- kv (rq_bucketID request) ;;
            Ok {| rs_version := rq_version request;
                  rs_evaluatedElement := element;
                  rs_bucketContents := bucketContents |}
        end
    end.
