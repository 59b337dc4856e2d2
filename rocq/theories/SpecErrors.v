(** * Specification for C74: which error is returned, and why.

    Each relation lists the errors of one function with their causes; the text
    after the cause is the error a caller sees.  At most one cause applies. *)
From Verif Require Import Base Common Oprf Server Client SpecEntry SpecProtocol.

(** The constructors: the first field that is not supported. *)
Inductive config_error (cfg : Config) (suite : res unit) : string -> Prop :=
| bad_bucket_hasher : cfg_bucketHasher cfg <> 1%N -> config_error cfg suite "unsupported bucket hasher"
| bad_slow_hasher : cfg_bucketHasher cfg = 1%N -> (2 <= cfg_slowHasher cfg)%N -> config_error cfg suite "Unsupported slow hasher"
| bad_encryptor : cfg_bucketHasher cfg = 1%N -> (cfg_slowHasher cfg < 2)%N -> cfg_bucketEncryptor cfg <> 1%N ->
    config_error cfg suite "unsupported bucket encryptor"
| bad_suite e : cfg_bucketHasher cfg = 1%N -> (cfg_slowHasher cfg < 2)%N -> cfg_bucketEncryptor cfg = 1%N -> suite = Err e ->
    config_error cfg suite e.

Inductive request_error {LIB} (s : Server LIB) (rq : ClientRequest) (get : bytes -> res gslice) : string -> Prop :=
| other_version : (rq_version rq mod 2 ^ 16 <> s_version s)%N ->
    request_error s rq get "requested version doesn't match server version"
| bad_element e : (rq_version rq mod 2 ^ 16 = s_version s)%N ->
    evaluate LIB (s_oprfSuite s) (s_privateKey s) [sl (rq_blindElement rq)] (str "MIGP oprf info") = Err e -> request_error s rq get e
| bad_id es : (rq_version rq mod 2 ^ 16 = s_version s)%N ->
    evaluate LIB (s_oprfSuite s) (s_privateKey s) [sl (rq_blindElement rq)] (str "MIGP oprf info") = Ok es ->
    ~ well_formed_hex (rq_bucketID rq) -> request_error s rq get "bucket ID not valid hex"
| store_failed es e : (rq_version rq mod 2 ^ 16 = s_version s)%N ->
    evaluate LIB (s_oprfSuite s) (s_privateKey s) [sl (rq_blindElement rq)] (str "MIGP oprf info") = Ok es ->
    well_formed_hex (rq_bucketID rq) -> get (rq_bucketID rq) = Err e -> request_error s rq get e.

(** Reading a response.  [es] are the whole entries of the bucket that come
    before the place where reading fails. *)
Inductive finalize_error {LIB} (ctx : ClientRequestContext LIB) (resp : ServerResponse) : string -> Prop :=
| other_version_back : (rs_version resp mod 2 ^ 16 <> c_version (ctx_client ctx))%N -> finalize_error ctx resp "wrong version in reply"
| bad_evaluation e : (rs_version resp mod 2 ^ 16 = c_version (ctx_client ctx))%N ->
    unblind LIB (c_oprfSuite (ctx_client ctx)) (ctx_inputs ctx) (ctx_blinds ctx) [rs_evaluatedElement resp] (str "MIGP oprf info") = Err e ->
    finalize_error ctx resp e
| bucket_overrun secret es t : client_secret ctx resp secret ->
    sl (rs_bucketContents resp) = bucket_bytes es ++ t -> Forall entry_ok es -> overrun_tail t ->
    Forall (fun e => e_check e <> key_check secret) es -> finalize_error ctx resp "parsing error in bucket"
| body_too_long secret es e t : client_secret ctx resp secret ->
    sl (rs_bucketContents resp) = bucket_bytes es ++ entry_bytes e ++ t -> Forall entry_ok es -> entry_ok e ->
    Forall (fun e => e_check e <> key_check secret) es -> e_check e = key_check secret -> (8160 < blen (e_body e))%Z ->
    finalize_error ctx resp "hkdf: entropy limit reached".

(** The bytes of a response (33-byte elements). *)
Inductive response_error (d : bytes) : string -> Prop :=
| no_version : d = [] -> response_error d "EOF"
| cut_version : (1 <= length d <= 3)%nat -> response_error d "unexpected EOF"
| no_element : length d = 4%nat -> response_error d "EOF"
| cut_element : (5 <= length d <= 36)%nat -> response_error d "too few bytes to deserialize EvaluatedElement".

(** The flag of an entry is printed as the character with that number. *)
Inductive entry_error {LIB} (s : Server LIB) (u p : bytes) (flag : byte) (m : bytes) : string -> Prop :=
| ascii_flag text : (4 <= bN flag < 128)%N -> str text = str "invalid metadata flag value: " ++ [flag] -> entry_error s u p flag m text
| latin1_flag text : (128 <= bN flag)%N ->
    str text = str "invalid metadata flag value: " ++ [nB (192 + bN flag / 64); nB (128 + bN flag mod 64)] -> entry_error s u p flag m text
| no_key e : (bN flag < 4)%N -> deriveBucketEntryKey s u p = Err e -> entry_error s u p flag m e
| metadata_too_long k : (bN flag < 4)%N -> deriveBucketEntryKey s u p = Ok k -> (8160 < blen m)%Z ->
    entry_error s u p flag m "hkdf: entropy limit reached".
