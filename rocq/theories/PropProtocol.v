(** * Properties C04, C11, C12, C13 (storing), C23, C37, C38: constructors,
    Request, HandleRequest, Finalize together (pkg/migp/client.go,
    pkg/migp/server.go).

    [OPRF_laws LIB] is what is assumed of the OPRF library; [toy_OPRF] and, for
    every family of prime-order groups, [group_OPRF] satisfy it
    ([toy_OPRF_laws], [group_OPRF_laws]).  cfg_version < 2^16 because the field
    is a Go uint16. *)
From Verif Require Import Base BaseProofs Sha256 Common Hasher Encryptor Oprf OprfGroup Server Client KV
  SpecCommon SpecEntry SpecProtocol CommonProofs ProtocolProofs WireProofs PropFinalize.

(** A server and a client for the examples. *)
Definition ex_cfg : Config := {| cfg_version := 1; cfg_bits := 20; cfg_bucketHasher := 1; cfg_slowHasher := 0;
                                 cfg_bucketEncryptor := 1; cfg_oprfSuite := 3 |}.
Definition ex_server : Server toy_OPRF :=
  mkServer 1%N 20%Z NewSHA256BucketHasher hkdfSHA256BucketEncryptor nullSlowHasher 3%N (toy_key 3).
Example ex_server_ok : NewServer {| sc_config := ex_cfg; sc_privateKey := toy_key 3 |} = Ok ex_server
  /\ NewClient toy_OPRF ex_cfg = Ok ex_client /\ (cfg_version ex_cfg < 2 ^ 16)%N /\ OPRF_laws toy_OPRF.
Proof. split; [reflexivity|]. split; [reflexivity|]. split; [vm_compute; reflexivity|exact toy_OPRF_laws]. Qed.

(** ** C04: client and server agree on the bucket of a username. *)
Theorem C04_same_bucket : forall (LIB : OPRF) (cfg : Config) (key : PrivateKey LIB) (s : Server LIB) (c : Client) (u : bytes),
  NewServer {| sc_config := cfg; sc_privateKey := key |} = Ok s -> NewClient LIB cfg = Ok c ->
  Client_BucketID c u = Server_BucketID s u.
Proof. exact (fun LIB cfg key s c u Hs Hc => same_bucket LIB cfg key s c Hs Hc u). Qed.
Print Assumptions C04_same_bucket.

(** Which bucket it is. *)
Theorem C04_bucket_of_username : forall (LIB : OPRF) (cfg : ServerConfig LIB) (s : Server LIB) (u : bytes),
  NewServer cfg = Ok s -> (0 <= cfg_bits (sc_config cfg) <= 32)%Z -> (blen u <= 65536)%Z ->
  Server_BucketID s u = Ok (bits_value (firstn (Z.to_nat (cfg_bits (sc_config cfg)))
    (bits (sha256 ([Byte.x00; Byte.x0b] ++ str "MIGP bucket" ++ be16 (N.of_nat (length u) mod 65536) ++ u))))).
Proof. exact server_bucket_spec. Qed.
Print Assumptions C04_bucket_of_username.

(** What a request says about the bucket. *)
Theorem C04_request_bucket : forall (LIB : OPRF) (c : Client) (u p : bytes) (r : Blind LIB) rq (ctx : ClientRequestContext LIB),
  Request c u p r = Ok (rq, ctx) ->
  rq_version rq = c_version c /\ ctx_client ctx = c /\
  exists id, Client_BucketID c u = Ok id /\ rq_bucketID rq = BucketIDToHex id.
Proof. exact request_inv. Qed.
Print Assumptions C04_request_bucket.

(** Password and blind do not show in it. *)
Theorem C04_bucket_independent_of_password_and_blind :
  forall (LIB : OPRF) (c : Client) (u p p' : bytes) (r r' : Blind LIB) rq rq' (ctx ctx' : ClientRequestContext LIB),
  Request c u p r = Ok (rq, ctx) -> Request c u p' r' = Ok (rq', ctx') ->
  rq_bucketID rq = rq_bucketID rq' /\ rq_version rq = rq_version rq'.
Proof. exact request_bucket_indep. Qed.
Print Assumptions C04_bucket_independent_of_password_and_blind.

(** Requests are made for all credentials of legal length. *)
Theorem C04_request_total : forall (LIB : OPRF) (cfg : Config) (c : Client) (u p : bytes) (r : Blind LIB),
  OPRF_laws LIB -> NewClient LIB cfg = Ok c -> (0 <= cfg_bits cfg <= 32)%Z ->
  (blen u <= 65536)%Z -> (blen p <= 65536)%Z -> exists rq (ctx : ClientRequestContext LIB), Request c u p r = Ok (rq, ctx).
Proof. exact request_total. Qed.
Print Assumptions C04_request_total.

Definition request_of (u p : bytes) (r : N) : option ClientRequest :=
  match @Request toy_OPRF ex_client u p r with Ok (rq, _) => Some rq | _ => None end.
Example C04_example :
  match Client_BucketID ex_client (str "alice"), request_of (str "alice") (str "pw") 5, request_of (str "alice") (str "pw2") 6 with
  | Ok id, Some rq, Some rq' => id <> 0%N /\ rq_bucketID rq = BucketIDToHex id /\ rq_bucketID rq' = rq_bucketID rq /\ rq <> rq'
  | _, _, _ => False
  end.
Proof. vm_compute. repeat split; discriminate. Qed.

(** ** C11: a stored credential is found. *)
Theorem C11_stored_credential_is_found :
  forall (LIB : OPRF), OPRF_laws LIB ->
  forall (cfg : Config) (key : PrivateKey LIB) (s : Server LIB) (c : Client),
  NewServer {| sc_config := cfg; sc_privateKey := key |} = Ok s -> NewClient LIB cfg = Ok c -> (cfg_version cfg < 2 ^ 16)%N ->
  forall (db : list cred) (kv : kvStore) (u p : bytes) (r : Blind LIB) (f : byte) (m : bytes) (before after : list cred),
  db = before ++ mkCred u p f m :: after -> Forall (fun d => (d_user d, d_pass d) <> (u, p)) before ->
  store_all s newKVStore db = Ok kv -> kv_holdable kv -> no_collision s db u p ->
  run_query c s (kv_Get kv) u p r = Ok (flag_status f, Some m).
Proof. exact query_stored. Qed.
Print Assumptions C11_stored_credential_is_found.

Definition ex_db : list cred :=
  [ mkCred (str "alice") (str "pw0") Byte.x01 (str "m0"); mkCred (str "bob") (str "pw") Byte.x02 [];
    mkCred (str "alice") (str "pw") Byte.x03 (str "first"); mkCred (str "alice") (str "pw") Byte.x01 (str "second") ].
Definition ex_kv : kvStore := match store_all ex_server newKVStore ex_db with Ok kv => kv | _ => [] end.
Example C11_example : store_all ex_server newKVStore ex_db = Ok ex_kv /\ no_collision ex_server ex_db (str "alice") (str "pw")
  /\ @run_query toy_OPRF ex_client ex_server (kv_Get ex_kv) (str "alice") (str "pw") 9%N = Ok (UsernameInBreach, Some (str "first")).
Proof.
  split; [vm_compute; reflexivity|]. split; [|vm_compute; reflexivity].
  intros d k k' Hin Hne Hk Hk'. assert (K : deriveBucketEntryKey ex_server (str "alice") (str "pw") = Ok ex_secret) by (vm_compute; reflexivity).
  rewrite K in Hk. apply Ok_inj in Hk. subst k. destruct Hin as [<-|[<-|[<-|[<-|[]]]]]; try (exfalso; apply Hne; reflexivity);
    vm_compute in Hk'; apply Ok_inj in Hk'; subst k'; vm_compute; discriminate.
Qed.

(** ** C12: a credential that was never stored. *)
Theorem C12_not_stored_not_in_breach :
  forall (LIB : OPRF), OPRF_laws LIB ->
  forall (cfg : Config) (key : PrivateKey LIB) (s : Server LIB) (c : Client),
  NewServer {| sc_config := cfg; sc_privateKey := key |} = Ok s -> NewClient LIB cfg = Ok c -> (cfg_version cfg < 2 ^ 16)%N ->
  forall (db : list cred) (kv : kvStore) (u p : bytes) (r : Blind LIB) (k : bytes),
  (0 <= cfg_bits cfg <= 32)%Z ->
  store_all s newKVStore db = Ok kv -> kv_holdable kv -> no_collision s db u p ->
  Forall (fun d => (d_user d, d_pass d) <> (u, p)) db -> deriveBucketEntryKey s u p = Ok k ->
  run_query c s (kv_Get kv) u p r = Ok (NotInBreach, None).
Proof. exact query_not_stored. Qed.
Print Assumptions C12_not_stored_not_in_breach.

(** The remaining hypothesis, that the key can be derived, fails only with the
    library: then the query reports an error, never a wrong status. *)
Theorem C12_answer_or_library_error : forall (LIB : OPRF) (cfg : Config) (key : PrivateKey LIB) (s : Server LIB) (c : Client)
    (db : list cred) (kv : kvStore) (u p : bytes) (r : Blind LIB), OPRF_laws LIB ->
  NewServer {| sc_config := cfg; sc_privateKey := key |} = Ok s -> NewClient LIB cfg = Ok c -> (cfg_version cfg < 2 ^ 16)%N ->
  (0 <= cfg_bits cfg <= 32)%Z -> (blen u <= 65536)%Z -> (blen p <= 65536)%Z ->
  store_all s newKVStore db = Ok kv -> kv_holdable kv -> no_collision s db u p ->
  run_query c s (kv_Get kv) u p r = Ok (expected db u p)
  \/ exists m m', run_query c s (kv_Get kv) u p r = Err m /\ deriveBucketEntryKey s u p = Err m'.
Proof. exact query_total. Qed.
Print Assumptions C12_answer_or_library_error.

Example C12_example :
  @run_query toy_OPRF ex_client ex_server (kv_Get ex_kv) (str "alice") (str "pw1") 9%N = Ok (NotInBreach, None)
  /\ Forall (fun d => (d_user d, d_pass d) <> (str "alice", str "pw1")) ex_db
  /\ exists k, deriveBucketEntryKey ex_server (str "alice") (str "pw1") = Ok k.
Proof.
  split; [vm_compute; reflexivity|]. split; [repeat constructor; discriminate|]. eexists. vm_compute. reflexivity.
Qed.

(** ** C13, second part: storing under a flag. *)
Theorem C13_unknown_flag_is_refused : forall (LIB : OPRF) (s : Server LIB) (u p : bytes) (f : byte) (m : bytes),
  (4 <= bN f)%N -> exists e, EncryptBucketEntry s u p f m = Err e.
Proof. exact encrypt_bad_flag. Qed.
Print Assumptions C13_unknown_flag_is_refused.

Theorem C13_known_flag_is_stored : forall (LIB : OPRF) (s : Server LIB) (u p : bytes) (f : byte) (m k : bytes),
  (bN f < 4)%N -> deriveBucketEntryKey s u p = Ok k -> (blen m <= 8160)%Z ->
  EncryptBucketEntry s u p f m = Ok (entry_bytes (make_entry k f m)).
Proof. exact encrypt_good_flag. Qed.
Print Assumptions C13_known_flag_is_stored.

Theorem C13_stored_means_known : forall (LIB : OPRF) (s : Server LIB) (u p : bytes) (f : byte) (m ct : bytes),
  EncryptBucketEntry s u p f m = Ok ct ->
  (bN f < 4)%N /\ (blen m <= 8160)%Z /\
  exists k, deriveBucketEntryKey s u p = Ok k /\ ct = entry_bytes (make_entry k f m).
Proof. exact encrypt_inv. Qed.
Print Assumptions C13_stored_means_known.

Example C13_example : (exists e, EncryptBucketEntry ex_server (str "alice") (str "pw") Byte.x04 [] = Err e)
  /\ exists ct, EncryptBucketEntry ex_server (str "alice") (str "pw") Byte.x00 [] = Ok ct.
Proof. split; [eexists; vm_compute; reflexivity|]. eexists. vm_compute. reflexivity. Qed.

(** ** C23: constructors. *)
Theorem C23_new_client_iff : forall (LIB : OPRF) (cfg : Config),
  (exists c, NewClient LIB cfg = Ok c) <->
  cfg_bucketHasher cfg = 1%N /\ (cfg_slowHasher cfg = 0%N \/ cfg_slowHasher cfg = 1%N) /\ cfg_bucketEncryptor cfg = 1%N
  /\ client_suite LIB (cfg_oprfSuite cfg) = Ok tt.
Proof. exact NewClient_iff. Qed.
Print Assumptions C23_new_client_iff.

Theorem C23_new_server_iff : forall (LIB : OPRF) (cfg : ServerConfig LIB),
  (exists s, NewServer cfg = Ok s) <->
  let c := sc_config cfg in
  cfg_bucketHasher c = 1%N /\ (cfg_slowHasher c = 0%N \/ cfg_slowHasher c = 1%N) /\ cfg_bucketEncryptor c = 1%N
  /\ server_suite LIB (cfg_oprfSuite c) (sc_privateKey cfg) = Ok tt.
Proof. exact NewServer_iff. Qed.
Print Assumptions C23_new_server_iff.

Theorem C23_config_reported_back : forall (LIB : OPRF) (cfg : ServerConfig LIB) (s : Server LIB),
  NewServer cfg = Ok s -> Server_Config s = cfg.
Proof. exact NewServer_Config. Qed.
Print Assumptions C23_config_reported_back.

(** The bit size is not checked by the constructors: any value is accepted,
    and outside 0..32 every bucket ID panics. *)
Theorem C23_bit_size_not_validated_refuted : forall (LIB : OPRF) (cfg : ServerConfig LIB) (s : Server LIB) (bits : Z),
  NewServer cfg = Ok s ->
  exists s' : Server LIB,
    NewServer {| sc_config := {| cfg_version := cfg_version (sc_config cfg); cfg_bits := bits;
                                 cfg_bucketHasher := cfg_bucketHasher (sc_config cfg);
                                 cfg_slowHasher := cfg_slowHasher (sc_config cfg);
                                 cfg_bucketEncryptor := cfg_bucketEncryptor (sc_config cfg);
                                 cfg_oprfSuite := cfg_oprfSuite (sc_config cfg) |};
                 sc_privateKey := sc_privateKey cfg |} = Ok s'
    /\ ((bits < 0 \/ 32 < bits)%Z -> forall u, exists m, Server_BucketID s' u = Panic m).
Proof. exact bit_size_unchecked. Qed.
Print Assumptions C23_bit_size_not_validated_refuted.

Example C23_example : NewServer {| sc_config := ex_cfg; sc_privateKey := toy_key 3 |} = Ok ex_server
  /\ (forall c, NewClient toy_OPRF {| cfg_version := 1; cfg_bits := 20; cfg_bucketHasher := 1; cfg_slowHasher := 2;
                                 cfg_bucketEncryptor := 1; cfg_oprfSuite := 3 |} <> Ok c).
Proof. split; [reflexivity|]. intros c. vm_compute. discriminate. Qed.

(** ** C37: the request hides the credential.  For every family of prime-order
    groups; the draws 0 .. q-2 stand for the q-1 non-zero scalars. *)
Theorem C37_request_hides_credential : forall groups : N -> option group,
  (forall s g, groups s = Some g -> group_laws g) ->
  forall (cfg : Config) (c : Client) (g : group) (u p u' p' : bytes) (r : N) rq ctx,
  NewClient (group_OPRF groups) cfg = Ok c -> groups (cfg_oprfSuite cfg) = Some g ->
  Client_BucketID c u = Client_BucketID c u' -> (blen u' <= 65536)%Z -> (blen p' <= 65536)%Z ->
  (Z.of_N r < g_q g - 1)%Z -> @Request (group_OPRF groups) c u p r = Ok (rq, ctx) ->
  exists r', (Z.of_N r' < g_q g - 1)%Z /\ (exists ctx', @Request (group_OPRF groups) c u' p' r' = Ok (rq, ctx'))
    /\ forall r'', (Z.of_N r'' < g_q g - 1)%Z ->
         (exists ctx'', @Request (group_OPRF groups) c u' p' r'' = Ok (rq, ctx'')) -> r'' = r'.
Proof. exact request_hiding. Qed.
Print Assumptions C37_request_hides_credential.

Example C37_example :
  match request_of (str "alice") (str "pw") 5, request_of (str "alice") (str "other") 54 with
  | Some rq, Some rq' => rq = rq' /\ (54 < 250)%N
  | _, _ => False
  end.
Proof. vm_compute. split; reflexivity. Qed.

(** ** C38: the client derives the key the entry was encrypted under. *)
Theorem C38_client_derives_entry_key : forall (LIB : OPRF) (cfg : Config) (key : PrivateKey LIB) (s : Server LIB) (c : Client)
    (u p : bytes) (r : Blind LIB) rq (ctx : ClientRequestContext LIB) (kv : Getter) resp, OPRF_laws LIB ->
  NewServer {| sc_config := cfg; sc_privateKey := key |} = Ok s -> NewClient LIB cfg = Ok c -> (cfg_version cfg < 2 ^ 16)%N ->
  Request c u p r = Ok (rq, ctx) -> HandleRequest s rq kv = Ok resp ->
  exists k, deriveBucketEntryKey s u p = Ok k /\ client_secret ctx resp k.
Proof. exact oprf_agreement. Qed.
Print Assumptions C38_client_derives_entry_key.

(** For every family of prime-order groups, with no assumption but the group
    laws: evaluation, unblinding and direct evaluation agree for every input,
    key, blind and info with an invertible tweaked key. *)
Theorem C38_group_oprf_correct : forall groups : N -> option group,
  (forall s g, groups s = Some g -> group_laws g) ->
  forall (s : N) (g : group) (k : PrivateKey (group_OPRF groups)) (x : bytes) (r : N) (b : bytes),
  groups s = Some g -> server_suite (group_OPRF groups) s k = Ok tt -> blind (group_OPRF groups) s [x] [r] = Ok [b] ->
  forall info, ((snd k + g_tweak g info) mod g_q g <> 0)%Z ->
  exists e y, evaluate (group_OPRF groups) s k [b] info = Ok [e] /\ unblind (group_OPRF groups) s [x] [r] [e] info = Ok [y]
    /\ full_evaluate (group_OPRF groups) s k x info = Ok y.
Proof. exact group_agreement. Qed.
Print Assumptions C38_group_oprf_correct.

(** The assumptions on the library hold for every such family whose default
    suite has 33-byte elements. *)
Theorem C38_library_laws_hold_for_groups : forall groups : N -> option group,
  (forall s g, groups s = Some g -> group_laws g) -> (exists g, groups 3%N = Some g /\ g_len g = 33%nat) ->
  OPRF_laws (group_OPRF groups).
Proof. exact group_OPRF_laws. Qed.
Print Assumptions C38_library_laws_hold_for_groups.

Example C38_example : deriveBucketEntryKey ex_server (str "alice") (str "pw") = Ok ex_secret
  /\ client_secret ex_ctx (ex_resp []) ex_secret.
Proof. split; [vm_compute; reflexivity|]. exact (proj1 (C08_example [])). Qed.

(** ** C01: what both sides hash. *)

(** Client and server feed the slow hash with the one readable form of the
    credential, and the OPRF with the result. *)
Theorem C01_both_sides_hash_the_credential : forall (LIB : OPRF) (s : Server LIB) (c : Client) (u p : bytes),
  (blen u <= 65535)%Z -> (blen p <= 65535)%Z ->
  exists code, read_credential code = Some (u, p) /\
    (forall r rq ctx, Request c u p r = Ok (rq, ctx) ->
       exists x b bs, SlowHasher_Hash (c_slowHasher c) code = Ok x /\ blind LIB (c_oprfSuite c) [x] [r] = Ok (b :: bs) /\
         rq_blindElement rq = Some b /\ ctx_inputs ctx = [x]) /\
    (forall k, deriveBucketEntryKey s u p = Ok k <->
       exists x, SlowHasher_Hash (s_slowHasher s) code = Ok x /\
         full_evaluate LIB (s_oprfSuite s) (s_privateKey s) x (str "MIGP oprf info") = Ok k).
Proof.
  intros LIB s c u p Hu Hp. destruct (serialize_readable u p Hu Hp) as (code & E & R). exists code. split; [exact R|].
  split.
  - intros r rq ctx. unfold Request. rewrite E. cbn [bind].
    destruct (SlowHasher_Hash (c_slowHasher c) code) as [x| |]; cbn [bind]; try discriminate.
    destruct (blind LIB (c_oprfSuite c) [x] [r]) as [[|b bs]| |] eqn:Eb; cbn [bind]; try discriminate.
    destruct (Client_BucketID c u) as [id| |]; cbn [bind]; try discriminate.
    intros X. apply Ok_inj in X. apply pair_inj in X as [<- <-]. exists x, b, bs. repeat split; assumption || reflexivity.
  - intros k. unfold deriveBucketEntryKey. rewrite E. cbn [bind].
    destruct (SlowHasher_Hash (s_slowHasher s) code) as [x| |]; cbn [bind].
    + split; [intros H; exists x; split; [reflexivity|exact H]|].
      intros (x' & Ex & H). apply Ok_inj in Ex. subst x'. exact H.
    + split; [discriminate|]. intros (x & Ex & _). discriminate.
    + split; [discriminate|]. intros (x & Ex & _). discriminate.
Qed.
Print Assumptions C01_both_sides_hash_the_credential.

(** Without a slow hash, different credentials give the OPRF different inputs. *)
Theorem C01_oprf_inputs_differ : forall (LIB : OPRF) (c : Client) (u p u' p' : bytes) r r' rq rq' (ctx ctx' : ClientRequestContext LIB),
  (blen u <= 65535)%Z -> (blen p <= 65535)%Z -> (blen u' <= 65535)%Z -> (blen p' <= 65535)%Z ->
  c_slowHasher c = nullSlowHasher ->
  Request c u p r = Ok (rq, ctx) -> Request c u' p' r' = Ok (rq', ctx') ->
  ctx_inputs ctx = ctx_inputs ctx' -> u = u' /\ p = p'.
Proof.
  intros LIB c u p u' p' r r' rq rq' ctx ctx' Hu Hp Hu' Hp' Hn H H' E.
  destruct (serialize_readable u p Hu Hp) as (code & Es & R). destruct (serialize_readable u' p' Hu' Hp') as (code' & Es' & R').
  revert H H'. unfold Request. rewrite Es, Es', Hn. cbn [bind SlowHasher_Hash].
  destruct (blind LIB (c_oprfSuite c) [code] [r]) as [[|b bs]| |]; cbn [bind]; try discriminate.
  destruct (blind LIB (c_oprfSuite c) [code'] [r']) as [[|b' bs']| |]; cbn [bind]; try discriminate.
  destruct (Client_BucketID c u) as [id| |]; cbn [bind]; try discriminate.
  destruct (Client_BucketID c u') as [id'| |]; cbn [bind]; try discriminate.
  intros X X'. apply Ok_inj in X, X'. apply pair_inj in X as [_ <-]. apply pair_inj in X' as [_ <-].
  cbn [ctx_inputs] in E. injection E as E. subst code'. rewrite R in R'. injection R' as -> ->. auto.
Qed.
Print Assumptions C01_oprf_inputs_differ.
Example C01_inputs_example : c_slowHasher ex_client = nullSlowHasher /\ (blen (str "ab") <= 65535)%Z /\
  match Request ex_client (str "ab") (str "c") (5%N : Blind toy_OPRF) with Ok _ => True | _ => False end.
Proof. split; [reflexivity|]. split; [discriminate|]. vm_compute. exact I. Qed.
