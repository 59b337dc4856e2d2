(** * Properties C24-C28: JSON configuration, the HTTP endpoints and Query
    (pkg/migp/common.go:44-51, pkg/migp/server.go:41-102,
    pkg/migp/client.go:157-198, cmd/server/server.go:90-137,
    cmd/client/main.go:34-62).

    [wf_config iw c] says that [c] is a value of the Go type: uint16 fields and
    an [iw]-bit int.  [ws] is white space that may follow a document (a file's
    last newline). *)
From Verif Require Import Base BaseProofs Common Json Oprf OprfGroup Server Client KV ConfigJson Scanner Demo
  SpecEntry SpecProtocol SpecHttp ProtocolProofs JsonGrammar HttpProofs PropFinalize PropProtocol.

(** ** C24: configurations survive their JSON form. *)
Theorem C24_config_roundtrip : forall (iw : Z) (c : Config) (ws : bytes),
  wf_config iw c -> json_space ws -> Config_unmarshal iw (Config_marshal c ++ ws) = Ok c.
Proof. exact config_roundtrip_spec. Qed.
Print Assumptions C24_config_roundtrip.

Theorem C24_server_config_roundtrip : forall (LIB : OPRF) (iw : Z) (c : ServerConfig LIB) (ws : bytes),
  OPRF_laws LIB -> wf_config iw (sc_config c) -> json_space ws ->
  server_suite LIB (cfg_oprfSuite (sc_config c)) (sc_privateKey c) = Ok tt ->
  exists data, ServerConfig_MarshalJSON c = Ok data /\ ServerConfig_UnmarshalJSON LIB iw (data ++ ws) = Ok c.
Proof. exact server_config_roundtrip_spec. Qed.
Print Assumptions C24_server_config_roundtrip.

(** Different configurations have different JSON forms. *)
Theorem C24_config_json_injective : forall (iw : Z) (c c' : Config),
  wf_config iw c -> wf_config iw c' -> Config_marshal c = Config_marshal c' -> c = c'.
Proof. exact config_marshal_inj. Qed.
Print Assumptions C24_config_json_injective.

Example C24_example :
  let c := mkConfig 65535 (- 2 ^ 63) 1 0 1 3 in
  wf_config 64 c /\ json_space [Byte.x0a]
  /\ Config_marshal c = str "{""version"":65535,""bucketIDBitSize"":-9223372036854775808,""bucketHasher"":1,""slowHasher"":0,""bucketEncryptor"":1,""oprfSuite"":3}"
  /\ Config_unmarshal 64 (Config_marshal c ++ [Byte.x0a]) = Ok c
  /\ match @ServerConfig_MarshalJSON toy_OPRF {| sc_config := ex_cfg; sc_privateKey := toy_key 3 |} with
     | Ok d => match ServerConfig_UnmarshalJSON toy_OPRF 64 d with
               | Ok c' => sc_config c' = ex_cfg /\ sc_privateKey c' = toy_key 3
               | _ => False
               end
     | _ => False
     end.
Proof.
  split; [vm_compute; repeat split; discriminate|]. split; [intros c [<-|[]]; right; right; left; reflexivity|].
  split; [vm_compute; reflexivity|]. split; [vm_compute; reflexivity|]. vm_compute. split; reflexivity.
Qed.

(** ** C25: a server restored from its dump. *)
Theorem C25_dump_restores : forall (LIB : OPRF) (iw : Z) (cfg : ServerConfig LIB) (s : Server LIB) (ws : bytes),
  OPRF_laws LIB -> NewServer cfg = Ok s -> wf_config iw (sc_config cfg) -> json_space ws ->
  exists data cfg', ServerConfig_MarshalJSON (Server_Config s) = Ok data /\
    ServerConfig_UnmarshalJSON LIB iw (data ++ ws) = Ok cfg' /\ NewServer cfg' = Ok s.
Proof. exact restored_spec. Qed.
Print Assumptions C25_dump_restores.

Theorem C25_restored_server_is_interchangeable :
  forall (LIB : OPRF) (iw : Z) (cfg cfg' : ServerConfig LIB) (s s' : Server LIB) (data ws : bytes),
  OPRF_laws LIB -> NewServer cfg = Ok s -> wf_config iw (sc_config cfg) -> json_space ws ->
  ServerConfig_MarshalJSON (Server_Config s) = Ok data ->
  ServerConfig_UnmarshalJSON LIB iw (data ++ ws) = Ok cfg' -> NewServer cfg' = Ok s' ->
  (forall u p f m, EncryptBucketEntry s' u p f m = EncryptBucketEntry s u p f m)
  /\ (forall u, Server_BucketID s' u = Server_BucketID s u)
  /\ (forall rq kv, HandleRequest s' rq kv = HandleRequest s rq kv)
  /\ Server_Config s' = Server_Config s.
Proof. exact restored_interchangeable. Qed.
Print Assumptions C25_restored_server_is_interchangeable.

Theorem C25_restored_server_finds_the_entries :
  forall (LIB : OPRF) (iw : Z) (cfg : Config) (key : PrivateKey LIB) (cfg' : ServerConfig LIB) (s s' : Server LIB) (c : Client)
    (data ws : bytes) (db : list cred) (kv : kvStore) (u p : bytes) (r : Blind LIB) (f : byte) (m : bytes) (before after : list cred),
  OPRF_laws LIB -> NewServer {| sc_config := cfg; sc_privateKey := key |} = Ok s -> NewClient LIB cfg = Ok c ->
  wf_config iw cfg -> json_space ws ->
  ServerConfig_MarshalJSON (Server_Config s) = Ok data ->
  ServerConfig_UnmarshalJSON LIB iw (data ++ ws) = Ok cfg' -> NewServer cfg' = Ok s' ->
  db = before ++ mkCred u p f m :: after -> Forall (fun d => (d_user d, d_pass d) <> (u, p)) before ->
  store_all s newKVStore db = Ok kv -> kv_holdable kv -> no_collision s db u p ->
  run_query c s' (kv_Get kv) u p r = Ok (flag_status f, Some m).
Proof. exact restored_finds. Qed.
Print Assumptions C25_restored_server_finds_the_entries.

Example C25_example : wf_config 64 ex_cfg
  /\ match ServerConfig_MarshalJSON (Server_Config ex_server) with
     | Ok d => match ServerConfig_UnmarshalJSON toy_OPRF 64 (d ++ [Byte.x0a]) with
               | Ok cfg' => match NewServer cfg' with
                            | Ok s' => @run_query toy_OPRF ex_client s' (kv_Get ex_kv) (str "alice") (str "pw") 9%N
                                       = Ok (UsernameInBreach, Some (str "first"))
                            | _ => False
                            end
               | _ => False
               end
     | _ => False
     end.
Proof. split; [vm_compute; repeat split; discriminate|]. vm_compute. reflexivity. Qed.

(** ** C26: the /config endpoint.  The servers may even use different OPRF
    libraries and different private keys. *)
Theorem C26_config_endpoint_independent_of_key : forall (LIB LIB' : OPRF) (s : server LIB) (s' : server LIB'),
  sc_config (Server_Config (migpServer s)) = sc_config (Server_Config (migpServer s')) ->
  handleConfig s = handleConfig s'.
Proof. exact config_endpoint_indep. Qed.
Print Assumptions C26_config_endpoint_independent_of_key.

Theorem C26_client_obtains_the_configuration : forall (LIB : OPRF) (iw : Z) (cfg : ServerConfig LIB) (s : server LIB),
  newServer cfg = Ok s -> wf_config iw (sc_config cfg) ->
  exists w body, handler s (str "/config") (Ok []) = Ok w /\ response_of w = (200%N, body) /\
    Config_decode iw body = Ok (sc_config cfg).
Proof. exact config_endpoint. Qed.
Print Assumptions C26_client_obtains_the_configuration.

Definition toy_keyed (k : Z) : PrivateKey toy_OPRF := (3%N, k).
Definition ex_keyed (k : Z) : server toy_OPRF :=
  mkDemoServer (mkServer 1%N 20%Z Hasher.NewSHA256BucketHasher Encryptor.hkdfSHA256BucketEncryptor Hasher.nullSlowHasher 3%N (toy_keyed k))
    newKVStore.
Example C26_example :
  newServer {| sc_config := ex_cfg; sc_privateKey := toy_keyed 77 |} = Ok (ex_keyed 77)
  /\ newServer {| sc_config := ex_cfg; sc_privateKey := toy_keyed 78 |} = Ok (ex_keyed 78)
  /\ s_privateKey (migpServer (ex_keyed 77)) <> s_privateKey (migpServer (ex_keyed 78))
  /\ sc_config (Server_Config (migpServer (ex_keyed 77))) = sc_config (Server_Config (migpServer (ex_keyed 78)))
  /\ exists w, handleConfig (ex_keyed 77) = Ok w /\ response_of w = (200%N, Config_marshal ex_cfg ++ [Byte.x0a]).
Proof.
  split; [reflexivity|]. split; [reflexivity|]. split; [discriminate|]. split; [reflexivity|].
  eexists. split; reflexivity.
Qed.

(** ** C27: Query over HTTP against the protocol called directly. *)
Theorem C27_query_over_http : forall (LIB : OPRF) (scfg : ServerConfig LIB) (s : Server LIB) (cfg : Config) (c : Client)
    (store : kvStore) (host u p : bytes) (r : Blind LIB),
  plain_host host -> OPRF_laws LIB -> NewServer scfg = Ok s -> NewClient LIB cfg = Ok c ->
  cfg_oprfSuite (sc_config scfg) = 3%N -> cfg_oprfSuite cfg = 3%N -> (cfg_version cfg < 2 ^ 16)%N ->
  same_outcome (Query cfg (to_server (mkDemoServer s store) host) ((str "http://" ++ host) ++ str "/evaluate") u p r)
               (run_query c s (kv_Get store) u p r).
Proof. exact query_http. Qed.
Print Assumptions C27_query_over_http.

(** The request arrives as it was sent. *)
Theorem C27_request_json_roundtrip : forall (rq : ClientRequest) (ws : bytes),
  (rq_version rq < 2 ^ 32)%N -> ascii_only (rq_bucketID rq) -> json_space ws ->
  ClientRequest_unmarshal (ClientRequest_marshal rq ++ ws) = (rq, None).
Proof. exact request_roundtrip_spec. Qed.
Print Assumptions C27_request_json_roundtrip.

Example C27_example :
  NewServer {| sc_config := ex_cfg; sc_privateKey := toy_key 3 |} = Ok ex_server /\ NewClient toy_OPRF ex_cfg = Ok ex_client
  /\ cfg_oprfSuite ex_cfg = 3%N
  /\ @Query toy_OPRF ex_cfg (to_server (mkDemoServer ex_server ex_kv) (str "localhost:8080")) (str "http://localhost:8080/evaluate")
       (str "alice") (str "pw") 9%N = Ok (UsernameInBreach, Some (str "first")).
Proof. split; [reflexivity|]. split; [reflexivity|]. split; [reflexivity|]. vm_compute. reflexivity. Qed.

(** ** C28: what /evaluate answers. *)
Theorem C28_always_answers : forall (LIB : OPRF) (s : server LIB) (body : res bytes),
  OPRF_laws LIB -> (forall m, body <> Panic m) -> exists w, handleEvaluate s body = Ok w.
Proof. exact evaluate_total. Qed.
Print Assumptions C28_always_answers.

Theorem C28_statuses : forall (LIB : OPRF) (s : server LIB) (body : res bytes) (w : writer),
  OPRF_laws LIB -> handleEvaluate s body = Ok w -> In (fst (response_of w)) [200; 400; 500]%N.
Proof. exact evaluate_statuses. Qed.
Print Assumptions C28_statuses.

Theorem C28_status_200_iff_accepted : forall (LIB : OPRF) (s : server LIB) (body : res bytes) (w : writer),
  OPRF_laws LIB -> handleEvaluate s body = Ok w ->
  fst (response_of w) = 200%N <->
  exists data rq resp, body = Ok data /\ ClientRequest_unmarshal data = (rq, None)
    /\ HandleRequest (migpServer s) rq (kv_Get (kv s)) = Ok resp.
Proof. exact evaluate_200_iff. Qed.
Print Assumptions C28_status_200_iff_accepted.

Theorem C28_status_400_iff_unreadable : forall (LIB : OPRF) (s : server LIB) (body : res bytes) (w : writer),
  OPRF_laws LIB -> handleEvaluate s body = Ok w ->
  fst (response_of w) = 400%N <->
  (exists e, body = Err e) \/ exists data rq e, body = Ok data /\ ClientRequest_unmarshal data = (rq, Some e).
Proof. exact evaluate_400_iff. Qed.
Print Assumptions C28_status_400_iff_unreadable.

Theorem C28_status_500_iff_refused : forall (LIB : OPRF) (s : server LIB) (body : res bytes) (w : writer),
  OPRF_laws LIB -> handleEvaluate s body = Ok w ->
  fst (response_of w) = 500%N <->
  exists data rq e, body = Ok data /\ ClientRequest_unmarshal data = (rq, None)
    /\ HandleRequest (migpServer s) rq (kv_Get (kv s)) = Err e.
Proof. exact evaluate_500_iff. Qed.
Print Assumptions C28_status_500_iff_refused.

(** The whole answer to a request printed by json.Marshal; which requests
    HandleRequest refuses is C19 and C20. *)
Theorem C28_answer_to_a_request : forall (LIB : OPRF) (s : server LIB) (rq : ClientRequest) (ws : bytes),
  OPRF_laws LIB -> (rq_version rq < 2 ^ 32)%N -> ascii_only (rq_bucketID rq) -> json_space ws ->
  exists w, handleEvaluate s (Ok (ClientRequest_marshal rq ++ ws)) = Ok w /\
  response_of w = match HandleRequest (migpServer s) rq (kv_Get (kv s)) with
                  | Ok resp => (200%N, answer_bytes resp)
                  | _ => (500%N, internal_error)
                  end.
Proof. exact evaluate_sent_spec. Qed.
Print Assumptions C28_answer_to_a_request.

(** Bytes that are not JSON (or are too deeply nested): two error pages and
    no bucket. *)
Theorem C28_not_json : forall (LIB : OPRF) (s : server LIB) (data : bytes),
  (forall j, json_document data j -> (10000 < nesting j)%N) -> s_version (migpServer s) <> 0%N ->
  exists w, handleEvaluate s (Ok data) = Ok w /\ response_of w = (400%N, bad_request ++ internal_error).
Proof. exact (fun LIB s data N => evaluate_not_json LIB s data (no_document data N)). Qed.
Print Assumptions C28_not_json.

(** The handler does not stop after a JSON error: each request the server
    accepts also has a form that is answered with status 400 and, after the
    error page, with the whole response. *)
Theorem C28_evaluated_despite_type_error : forall (LIB : OPRF) (s : server LIB) (rq : ClientRequest) (resp : ServerResponse),
  (rq_version rq < 2 ^ 32)%N -> ascii_only (rq_bucketID rq) ->
  HandleRequest (migpServer s) rq (kv_Get (kv s)) = Ok resp ->
  exists data e w, ClientRequest_unmarshal data = (rq, Some e) /\ handleEvaluate s (Ok data) = Ok w /\
    response_of w = (400%N, bad_request ++ answer_bytes resp).
Proof. exact despite_type_error_spec. Qed.
Print Assumptions C28_evaluated_despite_type_error.

Definition ex_post (data : string) : option (N * bytes) :=
  match handleEvaluate (mkDemoServer ex_server ex_kv) (Ok (str data)) with Ok w => Some (response_of w) | _ => None end.
Example C28_example :
  (forall j, json_document (str "hello") j -> (10000 < nesting j)%N) /\ ex_post "hello" = Some (400%N, bad_request ++ internal_error)
  /\ ex_post "{""version"":2,""bucketID"":""00000000"",""blindElement"":""AAAA""}" = Some (500%N, internal_error)
  /\ match request_of (str "alice") (str "pw") 5 with
     | Some rq => match HandleRequest ex_server rq (kv_Get ex_kv) with
                  | Ok resp => ascii_only (rq_bucketID rq) /\ rs_bucketContents resp <> None
                  | _ => False
                  end
     | None => False
     end.
Proof.
  split; [apply parse_none_document; vm_compute; reflexivity|]. split; [vm_compute; reflexivity|]. split; [vm_compute; reflexivity|].
  vm_compute. split; [|discriminate]. intros c H. repeat (destruct H as [<-|H]; [reflexivity|]). contradiction.
Qed.
