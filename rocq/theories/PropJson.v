(** * Properties C53-C55: what the programs read from JSON
    (pkg/migp/common.go:44-51, pkg/migp/server.go:41-70, pkg/migp/client.go:30-34,
    pkg/mutator/rdasmutator.go:31-50, cmd/server/server.go:105-124,
    cmd/client/main.go:34-62; encoding/json and encoding/base64).

    [SpecJson] gives the grammar of RFC 8259 and [SpecDecode] the rules by
    which the members of an object fill a record. *)
From Verif Require Import Base BaseProofs Common Oprf OprfGroup Server Client KV Mutator Json ConfigJson Demo
  SpecHttp SpecJson SpecDecode SpecProtocol JsonGrammar DecodeProofs HttpProofs PropFinalize PropProtocol PropHttp.

(** ** C53: the reader accepts exactly the documents of the grammar, with at
    most 10000 brackets open at once, and each has one value. *)
Theorem C53_reader_accepts_the_grammar : forall (s : bytes) (j : json),
  json_parse s = Some j <-> json_document s j /\ (nesting j <= 10000)%N.
Proof. exact json_parse_grammar. Qed.
Print Assumptions C53_reader_accepts_the_grammar.

Theorem C53_one_value : forall (s : bytes) (j k : json), json_accepted s j -> json_accepted s k -> j = k.
Proof. exact accepted_unique. Qed.
Print Assumptions C53_one_value.

(** Base 64 as in RFC 4648, up to line ends and unused bits. *)
Theorem C53_base64 : forall s b : bytes, Base64.b64_decode s = Some b <-> base64 s b.
Proof. exact base64_spec. Qed.
Print Assumptions C53_base64.

Example C53_example :
  json_parse (str " [1e5, ""\ud83d\ude00\ud800"" , {""a"":-0.5, ""a"":null}]") =
    Some (JArr [JNum (str "1e5"); JStr [Byte.xf0; Byte.x9f; Byte.x98; Byte.x80; Byte.xef; Byte.xbf; Byte.xbd];
                JObj [(str "a", JNum (str "-0.5")); (str "a", JNull)]])
  /\ json_parse (str "[1,]") = None /\ json_parse (str "01") = None /\ json_parse (str "1.") = None /\ json_parse (str "{} {}") = None
  /\ json_parse (str """\x""") = None /\ json_parse [Byte.x22; Byte.x0a; Byte.x22] = None
  /\ (exists j, json_accepted (str "[{}]") j) /\ ~ (exists j, json_accepted (str "[1,]") j)
  /\ base64 (str "AQ==") [Byte.x01] /\ base64 (str "AR==") [Byte.x01].
Proof.
  do 7 (split; [vm_compute; reflexivity|]). split; [|split; [|split]].
  - exists (JArr [JObj []]). apply json_parse_grammar. vm_compute. reflexivity.
  - intros (j & J). apply json_parse_grammar in J. vm_compute in J. discriminate J.
  - apply base64_spec. vm_compute. reflexivity.
  - apply base64_spec. vm_compute. reflexivity.
Qed.

(** ** C54: which bodies are requests.  The server decodes a body without
    error exactly when it is a document that describes a request. *)
Theorem C54_request_decoding : forall (data : bytes) (rq : ClientRequest),
  ClientRequest_unmarshal data = (rq, None) <->
  exists j, json_accepted data j /\ record_of describes_request (mkClientRequest 0 [] None) j rq.
Proof. exact request_unmarshal_spec. Qed.
Print Assumptions C54_request_decoding.

(** It answers 200 with a bucket exactly for documents that describe a request
    which [HandleRequest] accepts, *)
Theorem C54_answered_bodies : forall (LIB : OPRF), OPRF_laws LIB -> forall (s : server LIB) (data body : bytes),
  (exists w, handleEvaluate s (Ok data) = Ok w /\ response_of w = (200%N, body)) <->
  exists j rq resp, json_accepted data j /\ record_of describes_request (mkClientRequest 0 [] None) j rq
    /\ HandleRequest (migpServer s) rq (kv_Get (kv s)) = Ok resp /\ body = answer_bytes resp.
Proof. exact answered_bodies. Qed.
Print Assumptions C54_answered_bodies.

(** 500 for documents that describe a request which it refuses, *)
Theorem C54_refused_bodies : forall (LIB : OPRF), OPRF_laws LIB -> forall (s : server LIB) (data : bytes),
  (exists w, handleEvaluate s (Ok data) = Ok w /\ fst (response_of w) = 500%N) <->
  exists j rq e, json_accepted data j /\ record_of describes_request (mkClientRequest 0 [] None) j rq
    /\ HandleRequest (migpServer s) rq (kv_Get (kv s)) = Err e.
Proof. exact refused_bodies. Qed.
Print Assumptions C54_refused_bodies.

(** and 400 for everything else. *)
Theorem C54_bad_bodies : forall (LIB : OPRF), OPRF_laws LIB -> forall (s : server LIB) (data : bytes),
  (exists w, handleEvaluate s (Ok data) = Ok w /\ fst (response_of w) = 400%N) <->
  ~ exists j rq, json_accepted data j /\ record_of describes_request (mkClientRequest 0 [] None) j rq.
Proof. exact bad_bodies. Qed.
Print Assumptions C54_bad_bodies.

(** A field of bytes has the value of the last member of its name, provided
    that no array for it contains null. *)
Theorem C54_last_bytes_count : forall (name : bytes) (ms : list (bytes * json)) (b : gslice),
  Forall (fun c => (bN c < 128)%N) name ->
  (forall k l, In (k, JArr l) ms -> names_field name k -> ~ In JNull l) ->
  (bytes_field name ms b <-> field name never reads_bytes None ms b).
Proof. intros name ms b A H. apply (fills_plain name A ms H). Qed.
Print Assumptions C54_last_bytes_count.

(** Otherwise a byte of an earlier member can reappear, even one that a member
    in between has cut off. *)
Theorem C54_null_revives_a_byte_refuted :
  ClientRequest_unmarshal (str "{""blindElement"":""AQID"",""blindElement"":[7],""blindElement"":[null,null,null,null]}")
    = (mkClientRequest 0 [] (Some [Byte.x07; Byte.x02; Byte.x03; Byte.x00]), None).
Proof. vm_compute. reflexivity. Qed.
Print Assumptions C54_null_revives_a_byte_refuted.

(** Names in any letter case, extra members, repeated members (the last one
    counts), null, bytes as numbers. *)
Example C54_example :
  ClientRequest_unmarshal (str "{""VERSION"":7,""x"":[1],""bucketid"":""00"",""bucketID"":""0a"",""version"":null,""blindElement"":""AQ=="",""BlindElement"":[1,null,255]}")
    = (mkClientRequest 7 (str "0a") (Some [Byte.x01; Byte.x00; Byte.xff]), None)
  /\ ClientRequest_unmarshal (str "{""ver" ++ [Byte.xc5; Byte.xbf] ++ str "ion"":7}") = (mkClientRequest 7 [] None, None)
  /\ ClientRequest_unmarshal (str "null") = (mkClientRequest 0 [] None, None)
  /\ snd (ClientRequest_unmarshal (str "{""version"":4294967296}")) <> None
  /\ snd (ClientRequest_unmarshal (str "{""version"":1.0}")) <> None
  /\ snd (ClientRequest_unmarshal (str "{""version"":""1""}")) <> None.
Proof. vm_compute. repeat split; discriminate. Qed.
Example C54_names :
  names_field (str "version") (str "VeRsion") /\ ~ names_field (str "version") (str "versions")
  /\ ~ names_field (str "version") (str "bucketID").
Proof.
  split; [|split].
  - apply fold_eq_names; [apply ascii_name; reflexivity|reflexivity].
  - intros H. apply fold_eq_names in H; [discriminate H|apply ascii_name; reflexivity].
  - intros H. apply fold_eq_names in H; [discriminate H|apply ascii_name; reflexivity].
Qed.

(** ** C55: which texts are configurations and rule tables. *)
Theorem C55_config_decoding : forall (iw : Z) (data : bytes) (c : Config),
  Config_unmarshal iw data = Ok c <->
  exists j, json_accepted data j /\ record_of (describes_config iw) (mkConfig 0 0 0 0 0 0) j c.
Proof. exact config_unmarshal_spec. Qed.
Print Assumptions C55_config_decoding.

(** From the network only the first value is read. *)
Theorem C55_config_from_a_stream : forall (iw : Z) (data : bytes) (c : Config),
  Config_decode iw data = Ok c <->
  exists w x rest j, data = w ++ x ++ rest /\ json_space w /\ json_text x j /\ (nesting j <= 10000)%N
    /\ record_of (describes_config iw) (mkConfig 0 0 0 0 0 0) j c.
Proof. exact config_decode_spec. Qed.
Print Assumptions C55_config_from_a_stream.

Theorem C55_server_config_decoding : forall (LIB : OPRF) (iw : Z) (data : bytes) (c : ServerConfig LIB),
  ServerConfig_UnmarshalJSON LIB iw data = Ok c <->
  exists j k, json_accepted data j
    /\ record_of (fun ms ck => describes_config iw ms (fst ck) /\ describes_key ms (snd ck)) (mkConfig 0 0 0 0 0 0, None) j (sc_config c, k)
    /\ key_parse LIB (cfg_oprfSuite (sc_config c)) (sl k) = Ok (sc_privateKey c).
Proof. exact server_config_unmarshal_spec. Qed.
Print Assumptions C55_server_config_decoding.

Theorem C55_rule_table_decoding : forall (text : bytes) (rules : list RDasRule),
  rules_unmarshal text = Ok rules <->
  exists j, json_accepted text j
    /\ ((j = JNull /\ rules = []) \/ exists l, j = JArr l /\ Forall2 (record_of describes_rule (mkRule [] 0 [] [])) l rules).
Proof. exact rules_unmarshal_spec. Qed.
Print Assumptions C55_rule_table_decoding.

(** A missing member is not an error: the field keeps its zero value, so an
    empty object is a configuration of version 0 with bucket size 0. *)
Theorem C55_missing_members_are_zero : forall (iw : Z) (ws ws' : bytes), json_space ws -> json_space ws' ->
  Config_unmarshal iw (ws ++ str "{}" ++ ws') = Ok (mkConfig 0 0 0 0 0 0).
Proof. exact empty_object_config. Qed.
Print Assumptions C55_missing_members_are_zero.

(** In particular a configuration that does not mention the slow hasher is
    accepted, and its clients blind the username and password themselves
    instead of their scrypt hash. *)
Theorem C55_unmentioned_slow_hasher_is_none : forall (LIB : OPRF) (iw : Z) (data : bytes) (ms : list (bytes * json)) (cfg : Config) (c : Client)
    (u p : bytes) (r : Blind LIB) (rq : ClientRequest) (ctx : ClientRequestContext LIB),
  json_accepted data (JObj ms) -> (forall k x, In (k, x) ms -> ~ names_field (str "slowHasher") k) ->
  Config_unmarshal iw data = Ok cfg -> NewClient LIB cfg = Ok c -> Request c u p r = Ok (rq, ctx) ->
  cfg_slowHasher cfg = 0%N /\ exists input, serializeUsernamePassword u p = Ok input /\ ctx_inputs ctx = [input].
Proof. exact no_slow_hash. Qed.
Print Assumptions C55_unmentioned_slow_hasher_is_none.

Definition ex_bare : bytes := str "{""version"":1,""bucketIDBitSize"":16,""bucketHasher"":1,""bucketEncryptor"":1,""oprfSuite"":3}".
Example C55_bare_example :
  (exists ms, json_accepted ex_bare (JObj ms) /\ forall k x, In (k, x) ms -> ~ names_field (str "slowHasher") k)
  /\ Config_unmarshal 64 ex_bare = Ok (mkConfig 1 16 1 0 1 3)
  /\ match NewClient toy_OPRF (mkConfig 1 16 1 0 1 3) with Ok c => match @Request toy_OPRF c (str "u") (str "p") 5%N with Ok _ => True | _ => False end | _ => False end.
Proof.
  split; [|split; [vm_compute; reflexivity|vm_compute; exact I]].
  destruct (json_parse ex_bare) as [[| | | | |ms]|] eqn:E; try (vm_compute in E; discriminate E). exists ms. split; [apply json_parse_grammar, E|].
  vm_compute in E. inversion E as [E']. subst ms. clear E. intros k x H N'. apply fold_eq_names in N'; [|apply ascii_name; reflexivity].
  repeat (destruct H as [H|H]; [apply pair_inj in H as [<- _]; discriminate N'|]). exact H.
Qed.

Example C55_example :
  Config_unmarshal 64 (str "{""version"":1,""bucketIDBitSize"":-20,""slowHasher"":2}") = Ok (mkConfig 1 (-20) 0 2 0 0)
  /\ (exists e, Config_unmarshal 64 (str "{""version"":65536}") = Err e)
  /\ (exists e, Config_unmarshal 64 (str "{} {}") = Err e)
  /\ Config_decode 64 (str "{""version"":3} trailing") = Ok (mkConfig 3 0 0 0 0 0)
  /\ rules_unmarshal (str "[{""ruletype"":""repl"",""position"":-1,""string1"":""a""},null]") = Ok [mkRule (str "repl") (-1) (str "a") []; mkRule [] 0 [] []].
Proof.
  split; [vm_compute; reflexivity|]. split; [eexists; vm_compute; reflexivity|]. split; [eexists; vm_compute; reflexivity|].
  split; vm_compute; reflexivity.
Qed.
