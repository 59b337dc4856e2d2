(** * Property C57: what the programs send, byte for byte a JSON document.

    [json_document s j] says that the text [s] is a JSON document of value [j]
    (SpecJson.v); [request_value], [config_members] and [base64_exact] (the one
    encoding of RFC 4648) are in SpecDecode.v. *)
From Verif Require Import Base BaseProofs Common Oprf OprfGroup Server Client KV Json ConfigJson Scanner Demo Flags Main
  SpecEntry SpecProtocol SpecDemo SpecHttp SpecMain FlagsProofs SpecDecode DecodeProofs SentProofs PropFinalize PropProtocol PropMain PropTrust.

(** ** The bodies posted by the client: the i-th is the request for the i-th
    credential, in ASCII, with exactly these members. *)
Theorem C57_posted_requests : forall (LIB : OPRF) (o : client_opts) (fs : files) (net : network) (cfg : Config) (c : Client)
    (blinds : nat -> Blind LIB) (input : bytes) (i : nat) (body : bytes),
  NewClient LIB cfg = Ok c -> given fs (co_infile o) input ->
  nth_error (client_posts o fs net cfg blinds) i = Some body ->
  exists u p rq ctx j, nth_error (with_colon (scan_lines input)) i = Some (u, p) /\ Request c u p (blinds i) = Ok (rq, ctx)
    /\ ascii_only body /\ json_document body j /\ request_value rq j.
Proof. by_input client_posts_nth. Qed.
Print Assumptions C57_posted_requests.

(** ** The answer of the configuration endpoint. *)
Theorem C57_config_endpoint : forall (LIB : OPRF) (s : server LIB), exists w body,
  handler s (str "/config") (Ok []) = Ok w /\ response_of w = (200%N, body) /\ ascii_only body
  /\ exists ms, json_document body (JObj ms) /\ config_members (sc_config (Server_Config (migpServer s))) ms.
Proof. exact config_sent. Qed.
Print Assumptions C57_config_endpoint.

(** ** A dumped server configuration: the same members and the private key. *)
Theorem C57_server_config : forall (LIB : OPRF) (cfg : ServerConfig LIB) (k : bytes), key_bytes LIB (sc_privateKey cfg) = Ok k ->
  exists data ms e, ServerConfig_MarshalJSON cfg = Ok data /\ ascii_only data /\ config_members (sc_config cfg) ms /\ base64_exact e k
    /\ json_document data (JObj (ms ++ [(str "privateKey", JStr e)])).
Proof. exact server_config_document. Qed.
Print Assumptions C57_server_config.

(** ** The encoding of byte strings: every one has exactly one, and it is read
    back. *)
Theorem C57_base64 : forall b : bytes, exists s, base64_exact s b /\ base64 s b /\ forall t, base64_exact t b -> t = s.
Proof.
  intros b. exists (Base64.b64_encode b). split; [apply encode_exact|]. split; [apply base64_spec, JsonProofs.b64_roundtrip|].
  intros t H. eapply exact_inj; [exact H|apply encode_exact].
Qed.
Print Assumptions C57_base64.

Example C57_example :
  nth_error (ex_posts (ex_two "pw") (behind ex_srv (str "localhost:8080")) (fun _ => 5%N)) 1
    = Some (str "{""version"":1,""bucketID"":""0001e5d3"",""blindElement"":""AgAAAAAAAAAAAAAAAAAAAAAAAAAAAAAAAAAAAAAAAAAO""}")
  /\ base64_exact (str "AQI=") [Byte.x01; Byte.x02].
Proof.
  split; [vm_compute; reflexivity|]. exact (encode_exact [Byte.x01; Byte.x02]).
Qed.
