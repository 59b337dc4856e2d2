(** * C73: what the sizes of the traffic show.

    All requests of a client have the same size; a response is larger than its
    bucket by a constant.  So somebody who sees only sizes (as of an encrypted
    connection) learns the number of queries and the sizes of the buckets. *)
From Coq Require Import Lia.
From Verif Require Import Base BaseProofs Common Hasher Oprf OprfGroup Server Client KV Json ConfigJson Scanner Demo Main
  SpecProtocol SpecDemo SpecHttp SpecMain ProtocolProofs HttpProofs SizeProofs SpecVariants PropProtocol PropVariants PropFinalize.

(** [n] is the size of blinded elements (33 for the default suite). *)
Theorem C73_requests_have_one_size (LIB : OPRF) : OPRF_laws LIB ->
  forall (cfg : Config) (c : Client) (n : nat), NewClient LIB cfg = Ok c ->
  (forall x r b, blind LIB (cfg_oprfSuite cfg) [x] [r] = Ok [b] -> length b = n) ->
  forall (o : client_opts) (fs : files) (net : network) (blinds : nat -> Blind LIB) (body : bytes),
  In body (client_posts o fs net cfg blinds) ->
  length body = (52 + length (dec_N (cfg_version cfg)) + 4 * ((n + 2) / 3))%nat.
Proof.
  intros laws cfg c n Hc Hn o fs net blinds body I. unfold client_posts in I. destruct (input_of fs (co_infile o)); [|contradiction].
  apply (posts_in LIB cfg c blinds _ Hc) in I as (u & p & k & rq & ctx & R & ->). destruct (client_fields LIB cfg c Hc) as (S & V & Su).
  apply request_shape in R as (x & b1 & bs & id & B & ->). rewrite Su in B. destruct (law_blind_total LIB laws _ x (blinds k) S) as (b2 & B').
  rewrite B in B'. apply Ok_inj in B'. injection B' as -> ->. rewrite request_size, (Hn x (blinds k) b2 B), V. reflexivity.
Qed.
Print Assumptions C73_requests_have_one_size.

(** The answer to a query: the bucket, the element and four bytes. *)
Theorem C73_size_of_a_response (LIB : OPRF) : OPRF_laws LIB ->
  forall (cfg : Config) (key : PrivateKey LIB) (s : Server LIB) (c : Client) (n : nat),
  NewServer {| sc_config := cfg; sc_privateKey := key |} = Ok s -> NewClient LIB cfg = Ok c -> (cfg_version cfg < 2 ^ 16)%N ->
  elt_size LIB (cfg_oprfSuite cfg) = Ok n ->
  forall (store : kvStore) (u p k : bytes) (id : N) (r : Blind LIB),
  deriveBucketEntryKey s u p = Ok k -> Server_BucketID s u = Ok id ->
  exists rq ctx w body,
    Request c u p r = Ok (rq, ctx) /\ handleEvaluate (mkDemoServer s store) (Ok (ClientRequest_marshal rq)) = Ok w /\
    response_of w = (200%N, body) /\
    length body = (4 + n + length (sl (kv_lookup store (BucketIDToHex id))))%nat.
Proof.
  intros laws cfg key s c n Hs Hc Hv Hn store u p k id r K Hid.
  destruct (request_answer LIB laws cfg key s c Hs Hc Hv u p r k id (kv_Get store) _ K Hid eq_refl) as (b & e & ctx & R1 & R2 & _ & _ & Hl).
  destruct (client_fields LIB cfg c Hc) as (_ & V & _).
  assert (U : ClientRequest_unmarshal (ClientRequest_marshal {| rq_version := c_version c; rq_bucketID := BucketIDToHex id; rq_blindElement := Some b |})
              = ({| rq_version := c_version c; rq_bucketID := BucketIDToHex id; rq_blindElement := Some b |}, None)).
  { rewrite <- (app_nil_r (ClientRequest_marshal _)). apply request_roundtrip_hex; [rewrite V; lia|reflexivity]. }
  destruct (evaluate_accepted LIB (mkDemoServer s store) _ _ _ U R2) as (w & W1 & W2).
  do 4 eexists. split; [exact R1|]. split; [exact W1|]. split; [exact W2|].
  unfold answer_bytes. cbn [rs_version rs_evaluatedElement rs_bucketContents]. rewrite !app_length.
  rewrite (Hl n). { change (length (be32 (c_version c))) with 4%nat. unfold kv_Get. lia. }
  apply NewServer_inv in Hs. cbn [sc_config] in Hs. destruct Hs as (_ & _ & _ & _ & _ & _ & -> & _). exact Hn.
Qed.
Print Assumptions C73_size_of_a_response.

(** With at most 98 variants and a breach whose lines all could be stored, the
    response shows the number of lines in the bucket and nothing else. *)
Theorem C73_response_shows_number_of_lines (LIB : OPRF) : OPRF_laws LIB ->
  forall (cfg : Config) (key : PrivateKey LIB) (s : Server LIB) (c : Client) (n : nat),
  NewServer {| sc_config := cfg; sc_privateKey := key |} = Ok s -> NewClient LIB cfg = Ok c -> (cfg_version cfg < 2 ^ 16)%N ->
  elt_size LIB (cfg_oprfSuite cfg) = Ok n ->
  forall (m : bytes) (num : Z) (incl : bool) (ops : list op),
  (0 <= num <= 98)%Z -> Forall (fun o => o_num o = num /\ o_incl o = incl /\ o_meta o = m) ops ->
  Forall (fun r => r = Ok tt) (outcomes s newKVStore ops) ->
  forall (u p k : bytes) (id : N) (r : Blind LIB),
  deriveBucketEntryKey s u p = Ok k -> Server_BucketID s u = Ok id ->
  exists rq ctx w body,
    Request c u p r = Ok (rq, ctx) /\
    handleEvaluate (mkDemoServer s (run_inserts s newKVStore ops)) (Ok (ClientRequest_marshal rq)) = Ok w /\
    response_of w = (200%N, body) /\
    length body = (4 + n + length (filter (in_bucketb s (BucketIDToHex id)) ops) * ((1 + Z.to_nat num + if incl then 1 else 0) * (25 + length m)))%nat.
Proof.
  intros laws cfg key s c n Hs Hc Hv Hn m num incl ops H1 H2 H3 u p k id r K Hid.
  destruct (C73_size_of_a_response LIB laws cfg key s c n Hs Hc Hv Hn (run_inserts s newKVStore ops) u p k id r K Hid) as (rq & ctx & w & body & R1 & R2 & R3 & R4).
  exists rq, ctx, w, body. split; [exact R1|]. split; [exact R2|]. split; [exact R3|]. rewrite R4.
  rewrite (C69_size_of_a_bucket LIB s (BucketIDToHex id) m num incl ops H1 H2 H3). reflexivity.
Qed.
Print Assumptions C73_response_shows_number_of_lines.

(** The condition on blinded elements holds over every prime-order group. *)
Theorem C73_blinded_elements_have_one_size (groups : N -> option group) (s : N) (g : group) :
  (forall s g, groups s = Some g -> group_laws g) -> groups s = Some g ->
  forall x r b, blind (group_OPRF groups) s [x] [r] = Ok [b] -> length b = g_len g.
Proof. intros L E. exact (group_blind_size groups s g (g_len g) [] L E eq_refl). Qed.
Print Assumptions C73_blinded_elements_have_one_size.

Definition ex_size (u p : string) (r : N) : option nat :=
  match @Request toy_OPRF ex_client (str u) (str p) r with Ok (rq, _) => Some (length (ClientRequest_marshal rq)) | _ => None end.
Example C73_example :
  ex_size "alice" "pw" 9%N = Some (52 + 1 + 44)%nat
  /\ ex_size "somebody-else@example.com" "a much longer password" 200%N = Some (52 + 1 + 44)%nat
  /\ NewClient toy_OPRF ex_cfg = Ok ex_client /\ length (dec_N (cfg_version ex_cfg)) = 1%nat
  /\ elt_size toy_OPRF (cfg_oprfSuite ex_cfg) = Ok 33%nat
  /\ match deriveBucketEntryKey ex_server (str "alice") (str "pw") with Ok _ => true | _ => false end = true.
Proof. split; [vm_compute; reflexivity|]. split; [vm_compute; reflexivity|]. split; [reflexivity|]. split; [vm_compute; reflexivity|].
  split; vm_compute; reflexivity. Qed.
