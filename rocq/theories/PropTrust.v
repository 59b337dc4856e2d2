(** * Properties C50-C52: clients and servers that do not fit together, or that
    do not trust each other. *)
From Verif Require Import Base BaseProofs Common Oprf OprfGroup Server Client KV Mutator Json ConfigJson Scanner Demo Flags Main
  SpecEntry SpecProtocol SpecDemo SpecHttp SpecMain FlagsProofs SpecTrust ProtocolProofs DemoProofs MainProofs TrustProofs PropFinalize PropProtocol PropMain.

(** ** C50: a client and a server with different configurations.  A different
    version is always refused. *)
Theorem C50_other_version_is_refused : forall (LIB : OPRF) (cfg cfg' : Config) (key : PrivateKey LIB) (s : Server LIB) (c : Client)
    (kv : Getter) (u p : bytes) (r : Blind LIB) (a : BreachStatus * gslice),
  NewServer {| sc_config := cfg; sc_privateKey := key |} = Ok s -> NewClient LIB cfg' = Ok c ->
  (cfg_version cfg < 2 ^ 16)%N -> (cfg_version cfg' < 2 ^ 16)%N -> cfg_version cfg' <> cfg_version cfg ->
  run_query c s kv u p r <> Ok a.
Proof. exact other_version_refused. Qed.
Print Assumptions C50_other_version_is_refused.

(** Nothing else is: whenever the client's key and bucket, under its own
    configuration, do not meet an entry of the server, the answer is "not in
    breach", whatever is stored. *)
Theorem C50_mismatch_is_answered_not_in_breach : forall (LIB : OPRF), OPRF_laws LIB ->
  forall (cfg cfg' : Config) (key : PrivateKey LIB) (s s' : Server LIB) (c : Client) (db : list cred) (kv : kvStore)
    (u p : bytes) (r : Blind LIB) (k' : bytes) (id' : N),
  NewServer {| sc_config := cfg; sc_privateKey := key |} = Ok s ->
  NewServer {| sc_config := cfg'; sc_privateKey := key |} = Ok s' -> NewClient LIB cfg' = Ok c ->
  cfg_version cfg = cfg_version cfg' -> (cfg_version cfg < 2 ^ 16)%N -> cfg_oprfSuite cfg = cfg_oprfSuite cfg' ->
  store_all s newKVStore db = Ok kv -> kv_holdable kv ->
  deriveBucketEntryKey s' u p = Ok k' -> Client_BucketID c u = Ok id' ->
  (forall d k, In d db -> Server_BucketID s (d_user d) = Ok id' -> deriveBucketEntryKey s (d_user d) (d_pass d) = Ok k ->
     key_check k <> key_check k') ->
  run_query c s (kv_Get kv) u p r = Ok (NotInBreach, None).
Proof. exact mismatch_miss. Qed.
Print Assumptions C50_mismatch_is_answered_not_in_breach.

(** So a client with a wrong bit size reports "not in breach" for credentials
    that are stored (all of them whose bucket IDs are not both zero). *)
Theorem C50_other_bit_size_never_finds_refuted : forall (LIB : OPRF), OPRF_laws LIB ->
  forall (cfg : Config) (bits : Z) (key : PrivateKey LIB) (s : Server LIB) (c : Client) (db : list cred) (kv : kvStore)
    (u p : bytes) (r : Blind LIB) (k : bytes) (id id' : N),
  NewServer {| sc_config := cfg; sc_privateKey := key |} = Ok s -> NewClient LIB (with_bits cfg bits) = Ok c -> (cfg_version cfg < 2 ^ 16)%N ->
  (0 <= cfg_bits cfg <= 32)%Z -> (0 <= bits <= 32)%Z -> bits <> cfg_bits cfg ->
  store_all s newKVStore db = Ok kv -> kv_holdable kv -> deriveBucketEntryKey s u p = Ok k -> no_collision s db u p ->
  Server_BucketID s u = Ok id -> Client_BucketID c u = Ok id' -> id <> 0%N \/ id' <> 0%N ->
  run_query c s (kv_Get kv) u p r = Ok (NotInBreach, None).
Proof. exact other_bits_never_found. Qed.
Print Assumptions C50_other_bit_size_never_finds_refuted.

(** ex_db holds (alice, pw); clients with 19 and with 20 bits. *)
Definition ex_client19 : Client := match NewClient toy_OPRF (with_bits ex_cfg 19) with Ok c => c | _ => ex_client end.
Example C50_example :
  @run_query toy_OPRF ex_client ex_server (kv_Get ex_kv) (str "alice") (str "pw") 9%N = Ok (UsernameInBreach, Some (str "first"))
  /\ @run_query toy_OPRF ex_client19 ex_server (kv_Get ex_kv) (str "alice") (str "pw") 9%N = Ok (NotInBreach, None)
  /\ NewClient toy_OPRF (with_bits ex_cfg 19) = Ok ex_client19
  /\ match Server_BucketID ex_server (str "alice"), Client_BucketID ex_client19 (str "alice") with
     | Ok i, Ok j => i <> 0%N /\ i <> j
     | _, _ => False
     end
  /\ match NewClient toy_OPRF (mkConfig 2 20 1 0 1 3) with
     | Ok c => match @run_query toy_OPRF c ex_server (kv_Get ex_kv) (str "alice") (str "pw") 9%N with Err _ => True | _ => False end
     | _ => False
     end.
Proof.
  split; [vm_compute; reflexivity|]. split; [vm_compute; reflexivity|]. split; [reflexivity|].
  split; [vm_compute; split; discriminate|vm_compute; exact I].
Qed.

(** ** C51: whether the client program goes on tells the server whether a
    guess of the first password is right: the server that puts its guess and a
    cut-off entry into the bucket sees a second request exactly then. *)
Theorem C51_going_on_reveals_a_guess_refuted : forall (LIB : OPRF), OPRF_laws LIB ->
  forall (cfg : Config) (key : PrivateKey LIB) (s : Server LIB) (c : Client) (store : kvStore) (o : client_opts) (fs : files)
    (input : bytes) (blinds : nat -> Blind LIB) (u guess p : bytes) (next : bytes * bytes) (more : list (bytes * bytes)) (id : N) (e k host : bytes),
  plain_host host -> co_target o = str "http://" ++ host ->
  NewServer {| sc_config := cfg; sc_privateKey := key |} = Ok s -> NewClient LIB cfg = Ok c -> (cfg_version cfg < 2 ^ 16)%N ->
  cfg_oprfSuite cfg = 3%N -> (0 <= cfg_bits cfg <= 32)%Z ->
  Server_BucketID s u = Ok id -> EncryptBucketEntry s u guess Byte.x01 [] = Ok e ->
  kv_lookup store (BucketIDToHex id) = Some (baited e) ->
  deriveBucketEntryKey s u p = Ok k -> no_collision s [mkCred u guess Byte.x01 []] u p ->
  given fs (co_infile o) input -> with_colon (scan_lines input) = (u, p) :: next :: more ->
  ((2 <= length (client_posts o fs (behind (mkDemoServer s store) host) cfg blinds))%nat <-> p = guess).
Proof. by_input guess_oracle. Qed.
Print Assumptions C51_going_on_reveals_a_guess_refuted.

(** The first query itself: an answer for the right guess, an error otherwise. *)
Theorem C51_baited_bucket : forall (LIB : OPRF), OPRF_laws LIB ->
  forall (cfg : Config) (key : PrivateKey LIB) (s : Server LIB) (c : Client) (store : kvStore) (u guess p : bytes) (r : Blind LIB) (id : N) (e k : bytes),
  NewServer {| sc_config := cfg; sc_privateKey := key |} = Ok s -> NewClient LIB cfg = Ok c -> (cfg_version cfg < 2 ^ 16)%N ->
  Server_BucketID s u = Ok id -> EncryptBucketEntry s u guess Byte.x01 [] = Ok e ->
  kv_lookup store (BucketIDToHex id) = Some (baited e) ->
  deriveBucketEntryKey s u p = Ok k -> no_collision s [mkCred u guess Byte.x01 []] u p ->
  (p = guess -> run_query c s (kv_Get store) u p r = Ok (InBreach, Some [])) /\
  (p <> guess -> exists m, run_query c s (kv_Get store) u p r = Err m).
Proof. exact baited_query. Qed.
Print Assumptions C51_baited_bucket.

Definition ex_bait (guess : string) : kvStore :=
  match Server_BucketID ex_server (str "alice"), EncryptBucketEntry ex_server (str "alice") (str guess) Byte.x01 [] with
  | Ok id, Ok e => [(BucketIDToHex id, Some (baited e))]
  | _, _ => []
  end.
Definition ex_posts (queries : bytes) (net : network) (blinds : nat -> N) : list bytes :=
  @client_posts toy_OPRF (mkClientOpts [] false true (str "-") (str "http://localhost:8080")) (mkFiles (fun _ => None) queries) net ex_cfg blinds.
Definition ex_two (password : string) : bytes := str "alice:" ++ str password ++ [Byte.x0a] ++ str "bob:x" ++ [Byte.x0a].
Example C51_example :
  let seen guess := length (ex_posts (ex_two "hunter2") (behind (mkDemoServer ex_server (ex_bait guess)) (str "localhost:8080")) (fun i => N.of_nat (i + 5))) in
  seen "hunter2"%string = 2%nat /\ seen "hunter3"%string = 1%nat
  /\ with_colon (scan_lines (ex_two "hunter2")) = [(str "alice", str "hunter2"); (str "bob", str "x")]
  /\ no_collision ex_server [mkCred (str "alice") (str "hunter3") Byte.x01 []] (str "alice") (str "hunter2").
Proof.
  split; [vm_compute; reflexivity|]. split; [vm_compute; reflexivity|]. split; [vm_compute; reflexivity|].
  apply no_collisionb_ok. vm_compute. reflexivity.
Qed.

(** ** C52: nothing else that the client sends in a run depends on usernames
    and passwords beyond the bucket IDs.  Take two input files whose
    credentials fall into the same buckets in the same order.  There are
    one-to-one maps of the blinds (the draws 0 .. q-2, one map for each query)
    under which the two runs post the same bodies, up to the point where one of
    them stops; whatever the network answers.  Hence with uniform independent
    blinds the posted bodies have the same distribution. *)
Theorem C52_traffic_hides_the_credentials : forall groups : N -> option group,
  (forall s g, groups s = Some g -> group_laws g) -> (exists g, groups 3%N = Some g /\ g_len g = 33%nat) ->
  forall (cfg : Config) (c : Client) (g : group),
  NewClient (group_OPRF groups) cfg = Ok c -> groups (cfg_oprfSuite cfg) = Some g -> (0 <= cfg_bits cfg <= 32)%Z ->
  forall (o : client_opts) (fs fs' : files) (net net' : network) (input input' : bytes),
  given fs (co_infile o) input -> given fs' (co_infile o) input' ->
  Forall2 (fun a b => Client_BucketID c (fst a) = Client_BucketID c (fst b))
    (with_colon (scan_lines input)) (with_colon (scan_lines input')) ->
  exists f f' : nat -> N -> N,
    (forall i r, (Z.of_N r < g_q g - 1)%Z ->
       (Z.of_N (f i r) < g_q g - 1)%Z /\ (Z.of_N (f' i r) < g_q g - 1)%Z /\ f' i (f i r) = r /\ f i (f' i r) = r) /\
    forall blinds : nat -> N, (forall i, (Z.of_N (blinds i) < g_q g - 1)%Z) ->
      one_extends_other (@client_posts (group_OPRF groups) o fs net cfg blinds)
                        (@client_posts (group_OPRF groups) o fs' net' cfg (fun i => f i (blinds i))).
Proof. by_input traffic_private. Qed.
Print Assumptions C52_traffic_hides_the_credentials.

(** A run that ends with status 0 has posted once per credential; so two such
    runs post the same. *)
Theorem C52_complete_runs_post_once_per_credential : forall (LIB : OPRF), OPRF_laws LIB ->
  forall (o : client_opts) (fs : files) (net : network) (cfg : Config) (c : Client) (blinds : nat -> Blind LIB) (input : bytes),
  NewClient LIB cfg = Ok c -> (0 <= cfg_bits cfg <= 32)%Z -> given fs (co_infile o) input ->
  x_status (client_query o fs net cfg blinds) = 0%N ->
  length (client_posts o fs net cfg blinds) = length (with_colon (scan_lines input)).
Proof. by_input complete_posts. Qed.
Print Assumptions C52_complete_runs_post_once_per_credential.

(** And these bodies are all that the client sends: the answers to anything
    else do not influence it. *)
Theorem C52_the_posts_are_all_that_is_sent : forall (LIB : OPRF) (o : client_opts) (fs : files) (net net' : network) (cfg : Config) (blinds : nat -> Blind LIB),
  (forall d, In d (client_posts o fs net cfg blinds) ->
     n_post net (co_target o ++ str "/evaluate") d = n_post net' (co_target o ++ str "/evaluate") d) ->
  client_query o fs net cfg blinds = client_query o fs net' cfg blinds
  /\ client_posts o fs net cfg blinds = client_posts o fs net' cfg blinds.
Proof. exact client_posts_all. Qed.
Print Assumptions C52_the_posts_are_all_that_is_sent.

(** Two files, and blinds that make the runs indistinguishable. *)
Example C52_example :
  let net := behind ex_srv (str "localhost:8080") in
  ex_posts (ex_two "pw") net (fun _ => 5%N) = ex_posts (ex_two "other") net (fun i => if Nat.eqb i 0 then 54%N else 5%N)
  /\ length (ex_posts (ex_two "pw") net (fun _ => 5%N)) = 2%nat
  /\ (54 < g_q (toy_group 33) - 1)%Z.
Proof. vm_compute. repeat split. Qed.
