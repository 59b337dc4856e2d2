(** * Properties C14, C15, C16, C34, C35, C36, C42: the demo server's insert
    and ingestion and the demo client's output (cmd/server, cmd/client).

    [demo_insert s store u p m n incl] is insert of cmd/server/server.go: the
    store afterwards and the returned error or panic. *)
From Verif Require Import Base BaseProofs Common Oprf OprfGroup Server Client KV Mutator ConfigJson MutatorProofs
  SpecEntry SpecProtocol ProtocolProofs Scanner Demo SpecDemo DemoProofs IngestProofs PropFinalize PropProtocol.

(** ** C14: after an insert the password, its variants and the username are
    found.  [db0] is what was stored before. *)
Theorem C14_every_query_after_insert :
  forall (LIB : OPRF), OPRF_laws LIB ->
  forall (cfg : Config) (key : PrivateKey LIB) (s : Server LIB) (c : Client),
  NewServer {| sc_config := cfg; sc_privateKey := key |} = Ok s -> NewClient LIB cfg = Ok c -> (cfg_version cfg < 2 ^ 16)%N ->
  forall (db0 : list cred) (store : kvStore) (u p m : bytes) (n : Z) (incl : bool) (store' : kvStore) (vs : list bytes),
  (0 <= cfg_bits cfg <= 32)%Z ->
  store_all s newKVStore db0 = Ok store -> demo_insert s store u p m n incl = (store', Ok tt) ->
  password_variants p n = Ok vs -> kv_holdable store' ->
  forall (u' p' : bytes) (r : Blind LIB) (k : bytes),
  no_collision s (db0 ++ insert_creds u p m vs incl) u' p' -> deriveBucketEntryKey s u' p' = Ok k ->
  run_query c s (kv_Get store') u' p' r = Ok (expected (db0 ++ insert_creds u p m vs incl) u' p').
Proof. exact insert_queries. Qed.
Print Assumptions C14_every_query_after_insert.

Theorem C14_password_is_found :
  forall (LIB : OPRF), OPRF_laws LIB ->
  forall (cfg : Config) (key : PrivateKey LIB) (s : Server LIB) (c : Client),
  NewServer {| sc_config := cfg; sc_privateKey := key |} = Ok s -> NewClient LIB cfg = Ok c -> (cfg_version cfg < 2 ^ 16)%N ->
  forall (db0 : list cred) (store : kvStore) (u p m : bytes) (n : Z) (incl : bool) (store' : kvStore) (vs : list bytes) (r : Blind LIB),
  (0 <= cfg_bits cfg <= 32)%Z ->
  store_all s newKVStore db0 = Ok store -> demo_insert s store u p m n incl = (store', Ok tt) ->
  password_variants p n = Ok vs -> kv_holdable store' -> no_collision s (db0 ++ insert_creds u p m vs incl) u p ->
  Forall (fun d => (d_user d, d_pass d) <> (u, p)) db0 ->
  run_query c s (kv_Get store') u p r = Ok (InBreach, Some m).
Proof. exact insert_password_hit. Qed.
Print Assumptions C14_password_is_found.

Theorem C14_variants_are_found :
  forall (LIB : OPRF), OPRF_laws LIB ->
  forall (cfg : Config) (key : PrivateKey LIB) (s : Server LIB) (c : Client),
  NewServer {| sc_config := cfg; sc_privateKey := key |} = Ok s -> NewClient LIB cfg = Ok c -> (cfg_version cfg < 2 ^ 16)%N ->
  forall (db0 : list cred) (store : kvStore) (u p m : bytes) (n : Z) (incl : bool) (store' : kvStore) (vs : list bytes) (v : bytes) (r : Blind LIB),
  (0 <= cfg_bits cfg <= 32)%Z ->
  store_all s newKVStore db0 = Ok store -> demo_insert s store u p m n incl = (store', Ok tt) ->
  password_variants p n = Ok vs -> kv_holdable store' -> In v vs -> no_collision s (db0 ++ insert_creds u p m vs incl) u v ->
  Forall (fun d => (d_user d, d_pass d) <> (u, v)) db0 ->
  run_query c s (kv_Get store') u v r = Ok (SimilarInBreach, Some m).
Proof. exact insert_variant_hit. Qed.
Print Assumptions C14_variants_are_found.

Theorem C14_username_is_found :
  forall (LIB : OPRF), OPRF_laws LIB ->
  forall (cfg : Config) (key : PrivateKey LIB) (s : Server LIB) (c : Client),
  NewServer {| sc_config := cfg; sc_privateKey := key |} = Ok s -> NewClient LIB cfg = Ok c -> (cfg_version cfg < 2 ^ 16)%N ->
  forall (db0 : list cred) (store : kvStore) (u p m : bytes) (n : Z) (store' : kvStore) (vs : list bytes) (r : Blind LIB),
  (0 <= cfg_bits cfg <= 32)%Z ->
  store_all s newKVStore db0 = Ok store -> demo_insert s store u p m n true = (store', Ok tt) ->
  password_variants p n = Ok vs -> kv_holdable store' -> ~ In [] vs -> p <> [] ->
  no_collision s (db0 ++ insert_creds u p m vs true) u [] ->
  Forall (fun d => (d_user d, d_pass d) <> (u, [])) db0 ->
  run_query c s (kv_Get store') u [] r = Ok (UsernameInBreach, Some m).
Proof. exact insert_username_hit. Qed.
Print Assumptions C14_username_is_found.

Theorem C14_other_queries_unchanged :
  forall (LIB : OPRF), OPRF_laws LIB ->
  forall (cfg : Config) (key : PrivateKey LIB) (s : Server LIB) (c : Client),
  NewServer {| sc_config := cfg; sc_privateKey := key |} = Ok s -> NewClient LIB cfg = Ok c -> (cfg_version cfg < 2 ^ 16)%N ->
  forall (db0 : list cred) (store : kvStore) (u p m : bytes) (n : Z) (incl : bool) (store' : kvStore) (vs : list bytes)
    (u' p' : bytes) (r r' : Blind LIB) (k : bytes),
  (0 <= cfg_bits cfg <= 32)%Z ->
  store_all s newKVStore db0 = Ok store -> demo_insert s store u p m n incl = (store', Ok tt) ->
  password_variants p n = Ok vs -> kv_holdable store' ->
  no_collision s (db0 ++ insert_creds u p m vs incl) u' p' -> deriveBucketEntryKey s u' p' = Ok k ->
  Forall (fun d => (d_user d, d_pass d) <> (u', p')) (insert_creds u p m vs incl) ->
  run_query c s (kv_Get store') u' p' r = run_query c s (kv_Get store) u' p' r'.
Proof. exact insert_others. Qed.
Print Assumptions C14_other_queries_unchanged.

(** An insert succeeds when its entries can be made. *)
Theorem C14_insert_succeeds : forall (LIB : OPRF) (s : Server LIB) (store : kvStore) (u p m : bytes) (n : Z) (incl : bool) (vs : list bytes) (id : N),
  Server_BucketID s u = Ok id -> password_variants p n = Ok vs -> (blen m <= 8160)%Z ->
  (forall d, In d (insert_creds u p m vs incl) -> exists k, deriveBucketEntryKey s u (d_pass d) = Ok k) ->
  exists store', demo_insert s store u p m n incl = (store', Ok tt).
Proof. exact insert_ok. Qed.
Print Assumptions C14_insert_succeeds.

(** Not so: "a breached password is reported as breached".  When it was
    stored before as a variant of another password, it is reported as
    similar, with the metadata of the other. *)
Theorem C14_breached_reported_similar_refuted :
  forall (LIB : OPRF), OPRF_laws LIB ->
  forall (cfg : Config) (key : PrivateKey LIB) (s : Server LIB) (c : Client),
  NewServer {| sc_config := cfg; sc_privateKey := key |} = Ok s -> NewClient LIB cfg = Ok c -> (cfg_version cfg < 2 ^ 16)%N ->
  forall (store1 store2 : kvStore) (u p v m m' : bytes) (n n' : Z) (incl incl' : bool) (vs : list bytes) (r : Blind LIB),
  (0 <= cfg_bits cfg <= 32)%Z ->
  demo_insert s newKVStore u p m n incl = (store1, Ok tt) -> password_variants p n = Ok vs -> In v vs ->
  demo_insert s store1 u v m' n' incl' = (store2, Ok tt) -> kv_holdable store2 ->
  no_collision s (insert_creds u p m vs incl) u v ->
  run_query c s (kv_Get store2) u v r = Ok (SimilarInBreach, Some m).
Proof. exact variant_then_password. Qed.
Print Assumptions C14_breached_reported_similar_refuted.

(** Neither: "with the username variant, the username alone is reported as
    username-in-breach".  For a password of at most three bytes the empty
    password is itself a variant. *)
Theorem C14_username_reported_similar_refuted :
  forall (LIB : OPRF), OPRF_laws LIB ->
  forall (cfg : Config) (key : PrivateKey LIB) (s : Server LIB) (c : Client),
  NewServer {| sc_config := cfg; sc_privateKey := key |} = Ok s -> NewClient LIB cfg = Ok c -> (cfg_version cfg < 2 ^ 16)%N ->
  forall (store' : kvStore) (u m : bytes) (r : Blind LIB),
  (0 <= cfg_bits cfg <= 32)%Z ->
  demo_insert s newKVStore u (str "abc") m 9 true = (store', Ok tt) -> kv_holdable store' ->
  (forall vs, password_variants (str "abc") 9 = Ok vs -> no_collision s (insert_creds u (str "abc") m vs true) u []) ->
  run_query c s (kv_Get store') u [] r = Ok (SimilarInBreach, Some m).
Proof. exact short_password_username. Qed.
Print Assumptions C14_username_reported_similar_refuted.

(** Key checks without repetition: no collisions. *)
Definition check_of {LIB} (s : Server LIB) (c : bytes * bytes) : bytes :=
  match deriveBucketEntryKey s (fst c) (snd c) with Ok k => key_check k | _ => [] end.
Fixpoint distinct (l : list bytes) : bool :=
  match l with [] => true | x :: r => negb (existsb (bytes_eqb x) r) && distinct r end.
Lemma distinct_in {A} (f : A -> bytes) l a b : distinct (map f l) = true -> In a l -> In b l -> f a = f b -> a = b.
Proof.
  induction l as [|x l IH]; [contradiction|]. cbn [map distinct In]. intros D I J E. apply andb_true_iff in D as [D D'].
  apply negb_true_iff in D.
  assert (N : forall y, In y l -> f x <> f y).
  { intros y Y Q. assert (T : existsb (bytes_eqb (f x)) (map f l) = true); [|congruence]. apply existsb_exists.
    exists (f y). split; [apply in_map; exact Y|]. apply bytes_eqb_eq. exact Q. }
  destruct I as [<-|I], J as [<-|J]; auto; exfalso; [exact (N _ J E)|exact (N _ I (eq_sym E))].
Qed.
Lemma distinct_checks {LIB} (s : Server LIB) (l : list (bytes * bytes)) db u p :
  distinct (map (check_of s) l) = true -> (forall d, In d db -> In (d_user d, d_pass d) l) -> In (u, p) l -> no_collision s db u p.
Proof.
  intros D Hdb Hup d k k' I N Hk Hk' E. apply N. apply (distinct_in (check_of s) l); auto.
  unfold check_of. cbn [fst snd]. rewrite Hk, Hk'. exact E.
Qed.

Definition ex_before : list cred := [ mkCred (str "alice") (str "pw0") Byte.x01 (str "m0") ].
Definition ex_store0 : kvStore := match store_all ex_server newKVStore ex_before with Ok kv => kv | _ => [] end.
Definition ex_store1 : kvStore := fst (demo_insert ex_server ex_store0 (str "alice") (str "hello") (str "m1") 2 true).
Example C14_example :
  store_all ex_server newKVStore ex_before = Ok ex_store0
  /\ demo_insert ex_server ex_store0 (str "alice") (str "hello") (str "m1") 2 true = (ex_store1, Ok tt)
  /\ password_variants (str "hello") 2 = Ok (map str ["Hello"; "hell"])%string
  /\ (forall q, In q (map str ["hello"; "Hello"; ""; "none"]%string) ->
        no_collision ex_server (ex_before ++ insert_creds (str "alice") (str "hello") (str "m1") (map str ["Hello"; "hell"]%string) true) (str "alice") q)
  /\ map (fun q => @run_query toy_OPRF ex_client ex_server (kv_Get ex_store1) (str "alice") q 7%N) (map str ["hello"; "Hello"; ""; "none"]%string)
     = [Ok (InBreach, Some (str "m1")); Ok (SimilarInBreach, Some (str "m1"));
        Ok (UsernameInBreach, Some (str "m1")); Ok (NotInBreach, None)].
Proof.
  split; [vm_compute; reflexivity|]. split; [vm_compute; reflexivity|]. split; [rewrite variants_shipped; vm_compute; reflexivity|].
  split; [|vm_compute; reflexivity].
  intros q I. apply (distinct_checks _ (map (fun q => (str "alice", str q)) ["pw0"; "hello"; "Hello"; "hell"; ""; "none"]%string)).
  - vm_compute. reflexivity.
  - intros d J. cbn in J. cbn [map In]. repeat (destruct J as [<-|J]; [cbn; tauto|]). contradiction.
  - cbn [map In] in *. repeat (destruct I as [<-|I]; [tauto|]). contradiction.
Qed.

(** ** C15: an insert only appends whole entries to one bucket. *)
Theorem C15_other_keys_unchanged :
  forall (LIB : OPRF) (s : Server LIB) (store : kvStore) (u p m : bytes) (n : Z) (incl : bool) (store' : kvStore) (r : res unit) (key : bytes),
  demo_insert s store u p m n incl = (store', r) ->
  (forall id, Server_BucketID s u = Ok id -> key <> BucketIDToHex id) ->
  kv_lookup store' key = kv_lookup store key.
Proof. exact insert_frame. Qed.
Print Assumptions C15_other_keys_unchanged.

(** Also on error and panic: the entries for an initial part of the list of
    credentials; for all of it on success. *)
Theorem C15_appends_whole_entries :
  forall (LIB : OPRF) (s : Server LIB) (store : kvStore) (u p m : bytes) (n : Z) (incl : bool) (store' : kvStore) (r : res unit) (id : N),
  demo_insert s store u p m n incl = (store', r) -> Server_BucketID s u = Ok id ->
  exists vs done rest es,
    insert_creds u p m vs incl = done ++ rest
    /\ Forall2 (stores s) done es /\ Forall entry_ok es
    /\ sl (kv_lookup store' (BucketIDToHex id)) = sl (kv_lookup store (BucketIDToHex id)) ++ bucket_bytes es
    /\ (r = Ok tt -> rest = [] /\ password_variants p n = Ok vs).
Proof. exact insert_appends. Qed.
Print Assumptions C15_appends_whole_entries.

Theorem C15_refused_first_entry_changes_nothing :
  forall (LIB : OPRF) (s : Server LIB) (store : kvStore) (u p m : bytes) (n : Z) (incl : bool),
  (forall e, EncryptBucketEntry s u p Byte.x01 m <> Ok e) ->
  fst (demo_insert s store u p m n incl) = store /\ snd (demo_insert s store u p m n incl) <> Ok tt.
Proof. exact insert_refused. Qed.
Print Assumptions C15_refused_first_entry_changes_nothing.

Theorem C15_long_metadata_changes_nothing :
  forall (LIB : OPRF) (s : Server LIB) (store : kvStore) (u p m : bytes) (n : Z) (incl : bool), (8160 < blen m)%Z ->
  fst (demo_insert s store u p m n incl) = store /\ snd (demo_insert s store u p m n incl) <> Ok tt.
Proof. exact insert_long_metadata. Qed.
Print Assumptions C15_long_metadata_changes_nothing.

Example C15_example : exists id, Server_BucketID ex_server (str "alice") = Ok id
  /\ length (sl (kv_lookup ex_store1 (BucketIDToHex id))) = (27 * 5)%nat
  /\ firstn 27 (sl (kv_lookup ex_store1 (BucketIDToHex id))) = sl (kv_lookup ex_store0 (BucketIDToHex id)).
Proof. eexists. split; [vm_compute; reflexivity|]. split; vm_compute; reflexivity. Qed.

(** ** C16: a hit never changes. *)
Theorem C16_hit_is_stable :
  forall (LIB : OPRF), OPRF_laws LIB ->
  forall (cfg : Config) (key : PrivateKey LIB) (s : Server LIB) (c : Client),
  NewServer {| sc_config := cfg; sc_privateKey := key |} = Ok s -> NewClient LIB cfg = Ok c -> (cfg_version cfg < 2 ^ 16)%N ->
  forall (store : kvStore) (u p : bytes) (r : Blind LIB) (st : BreachStatus) (m : bytes),
  run_query c s (kv_Get store) u p r = Ok (st, Some m) ->
  forall ops : list op, kv_holdable (run_inserts s store ops) -> forall r' : Blind LIB,
  run_query c s (kv_Get (run_inserts s store ops)) u p r' = Ok (st, Some m).
Proof. exact hit_stable. Qed.
Print Assumptions C16_hit_is_stable.

Example C16_example :
  @run_query toy_OPRF ex_client ex_server (kv_Get ex_store1) (str "alice") (str "Hello") 7%N = Ok (SimilarInBreach, Some (str "m1"))
  /\ @run_query toy_OPRF ex_client ex_server
       (kv_Get (run_inserts ex_server ex_store1 [mkOp (str "alice") (str "Hello") (str "m2") 1 true; mkOp (str "bob") (str "x") (str "m3") 0 false]))
       (str "alice") (str "Hello") 8%N = Ok (SimilarInBreach, Some (str "m1")).
Proof. split; vm_compute; reflexivity. Qed.

(** ** C34: the first colon splits a line. *)
Theorem C34_split_at_first_colon : forall l u p : bytes,
  split_colon l = Some (u, p) <-> l = u ++ Byte.x3a :: p /\ ~ In Byte.x3a u.
Proof. exact split_colon_some. Qed.
Print Assumptions C34_split_at_first_colon.

Theorem C34_no_colon : forall l : bytes, split_colon l = None <-> ~ In Byte.x3a l.
Proof. exact split_colon_none. Qed.
Print Assumptions C34_no_colon.

(** The server on one line (no colon: counted as a failure). *)
Theorem C34_server_line : forall (LIB : OPRF) (s : Server LIB) (metadata : bytes) (n : Z) (incl : bool) (st : ingest) (u p : bytes),
  ~ In Byte.x3a u ->
  ingest_line s metadata n incl st (u ++ Byte.x3a :: p)
  = match demo_insert s (in_store st) u p metadata n incl with
    | (_, Panic m) => Panic m
    | (store, Err _) => Ok (mkIngest store (in_success st) (in_failure st + 1))
    | (store, Ok _) => Ok (mkIngest store (in_success st + 1) (in_failure st))
    end.
Proof. exact ingest_line_colon. Qed.
Print Assumptions C34_server_line.

Theorem C34_server_line_without_colon :
  forall (LIB : OPRF) (s : Server LIB) (metadata : bytes) (n : Z) (incl : bool) (st : ingest) (l : bytes),
  ~ In Byte.x3a l -> ingest_line s metadata n incl st l = Ok (mkIngest (in_store st) (in_success st) (in_failure st + 1)).
Proof. exact ingest_line_no_colon. Qed.
Print Assumptions C34_server_line_without_colon.

(** The client sends exactly the credentials of the lines with a colon, in
    order: its run depends on nothing else of the input. *)
Theorem C34_client_skips_lines_without_colon :
  forall (query : nat -> bytes -> bytes -> res (BreachStatus * gslice)) (show : bool) (lines : list bytes),
  client_lines query show 0 lines
  = client_lines query show 0 (map (fun c => fst c ++ Byte.x3a :: snd c) (with_colon lines)).
Proof. exact client_lines_colon. Qed.
Print Assumptions C34_client_skips_lines_without_colon.

Example C34_example : split_colon (str "alice:pw:with:colons") = Some (str "alice", str "pw:with:colons")
  /\ split_colon (str ":") = Some ([], []) /\ split_colon (str "nothing") = None.
Proof. vm_compute. repeat split; reflexivity. Qed.

(** ** C35: every line is accounted for. *)
(** Every input is a text in exactly one way. *)
Theorem C35_input_is_text : forall input : bytes, exists ls last, input = text ls last /\ Forall no_lf ls /\ no_lf last
  /\ forall ls' last', input = text ls' last' -> Forall no_lf ls' -> no_lf last' -> ls' = ls /\ last' = last.
Proof. exact text_unique. Qed.
Print Assumptions C35_input_is_text.

(** The lines read: all of them, each without its CR. *)
Theorem C35_lines_read : forall (ls : list bytes) (last : bytes), Forall no_lf ls -> no_lf last ->
  Forall (fun l => (blen l < 65536)%Z) ls -> (blen last < 65536)%Z ->
  Forall2 strip_cr (all_lines ls last) (scan_lines (text ls last)).
Proof. exact scan_text_strip. Qed.
Print Assumptions C35_lines_read.

(** The counters and the store after ingestion. *)
Theorem C35_every_line_counted :
  forall (LIB : OPRF) (metadata : bytes) (n : Z) (incl : bool) (s : Server LIB) (store : kvStore) (ls : list bytes) (last : bytes) (st : ingest),
  Forall no_lf ls -> no_lf last -> Forall (fun l => (blen l < 65536)%Z) ls -> (blen last < 65536)%Z ->
  server_ingest s metadata n incl store (text ls last) = Ok st ->
  let ops := map (fun c => mkOp (fst c) (snd c) metadata n incl) (with_colon (scan_lines (text ls last))) in
  (in_success st + in_failure st = N.of_nat (length (all_lines ls last)))%N
  /\ in_store st = run_inserts s store ops
  /\ in_success st = N.of_nat (length (filter is_ok (outcomes s store ops)))
  /\ existsb is_panic (outcomes s store ops) = false.
Proof. exact ingest_counts. Qed.
Print Assumptions C35_every_line_counted.

(** Not so for long lines: 65536 bytes without LF silently end the input. *)
Theorem C35_long_line_ends_input_refuted :
  forall (LIB : OPRF) (metadata : bytes) (n : Z) (incl : bool) (s : Server LIB) (store : kvStore) (ls : list bytes) (long rest : bytes),
  Forall no_lf ls -> Forall (fun l => (blen l < 65536)%Z) ls -> no_lf long -> (65536 <= blen long)%Z ->
  server_ingest s metadata n incl store (text ls (long ++ rest)) = server_ingest s metadata n incl store (text ls []).
Proof. exact ingest_overlong. Qed.
Print Assumptions C35_long_line_ends_input_refuted.

Example C35_example :
  match server_ingest ex_server (str "m") 1 true newKVStore (str "alice:pw" ++ [Byte.x0d; Byte.x0a] ++ str "nocolon" ++ [Byte.x0a; Byte.x0a] ++ str "bob:x") with
  | Ok st => in_success st = 2%N /\ in_failure st = 2%N
      /\ @run_query toy_OPRF ex_client ex_server (kv_Get (in_store st)) (str "alice") (str "pw") 3%N = Ok (InBreach, Some (str "m"))
  | _ => False
  end.
Proof. vm_compute. repeat split; reflexivity. Qed.

(** ** C36: without -show-password the output depends on usernames and
    answers only. *)
Theorem C36_password_not_shown :
  forall (q q' : nat -> bytes -> bytes -> res (BreachStatus * gslice)) (input input' : bytes),
  map fst (with_colon (scan_lines input)) = map fst (with_colon (scan_lines input')) ->
  (forall j u p u' p', nth_error (with_colon (scan_lines input)) j = Some (u, p) ->
     nth_error (with_colon (scan_lines input')) j = Some (u', p') -> q j u p = q' j u' p') ->
  client_main q false input = client_main q' false input'.
Proof. exact (fun q q' input input' => client_lines_hidden q q' 0 (scan_lines input) (scan_lines input')). Qed.
Print Assumptions C36_password_not_shown.

Definition ex_answers (i : nat) (u p : bytes) : res (BreachStatus * gslice) := Ok (InBreach, Some (str "m")).
Example C36_example :
  client_main ex_answers false (str "alice:pw") = client_main ex_answers false (str "alice:secret")
  /\ client_main ex_answers true (str "alice:pw") <> client_main ex_answers true (str "alice:secret").
Proof. split; vm_compute; [reflexivity|discriminate]. Qed.

(** ** C42: short lines cannot crash ingestion, long ones can. *)
Theorem C42_short_lines_never_panic :
  forall (LIB : OPRF) (s : Server LIB) (cfg : ServerConfig LIB),
  NewServer cfg = Ok s -> (0 <= cfg_bits (sc_config cfg) <= 32)%Z ->
  (forall x m, full_evaluate LIB (s_oprfSuite s) (s_privateKey s) x (str "MIGP oprf info") <> Panic m) ->
  forall (metadata : bytes) (n : Z) (incl : bool) (store : kvStore) (ls : list bytes) (last : bytes),
  (0 <= n)%Z -> (n * 24 <= 2 ^ 48)%Z ->
  Forall no_lf ls -> no_lf last -> Forall (fun l => (blen l <= 49153)%Z) (all_lines ls last) ->
  exists st, server_ingest s metadata n incl store (text ls last) = Ok st.
Proof. exact ingest_np. Qed.
Print Assumptions C42_short_lines_never_panic.

(** [crash_pw] is 65534 digits "1": 11 variants are enough. *)
Theorem C42_long_line_panics_refuted :
  forall (LIB : OPRF) (s : Server LIB) (cfg : ServerConfig LIB),
  NewServer cfg = Ok s -> (0 <= cfg_bits (sc_config cfg) <= 32)%Z ->
  (forall x, exists k, full_evaluate LIB (s_oprfSuite s) (s_privateKey s) x (str "MIGP oprf info") = Ok k) ->
  forall (metadata : bytes) (n : Z) (incl : bool) (store : kvStore) (rest : bytes),
  (11 <= n)%Z -> (n * 24 <= 2 ^ 48)%Z -> (blen metadata <= 8160)%Z ->
  exists e, server_ingest s metadata n incl store ((Byte.x3a :: crash_pw) ++ Byte.x0a :: rest) = Panic e.
Proof. exact ingest_crash. Qed.
Print Assumptions C42_long_line_panics_refuted.

(** Why the bound is not 65532: one rule makes "wsx" one byte longer. *)
Theorem C42_substitution_grows_passwords : blen wsx_pw = 49153%Z
  /\ exists rule v, In rule shipped /\ apply_rule rule wsx_pw = Ok v /\ blen v = 65537%Z.
Proof. exact wsx_growth. Qed.
Print Assumptions C42_substitution_grows_passwords.

Example C42_example : forall x, exists k, full_evaluate toy_OPRF (s_oprfSuite ex_server) (s_privateKey ex_server) x (str "MIGP oprf info") = Ok k.
Proof. exact toy_full_ok. Qed.
