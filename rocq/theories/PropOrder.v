(** * Property C56: what a history of inserts means.  Answers for a username
    depend only on the inserts for that username, in their order; repeating
    inserts changes nothing; an insert succeeds or fails whatever is stored.
    The same for breach files and the two programs.

    [run_inserts s newKVStore ops] is the store after the inserts [ops];
    [for_user u ops] are those for the username [u]; [tried ops] are all the
    credentials they try to store. *)
From Verif Require Import Base BaseProofs Common Oprf OprfGroup Server Client KV Mutator Json ConfigJson Scanner Demo Flags Main
  SpecEntry SpecProtocol SpecDemo SpecHttp SpecMain FlagsProofs ProtocolProofs DemoProofs IngestProofs OrderProofs MainProofs PropFinalize PropProtocol PropMain.

(** ** The outcome of an insert does not depend on the store. *)
Theorem C56_outcome_independent_of_store : forall (LIB : OPRF) (s : Server LIB) (store store' : kvStore) (o : op),
  snd (do_insert s store o) = snd (do_insert s store' o).
Proof. exact insert_outcome. Qed.
Print Assumptions C56_outcome_independent_of_store.

(** ** What a history stores, failing inserts included: of each insert the
    credentials before the first that cannot be encrypted. *)
Theorem C56_history_stores : forall (LIB : OPRF) (s : Server LIB) (ops : list op),
  store_all s newKVStore (stored_by s ops) = Ok (run_inserts s newKVStore ops).
Proof. intros. apply run_inserts_stores. Qed.
Print Assumptions C56_history_stores.

Theorem C56_every_query_after_a_history :
  forall (LIB : OPRF), OPRF_laws LIB ->
  forall (cfg : Config) (key : PrivateKey LIB) (s : Server LIB) (c : Client),
  NewServer {| sc_config := cfg; sc_privateKey := key |} = Ok s -> NewClient LIB cfg = Ok c -> (cfg_version cfg < 2 ^ 16)%N ->
  forall (ops : list op) (u p : bytes) (r : Blind LIB) (k : bytes), (0 <= cfg_bits cfg <= 32)%Z ->
  kv_holdable (run_inserts s newKVStore ops) -> no_collision s (tried ops) u p -> deriveBucketEntryKey s u p = Ok k ->
  run_query c s (kv_Get (run_inserts s newKVStore ops)) u p r = Ok (expected (stored_by s ops) u p).
Proof. exact history_query. Qed.
Print Assumptions C56_every_query_after_a_history.

(** ** Other users do not matter. *)
Theorem C56_other_users_do_not_matter :
  forall (LIB : OPRF), OPRF_laws LIB ->
  forall (cfg : Config) (key : PrivateKey LIB) (s : Server LIB) (c : Client),
  NewServer {| sc_config := cfg; sc_privateKey := key |} = Ok s -> NewClient LIB cfg = Ok c -> (cfg_version cfg < 2 ^ 16)%N ->
  forall (ops ops' : list op) (u p : bytes) (r r' : Blind LIB) (k : bytes), (0 <= cfg_bits cfg <= 32)%Z ->
  kv_holdable (run_inserts s newKVStore ops) -> kv_holdable (run_inserts s newKVStore ops') ->
  no_collision s (tried ops) u p -> no_collision s (tried ops') u p -> deriveBucketEntryKey s u p = Ok k ->
  for_user u ops = for_user u ops' ->
  run_query c s (kv_Get (run_inserts s newKVStore ops)) u p r = run_query c s (kv_Get (run_inserts s newKVStore ops')) u p r'.
Proof. exact queries_for_user. Qed.
Print Assumptions C56_other_users_do_not_matter.

(** ** Repeated inserts change nothing. *)
Theorem C56_repeated_inserts_change_nothing :
  forall (LIB : OPRF), OPRF_laws LIB ->
  forall (cfg : Config) (key : PrivateKey LIB) (s : Server LIB) (c : Client),
  NewServer {| sc_config := cfg; sc_privateKey := key |} = Ok s -> NewClient LIB cfg = Ok c -> (cfg_version cfg < 2 ^ 16)%N ->
  forall (ops more : list op) (u p : bytes) (r r' : Blind LIB) (k : bytes), (0 <= cfg_bits cfg <= 32)%Z ->
  kv_holdable (run_inserts s newKVStore ops) -> kv_holdable (run_inserts s newKVStore (ops ++ more)) ->
  no_collision s (tried ops) u p -> deriveBucketEntryKey s u p = Ok k ->
  (forall o, In o more -> In o ops) ->
  run_query c s (kv_Get (run_inserts s newKVStore (ops ++ more))) u p r = run_query c s (kv_Get (run_inserts s newKVStore ops)) u p r'.
Proof. exact queries_repeat. Qed.
Print Assumptions C56_repeated_inserts_change_nothing.

(** ** The order of one user's inserts does matter: a password listed after a
    similar one is reported as similar, before it as breached. *)
Definition ex_op (u p : string) (m : string) : op := mkOp (str u) (str p) (str m) 1 false.
Definition ex_history : list op := [ex_op "alice" "hello" "1"; ex_op "bob" "x" "2"; ex_op "alice" "Hello" "3"]%string.
Definition ex_reordered : list op := [ex_op "bob" "x" "2"; ex_op "alice" "hello" "1"; ex_op "alice" "Hello" "3"]%string.
Definition ex_swapped : list op := [ex_op "alice" "Hello" "3"; ex_op "bob" "x" "2"; ex_op "alice" "hello" "1"]%string.
Definition ex_answer (ops : list op) (u p : string) : res (BreachStatus * gslice) :=
  @run_query toy_OPRF ex_client ex_server (kv_Get (run_inserts ex_server newKVStore ops)) (str u) (str p) 9%N.
Theorem C56_order_of_one_user_matters_refuted :
  ex_answer ex_history "alice" "Hello" = Ok (SimilarInBreach, Some (str "1"))
  /\ ex_answer ex_swapped "alice" "Hello" = Ok (InBreach, Some (str "3"))
  /\ (forall o, In o ex_history <-> In o ex_swapped) /\ length ex_history = length ex_swapped.
Proof.
  split; [vm_compute; reflexivity|]. split; [vm_compute; reflexivity|]. split; [|reflexivity]. intros o. unfold ex_history, ex_swapped. cbn [In]. tauto.
Qed.
Print Assumptions C56_order_of_one_user_matters_refuted.

Lemma small_history_holdable (ops : list op) : forallb (fun x => (blen (sl (snd x)) <=? 1000)%Z) (run_inserts ex_server newKVStore ops) = true ->
  kv_holdable (run_inserts ex_server newKVStore ops).
Proof. apply small_store_holdable. Qed.
Example C56_example :
  (forall u, for_user u ex_history = for_user u ex_reordered) /\ ex_history <> ex_reordered
  /\ ex_answer ex_reordered "alice" "Hello" = Ok (SimilarInBreach, Some (str "1"))
  /\ ex_answer (ex_history ++ ex_swapped) "alice" "Hello" = Ok (SimilarInBreach, Some (str "1"))
  /\ kv_holdable (run_inserts ex_server newKVStore ex_history) /\ kv_holdable (run_inserts ex_server newKVStore (ex_history ++ ex_swapped))
  /\ no_collision ex_server (tried ex_history) (str "alice") (str "Hello")
  /\ length (tried ex_history) = 6%nat.
Proof.
  split. { intros u. unfold for_user, ex_history, ex_reordered. cbn [filter o_user ex_op].
    destruct (bytes_eqb (str "alice") u) eqn:A, (bytes_eqb (str "bob") u) eqn:B; try reflexivity.
    apply bytes_eqb_eq in A, B. subst u. discriminate. }
  split; [discriminate|]. split; [vm_compute; reflexivity|]. split; [vm_compute; reflexivity|].
  split; [apply small_history_holdable; vm_compute; reflexivity|]. split; [apply small_history_holdable; vm_compute; reflexivity|].
  split; [apply no_collisionb_ok; vm_compute; reflexivity|vm_compute; reflexivity].
Qed.

(** ** The programs: two breach files that list the same passwords of every
    user in the same order, and a breach file of which lines are repeated. *)
Theorem C56_breach_files_in_another_order : forall (LIB : OPRF), OPRF_laws LIB ->
  forall (sargs : list bytes) (sfs sfs' : files) (gen : res (PrivateKey LIB)) (addr addr' : bytes) (srv srv' : server LIB) (ok bad ok' bad' : N)
    (so : server_opts) (breach breach' : bytes),
  server_program sargs sfs gen = SServing addr srv ok bad -> server_program sargs sfs' gen = SServing addr' srv' ok' bad' ->
  server_flags sargs = FParsed so -> f_open sfs (so_config so) = f_open sfs' (so_config so) ->
  given sfs (so_infile so) breach -> given sfs' (so_infile so) breach' ->
  same_lines_per_user (with_colon (scan_lines breach)) (with_colon (scan_lines breach')) ->
  let cfg := sc_config (Server_Config (migpServer srv)) in
  let ops := breach_ops (so_metadata so) (so_num so) (so_username so) (with_colon (scan_lines breach)) in
  let ops' := breach_ops (so_metadata so) (so_num so) (so_username so) (with_colon (scan_lines breach')) in
  client_suite LIB 3 = Ok tt -> cfg_oprfSuite cfg = 3%N -> (0 <= cfg_bits cfg <= 32)%Z -> kv_holdable (kv srv) -> kv_holdable (kv srv') ->
  forall (cargs : list bytes) (cfs : files) (co : client_opts) (host queries : bytes) (blinds blinds' : nat -> Blind LIB),
  client_flags cargs = FParsed co -> plain_host host -> co_target co = str "http://" ++ host -> co_config co = [] -> co_dump co = false -> given cfs (co_infile co) queries ->
  (forall u p, In (u, p) (with_colon (scan_lines queries)) ->
     (exists k, deriveBucketEntryKey (migpServer srv) u p = Ok k)
     /\ no_collision (migpServer srv) (tried ops) u p /\ no_collision (migpServer srv) (tried ops') u p) ->
  client_program cargs cfs (behind srv host) blinds = client_program cargs cfs (behind srv' host) blinds'.
Proof.
  intros LIB laws sargs sfs sfs' gen addr addr' srv srv' ok bad ok' bad' so breach breach' H H' SF FO I I' L cfg ops ops' CS S3 B Hh Hh' cargs cfs co host queries blinds blinds' CF PH CT CC CD CI Q.
  apply input_given in I, I', CI.
  apply (files_agree LIB laws sargs sfs sfs' gen addr addr' srv srv' ok bad ok' bad' so breach breach' H H' SF FO I I') with (co := co) (queries := queries); try assumption.
  intros s u p. apply expected_same_lines. exact L.
Qed.
Print Assumptions C56_breach_files_in_another_order.

Theorem C56_breach_files_with_repeated_lines : forall (LIB : OPRF), OPRF_laws LIB ->
  forall (sargs : list bytes) (sfs sfs' : files) (gen : res (PrivateKey LIB)) (addr addr' : bytes) (srv srv' : server LIB) (ok bad ok' bad' : N)
    (so : server_opts) (breach breach' : bytes) (more : list (bytes * bytes)),
  server_program sargs sfs gen = SServing addr srv ok bad -> server_program sargs sfs' gen = SServing addr' srv' ok' bad' ->
  server_flags sargs = FParsed so -> f_open sfs (so_config so) = f_open sfs' (so_config so) ->
  given sfs (so_infile so) breach -> given sfs' (so_infile so) breach' ->
  with_colon (scan_lines breach') = with_colon (scan_lines breach) ++ more -> (forall l, In l more -> In l (with_colon (scan_lines breach))) ->
  let cfg := sc_config (Server_Config (migpServer srv)) in
  let ops := breach_ops (so_metadata so) (so_num so) (so_username so) (with_colon (scan_lines breach)) in
  client_suite LIB 3 = Ok tt -> cfg_oprfSuite cfg = 3%N -> (0 <= cfg_bits cfg <= 32)%Z -> kv_holdable (kv srv) -> kv_holdable (kv srv') ->
  forall (cargs : list bytes) (cfs : files) (co : client_opts) (host queries : bytes) (blinds blinds' : nat -> Blind LIB),
  client_flags cargs = FParsed co -> plain_host host -> co_target co = str "http://" ++ host -> co_config co = [] -> co_dump co = false -> given cfs (co_infile co) queries ->
  (forall u p, In (u, p) (with_colon (scan_lines queries)) ->
     (exists k, deriveBucketEntryKey (migpServer srv) u p = Ok k) /\ no_collision (migpServer srv) (tried ops) u p) ->
  client_program cargs cfs (behind srv host) blinds = client_program cargs cfs (behind srv' host) blinds'.
Proof.
  intros LIB laws sargs sfs sfs' gen addr addr' srv srv' ok bad ok' bad' so breach breach' more H H' SF FO I I' L M cfg ops CS S3 B Hh Hh'
    cargs cfs co host queries blinds blinds' CF PH CT CC CD CI Q.
  apply input_given in I, I', CI.
  apply (files_agree LIB laws sargs sfs sfs' gen addr addr' srv srv' ok bad ok' bad' so breach breach' H H' SF FO I I') with (co := co) (queries := queries); try assumption.
  - intros s u p. rewrite L. symmetry. apply expected_repeated_lines. exact M.
  - intros u p U. destruct (Q u p U) as [K N]. split; [exact K|]. split; [exact N|]. rewrite L.
    eapply no_collision_incl; [|exact N]. intros d J. unfold ops, breach_ops in *. rewrite map_app in J. eapply tried_repeat; [|exact J].
    intros o O. apply in_map_iff in O as (x & <- & O). apply in_map_iff. eauto.
Qed.
Print Assumptions C56_breach_files_with_repeated_lines.

(** Runs that meet the hypotheses: the breach file of C44 in another order, and
    twice. *)
Definition ex_breach2 : bytes := str "bob:x:y" ++ [Byte.x0a] ++ str "alice:hello" ++ [Byte.x0a].
Definition ex_breach3 : bytes := str "alice:hello" ++ [Byte.x0a] ++ str "bob:x:y" ++ [Byte.x0a] ++ str "bob:x:y" ++ [Byte.x0a] ++ str "alice:hello".
Definition ex_sfs_of (b : bytes) : files := mkFiles (fun n => if bytes_eqb n (str "c.json") then Some ex_conf else None) b.
Definition ex_run_of (b : bytes) : server_run toy_OPRF := @server_program toy_OPRF ex_sargs (ex_sfs_of b) (Err "unused").
Definition ex_srv_of (b : bytes) : server toy_OPRF := match ex_run_of b with SServing _ s _ _ => s | _ => mkDemoServer ex_server [] end.
Example C56_example_files :
  match ex_run_of ex_breach2, ex_run_of ex_breach3 with SServing _ _ 2 0, SServing _ _ 4 0 => True | _, _ => False end
  /\ same_lines_per_user (with_colon (scan_lines ex_breach)) (with_colon (scan_lines ex_breach2))
  /\ with_colon (scan_lines ex_breach3) = with_colon (scan_lines ex_breach) ++ [(str "bob", str "x:y"); (str "alice", str "hello")]
  /\ kv_holdable (kv (ex_srv_of ex_breach2)) /\ kv_holdable (kv (ex_srv_of ex_breach3))
  /\ kv (ex_srv_of ex_breach2) <> kv ex_srv
  /\ x_stdout (@client_program toy_OPRF ex_cargs ex_cfs (behind (ex_srv_of ex_breach3) (str "localhost:8080")) (fun i => N.of_nat (i + 5))) = ex_text.
Proof.
  split; [vm_compute; exact Logic.I|].
  assert (W : with_colon (scan_lines ex_breach) = [(str "alice", str "hello"); (str "bob", str "x:y")]) by (vm_compute; reflexivity).
  assert (W2 : with_colon (scan_lines ex_breach2) = [(str "bob", str "x:y"); (str "alice", str "hello")]) by (vm_compute; reflexivity).
  split. { rewrite W, W2. intros u. cbn [filter fst].
    destruct (bytes_eqb (str "alice") u) eqn:A, (bytes_eqb (str "bob") u) eqn:B; try reflexivity.
    apply bytes_eqb_eq in A, B. subst u. discriminate. }
  split; [vm_compute; reflexivity|].
  split; [apply small_store_holdable; vm_compute; reflexivity|]. split; [apply small_store_holdable; vm_compute; reflexivity|].
  split; [vm_compute; discriminate|vm_compute; reflexivity].
Qed.
