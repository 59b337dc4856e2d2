(** * Property C85: goroutines that insert at the same time.  Every schedule
    leaves a store that answers as if the entries had been stored one by one in
    some order that keeps the order of every goroutine; every such order is the
    work of some schedule; when the inserts are dealt out by username, the
    answers are those of the sequential program; when one user's inserts are
    in several goroutines, any of them may win.

    [loaded s work tr]: in the events [tr] goroutine t has made the inserts
    [work t], for all t, and nothing is going on any more; [reads σ] is the store
    that is then there; [merge]: see SpecParallel.v. *)
From Coq Require Import Lia.
From Verif Require Import Base BaseProofs Common Oprf OprfGroup Server Client KV KVProofs SpecEntry SpecProtocol ProtocolProofs Demo SpecDemo DemoProofs
  OrderProofs SpecConc KVConc ConcProofs InsertCalls SpecParallel ParallelProofs StoreProofs PropFinalize PropProtocol.

(** ** The calls of the store that insert makes are those of the sequential
    model: the same store, the same outcome. *)
Theorem C85_insert_makes_these_calls : forall (LIB : OPRF) (s : Server LIB) (store : kvStore) (o : op),
  let (calls, outcome) := insert_calls s (o_user o) (o_pass o) (o_meta o) (o_num o) (o_incl o) in
  do_insert s store o = (fold_left (fun kv call => fst (apply kv call)) calls store, outcome)
  /\ forall call, In call calls -> exists id entry, call = CAppend id entry.
Proof.
  intros LIB s store o. rewrite insert_calls_insert. pose proof (insert_calls_stores s o) as F.
  destruct (insert_calls s (o_user o) (o_pass o) (o_meta o) (o_num o) (o_incl o)) as [calls outcome]. cbn [fst snd] in *.
  split; [reflexivity|]. clear - F. induction F as [|d call ds calls (id & e & _ & _ & E) F IH]; intros x I; [destruct I|].
  destruct I as [<-|I]; eauto.
Qed.
Print Assumptions C85_insert_makes_these_calls.

(** ** Every schedule. *)
Theorem C85_every_schedule_is_some_order :
  forall (LIB : OPRF), OPRF_laws LIB ->
  forall (cfg : Config) (key : PrivateKey LIB) (s : Server LIB) (c : Client),
  NewServer {| sc_config := cfg; sc_privateKey := key |} = Ok s -> NewClient LIB cfg = Ok c -> (cfg_version cfg < 2 ^ 16)%N ->
  forall (work : nat -> list op) (n : nat) (tr : list event) (σ : state), (0 <= cfg_bits cfg <= 32)%Z ->
  (forall t, n <= t -> work t = []) -> kv_holdable (run_inserts s newKVStore (flat_map work (seq 0 n))) ->
  exec true tr σ -> loaded s work tr ->
  exists db, merge (fun t => stored_by s (work t)) db /\
    forall (u p : bytes) (r : Blind LIB) (k : bytes), (forall t, no_collision s (tried (work t)) u p) -> deriveBucketEntryKey s u p = Ok k ->
    run_query c s (reads σ) u p r = Ok (expected db u p).
Proof.
  intros LIB laws cfg key s c Hs Hc Hv work n tr σ B Z H E L.
  exact (schedule_query LIB laws cfg key s c Hs Hc Hv work _ _ tr σ B (merge_sequential s work n Z) (run_inserts_stores _ _ _ _) H E L).
Qed.
Print Assumptions C85_every_schedule_is_some_order.

(** Every bucket has the bytes, permuted by entries, that it has after the
    inserts one after the other; so the same length. *)
Theorem C85_bucket_lengths :
  forall (LIB : OPRF) (s : Server LIB) (work : nat -> list op) (n : nat) (tr : list event) (σ : state),
  (forall t, n <= t -> work t = []) -> exec true tr σ -> loaded s work tr ->
  forall id, length (sl (value_of (st_heap σ) (st_map σ id))) = length (sl (kv_lookup (run_inserts s newKVStore (flat_map work (seq 0 n))) id)).
Proof.
  intros LIB s work n tr σ Z E L. exact (schedule_lengths LIB s work _ _ tr σ (merge_sequential s work n Z) (run_inserts_stores _ _ _ _) E L).
Qed.
Print Assumptions C85_bucket_lengths.

(** The answer for a pair is that of one goroutine that stored the pair, as if
    it had been alone; if none did, it is "not in breach". *)
Theorem C85_answer_of_one_goroutine :
  forall (LIB : OPRF), OPRF_laws LIB ->
  forall (cfg : Config) (key : PrivateKey LIB) (s : Server LIB) (c : Client),
  NewServer {| sc_config := cfg; sc_privateKey := key |} = Ok s -> NewClient LIB cfg = Ok c -> (cfg_version cfg < 2 ^ 16)%N ->
  forall (work : nat -> list op) (n : nat) (tr : list event) (σ : state) (u p : bytes) (r : Blind LIB) (k : bytes), (0 <= cfg_bits cfg <= 32)%Z ->
  (forall t, n <= t -> work t = []) -> kv_holdable (run_inserts s newKVStore (flat_map work (seq 0 n))) ->
  exec true tr σ -> loaded s work tr ->
  (forall t, no_collision s (tried (work t)) u p) -> deriveBucketEntryKey s u p = Ok k ->
  (exists t, listed (stored_by s (work t)) u p /\ run_query c s (reads σ) u p r = Ok (expected (stored_by s (work t)) u p))
  \/ (forall t, ~ listed (stored_by s (work t)) u p) /\ run_query c s (reads σ) u p r = Ok (NotInBreach, None).
Proof.
  intros LIB laws cfg key s c Hs Hc Hv work n tr σ u p r k B Z H E L N K.
  destruct (C85_every_schedule_is_some_order LIB laws cfg key s c Hs Hc Hv work n tr σ B Z H E L) as (db & M & Q). rewrite (Q u p r k N K).
  destruct (expected_merge LIB s work db u p M) as [(t & A & ->)|(A & ->)]; [left; eauto|right; auto].
Qed.
Print Assumptions C85_answer_of_one_goroutine.

(** ** Every order is the work of a schedule. *)
Theorem C85_every_order_happens :
  forall (LIB : OPRF), OPRF_laws LIB ->
  forall (cfg : Config) (key : PrivateKey LIB) (s : Server LIB) (c : Client),
  NewServer {| sc_config := cfg; sc_privateKey := key |} = Ok s -> NewClient LIB cfg = Ok c -> (cfg_version cfg < 2 ^ 16)%N ->
  forall (work : nat -> list op) (n : nat) (db : list cred), (0 <= cfg_bits cfg <= 32)%Z ->
  (forall t, n <= t -> work t = []) -> kv_holdable (run_inserts s newKVStore (flat_map work (seq 0 n))) ->
  merge (fun t => stored_by s (work t)) db ->
  exists tr σ, exec true tr σ /\ loaded s work tr /\
    forall (u p : bytes) (r : Blind LIB) (k : bytes), (forall t, no_collision s (tried (work t)) u p) -> deriveBucketEntryKey s u p = Ok k ->
    run_query c s (reads σ) u p r = Ok (expected db u p).
Proof.
  intros LIB laws cfg key s c Hs Hc Hv work n db B Z H M.
  destruct (merge_runs s work db M) as (tr & σ & kv & E & L & _ & S & V). exists tr, σ. split; [exact E|]. split; [exact L|]. intros u p r k N K.
  exact (merged_query LIB laws cfg key s c Hs Hc Hv work _ _ db kv σ u p r k B (merge_sequential s work n Z) (run_inserts_stores _ _ _ _) H N K M S V).
Qed.
Print Assumptions C85_every_order_happens.

(** Any goroutine that stores a pair may be the one that decides the answer. *)
Theorem C85_any_goroutine_may_win :
  forall (LIB : OPRF), OPRF_laws LIB ->
  forall (cfg : Config) (key : PrivateKey LIB) (s : Server LIB) (c : Client),
  NewServer {| sc_config := cfg; sc_privateKey := key |} = Ok s -> NewClient LIB cfg = Ok c -> (cfg_version cfg < 2 ^ 16)%N ->
  forall (work : nat -> list op) (n t : nat) (u p k : bytes), (0 <= cfg_bits cfg <= 32)%Z ->
  (forall t, n <= t -> work t = []) -> kv_holdable (run_inserts s newKVStore (flat_map work (seq 0 n))) ->
  (forall t, no_collision s (tried (work t)) u p) -> deriveBucketEntryKey s u p = Ok k ->
  listed (stored_by s (work t)) u p ->
  exists tr σ, exec true tr σ /\ loaded s work tr /\
    forall r : Blind LIB, run_query c s (reads σ) u p r = Ok (expected (stored_by s (work t)) u p).
Proof.
  intros LIB laws cfg key s c Hs Hc Hv work n t u p k B Z H N K Ls.
  destruct (merge_first (fun t => stored_by s (work t)) n t) as (rest & M). { intros t' Lt. rewrite Z by exact Lt. reflexivity. }
  destruct (C85_every_order_happens LIB laws cfg key s c Hs Hc Hv work n _ B Z H M) as (tr & σ & E & L & Q). exists tr, σ. split; [exact E|]. split; [exact L|].
  intros r. rewrite (Q u p r k N K). f_equal. rewrite expected_app. apply listed_find in Ls as (d & F). rewrite F. reflexivity.
Qed.
Print Assumptions C85_any_goroutine_may_win.

(** ** Inserts dealt out by username: the answers of the sequential program. *)
Theorem C85_dealt_by_username :
  forall (LIB : OPRF), OPRF_laws LIB ->
  forall (cfg : Config) (key : PrivateKey LIB) (s : Server LIB) (c : Client),
  NewServer {| sc_config := cfg; sc_privateKey := key |} = Ok s -> NewClient LIB cfg = Ok c -> (cfg_version cfg < 2 ^ 16)%N ->
  forall (deal : bytes -> nat) (ops : list op) (tr : list event) (σ : state) (u p : bytes) (r r' : Blind LIB) (k : bytes), (0 <= cfg_bits cfg <= 32)%Z ->
  kv_holdable (run_inserts s newKVStore ops) -> exec true tr σ -> loaded s (dealt deal ops) tr ->
  no_collision s (tried ops) u p -> deriveBucketEntryKey s u p = Ok k ->
  run_query c s (reads σ) u p r = run_query c s (kv_Get (run_inserts s newKVStore ops)) u p r'.
Proof.
  intros LIB laws cfg key s c Hs Hc Hv deal ops tr σ u p r r' k B H E L N K.
  destruct (schedule_query LIB laws cfg key s c Hs Hc Hv (dealt deal ops) _ _ tr σ B (merge_dealt s deal ops) (run_inserts_stores _ _ _ _) H E L) as (db & M & Q).
  rewrite (Q u p r k); [|intros t|exact K].
  - rewrite (history_query LIB laws cfg key s c Hs Hc Hv ops u p r' k B H N K), (expected_dealt LIB s deal ops db u p M). reflexivity.
  - eapply no_collision_incl; [|exact N]. intros d I. unfold tried, dealt in *. apply in_flat_map in I as (o & O & I). apply filter_In in O as [O _]. apply in_flat_map. exists o. auto.
Qed.
Print Assumptions C85_dealt_by_username.

(** ** One user in two goroutines: the answer depends on the schedule. *)
Lemma one_stored (LIB : OPRF) (s : Server LIB) u p m : (exists id, Server_BucketID s u = Ok id) -> (exists e, EncryptBucketEntry s u p Byte.x01 m = Ok e) ->
  stored_by s [mkOp u p m 0 false] = [mkCred u p Byte.x01 m].
Proof.
  intros (id & B) (e & E). unfold stored_by, op_stores, op_creds. cbn [flat_map o_user o_pass o_meta o_num o_incl].
  assert (V : insert_creds u p m [] false = [mkCred u p Byte.x01 m]) by reflexivity.
  destruct (ConfigJson.password_variants p 0) as [vs| |] eqn:P.
  - apply variants_le in P. destruct vs; [|cbn [length] in P; lia]. rewrite V. cbn [stored_prefix d_user d_pass d_flag d_meta]. rewrite B, E. reflexivity.
  - cbn [stored_prefix d_user d_pass d_flag d_meta]. rewrite B, E. reflexivity.
  - cbn [stored_prefix d_user d_pass d_flag d_meta]. rewrite B, E. reflexivity.
Qed.
Definition two_goroutines (u p m m' : bytes) (t : nat) : list op :=
  match t with 0 => [mkOp u p m 0 false] | 1 => [mkOp u p m' 0 false] | _ => [] end.
Theorem C85_one_user_in_two_goroutines_refuted :
  forall (LIB : OPRF), OPRF_laws LIB ->
  forall (cfg : Config) (key : PrivateKey LIB) (s : Server LIB) (c : Client),
  NewServer {| sc_config := cfg; sc_privateKey := key |} = Ok s -> NewClient LIB cfg = Ok c -> (cfg_version cfg < 2 ^ 16)%N ->
  forall (u p m m' : bytes) (r : Blind LIB), (0 <= cfg_bits cfg <= 32)%Z ->
  kv_holdable (run_inserts s newKVStore [mkOp u p m 0 false; mkOp u p m' 0 false]) ->
  (exists id, Server_BucketID s u = Ok id) -> (exists e, EncryptBucketEntry s u p Byte.x01 m = Ok e) -> (exists e, EncryptBucketEntry s u p Byte.x01 m' = Ok e) ->
  (exists tr σ, exec true tr σ /\ loaded s (two_goroutines u p m m') tr /\ run_query c s (reads σ) u p r = Ok (InBreach, Some m))
  /\ (exists tr σ, exec true tr σ /\ loaded s (two_goroutines u p m m') tr /\ run_query c s (reads σ) u p r = Ok (InBreach, Some m')).
Proof.
  intros LIB laws cfg key s c Hs Hc Hv u p m m' r B H Id E E'.
  assert (Z : forall t, 2 <= t -> two_goroutines u p m m' t = []) by (intros [|[|t]] Lt; [lia..|reflexivity]).
  assert (K : exists k, deriveBucketEntryKey s u p = Ok k).
  { destruct E as (e & E). apply EncryptBucketEntry_inv in E as (k & K & _). eauto. }
  destruct K as (k & K).
  assert (N : forall t, no_collision s (tried (two_goroutines u p m m' t)) u p).
  { assert (X : forall x, no_collision s (tried [mkOp u p x 0 false]) u p).
    { intros x d k1 k2 I Ne. exfalso. apply Ne. unfold tried, op_creds in I. cbn [flat_map o_user o_pass o_meta o_num o_incl] in I. rewrite app_nil_r in I.
      destruct (ConfigJson.password_variants p 0) as [vs| |] eqn:P; [|destruct I as [<-|[]]; reflexivity..].
      apply variants_le in P. destruct vs; [|cbn [length] in P; lia]. destruct I as [<-|[]]. reflexivity. }
    intros [|[|t]]; [apply X..|]. intros d k1 k2 []. }
  split.
  - destruct (C85_any_goroutine_may_win LIB laws cfg key s c Hs Hc Hv (two_goroutines u p m m') 2 0 u p k B Z H N K) as (tr & σ & X & L & Q).
    { cbn [two_goroutines]. rewrite one_stored by assumption. exists (mkCred u p Byte.x01 m). split; [left|split]; reflexivity. }
    exists tr, σ. split; [exact X|]. split; [exact L|]. rewrite Q. cbn [two_goroutines]. rewrite one_stored by assumption. apply f_equal, (expected_insert_password u p m [] false).
  - destruct (C85_any_goroutine_may_win LIB laws cfg key s c Hs Hc Hv (two_goroutines u p m m') 2 1 u p k B Z H N K) as (tr & σ & X & L & Q).
    { cbn [two_goroutines]. rewrite one_stored by assumption. exists (mkCred u p Byte.x01 m'). split; [left|split]; reflexivity. }
    exists tr, σ. split; [exact X|]. split; [exact L|]. rewrite Q. cbn [two_goroutines]. rewrite one_stored by assumption. apply f_equal, (expected_insert_password u p m' [] false).
Qed.
Print Assumptions C85_one_user_in_two_goroutines_refuted.

(** Two goroutines list alice's "pw" in two breaches: two schedules, two
    answers; the hypotheses above are met.  And a run of inserts that are dealt
    out by username. *)
Lemma alice_stored : (exists k, deriveBucketEntryKey ex_server (str "alice") (str "pw") = Ok k) /\ exists id, Server_BucketID ex_server (str "alice") = Ok id.
Proof. eapply (stored_derives toy_OPRF ex_server); [exact (proj1 C11_example)|]. right; right; left. reflexivity. Qed.
Lemma alice_entry m : (blen m <= 8160)%Z -> exists e, EncryptBucketEntry ex_server (str "alice") (str "pw") Byte.x01 m = Ok e.
Proof. intros L. destruct (proj1 alice_stored) as (k & K). eexists. eapply EncryptBucketEntry_ok; [exact K|reflexivity|exact L]. Qed.
Lemma alice_holdable m m' : (blen m <= 8160)%Z -> (blen m' <= 8160)%Z ->
  kv_holdable (run_inserts ex_server newKVStore [mkOp (str "alice") (str "pw") m 0 false; mkOp (str "alice") (str "pw") m' 0 false]).
Proof.
  intros L L' id. pose proof (run_inserts_stores toy_OPRF ex_server [mkOp (str "alice") (str "pw") m 0 false; mkOp (str "alice") (str "pw") m' 0 false] newKVStore) as S.
  change [mkOp (str "alice") (str "pw") m 0 false; mkOp (str "alice") (str "pw") m' 0 false] with ([mkOp (str "alice") (str "pw") m 0 false] ++ [mkOp (str "alice") (str "pw") m' 0 false]) in S at 1.
  unfold stored_by in S. rewrite flat_map_app in S. fold (stored_by ex_server [mkOp (str "alice") (str "pw") m 0 false]) (stored_by ex_server [mkOp (str "alice") (str "pw") m' 0 false]) in S.
  rewrite !one_stored in S by (apply alice_stored || (apply alice_entry; assumption)).
  pose proof (store_all_weight ex_server id _ _ _ S) as W. unfold holdable, blen. rewrite W. cbn [app map list_sum fold_right newKVStore kv_lookup sl length].
  assert (Wt : forall x, (blen x <= 8160)%Z -> weight ex_server id (mkCred (str "alice") (str "pw") Byte.x01 x) <= 25 + length x).
  { intros x Lx. unfold weight. cbn [d_user d_pass d_flag d_meta]. destruct (Server_BucketID ex_server (str "alice")); [|lia..].
    destruct (EncryptBucketEntry ex_server (str "alice") (str "pw") Byte.x01 x) as [e| |] eqn:E; [|lia..]. apply entry_size in E. destruct (bytes_eqb _ _); lia. }
  pose proof (Wt m L). pose proof (Wt m' L'). unfold blen in L, L'. lia.
Qed.
Example C85_example :
  (exists tr σ, exec true tr σ /\ loaded ex_server (two_goroutines (str "alice") (str "pw") (str "1") (str "2")) tr
     /\ @run_query toy_OPRF ex_client ex_server (reads σ) (str "alice") (str "pw") 9%N = Ok (InBreach, Some (str "1")))
  /\ (exists tr σ, exec true tr σ /\ loaded ex_server (two_goroutines (str "alice") (str "pw") (str "1") (str "2")) tr
     /\ @run_query toy_OPRF ex_client ex_server (reads σ) (str "alice") (str "pw") 9%N = Ok (InBreach, Some (str "2")))
  /\ (forall (deal : bytes -> nat) (ops : list op), exists tr σ, exec true tr σ /\ loaded ex_server (dealt deal ops) tr)
  /\ dealt (@length byte) [mkOp (str "alice") (str "pw") [] 0 false; mkOp (str "bob") (str "x") [] 0 false; mkOp (str "alice") (str "y") [] 0 false] 5
     = [mkOp (str "alice") (str "pw") [] 0 false; mkOp (str "alice") (str "y") [] 0 false].
Proof.
  destruct ex_server_ok as (Hs & Hc & Hv & laws).
  assert (L : forall x, In x [str "1"; str "2"] -> (blen x <= 8160)%Z) by (intros x [<-|[<-|[]]]; cbn; lia).
  destruct (C85_one_user_in_two_goroutines_refuted toy_OPRF laws ex_cfg (toy_key 3) ex_server ex_client Hs Hc Hv (str "alice") (str "pw") (str "1") (str "2") 9%N) as [A B].
  - cbn. lia.
  - apply alice_holdable; apply L; cbn; auto.
  - apply alice_stored.
  - apply alice_entry, L. cbn; auto.
  - apply alice_entry, L. cbn; auto.
  - split; [exact A|]. split; [exact B|]. split; [|reflexivity].
    intros deal ops. destruct (merge_runs ex_server (dealt deal ops) _ (merge_dealt ex_server deal ops)) as (tr & σ & kv & E & Ld & _). eauto.
Qed.
