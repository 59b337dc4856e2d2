(** * Property C63: changing the configuration of a server that has data. *)
From Verif Require Import Base BaseProofs Common Hasher Encryptor Oprf OprfGroup Server Client KV
  SpecEntry SpecProtocol SpecMigrate SpecTrust MigrateProofs PropFinalize PropProtocol.

(** Version and bit size do not show in the entries. *)
Theorem C63_entries_stay_valid : forall (LIB : OPRF) (cfg cfg' : Config) (key : PrivateKey LIB) (s s' : Server LIB),
  NewServer {| sc_config := cfg; sc_privateKey := key |} = Ok s -> NewServer {| sc_config := cfg'; sc_privateKey := key |} = Ok s' ->
  cfg_slowHasher cfg = cfg_slowHasher cfg' -> cfg_oprfSuite cfg = cfg_oprfSuite cfg' ->
  forall (u p : bytes) (f : byte) (m : bytes), EncryptBucketEntry s u p f m = EncryptBucketEntry s' u p f m.
Proof. exact same_entries. Qed.
Print Assumptions C63_entries_stay_valid.

(** With fewer bits the bucket of a username is the prefix of what it was,
    whatever else changes, so buckets are joined and never split. *)
Theorem C63_fewer_bits_join_buckets : forall (LIB : OPRF) (cfg cfg' : Config) (key key' : PrivateKey LIB) (s s' : Server LIB) (u : bytes) (id' : N),
  NewServer {| sc_config := cfg; sc_privateKey := key |} = Ok s -> NewServer {| sc_config := cfg'; sc_privateKey := key' |} = Ok s' ->
  (0 <= cfg_bits cfg <= cfg_bits cfg')%Z -> Server_BucketID s' u = Ok id' ->
  Server_BucketID s u = Ok (N.shiftr id' (Z.to_N (cfg_bits cfg' - cfg_bits cfg))).
Proof. exact prefix_id. Qed.
Print Assumptions C63_fewer_bits_join_buckets.

(** So a store filled under cfg' can be served under a configuration with
    fewer bits and any version, without the credentials and without the key:
    regrouped, it gives every client of that configuration the same answers. *)
Theorem C63_regrouped_store_answers_the_same : forall (LIB : OPRF), OPRF_laws LIB ->
  forall (cfg cfg' : Config) (key : PrivateKey LIB) (s s' : Server LIB) (c : Client) (db : list cred) (fine : kvStore) (kv : Getter)
    (u p : bytes) (r : Blind LIB) (k : bytes),
  NewServer {| sc_config := cfg; sc_privateKey := key |} = Ok s -> NewServer {| sc_config := cfg'; sc_privateKey := key |} = Ok s' ->
  NewClient LIB cfg = Ok c -> (cfg_version cfg < 2 ^ 16)%N ->
  cfg_slowHasher cfg = cfg_slowHasher cfg' -> cfg_oprfSuite cfg = cfg_oprfSuite cfg' ->
  (0 <= cfg_bits cfg <= cfg_bits cfg')%Z -> (cfg_bits cfg' <= 32)%Z ->
  store_all s' newKVStore db = Ok fine -> regrouped fine (Z.to_N (cfg_bits cfg)) (Z.to_N (cfg_bits cfg' - cfg_bits cfg)) kv ->
  no_collision s' db u p -> deriveBucketEntryKey s u p = Ok k ->
  run_query c s kv u p r = Ok (expected db u p).
Proof. exact run_regrouped. Qed.
Print Assumptions C63_regrouped_store_answers_the_same.

Theorem C63_joining_neighbours_regroups : forall (fine : kvStore) (bits more : N), (bits + more <= 32)%N ->
  (forall id, (id < 2 ^ bits)%N -> holdable (joined fine more id)) -> regrouped fine bits more (regroup fine more).
Proof. exact regroup_ok. Qed.
Print Assumptions C63_joining_neighbours_regroups.

(** Finding: after a change of the key, of the slow hasher or of the suite the
    old entries are dead, silently: every client is told "not in breach", unless
    its key meets the key check of an old entry by accident. *)
Theorem C63_stale_entries_are_silent_refuted : forall (LIB : OPRF), OPRF_laws LIB ->
  forall (cfg cfg' : Config) (key key' : PrivateKey LIB) (s s' : Server LIB) (c : Client) (db : list cred) (kv : kvStore)
    (u p : bytes) (r : Blind LIB) (k' : bytes),
  NewServer {| sc_config := cfg; sc_privateKey := key |} = Ok s ->
  NewServer {| sc_config := cfg'; sc_privateKey := key' |} = Ok s' -> NewClient LIB cfg' = Ok c -> (cfg_version cfg' < 2 ^ 16)%N ->
  (0 <= cfg_bits cfg' <= 32)%Z ->
  store_all s newKVStore db = Ok kv -> kv_holdable kv ->
  deriveBucketEntryKey s' u p = Ok k' ->
  (forall d k, In d db -> deriveBucketEntryKey s (d_user d) (d_pass d) = Ok k -> key_check k <> key_check k') ->
  run_query c s' (kv_Get kv) u p r = Ok (NotInBreach, None).
Proof. exact run_stale. Qed.
Print Assumptions C63_stale_entries_are_silent_refuted.

(** The store of C11's example under version 2 and 18 bits, and under another
    key. *)
Definition ex_cfg18 : Config := mkConfig 2 18 1 0 1 3.
Definition ex_server18 : Server toy_OPRF := mkServer 2%N 18%Z NewSHA256BucketHasher hkdfSHA256BucketEncryptor nullSlowHasher 3%N (toy_key 3).
Definition ex_client18 : Client := match NewClient toy_OPRF ex_cfg18 with Ok c => c | _ => ex_client end.
Lemma lookup_size kv id n : Forall (fun e => (length (sl (snd e)) <= n)%nat) kv -> (length (sl (kv_lookup kv id)) <= n)%nat.
Proof.
  intros F. induction F as [|[k v] kv H F IH]; cbn [kv_lookup]; [cbn; lia|]. destruct (bytes_eqb k id); [exact H|exact IH].
Qed.
Example C63_example :
  NewServer {| sc_config := ex_cfg18; sc_privateKey := toy_key 3 |} = Ok ex_server18 /\ NewClient toy_OPRF ex_cfg18 = Ok ex_client18
  /\ regrouped ex_kv 18 2 (regroup ex_kv 2)
  /\ @run_query toy_OPRF ex_client18 ex_server18 (regroup ex_kv 2) (str "alice") (str "pw") 9%N = Ok (UsernameInBreach, Some (str "first"))
  /\ @run_query toy_OPRF ex_client18 ex_server18 (kv_Get ex_kv) (str "alice") (str "pw") 9%N = Ok (NotInBreach, None)
  /\ exists s', @NewServer toy_OPRF {| sc_config := ex_cfg; sc_privateKey := (3%N, 78%Z) : PrivateKey toy_OPRF |} = Ok s'
     /\ @run_query toy_OPRF ex_client s' (kv_Get ex_kv) (str "alice") (str "pw") 9%N = Ok (NotInBreach, None).
Proof.
  split; [reflexivity|]. split; [reflexivity|]. split.
  { apply C63_joining_neighbours_regroups; [lia|]. intros id _. unfold holdable, joined.
    assert (F : Forall (fun e => (length (sl (snd e)) <= 1000)%nat) ex_kv).
    { apply Forall_forall. intros e E. apply Nat.leb_le. revert e E. apply forallb_forall. vm_compute. reflexivity. }
    change (seq 0 (N.to_nat (2 ^ 2))) with [0; 1; 2; 3]%nat. cbn [flat_map]. rewrite app_nil_r. unfold blen. rewrite !app_length.
    pose proof (fun id => lookup_size ex_kv id 1000 F) as L.
    pose proof (L (BucketIDToHex (id * 2 ^ 2 + N.of_nat 0))). pose proof (L (BucketIDToHex (id * 2 ^ 2 + N.of_nat 1))).
    pose proof (L (BucketIDToHex (id * 2 ^ 2 + N.of_nat 2))). pose proof (L (BucketIDToHex (id * 2 ^ 2 + N.of_nat 3))).
    clear L F. lia. }
  split; [vm_compute; reflexivity|]. split; [vm_compute; reflexivity|]. eexists. split; [reflexivity|]. vm_compute. reflexivity.
Qed.
