(** * C78: how likely a false alarm is.

    C12 says that a credential that was never stored is reported as not in
    breach unless 20 bytes collide.  Here the streams of HKDF are replaced by
    arbitrary ones, as in C72, and the colliding values are counted: of the
    2^160 values the check bytes of a secret can have, at most one for each
    entry of the bucket raises an alarm, and these values do not depend on the
    streams of that secret.  So with random streams the probability of a false
    alarm is at most the number of entries of the bucket divided by 2^160. *)
From Coq Require Import Lia.
From Verif Require Import Base BaseProofs Hkdf Common Hasher Encryptor Oprf OprfGroup Server Client KV
  SpecEntry SpecProtocol SpecIdeal Ideal IdealProofs FinalizeProofs ProtocolProofs EncryptorProofs ChanceProofs SpecChance PropProtocol PropIdeal.

(** The values that check bytes can have. *)
Theorem C78_number_of_checks : exists all : list bytes,
  NoDup all /\ (forall c, In c all <-> length c = 20%nat) /\ N.of_nat (length all) = (2 ^ 160)%N.
Proof.
  exists (strings 20). split; [apply strings_nodup|]. split; [apply strings_in|]. rewrite strings_length.
  replace (N.of_nat (256 ^ 20)) with (256 ^ 20)%N; [reflexivity|]. clear.
  assert (H : forall n, N.of_nat (256 ^ n) = (256 ^ N.of_nat n)%N).
  { induction n as [|n IH]; [reflexivity|]. rewrite Nat.pow_succ_r', Nat2N.inj_mul, IH, (Nat2N.inj_succ n), N.pow_succ_r'. reflexivity. }
  symmetry. rewrite H. reflexivity.
Qed.
Print Assumptions C78_number_of_checks.

(** Whatever bucket a server sends: at most one value of the check bytes for
    every 25 bytes of it makes the client say anything but "not in breach" or
    "parsing error in bucket".  [bad] depends on the bucket only. *)
Theorem C78_any_bucket : forall bucket : gslice, holdable (sl bucket) ->
  exists bad : list bytes,
    (25 * length bad <= length (sl bucket))%nat /\ Forall (fun c => length c = 20%nat) bad /\
    forall (O : streams) (LIB : OPRF) (ctx : ClientRequestContext LIB) (version : N) (element x : bytes),
    let response := {| rs_version := version; rs_evaluatedElement := element; rs_bucketContents := bucket |} in
    finalize_secret ctx response = Ok x ->
    (Finalize_o O ctx response = Ok (NotInBreach, None) \/ Finalize_o O ctx response = Err "parsing error in bucket")
    <-> ~ In (check_bytes O x) bad.
Proof.
  intros bucket Hb. destruct (decompose (sl bucket)) as (es & t & E & F & T). exists (map e_check es). split; [|split].
  - rewrite map_length, E, app_length. clear -F. induction F as [|e es [L _] F IH]; [cbn; lia|]. cbn [length bucket_bytes flat_map]. rewrite app_length.
    rewrite entry_bytes_length by exact L. fold (bucket_bytes es). lia.
  - apply Forall_forall. intros c I. apply in_map_iff in I as (e & <- & I). rewrite Forall_forall in F. exact (proj1 (F e I)).
  - intros O LIB ctx v el x resp X. destruct (finalize_o O ctx resp x es t X E F T) as [A B].
    { rewrite <- E. unfold small. unfold holdable in Hb. lia. }
    split; [intros Q I; exact (A I Q)|intros N; exact (proj2 (B N))].
Qed.
Print Assumptions C78_any_bucket.

(** A server that holds [db], and secrets [xs] that are not keys of [db]: the
    store does not depend on the streams of [xs], and a query of [u] for a
    password with secret [x] in [xs] raises an alarm exactly for the values in
    [bad] of its check bytes, at most one for each entry of the bucket. *)
Theorem C78_never_stored (LIB : OPRF) : OPRF_laws LIB ->
  forall (cfg : Config) (key : PrivateKey LIB) (s : Server LIB) (c : Client),
  NewServer {| sc_config := cfg; sc_privateKey := key |} = Ok s -> NewClient LIB cfg = Ok c -> (cfg_version cfg < 2 ^ 16)%N ->
  forall (O : streams) (db : list cred) (store : kvStore), store_all_o O s newKVStore db = Ok store -> kv_holdable store ->
  forall xs : list bytes, (forall d x, In d db -> deriveBucketEntryKey s (d_user d) (d_pass d) = Ok x -> ~ In x xs) ->
  forall (u : bytes) (id : N), Server_BucketID s u = Ok id ->
  exists bad : list bytes,
    (length bad <= in_bucket_count s id db)%nat /\ Forall (fun c => length c = 20%nat) bad /\
    forall O' : streams, differ_only_at xs O O' ->
      store_all_o O' s newKVStore db = Ok store /\
      forall (p x : bytes) (r : Blind LIB), deriveBucketEntryKey s u p = Ok x ->
        (run_query_o O' c s (kv_Get store) u p r = Ok (NotInBreach, None) <-> ~ In (check_bytes O' x) bad).
Proof.
  intros laws cfg key s c Hs Hc Hv O db store St Hk xs Hx u id Hid.
  destruct (store_o_bucket s O id (id_small s u id Hid) db newKVStore store St) as (es & F & L & B). cbn [kv_lookup newKVStore sl app] in B.
  exists (map e_check es). split; [rewrite map_length; lia|]. split.
  { apply Forall_forall. intros k I. apply in_map_iff in I as (e & <- & I). rewrite Forall_forall in F. exact (proj1 (F e I)). }
  intros O' D. split.
  { rewrite <- St. symmetry. apply store_o_local. intros d x I X salt i. apply D. exact (Hx d x I X). }
  intros p x r K. unfold run_query_o.
  destruct (request_answer LIB laws cfg key s c Hs Hc Hv u p r x id (kv_Get store) _ K Hid eq_refl) as (b & e & ctx & R1 & R2 & _ & S & _).
  rewrite R1, R2. cbn [bind]. apply client_secret_ok in S.
  destruct (finalize_o O' ctx _ x es [] S) as [A C]; [unfold kv_Get; cbn [rs_bucketContents]; rewrite app_nil_r; exact B|exact F|left; unfold short_tail; cbn; lia| |].
  { rewrite app_nil_r, <- B. specialize (Hk (BucketIDToHex id)). unfold holdable in Hk. unfold small. lia. }
  split; [intros Q I; exact (A I (or_introl Q))|]. intros N. apply (C N). unfold short_tail. cbn. lia.
Qed.
Print Assumptions C78_never_stored.

(** With HKDF's streams the check bytes are the first 20 of HKDF-SHA-256, and
    (C72_hkdf_is_an_instance) the functions are those of the code. *)
Theorem C78_hkdf_checks : forall x, check_bytes hkdf_streams x = hkdf x "MIGP derive pad header" 20.
Proof.
  intros x. unfold hkdf, check_bytes. generalize (str "MIGP derive pad header"). intros salt. pose proof (derivePad_same x salt 20) as H.
  unfold derivePad_o in H. assert (L : (hkdf_limit <? N.of_nat 20)%N = false) by reflexivity. rewrite L in H. unfold derivePad in H.
  revert H. generalize (map (hkdf_streams x salt) (seq 0 20)) (hkdf_read x salt [] 20). intros m [p| |]; cbn [bind]; try discriminate.
  destruct (Nat.eqb _ _); [|discriminate]. intros H. apply Ok_inj in H. exact H.
Qed.
Print Assumptions C78_hkdf_checks.

(** alice's passwords "pw" and "other" are stored, "secret" is not; whatever the
    streams, the store can be made and the bucket has two entries, so at most
    two of the 2^160 values of the check bytes for "secret" raise an alarm. *)
Definition ex78_secret : bytes := match deriveBucketEntryKey ex_server (str "alice") (str "secret") with Ok k => k | _ => [] end.
Definition ex78_id : N := match Server_BucketID ex_server (str "alice") with Ok i => i | _ => 0%N end.
Example C78_example :
  Server_BucketID ex_server (str "alice") = Ok ex78_id /\ in_bucket_count ex_server ex78_id ex72_db = 2%nat /\
  deriveBucketEntryKey ex_server (str "alice") (str "secret") = Ok ex78_secret /\
  (forall d x, In d ex72_db -> deriveBucketEntryKey ex_server (d_user d) (d_pass d) = Ok x -> ~ In x [ex78_secret]) /\
  forall O, exists store, store_all_o O ex_server newKVStore ex72_db = Ok store.
Proof.
  split; [vm_compute; reflexivity|]. split; [vm_compute; reflexivity|]. split; [vm_compute; reflexivity|]. split.
  - assert (N : forall d x, forallb (fun d => match deriveBucketEntryKey ex_server (d_user d) (d_pass d) with Ok k => negb (bytes_eqb ex78_secret k) | _ => true end) ex72_db = true ->
      In d ex72_db -> deriveBucketEntryKey ex_server (d_user d) (d_pass d) = Ok x -> ~ In x [ex78_secret]).
    { intros d x H I K [<-|[]]. rewrite forallb_forall in H. specialize (H d I). rewrite K, bytes_eqb_refl in H. discriminate. }
    intros d x. apply N. vm_compute. reflexivity.
  - intros O. assert (E : forall d, In d ex72_db -> (exists id, Server_BucketID ex_server (d_user d) = Ok id) /\ exists e, EncryptBucketEntry_o O ex_server (d_user d) (d_pass d) (d_flag d) (d_meta d) = Ok e).
    { destruct C72_example as (_ & I & _). intros d D. split; [destruct D as [<-|[<-|[]]]; exists ex78_id; vm_compute; reflexivity|].
      assert (K : exists k, deriveBucketEntryKey ex_server (d_user d) (d_pass d) = Ok k).
      { revert D. clear -I. induction I as [|d' i db l (J & _) I IH]; [intros []|]. intros [<-|D]; [eauto|apply IH, D]. }
      destruct K as (k & K). unfold EncryptBucketEntry_o. rewrite K.
      assert (V : MetadataType_Valid (d_flag d) = true /\ length (d_meta d) = 2%nat) by (destruct D as [<-|[<-|[]]]; split; reflexivity).
      destruct V as [V Lm]. rewrite V. cbn [negb bind]. change (Encrypt_o O k (d_flag d) (d_meta d)) with (seal O (mkItem k (d_flag d) (d_meta d))).
      rewrite seal_value. cbn [i_body]. rewrite Lm. change (hkdf_limit <? N.of_nat 2)%N with false. eauto. }
    revert E. generalize newKVStore. induction ex72_db as [|d db IH]; intros kv E; [eexists; reflexivity|]. cbn [store_all_o].
    destruct (E d (or_introl eq_refl)) as [(id & ->) (e & ->)]. cbn [bind]. apply IH. intros d' I. apply E. right. exact I.
Qed.
