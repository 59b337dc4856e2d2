(** * Lemmas about the protocol: constructors, Request, HandleRequest,
    Finalize, and the store. *)
From Verif Require Import Base BaseProofs LibProofs Sha256 Hex Common CommonProofs Hasher Encryptor EncryptorProofs
  Oprf Server Client KV KVProofs SpecCommon SpecEntry SpecProtocol FinalizeProofs.

(** ** Constructors *)
Section Constructors.
Variable LIB : OPRF.

Lemma NewBucketHasher_iff id h : NewBucketHasher id = Ok h <-> id = 1%N /\ h = NewSHA256BucketHasher.
Proof.
  unfold NewBucketHasher, BucketHasherSHA256. destruct (N.eqb_spec id 1) as [->|H]; split.
  - intros E. injection E as <-. auto.
  - intros [_ ->]. reflexivity.
  - discriminate.
  - intros [-> _]. contradiction.
Qed.

Lemma NewSlowHasher_iff id h : NewSlowHasher id = Ok h <->
  (id = 0%N /\ h = nullSlowHasher) \/ (id = 1%N /\ h = NewScryptSlowHasher).
Proof.
  unfold NewSlowHasher, SlowHasherNull, SlowHasherScrypt.
  destruct (N.eqb_spec id 0) as [->|H0]; [|destruct (N.eqb_spec id 1) as [->|H1]]; split.
  - intros E. injection E as <-. auto.
  - intros [[_ ->]|[E _]]; [reflexivity|discriminate].
  - intros E. apply Ok_inj in E. subst h. auto.
  - intros [[E _]|[_ ->]]; [discriminate|reflexivity].
  - discriminate.
  - intros [[-> _]|[-> _]]; contradiction.
Qed.

Lemma NewBucketEncryptor_iff id e : NewBucketEncryptor id = Ok e <-> id = 1%N.
Proof.
  unfold NewBucketEncryptor, BucketEncryptorHKDFSHA256. destruct (N.eqb_spec id 1) as [->|H]; split; intros E.
  - reflexivity.
  - destruct e. reflexivity.
  - discriminate.
  - contradiction.
Qed.

Lemma NewClient_inv cfg c : NewClient LIB cfg = Ok c ->
  cfg_bucketHasher cfg = 1%N /\ (cfg_slowHasher cfg = 0%N \/ cfg_slowHasher cfg = 1%N) /\ cfg_bucketEncryptor cfg = 1%N
  /\ client_suite LIB (cfg_oprfSuite cfg) = Ok tt
  /\ c_version c = cfg_version cfg /\ c_bits c = cfg_bits cfg /\ c_oprfSuite c = cfg_oprfSuite cfg
  /\ c_bucketHasher c = NewSHA256BucketHasher /\ NewSlowHasher (cfg_slowHasher cfg) = Ok (c_slowHasher c).
Proof.
  unfold NewClient. intros H.
  apply bind_ok in H as (bh & H1 & H). apply bind_ok in H as (sh & H2 & H).
  apply bind_ok in H as (be & H3 & H). apply bind_ok in H as (u & H4 & H).
  apply Ok_inj in H. subst c. cbn. destruct u.
  apply NewBucketHasher_iff in H1 as [-> ->]. apply NewBucketEncryptor_iff in H3.
  pose proof H2 as H2'. apply NewSlowHasher_iff in H2'.
  repeat split; auto. destruct H2' as [[-> _]|[-> _]]; auto.
Qed.

Lemma NewServer_inv (cfg : ServerConfig LIB) (s : Server LIB) : NewServer cfg = Ok s ->
  let c := sc_config cfg in
  cfg_bucketHasher c = 1%N /\ (cfg_slowHasher c = 0%N \/ cfg_slowHasher c = 1%N) /\ cfg_bucketEncryptor c = 1%N
  /\ server_suite LIB (cfg_oprfSuite c) (sc_privateKey cfg) = Ok tt
  /\ s_version s = cfg_version c /\ s_bits s = cfg_bits c /\ s_oprfSuite s = cfg_oprfSuite c
  /\ s_privateKey s = sc_privateKey cfg
  /\ s_bucketHasher s = NewSHA256BucketHasher /\ NewSlowHasher (cfg_slowHasher c) = Ok (s_slowHasher s).
Proof.
  unfold NewServer. intros H. cbv zeta in *.
  apply bind_ok in H as (bh & H1 & H). apply bind_ok in H as (sh & H2 & H).
  apply bind_ok in H as (be & H3 & H). apply bind_ok in H as (u & H4 & H).
  apply Ok_inj in H. subst s. cbn. destruct u.
  apply NewBucketHasher_iff in H1 as [-> ->]. apply NewBucketEncryptor_iff in H3.
  pose proof H2 as H2'. apply NewSlowHasher_iff in H2'.
  repeat split; auto. destruct H2' as [[-> _]|[-> _]]; auto.
Qed.

Lemma NewClient_iff cfg :
  (exists c, NewClient LIB cfg = Ok c) <->
  cfg_bucketHasher cfg = 1%N /\ (cfg_slowHasher cfg = 0%N \/ cfg_slowHasher cfg = 1%N) /\ cfg_bucketEncryptor cfg = 1%N
  /\ client_suite LIB (cfg_oprfSuite cfg) = Ok tt.
Proof.
  split.
  - intros [c H]. apply NewClient_inv in H. tauto.
  - intros (H1 & H2 & H3 & H4). unfold NewClient. rewrite H1, H3, H4.
    destruct H2 as [-> | ->]; eexists; reflexivity.
Qed.

Lemma NewServer_iff (cfg : ServerConfig LIB) :
  (exists s, NewServer cfg = Ok s) <->
  let c := sc_config cfg in
  cfg_bucketHasher c = 1%N /\ (cfg_slowHasher c = 0%N \/ cfg_slowHasher c = 1%N) /\ cfg_bucketEncryptor c = 1%N
  /\ server_suite LIB (cfg_oprfSuite c) (sc_privateKey cfg) = Ok tt.
Proof.
  split.
  - intros [s H]. apply NewServer_inv in H. cbv zeta in *. tauto.
  - cbv zeta. intros (H1 & H2 & H3 & H4). unfold NewServer. rewrite H1, H3, H4.
    destruct H2 as [-> | ->]; eexists; reflexivity.
Qed.

Lemma NewClient_np cfg m : (forall x m, client_suite LIB x <> Panic m) -> NewClient LIB cfg <> Panic m.
Proof.
  intros NP. unfold NewClient, NewBucketHasher, NewSlowHasher, NewBucketEncryptor.
  destruct (_ =? BucketHasherSHA256)%N; cbn [bind]; [|discriminate].
  destruct (_ =? SlowHasherNull)%N; [|destruct (_ =? SlowHasherScrypt)%N]; cbn [bind]; try discriminate;
  (destruct (_ =? BucketEncryptorHKDFSHA256)%N; cbn [bind]; [|discriminate]);
  (destruct (client_suite LIB _) eqn:E; cbn [bind]; try discriminate; exfalso; eapply NP; exact E).
Qed.

Lemma NewServer_Config (cfg : ServerConfig LIB) (s : Server LIB) : NewServer cfg = Ok s -> Server_Config s = cfg.
Proof.
  intros H. pose proof H as H'. apply NewServer_inv in H. cbv zeta in H.
  destruct H as (B & S & E & _ & V & Bi & O & K & HB & HS).
  unfold Server_Config. rewrite V, Bi, O, K, HB.
  destruct cfg as [[v b h sl e o] k]. cbn [sc_config sc_privateKey cfg_version cfg_bits cfg_bucketHasher cfg_slowHasher cfg_bucketEncryptor cfg_oprfSuite] in *.
  subst h e. f_equal. f_equal.
  apply NewSlowHasher_iff in HS. destruct HS as [[-> ->]|[-> ->]]; reflexivity.
Qed.

Lemma bit_size_unchecked (cfg : ServerConfig LIB) (s : Server LIB) (bits : Z) : NewServer cfg = Ok s ->
  exists s' : Server LIB,
    NewServer {| sc_config := {| cfg_version := cfg_version (sc_config cfg); cfg_bits := bits;
                                 cfg_bucketHasher := cfg_bucketHasher (sc_config cfg);
                                 cfg_slowHasher := cfg_slowHasher (sc_config cfg);
                                 cfg_bucketEncryptor := cfg_bucketEncryptor (sc_config cfg);
                                 cfg_oprfSuite := cfg_oprfSuite (sc_config cfg) |};
                 sc_privateKey := sc_privateKey cfg |} = Ok s'
    /\ ((bits < 0 \/ 32 < bits)%Z -> forall u, exists m, Server_BucketID s' u = Panic m).
Proof.
  intros H. assert (E : exists s, NewServer cfg = Ok s) by eauto. apply NewServer_iff in E. cbv zeta in E.
  match goal with |- context [NewServer ?c = _] => assert (E' : exists s, NewServer c = Ok s) by (apply NewServer_iff; exact E) end.
  destruct E' as (s' & Hs'). exists s'. split; [exact Hs'|]. intros Hb u.
  apply NewServer_inv in Hs'. cbn [sc_config cfg_bits] in Hs'. destruct Hs' as (_ & _ & _ & _ & _ & B & _ & _ & HB & _).
  unfold Server_BucketID. rewrite HB, B.
  destruct (Z.le_gt_cases (blen u) 65536) as [L|L].
  - rewrite bucket_hash_ok by exact L. cbn [bind]. apply bucketHashToID_bad; [exact Hb|]. rewrite sha256_length. lia.
  - rewrite bucket_hash_panic by lia. cbn. eauto.
Qed.

End Constructors.

(** ** A client and a server of one configuration *)
Section Protocol.
Variable LIB : OPRF.
Variable cfg : Config.
Variable key : PrivateKey LIB.
Variable s : Server LIB.
Variable c : Client.
Hypothesis Hs : NewServer {| sc_config := cfg; sc_privateKey := key |} = Ok s.
Hypothesis Hc : NewClient LIB cfg = Ok c.

Lemma same_slow : c_slowHasher c = s_slowHasher s.
Proof.
  apply NewServer_inv in Hs. apply NewClient_inv in Hc. cbn [sc_config] in *.
  destruct Hs as (_ & _ & _ & _ & _ & _ & _ & _ & _ & A). destruct Hc as (_ & _ & _ & _ & _ & _ & _ & _ & B).
  rewrite A in B. injection B as ->. reflexivity.
Qed.

Lemma same_suite : c_oprfSuite c = s_oprfSuite s.
Proof. apply NewServer_inv in Hs. apply NewClient_inv in Hc. cbn [sc_config] in *. intuition congruence. Qed.

Lemma same_version : c_version c = s_version s.
Proof. apply NewServer_inv in Hs. apply NewClient_inv in Hc. cbn [sc_config] in *. intuition congruence. Qed.

Lemma suites_ok : client_suite LIB (s_oprfSuite s) = Ok tt /\ server_suite LIB (s_oprfSuite s) (s_privateKey s) = Ok tt.
Proof.
  apply NewServer_inv in Hs. apply NewClient_inv in Hc. cbn [sc_config sc_privateKey] in *.
  destruct Hs as (_ & _ & _ & A & _ & _ & O & K & _). destruct Hc as (_ & _ & _ & B & _).
  rewrite O, K. auto.
Qed.

Lemma same_bucket u : Client_BucketID c u = Server_BucketID s u.
Proof.
  apply NewServer_inv in Hs. apply NewClient_inv in Hc. cbn [sc_config] in *.
  unfold Client_BucketID, Server_BucketID.
  destruct Hs as (_ & _ & _ & _ & _ & B & _ & _ & HB & _). destruct Hc as (_ & _ & _ & _ & _ & B' & _ & HB' & _).
  rewrite HB, HB', B, B'. reflexivity.
Qed.
End Protocol.

Section Bucket.
Context {LIB : OPRF}.
Implicit Type s : Server LIB.

Lemma Server_BucketID_lt s u id : Server_BucketID s u = Ok id -> (id < 2 ^ 32)%N.
Proof.
  unfold Server_BucketID. intros H. apply bind_ok in H as (h & _ & H).
  apply bucketHashToID_lt in H as [H B]. eapply N.lt_le_trans; [exact H|].
  apply N.pow_le_mono_r; lia.
Qed.

(** ** The store built from a list of credentials *)
Definition in_bucket s (id : N) (d : cred) : bool :=
  match Server_BucketID s (d_user d) with Ok i => (i =? id)%N | _ => false end.
Definition entry_of s (d : cred) : entry :=
  match deriveBucketEntryKey s (d_user d) (d_pass d) with
  | Ok k => make_entry k (d_flag d) (d_meta d)
  | _ => mkEntry [] Byte.x00 []
  end.
(** A credential the server can store. *)
Definition storable s (d : cred) : Prop :=
  (exists id, Server_BucketID s (d_user d) = Ok id) /\
  (exists k, deriveBucketEntryKey s (d_user d) (d_pass d) = Ok k) /\
  MetadataType_Valid (d_flag d) = true /\ (blen (d_meta d) <= 8160)%Z.

Lemma EncryptBucketEntry_inv s u p f m ct : EncryptBucketEntry s u p f m = Ok ct ->
  exists k, deriveBucketEntryKey s u p = Ok k /\ MetadataType_Valid f = true /\ (blen m <= 8160)%Z
    /\ ct = entry_bytes (make_entry k f m).
Proof.
  unfold EncryptBucketEntry. intros H. destruct (MetadataType_Valid f); [|discriminate]. cbn [negb] in H.
  apply bind_ok in H as (k & Hk & H). apply Encrypt_inv in H as [H ->]. eauto.
Qed.

Lemma EncryptBucketEntry_ok s u p f m k : deriveBucketEntryKey s u p = Ok k -> MetadataType_Valid f = true ->
  (blen m <= 8160)%Z -> EncryptBucketEntry s u p f m = Ok (entry_bytes (make_entry k f m)).
Proof.
  intros Hk Hf Hm. unfold EncryptBucketEntry. rewrite Hf, Hk. cbn [negb bind]. apply Encrypt_ok, Hm.
Qed.

Lemma storable_entry_ok s d : storable s d -> entry_ok (entry_of s d).
Proof.
  intros (_ & (k & Hk) & _ & Hm). unfold entry_of. rewrite Hk. apply make_entry_ok, Hm.
Qed.

Lemma store_all_storable s kv db kv' : store_all s kv db = Ok kv' -> Forall (storable s) db.
Proof.
  revert kv; induction db as [|d db IH]; intros kv H; [constructor|]. cbn [store_all] in H.
  apply bind_ok in H as (id & H1 & H). apply bind_ok in H as (ct & H2 & H).
  apply EncryptBucketEntry_inv in H2 as (k & Hk & Hf & Hm & _).
  constructor; [|eapply IH; exact H]. repeat split; eauto.
Qed.

(** The bucket [id] of a store is what was there and the entries of [db] that
    belong to it, in order. *)
Lemma store_all_bucket s kv db kv' id : store_all s kv db = Ok kv' -> (id < 2 ^ 32)%N ->
  sl (kv_lookup kv' (BucketIDToHex id))
  = sl (kv_lookup kv (BucketIDToHex id)) ++ bucket_bytes (map (entry_of s) (filter (in_bucket s id) db)).
Proof.
  intros H Hid. revert kv H; induction db as [|d db IH]; intros kv H; cbn [store_all] in H.
  - apply Ok_inj in H. subst kv'. cbn. rewrite app_nil_r. reflexivity.
  - apply bind_ok in H as (i & H1 & H). apply bind_ok in H as (ct & H2 & H).
    apply EncryptBucketEntry_inv in H2 as (k & Hk & _ & _ & ->).
    rewrite (IH _ H). rewrite lookup_append. cbn [filter]. unfold in_bucket at 2. rewrite H1.
    destruct (N.eqb_spec i id) as [->|Hne].
    + rewrite bytes_eqb_refl. cbn [map bucket_bytes flat_map]. unfold entry_of at 2. rewrite Hk.
      rewrite <- app_assoc. reflexivity.
    + rewrite (proj2 (bytes_eqb_neq _ _)); [reflexivity|].
      intros E. apply BucketIDToHex_inj in E; [contradiction|eapply Server_BucketID_lt; exact H1|exact Hid].
Qed.

(** Keys that are not bucket IDs of the server are untouched. *)
Lemma store_all_other s kv db kv' key : store_all s kv db = Ok kv' ->
  (forall d id, In d db -> Server_BucketID s (d_user d) = Ok id -> BucketIDToHex id <> key) ->
  kv_lookup kv' key = kv_lookup kv key.
Proof.
  revert kv; induction db as [|d db IH]; intros kv H N; cbn [store_all] in H.
  - apply Ok_inj in H. subst. reflexivity.
  - apply bind_ok in H as (i & H1 & H). apply bind_ok in H as (ct & H2 & H).
    rewrite (IH _ H) by (intros d' id Hin; apply N; right; exact Hin).
    apply lookup_append_other. eapply N; [left; reflexivity|exact H1].
Qed.

Lemma same_cred_iff u p d : same_cred u p d = true <-> (d_user d, d_pass d) = (u, p).
Proof.
  unfold same_cred. rewrite andb_true_iff, !bytes_eqb_eq. split.
  - intros [-> ->]. reflexivity.
  - intros E. injection E as -> ->. auto.
Qed.

(** Scanning the bucket finds the first entry of the pair. *)
Lemma find_entry s db u p k id : Forall (storable s) db -> no_collision s db u p ->
  deriveBucketEntryKey s u p = Ok k -> Server_BucketID s u = Ok id ->
  find (entry_matches k) (map (entry_of s) (filter (in_bucket s id) db))
  = option_map (entry_of s) (find (same_cred u p) db).
Proof.
  intros F N Hk Hid. induction F as [|d db Hd F IH]; [reflexivity|].
  assert (N' : no_collision s db u p) by (intros d' k1 k2 Hin; apply N; right; exact Hin).
  specialize (IH N'). cbn [filter find].
  destruct (same_cred u p d) eqn:E.
  - apply same_cred_iff in E. injection E as Eu Ep.
    unfold in_bucket at 1. rewrite Eu, Hid, N.eqb_refl. cbn [map find].
    assert (M : entry_matches k (entry_of s d) = true).
    { unfold entry_of. rewrite Eu, Ep, Hk. apply make_entry_matches. reflexivity. }
    rewrite M. reflexivity.
  - assert (Ne : (d_user d, d_pass d) <> (u, p)) by (intros Eq; apply same_cred_iff in Eq; congruence).
    destruct (in_bucket s id d) eqn:B; [|exact IH]. cbn [map find].
    destruct Hd as (_ & (k' & Hk') & _).
    assert (M : entry_matches k (entry_of s d) = false).
    { destruct (entry_matches k (entry_of s d)) eqn:M; [|reflexivity]. exfalso.
      unfold entry_of in M. rewrite Hk' in M. apply make_entry_matches in M.
      apply (N d k k'); auto. left. reflexivity. }
    rewrite M. exact IH.
Qed.

End Bucket.

Section Query.
Variable LIB : OPRF.
Variable laws : OPRF_laws LIB.
Variable cfg : Config.
Variable key : PrivateKey LIB.
Variable s : Server LIB.
Variable c : Client.
Hypothesis Hs : NewServer {| sc_config := cfg; sc_privateKey := key |} = Ok s.
Hypothesis Hc : NewClient LIB cfg = Ok c.
Hypothesis Hv : (cfg_version cfg < 2 ^ 16)%N.

Lemma version_mod : (s_version s mod 2 ^ 16 = s_version s)%N.
Proof. apply NewServer_inv in Hs. cbn in Hs. destruct Hs as (_ & _ & _ & _ & -> & _). apply N.mod_small, Hv. Qed.

Lemma derive_inv u p k : deriveBucketEntryKey s u p = Ok k ->
  exists ser x, serializeUsernamePassword u p = Ok ser /\ SlowHasher_Hash (s_slowHasher s) ser = Ok x
    /\ full_evaluate LIB (s_oprfSuite s) (s_privateKey s) x OprfInfo = Ok k.
Proof.
  unfold deriveBucketEntryKey. intros H. apply bind_ok in H as (ser & H1 & H). apply bind_ok in H as (x & H2 & H). eauto.
Qed.

(** A request by the client, the answer of the server, and the secret the
    client gets from them. *)
Lemma request_answer u p r k id (kv : Getter) v :
  deriveBucketEntryKey s u p = Ok k -> Server_BucketID s u = Ok id -> kv (BucketIDToHex id) = Ok v ->
  exists b e (ctx : ClientRequestContext LIB),
    Request c u p r = Ok ({| rq_version := c_version c; rq_bucketID := BucketIDToHex id; rq_blindElement := Some b |}, ctx)
    /\ HandleRequest s {| rq_version := c_version c; rq_bucketID := BucketIDToHex id; rq_blindElement := Some b |} kv
       = Ok {| rs_version := c_version c; rs_evaluatedElement := e; rs_bucketContents := v |}
    /\ ctx_client ctx = c
    /\ client_secret ctx {| rs_version := c_version c; rs_evaluatedElement := e; rs_bucketContents := v |} k
    /\ (forall n, elt_size LIB (s_oprfSuite s) = Ok n -> length e = n).
Proof.
  intros Hk Hid Hkv. apply derive_inv in Hk as (ser & x & H1 & H2 & H3).
  destruct (suites_ok LIB cfg key s c Hs Hc) as [SC SS].
  destruct (law_blind_total _ laws (s_oprfSuite s) x r SC) as (b & Hb).
  destruct (law_correct _ laws _ _ x r b OprfInfo SC SS Hb) as [(e & y & E1 & E2 & E3)|(m & m' & _ & E2)];
    [|congruence].
  assert (y = k) by congruence. subst y.
  exists b, e, {| ctx_client := c; ctx_inputs := [x]; ctx_blinds := [r] |}.
  split; [|split; [|split; [reflexivity|split; [split|]]]].
  - unfold Request. rewrite H1. cbn [bind].
    rewrite (same_slow LIB cfg key s c Hs Hc), H2. cbn [bind].
    rewrite (same_suite LIB cfg key s c Hs Hc), Hb. cbn [bind].
    rewrite (same_bucket LIB cfg key s c Hs Hc), Hid. cbn [bind]. reflexivity.
  - unfold HandleRequest. cbn [rq_version rq_bucketID rq_blindElement].
    rewrite (same_version LIB cfg key s c Hs Hc). unfold u16. rewrite version_mod, N.eqb_refl. cbn [negb sl].
    rewrite E1. cbn [bind]. unfold BucketIDToHex at 1. rewrite hex_decode_encode. rewrite Hkv. reflexivity.
  - cbn. rewrite (same_version LIB cfg key s c Hs Hc). apply version_mod.
  - cbn. exists []. rewrite (same_suite LIB cfg key s c Hs Hc). exact E3.
  - intros n Hn. eapply (law_size _ laws); eauto.
Qed.

(** The result of a query on any store whose bucket consists of the entries
    of [db]. *)
Lemma run_query_bucket (kv : Getter) db u p r k id v :
  deriveBucketEntryKey s u p = Ok k -> Server_BucketID s u = Ok id ->
  kv (BucketIDToHex id) = Ok v -> holdable (sl v) ->
  Forall (storable s) db -> no_collision s db u p ->
  sl v = bucket_bytes (map (entry_of s) (filter (in_bucket s id) db)) ->
  run_query c s kv u p r = Ok (expected db u p).
Proof.
  intros Hk Hid Hkv Hh F N B.
  destruct (request_answer u p r k id kv v Hk Hid Hkv) as (b & e & ctx & R & A & _ & S & _).
  unfold run_query. rewrite R. cbn [bind]. rewrite A. cbn [bind].
  assert (Fo : Forall entry_ok (map (entry_of s) (filter (in_bucket s id) db))).
  { apply Forall_map. rewrite Forall_forall in *. intros d Hd. apply filter_In in Hd as [Hd _].
    apply storable_entry_ok. auto. }
  rewrite (Finalize_short LIB ctx _ k (map (entry_of s) (filter (in_bucket s id) db)) []).
  - unfold scan_result. rewrite (find_entry s db u p k id F N Hk Hid). unfold expected.
    destruct (find (same_cred u p) db) as [d|] eqn:E; [|reflexivity]. cbn [option_map].
    apply find_some in E as [Hin E]. apply same_cred_iff in E. injection E as Eu Ep.
    rewrite Forall_forall in F. destruct (F d Hin) as (_ & _ & _ & Hm).
    unfold entry_of. rewrite Eu, Ep, Hk. unfold opened.
    destruct (make_entry_open k (d_flag d) (d_meta d) Hm) as (_ & Fl & L & Bo).
    unfold blen. rewrite L, Fl, Bo. unfold blen in Hm. rewrite (proj2 (Z.leb_le _ _) Hm). reflexivity.
  - apply client_secret_ok, S.
  - cbn. rewrite app_nil_r. exact B.
  - exact Fo.
  - unfold short_tail. cbn. lia.
  - rewrite app_nil_r, <- B. exact Hh.
Qed.

Lemma run_query_store db kv u p r k id :
  store_all s newKVStore db = Ok kv -> kv_holdable kv -> no_collision s db u p ->
  deriveBucketEntryKey s u p = Ok k -> Server_BucketID s u = Ok id ->
  run_query c s (kv_Get kv) u p r = Ok (expected db u p).
Proof.
  intros H Hh N Hk Hid.
  apply (run_query_bucket (kv_Get kv) db u p r k id (kv_lookup kv (BucketIDToHex id))); auto.
  - eapply store_all_storable. exact H.
  - rewrite (store_all_bucket s _ db kv id H) by (eapply Server_BucketID_lt; exact Hid). reflexivity.
Qed.

(** Every username up to 65536 bytes has a bucket when the bit size is sane. *)
Lemma bucket_defined u : (0 <= cfg_bits cfg <= 32)%Z -> (blen u <= 65536)%Z -> exists id, Server_BucketID s u = Ok id.
Proof.
  intros Hb Hu. apply NewServer_inv in Hs. cbn in Hs.
  destruct Hs as (_ & _ & _ & _ & _ & B & _ & _ & HB & _).
  unfold Server_BucketID. rewrite HB, bucket_hash_ok, B by exact Hu. cbn [bind].
  eexists. apply bucketHashToID_bits; [exact Hb|]. rewrite sha256_length. lia.
Qed.

Lemma derive_len u p k : deriveBucketEntryKey s u p = Ok k -> (blen u <= 65536)%Z /\ (blen p <= 65536)%Z.
Proof.
  intros H. apply derive_inv in H as (ser & _ & H & _). unfold serializeUsernamePassword in H.
  destruct (65536 <? blen u)%Z eqn:E1; [discriminate|]. destruct (65536 <? blen p)%Z eqn:E2; [discriminate|]. lia.
Qed.

Lemma query_answers db kv u p r k :
  (0 <= cfg_bits cfg <= 32)%Z ->
  store_all s newKVStore db = Ok kv -> kv_holdable kv -> no_collision s db u p ->
  deriveBucketEntryKey s u p = Ok k ->
  run_query c s (kv_Get kv) u p r = Ok (expected db u p).
Proof.
  intros Hb H Hh N Hk. destruct (bucket_defined u Hb (proj1 (derive_len u p k Hk))) as (id & Hid).
  eapply run_query_store; eauto.
Qed.

Lemma stored_derives db kv u p f m : store_all s newKVStore db = Ok kv -> In (mkCred u p f m) db ->
  (exists k, deriveBucketEntryKey s u p = Ok k) /\ (exists id, Server_BucketID s u = Ok id).
Proof.
  intros H Hin. apply store_all_storable in H. rewrite Forall_forall in H.
  destruct (H _ Hin) as (A & B & _). auto.
Qed.

Lemma query_stored db kv u p r f m before after :
  db = before ++ mkCred u p f m :: after -> Forall (fun d => (d_user d, d_pass d) <> (u, p)) before ->
  store_all s newKVStore db = Ok kv -> kv_holdable kv -> no_collision s db u p ->
  run_query c s (kv_Get kv) u p r = Ok (flag_status f, Some m).
Proof.
  intros E Fb H Hh N.
  destruct (stored_derives db kv u p f m H) as ((k & Hk) & (id & Hid)).
  { rewrite E. apply in_or_app. right. left. reflexivity. }
  rewrite (run_query_store db kv u p r k id) by assumption. f_equal. unfold expected. rewrite E.
  replace (find (same_cred u p) (before ++ mkCred u p f m :: after)) with (Some (mkCred u p f m)); [reflexivity|].
  clear -Fb. induction Fb as [|d before Hd Fb IH]; cbn [app find].
  - rewrite (proj2 (same_cred_iff u p _)) by reflexivity. reflexivity.
  - destruct (same_cred u p d) eqn:E; [|exact IH]. apply same_cred_iff in E. contradiction.
Qed.

Lemma query_not_stored db kv u p r k :
  (0 <= cfg_bits cfg <= 32)%Z ->
  store_all s newKVStore db = Ok kv -> kv_holdable kv -> no_collision s db u p ->
  Forall (fun d => (d_user d, d_pass d) <> (u, p)) db -> deriveBucketEntryKey s u p = Ok k ->
  run_query c s (kv_Get kv) u p r = Ok (NotInBreach, None).
Proof.
  intros Hb H Hh N F Hk. rewrite (query_answers db kv u p r k) by assumption. f_equal. unfold expected.
  replace (find (same_cred u p) db) with (@None cred); [reflexivity|].
  clear -F. induction F as [|d db Hd F IH]; [reflexivity|]. cbn [find].
  destruct (same_cred u p d) eqn:E; [|exact IH]. apply same_cred_iff in E. contradiction.
Qed.

End Query.
