(** * Lemmas about HandleRequest, the version check, the hex check and the
    binary response format. *)
From Verif Require Import Base BaseProofs LibProofs Sha256 Hex Common CommonProofs Hasher Encryptor EncryptorProofs
  Oprf OprfGroup Server Client KV KVProofs SpecCommon SpecEntry SpecProtocol FinalizeProofs ProtocolProofs.

(** ** hex.DecodeString *)
Lemma hex_val_char c : hex_char c = match hex_val c with Some _ => true | None => false end.
Proof. destruct c; reflexivity. Qed.

Lemma hex_decode_iff s : (exists d, hex_decode s = Ok d) <-> well_formed_hex s.
Proof.
  assert (K : forall n s, (length s <= n)%nat -> (exists d, hex_decode s = Ok d) <-> well_formed_hex s).
  { clear s. induction n as [|n IH]; intros s Hn.
    - destruct s; [|cbn in Hn; lia]. split; [intros _; split; reflexivity|]. intros _. exists []. reflexivity.
    - destruct s as [|a [|b s]].
      + split; [intros _; split; reflexivity|]. intros _. exists []. reflexivity.
      + cbn. split; [intros [d H]; destruct (hex_val a); discriminate|intros [H _]; discriminate].
      + cbn [hex_decode length] in *. unfold well_formed_hex. cbn [length Nat.even forallb]. rewrite !hex_val_char.
        destruct (hex_val a), (hex_val b); cbn [andb]; try (split; [intros [d H]; discriminate|intros [_ H]; discriminate]).
        specialize (IH s ltac:(lia)). unfold well_formed_hex in IH. rewrite <- IH. split.
        * intros [d H]. apply bind_ok in H as (d' & H & _). eauto.
        * intros [d H]. rewrite H. cbn [bind]. eauto. }
  apply (K (length s)). lia.
Qed.

Lemma hex_decode_np s m : hex_decode s <> Panic m.
Proof.
  assert (K : forall n s, (length s <= n)%nat -> hex_decode s <> Panic m).
  { clear s. induction n as [|n IH]; intros s Hn.
    - destruct s; [discriminate|cbn in Hn; lia].
    - destruct s as [|a [|b s]]; [discriminate|cbn; destruct (hex_val a); discriminate|].
      cbn [hex_decode length] in *. destruct (hex_val a), (hex_val b); try discriminate.
      specialize (IH s ltac:(lia)). destruct (hex_decode s); cbn [bind]; try discriminate. congruence. }
  apply (K (length s)). lia.
Qed.

Section Handle.
Variable LIB : OPRF.
Implicit Type s : Server LIB.

(** ** C19 *)
Lemma handle_wrong_version s rq (kv : Getter) : (rq_version rq mod 2 ^ 16 <> s_version s)%N ->
  HandleRequest s rq kv = Err "requested version doesn't match server version".
Proof.
  intros H. unfold HandleRequest, u16. destruct (N.eqb_spec (rq_version rq mod 2 ^ 16) (s_version s)); [contradiction|]. reflexivity.
Qed.

Lemma handle_ok s rq (kv : Getter) e es v :
  (rq_version rq mod 2 ^ 16 = s_version s)%N ->
  evaluate LIB (s_oprfSuite s) (s_privateKey s) [sl (rq_blindElement rq)] (str "MIGP oprf info") = Ok (e :: es) ->
  well_formed_hex (rq_bucketID rq) -> kv (rq_bucketID rq) = Ok v ->
  HandleRequest s rq kv = Ok {| rs_version := rq_version rq; rs_evaluatedElement := e; rs_bucketContents := v |}.
Proof.
  intros V E W K. unfold HandleRequest, u16. rewrite V, N.eqb_refl. cbn [negb]. unfold OprfInfo. rewrite E. cbn [bind].
  apply hex_decode_iff in W as [d ->]. rewrite K. reflexivity.
Qed.

Lemma handle_inv s rq (kv : Getter) resp : HandleRequest s rq kv = Ok resp ->
  (rq_version rq mod 2 ^ 16 = s_version s)%N /\ rs_version resp = rq_version rq
  /\ well_formed_hex (rq_bucketID rq) /\ kv (rq_bucketID rq) = Ok (rs_bucketContents resp)
  /\ exists es, evaluate LIB (s_oprfSuite s) (s_privateKey s) [sl (rq_blindElement rq)] (str "MIGP oprf info")
                = Ok (rs_evaluatedElement resp :: es).
Proof.
  unfold HandleRequest, u16. destruct (N.eqb_spec (rq_version rq mod 2 ^ 16) (s_version s)) as [V|]; [|discriminate].
  cbn [negb]. intros H. apply bind_ok in H as (l & E & H). destruct l as [|e es]; [discriminate|].
  destruct (hex_decode (rq_bucketID rq)) as [d| |] eqn:D; try discriminate.
  apply bind_ok in H as (v & K & H). apply Ok_inj in H. subst resp. cbn.
  split; [exact V|]. split; [reflexivity|]. split; [apply hex_decode_iff; eauto|]. split; [exact K|]. eauto.
Qed.

(** Versions equal in the low 16 bits are treated alike; only the echo
    differs. *)
Lemma handle_version_low_bits s rq (kv : Getter) v : (v mod 2 ^ 16 = rq_version rq mod 2 ^ 16)%N ->
  HandleRequest s {| rq_version := v; rq_bucketID := rq_bucketID rq; rq_blindElement := rq_blindElement rq |} kv
  = (resp <- HandleRequest s rq kv ;;
     Ok {| rs_version := v; rs_evaluatedElement := rs_evaluatedElement resp; rs_bucketContents := rs_bucketContents resp |}).
Proof.
  intros V. unfold HandleRequest, u16. cbn [rq_version rq_bucketID rq_blindElement]. rewrite V.
  destruct (negb _); [reflexivity|]. destruct (evaluate _ _ _ _ _) as [[|e es]| |]; cbn [bind]; try reflexivity.
  destruct (hex_decode _); [|reflexivity|reflexivity]. destruct (kv _); reflexivity.
Qed.

Lemma finalize_wrong_version (ctx : ClientRequestContext LIB) resp :
  (rs_version resp mod 2 ^ 16 <> c_version (ctx_client ctx))%N -> Finalize ctx resp = Err "wrong version in reply".
Proof.
  intros H. unfold Finalize, Finalize_fuel, finalize_secret, u16.
  destruct (N.eqb_spec (rs_version resp mod 2 ^ 16) (c_version (ctx_client ctx))); [contradiction|]. reflexivity.
Qed.

Lemma finalize_version_low_bits (ctx : ClientRequestContext LIB) resp v : (v mod 2 ^ 16 = rs_version resp mod 2 ^ 16)%N ->
  Finalize ctx {| rs_version := v; rs_evaluatedElement := rs_evaluatedElement resp; rs_bucketContents := rs_bucketContents resp |}
  = Finalize ctx resp.
Proof.
  intros V. unfold Finalize, Finalize_fuel, finalize_secret, u16. cbn [rs_version rs_evaluatedElement rs_bucketContents].
  rewrite V. reflexivity.
Qed.

(** ** C20 *)
Lemma handle_bad_hex s rq (kv : Getter) : (forall l i m, evaluate LIB (s_oprfSuite s) (s_privateKey s) l i <> Panic m) ->
  ~ well_formed_hex (rq_bucketID rq) -> exists m, HandleRequest s rq kv = Err m.
Proof.
  intros NP W. unfold HandleRequest. destruct (negb _); [eauto|].
  destruct (evaluate _ _ _ _ _) as [[|e es]|m|m] eqn:E; cbn [bind]; eauto; [|exfalso; eapply NP; exact E].
  destruct (hex_decode (rq_bucketID rq)) as [d|m|m] eqn:D; eauto.
  - exfalso. apply W, hex_decode_iff. eauto.
  - exfalso. eapply hex_decode_np. exact D.
Qed.

(** What HandleRequest does never depends on other keys of the store. *)
Lemma handle_one_key s rq (kv kv' : Getter) : kv (rq_bucketID rq) = kv' (rq_bucketID rq) ->
  HandleRequest s rq kv = HandleRequest s rq kv'.
Proof. intros H. unfold HandleRequest. rewrite H. reflexivity. Qed.

(** No panic, whatever arrives. *)
Lemma handle_np s rq (kv : Getter) m : (forall l i m, evaluate LIB (s_oprfSuite s) (s_privateKey s) l i <> Panic m) ->
  (forall id m, kv id <> Panic m) -> HandleRequest s rq kv <> Panic m.
Proof.
  intros NP NK. unfold HandleRequest. destruct (negb _); [discriminate|].
  destruct (evaluate _ _ _ _ _) as [[|e es]|m'|m'] eqn:E; cbn [bind]; try discriminate; [|exfalso; eapply NP; exact E].
  destruct (hex_decode (rq_bucketID rq)) as [d|m'|m'] eqn:D; try discriminate; [|exfalso; eapply hex_decode_np; exact D].
  destruct (kv (rq_bucketID rq)) as [|m'|m'] eqn:K; cbn [bind]; try discriminate. exfalso. eapply NK. exact K.
Qed.

(** A store filled by the server has nothing under an ID that is not one of
    the bucket IDs of the stored usernames. *)
Lemma lookup_not_stored s db kv id : store_all s newKVStore db = Ok kv ->
  (forall d i, In d db -> Server_BucketID s (d_user d) = Ok i -> BucketIDToHex i <> id) ->
  kv_lookup kv id = None.
Proof. intros H N. rewrite (store_all_other s _ db kv id H N). reflexivity. Qed.

Definition lower_hex (c : byte) : bool := existsb (beqb c) (str "0123456789abcdef").
Lemma lookup_not_canonical s db kv id : store_all s newKVStore db = Ok kv ->
  (length id <> 8%nat \/ forallb lower_hex id = false) -> kv_lookup kv id = None.
Proof.
  intros H W. apply (lookup_not_stored s db kv id H). intros d i _ _ E. subst id. destruct W as [W|W]; [apply W; reflexivity|].
  pose proof (hex_encode_alphabet (be32 i)) as A.
  assert (F : forallb lower_hex (BucketIDToHex i) = true); [|congruence].
  apply forallb_forall. intros c Hc. rewrite Forall_forall in A. apply existsb_exists. exists c.
  split; [apply A, Hc|apply beqb_eq; reflexivity].
Qed.

(** ** C13: EncryptBucketEntry and flags *)
Lemma encrypt_bad_flag s u p f m : (4 <= bN f)%N -> exists e, EncryptBucketEntry s u p f m = Err e.
Proof.
  intros H. unfold EncryptBucketEntry. destruct (MetadataType_Valid f) eqn:E.
  - apply Valid_iff in E. lia.
  - cbn. eauto.
Qed.

Lemma encrypt_good_flag s u p f m k : (bN f < 4)%N -> deriveBucketEntryKey s u p = Ok k ->
  (blen m <= 8160)%Z -> EncryptBucketEntry s u p f m = Ok (entry_bytes (make_entry k f m)).
Proof. intros H. apply Valid_iff in H. intros Hk Hm. apply EncryptBucketEntry_ok; assumption. Qed.

Lemma encrypt_inv s u p f m ct : EncryptBucketEntry s u p f m = Ok ct ->
  (bN f < 4)%N /\ (blen m <= 8160)%Z /\
  exists k, deriveBucketEntryKey s u p = Ok k /\ ct = entry_bytes (make_entry k f m).
Proof.
  intros H. apply EncryptBucketEntry_inv in H as (k & Hk & Hf & Hm & ->). apply Valid_iff in Hf. eauto 6.
Qed.

(** ** C04 *)
Lemma request_inv c u p r rq (ctx : ClientRequestContext LIB) : Request c u p r = Ok (rq, ctx) ->
  rq_version rq = c_version c /\ ctx_client ctx = c /\
  exists id, Client_BucketID c u = Ok id /\ rq_bucketID rq = BucketIDToHex id.
Proof.
  unfold Request. intros H. apply bind_ok in H as (ser & _ & H). apply bind_ok in H as (x & _ & H).
  apply bind_ok in H as (l & _ & H). destruct l as [|b l]; [discriminate|].
  apply bind_ok in H as (id & Hid & H). apply Ok_inj in H. apply pair_inj in H as [<- <-]. cbn. eauto.
Qed.

Lemma request_bucket_indep c u p p' r r' rq rq' (ctx ctx' : ClientRequestContext LIB) :
  Request c u p r = Ok (rq, ctx) -> Request c u p' r' = Ok (rq', ctx') ->
  rq_bucketID rq = rq_bucketID rq' /\ rq_version rq = rq_version rq'.
Proof.
  intros H H'. apply request_inv in H as (V & _ & id & I & ->). apply request_inv in H' as (V' & _ & id' & I' & ->).
  split; congruence.
Qed.

(** The bucket of a username is the leading bits of its salted hash. *)
Lemma server_bucket_spec cfg s u : NewServer cfg = Ok s -> (0 <= cfg_bits (sc_config cfg) <= 32)%Z -> (blen u <= 65536)%Z ->
  Server_BucketID s u = Ok (bits_value (firstn (Z.to_nat (cfg_bits (sc_config cfg)))
    (bits (sha256 ([Byte.x00; Byte.x0b] ++ str "MIGP bucket" ++ be16 (N.of_nat (length u) mod 65536) ++ u))))).
Proof.
  intros Hs Hb Hu. apply NewServer_inv in Hs. cbv zeta in Hs. destruct Hs as (_ & _ & _ & _ & _ & B & _ & _ & HB & _).
  unfold Server_BucketID. rewrite HB, B. rewrite (proj1 (bucket_hash_defined u) Hu). cbn [bind].
  apply bucketHashToID_bits; [exact Hb|]. rewrite sha256_length. lia.
Qed.

(** A request succeeds for all inputs of legal length. *)
Lemma request_total cfg c u p r : OPRF_laws LIB -> NewClient LIB cfg = Ok c -> (0 <= cfg_bits cfg <= 32)%Z ->
  (blen u <= 65536)%Z -> (blen p <= 65536)%Z -> exists rq (ctx : ClientRequestContext LIB), Request c u p r = Ok (rq, ctx).
Proof.
  intros L Hc Hb Hu Hp. apply NewClient_inv in Hc. destruct Hc as (_ & S & _ & CS & _ & B & O & HB & HS).
  unfold Request. rewrite serialize_ok by assumption. cbn [bind].
  assert (SH : forall x, exists h, SlowHasher_Hash (c_slowHasher c) x = Ok h).
  { intros x. apply NewSlowHasher_iff in HS. destruct HS as [[_ ->]|[_ ->]]; [eexists; reflexivity|].
    destruct (scrypt_hash_ok x) as (h & H & _). eauto. }
  match goal with |- context [SlowHasher_Hash _ ?x] => destruct (SH x) as (h & ->) end. cbn [bind].
  rewrite O. destruct (law_blind_total _ L _ h r CS) as (b & ->). cbn [bind].
  unfold Client_BucketID. rewrite HB, bucket_hash_ok, B by exact Hu. cbn [bind].
  rewrite bucketHashToID_bits by (try exact Hb; rewrite sha256_length; lia). cbn [bind]. eauto.
Qed.

(** ** C38 *)
Lemma oprf_agreement cfg key s c u p r rq (ctx : ClientRequestContext LIB) kv resp : OPRF_laws LIB ->
  NewServer {| sc_config := cfg; sc_privateKey := key |} = Ok s -> NewClient LIB cfg = Ok c -> (cfg_version cfg < 2 ^ 16)%N ->
  Request c u p r = Ok (rq, ctx) -> HandleRequest s rq kv = Ok resp ->
  exists k, deriveBucketEntryKey s u p = Ok k /\ client_secret ctx resp k.
Proof.
  intros L Hs Hc Hv R A. pose proof R as R'.
  unfold Request in R. apply bind_ok in R as (ser & H1 & R). apply bind_ok in R as (x & H2 & R).
  destruct (suites_ok LIB cfg key s c Hs Hc) as [SC SS].
  rewrite (same_suite LIB cfg key s c Hs Hc) in R.
  destruct (law_blind_total _ L (s_oprfSuite s) x r SC) as (b & Hb). rewrite Hb in R. cbn [bind] in R.
  apply bind_ok in R as (id & _ & R). apply Ok_inj, pair_inj in R as [<- <-].
  apply handle_inv in A as (V & EV & _ & _ & es & E). cbn [rq_version rq_blindElement sl] in *.
  destruct (law_correct _ L _ _ x r b (str "MIGP oprf info") SC SS Hb) as [(e & y & E1 & E2 & E3)|(m & m' & E1 & _)]; [|congruence].
  exists y. split.
  - unfold deriveBucketEntryKey. rewrite H1. cbn [bind]. rewrite <- (same_slow LIB cfg key s c Hs Hc), H2. exact E2.
  - split; cbn [ctx_client ctx_inputs ctx_blinds].
    + rewrite EV, V. symmetry. apply (same_version LIB cfg key s c Hs Hc).
    + exists []. rewrite (same_suite LIB cfg key s c Hs Hc). rewrite E in E1. apply Ok_inj in E1. injection E1 as E1 _.
      rewrite E1. exact E3.
Qed.

(** ** C12: a query answers, or the library cannot evaluate that input. *)
Lemma query_total cfg key s c db kv u p r : OPRF_laws LIB ->
  NewServer {| sc_config := cfg; sc_privateKey := key |} = Ok s -> NewClient LIB cfg = Ok c -> (cfg_version cfg < 2 ^ 16)%N ->
  (0 <= cfg_bits cfg <= 32)%Z -> (blen u <= 65536)%Z -> (blen p <= 65536)%Z ->
  store_all s newKVStore db = Ok kv -> kv_holdable kv -> no_collision s db u p ->
  run_query c s (kv_Get kv) u p r = Ok (expected db u p)
  \/ exists m m', run_query c s (kv_Get kv) u p r = Err m /\ deriveBucketEntryKey s u p = Err m'.
Proof.
  intros L Hs Hc Hv Hb Hu Hp St Hh N.
  destruct (request_total cfg c u p r L Hc Hb Hu Hp) as (rq & ctx & R).
  destruct (deriveBucketEntryKey s u p) as [k|m'|m'] eqn:D.
  - left. eapply query_answers; eauto.
  - right. unfold run_query. rewrite R.
    destruct (HandleRequest s rq (kv_Get kv)) as [resp|m|m] eqn:A.
    + destruct (oprf_agreement cfg key s c u p r rq ctx _ resp L Hs Hc Hv R A) as (k & Hk & _). congruence.
    + cbn [bind]. eauto.
    + exfalso. apply (handle_np s rq (kv_Get kv) m); [|intros id m0; unfold kv_Get; discriminate|exact A].
      intros; apply (law_evaluate_np _ L).
  - exfalso. pose proof R as R'. unfold Request in R. apply bind_ok in R as (ser & H1 & R). apply bind_ok in R as (x & H2 & R).
    destruct (suites_ok LIB cfg key s c Hs Hc) as [SC SS].
    destruct (law_blind_total _ L (s_oprfSuite s) x r SC) as (b & Hb').
    unfold deriveBucketEntryKey in D. rewrite H1 in D. cbn [bind] in D.
    rewrite <- (same_slow LIB cfg key s c Hs Hc), H2 in D. cbn [bind] in D.
    destruct (law_correct _ L _ _ x r b OprfInfo SC SS Hb') as [(e & y & E1 & E2 & E3)|(m & m2 & E1 & E2)]; congruence.
Qed.

End Handle.

(** ** C21, C22: the binary response *)
Lemma be32_split d : (4 <= length d)%nat -> exists v rest, (v < 2 ^ 32)%N /\ d = be32 v ++ rest.
Proof.
  intros H. destruct (get_be32_ok d H) as (n & E & L). exists n, (skipn 4 d). split; [exact L|].
  rewrite <- (be32_get _ _ E). symmetry. apply firstn_skipn.
Qed.

Section Wire.
Variable LIB : OPRF.
Hypothesis H33 : elt_size LIB 3 = Ok 33%nat.

Lemma unmarshal_short d : (length d < 37)%nat -> exists m, UnmarshalBinary LIB d = Err m.
Proof.
  intros H. unfold UnmarshalBinary. destruct d as [|b d]; [eauto|]. set (dd := b :: d) in *.
  destruct (length dd <? 4)%nat eqn:E; [eauto|]. apply Nat.ltb_ge in E.
  destruct (get_be32_ok dd ltac:(lia)) as (v & -> & _). cbn [bind]. unfold DefaultOPRFSuite. rewrite H33. cbn [bind].
  destruct ((length (skipn 4 dd) =? 0)%nat && negb (33 =? 0)%nat); [eauto|].
  assert (L : length (firstn 33 (skipn 4 dd)) <> 33%nat) by (rewrite firstn_length, skipn_length; lia).
  apply Nat.eqb_neq in L. rewrite L. cbn. eauto.
Qed.

Lemma unmarshal_parts v e b : (v < 2 ^ 32)%N -> length e = 33%nat ->
  UnmarshalBinary LIB (be32 v ++ e ++ b) = Ok {| rs_version := v; rs_evaluatedElement := e; rs_bucketContents := Some b |}.
Proof.
  intros Hv He. unfold UnmarshalBinary.
  change (be32 v ++ e ++ b) with (nB (v / 2 ^ 24) :: skipn 1 (be32 v) ++ e ++ b). cbv iota.
  change (nB (v / 2 ^ 24) :: skipn 1 (be32 v) ++ e ++ b) with (be32 v ++ e ++ b).
  rewrite (proj2 (Nat.ltb_ge _ _)) by (rewrite app_length, be32_length; lia).
  rewrite get_be32_small by exact Hv. cbn [bind]. unfold DefaultOPRFSuite. rewrite H33. cbn [bind].
  rewrite skipn_app_exact by reflexivity.
  rewrite firstn_app_exact by exact He. rewrite skipn_app_exact by exact He.
  rewrite He. rewrite Nat.eqb_refl. cbn [negb].
  replace (length (e ++ b) =? 0)%nat with false by (symmetry; apply Nat.eqb_neq; rewrite app_length; lia). reflexivity.
Qed.

Lemma wire_roundtrip r : (rs_version r < 2 ^ 32)%N -> length (rs_evaluatedElement r) = 33%nat ->
  exists d, MarshalBinary r = Ok d /\
    UnmarshalBinary LIB d = Ok {| rs_version := rs_version r; rs_evaluatedElement := rs_evaluatedElement r;
                                  rs_bucketContents := Some (sl (rs_bucketContents r)) |}.
Proof. intros Hv He. eexists. split; [reflexivity|]. apply unmarshal_parts; assumption. Qed.

Lemma unmarshal_long d : (37 <= length d)%nat ->
  exists r, UnmarshalBinary LIB d = Ok r /\ MarshalBinary r = Ok d /\ (rs_version r < 2 ^ 32)%N
    /\ length (rs_evaluatedElement r) = 33%nat /\ rs_bucketContents r <> None.
Proof.
  intros H. destruct (be32_split d ltac:(lia)) as (v & rest & Hv & ->). rewrite app_length, be32_length in H.
  rewrite <- (firstn_skipn 33 rest).
  assert (L : length (firstn 33 rest) = 33%nat) by (rewrite firstn_length; lia).
  eexists. split; [apply unmarshal_parts; assumption|]. split; [reflexivity|]. split; [exact Hv|]. split; [exact L|discriminate].
Qed.

Lemma unmarshal_fails_iff d : (exists m, UnmarshalBinary LIB d = Err m) <-> (length d < 37)%nat.
Proof.
  split; [|apply unmarshal_short]. intros [m H]. destruct (Nat.lt_ge_cases (length d) 37) as [L|L]; [exact L|].
  destruct (unmarshal_long d L) as (r & E & _). congruence.
Qed.

Lemma unmarshal_np d m : UnmarshalBinary LIB d <> Panic m.
Proof.
  destruct (Nat.lt_ge_cases (length d) 37) as [L|L].
  - destruct (unmarshal_short d L) as (e & ->). discriminate.
  - destruct (unmarshal_long d L) as (r & -> & _). discriminate.
Qed.

(** An element of another length never comes back. *)
Lemma wire_other_length r d r' : length (rs_evaluatedElement r) <> 33%nat ->
  MarshalBinary r = Ok d -> UnmarshalBinary LIB d = Ok r' ->
  rs_evaluatedElement r' <> rs_evaluatedElement r /\ sl (rs_bucketContents r') <> sl (rs_bucketContents r).
Proof.
  intros He M U. destruct (Nat.lt_ge_cases (length d) 37) as [L|L].
  - destruct (unmarshal_short d L) as (e & E). congruence.
  - destruct (unmarshal_long d L) as (r'' & E & M' & _ & L' & _). assert (r'' = r') by congruence. subst r''.
    split; [intros K; apply He; rewrite <- K; exact L'|].
    intros K. apply Ok_inj in M. apply Ok_inj in M'. rewrite <- M in M'. apply (f_equal (@length _)) in M'.
    rewrite !app_length, K in M'. rewrite !be32_length in M'. lia.
Qed.

(** Exactly what does come back: the bytes after the version, cut at 33. *)
Lemma wire_cut r : (rs_version r < 2 ^ 32)%N -> (33 <= length (rs_evaluatedElement r ++ sl (rs_bucketContents r)))%nat ->
  exists d, MarshalBinary r = Ok d /\
    UnmarshalBinary LIB d = Ok {| rs_version := rs_version r;
      rs_evaluatedElement := firstn 33 (rs_evaluatedElement r ++ sl (rs_bucketContents r));
      rs_bucketContents := Some (skipn 33 (rs_evaluatedElement r ++ sl (rs_bucketContents r))) |}.
Proof.
  intros Hv H. eexists. split; [reflexivity|].
  rewrite <- (firstn_skipn 33 (rs_evaluatedElement r ++ sl (rs_bucketContents r))) at 1.
  apply unmarshal_parts; [exact Hv|]. rewrite firstn_length. lia.
Qed.

End Wire.

(** ** C37: the request hides the credential *)
Section Hiding.
Variable groups : N -> option group.
Hypothesis Hlaws : forall s g, groups s = Some g -> group_laws g.
Notation LIB := (group_OPRF groups).

Lemma slow_total cfg c x : NewClient LIB cfg = Ok c -> exists h, SlowHasher_Hash (c_slowHasher c) x = Ok h.
Proof.
  intros H. apply NewClient_inv in H. destruct H as (_ & _ & _ & _ & _ & _ & _ & _ & HS).
  apply NewSlowHasher_iff in HS. destruct HS as [[_ ->]|[_ ->]]; [eexists; reflexivity|].
  destruct (scrypt_hash_ok x) as (h & H & _). eauto.
Qed.

Lemma request_hiding cfg (c : Client) g u p u' p' r rq ctx :
  NewClient LIB cfg = Ok c -> groups (cfg_oprfSuite cfg) = Some g ->
  Client_BucketID c u = Client_BucketID c u' -> (blen u' <= 65536)%Z -> (blen p' <= 65536)%Z ->
  (Z.of_N r < g_q g - 1)%Z -> @Request LIB c u p r = Ok (rq, ctx) ->
  exists r', (Z.of_N r' < g_q g - 1)%Z /\ (exists ctx', @Request LIB c u' p' r' = Ok (rq, ctx'))
    /\ forall r'', (Z.of_N r'' < g_q g - 1)%Z -> (exists ctx'', @Request LIB c u' p' r'' = Ok (rq, ctx'')) -> r'' = r'.
Proof.
  intros Hc Hg HB Hu Hp Hr R.
  assert (O : c_oprfSuite c = cfg_oprfSuite cfg) by (apply NewClient_inv in Hc; tauto).
  unfold Request in R. apply bind_ok in R as (ser & H1 & R). apply bind_ok in R as (x & H2 & R).
  apply bind_ok in R as (l & B & R). destruct l as [|b l]; [discriminate|].
  apply bind_ok in R as (id & Hid & R). apply Ok_inj, pair_inj in R as [R _].
  assert (BL : blind LIB (c_oprfSuite c) [x] [r] = Ok [b]).
  { pose proof B as B'. cbn [group_OPRF blind] in B'. unfold with_suite in B'. rewrite O, Hg in B'.
    cbn [combine mapM bind fst snd] in B'. apply Ok_inj in B'. injection B' as B1 B2. rewrite <- B2 in B. exact B. }
  destruct (slow_total cfg c (be16 (N.of_nat (length u') mod 65536) ++ u' ++ be16 (N.of_nat (length p') mod 65536) ++ p') Hc) as (x' & Hx').
  rewrite O in BL.
  destruct (blind_bijective groups Hlaws _ g x x' r b Hg Hr BL) as (r' & Hr' & B' & U).
  assert (K : forall rr, @Request LIB c u' p' rr
     = (l <- blind LIB (cfg_oprfSuite cfg) [x'] [rr] ;;
        match l with [] => Err "invalid BlindedElements response" | b0 :: _ =>
          Ok ({| rq_version := c_version c; rq_bucketID := BucketIDToHex id; rq_blindElement := Some b0 |},
              {| ctx_client := c; ctx_inputs := [x']; ctx_blinds := [rr] |}) end)).
  { intros rr. unfold Request. rewrite serialize_ok by assumption. cbn [bind].
    match goal with |- context [SlowHasher_Hash _ ?y] =>
      replace (SlowHasher_Hash (c_slowHasher c) y) with (@Ok bytes x') by (symmetry; exact Hx') end.
    cbn [bind]. rewrite O, <- HB, Hid. reflexivity. }
  exists r'. split; [exact Hr'|]. split.
  - rewrite K. change (Blind LIB) with N. rewrite B'. cbn [bind]. rewrite R. eauto.
  - intros r'' Hr'' (ctx'' & R''). rewrite K in R''. apply bind_ok in R'' as (l'' & B'' & R'').
    destruct l'' as [|b'' l'']; [discriminate|]. apply Ok_inj, pair_inj in R'' as [R'' _].
    rewrite <- R in R''. injection R'' as R''. subst b''. apply U; [exact Hr''|].
    pose proof B'' as B3. cbn [group_OPRF blind] in B3. unfold with_suite in B3. rewrite Hg in B3.
    cbn [combine mapM bind fst snd] in B3. apply Ok_inj in B3. injection B3 as _ B3. rewrite <- B3 in B''. exact B''.
Qed.

(** The blinded value is what the server computes directly, for a library that
    is a group. *)
Lemma group_agreement s g k x r b : groups s = Some g ->
  server_suite LIB s k = Ok tt -> blind LIB s [x] [r] = Ok [b] -> forall info,
  ((snd k + g_tweak g info) mod g_q g <> 0)%Z ->
  exists e y, evaluate LIB s k [b] info = Ok [e] /\ unblind LIB s [x] [r] [e] info = Ok [y]
    /\ full_evaluate LIB s k x info = Ok y.
Proof.
  intros Hg HS HB info T. cbn [group_OPRF blind evaluate unblind full_evaluate] in *. unfold with_suite in *. rewrite Hg in *.
  cbn [combine mapM bind fst snd] in HB. apply Ok_inj in HB. injection HB as <-.
  unfold tweaked. apply Z.eqb_neq in T. rewrite T. cbn [bind mapM].
  rewrite (gl_dec _ (Hlaws _ _ Hg)). cbn [bind]. do 2 eexists. split; [reflexivity|].
  cbn [mapM combine fst snd bind length Nat.eqb andb].
  rewrite (gl_dec _ (Hlaws _ _ Hg)). cbn [bind]. rewrite (unblind_correct groups Hlaws s) by exact Hg. split; reflexivity.
Qed.
End Hiding.
