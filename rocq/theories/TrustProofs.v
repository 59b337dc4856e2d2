(** * Lemmas about clients and servers that do not fit together or do not
    trust each other. *)
From Coq Require Import ConstructiveEpsilon.
From Verif Require Import Base BaseProofs Common CommonProofs Hasher Oprf OprfGroup Server Client KV Mutator Json ConfigJson Scanner Demo Url UrlProofs Flags Main.
From Verif Require Import SpecCommon SpecEntry SpecProtocol SpecDemo SpecHttp SpecMain SpecTrust EncryptorProofs FinalizeProofs ProtocolProofs WireProofs DemoProofs IngestProofs HttpProofs MainProofs.

(** ** Different configurations *)
Lemma same_handle LIB cfg cfg' key (s s' : Server LIB) :
  NewServer {| sc_config := cfg; sc_privateKey := key |} = Ok s -> NewServer {| sc_config := cfg'; sc_privateKey := key |} = Ok s' ->
  cfg_version cfg = cfg_version cfg' -> cfg_oprfSuite cfg = cfg_oprfSuite cfg' ->
  forall rq kv, HandleRequest s rq kv = HandleRequest s' rq kv.
Proof.
  intros H H' V O rq kv. apply NewServer_inv in H. apply NewServer_inv in H'. cbn [sc_config sc_privateKey] in *.
  destruct H as (_ & _ & _ & _ & A1 & _ & A2 & A3 & _). destruct H' as (_ & _ & _ & _ & B1 & _ & B2 & B3 & _).
  unfold HandleRequest. rewrite A1, A2, A3, B1, B2, B3, V, O. reflexivity.
Qed.

(** A client with another configuration, and no entry with its key check in
    the bucket it asks for: "not in breach", no error. *)
Lemma mismatch_miss LIB (laws : OPRF_laws LIB) cfg cfg' key (s s' : Server LIB) (c : Client) db kv u p (r : Blind LIB) k' id' :
  NewServer {| sc_config := cfg; sc_privateKey := key |} = Ok s ->
  NewServer {| sc_config := cfg'; sc_privateKey := key |} = Ok s' -> NewClient LIB cfg' = Ok c ->
  cfg_version cfg = cfg_version cfg' -> (cfg_version cfg < 2 ^ 16)%N -> cfg_oprfSuite cfg = cfg_oprfSuite cfg' ->
  store_all s newKVStore db = Ok kv -> kv_holdable kv ->
  deriveBucketEntryKey s' u p = Ok k' -> Client_BucketID c u = Ok id' ->
  (forall d k, In d db -> Server_BucketID s (d_user d) = Ok id' -> deriveBucketEntryKey s (d_user d) (d_pass d) = Ok k -> key_check k <> key_check k') ->
  run_query c s (kv_Get kv) u p r = Ok (NotInBreach, None).
Proof.
  intros Hs Hs' Hc V Vb O St Hh Hk Hid N.
  assert (Hv' : (cfg_version cfg' < 2 ^ 16)%N) by congruence.
  assert (Hid' : Server_BucketID s' u = Ok id') by (rewrite <- (same_bucket LIB cfg' key s' c Hs' Hc); exact Hid).
  destruct (request_answer LIB laws cfg' key s' c Hs' Hc Hv' u p r k' id' (kv_Get kv) _ Hk Hid' eq_refl) as (b & e & ctx & R & A & _ & S & _).
  unfold run_query. rewrite R. rewrite (same_handle LIB cfg cfg' key s s' Hs Hs' V O), A. cbn [bind].
  pose proof (store_all_storable s _ _ _ St) as F.
  pose proof (store_all_bucket s _ _ _ id' St (Server_BucketID_lt s' u id' Hid')) as B. cbn [newKVStore kv_lookup sl app] in B.
  assert (Fo : Forall entry_ok (map (entry_of s) (filter (in_bucket s id') db))).
  { apply Forall_map. rewrite Forall_forall in *. intros d Hd. apply filter_In in Hd as [Hd _]. apply storable_entry_ok. auto. }
  rewrite (Finalize_short LIB ctx _ k' (map (entry_of s) (filter (in_bucket s id') db)) []).
  - unfold scan_result.
    assert (E : find (entry_matches k') (map (entry_of s) (filter (in_bucket s id') db)) = None).
    { clear - N F. induction F as [|d db Hd F IH]; [reflexivity|].
      assert (IH' := IH (fun d0 k H => N d0 k (or_intror H))). cbn [filter].
      destruct (in_bucket s id' d) eqn:B; [|exact IH']. cbn [map find].
      destruct Hd as ((i & Hi) & (k & Hk) & _). unfold in_bucket in B. rewrite Hi in B. apply N.eqb_eq in B. subst i.
      assert (M : entry_matches k' (entry_of s d) = false).
      { destruct (entry_matches k' (entry_of s d)) eqn:M; [|reflexivity]. exfalso. unfold entry_of in M. rewrite Hk in M.
        apply make_entry_matches in M. apply (N d k); auto. left. reflexivity. }
      rewrite M. exact IH'. }
    rewrite E. reflexivity.
  - apply client_secret_ok, S.
  - cbn [rs_bucketContents]. rewrite app_nil_r. exact B.
  - exact Fo.
  - unfold short_tail. cbn. lia.
  - rewrite app_nil_r, <- B. apply Hh.
Qed.

(** A client with another bit size misses a credential that is stored. *)
Lemma other_bits_miss LIB (laws : OPRF_laws LIB) cfg bits key (s : Server LIB) (c : Client) db kv u p (r : Blind LIB) k id id' :
  NewServer {| sc_config := cfg; sc_privateKey := key |} = Ok s -> NewClient LIB (with_bits cfg bits) = Ok c -> (cfg_version cfg < 2 ^ 16)%N ->
  store_all s newKVStore db = Ok kv -> kv_holdable kv -> deriveBucketEntryKey s u p = Ok k -> no_collision s db u p ->
  Server_BucketID s u = Ok id -> Client_BucketID c u = Ok id' -> id' <> id ->
  run_query c s (kv_Get kv) u p r = Ok (NotInBreach, None).
Proof.
  intros Hs Hc V St Hh Hk N Hid Hid' D.
  destruct (bit_size_unchecked LIB _ s bits Hs) as (s' & Hs' & E). cbn [sc_config sc_privateKey] in Hs'.
  assert (DK : forall x y, deriveBucketEntryKey s' x y = deriveBucketEntryKey s x y).
  { intros x y. pose proof Hs as I. pose proof Hs' as I'. apply NewServer_inv in I. apply NewServer_inv in I'.
    cbn [sc_config sc_privateKey cfg_slowHasher cfg_oprfSuite] in *.
    destruct I as (_ & _ & _ & _ & _ & _ & A2 & A3 & _ & A4). destruct I' as (_ & _ & _ & _ & _ & _ & B2 & B3 & _ & B4).
    unfold deriveBucketEntryKey. rewrite A2, A3, B2, B3. rewrite A4 in B4. apply Ok_inj in B4. rewrite B4. reflexivity. }
  apply (mismatch_miss LIB laws cfg (with_bits cfg bits) key s s' c db kv u p r k id'); auto.
  - rewrite DK. exact Hk.
  - intros d k1 I B K1. apply (N d k k1 I); auto. intros Eq. apply pair_inj in Eq as [Eu _]. rewrite Eu, Hid in B. apply D. congruence.
Qed.

(** Bit sizes that differ give different bucket IDs, unless both are zero. *)
Lemma ids_differ_lt h b b' id id' : (4 <= length h)%nat -> (0 <= b < b')%Z -> (b' <= 32)%Z ->
  bucketHashToID h b = Ok id -> bucketHashToID h b' = Ok id' -> id = id' -> id' = 0%N.
Proof.
  intros L B B' H H' E. rewrite bucketHashToID_bits in H by (auto; lia). rewrite bucketHashToID_bits in H' by (auto; lia).
  apply Ok_inj in H, H'. pose proof (bits_length h) as BL.
  assert (S : firstn (Z.to_nat b') (bits h) = firstn (Z.to_nat b) (bits h) ++ firstn (Z.to_nat b' - Z.to_nat b) (skipn (Z.to_nat b) (bits h))).
  { replace (Z.to_nat b') with (Z.to_nat b + (Z.to_nat b' - Z.to_nat b))%nat at 1 by lia. rewrite <- (firstn_skipn (Z.to_nat b) (bits h)) at 1.
    rewrite firstn_app. rewrite firstn_length. rewrite firstn_firstn.
    replace (Init.Nat.min (Z.to_nat b + (Z.to_nat b' - Z.to_nat b)) (Z.to_nat b)) with (Z.to_nat b) by lia.
    replace (Z.to_nat b + (Z.to_nat b' - Z.to_nat b) - Init.Nat.min (Z.to_nat b) (length (bits h)))%nat with (Z.to_nat b' - Z.to_nat b)%nat by lia. reflexivity. }
  rewrite S, bits_value_app, H in H'. clear S H.
  set (t := firstn _ (skipn _ _)) in *. assert (Lt : length t = (Z.to_nat b' - Z.to_nat b)%nat) by (unfold t; rewrite firstn_length, skipn_length; lia).
  rewrite Lt in H'. rewrite E in H'. clearbody t. clear E id.
  assert (P : (2 <= 2 ^ N.of_nat (Z.to_nat b' - Z.to_nat b))%N).
  { change 2%N with (2 ^ 1)%N at 1. apply N.pow_le_mono_r; [discriminate|lia]. }
  nia.
Qed.
Lemma ids_differ LIB (s : Server LIB) (c : Client) cfg key bits u id id' :
  NewServer {| sc_config := cfg; sc_privateKey := key |} = Ok s -> NewClient LIB (with_bits cfg bits) = Ok c ->
  (0 <= cfg_bits cfg <= 32)%Z -> (0 <= bits <= 32)%Z -> bits <> cfg_bits cfg ->
  Server_BucketID s u = Ok id -> Client_BucketID c u = Ok id' -> id <> 0%N \/ id' <> 0%N -> id' <> id.
Proof.
  intros Hs Hc B B' D I I' NZ E. apply NewServer_inv in Hs. apply NewClient_inv in Hc. cbn [sc_config with_bits cfg_bits] in *.
  destruct Hs as (_ & _ & _ & _ & _ & A1 & _ & _ & A2 & _). destruct Hc as (_ & _ & _ & _ & _ & B1 & _ & B2 & _).
  unfold Server_BucketID, Client_BucketID in *. rewrite A1, A2 in I. rewrite B1, B2 in I'. cbn [with_bits cfg_bits] in I'.
  apply bind_ok in I as (h & Hh & I). apply bind_ok in I' as (h' & Hh' & I'). rewrite Hh in Hh'. apply Ok_inj in Hh'. subst h'.
  assert (L : (4 <= length h)%nat).
  { unfold BucketHasher_Hash in Hh. destruct NewSHA256BucketHasher as [salt]. destruct (_ || _); [discriminate|]. apply Ok_inj in Hh. rewrite <- Hh, LibProofs.sha256_length. lia. }
  destruct (Z.lt_ge_cases (cfg_bits cfg) bits) as [C|C].
  - assert (id' = 0%N) by (eapply (ids_differ_lt h (cfg_bits cfg) bits id id'); eauto; lia). subst. tauto.
  - assert (id = 0%N) by (eapply (ids_differ_lt h bits (cfg_bits cfg) id' id); eauto; lia). subst. tauto.
Qed.

Lemma other_bits_never_found LIB (laws : OPRF_laws LIB) cfg bits key (s : Server LIB) (c : Client) db kv u p (r : Blind LIB) k id id' :
  NewServer {| sc_config := cfg; sc_privateKey := key |} = Ok s -> NewClient LIB (with_bits cfg bits) = Ok c -> (cfg_version cfg < 2 ^ 16)%N ->
  (0 <= cfg_bits cfg <= 32)%Z -> (0 <= bits <= 32)%Z -> bits <> cfg_bits cfg ->
  store_all s newKVStore db = Ok kv -> kv_holdable kv -> deriveBucketEntryKey s u p = Ok k -> no_collision s db u p ->
  Server_BucketID s u = Ok id -> Client_BucketID c u = Ok id' -> id <> 0%N \/ id' <> 0%N ->
  run_query c s (kv_Get kv) u p r = Ok (NotInBreach, None).
Proof.
  intros Hs Hc V B B' D St Hh Hk N I I' NZ.
  eapply (other_bits_miss LIB laws cfg bits key s c db kv u p r k id id'); eauto.
  eapply ids_differ; eauto.
Qed.

(** Another version is refused. *)
Lemma other_version_refused LIB cfg cfg' key (s : Server LIB) (c : Client) kv u p (r : Blind LIB) a :
  NewServer {| sc_config := cfg; sc_privateKey := key |} = Ok s -> NewClient LIB cfg' = Ok c ->
  (cfg_version cfg < 2 ^ 16)%N -> (cfg_version cfg' < 2 ^ 16)%N -> cfg_version cfg' <> cfg_version cfg ->
  run_query c s kv u p r <> Ok a.
Proof.
  intros Hs Hc V V' D. unfold run_query. destruct (Request c u p r) as [[rq ctx]|e|e] eqn:R; [|discriminate..].
  assert (RV : rq_version rq = c_version c).
  { unfold Request in R. apply bind_ok in R as (? & _ & R). apply bind_ok in R as (? & _ & R). apply bind_ok in R as (l & _ & R).
    destruct l as [|b l]; [discriminate|]. apply bind_ok in R as (id & _ & R). apply Ok_inj, pair_inj in R as [<- _]. reflexivity. }
  apply NewServer_inv in Hs. apply NewClient_inv in Hc. cbn [sc_config] in Hs.
  destruct Hs as (_ & _ & _ & _ & A & _). destruct Hc as (_ & _ & _ & _ & B & _).
  unfold HandleRequest. rewrite RV, A, B. unfold u16. rewrite N.mod_small by exact V'.
  destruct (N.eqb_spec (cfg_version cfg') (cfg_version cfg)) as [E|_]; [contradiction|]. discriminate.
Qed.

(** ** The guess oracle *)
Lemma poison_overrun : overrun_tail (repeat Byte.x00 24 ++ [Byte.x01]).
Proof.
  exists (repeat Byte.x00 20), Byte.x00, 1%N, []. split; [vm_compute; reflexivity|]. split; [reflexivity|]. split; [reflexivity|]. unfold blen. cbn. lia.
Qed.

Lemma baited_query LIB (laws : OPRF_laws LIB) cfg key (s : Server LIB) (c : Client) store u guess p (r : Blind LIB) id e k :
  NewServer {| sc_config := cfg; sc_privateKey := key |} = Ok s -> NewClient LIB cfg = Ok c -> (cfg_version cfg < 2 ^ 16)%N ->
  Server_BucketID s u = Ok id -> EncryptBucketEntry s u guess Byte.x01 [] = Ok e ->
  kv_lookup store (BucketIDToHex id) = Some (baited e) ->
  deriveBucketEntryKey s u p = Ok k -> no_collision s [mkCred u guess Byte.x01 []] u p ->
  (p = guess -> run_query c s (kv_Get store) u p r = Ok (InBreach, Some [])) /\
  (p <> guess -> exists m, run_query c s (kv_Get store) u p r = Err m).
Proof.
  intros Hs Hc V Hid He L Hk N.
  apply EncryptBucketEntry_inv in He as (kg & Hkg & _ & _ & ->).
  assert (G : kv_Get store (BucketIDToHex id) = Ok (Some (baited (entry_bytes (make_entry kg Byte.x01 []))))) by (unfold kv_Get; rewrite L; reflexivity).
  destruct (request_answer LIB laws cfg key s c Hs Hc V u p r k id (kv_Get store) _ Hk Hid G) as (b & el & ctx & R & A & _ & S & _).
  unfold run_query. rewrite R, A. cbn [bind].
  assert (O : entry_ok (make_entry kg Byte.x01 [])) by (apply make_entry_ok; unfold blen; cbn; lia).
  rewrite (Finalize_overrun LIB ctx _ k [make_entry kg Byte.x01 []] (repeat Byte.x00 24 ++ [Byte.x01])).
  - unfold scan_result. cbn [find]. split; intros D.
    + subst p. rewrite Hk in Hkg. apply Ok_inj in Hkg. subst kg.
      assert (M : entry_matches k (make_entry k Byte.x01 []) = true) by (apply make_entry_matches; reflexivity).
      rewrite M. unfold opened. destruct (make_entry_open k Byte.x01 []) as (_ & Fl & Le & Bo); [unfold blen; cbn; lia|].
      unfold blen. rewrite Le, Fl, Bo. cbn [length]. rewrite (proj2 (Z.leb_le _ _)) by lia. reflexivity.
    + destruct (entry_matches k (make_entry kg Byte.x01 [])) eqn:M; [|eauto]. exfalso. apply make_entry_matches in M.
      apply (N (mkCred u guess Byte.x01 []) k kg); cbn [d_user d_pass]; auto; [left; reflexivity|]. intros E. apply pair_inj in E as [_ E]. congruence.
  - apply client_secret_ok, S.
  - cbn [rs_bucketContents sl bucket_bytes flat_map]. rewrite app_nil_r. reflexivity.
  - constructor; [exact O|constructor].
  - exact poison_overrun.
  - unfold small, blen, bucket_bytes, entry_bytes. cbn [flat_map]. rewrite app_nil_r, !app_length. destruct O as [OL _]. rewrite OL.
    destruct (make_entry_open kg Byte.x01 []) as (_ & _ & Le & _); [unfold blen; cbn; lia|]. rewrite Le.
    change (length (be32 _)) with 4%nat. cbn [length repeat]. lia.
Qed.

(** What the client posts, by credentials instead of lines. *)
Fixpoint posts_by (posts : nat -> bytes -> bytes -> list bytes) (query : nat -> bytes -> bytes -> res (BreachStatus * gslice))
    (i : nat) (creds : list (bytes * bytes)) : list bytes :=
  match creds with
  | [] => []
  | (u, p) :: r => posts i u p ++ match query i u p with Ok _ => posts_by posts query (S i) r | _ => [] end
  end.
Lemma posts_of_creds posts query lines : forall i, posts_of posts query i lines = posts_by posts query i (with_colon lines).
Proof.
  induction lines as [|l r IH]; intros i; [reflexivity|]. rewrite with_colon_cons. cbn [posts_of].
  destruct (split_colon l) as [[u p]|]; [|apply IH]. cbn [posts_by]. destruct (query i u p); [rewrite IH|..]; reflexivity.
Qed.
Lemma posts_one LIB cfg c u p (r : Blind LIB) : OPRF_laws LIB -> NewClient LIB cfg = Ok c -> (0 <= cfg_bits cfg <= 32)%Z ->
  (blen u <= 65536)%Z -> (blen p <= 65536)%Z -> exists d, Query_posts cfg u p r = [d].
Proof.
  intros L Hc B Hu Hp. unfold Query_posts. rewrite Hc. destruct (request_total LIB cfg c u p r L Hc B Hu Hp) as (rq & ctx & ->). eauto.
Qed.

Lemma guess_oracle LIB (laws : OPRF_laws LIB) cfg key (s : Server LIB) (c : Client) store o fs input (blinds : nat -> Blind LIB) u guess p next more id e k host :
  plain_host host -> co_target o = str "http://" ++ host ->
  NewServer {| sc_config := cfg; sc_privateKey := key |} = Ok s -> NewClient LIB cfg = Ok c -> (cfg_version cfg < 2 ^ 16)%N ->
  cfg_oprfSuite cfg = 3%N -> (0 <= cfg_bits cfg <= 32)%Z ->
  Server_BucketID s u = Ok id -> EncryptBucketEntry s u guess Byte.x01 [] = Ok e ->
  kv_lookup store (BucketIDToHex id) = Some (baited e) ->
  deriveBucketEntryKey s u p = Ok k -> no_collision s [mkCred u guess Byte.x01 []] u p ->
  input_of fs (co_infile o) = Some input -> with_colon (scan_lines input) = (u, p) :: next :: more ->
  ((2 <= length (client_posts o fs (behind (mkDemoServer s store) host) cfg blinds))%nat <-> p = guess).
Proof.
  intros PH CT Hs Hc V S3 B Hid He L Hk N Hi W. unfold client_posts. rewrite Hi, posts_of_creds, W. destruct next as [u2 p2].
  assert (Bd : forall x y, In (x, y) ((u, p) :: (u2, p2) :: more) -> (blen x < 65536 /\ blen y < 65536)%Z).
  { intros x y I. rewrite <- W in I. eapply with_colon_blen; [|exact I]. apply scan_lines_blen. }
  cbn [posts_by].
  destruct (Bd u p (or_introl eq_refl)) as [Bu Bp]. destruct (Bd u2 p2 (or_intror (or_introl eq_refl))) as [Bu2 Bp2].
  destruct (posts_one LIB cfg c u p (blinds 0%nat) laws Hc B) as (d1 & ->); [lia..|].
  destruct (posts_one LIB cfg c u2 p2 (blinds 1%nat) laws Hc B) as (d2 & ->); [lia..|].
  destruct (baited_query LIB laws cfg key s c store u guess p (blinds 0%nat) id e k Hs Hc V Hid He L Hk N) as [T F].
  pose proof (query_http LIB _ s cfg c store host u p (blinds 0%nat) PH laws Hs Hc S3 S3 V) as Q.
  cbn [n_post behind]. rewrite CT.
  destruct (list_eq_dec Byte.byte_eq_dec p guess) as [E|E].
  - rewrite (T E) in Q. destruct (Query _ _ _ _ _ _); [|contradiction..]. split; [intros; exact E|]. intros _. cbn [length app]. lia.
  - destruct (F E) as (m & M). rewrite M in Q. destruct (Query _ _ _ _ _ _); [contradiction| |]; (split; [cbn [length app]; lia|contradiction]).
Qed.

(** ** Privacy of the traffic of a whole run *)
Definition request_eq_dec (a b : ClientRequest) : {a = b} + {a <> b}.
Proof.
  destruct a as [v i x], b as [v' i' x']. destruct (N.eq_dec v v') as [->|]; [|right; congruence].
  destruct (list_eq_dec Byte.byte_eq_dec i i') as [->|]; [|right; congruence].
  destruct x as [x|], x' as [x'|]; [|right; discriminate..|left; reflexivity].
  destruct (list_eq_dec Byte.byte_eq_dec x x') as [->|]; [left; reflexivity|right; congruence].
Defined.

Section Privacy.
Variable groups : N -> option group.
Hypothesis Hlaws : forall s g, groups s = Some g -> group_laws g.
Hypothesis Hdefault : exists g, groups 3%N = Some g /\ g_len g = 33%nat.
Notation LIB := (group_OPRF groups).
Variables (cfg : Config) (c : Client) (g : group).
Hypothesis Hc : NewClient LIB cfg = Ok c.
Hypothesis Hg : groups (cfg_oprfSuite cfg) = Some g.
Hypothesis Hb : (0 <= cfg_bits cfg <= 32)%Z.

Definition draw (r : N) : Prop := (Z.of_N r < g_q g - 1)%Z.
Definition sent (u p : bytes) (r : N) : option ClientRequest := match @Request LIB c u p r with Ok (rq, _) => Some rq | _ => None end.
Definition fits (a : bytes * bytes) : Prop := (blen (fst a) < 65536 /\ blen (snd a) < 65536)%Z.

Lemma sent_some a r : fits a -> exists rq, sent (fst a) (snd a) r = Some rq.
Proof.
  intros [B1 B2]. unfold sent. destruct (request_total LIB cfg c (fst a) (snd a) r (group_OPRF_laws groups Hlaws Hdefault) Hc Hb) as (rq & ctx & ->); [lia..|]. eauto.
Qed.
Lemma sent_hides a b r : fits a -> fits b -> Client_BucketID c (fst a) = Client_BucketID c (fst b) -> draw r ->
  exists r', draw r' /\ sent (fst b) (snd b) r' = sent (fst a) (snd a) r
    /\ forall r'', draw r'' -> sent (fst b) (snd b) r'' = sent (fst a) (snd a) r -> r'' = r'.
Proof.
  intros Fa Fb E D. destruct Fb as [B1 B2]. destruct (sent_some a r Fa) as (rq & S). rewrite S. unfold sent in S |- *.
  destruct (@Request LIB c (fst a) (snd a) r) as [[rq0 ctx]|m|m] eqn:R; try discriminate. apply Some_inj in S. subst rq0.
  destruct (request_hiding groups Hlaws cfg c g (fst a) (snd a) (fst b) (snd b) r rq ctx Hc Hg E) as (r' & D' & (ctx' & R') & U); [lia|lia|exact D|exact R|].
  exists r'. split; [exact D'|]. split; [rewrite R'; reflexivity|]. intros r'' D'' K. apply U; [exact D''|].
  destruct (@Request LIB c (fst b) (snd b) r'') as [[rq2 ctx2]|m|m]; try discriminate. apply Some_inj in K. subst rq2. eauto.
Qed.

(** The draw with which the second credential gives the same request. *)
Lemma draw_dec r : {draw r} + {~ draw r}.
Proof. unfold draw. destruct (Z_lt_dec (Z.of_N r) (g_q g - 1)); auto. Qed.
Definition counterpart_sig a b (Fa : fits a) (Fb : fits b) (E : Client_BucketID c (fst a) = Client_BucketID c (fst b)) r (D : draw r) :
  {r' | draw r' /\ sent (fst b) (snd b) r' = sent (fst a) (snd a) r}.
Proof.
  apply (constructive_indefinite_ground_description N N.to_nat N.of_nat N2Nat.id).
  - intros x. destruct (draw_dec x) as [Dx|Dx]; [|right; tauto].
    destruct (sent (fst b) (snd b) x) as [y|], (sent (fst a) (snd a) r) as [z|]; try (right; intros [_ K]; discriminate); [|left; auto].
    destruct (request_eq_dec y z) as [->|Ne]; [left; auto|right; intros [_ K]; apply Ne; congruence].
  - destruct (sent_hides a b r Fa Fb E D) as (r' & D' & S & _). eauto.
Qed.
Definition counterpart a b Fa Fb E r : N := match draw_dec r with left D => proj1_sig (counterpart_sig a b Fa Fb E r D) | right _ => r end.
Lemma counterpart_spec a b Fa Fb E r : draw r ->
  draw (counterpart a b Fa Fb E r) /\ sent (fst b) (snd b) (counterpart a b Fa Fb E r) = sent (fst a) (snd a) r.
Proof. intros D. unfold counterpart. destruct (draw_dec r) as [D'|]; [|contradiction]. destruct (counterpart_sig a b Fa Fb E r D') as (r' & H). exact H. Qed.

Lemma counterparts a b : fits a -> fits b -> Client_BucketID c (fst a) = Client_BucketID c (fst b) ->
  exists f f' : N -> N, forall r, draw r -> draw (f r) /\ draw (f' r) /\ f' (f r) = r /\ f (f' r) = r
    /\ sent (fst b) (snd b) (f r) = sent (fst a) (snd a) r.
Proof.
  intros Fa Fb E. exists (counterpart a b Fa Fb E), (counterpart b a Fb Fa (eq_sym E)). intros r D.
  destruct (counterpart_spec a b Fa Fb E r D) as [D1 S1]. destruct (counterpart_spec b a Fb Fa (eq_sym E) r D) as [D2 S2].
  destruct (counterpart_spec b a Fb Fa (eq_sym E) _ D1) as [D3 S3]. destruct (counterpart_spec a b Fa Fb E _ D2) as [D4 S4].
  split; [exact D1|]. split; [exact D2|]. split; [|split; [|exact S1]].
  - destruct (sent_hides a a r Fa Fa eq_refl D) as (x & _ & _ & U). rewrite (U _ D3) by congruence. symmetry. apply U; [exact D|reflexivity].
  - destruct (sent_hides b b r Fb Fb eq_refl D) as (x & _ & _ & U). rewrite (U _ D4) by congruence. symmetry. apply U; [exact D|reflexivity].
Qed.

Lemma all_counterparts l l' : Forall fits l -> Forall fits l' ->
  Forall2 (fun a b => Client_BucketID c (fst a) = Client_BucketID c (fst b)) l l' ->
  exists f f' : nat -> N -> N,
    (forall i r, draw r -> draw (f i r) /\ draw (f' i r) /\ f' i (f i r) = r /\ f i (f' i r) = r) /\
    forall i a b r, nth_error l i = Some a -> nth_error l' i = Some b -> draw r -> sent (fst b) (snd b) (f i r) = sent (fst a) (snd a) r.
Proof.
  intros F F' H. revert F F'. induction H as [|a b l l' E H IH]; intros F F'.
  - exists (fun _ r => r), (fun _ r => r). split; [auto|]. intros i a b r K. destruct i; discriminate.
  - apply Forall_cons_iff in F as [Fa F]. apply Forall_cons_iff in F' as [Fb F']. destruct (IH F F') as (f & f' & A & B).
    destruct (counterparts a b Fa Fb E) as (h & h' & C).
    exists (fun i => match i with O => h | S i => f i end), (fun i => match i with O => h' | S i => f' i end). split.
    + intros [|i] r D; [|apply A, D]. destruct (C r D) as (C1 & C2 & C3 & C4 & _). auto.
    + intros [|i] x y r Hx Hy D; [|apply (B i); auto]. cbn in Hx, Hy. apply Some_inj in Hx, Hy. subst x y. apply C, D.
Qed.

Lemma Query_posts_sent u p r : @Query_posts LIB cfg u p r = match sent u p r with Some rq => [ClientRequest_marshal rq] | None => [] end.
Proof. unfold Query_posts, sent. rewrite Hc. destruct (@Request LIB c u p r) as [[]| |]; reflexivity. Qed.

Lemma posts_compare posts posts' query query' l l' : forall i,
  length l = length l' ->
  (forall j a b, nth_error l j = Some a -> nth_error l' j = Some b -> posts (i + j)%nat (fst a) (snd a) = posts' (i + j)%nat (fst b) (snd b)) ->
  one_extends_other (posts_by posts query i l) (posts_by posts' query' i l').
Proof.
  revert l'. induction l as [|[u p] l IH]; intros [|[u' p'] l'] i L K; try discriminate; [exists []; left; reflexivity|]. cbn [posts_by].
  pose proof (K O (u, p) (u', p') eq_refl eq_refl) as K0. rewrite Nat.add_0_r in K0. cbn [fst snd] in K0. rewrite K0.
  destruct (query i u p), (query' i u' p'); try (exists []; left; rewrite !app_nil_r; reflexivity); try (exists (posts_by posts query (S i) l); right; rewrite app_nil_r; reflexivity); try (exists (posts_by posts' query' (S i) l'); left; rewrite app_nil_r; reflexivity).
  destruct (IH l' (S i)) as (t & [T|T]); [cbn [length] in L; lia|intros j x y Hx Hy; rewrite Nat.add_succ_comm; apply K; assumption|..].
  - exists t. left. rewrite <- app_assoc, T. reflexivity.
  - exists t. right. rewrite <- app_assoc, T. reflexivity.
Qed.

Lemma traffic_private o fs fs' net net' input input' :
  input_of fs (co_infile o) = Some input -> input_of fs' (co_infile o) = Some input' ->
  Forall2 (fun a b => Client_BucketID c (fst a) = Client_BucketID c (fst b)) (with_colon (scan_lines input)) (with_colon (scan_lines input')) ->
  exists f f' : nat -> N -> N,
    (forall i r, draw r -> draw (f i r) /\ draw (f' i r) /\ f' i (f i r) = r /\ f i (f' i r) = r) /\
    forall blinds, (forall i, draw (blinds i)) ->
      one_extends_other (@client_posts LIB o fs net cfg blinds) (@client_posts LIB o fs' net' cfg (fun i => f i (blinds i))).
Proof.
  intros I I' F.
  assert (Fit : forall inp, Forall fits (with_colon (scan_lines inp))).
  { intros inp. apply Forall_forall. intros [u p] In. eapply with_colon_blen; [|exact In]. apply scan_lines_blen. }
  destruct (all_counterparts _ _ (Fit input) (Fit input') F) as (f & f' & A & B).
  exists f, f'. split; [exact A|]. intros blinds D. unfold client_posts. rewrite I, I', !posts_of_creds.
  apply posts_compare; [clear - F; induction F; cbn [length]; lia|].
  intros j a b Ha Hb'. rewrite Nat.add_0_l. rewrite !Query_posts_sent. rewrite (B j a b _ Ha Hb' (D j)). reflexivity.
Qed.
End Privacy.

(** [client_posts] is all that the client sends: its run depends on nothing
    else of the network. *)
Lemma Query_posts_all LIB cfg (post post' : transport) url u p (r : Blind LIB) :
  (forall d, In d (Query_posts cfg u p r) -> post url d = post' url d) -> Query cfg post url u p r = Query cfg post' url u p r.
Proof.
  unfold Query_posts, Query. intros H. destruct (NewClient LIB cfg) as [c|e|e]; [|reflexivity..]. cbn [bind].
  destruct (Request c u p r) as [[rq ctx]|e|e]; [|reflexivity..]. cbn [bind]. rewrite (H _ (or_introl eq_refl)). reflexivity.
Qed.
Lemma client_posts_all LIB o fs net net' cfg (blinds : nat -> Blind LIB) :
  (forall d, In d (client_posts o fs net cfg blinds) -> n_post net (co_target o ++ str "/evaluate") d = n_post net' (co_target o ++ str "/evaluate") d) ->
  client_query o fs net cfg blinds = client_query o fs net' cfg blinds /\ client_posts o fs net cfg blinds = client_posts o fs net' cfg blinds.
Proof.
  unfold client_posts, client_query. destruct (input_of fs (co_infile o)) as [input|]; [|auto]. intros H. cbv zeta.
  assert (K : client_main (fun i u p => Query cfg (n_post net) (co_target o ++ str "/evaluate") u p (blinds i)) (co_show o) input
            = client_main (fun i u p => Query cfg (n_post net') (co_target o ++ str "/evaluate") u p (blinds i)) (co_show o) input
    /\ posts_of (fun i u p => Query_posts cfg u p (blinds i)) (fun i u p => Query cfg (n_post net) (co_target o ++ str "/evaluate") u p (blinds i)) 0 (scan_lines input)
     = posts_of (fun i u p => Query_posts cfg u p (blinds i)) (fun i u p => Query cfg (n_post net') (co_target o ++ str "/evaluate") u p (blinds i)) 0 (scan_lines input));
    [|destruct K as [-> ->]; auto].
  unfold client_main. revert H. generalize 0%nat as i. induction (scan_lines input) as [|l lines IH]; intros i H; [auto|].
  cbn [client_lines posts_of] in *. destruct (split_colon l) as [[u p]|]; [|apply IH, H].
  rewrite (Query_posts_all LIB cfg (n_post net) (n_post net') _ u p (blinds i)) in * by (intros d I; apply H, in_or_app; left; exact I).
  destruct (Query cfg (n_post net') _ u p (blinds i)) as [[st m]|e|e]; [|auto..].
  destruct (IH (S i)) as [E1 E2]; [intros d I; apply H, in_or_app; right; exact I|]. rewrite E1, E2. auto.
Qed.

(** A run that ends with status 0 has posted once per credential. *)
Lemma complete_posts LIB (laws : OPRF_laws LIB) o fs net cfg c (blinds : nat -> Blind LIB) input :
  NewClient LIB cfg = Ok c -> (0 <= cfg_bits cfg <= 32)%Z ->
  input_of fs (co_infile o) = Some input -> x_status (client_query o fs net cfg blinds) = 0%N ->
  length (client_posts o fs net cfg blinds) = length (with_colon (scan_lines input)).
Proof.
  intros Hc B I. unfold client_posts, client_query. rewrite I. cbv zeta. cbn [x_status]. rewrite posts_of_creds. unfold client_main.
  pose proof (with_colon_blen (scan_lines input)) as W. specialize (fun u p => W u p 65536%Z (scan_lines_blen input)).
  revert W. generalize 0%nat as i. induction (scan_lines input) as [|l lines IH]; intros i W H; [reflexivity|].
  rewrite with_colon_cons in *. cbn [client_lines] in H. destruct (split_colon l) as [[u p]|]; [|apply IH; assumption].
  cbn [posts_by]. destruct (W u p (or_introl eq_refl)) as [Bu Bp]. destruct (posts_one LIB cfg c u p (blinds i) laws Hc B) as (d & ->); [lia..|].
  destruct (Query cfg _ _ u p (blinds i)) as [[st m]|e|e]; [|cbn in H; discriminate..]. cbn [cr_panic cr_error] in H.
  cbn [length app]. f_equal. apply IH; [|exact H]. intros u' p' K. apply W. right. exact K.
Qed.
Lemma extends_equal {A} (x y : list A) : one_extends_other x y -> length x = length y -> x = y.
Proof. intros (t & [<-|<-]) L; rewrite app_length in L; (destruct t; [rewrite app_nil_r; reflexivity|cbn in L; lia]). Qed.
