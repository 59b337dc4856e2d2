(** * Lemmas: a server whose configuration changes while it keeps its data. *)
From Verif Require Import Base BaseProofs Common CommonProofs Hasher Oprf Server Client KV.
From Verif Require Import SpecCommon SpecEntry SpecProtocol SpecMigrate EncryptorProofs FinalizeProofs ProtocolProofs WireProofs.

Section Migrate.
Variable LIB : OPRF.

Lemma same_derive cfg cfg' key (s s' : Server LIB) :
  NewServer {| sc_config := cfg; sc_privateKey := key |} = Ok s -> NewServer {| sc_config := cfg'; sc_privateKey := key |} = Ok s' ->
  cfg_slowHasher cfg = cfg_slowHasher cfg' -> cfg_oprfSuite cfg = cfg_oprfSuite cfg' ->
  forall u p, deriveBucketEntryKey s u p = deriveBucketEntryKey s' u p.
Proof.
  intros I I' SH SU u p. apply NewServer_inv in I. apply NewServer_inv in I'. cbn [sc_config sc_privateKey] in *.
  destruct I as (_ & _ & _ & _ & _ & _ & A2 & A3 & _ & A4). destruct I' as (_ & _ & _ & _ & _ & _ & B2 & B3 & _ & B4).
  unfold deriveBucketEntryKey. rewrite A2, A3, B2, B3, SU. rewrite <- SH, A4 in B4. apply Ok_inj in B4. rewrite B4. reflexivity.
Qed.

Lemma same_entries cfg cfg' key (s s' : Server LIB) :
  NewServer {| sc_config := cfg; sc_privateKey := key |} = Ok s -> NewServer {| sc_config := cfg'; sc_privateKey := key |} = Ok s' ->
  cfg_slowHasher cfg = cfg_slowHasher cfg' -> cfg_oprfSuite cfg = cfg_oprfSuite cfg' ->
  forall u p f m, EncryptBucketEntry s u p f m = EncryptBucketEntry s' u p f m.
Proof.
  intros I I' SH SU u p f m. unfold EncryptBucketEntry. rewrite (same_derive cfg cfg' key s s' I I' SH SU u p).
  destruct (s_bucketEncryptor s), (s_bucketEncryptor s'). reflexivity.
Qed.

Lemma prefix_bits h b b' id' : (4 <= length h)%nat -> (0 <= b <= b')%Z -> (b' <= 32)%Z ->
  bucketHashToID h b' = Ok id' -> bucketHashToID h b = Ok (N.shiftr id' (Z.to_N (b' - b))).
Proof.
  intros L B B' H. rewrite bucketHashToID_bits in H by (auto; lia). rewrite bucketHashToID_bits by (auto; lia).
  apply Ok_inj in H. f_equal. pose proof (bits_length h) as BL.
  assert (S : firstn (Z.to_nat b') (bits h) = firstn (Z.to_nat b) (bits h) ++ firstn (Z.to_nat b' - Z.to_nat b) (skipn (Z.to_nat b) (bits h))).
  { replace (Z.to_nat b') with (Z.to_nat b + (Z.to_nat b' - Z.to_nat b))%nat at 1 by lia. rewrite <- (firstn_skipn (Z.to_nat b) (bits h)) at 1.
    rewrite firstn_app. rewrite firstn_length. rewrite firstn_firstn.
    replace (Init.Nat.min (Z.to_nat b + (Z.to_nat b' - Z.to_nat b)) (Z.to_nat b)) with (Z.to_nat b) by lia.
    replace (Z.to_nat b + (Z.to_nat b' - Z.to_nat b) - Init.Nat.min (Z.to_nat b) (length (bits h)))%nat with (Z.to_nat b' - Z.to_nat b)%nat by lia. reflexivity. }
  rewrite S, bits_value_app in H. clear S. set (t := firstn _ (skipn _ _)) in *.
  assert (Lt : N.of_nat (length t) = Z.to_N (b' - b)).
  { unfold t. rewrite firstn_length, skipn_length. lia. }
  rewrite Lt in H. pose proof (bits_value_lt t) as T. rewrite Lt in T. rewrite <- H, N.shiftr_div_pow2.
  rewrite N.div_add_l by (apply N.pow_nonzero; discriminate). rewrite N.div_small by exact T. rewrite N.add_0_r. reflexivity.
Qed.

Lemma prefix_id cfg cfg' key key' (s s' : Server LIB) u id' :
  NewServer {| sc_config := cfg; sc_privateKey := key |} = Ok s -> NewServer {| sc_config := cfg'; sc_privateKey := key' |} = Ok s' ->
  (0 <= cfg_bits cfg <= cfg_bits cfg')%Z -> Server_BucketID s' u = Ok id' ->
  Server_BucketID s u = Ok (N.shiftr id' (Z.to_N (cfg_bits cfg' - cfg_bits cfg))).
Proof.
  intros I I' B H. apply NewServer_inv in I. apply NewServer_inv in I'. cbn [sc_config sc_privateKey] in *.
  destruct I as (_ & _ & _ & _ & _ & A1 & _ & _ & A2 & _). destruct I' as (_ & _ & _ & _ & _ & B1 & _ & _ & B2 & _).
  unfold Server_BucketID in *. rewrite B1, B2 in H. rewrite A1, A2. apply bind_ok in H as (h & Hh & H). rewrite Hh. cbn [bind].
  assert (L : (4 <= length h)%nat).
  { unfold BucketHasher_Hash in Hh. destruct NewSHA256BucketHasher as [salt]. destruct (_ || _); [discriminate|]. apply Ok_inj in Hh. rewrite <- Hh, LibProofs.sha256_length. lia. }
  apply prefix_bits; auto. apply bucketHashToID_lt in H as [_ H]. lia.
Qed.

Lemma server_bucket_some cfg key (s : Server LIB) u : NewServer {| sc_config := cfg; sc_privateKey := key |} = Ok s ->
  (0 <= cfg_bits cfg <= 32)%Z -> (blen u <= 65536)%Z -> exists id, Server_BucketID s u = Ok id.
Proof. intros I B U. eexists. apply (server_bucket_spec LIB _ s u I B U). Qed.

Lemma find_app' {A} (f : A -> bool) a b : find f (a ++ b) = match find f a with Some x => Some x | None => find f b end.
Proof. induction a as [|x a IH]; [reflexivity|]. cbn [app find]. destruct (f x); [reflexivity|exact IH]. Qed.

Lemma find_parts {A B} (f : A -> bool) (g : B -> list A) (X : option A) (key : B) : forall parts,
  (forall i, In i parts -> i = key \/ find f (g i) = None) -> find f (g key) = X -> In key parts \/ X = None ->
  (forall i, {i = key} + {i <> key}) -> find f (flat_map g parts) = X.
Proof.
  intros parts H K I D.
  assert (E : find f (flat_map g parts) = X \/ (find f (flat_map g parts) = None /\ ~ In key parts)).
  { clear I. induction parts as [|i parts IH]; [right; auto|]. cbn [flat_map]. rewrite find_app'.
    destruct (IH (fun j J => H j (or_intror J))) as [IH'|[IH' N]].
    - destruct (H i (or_introl eq_refl)) as [->|F].
      + rewrite K. left. destruct X; [reflexivity|]. exact IH'.
      + rewrite F. left. exact IH'.
    - destruct (D i) as [->|NE].
      + rewrite K, IH'. left. destruct X; reflexivity.
      + destruct (H i (or_introl eq_refl)) as [->|F]; [contradiction|]. rewrite F. right. split; [exact IH'|]. intros [E|J]; [congruence|contradiction]. }
  destruct E as [E|[E N]]; [exact E|]. destruct I as [I| ->]; [contradiction|exact E].
Qed.

Lemma find_other_bucket (s : Server LIB) db u p k id i : Forall (storable s) db -> no_collision s db u p ->
  deriveBucketEntryKey s u p = Ok k -> Server_BucketID s u = Ok id -> i <> id ->
  find (entry_matches k) (map (entry_of s) (filter (in_bucket s i) db)) = None.
Proof.
  intros F N Hk Hid NE. induction F as [|d db Hd F IH]; [reflexivity|].
  assert (N' : no_collision s db u p) by (intros d' k1 k2 Hin; apply N; right; exact Hin).
  specialize (IH N'). cbn [filter]. destruct (in_bucket s i d) eqn:B; [|exact IH]. cbn [map find].
  destruct Hd as ((i' & Hi) & (k' & Hk') & _). unfold in_bucket in B. rewrite Hi in B. apply N.eqb_eq in B. subst i'.
  assert (M : entry_matches k (entry_of s d) = false).
  { destruct (entry_matches k (entry_of s d)) eqn:M; [|reflexivity]. exfalso. unfold entry_of in M. rewrite Hk' in M. apply make_entry_matches in M.
    apply (N d k k'); [left; reflexivity| |exact Hk|exact Hk'|exact M]. intros E. apply pair_inj in E as [E _]. rewrite E in Hi. congruence. }
  rewrite M. exact IH.
Qed.

Lemma flat_bytes (g : N -> list entry) parts : flat_map (fun i => bucket_bytes (g i)) parts = bucket_bytes (flat_map g parts).
Proof.
  induction parts as [|i parts IH]; [reflexivity|]. cbn [flat_map]. rewrite IH. unfold bucket_bytes. rewrite flat_map_app. reflexivity.
Qed.

Lemma run_regrouped (laws : OPRF_laws LIB) cfg cfg' key (s s' : Server LIB) (c : Client) db fine (kv : Getter) u p (r : Blind LIB) k :
  NewServer {| sc_config := cfg; sc_privateKey := key |} = Ok s -> NewServer {| sc_config := cfg'; sc_privateKey := key |} = Ok s' ->
  NewClient LIB cfg = Ok c -> (cfg_version cfg < 2 ^ 16)%N ->
  cfg_slowHasher cfg = cfg_slowHasher cfg' -> cfg_oprfSuite cfg = cfg_oprfSuite cfg' ->
  (0 <= cfg_bits cfg <= cfg_bits cfg')%Z -> (cfg_bits cfg' <= 32)%Z ->
  store_all s' newKVStore db = Ok fine -> regrouped fine (Z.to_N (cfg_bits cfg)) (Z.to_N (cfg_bits cfg' - cfg_bits cfg)) kv ->
  no_collision s' db u p -> deriveBucketEntryKey s u p = Ok k ->
  run_query c s kv u p r = Ok (expected db u p).
Proof.
  intros I I' Hc V SH SU B B' St RG N Hk.
  pose proof (same_derive cfg cfg' key s s' I I' SH SU) as DK.
  assert (Hu : (blen u <= 65536)%Z) by (apply (derive_len LIB cfg s V u p k Hk)).
  destruct (server_bucket_some cfg' key s' u I') as (id' & Hid'); [lia|exact Hu|].
  pose proof (prefix_id cfg cfg' key key s s' u id' I I' B Hid') as Hid.
  set (more := Z.to_N (cfg_bits cfg' - cfg_bits cfg)) in *. set (id := N.shiftr id' more) in *.
  assert (LT : (id < 2 ^ Z.to_N (cfg_bits cfg))%N).
  { pose proof Hid as H. unfold Server_BucketID in H. apply bind_ok in H as (h & _ & H). apply bucketHashToID_lt in H as [H _].
    apply NewServer_inv in I. cbn [sc_config sc_privateKey] in I. destruct I as (_ & _ & _ & _ & _ & A1 & _). rewrite A1 in H. exact H. }
  destruct (RG id LT) as (v & parts & Hkv & Hh & P & E).
  destruct (request_answer LIB laws cfg key s c I Hc V u p r k id kv v Hk Hid Hkv) as (b & e & ctx & R & A & _ & S & _).
  unfold run_query. rewrite R. cbn [bind]. rewrite A. cbn [bind].
  pose proof (store_all_storable s' _ _ _ St) as F.
  set (g := fun i => map (entry_of s') (filter (in_bucket s' i) db)).
  assert (EB : sl v = bucket_bytes (flat_map g parts)).
  { rewrite E, <- flat_bytes. clear - P St LT B B'.
    assert (Q : forall i, In i parts -> (i < 2 ^ 32)%N).
    { intros i Hi. apply P in Hi. rewrite N.shiftr_div_pow2 in Hi.
      assert (i < 2 ^ more * 2 ^ Z.to_N (cfg_bits cfg))%N.
      { pose proof (N.mul_succ_div_gt i (2 ^ more) ltac:(apply N.pow_nonzero; discriminate)) as M. rewrite Hi in M. nia. }
      rewrite <- N.pow_add_r in H. eapply N.lt_le_trans; [exact H|]. apply N.pow_le_mono_r; [discriminate|]. unfold more. lia. }
    clear P. induction parts as [|i parts IH]; [reflexivity|]. cbn [flat_map]. rewrite IH by (intros j J; apply Q; right; exact J).
    rewrite (store_all_bucket s' _ _ _ i St) by (apply Q; left; reflexivity). reflexivity. }
  assert (Fo : Forall entry_ok (flat_map g parts)).
  { apply Forall_forall. intros x X. apply in_flat_map in X as (i & _ & X). unfold g in X. apply in_map_iff in X as (d & <- & X).
    apply filter_In in X as [X _]. rewrite Forall_forall in F. apply storable_entry_ok. auto. }
  rewrite (Finalize_short LIB ctx _ k (flat_map g parts) []).
  - unfold scan_result.
    assert (Hk' : deriveBucketEntryKey s' u p = Ok k) by (rewrite <- DK; exact Hk).
    rewrite (find_parts (entry_matches k) g (option_map (entry_of s') (find (same_cred u p) db)) id' parts).
    + unfold expected.
      destruct (find (same_cred u p) db) as [d|] eqn:FD; [|reflexivity]. cbn [option_map].
      apply find_some in FD as [Hin FD]. apply same_cred_iff in FD. apply pair_inj in FD as [Eu Ep].
      rewrite Forall_forall in F. destruct (F d Hin) as (_ & _ & _ & Hm).
      unfold entry_of. rewrite Eu, Ep, Hk'. unfold opened.
      destruct (make_entry_open k (d_flag d) (d_meta d) Hm) as (_ & Fl & L & Bo).
      unfold blen. rewrite L, Fl, Bo. unfold blen in Hm. rewrite (proj2 (Z.leb_le _ _) Hm). reflexivity.
    + intros i _. destruct (N.eq_dec i id') as [->|NE]; [left; reflexivity|right]. eapply find_other_bucket; eauto.
    + apply find_entry; auto.
    + left. apply P. reflexivity.
    + intros i. apply N.eq_dec.
  - apply client_secret_ok, S.
  - cbn [rs_bucketContents]. rewrite app_nil_r. exact EB.
  - exact Fo.
  - unfold short_tail. cbn. lia.
  - rewrite app_nil_r, <- EB. exact Hh.
Qed.

(** No entry of the store has the key check of the client's key. *)
Lemma run_stale (laws : OPRF_laws LIB) cfg cfg' key key' (s s' : Server LIB) (c : Client) db kv u p (r : Blind LIB) k' :
  NewServer {| sc_config := cfg; sc_privateKey := key |} = Ok s ->
  NewServer {| sc_config := cfg'; sc_privateKey := key' |} = Ok s' -> NewClient LIB cfg' = Ok c -> (cfg_version cfg' < 2 ^ 16)%N ->
  (0 <= cfg_bits cfg' <= 32)%Z ->
  store_all s newKVStore db = Ok kv -> kv_holdable kv ->
  deriveBucketEntryKey s' u p = Ok k' ->
  (forall d k, In d db -> deriveBucketEntryKey s (d_user d) (d_pass d) = Ok k -> key_check k <> key_check k') ->
  run_query c s' (kv_Get kv) u p r = Ok (NotInBreach, None).
Proof.
  intros I I' Hc V B St Hh Hk N.
  assert (Hu : (blen u <= 65536)%Z) by (apply (derive_len LIB cfg' s' V u p k' Hk)).
  destruct (server_bucket_some cfg' key' s' u I') as (id' & Hid'); [lia|exact Hu|].
  destruct (request_answer LIB laws cfg' key' s' c I' Hc V u p r k' id' (kv_Get kv) _ Hk Hid' eq_refl) as (b & e & ctx & R & A & _ & S & _).
  unfold run_query. rewrite R. cbn [bind]. rewrite A. cbn [bind].
  pose proof (store_all_storable s _ _ _ St) as F.
  pose proof (store_all_bucket s _ _ _ id' St (Server_BucketID_lt s' u id' Hid')) as BB. cbn [newKVStore kv_lookup sl app] in BB.
  assert (Fo : Forall entry_ok (map (entry_of s) (filter (in_bucket s id') db))).
  { apply Forall_map. rewrite Forall_forall in *. intros d Hd. apply filter_In in Hd as [Hd _]. apply storable_entry_ok. auto. }
  rewrite (Finalize_short LIB ctx _ k' (map (entry_of s) (filter (in_bucket s id') db)) []).
  - unfold scan_result.
    assert (E : find (entry_matches k') (map (entry_of s) (filter (in_bucket s id') db)) = None).
    { clear - N F. induction F as [|d db Hd F IH]; [reflexivity|].
      assert (IH' := IH (fun d0 k H => N d0 k (or_intror H))). cbn [filter].
      destruct (in_bucket s id' d) eqn:B; [|exact IH']. cbn [map find].
      destruct Hd as (_ & (k & Hk) & _).
      assert (M : entry_matches k' (entry_of s d) = false).
      { destruct (entry_matches k' (entry_of s d)) eqn:M; [|reflexivity]. exfalso. unfold entry_of in M. rewrite Hk in M.
        apply make_entry_matches in M. apply (N d k); auto. left. reflexivity. }
      rewrite M. exact IH'. }
    rewrite E. reflexivity.
  - apply client_secret_ok, S.
  - cbn [rs_bucketContents]. rewrite app_nil_r. exact BB.
  - exact Fo.
  - unfold short_tail. cbn. lia.
  - rewrite app_nil_r, <- BB. apply Hh.
Qed.

Lemma regroup_ok fine bits more : (bits + more <= 32)%N ->
  (forall id, (id < 2 ^ bits)%N -> holdable (joined fine more id)) -> regrouped fine bits more (regroup fine more).
Proof.
  intros B H id L. exists (Some (joined fine more id)), (map (fun j => (id * 2 ^ more + N.of_nat j)%N) (seq 0 (N.to_nat (2 ^ more)))).
  assert (P : (2 ^ more <> 0)%N) by (apply N.pow_nonzero; discriminate).
  split; [|split; [apply H, L|split]].
  - unfold regroup, BucketIDToHex. rewrite hex_decode_encode. cbn [bind]. rewrite <- (app_nil_r (be32 id)) at 1. assert (L32 : (id < 2 ^ 32)%N); [|rewrite get_be32_be32, N.mod_small by exact L32; reflexivity].
    eapply N.lt_le_trans; [exact L|]. apply N.pow_le_mono_r; [discriminate|lia].
  - intros i. rewrite in_map_iff, N.shiftr_div_pow2. split.
    + intros (j & <- & J). apply in_seq in J. rewrite N.div_add_l by exact P. rewrite N.div_small by lia. lia.
    + intros E. exists (N.to_nat (i mod 2 ^ more)). pose proof (N.mod_lt i _ P) as M. split.
      * rewrite N2Nat.id. rewrite (N.div_mod i (2 ^ more) P) at 2. rewrite E. lia.
      * apply in_seq. lia.
  - cbn [sl]. unfold joined. rewrite flat_map_concat_map, (flat_map_concat_map _ (map _ _)), map_map. reflexivity.
Qed.

End Migrate.
