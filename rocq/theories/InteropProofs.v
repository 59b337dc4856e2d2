(** Proofs for C79. *)
From Coq Require Import Lia.
From Verif Require Import Base BaseProofs LibProofs Sha256 Scrypt Hkdf Hex Common CommonProofs Hasher Encryptor EncryptorProofs Oprf Server Client KV KVProofs
  SpecCommon SpecEntry SpecProtocol SpecInterop FinalizeProofs ProtocolProofs.

Lemma digit_ok n : (n < 16)%N -> hex_digit n = nth (N.to_nat n) (str "0123456789abcdef") Byte.x00.
Proof.
  intros H. assert (C : forallb (fun i => Byte.eqb (hex_digit (N.of_nat i)) (nth i (str "0123456789abcdef") Byte.x00)) (seq 0 16) = true) by reflexivity.
  rewrite forallb_forall in C. specialize (C (N.to_nat n)). rewrite N2Nat.id in C. apply Byte.byte_dec_bl, C. apply in_seq. lia.
Qed.
Lemma high_digit y : (y mod 256 / 16 = y / 16 mod 16)%N.
Proof.
  pose proof (N.div_mod y 256 ltac:(lia)) as A. pose proof (N.mod_lt y 256 ltac:(lia)). set (q := (y / 256)%N) in *. set (r := (y mod 256)%N) in *.
  assert (E : (y / 16 = 16 * q + r / 16)%N) by (symmetry; apply (N.div_unique y 16 _ (r mod 16)); [apply N.mod_lt; lia|pose proof (N.div_mod r 16 ltac:(lia)); lia]).
  rewrite E, N.add_comm, N.mul_comm, N.mod_add by lia. symmetry. apply N.mod_small. apply N.div_lt_upper_bound; lia.
Qed.
Lemma low_digit y : (y mod 256 mod 16 = y mod 16)%N.
Proof.
  pose proof (N.div_mod y 256 ltac:(lia)) as A. rewrite A at 2. replace (256 * (y / 256) + y mod 256)%N with (y mod 256 + (16 * (y / 256)) * 16)%N by lia.
  rewrite N.mod_add by lia. reflexivity.
Qed.
Lemma hex8_ok id : BucketIDToHex id = hex8 id.
Proof.
  unfold BucketIDToHex, be32, hex_encode, hex8. cbn [flat_map app map]. rewrite !bN_nB, !high_digit, !low_digit.
  rewrite !digit_ok by (apply N.mod_lt; lia). rewrite !N.div_div by lia.
  rewrite (N.div_1_r id) || idtac.
  change (16 ^ 0)%N with 1%N. rewrite N.div_1_r. reflexivity.
Qed.

Definition ps_of (cfg : Config) : parameters := mkParameters (cfg_version cfg) (cfg_bits cfg) (cfg_slowHasher cfg) (cfg_oprfSuite cfg).

Lemma field_len u : (blen u <= 65535)%Z -> be16 (len16 u) ++ u = field u.
Proof. intros H. unfold field, len16, u16. rewrite N.mod_small by (unfold blen in H; lia). reflexivity. Qed.
Lemma serialize_spec u p : (blen u <= 65535)%Z -> (blen p <= 65535)%Z -> serializeUsernamePassword u p = Ok (field u ++ field p).
Proof. intros Hu Hp. rewrite serialize_ok by lia. rewrite <- (field_len u Hu), <- (field_len p Hp), <- app_assoc. reflexivity. Qed.
Lemma slow_spec alg h x : NewSlowHasher alg = Ok h -> SlowHasher_Hash h x = Ok (slow_hash alg x).
Proof.
  unfold NewSlowHasher, SlowHasherNull, SlowHasherScrypt, slow_hash. destruct (N.eqb_spec alg 0) as [->|N0]; [intros H; apply Ok_inj in H; subst h; reflexivity|].
  destruct (N.eqb_spec alg 1) as [->|N1]; [|discriminate]. intros H. apply Ok_inj in H. subst h.
  destruct (scrypt_hash_ok x) as (t & E & _). rewrite E. f_equal. unfold NewScryptSlowHasher, SlowHasher_Hash in E.
  unfold SlowHashSalt, ScryptN, Scryptr, Scryptp, SlowHashLen in E. revert E. generalize (scrypt_key 64 x (str "MIGP slow hash") 16384 8 1 32).
  intros [t'| |] E; [apply Ok_inj in E; symmetry; exact E|discriminate..].
Qed.
Lemma number_spec u k : (0 <= k <= 32)%Z -> (blen u <= 65535)%Z ->
  (h <- BucketHasher_Hash NewSHA256BucketHasher u ;; bucketHashToID h k)
  = Ok (bits_value (firstn (Z.to_nat k) (bits (sha256 (field (str "MIGP bucket") ++ field u))))).
Proof.
  intros Hk Hu. rewrite bucket_hash_ok by lia. cbn [bind]. rewrite bucketHashToID_bits by (rewrite ?sha256_length; lia).
  unfold bucket_preimage. rewrite app_assoc, (field_len u Hu). rewrite (field_len BucketHashSalt) by (intros E; discriminate E). reflexivity.
Qed.

Section Interop.
  Context {LIB : OPRF}.
  Variables (cfg : Config) (key : PrivateKey LIB).
  Let ps := ps_of cfg.
  Hypothesis Hb : (0 <= cfg_bits cfg <= 32)%Z.

  Section WithServer.
  Variable s : Server LIB.
  Hypothesis Hs : NewServer {| sc_config := cfg; sc_privateKey := key |} = Ok s.
  Lemma derive_spec u p : (blen u <= 65535)%Z -> (blen p <= 65535)%Z -> deriveBucketEntryKey s u p = secret_of ps key u p.
  Proof.
    intros Hu Hp. apply NewServer_inv in Hs. cbn [sc_config sc_privateKey] in Hs. destruct Hs as (_ & _ & _ & _ & _ & _ & S & K & _ & H).
    unfold deriveBucketEntryKey. rewrite serialize_spec by assumption. cbn [bind]. rewrite (slow_spec _ _ _ H). cbn [bind]. rewrite S, K. reflexivity.
  Qed.
  Lemma id_spec u : (blen u <= 65535)%Z -> Server_BucketID s u = Ok (bucket_number ps u).
  Proof.
    intros Hu. apply NewServer_inv in Hs. cbn [sc_config sc_privateKey] in Hs. destruct Hs as (_ & _ & _ & _ & _ & B & _ & _ & HB & _).
    unfold Server_BucketID. rewrite HB, B. apply number_spec; assumption.
  Qed.
  Lemma entry_spec d : has_entry ps key d -> EncryptBucketEntry s (d_user d) (d_pass d) (d_flag d) (d_meta d) = Ok (entry_for ps key d).
  Proof.
    intros (Hu & Hp & Hf & Hm & k & K). unfold entry_for. rewrite K. rewrite (EncryptBucketEntry_ok s _ _ _ _ k).
    - unfold entry_bytes, make_entry. cbn [e_check e_flag e_body]. rewrite xor_length; [reflexivity|]. rewrite body_mask_length; [reflexivity|unfold blen in Hm; lia].
    - rewrite derive_spec by assumption. exact K.
    - apply Valid_iff. exact Hf.
    - exact Hm.
  Qed.
  Lemma store_spec db : Forall (has_entry ps key) db -> forall kv, exists kv', store_all s kv db = Ok kv'
    /\ forall name, sl (kv_lookup kv' name) = sl (kv_lookup kv name) ++ bucket ps key db name.
  Proof.
    induction 1 as [|d db D F IH]; intros kv; [exists kv; split; [reflexivity|intros name; rewrite app_nil_r; reflexivity]|].
    cbn [store_all]. rewrite id_spec by apply D. cbn [bind]. rewrite (entry_spec d D). cbn [bind].
    destruct (IH (kv_Append kv (BucketIDToHex (bucket_number ps (d_user d))) (entry_for ps key d))) as (kv' & S & L). exists kv'. split; [exact S|].
    intros name. rewrite L. unfold bucket. cbn [flat_map]. rewrite lookup_append. rewrite hex8_ok. fold (bucket_name ps (d_user d)).
    destruct (bytes_eqb (bucket_name ps (d_user d)) name); [rewrite <- app_assoc|]; reflexivity.
  Qed.
  Lemma storable_spec d : has_entry ps key d -> storable s d.
  Proof.
    intros (Hu & Hp & Hf & Hm & k & K). split; [exists (bucket_number ps (d_user d)); apply id_spec; exact Hu|].
    split; [exists k; rewrite derive_spec by assumption; exact K|]. split; [apply Valid_iff; exact Hf|exact Hm].
  Qed.
  Lemma bucket_entries db u : Forall (has_entry ps key) db -> (blen u <= 65535)%Z ->
    bucket ps key db (bucket_name ps u) = bucket_bytes (map (entry_of s) (filter (in_bucket s (bucket_number ps u)) db)).
  Proof.
    intros F Hu. destruct (store_spec db F newKVStore) as (kv & S & L). specialize (L (bucket_name ps u)). cbn [newKVStore kv_lookup sl app] in L. rewrite <- L.
    unfold bucket_name. rewrite <- hex8_ok. rewrite (store_all_bucket s _ db kv _ S); [reflexivity|].
    exact (Server_BucketID_lt s _ _ (id_spec u Hu)).
  Qed.
  End WithServer.

  Lemma server_exists c : NewClient LIB cfg = Ok c -> server_suite LIB (cfg_oprfSuite cfg) key = Ok tt ->
    exists s, NewServer {| sc_config := cfg; sc_privateKey := key |} = Ok s.
  Proof.
    intros H S. unfold NewClient in H. apply bind_ok in H as (bh & H1 & H). apply bind_ok in H as (sh & H2 & H). apply bind_ok in H as (be & H3 & _).
    unfold NewServer. cbn [sc_config sc_privateKey]. rewrite H1, H2, H3. cbn [bind]. rewrite S. cbn [bind]. eauto.
  Qed.

  Lemma client_spec (laws : OPRF_laws LIB) c db u p k r : NewClient LIB cfg = Ok c -> server_suite LIB (cfg_oprfSuite cfg) key = Ok tt -> (cfg_version cfg < 2 ^ 16)%N ->
    Forall (has_entry ps key) db -> (blen u <= 65535)%Z -> (blen p <= 65535)%Z -> secret_of ps key u p = Ok k ->
    (forall d k', In d db -> (d_user d, d_pass d) <> (u, p) -> secret_of ps key (d_user d) (d_pass d) = Ok k' -> key_check k' <> key_check k) ->
    holdable (bucket ps key db (bucket_name ps u)) ->
    exists b e ctx,
      blind LIB (cfg_oprfSuite cfg) [oprf_input ps u p] [r] = Ok [b] /\ evaluate LIB (cfg_oprfSuite cfg) key [b] (str "MIGP oprf info") = Ok [e] /\
      Request c u p r = Ok ({| rq_version := cfg_version cfg; rq_bucketID := bucket_name ps u; rq_blindElement := Some b |}, ctx) /\
      forall v bk, (v mod 2 ^ 16 = cfg_version cfg)%N -> sl bk = bucket ps key db (bucket_name ps u) ->
        Finalize ctx {| rs_version := v; rs_evaluatedElement := e; rs_bucketContents := bk |} = Ok (expected db u p).
  Proof.
    intros Hc SS V F Hu Hp K N Hh. destruct (server_exists c Hc SS) as (s & Hs).
    pose proof (derive_spec s Hs u p Hu Hp) as D. rewrite K in D. pose proof (id_spec s Hs u Hu) as I.
    pose proof (NewClient_inv LIB cfg c Hc) as (_ & _ & _ & CS & CV & CB & CO & CH & CSl).
    destruct (law_blind_total _ laws (cfg_oprfSuite cfg) (oprf_input ps u p) r CS) as (b & Hbl).
    destruct (law_correct _ laws _ key (oprf_input ps u p) r b (str "MIGP oprf info") CS SS Hbl) as [(e & y & E1 & E2 & E3)|(m & m' & _ & E2)];
      [|unfold secret_of in K; cbn [p_suite ps ps_of] in K; congruence].
    assert (y = k) by (unfold secret_of in K; cbn [p_suite ps ps_of] in K; congruence). subst y.
    exists b, e, {| ctx_client := c; ctx_inputs := [oprf_input ps u p]; ctx_blinds := [r] |}.
    split; [exact Hbl|]. split; [exact E1|]. split.
    - unfold Request. rewrite serialize_spec by assumption. cbn [bind]. rewrite (slow_spec _ _ _ CSl). cbn [bind]. rewrite CO.
      change (slow_hash (cfg_slowHasher cfg) (field u ++ field p)) with (oprf_input ps u p). rewrite Hbl. cbn [bind].
      rewrite (same_bucket LIB cfg key s c Hs Hc), I. cbn [bind]. rewrite hex8_ok, CV. reflexivity.
    - intros v bk Hv B.
      assert (Fs : Forall (storable s) db) by (eapply Forall_impl; [|exact F]; intros d; apply storable_spec; exact Hs).
      rewrite (Finalize_short LIB _ _ k (map (entry_of s) (filter (in_bucket s (bucket_number ps u)) db)) []).
      + unfold scan_result. rewrite (find_entry s db u p k _ Fs); [|intros d k1 k2 I1 I2 I3 I4|exact D|exact I].
        * unfold expected. destruct (find (same_cred u p) db) as [d|] eqn:E; [|reflexivity]. cbn [option_map].
          apply find_some in E as [Hin E]. apply same_cred_iff in E. injection E as Eu Ep.
          rewrite Forall_forall in Fs. destruct (Fs d Hin) as (_ & _ & _ & Hm).
          unfold entry_of. rewrite Eu, Ep, D. unfold opened.
          destruct (make_entry_open k (d_flag d) (d_meta d) Hm) as (_ & Fl & L & Bo).
          unfold blen. rewrite L, Fl, Bo. unfold blen in Hm. rewrite (proj2 (Z.leb_le _ _) Hm). reflexivity.
        * assert (k1 = k) by congruence. subst k1. apply (N d k2 I1 I2). rewrite <- I4. symmetry. rewrite Forall_forall in F. destruct (F d I1) as (L1 & L2 & _). apply derive_spec; assumption.
      + apply client_secret_ok. split; [cbn; rewrite CV; exact Hv|]. cbn [ctx_client ctx_inputs ctx_blinds rs_evaluatedElement]. exists []. rewrite CO. exact E3.
      + cbn [rs_bucketContents]. rewrite app_nil_r, B. apply bucket_entries; assumption.
      + apply Forall_map. rewrite Forall_forall in *. intros d Hd. apply filter_In in Hd as [Hd _]. apply storable_entry_ok. auto.
      + unfold short_tail. cbn. lia.
      + rewrite app_nil_r, <- (bucket_entries s Hs) by assumption. exact Hh.
  Qed.
End Interop.
