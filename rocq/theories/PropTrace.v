(** * C76: which places of memory a call reads and writes does not depend on
    secrets of the same length; where it does.

    [accesses (code c) h] (SpecTrace.v) is what an observer of the memory sees of
    the call [c] in memory [h]: which bytes are read and written and how much is
    allocated, in order, but not the bytes themselves. *)
From Coq Require Import Lia.
From Verif Require Import Base BaseProofs Common Hasher Encryptor Oprf OprfGroup Server Client Mutator KV Hex Mem MemCode MemProg Shared
  SpecEntry SpecProtocol SpecMem SpecShared SpecWork SpecTrace EncryptorProofs ProtocolProofs FinalizeProofs MemProofs ProgProofs TraceProofs PropFinalize PropProtocol PropShared.

(** Is this key the one the entry was made with?  The comparison reads all of
    the bytes, also after the first difference. *)
Theorem C76_key_check iw (secret ct : mslice) (h h' : heap) : same_shape h h' ->
  accesses (DecryptHeader_p iw secret ct) h = accesses (DecryptHeader_p iw secret ct) h'.
Proof. intros S. eapply alike_accesses; [apply al_DecryptHeader|exact S]. Qed.
Print Assumptions C76_key_check.

(** EncryptBucketEntry: neither the username, password and metadata nor the
    server's key nor which of the (valid) flags is stored. *)
Theorem C76_encrypt_entry {LIB} (cfg : Config) (key key' : PrivateKey LIB) (s s' : Server LIB) (u p m : mslice) f f' (L : nat) (h h' : heap) :
  NewServer {| sc_config := cfg; sc_privateKey := key |} = Ok s -> NewServer {| sc_config := cfg; sc_privateKey := key' |} = Ok s' ->
  MetadataType_Valid f = true -> MetadataType_Valid f' = true ->
  (forall x k, k = key \/ k = key' -> exists y, full_evaluate LIB (cfg_oprfSuite cfg) k x OprfInfo = Ok y /\ length y = L) ->
  same_shape h h' ->
  accesses (code (CEncryptEntry s u p f m)) h = accesses (code (CEncryptEntry s' u p f' m)) h'.
Proof.
  intros Hs Hs' F F' K S. cbn [code]. rewrite !accesses_map.
  assert (G : forall k (t : Server LIB), NewServer {| sc_config := cfg; sc_privateKey := k |} = Ok t ->
    NewSlowHasher (cfg_slowHasher cfg) = Ok (s_slowHasher t) /\ s_oprfSuite t = cfg_oprfSuite cfg /\ s_privateKey t = k).
  { intros k t E. unfold NewServer in E. cbv zeta in E. cbn [sc_config sc_privateKey] in E. apply bind_ok in E as (bh & B & E). apply bind_ok in E as (sh & X & E).
    apply bind_ok in E as (be & Y & E). apply bind_ok in E as (z & _ & E). apply Ok_inj in E. subst t. auto. }
  destruct (G key s Hs) as (A1 & A2 & A3). destruct (G key' s' Hs') as (B1 & B2 & B3). clear G.
  apply (alike_accesses eq); [|exact S]. apply (al_EncryptEntry LIB s s' (cfg_slowHasher cfg) u p f f' m L); [|exact A1|exact F|exact F'|..].
  - rewrite A1 in B1. apply Ok_inj in B1. exact B1.
  - intros x. rewrite A2, A3. apply K. auto.
  - intros x. rewrite B2, B3. apply K. auto.
Qed.
Print Assumptions C76_encrypt_entry.

(** Client.Request: neither the username and password nor the blind. *)
Theorem C76_request {LIB} (cfg : Config) (c : Client) (u p : mslice) (r r' : Blind LIB) (h h' : heap) :
  OPRF_laws LIB -> NewClient LIB cfg = Ok c -> same_shape h h' ->
  accesses (code (CRequest c u p r)) h = accesses (code (CRequest c u p r')) h'.
Proof.
  intros Laws Hc S. cbn [code]. rewrite !accesses_map. unfold NewClient in Hc. apply bind_ok in Hc as (bh & B & Hc). apply bind_ok in Hc as (sh & X & Hc).
  apply bind_ok in Hc as (be & Y & Hc). apply bind_ok in Hc as ([] & Z & Hc). apply Ok_inj in Hc. subst c.
  apply (alike_accesses anyr); [|exact S]. eapply al_Request; [exact X|]. intros x y. apply (law_blind_total LIB Laws). exact Z.
Qed.
Print Assumptions C76_request.

(** HandleRequest: neither the blinded element nor the key nor what the store
    answers for the bucket. *)
Theorem C76_handle_request {LIB} (s s' : Server LIB) v id (b : mslice) kv kv' (e e' : bytes) (h h' : heap) :
  s_version s = s_version s' ->
  evaluate LIB (s_oprfSuite s) (s_privateKey s) [view h b] OprfInfo = Ok [e] ->
  evaluate LIB (s_oprfSuite s') (s_privateKey s') [view h' b] OprfInfo = Ok [e'] -> length e = length e' ->
  same_shape h h' ->
  accesses (code (CHandleRequest s v id b kv)) h = accesses (code (CHandleRequest s' v id b kv')) h'.
Proof. intros V E E' L S. cbn [code]. rewrite !accesses_map. eapply Handle_accesses; eassumption. Qed.
Print Assumptions C76_handle_request.

(** Responses to and from bytes. *)
Theorem C76_marshal {LIB} v v' (e : mslice) (b : option mslice) (h h' : heap) : same_shape h h' ->
  accesses (code (LIB := LIB) (CMarshal (mkMResponse v e b))) h = accesses (code (LIB := LIB) (CMarshal (mkMResponse v' e b))) h'.
Proof. intros S. cbn [code]. rewrite !accesses_map. eapply alike_accesses; [apply (al_Marshal (mkMResponse v e b) v')|exact S]. Qed.
Print Assumptions C76_marshal.
Theorem C76_unmarshal {LIB} (d : mslice) (h h' : heap) : same_shape h h' ->
  accesses (code (LIB := LIB) (CUnmarshal d)) h = accesses (code (LIB := LIB) (CUnmarshal d)) h'.
Proof. intros S. cbn [code]. rewrite !accesses_map. eapply alike_accesses; [apply al_Unmarshal|exact S]. Qed.
Print Assumptions C76_unmarshal.

(** Finalize: the accesses show the length fields of the bucket and which entry
    is the first that belongs to the client, if there is one ([reads_alike]), but nothing else: not the
    key, the flag, the metadata, or any of the other entries. *)
Theorem C76_finalize {LIB} (ctx ctx' : ClientRequestContext LIB) (r : mresponse) (k k' : bytes) (h h' : heap) :
  valid h (bucket_of r) -> (mlen (bucket_of r) < 2 ^ 62)%Z ->
  client_secret ctx (read_response h r) k -> client_secret ctx' (read_response h' r) k' -> length k = length k' ->
  reads_alike k k' (view h (bucket_of r)) (view h' (bucket_of r)) ->
  same_shape h h' ->
  accesses (code (CFinalize ctx r)) h = accesses (code (CFinalize ctx' r)) h'.
Proof.
  intros Vb Hb K K' L R S. cbn [code]. rewrite !accesses_map.
  exact (Finalize_accesses LIB ctx ctx' r h h' k k' S Vb Hb (client_secret_ok LIB _ _ _ K) (client_secret_ok LIB _ _ _ K') L R).
Qed.
Print Assumptions C76_finalize.

(** That much they do show: if a first entry (without metadata) belongs to the
    client in one memory and not in the other, the accesses differ. *)
Theorem C76_finalize_shows_match {LIB} (ctx ctx' : ClientRequestContext LIB) (r : mresponse) (k k' : bytes) (h h' : heap) e e' b b' :
  valid h (bucket_of r) -> (mlen (bucket_of r) < 2 ^ 62)%Z ->
  client_secret ctx (read_response h r) k -> client_secret ctx' (read_response h' r) k' -> length k = length k' ->
  view h (bucket_of r) = entry_bytes e ++ b -> view h' (bucket_of r) = entry_bytes e' ++ b' ->
  entry_ok e -> entry_ok e' -> e_body e = [] -> e_body e' = [] -> entry_matches k e = true -> entry_matches k' e' = false ->
  same_shape h h' ->
  accesses (code (CFinalize ctx r)) h <> accesses (code (CFinalize ctx' r)) h'.
Proof.
  intros Vb Hb K K' L B B' O O' N N' M M' S. cbn [code]. rewrite !accesses_map.
  exact (Finalize_fork LIB ctx ctx' r h h' k k' S Vb Hb (client_secret_ok LIB _ _ _ K) (client_secret_ok LIB _ _ _ K') L e e' b b' B B' O O' N N' M M').
Qed.
Print Assumptions C76_finalize_shows_match.

(** The mutator reads and writes where the password's letters are: one and the
    same rule writes for "a" and not for "1". *)
Theorem C76_mutate_shows_letters_refuted :
  ~ forall (rules : list RDasRule) (pw : mslice) num (h h' : heap), valid h pw -> same_shape h h' ->
    accesses (code (LIB := toy_OPRF) (CMutate rules pw num)) h = accesses (code (LIB := toy_OPRF) (CMutate rules pw num)) h'.
Proof.
  intros H. specialize (H [mkRule (str "c") 0 [] []] (mkM 0 0 1 1) 1%Z [str "a"] [str "1"]).
  assert (V : valid [str "a"] (mkM 0 0 1 1)) by (split; [cbn; lia|right; cbn; lia]). specialize (H V eq_refl). vm_compute in H. discriminate H.
Qed.
Print Assumptions C76_mutate_shows_letters_refuted.

(** The hypotheses are met.  A client reads a bucket with a stranger's entry
    and its own, whatever flag and metadata (of one length) they have, and its
    accesses are the same; they are others if its own entry comes first.  Two
    servers encrypt "alice" and "carol". *)
Definition ex76_heap (bucket : bytes) : heap := [ex_element; bucket].
Definition ex76_resp (bucket : bytes) : mresponse :=
  mkMResponse 1 (mkM 0 0 (length ex_element) (length ex_element)) (Some (mkM 1 0 (length bucket) (length bucket))).
Definition ex76_stranger (flag : byte) (body : bytes) : entry := mkEntry (zeros 20) flag body.
Lemma ex76_view bucket bucket' : length bucket = length bucket' ->
  valid (ex76_heap bucket') (bucket_of (ex76_resp bucket)) /\ view (ex76_heap bucket') (bucket_of (ex76_resp bucket)) = bucket' /\
  client_secret ex_ctx (read_response (ex76_heap bucket') (ex76_resp bucket)) ex_secret.
Proof.
  intros L. assert (V : forall a h (b : bytes), array h a = b -> view h (mkM a 0 (length b) (length b)) = b) by (intros a h b E; unfold view; cbn [m_arr m_off m_len skipn]; rewrite E; apply firstn_all).
  split; [split; [apply le_n|right; split; [apply Nat.lt_1_2|cbn [bucket_of ex76_resp mr_bucket m_off m_cap m_arr]; change (array (ex76_heap bucket') 1) with bucket'; lia]]|].
  split; [unfold bucket_of, ex76_resp; cbn [mr_bucket]; rewrite L; apply V; reflexivity|].
  destruct (C08_example (view (ex76_heap bucket') (mkM 1 0 (length bucket) (length bucket)))) as [K _].
  assert (E : read_response (ex76_heap bucket') (ex76_resp bucket) = ex_resp (view (ex76_heap bucket') (mkM 1 0 (length bucket) (length bucket)))); [|rewrite E; exact K].
  unfold read_response, ex76_resp, ex_resp. cbn [mr_version mr_element mr_bucket option_map]. rewrite (V 0%nat (ex76_heap bucket') ex_element eq_refl). reflexivity.
Qed.
Lemma ex76_other (k : bytes) e : e_check e <> key_check k -> entry_matches k e = false.
Proof. intros N. unfold entry_matches. destruct (bytes_eqb (e_check e) (key_check k)) eqn:E; [|reflexivity]. exfalso. apply N, bytes_eqb_eq, E. Qed.
Lemma ex76_keys (x : bytes) (k : PrivateKey toy_OPRF) : k = toy_key 3 \/ k = (3%N, 78%Z) ->
  exists y, full_evaluate toy_OPRF (cfg_oprfSuite ex_cfg) k x OprfInfo = Ok y /\ length y = 32%nat.
Proof.
  intros D. change (full_evaluate toy_OPRF (cfg_oprfSuite ex_cfg) k x OprfInfo) with
    (t <- tweaked (toy_group 33) k (str "MIGP oprf info") ;; Ok (out_hash x (g_enc (toy_group 33) (g_mul (toy_group 33) t (g_hash (toy_group 33) x))) (str "MIGP oprf info"))).
  assert (T : exists t, tweaked (toy_group 33) k (str "MIGP oprf info") = Ok t) by (destruct D; subst k; eexists; vm_compute; reflexivity).
  destruct T as (t & ->). cbn [bind]. eexists. split; [reflexivity|]. unfold out_hash. apply LibProofs.sha256_length.
Qed.
Example C76_example :
  (forall f f' g g' (b b' m m' : bytes), (length b <= 100)%nat -> length b = length b' -> (length m <= 100)%nat -> length m = length m' ->
     let bucket := entry_bytes (ex76_stranger f b) ++ entry_bytes (make_entry ex_secret g m) in
     let bucket' := entry_bytes (ex76_stranger f' b') ++ entry_bytes (make_entry ex_secret g' m') in
     accesses (code (CFinalize ex_ctx (ex76_resp bucket))) (ex76_heap bucket) = accesses (code (CFinalize ex_ctx (ex76_resp bucket))) (ex76_heap bucket')) /\
  (forall f g, let bucket := entry_bytes (make_entry ex_secret g []) ++ entry_bytes (ex76_stranger f []) in
     let bucket' := entry_bytes (ex76_stranger f []) ++ entry_bytes (make_entry ex_secret g []) in
     accesses (code (CFinalize ex_ctx (ex76_resp bucket))) (ex76_heap bucket) <> accesses (code (CFinalize ex_ctx (ex76_resp bucket))) (ex76_heap bucket')) /\
  forall f f' (s' : Server toy_OPRF), MetadataType_Valid f = true -> MetadataType_Valid f' = true -> NewServer {| sc_config := ex_cfg; sc_privateKey := (3%N, 78%Z) : PrivateKey toy_OPRF |} = Ok s' ->
    accesses (code (CEncryptEntry ex_server (mkM 0 0 5 5) (mkM 0 0 5 5) f (mkM 0 0 1 1))) [str "alice"] =
    accesses (code (CEncryptEntry s' (mkM 0 0 5 5) (mkM 0 0 5 5) f' (mkM 0 0 1 1))) [str "carol"].
Proof.
  assert (NM : forall f b, entry_matches ex_secret (ex76_stranger f b) = false).
  { intros f b. apply ex76_other. intros E. exact (proj2 (C08_example []) (eq_sym E)). }
  assert (SO : forall f b, (length b <= 100)%nat -> entry_ok (ex76_stranger f b)) by (intros f b H; split; [reflexivity|unfold blen; cbn [ex76_stranger e_body]; lia]).
  assert (MO : forall g m, (length m <= 100)%nat -> entry_ok (make_entry ex_secret g m)) by (intros g m H; apply make_entry_ok; unfold blen; lia).
  assert (ML : forall g m, (length m <= 100)%nat -> length (e_body (make_entry ex_secret g m)) = length m).
  { intros g m H. unfold make_entry. cbn [e_body]. apply xor_length. rewrite body_mask_length by lia. reflexivity. }
  assert (MM : forall g m, entry_matches ex_secret (make_entry ex_secret g m) = true) by (intros g m; apply make_entry_matches; reflexivity).
  assert (EL : forall e, entry_ok e -> length (entry_bytes e) = (25 + length (e_body e))%nat) by (intros e [O _]; apply entry_bytes_length, O).
  split; [|split].
  - intros f f' g g' b b' m m' Lb Eb Lm Em bucket bucket'.
    assert (Lb' : (length b' <= 100)%nat) by lia. assert (Lm' : (length m' <= 100)%nat) by lia.
    assert (B : length bucket = length bucket').
    { unfold bucket, bucket'. rewrite !app_length, !EL by auto. rewrite !ML by auto. cbn [ex76_stranger e_body]. lia. }
    destruct (ex76_view bucket bucket eq_refl) as (V & W & K). destruct (ex76_view bucket bucket' B) as (V' & W' & K').
    apply (C76_finalize ex_ctx ex_ctx (ex76_resp bucket) ex_secret ex_secret); [exact V| |exact K|exact K'|reflexivity| |unfold same_shape; cbn [ex76_heap map]; rewrite B; reflexivity].
    + unfold mlen. cbn [bucket_of ex76_resp mr_bucket m_len]. unfold bucket. rewrite app_length, !EL, ML by auto. cbn [ex76_stranger e_body]. lia.
    + rewrite W, W'. unfold bucket, bucket'. apply ra_skip; auto.
      rewrite <- (app_nil_r (entry_bytes (make_entry ex_secret g m))), <- (app_nil_r (entry_bytes (make_entry ex_secret g' m'))).
      apply ra_found; auto. rewrite !ML by auto. exact Em.
  - intros f g bucket bucket'. assert (Z : (length (@nil byte) <= 100)%nat) by (cbn; lia).
    assert (B : length bucket = length bucket') by (unfold bucket, bucket'; rewrite !app_length; apply Nat.add_comm).
    destruct (ex76_view bucket bucket eq_refl) as (V & W & K). destruct (ex76_view bucket bucket' B) as (V' & W' & K').
    refine (C76_finalize_shows_match ex_ctx ex_ctx (ex76_resp bucket) ex_secret ex_secret _ _ _ _ _ _ V _ K K' eq_refl W W' _ _ _ _ _ _ _); auto.
    + unfold mlen. cbn [bucket_of ex76_resp mr_bucket m_len]. unfold bucket. rewrite app_length, !EL, ML by auto. cbn [ex76_stranger e_body length]. lia.
    + unfold same_shape. cbn [ex76_heap map]. rewrite B. reflexivity.
  - intros f f' s' F F' N. apply (C76_encrypt_entry ex_cfg (toy_key 3) (3%N, 78%Z) ex_server s' _ _ _ _ _ 32 _ _ (proj1 ex_server_ok) N F F'); [|reflexivity].
    exact ex76_keys.
Qed.
