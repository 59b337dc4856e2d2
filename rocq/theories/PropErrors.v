(** * C74: every error names its cause. *)
From Coq Require Import Lia.
From Verif Require Import Base BaseProofs Utf8 Common Hex Hasher Encryptor EncryptorProofs Oprf OprfGroup Server Client KV Json ConfigJson Scanner Demo SpecEntry SpecProtocol
  FinalizeProofs ProtocolProofs WireProofs SpecErrors PropFinalize PropProtocol.

Theorem C74_new_client (LIB : OPRF) (cfg : Config) (e : string) :
  NewClient LIB cfg = Err e <-> config_error cfg (client_suite LIB (cfg_oprfSuite cfg)) e.
Proof.
  unfold NewClient, NewBucketHasher, NewSlowHasher, NewBucketEncryptor, BucketHasherSHA256, SlowHasherNull, SlowHasherScrypt, BucketEncryptorHKDFSHA256.
  split.
  - destruct (N.eqb_spec (cfg_bucketHasher cfg) 1) as [E1|E1]; cbn [bind]; [|intros H; injection H as <-; constructor; exact E1].
    destruct (N.eqb_spec (cfg_slowHasher cfg) 0) as [E2|E2]; [|destruct (N.eqb_spec (cfg_slowHasher cfg) 1) as [E2'|E2']]; cbn [bind];
      [| |intros H; injection H as <-; apply bad_slow_hasher; [exact E1|lia]];
    (destruct (N.eqb_spec (cfg_bucketEncryptor cfg) 1) as [E3|E3]; cbn [bind]; [|intros H; injection H as <-; apply bad_encryptor; [exact E1|lia|exact E3]]);
    (destruct (client_suite LIB (cfg_oprfSuite cfg)) as [[]|m|m]; cbn [bind]; intros H; [discriminate H| |discriminate H]; injection H as <-;
      apply bad_suite; [exact E1|lia|exact E3|reflexivity]).
  - intros H. destruct H as [H|H1 H2|H1 H2 H3|e H1 H2 H3 H4].
    + rewrite (proj2 (N.eqb_neq _ _) H). reflexivity.
    + rewrite (proj2 (N.eqb_eq _ _) H1). cbn [bind]. rewrite (proj2 (N.eqb_neq (cfg_slowHasher cfg) 0)), (proj2 (N.eqb_neq (cfg_slowHasher cfg) 1)) by lia. reflexivity.
    + rewrite (proj2 (N.eqb_eq _ _) H1). cbn [bind]. assert (S : (cfg_slowHasher cfg = 0 \/ cfg_slowHasher cfg = 1)%N) by lia.
      rewrite (proj2 (N.eqb_neq _ _) H3). destruct S as [-> | ->]; reflexivity.
    + rewrite (proj2 (N.eqb_eq _ _) H1). cbn [bind]. assert (S : (cfg_slowHasher cfg = 0 \/ cfg_slowHasher cfg = 1)%N) by lia.
      rewrite (proj2 (N.eqb_eq _ _) H3), H4. destruct S as [-> | ->]; reflexivity.
Qed.
Print Assumptions C74_new_client.

Theorem C74_new_server (LIB : OPRF) (cfg : ServerConfig LIB) (e : string) :
  NewServer cfg = Err e <-> config_error (sc_config cfg) (server_suite LIB (cfg_oprfSuite (sc_config cfg)) (sc_privateKey cfg)) e.
Proof.
  unfold NewServer, NewBucketHasher, NewSlowHasher, NewBucketEncryptor, BucketHasherSHA256, SlowHasherNull, SlowHasherScrypt, BucketEncryptorHKDFSHA256.
  set (c := sc_config cfg). split.
  - destruct (N.eqb_spec (cfg_bucketHasher c) 1) as [E1|E1]; cbn [bind]; [|intros H; injection H as <-; constructor; exact E1].
    destruct (N.eqb_spec (cfg_slowHasher c) 0) as [E2|E2]; [|destruct (N.eqb_spec (cfg_slowHasher c) 1) as [E2'|E2']]; cbn [bind];
      [| |intros H; injection H as <-; apply bad_slow_hasher; [exact E1|lia]];
    (destruct (N.eqb_spec (cfg_bucketEncryptor c) 1) as [E3|E3]; cbn [bind]; [|intros H; injection H as <-; apply bad_encryptor; [exact E1|lia|exact E3]]);
    (destruct (server_suite LIB (cfg_oprfSuite c) (sc_privateKey cfg)) as [[]|m|m]; cbn [bind]; intros H; [discriminate H| |discriminate H]; injection H as <-;
      apply bad_suite; [exact E1|lia|exact E3|reflexivity]).
  - intros H. destruct H as [H|H1 H2|H1 H2 H3|e H1 H2 H3 H4].
    + rewrite (proj2 (N.eqb_neq _ _) H). reflexivity.
    + rewrite (proj2 (N.eqb_eq _ _) H1). cbn [bind]. rewrite (proj2 (N.eqb_neq (cfg_slowHasher c) 0)), (proj2 (N.eqb_neq (cfg_slowHasher c) 1)) by lia. reflexivity.
    + rewrite (proj2 (N.eqb_eq _ _) H1). cbn [bind]. assert (S : (cfg_slowHasher c = 0 \/ cfg_slowHasher c = 1)%N) by lia.
      rewrite (proj2 (N.eqb_neq _ _) H3). destruct S as [-> | ->]; reflexivity.
    + rewrite (proj2 (N.eqb_eq _ _) H1). cbn [bind]. assert (S : (cfg_slowHasher c = 0 \/ cfg_slowHasher c = 1)%N) by lia.
      rewrite (proj2 (N.eqb_eq _ _) H3), H4. destruct S as [-> | ->]; reflexivity.
Qed.
Print Assumptions C74_new_server.

Lemma bad_hex_text s : ~ well_formed_hex s -> exists m, hex_decode s = Err m.
Proof.
  intros N. destruct (hex_decode s) as [d|m|m] eqn:E; [|eauto|exfalso; exact (hex_decode_np _ _ E)].
  exfalso. apply N, hex_decode_iff. eauto.
Qed.
Lemma good_hex s d : hex_decode s = Ok d -> well_formed_hex s.
Proof. intros E. apply hex_decode_iff. eauto. Qed.

Theorem C74_handle_request (LIB : OPRF) : OPRF_laws LIB ->
  forall (s : Server LIB) (rq : ClientRequest) (get : Getter) (e : string),
  HandleRequest s rq get = Err e <-> request_error s rq get e.
Proof.
  intros laws s rq get e. unfold HandleRequest, u16. change OprfInfo with (str "MIGP oprf info"). split.
  - destruct (N.eqb_spec (rq_version rq mod 2 ^ 16) (s_version s)) as [V|V]; cbn [negb]; [|intros H; injection H as <-; constructor; exact V].
    destruct (evaluate LIB _ _ _ _) as [es|m|m] eqn:Ev; cbn [bind]; [|intros H; injection H as <-; apply bad_element; assumption|discriminate].
    destruct es as [|el es]; [exfalso; pose proof (law_evaluate_len LIB laws _ _ _ _ _ Ev); discriminate|].
    destruct (hex_decode (rq_bucketID rq)) as [d|m|m] eqn:Hx; [| |discriminate].
    + destruct (get (rq_bucketID rq)) as [v|m|m] eqn:G; cbn [bind]; intros H; [discriminate| |discriminate]. injection H as <-.
      eapply store_failed; [exact V|exact Ev|exact (good_hex _ _ Hx)|exact G].
    + intros H. injection H as <-. eapply bad_id; [exact V|exact Ev|]. intros W. apply hex_decode_iff in W as (d & W). congruence.
  - intros H. destruct H as [V|e V Ev|es V Ev W|es e V Ev W G].
    + rewrite (proj2 (N.eqb_neq _ _) V). reflexivity.
    + rewrite (proj2 (N.eqb_eq _ _) V), Ev. reflexivity.
    + rewrite (proj2 (N.eqb_eq _ _) V), Ev. cbn [negb bind]. destruct es as [|el es]; [exfalso; pose proof (law_evaluate_len LIB laws _ _ _ _ _ Ev); discriminate|].
      destruct (bad_hex_text _ W) as (m & ->). reflexivity.
    + rewrite (proj2 (N.eqb_eq _ _) V), Ev. cbn [negb bind]. destruct es as [|el es]; [exfalso; pose proof (law_evaluate_len LIB laws _ _ _ _ _ Ev); discriminate|].
      apply hex_decode_iff in W as (d & ->). rewrite G. reflexivity.
Qed.
Print Assumptions C74_handle_request.

Theorem C74_finalize (LIB : OPRF) : OPRF_laws LIB ->
  forall (ctx : ClientRequestContext LIB) (resp : ServerResponse) (e : string),
  ctx_inputs ctx <> [] -> holdable (sl (rs_bucketContents resp)) ->
  Finalize ctx resp = Err e <-> finalize_error ctx resp e.
Proof.
  intros laws ctx resp e NE H.
  assert (S : (exists m, finalize_secret ctx resp = Err m /\ finalize_error ctx resp m /\ Finalize ctx resp = Err m) \/ exists secret, client_secret ctx resp secret /\ finalize_secret ctx resp = Ok secret).
  { unfold Finalize, Finalize_fuel, finalize_secret, u16, client_secret. change OprfInfo with (str "MIGP oprf info").
    destruct (N.eqb_spec (rs_version resp mod 2 ^ 16) (c_version (ctx_client ctx))) as [V|V]; cbn [negb].
    2:{ left. eexists. split; [reflexivity|]. split; [constructor; exact V|reflexivity]. }
    destruct (unblind LIB _ _ _ _ _) as [ys|m|m] eqn:U; cbn [bind].
    - destruct ys as [|y ys]; [|right; exists y; split; [split; [exact V|exists ys; reflexivity]|reflexivity]].
      exfalso. pose proof (law_unblind_len LIB laws _ _ _ _ _ _ U) as L. destruct (ctx_inputs ctx); [congruence|discriminate].
    - left. exists m. split; [reflexivity|]. split; [apply bad_evaluation; assumption|reflexivity].
    - exfalso. exact (law_unblind_np LIB laws _ _ _ _ _ _ U). }
  assert (X : forall m, finalize_error ctx resp m -> Finalize ctx resp = Err m).
  { intros m Hm. destruct Hm as [V|e' V U|secret es t C B F T Nm|secret es e' t C B F Fe Nm M L].
    - unfold Finalize, Finalize_fuel, finalize_secret, u16. rewrite (proj2 (N.eqb_neq _ _) V). reflexivity.
    - unfold Finalize, Finalize_fuel, finalize_secret, u16. rewrite (proj2 (N.eqb_eq _ _) V). change OprfInfo with (str "MIGP oprf info"). rewrite U. reflexivity.
    - apply (finalize_overrun_tail LIB ctx resp secret es t); assumption.
    - destruct (decompose t) as (es2 & t2 & Et & F2 & T2). apply client_secret_ok in C.
      assert (B2 : sl (rs_bucketContents resp) = bucket_bytes (es ++ e' :: es2) ++ t2).
      { rewrite B, Et. unfold bucket_bytes. rewrite flat_map_app. cbn [flat_map]. rewrite <- !app_assoc. reflexivity. }
      assert (FF : Forall entry_ok (es ++ e' :: es2)) by (apply Forall_app; split; [exact F|constructor; assumption]).
      unfold holdable in H. rewrite B2 in H.
      assert (Sc : forall d, scan_result secret (es ++ e' :: es2) d = Err "hkdf: entropy limit reached").
      { intros d. rewrite (scan_first secret es e' es2 d Nm M). unfold opened. rewrite (proj2 (Z.leb_gt _ _) L). reflexivity. }
      destruct T2 as [T2|T2]; [rewrite (Finalize_short LIB ctx resp secret _ _ C B2 FF T2 H)|rewrite (Finalize_overrun LIB ctx resp secret _ _ C B2 FF T2 H)]; apply Sc. }
  split; [|apply X]. intros E. destruct S as [(m & _ & K & E')|(secret & C & Cs)].
  - rewrite E in E'. injection E' as <-. exact K.
  - destruct (decompose (sl (rs_bucketContents resp))) as (es & t & B & F & T).
    assert (D : (exists es1 e1 es2, es = es1 ++ e1 :: es2 /\ Forall (fun e => e_check e <> key_check secret) es1 /\ e_check e1 = key_check secret)
                \/ Forall (fun e => e_check e <> key_check secret) es).
    { clear. induction es as [|x es IH]; [right; constructor|]. destruct (list_eq_dec Byte.byte_eq_dec (e_check x) (key_check secret)) as [Q|Q].
      - left. exists [], x, es. repeat split; [constructor|exact Q].
      - destruct IH as [(es1 & e1 & es2 & -> & N1 & M)|N1]; [|right; constructor; assumption].
        left. exists (x :: es1), e1, es2. repeat split; [constructor; assumption|exact M]. }
    destruct D as [(es1 & e1 & es2 & -> & N1 & M)|N1].
    + apply Forall_app in F as [F1 F2]. apply Forall_cons_iff in F2 as [Fe F2].
      assert (B' : sl (rs_bucketContents resp) = bucket_bytes es1 ++ entry_bytes e1 ++ (bucket_bytes es2 ++ t)).
      { rewrite B. unfold bucket_bytes. rewrite flat_map_app. cbn [flat_map]. rewrite <- !app_assoc. reflexivity. }
      destruct (finalize_first_match LIB ctx resp secret es1 e1 (bucket_bytes es2 ++ t) C B' H F1 Fe N1 M) as [K1 K2].
      destruct (Z.le_gt_cases (blen (e_body e1)) 8160) as [L|L]; [rewrite (K1 L) in E; discriminate|].
      pose proof (body_too_long ctx resp secret es1 e1 _ C B' F1 Fe N1 M L) as Q. pose proof (X _ Q) as E'. rewrite E in E'. injection E' as ->. exact Q.
    + destruct T as [T|T].
      * rewrite (finalize_short_tail LIB ctx resp secret es t C B H F T N1) in E. discriminate.
      * pose proof (bucket_overrun ctx resp secret es t C B F T N1) as Q. pose proof (X _ Q) as E'. rewrite E in E'. injection E' as ->. exact Q.
Qed.
Print Assumptions C74_finalize.

Theorem C74_response_bytes (LIB : OPRF) : elt_size LIB 3 = Ok 33%nat ->
  forall (d : bytes) (e : string), UnmarshalBinary LIB d = Err e <-> response_error d e.
Proof.
  intros Hn d e. unfold UnmarshalBinary. change DefaultOPRFSuite with 3%N. rewrite Hn. destruct d as [|x d0]; [split|].
  - intros H. injection H as <-. constructor. reflexivity.
  - intros H. destruct H as [_|L|L|L]; [reflexivity|cbn in L; lia..].
  - remember (x :: d0) as d eqn:Ed. destruct (Nat.ltb_spec (length d) 4) as [L|L].
    + split; [intros H; injection H as <-; apply cut_version; rewrite Ed in *; cbn [length] in *; lia|].
      intros H. destruct H as [->|K|K|K]; [discriminate Ed|reflexivity|lia..].
    + assert (G : exists v, get_be32 d = Ok v).
      { destruct d as [|a [|b [|c [|f d]]]]; cbn [length] in L; try lia. eexists. reflexivity. }
      destruct G as (v & ->). cbn [bind]. rewrite skipn_length, firstn_length, skipn_length.
      destruct (Nat.eqb_spec (length d - 4) 0) as [Z|Z]; cbn [andb negb Nat.eqb].
      * split; [intros H; injection H as <-; apply no_element; lia|]. intros H. destruct H as [->|K|K|K]; [discriminate Ed|lia|reflexivity|lia].
      * destruct (Nat.eqb_spec (Nat.min 33 (length d - 4)) 33) as [M|M]; cbn [negb].
        -- split; [discriminate|]. intros H. destruct H as [->|K|K|K]; [discriminate Ed|lia..].
        -- split; [intros H; injection H as <-; apply cut_element; lia|]. intros H. destruct H as [->|K|K|K]; [discriminate Ed|lia|lia|reflexivity].
Qed.
Print Assumptions C74_response_bytes.

Lemma str_inj (a b : string) : str a = str b -> a = b.
Proof. intros E. rewrite <- (string_of_list_byte_of_string a), <- (string_of_list_byte_of_string b). unfold str in E. rewrite E. reflexivity. Qed.
Lemma str_text (b : bytes) : str (string_of_list_byte b) = b.
Proof. apply list_byte_of_string_of_list_byte. Qed.
Lemma str_append (a b : string) : str (String.append a b) = str a ++ str b.
Proof. unfold str. induction a as [|c a IH]; [reflexivity|]. cbn [String.append list_byte_of_string list_ascii_of_string map app]. unfold list_byte_of_string in *. cbn. f_equal. exact IH. Qed.

Lemma flag_error_text f : str (flag_error f) = str "invalid metadata flag value: " ++ encode_rune (bN f).
Proof. unfold flag_error. rewrite str_append, str_text. reflexivity. Qed.
Lemma encode_ascii f : (bN f < 128)%N -> encode_rune (bN f) = [f].
Proof. destruct f; intros H; try reflexivity; exfalso; revert H; vm_compute; discriminate. Qed.
Lemma encode_latin1 f : (128 <= bN f)%N -> encode_rune (bN f) = [nB (192 + bN f / 64); nB (128 + bN f mod 64)].
Proof. destruct f; intros H; try reflexivity; exfalso; revert H; vm_compute; intros H; apply H; reflexivity. Qed.

Theorem C74_encrypt_bucket_entry (LIB : OPRF) (s : Server LIB) (u p : bytes) (flag : byte) (m : bytes) (e : string) :
  EncryptBucketEntry s u p flag m = Err e <-> entry_error s u p flag m e.
Proof.
  assert (V : MetadataType_Valid flag = (bN flag <? 4)%N) by (destruct flag; reflexivity).
  unfold EncryptBucketEntry. rewrite V. destruct (N.ltb_spec (bN flag) 4) as [L|L]; cbn [negb].
  - destruct (deriveBucketEntryKey s u p) as [k|m'|m'] eqn:K; cbn [bind].
    + destruct (size_limit (s_bucketEncryptor s) k flag m) as [Z _]. split.
      * intros H. assert (B : (8160 < blen m)%Z) by (apply Z; eauto). rewrite (Encrypt_err _ _ _ _ B) in H. injection H as <-. apply (metadata_too_long _ _ _ _ _ k); assumption.
      * intros H. destruct H as [t A _|t A _|e' A B|k' A B C]; [lia|lia|congruence|]. apply Encrypt_err, C.
    + split; [intros H; injection H as <-; apply no_key; assumption|]. intros H. destruct H as [t A _|t A _|e' A B|k' A B C]; [lia|lia|congruence|congruence].
    + split; [discriminate|]. intros H. destruct H as [t A _|t A _|e' A B|k' A B C]; [lia|lia|congruence|congruence].
  - split.
    + intros H. injection H as <-. destruct (N.lt_ge_cases (bN flag) 128) as [A|A].
      * apply ascii_flag; [lia|]. rewrite flag_error_text, encode_ascii by exact A. reflexivity.
      * apply latin1_flag; [lia|]. rewrite flag_error_text, encode_latin1 by exact A. reflexivity.
    + intros H. f_equal. destruct H as [t A B|t A B|e' A B|k' A B C]; [| |lia..]; apply str_inj; rewrite flag_error_text, B.
      * rewrite encode_ascii by lia. reflexivity.
      * rewrite encode_latin1 by lia. reflexivity.
Qed.
Print Assumptions C74_encrypt_bucket_entry.

(** A status other than 200 is reported with its number, whatever the body. *)
Theorem C74_query_status (LIB : OPRF) (cfg : Config) (c : Client) (post : transport) (url u p : bytes) (r : Blind LIB)
    (rq : ClientRequest) (ctx : ClientRequestContext LIB) (code : N) (body : res bytes) :
  NewClient LIB cfg = Ok c -> Request c u p r = Ok (rq, ctx) ->
  post url (ClientRequest_marshal rq) = Ok (code, body) -> code <> 200%N ->
  exists text, Query cfg post url u p r = Err text /\ str text = str "Request failed with status code " ++ dec_N code.
Proof.
  intros H1 H2 H3 H4. exists (status_error code). split.
  - unfold Query. rewrite H1. cbn [bind]. rewrite H2. cbn [bind]. rewrite H3. cbn [bind]. rewrite (proj2 (N.eqb_neq _ _) H4). reflexivity.
  - unfold status_error. rewrite str_append, str_text. reflexivity.
Qed.
Print Assumptions C74_query_status.

(** Errors on the way are passed on as they are. *)
Theorem C74_query_passes_errors (LIB : OPRF) (cfg : Config) (post : transport) (url u p : bytes) (r : Blind LIB) (e : string) :
  (NewClient LIB cfg = Err e -> Query cfg post url u p r = Err e) /\
  (forall c, NewClient LIB cfg = Ok c ->
    (Request c u p r = Err e -> Query cfg post url u p r = Err e) /\
    (forall rq ctx, Request c u p r = Ok (rq, ctx) ->
      let answer := post url (ClientRequest_marshal rq) in
      (answer = Err e -> Query cfg post url u p r = Err e) /\
      (answer = Ok (200%N, Err e) -> Query cfg post url u p r = Err e) /\
      (forall d, answer = Ok (200%N, Ok d) ->
        (UnmarshalBinary LIB d = Err e -> Query cfg post url u p r = Err e) /\
        (forall resp, UnmarshalBinary LIB d = Ok resp -> Query cfg post url u p r = Finalize ctx resp)))).
Proof.
  unfold Query. split; [intros ->; reflexivity|]. intros c ->. cbn [bind]. split; [intros ->; reflexivity|]. intros rq ctx ->. cbn [bind].
  split; [intros ->; reflexivity|]. split; [intros ->; reflexivity|]. intros d ->. cbn [bind negb N.eqb Pos.eqb]. split; [intros ->; reflexivity|].
  intros resp ->. reflexivity.
Qed.
Print Assumptions C74_query_passes_errors.

Example C74_example :
  (exists m, hex_decode (str "xyz") = Err m) /\ HandleRequest ex_server (mkClientRequest 1 (str "xyz") (Some ex_element)) (kv_Get newKVStore) = Err "bucket ID not valid hex"
  /\ entry_error ex_server (str "alice") (str "pw") Byte.x41 [] "invalid metadata flag value: A"
  /\ finalize_error ex_ctx (ex_resp (zeros 21 ++ be32 1)) "parsing error in bucket" /\ ctx_inputs ex_ctx <> []
  /\ response_error (be32 1 ++ zeros 32) "too few bytes to deserialize EvaluatedElement"
  /\ config_error (mkConfig 1 20 1 7 9 3) (Ok tt) "Unsupported slow hasher".
Proof.
  split; [eexists; reflexivity|]. split; [vm_compute; reflexivity|]. split; [apply ascii_flag; [vm_compute; split; congruence|reflexivity]|].
  split. { apply (bucket_overrun ex_ctx _ ex_secret [] (zeros 21 ++ be32 1)).
    - split; [reflexivity|]. exists []. vm_compute. reflexivity.
    - reflexivity.
    - constructor.
    - exists (zeros 20), Byte.x00, 1%N, []. repeat split; vm_compute; congruence.
    - constructor. }
  split; [vm_compute; discriminate|]. split; [apply cut_element; vm_compute; lia|]. apply bad_slow_hasher; [reflexivity|vm_compute; congruence].
Qed.
