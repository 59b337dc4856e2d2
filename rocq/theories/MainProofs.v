(** * Lemmas about the two programs. *)
From Verif Require Import Base BaseProofs Common Hasher Oprf Server Client KV Mutator Json JsonProofs ConfigJson Scanner Demo Url UrlProofs Flags Main.
From Verif Require Import SpecEntry SpecProtocol SpecDemo SpecHttp SpecMain ProtocolProofs WireProofs DemoProofs OrderProofs IngestProofs HttpProofs FinalizeProofs Utf8Proofs JsonGrammar.

(** ** The client's output lines *)
Lemma sanitize_nil s : sanitize 0 s = [] -> s = [].
Proof. intros H. apply readable_nil, readable_sanitize. symmetry. exact H. Qed.

Lemma output_reports show u p st m : reports show u p (st, m) (client_output u (if show then p else []) st m).
Proof.
  set (q := if show then p else []).
  exists (sanitize 0 u), (sanitize 0 q), (sanitize 0 (sl m)).
  split; [apply readable_sanitize; reflexivity|]. split; [apply readable_sanitize; reflexivity|].
  split; [apply readable_sanitize; reflexivity|]. cbn [fst snd].
  assert (ST : sanitize 0 (str (BreachStatus_String st)) = status_text st) by (destruct st; reflexivity).
  split.
  - apply json_parse_document. unfold client_output. rewrite <- (app_nil_r (json_struct _)).
    erewrite json_parse_struct; [|discriminate| |reflexivity].
    2:{ cbn [app].
        assert (F : forall k v, Forall2 (fun f j => prints (snd f) j) (match v with [] => [] | _ => [(str k, json_quote v)] end)
                                        (match v with [] => [] | _ => [JStr (sanitize 0 v)] end)).
        { intros k v. destruct v; constructor; [apply prints_quote|constructor]. }
        constructor; [apply prints_quote|]. apply Forall2_app; [apply (F "password"%string)|].
        constructor; [apply prints_quote|]. apply (F "metadata"%string). }
    f_equal. f_equal. unfold report. rewrite ST.
    assert (E : forall x v, exists y w, sanitize 0 (x :: v) = y :: w).
    { intros x v. destruct (sanitize 0 (x :: v)) as [|y w] eqn:X; [apply sanitize_nil in X; discriminate X|eauto]. }
    destruct q as [|c q]; destruct (sl m) as [|d m'].
    + reflexivity.
    + destruct (E d m') as (y & w & ->). reflexivity.
    + destruct (E c q) as (y & w & ->). reflexivity.
    + destruct (E c q) as (y & w & ->). destruct (E d m') as (y' & w' & ->). reflexivity.
  - split.
    { assert (F : forall k v, Forall (fun f => utf8 (snd f)) (match v with [] => [] | _ => [(str k, json_quote v)] end)).
      { intros k v. destruct v; constructor; [apply quote_utf8|constructor]. }
      apply json_struct_utf8. cbn [app]. constructor; [apply quote_utf8|]. apply Forall_app. split; [apply (F "password"%string)|].
      constructor; [apply quote_utf8|]. apply (F "metadata"%string). }
    apply Forall_forall. apply json_struct_printable.
    assert (F : forall k v, Forall (fun f => Forall (fun c => (32 <= bN c)%N) (snd f)) (match v with [] => [] | _ => [(str k, json_quote v)] end)).
    { intros k v. destruct v; constructor; [apply quote_printable|constructor]. }
    cbn [app]. constructor; [apply quote_printable|]. apply Forall_app. split; [apply (F "password"%string)|].
    constructor; [apply quote_printable|]. apply (F "metadata"%string).
Qed.

(** ** Ingestion of a whole file *)
Lemma outcomes_length {LIB} (s : Server LIB) ops store : length (outcomes s store ops) = length ops.
Proof. revert store; induction ops as [|o ops IH]; intros store; [reflexivity|]. cbn [outcomes length]. rewrite IH. reflexivity. Qed.
Lemma filter_le {A} (f : A -> bool) l : (length (filter f l) <= length l)%nat.
Proof. induction l as [|x l IH]; [apply Nat.le_refl|]. cbn [filter]. destruct (f x); cbn [length]; lia. Qed.
Lemma filter_full {A} (f : A -> bool) l : length (filter f l) = length l -> forallb f l = true.
Proof.
  induction l as [|x l IH]; [reflexivity|]. cbn [filter forallb length]. destruct (f x); cbn [length andb]; [intros H; apply IH; lia|].
  intros H. exfalso. pose proof (filter_le f l). lia.
Qed.

Lemma run_inserts_db {LIB} (s : Server LIB) metadata n incl creds : forall store,
  forallb is_ok (outcomes s store (map (op_of metadata n incl) creds)) = true ->
  store_all s store (breach_db metadata n incl creds) = Ok (run_inserts s store (map (op_of metadata n incl) creds)).
Proof.
  induction creds as [|[u p] creds IH]; intros store H; [reflexivity|].
  cbn [map outcomes forallb run_inserts] in H |- *. apply andb_true_iff in H as [H1 H].
  unfold do_insert in *. cbn [op_of o_user o_pass o_meta o_num o_incl fst snd] in *.
  destruct (demo_insert s store u p metadata n incl) as [store1 r1] eqn:E. cbn [fst snd] in *.
  destruct r1 as [[]|e|e]; try discriminate. apply insert_shape in E as (vs & done & rest & E & S & _ & R).
  destruct (R eq_refl) as [-> V]. rewrite app_nil_r in E. subst done.
  unfold breach_db. cbn [flat_map fst snd]. rewrite V. rewrite store_all_app, S. cbn [bind]. apply IH. exact H.
Qed.

Lemma ingest_db {LIB} (s : Server LIB) metadata n incl input st :
  server_ingest s metadata n incl newKVStore input = Ok st ->
  in_success st = N.of_nat (length (with_colon (scan_lines input))) ->
  store_all s newKVStore (breach_db metadata n incl (with_colon (scan_lines input))) = Ok (in_store st).
Proof.
  intros H K. apply server_ingest_spec in H as (A & B & _ & _). rewrite A. apply run_inserts_db.
  apply filter_full. fold (ops_of metadata n incl (scan_lines input)). rewrite outcomes_length. unfold ops_of at 2. rewrite map_length. lia.
Qed.

(** ** The client's loop when every query succeeds *)
Lemma client_lines_ok query show (answer : bytes -> bytes -> BreachStatus * gslice) lines : forall i,
  (forall j u p, In (u, p) (with_colon lines) -> query j u p = Ok (answer u p)) ->
  client_lines query show i lines =
  mkClientRun (map (fun c => client_output (fst c) (if show then snd c else []) (fst (answer (fst c) (snd c))) (snd (answer (fst c) (snd c)))) (with_colon lines)) None false.
Proof.
  induction lines as [|l lines IH]; intros i H; [reflexivity|]. cbn [client_lines]. rewrite with_colon_cons in *.
  destruct (split_colon l) as [[u p]|]; [|apply IH; exact H].
  rewrite (H i u p (or_introl eq_refl)). destruct (answer u p) as [st m] eqn:E.
  rewrite IH by (intros j u' p' I; apply H; right; exact I). cbn [map fst snd cr_stdout cr_error cr_panic]. rewrite E. reflexivity.
Qed.

(** ** Configurations read from JSON are in range *)
Lemma set_uint_range bits old j : (old < 2 ^ bits)%N -> (fst (set_uint bits old j) < 2 ^ bits)%N.
Proof.
  intros H. destruct j; cbn [set_uint]; try exact H. unfold Json.parse_uint. destruct (all_digits lit); [|exact H].
  cbv zeta. destruct (N.ltb_spec (digits_val lit) (2 ^ bits)); [exact H0|exact H].
Qed.
Lemma set_int_range iw old j : (- 2 ^ (iw - 1) <= old < 2 ^ (iw - 1))%Z -> (- 2 ^ (iw - 1) <= fst (set_int iw old j) < 2 ^ (iw - 1))%Z.
Proof.
  intros H. destruct j; cbn [set_int]; try exact H.
  destruct (Json.parse_int iw lit) as [z|] eqn:E; [|exact H]. cbn [fst].
  unfold Json.parse_int in E. destruct lit as [|c r]; [discriminate|].
  destruct (bN c =? 45)%N.
  - destruct (all_digits r); [|discriminate]. destruct (_ && _) eqn:R; [|discriminate]. apply Some_inj in E. subst z.
    apply andb_true_iff in R. rewrite Z.leb_le, Z.ltb_lt in R. exact R.
  - destruct (all_digits (c :: r)); [|discriminate]. destruct (_ && _) eqn:R; [|discriminate]. apply Some_inj in E. subst z.
    apply andb_true_iff in R. rewrite Z.leb_le, Z.ltb_lt in R. exact R.
Qed.
Lemma config_set_wf iw i c j : wf_config iw c -> wf_config iw (fst (config_set iw i c j)).
Proof.
  destruct c as [v b h s e o]. unfold wf_config. cbn [cfg_version cfg_bits cfg_bucketHasher cfg_slowHasher cfg_bucketEncryptor cfg_oprfSuite].
  intros ((Hv & Hh & Hs & He & Ho) & Hb).
  pose proof (set_uint_range 16 v j Hv). pose proof (set_uint_range 16 h j Hh). pose proof (set_uint_range 16 s j Hs).
  pose proof (set_uint_range 16 e j He). pose proof (set_uint_range 16 o j Ho). pose proof (set_int_range iw b j Hb).
  destruct i as [|[|[|[|[|i]]]]]; cbn [config_set].
  - destruct (set_uint 16 v j). cbn [fst] in *. tauto.
  - destruct (set_int iw b j). cbn [fst] in *. tauto.
  - destruct (set_uint 16 h j). cbn [fst] in *. tauto.
  - destruct (set_uint 16 s j). cbn [fst] in *. tauto.
  - destruct (set_uint 16 e j). cbn [fst] in *. tauto.
  - destruct (set_uint 16 o j). cbn [fst] in *. tauto.
Qed.
Lemma decode_wf {A} (P : A -> Prop) names (set : nat -> A -> json -> A * bool) ms : (forall i a j, P a -> P (fst (set i a j))) ->
  forall a err, P a -> P (fst (decode_members names set a err ms)).
Proof.
  intros S. induction ms as [|[k v] ms IH]; intros a err H; [exact H|]. cbn [decode_members].
  destruct (find_field names k) as [i|]; [|apply IH; exact H]. pose proof (S i a v H) as K. destruct (set i a v) as [a' e]. apply IH. exact K.
Qed.
Lemma zero_wf iw : (1 <= iw)%Z -> wf_config iw zeroConfig.
Proof. intros H. unfold wf_config. cbn. pose proof (Z.pow_pos_nonneg 2 (iw - 1) ltac:(lia) ltac:(lia)). repeat split; try lia; vm_compute; reflexivity. Qed.
Lemma server_config_wf LIB iw data c : (1 <= iw)%Z -> ServerConfig_UnmarshalJSON LIB iw data = Ok c -> wf_config iw (sc_config c).
Proof.
  intros W. unfold ServerConfig_UnmarshalJSON, unmarshal_struct.
  assert (K : forall ms, wf_config iw (fst (fst (decode_members server_config_names (aux_set iw) (zeroConfig, (None, [])) false ms)))).
  { intros ms. apply (decode_wf (fun a => wf_config iw (fst a))); [|apply zero_wf; exact W].
    intros i a j H. unfold aux_set. destruct (i <? 6)%nat.
    - pose proof (config_set_wf iw i (fst a) j H). destruct (config_set iw i (fst a) j). exact H0.
    - destruct (set_bytes (snd a) j). exact H. }
  destruct (json_parse data) as [[]|]; try discriminate.
  - intros H. apply bind_ok in H as (key & _ & H). apply Ok_inj in H. subst c. apply zero_wf, W.
  - specialize (K l). destruct (decode_members _ _ _ _ _) as [[c' [k sp]] e]. destruct e; [discriminate|].
    intros H. apply bind_ok in H as (key & _ & H). apply Ok_inj in H. subst c. exact K.
Qed.
Lemma config_decode_wf iw data c : (1 <= iw)%Z -> Config_decode iw data = Ok c -> wf_config iw c.
Proof.
  intros W. unfold Config_decode. destruct (parse_value (S (length data)) 0 data) as [[[] t]|]; try discriminate.
  - intros H. apply Ok_inj in H. subst c. apply zero_wf, W.
  - pose proof (decode_wf (wf_config iw) config_names (config_set iw) l ltac:(intros; apply config_set_wf; assumption) zeroConfig false (zero_wf iw W)) as K.
    destruct (decode_members _ _ _ _ _) as [c' e]. destruct e; [discriminate|]. intros H. apply Ok_inj in H. subst c. exact K.
Qed.
Lemma config_unmarshal_wf iw data c : (1 <= iw)%Z -> Config_unmarshal iw data = Ok c -> wf_config iw c.
Proof.
  intros W. unfold Config_unmarshal, unmarshal_struct. destruct (json_parse data) as [[]|]; try discriminate.
  - intros H. apply Ok_inj in H. subst c. apply zero_wf, W.
  - pose proof (decode_wf (wf_config iw) config_names (config_set iw) l ltac:(intros; apply config_set_wf; assumption) zeroConfig false (zero_wf iw W)) as K.
    destruct (decode_members _ _ _ _ _) as [c' e]. destruct e; [discriminate|]. intros H. apply Ok_inj in H. subst c. exact K.
Qed.
Lemma default_wf : wf_config 64 DefaultConfig.
Proof. unfold wf_config. split; [repeat split; reflexivity|]. change (cfg_bits DefaultConfig) with 20%Z. lia. Qed.
Lemma main_config_wf LIB o fs gen (c : ServerConfig LIB) : server_config o fs gen = Ok c -> wf_config 64 (sc_config c).
Proof.
  unfold server_config. destruct (so_config o).
  - unfold DefaultServerConfig. destruct gen; [|discriminate..]. intros H. apply Ok_inj in H. subst c. apply default_wf.
  - destruct (f_open fs _); [|discriminate]. apply server_config_wf. lia.
Qed.

(** ** End to end *)
Lemma server_program_inv LIB args fs gen addr (srv : server LIB) ok bad :
  server_program args fs gen = SServing addr srv ok bad ->
  exists o cfg input st, server_flags args = FParsed o /\ so_dump o = false /\ server_config o fs gen = Ok cfg /\
    NewServer cfg = Ok (migpServer srv) /\ input_of fs (so_infile o) = Some input /\
    server_ingest (migpServer srv) (so_metadata o) (so_num o) (so_username o) newKVStore input = Ok st /\
    kv srv = in_store st /\ ok = in_success st /\ bad = in_failure st /\ addr = so_listen o.
Proof.
  unfold server_program. destruct (server_flags args) as [o| |]; [|discriminate..]. unfold server_body.
  destruct (server_config o fs gen) as [cfg|e|e] eqn:C; [|discriminate..]. destruct (so_dump o) eqn:D.
  { destruct (ServerConfig_MarshalJSON cfg); discriminate. }
  unfold server_serve, newServer. destruct (NewServer cfg) as [s|e|e] eqn:N; cbn [bind]; [|discriminate..]. cbn [migpServer kv].
  destruct (input_of fs (so_infile o)) as [input|] eqn:I; [|discriminate].
  destruct (server_ingest s _ _ _ newKVStore input) as [st|e|e] eqn:G; [|discriminate..].
  intros H. assert (addr = so_listen o /\ srv = {| migpServer := s; kv := in_store st |} /\ ok = in_success st /\ bad = in_failure st) as (-> & -> & -> & ->).
  { inversion H. auto. }
  exists o, cfg, input, st. cbn [migpServer kv]. auto 12.
Qed.

Lemma config_endpoint_any LIB (srv : server LIB) : 
  exists w, handler srv (str "/config") (Ok []) = Ok w /\ response_of w = (200%N, Config_marshal (sc_config (Server_Config (migpServer srv))) ++ [Byte.x0a]).
Proof. eexists. split; reflexivity. Qed.

Lemma fetched_config LIB (srv : server LIB) o fs host : plain_host host -> co_target o = str "http://" ++ host -> wf_config 64 (sc_config (Server_Config (migpServer srv))) -> co_config o = [] ->
  client_config o fs (behind srv host) = Ok (sc_config (Server_Config (migpServer srv))).
Proof.
  intros PH T W C. unfold client_config. rewrite C, T. cbn [behind n_get].
  rewrite <- app_assoc, (config_url host PH). unfold http_get. cbn [follow_get]. unfold mux.
  change (cleanPath (str "/config")) with (str "/config"). rewrite bytes_eqb_refl.
  destruct (config_endpoint_any LIB srv) as (w & -> & ->). cbn [bind]. change (negb (200 =? 200)%N) with false. cbv iota.
  apply config_decode. exact W.
Qed.

Lemma end_to_end_store LIB (laws : OPRF_laws LIB) (scfg : ServerConfig LIB) (srv : server LIB) (db : list cred) :
  NewServer scfg = Ok (migpServer srv) -> wf_config 64 (sc_config scfg) -> store_all (migpServer srv) newKVStore db = Ok (kv srv) ->
  client_suite LIB 3 = Ok tt -> cfg_oprfSuite (sc_config scfg) = 3%N -> (0 <= cfg_bits (sc_config scfg) <= 32)%Z -> kv_holdable (kv srv) ->
  forall cargs cfs co host queries (blinds : nat -> Blind LIB),
  client_flags cargs = FParsed co -> plain_host host -> co_target co = str "http://" ++ host -> co_config co = [] -> co_dump co = false -> input_of cfs (co_infile co) = Some queries ->
  (forall u p, In (u, p) (with_colon (scan_lines queries)) ->
     (exists k, deriveBucketEntryKey (migpServer srv) u p = Ok k) /\ no_collision (migpServer srv) db u p) ->
  client_program cargs cfs (behind srv host) blinds = mkClientResult 0 (lines_of
    (map (fun c => client_output (fst c) (if co_show co then snd c else []) (fst (expected db (fst c) (snd c))) (snd (expected db (fst c) (snd c)))) (with_colon (scan_lines queries)))).
Proof.
  intros NS W DB CS S3 B Hh cargs cfs co host queries blinds CF PH CT CC CD CI Q.
  pose proof (NewServer_Config LIB scfg _ NS) as NC.
  set (cfg := sc_config (Server_Config (migpServer srv))).
  assert (CE : cfg = sc_config scfg) by (unfold cfg; rewrite NC; reflexivity).
  assert (NCl : exists c, NewClient LIB cfg = Ok c).
  { apply NewClient_iff. pose proof (proj1 (NewServer_iff LIB scfg) (ex_intro _ _ NS)) as (A1 & A2 & A3 & _). rewrite CE, S3. auto. }
  destruct NCl as (c & NCl).
  unfold client_program. rewrite CF. unfold client_body. rewrite fetched_config; [|exact PH|exact CT|fold cfg; rewrite CE; exact W|exact CC].
  rewrite CD. fold cfg. unfold client_query. rewrite CI.
  unfold client_main. rewrite (client_lines_ok _ _ (expected db)); [reflexivity|].
  intros j u p U. destruct (Q u p U) as ((k & Hk) & NCol). cbn [behind n_post].
  assert (R : run_query c (migpServer srv) (kv_Get (kv srv)) u p (blinds j) = Ok (expected db u p)).
  { destruct scfg as [cf key]. cbn [sc_config] in *. rewrite CE in *.
    eapply (query_answers LIB laws cf key); eauto. destruct W as [W _]. apply W. }
  assert (SO : same_outcome (Query cfg (to_server srv host) (co_target co ++ str "/evaluate") u p (blinds j)) (run_query c (migpServer srv) (kv_Get (kv srv)) u p (blinds j))).
  { rewrite CT. destruct srv as [s store]. eapply (query_http LIB scfg s cfg c store host u p (blinds j)); eauto.
    - rewrite CE. exact S3.
    - rewrite CE. apply W. }
  rewrite R in SO. destruct (Query _ _ _ _ _ _) as [a| |]; cbn [same_outcome] in SO; [|contradiction..]. congruence.
Qed.

Lemma outputs_report show (answer : bytes -> bytes -> BreachStatus * gslice) l :
  Forall2 (fun c line => reports show (fst c) (snd c) (answer (fst c) (snd c)) line) l
    (map (fun c => client_output (fst c) (if show then snd c else []) (fst (answer (fst c) (snd c))) (snd (answer (fst c) (snd c)))) l).
Proof.
  induction l as [|[u p] l IH]; constructor; [|exact IH]. cbn [fst snd]. destruct (answer u p) as [st' m']. apply output_reports.
Qed.

Lemma end_to_end LIB (laws : OPRF_laws LIB) sargs sfs gen addr (srv : server LIB) ok bad so breach :
  server_program sargs sfs gen = SServing addr srv ok bad ->
  server_flags sargs = FParsed so -> input_of sfs (so_infile so) = Some breach ->
  ok = N.of_nat (length (with_colon (scan_lines breach))) ->
  let cfg := sc_config (Server_Config (migpServer srv)) in
  let db := breach_db (so_metadata so) (so_num so) (so_username so) (with_colon (scan_lines breach)) in
  client_suite LIB 3 = Ok tt -> cfg_oprfSuite cfg = 3%N -> (0 <= cfg_bits cfg <= 32)%Z -> kv_holdable (kv srv) ->
  forall cargs cfs co host queries (blinds : nat -> Blind LIB),
  client_flags cargs = FParsed co -> plain_host host -> co_target co = str "http://" ++ host -> co_config co = [] -> co_dump co = false -> input_of cfs (co_infile co) = Some queries ->
  (forall u p, In (u, p) (with_colon (scan_lines queries)) ->
     (exists k, deriveBucketEntryKey (migpServer srv) u p = Ok k) /\ no_collision (migpServer srv) db u p) ->
  exists lines,
    client_program cargs cfs (behind srv host) blinds = mkClientResult 0 (lines_of lines) /\
    Forall2 (fun c line => reports (co_show co) (fst c) (snd c) (expected db (fst c) (snd c)) line) (with_colon (scan_lines queries)) lines.
Proof.
  intros H SF IN OK cfg db CS S3 B Hh cargs cfs co host queries blinds CF PH CT CC CD CI Q.
  apply server_program_inv in H as (o & scfg & input & st & F & _ & SC & NS & I & G & KV & O1 & _ & _).
  rewrite SF in F. assert (E : so = o) by congruence. subst o. clear F.
  rewrite IN in I. apply Some_inj in I. subst input.
  pose proof (ingest_db _ _ _ _ _ _ G ltac:(congruence)) as DB. rewrite <- KV in DB. fold db in DB.
  unfold cfg in S3, B. rewrite (NewServer_Config LIB scfg _ NS) in S3, B.
  eexists. split; [apply (end_to_end_store LIB laws scfg srv db); eauto using main_config_wf|apply outputs_report].
Qed.

(** Also when some lines could not be stored. *)
Lemma served_store LIB sargs sfs gen addr (srv : server LIB) ok bad so breach :
  server_program sargs sfs gen = SServing addr srv ok bad ->
  server_flags sargs = FParsed so -> input_of sfs (so_infile so) = Some breach ->
  let ops := breach_ops (so_metadata so) (so_num so) (so_username so) (with_colon (scan_lines breach)) in
  exists scfg, server_config so sfs gen = Ok scfg /\ NewServer scfg = Ok (migpServer srv) /\ wf_config 64 (sc_config scfg)
    /\ kv srv = run_inserts (migpServer srv) newKVStore ops
    /\ store_all (migpServer srv) newKVStore (stored_by (migpServer srv) ops) = Ok (kv srv)
    /\ ok = N.of_nat (length (filter is_ok (outcomes (migpServer srv) newKVStore ops))).
Proof.
  intros H SF IN ops.
  apply server_program_inv in H as (o & scfg & input & st & F & _ & SC & NS & I & G & KV & O1 & _ & _).
  rewrite SF in F. assert (E : so = o) by congruence. subst o. clear F.
  rewrite IN in I. apply Some_inj in I. subst input. apply server_ingest_spec in G as (A & A' & _ & _).
  exists scfg. split; [exact SC|]. split; [exact NS|]. split; [eapply main_config_wf; exact SC|].
  change (IngestProofs.ops_of (so_metadata so) (so_num so) (so_username so) (scan_lines breach)) with ops in A, A'.
  split; [rewrite KV; exact A|]. split; [|rewrite O1; exact A'].
  rewrite KV, A. apply run_inserts_stores.
Qed.

Lemma end_to_end_any LIB (laws : OPRF_laws LIB) sargs sfs gen addr (srv : server LIB) ok bad so breach :
  server_program sargs sfs gen = SServing addr srv ok bad ->
  server_flags sargs = FParsed so -> input_of sfs (so_infile so) = Some breach ->
  let cfg := sc_config (Server_Config (migpServer srv)) in
  let ops := breach_ops (so_metadata so) (so_num so) (so_username so) (with_colon (scan_lines breach)) in
  let db := stored_by (migpServer srv) ops in
  client_suite LIB 3 = Ok tt -> cfg_oprfSuite cfg = 3%N -> (0 <= cfg_bits cfg <= 32)%Z -> kv_holdable (kv srv) ->
  forall cargs cfs co host queries (blinds : nat -> Blind LIB),
  client_flags cargs = FParsed co -> plain_host host -> co_target co = str "http://" ++ host -> co_config co = [] -> co_dump co = false -> input_of cfs (co_infile co) = Some queries ->
  (forall u p, In (u, p) (with_colon (scan_lines queries)) ->
     (exists k, deriveBucketEntryKey (migpServer srv) u p = Ok k) /\ no_collision (migpServer srv) (tried ops) u p) ->
  exists lines,
    client_program cargs cfs (behind srv host) blinds = mkClientResult 0 (lines_of lines) /\
    Forall2 (fun c line => reports (co_show co) (fst c) (snd c) (expected db (fst c) (snd c)) line) (with_colon (scan_lines queries)) lines.
Proof.
  intros H SF IN cfg ops db CS S3 B Hh cargs cfs co host queries blinds CF PH CT CC CD CI Q.
  destruct (served_store _ _ _ _ _ _ _ _ _ _ H SF IN) as (scfg & _ & NS & W & _ & DB & _). fold ops in DB. fold db in DB.
  unfold cfg in S3, B. rewrite (NewServer_Config LIB scfg _ NS) in S3, B.
  eexists. split; [|apply outputs_report]. apply (end_to_end_store LIB laws scfg srv db); try assumption.
  intros u p I. destruct (Q u p I) as [K N]. split; [exact K|]. eapply no_collision_incl; [|exact N]. intros d. apply stored_by_tried.
Qed.

Lemma for_user_breach m n incl u creds : for_user u (breach_ops m n incl creds) = breach_ops m n incl (filter (fun c => bytes_eqb (fst c) u) creds).
Proof.
  unfold for_user, breach_ops. induction creds as [|[u' p] creds IH]; [reflexivity|]. cbn [map filter o_user fst snd].
  rewrite IH. destruct (bytes_eqb u' u); reflexivity.
Qed.

Lemma same_config {LIB} (so : server_opts) fs fs' gen (scfg scfg' : ServerConfig LIB) : f_open fs (so_config so) = f_open fs' (so_config so) ->
  server_config so fs gen = Ok scfg -> server_config so fs' gen = Ok scfg' -> scfg = scfg'.
Proof.
  intros F A B. assert (E : server_config so fs gen = server_config so fs' gen).
  { unfold server_config. destruct (so_config so); [reflexivity|]. rewrite F. reflexivity. }
  rewrite A, B in E. apply Ok_inj in E. exact E.
Qed.

Lemma files_agree LIB (laws : OPRF_laws LIB) sargs sfs sfs' gen addr addr' (srv srv' : server LIB) ok bad ok' bad' so breach breach' :
  server_program sargs sfs gen = SServing addr srv ok bad -> server_program sargs sfs' gen = SServing addr' srv' ok' bad' ->
  server_flags sargs = FParsed so -> f_open sfs (so_config so) = f_open sfs' (so_config so) ->
  input_of sfs (so_infile so) = Some breach -> input_of sfs' (so_infile so) = Some breach' ->
  let cfg := sc_config (Server_Config (migpServer srv)) in
  let ops := breach_ops (so_metadata so) (so_num so) (so_username so) (with_colon (scan_lines breach)) in
  let ops' := breach_ops (so_metadata so) (so_num so) (so_username so) (with_colon (scan_lines breach')) in
  (forall s u p, expected (@stored_by LIB s ops) u p = expected (stored_by s ops') u p) ->
  client_suite LIB 3 = Ok tt -> cfg_oprfSuite cfg = 3%N -> (0 <= cfg_bits cfg <= 32)%Z -> kv_holdable (kv srv) -> kv_holdable (kv srv') ->
  forall cargs cfs co host queries (blinds blinds' : nat -> Blind LIB),
  client_flags cargs = FParsed co -> plain_host host -> co_target co = str "http://" ++ host -> co_config co = [] -> co_dump co = false -> input_of cfs (co_infile co) = Some queries ->
  (forall u p, In (u, p) (with_colon (scan_lines queries)) ->
     (exists k, deriveBucketEntryKey (migpServer srv) u p = Ok k)
     /\ no_collision (migpServer srv) (tried ops) u p /\ no_collision (migpServer srv) (tried ops') u p) ->
  client_program cargs cfs (behind srv host) blinds = client_program cargs cfs (behind srv' host) blinds'.
Proof.
  intros H H' SF FO IN IN' cfg ops ops' EX CS S3 B Hh Hh' cargs cfs co host queries blinds blinds' CF PH CT CC CD CI Q.
  destruct (served_store _ _ _ _ _ _ _ _ _ _ H SF IN) as (scfg & SC & NS & W & _ & DB & _). fold ops in DB.
  destruct (served_store _ _ _ _ _ _ _ _ _ _ H' SF IN') as (scfg' & SC' & NS' & _ & _ & DB' & _). fold ops' in DB'.
  assert (scfg = scfg') by (eapply same_config; eauto). subst scfg'.
  assert (ES : migpServer srv = migpServer srv') by (rewrite NS in NS'; apply Ok_inj in NS'; exact NS').
  unfold cfg in S3, B. rewrite (NewServer_Config LIB scfg _ NS) in S3, B.
  rewrite (end_to_end_store LIB laws scfg srv _ NS W DB CS S3 B Hh cargs cfs co host queries blinds CF PH CT CC CD CI).
  - rewrite (end_to_end_store LIB laws scfg srv' _ NS' W DB' CS S3 B Hh' cargs cfs co host queries blinds' CF PH CT CC CD CI).
    + rewrite <- ES. do 2 f_equal. apply map_ext. intros [u p]. cbn [fst snd]. rewrite EX. reflexivity.
    + intros u p I. destruct (Q u p I) as (K & _ & N). rewrite <- ES. split; [exact K|]. eapply no_collision_incl; [|exact N]. intros d. apply stored_by_tried.
  - intros u p I. destruct (Q u p I) as (K & N & _). split; [exact K|]. eapply no_collision_incl; [|exact N]. intros d. apply stored_by_tried.
Qed.

Lemma expected_same_lines {LIB} (s : Server LIB) m n incl a b u p : same_lines_per_user a b ->
  expected (stored_by s (breach_ops m n incl a)) u p = expected (stored_by s (breach_ops m n incl b)) u p.
Proof. intros H. apply expected_for_user. rewrite !for_user_breach, H. reflexivity. Qed.
Lemma expected_repeated_lines {LIB} (s : Server LIB) m n incl a more u p : (forall c, In c more -> In c a) ->
  expected (stored_by s (breach_ops m n incl (a ++ more))) u p = expected (stored_by s (breach_ops m n incl a)) u p.
Proof.
  intros H. unfold breach_ops. rewrite map_app. apply expected_repeat. intros o I. apply in_map_iff in I as (c & <- & I).
  apply in_map_iff. eauto.
Qed.

(** ** A client against any network *)
Lemma query_np LIB (laws : OPRF_laws LIB) cfg (post : transport) url u p (r : Blind LIB) e :
  (0 <= cfg_bits cfg <= 32)%Z -> (blen u <= 65536)%Z -> (blen p <= 65536)%Z ->
  (forall url d m, post url d <> Panic m) -> (forall url d code m, post url d <> Ok (code, Panic m)) ->
  (forall url d code body, post url d = Ok (code, Ok body) -> holdable body) ->
  Query cfg post url u p r <> Panic e.
Proof.
  intros B U P N1 N2 H K. unfold Query in K.
  destruct (NewClient LIB cfg) as [c|m|m] eqn:NC; cbn [bind] in K; [|discriminate|].
  2:{ clear K. unfold NewClient in NC.
      unfold NewBucketHasher, NewSlowHasher, Encryptor.NewBucketEncryptor in NC.
      repeat match type of NC with context [if ?b then _ else _] => destruct b; cbn [bind] in NC end; try discriminate.
      all: destruct (client_suite LIB (cfg_oprfSuite cfg)) as [[]| |] eqn:S; cbn [bind] in NC; try discriminate.
      all: eapply (law_client_np _ laws); exact S. }
  destruct (request_total LIB cfg c u p r laws NC B U P) as (rq & ctx & R). rewrite R in K. cbn [bind] in K.
  destruct (post url (ClientRequest_marshal rq)) as [[code rbody]|m|m] eqn:PO; cbn [bind] in K; [|discriminate|exact (N1 _ _ _ PO)].
  destruct (negb (code =? 200)%N); [discriminate|].
  destruct rbody as [body|m|m]; cbn [bind] in K; [|discriminate|exact (N2 _ _ _ _ PO)].
  destruct (UnmarshalBinary LIB body) as [resp|m|m] eqn:UB; cbn [bind] in K; [|discriminate|].
  2:{ exact (unmarshal_np LIB (law_default_size _ laws) _ _ UB). }
  pose proof (H _ _ _ _ PO) as HB.
  destruct (FinalizeProofs.finalize_total LIB ctx resp (law_unblind_np _ laws)) as [_ F]; [|exact (F _ K)].
  unfold UnmarshalBinary, DefaultOPRFSuite in UB. rewrite (law_default_size _ laws) in UB.
  destruct body as [|b0 body]; [discriminate|]. destruct (length (b0 :: body) <? 4)%nat; [discriminate|].
  apply bind_ok in UB as (v & _ & UB). cbn [bind] in UB.
  match type of UB with context [if ?x then _ else _] => destruct x end; [discriminate|].
  match type of UB with context [if ?x then _ else _] => destruct x end; [discriminate|].
  apply Ok_inj in UB. subst resp. cbn [rs_bucketContents sl]. unfold holdable in *. unfold blen in *. rewrite !skipn_length. lia.
Qed.

Lemma client_lines_np query show lines : forall i,
  (forall j u p e, In (u, p) (with_colon lines) -> query j u p <> Panic e) ->
  cr_panic (client_lines query show i lines) = false.
Proof.
  induction lines as [|l lines IH]; intros i H; [reflexivity|]. cbn [client_lines]. rewrite with_colon_cons in H.
  destruct (split_colon l) as [[u p]|]; [|apply IH; exact H].
  destruct (query i u p) as [[st m]|e|e] eqn:E; [|reflexivity|exfalso; exact (H i u p e (or_introl eq_refl) E)].
  cbn [cr_panic]. apply IH. intros j u' p' e I. apply H. right. exact I.
Qed.

Lemma scan_lines_blen input l : In l (scan_lines input) -> (blen l < 65536)%Z.
Proof.
  unfold scan_lines. destruct (split_lf input) as [ls last].
  assert (K : forall ls, In l (scan_complete ls last) -> (blen l < 65536)%Z).
  { clear. induction ls as [|x ls IH]; cbn [scan_complete].
    - destruct last as [|c t] eqn:E; [intros []|]. rewrite <- E. destruct (fits last) eqn:F; [|intros []].
      intros [<-|[]]. apply fits_iff in F. pose proof (drop_cr_length last). unfold blen in *. lia.
    - destruct (fits x) eqn:F; [|intros []]. intros [<-|I]; [|apply IH, I].
      apply fits_iff in F. pose proof (drop_cr_length x). unfold blen in *. lia. }
  apply K.
Qed.
Lemma with_colon_blen lines u p B : (forall l, In l lines -> (blen l < B)%Z) -> In (u, p) (with_colon lines) -> (blen u < B)%Z /\ (blen p < B)%Z.
Proof.
  intros H I. unfold with_colon in I. apply in_flat_map in I as (l & L & I). specialize (H l L).
  destruct (split_colon l) as [[u' p']|] eqn:E; [|contradiction]. destruct I as [I|[]]. apply pair_inj in I as [-> ->].
  apply split_colon_some in E as [-> _]. unfold blen in *. rewrite app_length in H. cbn [length] in H. lia.
Qed.

(** Whatever the network answers, the program crashes only if the bit size of
    the configuration is out of range. *)
Lemma client_never_crashes LIB (laws : OPRF_laws LIB) args fs net (blinds : nat -> Blind LIB) o :
  client_flags args = FParsed o -> real_network net ->
  (forall cfg, client_config o fs net = Ok cfg -> (0 <= cfg_bits cfg <= 32)%Z) ->
  x_status (client_program args fs net blinds) <> 2%N.
Proof.
  intros F (N0 & N1 & N2 & N3) B. unfold client_program. rewrite F. unfold client_body.
  destruct (client_config o fs net) as [cfg|e|e] eqn:C; [|discriminate|].
  - specialize (B cfg eq_refl). destruct (co_dump o); [discriminate|]. unfold client_query.
    destruct (input_of fs (co_infile o)) as [input|]; [|discriminate]. cbv zeta. cbn [x_status].
    unfold client_main. rewrite client_lines_np.
    + destruct (cr_error _); discriminate.
    + intros j u p e I. destruct (with_colon_blen _ u p 65536 (scan_lines_blen input) I) as [A A'].
      apply query_np; auto; lia.
  - exfalso. unfold client_config in C. destruct (co_config o).
    + destruct (n_get net _) as [[code body]|m|m] eqn:G; cbn [bind] in C; [|discriminate|exact (N0 _ _ G)].
      destruct (negb _); [discriminate|]. unfold Config_decode in C.
      destruct (parse_value _ _ _) as [[[] ?]|]; try discriminate. destruct (decode_members _ _ _ _ _) as [? []]; discriminate.
    + destruct (f_open fs _); [|discriminate]. unfold Config_unmarshal in C. destruct (unmarshal_struct _ _ _ _) as [? []]; discriminate.
Qed.

(** ... and then it does, at the first credential. *)
Lemma query_bits_panics LIB (laws : OPRF_laws LIB) cfg (post : transport) url u p (r : Blind LIB) :
  (exists c, NewClient LIB cfg = Ok c) -> (cfg_bits cfg < 0 \/ 32 < cfg_bits cfg)%Z ->
  exists m, Query cfg post url u p r = Panic m.
Proof.
  intros (c & NC) B. unfold Query. rewrite NC. cbn [bind].
  pose proof (NewClient_inv LIB cfg c NC) as (_ & _ & _ & CS & _ & CB & CO & CH & SH).
  unfold Request. unfold serializeUsernamePassword. destruct (_ || _) eqn:Z.
  { cbn [bind]. eauto. } cbn [bind].
  apply orb_false_iff in Z as [Z1 Z2]. rewrite Z.ltb_ge in Z1, Z2.
  assert (S' : exists h, SlowHasher_Hash (c_slowHasher c) (be16 (len16 u) ++ u ++ be16 (len16 p) ++ p) = Ok h).
  { unfold NewSlowHasher in SH. destruct (_ =? _)%N in SH; [|destruct (_ =? _)%N in SH; [|discriminate]]; apply Ok_inj in SH; rewrite <- SH.
    - eexists. reflexivity.
    - match goal with |- exists h, SlowHasher_Hash _ ?b = _ => destruct (CommonProofs.scrypt_never_fails b) as [(h & H & _) _] end. exists h. exact H. }
  destruct S' as (h & ->). cbn [bind].
  destruct (law_blind_total _ laws (c_oprfSuite c) h r) as (b & ->); [rewrite CO; exact CS|]. cbn [bind].
  unfold Client_BucketID. rewrite CH, CB. rewrite CommonProofs.bucket_hash_ok by exact Z1. cbn [bind].
  destruct (CommonProofs.bucketHashToID_bad (Sha256.sha256 (bucket_preimage BucketHashSalt u)) (cfg_bits cfg) B) as (m & ->).
  { rewrite LibProofs.sha256_length. lia. }
  cbn [bind]. eauto.
Qed.

(** The credentials of the input, in order, up to the first failing query. *)
Lemma client_lines_prefix query show lines : forall i, exists answered rest,
  with_colon lines = answered ++ rest /\
  (exists answers, length answers = length answered /\
     (forall j c a, nth_error answered j = Some c -> nth_error answers j = Some a -> query (i + j)%nat (fst c) (snd c) = Ok a) /\
     cr_stdout (client_lines query show i lines) = map (fun x => client_output (fst (fst x)) (if show then snd (fst x) else []) (fst (snd x)) (snd (snd x))) (combine answered answers)) /\
  (rest = [] <-> cr_error (client_lines query show i lines) = None /\ cr_panic (client_lines query show i lines) = false).
Proof.
  induction lines as [|l lines IH]; intros i.
  - exists [], []. split; [reflexivity|]. split; [exists []; split; [reflexivity|split; [intros [|j]; discriminate|reflexivity]]|]. cbn. tauto.
  - cbn [client_lines]. rewrite with_colon_cons. destruct (split_colon l) as [[u p]|]; [|apply IH].
    destruct (query i u p) as [[st m]|e|e] eqn:E.
    + destruct (IH (S i)) as (an & rest & A & (as' & FL & F & O) & R). exists ((u, p) :: an), rest.
      split; [rewrite A; reflexivity|]. split; [|exact R].
      exists ((st, m) :: as'). split; [cbn [length]; lia|]. split.
      { intros [|j] c a Hc Ha; cbn in Hc, Ha; [apply Some_inj in Hc, Ha; subst c a; rewrite Nat.add_0_r; exact E|].
        rewrite <- Nat.add_succ_comm. apply F; assumption. }
      cbn [cr_stdout combine map fst snd]. rewrite O. reflexivity.
    + exists [], ((u, p) :: with_colon lines). split; [reflexivity|]. split; [exists []; split; [reflexivity|split; [intros [|j]; discriminate|reflexivity]]|].
      cbn [cr_error cr_panic]. split; [discriminate|intros [K _]; discriminate].
    + exists [], ((u, p) :: with_colon lines). split; [reflexivity|]. split; [exists []; split; [reflexivity|split; [intros [|j]; discriminate|reflexivity]]|].
      cbn [cr_error cr_panic]. split; [discriminate|intros [_ K]; discriminate].
Qed.

Lemma client_exit LIB args fs net (blinds : nat -> Blind LIB) o cfg input :
  client_flags args = FParsed o -> client_config o fs net = Ok cfg -> co_dump o = false -> input_of fs (co_infile o) = Some input ->
  exists answered rest answers lines,
    with_colon (scan_lines input) = answered ++ rest
    /\ x_stdout (client_program args fs net blinds) = lines_of lines
    /\ length answers = length answered
    /\ (forall i c a, nth_error answered i = Some c -> nth_error answers i = Some a ->
          Query cfg (n_post net) (co_target o ++ str "/evaluate") (fst c) (snd c) (blinds i) = Ok a)
    /\ Forall2 (fun ca line => reports (co_show o) (fst (fst ca)) (snd (fst ca)) (snd ca) line) (combine answered answers) lines
    /\ (x_status (client_program args fs net blinds) = 0%N <-> rest = []).
Proof.
  intros F C D I. unfold client_program. rewrite F. unfold client_body. rewrite C, D. unfold client_query. rewrite I. cbv zeta. cbn [x_status x_stdout].
  unfold client_main.
  destruct (client_lines_prefix (fun i u p => Query cfg (n_post net) (co_target o ++ str "/evaluate") u p (blinds i)) (co_show o) (scan_lines input) 0)
    as (an & rest & A & (as' & FL & Fq & O) & R).
  exists an, rest, as'. eexists. split; [exact A|]. split; [rewrite O; reflexivity|]. split; [exact FL|]. split; [exact Fq|]. split.
  - clear. induction (combine an as') as [|[[u p] [st m]] l IH]; constructor; [|exact IH]. cbn [fst snd]. apply output_reports.
  - rewrite R. destruct (cr_panic _), (cr_error _); split; try discriminate; try (intros [? ?]; discriminate); auto.
Qed.

(** ** -dump-config and -config *)
Lemma server_dump_restores LIB (laws : OPRF_laws LIB) o fs gen (cfg : ServerConfig LIB) s :
  server_config o fs gen = Ok cfg -> NewServer cfg = Ok s ->
  exists data, (so_dump o = true -> server_body o fs gen = SExit 0 data) /\
  forall o' fs' (gen' : res (PrivateKey LIB)) ws, so_config o' <> [] -> json_space ws -> f_open fs' (so_config o') = Some (data ++ ws) ->
    server_config o' fs' gen' = Ok cfg.
Proof.
  intros C N. pose proof (main_config_wf _ _ _ _ _ C) as W.
  pose proof (proj1 (NewServer_iff LIB cfg) (ex_intro _ s N)) as (_ & _ & _ & S).
  destruct (server_config_roundtrip_spec LIB 64 cfg [] laws W ltac:(intros ? []) S) as (data & M & _).
  exists data. split.
  - intros D. unfold server_body. rewrite C, D, M. reflexivity.
  - intros o' fs' gen' ws NE WS O. unfold server_config. destruct (so_config o') as [|c r] eqn:E; [contradiction|]. rewrite O.
    destruct (server_config_roundtrip_spec LIB 64 cfg ws laws W WS S) as (data' & M' & U). rewrite M in M'. apply Ok_inj in M'. subst data'. exact U.
Qed.

Lemma client_dump_restores LIB o fs net (blinds : nat -> Blind LIB) cfg :
  client_config o fs net = Ok cfg ->
  (co_dump o = true -> client_body o fs net blinds = mkClientResult 0 (Config_marshal cfg)) /\
  forall o' fs' net' ws, co_config o' <> [] -> json_space ws -> f_open fs' (co_config o') = Some (Config_marshal cfg ++ ws) ->
    client_config o' fs' net' = Ok cfg.
Proof.
  intros C.
  assert (W : wf_config 64 cfg).
  { unfold client_config in C. destruct (co_config o).
    - apply bind_ok in C as ([code body] & _ & C). destruct (negb _); [discriminate|]. eapply config_decode_wf; [|exact C]. lia.
    - destruct (f_open fs _); [|discriminate]. eapply config_unmarshal_wf; [|exact C]. lia. }
  split.
  - intros D. unfold client_body. rewrite C, D. reflexivity.
  - intros o' fs' net' ws NE WS O. unfold client_config. destruct (co_config o') as [|c r]; [contradiction|]. rewrite O.
    apply config_roundtrip_spec; assumption.
Qed.

(** The server's dump is a configuration for the client, too: the key is
    ignored. *)
Lemma server_dump_for_client LIB (cfg : ServerConfig LIB) data ws : wf_config 64 (sc_config cfg) -> json_space ws ->
  ServerConfig_MarshalJSON cfg = Ok data -> Config_unmarshal 64 (data ++ ws) = Ok (sc_config cfg).
Proof.
  intros W WS. unfold ServerConfig_MarshalJSON. destruct (key_bytes LIB (sc_privateKey cfg)) as [d|e|e]; [|discriminate..].
  intros H. apply Ok_inj in H. subst data. unfold Config_unmarshal, unmarshal_struct.
  rewrite (json_parse_struct _ (config_json (sc_config cfg) ++ [jbytes (Some d)])); [|discriminate| |apply json_space_b, WS].
  - replace (combine (map _ _) _) with (combine config_names (config_json (sc_config cfg)) ++ [(str "privateKey", jbytes (Some d))]) by reflexivity.
    rewrite decode_members_app. rewrite (config_members 64 _ W). cbn [decode_members].
    replace (find_field config_names (str "privateKey")) with (@None nat) by reflexivity. reflexivity.
  - apply (Forall2_app (l1 := combine config_names (config_values (sc_config cfg))) (l1' := config_json (sc_config cfg)) (l2 := [(str "privateKey", json_bytes (Some d))])).
    + apply config_fields.
    + repeat constructor; apply prints_bytes.
Qed.

(** ** What the lines tell apart *)
Lemma report_nesting u p st m : (nesting (JObj (report u p st m)) <= 10000)%N.
Proof. unfold report. destruct p, m; cbn [app nesting fold_right snd]; lia. Qed.
Lemma reports_inj show u p a line u' p' a' : reports show u p a line -> reports show u' p' a' line ->
  utf8 u -> utf8 u' -> utf8 (sl (snd a)) -> utf8 (sl (snd a')) -> (show = true -> utf8 p /\ utf8 p') ->
  u = u' /\ fst a = fst a' /\ sl (snd a) = sl (snd a') /\ (show = true -> p = p').
Proof.
  intros (ru & rp & rm & U & P & M & J & _) (ru' & rp' & rm' & U' & P' & M' & J' & _) Hu Hu' Hm Hm' Hp.
  assert (E : forall s t, utf8 s -> readable s t -> t = s) by (intros s t Us R; exact (readable_fun s t s R (utf8_readable s Us))).
  rewrite (E _ _ Hu U), (E _ _ Hm M) in J. rewrite (E _ _ Hu' U'), (E _ _ Hm' M') in J'.
  apply document_parse in J; [|apply report_nesting]. apply document_parse in J'; [|apply report_nesting]. rewrite J in J'. apply Some_inj in J'.
  assert (PE : show = true -> rp = p /\ rp' = p').
  { intros S. destruct (Hp S) as [H1 H2]. rewrite S in P, P'. split; [exact (E _ _ H1 P)|exact (E _ _ H2 P')]. }
  assert (K : report u rp (fst a) (sl (snd a)) = report u' rp' (fst a') (sl (snd a'))).
  { assert (JI : forall x y, JObj x = JObj y -> x = y) by (intros x y H; inversion H; reflexivity). exact (JI _ _ J'). } clear J J'.
  unfold report in K. cbn [app] in K.
  assert (K1 : u = u') by (inversion K; reflexivity). split; [exact K1|].
  assert (K2 : rp = rp' /\ status_text (fst a) = status_text (fst a') /\ sl (snd a) = sl (snd a')).
  { destruct rp as [|c rp], rp' as [|c' rp'], (sl (snd a)) as [|d m], (sl (snd a')) as [|d' m']; cbn [app] in K; inversion K; auto. }
  destruct K2 as (K2 & K3 & K4). split; [destruct (fst a), (fst a'); try reflexivity; discriminate K3|]. split; [exact K4|].
  intros S. destruct (PE S) as [<- <-]. exact K2.
Qed.
Lemma output_inj show u p st m u' p' st' m' :
  client_output u (if show : bool then p else []) st m = client_output u' (if show then p' else []) st' m' ->
  utf8 u -> utf8 u' -> utf8 (sl m) -> utf8 (sl m') -> (show = true -> utf8 p /\ utf8 p') ->
  u = u' /\ st = st' /\ sl m = sl m' /\ (show = true -> p = p').
Proof.
  intros E. pose proof (output_reports show u p st m) as R. rewrite E in R. intros.
  apply (reports_inj show u p (st, m) _ u' p' (st', m') R (output_reports show u' p' st' m')); assumption.
Qed.
Lemma invalid_names_collide st m : client_output [Byte.xff] [] st m = client_output [Byte.xfe] [] st m.
Proof. reflexivity. Qed.

Lemma program_dumps LIB (laws : OPRF_laws LIB) args o fs gen (cfg : ServerConfig LIB) s :
  server_flags args = FParsed o -> so_dump o = true -> server_config o fs gen = Ok cfg -> NewServer cfg = Ok s ->
  exists data, server_program args fs gen = SExit 0 data /\
  (forall o' fs' (gen' : res (PrivateKey LIB)) ws, so_config o' <> [] -> json_space ws -> f_open fs' (so_config o') = Some (data ++ ws) ->
    server_config o' fs' gen' = Ok cfg) /\
  (forall o' fs' net ws, co_config o' <> [] -> json_space ws -> f_open fs' (co_config o') = Some (data ++ ws) ->
    client_config o' fs' net = Ok (sc_config cfg)).
Proof.
  intros F D C N. destruct (server_dump_restores LIB laws o fs gen cfg s C N) as (data & P & R). specialize (P D).
  exists data. split; [unfold server_program; rewrite F; exact P|]. split; [exact R|].
  intros o' fs' net ws NE WS O. unfold client_config. destruct (co_config o') as [|c r]; [contradiction|]. rewrite O.
  apply server_dump_for_client; [|exact WS|].
  - eapply main_config_wf. exact C.
  - unfold server_body in P. rewrite C, D in P. destruct (ServerConfig_MarshalJSON cfg) as [d|e|e]; [|discriminate..].
    f_equal. inversion P. reflexivity.
Qed.
Lemma client_program_dumps LIB args o fs net (blinds : nat -> Blind LIB) cfg :
  client_flags args = FParsed o -> co_dump o = true -> client_config o fs net = Ok cfg ->
  exists data, client_program args fs net blinds = mkClientResult 0 data /\
  forall o' fs' net' ws, co_config o' <> [] -> json_space ws -> f_open fs' (co_config o') = Some (data ++ ws) ->
    client_config o' fs' net' = Ok cfg.
Proof.
  intros F D C. destruct (client_dump_restores LIB o fs net blinds cfg C) as [P R]. exists (Config_marshal cfg).
  split; [unfold client_program; rewrite F; exact (P D)|exact R].
Qed.
