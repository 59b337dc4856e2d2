(** * Lemmas about the JSON forms of the repository's types and about the HTTP
    handlers and Query. *)
From Coq Require Import Lia.
From Verif Require Import Base BaseProofs Hex Common CommonProofs Utf8 Base64 Json JsonProofs Oprf Server Client KV ConfigJson Scanner Demo Url UrlProofs
  SpecProtocol SpecHttp ProtocolProofs WireProofs.

(** ** Config *)
Definition config_json (c : Config) : list json :=
  [JNum (dec_N (cfg_version c)); JNum (dec_Z (cfg_bits c)); JNum (dec_N (cfg_bucketHasher c));
   JNum (dec_N (cfg_slowHasher c)); JNum (dec_N (cfg_bucketEncryptor c)); JNum (dec_N (cfg_oprfSuite c))].

Lemma config_fields c : Forall2 (fun f j => prints (snd f) j) (combine config_names (config_values c)) (config_json c).
Proof.
  repeat constructor; first [apply prints_dec | apply prints_decZ].
Qed.

Section Sets.
Variables (iw : Z) (v : N) (b : Z) (h s e o n : N).
Hypothesis Hn : (n < 2 ^ 16)%N.
Lemma cset0 : config_set iw 0 (mkConfig v b h s e o) (JNum (dec_N n)) = (mkConfig n b h s e o, false).
Proof. unfold config_set. rewrite set_uint_dec by exact Hn. reflexivity. Qed.
Lemma cset2 : config_set iw 2 (mkConfig v b h s e o) (JNum (dec_N n)) = (mkConfig v b n s e o, false).
Proof. unfold config_set. rewrite set_uint_dec by exact Hn. reflexivity. Qed.
Lemma cset3 : config_set iw 3 (mkConfig v b h s e o) (JNum (dec_N n)) = (mkConfig v b h n e o, false).
Proof. unfold config_set. rewrite set_uint_dec by exact Hn. reflexivity. Qed.
Lemma cset4 : config_set iw 4 (mkConfig v b h s e o) (JNum (dec_N n)) = (mkConfig v b h s n o, false).
Proof. unfold config_set. rewrite set_uint_dec by exact Hn. reflexivity. Qed.
Lemma cset5 : config_set iw 5 (mkConfig v b h s e o) (JNum (dec_N n)) = (mkConfig v b h s e n, false).
Proof. unfold config_set. rewrite set_uint_dec by exact Hn. reflexivity. Qed.
End Sets.
Lemma cset1 iw v b h s e o z : (- 2 ^ (iw - 1) <= z < 2 ^ (iw - 1))%Z ->
  config_set iw 1 (mkConfig v b h s e o) (JNum (dec_Z z)) = (mkConfig v z h s e o, false).
Proof. intros H. unfold config_set. rewrite set_int_dec by exact H. reflexivity. Qed.

Lemma decode_step {A} names (set : nat -> A -> json -> A * bool) a err k v r i a' e :
  find_field names k = Some i -> set i a v = (a', e) ->
  decode_members names set a err ((k, v) :: r) = decode_members names set a' (err || e) r.
Proof. intros F S'. cbn [decode_members]. rewrite F, S'. reflexivity. Qed.

Lemma config_members iw c : wf_config iw c ->
  decode_members config_names (config_set iw) zeroConfig false (combine config_names (config_json c)) = (c, false).
Proof.
  intros ((W1 & W2 & W3 & W4 & W5) & WB).
  change (combine config_names (config_json c)) with
    [(str "version", JNum (dec_N (cfg_version c))); (str "bucketIDBitSize", JNum (dec_Z (cfg_bits c)));
     (str "bucketHasher", JNum (dec_N (cfg_bucketHasher c))); (str "slowHasher", JNum (dec_N (cfg_slowHasher c)));
     (str "bucketEncryptor", JNum (dec_N (cfg_bucketEncryptor c))); (str "oprfSuite", JNum (dec_N (cfg_oprfSuite c)))].
  unfold zeroConfig.
  erewrite decode_step; [|reflexivity|apply cset0, W1].
  erewrite decode_step; [|reflexivity|apply cset1, WB].
  erewrite decode_step; [|reflexivity|apply cset2, W2].
  erewrite decode_step; [|reflexivity|apply cset3, W3].
  erewrite decode_step; [|reflexivity|apply cset4, W4].
  erewrite decode_step; [|reflexivity|apply cset5, W5].
  destruct c. reflexivity.
Qed.

Lemma config_roundtrip_ws iw c ws : wf_config iw c -> forallb is_ws ws = true ->
  Config_unmarshal iw (Config_marshal c ++ ws) = Ok c.
Proof.
  intros W S'. unfold Config_unmarshal, unmarshal_struct, Config_marshal.
  rewrite (json_parse_struct _ (config_json c)); [|discriminate|apply config_fields|exact S'].
  replace (combine (map _ _) _) with (combine config_names (config_json c)) by reflexivity.
  rewrite (config_members iw c W). reflexivity.
Qed.
Lemma config_roundtrip iw c : wf_config iw c -> Config_unmarshal iw (Config_marshal c) = Ok c.
Proof. intros W. rewrite <- (app_nil_r (Config_marshal c)). apply config_roundtrip_ws; [exact W|reflexivity]. Qed.

Lemma config_decode iw c rest : wf_config iw c -> Config_decode iw (Config_marshal c ++ rest) = Ok c.
Proof.
  intros W. unfold Config_decode, Config_marshal.
  rewrite (parse_struct _ (config_json c)); [|discriminate|apply config_fields| |reflexivity].
  - replace (combine (map _ _) _) with (combine config_names (config_json c)) by reflexivity.
    rewrite (config_members iw c W). reflexivity.
  - unfold json_struct. rewrite app_length. cbn [length]. rewrite app_length.
    pose proof (json_fields_length (combine config_names (config_values c))). cbn [length]. lia.
Qed.

(** Two configurations with the same JSON form are equal. *)
Lemma config_marshal_inj iw c c' : wf_config iw c -> wf_config iw c' -> Config_marshal c = Config_marshal c' -> c = c'.
Proof. intros W W' E. apply Ok_inj. rewrite <- (config_roundtrip iw c W), <- (config_roundtrip iw c' W'), E. reflexivity. Qed.

(** ** ServerConfig *)
Section ServerJson.
Variable LIB : OPRF.

Lemma decode_aux iw : forall ms c k err, 
  (forall kv, In kv ms -> exists i, find_field server_config_names (fst kv) = Some i /\ (i < 6)%nat /\ find_field config_names (fst kv) = Some i) ->
  decode_members server_config_names (aux_set iw) (c, k) err ms =
  let (c', e) := decode_members config_names (config_set iw) c err ms in ((c', k), e).
Proof.
  induction ms as [|[n v] ms IH]; intros c k err H; [reflexivity|]. cbn [decode_members].
  destruct (H (n, v) (or_introl eq_refl)) as (i & F1 & L & F2). cbn [fst] in *. rewrite F1, F2.
  unfold aux_set at 1. apply Nat.ltb_lt in L. rewrite L. cbn [fst snd]. destruct (config_set iw i c v) as [c' e].
  apply IH. intros kv K. apply H. right. exact K.
Qed.

Lemma decode_members_app {A} names (set : nat -> A -> json -> A * bool) : forall ms1 a err ms2,
  decode_members names set a err (ms1 ++ ms2) =
  let (a', e') := decode_members names set a err ms1 in decode_members names set a' e' ms2.
Proof.
  induction ms1 as [|[k v] ms1 IH]; intros a err ms2; [reflexivity|]. cbn [app decode_members].
  destruct (find_field names k) as [i|]; [|apply IH]. destruct (set i a v) as [a' e]. apply IH.
Qed.

Lemma server_config_roundtrip iw (c : ServerConfig LIB) d ws : wf_config iw (sc_config c) -> forallb is_ws ws = true ->
  key_bytes LIB (sc_privateKey c) = Ok d -> key_parse LIB (cfg_oprfSuite (sc_config c)) d = Ok (sc_privateKey c) ->
  exists data, ServerConfig_MarshalJSON c = Ok data /\ ServerConfig_UnmarshalJSON LIB iw (data ++ ws) = Ok c.
Proof.
  intros W S' Hd Hp. unfold ServerConfig_MarshalJSON. rewrite Hd. eexists. split; [reflexivity|].
  unfold ServerConfig_UnmarshalJSON, unmarshal_struct.
  rewrite (json_parse_struct _ (config_json (sc_config c) ++ [jbytes (Some d)])); [|discriminate| |exact S'].
  - replace (combine (map _ _) _) with (combine config_names (config_json (sc_config c)) ++ [(str "privateKey", jbytes (Some d))]) by reflexivity.
    rewrite decode_members_app. rewrite decode_aux.
    + rewrite (config_members iw _ W). cbn [decode_members].
      replace (find_field server_config_names (str "privateKey")) with (Some 6%nat) by reflexivity.
      unfold aux_set. cbn [Nat.ltb Nat.leb snd fst]. rewrite set_bytes_jbytes. cbn [orb sl fst snd]. rewrite Hp. cbn [bind]. destruct c; reflexivity.
    + intros kv K. cbn [config_json config_names map combine In] in K.
      destruct K as [<-|[<-|[<-|[<-|[<-|[<-|[]]]]]]]; cbn [fst]; eexists; (split; [reflexivity|]; split; [|reflexivity]); lia.
  - unfold server_config_names.
    apply (Forall2_app (l1 := combine config_names (config_values (sc_config c))) (l1' := config_json (sc_config c)) (l2 := [(str "privateKey", json_bytes (Some d))])).
    + apply config_fields.
    + repeat constructor; apply prints_bytes.
Qed.

(** ** A restored server *)
Lemma restored iw (s : Server LIB) (cfg : ServerConfig LIB) ws : OPRF_laws LIB -> NewServer cfg = Ok s -> wf_config iw (sc_config cfg) -> forallb is_ws ws = true ->
  exists data, ServerConfig_MarshalJSON (Server_Config s) = Ok data /\
  exists cfg', ServerConfig_UnmarshalJSON LIB iw (data ++ ws) = Ok cfg' /\ NewServer cfg' = Ok s.
Proof.
  intros L N W S'. pose proof (NewServer_Config LIB cfg s N) as E. rewrite E.
  apply (NewServer_inv LIB) in N as N'. 
  assert (SS : server_suite LIB (cfg_oprfSuite (sc_config cfg)) (sc_privateKey cfg) = Ok tt).
  { pose proof (proj1 (NewServer_iff LIB cfg) (ex_intro _ s N)) as K. tauto. }
  destruct (law_key _ L _ _ SS) as (d & Hd & Hp).
  destruct (server_config_roundtrip iw cfg d ws W S' Hd Hp) as (data & M & U). exists data. split; [exact M|]. exists cfg. split; assumption.
Qed.
End ServerJson.

(** ** Requests *)
Lemma request_roundtrip rq ws : (rq_version rq < 2 ^ 32)%N -> forallb is_ws ws = true ->
  ClientRequest_unmarshal (ClientRequest_marshal rq ++ ws) =
  (mkClientRequest (rq_version rq) (sanitize 0 (rq_bucketID rq)) (rq_blindElement rq), None).
Proof.
  intros V S'. destruct rq as [v b e]. cbn [rq_version rq_bucketID rq_blindElement] in *.
  unfold ClientRequest_unmarshal, unmarshal_struct, ClientRequest_marshal. cbn [rq_version rq_bucketID rq_blindElement].
  rewrite (json_parse_struct _ [JNum (dec_N v); JStr (sanitize 0 b); jbytes e]); [|discriminate| |exact S'].
  - replace (combine (map _ _) _) with (combine request_names [JNum (dec_N v); JStr (sanitize 0 b); jbytes e]) by reflexivity.
    change (combine request_names _) with [(str "version", JNum (dec_N v)); (str "bucketID", JStr (sanitize 0 b)); (str "blindElement", jbytes e)].
    unfold zeroRequest.
    erewrite decode_step; [|reflexivity|]; [|unfold request_set; rewrite set_uint_dec by exact V; reflexivity].
    erewrite decode_step; [|reflexivity|reflexivity].
    erewrite decode_step; [|reflexivity|]; [|unfold request_set; rewrite set_bytes_jbytes; reflexivity].
    reflexivity.
  - unfold request_names. cbn [map combine]. constructor; [apply prints_dec|]. constructor; [apply prints_quote|]. constructor; [apply prints_bytes|constructor].
Qed.

Lemma hex_ascii b : forallb ascii (hex_encode b) = true.
Proof.
  apply forallb_forall. intros c K. pose proof (hex_encode_alphabet b) as A. rewrite Forall_forall in A. specialize (A c K).
  vm_compute in A. repeat (destruct A as [<-|A]; [reflexivity|]). contradiction.
Qed.

Lemma request_roundtrip_hex v id e ws : (v < 2 ^ 32)%N -> forallb is_ws ws = true ->
  ClientRequest_unmarshal (ClientRequest_marshal (mkClientRequest v (BucketIDToHex id) e) ++ ws) = (mkClientRequest v (BucketIDToHex id) e, None).
Proof.
  intros V S'. rewrite request_roundtrip by assumption. cbn [rq_version rq_bucketID rq_blindElement].
  rewrite sanitize_ascii; [reflexivity|]. unfold BucketIDToHex. apply hex_ascii.
Qed.

(** ** The handlers *)
Section Handlers.
Variable LIB : OPRF.

Lemma handle_panic_free (s : server LIB) rq m : OPRF_laws LIB -> HandleRequest (migpServer s) rq (kv_Get (kv s)) <> Panic m.
Proof. intros L. apply (handle_np LIB); [intros; apply (law_evaluate_np _ L)|intros id m'; unfold kv_Get; discriminate]. Qed.

Lemma evaluate_total (s : server LIB) body : OPRF_laws LIB -> (forall m, body <> Panic m) ->
  exists w, handleEvaluate s body = Ok w.
Proof.
  intros L NP. unfold handleEvaluate. destruct body as [data|e|m]; [|eauto|exfalso; eapply NP; reflexivity].
  destruct (ClientRequest_unmarshal data) as [rq err].
  destruct (HandleRequest _ _ _) as [resp|e|m] eqn:E; [cbn [MarshalBinary]; eauto|eauto|].
  exfalso. eapply handle_panic_free; eassumption.
Qed.

(** What the handler answers, case by case. *)
Lemma evaluate_unreadable (s : server LIB) e : exists w, handleEvaluate s (Err e) = Ok w /\ response_of w = (400%N, bad_request).
Proof. eexists. split; reflexivity. Qed.

Lemma evaluate_accepted (s : server LIB) data rq resp : ClientRequest_unmarshal data = (rq, None) ->
  HandleRequest (migpServer s) rq (kv_Get (kv s)) = Ok resp ->
  exists w, handleEvaluate s (Ok data) = Ok w /\
  response_of w = (200%N, answer_bytes resp).
Proof. intros U H. unfold handleEvaluate. rewrite U, H. eexists. split; reflexivity. Qed.

Lemma evaluate_refused (s : server LIB) data rq e : ClientRequest_unmarshal data = (rq, None) ->
  HandleRequest (migpServer s) rq (kv_Get (kv s)) = Err e ->
  exists w, handleEvaluate s (Ok data) = Ok w /\ response_of w = (500%N, internal_error).
Proof. intros U H. unfold handleEvaluate. rewrite U, H. eexists. split; reflexivity. Qed.

Lemma evaluate_bad_json (s : server LIB) data rq e : ClientRequest_unmarshal data = (rq, Some e) ->
  (forall m, HandleRequest (migpServer s) rq (kv_Get (kv s)) <> Panic m) ->
  exists w, handleEvaluate s (Ok data) = Ok w /\
  response_of w = (400%N, bad_request ++ match HandleRequest (migpServer s) rq (kv_Get (kv s)) with
                                         | Ok resp => answer_bytes resp
                                         | _ => internal_error
                                         end).
Proof.
  intros U NP. unfold handleEvaluate. rewrite U. destruct (HandleRequest _ _ _) as [resp|m|m]; [| |exfalso; eapply NP; reflexivity];
  eexists; split; reflexivity.
Qed.

(** Status codes, as a function of the body. *)
Lemma evaluate_200_iff (s : server LIB) body w : OPRF_laws LIB -> handleEvaluate s body = Ok w ->
  fst (response_of w) = 200%N <->
  exists data rq resp, body = Ok data /\ ClientRequest_unmarshal data = (rq, None) /\ HandleRequest (migpServer s) rq (kv_Get (kv s)) = Ok resp.
Proof.
  intros L H. destruct body as [data|e|m]; [|apply Ok_inj in H; subst w; cbn; split; [discriminate|intros (d & _ & _ & E & _); discriminate]|discriminate].
  destruct (ClientRequest_unmarshal data) as [rq [e|]] eqn:U.
  - destruct (evaluate_bad_json s data rq e U (fun m => handle_panic_free s rq m L)) as (w' & E & R). rewrite H in E. apply Ok_inj in E. subst w'.
    rewrite R. cbn [fst]. split; [discriminate|]. intros (d & rq' & resp & E & U' & _). apply Ok_inj in E. subst d. rewrite U in U'. discriminate.
  - destruct (HandleRequest (migpServer s) rq (kv_Get (kv s))) as [resp|m|m] eqn:A.
    + destruct (evaluate_accepted s data rq resp U A) as (w' & E & R). rewrite H in E. apply Ok_inj in E. subst w'. rewrite R. cbn [fst].
      split; [|reflexivity]. intros _. exists data, rq, resp. auto.
    + destruct (evaluate_refused s data rq m U A) as (w' & E & R). rewrite H in E. apply Ok_inj in E. subst w'. rewrite R. cbn [fst].
      split; [discriminate|]. intros (d & rq' & resp & E & U' & A'). apply Ok_inj in E. subst d. rewrite U in U'. apply pair_inj in U' as [<- _]. congruence.
    + exfalso. eapply handle_panic_free; eassumption.
Qed.

Lemma evaluate_400_iff (s : server LIB) body w : OPRF_laws LIB -> handleEvaluate s body = Ok w ->
  fst (response_of w) = 400%N <->
  (exists e, body = Err e) \/ exists data rq e, body = Ok data /\ ClientRequest_unmarshal data = (rq, Some e).
Proof.
  intros L H. destruct body as [data|e|m]; [|apply Ok_inj in H; subst w; cbn; split; [eauto|reflexivity]|discriminate].
  destruct (ClientRequest_unmarshal data) as [rq [e|]] eqn:U.
  - destruct (evaluate_bad_json s data rq e U (fun m => handle_panic_free s rq m L)) as (w' & E & R). rewrite H in E. apply Ok_inj in E. subst w'.
    rewrite R. cbn [fst]. split; [|reflexivity]. intros _. right. exists data, rq, e. auto.
  - assert (N : ~ ((exists e, Ok data = Err e) \/ exists data' rq' e, Ok data = Ok data' /\ ClientRequest_unmarshal data' = (rq', Some e))).
    { intros [[e E]|(d & rq' & e & E & U')]; [discriminate|]. apply Ok_inj in E. subst d. rewrite U in U'. discriminate. }
    destruct (HandleRequest (migpServer s) rq (kv_Get (kv s))) as [resp|m|m] eqn:A.
    + destruct (evaluate_accepted s data rq resp U A) as (w' & E & R). rewrite H in E. apply Ok_inj in E. subst w'. rewrite R. cbn [fst].
      split; [discriminate|]. intros K. contradiction (N K).
    + destruct (evaluate_refused s data rq m U A) as (w' & E & R). rewrite H in E. apply Ok_inj in E. subst w'. rewrite R. cbn [fst].
      split; [discriminate|]. intros K. contradiction (N K).
    + exfalso. eapply handle_panic_free; eassumption.
Qed.

Lemma evaluate_500_iff (s : server LIB) body w : OPRF_laws LIB -> handleEvaluate s body = Ok w ->
  fst (response_of w) = 500%N <->
  exists data rq e, body = Ok data /\ ClientRequest_unmarshal data = (rq, None) /\ HandleRequest (migpServer s) rq (kv_Get (kv s)) = Err e.
Proof.
  intros L H. destruct body as [data|e|m]; [|apply Ok_inj in H; subst w; cbn; split; [discriminate|intros (d & _ & _ & E & _); discriminate]|discriminate].
  destruct (ClientRequest_unmarshal data) as [rq [e|]] eqn:U.
  - destruct (evaluate_bad_json s data rq e U (fun m => handle_panic_free s rq m L)) as (w' & E & R). rewrite H in E. apply Ok_inj in E. subst w'.
    rewrite R. cbn [fst]. split; [discriminate|]. intros (d & rq' & e' & E & U' & _). apply Ok_inj in E. subst d. rewrite U in U'. discriminate.
  - destruct (HandleRequest (migpServer s) rq (kv_Get (kv s))) as [resp|m|m] eqn:A.
    + destruct (evaluate_accepted s data rq resp U A) as (w' & E & R). rewrite H in E. apply Ok_inj in E. subst w'. rewrite R. cbn [fst].
      split; [discriminate|]. intros (d & rq' & e & E & U' & A'). apply Ok_inj in E. subst d. rewrite U in U'. apply pair_inj in U' as [<- _]. congruence.
    + destruct (evaluate_refused s data rq m U A) as (w' & E & R). rewrite H in E. apply Ok_inj in E. subst w'. rewrite R. cbn [fst].
      split; [|reflexivity]. intros _. exists data, rq, m. auto.
    + exfalso. eapply handle_panic_free; eassumption.
Qed.

Lemma evaluate_statuses (s : server LIB) body w : OPRF_laws LIB -> handleEvaluate s body = Ok w ->
  In (fst (response_of w)) [200; 400; 500]%N.
Proof.
  intros L H. destruct body as [data|e|m]; [|apply Ok_inj in H; subst w; cbn; auto|discriminate].
  destruct (ClientRequest_unmarshal data) as [rq [e|]] eqn:U.
  - right; left. symmetry. apply (evaluate_400_iff s _ w L H). right. eauto.
  - destruct (HandleRequest (migpServer s) rq (kv_Get (kv s))) as [resp|m|m] eqn:A.
    + left. symmetry. apply (evaluate_200_iff s _ w L H). eauto 6.
    + right; right; left. symmetry. apply (evaluate_500_iff s _ w L H). eauto 6.
    + exfalso. eapply handle_panic_free; eassumption.
Qed.

(** ** Query *)
Lemma finalize_wire (ctx : ClientRequestContext LIB) v e b : Finalize ctx (mkServerResponse v e b) = Finalize ctx (mkServerResponse v e (Some (sl b))).
Proof. destruct b; reflexivity. Qed.

Lemma query_http_at (scfg : ServerConfig LIB) (s : Server LIB) (cfg : Config) (c : Client) (store : kvStore) host url u p (r : Blind LIB) :
  url_path host url = Some (str "/evaluate") -> OPRF_laws LIB -> NewServer scfg = Ok s -> NewClient LIB cfg = Ok c ->
  cfg_oprfSuite (sc_config scfg) = 3%N -> cfg_oprfSuite cfg = 3%N -> (cfg_version cfg < 2 ^ 16)%N ->
  same_outcome (Query cfg (to_server (mkDemoServer s store) host) url u p r)
               (run_query c s (kv_Get store) u p r).
Proof.
  intros PH L Hs Hc S3 C3 V. unfold Query. rewrite Hc. cbn [bind]. unfold run_query.
  pose proof (NewClient_inv LIB cfg c Hc) as IC. pose proof (NewServer_inv LIB scfg s Hs) as IS.
  assert (CV : c_version c = cfg_version cfg /\ c_oprfSuite c = 3%N /\ client_suite LIB 3 = Ok tt).
  { rewrite <- C3. tauto. }
  assert (SV : s_oprfSuite s = 3%N /\ server_suite LIB 3 (s_privateKey s) = Ok tt).
  { cbv zeta in IS. destruct IS as (_ & _ & _ & I1 & _ & _ & I2 & I3 & _). rewrite I2, I3, <- S3. split; [reflexivity|exact I1]. }
  destruct CV as (CV & CO & CS). destruct SV as (SO & SS).
  destruct (Request c u p r) as [[rq ctx]|m|m] eqn:R; [|exact I|exact I]. cbn [bind].
  pose proof R as R'. unfold Request in R. apply bind_ok in R as (ser & H1 & R). apply bind_ok in R as (x & H2 & R).
  rewrite CO in R. destruct (law_blind_total _ L 3%N x r CS) as (b & Hb). rewrite Hb in R. cbn [bind] in R.
  apply bind_ok in R as (id & Hid & R). apply Ok_inj, pair_inj in R as [E1 E2].
  unfold to_server. rewrite PH.
  unfold http_post, mux. change (cleanPath (str "/evaluate")) with (str "/evaluate"). rewrite bytes_eqb_refl.
  unfold handler. rewrite bytes_eqb_refl.
  assert (U : ClientRequest_unmarshal (ClientRequest_marshal rq) = (rq, None)).
  { rewrite <- E1, <- (app_nil_r (ClientRequest_marshal _)). apply request_roundtrip_hex; [rewrite CV; lia|reflexivity]. }
  destruct (HandleRequest s rq (kv_Get store)) as [resp|m|m] eqn:A.
  - destruct (evaluate_accepted (mkDemoServer s store) (ClientRequest_marshal rq) rq resp U A) as (w & -> & ->). cbn [bind].
    change (negb (200 =? 200)%N) with false. cbv iota.
    pose proof A as A'. apply (handle_inv LIB) in A' as (VV & EV & _ & _ & es & EE).
    assert (LE : length (rs_evaluatedElement resp) = 33%nat).
    { rewrite <- E1 in EE. cbn [rq_blindElement sl] in EE. rewrite SO in EE.
      pose proof (law_evaluate_len _ L _ _ _ _ _ EE) as LL. destruct es; [|discriminate LL].
      apply (law_size _ L 3%N (s_privateKey s) x r b OprfInfo _ 33%nat CS SS (law_default_size _ L) Hb EE). }
    unfold answer_bytes. rewrite (unmarshal_parts LIB (law_default_size _ L)) ; [|rewrite EV, <- E1; cbn [rq_version]; rewrite CV; lia|exact LE]. cbn [bind].
    destruct resp as [v e bc]. cbn [rs_version rs_evaluatedElement rs_bucketContents].
    rewrite finalize_wire. destruct (Finalize _ _); constructor.
  - destruct (evaluate_refused (mkDemoServer s store) (ClientRequest_marshal rq) rq m U A) as (w & -> & ->). cbn [bind]. exact I.
  - exfalso. eapply (handle_panic_free (mkDemoServer s store)); eassumption.
Qed.
Lemma query_http (scfg : ServerConfig LIB) (s : Server LIB) (cfg : Config) (c : Client) (store : kvStore) host u p (r : Blind LIB) :
  plain_host host -> OPRF_laws LIB -> NewServer scfg = Ok s -> NewClient LIB cfg = Ok c ->
  cfg_oprfSuite (sc_config scfg) = 3%N -> cfg_oprfSuite cfg = 3%N -> (cfg_version cfg < 2 ^ 16)%N ->
  same_outcome (Query cfg (to_server (mkDemoServer s store) host) ((str "http://" ++ host) ++ str "/evaluate") u p r)
               (run_query c s (kv_Get store) u p r).
Proof. intros PH. apply query_http_at. rewrite <- app_assoc. apply evaluate_url. exact PH. Qed.

(** A request of the wrong JSON types that is evaluated all the same. *)
Definition twice_versioned (rq : ClientRequest) : bytes :=
  json_struct ((str "version", json_quote (str "x")) :: combine request_names
    [dec_N (rq_version rq); json_quote (rq_bucketID rq); json_bytes (rq_blindElement rq)]).
Lemma twice_versioned_decoded rq : (rq_version rq < 2 ^ 32)%N -> forallb ascii (rq_bucketID rq) = true ->
  exists e, ClientRequest_unmarshal (twice_versioned rq) = (rq, Some e).
Proof.
  intros V A. destruct rq as [v b e]. cbn [rq_version rq_bucketID rq_blindElement] in *.
  unfold ClientRequest_unmarshal, unmarshal_struct, twice_versioned. cbn [rq_version rq_bucketID rq_blindElement].
  rewrite <- (app_nil_r (json_struct _)).
  rewrite (json_parse_struct _ [JStr (str "x"); JNum (dec_N v); JStr b; jbytes e]); [|discriminate| |reflexivity].
  - replace (combine (map _ _) _) with [(str "version", JStr (str "x")); (str "version", JNum (dec_N v)); (str "bucketID", JStr b); (str "blindElement", jbytes e)] by reflexivity.
    unfold zeroRequest.
    erewrite decode_step; [|reflexivity|reflexivity].
    erewrite decode_step; [|reflexivity|]; [|unfold request_set; rewrite set_uint_dec by exact V; reflexivity].
    erewrite decode_step; [|reflexivity|reflexivity].
    erewrite decode_step; [|reflexivity|]; [|unfold request_set; rewrite set_bytes_jbytes; reflexivity].
    eexists; reflexivity.
  - unfold request_names. cbn [map combine]. constructor; [exact (prints_quote (str "x"))|]. constructor; [apply prints_dec|].
    constructor; [cbn [snd]; rewrite <- (sanitize_ascii b A) at 2; apply prints_quote|]. constructor; [apply prints_bytes|constructor].
Qed.
Lemma evaluated_despite_type_error (s : server LIB) rq resp : (rq_version rq < 2 ^ 32)%N -> forallb ascii (rq_bucketID rq) = true ->
  HandleRequest (migpServer s) rq (kv_Get (kv s)) = Ok resp ->
  exists data e w, ClientRequest_unmarshal data = (rq, Some e) /\ handleEvaluate s (Ok data) = Ok w /\
    response_of w = (400%N, bad_request ++ answer_bytes resp).
Proof.
  intros V A H. destruct (twice_versioned_decoded rq V A) as (e & U).
  destruct (evaluate_bad_json s _ rq e U) as (w & E & R); [intros m; rewrite H; discriminate|]. rewrite H in R.
  exists (twice_versioned rq), e, w. auto.
Qed.

(** A request as a client library prints it. *)
Lemma evaluate_sent (s : server LIB) rq : (rq_version rq < 2 ^ 32)%N -> forallb ascii (rq_bucketID rq) = true -> OPRF_laws LIB ->
  exists w, handleEvaluate s (Ok (ClientRequest_marshal rq)) = Ok w /\
  response_of w = match HandleRequest (migpServer s) rq (kv_Get (kv s)) with
                  | Ok resp => (200%N, answer_bytes resp)
                  | _ => (500%N, internal_error)
                  end.
Proof.
  intros V A L. assert (U : ClientRequest_unmarshal (ClientRequest_marshal rq) = (rq, None)).
  { rewrite <- (app_nil_r (ClientRequest_marshal _)), request_roundtrip by (try exact V; reflexivity). rewrite sanitize_ascii by exact A. destruct rq; reflexivity. }
  destruct (HandleRequest (migpServer s) rq (kv_Get (kv s))) as [resp|m|m] eqn:E.
  - eapply evaluate_accepted; eassumption.
  - eapply evaluate_refused; eassumption.
  - exfalso. eapply handle_panic_free; eassumption.
Qed.
End Handlers.

(** ** The statements in the vocabulary of [SpecHttp.v] *)
Lemma ascii_only_b s : ascii_only s -> forallb ascii s = true.
Proof. intros H. apply forallb_forall. intros c K. apply N.ltb_lt, H, K. Qed.
Lemma json_space_b s : json_space s -> forallb is_ws s = true.
Proof. intros H. apply forallb_forall. intros c K. specialize (H c K). cbn [In] in H. destruct H as [<-|[<-|[<-|[<-|[]]]]]; reflexivity. Qed.

Lemma config_roundtrip_spec iw c ws : wf_config iw c -> json_space ws -> Config_unmarshal iw (Config_marshal c ++ ws) = Ok c.
Proof. intros W S'. apply config_roundtrip_ws; [exact W|apply json_space_b, S']. Qed.
Lemma server_config_roundtrip_spec (LIB : OPRF) iw (c : ServerConfig LIB) ws : OPRF_laws LIB -> wf_config iw (sc_config c) -> json_space ws ->
  server_suite LIB (cfg_oprfSuite (sc_config c)) (sc_privateKey c) = Ok tt ->
  exists data, ServerConfig_MarshalJSON c = Ok data /\ ServerConfig_UnmarshalJSON LIB iw (data ++ ws) = Ok c.
Proof.
  intros L W S' SS. destruct (law_key _ L _ _ SS) as (d & Hd & Hp).
  apply (server_config_roundtrip LIB iw c d ws W (json_space_b _ S') Hd Hp).
Qed.
Lemma request_roundtrip_spec rq ws : (rq_version rq < 2 ^ 32)%N -> ascii_only (rq_bucketID rq) -> json_space ws ->
  ClientRequest_unmarshal (ClientRequest_marshal rq ++ ws) = (rq, None).
Proof.
  intros V A S'. rewrite request_roundtrip by (try exact V; apply json_space_b, S').
  rewrite sanitize_ascii by (apply ascii_only_b, A). destruct rq; reflexivity.
Qed.
Lemma restored_spec (LIB : OPRF) iw (cfg : ServerConfig LIB) (s : Server LIB) ws : OPRF_laws LIB -> NewServer cfg = Ok s ->
  wf_config iw (sc_config cfg) -> json_space ws ->
  exists data cfg', ServerConfig_MarshalJSON (Server_Config s) = Ok data /\
    ServerConfig_UnmarshalJSON LIB iw (data ++ ws) = Ok cfg' /\ NewServer cfg' = Ok s.
Proof.
  intros L N W S'. destruct (restored LIB iw s cfg ws L N W (json_space_b _ S')) as (data & M & cfg' & U & N'). eauto.
Qed.
Lemma restored_same (LIB : OPRF) iw (cfg cfg' : ServerConfig LIB) (s s' : Server LIB) data ws : OPRF_laws LIB -> NewServer cfg = Ok s ->
  wf_config iw (sc_config cfg) -> json_space ws ->
  ServerConfig_MarshalJSON (Server_Config s) = Ok data -> ServerConfig_UnmarshalJSON LIB iw (data ++ ws) = Ok cfg' -> NewServer cfg' = Ok s' ->
  s' = s.
Proof.
  intros L N W S' M U N'. destruct (restored_spec LIB iw cfg s ws L N W S') as (data0 & cfg0 & M0 & U0 & N0).
  rewrite M in M0. apply Ok_inj in M0. subst data0. rewrite U in U0. apply Ok_inj in U0. subst cfg0. rewrite N' in N0. apply Ok_inj in N0. exact N0.
Qed.
Lemma restored_interchangeable (LIB : OPRF) iw (cfg cfg' : ServerConfig LIB) (s s' : Server LIB) data ws : OPRF_laws LIB -> NewServer cfg = Ok s ->
  wf_config iw (sc_config cfg) -> json_space ws ->
  ServerConfig_MarshalJSON (Server_Config s) = Ok data -> ServerConfig_UnmarshalJSON LIB iw (data ++ ws) = Ok cfg' -> NewServer cfg' = Ok s' ->
  (forall u p f m, EncryptBucketEntry s' u p f m = EncryptBucketEntry s u p f m)
  /\ (forall u, Server_BucketID s' u = Server_BucketID s u)
  /\ (forall rq kv, HandleRequest s' rq kv = HandleRequest s rq kv)
  /\ Server_Config s' = Server_Config s.
Proof.
  intros L N W S' M U N'. rewrite (restored_same LIB iw cfg cfg' s s' data ws L N W S' M U N').
  split; [reflexivity|]. split; [reflexivity|]. split; reflexivity.
Qed.
Lemma restored_finds (LIB : OPRF) iw (cfg : Config) (key : PrivateKey LIB) (cfg' : ServerConfig LIB) (s s' : Server LIB) (c : Client) data ws
    db kv u p r f m before after : OPRF_laws LIB -> NewServer {| sc_config := cfg; sc_privateKey := key |} = Ok s -> NewClient LIB cfg = Ok c ->
  wf_config iw cfg -> json_space ws ->
  ServerConfig_MarshalJSON (Server_Config s) = Ok data -> ServerConfig_UnmarshalJSON LIB iw (data ++ ws) = Ok cfg' -> NewServer cfg' = Ok s' ->
  db = before ++ mkCred u p f m :: after -> Forall (fun d => (d_user d, d_pass d) <> (u, p)) before ->
  store_all s newKVStore db = Ok kv -> kv_holdable kv -> no_collision s db u p ->
  run_query c s' (kv_Get kv) u p r = Ok (SpecEntry.flag_status f, Some m).
Proof.
  intros L N NC W S' M U N' Hdb Hb St Hh Hn.
  rewrite (restored_same LIB iw _ cfg' s s' data ws L N W S' M U N').
  assert (V : (cfg_version cfg < 2 ^ 16)%N) by apply W.
  apply (query_stored LIB L cfg key s c N NC V db kv u p r f m before after Hdb Hb St Hh Hn).
Qed.

Lemma config_endpoint_indep (LIB LIB' : OPRF) (s : server LIB) (s' : server LIB') :
  sc_config (Server_Config (migpServer s)) = sc_config (Server_Config (migpServer s')) -> handleConfig s = handleConfig s'.
Proof. intros E. unfold handleConfig. rewrite E. reflexivity. Qed.
Lemma config_endpoint (LIB : OPRF) iw (cfg : ServerConfig LIB) (s : server LIB) : newServer cfg = Ok s -> wf_config iw (sc_config cfg) ->
  exists w body, handler s (str "/config") (Ok []) = Ok w /\ response_of w = (200%N, body) /\ Config_decode iw body = Ok (sc_config cfg).
Proof.
  intros N W. unfold newServer in N. apply bind_ok in N as (ms & N & E). apply Ok_inj in E. subst s.
  unfold handler. cbn [bytes_eqb str list_byte_of_string]. 
  replace (bytes_eqb (str "/config") (str "/evaluate")) with false by reflexivity.
  replace (bytes_eqb (str "/config") (str "/config")) with true by reflexivity.
  unfold handleConfig. cbn [migpServer]. rewrite (NewServer_Config LIB cfg ms N). eexists. eexists. split; [reflexivity|]. split; [reflexivity|].
  cbn [w_body fresh_writer write_header app]. apply config_decode, W.
Qed.

Lemma evaluate_sent_spec (LIB : OPRF) (s : server LIB) rq ws : OPRF_laws LIB -> (rq_version rq < 2 ^ 32)%N -> ascii_only (rq_bucketID rq) -> json_space ws ->
  exists w, handleEvaluate s (Ok (ClientRequest_marshal rq ++ ws)) = Ok w /\
  response_of w = match HandleRequest (migpServer s) rq (kv_Get (kv s)) with
                  | Ok resp => (200%N, answer_bytes resp)
                  | _ => (500%N, internal_error)
                  end.
Proof.
  intros L V A S'. pose proof (request_roundtrip_spec rq ws V A S') as U.
  destruct (HandleRequest (migpServer s) rq (kv_Get (kv s))) as [resp|m|m] eqn:E.
  - eapply evaluate_accepted; eassumption.
  - eapply evaluate_refused; eassumption.
  - exfalso. eapply handle_panic_free; eassumption.
Qed.
Lemma despite_type_error_spec (LIB : OPRF) (s : server LIB) rq resp : (rq_version rq < 2 ^ 32)%N -> ascii_only (rq_bucketID rq) ->
  HandleRequest (migpServer s) rq (kv_Get (kv s)) = Ok resp ->
  exists data e w, ClientRequest_unmarshal data = (rq, Some e) /\ handleEvaluate s (Ok data) = Ok w /\
    response_of w = (400%N, bad_request ++ answer_bytes resp).
Proof. intros V A. apply evaluated_despite_type_error; [exact V|apply ascii_only_b, A]. Qed.
Lemma evaluate_not_json (LIB : OPRF) (s : server LIB) data : json_parse data = None -> s_version (migpServer s) <> 0%N ->
  exists w, handleEvaluate s (Ok data) = Ok w /\ response_of w = (400%N, bad_request ++ internal_error).
Proof.
  intros J V.
  assert (U : ClientRequest_unmarshal data = (zeroRequest, Some "json: syntax error"%string)) by (unfold ClientRequest_unmarshal, unmarshal_struct; rewrite J; reflexivity).
  assert (A : exists e, HandleRequest (migpServer s) zeroRequest (kv_Get (kv s)) = Err e).
  { unfold HandleRequest, zeroRequest. cbn [rq_version]. change (u16 0) with 0%N. apply N.eqb_neq in V. rewrite N.eqb_sym, V. cbn [negb]. eauto. }
  destruct A as (e & A). destruct (evaluate_bad_json LIB s data _ _ U) as (w & E & R); [intros m; rewrite A; discriminate|]. rewrite A in R. eauto.
Qed.
