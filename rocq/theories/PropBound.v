(** * C81: a response is good for its own request only, and a mix-up goes
    unnoticed.

    [ctx] belongs to the request [rq]; the response is the one to [rq'], a
    request of the same client for any credential.  Responses carry nothing
    that ties them to a request. *)
From Coq Require Import Lia Znumtheory.
From Verif Require Import Base BaseProofs LibProofs Sha256 Common CommonProofs Hex Hasher Oprf OprfGroup Server Client KV
  SpecCommon SpecEntry SpecProtocol EncryptorProofs FinalizeProofs ProtocolProofs PropFinalize PropProtocol.

Lemma request_value (LIB : OPRF) c u p r rq (ctx : ClientRequestContext LIB) : Request c u p r = Ok (rq, ctx) ->
  exists ser x b bs id, serializeUsernamePassword u p = Ok ser /\ SlowHasher_Hash (c_slowHasher c) ser = Ok x
    /\ blind LIB (c_oprfSuite c) [x] [r] = Ok (b :: bs) /\ Client_BucketID c u = Ok id
    /\ rq = {| rq_version := c_version c; rq_bucketID := BucketIDToHex id; rq_blindElement := Some b |}
    /\ ctx = {| ctx_client := c; ctx_inputs := [x]; ctx_blinds := [r] |}.
Proof.
  unfold Request. intros H. apply bind_ok in H as (ser & H1 & H). apply bind_ok in H as (x & H2 & H). apply bind_ok in H as (bs & H3 & H).
  destruct bs as [|b bs]; [discriminate|]. apply bind_ok in H as (id & H4 & H). apply Ok_inj in H. apply pair_inj in H as [H5 H6].
  exists ser, x, b, bs, id. auto 7.
Qed.
Lemma response_value (LIB : OPRF) (s : Server LIB) rq get resp : HandleRequest s rq get = Ok resp ->
  exists e es v, evaluate LIB (s_oprfSuite s) (s_privateKey s) [sl (rq_blindElement rq)] (str "MIGP oprf info") = Ok (e :: es)
    /\ get (rq_bucketID rq) = Ok v
    /\ resp = {| rs_version := rq_version rq; rs_evaluatedElement := e; rs_bucketContents := v |}.
Proof.
  unfold HandleRequest. destruct (negb _); [discriminate|]. intros H. apply bind_ok in H as (es & H1 & H).
  destruct es as [|e es]; [discriminate|]. destruct (hex_decode _) as [?| |]; try discriminate. apply bind_ok in H as (v & H2 & H).
  apply Ok_inj in H. exists e, es, v. auto.
Qed.

(** The secret the client gets is a SHA-256 hash, and so is the one its
    credential is stored under; what is hashed is the same exactly if the two
    requests have the same blinded element. *)
Theorem C81_secret_of_another_response : forall (groups : N -> option group),
  (forall s g, groups s = Some g -> group_laws g) ->
  forall (cfg : Config) (key : PrivateKey (group_OPRF groups)) (s : Server (group_OPRF groups)) (c : Client),
  NewServer {| sc_config := cfg; sc_privateKey := key |} = Ok s -> NewClient (group_OPRF groups) cfg = Ok c -> (cfg_version cfg < 2 ^ 16)%N ->
  forall (u p u' p' : bytes) (r r' : Blind (group_OPRF groups)) rq rq' (ctx ctx' : ClientRequestContext (group_OPRF groups)) (get : Getter) resp,
  Request c u p r = Ok (rq, ctx) -> Request c u' p' r' = Ok (rq', ctx') -> HandleRequest s rq' get = Ok resp ->
  exists hashed hashed', deriveBucketEntryKey s u p = Ok (sha256 hashed) /\ client_secret ctx resp (sha256 hashed')
    /\ (hashed = hashed' <-> rq_blindElement rq = rq_blindElement rq').
Proof.
  intros groups laws cfg key s c Hs Hc Hv u p u' p' r r' rq rq' ctx ctx' get resp R R' H.
  apply request_value in R as (ser & x & b & bs & id & S & X & B & _ & -> & ->).
  apply request_value in R' as (ser' & x' & b' & bs' & id' & S' & X' & B' & _ & -> & _).
  apply response_value in H as (e & es & v & E & _ & ->). cbn [rq_blindElement sl rq_version] in *.
  rewrite (same_suite _ cfg key s c Hs Hc) in B, B'. rewrite (same_slow _ cfg key s c Hs Hc) in X.
  destruct (suites_ok _ cfg key s c Hs Hc) as [SC SS].
  unfold client_secret. cbn [ctx_client ctx_inputs ctx_blinds rs_version rs_evaluatedElement].
  unfold deriveBucketEntryKey. rewrite S. cbn [bind]. rewrite X. cbn [bind]. unfold OprfInfo.
  rewrite (same_suite _ cfg key s c Hs Hc).
  cbn [group_OPRF client_suite server_suite blind evaluate unblind full_evaluate] in *. unfold with_suite in *.
  destruct (groups (s_oprfSuite s)) as [g|] eqn:G0; [|discriminate]. pose proof (laws _ _ G0) as L.
  cbn [combine mapM bind fst snd] in B, B'. apply Ok_inj in B. apply Ok_inj in B'. injection B as <- _. injection B' as <- _.
  destruct (tweaked g (s_privateKey s) (str "MIGP oprf info")) as [t| |] eqn:T; try discriminate. cbn [bind mapM] in E |- *.
  rewrite (gl_dec _ L) in E. cbn [bind] in E. apply Ok_inj in E. injection E as <- _.
  cbn [length Nat.eqb andb combine mapM fst snd]. rewrite (gl_dec _ L). cbn [bind].
  unfold out_hash. do 2 eexists. split; [reflexivity|]. split; [split|].
  - rewrite (same_version _ cfg key s c Hs Hc). apply (version_mod _ cfg key s Hs Hv).
  - exists []. reflexivity.
  - assert (Hr : scalar g r mod g_q g <> 0%Z) by (eapply scalar_nz; [exact laws|exact G0]).
    assert (Ht : t mod g_q g <> 0%Z).
    { unfold tweaked in T. destruct (_ =? 0)%Z eqn:Z0; [discriminate|]. apply Ok_inj in T. subst t. eapply (inv_nz groups laws); [exact G0|]. lia. }
    set (i := g_inv g (scalar g r)).
    assert (Hi : (i * scalar g r) mod g_q g = 1%Z) by (apply (gl_inv _ L); exact Hr).
    assert (Inj : forall a y z, a mod g_q g <> 0%Z -> g_mul g a y = g_mul g a z -> y = z).
    { intros a y z Ha Q. apply (f_equal (g_mul g (g_inv g a))) in Q. rewrite !(gl_mul _ L) in Q.
      rewrite <- !(gl_mod _ L (g_inv g a * a)), (gl_inv _ L a Ha), !(gl_one _ L) in Q. exact Q. }
    assert (U : g_mul g i (g_mul g t (g_mul g (scalar g r) (g_hash g x))) = g_mul g t (g_hash g x)) by (apply (unblind_correct groups laws (s_oprfSuite s)); exact G0).
    assert (Hin : i mod g_q g <> 0%Z) by (eapply (inv_nz groups laws); [exact G0|exact Hr]).
    split.
    + intros Q. do 4 apply app_inv_head in Q.
      match type of Q with be32 ?n ++ ?a ++ ?f = be32 ?m ++ ?d ++ ?f =>
        assert (Q1 : a ++ f = d ++ f) by (apply (f_equal (skipn 4)) in Q; rewrite !skipn_app_exact in Q by apply be32_length; exact Q) end.
      apply app_inv_tail in Q1. apply (f_equal (g_dec g)) in Q1. rewrite !(gl_dec _ L) in Q1. apply Some_inj in Q1.
      rewrite <- U in Q1. apply Inj in Q1; [|exact Hin]. apply Inj in Q1; [|exact Ht]. rewrite Q1. reflexivity.
    + intros Q. apply Some_inj in Q. apply (f_equal (g_dec g)) in Q. rewrite !(gl_dec _ L) in Q. apply Some_inj in Q.
      rewrite <- Q, U. reflexivity.
Qed.
Print Assumptions C81_secret_of_another_response.

(** So the response to another request of the same client gives, without an
    error, "not in breach" for a credential that may well be stored, unless the
    wrong secret has the key check of a stored credential. *)
Theorem C81_mix_up_is_silent_refuted : forall (LIB : OPRF) (cfg : Config) (key : PrivateKey LIB) (s : Server LIB) (c : Client),
  NewServer {| sc_config := cfg; sc_privateKey := key |} = Ok s -> NewClient LIB cfg = Ok c -> (cfg_version cfg < 2 ^ 16)%N ->
  forall (db : list cred) (store : kvStore), store_all s newKVStore db = Ok store -> kv_holdable store ->
  forall (u p u' p' : bytes) (r r' : Blind LIB) rq rq' (ctx ctx' : ClientRequestContext LIB) resp (secret : bytes),
  Request c u p r = Ok (rq, ctx) -> Request c u' p' r' = Ok (rq', ctx') -> HandleRequest s rq' (kv_Get store) = Ok resp ->
  client_secret ctx resp secret ->
  (forall d k, In d db -> deriveBucketEntryKey s (d_user d) (d_pass d) = Ok k -> key_check k <> key_check secret) ->
  Finalize ctx resp = Ok (NotInBreach, None).
Proof.
  intros LIB cfg key s c Hs Hc Hv db store St Hh u p u' p' r r' rq rq' ctx ctx' resp secret R R' H K N.
  apply request_value in R' as (ser' & x' & b' & bs' & id' & _ & _ & _ & I & -> & _).
  apply response_value in H as (e & es & v & _ & G & ->). cbn [rq_bucketID kv_Get] in G. apply Ok_inj in G. subst v.
  rewrite (same_bucket _ cfg key s c Hs Hc) in I.
  pose proof (store_all_bucket s _ db store id' St (Server_BucketID_lt s _ _ I)) as B. change (sl (kv_lookup newKVStore _)) with (@nil byte) in B. cbn [app] in B.
  pose proof (store_all_storable s _ _ _ St) as F. rewrite Forall_forall in F.
  eapply (C09_no_match LIB) with (es := map (entry_of s) (filter (in_bucket s id') db)).
  - exact K.
  - cbn [rs_bucketContents]. exact B.
  - cbn [rs_bucketContents]. apply Hh.
  - apply Forall_map. rewrite Forall_forall. intros d Hd. apply filter_In in Hd as [Hd _]. apply storable_entry_ok, F, Hd.
  - apply Forall_map. rewrite Forall_forall. intros d Hd. apply filter_In in Hd as [Hd _]. destruct (F d Hd) as (_ & (k & Hk) & _).
    unfold entry_of. rewrite Hk. cbn [make_entry e_check]. exact (N d k Hd Hk).
Qed.
Print Assumptions C81_mix_up_is_silent_refuted.

(** Two requests for alice's stored password with different blinds: the answer
    to the second is read with the context of the first. *)
Definition ex81_store : kvStore := match store_all ex_server newKVStore [mkCred (str "alice") (str "pw") Byte.x01 (str "m")] with Ok kv => kv | _ => [] end.
Definition ex81 (r r' : N) : option (option (option bytes) * res (BreachStatus * gslice)) :=
  match @Request toy_OPRF ex_client (str "alice") (str "pw") r, @Request toy_OPRF ex_client (str "alice") (str "pw") r' with
  | Ok (rq, ctx), Ok (rq', _) =>
      match HandleRequest ex_server rq' (kv_Get ex81_store) with
      | Ok resp => Some ((if bytes_eqb (sl (rq_blindElement rq)) (sl (rq_blindElement rq')) then Some (rq_blindElement rq) else None), Finalize ctx resp)
      | _ => None
      end
  | _, _ => None
  end.
Example C81_example : ex81 5 6 = Some (None, Ok (NotInBreach, None))
  /\ exists b, ex81 6 6 = Some (Some b, Ok (InBreach, Some (str "m"))).
Proof. split; [vm_compute; reflexivity|]. eexists. vm_compute. reflexivity. Qed.
