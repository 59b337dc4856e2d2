(** * C79: another implementation of the protocol works with this one.

    SpecInterop.v writes the protocol down with all its constants.  Whoever
    follows it can read the buckets this server makes, ask this server, and
    answer this client. *)
From Coq Require Import Lia.
From Verif Require Import Base BaseProofs LibProofs Common CommonProofs Hex Oprf OprfGroup Server Client KV
  SpecEntry SpecProtocol SpecInterop ProtocolProofs InteropProofs PropProtocol PropFinalize.

Definition parameters_of (cfg : Config) : parameters :=
  mkParameters (cfg_version cfg) (cfg_bits cfg) (cfg_slowHasher cfg) (cfg_oprfSuite cfg).

(** The store this server makes is, byte for byte, the specified one. *)
Theorem C79_store (LIB : OPRF) : forall (cfg : Config) (key : PrivateKey LIB) (s : Server LIB),
  NewServer {| sc_config := cfg; sc_privateKey := key |} = Ok s -> (0 <= cfg_bits cfg <= 32)%Z ->
  forall db : list cred, Forall (has_entry (parameters_of cfg) key) db ->
  exists store, store_all s newKVStore db = Ok store /\
    forall name, sl (kv_lookup store name) = bucket (parameters_of cfg) key db name.
Proof.
  intros cfg key s Hs Hb db F. destruct (store_spec cfg key Hb s Hs db F newKVStore) as (kv & S & L). exists kv. split; [exact S|exact L].
Qed.
Print Assumptions C79_store.

(** A request made by another implementation of the client: this server
    evaluates the element and sends the specified bucket. *)
Theorem C79_server (LIB : OPRF) : forall (cfg : Config) (key : PrivateKey LIB) (s : Server LIB),
  NewServer {| sc_config := cfg; sc_privateKey := key |} = Ok s -> (0 <= cfg_bits cfg <= 32)%Z -> (cfg_version cfg < 2 ^ 16)%N ->
  forall (db : list cred) (store : kvStore), Forall (has_entry (parameters_of cfg) key) db -> store_all s newKVStore db = Ok store ->
  forall (u b e : bytes), evaluate LIB (cfg_oprfSuite cfg) key [b] (str "MIGP oprf info") = Ok [e] ->
  exists response, 
    HandleRequest s {| rq_version := cfg_version cfg; rq_bucketID := bucket_name (parameters_of cfg) u; rq_blindElement := Some b |} (kv_Get store) = Ok response
    /\ MarshalBinary response = Ok (be32 (cfg_version cfg) ++ e ++ bucket (parameters_of cfg) key db (bucket_name (parameters_of cfg) u)).
Proof.
  intros cfg key s Hs Hb Hv db store F S u b e E. destruct (C79_store LIB cfg key s Hs Hb db F) as (store' & S' & L).
  rewrite S in S'. apply Ok_inj in S'. subst store'. specialize (L (bucket_name (parameters_of cfg) u)).
  apply NewServer_inv in Hs. cbn [sc_config sc_privateKey] in Hs. destruct Hs as (_ & _ & _ & _ & V & _ & Su & K & _).
  unfold HandleRequest. cbn [rq_version rq_bucketID rq_blindElement sl]. unfold u16. change 65536%N with (2 ^ 16)%N. rewrite N.mod_small by exact Hv. rewrite V, N.eqb_refl. cbn [negb].
  rewrite Su, K. unfold OprfInfo. rewrite E. cbn [bind].
  unfold bucket_name at 1. rewrite <- hex8_ok. unfold BucketIDToHex. rewrite hex_decode_encode. cbn [bind kv_Get].
  eexists. split; [reflexivity|]. unfold MarshalBinary. cbn [rs_version rs_evaluatedElement rs_bucketContents]. rewrite L. reflexivity.
Qed.
Print Assumptions C79_server.

(** Another implementation of the server: it gets the specified bucket name and
    blinded element, and from the evaluated element and the specified bucket
    this client reads the right answer. *)
Theorem C79_client (LIB : OPRF) : OPRF_laws LIB ->
  forall (cfg : Config) (c : Client), NewClient LIB cfg = Ok c -> (0 <= cfg_bits cfg <= 32)%Z -> (cfg_version cfg < 2 ^ 16)%N ->
  forall (key : PrivateKey LIB), server_suite LIB (cfg_oprfSuite cfg) key = Ok tt ->
  let ps := parameters_of cfg in
  forall (db : list cred) (u p k : bytes), Forall (has_entry ps key) db ->
  (blen u <= 65535)%Z -> (blen p <= 65535)%Z -> secret_of ps key u p = Ok k ->
  (forall d k', In d db -> (d_user d, d_pass d) <> (u, p) -> secret_of ps key (d_user d) (d_pass d) = Ok k' -> key_check k' <> key_check k) ->
  holdable (bucket ps key db (bucket_name ps u)) ->
  forall r : Blind LIB, exists b e ctx,
    blind LIB (cfg_oprfSuite cfg) [oprf_input ps u p] [r] = Ok [b] /\
    evaluate LIB (cfg_oprfSuite cfg) key [b] (str "MIGP oprf info") = Ok [e] /\
    Request c u p r = Ok ({| rq_version := cfg_version cfg; rq_bucketID := bucket_name ps u; rq_blindElement := Some b |}, ctx) /\
    forall (version : N) (contents : gslice), (version mod 2 ^ 16 = cfg_version cfg)%N -> sl contents = bucket ps key db (bucket_name ps u) ->
      Finalize ctx {| rs_version := version; rs_evaluatedElement := e; rs_bucketContents := contents |} = Ok (expected db u p).
Proof.
  intros laws cfg c Hc Hb Hv key SS ps db u p k F Hu Hp K N Hh r.
  exact (client_spec cfg key Hb laws c db u p k r Hc SS Hv F Hu Hp K N Hh).
Qed.
Print Assumptions C79_client.

(** alice's passwords "pw" and "other" on the toy OPRF: the hypotheses are met. *)
Definition ex79_db : list cred := [mkCred (str "alice") (str "pw") Byte.x01 (str "m1"); mkCred (str "alice") (str "other") Byte.x01 (str "m2")].
Lemma ex79_secret u p : exists k, secret_of (parameters_of ex_cfg) (LIB := toy_OPRF) (toy_key 3) u p = Ok k.
Proof. unfold secret_of, parameters_of. cbn [p_suite cfg_oprfSuite ex_cfg]. apply toy_full_ok. Qed.
Lemma ex79_entry u p f m : (blen u <= 65535)%Z -> (blen p <= 65535)%Z -> (bN f < 4)%N -> (blen m <= 8160)%Z ->
  has_entry (parameters_of ex_cfg) (LIB := toy_OPRF) (toy_key 3) (mkCred u p f m).
Proof.
  intros A B C D. unfold has_entry. cbn [d_user d_pass d_flag d_meta]. split; [exact A|]. split; [exact B|]. split; [exact C|]. split; [exact D|].
  apply ex79_secret.
Qed.
Example C79_example :
  NewServer {| sc_config := ex_cfg; sc_privateKey := toy_key 3 |} = Ok ex_server /\ NewClient toy_OPRF ex_cfg = Ok ex_client
  /\ server_suite toy_OPRF (cfg_oprfSuite ex_cfg) (toy_key 3) = Ok tt
  /\ (0 <= cfg_bits ex_cfg <= 32)%Z /\ (cfg_version ex_cfg < 2 ^ 16)%N
  /\ Forall (has_entry (parameters_of ex_cfg) (LIB := toy_OPRF) (toy_key 3)) ex79_db
  /\ bucket_name (parameters_of ex_cfg) (str "alice") = str "000aee1f".
Proof.
  destruct ex_server_ok as (A & B & C & _). split; [exact A|]. split; [exact B|]. split; [reflexivity|]. split; [cbn; lia|]. split; [exact C|].
  split; [|vm_compute; reflexivity].
  apply Forall_cons; [|apply Forall_cons; [|apply Forall_nil]]; apply ex79_entry; unfold blen; cbn; lia.
Qed.
