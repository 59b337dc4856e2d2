(** * Property C87: requests served at the same time.  The server program stores
    the breach file before it listens; afterwards the handlers, each in its own
    goroutine, only read the store.  So whatever other requests are being served,
    in any interleaving of the store's steps, every request is answered as if it
    were the only one: with the page computed from the whole breach file.

    The execution of a request for the bucket [id] in goroutine t: the events
    [tr1] of the load, the events [tr2] until the handler calls Get, the events
    [tr3] until that call returns v.  [mux srv path (Ok body)] is the reply of the
    server to the request with that path and body, [with_store srv store] the
    server with another store.  Specification: SpecServe.v, SpecParallel.v. *)
From Coq Require Import Lia.
From Verif Require Import Base BaseProofs Common Hasher Oprf OprfGroup Server Client KV KVProofs Json ConfigJson Scanner Demo Flags Main SpecEntry SpecProtocol SpecDemo SpecMain DemoProofs
  SpecConc KVConc ConcProofs ConcHistory InsertCalls SpecParallel ParallelProofs StableProofs MainProofs SpecHttp HttpProofs SizeProofs ProtocolProofs SpecServe ServeProofs PropFinalize PropProtocol PropParallel.

(** ** A request reads at most the bucket that its body names: two servers that
    differ only in other buckets give the same reply. *)
Theorem C87_one_bucket : forall (LIB : OPRF) (srv : server LIB) (store : kvStore) (path body id : bytes),
  names_bucket body id -> kv_lookup store id = kv_lookup (kv srv) id ->
  mux (with_store srv store) path (Ok body) = mux srv path (Ok body).
Proof. exact @mux_one_key. Qed.
Print Assumptions C87_one_bucket.

(** ** Every request gets the reply of the loaded server alone: when the Get of
    its handler returns v, then the page computed from a store with v in the
    bucket asked for is the reply of the server that holds the inserts [ops] of
    the load, one after the other, and answers nothing else. *)
Theorem C87_as_if_alone : forall (LIB : OPRF) (srv : server LIB) (ops : list op) (tr1 tr2 tr3 : list event) (t : nat) (path body id : bytes) (v : gslice) (σ : state),
  kv srv = run_inserts (migpServer srv) newKVStore ops -> names_bucket body id ->
  loaded (migpServer srv) (main_inserts ops) tr1 -> only_gets tr2 -> only_gets tr3 -> invoked_by t tr3 = [] -> returned_by t tr3 = 0 ->
  exec true ((tr1 ++ tr2) ++ EInvoke t (CGet id) :: tr3 ++ [EReturn t (RValue v)]) σ ->
  v = kv_lookup (kv srv) id
  /\ forall store, kv_lookup store id = v -> mux (with_store srv store) path (Ok body) = mux srv path (Ok body).
Proof.
  intros LIB srv ops tr1 tr2 tr3 t path body id v σ K N Ld G2 G3 NI NR E.
  pose proof (served_value (migpServer srv) ops tr1 tr2 tr3 t id v σ E Ld G2 G3 NI NR) as V. rewrite <- K in V.
  split; [exact V|]. intros store S. apply (mux_one_key srv store path body id N). congruence.
Qed.
Print Assumptions C87_as_if_alone.

(** ** The same for the server program, with the inserts of its breach file. *)
Theorem C87_server_program : forall (LIB : OPRF) (args : list bytes) (fs : files) (gen : res (PrivateKey LIB)) (addr : bytes) (srv : server LIB) (ok bad : N)
    (o : server_opts) (breach : bytes),
  server_program args fs gen = SServing addr srv ok bad -> server_flags args = FParsed o -> input_of fs (so_infile o) = Some breach ->
  let ops := breach_ops (so_metadata o) (so_num o) (so_username o) (with_colon (scan_lines breach)) in
  forall (tr1 tr2 tr3 : list event) (t : nat) (path body id : bytes) (v : gslice) (σ : state),
  names_bucket body id ->
  loaded (migpServer srv) (main_inserts ops) tr1 -> only_gets tr2 -> only_gets tr3 -> invoked_by t tr3 = [] -> returned_by t tr3 = 0 ->
  exec true ((tr1 ++ tr2) ++ EInvoke t (CGet id) :: tr3 ++ [EReturn t (RValue v)]) σ ->
  v = kv_lookup (kv srv) id
  /\ forall store, kv_lookup store id = v -> mux (with_store srv store) path (Ok body) = mux srv path (Ok body).
Proof.
  intros LIB args fs gen addr srv ok bad o breach P F I ops tr1 tr2 tr3 t path body id v σ N Ld G2 G3 NI NR E.
  destruct (served_store LIB args fs gen addr srv ok bad o breach P F I) as (_ & _ & _ & _ & K & _).
  exact (C87_as_if_alone LIB srv ops tr1 tr2 tr3 t path body id v σ K N Ld G2 G3 NI NR E).
Qed.
Print Assumptions C87_server_program.

(** ** Two requests for one bucket at any two times are given the same bucket. *)
Theorem C87_same_bucket_for_all : forall (LIB : OPRF) (s : Server LIB) (ops : list op) (tr1 tr2 tr3 tr2' tr3' : list event) (t t' : nat) (id : bytes) (v v' : gslice) (σ σ' : state),
  loaded s (main_inserts ops) tr1 -> only_gets tr2 -> only_gets tr3 -> invoked_by t tr3 = [] -> returned_by t tr3 = 0 ->
  only_gets tr2' -> only_gets tr3' -> invoked_by t' tr3' = [] -> returned_by t' tr3' = 0 ->
  exec true ((tr1 ++ tr2) ++ EInvoke t (CGet id) :: tr3 ++ [EReturn t (RValue v)]) σ ->
  exec true ((tr1 ++ tr2') ++ EInvoke t' (CGet id) :: tr3' ++ [EReturn t' (RValue v')]) σ' -> v = v'.
Proof.
  intros LIB s ops tr1 tr2 tr3 tr2' tr3' t t' id v v' σ σ' Ld G2 G3 NI NR G2' G3' NI' NR' E E'.
  rewrite (served_value s ops tr1 tr2 tr3 t id v σ E Ld G2 G3 NI NR), (served_value s ops tr1 tr2' tr3' t' id v' σ' E' Ld G2' G3' NI' NR'). reflexivity.
Qed.
Print Assumptions C87_same_bucket_for_all.

(** ** What a client posts names the bucket of its username, so a query made
    while others are served has the reply of the loaded server alone. *)
Theorem C87_client_request : forall (LIB : OPRF) (cfg : Config) (key : PrivateKey LIB) (srv : server LIB) (c : Client),
  NewServer {| sc_config := cfg; sc_privateKey := key |} = Ok (migpServer srv) -> NewClient LIB cfg = Ok c -> (cfg_version cfg < 2 ^ 16)%N ->
  forall (u p : bytes) (r : Blind LIB) (rq : ClientRequest) (ctx : ClientRequestContext LIB), Request c u p r = Ok (rq, ctx) ->
  exists id, Server_BucketID (migpServer srv) u = Ok id /\ names_bucket (ClientRequest_marshal rq) (BucketIDToHex id)
    /\ forall (ops : list op) (tr1 tr2 tr3 : list event) (t : nat) (v : gslice) (σ : state) (store : kvStore),
       kv srv = run_inserts (migpServer srv) newKVStore ops ->
       loaded (migpServer srv) (main_inserts ops) tr1 -> only_gets tr2 -> only_gets tr3 -> invoked_by t tr3 = [] -> returned_by t tr3 = 0 ->
       exec true ((tr1 ++ tr2) ++ EInvoke t (CGet (BucketIDToHex id)) :: tr3 ++ [EReturn t (RValue v)]) σ ->
       kv_lookup store (BucketIDToHex id) = v ->
       mux (with_store srv store) (str "/evaluate") (Ok (ClientRequest_marshal rq)) = mux srv (str "/evaluate") (Ok (ClientRequest_marshal rq)).
Proof.
  intros LIB cfg key srv c Hs Hc Hv u p r rq ctx R.
  assert (I : exists id, Server_BucketID (migpServer srv) u = Ok id /\ rq_bucketID rq = BucketIDToHex id /\ rq_version rq = c_version c).
  { revert R. unfold Request. destruct (serializeUsernamePassword u p); cbn [bind]; [|discriminate..]. destruct (SlowHasher_Hash _ _); cbn [bind]; [|discriminate..].
    destruct (blind _ _ _ _) as [[|b bs]| |]; cbn [bind]; [discriminate| |discriminate..].
    rewrite (same_bucket LIB cfg key (migpServer srv) c Hs Hc u). destruct (Server_BucketID (migpServer srv) u) as [id| |]; cbn [bind]; [|discriminate..].
    intros R. apply Ok_inj, pair_inj in R as [<- _]. exists id. auto. }
  destruct I as (id & B & RB & RV). exists id. split; [exact B|].
  assert (N : names_bucket (ClientRequest_marshal rq) (BucketIDToHex id)).
  { unfold names_bucket. rewrite <- (app_nil_r (ClientRequest_marshal rq)). destruct (client_fields LIB cfg c Hc) as (_ & V & _).
    destruct rq as [rv rid rb]. cbn [rq_bucketID rq_version] in RB, RV. subst rid rv.
    rewrite request_roundtrip_hex; [reflexivity|rewrite V; lia|reflexivity]. }
  split; [exact N|]. intros ops tr1 tr2 tr3 t v σ store K Ld G2 G3 NI NR E S.
  apply (C87_as_if_alone LIB srv ops tr1 tr2 tr3 t (str "/evaluate") _ _ v σ K N Ld G2 G3 NI NR E). exact S.
Qed.
Print Assumptions C87_client_request.

(** ** A case: the main goroutine inserts one credential, then goroutine 1 calls
    Get for the bucket, and while it waits goroutine 2 is served. *)
Definition scene87 {LIB} (s : Server LIB) (u p m : bytes) : Prop :=
  let ops := [mkOp u p m 0 false] in
  exists id e v σ,
  let tr1 := [EInvoke 0 (CAppend (BucketIDToHex id) e); EReturn 0 RDone] in
  let tr2 := [EInvoke 1 (CGet (BucketIDToHex id))] in
  Server_BucketID s u = Ok id /\ loaded s (main_inserts ops) tr1 /\ only_gets tr2 /\ only_gets [] /\ sl v = e
  /\ exec true ((tr1 ++ tr2) ++ EInvoke 2 (CGet (BucketIDToHex id)) :: [] ++ [EReturn 2 (RValue v)]) σ.

Lemma one_served (LIB : OPRF) (s : Server LIB) u p m id e :
  Server_BucketID s u = Ok id -> EncryptBucketEntry s u p Byte.x01 m = Ok e -> ConfigJson.password_variants p 0 = Ok [] -> scene87 s u p m.
Proof.
  intros B En V.
  assert (IC : insert_calls s u p m 0 false = ([CAppend (BucketIDToHex id) e], Ok tt)).
  { unfold insert_calls, insert_calls_with. rewrite B. unfold entry_calls at 1. change MetadataBreachedPassword with Byte.x01. rewrite En. rewrite V. reflexivity. }
  set (ops := [mkOp u p m 0 false]). set (c0 := CAppend (BucketIDToHex id) e) in *.
  assert (CO : calls_of s ops = [c0]). { unfold calls_of, ops. cbn [flat_map o_user o_pass o_meta o_num o_incl]. rewrite IC. reflexivity. }
  destruct (log_runs [(0, c0)]) as (σ0 & X0 & I0). { repeat constructor. eexists _, _. reflexivity. }
  cbn [log_events flat_map fst snd app] in X0. destruct (idle_free _ _ _ X0 I0) as [W0 _].
  pose proof (exec_next true _ _ _ _ X0 (st_get_call true σ0 1 (BucketIDToHex id) (I0 1))) as X1. cbn [snoc] in X1.
  match type of X1 with exec _ _ ?S => set (σ1 := S) in *; assert (A1 : th_pc (st_thr σ1 2) = Idle) by (unfold σ1; cbn [st_thr]; unfold go; rewrite upd_other by congruence; apply I0) end.
  destruct (get_beside _ σ1 2 (BucketIDToHex id) X1 A1 W0) as (σ2 & X2).
  assert (Ld : loaded s (main_inserts ops) [EInvoke 0 c0; EReturn 0 RDone]).
  { intros t. destruct (Nat.eq_dec t 0) as [->|N].
    - unfold main_inserts. cbn [Nat.eqb]. rewrite CO. split; reflexivity.
    - unfold main_inserts. rewrite (proj2 (Nat.eqb_neq t 0) N). unfold invoked_by, returned_by. cbn [flat_map filter]. rewrite (proj2 (Nat.eqb_neq 0 t)) by congruence. split; reflexivity. }
  assert (G2 : only_gets [EInvoke 1 (CGet (BucketIDToHex id))]).
  { intros t c [I|[]]. assert (c = CGet (BucketIDToHex id)) as -> by congruence. reflexivity. }
  assert (G3 : only_gets []) by (intros t c []).
  eexists id, e, _, σ2. cbv zeta. split; [exact B|]. split; [exact Ld|]. split; [exact G2|]. split; [exact G3|].
  split; [|exact X2].
  rewrite (served_value s ops _ _ _ _ _ _ _ X2 Ld G2 G3 eq_refl eq_refl).
  unfold ops. cbn [run_inserts]. rewrite insert_calls_insert. cbn [o_user o_pass o_meta o_num o_incl]. rewrite IC. cbn [fst fold_left apply c0].
  rewrite lookup_append, bytes_eqb_refl. reflexivity.
Qed.

Example C87_example : @scene87 toy_OPRF ex_server (str "alice") (str "pw") (str "m").
Proof.
  destruct alice_stored as [_ (id & B)]. destruct (alice_entry (str "m")) as (e & En); [cbn; lia|].
  apply (one_served toy_OPRF ex_server _ _ _ id e B En).
  destruct (VariantProofs.variants_count (str "pw") 0) as (vs & E & L); [lia..|]. rewrite E. destruct vs; [reflexivity|cbn [length] in L; lia].
Qed.
