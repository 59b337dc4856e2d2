(** * Property C86: queries while goroutines insert.  A query that is answered
    during a load sees the entries at one instant of the load: all those whose
    Append had returned when the query's Get was called, and of every goroutine's
    entries a first part.  So an insert that has returned is seen, nothing is
    reported that no insert stored, and once an answer reports a breach every
    later query for the pair reports the same.

    [loading s work tr]: in the events [tr] every goroutine t calls the store as
    its inserts [work t] do, and Get for queries; [finished], [begun]: how many
    entries a goroutine has stored and begun to store; see SpecParallel.v.
    The query of a goroutine t: it calls Get in the event after [tr1], and gets
    the value v after the events [tr2]. *)
From Coq Require Import Lia.
From Verif Require Import Base BaseProofs Common Oprf OprfGroup Server Client KV KVProofs SpecEntry SpecProtocol ProtocolProofs Demo SpecDemo DemoProofs
  OrderProofs SpecConc KVConc ConcProofs ConcHistory ConcRun InsertCalls SpecParallel ParallelProofs StoreProofs StableProofs PropFinalize PropProtocol PropParallel.

Theorem C86_one_instant :
  forall (LIB : OPRF), OPRF_laws LIB ->
  forall (cfg : Config) (key : PrivateKey LIB) (s : Server LIB) (c : Client),
  NewServer {| sc_config := cfg; sc_privateKey := key |} = Ok s -> NewClient LIB cfg = Ok c -> (cfg_version cfg < 2 ^ 16)%N ->
  forall (work : nat -> list op) (t : nat) (tr1 tr2 : list event) (u : bytes) (id : N) (v : gslice) (σ : state),
  Server_BucketID s u = Ok id ->
  exec true (tr1 ++ EInvoke t (CGet (BucketIDToHex id)) :: tr2 ++ [EReturn t (RValue v)]) σ -> invoked_by t tr2 = [] -> returned_by t tr2 = 0 ->
  loading s work (tr1 ++ EInvoke t (CGet (BucketIDToHex id)) :: tr2) -> holdable (sl v) ->
  exists (parts : nat -> list cred) (db : list cred),
    (forall t', prefix_of (parts t') (stored_by s (work t')) /\ finished t' tr1 <= length (parts t') <= begun t' (tr1 ++ tr2))
    /\ merge parts db
    /\ forall (p : bytes) (r : Blind LIB) (k : bytes) (kv : Getter), kv (BucketIDToHex id) = Ok v ->
      (forall t', no_collision s (tried (work t')) u p) -> deriveBucketEntryKey s u p = Ok k ->
      run_query c s kv u p r = Ok (expected db u p).
Proof. exact @query_while_loading. Qed.
Print Assumptions C86_one_instant.

(** ** An insert that has returned is seen: if goroutine t' has finished its
    inserts [ops1] and [o] when the query calls Get, then the query finds every
    credential that [o] stored. *)
Theorem C86_returned_inserts_are_seen :
  forall (LIB : OPRF), OPRF_laws LIB ->
  forall (cfg : Config) (key : PrivateKey LIB) (s : Server LIB) (c : Client),
  NewServer {| sc_config := cfg; sc_privateKey := key |} = Ok s -> NewClient LIB cfg = Ok c -> (cfg_version cfg < 2 ^ 16)%N ->
  forall (work : nat -> list op) (t t' : nat) (ops1 ops2 : list op) (o : op) (tr1 tr2 : list event) (id : N) (v : gslice) (σ : state),
  Server_BucketID s (o_user o) = Ok id ->
  exec true (tr1 ++ EInvoke t (CGet (BucketIDToHex id)) :: tr2 ++ [EReturn t (RValue v)]) σ -> invoked_by t tr2 = [] -> returned_by t tr2 = 0 ->
  loading s work (tr1 ++ EInvoke t (CGet (BucketIDToHex id)) :: tr2) -> holdable (sl v) ->
  work t' = ops1 ++ o :: ops2 -> length (calls_of s (ops1 ++ [o])) <= finished t' tr1 ->
  snd (insert_calls s (o_user o) (o_pass o) (o_meta o) (o_num o) (o_incl o)) = Ok tt ->
  forall (p : bytes) (r : Blind LIB) (kv : Getter), listed (op_creds o) (o_user o) p -> kv (BucketIDToHex id) = Ok v ->
  (forall t', no_collision s (tried (work t')) (o_user o) p) ->
  exists st m, run_query c s kv (o_user o) p r = Ok (st, Some m) /\ st <> NotInBreach.
Proof.
  intros LIB laws cfg key s c Hs Hc Hv work t t' ops1 ops2 o tr1 tr2 id v σ Hid E NI NR Ld H W Fin Done p r kv (d & I & Du & Dp) Hkv N.
  destruct (C86_one_instant LIB laws cfg key s c Hs Hc Hv work t tr1 tr2 _ id v σ Hid E NI NR Ld H) as (parts & db & PT & M & Q).
  rewrite <- (success_stores s o Done) in I.
  assert (K : exists k, deriveBucketEntryKey s (o_user o) p = Ok k).
  { pose proof (insert_calls_stores s o) as F. apply (in_stored LIB s _ _ d F) in I as (call & _ & SA). destruct SA as (id' & e & _ & En & _).
    apply EncryptBucketEntry_inv in En as (k & K & _). exists k. congruence. }
  destruct K as (k & K). rewrite (Q p r k kv Hkv N K).
  assert (D : In d db).
  { apply (merge_has parts db t' d M). destruct (PT t') as [P1 [P2 _]].
    assert (P : prefix_of (stored_by s (ops1 ++ [o])) (parts t')).
    { eapply prefix_both; [|exact P1|].
      - rewrite W. exists (stored_by s ops2). unfold stored_by. rewrite <- flat_map_app, <- app_assoc. reflexivity.
      - rewrite (Forall2_len (calls_of_stores s (ops1 ++ [o]))). exact (Nat.le_trans _ _ _ Fin P2). }
    destruct P as [x ->]. apply in_or_app. left. unfold stored_by. rewrite flat_map_app. apply in_or_app. right. cbn [flat_map]. rewrite app_nil_r. exact I. }
  assert (Fd : exists d', find (same_cred (o_user o) p) db = Some d').
  { apply listed_find. exists d. split; [exact D|]. split; [exact Du|exact Dp]. }
  destruct Fd as (d' & Fd). unfold expected. rewrite Fd. eexists _, _. split; [reflexivity|].
  apply find_some in Fd as [I' _]. apply (merge_in _ _ _ M) in I' as (t0 & I'). destruct (PT t0) as [[x P1] _].
  apply (stored_flag s (work t0)). rewrite P1. apply in_or_app. left. exact I'.
Qed.
Print Assumptions C86_returned_inserts_are_seen.

(** ** What a query reports was stored by some goroutine, which had begun to
    store it before the Get returned. *)
Theorem C86_reports_only_what_was_inserted :
  forall (LIB : OPRF), OPRF_laws LIB ->
  forall (cfg : Config) (key : PrivateKey LIB) (s : Server LIB) (c : Client),
  NewServer {| sc_config := cfg; sc_privateKey := key |} = Ok s -> NewClient LIB cfg = Ok c -> (cfg_version cfg < 2 ^ 16)%N ->
  forall (work : nat -> list op) (t : nat) (tr1 tr2 : list event) (u : bytes) (id : N) (v : gslice) (σ : state),
  Server_BucketID s u = Ok id ->
  exec true (tr1 ++ EInvoke t (CGet (BucketIDToHex id)) :: tr2 ++ [EReturn t (RValue v)]) σ -> invoked_by t tr2 = [] -> returned_by t tr2 = 0 ->
  loading s work (tr1 ++ EInvoke t (CGet (BucketIDToHex id)) :: tr2) -> holdable (sl v) ->
  forall (p : bytes) (r : Blind LIB) (k : bytes) (kv : Getter), kv (BucketIDToHex id) = Ok v ->
  (forall t', no_collision s (tried (work t')) u p) -> deriveBucketEntryKey s u p = Ok k ->
  run_query c s kv u p r = Ok (NotInBreach, None)
  \/ exists (t' : nat) (d : cred), In d (firstn (begun t' (tr1 ++ tr2)) (stored_by s (work t'))) /\ d_user d = u /\ d_pass d = p
       /\ run_query c s kv u p r = Ok (flag_status (d_flag d), Some (d_meta d)).
Proof.
  intros LIB laws cfg key s c Hs Hc Hv work t tr1 tr2 u id v σ Hid E NI NR Ld H p r k kv Hkv N K.
  destruct (C86_one_instant LIB laws cfg key s c Hs Hc Hv work t tr1 tr2 _ id v σ Hid E NI NR Ld H) as (parts & db & PT & M & Q).
  rewrite (Q p r k kv Hkv N K). unfold expected. destruct (find (same_cred u p) db) as [d|] eqn:Fd; [right|left; reflexivity].
  apply find_some in Fd as [I S]. apply same_cred_iff, pair_inj in S as [S1 S2]. apply (merge_in _ _ _ M) in I as (t' & I). exists t', d.
  split; [|auto]. destruct (PT t') as [P1 [_ P2]]. rewrite (prefix_firstn _ _ P1) in I.
  rewrite <- (firstn_skipn (length (parts t')) (firstn _ _)), firstn_firstn, Nat.min_l by exact P2. apply in_or_app. left. exact I.
Qed.
Print Assumptions C86_reports_only_what_was_inserted.

(** ** Two queries, one after the other.  The bucket only grows between them, if
    nobody calls Put (the repository never does). *)
Theorem C86_buckets_only_grow :
  forall (id : bytes) (t1 t2 : nat) (tr1 tr2 tr3 tr4 : list event) (v1 v2 : gslice) (σ : state),
  exec true (tr1 ++ EInvoke t1 (CGet id) :: tr2 ++ EReturn t1 (RValue v1) :: tr3 ++ EInvoke t2 (CGet id) :: tr4 ++ [EReturn t2 (RValue v2)]) σ ->
  invoked_by t1 tr2 = [] -> returned_by t1 tr2 = 0 -> invoked_by t2 tr4 = [] -> returned_by t2 tr4 = 0 ->
  (forall t v, ~ In (EInvoke t (CPut id v)) (tr1 ++ tr2 ++ tr3 ++ tr4)) ->
  exists more, sl v2 = sl v1 ++ more.
Proof. intros id t1 t2 tr1 tr2 tr3 tr4 v1 v2 σ. exact (reads_grow id t1 t2 tr1 tr2 v1 tr3 tr4 v2 σ). Qed.
Print Assumptions C86_buckets_only_grow.

(** An answer that reports an entry stays, to the byte, also if two pairs have
    the same key check. *)
Theorem C86_found_answers_stay :
  forall (LIB : OPRF), OPRF_laws LIB ->
  forall (cfg : Config) (key : PrivateKey LIB) (s : Server LIB) (c : Client),
  NewServer {| sc_config := cfg; sc_privateKey := key |} = Ok s -> NewClient LIB cfg = Ok c -> (cfg_version cfg < 2 ^ 16)%N ->
  forall (t1 t2 : nat) (tr1 tr2 tr3 tr4 : list event) (u p : bytes) (r1 r2 : Blind LIB) (id : N) (k : bytes) (v1 v2 : gslice) (kv1 kv2 : Getter) (σ : state) (st : BreachStatus) (m : bytes),
  Server_BucketID s u = Ok id -> deriveBucketEntryKey s u p = Ok k ->
  exec true (tr1 ++ EInvoke t1 (CGet (BucketIDToHex id)) :: tr2 ++ EReturn t1 (RValue v1) :: tr3
             ++ EInvoke t2 (CGet (BucketIDToHex id)) :: tr4 ++ [EReturn t2 (RValue v2)]) σ ->
  invoked_by t1 tr2 = [] -> returned_by t1 tr2 = 0 -> invoked_by t2 tr4 = [] -> returned_by t2 tr4 = 0 ->
  (forall t v, ~ In (EInvoke t (CPut (BucketIDToHex id) v)) (tr1 ++ tr2 ++ tr3 ++ tr4)) ->
  holdable (sl v2) -> kv1 (BucketIDToHex id) = Ok v1 -> kv2 (BucketIDToHex id) = Ok v2 ->
  run_query c s kv1 u p r1 = Ok (st, Some m) -> run_query c s kv2 u p r2 = Ok (st, Some m).
Proof.
  intros LIB laws cfg key s c Hs Hc Hv t1 t2 tr1 tr2 tr3 tr4 u p r1 r2 id k v1 v2 kv1 kv2 σ st m Hid Hk E N1 N2 N3 N4 NP H K1 K2 Q.
  exact (query_answer_stays laws cfg key s c Hs Hc Hv kv1 kv2 u p r1 r2 id v1 v2 k st m Hid Hk K1 K2 (reads_grow _ _ _ _ _ _ _ _ _ _ E N1 N2 N3 N4 NP) H Q).
Qed.
Print Assumptions C86_found_answers_stay.

(** One goroutine inserts a pair, then two others ask for it, one after the
    other: the hypotheses of all the theorems are met, and both see the insert. *)
Definition one_insert (u p m : bytes) (t : nat) : list op := if (t =? 1)%nat then [mkOp u p m 0 false] else [].
Definition scene {LIB} (c : Client) (s : Server LIB) (u p m : bytes) (r1 r2 : Blind LIB) : Prop :=
  exists (id : N) (e : bytes) (v1 v2 : gslice) (σ σ' : state) (kv1 kv2 : Getter),
  let tr1 := [EInvoke 1 (CAppend (BucketIDToHex id) e); EReturn 1 RDone] in
  Server_BucketID s u = Ok id
  /\ exec true (tr1 ++ EInvoke 2 (CGet (BucketIDToHex id)) :: [] ++ [EReturn 2 (RValue v1)]) σ
  /\ exec true (tr1 ++ EInvoke 2 (CGet (BucketIDToHex id)) :: [] ++ EReturn 2 (RValue v1) :: []
                ++ EInvoke 3 (CGet (BucketIDToHex id)) :: [] ++ [EReturn 3 (RValue v2)]) σ'
  /\ loading s (one_insert u p m) (tr1 ++ EInvoke 2 (CGet (BucketIDToHex id)) :: [])
  /\ length (calls_of s ([] ++ one_insert u p m 1)) = 1 /\ finished 1 tr1 = 1
  /\ snd (insert_calls s u p m 0 false) = Ok tt
  /\ holdable (sl v1) /\ holdable (sl v2) /\ kv1 (BucketIDToHex id) = Ok v1 /\ kv2 (BucketIDToHex id) = Ok v2
  /\ (forall t, no_collision s (tried (one_insert u p m t)) u p)
  /\ run_query c s kv1 u p r1 = Ok (InBreach, Some m) /\ run_query c s kv2 u p r2 = Ok (InBreach, Some m).

Lemma one_insert_scene (LIB : OPRF) (laws : OPRF_laws LIB) cfg key (s : Server LIB) c u p m k id r1 r2 :
  NewServer {| sc_config := cfg; sc_privateKey := key |} = Ok s -> NewClient LIB cfg = Ok c -> (cfg_version cfg < 2 ^ 16)%N ->
  deriveBucketEntryKey s u p = Ok k -> Server_BucketID s u = Ok id -> (blen m <= 8160)%Z -> ConfigJson.password_variants p 0 = Ok [] ->
  scene c s u p m r1 r2.
Proof.
  intros Hs Hc Hv K B Lm V.
  assert (En : exists e, EncryptBucketEntry s u p Byte.x01 m = Ok e) by (eexists; eapply EncryptBucketEntry_ok; [exact K|reflexivity|exact Lm]).
  destruct En as (e & En).
  assert (IC : insert_calls s u p m 0 false = ([CAppend (BucketIDToHex id) e], Ok tt)).
  { unfold insert_calls, insert_calls_with. rewrite B. unfold entry_calls at 1. change MetadataBreachedPassword with Byte.x01. rewrite En. rewrite V. reflexivity. }
  exists id, e. set (c0 := CAppend (BucketIDToHex id) e) in *.
  destruct (log_runs [(1, c0)]) as (σ0 & X0 & I0). { repeat constructor. eexists _, _. reflexivity. }
  cbn [log_events flat_map fst snd app] in X0.
  destruct (get_alone _ _ 2 (BucketIDToHex id) X0 I0) as (σ1 & X1 & I1 & M1 & H1).
  destruct (get_alone _ _ 3 (BucketIDToHex id) X1 I1) as (σ2 & X2 & I2 & M2 & H2). rewrite M1, H1 in X2.
  assert (CO : calls_of s (one_insert u p m 1) = [c0]).
  { unfold calls_of, one_insert. cbn [Nat.eqb flat_map o_user o_pass o_meta o_num o_incl]. rewrite IC. reflexivity. }
  assert (Ld : loaded s (one_insert u p m) [EInvoke 1 c0; EReturn 1 RDone]).
  { intros t. destruct (Nat.eq_dec t 1) as [->|N].
    - rewrite CO. split; reflexivity.
    - unfold one_insert. rewrite (proj2 (Nat.eqb_neq t 1) N). unfold invoked_by, returned_by. cbn [flat_map filter]. rewrite (proj2 (Nat.eqb_neq 1 t)) by congruence. split; reflexivity. }
  assert (Z2 : forall t, 2 <= t -> one_insert u p m t = []).
  { intros t Lt. unfold one_insert. rewrite (proj2 (Nat.eqb_neq t 1)) by lia. reflexivity. }
  set (v := value_of (st_heap σ0) (st_map σ0 (BucketIDToHex id))) in *.
  assert (Hv1 : holdable (sl v)).
  { unfold holdable, blen, v. rewrite (C85_bucket_lengths LIB s (one_insert u p m) 2 _ _ Z2 X0 Ld).
    change (flat_map (one_insert u p m) (seq 0 2)) with [mkOp u p m 0 false].
    cbn [run_inserts]. rewrite insert_calls_insert. cbn [o_user o_pass o_meta o_num o_incl]. rewrite IC. cbn [fst fold_left apply c0].
    rewrite lookup_append, bytes_eqb_refl. cbn [newKVStore kv_lookup sl app]. apply entry_size in En. unfold blen in Lm. lia. }
  assert (NC : forall t, no_collision s (tried (one_insert u p m t)) u p).
  { intros t d k1 k2 I Ne. exfalso. apply Ne. unfold one_insert in I. destruct (t =? 1)%nat; [|destruct I].
    unfold tried, op_creds in I. cbn [flat_map o_user o_pass o_meta o_num o_incl] in I. rewrite V in I. cbn [insert_creds map app] in I. destruct I as [<-|[]]. reflexivity. }
  exists v, v, σ1, σ2, (fun _ => Ok v), (fun _ => Ok v). cbv zeta.
  assert (Ldg : loading s (one_insert u p m) ([EInvoke 1 c0; EReturn 1 RDone] ++ EInvoke 2 (CGet (BucketIDToHex id)) :: [])).
  { intros t. exists []. rewrite app_nil_r. destruct (Ld t) as [Lt _]. rewrite <- Lt, invoked_app, filter_app.
    assert (Z : filter (fun c => negb (is_get c)) (invoked_by t [EInvoke 2 (CGet (BucketIDToHex id))]) = []).
    { unfold invoked_by. cbn [flat_map]. destruct (2 =? t)%nat; reflexivity. }
    rewrite Z, app_nil_r. reflexivity. }
  assert (Q1 : forall r, run_query c s (fun _ => Ok v) u p r = Ok (InBreach, Some m)).
  { intros r.
    destruct (C86_returned_inserts_are_seen LIB laws cfg key s c Hs Hc Hv (one_insert u p m) 2 1 [] [] (mkOp u p m 0 false)
      [EInvoke 1 c0; EReturn 1 RDone] [] id v σ1 B X1 eq_refl eq_refl Ldg Hv1 eq_refl) with (p := p) (r := r) (kv := fun _ : bytes => Ok v) as (st & m' & Q & _).
    - cbn [app]. change [mkOp u p m 0 false] with (one_insert u p m 1). rewrite CO. cbn. lia.
    - cbn [o_user o_pass o_meta o_num o_incl]. rewrite IC. reflexivity.
    - exists (mkCred u p Byte.x01 m). unfold op_creds. cbn [o_user o_pass o_meta o_num o_incl]. rewrite V. split; [left|split]; reflexivity.
    - reflexivity.
    - exact NC.
    - cbn [o_user] in Q.
      destruct (C86_reports_only_what_was_inserted LIB laws cfg key s c Hs Hc Hv (one_insert u p m) 2 [EInvoke 1 c0; EReturn 1 RDone] [] u id v σ1
        B X1 eq_refl eq_refl Ldg Hv1 p r k (fun _ => Ok v) eq_refl NC K) as [R|(t' & d & I & _ & _ & R)]; [congruence|].
      assert (d = mkCred u p Byte.x01 m) as ->; [|exact R].
      assert (J : In d (stored_by s (one_insert u p m t'))).
      { rewrite <- (firstn_skipn (begun t' ([EInvoke 1 c0; EReturn 1 RDone] ++ [])) (stored_by s (one_insert u p m t'))). apply in_or_app. left. exact I. }
      apply stored_by_tried in J. unfold one_insert in J. destruct (t' =? 1)%nat; [|destruct J].
      unfold tried, op_creds in J. cbn [flat_map o_user o_pass o_meta o_num o_incl] in J. rewrite V in J. cbn [insert_creds map app] in J. destruct J as [<-|[]]. reflexivity. }
  split; [exact B|]. split; [exact X1|]. split; [exact X2|]. split; [exact Ldg|]. split; [cbn [app]; rewrite CO; reflexivity|].
  split; [reflexivity|]. split; [rewrite IC; reflexivity|]. split; [exact Hv1|]. split; [exact Hv1|]. split; [reflexivity|]. split; [reflexivity|]. split; [exact NC|]. split; apply Q1.
Qed.

Example C86_example : @scene toy_OPRF ex_client ex_server (str "alice") (str "pw") (str "m") 9%N 7%N.
Proof.
  destruct ex_server_ok as (Hs & Hc & Hv & laws). destruct alice_stored as [(k & K) (id & B)].
  eapply (one_insert_scene toy_OPRF laws); [exact Hs|exact Hc|exact Hv|exact K|exact B|cbn; lia|].
  destruct (VariantProofs.variants_count (str "pw") 0) as (vs & E & L); [lia..|]. rewrite E. destruct vs; [reflexivity|cbn [length] in L; lia].
Qed.
