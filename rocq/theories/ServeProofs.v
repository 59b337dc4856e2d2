(** * Lemmas for C87: requests served at the same time. *)
From Coq Require Import Lia.
From Verif Require Import Base BaseProofs Common Oprf Server Client KV KVProofs Json ConfigJson Demo SpecDemo SpecConc KVConc ConcProofs ConcHistory InsertCalls
  SpecParallel ParallelProofs SpecServe.

Lemma gets_filtered tr : only_gets tr -> forall t, filter (fun c => negb (is_get c)) (invoked_by t tr) = [].
Proof.
  induction tr as [|e tr IH]; intros G t; [reflexivity|].
  assert (G' : only_gets tr) by (intros t' c I; apply (G t' c); right; exact I).
  unfold invoked_by in *. cbn [flat_map]. rewrite filter_app, IH by exact G'. rewrite app_nil_r.
  destruct e as [| t' c| |]; try reflexivity. destruct (t' =? t)%nat; [|reflexivity]. cbn [filter]. rewrite (G t' c) by (left; reflexivity). reflexivity.
Qed.

Lemma prefix_filter_nil {A} (f : A -> bool) a b : prefix_of a b -> filter f b = [] -> filter f a = [].
Proof. intros [r ->] H. rewrite filter_app in H. apply app_eq_nil in H. apply H. Qed.

(** The calls that take effect before a Get after the load: the load's and Gets. *)
Lemma after_load {LIB} (s : Server LIB) work tr1 tr2 tr3 L : loaded s work tr1 -> only_gets tr2 -> only_gets tr3 ->
  between L (tr1 ++ tr2) ((tr1 ++ tr2) ++ tr3) -> forall t, of_thread t (nonget L) = calls_of s (work t).
Proof.
  intros Ld G2 G3 B t. destruct (Ld t) as [C R]. destruct (B t) as [Le P].
  rewrite returned_app in Le. rewrite !invoked_app in P. rewrite <- app_assoc in P. rewrite of_thread_nonget, <- C.
  destruct P as [r P].
  assert (E : of_thread t L = invoked_by t tr1 ++ skipn (length (invoked_by t tr1)) (of_thread t L)).
  { rewrite <- (firstn_skipn (length (invoked_by t tr1)) (of_thread t L)) at 1. f_equal.
    transitivity (firstn (length (invoked_by t tr1)) (of_thread t L ++ r)).
    - rewrite firstn_app. replace (length (invoked_by t tr1) - length (of_thread t L)) with 0 by lia. rewrite firstn_O, app_nil_r. reflexivity.
    - rewrite <- P, firstn_app, Nat.sub_diag, firstn_all, firstn_O, app_nil_r. reflexivity. }
  rewrite E, filter_app. rewrite <- (app_nil_r (filter _ (invoked_by t tr1))) at 2. f_equal.
  apply (prefix_filter_nil _ _ (invoked_by t tr2 ++ invoked_by t tr3)).
  - exists r. rewrite E, <- app_assoc in P. apply app_inv_head in P. exact P.
  - rewrite filter_app, !gets_filtered by assumption. reflexivity.
Qed.

Lemma only_main (L : list (nat * call)) : (forall t, t <> 0 -> of_thread t L = []) -> L = map (pair 0) (of_thread 0 L).
Proof.
  induction L as [|[t c] L IH]; intros H; [reflexivity|].
  assert (T : t = 0).
  { destruct (Nat.eq_dec t 0) as [->|N]; [reflexivity|]. specialize (H t N). cbn [of_thread flat_map fst snd] in H. rewrite Nat.eqb_refl in H. discriminate. }
  subst t. cbn [of_thread flat_map fst snd Nat.eqb app map]. f_equal. apply IH. intros t N. specialize (H t N).
  cbn [of_thread flat_map fst] in H. apply app_eq_nil in H. apply H.
Qed.

Lemma run_calls {LIB} (s : Server LIB) ops : forall store,
  fold_left (fun kv p => fst (apply kv (snd p))) (map (pair 0) (calls_of s ops)) store = run_inserts s store ops.
Proof.
  induction ops as [|o ops IH]; intros store; [reflexivity|]. unfold calls_of in *. cbn [flat_map run_inserts].
  rewrite map_app, fold_left_app, IH. f_equal. rewrite insert_calls_insert. cbn [fst].
  generalize (fst (insert_calls s (o_user o) (o_pass o) (o_meta o) (o_num o) (o_incl o))). intros l.
  revert store. induction l as [|c l IHl]; intros store; [reflexivity|]. cbn [map fold_left snd]. apply IHl.
Qed.

Lemma served_value {LIB} (s : Server LIB) ops tr1 tr2 tr3 t id v σ :
  exec true ((tr1 ++ tr2) ++ EInvoke t (CGet id) :: tr3 ++ [EReturn t (RValue v)]) σ ->
  loaded s (main_inserts ops) tr1 -> only_gets tr2 -> only_gets tr3 -> invoked_by t tr3 = [] -> returned_by t tr3 = 0 ->
  v = kv_lookup (run_inserts s newKVStore ops) id.
Proof.
  intros E Ld G2 G3 NI NR. destruct (get_instant _ _ _ _ _ _ E NI NR) as (L & -> & B). f_equal.
  assert (G3' : only_gets (EInvoke t (CGet id) :: tr3)).
  { intros t' c [I|I]; [|exact (G3 t' c I)]. assert (c = CGet id) by congruence. subst c. reflexivity. }
  pose proof (after_load s (main_inserts ops) tr1 tr2 _ L Ld G2 G3' B) as O.
  unfold replay. rewrite <- replay_nonget, (only_main (nonget L)).
  - rewrite O. apply run_calls.
  - intros t' N. rewrite O. unfold main_inserts. rewrite (proj2 (Nat.eqb_neq t' 0) N). reflexivity.
Qed.

(** A page depends on the store only by the bucket that the body names. *)
Lemma handle_one_key {LIB} (s : Server LIB) rq (get get' : Getter) : get (rq_bucketID rq) = get' (rq_bucketID rq) -> HandleRequest s rq get = HandleRequest s rq get'.
Proof. intros H. unfold HandleRequest. rewrite H. reflexivity. Qed.
Lemma evaluate_one_key {LIB} (srv : server LIB) store body id : names_bucket body id -> kv_lookup store id = kv_lookup (kv srv) id ->
  handleEvaluate (with_store srv store) (Ok body) = handleEvaluate srv (Ok body).
Proof.
  unfold names_bucket, handleEvaluate. intros N H. cbn [with_store migpServer kv]. destruct (ClientRequest_unmarshal body) as [rq err]. cbn [fst] in N.
  rewrite (handle_one_key (migpServer srv) rq (kv_Get store) (kv_Get (kv srv))); [reflexivity|]. subst id. unfold kv_Get. rewrite H. reflexivity.
Qed.
Lemma mux_one_key {LIB} (srv : server LIB) store path body id : names_bucket body id -> kv_lookup store id = kv_lookup (kv srv) id ->
  mux (with_store srv store) path (Ok body) = mux srv path (Ok body).
Proof.
  intros N H. unfold mux, handler. rewrite (evaluate_one_key srv store body id N H). reflexivity.
Qed.

(** A Get while others have theirs open. *)
Lemma get_beside tr σ t id : exec true tr σ -> th_pc (st_thr σ t) = Idle -> st_writer σ = None ->
  exists σ', exec true (tr ++ EInvoke t (CGet id) :: [] ++ [EReturn t (RValue (value_of (st_heap σ) (st_map σ id)))]) σ'.
Proof.
  intros E I W.
  pose proof (exec_next true _ _ _ _ E (st_get_call true σ t id I)) as E1. cbn [snoc] in E1.
  match type of E1 with exec _ ?T ?S => set (σ1 := S) in *; assert (A1 : th_pc (st_thr σ1 t) = GetLock id) by (unfold σ1; cbn [st_thr]; unfold go; rewrite upd_same; reflexivity) end.
  pose proof (exec_next true _ _ _ _ E1 (st_get_lock true σ1 t id A1 W)) as E2. cbn [snoc] in E2.
  match type of E2 with exec _ _ ?S => set (σ2 := S) in *; assert (A2 : th_pc (st_thr σ2 t) = GetLoad id) by (unfold σ2; cbn [st_thr]; unfold go; rewrite upd_same; reflexivity) end.
  pose proof (exec_next true _ _ _ _ E2 (st_get_load true σ2 t id A2)) as E3. cbn [snoc] in E3.
  match type of E3 with exec _ _ ?S => set (σ3 := S) in *; assert (A3 : th_pc (st_thr σ3 t) = GetUnlock (st_map σ2 id)) by (unfold σ3; cbn [st_thr]; unfold go; rewrite upd_same; reflexivity) end.
  pose proof (exec_next true _ _ _ _ E3 (st_get_unlock true σ3 t _ A3)) as E4. cbn [snoc] in E4.
  match type of E4 with exec _ _ ?S => set (σ4 := S) in *; assert (A4 : th_pc (st_thr σ4 t) = RetValue (st_map σ2 id)) by (unfold σ4; cbn [st_thr]; unfold go; rewrite upd_same; reflexivity) end.
  pose proof (exec_next true _ _ _ _ E4 (st_ret_value true σ4 t _ A4)) as E5. cbn [snoc] in E5. rewrite <- app_assoc in E5.
  eexists. exact E5.
Qed.
