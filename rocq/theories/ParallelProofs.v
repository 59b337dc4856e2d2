(** * Lemmas for C85. *)
From Coq Require Import Lia.
From Verif Require Import Base BaseProofs Common Oprf Server Client KV KVProofs Mutator ConfigJson SpecEntry SpecProtocol ProtocolProofs Demo SpecDemo DemoProofs
  OrderProofs SpecConc KVConc ConcProofs ConcHistory ConcRun ConcServer InsertCalls SpecParallel.

Section Calls.
Context {LIB : OPRF}.
Implicit Type s : Server LIB.

Lemma entry_calls_prefix s u p f m id r : Server_BucketID s u = Ok id ->
  (exists e, entry_calls s (BucketIDToHex id) u p f m = ([CAppend (BucketIDToHex id) e], Ok tt)
     /\ stored_as s (mkCred u p f m) (CAppend (BucketIDToHex id) e)
     /\ stored_prefix s (mkCred u p f m :: r) = mkCred u p f m :: stored_prefix s r)
  \/ (fst (entry_calls s (BucketIDToHex id) u p f m) = [] /\ is_ok (snd (entry_calls s (BucketIDToHex id) u p f m)) = false
     /\ stored_prefix s (mkCred u p f m :: r) = []).
Proof.
  intros H. unfold entry_calls. cbn [stored_prefix d_user d_pass d_flag d_meta]. rewrite H.
  destruct (EncryptBucketEntry s u p f m) as [e|e|e] eqn:E; [left; exists e|right; auto..].
  split; [reflexivity|]. split; [|reflexivity]. exists id, e. auto.
Qed.

Lemma variants_calls_prefix s u m id vs r rest : Server_BucketID s u = Ok id ->
  Forall2 (stored_as s) (stored_prefix s r) (fst rest) ->
  Forall2 (stored_as s) (stored_prefix s (map (fun v => mkCred u v Byte.x02 m) vs ++ r))
    (fst (then_calls (variants_calls s (BucketIDToHex id) u vs m) rest)).
Proof.
  intros H R. induction vs as [|v vs IH]; cbn [map app variants_calls].
  - unfold then_calls. destruct rest. exact R.
  - destruct (entry_calls_prefix s u v Byte.x02 m id (map (fun v => mkCred u v Byte.x02 m) vs ++ r) H) as [(e & E & SA & P)|(E1 & E2 & P)]; rewrite P.
    + change MetadataSimilarPassword with Byte.x02. rewrite E. unfold then_calls at 2. destruct (variants_calls s _ u vs m) as [l1 r1].
      revert IH. unfold then_calls. destruct r1 as [x|x|x]; [destruct rest as [l2 r2]|..]; cbn [fst app]; intros IH; constructor; assumption.
    + change MetadataSimilarPassword with Byte.x02. destruct (entry_calls s _ u v Byte.x02 m) as [l0 r0]. cbn [fst snd] in E1, E2. subst l0.
      destruct r0; [discriminate|constructor..].
Qed.

Lemma insert_calls_stores s (o : op) :
  Forall2 (stored_as s) (op_stores s o) (fst (insert_calls s (o_user o) (o_pass o) (o_meta o) (o_num o) (o_incl o))).
Proof.
  unfold op_stores, op_creds, insert_calls, insert_calls_with. destruct o as [u p m n incl]. cbn [o_user o_pass o_meta o_num o_incl].
  destruct (Server_BucketID s u) as [id| |] eqn:Hid.
  2,3: destruct (password_variants p n); unfold insert_creds; cbn [stored_prefix d_user app]; rewrite Hid; constructor.
  assert (F : forall r rest, Forall2 (stored_as s) (stored_prefix s r) (fst rest) ->
    Forall2 (stored_as s) (stored_prefix s (mkCred u p Byte.x01 m :: r)) (fst (then_calls (entry_calls s (BucketIDToHex id) u p MetadataBreachedPassword m) rest))).
  { intros r rest R. change MetadataBreachedPassword with Byte.x01.
    destruct (entry_calls_prefix s u p Byte.x01 m id r Hid) as [(e & E & SA & P)|(E1 & E2 & P)]; rewrite P.
    - rewrite E. unfold then_calls. destruct rest. cbn [fst app]. constructor; assumption.
    - destruct (entry_calls s _ u p Byte.x01 m) as [l0 r0]. cbn [fst snd] in E1, E2. subst l0. destruct r0; [discriminate|constructor..]. }
  destruct (password_variants p n) as [vs|e|e]; [|apply F; constructor..].
  unfold insert_creds. apply F. apply variants_calls_prefix; [exact Hid|].
  destruct incl; [|constructor]. change MetadataBreachedUsername with Byte.x03.
  destruct (entry_calls_prefix s u [] Byte.x03 m id [] Hid) as [(e & E & SA & P)|(E1 & E2 & P)]; rewrite P; [rewrite E|rewrite E1]; repeat constructor; exact SA.
Qed.

Lemma calls_of_stores s ops : Forall2 (stored_as s) (stored_by s ops) (calls_of s ops).
Proof. unfold stored_by, calls_of. induction ops as [|o ops IH]; [constructor|]. cbn [flat_map]. apply Forall2_app; [apply insert_calls_stores|exact IH]. Qed.

(** The result and the store of the sequential model. *)
Lemma entry_calls_add s store hex u p f m :
  add_entry s store hex u p f m
  = (fold_left (fun kv c => fst (apply kv c)) (fst (entry_calls s hex u p f m)) store, snd (entry_calls s hex u p f m)).
Proof. unfold add_entry, entry_calls. destruct (EncryptBucketEntry s u p f m); reflexivity. Qed.

Lemma variants_calls_add s hex u m vs : forall store,
  add_variants s store hex u vs m
  = (fold_left (fun kv c => fst (apply kv c)) (fst (variants_calls s hex u vs m)) store, snd (variants_calls s hex u vs m)).
Proof.
  induction vs as [|v vs IH]; intros store; [reflexivity|]. cbn [add_variants variants_calls]. rewrite entry_calls_add.
  destruct (entry_calls s hex u v MetadataSimilarPassword m) as [l [[]|e|e]]; cbn [fst snd then_calls]; [|reflexivity..].
  rewrite IH. destruct (variants_calls s hex u vs m) as [l' r']. cbn [fst snd]. rewrite fold_left_app. reflexivity.
Qed.

Lemma insert_calls_insert s store (o : op) :
  do_insert s store o
  = (fold_left (fun kv c => fst (apply kv c)) (fst (insert_calls s (o_user o) (o_pass o) (o_meta o) (o_num o) (o_incl o))) store,
     snd (insert_calls s (o_user o) (o_pass o) (o_meta o) (o_num o) (o_incl o))).
Proof.
  unfold do_insert, demo_insert, insert_with, insert_calls, insert_calls_with. destruct o as [u p m n incl]. cbn [o_user o_pass o_meta o_num o_incl].
  destruct (Server_BucketID s u) as [id| |]; [|reflexivity..]. rewrite entry_calls_add.
  destruct (entry_calls s (BucketIDToHex id) u p MetadataBreachedPassword m) as [l [[]|e|e]]; cbn [fst snd then_calls]; [|reflexivity..].
  destruct (password_variants p n) as [vs|e|e]; cbn [fst snd]; rewrite ?app_nil_r; [|reflexivity..].
  rewrite variants_calls_add.
  destruct (variants_calls s (BucketIDToHex id) u vs m) as [l' [[]|e|e]]; cbn [fst snd then_calls]; rewrite ?fold_left_app; [|reflexivity..].
  destruct incl; [|cbn [fst snd]; rewrite app_nil_r, fold_left_app; reflexivity].
  rewrite entry_calls_add. destruct (entry_calls s (BucketIDToHex id) u [] MetadataBreachedUsername m) as [l'' r'']. cbn [fst snd].
  rewrite !fold_left_app. reflexivity.
Qed.
End Calls.

(** ** From an execution to a merge *)
Section Merge.
Context {LIB : OPRF}.
Implicit Type s : Server LIB.

Definition nonget (L : list (nat * call)) : list (nat * call) := filter (fun x => negb (is_get (snd x))) L.

Lemma of_thread_filter t L : of_thread t L = map snd (filter (fun x => (fst x =? t)%nat) L).
Proof. induction L as [|[t' c] L IH]; [reflexivity|]. cbn [of_thread flat_map filter fst snd]. fold (of_thread t L). rewrite IH. destruct (t' =? t)%nat; reflexivity. Qed.
Lemma of_thread_nonget t L : of_thread t (nonget L) = filter (fun c => negb (is_get c)) (of_thread t L).
Proof.
  induction L as [|[t' c] L IH]; [reflexivity|]. unfold nonget in *. cbn [filter snd]. destruct (negb (is_get c)) eqn:G; cbn [of_thread flat_map fst snd app];
    fold (of_thread t L) (of_thread t (filter (fun x => negb (is_get (snd x))) L)); rewrite IH; destruct (t' =? t)%nat; cbn [app filter]; rewrite ?G; reflexivity.
Qed.
Lemma replay_nonget L : forall kv, fold_left (fun kv p => fst (apply kv (snd p))) (nonget L) kv = fold_left (fun kv p => fst (apply kv (snd p))) L kv.
Proof.
  unfold nonget. induction L as [|[t' c] L IH]; intros kv; [reflexivity|]. cbn [filter snd]. destruct c; cbn [is_get negb fold_left snd fst]; rewrite IH; reflexivity.
Qed.

(** The credentials of a log, tagged with the goroutines. *)
Lemma tagged_creds s work (L : list (nat * call)) :
  (forall t, of_thread t L = calls_of s (work t)) ->
  exists db : list (nat * cred), Forall2 (fun d c => fst d = fst c /\ stored_as s (snd d) (snd c)) db L
    /\ forall t, map snd (filter (fun x => (fst x =? t)%nat) db) = stored_by s (work t).
Proof.
  intros H.
  assert (G : forall L (parts : nat -> list cred), (forall t, Forall2 (stored_as s) (parts t) (of_thread t L)) ->
    exists db : list (nat * cred), Forall2 (fun d c => fst d = fst c /\ stored_as s (snd d) (snd c)) db L
      /\ forall t, map snd (filter (fun x => (fst x =? t)%nat) db) = parts t).
  { clear. induction L as [|[t c] L IH]; intros parts F.
    - exists []. split; [constructor|]. intros t. specialize (F t). inversion F. reflexivity.
    - pose proof (F t) as Ft. cbn [of_thread flat_map fst snd] in Ft. rewrite Nat.eqb_refl in Ft. cbn [app] in Ft.
      inversion Ft as [|d c' ds cs SA R E1 E2]; subst.
      destruct (IH (fun t' => if (t' =? t)%nat then ds else parts t')) as (db & FD & P).
      { intros t'. destruct (Nat.eqb_spec t' t) as [->|N]; [exact R|]. specialize (F t'). cbn [of_thread flat_map fst snd] in F.
        destruct (Nat.eqb_spec t t') as [->|N']; [contradiction|]. exact F. }
      exists ((t, d) :: db). split; [constructor; [split; [reflexivity|exact SA]|exact FD]|].
      intros x. cbn [filter fst]. specialize (P x). cbv beta in P. destruct (Nat.eq_dec x t) as [Q|N].
      + subst x. rewrite Nat.eqb_refl in P |- *. cbn [map snd]. rewrite P. congruence.
      + rewrite (proj2 (Nat.eqb_neq x t) N) in P. rewrite (proj2 (Nat.eqb_neq t x)) by congruence. exact P. }
  apply (G L (fun t => stored_by s (work t))). intros t. rewrite H. apply calls_of_stores.
Qed.

Lemma log_stores s (db : list (nat * cred)) L : Forall2 (fun d c => fst d = fst c /\ stored_as s (snd d) (snd c)) db L ->
  forall kv, store_all s kv (map snd db) = Ok (fold_left (fun kv p => fst (apply kv (snd p))) L kv).
Proof.
  induction 1 as [|d c db L [_ SA] F IH]; intros kv; [reflexivity|]. cbn [map store_all fold_left].
  destruct SA as (id & e & B & EN & ->). rewrite B. cbn [bind]. rewrite EN. cbn [bind apply fst]. apply IH.
Qed.

Lemma loaded_merge s work tr σ : exec true tr σ -> loaded s work tr ->
  exists db kv, merge (fun t => stored_by s (work t)) db /\ store_all s newKVStore db = Ok kv
    /\ forall id, value_of (st_heap σ) (st_map σ id) = kv_lookup kv id.
Proof.
  intros E Ld. destruct (all_done tr σ E (fun t => proj2 (Ld t))) as (L & T & V).
  destruct (tagged_creds s work (nonget L)) as (db & FD & P).
  { intros t. rewrite of_thread_nonget, T. apply Ld. }
  exists (map snd db), (replay L). split; [exists db; auto|]. split; [|exact V].
  rewrite (log_stores s db _ FD), replay_nonget. reflexivity.
Qed.
End Merge.

(** ** From a merge to an execution *)
Definition all_idle (σ : state) : Prop := forall t, th_pc (st_thr σ t) = Idle.

Lemma idle_free tr σ strict : exec strict tr σ -> all_idle σ -> st_writer σ = None /\ st_readers σ = [].
Proof.
  intros E I. pose proof (exec_locks _ _ _ E) as L. split.
  - destruct (st_writer σ) as [t|] eqn:W; [|reflexivity]. apply (l_write _ L) in W. rewrite I in W. discriminate.
  - destruct (st_readers σ) as [|t r] eqn:R; [reflexivity|]. assert (X : In t (st_readers σ)) by (rewrite R; left; reflexivity).
    apply (l_read _ L) in X. rewrite I in X. discriminate.
Qed.

(** Only thread [t] is not idle. *)
Definition alone (σ : state) (t : nat) (p : pc) : Prop := th_pc (st_thr σ t) = p /\ forall t', t' <> t -> th_pc (st_thr σ t') = Idle.
Lemma go_alone σ t p q m w r h : alone σ t p -> alone (mkState m w r h (go σ t q)) t q.
Proof.
  intros [A B]. split; cbn [st_thr]; unfold go.
  - rewrite upd_same. reflexivity.
  - intros t' N. rewrite upd_other by congruence. apply B, N.
Qed.

Lemma append_alone tr σ t id v : exec true tr σ -> all_idle σ ->
  exists σ', exec true (tr ++ [EInvoke t (CAppend id v); EReturn t RDone]) σ' /\ all_idle σ'.
Proof.
  intros E I. destruct (idle_free _ _ _ E I) as [W R].
  assert (A0 : alone σ t Idle) by (split; [apply I|intros; apply I]).
  (* the call *)
  pose proof (exec_next true _ _ _ _ E (st_app_call true σ t id v (I t))) as E1. cbn [snoc] in E1.
  assert (A1 := go_alone σ t Idle (AppLock id v) (st_map σ) (st_writer σ) (st_readers σ) (st_heap σ) A0).
  match type of E1 with exec _ ?T ?S => set (σ1 := S) in *; set (tr1 := T) in * end.
  pose proof (exec_next true _ _ _ _ E1 (st_app_lock true σ1 t id v (proj1 A1) W R)) as E2. cbn [snoc] in E2.
  match type of E2 with exec _ _ ?S => set (σ2 := S) in *; assert (A2 : alone σ2 t (AppLoad id v)) by (eapply go_alone; exact A1) end.
  pose proof (exec_next true _ _ _ _ E2 (st_app_load true σ2 t id v (proj1 A2))) as E3. cbn [snoc] in E3.
  match type of E3 with exec _ _ ?S => set (σ3 := S) in *; assert (A3 : alone σ3 t (AppGrow id v (st_map σ2 id))) by (eapply go_alone; exact A2) end.
  (* the bytes *)
  assert (Fill : forall n a cap base j σ, exec true tr1 σ -> alone σ t (AppFill id v a cap base j) -> n + j = length v ->
    exists σ' new, exec true tr1 σ' /\ alone σ' t (AppStore id v new)).
  { clear. induction n as [|n IH]; intros a cap base j σ E A L.
    - cbn in L. subst j. pose proof (exec_next true _ _ _ _ E (st_app_filled true σ t id v a cap base (proj1 A))) as E'. cbn [snoc] in E'.
      eexists _, _. split; [exact E'|eapply go_alone; exact A].
    - destruct (nth_error v j) as [b|] eqn:B; [|apply nth_error_None in B; lia].
      pose proof (exec_next true _ _ _ _ E (st_app_fill true σ t id v a cap base j b (proj1 A) B)) as E'. cbn [snoc] in E'.
      eapply (IH a cap base (S j)); [exact E'|eapply go_alone; exact A|lia]. }
  assert (St : exists σ' new, exec true tr1 σ' /\ alone σ' t (AppStore id v new)).
  { set (old := st_map σ2 id) in *. destruct (Nat.le_gt_cases (len0 old + length v) (cap0 old)) as [C|C].
    - destruct old as [sl0|] eqn:O.
      + pose proof (exec_next true _ _ _ _ E3 (st_app_inplace true σ3 t id v sl0 (proj1 A3) C)) as E4. cbn [snoc] in E4.
        eapply (Fill (length v)); [exact E4|eapply go_alone; exact A3|lia].
      + cbn in C. assert (v = []) as -> by (destruct v; [reflexivity|cbn in C; lia]).
        pose proof (exec_next true _ _ _ _ E3 (st_app_nil true σ3 t id (proj1 A3))) as E4. cbn [snoc] in E4.
        eexists _, _. split; [exact E4|eapply go_alone; exact A3].
    - destruct (alloc (st_heap σ3) (sl (value_of (st_heap σ3) old) ++ zeros (length v + 0))) as [h a] eqn:Al.
      pose proof (exec_next true _ _ _ _ E3 (st_app_grow true σ3 t id v old 0 h a (proj1 A3) C Al)) as E4. cbn [snoc] in E4.
      eapply (Fill (length v)); [exact E4|eapply go_alone; exact A3|lia]. }
  destruct St as (σ4 & new & E4 & A4).
  pose proof (exec_next true _ _ _ _ E4 (st_app_store true σ4 t id v new (proj1 A4))) as E5. cbn [snoc] in E5.
  match type of E5 with exec _ _ ?S => set (σ5 := S) in *; assert (A5 : alone σ5 t AppUnlock) by (eapply go_alone; exact A4) end.
  pose proof (exec_next true _ _ _ _ E5 (st_app_unlock true σ5 t (proj1 A5))) as E6. cbn [snoc] in E6.
  match type of E6 with exec _ _ ?S => set (σ6 := S) in *; assert (A6 : alone σ6 t RetDone) by (eapply go_alone; exact A5) end.
  pose proof (exec_next true _ _ _ _ E6 (st_ret_done true σ6 t (proj1 A6))) as E7. cbn [snoc] in E7. unfold tr1 in E7. rewrite <- app_assoc in E7. cbn [app] in E7.
  eexists. split; [exact E7|].
  intros t'. destruct (Nat.eq_dec t' t) as [->|N].
  - match goal with |- th_pc (st_thr ?S t) = _ => assert (A7 : alone S t Idle) by (eapply go_alone; exact A6) end. exact (proj1 A7).
  - cbn [st_thr]. unfold go. rewrite upd_other by congruence. apply A6, N.
Qed.

Definition log_events (L : list (nat * call)) : list event := flat_map (fun x => [EInvoke (fst x) (snd x); EReturn (fst x) RDone]) L.
Lemma log_runs L : Forall (fun x => exists id v, snd x = CAppend id v) L -> exists σ, exec true (log_events L) σ /\ all_idle σ.
Proof.
  induction L as [|[t c] L IH] using rev_ind; intros F.
  - exists init. split; [constructor|intros t; reflexivity].
  - apply Forall_app in F as [F Fc]. apply Forall_inv in Fc as (id & v & Ec). cbn [snd] in Ec. subst c. destruct (IH F) as (σ & E & I).
    destruct (append_alone _ _ t id v E I) as (σ' & E' & I'). exists σ'. split; [|exact I'].
    unfold log_events in *. rewrite flat_map_app. exact E'.
Qed.
Lemma log_invoked t L : invoked_by t (log_events L) = of_thread t L.
Proof.
  induction L as [|[t' c] L IH]; [reflexivity|]. unfold log_events in *. cbn [flat_map app]. unfold invoked_by in *. cbn [flat_map fst snd app of_thread].
  rewrite IH. reflexivity.
Qed.
Lemma log_returned t L : returned_by t (log_events L) = length (of_thread t L).
Proof.
  induction L as [|[t' c] L IH]; [reflexivity|]. unfold log_events, returned_by in *. cbn [flat_map filter fst snd app of_thread].
  destruct (t' =? t)%nat; cbn [length app]; rewrite IH; reflexivity.
Qed.

(** Calls one after the other take effect in this order. *)
Lemma log_events_snoc L t c : log_events (L ++ [(t, c)]) = (log_events L ++ [EInvoke t c]) ++ [EReturn t RDone].
Proof. unfold log_events. rewrite flat_map_app. cbn [flat_map fst snd app]. rewrite <- app_assoc. reflexivity. Qed.
Lemma log_events_last L tr e : log_events L = tr ++ [e] -> exists L' t c, L = L' ++ [(t, c)] /\ e = EReturn t RDone /\ tr = log_events L' ++ [EInvoke t c].
Proof.
  destruct L as [|[t c] L' _] using rev_ind; [destruct tr; discriminate|]. rewrite log_events_snoc. intros E. apply app_inj_tail in E as [<- <-]. eauto 6.
Qed.
Lemma seq_log tr a : spec_exec tr a ->
  (forall L, tr = log_events L -> (forall t, sp_status a t = SOut) /\ sp_log a = L)
  /\ (forall L t c, tr = log_events L ++ [EInvoke t c] -> (forall t', t' <> t -> sp_status a t' = SOut)
        /\ (sp_status a t = SCalled c /\ sp_log a = L \/ (exists r, sp_status a t = SDone r) /\ sp_log a = L ++ [(t, c)])).
Proof.
  induction 1 as [|tr a e a' _ [IH1 IH2] S].
  - split; [|intros L t c E; destruct (log_events L); discriminate]. intros L E. destruct L as [|[t c] L]; [split; reflexivity|discriminate].
  - destruct e as [e|]; cbn [snoc].
    + split.
      * intros L E. symmetry in E. apply log_events_last in E as (L' & t & c & -> & -> & ->). destruct (IH2 L' t c eq_refl) as (Oth & Me).
        inversion S; subst; cbn [sp_status sp_log] in *. rename H3 into Q.
        destruct Me as [[Me _]|[[r' Me] Lg]]; [congruence|]. split; [|exact Lg].
        intros t'. destruct (Nat.eq_dec t' t) as [->|N]; [apply upd_same|rewrite upd_other by congruence; apply Oth, N].
      * intros L t c E. apply app_inj_tail in E as [-> ->]. destruct (IH1 L eq_refl) as [Out Lg].
        inversion S; subst; cbn [sp_status sp_log] in *. split; [|left; split; [apply upd_same|reflexivity]].
        intros t' N. rewrite upd_other by congruence. apply Out.
    + inversion S; subst; cbn [sp_status sp_log] in *. split.
      * intros L E. destruct (IH1 L E) as [Out _]. congruence.
      * intros L t0 c0 E. destruct (IH2 L t0 c0 E) as (Oth & Me).
        destruct (Nat.eq_dec t t0) as [->|N]; [|rewrite (Oth t N) in H; discriminate].
        destruct Me as [[Me Lg]|[[r Me] Lg]]; [|congruence]. split.
        -- intros t' N. rewrite upd_other by congruence. apply Oth, N.
        -- right. split; [rewrite upd_same; eauto|]. rewrite Lg. congruence.
Qed.

Section Back.
Context {LIB : OPRF}.
Implicit Type s : Server LIB.

Lemma stored_as_fun s d c c' : stored_as s d c -> stored_as s d c' -> c = c'.
Proof. intros (id & e & A & B & ->) (id' & e' & A' & B' & ->). congruence. Qed.
Lemma stored_as_list s ds : forall cs cs', Forall2 (stored_as s) ds cs -> Forall2 (stored_as s) ds cs' -> cs = cs'.
Proof.
  induction ds as [|d ds IH]; intros cs cs' A B; inversion A; inversion B; subst; [reflexivity|]. f_equal; [eapply stored_as_fun; eauto|eauto].
Qed.

Lemma filter_pairs {A B C} (f : nat * A -> bool) (g : nat * B -> bool) (R : A -> B -> Prop) (P : C) l l' :
  Forall2 (fun d c => fst d = fst c /\ R (snd d) (snd c)) l l' -> (forall x y, fst x = fst y -> f x = g y) ->
  Forall2 R (map snd (filter f l)) (map snd (filter g l')).
Proof.
  intros F E. induction F as [|x y l l' [Q SA] F IH]; [constructor|]. cbn [filter]. rewrite (E x y Q). destruct (g y); [cbn [map]; constructor; assumption|exact IH].
Qed.

Lemma merge_runs s work db : merge (fun t => stored_by s (work t)) db ->
  exists tr σ kv, exec true tr σ /\ loaded s work tr /\ (forall t, filter is_get (invoked_by t tr) = [])
    /\ store_all s newKVStore db = Ok kv /\ forall id, value_of (st_heap σ) (st_map σ id) = kv_lookup kv id.
Proof.
  intros (tagged & <- & M).
  assert (Ex : forall l : list (nat * cred), (forall t d, In (t, d) l -> exists c, stored_as s d c) ->
    exists L, Forall2 (fun d c => fst d = fst c /\ stored_as s (snd d) (snd c)) l L).
  { induction l as [|[t d] l IH]; intros H; [exists []; constructor|].
    destruct (H t d (or_introl eq_refl)) as (c & C). destruct IH as (L & F); [intros; eapply H; right; eassumption|].
    exists ((t, c) :: L). constructor; [split; [reflexivity|exact C]|exact F]. }
  destruct (Ex tagged) as (L & F).
  { intros t d I. assert (J : In d (stored_by s (work t))).
    { rewrite <- M. apply in_map_iff. exists (t, d). split; [reflexivity|]. apply filter_In. split; [exact I|cbn; apply Nat.eqb_refl]. }
    pose proof (calls_of_stores s (work t)) as CS. clear - J CS. induction CS as [|x y l l' S CS IH]; [destruct J|].
    destruct J as [<-|J]; eauto. }
  assert (O : forall t, of_thread t L = calls_of s (work t)).
  { intros t. eapply stored_as_list; [|apply calls_of_stores]. rewrite <- M, of_thread_filter.
    apply (filter_pairs _ _ _ tt tagged L F). intros x y ->. reflexivity. }
  assert (Ap : Forall (fun x => exists id v, snd x = CAppend id v) L).
  { clear - F. induction F as [|x y l L [_ (id & e & _ & _ & E)] F IH]; constructor; eauto. }
  destruct (log_runs L Ap) as (σ & E & I). exists (log_events L), σ, (replay L).
  assert (NG : forall t, filter is_get (of_thread t L) = [] /\ filter (fun c => negb (is_get c)) (of_thread t L) = of_thread t L).
  { intros t. clear - Ap. induction Ap as [|[t' c] L (id & v & Ec) Ap IH]; [split; reflexivity|]. cbn [snd] in Ec. subst c.
    cbn [of_thread flat_map fst snd]. fold (of_thread t L). destruct (t' =? t)%nat; cbn [app filter is_get negb]; destruct IH as [-> ->]; split; reflexivity. }
  split; [exact E|]. split; [|split; [|split]].
  - intros t. rewrite log_invoked, log_returned. split; [|reflexivity]. rewrite (proj2 (NG t)). apply O.
  - intros t. rewrite log_invoked. apply NG.
  - rewrite (log_stores s tagged L F). reflexivity.
  - destruct (exec_rel _ _ E) as [a [A R]]. destruct (proj1 (seq_log _ _ A) L eq_refl) as [_ Lg].
    intros id. rewrite <- Lg, <- (h_kv _ _ (spec_hist _ _ A)). symmetry. apply (r_map _ _ R).
Qed.
End Back.

(** ** Merges *)
From Coq Require Import Permutation.
Section Merges.
Context {A : Type}.
Implicit Types (parts : nat -> list A) (l : list (nat * A)).
Definition part t l : list A := map snd (filter (fun x => (fst x =? t)%nat) l).
Lemma part_cons t x l : part t (x :: l) = (if (fst x =? t)%nat then [snd x] else []) ++ part t l.
Proof. unfold part. cbn [filter]. destruct (fst x =? t)%nat; reflexivity. Qed.
Lemma part_app t l l' : part t (l ++ l') = part t l ++ part t l'.
Proof. unfold part. rewrite filter_app, map_app. reflexivity. Qed.
Lemma part_tag t t' (a : list A) : part t (map (pair t') a) = if (t' =? t)%nat then a else [].
Proof.
  induction a as [|x a IH]; cbn [map]; [destruct (t' =? t)%nat; reflexivity|]. rewrite part_cons, IH. cbn [fst snd]. destruct (t' =? t)%nat; reflexivity.
Qed.

Lemma parts_permutation l : forall l', (forall t, part t l = part t l') -> Permutation l l'.
Proof.
  induction l as [|[t x] l IH]; intros l' H.
  - destruct l' as [|[t' y] l']; [constructor|]. specialize (H t'). rewrite part_cons in H. cbn [fst] in H. rewrite Nat.eqb_refl in H. discriminate.
  - assert (S : exists a b, l' = a ++ (t, x) :: b /\ part t a = []).
    { pose proof (H t) as Ht. rewrite part_cons in Ht. cbn [fst snd] in Ht. rewrite Nat.eqb_refl in Ht. cbn [app] in Ht. clear - Ht.
      induction l' as [|[t' y] l' IH]; [discriminate|]. rewrite part_cons in Ht. cbn [fst snd] in Ht. destruct (t' =? t)%nat eqn:E.
      - apply Nat.eqb_eq in E. subst t'. cbn [app] in Ht. injection Ht as -> _. exists [], l'. split; reflexivity.
      - cbn [app] in Ht. destruct (IH Ht) as (a & b & -> & P). exists ((t', y) :: a), b. split; [reflexivity|]. rewrite part_cons. cbn [fst]. rewrite E. exact P. }
    destruct S as (a & b & -> & P). etransitivity; [|apply Permutation_middle]. constructor. apply IH. intros t'. specialize (H t').
    rewrite part_cons, part_app, part_cons in H. cbn [fst snd] in H. rewrite part_app. destruct (t =? t')%nat eqn:E; [|exact H].
    apply Nat.eqb_eq in E. subst t'. rewrite P in *. cbn [app] in *. injection H. auto.
Qed.
Lemma merge_permutation parts db db' : merge parts db -> merge parts db' -> Permutation db db'.
Proof.
  intros (l & <- & H) (l' & <- & H'). apply Permutation_map, parts_permutation. intros t. unfold part. rewrite H, H'. reflexivity.
Qed.

Lemma merge_find parts db (f : A -> bool) x : merge parts db -> find f db = Some x -> exists t, find f (parts t) = Some x.
Proof.
  intros (l & <- & H). enough (E : find f (map snd l) = Some x -> exists t, find f (part t l) = Some x).
  { intros F. destruct (E F) as (t & Ft). exists t. rewrite <- H. exact Ft. }
  clear. induction l as [|[t y] l IH]; [discriminate|]. cbn [map find snd]. destruct (f y) eqn:Y.
  - intros E. exists t. rewrite part_cons. cbn [fst snd]. rewrite Nat.eqb_refl. cbn [app find]. rewrite Y. exact E.
  - intros E. destruct (IH E) as (t' & F). exists t'. rewrite part_cons. cbn [fst snd]. destruct (t =? t')%nat; cbn [app find]; rewrite ?Y; exact F.
Qed.
Lemma merge_in parts db x : merge parts db -> (In x db <-> exists t, In x (parts t)).
Proof.
  intros (l & <- & H). rewrite in_map_iff. split.
  - intros ((t & y) & E & I). cbn [snd] in E. subst y. exists t. rewrite <- H. apply in_map_iff. exists (t, x). split; [reflexivity|]. apply filter_In. split; [exact I|apply Nat.eqb_refl].
  - intros (t & I). rewrite <- H in I. apply in_map_iff in I as (y & E & I). apply filter_In in I as [I _]. eauto.
Qed.
Lemma merge_find_none parts db (f : A -> bool) : merge parts db -> find f db = None -> forall t, find f (parts t) = None.
Proof.
  intros M N t. destruct (find f (parts t)) as [x|] eqn:F; [|reflexivity]. apply find_some in F as [I F].
  rewrite (find_none _ _ N x) in F; [discriminate|]. apply (merge_in _ _ _ M). eauto.
Qed.

(** One goroutine after the other, in any order. *)
Lemma part_flat parts (ts : list nat) t : NoDup ts -> part t (flat_map (fun t => map (pair t) (parts t)) ts) = if in_dec Nat.eq_dec t ts then parts t else [].
Proof.
  induction 1 as [|x ts N D IH]; [reflexivity|]. cbn [flat_map]. rewrite part_app, part_tag, IH.
  destruct (Nat.eq_dec x t) as [->|E].
  - rewrite Nat.eqb_refl. destruct (in_dec Nat.eq_dec t ts) as [I|I]; [destruct (N I)|]. rewrite app_nil_r.
    destruct (in_dec Nat.eq_dec t (t :: ts)) as [J|J]; [reflexivity|]. exfalso. apply J. left. reflexivity.
  - rewrite (proj2 (Nat.eqb_neq x t) E). cbn [app].
    destruct (in_dec Nat.eq_dec t ts) as [I|I], (in_dec Nat.eq_dec t (x :: ts)) as [J|J]; try reflexivity; exfalso.
    + apply J. right. exact I.
    + destruct J as [J|J]; [exact (E J)|exact (I J)].
Qed.
Lemma merge_order parts (ts : list nat) : NoDup ts -> (forall t, ~ In t ts -> parts t = []) -> merge parts (flat_map parts ts).
Proof.
  intros D H. exists (flat_map (fun t => map (pair t) (parts t)) ts). split.
  - clear. induction ts as [|t ts IH]; [reflexivity|]. cbn [flat_map]. rewrite map_app, IH, map_map. cbn [snd]. rewrite map_id. reflexivity.
  - intros t. fold (part t (flat_map (fun t => map (pair t) (parts t)) ts)). rewrite part_flat by exact D.
    destruct (in_dec Nat.eq_dec t ts) as [I|I]; [reflexivity|symmetry; apply H, I].
Qed.
(** Goroutine [t] may come first. *)
Lemma merge_first parts n t : (forall t, n <= t -> parts t = []) -> exists rest, merge parts (parts t ++ rest).
Proof.
  intros H. exists (flat_map parts (filter (fun x => negb (x =? t)%nat) (seq 0 n))).
  change (parts t ++ flat_map parts (filter (fun x => negb (x =? t)%nat) (seq 0 n))) with (flat_map parts (t :: filter (fun x => negb (x =? t)%nat) (seq 0 n))).
  apply merge_order.
  - constructor; [|apply NoDup_filter, seq_NoDup]. intros I. apply filter_In in I as [_ I]. rewrite Nat.eqb_refl in I. discriminate.
  - intros t' N. apply H. destruct (Nat.le_gt_cases n t') as [L|L]; [exact L|]. exfalso. apply N. destruct (Nat.eq_dec t' t) as [->|E]; [left; reflexivity|right].
    apply filter_In. split; [apply in_seq; lia|]. apply Nat.eqb_neq in E. rewrite E. reflexivity.
Qed.
End Merges.

Section Answers.
Context {LIB : OPRF}.
Implicit Type s : Server LIB.

Lemma run_query_same c s (kv kv' : Getter) u p r : (forall id, kv id = kv' id) -> run_query c s kv u p r = run_query c s kv' u p r.
Proof.
  intros H. unfold run_query. destruct (Request c u p r) as [[rq ctx]| |]; [|reflexivity..]. unfold HandleRequest. rewrite H. reflexivity.
Qed.

(** The inserts of goroutines 0, 1, ... n-1, one goroutine after the other. *)
Lemma stored_by_flat s (work : nat -> list op) ts : stored_by s (flat_map work ts) = flat_map (fun t => stored_by s (work t)) ts.
Proof. unfold stored_by. induction ts as [|t ts IH]; [reflexivity|]. cbn [flat_map]. rewrite flat_map_app, IH. reflexivity. Qed.
Lemma merge_sequential s (work : nat -> list op) n : (forall t, n <= t -> work t = []) -> merge (fun t => stored_by s (work t)) (stored_by s (flat_map work (seq 0 n))).
Proof.
  intros H. rewrite stored_by_flat. apply merge_order; [apply seq_NoDup|]. intros t N. rewrite H; [reflexivity|].
  destruct (Nat.le_gt_cases n t) as [L|L]; [exact L|]. exfalso. apply N, in_seq. lia.
Qed.
Lemma merge_dealt s (deal : bytes -> nat) ops : merge (fun t => stored_by s (dealt deal ops t)) (stored_by s ops).
Proof.
  exists (flat_map (fun o => map (pair (deal (o_user o))) (op_stores s o)) ops). split.
  - unfold stored_by. induction ops as [|o ops IH]; [reflexivity|]. cbn [flat_map]. rewrite map_app, IH, map_map. cbn [snd]. rewrite map_id. reflexivity.
  - intros t. change (part t (flat_map (fun o => map (pair (deal (o_user o))) (op_stores s o)) ops) = stored_by s (dealt deal ops t)).
    unfold stored_by, dealt. induction ops as [|o ops IH]; [reflexivity|]. cbn [flat_map filter]. rewrite part_app, IH, part_tag.
    destruct (deal (o_user o) =? t)%nat; reflexivity.
Qed.

Definition weight s (id : bytes) (d : cred) : nat :=
  match Server_BucketID s (d_user d), EncryptBucketEntry s (d_user d) (d_pass d) (d_flag d) (d_meta d) with
  | Ok i, Ok e => if bytes_eqb (BucketIDToHex i) id then length e else 0
  | _, _ => 0
  end.
Lemma store_all_weight s id db : forall kv kv', store_all s kv db = Ok kv' -> length (sl (kv_lookup kv' id)) = length (sl (kv_lookup kv id)) + list_sum (map (weight s id) db).
Proof.
  induction db as [|d db IH]; intros kv kv' H; cbn [store_all] in H.
  - apply Ok_inj in H. subst kv'. cbn. lia.
  - apply bind_ok in H as (i & H1 & H). apply bind_ok in H as (ct & H2 & H). rewrite (IH _ _ H), lookup_append.
    cbn [map list_sum fold_right]. unfold weight at 2. rewrite H1, H2.
    destruct (bytes_eqb (BucketIDToHex i) id); rewrite ?app_length; unfold list_sum; lia.
Qed.
Lemma permuted_lengths s db db' kv kv' : Permutation db db' -> store_all s newKVStore db = Ok kv -> store_all s newKVStore db' = Ok kv' ->
  forall id, length (sl (kv_lookup kv id)) = length (sl (kv_lookup kv' id)).
Proof.
  intros P H H' id. rewrite (store_all_weight s id _ _ _ H), (store_all_weight s id _ _ _ H'). f_equal.
  apply (Permutation_map (weight s id)) in P. induction P; cbn [list_sum fold_right] in *; unfold list_sum in *; lia.
Qed.
End Answers.

Section Schedules.
Variable LIB : OPRF.
Hypothesis laws : OPRF_laws LIB.
Variable cfg : Config.
Variable key : PrivateKey LIB.
Variable s : Server LIB.
Variable c : Client.
Hypothesis Hs : NewServer {| sc_config := cfg; sc_privateKey := key |} = Ok s.
Hypothesis Hc : NewClient LIB cfg = Ok c.
Hypothesis Hv : (cfg_version cfg < 2 ^ 16)%N.

Lemma schedule_lengths (work : nat -> list op) db0 kv0 tr σ : merge (fun t => stored_by s (work t)) db0 -> store_all s newKVStore db0 = Ok kv0 ->
  exec true tr σ -> loaded s work tr ->
  forall id, length (sl (value_of (st_heap σ) (st_map σ id))) = length (sl (kv_lookup kv0 id)).
Proof.
  intros M0 S0 E L id. destruct (loaded_merge s work tr σ E L) as (db & kv & M & S & V). rewrite V.
  apply (permuted_lengths s db db0 kv kv0); [|exact S|exact S0]. eapply merge_permutation; eassumption.
Qed.

Lemma merged_query (work : nat -> list op) db0 kv0 db kv σ u p r k : (0 <= cfg_bits cfg <= 32)%Z ->
  merge (fun t => stored_by s (work t)) db0 -> store_all s newKVStore db0 = Ok kv0 -> kv_holdable kv0 ->
  (forall t, no_collision s (tried (work t)) u p) -> deriveBucketEntryKey s u p = Ok k ->
  merge (fun t => stored_by s (work t)) db -> store_all s newKVStore db = Ok kv -> (forall id, value_of (st_heap σ) (st_map σ id) = kv_lookup kv id) ->
  run_query c s (reads σ) u p r = Ok (expected db u p).
Proof.
  intros B M0 S0 H N K M S V. rewrite (run_query_same c s (reads σ) (kv_Get kv)).
  2: { intros id. unfold reads, kv_Get. rewrite V. reflexivity. }
  eapply (query_answers LIB laws cfg key s c Hs Hc Hv); eauto.
  - intros id. specialize (H id). unfold holdable, blen in *. rewrite (permuted_lengths s db db0 kv kv0 (merge_permutation _ _ _ M M0) S S0). exact H.
  - intros d k1 k2 I. apply (merge_in _ _ _ M) in I as (t & I). apply (N t). apply stored_by_tried with (s := s). exact I.
Qed.

Lemma schedule_query (work : nat -> list op) db0 kv0 tr σ : (0 <= cfg_bits cfg <= 32)%Z ->
  merge (fun t => stored_by s (work t)) db0 -> store_all s newKVStore db0 = Ok kv0 -> kv_holdable kv0 -> exec true tr σ -> loaded s work tr ->
  exists db, merge (fun t => stored_by s (work t)) db /\
    forall u p r k, (forall t, no_collision s (tried (work t)) u p) -> deriveBucketEntryKey s u p = Ok k ->
    run_query c s (reads σ) u p r = Ok (expected db u p).
Proof.
  intros B M0 S0 H E L. destruct (loaded_merge s work tr σ E L) as (db & kv & M & S & V). exists db. split; [exact M|].
  intros u p r k N K. exact (merged_query work db0 kv0 db kv σ u p r k B M0 S0 H N K M S V).
Qed.

Lemma listed_find db u p : listed db u p <-> exists d, find (same_cred u p) db = Some d.
Proof.
  split.
  - intros (d & I & <- & <-). destruct (find (same_cred (d_user d) (d_pass d)) db) as [d'|] eqn:F; [eauto|].
    pose proof (find_none _ _ F d I) as X. unfold same_cred in X. rewrite !bytes_eqb_refl in X. discriminate.
  - intros (d & F). apply find_some in F as [I F]. apply same_cred_iff, pair_inj in F as [A B]. exists d. auto.
Qed.
Lemma expected_merge (work : nat -> list op) db u p : merge (fun t => stored_by s (work t)) db ->
  (exists t, listed (stored_by s (work t)) u p /\ expected db u p = expected (stored_by s (work t)) u p)
  \/ (forall t, ~ listed (stored_by s (work t)) u p) /\ expected db u p = (NotInBreach, None).
Proof.
  intros M. unfold expected. destruct (find (same_cred u p) db) as [d|] eqn:F.
  - left. destruct (merge_find _ _ _ _ M F) as (t & Ft). exists t. rewrite Ft. split; [apply listed_find; eauto|reflexivity].
  - right. split; [|reflexivity]. intros t L. apply listed_find in L as (d & L). rewrite (merge_find_none _ _ _ M F t) in L. discriminate.
Qed.

Lemma expected_dealt (deal : bytes -> nat) ops db u p : merge (fun t => stored_by s (dealt deal ops t)) db -> expected db u p = expected (stored_by s ops) u p.
Proof.
  intros M. pose proof (merge_dealt s deal ops) as M0.
  assert (One : forall t, find (same_cred u p) (stored_by s (dealt deal ops t)) = if (deal u =? t)%nat then find (same_cred u p) (stored_by s ops) else None).
  { intros t. rewrite find_for_user, (find_for_user LIB s ops).
    assert (E : for_user u (dealt deal ops t) = if (deal u =? t)%nat then for_user u ops else []).
    { unfold for_user, dealt. clear. induction ops as [|o ops IH]; [destruct (deal u =? t)%nat; reflexivity|]. cbn [filter].
      destruct (bytes_eqb (o_user o) u) eqn:U.
      - pose proof U as U'. apply bytes_eqb_eq in U'. rewrite U'. destruct (deal u =? t)%nat; [|exact IH]. cbn [filter]. rewrite U, IH. reflexivity.
      - destruct (deal (o_user o) =? t)%nat; [cbn [filter]; rewrite U|]; exact IH. }
    rewrite E. destruct (deal u =? t)%nat; reflexivity. }
  unfold expected. destruct (find (same_cred u p) db) as [d|] eqn:F.
  - destruct (merge_find _ _ _ _ M F) as (t & Ft). cbn beta in Ft. rewrite One in Ft. destruct (deal u =? t)%nat; [|discriminate]. rewrite Ft. reflexivity.
  - pose proof (merge_find_none _ _ _ M F (deal u)) as Fn. cbn beta in Fn. rewrite One, Nat.eqb_refl in Fn. rewrite Fn. reflexivity.
Qed.
End Schedules.
