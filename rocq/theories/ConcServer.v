(** * The concurrent store: progress, sharing by Put, and queries during
    inserts. *)
From Coq Require Import Lia.
From Verif Require Import Base BaseProofs Common Hasher Oprf Server Client KV KVProofs SpecEntry SpecProtocol FinalizeProofs ProtocolProofs SpecConc KVConc ConcProofs ConcHistory ConcRun.

(** ** Locks, whatever the clients do with their slices *)
Record locks (σ : state) : Prop := {
  l_write : forall t, in_write (th_pc (st_thr σ t)) = true <-> st_writer σ = Some t;
  l_read : forall t, in_read (th_pc (st_thr σ t)) = true <-> In t (st_readers σ);
  l_excl : st_writer σ <> None -> st_readers σ = [];
  l_fill : forall t, match th_pc (st_thr σ t) with AppFill _ v _ _ _ j => j <= length v | _ => True end }.

Lemma locks_init : locks init.
Proof. split; cbn; try reflexivity; intros; try exact I; split; try discriminate; try contradiction. Qed.

(** Thread [t] moves, the locks stay. *)
Lemma locks_move σ t th' m h : locks σ -> in_write (th_pc th') = in_write (th_pc (st_thr σ t)) -> in_read (th_pc th') = in_read (th_pc (st_thr σ t)) ->
  match th_pc th' with AppFill _ v _ _ _ j => j <= length v | _ => True end ->
  locks (mkState m (st_writer σ) (st_readers σ) h (upd (st_thr σ) t th')).
Proof.
  intros [W R E F] A B C. split; cbn [st_writer st_readers st_thr]; [| |exact E|]; intros t'; destruct (upd_cases (st_thr σ) t th' t') as [[-> K]|[N K]]; rewrite K; try apply W; try apply R; try apply F.
  - rewrite A. apply W.
  - rewrite B. apply R.
  - exact C.
Qed.
Lemma locks_take σ t p m h : locks σ -> st_writer σ = None -> st_readers σ = [] -> in_write p = true -> in_read p = false ->
  match p with AppFill _ v _ _ _ j => j <= length v | _ => True end ->
  locks (mkState m (Some t) [] h (go σ t p)).
Proof.
  intros [W R E F] WN RN A B C. unfold go. split; cbn [st_writer st_readers st_thr]; [| |reflexivity|]; intros t'; destruct (upd_cases (st_thr σ) t (mkThread p (th_held (st_thr σ t)) (th_own (st_thr σ t))) t') as [[-> K]|[N K]]; rewrite K; cbn [th_pc]; try apply F.
  - rewrite A. tauto.
  - rewrite W, WN. split; congruence.
  - rewrite B. split; [discriminate|contradiction].
  - rewrite R, RN. tauto.
  - exact C.
Qed.
Lemma locks_drop σ t p m h : locks σ -> in_write (th_pc (st_thr σ t)) = true -> in_write p = false -> in_read p = false ->
  match p with AppFill _ v _ _ _ j => j <= length v | _ => True end ->
  locks (mkState m None (st_readers σ) h (go σ t p)).
Proof.
  intros [W R E F] X A B C. unfold go. split; cbn [st_writer st_readers st_thr]; [| |congruence|]; intros t'; destruct (upd_cases (st_thr σ) t (mkThread p (th_held (st_thr σ t)) (th_own (st_thr σ t))) t') as [[-> K]|[N K]]; rewrite K; cbn [th_pc]; try apply F.
  - rewrite A. split; discriminate.
  - apply W in X. rewrite W, X. split; congruence.
  - rewrite B. rewrite (E ltac:(apply W in X; congruence)). split; [discriminate|contradiction].
  - apply R.
  - exact C.
Qed.
Lemma locks_rtake σ t p m h : locks σ -> st_writer σ = None -> in_write p = false -> in_read p = true ->
  match p with AppFill _ v _ _ _ j => j <= length v | _ => True end ->
  locks (mkState m None (t :: st_readers σ) h (go σ t p)).
Proof.
  intros [W R E F] X A B C. unfold go. split; cbn [st_writer st_readers st_thr]; [| |congruence|]; intros t'; destruct (upd_cases (st_thr σ) t (mkThread p (th_held (st_thr σ t)) (th_own (st_thr σ t))) t') as [[-> K]|[N K]]; rewrite K; cbn [th_pc]; try apply F.
  - rewrite A. split; discriminate.
  - rewrite W, X. split; congruence.
  - rewrite B. cbn. tauto.
  - rewrite R. cbn [In]. split; [tauto|]. intros [Q|Q]; [congruence|exact Q].
  - exact C.
Qed.
Lemma locks_rdrop σ t p m h : locks σ -> in_read (th_pc (st_thr σ t)) = true -> in_write p = false -> in_read p = false ->
  match p with AppFill _ v _ _ _ j => j <= length v | _ => True end ->
  locks (mkState m (st_writer σ) (remove Nat.eq_dec t (st_readers σ)) h (go σ t p)).
Proof.
  intros [W R E F] X A B C. assert (NW : st_writer σ = None).
  { destruct (st_writer σ) eqn:Q; [|reflexivity]. apply R in X. rewrite E in X by congruence. contradiction. }
  unfold go. split; cbn [st_writer st_readers st_thr]; [| |congruence|]; intros t'; destruct (upd_cases (st_thr σ) t (mkThread p (th_held (st_thr σ t)) (th_own (st_thr σ t))) t') as [[-> K]|[N K]]; rewrite K; cbn [th_pc]; try apply F.
  - rewrite A, NW. split; discriminate.
  - apply W.
  - rewrite B. split; [discriminate|]. intros H. exfalso. exact (remove_In Nat.eq_dec _ _ H).
  - rewrite R. split; intros H; [apply in_in_remove; assumption|]. apply in_remove in H. apply H.
  - exact C.
Qed.

Lemma step_locks strict σ e σ' : locks σ -> step strict σ e σ' -> locks σ'.
Proof.
  intros L S. destruct S as
    [ σ t v junk h a P A | σ t k s i b P H Q NE | σ t id P ST | σ t id v P W R | σ t id v P | σ t P
    | σ t id v P | σ t id v P W R | σ t id v P | σ t id P | σ t id v s P C | σ t id v old extra h a P C A
    | σ t id v a cap base j b P NE | σ t id v a cap base P | σ t id v new P | σ t P
    | σ t id P | σ t id P W | σ t id P | σ t r P | σ t P | σ t r P ];
    try (apply locks_move; [exact L|rewrite P; reflexivity|rewrite P; reflexivity|cbn [th_pc]; first [exact I|lia]]).
  - exact L.
  - apply locks_take; [exact L|exact W|exact R|reflexivity|reflexivity|exact I].
  - apply locks_drop; [exact L|rewrite P; reflexivity|reflexivity|reflexivity|exact I].
  - apply locks_take; [exact L|exact W|exact R|reflexivity|reflexivity|exact I].
  - apply locks_move; [exact L|rewrite P; reflexivity|rewrite P; reflexivity|]. cbn [th_pc]. apply nth_error_Some. congruence.
  - apply locks_drop; [exact L|rewrite P; reflexivity|reflexivity|reflexivity|exact I].
  - apply locks_rtake; [exact L|exact W|reflexivity|reflexivity|exact I].
  - apply locks_rdrop; [exact L|rewrite P; reflexivity|reflexivity|reflexivity|exact I].
Qed.
Lemma exec_locks strict tr σ : exec strict tr σ -> locks σ.
Proof. induction 1 as [|tr σ e σ' _ IH S]; [exact locks_init|exact (step_locks _ _ _ _ IH S)]. Qed.

(** Mutual exclusion. *)
Lemma exclusion strict tr σ t t' : exec strict tr σ -> in_write (th_pc (st_thr σ t)) = true -> t <> t' ->
  in_write (th_pc (st_thr σ t')) = false /\ in_read (th_pc (st_thr σ t')) = false.
Proof.
  intros E W N. apply exec_locks in E as [LW LR LE _]. pose proof (proj1 (LW t) W) as WT. split; apply not_true_is_false; intros H.
  - apply LW in H. congruence.
  - apply LR in H. rewrite LE in H by congruence. contradiction.
Qed.

(** ** Progress *)
Lemma steps_trans strict σ1 a σ2 b σ3 : steps strict σ1 a σ2 -> steps strict σ2 b σ3 -> steps strict σ1 (a ++ b) σ3.
Proof.
  intros H K. induction K as [|σ2 b e σ3 σ4 K IH S]; [rewrite app_nil_r; exact H|].
  destruct e as [e|]; cbn [snoc] in *.
  - rewrite app_assoc. apply (steps_next strict σ1 (a ++ b) (Some e) σ3 σ4); auto.
  - apply (steps_next strict σ1 (a ++ b) None σ3 σ4); auto.
Qed.
Lemma steps_one strict σ e σ' : step strict σ e σ' -> steps strict σ (snoc [] e) σ'.
Proof. intros S. eapply steps_next; [apply steps_here|exact S]. Qed.
Lemma steps_locks strict σ tr σ' : locks σ -> steps strict σ tr σ' -> locks σ'.
Proof. intros L H. revert L. induction H as [|σ tr e σ1 σ2 H IH S]; intros L; [exact L|]. exact (step_locks _ _ _ _ (IH L) S). Qed.

(** How far a thread that holds what it needs is from the end of its call. *)
Definition waiting (p : pc) : bool := match p with PutLock _ _ | AppLock _ _ | GetLock _ => true | _ => false end.
Definition left_to_do (p : pc) : nat :=
  match p with
  | Idle => 0
  | RetDone | RetValue _ => 1
  | PutUnlock | AppUnlock | GetUnlock _ => 2
  | PutStore _ _ | AppStore _ _ _ | GetLoad _ => 3
  | AppFill _ v _ _ _ j => 4 + (length v - j)
  | AppGrow _ v _ => 5 + length v
  | AppLoad _ v => 6 + length v
  | PutLock _ _ | GetLock _ => 4
  | AppLock _ v => 7 + length v
  end.

(** Only thread [t] moves. *)
Definition alone (σ σ' : state) (t : nat) : Prop :=
  (forall t', t' <> t -> st_thr σ' t' = st_thr σ t') /\
  (st_writer σ' = st_writer σ \/ st_writer σ' = None) /\
  (st_readers σ' = st_readers σ \/ st_readers σ' = remove Nat.eq_dec t (st_readers σ)).

Lemma go_same σ t p : th_pc (go σ t p t) = p.
Proof. unfold go. rewrite upd_same. reflexivity. Qed.
Lemma go_other σ t p t' : t' <> t -> go σ t p t' = st_thr σ t'.
Proof. intros N. unfold go. apply upd_other, N. Qed.

Lemma advance strict σ t : locks σ -> th_pc (st_thr σ t) <> Idle -> waiting (th_pc (st_thr σ t)) = false ->
  exists e σ', step strict σ e σ' /\ waiting (th_pc (st_thr σ' t)) = false /\ left_to_do (th_pc (st_thr σ' t)) < left_to_do (th_pc (st_thr σ t)) /\ alone σ σ' t.
Proof.
  intros L NI NW. pose proof (l_fill _ L t) as F.
  assert (AL : forall m h p, alone σ (mkState m (st_writer σ) (st_readers σ) h (go σ t p)) t).
  { intros m h p. split; [intros t' N; apply go_other, N|]. split; left; reflexivity. }
  destruct (th_pc (st_thr σ t)) as [|?|id v| | |id v|id v old|id v a cap base j|id v new| | |id|r| |r] eqn:P; try discriminate NW; try (exfalso; apply NI; reflexivity).
  - do 2 eexists. split; [apply (st_put_store strict σ t id v P)|]. cbn [st_thr]. rewrite go_same. split; [reflexivity|]. split; [cbn; lia|apply AL].
  - do 2 eexists. split; [apply (st_put_unlock strict σ t P)|]. cbn [st_thr]. rewrite go_same. split; [reflexivity|]. split; [cbn; lia|].
    split; [intros t' N; apply go_other, N|]. split; [right; reflexivity|left; reflexivity].
  - do 2 eexists. split; [apply (st_app_load strict σ t id v P)|]. cbn [st_thr]. rewrite go_same. split; [reflexivity|]. split; [cbn; lia|apply AL].
  - destruct (Nat.le_gt_cases (len0 old + length v) (cap0 old)) as [C|C].
    + destruct old as [s|].
      * do 2 eexists. split; [apply (st_app_inplace strict σ t id v s P C)|]. cbn [st_thr]. rewrite go_same. split; [reflexivity|]. split; [cbn; lia|apply AL].
      * destruct v; [|cbn in C; lia]. do 2 eexists. split; [apply (st_app_nil strict σ t id P)|]. cbn [st_thr]. rewrite go_same. split; [reflexivity|]. split; [cbn; lia|apply AL].
    + destruct (alloc (st_heap σ) (sl (value_of (st_heap σ) old) ++ zeros (length v + 0))) as [h a] eqn:A.
      do 2 eexists. split; [apply (st_app_grow strict σ t id v old 0 h a P C A)|]. cbn [st_thr]. rewrite go_same. split; [reflexivity|]. split; [cbn; lia|apply AL].
  - destruct (Nat.eq_dec j (length v)) as [->|NJ].
    + do 2 eexists. split; [apply (st_app_filled strict σ t id v a cap base P)|]. cbn [st_thr]. rewrite go_same. split; [reflexivity|]. split; [cbn; lia|apply AL].
    + destruct (nth_error v j) as [b|] eqn:NE; [|apply nth_error_None in NE; lia].
      do 2 eexists. split; [apply (st_app_fill strict σ t id v a cap base j b P NE)|]. cbn [st_thr]. rewrite go_same. split; [reflexivity|]. split; [cbn; lia|apply AL].
  - do 2 eexists. split; [apply (st_app_store strict σ t id v new P)|]. cbn [st_thr]. rewrite go_same. split; [reflexivity|]. split; [cbn; lia|apply AL].
  - do 2 eexists. split; [apply (st_app_unlock strict σ t P)|]. cbn [st_thr]. rewrite go_same. split; [reflexivity|]. split; [cbn; lia|].
    split; [intros t' N; apply go_other, N|]. split; [right; reflexivity|left; reflexivity].
  - do 2 eexists. split; [apply (st_get_load strict σ t id P)|]. cbn [st_thr]. rewrite go_same. split; [reflexivity|]. split; [cbn; lia|apply AL].
  - do 2 eexists. split; [apply (st_get_unlock strict σ t r P)|]. cbn [st_thr]. rewrite go_same. split; [reflexivity|]. split; [cbn; lia|].
    split; [intros t' N; apply go_other, N|]. split; [left; reflexivity|right; reflexivity].
  - do 2 eexists. split; [apply (st_ret_done strict σ t P)|]. cbn [st_thr]. rewrite go_same. split; [reflexivity|]. split; [cbn; lia|apply AL].
  - do 2 eexists. split; [apply (st_ret_value strict σ t r P)|]. cbn [st_thr]. rewrite upd_same. split; [reflexivity|]. split; [cbn; lia|].
    split; [intros t' N; apply upd_other, N|]. split; left; reflexivity.
Qed.

Lemma remove_twice t (l : list nat) : remove Nat.eq_dec t (remove Nat.eq_dec t l) = remove Nat.eq_dec t l.
Proof. apply notin_remove. apply remove_In. Qed.

(** A thread that is not waiting runs to the end of its call on its own. *)
Lemma run_out strict : forall n σ t, left_to_do (th_pc (st_thr σ t)) <= n -> locks σ -> waiting (th_pc (st_thr σ t)) = false ->
  exists tr σ', steps strict σ tr σ' /\ th_pc (st_thr σ' t) = Idle /\ alone σ σ' t.
Proof.
  induction n as [|n IH]; intros σ t LE L NW.
  - exists [], σ. split; [apply steps_here|]. split; [|split; [reflexivity|split; left; reflexivity]].
    destruct (th_pc (st_thr σ t)); cbn in LE; try lia. reflexivity.
  - destruct (th_pc (st_thr σ t)) eqn:P; try (destruct (advance strict σ t L) as (e & σ1 & S & NW1 & LT & (A1 & A2 & A3)); [rewrite P; discriminate|rewrite P; exact NW|];
      rewrite P in LT; destruct (IH σ1 t) as (tr & σ2 & S2 & I2 & (B1 & B2 & B3)); [lia|exact (step_locks _ _ _ _ L S)|exact NW1|];
      exists (snoc [] e ++ tr), σ2; split; [eapply steps_trans; [apply steps_one, S|exact S2]|]; split; [exact I2|];
      split; [intros t' N; rewrite (B1 t' N); apply A1, N|];
      split; [destruct B2 as [->| ->]; [exact A2|right; reflexivity]|];
      destruct B3 as [->| ->]; [exact A3|right; destruct A3 as [->| ->]; [reflexivity|apply remove_twice]]).
    exists [], σ. split; [apply steps_here|]. split; [exact P|]. split; [reflexivity|split; left; reflexivity].
Qed.

Lemma not_waiting_write p : in_write p = true -> waiting p = false.
Proof. destruct p; intros H; try discriminate H; reflexivity. Qed.
Lemma not_waiting_read p : in_read p = true -> waiting p = false.
Proof. destruct p; intros H; try discriminate H; reflexivity. Qed.

(** Let the writer leave. *)
Lemma clear_writer strict σ t : locks σ -> waiting (th_pc (st_thr σ t)) = true ->
  exists tr σ', steps strict σ tr σ' /\ st_writer σ' = None /\ st_thr σ' t = st_thr σ t.
Proof.
  intros L W. destruct (st_writer σ) as [w|] eqn:E; [|exists [], σ; split; [apply steps_here|auto]].
  pose proof (proj2 (l_write _ L w) E) as IW.
  destruct (run_out strict _ σ w (le_n _) L (not_waiting_write _ IW)) as (tr & σ' & S & I & (A1 & A2 & A3)).
  exists tr, σ'. split; [exact S|]. split.
  - destruct A2 as [A2|A2]; [|exact A2]. exfalso. pose proof (steps_locks _ _ _ _ L S) as L'. rewrite E in A2.
    apply (l_write _ L') in A2. rewrite I in A2. discriminate.
  - apply A1. intros ->. rewrite (not_waiting_write _ IW) in W. discriminate.
Qed.
(** Let the readers leave. *)
Lemma clear_readers strict : forall n σ t, length (st_readers σ) <= n -> locks σ -> st_writer σ = None -> waiting (th_pc (st_thr σ t)) = true ->
  exists tr σ', steps strict σ tr σ' /\ st_writer σ' = None /\ st_readers σ' = [] /\ st_thr σ' t = st_thr σ t.
Proof.
  induction n as [|n IH]; intros σ t LE L WN W.
  - exists [], σ. split; [apply steps_here|]. split; [exact WN|]. split; [|reflexivity]. destruct (st_readers σ); [reflexivity|cbn in LE; lia].
  - destruct (st_readers σ) as [|r rs] eqn:E; [exists [], σ; split; [apply steps_here|auto]|].
    assert (IR : in_read (th_pc (st_thr σ r)) = true) by (apply (l_read _ L); rewrite E; left; reflexivity).
    assert (N : t <> r) by (intros ->; rewrite (not_waiting_read _ IR) in W; discriminate).
    destruct (run_out strict _ σ r (le_n _) L (not_waiting_read _ IR)) as (tr & σ1 & S & I & (A1 & A2 & A3)).
    pose proof (steps_locks _ _ _ _ L S) as L1.
    assert (A3' : st_readers σ1 = remove Nat.eq_dec r (r :: rs)).
    { destruct A3 as [A3|A3]; [|rewrite A3, E; reflexivity]. exfalso. assert (K : In r (st_readers σ1)) by (rewrite A3, E; left; reflexivity).
      apply (l_read _ L1) in K. rewrite I in K. discriminate. }
    destruct (IH σ1 t) as (tr2 & σ2 & S2 & W2 & R2 & T2).
    + rewrite A3'. cbn [remove]. destruct (Nat.eq_dec r r); [|contradiction]. cbn in LE. pose proof (remove_length_le Nat.eq_dec rs r). lia.
    + exact L1.
    + destruct A2 as [A2|A2]; [congruence|exact A2].
    + rewrite (A1 t N). exact W.
    + exists (tr ++ tr2), σ2. split; [eapply steps_trans; eassumption|]. split; [exact W2|]. split; [exact R2|]. rewrite T2. apply A1, N.
Qed.

(** Every call can always be finished. *)
Lemma can_finish strict tr σ t : exec strict tr σ -> exists tr' σ', steps strict σ tr' σ' /\ th_pc (st_thr σ' t) = Idle.
Proof.
  intros E. pose proof (exec_locks _ _ _ E) as L. destruct (waiting (th_pc (st_thr σ t))) eqn:W.
  - destruct (clear_writer strict σ t L W) as (tr1 & σ1 & S1 & W1 & T1). pose proof (steps_locks _ _ _ _ L S1) as L1. rewrite <- T1 in W.
    destruct (clear_readers strict _ σ1 t (le_n _) L1 W1 W) as (tr2 & σ2 & S2 & W2 & R2 & T2). pose proof (steps_locks _ _ _ _ L1 S2) as L2. rewrite <- T2 in W.
    assert (K : exists σ3, step strict σ2 None σ3 /\ waiting (th_pc (st_thr σ3 t)) = false).
    { destruct (th_pc (st_thr σ2 t)) eqn:P; try discriminate W.
      - eexists. split; [apply (st_put_lock strict σ2 t id v P W2 R2)|]. cbn [st_thr]. rewrite go_same. reflexivity.
      - eexists. split; [apply (st_app_lock strict σ2 t id v P W2 R2)|]. cbn [st_thr]. rewrite go_same. reflexivity.
      - eexists. split; [apply (st_get_lock strict σ2 t id P W2)|]. cbn [st_thr]. rewrite go_same. reflexivity. }
    destruct K as (σ3 & S3 & W3).
    destruct (run_out strict _ σ3 t (le_n _) (step_locks _ _ _ _ L2 S3) W3) as (tr4 & σ4 & S4 & I4 & _).
    exists ((tr1 ++ tr2) ++ (snoc [] None ++ tr4)), σ4. split; [|exact I4].
    eapply steps_trans; [eapply steps_trans; eassumption|]. eapply steps_trans; [apply steps_one, S3|exact S4].
  - destruct (run_out strict _ σ t (le_n _) L W) as (tr' & σ' & S & I & _). exists tr', σ'. split; assumption.
Qed.

(** ** One slice put under two keys *)
Definition share_acts : list act :=
  [AMake 0 (str "ab") (zeros 2); APut 0 (str "k1")] ++ goes 0 4 ++ [APut 0 (str "k2")] ++ goes 0 4
  ++ [AApp 0 (str "k1") (str "c")] ++ goes 0 8 ++ [AApp 0 (str "k2") (str "d")] ++ goes 0 8 ++ [AGet 0 (str "k1")] ++ goes 0 4.
Lemma share_exec : exists σ, exec false share_trace σ.
Proof. apply (run_shows false share_acts). vm_compute. reflexivity. Qed.

Lemma of_thread_all l : (forall t, t <> 0 -> of_thread t l = []) -> l = map (fun c => (0, c)) (of_thread 0 l).
Proof.
  induction l as [|[t c] l IH]; intros H; [reflexivity|]. assert (t = 0) as ->.
  { destruct (Nat.eq_dec t 0) as [E|N]; [exact E|]. specialize (H t N). cbn [of_thread flat_map fst snd] in H. rewrite Nat.eqb_refl in H. discriminate. }
  cbn [of_thread flat_map fst snd Nat.eqb app map]. f_equal. apply IH. intros t N. specialize (H t N). cbn [of_thread flat_map fst snd] in H.
  apply app_eq_nil in H. apply H.
Qed.
Lemma share_not_atomic : ~ atomic_trace share_trace.
Proof.
  intros A. apply (atomic_get 0 (firstn 9 share_trace) (str "k1") [] (Some (str "abd"))) in A; [|reflexivity|reflexivity].
  destruct A as (L & V & B).
  assert (Z : forall t, t <> 0 -> of_thread t L = []).
  { intros t N. destruct (B t) as [_ [r P]]. destruct t as [|t]; [contradiction|]. vm_compute in P. symmetry in P. apply app_eq_nil in P. apply P. }
  pose proof (of_thread_all L Z) as EL. destruct (B 0) as [LEN [r P]]. rewrite EL in V. revert V.
  change (returned_by 0 (firstn 9 share_trace)) with 4 in LEN. revert LEN P. generalize (of_thread 0 L). intros l LEN P.
  assert (C : l = firstn (length l) (invoked_by 0 (firstn 9 share_trace ++ [EInvoke 0 (CGet (str "k1"))]))).
  { rewrite P. rewrite firstn_app, firstn_all, Nat.sub_diag. cbn [firstn]. rewrite app_nil_r. reflexivity. }
  assert (LL : length l <= 5).
  { apply (f_equal (@length _)) in P. rewrite app_length in P. change (length (invoked_by 0 (firstn 9 share_trace ++ [EInvoke 0 (CGet (str "k1"))]))) with 5 in P. lia. }
  rewrite C. assert (D : length l = 4 \/ length l = 5) by lia. destruct D as [-> | ->]; vm_compute; discriminate.
Qed.

(** A reader and an appender at the same byte. *)
Definition race_acts : list act :=
  [AMake 0 (str "ab") (zeros 2); APut 0 (str "k1")] ++ goes 0 4 ++ [APut 0 (str "k2")] ++ goes 0 4
  ++ [AApp 0 (str "k1") (str "c")] ++ goes 0 8 ++ [AGet 1 (str "k1")] ++ goes 1 4 ++ [AApp 0 (str "k2") (str "d")] ++ goes 0 3.
Lemma share_race : exists tr σ, exec false tr σ /\ data_race σ.
Proof.
  destruct (run_acts false init [] race_acts) as [[tr σ]|] eqn:R; [|vm_compute in R; discriminate].
  exists tr, σ. split; [eapply run_acts_exec; [constructor|exact R]|].
  exists 0, 1, (LByte 0 2), false. split; [discriminate|].
  assert (X : existsb (fun p => match p with (true, LByte 0 2) => true | _ => false end) (accesses (st_thr σ 0)) = true /\
              existsb (fun p => match p with (false, LByte 0 2) => true | _ => false end) (accesses (st_thr σ 1)) = true).
  { change σ with (snd (tr, σ)). generalize (f_equal (fun o => match o with Some p => snd p | None => init end) R). cbn [snd]. intros <-. vm_compute. split; reflexivity. }
  destruct X as [X Y]. apply existsb_exists in X as [[[] [|[|?] [|[|[|?]]]]] [X X']]; try discriminate X'.
  apply existsb_exists in Y as [[[] [|[|?] [|[|[|?]]]]] [Y Y']]; try discriminate Y'. split; assumption.
Qed.

(** ** Queries while others insert *)
Section Query.
Context {LIB : OPRF}.

Lemma insert_log (s : Server LIB) L : (forall t, Forall (server_call s) (of_thread t L)) ->
  exists db, Forall2 (stored_as s) db (appends L) /\
    forall kv, exists kv', store_all s kv db = Ok kv' /\ kv' = fold_left (fun kv p => fst (apply kv (snd p))) L kv.
Proof.
  induction L as [|[t c] L IH]; intros H.
  - exists []. split; [constructor|]. intros kv. exists kv. split; reflexivity.
  - destruct IH as (db & F & ST).
    { intros t'. specialize (H t'). cbn [of_thread flat_map] in H. apply Forall_app in H. apply H. }
    specialize (H t). cbn [of_thread flat_map fst snd] in H. rewrite Nat.eqb_refl in H. apply Forall_app in H as [H _].
    apply Forall_inv in H as [[id ->]|(d & SA)].
    + exists db. split; [exact F|]. intros kv. destruct (ST kv) as (kv' & E & E'). exists kv'. split; [exact E|exact E'].
    + exists (d :: db). pose proof SA as (id & e & B & EN & ->). split.
      * cbn [appends flat_map]. constructor; [exact SA|exact F].
      * intros kv. destruct (ST (kv_Append kv (BucketIDToHex id) e)) as (kv' & E & E'). exists kv'. split; [|exact E'].
        cbn [store_all]. rewrite B. cbn [bind]. rewrite EN. cbn [bind]. exact E.
Qed.

Lemma Forall_prefix {A} (P : A -> Prop) a b : prefix_of a b -> Forall P b -> Forall P a.
Proof. intros [r ->] H. apply Forall_app in H. apply H. Qed.

Variables (laws : OPRF_laws LIB) (cfg : Config) (key : PrivateKey LIB) (s : Server LIB) (c : Client).
Hypotheses (Hs : NewServer {| sc_config := cfg; sc_privateKey := key |} = Ok s) (Hc : NewClient LIB cfg = Ok c) (Hv : (cfg_version cfg < 2 ^ 16)%N).

Lemma query_during_inserts t tr1 tr2 u id v σ :
  Server_BucketID s u = Ok id ->
  exec true (tr1 ++ EInvoke t (CGet (BucketIDToHex id)) :: tr2 ++ [EReturn t (RValue v)]) σ -> invoked_by t tr2 = [] -> returned_by t tr2 = 0 ->
  (forall t', Forall (server_call s) (invoked_by t' (tr1 ++ EInvoke t (CGet (BucketIDToHex id)) :: tr2))) ->
  holdable (sl v) ->
  exists L db,
    between L tr1 (tr1 ++ EInvoke t (CGet (BucketIDToHex id)) :: tr2) /\ Forall2 (stored_as s) db (appends L) /\
    forall (p : bytes) (r : Blind LIB) (k : bytes) (kv : Getter), kv (BucketIDToHex id) = Ok v ->
      no_collision s db u p -> deriveBucketEntryKey s u p = Ok k ->
      run_query c s kv u p r = Ok (expected db u p).
Proof.
  intros Hid E NI NR F Hh. destruct (get_instant _ _ _ _ _ _ E NI NR) as (L & V & B).
  destruct (insert_log s L) as (db & FD & ST).
  { intros t'. eapply Forall_prefix; [apply (B t')|apply F]. }
  exists L, db. split; [exact B|]. split; [exact FD|]. intros p r k kv Hkv N Hk.
  destruct (ST newKVStore) as (kv' & SA & EQ). change (fold_left _ L newKVStore) with (replay L) in EQ. subst kv'.
  assert (SV : sl v = bucket_bytes (map (entry_of s) (filter (in_bucket s id) db))).
  { rewrite V. rewrite (store_all_bucket s _ db _ id SA) by (eapply Server_BucketID_lt; exact Hid). reflexivity. }
  eapply (run_query_bucket LIB laws cfg key s c Hs Hc Hv); eauto.
  eapply store_all_storable. exact SA.
Qed.
End Query.
