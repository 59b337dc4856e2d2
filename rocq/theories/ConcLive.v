(** * The concurrent store does a bounded amount of work for every call and
    never stops before all calls have returned. *)
From Coq Require Import Lia.
From Verif Require Import Base BaseProofs KV KVProofs SpecConc KVConc ConcProofs ConcHistory ConcRun ConcServer.

(** ** Sums over the first threads *)
Fixpoint upto (f : nat -> nat) (n : nat) : nat := match n with O => 0 | S n => upto f n + f n end.
Lemma upto_ext f g n : (forall i, i < n -> f i = g i) -> upto f n = upto g n.
Proof. induction n as [|n IH]; intros H; [reflexivity|]. cbn [upto]. rewrite IH by (intros; apply H; lia). rewrite H by lia. reflexivity. Qed.
Lemma upto_one f g n t : t < n -> (forall i, i <> t -> f i = g i) -> upto f n + g t = upto g n + f t.
Proof.
  induction n as [|n IH]; intros L H; [lia|]. cbn [upto]. destruct (Nat.eq_dec t n) as [->|N].
  - rewrite (upto_ext f g n) by (intros; apply H; lia). lia.
  - specialize (IH ltac:(lia) H). rewrite (H n) by lia. lia.
Qed.
Lemma upto_more f n m : n <= m -> (forall i, n <= i -> f i = 0) -> upto f m = upto f n.
Proof. intros L H. induction L as [|m L IH]; [reflexivity|]. cbn [upto]. rewrite IH, H by lia. lia. Qed.

Definition todo (σ : state) (t : nat) : nat := left_to_do (th_pc (st_thr σ t)).
Definition ecost (e : option event) : nat := match e with Some e => cost e | None => 0 end.

(** A step belongs to one thread and uses up what that thread had to do. *)
Lemma step_work strict σ e σ' : locks σ -> step strict σ e σ' ->
  exists t, (forall i, i <> t -> todo σ' i = todo σ i) /\ S (todo σ' t) <= todo σ t + ecost e.
Proof.
  intros L H. pose proof (l_fill _ L) as F. unfold todo.
  inversion H; subst; exists t; (split; [intros i0 N0; cbn [st_thr]; unfold go; try rewrite upd_other by exact N0; reflexivity|]); cbn [st_thr]; try rewrite go_same; try rewrite upd_same; cbn [th_pc];
    match goal with K : th_pc (st_thr _ ?t) = _ |- _ => specialize (F t); rewrite K in F |- * end; cbn [left_to_do ecost cost length]; try lia.
  - assert (j < length v) by (apply nth_error_Some; congruence). lia.
Qed.

Lemma snoc_cost tr e : list_sum (map cost (snoc tr e)) = list_sum (map cost tr) + ecost e.
Proof. destruct e as [e|]; cbn [snoc ecost]; [rewrite map_app, list_sum_app; cbn; lia|lia]. Qed.

Lemma runs_exec strict n tr σ : runs strict n tr σ -> exec strict tr σ.
Proof. induction 1 as [|n tr σ e σ' H IH S]; [apply exec_start|eapply exec_next; eassumption]. Qed.
Lemma exec_runs strict tr σ : exec strict tr σ -> exists n, runs strict n tr σ.
Proof. induction 1 as [|tr σ e σ' H [n IH] S]; [exists 0; apply runs_start|]. exists (Datatypes.S n). eapply runs_next; eassumption. Qed.

Lemma runs_work strict n tr σ : runs strict n tr σ ->
  exists N, (forall i, N <= i -> todo σ i = 0) /\ n + upto (todo σ) N <= list_sum (map cost tr).
Proof.
  induction 1 as [|n tr σ e σ' H (N & Z & B) S].
  - exists 0. split; [reflexivity|]. cbn. lia.
  - destruct (step_work strict σ e σ' (exec_locks _ _ _ (runs_exec _ _ _ _ H)) S) as (t & O & W).
    exists (Nat.max N (Datatypes.S t)). split.
    + intros i L. rewrite O by lia. apply Z. lia.
    + rewrite snoc_cost. pose proof (upto_one (todo σ') (todo σ) (Nat.max N (Datatypes.S t)) t ltac:(lia) O) as U.
      rewrite (upto_more (todo σ) N (Nat.max N (Datatypes.S t))) in U by (try lia; exact Z). lia.
Qed.
Lemma bounded_work strict n tr σ : runs strict n tr σ -> n <= list_sum (map cost tr).
Proof. intros H. destruct (runs_work _ _ _ _ H) as (N & _ & B). lia. Qed.

Lemma serves_runs strict m tr σ : runs strict m tr σ -> forall n tr' σ', serves strict n σ tr' σ' -> runs strict (n + m) (tr ++ tr') σ' /\ list_sum (map cost tr') = 0.
Proof.
  intros R n tr' σ' H. induction H as [σ|n σ tr' e σ1 σ2 H IH S C]; [rewrite app_nil_r; auto|]. destruct (IH R) as [IH1 IH2]. split.
  - replace (tr ++ snoc tr' e) with (snoc (tr ++ tr') e) by (destruct e; cbn; [rewrite app_assoc|]; reflexivity).
    apply (runs_next strict (n + m) _ _ _ _ IH1 S).
  - rewrite snoc_cost, IH2. destruct e as [[| | |]|]; try discriminate C; reflexivity.
Qed.

(** ** Someone can always go on *)
Lemma locks_go strict σ t : locks σ -> th_pc (st_thr σ t) <> Idle ->
  exists e σ', step strict σ e σ' /\ by_client e = false.
Proof.
  intros L NI.
  assert (ADV : forall t, th_pc (st_thr σ t) <> Idle -> waiting (th_pc (st_thr σ t)) = false -> exists e σ', step strict σ e σ' /\ by_client e = false).
  { clear t NI. intros t NI NW. destruct (advance strict σ t L NI NW) as (e & σ' & S & _ & LT & A). exists e, σ'. split; [exact S|].
    destruct (by_client e) eqn:B; [exfalso|reflexivity]. destruct A as (A & _).
    inversion S; subst; try discriminate B; cbn [st_thr] in *;
      try (destruct (Nat.eq_dec t0 t) as [->|N]; [congruence|]; revert LT; unfold go; rewrite upd_other by congruence; lia). lia. }
  destruct (waiting (th_pc (st_thr σ t))) eqn:W; [|exact (ADV t NI W)].
  destruct (st_writer σ) as [w|] eqn:WR.
  { apply (l_write _ L) in WR. apply (ADV w); [intros K; rewrite K in WR; discriminate|apply not_waiting_write, WR]. }
  destruct (st_readers σ) as [|r rs] eqn:RD.
  2: { assert (IR : in_read (th_pc (st_thr σ r)) = true) by (apply (l_read _ L); rewrite RD; left; reflexivity).
       apply (ADV r); [intros K; rewrite K in IR; discriminate|apply not_waiting_read, IR]. }
  destruct (th_pc (st_thr σ t)) eqn:P; try discriminate W.
  - do 2 eexists. split; [apply (st_put_lock strict σ t id v P WR RD)|reflexivity].
  - do 2 eexists. split; [apply (st_app_lock strict σ t id v P WR RD)|reflexivity].
  - do 2 eexists. split; [apply (st_get_lock strict σ t id P WR)|reflexivity].
Qed.

(** A thread is inside a call exactly when it has invoked one more call than
    it has returned from. *)
Lemma exec_open strict tr σ : exec strict tr σ -> forall t,
  length (invoked_by t tr) = returned_by t tr + match th_pc (st_thr σ t) with Idle => 0 | _ => 1 end.
Proof.
  induction 1 as [|tr σ e σ' H IH S]; intros t'; [reflexivity|]. specialize (IH t').
  inversion S; subst; cbn [snoc st_thr]; rewrite ?invoked_app, ?returned_app, ?app_length, ?IH;
    unfold go; try match goal with |- context [upd _ ?t ?x t'] => destruct (upd_cases (st_thr σ) t x t') as [[-> E]|[N E]]; rewrite E; cbn [th_pc];
      try match goal with P : th_pc (st_thr σ t) = _ |- _ => rewrite P end end;
    unfold returned_by; cbn [invoked_by flat_map filter length app];
    try rewrite Nat.eqb_refl; try (assert (EQ : (t =? t')%nat = false) by (apply Nat.eqb_neq; congruence); rewrite EQ); cbn [length app]; try lia.
Qed.

Lemma no_deadlock strict tr σ t : exec strict tr σ -> returned_by t tr <> length (invoked_by t tr) ->
  exists e σ', step strict σ e σ' /\ by_client e = false.
Proof.
  intros E N. apply (locks_go strict σ t (exec_locks _ _ _ E)). intros P. apply N. rewrite (exec_open _ _ _ E t), P. lia.
Qed.

Lemma all_finish strict tr σ n tr' σ' : exec strict tr σ -> serves strict n σ tr' σ' ->
  n <= list_sum (map cost tr) /\
  ((forall e σ2, step strict σ' e σ2 -> by_client e = true) -> forall t, returned_by t (tr ++ tr') = length (invoked_by t (tr ++ tr'))).
Proof.
  intros E H. destruct (exec_runs _ _ _ E) as [m R]. destruct (serves_runs _ _ _ _ R _ _ _ H) as [R' Z]. split.
  - apply bounded_work in R'. rewrite map_app, list_sum_app, Z in R'. lia.
  - intros Q t. destruct (Nat.eq_dec (returned_by t (tr ++ tr')) (length (invoked_by t (tr ++ tr')))) as [K|K]; [exact K|exfalso].
    destruct (no_deadlock strict _ _ t (runs_exec _ _ _ _ R') K) as (e & σ2 & S & B). rewrite (Q e σ2 S) in B. discriminate.
Qed.
