(** * Consequences of [RWProofs.v]: executions, progress, bounded work, waiting
    writers. *)
From Coq Require Import Lia ZArith.
From Verif Require Import Base BaseProofs KV KVProofs SpecConc SpecRW KVConc ConcProofs ConcHistory ConcRun ConcServer ConcLive RWLock RWProofs.

Section Live.
Variable n : nat.
Hypothesis n_small : (Z.of_nat n < maxReaders)%Z.

Lemma upto_zero f m : (forall t, f t = 0) -> upto f m = 0.
Proof. intros H. induction m as [|m IH]; [reflexivity|]. cbn [upto]. rewrite IH, H. reflexivity. Qed.

Lemma inv_init : inv n c_init.
Proof.
  split.
  - intros t. cbn. discriminate.
  - intros t _. split; reflexivity.
  - discriminate.
  - change (phase_of c_init) with (Free 0). unfold nA, nP, nD, nE. rewrite !upto_zero by reflexivity. cbn. lia.
Qed.

Lemma cruns_inv strict m tr c : cruns n strict m tr c -> inv n c /\ exec strict tr (c_st c) /\ c_fatal c = false.
Proof.
  induction 1 as [|m tr c e c' H (V & E & _) (t & LT & S)]; [split; [exact inv_init|split; [apply exec_start|reflexivity]]|].
  destruct (tstep_inv n n_small strict t c e c' V (exec_locks _ _ _ E) LT S) as (M & V' & F). split; [exact V'|]. split; [|exact F].
  destruct M as [M|[-> ->]]; [eapply exec_next; eassumption|exact E].
Qed.

(** ** Someone can always go on *)
Definition goes_on strict (c : cstate) : Prop := exists e c', cstep n strict c e c' /\ by_client e = false.

Lemma idle_out c t : inv n c -> c_lpc c t <> LOut -> pc_of c t <> Idle.
Proof. intros V N K. pose proof (v_fits _ _ V t) as F. rewrite K in F. destruct (c_lpc c t); cbn in F; [contradiction|destruct F; discriminate..|discriminate F|destruct F as [(x & F) _]; discriminate F|destruct F as (x & F); discriminate F]. Qed.
Lemma in_range c t : inv n c -> pc_of c t <> Idle -> t < n.
Proof. intros V N. destruct (Nat.lt_ge_cases t n) as [L|L]; [exact L|]. destruct (v_out _ _ V t L) as [K _]. contradiction. Qed.

Lemma advance_server strict σ t : locks σ -> th_pc (st_thr σ t) <> Idle -> waiting (th_pc (st_thr σ t)) = false ->
  exists e σ', step strict σ e σ' /\ by_client e = false /\ (forall t', t' <> t -> st_thr σ' t' = st_thr σ t').
Proof.
  intros L NI NW. destruct (advance strict σ t L NI NW) as (e & σ' & S & _ & LT & A). exists e, σ'. split; [exact S|]. split; [|apply A].
  destruct (by_client e) eqn:B; [exfalso|reflexivity]. destruct A as (A & _).
  inversion S; subst; try discriminate B; cbn [st_thr] in *;
    try (destruct (Nat.eq_dec t0 t) as [->|N]; [congruence|]; revert LT; unfold go; rewrite upd_other by congruence; lia). lia.
Qed.

Lemma adv strict c t : inv n c -> locks (c_st c) -> c_fatal c = false -> c_lpc c t = LOut -> pc_of c t <> Idle -> waiting (pc_of c t) = false -> goes_on strict c.
Proof.
  intros V L NF LO NI NW. pose proof (in_range _ _ V NI) as LT. destruct c as [σ [w ws rs cnt wt] l f]. unfold pc_of in *. cbn [c_st c_lpc c_fatal] in *. subst f.
  destruct (at_mutex (th_pc (st_thr σ t))) eqn:AM.
  - destruct (th_pc (st_thr σ t)) eqn:P; try discriminate AM; try discriminate NW.
    + destruct (Z.lt_ge_cases (int32 (cnt + maxReaders)) maxReaders) as [Q|Q].
      * do 2 eexists. split; [exists t; split; [exact LT|]; eapply c_unlock; [exact LO|rewrite P; reflexivity|reflexivity|exact Q]|reflexivity].
      * do 2 eexists. split; [exists t; split; [exact LT|]; eapply c_unlock_fatal; [exact LO|rewrite P; reflexivity|lia]|reflexivity].
    + destruct (Z.lt_ge_cases (int32 (cnt + maxReaders)) maxReaders) as [Q|Q].
      * do 2 eexists. split; [exists t; split; [exact LT|]; eapply c_unlock; [exact LO|rewrite P; reflexivity|reflexivity|exact Q]|reflexivity].
      * do 2 eexists. split; [exists t; split; [exact LT|]; eapply c_unlock_fatal; [exact LO|rewrite P; reflexivity|lia]|reflexivity].
    + do 2 eexists. split; [exists t; split; [exact LT|]; eapply c_runlock; [exact LO|rewrite P; reflexivity|reflexivity]|reflexivity].
  - destruct (advance_server strict σ t L NI NW) as (e & σ' & S & B & A). exists e. eexists. split; [exists t; split; [exact LT|]; eapply c_work; eassumption|exact B].
Qed.

(** A thread inside a method of the mutex other than at a semaphore. *)
Lemma adv_mutex strict c t : inv n c -> c_fatal c = false ->
  match c_lpc c t with LOut | LWaitWriter | LWaitReader => False | _ => True end -> goes_on strict c.
Proof.
  intros V NF K. assert (NI : pc_of c t <> Idle) by (apply (idle_out c t V); intros E; rewrite E in K; exact K).
  pose proof (in_range _ _ V NI) as LT. destruct c as [σ [w ws rs cnt wt] l f]. cbn [c_st c_lpc c_fatal] in *. subst f.
  destruct (l t) as [| |r| |k| |r|] eqn:E; try contradiction.
  - destruct (Z.eq_dec (int32 (int32 (cnt - maxReaders) + maxReaders)) 0) as [Q|Q].
    + do 2 eexists. split; [exists t; split; [exact LT|]; eapply c_announce_free; eassumption|reflexivity].
    + do 2 eexists. split; [exists t; split; [exact LT|]; eapply c_announce; [exact E|reflexivity|exact Q]|reflexivity].
  - destruct (Z.eq_dec (int32 (wt + r)) 0) as [Q|Q].
    + do 2 eexists. split; [exists t; split; [exact LT|]; eapply c_wait_free; eassumption|reflexivity].
    + do 2 eexists. split; [exists t; split; [exact LT|]; eapply c_wait; eassumption|reflexivity].
  - destruct k as [|k].
    + do 2 eexists. split; [exists t; split; [exact LT|]; eapply c_unlock_w; eassumption|reflexivity].
    + do 2 eexists. split; [exists t; split; [exact LT|]; eapply c_release; eassumption|reflexivity].
  - destruct (Z.eq_dec (int32 (r + 1)) 0) as [Q|Q]; [|destruct (Z.eq_dec (int32 (r + 1)) (- maxReaders)) as [Q'|Q']].
    + do 2 eexists. split; [exists t; split; [exact LT|]; eapply c_rslow_fatal; [exact E|left; exact Q]|reflexivity].
    + do 2 eexists. split; [exists t; split; [exact LT|]; eapply c_rslow_fatal; [exact E|right; exact Q']|reflexivity].
    + do 2 eexists. split; [exists t; split; [exact LT|]; eapply c_rslow; [exact E|split; assumption]|reflexivity].
  - do 2 eexists. split; [exists t; split; [exact LT|]; eapply c_wake; eassumption|reflexivity].
Qed.

Lemma reader_out c t : inv n c -> in_read (pc_of c t) = true -> c_lpc c t = LOut.
Proof.
  intros V I. pose proof (v_fits _ _ V t) as F. destruct (c_lpc c t); cbn in F; [reflexivity|exfalso..].
  - destruct F as [F _]. destruct (pc_of c t); discriminate.
  - destruct F as [F _]. destruct (pc_of c t); discriminate.
  - destruct F as [F _]. destruct (pc_of c t); discriminate.
  - destruct F as [F _]. rewrite F in I. discriminate.
  - destruct (pc_of c t); discriminate.
  - destruct F as [(x & F) _]. rewrite F in I. discriminate.
  - destruct F as (x & F). rewrite F in I. discriminate.
Qed.
Lemma count_some f : 0 < upto (fun t => b2n (f t)) n -> exists t, t < n /\ f t = true.
Proof. intros H. destruct (upto_some _ _ H) as (t & L & F). exists t. split; [exact L|]. destruct (f t); [reflexivity|cbn in F; lia]. Qed.

Lemma take_read strict c t : inv n c -> c_fatal c = false -> t < n -> c_lpc c t = LWaitReader -> 0 < rw_readerSem (c_rw c) -> goes_on strict c.
Proof.
  intros V NF LT E P. destruct c as [σ [w ws rs cnt wt] l f]. cbn in *. subst f. destruct rs as [|rs]; [lia|].
  do 2 eexists. split; [exists t; split; [exact LT|]; eapply c_racquire; eassumption|reflexivity].
Qed.
Lemma adv_waitw strict c t : inv n c -> locks (c_st c) -> c_fatal c = false -> c_lpc c t = LWaitWriter -> goes_on strict c.
Proof.
  intros V L NF E. pose proof (v_fits _ _ V t) as F. rewrite E in F. destruct F as [AL W].
  assert (NI : pc_of c t <> Idle) by (intros K; rewrite K in AL; discriminate). pose proof (in_range _ _ V NI) as LT.
  assert (PH : phase_of c = Waitw) by (unfold phase_of; rewrite W, E; reflexivity).
  pose proof (v_num _ _ V) as NUM. rewrite PH in NUM. unfold numbers in NUM.
  destruct (rw_writerSem (c_rw c)) as [|ws'] eqn:WS.
  2: { destruct c as [σ [w ws rs cnt wt] l f]. cbn in *. subst. do 2 eexists. split; [exists t; split; [exact LT|]; eapply c_acquire; eassumption|reflexivity]. }
  destruct (Nat.eq_dec (nE n c) 0) as [E0|E0].
  2: { destruct (count_some (fun t => isE (c_lpc c t))) as (t' & L' & K); [unfold nE in E0; lia|]. apply (adv_mutex strict c t' V NF). destruct (c_lpc c t'); try discriminate K. exact I. }
  destruct (Nat.eq_dec (nD n c) 0) as [D0|D0].
  2: { destruct (count_some (fun t => isD (c_lpc c t))) as (t' & L' & K); [unfold nD in D0; lia|]. apply (adv_mutex strict c t' V NF). destruct (c_lpc c t'); try discriminate K. exact I. }
  destruct (Nat.eq_dec (nA n c) 0) as [A0|A0].
  2: { destruct (count_some (fun t => in_read (pc_of c t))) as (t' & L' & K); [unfold nA in A0; lia|]. apply (adv strict c t' V L NF (reader_out c t' V K)); [intros Q; rewrite Q in K; discriminate|apply not_waiting_read, K]. }
  destruct (count_some (fun t => isP (c_lpc c t))) as (t' & L' & K); [unfold nP in NUM; lia|].
  apply (take_read strict c t' V NF L'); [destruct (c_lpc c t'); try discriminate K; reflexivity|lia].
Qed.
Lemma adv_holder strict c h : inv n c -> locks (c_st c) -> c_fatal c = false -> rw_w (c_rw c) = Some h -> goes_on strict c.
Proof.
  intros V L NF W. pose proof (v_hold _ _ V h W) as H. destruct (c_lpc c h) eqn:E; try discriminate H.
  - apply (adv strict c h V L NF E); [intros Q; rewrite Q in H; discriminate|apply not_waiting_write, H].
  - apply (adv_mutex strict c h V NF). rewrite E. exact I.
  - apply (adv_mutex strict c h V NF). rewrite E. exact I.
  - apply (adv_waitw strict c h V L NF E).
  - apply (adv_mutex strict c h V NF). rewrite E. exact I.
Qed.

Lemma somebody_goes_on strict c t : inv n c -> locks (c_st c) -> c_fatal c = false -> pc_of c t <> Idle -> goes_on strict c.
Proof.
  intros V L NF NI. pose proof (in_range _ _ V NI) as LT.
  destruct (rw_w (c_rw c)) as [h|] eqn:W; [exact (adv_holder strict c h V L NF W)|].
  pose proof (v_fits _ _ V t) as F. pose proof (v_num _ _ V) as NUM. assert (PH : phase_of c = Free 0) by (unfold phase_of; rewrite W; reflexivity). rewrite PH in NUM. unfold numbers in NUM.
  destruct (c_lpc c t) eqn:E; try (apply (adv_mutex strict c t V NF); rewrite E; exact I).
  - destruct (waiting (pc_of c t)) eqn:WT; [|exact (adv strict c t V L NF E NI WT)].
    destruct c as [σ [w ws rs cnt wt] l f]. unfold pc_of in *. cbn in *. subst.
    destruct (th_pc (st_thr σ t)) eqn:P; try discriminate WT.
    + do 2 eexists. split; [exists t; split; [exact LT|]; eapply c_lock; [exact E|rewrite P; reflexivity]|reflexivity].
    + do 2 eexists. split; [exists t; split; [exact LT|]; eapply c_lock; [exact E|rewrite P; reflexivity]|reflexivity].
    + destruct (Z.lt_ge_cases (int32 (cnt + 1)) 0) as [Q|Q].
      * do 2 eexists. split; [exists t; split; [exact LT|]; eapply c_rlock_wait; [exact E|rewrite P; reflexivity|exact Q]|reflexivity].
      * do 2 eexists. split; [exists t; split; [exact LT|]; eapply c_rlock; [exact E|rewrite P; reflexivity|lia]|reflexivity].
  - destruct F as [_ F]. congruence.
  - apply (take_read strict c t V NF LT E). pose proof (upto_pos (fun t => b2n (isP (c_lpc c t))) n t LT) as U. cbv beta in U. rewrite E in U. cbn [isP b2n] in U. unfold nP in NUM. lia.
Qed.

Lemma rw_no_deadlock strict m tr c t : cruns n strict m tr c -> returned_by t tr <> length (invoked_by t tr) -> goes_on strict c.
Proof.
  intros R N. destruct (cruns_inv _ _ _ _ R) as (V & E & NF). apply (somebody_goes_on strict c t V (exec_locks _ _ _ E) NF).
  intros P. apply N. rewrite (exec_open _ _ _ E t). unfold pc_of in P. rewrite P. lia.
Qed.

(** ** Bounded work *)
Definition base (p : pc) : nat := left_to_do p + (if waiting p then 4 else if in_write p then 1 else if in_read p then 2 else 0).
Definition weight (p : pc) (l : lpc) : nat :=
  match l with
  | LOut => base p
  | LMutex => base p - 1
  | LAnnounced _ => base p - 2
  | LWaitWriter => base p - 3
  | LRelease _ => 2
  | LWaitReader => 6
  | LSlow _ => 3
  | LWake => 2
  end.
Definition rw_ecost (e : option event) : nat := match e with Some e => rw_cost e | None => 0 end.

Lemma thr_pc {f : nat -> thread} {t x} : f t = x -> th_pc (f t) = th_pc x.
Proof. congruence. Qed.
Lemma work_weight strict σ e σ' t : locks σ -> step strict σ e σ' -> at_mutex (th_pc (st_thr σ t)) = false ->
  (forall t', t' <> t -> st_thr σ' t' = st_thr σ t') ->
  S (base (th_pc (st_thr σ' t))) <= base (th_pc (st_thr σ t)) + rw_ecost e.
Proof.
  intros L H AM OT. pose proof (l_fill _ L) as F.
  inversion H; subst; cbn [st_thr] in *; unfold go in *;
    (destruct (Nat.eq_dec t0 t) as [->|NE];
     [rewrite ?upd_same; cbn [th_pc];
      match goal with K : th_pc (st_thr _ t) = _ |- _ => specialize (F t); rewrite K in F, AM |- * end; try discriminate AM; cbn [base waiting in_write in_read left_to_do rw_ecost rw_cost length]; try lia
     |try rewrite upd_other by congruence; cbn [rw_ecost rw_cost]; try lia;
      exfalso; specialize (OT t0 NE); rewrite upd_same in OT; apply (f_equal th_pc) in OT; cbn [th_pc] in OT; try congruence]).
  all: try (unfold base; cbn; lia).
  - assert (j < length v) by (apply nth_error_Some; congruence). unfold base. cbn. lia.
  - match goal with K : th_pc (st_thr _ t0) = _ |- _ => rewrite K in OT end. injection OT as OT. lia.
Qed.

Definition pending (c : cstate) : nat := upto (fun t => weight (pc_of c t) (c_lpc c t)) n + (nP n c - rw_readerSem (c_rw c)).

Lemma sem_le c : inv n c -> rw_readerSem (c_rw c) <= nP n c.
Proof. intros V. pose proof (v_num _ _ V) as N. unfold numbers in N. destruct (phase_of c); lia. Qed.

Lemma weights c c' t : t < n -> only c c' t ->
  upto (fun t => weight (pc_of c' t) (c_lpc c' t)) n + weight (pc_of c t) (c_lpc c t) = upto (fun t => weight (pc_of c t) (c_lpc c t)) n + weight (pc_of c' t) (c_lpc c' t).
Proof.
  intros L O. match goal with |- upto ?f n + _ = upto ?g n + _ => apply (upto_one f g n t L) end. intros i N. destruct (O i N) as [E1 E2]. rewrite E1, E2. reflexivity.
Qed.

Lemma only_step strict t c e c' : tstep strict t c e c' -> only c c' t.
Proof.
  intros S. inversion S; subst; intros t' N'; unfold pc_of; cbn [c_st c_lpc]; rewrite ?upd_other by exact N'; unfold locked, rlocked, unlocked, runlocked; cbn [st_thr]; rewrite ?go_pc' by exact N'; try (split; reflexivity).
  match goal with OT : forall t', _ -> st_thr _ t' = st_thr _ t' |- _ => rewrite OT by exact N'; split; reflexivity end.
Qed.

Ltac at_pc t :=
  match goal with
  | M : ?f (th_pc (st_thr ?s t)) = true |- _ => destruct (th_pc (st_thr s t)) eqn:?PC; try discriminate M; cbn in *; rewrite ?go_pc in *; cbn in *; lia
  end.

Lemma tstep_work strict t c e c' : inv n c -> locks (c_st c) -> t < n -> tstep strict t c e c' -> c_fatal c' = false ->
  S (pending c') <= pending c + rw_ecost e.
Proof.
  intros V L LT S NF. pose proof (only_step _ _ _ _ _ S) as O. pose proof (weights c c' t LT O) as W. destruct (counts n c c' t LT O) as (_ & C2 & _ & _).
  pose proof (sem_le c V) as SL. unfold pending. destruct (tstep_inv n n_small strict t c e c' V L LT S) as (_ & V' & _). pose proof (sem_le c' V') as SL'.
  pose proof (v_fits _ _ V t) as F.
  set (x := upto (fun t => weight (pc_of c t) (c_lpc c t)) n) in *. set (x' := upto (fun t => weight (pc_of c' t) (c_lpc c' t)) n) in *. set (p := nP n c) in *. set (p' := nP n c') in *. clearbody x x' p p'. clear V V' O.
  inversion S as [σ rw l e0 σ' E M ST OT|σ ws rs cnt wt l E M|σ w ws rs cnt wt l r E R NZ|σ w ws rs cnt wt l E R|σ w ws rs cnt wt l r E R|σ w ws rs cnt wt l r E R
    |σ w ws rs cnt wt l E|σ w ws rs cnt wt l E M R|σ w ws rs cnt wt l E M R|σ w ws rs cnt wt l E|σ w ws rs cnt wt l r E M R|σ rw l r E R|σ w ws rs cnt wt l r E R|σ w ws rs cnt wt l E
    |σ w ws rs cnt wt l E M R|σ w ws rs cnt wt l r E M R LR|σ w ws rs cnt wt l k E|σ w ws rs cnt wt l E]; subst; clear S; try discriminate NF;
    unfold pc_of, locked, rlocked, unlocked, runlocked in *; cbn [c_st c_rw c_lpc c_fatal rw_w rw_writerSem rw_readerSem rw_count rw_wait st_thr] in *;
    rewrite ?upd_same, ?go_pc in W, C2; rewrite E in *; cbn [fits] in F; cbn [weight isP b2n rw_ecost] in *.
  - pose proof (work_weight strict σ e σ' t L ST M OT). lia.
  - at_pc t.
  - destruct F as [M _]. at_pc t.
  - destruct F as [M _]. at_pc t.
  - destruct F as [M _]. at_pc t.
  - destruct F as [M _]. at_pc t.
  - destruct F as [M _]. at_pc t.
  - at_pc t.
  - at_pc t.
  - at_pc t.
  - destruct (int32 (cnt - 1) <? 0)%Z; at_pc t.
  - destruct F as [(y & F) _]. rewrite F in *. destruct (int32 (wt - 1) =? 0)%Z; cbn in *; lia.
  - destruct F as (y & F). rewrite F in *. cbn in *; lia.
  - at_pc t.
  - lia.
  - destruct F as [F _]. rewrite F in *. cbn in *. lia.
Qed.

Lemma rw_snoc_cost tr e : list_sum (map rw_cost (snoc tr e)) = list_sum (map rw_cost tr) + rw_ecost e.
Proof. destruct e as [e|]; cbn [snoc rw_ecost]; [rewrite map_app, list_sum_app; cbn; lia|lia]. Qed.
Lemma rw_work strict m tr c : cruns n strict m tr c -> m + pending c <= list_sum (map rw_cost tr).
Proof.
  induction 1 as [|m tr c e c' H IH (t & LT & S)].
  - unfold pending, nP. rewrite !upto_zero by reflexivity. cbn. lia.
  - destruct (cruns_inv _ _ _ _ H) as (V & E & _). destruct (tstep_inv n n_small strict t c e c' V (exec_locks _ _ _ E) LT S) as (_ & _ & NF).
    pose proof (tstep_work strict t c e c' V (exec_locks _ _ _ E) LT S NF). rewrite rw_snoc_cost. lia.
Qed.
Lemma rw_bounded strict m tr c : cruns n strict m tr c -> m <= list_sum (map rw_cost tr).
Proof. intros H. apply rw_work in H. lia. Qed.

Lemma cserves_runs strict m tr c : cruns n strict m tr c -> forall k tr' c', cserves n strict k c tr' c' -> cruns n strict (k + m) (tr ++ tr') c' /\ list_sum (map rw_cost tr') = 0.
Proof.
  intros R k tr' c' H. induction H as [c|k c tr' e c1 c2 H IH S C]; [rewrite app_nil_r; split; [exact R|reflexivity]|]. destruct (IH R) as [IH1 IH2]. split.
  - replace (tr ++ snoc tr' e) with (snoc (tr ++ tr') e) by (destruct e; cbn; [rewrite app_assoc|]; reflexivity).
    apply (cr_next n strict (k + m) _ _ _ _ IH1 S).
  - rewrite rw_snoc_cost, IH2. destruct e as [[| | |]|]; try discriminate C; reflexivity.
Qed.
Lemma rw_all_finish strict m tr c k tr' c' : cruns n strict m tr c -> cserves n strict k c tr' c' ->
  k <= list_sum (map rw_cost tr) /\
  ((forall e c2, cstep n strict c' e c2 -> by_client e = true) -> forall t, returned_by t (tr ++ tr') = length (invoked_by t (tr ++ tr'))).
Proof.
  intros R H. destruct (cserves_runs _ _ _ _ R _ _ _ H) as [R' Z]. split.
  - apply rw_bounded in R'. rewrite map_app, list_sum_app, Z in R'. lia.
  - intros Q t. destruct (Nat.eq_dec (returned_by t (tr ++ tr')) (length (invoked_by t (tr ++ tr')))) as [K|K]; [exact K|exfalso].
    destruct (rw_no_deadlock strict _ _ _ t R' K) as (e & c2 & S & B). rewrite (Q e c2 S) in B. discriminate.
Qed.

(** ** A waiting writer *)
Definition is_ret (p : pc) : bool := match p with RetDone | RetValue _ => true | _ => false end.
Definition nR (c : cstate) : nat := upto (fun t => b2n (is_ret (pc_of c t))) n.
Definition ahead (c : cstate) : nat := nA n c + rw_readerSem (c_rw c) + nR c.
Definition ereturn (e : option event) : nat := match e with Some (EReturn _ _) => 1 | _ => 0 end.

Lemma work_ret strict σ e σ' t : step strict σ e σ' -> at_mutex (th_pc (st_thr σ t)) = false ->
  (forall t', t' <> t -> st_thr σ' t' = st_thr σ t') ->
  b2n (is_ret (th_pc (st_thr σ' t))) + ereturn e <= b2n (is_ret (th_pc (st_thr σ t))).
Proof.
  intros H AM OT.
  inversion H; subst; cbn [st_thr] in *; unfold go in *;
    (destruct (Nat.eq_dec t0 t) as [->|NE];
     [rewrite ?upd_same; cbn [th_pc];
      match goal with K : th_pc (st_thr _ t) = _ |- _ => rewrite K in AM |- * end; try discriminate AM; cbn [is_ret b2n ereturn]; lia
     |try rewrite upd_other by congruence; cbn [ereturn]; try lia]);
    exfalso; specialize (OT t0 NE); rewrite upd_same in OT; apply (f_equal th_pc) in OT; cbn [th_pc] in OT; congruence.
Qed.

Lemma announced_holds c t : inv n c -> announced c t -> rw_w (c_rw c) = Some t /\ at_lock (pc_of c t) = true /\ ((exists r, phase_of c = Ann r) \/ phase_of c = Waitw).
Proof.
  intros V A. pose proof (v_fits _ _ V t) as F. unfold announced in A. destruct (c_lpc c t) eqn:E; try contradiction; destruct F as [F W]; (split; [exact W|split; [exact F|]]); unfold phase_of; rewrite W, E.
  - left. exists r. reflexivity.
  - right. reflexivity.
Qed.

Lemma rets c c' t : t < n -> only c c' t -> nR c' + b2n (is_ret (pc_of c t)) = nR c + b2n (is_ret (pc_of c' t)).
Proof. intros L O. unfold nR. match goal with |- upto ?f n + _ = upto ?g n + _ => apply (upto_one f g n t L) end. intros i N. destruct (O i N) as [E1 E2]. rewrite E1. reflexivity. Qed.

Lemma ahead_step strict t0 t c e c' : inv n c -> announced c t0 -> t < n -> tstep strict t c e c' ->
  ahead c' + ereturn e <= ahead c.
Proof.
  intros V AN LT S. pose proof (only_step _ _ _ _ _ S) as O. destruct (counts n c c' t LT O) as (C1 & _ & _ & _). pose proof (rets c c' t LT O) as C5.
  destruct (announced_holds c t0 V AN) as (HW & HL & PH). pose proof (v_num _ _ V) as NUM. pose proof (v_fits _ _ V t) as F. pose proof (total_but n c t V LT) as TB. unfold announced in AN.
  unfold ahead. set (a := nA n c) in *. set (a' := nA n c') in *. set (r0 := nR c) in *. set (r' := nR c') in *. clearbody a' r0 r'. 
  inversion S as [σ rw l e0 σ' E M ST OT|σ ws rs cnt wt l E M|σ w ws rs cnt wt l r E R NZ|σ w ws rs cnt wt l E R|σ w ws rs cnt wt l r E R|σ w ws rs cnt wt l r E R
    |σ w ws rs cnt wt l E|σ w ws rs cnt wt l E M R|σ w ws rs cnt wt l E M R|σ w ws rs cnt wt l E|σ w ws rs cnt wt l r E M R|σ rw l r E R|σ w ws rs cnt wt l r E R|σ w ws rs cnt wt l E
    |σ w ws rs cnt wt l E M R|σ w ws rs cnt wt l r E M R LR|σ w ws rs cnt wt l k E|σ w ws rs cnt wt l E]; subst; clear S O;
    unfold pc_of, locked, rlocked, unlocked, runlocked in *; cbn [c_st c_rw c_lpc c_fatal rw_w rw_writerSem rw_readerSem rw_count rw_wait st_thr] in *;
    rewrite ?upd_same, ?go_pc in C1, C5; rewrite E in F, TB; cbn [fits] in F; cbn [isP isD isE orb ereturn] in *.
  - destruct (work_pc strict σ e σ' t ST M) as [WR _]. rewrite WR in C1. pose proof (work_ret strict σ e σ' t ST M OT). lia.
  - discriminate HW.
  - destruct F as [M _]. at_pc t.
  - destruct F as [M _]. at_pc t.
  - destruct F as [M _]. at_pc t.
  - destruct F as [M _]. at_pc t.
  - destruct F as [M _]. at_pc t.
  - exfalso. assert (T : (Z.of_nat a + Z.of_nat (nP n (mkC σ (mkRW w ws rs cnt wt) l false)) + Z.of_nat (nD n (mkC σ (mkRW w ws rs cnt wt) l false)) + Z.of_nat (nE n (mkC σ (mkRW w ws rs cnt wt) l false)) < Z.of_nat n)%Z) by (apply TB; [destruct (th_pc (st_thr σ t)); try discriminate M; reflexivity|reflexivity]).
    revert T NUM R. clearbody a. generalize (nP n (mkC σ (mkRW w ws rs cnt wt) l false)) (nD n (mkC σ (mkRW w ws rs cnt wt) l false)) (nE n (mkC σ (mkRW w ws rs cnt wt) l false)). intros p d e0 T NUM R.
    pose proof n_small as NS. unfold numbers in NUM. cbn [rw_writerSem rw_readerSem rw_count rw_wait] in NUM. rewrite max_eq in *.
    destruct PH as [(r & PH)|PH]; rewrite PH in NUM; rewrite int32_lit in R by lia; lia.
  - at_pc t.
  - at_pc t.
  - at_pc t.
  - lia.
  - destruct F as [(y & F) _]. rewrite F in *. cbn in *; lia.
  - destruct F as (y & F). rewrite F in *. cbn in *; lia.
  - lia.
  - exfalso. assert (K : w = Some t) by (apply F; destruct (th_pc (st_thr σ t)); try discriminate M; reflexivity). rewrite K in HW. injection HW as ->. rewrite E in AN. contradiction.
  - exfalso. destruct F as [_ F]. rewrite F in HW. injection HW as ->. rewrite E in AN. contradiction.
  - exfalso. destruct F as [_ F]. rewrite F in HW. injection HW as ->. rewrite E in AN. contradiction.
Qed.

(** Once announced, a thread is back before the announcement only after it has returned. *)
Definition past (c : cstate) (t : nat) : Prop := announced c t \/ in_write (pc_of c t) = true \/ pc_of c t = RetDone.
Lemma past_step strict t0 t c e c' : past c t0 -> tstep strict t c e c' -> returned_by t0 (snoc [] e) = 0 -> inv n c -> past c' t0.
Proof.
  intros P S NR V. destruct (Nat.eq_dec t0 t) as [->|N].
  2: { destruct (only_step _ _ _ _ _ S t0 N) as [E1 E2]. unfold past, announced in *. rewrite E1, E2. exact P. }
  pose proof (v_fits _ _ V t) as F. unfold past, announced in *.
  inversion S as [σ rw l e0 σ' E M ST OT|σ ws rs cnt wt l E M|σ w ws rs cnt wt l r E R NZ|σ w ws rs cnt wt l E R|σ w ws rs cnt wt l r E R|σ w ws rs cnt wt l r E R
    |σ w ws rs cnt wt l E|σ w ws rs cnt wt l E M R|σ w ws rs cnt wt l E M R|σ w ws rs cnt wt l E|σ w ws rs cnt wt l r E M R|σ rw l r E R|σ w ws rs cnt wt l r E R|σ w ws rs cnt wt l E
    |σ w ws rs cnt wt l E M R|σ w ws rs cnt wt l r E M R LR|σ w ws rs cnt wt l k E|σ w ws rs cnt wt l E]; subst; clear S;
    unfold pc_of, locked, rlocked, unlocked, runlocked in *; cbn [c_st c_rw c_lpc c_fatal rw_w st_thr] in *; rewrite ?upd_same, ?go_pc; rewrite E in F, P; cbn [fits] in F.
  - destruct P as [P|[P|P]]; [contradiction|right; left; rewrite (proj2 (work_pc strict σ e σ' t ST M)); exact P|].
    right. right. inversion ST; subst; cbn [st_thr snoc] in *; unfold go in *; 
      (destruct (Nat.eq_dec t0 t) as [->|NE]; [|try rewrite upd_other by congruence; exact P]); try congruence.
    unfold returned_by in NR. cbn in NR. rewrite Nat.eqb_refl in NR. discriminate NR.
  - exfalso. destruct P as [P|[P|P]]; [contradiction|destruct (th_pc (st_thr σ t)); discriminate|rewrite P in M; discriminate M].
  - left. exact I.
  - destruct F as [M _]. right. left. destruct (th_pc (st_thr σ t)); try discriminate M; reflexivity.
  - left. exact I.
  - destruct F as [M _]. right. left. destruct (th_pc (st_thr σ t)); try discriminate M; reflexivity.
  - destruct F as [M _]. right. left. destruct (th_pc (st_thr σ t)); try discriminate M; reflexivity.
  - exfalso. destruct P as [P|[P|P]]; [contradiction|destruct (th_pc (st_thr σ t)); discriminate|rewrite P in M; discriminate M].
  - exfalso. destruct P as [P|[P|P]]; [contradiction|destruct (th_pc (st_thr σ t)); discriminate|rewrite P in M; discriminate M].
  - exfalso. destruct P as [P|[P|P]]; [contradiction|destruct (th_pc (st_thr σ t)); discriminate|rewrite P in F; discriminate F].
  - exfalso. destruct P as [P|[P|P]]; [contradiction|destruct (th_pc (st_thr σ t)); discriminate|rewrite P in M; discriminate M].
  - exfalso. destruct F as [(x & F) _]. rewrite F in P. destruct P as [P|[P|P]]; [contradiction|discriminate P|discriminate P].
  - exfalso. destruct F as [(x & F) _]. rewrite F in P. destruct P as [P|[P|P]]; [contradiction|discriminate P|discriminate P].
  - exfalso. destruct F as (x & F). rewrite F in P. destruct P as [P|[P|P]]; [contradiction|discriminate P|discriminate P].
  - rewrite E. exact P.
  - right. right. reflexivity.
  - right. right. apply F.
  - right. right. apply F.
Qed.

Lemma returned_snoc t tr e : returned_by t (snoc tr e) = returned_by t tr + returned_by t (snoc [] e).
Proof. destruct e as [e|]; cbn [snoc]; [apply returned_app|unfold returned_by at 3; cbn; lia]. Qed.
Lemma returns_snoc tr e : returns (snoc tr e) = returns tr + ereturn e.
Proof. unfold returns. destruct e as [e|]; cbn [snoc ereturn]; [rewrite filter_app, app_length; destruct e; cbn; lia|lia]. Qed.

Lemma cgoes_runs strict m tr c tr' c' : cruns n strict m tr c -> cgoes n strict c tr' c' -> exists m', cruns n strict m' (tr ++ tr') c'.
Proof.
  intros R G. induction G as [c|c tr' e c1 c2 G IH S]; [exists m; rewrite app_nil_r; exact R|]. destruct (IH R) as (m' & R').
  exists (Datatypes.S m'). replace (tr ++ snoc tr' e) with (snoc (tr ++ tr') e) by (destruct e; cbn; [rewrite app_assoc|]; reflexivity). apply (cr_next n strict m' _ _ _ _ R' S).
Qed.

Lemma cgoes_past strict m tr c tr' c' t : cruns n strict m tr c -> cgoes n strict c tr' c' -> past c t -> returned_by t tr' = 0 -> past c' t.
Proof.
  intros R G P. induction G as [c|c tr' e c1 c2 G IH S]; intros Z; [exact P|]. rewrite returned_snoc in Z.
  destruct (cgoes_runs _ _ _ _ _ _ R G) as (m' & R'). destruct (cruns_inv _ _ _ _ R') as (V & _ & _). destruct S as (t' & LT & S).
  apply (past_step strict t t' c1 e c2 (IH R P ltac:(lia)) S ltac:(lia) V).
Qed.

Lemma cgoes_ahead strict m tr c tr' c' t : cruns n strict m tr c -> cgoes n strict c tr' c' -> announced c t -> announced c' t -> returned_by t tr' = 0 ->
  ahead c' + returns tr' <= ahead c.
Proof.
  intros R G A. induction G as [c|c tr' e c1 c2 G IH S]; intros A' Z; [cbn; lia|]. rewrite returned_snoc in Z. rewrite returns_snoc.
  destruct (cgoes_runs _ _ _ _ _ _ R G) as (m' & R'). destruct (cruns_inv _ _ _ _ R') as (V & _ & _). destruct S as (t' & LT & S).
  assert (A1 : announced c1 t).
  { pose proof (cgoes_past strict m tr c tr' c1 t R G (or_introl A) ltac:(lia)) as P. destruct P as [P|P]; [exact P|exfalso].
    assert (NI : pc_of c1 t <> Idle) by (destruct P as [P|P]; intros K; rewrite K in P; discriminate).
    assert (NL : at_lock (pc_of c1 t) = false) by (destruct P as [P|P]; destruct (pc_of c1 t); try discriminate P; reflexivity).
    destruct (cruns_inv _ _ _ _ (cr_next n strict _ _ _ _ _ R' (ex_intro _ t' (conj LT S)))) as (V2 & _ & _).
    destruct (announced_holds c2 t V2 A') as (_ & L2 & _).
    assert (E : t' = t).
    { destruct (Nat.eq_dec t' t) as [E|N]; [exact E|]. destruct (only_step _ _ _ _ _ S t (not_eq_sym N)) as [E1 _]. rewrite E1 in L2. congruence. }
    subst t'. pose proof (v_fits _ _ V t) as F. unfold announced in A'.
    inversion S; subst; unfold pc_of, locked, rlocked, unlocked, runlocked in *; cbn [c_st c_rw c_lpc st_thr] in *; rewrite ?upd_same, ?go_pc in *;
      try match goal with E : _ t = _ |- _ => rewrite E in * end; cbn [fits] in *; try contradiction;
      try (destruct F; congruence).
    all: try (match type of A' with match (if ?b then _ else _) with _ => _ end => destruct b; contradiction end).
  }
  pose proof (ahead_step strict t t' c1 e c2 V A1 LT S). specialize (IH R A A1 ltac:(lia)). lia.
Qed.

Lemma upto_filter f m : upto (fun t => b2n (f t)) m = length (filter f (seq 0 m)).
Proof. induction m as [|m IH]; [reflexivity|]. cbn [upto]. rewrite seq_S, filter_app, app_length, IH. cbn. destruct (f m); reflexivity. Qed.
Lemma upto_sum3_lt f g h k m i : (forall t, f t + g t + h t <= k t) -> i < m -> f i + g i + h i < k i -> upto f m + upto g m + upto h m < upto k m.
Proof.
  intros H L Z. induction m as [|m IH]; [lia|]. cbn [upto]. destruct (Nat.eq_dec i m) as [<-|N].
  - assert (Q : forall j, upto f j + upto g j + upto h j <= upto k j) by (induction j as [|j IHj]; [cbn; lia|]; cbn [upto]; specialize (H j); lia). specialize (Q i). lia.
  - specialize (IH ltac:(lia)). specialize (H m). lia.
Qed.

Lemma ahead_open strict m tr c t : cruns n strict m tr c -> announced c t -> ahead c < length (open_calls n tr).
Proof.
  intros R A. destruct (cruns_inv _ _ _ _ R) as (V & E & _). pose proof (sem_le c V) as SL. destruct (announced_holds c t V A) as (_ & HL & _).
  unfold open_calls. rewrite <- upto_filter.
  assert (OP : forall i, negb (returned_by i tr =? length (invoked_by i tr))%nat = match pc_of c i with Idle => false | _ => true end).
  { intros i. rewrite (exec_open _ _ _ E i). unfold pc_of. destruct (th_pc (st_thr (c_st c) i)); [replace (_ =? _)%nat with true by (symmetry; apply Nat.eqb_eq; lia); reflexivity|..];
      (replace (_ =? _)%nat with false by (symmetry; apply Nat.eqb_neq; lia); reflexivity). }
  enough (nA n c + nP n c + nR c < upto (fun i => b2n (negb (returned_by i tr =? length (invoked_by i tr))%nat)) n) by (unfold ahead; lia).
  assert (LT : t < n) by (apply (in_range c t V); intros K; rewrite K in HL; discriminate).
  unfold nA, nP, nR. apply (upto_sum3_lt _ _ _ _ _ t); [|exact LT|].
  - intros i. rewrite OP. pose proof (v_fits _ _ V i) as F. destruct (c_lpc c i) eqn:EL; cbn [isP b2n fits] in *.
    + destruct (pc_of c i); cbn; lia.
    + destruct (pc_of c i); cbn; lia.
    + destruct (pc_of c i); cbn; lia.
    + destruct (pc_of c i); cbn; lia.
    + destruct (pc_of c i); cbn; lia.
    + destruct (pc_of c i); try discriminate F; cbn; lia.
    + destruct (pc_of c i); cbn; lia.
    + destruct (pc_of c i); cbn; lia.
  - rewrite OP. unfold announced in A. destruct (c_lpc c t); try contradiction; destruct (pc_of c t); try discriminate HL; cbn; lia.
Qed.

Lemma writer_is_next strict m tr c tr' c' t : cruns n strict m tr c -> announced c t -> cgoes n strict c tr' c' -> announced c' t -> returned_by t tr' = 0 ->
  returns tr' < length (open_calls n tr).
Proof.
  intros R A G A' Z. pose proof (cgoes_ahead strict m tr c tr' c' t R G A A' Z). pose proof (ahead_open strict m tr c t R A). lia.
Qed.
Lemma announced_alone strict m tr c t t' : cruns n strict m tr c -> announced c t -> in_write (pc_of c t') = false.
Proof.
  intros R A. destruct (cruns_inv _ _ _ _ R) as (V & _ & _). destruct (announced_holds c t V A) as (W & HL & _).
  destruct (in_write (pc_of c t')) eqn:I; [exfalso|reflexivity]. pose proof (v_fits _ _ V t') as F.
  assert (E : c_lpc c t' = LOut \/ c_lpc c t' <> LOut) by (destruct (c_lpc c t'); auto; right; discriminate). destruct E as [E|E].
  - rewrite E in F. specialize (F I). rewrite W in F. injection F as ->. destruct (pc_of c t'); discriminate.
  - assert (NL : forall f, f (pc_of c t') = true -> (forall p, f p = true -> in_write p = false) -> False) by (intros f Q NW; apply NW in Q; congruence).
    destruct (c_lpc c t'); cbn [fits] in F; [contradiction|apply (NL at_lock (proj1 F)); intros []; try discriminate; reflexivity..| | | |].
    + destruct F as [F _]. rewrite F in I. discriminate I.
    + apply (NL at_rlock F). intros []; try discriminate; reflexivity.
    + destruct F as [(x & F) _]. rewrite F in I. discriminate I.
    + destruct F as (x & F). rewrite F in I. discriminate I.
Qed.
End Live.

(** ** Running a schedule *)
Definition act_thread (a : act) : nat := match a with AMake t _ _ | AUse t _ _ | APut t _ | AApp t _ _ | AGet t _ | AGo t => t end.

Lemma run_act_thread strict σ a e σ' : run_act strict σ a = Some (e, σ') -> forall t', t' <> act_thread a -> st_thr σ' t' = st_thr σ t'.
Proof.
  intros H t' N. destruct a as [t v junk|t k i|t id|t id v|t id|t]; cbn [act_thread] in N; unfold run_act, mk, go in H;
    repeat match type of H with
    | match ?x with _ => _ end = _ => destruct x; try discriminate H
    | (if ?x then _ else _) = _ => destruct x; try discriminate H
    end; try (apply Some_inj, pair_inj in H as [_ <-]; cbn [st_thr]; try reflexivity; apply upd_other, N).
Qed.

Lemma c_run_step n strict c a e c' : act_thread a < n -> c_run strict c a = Some (e, c') -> cstep n strict c e c'.
Proof.
  intros LT H. exists (act_thread a). split; [exact LT|]. destruct c as [σ [w ws rs cnt wt] l f]. unfold c_run in H. cbn [c_fatal c_st c_lpc c_rw] in H. destruct f; [discriminate H|].
  fold (act_thread a) in H.
  destruct (l (act_thread a)) as [| |r| |k| |r|] eqn:E.
  - destruct (at_mutex (th_pc (st_thr σ (act_thread a)))) eqn:AM.
    + destruct a as [t v junk|t k i|t id|t id v|t id|t]; try discriminate H. cbn [act_thread] in *.
      destruct (at_lock (th_pc (st_thr σ t))) eqn:AL.
      { destruct w; [discriminate H|]. apply Some_inj, pair_inj in H as [<- <-]. apply c_lock; assumption. }
      destruct (at_rlock (th_pc (st_thr σ t))) eqn:AR.
      { destruct (Z.ltb_spec (int32 (cnt + 1)) 0) as [Q|Q]; apply Some_inj, pair_inj in H as [<- <-]; [apply c_rlock_wait|apply c_rlock]; assumption || lia. }
      destruct (at_unlock (th_pc (st_thr σ t))) eqn:AU.
      { destruct (Z.ltb_spec (int32 (cnt + maxReaders)) maxReaders) as [Q|Q]; [|discriminate H]. apply Some_inj, pair_inj in H as [<- <-]. eapply c_unlock; try assumption. reflexivity. }
      apply Some_inj, pair_inj in H as [<- <-]. apply c_runlock; [exact E| |reflexivity]. unfold at_mutex in AM. rewrite AL, AU, AR in AM. exact AM.
    + destruct (run_act strict σ a) as [[e0 σ']|] eqn:RA; [|discriminate H]. apply Some_inj, pair_inj in H as [<- <-].
      apply c_work; [exact E|exact AM|exact (run_act_step _ _ _ _ _ RA)|exact (run_act_thread _ _ _ _ _ RA)].
  - destruct a as [t v junk|t k i|t id|t id v|t id|t]; try discriminate H. cbn [act_thread] in *.
    destruct (Z.eqb_spec (int32 (int32 (cnt - maxReaders) + maxReaders)) 0) as [Q|Q]; apply Some_inj, pair_inj in H as [<- <-]; [apply c_announce_free; assumption|apply c_announce; [exact E|reflexivity|exact Q]].
  - destruct a as [t v junk|t k i|t id|t id v|t id|t]; try discriminate H. cbn [act_thread] in *.
    destruct (Z.eqb_spec (int32 (wt + r)) 0) as [Q|Q]; apply Some_inj, pair_inj in H as [<- <-]; [apply c_wait_free; assumption|apply c_wait; assumption].
  - destruct a as [t v junk|t k i|t id|t id v|t id|t]; try discriminate H. cbn [act_thread] in *.
    destruct ws; [discriminate H|]. apply Some_inj, pair_inj in H as [<- <-]. apply c_acquire, E.
  - destruct a as [t v junk|t k0 i|t id|t id v|t id|t]; try (destruct k; discriminate H). cbn [act_thread] in *.
    destruct k; apply Some_inj, pair_inj in H as [<- <-]; [apply c_unlock_w, E|apply c_release, E].
  - destruct a as [t v junk|t k i|t id|t id v|t id|t]; try discriminate H. cbn [act_thread] in *.
    destruct rs; [discriminate H|]. apply Some_inj, pair_inj in H as [<- <-]. apply c_racquire, E.
  - destruct a as [t v junk|t k i|t id|t id v|t id|t]; try discriminate H. cbn [act_thread] in *.
    destruct (Z.eqb_spec (int32 (r + 1)) 0) as [Q|Q]; [discriminate H|]. destruct (Z.eqb_spec (int32 (r + 1)) (- maxReaders)) as [Q'|Q']; [discriminate H|].
    apply Some_inj, pair_inj in H as [<- <-]. eapply c_rslow; [exact E|split; assumption].
  - destruct a as [t v junk|t k i|t id|t id v|t id|t]; try discriminate H. cbn [act_thread] in *.
    apply Some_inj, pair_inj in H as [<- <-]. apply c_wake, E.
Qed.

Lemma c_runs_cruns n strict acts : forallb (fun a => (act_thread a <? n)%nat) acts = true -> forall m tr c tr' c', cruns n strict m tr c -> c_runs strict c tr acts = Some (tr', c') ->
  cruns n strict (length acts + m) tr' c'.
Proof.
  induction acts as [|a acts IH]; intros B m tr c tr' c' R H; cbn [c_runs forallb] in *.
  - apply Some_inj, pair_inj in H as [<- <-]. exact R.
  - apply andb_prop in B as [B1 B2]. apply Nat.ltb_lt in B1. destruct (c_run strict c a) as [[e c1]|] eqn:RA; [|discriminate H].
    replace (length (a :: acts) + m) with (length acts + S m) by (cbn; lia).
    eapply (IH B2); [|exact H]. eapply cr_next; [exact R|]. exact (c_run_step n strict c a e c1 B1 RA).
Qed.
Lemma c_runs_goes n strict acts : forallb (fun a => (act_thread a <? n)%nat) acts = true -> forall c0 tr c tr' c', cgoes n strict c0 tr c -> c_runs strict c tr acts = Some (tr', c') ->
  cgoes n strict c0 tr' c'.
Proof.
  induction acts as [|a acts IH]; intros B c0 tr c tr' c' R H; cbn [c_runs forallb] in *.
  - apply Some_inj, pair_inj in H as [<- <-]. exact R.
  - apply andb_prop in B as [B1 B2]. apply Nat.ltb_lt in B1. destruct (c_run strict c a) as [[e c1]|] eqn:RA; [|discriminate H].
    eapply (IH B2); [|exact H]. eapply cg_next; [exact R|]. exact (c_run_step n strict c a e c1 B1 RA).
Qed.
