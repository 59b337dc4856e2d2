(** * The mutex of [RWLock.v] implements the abstract lock of [KVConc.v]. *)
From Coq Require Import Lia ZArith.
From Verif Require Import Base BaseProofs KV KVProofs SpecConc KVConc ConcProofs ConcHistory ConcRun ConcServer ConcLive RWLock.

Local Open Scope Z_scope.

Lemma int32_id z : - 2 ^ 31 <= z < 2 ^ 31 -> int32 z = z.
Proof. intros H. unfold int32. rewrite Z.mod_small by lia. lia. Qed.

Definition b2n (b : bool) : nat := if b then 1 else 0.
Definition isP (l : lpc) : bool := match l with LWaitReader => true | _ => false end.
Definition isD (l : lpc) : bool := match l with LSlow _ => true | _ => false end.
Definition isE (l : lpc) : bool := match l with LWake => true | _ => false end.

Lemma upto_sum4 f g h k m : (forall t, f t + g t + h t + k t <= 1)%nat -> (upto f m + upto g m + upto h m + upto k m <= m)%nat.
Proof. intros H. induction m as [|m IH]; [cbn; lia|]. cbn [upto]. specialize (H m). lia. Qed.
Lemma upto_sum4_but f g h k m i : (forall t, f t + g t + h t + k t <= 1)%nat -> (i < m)%nat -> (f i + g i + h i + k i = 0)%nat -> (upto f m + upto g m + upto h m + upto k m < m)%nat.
Proof.
  intros H L Z. induction m as [|m IH]; [lia|]. cbn [upto]. destruct (Nat.eq_dec i m) as [<-|N].
  - pose proof (upto_sum4 f g h k i H). lia.
  - specialize (IH ltac:(lia)). specialize (H m). lia.
Qed.
Lemma upto_pos f m t : (t < m)%nat -> (f t <= upto f m)%nat.
Proof. intros L. induction m as [|m IH]; [lia|]. cbn [upto]. destruct (Nat.eq_dec t m) as [->|N]; [lia|]. specialize (IH ltac:(lia)). lia. Qed.
Lemma upto_some f m : (0 < upto f m)%nat -> exists t, (t < m)%nat /\ (0 < f t)%nat.
Proof. induction m as [|m IH]; cbn [upto]; [lia|]. intros H. destruct (Nat.eq_dec (f m) 0) as [Z|Z]; [destruct IH as (t & L & F); [lia|]; exists t; split; [lia|exact F]|]. exists m. split; lia. Qed.

Section Inv.
Variable n : nat.
Hypothesis n_small : Z.of_nat n < maxReaders.

(** Readers inside, waiting, in rUnlockSlow before and after the decrement. *)
Definition nA (c : cstate) : nat := upto (fun t => b2n (in_read (pc_of c t))) n.
Definition nP (c : cstate) : nat := upto (fun t => b2n (isP (c_lpc c t))) n.
Definition nD (c : cstate) : nat := upto (fun t => b2n (isD (c_lpc c t))) n.
Definition nE (c : cstate) : nat := upto (fun t => b2n (isE (c_lpc c t))) n.

(** Phases of the writer that has [w]. *)
Inductive phase := Free (k : nat) | Ann (r : Z) | Waitw | Crit.
Definition phase_of (c : cstate) : phase :=
  match rw_w (c_rw c) with
  | None => Free 0
  | Some t => match c_lpc c t with
              | LMutex => Free 0
              | LRelease k => Free k
              | LAnnounced r => Ann r
              | LWaitWriter => Waitw
              | _ => Crit
              end
  end.

Definition numbers (ph : phase) (rw : rwmutex) (a p d e : nat) : Prop :=
  let A := Z.of_nat a in let P := Z.of_nat p in let D := Z.of_nat d in let E := Z.of_nat e in
  let ws := Z.of_nat (rw_writerSem rw) in let rs := Z.of_nat (rw_readerSem rw) in
  match ph with
  | Free k => rw_count rw = A + P /\ rw_wait rw = 0 /\ ws = 0 /\ D = 0 /\ E = 0 /\ P = rs + Z.of_nat k
  | Ann r => rw_count rw = A + P - maxReaders /\ A + rs + D = r + rw_wait rw /\ rw_wait rw <= 0 /\ 0 < r <= Z.of_nat n /\ ws = 0 /\ E = 0 /\ rs <= P
  | Waitw => rw_count rw = A + P - maxReaders /\ A + rs + D = rw_wait rw /\ 0 <= rw_wait rw /\ rs <= P
             /\ (0 < rw_wait rw /\ ws = 0 /\ E = 0 \/ rw_wait rw = 0 /\ ws + E = 1)
  | Crit => rw_count rw = A + P - maxReaders /\ A = 0 /\ rs = 0 /\ D = 0 /\ E = 0 /\ ws = 0 /\ rw_wait rw = 0
  end.

Definition fits (w : option nat) (t : nat) (p : pc) (l : lpc) : Prop :=
  match l with
  | LOut => in_write p = true -> w = Some t
  | LMutex | LAnnounced _ | LWaitWriter => at_lock p = true /\ w = Some t
  | LRelease _ => p = RetDone /\ w = Some t
  | LWaitReader => at_rlock p = true
  | LSlow r => (exists x, p = RetValue x) /\ - maxReaders < r + 1 < 0
  | LWake => exists x, p = RetValue x
  end.
Definition holds (p : pc) (l : lpc) : bool :=
  match l with
  | LMutex | LAnnounced _ | LWaitWriter | LRelease _ => true
  | LOut => in_write p
  | _ => false
  end.

Record inv (c : cstate) : Prop := {
  v_fits : forall t, fits (rw_w (c_rw c)) t (pc_of c t) (c_lpc c t);
  v_out : forall t, (n <= t)%nat -> pc_of c t = Idle /\ c_lpc c t = LOut;
  v_hold : forall t, rw_w (c_rw c) = Some t -> holds (pc_of c t) (c_lpc c t) = true;
  v_num : numbers (phase_of c) (c_rw c) (nA c) (nP c) (nD c) (nE c) }.

Lemma fits_le1 w t p l : fits w t p l -> (b2n (in_read p) + b2n (isP l) + b2n (isD l) + b2n (isE l) <= 1)%nat.
Proof.
  destruct l; cbn [fits isP isD isE b2n]; intros H; try (destruct (in_read p); cbn; lia).
  - destruct p; try discriminate H; cbn; lia.
  - destruct H as [(x & ->) _]. cbn. lia.
  - destruct H as (x & ->). cbn. lia.
Qed.
Lemma total c : inv c -> Z.of_nat (nA c) + Z.of_nat (nP c) + Z.of_nat (nD c) + Z.of_nat (nE c) <= Z.of_nat n.
Proof.
  intros V. pose proof (upto_sum4 (fun t => b2n (in_read (pc_of c t))) (fun t => b2n (isP (c_lpc c t))) (fun t => b2n (isD (c_lpc c t))) (fun t => b2n (isE (c_lpc c t))) n) as H.
  unfold nA, nP, nD, nE. specialize (H (fun t => fits_le1 _ _ _ _ (v_fits _ V t))). lia.
Qed.
Lemma total_but c t : inv c -> (t < n)%nat -> in_read (pc_of c t) = false -> isP (c_lpc c t) || isD (c_lpc c t) || isE (c_lpc c t) = false ->
  Z.of_nat (nA c) + Z.of_nat (nP c) + Z.of_nat (nD c) + Z.of_nat (nE c) < Z.of_nat n.
Proof.
  intros V L R K. pose proof (upto_sum4_but (fun t => b2n (in_read (pc_of c t))) (fun t => b2n (isP (c_lpc c t))) (fun t => b2n (isD (c_lpc c t))) (fun t => b2n (isE (c_lpc c t))) n t) as H.
  unfold nA, nP, nD, nE. specialize (H (fun t => fits_le1 _ _ _ _ (v_fits _ V t)) L). cbv beta in H. rewrite R in H.
  destruct (isP (c_lpc c t)), (isD (c_lpc c t)), (isE (c_lpc c t)); try discriminate K. cbn [b2n] in H. specialize (H eq_refl). lia.
Qed.

(** One thread moves; the others stay. *)
Definition only (c c' : cstate) (t : nat) : Prop := forall t', t' <> t -> pc_of c' t' = pc_of c t' /\ c_lpc c' t' = c_lpc c t'.
Lemma counts c c' t : (t < n)%nat -> only c c' t ->
  (nA c' + b2n (in_read (pc_of c t)) = nA c + b2n (in_read (pc_of c' t)))%nat /\
  (nP c' + b2n (isP (c_lpc c t)) = nP c + b2n (isP (c_lpc c' t)))%nat /\
  (nD c' + b2n (isD (c_lpc c t)) = nD c + b2n (isD (c_lpc c' t)))%nat /\
  (nE c' + b2n (isE (c_lpc c t)) = nE c + b2n (isE (c_lpc c' t)))%nat.
Proof.
  intros L O. unfold nA, nP, nD, nE.
  repeat split; match goal with |- (upto ?f n + _ = upto ?g n + _)%nat => apply (upto_one f g n t L); intros i N; destruct (O i N) as [E1 E2]; rewrite ?E1, ?E2; reflexivity end.
Qed.

Lemma phase_same c c' : rw_w (c_rw c') = rw_w (c_rw c) -> (forall h, rw_w (c_rw c) = Some h -> c_lpc c' h = c_lpc c h) -> phase_of c' = phase_of c.
Proof. intros W L. unfold phase_of. rewrite W. destruct (rw_w (c_rw c)) as [h|]; [|reflexivity]. rewrite (L h eq_refl). reflexivity. Qed.

Lemma not_holder w t p l h : fits w t p l -> isP l || isD l || isE l = true -> (forall q, w = Some q -> q = t -> holds p l = true) -> w = Some h -> h <> t.
Proof. intros F K H W E. specialize (H h W E). destruct l; try discriminate K; discriminate H. Qed.

(** The invariant after a step of [t]. *)
Lemma inv_step c c' t : inv c -> (t < n)%nat -> only c c' t ->
  (rw_w (c_rw c') = rw_w (c_rw c) \/ (rw_w (c_rw c) = None /\ rw_w (c_rw c') = Some t) \/ (rw_w (c_rw c) = Some t /\ rw_w (c_rw c') = None)) ->
  fits (rw_w (c_rw c')) t (pc_of c' t) (c_lpc c' t) ->
  (rw_w (c_rw c') = Some t -> holds (pc_of c' t) (c_lpc c' t) = true) ->
  numbers (phase_of c') (c_rw c') (nA c') (nP c') (nD c') (nE c') -> inv c'.
Proof.
  intros [F O H N] L U W F' H' N'. split; [| | |exact N'].
  - intros t'. destruct (Nat.eq_dec t' t) as [->|NE]; [exact F'|]. destruct (U t' NE) as [-> ->]. specialize (F t').
    destruct W as [->|[[W0 W1]|[W0 W1]]]; [exact F|..]; rewrite W1; rewrite W0 in F;
      (destruct (c_lpc c t'); cbn [fits] in *;
       [intros K; specialize (F K); congruence|destruct F as [_ F]; congruence|destruct F as [_ F]; congruence|destruct F as [_ F]; congruence|destruct F as [_ F]; congruence|exact F|exact F|exact F]).
  - intros t' G. destruct (U t') as [-> ->]; [lia|]. apply O, G.
  - intros h Hh. destruct (Nat.eq_dec h t) as [->|NE]; [apply H', Hh|]. destruct (U h NE) as [-> ->]. apply H.
    destruct W as [<-|[[W0 W1]|[W0 W1]]]; congruence.
Qed.

(** Program counters after a step of the rest of the code. *)
Lemma work_pc strict σ e σ' t : step strict σ e σ' -> at_mutex (th_pc (st_thr σ t)) = false ->
  in_read (th_pc (st_thr σ' t)) = in_read (th_pc (st_thr σ t)) /\ in_write (th_pc (st_thr σ' t)) = in_write (th_pc (st_thr σ t)).
Proof.
  intros H M. inversion H; subst; cbn [st_thr]; try (split; reflexivity);
    unfold go; match goal with |- context [upd (st_thr σ) ?t0 ?x t] => destruct (upd_cases (st_thr σ) t0 x t) as [[-> E]|[N E]]; rewrite E; [|split; reflexivity] end; cbn [th_pc];
    match goal with K : th_pc (st_thr σ _) = _ |- _ => rewrite K in M |- * end; try discriminate M; split; reflexivity.
Qed.

Definition moved (strict : bool) (σ : state) (e : option event) (σ' : state) : Prop := step strict σ e σ' \/ (e = None /\ σ' = σ).

Lemma locked_step strict σ t : at_lock (th_pc (st_thr σ t)) = true -> st_writer σ = None -> st_readers σ = [] -> step strict σ None (locked σ t).
Proof.
  intros P W R. unfold locked. destruct (th_pc (st_thr σ t)) eqn:E; try discriminate P; [apply st_put_lock|apply st_app_lock]; assumption.
Qed.
Lemma rlocked_step strict σ t : at_rlock (th_pc (st_thr σ t)) = true -> st_writer σ = None -> step strict σ None (rlocked σ t).
Proof. intros P W. unfold rlocked. destruct (th_pc (st_thr σ t)) eqn:E; try discriminate P. apply st_get_lock; assumption. Qed.
Lemma unlocked_step strict σ t : at_unlock (th_pc (st_thr σ t)) = true -> step strict σ None (unlocked σ t).
Proof. intros P. unfold unlocked. destruct (th_pc (st_thr σ t)) eqn:E; try discriminate P; [apply st_put_unlock|apply st_app_unlock]; assumption. Qed.
Lemma runlocked_step strict σ t : at_runlock (th_pc (st_thr σ t)) = true -> step strict σ None (runlocked σ t).
Proof. intros P. unfold runlocked. destruct (th_pc (st_thr σ t)) eqn:E; try discriminate P. apply st_get_unlock. exact E. Qed.

(** Nobody is inside. *)
Lemma no_writer c : inv c -> locks (c_st c) -> phase_of c <> Crit -> st_writer (c_st c) = None.
Proof.
  intros V L NC. destruct (st_writer (c_st c)) as [w|] eqn:W; [exfalso|reflexivity]. apply (l_write _ L) in W.
  pose proof (v_fits _ V w) as F. fold (pc_of c w) in W. apply NC. unfold phase_of.
  destruct (c_lpc c w) eqn:E; cbn [fits] in F.
  - rewrite (F W), E. reflexivity.
  - destruct F as [F _]. destruct (pc_of c w); discriminate.
  - destruct F as [F _]. destruct (pc_of c w); discriminate.
  - destruct F as [F _]. destruct (pc_of c w); discriminate.
  - destruct F as [F _]. rewrite F in W. discriminate W.
  - destruct (pc_of c w); discriminate.
  - destruct F as [(x & F) _]. rewrite F in W. discriminate W.
  - destruct F as (x & F). rewrite F in W. discriminate W.
Qed.
Lemma no_reader c : inv c -> locks (c_st c) -> nA c = 0%nat -> st_readers (c_st c) = [].
Proof.
  intros V L Z. destruct (st_readers (c_st c)) as [|r rs] eqn:R; [reflexivity|exfalso].
  assert (I : in_read (pc_of c r) = true) by (apply (l_read _ L); rewrite R; left; reflexivity).
  destruct (Nat.lt_ge_cases r n) as [LT|GE].
  - pose proof (upto_pos (fun t => b2n (in_read (pc_of c t))) n r LT) as U. cbv beta in U. rewrite I in U. unfold nA in Z. cbn [b2n] in U. lia.
  - destruct (v_out _ V r GE) as [K _]. rewrite K in I. discriminate I.
Qed.

Lemma go_pc σ t p : th_pc (go σ t p t) = p.
Proof. apply go_same. Qed.
Lemma go_pc' σ t p t' : t' <> t -> th_pc (go σ t p t') = th_pc (st_thr σ t').
Proof. intros N. unfold go. rewrite upd_other by exact N. reflexivity. Qed.

Lemma max_eq : maxReaders = 1073741824.
Proof. reflexivity. Qed.
Lemma int32_lit z : - 2147483648 <= z < 2147483648 -> int32 z = z.
Proof. intros H. apply int32_id. change (2 ^ 31) with 2147483648. exact H. Qed.

Ltac abstr c := let a := fresh "a" in let p := fresh "p" in let d := fresh "d" in let e := fresh "e" in
  set (a := nA c) in *; set (p := nP c) in *; set (d := nD c) in *; set (e := nE c) in *; clearbody a p d e.
Ltac nums := try match goal with c1 := _ : cstate |- _ => abstr c1; unfold c1 end; unfold numbers in *; cbn [c_st c_rw c_lpc c_fatal rw_w rw_writerSem rw_readerSem rw_count rw_wait] in *; rewrite ?max_eq in *.
Ltac lp H := unfold pc_of in H; cbn [c_lpc c_st c_rw rw_w] in H.
Ltac solve_pc t :=
  repeat match goal with F : (exists x, _) /\ _ |- _ => destruct F as [(? & F) _] | F : exists x, _ |- _ => destruct F as (? & F) end;
  match goal with
  | M : ?f (th_pc (st_thr ?s t)) = true |- _ => destruct (th_pc (st_thr s t)) eqn:?PC; try discriminate M; reflexivity
  | F : th_pc (st_thr ?s t) = _ |- _ => rewrite F; reflexivity
  | F : fits _ _ (th_pc (st_thr ?s t)) (?l t), E : ?l t = _ |- _ => rewrite E in F; cbn [fits] in F; repeat match goal with F : (exists x, _) /\ _ |- _ => destruct F as [(? & F) _] | F : exists x, _ |- _ => destruct F as (? & F) end; first [rewrite F; reflexivity|destruct (th_pc (st_thr s t)); try discriminate F; reflexivity]
  end.
(** Names: CT the counters, O the other threads. *)
Ltac start_case c1 := 
  match goal with V : inv ?c, LT : (?t < n)%nat |- moved _ _ _ _ /\ inv ?c' /\ _ =>
    set (c1 := c');
    assert (O : only c c1 t); [unfold c1, only, pc_of; cbn [c_st c_lpc]; intros t' N'; rewrite ?upd_other by exact N'; unfold locked, rlocked, unlocked, runlocked; cbn [st_thr]; rewrite ?go_pc' by exact N'; solve [auto|match goal with OT : forall t', _ -> st_thr _ t' = st_thr _ t' |- _ => rewrite OT by exact N'; auto end]|];
    pose proof (counts c c1 t LT O) as (C1 & C2 & C3 & C4)
  end.

Lemma locked_in σ t rw l : at_lock (th_pc (st_thr σ t)) = true -> holds (pc_of (mkC (locked σ t) rw l false) t) LOut = true.
Proof. intros M. unfold pc_of, locked. cbn [c_st st_thr holds]. rewrite go_pc. destruct (th_pc (st_thr σ t)); try discriminate M; reflexivity. Qed.

Ltac facts_in c1 b0 b1 y C1 C2 C3 C4 :=
  match goal with V : inv ?c, LT : (?t < n)%nat |- _ =>
    assert (LP1 : c_lpc c1 t = y); [unfold c1; cbn [c_lpc]; first [apply upd_same|assumption]|];
    assert (IR0 : in_read (pc_of c t) = b0); [unfold pc_of; cbn [c_st]; solve_pc t|];
    assert (IR1 : in_read (pc_of c1 t) = b1); [unfold c1, pc_of, locked, rlocked, unlocked, runlocked; cbn [c_st st_thr]; rewrite ?go_pc; solve_pc t|];
    rewrite IR0, IR1 in C1; rewrite LP1 in C2, C3, C4; 
    cbn [c_lpc] in C2, C3, C4;
    match goal with E : _ t = _ |- _ => rewrite E in C2, C3, C4 end;
    cbn [b2n isP isD isE] in C1, C2, C3, C4
  end.
Ltac same_phase c1 :=
  match goal with V : inv ?c, LT : (?t < n)%nat |- _ =>
    assert (PS : phase_of c1 = phase_of c);
    [apply phase_same; [reflexivity|]; intros h Hh; unfold c1; cbn [c_lpc]; try reflexivity; rewrite upd_other; [reflexivity|]; intros ->;
     match goal with H : forall t', _ -> holds _ _ = true |- _ => specialize (H t Hh) end; unfold pc_of in *; cbn [c_st c_lpc] in *;
     match goal with E : _ t = _ |- _ => rewrite E in * end; cbn [holds] in *; try discriminate; match goal with K : at_rlock ?p = true |- _ => destruct p; discriminate | K : at_runlock ?p = true |- _ => destruct p; discriminate end|]
  end.

Lemma tstep_inv strict t c e c' : inv c -> locks (c_st c) -> (t < n)%nat -> tstep strict t c e c' ->
  moved strict (c_st c) e (c_st c') /\ inv c' /\ c_fatal c' = false.
Proof.
  intros V L LT S. pose proof (total _ V) as T. pose proof (v_num _ V) as NUM. pose proof (v_fits _ V t) as F. pose proof (v_hold _ V) as H.
  pose proof n_small as NS. rewrite max_eq in NS.
  pose proof (no_writer c V L) as NW. pose proof (no_reader c V L) as NR.
  inversion S as [σ rw l e0 σ' E M ST OT|σ ws rs cnt wt l E M|σ w ws rs cnt wt l r E R NZ|σ w ws rs cnt wt l E R|σ w ws rs cnt wt l r E R|σ w ws rs cnt wt l r E R
    |σ w ws rs cnt wt l E|σ w ws rs cnt wt l E M R|σ w ws rs cnt wt l E M R|σ w ws rs cnt wt l E|σ w ws rs cnt wt l r E M R|σ rw l r E R|σ w ws rs cnt wt l r E R|σ w ws rs cnt wt l E
    |σ w ws rs cnt wt l E M R|σ w ws rs cnt wt l r E M R LR|σ w ws rs cnt wt l k E|σ w ws rs cnt wt l E]; subst; clear S;
    cbn [c_st c_rw c_lpc c_fatal rw_w rw_writerSem rw_readerSem rw_count rw_wait] in *; unfold pc_of in F; cbn [c_st] in F; rewrite E in F; cbn [fits] in F.
  - (* work *) start_case c1.
    destruct (work_pc strict σ e σ' t ST M) as [WR WW]. lp C1. unfold c1 in C1 at 2. cbn [c_st] in C1. rewrite WR in C1.
    split; [left; exact ST|]. split; [|reflexivity]. apply (inv_step _ c1 t V LT O); [left; reflexivity| | |].
    + unfold pc_of, c1. cbn [c_st c_lpc c_rw]. rewrite E. cbn [fits]. rewrite WW. exact F.
    + unfold pc_of, c1. cbn [c_st c_lpc c_rw]. intros W. specialize (H t W). unfold pc_of in H. cbn [c_st] in H. rewrite E in *. cbn [holds] in *. rewrite WW. exact H.
    + replace (phase_of c1) with (phase_of (mkC σ rw l false)) by reflexivity. replace (nA c1) with (nA (mkC σ rw l false)) by lia.
      exact NUM.
  - (* w.Lock *) start_case c1. facts_in c1 false false LMutex C1 C2 C3 C4.
    split; [right; auto|]. split; [|reflexivity]. apply (inv_step _ c1 t V LT O); [right; left; auto|rewrite LP1; split; [exact M|reflexivity]|rewrite LP1; reflexivity|].
    replace (phase_of c1) with (Free 0) by (unfold phase_of, c1; cbn [c_rw rw_w c_lpc]; rewrite upd_same; reflexivity).
    change (phase_of _) with (Free 0) in NUM. nums. lia.
  - (* announce *) destruct F as [M ->]. assert (PH : phase_of (mkC σ (mkRW (Some t) ws rs cnt wt) l false) = Free 0) by (unfold phase_of; cbn [c_rw rw_w c_lpc]; rewrite E; reflexivity).
    rewrite PH in NUM. start_case c1. facts_in c1 false false (LAnnounced (int32 (int32 (cnt - maxReaders) + maxReaders))) C1 C2 C3 C4.
    split; [right; auto|]. split; [|reflexivity]. apply (inv_step _ c1 t V LT O); [left; reflexivity|rewrite LP1; split; [exact M|reflexivity]|rewrite LP1; reflexivity|].
    replace (phase_of c1) with (Ann (int32 (int32 (cnt - maxReaders) + maxReaders))) by (unfold phase_of, c1; cbn [c_rw rw_w c_lpc]; rewrite upd_same; reflexivity).
    nums. rewrite (int32_lit (cnt - 1073741824)) in * by lia. rewrite (int32_lit (cnt - 1073741824 + 1073741824)) in * by lia. lia.
  - (* announce, free *) destruct F as [M ->]. assert (PH : phase_of (mkC σ (mkRW (Some t) ws rs cnt wt) l false) = Free 0) by (unfold phase_of; cbn [c_rw rw_w c_lpc]; rewrite E; reflexivity).
    rewrite PH in NUM. rewrite PH in NW. start_case c1. facts_in c1 false false LOut C1 C2 C3 C4.
    assert (Z0 : cnt = 0) by (nums; rewrite (int32_lit (cnt - 1073741824)) in R by lia; rewrite int32_lit in R by lia; lia).
    split; [left; apply locked_step; [exact M|apply NW; discriminate|apply NR; nums; lia]|]. split; [|reflexivity].
    apply (inv_step _ c1 t V LT O); [left; reflexivity|rewrite LP1; intros _; reflexivity|rewrite LP1; intros _; apply locked_in; exact M|].
    replace (phase_of c1) with Crit by (unfold phase_of, c1; cbn [c_rw rw_w c_lpc]; rewrite upd_same; reflexivity).
    nums. rewrite (int32_lit (cnt - 1073741824)) in * by lia. lia.
  - (* wait *) destruct F as [M ->]. assert (PH : phase_of (mkC σ (mkRW (Some t) ws rs cnt wt) l false) = Ann r) by (unfold phase_of; cbn [c_rw rw_w c_lpc]; rewrite E; reflexivity).
    rewrite PH in NUM. start_case c1. facts_in c1 false false LWaitWriter C1 C2 C3 C4.
    split; [right; auto|]. split; [|reflexivity]. apply (inv_step _ c1 t V LT O); [left; reflexivity|rewrite LP1; split; [exact M|reflexivity]|rewrite LP1; reflexivity|].
    replace (phase_of c1) with Waitw by (unfold phase_of, c1; cbn [c_rw rw_w c_lpc]; rewrite upd_same; reflexivity).
    nums. rewrite (int32_lit (wt + r)) in * by lia. lia.
  - (* wait, free *) destruct F as [M ->]. assert (PH : phase_of (mkC σ (mkRW (Some t) ws rs cnt wt) l false) = Ann r) by (unfold phase_of; cbn [c_rw rw_w c_lpc]; rewrite E; reflexivity).
    rewrite PH in NUM. rewrite PH in NW. start_case c1. facts_in c1 false false LOut C1 C2 C3 C4.
    assert (Z0 : wt + r = 0) by (nums; rewrite int32_lit in R by lia; lia).
    split; [left; apply locked_step; [exact M|apply NW; discriminate|apply NR; nums; lia]|]. split; [|reflexivity].
    apply (inv_step _ c1 t V LT O); [left; reflexivity|rewrite LP1; intros _; reflexivity|rewrite LP1; intros _; apply locked_in; exact M|].
    replace (phase_of c1) with Crit by (unfold phase_of, c1; cbn [c_rw rw_w c_lpc]; rewrite upd_same; reflexivity).
    nums. rewrite (int32_lit (wt + r)) in * by lia. lia.
  - (* acquire *) destruct F as [M ->]. assert (PH : phase_of (mkC σ (mkRW (Some t) (S ws) rs cnt wt) l false) = Waitw) by (unfold phase_of; cbn [c_rw rw_w c_lpc]; rewrite E; reflexivity).
    rewrite PH in NUM. rewrite PH in NW. start_case c1. facts_in c1 false false LOut C1 C2 C3 C4.
    split; [left; apply locked_step; [exact M|apply NW; discriminate|apply NR; nums; lia]|]. split; [|reflexivity].
    apply (inv_step _ c1 t V LT O); [left; reflexivity|rewrite LP1; intros _; reflexivity|rewrite LP1; intros _; apply locked_in; exact M|].
    replace (phase_of c1) with Crit by (unfold phase_of, c1; cbn [c_rw rw_w c_lpc]; rewrite upd_same; reflexivity).
    nums. lia.
  - (* rlock *) start_case c1. facts_in c1 false true LOut C1 C2 C3 C4.
    assert (TB := total_but _ t V LT IR0). cbn [c_lpc] in TB. rewrite E in TB. specialize (TB eq_refl).
    assert (PS : phase_of c1 = phase_of (mkC σ (mkRW w ws rs cnt wt) l false)) by reflexivity.
    set (ph := phase_of (mkC _ _ _ _)) in *; clearbody ph.
    assert (PF : exists k, ph = Free k).
    { destruct ph as [k|r| |]; [exists k; reflexivity|..]; exfalso; nums; rewrite int32_lit in R by lia; lia. }
    destruct PF as (k & ->).
    split; [left; apply rlocked_step; [exact M|apply NW; discriminate]|]. split; [|reflexivity].
    apply (inv_step _ c1 t V LT O); [left; reflexivity|rewrite LP1; intros K; exfalso; revert K; unfold c1, pc_of, rlocked; cbn [c_st st_thr]; rewrite go_pc; destruct (th_pc (st_thr σ t)); try discriminate M; discriminate| |].
    + intros K. exfalso. specialize (H t K). rewrite E in H. cbn [holds] in H. unfold pc_of in H. cbn [c_st] in H. destruct (th_pc (st_thr σ t)); try discriminate M; discriminate.
    + rewrite PS. nums. rewrite (int32_lit (cnt + 1)) in * by lia. lia.
  - (* rlock, wait *) start_case c1. facts_in c1 false false LWaitReader C1 C2 C3 C4. same_phase c1. set (ph := phase_of (mkC _ _ _ _)) in *; clearbody ph.
    split; [right; auto|]. split; [|reflexivity]. apply (inv_step _ c1 t V LT O); [left; reflexivity|rewrite LP1; exact M| |].
    + intros K. exfalso. specialize (H t K). rewrite E in H. cbn [holds] in H. unfold pc_of in H. cbn [c_st] in H. destruct (th_pc (st_thr σ t)); try discriminate M; discriminate.
    + rewrite PS. destruct ph as [k|r| |]; nums; rewrite (int32_lit (cnt + 1)) in * by lia; lia.
  - (* racquire *) start_case c1. facts_in c1 false true LOut C1 C2 C3 C4. same_phase c1. set (ph := phase_of (mkC _ _ _ _)) in *; clearbody ph.
    split; [left; apply rlocked_step; [exact F|apply NW; intros K; rewrite K in NUM; nums; lia]|]. split; [|reflexivity].
    apply (inv_step _ c1 t V LT O); [left; reflexivity|rewrite LP1; intros K; exfalso; revert K; unfold c1, pc_of, rlocked; cbn [c_st st_thr]; rewrite go_pc; cbn [fits] in F; destruct (th_pc (st_thr σ t)); try discriminate F; discriminate| |].
    + intros K. exfalso. specialize (H t K). rewrite E in H. discriminate H.
    + rewrite PS. destruct ph as [k|r| |]; nums; lia.
  - (* runlock *) start_case c1. facts_in c1 true false (if int32 (cnt - 1) <? 0 then LSlow (int32 (cnt - 1)) else LOut) C1 C2 C3 C4. same_phase c1. set (ph := phase_of (mkC _ _ _ _)) in *; clearbody ph.
    assert (I32 : int32 (cnt - 1) = cnt - 1) by (apply int32_lit; destruct ph as [k|r| |]; nums; lia).
    split; [left; apply runlocked_step; exact M|]. split; [|reflexivity].
    apply (inv_step _ c1 t V LT O); [left; reflexivity| | |].
    + rewrite LP1. destruct (Z.ltb_spec (int32 (cnt - 1)) 0) as [NEG|POS]; cbn [fits].
      * split; [unfold c1, pc_of, runlocked; cbn [c_st st_thr]; rewrite go_pc; destruct (th_pc (st_thr σ t)) as [| | | | | | | | | | | |x| |]; try discriminate M; exists x; reflexivity|].
        destruct ph as [k|r| |]; nums; destruct (cnt - 1 <? 0) eqn:NEG'; cbn [b2n isP isD isE] in *; lia.
      * intros K. exfalso. revert K. unfold c1, pc_of, runlocked. cbn [c_st st_thr]. rewrite go_pc. destruct (th_pc (st_thr σ t)); try discriminate M; discriminate.
    + intros K. exfalso. specialize (H t K). rewrite E in H. cbn [holds] in H. unfold pc_of in H. cbn [c_st] in H. destruct (th_pc (st_thr σ t)); try discriminate M; discriminate.
    + rewrite PS. rewrite I32 in *. destruct (Z.ltb_spec (cnt - 1) 0) as [NEG|POS]; cbn [isP isD isE b2n] in *; destruct ph as [k|r| |]; nums; lia.
  - (* fatal *) exfalso. cbn [fits] in F. destruct F as [_ F]. rewrite max_eq in *. rewrite int32_lit in R by lia. lia.
  - (* slow *) start_case c1. facts_in c1 false false (if int32 (wt - 1) =? 0 then LWake else LOut) C1 C2 C3 C4. same_phase c1. set (ph := phase_of (mkC _ _ _ _)) in *; clearbody ph.
    assert (I32 : int32 (wt - 1) = wt - 1) by (apply int32_lit; destruct ph as [k|r0| |]; nums; lia).
    split; [right; auto|]. split; [|reflexivity].
    apply (inv_step _ c1 t V LT O); [left; reflexivity| | |].
    + rewrite LP1. destruct F as [(x & F) _]. destruct (int32 (wt - 1) =? 0); cbn [fits].
      * exists x. exact F.
      * unfold c1, pc_of. cbn [c_st]. rewrite F. discriminate.
    + intros K. exfalso. specialize (H t K). rewrite E in H. discriminate H.
    + rewrite PS. rewrite I32 in *. destruct (Z.eqb_spec (wt - 1) 0) as [NEG|POS]; cbn [isP isD isE b2n] in *; destruct ph as [k|r0| |]; nums; lia.
  - (* wake *) start_case c1. facts_in c1 false false LOut C1 C2 C3 C4. same_phase c1. set (ph := phase_of (mkC _ _ _ _)) in *; clearbody ph.
    split; [right; auto|]. split; [|reflexivity].
    apply (inv_step _ c1 t V LT O); [left; reflexivity| | |].
    + rewrite LP1. destruct F as (x & F). cbn [fits]. unfold c1, pc_of. cbn [c_st]. rewrite F. discriminate.
    + intros K. exfalso. specialize (H t K). rewrite E in H. discriminate H.
    + rewrite PS. destruct ph as [k|r0| |]; nums; lia.
  - (* fatal *) exfalso. assert (W : w = Some t) by (apply F; destruct (th_pc (st_thr σ t)); try discriminate M; reflexivity). subst w.
    assert (PH : phase_of (mkC σ (mkRW (Some t) ws rs cnt wt) l false) = Crit) by (unfold phase_of; cbn [c_rw rw_w c_lpc]; rewrite E; reflexivity).
    rewrite PH in NUM. nums. rewrite int32_lit in R by lia. lia.
  - (* unlock *) assert (W : w = Some t) by (apply F; destruct (th_pc (st_thr σ t)); try discriminate M; reflexivity). subst w.
    assert (PH : phase_of (mkC σ (mkRW (Some t) ws rs cnt wt) l false) = Crit) by (unfold phase_of; cbn [c_rw rw_w c_lpc]; rewrite E; reflexivity).
    rewrite PH in NUM. start_case c1. facts_in c1 false false (LRelease (Z.to_nat (int32 (cnt + maxReaders)))) C1 C2 C3 C4.
    split; [left; apply unlocked_step; exact M|]. split; [|reflexivity].
    apply (inv_step _ c1 t V LT O); [left; reflexivity|rewrite LP1; split; [unfold c1, pc_of, unlocked; cbn [c_st st_thr]; apply go_pc|reflexivity]|rewrite LP1; reflexivity|].
    replace (phase_of c1) with (Free (Z.to_nat (int32 (cnt + maxReaders)))) by (unfold phase_of, c1; cbn [c_rw rw_w c_lpc]; rewrite upd_same; reflexivity).
    nums. rewrite (int32_lit (cnt + 1073741824)) in * by lia. lia.
  - (* release *) destruct F as [M ->]. assert (PH : phase_of (mkC σ (mkRW (Some t) ws rs cnt wt) l false) = Free (S k)) by (unfold phase_of; cbn [c_rw rw_w c_lpc]; rewrite E; reflexivity).
    rewrite PH in NUM. start_case c1. facts_in c1 false false (LRelease k) C1 C2 C3 C4.
    split; [right; auto|]. split; [|reflexivity]. apply (inv_step _ c1 t V LT O); [left; reflexivity|rewrite LP1; split; [exact M|reflexivity]|rewrite LP1; reflexivity|].
    replace (phase_of c1) with (Free k) by (unfold phase_of, c1; cbn [c_rw rw_w c_lpc]; rewrite upd_same; reflexivity).
    nums. lia.
  - (* w.Unlock *) destruct F as [M ->]. assert (PH : phase_of (mkC σ (mkRW (Some t) ws rs cnt wt) l false) = Free 0) by (unfold phase_of; cbn [c_rw rw_w c_lpc]; rewrite E; reflexivity).
    rewrite PH in NUM. start_case c1. facts_in c1 false false LOut C1 C2 C3 C4.
    split; [right; auto|]. split; [|reflexivity].
    apply (inv_step _ c1 t V LT O); [right; right; split; reflexivity|rewrite LP1; cbn [fits]; unfold c1, pc_of; cbn [c_st]; rewrite M; discriminate|discriminate|].
    replace (phase_of c1) with (Free 0) by reflexivity.
    nums. lia.
Qed.
End Inv.
