(** * Consequences of the atomic store ([SpecConc.v]) for histories. *)
From Coq Require Import Lia.
From Verif Require Import Base BaseProofs KV KVProofs SpecConc KVConc ConcProofs.

Lemma invoked_app t a b : invoked_by t (a ++ b) = invoked_by t a ++ invoked_by t b.
Proof. apply flat_map_app. Qed.
Lemma returned_app t a b : returned_by t (a ++ b) = returned_by t a + returned_by t b.
Proof. unfold returned_by. rewrite filter_app, app_length. reflexivity. Qed.
Lemma returned_one t t' r : returned_by t [EReturn t' r] = if (t' =? t)%nat then 1 else 0.
Proof. unfold returned_by. cbn [filter]. destruct (t' =? t)%nat; reflexivity. Qed.
Lemma of_thread_app t a b : of_thread t (a ++ b) = of_thread t a ++ of_thread t b.
Proof. apply flat_map_app. Qed.
Lemma replay_snoc l t c : replay (l ++ [(t, c)]) = fst (apply (replay l) c).
Proof. unfold replay. rewrite fold_left_app. reflexivity. Qed.

(** What the log and the status of a thread say about its events. *)
Record hist (tr : list event) (a : spec) : Prop := {
  h_kv : sp_kv a = replay (sp_log a);
  h_thr : forall t, match sp_status a t with
    | SOut => invoked_by t tr = of_thread t (sp_log a) /\ returned_by t tr = length (of_thread t (sp_log a))
    | SCalled c => invoked_by t tr = of_thread t (sp_log a) ++ [c] /\ returned_by t tr = length (of_thread t (sp_log a))
    | SDone r => invoked_by t tr = of_thread t (sp_log a) /\ S (returned_by t tr) = length (of_thread t (sp_log a))
    end }.

Lemma spec_hist tr a : spec_exec tr a -> hist tr a.
Proof.
  induction 1 as [|tr a e a' _ [HK HT] S]; [split; [reflexivity|intros t; split; reflexivity]|].
  destruct S as [kv l st held t v Q|kv l st held t k v i b Q Hd NE|kv l st held t c Q|kv l st held t c Q|kv l st held t r Q];
    cbn [sp_kv sp_log sp_status snoc] in *; split; cbn [sp_kv sp_log sp_status]; try exact HK; try intros t'.
  - rewrite invoked_app, returned_app. cbn [invoked_by flat_map app]. rewrite app_nil_r. replace (returned_by t' [EMake t v]) with 0 by reflexivity. rewrite Nat.add_0_r. apply HT.
  - rewrite invoked_app, returned_app. cbn [invoked_by flat_map app]. rewrite app_nil_r. replace (returned_by t' [EUse t k i b]) with 0 by reflexivity. rewrite Nat.add_0_r. apply HT.
  - rewrite invoked_app, returned_app. replace (returned_by t' [EInvoke t c]) with 0 by reflexivity. rewrite Nat.add_0_r.
    cbn [invoked_by flat_map]. rewrite app_nil_r. specialize (HT t'). destruct (Nat.eq_dec t' t) as [->|N].
    + rewrite upd_same, Nat.eqb_refl. rewrite Q in HT. destruct HT as [-> HT]. split; [reflexivity|exact HT].
    + rewrite upd_other by exact N. replace (t =? t')%nat with false by (symmetry; apply Nat.eqb_neq; congruence). rewrite app_nil_r. exact HT.
  - rewrite replay_snoc, HK. reflexivity.
  - rewrite of_thread_app. cbn [of_thread flat_map fst snd]. rewrite app_nil_r. specialize (HT t'). destruct (Nat.eq_dec t' t) as [->|N].
    + rewrite upd_same, Nat.eqb_refl. rewrite Q in HT. destruct HT as [-> HT]. split; [reflexivity|]. rewrite app_length. cbn. lia.
    + rewrite upd_other by exact N. replace (t =? t')%nat with false by (symmetry; apply Nat.eqb_neq; congruence). rewrite app_nil_r. exact HT.
  - rewrite invoked_app, returned_app. cbn [invoked_by flat_map]. rewrite app_nil_r. specialize (HT t'). destruct (Nat.eq_dec t' t) as [->|N].
    + rewrite upd_same. rewrite Q in HT. destruct HT as [-> HT]. split; [reflexivity|]. rewrite returned_one, Nat.eqb_refl. lia.
    + rewrite upd_other by exact N. rewrite returned_one. replace (t =? t')%nat with false by (symmetry; apply Nat.eqb_neq; congruence).
      rewrite Nat.add_0_r. exact HT.
Qed.

Lemma hist_bounds tr a : hist tr a -> forall t, returned_by t tr <= length (of_thread t (sp_log a)) /\ prefix_of (of_thread t (sp_log a)) (invoked_by t tr).
Proof.
  intros [_ H] t. specialize (H t). destruct (sp_status a t); destruct H as [H1 H2]; rewrite H1.
  - split; [lia|exists []; rewrite app_nil_r; reflexivity].
  - split; [lia|eexists; reflexivity].
  - split; [lia|exists []; rewrite app_nil_r; reflexivity].
Qed.

(** The state before the last event. *)
Lemma spec_last tr e a : spec_exec (tr ++ [e]) a -> exists a0 a1, spec_exec tr a0 /\ spec_step a0 (Some e) a1.
Proof.
  intros H. remember (tr ++ [e]) as T eqn:E. revert E. induction H as [|T a x a' H IH S]; intros E; [destruct tr; discriminate|].
  destruct x as [x|]; cbn [snoc] in E; [|apply IH, E]. apply app_inj_tail in E as [-> ->]. exists a, a'. split; assumption.
Qed.
Lemma exec_spec tr σ : exec true tr σ -> atomic_trace tr.
Proof. intros H. destruct (exec_rel _ _ H) as [a [A _]]. exists a. exact A. Qed.

(** The log only grows. *)
Lemma log_grows a e a' : spec_step a e a' -> prefix_of (sp_log a) (sp_log a').
Proof. intros S. destruct S; cbn [sp_log]; try (exists []; rewrite app_nil_r; reflexivity). eexists; reflexivity. Qed.

(** A pending Get. *)
Lemma between_more L tr1 tr e : between L tr1 tr -> between L tr1 (snoc tr e).
Proof.
  intros H t. destruct (H t) as [A [r B]]. split; [exact A|]. destruct e as [e|]; cbn [snoc]; [|exists r; exact B].
  rewrite invoked_app, B, <- app_assoc. eexists. reflexivity.
Qed.

Lemma get_pending tr a : spec_exec tr a -> forall t tr1 id tr2, tr = tr1 ++ EInvoke t (CGet id) :: tr2 ->
  invoked_by t tr2 = [] -> returned_by t tr2 = 0 ->
  (forall t', returned_by t' tr1 <= length (of_thread t' (sp_log a))) /\
  (sp_status a t = SCalled (CGet id) \/ exists L, sp_status a t = SDone (RValue (kv_lookup (replay L) id)) /\ between L tr1 tr).
Proof.
  induction 1 as [|tr a e a' E IH S]; intros t tr1 id tr2 EQ NI NR; [destruct tr1; discriminate|].
  pose proof (spec_hist _ _ E) as HH.
  assert (CASE : (exists x, e = Some x /\ tr2 = [] /\ tr1 = tr /\ x = EInvoke t (CGet id)) \/
                 (exists tr2', tr = tr1 ++ EInvoke t (CGet id) :: tr2' /\ tr2 = snoc tr2' e)).
  { destruct e as [x|]; cbn [snoc] in EQ; [|right; exists tr2; split; [exact EQ|reflexivity]].
    destruct tr2 as [|y tr2'] using rev_ind.
    - left. exists x. apply app_inj_tail in EQ as [-> ->]. auto.
    - right. exists tr2'. change (EInvoke t (CGet id) :: tr2' ++ [y]) with ((EInvoke t (CGet id) :: tr2') ++ [y]) in EQ.
      rewrite app_assoc in EQ. apply app_inj_tail in EQ as [-> ->]. split; reflexivity. }
  destruct CASE as [(x & -> & -> & -> & ->)|(tr2' & EQ' & ->)].
  - inversion S; subst. cbn [sp_log sp_status]. split; [|left; apply upd_same]. intros t'. apply (hist_bounds _ _ HH).
  - assert (NI' : invoked_by t tr2' = [] /\ returned_by t tr2' = 0).
    { destruct e as [x|]; cbn [snoc] in NI, NR; [|auto]. rewrite invoked_app in NI. rewrite returned_app in NR. apply app_eq_nil in NI. split; [apply NI|lia]. }
    destruct NI' as [NI' NR']. destruct (IH t tr1 id tr2' EQ' NI' NR') as [B ST].
    split.
    { intros t'. specialize (B t'). destruct (log_grows _ _ _ S) as [r ->]. rewrite of_thread_app, app_length. lia. }
    destruct S as [kv l st held u v Q|kv l st held u k v i b Q Hd NE|kv l st held u c Q|kv l st held u c Q|kv l st held u r Q]; cbn [sp_status sp_log] in *.
    + destruct ST as [ST|[L [ST ST']]]; [left; exact ST|right; exists L; split; [exact ST|apply between_more, ST']].
    + destruct ST as [ST|[L [ST ST']]]; [left; exact ST|right; exists L; split; [exact ST|apply between_more, ST']].
    + destruct (Nat.eq_dec t u) as [->|N].
      * exfalso. cbn [snoc] in NI. rewrite invoked_app in NI. apply app_eq_nil in NI as [_ NI]. cbn [invoked_by flat_map] in NI. rewrite Nat.eqb_refl in NI. discriminate.
      * rewrite upd_other by exact N. destruct ST as [ST|[L [ST ST']]]; [left; exact ST|right; exists L; split; [exact ST|apply between_more, ST']].
    + destruct (Nat.eq_dec t u) as [->|N].
      * rewrite upd_same. destruct ST as [ST|[L [ST ST']]]; [|congruence]. assert (c = CGet id) as -> by congruence. right. exists l. split.
        -- cbn [apply snd]. pose proof (h_kv _ _ HH) as HK. cbn [sp_kv sp_log] in HK. rewrite HK. reflexivity.
        -- intros t'. split; [apply B|]. cbn [snoc]. apply (hist_bounds _ _ HH).
      * rewrite upd_other by exact N. destruct ST as [ST|[L [ST ST']]]; [left; exact ST|right; exists L; split; [exact ST|apply (between_more _ _ _ None), ST']].
    + destruct (Nat.eq_dec t u) as [->|N].
      * exfalso. cbn [snoc] in NR. rewrite returned_app in NR. unfold returned_by at 2 in NR. cbn [filter] in NR. rewrite Nat.eqb_refl in NR. cbn [length] in NR. lia.
      * rewrite upd_other by exact N. destruct ST as [ST|[L [ST ST']]]; [left; exact ST|right; exists L; split; [exact ST|apply between_more, ST']].
Qed.

(** The value a Get returns. *)
Lemma atomic_get t tr1 id tr2 v :
  atomic_trace (tr1 ++ EInvoke t (CGet id) :: tr2 ++ [EReturn t (RValue v)]) -> invoked_by t tr2 = [] -> returned_by t tr2 = 0 ->
  exists L, v = kv_lookup (replay L) id /\ between L tr1 (tr1 ++ EInvoke t (CGet id) :: tr2).
Proof.
  intros [a A] NI NR.
  change (tr1 ++ EInvoke t (CGet id) :: tr2 ++ [EReturn t (RValue v)]) with (tr1 ++ (EInvoke t (CGet id) :: tr2) ++ [EReturn t (RValue v)]) in A.
  rewrite app_assoc in A. apply spec_last in A as (a0 & a1 & A0 & S).
  destruct (get_pending _ _ A0 t tr1 id tr2 eq_refl NI NR) as [_ [ST|[L [ST B]]]]; inversion S; subst; cbn [sp_status] in ST; [congruence|].
  exists L. split; [congruence|exact B].
Qed.
Lemma get_instant t tr1 id tr2 v σ :
  exec true (tr1 ++ EInvoke t (CGet id) :: tr2 ++ [EReturn t (RValue v)]) σ -> invoked_by t tr2 = [] -> returned_by t tr2 = 0 ->
  exists L, v = kv_lookup (replay L) id /\ between L tr1 (tr1 ++ EInvoke t (CGet id) :: tr2).
Proof. intros E. apply atomic_get, (exec_spec _ _ E). Qed.

(** All calls returned: the store holds the effects of all calls. *)
Lemma all_done tr σ : exec true tr σ -> (forall t, returned_by t tr = length (invoked_by t tr)) ->
  exists L, (forall t, of_thread t L = invoked_by t tr) /\ forall id, value_of (st_heap σ) (st_map σ id) = kv_lookup (replay L) id.
Proof.
  intros E D. destruct (exec_rel _ _ E) as [a [A R]]. pose proof (spec_hist _ _ A) as [HK HT]. exists (sp_log a). split.
  - intros t. specialize (HT t). specialize (D t). destruct (sp_status a t); destruct HT as [H1 H2]; rewrite H1 in D |- *; try reflexivity.
    rewrite app_length in D. cbn in D. lia.
  - intros id. rewrite <- HK. symmetry. apply (r_map _ _ R).
Qed.

(** A held slice keeps its bytes. *)
Lemma newer_app t a b : newer t (a ++ b) = newer t a + newer t b.
Proof. unfold newer. rewrite filter_app, app_length. reflexivity. Qed.

Lemma held_kept tr a : spec_exec tr a -> forall t tr1 v tr2, tr = tr1 ++ EReturn t (RValue v) :: tr2 -> nth_error (sp_held a t) (newer t tr2) = Some v.
Proof.
  induction 1 as [|tr a e a' E IH S]; intros t tr1 v tr2 EQ; [destruct tr1; discriminate|].
  assert (CASE : (exists x, e = Some x /\ tr2 = [] /\ tr1 = tr /\ x = EReturn t (RValue v)) \/
                 (exists tr2', tr = tr1 ++ EReturn t (RValue v) :: tr2' /\ tr2 = snoc tr2' e)).
  { destruct e as [x|]; cbn [snoc] in EQ; [|right; exists tr2; split; [exact EQ|reflexivity]].
    destruct tr2 as [|y tr2'] using rev_ind.
    - left. exists x. apply app_inj_tail in EQ as [-> ->]. auto.
    - right. exists tr2'. change (EReturn t (RValue v) :: tr2' ++ [y]) with ((EReturn t (RValue v) :: tr2') ++ [y]) in EQ.
      rewrite app_assoc in EQ. apply app_inj_tail in EQ as [-> ->]. split; reflexivity. }
  destruct CASE as [(x & -> & -> & -> & ->)|(tr2' & EQ' & ->)].
  - inversion S; subst. cbn [sp_held]. rewrite upd_same. reflexivity.
  - specialize (IH t tr1 v tr2' EQ').
    destruct S as [kv l st held u w Q|kv l st held u k w i b Q Hd NE|kv l st held u c Q|kv l st held u c Q|kv l st held u r Q]; cbn [sp_held snoc] in *; rewrite ?newer_app;
      try (replace (newer t _) with 0 by reflexivity; rewrite ?Nat.add_0_r; exact IH); try exact IH.
    + destruct (Nat.eq_dec t u) as [->|N].
      * rewrite upd_same. unfold newer at 2. cbn [filter]. rewrite Nat.eqb_refl. cbn [length]. rewrite Nat.add_1_r. exact IH.
      * rewrite upd_other by exact N. unfold newer at 2. cbn [filter]. replace (u =? t)%nat with false by (symmetry; apply Nat.eqb_neq; congruence). cbn [length]. rewrite Nat.add_0_r. exact IH.
    + unfold newer at 2. cbn [filter length]. rewrite Nat.add_0_r. exact IH.
    + unfold newer at 2. cbn [filter length]. rewrite Nat.add_0_r. exact IH.
    + destruct r as [|w]; [unfold newer at 2; cbn [filter length]; rewrite Nat.add_0_r; exact IH|]. destruct (Nat.eq_dec t u) as [->|N].
      * rewrite upd_same. unfold newer at 2. cbn [filter]. rewrite Nat.eqb_refl. cbn [length]. rewrite Nat.add_1_r. exact IH.
      * rewrite upd_other by exact N. unfold newer at 2. cbn [filter]. replace (u =? t)%nat with false by (symmetry; apply Nat.eqb_neq; congruence). cbn [length]. rewrite Nat.add_0_r. exact IH.
Qed.
Lemma get_immutable t tr1 v tr2 i b σ :
  exec true (tr1 ++ EReturn t (RValue v) :: tr2 ++ [EUse t (newer t tr2) i b]) σ ->
  nth_error (sl v) i = Some b.
Proof.
  intros E. destruct (exec_rel _ _ E) as [a [A _]].
  change (tr1 ++ EReturn t (RValue v) :: tr2 ++ [EUse t (newer t tr2) i b]) with (tr1 ++ (EReturn t (RValue v) :: tr2) ++ [EUse t (newer t tr2) i b]) in A.
  rewrite app_assoc in A. apply spec_last in A as (a0 & a1 & A0 & S).
  pose proof (held_kept _ _ A0 t tr1 v tr2 eq_refl) as H. inversion S; subst. cbn [sp_held] in H.
  match goal with K : nth_error (held t) _ = Some (Some _) |- _ => pose proof (eq_trans (eq_sym H) K) as EV end.
  apply Some_inj in EV. subst v. assumption.
Qed.
