(** * The concurrent store refines the atomic one ([KVConc.v] against
    [SpecConc.v]). *)
From Coq Require Import Lia.
From Verif Require Import Base BaseProofs KV KVProofs SpecConc KVConc.

(** ** Small facts *)
Lemma upd_same {A} (f : nat -> A) t x : upd f t x t = x.
Proof. unfold upd. rewrite Nat.eqb_refl. reflexivity. Qed.
Lemma upd_other {A} (f : nat -> A) t x t' : t' <> t -> upd f t x t' = f t'.
Proof. intros H. unfold upd. apply Nat.eqb_neq in H. rewrite H. reflexivity. Qed.
Lemma upd_cases {A} (f : nat -> A) t x t' : (t' = t /\ upd f t x t' = x) \/ (t' <> t /\ upd f t x t' = f t').
Proof. destruct (Nat.eq_dec t' t) as [->|H]; [left; split; [reflexivity|apply upd_same]|right; split; [exact H|apply upd_other, H]]. Qed.
Lemma set_key_same m id v : set_key m id v id = v.
Proof. unfold set_key. rewrite bytes_eqb_refl. reflexivity. Qed.
Lemma set_key_other m id v id' : id <> id' -> set_key m id v id' = m id'.
Proof. intros H. unfold set_key. apply bytes_eqb_neq in H. rewrite H. reflexivity. Qed.

Lemma set_nth_length l : forall i b, length (set_nth l i b) = length l.
Proof. induction l as [|x l IH]; intros [|i] b; cbn; auto. Qed.
Lemma set_nth_firstn l : forall i b n, n <= i -> firstn n (set_nth l i b) = firstn n l.
Proof.
  induction l as [|x l IH]; intros i b n H; [reflexivity|]. destruct i as [|i]; [replace n with 0 by lia; reflexivity|].
  destruct n as [|n]; [reflexivity|]. cbn [set_nth firstn]. rewrite IH by lia. reflexivity.
Qed.
Lemma set_nth_extend l : forall i b, i < length l -> firstn (S i) (set_nth l i b) = firstn i l ++ [b].
Proof.
  induction l as [|x l IH]; intros i b H; cbn [length] in H; [lia|]. destruct i as [|i]; [reflexivity|].
  cbn [set_nth]. change (firstn (S (S i)) (x :: set_nth l i b)) with (x :: firstn (S i) (set_nth l i b)). rewrite IH by lia. reflexivity.
Qed.
Lemma firstn_S_nth {A} (l : list A) : forall j b, nth_error l j = Some b -> firstn (S j) l = firstn j l ++ [b].
Proof.
  induction l as [|x l IH]; intros [|j] b H; try discriminate.
  - apply Some_inj in H. subst. reflexivity.
  - cbn [nth_error] in H. change (firstn (S (S j)) (x :: l)) with (x :: firstn (S j) l). rewrite (IH j b H). reflexivity.
Qed.

(** ** What is reachable, and who may extend it *)
Definition pc_slice (p : pc) : option slc :=
  match p with
  | PutLock _ v | PutStore _ v => v
  | AppGrow _ _ old => old
  | GetUnlock r | RetValue r => r
  | _ => None
  end.
Definition owned (th : thread) : option slc :=
  match th_pc th with
  | PutLock _ v | PutStore _ v => v
  | _ => if th_own th then newest (th_held th) else None
  end.
Definition visible (σ : state) (r : slc) : Prop :=
  (exists id, st_map σ id = Some r) \/ (exists t, In (Some r) (th_held (st_thr σ t)) \/ pc_slice (th_pc (st_thr σ t)) = Some r).
Definition auth (σ : state) (slot : bytes + nat) : option slc :=
  match slot with inl id => st_map σ id | inr t => owned (st_thr σ t) end.

Definition target_ok (σ : state) (id : bytes) (a n : nat) : Prop :=
  (forall r, visible σ r -> s_arr r = a -> s_len r <= n) /\
  (forall slot s, auth σ slot = Some s -> s_arr s = a -> slot = inl id).
Definition good (h : heap) (r : slc) : Prop :=
  s_arr r < h_next h /\ s_len r <= s_cap r /\ s_cap r <= length (h_arr h (s_arr r)).

Definition app_ok (σ : state) (p : pc) : Prop :=
  let h := st_heap σ in
  match p with
  | AppGrow id v old => old = st_map σ id
  | AppFill id v a cap base j =>
      j <= length v /\ base + length v <= cap /\ cap <= length (h_arr h a) /\ a < h_next h
      /\ firstn (base + j) (h_arr h a) = sl (value_of h (st_map σ id)) ++ firstn j v
      /\ target_ok σ id a base /\ (st_map σ id = None -> v <> [])
  | AppStore id v (Some s) =>
      good h s /\ cont h s = sl (value_of h (st_map σ id)) ++ v
      /\ target_ok σ id (s_arr s) (s_len s) /\ (st_map σ id = None -> v <> [])
  | AppStore id v None => v = [] /\ st_map σ id = None
  | _ => True
  end.

Record inv (σ : state) : Prop := {
  i_good : forall r, visible σ r -> good (st_heap σ) r;
  i_sep : forall s1 s2 x1 x2, auth σ s1 = Some x1 -> auth σ s2 = Some x2 -> s_arr x1 = s_arr x2 -> s1 = s2;
  i_mono : forall r slot s, visible σ r -> auth σ slot = Some s -> s_arr r = s_arr s -> s_len r <= s_len s;
  i_auth : forall slot s, auth σ slot = Some s -> visible σ s;
  i_write : forall t, in_write (th_pc (st_thr σ t)) = true <-> st_writer σ = Some t;
  i_read : forall t, in_read (th_pc (st_thr σ t)) = true <-> In t (st_readers σ);
  i_excl : st_writer σ <> None -> st_readers σ = [];
  i_app : forall t, app_ok σ (th_pc (st_thr σ t));
  i_put : forall t, match th_pc (st_thr σ t) with PutLock _ _ | PutStore _ _ => th_own (st_thr σ t) = false | _ => True end }.

Lemma newest_in l s : newest l = Some s -> In (Some s) l.
Proof. destruct l as [|x l]; [discriminate|]. intros H. left. exact H. Qed.

Lemma inv_init : inv init.
Proof.
  split; unfold init, visible, auth, owned; cbn; intros.
  - destruct H as [[? H]|[? [H|H]]]; [discriminate|contradiction|discriminate].
  - destruct s1; discriminate.
  - destruct slot; discriminate.
  - destruct slot; discriminate.
  - split; discriminate.
  - split; [discriminate|contradiction].
  - reflexivity.
  - exact I.
  - exact I.
Qed.

(** Reachable slices keep their bytes when the heap changes elsewhere. *)
Definition same_values (σ σ' : state) : Prop := forall r, visible σ r -> cont (st_heap σ') r = cont (st_heap σ) r.

(** Same map and heap, one thread changed, nothing new reachable or owned. *)
Section Frame.
Variables (σ : state) (t : nat) (th' : thread) (w : option nat) (rs : list nat).
Let σ' := mkState (st_map σ) w rs (st_heap σ) (upd (st_thr σ) t th').
Hypothesis Hinv : inv σ.
Hypothesis Hvis : forall r, In (Some r) (th_held th') \/ pc_slice (th_pc th') = Some r -> visible σ r.
Hypothesis Hown : owned th' = None \/ owned th' = owned (st_thr σ t).
Hypothesis Hownv : forall s, owned th' = Some s -> In (Some s) (th_held th') \/ pc_slice (th_pc th') = Some s.

Lemma frame_visible r : visible σ' r -> visible σ r.
Proof.
  intros [[id H]|[t' H]]; [left; exists id; exact H|]. unfold σ' in H. cbn [st_thr] in H.
  destruct (upd_cases (st_thr σ) t th' t') as [[-> E]|[N E]]; rewrite E in H.
  - apply Hvis. exact H.
  - right. exists t'. exact H.
Qed.
Lemma frame_auth slot s : auth σ' slot = Some s -> auth σ slot = Some s.
Proof.
  destruct slot as [id|t']; [exact (fun H => H)|]. unfold σ'. cbn [auth st_thr].
  destruct (upd_cases (st_thr σ) t th' t') as [[-> E]|[N E]]; rewrite E; [|exact (fun H => H)].
  destruct Hown as [K|K]; rewrite K; [discriminate|exact (fun H => H)].
Qed.
Lemma frame_target id a n : target_ok σ id a n -> target_ok σ' id a n.
Proof.
  intros [A B]. split.
  - intros r H. apply A, frame_visible, H.
  - intros slot s H. apply (B slot s), frame_auth, H.
Qed.
Lemma frame_app p : app_ok σ p -> app_ok σ' p.
Proof.
  destruct p as [| | | | | | | | id v [s|] | | | | | |]; cbn [app_ok]; auto.
  - intros (A & B & C & D & E & F & G). repeat (split; [assumption|]). split; [apply frame_target, F|exact G].
  - intros (A & B & C & D). split; [exact A|]. split; [exact B|]. split; [apply frame_target, C|exact D].
Qed.
Lemma frame_inv :
  (forall t', in_write (th_pc (upd (st_thr σ) t th' t')) = true <-> w = Some t') ->
  (forall t', in_read (th_pc (upd (st_thr σ) t th' t')) = true <-> In t' rs) ->
  (w <> None -> rs = []) -> app_ok σ' (th_pc th') ->
  match th_pc th' with PutLock _ _ | PutStore _ _ => th_own th' = false | _ => True end -> inv σ'.
Proof.
  intros HW HR HE HA HP. destruct Hinv. split.
  - intros r H. apply i_good0, frame_visible, H.
  - intros s1 s2 x1 x2 H1 H2. apply i_sep0; apply frame_auth; assumption.
  - intros r slot s H1 H2. apply (i_mono0 r slot s); [apply frame_visible, H1|apply frame_auth, H2].
  - intros slot s H. destruct slot as [id|t'].
    + left. exists id. exact H.
    + right. exists t'. cbn [auth] in H. revert H. unfold σ'. cbn [st_thr].
      destruct (upd_cases (st_thr σ) t th' t') as [[-> E]|[N E]]; rewrite E; [apply Hownv|].
      unfold owned. destruct (th_pc (st_thr σ t')); cbn [pc_slice]; intros H; try (right; exact H); destruct (th_own (st_thr σ t')); try discriminate; left; apply newest_in; exact H.
  - exact HW.
  - exact HR.
  - exact HE.
  - intros t'. unfold σ' at 2. cbn [st_thr]. destruct (upd_cases (st_thr σ) t th' t') as [[-> E]|[N E]]; rewrite E; [exact HA|].
    apply frame_app, i_app0.
  - intros t'. unfold σ'. cbn [st_thr]. destruct (upd_cases (st_thr σ) t th' t') as [[-> E]|[N E]]; rewrite E; [exact HP|apply i_put0].
Qed.
End Frame.

Lemma owned_visible th s : owned th = Some s -> In (Some s) (th_held th) \/ pc_slice (th_pc th) = Some s.
Proof.
  unfold owned. destruct (th_pc th); cbn [pc_slice]; intros H; try (right; exact H); destruct (th_own th); try discriminate; left; apply newest_in; exact H.
Qed.

(** Which threads are in a critical section after thread [t] moved. *)
Lemma write_moved σ t p : inv σ -> in_write p = in_write (th_pc (st_thr σ t)) ->
  forall t', in_write (th_pc (go σ t p t')) = true <-> st_writer σ = Some t'.
Proof.
  intros I E t'. unfold go. destruct (upd_cases (st_thr σ) t (mkThread p (th_held (st_thr σ t)) (th_own (st_thr σ t))) t') as [[-> K]|[N K]]; rewrite K; cbn [th_pc]; [rewrite E|]; apply (i_write _ I).
Qed.
Lemma read_moved σ t p : inv σ -> in_read p = in_read (th_pc (st_thr σ t)) ->
  forall t', in_read (th_pc (go σ t p t')) = true <-> In t' (st_readers σ).
Proof.
  intros I E t'. unfold go. destruct (upd_cases (st_thr σ) t (mkThread p (th_held (st_thr σ t)) (th_own (st_thr σ t))) t') as [[-> K]|[N K]]; rewrite K; cbn [th_pc]; [rewrite E|]; apply (i_read _ I).
Qed.

Lemma app_ok_out σ p : in_write p = false -> app_ok σ p.
Proof. destruct p as [| | | | | | | | ? ? [?|] | | | | | |]; intros H; try discriminate H; exact I. Qed.

(** A move of thread [t] inside a call (or to its start) that leaves map and
    heap alone. *)
Lemma go_inv σ t p w rs : inv σ ->
  (forall r, pc_slice p = Some r -> visible σ r) ->
  (owned (mkThread p (th_held (st_thr σ t)) (th_own (st_thr σ t))) = None \/
   owned (mkThread p (th_held (st_thr σ t)) (th_own (st_thr σ t))) = owned (st_thr σ t)) ->
  (forall t', in_write (th_pc (go σ t p t')) = true <-> w = Some t') ->
  (forall t', in_read (th_pc (go σ t p t')) = true <-> In t' rs) ->
  (w <> None -> rs = []) -> app_ok σ p ->
  match p with PutLock _ _ | PutStore _ _ => th_own (st_thr σ t) = false | _ => True end ->
  inv (mkState (st_map σ) w rs (st_heap σ) (go σ t p)).
Proof.
  intros I V O HW HR HE HA HP. unfold go in *.
  assert (V' : forall r, In (Some r) (th_held (mkThread p (th_held (st_thr σ t)) (th_own (st_thr σ t)))) \/ pc_slice (th_pc (mkThread p (th_held (st_thr σ t)) (th_own (st_thr σ t)))) = Some r -> visible σ r).
  { cbn [th_held th_pc]. intros r [H|H]; [|apply V, H]. right. exists t. left. exact H. }
  apply frame_inv; try assumption.
  - intros s. apply owned_visible.
  - apply frame_app; assumption.
Qed.

(** A write to the map by the thread in the critical section. *)
Lemma store_inv σ t id nv p : inv σ -> in_write (th_pc (st_thr σ t)) = true -> in_write p = true -> in_read p = false -> pc_slice p = None ->
  (match p with AppGrow _ _ _ | AppFill _ _ _ _ _ _ | AppStore _ _ _ => False | _ => True end) ->
  (forall s, nv = Some s -> good (st_heap σ) s /\ (forall r, visible σ r -> s_arr r = s_arr s -> s_len r <= s_len s) /\
     (forall slot x, auth σ slot = Some x -> s_arr x = s_arr s -> slot = inl id \/ (slot = inr t /\ owned (mkThread p (th_held (st_thr σ t)) (th_own (st_thr σ t))) = None))) ->
  (owned (mkThread p (th_held (st_thr σ t)) (th_own (st_thr σ t))) = None \/
   owned (mkThread p (th_held (st_thr σ t)) (th_own (st_thr σ t))) = owned (st_thr σ t)) ->
  match p with PutLock _ _ | PutStore _ _ => th_own (st_thr σ t) = false | _ => True end ->
  inv (mkState (set_key (st_map σ) id nv) (st_writer σ) (st_readers σ) (st_heap σ) (go σ t p)).
Proof.
  intros I W WP RP PS NA S' O HP.
  set (th' := mkThread p (th_held (st_thr σ t)) (th_own (st_thr σ t))) in *.
  set (σ' := mkState _ _ _ _ _).
  assert (TH : forall t', st_thr σ' t' = upd (st_thr σ) t th' t') by reflexivity.
  assert (VIS : forall r, visible σ' r -> visible σ r \/ nv = Some r).
  { intros r [[id' H]|[t' H]].
    - cbn [st_map σ'] in H. destruct (bytes_dec id id') as [<-|N].
      + rewrite set_key_same in H. right. exact H.
      + rewrite set_key_other in H by exact N. left. left. exists id'. exact H.
    - rewrite TH in H. left. right. destruct (upd_cases (st_thr σ) t th' t') as [[-> E]|[N E]]; rewrite E in H.
      + exists t. destruct H as [H|H]; [left; exact H|]. cbn [th_pc th'] in H. rewrite PS in H. discriminate.
      + exists t'. exact H. }
  assert (AUTH : forall slot x, auth σ' slot = Some x -> (slot = inl id /\ nv = Some x) \/
      (slot <> inl id /\ auth σ slot = Some x /\ (slot = inr t -> owned th' <> None))).
  { intros [id'|t'] x H; cbn [auth] in H.
    - cbn [st_map σ'] in H. destruct (bytes_dec id id') as [<-|N].
      + rewrite set_key_same in H. left. auto.
      + rewrite set_key_other in H by exact N. right. split; [congruence|]. split; [exact H|]. discriminate.
    - rewrite TH in H. right. split; [discriminate|]. destruct (upd_cases (st_thr σ) t th' t') as [[-> E]|[N E]]; rewrite E in H.
      + split; [|intros _; rewrite H; discriminate]. cbn [auth]. destruct O as [O|O]; rewrite O in H; [discriminate|exact H].
      + split; [exact H|]. intros K. congruence. }
  destruct I as [IG IS IM IA IW IR IE IP IU]. split.
  - intros r H. apply VIS in H as [H|H]; [apply IG, H|apply S', H].
  - intros s1 s2 x1 x2 H1 H2 E. apply AUTH in H1 as [[-> H1]|(N1 & H1 & K1)], H2 as [[-> H2]|(N2 & H2 & K2)].
    + reflexivity.
    + exfalso. destruct (proj2 (proj2 (S' _ H1)) _ _ H2 (eq_sym E)) as [K|[K K']]; [contradiction|]. apply (K2 K), K'.
    + exfalso. destruct (proj2 (proj2 (S' _ H2)) _ _ H1 E) as [K|[K K']]; [contradiction|]. apply (K1 K), K'.
    + exact (IS _ _ _ _ H1 H2 E).
  - intros r slot s Hr Ha E. apply VIS in Hr. apply AUTH in Ha as [[-> Ha]|(N & Ha & K)]; destruct Hr as [Hr|Hr].
    + apply (S' _ Ha); assumption.
    + rewrite Hr in Ha. apply Some_inj in Ha. subst. lia.
    + exact (IM _ _ _ Hr Ha E).
    + exfalso. destruct (proj2 (proj2 (S' _ Hr)) _ _ Ha (eq_sym E)) as [K'|[K' K'']]; [contradiction|]. apply (K K'), K''.
  - intros slot x H. destruct slot as [id'|t']; [left; exists id'; exact H|]. right. exists t'. apply owned_visible. exact H.
  - intros t'. rewrite TH. destruct (upd_cases (st_thr σ) t th' t') as [[-> E]|[N E]]; rewrite E; [|apply IW].
    cbn [th_pc th' st_writer σ']. rewrite WP. specialize (IW t). rewrite W in IW. exact IW.
  - intros t'. rewrite TH. destruct (upd_cases (st_thr σ) t th' t') as [[-> E]|[N E]]; rewrite E; [|apply IR].
    cbn [th_pc th' st_readers σ']. rewrite RP.
    assert (R0 : in_read (th_pc (st_thr σ t)) = false) by (destruct (th_pc (st_thr σ t)); try discriminate W; reflexivity). specialize (IR t). rewrite R0 in IR. exact IR.
  - exact IE.
  - intros t'. rewrite TH. destruct (upd_cases (st_thr σ) t th' t') as [[-> E]|[N E]]; rewrite E.
    + cbn [th_pc th']. destruct p; try contradiction NA; exact I.
    + apply app_ok_out. destruct (in_write (th_pc (st_thr σ t'))) eqn:K; [|reflexivity]. exfalso. apply N.
      apply IW in K. apply IW in W. congruence.
  - intros t'. rewrite TH. destruct (upd_cases (st_thr σ) t th' t') as [[-> E]|[N E]]; rewrite E; [exact HP|apply IU].
Qed.

(** Allocation by thread [t], which may come to hold the new slice. *)
Lemma alloc_inv σ t b h a th' : inv σ -> alloc (st_heap σ) b = (h, a) ->
  in_write (th_pc th') = in_write (th_pc (st_thr σ t)) -> in_read (th_pc th') = in_read (th_pc (st_thr σ t)) ->
  (forall r, In (Some r) (th_held th') \/ pc_slice (th_pc th') = Some r -> visible σ r \/ (s_arr r = a /\ good h r)) ->
  (forall x, owned th' = Some x -> owned (st_thr σ t) = Some x \/ s_arr x = a) ->
  (forall r x, (In (Some r) (th_held th') \/ pc_slice (th_pc th') = Some r) -> s_arr r = a -> owned th' = Some x -> r = x) ->
  (let σ' := mkState (st_map σ) (st_writer σ) (st_readers σ) h (upd (st_thr σ) t th') in
   app_ok σ' (th_pc th')) ->
  match th_pc th' with PutLock _ _ | PutStore _ _ => th_own th' = false | _ => True end ->
  inv (mkState (st_map σ) (st_writer σ) (st_readers σ) h (upd (st_thr σ) t th')).
Proof.
  intros I A W R V O U AP HP. unfold alloc in A. apply pair_inj in A as [<- <-]. cbv zeta in AP.
  set (σ' := mkState _ _ _ _ _) in *.
  assert (TH : forall t', st_thr σ' t' = upd (st_thr σ) t th' t') by reflexivity.
  set (h := mkHeap _ _) in *.
  pose proof (i_good _ I) as IG.
  assert (OLD : forall x, x <> h_next (st_heap σ) -> h_arr h x = h_arr (st_heap σ) x) by (intros x N; apply upd_other, N).
  assert (GOOD : forall r, visible σ r -> good h r).
  { intros r H. destruct (IG r H) as (G1 & G2 & G3). split; [cbn [h_next h]; lia|]. split; [exact G2|]. rewrite OLD by lia. exact G3. }
  assert (VIS : forall r, visible σ' r -> visible σ r \/ (s_arr r = h_next (st_heap σ) /\ good h r /\ (In (Some r) (th_held th') \/ pc_slice (th_pc th') = Some r))).
  { intros r [[id H]|[t' H]]; [left; left; exists id; exact H|]. rewrite TH in H.
    destruct (upd_cases (st_thr σ) t th' t') as [[-> E]|[N E]]; rewrite E in H.
    - destruct (V r H) as [K|[K K']]; auto.
    - left. right. exists t'. exact H. }
  assert (AUTH : forall slot x, auth σ' slot = Some x -> auth σ slot = Some x \/ (slot = inr t /\ s_arr x = h_next (st_heap σ) /\ owned th' = Some x)).
  { intros [id|t'] x H; [left; exact H|]. cbn [auth] in *. rewrite TH in H.
    destruct (upd_cases (st_thr σ) t th' t') as [[-> E]|[N E]]; rewrite E in H; [|left; exact H].
    destruct (O x H) as [K|K]; auto. }
  assert (FRESH : forall r, visible σ r -> s_arr r <> h_next (st_heap σ)) by (intros r H; destruct (IG r H); lia).
  destruct I as [_ IS IM IA IW IR IE IP IU]. split.
  - intros r H. apply VIS in H as [H|(_ & H & _)]; [apply GOOD, H|exact H].
  - intros s1 s2 x1 x2 H1 H2 E. apply AUTH in H1 as [H1|(-> & H1 & _)], H2 as [H2|(-> & H2 & _)].
    + exact (IS _ _ _ _ H1 H2 E).
    + exfalso. apply (FRESH x1); [eapply IA; exact H1|congruence].
    + exfalso. apply (FRESH x2); [eapply IA; exact H2|congruence].
    + reflexivity.
  - intros r slot s Hr Ha E. apply VIS in Hr as [Hr|(Hr & _ & Hr')]; apply AUTH in Ha as [Ha|(-> & Ha & Ha')].
    + exact (IM _ _ _ Hr Ha E).
    + exfalso. apply (FRESH r Hr). congruence.
    + exfalso. apply (FRESH s); [eapply IA; exact Ha|congruence].
    + rewrite (U r s Hr' Hr Ha'). lia.
  - intros slot x H. destruct slot as [id'|t']; [left; exists id'; exact H|]. right. exists t'. apply owned_visible. exact H.
  - intros t'. rewrite TH. destruct (upd_cases (st_thr σ) t th' t') as [[-> E]|[N E]]; rewrite E; [rewrite W|]; apply IW.
  - intros t'. rewrite TH. destruct (upd_cases (st_thr σ) t th' t') as [[-> E]|[N E]]; rewrite E; [rewrite R|]; apply IR.
  - exact IE.
  - intros t'. rewrite TH. destruct (upd_cases (st_thr σ) t th' t') as [[-> E]|[N E]]; rewrite E; [exact AP|].
    specialize (IP t'). assert (TGT : forall id x n, x < h_next (st_heap σ) -> target_ok σ id x n -> target_ok σ' id x n).
    { intros id x n L [T1 T2]. split.
      - intros r H K. apply VIS in H as [H|(H & _)]; [apply T1; assumption|lia].
      - intros slot s H K. apply AUTH in H as [H|(_ & H & _)]; [apply (T2 slot s); assumption|lia]. }
    assert (VAL : forall id, value_of h (st_map σ id) = value_of (st_heap σ) (st_map σ id)).
    { intros id. destruct (st_map σ id) as [s|] eqn:M; [|reflexivity]. cbn [value_of option_map]. f_equal. unfold cont. rewrite OLD; [reflexivity|].
      apply FRESH. left. exists id. exact M. }
    destruct (th_pc (st_thr σ t')) as [| | | | | | | id v a cap base j | id v [s|] | | | | | |]; cbn [app_ok] in *; auto.
    + destruct IP as (P1 & P2 & P3 & P4 & P5 & P6 & P7). split; [exact P1|]. split; [exact P2|]. cbn [st_heap st_map σ'].
      rewrite OLD by lia. split; [exact P3|]. split; [cbn [h_next h]; lia|]. split; [rewrite VAL; exact P5|]. split; [apply TGT; assumption|exact P7].
    + destruct IP as ((G1 & G2 & G3) & P2 & P3 & P4). cbn [st_heap st_map σ']. split; [|split; [|split; [apply TGT; assumption|exact P4]]].
      * split; [cbn [h_next h]; lia|]. split; [exact G2|]. rewrite OLD by lia. exact G3.
      * unfold cont. rewrite OLD by lia. rewrite VAL. exact P2.
  - intros t'. rewrite TH. destruct (upd_cases (st_thr σ) t th' t') as [[-> E]|[N E]]; rewrite E; [exact HP|apply IU].
Qed.

(** One byte of an append. *)
Lemma fill_values σ t id v a cap base j b : inv σ -> th_pc (st_thr σ t) = AppFill id v a cap base j ->
  forall r, visible σ r -> cont (write (st_heap σ) a (base + j) b) r = cont (st_heap σ) r.
Proof.
  intros I P r H. pose proof (i_app _ I t) as A. rewrite P in A. cbn [app_ok] in A. destruct A as (_ & _ & _ & _ & _ & [T _] & _).
  unfold cont, write. cbn [h_arr]. destruct (upd_cases (h_arr (st_heap σ)) a (set_nth (h_arr (st_heap σ) a) (base + j) b) (s_arr r)) as [[E ->]|[N ->]]; [|reflexivity].
  rewrite E. apply set_nth_firstn. specialize (T r H E). lia.
Qed.

Lemma fill_inv σ t id v a cap base j b : inv σ -> th_pc (st_thr σ t) = AppFill id v a cap base j -> nth_error v j = Some b ->
  inv (mkState (st_map σ) (st_writer σ) (st_readers σ) (write (st_heap σ) a (base + j) b) (go σ t (AppFill id v a cap base (S j)))).
Proof.
  intros I P NE. pose proof (fill_values σ t id v a cap base j b I P) as VAL.
  pose proof (i_app _ I t) as A. rewrite P in A. cbn [app_ok] in A. destruct A as (A1 & A2 & A3 & A4 & A5 & A6 & A7).
  assert (J : j < length v) by (apply nth_error_Some; congruence).
  set (th' := mkThread (AppFill id v a cap base (S j)) (th_held (st_thr σ t)) (th_own (st_thr σ t))).
  unfold go. fold th'. set (σ' := mkState _ _ _ _ _). set (h := write _ _ _ _) in *.
  assert (TH : forall t', st_thr σ' t' = upd (st_thr σ) t th' t') by reflexivity.
  assert (LEN : forall x, length (h_arr h x) = length (h_arr (st_heap σ) x)).
  { intros x. unfold h, write. cbn [h_arr]. destruct (upd_cases (h_arr (st_heap σ)) a (set_nth (h_arr (st_heap σ) a) (base + j) b) x) as [[-> ->]|[N ->]]; [apply set_nth_length|reflexivity]. }
  assert (VIS : forall r, visible σ' r -> visible σ r).
  { intros r [[id' H]|[t' H]]; [left; exists id'; exact H|]. right. exists t'. rewrite TH in H.
    destruct (upd_cases (st_thr σ) t th' t') as [[-> E]|[N E]]; rewrite E in H; [|exact H].
    destruct H as [H|H]; [left; exact H|discriminate H]. }
  assert (AUTH : forall slot x, auth σ' slot = Some x -> auth σ slot = Some x).
  { intros [id'|t'] x H; [exact H|]. cbn [auth] in *. rewrite TH in H.
    destruct (upd_cases (st_thr σ) t th' t') as [[-> E]|[N E]]; rewrite E in H; [|exact H].
    unfold owned. rewrite P. exact H. }
  destruct I as [IG IS IM IA IW IR IE IP IU]. split.
  - intros r H. apply VIS in H. destruct (IG r H) as (G1 & G2 & G3). split; [exact G1|]. split; [exact G2|]. cbn [st_heap σ']. rewrite LEN. exact G3.
  - intros s1 s2 x1 x2 H1 H2. apply IS; apply AUTH; assumption.
  - intros r slot s H1 H2. apply (IM r slot s); [apply VIS, H1|apply AUTH, H2].
  - intros slot x H. destruct slot as [id'|t']; [left; exists id'; exact H|]. right. exists t'. apply owned_visible. exact H.
  - intros t'. rewrite TH. destruct (upd_cases (st_thr σ) t th' t') as [[-> E]|[N E]]; rewrite E; [|apply IW].
    specialize (IW t). rewrite P in IW. exact IW.
  - intros t'. rewrite TH. destruct (upd_cases (st_thr σ) t th' t') as [[-> E]|[N E]]; rewrite E; [|apply IR].
    specialize (IR t). rewrite P in IR. exact IR.
  - exact IE.
  - intros t'. rewrite TH. destruct (upd_cases (st_thr σ) t th' t') as [[-> E]|[N E]]; rewrite E.
    + cbn [th_pc th' app_ok st_heap st_map σ']. split; [lia|]. split; [exact A2|]. rewrite LEN. split; [exact A3|]. split; [exact A4|].
      assert (VM : value_of h (st_map σ id) = value_of (st_heap σ) (st_map σ id)).
      { destruct (st_map σ id) as [s|] eqn:M; [|reflexivity]. cbn [value_of option_map]. f_equal. apply VAL. left. exists id. exact M. }
      rewrite VM. split; [|split; [|exact A7]].
      * unfold h, write. cbn [h_arr]. rewrite upd_same. replace (base + S j) with (S (base + j)) by lia.
        rewrite set_nth_extend by lia. rewrite A5. rewrite (firstn_S_nth v j b NE), app_assoc. reflexivity.
      * destruct A6 as [T1 T2]. split; [intros r H; apply T1, VIS, H|intros slot s H; apply (T2 slot s), AUTH, H].
    + apply app_ok_out. destruct (in_write (th_pc (st_thr σ t'))) eqn:K; [|reflexivity]. exfalso. apply N.
      apply IW in K. specialize (IW t). rewrite P in IW. destruct IW as [IW _]. specialize (IW eq_refl). congruence.
  - intros t'. rewrite TH. destruct (upd_cases (st_thr σ) t th' t') as [[-> E]|[N E]]; rewrite E; [exact I|apply IU].
Qed.

(** ** Every step keeps the invariant and the bytes of reachable slices *)
Lemma write_acquired σ t p : inv σ -> st_writer σ = None -> in_write p = true ->
  forall t', in_write (th_pc (go σ t p t')) = true <-> Some t = Some t'.
Proof.
  intros I W E t'. unfold go. destruct (upd_cases (st_thr σ) t (mkThread p (th_held (st_thr σ t)) (th_own (st_thr σ t))) t') as [[-> K]|[N K]]; rewrite K; cbn [th_pc].
  - rewrite E. tauto.
  - rewrite (i_write _ I t'), W. split; intros H; [discriminate|congruence].
Qed.
Lemma write_released σ t p : inv σ -> in_write (th_pc (st_thr σ t)) = true -> in_write p = false ->
  forall t', in_write (th_pc (go σ t p t')) = true <-> None = Some t'.
Proof.
  intros I W E t'. unfold go. destruct (upd_cases (st_thr σ) t (mkThread p (th_held (st_thr σ t)) (th_own (st_thr σ t))) t') as [[-> K]|[N K]]; rewrite K; cbn [th_pc].
  - rewrite E. split; discriminate.
  - apply (i_write _ I) in W. rewrite (i_write _ I t'), W. split; intros H; [congruence|discriminate].
Qed.
Lemma read_acquired σ t p : inv σ -> in_read p = true ->
  forall t', in_read (th_pc (go σ t p t')) = true <-> In t' (t :: st_readers σ).
Proof.
  intros I E t'. unfold go. destruct (upd_cases (st_thr σ) t (mkThread p (th_held (st_thr σ t)) (th_own (st_thr σ t))) t') as [[-> K]|[N K]]; rewrite K; cbn [th_pc].
  - rewrite E. cbn. tauto.
  - rewrite (i_read _ I t'). cbn [In]. split; [tauto|]. intros [H|H]; [congruence|exact H].
Qed.
Lemma read_released σ t p : inv σ -> in_read p = false ->
  forall t', in_read (th_pc (go σ t p t')) = true <-> In t' (remove Nat.eq_dec t (st_readers σ)).
Proof.
  intros I E t'. unfold go. destruct (upd_cases (st_thr σ) t (mkThread p (th_held (st_thr σ t)) (th_own (st_thr σ t))) t') as [[-> K]|[N K]]; rewrite K; cbn [th_pc].
  - rewrite E. split; [discriminate|]. intros H. exfalso. exact (remove_In Nat.eq_dec _ _ H).
  - rewrite (i_read _ I t'). split; intros H; [apply in_in_remove; assumption|]. apply in_remove in H. apply H.
Qed.

Lemma alloc_values σ b h a : inv σ -> alloc (st_heap σ) b = (h, a) -> forall r, visible σ r -> cont h r = cont (st_heap σ) r.
Proof.
  intros I A r H. unfold alloc in A. apply pair_inj in A as [<- <-]. unfold cont. cbn [h_arr]. rewrite upd_other; [reflexivity|].
  destruct (i_good _ I r H). lia.
Qed.

Lemma pc_visible σ t p r : th_pc (st_thr σ t) = p -> pc_slice p = Some r -> visible σ r.
Proof. intros P H. right. exists t. right. rewrite P. exact H. Qed.

Ltac quiet := intros ? ?; reflexivity.
Ltac own_same P := right; unfold owned; rewrite P; reflexivity.

Lemma step_inv σ e σ' : inv σ -> step true σ e σ' -> inv σ' /\ same_values σ σ'.
Proof.
  intros I S. destruct S as
    [ σ t v junk h a P A | σ t k s i b P H L NE | σ t id P ST | σ t id v P W R | σ t id v P | σ t P
    | σ t id v P | σ t id v P W R | σ t id v P | σ t id P | σ t id v s P C | σ t id v old extra h a P C A
    | σ t id v a cap base j b P NE | σ t id v a cap base P | σ t id v new P | σ t P
    | σ t id P | σ t id P W | σ t id P | σ t r P | σ t P | σ t r P ].
  - (* make *) split; [|exact (alloc_values _ _ _ _ I A)].
    set (new := mkSlc a (length v) (length (v ++ junk))).
    assert (G : good h new).
    { unfold alloc in A. apply pair_inj in A as [<- <-]. unfold good, new. cbn [s_arr s_len s_cap h_next h_arr]. rewrite upd_same, app_length. lia. }
    apply (alloc_inv σ t _ _ _ (mkThread Idle (Some new :: th_held (st_thr σ t)) true) I A); cbn [th_pc th_held th_own]; unfold owned; cbn [th_pc th_held th_own pc_slice].
    + rewrite P. reflexivity.
    + rewrite P. reflexivity.
    + intros r [[H|H]|H]; [|left; right; exists t; left; exact H|discriminate]. apply Some_inj in H. subst r. right. split; [reflexivity|exact G].
    + intros x H. apply Some_inj in H. subst x. right. reflexivity.
    + cbn [newest]. intros r x [[H|H]|H] E K; [congruence| |discriminate]. exfalso.
      destruct (i_good _ I r) as (G1 & _); [right; exists t; left; exact H|]. unfold alloc in A. apply pair_inj in A as [_ A]. lia.
    + exact Logic.I.
    + exact Logic.I.
  - (* use *) split; [exact I|quiet].
  - (* put call *) split; [|quiet]. apply frame_inv; cbn [th_pc th_held th_own pc_slice].
    + exact I.
    + intros r H. right. exists t. left. destruct H as [H|H]; [exact H|apply newest_in, H].
    + unfold owned. rewrite P. cbn [th_pc]. destruct (newest (th_held (st_thr σ t))); [|left; reflexivity]. right. rewrite ST; [reflexivity|reflexivity|discriminate].
    + intros s H. right. exact H.
    + intros t'. destruct (upd_cases (st_thr σ) t (mkThread (PutLock id (newest (th_held (st_thr σ t)))) (th_held (st_thr σ t)) false) t') as [[-> K]|[N K]]; rewrite K; [|apply (i_write _ I)].
      pose proof (i_write _ I t) as X. rewrite P in X. exact X.
    + intros t'. destruct (upd_cases (st_thr σ) t (mkThread (PutLock id (newest (th_held (st_thr σ t)))) (th_held (st_thr σ t)) false) t') as [[-> K]|[N K]]; rewrite K; [|apply (i_read _ I)].
      pose proof (i_read _ I t) as X. rewrite P in X. exact X.
    + apply (i_excl _ I).
    + exact Logic.I.
    + reflexivity.
  - (* put lock *) split; [|quiet]. apply go_inv.
    + exact I.
    + intros r H. exact (pc_visible _ _ _ _ P H).
    + own_same P.
    + apply write_acquired; [exact I|exact W|reflexivity].
    + rewrite <- R. apply read_moved; [exact I|rewrite P; reflexivity].
    + reflexivity.
    + exact Logic.I.
    + pose proof (i_put _ I t) as X. rewrite P in X. exact X.
  - (* put store *) split; [|quiet]. pose proof (i_put _ I t) as X. rewrite P in X.
    apply store_inv; [exact I|rewrite P; reflexivity|reflexivity|reflexivity|reflexivity|exact Logic.I| | |exact Logic.I].
    + intros s ->. assert (AU : auth σ (inr t) = Some s) by (cbn [auth]; unfold owned; rewrite P; reflexivity).
      split; [apply (i_good _ I), (i_auth _ I _ _ AU)|]. split.
      * intros r H E. exact (i_mono _ I _ _ _ H AU E).
      * intros slot x H E. right. split; [exact (i_sep _ I _ _ _ _ H AU E)|]. unfold owned. cbn [th_pc th_own]. rewrite X. reflexivity.
    + left. unfold owned. cbn [th_pc th_own]. rewrite X. reflexivity.
  - (* put unlock *) split; [|quiet]. apply go_inv; [exact I|discriminate| | | | |exact Logic.I|exact Logic.I].
    + own_same P.
    + apply write_released; [exact I|rewrite P; reflexivity|reflexivity].
    + apply read_moved; [exact I|rewrite P; reflexivity].
    + congruence.
  - (* append call *) split; [|quiet]. apply go_inv; [exact I|discriminate| | | | |exact Logic.I|exact Logic.I].
    + own_same P.
    + apply write_moved; [exact I|rewrite P; reflexivity].
    + apply read_moved; [exact I|rewrite P; reflexivity].
    + apply (i_excl _ I).
  - (* append lock *) split; [|quiet]. apply go_inv; [exact I|discriminate| | | | |exact Logic.I|exact Logic.I].
    + own_same P.
    + apply write_acquired; [exact I|exact W|reflexivity].
    + rewrite <- R. apply read_moved; [exact I|rewrite P; reflexivity].
    + reflexivity.
  - (* append load *) split; [|quiet]. apply go_inv; [exact I| | | | | |reflexivity|exact Logic.I].
    + intros r H. left. exists id. exact H.
    + own_same P.
    + apply write_moved; [exact I|rewrite P; reflexivity].
    + apply read_moved; [exact I|rewrite P; reflexivity].
    + apply (i_excl _ I).
  - (* append nothing to nil *) split; [|quiet]. pose proof (i_app _ I t) as X. rewrite P in X. cbn [app_ok] in X.
    apply go_inv; [exact I|discriminate| | | | |split; [reflexivity|symmetry; exact X]|exact Logic.I].
    + own_same P.
    + apply write_moved; [exact I|rewrite P; reflexivity].
    + apply read_moved; [exact I|rewrite P; reflexivity].
    + apply (i_excl _ I).
  - (* append in place *) split; [|quiet]. pose proof (i_app _ I t) as X. rewrite P in X. cbn [app_ok] in X.
    assert (V : visible σ s) by (apply (pc_visible _ _ _ _ P); reflexivity).
    assert (AU : auth σ (inl id) = Some s) by (symmetry; exact X).
    destruct (i_good _ I s V) as (G1 & G2 & G3).
    apply go_inv; [exact I|discriminate| | | | | |exact Logic.I].
    + own_same P.
    + apply write_moved; [exact I|rewrite P; reflexivity].
    + apply read_moved; [exact I|rewrite P; reflexivity].
    + apply (i_excl _ I).
    + cbn [app_ok]. split; [lia|]. split; [exact C|]. split; [exact G3|]. split; [exact G1|]. split; [|split].
      * rewrite <- X. cbn [value_of option_map sl firstn]. rewrite app_nil_r, Nat.add_0_r. reflexivity.
      * split; [intros r H E; exact (i_mono _ I _ _ _ H AU E)|intros slot x H E; exact (i_sep _ I _ _ _ _ H AU E)].
      * congruence.
  - (* append with a new array *) split; [|exact (alloc_values _ _ _ _ I A)]. pose proof (i_app _ I t) as X. rewrite P in X. cbn [app_ok] in X.
    pose proof A as A'. unfold alloc in A'. apply pair_inj in A' as [EH EA].
    assert (LV : length (sl (value_of (st_heap σ) old)) = len0 old).
    { destruct old as [s|]; [|reflexivity]. destruct (i_good _ I s) as (G1 & G2 & G3); [apply (pc_visible _ _ _ _ P); reflexivity|].
      cbn [value_of option_map sl len0]. unfold cont. rewrite firstn_length. lia. }
    assert (VH : value_of h (st_map σ id) = value_of (st_heap σ) old).
    { rewrite <- X. destruct old as [s|]; [|reflexivity]. cbn [value_of option_map]. f_equal.
      apply (alloc_values σ _ _ _ I A). left. exists id. symmetry. exact X. }
    unfold go. apply (alloc_inv σ t _ _ _ (mkThread (AppFill id v a (len0 old + length v + extra) (len0 old) 0) (th_held (st_thr σ t)) (th_own (st_thr σ t))) I A); cbn [th_pc th_held th_own pc_slice].
    + rewrite P. reflexivity.
    + rewrite P. reflexivity.
    + intros r [H|H]; [|discriminate]. left. right. exists t. left. exact H.
    + intros x H. left. revert H. unfold owned. rewrite P. exact (fun H => H).
    + intros r x [H|H] E _; [|discriminate]. exfalso. destruct (i_good _ I r) as (G1 & _); [right; exists t; left; exact H|]. lia.
    + set (σ' := mkState _ _ _ _ _). cbn [app_ok st_heap st_map σ']. subst h a. cbn [h_arr h_next]. rewrite upd_same. unfold zeros. rewrite app_length, LV, repeat_length.
      split; [lia|]. split; [lia|]. split; [lia|]. split; [lia|]. split; [|split; [split|]].
      * cbn [firstn]. rewrite app_nil_r, Nat.add_0_r. rewrite firstn_app_exact by exact LV. f_equal.
        symmetry. exact VH.
      * intros r [[id' H]|[t' H]] E.
        -- exfalso. destruct (i_good _ I r) as (G1 & _); [left; exists id'; exact H|]. lia.
        -- exfalso. destruct (i_good _ I r) as (G1 & _); [|lia]. right. exists t'. cbn [st_thr σ'] in H.
           destruct (upd_cases (st_thr σ) t (mkThread (AppFill id v (h_next (st_heap σ)) (len0 old + length v + extra) (len0 old) 0) (th_held (st_thr σ t)) (th_own (st_thr σ t))) t') as [[-> K]|[N K]]; rewrite K in H; [|exact H].
           destruct H as [H|H]; [left; exact H|discriminate H].
      * intros slot s H E. exfalso. assert (H' : auth σ slot = Some s).
        { destruct slot as [id'|t']; [exact H|]. cbn [auth] in *. cbn [st_thr σ'] in H.
          destruct (upd_cases (st_thr σ) t (mkThread (AppFill id v (h_next (st_heap σ)) (len0 old + length v + extra) (len0 old) 0) (th_held (st_thr σ t)) (th_own (st_thr σ t))) t') as [[-> K]|[N K]]; rewrite K in H; [|exact H].
          unfold owned. rewrite P. exact H. }
        destruct (i_good _ I s (i_auth _ I _ _ H')). lia.
      * intros M E. rewrite X, M, E in C. cbn in C. lia.
    + exact Logic.I.
  - (* append a byte *) split; [apply fill_inv; assumption|exact (fill_values σ t id v a cap base j b I P)].
  - (* append done *) split; [|quiet]. pose proof (i_app _ I t) as X. rewrite P in X. cbn [app_ok] in X. destruct X as (X1 & X2 & X3 & X4 & X5 & X6 & X7).
    apply go_inv; [exact I|discriminate| | | | | |exact Logic.I].
    + own_same P.
    + apply write_moved; [exact I|rewrite P; reflexivity].
    + apply read_moved; [exact I|rewrite P; reflexivity].
    + apply (i_excl _ I).
    + cbn [app_ok]. split; [|split; [|split]].
      * unfold good. cbn [s_arr s_len s_cap]. lia.
      * unfold cont. cbn [s_arr s_len]. rewrite X5, firstn_all. reflexivity.
      * cbn [s_arr s_len]. destruct X6 as [T1 T2]. split; [|exact T2]. intros r H E. specialize (T1 r H E). lia.
      * exact X7.
  - (* append store *) split; [|quiet]. pose proof (i_app _ I t) as X. rewrite P in X.
    apply store_inv; [exact I|rewrite P; reflexivity|reflexivity|reflexivity|reflexivity|exact Logic.I| | |exact Logic.I].
    + intros s ->. cbn [app_ok] in X. destruct X as (X1 & X2 & [T1 T2] & X4). split; [exact X1|]. split; [exact T1|].
      intros slot x H E. left. exact (T2 slot x H E).
    + own_same P.
  - (* append unlock *) split; [|quiet]. apply go_inv; [exact I|discriminate| | | | |exact Logic.I|exact Logic.I].
    + own_same P.
    + apply write_released; [exact I|rewrite P; reflexivity|reflexivity].
    + apply read_moved; [exact I|rewrite P; reflexivity].
    + congruence.
  - (* get call *) split; [|quiet]. apply go_inv; [exact I|discriminate| | | | |exact Logic.I|exact Logic.I].
    + own_same P.
    + apply write_moved; [exact I|rewrite P; reflexivity].
    + apply read_moved; [exact I|rewrite P; reflexivity].
    + apply (i_excl _ I).
  - (* get lock *) split; [|quiet]. rewrite <- W. apply go_inv; [exact I|discriminate| | | | |exact Logic.I|exact Logic.I].
    + own_same P.
    + apply write_moved; [exact I|rewrite P; reflexivity].
    + apply read_acquired; [exact I|reflexivity].
    + congruence.
  - (* get load *) split; [|quiet]. apply go_inv; [exact I| | | | | |exact Logic.I|exact Logic.I].
    + intros r H. left. exists id. exact H.
    + own_same P.
    + apply write_moved; [exact I|rewrite P; reflexivity].
    + apply read_moved; [exact I|rewrite P; reflexivity].
    + apply (i_excl _ I).
  - (* get unlock *) split; [|quiet]. apply go_inv; [exact I| | | | | |exact Logic.I|exact Logic.I].
    + intros x H. exact (pc_visible _ _ _ _ P H).
    + own_same P.
    + apply write_moved; [exact I|rewrite P; reflexivity].
    + apply read_released; [exact I|reflexivity].
    + intros H. rewrite (i_excl _ I H). reflexivity.
  - (* return *) split; [|quiet]. apply go_inv; [exact I|discriminate| | | | |exact Logic.I|exact Logic.I].
    + own_same P.
    + apply write_moved; [exact I|rewrite P; reflexivity].
    + apply read_moved; [exact I|rewrite P; reflexivity].
    + apply (i_excl _ I).
  - (* return a value *) split; [|quiet]. apply frame_inv; cbn [th_pc th_held th_own pc_slice].
    + exact I.
    + intros x [[H|H]|H]; [apply (pc_visible _ _ _ _ P); exact H|right; exists t; left; exact H|discriminate].
    + left. reflexivity.
    + intros s H. discriminate H.
    + intros t'. destruct (upd_cases (st_thr σ) t (mkThread Idle (r :: th_held (st_thr σ t)) false) t') as [[-> K]|[N K]]; rewrite K; [|apply (i_write _ I)].
      pose proof (i_write _ I t) as X. rewrite P in X. exact X.
    + intros t'. destruct (upd_cases (st_thr σ) t (mkThread Idle (r :: th_held (st_thr σ t)) false) t') as [[-> K]|[N K]]; rewrite K; [|apply (i_read _ I)].
      pose proof (i_read _ I t) as X. rewrite P in X. exact X.
    + apply (i_excl _ I).
    + exact Logic.I.
    + exact Logic.I.
Qed.

Lemma exec_inv tr σ : exec true tr σ -> inv σ.
Proof. induction 1 as [|tr σ e σ' _ IH S]; [exact inv_init|]. apply (step_inv _ _ _ IH S). Qed.

(** ** Refinement *)
Definition abs_status (h : heap) (p : pc) : status :=
  match p with
  | Idle => SOut
  | PutLock id v | PutStore id v => SCalled (CPut id (value_of h v))
  | AppLock id v | AppLoad id v | AppGrow id v _ | AppFill id v _ _ _ _ | AppStore id v _ => SCalled (CAppend id v)
  | GetLock id | GetLoad id => SCalled (CGet id)
  | PutUnlock | AppUnlock | RetDone => SDone RDone
  | GetUnlock r | RetValue r => SDone (RValue (value_of h r))
  end.
Record rel (σ : state) (a : spec) : Prop := {
  r_map : forall id, kv_lookup (sp_kv a) id = value_of (st_heap σ) (st_map σ id);
  r_status : forall t, sp_status a t = abs_status (st_heap σ) (th_pc (st_thr σ t));
  r_held : forall t, sp_held a t = map (value_of (st_heap σ)) (th_held (st_thr σ t)) }.

Lemma rel_init : rel init spec_init.
Proof. split; reflexivity. Qed.

Lemma nth_error_firstn_lt {A} (l : list A) : forall n i, i < n -> nth_error (firstn n l) i = nth_error l i.
Proof. induction l as [|x l IH]; intros [|n] [|i] H; try lia; try reflexivity. cbn. apply IH. lia. Qed.

(** The heap changed without touching reachable bytes. *)
Lemma value_stable σ h' : (forall r, visible σ r -> cont h' r = cont (st_heap σ) r) ->
  forall s, (forall r, s = Some r -> visible σ r) -> value_of h' s = value_of (st_heap σ) s.
Proof. intros V [r|] H; [|reflexivity]. cbn [value_of option_map]. rewrite V by (apply H; reflexivity). reflexivity. Qed.
Lemma abs_stable σ h' t : (forall r, visible σ r -> cont h' r = cont (st_heap σ) r) ->
  abs_status h' (th_pc (st_thr σ t)) = abs_status (st_heap σ) (th_pc (st_thr σ t)).
Proof.
  intros V. assert (H : forall s, pc_slice (th_pc (st_thr σ t)) = s -> value_of h' s = value_of (st_heap σ) s).
  { intros s E. apply (value_stable σ h' V). intros r ->. right. exists t. right. exact E. }
  destruct (th_pc (st_thr σ t)); cbn [abs_status pc_slice] in *; try reflexivity; rewrite H by reflexivity; reflexivity.
Qed.

Lemma held_stable σ h' t : (forall r, visible σ r -> cont h' r = cont (st_heap σ) r) ->
  map (value_of h') (th_held (st_thr σ t)) = map (value_of (st_heap σ)) (th_held (st_thr σ t)).
Proof.
  intros V. apply map_ext_in. intros s H. apply (value_stable σ h' V). intros r ->. right. exists t. left. exact H.
Qed.

(** A step of thread [t] that the atomic store does not notice. *)
Lemma rel_stutter σ a t h' w rs th' : rel σ a ->
  (forall r, visible σ r -> cont h' r = cont (st_heap σ) r) ->
  abs_status h' (th_pc th') = abs_status h' (th_pc (st_thr σ t)) -> th_held th' = th_held (st_thr σ t) ->
  rel (mkState (st_map σ) w rs h' (upd (st_thr σ) t th')) a.
Proof.
  intros [M S H] V E K. split; cbn [st_map st_heap st_thr].
  - intros id. rewrite M. symmetry. apply (value_stable σ h' V). intros r R. left. exists id. exact R.
  - intros t'. rewrite S. rewrite <- (abs_stable σ h' t' V). destruct (upd_cases (st_thr σ) t th' t') as [[-> Q]|[N Q]]; rewrite Q; [symmetry; exact E|reflexivity].
  - intros t'. rewrite H. rewrite <- (held_stable σ h' t' V).
    destruct (upd_cases (st_thr σ) t th' t') as [[-> Q]|[N Q]]; rewrite Q; [rewrite K|]; reflexivity.
Qed.

(** One step of the program is at most one step of the atomic store, with the
    same event. *)
Lemma step_rel σ a e σ' : inv σ -> rel σ a -> step true σ e σ' ->
  (e = None /\ rel σ' a) \/ exists a', spec_step a e a' /\ rel σ' a'.
Proof.
  intros I R S. pose proof (step_inv _ _ _ I S) as [_ V].
  destruct S as
    [ σ t v junk h x P A | σ t k s i b P H L NE | σ t id P ST | σ t id v P W RD | σ t id v P | σ t P
    | σ t id v P | σ t id v P W RD | σ t id v P | σ t id P | σ t id v s P C | σ t id v old extra h x P C A
    | σ t id v x cap base j b P NE | σ t id v x cap base P | σ t id v new P | σ t P
    | σ t id P | σ t id P W | σ t id P | σ t r P | σ t P | σ t r P ];
  pose proof (r_status _ _ R t) as RS; rewrite P in RS; cbn [abs_status] in RS;
  try (left; split; [reflexivity|]; apply rel_stutter; [exact R|exact V|cbn [th_pc]; rewrite P; reflexivity|reflexivity]).
  - (* make *) right. destruct a as [kv l st held]. eexists. split; [apply sp_make; exact RS|]. destruct R as [RM RT RH]; cbn [sp_kv sp_status sp_held] in RM, RT, RH. split.
    + intros id. cbn [sp_kv st_map st_heap]. rewrite (RM id). symmetry. apply (value_stable σ h V). intros r Q. left. exists id. exact Q.
    + intros t'. cbn [sp_status st_heap st_thr]. rewrite (RT t'). rewrite <- (abs_stable σ h t' V).
      destruct (upd_cases (st_thr σ) t (mkThread Idle (Some (mkSlc x (length v) (length (v ++ junk))) :: th_held (st_thr σ t)) true) t') as [[-> Q]|[N Q]]; rewrite Q; [rewrite P|]; reflexivity.
    + intros t'. cbn [sp_held st_heap st_thr].
      destruct (Nat.eq_dec t' t) as [->|N].
      * rewrite !upd_same. cbn [th_held map]. f_equal; [|rewrite (RH t); symmetry; apply (held_stable σ h t V)]. cbn [value_of option_map]. f_equal. unfold alloc in A. apply pair_inj in A as [<- <-]. unfold cont. cbn [s_arr s_len h_arr]. rewrite upd_same. symmetry. apply firstn_app_exact. reflexivity.
      * rewrite !upd_other by exact N. rewrite (RH t'). symmetry. apply (held_stable σ h t' V).
  - (* use *) right. exists a. split; [|exact R]. destruct a as [kv l st held]. pose proof (r_held _ _ R t) as RH. cbn [sp_held] in RH.
    apply (sp_use kv l st held t k (cont (st_heap σ) s)); [exact RS|rewrite RH; exact (map_nth_error (value_of (st_heap σ)) _ _ H)|]. unfold cont. rewrite nth_error_firstn_lt by exact L. exact NE.
  - (* put call *) right. destruct a as [kv l st held]. eexists. split; [apply sp_invoke; exact RS|]. destruct R as [RM RT RH]; cbn [sp_kv sp_status sp_held] in RM, RT, RH. split.
    + exact RM.
    + intros t'. cbn [sp_status st_heap st_thr]. destruct (Nat.eq_dec t' t) as [->|N]; [rewrite !upd_same; reflexivity|]. rewrite !upd_other by exact N. apply RT.
    + intros t'. cbn [sp_held st_heap st_thr]. destruct (Nat.eq_dec t' t) as [->|N]; [rewrite !upd_same; apply RH|]. rewrite !upd_other by exact N. apply RH.
  - (* put store *) right. destruct a as [kv l st held]. eexists. split; [apply sp_effect; exact RS|]. destruct R as [RM RT RH]; cbn [sp_kv sp_status sp_held] in RM, RT, RH. split.
    + intros id'. cbn [sp_kv st_map st_heap apply fst]. unfold kv_Put, set_key. rewrite lookup_set. destruct (bytes_eqb id id'); [reflexivity|apply RM].
    + intros t'. unfold go. cbn [sp_status st_heap st_thr]. destruct (Nat.eq_dec t' t) as [->|N]; [rewrite !upd_same; reflexivity|]. rewrite !upd_other by exact N. apply RT.
    + intros t'. unfold go. cbn [sp_held st_heap st_thr]. destruct (Nat.eq_dec t' t) as [->|N]; [rewrite !upd_same; apply RH|]. rewrite !upd_other by exact N. apply RH.
  - (* append call *) right. destruct a as [kv l st held]. eexists. split; [apply sp_invoke; exact RS|]. destruct R as [RM RT RH]; cbn [sp_kv sp_status sp_held] in RM, RT, RH. split.
    + exact RM.
    + intros t'. unfold go. cbn [sp_status st_heap st_thr]. destruct (Nat.eq_dec t' t) as [->|N]; [rewrite !upd_same; reflexivity|]. rewrite !upd_other by exact N. apply RT.
    + intros t'. unfold go. cbn [sp_held st_heap st_thr]. destruct (Nat.eq_dec t' t) as [->|N]; [rewrite !upd_same; apply RH|]. rewrite !upd_other by exact N. apply RH.
  - (* append store *) right. pose proof (i_app _ I t) as X. rewrite P in X.
    destruct a as [kv l st held]. eexists. split; [apply sp_effect; exact RS|]. destruct R as [RM RT RH]; cbn [sp_kv sp_status sp_held] in RM, RT, RH. split.
    + intros id'. cbn [sp_kv st_map st_heap apply fst]. unfold kv_Append, set_key. rewrite lookup_set, (RM id), (RM id'). destruct (bytes_eqb id id'); [|reflexivity].
      destruct new as [s|]; cbn [app_ok] in X.
      * destruct X as (_ & X & _ & Y). cbn [value_of option_map]. fold (value_of (st_heap σ) (st_map σ id)). rewrite X. unfold go_append.
        destruct (st_map σ id) as [s'|] eqn:M; cbn [value_of option_map]; [reflexivity|]. destruct v; [exfalso; apply Y; reflexivity|reflexivity].
      * destruct X as [-> ->]. reflexivity.
    + intros t'. unfold go. cbn [sp_status st_heap st_thr]. destruct (Nat.eq_dec t' t) as [->|N]; [rewrite !upd_same; reflexivity|]. rewrite !upd_other by exact N. apply RT.
    + intros t'. unfold go. cbn [sp_held st_heap st_thr]. destruct (Nat.eq_dec t' t) as [->|N]; [rewrite !upd_same; apply RH|]. rewrite !upd_other by exact N. apply RH.
  - (* get call *) right. destruct a as [kv l st held]. eexists. split; [apply sp_invoke; exact RS|]. destruct R as [RM RT RH]; cbn [sp_kv sp_status sp_held] in RM, RT, RH. split.
    + exact RM.
    + intros t'. unfold go. cbn [sp_status st_heap st_thr]. destruct (Nat.eq_dec t' t) as [->|N]; [rewrite !upd_same; reflexivity|]. rewrite !upd_other by exact N. apply RT.
    + intros t'. unfold go. cbn [sp_held st_heap st_thr]. destruct (Nat.eq_dec t' t) as [->|N]; [rewrite !upd_same; apply RH|]. rewrite !upd_other by exact N. apply RH.
  - (* get load *) right. destruct a as [kv l st held]. eexists. split; [apply sp_effect; exact RS|]. destruct R as [RM RT RH]; cbn [sp_kv sp_status sp_held] in RM, RT, RH. split.
    + exact RM.
    + intros t'. unfold go. cbn [sp_status st_heap st_thr apply snd]. destruct (Nat.eq_dec t' t) as [->|N]; [rewrite !upd_same|rewrite !upd_other by exact N; apply RT].
      cbn [th_pc abs_status]. rewrite RM. reflexivity.
    + intros t'. unfold go. cbn [sp_held st_heap st_thr]. destruct (Nat.eq_dec t' t) as [->|N]; [rewrite !upd_same; apply RH|]. rewrite !upd_other by exact N. apply RH.
  - (* return *) right. destruct a as [kv l st held]. eexists. split; [apply sp_return; exact RS|]. destruct R as [RM RT RH]; cbn [sp_kv sp_status sp_held] in RM, RT, RH. split.
    + exact RM.
    + intros t'. unfold go. cbn [sp_status st_heap st_thr]. destruct (Nat.eq_dec t' t) as [->|N]; [rewrite !upd_same; reflexivity|]. rewrite !upd_other by exact N. apply RT.
    + intros t'. unfold go. cbn [sp_held st_heap st_thr]. destruct (Nat.eq_dec t' t) as [->|N]; [rewrite !upd_same; apply RH|]. rewrite !upd_other by exact N. apply RH.
  - (* return a value *) right. destruct a as [kv l st held]. eexists. split; [apply sp_return; exact RS|]. destruct R as [RM RT RH]; cbn [sp_kv sp_status sp_held] in RM, RT, RH. split.
    + exact RM.
    + intros t'. cbn [sp_status st_heap st_thr]. destruct (Nat.eq_dec t' t) as [->|N]; [rewrite !upd_same; reflexivity|]. rewrite !upd_other by exact N. apply RT.
    + intros t'. cbn [sp_held st_heap st_thr]. destruct (Nat.eq_dec t' t) as [->|N]; [rewrite !upd_same; cbn [th_held map]; rewrite (RH t); reflexivity|]. rewrite !upd_other by exact N. apply RH.
Qed.

Lemma exec_rel tr σ : exec true tr σ -> exists a, spec_exec tr a /\ rel σ a.
Proof.
  induction 1 as [|tr σ e σ' E [a [A R]] S]; [exists spec_init; split; [constructor|exact rel_init]|].
  destruct (step_rel _ _ _ _ (exec_inv _ _ E) R S) as [[-> K]|[a' [K K']]].
  - exists a. split; assumption.
  - exists a'. split; [|exact K']. econstructor; eassumption.
Qed.

(** ** No data race *)
Lemma in_read_slice w l s : In (w, l) (read_slice s) -> w = false /\ exists x i, s = Some x /\ l = LByte (s_arr x) i /\ i < s_len x.
Proof.
  destruct s as [x|]; [|contradiction]. cbn [read_slice]. rewrite in_map_iff. intros [i [E H]]. apply pair_inj in E as [<- <-].
  apply in_seq in H. split; [reflexivity|]. exists x, i. split; [reflexivity|]. split; [reflexivity|lia].
Qed.
Lemma access_cases σ t w l : In (w, l) (accesses (st_thr σ t)) ->
  (w = false /\ exists x i, visible σ x /\ l = LByte (s_arr x) i /\ i < s_len x) \/
  in_write (th_pc (st_thr σ t)) = true \/ (w = false /\ l = LMap /\ in_read (th_pc (st_thr σ t)) = true).
Proof.
  unfold accesses. destruct (th_pc (st_thr σ t)) eqn:P; cbn [in_write in_read]; intros H; try contradiction; try (right; left; reflexivity).
  - left. apply in_flat_map in H as [s [K H]]. apply in_read_slice in H as (-> & x & i & -> & -> & L). split; [reflexivity|].
    exists x, i. split; [right; exists t; left; exact K|]. split; [reflexivity|exact L].
  - right. right. destruct H as [H|[]]. apply pair_inj in H as [<- <-]. auto.
Qed.
Lemma no_race tr σ : exec true tr σ -> ~ data_race σ.
Proof.
  intros E (t & t' & l & w & N & A & B). pose proof (exec_inv _ _ E) as I.
  assert (W : in_write (th_pc (st_thr σ t)) = true).
  { destruct (access_cases _ _ _ _ A) as [[K _]|[K|[K _]]]; [discriminate|exact K|discriminate]. }
  pose proof (proj1 (i_write _ I t) W) as WT.
  destruct (access_cases _ _ _ _ B) as [[-> (x & i & V & -> & L)]|[K|(-> & -> & K)]].
  - unfold accesses in A. pose proof (i_app _ I t) as X. destruct (th_pc (st_thr σ t)) eqn:P; cbn [app_ok] in X; try discriminate W; try (destruct A as [A|[]]; discriminate A); try contradiction.
    + apply in_read_slice in A as [A _]. discriminate.
    + destruct (j <? length v)%nat; [|contradiction]. destruct A as [A|[]]. apply pair_inj in A as [_ A].
      destruct X as (_ & _ & _ & _ & _ & [T _] & _). assert (s_arr x = a) by congruence. specialize (T x V H). assert (base + j = i) by congruence. lia.
  - apply (i_write _ I) in K. congruence.
  - apply (i_read _ I) in K. rewrite (i_excl _ I) in K by congruence. contradiction.
Qed.
