(** * Lemmas for C94: requests that arrive in pieces, served at the same time. *)
From Coq Require Import Lia.
From Verif Require Import Base BaseProofs Common Hex Oprf Server Client KV KVProofs Json ConfigJson Url Demo SpecDemo SpecConc KVConc ConcProofs ConcHistory ConcServer ConcLive
  ReadBody SpecRead ReadProofs ServeConc SpecServeConc.

(** The handler in two parts is the handler of Demo.v. *)
Lemma until_get_handler {LIB : OPRF} (srv : server LIB) data :
  handleEvaluate srv (Ok data) = match evaluate_until_get (migpServer srv) data with
                                 | Replies w => w
                                 | Gets id rest => rest (kv_lookup (kv srv) id)
                                 end.
Proof.
  unfold handleEvaluate, evaluate_until_get. destruct (ClientRequest_unmarshal data) as [rq err]. unfold HandleRequest.
  destruct (negb _); [reflexivity|]. destruct (evaluate _ _ _ _) as [[|el els]|e|m]; cbn [bind]; try reflexivity.
  destruct (hex_decode _); reflexivity.
Qed.

Lemma open_snoc t tr e : open_now t (tr ++ [e]) = next_open t (open_now t tr) e.
Proof. unfold open_now. rewrite fold_left_app. reflexivity. Qed.
Lemma open_other t t' tr x : t' <> t -> open_now t' (tr ++ [(t, x)]) = open_now t' tr.
Proof. intros N. rewrite open_snoc. unfold next_open. cbn [fst]. rewrite (proj2 (Nat.eqb_neq t t')) by congruence. reflexivity. Qed.
Lemma open_same t tr x : open_now t (tr ++ [(t, x)]) = match x with
  | Arrives path body => Some (path, body, 0)
  | Works => match open_now t tr with Some (path, body, n) => Some (path, body, S n) | None => None end
  | Replied _ => None end.
Proof. rewrite open_snoc. unfold next_open. cbn [fst snd]. rewrite Nat.eqb_refl. reflexivity. Qed.

Section Serve.
Context {LIB : OPRF}.
Variables (grow : nat -> nat) (G : grows grow) (srv : server LIB) (σ0 : state).
Hypotheses (L0 : locks σ0) (I0 : forall t, th_pc (st_thr σ0 t) = Idle) (W0 : st_writer σ0 = None)
  (V0 : forall id, value_of (st_heap σ0) (st_map σ0 id) = kv_lookup (kv srv) id).
Notation s := (migpServer srv).

Definition read_until (n : nat) (body : stream) : Prop := n = 0 \/ exists st, read_after grow (n - 1) body = Reading st.
Lemma read_after_S n body : read_after grow (S n) body = read_step grow body (read_after grow n body).
Proof. unfold read_after. replace (S n) with (n + 1) by lia. rewrite rounds_add. reflexivity. Qed.

Definition tinv (a : activity) (p : pc) (o : option (bytes * stream * nat)) : Prop :=
  match a with
  | Free => p = Idle /\ o = None
  | Answering path => p = Idle /\ path <> str "/evaluate" /\ exists body, o = Some (path, body, 0)
  | Receiving body pr => p = Idle /\ exists n, o = Some (str "/evaluate", body, n) /\ pr = read_after grow n body /\ read_until n body
  | Getting body rest => exists k n data id, o = Some (str "/evaluate", body, n) /\ read_after grow k body = Done data None /\ read_until k body
      /\ evaluate_until_get s data = Gets id rest
      /\ ((p = GetLock id /\ n = k + 1) \/ (p = GetLoad id /\ n = k + 2) \/ (p = GetUnlock (st_map σ0 id) /\ n = k + 3) \/ (p = RetValue (st_map σ0 id) /\ n = k + 4))
  end.
Record ginv (tr : list (nat * shows)) (g : serving) : Prop := {
  gi_locks : locks (g_store g);
  gi_map : st_map (g_store g) = st_map σ0;
  gi_heap : st_heap (g_store g) = st_heap σ0;
  gi_writer : st_writer (g_store g) = None;
  gi_thr : forall t, tinv (g_does g t) (th_pc (st_thr (g_store g) t)) (open_now t tr) }.

Lemma ginv_start : ginv [] (mkServing σ0 (fun _ => Free)).
Proof. split; cbn; auto. Qed.

(** A step changes one goroutine. *)
Lemma ginv_move tr σ f t x σ' a : ginv tr (mkServing σ f) -> locks σ' -> st_map σ' = st_map σ -> st_heap σ' = st_heap σ -> st_writer σ' = None ->
  (forall t', t' <> t -> th_pc (st_thr σ' t') = th_pc (st_thr σ t')) ->
  tinv a (th_pc (st_thr σ' t)) (open_now t (tr ++ [(t, x)])) ->
  ginv (tr ++ [(t, x)]) (mkServing σ' (upd f t a)).
Proof.
  intros [L M H W T] L' M' H' W' O A. cbn [g_store g_does] in *. split; cbn [g_store g_does]; [exact L'|congruence|congruence|exact W'|].
  intros t'. destruct (upd_cases f t a t') as [[-> E]|[N E]]; rewrite E; [exact A|].
  rewrite O by congruence. rewrite open_other by congruence. apply T.
Qed.
Lemma ginv_stay tr σ f t x σ' : ginv tr (mkServing σ f) -> locks σ' -> st_map σ' = st_map σ -> st_heap σ' = st_heap σ -> st_writer σ' = None ->
  (forall t', t' <> t -> th_pc (st_thr σ' t') = th_pc (st_thr σ t')) ->
  tinv (f t) (th_pc (st_thr σ' t)) (open_now t (tr ++ [(t, x)])) ->
  ginv (tr ++ [(t, x)]) (mkServing σ' f).
Proof.
  intros [L M H W T] L' M' H' W' O A. cbn [g_store g_does] in *. split; cbn [g_store g_does]; [exact L'|congruence|congruence|exact W'|].
  intros t'. destruct (Nat.eq_dec t' t) as [->|N]; [exact A|]. rewrite O by exact N. rewrite open_other by exact N. apply T.
Qed.

Lemma go_pc_other σ t p t' : t' <> t -> th_pc (go σ t p t') = th_pc (st_thr σ t').
Proof. intros N. rewrite go_other by exact N. reflexivity. Qed.

Lemma ginv_step tr g t x g' : ginv tr g -> serve_step grow s g t x g' -> ginv (tr ++ [(t, x)]) g'.
Proof.
  intros I S. destruct S as [σ f t path body F|σ f t path F|σ f t body st F|σ f t body b e F|σ f t body b w F U|σ f t body b id rest σ' F U S|σ f t body rest σ' F S M|σ f t body rest v σ' F S];
    pose proof (gi_thr _ _ I t) as T; cbn [g_store g_does] in T; rewrite F in T; cbn [tinv] in T.
  - destruct T as [P O]. apply (ginv_move tr σ); auto; try (apply I). rewrite open_same.
    destruct (bytes_eqb path (str "/evaluate")) eqn:E.
    + apply bytes_eqb_eq in E as ->. split; [exact P|]. exists 0. repeat split. left. reflexivity.
    + split; [exact P|]. split; [intros ->; rewrite bytes_eqb_refl in E; discriminate|]. exists body. reflexivity.
  - destruct T as [P _]. apply (ginv_move tr σ); auto; try (apply I). rewrite open_same. split; [exact P|reflexivity].
  - destruct T as (P & n & O & R & _). apply (ginv_move tr σ); auto; try (apply I). rewrite open_same, O. split; [exact P|]. exists (S n).
    split; [reflexivity|]. split; [rewrite read_after_S, <- R; reflexivity|]. right. exists st. replace (S n - 1) with n by lia. congruence.
  - destruct T as [P _]. apply (ginv_move tr σ); auto; try (apply I). rewrite open_same. split; [exact P|reflexivity].
  - destruct T as [P _]. apply (ginv_move tr σ); auto; try (apply I). rewrite open_same. split; [exact P|reflexivity].
  - destruct T as (P & n & O & R & RU). pose proof (step_locks _ _ _ _ (gi_locks _ _ I) S) as L'. pose proof (gi_writer _ _ I) as W. cbn [g_store] in W.
    inversion S; subst. apply (ginv_move tr σ); auto; cbn [st_thr]; [intros t' N; apply go_pc_other, N|].
    rewrite go_same, open_same, O. exists n, (Datatypes.S n), b, id. repeat split; auto. left. split; [reflexivity|lia].
  - destruct T as (k & n & data & id & O & R & RU & U & St). pose proof (step_locks _ _ _ _ (gi_locks _ _ I) S) as L'. pose proof (gi_writer _ _ I) as W. cbn [g_store] in W.
    pose proof (gi_map _ _ I) as Mp. cbn [g_store] in Mp.
    assert (TT : forall p, th_pc (st_thr σ' t) = p ->
        (p = GetLoad id /\ n = k + 1) \/ (p = GetUnlock (st_map σ0 id) /\ n = k + 2) \/ (p = RetValue (st_map σ0 id) /\ n = k + 3) ->
        tinv (f t) (th_pc (st_thr σ' t)) (open_now t (tr ++ [(t, Works)]))).
    { intros p Hp C. rewrite F, open_same, O, Hp. exists k, (Datatypes.S n), data, id. repeat split; auto. destruct C as [[-> ->]|[[-> ->]|[-> ->]]]; [right; left|right; right; left|right; right; right]; split; auto; lia. }
    unfold moved in M.
    inversion S; subst; cbn [st_thr] in M;
      match type of M with th_pc (go _ ?t0 _ _) <> _ => destruct (Nat.eq_dec t t0) as [<-|N]; [|exfalso; apply M; rewrite go_pc_other by exact N; reflexivity] end;
      destruct St as [[St E]|[[St E]|[[St E]|[St E]]]]; try congruence.
    + apply (ginv_stay tr σ); auto; cbn [st_thr]; [intros t' N'; apply go_pc_other, N'|]. cbn [st_thr] in TT. eapply TT; [apply go_same|]. left. split; congruence.
    + apply (ginv_stay tr σ); auto; cbn [st_thr]; [intros t' N'; apply go_pc_other, N'|]. cbn [st_thr] in TT. eapply TT; [apply go_same|]. right. left. split; congruence.
    + apply (ginv_stay tr σ); auto; cbn [st_thr]; [intros t' N'; apply go_pc_other, N'|]. cbn [st_thr] in TT. eapply TT; [apply go_same|]. right. right. split; congruence.
  - pose proof (step_locks _ _ _ _ (gi_locks _ _ I) S) as L'. pose proof (gi_writer _ _ I) as W. cbn [g_store] in W.
    inversion S; subst. apply (ginv_move tr σ); auto; cbn [st_thr]; [intros t' N; rewrite upd_other by exact N; reflexivity|].
    rewrite upd_same, open_same. split; reflexivity.
Qed.
Lemma ginv_serve tr g : serve grow s σ0 tr g -> ginv tr g.
Proof. induction 1 as [|tr g t x g' H IH S]; [exact ginv_start|exact (ginv_step _ _ _ _ _ IH S)]. Qed.

(** ** The replies *)
Lemma mux_evaluate body : mux srv (str "/evaluate") body = Page (handleEvaluate srv body).
Proof. unfold mux. change (cleanPath (str "/evaluate")) with (str "/evaluate"). rewrite bytes_eqb_refl. reflexivity. Qed.
Lemma mux_others (a : server LIB) path b b' : migpServer a = s -> path <> str "/evaluate" -> mux a path b = mux srv path b'.
Proof.
  intros E N. unfold mux, handler. destruct (bytes_eqb (cleanPath path) path) eqn:C; [|reflexivity]. apply bytes_eqb_eq in C. rewrite C.
  destruct (bytes_eqb path (str "/evaluate")) eqn:D; [apply bytes_eqb_eq in D; contradiction|].
  unfold handleConfig. rewrite E. reflexivity.
Qed.

Lemma reply_right tr g t r g' : ginv tr g -> serve_step grow s g t (Replied r) g' ->
  exists path body n, open_now t tr = Some (path, body, n) /\ right_reply srv path body r.
Proof.
  intros I S. inversion S as [ |σ f t0 path F| |σ f t0 body b e F|σ f t0 body b w F U| | |σ f t0 body rest v σ' F St]; subst;
    pose proof (gi_thr _ _ I t) as T; cbn [g_store g_does] in T; rewrite F in T; cbn [tinv] in T.
  - destruct T as (_ & N & body & O). exists path, body, 0. split; [exact O|]. unfold right_reply.
    destruct (bytes_eqb path (str "/evaluate")) eqn:D; [apply bytes_eqb_eq in D; contradiction|]. intros b. apply mux_others; [reflexivity|exact N].
  - destruct T as (_ & n & O & R & _). eexists _, _, _. split; [exact O|]. unfold right_reply. rewrite bytes_eqb_refl.
    destruct (returns_ended grow G body n b (Some e)) as (m & en & En & _ & X); [unfold ReadAll; rewrite <- R; reflexivity|].
    exists m, en. split; [exact En|]. rewrite mux_evaluate. destruct en; [discriminate|reflexivity].
  - destruct T as (_ & n & O & R & _). eexists _, _, _. split; [exact O|]. unfold right_reply. rewrite bytes_eqb_refl.
    destruct (returns_ended grow G body n b None) as (m & en & En & B & X); [unfold ReadAll; rewrite <- R; reflexivity|].
    exists m, en. split; [exact En|]. rewrite mux_evaluate. destruct en; [|discriminate]. cbn [whole]. rewrite <- B, until_get_handler, U. reflexivity.
  - destruct T as (k & n & data & id & O & R & _ & U & Stg). eexists _, _, _. split; [exact O|]. unfold right_reply. rewrite bytes_eqb_refl.
    destruct (returns_ended grow G body k data None) as (m & en & En & B & X); [unfold ReadAll; rewrite R; reflexivity|].
    exists m, en. split; [exact En|]. rewrite mux_evaluate. destruct en; [|discriminate]. cbn [whole]. rewrite <- B, until_get_handler, U.
    pose proof (gi_heap _ _ I) as Hh. cbn [g_store] in Hh. inversion St; subst.
    match goal with P : th_pc (st_thr _ t) = RetValue ?x |- _ => assert (E : x = st_map σ0 id) by (destruct Stg as [[Sp _]|[[Sp _]|[[Sp _]|[Sp _]]]]; congruence); rewrite E end.
    rewrite Hh, V0. reflexivity.
Qed.

Lemma serve_split tr1 e tr2 g : serve grow s σ0 (tr1 ++ e :: tr2) g -> exists g1 g2, serve grow s σ0 tr1 g1 /\ serve_step grow s g1 (fst e) (snd e) g2.
Proof.
  revert g. induction tr2 as [|x tr2 IH] using rev_ind; intros g H.
  - inversion H as [E|tr g1 t x g2 H1 S E]; [destruct tr1; discriminate|]. apply app_inj_tail in E as [-> <-]. exists g1, g. auto.
  - rewrite app_comm_cons, app_assoc in H. inversion H as [E|tr g1 t y g2 H1 S E]; [destruct (tr1 ++ e :: tr2); discriminate|]. apply app_inj_tail in E as [-> _]. exact (IH _ H1).
Qed.
Lemma every_reply tr1 t r tr2 g : serve grow s σ0 (tr1 ++ (t, Replied r) :: tr2) g ->
  exists path body n, open_now t tr1 = Some (path, body, n) /\ right_reply srv path body r.
Proof. intros H. destruct (serve_split _ _ _ _ H) as (g1 & g2 & H1 & S). exact (reply_right _ _ _ _ _ (ginv_serve _ _ H1) S). Qed.

(** ** Progress *)
Lemma can_move tr g t o : serve grow s σ0 tr g -> open_now t tr = Some o -> exists x g', serve_step grow s g t x g' /\ (x = Works \/ exists r, x = Replied r).
Proof.
  intros H O. pose proof (ginv_serve _ _ H) as I. pose proof (gi_thr _ _ I t) as T. destruct g as [σ f]. cbn [g_store g_does] in T.
  destruct (f t) as [|path|body [st|b [e|]]|body rest] eqn:F; cbn [tinv] in T.
  - destruct T as [_ T]. congruence.
  - do 2 eexists. split; [eapply sv_other; exact F|right; eexists; reflexivity].
  - do 2 eexists. split; [eapply sv_round; exact F|left; reflexivity].
  - do 2 eexists. split; [eapply sv_broken; exact F|right; eexists; reflexivity].
  - destruct T as (P & _). destruct (evaluate_until_get s b) as [w|id rest] eqn:U.
    + do 2 eexists. split; [eapply sv_refused; [exact F|exact U]|right; eexists; reflexivity].
    + do 2 eexists. split; [eapply sv_asks; [exact F|exact U|apply st_get_call, P]|left; reflexivity].
  - destruct T as (k & n & data & id & _ & _ & _ & _ & Stg). pose proof (gi_writer _ _ I) as W. cbn [g_store] in W.
    destruct Stg as [[P _]|[[P _]|[[P _]|[P _]]]].
    + do 2 eexists. split; [eapply sv_inside; [exact F|apply (st_get_lock true σ t id P W)|unfold moved; cbn [st_thr]; rewrite go_same, P; discriminate]|left; reflexivity].
    + do 2 eexists. split; [eapply sv_inside; [exact F|apply (st_get_load true σ t id P)|unfold moved; cbn [st_thr]; rewrite go_same, P; discriminate]|left; reflexivity].
    + do 2 eexists. split; [eapply sv_inside; [exact F|apply (st_get_unlock true σ t _ P)|unfold moved; cbn [st_thr]; rewrite go_same, P; discriminate]|left; reflexivity].
    + do 2 eexists. split; [eapply sv_replies; [exact F|apply (st_ret_value true σ t _ P)]|right; eexists; reflexivity].
Qed.

Lemma until_bound body k0 n : (forall k, k0 <= k -> ReadAll grow k body <> None) -> read_until n body -> n <= k0.
Proof.
  intros K [->|[st R]]; [lia|]. destruct (Nat.le_gt_cases n k0) as [L|L]; [exact L|exfalso]. apply (K (n - 1)); [lia|]. unfold ReadAll. rewrite R. reflexivity.
Qed.
Lemma work_bound body k0 tr g t path n : (forall k, k0 <= k -> ReadAll grow k body <> None) -> serve grow s σ0 tr g -> open_now t tr = Some (path, body, n) -> n <= k0 + 4.
Proof.
  intros K H O. pose proof (ginv_serve _ _ H) as I. pose proof (gi_thr _ _ I t) as T.
  destruct (g_does g t) as [|path'|body' pr|body' rest]; cbn [tinv] in T; rewrite O in T.
  - destruct T as [_ T]. discriminate.
  - destruct T as (_ & _ & b & T). assert (n = 0) by congruence. lia.
  - destruct T as (_ & m & E & _ & RU). assert (m = n /\ body' = body) as [-> ->] by (split; congruence). pose proof (until_bound body k0 n K RU). lia.
  - destruct T as (k & m & data & id & E & _ & RU & _ & Stg). assert (m = n /\ body' = body) as [-> ->] by (split; congruence). pose proof (until_bound body k0 k K RU). lia.
Qed.
Lemma other_bound tr g t path body n : serve grow s σ0 tr g -> path <> str "/evaluate" -> open_now t tr = Some (path, body, n) -> n = 0.
Proof.
  intros H N O. pose proof (gi_thr _ _ (ginv_serve _ _ H) t) as T.
  destruct (g_does g t) as [|path'|body' pr|body' rest]; cbn [tinv] in T; rewrite O in T.
  - destruct T as [_ T]. discriminate.
  - destruct T as (_ & _ & b & T). congruence.
  - destruct T as (_ & m & E & _). congruence.
  - destruct T as (k & m & data & id & E & _). congruence.
Qed.

Lemma alone_replies B t path body : (forall tr g n, serve grow s σ0 tr g -> open_now t tr = Some (path, body, n) -> n <= B) ->
  forall m tr g n, serve grow s σ0 tr g -> open_now t tr = Some (path, body, n) -> B - n <= m ->
  exists k r g', serve grow s σ0 (tr ++ repeat (t, Works) k ++ [(t, Replied r)]) g'.
Proof.
  intros HB. induction m as [|m IH]; intros tr g n H O L; destruct (can_move tr g t _ H O) as (x & g' & S & [->|[r ->]]).
  - pose proof (serve_goes_on grow s σ0 _ _ _ _ _ H S) as H'. assert (O' : open_now t (tr ++ [(t, Works)]) = Some (path, body, Datatypes.S n)) by (rewrite open_same, O; reflexivity).
    pose proof (HB _ _ _ H' O'). lia.
  - exists 0, r, g'. exact (serve_goes_on grow s σ0 _ _ _ _ _ H S).
  - pose proof (serve_goes_on grow s σ0 _ _ _ _ _ H S) as H'. assert (O' : open_now t (tr ++ [(t, Works)]) = Some (path, body, Datatypes.S n)) by (rewrite open_same, O; reflexivity).
    pose proof (HB _ _ _ H' O'). destruct (IH _ _ _ H' O') as (k & r & g2 & H2); [lia|]. exists (Datatypes.S k), r, g2. rewrite <- app_assoc in H2. exact H2.
  - exists 0, r, g'. exact (serve_goes_on grow s σ0 _ _ _ _ _ H S).
Qed.

(** ** The store and the readers *)
Lemma store_stays tr g id : serve grow s σ0 tr g -> value_of (st_heap (g_store g)) (st_map (g_store g) id) = kv_lookup (kv srv) id.
Proof. intros H. pose proof (ginv_serve _ _ H) as I. rewrite (gi_map _ _ I), (gi_heap _ _ I). apply V0. Qed.
Lemma stuck_outside tr g t path body n : serve grow s σ0 tr g -> open_now t tr = Some (path, body, n) -> endless body ->
  th_pc (st_thr (g_store g) t) = Idle /\ ~ In t (st_readers (g_store g)) /\ st_writer (g_store g) <> Some t.
Proof.
  intros H O E. pose proof (ginv_serve _ _ H) as I. pose proof (gi_thr _ _ I t) as T.
  assert (P : th_pc (st_thr (g_store g) t) = Idle).
  { destruct (g_does g t) as [|path'|body' pr|body' rest]; cbn [tinv] in T; try apply T. rewrite O in T.
    destruct T as (k & m & data & id & Q & R & _). assert (body' = body) as -> by congruence.
    pose proof (endless_none grow G body k E) as X. unfold ReadAll in X. rewrite R in X. discriminate. }
  split; [exact P|]. split.
  - intros X. apply (l_read _ (gi_locks _ _ I)) in X. rewrite P in X. discriminate.
  - rewrite (gi_writer _ _ I). discriminate.
Qed.

(** ** Arrivals *)
Lemma free_closed tr g t : serve grow s σ0 tr g -> open_now t tr = None -> g_does g t = Free.
Proof.
  intros H O. pose proof (gi_thr _ _ (ginv_serve _ _ H) t) as T. rewrite O in T. destruct (g_does g t) as [|path|body pr|body rest]; cbn [tinv] in T; [reflexivity|exfalso..].
  - destruct T as (_ & _ & b & T). discriminate.
  - destruct T as (_ & n & T & _). discriminate.
  - destruct T as (k & n & data & id & T & _). discriminate.
Qed.
Lemma open_free tr g t o : serve grow s σ0 tr g -> open_now t tr = Some o -> forall path body g', ~ serve_step grow s g t (Arrives path body) g'.
Proof.
  intros H O path body g' S. inversion S as [σ f t0 p b0 F| | | | | | |]; subst. pose proof (gi_thr _ _ (ginv_serve _ _ H) t) as T.
  cbn [g_does g_store] in T. rewrite F, O in T. destruct T as [_ T]. discriminate.
Qed.
Lemma unused_closed t : forall tr : list (nat * shows), ~ In t (map fst tr) -> open_now t tr = None.
Proof.
  induction tr as [|[u x] tr IH] using rev_ind; intros N; [reflexivity|]. rewrite map_app, in_app_iff in N. cbn [map fst In] in N.
  rewrite open_other by (intros ->; apply N; right; left; reflexivity). apply IH. intros X. apply N. left. exact X.
Qed.
Lemma accepts tr g t path body : serve grow s σ0 tr g -> open_now t tr = None -> exists g', serve_step grow s g t (Arrives path body) g'.
Proof. intros H O. pose proof (free_closed tr g t H O) as F. destruct g as [σ f]. eexists. apply sv_arrives, F. Qed.

(** ** Runs without end *)
Lemma run_serves (gs : nat -> serving) (ev : nat -> nat * shows) : gs 0 = mkServing σ0 (fun _ => Free) ->
  (forall k, serve_step grow s (gs k) (fst (ev k)) (snd (ev k)) (gs (S k))) -> forall k, serve grow s σ0 (map ev (seq 0 k)) (gs k).
Proof.
  intros E St k. induction k as [|k IH]; [rewrite E; constructor|]. rewrite seq_S, map_app. cbn [map plus].
  rewrite (surjective_pairing (ev k)). exact (serve_goes_on grow s σ0 _ _ _ _ _ IH (St k)).
Qed.
Lemma prefix_S (ev : nat -> nat * shows) k : map ev (seq 0 (S k)) = map ev (seq 0 k) ++ [ev k].
Proof. rewrite seq_S, map_app. reflexivity. Qed.
Lemma until_moves (ev : nat -> nat * shows) t : (forall k, exists j, k <= j /\ fst (ev j) = t) ->
  forall k, exists j, k <= j /\ fst (ev j) = t /\ open_now t (map ev (seq 0 j)) = open_now t (map ev (seq 0 k)).
Proof.
  intros Inf k. destruct (Inf k) as (j & Lj & Fj). remember (j - k) as d eqn:D. revert k j Lj Fj D. induction d as [|d IH]; intros k j Lj Fj D.
  - exists k. replace k with j by lia. auto.
  - destruct (Nat.eq_dec (fst (ev k)) t) as [E|N]; [exists k; auto|].
    destruct (IH (S k) j) as (j' & L' & F' & O'); [lia|exact Fj|lia|]. exists j'. split; [lia|]. split; [exact F'|]. rewrite O', prefix_S.
    rewrite (surjective_pairing (ev k)). apply open_other. congruence.
Qed.
Lemma fair_replies B t path body : (forall tr g n, serve grow s σ0 tr g -> open_now t tr = Some (path, body, n) -> n <= B) ->
  forall (gs : nat -> serving) (ev : nat -> nat * shows), gs 0 = mkServing σ0 (fun _ => Free) ->
  (forall k, serve_step grow s (gs k) (fst (ev k)) (snd (ev k)) (gs (S k))) ->
  (forall k, exists j, k <= j /\ fst (ev j) = t) ->
  forall m k n, open_now t (map ev (seq 0 k)) = Some (path, body, n) -> B - n <= m ->
  exists j r n', k <= j /\ ev j = (t, Replied r) /\ open_now t (map ev (seq 0 j)) = Some (path, body, n').
Proof.
  intros HB gs ev E0 St Inf. pose proof (run_serves gs ev E0 St) as R. induction m as [|m IH]; intros k n O L; destruct (until_moves ev t Inf k) as (j & Lj & Fj & Oj); rewrite O in Oj;
    pose proof (St j) as Sj; rewrite Fj in Sj; destruct (snd (ev j)) as [p b| |r] eqn:X; try (exfalso; exact (open_free _ _ t _ (R j) Oj p b _ Sj)).
  - pose proof (R (S j)) as H'. assert (O' : open_now t (map ev (seq 0 (S j))) = Some (path, body, S n)) by (rewrite prefix_S, (surjective_pairing (ev j)), Fj, X, open_same, Oj; reflexivity).
    pose proof (HB _ _ _ H' O'). lia.
  - exists j, r, n. split; [exact Lj|]. split; [rewrite (surjective_pairing (ev j)), Fj, X; reflexivity|exact Oj].
  - pose proof (R (S j)) as H'. assert (O' : open_now t (map ev (seq 0 (S j))) = Some (path, body, S n)) by (rewrite prefix_S, (surjective_pairing (ev j)), Fj, X, open_same, Oj; reflexivity).
    pose proof (HB _ _ _ H' O'). destruct (IH _ _ O') as (j' & r & n' & L' & E' & Op); [lia|]. exists j', r, n'. split; [lia|]. auto.
  - exists j, r, n. split; [exact Lj|]. split; [rewrite (surjective_pairing (ev j)), Fj, X; reflexivity|exact Oj].
Qed.
End Serve.
