(** * Property C94: requests that arrive in pieces, from peers that may be slow or
    never finish, served at the same time.  Every handler runs in a goroutine of
    its own, reads its body in rounds, and calls Get once; the steps of all
    handlers, in the store too, interleave in any way.

    [serve grow s σ0 tr g]: from the store σ0, the steps [tr] have led to g; each
    element of [tr] says which goroutine moved and what that showed (a request
    arrived, it worked on it, it replied).  [open_now t tr] is the request that
    goroutine t has open after [tr], with the steps it has worked on it.
    Specification: SpecServeConc.v, SpecRead.v (bodies), SpecParallel.v (the
    load). *)
From Coq Require Import Lia.
From Verif Require Import Base BaseProofs Common Oprf OprfGroup Server Client KV KVProofs Json ConfigJson Scanner Demo Flags Main SpecEntry SpecProtocol SpecDemo SpecMain DemoProofs
  SpecConc KVConc ConcProofs ConcHistory ConcServer ConcLive InsertCalls SpecParallel ParallelProofs MainProofs SpecServe ServeProofs ReadBody SpecRead ReadProofs
  ServeConc SpecServeConc ServeConcProofs PropProtocol PropMain.

Lemma load_facts {LIB : OPRF} (srv : server LIB) ops σ0 : holds_load srv ops σ0 ->
  locks σ0 /\ (forall t, th_pc (st_thr σ0 t) = Idle) /\ st_writer σ0 = None /\ forall id, value_of (st_heap σ0) (st_map σ0 id) = kv_lookup (kv srv) id.
Proof.
  intros (tr & E & Ld & K).
  assert (I : all_idle σ0).
  { intros t. pose proof (exec_open true tr σ0 E t) as O. destruct (Ld t) as [_ R]. rewrite R in O. destruct (th_pc (st_thr σ0 t)); try reflexivity; lia. }
  split; [exact (exec_locks _ _ _ E)|]. split; [exact I|]. split; [apply (idle_free _ _ _ E I)|].
  destruct (all_done tr σ0 E (fun t => proj2 (Ld t))) as (L & T & V). intros id. rewrite V, K. f_equal.
  assert (O : forall t, of_thread t (nonget L) = calls_of (migpServer srv) (main_inserts ops t)) by (intros t; rewrite of_thread_nonget, T; apply Ld).
  unfold replay. rewrite <- replay_nonget, (only_main (nonget L)).
  - rewrite O. apply run_calls.
  - intros t N. rewrite O. unfold main_inserts. rewrite (proj2 (Nat.eqb_neq t 0) N). reflexivity.
Qed.

(** ** Every reply is the one the loaded server gives alone to the body that
    arrived; nobody gets the reply of another, and no reply comes before the body
    has ended. *)
Theorem C94_every_reply : forall (grow : nat -> nat), grows grow ->
  forall (LIB : OPRF) (srv : server LIB) (ops : list op) (σ0 : state), holds_load srv ops σ0 ->
  forall (tr1 tr2 : list (nat * shows)) (t : nat) (r : reply) (g : serving), serve grow (migpServer srv) σ0 (tr1 ++ (t, Replied r) :: tr2) g ->
  exists path body n, open_now t tr1 = Some (path, body, n) /\ right_reply srv path body r.
Proof.
  intros grow G LIB srv ops σ0 H tr1 tr2 t r g S. destruct (load_facts srv ops σ0 H) as (L & I & W & V).
  exact (every_reply grow G srv σ0 L I W V tr1 t r tr2 g S).
Qed.
Print Assumptions C94_every_reply.

(** ** Nobody is held up: a goroutine with an open request can always move,
    whatever the others are doing ... *)
Theorem C94_never_blocked : forall (grow : nat -> nat) (LIB : OPRF) (srv : server LIB) (ops : list op) (σ0 : state), holds_load srv ops σ0 ->
  forall (tr : list (nat * shows)) (g : serving) (t : nat) (path : bytes) (body : stream) (n : nat),
  serve grow (migpServer srv) σ0 tr g -> open_now t tr = Some (path, body, n) ->
  exists x g', serve_step grow (migpServer srv) g t x g' /\ (x = Works \/ exists r, x = Replied r).
Proof.
  intros grow LIB srv ops σ0 H tr g t path body n S O. destruct (load_facts srv ops σ0 H) as (L & I & W & V).
  exact (can_move grow srv σ0 L I W V tr g t _ S O).
Qed.
Print Assumptions C94_never_blocked.

(** ... and its request takes a number of its own steps that depends on its body
    only: not on the other requests, the store or the schedule.  Together: a
    goroutine that is given that many steps replies. *)
Theorem C94_bounded : forall (grow : nat -> nat), grows grow ->
  forall (path : bytes) (body : stream), will_end path body ->
  exists bound, forall (LIB : OPRF) (srv : server LIB) (ops : list op) (σ0 : state), holds_load srv ops σ0 ->
  forall (tr : list (nat * shows)) (g : serving) (t n : nat),
  serve grow (migpServer srv) σ0 tr g -> open_now t tr = Some (path, body, n) -> n <= bound.
Proof.
  intros grow G path body [N|(m & e & E)].
  - exists 0. intros LIB srv ops σ0 H tr g t n S O. destruct (load_facts srv ops σ0 H) as (L & I & W & V).
    rewrite (other_bound grow srv σ0 L I W V tr g t path body n S N O). lia.
  - destruct (reads_whole grow G body m e E) as (k0 & K). exists (k0 + 4).
    intros LIB srv ops σ0 H tr g t n S O. destruct (load_facts srv ops σ0 H) as (L & I & W & V).
    refine (work_bound grow srv σ0 L I W V body k0 tr g t path n _ S O). intros k Hk. rewrite (K k Hk). discriminate.
Qed.
Print Assumptions C94_bounded.

(** In particular it can reply without any other goroutine moving. *)
Theorem C94_alone : forall (grow : nat -> nat), grows grow ->
  forall (LIB : OPRF) (srv : server LIB) (ops : list op) (σ0 : state), holds_load srv ops σ0 ->
  forall (tr : list (nat * shows)) (g : serving) (t : nat) (path : bytes) (body : stream) (n : nat),
  serve grow (migpServer srv) σ0 tr g -> open_now t tr = Some (path, body, n) -> will_end path body ->
  exists k r g', serve grow (migpServer srv) σ0 (tr ++ repeat (t, Works) k ++ [(t, Replied r)]) g' /\ right_reply srv path body r.
Proof.
  intros grow G LIB srv ops σ0 H tr g t path body n S O En. pose proof (load_facts srv ops σ0 H) as (L & I & W & V).
  destruct (C94_bounded grow G path body En) as (B & HB).
  destruct (alone_replies grow srv σ0 L I W V B t path body (fun tr g n => HB LIB srv ops σ0 H tr g t n) _ tr g n S O (le_n _)) as (k & r & g' & S').
  exists k, r, g'. split; [exact S'|].
  rewrite app_assoc in S'. destruct (C94_every_reply grow G LIB srv ops σ0 H _ [] t r g' S') as (path' & body' & n' & O' & R).
  assert (X : forall j m, open_now t tr = Some (path, body, m) -> open_now t (tr ++ repeat (t, Works) j) = Some (path, body, m + j)).
  { clear. induction j as [|j IH]; intros m O; [cbn [repeat]; rewrite app_nil_r, Nat.add_0_r; exact O|].
    replace (S j) with (j + 1) by lia. rewrite repeat_app. cbn [repeat]. rewrite app_assoc, open_same, (IH m O). do 2 f_equal. lia. }
  rewrite (X k n O) in O'. injection O' as <- <- _. exact R.
Qed.
Print Assumptions C94_alone.

(** In every run without end in which its goroutine goes on getting steps (as Go's
    scheduler gives them to it), it does reply. *)
Theorem C94_fair : forall (grow : nat -> nat), grows grow ->
  forall (LIB : OPRF) (srv : server LIB) (ops : list op) (σ0 : state), holds_load srv ops σ0 ->
  forall (gs : nat -> serving) (ev : nat -> nat * shows), gs 0 = mkServing σ0 (fun _ => Free) ->
  (forall k, serve_step grow (migpServer srv) (gs k) (fst (ev k)) (snd (ev k)) (gs (S k))) ->
  forall (t k : nat) (path : bytes) (body : stream) (n : nat), open_now t (map ev (seq 0 k)) = Some (path, body, n) -> will_end path body ->
  (forall i, exists j, i <= j /\ fst (ev j) = t) ->
  exists j r, k <= j /\ ev j = (t, Replied r) /\ right_reply srv path body r.
Proof.
  intros grow G LIB srv ops σ0 H gs ev E0 St t k path body n O En Inf. pose proof (load_facts srv ops σ0 H) as (L & I & W & V).
  destruct (C94_bounded grow G path body En) as (B & HB).
  destruct (fair_replies grow srv σ0 L I W V B t path body (fun tr g n => HB LIB srv ops σ0 H tr g t n) gs ev E0 St Inf _ k n O (le_n _)) as (j & r & n' & Lj & Ej & Oj).
  exists j, r. split; [exact Lj|]. split; [exact Ej|].
  pose proof (run_serves grow srv σ0 gs ev E0 St (S j)) as R. rewrite prefix_S, Ej in R.
  destruct (C94_every_reply grow G LIB srv ops σ0 H _ [] t r _ R) as (path' & body' & m & O' & Rr). rewrite Oj in O'. injection O' as <- <- _. exact Rr.
Qed.
Print Assumptions C94_fair.

(** A new request is taken up at any time, whatever is going on: each goroutine
    without an open request can take it, and there always is one. *)
Theorem C94_accepts : forall (grow : nat -> nat) (LIB : OPRF) (srv : server LIB) (ops : list op) (σ0 : state), holds_load srv ops σ0 ->
  forall (tr : list (nat * shows)) (g : serving), serve grow (migpServer srv) σ0 tr g ->
  (exists t, open_now t tr = None)
  /\ forall (t : nat) (path : bytes) (body : stream), open_now t tr = None -> exists g', serve_step grow (migpServer srv) g t (Arrives path body) g'.
Proof.
  intros grow LIB srv ops σ0 H tr g S. pose proof (load_facts srv ops σ0 H) as (L & I & W & V). split.
  - exists (Datatypes.S (list_max (map fst tr))). apply unused_closed. intros X.
    pose proof (proj1 (list_max_le (map fst tr) _) (le_n _)) as F. pose proof (proj1 (Forall_forall _ _) F _ X) as Y. cbv beta in Y. lia.
  - intros t path body O. exact (accepts grow srv σ0 L I W V tr g t path body S O).
Qed.
Print Assumptions C94_accepts.

(** ** A peer that never finishes its body is never replied to, and keeps
    nothing that others need: its goroutine is in no call of the store and has no
    lock. *)
Theorem C94_endless_body : forall (grow : nat -> nat), grows grow ->
  forall (LIB : OPRF) (srv : server LIB) (ops : list op) (σ0 : state), holds_load srv ops σ0 ->
  forall (tr : list (nat * shows)) (g : serving) (t : nat) (body : stream) (n : nat),
  serve grow (migpServer srv) σ0 tr g -> open_now t tr = Some (str "/evaluate", body, n) -> endless body ->
  th_pc (st_thr (g_store g) t) = Idle /\ ~ In t (st_readers (g_store g)) /\ st_writer (g_store g) <> Some t
  /\ forall x g', serve_step grow (migpServer srv) g t x g' -> x = Works.
Proof.
  intros grow G LIB srv ops σ0 H tr g t body n S O E. pose proof (load_facts srv ops σ0 H) as (L & I & W & V).
  destruct (stuck_outside grow G srv σ0 L I W V tr g t _ body n S O E) as (A & B & C). repeat split; try assumption.
  intros x g' St. destruct x as [path b| |r]; [exfalso|reflexivity|exfalso].
  - inversion St as [σ f t0 p b0 F| | | | | | |]; subst. pose proof (gi_thr _ _ _ _ _ (ginv_serve grow srv σ0 L I W V tr _ S) t) as T.
    cbn [g_does g_store] in T. rewrite F in T. destruct T as [_ T]. rewrite O in T. discriminate.
  - pose proof (serve_goes_on grow _ σ0 _ _ _ _ _ S St) as S'. destruct (C94_every_reply grow G LIB srv ops σ0 H tr [] t r g' S') as (p & b & m & O' & R).
    rewrite O in O'. injection O' as <- <- _. unfold right_reply in R. rewrite bytes_eqb_refl in R. destruct R as (k & e & (X & _) & _). rewrite E in X. discriminate.
Qed.
Print Assumptions C94_endless_body.

(** ** Serving leaves the store as it was loaded. *)
Theorem C94_store_stays : forall (grow : nat -> nat) (LIB : OPRF) (srv : server LIB) (ops : list op) (σ0 : state), holds_load srv ops σ0 ->
  forall (tr : list (nat * shows)) (g : serving) (id : bytes), serve grow (migpServer srv) σ0 tr g ->
  value_of (st_heap (g_store g)) (st_map (g_store g) id) = kv_lookup (kv srv) id.
Proof.
  intros grow LIB srv ops σ0 H tr g id S. destruct (load_facts srv ops σ0 H) as (L & I & W & V).
  exact (store_stays grow srv σ0 L I W V tr g id S).
Qed.
Print Assumptions C94_store_stays.

(** ** A query whose request was served in this way gives the client the answer
    that the loaded server alone gives (of which C44 and others speak). *)
Theorem C94_query : forall (grow : nat -> nat), grows grow ->
  forall (LIB : OPRF) (srv : server LIB) (ops : list op) (σ0 : state), holds_load srv ops σ0 ->
  forall (cfg : Config) (url u p payload : bytes) (blind : Blind LIB), Query_posts cfg u p blind = [payload] ->
  forall (tr1 tr2 : list (nat * shows)) (t n m : nat) (body : stream) (r : reply) (g : serving),
  serve grow (migpServer srv) σ0 (tr1 ++ (t, Replied r) :: tr2) g ->
  open_now t tr1 = Some (str "/evaluate", body, n) -> ends_at body m EOF -> first_pieces body (S m) = payload ->
  Query cfg (fun _ _ => delivered r) url u p blind = Query cfg (fun _ d => posted_alone srv d) url u p blind.
Proof.
  intros grow G LIB srv ops σ0 H cfg url u p payload blind Q tr1 tr2 t n m body r g S O E B.
  destruct (C94_every_reply grow G LIB srv ops σ0 H tr1 tr2 t r g S) as (path & body' & n' & O' & R). rewrite O in O'. injection O' as <- <- _.
  unfold right_reply in R. rewrite bytes_eqb_refl in R. destruct R as (m' & e & E' & ->). destruct (ends_unique body m EOF m' e E E') as [<- <-].
  cbn [whole]. rewrite B. unfold Query, Query_posts in *. destruct (NewClient LIB cfg) as [c|x|x]; [|discriminate..]. cbn [bind].
  destruct (Request c u p blind) as [[rq ctx]|x|x]; [|discriminate..]. cbn [bind]. injection Q as Q. rewrite Q.
  assert (X : delivered (mux srv (str "/evaluate") (Ok payload)) = posted_alone srv payload).
  { unfold posted_alone, http_post. destruct (mux srv (str "/evaluate") (Ok payload)) as [[w|x|x]|q] eqn:M; try reflexivity. rewrite mux_evaluate in M. discriminate. }
  rewrite X. reflexivity.
Qed.
Print Assumptions C94_query.

(** There are such stores. *)
Lemma load_exists {LIB : OPRF} (srv : server LIB) ops : kv srv = run_inserts (migpServer srv) newKVStore ops -> exists σ0, holds_load srv ops σ0.
Proof.
  intros K.
  set (L := map (pair 0) (calls_of (migpServer srv) ops)).
  assert (FA : Forall (fun x => exists id v, snd x = CAppend id v) L).
  { apply Forall_map, Forall_flat_map. apply Forall_forall. intros x _. apply Forall_forall. intros c Hc.
    pose proof (insert_calls_stores (migpServer srv) x) as FS. induction FS as [|d c' ds cs (id & e & _ & _ & E) FS IH]; [destruct Hc|].
    destruct Hc as [<-|Hc]; [eexists _, e; exact E|exact (IH Hc)]. }
  destruct (log_runs L FA) as (σ0 & E & _). exists σ0, (log_events L). split; [exact E|]. split; [|exact K].
  intros t. rewrite log_invoked, log_returned. split; [|reflexivity]. unfold L, main_inserts.
  assert (O : forall l : list call, of_thread t (map (pair 0) l) = if (t =? 0)%nat then l else []).
  { induction l as [|c l IH]; [destruct (t =? 0)%nat; reflexivity|]. cbn [map of_thread flat_map fst snd]. unfold of_thread in IH. rewrite IH.
    rewrite Nat.eqb_sym. destruct (t =? 0)%nat; reflexivity. }
  rewrite O. destruct (t =? 0)%nat; [|reflexivity].
  assert (NG : Forall (fun c => is_get c = false) (calls_of (migpServer srv) ops)).
  { apply Forall_forall. intros c Hc. pose proof (proj1 (Forall_forall _ _) FA (0, c) (in_map (pair 0) _ _ Hc)) as (id & v & X). cbn [snd] in X. subst c. reflexivity. }
  clear - NG. induction NG as [|c l N NG IH]; [reflexivity|]. cbn [filter]. rewrite N. cbn [negb]. f_equal. exact IH.
Qed.

(** ** The server program: after its load, it serves in this way. *)
Theorem C94_server_program : forall (LIB : OPRF) (args : list bytes) (fs : files) (gen : res (PrivateKey LIB)) (addr : bytes) (srv : server LIB) (ok bad : N)
    (o : server_opts) (breach : bytes),
  server_program args fs gen = SServing addr srv ok bad -> server_flags args = FParsed o -> input_of fs (so_infile o) = Some breach ->
  let ops := breach_ops (so_metadata o) (so_num o) (so_username o) (with_colon (scan_lines breach)) in
  (forall tr σ0, exec true tr σ0 -> loaded (migpServer srv) (main_inserts ops) tr -> holds_load srv ops σ0)
  /\ exists σ0, holds_load srv ops σ0.
Proof.
  intros LIB args fs gen addr srv ok bad o breach P F I ops.
  destruct (served_store LIB args fs gen addr srv ok bad o breach P F I) as (_ & _ & _ & _ & K & _).
  split; [intros tr σ0 E Ld; exists tr; auto|].
  exact (load_exists srv ops K).
Qed.
Print Assumptions C94_server_program.

(** ** A case: a server with two credentials.  Goroutine 1 has a body
    that never ends, goroutine 2 is inside Get, and goroutine 3 asks for the
    configuration. *)
Definition endless_body : stream := fun _ => mkArrival (str "{") None.
Definition two_pieces (d : bytes) : stream := fun i => match i with 0 => mkArrival (firstn 5 d) None | _ => mkArrival (skipn 5 d) (Some EOF) end.
Definition scene94 {LIB : OPRF} (s : Server LIB) (σ0 : state) (payload : bytes) (tr : list (nat * shows)) (g : serving) : Prop :=
  serve (fun c => 2 * c + 1) s σ0 tr g
  /\ open_now 1 tr = Some (str "/evaluate", endless_body, 3)
  /\ open_now 2 tr = Some (str "/evaluate", two_pieces payload, 4) /\ st_readers (g_store g) = [2]
  /\ open_now 3 tr = Some (str "/config", endless_body, 0).
Lemma reads_on {LIB : OPRF} grow (s : Server LIB) σ0 σ t body : forall k tr f, serve grow s σ0 tr (mkServing σ f) -> f t = Receiving body (read_after grow 0 body) ->
  (forall i, i < k -> exists st, read_after grow i body = Reading st) ->
  exists f', serve grow s σ0 (tr ++ repeat (t, Works) k) (mkServing σ f') /\ f' t = Receiving body (read_after grow k body) /\ forall t', t' <> t -> f' t' = f t'.
Proof.
  induction k as [|k IH]; intros tr f S F R; [exists f; cbn [repeat]; rewrite app_nil_r; auto|].
  destruct (IH tr f S F) as (f1 & S1 & F1 & O1); [intros i Hi; apply R; lia|]. destruct (R k) as [st E]; [lia|]. rewrite E in F1.
  pose proof (serve_goes_on grow s σ0 _ _ _ _ _ S1 (sv_round grow s σ f1 t body st F1)) as S2.
  exists (upd f1 t (Receiving body (read_round grow body st))). split; [|split].
  - replace (Datatypes.S k) with (k + 1) by lia. rewrite repeat_app, app_assoc. exact S2.
  - rewrite upd_same. unfold read_after in *. replace (Datatypes.S k) with (k + 1) by lia. rewrite rounds_add, E. reflexivity.
  - intros t' N. rewrite upd_other by exact N. apply O1, N.
Qed.

Lemma three_at_once {LIB : OPRF} (s : Server LIB) (ops : list op) (payload : bytes) : let grow := fun c => 2 * c + 1 in
  (exists st, read_after grow 1 (two_pieces payload) = Reading st) -> read_after grow 2 (two_pieces payload) = Done payload None ->
  match evaluate_until_get s payload with Gets _ _ => True | Replies _ => False end ->
  exists σ0 tr g, holds_load (mkDemoServer s (run_inserts s newKVStore ops)) ops σ0 /\ scene94 s σ0 payload tr g.
Proof.
  intros grow R1 R U.
  pose proof (load_exists (mkDemoServer s (run_inserts s newKVStore ops)) ops eq_refl) as X.
  destruct X as (σ0 & H). exists σ0.
  pose proof (load_facts (mkDemoServer s (run_inserts s newKVStore ops)) ops σ0 H) as (L & I & W & V).
  (* the endless request and the configuration *)
  pose proof (serve_goes_on grow s σ0 _ _ _ _ _ (serve_starts grow s σ0) (sv_arrives grow s σ0 _ 1 (str "/evaluate") endless_body eq_refl)) as S1. cbn [app] in S1.
  destruct (reads_on grow s σ0 σ0 1 endless_body 3 _ _ S1 eq_refl) as (f1 & S2 & _ & O1).
  { intros [|[|[|i]]] Hi; [eexists; vm_compute; reflexivity..|lia]. }
  assert (F3 : f1 3 = Free) by (rewrite O1 by congruence; reflexivity). assert (F2 : f1 2 = Free) by (rewrite O1 by congruence; reflexivity).
  pose proof (serve_goes_on grow s σ0 _ _ _ _ _ S2 (sv_arrives grow s σ0 _ 3 (str "/config") endless_body F3)) as S3.
  match type of S3 with serve _ _ _ _ (mkServing _ ?f) => set (f3 := f) in *; assert (F2' : f3 2 = Free) by (unfold f3; rewrite upd_other by congruence; exact F2) end.
  pose proof (serve_goes_on grow s σ0 _ _ _ _ _ S3 (sv_arrives grow s σ0 _ 2 (str "/evaluate") (two_pieces payload) F2')) as S4.
  match type of S4 with serve _ _ _ _ (mkServing _ ?f) => set (f4 := f) in * end.
  assert (F4 : f4 2 = Receiving (two_pieces payload) (read_after grow 0 (two_pieces payload))) by (unfold f4; rewrite upd_same; reflexivity).
  destruct (reads_on grow s σ0 σ0 2 (two_pieces payload) 2 _ _ S4 F4) as (f5 & S5 & F5 & _).
  { intros [|[|i]] Hi; [eexists; reflexivity|exact R1|lia]. }
  rewrite R in F5.
  destruct (evaluate_until_get s payload) as [w|id rest] eqn:E; [contradiction|].
  pose proof (serve_goes_on grow s σ0 _ _ _ _ _ S5 (sv_asks grow s σ0 f5 2 _ _ id rest _ F5 E (st_get_call true σ0 2 id (I 2)))) as S6.
  match type of S6 with serve _ _ _ _ (mkServing ?x ?f) => set (σ6 := x) in *; set (f6 := f) in * end.
  assert (P6 : th_pc (st_thr σ6 2) = GetLock id) by (unfold σ6; cbn [st_thr]; apply go_same). assert (W6 : st_writer σ6 = None) by exact W.
  pose proof (sv_inside grow s σ6 f6 2 (two_pieces payload) rest _ (upd_same _ _ _) (st_get_lock true σ6 2 id P6 W6)) as T.
  assert (M : moved 2 σ6 (mkState (st_map σ6) None (2 :: st_readers σ6) (st_heap σ6) (go σ6 2 (GetLoad id)))) by (unfold moved; cbn [st_thr]; rewrite go_same, P6; discriminate).
  pose proof (serve_goes_on grow s σ0 _ _ _ _ _ S6 (T M)) as S7.
  eexists _, _. split; [exact H|].
  split; [exact S7|]. split; [reflexivity|]. split; [reflexivity|]. split; [|reflexivity].
  cbn [g_store st_readers]. unfold σ6. cbn [st_readers]. f_equal.
  destruct (st_readers σ0) as [|x l] eqn:X; [reflexivity|]. assert (X' : In x (st_readers σ0)) by (rewrite X; left; reflexivity).
  apply (l_read _ L) in X'. rewrite I in X'. discriminate.
Qed.

Definition ex_payload94 : bytes := match Query_posts ex_cfg (str "alice") (str "hello") (5%N : Blind toy_OPRF) with [d] => d | _ => [] end.
Definition ex_ops94 : list op := [mkOp (str "alice") (str "hello") (str "leak") 0 false; mkOp (str "bob") (str "x:y") (str "leak") 0 false].
Example C94_example : (exists σ0 tr g, holds_load (mkDemoServer ex_server (run_inserts ex_server newKVStore ex_ops94)) ex_ops94 σ0 /\ @scene94 toy_OPRF ex_server σ0 ex_payload94 tr g)
  /\ Query_posts ex_cfg (str "alice") (str "hello") (5%N : Blind toy_OPRF) = [ex_payload94]
  /\ ends_at (two_pieces ex_payload94) 1 EOF /\ first_pieces (two_pieces ex_payload94) 2 = ex_payload94 /\ endless endless_body.
Proof.
  split; [apply three_at_once; [eexists; vm_compute; reflexivity|vm_compute; reflexivity|vm_compute; exact Logic.I]|].
  split; [vm_compute; reflexivity|].
  split; [split; [reflexivity|intros [|i] Hi; [reflexivity|lia]]|]. split; [vm_compute; reflexivity|]. intros i; reflexivity.
Qed.

(** A run without end, from any store: goroutine 1 has the body that never ends
    and reads on, goroutine 2 is asked for the configuration, again and again. *)
Section Endless.
Context {LIB : OPRF}.
Variables (s : Server LIB) (σ0 : state).
Definition two_more : nat -> nat := fun c => 2 * c + 1.
Fixpoint phase94 (k : nat) : nat * nat :=
  match k with
  | 0 => (3, 0)
  | S k => let (p, n) := phase94 k in match p with 0 => (1, n) | 1 => (2, S n) | _ => (0, n) end
  end.
Fixpoint does94 (k : nat) : nat -> activity :=
  match k with
  | 0 => fun _ => Free
  | S k => match fst (phase94 k) with
           | 0 => upd (does94 k) 2 (Answering (str "/config"))
           | 1 => upd (does94 k) 1 (Receiving endless_body (match does94 k 1 with Receiving _ (Reading st) => read_round two_more endless_body st | _ => Done [] None end))
           | 2 => upd (does94 k) 2 Free
           | _ => upd (does94 k) 1 (Receiving endless_body (read_after two_more 0 endless_body))
           end
  end.
Definition events94 (k : nat) : nat * shows :=
  match fst (phase94 k) with
  | 0 => (2, Arrives (str "/config") endless_body)
  | 1 => (1, Works)
  | 2 => (2, Replied (mux {| migpServer := s; kv := newKVStore |} (str "/config") (Ok [])))
  | _ => (1, Arrives (str "/evaluate") endless_body)
  end.
Lemma endless_reading n : exists st, read_after two_more n endless_body = Reading st.
Proof.
  pose proof (endless_none two_more ltac:(intros c; unfold two_more; lia) endless_body n ltac:(intros i; reflexivity)) as X. unfold ReadAll in X.
  destruct (read_after two_more n endless_body) as [st|b e]; [exists st; reflexivity|discriminate].
Qed.
Lemma does94_inv k : let (p, n) := phase94 k in
  (p = 3 /\ n = 0 /\ does94 k 1 = Free /\ does94 k 2 = Free)
  \/ (does94 k 1 = Receiving endless_body (read_after two_more n endless_body)
      /\ ((p = 0 /\ does94 k 2 = Free) \/ ((p = 1 \/ p = 2) /\ does94 k 2 = Answering (str "/config")))).
Proof.
  induction k as [|k IH]; [left; repeat split|]. cbn [phase94 does94]. destruct (phase94 k) as [p n]. cbn [fst].
  destruct IH as [(-> & -> & A & B)|(A & [[-> B]|[[->| ->] B]])]; right; rewrite ?upd_same, ?(upd_other _ _ _ 1) by congruence; rewrite ?(upd_other _ _ _ 2) by congruence.
  - split; [reflexivity|]. left. auto.
  - split; [exact A|]. right. auto.
  - rewrite A. destruct (endless_reading n) as [st E]. rewrite E. split; [|right; auto]. f_equal.
    unfold read_after in *. replace (Datatypes.S n) with (n + 1) by lia. rewrite rounds_add, E. reflexivity.
  - split; [exact A|]. left. auto.
Qed.
Lemma endless_run : (forall k, serve_step two_more s (mkServing σ0 (does94 k)) (fst (events94 k)) (snd (events94 k)) (mkServing σ0 (does94 (S k))))
  /\ forall i, exists j, i <= j /\ fst (events94 j) = 2.
Proof.
  split.
  - intros k. pose proof (does94_inv k) as I. unfold events94. cbn [does94]. destruct (phase94 k) as [p n] eqn:P. cbn [fst].
    destruct I as [(-> & _ & A & B)|(A & [[-> B]|[[->| ->] B]])]; cbn [fst snd].
    + exact (sv_arrives two_more s σ0 _ 1 (str "/evaluate") endless_body A).
    + exact (sv_arrives two_more s σ0 _ 2 (str "/config") endless_body B).
    + destruct (endless_reading n) as [st E]. rewrite E in A. rewrite A. exact (sv_round two_more s σ0 _ 1 endless_body st A).
    + exact (sv_other two_more s σ0 _ 2 (str "/config") B).
  - intros i. unfold events94. pose proof (does94_inv i) as I. destruct (phase94 i) as [p n] eqn:P.
    destruct I as [(-> & _)|(_ & [[-> _]|[[->| ->] _]])].
    + exists (Datatypes.S i). split; [lia|]. cbn [phase94]. rewrite P. reflexivity.
    + exists i. rewrite P. split; [lia|reflexivity].
    + exists (Datatypes.S i). split; [lia|]. cbn [phase94]. rewrite P. reflexivity.
    + exists i. rewrite P. split; [lia|reflexivity].
Qed.
End Endless.
Example C94_fair_example {LIB : OPRF} (s : Server LIB) (σ0 : state) :
  mkServing σ0 (does94 0) = mkServing σ0 (fun _ => Free)
  /\ (forall k, serve_step two_more s (mkServing σ0 (does94 k)) (fst (events94 s k)) (snd (events94 s k)) (mkServing σ0 (does94 (S k))))
  /\ open_now 2 (map (events94 s) (seq 0 3)) = Some (str "/config", endless_body, 0)
  /\ will_end (str "/config") endless_body
  /\ forall i, exists j, i <= j /\ fst (events94 s j) = 2.
Proof.
  destruct (endless_run s σ0) as [A B]. split; [reflexivity|]. split; [exact A|]. split; [reflexivity|]. split; [left; discriminate|exact B].
Qed.
