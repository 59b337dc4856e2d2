(** * Property C95: any number of client programs at one server, at the same time,
    with any other peers: each client ends as if it were alone with the loaded
    server.

    Clients are the programs of Effects.v: [Effects.exec fs [] (client_proc args
    blinds) t r].  The server is that of C94; [served_in tr host t] says that the
    answers in t are replies in the run tr.  Specification: SpecCrowd.v. *)
From Coq Require Import Lia.
From Verif Require Import Base BaseProofs Common Oprf OprfGroup Server Client KV KVProofs Json ConfigJson Scanner Demo Url Flags Main SpecEntry SpecProtocol SpecDemo SpecHttp SpecMain FlagsProofs MainProofs
  PropMain SpecConc KVConc ReadBody SpecRead ReadProofs ServeConc SpecServeConc ServeConcProofs PropServeConc
  Effects SpecEffects EffectProofs PropEffects SpecCrowd PropProtocol.

Section Crowd.
Variables (grow : nat -> nat) (G : grows grow).
Context {LIB : OPRF}.
Variables (srv : server LIB) (ops : list op) (σ0 : state) (H : holds_load srv ops σ0).
Notation s := (migpServer srv).

Lemma replied_is tr g path d r : serve grow s σ0 tr g -> replied tr path d r -> r = mux srv path (Ok d).
Proof.
  intros S (tr1 & t & tr2 & body & n & m & -> & O & E & B).
  destruct (C94_every_reply grow G LIB srv ops σ0 H tr1 tr2 t r g S) as (path' & body' & n' & O' & R). rewrite O in O'. injection O' as <- <- _.
  unfold right_reply in R. destruct (bytes_eqb path (str "/evaluate")); [|apply R].
  destruct R as (m' & e & E' & ->). destruct (ends_unique body m EOF m' e E E') as [<- <-]. cbn [whole]. rewrite B. reflexivity.
Qed.
Lemma replied_get tr g path r : serve grow s σ0 tr g -> replied tr path [] r -> r = mux srv path (@Ok (list Byte.byte) []).
Proof. exact (replied_is tr g path [] r). Qed.
Lemma got_is tr g : serve grow s σ0 tr g -> forall n path a, got tr n path a -> a = follow_get n srv path.
Proof.
  intros S n path a K. induction K as [path|n path w R|n path x R X|n path p a R K IH]; cbn [follow_get]; [reflexivity|..];
    rewrite <- (replied_get tr g path _ S R); [reflexivity| |exact IH]. destruct x; [discriminate|reflexivity..].
Qed.
Lemma done_is tr g path d a : serve grow s σ0 tr g -> done tr path d a -> a = (r <- http_post srv path d ;; let (code, body) := r in Ok (code, Ok body)).
Proof.
  intros S K. unfold http_post. destruct K as [w R|x R X|p code b R K|p e R K]; rewrite <- (replied_is tr g path d _ S R).
  - destruct (response_of w); reflexivity.
  - destruct x; [discriminate|reflexivity..].
  - rewrite <- (got_is tr g S 9 p _ K). reflexivity.
  - rewrite <- (got_is tr g S 9 p _ K). reflexivity.
Qed.
Lemma served_answered tr g host t : serve grow s σ0 tr g -> served_in tr host t -> answered_by (behind srv host) t.
Proof.
  intros S [A B]. split.
  - intros url a I. specialize (A url a I). cbn [behind n_get]. destruct (url_path host url) as [path|]; [exact (got_is tr g S 10 path a A)|exact A].
  - intros url d a I. specialize (B url d a I). cbn [behind n_post]. unfold to_server. destruct (url_path host url) as [path|]; [exact (done_is tr g path d a S B)|exact B].
Qed.

(** ** More replies do not undo what was got. *)
Lemma replied_more tr tr' path d r : replied tr path d r -> replied (tr ++ tr') path d r.
Proof. intros (tr1 & t & tr2 & body & n & m & -> & R). exists tr1, t, (tr2 ++ tr'), body, n, m. rewrite <- app_assoc. split; [reflexivity|exact R]. Qed.
Lemma got_more tr tr' n path a : got tr n path a -> got (tr ++ tr') n path a.
Proof.
  intros K. induction K as [path|n path w R|n path x R X|n path p a R K IH].
  - apply got_too_many.
  - apply got_page, replied_more, R.
  - eapply got_crash; [apply replied_more, R|exact X].
  - eapply got_moved; [apply replied_more, R|exact IH].
Qed.
Lemma done_more tr tr' path d a : done tr path d a -> done (tr ++ tr') path d a.
Proof.
  intros [w R|x R X|p code b R K|p e R K].
  - apply done_page, replied_more, R.
  - eapply done_crash; [apply replied_more, R|exact X].
  - eapply done_moved; [apply replied_more, R|apply got_more, K].
  - eapply done_moved_err; [apply replied_more, R|apply got_more, K].
Qed.
Lemma served_more tr tr' host t : served_in tr host t -> served_in (tr ++ tr') host t.
Proof.
  intros [A B]. split.
  - intros url a I. specialize (A url a I). destruct (url_path host url); [apply got_more|]; exact A.
  - intros url d a I. specialize (B url d a I). destruct (url_path host url); [apply done_more|]; exact B.
Qed.

(** ** One goroutine can serve what it is asked. *)
Variable u : nat.
Definition goes (tr tr' : list (nat * shows)) : Prop :=
  (exists g, serve grow s σ0 (tr ++ tr') g) /\ open_now u (tr ++ tr') = None /\ Forall (fun e => fst e = u) tr'.
Lemma goes_on tr tr1 tr2 : goes tr tr1 -> goes (tr ++ tr1) tr2 -> goes tr (tr1 ++ tr2).
Proof. intros (_ & _ & F) (S & O & F'). rewrite <- app_assoc in S, O. split; [exact S|]. split; [exact O|]. apply Forall_app. auto. Qed.
Lemma goes_not tr g : serve grow s σ0 tr g -> open_now u tr = None -> goes tr [].
Proof. intros S O. split; [exists g; rewrite app_nil_r; exact S|]. rewrite app_nil_r. auto. Qed.
Lemma serve_one tr g path d : serve grow s σ0 tr g -> open_now u tr = None ->
  exists tr', goes tr tr' /\ replied (tr ++ tr') path d (mux srv path (Ok d)).
Proof.
  intros S O. set (body := (fun _ => mkArrival d (Some EOF)) : stream).
  assert (E : ends_at body 0 EOF) by (split; [reflexivity|intros i Hi; lia]).
  destruct (C94_accepts grow LIB srv ops σ0 H tr g S) as [_ Ac]. destruct (Ac u path body O) as (g1 & St).
  pose proof (serve_goes_on grow s σ0 _ _ _ _ _ S St) as S1.
  assert (O1 : open_now u (tr ++ [(u, Arrives path body)]) = Some (path, body, 0)) by (rewrite open_same; reflexivity).
  destruct (C94_alone grow G LIB srv ops σ0 H _ g1 u path body 0 S1 O1) as (k & r & g2 & S2 & _); [right; exists 0, EOF; exact E|].
  rewrite <- app_assoc in S2. exists ([(u, Arrives path body)] ++ repeat (u, Works) k ++ [(u, Replied r)]).
  assert (R : replied (tr ++ [(u, Arrives path body)] ++ repeat (u, Works) k ++ [(u, Replied r)]) path d r).
  { exists (tr ++ (u, Arrives path body) :: repeat (u, Works) k), u, [], body, k, 0. split; [rewrite <- app_assoc; reflexivity|]. split; [|split; [exact E|]].
    - clear - O1. change ((u, Arrives path body) :: repeat (u, Works) k) with ([(u, Arrives path body)] ++ repeat (u, Works) k). rewrite app_assoc. induction k as [|k IH].
      + cbn [repeat]. rewrite app_nil_r. exact O1.
      + replace (Datatypes.S k) with (k + 1) by lia. rewrite repeat_app, app_assoc. cbn [repeat]. rewrite open_same, IH. do 2 f_equal. lia.
    - unfold first_pieces. cbn [seq map concat]. rewrite app_nil_r. reflexivity. }
  split; [|rewrite <- (replied_is _ g2 path d r S2 R); exact R].
  split; [exists g2; exact S2|]. split.
  - rewrite !app_assoc. rewrite open_same. reflexivity.
  - apply Forall_app. split; [constructor; [reflexivity|constructor]|]. apply Forall_app. split; [|constructor; [reflexivity|constructor]].
    apply Forall_forall. intros x Hx. apply repeat_spec in Hx. subst x. reflexivity.
Qed.
Lemma follow_ok n path : (exists x, follow_get n srv path = Ok x) \/ exists e, follow_get n srv path = Err e.
Proof.
  revert path. induction n as [|n IH]; intros path; cbn [follow_get]; [right; eexists; reflexivity|].
  destruct (mux srv path (Ok [])) as [[w|e|e]|p]; [left|right..|apply IH]; eexists; reflexivity.
Qed.
Lemma serve_get : forall n path tr g, serve grow s σ0 tr g -> open_now u tr = None -> exists tr', goes tr tr' /\ got (tr ++ tr') n path (follow_get n srv path).
Proof.
  induction n as [|n IH]; intros path tr g S O.
  - exists []. split; [exact (goes_not tr g S O)|apply got_too_many].
  - destruct (serve_one tr g path [] S O) as (tr1 & Go & R). change (mux srv path (@Ok bytes [])) with (mux srv path (@Ok (list Byte.byte) [])) in R. cbn [follow_get]. destruct (mux srv path (Ok [])) as [x|p] eqn:M.
    + exists tr1. split; [exact Go|]. destruct x as [w|e|e]; [apply got_page, R|eapply got_crash; [exact R|reflexivity]..].
    + destruct Go as ((g1 & S1) & O1 & F1). destruct (IH p (tr ++ tr1) g1 S1 O1) as (tr2 & Go2 & K). exists (tr1 ++ tr2).
      split; [apply goes_on; [split; [exists g1; exact S1|split; assumption]|exact Go2]|]. rewrite app_assoc. eapply got_moved; [apply replied_more, R|exact K].
Qed.
Lemma serve_post path d tr g : serve grow s σ0 tr g -> open_now u tr = None ->
  exists tr', goes tr tr' /\ done (tr ++ tr') path d (r <- http_post srv path d ;; let (code, body) := r in Ok (code, Ok body)).
Proof.
  intros S O. destruct (serve_one tr g path d S O) as (tr1 & Go & R). unfold http_post. destruct (mux srv path (Ok d)) as [x|p] eqn:M.
  - exists tr1. split; [exact Go|]. destruct x as [w|e|e]; cbn [bind].
    + pose proof (done_page _ path d w R) as K. destruct (response_of w). exact K.
    + exact (done_crash _ path d _ R eq_refl).
    + exact (done_crash _ path d _ R eq_refl).
  - destruct Go as ((g1 & S1) & O1 & F1). destruct (serve_get 9 p (tr ++ tr1) g1 S1 O1) as (tr2 & Go2 & K). exists (tr1 ++ tr2).
    split; [apply goes_on; [split; [exists g1; exact S1|split; assumption]|exact Go2]|]. rewrite app_assoc.
    destruct (follow_ok 9 p) as [[[code b] E]|[e E]]; rewrite E in *; cbn [bind].
    + eapply done_moved; [apply replied_more, R|exact K].
    + eapply done_moved_err; [apply replied_more, R|exact K].
Qed.
Lemma serve_events host : forall t tr g, answered_by (behind srv host) t -> serve grow s σ0 tr g -> open_now u tr = None ->
  exists tr', goes tr tr' /\ served_in (tr ++ tr') host t.
Proof.
  induction t as [|e t IH]; intros tr g A S O.
  - exists []. split; [exact (goes_not tr g S O)|]. split; intros *; intros [].
  - assert (A' : answered_by (behind srv host) t) by (destruct A as [A1 A2]; split; intros; [apply A1|apply A2]; right; assumption).
    assert (X : exists tr1, goes tr tr1 /\ served_in (tr ++ tr1) host [e]).
    { assert (N : (forall url a, e <> EGet url a) -> (forall url d a, e <> EPost url d a) -> exists tr1, goes tr tr1 /\ served_in (tr ++ tr1) host [e]).
      { intros N1 N2. exists []. split; [exact (goes_not tr g S O)|]. split; intros *; intros [E|[]]; exfalso; [exact (N1 _ _ E)|exact (N2 _ _ _ E)]. }
      destruct e as [b n ok|m|l| |url a|url d a|addr ok]; try (apply N; intros; discriminate).
      - pose proof (proj1 A url a (or_introl eq_refl)) as E. cbn [behind n_get] in E. destruct (url_path host url) as [path|] eqn:U.
        + destruct (serve_get 10 path tr g S O) as (tr1 & Go & K). exists tr1. split; [exact Go|]. split; intros *; intros [Y|[]]; [|discriminate].
          injection Y as <- <-. rewrite U, E. exact K.
        + exists []. split; [exact (goes_not tr g S O)|]. split; intros *; intros [Y|[]]; [|discriminate]. injection Y as <- <-. rewrite U. exact E.
      - pose proof (proj2 A url d a (or_introl eq_refl)) as E. cbn [behind n_post] in E. unfold to_server in E. destruct (url_path host url) as [path|] eqn:U.
        + destruct (serve_post path d tr g S O) as (tr1 & Go & K). exists tr1. split; [exact Go|]. split; intros *; intros [Y|[]]; [discriminate|].
          injection Y as <- <- <-. rewrite U, E. exact K.
        + exists []. split; [exact (goes_not tr g S O)|]. split; intros *; intros [Y|[]]; [discriminate|]. injection Y as <- <- <-. rewrite U. exact E. }
    destruct X as (tr1 & Go & V). destruct Go as ((g1 & S1) & O1 & F1). destruct (IH (tr ++ tr1) g1 A' S1 O1) as (tr2 & Go2 & V2). exists (tr1 ++ tr2).
    split; [apply goes_on; [split; [exists g1; exact S1|split; assumption]|exact Go2]|]. rewrite app_assoc. destruct (served_more _ tr2 _ _ V) as [V1 V1']. destruct V2 as [V3 V3'].
    split; intros *; intros [Y|Y]; [apply V1; left; exact Y|apply V3, Y|apply V1'; left; exact Y|apply V3', Y].
Qed.
End Crowd.

(** ** Whatever else is going on at the server, and however far the client has
    come: each answer it has got is the one the loaded server gives alone. *)
Theorem C95_answers : forall (grow : nat -> nat), grows grow ->
  forall (LIB : OPRF) (srv : server LIB) (ops : list op) (σ0 : state), holds_load srv ops σ0 ->
  forall (tr : list (nat * shows)) (g : serving), serve grow (migpServer srv) σ0 tr g ->
  forall (host : bytes) (t : list event), served_in tr host t -> answered_by (behind srv host) t.
Proof. intros grow G LIB srv ops σ0 H tr g S host t V. exact (served_answered grow G srv ops σ0 H tr g host t S V). Qed.
Print Assumptions C95_answers.

(** Hence each client exits with the status, and has written the bytes, that it
    would have if it had the server to itself. *)
Theorem C95_as_if_alone : forall (grow : nat -> nat), grows grow ->
  forall (LIB : OPRF) (srv : server LIB) (ops : list op) (σ0 : state), holds_load srv ops σ0 ->
  forall (tr : list (nat * shows)) (g : serving), serve grow (migpServer srv) σ0 tr g ->
  forall (host : bytes) (args : list bytes) (fs : files) (blinds : nat -> Blind LIB) (t : list event) (st : N),
  Effects.exec fs [] (client_proc args blinds) t (Some st) -> served_in tr host t -> output_works t ->
  client_program args fs (behind srv host) blinds = mkClientResult st (arrived t).
Proof.
  intros grow G LIB srv ops σ0 H tr g S host args fs blinds t st E V W.
  exact (C65_working_output LIB args fs (behind srv host) blinds t st E (C95_answers grow G LIB srv ops σ0 H tr g S host t V) W).
Qed.
Print Assumptions C95_as_if_alone.

(** ** And from every state that the server can come to, every number of clients
    can be served to their ends by any one goroutine that is free, whatever the
    others have open and even if none of them moves again. *)
Theorem C95_everyone_can_be_served : forall (grow : nat -> nat), grows grow ->
  forall (LIB : OPRF) (srv : server LIB) (ops : list op) (σ0 : state), holds_load srv ops σ0 ->
  forall (tr : list (nat * shows)) (g : serving) (u : nat), serve grow (migpServer srv) σ0 tr g -> open_now u tr = None ->
  forall (host : bytes) (clients : list (list bytes * files * (nat -> Blind LIB))),
  exists tr' g', serve grow (migpServer srv) σ0 (tr ++ tr') g' /\ Forall (fun e => fst e = u) tr'
    /\ Forall (fun c => match c with (args, fs, blinds) =>
         exists t st, Effects.exec fs [] (client_proc args blinds) t (Some st) /\ output_works t /\ served_in (tr ++ tr') host t end) clients.
Proof.
  intros grow G LIB srv ops σ0 H tr g u S O host clients.
  assert (X : exists tr', goes grow srv σ0 u tr tr' /\ Forall (fun c => match c with (args, fs, blinds) =>
         exists t st, Effects.exec fs [] (client_proc args blinds) t (Some st) /\ output_works t /\ served_in (tr ++ tr') host t end) clients).
  { induction clients as [|[[args fs] blinds] clients (tr1 & Go & IH)].
    - exists []. split; [exact (goes_not grow srv σ0 u tr g S O)|constructor].
    - destruct (C65_runs_exist LIB args fs (behind srv host) blinds (fun _ b => (length b, true))) as (t & st & E & A & D); [intros j b; split; [cbn; lia|reflexivity]|].
      destruct Go as ((g1 & S1) & O1 & F1). destruct (serve_events grow G srv ops σ0 H u host t (tr ++ tr1) g1 A S1 O1) as (tr2 & Go2 & V). exists (tr1 ++ tr2).
      split; [apply goes_on; [split; [exists g1; exact S1|split; assumption]|exact Go2]|]. rewrite app_assoc. constructor.
      + exists t, st. split; [exact E|]. split; [|exact V]. intros b n ok I. assert (In (b, n, ok) (writes_of t)) as W.
        { unfold writes_of. apply in_flat_map. exists (EPrint b n ok). split; [exact I|left; reflexivity]. }
        apply In_nth_error in W as [j W]. specialize (D j b n ok W). congruence.
      + eapply Forall_impl; [|exact IH]. intros [[a f] bl] (t' & st' & E' & W' & V'). exists t', st'. split; [exact E'|]. split; [exact W'|]. apply served_more, V'. }
  destruct X as (tr' & ((g' & S') & _ & F') & K). exists tr', g'. auto.
Qed.
Print Assumptions C95_everyone_can_be_served.

(** ** From the breach file to the output of each client: the server program
    serves its load (C94), and C44 says what the client that is alone prints. *)
Theorem C95_end_to_end : forall (grow : nat -> nat), grows grow -> forall (LIB : OPRF), OPRF_laws LIB ->
  forall (sargs : list bytes) (sfs : files) (gen : res (PrivateKey LIB)) (addr : bytes) (srv : server LIB) (ok bad : N)
    (so : server_opts) (breach : bytes),
  server_program sargs sfs gen = SServing addr srv ok bad ->
  server_flags sargs = FParsed so -> given sfs (so_infile so) breach ->
  let cfg := sc_config (Server_Config (migpServer srv)) in
  let ops := breach_ops (so_metadata so) (so_num so) (so_username so) (with_colon (scan_lines breach)) in
  client_suite LIB 3 = Ok tt -> cfg_oprfSuite cfg = 3%N -> (0 <= cfg_bits cfg <= 32)%Z -> kv_holdable (kv srv) ->
  (exists σ0, holds_load srv ops σ0)
  /\ forall (σ0 : state) (tr : list (nat * shows)) (g : serving), holds_load srv ops σ0 -> serve grow (migpServer srv) σ0 tr g ->
  forall (cargs : list bytes) (cfs : files) (co : client_opts) (host queries : bytes) (blinds : nat -> Blind LIB),
  client_flags cargs = FParsed co -> plain_host host -> co_target co = str "http://" ++ host -> co_config co = [] -> co_dump co = false -> given cfs (co_infile co) queries ->
  (forall u p, In (u, p) (with_colon (scan_lines queries)) ->
     (exists k, deriveBucketEntryKey (migpServer srv) u p = Ok k) /\ no_collision (migpServer srv) (tried ops) u p) ->
  forall (t : list event) (st : N),
  Effects.exec cfs [] (client_proc cargs blinds) t (Some st) -> served_in tr host t -> output_works t ->
  st = 0%N /\ exists lines, arrived t = lines_of lines
    /\ Forall2 (fun c line => reports (co_show co) (fst c) (snd c) (expected (stored_by (migpServer srv) ops) (fst c) (snd c)) line)
               (with_colon (scan_lines queries)) lines.
Proof.
  intros grow G LIB L sargs sfs gen addr srv ok bad so breach P F Gv cfg ops Su Os B Hd.
  split; [exact (proj2 (C94_server_program LIB sargs sfs gen addr srv ok bad so breach P F (proj2 (input_given _ _ _) Gv)))|].
  intros σ0 tr g H S cargs cfs co host queries blinds CF PH T CC CD CG Q t st E V W.
  destruct (C44_end_to_end_with_refused_lines LIB L sargs sfs gen addr srv ok bad so breach P F Gv Su Os B Hd cargs cfs co host queries blinds CF PH T CC CD CG Q) as (lines & X & R).
  rewrite (C95_as_if_alone grow G LIB srv ops σ0 H tr g S host cargs cfs blinds t st E V W) in X. injection X as -> X. split; [reflexivity|]. exists lines. auto.
Qed.
Print Assumptions C95_end_to_end.

(** ** The scene of C94 (a body that never ends, a query inside Get, and a
    request for the configuration): two clients are served by another
    goroutine while the three stand still. *)
Definition ex_ops95 : list op := breach_ops (str "leak") 1 false (with_colon (scan_lines ex_breach)).
Definition ex_clients95 : list (list bytes * files * (nat -> Blind toy_OPRF)) :=
  [(ex_cargs, ex_cfs, fun i => N.of_nat (i + 5)); ([str "-dump-config"], ex_cfs, fun _ => 5%N)].
Lemma server_parts {LIB} (v : server LIB) st : kv v = st -> v = mkDemoServer (migpServer v) st.
Proof. intros <-. destruct v. reflexivity. Qed.
Lemma ex_srv_loaded : ex_srv = mkDemoServer (migpServer ex_srv) (run_inserts (migpServer ex_srv) newKVStore ex_ops95).
Proof. apply server_parts. vm_compute. reflexivity. Qed.
Example C95_example : exists σ0 tr g u tr' g', holds_load ex_srv ex_ops95 σ0 /\ scene94 (migpServer ex_srv) σ0 ex_payload94 tr g
  /\ serve (fun c => 2 * c + 1) (migpServer ex_srv) σ0 (tr ++ tr') g' /\ u <> 1 /\ u <> 2 /\ u <> 3 /\ Forall (fun e => fst e = u) tr'
  /\ Forall2 (fun c text => match c with (args, fs, blinds) =>
       exists t, Effects.exec fs [] (client_proc args blinds) t (Some 0%N) /\ output_works t /\ served_in (tr ++ tr') (str "localhost:8080") t
         /\ arrived t = text end) ex_clients95 [ex_text; Config_marshal ex_cfg].
Proof.
  assert (G : grows (fun c => 2 * c + 1)) by (intros c; lia).
  pose proof ex_srv_loaded as K.
  destruct (three_at_once (migpServer ex_srv) ex_ops95 ex_payload94) as (σ0 & tr & g & H & Sc);
    [eexists; vm_compute; reflexivity|vm_compute; reflexivity|vm_compute; exact Logic.I|].
  rewrite <- K in H.
  pose proof Sc as (S & O1 & O2 & _ & O3).
  destruct (C94_accepts _ toy_OPRF ex_srv ex_ops95 σ0 H tr g S) as [(u & O) _].
  destruct (C95_everyone_can_be_served _ G toy_OPRF ex_srv ex_ops95 σ0 H tr g u S O (str "localhost:8080") ex_clients95) as (tr' & g' & S' & F & Cs).
  exists σ0, tr, g, u, tr', g'. split; [exact H|]. split; [exact Sc|]. split; [exact S'|].
  split; [intros ->; congruence|]. split; [intros ->; congruence|]. split; [intros ->; congruence|]. split; [exact F|].
  assert (C1 : @client_program toy_OPRF ex_cargs ex_cfs (behind ex_srv (str "localhost:8080")) (fun i => N.of_nat (i + 5)) = mkClientResult 0 ex_text).
  { pose proof C44_example_client as X. cbv zeta in X. destruct (client_program ex_cargs _ _ _) as [a b]. cbn [x_status x_stdout] in X. destruct X as [-> ->]. reflexivity. }
  assert (C2 : @client_program toy_OPRF [str "-dump-config"] ex_cfs (behind ex_srv (str "localhost:8080")) (fun _ => 5%N) = mkClientResult 0 (Config_marshal ex_cfg))
    by (vm_compute; reflexivity).
  pose proof (C95_as_if_alone _ G toy_OPRF ex_srv ex_ops95 σ0 H _ g' S' (str "localhost:8080")) as A.
  unfold ex_clients95 in Cs. pose proof (Forall_inv Cs) as (t1 & s1 & E1 & W1 & V1). pose proof (Forall_inv (Forall_inv_tail Cs)) as (t2 & s2 & E2 & W2 & V2).
  rewrite (A _ _ _ _ _ E1 V1 W1) in C1. injection C1 as -> C1. rewrite (A _ _ _ _ _ E2 V2 W2) in C2. injection C2 as -> C2.
  constructor; [exists t1; exact (conj E1 (conj W1 (conj V1 C1)))|]. constructor; [exists t2; exact (conj E2 (conj W2 (conj V2 C2)))|constructor].
Qed.
