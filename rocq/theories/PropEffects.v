(** * Properties C65-C67: the programs step by step, with output that may fail
    and programs that may be stopped.

    [exec fs [] (client_proc args blinds) t (Some st)]: the client, started with
    [args] and the files [fs], can show the events [t] and exit with status
    [st]; with [None]: it can have shown [t] so far.  The vocabulary of events
    is in SpecEffects.v. *)
From Coq Require Import Lia.
From Verif Require Import Base BaseProofs Common Oprf OprfGroup Server Client KV Json ConfigJson Scanner Demo Flags Main
  SpecEntry SpecProtocol SpecDemo SpecHttp SpecMain FlagsProofs SpecDecode MainProofs Effects SpecEffects EffectProofs PropFinalize PropProtocol PropMain.

(** ** C65: failing output.

    When standard output works, a run ends and prints as Main.v says. *)
Theorem C65_working_output : forall (LIB : OPRF) (args : list bytes) (fs : files) (net : network) (blinds : nat -> Blind LIB) (t : list event) (st : N),
  exec fs [] (client_proc args blinds) t (Some st) -> answered_by net t -> output_works t ->
  client_program args fs net blinds = mkClientResult st (arrived t).
Proof. intros. eapply client_working; eassumption. Qed.
Print Assumptions C65_working_output.

Theorem C65_server_working : forall (LIB : OPRF) (gen : res (PrivateKey LIB)) (args : list bytes) (fs : files) (t : list event) (r : server_run LIB),
  exec fs [] (server_proc args gen) t (Some r) -> output_works t -> (forall addr, ~ In (EListen addr false) t) ->
  server_program args fs gen = match r with SExit st _ => SExit st (arrived t) | SServing addr s a b => SServing addr s a b end.
Proof. intros. erewrite server_working; [|eassumption..]. destruct r; reflexivity. Qed.
Print Assumptions C65_server_working.

(** There is a run with every network and every standard output: [dev j b] is
    what becomes of the [j]-th write. *)
Theorem C65_runs_exist : forall (LIB : OPRF) (args : list bytes) (fs : files) (net : network) (blinds : nat -> Blind LIB)
    (dev : nat -> bytes -> nat * bool), (forall j b, written b (fst (dev j b)) (snd (dev j b))) ->
  exists t st, exec fs [] (client_proc args blinds) t (Some st) /\ answered_by net t
    /\ forall j b n ok, nth_error (writes_of t) j = Some (b, n, ok) -> (n, ok) = dev j b.
Proof. intros. apply client_runs. assumption. Qed.
Print Assumptions C65_runs_exist.

Theorem C65_server_runs_exist : forall (LIB : OPRF) (gen : res (PrivateKey LIB)) (args : list bytes) (fs : files),
  exists t r, exec fs [] (server_proc args gen) t (Some r) /\ output_works t /\ (forall addr, ~ In (EListen addr false) t).
Proof. intros. apply server_runs. Qed.
Print Assumptions C65_server_runs_exist.

(** Whatever becomes of the writes: a client that is not dumping its
    configuration sends the same requests, tries to print the same lines, one
    write for each, and exits with the same status. *)
Theorem C65_output_does_not_matter : forall (LIB : OPRF) (args : list bytes) (fs : files) (net : network) (blinds : nat -> Blind LIB)
    (t t' : list event) (st st' : N),
  (forall o, client_flags args = FParsed o -> co_dump o = false) ->
  exec fs [] (client_proc args blinds) t (Some st) -> exec fs [] (client_proc args blinds) t' (Some st') ->
  answered_by net t -> answered_by net t' -> st = st' /\ same_but_output t t'.
Proof. intros. eapply client_same; eassumption. Qed.
Print Assumptions C65_output_does_not_matter.

Theorem C65_what_is_tried : forall (LIB : OPRF) (args : list bytes) (o : client_opts) (cfg : Config) (fs : files) (net : network)
    (blinds : nat -> Blind LIB) (t : list event) (st : N),
  client_flags args = FParsed o -> co_dump o = false -> client_config o fs net = Ok cfg ->
  exec fs [] (client_proc args blinds) t (Some st) -> answered_by net t ->
  (exists lines, prints t = map (fun l => l ++ [Byte.x0a]) lines /\ x_stdout (client_program args fs net blinds) = lines_of lines)
  /\ st = x_status (client_program args fs net blinds)
  /\ map fst (posted t) = client_posts o fs net cfg blinds.
Proof.
  intros LIB args o cfg fs net blinds t st F D C H A. destruct (client_traffic LIB blinds net _ _ _ _ _ _ _ F D C H A) as [P1 [lines P2]].
  destruct (client_attempts LIB blinds net _ _ _ _ _ H A) as [P3 P4]. split; [|split; [|exact P1]].
  - exists lines. split; [exact P2|]. rewrite <- P3, P2. symmetry. apply flat_map_concat_map.
  - apply P4. intros o' F'. rewrite F in F'. inversion F'; subst o'. rewrite D. discriminate.
Qed.
Print Assumptions C65_what_is_tried.

(** So exit status 0 does not mean that anything has arrived: on a full disk
    every line is lost and nobody is told. *)
Theorem C65_lost_output_is_silent_refuted : forall (LIB : OPRF) (args : list bytes) (fs : files) (net : network) (blinds : nat -> Blind LIB),
  (forall o, client_flags args = FParsed o -> co_dump o = false) -> x_status (client_program args fs net blinds) = 0%N ->
  exists t, exec fs [] (client_proc args blinds) t (Some 0%N) /\ answered_by net t /\ arrived t = []
    /\ concat (prints t) = x_stdout (client_program args fs net blinds).
Proof.
  intros LIB args fs net blinds D S0.
  destruct (client_runs LIB blinds net fs args (fun _ _ => (0%nat, false))) as (t & st & H & A & W).
  { intros j b. split; [cbn; lia|discriminate]. }
  destruct (client_attempts LIB blinds net _ _ _ _ _ H A) as [P1 P2]. exists t.
  assert (E : st = 0%N).
  { rewrite <- S0. apply P2. intros o F X. rewrite (D o F) in X. discriminate. }
  subst st. split; [exact H|]. split; [exact A|]. split; [|exact P1].
  assert (Z : forall b n ok, In (b, n, ok) (writes_of t) -> n = 0%nat).
  { intros b n ok I0. apply In_nth_error in I0 as [j I0]. apply W in I0. inversion I0. reflexivity. }
  clear -Z. induction t as [|e t IH]; [reflexivity|].
  assert (IH' : arrived t = []).
  { apply IH. intros b n ok I0. eapply (Z b n ok). unfold writes_of in *. cbn [flat_map]. apply in_or_app. right. exact I0. }
  destruct e; cbn [arrived flat_map app]; fold (arrived t); try exact IH'. rewrite IH', (Z b n ok); [reflexivity|]. left. reflexivity.
Qed.
Print Assumptions C65_lost_output_is_silent_refuted.

(** Dumping a configuration is different: status 0 means that all of it has
    arrived, and a failing write gives status 1. *)
Theorem C65_client_dump : forall (LIB : OPRF) (args : list bytes) (o : client_opts) (cfg : Config) (fs : files) (net : network)
    (blinds : nat -> Blind LIB) (t : list event) (st : N),
  client_flags args = FParsed o -> co_dump o = true -> client_config o fs net = Ok cfg ->
  exec fs [] (client_proc args blinds) t (Some st) -> answered_by net t ->
  prints t = [Config_marshal cfg] /\ posted t = []
  /\ (st = 0%N /\ output_works t /\ arrived t = Config_marshal cfg \/ st = 1%N /\ ~ output_works t).
Proof. intros. edestruct client_dump as (A & B & C); eauto. Qed.
Print Assumptions C65_client_dump.

Theorem C65_server_dump : forall (LIB : OPRF) (gen : res (PrivateKey LIB)) (args : list bytes) (o : server_opts) (cfg : ServerConfig LIB)
    (data : bytes) (fs : files) (t : list event) (r : server_run LIB),
  server_flags args = FParsed o -> so_dump o = true -> server_config o fs gen = Ok cfg -> ServerConfig_MarshalJSON cfg = Ok data ->
  exec fs [] (server_proc args gen) t (Some r) ->
  prints t = [data] /\ (r = SExit 0 [] /\ output_works t /\ arrived t = data \/ r = SExit 1 [] /\ ~ output_works t).
Proof. intros. eapply server_dump; eassumption. Qed.
Print Assumptions C65_server_dump.

(** The run of C44: all four lines are lost, the status is 0.  A dump to a
    device that takes 10 bytes: status 1. *)
Example C65_example :
  (exists t, exec ex_cfs [] (@client_proc toy_OPRF ex_cargs (fun i => N.of_nat (i + 5))) t (Some 0%N)
     /\ answered_by (behind ex_srv (str "localhost:8080")) t /\ arrived t = [] /\ concat (prints t) = ex_text)
  /\ exists t, exec ex_cfs [] (@client_proc toy_OPRF (map str ["-dump-config"]%string) (fun _ => 5%N)) t (Some 1%N)
     /\ length (arrived t) = 10%nat.
Proof.
  pose proof C44_example_client as [E1 E2]. split.
  - destruct (C65_lost_output_is_silent_refuted toy_OPRF ex_cargs ex_cfs (behind ex_srv (str "localhost:8080")) (fun i => N.of_nat (i + 5))) as (t & H & A & B & C).
    + intros o F. vm_compute in F. inversion F. reflexivity.
    + exact E1.
    + exists t. split; [exact H|]. split; [exact A|]. split; [exact B|]. rewrite C. exact E2.
  - eexists [EGet _ (Ok (200%N, Config_marshal ex_cfg)); EPrint (Config_marshal ex_cfg) 10 false; ELog (Error [])]. split.
    + unfold client_proc. set (f := client_flags _). vm_compute in f. subst f. unfold client_proc_body. cbn [co_config co_target].
      apply ex_get. cbn [bind negb]. set (c := if negb _ then _ else _). vm_compute in c. subst c. unfold client_with. cbn [co_dump].
      apply ex_print; [split; [vm_compute; repeat constructor|discriminate]|]. apply ex_log. apply ex_done.
    + vm_compute. reflexivity.
Qed.

(** ** C66: the client answers line by line.

    When the scanner is asked for a further line, every credential before it
    has been reported, in order; at any moment at most one credential has been
    taken and not been reported; no query is sent before its line was taken.
    This holds at every point at which the program may be stopped. *)
Theorem C66_answers_line_by_line : forall (LIB : OPRF) (args : list bytes) (o : client_opts) (cfg : Config) (fs : files) (net : network)
    (blinds : nat -> Blind LIB) (input : bytes) (t : list event) (r : option N),
  client_flags args = FParsed o -> co_dump o = false -> client_config o fs net = Ok cfg -> given fs (co_infile o) input ->
  exec fs [] (client_proc args blinds) t r -> answered_by net t ->
  (exists rest, scan_lines input = taken t ++ rest) /\ (r = Some 0%N -> taken t = scan_lines input)
  /\ (length (prints t) <= length (posted t))%nat /\ (length (posted t) <= length (with_colon (taken t)) <= length (prints t) + 1)%nat
  /\ forall before next after, t = before ++ next :: after -> (next = EEnd \/ exists l, next = ELine l) ->
       length (prints before) = length (with_colon (taken before)) /\
       forall j u p, nth_error (with_colon (taken before)) j = Some (u, p) ->
         exists answer line, Query cfg (n_post net) (co_target o ++ str "/evaluate") u p (blinds j) = Ok answer
           /\ nth_error (prints before) j = Some (line ++ [Byte.x0a]) /\ reports (co_show o) u p answer line.
Proof.
  intros LIB args o cfg fs net blinds input t r F D C G H A. apply input_given in G.
  destruct (client_order LIB o cfg blinds net _ _ _ _ _ F D C G H A) as (P1 & [[P2 P3] P4] & P5). split; [exact P1|].
  split; [intros ->; eapply client_zero; eassumption|].
  split; [exact P2|]. split; [split; [exact P3|lia]|]. intros before next after E X. destruct (P5 _ _ _ E X) as [Q1 Q2]. split; [exact Q1|].
  intros j u p Hj. destruct (Q2 j u p Hj) as ([st m] & K1 & K2). exists (st, m). eexists. split; [exact K1|]. split; [exact K2|].
  apply C45_line_is_a_report.
Qed.
Print Assumptions C66_answers_line_by_line.

(** A run can be stopped after every event. *)
Theorem C66_every_point : forall (F : Type) (fs : files) (p : proc F) (t : list event) (r : option F) (before : list event) (next : event) (after : list event),
  exec fs [] p t r -> t = before ++ next :: after -> exec fs [] p before None.
Proof. intros. eapply exec_prefix; eassumption. Qed.
Print Assumptions C66_every_point.

(** The hypotheses are met by the run of C44, and there the points exist. *)
Example C66_example : exists t, exec ex_cfs [] (@client_proc toy_OPRF ex_cargs (fun i => N.of_nat (i + 5))) t (Some 0%N)
  /\ answered_by (behind ex_srv (str "localhost:8080")) t /\ length (posted t) = 4%nat
  /\ length (taken t) = 5%nat.
Proof.
  destruct C65_example as [(t & H & A & B & C) _]. exists t. split; [exact H|]. split; [exact A|].
  set (net := behind ex_srv (str "localhost:8080")) in *.
  assert (F : client_flags ex_cargs = FParsed (mkClientOpts [] false true (str "q.txt") (str "http://localhost:8080"))) by (vm_compute; reflexivity).
  assert (Cf : client_config (mkClientOpts [] false true (str "q.txt") (str "http://localhost:8080")) ex_cfs net = Ok ex_cfg) by (vm_compute; reflexivity).
  assert (G : given ex_cfs (str "q.txt") ex_queries) by (right; split; [discriminate|reflexivity]).
  destruct (C66_answers_line_by_line toy_OPRF ex_cargs _ _ ex_cfs net _ ex_queries t (Some 0%N) F eq_refl Cf G H A) as (_ & T & _).
  rewrite (T eq_refl). split; [|vm_compute; reflexivity].
  destruct (C65_what_is_tried toy_OPRF ex_cargs _ _ ex_cfs net _ t 0%N F eq_refl Cf H A) as [_ [_ P]].
  rewrite <- (map_length fst), P. vm_compute. reflexivity.
Qed.

(** ** C67: the log of the server.

    A server that has come to serve has logged: a line with two zeros; after
    each line that was stored, the number of lines stored and the number of
    lines refused before it; and that it starts. *)
Theorem C67_log : forall (LIB : OPRF) (gen : res (PrivateKey LIB)) (args : list bytes) (o : server_opts) (cfg : ServerConfig LIB)
    (s srv : server LIB) (fs : files) (input : bytes) (t : list event) (addr : bytes) (a b : N),
  server_flags args = FParsed o -> so_dump o = false -> server_config o fs gen = Ok cfg -> newServer cfg = Ok s -> given fs (so_infile o) input ->
  exec fs [] (server_proc args gen) t (Some (SServing addr srv a b)) ->
  let results := line_results (scan_lines input)
    (outcomes (migpServer s) newKVStore (breach_ops (so_metadata o) (so_num o) (so_username o) (with_colon (scan_lines input)))) in
  length results = length (scan_lines input) /\ a = count true results /\ b = count false results
  /\ exists first ms, messages t = Text first :: ms ++ [Text (Byte.x0a :: str "Starting MIGP server")]
     /\ says 0 0 first /\ Forall2 (fun c m => exists line, m = Text (Byte.x0d :: line) /\ says (fst c) (snd c) line) (progress results) ms.
Proof.
  intros LIB gen args o cfg s srv fs input t addr a b F D C N G H. apply input_given in G.
  destruct (server_log LIB gen _ _ _ _ _ _ F D C N G _ _ _ _ _ H) as (P1 & P2 & P3 & P4).
  assert (K : kv s = newKVStore).
  { unfold newServer in N. apply bind_ok in N as (x & _ & N). apply Ok_inj in N. subst s. reflexivity. }
  unfold results_of in *. rewrite K in *. cbv zeta. split; [exact P4|]. split; [exact P2|]. split; [exact P3|].
  do 2 eexists. split; [rewrite P1; unfold full_log, results_of; rewrite K; reflexivity|]. split; [apply counts_says|apply log_says].
Qed.
Print Assumptions C67_log.

(** So the log shows nothing but which lines were stored: two servers, with any
    keys, configurations, metadata and inputs, that store the same lines log
    the same. *)
Theorem C67_log_shows_only_which_lines_were_stored : forall (LIB LIB' : OPRF) (gen : res (PrivateKey LIB)) (gen' : res (PrivateKey LIB'))
    (args args' : list bytes) (o o' : server_opts) (cfg : ServerConfig LIB) (cfg' : ServerConfig LIB') (s srv : server LIB) (s' srv' : server LIB')
    (fs fs' : files) (input input' : bytes) (t t' : list event) (addr addr' : bytes) (a b a' b' : N),
  server_flags args = FParsed o -> so_dump o = false -> server_config o fs gen = Ok cfg -> newServer cfg = Ok s -> given fs (so_infile o) input ->
  exec fs [] (server_proc args gen) t (Some (SServing addr srv a b)) ->
  server_flags args' = FParsed o' -> so_dump o' = false -> server_config o' fs' gen' = Ok cfg' -> newServer cfg' = Ok s' -> given fs' (so_infile o') input' ->
  exec fs' [] (server_proc args' gen') t' (Some (SServing addr' srv' a' b')) ->
  line_results (scan_lines input)
    (outcomes (migpServer s) newKVStore (breach_ops (so_metadata o) (so_num o) (so_username o) (with_colon (scan_lines input))))
  = line_results (scan_lines input')
    (outcomes (migpServer s') newKVStore (breach_ops (so_metadata o') (so_num o') (so_username o') (with_colon (scan_lines input')))) ->
  messages t = messages t'.
Proof.
  intros. repeat match goal with H : given _ _ _ |- _ => apply input_given in H end.
  assert (K : forall L (c : ServerConfig L) x, newServer c = Ok x -> kv x = newKVStore).
  { clear. intros L c x N. unfold newServer in N. apply bind_ok in N as (y & _ & N). apply Ok_inj in N. subst x. reflexivity. }
  match goal with A : exec fs _ _ _ _, B : exec fs' _ _ _ _ |- _ =>
    eapply server_log in A; [|eassumption..]; eapply server_log in B; [|eassumption..]; destruct A as [-> _]; destruct B as [-> _] end.
  unfold full_log, results_of. rewrite (K LIB cfg s), (K LIB' cfg' s') by assumption.
  match goal with R : line_results _ _ = line_results _ _ |- _ => rewrite R end. reflexivity.
Qed.
Print Assumptions C67_log_shows_only_which_lines_were_stored.

(** At every point: the log is a beginning of that log (or the whole and the
    error of listening), nothing is printed, the lines are taken in order, and
    the server listens only when it has taken all lines and logged all of it. *)
Theorem C67_at_every_point : forall (LIB : OPRF) (gen : res (PrivateKey LIB)) (args : list bytes) (o : server_opts) (cfg : ServerConfig LIB)
    (s : server LIB) (fs : files) (input : bytes), 
  server_flags args = FParsed o -> so_dump o = false -> server_config o fs gen = Ok cfg -> newServer cfg = Ok s -> given fs (so_infile o) input ->
  exists log, forall (t : list event) (r : option (server_run LIB)), exec fs [] (server_proc args gen) t r ->
  prints t = [] /\ (exists rest, scan_lines input = taken t ++ rest)
  /\ ((exists later, log = messages t ++ later) \/ messages t = log ++ [Error []])
  /\ (forall addr ok before after, t = before ++ EListen addr ok :: after ->
        addr = so_listen o /\ taken before = scan_lines input /\ messages before = log)
  /\ (forall addr srv a b, r = Some (SServing addr srv a b) -> messages t = log).
Proof.
  intros LIB gen args o cfg s fs input F D C N G. apply input_given in G. eexists. intros t r H.
  destruct (server_at_any_point LIB gen _ _ _ _ _ _ F D C N G _ _ H) as (P1 & P2 & P3 & P4).
  split; [exact P1|]. split; [exact P2|]. split; [exact P3|]. split; [exact P4|]. intros addr srv a b ->.
  exact (proj1 (server_log LIB gen _ _ _ _ _ _ F D C N G _ _ _ _ _ H)).
Qed.
Print Assumptions C67_at_every_point.

(** The count of failures in the log can be stale: when the last line was
    refused, every count of failures in the log is too small. *)
Theorem C67_last_failures_are_not_logged_refuted : forall (LIB : OPRF) (gen : res (PrivateKey LIB)) (args : list bytes) (o : server_opts)
    (cfg : ServerConfig LIB) (s srv : server LIB) (fs : files) (input : bytes) (t : list event) (addr : bytes) (a b : N) (results : list bool),
  server_flags args = FParsed o -> so_dump o = false -> server_config o fs gen = Ok cfg -> newServer cfg = Ok s -> given fs (so_infile o) input ->
  exec fs [] (server_proc args gen) t (Some (SServing addr srv a b)) ->
  line_results (scan_lines input)
    (outcomes (migpServer s) newKVStore (breach_ops (so_metadata o) (so_num o) (so_username o) (with_colon (scan_lines input)))) = results ++ [false] ->
  forall m, In m (messages t) -> m = Text (Byte.x0a :: str "Starting MIGP server")
    \/ exists ok bad line, (m = Text line \/ m = Text (Byte.x0d :: line)) /\ says ok bad line /\ (bad < b)%N.
Proof.
  intros LIB gen args o cfg s srv fs input t addr a b results F D C N G H R m Hm.
  destruct (C67_log LIB gen _ _ _ _ _ _ _ _ _ _ _ F D C N G H) as (_ & _ & Hb & first & ms & E & S0 & A). rewrite R in Hb, A.
  rewrite E in Hm. destruct Hm as [<-|Hm].
  - right. exists 0%N, 0%N, first. split; [auto|]. split; [exact S0|]. subst b. rewrite count_app. change (count false [false]) with 1%N. lia.
  - apply in_app_or in Hm as [Hm|[<-|[]]]; [|auto]. right. clear -A Hm Hb.
    assert (P : forall c, In c (progress (results ++ [false])) -> (snd c < b)%N) by (intros c Hc; subst b; apply progress_behind, Hc). clear Hb. revert P.
    induction A as [|c m' l l' Hc A IH]; intros P; [contradiction|]. destruct Hm as [<-|Hm].
    + destruct Hc as (line & -> & S0). exists (fst c), (snd c), line. split; [auto|]. split; [exact S0|]. apply P. left. reflexivity.
    + apply IH; [exact Hm|]. intros c' Hc'. apply P. right. exact Hc'.
Qed.
Print Assumptions C67_last_failures_are_not_logged_refuted.

(** The server of C44 with one more line that is refused: it logs 0/0, 1/0 and
    2/1 and serves with 2 stored and 2 refused lines. *)
Definition ex_sfs67 : files := mkFiles (f_open ex_sfs) (ex_breach ++ [Byte.x0a] ++ str "bad").
Definition ex_o67 : server_opts := mkServerOpts (str "c.json") (str "localhost:8080") false (str "-") (str "leak") 1 false.
Definition ex_conf67 : res (ServerConfig toy_OPRF) := server_config ex_o67 ex_sfs67 (Err "unused").
Definition ex_new67 : res (server toy_OPRF) := match ex_conf67 with Ok c => newServer c | Err e => Err e | Panic m => Panic m end.
Definition ex_srv67 : server toy_OPRF := match ex_new67 with Ok s => s | _ => mkDemoServer ex_server [] end.
Example C67_example : exists t srv,
  exec ex_sfs67 [] (@server_proc toy_OPRF ex_sargs (Err "unused")) t (Some (SServing (str "localhost:8080") srv 2 2))
  /\ messages t = map Text [str "Encrypting breach entries: 0 successes, 0 failures";
       Byte.x0d :: str "Encrypting breach entries: 1 successes, 0 failures";
       Byte.x0d :: str "Encrypting breach entries: 2 successes, 1 failures"; Byte.x0a :: str "Starting MIGP server"]
  /\ line_results (scan_lines (f_stdin ex_sfs67)) [Ok tt; Ok tt] = [true; false; true] ++ [false].
Proof.
  destruct (C65_server_runs_exist toy_OPRF (Err "unused") ex_sargs ex_sfs67) as (t & r & H & O & L).
  pose proof (C65_server_working _ _ _ _ _ _ H O L) as W.
  assert (R : match @server_program toy_OPRF ex_sargs ex_sfs67 (Err "unused") with
              | SServing addr s a b => addr = str "localhost:8080" /\ a = 2%N /\ b = 2%N | SExit _ _ => False end) by (vm_compute; repeat split).
  rewrite W in R. destruct r as [st out|addr srv a b]; [contradiction|]. destruct R as (-> & -> & ->). exists t, srv. split; [exact H|].
  split; [|vm_compute; reflexivity].
  assert (F : server_flags ex_sargs = FParsed ex_o67) by (vm_compute; reflexivity).
  assert (K : is_ok ex_new67 = true) by (vm_compute; reflexivity).
  assert (G : exists cfg, server_config ex_o67 ex_sfs67 (Err "unused") = Ok cfg /\ newServer cfg = Ok ex_srv67).
  { unfold ex_srv67. unfold ex_new67 in *. fold ex_conf67. destruct ex_conf67 as [cfg|e|m]; [|discriminate..].
    exists cfg. split; [reflexivity|]. destruct (newServer cfg) as [s|e|m]; [reflexivity|discriminate..]. }
  destruct G as (cfg & C & N).
  rewrite (proj1 (server_log toy_OPRF (Err "unused") ex_sfs67 ex_sargs ex_o67 cfg ex_srv67 (f_stdin ex_sfs67) F eq_refl C N eq_refl _ _ _ _ _ H)).
  vm_compute. reflexivity.
Qed.
