(** * Property C70: breach files of lines that are not too long are stored and
    served whole, and the README's quick start does what it says
    (README.md:17-34, cmd/server/main.go, cmd/client/main.go, testdata).

    [full_evaluate] of the OPRF library fails only for keys that cannot be
    inverted with the tweak: it is assumed not to. *)
From Verif Require Import Base BaseProofs Common Oprf OprfGroup Server Client KV Mutator Json ConfigJson Scanner Demo Flags Url Main
  SpecEntry SpecProtocol SpecDemo SpecHttp SpecMain SpecQuick ProtocolProofs DemoProofs IngestProofs FlagsProofs MainProofs QuickProofs PropFinalize PropProtocol PropDemo PropMain.

(** Every line with a colon is counted as a success, every other line as a
    failure, and the server starts to listen. *)
Theorem C70_every_line_is_stored : forall (LIB : OPRF), OPRF_laws LIB ->
  forall (args : list bytes) (fs : files) (gen : res (PrivateKey LIB)) (so : server_opts) (cfg : ServerConfig LIB) (s : Server LIB)
    (ls : list bytes) (last : bytes),
  server_flags args = FParsed so -> so_dump so = false -> server_config so fs gen = Ok cfg -> NewServer cfg = Ok s ->
  given fs (so_infile so) (text ls last) -> Forall no_lf ls -> no_lf last ->
  Forall (fun l => (blen l <= 49153)%Z) (all_lines ls last) ->
  (0 <= cfg_bits (sc_config cfg) <= 32)%Z ->
  (forall x, exists k, full_evaluate LIB (cfg_oprfSuite (sc_config cfg)) (sc_privateKey cfg) x (str "MIGP oprf info") = Ok k) ->
  (blen (so_metadata so) <= 8160)%Z -> (0 <= so_num so)%Z -> (so_num so * 24 <= 2 ^ 48)%Z ->
  exists srv,
    server_program args fs gen = SServing (so_listen so) srv
      (N.of_nat (length (filter (existsb (beqb Byte.x3a)) (all_lines ls last))))
      (N.of_nat (length (filter (fun l => negb (existsb (beqb Byte.x3a) l)) (all_lines ls last)))).
Proof. exact lines_stored. Qed.
Print Assumptions C70_every_line_is_stored.

(** A breach file served by the server program and queried by the client
    program: as C44, with hypotheses on the inputs only. *)
Theorem C70_any_files : forall (LIB : OPRF), OPRF_laws LIB ->
  forall (args : list bytes) (fs : files) (gen : res (PrivateKey LIB)) (so : server_opts) (cfg : ServerConfig LIB) (s : Server LIB)
    (ls : list bytes) (last : bytes),
  server_flags args = FParsed so -> so_dump so = false -> server_config so fs gen = Ok cfg -> NewServer cfg = Ok s ->
  given fs (so_infile so) (text ls last) -> Forall no_lf ls -> no_lf last ->
  Forall (fun l => (blen l <= 49153)%Z) (all_lines ls last) -> (Z.of_nat (length ls) < 2 ^ 40)%Z ->
  (0 <= cfg_bits (sc_config cfg) <= 32)%Z ->
  (forall x, exists k, full_evaluate LIB (cfg_oprfSuite (sc_config cfg)) (sc_privateKey cfg) x (str "MIGP oprf info") = Ok k) ->
  (blen (so_metadata so) <= 8160)%Z -> (0 <= so_num so <= 98)%Z ->
  client_suite LIB 3 = Ok tt -> cfg_oprfSuite (sc_config cfg) = 3%N ->
  let db := breach_db (so_metadata so) (so_num so) (so_username so) (with_colon (scan_lines (text ls last))) in
  exists srv ok bad,
    server_program args fs gen = SServing (so_listen so) srv ok bad /\ migpServer srv = s /\
    forall (cargs : list bytes) (cfs : files) (co : client_opts) (host : bytes) (qs : list bytes) (qlast : bytes) (blinds : nat -> Blind LIB),
    client_flags cargs = FParsed co -> plain_host host -> co_target co = str "http://" ++ host -> co_config co = [] -> co_dump co = false ->
    given cfs (co_infile co) (text qs qlast) -> Forall no_lf qs -> no_lf qlast -> Forall (fun l => (blen l < 65536)%Z) (all_lines qs qlast) ->
    let asked := with_colon (scan_lines (text qs qlast)) in
    (forall u p, In (u, p) asked -> no_collision s db u p) ->
    exists lines,
      client_program cargs cfs (behind srv host) blinds = mkClientResult 0 (lines_of lines) /\
      Forall2 (fun c line => reports (co_show co) (fst c) (snd c) (expected db (fst c) (snd c)) line) asked lines.
Proof. exact files_answered. Qed.
Print Assumptions C70_any_files.

(** README.md:17-34: whatever the key and the blinds. *)
Theorem C70_quick_start : forall (LIB : OPRF), OPRF_laws LIB ->
  forall (key : PrivateKey LIB), server_suite LIB 3 key = Ok tt -> client_suite LIB 3 = Ok tt ->
  (forall x, exists k, full_evaluate LIB 3 key x (str "MIGP oprf info") = Ok k) ->
  forall sfs cfs : files, f_stdin sfs = test_breach -> f_stdin cfs = test_queries ->
  exists srv, server_program [] sfs (Ok key) = SServing (str "localhost:8080") srv 10 0 /\
  forall blinds : nat -> Blind LIB,
  (forall u p, In (u, p) queried -> no_collision (migpServer srv) (breach_db [] 9 true breached) u p) ->
  client_program [] cfs (behind srv (str "localhost:8080")) blinds = mkClientResult 0 quick_start_output.
Proof. exact quick_start. Qed.
Print Assumptions C70_quick_start.

(** The hypotheses are met on the toy OPRF; that the four queries collide with
    none of the 11 pairs stored for the line they ask for is checked here for
    the key derivation without the slow hash (scrypt is too slow to run in Coq). *)
Example C70_example : OPRF_laws toy_OPRF /\ server_suite toy_OPRF 3 (toy_key 3) = Ok tt /\ client_suite toy_OPRF 3 = Ok tt
  /\ (forall x, exists k, full_evaluate toy_OPRF 3 (toy_key 3) x (str "MIGP oprf info") = Ok k)
  /\ length (breach_db [] 9 true breached) = 110%nat.
Proof. split; [exact toy_OPRF_laws|]. split; [reflexivity|]. split; [reflexivity|]. split; [exact toy_full_ok|vm_compute; reflexivity]. Qed.
Example C70_example_no_collision : forall u p, In (u, p) queried ->
  no_collision ex_server (breach_db [] 9 true [(str "username1@example.com", str "password1")]) u p.
Proof.
  destruct (distinct (map (check_of ex_server)
    (map (fun d => (d_user d, d_pass d)) (breach_db [] 9 true [(str "username1@example.com", str "password1")])
     ++ [(str "notexposed@example.com", str "1234")]))) eqn:D; [|exfalso; revert D; vm_compute; discriminate].
  intros u p I. apply (distinct_checks _ _ _ _ _ D).
  - intros d J. apply in_or_app. left. exact (in_map (fun d => (d_user d, d_pass d)) _ _ J).
  - revert I. apply (incl_app (l := firstn 3 queried) (m := skipn 3 queried)).
    + apply incl_appl. vm_compute. intros c I. repeat (destruct I as [<-|I]; [tauto|]). contradiction.
    + apply incl_appr. vm_compute. intros c I. tauto.
Qed.
(** With that configuration, read from a file, the whole of C70_any_files. *)
Example C70_example_any_files :
  server_flags ex_sargs = FParsed (mkServerOpts (str "c.json") (str "localhost:8080") false (str "-") (str "leak") 1 false)
  /\ match @server_config toy_OPRF (mkServerOpts (str "c.json") (str "localhost:8080") false (str "-") (str "leak") 1 false) ex_sfs (Err "unused") with
     | Ok c => sc_config c = ex_cfg
     | _ => False
     end
  /\ ex_breach = text [str "alice:hello" ++ [Byte.x0d]; str "no colon"] (str "bob:x:y")
  /\ ex_run = SServing (str "localhost:8080") ex_srv 2 1.
Proof.
  split; [exact (proj1 C44_example_hypotheses)|]. 
  split; [vm_compute; reflexivity|]. 
  split; [vm_compute; reflexivity|].
  destruct C44_example_server as [_ H]. exact H.
Qed.
