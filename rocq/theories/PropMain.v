(** * Properties C44-C49: the two programs, from command line to output
    (cmd/server/main.go, cmd/client/main.go).

    [server_program args fs gen] is what the server does with the arguments,
    the files [fs] and a generated key [gen]; [client_program args fs net
    blinds] is what the client does, talking to the network [net]; [behind srv
    host] is the network on which [srv] listens at [host]. *)
From Verif Require Import Base BaseProofs Common Oprf OprfGroup Server Client KV Mutator Json ConfigJson Scanner Demo Flags Main
  SpecEntry SpecProtocol SpecDemo SpecHttp SpecMain ProtocolProofs DemoProofs Utf8Proofs FlagsProofs MainProofs PropFinalize PropProtocol.

(** ** C44: a breach file served by the server program and queried by the
    client program: one line per credential, with the expected answer. *)
Theorem C44_end_to_end : forall (LIB : OPRF), OPRF_laws LIB ->
  forall (sargs : list bytes) (sfs : files) (gen : res (PrivateKey LIB)) (addr : bytes) (srv : server LIB) (ok bad : N)
    (so : server_opts) (breach : bytes),
  server_program sargs sfs gen = SServing addr srv ok bad ->
  server_flags sargs = FParsed so -> given sfs (so_infile so) breach ->
  ok = N.of_nat (length (with_colon (scan_lines breach))) ->
  let cfg := sc_config (Server_Config (migpServer srv)) in
  let db := breach_db (so_metadata so) (so_num so) (so_username so) (with_colon (scan_lines breach)) in
  client_suite LIB 3 = Ok tt -> cfg_oprfSuite cfg = 3%N -> (0 <= cfg_bits cfg <= 32)%Z -> kv_holdable (kv srv) ->
  forall (cargs : list bytes) (cfs : files) (co : client_opts) (host queries : bytes) (blinds : nat -> Blind LIB),
  client_flags cargs = FParsed co -> plain_host host -> co_target co = str "http://" ++ host -> co_config co = [] -> co_dump co = false -> given cfs (co_infile co) queries ->
  (forall u p, In (u, p) (with_colon (scan_lines queries)) ->
     (exists k, deriveBucketEntryKey (migpServer srv) u p = Ok k) /\ no_collision (migpServer srv) db u p) ->
  exists lines,
    client_program cargs cfs (behind srv host) blinds = mkClientResult 0 (lines_of lines) /\
    Forall2 (fun c line => reports (co_show co) (fst c) (snd c) (expected db (fst c) (snd c)) line)
            (with_colon (scan_lines queries)) lines.
Proof. by_input end_to_end. Qed.
Print Assumptions C44_end_to_end.

(** Also when some lines of the breach file were refused (the server counts
    them and goes on): the answers are those of the credentials stored, of each
    line those before the first that could not be encrypted. *)
Theorem C44_end_to_end_with_refused_lines : forall (LIB : OPRF), OPRF_laws LIB ->
  forall (sargs : list bytes) (sfs : files) (gen : res (PrivateKey LIB)) (addr : bytes) (srv : server LIB) (ok bad : N)
    (so : server_opts) (breach : bytes),
  server_program sargs sfs gen = SServing addr srv ok bad ->
  server_flags sargs = FParsed so -> given sfs (so_infile so) breach ->
  let cfg := sc_config (Server_Config (migpServer srv)) in
  let ops := breach_ops (so_metadata so) (so_num so) (so_username so) (with_colon (scan_lines breach)) in
  let db := stored_by (migpServer srv) ops in
  client_suite LIB 3 = Ok tt -> cfg_oprfSuite cfg = 3%N -> (0 <= cfg_bits cfg <= 32)%Z -> kv_holdable (kv srv) ->
  forall (cargs : list bytes) (cfs : files) (co : client_opts) (host queries : bytes) (blinds : nat -> Blind LIB),
  client_flags cargs = FParsed co -> plain_host host -> co_target co = str "http://" ++ host -> co_config co = [] -> co_dump co = false -> given cfs (co_infile co) queries ->
  (forall u p, In (u, p) (with_colon (scan_lines queries)) ->
     (exists k, deriveBucketEntryKey (migpServer srv) u p = Ok k) /\ no_collision (migpServer srv) (tried ops) u p) ->
  exists lines,
    client_program cargs cfs (behind srv host) blinds = mkClientResult 0 (lines_of lines) /\
    Forall2 (fun c line => reports (co_show co) (fst c) (snd c) (expected db (fst c) (snd c)) line)
            (with_colon (scan_lines queries)) lines.
Proof. by_input end_to_end_any. Qed.
Print Assumptions C44_end_to_end_with_refused_lines.

(** A run of the two programs on the toy OPRF that meets the hypotheses. *)
Definition ex_conf : bytes :=
  match @ServerConfig_MarshalJSON toy_OPRF {| sc_config := ex_cfg; sc_privateKey := toy_key 3 |} with Ok d => d | _ => [] end.
Definition ex_sargs : list bytes := map str ["-config=c.json"; "--num-variants"; "1"; "-metadata=leak"; "-username-variant=f"]%string.
Definition ex_breach : bytes := str "alice:hello" ++ [Byte.x0d; Byte.x0a] ++ str "no colon" ++ [Byte.x0a] ++ str "bob:x:y".
Definition ex_sfs : files := mkFiles (fun n => if bytes_eqb n (str "c.json") then Some ex_conf else None) ex_breach.
Definition ex_run : server_run toy_OPRF := @server_program toy_OPRF ex_sargs ex_sfs (Err "unused").
Definition ex_srv : server toy_OPRF :=
  match ex_run with SServing _ s _ _ => s | _ => mkDemoServer ex_server [] end.
Definition ex_queries : bytes := str "alice:hello" ++ [Byte.x0a] ++ str "alice:Hello" ++ [Byte.x0a; Byte.x0a] ++ str "carol:""" ++ [Byte.x0a] ++ str "bob:x:y" ++ [Byte.x0a].
Definition ex_cargs : list bytes := map str ["-show-password"; "-infile"; "q.txt"]%string.
Definition ex_cfs : files := mkFiles (fun n => if bytes_eqb n (str "q.txt") then Some ex_queries else None) [].
Definition ex_db44 : list cred := breach_db (str "leak") 1 false (with_colon (scan_lines ex_breach)).
Definition ex_text : bytes := lines_of (map str
  ["{""username"":""alice"",""password"":""hello"",""status"":""password in breach"",""metadata"":""leak""}";
   "{""username"":""alice"",""password"":""Hello"",""status"":""similar password in breach"",""metadata"":""leak""}";
   "{""username"":""carol"",""password"":""\"""",""status"":""password not in breach""}";
   "{""username"":""bob"",""password"":""x:y"",""status"":""password in breach"",""metadata"":""leak""}"]%string).

Example C44_example_server :
  match ex_run with
  | SServing addr s ok bad => addr = str "localhost:8080" /\ ok = 2%N /\ bad = 1%N
      /\ cfg_oprfSuite (sc_config (Server_Config (migpServer s))) = 3%N /\ cfg_bits (sc_config (Server_Config (migpServer s))) = 20%Z
  | SExit _ _ => False
  end
  /\ ex_run = SServing (str "localhost:8080") ex_srv 2 1.
Proof.
  assert (A : match ex_run with
    | SServing addr s ok bad => addr = str "localhost:8080" /\ ok = 2%N /\ bad = 1%N
      /\ cfg_oprfSuite (sc_config (Server_Config (migpServer s))) = 3%N /\ cfg_bits (sc_config (Server_Config (migpServer s))) = 20%Z
    | SExit _ _ => False end) by (vm_compute; repeat split).
  split; [exact A|]. unfold ex_srv. destruct ex_run as [|addr s ok bad]; [contradiction|].
  destruct A as (-> & -> & -> & _). reflexivity.
Qed.
Example C44_example_client :
  let r := @client_program toy_OPRF ex_cargs ex_cfs (behind ex_srv (str "localhost:8080")) (fun i => N.of_nat (i + 5)) in
  x_status r = 0%N /\ x_stdout r = ex_text.
Proof. vm_compute. split; reflexivity. Qed.
Lemma small_store_holdable (kv : kvStore) : forallb (fun x => (blen (sl (snd x)) <=? 1000)%Z) kv = true -> kv_holdable kv.
Proof.
  intros H id. induction kv as [|[k v] kv IH]; cbn [kv_lookup]; [unfold holdable; cbn; lia|].
  cbn [forallb fst snd] in H. apply andb_true_iff in H as [H1 H2].
  destruct (bytes_eqb k id); [apply Z.leb_le in H1; unfold holdable; lia|apply IH, H2].
Qed.
Example C44_example_hypotheses :
  server_flags ex_sargs = FParsed (mkServerOpts (str "c.json") (str "localhost:8080") false (str "-") (str "leak") 1 false)
  /\ client_flags ex_cargs = FParsed (mkClientOpts [] false true (str "q.txt") (str "http://localhost:8080"))
  /\ kv_holdable (kv ex_srv) /\ client_suite toy_OPRF 3 = Ok tt
  /\ forall u p, In (u, p) (with_colon (scan_lines ex_queries)) ->
     (exists k, deriveBucketEntryKey (migpServer ex_srv) u p = Ok k) /\ no_collision (migpServer ex_srv) ex_db44 u p.
Proof.
  split; [reflexivity|]. split; [reflexivity|]. split; [apply small_store_holdable; vm_compute; reflexivity|]. split; [reflexivity|].
  assert (W : with_colon (scan_lines ex_queries) = [(str "alice", str "hello"); (str "alice", str "Hello"); (str "carol", str """"); (str "bob", str "x:y")])
    by (vm_compute; reflexivity).
  rewrite W. intros u p I. cbn [In] in I.
  repeat (destruct I as [I|I]; [apply pair_inj in I as [<- <-]; split; [|apply no_collisionb_ok; vm_compute; reflexivity];
    match goal with |- exists k, ?d = Ok k => assert (K : match d with Ok _ => True | _ => False end) by (vm_compute; exact Logic.I); destruct d as [k|e|e]; [exists k; reflexivity|contradiction..] end|]).
  contradiction.
Qed.

(** ** C45: every line of the client's output is one JSON document that says
    exactly the username, the status, the metadata and, if asked for, the
    password. *)
Theorem C45_line_is_a_report : forall (show : bool) (u p : bytes) (st : BreachStatus) (m : gslice),
  reports show u p (st, m) (client_output u (if show then p else []) st m).
Proof. exact output_reports. Qed.
Print Assumptions C45_line_is_a_report.

(** What is written is what was read, when it is UTF-8. *)
Theorem C45_utf8_is_verbatim : forall s t : bytes, utf8 s -> (readable s t <-> t = s).
Proof. exact (fun s t U => conj (fun R => readable_fun s t s R (utf8_readable s U)) (fun E => eq_ind_r (readable s) (utf8_readable s U) E)). Qed.
Print Assumptions C45_utf8_is_verbatim.

Theorem C45_lines_tell_apart : forall (show : bool) (u p u' p' : bytes) (st st' : BreachStatus) (m m' : gslice),
  client_output u (if show then p else []) st m = client_output u' (if show then p' else []) st' m' ->
  utf8 u -> utf8 u' -> utf8 (sl m) -> utf8 (sl m') -> (show = true -> utf8 p /\ utf8 p') ->
  u = u' /\ st = st' /\ sl m = sl m' /\ (show = true -> p = p').
Proof. exact (fun show u p u' p' st st' m m' => output_inj show u p st m u' p' st' m'). Qed.
Print Assumptions C45_lines_tell_apart.

(** Not so for other byte strings: two usernames, one line. *)
Theorem C45_invalid_names_collide_refuted : exists u u' : bytes, u <> u' /\ forall st m, client_output u [] st m = client_output u' [] st m.
Proof. exists [Byte.xff], [Byte.xfe]. split; [discriminate|exact invalid_names_collide]. Qed.
Print Assumptions C45_invalid_names_collide_refuted.

Example C45_example :
  let u := [Byte.xc3; Byte.xa9; Byte.x0a; Byte.x22; Byte.x3c] (* e acute, LF, quote, less-than *) in
  utf8 u /\ client_output u [] InBreach None = str "{""username"":""" ++ [Byte.xc3; Byte.xa9] ++ str "\n\""\u003c"",""status"":""password in breach""}".
Proof.
  split; [|vm_compute; reflexivity]. exists [233; 10; 34; 60]%N. split; [|vm_compute; reflexivity].
  repeat constructor; left; lia.
Qed.

(** ** C46: -dump-config writes a file that -config reads back. *)
Theorem C46_server_dump_is_a_configuration : forall (LIB : OPRF), OPRF_laws LIB ->
  forall (args : list bytes) (o : server_opts) (fs : files) (gen : res (PrivateKey LIB)) (cfg : ServerConfig LIB) (s : Server LIB),
  server_flags args = FParsed o -> so_dump o = true -> server_config o fs gen = Ok cfg -> NewServer cfg = Ok s ->
  exists data, server_program args fs gen = SExit 0 data /\
  (forall o' fs' (gen' : res (PrivateKey LIB)) ws, so_config o' <> [] -> json_space ws -> f_open fs' (so_config o') = Some (data ++ ws) ->
    server_config o' fs' gen' = Ok cfg) /\
  (forall o' fs' net ws, co_config o' <> [] -> json_space ws -> f_open fs' (co_config o') = Some (data ++ ws) ->
    client_config o' fs' net = Ok (sc_config cfg)).
Proof. exact program_dumps. Qed.
Print Assumptions C46_server_dump_is_a_configuration.

Theorem C46_client_dump_is_a_configuration : forall (LIB : OPRF) (args : list bytes) (o : client_opts) (fs : files) (net : network)
    (blinds : nat -> Blind LIB) (cfg : Config),
  client_flags args = FParsed o -> co_dump o = true -> client_config o fs net = Ok cfg ->
  exists data, client_program args fs net blinds = mkClientResult 0 data /\
  forall o' fs' net' ws, co_config o' <> [] -> json_space ws -> f_open fs' (co_config o') = Some (data ++ ws) ->
    client_config o' fs' net' = Ok cfg.
Proof. exact client_program_dumps. Qed.
Print Assumptions C46_client_dump_is_a_configuration.

(** A client without -config gets the configuration of the server it talks to. *)
Theorem C46_client_fetches_the_configuration : forall (LIB : OPRF) (srv : server LIB) (o : client_opts) (fs : files) (host : bytes),
  plain_host host -> co_target o = str "http://" ++ host -> wf_config 64 (sc_config (Server_Config (migpServer srv))) -> co_config o = [] ->
  client_config o fs (behind srv host) = Ok (sc_config (Server_Config (migpServer srv))).
Proof. exact fetched_config. Qed.
Print Assumptions C46_client_fetches_the_configuration.

Example C46_example :
  match @server_program toy_OPRF (map str ["-dump-config"; "-config"; "c.json"]%string) ex_sfs (Err "unused") with
  | SExit 0 d => d = ex_conf
  | _ => False
  end
  /\ x_stdout (@client_program toy_OPRF (map str ["-dump-config"]%string) ex_cfs (behind ex_srv (str "localhost:8080")) (fun _ => 5%N))
     = str "{""version"":1,""bucketIDBitSize"":20,""bucketHasher"":1,""slowHasher"":0,""bucketEncryptor"":1,""oprfSuite"":3}".
Proof. split; vm_compute; reflexivity. Qed.

(** ** C47: the command line.  Options can be written in any order and in the
    forms of [writes]; the last setting counts; the rest are the defaults. *)
Theorem C47_server_options : forall (args : list bytes) (asg : list (string * bytes)) (rest : list bytes),
  writes server_options args asg rest -> ends_options rest ->
  exists o, server_flags args = FParsed o /\ server_reads asg o.
Proof. exact server_command_line. Qed.
Print Assumptions C47_server_options.

Theorem C47_client_options : forall (args : list bytes) (asg : list (string * bytes)) (rest : list bytes),
  writes client_options args asg rest -> ends_options rest ->
  exists o, client_flags args = FParsed o /\ client_reads asg o.
Proof. exact client_command_line. Qed.
Print Assumptions C47_client_options.

(** Mistakes end the program before it reads or sends anything. *)
Theorem C47_server_refuses : forall (LIB : OPRF) (args : list bytes) (asg : list (string * bytes)) (rest : list bytes),
  writes server_options args asg rest -> refused server_options rest ->
  forall fs (gen : res (PrivateKey LIB)), server_program args fs gen = SExit 2 [].
Proof. exact server_program_refuses. Qed.
Print Assumptions C47_server_refuses.

Theorem C47_client_refuses : forall (LIB : OPRF) (args : list bytes) (asg : list (string * bytes)) (rest : list bytes),
  writes client_options args asg rest -> refused client_options rest ->
  forall fs net (blinds : nat -> Blind LIB), client_program args fs net blinds = mkClientResult 2 [].
Proof. exact client_program_refuses. Qed.
Print Assumptions C47_client_refuses.

Theorem C47_help : forall (LIB : OPRF) (args : list bytes) (asg : list (string * bytes)) (rest : list bytes),
  asks_help rest ->
  (writes server_options args asg rest -> forall fs (gen : res (PrivateKey LIB)), server_program args fs gen = SExit 0 [])
  /\ (writes client_options args asg rest -> forall fs net (blinds : nat -> Blind LIB), client_program args fs net blinds = mkClientResult 0 []).
Proof. exact programs_help. Qed.
Print Assumptions C47_help.

(** The three cases above cover every command line of either program. *)
Theorem C47_every_command_line : forall (opts : list (string * flag_kind)) (args : list bytes),
  exists asg rest, writes opts args asg rest /\ (ends_options rest \/ refused opts rest \/ asks_help rest).
Proof. exact every_line. Qed.
Print Assumptions C47_every_command_line.

(** So what the programs do with a command line says how it is written. *)
Theorem C47_outcome_says_how_it_is_written : forall (args : list bytes),
  (forall o, server_flags args = FParsed o -> exists asg rest, writes server_options args asg rest /\ ends_options rest /\ server_reads asg o)
  /\ (server_flags args = FBad -> exists asg rest, writes server_options args asg rest /\ refused server_options rest)
  /\ (server_flags args = FHelp -> exists asg rest, writes server_options args asg rest /\ asks_help rest)
  /\ (forall o, client_flags args = FParsed o -> exists asg rest, writes client_options args asg rest /\ ends_options rest /\ client_reads asg o)
  /\ (client_flags args = FBad -> exists asg rest, writes client_options args asg rest /\ refused client_options rest)
  /\ (client_flags args = FHelp -> exists asg rest, writes client_options args asg rest /\ asks_help rest).
Proof. exact outcome_written. Qed.
Print Assumptions C47_outcome_says_how_it_is_written.

(** Not so: "-username-variant false" turns the username variant off.  It
    stays on, and every later argument is ignored. *)
Theorem C47_boolean_with_space_refuted : forall rest : list bytes,
  server_flags (str "-username-variant" :: str "false" :: rest) = FParsed server_defaults /\ so_username server_defaults = true.
Proof. exact (fun rest => conj eq_refl eq_refl). Qed.
Print Assumptions C47_boolean_with_space_refuted.

Example C47_example :
  let args := map str ["-num-variants=3"; "--metadata"; "x=y"; "-dump-config"; "-num-variants"; "-12"; "-username-variant=F"; "--"; "-bad"]%string in
  writes server_options args [("num-variants", str "3"); ("metadata", str "x=y"); ("dump-config", str "true"); ("num-variants", str "-12"); ("username-variant", str "F")]%string (map str ["--"; "-bad"]%string)
  /\ ends_options (map str ["--"; "-bad"]%string)
  /\ server_flags args = FParsed (mkServerOpts [] (str "localhost:8080") true (str "-") (str "x=y") (-12) false)
  /\ refused server_options (map str ["-bad"]%string) /\ refused client_options (map str ["-show-password=yes"]%string)
  /\ int_text (str "0x1F") 31 /\ int_text (str "-1_000") (-1000) /\ int_text (str "0_17") 15 /\ int_text (str "9223372036854775807") (2 ^ 63 - 1)
  /\ Forall (fun v => refused server_options [str "-num-variants" ; str v]) ["5_"; "1__0"; "09"; "0x"; ""; "9223372036854775808"; "_1"; "1.0"]%string.
Proof.
  assert (D1 : In (str "-") (map str ["-"; "--"]%string)) by (left; reflexivity).
  assert (D2 : In (str "--") (map str ["-"; "--"]%string)) by (right; left; reflexivity).
  split; [|split; [right; left; reflexivity|split; [reflexivity|split; [|split]]]].
  - apply (w_eq server_options "num-variants" IntFlag (str "3") (str "-")); [unfold server_options, client_options; cbn [In]; auto 12| |exact D1|].
    { exists 3%Z. apply parse_int_iff. reflexivity. }
    apply (w_next _ "metadata" TextFlag (str "x=y") (str "--")); [unfold server_options, client_options; cbn [In]; auto 12|discriminate|exact Logic.I|exact D2|].
    apply (w_bool _ "dump-config" (str "-")); [unfold server_options, client_options; cbn [In]; auto 12|exact D1|].
    apply (w_next _ "num-variants" IntFlag (str "-12") (str "-")); [unfold server_options, client_options; cbn [In]; auto 12|discriminate| |exact D1|].
    { exists (-12)%Z. apply parse_int_iff. reflexivity. }
    apply (w_eq _ "username-variant" BoolFlag (str "F") (str "-")); [unfold server_options, client_options; cbn [In]; auto 12| |exact D1|].
    { exists false. cbn [bool_text]. right. right. left. reflexivity. }
    apply w_rest.
  - apply (r_unknown _ "bad" [] (str "-")); [|discriminate..| |exact D1|left; reflexivity].
    + intros k I. unfold server_options in I. cbn [In] in I. repeat (destruct I as [I|I]; [discriminate I|]). exact I.
    + exists Byte.x62, (str "ad"). split; [reflexivity|]. split; [discriminate|]. intros I. cbn in I. repeat (destruct I as [I|I]; [discriminate I|]). exact I.
  - apply (r_value _ "show-password" BoolFlag (str "yes") (str "-")); [unfold server_options, client_options; cbn [In]; auto 12| |exact D1].
    intros ([] & I); unfold bool_text in I; cbn [map In] in I; repeat (destruct I as [I|I]; [discriminate I|]); exact I.
  - repeat (split; [apply parse_int_iff; reflexivity|]).
    repeat constructor; (apply (r_next _ "num-variants" IntFlag _ (str "-")); [unfold server_options; cbn [In]; auto 12|discriminate| |exact D1]);
      intros (z & I); apply parse_int_iff in I; discriminate I.
Qed.

(** ** C48: no answer of the network crashes the client program, as long as
    the bit size in the configuration is in range. *)
Theorem C48_hostile_server_cannot_crash_the_client : forall (LIB : OPRF), OPRF_laws LIB ->
  forall (args : list bytes) (fs : files) (net : network) (blinds : nat -> Blind LIB) (o : client_opts),
  client_flags args = FParsed o -> real_network net ->
  (forall cfg, client_config o fs net = Ok cfg -> (0 <= cfg_bits cfg <= 32)%Z) ->
  x_status (client_program args fs net blinds) <> 2%N.
Proof. exact client_never_crashes. Qed.
Print Assumptions C48_hostile_server_cannot_crash_the_client.

(** Without the proviso it does not hold: such a configuration is accepted,
    and then every query panics. *)
Theorem C48_bit_size_crashes_queries_refuted : forall (LIB : OPRF), OPRF_laws LIB ->
  forall (cfg : Config) (post : transport) (url u p : bytes) (r : Blind LIB),
  (exists c, NewClient LIB cfg = Ok c) -> (cfg_bits cfg < 0 \/ 32 < cfg_bits cfg)%Z ->
  exists m, Query cfg post url u p r = Panic m.
Proof. exact query_bits_panics. Qed.
Print Assumptions C48_bit_size_crashes_queries_refuted.

Definition ex_hostile (config body : bytes) : network := mkNetwork (fun _ => Ok (200%N, config)) (fun _ _ => Ok (200%N, Ok body)).
Example C48_example :
  let good := str "{""version"":1,""bucketIDBitSize"":20,""bucketHasher"":1,""slowHasher"":0,""bucketEncryptor"":1,""oprfSuite"":3}" in
  let evil := str "{""version"":1,""bucketIDBitSize"":33,""bucketHasher"":1,""slowHasher"":0,""bucketEncryptor"":1,""oprfSuite"":3}" in
  let run c := x_status (@client_program toy_OPRF ex_cargs ex_cfs (ex_hostile c (str "garbage")) (fun _ => 5%N)) in
  real_network (ex_hostile good (str "garbage")) /\ run good = 1%N /\ run evil = 2%N.
Proof.
  split; [|split; vm_compute; reflexivity].
  split; [discriminate|]. split; [discriminate|]. split; [discriminate|].
  intros url d code body H. cbn [n_post ex_hostile] in H. apply Ok_inj in H. inversion H. subst body. unfold holdable, blen. cbn. lia.
Qed.

(** ** C49: the client reports the credentials in order up to the first
    failing query, and exit status 0 means that it has reported them all. *)
Theorem C49_status_zero_means_complete : forall (LIB : OPRF) (args : list bytes) (fs : files) (net : network) (blinds : nat -> Blind LIB)
    (o : client_opts) (cfg : Config) (input : bytes),
  client_flags args = FParsed o -> client_config o fs net = Ok cfg -> co_dump o = false -> given fs (co_infile o) input ->
  exists answered rest answers lines,
    with_colon (scan_lines input) = answered ++ rest
    /\ x_stdout (client_program args fs net blinds) = lines_of lines
    /\ length answers = length answered
    /\ (forall i c a, nth_error answered i = Some c -> nth_error answers i = Some a ->
          Query cfg (n_post net) (co_target o ++ str "/evaluate") (fst c) (snd c) (blinds i) = Ok a)
    /\ Forall2 (fun ca line => reports (co_show o) (fst (fst ca)) (snd (fst ca)) (snd ca) line) (combine answered answers) lines
    /\ (x_status (client_program args fs net blinds) = 0%N <-> rest = []).
Proof. by_input client_exit. Qed.
Print Assumptions C49_status_zero_means_complete.

(** A server that refuses the bucket of carol: two lines, status 1. *)
Definition ex_flaky : network :=
  mkNetwork (n_get (behind ex_srv (str "localhost:8080")))
    (fun url d => match n_post (behind ex_srv (str "localhost:8080")) url d with
                  | Ok (code, Ok body) => if (length body <? 50)%nat then Ok (500%N, Ok []) else Ok (code, Ok body)
                  | r => r
                  end).
Example C49_example :
  let r := @client_program toy_OPRF ex_cargs ex_cfs ex_flaky (fun i => N.of_nat (i + 5)) in
  x_status r = 1%N /\ x_stdout r = lines_of (map str
  ["{""username"":""alice"",""password"":""hello"",""status"":""password in breach"",""metadata"":""leak""}";
   "{""username"":""alice"",""password"":""Hello"",""status"":""similar password in breach"",""metadata"":""leak""}"]%string).
Proof. vm_compute. split; reflexivity. Qed.
