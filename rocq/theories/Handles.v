(** * Model of what migp.Query and the two programs open and close: the bodies
    of HTTP responses and files (pkg/migp/client.go:157-198,
    cmd/client/main.go:36-117, cmd/server/main.go:38-97).

    Values are as in Demo.v and Main.v; here each step that opens, reads or
    closes something is an event.  Handles are numbered in the order in which
    they are opened.  A deferred Close runs when the function returns or
    panics, not when the process exits (os.Exit, log.Fatal).  os.Stdin is not
    opened by the programs.  Reads after the first from the same handle are not
    repeated in the events. *)
From Verif Require Import Base Common Oprf Server Client KV Mutator Json ConfigJson Scanner Demo Flags Url Main.

Inductive source := Response | File.
Inductive hevent :=
| Opened (h : nat) (what : source)
| ReadFrom (h : nat)
| Closed (h : nat).

(** A computation with events: from the number of the next handle to the next
    number after it, its events and its result. *)
Definition hprog (A : Type) := nat -> nat * list hevent * res A.
Definition hret {A} (r : res A) : hprog A := fun n => (n, [], r).
Definition hbind {A B} (m : hprog A) (k : A -> hprog B) : hprog B := fun n =>
  match m n with
  | (n1, t1, Ok a) => match k a n1 with (n2, t2, r) => (n2, t1 ++ t2, r) end
  | (n1, t1, Err e) => (n1, t1, Err e)
  | (n1, t1, Panic m) => (n1, t1, Panic m)
  end.
Definition hopen (what : source) : hprog nat := fun n => (S n, [Opened n what], Ok n).
Definition hread {A} (h : nat) (r : res A) : hprog A := fun n => (n, [ReadFrom h], r).
(** defer h.Close() before the rest of a function *)
Definition hdefer {A} (h : nat) (rest : hprog A) : hprog A := fun n =>
  match rest n with (n1, t, r) => (n1, t ++ [Closed h], r) end.

Section Handles.
Variable LIB : OPRF.

(** client.go:181: Do; a response that arrives has an open body. *)
Definition do_post (post : transport) (url payload : bytes) : hprog (nat * (N * res bytes)) :=
  hbind (hret (post url payload)) (fun resp => hbind (hopen Response) (fun h => hret (Ok (h, resp)))).

(** client.go:157-198.  The Close of line 188 is deferred after the check of
    the status in lines 185-187. *)
Definition Query_h (cfg : Config) (post : transport) (targetURL username password : bytes) (r : Blind LIB)
  : hprog (BreachStatus * gslice) :=
  hbind (hret (NewClient LIB cfg)) (fun client =>
  hbind (hret (Request client username password r)) (fun rc =>
  let (migpRequest, context) := rc in
  hbind (do_post post targetURL (ClientRequest_marshal migpRequest)) (fun resp =>
  let '(h, (code, rbody)) := resp in
  if negb (code =? 200)%N then hret (Err (status_error code))
  else
    hdefer h
      (hbind (hread h rbody) (fun body =>
       hbind (hret (UnmarshalBinary LIB body)) (fun responsePayload =>
       hret (Finalize context responsePayload))))))).

(** One call after the other, as the user of the library makes them. *)
Record call := mkCall {
  q_cfg : Config; q_post : transport; q_url : bytes; q_user : bytes; q_pass : bytes; q_blind : Blind LIB }.
Definition call_h (c : call) : hprog (BreachStatus * gslice) :=
  Query_h (q_cfg c) (q_post c) (q_url c) (q_user c) (q_pass c) (q_blind c).
Fixpoint calls_h (n : nat) (cs : list call) : list hevent :=
  match cs with
  | [] => []
  | c :: r => match call_h c n with (n1, t, _) => t ++ calls_h n1 r end
  end.

(** ** cmd/client/main.go *)

(** main.go:84-116.  The result says how the loop ended: at the end of the
    input, by os.Exit(1), or by a panic. *)
Fixpoint client_lines_h (query : nat -> bytes -> bytes -> hprog (BreachStatus * gslice)) (showPassword : bool)
    (i n : nat) (lines : list bytes) : list hevent * client_run :=
  match lines with
  | [] => ([], mkClientRun [] None false)
  | l :: r =>
      match split_colon l with
      | None => client_lines_h query showPassword i n r
      | Some (username, password) =>
          match query i username password n with
          | (_, t, Err e) => (t, mkClientRun [] (Some e) false)
          | (_, t, Panic m) => (t, mkClientRun [] None true)
          | (n1, t, Ok (status, metadata)) =>
              let password := if showPassword then password else [] in
              let (t', rest) := client_lines_h query showPassword (S i) n1 r in
              (t ++ t', mkClientRun (client_output username password status metadata :: cr_stdout rest)
                                    (cr_error rest) (cr_panic rest))
          end
      end
  end.

(** main.go:77-116.  The deferred Close of line 82 runs unless the loop ends by
    os.Exit. *)
Definition client_query_h (o : client_opts) (fs : files) (net : network) (cfg : Config) (blinds : nat -> Blind LIB) (n : nat)
  : list hevent * client_result :=
  let loop n input :=
    let (t, run) := client_lines_h (fun i u p => Query_h cfg (n_post net) (co_target o ++ str "/evaluate") u p (blinds i)) (co_show o) 0 n (scan_lines input) in
    let status := if cr_panic run then 2%N else match cr_error run with Some _ => 1%N | None => 0%N end in
    (t, cr_error run, mkClientResult status (println (cr_stdout run))) in
  if bytes_eqb (co_infile o) (str "-") then let '(t, _, r) := loop n (f_stdin fs) in (t, r)
  else
    match f_open fs (co_infile o) with
    | None => ([], mkClientResult 1 [])
    | Some input =>
        let '(t, e, r) := loop (S n) input in
        (Opened n File :: t ++ match e with Some _ => [] | None => [Closed n] end, r)
    end.

(** main.go:36-58.  Nothing closes the body of the response (lines 49-57);
    os.ReadFile closes its file. *)
Definition client_config_h (o : client_opts) (fs : files) (net : network) : hprog Config :=
  match co_config o with
  | [] =>
      hbind (hret (n_get net (co_target o ++ str "/config"))) (fun resp =>
      let (code, body) := resp in
      hbind (hopen Response) (fun h =>
      if negb (code =? 200)%N then hret (Err "Unable to retrieve MIGP config from target")
      else hread h (Config_decode 64 body)))
  | name =>
      match f_open fs name with
      | None => hret (Err "open")
      | Some data =>
          hbind (hopen File) (fun h =>
          hbind (hdefer h (hread h (Ok data))) (fun data =>
          hret (Config_unmarshal 64 data)))
      end
  end.

(** main.go:23-117 *)
Definition client_body_h (o : client_opts) (fs : files) (net : network) (blinds : nat -> Blind LIB) : list hevent * client_result :=
  match client_config_h o fs net 0 with
  | (_, t, Err _) => (t, mkClientResult 1 [])
  | (_, t, Panic _) => (t, mkClientResult 2 [])
  | (n, t, Ok cfg) =>
      if co_dump o then (t, mkClientResult 0 (Config_marshal cfg))
      else let (t', r) := client_query_h o fs net cfg blinds n in (t ++ t', r)
  end.
Definition client_program_h (args : list bytes) (fs : files) (net : network) (blinds : nat -> Blind LIB) : list hevent * client_result :=
  match client_flags args with
  | FHelp => ([], mkClientResult 0 [])
  | FBad => ([], mkClientResult 2 [])
  | FParsed o => client_body_h o fs net blinds
  end.

(** ** cmd/server/main.go *)

(** main.go:38-50 *)
Definition server_config_h (o : server_opts) (fs : files) (gen : res (PrivateKey LIB)) : hprog (ServerConfig LIB) :=
  match so_config o with
  | [] => hret (DefaultServerConfig gen)
  | name =>
      match f_open fs name with
      | None => hret (Err "open")
      | Some data =>
          hbind (hopen File) (fun h =>
          hbind (hdefer h (hread h (Ok data))) (fun data =>
          hret (ServerConfig_UnmarshalJSON LIB 64 data)))
      end
  end.

(** main.go:65-96.  The Close of line 75 is deferred to the end of main, which
    comes after ListenAndServe; a panic while inserting runs it too. *)
Definition server_serve_h (o : server_opts) (fs : files) (cfg : ServerConfig LIB) (n : nat) : list hevent * server_run LIB :=
  match newServer cfg with
  | Err _ => ([], SExit 1 [])
  | Panic _ => ([], SExit 2 [])
  | Ok s =>
      let named := negb (bytes_eqb (so_infile o) (str "-")) in
      match (if named then f_open fs (so_infile o) else Some (f_stdin fs)) with
      | None => ([], SExit 1 [])
      | Some input =>
          let opened := if named then [Opened n File; ReadFrom n] else [] in
          match server_ingest (migpServer s) (so_metadata o) (so_num o) (so_username o) (kv s) input with
          | Ok st => (opened, SServing (so_listen o) {| migpServer := migpServer s; kv := in_store st |} (in_success st) (in_failure st))
          | _ => (opened ++ if named then [Closed n] else [], SExit 2 [])
          end
      end
  end.

(** main.go:22-97 *)
Definition server_program_h (args : list bytes) (fs : files) (gen : res (PrivateKey LIB)) : list hevent * server_run LIB :=
  match server_flags args with
  | FHelp => ([], SExit 0 [])
  | FBad => ([], SExit 2 [])
  | FParsed o =>
      match server_config_h o fs gen 0 with
      | (_, t, Err _) => (t, SExit 1 [])
      | (_, t, Panic _) => (t, SExit 2 [])
      | (n, t, Ok cfg) =>
          if so_dump o then
            (t, match ServerConfig_MarshalJSON cfg with
                | Ok data => SExit 0 data
                | Err _ => SExit 1 []
                | Panic _ => SExit 2 []
                end)
          else let (t', r) := server_serve_h o fs cfg n in (t ++ t', r)
      end
  end.

End Handles.
Arguments Query_h {LIB} _ _ _ _ _ _ _. Arguments mkCall {LIB}. Arguments calls_h {LIB} _ _. Arguments call_h {LIB} _ _.
Arguments q_cfg {LIB} _. Arguments q_post {LIB} _. Arguments q_url {LIB} _. Arguments q_user {LIB} _. Arguments q_pass {LIB} _. Arguments q_blind {LIB} _.
Arguments client_query_h {LIB} _ _ _ _ _ _.
Arguments client_body_h {LIB} _ _ _ _. Arguments client_program_h {LIB} _ _ _ _.
Arguments server_config_h {LIB} _ _ _ _. Arguments server_serve_h {LIB} _ _ _ _. Arguments server_program_h {LIB} _ _ _.
