(** * Model of the two programs as sequences of effects: main of
    cmd/client/main.go and cmd/server/main.go, and migp.Query
    (pkg/migp/client.go:157-198).

    Main.v says what the programs compute when nothing goes wrong with their
    output.  Here every interaction with the outside is one step: writing to
    standard output or standard error, opening the input, taking the next line
    from the scanner, HTTP requests, listening.  A write to standard output may
    fail after a part, and a program may be stopped at any point (a signal, in
    particular SIGPIPE; or it is still running).

    Not modelled: the time stamps of the log package, and the texts of errors. *)
From Verif Require Import Base Common Oprf Server Client KV Mutator Json ConfigJson Scanner Demo Flags Main.

(** A message on standard error: a text, or a text followed by an error. *)
Inductive message := Text (b : bytes) | Error (before : bytes).

(** A program that ends with a result of type [F].  [Print b k]: os.Stdout is
    written and the program is told whether that went without an error;
    [Log m k]: standard error is written, an error is not looked at;
    [Read name k]: os.ReadFile; [Input name failed k]: choose standard input or
    open the file and make the scanner; [Scan k]: the next line; [Get], [Post]:
    HTTP requests; [Listen addr failed serving]: http.ListenAndServe. *)
CoInductive proc (F : Type) : Type :=
| Done (f : F)
| Print (b : bytes) (k : bool -> proc F)
| Log (m : message) (k : proc F)
| Read (name : bytes) (k : option bytes -> proc F)
| Input (name : bytes) (failed k : proc F)
| Scan (k : option bytes -> proc F)
| Get (url : bytes) (k : res (N * bytes) -> proc F)
| Post (url payload : bytes) (k : res (N * res bytes) -> proc F)
| Listen (addr : bytes) (failed : proc F) (serving : F).
Arguments Done {F} _. Arguments Print {F} _ _. Arguments Log {F} _ _. Arguments Read {F} _ _.
Arguments Input {F} _ _ _. Arguments Scan {F} _. Arguments Get {F} _ _. Arguments Post {F} _ _ _.
Arguments Listen {F} _ _ _.

(** What can be seen from outside.  [EPrint b n ok]: the program wrote [b], the
    first [n] bytes of it arrived, and the write ended without an error or with
    one. *)
Inductive event : Type :=
| EPrint (b : bytes) (n : nat) (ok : bool)
| ELog (m : message)
| ELine (l : bytes)
| EEnd
| EGet (url : bytes) (answer : res (N * bytes))
| EPost (url payload : bytes) (answer : res (N * res bytes))
| EListen (addr : bytes) (ok : bool).

(** The contract of io.Writer: a short write has an error. *)
Definition written (b : bytes) (n : nat) (ok : bool) : Prop :=
  (n <= length b)%nat /\ (ok = true -> n = length b).

(** [exec fs ls p t r]: with files [fs] and lines [ls] left to scan, [p] can show
    the events [t] and end with [r], or have shown [t] so far ([None]).  Any
    answer may come from the network. *)
Inductive exec {F : Type} (fs : files) : list bytes -> proc F -> list event -> option F -> Prop :=
| ex_stop ls p : exec fs ls p [] None
| ex_done ls f : exec fs ls (Done f) [] (Some f)
| ex_print ls b k n ok t r : written b n ok -> exec fs ls (k ok) t r -> exec fs ls (Print b k) (EPrint b n ok :: t) r
| ex_log ls m k t r : exec fs ls k t r -> exec fs ls (Log m k) (ELog m :: t) r
| ex_read ls name k t r : exec fs ls (k (f_open fs name)) t r -> exec fs ls (Read name k) t r
| ex_input ls name failed k input t r : input_of fs name = Some input -> exec fs (scan_lines input) k t r ->
    exec fs ls (Input name failed k) t r
| ex_input_failed ls name failed k t r : input_of fs name = None -> exec fs ls failed t r -> exec fs ls (Input name failed k) t r
| ex_line l ls k t r : exec fs ls (k (Some l)) t r -> exec fs (l :: ls) (Scan k) (ELine l :: t) r
| ex_end k t r : exec fs [] (k None) t r -> exec fs [] (Scan k) (EEnd :: t) r
| ex_get ls url k a t r : exec fs ls (k a) t r -> exec fs ls (Get url k) (EGet url a :: t) r
| ex_post ls url d k a t r : exec fs ls (k a) t r -> exec fs ls (Post url d k) (EPost url d a :: t) r
| ex_listen ls addr failed f : exec fs ls (Listen addr failed f) [EListen addr true] (Some f)
| ex_listen_failed ls addr failed f t r : exec fs ls failed t r -> exec fs ls (Listen addr failed f) (EListen addr false :: t) r.

(** log.Fatal(err), and fmt.Fprintln(os.Stderr, err); os.Exit(1); log.Fatalf
    with a text before the error. *)
Definition fatal {F} (f : F) : proc F := Log (Error []) (Done f).

Section Programs.
Variable LIB : OPRF.

(** ** cmd/client/main.go *)

(** client.go:159-180: the payload of the POST, and what is needed to read the
    answer. *)
Definition Query_start (cfg : Config) (u p : bytes) (r : Blind LIB) : res (bytes * ClientRequestContext LIB) :=
  client <- NewClient LIB cfg ;;
  rc <- Request client u p r ;;
  Ok (ClientRequest_marshal (fst rc), snd rc).
(** client.go:181-197 *)
Definition Query_finish (ctx : ClientRequestContext LIB) (answer : res (N * res bytes)) : res (BreachStatus * gslice) :=
  resp <- answer ;;
  let (code, rbody) := resp in
  if negb (code =? 200)%N then Err (status_error code)
  else
    body <- rbody ;;
    responsePayload <- UnmarshalBinary LIB body ;;
    Finalize ctx responsePayload.

(** main.go:84-116; the [i]-th query draws the blind [blinds i].  The error of
    fmt.Println (line 114) is not looked at. *)
CoFixpoint client_loop (o : client_opts) (cfg : Config) (blinds : nat -> Blind LIB) (i : nat) : proc N :=
  Scan (fun next =>
    match next with
    | None => Done 0%N
    | Some l =>
        match split_colon l with
        | None => client_loop o cfg blinds i
        | Some (username, password) =>
            match Query_start cfg username password (blinds i) with
            | Err _ => fatal 1%N
            | Panic _ => Done 2%N
            | Ok (payload, ctx) =>
                Post (co_target o ++ str "/evaluate") payload (fun answer =>
                  match Query_finish ctx answer with
                  | Err _ => fatal 1%N
                  | Panic _ => Done 2%N
                  | Ok (status, metadata) =>
                      let password := if co_show o then password else [] in
                      Print (client_output username password status metadata ++ [Byte.x0a])
                            (fun _ => client_loop o cfg blinds (S i))
                  end)
            end
        end
    end).

(** The warning of main.go:73-75. *)
Definition version_warning (v : N) : bytes :=
  str "WARN: Your MIGP library version (" ++ dec_N DefaultMIGPVersion ++
  str ") does not match the version specified in the config (" ++ dec_N v ++ str ") and may not be compatible.".

(** main.go:73-116 *)
Definition client_queries (o : client_opts) (cfg : Config) (blinds : nat -> Blind LIB) : proc N :=
  let go := Input (co_infile o) (fatal 1%N) (client_loop o cfg blinds 0) in
  if negb (cfg_version cfg =? DefaultMIGPVersion)%N then Log (Text (version_warning (cfg_version cfg))) go else go.

(** main.go:60-116 *)
Definition client_with (o : client_opts) (blinds : nat -> Blind LIB) (cfg : res Config) : proc N :=
  match cfg with
  | Err _ => fatal 1%N
  | Panic _ => Done 2%N
  | Ok cfg =>
      if co_dump o then Print (Config_marshal cfg) (fun ok => if ok then Done 0%N else fatal 1%N)
      else client_queries o cfg blinds
  end.

(** main.go:36-116 after flag parsing *)
Definition client_proc_body (o : client_opts) (blinds : nat -> Blind LIB) : proc N :=
  match co_config o with
  | [] =>
      Get (co_target o ++ str "/config") (fun answer =>
        client_with o blinds
          (resp <- answer ;;
           let (code, body) := resp in
           if negb (code =? 200)%N then Err "Unable to retrieve MIGP config from target"
           else Config_decode 64 body))
  | name =>
      Read name (fun data =>
        client_with o blinds
          match data with
          | None => Err "open"
          | Some data => Config_unmarshal 64 data
          end)
  end.

(** main.go:23-117; the usage message of the flag package is a message on
    standard error. *)
Definition client_proc (args : list bytes) (blinds : nat -> Blind LIB) : proc N :=
  match client_flags args with
  | FHelp => Log (Text []) (Done 0%N)
  | FBad => Log (Error []) (Done 2%N)
  | FParsed o => client_proc_body o blinds
  end.

(** ** cmd/server/main.go *)

(** The text of lines 79 and 92. *)
Definition counts (successes failures : N) : bytes :=
  str "Encrypting breach entries: " ++ dec_N successes ++ str " successes, " ++ dec_N failures ++ str " failures".

(** main.go:81-96 *)
CoFixpoint server_loop (o : server_opts) (s : Server LIB) (store : kvStore) (successes failures : N) : proc (server_run LIB) :=
  Scan (fun next =>
    match next with
    | None =>
        Log (Text (Byte.x0a :: str "Starting MIGP server"))
          (Listen (so_listen o) (fatal (SExit 1 []))
             (SServing (so_listen o) {| migpServer := s; kv := store |} successes failures))
    | Some l =>
        match split_colon l with
        | None => server_loop o s store successes (failures + 1)
        | Some (username, password) =>
            match demo_insert s store username password (so_metadata o) (so_num o) (so_username o) with
            | (_, Panic _) => Done (SExit 2 [])
            | (store', Err _) => server_loop o s store' successes (failures + 1)
            | (store', Ok _) =>
                Log (Text (Byte.x0d :: counts (successes + 1) failures)) (server_loop o s store' (successes + 1) failures)
            end
        end
    end).

(** main.go:65-80 *)
Definition server_serving (o : server_opts) (cfg : ServerConfig LIB) : proc (server_run LIB) :=
  match newServer cfg with
  | Err _ => fatal (SExit 1 [])
  | Panic _ => Done (SExit 2 [])
  | Ok s => Input (so_infile o) (fatal (SExit 1 [])) (Log (Text (counts 0 0)) (server_loop o (migpServer s) (kv s) 0 0))
  end.

(** main.go:52-80.  The output is in the events, so the [SExit]s here have
    none. *)
Definition server_with (o : server_opts) (cfg : res (ServerConfig LIB)) : proc (server_run LIB) :=
  match cfg with
  | Err _ => fatal (SExit 1 [])
  | Panic _ => Done (SExit 2 [])
  | Ok cfg =>
      if so_dump o then
        match ServerConfig_MarshalJSON cfg with
        | Ok data => Print data (fun ok => if ok then Done (SExit 0 []) else fatal (SExit 1 []))
        | Err _ => fatal (SExit 1 [])
        | Panic _ => Done (SExit 2 [])
        end
      else server_serving o cfg
  end.

(** main.go:38-96 after flag parsing *)
Definition server_proc_body (o : server_opts) (gen : res (PrivateKey LIB)) : proc (server_run LIB) :=
  match so_config o with
  | [] => server_with o (DefaultServerConfig gen)
  | name =>
      Read name (fun data =>
        server_with o
          match data with
          | None => Err "open"
          | Some data => ServerConfig_UnmarshalJSON LIB 64 data
          end)
  end.

(** main.go:22-97 *)
Definition server_proc (args : list bytes) (gen : res (PrivateKey LIB)) : proc (server_run LIB) :=
  match server_flags args with
  | FHelp => Log (Text []) (Done (SExit 0 []))
  | FBad => Log (Error []) (Done (SExit 2 []))
  | FParsed o => server_proc_body o gen
  end.

End Programs.
Arguments Query_start {LIB} _ _ _ _. Arguments Query_finish {LIB} _ _. Arguments client_loop {LIB} _ _ _ _.
Arguments client_queries {LIB} _ _ _. Arguments client_with {LIB} _ _ _. Arguments client_proc_body {LIB} _ _.
Arguments client_proc {LIB} _ _. Arguments server_loop {LIB} _ _ _ _ _. Arguments server_serving {LIB} _ _.
Arguments server_with {LIB} _ _. Arguments server_proc_body {LIB} _ _. Arguments server_proc {LIB} _ _.
