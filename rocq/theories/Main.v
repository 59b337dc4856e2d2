(** * Model of the two programs: main of cmd/server/main.go and of
    cmd/client/main.go, from the command line to the output.

    The environment is what the programs read: the arguments, the files (the
    bytes a file delivers until EOF or a read error, [None] when it cannot be
    opened), standard input, the random choices, and for the client the HTTP
    answers.  Messages on standard error and failing writes to standard output
    are in Effects.v.  [int] has 64 bits. *)
From Verif Require Import Base Common Oprf Server Client KV Mutator Json ConfigJson Scanner Demo Flags Url.

Record files := mkFiles { f_open : bytes -> option bytes; f_stdin : bytes }.

(** os.ReadFile / os.Open / os.Stdin as both programs choose the input
    (server main.go:70-76, client main.go:77-83). *)
Definition input_of (fs : files) (name : bytes) : option bytes :=
  if bytes_eqb name (str "-") then Some (f_stdin fs) else f_open fs name.

(** ** cmd/server/main.go *)

(** main.go:24-26, with the defaults of lines 28-34. *)
Record server_opts := mkServerOpts {
  so_config : bytes; so_listen : bytes; so_dump : bool; so_infile : bytes;
  so_metadata : bytes; so_num : Z; so_username : bool }.
Definition server_defaults : server_opts :=
  mkServerOpts [] (str "localhost:8080") false (str "-") [] 9 true.

(** main.go:28-34 *)
Definition server_kind (n : bytes) : option bool :=
  if existsb (bytes_eqb n) (map str ["config"; "listen"; "infile"; "metadata"; "num-variants"]%string) then Some false
  else if existsb (bytes_eqb n) (map str ["dump-config"; "username-variant"]%string) then Some true
  else None.
Definition server_set (n v : bytes) (o : server_opts) : option server_opts :=
  let (c, l, d, i, m, k, u) := o in
  if bytes_eqb n (str "config") then Some (mkServerOpts v l d i m k u)
  else if bytes_eqb n (str "listen") then Some (mkServerOpts c v d i m k u)
  else if bytes_eqb n (str "dump-config") then
    match ParseBool v with Some b => Some (mkServerOpts c l b i m k u) | None => None end
  else if bytes_eqb n (str "infile") then Some (mkServerOpts c l d v m k u)
  else if bytes_eqb n (str "metadata") then Some (mkServerOpts c l d i v k u)
  else if bytes_eqb n (str "num-variants") then
    match ParseInt v with Some z => Some (mkServerOpts c l d i m z u) | None => None end
  else match ParseBool v with Some b => Some (mkServerOpts c l d i m k b) | None => None end.

(** main.go:36 *)
Definition server_flags (args : list bytes) : flag_result server_opts :=
  parse_flags server_kind server_set server_defaults args.

Section Main.
Variable LIB : OPRF.

(** pkg/migp/server.go:88-102; [gen] is the outcome of oprf.GenerateKey. *)
Definition DefaultServerConfig (gen : res (PrivateKey LIB)) : res (ServerConfig LIB) :=
  match gen with
  | Ok k => Ok {| sc_config := DefaultConfig; sc_privateKey := k |}
  | Err e => Panic e
  | Panic m => Panic m
  end.

(** How far the server gets: it exits with a status and an output (log.Fatal:
    status 1; a panic: status 2), or it serves HTTP on an address, with the
    counters it has logged. *)
Inductive server_run : Type :=
| SExit (status : N) (stdout : bytes)
| SServing (addr : bytes) (s : server LIB) (successes failures : N).

(** main.go:38-50; [Err] is log.Fatal. *)
Definition server_config (o : server_opts) (fs : files) (gen : res (PrivateKey LIB)) : res (ServerConfig LIB) :=
  match so_config o with
  | [] => DefaultServerConfig gen
  | name =>
      match f_open fs name with
      | None => Err "open"
      | Some data => ServerConfig_UnmarshalJSON LIB 64 data
      end
  end.

(** main.go:65-96 *)
Definition server_serve (o : server_opts) (fs : files) (cfg : ServerConfig LIB) : server_run :=
  match newServer cfg with
  | Err _ => SExit 1 []
  | Panic _ => SExit 2 []
  | Ok s =>
      match input_of fs (so_infile o) with
      | None => SExit 1 []
      | Some input =>
          match server_ingest (migpServer s) (so_metadata o) (so_num o) (so_username o) (kv s) input with
          | Ok st => SServing (so_listen o) {| migpServer := migpServer s; kv := in_store st |} (in_success st) (in_failure st)
          | _ => SExit 2 []
          end
      end
  end.

(** main.go:22-97 after flag parsing *)
Definition server_body (o : server_opts) (fs : files) (gen : res (PrivateKey LIB)) : server_run :=
  match server_config o fs gen with
  | Err _ => SExit 1 []
  | Panic _ => SExit 2 []
  | Ok cfg =>
      if so_dump o then
        match ServerConfig_MarshalJSON cfg with
        | Ok data => SExit 0 data
        | Err _ => SExit 1 []
        | Panic _ => SExit 2 []
        end
      else server_serve o fs cfg
  end.

(** main.go:22-97 *)
Definition server_program (args : list bytes) (fs : files) (gen : res (PrivateKey LIB)) : server_run :=
  match server_flags args with
  | FHelp => SExit 0 []
  | FBad => SExit 2 []
  | FParsed o => server_body o fs gen
  end.

End Main.
Arguments DefaultServerConfig {LIB} _.
Arguments SExit {LIB} _ _. Arguments SServing {LIB} _ _ _ _.
Arguments server_config {LIB} _ _ _. Arguments server_serve {LIB} _ _ _.
Arguments server_body {LIB} _ _ _. Arguments server_program {LIB} _ _ _.

(** ** cmd/client/main.go *)

(** main.go:24-25, with the defaults of lines 28-32. *)
Record client_opts := mkClientOpts {
  co_config : bytes; co_dump : bool; co_show : bool; co_infile : bytes; co_target : bytes }.
Definition client_defaults : client_opts :=
  mkClientOpts [] false false (str "-") (str "http://localhost:8080").

(** main.go:28-32 *)
Definition client_kind (n : bytes) : option bool :=
  if existsb (bytes_eqb n) (map str ["config"; "infile"; "target"]%string) then Some false
  else if existsb (bytes_eqb n) (map str ["dump-config"; "show-password"]%string) then Some true
  else None.
Definition client_set (n v : bytes) (o : client_opts) : option client_opts :=
  let (c, d, s, i, t) := o in
  if bytes_eqb n (str "config") then Some (mkClientOpts v d s i t)
  else if bytes_eqb n (str "dump-config") then
    match ParseBool v with Some b => Some (mkClientOpts c b s i t) | None => None end
  else if bytes_eqb n (str "show-password") then
    match ParseBool v with Some b => Some (mkClientOpts c d b i t) | None => None end
  else if bytes_eqb n (str "infile") then Some (mkClientOpts c d s v t)
  else Some (mkClientOpts c d s i v).

(** main.go:34 *)
Definition client_flags (args : list bytes) : flag_result client_opts :=
  parse_flags client_kind client_set client_defaults args.

(** The HTTP side: [n_get url] is the outcome of http.Get (status and the
    bytes of the body), [n_post] that of the POSTs of migp.Query. *)
Record network := mkNetwork { n_get : bytes -> res (N * bytes); n_post : transport }.

(** The exit status and the bytes on standard output. *)
Record client_result := mkClientResult { x_status : N; x_stdout : bytes }.

Section MainClient.
Variable LIB : OPRF.

(** main.go:36-58; [Err] is log.Fatal. *)
Definition client_config (o : client_opts) (fs : files) (net : network) : res Config :=
  match co_config o with
  | [] =>
      resp <- n_get net (co_target o ++ str "/config") ;;
      let (code, body) := resp in
      if negb (code =? 200)%N then Err "Unable to retrieve MIGP config from target"
      else Config_decode 64 body
  | name =>
      match f_open fs name with
      | None => Err "open"
      | Some data => Config_unmarshal 64 data
      end
  end.

(** fmt.Println of each line (main.go:114). *)
Definition println (lines : list bytes) : bytes := flat_map (fun l => l ++ [Byte.x0a]) lines.

(** main.go:77-116; the [i]-th query draws the blind [blinds i]. *)
Definition client_query (o : client_opts) (fs : files) (net : network) (cfg : Config) (blinds : nat -> Blind LIB) : client_result :=
  match input_of fs (co_infile o) with
  | None => mkClientResult 1 []
  | Some input =>
      let run := client_main (fun i u p => Query cfg (n_post net) (co_target o ++ str "/evaluate") u p (blinds i)) (co_show o) input in
      let status := if cr_panic run then 2%N else match cr_error run with Some _ => 1%N | None => 0%N end in
      mkClientResult status (println (cr_stdout run))
  end.

(** The bodies that one call of migp.Query posts: one, unless the client or the
    request cannot be made (client.go:159-180). *)
Definition Query_posts (cfg : Config) (u p : bytes) (r : Blind LIB) : list bytes :=
  match NewClient LIB cfg with
  | Ok c => match Request c u p r with Ok (rq, _) => [ClientRequest_marshal rq] | _ => [] end
  | _ => []
  end.

(** All bodies the client posts, in order (main.go:84-116). *)
Fixpoint posts_of (posts : nat -> bytes -> bytes -> list bytes)
    (query : nat -> bytes -> bytes -> res (BreachStatus * gslice)) (i : nat) (lines : list bytes) : list bytes :=
  match lines with
  | [] => []
  | l :: r =>
      match split_colon l with
      | None => posts_of posts query i r
      | Some (u, p) => posts i u p ++ match query i u p with Ok _ => posts_of posts query (S i) r | _ => [] end
      end
  end.
Definition client_posts (o : client_opts) (fs : files) (net : network) (cfg : Config) (blinds : nat -> Blind LIB) : list bytes :=
  match input_of fs (co_infile o) with
  | None => []
  | Some input =>
      posts_of (fun i u p => Query_posts cfg u p (blinds i))
        (fun i u p => Query cfg (n_post net) (co_target o ++ str "/evaluate") u p (blinds i)) 0 (scan_lines input)
  end.

(** main.go:23-117 after flag parsing.  A version other than 1 only gives a
    warning on standard error (lines 73-75). *)
Definition client_body (o : client_opts) (fs : files) (net : network) (blinds : nat -> Blind LIB) : client_result :=
  match client_config o fs net with
  | Err _ => mkClientResult 1 []
  | Panic _ => mkClientResult 2 []
  | Ok cfg =>
      if co_dump o then mkClientResult 0 (Config_marshal cfg)
      else client_query o fs net cfg blinds
  end.

(** main.go:23-117 *)
Definition client_program (args : list bytes) (fs : files) (net : network) (blinds : nat -> Blind LIB) : client_result :=
  match client_flags args with
  | FHelp => mkClientResult 0 []
  | FBad => mkClientResult 2 []
  | FParsed o => client_body o fs net blinds
  end.

(** The network when a demo server runs at [host]. *)
Definition behind (s : server LIB) (host : bytes) : network :=
  mkNetwork
    (fun url => match url_path host url with
                | None => Err "not modelled"
                | Some path => http_get s path
                end)
    (to_server s host).

End MainClient.
Arguments Query_posts {LIB} _ _ _ _. Arguments client_posts {LIB} _ _ _ _ _.
Arguments client_query {LIB} _ _ _ _ _. Arguments client_body {LIB} _ _ _ _.
Arguments client_program {LIB} _ _ _ _. Arguments behind {LIB} _ _.
