(** * Model of the demo server and client: cmd/server/server.go,
    cmd/server/main.go, cmd/client/main.go, and migp.Query
    (pkg/migp/client.go:157-198). *)
From Verif Require Import Base Common Oprf Server Client KV Mutator Json ConfigJson Scanner Url.

Section Demo.
Variable LIB : OPRF.

(** ** cmd/server/server.go *)

(** server.go:36-39.  The migp.Server never changes after construction. *)
Record server := mkDemoServer {
  migpServer : Server LIB;
  kv : kvStore }.

(** server.go:18-33 *)
Definition newServer (cfg : ServerConfig LIB) : res server :=
  s <- NewServer cfg ;;
  Ok {| migpServer := s; kv := newKVStore |}.

(** The body shared by the three places of insert that encrypt an entry and
    append it to the bucket (server.go:54-61, 65-72, 76-83): the store
    afterwards and the error. *)
Definition add_entry (s : Server LIB) (store : kvStore) (bucketIDHex username password : bytes)
    (flag : MetadataType) (metadata : bytes) : kvStore * res unit :=
  match EncryptBucketEntry s username password flag metadata with
  | Ok newEntry => (kv_Append store bucketIDHex newEntry, Ok tt)
  | Err e => (store, Err e)
  | Panic m => (store, Panic m)
  end.

(** server.go:64-73 *)
Fixpoint add_variants (s : Server LIB) (store : kvStore) (bucketIDHex username : bytes)
    (variants : list bytes) (metadata : bytes) : kvStore * res unit :=
  match variants with
  | [] => (store, Ok tt)
  | v :: r =>
      match add_entry s store bucketIDHex username v MetadataSimilarPassword metadata with
      | (store', Ok _) => add_variants s store' bucketIDHex username r metadata
      | (store', e) => (store', e)
      end
  end.

(** server.go:51-87, with the mutator as a parameter. *)
Definition insert_with (mutate : bytes -> Z -> res (list bytes)) (s : Server LIB) (store : kvStore) (username password metadata : bytes)
    (numVariants : Z) (includeUsernameVariant : bool) : kvStore * res unit :=
  match Server_BucketID s username with
  | Err e => (store, Err e)
  | Panic m => (store, Panic m)
  | Ok id =>
      let bucketIDHex := BucketIDToHex id in
      match add_entry s store bucketIDHex username password MetadataBreachedPassword metadata with
      | (store1, Ok _) =>
          match mutate password numVariants with
          | Err e => (store1, Err e)
          | Panic m => (store1, Panic m)
          | Ok passwordVariants =>
              match add_variants s store1 bucketIDHex username passwordVariants metadata with
              | (store2, Ok _) =>
                  if includeUsernameVariant
                  then add_entry s store2 bucketIDHex username [] MetadataBreachedUsername metadata
                  else (store2, Ok tt)
              | (store2, e) => (store2, e)
              end
          end
      | (store1, e) => (store1, e)
      end
  end.

(** server.go:51-87 with the mutator of line 63. *)
Definition demo_insert := insert_with password_variants.

(** ** HTTP: the part of http.ResponseWriter that the handlers use. *)
Record writer := mkWriter { w_status : option N; w_body : bytes }.
Definition fresh_writer : writer := {| w_status := None; w_body := [] |}.
(** WriteHeader: only the first call counts. *)
Definition write_header (w : writer) (code : N) : writer :=
  match w_status w with
  | Some _ => w
  | None => {| w_status := Some code; w_body := w_body w |}
  end.
(** Write: implies WriteHeader(200). *)
Definition write_body (w : writer) (b : bytes) : writer :=
  let w := write_header w 200 in
  {| w_status := w_status w; w_body := w_body w ++ b |}.
(** http.Error(w, text, code): header, text, newline. *)
Definition http_error (w : writer) (text : string) (code : N) : writer :=
  let w := write_header w code in
  {| w_status := w_status w; w_body := w_body w ++ str text ++ [Byte.x0a] |}.
(** What the client receives: status (200 if never set) and body. *)
Definition response_of (w : writer) : N * bytes :=
  (match w_status w with Some c => c | None => 200%N end, w_body w).

(** server.go:90-92 *)
Definition handleIndex : res writer :=
  Ok (write_body fresh_writer (str "Welcome to the MIGP demo server" ++ [Byte.x0a])).

(** server.go:95-102 (Encode appends a newline; encoding cannot fail). *)
Definition handleConfig (s : server) : res writer :=
  let cfg := sc_config (Server_Config (migpServer s)) in
  Ok (write_body fresh_writer (Config_marshal cfg ++ [Byte.x0a])).

(** server.go:105-137.  [body] is the result of reading the request body.  A
    JSON error writes a 400 and execution goes on with the request as decoded
    so far; so does a failing MarshalBinary.  Failing writes to the network
    and header fields are in HttpEffects.v. *)
Definition handleEvaluate (s : server) (body : res bytes) : res writer :=
  match body with
  | Panic m => Panic m
  | Err _ => Ok (http_error fresh_writer "Bad Request" 400)
  | Ok data =>
      let (request, err) := ClientRequest_unmarshal data in
      let w := match err with
               | Some _ => http_error fresh_writer "Bad Request" 400
               | None => fresh_writer
               end in
      match HandleRequest (migpServer s) request (kv_Get (kv s)) with
      | Panic m => Panic m
      | Err _ => Ok (http_error w "Internal Server Error" 500)
      | Ok migpResponse =>
          match MarshalBinary migpResponse with
          | Panic m => Panic m
          | Err _ => Ok (write_body (http_error w "Internal Server Error" 500) [])
          | Ok respBody => Ok (write_body w respBody)
          end
      end
  end.

(** server.go:42-48: the handler for a clean path; "/" matches everything else.
    No handler looks at the method of the request. *)
Definition handler (s : server) (path : bytes) (body : res bytes) : res writer :=
  if bytes_eqb path (str "/evaluate") then handleEvaluate s body
  else if bytes_eqb path (str "/config") then handleConfig s
  else handleIndex.

(** http.ServeMux (server.go:43): a request for a path that is not clean is
    answered with a 301 to the clean path (Go up to 1.25). *)
Inductive reply := Page (w : res writer) | MovedTo (path : bytes).
Definition mux (s : server) (path : bytes) (body : res bytes) : reply :=
  let p := cleanPath path in
  if bytes_eqb p path then Page (handler s p body) else MovedTo p.

(** net/http.Client: http.Get follows redirects, at most 10 requests in all; a
    redirected POST becomes a GET without a body.  A panicking handler closes
    the connection, an error for the client. *)
Fixpoint follow_get (requests : nat) (s : server) (path : bytes) : res (N * bytes) :=
  match requests with
  | O => Err "stopped after 10 redirects"
  | S n =>
      match mux s path (Ok []) with
      | Page (Ok w) => Ok (response_of w)
      | Page _ => Err "EOF"
      | MovedTo p => follow_get n s p
      end
  end.
Definition http_get (s : server) (path : bytes) : res (N * bytes) := follow_get 10 s path.
Definition http_post (s : server) (path payload : bytes) : res (N * bytes) :=
  match mux s path (Ok payload) with
  | Page (Ok w) => Ok (response_of w)
  | Page _ => Err "EOF"
  | MovedTo p => follow_get 9 s p
  end.

(** client.go:184: %d of an int *)
Definition status_error (code : N) : string :=
  String.append "Request failed with status code " (string_of_list_byte (dec_N code)).

(** ** migp.Query (pkg/migp/client.go:157-198).

    [post url payload] is the outcome of http.NewRequest + Do: an error, or a
    status code and the outcome of reading the body. *)
Definition transport := bytes -> bytes -> res (N * res bytes).

Definition Query (cfg : Config) (post : transport) (targetURL username password : bytes)
    (r : Blind LIB) : res (BreachStatus * gslice) :=
  client <- NewClient LIB cfg ;;
  rc <- Request client username password r ;;
  let (migpRequest, context) := rc in
  resp <- post targetURL (ClientRequest_marshal migpRequest) ;;
  let (code, rbody) := resp in
  if negb (code =? 200)%N then Err (status_error code)
  else
    body <- rbody ;;
    responsePayload <- UnmarshalBinary LIB body ;;
    Finalize context responsePayload.

(** The transport when a demo server runs at [host] (main.go:107-110) and the
    network neither loses nor changes anything.  URLs outside the modelled
    form, or of other hosts, give an error here and are excluded by the
    theorems. *)
Definition to_server (s : server) (host : bytes) : transport :=
  fun url payload =>
    match url_path host url with
    | None => Err "not modelled"
    | Some path => r <- http_post s path payload ;; let (code, body) := r in Ok (code, Ok body)
    end.

(** ** cmd/server/main.go: ingestion (lines 77-93). *)
Record ingest := mkIngest { in_store : kvStore; in_success : N; in_failure : N }.

(** One iteration of main.go:80-93; [Panic] is a crash of the process. *)
Definition ingest_line (s : Server LIB) (metadata : bytes) (numVariants : Z) (incl : bool)
    (st : ingest) (line : bytes) : res ingest :=
  match split_colon line with
  | None => Ok {| in_store := in_store st; in_success := in_success st; in_failure := in_failure st + 1 |}
  | Some (username, password) =>
      match demo_insert s (in_store st) username password metadata numVariants incl with
      | (_, Panic m) => Panic m
      | (store', Err _) =>
          Ok {| in_store := store'; in_success := in_success st; in_failure := in_failure st + 1 |}
      | (store', Ok _) =>
          Ok {| in_store := store'; in_success := in_success st + 1; in_failure := in_failure st |}
      end
  end.

Fixpoint ingest_lines (s : Server LIB) (metadata : bytes) (numVariants : Z) (incl : bool)
    (st : ingest) (lines : list bytes) : res ingest :=
  match lines with
  | [] => Ok st
  | l :: r =>
      st' <- ingest_line s metadata numVariants incl st l ;;
      ingest_lines s metadata numVariants incl st' r
  end.

(** main.go:77-93 on the contents of the input file. *)
Definition server_ingest (s : Server LIB) (metadata : bytes) (numVariants : Z) (incl : bool)
    (store : kvStore) (input : bytes) : res ingest :=
  ingest_lines s metadata numVariants incl
    {| in_store := store; in_success := 0; in_failure := 0 |} (scan_lines input).

End Demo.
Arguments mkDemoServer {LIB}. Arguments migpServer {LIB} _. Arguments kv {LIB} _.
Arguments newServer {LIB} _. Arguments add_entry {LIB} _ _ _ _ _ _ _.
Arguments add_variants {LIB} _ _ _ _ _ _. Arguments insert_with {LIB} _ _ _ _ _ _ _ _.
Arguments demo_insert {LIB} _ _ _ _ _ _ _.
Arguments handleConfig {LIB} _. Arguments handleEvaluate {LIB} _ _. Arguments handler {LIB} _ _ _.
Arguments mux {LIB} _ _ _. Arguments follow_get {LIB} _ _ _. Arguments http_get {LIB} _ _. Arguments http_post {LIB} _ _ _.
Arguments Query {LIB} _ _ _ _ _ _. Arguments to_server {LIB} _ _.
Arguments ingest_line {LIB} _ _ _ _ _ _. Arguments ingest_lines {LIB} _ _ _ _ _ _.
Arguments server_ingest {LIB} _ _ _ _ _ _.

(** ** cmd/client/main.go: the query loop (lines 84-116). *)

(** main.go:99-109: the printed JSON object; omitempty drops empty fields. *)
Definition client_output (username password : bytes) (status : BreachStatus) (metadata : gslice) : bytes :=
  let field k v := [(str k, json_quote v)] in
  let field_ne k v := match v with [] => [] | _ => field k v end in
  json_struct (field "username"%string username ++ field_ne "password"%string password
               ++ field "status"%string (str (BreachStatus_String status))
               ++ field_ne "metadata"%string (sl metadata)).

(** The effect of the loop: the lines printed on stdout, and the error the
    program exits with, if any.  [query i u p] is the [i]-th call of
    migp.Query. *)
Record client_run := mkClientRun { cr_stdout : list bytes; cr_error : option string; cr_panic : bool }.

Fixpoint client_lines (query : nat -> bytes -> bytes -> res (BreachStatus * gslice))
    (showPassword : bool) (i : nat) (lines : list bytes) : client_run :=
  match lines with
  | [] => mkClientRun [] None false
  | l :: r =>
      match split_colon l with
      | None => client_lines query showPassword i r
      | Some (username, password) =>
          match query i username password with
          | Err e => mkClientRun [] (Some e) false
          | Panic m => mkClientRun [] None true
          | Ok (status, metadata) =>
              let password := if showPassword then password else [] in
              let rest := client_lines query showPassword (S i) r in
              mkClientRun (client_output username password status metadata :: cr_stdout rest)
                          (cr_error rest) (cr_panic rest)
          end
      end
  end.

Definition client_main (query : nat -> bytes -> bytes -> res (BreachStatus * gslice))
    (showPassword : bool) (input : bytes) : client_run :=
  client_lines query showPassword 0 (scan_lines input).
