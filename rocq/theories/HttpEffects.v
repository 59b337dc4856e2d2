(** * Model of the HTTP handlers (cmd/server/server.go:89-137) as sequences of
    calls of http.ResponseWriter, with writes that may fail.

    Demo.v gives the response when all writes work.  Here also the header fields
    the handlers set and the log, and what happens after a failing write.  What
    net/http adds to a response (Date, Content-Length, a Content-Type found by
    looking at the body when none is set) is not modelled. *)
From Verif Require Import Base Common Oprf Server Client KV Mutator Json ConfigJson Scanner Demo Effects.

(** A handler: w.Header().Set; w.WriteHeader; w.Write, told whether there was
    no error; log.Println; the end; or a panic. *)
Inductive hproc : Type :=
| HDone
| HPanic
| HSet (name value : bytes) (k : hproc)
| HHeader (code : N) (k : hproc)
| HWrite (b : bytes) (k : bool -> hproc)
| HLog (m : message) (k : hproc).

(** The calls as they were made, with what became of the writes: the first [n]
    bytes of [b] went out. *)
Inductive call : Type :=
| CSet (name value : bytes)
| CHeader (code : N)
| CWrite (b : bytes) (n : nat) (ok : bool)
| CLog (m : message).

(** [hruns h t b]: [h] can make the calls [t]; [b] is true if it returned, false
    if it panicked. *)
Inductive hruns : hproc -> list call -> bool -> Prop :=
| hr_done : hruns HDone [] true
| hr_panic : hruns HPanic [] false
| hr_set n v k t b : hruns k t b -> hruns (HSet n v k) (CSet n v :: t) b
| hr_header c k t b : hruns k t b -> hruns (HHeader c k) (CHeader c :: t) b
| hr_write d k n ok t b : written d n ok -> hruns (k ok) t b -> hruns (HWrite d k) (CWrite d n ok :: t) b
| hr_log m k t b : hruns k t b -> hruns (HLog m k) (CLog m :: t) b.

(** net/http/server.go, Error: two header fields, the status, and the text in
    one write whose error is not looked at. *)
Definition http_Error (text : bytes) (code : N) (k : hproc) : hproc :=
  HSet (str "Content-Type") (str "text/plain; charset=utf-8")
    (HSet (str "X-Content-Type-Options") (str "nosniff")
       (HHeader code (HWrite (text ++ [Byte.x0a]) (fun _ => k)))).
Definition error_400 : hproc -> hproc := http_Error (str "Bad Request") 400.
Definition error_500 : hproc -> hproc := http_Error (str "Internal Server Error") 500.

(** server.go:90-92: the error of Fprintf is not looked at. *)
Definition h_index : hproc := HWrite (str "Welcome to the MIGP demo server" ++ [Byte.x0a]) (fun _ => HDone).

(** server.go:95-102: Encode writes the document and a newline in one write and
    returns its error. *)
Definition h_config {LIB} (s : server LIB) : hproc :=
  HWrite (Config_marshal (sc_config (Server_Config (migpServer s))) ++ [Byte.x0a])
    (fun ok => if ok then HDone else HLog (Error (str "Writing response failed:")) (error_500 HDone)).

(** server.go:119-136, after the request has been decoded. *)
Definition h_answer {LIB} (s : server LIB) (request : ClientRequest) : hproc :=
  match HandleRequest (migpServer s) request (kv_Get (kv s)) with
  | Panic _ => HPanic
  | Err _ => HLog (Error (str "HandleRequest failed:")) (error_500 HDone)
  | Ok migpResponse =>
      let write respBody :=
        HWrite respBody (fun ok => if ok then HDone else HLog (Error (str "Writing response failed:")) (error_500 HDone)) in
      HSet (str "Content-Type") (str "application/octet-stream")
        match MarshalBinary migpResponse with
        | Panic _ => HPanic
        | Err _ => HLog (Error (str "Response serialization failed:")) (error_500 (write []))
        | Ok respBody => write respBody
        end
  end.

(** server.go:105-137 *)
Definition h_evaluate {LIB} (s : server LIB) (body : res bytes) : hproc :=
  match body with
  | Panic _ => HPanic
  | Err _ => HLog (Error (str "Request body reading failed:")) (error_400 HDone)
  | Ok data =>
      let (request, err) := ClientRequest_unmarshal data in
      match err with
      | Some _ => HLog (Error (str "Request body unmarshal failed:")) (error_400 (h_answer s request))
      | None => h_answer s request
      end
  end.

(** server.go:42-48 *)
Definition h_handler {LIB} (s : server LIB) (path : bytes) (body : res bytes) : hproc :=
  if bytes_eqb path (str "/evaluate") then h_evaluate s body
  else if bytes_eqb path (str "/config") then h_config s
  else h_index.
