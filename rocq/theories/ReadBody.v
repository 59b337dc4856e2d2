(** * Bodies that arrive piece by piece: ioutil.ReadAll in migp.Query
    (pkg/migp/client.go:189) and in handleEvaluate (cmd/server/server.go:100).

    Demo.v gives both functions the whole body; here is the loop that reads it
    from a peer that sends what and when it likes, and perhaps for ever. *)
From Verif Require Import Base Common Oprf Server Client KV Json ConfigJson Scanner Demo.

(** How a body ends: io.EOF (the whole body was read), or another error (the
    connection broke, a chunk was malformed, ...). *)
Inductive ending := EOF | Failed (e : string).
(** The next bytes that arrive, and whether the body ends with them. *)
Record arrival := mkArrival { a_data : bytes; a_end : option ending }.
(** What the peer sends, piece after piece.  What is behind an end is not read. *)
Definition stream := nat -> arrival.

(** Read into [space] bytes: what is left of the current piece, if it fits with
    its end, otherwise a part of it (io.Reader allows both). [next] is the number of
    the piece after the current one. *)
Definition body_read (s : stream) (next : nat) (now : arrival) (space : nat) : bytes * option ending * (nat * arrival) :=
  if (length (a_data now) <=? space)%nat then (a_data now, a_end now, (S next, s next))
  else (firstn space (a_data now), None, (next, mkArrival (skipn space (a_data now)) (a_end now))).

(** io.ReadAll (io/io.go of Go 1.16; ioutil.ReadAll calls it): the bytes b so
    far and the capacity of b. *)
Record reading := mkReading { rd_next : nat; rd_left : arrival; rd_b : bytes; rd_cap : nat }.
Inductive progress := Reading (st : reading) | Done (b : bytes) (err : option string).

Section Grow.
(** The new capacity that append(b, 0) chooses; any function that makes room. *)
Variable grow : nat -> nat.

(** One round of the loop: grow the slice if it is full, read, return at an
    error (nil for EOF). *)
Definition read_round (s : stream) (st : reading) : progress :=
  let cap := if (length (rd_b st) =? rd_cap st)%nat then grow (rd_cap st) else rd_cap st in
  let '(d, e, (next, now)) := body_read s (rd_next st) (rd_left st) (cap - length (rd_b st)) in
  let b := rd_b st ++ d in
  match e with
  | Some EOF => Done b None
  | Some (Failed m) => Done b (Some m)
  | None => Reading (mkReading next now b cap)
  end.
Definition read_step (s : stream) (p : progress) : progress :=
  match p with Reading st => read_round s st | Done _ _ => p end.
(** After [k] rounds from [p]. *)
Fixpoint read_rounds (k : nat) (s : stream) (p : progress) : progress :=
  match k with O => p | S k => read_rounds k s (read_step s p) end.
(** b := make([]byte, 0, 512) *)
Definition read_after (k : nat) (s : stream) : progress := read_rounds k s (Reading (mkReading 1 (s 0%nat) [] 512)).

(** What ReadAll has returned after [k] rounds, if it has. *)
Definition ReadAll (k : nat) (s : stream) : option (bytes * option string) :=
  match read_after k s with Done b e => Some (b, e) | Reading _ => None end.

Section Query.
Context {LIB : OPRF}.
(** http.DefaultClient.Do: an error, or a status and a body that is still to
    be read.  The default client has no timeout. *)
Definition transport_s := bytes -> bytes -> res (N * stream).

(** client.go:157-198, while ReadAll (line 189) has made [k] rounds: [None], it
    is still reading. *)
Definition Query_read (k : nat) (cfg : Config) (post : transport_s) (targetURL username password : bytes)
    (r : Blind LIB) : option (res (BreachStatus * gslice)) :=
  match NewClient LIB cfg with
  | Err e => Some (Err e) | Panic m => Some (Panic m)
  | Ok client =>
      match Request client username password r with
      | Err e => Some (Err e) | Panic m => Some (Panic m)
      | Ok (migpRequest, context) =>
          match post targetURL (ClientRequest_marshal migpRequest) with
          | Err e => Some (Err e) | Panic m => Some (Panic m)
          | Ok (code, rbody) =>
              if negb (code =? 200)%N then Some (Err (status_error code))
              else
                match ReadAll k rbody with
                | None => None
                | Some (_, Some err) => Some (Err err)
                | Some (body, None) =>
                    Some (responsePayload <- UnmarshalBinary LIB body ;; Finalize context responsePayload)
                end
          end
      end
  end.

(** server.go:98-133, while ReadAll (line 100) has made [k] rounds. *)
Definition handleEvaluate_read (k : nat) (s : server LIB) (body : stream) : option (res writer) :=
  match ReadAll k body with
  | None => None
  | Some (_, Some err) => Some (Ok (http_error fresh_writer "Bad Request" 400))
  | Some (data, None) => Some (handleEvaluate s (Ok data))
  end.

(** cmd/client/main.go:84-116 with such queries: the lines printed, and how the
    loop ended ([None]: it is in a query that is still reading). *)
Fixpoint client_lines_read (query : nat -> bytes -> bytes -> option (res (BreachStatus * gslice))) (showPassword : bool)
    (i : nat) (lines : list bytes) : list bytes * option (option string * bool) :=
  match lines with
  | [] => ([], Some (None, false))
  | l :: r =>
      match split_colon l with
      | None => client_lines_read query showPassword i r
      | Some (username, password) =>
          match query i username password with
          | None => ([], None)
          | Some (Err e) => ([], Some (Some e, false))
          | Some (Panic m) => ([], Some (None, true))
          | Some (Ok (status, metadata)) =>
              let password := if showPassword then password else [] in
              let (out, last) := client_lines_read query showPassword (S i) r in
              (client_output username password status metadata :: out, last)
          end
      end
  end.
End Query.
End Grow.
