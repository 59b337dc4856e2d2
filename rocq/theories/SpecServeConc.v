(** * Specification for C94: requests that arrive in pieces, served at the same
    time. *)
From Verif Require Import Base Common Oprf Server Client KV Json Demo SpecDemo SpecConc KVConc InsertCalls SpecParallel SpecServe ReadBody SpecRead ServeConc.

(** One more step in the life of a request of goroutine [t]: the request that is
    open (it has arrived and is not replied to) and the steps worked on it. *)
Definition next_open (t : nat) (o : option (bytes * stream * nat)) (e : nat * shows) : option (bytes * stream * nat) :=
  if (fst e =? t)%nat
  then match snd e with
       | Arrives path body => Some (path, body, 0)
       | Works => match o with Some (path, body, n) => Some (path, body, S n) | None => None end
       | Replied _ => None
       end
  else o.
Definition open_now (t : nat) (tr : list (nat * shows)) : option (bytes * stream * nat) := fold_left (next_open t) tr None.

(** The reply that the server [srv], alone, gives to a request with that path and
    body: /evaluate reads the body to its end, the other pages do not read it. *)
Definition right_reply {LIB} (srv : server LIB) (path : bytes) (body : stream) (r : reply) : Prop :=
  if bytes_eqb path (str "/evaluate")
  then exists n e, ends_at body n e /\ r = mux srv path (whole body n e)
  else forall b, r = mux srv path b.

(** The peer ends the body, or nothing reads it. *)
Definition will_end (path : bytes) (body : stream) : Prop := path <> str "/evaluate" \/ exists n e, ends_at body n e.

(** The small-step store σ0 is what the main goroutine has left after the inserts
    [ops] of the load, all calls returned; [srv] is the server with that store. *)
Definition holds_load {LIB} (srv : server LIB) (ops : list op) (σ0 : state) : Prop :=
  exists tr, exec true tr σ0 /\ loaded (migpServer srv) (main_inserts ops) tr /\ kv srv = run_inserts (migpServer srv) newKVStore ops.

(** What a client gets: the reply as its transport delivers it, and the same from
    a server that does nothing else. *)
Definition delivered (r : reply) : res (N * res bytes) :=
  match r with Page (Ok w) => Ok (fst (response_of w), Ok (snd (response_of w))) | _ => Err "EOF" end.
Definition posted_alone {LIB} (srv : server LIB) (payload : bytes) : res (N * res bytes) :=
  match http_post srv (str "/evaluate") payload with Ok (code, b) => Ok (code, Ok b) | Err e => Err e | Panic m => Panic m end.
