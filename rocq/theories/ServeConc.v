(** * The serving server (cmd/server/main.go:96): requests that arrive piece by
    piece, each handled by a goroutine of its own (net/http), on the shared
    store of KVConc.v.

    One step of a goroutine is: one round of ioutil.ReadAll; the code up to the
    call of kvStore.Get; one step inside Get (lock, map read, unlock); or the
    code from the return of Get to the reply.  The code between such points is
    local to the goroutine.  Steps of goroutines interleave freely.  Goroutines
    are numbered; a number is used again after the reply (as net/http does for
    the next request of a connection).  The mux, the other two handlers and the
    reply are as in Demo.v; writing the reply to the network is in
    HttpEffects.v. *)
From Verif Require Import Base Common Hex Oprf Server Client KV Json ConfigJson Demo SpecConc KVConc ReadBody.

Section Serve.
Context {LIB : OPRF}.

(** server.go:120-136, after HandleRequest. *)
Definition finish_evaluate (w : writer) (r : res ServerResponse) : res writer :=
  match r with
  | Panic m => Panic m
  | Err _ => Ok (http_error w "Internal Server Error" 500)
  | Ok migpResponse =>
      match MarshalBinary migpResponse with
      | Panic m => Panic m
      | Err _ => Ok (write_body (http_error w "Internal Server Error" 500) [])
      | Ok respBody => Ok (write_body w respBody)
      end
  end.

(** server.go:113-119 and pkg/migp/server.go:222-240 up to the call of kv.Get:
    the reply if Get is not reached, or its argument and what follows it. *)
Inductive until_get := Replies (w : res writer) | Gets (id : bytes) (rest : gslice -> res writer).
Definition evaluate_until_get (s : Server LIB) (data : bytes) : until_get :=
  let (request, err) := ClientRequest_unmarshal data in
  let w := match err with
           | Some _ => http_error fresh_writer "Bad Request" 400
           | None => fresh_writer
           end in
  if negb (u16 (rq_version request) =? s_version s)%N
  then Replies (finish_evaluate w (Err "requested version doesn't match server version"))
  else
    match evaluate LIB (s_oprfSuite s) (s_privateKey s) [sl (rq_blindElement request)] OprfInfo with
    | Panic m => Replies (Panic m)
    | Err e => Replies (finish_evaluate w (Err e))
    | Ok [] => Replies (finish_evaluate w (Err "invalid Evaluation response"))
    | Ok (element :: _) =>
        match hex_decode (rq_bucketID request) with
        | Panic m => Replies (Panic m)
        | Err _ => Replies (finish_evaluate w (Err "bucket ID not valid hex"))
        | Ok _ =>
            Gets (rq_bucketID request) (fun bucketContents =>
              finish_evaluate w (Ok {| rs_version := rq_version request;
                                       rs_evaluatedElement := element;
                                       rs_bucketContents := bucketContents |}))
        end
    end.

(** What a goroutine is doing: no request; a request for another page than
    /evaluate; in ioutil.ReadAll (server.go:106); in Get. *)
Inductive activity :=
| Free
| Answering (path : bytes)
| Receiving (body : stream) (p : progress)
| Getting (body : stream) (rest : gslice -> res writer).

Record serving := mkServing { g_store : state; g_does : nat -> activity }.

(** What a step shows. *)
Inductive shows := Arrives (path : bytes) (body : stream) | Works | Replied (r : reply).

(** Goroutine [t] makes the step from σ to σ': a step of the store in which its
    own place in the code changes. *)
Definition moved (t : nat) (σ σ' : state) : Prop := th_pc (st_thr σ' t) <> th_pc (st_thr σ t).

Variable grow : nat -> nat.
Variable s : Server LIB.

Inductive serve_step : serving -> nat -> shows -> serving -> Prop :=
(** a request arrives (its body arrives later); server.go:43-46.  The first
    slice of ReadAll is as in ReadBody.v. *)
| sv_arrives σ f t path body : f t = Free ->
    serve_step (mkServing σ f) t (Arrives path body)
      (mkServing σ (upd f t (if bytes_eqb path (str "/evaluate")
                             then Receiving body (Reading (mkReading 1 (body 0%nat) [] 512))
                             else Answering path)))
(** server.go:91-102 or a redirect; neither uses body or store *)
| sv_other σ f t path : f t = Answering path ->
    serve_step (mkServing σ f) t (Replied (mux {| migpServer := s; kv := newKVStore |} path (Ok [])))
      (mkServing σ (upd f t Free))
(** server.go:106, one round *)
| sv_round σ f t body st : f t = Receiving body (Reading st) ->
    serve_step (mkServing σ f) t Works (mkServing σ (upd f t (Receiving body (read_round grow body st))))
(** server.go:107-111 *)
| sv_broken σ f t body b e : f t = Receiving body (Done b (Some e)) ->
    serve_step (mkServing σ f) t (Replied (Page (Ok (http_error fresh_writer "Bad Request" 400))))
      (mkServing σ (upd f t Free))
(** server.go:113-137 without a call of Get *)
| sv_refused σ f t body b w : f t = Receiving body (Done b None) -> evaluate_until_get s b = Replies w ->
    serve_step (mkServing σ f) t (Replied (Page w)) (mkServing σ (upd f t Free))
(** the call of Get *)
| sv_asks σ f t body b id rest σ' : f t = Receiving body (Done b None) -> evaluate_until_get s b = Gets id rest ->
    step true σ (Some (EInvoke t (CGet id))) σ' ->
    serve_step (mkServing σ f) t Works (mkServing σ' (upd f t (Getting body rest)))
(** a step inside Get *)
| sv_inside σ f t body rest σ' : f t = Getting body rest -> step true σ None σ' -> moved t σ σ' ->
    serve_step (mkServing σ f) t Works (mkServing σ' f)
(** Get returns, and the reply *)
| sv_replies σ f t body rest v σ' : f t = Getting body rest -> step true σ (Some (EReturn t (RValue v))) σ' ->
    serve_step (mkServing σ f) t (Replied (Page (rest v))) (mkServing σ' (upd f t Free)).

(** What has happened, in order: goroutine and what its step showed. *)
Inductive serve (σ0 : state) : list (nat * shows) -> serving -> Prop :=
| serve_starts : serve σ0 [] (mkServing σ0 (fun _ => Free))
| serve_goes_on tr g t x g' : serve σ0 tr g -> serve_step g t x g' -> serve σ0 (tr ++ [(t, x)]) g'.
End Serve.
