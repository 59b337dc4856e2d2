(** * Specification for C95: many clients at one server. *)
From Verif Require Import Base Common Oprf Server Client KV Json Demo SpecDemo Url Main SpecConc KVConc ReadBody SpecRead ServeConc SpecServeConc Effects SpecEffects.

(** In [tr] a request for [path] whose body came to [d] was replied to with [r]. *)
Definition replied (tr : list (nat * shows)) (path d : bytes) (r : reply) : Prop :=
  exists tr1 t tr2 body n m, tr = tr1 ++ (t, Replied r) :: tr2 /\ open_now t tr1 = Some (path, body, n)
    /\ ends_at body m EOF /\ first_pieces body (S m) = d.

(** [a] is what http.Get gives for [path], with the requests it takes replied to
    in [tr]: at most [left] of them. *)
Inductive got (tr : list (nat * shows)) : nat -> bytes -> res (N * bytes) -> Prop :=
| got_too_many path : got tr 0 path (Err "stopped after 10 redirects")
| got_page left path w : replied tr path [] (Page (Ok w)) -> got tr (S left) path (Ok (response_of w))
| got_crash left path x : replied tr path [] (Page x) -> is_ok x = false -> got tr (S left) path (Err "EOF")
| got_moved left path p a : replied tr path [] (MovedTo p) -> got tr left p a -> got tr (S left) path a.
(** The same for http.DefaultClient.Do with a POST of [d]. *)
Inductive done (tr : list (nat * shows)) (path d : bytes) : res (N * res bytes) -> Prop :=
| done_page w : replied tr path d (Page (Ok w)) -> done tr path d (Ok (fst (response_of w), Ok (snd (response_of w))))
| done_crash x : replied tr path d (Page x) -> is_ok x = false -> done tr path d (Err "EOF")
| done_moved p code b : replied tr path d (MovedTo p) -> got tr 9 p (Ok (code, b)) -> done tr path d (Ok (code, Ok b))
| done_moved_err p e : replied tr path d (MovedTo p) -> got tr 9 p (Err e) -> done tr path d (Err e).

(** All HTTP requests of a client that has shown [t] went to the server at
    [host] and were replied to in [tr].  URLs that the model does not read
    ([url_path]) are errors, as in Main.v's [behind]. *)
Definition served_in (tr : list (nat * shows)) (host : bytes) (t : list event) : Prop :=
  (forall url a, In (EGet url a) t -> match url_path host url with Some path => got tr 10 path a | None => a = Err "not modelled" end)
  /\ (forall url d a, In (EPost url d a) t -> match url_path host url with Some path => done tr path d a | None => a = Err "not modelled" end).
