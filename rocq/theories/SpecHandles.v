(** * Specification for C84: handles that are open. *)
From Verif Require Import Base Common Oprf Server Client Demo Main Handles.

(** The handles opened, and closed, in a list of events. *)
Definition opened (t : list hevent) : list nat :=
  flat_map (fun e => match e with Opened h _ => [h] | _ => [] end) t.
Definition closed (t : list hevent) : list nat :=
  flat_map (fun e => match e with Closed h => [h] | _ => [] end) t.

(** Those still open. *)
Definition still_open (t : list hevent) : list nat :=
  filter (fun h => negb (existsb (Nat.eqb h) (closed t))) (opened t).

(** No handle is opened twice, used or closed before it is opened or after it
    is closed. *)
Definition in_order (t : list hevent) : Prop :=
  forall before e after, t = before ++ e :: after ->
  match e with
  | Opened h _ => ~ In h (opened before)
  | ReadFrom h | Closed h => In h (still_open before)
  end.

(** At no moment more than [k]. *)
Definition at_most_open (k : nat) (t : list hevent) : Prop :=
  forall before after, t = before ++ after -> (length (still_open before) <= k)%nat.

(** The status of the response to a call of migp.Query, if a response comes. *)
Definition replied {LIB} (c : call LIB) : option N :=
  match Query_posts (q_cfg c) (q_user c) (q_pass c) (q_blind c) with
  | [payload] => match q_post c (q_url c) payload with Ok (status, _) => Some status | _ => None end
  | _ => None
  end.
Definition refused {LIB} (c : call LIB) : bool :=
  match replied c with Some status => negb (status =? 200)%N | None => false end.
