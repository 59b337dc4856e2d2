(** * Specification: vocabulary for what the programs are seen to do.

    Events and [exec] are in Effects.v. *)
From Verif Require Import Base Client Main SpecDemo SpecDecode Effects Scanner.

(** What has arrived on standard output. *)
Definition arrived (t : list event) : bytes :=
  flat_map (fun e => match e with EPrint b n _ => firstn n b | _ => [] end) t.
(** What the program has tried to write on standard output, write by write. *)
Definition prints (t : list event) : list bytes :=
  flat_map (fun e => match e with EPrint b _ _ => [b] | _ => [] end) t.
(** The bodies posted and the answers to them. *)
Definition posted (t : list event) : list (bytes * res (N * res bytes)) :=
  flat_map (fun e => match e with EPost _ d a => [(d, a)] | _ => [] end) t.
(** The lines taken from the input. *)
Definition taken (t : list event) : list bytes :=
  flat_map (fun e => match e with ELine l => [l] | _ => [] end) t.
(** The messages on standard error. *)
Definition messages (t : list event) : list message :=
  flat_map (fun e => match e with ELog m => [m] | _ => [] end) t.

(** No write to standard output has failed. *)
Definition output_works (t : list event) : Prop := forall b n ok, In (EPrint b n ok) t -> ok = true.
(** The answers are those of [net]. *)
Definition answered_by (net : network) (t : list event) : Prop :=
  (forall url a, In (EGet url a) t -> a = n_get net url) /\ (forall url d a, In (EPost url d a) t -> a = n_post net url d).
(** The same, but for what became of the writes to standard output. *)
Definition same_but_output (t t' : list event) : Prop :=
  Forall2 (fun e e' => e = e' \/ exists b n ok n' ok', e = EPrint b n ok /\ e' = EPrint b n' ok') t t'.

(** ** The log of the server *)

(** For each line, whether it was stored: it has a colon and its insert
    succeeded.  [outs] are the outcomes of the inserts of the lines with a
    colon. *)
Fixpoint line_results (lines : list bytes) (outs : list (res unit)) : list bool :=
  match lines with
  | [] => []
  | l :: r =>
      match split_colon l, outs with
      | None, _ => false :: line_results r outs
      | Some _, x :: outs' => is_ok x :: line_results r outs'
      | Some _, [] => []
      end
  end.
(** The counts after each line that was stored: the lines stored so far, and
    the lines before it that were not. *)
Definition count (x : bool) (l : list bool) : N := N.of_nat (length (filter (Bool.eqb x) l)).
Definition progress (results : list bool) : list (N * N) :=
  map (fun i => (count true (firstn (S i) results), count false (firstn i results)))
      (filter (fun i => nth i results false) (seq 0 (length results))).
(** "Encrypting breach entries: <ok> successes, <bad> failures" *)
Definition says (ok bad : N) (b : bytes) : Prop :=
  exists x y, plain_natural x ok /\ plain_natural y bad
    /\ b = str "Encrypting breach entries: " ++ x ++ str " successes, " ++ y ++ str " failures".
