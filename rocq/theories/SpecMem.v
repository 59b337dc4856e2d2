(** * What it means that a call leaves its caller's memory alone. *)
From Verif Require Import Base Common Oprf Server Client KV Demo Mem MemCode MemStore.

(** The call [o], started in memory [h], changed no byte of an array that
    existed before (it may have allocated new arrays). *)
Definition leaves_memory {A} (h : heap) (o : res A * heap) : Prop := exists ext, snd o = h ++ ext.

(** The slice lies in memory that exists in [h'] and did not exist in [h]. *)
Definition new_in (h h' : heap) (s : mslice) : Prop := (length h <= m_arr s < length h')%nat.

(** The call, started in [h], left the old memory alone and has the outcome
    [r]: it returns a new slice that shows [b] if [r] is [Ok b], and fails or
    panics with the same message if [r] does. *)
Definition returns_new (h : heap) (o : res mslice * heap) (r : res bytes) : Prop :=
  leaves_memory h o /\
  match fst o, r with
  | Ok s, Ok b => view (snd o) s = b /\ valid (snd o) s /\ new_in h (snd o) s
  | Err e, Err e' => e = e'
  | Panic m, Panic m' => m = m'
  | _, _ => False
  end.

(** The same for a list of slices, which moreover share no memory with each
    other. *)
Definition returns_new_list (h : heap) (o : res (list mslice) * heap) (r : res (list bytes)) : Prop :=
  leaves_memory h o /\
  match fst o, r with
  | Ok ss, Ok bs =>
      map (view (snd o)) ss = bs /\ (forall s, In s ss -> valid (snd o) s /\ new_in h (snd o) s) /\
      NoDup (map m_arr ss)
  | Err e, Err e' => e = e'
  | Panic m, Panic m' => m = m'
  | _, _ => False
  end.

(** The call left the old memory alone and has the outcome [r] (of a type that
    does not mention memory). *)
Definition returns {A} (h : heap) (o : res A * heap) (r : res A) : Prop :=
  leaves_memory h o /\ fst o = r.

(** What a response that lives in memory says. *)
Definition read_response (h : heap) (r : mresponse) : ServerResponse :=
  {| rs_version := mr_version r;
     rs_evaluatedElement := view h (mr_element r);
     rs_bucketContents := option_map (view h) (mr_bucket r) |}.
Definition valid_response (h : heap) (r : mresponse) : Prop :=
  valid h (mr_element r) /\ forall b, mr_bucket r = Some b -> valid h b.

(** Finalize's outcome: the old memory is as it was, the status and the
    metadata are those of [r], the metadata is in new memory. *)
Definition returns_verdict (h : heap) (o : res (BreachStatus * option mslice) * heap) (r : res (BreachStatus * gslice)) : Prop :=
  leaves_memory h o /\
  match fst o, r with
  | Ok (status, Some s), Ok (status', Some b) => status = status' /\ view (snd o) s = b /\ valid (snd o) s /\ new_in h (snd o) s
  | Ok (status, None), Ok (status', None) => status = status'
  | Err e, Err e' => e = e'
  | Panic m, Panic m' => m = m'
  | _, _ => False
  end.

(** ** The store *)

(** What a store that lives in memory holds. *)
Definition read_store (h : heap) (store : mstore) : kvStore :=
  map (fun kv => (fst kv, option_map (view h) (snd kv))) store.

(** Every bucket has an array of its own. *)
Definition owned_arrays (store : mstore) : list nat :=
  flat_map (fun kv => match snd kv with Some s => [m_arr s] | None => [] end) store.
Definition owns (h : heap) (store : mstore) : Prop :=
  (forall k s, In (k, Some s) store -> valid h s /\ (m_arr s < length h)%nat) /\ NoDup (owned_arrays store).

(** A slice that shows no spare capacity of the store: it is empty, or lies
    outside the store's arrays, or inside what a bucket shows (as a slice does
    that Get has returned). *)
Definition safe (h : heap) (store : mstore) (s : mslice) : Prop :=
  valid h s /\
  (m_len s = 0%nat \/
   forall k t, In (k, Some t) store -> m_arr t = m_arr s ->
     (m_off t <= m_off s)%nat /\ (m_off s + m_len s <= m_off t + m_len t)%nat).

(** What a step that only adds to the store may do to memory: the store still
    owns its memory, arrays that the store does not own are as they were, and a
    safe slice still shows the same bytes and is still safe. *)
Definition store_step (h : heap) (store : mstore) (h' : heap) (store' : mstore) : Prop :=
  owns h' store' /\ (length h <= length h')%nat /\
  (forall a, (a < length h)%nat -> ~ In a (owned_arrays store) -> array h' a = array h a) /\
  (forall a, In a (owned_arrays store') -> In a (owned_arrays store) \/ (length h <= a)%nat) /\
  (forall s, safe h store s -> view h' s = view h s /\ safe h' store' s).

(** Between two lines of input, anything may happen to memory that the store
    does not own: the scanner re-uses its buffer. *)
Definition elsewhere (store : mstore) (h h' : heap) : Prop :=
  (length h <= length h')%nat /\ forall a, In a (owned_arrays store) -> array h' a = array h a.

Definition read_ingest (h : heap) (st : mingest) : ingest :=
  {| in_store := read_store h (mi_store st); in_success := mi_success st; in_failure := mi_failure st |}.

(** The ingestion of some lines (cmd/server/main.go:80-93): each line is a slice
    that shows the line at the moment it is handled, in memory that is not the
    store's. *)
Inductive ingestion {LIB} (grow : heap -> mslice -> bytes -> nat) (s : Server LIB) (metadata : bytes) (n : Z) (incl : bool)
  : mingest -> heap -> list bytes -> res mingest -> heap -> Prop :=
| ingestion_done st h : ingestion grow s metadata n incl st h [] (Ok st) h
| ingestion_line st h h1 line l st' h2 ls r h3 :
    elsewhere (mi_store st) h h1 -> valid h1 line -> ~ In (m_arr line) (owned_arrays (mi_store st)) -> view h1 line = l ->
    ingest_line_m grow s metadata n incl st line h1 = (Ok st', h2) ->
    ingestion grow s metadata n incl st' h2 ls r h3 ->
    ingestion grow s metadata n incl st h (l :: ls) r h3
| ingestion_crash st h h1 line l ls m h2 :
    elsewhere (mi_store st) h h1 -> valid h1 line -> ~ In (m_arr line) (owned_arrays (mi_store st)) -> view h1 line = l ->
    ingest_line_m grow s metadata n incl st line h1 = (Panic m, h2) ->
    ingestion grow s metadata n incl st h (l :: ls) (Panic m) h2.
