(** * Specification: a key-value store shared by goroutines whose every call
    takes effect at one instant.

    Threads (goroutines) are numbered.  The observable events are: a thread
    builds a byte slice of its own, invokes a call, returns from a call, or
    looks at one byte of a slice it holds (one that it built or that a Get
    returned to it; it keeps them all).  Values are plain byte strings here: there is no
    sharing. *)
From Verif Require Import Base Common Oprf Server KV SpecProtocol.

(** The calls: Put, Append, Get.  nil and empty slices are told apart. *)
Inductive call :=
| CPut (id : bytes) (v : gslice)
| CAppend (id v : bytes)
| CGet (id : bytes).

(** Their results: Put and Append return a nil error only. *)
Inductive result := RDone | RValue (v : gslice).

Inductive event :=
| EMake (t : nat) (v : bytes)        (* t builds a slice with these bytes *)
| EInvoke (t : nat) (c : call)
| EReturn (t : nat) (r : result)
| EUse (t k i : nat) (b : byte).     (* t reads byte i of its k-th slice (0 = newest): b *)

(** The effect of a call on the sequential store of [KV.v]. *)
Definition apply (kv : kvStore) (c : call) : kvStore * result :=
  match c with
  | CPut id v => (kv_Put kv id v, RDone)
  | CAppend id v => (kv_Append kv id v, RDone)
  | CGet id => (kv, RValue (kv_lookup kv id))
  end.

(** A thread is outside any call, has invoked a call that has not taken effect,
    or has a result to return. *)
Inductive status := SOut | SCalled (c : call) | SDone (r : result).

Record spec := mkSpec {
  sp_kv : kvStore;
  sp_log : list (nat * call);      (* the calls that took effect, in order *)
  sp_status : nat -> status;
  sp_held : nat -> list gslice }   (* newest first *).

Definition upd {A} (f : nat -> A) (t : nat) (x : A) : nat -> A :=
  fun t' => if (t' =? t)%nat then x else f t'.

Definition spec_init : spec := mkSpec newKVStore [] (fun _ => SOut) (fun _ => []).

Inductive spec_step : spec -> option event -> spec -> Prop :=
| sp_make kv l st held t v : st t = SOut ->
    spec_step (mkSpec kv l st held) (Some (EMake t v)) (mkSpec kv l st (upd held t (Some v :: held t)))
| sp_use kv l st held t k v i b : st t = SOut -> nth_error (held t) k = Some (Some v) -> nth_error v i = Some b ->
    spec_step (mkSpec kv l st held) (Some (EUse t k i b)) (mkSpec kv l st held)
| sp_invoke kv l st held t c : st t = SOut ->
    spec_step (mkSpec kv l st held) (Some (EInvoke t c)) (mkSpec kv l (upd st t (SCalled c)) held)
| sp_effect kv l st held t c : st t = SCalled c ->
    spec_step (mkSpec kv l st held) None
      (mkSpec (fst (apply kv c)) (l ++ [(t, c)]) (upd st t (SDone (snd (apply kv c)))) held)
| sp_return kv l st held t r : st t = SDone r ->
    spec_step (mkSpec kv l st held) (Some (EReturn t r))
      (mkSpec kv l (upd st t SOut) (match r with RValue v => upd held t (v :: held t) | RDone => held end)).

Definition snoc (tr : list event) (e : option event) : list event :=
  match e with Some e => tr ++ [e] | None => tr end.

Inductive spec_exec : list event -> spec -> Prop :=
| spec_start : spec_exec [] spec_init
| spec_next tr a e a' : spec_exec tr a -> spec_step a e a' -> spec_exec (snoc tr e) a'.

(** What the atomic store can show. *)
Definition atomic_trace (tr : list event) : Prop := exists a, spec_exec tr a.

(** The calls a thread invoked, and how many calls it returned from. *)
Definition invoked_by (t : nat) (tr : list event) : list call :=
  flat_map (fun e => match e with EInvoke t' c => if (t' =? t)%nat then [c] else [] | _ => [] end) tr.
Definition returned_by (t : nat) (tr : list event) : nat :=
  length (filter (fun e => match e with EReturn t' _ => (t' =? t)%nat | _ => false end) tr).
(** The calls of one thread in a list of calls. *)
Definition of_thread (t : nat) (l : list (nat * call)) : list call :=
  flat_map (fun p => if (fst p =? t)%nat then [snd p] else []) l.
(** The store after a list of calls. *)
Definition replay (l : list (nat * call)) : kvStore := fold_left (fun kv p => fst (apply kv (snd p))) l newKVStore.
Definition prefix_of {A} (a b : list A) : Prop := exists r, b = a ++ r.
(** [L] has every call that returned within [early] and only calls invoked
    within [late]; the calls of one thread are in the order of invocation. *)
Definition between (L : list (nat * call)) (early late : list event) : Prop :=
  forall t, returned_by t early <= length (of_thread t L) /\ prefix_of (of_thread t L) (invoked_by t late).
(** How many slices thread [t] came to hold. *)
Definition newer (t : nat) (tr : list event) : nat :=
  length (filter (fun e => match e with EMake t' _ => (t' =? t)%nat | EReturn t' (RValue _) => (t' =? t)%nat | _ => false end) tr).

(** One goroutine puts one slice "ab" under two keys, appends "c" to the first
    and "d" to the second, and reads the first: "abd". *)
Definition share_trace : list event :=
  [EMake 0 (str "ab");
   EInvoke 0 (CPut (str "k1") (Some (str "ab"))); EReturn 0 RDone;
   EInvoke 0 (CPut (str "k2") (Some (str "ab"))); EReturn 0 RDone;
   EInvoke 0 (CAppend (str "k1") (str "c")); EReturn 0 RDone;
   EInvoke 0 (CAppend (str "k2") (str "d")); EReturn 0 RDone;
   EInvoke 0 (CGet (str "k1")); EReturn 0 (RValue (Some (str "abd")))].

(** The calls the server makes: Get, and Append of the encrypted entry of a
    credential to the bucket of its username. *)
Definition stored_as {LIB} (s : Server LIB) (d : cred) (c : call) : Prop :=
  exists id e, Server_BucketID s (d_user d) = Ok id
    /\ EncryptBucketEntry s (d_user d) (d_pass d) (d_flag d) (d_meta d) = Ok e
    /\ c = CAppend (BucketIDToHex id) e.
Definition server_call {LIB} (s : Server LIB) (c : call) : Prop := (exists id, c = CGet id) \/ (exists d, stored_as s d c).
(** The Appends of a list of calls. *)
Definition appends (l : list (nat * call)) : list call :=
  flat_map (fun p => match snd p with CAppend id v => [CAppend id v] | _ => [] end) l.

(** Events that a client brings about of its own accord, and what it may cost
    the store to serve them: the steps of the call and its return. *)
Definition by_client (e : option event) : bool :=
  match e with Some (EMake _ _) | Some (EInvoke _ _) | Some (EUse _ _ _ _) => true | _ => false end.
Definition cost (e : event) : nat :=
  match e with
  | EMake _ _ | EUse _ _ _ _ => 1
  | EInvoke _ (CPut _ _) | EInvoke _ (CGet _) => 5
  | EInvoke _ (CAppend _ v) => 8 + length v
  | EReturn _ _ => 0
  end.
