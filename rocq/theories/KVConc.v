(** * Model of cmd/server/kv.go under concurrency: goroutines, the RWMutex,
    slices with backing arrays and in-place append.

    Every line of kv.go that touches shared state is a separate step, and the
    bytes of an append are written one by one.  Steps of different threads
    interleave freely; the most general client is modelled: a thread outside a
    call may invoke any method at any time.  Sequential consistency is
    justified by [C18_no_data_race] (the Go memory model promises it for
    programs without data races).

    Simplifications: slices start at the beginning of their array; RWMutex
    admits any waiting thread ([RWLock.v] has Go's mutex, which prefers waiting
    writers and so allows fewer schedules); when append moves a bucket to a new
    array the old bytes are copied in one step (the new array is not yet shared). *)
From Verif Require Import Base KV SpecConc.

(** A non-nil slice: array, length, capacity. *)
Record slc := mkSlc { s_arr : nat; s_len : nat; s_cap : nat }.

(** The heap: arrays by number; [h_next] is the next free number. *)
Record heap := mkHeap { h_arr : nat -> bytes; h_next : nat }.

Definition cont (h : heap) (s : slc) : bytes := firstn (s_len s) (h_arr h (s_arr s)).
(** The bytes a possibly nil slice stands for. *)
Definition value_of (h : heap) (s : option slc) : gslice := option_map (cont h) s.

Definition alloc (h : heap) (b : bytes) : heap * nat :=
  (mkHeap (upd (h_arr h) (h_next h) b) (S (h_next h)), h_next h).
Fixpoint set_nth (l : bytes) (i : nat) (b : byte) : bytes :=
  match l, i with
  | [], _ => []
  | _ :: r, O => b :: r
  | x :: r, S i' => x :: set_nth r i' b
  end.
Definition write (h : heap) (a i : nat) (b : byte) : heap :=
  mkHeap (upd (h_arr h) a (set_nth (h_arr h a) i b)) (h_next h).

(** Where a thread is in the code. *)
Inductive pc :=
| Idle
(* Put: kv.go:25 Lock, 27 store, 26 deferred Unlock *)
| PutLock (id : bytes) (v : option slc)
| PutStore (id : bytes) (v : option slc)
| PutUnlock
(* Append: kv.go:33 Lock, 35 (map read, append, map write), 34 deferred Unlock *)
| AppLock (id v : bytes)
| AppLoad (id v : bytes)
| AppGrow (id v : bytes) (old : option slc)
| AppFill (id v : bytes) (a cap base j : nat)
| AppStore (id v : bytes) (new : option slc)
| AppUnlock
(* Get: kv.go:41 RLock, 43 map read, 42 deferred RUnlock *)
| GetLock (id : bytes)
| GetLoad (id : bytes)
| GetUnlock (r : option slc)
(* returning *)
| RetDone
| RetValue (r : option slc).

(** A thread: where it is, the slices it holds (newest first), and whether it
    built the newest itself and has not given it away by Put. *)
Record thread := mkThread { th_pc : pc; th_held : list (option slc); th_own : bool }.
Definition newest (l : list (option slc)) : option slc := match l with s :: _ => s | [] => None end.

Record state := mkState {
  st_map : bytes -> option slc;       (* kv.go:12; absent keys read as nil *)
  st_writer : option nat;             (* kv.go:13: the thread in Lock *)
  st_readers : list nat;              (* kv.go:13: the threads in RLock *)
  st_heap : heap;
  st_thr : nat -> thread }.

Definition set_key (m : bytes -> option slc) (id : bytes) (v : option slc) : bytes -> option slc :=
  fun id' => if bytes_eqb id id' then v else m id'.
Definition go (σ : state) (t : nat) (p : pc) : nat -> thread :=
  upd (st_thr σ) t (mkThread p (th_held (st_thr σ t)) (th_own (st_thr σ t))).

Definition init : state :=
  mkState (fun _ => None) None [] (mkHeap (fun _ => []) 0) (fun _ => mkThread Idle [] false).

(** capacity and length of a possibly nil slice *)
Definition len0 (s : option slc) : nat := match s with Some s => s_len s | None => 0 end.
Definition cap0 (s : option slc) : nat := match s with Some s => s_cap s | None => 0 end.

(** [strict] = the caller of Put gives the slice away: it built it and has not
    put it before. *)
Inductive step (strict : bool) : state -> option event -> state -> Prop :=
(** the client builds a slice with spare capacity *)
| st_make σ t v junk h a : th_pc (st_thr σ t) = Idle -> alloc (st_heap σ) (v ++ junk) = (h, a) ->
    step strict σ (Some (EMake t v))
      (mkState (st_map σ) (st_writer σ) (st_readers σ) h
        (upd (st_thr σ) t (mkThread Idle (Some (mkSlc a (length v) (length (v ++ junk))) :: th_held (st_thr σ t)) true)))
(** the client reads one byte of a slice it holds, without any lock *)
| st_use σ t k s i b : th_pc (st_thr σ t) = Idle -> nth_error (th_held (st_thr σ t)) k = Some (Some s) -> i < s_len s ->
    nth_error (h_arr (st_heap σ) (s_arr s)) i = Some b ->
    step strict σ (Some (EUse t k i b)) σ
(** kv.go:24, call of Put with the newest slice held (nil if none) *)
| st_put_call σ t id : th_pc (st_thr σ t) = Idle ->
    (strict = true -> newest (th_held (st_thr σ t)) <> None -> th_own (st_thr σ t) = true) ->
    step strict σ (Some (EInvoke t (CPut id (value_of (st_heap σ) (newest (th_held (st_thr σ t)))))))
      (mkState (st_map σ) (st_writer σ) (st_readers σ) (st_heap σ)
        (upd (st_thr σ) t (mkThread (PutLock id (newest (th_held (st_thr σ t)))) (th_held (st_thr σ t)) false)))
(** kv.go:25 *)
| st_put_lock σ t id v : th_pc (st_thr σ t) = PutLock id v -> st_writer σ = None -> st_readers σ = [] ->
    step strict σ None (mkState (st_map σ) (Some t) [] (st_heap σ) (go σ t (PutStore id v)))
(** kv.go:27 *)
| st_put_store σ t id v : th_pc (st_thr σ t) = PutStore id v ->
    step strict σ None (mkState (set_key (st_map σ) id v) (st_writer σ) (st_readers σ) (st_heap σ) (go σ t PutUnlock))
(** kv.go:26 *)
| st_put_unlock σ t : th_pc (st_thr σ t) = PutUnlock ->
    step strict σ None (mkState (st_map σ) None (st_readers σ) (st_heap σ) (go σ t RetDone))
(** kv.go:32, call of Append *)
| st_app_call σ t id v : th_pc (st_thr σ t) = Idle ->
    step strict σ (Some (EInvoke t (CAppend id v)))
      (mkState (st_map σ) (st_writer σ) (st_readers σ) (st_heap σ) (go σ t (AppLock id v)))
(** kv.go:33 *)
| st_app_lock σ t id v : th_pc (st_thr σ t) = AppLock id v -> st_writer σ = None -> st_readers σ = [] ->
    step strict σ None (mkState (st_map σ) (Some t) [] (st_heap σ) (go σ t (AppLoad id v)))
(** kv.go:35, the map read *)
| st_app_load σ t id v : th_pc (st_thr σ t) = AppLoad id v ->
    step strict σ None (mkState (st_map σ) (st_writer σ) (st_readers σ) (st_heap σ) (go σ t (AppGrow id v (st_map σ id))))
(** kv.go:35, append of nothing to nil: nil *)
| st_app_nil σ t id : th_pc (st_thr σ t) = AppGrow id [] None ->
    step strict σ None (mkState (st_map σ) (st_writer σ) (st_readers σ) (st_heap σ) (go σ t (AppStore id [] None)))
(** kv.go:35, append with enough capacity: write behind the bytes in place *)
| st_app_inplace σ t id v s : th_pc (st_thr σ t) = AppGrow id v (Some s) -> s_len s + length v <= s_cap s ->
    step strict σ None (mkState (st_map σ) (st_writer σ) (st_readers σ) (st_heap σ)
      (go σ t (AppFill id v (s_arr s) (s_cap s) (s_len s) 0)))
(** kv.go:35, append without enough capacity: a new array of any sufficient
    size, with the old bytes copied *)
| st_app_grow σ t id v old extra h a : th_pc (st_thr σ t) = AppGrow id v old -> cap0 old < len0 old + length v ->
    alloc (st_heap σ) (sl (value_of (st_heap σ) old) ++ zeros (length v + extra)) = (h, a) ->
    step strict σ None (mkState (st_map σ) (st_writer σ) (st_readers σ) h
      (go σ t (AppFill id v a (len0 old + length v + extra) (len0 old) 0)))
(** kv.go:35, append: one byte *)
| st_app_fill σ t id v a cap base j b : th_pc (st_thr σ t) = AppFill id v a cap base j -> nth_error v j = Some b ->
    step strict σ None (mkState (st_map σ) (st_writer σ) (st_readers σ) (write (st_heap σ) a (base + j) b)
      (go σ t (AppFill id v a cap base (S j))))
| st_app_filled σ t id v a cap base : th_pc (st_thr σ t) = AppFill id v a cap base (length v) ->
    step strict σ None (mkState (st_map σ) (st_writer σ) (st_readers σ) (st_heap σ)
      (go σ t (AppStore id v (Some (mkSlc a (base + length v) cap)))))
(** kv.go:35, the map write *)
| st_app_store σ t id v new : th_pc (st_thr σ t) = AppStore id v new ->
    step strict σ None (mkState (set_key (st_map σ) id new) (st_writer σ) (st_readers σ) (st_heap σ) (go σ t AppUnlock))
(** kv.go:34 *)
| st_app_unlock σ t : th_pc (st_thr σ t) = AppUnlock ->
    step strict σ None (mkState (st_map σ) None (st_readers σ) (st_heap σ) (go σ t RetDone))
(** kv.go:40, call of Get *)
| st_get_call σ t id : th_pc (st_thr σ t) = Idle ->
    step strict σ (Some (EInvoke t (CGet id)))
      (mkState (st_map σ) (st_writer σ) (st_readers σ) (st_heap σ) (go σ t (GetLock id)))
(** kv.go:41 *)
| st_get_lock σ t id : th_pc (st_thr σ t) = GetLock id -> st_writer σ = None ->
    step strict σ None (mkState (st_map σ) None (t :: st_readers σ) (st_heap σ) (go σ t (GetLoad id)))
(** kv.go:43 *)
| st_get_load σ t id : th_pc (st_thr σ t) = GetLoad id ->
    step strict σ None (mkState (st_map σ) (st_writer σ) (st_readers σ) (st_heap σ) (go σ t (GetUnlock (st_map σ id))))
(** kv.go:42 *)
| st_get_unlock σ t r : th_pc (st_thr σ t) = GetUnlock r ->
    step strict σ None (mkState (st_map σ) (st_writer σ) (remove Nat.eq_dec t (st_readers σ)) (st_heap σ) (go σ t (RetValue r)))
(** return from Put or Append *)
| st_ret_done σ t : th_pc (st_thr σ t) = RetDone ->
    step strict σ (Some (EReturn t RDone)) (mkState (st_map σ) (st_writer σ) (st_readers σ) (st_heap σ) (go σ t Idle))
(** return from Get: the thread now holds the slice too *)
| st_ret_value σ t r : th_pc (st_thr σ t) = RetValue r ->
    step strict σ (Some (EReturn t (RValue (value_of (st_heap σ) r))))
      (mkState (st_map σ) (st_writer σ) (st_readers σ) (st_heap σ) (upd (st_thr σ) t (mkThread Idle (r :: th_held (st_thr σ t)) false))).

(** Executions from the empty store, with the events they show. *)
Inductive exec (strict : bool) : list event -> state -> Prop :=
| exec_start : exec strict [] init
| exec_next tr σ e σ' : exec strict tr σ -> step strict σ e σ' -> exec strict (snoc tr e) σ'.

(** Memory locations, and what the next step of a thread may touch ([true] is
    a write).  A thread outside a call may read any byte of the slices it
    holds. *)
Inductive loc := LMap | LByte (a i : nat).
Definition read_slice (s : option slc) : list (bool * loc) :=
  match s with Some s => map (fun i => (false, LByte (s_arr s) i)) (seq 0 (s_len s)) | None => [] end.
Definition accesses (th : thread) : list (bool * loc) :=
  match th_pc th with
  | Idle => flat_map read_slice (th_held th)
  | PutStore _ _ => [(true, LMap)]
  | AppLoad _ _ => [(false, LMap)]
  | AppGrow _ _ old => read_slice old
  | AppFill _ v a _ base j => if (j <? length v)%nat then [(true, LByte a (base + j))] else []
  | AppStore _ _ _ => [(true, LMap)]
  | GetLoad _ => [(false, LMap)]
  | _ => []
  end.
(** Two threads about to touch one location, one of them writing. *)
Definition data_race (σ : state) : Prop :=
  exists t t' l w, t <> t' /\ In (true, l) (accesses (st_thr σ t)) /\ In (w, l) (accesses (st_thr σ t')).

(** The thread is between Lock and Unlock (kv.go:25-26, 33-34), or between
    RLock and RUnlock (kv.go:41-42). *)
Definition in_write (p : pc) : bool :=
  match p with
  | PutStore _ _ | PutUnlock | AppLoad _ _ | AppGrow _ _ _ | AppFill _ _ _ _ _ _ | AppStore _ _ _ | AppUnlock => true
  | _ => false
  end.
Definition in_read (p : pc) : bool := match p with GetLoad _ | GetUnlock _ => true | _ => false end.

(** Executions from any state. *)
Inductive steps (strict : bool) : state -> list event -> state -> Prop :=
| steps_here σ : steps strict σ [] σ
| steps_next σ tr e σ1 σ2 : steps strict σ tr σ1 -> step strict σ1 e σ2 -> steps strict σ (snoc tr e) σ2.

(** The same, counting the steps; and steps that no client brings about. *)
Inductive runs (strict : bool) : nat -> list event -> state -> Prop :=
| runs_start : runs strict 0 [] init
| runs_next n tr σ e σ' : runs strict n tr σ -> step strict σ e σ' -> runs strict (S n) (snoc tr e) σ'.
Inductive serves (strict : bool) : nat -> state -> list event -> state -> Prop :=
| serves_here σ : serves strict 0 σ [] σ
| serves_next n σ tr e σ1 σ2 : serves strict n σ tr σ1 -> step strict σ1 e σ2 -> by_client e = false -> serves strict (S n) σ (snoc tr e) σ2.
