(** * Model of sync.RWMutex (src/sync/rwmutex.go of Go 1.20 and later, without
    the race detector) and of cmd/server/kv.go using it.

    Each atomic operation of the mutex is one step.  [KVConc.v] has an abstract
    lock that lets any waiting thread in; here a thread gets in as the code of
    RWMutex decides, writers before later readers.  Everything else is taken
    from [KVConc.step].

    Simplifications: the inner sync.Mutex [w] is a lock that one thread at a
    time can take when it is free; the runtime's semaphores are counters that a
    waiting thread can decrease when they are positive, in any order; there are
    [n] threads.  The fields [st_writer] and [st_readers] of the states of
    [KVConc.v] are kept up to date but never looked at here. *)
From Verif Require Import Base KV SpecConc KVConc ConcRun.

(** Atomic int32 arithmetic. *)
Definition int32 (z : Z) : Z := ((z + 2 ^ 31) mod 2 ^ 32 - 2 ^ 31)%Z.
(** rwmutex.go: rwmutexMaxReaders *)
Definition maxReaders : Z := (2 ^ 30)%Z.

(** rwmutex.go: type RWMutex *)
Record rwmutex := mkRW {
  rw_w : option nat;        (* w: who holds it *)
  rw_writerSem : nat;
  rw_readerSem : nat;
  rw_count : Z;             (* readerCount *)
  rw_wait : Z }.            (* readerWait *)
Definition rw_zero : rwmutex := mkRW None 0 0 0 0.

(** Where a thread is inside a method of the mutex. *)
Inductive lpc :=
| LOut                      (* in none, or about to call one *)
| LMutex                    (* Lock: has w, before readerCount.Add *)
| LAnnounced (r : Z)        (* Lock: before readerWait.Add(r) *)
| LWaitWriter               (* Lock: before or in Semacquire(&writerSem) *)
| LRelease (k : nat)        (* Unlock: k rounds of the loop are left, then w.Unlock *)
| LWaitReader               (* RLock: before or in Semacquire(&readerSem) *)
| LSlow (r : Z)             (* RUnlock: in rUnlockSlow(r) *)
| LWake.                    (* rUnlockSlow: before Semrelease(&writerSem) *)

Record cstate := mkC { c_st : state; c_rw : rwmutex; c_lpc : nat -> lpc; c_fatal : bool }.
Definition c_init : cstate := mkC init rw_zero (fun _ => LOut) false.

(** The program counters at which kv.go calls Lock, Unlock, RLock, RUnlock. *)
Definition at_lock (p : pc) : bool := match p with PutLock _ _ | AppLock _ _ => true | _ => false end.
Definition at_unlock (p : pc) : bool := match p with PutUnlock | AppUnlock => true | _ => false end.
Definition at_rlock (p : pc) : bool := match p with GetLock _ => true | _ => false end.
Definition at_runlock (p : pc) : bool := match p with GetUnlock _ => true | _ => false end.
Definition at_mutex (p : pc) : bool := at_lock p || at_unlock p || at_rlock p || at_runlock p.

Definition pc_of (c : cstate) (t : nat) : pc := th_pc (st_thr (c_st c) t).

(** Lock, RLock, Unlock and RUnlock have had their effect: kv.go goes on. *)
Definition locked (σ : state) (t : nat) : state :=
  mkState (st_map σ) (Some t) [] (st_heap σ)
    (go σ t (match th_pc (st_thr σ t) with PutLock id v => PutStore id v | AppLock id v => AppLoad id v | p => p end)).
Definition rlocked (σ : state) (t : nat) : state :=
  mkState (st_map σ) None (t :: st_readers σ) (st_heap σ)
    (go σ t (match th_pc (st_thr σ t) with GetLock id => GetLoad id | p => p end)).
Definition unlocked (σ : state) (t : nat) : state :=
  mkState (st_map σ) None (st_readers σ) (st_heap σ) (go σ t RetDone).
Definition runlocked (σ : state) (t : nat) : state :=
  mkState (st_map σ) (st_writer σ) (remove Nat.eq_dec t (st_readers σ)) (st_heap σ)
    (go σ t (match th_pc (st_thr σ t) with GetUnlock r => RetValue r | p => p end)).

Section Steps.
Variable n : nat.
Variable strict : bool.

(** One step of thread [t]. *)
Inductive tstep (t : nat) : cstate -> option event -> cstate -> Prop :=
(** any step of kv.go and of the client other than a call of the mutex *)
| c_work σ rw l e σ' : l t = LOut -> at_mutex (th_pc (st_thr σ t)) = false -> step strict σ e σ' ->
    (forall t', t' <> t -> st_thr σ' t' = st_thr σ t') ->
    tstep t (mkC σ rw l false) e (mkC σ' rw l false)
(** Lock: rw.w.Lock() *)
| c_lock σ ws rs cnt wt l : l t = LOut -> at_lock (th_pc (st_thr σ t)) = true ->
    tstep t (mkC σ (mkRW None ws rs cnt wt) l false) None (mkC σ (mkRW (Some t) ws rs cnt wt) (upd l t LMutex) false)
(** Lock: r := readerCount.Add(-rwmutexMaxReaders) + rwmutexMaxReaders; r != 0 *)
| c_announce σ w ws rs cnt wt l r : l t = LMutex -> r = int32 (int32 (cnt - maxReaders) + maxReaders) -> r <> 0%Z ->
    tstep t (mkC σ (mkRW w ws rs cnt wt) l false) None (mkC σ (mkRW w ws rs (int32 (cnt - maxReaders)) wt) (upd l t (LAnnounced r)) false)
| c_announce_free σ w ws rs cnt wt l : l t = LMutex -> int32 (int32 (cnt - maxReaders) + maxReaders) = 0%Z ->
    tstep t (mkC σ (mkRW w ws rs cnt wt) l false) None (mkC (locked σ t) (mkRW w ws rs (int32 (cnt - maxReaders)) wt) (upd l t LOut) false)
(** Lock: rw.readerWait.Add(r) != 0 *)
| c_wait σ w ws rs cnt wt l r : l t = LAnnounced r -> int32 (wt + r) <> 0%Z ->
    tstep t (mkC σ (mkRW w ws rs cnt wt) l false) None (mkC σ (mkRW w ws rs cnt (int32 (wt + r))) (upd l t LWaitWriter) false)
| c_wait_free σ w ws rs cnt wt l r : l t = LAnnounced r -> int32 (wt + r) = 0%Z ->
    tstep t (mkC σ (mkRW w ws rs cnt wt) l false) None (mkC (locked σ t) (mkRW w ws rs cnt (int32 (wt + r))) (upd l t LOut) false)
(** Lock: runtime_SemacquireRWMutex(&rw.writerSem) *)
| c_acquire σ w ws rs cnt wt l : l t = LWaitWriter ->
    tstep t (mkC σ (mkRW w (S ws) rs cnt wt) l false) None (mkC (locked σ t) (mkRW w ws rs cnt wt) (upd l t LOut) false)
(** RLock: rw.readerCount.Add(1) < 0 *)
| c_rlock σ w ws rs cnt wt l : l t = LOut -> at_rlock (th_pc (st_thr σ t)) = true -> (int32 (cnt + 1) >= 0)%Z ->
    tstep t (mkC σ (mkRW w ws rs cnt wt) l false) None (mkC (rlocked σ t) (mkRW w ws rs (int32 (cnt + 1)) wt) l false)
| c_rlock_wait σ w ws rs cnt wt l : l t = LOut -> at_rlock (th_pc (st_thr σ t)) = true -> (int32 (cnt + 1) < 0)%Z ->
    tstep t (mkC σ (mkRW w ws rs cnt wt) l false) None (mkC σ (mkRW w ws rs (int32 (cnt + 1)) wt) (upd l t LWaitReader) false)
(** RLock: runtime_SemacquireRWMutexR(&rw.readerSem) *)
| c_racquire σ w ws rs cnt wt l : l t = LWaitReader ->
    tstep t (mkC σ (mkRW w ws (S rs) cnt wt) l false) None (mkC (rlocked σ t) (mkRW w ws rs cnt wt) (upd l t LOut) false)
(** RUnlock: r := rw.readerCount.Add(-1); r < 0 *)
| c_runlock σ w ws rs cnt wt l r : l t = LOut -> at_runlock (th_pc (st_thr σ t)) = true -> r = int32 (cnt - 1) ->
    tstep t (mkC σ (mkRW w ws rs cnt wt) l false) None
      (mkC (runlocked σ t) (mkRW w ws rs r wt) (upd l t (if (r <? 0)%Z then LSlow r else LOut)) false)
(** rUnlockSlow: fatal("sync: RUnlock of unlocked RWMutex") *)
| c_rslow_fatal σ rw l r : l t = LSlow r -> (int32 (r + 1) = 0 \/ int32 (r + 1) = - maxReaders)%Z ->
    tstep t (mkC σ rw l false) None (mkC σ rw l true)
(** rUnlockSlow: rw.readerWait.Add(-1) == 0 *)
| c_rslow σ w ws rs cnt wt l r : l t = LSlow r -> (int32 (r + 1) <> 0 /\ int32 (r + 1) <> - maxReaders)%Z ->
    tstep t (mkC σ (mkRW w ws rs cnt wt) l false) None
      (mkC σ (mkRW w ws rs cnt (int32 (wt - 1))) (upd l t (if (int32 (wt - 1) =? 0)%Z then LWake else LOut)) false)
(** rUnlockSlow: runtime_Semrelease(&rw.writerSem) *)
| c_wake σ w ws rs cnt wt l : l t = LWake ->
    tstep t (mkC σ (mkRW w ws rs cnt wt) l false) None (mkC σ (mkRW w (S ws) rs cnt wt) (upd l t LOut) false)
(** Unlock: r := rw.readerCount.Add(rwmutexMaxReaders); fatal if r >= rwmutexMaxReaders *)
| c_unlock_fatal σ w ws rs cnt wt l : l t = LOut -> at_unlock (th_pc (st_thr σ t)) = true -> (int32 (cnt + maxReaders) >= maxReaders)%Z ->
    tstep t (mkC σ (mkRW w ws rs cnt wt) l false) None (mkC σ (mkRW w ws rs (int32 (cnt + maxReaders)) wt) l true)
| c_unlock σ w ws rs cnt wt l r : l t = LOut -> at_unlock (th_pc (st_thr σ t)) = true -> r = int32 (cnt + maxReaders) -> (r < maxReaders)%Z ->
    tstep t (mkC σ (mkRW w ws rs cnt wt) l false) None
      (mkC (unlocked σ t) (mkRW w ws rs r wt) (upd l t (LRelease (Z.to_nat r))) false)
(** Unlock: one round of the loop of runtime_Semrelease(&rw.readerSem) *)
| c_release σ w ws rs cnt wt l k : l t = LRelease (S k) ->
    tstep t (mkC σ (mkRW w ws rs cnt wt) l false) None (mkC σ (mkRW w ws (S rs) cnt wt) (upd l t (LRelease k)) false)
(** Unlock: rw.w.Unlock() *)
| c_unlock_w σ w ws rs cnt wt l : l t = LRelease 0 ->
    tstep t (mkC σ (mkRW w ws rs cnt wt) l false) None (mkC σ (mkRW None ws rs cnt wt) (upd l t LOut) false).

Definition cstep (c : cstate) (e : option event) (c' : cstate) : Prop := exists t, (t < n)%nat /\ tstep t c e c'.

(** Executions from the empty store, with the number of steps. *)
Inductive cruns : nat -> list event -> cstate -> Prop :=
| cr_start : cruns 0 [] c_init
| cr_next m tr c e c' : cruns m tr c -> cstep c e c' -> cruns (S m) (snoc tr e) c'.
(** Executions from any state in which no client does anything of its own accord. *)
Inductive cserves : nat -> cstate -> list event -> cstate -> Prop :=
| cs_here c : cserves 0 c [] c
| cs_next m c tr e c1 c2 : cserves m c tr c1 -> cstep c1 e c2 -> by_client e = false -> cserves (S m) c (snoc tr e) c2.
(** Executions from any state. *)
Inductive cgoes : cstate -> list event -> cstate -> Prop :=
| cg_here c : cgoes c [] c
| cg_next c tr e c1 c2 : cgoes c tr c1 -> cstep c1 e c2 -> cgoes c (snoc tr e) c2.
End Steps.

(** Thread [t] has announced that it wants to write and waits for the readers to leave. *)
Definition announced (c : cstate) (t : nat) : Prop := match c_lpc c t with LAnnounced _ | LWaitWriter => True | _ => False end.

(** Running a schedule. *)
Definition c_run (strict : bool) (c : cstate) (a : act) : option (option event * cstate) :=
  let t := match a with AMake t _ _ | AUse t _ _ | APut t _ | AApp t _ _ | AGet t _ | AGo t => t end in
  if c_fatal c then None else
  let σ := c_st c in
  let l := c_lpc c in
  let '(mkRW w ws rs cnt wt) := c_rw c in
  match l t with
  | LOut =>
      if at_mutex (th_pc (st_thr σ t)) then
        match a with
        | AGo _ =>
          if at_lock (th_pc (st_thr σ t)) then
            match w with None => Some (None, mkC σ (mkRW (Some t) ws rs cnt wt) (upd l t LMutex) false) | Some _ => None end
          else if at_rlock (th_pc (st_thr σ t)) then
            if (int32 (cnt + 1) <? 0)%Z then Some (None, mkC σ (mkRW w ws rs (int32 (cnt + 1)) wt) (upd l t LWaitReader) false)
            else Some (None, mkC (rlocked σ t) (mkRW w ws rs (int32 (cnt + 1)) wt) l false)
          else if at_unlock (th_pc (st_thr σ t)) then
            if (int32 (cnt + maxReaders) <? maxReaders)%Z
            then Some (None, mkC (unlocked σ t) (mkRW w ws rs (int32 (cnt + maxReaders)) wt) (upd l t (LRelease (Z.to_nat (int32 (cnt + maxReaders))))) false)
            else None
          else Some (None, mkC (runlocked σ t) (mkRW w ws rs (int32 (cnt - 1)) wt) (upd l t (if (int32 (cnt - 1) <? 0)%Z then LSlow (int32 (cnt - 1)) else LOut)) false)
        | _ => None
        end
      else match run_act strict σ a with
           | Some (e, σ') => Some (e, mkC σ' (c_rw c) l false)
           | None => None
           end
  | lp =>
      match a with
      | AGo _ =>
        match lp with
        | LOut => None
        | LMutex =>
            let r := int32 (int32 (cnt - maxReaders) + maxReaders) in
            if (r =? 0)%Z then Some (None, mkC (locked σ t) (mkRW w ws rs (int32 (cnt - maxReaders)) wt) (upd l t LOut) false)
            else Some (None, mkC σ (mkRW w ws rs (int32 (cnt - maxReaders)) wt) (upd l t (LAnnounced r)) false)
        | LAnnounced r =>
            if (int32 (wt + r) =? 0)%Z then Some (None, mkC (locked σ t) (mkRW w ws rs cnt (int32 (wt + r))) (upd l t LOut) false)
            else Some (None, mkC σ (mkRW w ws rs cnt (int32 (wt + r))) (upd l t LWaitWriter) false)
        | LWaitWriter => match ws with S ws' => Some (None, mkC (locked σ t) (mkRW w ws' rs cnt wt) (upd l t LOut) false) | O => None end
        | LWaitReader => match rs with S rs' => Some (None, mkC (rlocked σ t) (mkRW w ws rs' cnt wt) (upd l t LOut) false) | O => None end
        | LSlow r =>
            if (int32 (r + 1) =? 0)%Z || (int32 (r + 1) =? - maxReaders)%Z then None
            else Some (None, mkC σ (mkRW w ws rs cnt (int32 (wt - 1))) (upd l t (if (int32 (wt - 1) =? 0)%Z then LWake else LOut)) false)
        | LWake => Some (None, mkC σ (mkRW w (S ws) rs cnt wt) (upd l t LOut) false)
        | LRelease (S k) => Some (None, mkC σ (mkRW w ws (S rs) cnt wt) (upd l t (LRelease k)) false)
        | LRelease O => Some (None, mkC σ (mkRW None ws rs cnt wt) (upd l t LOut) false)
        end
      | _ => None
      end
  end.
Fixpoint c_runs (strict : bool) (c : cstate) (tr : list event) (acts : list act) : option (list event * cstate) :=
  match acts with
  | [] => Some (tr, c)
  | a :: r => match c_run strict c a with Some (e, c') => c_runs strict c' (snoc tr e) r | None => None end
  end.
