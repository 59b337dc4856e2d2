(** * C64: the store with Go's reader-writer mutex, operation by operation. *)
From Coq Require Import ZArith.
From Verif Require Import Base KV SpecConc SpecRW KVConc ConcProofs ConcHistory ConcRun ConcServer ConcLive RWLock RWProofs RWLive.

(** [n] goroutines, fewer than the 2^30 readers the mutex has room for. *)

(** Every execution is one of the store with the simple lock of C17, C18, C41
    and C43, and the mutex never stops the program with its fatal errors. *)
Theorem C64_refines_the_simple_lock : forall (n : nat), (Z.of_nat n < 2 ^ 30)%Z ->
  forall (strict : bool) (m : nat) (tr : list event) (c : cstate), cruns n strict m tr c ->
  exec strict tr (c_st c) /\ c_fatal c = false.
Proof. intros n N strict m tr c H. exact (proj2 (cruns_inv n N strict m tr c H)). Qed.
Print Assumptions C64_refines_the_simple_lock.

(** So each call takes effect at one instant, *)
Theorem C64_store_is_atomic : forall (n : nat), (Z.of_nat n < 2 ^ 30)%Z ->
  forall (m : nat) (tr : list event) (c : cstate), cruns n true m tr c -> atomic_trace tr.
Proof. intros n N m tr c H. apply (exec_spec tr (c_st c)). exact (proj1 (C64_refines_the_simple_lock n N true m tr c H)). Qed.
Print Assumptions C64_store_is_atomic.

(** no call is lost, *)
Theorem C64_no_call_is_lost : forall (n : nat), (Z.of_nat n < 2 ^ 30)%Z ->
  forall (m : nat) (tr : list event) (c : cstate), cruns n true m tr c ->
  (forall t, returned_by t tr = length (invoked_by t tr)) ->
  exists L, (forall t, of_thread t L = invoked_by t tr) /\
    forall id, value_of (st_heap (c_st c)) (st_map (c_st c) id) = kv_lookup (replay L) id.
Proof. intros n N m tr c H. apply (all_done tr (c_st c)). exact (proj1 (C64_refines_the_simple_lock n N true m tr c H)). Qed.
Print Assumptions C64_no_call_is_lost.

(** memory is never touched by two goroutines at once, one of them writing, *)
Theorem C64_no_data_race : forall (n : nat), (Z.of_nat n < 2 ^ 30)%Z ->
  forall (m : nat) (tr : list event) (c : cstate), cruns n true m tr c -> ~ data_race (c_st c).
Proof. intros n N m tr c H. apply (no_race tr (c_st c)). exact (proj1 (C64_refines_the_simple_lock n N true m tr c H)). Qed.
Print Assumptions C64_no_data_race.

(** and a writer is alone. *)
Theorem C64_writers_exclude_all : forall (n : nat), (Z.of_nat n < 2 ^ 30)%Z ->
  forall (strict : bool) (m : nat) (tr : list event) (c : cstate) (t t' : nat), cruns n strict m tr c ->
  in_write (th_pc (st_thr (c_st c) t)) = true -> t <> t' ->
  in_write (th_pc (st_thr (c_st c) t')) = false /\ in_read (th_pc (st_thr (c_st c) t')) = false.
Proof. intros n N strict m tr c t t' H. apply (exclusion strict tr). exact (proj1 (C64_refines_the_simple_lock n N strict m tr c H)). Qed.
Print Assumptions C64_writers_exclude_all.

(** While a call is open some goroutine can go on, without any client doing
    anything: no wake-up is lost. *)
Theorem C64_no_deadlock : forall (n : nat), (Z.of_nat n < 2 ^ 30)%Z ->
  forall (strict : bool) (m : nat) (tr : list event) (c : cstate) (t : nat), cruns n strict m tr c ->
  returned_by t tr <> length (invoked_by t tr) -> exists e c', cstep n strict c e c' /\ by_client e = false.
Proof. exact rw_no_deadlock. Qed.
Print Assumptions C64_no_deadlock.

(** The calls cost a bounded number of steps, those of the mutex included:
    nothing spins. *)
Theorem C64_bounded_work : forall (n : nat), (Z.of_nat n < 2 ^ 30)%Z ->
  forall (strict : bool) (m : nat) (tr : list event) (c : cstate), cruns n strict m tr c -> m <= list_sum (map rw_cost tr).
Proof. exact rw_bounded. Qed.
Print Assumptions C64_bounded_work.

(** When clients stop making calls every schedule comes to an end, and at the
    end all calls have returned. *)
Theorem C64_all_calls_finish : forall (n : nat), (Z.of_nat n < 2 ^ 30)%Z ->
  forall (strict : bool) (m : nat) (tr : list event) (c : cstate) (k : nat) (tr' : list event) (c' : cstate),
  cruns n strict m tr c -> cserves n strict k c tr' c' ->
  k <= list_sum (map rw_cost tr) /\
  ((forall e c2, cstep n strict c' e c2 -> by_client e = true) -> forall t, returned_by t (tr ++ tr') = length (invoked_by t (tr ++ tr'))).
Proof. exact rw_all_finish. Qed.
Print Assumptions C64_all_calls_finish.

(** A stream of readers does not keep a writer out: from when it announced
    itself until it is let in, fewer calls return than were open when it did,
    however many are made meanwhile, *)
Theorem C64_waiting_writer_is_next : forall (n : nat), (Z.of_nat n < 2 ^ 30)%Z ->
  forall (strict : bool) (m : nat) (tr : list event) (c : cstate) (tr' : list event) (c' : cstate) (t : nat),
  cruns n strict m tr c -> announced c t -> cgoes n strict c tr' c' -> announced c' t -> returned_by t tr' = 0 ->
  returns tr' < length (open_calls n tr).
Proof. exact writer_is_next. Qed.
Print Assumptions C64_waiting_writer_is_next.
(** and no other goroutine writes. *)
Theorem C64_waiting_writer_is_the_only_one : forall (n : nat), (Z.of_nat n < 2 ^ 30)%Z ->
  forall (strict : bool) (m : nat) (tr : list event) (c : cstate) (t t' : nat),
  cruns n strict m tr c -> announced c t -> in_write (th_pc (st_thr (c_st c) t')) = false.
Proof. exact announced_alone. Qed.
Print Assumptions C64_waiting_writer_is_the_only_one.

(** Goroutine 0 is reading when 1 announces an Append; 2, which calls Get after
    that, has to wait although only a reader is inside.  When 0 leaves, 1 goes
    in, and 2 reads what 1 wrote. *)
Definition ex_before : list act := [AGet 0 (str "k"); AGo 0; AApp 1 (str "k") (str "x"); AGo 1; AGo 1].
Definition ex_waiting : list act := [AGo 1; AGet 2 (str "k"); AGo 2].
Definition ex_after : list act := goes 0 5 ++ goes 1 10 ++ goes 2 4.
Definition ex_events : list event :=
  [EInvoke 0 (CGet (str "k")); EInvoke 1 (CAppend (str "k") (str "x")); EInvoke 2 (CGet (str "k"));
   EReturn 0 (RValue None); EReturn 1 RDone; EReturn 2 (RValue (Some (str "x")))].
Definition reached (acts : list act) : cstate := match c_runs true c_init [] acts with Some (_, c) => c | None => c_init end.
Example C64_example :
  (exists m, cruns 3 true m ex_events (reached (ex_before ++ ex_waiting ++ ex_after)))
  /\ announced (reached ex_before) 1 /\ announced (reached (ex_before ++ ex_waiting)) 1
  /\ cgoes 3 true (reached ex_before) [EInvoke 2 (CGet (str "k"))] (reached (ex_before ++ ex_waiting))
  /\ c_run true (reached (ex_before ++ ex_waiting)) (AGo 1) = None
  /\ c_run true (reached (ex_before ++ ex_waiting)) (AGo 2) = None
  /\ in_read (th_pc (st_thr (c_st (reached (ex_before ++ ex_waiting))) 0)) = true
  /\ length (open_calls 3 (firstn 2 ex_events)) = 2.
Proof.
  split; [|split; [vm_compute; exact I|split; [vm_compute; exact I|split; [|split; [vm_compute; reflexivity|split; [vm_compute; reflexivity|split; vm_compute; reflexivity]]]]]].
  - eexists. eapply (c_runs_cruns 3 true (ex_before ++ ex_waiting ++ ex_after)); [vm_compute; reflexivity|apply cr_start|]. vm_compute. reflexivity.
  - eapply (c_runs_goes 3 true ex_waiting); [vm_compute; reflexivity|apply cg_here|]. vm_compute. reflexivity.
Qed.
