(** * Properties of the server's key-value store under concurrency: C17, C18,
    C41, C43.

    [exec strict tr σ]: the goroutines ran to state σ and showed the events tr
    ([KVConc.v]: every lock operation, map access and byte written is a step,
    and the steps of any number of goroutines interleave in any order).
    [strict = true]: a slice given to Put was built by the caller and is given
    only once.  The server itself never calls Put. *)
From Verif Require Import Base Common Oprf Server Client KV SpecEntry SpecProtocol OprfGroup SpecConc KVConc ConcProofs ConcHistory ConcRun ConcServer ConcLive PropFinalize PropProtocol.

(** ** C17: every call takes effect at one instant. *)
Theorem C17_store_is_atomic : forall (tr : list event) (σ : state), exec true tr σ -> atomic_trace tr.
Proof. exact exec_spec. Qed.
Print Assumptions C17_store_is_atomic.

(** When all calls have returned, the contents are the result of all calls one
    after the other, each goroutine's in its own order: no append is lost. *)
Theorem C17_no_call_is_lost : forall (tr : list event) (σ : state), exec true tr σ ->
  (forall t, returned_by t tr = length (invoked_by t tr)) ->
  exists L, (forall t, of_thread t L = invoked_by t tr) /\
    forall id, value_of (st_heap σ) (st_map σ id) = kv_lookup (replay L) id.
Proof. exact all_done. Qed.
Print Assumptions C17_no_call_is_lost.

(** A Get returns the result of calls that include all that returned before it
    started, and nothing that started after it returned. *)
Theorem C17_get_returns_the_value_of_one_instant :
  forall (t : nat) (tr1 : list event) (id : bytes) (tr2 : list event) (v : gslice) (σ : state),
  exec true (tr1 ++ EInvoke t (CGet id) :: tr2 ++ [EReturn t (RValue v)]) σ ->
  invoked_by t tr2 = [] -> returned_by t tr2 = 0 ->
  exists L, v = kv_lookup (replay L) id /\ between L tr1 (tr1 ++ EInvoke t (CGet id) :: tr2).
Proof. exact get_instant. Qed.
Print Assumptions C17_get_returns_the_value_of_one_instant.

Theorem C17_writers_exclude_all : forall (strict : bool) (tr : list event) (σ : state) (t t' : nat), exec strict tr σ ->
  in_write (th_pc (st_thr σ t)) = true -> t <> t' ->
  in_write (th_pc (st_thr σ t')) = false /\ in_read (th_pc (st_thr σ t')) = false.
Proof. exact exclusion. Qed.
Print Assumptions C17_writers_exclude_all.

(** Two goroutines append to one key, their steps interleaved; a third reads
    in between and at the end. *)
Definition ex_acts : list act :=
  [AApp 0 (str "k") (str "ab"); AApp 1 (str "k") (str "c"); AGet 2 (str "k")] ++ goes 1 2 ++ goes 1 6 ++ goes 2 2 ++ [AGo 2]
  ++ goes 0 9 ++ goes 2 1 ++ [AGet 2 (str "k")] ++ goes 2 4 ++ [AUse 2 1 0; AUse 2 0 2].
Definition ex_trace : list event :=
  [EInvoke 0 (CAppend (str "k") (str "ab")); EInvoke 1 (CAppend (str "k") (str "c")); EInvoke 2 (CGet (str "k"));
   EReturn 1 RDone; EReturn 0 RDone; EReturn 2 (RValue (Some (str "c")));
   EInvoke 2 (CGet (str "k")); EReturn 2 (RValue (Some (str "cab"))); EUse 2 1 0 Byte.x63; EUse 2 0 2 Byte.x62].
Example C17_example : (exists σ, exec true ex_trace σ) /\ (forall t, returned_by t ex_trace = length (invoked_by t ex_trace)).
Proof.
  split; [apply (run_shows true ex_acts); vm_compute; reflexivity|]. intros [|[|[|t]]]; reflexivity.
Qed.

(** ** C18: a bucket that Get returned does not change. *)
(** [newer t tr2] slices came into the goroutine's hands since. *)
Theorem C18_get_result_never_changes :
  forall (t : nat) (tr1 : list event) (v : gslice) (tr2 : list event) (i : nat) (b : byte) (σ : state),
  exec true (tr1 ++ EReturn t (RValue v) :: tr2 ++ [EUse t (newer t tr2) i b]) σ ->
  nth_error (sl v) i = Some b.
Proof. exact get_immutable. Qed.
Print Assumptions C18_get_result_never_changes.

(** Reading it needs no lock. *)
Theorem C18_no_data_race : forall (tr : list event) (σ : state), exec true tr σ -> ~ data_race σ.
Proof. exact no_race. Qed.
Print Assumptions C18_no_data_race.

(** Not so when Put is given one slice twice. *)
Theorem C18_shared_put_refuted : (exists σ, exec false share_trace σ) /\ ~ atomic_trace share_trace.
Proof. exact (conj share_exec share_not_atomic). Qed.
Print Assumptions C18_shared_put_refuted.
Theorem C18_shared_put_races_refuted : exists tr σ, exec false tr σ /\ data_race σ.
Proof. exact share_race. Qed.
Print Assumptions C18_shared_put_races_refuted.

(** The second Append extends the array of the slice the reader holds (room was
    left by the first), and the reader still sees its bytes. *)
Definition ex_hold_acts : list act :=
  [AApp 0 (str "k") (str "ab")] ++ goes 0 9 ++ [AGet 1 (str "k")] ++ goes 1 4 ++ [AApp 0 (str "k") (str "cd")] ++ goes 0 5 ++ [AUse 1 0 1] ++ goes 0 4.
Definition ex_hold_trace : list event :=
  [EInvoke 0 (CAppend (str "k") (str "ab")); EReturn 0 RDone; EInvoke 1 (CGet (str "k")); EReturn 1 (RValue (Some (str "ab")));
   EInvoke 0 (CAppend (str "k") (str "cd")); EUse 1 0 1 Byte.x62; EReturn 0 RDone].
Example C18_example :
  option_map fst (run_acts true init [] ex_hold_acts) = Some ex_hold_trace
  /\ match run_acts true init [] ex_hold_acts with
     | Some (_, σ) => exists held new, th_held (st_thr σ 1) = [Some held] /\ st_map σ (str "k") = Some new
         /\ s_arr held = s_arr new /\ s_len held = 2 /\ s_len new = 4
     | None => False
     end.
Proof. split; [vm_compute; reflexivity|]. vm_compute. do 2 eexists. repeat split. Qed.

(** ** C41: a query while other goroutines insert. *)
Theorem C41_query_during_inserts :
  forall (LIB : OPRF), OPRF_laws LIB ->
  forall (cfg : Config) (key : PrivateKey LIB) (s : Server LIB) (c : Client),
  NewServer {| sc_config := cfg; sc_privateKey := key |} = Ok s -> NewClient LIB cfg = Ok c -> (cfg_version cfg < 2 ^ 16)%N ->
  forall (t : nat) (tr1 tr2 : list event) (u : bytes) (id : N) (v : gslice) (σ : state),
  Server_BucketID s u = Ok id ->
  exec true (tr1 ++ EInvoke t (CGet (BucketIDToHex id)) :: tr2 ++ [EReturn t (RValue v)]) σ ->
  invoked_by t tr2 = [] -> returned_by t tr2 = 0 ->
  (forall t', Forall (server_call s) (invoked_by t' (tr1 ++ EInvoke t (CGet (BucketIDToHex id)) :: tr2))) ->
  holdable (sl v) ->
  exists (L : list (nat * call)) (db : list cred),
    between L tr1 (tr1 ++ EInvoke t (CGet (BucketIDToHex id)) :: tr2) /\ Forall2 (stored_as s) db (appends L) /\
    forall (p : bytes) (r : Blind LIB) (k : bytes) (kv : Getter), kv (BucketIDToHex id) = Ok v ->
      no_collision s db u p -> deriveBucketEntryKey s u p = Ok k ->
      run_query c s kv u p r = Ok (expected db u p).
Proof. exact @query_during_inserts. Qed.
Print Assumptions C41_query_during_inserts.

Definition ex_cred (p : bytes) : cred := mkCred (str "alice") p Byte.x01 (str "m").
Definition ex_entry (p : bytes) : bytes :=
  match EncryptBucketEntry ex_server (str "alice") p Byte.x01 (str "m") with Ok e => e | _ => [] end.
Definition ex_bucket : bytes := match Server_BucketID ex_server (str "alice") with Ok id => BucketIDToHex id | _ => [] end.
Definition ex_query_acts : list act :=
  [AApp 1 ex_bucket (ex_entry (str "pw"))] ++ goes 1 (7 + length (ex_entry (str "pw"))) ++ [AApp 1 ex_bucket (ex_entry (str "qw")); AGet 0 ex_bucket]
  ++ goes 0 3 ++ goes 1 9 ++ goes 0 1.
Definition ex_query_trace (tr1 tr2 : list event) : list event := tr1 ++ EInvoke 0 (CGet ex_bucket) :: tr2 ++ [EReturn 0 (RValue (Some (ex_entry (str "pw"))))].
Definition ex_tr1 : list event :=
  [EInvoke 1 (CAppend ex_bucket (ex_entry (str "pw"))); EReturn 1 RDone; EInvoke 1 (CAppend ex_bucket (ex_entry (str "qw")))].
Example C41_example :
  (exists σ, exec true (ex_query_trace ex_tr1 []) σ)
  /\ (forall t', Forall (server_call ex_server) (invoked_by t' (ex_tr1 ++ [EInvoke 0 (CGet ex_bucket)])))
  /\ holdable (ex_entry (str "pw")) /\ length (ex_entry (str "pw")) > 0
  /\ @run_query toy_OPRF ex_client ex_server (fun _ => Ok (Some (ex_entry (str "pw")))) (str "alice") (str "pw") 9%N = Ok (InBreach, Some (str "m"))
  /\ @run_query toy_OPRF ex_client ex_server (fun _ => Ok (Some (ex_entry (str "pw")))) (str "alice") (str "qw") 9%N = Ok (NotInBreach, None).
Proof.
  split; [apply (run_shows true ex_query_acts); vm_compute; reflexivity|].
  split; [|split; [vm_compute; discriminate|split; [vm_compute; repeat constructor|split; vm_compute; reflexivity]]].
  assert (S : forall p, match EncryptBucketEntry ex_server (str "alice") p Byte.x01 (str "m") with Ok _ => True | _ => False end ->
    server_call ex_server (CAppend ex_bucket (ex_entry p))).
  { intros p H. right. exists (ex_cred p). unfold stored_as. cbn [ex_cred d_user d_pass d_flag d_meta]. unfold ex_bucket, ex_entry.
    destruct (Server_BucketID ex_server (str "alice")) as [id| |] eqn:B; [|vm_compute in B; discriminate|vm_compute in B; discriminate].
    destruct (EncryptBucketEntry ex_server (str "alice") p Byte.x01 (str "m")) as [e| |]; [|contradiction|contradiction].
    exists id, e. auto. }
  intros [|[|t']].
  - constructor; [|constructor]. left. eexists. reflexivity.
  - constructor; [|constructor; [|constructor]]; apply S; vm_compute; exact I.
  - constructor.
Qed.

(** ** C43: no goroutine is blocked for ever: from every state there is a
    schedule that finishes the call of any chosen goroutine. *)
Theorem C43_every_call_can_finish : forall (strict : bool) (tr : list event) (σ : state) (t : nat), exec strict tr σ ->
  exists tr' σ', steps strict σ tr' σ' /\ th_pc (st_thr σ' t) = Idle.
Proof. exact can_finish. Qed.
Print Assumptions C43_every_call_can_finish.

(** Some step is always possible while a call is open, without any client
    doing anything. *)
Theorem C43_no_deadlock : forall (strict : bool) (tr : list event) (σ : state) (t : nat), exec strict tr σ ->
  returned_by t tr <> length (invoked_by t tr) -> exists e σ', step strict σ e σ' /\ by_client e = false.
Proof. exact no_deadlock. Qed.
Print Assumptions C43_no_deadlock.

(** Whatever the schedule, the calls cost a bounded number of steps: five for a
    Get or a Put and eight plus the length for an Append. *)
Theorem C43_bounded_work : forall (strict : bool) (n : nat) (tr : list event) (σ : state), runs strict n tr σ ->
  n <= list_sum (map cost tr).
Proof. exact bounded_work. Qed.
Print Assumptions C43_bounded_work.

(** So when clients stop making calls, every schedule comes to an end, and at
    the end all calls have returned. *)
Theorem C43_all_calls_finish : forall (strict : bool) (tr : list event) (σ : state) (n : nat) (tr' : list event) (σ' : state),
  exec strict tr σ -> serves strict n σ tr' σ' ->
  n <= list_sum (map cost tr) /\
  ((forall e σ2, step strict σ' e σ2 -> by_client e = true) -> forall t, returned_by t (tr ++ tr') = length (invoked_by t (tr ++ tr'))).
Proof. exact all_finish. Qed.
Print Assumptions C43_all_calls_finish.

(** A writer waits for a reader: two calls are open. *)
Example C43_example : match run_acts true init [] ([AGet 0 (str "k"); AApp 1 (str "k") (str "x")] ++ goes 0 1) with
  | Some (_, σ) => run_act true σ (AGo 1) = None /\ th_pc (st_thr σ 1) = AppLock (str "k") (str "x")
  | None => False
  end.
Proof. vm_compute. split; reflexivity. Qed.
Definition ex_open_trace : list event := [EInvoke 0 (CGet (str "k")); EInvoke 1 (CAppend (str "k") (str "x"))].
Example C43_open_example : (exists σ, exec true ex_open_trace σ)
  /\ returned_by 1 ex_open_trace <> length (invoked_by 1 ex_open_trace) /\ list_sum (map cost ex_open_trace) = 14.
Proof.
  split; [apply (run_shows true [AGet 0 (str "k"); AApp 1 (str "k") (str "x")]); vm_compute; reflexivity|]. split; [discriminate|reflexivity].
Qed.
