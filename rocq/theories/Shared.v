(** * Calls of the library that run at the same time (pkg/migp, pkg/mutator).

    Goroutines that call the library share the memory that exists when they
    start: the calls' arguments lie in it and may overlap.  Memory that a call
    allocates is known to this call only until it returns: it has numbers from
    [length sh] on, per goroutine.  Single accesses of bytes are interleaved in
    any order; between them, the rest of the program may do anything to the
    shared memory except write to bytes that an argument shows. *)
From Verif Require Import Base Common Hasher Encryptor Oprf Server Client Mutator KV Mem MemCode MemProg.

(** One access of memory. *)
Inductive mstep {A} : heap -> prog A -> heap -> prog A -> Prop :=
| st_new h b k : mstep h (PNew b k) (h ++ [b]) (k (length h))
| st_read h a i k : mstep h (PRead a i k) h (k (nth_error (array h a) i))
| st_write h a i b k : mstep h (PWrite a i b k) (write h a i [b]) k.

(** The shared memory, and of each goroutine its own memory and what it has
    still to do. *)
Record machine (A : Type) := mkMachine { sh : heap; gor : list (heap * prog A) }.
Arguments mkMachine {A} _ _. Arguments sh {A} _. Arguments gor {A} _.

(** Other changes of shared memory that keep the bytes of [F]. *)
Definition keeps (F : nat -> nat -> Prop) (h h' : heap) : Prop :=
  length h' = length h /\ (forall a, length (array h' a) = length (array h a)) /\
  forall a i, F a i -> nth_error (array h' a) i = nth_error (array h a) i.

(** One goroutine takes a step. *)
Inductive call_step {A} : machine A -> machine A -> Prop :=
| cs h before own p own' p' after h' :
    mstep (h ++ own) p (h' ++ own') p' -> length h' = length h ->
    call_step (mkMachine h (before ++ (own, p) :: after)) (mkMachine h' (before ++ (own', p') :: after)).
Inductive machine_step {A} (F : nat -> nat -> Prop) : machine A -> machine A -> Prop :=
| ms_call m m' : call_step m m' -> machine_step F m m'
| ms_other h h' g : keeps F h h' -> machine_step F (mkMachine h g) (mkMachine h' g).
Inductive reaches {A} (F : nat -> nat -> Prop) : machine A -> machine A -> Prop :=
| rc_refl m : reaches F m m
| rc_step m1 m2 m3 : reaches F m1 m2 -> machine_step F m2 m3 -> reaches F m1 m3.

(** ** The calls *)
Section Calls.
Variable LIB : OPRF.

Inductive call :=
| CMutate (rules : list RDasRule) (password : mslice) (num : Z)
| CEncryptEntry (s : Server LIB) (username password : mslice) (flag : MetadataType) (metadata : mslice)
| CRequest (c : Client) (username password : mslice) (r : Blind LIB)
| CFinalize (ctx : ClientRequestContext LIB) (response : mresponse)
| CHandleRequest (s : Server LIB) (version : N) (bucketID : bytes) (blindElement : mslice) (kv : bytes -> res (option mslice))
| CMarshal (response : mresponse)
| CUnmarshal (data : mslice).

(** What a call returns. *)
Inductive outcome :=
| OSlices (l : list mslice)
| OSlice (s : mslice)
| ORequest (r : ClientRequest) (ctx : ClientRequestContext LIB)
| OVerdict (status : BreachStatus) (metadata : option mslice)
| OResponse (r : mresponse).

Definition code (c : call) : prog outcome :=
  match c with
  | CMutate rules pw n => l <<- Mutate_p rules pw n ;; p_ret (OSlices l)
  | CEncryptEntry s u p f m => e <<- EncryptEntry_p s u p f m ;; p_ret (OSlice e)
  | CRequest c u p r => x <<- Request_p c u p r ;; p_ret (ORequest (fst x) (snd x))
  | CFinalize ctx r => x <<- Finalize_p ctx r ;; p_ret (OVerdict (fst x) (snd x))
  | CHandleRequest s v id b kv => r <<- HandleRequest_p s v id b kv ;; p_ret (OResponse r)
  | CMarshal r => s <<- MarshalBinary_p r ;; p_ret (OSlice s)
  | CUnmarshal d => r <<- UnmarshalBinary_p LIB d ;; p_ret (OResponse r)
  end.

(** All goroutines at the start of their calls. *)
Definition started (h : heap) (calls : list call) : machine outcome := mkMachine h (map (fun c => ([], code c)) calls).
End Calls.
Arguments CMutate {LIB} _ _ _. Arguments CEncryptEntry {LIB} _ _ _ _ _. Arguments CRequest {LIB} _ _ _ _.
Arguments CFinalize {LIB} _ _. Arguments CHandleRequest {LIB} _ _ _ _ _. Arguments CMarshal {LIB} _. Arguments CUnmarshal {LIB} _.
Arguments OSlices {LIB} _. Arguments OSlice {LIB} _. Arguments ORequest {LIB} _ _. Arguments OVerdict {LIB} _ _. Arguments OResponse {LIB} _.
Arguments code {LIB} _. Arguments started {LIB} _ _.
