(** Specification for C71: which bytes a call is given, and what it is to
    return. *)
From Verif Require Import Base Common Hasher Encryptor Oprf Server Client Mutator KV Mem MemCode MemProg Shared SpecMem.

(** The slices a call is given to read.  HandleRequest returns what the store
    gives it without reading it. *)
Definition response_slices (r : mresponse) : list mslice :=
  mr_element r :: match mr_bucket r with Some b => [b] | None => [] end.
Definition arguments {LIB} (c : call LIB) : list mslice :=
  match c with
  | CMutate _ pw _ => [pw]
  | CEncryptEntry _ u p _ m => [u; p; m]
  | CRequest _ u p _ => [u; p]
  | CFinalize _ r => response_slices r
  | CHandleRequest _ _ _ b _ => [b]
  | CMarshal r => response_slices r
  | CUnmarshal d => [d]
  end.
(** Byte [i] of array [a] is one that an argument shows. *)
Definition shown {LIB} (c : call LIB) (a i : nat) : Prop :=
  exists s, In s (arguments c) /\ m_arr s = a /\ (m_off s <= i < m_off s + m_len s)%nat.
Definition shown_by_any {LIB} (calls : list (call LIB)) (a i : nat) : Prop := exists c, In c calls /\ shown c a i.
Definition valid_call {LIB} (h : heap) (c : call LIB) : Prop :=
  (forall s, In s (arguments c) -> valid h s) /\
  match c with CHandleRequest _ _ _ _ kv => forall id s, kv id = Ok (Some s) -> valid h s | _ => True end.

(** [r] is the outcome in memory [now] of the call that found its arguments in
    memory [h]: what the functional model says of the bytes the arguments
    showed. *)
Definition is_new (h now : heap) (s : mslice) : Prop := valid now s /\ (length h <= m_arr s)%nat.
Definition like {A B} (R : A -> B -> Prop) (r : res A) (r' : res B) : Prop :=
  match r, r' with
  | Ok a, Ok b => R a b
  | Err e, Err e' => e = e'
  | Panic m, Panic m' => m = m'
  | _, _ => False
  end.
Definition shows (h now : heap) (s : mslice) (b : bytes) : Prop := is_new h now s /\ view now s = b.
Definition shows_opt (h now : heap) (s : option mslice) (b : gslice) : Prop :=
  match s, b with Some s, Some b => shows h now s b | None, None => True | _, _ => False end.
Definition answers {LIB} (h now : heap) (c : call LIB) (r : res (outcome LIB)) : Prop :=
  match c with
  | CMutate rules pw n =>
      like (fun o bs => exists ss, o = OSlices ss /\ Forall2 (shows h now) ss bs /\ NoDup (map m_arr ss)) r (Mutate rules (view h pw) n)
  | CEncryptEntry s u p f m =>
      like (fun o b => exists e, o = OSlice e /\ shows h now e b) r (EncryptBucketEntry s (view h u) (view h p) f (view h m))
  | CRequest c u p x =>
      like (fun o rc => o = ORequest (fst rc) (snd rc)) r (Request c (view h u) (view h p) x)
  | CFinalize ctx resp =>
      like (fun o v => exists m, o = OVerdict (fst v) m /\ shows_opt h now m (snd v)) r (Finalize ctx (read_response h resp))
  | CHandleRequest s v id b kv =>
      like (fun o x => exists m, o = OResponse m /\ mr_version m = rs_version x /\ shows h now (mr_element m) (rs_evaluatedElement x) /\ kv id = Ok (mr_bucket m))
        r (HandleRequest s {| rq_version := v; rq_bucketID := id; rq_blindElement := Some (view h b) |}
             (fun k => match kv k with Ok v => Ok (option_map (view h) v) | Err e => Err e | Panic m => Panic m end))
  | CMarshal resp =>
      like (fun o b => exists s, o = OSlice s /\ shows h now s b) r (MarshalBinary (read_response h resp))
  | CUnmarshal d =>
      like (fun o x => exists m, o = OResponse m /\ x = read_response now m /\ is_new h now (mr_element m)
                        /\ exists k, (k <= m_len d)%nat /\ mr_bucket m = Some (mkM (m_arr d) (m_off d + k) (m_len d - k) (m_cap d - k)))
        r (UnmarshalBinary LIB (view h d))
  end.

(** ** The next access of a goroutine to memory *)
Inductive access := AllocNew | ReadAt (a i : nat) | WriteAt (a i : nat).
Definition next_access {A} (p : prog A) : option access :=
  match p with
  | PDone _ => None
  | PNew _ _ => Some AllocNew
  | PRead a i _ => Some (ReadAt a i)
  | PWrite a i _ _ => Some (WriteAt a i)
  end.
(** The goroutine is at its [i]-th call, with what memory of its own, and what
    is left to do. *)
Definition at_call {LIB} (m : machine (outcome LIB)) (calls : list (call LIB)) (n : nat) (c : call LIB) (own : heap) (p : prog (outcome LIB)) : Prop :=
  nth_error calls n = Some c /\ nth_error (gor m) n = Some (own, p).
Definition finished {A} (m : machine A) : Prop := Forall (fun g => next_access (snd g) = None) (gor m).

(** However the rest of the program behaves and whoever's turn it is, only
    finitely many steps of calls follow. *)
Inductive runs_out {A} (F : nat -> nat -> Prop) (m : machine A) : Prop :=
| runs_out_intro :
    (forall h' m', keeps F (sh m) h' -> call_step (mkMachine h' (gor m)) m' -> runs_out F m') -> runs_out F m.
