(** * C71: calls of the library that run at the same time.

    Goroutines call the library with arguments that may lie in the same memory
    and overlap.  Their single accesses of bytes are interleaved in any order,
    and in between the rest of the program may write anything to the memory
    that existed before, except to bytes that an argument shows
    ([shown_by_any calls]).  [reaches] gives all states that can come about. *)
From Coq Require Import Lia.
From Verif Require Import Base Common Hasher Encryptor Oprf OprfGroup Server Client Mutator KV Mem MemCode MemProg Shared SpecMem SpecShared SharedProofs PropProtocol.

(** No races: the next access of every goroutine allocates, reads or writes
    memory that its own call has allocated, or reads a byte that one of its own
    call's arguments shows.  So no call ever writes to memory that another call
    or its caller can see: not to the arguments, not to their spare capacity. *)
Theorem C71_no_races {LIB} (calls : list (call LIB)) h m : reaches (shown_by_any calls) (started h calls) m ->
  (forall n c own p, at_call m calls n c own p ->
     match next_access p with
     | Some (ReadAt a i) => (length h <= a)%nat \/ shown c a i
     | Some (WriteAt a i) => (length h <= a)%nat
     | Some AllocNew | None => True
     end) /\
  forall m', call_step m m' -> sh m' = sh m.
Proof.
  intros R. pose proof (reaches_inv h calls _ _ R (inv_start h calls)) as V. split.
  - intros n c own p [E1 E2]. destruct V as [_ V].
    destruct (Forall2_nth _ _ _ n c V E1) as ([own' p'] & E3 & C & _). rewrite E2 in E3. injection E3 as <- <-.
destruct p as [r|b k|a i k|a i b k]; cbn [next_access confined snd] in *; auto; apply C.
  - intros m' S. apply (call_step_inv h calls m m' V S).
Qed.
Print Assumptions C71_no_races.

(** A call that has returned has returned what the functional model says of the
    bytes that its arguments showed at the start, whatever the order of the
    steps was, and the memory it has returned still shows it. *)
Theorem C71_outcome {LIB} (calls : list (call LIB)) h m n c own r :
  (forall c, In c calls -> valid_call h c) ->
  reaches (shown_by_any calls) (started h calls) m ->
  at_call m calls n c own (PDone r) ->
  answers h (sh m ++ own) c r.
Proof.
  intros Vc R [E1 E2]. destruct (reaches_inv h calls _ _ R (inv_start h calls)) as [K V].
  destruct (Forall2_nth _ _ _ n c V E1) as ([own' p'] & E3 & _ & C). rewrite E2 in E3. injection E3 as <- <-.
cbn [fst snd run] in C. apply nth_error_In in E1.
  apply answers_keeps.
  - destruct K as (K1 & K2 & K3). split; [exact K1|]. split; [exact K2|]. intros a i Sh. apply K3. exists c. auto.
  - apply (run_code h c (Vc c E1)). symmetry. exact C.
Qed.
Print Assumptions C71_outcome.

(** Every call returns: in every state only finitely many steps of calls can
    still follow, a goroutine that has not returned can take one, and a state
    in which all have returned can be reached. *)
Theorem C71_calls_return {LIB} (calls : list (call LIB)) h m : reaches (shown_by_any calls) (started h calls) m ->
  length (gor m) = length calls /\
  runs_out (shown_by_any calls) m /\
  (forall n own p, nth_error (gor m) n = Some (own, p) -> next_access p <> None -> exists m', call_step m m') /\
  exists m', reaches (shown_by_any calls) (started h calls) m' /\ reaches (shown_by_any calls) m m' /\ finished m'.
Proof.
  intros R. destruct (reaches_inv h calls _ _ R (inv_start h calls)) as [_ V]. split; [symmetry; clear - V; induction V; cbn; congruence|].
  split; [apply always_runs_out|]. split; [intros n own p; apply can_step|].
  destruct (can_finish (shown_by_any calls) m) as (m' & R' & D). exists m'. split; [|auto]. eapply reaches_trans; eauto.
Qed.
Print Assumptions C71_calls_return.

Definition ex71_rules : list RDasRule :=
  [ mkRule (str "c") 0 [] []; mkRule (str "i") (-1) (str "!") []; mkRule (str "d") 1 [] []; mkRule (str "s") 0 (str "w") (str "vv") ].
(** The condition on the rest of the program is needed: when it may overwrite
    the arguments during the call, the answer can be another one. *)
Theorem C71_arguments_must_not_change :
  ~ forall (calls : list (call toy_OPRF)) h m n c own r,
    (forall c, In c calls -> valid_call h c) ->
    reaches (fun _ _ => False) (started h calls) m -> at_call m calls n c own (PDone r) -> answers h (sh m ++ own) c r.
Proof.
  intros H. set (h := [str "pw"]). set (h' := [str "qw"]). set (c := CMutate ex71_rules (mkM 0 0 2 2) 1 : call toy_OPRF).
  assert (V : forall h, In h [[str "pw"]; [str "qw"]] -> forall c', In c' [c] -> valid_call h c').
  { intros g [<-|[<-|[]]] c' [<-|[]]; (split; [|exact I]); intros s [<-|[]]; (split; [cbn; lia|]); right; cbn; lia. }
  destruct (C71_calls_return [c] h' (started h' [c]) (rc_refl _ _)) as (_ & _ & _ & m & R & _ & D).
  assert (W : forall F (a b : machine (outcome toy_OPRF)), reaches F a b -> reaches (fun _ _ => False) a b).
  { intros F a b X. induction X as [x|x y z X IH S]; [constructor|]. econstructor; [exact IH|]. destruct S as [y z S|y y' g K]; [apply ms_call; exact S|apply ms_other].
    destruct K as (K1 & K2 & _). split; [exact K1|]. split; [exact K2|]. contradiction. }
  assert (R0 : reaches (fun _ _ => False) (started h [c]) m).
  { eapply reaches_trans; [|apply (W _ _ _ R)]. econstructor; [constructor|]. unfold started. apply ms_other.
    split; [reflexivity|]. split; [intros [|[|a]]; reflexivity|contradiction]. }
  destruct (C71_calls_return [c] h' m R) as (L & _). unfold finished in D.
  destruct (gor m) as [|[own p] [|]] eqn:G; try discriminate. inversion D as [|g gs D1 D2]; subst. destruct p as [r| | |]; try discriminate.
  assert (A : at_call m [c] 0 c own (PDone r)) by (split; [reflexivity|rewrite G; reflexivity]).
  pose proof (H [c] h m 0%nat c own r (V h (or_introl eq_refl)) R0 A) as A1.
  pose proof (C71_outcome [c] h' m 0%nat c own r (V h' (or_intror (or_introl eq_refl))) R A) as A2.
  unfold answers, c in A1, A2. revert A1 A2.
  change (view h (mkM 0 0 2 2)) with (str "pw"). change (view h' (mkM 0 0 2 2)) with (str "qw").
  destruct (Mutate ex71_rules (str "pw") 1) as [l1| |] eqn:M1; [|vm_compute in M1; discriminate..].
  destruct (Mutate ex71_rules (str "qw") 1) as [l2| |] eqn:M2; [|vm_compute in M2; discriminate..].
  assert (N : l1 <> l2).
  { intros ->. assert (X : Mutate ex71_rules (str "pw") 1 = Mutate ex71_rules (str "qw") 1) by (rewrite M1, M2; reflexivity). vm_compute in X. discriminate. }
  destruct r as [o| |]; cbn [like]; try contradiction. intros (s1 & E1 & F1 & _) (s2 & E2 & F2 & _). rewrite E1 in E2. injection E2 as <-.
  apply N. clear - F1 F2. revert l2 F2. induction F1 as [|s b ss bs F F1 IH]; intros l2 F2; inversion F2 as [|s' b' ss' bs' G G2]; subst; [reflexivity|].
  f_equal; [|apply IH; exact G2]. destruct F as [_ <-], G as [_ <-]. reflexivity.
Qed.
Print Assumptions C71_arguments_must_not_change.

(** Four calls over one line buffer with spare capacity, one server value and
    one response buffer: they all return, and they return the right bytes. *)
Definition ex71_heap : heap := [str "alice:pw......."; zeros 38].
Definition ex71_calls : list (call toy_OPRF) :=
  [ CEncryptEntry ex_server (mkM 0 0 5 5) (mkM 0 6 2 9) MetadataBreachedPassword (mkM 0 6 2 9);
    CMutate ex71_rules (mkM 0 6 2 9) 3;
    CMutate ex71_rules (mkM 0 0 8 15) 3;
    CUnmarshal (mkM 1 0 38 38) ].
Example C71_example :
  (forall c, In c ex71_calls -> valid_call ex71_heap c) /\
  exists m own1 own2 e l b,
    reaches (shown_by_any ex71_calls) (started ex71_heap ex71_calls) m /\ finished m /\
    nth_error (gor m) 0 = Some (own1, PDone (Ok (OSlice e))) /\
    EncryptBucketEntry ex_server (str "alice") (str "pw") MetadataBreachedPassword (str "pw") = Ok b /\ view (sh m ++ own1) e = b /\
    nth_error (gor m) 1 = Some (own2, PDone (Ok (OSlices l))) /\ Mutate ex71_rules (str "pw") 3 = Ok (map (view (sh m ++ own2)) l).
Proof.
  assert (V : forall c, In c ex71_calls -> valid_call ex71_heap c).
  { intros c [<-|[<-|[<-|[<-|[]]]]]; (split; [|exact I]); intros s Hs; cbn [arguments In] in Hs;
      repeat (destruct Hs as [<-|Hs]); try contradiction; (split; [cbn; lia|]); right; cbn; lia. }
  split; [exact V|].
  destruct (C71_calls_return ex71_calls ex71_heap (started ex71_heap ex71_calls) (rc_refl _ _)) as (_ & _ & _ & m & R & _ & D).
  destruct (C71_calls_return ex71_calls ex71_heap m R) as (L & _).
  pose proof (fun n c own r => C71_outcome ex71_calls ex71_heap m n c own r V R) as O. unfold finished in D.
  destruct (gor m) as [|[own1 p1] [|[own2 p2] g]] eqn:G; try discriminate.
  inversion D as [|g1 gs D1 D2]; subst. inversion D2 as [|g2 gs D3 _]; subst. destruct p1 as [r1| | |], p2 as [r2| | |]; try discriminate.
  pose proof (O 0%nat (CEncryptEntry ex_server (mkM 0 0 5 5) (mkM 0 6 2 9) MetadataBreachedPassword (mkM 0 6 2 9)) own1 r1 ltac:(split; [reflexivity|rewrite G; reflexivity])) as A1.
  pose proof (O 1%nat (CMutate ex71_rules (mkM 0 6 2 9) 3) own2 r2 ltac:(split; [reflexivity|rewrite G; reflexivity])) as A2. clear O.
  unfold answers in A1, A2.
  change (view ex71_heap (mkM 0 0 5 5)) with (str "alice") in A1. change (view ex71_heap (mkM 0 6 2 9)) with (str "pw") in A1, A2.
  destruct (EncryptBucketEntry ex_server (str "alice") (str "pw") MetadataBreachedPassword (str "pw")) as [b| |] eqn:E1; [|exfalso; vm_compute in E1; discriminate..].
  destruct (Mutate ex71_rules (str "pw") 3) as [l| |] eqn:E2; [|exfalso; vm_compute in E2; discriminate..].
  destruct r1 as [o1| |]; cbn [like] in A1; try contradiction. destruct A1 as (e & -> & _ & A1).
  destruct r2 as [o2| |]; cbn [like] in A2; try contradiction. destruct A2 as (ss & -> & A2 & _).
  exists m, own1, own2, e, ss, b. rewrite G. cbn [nth_error]. split; [exact R|]. split; [unfold finished; rewrite G; exact D|]. do 4 (split; [auto|]). 
  f_equal. clear - A2. induction A2 as [|s x ss bs [_ A] A2 IH]; [reflexivity|]. cbn [map]. rewrite <- A, <- IH. reflexivity.
Qed.
