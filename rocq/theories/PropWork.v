(** * C75: each call of the library does work linear in the size of its arguments.

    The unit is one read or write of a byte of memory, and one for each new
    array ([within], SpecWork.v); the work inside of the cryptographic libraries'
    own functions is not counted.  The bounds hold whatever memory returns: so
    also for responses and buckets that an attacker has made, and if other
    goroutines change the memory meanwhile. *)
From Coq Require Import Lia.
From Verif Require Import Base BaseProofs Common Hasher Encryptor Oprf OprfGroup Server Client Mutator MutatorProofs KV Mem MemCode MemProg Shared
  SpecMem SpecShared SpecWork ProtocolProofs WorkProofs PropProtocol PropShared.

Lemma of_code {A B} n (p : prog A) (f : A -> B) : W any n p -> within n (x <<- p ;; p_ret (f x)).
Proof. intros H. apply (W_within any). replace n with (n + 0)%nat by lia. eapply W_bind; [exact H|]. intros a _. apply W_ret. exact I. Qed.

(** Finalize: a bucket of [n] bytes has at most [n / 25] entries, and the key
    ([L] bytes) is read once for each. *)
Theorem C75_finalize {LIB} (ctx : ClientRequestContext LIB) (resp : mresponse) (L : nat) :
  (mlen (bucket_of resp) < 2 ^ 62)%Z ->
  (forall xs ks, unblind LIB (c_oprfSuite (ctx_client ctx)) (ctx_inputs ctx) (ctx_blinds ctx) xs OprfInfo = Ok ks -> Forall (fun k => (length k <= L)%nat) ks) ->
  let n := m_len (bucket_of resp) in
  within (m_len (mr_element resp) + (L + 89) * (n / 25) + 2 * L + 3 + 6 * n) (code (CFinalize ctx resp)).
Proof. intros Hl HL. apply of_code. exact (W_Finalize LIB ctx resp L Hl HL). Qed.
Print Assumptions C75_finalize.

(** HandleRequest: the size of the bucket that it returns does not matter. *)
Theorem C75_handle_request {LIB} (s : Server LIB) v id (b : mslice) kv (L : nat) :
  (forall xs es, evaluate LIB (s_oprfSuite s) (s_privateKey s) xs OprfInfo = Ok es -> Forall (fun e => (length e <= L)%nat) es) ->
  within (m_len b + L + 1) (code (CHandleRequest s v id b kv)).
Proof. intros HL. apply of_code. exact (W_Handle LIB s v id b kv L HL). Qed.
Print Assumptions C75_handle_request.

Theorem C75_marshal {LIB} (r : mresponse) :
  within (2 * (m_len (mr_element r) + m_len (bucket_of r)) + 5) (code (LIB := LIB) (CMarshal r)).
Proof. apply of_code, W_Marshal. Qed.
Print Assumptions C75_marshal.

(** UnmarshalBinary: a constant number of steps whatever is sent (104 for the
    default suite, whose elements have 33 bytes). *)
Theorem C75_unmarshal {LIB} (d : mslice) n : elt_size LIB DefaultOPRFSuite = Ok n ->
  within (3 * n + 5) (code (LIB := LIB) (CUnmarshal d)).
Proof. intros Hn. apply of_code, W_Unmarshal, Hn. Qed.
Print Assumptions C75_unmarshal.

Theorem C75_request {LIB} (cfg : Config) (c : Client) (u p : mslice) (r : Blind LIB) : NewClient LIB cfg = Ok c ->
  within (9 * m_len u + 5 * m_len p + 197) (code (CRequest c u p r)).
Proof.
  intros Hc. apply of_code. unfold NewClient in Hc. apply bind_ok in Hc as (bh & B & Hc). apply bind_ok in Hc as (sh & S & Hc).
  apply bind_ok in Hc as (be & E & Hc). apply bind_ok in Hc as (x & _ & Hc). apply Ok_inj in Hc.
  assert (Hs : NewSlowHasher (cfg_slowHasher cfg) = Ok (c_slowHasher c)) by (subst c; exact S).
  unfold NewBucketHasher in B. destruct (_ =? _)%N; [|discriminate]. apply Ok_inj in B.
  assert (Hb : c_bucketHasher c = sha256BucketHasher BucketHashSalt) by (subst c; subst bh; reflexivity).
  eapply W_mono; [exact (W_Request LIB c _ u p r _ Hs Hb)| |auto]. change (length BucketHashSalt) with 11%nat. lia.
Qed.
Print Assumptions C75_request.

(** EncryptBucketEntry; [L] bounds the length of keys. *)
Theorem C75_encrypt_entry {LIB} (cfg : ServerConfig LIB) (s : Server LIB) (u p : mslice) f (m : mslice) (L : nat) : NewServer cfg = Ok s ->
  (forall x k, full_evaluate LIB (s_oprfSuite s) (s_privateKey s) x OprfInfo = Ok k -> (length k <= L)%nat) ->
  within (5 * m_len u + 5 * m_len p + 9 * m_len m + 3 * L + 327) (code (CEncryptEntry s u p f m)).
Proof.
  intros Hs HL. apply of_code. unfold NewServer in Hs. cbv zeta in Hs. apply bind_ok in Hs as (bh & B & Hs). apply bind_ok in Hs as (sh & S & Hs).
  apply bind_ok in Hs as (be & E & Hs). apply bind_ok in Hs as (x & _ & Hs). apply Ok_inj in Hs.
  apply (W_EncryptEntry LIB s (cfg_slowHasher (sc_config cfg))); [subst s; exact S|exact HL].
Qed.
Print Assumptions C75_encrypt_entry.

(** Mutate: at most four passes over the longest possible variant for each
    rule; how many variants are asked for does not matter. *)
Theorem C75_mutate {LIB} (rules : list RDasRule) (pw : mslice) (num : Z) (k : nat) : Forall (small_rule k) rules ->
  within (m_len pw + length rules * (4 * ((m_len pw + 1) * (1 + k)))) (code (LIB := LIB) (CMutate rules pw num)).
Proof. intros F. apply of_code, W_Mutate, F. Qed.
Print Assumptions C75_mutate.

(** What the bounds mean.  Of a call that runs alone they bound its work. *)
Theorem C75_alone {LIB} (c : call LIB) n h : within n (code c) -> (work (code c) h <= n)%nat.
Proof. intros H. apply within_work, H. Qed.
Print Assumptions C75_alone.

(** Of goroutines they bound the steps: together at most the sum, whatever
    else happens to the memory. *)
Theorem C75_together {LIB} (F : nat -> nat -> Prop) (calls : list (call LIB)) (bound : call LIB -> nat) h steps m :
  (forall c, In c calls -> within (bound c) (code c)) ->
  reaches_in F steps (started h calls) m ->
  (steps <= fold_right (fun c n => bound c + n) 0 calls)%nat.
Proof.
  intros H R. destruct (reaches_in_bounded F steps _ _ (map bound calls) R) as (ns & _ & L).
  - unfold bounded, started. cbn [gor]. clear R. induction calls as [|c calls IH]; cbn [map]; constructor; [apply H; left; reflexivity|].
    apply IH. intros c' I. apply H. right. exact I.
  - assert (E : sum (map bound calls) = fold_right (fun c n => bound c + n)%nat 0%nat calls) by (clear; induction calls; cbn; congruence). lia.
Qed.
Print Assumptions C75_together.

(** The rules that are built in have short texts: 323 of them, at most 4 bytes. *)
Theorem C75_built_in_rules : Forall (small_rule 4) shipped /\ length shipped = 323%nat.
Proof.
  split; [|reflexivity]. apply Forall_forall. intros r I.
  assert (C : forallb (fun r => (length (String1 r) <=? 4)%nat && (length (String2 r) <=? 4)%nat) shipped = true) by reflexivity.
  rewrite forallb_forall in C. specialize (C r I). apply andb_true_iff in C as [A B]. apply Nat.leb_le in A, B. split; assumption.
Qed.
Print Assumptions C75_built_in_rules.

(** The hypotheses are met: keys of the groups' library have 32 bytes. *)
Lemma group_keys gs s xs rs es info ks : unblind (group_OPRF gs) s xs rs es info = Ok ks -> Forall (fun k => (length k <= 32)%nat) ks.
Proof.
  cbn [unblind group_OPRF]. unfold with_suite. destruct (gs s) as [g|]; [|discriminate]. destruct (_ && _); [|discriminate].
  match goal with |- mapM ?f ?l = _ -> _ => set (fn := f); generalize l end. intros l. revert ks. induction l as [|x l IH]; intros ks H; cbn [mapM] in H.
  - apply Ok_inj in H. subst ks. constructor.
  - apply bind_ok in H as (k & K & H). apply bind_ok in H as (ks' & K' & H). apply Ok_inj in H. subst ks. constructor; [|exact (IH ks' K')].
    unfold fn in K. destruct (g_dec g (snd x)); [|discriminate]. apply Ok_inj in K. subst k. unfold out_hash. rewrite LibProofs.sha256_length. lia.
Qed.
Lemma group_key gs s k x info r : full_evaluate (group_OPRF gs) s k x info = Ok r -> (length r <= 32)%nat.
Proof.
  cbn [full_evaluate group_OPRF]. unfold with_suite. destruct (gs s) as [g|]; [|discriminate]. intros H. apply bind_ok in H as (t & _ & H).
  apply Ok_inj in H. subst r. unfold out_hash. rewrite LibProofs.sha256_length. lia.
Qed.
(** A response with a bucket of [n] bytes, whatever it contains, costs at most
    11 units a byte; four calls over one memory take at most 1166 steps. *)
Example C75_example :
  (forall (ctx : ClientRequestContext toy_OPRF) v e b n h, (Z.of_nat n < 2 ^ 62)%Z ->
     (work (code (CFinalize ctx (mkMResponse v (mkM e 0 33 33) (Some (mkM b 0 n n))))) h <= 11 * n + 100)%nat) /\
  forall F steps m, reaches_in F steps (started ex71_heap ex71_calls) m -> (steps <= 1166)%nat.
Proof.
  split.
  - intros ctx v e b n h Hn. apply within_work.
    pose proof (C75_finalize ctx (mkMResponse v (mkM e 0 33 33) (Some (mkM b 0 n n))) 32 Hn (fun xs ks => group_keys _ _ _ _ xs OprfInfo ks)) as H.
    cbn [bucket_of mr_bucket mr_element m_len] in H. eapply within_mono; [exact H|]. pose proof (Nat.div_mod_eq n 25). lia.
  - intros F steps m R.
    refine (Nat.le_trans _ _ _ (C75_together F ex71_calls (fun c => match c with CEncryptEntry _ _ _ _ _ => 476 | CMutate _ pw _ => if (m_len pw =? 2)%nat then 146 else 440 | _ => 104 end%nat) ex71_heap steps m _ R) _); [|cbn; lia].
    assert (S : Forall (small_rule 2) ex71_rules) by (repeat constructor; cbn; lia).
    intros c [<-|[<-|[<-|[<-|[]]]]].
    + exact (C75_encrypt_entry _ ex_server (mkM 0 0 5 5) (mkM 0 6 2 9) MetadataBreachedPassword (mkM 0 6 2 9) 32 (proj1 ex_server_ok) (fun x k => group_key _ _ _ x OprfInfo k)).
    + exact (C75_mutate ex71_rules (mkM 0 6 2 9) 3 2 S).
    + exact (C75_mutate ex71_rules (mkM 0 0 8 15) 3 2 S).
    + exact (C75_unmarshal (LIB := toy_OPRF) (mkM 1 0 38 38) 33 eq_refl).
Qed.
