(** * C59, C60: memory.  The calls only read the slices they are given and
    return memory of their own; the demo server's store owns its memory.

    [view h s] is what the slice [s] shows in memory [h]; [valid h s] says that
    [s] is a slice of an existing array.  Arguments may overlap, have spare
    capacity, or lie in the store. *)
From Coq Require Import Lia.
From Verif Require Import Base Common Hasher Encryptor Oprf OprfGroup Server Client Mutator Scanner ConfigJson KV Demo Mem MemCode MemStore SpecMem MemProofs MemStoreProofs PropProtocol.

(** ** C59 *)

(** Mutate: the password is only read, and each variant is a slice of its own. *)
Theorem C59_mutate h rules password num : valid h password ->
  returns_new_list h (Mutate_m rules password num h) (Mutate rules (view h password) num).
Proof. apply Mutate_m_ok. Qed.

(** EncryptBucketEntry. *)
Theorem C59_encrypt_entry {LIB} h (s : Server LIB) username password flag metadata :
  valid h username -> valid h password -> valid h metadata ->
  returns_new h (EncryptEntry_m s username password flag metadata h)
    (EncryptBucketEntry s (view h username) (view h password) flag (view h metadata)).
Proof. apply EncryptEntry_m_ok. Qed.

(** The bucket encryptor. *)
Theorem C59_encrypt h secret flag body : valid h secret -> valid h body ->
  returns_new h (Encrypt_m secret flag body h) (Encrypt hkdfSHA256BucketEncryptor (view h secret) flag (view h body)).
Proof. apply Encrypt_m_ok. Qed.
Print Assumptions C59_encrypt.
Theorem C59_decrypt_body h secret body : valid h secret -> valid h body ->
  returns_new h (DecryptBody_m secret body h) (DecryptBody hkdfSHA256BucketEncryptor (view h secret) (view h body)).
Proof. apply DecryptBody_m_ok. Qed.
Print Assumptions C59_decrypt_body.
Theorem C59_decrypt_header iw h secret c : valid h secret -> valid h c ->
  returns h (DecryptHeader_m iw secret c h) (DecryptHeader iw hkdfSHA256BucketEncryptor (view h secret) (view h c)).
Proof. apply DecryptHeader_m_ok. Qed.
Print Assumptions C59_decrypt_header.

(** Hashing: the bucket hash, and the slow hash except for the null hasher. *)
Theorem C59_hash h bh s : valid h s -> returns_new h (bucketHash_m bh s h) (BucketHasher_Hash bh (view h s)).
Proof. apply bucketHash_m_ok. Qed.
Print Assumptions C59_hash.
Theorem C59_slow_hash h sh s : valid h s -> sh <> nullSlowHasher ->
  returns_new h (slowHash_m sh s h) (SlowHasher_Hash sh (view h s)).
Proof. apply slowHash_m_ok. Qed.
Print Assumptions C59_slow_hash.
(** The null hasher returns its argument: who writes to the "hash" overwrites
    the input. *)
Theorem C59_null_hash_refuted :
  ~ (forall h s, valid h s -> returns_new h (slowHash_m nullSlowHasher s h) (SlowHasher_Hash nullSlowHasher (view h s))).
Proof.
  intros H. destruct (H [str "x"] (mkM 0 0 1 1)) as [_ R].
  { split; simpl; [lia|]. right. split; simpl; lia. }
  simpl in R. destruct R as (_ & _ & N). unfold new_in in N. simpl in N. lia.
Qed.
Print Assumptions C59_null_hash_refuted.

(** The client's Request. *)
Theorem C59_request {LIB : OPRF} h c username password (r : Blind LIB) : valid h username -> valid h password ->
  returns h (Request_m c username password r h) (Request c (view h username) (view h password) r).
Proof. apply Request_m_ok. Qed.
Print Assumptions C59_request.

(** The client's Finalize: the response, with the whole bucket, is only read,
    and the metadata returned is a new slice. *)
Theorem C59_finalize {LIB : OPRF} h (ctx : ClientRequestContext LIB) r : valid_response h r ->
  returns_verdict h (Finalize_m ctx r h) (Finalize ctx (read_response h r)).
Proof. apply Finalize_m_ok. Qed.

(** MarshalBinary. *)
Theorem C59_marshal h r : returns_new h (MarshalBinary_m r h) (MarshalBinary (read_response h r)).
Proof. apply MarshalBinary_m_ok. Qed.
Print Assumptions C59_marshal.

(** UnmarshalBinary: the data is only read, the element is a new slice, the
    bucket is the tail of the data itself. *)
Theorem C59_unmarshal LIB h data : valid h data ->
  let o := UnmarshalBinary_m LIB data h in
  leaves_memory h o /\
  match fst o with
  | Ok r => UnmarshalBinary LIB (view h data) = Ok (read_response (snd o) r) /\ valid_response (snd o) r /\
            new_in h (snd o) (mr_element r) /\
            exists k, (k <= m_len data)%nat /\
              mr_bucket r = Some (mkM (m_arr data) (m_off data + k) (m_len data - k) (m_cap data - k))
  | Err e => UnmarshalBinary LIB (view h data) = Err e
  | Panic m => UnmarshalBinary LIB (view h data) = Panic m
  end.
Proof.
  intros Hd o. subst o. destruct (UnmarshalBinary_m_ok LIB h data Hd) as [L R]. split; [exact L|].
  destruct (fst _); auto. destruct R as (A & B & C & k & D & E). eauto 10.
Qed.
Print Assumptions C59_unmarshal.

(** So it is not true that the parsed response stays what it is when the data
    is re-used. *)
Theorem C59_unmarshal_keeps_refuted :
  ~ (forall LIB h data r h' i b, valid h data -> UnmarshalBinary_m LIB data h = (Ok r, h') ->
       (0 <= i < mlen data)%Z -> read_response (snd (m_set data i b h')) r = read_response h' r).
Proof.
  intros H.
  set (d := zeros 38).
  assert (E : exists r h', UnmarshalBinary_m toy_OPRF (mkM 0 0 38 38) [d] = (Ok r, h') /\
     read_response (snd (m_set (mkM 0 0 38 38) 37 Byte.x01 h')) r <> read_response h' r).
  { vm_compute. do 2 eexists. split; [reflexivity|]. discriminate. }
  destruct E as (r & h' & E & N). apply N. apply (H toy_OPRF [d] (mkM 0 0 38 38) r h' 37%Z Byte.x01).
  - split; simpl; [lia|]. right. unfold d. split; simpl; lia.
  - exact E.
  - unfold mlen. cbn [m_len]. lia.
Qed.

(** HandleRequest: the request and the store are only read, the element is a
    new slice, the bucket is the store's own slice. *)
Theorem C59_handle_request {LIB} h (s : Server LIB) version id b kv : valid h b ->
  (forall k v, kv k = Ok (Some v) -> valid h v) ->
  let kv' k := match kv k with Ok v => Ok (option_map (view h) v) | Err e => Err e | Panic m => Panic m end in
  let o := HandleRequest_m s version id b kv h in
  let r := HandleRequest s {| rq_version := version; rq_bucketID := id; rq_blindElement := Some (view h b) |} kv' in
  leaves_memory h o /\
  match fst o with
  | Ok m => r = Ok (read_response (snd o) m) /\ valid_response (snd o) m /\
            new_in h (snd o) (mr_element m) /\ kv id = Ok (mr_bucket m)
  | Err e => r = Err e
  | Panic e => r = Panic e
  end.
Proof. apply HandleRequest_m_ok. Qed.
Print Assumptions C59_handle_request.

(** Overlapping arguments with spare capacity: user name, password and metadata
    are parts of one line. *)
Definition ex_line : bytes := str "alice:pw.......".
Example C59_example :
  match EncryptEntry_m ex_server (mkM 0 0 5 5) (mkM 0 6 2 9) MetadataBreachedPassword (mkM 0 6 2 9) [ex_line],
        EncryptBucketEntry ex_server (str "alice") (str "pw") MetadataBreachedPassword (str "pw") with
  | (Ok e, a :: h'), Ok b => bytes_eqb a ex_line && bytes_eqb (view (a :: h') e) b
  | _, _ => false
  end = true.
Proof. vm_compute. reflexivity. Qed.

(** ** C60 *)

(** Inserting a credential: the store afterwards holds what the functional
    model says, it still owns its memory, and nobody else's bytes have changed.
    [grow] is append's choice of capacity. *)
Theorem C60_insert grow {LIB} (s : Server LIB) store username password metadata n incl h :
  owns h store -> safe h store username -> safe h store password -> safe h store metadata ->
  let '(store', r, h') := demo_insert_m grow s store username password metadata n incl h in
  store_step h store h' store' /\
  (read_store h' store', r) = demo_insert s (read_store h store) (view h username) (view h password) (view h metadata) n incl.
Proof. apply demo_insert_m_ok. Qed.

(** A bucket that Get has returned keeps its bytes, whatever is inserted later
    (the conclusion repeats the premise, so it holds for any number of
    insertions). *)
Theorem C60_get_is_a_snapshot grow {LIB} (s : Server LIB) store username password metadata n incl h b :
  owns h store -> safe h store username -> safe h store password -> safe h store metadata ->
  (exists id, mkv_lookup store id = Some b) \/ safe h store b ->
  let '(store', _, h') := demo_insert_m grow s store username password metadata n incl h in
  owns h' store' /\ view h' b = view h b /\ safe h' store' b.
Proof.
  intros Ho Hu Hp Hm Hb. assert (Sb : safe h store b).
  { destruct Hb as [[id E]|Sb]; [|exact Sb]. apply lookup_in in E as [k Hk]. eapply store_safe; eassumption. }
  pose proof (demo_insert_m_ok grow s store username password metadata n incl h Ho Hu Hp Hm) as D.
  destruct (demo_insert_m grow s store username password metadata n incl h) as [[store' r] h'].
  destruct D as [(O & _ & _ & _ & V) _]. split; [exact O|]. now apply V.
Qed.
Print Assumptions C60_get_is_a_snapshot.

(** Ingestion: although each line is gone when the next one is read, the store
    afterwards is the one the functional model computes from the lines. *)
Theorem C60_ingestion grow {LIB} (s : Server LIB) metadata n incl st h lines r h' :
  owns h (mi_store st) -> ingestion grow s metadata n incl st h lines r h' ->
  match r with
  | Ok st' => ingest_lines s metadata n incl (read_ingest h st) lines = Ok (read_ingest h' st') /\ owns h' (mi_store st')
  | Err _ => False
  | Panic m => ingest_lines s metadata n incl (read_ingest h st) lines = Panic m
  end.
Proof. intros Ho Hi. exact (ingestion_ok grow s metadata n incl st h lines r h' Hi Ho). Qed.

(** Every sequence of lines can be ingested (or crashes the process) from the
    empty store, whatever is in memory. *)
Theorem C60_ingestion_exists grow {LIB} (s : Server LIB) metadata n incl h lines :
  owns h [] /\ exists r h', ingestion grow s metadata n incl (mkMIngest [] 0 0) h lines r h'.
Proof.
  assert (O : owns h []) by (split; [intros k t []|constructor]).
  split; [exact O|]. now apply ingestion_exists.
Qed.
Print Assumptions C60_ingestion_exists.

(** Two lines in the same buffer, the second written over the first. *)
Definition ex_grow : heap -> mslice -> bytes -> nat := fun _ _ _ => 7%nat.
Fixpoint store_eqb (a b : kvStore) : bool :=
  match a, b with
  | [], [] => true
  | (k, v) :: a', (k', v') :: b' => bytes_eqb k k' && bytes_eqb (sl v) (sl v') && store_eqb a' b'
  | _, _ => false
  end.
Example C60_example :
  match ingest_line_m ex_grow ex_server (str "md") 1 false (mkMIngest [] 0 0) (mkM 0 0 8 16) [str "alice:pw........"] with
  | (Ok st1, h1) =>
      match ingest_line_m ex_grow ex_server (str "md") 1 false st1 (mkM 0 0 8 16) (write h1 0 0 (str "alice:qx")),
            ingest_lines ex_server (str "md") 1 false (mkIngest [] 0 0) [str "alice:pw"; str "alice:qx"] with
      | (Ok st2, h2), Ok st => store_eqb (read_store h2 (mi_store st2)) (in_store st) && (mi_success st2 =? 2)%N
      | _, _ => false
      end
  | _ => false
  end = true.
Proof. vm_compute. reflexivity. Qed.

Print Assumptions C59_mutate.
Print Assumptions C59_encrypt_entry.
Print Assumptions C59_finalize.
Print Assumptions C59_unmarshal_keeps_refuted.
Print Assumptions C60_insert.
Print Assumptions C60_ingestion.
