(** * C82: a breach may be ingested in parts.

    Servers with one configuration and key ingest parts of a breach; the
    buckets are joined name by name.  That is the same as ingesting everything
    in one go, and a query finds the first part that has the credential. *)
From Coq Require Import Lia.
From Verif Require Import Base BaseProofs LibProofs Common CommonProofs Oprf OprfGroup Server Client KV
  SpecCommon SpecEntry SpecProtocol KVProofs ProtocolProofs WireProofs PropFinalize PropProtocol.

(** [name]'s bucket in each of the stores, one after the other. *)
Definition joined_bucket (stores : list kvStore) (name : bytes) : bytes :=
  flat_map (fun store => sl (kv_lookup store name)) stores.

(** The first of some answers that reports anything. *)
Definition first_report (answers : list (BreachStatus * gslice)) : BreachStatus * gslice :=
  match find (fun a => match snd a with Some _ => true | None => false end) answers with
  | Some a => a
  | None => (NotInBreach, None)
  end.

(** All credentials of a database have an entry, so the whole can be stored. *)
Lemma store_all_into LIB (s : Server LIB) db : Forall (storable s) db -> forall kv, exists kv', store_all s kv db = Ok kv'.
Proof.
  induction 1 as [|d db (Hid & Hk & Hf & Hm) F IH]; intros kv; [exists kv; reflexivity|]. destruct Hid as (id & Hid). destruct Hk as (k & Hk).
  cbn [store_all]. rewrite Hid. cbn [bind]. rewrite (EncryptBucketEntry_ok s _ _ _ _ _ Hk Hf Hm). cbn [bind]. apply IH.
Qed.
Lemma store_all_app LIB (s : Server LIB) db db' : forall kv, store_all s kv (db ++ db') = (kv1 <- store_all s kv db ;; store_all s kv1 db').
Proof.
  induction db as [|d db IH]; intros kv; [reflexivity|]. cbn [store_all app].
  destruct (Server_BucketID s (d_user d)) as [id| |]; [|reflexivity..]. cbn [bind].
  destruct (EncryptBucketEntry s (d_user d) (d_pass d) (d_flag d) (d_meta d)) as [e| |]; [|reflexivity..]. cbn [bind]. apply IH.
Qed.
(** Storing into a store appends to each bucket what storing into an empty one
    puts there. *)
Lemma store_all_appends LIB (s : Server LIB) db : forall kv kv' alone, store_all s kv db = Ok kv' -> store_all s newKVStore db = Ok alone ->
  forall name, sl (kv_lookup kv' name) = sl (kv_lookup kv name) ++ sl (kv_lookup alone name).
Proof.
  induction db as [|d db IH] using rev_ind; intros kv kv' alone H A name.
  - cbn in H, A. apply Ok_inj in H, A. subst. cbn. rewrite app_nil_r. reflexivity.
  - rewrite store_all_app in H, A. apply bind_ok in H as (kv1 & H1 & H). apply bind_ok in A as (al1 & A1 & A).
    cbn [store_all] in H, A. apply bind_ok in H as (id & I & H). rewrite I in A. cbn [bind] in A.
    apply bind_ok in H as (e & E & H). rewrite E in A. cbn [bind] in A. apply Ok_inj in H, A. subst kv' alone.
    rewrite !lookup_append. destruct (bytes_eqb _ name); [|apply IH; assumption].
    rewrite (IH _ _ _ H1 A1). rewrite app_assoc. reflexivity.
Qed.

(** Parts that can each be stored can be stored together, and the whole store
    has the joined buckets. *)
Theorem C82_parts_make_the_whole : forall (LIB : OPRF) (s : Server LIB) (parts : list (list cred)) (stores : list kvStore),
  Forall2 (fun part store => store_all s newKVStore part = Ok store) parts stores ->
  exists whole, store_all s newKVStore (concat parts) = Ok whole /\ forall name, sl (kv_lookup whole name) = joined_bucket stores name.
Proof.
  intros LIB s parts stores F. induction F as [|part store parts stores H F IH].
  - exists newKVStore. split; reflexivity.
  - destruct IH as (rest & R & L). cbn [concat]. rewrite store_all_app, H. cbn [bind].
    destruct (store_all_into LIB s (concat parts) (store_all_storable s _ _ _ R) store) as (whole & W). exists whole. split; [exact W|].
    intros name. rewrite (store_all_appends LIB s _ _ _ _ W R). rewrite L. reflexivity.
Qed.
Print Assumptions C82_parts_make_the_whole.

(** And the other way round: every way to cut a stored breach into parts gives
    parts that can be stored. *)
Theorem C82_whole_can_be_split : forall (LIB : OPRF) (s : Server LIB) (parts : list (list cred)) (whole : kvStore),
  store_all s newKVStore (concat parts) = Ok whole ->
  exists stores, Forall2 (fun part store => store_all s newKVStore part = Ok store) parts stores
    /\ forall name, sl (kv_lookup whole name) = joined_bucket stores name.
Proof.
  intros LIB s parts whole H. pose proof (store_all_storable s _ _ _ H) as F.
  assert (S : exists stores, Forall2 (fun part store => store_all s newKVStore part = Ok store) parts stores).
  { clear H. induction parts as [|part parts IH]; [exists []; constructor|]. cbn [concat] in F. apply Forall_app in F as [F1 F2].
    destruct (IH F2) as (stores & S). destruct (store_all_into LIB s part F1 newKVStore) as (st & St). exists (st :: stores). constructor; assumption. }
  destruct S as (stores & S). exists stores. split; [exact S|].
  destruct (C82_parts_make_the_whole LIB s parts stores S) as (whole' & W & L). rewrite H in W. apply Ok_inj in W. subst whole'. exact L.
Qed.
Print Assumptions C82_whole_can_be_split.

(** A server with any backend that returns the joined buckets answers like the
    server of each part, taken in turn. *)
Theorem C82_joined_buckets_answer : forall (LIB : OPRF), OPRF_laws LIB ->
  forall (cfg : Config) (key : PrivateKey LIB) (s : Server LIB) (c : Client),
  NewServer {| sc_config := cfg; sc_privateKey := key |} = Ok s -> NewClient LIB cfg = Ok c -> (cfg_version cfg < 2 ^ 16)%N -> (0 <= cfg_bits cfg <= 32)%Z ->
  forall (parts : list (list cred)) (stores : list kvStore) (backend : Getter),
  Forall2 (fun part store => store_all s newKVStore part = Ok store) parts stores ->
  (forall name, exists v, backend name = Ok v /\ sl v = joined_bucket stores name /\ holdable (sl v)) ->
  forall (u p : bytes) (r : Blind LIB) (k : bytes), deriveBucketEntryKey s u p = Ok k -> no_collision s (concat parts) u p ->
  exists answers, Forall2 (fun store a => forall r', run_query c s (kv_Get store) u p r' = Ok a) stores answers
    /\ run_query c s backend u p r = Ok (first_report answers).
Proof.
  intros LIB laws cfg key s c Hs Hc Hv Hb parts stores backend F B u p r k K N.
  destruct (derive_len LIB cfg s Hv u p k K) as [Lu _].
  destruct (bucket_defined LIB cfg key s Hs Hv u Hb Lu) as (id & I).
  exists (map (fun part => expected part u p) parts). split.
  - assert (NP : forall part, In part parts -> no_collision s part u p).
    { intros part Hp d k1 k2 Hd. apply N. apply in_concat. eauto. }
    assert (HP : forall store name, In store stores -> holdable (sl (kv_lookup store name))).
    { intros store name Hin. destruct (B name) as (v & _ & E & H). unfold holdable, blen in *. rewrite E in H.
      assert (L : (length (sl (kv_lookup store name)) <= length (joined_bucket stores name))%nat).
      { clear -Hin. induction stores as [|x l IH]; [destruct Hin|]. cbn [joined_bucket flat_map]. rewrite app_length. destruct Hin as [->|Hin]; [lia|].
        specialize (IH Hin). unfold joined_bucket in IH. lia. }
      lia. }
    clear B N. induction F as [|part store parts stores H F IH]; [constructor|]. cbn [map]. constructor.
    + intros r'. apply (run_query_store LIB laws cfg key s c Hs Hc Hv part store u p r' k id); auto; [|apply NP; left; reflexivity].
      intros name. apply HP. left. reflexivity.
    + apply IH; intros; [apply NP; right; assumption|apply HP; right; assumption].
  - destruct (C82_parts_make_the_whole LIB s parts stores F) as (whole & W & L).
    destruct (B (BucketIDToHex id)) as (v & G & E & H).
    rewrite (run_query_bucket LIB laws cfg key s c Hs Hc Hv backend (concat parts) u p r k id v); auto.
    + f_equal. unfold expected at 1. clear. induction parts as [|part parts IH]; [reflexivity|]. cbn [concat map].
      assert (FA : forall l l', find (same_cred u p) (l ++ l') = match find (same_cred u p) l with Some d => Some d | None => find (same_cred u p) l' end).
      { induction l as [|x l IHl]; intros l'; [reflexivity|]. cbn [app find]. destruct (same_cred u p x); [reflexivity|apply IHl]. }
      rewrite FA. unfold first_report. cbn [find]. unfold expected at 1 2. destruct (find (same_cred u p) part) as [d|]; [reflexivity|]. exact IH.
    + eapply store_all_storable. exact W.
    + rewrite E, <- L. rewrite (store_all_bucket s _ _ _ _ W); [reflexivity|]. eapply Server_BucketID_lt. exact I.
Qed.
Print Assumptions C82_joined_buckets_answer.

(** The four credentials of C11 in two parts, joined. *)
Example C82_example : exists stores,
  Forall2 (fun part store => store_all ex_server newKVStore part = Ok store) [firstn 2 ex_db; skipn 2 ex_db] stores
  /\ (forall name, sl (kv_lookup ex_kv name) = joined_bucket stores name)
  /\ no_collision ex_server (concat [firstn 2 ex_db; skipn 2 ex_db]) (str "alice") (str "pw")
  /\ exists k, deriveBucketEntryKey ex_server (str "alice") (str "pw") = Ok k.
Proof.
  destruct C11_example as (S & N & _).
  destruct (C82_whole_can_be_split toy_OPRF ex_server [firstn 2 ex_db; skipn 2 ex_db] ex_kv) as (stores & F & L); [exact S|].
  exists stores. split; [exact F|]. split; [exact L|]. split; [exact N|].
  destruct (stored_derives toy_OPRF ex_server ex_db ex_kv (str "alice") (str "pw") Byte.x03 (str "first") S) as [K _]; [|exact K].
  right; right; left. reflexivity.
Qed.
