(** Proofs for C77: the size of the store. *)
From Coq Require Import Lia.
From Verif Require Import Base BaseProofs Common CommonProofs Oprf Server KV KVProofs ConfigJson Demo Mutator MutatorProofs
  SpecCommon SpecEntry SpecProtocol SpecDemo SpecStore EncryptorProofs ProtocolProofs DemoProofs OrderProofs VariantProofs.

Lemma kv_set_bytes (kv : kvStore) id v : (store_bytes (kv_set kv id v) + length (sl (kv_lookup kv id)) = store_bytes kv + length (sl v))%nat.
Proof.
  induction kv as [|[k w] kv IH]; cbn [kv_set kv_lookup store_bytes fold_right snd]; [cbn; lia|].
  destruct (bytes_eqb k id); cbn [store_bytes fold_right snd]; [lia|]. fold (store_bytes (kv_set kv id v)) (store_bytes kv). lia.
Qed.
Lemma go_append_bytes s (v : bytes) : length (sl (go_append s v)) = (length (sl s) + length v)%nat.
Proof. destruct s as [b|], v as [|x v]; cbn [go_append sl]; rewrite ?app_length; cbn; lia. Qed.
Lemma kv_append_bytes kv id v : store_bytes (kv_Append kv id v) = (store_bytes kv + length v)%nat.
Proof. unfold kv_Append. pose proof (kv_set_bytes kv id (go_append (kv_lookup kv id) v)) as H. rewrite go_append_bytes in H. lia. Qed.
Lemma kv_set_keys (kv : kvStore) id v k : In k (buckets (kv_set kv id v)) -> k = id \/ In k (buckets kv).
Proof.
  unfold buckets. induction kv as [|[k' w] kv IH]; cbn [kv_set map fst In]; [intros [->|[]]; auto|].
  destruct (bytes_eqb k' id); cbn [map fst In]; [tauto|]. intros [->|H]; [auto|]. apply IH in H. tauto.
Qed.
Lemma kv_set_nodup (kv : kvStore) id v : NoDup (buckets kv) -> NoDup (buckets (kv_set kv id v)).
Proof.
  unfold buckets. induction kv as [|[k w] kv IH]; intros N; cbn [kv_set map fst]; [constructor; [intros []|constructor]|].
  inversion N as [|? ? N1 N2]; subst. destruct (bytes_eqb k id) eqn:E; cbn [map fst]; constructor; auto.
  intros I. apply (kv_set_keys kv id v k) in I. destruct I as [->|I]; [|contradiction]. rewrite bytes_eqb_refl in E. discriminate.
Qed.
Lemma entry_size LIB (s : Server LIB) u p f m e : EncryptBucketEntry s u p f m = Ok e -> length e = (25 + length m)%nat.
Proof.
  intros H. apply EncryptBucketEntry_inv in H as (k & _ & _ & B & ->). destruct (make_entry_ok k f m B) as [C _].
  rewrite (entry_bytes_length _ C). unfold make_entry. cbn [e_body]. rewrite xor_length; [reflexivity|]. unfold blen in B. rewrite body_mask_length by lia. reflexivity.
Qed.

Lemma stored_size LIB (s : Server LIB) : forall db kv kv', store_all s kv db = Ok kv' -> store_bytes kv' = (store_bytes kv + entries_bytes db)%nat.
Proof.
  induction db as [|d db IH]; intros kv kv' H; cbn [store_all] in H; [apply Ok_inj in H; subst kv'; cbn; lia|].
  apply bind_ok in H as (id & _ & H). apply bind_ok in H as (e & E & H). apply IH in H. rewrite H, kv_append_bytes, (entry_size _ _ _ _ _ _ _ E).
  cbn [entries_bytes fold_right]. fold (entries_bytes db). lia.
Qed.
Lemma stored_nodup LIB (s : Server LIB) : forall db kv kv', store_all s kv db = Ok kv' -> NoDup (buckets kv) -> NoDup (buckets kv').
Proof.
  induction db as [|d db IH]; intros kv kv' H N; cbn [store_all] in H; [apply Ok_inj in H; subst kv'; exact N|].
  apply bind_ok in H as (id & _ & H). apply bind_ok in H as (e & E & H). apply (IH _ _ H). apply kv_set_nodup, N.
Qed.
Lemma stored_keys LIB (s : Server LIB) : forall db kv kv' k, store_all s kv db = Ok kv' -> In k (buckets kv') ->
  In k (buckets kv) \/ exists d id, In d db /\ Server_BucketID s (d_user d) = Ok id /\ k = BucketIDToHex id.
Proof.
  induction db as [|d db IH]; intros kv kv' k H I; cbn [store_all] in H; [apply Ok_inj in H; subst kv'; auto|].
  apply bind_ok in H as (id & J & H). apply bind_ok in H as (e & E & H). destruct (IH _ _ _ H I) as [K|(d' & id' & A & B & C)].
  - apply kv_set_keys in K as [->|K]; [|auto]. right. exists d, id. split; [left; reflexivity|auto].
  - right. exists d', id'. split; [right; exact A|auto].
Qed.

(** ** One insert *)
Lemma creds_length u p m vs incl : length (insert_creds u p m vs incl) = (1 + length vs + if incl then 1 else 0)%nat.
Proof. unfold insert_creds. cbn [length]. rewrite app_length, map_length. destruct incl; cbn [length]; lia. Qed.
Lemma variants_le p n vs : password_variants p n = Ok vs -> (Z.of_nat (length vs) <= Z.max 0 (Z.min n 323))%Z.
Proof.
  intros H. destruct (Z.lt_ge_cases n 0) as [L|L].
  - exfalso. rewrite variants_shipped in H. unfold Mutate in H. destruct shipped; [discriminate|]. rewrite (proj2 (Z.ltb_lt _ _) L) in H. discriminate.
  - destruct (Z.le_gt_cases (n * 24) (2 ^ 48)) as [B|B].
    + destruct (variants_count p n L B) as (vs' & H' & C). rewrite H in H'. apply Ok_inj in H'. subst vs'. lia.
    + exfalso. rewrite variants_shipped in H. unfold Mutate in H. destruct shipped; [discriminate|].
      rewrite (proj2 (Z.ltb_lt _ _) B), orb_true_r in H. discriminate.
Qed.
Lemma prefix_length LIB (s : Server LIB) db : (length (stored_prefix s db) <= length db)%nat.
Proof. destruct (stored_prefix_split LIB s db) as (r & E). rewrite E at 2. rewrite app_length. lia. Qed.
Lemma op_length LIB (s : Server LIB) o : (length (op_stores s o) <= 1 + Z.to_nat (Z.min (o_num o) 323) + if o_incl o then 1 else 0)%nat.
Proof.
  unfold op_stores. eapply Nat.le_trans; [apply prefix_length|]. unfold op_creds. destruct (password_variants _ _) as [vs| |] eqn:V; [|cbn; lia..].
  rewrite creds_length. apply variants_le in V. lia.
Qed.
Lemma op_meta LIB (s : Server LIB) o d : In d (op_stores s o) -> d_meta d = o_meta o /\ d_user d = o_user o.
Proof.
  intros I. apply (stored_prefix_in LIB) in I. unfold op_creds in I. destruct (password_variants _ _) as [vs| |].
  - unfold insert_creds in I. destruct I as [<-|I]; [auto|]. apply in_app_or in I as [I|I].
    + apply in_map_iff in I as (v & <- & _). auto.
    + destruct (o_incl o); [|contradiction]. destruct I as [<-|[]]. auto.
  - destruct I as [<-|[]]. auto.
  - destruct I as [<-|[]]. auto.
Qed.
Lemma entries_app a b : entries_bytes (a ++ b) = (entries_bytes a + entries_bytes b)%nat.
Proof. induction a as [|d a IH]; [reflexivity|]. cbn [app entries_bytes fold_right]. fold (entries_bytes (a ++ b)) (entries_bytes a). lia. Qed.
Lemma entries_const n db : (forall d, In d db -> length (d_meta d) = n) -> entries_bytes db = (length db * (25 + n))%nat.
Proof.
  induction db as [|d db IH]; intros H; [reflexivity|]. cbn [entries_bytes fold_right length]. fold (entries_bytes db).
  rewrite IH by (intros x I; apply H; right; exact I). rewrite (H d (or_introl eq_refl)). lia.
Qed.

(** ** Histories *)
Section Histories.
  Context {LIB : OPRF} (s : Server LIB).
  Lemma history_size ops : store_bytes (run_inserts s newKVStore ops) = entries_bytes (stored_by s ops).
  Proof. rewrite (stored_size _ s _ _ _ (run_inserts_stores LIB s ops newKVStore)). reflexivity. Qed.
  Lemma history_nodup ops : NoDup (buckets (run_inserts s newKVStore ops)).
  Proof. apply (stored_nodup _ s _ _ _ (run_inserts_stores LIB s ops newKVStore)). constructor. Qed.
  Lemma history_keys ops k : In k (buckets (run_inserts s newKVStore ops)) ->
    exists o id, In o ops /\ Server_BucketID s (o_user o) = Ok id /\ k = BucketIDToHex id.
  Proof.
    intros I. destruct (stored_keys _ s _ _ _ _ (run_inserts_stores LIB s ops newKVStore) I) as [[]|(d & id & D & B & E)].
    apply in_flat_map in D as (o & O & D). apply op_meta in D as [_ D]. rewrite D in B. eauto.
  Qed.
  Lemma history_buckets_ops ops : (length (buckets (run_inserts s newKVStore ops)) <= length ops)%nat.
  Proof.
    rewrite <- (map_length (fun o => match Server_BucketID s (o_user o) with Ok id => BucketIDToHex id | _ => [] end) ops).
    apply NoDup_incl_length; [apply history_nodup|]. intros k I. apply history_keys in I as (o & id & O & B & ->).
    apply in_map_iff. exists o. rewrite B. auto.
  Qed.
  Lemma id_range u id : Server_BucketID s u = Ok id -> (id < 2 ^ Z.to_N (s_bits s))%N.
  Proof. unfold Server_BucketID. intros H. apply bind_ok in H as (h & _ & H). apply bucketHashToID_lt in H as [H _]. exact H. Qed.
  Lemma history_buckets_bits ops : (N.of_nat (length (buckets (run_inserts s newKVStore ops))) <= 2 ^ Z.to_N (s_bits s))%N.
  Proof.
    set (l := map (fun i => BucketIDToHex (N.of_nat i)) (seq 0 (N.to_nat (2 ^ Z.to_N (s_bits s))))).
    assert (L : (length (buckets (run_inserts s newKVStore ops)) <= length l)%nat).
    { apply NoDup_incl_length; [apply history_nodup|]. intros k I. apply history_keys in I as (o & id & O & B & ->).
      apply in_map_iff. exists (N.to_nat id). rewrite N2Nat.id. split; [reflexivity|]. apply in_seq. apply id_range in B. lia. }
    unfold l in L. rewrite map_length, seq_length in L. lia.
  Qed.
  Lemma op_bytes o : entries_bytes (op_stores s o) = (length (op_stores s o) * (25 + length (o_meta o)))%nat.
  Proof. apply entries_const. intros d I. apply op_meta in I as [-> _]. reflexivity. Qed.
  Lemma history_bound ops : (store_bytes (run_inserts s newKVStore ops)
    <= fold_right (fun o n => (1 + Z.to_nat (Z.min (o_num o) 323) + if o_incl o then 1 else 0) * (25 + length (o_meta o)) + n) 0 ops)%nat.
  Proof.
    rewrite history_size. unfold stored_by. induction ops as [|o ops IH]; [reflexivity|]. cbn [flat_map fold_right].
    rewrite entries_app, op_bytes. apply Nat.add_le_mono; [|exact IH]. apply Nat.mul_le_mono_r, op_length.
  Qed.
  Lemma history_exact m num incl ops : (0 <= num <= 98)%Z -> Forall (fun o => o_num o = num /\ o_incl o = incl /\ o_meta o = m) ops ->
    forall store, Forall (fun r => r = Ok tt) (outcomes s store ops) ->
    store_bytes (run_inserts s store ops) = (store_bytes store + length ops * ((1 + Z.to_nat num + if incl then 1 else 0) * (25 + length m)))%nat.
  Proof.
    intros Hn F. induction F as [|o ops (E1 & E2 & E3) F IH]; intros store O; [cbn [run_inserts length]; lia|].
    cbn [outcomes] in O. inversion O as [|? ? O1 O2]; subst. cbn [run_inserts length].
    rewrite (IH _ O2). clear IH O2 O F.
    unfold do_insert in O1 |- *. destruct (demo_insert s store (o_user o) (o_pass o) (o_meta o) (o_num o) (o_incl o)) as [st r] eqn:E. cbn [fst snd] in *. subst r.
    destruct (insert_shape _ _ _ _ _ _ _ _ _ _ E) as (vs & done & rest & E' & S & _ & R).
    destruct (R eq_refl) as [-> V]. rewrite app_nil_r in E'. subst done. rewrite (stored_size _ s _ _ _ S).
    assert (L : entries_bytes (insert_creds (o_user o) (o_pass o) (o_meta o) vs (o_incl o)) = ((1 + Z.to_nat (o_num o) + if o_incl o then 1 else 0) * (25 + length (o_meta o)))%nat); [|rewrite L; lia].
    destruct (variants_exact (o_pass o) _ Hn) as (vs' & V' & L). rewrite V in V'. apply Ok_inj in V'. subst vs'.
    rewrite (entries_const (length (o_meta o))).
    - f_equal. rewrite creds_length. lia.
    - intros d I. unfold insert_creds in I. destruct I as [<-|I]; [reflexivity|]. apply in_app_or in I as [I|I].
      + apply in_map_iff in I as (v & <- & _). reflexivity.
      + destruct (o_incl o); [|contradiction]. destruct I as [<-|[]]. reflexivity.
  Qed.
  (** With distinct keys, the bytes of all buckets as seen by lookups. *)
  Lemma lookup_other (kv : kvStore) k v k' : bytes_eqb k k' = false -> kv_lookup ((k, v) :: kv) k' = kv_lookup kv k'.
  Proof. intros E. cbn [kv_lookup]. rewrite E. reflexivity. Qed.
  Lemma bytes_by_lookup (kv : kvStore) : NoDup (buckets kv) ->
    store_bytes kv = fold_right (fun k n => length (sl (kv_lookup kv k)) + n)%nat 0%nat (buckets kv).
  Proof.
    induction kv as [|[k w] kv IH]; intros N; [reflexivity|]. unfold buckets in *. cbn [map fst] in N. inversion N as [|? ? N1 N2]; subst.
    cbn [store_bytes fold_right snd map fst]. fold (store_bytes kv). rewrite (IH N2). cbn [kv_lookup]. rewrite bytes_eqb_refl. f_equal.
    clear IH N N2. generalize (map fst kv) N1. intros l Hl. induction l as [|x l IHl]; [reflexivity|]. cbn [fold_right]. rewrite IHl by (intros I; apply Hl; right; exact I).
    destruct (bytes_eqb k x) eqn:E; [|reflexivity]. apply bytes_eqb_eq in E. subst x. exfalso. apply Hl. left. reflexivity.
  Qed.
  Lemma lookup_none (kv : kvStore) k : ~ In k (buckets kv) -> kv_lookup kv k = None.
  Proof.
    unfold buckets. induction kv as [|[k' w] kv IH]; intros N; [reflexivity|]. cbn [kv_lookup map fst In] in *.
    destruct (bytes_eqb k' k) eqn:E; [apply bytes_eqb_eq in E; tauto|apply IH; tauto].
  Qed.
End Histories.
