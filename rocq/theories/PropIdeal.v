(** * C72: without their keys, entries show only their number and lengths.

    HKDF is replaced by arbitrary streams of bytes ([O]), one for each secret
    and salt.  A [rechoice] of the streams permutes secrets and xors fixed
    bytes: it takes random streams to random streams.  The theorems say that
    data made with [O] are, byte for byte, other data made with re-chosen
    streams; so somebody who does not know the keys, to whom the streams are
    random, cannot tell them apart better than by guessing. *)
From Coq Require Import Lia.
From Verif Require Import Base BaseProofs Hkdf Common Hasher Encryptor Oprf OprfGroup Server Client KV Demo
  SpecEntry SpecProtocol SpecDemo SpecIdeal Ideal IdealProofs FinalizeProofs ProtocolProofs DemoProofs EncryptorProofs PropProtocol PropDemo PropVariants.

(** With the streams of HKDF-SHA-256 the functions over streams are those of
    the model of the code. *)
Theorem C72_hkdf_is_an_instance :
  (forall secret flag body, Encrypt_o hkdf_streams secret flag body = Encrypt hkdfSHA256BucketEncryptor secret flag body) /\
  (forall LIB (s : Server LIB) u p f m, EncryptBucketEntry_o hkdf_streams s u p f m = EncryptBucketEntry s u p f m) /\
  (forall LIB (ctx : ClientRequestContext LIB) r, Finalize_o hkdf_streams ctx r = Finalize ctx r) /\
  (forall LIB (s : Server LIB) kv db, store_all_o hkdf_streams s kv db = store_all s kv db) /\
  (forall LIB c (s : Server LIB) kv u p r, run_query_o hkdf_streams c s kv u p r = run_query c s kv u p r).
Proof.
  split; [intros; apply Encrypt_same|]. split; [intros; apply EncryptBucketEntry_same|]. split; [intros; apply Finalize_same|].
  split; [intros; apply store_all_same|intros; apply run_query_same].
Qed.
Print Assumptions C72_hkdf_is_an_instance.

(** Entries under different keys: any flags and metadata of the same lengths,
    under any other different keys, look the same.  The streams of a secret
    that is not involved in the difference are left alone. *)
Theorem C72_entries_show_only_lengths (l l' : list item) :
  Forall2 (fun a b => length (i_body a) = length (i_body b)) l l' ->
  NoDup (map i_key l) -> NoDup (map i_key l') ->
  exists T, rechoice T /\ (forall O, map (seal O) l = map (seal (T O)) l') /\
            forall x, not_involved x l l' -> leaves T x.
Proof.
  intros F N N'. exists (turn (combine l l')). split; [apply turn_rechoice|]. split; [|intros x H; apply turn_leaves; exact H].
  intros O. destruct (combine_maps _ l l' i_key i_key F) as [K1 K2].
  assert (A : forall a b, In (a, b) (combine l l') -> seal O a = seal (turn (combine l l') O) b).
  { intros a b I. symmetry. unfold keys_of in *; apply turn_seal; unfold keys_of; [rewrite K1; exact N|rewrite K2; exact N'|exact I|]. exact (Forall2_combine _ _ _ F a b I). }
  clear N N' K1 K2. revert A. generalize (turn (combine l l') O). intros O' A. induction F as [|a b l l' E F IH]; [reflexivity|].
  cbn [map]. rewrite (A a b) by (left; reflexivity). f_equal. apply IH. intros x y I. apply A. right. exact I.
Qed.
Print Assumptions C72_entries_show_only_lengths.

(** A whole store: other credentials in the same buckets, with metadata of the
    same lengths, on a server with another key, give the same store.  And a
    client whose own secret is not involved in the difference gets the same
    verdict from any response. *)
Theorem C72_store_shows_only_lengths {LIB LIB'} (s : Server LIB) (s' : Server LIB') (db db' : list cred) (l l' : list item) :
  Forall2 (looks_like s s') db db' ->
  Forall2 (item_of s) db l -> Forall2 (item_of s') db' l' -> NoDup (map i_key l) -> NoDup (map i_key l') ->
  exists T, rechoice T /\ (forall O kv, store_all_o O s kv db = store_all_o (T O) s' kv db') /\
            forall x, not_involved x l l' -> leaves T x /\
              forall O LIB'' (ctx : ClientRequestContext LIB'') resp, finalize_secret ctx resp = Ok x ->
                Finalize_o O ctx resp = Finalize_o (T O) ctx resp.
Proof.
  intros A I I' N N'.
  assert (F : Forall2 (fun a b => length (i_body a) = length (i_body b)) l l').
  { clear N N'. revert db' l' A I'. induction I as [|d i db l E I IH]; intros db' l' A I'; inversion A; subst; inversion I'; subst; constructor.
    - destruct E as (_ & _ & <-). match goal with H : item_of s' _ _ |- _ => destruct H as (_ & _ & <-) end.
      match goal with H : looks_like _ _ _ _ |- _ => apply H end.
    - eapply IH; eassumption. }
  destruct (C72_entries_show_only_lengths l l' F N N') as (T & R & E & L). exists T. split; [exact R|]. split.
  - intros O. specialize (E O). clear F N N' L R. revert E. generalize (T O). intros O'. revert db' l' A I'.
    induction I as [|d i db l D I IH]; intros db' l' A I' E kv; inversion A as [|d1 d' db1 db1' B A']; subst; inversion I' as [|d2 i' db2 l2 D' I2]; subst; [reflexivity|].
    cbn [map] in E. injection E as E1 E2. cbn [store_all_o]. destruct B as (B1 & B2 & B3 & B4). rewrite B1.
    destruct (Server_BucketID s' (d_user d')) as [id| |]; [|reflexivity..]. cbn [bind].
    assert (X : EncryptBucketEntry_o O s (d_user d) (d_pass d) (d_flag d) (d_meta d) = EncryptBucketEntry_o O' s' (d_user d') (d_pass d') (d_flag d') (d_meta d')).
    { unfold EncryptBucketEntry_o. rewrite B3, B4. cbn [negb]. destruct D as (D1 & D2 & D3), D' as (D1' & D2' & D3'). rewrite D1, D1'. cbn [bind].
      rewrite D2, D3, D2', D3'. exact E1. }
    rewrite X. destruct (EncryptBucketEntry_o O' s' _ _ _ _); [|reflexivity..]. cbn [bind]. eapply IH; eassumption.
  - intros x H. split; [apply L, H|]. intros O LIB'' ctx resp S. apply (Finalize_local _ _ ctx resp x S). intros salt i. symmetry. apply (L x H).
Qed.
Print Assumptions C72_store_shows_only_lengths.

(** So a query shows a client only its own entry, the number of entries and
    their lengths: the response and the verdict are the same for any other
    credentials in the bucket. *)
Theorem C72_query_shows_only_own_entry (LIB : OPRF) : OPRF_laws LIB ->
  forall (cfg : Config) (key : PrivateKey LIB) (s : Server LIB) (c : Client),
  NewServer {| sc_config := cfg; sc_privateKey := key |} = Ok s -> NewClient LIB cfg = Ok c -> (cfg_version cfg < 2 ^ 16)%N ->
  forall (db db' : list cred) (l l' : list item),
  Forall2 (looks_like s s) db db' ->
  Forall2 (item_of s) db l -> Forall2 (item_of s) db' l' -> NoDup (map i_key l) -> NoDup (map i_key l') ->
  exists T, rechoice T /\
    forall O store, store_all_o O s newKVStore db = Ok store ->
      store_all_o (T O) s newKVStore db' = Ok store /\
      forall u p x r, deriveBucketEntryKey s u p = Ok x -> not_involved x l l' ->
        run_query_o O c s (kv_Get store) u p r = run_query_o (T O) c s (kv_Get store) u p r.
Proof.
  intros laws cfg key s c Hs Hc Hv db db' l l' A I I' N N'.
  destruct (C72_store_shows_only_lengths s s db db' l l' A I I' N N') as (T & R & E & L). exists T. split; [exact R|].
  intros O store St. split; [rewrite <- E; exact St|]. intros u p x r K H. unfold run_query_o.
  destruct (Server_BucketID s u) as [id| |] eqn:Hid.
  - destruct (request_answer LIB laws cfg key s c Hs Hc Hv u p r x id (kv_Get store) _ K Hid eq_refl) as (b & e & ctx & R1 & R2 & _ & S & _).
    rewrite R1, R2. cbn [bind]. destruct (L x H) as [_ L2]. apply L2. apply client_secret_ok, S.
  - destruct (Request c u p r) as [[rq ctx]| |] eqn:R1; [|reflexivity..]. exfalso. revert R1. unfold Request.
    rewrite (same_bucket LIB cfg key s c Hs Hc), Hid. destruct (serializeUsernamePassword u p); [|discriminate..]. cbn [bind].
    destruct (SlowHasher_Hash _ _); [|discriminate..]. cbn [bind]. destruct (blind _ _ _ _); [|discriminate..]. cbn [bind]. match goal with |- (match ?l with [] => _ | _ => _ end) = _ -> _ => destruct l; discriminate end.
  - destruct (Request c u p r) as [[rq ctx]| |] eqn:R1; [|reflexivity..]. exfalso. revert R1. unfold Request.
    rewrite (same_bucket LIB cfg key s c Hs Hc), Hid. destruct (serializeUsernamePassword u p); [|discriminate..]. cbn [bind].
    destruct (SlowHasher_Hash _ _); [|discriminate..]. cbn [bind]. destruct (blind _ _ _ _); [|discriminate..]. cbn [bind]. match goal with |- (match ?l with [] => _ | _ => _ end) = _ -> _ => destruct l; discriminate end.
Qed.
Print Assumptions C72_query_shows_only_own_entry.

(** Two breach files that have line by line usernames in the same buckets give
    stores that look the same, if no key occurs twice in either; and the stores
    of the model are those for HKDF's streams. *)
Theorem C72_breach_shows_only_buckets {LIB LIB'} (s : Server LIB) (s' : Server LIB') (ops ops' : list op) (l l' : list item) :
  Forall2 (lines_alike s s') ops ops' ->
  Forall2 (item_of s) (tried ops) l -> Forall2 (item_of s') (tried ops') l' ->
  NoDup (map i_key l) -> NoDup (map i_key l') ->
  exists T, rechoice T /\
    forall O, store_all_o O s newKVStore (tried ops) = store_all_o (T O) s' newKVStore (tried ops').
Proof.
  intros A I I' N N'. destruct (C72_store_shows_only_lengths s s' (tried ops) (tried ops') l l') as (T & R & E & _); try assumption.
  - clear I I' N N'. induction A as [|o o' ops ops' B A IH]; [constructor|]. unfold tried in *. cbn [flat_map]. apply Forall2_app; [|exact IH]. clear IH A.
    destruct o as [u p m n incl], o' as [u' p' m' n' incl']. unfold op_creds. destruct B as (B1 & B2 & B3 & B4 & B5). cbn [o_user o_pass o_meta o_num o_incl] in *. subst n' incl'.
    destruct (C69_exactly_as_many_as_asked_for p n B5) as (vs & -> & L). destruct (C69_exactly_as_many_as_asked_for p' n B5) as (vs' & -> & L').
    assert (X : length vs = length vs') by lia. unfold insert_creds. constructor; [repeat split; assumption|]. apply Forall2_app.
    + clear L L'. revert vs' X. induction vs as [|v vs IH]; intros [|v' vs'] X; try discriminate; [constructor|]. cbn [map]. constructor; [repeat split; assumption|].
      apply IH. cbn in X. lia.
    + destruct incl; [|constructor]. constructor; [repeat split; assumption|constructor].
  - exists T. split; [exact R|]. intros O. apply E.
Qed.
Print Assumptions C72_breach_shows_only_buckets.

Theorem C72_breach_is_an_instance {LIB} (s : Server LIB) (ops : list op) :
  Forall (fun r => r = Ok tt) (outcomes s newKVStore ops) ->
  store_all_o hkdf_streams s newKVStore (tried ops) = Ok (run_inserts s newKVStore ops).
Proof.
  rewrite store_all_same. generalize newKVStore. induction ops as [|o ops IH]; intros kv F; [reflexivity|]. cbn [outcomes] in F. inversion F as [|x xs F1 F2]; subst.
  unfold tried in *. cbn [flat_map run_inserts]. rewrite store_all_app. unfold do_insert in *. destruct (demo_insert s kv (o_user o) (o_pass o) (o_meta o) (o_num o) (o_incl o)) as [kv' r] eqn:E.
  cbn [fst snd] in *. subst r. apply insert_shape in E as (vs & done & rest & E1 & E2 & _ & E3). destruct (E3 eq_refl) as [-> E4]. rewrite app_nil_r in E1. subst done.
  unfold op_creds. rewrite E4, E2. cbn [bind]. apply IH. exact F2.
Qed.
Print Assumptions C72_breach_is_an_instance.

(** Different keys are needed: entries under the same key share their streams,
    and whether their metadata are the same shows without the key. *)
Theorem C72_entries_with_one_key_refuted :
  ~ forall l l' : list item, Forall2 (fun a b => length (i_body a) = length (i_body b)) l l' ->
      exists T : streams -> streams, forall O, map (seal O) l = map (seal (T O)) l'.
Proof.
  intros H. set (a := mkItem (str "key") Byte.x01 (str "a")). set (b := mkItem (str "key") Byte.x01 (str "b")).
  destruct (H [a; a] [a; b]) as [T E]; [repeat constructor|]. specialize (E (fun _ _ _ => Byte.x00)). cbn [map] in E.
  apply (f_equal (fun z => (nth 0 z (Err ""), nth 1 z (Err "")))) in E. cbn [nth] in E. apply pair_inj in E as [E1 E2]. rewrite E1 in E2. clear E1. rewrite !seal_value in E2. cbn [i_body a b length str] in E2.
  apply Ok_inj in E2. apply app_inv_head in E2. apply app_inv_head in E2. cbn in E2. injection E2 as E2.
  match type of E2 with bxor _ ?x = _ => revert E2; generalize x end. intros c E.
  assert (X : Byte.x61 = Byte.x62) by (rewrite <- (bxor_cancel Byte.x61 c), <- (bxor_cancel Byte.x62 c); f_equal; exact E). discriminate.
Qed.
Print Assumptions C72_entries_with_one_key_refuted.

(** This happens: when the server stores usernames, every line of a user ends
    with the same entry, byte for byte.  So the bucket shows to everybody that
    two lines belong to the same user. *)
Theorem C72_lines_of_one_user_show {LIB} (s : Server LIB) (store store1 store2 : kvStore) (u p p' m : bytes) (n : Z) (id : N) :
  demo_insert s store u p m n true = (store1, Ok tt) -> demo_insert s store1 u p' m n true = (store2, Ok tt) ->
  Server_BucketID s u = Ok id -> (0 <= n <= 98)%Z ->
  exists e new1 new2,
    sl (kv_lookup store2 (BucketIDToHex id)) = sl (kv_lookup store (BucketIDToHex id)) ++ new1 ++ e ++ new2 ++ e /\
    length e = (25 + length m)%nat /\
    length new1 = ((1 + Z.to_nat n) * (25 + length m))%nat /\ length new2 = ((1 + Z.to_nat n) * (25 + length m))%nat.
Proof.
  intros D1 D2 Hid Hn.
  pose proof (C69_size_of_an_insert LIB s store store1 u p m n true id D1 Hid Hn) as L1.
  pose proof (C69_size_of_an_insert LIB s store1 store2 u p' m n true id D2 Hid Hn) as L2.
  destruct (C15_appends_whole_entries LIB s store u p m n true store1 (Ok tt) id D1 Hid) as (vs & done & rest & es & C1 & S1 & O1 & B1 & Z1).
  destruct (C15_appends_whole_entries LIB s store1 u p' m n true store2 (Ok tt) id D2 Hid) as (vs' & done' & rest' & es' & C2 & S2 & O2 & B2 & Z2).
  destruct (Z1 eq_refl) as [-> _], (Z2 eq_refl) as [-> _]. rewrite app_nil_r in C1, C2. subst done done'.
  unfold insert_creds in S1, S2. rewrite app_comm_cons in S1, S2.
  apply Forall2_app_inv_l in S1 as (x1 & y1 & _ & T1 & ->). apply Forall2_app_inv_l in S2 as (x2 & y2 & _ & T2 & ->).
  inversion T1 as [|d e ds es1 K1 K2]; subst. inversion K2; subst. inversion T2 as [|d' e' ds' es2 K3 K4]; subst. inversion K4; subst.
  assert (E : e' = e).
  { destruct K1 as (k & G1 & ->), K3 as (k' & G2 & ->). rewrite G1 in G2. apply Ok_inj in G2. subst k'. reflexivity. }
  subst e'. rewrite !bucket_bytes_app in B1, B2. cbn [bucket_bytes flat_map] in B1, B2. rewrite app_nil_r in B1, B2.
  assert (L : length (entry_bytes e) = (25 + length m)%nat).
  { apply Forall_app in O1 as [_ O1]. inversion O1 as [|a b [O3 O4] O5]; subst. rewrite entry_bytes_length by exact O3.
    destruct K1 as (k & _ & ->). cbn [make_entry e_body d_meta]. rewrite xor_length; [reflexivity|].
    rewrite body_mask_length; [reflexivity|]. destruct (Z.le_gt_cases (blen m) 8160) as [M|M]; [unfold blen in M; lia|]. exfalso.
    destruct (C15_long_metadata_changes_nothing LIB s store u p m n true M) as [_ X]. apply X. rewrite D1. reflexivity. }
  exists (entry_bytes e), (bucket_bytes x1), (bucket_bytes x2).
  rewrite B1, !app_length, L in L1. rewrite B2, !app_length, L in L2. rewrite B2, B1. rewrite <- !app_assoc. split; [reflexivity|]. split; [exact L|].
  set (q := (25 + length m)%nat) in *. split; lia.
Qed.
Print Assumptions C72_lines_of_one_user_show.

(** Example: alice asks for her password "pw"; what else is in her bucket (here
    another of her passwords, with other metadata) does not show. *)
Definition ex72_item (d : cred) : item :=
  mkItem (match deriveBucketEntryKey ex_server (d_user d) (d_pass d) with Ok k => k | _ => [] end) (d_flag d) (d_meta d).
Definition ex72_own : cred := mkCred (str "alice") (str "pw") MetadataBreachedPassword (str "m1").
Definition ex72_db : list cred := [ex72_own; mkCred (str "alice") (str "other") MetadataBreachedPassword (str "m2")].
Definition ex72_db' : list cred := [ex72_own; mkCred (str "alice") (str "secret") MetadataSimilarPassword (str "m3")].
Example C72_example :
  Forall2 (looks_like ex_server ex_server) ex72_db ex72_db' /\
  Forall2 (item_of ex_server) ex72_db (map ex72_item ex72_db) /\ Forall2 (item_of ex_server) ex72_db' (map ex72_item ex72_db') /\
  NoDup (map i_key (map ex72_item ex72_db)) /\ NoDup (map i_key (map ex72_item ex72_db')) /\
  not_involved (i_key (ex72_item ex72_own)) (map ex72_item ex72_db) (map ex72_item ex72_db').
Proof.
  assert (N : forall x y : bytes, bytes_eqb x y = false -> x <> y) by (intros x y E ->; rewrite bytes_eqb_refl in E; discriminate).
  assert (N1 : i_key (ex72_item ex72_own) <> i_key (ex72_item (mkCred (str "alice") (str "other") MetadataBreachedPassword (str "m2"))))
    by (apply N; vm_compute; reflexivity).
  assert (N2 : i_key (ex72_item ex72_own) <> i_key (ex72_item (mkCred (str "alice") (str "secret") MetadataSimilarPassword (str "m3"))))
    by (apply N; vm_compute; reflexivity).
  split; [repeat constructor|]. split; [repeat (apply Forall2_cons; [split; [vm_compute; reflexivity|split; reflexivity]|]); apply Forall2_nil|]. split; [repeat (apply Forall2_cons; [split; [vm_compute; reflexivity|split; reflexivity]|]); apply Forall2_nil|].
  split; [|split].
  - constructor; [|repeat constructor; intros []]. intros [E|[]]. apply N1. symmetry. exact E.
  - constructor; [|repeat constructor; intros []]. intros [E|[]]. apply N2. symmetry. exact E.
  - intros a b [I|[I|[]]]; apply pair_inj in I as [<- <-]; [reflexivity|]. intros [E|E]; exfalso; [apply N1|apply N2]; symmetry; exact E.
Qed.

(** Two breach files of two lines each. *)
Definition ex72_ops : list op := [mkOp (str "alice") (str "pw") (str "md") 2 true; mkOp (str "bob") (str "hunter2") (str "md") 2 true].
Definition ex72_ops' : list op := [mkOp (str "alice") (str "secret") (str "me") 2 true; mkOp (str "bob") (str "qwerty") (str "me") 2 true].
Fixpoint ex72_distinct (l : list bytes) : bool :=
  match l with [] => true | x :: r => negb (existsb (bytes_eqb x) r) && ex72_distinct r end.
Lemma ex72_nodup l : ex72_distinct l = true -> NoDup l.
Proof.
  induction l as [|x l IH]; intros H; [constructor|]. cbn [ex72_distinct] in H. apply andb_prop in H as [H1 H2]. constructor; [|apply IH, H2].
  intros I. apply negb_true_iff in H1. assert (X : existsb (bytes_eqb x) l = true) by (apply existsb_exists; exists x; split; [exact I|apply bytes_eqb_refl]). congruence.
Qed.
Definition ex72_okb (d : cred) : bool := match deriveBucketEntryKey ex_server (d_user d) (d_pass d) with Ok _ => true | _ => false end.
Lemma ex72_items db : forallb ex72_okb db = true -> Forall2 (item_of ex_server) db (map ex72_item db).
Proof.
  induction db as [|d db IH]; intros H; [constructor|]. cbn [forallb] in H. apply andb_prop in H as [H1 H2]. cbn [map]. constructor; [|apply IH, H2].
  unfold ex72_okb in H1. unfold item_of, ex72_item. cbn [i_key i_flag i_body]. destruct (deriveBucketEntryKey _ _ _); [auto|discriminate..].
Qed.
Example C72_example_breach :
  Forall2 (lines_alike ex_server ex_server) ex72_ops ex72_ops' /\ length (tried ex72_ops) = 8%nat /\
  Forall2 (item_of ex_server) (tried ex72_ops) (map ex72_item (tried ex72_ops)) /\ Forall2 (item_of ex_server) (tried ex72_ops') (map ex72_item (tried ex72_ops')) /\
  NoDup (map i_key (map ex72_item (tried ex72_ops))) /\ NoDup (map i_key (map ex72_item (tried ex72_ops'))).
Proof.
  split; [repeat (apply Forall2_cons; [split; [reflexivity|repeat split; cbn; lia]|]); apply Forall2_nil|].
  split; [vm_compute; reflexivity|]. split; [apply ex72_items; vm_compute; reflexivity|]. split; [apply ex72_items; vm_compute; reflexivity|].
  split; apply ex72_nodup; vm_compute; reflexivity.
Qed.
