(** * Proofs about the demo server and client: insert, ingestion, output. *)
From Coq Require Import Lia.
From Verif Require Import Base BaseProofs Sha256 Common CommonProofs Hasher Encryptor EncryptorProofs Oprf Server Client KV KVProofs
  Mutator ConfigJson SpecMutator MutatorProofs SpecEntry SpecProtocol FinalizeProofs ProtocolProofs WireProofs Scanner Json Demo SpecDemo.

Section Insert.
Variable LIB : OPRF.
Implicit Type s : Server LIB.

Lemma store_all_app s kv a b : store_all s kv (a ++ b) = (kv1 <- store_all s kv a ;; store_all s kv1 b).
Proof.
  revert kv; induction a as [|d a IH]; intros kv; [reflexivity|]. cbn [app store_all].
  destruct (Server_BucketID s (d_user d)); cbn [bind]; try reflexivity.
  destruct (EncryptBucketEntry _ _ _ _ _); cbn [bind]; try reflexivity. apply IH.
Qed.

Lemma add_entry_ok s store hex u p f m store' r id :
  add_entry s store hex u p f m = (store', r) -> Server_BucketID s u = Ok id -> hex = BucketIDToHex id ->
  (r = Ok tt /\ store_all s store [mkCred u p f m] = Ok store')
  \/ (r <> Ok tt /\ store' = store).
Proof.
  unfold add_entry. intros H Hid ->. cbn [store_all d_user d_pass d_flag d_meta]. rewrite Hid. cbn [bind].
  destruct (EncryptBucketEntry s u p f m) as [e| |]; apply pair_inj in H as [<- <-]; cbn [bind].
  - left. auto.
  - right. split; [discriminate|reflexivity].
  - right. split; [discriminate|reflexivity].
Qed.

Lemma add_variants_shape s hex u m id vs : Server_BucketID s u = Ok id -> hex = BucketIDToHex id ->
  forall store store' r, add_variants s store hex u vs m = (store', r) ->
  exists vs1 vs2, vs = vs1 ++ vs2 /\ store_all s store (map (fun v => mkCred u v Byte.x02 m) vs1) = Ok store'
    /\ (r = Ok tt -> vs2 = []).
Proof.
  intros Hid Hex. induction vs as [|v vs IH]; intros store store' r H; cbn [add_variants] in H.
  - apply pair_inj in H as [<- <-]. exists [], []. auto.
  - destruct (add_entry s store hex u v MetadataSimilarPassword m) as [st1 r1] eqn:E.
    destruct (add_entry_ok _ _ _ _ _ _ _ _ _ _ E Hid Hex) as [[-> A]|[N ->]].
    + destruct (IH _ _ _ H) as (vs1 & vs2 & -> & B & C).
      exists (v :: vs1), vs2. split; [reflexivity|]. split; [|exact C].
      change (map _ (v :: vs1)) with ([mkCred u v Byte.x02 m] ++ map (fun v => mkCred u v Byte.x02 m) vs1).
      rewrite store_all_app. unfold MetadataSimilarPassword in A. rewrite A. exact B.
    + destruct r1 as [[]| |]; [contradiction| |]; apply pair_inj in H as [<- <-];
        exists [], (v :: vs); (split; [reflexivity|]; split; [reflexivity|discriminate]).
Qed.

(** What an insert does to the store. *)
Lemma insert_shape s store u p m n incl store' r :
  demo_insert s store u p m n incl = (store', r) ->
  exists vs done rest,
    insert_creds u p m vs incl = done ++ rest /\ store_all s store done = Ok store'
    /\ (forall vs', password_variants p n = Ok vs' -> vs = vs')
    /\ (r = Ok tt -> rest = [] /\ password_variants p n = Ok vs).
Proof.
  unfold demo_insert, insert_with. intros H.
  assert (Nothing : forall vs, (forall vs', password_variants p n = Ok vs' -> vs = vs') -> store' = store -> r <> Ok tt ->
    exists vs done rest, insert_creds u p m vs incl = done ++ rest /\ store_all s store done = Ok store'
      /\ (forall vs', password_variants p n = Ok vs' -> vs = vs')
      /\ (r = Ok tt -> rest = [] /\ password_variants p n = Ok vs)).
  { intros vs U -> N. exists vs, [], (insert_creds u p m vs incl). split; [reflexivity|]. split; [reflexivity|].
    split; [exact U|]. intros R. contradiction. }
  assert (U : exists vs, forall vs', password_variants p n = Ok vs' -> vs = vs').
  { destruct (password_variants p n) as [vs| |]; [exists vs; intros vs' K; apply Ok_inj in K; exact K|exists []; discriminate..]. }
  destruct U as (vs & U).
  destruct (Server_BucketID s u) as [id| |] eqn:Hid;
    [|apply pair_inj in H as [<- <-]; apply (Nothing vs U); [reflexivity|discriminate]..].
  destruct (add_entry s store (BucketIDToHex id) u p MetadataBreachedPassword m) as [st1 r1] eqn:E.
  destruct (add_entry_ok _ _ _ _ _ _ _ _ _ _ E Hid eq_refl) as [[-> A]|[N ->]].
  2:{ destruct r1 as [[]| |]; [contradiction| |]; apply pair_inj in H as [<- <-]; (apply (Nothing vs U); [reflexivity|discriminate]). }
  assert (First : forall st, store' = st1 -> r <> Ok tt -> st = store' -> exists vs done rest, insert_creds u p m vs incl = done ++ rest /\ store_all s store done = Ok store'
      /\ (forall vs', password_variants p n = Ok vs' -> vs = vs')
      /\ (r = Ok tt -> rest = [] /\ password_variants p n = Ok vs)).
  { intros _ -> N _. exists vs, [mkCred u p Byte.x01 m]. eexists. split; [reflexivity|]. split; [exact A|].
    split; [exact U|]. intros R. contradiction. }
  destruct (password_variants p n) as [vs'|e|e] eqn:V.
  2,3: apply pair_inj in H as [<- <-]; apply (First st1); [reflexivity|discriminate|reflexivity].
  clear Nothing First. assert (vs = vs') by (apply U; reflexivity). subst vs'. exists vs.
  destruct (add_variants s st1 (BucketIDToHex id) u vs m) as [st2 r2] eqn:E2.
  destruct (add_variants_shape s (BucketIDToHex id) u m id vs Hid eq_refl _ _ _ E2) as (vs1 & vs2 & Ev & B & C).
  unfold MetadataBreachedPassword in A.
  assert (AB : store_all s store (mkCred u p Byte.x01 m :: map (fun v => mkCred u v Byte.x02 m) vs1) = Ok st2).
  { change (mkCred u p Byte.x01 m :: map (fun v => mkCred u v Byte.x02 m) vs1)
      with ([mkCred u p Byte.x01 m] ++ map (fun v => mkCred u v Byte.x02 m) vs1).
    rewrite store_all_app, A. exact B. }
  destruct r2 as [[]|e|e].
  - specialize (C eq_refl). subst vs2. rewrite app_nil_r in Ev. subst vs1. destruct incl.
    + destruct (add_entry_ok _ _ _ _ _ _ _ _ _ _ H Hid eq_refl) as [[-> D]|[N ->]].
      * exists (insert_creds u p m vs true), []. rewrite app_nil_r. split; [reflexivity|].
        split; [|split; [intros; congruence|auto]].
        unfold insert_creds. rewrite app_comm_cons, store_all_app, AB. exact D.
      * exists (mkCred u p Byte.x01 m :: map (fun v => mkCred u v Byte.x02 m) vs), [mkCred u [] Byte.x03 m].
        split; [reflexivity|]. split; [exact AB|]. split; [intros; congruence|]. intros; contradiction.
    + apply pair_inj in H as [<- <-]. exists (insert_creds u p m vs false), []. rewrite app_nil_r.
      split; [reflexivity|]. split; [|split; [intros; congruence|auto]].
      unfold insert_creds. rewrite app_nil_r. exact AB.
  - apply pair_inj in H as [<- <-]. exists (mkCred u p Byte.x01 m :: map (fun v => mkCred u v Byte.x02 m) vs1).
    exists (map (fun v => mkCred u v Byte.x02 m) vs2 ++ (if incl then [mkCred u [] Byte.x03 m] else [])).
    split; [|split; [exact AB|split; [intros; congruence|discriminate]]].
    unfold insert_creds. rewrite Ev, map_app, <- app_assoc. reflexivity.
  - apply pair_inj in H as [<- <-]. exists (mkCred u p Byte.x01 m :: map (fun v => mkCred u v Byte.x02 m) vs1).
    exists (map (fun v => mkCred u v Byte.x02 m) vs2 ++ (if incl then [mkCred u [] Byte.x03 m] else [])).
    split; [|split; [exact AB|split; [intros; congruence|discriminate]]].
    unfold insert_creds. rewrite Ev, map_app, <- app_assoc. reflexivity.
Qed.

Lemma insert_creds_user u p m vs incl : Forall (fun d => d_user d = u) (insert_creds u p m vs incl).
Proof.
  unfold insert_creds. constructor; [reflexivity|]. apply Forall_app. split.
  - apply Forall_map. apply Forall_forall. reflexivity.
  - destruct incl; repeat constructor.
Qed.

Lemma creds_user u p m vs incl done rest d : insert_creds u p m vs incl = done ++ rest -> In d done -> d_user d = u.
Proof.
  intros E I. pose proof (insert_creds_user u p m vs incl) as F. rewrite Forall_forall in F. apply F. rewrite E.
  apply in_or_app. auto.
Qed.

Lemma insert_frame s store u p m n incl store' r key :
  demo_insert s store u p m n incl = (store', r) ->
  (forall id, Server_BucketID s u = Ok id -> key <> BucketIDToHex id) ->
  kv_lookup store' key = kv_lookup store key.
Proof.
  intros H N. apply insert_shape in H as (vs & done & rest & E & S & _).
  apply (store_all_other s store done store' key S). intros d id I Hid.
  rewrite (creds_user _ _ _ _ _ _ _ _ E I) in Hid. intros K. eapply N; eauto.
Qed.

Lemma filter_all {A} (f : A -> bool) l : Forall (fun x => f x = true) l -> filter f l = l.
Proof. induction 1 as [|x l H F IH]; [reflexivity|]. cbn [filter]. rewrite H, IH. reflexivity. Qed.

Lemma insert_appends s store u p m n incl store' r id :
  demo_insert s store u p m n incl = (store', r) -> Server_BucketID s u = Ok id ->
  exists vs done rest es,
    insert_creds u p m vs incl = done ++ rest
    /\ Forall2 (stores s) done es /\ Forall entry_ok es
    /\ sl (kv_lookup store' (BucketIDToHex id)) = sl (kv_lookup store (BucketIDToHex id)) ++ bucket_bytes es
    /\ (r = Ok tt -> rest = [] /\ password_variants p n = Ok vs).
Proof.
  intros H Hid. apply insert_shape in H as (vs & done & rest & E & S & _ & R).
  exists vs, done, rest, (map (entry_of s) done). split; [exact E|].
  pose proof (store_all_storable s _ _ _ S) as F.
  split; [|split; [|split; [|exact R]]].
  - clear -F. induction F as [|d l Hd F IH]; [constructor|]. constructor; [|exact IH].
    destruct Hd as (_ & (k & Hk) & _). exists k. unfold entry_of. rewrite Hk. auto.
  - apply Forall_map. eapply Forall_impl; [|exact F]. intros d. apply storable_entry_ok.
  - rewrite (store_all_bucket s _ _ _ id S) by (eapply Server_BucketID_lt; exact Hid).
    f_equal. f_equal. f_equal. apply filter_all, Forall_forall. intros d I. unfold in_bucket.
    rewrite (creds_user _ _ _ _ _ _ _ _ E I), Hid. apply N.eqb_refl.
Qed.

(** An insert whose first entry is refused changes nothing. *)
Lemma insert_refused s store u p m n incl : (forall e, EncryptBucketEntry s u p Byte.x01 m <> Ok e) ->
  fst (demo_insert s store u p m n incl) = store /\ snd (demo_insert s store u p m n incl) <> Ok tt.
Proof.
  intros H. unfold demo_insert, insert_with, add_entry, MetadataBreachedPassword.
  destruct (Server_BucketID s u); try (split; [reflexivity|discriminate]).
  destruct (EncryptBucketEntry s u p Byte.x01 m) as [e| |]; [destruct (H e eq_refl)| |]; (split; [reflexivity|discriminate]).
Qed.

Lemma insert_long_metadata s store u p m n incl : (8160 < blen m)%Z ->
  fst (demo_insert s store u p m n incl) = store /\ snd (demo_insert s store u p m n incl) <> Ok tt.
Proof.
  intros H. apply insert_refused. intros e He. apply EncryptBucketEntry_inv in He as (k & _ & _ & L & _). lia.
Qed.

(** Completeness: when every entry can be encrypted the insert succeeds. *)
Lemma insert_ok s store u p m n incl vs id :
  Server_BucketID s u = Ok id -> password_variants p n = Ok vs -> (blen m <= 8160)%Z ->
  (forall d, In d (insert_creds u p m vs incl) -> exists k, deriveBucketEntryKey s u (d_pass d) = Ok k) ->
  exists store', demo_insert s store u p m n incl = (store', Ok tt).
Proof.
  intros Hid Hv Hm K. unfold demo_insert, insert_with. rewrite Hid, Hv.
  assert (A : forall st q f, MetadataType_Valid f = true -> (exists k, deriveBucketEntryKey s u q = Ok k) ->
    exists st', add_entry s st (BucketIDToHex id) u q f m = (st', Ok tt)).
  { intros st q f Hf (k & Hk). unfold add_entry. rewrite (EncryptBucketEntry_ok s u q f m k Hk Hf Hm). eauto. }
  destruct (A store p MetadataBreachedPassword eq_refl) as (st1 & ->).
  { apply (K (mkCred u p Byte.x01 m)). left. reflexivity. }
  assert (B : forall vs', (forall v, In v vs' -> In v vs) -> forall st, exists st', add_variants s st (BucketIDToHex id) u vs' m = (st', Ok tt)).
  { induction vs' as [|v vs' IH]; intros Hin st; cbn [add_variants]; [eauto|].
    destruct (A st v MetadataSimilarPassword eq_refl) as (st2 & ->).
    { apply (K (mkCred u v Byte.x02 m)). unfold insert_creds. right. apply in_or_app. left.
      apply (in_map (fun v => mkCred u v Byte.x02 m)). apply Hin. left. reflexivity. }
    apply IH. intros w Hw. apply Hin. right. exact Hw. }
  destruct (B vs (fun v h => h) st1) as (st2 & ->). destruct incl; [|eauto].
  apply A; [reflexivity|]. apply (K (mkCred u [] Byte.x03 m)). unfold insert_creds. right. apply in_or_app. right. left. reflexivity.
Qed.
End Insert.

(** ** Queries after inserts *)
Section Queries.
Variable LIB : OPRF.
Hypothesis laws : OPRF_laws LIB.
Variable cfg : Config.
Variable key : PrivateKey LIB.
Variable s : Server LIB.
Variable c : Client.
Hypothesis Hs : NewServer {| sc_config := cfg; sc_privateKey := key |} = Ok s.
Hypothesis Hc : NewClient LIB cfg = Ok c.
Hypothesis Hv : (cfg_version cfg < 2 ^ 16)%N.

Lemma insert_queries db0 store u p m n incl store' vs :
  (0 <= cfg_bits cfg <= 32)%Z ->
  store_all s newKVStore db0 = Ok store -> demo_insert s store u p m n incl = (store', Ok tt) ->
  password_variants p n = Ok vs -> kv_holdable store' ->
  forall u' p' r k, no_collision s (db0 ++ insert_creds u p m vs incl) u' p' -> deriveBucketEntryKey s u' p' = Ok k ->
  run_query c s (kv_Get store') u' p' r = Ok (expected (db0 ++ insert_creds u p m vs incl) u' p').
Proof.
  intros Hb S0 H V Hh u' p' r k N Hk.
  apply insert_shape in H as (vs' & done & rest & E & S & U & R). specialize (U _ V). subst vs'.
  destruct (R eq_refl) as [-> _]. rewrite app_nil_r in E. subst done.
  eapply (query_answers LIB laws cfg key s c Hs Hc Hv); eauto.
  rewrite store_all_app, S0. exact S.
Qed.

Lemma expected_app a b u p : expected (a ++ b) u p =
  match find (same_cred u p) a with Some d => expected a u p | None => expected b u p end.
Proof.
  unfold expected. destruct (find (same_cred u p) a) as [d|] eqn:E.
  - replace (find (same_cred u p) (a ++ b)) with (Some d); [reflexivity|]. symmetry.
    induction a as [|x a IH]; [discriminate|]. cbn [find app] in *. destruct (same_cred u p x); auto.
  - replace (find (same_cred u p) (a ++ b)) with (find (same_cred u p) b); [reflexivity|].
    induction a as [|x a IH]; [reflexivity|]. cbn [find app] in *. destruct (same_cred u p x); [discriminate|auto].
Qed.

Lemma find_same_none db u p : Forall (fun d => (d_user d, d_pass d) <> (u, p)) db -> find (same_cred u p) db = None.
Proof.
  induction 1 as [|d db H F IH]; [reflexivity|]. cbn [find]. destruct (same_cred u p d) eqn:E; [|exact IH].
  apply same_cred_iff in E. contradiction.
Qed.

Lemma expected_new db u p b : Forall (fun d => (d_user d, d_pass d) <> (u, p)) db -> expected (db ++ b) u p = expected b u p.
Proof. intros F. rewrite expected_app, find_same_none by exact F. reflexivity. Qed.

Lemma expected_insert_password u p m vs incl : expected (insert_creds u p m vs incl) u p = (InBreach, Some m).
Proof. unfold expected, insert_creds. cbn [find]. unfold same_cred at 1. cbn [d_user d_pass]. rewrite !bytes_eqb_refl. reflexivity. Qed.

Lemma find_map_variant u v m vs l : In v vs ->
  find (same_cred u v) (map (fun v => mkCred u v Byte.x02 m) vs ++ l) = Some (mkCred u v Byte.x02 m).
Proof.
  induction vs as [|w vs IH]; [contradiction|]. intros I. cbn [map app find].
  unfold same_cred at 1. cbn [d_user d_pass]. rewrite bytes_eqb_refl. cbn [andb].
  destruct (bytes_eqb w v) eqn:E; [apply bytes_eqb_eq in E; subst; reflexivity|].
  apply bytes_eqb_neq in E. destruct I as [->|I]; [contradiction|]. apply IH, I.
Qed.

Lemma expected_insert_variant u p m vs incl v : In v vs -> v <> p ->
  expected (insert_creds u p m vs incl) u v = (SimilarInBreach, Some m).
Proof.
  intros I N. unfold expected, insert_creds. cbn [find]. unfold same_cred at 1. cbn [d_user d_pass].
  rewrite bytes_eqb_refl, (proj2 (bytes_eqb_neq p v)) by congruence. cbn [andb].
  rewrite (find_map_variant u v m vs _ I). reflexivity.
Qed.

Lemma expected_insert_username u p m vs : ~ In [] vs -> p <> [] ->
  expected (insert_creds u p m vs true) u [] = (UsernameInBreach, Some m).
Proof.
  intros I N. unfold expected, insert_creds. cbn [find]. unfold same_cred at 1. cbn [d_user d_pass].
  rewrite bytes_eqb_refl, (proj2 (bytes_eqb_neq p [])) by congruence. cbn [andb].
  assert (F : find (same_cred u []) (map (fun v => mkCred u v Byte.x02 m) vs) = None).
  { apply find_same_none, Forall_map, Forall_forall. intros v Hin E. cbn in E. injection E as ->. contradiction. }
  replace (find _ _) with (Some (mkCred u [] Byte.x03 m)); [reflexivity|].
  clear I. induction vs as [|w vs IH]; cbn [map app find] in *.
  - unfold same_cred. cbn. rewrite bytes_eqb_refl. reflexivity.
  - destruct (same_cred u [] _); [discriminate|]. apply IH, F.
Qed.

Lemma variants_not_password p n vs v : password_variants p n = Ok vs -> In v vs -> v <> p.
Proof.
  intros V I ->. rewrite variants_shipped in V. apply mutate_sound in V as (_ & _ & N & _). contradiction.
Qed.

Lemma derive_stored store store' u p m n incl vs d : demo_insert s store u p m n incl = (store', Ok tt) ->
  password_variants p n = Ok vs -> In d (insert_creds u p m vs incl) -> exists k, deriveBucketEntryKey s u (d_pass d) = Ok k.
Proof.
  intros H V I. apply insert_shape in H as (vs' & done & rest & E & S & U & R). specialize (U _ V). subst vs'.
  destruct (R eq_refl) as [-> _]. rewrite app_nil_r in E. subst done.
  pose proof (insert_creds_user u p m vs incl) as Fu. rewrite Forall_forall in Fu. specialize (Fu _ I).
  apply store_all_storable in S. rewrite Forall_forall in S. destruct (S _ I) as (_ & K & _). rewrite Fu in K. exact K.
Qed.

Lemma insert_password_hit db0 store u p m n incl store' vs r :
  (0 <= cfg_bits cfg <= 32)%Z ->
  store_all s newKVStore db0 = Ok store -> demo_insert s store u p m n incl = (store', Ok tt) ->
  password_variants p n = Ok vs -> kv_holdable store' -> no_collision s (db0 ++ insert_creds u p m vs incl) u p ->
  Forall (fun d => (d_user d, d_pass d) <> (u, p)) db0 ->
  run_query c s (kv_Get store') u p r = Ok (InBreach, Some m).
Proof.
  intros Hb S0 H V Hh N F.
  destruct (derive_stored _ _ _ _ _ _ _ _ (mkCred u p Byte.x01 m) H V) as (k & Hk); [left; reflexivity|].
  rewrite (insert_queries db0 store u p m n incl store' vs Hb S0 H V Hh u p r k N Hk), expected_new, expected_insert_password by exact F.
  reflexivity.
Qed.

Lemma insert_variant_hit db0 store u p m n incl store' vs v r :
  (0 <= cfg_bits cfg <= 32)%Z ->
  store_all s newKVStore db0 = Ok store -> demo_insert s store u p m n incl = (store', Ok tt) ->
  password_variants p n = Ok vs -> kv_holdable store' -> In v vs -> no_collision s (db0 ++ insert_creds u p m vs incl) u v ->
  Forall (fun d => (d_user d, d_pass d) <> (u, v)) db0 ->
  run_query c s (kv_Get store') u v r = Ok (SimilarInBreach, Some m).
Proof.
  intros Hb S0 H V Hh I N F.
  destruct (derive_stored _ _ _ _ _ _ _ _ (mkCred u v Byte.x02 m) H V) as (k & Hk).
  { right. apply in_or_app. left. apply (in_map (fun v => mkCred u v Byte.x02 m)), I. }
  rewrite (insert_queries db0 store u p m n incl store' vs Hb S0 H V Hh u v r k N Hk), expected_new by exact F.
  rewrite expected_insert_variant; [reflexivity|exact I|]. eapply variants_not_password; eauto.
Qed.

Lemma insert_username_hit db0 store u p m n store' vs r :
  (0 <= cfg_bits cfg <= 32)%Z ->
  store_all s newKVStore db0 = Ok store -> demo_insert s store u p m n true = (store', Ok tt) ->
  password_variants p n = Ok vs -> kv_holdable store' -> ~ In [] vs -> p <> [] ->
  no_collision s (db0 ++ insert_creds u p m vs true) u [] ->
  Forall (fun d => (d_user d, d_pass d) <> (u, [])) db0 ->
  run_query c s (kv_Get store') u [] r = Ok (UsernameInBreach, Some m).
Proof.
  intros Hb S0 H V Hh I Np N F.
  destruct (derive_stored _ _ _ _ _ _ _ _ (mkCred u [] Byte.x03 m) H V) as (k & Hk).
  { right. apply in_or_app. right. left. reflexivity. }
  rewrite (insert_queries db0 store u p m n true store' vs Hb S0 H V Hh u [] r k N Hk), expected_new by exact F.
  rewrite expected_insert_username by assumption. reflexivity.
Qed.

(** ** A hit stays what it is. *)
Lemma find_split {A} (f : A -> bool) l x : find f l = Some x ->
  exists a b, l = a ++ x :: b /\ f x = true /\ Forall (fun y => f y = false) a.
Proof.
  induction l as [|y l IH]; [discriminate|]. cbn [find]. destruct (f y) eqn:E; intros H.
  - apply Some_inj in H. subst y. exists [], l. auto.
  - destruct (IH H) as (a & b & -> & Fx & Fa). exists (y :: a), b. repeat split; auto.
Qed.

(** A hit comes from the first entry with the key check of the credential. *)
Lemma hit_inv store u p r st m : holdable (sl (kv_lookup store (match Server_BucketID s u with Ok id => BucketIDToHex id | _ => [] end))) ->
  run_query c s (kv_Get store) u p r = Ok (st, Some m) ->
  exists k id before e after, deriveBucketEntryKey s u p = Ok k /\ Server_BucketID s u = Ok id
    /\ sl (kv_lookup store (BucketIDToHex id)) = bucket_bytes before ++ entry_bytes e ++ after
    /\ Forall entry_ok before /\ entry_ok e /\ Forall (fun b => e_check b <> key_check k) before /\ e_check e = key_check k
    /\ (blen (e_body e) <= 8160)%Z /\ (st, Some m) = reported k e.
Proof.
  intros Hh H. unfold run_query in H. destruct (Request c u p r) as [[rq ctx]| |] eqn:R; try discriminate.
  apply bind_ok in H as (resp & A & H).
  destruct (oprf_agreement LIB cfg key s c u p r rq ctx (kv_Get store) resp laws Hs Hc Hv R A) as (k & Hk & Sec).
  pose proof (request_inv LIB _ _ _ _ _ _ R) as (_ & _ & id & Hid & Erq).
  rewrite (same_bucket LIB cfg key s c Hs Hc) in Hid. rewrite Hid in Hh.
  apply handle_inv in A as (_ & _ & _ & G & _). rewrite Erq in G. unfold kv_Get in G. apply Ok_inj in G.
  exists k, id. destruct (bucket_decomposition (sl (kv_lookup store (BucketIDToHex id)))) as (es & t & D & Fo & T & _).
  assert (Hh' : holdable (sl (rs_bucketContents resp))) by (rewrite <- G; exact Hh).
  destruct (find (entry_matches k) es) as [e|] eqn:F.
  - apply find_split in F as (before & after & -> & M & B). unfold entry_matches in M. apply bytes_eqb_eq in M.
    apply Forall_app in Fo as [Fb Fe]. inversion Fe as [|e0 l0 Oe Fa]; subst e0 l0.
    assert (B' : Forall (fun b => e_check b <> key_check k) before).
    { eapply Forall_impl; [|exact B]. intros b Hb. unfold entry_matches in Hb. apply bytes_eqb_neq, Hb. }
    unfold bucket_bytes in D. rewrite flat_map_app in D. cbn [flat_map] in D. rewrite <- !app_assoc in D.
    fold (bucket_bytes before) in D. fold (bucket_bytes after) in D.
    assert (C : sl (rs_bucketContents resp) = bucket_bytes before ++ entry_bytes e ++ (bucket_bytes after ++ t))
      by (rewrite <- G; exact D).
    destruct (finalize_first_match LIB ctx resp k before e (bucket_bytes after ++ t) Sec C Hh' Fb Oe B' M) as [F1 F2].
    destruct (Z_le_gt_dec (blen (e_body e)) 8160) as [L|L].
    + rewrite (F1 L) in H. apply Ok_inj in H. exists before, e, (bucket_bytes after ++ t).
      repeat (split; [assumption || reflexivity|]). symmetry. exact H.
    + destruct F2 as (m' & F2); [lia|]. congruence.
  - assert (B : Forall (fun b => e_check b <> key_check k) es).
    { apply Forall_forall. intros b Hb. apply bytes_eqb_neq. exact (find_none _ _ F b Hb). }
    assert (C : sl (rs_bucketContents resp) = bucket_bytes es ++ t) by (rewrite <- G; exact D).
    destruct T as [T|T].
    + rewrite (finalize_short_tail LIB ctx resp k es t Sec C Hh' Fo T B) in H. discriminate.
    + rewrite (finalize_overrun_tail LIB ctx resp k es t Sec C Hh' Fo T B) in H. discriminate.
Qed.

Lemma hit_extended store store' u p r r' st m :
  run_query c s (kv_Get store) u p r = Ok (st, Some m) ->
  (forall id, Server_BucketID s u = Ok id -> exists t,
     sl (kv_lookup store' (BucketIDToHex id)) = sl (kv_lookup store (BucketIDToHex id)) ++ t
     /\ holdable (sl (kv_lookup store' (BucketIDToHex id)))) ->
  run_query c s (kv_Get store') u p r' = Ok (st, Some m).
Proof.
  intros H X.
  assert (Hid : exists id, Server_BucketID s u = Ok id).
  { unfold run_query in H. destruct (Request c u p r) as [[rq ctx]| |] eqn:R; try discriminate.
    apply request_inv in R as (_ & _ & id & Hid & _). rewrite (same_bucket LIB cfg key s c Hs Hc) in Hid. eauto. }
  destruct Hid as (id & Hid). destruct (X id Hid) as (t & E & Hh).
  assert (Hh0 : holdable (sl (kv_lookup store (BucketIDToHex id)))).
  { unfold holdable, blen in *. rewrite E, app_length in Hh. lia. }
  assert (H0 : holdable (sl (kv_lookup store (match Server_BucketID s u with Ok id => BucketIDToHex id | _ => [] end))))
    by (rewrite Hid; exact Hh0).
  destruct (hit_inv store u p r st m H0 H) as (k & id' & before & e & after & Hk & Hid' & D & Fb & Oe & B & M & L & ->).
  rewrite Hid in Hid'. apply Ok_inj in Hid'. subst id'.
  destruct (request_answer LIB laws cfg key s c Hs Hc Hv u p r' k id (kv_Get store') _ Hk Hid eq_refl)
    as (b & el & ctx & R & A & _ & Sec & _).
  unfold run_query. rewrite R, A. cbn [bind].
  apply (finalize_first_match LIB ctx _ k before e (after ++ t) Sec); auto.
  cbn [rs_bucketContents]. rewrite E, D, <- !app_assoc. reflexivity.
Qed.
End Queries.

Lemma insert_extends {LIB} (s : Server LIB) store u p m n incl id : (id < 2 ^ 32)%N -> exists t,
  sl (kv_lookup (fst (demo_insert s store u p m n incl)) (BucketIDToHex id)) = sl (kv_lookup store (BucketIDToHex id)) ++ t.
Proof.
  intros Hid. destruct (demo_insert s store u p m n incl) as [store' r] eqn:H. cbn [fst].
  apply insert_shape in H as (vs & done & rest & _ & S & _). eexists. apply (store_all_bucket s store done store' id S Hid).
Qed.

Lemma run_inserts_extends {LIB} (s : Server LIB) ops store id : (id < 2 ^ 32)%N -> exists t,
  sl (kv_lookup (run_inserts s store ops) (BucketIDToHex id)) = sl (kv_lookup store (BucketIDToHex id)) ++ t.
Proof.
  intros Hid. revert store; induction ops as [|o ops IH]; intros store; cbn [run_inserts]; [exists []; rewrite app_nil_r; reflexivity|].
  destruct (IH (fst (do_insert s store o))) as (t & ->).
  destruct (insert_extends s store (o_user o) (o_pass o) (o_meta o) (o_num o) (o_incl o) id Hid) as (t' & E).
  unfold do_insert. rewrite E. exists (t' ++ t). rewrite app_assoc. reflexivity.
Qed.

Lemma hit_stable LIB (laws : OPRF_laws LIB) cfg key (s : Server LIB) c :
  NewServer {| sc_config := cfg; sc_privateKey := key |} = Ok s -> NewClient LIB cfg = Ok c -> (cfg_version cfg < 2 ^ 16)%N ->
  forall store u p r st m, run_query c s (kv_Get store) u p r = Ok (st, Some m) ->
  forall ops, kv_holdable (run_inserts s store ops) -> forall r',
  run_query c s (kv_Get (run_inserts s store ops)) u p r' = Ok (st, Some m).
Proof.
  intros Hs Hc Hv store u p r st m H ops Hh r'.
  apply (hit_extended LIB laws cfg key s c Hs Hc Hv store _ u p r r' st m H). intros id Hid.
  destruct (run_inserts_extends s ops store id) as (t & E); [eapply Server_BucketID_lt; exact Hid|].
  exists t. split; [exact E|apply Hh].
Qed.

(** Every history of inserts leaves a store of whole entries. *)
Lemma run_inserts_store {LIB} (s : Server LIB) ops store : exists db, store_all s store db = Ok (run_inserts s store ops)
  /\ (forall d, In d db -> exists o, In o ops /\ d_user d = o_user o /\ d_meta d = o_meta o).
Proof.
  revert store; induction ops as [|o ops IH]; intros store; cbn [run_inserts]; [exists []; split; [reflexivity|contradiction]|].
  unfold do_insert. destruct (demo_insert s store (o_user o) (o_pass o) (o_meta o) (o_num o) (o_incl o)) as [st1 r1] eqn:E. cbn [fst].
  apply insert_shape in E as (vs & done & rest & E & S & _).
  destruct (IH st1) as (db & A & B). exists (done ++ db). split; [rewrite store_all_app, S; exact A|].
  intros d I. apply in_app_or in I as [I|I].
  - exists o. split; [left; reflexivity|].
    assert (J : In d (insert_creds (o_user o) (o_pass o) (o_meta o) vs (o_incl o))) by (rewrite E; apply in_or_app; auto).
    split; [eapply creds_user; eauto|]. unfold insert_creds in J. destruct J as [<-|J]; [reflexivity|].
    apply in_app_or in J as [J|J]; [apply in_map_iff in J as (v & <- & _); reflexivity|].
    destruct (o_incl o); [destruct J as [<-|[]]; reflexivity|contradiction].
  - destruct (B d I) as (o' & Ho & R). exists o'. split; [right; exact Ho|exact R].
Qed.

(** Deciding [no_collision] for concrete databases. *)
Definition no_collisionb {LIB} (s : Server LIB) (db : list cred) (u p : bytes) : bool :=
  match deriveBucketEntryKey s u p with
  | Ok k => forallb (fun d => same_cred u p d ||
      match deriveBucketEntryKey s (d_user d) (d_pass d) with
      | Ok k' => negb (bytes_eqb (key_check k') (key_check k)) | _ => true end) db
  | _ => true
  end.
Lemma no_collisionb_ok {LIB} (s : Server LIB) db u p : no_collisionb s db u p = true -> no_collision s db u p.
Proof.
  unfold no_collisionb, no_collision. intros H d k k' I N Hk Hk'. rewrite Hk in H. rewrite forallb_forall in H.
  specialize (H d I). apply orb_true_iff in H as [H|H]; [apply same_cred_iff in H; contradiction|].
  rewrite Hk' in H. apply negb_true_iff, bytes_eqb_neq in H. exact H.
Qed.

(** The queries that are not for what was inserted. *)
Lemma insert_others LIB (laws : OPRF_laws LIB) cfg key (s : Server LIB) c :
  NewServer {| sc_config := cfg; sc_privateKey := key |} = Ok s -> NewClient LIB cfg = Ok c -> (cfg_version cfg < 2 ^ 16)%N ->
  forall db0 store u p m n incl store' vs u' p' r r' k,
  (0 <= cfg_bits cfg <= 32)%Z ->
  store_all s newKVStore db0 = Ok store -> demo_insert s store u p m n incl = (store', Ok tt) ->
  password_variants p n = Ok vs -> kv_holdable store' ->
  no_collision s (db0 ++ insert_creds u p m vs incl) u' p' -> deriveBucketEntryKey s u' p' = Ok k ->
  Forall (fun d => (d_user d, d_pass d) <> (u', p')) (insert_creds u p m vs incl) ->
  run_query c s (kv_Get store') u' p' r = run_query c s (kv_Get store) u' p' r'.
Proof.
  intros Hs Hc Hv db0 store u p m n incl store' vs u' p' r r' k Hb S0 H V Hh N Hk F.
  rewrite (insert_queries LIB laws cfg key s c Hs Hc Hv db0 store u p m n incl store' vs Hb S0 H V Hh u' p' r k N Hk).
  rewrite (query_answers LIB laws cfg key s c Hs Hc Hv db0 store u' p' r' k Hb S0); auto.
  - rewrite expected_app.
    destruct (find (same_cred u' p') db0) eqn:E; [reflexivity|].
    unfold expected. rewrite E. rewrite find_same_none by exact F. reflexivity.
  - intros id. specialize (Hh id). pose proof (insert_shape LIB s store u p m n incl store' (Ok tt) H) as (vs' & done & rest & _ & S & _).
    unfold holdable in *.
    assert (X : exists t, sl (kv_lookup store' id) = sl (kv_lookup store id) ++ t).
    { clear -S. revert store S; induction done as [|d done IH]; intros store S; cbn [store_all] in S.
      - apply Ok_inj in S. subst. exists []. rewrite app_nil_r. reflexivity.
      - apply bind_ok in S as (i & _ & S). apply bind_ok in S as (e & _ & S). destruct (IH _ S) as (t & ->).
        rewrite lookup_append. destruct (bytes_eqb (BucketIDToHex i) id); [rewrite <- app_assoc|]; eauto. }
    destruct X as (t & X). unfold blen in *. rewrite X, app_length in Hh. lia.
  - intros d k1 k2 I. apply N. apply in_or_app. auto.
Qed.

(** First match wins: a password stored before as a variant keeps the status
    "similar" after it is itself inserted. *)
Lemma variant_then_password LIB (laws : OPRF_laws LIB) cfg key (s : Server LIB) c :
  NewServer {| sc_config := cfg; sc_privateKey := key |} = Ok s -> NewClient LIB cfg = Ok c -> (cfg_version cfg < 2 ^ 16)%N ->
  forall store1 store2 u p v m m' n n' incl incl' vs r,
  (0 <= cfg_bits cfg <= 32)%Z ->
  demo_insert s newKVStore u p m n incl = (store1, Ok tt) -> password_variants p n = Ok vs -> In v vs ->
  demo_insert s store1 u v m' n' incl' = (store2, Ok tt) -> kv_holdable store2 ->
  no_collision s (insert_creds u p m vs incl) u v ->
  run_query c s (kv_Get store2) u v r = Ok (SimilarInBreach, Some m).
Proof.
  intros Hs Hc Hv store1 store2 u p v m m' n n' incl incl' vs r Hb H1 V I H2 Hh N.
  assert (X : forall id, (id < 2 ^ 32)%N -> exists t, sl (kv_lookup store2 (BucketIDToHex id)) = sl (kv_lookup store1 (BucketIDToHex id)) ++ t).
  { intros id Hid. destruct (insert_extends s store1 u v m' n' incl' id Hid) as (t & E). rewrite H2 in E. eauto. }
  apply (hit_extended LIB laws cfg key s c Hs Hc Hv store1 store2 u v r r).
  - apply (insert_variant_hit LIB laws cfg key s c Hs Hc Hv [] newKVStore u p m n incl store1 vs v r); auto.
    assert (X' : forall id, exists t, sl (kv_lookup store2 id) = sl (kv_lookup store1 id) ++ t).
    { intros id. pose proof (insert_shape LIB s store1 _ _ _ _ _ _ _ H2) as (vs' & done & rest & _ & S & _). clear -S.
      revert store1 S; induction done as [|d done IH]; intros store1 S; cbn [store_all] in S.
      - apply Ok_inj in S. subst. exists []. rewrite app_nil_r. reflexivity.
      - apply bind_ok in S as (i & _ & S). apply bind_ok in S as (e & _ & S). destruct (IH _ S) as (t & ->).
        rewrite lookup_append. destruct (bytes_eqb (BucketIDToHex i) id); [rewrite <- app_assoc|]; eauto. }
    intros id. specialize (Hh id). destruct (X' id) as (t & E). unfold holdable, blen in *. rewrite E, app_length in Hh. lia.
  - intros id Hid. destruct (X id) as (t & E); [eapply Server_BucketID_lt; exact Hid|]. exists t. split; [exact E|apply Hh].
Qed.

Lemma short_password_username LIB (laws : OPRF_laws LIB) cfg key (s : Server LIB) c :
  NewServer {| sc_config := cfg; sc_privateKey := key |} = Ok s -> NewClient LIB cfg = Ok c -> (cfg_version cfg < 2 ^ 16)%N ->
  forall store' u m r, (0 <= cfg_bits cfg <= 32)%Z ->
  demo_insert s newKVStore u (str "abc") m 9 true = (store', Ok tt) -> kv_holdable store' ->
  (forall vs, password_variants (str "abc") 9 = Ok vs -> no_collision s (insert_creds u (str "abc") m vs true) u []) ->
  run_query c s (kv_Get store') u [] r = Ok (SimilarInBreach, Some m).
Proof.
  intros Hs Hc Hv store' u m r Hb H Hh N.
  assert (V : exists vs, password_variants (str "abc") 9 = Ok vs /\ In [] vs).
  { rewrite variants_shipped.
    assert (C : match Mutate shipped (str "abc") 9 with Ok vs => existsb (bytes_eqb []) vs | _ => false end = true)
      by (vm_compute; reflexivity).
    destruct (Mutate shipped (str "abc") 9) as [vs| |]; try discriminate. exists vs. split; [reflexivity|].
    apply existsb_exists in C as (v & I & C). apply bytes_eqb_eq in C. subst v. exact I. }
  destruct V as (vs & V & I).
  apply (insert_variant_hit LIB laws cfg key s c Hs Hc Hv [] newKVStore u (str "abc") m 9 true store' vs [] r); auto.
  exact (N vs V).
Qed.
