(** * Proofs about histories of inserts: order, repetition, independence. *)
From Coq Require Import Lia.
From Verif Require Import Base BaseProofs Sha256 Common CommonProofs Hasher Encryptor EncryptorProofs Oprf Server Client KV KVProofs
  Mutator ConfigJson SpecMutator MutatorProofs SpecEntry SpecProtocol FinalizeProofs ProtocolProofs WireProofs Scanner Json Demo SpecDemo
  DemoProofs IngestProofs.

Section Order.
Variable LIB : OPRF.
Implicit Type s : Server LIB.

Lemma stored_prefix_split s db : exists rest, db = stored_prefix s db ++ rest.
Proof.
  induction db as [|d db (rest & E)]; [exists []; reflexivity|]. cbn [stored_prefix].
  destruct (Server_BucketID s (d_user d)); [|exists (d :: db); reflexivity..].
  destruct (EncryptBucketEntry s _ _ _ _); [|exists (d :: db); reflexivity..].
  exists rest. cbn [app]. rewrite <- E. reflexivity.
Qed.
Lemma stored_prefix_in s db d : In d (stored_prefix s db) -> In d db.
Proof. destruct (stored_prefix_split s db) as (rest & E). intros I. rewrite E. apply in_or_app. auto. Qed.

Definition can_store s (d : cred) : bool :=
  match EncryptBucketEntry s (d_user d) (d_pass d) (d_flag d) (d_meta d) with Ok _ => true | _ => false end.

Lemma add_entry_prefix s store u p f m id : Server_BucketID s u = Ok id ->
  store_all s store (stored_prefix s [mkCred u p f m]) = Ok (fst (add_entry s store (BucketIDToHex id) u p f m))
  /\ is_ok (snd (add_entry s store (BucketIDToHex id) u p f m)) = can_store s (mkCred u p f m).
Proof.
  intros H. cbn [stored_prefix d_user d_pass d_flag d_meta]. unfold add_entry, can_store. cbn [d_user d_pass d_flag d_meta]. rewrite H.
  destruct (EncryptBucketEntry s u p f m) eqn:E; cbn [store_all d_user d_pass d_flag d_meta fst snd is_ok]; [|auto..].
  rewrite H, E. auto.
Qed.

Lemma stored_prefix_cons s d r id : Server_BucketID s (d_user d) = Ok id ->
  stored_prefix s (d :: r) = if can_store s d then d :: stored_prefix s r else [].
Proof.
  intros H. cbn [stored_prefix]. rewrite H. unfold can_store. destruct (EncryptBucketEntry s _ _ _ _); reflexivity.
Qed.

Lemma store_all_cons s store d r st : store_all s store [d] = Ok st -> store_all s store (d :: r) = store_all s st r.
Proof. intros H. change (d :: r) with ([d] ++ r). rewrite store_all_app, H. reflexivity. Qed.

Lemma add_entry_cons s store u p f m id r store' res : Server_BucketID s u = Ok id ->
  add_entry s store (BucketIDToHex id) u p f m = (store', res) ->
  (exists x, res = Ok x /\ can_store s (mkCred u p f m) = true /\
    store_all s store (stored_prefix s (mkCred u p f m :: r)) = store_all s store' (stored_prefix s r))
  \/ (is_ok res = false /\ can_store s (mkCred u p f m) = false /\ store' = store /\ stored_prefix s (mkCred u p f m :: r) = []).
Proof.
  intros H E. destruct (add_entry_prefix s store u p f m id H) as [A B]. rewrite E in A, B. cbn [fst snd] in A, B.
  rewrite (stored_prefix_cons s _ _ id) by exact H. rewrite (stored_prefix_cons s (mkCred u p f m) [] id) in A by exact H.
  destruct (can_store s (mkCred u p f m)) eqn:C.
  - left. destruct res as [x| |]; [|discriminate..]. exists x. split; [reflexivity|]. split; [reflexivity|].
    apply store_all_cons. exact A.
  - right. cbn [stored_prefix store_all] in A. apply Ok_inj in A. auto.
Qed.

Lemma add_variants_prefix s u m id vs r : Server_BucketID s u = Ok id ->
  forall store store' res, add_variants s store (BucketIDToHex id) u vs m = (store', res) ->
  (res = Ok tt /\ store_all s store (stored_prefix s (map (fun v => mkCred u v Byte.x02 m) vs ++ r)) = store_all s store' (stored_prefix s r))
  \/ (is_ok res = false /\ store_all s store (stored_prefix s (map (fun v => mkCred u v Byte.x02 m) vs ++ r)) = Ok store').
Proof.
  intros Hid. induction vs as [|v vs IH]; intros store store' res H; cbn [add_variants map app] in H |- *.
  - apply pair_inj in H as [<- <-]. left. auto.
  - destruct (add_entry s store (BucketIDToHex id) u v MetadataSimilarPassword m) as [st1 r1] eqn:E.
    destruct (add_entry_cons s store u v Byte.x02 m id (map (fun v => mkCred u v Byte.x02 m) vs ++ r) st1 r1 Hid E)
      as [(x & -> & _ & A)|(N & _ & -> & A)].
    + destruct (IH _ _ _ H) as [[-> B]|[N B]]; [left|right]; (split; [auto|]); rewrite A; exact B.
    + right. destruct r1 as [[]| |]; [discriminate| |]; apply pair_inj in H as [<- <-]; (split; [reflexivity|]); rewrite A; reflexivity.
Qed.

(** An insert stores what can be stored of its credentials, whatever the store
    held. *)
Lemma insert_prefix s store o : store_all s store (op_stores s o) = Ok (fst (do_insert s store o)).
Proof.
  unfold op_stores, op_creds, do_insert, demo_insert, insert_with. destruct o as [u p m n incl]. cbn [o_user o_pass o_meta o_num o_incl].
  destruct (Server_BucketID s u) as [id| |] eqn:Hid.
  2,3: destruct (password_variants p n); unfold insert_creds; cbn [stored_prefix d_user app]; rewrite Hid; reflexivity.
  destruct (add_entry s store (BucketIDToHex id) u p MetadataBreachedPassword m) as [st1 r1] eqn:E.
  pose proof (fun r => add_entry_cons s store u p Byte.x01 m id r st1 r1 Hid E) as A.
  destruct (password_variants p n) as [vs|e|e].
  2,3: destruct (A []) as [(x & -> & _ & B)|(N & _ & -> & B)]; rewrite B; try destruct r1; try discriminate; reflexivity.
  unfold insert_creds. specialize (A (map (fun v => mkCred u v Byte.x02 m) vs ++ (if incl then [mkCred u [] Byte.x03 m] else []))).
  destruct A as [(x & -> & _ & B)|(N & _ & -> & B)]; rewrite B; [|destruct r1; [discriminate|reflexivity..]].
  destruct (add_variants s st1 (BucketIDToHex id) u vs m) as [st2 r2] eqn:E2.
  destruct (add_variants_prefix s u m id vs (if incl then [mkCred u [] Byte.x03 m] else []) Hid _ _ _ E2) as [[-> C]|[N C]]; rewrite C.
  - destruct incl; [|reflexivity]. apply (add_entry_prefix s st2 u [] Byte.x03 m id Hid).
  - destruct r2; [discriminate|reflexivity..].
Qed.

Lemma add_variants_outcome s hex hex' u m vs : forall store store',
  snd (add_variants s store hex u vs m) = snd (add_variants s store' hex' u vs m).
Proof.
  induction vs as [|v vs IH]; intros store store'; [reflexivity|]. cbn [add_variants]. unfold add_entry.
  destruct (EncryptBucketEntry s u v MetadataSimilarPassword m); [apply IH|reflexivity..].
Qed.

Lemma insert_outcome s store store' o : snd (do_insert s store o) = snd (do_insert s store' o).
Proof.
  unfold do_insert, demo_insert, insert_with. destruct (Server_BucketID s (o_user o)) as [id| |]; [|reflexivity..].
  unfold add_entry at 1 3. destruct (EncryptBucketEntry s (o_user o) (o_pass o) _ _) as [e| |]; [|reflexivity..].
  destruct (password_variants _ _) as [vs| |]; [|reflexivity..].
  pose proof (add_variants_outcome s (BucketIDToHex id) (BucketIDToHex id) (o_user o) (o_meta o) vs (kv_Append store (BucketIDToHex id) e) (kv_Append store' (BucketIDToHex id) e)) as H.
  destruct (add_variants s (kv_Append store _ _) _ _ _ _) as [st2 r2]. destruct (add_variants s (kv_Append store' _ _) _ _ _ _) as [st2' r2'].
  cbn [snd] in H. subst r2'. destruct r2 as [[]| |]; [|reflexivity..]. destruct (o_incl o); [|reflexivity].
  unfold add_entry. destruct (EncryptBucketEntry _ _ _ _ _); reflexivity.
Qed.

Lemma outcomes_map s ops : forall store, outcomes s store ops = map (fun o => snd (do_insert s newKVStore o)) ops.
Proof. induction ops as [|o ops IH]; intros store; [reflexivity|]. cbn [outcomes map]. rewrite IH. f_equal. apply insert_outcome. Qed.

Lemma run_inserts_stores s ops : forall store, store_all s store (stored_by s ops) = Ok (run_inserts s store ops).
Proof.
  induction ops as [|o ops IH]; intros store; [reflexivity|]. unfold stored_by in *. cbn [flat_map run_inserts].
  rewrite store_all_app, insert_prefix. cbn [bind]. apply IH.
Qed.

Lemma stored_by_tried s ops d : In d (stored_by s ops) -> In d (tried ops).
Proof.
  unfold stored_by, tried. intros I. apply in_flat_map in I as (o & O & I). apply in_flat_map. exists o. split; [exact O|].
  eapply stored_prefix_in. exact I.
Qed.

Lemma op_creds_user o d : In d (op_creds o) -> d_user d = o_user o.
Proof.
  unfold op_creds. destruct (password_variants _ _) as [vs| |].
  - intros I. pose proof (insert_creds_user (o_user o) (o_pass o) (o_meta o) vs (o_incl o)) as F. rewrite Forall_forall in F. apply F, I.
  - intros [<-|[]]. reflexivity.
  - intros [<-|[]]. reflexivity.
Qed.

Lemma find_app {A} (f : A -> bool) a b : find f (a ++ b) = match find f a with Some x => Some x | None => find f b end.
Proof. induction a as [|x a IH]; [reflexivity|]. cbn [app find]. destruct (f x); auto. Qed.

Lemma find_for_user s ops u p : find (same_cred u p) (stored_by s ops) = find (same_cred u p) (stored_by s (for_user u ops)).
Proof.
  unfold stored_by, for_user. induction ops as [|o ops IH]; [reflexivity|]. cbn [flat_map filter]. rewrite find_app, IH.
  destruct (bytes_eqb (o_user o) u) eqn:E; [cbn [flat_map]; rewrite find_app; reflexivity|].
  destruct (find (same_cred u p) (op_stores s o)) as [d|] eqn:F; [|reflexivity]. exfalso.
  apply find_some in F as [I S]. apply stored_prefix_in, op_creds_user in I. apply same_cred_iff, pair_inj in S as [S _].
  rewrite <- S, I in E. rewrite (proj2 (bytes_eqb_eq _ _) eq_refl) in E. discriminate.
Qed.

Lemma expected_for_user s ops ops' u p : for_user u ops = for_user u ops' ->
  expected (stored_by s ops) u p = expected (stored_by s ops') u p.
Proof. intros H. unfold expected. rewrite (find_for_user s ops), (find_for_user s ops'), H. reflexivity. Qed.

Lemma expected_repeat s ops more u p : (forall o, In o more -> In o ops) ->
  expected (stored_by s (ops ++ more)) u p = expected (stored_by s ops) u p.
Proof.
  intros H. unfold expected, stored_by. rewrite flat_map_app, find_app.
  destruct (find (same_cred u p) (flat_map (op_stores s) ops)) as [d|] eqn:F; [reflexivity|].
  destruct (find (same_cred u p) (flat_map (op_stores s) more)) as [d|] eqn:G; [|reflexivity]. exfalso.
  apply find_some in G as [I S]. apply in_flat_map in I as (o & O & I).
  assert (In d (flat_map (op_stores s) ops)) as J by (apply in_flat_map; exists o; auto).
  rewrite (find_none _ _ F d J) in S. discriminate.
Qed.

Lemma no_collision_incl s db db' u p : (forall d, In d db -> In d db') -> no_collision s db' u p -> no_collision s db u p.
Proof. intros H N d k k' I. apply N, H, I. Qed.
End Order.

Section Queries.
Variable LIB : OPRF.
Hypothesis laws : OPRF_laws LIB.
Variable cfg : Config.
Variable key : PrivateKey LIB.
Variable s : Server LIB.
Variable c : Client.
Hypothesis Hs : NewServer {| sc_config := cfg; sc_privateKey := key |} = Ok s.
Hypothesis Hc : NewClient LIB cfg = Ok c.
Hypothesis Hv : (cfg_version cfg < 2 ^ 16)%N.

Lemma history_query ops u p r k : (0 <= cfg_bits cfg <= 32)%Z -> kv_holdable (run_inserts s newKVStore ops) ->
  no_collision s (tried ops) u p -> deriveBucketEntryKey s u p = Ok k ->
  run_query c s (kv_Get (run_inserts s newKVStore ops)) u p r = Ok (expected (stored_by s ops) u p).
Proof.
  intros Hb Hh N K. eapply (query_answers LIB laws cfg key s c Hs Hc Hv); eauto; [apply run_inserts_stores|].
  eapply no_collision_incl; [|exact N]. intros d. apply stored_by_tried.
Qed.

Lemma queries_for_user ops ops' u p r r' k : (0 <= cfg_bits cfg <= 32)%Z ->
  kv_holdable (run_inserts s newKVStore ops) -> kv_holdable (run_inserts s newKVStore ops') ->
  no_collision s (tried ops) u p -> no_collision s (tried ops') u p -> deriveBucketEntryKey s u p = Ok k ->
  for_user u ops = for_user u ops' ->
  run_query c s (kv_Get (run_inserts s newKVStore ops)) u p r = run_query c s (kv_Get (run_inserts s newKVStore ops')) u p r'.
Proof.
  intros Hb H1 H2 N1 N2 K E. rewrite (history_query ops u p r k), (history_query ops' u p r' k) by assumption.
  f_equal. apply expected_for_user. exact E.
Qed.

Lemma tried_repeat ops more d : (forall o, In o more -> In o ops) -> In d (tried (ops ++ more)) -> In d (tried ops).
Proof.
  intros H I. unfold tried in *. apply in_flat_map in I as (o & O & I). apply in_flat_map. exists o. split; [|exact I].
  apply in_app_or in O as [O|O]; auto.
Qed.

Lemma queries_repeat ops more u p r r' k : (0 <= cfg_bits cfg <= 32)%Z ->
  kv_holdable (run_inserts s newKVStore ops) -> kv_holdable (run_inserts s newKVStore (ops ++ more)) ->
  no_collision s (tried ops) u p -> deriveBucketEntryKey s u p = Ok k -> (forall o, In o more -> In o ops) ->
  run_query c s (kv_Get (run_inserts s newKVStore (ops ++ more))) u p r = run_query c s (kv_Get (run_inserts s newKVStore ops)) u p r'.
Proof.
  intros Hb H1 H2 N K H. rewrite (history_query ops u p r' k), (history_query (ops ++ more) u p r k); try assumption.
  - f_equal. apply expected_repeat. exact H.
  - eapply no_collision_incl; [|exact N]. intros d. apply tried_repeat. exact H.
Qed.
End Queries.
