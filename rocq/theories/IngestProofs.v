(** * Proofs about line reading, ingestion and the client's output
    (cmd/server/main.go, cmd/client/main.go). *)
From Coq Require Import Lia.
From Verif Require Import Sha256 Murmur3 Mutator Base BaseProofs Common CommonProofs Hasher Encryptor EncryptorProofs Oprf Server Client KV KVProofs
  Mutator ConfigJson SpecMutator MutatorProofs SpecEntry SpecProtocol ProtocolProofs WireProofs Scanner Json Demo SpecDemo DemoProofs.

(** ** The first colon *)
Lemma split_colon_some l u p : split_colon l = Some (u, p) <-> l = u ++ Byte.x3a :: p /\ ~ In Byte.x3a u.
Proof.
  revert u; induction l as [|x l IH]; intros u; cbn [split_colon].
  - split; [discriminate|]. intros [E _]. destruct u; discriminate.
  - destruct (beqb x Byte.x3a) eqn:B.
    + apply beqb_eq in B. subst x. split.
      * intros H. apply Some_inj, pair_inj in H as [<- <-]. split; [reflexivity|intros []].
      * intros [E N]. destruct u as [|y u]; cbn [app] in E; [injection E as ->; reflexivity|]. injection E as E1 E2. exfalso. apply N. left. symmetry. exact E1.
    + apply beqb_neq in B. destruct (split_colon l) as [[u' p']|].
      * split.
        -- intros H. apply Some_inj, pair_inj in H as [<- <-]. destruct (proj1 (IH u') eq_refl) as [-> N].
           split; [reflexivity|]. intros [K|K]; [congruence|contradiction].
        -- intros [E N]. destruct u as [|y u]; cbn [app] in E; injection E as E1 E; [contradiction|]. subst y.
           assert (K : Some (u', p') = Some (u, p)) by (apply IH; split; [exact E|intros J; apply N; right; exact J]).
           apply Some_inj, pair_inj in K as [-> ->]. reflexivity.
      * split; [discriminate|]. intros [E N]. destruct u as [|y u]; cbn [app] in E; injection E as E1 E; [contradiction|]. subst y.
        assert (K : @None (bytes * bytes) = Some (u, p)) by (apply IH; split; [exact E|intros J; apply N; right; exact J]).
        discriminate.
Qed.

Lemma split_colon_none l : split_colon l = None <-> ~ In Byte.x3a l.
Proof.
  split.
  - intros H I. apply in_split in I as (a & b & ->).
    assert (K : exists u p, split_colon (a ++ Byte.x3a :: b) = Some (u, p)).
    { clear H. induction a as [|x a (u & p & IH)]; cbn [app split_colon].
      - rewrite beqb_refl. eauto.
      - destruct (beqb x Byte.x3a); [eauto|]. rewrite IH. eauto. }
    destruct K as (u & p & K). congruence.
  - intros N. destruct (split_colon l) as [[u p]|] eqn:E; [|reflexivity]. apply split_colon_some in E as [-> _].
    exfalso. apply N. apply in_or_app. right. left. reflexivity.
Qed.

(** ** Lines *)
Lemma split_lf_line l r : no_lf l -> split_lf (l ++ Byte.x0a :: r) = (l :: fst (split_lf r), snd (split_lf r)).
Proof.
  intros N. induction l as [|x l IH]; cbn [app split_lf].
  - destruct (split_lf r). rewrite beqb_refl. reflexivity.
  - rewrite IH by (intros I; apply N; right; exact I).
    rewrite (proj2 (beqb_neq x Byte.x0a)) by (intros ->; apply N; left; reflexivity). reflexivity.
Qed.

Lemma split_lf_last l : no_lf l -> split_lf l = ([], l).
Proof.
  intros N. induction l as [|x l IH]; [reflexivity|]. cbn [split_lf]. rewrite IH by (intros I; apply N; right; exact I).
  rewrite (proj2 (beqb_neq x Byte.x0a)) by (intros ->; apply N; left; reflexivity). reflexivity.
Qed.

Lemma split_lf_text ls last : Forall no_lf ls -> no_lf last -> split_lf (text ls last) = (ls, last).
Proof.
  intros F N. unfold text. induction F as [|l ls Hl F IH]; cbn [flat_map app]; [apply split_lf_last, N|].
  rewrite <- !app_assoc. cbn [app]. rewrite split_lf_line by exact Hl. rewrite IH. reflexivity.
Qed.

(** Every byte string is a text in exactly one way. *)
Lemma split_lf_inv input : text (fst (split_lf input)) (snd (split_lf input)) = input
  /\ Forall no_lf (fst (split_lf input)) /\ no_lf (snd (split_lf input)).
Proof.
  induction input as [|x r (E & F & N)]; cbn [split_lf]; [split; [reflexivity|]; split; [constructor|intros []]|].
  destruct (split_lf r) as [ls t]. cbn [fst snd] in *.
  destruct (beqb x Byte.x0a) eqn:B.
  - apply beqb_eq in B. subst x. cbn [fst snd]. split; [unfold text in *; cbn; rewrite <- E; reflexivity|].
    split; [constructor; [intros []|exact F]|exact N].
  - apply beqb_neq in B. destruct ls as [|l ls]; cbn [fst snd].
    + split; [unfold text in *; cbn in *; congruence|]. split; [constructor|]. intros [K|K]; [congruence|contradiction].
    + inversion F as [|l' ls' Hl F']; subst. split; [unfold text in *; cbn in *; congruence|].
      split; [|exact N]. constructor; [|exact F']. intros [K|K]; [congruence|contradiction].
Qed.

Lemma text_unique input : exists ls last, input = text ls last /\ Forall no_lf ls /\ no_lf last
  /\ forall ls' last', input = text ls' last' -> Forall no_lf ls' -> no_lf last' -> ls' = ls /\ last' = last.
Proof.
  exists (fst (split_lf input)), (snd (split_lf input)). destruct (split_lf_inv input) as (E & F & N).
  split; [symmetry; exact E|]. split; [exact F|]. split; [exact N|]. intros ls' last' -> F' N'.
  rewrite split_lf_text by assumption. auto.
Qed.

Lemma drop_cr_spec l : strip_cr l (drop_cr l).
Proof.
  unfold strip_cr, drop_cr. destruct (rev l) as [|x r] eqn:E.
  - right. assert (l = []) by (rewrite <- (rev_involutive l), E; reflexivity). subst l. split; [reflexivity|].
    intros a K. destruct a; discriminate.
  - assert (El : l = rev r ++ [x]) by (rewrite <- (rev_involutive l), E; reflexivity).
    destruct (beqb x Byte.x0d) eqn:B.
    + apply beqb_eq in B. subst x. left. exact El.
    + apply beqb_neq in B. right. split; [reflexivity|]. intros a K. rewrite El in K.
      apply app_inj_tail in K as [_ K]. contradiction.
Qed.

Lemma drop_cr_length l : (length (drop_cr l) <= length l)%nat.
Proof.
  destruct (drop_cr_spec l) as [E|[E _]]; [rewrite E at 2; rewrite app_length; lia|rewrite <- E; lia].
Qed.

Lemma fits_iff l : fits l = true <-> (blen l < 65536)%Z.
Proof. unfold fits, maxTokenSize, blen. rewrite N.ltb_lt. lia. Qed.

Lemma scan_complete_all ls last : Forall (fun l => (blen l < 65536)%Z) ls -> (blen last < 65536)%Z ->
  scan_complete ls last = map drop_cr (all_lines ls last).
Proof.
  intros F L. unfold all_lines. induction F as [|l ls Hl F IH]; cbn [scan_complete app map].
  - destruct last; [reflexivity|]. rewrite (proj2 (fits_iff _) L). reflexivity.
  - rewrite (proj2 (fits_iff _) Hl), IH. reflexivity.
Qed.

Lemma scan_text ls last : Forall no_lf ls -> no_lf last ->
  Forall (fun l => (blen l < 65536)%Z) ls -> (blen last < 65536)%Z ->
  scan_lines (text ls last) = map drop_cr (all_lines ls last).
Proof. intros F N L L'. unfold scan_lines. rewrite split_lf_text by assumption. apply scan_complete_all; assumption. Qed.

(** 65536 bytes without LF end the input. *)
Lemma split_lf_long long rest : no_lf long -> exists l ls t, split_lf (long ++ rest) = (l :: ls, t) /\ (length long <= length l)%nat
  \/ split_lf (long ++ rest) = ([], t) /\ (length long <= length t)%nat.
Proof.
  intros N. destruct (split_lf (long ++ rest)) as [ls t] eqn:E.
  pose proof (split_lf_inv (long ++ rest)) as (T & F & Nt). rewrite E in T, F, Nt. cbn [fst snd] in *.
  destruct ls as [|l ls].
  - exists [], [], t. right. split; [reflexivity|]. unfold text in T. cbn in T. rewrite T, app_length. lia.
  - exists l, ls, t. left. split; [reflexivity|]. unfold text in T. cbn [flat_map] in T. rewrite <- !app_assoc in T.
    destruct (Nat.le_gt_cases (length long) (length l)) as [G|G]; [exact G|exfalso].
    assert (K : firstn (length l + 1) (long ++ rest) = l ++ [Byte.x0a]).
    { rewrite <- T. rewrite (app_assoc l [Byte.x0a]). apply firstn_app_exact. rewrite app_length. reflexivity. }
    rewrite firstn_app in K. replace (length l + 1 - length long)%nat with 0%nat in K by lia.
    cbn [firstn] in K. rewrite app_nil_r in K. apply N.
    assert (I : In Byte.x0a (firstn (length l + 1) long)) by (rewrite K; apply in_or_app; right; left; reflexivity).
    rewrite <- (firstn_skipn (length l + 1) long). apply in_or_app. left. exact I.
Qed.

Lemma scan_overlong ls long rest : Forall no_lf ls -> Forall (fun l => (blen l < 65536)%Z) ls ->
  no_lf long -> (65536 <= blen long)%Z ->
  scan_lines (text ls (long ++ rest)) = map drop_cr ls.
Proof.
  intros F L N G. unfold scan_lines, text. revert L; induction F as [|l ls Hl F IH]; intros L; cbn [flat_map app].
  - destruct (split_lf_long long rest N) as (l & ls & t & [[E H]|[E H]]); rewrite E.
    + cbn [scan_complete]. destruct (fits l) eqn:B; [|reflexivity]. apply fits_iff in B. unfold blen in *. lia.
    + cbn [scan_complete]. destruct t as [|x t]; [cbn in H; unfold blen in G; lia|].
      destruct (fits (x :: t)) eqn:B; [|reflexivity]. apply fits_iff in B. unfold blen in *. lia.
  - inversion L as [|l' ls' H1 H2]; subst. rewrite <- !app_assoc. cbn [app]. rewrite split_lf_line by exact Hl.
    cbn [scan_complete]. rewrite (proj2 (fits_iff _) H1). cbn [map]. f_equal.
    specialize (IH H2). destruct (split_lf (flat_map (fun l : list byte => l ++ [Byte.x0a]) ls ++ long ++ rest)). exact IH.
Qed.

(** ** Ingestion *)
Section Ingest.
Variable LIB : OPRF.
Implicit Type s : Server LIB.
Variables (metadata : bytes) (n : Z) (incl : bool).

Definition op_of (c : bytes * bytes) : op := mkOp (fst c) (snd c) metadata n incl.
Definition ops_of (lines : list bytes) : list op := map op_of (with_colon lines).

Lemma do_insert_op s store u p : do_insert s store (op_of (u, p)) = demo_insert s store u p metadata n incl.
Proof. reflexivity. Qed.

Lemma with_colon_cons l r : with_colon (l :: r) = match split_colon l with Some c => c :: with_colon r | None => with_colon r end.
Proof. unfold with_colon. cbn [flat_map]. destruct (split_colon l); reflexivity. Qed.

Lemma ingest_lines_spec s lines st st' : ingest_lines s metadata n incl st lines = Ok st' ->
  in_store st' = run_inserts s (in_store st) (ops_of lines)
  /\ in_success st' = (in_success st + N.of_nat (length (filter is_ok (outcomes s (in_store st) (ops_of lines)))))%N
  /\ (in_success st' + in_failure st' = in_success st + in_failure st + N.of_nat (length lines))%N
  /\ existsb is_panic (outcomes s (in_store st) (ops_of lines)) = false.
Proof.
  revert st; induction lines as [|l lines IH]; intros st H; cbn [ingest_lines] in H.
  - apply Ok_inj in H. subst st'. unfold ops_of. cbn. rewrite !N.add_0_r. auto.
  - apply bind_ok in H as (st1 & H1 & H). specialize (IH _ H). unfold ops_of in *. rewrite with_colon_cons.
    unfold ingest_line in H1. destruct (split_colon l) as [[u p]|].
    + cbn [map run_inserts outcomes]. rewrite !do_insert_op.
      destruct (demo_insert s (in_store st) u p metadata n incl) as [store1 r1] eqn:E. cbn [fst snd].
      destruct r1 as [[]|e|e]; [| |discriminate]; apply Ok_inj in H1; subst st1; cbn [in_store in_success in_failure] in IH.
      * destruct IH as (A & B & C & D). split; [exact A|]. cbn [filter is_ok length existsb is_panic orb].
        split; [lia|]. split; [lia|exact D].
      * destruct IH as (A & B & C & D). split; [exact A|]. cbn [filter is_ok length existsb is_panic orb].
        split; [exact B|]. split; [lia|exact D].
    + apply Ok_inj in H1. subst st1. cbn [in_store in_success in_failure] in IH. destruct IH as (A & B & C & D).
      split; [exact A|]. split; [exact B|]. split; [|exact D]. cbn [length]. lia.
Qed.

(** No panic means a result. *)
Lemma ingest_lines_total s lines st : existsb is_panic (outcomes s (in_store st) (ops_of lines)) = false ->
  exists st', ingest_lines s metadata n incl st lines = Ok st'.
Proof.
  revert st; induction lines as [|l lines IH]; intros st H; cbn [ingest_lines]; [eauto|].
  unfold ops_of in *. rewrite with_colon_cons in H. unfold ingest_line. destruct (split_colon l) as [[u p]|].
  - cbn [map outcomes existsb] in H. apply orb_false_iff in H as [H1 H].
    rewrite do_insert_op in H1, H.
    destruct (demo_insert s (in_store st) u p metadata n incl) as [store1 r1]. cbn [fst snd] in *.
    destruct r1 as [[]|e|e]; [| |discriminate]; cbn [bind]; apply IH; exact H.
  - cbn [bind]. apply IH. exact H.
Qed.

Lemma ingest_lines_panic s lines st : existsb is_panic (outcomes s (in_store st) (ops_of lines)) = true ->
  exists m, ingest_lines s metadata n incl st lines = Panic m.
Proof.
  revert st; induction lines as [|l lines IH]; intros st H; cbn [ingest_lines]; [discriminate|].
  unfold ops_of in *. rewrite with_colon_cons in H. unfold ingest_line. destruct (split_colon l) as [[u p]|].
  - cbn [map outcomes existsb] in H. apply orb_true_iff in H.
    rewrite do_insert_op in H.
    destruct (demo_insert s (in_store st) u p metadata n incl) as [store1 r1]. cbn [fst snd] in *.
    destruct r1 as [[]|e|e]; cbn [bind]; [| |eauto]; (destruct H as [H|H]; [discriminate|]; apply IH; exact H).
  - cbn [bind]. apply IH. exact H.
Qed.

Lemma server_ingest_spec s store input st : server_ingest s metadata n incl store input = Ok st ->
  in_store st = run_inserts s store (ops_of (scan_lines input))
  /\ in_success st = N.of_nat (length (filter is_ok (outcomes s store (ops_of (scan_lines input)))))
  /\ (in_success st + in_failure st = N.of_nat (length (scan_lines input)))%N
  /\ existsb is_panic (outcomes s store (ops_of (scan_lines input))) = false.
Proof. unfold server_ingest. intros H. apply ingest_lines_spec in H. cbn [in_store in_success in_failure] in H. rewrite !N.add_0_l in H. exact H. Qed.
End Ingest.

(** ** When ingestion cannot crash *)
Section NoPanic.
Variable LIB : OPRF.
Variable s : Server LIB.
Variable cfg : ServerConfig LIB.
Hypothesis Hs : NewServer cfg = Ok s.
Hypothesis Hb : (0 <= cfg_bits (sc_config cfg) <= 32)%Z.
Hypothesis full_np : forall x m, full_evaluate LIB (s_oprfSuite s) (s_privateKey s) x (str "MIGP oprf info") <> Panic m.

Lemma bucket_ok u : (blen u <= 65536)%Z -> exists id, Server_BucketID s u = Ok id.
Proof. intros Hu. eexists. apply (server_bucket_spec LIB cfg s u Hs Hb Hu). Qed.

Lemma slow_ok ser : exists h, SlowHasher_Hash (s_slowHasher s) ser = Ok h.
Proof.
  apply NewServer_inv in Hs. cbv zeta in Hs. destruct Hs as (_ & _ & _ & _ & _ & _ & _ & _ & _ & HS).
  apply NewSlowHasher_iff in HS. destruct HS as [[_ ->]|[_ ->]].
  - eexists. reflexivity.
  - destruct (scrypt_hash_ok ser) as (h & Hh & _). exists h. exact Hh.
Qed.

Lemma derive_np u p m : (blen u <= 65536)%Z -> (blen p <= 65536)%Z -> deriveBucketEntryKey s u p <> Panic m.
Proof.
  intros Hu Hp. unfold deriveBucketEntryKey. rewrite serialize_ok by assumption. cbn [bind].
  destruct (slow_ok (be16 (len16 u) ++ u ++ be16 (len16 p) ++ p)) as (h & ->). cbn [bind]. apply full_np.
Qed.

Lemma derive_long_panics u p : (65536 < blen p)%Z -> exists m, deriveBucketEntryKey s u p = Panic m.
Proof.
  intros Hp. unfold deriveBucketEntryKey. rewrite (proj1 (serialize_panics u p)) by auto. cbn [bind]. eauto.
Qed.

Lemma encrypt_entry_np u p f m e : (blen u <= 65536)%Z -> (blen p <= 65536)%Z -> EncryptBucketEntry s u p f m <> Panic e.
Proof.
  intros Hu Hp H. unfold EncryptBucketEntry in H. destruct (MetadataType_Valid f); [|discriminate]. cbn [negb] in H.
  destruct (deriveBucketEntryKey s u p) as [k| |m'] eqn:K; cbn [bind] in H; [|discriminate|exact (derive_np u p m' Hu Hp K)].
  exact (Encrypt_np _ _ _ _ _ H).
Qed.

Lemma insert_np store u p m n incl e :
  (blen u <= 65536)%Z -> (blen p <= 49152)%Z -> (0 <= n)%Z -> (n * 24 <= 2 ^ 48)%Z ->
  snd (demo_insert s store u p m n incl) <> Panic e.
Proof.
  intros Hu Hp Hn Hm. unfold demo_insert, insert_with. destruct (bucket_ok u Hu) as (id & ->).
  assert (A : forall st q f, (blen q <= 65536)%Z -> snd (add_entry s st (BucketIDToHex id) u q f m) <> Panic e).
  { intros st q f Hq H. unfold add_entry in H. destruct (EncryptBucketEntry s u q f m) eqn:E; cbn [snd] in H; try discriminate.
    exact (encrypt_entry_np u q f m _ Hu Hq E). }
  pose proof (A store p MetadataBreachedPassword) as A1.
  destruct (add_entry s store (BucketIDToHex id) u p MetadataBreachedPassword m) as [st1 r1]. cbn [snd] in A1.
  destruct r1 as [[]|e1|e1]; [|discriminate|exact (A1 ltac:(lia))].
  destruct (variants_total p n Hn Hm) as (vs & V). rewrite V.
  assert (L : forall v, In v vs -> (blen v <= 65536)%Z).
  { intros v I. rewrite variants_shipped in V. apply mutate_sound in V as (_ & _ & _ & _ & V).
    destruct (V v I) as (rule & Ir & Hr). pose proof (shipped_image_length rule p v Ir Hr). unfold blen in *. lia. }
  assert (B : forall vs', (forall v, In v vs' -> In v vs) -> forall st, snd (add_variants s st (BucketIDToHex id) u vs' m) <> Panic e).
  { induction vs' as [|v vs' IH]; intros Hin st; cbn [add_variants]; [discriminate|].
    pose proof (A st v MetadataSimilarPassword (L v (Hin v (or_introl eq_refl)))) as A2.
    destruct (add_entry s st (BucketIDToHex id) u v MetadataSimilarPassword m) as [st2 r2]. cbn [snd] in A2.
    destruct r2 as [[]|e2|e2]; [|discriminate|exact A2]. apply IH. intros w Hw. apply Hin. right. exact Hw. }
  specialize (B vs (fun v h => h) st1). destruct (add_variants s st1 (BucketIDToHex id) u vs m) as [st2 r2]. cbn [snd] in B.
  destruct r2 as [[]|e2|e2]; [|discriminate|exact B]. destruct incl; [|discriminate]. apply A. unfold blen. cbn. lia.
Qed.

Lemma split_colon_length l u p : split_colon l = Some (u, p) -> blen l = (blen u + 1 + blen p)%Z.
Proof. intros H. apply split_colon_some in H as [-> _]. unfold blen. rewrite app_length. cbn [length]. lia. Qed.

Lemma outcomes_np metadata n incl lines store : (0 <= n)%Z -> (n * 24 <= 2 ^ 48)%Z ->
  Forall (fun l => (blen l <= 49153)%Z) lines ->
  existsb is_panic (outcomes s store (ops_of metadata n incl lines)) = false.
Proof.
  intros Hn Hm F. unfold ops_of. revert store; induction F as [|l lines Hl F IH]; intros store; [reflexivity|].
  rewrite with_colon_cons. destruct (split_colon l) as [[u p]|] eqn:E; [|apply IH].
  cbn [map outcomes existsb]. rewrite IH, orb_false_r. rewrite do_insert_op.
  apply split_colon_length in E.
  assert (blen u >= 0)%Z by (unfold blen; lia). assert (blen p >= 0)%Z by (unfold blen; lia).
  destruct (snd (demo_insert s store u p metadata n incl)) as [|?|m0] eqn:K; [reflexivity..|].
  exfalso. revert K. apply insert_np; lia.
Qed.

Lemma scan_lines_short input B ls last : Forall no_lf ls -> no_lf last -> input = text ls last ->
  (B < 65536)%Z -> Forall (fun l => (blen l <= B)%Z) (all_lines ls last) -> Forall (fun l => (blen l <= B)%Z) (scan_lines input).
Proof.
  intros F N -> HB L. unfold all_lines in L. pose proof L as L0. apply Forall_app in L as [L1 L2].
  rewrite scan_text; auto.
  - apply Forall_map. unfold all_lines. eapply Forall_impl; [|exact L0]. intros l Hl. cbn in *. pose proof (drop_cr_length l). unfold blen in *. lia.
  - eapply Forall_impl; [|exact L1]. cbn. intros; lia.
  - destruct last as [|x last]; [cbn; lia|]. inversion L2; subst. lia.
Qed.

Lemma ingest_np metadata n incl store ls last : (0 <= n)%Z -> (n * 24 <= 2 ^ 48)%Z ->
  Forall no_lf ls -> no_lf last -> Forall (fun l => (blen l <= 49153)%Z) (all_lines ls last) ->
  exists st, server_ingest s metadata n incl store (text ls last) = Ok st.
Proof.
  intros Hn Hm F N L. unfold server_ingest. apply ingest_lines_total. cbn [in_store]. apply outcomes_np; auto.
  apply (scan_lines_short _ _ ls last F N eq_refl); [lia|exact L].
Qed.

(** A variant above 65536 bytes crashes the insert. *)
Hypothesis full_ok : forall x, exists k, full_evaluate LIB (s_oprfSuite s) (s_privateKey s) x (str "MIGP oprf info") = Ok k.

Lemma derive_ok u p : (blen u <= 65536)%Z -> (blen p <= 65536)%Z -> exists k, deriveBucketEntryKey s u p = Ok k.
Proof.
  intros Hu Hp. unfold deriveBucketEntryKey. rewrite serialize_ok by assumption. cbn [bind].
  destruct (slow_ok (be16 (len16 u) ++ u ++ be16 (len16 p) ++ p)) as (h & ->). cbn [bind]. apply full_ok.
Qed.

Lemma insert_panics store u p m n incl vs v :
  (blen u <= 65536)%Z -> (blen p <= 65536)%Z -> (blen m <= 8160)%Z ->
  password_variants p n = Ok vs -> In v vs -> (65536 < blen v)%Z ->
  exists e, snd (demo_insert s store u p m n incl) = Panic e.
Proof.
  intros Hu Hp Hm V I Lv. unfold demo_insert, insert_with. destruct (bucket_ok u Hu) as (id & ->).
  unfold add_entry at 1. destruct (derive_ok u p Hu Hp) as (k & Hk).
  rewrite (EncryptBucketEntry_ok s u p MetadataBreachedPassword m k Hk eq_refl Hm). rewrite V.
  assert (B : forall vs', In v vs' -> forall st, exists e, snd (add_variants s st (BucketIDToHex id) u vs' m) = Panic e).
  { induction vs' as [|w vs' IH]; intros Hin st; [contradiction|]. cbn [add_variants]. unfold add_entry.
    destruct (Z_le_gt_dec (blen w) 65536) as [Lw|Lw].
    - destruct (derive_ok u w Hu Lw) as (kw & Hkw).
      rewrite (EncryptBucketEntry_ok s u w MetadataSimilarPassword m kw Hkw eq_refl Hm). apply IH.
      destruct Hin as [->|Hin]; [lia|exact Hin].
    - destruct (derive_long_panics u w ltac:(lia)) as (e & He). exists e. unfold EncryptBucketEntry. rewrite He. reflexivity. }
  destruct (B vs I (kv_Append store (BucketIDToHex id) (entry_bytes (make_entry k MetadataBreachedPassword m)))) as (e & He).
  destruct (add_variants s _ (BucketIDToHex id) u vs m) as [st2 r2]. cbn [snd] in He. subst r2. exists e. reflexivity.
Qed.

Lemma ingest_panics metadata n incl store u p rest vs v :
  no_lf u -> ~ In Byte.x3a u -> no_lf p -> drop_cr (u ++ Byte.x3a :: p) = u ++ Byte.x3a :: p -> (blen u + 1 + blen p < 65536)%Z ->
  (blen metadata <= 8160)%Z ->
  password_variants p n = Ok vs -> In v vs -> (65536 < blen v)%Z ->
  exists e, server_ingest s metadata n incl store ((u ++ Byte.x3a :: p) ++ Byte.x0a :: rest) = Panic e.
Proof.
  intros Nu Cu Np Cr L Hm V I Lv. unfold server_ingest, scan_lines.
  assert (blen u >= 0)%Z by (unfold blen; lia). assert (blen p >= 0)%Z by (unfold blen; lia).
  rewrite split_lf_line.
  2:{ intros K. apply in_app_or in K as [K|[K|K]]; [exact (Nu K)|discriminate|exact (Np K)]. }
  cbn [scan_complete]. rewrite (proj2 (fits_iff _)) by (unfold blen in *; rewrite app_length; cbn [length]; lia).
  apply ingest_lines_panic. cbn [in_store]. rewrite Cr. unfold ops_of. rewrite with_colon_cons.
  rewrite (proj2 (split_colon_some _ u p)) by auto. cbn [map outcomes existsb]. apply orb_true_iff. left.
  rewrite do_insert_op.
  destruct (insert_panics store u p metadata n incl vs v) as (e & ->); auto; lia.
Qed.
End NoPanic.

(** ** The client's output *)
Lemma client_lines_hidden q q' i ls ls' :
  map fst (with_colon ls) = map fst (with_colon ls') ->
  (forall j u p u' p', nth_error (with_colon ls) j = Some (u, p) -> nth_error (with_colon ls') j = Some (u', p') ->
     q (i + j)%nat u p = q' (i + j)%nat u' p') ->
  client_lines q false i ls = client_lines q' false i ls'.
Proof.
  assert (Skip : forall q i ls, client_lines q false i ls =
    (fix go i cs := match cs with
       | [] => mkClientRun [] None false
       | (u, p) :: r => match q i u p with
           | Err e => mkClientRun [] (Some e) false
           | Panic m => mkClientRun [] None true
           | Ok (status, metadata) =>
               mkClientRun (client_output u [] status metadata :: cr_stdout (go (S i) r)) (cr_error (go (S i) r)) (cr_panic (go (S i) r))
           end end) i (with_colon ls)).
  { clear. intros q i ls. revert i; induction ls as [|l ls IH]; intros i; [reflexivity|]. rewrite with_colon_cons.
    cbn [client_lines]. destruct (split_colon l) as [[u p]|]; [|apply IH]. rewrite IH. reflexivity. }
  intros E Q. rewrite !Skip. clear Skip. revert i E Q. generalize (with_colon ls) (with_colon ls'). clear.
  intros a. induction a as [|[u p] a IH]; intros [|[u' p'] b] i E Q; try discriminate; [reflexivity|].
  cbn [map fst] in E. injection E as <- E.
  pose proof (Q 0%nat u p u p' eq_refl eq_refl) as Q0. rewrite Nat.add_0_r in Q0. cbn. rewrite <- Q0.
  destruct (q i u p) as [[st md]| |]; try reflexivity.
  rewrite (IH b (S i) E); [reflexivity|]. intros j v w v' w' H1 H2.
  specialize (Q (S j) v w v' w' H1 H2). rewrite Nat.add_succ_r in Q. exact Q.
Qed.

(** ** A line that crashes ingestion: an empty username and 65534 digits. *)
(** The images of such a password start with at most three other bytes and end
    with at most one; murmur3 of them is a walk over equal blocks. *)
Definition mm_ones (h : N) : N :=
  add32 (mul32 (rotl32 (N.lxor h 1630797902) 13) 5) 0xe6546b64.
Lemma mm_ones_step h r : mm_body h (Byte.x31 :: Byte.x31 :: Byte.x31 :: Byte.x31 :: r) = mm_body (mm_ones h) r.
Proof. reflexivity. Qed.
Lemma mm_ones_run k : forall h r, mm_body h (repeat Byte.x31 (4 * k) ++ r) = mm_body (Nat.iter k mm_ones h) r.
Proof.
  induction k as [|k IH]; intros h r; [reflexivity|]. replace (4 * S k)%nat with (4 + 4 * k)%nat by lia.
  cbn [Nat.add repeat app]. rewrite mm_ones_step, IH. f_equal. clear. unfold Nat.iter.
  induction k as [|k IH]; [reflexivity|]. cbn [nat_rect]. f_equal. exact IH.
Qed.
Definition crash_blocks : nat := N.to_nat 16382.
Definition crash_image (p t : bytes) : bytes := p ++ repeat Byte.x31 (4 * crash_blocks) ++ t.
Definition crash_key (st : N) (n : N) (t : bytes) : N :=
  let (h, t') := mm_body st t in mm_fmix (N.lxor (mm_tail h t') (w32 n)).
Lemma crash_image_key p h st t n : (forall r, mm_body 0%N (p ++ r) = mm_body h r) -> N.iter 16382 mm_ones h = st ->
  n = (N.of_nat (length p) + 65528 + N.of_nat (length t))%N ->
  murmur3_sum32 (crash_image p t) = crash_key st n t.
Proof.
  intros H <- ->. unfold murmur3_sum32, crash_image, crash_key. rewrite H, mm_ones_run, N2Nat.inj_iter. fold crash_blocks.
  destruct (mm_body _ t) as [h' t']. f_equal. f_equal. f_equal. rewrite !app_length, repeat_length. unfold crash_blocks. lia.
Qed.
Lemma walk_1 : N.iter 16382 mm_ones 0%N = 151113093%N. Proof. vm_cast_no_check (eq_refl 151113093%N). Qed.
Lemma walk_0111 : N.iter 16382 mm_ones 369831629%N = 3862491377%N. Proof. vm_cast_no_check (eq_refl 3862491377%N). Qed.
Lemma walk_a111 : N.iter 16382 mm_ones 3814388878%N = 215232500%N. Proof. vm_cast_no_check (eq_refl 215232500%N). Qed.
Lemma walk_5111 : N.iter 16382 mm_ones 2557349432%N = 3765912825%N. Proof. vm_cast_no_check (eq_refl 3765912825%N). Qed.
Lemma walk_1231 : N.iter 16382 mm_ones 2413603628%N = 3904580984%N. Proof. vm_cast_no_check (eq_refl 3904580984%N). Qed.

Lemma crash_pw_image : crash_pw = crash_image [] (str "111111").
Proof.
  assert (E : N.to_nat 65534 = (4 * crash_blocks + 6)%nat) by (unfold crash_blocks; lia).
  unfold crash_pw, crash_image. rewrite E. cbn [app]. change (str "111111") with (repeat Byte.x31 6). apply repeat_app.
Qed.
Lemma ones_split m j : m = (4 * crash_blocks + j)%nat -> repeat Byte.x31 m = crash_image [] (repeat Byte.x31 j).
Proof. intros ->. unfold crash_image. cbn [app]. apply repeat_app. Qed.
Lemma firstn_ones m n : (m <= n)%nat -> firstn m (repeat Byte.x31 n) = repeat Byte.x31 m.
Proof. revert n. induction m as [|m IH]; intros [|n] H; [reflexivity..|lia|]. cbn. f_equal. apply IH. lia. Qed.
Lemma skipn_ones m n : skipn m (repeat Byte.x31 n) = repeat Byte.x31 (n - m).
Proof. revert n. induction m as [|m IH]; intros [|n]; [reflexivity..|]. apply IH. Qed.
Lemma crash_len : blen crash_pw = 65534%Z.
Proof. unfold crash_pw. rewrite blen_repeat. lia. Qed.
Lemma crash_cap : changeCap crash_pw 0 = crash_pw.
Proof.
  unfold changeCap. rewrite crash_len. cbn [Z.ltb Z.compare Z.leb andb Z.to_nat]. rewrite crash_pw_image. unfold crash_image.
  replace (4 * crash_blocks)%nat with (S (4 * crash_blocks - 1)) by (unfold crash_blocks; lia). cbn [app repeat nth]. reflexivity.
Qed.
Lemma crash_cut z k j : z = (- k)%Z -> (1 <= k <= 3)%Z -> (j = 6 - Z.to_nat k)%nat -> deletePortion crash_pw z = crash_image [] (repeat Byte.x31 j).
Proof.
  intros -> K ->. unfold deletePortion. rewrite crash_len.
  replace (0 <=? - k)%Z with false by lia. replace (- k <? 0)%Z with true by lia. replace (0 <=? 65534 + - k)%Z with true by lia. cbn [andb].
  unfold crash_pw. rewrite firstn_ones by lia. apply ones_split. unfold crash_blocks. lia.
Qed.
Lemma crash_cut_front : deletePortion crash_pw 1 = crash_image [] (repeat Byte.x31 5).
Proof.
  unfold deletePortion. rewrite crash_len. cbn [Z.leb Z.compare andb]. unfold crash_pw. rewrite skipn_ones. apply ones_split. unfold crash_blocks. lia.
Qed.
Lemma crash_front x : insert crash_pw 0 x = x ++ crash_pw.
Proof. unfold insert. rewrite crash_len. reflexivity. Qed.
Lemma crash_back x : insert crash_pw (-1) x = crash_pw ++ x.
Proof.
  unfold insert. rewrite crash_len. cbn [Z.eqb andb Z.ltb Z.compare Z.add Z.pos_sub Z.leb].
  change (Z.to_nat (-1 + 65534 + 1)) with (N.to_nat 65534). unfold crash_pw. rewrite firstn_ones, skipn_ones by lia.
  rewrite Nat.sub_diag. cbn [repeat]. rewrite app_nil_r. reflexivity.
Qed.
Lemma crash_back_image x : crash_pw ++ x = crash_image [] (str "111111" ++ x).
Proof. rewrite crash_pw_image. unfold crash_image. cbn [app]. rewrite <- app_assoc. reflexivity. Qed.
Lemma crash_front_image x k j : repeat Byte.x31 k ++ repeat Byte.x31 j = str "111111" -> x ++ crash_pw = crash_image (x ++ repeat Byte.x31 k) (repeat Byte.x31 j).
Proof.
  intros E. rewrite crash_pw_image. unfold crash_image. cbn [app]. rewrite <- app_assoc. f_equal. rewrite <- E, !app_assoc. f_equal.
  rewrite <- !repeat_app. f_equal. lia.
Qed.

Lemma crash_front_1 : str "1" ++ crash_pw = crash_image [] (repeat Byte.x31 7).
Proof. change (str "1" ++ crash_pw) with (repeat Byte.x31 (S (N.to_nat 65534))). apply ones_split. unfold crash_blocks. lia. Qed.
Lemma picks_skip rule rest pw room seen vs s k : apply_rule rule pw = Ok s -> murmur3_sum32 s = k -> seenb k seen = true ->
  picks (rule :: rest) pw (S room) seen = Ok vs -> picks rest pw (S room) seen = Ok vs.
Proof. intros A <- B. cbn [picks]. rewrite A. cbn [bind]. rewrite B. auto. Qed.
Lemma picks_take rule rest pw room seen vs s k : apply_rule rule pw = Ok s -> murmur3_sum32 s = k -> seenb k seen = false ->
  picks (rule :: rest) pw (S room) seen = Ok vs -> exists ws, vs = s :: ws /\ picks rest pw room (k :: seen) = Ok ws.
Proof.
  intros A <- B. cbn [picks]. rewrite A. cbn [bind]. rewrite B. intros H. apply bind_ok in H as (ws & W & E). apply Ok_inj in E. subst vs. eauto.
Qed.
Lemma crash_key_1 t n k : n = (65528 + N.of_nat (length t))%N -> crash_key 151113093 n t = k -> murmur3_sum32 (crash_image [] t) = k.
Proof. intros E <-. apply (crash_image_key [] 0 _ t n (fun r => eq_refl) walk_1). rewrite E. reflexivity. Qed.

Lemma crash_key_123 : murmur3_sum32 (str "123" ++ crash_pw) = crash_key 3904580984 65537 (repeat Byte.x31 5).
Proof.
  rewrite (crash_front_image (str "123") 1 5 eq_refl). change (str "123" ++ repeat Byte.x31 1) with (str "1231").
  apply (crash_image_key (str "1231") 2413603628 3904580984 (repeat Byte.x31 5) 65537 (fun r => eq_refl) walk_1231). reflexivity.
Qed.
Local Transparent shipped.
Definition shipped_tail : list RDasRule := Eval vm_compute in skipn 13 shipped.
Lemma shipped_head : shipped =
  let ins p x := mkRule (str "i") p (str x) [] in let del p := mkRule (str "d") p [] [] in
  [mkRule (str "c") 0 [] []; del (-1)%Z; del (-2)%Z; del (-3)%Z; ins (-1)%Z "0"%string; ins 0%Z "1"%string; ins (-1)%Z "a"%string; ins (-1)%Z "q"%string;
   ins 0%Z "0"%string; del 1%Z; ins 0%Z "a"%string; ins 0%Z "5"%string; ins 0%Z "123"%string] ++ shipped_tail.
Proof. reflexivity. Qed.
Local Opaque shipped.
Opaque crash_pw crash_blocks crash_image.
Lemma crash_variant : exists vs v, password_variants crash_pw 11 = Ok vs /\ In v vs /\ (65536 < blen v)%Z.
Proof.
  rewrite variants_shipped. destruct (Mutate_total shipped crash_pw 11 shipped_nonempty shipped_known) as (vs & V); [lia..|].
  exists vs, (str "123" ++ crash_pw). split; [exact V|]. split; [|pose proof crash_len as L; unfold blen in *; rewrite app_length; change (length (str "123")) with 3%nat; lia].
  apply Mutate_inv in V as (_ & _ & P). change (Z.to_nat 11) with 11%nat in P.
  rewrite crash_pw_image in P at 2. rewrite (crash_key_1 (str "111111") 65534 _ eq_refl eq_refl) in P. rewrite shipped_head in P. cbn [app] in P. set (rest := shipped_tail) in P. clearbody rest.
  assert (E0 : murmur3_sum32 crash_pw = crash_key 151113093 65534 (str "111111")) by (rewrite crash_pw_image; apply (crash_key_1 _ 65534); reflexivity).
  eapply picks_skip in P; [|rewrite apply_c, crash_cap; reflexivity|exact E0|vm_compute; reflexivity].
  eapply picks_take in P as (? & -> & P); [|rewrite apply_d, (crash_cut (-1) 1 5) by lia; reflexivity|apply (crash_key_1 _ 65533); reflexivity|vm_compute; reflexivity].
  eapply picks_take in P as (? & -> & P); [|rewrite apply_d, (crash_cut (-2) 2 4) by lia; reflexivity|apply (crash_key_1 _ 65532); reflexivity|vm_compute; reflexivity].
  eapply picks_take in P as (? & -> & P); [|rewrite apply_d, (crash_cut (-3) 3 3) by lia; reflexivity|apply (crash_key_1 _ 65531); reflexivity|vm_compute; reflexivity].
  eapply picks_take in P as (? & -> & P); [|rewrite apply_i, crash_back, crash_back_image; reflexivity|apply (crash_key_1 _ 65535); reflexivity|vm_compute; reflexivity].
  eapply picks_take in P as (? & -> & P); [|rewrite apply_i, crash_front; reflexivity| |].
  2:{ rewrite crash_front_1. apply (crash_key_1 _ 65535); reflexivity. }
  2:{ vm_compute; reflexivity. }
  eapply picks_take in P as (? & -> & P); [|rewrite apply_i, crash_back, crash_back_image; reflexivity|apply (crash_key_1 _ 65535); reflexivity|vm_compute; reflexivity].
  eapply picks_take in P as (? & -> & P); [|rewrite apply_i, crash_back, crash_back_image; reflexivity|apply (crash_key_1 _ 65535); reflexivity|vm_compute; reflexivity].
  eapply picks_take in P as (? & -> & P); [|rewrite apply_i, crash_front, (crash_front_image _ 3 3 eq_refl); reflexivity
    |apply (crash_image_key (str "0111") 369831629 _ _ 65535 (fun r => eq_refl) walk_0111); reflexivity|vm_compute; reflexivity].
  eapply picks_skip in P; [|rewrite apply_d, crash_cut_front; reflexivity|apply (crash_key_1 _ 65533); reflexivity|vm_compute; reflexivity].
  eapply picks_take in P as (? & -> & P); [|rewrite apply_i, crash_front, (crash_front_image _ 3 3 eq_refl); reflexivity
    |apply (crash_image_key (str "a111") 3814388878 _ _ 65535 (fun r => eq_refl) walk_a111); reflexivity|vm_compute; reflexivity].
  eapply picks_take in P as (? & -> & P); [|rewrite apply_i, crash_front, (crash_front_image _ 3 3 eq_refl); reflexivity
    |apply (crash_image_key (str "5111") 2557349432 _ _ 65535 (fun r => eq_refl) walk_5111); reflexivity|vm_compute; reflexivity].
  eapply picks_take in P as (? & -> & P); [|rewrite apply_i, crash_front; reflexivity
    |exact crash_key_123|vm_compute; reflexivity].
  do 10 right. left. reflexivity.
Qed.

Lemma crash_variant_more n : (11 <= n)%Z -> (n * 24 <= 2 ^ 48)%Z ->
  exists vs v, password_variants crash_pw n = Ok vs /\ In v vs /\ (65536 < blen v)%Z.
Proof.
  intros Hn Hm. destruct crash_variant as (vs & v & V & I & L).
  destruct (variants_total crash_pw n) as (ws & W); [lia..|]. exists ws, v. split; [exact W|]. split; [|exact L].
  rewrite variants_shipped in V, W. destruct (mutate_prefix _ _ _ _ _ _ Hn V W) as (t & ->). apply in_or_app. auto.
Qed.

Transparent crash_pw.
Lemma crash_pw_length : blen crash_pw = 65534%Z.
Proof. unfold crash_pw. rewrite blen_repeat. lia. Qed.
Lemma crash_pw_chars x : In x crash_pw -> x = Byte.x31.
Proof. unfold crash_pw. intros I. apply repeat_spec in I. exact I. Qed.

Global Opaque crash_pw.

Lemma ingest_crash LIB (s : Server LIB) cfg : NewServer cfg = Ok s -> (0 <= cfg_bits (sc_config cfg) <= 32)%Z ->
  (forall x, exists k, full_evaluate LIB (s_oprfSuite s) (s_privateKey s) x (str "MIGP oprf info") = Ok k) ->
  forall metadata n incl store rest, (11 <= n)%Z -> (n * 24 <= 2 ^ 48)%Z -> (blen metadata <= 8160)%Z ->
  exists e, server_ingest s metadata n incl store ((Byte.x3a :: crash_pw) ++ Byte.x0a :: rest) = Panic e.
Proof.
  intros Hs Hb Hf metadata n incl store rest Hn Hm HM. destruct (crash_variant_more n Hn Hm) as (vs & v & V & I & L).
  assert (Hnp : forall x m, full_evaluate LIB (s_oprfSuite s) (s_privateKey s) x (str "MIGP oprf info") <> Panic m).
  { intros x m. destruct (Hf x) as (k & ->). discriminate. }
  apply (ingest_panics LIB s cfg Hs Hb Hnp Hf metadata n incl store [] crash_pw rest vs v).
  - intros [].
  - intros [].
  - intros K. apply crash_pw_chars in K. discriminate.
  - cbn [app]. destruct (drop_cr_spec (Byte.x3a :: crash_pw)) as [E|[E _]]; [|symmetry; exact E].
    exfalso. assert (J : In Byte.x0d (Byte.x3a :: crash_pw)) by (rewrite E; apply in_or_app; right; left; reflexivity).
    destruct J as [J|J]; [discriminate|]. apply crash_pw_chars in J. discriminate.
  - rewrite crash_pw_length. unfold blen. cbn [length]. lia.
  - exact HM.
  - exact V.
  - exact I.
  - exact L.
Qed.

(** The rule behind the bound 49152. *)
Lemma wsx_growth : blen wsx_pw = 49153%Z /\ exists rule v, In rule shipped /\ apply_rule rule wsx_pw = Ok v /\ blen v = 65537%Z.
Proof.
  split; [vm_compute; reflexivity|].
  assert (C : match nth_error shipped 312 with
              | Some rule => match apply_rule rule wsx_pw with Ok v => (blen v =? 65537)%Z | _ => false end
              | None => false end = true) by (vm_cast_no_check (eq_refl true)).
  destruct (nth_error shipped 312) as [rule|] eqn:N; [|discriminate].
  destruct (apply_rule rule wsx_pw) as [v| |] eqn:A; try discriminate.
  exists rule, v. split; [exact (nth_error_In _ _ N)|]. split; [exact A|]. apply Z.eqb_eq, C.
Qed.

(** ** Forms used in the property file *)
Lemma ingest_line_colon LIB (s : Server LIB) metadata n incl st u p : ~ In Byte.x3a u ->
  ingest_line s metadata n incl st (u ++ Byte.x3a :: p)
  = match demo_insert s (in_store st) u p metadata n incl with
    | (_, Panic m) => Panic m
    | (store, Err _) => Ok (mkIngest store (in_success st) (in_failure st + 1))
    | (store, Ok _) => Ok (mkIngest store (in_success st + 1) (in_failure st))
    end.
Proof. intros N. unfold ingest_line. rewrite (proj2 (split_colon_some _ u p)) by auto. reflexivity. Qed.

Lemma ingest_line_no_colon LIB (s : Server LIB) metadata n incl st l : ~ In Byte.x3a l ->
  ingest_line s metadata n incl st l = Ok (mkIngest (in_store st) (in_success st) (in_failure st + 1)).
Proof. intros N. unfold ingest_line. rewrite (proj2 (split_colon_none l) N). reflexivity. Qed.

Lemma client_lines_colon query show lines :
  client_lines query show 0 lines = client_lines query show 0 (map (fun c => fst c ++ Byte.x3a :: snd c) (with_colon lines)).
Proof.
  generalize 0%nat. induction lines as [|l lines IH]; intros i; [reflexivity|]. rewrite with_colon_cons.
  cbn [client_lines]. destruct (split_colon l) as [[u p]|] eqn:E; [|apply IH].
  cbn [map client_lines fst snd]. rewrite (proj2 (split_colon_some _ u p)) by (apply split_colon_some in E; split; [reflexivity|tauto]).
  rewrite IH. reflexivity.
Qed.

Lemma scan_text_strip ls last : Forall no_lf ls -> no_lf last ->
  Forall (fun l => (blen l < 65536)%Z) ls -> (blen last < 65536)%Z ->
  Forall2 strip_cr (all_lines ls last) (scan_lines (text ls last)).
Proof.
  intros F N L L'. rewrite scan_text by assumption. generalize (all_lines ls last). intros l.
  induction l as [|x l IH]; [constructor|]. constructor; [apply drop_cr_spec|exact IH].
Qed.

Lemma ingest_counts LIB metadata n incl (s : Server LIB) store ls last st :
  Forall no_lf ls -> no_lf last -> Forall (fun l => (blen l < 65536)%Z) ls -> (blen last < 65536)%Z ->
  server_ingest s metadata n incl store (text ls last) = Ok st ->
  let ops := map (fun c => mkOp (fst c) (snd c) metadata n incl) (with_colon (scan_lines (text ls last))) in
  (in_success st + in_failure st = N.of_nat (length (all_lines ls last)))%N
  /\ in_store st = run_inserts s store ops
  /\ in_success st = N.of_nat (length (filter is_ok (outcomes s store ops)))
  /\ existsb is_panic (outcomes s store ops) = false.
Proof.
  intros F N L L' H. cbv zeta. apply server_ingest_spec in H as (A & B & C & D).
  split; [rewrite C, scan_text, map_length by assumption; reflexivity|]. split; [exact A|]. split; [exact B|exact D].
Qed.

Lemma ingest_overlong LIB metadata n incl (s : Server LIB) store ls long rest :
  Forall no_lf ls -> Forall (fun l => (blen l < 65536)%Z) ls -> no_lf long -> (65536 <= blen long)%Z ->
  server_ingest s metadata n incl store (text ls (long ++ rest)) = server_ingest s metadata n incl store (text ls []).
Proof.
  intros F L N G. unfold server_ingest. rewrite scan_overlong by assumption.
  rewrite scan_text; [|exact F|intros []|exact L|cbn; lia]. unfold all_lines. rewrite app_nil_r. reflexivity.
Qed.
