(** * How many variants there are. *)
From Coq Require Import Lia ZArith.
From Verif Require Import Base BaseProofs Murmur3 Common Oprf Server Client KV Mutator ConfigJson Demo SpecEntry SpecProtocol SpecDemo SpecMutator SpecVariants
  MutatorProofs MurmurProofs EncryptorProofs DemoProofs.

(** The two-byte strings that shipped rules put in front of a password. *)
Definition front2b (r : RDasRule) : bool := bytes_eqb (RuleType r) (str "i") && (Position r =? 0)%Z && Nat.eqb (length (String1 r)) 2.
Definition front2 : list bytes := map String1 (filter front2b shipped).
Fixpoint nodupb (l : list bytes) : bool := match l with [] => true | x :: r => negb (existsb (bytes_eqb x) r) && nodupb r end.
Lemma nodupb_ok l : nodupb l = true -> NoDup l.
Proof.
  induction l as [|x l IH]; intros H; [constructor|]. cbn [nodupb] in H. apply andb_true_iff in H as [A B]. constructor; [|apply IH; exact B].
  intros I0. assert (E : existsb (bytes_eqb x) l = true) by (apply existsb_exists; exists x; split; [exact I0|apply bytes_eqb_eq; reflexivity]).
  rewrite E in A. discriminate.
Qed.
Lemma front2_length : length front2 = 99%nat.
Proof. vm_compute. reflexivity. Qed.
Lemma front2_nodup : NoDup front2.
Proof. apply nodupb_ok. vm_compute. reflexivity. Qed.
Lemma front2_rule x : In x front2 -> length x = 2%nat /\ exists r, In r shipped /\ forall pw, apply_rule r pw = Ok (x ++ pw).
Proof.
  intros I0. apply in_map_iff in I0 as (r & E & I0). apply filter_In in I0 as [I0 B]. unfold front2b in B. rewrite !andb_true_iff in B.
  destruct B as [[B1 B2] B3]. apply bytes_eqb_eq in B1. apply Z.eqb_eq in B2. apply Nat.eqb_eq in B3. rewrite E in B3. split; [exact B3|].
  exists r. split; [exact I0|]. intros pw. destruct r as [ty pos a b]. cbn [RuleType Position String1] in *. subst ty pos a.
  rewrite apply_i. pose proof (insert_in pw 0 x) as A. unfold resolve_gap in A. change (0 <? 0)%Z with false in A. cbv iota in A.
  destruct A as (u & v & E1 & E2 & E3); [split; [apply Z.le_refl|unfold blen; lia]|]. rewrite E3. unfold blen in E2.
  destruct u as [|c u]; [|cbn [length] in E2; lia]. cbn [app] in E1. rewrite E1. reflexivity.
Qed.
Lemma NoDup_map_in {A B} (f : A -> B) l : (forall x y, In x l -> In y l -> f x = f y -> x = y) -> NoDup l -> NoDup (map f l).
Proof.
  intros I0 N. induction N as [|x l Hx N IH]; [constructor|]. cbn [map]. constructor.
  - intros H. apply in_map_iff in H as (y & E & Hy). apply Hx. rewrite <- (I0 y x); [exact Hy|right; exact Hy|left; reflexivity|exact E].
  - apply IH. intros a b Ha Hb. apply I0; right; assumption.
Qed.
Lemma many pw n vs : Mutate shipped pw n = Ok vs -> (Z.of_nat (length vs) < n)%Z -> (98 <= length vs)%nat.
Proof.
  intros H L. set (f := fun x : bytes => murmur3_sum32 (x ++ pw)).
  assert (N : NoDup (map f front2)).
  { apply NoDup_map_in; [|exact front2_nodup]. intros x y Hx Hy E. apply front2_rule in Hx as [Lx _], Hy as [Ly _].
    apply (one_block [] x y pw); [reflexivity|lia|lia|exact E]. }
  assert (I0 : incl (map f front2) (map murmur3_sum32 (pw :: vs))).
  { intros h Hh. apply in_map_iff in Hh as (x & <- & Hx). apply front2_rule in Hx as [_ (r & Hr & Ar)].
    destruct (mutate_complete _ _ _ _ H L r _ Hr (Ar pw)) as [K|[K|(s' & K & _ & E)]].
    - unfold f. apply in_map. right. exact K.
    - unfold f. rewrite K. apply in_map. left. reflexivity.
    - unfold f. rewrite <- E. apply in_map. destruct K as [->|K]; [left; reflexivity|right; exact K]. }
  pose proof (NoDup_incl_length N I0) as Le. pose proof (map_length f front2) as M1. pose proof front2_length as M2. pose proof (map_length murmur3_sum32 (pw :: vs)) as M3. cbn [length] in M3. lia.
Qed.

Lemma F2_length {A B} (R : A -> B -> Prop) l l' : Forall2 R l l' -> length l = length l'.
Proof. induction 1; cbn [length]; auto. Qed.
Lemma variants_count pw n : (0 <= n)%Z -> (n * 24 <= 2 ^ 48)%Z ->
  exists vs, password_variants pw n = Ok vs /\ (Z.min n 98 <= Z.of_nat (length vs) <= Z.min n 323)%Z.
Proof.
  intros Hn Hb. destruct (variants_total pw n Hn Hb) as [vs H]. exists vs. split; [exact H|]. rewrite variants_shipped in H.
  destruct (mutate_sound _ _ _ _ H) as (U & _ & _ & S & _).
  assert (B : (length vs <= 323)%nat).
  { assert (X : exists imgs, Forall2 (fun rule s => apply_rule rule pw = Ok s) shipped imgs).
    { pose proof shipped_known as K. clear -K. induction K as [|r l Hr K IH]; [exists []; constructor|]. destruct IH as [imgs IH].
      destruct (apply_known r pw Hr) as [s Hs]. exists (s :: imgs). constructor; assumption. }
    destruct X as [imgs X]. specialize (S imgs X). apply F2_length in X. rewrite shipped_length in X. rewrite X.
    clear -S. induction S; cbn [length]; lia. }
  split; [|lia]. destruct (Z.lt_ge_cases (Z.of_nat (length vs)) n) as [L|L]; [|lia]. pose proof (many _ _ _ H L). lia.
Qed.
Lemma variants_exact pw n : (0 <= n <= 98)%Z -> exists vs, password_variants pw n = Ok vs /\ Z.of_nat (length vs) = n.
Proof. intros Hn. destruct (variants_count pw n) as (vs & H & A); [lia|lia|]. exists vs. split; [exact H|lia]. Qed.

(** ** Bucket sizes *)
Lemma bucket_size (m : bytes) es : Forall (fun e => length (entry_bytes e) = (25 + length m)%nat) es ->
  length (bucket_bytes es) = (length es * (25 + length m))%nat.
Proof. induction 1 as [|e es H F IH]; [reflexivity|]. unfold bucket_bytes. cbn [flat_map length]. rewrite app_length, H. fold (bucket_bytes es). rewrite IH. lia. Qed.
Lemma insert_size {LIB} (s : Server LIB) store u p m n incl store' id :
  demo_insert s store u p m n incl = (store', Ok tt) -> Server_BucketID s u = Ok id -> (0 <= n <= 98)%Z ->
  length (sl (kv_lookup store' (BucketIDToHex id)))
  = (length (sl (kv_lookup store (BucketIDToHex id))) + (1 + Z.to_nat n + if incl then 1 else 0) * (25 + length m))%nat.
Proof.
  intros H Hid Hn.
  assert (M : (blen m <= 8160)%Z).
  { destruct (Z.le_gt_cases (blen m) 8160) as [L|L]; [exact L|]. destruct (insert_long_metadata _ s store u p m n incl ltac:(lia)) as [_ K].
    rewrite H in K. contradiction K. reflexivity. }
  destruct (insert_appends _ _ _ _ _ _ _ _ _ _ _ H Hid) as (vs & done & rest & es & E & F & _ & S & R).
  destruct (R eq_refl) as [-> V]. rewrite app_nil_r in E. destruct (variants_exact p n Hn) as (vs' & V' & L). rewrite V in V'. apply Ok_inj in V'. subst vs'.
  rewrite S, app_length. f_equal. rewrite (bucket_size m).
  - f_equal. rewrite <- (F2_length _ _ _ F), <- E. unfold insert_creds. cbn [length]. rewrite app_length, map_length. destruct incl; cbn [length]; lia.
  - assert (A : Forall (fun d => d_meta d = m) done).
    { rewrite <- E. unfold insert_creds. constructor; [reflexivity|]. apply Forall_app. split.
      - apply Forall_forall. intros d Hd. apply in_map_iff in Hd as (v & <- & _). reflexivity.
      - destruct incl; repeat constructor. }
    clear -F A M. induction F as [|d e l l' Hd F IH]; [constructor|]. inversion A as [|? ? Ad A']; subst. constructor; [|apply IH; assumption].
    destruct Hd as (k & _ & ->). unfold blen in M. rewrite entry_bytes_length; [f_equal|].
    + unfold make_entry. cbn [e_body]. apply xor_length. symmetry. apply body_mask_length. lia.
    + apply (make_entry_ok k (d_flag d) (d_meta d)). unfold blen. lia.
Qed.

Lemma inserts_size {LIB} (s : Server LIB) key n incl (m : bytes) : (0 <= n <= 98)%Z -> forall ops store,
  Forall (fun o => o_num o = n /\ o_incl o = incl /\ o_meta o = m) ops -> Forall (fun r => r = Ok tt) (outcomes s store ops) ->
  length (sl (kv_lookup (run_inserts s store ops) key))
  = (length (sl (kv_lookup store key)) + length (filter (in_bucketb s key) ops) * ((1 + Z.to_nat n + if incl then 1 else 0) * (25 + length m)))%nat.
Proof.
  intros Hn. induction ops as [|o ops IH]; intros store F O; [cbn [run_inserts filter length]; lia|].
  inversion F as [|? ? (E1 & E2 & E3) F']; subst. cbn [outcomes] in O. inversion O as [|? ? O1 O2]; subst.
  cbn [run_inserts]. rewrite (IH _ F' O2). cbn [filter].
  destruct (do_insert s store o) as [store' r] eqn:D. cbn [fst snd] in *. subst r. unfold do_insert in D.
  unfold in_bucketb at 2. destruct (Server_BucketID s (o_user o)) as [id|e|e] eqn:B.
  - destruct (bytes_eqb (BucketIDToHex id) key) eqn:K.
    + apply bytes_eqb_eq in K. subst key. rewrite (insert_size _ _ _ _ _ _ _ _ _ D B Hn). cbn [length]. lia.
    + rewrite (insert_frame _ _ _ _ _ _ _ _ _ _ key D); [reflexivity|]. intros id' B' ->. rewrite B in B'. apply Ok_inj in B'. subst id'.
      assert (T : bytes_eqb (BucketIDToHex id) (BucketIDToHex id) = true) by (apply bytes_eqb_eq; reflexivity). rewrite T in K. discriminate.
  - rewrite (insert_frame _ _ _ _ _ _ _ _ _ _ key D); [reflexivity|]. intros id' B'. rewrite B in B'. discriminate.
  - rewrite (insert_frame _ _ _ _ _ _ _ _ _ _ key D); [reflexivity|]. intros id' B'. rewrite B in B'. discriminate.
Qed.
