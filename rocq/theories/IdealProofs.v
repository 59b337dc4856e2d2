(** Proofs for C72. *)
From Coq Require Import Lia.
From Verif Require Import Base BaseProofs LibProofs Sha256 Hkdf Common CommonProofs Hasher Encryptor EncryptorProofs Oprf Server Client KV
  SpecEntry SpecProtocol Ideal SpecIdeal.

(** ** With HKDF's streams the functions are those of the model *)
Lemma hkdf_blocks_app n m prk info prev ctr : exists rest, hkdf_blocks (n + m) prk info prev ctr = hkdf_blocks n prk info prev ctr ++ rest.
Proof.
  revert prev ctr. induction n as [|n IH]; intros prev ctr; [eexists; reflexivity|]. cbn [Nat.add hkdf_blocks]. cbv zeta.
  destruct (IH (hmac_sha256 prk (prev ++ info ++ [nB ctr])) (ctr + 1)%N) as [rest ->]. exists rest. rewrite app_assoc. reflexivity.
Qed.
Lemma map_nth_seq (l : bytes) n : (n <= length l)%nat -> map (fun i => nth i l Byte.x00) (seq 0 n) = firstn n l.
Proof.
  revert n. induction l as [|x l IH]; intros [|n] L; cbn [length] in L; try lia; [reflexivity..|].
  cbn [seq map firstn nth]. f_equal. rewrite <- seq_shift, map_map. apply IH. lia.
Qed.
Lemma derivePad_same secret salt n : derivePad_o hkdf_streams secret salt n = derivePad secret salt n.
Proof.
  unfold derivePad_o, derivePad, hkdf_read. destruct (N.ltb_spec hkdf_limit (N.of_nat n)) as [L|L]; [reflexivity|]. cbn [bind]. cbv zeta.
  assert (B : (Nat.div (n + 31) 32 <= 255)%nat).
  { unfold hkdf_limit in L. apply Nat.lt_succ_r. apply Nat.div_lt_upper_bound; lia. }
  assert (N : (n <= 32 * Nat.div (n + 31) 32)%nat).
  { pose proof (Nat.div_mod (n + 31) 32 ltac:(lia)) as D. pose proof (Nat.mod_upper_bound (n + 31) 32 ltac:(lia)). lia. }
  set (blocks := hkdf_blocks (Nat.div (n + 31) 32) (hkdf_extract secret salt) [] [] 1).
  assert (E : length (firstn n blocks) = n) by (rewrite firstn_length; unfold blocks; rewrite hkdf_blocks_length; lia).
  rewrite E, Nat.eqb_refl. f_equal. unfold hkdf_streams. rewrite map_nth_seq.
  - replace 255%nat with (Nat.div (n + 31) 32 + (255 - Nat.div (n + 31) 32))%nat by lia.
    destruct (hkdf_blocks_app (Nat.div (n + 31) 32) (255 - Nat.div (n + 31) 32) (hkdf_extract secret salt) [] [] 1) as [rest ->].
    rewrite firstn_app. fold blocks. replace (n - length blocks)%nat with 0%nat by (unfold blocks; rewrite hkdf_blocks_length; lia).
    cbn [firstn]. apply app_nil_r.
  - rewrite hkdf_blocks_length. unfold hkdf_limit in L. lia.
Qed.
Lemma Encrypt_same e secret flag body : Encrypt_o hkdf_streams secret flag body = Encrypt e secret flag body.
Proof. unfold Encrypt_o, Encrypt. rewrite !derivePad_same. reflexivity. Qed.
Lemma DecryptHeader_same iw e secret c : DecryptHeader_o hkdf_streams iw secret c = DecryptHeader iw e secret c.
Proof. unfold DecryptHeader_o, DecryptHeader. rewrite derivePad_same. reflexivity. Qed.
Lemma DecryptBody_same e secret c : DecryptBody_o hkdf_streams secret c = DecryptBody e secret c.
Proof. unfold DecryptBody_o, DecryptBody. rewrite derivePad_same. reflexivity. Qed.
Lemma finalize_loop_same iw e secret c : forall fuel o, finalize_loop_o hkdf_streams iw fuel secret c o = finalize_loop iw fuel e secret c o.
Proof.
  induction fuel as [|fuel IH]; intros o; [reflexivity|]. cbn [finalize_loop_o finalize_loop]. destruct (_ <? _)%Z; [reflexivity|].
  destruct (slice_from c o) as [tl|m|m]; cbn [bind]; [|reflexivity..]. rewrite (DecryptHeader_same iw e).
  destruct (DecryptHeader iw e secret tl) as [[[v f] l]|m|m]; [|reflexivity..]. cbv zeta. destruct (_ <? _)%Z; [reflexivity|].
  destruct v; [|apply IH]. destruct (slice _ _ _); cbn [bind]; [|reflexivity..]. rewrite (DecryptBody_same e). reflexivity.
Qed.
Lemma Finalize_same {LIB} (ctx : ClientRequestContext LIB) r : Finalize_o hkdf_streams ctx r = Finalize ctx r.
Proof.
  unfold Finalize_o, Finalize, Finalize_fuel. destruct (finalize_secret ctx r); [|reflexivity..]. rewrite (finalize_loop_same 64 (c_bucketEncryptor (ctx_client ctx))). reflexivity.
Qed.
Lemma EncryptBucketEntry_same {LIB} (s : Server LIB) u p f m : EncryptBucketEntry_o hkdf_streams s u p f m = EncryptBucketEntry s u p f m.
Proof.
  unfold EncryptBucketEntry_o, EncryptBucketEntry. destruct (negb _); [reflexivity|]. destruct (deriveBucketEntryKey s u p); [|reflexivity..].
  cbn [bind]. apply Encrypt_same.
Qed.
Lemma store_all_same {LIB} (s : Server LIB) : forall db kv, store_all_o hkdf_streams s kv db = store_all s kv db.
Proof.
  induction db as [|d db IH]; intros kv; [reflexivity|]. cbn [store_all_o store_all]. destruct (Server_BucketID s (d_user d)); [|reflexivity..].
  cbn [bind]. rewrite EncryptBucketEntry_same. destruct (EncryptBucketEntry _ _ _ _ _); [|reflexivity..]. apply IH.
Qed.
Lemma run_query_same {LIB} c (s : Server LIB) kv u p r : run_query_o hkdf_streams c s kv u p r = run_query c s kv u p r.
Proof.
  unfold run_query_o, run_query. destruct (Request c u p r) as [[rq ctx]|m|m]; [|reflexivity..]. destruct (HandleRequest s rq kv); [|reflexivity..].
  apply Finalize_same.
Qed.

(** ** What depends on which streams *)
Lemma derivePad_local O O' x salt n : (forall salt i, O x salt i = O' x salt i) -> derivePad_o O x salt n = derivePad_o O' x salt n.
Proof. intros H. unfold derivePad_o. destruct (_ <? _)%N; [reflexivity|]. f_equal. apply map_ext. intros i. apply H. Qed.
Lemma finalize_loop_local O O' iw x c : (forall salt i, O x salt i = O' x salt i) -> forall fuel o, finalize_loop_o O iw fuel x c o = finalize_loop_o O' iw fuel x c o.
Proof.
  intros H. induction fuel as [|fuel IH]; intros o; [reflexivity|]. cbn [finalize_loop_o]. destruct (_ <? _)%Z; [reflexivity|].
  destruct (slice_from c o) as [tl|m|m]; cbn [bind]; [|reflexivity..]. unfold DecryptHeader_o at 1. rewrite (derivePad_local O O') by exact H.
  fold (DecryptHeader_o O' iw x tl). destruct (DecryptHeader_o O' iw x tl) as [[[v f] l]|m|m]; [|reflexivity..]. cbv zeta.
  destruct (_ <? _)%Z; [reflexivity|]. destruct v; [|apply IH]. destruct (slice _ _ _); cbn [bind]; [|reflexivity..].
  unfold DecryptBody_o. rewrite (derivePad_local O O') by exact H. reflexivity.
Qed.
Lemma Finalize_local O O' {LIB} (ctx : ClientRequestContext LIB) r x : finalize_secret ctx r = Ok x -> (forall salt i, O x salt i = O' x salt i) ->
  Finalize_o O ctx r = Finalize_o O' ctx r.
Proof. intros E H. unfold Finalize_o. rewrite E. rewrite (finalize_loop_local O O') by exact H. reflexivity. Qed.

(** ** The permutation of the keys *)
Definition swap (a b x : bytes) : bytes := if bytes_eqb x a then b else if bytes_eqb x b then a else x.
Lemma swap_l a b : swap a b a = b.
Proof. unfold swap. rewrite bytes_eqb_refl. reflexivity. Qed.
Lemma swap_r a b : swap a b b = a.
Proof. unfold swap. destruct (bytes_eqb b a) eqn:E; [apply bytes_eqb_eq in E; exact E|]. rewrite bytes_eqb_refl. reflexivity. Qed.
Lemma swap_other a b x : x <> a -> x <> b -> swap a b x = x.
Proof.
  intros A B. unfold swap. destruct (bytes_eqb x a) eqn:E; [apply bytes_eqb_eq in E; contradiction|].
  destruct (bytes_eqb x b) eqn:E'; [apply bytes_eqb_eq in E'; contradiction|]. reflexivity.
Qed.
Lemma bytes_dec (x y : bytes) : x = y \/ x <> y.
Proof. destruct (bytes_eqb x y) eqn:E; [left; apply bytes_eqb_eq; exact E|right; intros ->; rewrite bytes_eqb_refl in E; discriminate]. Qed.
Lemma swap_swap a b x : swap a b (swap a b x) = x.
Proof.
  destruct (bytes_dec x a) as [->|A]; [rewrite swap_l; apply swap_r|]. destruct (bytes_dec x b) as [->|B]; [rewrite swap_r; apply swap_l|].
  rewrite (swap_other a b x A B). apply swap_other; assumption.
Qed.

Fixpoint there (l : list (bytes * bytes)) (x : bytes) : bytes :=
  match l with [] => x | (a, b) :: l => swap (there l b) a (there l x) end.
Fixpoint back (l : list (bytes * bytes)) (x : bytes) : bytes :=
  match l with [] => x | (a, b) :: l => back l (swap (there l b) a x) end.
Lemma back_there l x : back l (there l x) = x.
Proof. revert x. induction l as [|[a b] l IH]; intros x; [reflexivity|]. cbn [there back]. rewrite swap_swap. apply IH. Qed.
Lemma there_back l x : there l (back l x) = x.
Proof. revert x. induction l as [|[a b] l IH]; intros x; [reflexivity|]. cbn [there back]. rewrite IH. apply swap_swap. Qed.
Lemma there_maps l : NoDup (map fst l) -> NoDup (map snd l) -> forall a b, In (a, b) l -> there l b = a.
Proof.
  induction l as [|[c d] l IH]; intros N1 N2 a b I; [contradiction|]. cbn [map fst snd] in N1, N2. inversion N1 as [|x xs M1 N1']; inversion N2 as [|y ys M2 N2']; subst.
  cbn [there]. destruct I as [I|I].
  - injection I as -> ->. apply swap_l.
  - rewrite (IH N1' N2' a b I). apply swap_other.
    + intros E. apply M2. assert (B : b = d) by (rewrite <- (back_there l b), (IH N1' N2' a b I), E; apply back_there). subst.
      apply (in_map snd) in I. exact I.
    + intros ->. apply M1. apply (in_map fst) in I. exact I.
Qed.
Lemma there_fixes l x : (forall a b, In (a, b) l -> a = x \/ b = x -> a = b) -> there l x = x.
Proof.
  induction l as [|[a b] l IH]; intros H; [reflexivity|]. cbn [there]. rewrite IH by (intros c d I; apply H; right; exact I).
  assert (E : there l x = x) by (apply IH; intros c d I; apply H; right; exact I).
  specialize (H a b (or_introl eq_refl)). destruct (bytes_dec a x) as [A|A].
  - rewrite <- (H (or_introl A)), A, E. apply swap_l.
  - apply swap_other; [|congruence]. intros B. apply A. rewrite H; [|right]; rewrite <- (back_there l b), <- B; rewrite <- E at 1; apply back_there.
Qed.

(** ** Encryption as a one-time pad *)
Definition plain (i : item) (salt : bytes) (n : nat) : byte :=
  if bytes_eqb salt DerivePadHeaderSalt then nth n (zeros CtxtKeyCheckSize ++ [i_flag i]) Byte.x00
  else if bytes_eqb salt DerivePadBodySalt then nth n (i_body i) Byte.x00 else Byte.x00.
Lemma xor_map (p : bytes) (f : nat -> byte) : xor p (map f (seq 0 (length p))) = map (fun i => bxor (nth i p Byte.x00) (f i)) (seq 0 (length p)).
Proof.
  revert f. induction p as [|x p IH]; intros f; [reflexivity|]. cbn [length seq map xor nth]. f_equal.
  rewrite <- seq_shift, !map_map. apply (IH (fun i => f (S i))).
Qed.
Lemma seal_value O i : seal O i =
  if (hkdf_limit <? N.of_nat (length (i_body i)))%N then Err "hkdf: entropy limit reached"
  else Ok (map (fun n => bxor (plain i DerivePadHeaderSalt n) (O (i_key i) DerivePadHeaderSalt n)) (seq 0 (CtxtKeyCheckSize + 1))
           ++ be32 (u32 (N.of_nat (length (i_body i))))
           ++ map (fun n => bxor (plain i DerivePadBodySalt n) (O (i_key i) DerivePadBodySalt n)) (seq 0 (length (i_body i)))).
Proof.
  unfold seal, Encrypt_o. unfold derivePad_o at 1.
  assert (X : (hkdf_limit <? N.of_nat (CtxtKeyCheckSize + 1))%N = false) by reflexivity. rewrite X. cbn [bind]. cbv zeta.
  rewrite xorBytes_ok by (rewrite map_length, seq_length; reflexivity). cbn [bind]. unfold derivePad_o.
  destruct (hkdf_limit <? N.of_nat (length (i_body i)))%N; [reflexivity|]. cbn [bind].
  rewrite xorBytes_ok by (rewrite map_length, seq_length; reflexivity). cbn [bind].
  rewrite xor_length by (rewrite map_length, seq_length; reflexivity).
  change (CtxtKeyCheckSize + 1)%nat with (length (zeros CtxtKeyCheckSize ++ [i_flag i])) at 1. rewrite !xor_map. reflexivity.
Qed.

(** The re-choice that turns [l] into [l']. *)
Definition mask_of (pairs : list (item * item)) (x salt : bytes) (n : nat) : byte :=
  match find (fun ab => bytes_eqb (i_key (snd ab)) x) pairs with
  | Some (a, b) => bxor (plain a salt n) (plain b salt n)
  | None => Byte.x00
  end.
Definition keys_of (pairs : list (item * item)) : list (bytes * bytes) := map (fun ab => (i_key (fst ab), i_key (snd ab))) pairs.
Definition turn (pairs : list (item * item)) (O : streams) : streams :=
  fun x salt n => bxor (O (there (keys_of pairs) x) salt n) (mask_of pairs x salt n).
Lemma turn_rechoice pairs : rechoice (turn pairs).
Proof. exists (there (keys_of pairs)), (back (keys_of pairs)), (mask_of pairs). split; [apply back_there|]. split; [apply there_back|]. reflexivity. Qed.
Lemma turn_leaves pairs x : (forall a b, In (a, b) pairs -> i_key a = x \/ i_key b = x -> a = b) -> leaves (turn pairs) x.
Proof.
  intros H O salt n. unfold turn. rewrite there_fixes.
  - unfold mask_of. destruct (find _ pairs) as [[a b]|] eqn:E; [|apply bxor_0_r]. apply find_some in E as [I E]. cbn [snd] in E. apply bytes_eqb_eq in E.
    rewrite (H a b I (or_intror E)), bxor_nilpotent. apply bxor_0_r.
  - intros c d I. unfold keys_of in I. apply in_map_iff in I as ([a b] & E & I). injection E as <- <-. cbn [fst snd]. intros K. rewrite (H a b I K). reflexivity.
Qed.
Lemma find_key (pairs : list (item * item)) a b : NoDup (map (fun ab => i_key (snd ab)) pairs) -> In (a, b) pairs ->
  find (fun ab => bytes_eqb (i_key (snd ab)) (i_key b)) pairs = Some (a, b).
Proof.
  induction pairs as [|[c d] l IH]; intros N I; [contradiction|]. cbn [map snd] in N. inversion N as [|x xs M N']; subst. cbn [find snd]. destruct I as [I|I].
  - injection I as -> ->. rewrite bytes_eqb_refl. reflexivity.
  - destruct (bytes_eqb (i_key d) (i_key b)) eqn:E; [|apply IH; assumption]. exfalso. apply M. apply bytes_eqb_eq in E. rewrite E.
    apply (in_map (fun ab => i_key (snd ab))) in I. exact I.
Qed.
Lemma turn_seal pairs a b O : NoDup (map fst (keys_of pairs)) -> NoDup (map snd (keys_of pairs)) -> In (a, b) pairs -> length (i_body a) = length (i_body b) ->
  seal (turn pairs O) b = seal O a.
Proof.
  intros N1 N2 I L. rewrite !seal_value, L. destruct (_ <? _)%N; [reflexivity|]. f_equal.
  assert (T : forall salt n, bxor (plain b salt n) (turn pairs O (i_key b) salt n) = bxor (plain a salt n) (O (i_key a) salt n)).
  { intros salt n. unfold turn. rewrite (there_maps _ N1 N2 (i_key a) (i_key b)).
    - unfold mask_of. rewrite (find_key pairs a b); [|unfold keys_of in N2; rewrite map_map in N2; exact N2|exact I].
      set (o := O (i_key a) salt n). set (pa := plain a salt n). set (pb := plain b salt n).
      rewrite (bxor_comm pb), bxor_assoc, bxor_assoc, bxor_nilpotent, bxor_0_r. apply bxor_comm.
    - unfold keys_of. apply in_map_iff. exists (a, b). auto. }
  f_equal; [apply map_ext; intros n; apply T|]. f_equal. apply map_ext. intros n. apply T.
Qed.

Lemma combine_maps {A B C} (P : A -> B -> Prop) (l : list A) (l' : list B) (k : A -> C) (k' : B -> C) : Forall2 P l l' ->
  map fst (map (fun ab => (k (fst ab), k' (snd ab))) (combine l l')) = map k l /\
  map snd (map (fun ab => (k (fst ab), k' (snd ab))) (combine l l')) = map k' l'.
Proof.
  induction 1 as [|a b l l' H F [IH1 IH2]]; [split; reflexivity|]. cbn [combine map fst snd]. split; f_equal; assumption.
Qed.
Lemma Forall2_combine {A B} (P : A -> B -> Prop) l l' : Forall2 P l l' -> forall a b, In (a, b) (combine l l') -> P a b.
Proof.
  induction 1 as [|a b l l' H F IH]; intros x y I; [contradiction|]. destruct I as [I|I]; [injection I as <- <-; exact H|apply IH, I].
Qed.
