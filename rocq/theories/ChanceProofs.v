(** Proofs for C78. *)
From Coq Require Import Lia FinFun.
From Verif Require Import Base BaseProofs LibProofs Sha256 Hkdf Common CommonProofs Hasher Encryptor EncryptorProofs Oprf Server Client KV KVProofs
  SpecEntry SpecProtocol Ideal SpecIdeal IdealProofs FinalizeProofs SpecChance.

(** ** The loop over arbitrary streams *)
Lemma header_o O iw secret c f n r : length c = 20%nat -> (n < 2 ^ 32)%N ->
  DecryptHeader_o O iw secret (c ++ [f] ++ be32 n ++ r)
  = Ok (bytes_eqb (check_bytes O secret) c, bxor (O secret DerivePadHeaderSalt 20%nat) f, int_wrap iw (Z.of_N n)).
Proof.
  intros L Hn. unfold DecryptHeader_o.
  destruct (_ <? _)%nat eqn:E; [rewrite !app_length, L, be32_length in E; cbn [length] in E; apply Nat.ltb_lt in E; unfold HeaderSize in E; cbn in E; lia|].
  unfold derivePad_o. change (hkdf_limit <? N.of_nat (CtxtKeyCheckSize + 1))%N with false. cbn [bind]. cbv zeta.
  assert (D : skipn (CtxtKeyCheckSize + 1) (c ++ [f] ++ be32 n ++ r) = be32 n ++ r).
  { rewrite app_assoc. apply skipn_app_exact. rewrite app_length, L. reflexivity. }
  rewrite D, get_be32_small by exact Hn. cbn [bind]. f_equal. f_equal. f_equal.
  - f_equal. apply firstn_app_exact. exact L.
  - f_equal. rewrite app_nth2 by (rewrite L; unfold CtxtKeyCheckSize; lia). rewrite L. reflexivity.
Qed.
Lemma entry_o O iw secret en rest : entry_ok en ->
  DecryptHeader_o O iw secret (entry_bytes en ++ rest)
  = Ok (bytes_eqb (check_bytes O secret) (e_check en), bxor (O secret DerivePadHeaderSalt 20%nat) (e_flag en), int_wrap iw (blen (e_body en))).
Proof.
  intros [L B]. unfold entry_bytes. rewrite <- !app_assoc. rewrite header_o by (auto; unfold blen in B; lia). unfold blen. rewrite nat_N_Z. reflexivity.
Qed.
Definition quiet (r : res (BreachStatus * gslice)) : Prop := r = Ok (NotInBreach, None) \/ r = Err "parsing error in bucket".
Lemma body_o O secret b : DecryptBody_o O secret b = Err "hkdf: entropy limit reached" \/ exists m, DecryptBody_o O secret b = Ok m.
Proof.
  unfold DecryptBody_o, derivePad_o. destruct (_ <? _)%N; cbn [bind]; [auto|]. right. rewrite xorBytes_ok by (rewrite map_length, seq_length; reflexivity). eauto.
Qed.

Lemma loop_entry_o O fuel secret pre en rest :
  entry_ok en -> small (pre ++ entry_bytes en ++ rest) ->
  if bytes_eqb (check_bytes O secret) (e_check en)
  then exists r, finalize_loop_o O 64 (S fuel) secret (pre ++ entry_bytes en ++ rest) (blen pre) = Some r /\ ~ quiet r
  else finalize_loop_o O 64 (S fuel) secret (pre ++ entry_bytes en ++ rest) (blen pre)
       = finalize_loop_o O 64 fuel secret (pre ++ entry_bytes en ++ rest) (blen (pre ++ entry_bytes en)).
Proof.
  intros K S. pose proof K as [L B]. unfold small in S. cbn [finalize_loop_o].
  assert (Len : blen (entry_bytes en) = (25 + blen (e_body en))%Z)
    by (unfold blen; rewrite entry_bytes_length by exact L; lia).
  rewrite !blen_app, Len in S.
  assert (0 <= blen pre)%Z by (unfold blen; lia).
  assert (0 <= blen rest)%Z by (unfold blen; lia).
  assert (0 <= blen (e_body en))%Z by (unfold blen; lia).
  change (Z.of_nat HeaderSize) with 25%Z.
  change (2 ^ 62)%Z with 4611686018427387904%Z in S. change (2 ^ 32)%Z with 4294967296%Z in B.
  assert (P63 : (2 ^ 63)%Z = 9223372036854775808%Z) by reflexivity.
  rewrite (wrap64 (blen pre + 25)) by lia.
  destruct (_ <? _)%Z eqn:E1; [rewrite !blen_app, Len in E1; lia|].
  rewrite slice_from_app. cbn [bind]. rewrite entry_o by exact K.
  rewrite (wrap64 (blen (e_body en))) by lia.
  rewrite (wrap64 (blen pre + 25 + blen (e_body en))) by lia.
  rewrite (proj2 (Z.ltb_ge (blen (pre ++ entry_bytes en ++ rest)) (blen pre + 25 + blen (e_body en))))
    by (rewrite !blen_app, Len; lia).
  destruct (bytes_eqb _ _).
  - eexists. split; [reflexivity|].
    replace (pre ++ entry_bytes en ++ rest)
      with ((pre ++ (e_check en ++ [e_flag en] ++ be32 (N.of_nat (length (e_body en))))) ++ e_body en ++ rest)
      by (unfold entry_bytes; rewrite <- !app_assoc; reflexivity).
    replace (blen pre + 25)%Z
      with (blen (pre ++ (e_check en ++ [e_flag en] ++ be32 (N.of_nat (length (e_body en))))))
      by (rewrite !blen_app; unfold blen; rewrite L; cbn; lia).
    rewrite slice_mid. cbn [bind]. destruct (body_o O secret (e_body en)) as [->|(m & ->)]; cbn [bind]; intros [Q|Q]; discriminate Q.
  - f_equal. rewrite blen_app, Len. lia.
Qed.
Lemma loop_short_o O fuel secret pre t : short_tail t -> small (pre ++ t) ->
  finalize_loop_o O 64 (S fuel) secret (pre ++ t) (blen pre) = Some (Ok (NotInBreach, None)).
Proof.
  intros T S. unfold small in S. rewrite blen_app in S. unfold short_tail in T. cbn [finalize_loop_o].
  change (Z.of_nat HeaderSize) with 25%Z.
  change (2 ^ 62)%Z with 4611686018427387904%Z in S.
  assert (P63 : (2 ^ 63)%Z = 9223372036854775808%Z) by reflexivity.
  rewrite wrap64 by (unfold blen in *; lia).
  rewrite blen_app. destruct (_ <? _)%Z eqn:E; [reflexivity|]. unfold blen in E. lia.
Qed.
Lemma loop_overrun_o O fuel secret pre t : overrun_tail t -> small (pre ++ t) ->
  finalize_loop_o O 64 (S fuel) secret (pre ++ t) (blen pre) = Some (Err "parsing error in bucket").
Proof.
  intros (c & f & n & r & -> & L & Hn & B) S. unfold small in S. cbn [finalize_loop_o].
  change (Z.of_nat HeaderSize) with 25%Z.
  set (t := c ++ [f] ++ be32 n ++ r) in *.
  assert (Lt : blen t = (25 + blen r)%Z) by (unfold t; rewrite !blen_app; unfold blen; rewrite L, be32_length; cbn [length]; lia).
  rewrite blen_app, Lt in S.
  change (2 ^ 62)%Z with 4611686018427387904%Z in S. change (2 ^ 32)%N with 4294967296%N in Hn.
  assert (P63 : (2 ^ 63)%Z = 9223372036854775808%Z) by reflexivity.
  assert (0 <= blen pre)%Z by (unfold blen; lia). assert (0 <= blen r)%Z by (unfold blen; lia).
  rewrite (wrap64 (blen pre + 25)) by lia.
  destruct (_ <? _)%Z eqn:E1; [rewrite blen_app, Lt in E1; lia|].
  rewrite slice_from_app. cbn [bind]. unfold t at 1. rewrite header_o by assumption.
  rewrite (wrap64 (Z.of_N n)) by lia.
  rewrite (wrap64 (blen pre + 25 + Z.of_N n)) by lia.
  rewrite (proj2 (Z.ltb_lt (blen (pre ++ t)) (blen pre + 25 + Z.of_N n))) by (rewrite blen_app, Lt; lia).
  reflexivity.
Qed.

(** The scan: [r] is what the tail gives. *)
Lemma scan_o O secret t r : quiet r ->
  (forall fuel pre, small (pre ++ t) -> finalize_loop_o O 64 (S fuel) secret (pre ++ t) (blen pre) = Some r) ->
  forall es pre fuel, Forall entry_ok es -> small (pre ++ bucket_bytes es ++ t) -> (length es < fuel)%nat ->
  exists r', finalize_loop_o O 64 fuel secret (pre ++ bucket_bytes es ++ t) (blen pre) = Some r'
    /\ (~ In (check_bytes O secret) (map e_check es) -> r' = r) /\ (In (check_bytes O secret) (map e_check es) -> ~ quiet r').
Proof.
  intros Q HT. induction es as [|en es IH]; intros pre fuel F S Hf.
  - destruct fuel as [|fuel]; [cbn in Hf; lia|]. exists r. split; [apply HT; exact S|]. split; [reflexivity|intros []].
  - destruct fuel as [|fuel]; [cbn in Hf; lia|]. inversion F as [|? ? K Fe]; subst.
    cbn [bucket_bytes flat_map] in *. fold (bucket_bytes es) in *. rewrite <- app_assoc in *.
    pose proof (loop_entry_o O fuel secret pre en (bucket_bytes es ++ t) K S) as H. cbn [map In].
    destruct (bytes_eqb (check_bytes O secret) (e_check en)) eqn:E.
    + apply bytes_eqb_eq in E. destruct H as (r' & H & NQ). exists r'. split; [exact H|]. split; [intros N; exfalso; apply N; left; symmetry; exact E|intros _; exact NQ].
    + rewrite H. rewrite app_assoc in *. destruct (IH (pre ++ entry_bytes en) fuel Fe S ltac:(cbn in Hf; lia)) as (r' & A & B1 & B2).
      exists r'. split; [exact A|]. split; [intros N; apply B1; tauto|]. intros [I|I]; [|apply B2, I]. rewrite I, bytes_eqb_refl in E. discriminate.
Qed.

Lemma finalize_o {LIB} O (ctx : ClientRequestContext LIB) resp x es t : finalize_secret ctx resp = Ok x ->
  sl (rs_bucketContents resp) = bucket_bytes es ++ t -> Forall entry_ok es -> short_tail t \/ overrun_tail t -> small (bucket_bytes es ++ t) ->
  (In (check_bytes O x) (map e_check es) -> ~ quiet (Finalize_o O ctx resp)) /\
  (~ In (check_bytes O x) (map e_check es) -> (short_tail t -> Finalize_o O ctx resp = Ok (NotInBreach, None)) /\ quiet (Finalize_o O ctx resp)).
Proof.
  intros X C F T S. unfold Finalize_o. rewrite X, C. destruct T as [T|T].
  - destruct (scan_o O x t _ (or_introl eq_refl) (fun fuel pre => loop_short_o O fuel x pre t T) es [] _ F S (enough_fuel es t F)) as (r & H & A & B).
    cbn [app] in H. change (blen []) with 0%Z in H. rewrite H. split; [exact B|]. intros N. rewrite (A N). split; [reflexivity|left; reflexivity].
  - destruct (scan_o O x t _ (or_intror eq_refl) (fun fuel pre => loop_overrun_o O fuel x pre t T) es [] _ F S (enough_fuel es t F)) as (r & H & A & B).
    cbn [app] in H. change (blen []) with 0%Z in H. rewrite H. split; [exact B|]. intros N. rewrite (A N). split; [|right; reflexivity].
    intros T'. exfalso. destruct T as (c & f & n & rest & -> & L & _). unfold short_tail in T'. rewrite !app_length, L, be32_length in T'. cbn [length] in T'. lia.
Qed.

(** ** The store *)
Lemma Encrypt_o_entry O x f m e : Encrypt_o O x f m = Ok e -> exists en, e = entry_bytes en /\ entry_ok en.
Proof.
  intros H. pose proof (seal_value O (mkItem x f m)) as V. unfold seal in V. cbn [i_key i_flag i_body] in V. rewrite H in V. clear H.
  destruct (N.ltb_spec hkdf_limit (N.of_nat (length m))) as [L|L]; [discriminate|]. apply Ok_inj in V. subst e. unfold hkdf_limit in L.
  set (p := fun n : nat => bxor (plain (mkItem x f m) DerivePadHeaderSalt n) (O x DerivePadHeaderSalt n)).
  set (body := map (fun n : nat => bxor (plain (mkItem x f m) DerivePadBodySalt n) (O x DerivePadBodySalt n)) (seq 0 (length m))).
  assert (Lb : length body = length m) by (unfold body; rewrite map_length, seq_length; reflexivity).
  exists (mkEntry (map p (seq 0 20)) (p 20%nat) body). split.
  - unfold entry_bytes. cbn [e_check e_flag e_body]. rewrite Lb. change (CtxtKeyCheckSize + 1)%nat with (20 + 1)%nat. rewrite seq_app, map_app, <- app_assoc.
    unfold u32. rewrite N.mod_small by lia. reflexivity.
  - split; cbn [e_check e_body]; [rewrite map_length, seq_length; reflexivity|]. unfold blen. rewrite Lb. lia.
Qed.

Section Store.
  Context {LIB : OPRF} (s : Server LIB).
  Lemma id_small u i : Server_BucketID s u = Ok i -> (i < 2 ^ 32)%N.
  Proof.
    unfold Server_BucketID. intros H. apply bind_ok in H as (h & _ & H). apply bucketHashToID_lt in H as [H K].
    eapply N.lt_le_trans; [exact H|]. apply N.pow_le_mono_r; lia.
  Qed.
  Lemma store_o_bucket O id : (id < 2 ^ 32)%N -> forall db kv kv', store_all_o O s kv db = Ok kv' ->
    exists es, Forall entry_ok es /\ length es = in_bucket_count s id db
      /\ sl (kv_lookup kv' (BucketIDToHex id)) = sl (kv_lookup kv (BucketIDToHex id)) ++ bucket_bytes es.
  Proof.
    intros Hid. induction db as [|d db IH]; intros kv kv' H; cbn [store_all_o in_bucket_count] in *.
    - apply Ok_inj in H. subst kv'. exists []. rewrite app_nil_r. auto.
    - apply bind_ok in H as (i & J & H). apply bind_ok in H as (e & E & H). rewrite J. apply IH in H as (es & F & L & B).
      unfold EncryptBucketEntry_o in E. destruct (negb _); [discriminate|]. apply bind_ok in E as (x & _ & E). apply Encrypt_o_entry in E as (en & -> & K).
      destruct (N.eqb_spec i id) as [->|N].
      + exists (en :: es). split; [constructor; assumption|]. split; [cbn [length]; lia|]. rewrite B, lookup_append_same. cbn [bucket_bytes flat_map]. rewrite app_assoc. reflexivity.
      + exists es. split; [exact F|]. split; [exact L|]. rewrite B, lookup_append_other; [reflexivity|]. intros Q. apply N. apply BucketIDToHex_inj; [exact (id_small _ _ J)|exact Hid|exact Q].
  Qed.
  Lemma store_o_local O O' db : (forall d x, In d db -> deriveBucketEntryKey s (d_user d) (d_pass d) = Ok x -> forall salt i, O x salt i = O' x salt i) ->
    forall kv, store_all_o O s kv db = store_all_o O' s kv db.
  Proof.
    induction db as [|d db IH]; intros H kv; [reflexivity|]. cbn [store_all_o]. destruct (Server_BucketID s (d_user d)) as [id| |]; [|reflexivity..]. cbn [bind].
    assert (E : EncryptBucketEntry_o O s (d_user d) (d_pass d) (d_flag d) (d_meta d) = EncryptBucketEntry_o O' s (d_user d) (d_pass d) (d_flag d) (d_meta d)).
    { unfold EncryptBucketEntry_o. destruct (negb _); [reflexivity|]. destruct (deriveBucketEntryKey s (d_user d) (d_pass d)) as [x| |] eqn:X; [|reflexivity..]. cbn [bind].
      unfold Encrypt_o. pose proof (H d x (or_introl eq_refl) X) as A. rewrite !(derivePad_local O O' x _ _ A). reflexivity. }
    rewrite E. destruct (EncryptBucketEntry_o O' s _ _ _ _); [|reflexivity..]. cbn [bind]. apply IH. intros d' x' I. apply H. right. exact I.
  Qed.
End Store.

(** ** Counting *)
Fixpoint strings (n : nat) : list bytes :=
  match n with
  | O => [[]]
  | S n => flat_map (fun b => map (cons (nB b)) (strings n)) (map N.of_nat (seq 0 256))
  end.
Lemma flat_length {A B} (f : A -> list B) k l : (forall a, length (f a) = k) -> length (flat_map f l) = (length l * k)%nat.
Proof. intros H. induction l as [|a l IH]; [reflexivity|]. cbn [flat_map length]. rewrite app_length, H, IH. reflexivity. Qed.
Lemma strings_length n : length (strings n) = (256 ^ n)%nat.
Proof.
  induction n as [|n IH]; [reflexivity|]. cbn [strings]. rewrite (flat_length _ (256 ^ n)%nat) by (intros b; rewrite map_length; exact IH).
  rewrite map_length, seq_length. reflexivity.
Qed.
Lemma strings_in n : forall x, In x (strings n) <-> length x = n.
Proof.
  induction n as [|n IH]; intros x; cbn [strings].
  - split; [intros [<-|[]]; reflexivity|]. destruct x; [left; reflexivity|discriminate].
  - rewrite in_flat_map. split.
    + intros (b & _ & I). apply in_map_iff in I as (y & <- & I). apply IH in I. cbn [length]. f_equal. exact I.
    + destruct x as [|c x]; [discriminate|]. intros L. exists (bN c). split.
      * apply in_map_iff. exists (N.to_nat (bN c)). split; [apply N2Nat.id|]. apply in_seq. pose proof (bN_lt c). lia.
      * apply in_map_iff. exists x. split; [f_equal; apply nB_bN|]. apply IH. cbn in L. lia.
Qed.
Lemma strings_nodup n : NoDup (strings n).
Proof.
  induction n as [|n IH]; cbn [strings]; [constructor; [intros []|constructor]|].
  assert (N : NoDup (map N.of_nat (seq 0 256))) by (apply Injective_map_NoDup; [intros a b; apply Nat2N.inj|apply seq_NoDup]).
  assert (R : forall b, In b (map N.of_nat (seq 0 256)) -> (b < 256)%N) by (intros b I; apply in_map_iff in I as (k & <- & I); apply in_seq in I; lia).
  revert N R. generalize (map N.of_nat (seq 0 256)). intros bs. induction bs as [|b bs IHb]; intros N R; cbn [flat_map]; [constructor|].
  inversion N as [|? ? N1 N2]; subst. 
  assert (A : forall (l1 l2 : list bytes), NoDup l1 -> NoDup l2 -> (forall x, In x l1 -> ~ In x l2) -> NoDup (l1 ++ l2)).
  { clear. induction l1 as [|a l1 IH]; intros l2 H1 H2 D; [exact H2|]. inversion H1; subst. cbn [app]. constructor.
    - rewrite in_app_iff. intros [I|I]; [contradiction|]. exact (D a (or_introl eq_refl) I).
    - apply IH; auto. intros x I. apply D. right. exact I. }
  apply A.
  - apply Injective_map_NoDup; [|exact IH]. intros x y E. congruence.
  - apply IHb; [exact N2|]. intros c I. apply R. right. exact I.
  - intros x I J. apply in_map_iff in I as (y & <- & _). apply in_flat_map in J as (c & I & J). apply in_map_iff in J as (z & E & _).
    injection E as E _. apply (f_equal bN) in E. rewrite !bN_nB in E. 
    rewrite !N.mod_small in E by (apply R; [right; exact I || left; reflexivity] || apply R; left; reflexivity). subst c. contradiction.
Qed.
