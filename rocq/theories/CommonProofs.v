(** * Lemmas for the properties of pkg/migp/common.go, hasher.go, slowhasher.go. *)
From Verif Require Import Base BaseProofs LibProofs Sha256 Scrypt Hex Common Hasher SpecCommon.

(** ** Serialization *)

Lemma len16_lt b : (len16 b < 2 ^ 16)%N.
Proof. unfold len16, u16. apply N.mod_lt. discriminate. Qed.

Lemma len16_small b : (blen b <= 65535)%Z -> len16 b = N.of_nat (length b).
Proof.
  intros H. unfold blen in H. unfold len16, u16. apply N.mod_small.
  change (2 ^ 16)%N with 65536%N. lia.
Qed.

Lemma read_field_be16 b r :
  (blen b <= 65535)%Z -> read_field (be16 (len16 b) ++ b ++ r) = Some (b, r).
Proof.
  intros H. rewrite len16_small by exact H. unfold blen in H.
  unfold be16, read_field. cbn [app]. rewrite !bN_nB.
  set (n := N.of_nat (length b)).
  assert (Hn : (n < 65536)%N) by (unfold n; lia).
  rewrite (N.mod_small (n / 256)) by (apply N.div_lt_upper_bound; lia).
  rewrite <- N.div_mod by discriminate.
  replace (N.to_nat n) with (length b) by (unfold n; lia).
  rewrite app_length. replace (length b <=? length b + length r)%nat with true
    by (symmetry; apply Nat.leb_le; lia).
  rewrite firstn_app_exact, skipn_app_exact by reflexivity. reflexivity.
Qed.

Lemma serialize_ok u p : (blen u <= 65536)%Z -> (blen p <= 65536)%Z ->
  serializeUsernamePassword u p = Ok (be16 (len16 u) ++ u ++ be16 (len16 p) ++ p).
Proof.
  intros Hu Hp. unfold serializeUsernamePassword.
  destruct (65536 <? blen u)%Z eqn:E1; [lia|]. destruct (65536 <? blen p)%Z eqn:E2; [lia|]. reflexivity.
Qed.

Lemma serialize_panics u p :
  ((65536 < blen u)%Z \/ (65536 < blen p)%Z) <->
  serializeUsernamePassword u p = Panic "Length overflow".
Proof.
  unfold serializeUsernamePassword.
  destruct (65536 <? blen u)%Z eqn:E1; destruct (65536 <? blen p)%Z eqn:E2; cbn [orb];
    split; intros H; try reflexivity; try discriminate; lia.
Qed.

Lemma serialize_read u p s : (blen u <= 65535)%Z -> (blen p <= 65535)%Z ->
  serializeUsernamePassword u p = Ok s -> read_credential s = Some (u, p).
Proof.
  intros Hu Hp H. rewrite serialize_ok in H by lia.
  apply Ok_inj in H. subst s.
  unfold read_credential. rewrite read_field_be16 by exact Hu.
  replace (be16 (len16 p) ++ p) with (be16 (len16 p) ++ p ++ []) by (rewrite app_nil_r; reflexivity).
  rewrite read_field_be16 by exact Hp. reflexivity.
Qed.

Lemma serialize_inj u p u' p' s :
  (blen u <= 65535)%Z -> (blen p <= 65535)%Z -> (blen u' <= 65535)%Z -> (blen p' <= 65535)%Z ->
  serializeUsernamePassword u p = Ok s -> serializeUsernamePassword u' p' = Ok s ->
  u = u' /\ p = p'.
Proof.
  intros H1 H2 H3 H4 A B. apply serialize_read in A; auto. apply serialize_read in B; auto.
  rewrite A in B. injection B as -> ->. auto.
Qed.

Lemma read_field_app s t u r : read_field s = Some (u, r) -> read_field (s ++ t) = Some (u, r ++ t).
Proof.
  destruct s as [|hi [|lo s]]; cbn [read_field app]; try discriminate. cbv zeta.
  set (n := N.to_nat (256 * bN hi + bN lo)).
  destruct (n <=? length s)%nat eqn:E; [|discriminate]. apply Nat.leb_le in E.
  intros H; injection H as <- <-. rewrite app_length.
  replace (n <=? length s + length t)%nat with true by (symmetry; apply Nat.leb_le; lia).
  rewrite firstn_app, skipn_app. replace (n - length s)%nat with 0%nat by lia.
  cbn. rewrite app_nil_r. reflexivity.
Qed.

Lemma serialize_prefix_free u p u' p' s t :
  (blen u <= 65535)%Z -> (blen p <= 65535)%Z -> (blen u' <= 65535)%Z -> (blen p' <= 65535)%Z ->
  serializeUsernamePassword u p = Ok s -> serializeUsernamePassword u' p' = Ok (s ++ t) ->
  t = [] /\ u = u' /\ p = p'.
Proof.
  intros H1 H2 H3 H4 A B. pose proof A as A'. pose proof B as B'.
  apply serialize_read in A'; auto. apply serialize_read in B'; auto.
  unfold read_credential in A'.
  destruct (read_field s) as [[u0 r]|] eqn:E1; [|discriminate].
  destruct (read_field r) as [[p0 [|]]|] eqn:E2; try discriminate.
  injection A' as -> ->.
  unfold read_credential in B'. rewrite (read_field_app _ t _ _ E1), (read_field_app _ t _ _ E2) in B'.
  cbn [app] in B'. destruct t; [|discriminate]. injection B' as -> ->. auto.
Qed.

Lemma blen_repeat (c : byte) n : blen (repeat c n) = Z.of_nat n.
Proof. unfold blen. rewrite repeat_length. reflexivity. Qed.

Lemma serialize_collision :
  let z := repeat Byte.x00 (N.to_nat 65536) in
  exists s, serializeUsernamePassword z [] = Ok s /\ serializeUsernamePassword [] z = Ok s.
Proof.
  cbv zeta. set (z := repeat Byte.x00 (N.to_nat 65536)).
  assert (Hz : blen z = 65536%Z) by (unfold z; rewrite blen_repeat; lia).
  rewrite !serialize_ok by (rewrite ?Hz; cbn; lia).
  assert (L : len16 z = 0%N).
  { clearbody z. unfold len16, u16. unfold blen in Hz. replace (N.of_nat (length z)) with 65536%N by lia. reflexivity. }
  eexists. split; [reflexivity|]. rewrite L.
  change (be16 (len16 [])) with (repeat Byte.x00 2). change (be16 0) with (repeat Byte.x00 2).
  clear. unfold z. clear z. generalize (N.to_nat 65536) as n. intros n.
  rewrite app_nil_r, app_nil_l, <- !repeat_app. do 2 f_equal.
  lia.
Qed.

(** ** Bits *)

Lemma bits_value_app a b : bits_value (a ++ b) = (bits_value a * 2 ^ N.of_nat (length b) + bits_value b)%N.
Proof.
  unfold bits_value. rewrite fold_left_app.
  generalize (fold_left (fun (acc : N) (b0 : bool) => (2 * acc + (if b0 then 1 else 0))%N) a 0%N) as x.
  induction b as [|c b IH] using rev_ind; intros x.
  - cbn. lia.
  - rewrite !fold_left_app, app_length. cbn [fold_left length]. rewrite IH.
    rewrite Nat2N.inj_add, N.pow_add_r. change (N.of_nat 1) with 1%N. rewrite N.pow_1_r.
    generalize (fold_left (fun (acc : N) (b0 : bool) => (2 * acc + (if b0 then 1 else 0))%N) b 0%N) as y.
    intros y. destruct c; lia.
Qed.

Lemma bits_value_lt l : (bits_value l < 2 ^ N.of_nat (length l))%N.
Proof.
  induction l as [|c l IH] using rev_ind; [cbn; lia|].
  rewrite bits_value_app, app_length, Nat2N.inj_add, N.pow_add_r. cbn [length]. change (N.of_nat 1) with 1%N.
  rewrite N.pow_1_r. assert (bits_value [c] < 2)%N by (destruct c; vm_compute; reflexivity). lia.
Qed.

Lemma bits_value_firstn k l : (k <= length l)%nat ->
  bits_value (firstn k l) = (bits_value l / 2 ^ N.of_nat (length l - k))%N.
Proof.
  intros H. rewrite <- (firstn_skipn k l) at 2. rewrite bits_value_app, skipn_length.
  pose proof (bits_value_lt (skipn k l)) as L. rewrite skipn_length in L.
  rewrite N.div_add_l by (apply N.pow_nonzero; discriminate).
  rewrite N.div_small by exact L. lia.
Qed.

Lemma byte_bits_value b : bits_value (byte_bits b) = bN b.
Proof.
  assert (H : forall x, bits_value (byte_bits x) = bN x) by (intros x; destruct x; vm_compute; reflexivity).
  apply H.
Qed.

Lemma bits_length s : length (bits s) = (8 * length s)%nat.
Proof. induction s as [|b s IH]; [reflexivity|]. change (bits (b :: s)) with (byte_bits b ++ bits s). rewrite app_length, IH. change (length (byte_bits b)) with 8%nat. cbn [length]. lia. Qed.

Lemma bits_value_4 b0 b1 b2 b3 :
  bits_value (bits [b0; b1; b2; b3]) = (bN b0 * 2 ^ 24 + bN b1 * 2 ^ 16 + bN b2 * 2 ^ 8 + bN b3)%N.
Proof.
  cbn [bits flat_map]. rewrite !bits_value_app, !byte_bits_value.
  rewrite app_nil_r. rewrite !app_length.
  change (length (byte_bits b1)) with 8%nat. change (length (byte_bits b2)) with 8%nat.
  change (length (byte_bits b3)) with 8%nat. cbn [length Nat.add].
  change (N.of_nat 24) with 24%N. change (N.of_nat 16) with 16%N. change (N.of_nat 8) with 8%N.
  change (2 ^ N.of_nat 0)%N with 1%N. change (bits_value []) with 0%N. lia.
Qed.

Lemma bucketHashToID_bits h k : (0 <= k <= 32)%Z -> (4 <= length h)%nat ->
  bucketHashToID h k = Ok (bits_value (firstn (Z.to_nat k) (bits h))).
Proof.
  intros Hk Hh. destruct h as [|b0 [|b1 [|b2 [|b3 h]]]]; cbn [length] in Hh; try lia.
  unfold bucketHashToID. destruct (32 <? k)%Z eqn:E; [lia|].
  change (get_be32 (b0 :: b1 :: b2 :: b3 :: h))
    with (Ok (bN b0 * 2 ^ 24 + bN b1 * 2 ^ 16 + bN b2 * 2 ^ 8 + bN b3)%N).
  cbn [bind]. destruct (k <? 0)%Z eqn:E'; [lia|]. f_equal.
  change (b0 :: b1 :: b2 :: b3 :: h) with ([b0; b1; b2; b3] ++ h).
  unfold bits. rewrite flat_map_app. fold (bits [b0; b1; b2; b3]). fold (bits h).
  rewrite firstn_app.
  replace (Z.to_nat k - length (bits [b0; b1; b2; b3]))%nat with 0%nat by (rewrite bits_length; cbn; lia).
  cbn [firstn]. rewrite app_nil_r.
  rewrite bits_value_firstn by (rewrite bits_length; cbn; lia).
  rewrite bits_length. change (8 * length [b0; b1; b2; b3])%nat with 32%nat.
  rewrite <- bits_value_4. set (v := bits_value (bits [b0; b1; b2; b3])).
  assert (Hv : (v < 2 ^ 32)%N).
  { pose proof (bits_value_lt (bits [b0; b1; b2; b3])) as L. rewrite bits_length in L. exact L. }
  rewrite N.shiftr_div_pow2.
  replace (N.of_nat (32 - Z.to_nat k)) with (Z.to_N (32 - k)) by lia.
  set (m := Z.to_N k).
  assert (Hm : (m <= 32)%N) by (unfold m; lia).
  replace (Z.to_N (32 - k)) with (32 - m)%N by (unfold m; lia).
  assert (Hmask : u32 (u32 (N.shiftl 1 m) + (2 ^ 32 - 1)) = N.ones m).
  { unfold u32. rewrite N.shiftl_1_l, N.ones_equiv.
    destruct (N.eq_dec m 32) as [->|Hne]; [reflexivity|].
    assert (P : (2 ^ m < 2 ^ 32)%N) by (apply N.pow_lt_mono_r; lia).
    assert (P0 : (0 < 2 ^ m)%N) by (apply N.neq_0_lt_0, N.pow_nonzero; discriminate).
    rewrite (N.mod_small (2 ^ m)) by exact P.
    replace (2 ^ m + (2 ^ 32 - 1))%N with (N.pred (2 ^ m) + 1 * 2 ^ 32)%N
      by (change (2 ^ 32)%N with 4294967296%N in *; lia).
    rewrite N.mod_add by discriminate. apply N.mod_small. lia. }
  rewrite Hmask, N.land_ones. apply N.mod_small.
  apply N.div_lt_upper_bound; [apply N.pow_nonzero; discriminate|].
  rewrite <- N.pow_add_r. replace (32 - m + m)%N with 32%N by lia. exact Hv.
Qed.

Lemma bucketHashToID_lt h k id : bucketHashToID h k = Ok id -> (id < 2 ^ Z.to_N k)%N /\ (0 <= k <= 32)%Z.
Proof.
  intros H.
  assert (Hk : (0 <= k <= 32)%Z).
  { unfold bucketHashToID in H. destruct (32 <? k)%Z eqn:E; [discriminate|].
    destruct (get_be32 h); cbn [bind] in H; try discriminate.
    destruct (k <? 0)%Z eqn:E'; [discriminate|]. lia. }
  assert (Hh : (4 <= length h)%nat).
  { unfold bucketHashToID in H. destruct (32 <? k)%Z; [discriminate|].
    destruct h as [|b0 [|b1 [|b2 [|b3 h]]]]; cbn in H; try discriminate. cbn. lia. }
  split; [|exact Hk].
  rewrite bucketHashToID_bits in H by assumption. injection H as <-.
  eapply N.lt_le_trans; [apply bits_value_lt|]. rewrite firstn_length.
  apply N.pow_le_mono_r; [discriminate|]. lia.
Qed.

Lemma bucketHashToID_bad h k : (k < 0 \/ 32 < k)%Z -> (4 <= length h)%nat ->
  exists m, bucketHashToID h k = Panic m.
Proof.
  intros Hk Hh. unfold bucketHashToID. destruct (32 <? k)%Z eqn:E; [eauto|].
  destruct (get_be32_ok h Hh) as (n & -> & _). cbn [bind].
  destruct (k <? 0)%Z eqn:E'; [eauto|]. lia.
Qed.

(** ** Hex *)

Lemma hex_digit_position n : (n < 16)%N -> position (hex_digit n) hex_alphabet = Some n.
Proof.
  intros H.
  assert (A : forallb (fun i => match position (hex_digit i) hex_alphabet with
                                | Some j => (i =? j)%N | None => false end)
              (map N.of_nat (seq 0 16)) = true) by (vm_compute; reflexivity).
  rewrite forallb_forall in A. specialize (A n).
  destruct (position (hex_digit n) hex_alphabet) as [j|].
  - f_equal. symmetry. apply N.eqb_eq. apply A. apply in_map_iff. exists (N.to_nat n).
    split; [lia|]. apply in_seq. lia.
  - exfalso. discriminate A. apply in_map_iff. exists (N.to_nat n). split; [lia|]. apply in_seq. lia.
Qed.

Lemma hex_digit_val n : (n < 16)%N -> hex_val (hex_digit n) = Some n.
Proof.
  intros H.
  assert (A : forallb (fun i => match hex_val (hex_digit i) with
                                | Some j => (i =? j)%N | None => false end)
              (map N.of_nat (seq 0 16)) = true) by (vm_compute; reflexivity).
  rewrite forallb_forall in A. specialize (A n).
  destruct (hex_val (hex_digit n)) as [j|].
  - f_equal. symmetry. apply N.eqb_eq. apply A. apply in_map_iff. exists (N.to_nat n).
    split; [lia|]. apply in_seq. lia.
  - exfalso. discriminate A. apply in_map_iff. exists (N.to_nat n). split; [lia|]. apply in_seq. lia.
Qed.

Lemma hi_lt b : (bN b / 16 < 16)%N.
Proof. pose proof (bN_lt b). apply N.div_lt_upper_bound; lia. Qed.
Lemma lo_lt b : (bN b mod 16 < 16)%N.
Proof. apply N.mod_lt. discriminate. Qed.

Lemma hex_decode_encode b : hex_decode (hex_encode b) = Ok b.
Proof.
  induction b as [|x b IH]; [reflexivity|].
  unfold hex_encode in *. cbn [flat_map app hex_decode].
  rewrite (hex_digit_val _ (hi_lt x)), (hex_digit_val _ (lo_lt x)), IH. cbn [bind].
  f_equal. f_equal. rewrite <- N.div_mod by discriminate. apply nB_bN.
Qed.

Lemma hex_encode_alphabet b : Forall (fun c => In c hex_alphabet) (hex_encode b).
Proof.
  assert (A : forall n, (n < 16)%N -> In (hex_digit n) hex_alphabet).
  { intros n Hn. pose proof (hex_digit_position n Hn) as P. revert P. generalize (hex_digit n) as c.
    revert n Hn. generalize hex_alphabet as l. intros l.
    assert (Q : forall c n, position c l = Some n -> In c l).
    { induction l as [|x l IH]; cbn [position]; intros c n; [discriminate|].
      destruct (Byte.eqb x c) eqn:E.
      - intros _. left. apply Byte.byte_dec_bl. exact E.
      - destruct (position c l) eqn:Ep; [|discriminate]. intros _. right. eapply IH. exact Ep. }
    intros n _ c P. eapply Q. exact P. }
  induction b as [|x b IH]; [constructor|].
  unfold hex_encode in *. cbn [flat_map app]. constructor; [|constructor]; auto using hi_lt, lo_lt.
Qed.

Lemma hex_encode_length b : length (hex_encode b) = (2 * length b)%nat.
Proof. induction b as [|x b IH]; [reflexivity|]. unfold hex_encode in *. cbn [flat_map app length]. rewrite IH. lia. Qed.

Lemma BucketIDToHex_value n : (n < 2 ^ 32)%N -> hex_value (BucketIDToHex n) = Some n.
Proof.
  intros H. unfold BucketIDToHex, be32, hex_value, hex_encode. cbn [flat_map app fold_left].
  rewrite !(hex_digit_position _ (hi_lt _)), !(hex_digit_position _ (lo_lt _)). f_equal.
  pose proof (get_be32_small n [] H) as G. unfold be32 in G. cbn [app get_be32] in G.
  apply Ok_inj in G.
  set (x0 := bN (nB (n / 2 ^ 24))) in *. set (x1 := bN (nB (n / 2 ^ 16))) in *.
  set (x2 := bN (nB (n / 2 ^ 8))) in *. set (x3 := bN (nB n)) in *.
  clearbody x0 x1 x2 x3.
  pose proof (N.div_mod x0 16 ltac:(discriminate)). pose proof (N.div_mod x1 16 ltac:(discriminate)).
  pose proof (N.div_mod x2 16 ltac:(discriminate)). pose proof (N.div_mod x3 16 ltac:(discriminate)).
  change (2 ^ 24)%N with 16777216%N in G. change (2 ^ 16)%N with 65536%N in G. change (2 ^ 8)%N with 256%N in G.
  lia.
Qed.

Lemma BucketIDToHex_inj a b : (a < 2 ^ 32)%N -> (b < 2 ^ 32)%N -> BucketIDToHex a = BucketIDToHex b -> a = b.
Proof.
  intros Ha Hb H. apply BucketIDToHex_value in Ha, Hb. congruence.
Qed.

(** ** Flags *)

Lemma Valid_iff f : MetadataType_Valid f = true <-> (bN f < 4)%N.
Proof.
  unfold MetadataType_Valid. rewrite !orb_true_iff, !beqb_eq.
  unfold MetadataDummy, MetadataBreachedPassword, MetadataSimilarPassword, MetadataBreachedUsername.
  split.
  - intros [[[->| ->]| ->]| ->]; vm_compute; reflexivity.
  - intros H. assert (C : bN f = 0%N \/ bN f = 1%N \/ bN f = 2%N \/ bN f = 3%N) by lia.
    destruct C as [C|[C|[C|C]]]; (replace f with (nB (bN f)) by apply nB_bN); rewrite C; vm_compute; auto.
Qed.

(** ** Bucket hash *)

Lemma bucket_preimage_inj salt u u' : bucket_preimage salt u = bucket_preimage salt u' -> u = u'.
Proof.
  unfold bucket_preimage. intros H. apply app_inv_head in H. apply app_inv_head in H.
  apply app_inv_length in H as [_ H]; [exact H|reflexivity].
Qed.

Lemma bucket_hash_ok u : (blen u <= 65536)%Z ->
  BucketHasher_Hash NewSHA256BucketHasher u = Ok (sha256 (bucket_preimage BucketHashSalt u)).
Proof.
  intros H. unfold BucketHasher_Hash, NewSHA256BucketHasher.
  destruct (65536 <? blen u)%Z eqn:E; [lia|]. reflexivity.
Qed.

Lemma bucket_hash_panic u : (65536 < blen u)%Z ->
  BucketHasher_Hash NewSHA256BucketHasher u = Panic "Invalid input".
Proof.
  intros H. unfold BucketHasher_Hash, NewSHA256BucketHasher.
  destruct (65536 <? blen u)%Z eqn:E; [|lia]. reflexivity.
Qed.

Lemma scrypt_hash_ok buf : exists h, SlowHasher_Hash NewScryptSlowHasher buf = Ok h /\ length h = 32%nat.
Proof.
  unfold SlowHasher_Hash, NewScryptSlowHasher, scrypt_key. cbv zeta.
  change ((ScryptN <=? 1)%Z || negb (Z.land ScryptN (ScryptN - 1) =? 0)%Z) with false. cbv iota.
  change ((2 ^ 30 <=? Scryptr * Scryptp)%Z || ((2 ^ (64 - 1) - 1) / 128 / Scryptp <? Scryptr)%Z
          || ((2 ^ (64 - 1) - 1) / 256 <? Scryptr)%Z || ((2 ^ (64 - 1) - 1) / 128 / Scryptr <? ScryptN)%Z)
    with false. cbv iota.
  eexists. split; [reflexivity|]. rewrite scrypt_core_length. reflexivity.
Qed.

Lemma scrypt_key_32_64 buf :
  scrypt_key 32 buf SlowHashSalt ScryptN Scryptr Scryptp SlowHashLen
  = scrypt_key 64 buf SlowHashSalt ScryptN Scryptr Scryptp SlowHashLen.
Proof. reflexivity. Qed.

(** ** Statements used by the property file *)
Lemma serialize_readable u p : (blen u <= 65535)%Z -> (blen p <= 65535)%Z ->
  exists s, serializeUsernamePassword u p = Ok s /\ read_credential s = Some (u, p).
Proof.
  intros Hu Hp. eexists. split; [apply serialize_ok; lia|].
  apply serialize_read; auto. apply serialize_ok; lia.
Qed.

Lemma serialize_collision_witness : exists u p u' p' s : bytes,
  (u, p) <> (u', p') /\ blen u = 65536%Z /\
  serializeUsernamePassword u p = Ok s /\ serializeUsernamePassword u' p' = Ok s.
Proof.
  destruct serialize_collision as (s & H1 & H2).
  exists (repeat Byte.x00 (N.to_nat 65536)), [], [], (repeat Byte.x00 (N.to_nat 65536)), s.
  assert (B : blen (repeat Byte.x00 (N.to_nat 65536)) = 65536%Z) by (rewrite blen_repeat; lia).
  split; [|auto]. intros E. apply pair_inj in E as [E _]. rewrite E in B. discriminate B.
Qed.

Lemma bucket_id_leading_bits h k : (4 <= length h)%nat -> (0 <= k <= 32)%Z ->
  bucketHashToID h k = Ok (bits_value (firstn (Z.to_nat k) (bits h)))
  /\ (bits_value (firstn (Z.to_nat k) (bits h)) < 2 ^ Z.to_N k)%N.
Proof.
  intros Hh Hk. pose proof (bucketHashToID_bits h k Hk Hh) as E. split; [exact E|].
  apply (bucketHashToID_lt h). exact E.
Qed.

Lemma hex_form id : (id < 2 ^ 32)%N ->
  length (BucketIDToHex id) = 8%nat
  /\ Forall (fun c => In c (str "0123456789abcdef")) (BucketIDToHex id)
  /\ hex_value (BucketIDToHex id) = Some id
  /\ hex_decode (BucketIDToHex id) = Ok (be32 id).
Proof.
  intros H. split; [reflexivity|]. split; [apply hex_encode_alphabet|].
  split; [apply BucketIDToHex_value, H|apply hex_decode_encode].
Qed.

Lemma ToBreachStatus_cases f :
  ToBreachStatus f = (if (bN f =? 1)%N then InBreach else if (bN f =? 2)%N then SimilarInBreach
                      else if (bN f =? 3)%N then UsernameInBreach else NotInBreach).
Proof. destruct f; reflexivity. Qed.

Lemma bucket_preimage_form u :
  bucket_preimage BucketHashSalt u
  = [Byte.x00; Byte.x0b] ++ str "MIGP bucket" ++ be16 (N.of_nat (length u) mod 65536) ++ u.
Proof. reflexivity. Qed.

Lemma bucket_hash_defined u :
  ((blen u <= 65536)%Z ->
     BucketHasher_Hash NewSHA256BucketHasher u
     = Ok (sha256 ([Byte.x00; Byte.x0b] ++ str "MIGP bucket" ++ be16 (N.of_nat (length u) mod 65536) ++ u)))
  /\ ((65536 < blen u)%Z -> exists m, BucketHasher_Hash NewSHA256BucketHasher u = Panic m).
Proof.
  rewrite <- bucket_preimage_form. split; intros H.
  - apply bucket_hash_ok, H.
  - eexists. apply bucket_hash_panic, H.
Qed.

Lemma bucket_preimage_injective u u' :
  [Byte.x00; Byte.x0b] ++ str "MIGP bucket" ++ be16 (N.of_nat (length u) mod 65536) ++ u
  = [Byte.x00; Byte.x0b] ++ str "MIGP bucket" ++ be16 (N.of_nat (length u') mod 65536) ++ u' -> u = u'.
Proof. rewrite <- !bucket_preimage_form. apply bucket_preimage_inj. Qed.

Lemma scrypt_never_fails buf :
  (exists h, SlowHasher_Hash NewScryptSlowHasher buf = Ok h /\ length h = 32%nat)
  /\ scrypt_key 32 buf SlowHashSalt ScryptN Scryptr Scryptp SlowHashLen
     = SlowHasher_Hash NewScryptSlowHasher buf.
Proof.
  split; [apply scrypt_hash_ok|]. rewrite scrypt_key_32_64.
  destruct (scrypt_hash_ok buf) as (h & H & _). unfold SlowHasher_Hash, NewScryptSlowHasher in *.
  destruct (scrypt_key _ _ _ _ _ _ _); congruence.
Qed.
