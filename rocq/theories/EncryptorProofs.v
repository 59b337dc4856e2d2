(** * Lemmas about pkg/migp/encryptor.go. *)
From Verif Require Import Base BaseProofs LibProofs Sha256 Hkdf Common CommonProofs Encryptor SpecEntry.

Lemma map2_xor a b : map2 bxor a b = xor a b.
Proof.
  revert b; induction a as [|x a IH]; destruct b as [|y b]; cbn; try reflexivity.
  rewrite IH. reflexivity.
Qed.

Lemma xor_length a b : length a = length b -> length (xor a b) = length a.
Proof. revert b; induction a as [|x a IH]; destruct b as [|y b]; cbn; intros H; try discriminate; auto. Qed.

Lemma xor_cancel a b : length a = length b -> xor (xor a b) b = a.
Proof.
  revert b; induction a as [|x a IH]; destruct b as [|y b]; cbn; intros H; try discriminate; [reflexivity|].
  rewrite bxor_cancel, IH by lia. reflexivity.
Qed.

Lemma xor_zeros n b : length b = n -> xor (zeros n) b = b.
Proof.
  revert b; induction n as [|n IH]; destruct b as [|y b]; cbn; intros H; try discriminate; [reflexivity|].
  rewrite bxor_0_l, IH by lia. reflexivity.
Qed.

Lemma xor_app a b c d : length a = length c -> xor (a ++ b) (c ++ d) = xor a c ++ xor b d.
Proof.
  revert c; induction a as [|x a IH]; destruct c as [|y c]; cbn; intros H; try discriminate; [reflexivity|].
  rewrite IH by lia. reflexivity.
Qed.

Lemma xor_assoc a b c : length a = length b -> length b = length c -> xor (xor a b) c = xor a (xor b c).
Proof.
  revert b c; induction a as [|x a IH]; intros [|y b] [|z c]; cbn; intros H H'; try discriminate; [reflexivity|].
  rewrite bxor_assoc, IH by lia. reflexivity.
Qed.

Lemma xor_comm a b : xor a b = xor b a.
Proof.
  revert b; induction a as [|x a IH]; destruct b as [|y b]; cbn; try reflexivity.
  rewrite bxor_comm, IH. reflexivity.
Qed.

Lemma xorBytes_ok a b : length a = length b -> xorBytes a b = Ok (xor a b).
Proof.
  intros H. unfold xorBytes. rewrite (proj2 (Nat.eqb_eq _ _) H), map2_xor. reflexivity.
Qed.

(** ** Pads *)
Lemma hkdf_length secret salt n : (N.of_nat n <= 8160)%N -> length (hkdf secret salt n) = n.
Proof.
  intros H. unfold hkdf. destruct (hkdf_read_ok secret (str salt) [] n H) as (p & -> & L). exact L.
Qed.

Lemma derivePad_ok secret salt n : (N.of_nat n <= 8160)%N ->
  derivePad secret (str salt) n = Ok (hkdf secret salt n).
Proof.
  intros H. unfold derivePad, hkdf. destruct (hkdf_read_ok secret (str salt) [] n H) as (p & -> & L).
  cbn [bind]. rewrite (proj2 (Nat.eqb_eq _ _) L). reflexivity.
Qed.

Lemma derivePad_err secret salt n : (8160 < N.of_nat n)%N -> derivePad secret salt n = Err "hkdf: entropy limit reached".
Proof. intros H. unfold derivePad. rewrite hkdf_read_err by exact H. reflexivity. Qed.

Lemma derivePad_np secret salt n m : derivePad secret salt n <> Panic m.
Proof.
  unfold derivePad. destruct (N.le_gt_cases (N.of_nat n) 8160) as [H|H].
  - destruct (hkdf_read_ok secret salt [] n H) as (p & -> & L). cbn [bind].
    rewrite (proj2 (Nat.eqb_eq _ _) L). discriminate.
  - rewrite hkdf_read_err by exact H. discriminate.
Qed.

Lemma header_pad_split secret :
  hkdf secret "MIGP derive pad header" 21 = key_check secret ++ [flag_mask secret].
Proof.
  unfold flag_mask. set (h := hkdf secret "MIGP derive pad header" 21).
  assert (L : length h = 21%nat) by (unfold h; apply hkdf_length; lia).
  assert (F : key_check secret = firstn 20 h).
  { unfold key_check, h, hkdf, hkdf_read, hkdf_limit.
    change (8160 <? N.of_nat 20)%N with false. change (8160 <? N.of_nat 21)%N with false. cbv iota.
    change ((20 + 31) / 32)%nat with 1%nat. change ((21 + 31) / 32)%nat with 1%nat.
    rewrite firstn_firstn. reflexivity. }
  rewrite F. clearbody h. clear F.
  rewrite <- (firstn_skipn 20 h) at 1. f_equal.
  do 21 (destruct h as [|? h]; [discriminate L|]). destruct h; [|discriminate L]. reflexivity.
Qed.

Lemma key_check_length secret : length (key_check secret) = 20%nat.
Proof. unfold key_check. apply (hkdf_length secret "MIGP derive pad header" 20). lia. Qed.

Lemma body_mask_length secret n : (N.of_nat n <= 8160)%N -> length (body_mask secret n) = n.
Proof. exact (hkdf_length secret "MIGP derive pad body" n). Qed.

(** ** Encryption produces the specified entry *)
Lemma Encrypt_ok e secret flag body : (blen body <= 8160)%Z ->
  Encrypt e secret flag body = Ok (entry_bytes (make_entry secret flag body)).
Proof.
  intros H. unfold blen in H. unfold Encrypt.
  change DerivePadHeaderSalt with (str "MIGP derive pad header").
  change DerivePadBodySalt with (str "MIGP derive pad body").
  change (CtxtKeyCheckSize + 1)%nat with 21%nat. change CtxtKeyCheckSize with 20%nat.
  rewrite derivePad_ok by lia. cbn [bind]. cbv zeta.
  rewrite header_pad_split, xorBytes_ok
    by (rewrite !app_length, key_check_length; reflexivity).
  cbn [bind]. rewrite derivePad_ok by lia. cbn [bind].
  fold (body_mask secret (length body)).
  rewrite xorBytes_ok by (rewrite body_mask_length by lia; reflexivity). cbn [bind].
  f_equal. unfold entry_bytes, make_entry; cbn [e_check e_flag e_body].
  rewrite xor_app by (rewrite key_check_length; reflexivity).
  rewrite xor_zeros by apply key_check_length.
  rewrite xor_length by (rewrite body_mask_length by lia; reflexivity).
  unfold u32. rewrite N.mod_small by (change (2 ^ 32)%N with 4294967296%N; lia).
  rewrite <- app_assoc. reflexivity.
Qed.

Lemma Encrypt_err e secret flag body : (8160 < blen body)%Z ->
  Encrypt e secret flag body = Err "hkdf: entropy limit reached".
Proof.
  intros H. unfold blen in H. unfold Encrypt.
  change DerivePadHeaderSalt with (str "MIGP derive pad header").
  change (CtxtKeyCheckSize + 1)%nat with 21%nat. change CtxtKeyCheckSize with 20%nat.
  rewrite derivePad_ok by lia. cbn [bind]. cbv zeta.
  rewrite header_pad_split, xorBytes_ok
    by (rewrite !app_length, key_check_length; reflexivity).
  cbn [bind]. rewrite derivePad_err by lia. reflexivity.
Qed.

Lemma Encrypt_np e secret flag body m : Encrypt e secret flag body <> Panic m.
Proof.
  destruct (Z.le_gt_cases (blen body) 8160) as [H|H].
  - rewrite Encrypt_ok by exact H. discriminate.
  - rewrite Encrypt_err by lia. discriminate.
Qed.

Lemma make_entry_ok secret flag body : (blen body <= 8160)%Z -> entry_ok (make_entry secret flag body).
Proof.
  intros H. split; [apply key_check_length|]. unfold make_entry, blen in *. cbn [e_body].
  rewrite xor_length by (rewrite body_mask_length by lia; reflexivity). lia.
Qed.

Lemma entry_bytes_length e : length (e_check e) = 20%nat ->
  length (entry_bytes e) = (25 + length (e_body e))%nat.
Proof. intros H. unfold entry_bytes. rewrite !app_length, be32_length, H. cbn. lia. Qed.

(** ** Decryption of the header *)
Lemma bytes_eqb_key secret e : bytes_eqb (key_check secret) (e_check e) = entry_matches secret e.
Proof. unfold entry_matches. apply bytes_eqb_sym. Qed.

(** Shape of every string long enough to hold a header. *)
Lemma header_shape t : (25 <= length t)%nat ->
  exists check flag n rest, t = check ++ [flag] ++ be32 n ++ rest /\ length check = 20%nat /\ (n < 2 ^ 32)%N.
Proof.
  intros H. exists (firstn 20 t), (nth 20 t Byte.x00).
  assert (L : (4 <= length (skipn 21 t))%nat) by (rewrite skipn_length; lia).
  destruct (get_be32_ok _ L) as (n & G & Hn).
  exists n, (skipn 25 t). split; [|split; [rewrite firstn_length; lia|exact Hn]].
  rewrite <- (be32_get _ _ G).
  rewrite <- (firstn_skipn 20 t) at 1. f_equal.
  assert (E : skipn 20 t = nth 20 t Byte.x00 :: skipn 21 t).
  { clear G L. do 21 (destruct t as [|? t]; [cbn in H; lia|]). reflexivity. }
  rewrite E. cbn [app]. f_equal.
  rewrite <- (firstn_skipn 4 (skipn 21 t)) at 1. f_equal. apply skipn_skipn'.
Qed.

Lemma DecryptHeader_spec iw e secret check flag n rest :
  length check = 20%nat -> (n < 2 ^ 32)%N ->
  DecryptHeader iw e secret (check ++ [flag] ++ be32 n ++ rest)
  = Ok (bytes_eqb (key_check secret) check, bxor flag (flag_mask secret), int_wrap iw (Z.of_N n)).
Proof.
  intros L Hn. unfold DecryptHeader.
  destruct (_ <? HeaderSize)%nat eqn:E.
  { apply Nat.ltb_lt in E. unfold HeaderSize, CtxtKeyCheckSize in E.
    rewrite !app_length, be32_length, L in E. cbn [length] in E. lia. }
  change DerivePadHeaderSalt with (str "MIGP derive pad header").
  change (CtxtKeyCheckSize + 1)%nat with 21%nat. change CtxtKeyCheckSize with 20%nat.
  rewrite derivePad_ok by lia. cbn [bind]. cbv zeta. rewrite header_pad_split.
  rewrite (firstn_app_exact (key_check secret)) by apply key_check_length.
  rewrite (firstn_app_exact check) by exact L.
  rewrite !app_nth2 by (rewrite ?key_check_length, ?L; lia).
  rewrite key_check_length, L. change (20 - 20)%nat with 0%nat. cbn [nth app].
  replace (skipn 21 (check ++ flag :: be32 n ++ rest)) with (be32 n ++ rest).
  2:{ change (check ++ flag :: be32 n ++ rest) with (check ++ [flag] ++ be32 n ++ rest).
      rewrite app_assoc. symmetry. apply skipn_app_exact. rewrite app_length, L. reflexivity. }
  rewrite get_be32_small by exact Hn. cbn [bind]. rewrite bxor_comm. reflexivity.
Qed.

Lemma DecryptHeader_entry iw e secret en rest : entry_ok en ->
  DecryptHeader iw e secret (entry_bytes en ++ rest)
  = Ok (entry_matches secret en, entry_open_flag secret en, int_wrap iw (blen (e_body en))).
Proof.
  intros [L B]. unfold entry_bytes. rewrite <- !app_assoc.
  rewrite DecryptHeader_spec.
  - rewrite bytes_eqb_key. unfold entry_open_flag, blen. rewrite nat_N_Z. reflexivity.
  - exact L.
  - unfold blen in B. change (2 ^ 32)%N with 4294967296%N. change (2 ^ 32)%Z with 4294967296%Z in B. lia.
Qed.

Lemma DecryptHeader_short iw e secret t : (length t < 25)%nat ->
  exists m, DecryptHeader iw e secret t = Err m.
Proof.
  intros H. unfold DecryptHeader. rewrite (proj2 (Nat.ltb_lt _ _)) by exact H. eauto.
Qed.

Lemma DecryptHeader_total iw e secret t :
  (exists m, DecryptHeader iw e secret t = Err m /\ (length t < 25)%nat)
  \/ (exists v, DecryptHeader iw e secret t = Ok v /\ (25 <= length t)%nat).
Proof.
  destruct (Nat.lt_ge_cases (length t) 25) as [H|H].
  - left. destruct (DecryptHeader_short iw e secret t H) as [m ->]. eauto.
  - right. destruct (header_shape t H) as (c & f & n & r & -> & L & Hn).
    rewrite DecryptHeader_spec by assumption. eauto.
Qed.

Lemma DecryptBody_ok e secret c : (blen c <= 8160)%Z ->
  DecryptBody e secret c = Ok (xor c (body_mask secret (length c))).
Proof.
  intros H. unfold blen in H. unfold DecryptBody.
  change DerivePadBodySalt with (str "MIGP derive pad body").
  rewrite derivePad_ok by lia. cbn [bind]. apply xorBytes_ok.
  symmetry. apply (hkdf_length secret "MIGP derive pad body"). lia.
Qed.

Lemma DecryptBody_err e secret c : (8160 < blen c)%Z ->
  DecryptBody e secret c = Err "hkdf: entropy limit reached".
Proof. intros H. unfold blen in H. unfold DecryptBody. rewrite derivePad_err by lia. reflexivity. Qed.

Lemma make_entry_matches s s' f b :
  entry_matches s' (make_entry s f b) = true <-> key_check s = key_check s'.
Proof. unfold entry_matches, make_entry. cbn [e_check]. apply bytes_eqb_eq. Qed.

Lemma make_entry_open s f b : (blen b <= 8160)%Z ->
  entry_matches s (make_entry s f b) = true
  /\ entry_open_flag s (make_entry s f b) = f
  /\ length (e_body (make_entry s f b)) = length b
  /\ entry_open_body s (make_entry s f b) = b.
Proof.
  intros H. unfold blen in H. unfold entry_matches, entry_open_flag, entry_open_body, make_entry.
  cbn [e_check e_flag e_body].
  assert (L : length (xor b (body_mask s (length b))) = length b)
    by (apply xor_length; rewrite body_mask_length by lia; reflexivity).
  repeat split.
  - apply bytes_eqb_refl.
  - apply bxor_cancel.
  - exact L.
  - rewrite L. apply xor_cancel. rewrite body_mask_length by lia. reflexivity.
Qed.

(** ** Malleability *)
Lemma make_entry_xor s f b d delta : (blen b <= 8160)%Z -> length delta = length b ->
  make_entry s (bxor f d) (xor b delta)
  = {| e_check := e_check (make_entry s f b);
       e_flag := bxor (e_flag (make_entry s f b)) d;
       e_body := xor (e_body (make_entry s f b)) delta |}.
Proof.
  intros H L. unfold blen in H. unfold make_entry. cbn [e_check e_flag e_body].
  rewrite (xor_length b delta) by lia.
  f_equal.
  - rewrite !bxor_assoc. f_equal. apply bxor_comm.
  - rewrite !xor_assoc by (rewrite ?body_mask_length by lia; lia). f_equal. apply xor_comm.
Qed.

Lemma xor_self a : xor a a = zeros (length a).
Proof. induction a as [|x a IH]; cbn; [reflexivity|]. rewrite bxor_nilpotent, IH. reflexivity. Qed.

Lemma pad_reuse s f b f' b' : (blen b <= 8160)%Z -> length b' = length b ->
  xor (entry_bytes (make_entry s f b)) (entry_bytes (make_entry s f' b'))
  = zeros 20 ++ [bxor f f'] ++ zeros 4 ++ xor b b'.
Proof.
  intros H L. unfold blen in H. unfold entry_bytes, make_entry. cbn [e_check e_flag e_body].
  assert (M : length (body_mask s (length b)) = length b) by (apply body_mask_length; lia).
  rewrite L, !xor_length by lia. rewrite L.
  rewrite xor_app by reflexivity. rewrite xor_self, key_check_length. f_equal.
  rewrite xor_app by reflexivity. cbn [xor]. f_equal.
  { f_equal. rewrite (bxor_comm f'), bxor_assoc, <- (bxor_assoc (flag_mask s)), bxor_nilpotent, bxor_0_l. reflexivity. }
  rewrite xor_app by reflexivity. rewrite xor_self, be32_length. f_equal.
  rewrite (xor_comm b'), xor_assoc by (rewrite ?xor_length; lia).
  rewrite <- (xor_assoc _ _ b') by lia.
  rewrite xor_self, M. rewrite xor_zeros by lia. reflexivity.
Qed.

(** ** Statements used by the property file *)
Lemma Encrypt_inv e secret flag body ct : Encrypt e secret flag body = Ok ct ->
  (blen body <= 8160)%Z /\ ct = entry_bytes (make_entry secret flag body).
Proof.
  intros H. destruct (Z.le_gt_cases (blen body) 8160) as [L|L].
  - split; [exact L|]. rewrite Encrypt_ok in H by exact L. apply Ok_inj in H. auto.
  - rewrite Encrypt_err in H by lia. discriminate.
Qed.

Lemma slice_at (a b : bytes) (c : bytes) (lo hi : Z) : blen a = lo -> (lo + blen b = hi)%Z ->
  slice (a ++ b ++ c) lo hi = Ok b.
Proof.
  intros <- <-. unfold slice, blen. rewrite !app_length.
  replace (_ || _ || _) with false by lia.
  replace (Z.to_nat (Z.of_nat (length a) + Z.of_nat (length b) - Z.of_nat (length a))) with (length b) by lia.
  rewrite Nat2Z.id, skipn_app_exact, firstn_app_exact by reflexivity. reflexivity.
Qed.

Lemma wrap_small_body iw n : (32 <= iw)%Z -> (0 <= n <= 8160)%Z -> int_wrap iw n = n.
Proof.
  intros Hw Hn. apply int_wrap_small; [lia|].
  assert (2 ^ 31 <= 2 ^ (iw - 1))%Z by (apply Z.pow_le_mono_r; lia).
  change (2 ^ 31)%Z with 2147483648%Z in *. lia.
Qed.

Lemma entry_roundtrip enc iw secret flag body rest : (32 <= iw)%Z -> (blen body <= 8160)%Z ->
  exists ct, Encrypt enc secret flag body = Ok ct
    /\ DecryptHeader iw enc secret (ct ++ rest) = Ok (true, flag, blen body)
    /\ exists cbody, slice (ct ++ rest) 25 (25 + blen body) = Ok cbody
                     /\ DecryptBody enc secret cbody = Ok body.
Proof.
  intros Hw H. destruct (make_entry_open secret flag body H) as (M & F & L & B).
  pose proof (make_entry_ok secret flag body H) as O.
  eexists. split; [apply Encrypt_ok, H|]. split.
  - rewrite DecryptHeader_entry by exact O. rewrite M, F. unfold blen in *. rewrite L.
    rewrite wrap_small_body by lia. reflexivity.
  - exists (e_body (make_entry secret flag body)). split.
    + unfold entry_bytes at 1. rewrite !app_assoc, <- app_assoc. apply slice_at.
      * unfold blen. rewrite !app_length, be32_length. destruct O as [-> _]. reflexivity.
      * unfold blen. rewrite L. reflexivity.
    + rewrite DecryptBody_ok by (unfold blen in *; rewrite L; exact H). f_equal. exact B.
Qed.

Lemma entry_size enc secret flag body ct : Encrypt enc secret flag body = Ok ct ->
  blen ct = (25 + blen body)%Z /\ get_be32 (skipn 21 ct) = Ok (N.of_nat (length body)).
Proof.
  intros H. apply Encrypt_inv in H as [H ->].
  destruct (make_entry_open secret flag body H) as (_ & _ & L & _).
  destruct (make_entry_ok secret flag body H) as [C _]. unfold blen in *. split.
  - rewrite entry_bytes_length by exact C. rewrite L. lia.
  - unfold entry_bytes. rewrite app_assoc, skipn_app_exact by (rewrite app_length, C; reflexivity).
    rewrite L. apply get_be32_small. change (2 ^ 32)%N with 4294967296%N. lia.
Qed.

Lemma size_limit enc secret flag body :
  ((8160 < blen body)%Z <-> exists m, Encrypt enc secret flag body = Err m)
  /\ forall m, Encrypt enc secret flag body <> Panic m.
Proof.
  split; [|intros m; apply Encrypt_np]. split.
  - intros H. eexists. apply Encrypt_err, H.
  - intros [m H]. destruct (Z.le_gt_cases (blen body) 8160) as [L|L]; [|lia].
    rewrite Encrypt_ok in H by exact L. discriminate.
Qed.

Lemma key_check_exact enc iw secret secret' flag body ct rest :
  Encrypt enc secret flag body = Ok ct ->
  exists ok flag' n, DecryptHeader iw enc secret' (ct ++ rest) = Ok (ok, flag', n)
    /\ (ok = true <-> key_check secret = key_check secret').
Proof.
  intros H. apply Encrypt_inv in H as [H ->]. do 3 eexists. split.
  - apply DecryptHeader_entry, make_entry_ok, H.
  - apply make_entry_matches.
Qed.

Lemma header_errors enc iw secret ct :
  ((length ct < 25)%nat <-> exists m, DecryptHeader iw enc secret ct = Err m)
  /\ forall m, DecryptHeader iw enc secret ct <> Panic m.
Proof.
  destruct (DecryptHeader_total iw enc secret ct) as [(m & E & L)|(v & E & L)]; rewrite E; split.
  - split; [eauto|intros _; exact L].
  - discriminate.
  - split; [lia|intros [m M]; discriminate].
  - discriminate.
Qed.

Lemma xor_zeros_r a n : length a = n -> xor a (zeros n) = a.
Proof. intros H. rewrite xor_comm. apply xor_zeros, H. Qed.

Lemma malleable enc iw secret flag d body delta ct :
  (32 <= iw)%Z -> length delta = length body ->
  Encrypt enc secret flag body = Ok ct ->
  let ct' := xor ct (zeros 20 ++ [d] ++ zeros 4 ++ delta) in
  DecryptHeader iw enc secret ct' = Ok (true, bxor flag d, blen body)
  /\ DecryptBody enc secret (skipn 25 ct') = Ok (xor body delta).
Proof.
  intros Hw L H. apply Encrypt_inv in H as [H ->]. cbv zeta.
  assert (Lx : length (xor body delta) = length body) by (apply xor_length; lia).
  destruct (make_entry_open secret flag body H) as (_ & _ & Lb & _).
  destruct (make_entry_ok secret flag body H) as [C _].
  set (e' := make_entry secret (bxor flag d) (xor body delta)).
  assert (E : xor (entry_bytes (make_entry secret flag body)) (zeros 20 ++ [d] ++ zeros 4 ++ delta)
              = entry_bytes e').
  { unfold e'. rewrite make_entry_xor by assumption. unfold entry_bytes. cbn [e_check e_flag e_body].
    rewrite xor_app by exact C. rewrite (xor_zeros_r _ 20) by exact C. f_equal.
    rewrite xor_app by reflexivity. cbn [xor]. f_equal.
    rewrite xor_app by reflexivity. rewrite (xor_zeros_r _ 4) by reflexivity. f_equal.
    rewrite xor_length by lia. reflexivity. }
  assert (H' : (blen (xor body delta) <= 8160)%Z) by (unfold blen in *; rewrite Lx; exact H).
  destruct (make_entry_open secret (bxor flag d) (xor body delta) H') as (M & F & L2 & B).
  rewrite E. split.
  - rewrite <- (app_nil_r (entry_bytes e')). unfold e'.
    rewrite DecryptHeader_entry by (apply make_entry_ok, H'). rewrite M, F. unfold blen in *. rewrite L2, Lx.
    rewrite wrap_small_body by lia. reflexivity.
  - replace (skipn 25 (entry_bytes e')) with (e_body e').
    + unfold e'. rewrite DecryptBody_ok by (unfold blen in *; rewrite L2; exact H'). f_equal. exact B.
    + unfold entry_bytes, e'. rewrite !app_assoc. symmetry. apply skipn_app_exact.
      rewrite !app_length, be32_length, (proj1 (make_entry_ok secret _ _ H')). reflexivity.
Qed.

Lemma pad_reuse_enc enc secret f f' b b' c c' : length b = length b' ->
  Encrypt enc secret f b = Ok c -> Encrypt enc secret f' b' = Ok c' ->
  xor c c' = zeros 20 ++ [bxor f f'] ++ zeros 4 ++ xor b b'.
Proof.
  intros L H H'. apply Encrypt_inv in H as [H ->]. apply Encrypt_inv in H' as [_ ->].
  apply pad_reuse; [exact H|congruence].
Qed.
