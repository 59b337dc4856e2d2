(** * murmur3: inputs of one length that differ in one block only do not
    collide. *)
From Coq Require Import Lia ZArith.
From Verif Require Import Base BaseProofs Sha256 Murmur3.
Local Open Scope N_scope.

Lemma w32_mod n : w32 n = n mod 2 ^ 32.
Proof. unfold w32. change mask32 with (N.ones 32). apply N.land_ones. Qed.
Lemma w32_lt n : w32 n < 2 ^ 32.
Proof. rewrite w32_mod. apply N.mod_lt. discriminate. Qed.
Lemma small n i : n < 2 ^ 32 -> 32 <= i -> N.testbit n i = false.
Proof.
  intros H Hi. destruct (N.eq_dec n 0) as [->|N0]; [apply N.bits_0|]. apply N.bits_above_log2. apply N.log2_lt_pow2 in H; lia.
Qed.
Lemma lt_bits n : (forall i, 32 <= i -> N.testbit n i = false) -> n < 2 ^ 32.
Proof.
  intros H. replace n with (n mod 2 ^ 32); [apply N.mod_lt; discriminate|].
  apply N.bits_inj. intros i. destruct (N.lt_ge_cases i 32) as [L|L].
  - apply N.mod_pow2_bits_low. exact L.
  - rewrite N.mod_pow2_bits_high by exact L. symmetry. apply H. exact L.
Qed.
Lemma lxor_lt a b : a < 2 ^ 32 -> b < 2 ^ 32 -> N.lxor a b < 2 ^ 32.
Proof. intros Ha Hb. apply lt_bits. intros i Hi. rewrite N.lxor_spec, !small by assumption. reflexivity. Qed.
Lemma lxor_inj_r a b c : N.lxor a c = N.lxor b c -> a = b.
Proof. intros H. apply (f_equal (fun x => N.lxor x c)) in H. rewrite !N.lxor_assoc, N.lxor_nilpotent, !N.lxor_0_r in H. exact H. Qed.
Lemma lxor_inj_l a b c : N.lxor c a = N.lxor c b -> a = b.
Proof. rewrite !(N.lxor_comm c). apply lxor_inj_r. Qed.

Lemma mul32_inv c c' a : (c * c') mod 2 ^ 32 = 1 -> a < 2 ^ 32 -> mul32 (mul32 a c) c' = a.
Proof.
  intros H Ha. unfold mul32. rewrite !w32_mod. rewrite N.mul_mod_idemp_l by discriminate.
  rewrite <- N.mul_assoc, <- N.mul_mod_idemp_r by discriminate. rewrite H, N.mul_1_r. apply N.mod_small. exact Ha.
Qed.
Lemma mul32_inj c c' a b : (c * c') mod 2 ^ 32 = 1 -> a < 2 ^ 32 -> b < 2 ^ 32 -> mul32 a c = mul32 b c -> a = b.
Proof. intros H Ha Hb E. rewrite <- (mul32_inv c c' a H Ha), <- (mul32_inv c c' b H Hb), E. reflexivity. Qed.
Lemma add32_inj c a b : c < 2 ^ 32 -> a < 2 ^ 32 -> b < 2 ^ 32 -> add32 a c = add32 b c -> a = b.
Proof.
  intros Hc Ha Hb E. unfold add32 in E. rewrite !w32_mod in E.
  apply (f_equal (fun x => (x + (2 ^ 32 - c)) mod 2 ^ 32)) in E. rewrite !N.add_mod_idemp_l in E by discriminate.
  replace (a + c + (2 ^ 32 - c)) with (a + 1 * 2 ^ 32) in E by lia. replace (b + c + (2 ^ 32 - c)) with (b + 1 * 2 ^ 32) in E by lia.
  rewrite !N.mod_add, !N.mod_small in E by (assumption || discriminate). exact E.
Qed.
Lemma rotr_bit x n i : x < 2 ^ 32 -> n <= 32 ->
  N.testbit (rotr32 x n) i = N.testbit x (i + n) || ((i <? 32) && (32 - n <=? i) && N.testbit x (i - (32 - n)))%bool.
Proof.
  intros Hx Hn. unfold rotr32. rewrite N.lor_spec, N.shiftr_spec' , w32_mod. f_equal.
  destruct (N.ltb_spec i 32) as [L|L].
  - rewrite N.mod_pow2_bits_low by exact L. destruct (N.leb_spec (32 - n) i) as [L'|L'].
    + rewrite N.shiftl_spec_high' by exact L'. reflexivity.
    + rewrite N.shiftl_spec_low by exact L'. reflexivity.
  - rewrite N.mod_pow2_bits_high by exact L. reflexivity.
Qed.
Lemma rotr_lt x n : x < 2 ^ 32 -> n <= 32 -> rotr32 x n < 2 ^ 32.
Proof.
  intros Hx Hn. apply lt_bits. intros i Hi. rewrite rotr_bit by assumption. rewrite small by (assumption || lia).
  destruct (N.ltb_spec i 32); [lia|]. reflexivity.
Qed.
Lemma rotr_inj x y n : x < 2 ^ 32 -> y < 2 ^ 32 -> n <= 32 -> rotr32 x n = rotr32 y n -> x = y.
Proof.
  intros Hx Hy Hn E. apply N.bits_inj. intros j. destruct (N.lt_ge_cases j 32) as [L|L]; [|rewrite !small by assumption; reflexivity].
  destruct (N.lt_ge_cases j n) as [K|K].
  - apply (f_equal (fun z => N.testbit z (j + (32 - n)))) in E. rewrite !rotr_bit in E by assumption.
    rewrite !(small _ (j + (32 - n) + n)) in E by (assumption || lia). cbn [orb] in E.
    replace (j + (32 - n) - (32 - n)) with j in E by lia.
    destruct (N.ltb_spec (j + (32 - n)) 32); [|lia]. destruct (N.leb_spec (32 - n) (j + (32 - n))); [|lia]. exact E.
  - apply (f_equal (fun z => N.testbit z (j - n))) in E. rewrite !rotr_bit in E by assumption.
    replace (j - n + n) with j in E by lia. destruct (N.leb_spec (32 - n) (j - n)); [lia|].
    rewrite !Bool.andb_false_r, !Bool.orb_false_r in E. exact E.
Qed.
Lemma xorshift_inj k x y : 0 < k -> N.lxor x (N.shiftr x k) = N.lxor y (N.shiftr y k) -> x = y.
Proof.
  intros Hk E. apply N.lxor_eq. set (z := N.lxor x y). destruct (N.eq_dec z 0) as [Z|Z]; [exact Z|]. exfalso.
  assert (B : forall i, N.testbit z i = N.testbit z (i + k)).
  { intros i. apply (f_equal (fun w => N.testbit w i)) in E. rewrite !N.lxor_spec, !N.shiftr_spec' in E. unfold z. rewrite !N.lxor_spec.
    destruct (N.testbit x i), (N.testbit x (i + k)), (N.testbit y i), (N.testbit y (i + k)); try discriminate; reflexivity. }
  specialize (B (N.log2 z)). rewrite N.bit_log2 in B by exact Z. rewrite N.bits_above_log2 in B by lia. discriminate.
Qed.
Lemma shiftr_lt x k : x < 2 ^ 32 -> N.shiftr x k < 2 ^ 32.
Proof. intros H. apply lt_bits. intros i Hi. rewrite N.shiftr_spec'. apply small; [exact H|lia]. Qed.

Lemma fmix_inj x y : x < 2 ^ 32 -> y < 2 ^ 32 -> mm_fmix x = mm_fmix y -> x = y.
Proof.
  intros Hx Hy E. unfold mm_fmix in E. cbv zeta in E.
  apply xorshift_inj in E; [|lia]. apply (mul32_inj _ 0x7ed1b41d) in E; [|vm_compute; reflexivity|apply lxor_lt; [|apply shiftr_lt]; apply w32_lt..].
  apply xorshift_inj in E; [|lia]. apply (mul32_inj _ 0xa5cb9243) in E; [|vm_compute; reflexivity|apply lxor_lt; [|apply shiftr_lt]; assumption..].
  apply xorshift_inj in E; [exact E|lia].
Qed.
Lemma mm_k_inj a b : a < 2 ^ 32 -> b < 2 ^ 32 -> mm_k a = mm_k b -> a = b.
Proof.
  intros Ha Hb E. unfold mm_k in E.
  apply (mul32_inj _ 0x56ed309b) in E; [|vm_compute; reflexivity|apply rotr_lt; [apply w32_lt|vm_compute; discriminate]..].
  unfold rotl32 in E. apply rotr_inj in E; [|apply w32_lt|apply w32_lt|vm_compute; discriminate].
  apply (mul32_inj _ 0xdee13bb1) in E; [exact E|vm_compute; reflexivity|assumption..].
Qed.
Lemma mm_k_lt a : mm_k a < 2 ^ 32.
Proof. apply w32_lt. Qed.

(** One block. *)
Definition mm_step (h k : N) : N := add32 (mul32 (rotl32 (N.lxor h (mm_k k)) 13) 5) 0xe6546b64.
Lemma step_lt h k : mm_step h k < 2 ^ 32.
Proof. apply w32_lt. Qed.
Lemma step_inj h k h' k' : h < 2 ^ 32 -> h' < 2 ^ 32 -> mm_step h k = mm_step h' k' -> N.lxor h (mm_k k) = N.lxor h' (mm_k k').
Proof.
  intros H H' E. unfold mm_step in E. apply add32_inj in E; [|vm_compute; reflexivity|apply w32_lt|apply w32_lt].
  apply (mul32_inj _ 0xcccccccd) in E; [|vm_compute; reflexivity|apply rotr_lt; [apply lxor_lt; [assumption|apply mm_k_lt]|vm_compute; discriminate]..].
  unfold rotl32 in E. apply rotr_inj in E; [exact E|apply lxor_lt; [assumption|apply mm_k_lt]..|vm_compute; discriminate].
Qed.
Definition mm_state (h : N) (b : bytes) : N := let (h', t) := mm_body h b in mm_tail h' t.
Definition word (b0 b1 b2 b3 : byte) : N := bN b0 + bN b1 * 2 ^ 8 + bN b2 * 2 ^ 16 + bN b3 * 2 ^ 24.
Lemma state_block h b0 b1 b2 b3 r : mm_state h (b0 :: b1 :: b2 :: b3 :: r) = mm_state (mm_step h (word b0 b1 b2 b3)) r.
Proof. reflexivity. Qed.
Lemma four_ind (P : bytes -> Prop) : (forall b, (length b < 4)%nat -> P b) ->
  (forall b0 b1 b2 b3 r, P r -> P (b0 :: b1 :: b2 :: b3 :: r)) -> forall b, P b.
Proof.
  intros S4 S. assert (A : forall n b, (length b <= n)%nat -> P b).
  { induction n as [|n IH]; intros b Hb; [apply S4; lia|].
    destruct b as [|b0 [|b1 [|b2 [|b3 r]]]]; try (apply S4; cbn [length]; lia). apply S, IH. cbn [length] in Hb. lia. }
  intros b. apply (A (length b)). apply le_n.
Qed.
Lemma state_lt b : forall h, h < 2 ^ 32 -> mm_state h b < 2 ^ 32.
Proof.
  induction b as [b L|b0 b1 b2 b3 r IH] using four_ind; intros h Hh.
  - destruct b as [|b0 [|b1 [|b2 [|b3 r]]]]; try (cbn [length] in L; lia); unfold mm_state; cbn [mm_body mm_tail]; [exact Hh|apply lxor_lt; [exact Hh|apply mm_k_lt]..].
  - rewrite state_block. apply IH, step_lt.
Qed.
Lemma state_inj b : forall h h', h < 2 ^ 32 -> h' < 2 ^ 32 -> mm_state h b = mm_state h' b -> h = h'.
Proof.
  induction b as [b L|b0 b1 b2 b3 r IH] using four_ind; intros h h' Hh Hh' E.
  - destruct b as [|b0 [|b1 [|b2 [|b3 r]]]]; try (cbn [length] in L; lia); unfold mm_state in E; cbn [mm_body mm_tail] in E; [exact E|apply lxor_inj_r in E; exact E..].
  - rewrite !state_block in E. apply IH in E; [|apply step_lt..]. apply step_inj in E; [|assumption..]. apply lxor_inj_r in E. exact E.
Qed.
Lemma state_app (p : bytes) : forall h, (length p mod 4 = 0)%nat -> exists h', forall r, mm_state h (p ++ r) = mm_state h' r /\ (h < 2 ^ 32 -> h' < 2 ^ 32).
Proof.
  induction p as [p L|b0 b1 b2 b3 p IH] using four_ind; intros h M.
  - rewrite Nat.mod_small in M by exact L. destruct p; [|discriminate]. exists h. intros r. split; [reflexivity|auto].
  - destruct (IH (mm_step h (word b0 b1 b2 b3))) as [h' H].
    { cbn [length] in M. replace (S (S (S (S (length p))))) with (length p + 1 * 4)%nat in M by lia. rewrite Nat.mod_add in M by discriminate. exact M. }
    exists h'. intros r. cbn [app]. rewrite state_block. split; [apply H|]. intros _. apply (H r). apply step_lt.
Qed.
Lemma word_lt b0 b1 b2 b3 : word b0 b1 b2 b3 < 2 ^ 32.
Proof. unfold word. pose proof (bN_lt b0). pose proof (bN_lt b1). pose proof (bN_lt b2). pose proof (bN_lt b3). lia. Qed.
Lemma word_inj b0 b1 b2 b3 c0 c1 c2 c3 : word b0 b1 b2 b3 = word c0 c1 c2 c3 -> [b0; b1; b2; b3] = [c0; c1; c2; c3].
Proof.
  unfold word. intros E. pose proof (bN_lt b0). pose proof (bN_lt b1). pose proof (bN_lt b2). pose proof (bN_lt b3).
  pose proof (bN_lt c0). pose proof (bN_lt c1). pose proof (bN_lt c2). pose proof (bN_lt c3).
  assert (bN b0 = bN c0 /\ bN b1 = bN c1 /\ bN b2 = bN c2 /\ bN b3 = bN c3) as (E0 & E1 & E2 & E3).
  { change (2 ^ 8) with 256 in E. change (2 ^ 16) with 65536 in E. change (2 ^ 24) with 16777216 in E. lia. }
  apply bN_inj in E0, E1, E2, E3. subst. reflexivity.
Qed.
Lemma first_block h r r' : h < 2 ^ 32 -> length r = length r' -> skipn 4 r = skipn 4 r' -> mm_state h r = mm_state h r' -> r = r'.
Proof.
  intros Hh L S E.
  destruct r as [|b0 [|b1 [|b2 [|b3 r]]]], r' as [|c0 [|c1 [|c2 [|c3 r']]]]; try discriminate L; [reflexivity|..].
  - unfold mm_state in E. cbn [mm_body mm_tail] in E. apply lxor_inj_l in E. apply mm_k_inj in E; [|pose proof (bN_lt b0); lia|pose proof (bN_lt c0); lia].
    apply bN_inj in E. subst. reflexivity.
  - unfold mm_state in E. cbn [mm_body mm_tail] in E. apply lxor_inj_l in E.
    apply mm_k_inj in E; [|pose proof (word_lt b0 b1 Byte.x00 Byte.x00); unfold word in *; change (bN Byte.x00) with 0 in *; lia
                          |pose proof (word_lt c0 c1 Byte.x00 Byte.x00); unfold word in *; change (bN Byte.x00) with 0 in *; lia].
    assert (W : word b0 b1 Byte.x00 Byte.x00 = word c0 c1 Byte.x00 Byte.x00) by (unfold word; change (bN Byte.x00) with 0; lia).
    apply word_inj in W. inversion W. reflexivity.
  - unfold mm_state in E. cbn [mm_body mm_tail] in E. apply lxor_inj_l in E.
    apply mm_k_inj in E; [|pose proof (word_lt b0 b1 b2 Byte.x00); unfold word in *; change (bN Byte.x00) with 0 in *; lia
                          |pose proof (word_lt c0 c1 c2 Byte.x00); unfold word in *; change (bN Byte.x00) with 0 in *; lia].
    assert (W : word b0 b1 b2 Byte.x00 = word c0 c1 c2 Byte.x00) by (unfold word; change (bN Byte.x00) with 0; lia).
    apply word_inj in W. inversion W. reflexivity.
  - cbn [skipn] in S. subst r'. rewrite !state_block in E. apply state_inj in E; [|apply step_lt..]. apply step_inj in E; [|assumption..].
    apply lxor_inj_l, mm_k_inj in E; [|apply word_lt..]. apply word_inj in E.
    change (b0 :: b1 :: b2 :: b3 :: r) with ([b0; b1; b2; b3] ++ r). rewrite E. reflexivity.
Qed.

Lemma sum_state b : murmur3_sum32 b = mm_fmix (N.lxor (mm_state 0 b) (w32 (N.of_nat (length b)))).
Proof. unfold murmur3_sum32, mm_state. destruct (mm_body 0 b). reflexivity. Qed.
Lemma one_block p x y s : (length p mod 4 = 0)%nat -> length x = length y -> (length x <= 4)%nat ->
  murmur3_sum32 (p ++ x ++ s) = murmur3_sum32 (p ++ y ++ s) -> x = y.
Proof.
  intros M L L4 E. rewrite !sum_state in E.
  assert (LL : length (p ++ x ++ s) = length (p ++ y ++ s)) by (rewrite !app_length; lia). rewrite LL in E.
  apply fmix_inj in E; [|apply lxor_lt; [apply state_lt; reflexivity|apply w32_lt]..]. apply lxor_inj_r in E.
  destruct (state_app p 0 M) as [h H]. rewrite (proj1 (H (x ++ s))), (proj1 (H (y ++ s))) in E.
  apply first_block in E.
  - apply app_inv_tail in E. exact E.
  - apply (H []). reflexivity.
  - rewrite !app_length. lia.
  - rewrite !skipn_app, L, !(skipn_all2 (n := 4)) by lia. reflexivity.
Qed.
