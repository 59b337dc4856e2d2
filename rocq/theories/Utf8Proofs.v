(** * Lemmas about UTF-8 and quoted strings. *)
From Verif Require Import Base BaseProofs Utf8 Json JsonProofs SpecJson.
Local Open Scope N_scope.

Lemma in_range_iff lo hi n : n < 256 -> in_range lo hi (nB n) = true <-> lo <= n <= hi.
Proof. intros H. unfold in_range. rewrite bN_nB_small by exact H. rewrite andb_true_iff, !N.leb_le. reflexivity. Qed.
Lemma in_range_false lo hi n : n < 256 -> (n < lo \/ hi < n) -> in_range lo hi (nB n) = false.
Proof. intros H K. apply not_true_iff_false. rewrite in_range_iff by exact H. lia. Qed.

Lemma in_range_true lo hi n : n < 256 -> lo <= n <= hi -> in_range lo hi (nB n) = true.
Proof. intros H. apply in_range_iff. exact H. Qed.

Lemma decode_char u r : scalar u -> decode_rune (utf8_char u ++ r) = Some (u, length (utf8_char u)).
Proof.
  intros S. unfold utf8_char. unfold scalar in S.
  destruct (N.ltb_spec u 128).
  { cbn [map app decode_rune length]. rewrite (in_range_true 0 127 u) by lia. rewrite bN_nB_small by lia. reflexivity. }
  destruct (N.ltb_spec u 2048).
  { assert (u / 64 < 32) by (apply N.div_lt_upper_bound; lia). assert (2 <= u / 64) by (apply N.div_le_lower_bound; lia).
    pose proof (N.mod_upper_bound u 64 ltac:(lia)). pose proof (N.div_mod u 64 ltac:(lia)).
    cbn [map app decode_rune length]. unfold cont.
    rewrite (in_range_false 0 127), (in_range_true 194 223), (in_range_true 128 191) by lia.
    rewrite !bN_nB_small by lia. f_equal. f_equal. lia. }
  destruct (N.ltb_spec u 65536).
  { assert (u / 4096 < 16) by (apply N.div_lt_upper_bound; lia).
    assert (A : u / 4096 = u / 64 / 64) by (rewrite N.div_div by lia; reflexivity).
    pose proof (N.mod_upper_bound u 64 ltac:(lia)). pose proof (N.mod_upper_bound (u / 64) 64 ltac:(lia)).
    pose proof (N.div_mod u 64 ltac:(lia)). pose proof (N.div_mod (u / 64) 64 ltac:(lia)).
    cbn [map app decode_rune length]. unfold cont. cbv zeta.
    rewrite (in_range_false 0 127), (in_range_false 194 223), (in_range_true 224 239) by lia.
    rewrite (in_range_true 128 191 (128 + u mod 64)) by lia. rewrite andb_true_r.
    rewrite !bN_nB_small by lia.
    rewrite (in_range_true _ _ (128 + (u / 64) mod 64)); [|lia|].
    - f_equal. f_equal. lia.
    - destruct (N.eqb_spec (224 + u / 4096) 224), (N.eqb_spec (224 + u / 4096) 237); lia. }
  assert (u / 262144 < 5) by (apply N.div_lt_upper_bound; lia).
  assert (A : u / 4096 = u / 64 / 64) by (rewrite N.div_div by lia; reflexivity).
  assert (B : u / 262144 = u / 64 / 64 / 64) by (rewrite !N.div_div by lia; reflexivity).
  pose proof (N.mod_upper_bound u 64 ltac:(lia)). pose proof (N.mod_upper_bound (u / 64) 64 ltac:(lia)). pose proof (N.mod_upper_bound (u / 4096) 64 ltac:(lia)).
  pose proof (N.div_mod u 64 ltac:(lia)). pose proof (N.div_mod (u / 64) 64 ltac:(lia)). pose proof (N.div_mod (u / 64 / 64) 64 ltac:(lia)).
  rewrite <- A, <- B in *.
  cbn [map app decode_rune length]. unfold cont. cbv zeta.
  rewrite (in_range_false 0 127), (in_range_false 194 223), (in_range_false 224 239), (in_range_true 240 244) by lia.
  rewrite (in_range_true 128 191 (128 + u mod 64)) by lia.
  rewrite (in_range_true 128 191 (128 + (u / 64) mod 64)) by lia. rewrite !andb_true_r.
  rewrite !bN_nB_small by lia.
  rewrite (in_range_true _ _ (128 + (u / 4096) mod 64)); [|lia|].
  - f_equal. f_equal. lia.
  - destruct (N.eqb_spec (240 + u / 262144) 240), (N.eqb_spec (240 + u / 262144) 244); lia.
Qed.

Lemma in_range_b lo hi b : in_range lo hi b = true -> lo <= bN b <= hi.
Proof. unfold in_range. rewrite andb_true_iff, !N.leb_le. auto. Qed.

Lemma decode_inv s u w : decode_rune s = Some (u, w) -> scalar u /\ firstn w s = utf8_char u.
Proof.
  assert (D64 : forall a b, b < 64 -> (a * 64 + b) / 64 = a /\ (a * 64 + b) mod 64 = b).
  { intros a b Hb. split; [rewrite N.div_add_l by lia; rewrite N.div_small by lia; lia|]. rewrite N.add_comm, N.mod_add by lia. apply N.mod_small. lia. }
  destruct s as [|b0 s]; [discriminate|]. cbn [decode_rune]. pose proof (bN_lt b0).
  destruct (in_range 0 127 b0) eqn:E0.
  { apply in_range_b in E0. intros X. apply Some_inj in X. apply pair_inj in X as [<- <-]. split; [left; lia|].
    unfold utf8_char. destruct (N.ltb_spec (bN b0) 128); [|lia]. cbn. rewrite nB_bN. reflexivity. }
  destruct (in_range 194 223 b0) eqn:E1.
  { apply in_range_b in E1. destruct s as [|b1 s]; [discriminate|]. destruct (cont b1) eqn:C1; [|discriminate].
    apply in_range_b in C1. intros X. apply Some_inj in X. apply pair_inj in X as [<- <-]. split; [left; lia|].
    unfold utf8_char. destruct (N.ltb_spec ((bN b0 - 192) * 64 + (bN b1 - 128)) 128); [lia|].
    destruct (N.ltb_spec ((bN b0 - 192) * 64 + (bN b1 - 128)) 2048); [|lia].
    destruct (D64 (bN b0 - 192) (bN b1 - 128) ltac:(lia)) as [-> ->]. cbn [firstn map].
    replace (192 + (bN b0 - 192)) with (bN b0) by lia. replace (128 + (bN b1 - 128)) with (bN b1) by lia. rewrite !nB_bN. reflexivity. }
  destruct (in_range 224 239 b0) eqn:E2.
  { apply in_range_b in E2. destruct s as [|b1 [|b2 s]]; [discriminate..|]. cbv zeta.
    destruct (in_range _ _ b1 && cont b2) eqn:C1; [|discriminate]. apply andb_true_iff in C1 as [C1 C2].
    apply in_range_b in C1, C2.
    assert (L : (bN b0 = 224 -> 160 <= bN b1) /\ (bN b0 = 237 -> bN b1 <= 159) /\ 128 <= bN b1 <= 191).
    { destruct (N.eqb_spec (bN b0) 224), (N.eqb_spec (bN b0) 237); lia. } clear C1.
    intros X. apply Some_inj in X. apply pair_inj in X as [<- <-].
    set (x := bN b0 - 224). set (y := bN b1 - 128). set (z := bN b2 - 128).
    assert (U : x * 4096 + y * 64 + z = (x * 64 + y) * 64 + z) by lia.
    split. { unfold scalar, x, y, z in *. lia. }
    unfold utf8_char. destruct (N.ltb_spec (x * 4096 + y * 64 + z) 128); [lia|].
    destruct (N.ltb_spec (x * 4096 + y * 64 + z) 2048); [lia|]. destruct (N.ltb_spec (x * 4096 + y * 64 + z) 65536); [|lia].
    replace (x * 4096 + y * 64 + z) with ((x * 64 + y) * 64 + z) by lia.
    destruct (D64 (x * 64 + y) z ltac:(lia)) as [A ->]. rewrite A. destruct (D64 x y ltac:(lia)) as [B ->].
    replace (((x * 64 + y) * 64 + z) / 4096) with x by (change 4096 with (64 * 64); rewrite <- N.div_div, A, B by lia; reflexivity).
    cbn [firstn map]. unfold x, y, z.
    replace (224 + (bN b0 - 224)) with (bN b0) by lia. replace (128 + (bN b1 - 128)) with (bN b1) by lia.
    replace (128 + (bN b2 - 128)) with (bN b2) by lia. rewrite !nB_bN. reflexivity. }
  destruct (in_range 240 244 b0) eqn:E3; [|discriminate].
  apply in_range_b in E3. destruct s as [|b1 [|b2 [|b3 s]]]; [discriminate..|]. cbv zeta.
  destruct (in_range _ _ b1 && cont b2 && cont b3) eqn:C1; [|discriminate]. apply andb_true_iff in C1 as [C1 C3].
  apply andb_true_iff in C1 as [C1 C2]. apply in_range_b in C1, C2, C3.
  assert (L : (bN b0 = 240 -> 144 <= bN b1) /\ (bN b0 = 244 -> bN b1 <= 143) /\ 128 <= bN b1 <= 191).
  { destruct (N.eqb_spec (bN b0) 240), (N.eqb_spec (bN b0) 244); lia. } clear C1.
  intros X. apply Some_inj in X. apply pair_inj in X as [<- <-].
  set (w := bN b0 - 240). set (x := bN b1 - 128). set (y := bN b2 - 128). set (z := bN b3 - 128).
  assert (U : w * 262144 + x * 4096 + y * 64 + z = ((w * 64 + x) * 64 + y) * 64 + z) by lia.
  split. { unfold scalar, w, x, y, z in *. lia. }
  unfold utf8_char. destruct (N.ltb_spec (w * 262144 + x * 4096 + y * 64 + z) 128); [lia|].
  destruct (N.ltb_spec (w * 262144 + x * 4096 + y * 64 + z) 2048); [lia|]. destruct (N.ltb_spec (w * 262144 + x * 4096 + y * 64 + z) 65536); [lia|].
  rewrite U. destruct (D64 ((w * 64 + x) * 64 + y) z ltac:(lia)) as [A ->]. rewrite A. destruct (D64 (w * 64 + x) y ltac:(lia)) as [B ->].
  destruct (D64 w x ltac:(lia)) as [C D].
  replace ((((w * 64 + x) * 64 + y) * 64 + z) / 4096) with (w * 64 + x) by (change 4096 with (64 * 64); rewrite <- N.div_div, A, B by lia; reflexivity).
  replace ((((w * 64 + x) * 64 + y) * 64 + z) / 262144) with w by (change 262144 with (64 * 64 * 64); rewrite <- !N.div_div, A, B, C by lia; reflexivity).
  rewrite D. cbn [firstn map]. unfold w, x, y, z.
  replace (240 + (bN b0 - 240)) with (bN b0) by lia. replace (128 + (bN b1 - 128)) with (bN b1) by lia.
  replace (128 + (bN b2 - 128)) with (bN b2) by lia. replace (128 + (bN b3 - 128)) with (bN b3) by lia. rewrite !nB_bN. reflexivity.
Qed.

Lemma utf8_char_length u : (1 <= length (utf8_char u))%nat.
Proof. unfold utf8_char. rewrite map_length. repeat destruct (_ <? _); cbn; lia. Qed.

Lemma sanitize_char u r : scalar u -> sanitize 0 (utf8_char u ++ r) = utf8_char u ++ sanitize 0 r.
Proof.
  intros S. pose proof (decode_char u r S) as D. pose proof (utf8_char_length u) as L.
  destruct (utf8_char u) as [|c t] eqn:E; [cbn in L; lia|]. cbn [app sanitize] in *. rewrite D. cbn [length]. rewrite Nat.sub_succ, Nat.sub_0_r, sanitize_skip.
  rewrite firstn_app, firstn_all, skipn_app, skipn_all, Nat.sub_diag. cbn [firstn skipn app]. rewrite app_nil_r. reflexivity.
Qed.

Lemma sanitize_bad c s : (forall u r, scalar u -> c :: s <> utf8_char u ++ r) -> sanitize 0 (c :: s) = replacement ++ sanitize 0 s.
Proof.
  intros H. cbn [sanitize]. destruct (decode_rune (c :: s)) as [[u w]|] eqn:E; [|reflexivity].
  exfalso. apply decode_inv in E as [S E]. apply (H u (skipn w (c :: s)) S). rewrite <- E, firstn_skipn. reflexivity.
Qed.

Lemma readable_sanitize s t : readable s t <-> t = sanitize 0 s.
Proof.
  split.
  - induction 1 as [|u s t S R IH|c s t B R IH]; [reflexivity| |].
    + rewrite sanitize_char by exact S. rewrite IH. reflexivity.
    + rewrite sanitize_bad by exact B. rewrite IH. reflexivity.
  - intros ->. remember (length s) as n eqn:E. assert (L : (length s <= n)%nat) by lia. clear E.
    revert s L. induction n as [|n IH]; intros s L.
    { destruct s; [constructor|cbn in L; lia]. }
    destruct s as [|c s]; [constructor|].
    destruct (decode_rune (c :: s)) as [[u w]|] eqn:E.
    + pose proof (decode_rune_facts _ _ _ E) as [W _]. apply decode_inv in E as [S E].
      rewrite <- (firstn_skipn w (c :: s)), E. rewrite sanitize_char by exact S. constructor; [exact S|].
      apply IH. rewrite skipn_length. cbn [length] in *. lia.
    + rewrite sanitize_bad.
      * constructor; [|apply IH; cbn in L; lia]. intros u r S F. rewrite F, decode_char in E by exact S. discriminate.
      * intros u r S F. rewrite F, decode_char in E by exact S. discriminate.
Qed.

Lemma utf8_readable s : utf8 s -> readable s s.
Proof.
  intros (us & F & ->). induction F as [|u us S F IH]; [constructor|]. cbn [flat_map]. constructor; assumption.
Qed.
Lemma readable_total s : exists t, readable s t.
Proof. exists (sanitize 0 s). apply readable_sanitize. reflexivity. Qed.
Lemma readable_fun s t t' : readable s t -> readable s t' -> t = t'.
Proof. rewrite !readable_sanitize. congruence. Qed.
Lemma readable_nil s : readable s [] -> s = [].
Proof.
  intros H. inversion H as [|u s' t S R|c s' t B R]; [reflexivity|].
  pose proof (utf8_char_length u). destruct (utf8_char u); [cbn in *; lia|discriminate].
Qed.
Lemma readable_nil_r t : readable [] t -> t = [].
Proof. rewrite readable_sanitize. auto. Qed.

(** ** A quoted string has no control characters. *)
Lemma quote_body_printable : forall n s, (length s <= n)%nat -> Forall (fun c => 32 <= bN c) (quote_body 0 s).
Proof.
  induction n as [|n IH]; intros s L.
  { destruct s; [constructor|cbn in L; lia]. }
  destruct s as [|c s]; [constructor|]. cbn [quote_body]. cbn [length] in L.
  destruct (N.ltb_spec (bN c) 128) as [A|A].
  - apply Forall_app. split; [|apply IH; lia].
    assert (K : forall c : byte, forallb (fun x => 32 <=? bN x) (if html_safe c then [c] else esc_ascii c) = true) by (clear; intros []; reflexivity).
    specialize (K c). rewrite forallb_forall in K. apply Forall_forall. intros x I. apply N.leb_le, K, I.
  - destruct (decode_rune (c :: s)) as [[u w]|] eqn:E.
    + rewrite quote_body_skip. apply Forall_app. split; [|apply IH; rewrite skipn_length; lia].
      destruct ((u =? 8232) || (u =? 8233)) eqn:Z.
      * apply orb_true_iff in Z as [Z|Z]; apply N.eqb_eq in Z; subst u; repeat constructor; vm_compute; discriminate.
      * pose proof (decode_inv _ _ _ E) as [S F]. rewrite F. unfold utf8_char.
        assert (128 <= u).
        { destruct (N.lt_ge_cases u 128) as [K|K]; [|exact K]. exfalso.
          unfold utf8_char in F. destruct (N.ltb_spec u 128); [|lia].
          pose proof (decode_rune_facts _ _ _ E) as [W _]. destruct w; [lia|]. cbn [firstn map] in F.
          assert (c = nB u) by congruence. subst c. rewrite bN_nB_small in A by lia. lia. }
        assert (M : forall x, u < 2 ^ 21 -> x < 256 -> 32 <= x -> 32 <= bN (nB x)) by (intros; rewrite bN_nB_small by lia; lia).
        unfold scalar in S. destruct (N.ltb_spec u 128); [lia|].
        pose proof (N.mod_upper_bound u 64 ltac:(lia)). pose proof (N.mod_upper_bound (u / 64) 64 ltac:(lia)). pose proof (N.mod_upper_bound (u / 4096) 64 ltac:(lia)).
        destruct (N.ltb_spec u 2048); [|destruct (N.ltb_spec u 65536)].
        -- assert (u / 64 < 32) by (apply N.div_lt_upper_bound; lia). repeat constructor; apply M; lia.
        -- assert (u / 4096 < 16) by (apply N.div_lt_upper_bound; lia). repeat constructor; apply M; lia.
        -- assert (u / 262144 < 5) by (apply N.div_lt_upper_bound; lia). repeat constructor; apply M; lia.
    + apply Forall_app. split; [repeat constructor; vm_compute; discriminate|apply IH; lia].
Qed.
Lemma quote_printable s : Forall (fun c => 32 <= bN c) (json_quote s).
Proof.
  unfold json_quote. constructor; [vm_compute; discriminate|]. apply Forall_app. split; [apply (quote_body_printable (length s)); lia|].
  repeat constructor. vm_compute. discriminate.
Qed.
Lemma json_fields_printable fs : Forall (fun f => Forall (fun c => 32 <= bN c) (snd f)) fs -> Forall (fun c => 32 <= bN c) (json_fields fs).
Proof.
  induction 1 as [|[k v] fs Hv F IH]; [constructor|]. cbn [snd] in Hv. destruct fs as [|f fs].
  - cbn [json_fields]. apply Forall_app. split; [apply quote_printable|]. constructor; [vm_compute; discriminate|exact Hv].
  - change (json_fields ((k, v) :: f :: fs)) with (json_quote k ++ Byte.x3a :: v ++ Byte.x2c :: json_fields (f :: fs)).
    apply Forall_app. split; [apply quote_printable|]. constructor; [vm_compute; discriminate|].
    apply Forall_app. split; [exact Hv|]. constructor; [vm_compute; discriminate|exact IH].
Qed.
Lemma json_struct_printable fs : Forall (fun f => Forall (fun c => 32 <= bN c) (snd f)) fs -> Forall (fun c => 32 <= bN c) (json_struct fs).
Proof.
  intros F. unfold json_struct. constructor; [vm_compute; discriminate|]. apply Forall_app.
  split; [apply json_fields_printable, F|]. repeat constructor. vm_compute. discriminate.
Qed.

(** ** Printed text is UTF-8 *)
Lemma utf8_app s t : utf8 s -> utf8 t -> utf8 (s ++ t).
Proof. intros (us & F & ->) (vs & G & ->). exists (us ++ vs). split; [apply Forall_app; auto|symmetry; apply flat_map_app]. Qed.
Lemma utf8_nil : utf8 [].
Proof. exists []. split; [constructor|reflexivity]. Qed.
Lemma utf8_scalar u : scalar u -> utf8 (utf8_char u).
Proof. intros S. exists [u]. split; [constructor; [exact S|constructor]|cbn [flat_map]; rewrite app_nil_r; reflexivity]. Qed.
Lemma utf8_ascii s : forallb (fun c => bN c <? 128) s = true -> utf8 s.
Proof.
  induction s as [|c s IH]; [intros _; exact utf8_nil|]. cbn [forallb]. intros H. apply andb_true_iff in H as [H1 H2]. apply N.ltb_lt in H1.
  change (c :: s) with ([c] ++ s). apply utf8_app; [|exact (IH H2)].
  assert (E : [c] = utf8_char (bN c)) by (unfold utf8_char; apply N.ltb_lt in H1; rewrite H1; cbn [map]; rewrite nB_bN; reflexivity).
  rewrite E. apply utf8_scalar. left. lia.
Qed.
Lemma quote_body_utf8 : forall n s, (length s <= n)%nat -> utf8 (quote_body 0 s).
Proof.
  induction n as [|n IH]; intros s L.
  { destruct s; [exact utf8_nil|cbn in L; lia]. }
  destruct s as [|c s]; [exact utf8_nil|]. cbn [quote_body]. cbn [length] in L.
  destruct (N.ltb_spec (bN c) 128) as [A|A].
  - apply utf8_app; [|apply IH; lia]. apply utf8_ascii.
    assert (K : forall c : byte, implb (bN c <? 128) (forallb (fun x => bN x <? 128) (if html_safe c then [c] else esc_ascii c)) = true) by (clear; intros []; reflexivity).
    specialize (K c). apply N.ltb_lt in A. rewrite A in K. exact K.
  - destruct (decode_rune (c :: s)) as [[u w]|] eqn:E.
    + rewrite quote_body_skip. apply utf8_app; [|apply IH; rewrite skipn_length; lia].
      destruct ((u =? 8232) || (u =? 8233)) eqn:Z.
      * apply orb_true_iff in Z as [Z|Z]; apply N.eqb_eq in Z; subst u; apply utf8_ascii; reflexivity.
      * pose proof (decode_inv _ _ _ E) as [S F]. rewrite F. apply utf8_scalar, S.
    + apply utf8_app; [apply utf8_ascii; reflexivity|apply IH; lia].
Qed.
Lemma quote_utf8 s : utf8 (json_quote s).
Proof.
  unfold json_quote. change (Byte.x22 :: quote_body 0 s ++ [Byte.x22]) with ([Byte.x22] ++ quote_body 0 s ++ [Byte.x22]).
  apply utf8_app; [apply utf8_ascii; reflexivity|]. apply utf8_app; [exact (quote_body_utf8 _ s (Nat.le_refl _))|apply utf8_ascii; reflexivity].
Qed.
Lemma json_struct_utf8 fs : Forall (fun f => utf8 (snd f)) fs -> utf8 (json_struct fs).
Proof.
  intros F. unfold json_struct. change (Byte.x7b :: json_fields fs ++ [Byte.x7d]) with ([Byte.x7b] ++ json_fields fs ++ [Byte.x7d]).
  apply utf8_app; [apply utf8_ascii; reflexivity|]. apply utf8_app; [|apply utf8_ascii; reflexivity].
  induction F as [|[k v] fs Hv F IH]; [exact utf8_nil|]. cbn [snd] in Hv. destruct fs as [|f fs].
  - change (json_fields [(k, v)]) with (json_quote k ++ [Byte.x3a] ++ v). apply utf8_app; [apply quote_utf8|]. apply utf8_app; [apply utf8_ascii; reflexivity|exact Hv].
  - change (json_fields ((k, v) :: f :: fs)) with (json_quote k ++ [Byte.x3a] ++ v ++ [Byte.x2c] ++ json_fields (f :: fs)).
    apply utf8_app; [apply quote_utf8|]. apply utf8_app; [apply utf8_ascii; reflexivity|]. apply utf8_app; [exact Hv|].
    apply utf8_app; [apply utf8_ascii; reflexivity|exact IH].
Qed.
