From Coq Require Import Lia.
From Verif Require Import Base BaseProofs Utf8 Json JsonProofs JsonGrammar SpecJson Utf8Proofs SpecWritten.
Local Open Scope N_scope.

Lemma quote_char u r : scalar u -> quote_body 0 (utf8_char u ++ r) = as_written u ++ quote_body 0 r.
Proof.
  intros Sc. destruct (N.ltb_spec u 128) as [A|A].
  - rewrite (utf8_char_ascii u A). cbn [app quote_body]. rewrite bN_nB_small by lia. rewrite (proj2 (N.ltb_lt u 128) A).
    f_equal. clear - A.
    assert (K : forallb (fun v => bytes_eqb (if html_safe (nB v) then [nB v] else esc_ascii (nB v)) (as_written v)) (map N.of_nat (seq 0 128)) = true) by (vm_compute; reflexivity).
    rewrite forallb_forall in K. apply bytes_eqb_eq, (K u). rewrite <- (N2Nat.id u). apply in_map, in_seq. lia.
  - pose proof (decode_char u r Sc) as D. destruct (utf8_char_head u Sc A) as (c & t & E & H). rewrite E in *. cbn [app quote_body] in *.
    rewrite (proj2 (N.ltb_ge (bN c) 128) H), D. cbn [length]. rewrite Nat.sub_succ, Nat.sub_0_r, quote_body_skip.
    rewrite skipn_app, skipn_all, Nat.sub_diag. cbn [skipn app]. f_equal.
    change (firstn (S (length t)) (c :: t ++ r)) with (c :: firstn (length t) (t ++ r)). rewrite firstn_app, firstn_all, Nat.sub_diag, firstn_O, app_nil_r, <- E.
    unfold as_written. cbn [find fst]. repeat (match goal with |- context [?x =? u] => replace (x =? u) with false by (symmetry; apply N.eqb_neq; lia) end).
    replace (u <? 32) with false by (symmetry; apply N.ltb_ge; lia). cbn [existsb orb].
    replace (u =? 60) with false by (symmetry; apply N.eqb_neq; lia). replace (u =? 62) with false by (symmetry; apply N.eqb_neq; lia).
    replace (u =? 38) with false by (symmetry; apply N.eqb_neq; lia). cbn [orb]. rewrite orb_false_r.
    destruct (N.eqb_spec u 8232) as [->|]; [reflexivity|]. destruct (N.eqb_spec u 8233) as [->|]; reflexivity.
Qed.

Lemma quote_bad c s : (forall u r, scalar u -> c :: s <> utf8_char u ++ r) -> quote_body 0 (c :: s) = str "\ufffd" ++ quote_body 0 s.
Proof.
  intros H. cbn [quote_body]. destruct (N.ltb_spec (bN c) 128) as [A|A].
  - exfalso. apply (H (bN c) s); [unfold scalar; lia|]. rewrite (utf8_char_ascii _ A), nB_bN. reflexivity.
  - destruct (decode_rune (c :: s)) as [[u w]|] eqn:E; [|reflexivity].
    exfalso. apply decode_inv in E as [S E]. apply (H u (skipn w (c :: s)) S). rewrite <- E, firstn_skipn. reflexivity.
Qed.

Lemma written_quote s t : written s t <-> t = quote_body 0 s.
Proof.
  split.
  - induction 1 as [|u s t S R IH|c s t B R IH]; [reflexivity| |].
    + rewrite quote_char by exact S. rewrite IH. reflexivity.
    + rewrite quote_bad by exact B. rewrite IH. reflexivity.
  - intros ->. remember (length s) as n eqn:E. assert (L : (length s <= n)%nat) by lia. clear E.
    revert s L. induction n as [|n IH]; intros s L.
    { destruct s; [constructor|cbn in L; lia]. }
    destruct s as [|c s]; [constructor|].
    destruct (decode_rune (c :: s)) as [[u w]|] eqn:E.
    + pose proof (decode_rune_facts _ _ _ E) as [W _]. apply decode_inv in E as [S E].
      rewrite <- (firstn_skipn w (c :: s)), E. rewrite quote_char by exact S. constructor; [exact S|].
      apply IH. rewrite skipn_length. cbn [length] in *. lia.
    + rewrite quote_bad.
      * constructor; [|apply IH; cbn in L; lia]. intros u r S F. rewrite F, decode_char in E by exact S. discriminate.
      * intros u r S F. rewrite F, decode_char in E by exact S. discriminate.
Qed.

Lemma quote_safe s : forallb html_safe s = true -> quote_body 0 s = s.
Proof.
  induction s as [|c s IH]; intros H; [reflexivity|]. cbn [forallb] in H. apply andb_true_iff in H as [Hc Hs]. cbn [quote_body].
  assert (A : (bN c <? 128) = true). { unfold html_safe in Hc. apply andb_true_iff in Hc as [Hc _]. apply andb_true_iff in Hc as [_ Hc]. exact Hc. }
  rewrite A, Hc, (IH Hs). reflexivity.
Qed.
