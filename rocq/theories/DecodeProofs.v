(** * Lemmas: decoding of JSON objects and of base 64. *)
From Coq Require Import Btauto.
From Verif Require Import Base BaseProofs Common Hasher Encryptor Oprf Server Client KV Mutator Utf8 Base64 Json ConfigJson Demo JsonProofs SpecHttp SpecJson Utf8Proofs JsonGrammar HttpProofs SpecProtocol SpecDecode ProtocolProofs.
Local Open Scope N_scope.

(** ** Base 64 *)
Definition chr (d : N) : byte := nth (N.to_nat d) base64_alphabet Byte.x00.
Definition obyte_eqb (a b : option N) : bool := match a, b with Some x, Some y => x =? y | None, None => true | _, _ => false end.
Lemma val_spec c v : b64_val c = Some v <-> v < 64 /\ c = chr v.
Proof.
  assert (K : forall c, match b64_val c with Some v => (v <? 64) && beqb c (chr v) | None => forallb (fun i => negb (beqb c (chr (N.of_nat i)))) (seq 0 64) end = true)
    by (apply byte_sweep; vm_compute; reflexivity).
  assert (K2 : forallb (fun i => obyte_eqb (b64_val (chr (N.of_nat i))) (Some (N.of_nat i))) (seq 0 64) = true) by (vm_compute; reflexivity).
  split.
  - intros H. specialize (K c). rewrite H in K. apply andb_true_iff in K as [K1 K3]. split; [apply N.ltb_lt, K1|apply beqb_eq, K3].
  - intros [L ->]. rewrite forallb_forall in K2. specialize (K2 (N.to_nat v)). rewrite N2Nat.id in K2.
    assert (I : In (N.to_nat v) (seq 0 64)) by (apply in_seq; lia). specialize (K2 I). unfold obyte_eqb in K2.
    destruct (b64_val (chr v)); [apply N.eqb_eq in K2; congruence|discriminate].
Qed.
Lemma val_chr v : v < 64 -> b64_val (chr v) = Some v.
Proof. intros L. apply val_spec. split; [exact L|reflexivity]. Qed.
Definition bits8 (b : bytes) : list bool := flat_map (fun c => low_bits 8 (bN c)) b.
Definition bits6 (ds : list N) : list bool := flat_map (low_bits 6) ds.
Lemma low_bits_length n x : length (low_bits n x) = n.
Proof. induction n as [|n IH]; [reflexivity|]. cbn [low_bits length]. rewrite IH. reflexivity. Qed.
Lemma bits8_length b : length (bits8 b) = (8 * length b)%nat.
Proof. induction b as [|c b IH]; [reflexivity|]. unfold bits8 in *. cbn [flat_map length]. rewrite app_length, low_bits_length, IH. lia. Qed.
Definition bl_eqb (a b : list bool) : bool := if list_eq_dec bool_dec a b then true else false.
Lemma bl_eqb_eq a b : bl_eqb a b = true -> a = b.
Proof. unfold bl_eqb. destruct (list_eq_dec bool_dec a b); [auto|discriminate]. Qed.
Lemma sweep64 (f : N -> N -> bool) : forallb (fun i => forallb (fun j => f (N.of_nat i) (N.of_nat j)) (seq 0 64)) (seq 0 64) = true ->
  forall a b, a < 64 -> b < 64 -> f a b = true.
Proof.
  intros H a b A B. rewrite forallb_forall in H. specialize (H (N.to_nat a)). rewrite in_seq, forallb_forall in H.
  specialize (H ltac:(lia) (N.to_nat b)). rewrite in_seq, !N2Nat.id in H. apply H. lia.
Qed.
Lemma group1 a b : a < 64 -> b < 64 -> low_bits 6 a ++ low_bits 6 b = low_bits 8 (bN (nB (a * 4 + b / 16))) ++ low_bits 4 b.
Proof. intros A B. apply bl_eqb_eq. revert a b A B. apply sweep64. vm_compute. reflexivity. Qed.
Lemma group2 b c : b < 64 -> c < 64 -> low_bits 4 b ++ low_bits 6 c = low_bits 8 (bN (nB (b * 16 + c / 4))) ++ low_bits 2 c.
Proof. intros A B. apply bl_eqb_eq. revert b c A B. apply sweep64. vm_compute. reflexivity. Qed.
Lemma group3 c d : c < 64 -> d < 64 -> low_bits 2 c ++ low_bits 6 d = low_bits 8 (bN (nB (c * 64 + d))).
Proof. intros A B. apply bl_eqb_eq. revert c d A B. apply sweep64. vm_compute. reflexivity. Qed.

Lemma cons_eq {A} (x y : A) l l' : x :: l = y :: l' -> x = y /\ l = l'.
Proof. intros H. inversion H. auto. Qed.
Definition strict64 (s b : bytes) : Prop :=
  exists ds pad, s = map chr ds ++ repeat Byte.x3d pad /\ Forall (fun d => d < 64) ds /\ (pad <= 2)%nat
    /\ Nat.divide 4 (length ds + pad) /\ exists rest, bits6 ds = bits8 b ++ rest /\ (length rest < 8)%nat.

Lemma strict_sound : forall s b, b64_decode_strict s = Some b -> strict64 s b.
Proof.
  assert (G : forall n s b, (length s <= n)%nat -> b64_decode_strict s = Some b -> strict64 s b); [|intros s b; exact (G (length s) s b (Nat.le_refl _))].
  induction n as [|n IH]; [intros [|x s'] t L H; [apply Some_inj in H; subst t; exists [], 0%nat; repeat split; [constructor|lia|exists 0%nat; reflexivity|]; exists []; split; [reflexivity|cbn; lia]|cbn in L; lia]|].
  intros [|a [|b [|c [|d r]]]] t LN H; cbn [b64_decode_strict] in H; try discriminate.
  - apply Some_inj in H. subst t. exists [], 0%nat. repeat split; [constructor|lia|exists 0%nat; reflexivity|]. exists []. split; [reflexivity|cbn; lia].
  - destruct (b64_val a) as [va|] eqn:A; [|discriminate]. destruct (b64_val b) as [vb|] eqn:B; [|discriminate].
    apply val_spec in A as [A ->]. apply val_spec in B as [B ->].
    destruct (b64_val c) as [vc|] eqn:C.
    + apply val_spec in C as [C ->]. destruct (b64_val d) as [vd|] eqn:D.
      * apply val_spec in D as [D ->]. destruct (b64_decode_strict r) as [u|] eqn:R; [|discriminate]. apply Some_inj in H. subst t.
        apply IH in R as (ds & pad & -> & F & P & (q & L) & rest & E & LR); [|cbn [length] in LN; lia].
        exists (va :: vb :: vc :: vd :: ds), pad. split; [reflexivity|]. split; [repeat constructor; assumption|]. split; [exact P|].
        split; [exists (S q); cbn [length]; lia|]. exists rest. split; [|exact LR].
        change (bits6 (va :: vb :: vc :: vd :: ds)) with (low_bits 6 va ++ low_bits 6 vb ++ low_bits 6 vc ++ low_bits 6 vd ++ bits6 ds).
        match goal with |- _ = bits8 (?x :: ?y :: ?z :: u) ++ _ => change (bits8 (x :: y :: z :: u)) with (low_bits 8 (bN x) ++ low_bits 8 (bN y) ++ low_bits 8 (bN z) ++ bits8 u) end.
        rewrite E. rewrite (app_assoc (low_bits 6 va)), group1 by assumption. rewrite <- !app_assoc.
        rewrite (app_assoc (low_bits 4 vb)), group2 by assumption. rewrite <- !app_assoc.
        rewrite (app_assoc (low_bits 2 vc)), group3 by assumption. reflexivity.
      * destruct r; [|discriminate]. destruct (beqb d b64_pad) eqn:P; [|discriminate]. apply beqb_eq in P. subst d. apply Some_inj in H. subst t.
        exists [va; vb; vc], 1%nat. split; [reflexivity|]. split; [repeat constructor; assumption|]. split; [lia|]. split; [exists 1%nat; reflexivity|].
        exists (low_bits 2 vc). split; [|rewrite low_bits_length; lia].
        change (bits6 [va; vb; vc]) with (low_bits 6 va ++ low_bits 6 vb ++ low_bits 6 vc ++ []). rewrite app_nil_r.
        match goal with |- _ = bits8 [?x; ?y] ++ _ => change (bits8 [x; y]) with (low_bits 8 (bN x) ++ low_bits 8 (bN y) ++ []) end. rewrite app_nil_r.
        rewrite (app_assoc (low_bits 6 va)), group1 by assumption. rewrite <- !app_assoc. rewrite group2 by assumption. reflexivity.
    + destruct r; [|discriminate]. destruct (beqb c b64_pad && beqb d b64_pad) eqn:P; [|discriminate].
      apply andb_true_iff in P as [P1 P2]. apply beqb_eq in P1, P2. subst c d. apply Some_inj in H. subst t.
      exists [va; vb], 2%nat. split; [reflexivity|]. split; [repeat constructor; assumption|]. split; [lia|]. split; [exists 1%nat; reflexivity|].
      exists (low_bits 4 vb). split; [|rewrite low_bits_length; lia].
      change (bits6 [va; vb]) with (low_bits 6 va ++ low_bits 6 vb ++ []). rewrite app_nil_r.
      match goal with |- _ = bits8 [?x] ++ _ => change (bits8 [x]) with (low_bits 8 (bN x) ++ []) end. rewrite app_nil_r. apply group1; assumption.
Qed.

Lemma strict_total : forall ds pad, Forall (fun d => d < 64) ds -> (pad <= 2)%nat -> Nat.divide 4 (length ds + pad) ->
  exists b, b64_decode_strict (map chr ds ++ repeat Byte.x3d pad) = Some b.
Proof.
  assert (P : b64_val Byte.x3d = None) by reflexivity.
  fix IH 1. intros [|a [|b [|c [|d r]]]] pad F L (q & D); cbn [length] in D.
  - replace pad with 0%nat by lia. exists []. reflexivity.
  - exfalso. lia.
  - replace pad with 2%nat by lia. inversion F as [|? ? A F']; subst. inversion F' as [|? ? B _]; subst.
    cbn [map app repeat b64_decode_strict]. rewrite !val_chr by assumption. rewrite P. eexists. reflexivity.
  - replace pad with 1%nat by lia. inversion F as [|? ? A F']; subst. inversion F' as [|? ? B F'']; subst. inversion F'' as [|? ? C _]; subst.
    cbn [map app repeat b64_decode_strict]. rewrite !val_chr by assumption. rewrite P. eexists. reflexivity.
  - inversion F as [|? ? A F1]; subst. inversion F1 as [|? ? B F2]; subst. inversion F2 as [|? ? C F3]; subst. inversion F3 as [|? ? E F4]; subst.
    destruct (IH r pad F4 L) as (t & T); [exists (pred q); lia|].
    cbn [map app b64_decode_strict]. rewrite !val_chr by assumption. rewrite T. eexists. reflexivity.
Qed.

Lemma bits8_inj : forall b b' rest rest', bits8 b ++ rest = bits8 b' ++ rest' -> (length rest < 8)%nat -> (length rest' < 8)%nat -> b = b'.
Proof.
  assert (E : forall c d, low_bits 8 (bN c) = low_bits 8 (bN d) -> c = d).
  { assert (K : forall c, fold_left (fun (a : N) (x : bool) => 2 * a + (if x then 1 else 0)) (low_bits 8 (bN c)) 0 =? bN c = true) by (apply byte_sweep; vm_compute; reflexivity).
    intros c d H. pose proof (K c) as K1. pose proof (K d) as K2. rewrite H in K1. apply N.eqb_eq in K1, K2. rewrite K1 in K2.
    rewrite <- (nB_bN c), <- (nB_bN d). f_equal. exact K2. }
  induction b as [|c b IH]; intros [|d b'] rest rest' H L L'.
  - reflexivity.
  - exfalso. apply (f_equal (@length bool)) in H. rewrite !app_length, !bits8_length in H. cbn [length] in H. lia.
  - exfalso. apply (f_equal (@length bool)) in H. rewrite !app_length, !bits8_length in H. cbn [length] in H. lia.
  - change (bits8 (c :: b)) with (low_bits 8 (bN c) ++ bits8 b) in H. change (bits8 (d :: b')) with (low_bits 8 (bN d) ++ bits8 b') in H.
    rewrite <- !app_assoc in H.
    assert (H1 : low_bits 8 (bN c) = low_bits 8 (bN d)).
    { apply (f_equal (firstn 8)) in H. rewrite !firstn_app, !low_bits_length, !Nat.sub_diag, !firstn_O, !app_nil_r in H.
      rewrite !firstn_all2 in H by (rewrite low_bits_length; lia). exact H. }
    assert (c = d) by (apply E, H1). subst d. apply app_inv_head in H. f_equal. exact (IH _ _ _ H L L').
Qed.

Lemma strict_spec s b : b64_decode_strict s = Some b <-> strict64 s b.
Proof.
  split; [apply strict_sound|]. intros (ds & pad & -> & F & P & D & rest & E & L).
  destruct (strict_total ds pad F P D) as (b' & H). rewrite H. f_equal.
  apply strict_sound in H as (ds' & pad' & M & F' & _ & _ & rest' & E' & L').
  assert (ds = ds').
  { assert (G : forall ds ds' p p', Forall (fun d => d < 64) ds -> Forall (fun d => d < 64) ds' -> map chr ds ++ repeat Byte.x3d p = map chr ds' ++ repeat Byte.x3d p' -> ds = ds').
    { assert (NP : forall x, x < 64 -> chr x <> Byte.x3d) by (intros x X Y; pose proof (val_chr x X) as V; rewrite Y in V; discriminate V).
      induction ds0 as [|x l IH]; intros [|y l'] p p' G G' K.
      - reflexivity.
      - exfalso. inversion G'; subst. destruct p; cbn [map app repeat] in K; [discriminate K|]. apply (NP y); [assumption|]. apply cons_eq in K. symmetry. apply K.
      - exfalso. inversion G; subst. destruct p'; cbn [map app repeat] in K; [discriminate K|]. apply (NP x); [assumption|]. apply cons_eq in K. apply K.
      - inversion G as [|? ? X GX]; subst. inversion G' as [|? ? Y GY]; subst. cbn [map app] in K.
        apply cons_eq in K as [K1 K2].
        f_equal; [|exact (IH _ _ _ GX GY K2)]. pose proof (val_chr x X) as V. rewrite K1, (val_chr y Y) in V. congruence. }
    exact (G _ _ _ _ F F' M). }
  subst ds'. rewrite E in E'. symmetry. exact (bits8_inj _ _ _ _ E' L L').
Qed.
Lemma base64_spec s b : b64_decode s = Some b <-> base64 s b.
Proof.
  unfold b64_decode. rewrite strict_spec. unfold strict64, base64.
  assert (E : forall l, filter (fun c => negb (beqb c Byte.x0a || beqb c Byte.x0d)) l = filter (fun c => negb (existsb (beqb c) [Byte.x0a; Byte.x0d])) l).
  { intros l. apply filter_ext. intros c. cbn [existsb]. rewrite orb_false_r. reflexivity. }
  rewrite E. reflexivity.
Qed.

(** ** Names *)
Lemma utf8_char_ascii u : u < 128 -> utf8_char u = [nB u].
Proof. intros H. unfold utf8_char. apply N.ltb_lt in H. rewrite H. reflexivity. Qed.
Lemma ascii_scalar u : u < 128 -> scalar u.
Proof. intros H. left. lia. Qed.
Lemma same_ascii c d : bN c < 128 -> bN d < 128 -> (ascii_fold_eq c d = true <-> same_letter c (bN d)).
Proof.
  intros C D. unfold ascii_fold_eq. rewrite N.eqb_eq. unfold same_letter.
  assert (X : ~ (In c (str "sS") /\ bN d = 383)) by lia. assert (Y : ~ (In c (str "kK") /\ bN d = 8490)) by lia.
  destruct ((97 <=? bN c) && (bN c <=? 122)) eqn:A; destruct ((97 <=? bN d) && (bN d <=? 122)) eqn:B;
    repeat rewrite andb_true_iff in *; repeat rewrite andb_false_iff in *; repeat rewrite N.leb_le in *; repeat rewrite N.leb_gt in *; split; intros H.
  - left. lia.
  - destruct H as [H|[H|[H|[H|H]]]]; try tauto; lia.
  - right. left. lia.
  - destruct H as [H|[H|[H|[H|H]]]]; try tauto; lia.
  - right. right. left. lia.
  - destruct H as [H|[H|[H|[H|H]]]]; try tauto; lia.
  - left. lia.
  - destruct H as [H|[H|[H|[H|H]]]]; try tauto; lia.
Qed.
Lemma same_special c u : bN c < 128 -> 128 <= u -> (fold_special c u = true <-> same_letter c u).
Proof.
  intros C U. unfold fold_special.
  assert (S1 : (bN c =? 115) || (bN c =? 83) = true <-> In c (str "sS")).
  { rewrite orb_true_iff, !N.eqb_eq. change (str "sS") with [Byte.x73; Byte.x53]. cbn [In]. split.
    - intros [H|H]; [left|right; left]; apply bN_inj; rewrite H; reflexivity.
    - intros [<-|[<-|[]]]; auto. }
  assert (S2 : (bN c =? 107) || (bN c =? 75) = true <-> In c (str "kK")).
  { rewrite orb_true_iff, !N.eqb_eq. change (str "kK") with [Byte.x6b; Byte.x4b]. cbn [In]. split.
    - intros [H|H]; [left|right; left]; apply bN_inj; rewrite H; reflexivity.
    - intros [<-|[<-|[]]]; auto. }
  rewrite orb_true_iff, !andb_true_iff, S1, S2, !N.eqb_eq. unfold same_letter. split.
  - intros [H|H]; auto.
  - intros [H|[H|[H|[H|H]]]]; try (exfalso; lia); auto.
Qed.
Lemma same_letter_scalar c u : bN c < 128 -> same_letter c u -> scalar u.
Proof. intros C [H|[H|[H|[H|H]]]]; left; try lia; destruct H as [_ ->]; reflexivity. Qed.

Lemma fold_eq_names : forall name key, Forall (fun c => bN c < 128) name -> (fold_eq name key = true <-> names_field name key).
Proof.
  induction name as [|c name IH]; intros key F.
  - cbn [fold_eq]. split.
    + destruct key; [|discriminate]. intros _. exists []. split; [reflexivity|constructor].
    + intros (us & -> & H). inversion H. reflexivity.
  - inversion F as [|? ? C F']; subst. cbn [fold_eq]. destruct key as [|d key].
    + split; [discriminate|]. intros (us & K & H). inversion H; subst. cbn [flat_map] in K.
      apply (f_equal (@length byte)) in K. rewrite app_length in K. pose proof (utf8_char_length y). cbn [length] in K. lia.
    + destruct (bN d <? 128) eqn:D.
      * apply N.ltb_lt in D. rewrite andb_true_iff, same_ascii, (IH key F') by assumption. split.
        -- intros (S' & us & -> & H). exists (bN d :: us). cbn [flat_map]. rewrite utf8_char_ascii, nB_bN by exact D. split; [reflexivity|constructor; assumption].
        -- intros (us & K & H). inversion H as [|? u ? us' S' H']; subst. cbn [flat_map] in K.
           assert (SC : scalar u) by exact (same_letter_scalar c u C S').
           pose proof (decode_char u (flat_map utf8_char us') SC) as E. rewrite <- K in E.
           pose proof (decode_char (bN d) key (ascii_scalar _ D)) as E'. rewrite utf8_char_ascii, nB_bN in E' by exact D. cbn [app] in E'. rewrite E' in E.
           assert (u = bN d) by (inversion E; reflexivity). subst u. rewrite utf8_char_ascii, nB_bN in K by exact D. cbn [app] in K.
           apply cons_eq in K as [_ K]. split; [exact S'|]. exists us'. split; assumption.
      * apply N.ltb_ge in D. destruct (decode_rune (d :: key)) as [[u w]|] eqn:E.
        -- apply decode_inv in E as E'. destruct E' as [SC FN].
           assert (U : 128 <= u).
           { destruct (N.lt_ge_cases u 128) as [L|L]; [|exact L]. exfalso. rewrite utf8_char_ascii in FN by exact L.
             destruct w; [discriminate FN|]. cbn [firstn] in FN. apply cons_eq in FN as [FN _]. subst d. rewrite bN_nB in D by lia. lia. }
           rewrite andb_true_iff, same_special, (IH _ F') by assumption.
           assert (KW : d :: key = utf8_char u ++ skipn w (d :: key)) by (rewrite <- FN; symmetry; apply firstn_skipn). split.
           ++ intros (S' & us & K & H). exists (u :: us). cbn [flat_map]. rewrite <- K. split; [exact KW|constructor; assumption].
           ++ intros (us & K & H). inversion H as [|? u' ? us' S' H']; subst. cbn [flat_map] in K.
              assert (SC' : scalar u') by exact (same_letter_scalar c u' C S').
              pose proof (decode_char u' (flat_map utf8_char us') SC') as E2. rewrite <- K, E in E2. apply Some_inj in E2. apply pair_inj in E2 as [<- E2].
              split; [exact S'|]. exists us'. split; [|exact H']. rewrite K in KW at 1. apply app_inv_head in KW. symmetry. exact KW.
        -- split; [discriminate|]. intros (us & K & H). inversion H as [|? u ? us' S' H']; subst. cbn [flat_map] in K.
           pose proof (decode_char u (flat_map utf8_char us') (same_letter_scalar c u C S')) as E'. rewrite <- K, E in E'. discriminate E'.
Qed.

(** ** Which field a key addresses *)
Definition up (c : byte) : N := if (97 <=? bN c) && (bN c <=? 122) then bN c - 32 else bN c.
Lemma fold_special_up c c' u : fold_special c u = true -> fold_special c' u = true -> up c = up c'.
Proof.
  unfold fold_special, up. intros H H'. repeat rewrite ?orb_true_iff, ?andb_true_iff, ?N.eqb_eq in *.
  destruct H as [[H ->]|[H ->]]; destruct H' as [[H' X]|[H' X]]; try discriminate X;
    destruct H as [H|H]; destruct H' as [H'|H']; rewrite H, H'; reflexivity.
Qed.
Lemma fold_eq_up : forall n n' k, fold_eq n k = true -> fold_eq n' k = true -> map up n = map up n'.
Proof.
  induction n as [|c n IH]; intros [|c' n'] k H H'; cbn [fold_eq] in H, H'.
  - reflexivity.
  - destruct k; discriminate.
  - destruct k; discriminate.
  - destruct k as [|d k]; [discriminate|]. cbn [map]. destruct (bN d <? 128).
    + apply andb_true_iff in H as [H1 H2]. apply andb_true_iff in H' as [H1' H2']. f_equal; [|exact (IH _ _ H2 H2')].
      unfold ascii_fold_eq in H1, H1'. apply N.eqb_eq in H1, H1'. unfold up. rewrite H1, H1'. reflexivity.
    + destruct (decode_rune (d :: k)) as [[u w]|]; [|discriminate].
      apply andb_true_iff in H as [H1 H2]. apply andb_true_iff in H' as [H1' H2']. f_equal; [exact (fold_special_up _ _ _ H1 H1')|exact (IH _ _ H2 H2')].
Qed.
Lemma fold_eq_refl n : Forall (fun c => bN c < 128) n -> fold_eq n n = true.
Proof.
  induction 1 as [|c n C _ IH]; [reflexivity|]. cbn [fold_eq]. apply N.ltb_lt in C. rewrite C, IH. unfold ascii_fold_eq. rewrite N.eqb_refl. reflexivity.
Qed.
Lemma index_of_some f names : forall i j, index_of f names i = Some j -> exists n, nth_error names (j - i) = Some n /\ (i <= j)%nat /\ f n = true.
Proof.
  induction names as [|n names IH]; intros i j H; [discriminate|]. cbn [index_of] in H. destruct (f n) eqn:E.
  - apply Some_inj in H. subst j. exists n. rewrite Nat.sub_diag. repeat split; [lia|exact E].
  - apply IH in H as (m & N1 & L & M). exists m. replace (j - i)%nat with (S (j - S i))%nat by lia. repeat split; [exact N1|lia|exact M].
Qed.
Lemma index_of_none f names : forall i, index_of f names i = None -> forall n, In n names -> f n = false.
Proof.
  induction names as [|n names IH]; intros i H m M; [contradiction|]. cbn [index_of] in H. destruct (f n) eqn:E; [discriminate|].
  destruct M as [<-|M]; [exact E|exact (IH _ H m M)].
Qed.

(** Field names: ASCII, and different also when case is ignored. *)
Definition good_names (names : list bytes) : Prop :=
  Forall (Forall (fun c => bN c < 128)) names /\ NoDup (map (map up) names).
Lemma find_field_spec names k : good_names names ->
  match find_field names k with
  | Some i => (i < length names)%nat /\ forall j n, nth_error names j = Some n -> fold_eq n k = (j =? i)%nat
  | None => forall j n, nth_error names j = Some n -> fold_eq n k = false
  end.
Proof.
  intros [A D].
  assert (U : forall i j n m, nth_error names i = Some n -> nth_error names j = Some m -> fold_eq n k = true -> fold_eq m k = true -> i = j).
  { intros i j n m I J N M. pose proof (fold_eq_up _ _ _ N M) as E.
    pose proof (proj1 (NoDup_nth_error _) D i j) as K. apply K.
    - rewrite map_length. apply (proj1 (nth_error_Some names i)). rewrite I. discriminate.
    - rewrite (map_nth_error (map up) _ _ I), (map_nth_error (map up) _ _ J), E. reflexivity. }
  assert (S' : forall i m, nth_error names i = Some m -> fold_eq m k = true ->
    (i < length names)%nat /\ forall j n, nth_error names j = Some n -> fold_eq n k = (j =? i)%nat).
  { intros i m I M. split; [apply (proj1 (nth_error_Some names i)); rewrite I; discriminate|]. intros j n J.
    destruct (fold_eq n k) eqn:E; symmetry.
    - apply Nat.eqb_eq. exact (U _ _ _ _ J I E M).
    - apply Nat.eqb_neq. intros ->. rewrite I in J. apply Some_inj in J. subst m. congruence. }
  unfold find_field. destruct (index_of (fun n => bytes_eqb n k) names 0) as [i|] eqn:E.
  - apply index_of_some in E as (m & I & _ & M). rewrite Nat.sub_0_r in I. apply bytes_eqb_eq in M. subst m.
    apply (S' i k I). apply fold_eq_refl. rewrite Forall_forall in A. apply A. exact (nth_error_In _ _ I).
  - destruct (index_of (fun n => fold_eq n k) names 0) as [i|] eqn:E2.
    + apply index_of_some in E2 as (m & I & _ & M). rewrite Nat.sub_0_r in I. exact (S' i m I M).
    + intros j n J. exact (index_of_none _ _ _ E2 n (nth_error_In _ _ J)).
Qed.

(** ** One field over all members *)
Section Field.
Context {V : Type} (name : bytes) (s : V -> json -> V * bool).
Fixpoint ff (v : V) (ms : list (bytes * json)) : V * bool :=
  match ms with
  | [] => (v, false)
  | (k, x) :: r => if fold_eq name k then (fst (ff (fst (s v x)) r), snd (s v x) || snd (ff (fst (s v x)) r)) else ff v r
  end.
Variable (skips : json -> Prop) (reads : json -> V -> Prop).
Hypothesis A : Forall (fun c => bN c < 128) name.
Hypothesis Hskip : forall v x, skips x -> s v x = (v, false).
Hypothesis Hread : forall v x w, reads x w -> s v x = (w, false).
Hypothesis Herr : forall v x, snd (s v x) = false -> skips x \/ exists w, reads x w.
Lemma ff_skips : forall ms v, (forall k x, In (k, x) ms -> names_field name k -> skips x) -> ff v ms = (v, false).
Proof.
  induction ms as [|[k x] ms IH]; intros v H; [reflexivity|]. cbn [ff]. destruct (fold_eq name k) eqn:E.
  - apply fold_eq_names in E; [|exact A]. rewrite (Hskip v x (H k x (or_introl eq_refl) E)). cbn [fst snd]. rewrite IH; [reflexivity|].
    intros k' x' I. apply H. right. exact I.
  - apply IH. intros k' x' I. apply H. right. exact I.
Qed.
Lemma ff_app ms ms' v : ff v (ms ++ ms') = (fst (ff (fst (ff v ms)) ms'), snd (ff v ms) || snd (ff (fst (ff v ms)) ms')).
Proof.
  revert v. induction ms as [|[k x] ms IH]; intros v; [cbn [app ff fst snd orb]; symmetry; destruct (ff v ms'); reflexivity|].
  cbn [app ff]. destruct (fold_eq name k); [|apply IH]. rewrite IH. cbn [fst snd]. rewrite orb_assoc. reflexivity.
Qed.
Lemma ff_good : forall ms v, (forall k x, In (k, x) ms -> names_field name k -> skips x \/ exists w, reads x w) -> snd (ff v ms) = false.
Proof.
  induction ms as [|[k x] ms IH]; intros v H; [reflexivity|]. cbn [ff]. destruct (fold_eq name k) eqn:E.
  - apply fold_eq_names in E; [|exact A]. cbn [snd]. apply orb_false_iff. split; [|apply IH; intros k' x' I; apply H; right; exact I].
    destruct (H k x (or_introl eq_refl) E) as [S'|(w & R)]; [rewrite (Hskip v x S')|rewrite (Hread v x w R)]; reflexivity.
  - apply IH. intros k' x' I. apply H. right. exact I.
Qed.
Lemma ff_field v ms w : ff v ms = (w, false) <-> field name skips reads v ms w.
Proof.
  split.
  - revert v. induction ms as [|[k x] ms IH]; intros v H.
    + cbn [ff] in H. apply pair_inj in H as [<- _]. split; [intros ? ? []|]. left. split; [reflexivity|intros ? ? []].
    + cbn [ff] in H. destruct (fold_eq name k) eqn:E.
      * apply pair_inj in H as [H1 H2]. apply orb_false_iff in H2 as [H2 H3].
        destruct (IH (fst (s v x))) as [G L]; [destruct (ff (fst (s v x)) ms); cbn [fst snd] in *; congruence|].
        pose proof (Herr v x H2) as W. split.
        -- intros k' x' [I|I] N'; [apply pair_inj in I as [<- <-]; exact W|exact (G k' x' I N')].
        -- destruct L as [(-> & L)|(l & k' & x' & r & -> & N' & R & L)].
           ++ destruct W as [W|(y & W)].
              ** rewrite (Hskip v x W). left. split; [reflexivity|]. intros k' x' [I|I] N'; [apply pair_inj in I as [<- <-]; exact W|exact (L k' x' I N')].
              ** rewrite (Hread v x y W). right. exists [], k, x, ms. split; [reflexivity|]. split; [apply fold_eq_names; assumption|]. split; [exact W|exact L].
           ++ right. exists ((k, x) :: l), k', x', r. split; [reflexivity|]. split; [exact N'|]. split; [exact R|exact L].
      * destruct (IH v H) as [G L].
        assert (NK : ~ names_field name k) by (intros X; apply fold_eq_names in X; [congruence|exact A]). split.
        -- intros k' x' [I|I] N'; [apply pair_inj in I as [<- <-]; contradiction|exact (G k' x' I N')].
        -- destruct L as [(-> & L)|(l & k' & x' & r & -> & N' & R & L)].
           ++ left. split; [reflexivity|]. intros k' x' [I|I] N'; [apply pair_inj in I as [<- <-]; contradiction|exact (L k' x' I N')].
           ++ right. exists ((k, x) :: l), k', x', r. split; [reflexivity|]. split; [exact N'|]. split; [exact R|exact L].
  - intros [G [(-> & L)|(l & k & x & r & -> & N' & R & L)]]; [apply ff_skips, L|].
    pose proof (ff_good _ v G) as GG. rewrite ff_app in GG |- *. cbn [ff] in GG |- *. apply fold_eq_names in N'; [|exact A]. rewrite N' in GG |- *.
    rewrite !(Hread _ x w R) in GG |- *. cbn [fst snd] in GG |- *. rewrite (ff_skips r w L) in GG |- *. cbn [fst snd] in GG |- *. f_equal. exact GG.
Qed.
End Field.

(** ** The kinds of values *)
Lemma all_digits_spec l : all_digits l = true <-> digits l.
Proof.
  unfold all_digits, digits. destruct l as [|c l]; [split; [discriminate|intros [[] _]; reflexivity]|]. rewrite forallb_forall, Forall_forall. split.
  - intros H. split; [discriminate|]. intros x I. specialize (H x I).
    assert (K : forall c, implb (is_digit c) (existsb (beqb c) (str "0123456789")) = true) by (apply byte_sweep; vm_compute; reflexivity).
    specialize (K x). rewrite H in K. cbn [implb] in K. apply existsb_exists in K as (y & Y & E). apply beqb_eq in E. subst y. exact Y.
  - intros [_ H] x I. specialize (H x I).
    assert (K : forallb is_digit (str "0123456789") = true) by reflexivity. rewrite forallb_forall in K. exact (K x H).
Qed.
Lemma decimal_spec l n : decimal l n <-> all_digits l = true /\ n = digits_val l.
Proof. unfold decimal. rewrite all_digits_spec. reflexivity. Qed.
Lemma uint_read bits v x w : reads_natural bits x w -> set_uint bits v x = (w, false).
Proof.
  intros (l & -> & D & L). apply decimal_spec in D as [D ->]. unfold set_uint, parse_uint. rewrite D. apply N.ltb_lt in L. rewrite L. reflexivity.
Qed.
Lemma uint_err bits v x : snd (set_uint bits v x) = false -> is_null x \/ exists w, reads_natural bits x w.
Proof.
  destruct x; cbn [set_uint snd]; try discriminate; [left; reflexivity|]. unfold parse_uint. destruct (all_digits lit) eqn:D; [|discriminate].
  destruct (digits_val lit <? 2 ^ bits) eqn:L; [|discriminate]. intros _. right. exists (digits_val lit), lit. split; [reflexivity|].
  split; [apply decimal_spec; auto|apply N.ltb_lt, L].
Qed.
Lemma integer_spec l z : integer l z <->
  (all_digits l = true /\ z = Z.of_N (digits_val l)) \/ (exists c r, l = c :: r /\ bN c = 45 /\ all_digits r = true /\ z = (- Z.of_N (digits_val r))%Z).
Proof.
  unfold integer. split.
  - intros [(n & D & ->)|(r & n & -> & D & ->)]; apply decimal_spec in D as [D ->]; [auto|]. right. exists Byte.x2d, r. auto.
  - intros [(D & ->)|(c & r & -> & C & D & ->)]; [left; exists (digits_val l); split; [apply decimal_spec; auto|reflexivity]|].
    right. exists r, (digits_val r). split; [|split; [apply decimal_spec; auto|reflexivity]].
    change (str "-" ++ r) with (Byte.x2d :: r). f_equal. apply bN_inj. exact C.
Qed.
Lemma parse_int_spec iw l z : parse_int iw l = Some z <-> integer l z /\ (- 2 ^ (iw - 1) <= z < 2 ^ (iw - 1))%Z.
Proof.
  rewrite integer_spec. unfold parse_int. destruct l as [|c r].
  { split; [discriminate|]. intros [[[H _]|(c & r & H & _)] _]; discriminate H. }
  destruct (bN c =? 45) eqn:C.
  - apply N.eqb_eq in C.
    assert (ND : all_digits (c :: r) = false). { cbn [all_digits forallb]. unfold is_digit. rewrite C. reflexivity. }
    split.
    + destruct (all_digits r) eqn:D; [|discriminate].
      match goal with |- (if ?b then _ else _) = _ -> _ => destruct b eqn:B end; [|discriminate]. intros H. apply Some_inj in H. subst z.
      apply andb_true_iff in B as [B1 B2]. apply Z.leb_le in B1. apply Z.ltb_lt in B2. split; [right; exists c, r; auto|lia].
    + intros [[[H _]|(c' & r' & H & _ & D & ->)] B]; [congruence|]. inversion H; subst c' r'. rewrite D.
      destruct B as [B1 B2]. apply Z.leb_le in B1. apply Z.ltb_lt in B2. rewrite B1, B2. reflexivity.
  - apply N.eqb_neq in C. split.
    + destruct (all_digits (c :: r)) eqn:D; [|discriminate].
      match goal with |- (if ?b then _ else _) = _ -> _ => destruct b eqn:B end; [|discriminate]. intros H. apply Some_inj in H. subst z.
      apply andb_true_iff in B as [B1 B2]. apply Z.leb_le in B1. apply Z.ltb_lt in B2. split; [left; auto|lia].
    + intros [[[D ->]|(c' & r' & H & C' & _)] B]; [|inversion H; subst; contradiction]. rewrite D.
      destruct B as [B1 B2]. apply Z.leb_le in B1. apply Z.ltb_lt in B2. rewrite B1, B2. reflexivity.
Qed.
Lemma int_read iw v x w : reads_integer iw x w -> set_int iw v x = (w, false).
Proof. intros (l & -> & D). cbn [set_int]. apply parse_int_spec in D. rewrite D. reflexivity. Qed.
Lemma int_err iw v x : snd (set_int iw v x) = false -> is_null x \/ exists w, reads_integer iw x w.
Proof.
  destruct x; cbn [set_int snd]; try discriminate; [left; reflexivity|]. destruct (parse_int iw lit) as [z|] eqn:P; [|discriminate].
  intros _. right. exists z, lit. split; [reflexivity|]. apply parse_int_spec, P.
Qed.
Lemma string_read v x w : reads_text x w -> set_string v x = (w, false).
Proof. intros ->. reflexivity. Qed.
Lemma string_err v x : snd (set_string v x) = false -> is_null x \/ exists w, reads_text x w.
Proof. destruct x; cbn [set_string snd]; try discriminate; [left; reflexivity|right; eexists; reflexivity]. Qed.
Lemma elems_length : forall l mem, length (fst (set_elems mem l)) = length l.
Proof.
  induction l as [|x l IH]; intros mem; [reflexivity|]. cbn [set_elems]. specialize (IH (tl mem)). destruct (set_uint 8 _ x) as [n e]. destruct (set_elems (tl mem) l) as [t e'].
  cbn [fst length] in *. rewrite IH. reflexivity.
Qed.
Lemma elems_spec : forall l mem t, set_elems mem l = (t, false) <->
  length t = length l /\ forall i x, nth_error l i = Some x ->
    (x = JNull /\ nth_error t i = Some (nth i mem Byte.x00)) \/ exists n, reads_natural 8 x n /\ nth_error t i = Some (nB n).
Proof.
  induction l as [|x l IH]; intros mem t.
  - cbn [set_elems]. split.
    + intros H. apply pair_inj in H as [<- _]. split; [reflexivity|]. intros [|i] x H; discriminate H.
    + intros [H _]. destruct t; [reflexivity|discriminate H].
  - cbn [set_elems]. set (old := match mem with c :: _ => bN c | [] => 0 end).
    assert (OLD : nB old = nth 0 mem Byte.x00) by (subst old; destruct mem; [reflexivity|apply nB_bN]).
    assert (TL : forall i, nth i (tl mem) Byte.x00 = nth (S i) mem Byte.x00) by (intros i; destruct mem; [destruct i|]; reflexivity).
    split.
    + destruct (set_uint 8 old x) as [n e] eqn:U. destruct (set_elems (tl mem) l) as [t' e'] eqn:E. intros H. apply pair_inj in H as [<- H].
      apply orb_false_iff in H as [-> ->]. apply IH in E as [L E]. split; [cbn [length]; rewrite L; reflexivity|].
      intros [|i] y H; cbn [nth_error] in H |- *; [|specialize (E i y H); rewrite TL in E; exact E].
      apply Some_inj in H. subst y. assert (X : snd (set_uint 8 old x) = false) by (rewrite U; reflexivity).
      apply uint_err in X as [->|(w & R)].
      * left. split; [reflexivity|]. cbn [set_uint] in U. apply pair_inj in U as [<- _]. rewrite OLD. reflexivity.
      * right. exists w. split; [exact R|]. rewrite (uint_read 8 old x w R) in U. apply pair_inj in U as [<- _]. reflexivity.
    + intros [L H]. destruct t as [|c t]; [discriminate L|]. cbn [length] in L.
      assert (E : set_elems (tl mem) l = (t, false)).
      { apply IH. split; [lia|]. intros i y Y. specialize (H (S i) y Y). cbn [nth_error] in H. rewrite TL. exact H. }
      specialize (H 0%nat x eq_refl). cbn [nth_error] in H. destruct H as [[-> H]|(n & R & H)]; apply Some_inj in H; subst c.
      * cbn [set_uint]. rewrite E, OLD. reflexivity.
      * rewrite (uint_read 8 old x n R), E. reflexivity.
Qed.

(** ** The records *)
Fixpoint nodupb (l : list (list N)) : bool :=
  match l with [] => true | x :: r => negb (existsb (fun y => if list_eq_dec N.eq_dec x y then true else false) r) && nodupb r end.
Lemma nodupb_spec l : nodupb l = true -> NoDup l.
Proof.
  induction l as [|x l IH]; [constructor|]. cbn [nodupb]. intros H. apply andb_true_iff in H as [H1 H2]. constructor; [|exact (IH H2)].
  intros I. apply negb_true_iff in H1. assert (X : existsb (fun y => if list_eq_dec N.eq_dec x y then true else false) l = true); [|congruence].
  apply existsb_exists. exists x. split; [exact I|]. destruct (list_eq_dec N.eq_dec x x); congruence.
Qed.
Lemma names_good names : forallb (forallb (fun c => bN c <? 128)) names = true ->
  nodupb (map (map up) names) = true -> good_names names.
Proof.
  intros A D. split.
  - rewrite forallb_forall in A. apply Forall_forall. intros n I. specialize (A n I). rewrite forallb_forall in A. apply Forall_forall. intros c J. apply N.ltb_lt. exact (A c J).
  - apply nodupb_spec, D.
Qed.
Lemma request_names_good : good_names request_names. Proof. apply names_good; vm_compute; reflexivity. Qed.
Lemma config_names_good : good_names config_names. Proof. apply names_good; vm_compute; reflexivity. Qed.
Lemma server_config_names_good : good_names server_config_names. Proof. apply names_good; vm_compute; reflexivity. Qed.
Lemma rule_names_good : good_names rule_names. Proof. apply names_good; vm_compute; reflexivity. Qed.

Lemma decode_request : forall ms v b e sp err, decode_members request_names request_set (mkClientRequest v b e, sp) err ms =
  ((mkClientRequest (fst (ff (str "version") (set_uint 32) v ms)) (fst (ff (str "bucketID") set_string b ms)) (fst (fst (ff (str "blindElement") set_bytes (e, sp) ms))),
    snd (fst (ff (str "blindElement") set_bytes (e, sp) ms))),
   err || (snd (ff (str "version") (set_uint 32) v ms) || (snd (ff (str "bucketID") set_string b ms) || snd (ff (str "blindElement") set_bytes (e, sp) ms)))).
Proof.
  induction ms as [|[k x] ms IH]; intros v b e sp err; [cbn [decode_members ff fst snd orb]; rewrite orb_false_r; reflexivity|].
  cbn [decode_members ff]. pose proof (find_field_spec request_names k request_names_good) as F. destruct (find_field request_names k) as [i|].
  - destruct F as [L F]. rewrite !(F 0%nat (str "version") eq_refl), !(F 1%nat (str "bucketID") eq_refl), !(F 2%nat (str "blindElement") eq_refl).
    destruct i as [|[|[|i]]]; [| | |exfalso; cbn in L; lia]; cbn [Nat.eqb request_set].
    + destruct (set_uint 32 v x) as [y er]. rewrite IH. cbn [fst snd]. f_equal. btauto.
    + destruct (set_string b x) as [y er]. rewrite IH. cbn [fst snd]. f_equal. btauto.
    + destruct (set_bytes (e, sp) x) as [[y y'] er]. cbn [fst snd]. rewrite IH. cbn [fst snd]. f_equal. btauto.
  - rewrite !(F 0%nat (str "version") eq_refl), !(F 1%nat (str "bucketID") eq_refl), !(F 2%nat (str "blindElement") eq_refl). apply IH.
Qed.
Definition cfields (iw : Z) (c : Config) (ms : list (bytes * json)) : Config * bool :=
  let a := ff (str "version") (set_uint 16) (cfg_version c) ms in
  let b := ff (str "bucketIDBitSize") (set_int iw) (cfg_bits c) ms in
  let d := ff (str "bucketHasher") (set_uint 16) (cfg_bucketHasher c) ms in
  let e := ff (str "slowHasher") (set_uint 16) (cfg_slowHasher c) ms in
  let f := ff (str "bucketEncryptor") (set_uint 16) (cfg_bucketEncryptor c) ms in
  let g := ff (str "oprfSuite") (set_uint 16) (cfg_oprfSuite c) ms in
  (mkConfig (fst a) (fst b) (fst d) (fst e) (fst f) (fst g), snd a || (snd b || (snd d || (snd e || (snd f || snd g))))).
Lemma decode_config iw : forall ms c err, decode_members config_names (config_set iw) c err ms = (fst (cfields iw c ms), err || snd (cfields iw c ms)).
Proof.
  induction ms as [|[k x] ms IH]; intros [v b h s e o] err; [unfold cfields; cbn [decode_members ff fst snd orb cfg_version cfg_bits cfg_bucketHasher cfg_slowHasher cfg_bucketEncryptor cfg_oprfSuite]; rewrite orb_false_r; reflexivity|].
  unfold cfields in *. cbn [decode_members ff]. pose proof (find_field_spec config_names k config_names_good) as F. destruct (find_field config_names k) as [i|].
  - destruct F as [L F]. rewrite !(F 0%nat (str "version") eq_refl), !(F 1%nat (str "bucketIDBitSize") eq_refl), !(F 2%nat (str "bucketHasher") eq_refl),
      !(F 3%nat (str "slowHasher") eq_refl), !(F 4%nat (str "bucketEncryptor") eq_refl), !(F 5%nat (str "oprfSuite") eq_refl).
    destruct i as [|[|[|[|[|[|i]]]]]]; [| | | | | |exfalso; cbn in L; lia]; cbn [Nat.eqb config_set].
    + destruct (set_uint 16 v x) as [y er] eqn:E. rewrite IH. cbn [fst snd cfg_version cfg_bits cfg_bucketHasher cfg_slowHasher cfg_bucketEncryptor cfg_oprfSuite]. rewrite E. cbn [fst snd]. f_equal. btauto.
    + destruct (set_int iw b x) as [y er] eqn:E. rewrite IH. cbn [fst snd cfg_version cfg_bits cfg_bucketHasher cfg_slowHasher cfg_bucketEncryptor cfg_oprfSuite]. rewrite E. cbn [fst snd]. f_equal. btauto.
    + destruct (set_uint 16 h x) as [y er] eqn:E. rewrite IH. cbn [fst snd cfg_version cfg_bits cfg_bucketHasher cfg_slowHasher cfg_bucketEncryptor cfg_oprfSuite]. rewrite E. cbn [fst snd]. f_equal. btauto.
    + destruct (set_uint 16 s x) as [y er] eqn:E. rewrite IH. cbn [fst snd cfg_version cfg_bits cfg_bucketHasher cfg_slowHasher cfg_bucketEncryptor cfg_oprfSuite]. rewrite E. cbn [fst snd]. f_equal. btauto.
    + destruct (set_uint 16 e x) as [y er] eqn:E. rewrite IH. cbn [fst snd cfg_version cfg_bits cfg_bucketHasher cfg_slowHasher cfg_bucketEncryptor cfg_oprfSuite]. rewrite E. cbn [fst snd]. f_equal. btauto.
    + destruct (set_uint 16 o x) as [y er] eqn:E. rewrite IH. cbn [fst snd cfg_version cfg_bits cfg_bucketHasher cfg_slowHasher cfg_bucketEncryptor cfg_oprfSuite]. rewrite E. cbn [fst snd]. f_equal. btauto.
  - rewrite !(F 0%nat (str "version") eq_refl), !(F 1%nat (str "bucketIDBitSize") eq_refl), !(F 2%nat (str "bucketHasher") eq_refl),
      !(F 3%nat (str "slowHasher") eq_refl), !(F 4%nat (str "bucketEncryptor") eq_refl), !(F 5%nat (str "oprfSuite") eq_refl). apply IH.
Qed.
Lemma decode_server_config iw : forall ms c key err, decode_members server_config_names (aux_set iw) (c, key) err ms =
  ((fst (cfields iw c ms), fst (ff (str "privateKey") set_bytes key ms)), err || (snd (cfields iw c ms) || snd (ff (str "privateKey") set_bytes key ms))).
Proof.
  induction ms as [|[k x] ms IH]; intros c key err; [unfold cfields; cbn [decode_members ff fst snd orb]; rewrite orb_false_r; destruct c; reflexivity|].
  cbn [decode_members ff]. unfold cfields. cbn [ff]. pose proof (find_field_spec server_config_names k server_config_names_good) as F.
  assert (U : forall c ms, (mkConfig (fst (ff (str "version") (set_uint 16) (cfg_version c) ms)) (fst (ff (str "bucketIDBitSize") (set_int iw) (cfg_bits c) ms))
      (fst (ff (str "bucketHasher") (set_uint 16) (cfg_bucketHasher c) ms)) (fst (ff (str "slowHasher") (set_uint 16) (cfg_slowHasher c) ms))
      (fst (ff (str "bucketEncryptor") (set_uint 16) (cfg_bucketEncryptor c) ms)) (fst (ff (str "oprfSuite") (set_uint 16) (cfg_oprfSuite c) ms)),
      snd (ff (str "version") (set_uint 16) (cfg_version c) ms) || (snd (ff (str "bucketIDBitSize") (set_int iw) (cfg_bits c) ms)
      || (snd (ff (str "bucketHasher") (set_uint 16) (cfg_bucketHasher c) ms) || (snd (ff (str "slowHasher") (set_uint 16) (cfg_slowHasher c) ms)
      || (snd (ff (str "bucketEncryptor") (set_uint 16) (cfg_bucketEncryptor c) ms) || snd (ff (str "oprfSuite") (set_uint 16) (cfg_oprfSuite c) ms)))))) = cfields iw c ms) by reflexivity.
  destruct (find_field server_config_names k) as [i|].
  - destruct F as [L F]. rewrite !(F 0%nat (str "version") eq_refl), !(F 1%nat (str "bucketIDBitSize") eq_refl), !(F 2%nat (str "bucketHasher") eq_refl),
      !(F 3%nat (str "slowHasher") eq_refl), !(F 4%nat (str "bucketEncryptor") eq_refl), !(F 5%nat (str "oprfSuite") eq_refl), !(F 6%nat (str "privateKey") eq_refl).
    unfold aux_set. destruct c as [v b h s e o]. cbn [fst snd].
    destruct i as [|[|[|[|[|[|[|i]]]]]]]; [| | | | | | |exfalso; cbn in L; lia]; cbn [Nat.eqb Nat.ltb Nat.leb config_set cfg_version cfg_bits cfg_bucketHasher cfg_slowHasher cfg_bucketEncryptor cfg_oprfSuite].
    1,3,4,5,6: match goal with |- context [set_uint 16 ?y ?z] => destruct (set_uint 16 y z) as [y' er] end; rewrite IH; unfold cfields; cbn [fst snd cfg_version cfg_bits cfg_bucketHasher cfg_slowHasher cfg_bucketEncryptor cfg_oprfSuite]; f_equal; btauto.
    + destruct (set_int iw b x) as [y' er]; rewrite IH; unfold cfields; cbn [fst snd cfg_version cfg_bits cfg_bucketHasher cfg_slowHasher cfg_bucketEncryptor cfg_oprfSuite]; f_equal; btauto.
    + destruct (set_bytes key x) as [y' er]; rewrite IH; unfold cfields; cbn [fst snd cfg_version cfg_bits cfg_bucketHasher cfg_slowHasher cfg_bucketEncryptor cfg_oprfSuite]; f_equal; btauto.
  - rewrite !(F 0%nat (str "version") eq_refl), !(F 1%nat (str "bucketIDBitSize") eq_refl), !(F 2%nat (str "bucketHasher") eq_refl),
      !(F 3%nat (str "slowHasher") eq_refl), !(F 4%nat (str "bucketEncryptor") eq_refl), !(F 5%nat (str "oprfSuite") eq_refl), !(F 6%nat (str "privateKey") eq_refl).
    rewrite U. apply IH.
Qed.
Lemma decode_rule : forall ms t p a b err, decode_members rule_names rule_set (mkRule t p a b) err ms =
  (mkRule (fst (ff (str "ruletype") set_string t ms)) (fst (ff (str "position") (set_int 64) p ms)) (fst (ff (str "string1") set_string a ms)) (fst (ff (str "string2") set_string b ms)),
   err || (snd (ff (str "ruletype") set_string t ms) || (snd (ff (str "position") (set_int 64) p ms) || (snd (ff (str "string1") set_string a ms) || snd (ff (str "string2") set_string b ms))))).
Proof.
  induction ms as [|[k x] ms IH]; intros t p a b err; [cbn [decode_members ff fst snd orb]; rewrite orb_false_r; reflexivity|].
  cbn [decode_members ff]. pose proof (find_field_spec rule_names k rule_names_good) as F. destruct (find_field rule_names k) as [i|].
  - destruct F as [L F]. rewrite !(F 0%nat (str "ruletype") eq_refl), !(F 1%nat (str "position") eq_refl), !(F 2%nat (str "string1") eq_refl), !(F 3%nat (str "string2") eq_refl).
    destruct i as [|[|[|[|i]]]]; [| | | |exfalso; cbn in L; lia]; cbn [Nat.eqb rule_set].
    + destruct (set_string t x) as [y er]. rewrite IH. cbn [fst snd]. f_equal. btauto.
    + destruct (set_int 64 p x) as [y er]. rewrite IH. cbn [fst snd]. f_equal. btauto.
    + destruct (set_string a x) as [y er]. rewrite IH. cbn [fst snd]. f_equal. btauto.
    + destruct (set_string b x) as [y er]. rewrite IH. cbn [fst snd]. f_equal. btauto.
  - rewrite !(F 0%nat (str "ruletype") eq_refl), !(F 1%nat (str "position") eq_refl), !(F 2%nat (str "string1") eq_refl), !(F 3%nat (str "string2") eq_refl). apply IH.
Qed.

(** ** What decodes without error *)
Lemma ascii_name n : forallb (fun c => bN c <? 128) n = true -> Forall (fun c => bN c < 128) n.
Proof. intros H. rewrite forallb_forall in H. apply Forall_forall. intros c I. apply N.ltb_lt, H, I. Qed.
Lemma field_uint n bits v ms w : forallb (fun c => bN c <? 128) n = true ->
  (ff n (set_uint bits) v ms = (w, false) <-> field n is_null (reads_natural bits) v ms w).
Proof.
  intros A. apply ff_field; [apply ascii_name, A| | |].
  - intros v' x ->. reflexivity.
  - intros v' x y R. exact (uint_read bits v' x y R).
  - intros v' x H. exact (uint_err bits v' x H).
Qed.
Lemma field_int n bits v ms w : forallb (fun c => bN c <? 128) n = true ->
  (ff n (set_int bits) v ms = (w, false) <-> field n is_null (reads_integer bits) v ms w).
Proof.
  intros A. apply ff_field; [apply ascii_name, A| | |].
  - intros v' x ->. reflexivity.
  - intros v' x y R. exact (int_read bits v' x y R).
  - intros v' x H. exact (int_err bits v' x H).
Qed.
Lemma field_string n v ms w : forallb (fun c => bN c <? 128) n = true ->
  (ff n set_string v ms = (w, false) <-> field n is_null reads_text v ms w).
Proof.
  intros A. apply ff_field; [apply ascii_name, A| | |].
  - intros v' x ->. reflexivity.
  - intros v' x y R. exact (string_read v' x y R).
  - intros v' x H. exact (string_err v' x H).
Qed.
Lemma ff_one {V} n (set : V -> json -> V * bool) v k x : ff n set v [(k, x)] = if fold_eq n k then (fst (set v x), snd (set v x) || false) else (v, false).
Proof. reflexivity. Qed.
Lemma nth_skipn {A} (d : A) : forall n l i, nth i (skipn n l) d = nth (n + i) l d.
Proof. induction n as [|n IH]; intros [|x l] i; try reflexivity; [destruct i; reflexivity|]. cbn [skipn Nat.add nth]. apply IH. Qed.
Lemma mem_after {A} (d : A) t mem i n : length t = n -> nth i t (nth i mem d) = nth i (t ++ skipn n mem) d.
Proof.
  intros L. destruct (Nat.lt_ge_cases i (length t)) as [C|C].
  - rewrite (app_nth1 t) by exact C. apply nth_indep. exact C.
  - rewrite (app_nth2 t), (nth_overflow t) by exact C. rewrite nth_skipn. f_equal. lia.
Qed.
Lemma fills_sound n : Forall (fun c => bN c < 128) n -> forall ms b sp, ff n set_bytes (None, []) ms = ((b, sp), false) ->
  exists m, fills n ms b m /\ forall i, m i = nth i (sl b ++ sp) Byte.x00.
Proof.
  intros A. induction ms as [|[k x] ms IH] using rev_ind; intros b sp H.
  - cbn [ff] in H. apply pair_inj in H as [H _]. apply pair_inj in H as [<- <-]. exists (fun _ => Byte.x00). split; [constructor|]. intros [|i]; reflexivity.
  - rewrite ff_app, ff_one in H. destruct (ff n set_bytes (None, []) ms) as [[b0 sp0] e0] eqn:F. cbn [fst snd] in H.
    destruct (fold_eq n k) eqn:K.
    + apply pair_inj in H as [H H']. cbn [fst snd] in H, H'. rewrite orb_false_r in H'. apply orb_false_iff in H' as [-> H'].
      destruct (IH b0 sp0 eq_refl) as (m & FL & M). apply fold_eq_names in K; [|exact A].
      destruct x as [|bb|lit|s|[|y l]|l]; cbn [set_bytes fst snd] in H, H'; try discriminate H'.
      * apply pair_inj in H as [<- <-]. exists (fun _ => Byte.x00). split; [eapply fills_null; eassumption|]. intros [|i]; reflexivity.
      * destruct (b64_decode s) as [t|] eqn:B; [|discriminate H']. cbn [fst snd] in H. apply pair_inj in H as [<- <-]. apply base64_spec in B.
        exists (fun i => nth i t Byte.x00). split; [eapply fills_text; eassumption|]. intros i. cbn [sl]. rewrite app_nil_r. reflexivity.
      * apply pair_inj in H as [<- <-]. exists (fun _ => Byte.x00). split; [eapply fills_empty; eassumption|]. intros [|i]; reflexivity.
      * destruct (set_elems (sl b0 ++ sp0) (y :: l)) as [t e] eqn:E. cbn [fst snd] in H, H'. subst e. apply pair_inj in H as [<- <-].
        apply elems_spec in E as [L E]. exists (fun i => nth i t (m i)). split.
        -- eapply fills_array; [exact FL|exact K|discriminate|exact L|]. intros i x I. rewrite M. exact (E i x I).
        -- intros i. cbn [sl]. rewrite M. apply mem_after. exact L.
    + apply pair_inj in H as [H H']. rewrite orb_false_r in H'. subst e0. cbn [fst snd] in H. apply pair_inj in H as [<- <-].
      destruct (IH b0 sp0 eq_refl) as (m & FL & M). exists m. split; [|exact M]. apply fills_other; [exact FL|]. intros X. apply fold_eq_names in X; [congruence|exact A].
Qed.
Lemma fills_complete n : Forall (fun c => bN c < 128) n -> forall ms b m, fills n ms b m ->
  exists sp, ff n set_bytes (None, []) ms = ((b, sp), false) /\ forall i, m i = nth i (sl b ++ sp) Byte.x00.
Proof.
  intros A ms b m H. induction H as [|ms k x b m H (sp & IH & M) K|ms k b m H (sp & IH & M) K|ms k b m s t H (sp & IH & M) K B|ms k b m H (sp & IH & M) K|ms k b m l t H (sp & IH & M) K NE L E].
  - exists []. split; [reflexivity|]. intros [|i]; reflexivity.
  - exists sp. split; [|exact M]. rewrite ff_app, ff_one, IH. cbn [fst snd orb]. destruct (fold_eq n k) eqn:F; [apply fold_eq_names in F; [contradiction|exact A]|reflexivity].
  - exists []. split; [|intros [|i]; reflexivity]. rewrite ff_app, ff_one, IH. apply fold_eq_names in K; [|exact A]. cbn [fst snd orb]. rewrite K. reflexivity.
  - exists []. split; [|intros i; cbn [sl]; rewrite app_nil_r; reflexivity]. rewrite ff_app, ff_one, IH. apply fold_eq_names in K; [|exact A]. cbn [fst snd orb]. rewrite K.
    apply base64_spec in B. cbn [set_bytes]. rewrite B. reflexivity.
  - exists []. split; [|intros [|i]; reflexivity]. rewrite ff_app, ff_one, IH. apply fold_eq_names in K; [|exact A]. cbn [fst snd orb]. rewrite K. reflexivity.
  - exists (skipn (length l) (sl b ++ sp)). split.
    + rewrite ff_app, ff_one, IH. apply fold_eq_names in K; [|exact A]. cbn [fst snd orb]. rewrite K.
      assert (X : set_elems (sl b ++ sp) l = (t, false)) by (apply elems_spec; split; [exact L|]; intros i x I; specialize (E i x I); rewrite M in E; exact E).
      destruct l as [|y l]; [contradiction|]. cbn [set_bytes fst snd]. rewrite X. reflexivity.
    + intros i. cbn [sl]. rewrite M. apply mem_after. exact L.
Qed.
Lemma field_bytes n ms w : forallb (fun c => bN c <? 128) n = true ->
  ((exists sp, ff n set_bytes (None, []) ms = ((w, sp), false)) <-> bytes_field n ms w).
Proof.
  intros A. apply ascii_name in A. split.
  - intros (sp & H). destruct (fills_sound n A ms w sp H) as (m & F & _). exists m. exact F.
  - intros (m & F). destruct (fills_complete n A ms w m F) as (sp & H & _). exists sp. exact H.
Qed.
(** Without nulls in arrays the last member of the name gives the value. *)
Section Plain.
Context (n : bytes) (A : Forall (fun c => bN c < 128) n).
Lemma names_dec k : {names_field n k} + {~ names_field n k}.
Proof. destruct (fold_eq n k) eqn:E; [left; apply fold_eq_names; assumption|right; intros H; apply fold_eq_names in H; [congruence|exact A]]. Qed.
Definition readable (ms : list (bytes * json)) : Prop := forall k x, In (k, x) ms -> names_field n k -> exists w, reads_bytes x w.
Notation fld := (field n never reads_bytes None).
Lemma field_other ms k x b : ~ names_field n k -> (fld (ms ++ [(k, x)]) b <-> fld ms b).
Proof.
  intros NK. split; intros [G L]; split.
  - intros k' x' I. apply G. apply in_or_app. left. exact I.
  - destruct L as [(-> & L)|(l & k' & x' & r & E & N' & R & L)].
    + left. split; [reflexivity|]. intros k' x' I. apply (L k'). apply in_or_app. left. exact I.
    + right. destruct r as [|y r] using rev_ind.
      * apply app_inj_tail in E as [<- E]. apply pair_inj in E as [-> _]. contradiction.
      * clear IHr. rewrite app_comm_cons, app_assoc in E. apply app_inj_tail in E as [-> <-]. exists l, k', x', r. split; [reflexivity|]. split; [exact N'|]. split; [exact R|].
        intros k2 x2 I. apply (L k2). apply in_or_app. left. exact I.
  - intros k' x' I N'. apply in_app_or in I as [I|[I|[]]]; [exact (G k' x' I N')|]. apply pair_inj in I as [<- _]. contradiction.
  - destruct L as [(-> & L)|(l & k' & x' & r & -> & N' & R & L)].
    + left. split; [reflexivity|]. intros k' x' I N'. apply in_app_or in I as [I|[I|[]]]; [exact (L k' x' I N')|]. apply pair_inj in I as [<- _]. contradiction.
    + right. exists l, k', x', (r ++ [(k, x)]). split; [rewrite <- app_assoc; reflexivity|]. split; [exact N'|]. split; [exact R|].
      intros k2 x2 I N2. apply in_app_or in I as [I|[I|[]]]; [exact (L k2 x2 I N2)|]. apply pair_inj in I as [<- _]. contradiction.
Qed.
Lemma field_last ms k x b : names_field n k -> (fld (ms ++ [(k, x)]) b <-> readable ms /\ reads_bytes x b).
Proof.
  intros NK. split.
  - intros [G L]. split.
    + intros k' x' I N'. destruct (G k' x' (in_or_app _ _ _ (or_introl I)) N') as [[]|H]. exact H.
    + destruct L as [(-> & L)|(l & k' & x' & r & E & N' & R & L)].
      * destruct (L k x (in_elt _ _ []) NK).
      * destruct r as [|y r] using rev_ind; [apply app_inj_tail in E as [_ E]; apply pair_inj in E as [_ ->]; exact R|]. clear IHr.
        rewrite app_comm_cons, app_assoc in E. apply app_inj_tail in E as [_ <-].
        destruct (L k x (in_elt _ _ []) NK).
  - intros [G R]. split.
    + intros k' x' I N'. right. apply in_app_or in I as [I|[I|[]]]; [exact (G k' x' I N')|]. apply pair_inj in I as [<- <-]. exists b. exact R.
    + right. exists ms, k, x, []. split; [reflexivity|]. split; [exact NK|]. split; [exact R|]. intros ? ? [].
Qed.
Lemma field_readable ms : readable ms <-> exists b, fld ms b.
Proof.
  split.
  - induction ms as [|[k x] ms IH] using rev_ind; intros G.
    + exists None. split; [intros ? ? []|]. left. split; [reflexivity|intros ? ? []].
    + assert (G' : readable ms) by (intros k' x' I; apply G; apply in_or_app; left; exact I).
      destruct (names_dec k) as [NK|NK].
      * destruct (G k x (in_elt _ _ []) NK) as (b & R). exists b. apply field_last; auto.
      * destruct (IH G') as (b & F). exists b. apply field_other; assumption.
  - intros (b & G & _) k x I N'. destruct (G k x I N') as [[]|H]. exact H.
Qed.
Lemma fills_plain ms : (forall k l, In (k, JArr l) ms -> names_field n k -> ~ In JNull l) ->
  forall b, (bytes_field n ms b <-> fld ms b).
Proof.
  induction ms as [|[k x] ms IH] using rev_ind; intros NN b.
  - split.
    + intros (m & F). inversion F as [E|ms k x b' m' F' NK E|ms k b' m' F' NK E|ms k b' m' s t F' NK B E|ms k b' m' F' NK E|ms k b' m' l t F' NK L B C E];
        try (symmetry in E; apply app_eq_nil in E as [_ E]; discriminate E);
        try (apply app_eq_nil in E as [_ E]; discriminate E); try (apply app_eq_nil in H as [_ H]; discriminate H).
      split; [intros ? ? []|]. left. split; [reflexivity|intros ? ? []].
    + intros [_ [(-> & _)|(l & k & x & r & E & _)]]; [eexists; apply fills_start|destruct l; discriminate E].
  - assert (NN' : forall k l, In (k, JArr l) ms -> names_field n k -> ~ In JNull l) by (intros k' l' I; apply NN; apply in_or_app; left; exact I).
    specialize (IH NN').
    assert (LAST : forall l, x = JArr l -> names_field n k -> ~ In JNull l) by (intros l -> NK; apply (NN k); [apply in_or_app; right; left; reflexivity|exact NK]).
    destruct (names_dec k) as [NK|NK].
    + rewrite field_last by exact NK. split.
      * intros (m & F). remember (ms ++ [(k, x)]) as ms' eqn:EQ.
        destruct F as [|ms0 k0 x0 b m F N0|ms0 k0 b m F N0|ms0 k0 b m s t F N0 B|ms0 k0 b m F N0|ms0 k0 b m l t F N0 NE L E];
          [symmetry in EQ; apply app_eq_nil in EQ as [_ EQ]; discriminate EQ|..]; apply app_inj_tail in EQ as [-> EQ]; apply pair_inj in EQ as [-> EQ];
          [contradiction| | | |]; (split; [apply field_readable; exists b; apply IH; exists m; exact F|]); subst x.
        -- left. auto.
        -- right. left. exists s, t. auto.
        -- right. right. exists [], []. split; [reflexivity|]. split; [constructor|reflexivity].
        -- right. right. specialize (LAST l eq_refl NK).
           assert (X : exists ns, Forall2 (reads_natural 8) l ns /\ t = map nB ns).
           { clear NE. revert t m L E F. clear - LAST. intros t m L E _. revert t m L E. induction l as [|x l IH]; intros [|c t] m L E; try discriminate L.
             - exists []. split; [constructor|reflexivity].
             - destruct (IH (fun H => LAST (or_intror H)) t (fun i => m (S i))) as (ns & R & ->); [cbn [length] in L; lia|intros i y I; exact (E (S i) y I)|].
               destruct (E 0%nat x eq_refl) as [[-> _]|(k & R' & H)]; [exfalso; apply LAST; left; reflexivity|].
               cbn [nth_error] in H. apply Some_inj in H. subst c. exists (k :: ns). split; [constructor; assumption|reflexivity]. }
           destruct X as (ns & R & ->). exists l, ns. auto.
      * intros [G R]. apply field_readable in G as (b0 & G). apply IH in G as (m & F).
        destruct R as [[-> ->]|[(s & t & -> & B & ->)|(l & ns & -> & R & ->)]].
        -- eexists. eapply fills_null; eassumption.
        -- eexists. eapply fills_text; eassumption.
        -- destruct l as [|y l]; [inversion R; subst; eexists; eapply fills_empty; eassumption|].
           eexists. eapply fills_array; [exact F|exact NK|discriminate| |].
           ++ rewrite map_length. symmetry. clear - R; induction R; [reflexivity|cbn [length]; congruence].
           ++ clear - R. intros i x I. right. revert i I. induction R as [|z w l' ws Z R IH]; intros [|i] I; try discriminate I.
              ** cbn [nth_error] in I. apply Some_inj in I. subst z. exists w. auto.
              ** exact (IH i I).
    + rewrite field_other by exact NK. rewrite <- IH. split.
      * intros (m & F). remember (ms ++ [(k, x)]) as ms' eqn:EQ.
        destruct F as [|ms0 k0 x0 b m F N0|ms0 k0 b m F N0|ms0 k0 b m s t F N0 B|ms0 k0 b m F N0|ms0 k0 b m l t F N0 NE L E];
          [symmetry in EQ; apply app_eq_nil in EQ as [_ EQ]; discriminate EQ|..]; apply app_inj_tail in EQ as [-> EQ]; apply pair_inj in EQ as [-> EQ]; try contradiction.
        exists m. exact F.
      * intros (m & F). exists m. apply fills_other; assumption.
Qed.
End Plain.
Lemma pair_false {A} (p : A * bool) w : p = (w, false) <-> w = fst p /\ snd p = false.
Proof. destruct p as [a b]. cbn [fst snd]. split; [intros H; apply pair_inj in H as [-> ->]; auto|intros [-> ->]; reflexivity]. Qed.
Lemma pair_false' {A B} (p : (A * B) * bool) w : (exists sp, p = ((w, sp), false)) <-> w = fst (fst p) /\ snd p = false.
Proof. destruct p as [[a b] e]. cbn [fst snd]. split; [intros (sp & H); apply pair_inj in H as [H ->]; apply pair_inj in H as [-> _]; auto|intros [-> ->]; exists b; reflexivity]. Qed.
Lemma request_members_spec ms rq : (exists sp, decode_members request_names request_set (zeroRequest, []) false ms = ((rq, sp), false)) <-> describes_request ms rq.
Proof.
  unfold zeroRequest. rewrite decode_request, orb_false_l. unfold describes_request.
  rewrite <- field_uint, <- field_string, <- field_bytes by reflexivity. destruct rq as [v b e]. cbn [rq_version rq_bucketID rq_blindElement].
  pose proof (pair_false' (ff (str "blindElement") set_bytes (None, []) ms) e) as PB. rewrite !pair_false', !pair_false. cbn [fst snd] in PB |- *. rewrite PB.
  rewrite !orb_false_iff. split.
  - intros [H1 (A1 & A2 & A3)]. exact (conj (conj (f_equal rq_version H1) A1) (conj (conj (f_equal rq_bucketID H1) A2) (conj (f_equal rq_blindElement H1) A3))).
  - intros ((-> & A1) & (-> & A2) & (-> & A3)). split; [reflexivity|]. exact (conj A1 (conj A2 A3)).
Qed.
Lemma cfields_spec iw ms c : cfields iw zeroConfig ms = (c, false) <-> describes_config iw ms c.
Proof.
  unfold cfields, zeroConfig, describes_config. cbn [cfg_version cfg_bits cfg_bucketHasher cfg_slowHasher cfg_bucketEncryptor cfg_oprfSuite].
  rewrite <- field_int, <- !field_uint by reflexivity. rewrite !pair_false. destruct c as [v b h s e o]. cbn [fst snd cfg_version cfg_bits cfg_bucketHasher cfg_slowHasher cfg_bucketEncryptor cfg_oprfSuite].
  rewrite !orb_false_iff. split.
  - intros [H1 (A1 & A2 & A3 & A4 & A5 & A6)].
    exact (conj (conj (f_equal cfg_version H1) A1) (conj (conj (f_equal cfg_bits H1) A2) (conj (conj (f_equal cfg_bucketHasher H1) A3)
          (conj (conj (f_equal cfg_slowHasher H1) A4) (conj (conj (f_equal cfg_bucketEncryptor H1) A5) (conj (f_equal cfg_oprfSuite H1) A6)))))).
  - intros ((-> & A1) & (-> & A2) & (-> & A3) & (-> & A4) & (-> & A5) & (-> & A6)). split; [reflexivity|].
    exact (conj A1 (conj A2 (conj A3 (conj A4 (conj A5 A6))))).
Qed.
Lemma config_members_spec iw ms c : decode_members config_names (config_set iw) zeroConfig false ms = (c, false) <-> describes_config iw ms c.
Proof.
  rewrite decode_config, orb_false_l, <- cfields_spec, !pair_false. cbn [fst snd]. reflexivity.
Qed.
Lemma server_members_spec iw ms c k : (exists sp, decode_members server_config_names (aux_set iw) (zeroConfig, (None, [])) false ms = ((c, (k, sp)), false)) <->
  describes_config iw ms c /\ describes_key ms k.
Proof.
  rewrite decode_server_config, orb_false_l, <- cfields_spec. unfold describes_key. rewrite <- field_bytes by reflexivity.
  destruct (cfields iw zeroConfig ms) as [c' e1]. destruct (ff (str "privateKey") set_bytes (None, []) ms) as [[k' sp'] e2]. cbn [fst snd]. split.
  - intros (sp & H). apply pair_inj in H as [H H2]. apply pair_inj in H as [-> H]. apply pair_inj in H as [-> ->]. apply orb_false_iff in H2 as [-> ->].
    split; [reflexivity|exists sp; reflexivity].
  - intros (H1 & sp & H2). apply pair_inj in H1 as [-> ->]. apply pair_inj in H2 as [H2 ->]. rewrite H2. exists sp. reflexivity.
Qed.
Lemma rule_members_spec ms r : decode_members rule_names rule_set zeroRule false ms = (r, false) <-> describes_rule ms r.
Proof.
  unfold zeroRule. rewrite decode_rule, orb_false_l. unfold describes_rule.
  rewrite <- field_int, <- !field_string by reflexivity. rewrite !pair_false. destruct r as [t p a b]. cbn [fst snd RuleType Position String1 String2].
  rewrite !orb_false_iff. split.
  - intros [H1 (A1 & A2 & A3 & A4)].
    exact (conj (conj (f_equal RuleType H1) A1) (conj (conj (f_equal Position H1) A2) (conj (conj (f_equal String1 H1) A3) (conj (f_equal String2 H1) A4)))).
  - intros ((-> & A1) & (-> & A2) & (-> & A3) & (-> & A4)). split; [reflexivity|]. exact (conj A1 (conj A2 (conj A3 A4))).
Qed.

Lemma unmarshal_spec {A} names set (members : list (bytes * json) -> A -> Prop) (zero : A) data a :
  (forall ms a, decode_members names set zero false ms = (a, false) <-> members ms a) ->
  (unmarshal_struct names set zero data = (a, None) <-> exists j, json_accepted data j /\ record_of members zero j a).
Proof.
  intros M. unfold unmarshal_struct, json_accepted, record_of. split.
  - destruct (json_parse data) as [j|] eqn:J; [|intros H; apply pair_inj in H as [_ H]; discriminate H].
    intros H. exists j. split; [apply json_parse_grammar, J|].
    destruct j; try (apply pair_inj in H as [_ H]; discriminate H).
    + apply pair_inj in H as [<- _]. left. auto.
    + destruct (decode_members names set zero false l) as [a' e] eqn:D. destruct e; [apply pair_inj in H as [_ H]; discriminate H|].
      apply pair_inj in H as [<- _]. right. exists l. split; [reflexivity|apply M, D].
  - intros (j & J & R). apply json_parse_grammar in J. rewrite J. destruct R as [[-> ->]|(ms & -> & R)]; [reflexivity|].
    apply M in R. rewrite R. reflexivity.
Qed.
(** Likewise with something besides the record that does not show. *)
Lemma unmarshal_spec' {A B C} names set (members : list (bytes * json) -> A -> Prop) (pack : A -> B -> C) (zero : A) (none : B) data a :
  (forall a a' b b', pack a b = pack a' b' -> a = a') ->
  (forall ms a, (exists b, decode_members names set (pack zero none) false ms = (pack a b, false)) <-> members ms a) ->
  ((exists b, unmarshal_struct names set (pack zero none) data = (pack a b, None)) <-> exists j, json_accepted data j /\ record_of members zero j a).
Proof.
  intros INJ M. unfold unmarshal_struct, json_accepted, record_of. split.
  - intros (b & H). destruct (json_parse data) as [j|] eqn:J; [|apply pair_inj in H as [_ H]; discriminate H].
    exists j. split; [apply json_parse_grammar, J|].
    destruct j; try (apply pair_inj in H as [_ H]; discriminate H).
    + apply pair_inj in H as [H _]. apply INJ in H. left. auto.
    + destruct (decode_members names set (pack zero none) false l) as [a' e] eqn:D. destruct e; [apply pair_inj in H as [_ H]; discriminate H|].
      apply pair_inj in H as [-> _]. right. exists l. split; [reflexivity|]. apply M. exists b. exact D.
  - intros (j & J & R). apply json_parse_grammar in J. rewrite J. destruct R as [[-> ->]|(ms & -> & R)]; [exists none; reflexivity|].
    apply M in R as (b & R). rewrite R. exists b. reflexivity.
Qed.
Lemma request_unmarshal_spec data rq :
  ClientRequest_unmarshal data = (rq, None) <-> exists j, json_accepted data j /\ record_of describes_request (mkClientRequest 0 [] None) j rq.
Proof.
  rewrite <- (unmarshal_spec' request_names request_set describes_request (@pair ClientRequest bytes) zeroRequest [] data rq);
    [|intros; eapply proj1, pair_inj; eassumption|apply request_members_spec].
  unfold ClientRequest_unmarshal. destruct (unmarshal_struct request_names request_set (zeroRequest, []) data) as [[rq' sp] e] eqn:U. cbn [fst]. split.
  - intros H. apply pair_inj in H as [-> ->]. exists sp. exact U.
  - intros (sp' & H). assert (H' := eq_trans (eq_sym U) H). clear H. rename H' into H. apply pair_inj in H as [H ->]. apply pair_inj in H as [-> _]. reflexivity.
Qed.
Lemma config_unmarshal_spec iw data c :
  Config_unmarshal iw data = Ok c <-> exists j, json_accepted data j /\ record_of (describes_config iw) (mkConfig 0 0 0 0 0 0) j c.
Proof.
  rewrite <- (unmarshal_spec config_names (config_set iw) (describes_config iw) zeroConfig data c (config_members_spec iw)).
  unfold Config_unmarshal. destruct (unmarshal_struct config_names (config_set iw) zeroConfig data) as [c' [e|]].
  - split; [discriminate|intros H; apply pair_inj in H as [_ H]; discriminate H].
  - split; [intros H; apply Ok_inj in H; subst; reflexivity|intros H; apply pair_inj in H as [-> _]; reflexivity].
Qed.
Lemma server_config_unmarshal_spec (LIB : OPRF) iw data (c : ServerConfig LIB) :
  ServerConfig_UnmarshalJSON LIB iw data = Ok c <->
  exists j k, json_accepted data j /\ record_of (fun ms ck => describes_config iw ms (fst ck) /\ describes_key ms (snd ck)) (mkConfig 0 0 0 0 0 0, None) j (sc_config c, k)
    /\ key_parse LIB (cfg_oprfSuite (sc_config c)) (sl k) = Ok (sc_privateKey c).
Proof.
  pose (pack := fun (ck : Config * gslice) (sp : bytes) => (fst ck, (snd ck, sp))).
  assert (M : forall ms a, (exists sp, decode_members server_config_names (aux_set iw) (pack (zeroConfig, None) []) false ms = (pack a sp, false)) <->
    (fun ms ck => describes_config iw ms (fst ck) /\ describes_key ms (snd ck)) ms a) by (intros ms [c' k]; apply server_members_spec).
  assert (INJ : forall a a' b b', pack a b = pack a' b' -> a = a').
  { intros [a1 a2] [a1' a2'] b b' H. unfold pack in H. cbn [fst snd] in H. apply pair_inj in H as [-> H]. apply pair_inj in H as [-> _]. reflexivity. }
  pose proof (fun a => unmarshal_spec' server_config_names (aux_set iw) _ pack (zeroConfig, None) [] data a INJ M) as US.
  unfold ServerConfig_UnmarshalJSON. unfold pack at 1 in US. cbn [fst snd] in US. split.
  - destruct (unmarshal_struct server_config_names (aux_set iw) (zeroConfig, (None, [])) data) as [[c' [k sp]] [e|]] eqn:U; [discriminate|].
    intros H. destruct (key_parse LIB (cfg_oprfSuite c') (sl k)) as [key| |] eqn:K; try discriminate H. cbn [bind] in H. apply Ok_inj in H. subst c. cbn [sc_config sc_privateKey].
    destruct (proj1 (US (c', k))) as (j & J & R); [exists sp; exact U|]. exists j, k. auto.
  - intros (j & k & J & R & K).
    destruct (proj2 (US (sc_config c, k))) as (sp & U); [exists j; auto|]. unfold pack in U. cbn [fst snd] in U.
    assert (U' : @unmarshal_struct (Config * buf) server_config_names (aux_set iw) (zeroConfig, (None, [])) data = ((sc_config c, (k, sp)), None)) by exact U.
    rewrite U', K. cbn [bind]. destruct c; reflexivity.
Qed.
Lemma rules_unmarshal_spec text rules :
  rules_unmarshal text = Ok rules <->
  exists j, json_accepted text j /\ ((j = JNull /\ rules = []) \/ exists l, j = JArr l /\ Forall2 (record_of describes_rule (mkRule [] 0 [] [])) l rules).
Proof.
  assert (RD : forall x r, rule_decode x = (r, false) <-> record_of describes_rule (mkRule [] 0 [] []) x r).
  { intros x r. unfold record_of, rule_decode. split.
    - destruct x; try (intros H; apply pair_inj in H as [_ H]; discriminate H).
      + intros H. apply pair_inj in H as [<- _]. left. auto.
      + intros H. right. exists l. split; [reflexivity|apply rule_members_spec, H].
    - intros [[-> ->]|(ms & -> & H)]; [reflexivity|]. apply rule_members_spec, H. }
  assert (RL : forall l rs, Forall2 (record_of describes_rule (mkRule [] 0 [] [])) l rs <-> existsb snd (map rule_decode l) = false /\ map fst (map rule_decode l) = rs).
  { induction l as [|x l IH]; intros rs; cbn [map existsb].
    - split; [intros H; inversion H; auto|intros [_ <-]; constructor].
    - split.
      + intros H. inversion H as [|? r ? rs' X R]; subst. apply RD in X. apply IH in R as [R <-]. rewrite X. auto.
      + intros [H <-]. apply orb_false_iff in H as [H1 H2]. constructor; [|apply IH; auto]. apply RD. destruct (rule_decode x); cbn [fst snd] in *. subst. reflexivity. }
  unfold rules_unmarshal, json_accepted. split.
  - destruct (json_parse text) as [j|] eqn:J; [|discriminate]. intros H. exists j. split; [apply json_parse_grammar, J|].
    destruct j; try discriminate H.
    + apply Ok_inj in H. left. auto.
    + right. exists l. split; [reflexivity|]. apply RL. destruct (existsb snd (map rule_decode l)); [discriminate H|]. apply Ok_inj in H. auto.
  - intros (j & J & R). apply json_parse_grammar in J. rewrite J. destruct R as [[-> ->]|(l & -> & R)]; [reflexivity|]. apply RL in R as [R <-]. rewrite R. reflexivity.
Qed.

Lemma config_decode_spec iw data c :
  Config_decode iw data = Ok c <->
  exists w x rest j, data = w ++ x ++ rest /\ json_space w /\ json_text x j /\ nesting j <= 10000 /\ record_of (describes_config iw) (mkConfig 0 0 0 0 0 0) j c.
Proof.
  unfold Config_decode. split.
  - destruct (parse_value (S (length data)) 0 data) as [[j t]|] eqn:P; [|discriminate]. intros H.
    assert (R : (forall l, j <> JNum l) /\ record_of (describes_config iw) (mkConfig 0 0 0 0 0 0) j c).
    { destruct j; try discriminate H.
      - apply Ok_inj in H. subst c. split; [discriminate|]. left. auto.
      - split; [discriminate|]. right. exists l. split; [reflexivity|]. apply config_members_spec.
        destruct (decode_members config_names (config_set iw) zeroConfig false l) as [c' [|]]; [discriminate H|]. apply Ok_inj in H. subst c'. reflexivity. }
    destruct R as [NN R]. destruct (proj1 (parse_first data j NN) (ex_intro _ t P)) as (w & x & rest & E & W & J & D).
    exists w, x, rest, j. auto.
  - intros (w & x & rest & j & E & W & J & D & R).
    assert (NN : forall l, j <> JNum l) by (destruct R as [[-> _]|(ms & -> & _)]; discriminate).
    destruct (proj2 (parse_first data j NN)) as (t & P); [exists w, x, rest; auto|]. rewrite P.
    destruct R as [[-> ->]|(ms & -> & R)]; [reflexivity|]. apply config_members_spec in R. rewrite R. reflexivity.
Qed.
Lemma accepted_unique s j k : json_accepted s j -> json_accepted s k -> j = k.
Proof. unfold json_accepted. rewrite <- !json_parse_grammar. intros H K. rewrite H in K. apply Some_inj in K. exact K. Qed.
Lemma empty_object_config iw ws ws' : json_space ws -> json_space ws' -> Config_unmarshal iw (ws ++ str "{}" ++ ws') = Ok (mkConfig 0 0 0 0 0 0).
Proof.
  intros W W'. apply config_unmarshal_spec. exists (JObj []). split.
  - split; [|discriminate]. exists ws, (str "{}"), ws'. split; [reflexivity|]. split; [exact W|]. split; [|exact W'].
    apply (jt_object0 []). intros c [].
  - right. exists []. split; [reflexivity|]. assert (F : forall {V} n sk (rd : json -> V -> Prop) v, field n sk rd v [] v).
    { intros V n sk rd v. split; [intros k x []|]. left. split; [reflexivity|intros k x []]. }
    unfold describes_config. cbn [cfg_version cfg_bits cfg_bucketHasher cfg_slowHasher cfg_bucketEncryptor cfg_oprfSuite].
    exact (conj (F _ _ _ _ _) (conj (F _ _ _ _ _) (conj (F _ _ _ _ _) (conj (F _ _ _ _ _) (conj (F _ _ _ _ _) (F _ _ _ _ _)))))).
Qed.

(** ** The evaluate endpoint *)
Section Evaluate.
Context (LIB : OPRF) (L : OPRF_laws LIB) (s : server LIB).
Lemma answered_bodies data body :
  (exists w, handleEvaluate s (Ok data) = Ok w /\ response_of w = (200%N, body)) <->
  exists j rq resp, json_accepted data j /\ record_of describes_request (mkClientRequest 0 [] None) j rq
    /\ HandleRequest (migpServer s) rq (kv_Get (kv s)) = Ok resp /\ body = answer_bytes resp.
Proof.
  split.
  - intros (w & H & R). pose proof (proj1 (evaluate_200_iff LIB s _ w L H)) as K. rewrite R in K. destruct (K eq_refl) as (d & rq & resp & E & U & A).
    apply Ok_inj in E. subst d. destruct (evaluate_accepted LIB s data rq resp U A) as (w' & H' & R'). rewrite H in H'. apply Ok_inj in H'. subst w'.
    rewrite R in R'. apply pair_inj in R' as [_ ->]. apply request_unmarshal_spec in U as (j & J & M). exists j, rq, resp. auto.
  - intros (j & rq & resp & J & M & A & ->). eapply evaluate_accepted; [|exact A]. apply request_unmarshal_spec. exists j. auto.
Qed.
Lemma refused_bodies data :
  (exists w, handleEvaluate s (Ok data) = Ok w /\ fst (response_of w) = 500%N) <->
  exists j rq e, json_accepted data j /\ record_of describes_request (mkClientRequest 0 [] None) j rq
    /\ HandleRequest (migpServer s) rq (kv_Get (kv s)) = Err e.
Proof.
  split.
  - intros (w & H & R). apply (evaluate_500_iff LIB s _ w L H) in R as (d & rq & e & E & U & A).
    apply Ok_inj in E. subst d. apply request_unmarshal_spec in U as (j & J & M). exists j, rq, e. auto.
  - intros (j & rq & e & J & M & A). destruct (evaluate_refused LIB s data rq e) as (w & H & R); [apply request_unmarshal_spec; exists j; auto|exact A|].
    exists w. rewrite R. auto.
Qed.
Lemma bad_bodies data :
  (exists w, handleEvaluate s (Ok data) = Ok w /\ fst (response_of w) = 400%N) <->
  ~ exists j rq, json_accepted data j /\ record_of describes_request (mkClientRequest 0 [] None) j rq.
Proof.
  split.
  - intros (w & H & R) (j & rq & J & M). apply (evaluate_400_iff LIB s _ w L H) in R as [(e & E)|(d & rq' & e & E & U)]; [discriminate E|].
    apply Ok_inj in E. subst d. assert (U' : ClientRequest_unmarshal data = (rq, None)) by (apply request_unmarshal_spec; exists j; auto).
    rewrite U in U'. apply pair_inj in U' as [_ U']. discriminate U'.
  - intros N. destruct (evaluate_total LIB s (Ok data) L) as (w & H); [discriminate|]. exists w. split; [exact H|].
    apply (evaluate_400_iff LIB s _ w L H). right. destruct (ClientRequest_unmarshal data) as [rq [e|]] eqn:U; [exists data, rq, e; auto|].
    exfalso. apply N. apply request_unmarshal_spec in U as (j & J & M). exists j, rq. auto.
Qed.
End Evaluate.

(** ** A configuration without a slow hasher *)
Lemma no_slow_hash (LIB : OPRF) iw data ms c cl u p (r : Blind LIB) rq ctx :
  json_accepted data (JObj ms) -> (forall k x, In (k, x) ms -> ~ names_field (str "slowHasher") k) ->
  Config_unmarshal iw data = Ok c -> NewClient LIB c = Ok cl -> Request cl u p r = Ok (rq, ctx) ->
  cfg_slowHasher c = 0 /\ exists input, serializeUsernamePassword u p = Ok input /\ ctx_inputs ctx = [input].
Proof.
  intros J NS U NC RQ. apply config_unmarshal_spec in U as (j & J' & R). rewrite (accepted_unique _ _ _ J' J) in R.
  destruct R as [[R _]|(ms' & R & D)]; [discriminate R|]. assert (ms' = ms) by (inversion R; reflexivity). subst ms'.
  destruct D as (_ & _ & _ & D & _). destruct D as [_ [[D _]|(l & k & x & t & -> & N' & _)]].
  2:{ exfalso. apply (NS k x); [apply in_elt|exact N']. }
  split; [exact D|]. unfold NewClient in NC. rewrite D in NC. destruct (NewBucketHasher (cfg_bucketHasher c)); try discriminate NC.
  change (NewSlowHasher 0) with (@Ok SlowHasher nullSlowHasher) in NC. cbn [bind] in NC. destruct (NewBucketEncryptor (cfg_bucketEncryptor c)); try discriminate NC.
  cbn [bind] in NC. destruct (client_suite LIB (cfg_oprfSuite c)); try discriminate NC. cbn [bind] in NC. apply Ok_inj in NC. subst cl.
  unfold Request in RQ. cbn [c_slowHasher] in RQ. destruct (serializeUsernamePassword u p) as [input| |]; try discriminate RQ. cbn [bind SlowHasher_Hash] in RQ.
  destruct (blind LIB _ [input] [r]) as [[|b bs]| |]; try discriminate RQ. cbn [bind] in RQ.
  destruct (Client_BucketID _ u); try discriminate RQ. cbn [bind] in RQ. apply Ok_inj in RQ. apply pair_inj in RQ as [_ <-].
  exists input. split; reflexivity.
Qed.
