(** * Lemmas about pkg/mutator. *)
From Verif Require Import Base BaseProofs Murmur3 Mutator DasRules Json ConfigJson SpecMutator.

(** ** One rule *)
Lemma switchCase_swap b : match switchCase b with Ok c => c | _ => b end = swap_case b.
Proof. destruct b; reflexivity. Qed.

Lemma set_nth_app a x y c : set_nth (length a) y (a ++ x :: c) = a ++ y :: c.
Proof. induction a as [|z a IH]; [reflexivity|]. cbn. rewrite IH. reflexivity. Qed.

Lemma nth_app_mid {A} (a : list A) x c d : nth (length a) (a ++ x :: c) d = x.
Proof. induction a as [|z a IH]; [reflexivity|]. exact IH. Qed.

Lemma split_at {A} (s : list A) i : (i < length s)%nat -> exists a b c, s = a ++ b :: c /\ length a = i.
Proof.
  revert i; induction s as [|x s IH]; intros i H; [cbn in H; lia|].
  destruct i as [|i]; [exists [], x, s; auto|].
  destruct (IH i ltac:(cbn in H; lia)) as (a & b & c & -> & <-). exists (x :: a), b, c. auto.
Qed.

Lemma changeCap_in s pos : let i := resolve (blen s) pos in (0 <= i < blen s)%Z -> cap_at (Z.to_nat i) s (changeCap s pos).
Proof.
  cbv zeta. intros H. destruct (split_at s (Z.to_nat (resolve (blen s) pos))) as (a & b & c & E & L); [unfold blen in *; lia|].
  exists a, b, c. split; [exact E|]. split; [exact L|]. unfold changeCap. fold (resolve (blen s) pos).
  rewrite (proj2 (Z.leb_le _ _)), (proj2 (Z.ltb_lt _ _)) by lia. cbn [andb].
  rewrite <- L. rewrite E at 1. rewrite nth_app_mid. pose proof (switchCase_swap b) as S.
  destruct (switchCase b); rewrite <- S; rewrite E; [apply set_nth_app|reflexivity|reflexivity].
Qed.

Lemma changeCap_out s pos : let i := resolve (blen s) pos in (i < 0 \/ blen s <= i)%Z -> changeCap s pos = s.
Proof.
  cbv zeta. intros H. unfold changeCap. fold (resolve (blen s) pos).
  destruct ((0 <=? resolve (blen s) pos)%Z && (resolve (blen s) pos <? blen s)%Z) eqn:E; [|reflexivity].
  apply andb_true_iff in E. lia.
Qed.

Lemma delete_front s pos : (0 <= pos <= blen s)%Z ->
  exists a, s = a ++ deletePortion s pos /\ blen a = pos.
Proof.
  intros H. unfold deletePortion. rewrite !(proj2 (Z.leb_le _ _)) by lia. cbn [andb].
  exists (firstn (Z.to_nat pos) s). split; [symmetry; apply firstn_skipn|]. unfold blen in *. rewrite firstn_length. lia.
Qed.

Lemma delete_back s pos : (pos < 0)%Z -> (- pos <= blen s)%Z ->
  exists b, s = deletePortion s pos ++ b /\ blen b = (- pos)%Z.
Proof.
  intros H H'. unfold deletePortion. rewrite (proj2 (Z.leb_gt 0 pos)) by lia. cbn [andb].
  rewrite (proj2 (Z.ltb_lt _ _)), (proj2 (Z.leb_le _ _)) by lia. cbn [andb].
  exists (skipn (Z.to_nat (blen s + pos)) s). split; [symmetry; apply firstn_skipn|]. unfold blen in *. rewrite skipn_length. lia.
Qed.

Lemma delete_none s pos : (blen s < Z.abs pos)%Z -> deletePortion s pos = s.
Proof.
  intros H. unfold deletePortion.
  destruct ((0 <=? pos)%Z && (pos <=? blen s)%Z) eqn:E; [apply andb_true_iff in E; lia|].
  destruct ((pos <? 0)%Z && (0 <=? blen s + pos)%Z) eqn:E'; [apply andb_true_iff in E'; lia|]. reflexivity.
Qed.

Lemma insert_in s pos x : let q := resolve_gap (blen s) pos in (0 <= q <= blen s)%Z ->
  exists a b, s = a ++ b /\ blen a = q /\ insert s pos x = a ++ x ++ b.
Proof.
  cbv zeta. intros H. unfold insert.
  destruct ((blen s =? 0)%Z && ((pos =? 0)%Z || (pos =? -1)%Z)) eqn:E.
  - apply andb_true_iff in E as [E1 E2]. assert (s = []) by (destruct s; [reflexivity|unfold blen in E1; cbn in E1; lia]). subst s.
    exists [], []. split; [reflexivity|]. split; [|cbn; rewrite app_nil_r; reflexivity].
    apply orb_true_iff in E2. unfold resolve_gap in *. unfold blen in *. cbn in *. destruct (pos <? 0)%Z eqn:L; lia.
  - replace (if (pos <? 0)%Z then (pos + blen s + 1)%Z else pos) with (resolve_gap (blen s) pos)
      by (unfold resolve_gap; destruct (pos <? 0)%Z; lia).
    rewrite !(proj2 (Z.leb_le _ _)) by lia. cbn [andb].
    exists (firstn (Z.to_nat (resolve_gap (blen s) pos)) s), (skipn (Z.to_nat (resolve_gap (blen s) pos)) s).
    split; [symmetry; apply firstn_skipn|]. split; [unfold blen in *; rewrite firstn_length; lia|reflexivity].
Qed.

Lemma insert_out s pos x : let q := resolve_gap (blen s) pos in (q < 0 \/ blen s < q)%Z -> insert s pos x = s.
Proof.
  cbv zeta. intros H. unfold insert.
  destruct ((blen s =? 0)%Z && ((pos =? 0)%Z || (pos =? -1)%Z)) eqn:E.
  - exfalso. apply andb_true_iff in E as [E1 E2]. apply orb_true_iff in E2. unfold resolve_gap in H. destruct (pos <? 0)%Z eqn:L; lia.
  - replace (if (pos <? 0)%Z then (pos + blen s + 1)%Z else pos) with (resolve_gap (blen s) pos)
      by (unfold resolve_gap; destruct (pos <? 0)%Z; lia).
    destruct ((0 <=? resolve_gap (blen s) pos)%Z && (resolve_gap (blen s) pos <=? blen s)%Z) eqn:E'; [|reflexivity].
    apply andb_true_iff in E'. lia.
Qed.

(** ** bytes.ReplaceAll *)
Lemma prefixb_iff p s : prefixb p s = true <-> exists r, s = p ++ r.
Proof.
  revert s; induction p as [|x p IH]; intros s; cbn [prefixb app].
  - split; [eauto|auto].
  - destruct s as [|y s]; [split; [discriminate|intros [r E]; discriminate]|].
    rewrite andb_true_iff, beqb_eq, IH. split.
    + intros [-> [r ->]]. eauto.
    + intros [r E]. injection E as -> ->. eauto.
Qed.

Lemma replace_skip old new a s : replace_ne (length a) old new (a ++ s) = replace_ne 0 old new s.
Proof. induction a as [|x a IH]; [reflexivity|exact IH]. Qed.

Lemma replace_at old new rest : old <> [] -> replace_ne 0 old new (old ++ rest) = new ++ replace_ne 0 old new rest.
Proof.
  intros H. destruct old as [|x old]; [contradiction|]. cbn [app replace_ne].
  rewrite (proj2 (prefixb_iff (x :: old) (x :: old ++ rest))) by (exists rest; reflexivity).
  replace (length (x :: old) - 1)%nat with (length old) by (cbn; lia). rewrite replace_skip. reflexivity.
Qed.

Lemma replace_step old new c r : prefixb old (c :: r) = false -> replace_ne 0 old new (c :: r) = c :: replace_ne 0 old new r.
Proof. intros H. cbn [replace_ne]. rewrite H. reflexivity. Qed.

Lemma replace_leftmost old new pre rest : old <> [] -> leftmost old pre rest ->
  replace_ne 0 old new (pre ++ old ++ rest) = pre ++ new ++ replace_ne 0 old new rest.
Proof.
  intros Ho. induction pre as [|c pre IH]; intros L; [exact (replace_at old new rest Ho)|].
  cbn [app]. rewrite replace_step.
  - f_equal. apply IH. intros a b E. specialize (L (c :: a) b). cbn [app length] in L. rewrite E in L. specialize (L eq_refl). lia.
  - destruct (prefixb old (c :: pre ++ old ++ rest)) eqn:P; [|reflexivity]. apply prefixb_iff in P as [r E].
    specialize (L [] r E). cbn in L. lia.
Qed.

Lemma replace_none old new s : (forall a b, s <> a ++ old ++ b) -> replace_ne 0 old new s = s.
Proof.
  induction s as [|c s IH]; intros H; [reflexivity|]. rewrite replace_step.
  - f_equal. apply IH. intros a b E. apply (H (c :: a) b). rewrite E. reflexivity.
  - destruct (prefixb old (c :: s)) eqn:P; [|reflexivity]. apply prefixb_iff in P as [r E]. exfalso. apply (H [] r E).
Qed.

Lemma replaced_unique old new s out : old <> [] -> replaced old new s out -> out = replace_ne 0 old new s.
Proof.
  intros Ho R. induction R as [s N|pre rest out L R IH].
  - symmetry. apply replace_none, N.
  - rewrite replace_leftmost by assumption. rewrite IH. reflexivity.
Qed.

(** Leftmost occurrence, if any. *)
Lemma leftmost_or_none old s : (forall a b, s <> a ++ old ++ b) \/ exists pre rest, s = pre ++ old ++ rest /\ leftmost old pre rest.
Proof.
  induction s as [|c s IH].
  - destruct old as [|x old].
    + right. exists [], []. split; [reflexivity|]. intros a b _. cbn. lia.
    + left. intros a b E. destruct a; discriminate.
  - destruct (prefixb old (c :: s)) eqn:P.
    + apply prefixb_iff in P as [r E]. right. exists [], r. split; [exact E|]. intros a b _. cbn. lia.
    + assert (N : forall r, c :: s <> old ++ r) by (intros r E; assert (prefixb old (c :: s) = true) by (apply prefixb_iff; eauto); congruence).
      destruct IH as [IH|(pre & rest & E & L)].
      * left. intros a b E. destruct a as [|x a]; [apply (N b E)|]. injection E as _ E. apply (IH a b E).
      * right. exists (c :: pre), rest. split; [rewrite E; reflexivity|].
        intros a b E'. cbn [app] in E'. rewrite <- E in E'. destruct a as [|x a]; [exfalso; apply (N b E')|].
        injection E' as _ E'. cbn. apply le_n_S. apply (L a b). rewrite <- E. exact E'.
Qed.

Lemma replace_replaced old new s : old <> [] -> replaced old new s (replace_all s old new).
Proof.
  intros Ho. destruct old as [|x old]; [contradiction|]. cbn [replace_all]. set (o := x :: old) in *.
  remember (length s) as n eqn:Hn. assert (Hle : (length s <= n)%nat) by lia. clear Hn. revert s Hle.
  induction n as [|n IH]; intros s Hle.
  - destruct s; [|cbn in Hle; lia]. apply rep_none. intros a b E. destruct a; discriminate.
  - destruct (leftmost_or_none o s) as [N|(pre & rest & -> & L)].
    + rewrite replace_none by exact N. apply rep_none, N.
    + rewrite replace_leftmost by assumption. apply rep_some; [exact L|]. apply IH.
      rewrite !app_length in Hle. unfold o in Hle. cbn [length] in Hle. lia.
Qed.

Lemma replace_exact old new s out : old <> [] -> (replaced old new s out <-> out = replace_all s old new).
Proof.
  intros Ho. split.
  - intros R. apply replaced_unique in R; [|exact Ho]. subst out. destruct old; [contradiction|reflexivity].
  - intros ->. apply replace_replaced, Ho.
Qed.

(** ** apply_rule by type *)
Lemma apply_c pos a b s : apply_rule (mkRule (str "c") pos a b) s = Ok (changeCap s pos). Proof. reflexivity. Qed.
Lemma apply_d pos a b s : apply_rule (mkRule (str "d") pos a b) s = Ok (deletePortion s pos). Proof. reflexivity. Qed.
Lemma apply_i pos a b s : apply_rule (mkRule (str "i") pos a b) s = Ok (insert s pos a). Proof. reflexivity. Qed.
Lemma apply_s pos a b s : apply_rule (mkRule (str "s") pos a b) s = Ok (replace_all s a b). Proof. reflexivity. Qed.

Definition known_type (r : RDasRule) : Prop := In (RuleType r) [str "c"; str "d"; str "i"; str "s"].

Lemma apply_known r s : known_type r -> exists v, apply_rule r s = Ok v.
Proof.
  destruct r as [t p a b]. cbn. intros [<-|[<-|[<-|[<-|[]]]]]; eexists; [apply apply_c|apply apply_d|apply apply_i|apply apply_s].
Qed.

Lemma apply_unknown r s : ~ known_type r -> exists m, apply_rule r s = Panic m.
Proof.
  intros H. unfold apply_rule. unfold known_type in H. cbn [In] in H.
  destruct (bytes_eqb (RuleType r) (str "c")) eqn:E1; [apply bytes_eqb_eq in E1; exfalso; apply H; auto|].
  destruct (bytes_eqb (RuleType r) (str "d")) eqn:E2; [apply bytes_eqb_eq in E2; exfalso; apply H; auto|].
  destruct (bytes_eqb (RuleType r) (str "i")) eqn:E3; [apply bytes_eqb_eq in E3; exfalso; apply H; auto|].
  destruct (bytes_eqb (RuleType r) (str "s")) eqn:E4; [apply bytes_eqb_eq in E4; exfalso; apply H; auto|]. eauto.
Qed.

(** ** The loop *)

(** What the loop adds, as a function of rules, room and seen hashes. *)
Fixpoint picks (rules : list RDasRule) (pw : bytes) (room : nat) (seen : list N) : res (list bytes) :=
  match rules, room with
  | [], _ => Ok []
  | _, O => Ok []
  | rule :: rest, S room' =>
      s <- apply_rule rule pw ;;
      if seenb (murmur3_sum32 s) seen then picks rest pw room seen
      else vs <- picks rest pw room' (murmur3_sum32 s :: seen) ;; Ok (s :: vs)
  end.

Lemma loop_picks rules pw num j seen acc : (j <= num)%Z ->
  mutate_loop rules pw num j seen acc = (vs <- picks rules pw (Z.to_nat (num - j)) seen ;; Ok (acc ++ vs)).
Proof.
  revert j seen acc; induction rules as [|rule rest IH]; intros j seen acc Hj; cbn [mutate_loop].
  - cbn. rewrite app_nil_r. reflexivity.
  - destruct (j <? num)%Z eqn:E.
    + remember (Z.to_nat (num - j)) as room. destruct room as [|room]; [lia|]. cbn [picks].
      destruct (apply_rule rule pw) as [s|m|m]; cbn [bind]; [|reflexivity|reflexivity].
      destruct (seenb (murmur3_sum32 s) seen).
      * rewrite IH by exact Hj. rewrite <- Heqroom. reflexivity.
      * rewrite IH by lia. replace (Z.to_nat (num - (j + 1))) with room by lia.
        destruct (picks rest pw room _); cbn [bind]; [|reflexivity|reflexivity]. rewrite <- app_assoc. reflexivity.
    + replace (Z.to_nat (num - j)) with O by lia. cbn. rewrite app_nil_r. reflexivity.
Qed.

Lemma seenb_iff k seen : seenb k seen = true <-> In k seen.
Proof.
  unfold seenb. rewrite existsb_exists. split.
  - intros (x & H & E). apply N.eqb_eq in E. subst. exact H.
  - intros H. exists k. split; [exact H|apply N.eqb_refl].
Qed.

Lemma Mutate_inv rules pw n vs : Mutate rules pw n = Ok vs ->
  (0 <= n)%Z /\ rules <> [] /\ picks rules pw (Z.to_nat n) [murmur3_sum32 pw] = Ok vs.
Proof.
  unfold Mutate. destruct rules as [|r rules]; [discriminate|].
  destruct ((n <? 0)%Z || (2 ^ 48 <? n * 24)%Z) eqn:E; [discriminate|].
  apply orb_false_iff in E as [E _]. intros H. split; [lia|]. split; [discriminate|].
  rewrite loop_picks in H by lia. rewrite Z.sub_0_r in H. apply bind_ok in H as (vs' & H & E'). apply Ok_inj in E'. cbn in E'. congruence.
Qed.

Lemma picks_sound rules pw room seen vs : picks rules pw room seen = Ok vs ->
  (length vs <= room)%nat /\ NoDup (map murmur3_sum32 vs) /\ (forall v, In v vs -> ~ In (murmur3_sum32 v) seen).
Proof.
  revert room seen vs; induction rules as [|rule rest IH]; intros room seen vs H; cbn [picks] in H.
  - apply Ok_inj in H. subst vs. cbn. split; [lia|]. split; [constructor|]. contradiction.
  - destruct room as [|room]; [apply Ok_inj in H; subst vs; cbn; split; [lia|]; split; [constructor|contradiction]|].
    apply bind_ok in H as (s & Hs & H). destruct (seenb (murmur3_sum32 s) seen) eqn:E.
    + apply IH in H. exact H.
    + apply bind_ok in H as (vs' & H & E'). apply Ok_inj in E'. subst vs. apply IH in H as (L & D & F).
      split; [cbn; lia|]. split.
      * cbn [map]. constructor; [|exact D]. intros I. apply in_map_iff in I as (v & Ev & Iv).
        apply (F v Iv). left. symmetry. exact Ev.
      * intros v [<-|Iv]; [intros I; apply seenb_iff in I; congruence|]. intros I. apply (F v Iv). right. exact I.
Qed.

(** The images, in rule order, of which the variants are a subsequence. *)
Lemma picks_subseq rules pw room seen vs imgs : picks rules pw room seen = Ok vs ->
  Forall2 (fun rule s => apply_rule rule pw = Ok s) rules imgs -> subseq vs imgs.
Proof.
  intros H F. revert room seen vs H; induction F as [|rule s rules imgs Hs F IH]; intros room seen vs H; cbn [picks] in H.
  - apply Ok_inj in H. subst vs. constructor.
  - destruct room as [|room].
    + apply Ok_inj in H. subst vs. clear. assert (K : forall l : list bytes, subseq [] l) by (induction l; constructor; auto). apply K.
    + rewrite Hs in H. cbn [bind] in H. destruct (seenb (murmur3_sum32 s) seen).
      * constructor. eapply IH. exact H.
      * apply bind_ok in H as (vs' & H & E). apply Ok_inj in E. subst vs. constructor. eapply IH. exact H.
Qed.

Lemma picks_image rules pw room seen vs v : picks rules pw room seen = Ok vs -> In v vs ->
  exists rule, In rule rules /\ apply_rule rule pw = Ok v.
Proof.
  revert room seen vs; induction rules as [|rule rest IH]; intros room seen vs H I; cbn [picks] in H.
  - apply Ok_inj in H. subst vs. contradiction.
  - destruct room as [|room]; [apply Ok_inj in H; subst vs; contradiction|].
    apply bind_ok in H as (s & Hs & H). destruct (seenb (murmur3_sum32 s) seen).
    + destruct (IH _ _ _ H I) as (r & Ir & E). exists r. split; [right; exact Ir|exact E].
    + apply bind_ok in H as (vs' & H & E'). apply Ok_inj in E'. subst vs. destruct I as [<-|I].
      * exists rule. split; [left; reflexivity|exact Hs].
      * destruct (IH _ _ _ H I) as (r & Ir & E). exists r. split; [right; exact Ir|exact E].
Qed.

Lemma picks_complete rules pw room seen vs : picks rules pw room seen = Ok vs -> (length vs < room)%nat ->
  forall rule s, In rule rules -> apply_rule rule pw = Ok s ->
  In (murmur3_sum32 s) seen \/ In (murmur3_sum32 s) (map murmur3_sum32 vs).
Proof.
  revert room seen vs; induction rules as [|rule rest IH]; intros room seen vs H L r s I Hr; [contradiction|]; cbn [picks] in H.
  destruct room as [|room]; [lia|]. apply bind_ok in H as (s' & Hs & H).
  destruct (seenb (murmur3_sum32 s') seen) eqn:E.
  - destruct I as [<-|I].
    + left. apply seenb_iff. congruence.
    + eapply IH; eauto.
  - apply bind_ok in H as (vs' & H & E'). apply Ok_inj in E'. subst vs. cbn [length map] in *.
    destruct I as [<-|I].
    + right. left. congruence.
    + destruct (IH _ _ _ H ltac:(lia) r s I Hr) as [[K|K]|K]; [right; left; exact K|left; exact K|right; right; exact K].
Qed.

(** When a rule is passed over although there was room, an earlier image or
    the password has its hash; and the earlier image is an image of an earlier
    rule. *)
Lemma picks_prefix rules pw room k seen vs ws :
  picks rules pw room seen = Ok vs -> picks rules pw (room + k) seen = Ok ws -> exists t, ws = vs ++ t.
Proof.
  revert room seen vs ws; induction rules as [|rule rest IH]; intros room seen vs ws H H'; cbn [picks] in H, H'.
  - apply Ok_inj in H. apply Ok_inj in H'. subst. exists []. reflexivity.
  - destruct room as [|room]; [apply Ok_inj in H; subst vs; exists ws; reflexivity|].
    cbn [Nat.add] in H'. apply bind_ok in H as (s & Hs & H). rewrite Hs in H'. cbn [bind] in H'.
    destruct (seenb (murmur3_sum32 s) seen).
    + eapply (IH (S room)); eauto.
    + apply bind_ok in H as (vs' & H & E). apply bind_ok in H' as (ws' & H' & E'). apply Ok_inj in E. apply Ok_inj in E'. subst.
      destruct (IH room _ _ _ H H') as (t & ->). exists t. reflexivity.
Qed.

Lemma picks_total rules pw room seen : Forall known_type rules -> exists vs, picks rules pw room seen = Ok vs.
Proof.
  intros F. revert room seen; induction F as [|rule rest K F IH]; intros room seen; [cbn; eauto|].
  cbn [picks]. destruct room as [|room]; [eauto|]. destruct (apply_known rule pw K) as (s & ->). cbn [bind].
  destruct (seenb _ seen); [apply IH|]. destruct (IH room (murmur3_sum32 s :: seen)) as (vs & ->). cbn [bind]. eauto.
Qed.

Lemma Mutate_total rules pw n : rules <> [] -> Forall known_type rules -> (0 <= n)%Z -> (n * 24 <= 2 ^ 48)%Z ->
  exists vs, Mutate rules pw n = Ok vs.
Proof.
  intros Hr F Hn Hm. destruct (picks_total rules pw (Z.to_nat n) [murmur3_sum32 pw] F) as (vs & P).
  exists vs. unfold Mutate. destruct rules as [|r rules]; [contradiction|].
  rewrite (proj2 (Z.ltb_ge n 0)), (proj2 (Z.ltb_ge (2 ^ 48) (n * 24))) by lia. cbn [orb].
  rewrite loop_picks by lia. rewrite Z.sub_0_r, P. reflexivity.
Qed.

(** ** Statements used by the property file *)
Lemma mutate_sound rules pw n vs : Mutate rules pw n = Ok vs ->
  (Z.of_nat (length vs) <= n)%Z /\ NoDup vs /\ ~ In pw vs
  /\ (forall imgs, Forall2 (fun rule s => apply_rule rule pw = Ok s) rules imgs -> subseq vs imgs)
  /\ (forall v, In v vs -> exists rule, In rule rules /\ apply_rule rule pw = Ok v).
Proof.
  intros H. apply Mutate_inv in H as (Hn & _ & H). pose proof (picks_sound _ _ _ _ _ H) as (L & D & F).
  split; [lia|]. split; [eapply NoDup_map_inv; exact D|]. split; [|split].
  - intros I. apply (F pw I). left. reflexivity.
  - intros imgs. apply (picks_subseq _ _ _ _ _ _ H).
  - intros v. apply (picks_image _ _ _ _ _ _ H).
Qed.

Lemma mutate_negative rules pw n : (n < 0)%Z -> exists m, Mutate rules pw n = Panic m.
Proof.
  intros H. unfold Mutate. destruct rules; [eauto|]. rewrite (proj2 (Z.ltb_lt n 0)) by lia. cbn [orb]. eauto.
Qed.

Lemma mutate_complete rules pw n vs : Mutate rules pw n = Ok vs -> (Z.of_nat (length vs) < n)%Z ->
  forall rule s, In rule rules -> apply_rule rule pw = Ok s ->
  In s vs \/ s = pw \/ exists s', (s' = pw \/ In s' vs) /\ s' <> s /\ murmur3_sum32 s' = murmur3_sum32 s.
Proof.
  intros H L rule s I Hs. apply Mutate_inv in H as (Hn & _ & H).
  destruct (in_dec (list_eq_dec Byte.byte_eq_dec) s vs) as [In1|In1]; [auto|].
  destruct (list_eq_dec Byte.byte_eq_dec s pw) as [E|E]; [auto|]. right. right.
  destruct (picks_complete _ _ _ _ _ H ltac:(lia) rule s I Hs) as [[K|[]]|K].
  - exists pw. split; [auto|]. split; [congruence|exact K].
  - apply in_map_iff in K as (v & Ev & Iv). exists v. split; [auto|]. split; [|exact Ev]. intros ->. contradiction.
Qed.

Lemma mutate_prefix rules pw n m vs ws : (n <= m)%Z -> Mutate rules pw n = Ok vs -> Mutate rules pw m = Ok ws ->
  exists t, ws = vs ++ t.
Proof.
  intros Hnm H H'. apply Mutate_inv in H as (Hn & _ & H). apply Mutate_inv in H' as (Hm & _ & H').
  apply (picks_prefix rules pw (Z.to_nat n) (Z.to_nat m - Z.to_nat n) _ vs ws H).
  replace (Z.to_nat n + (Z.to_nat m - Z.to_nat n))%nat with (Z.to_nat m) by lia. exact H'.
Qed.

(** The variants for n are the first n of all variants. *)
Lemma picks_firstn rules pw room k seen ws :
  picks rules pw (room + k) seen = Ok ws -> picks rules pw room seen = Ok (firstn room ws).
Proof.
  revert room seen ws; induction rules as [|rule rest IH]; intros room seen ws H; cbn [picks] in *.
  - apply Ok_inj in H. subst. destruct room; reflexivity.
  - destruct room as [|room]; [reflexivity|]. cbn [Nat.add] in H. apply bind_ok in H as (s & Hs & H). rewrite Hs. cbn [bind].
    destruct (seenb (murmur3_sum32 s) seen).
    + apply (IH (S room)). exact H.
    + apply bind_ok in H as (ws' & H & E). apply Ok_inj in E. subst ws. rewrite (IH room _ _ H). reflexivity.
Qed.

Lemma mutate_firstn rules pw n m ws : (0 <= n <= m)%Z -> Mutate rules pw m = Ok ws ->
  Mutate rules pw n = Ok (firstn (Z.to_nat n) ws).
Proof.
  intros Hn H. pose proof H as H'. unfold Mutate in H'. destruct rules as [|r rules]; [discriminate|].
  destruct ((m <? 0)%Z || (2 ^ 48 <? m * 24)%Z) eqn:E in H'; [discriminate|]. clear H'. apply orb_false_iff in E as [_ E].
  apply Mutate_inv in H as (Hm & _ & H).
  unfold Mutate. rewrite (proj2 (Z.ltb_ge n 0)), (proj2 (Z.ltb_ge (2 ^ 48) (n * 24))) by lia. cbn [orb].
  rewrite loop_picks by lia. rewrite Z.sub_0_r.
  rewrite (picks_firstn (r :: rules) pw (Z.to_nat n) (Z.to_nat m - Z.to_nat n) _ ws); [reflexivity|].
  replace (Z.to_nat n + (Z.to_nat m - Z.to_nat n))%nat with (Z.to_nat m) by lia. exact H.
Qed.

(** ** The shipped rules *)
Definition shipped : list RDasRule := Eval vm_compute in match new_mutator dasRulesJSONString with Ok r => r | _ => [] end.

Lemma shipped_ok : NewRDasMutator = Ok shipped.
Proof. Transparent NewRDasMutator. unfold NewRDasMutator. vm_compute. reflexivity. Opaque NewRDasMutator. Qed.

Lemma variants_shipped pw n : password_variants pw n = Mutate shipped pw n.
Proof. Transparent password_variants. unfold password_variants. rewrite shipped_ok. reflexivity. Opaque password_variants. Qed.
Global Opaque shipped.

Definition known_typeb (r : RDasRule) : bool := existsb (bytes_eqb (RuleType r)) [str "c"; str "d"; str "i"; str "s"].
Lemma known_typeb_ok r : known_typeb r = true -> known_type r.
Proof.
  unfold known_typeb. intros H. apply existsb_exists in H as (t & I & E). apply bytes_eqb_eq in E. unfold known_type. rewrite E. exact I.
Qed.

Lemma shipped_length : length shipped = 323%nat.
Proof. vm_compute. reflexivity. Qed.
Lemma shipped_known : Forall known_type shipped.
Proof.
  assert (B : forallb known_typeb shipped = true) by (vm_compute; reflexivity).
  rewrite forallb_forall in B. apply Forall_forall. intros r I. apply known_typeb_ok, B, I.
Qed.
Lemma shipped_patterns : forall r, In r shipped -> RuleType r = str "s" -> String1 r <> [].
Proof.
  assert (B : forallb (fun r => negb (bytes_eqb (RuleType r) (str "s")) || negb (bytes_eqb (String1 r) [])) shipped = true)
    by (vm_compute; reflexivity).
  rewrite forallb_forall in B. intros r I T S. apply B in I. rewrite T, S in I. discriminate I.
Qed.
(** Only the first byte is ever addressed by a capitalisation rule. *)
Lemma shipped_nonempty : shipped <> [].
Proof. intros E. pose proof shipped_length as L. rewrite E in L. discriminate L. Qed.

Lemma variants_total pw n : (0 <= n)%Z -> (n * 24 <= 2 ^ 48)%Z -> exists vs, password_variants pw n = Ok vs.
Proof.
  intros Hn Hm. rewrite variants_shipped. apply Mutate_total; auto; [apply shipped_nonempty|apply shipped_known].
Qed.

(** A dropped variant. *)
Definition collision_pw := str "lw4ewp".
Definition collision_variant := str "lw4ewp06".
Definition has_image (r : RDasRule) : bool := match apply_rule r collision_pw with Ok s => bytes_eqb s collision_variant | _ => false end.
Lemma mutate_drops_variant :
  exists rule vs, In rule shipped /\ apply_rule rule collision_pw = Ok collision_variant /\ collision_variant <> collision_pw
    /\ password_variants collision_pw 1000 = Ok vs /\ (length vs < 323)%nat /\ ~ In collision_variant vs.
Proof.
  assert (B : existsb has_image shipped = true) by (vm_compute; reflexivity).
  apply existsb_exists in B as (rule & I & B). exists rule.
  rewrite variants_shipped.
  assert (C : match Mutate shipped collision_pw 1000 with
              | Ok vs => (length vs <? 323)%nat && negb (existsb (bytes_eqb collision_variant) vs) | _ => false end = true)
    by (vm_compute; reflexivity).
  destruct (Mutate shipped collision_pw 1000) as [vs| |]; try discriminate.
  exists vs. split; [exact I|]. split.
  - unfold has_image in B. destruct (apply_rule rule collision_pw); try discriminate. apply bytes_eqb_eq in B. congruence.
  - split; [discriminate|]. split; [reflexivity|]. apply andb_true_iff in C as [C1 C2]. split; [apply Nat.ltb_lt, C1|].
    intros J. apply negb_true_iff in C2. assert (X : existsb (bytes_eqb collision_variant) vs = true); [|congruence].
    apply existsb_exists. exists collision_variant. split; [exact J|apply bytes_eqb_refl].
Qed.

(** ** Lengths, for the shipped rules *)
Lemma blen_nonneg b : (0 <= blen b)%Z. Proof. unfold blen. lia. Qed.

Lemma changeCap_length s pos : length (changeCap s pos) = length s.
Proof.
  assert (K : forall i b l, length (set_nth i b l) = length l) by (intros i b l; revert i; induction l; intros [|i]; cbn; auto).
  unfold changeCap. destruct (_ && _); [|reflexivity]. destruct (switchCase _); [apply K|reflexivity|reflexivity].
Qed.

Lemma deletePortion_length s pos : (length (deletePortion s pos) <= length s)%nat.
Proof.
  unfold deletePortion. destruct (_ && _); [rewrite skipn_length; lia|]. destruct (_ && _); [rewrite firstn_length; lia|lia].
Qed.

Lemma insert_length s pos x : (length (insert s pos x) <= length s + length x)%nat.
Proof.
  unfold insert. destruct (_ && (_ || _)); [lia|]. cbv zeta.
  destruct ((0 <=? _)%Z && _) eqn:E; [|lia]. rewrite !app_length, firstn_length, skipn_length. lia.
Qed.

(** Each occurrence of a pattern of [a] bytes grows to at most [a + d]. *)
Lemma replaced_length old new s out d : old <> [] -> (length new <= length old + d)%nat -> replaced old new s out ->
  (length old * length out <= (length old + d) * length s)%nat.
Proof.
  intros Ho Hn R. induction R as [s N|pre rest out L R IH]; [nia|]. rewrite !app_length. nia.
Qed.

Definition short_rule (r : RDasRule) : bool :=
  (length (String1 r) <=? 4)%nat &&
  (negb (bytes_eqb (RuleType r) (str "i")) || (length (String1 r) <=? 3)%nat) &&
  (negb (bytes_eqb (RuleType r) (str "s")) ||
     (length (String2 r) <=? length (String1 r))%nat
     || ((length (String2 r) <=? length (String1 r) + 1)%nat && (3 <=? length (String1 r))%nat)).
Lemma shipped_short : forall r, In r shipped -> short_rule r = true.
Proof. assert (B : forallb short_rule shipped = true) by (vm_compute; reflexivity). rewrite forallb_forall in B. exact B. Qed.

(** An image is at most a third longer than the password, or three bytes. *)
Lemma shipped_image_length r pw v : In r shipped -> apply_rule r pw = Ok v ->
  (length v <= length pw + 3 \/ 3 * length v <= 4 * length pw)%nat.
Proof.
  intros I H. pose proof (shipped_short r I) as S. pose proof (shipped_known) as K. rewrite Forall_forall in K. specialize (K r I).
  pose proof (shipped_patterns r I) as P. destruct r as [t p a b]. unfold known_type in K. cbn [RuleType String1 String2 In] in *.
  unfold short_rule in S. cbn [RuleType String1 String2] in S.
  destruct K as [<-|[<-|[<-|[<-|[]]]]].
  - rewrite apply_c in H. apply Ok_inj in H. subst v. left. rewrite changeCap_length. lia.
  - rewrite apply_d in H. apply Ok_inj in H. subst v. left. pose proof (deletePortion_length pw p). lia.
  - rewrite apply_i in H. apply Ok_inj in H. subst v. left. pose proof (insert_length pw p a).
    apply andb_true_iff in S as [S _]. apply andb_true_iff in S as [_ S]. cbn in S. apply Nat.leb_le in S. lia.
  - rewrite apply_s in H. apply Ok_inj in H. specialize (P eq_refl).
    assert (R : replaced a b pw v) by (apply replace_exact; [exact P|congruence]).
    apply andb_true_iff in S as [_ S]. change (negb (bytes_eqb (str "s") (str "s"))) with false in S. cbn [orb] in S.
    apply orb_true_iff in S as [S|S].
    + apply Nat.leb_le in S. pose proof (replaced_length a b pw v 0 P ltac:(lia) R) as L.
      assert (length a <> 0)%nat by (destruct a; [contradiction|discriminate]). left. nia.
    + apply andb_true_iff in S as [S1 S2]. apply Nat.leb_le in S1, S2.
      pose proof (replaced_length a b pw v 1 P S1 R) as L. right. nia.
Qed.

Lemma apply_s_exact pos a b s out : a <> [] ->
  (apply_rule (mkRule (str "s") pos a b) s = Ok out <-> replaced a b s out).
Proof.
  intros Ha. rewrite apply_s, (replace_exact a b s out Ha). split; [intros H; apply Ok_inj in H; congruence|intros ->; reflexivity].
Qed.
