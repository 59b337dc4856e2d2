(** * Lemmas about the command lines. *)
From Verif Require Import Base BaseProofs Common Oprf Server KV ConfigJson Demo Flags Main SpecDemo SpecMain.

Lemma cons_eq2 {A} (x y : A) l l' : x :: l = y :: l' -> x = y /\ l = l'.
Proof. intros H. injection H. auto. Qed.

(** ** Values *)
Lemma parse_bool_text v b : bool_text v b -> ParseBool v = Some b.
Proof.
  unfold bool_text. destruct b; cbn [map In]; intros H; repeat (destruct H as [<-|H]; [reflexivity|]); contradiction.
Qed.

Lemma lower_cases c : forall n, (97 <= n <= 122)%N -> (lower c = n <-> bN c = n \/ bN c = (n - 32)%N).
Proof.
  intros n R. assert (E : forallb (fun x => forallb (fun m => Bool.eqb (N.lor (N.of_nat x) 32 =? N.of_nat m)%N ((N.of_nat x =? N.of_nat m)%N || (N.of_nat x =? N.of_nat m - 32)%N)) (seq 97 26)) (seq 0 256) = true) by (vm_compute; reflexivity).
  rewrite forallb_forall in E. pose proof (bN_lt c) as B.
  specialize (E (N.to_nat (bN c)) ltac:(apply in_seq; lia)). rewrite forallb_forall in E.
  specialize (E (N.to_nat n) ltac:(apply in_seq; lia)). rewrite !N2Nat.id in E. apply Bool.eqb_prop in E.
  unfold lower. rewrite <- (N.eqb_eq (N.lor _ _)), E, orb_true_iff, !N.eqb_eq. reflexivity.
Qed.
Lemma digit_val_text base c d : (base <= 36)%N -> (digit_val c = Some d /\ (d < base)%N <-> digit_text base c d).
Proof.
  intros B36. unfold digit_val, digit_text.
  destruct ((48 <=? bN c)%N && (bN c <=? 57)%N) eqn:D1.
  - apply andb_true_iff in D1 as [D1 D2]. apply N.leb_le in D1, D2. split.
    + intros [E L]. apply Some_inj in E. lia.
    + intros [L [[? E]|[? [E|E]]]]; (split; [f_equal; lia|exact L]).
  - assert (ND : ~ (48 <= bN c <= 57)%N).
    { intros [A A']. apply andb_false_iff in D1 as [D1|D1]; apply N.leb_gt in D1; lia. }
    destruct ((97 <=? lower c)%N && (lower c <=? 122)%N) eqn:D2.
    + apply andb_true_iff in D2 as [D2 D3]. apply N.leb_le in D2, D3. destruct (proj1 (lower_cases c (lower c) (conj D2 D3)) eq_refl) as [E|E].
      * split; [intros [H L]; apply Some_inj in H; lia|]. intros [L [[? H]|[? [H|H]]]]; (split; [f_equal; lia|exact L]).
      * split; [intros [H L]; apply Some_inj in H; lia|]. intros [L [[? H]|[? [H|H]]]]; (split; [f_equal; lia|exact L]).
    + split; [intros [H _]; discriminate H|]. intros [L [[? H]|[? H]]]; [lia|]. exfalso.
      assert (LC : lower c = (87 + d)%N) by (apply lower_cases; lia). rewrite LC in D2.
      apply andb_false_iff in D2 as [D2|D2]; apply N.leb_gt in D2; lia.
Qed.
Lemma digit_not_under base c d : (base <= 36)%N -> digit_text base c d -> beqb c Byte.x5f = false.
Proof.
  intros B [L H]. destruct (beqb c Byte.x5f) eqn:E; [|reflexivity]. apply beqb_eq in E. subst c. change (bN Byte.x5f) with 95%N in H. lia.
Qed.

(** The digit loop and the check of the underscores, together. *)
Definition loop_digit (hex : bool) (c : byte) : bool := ((48 <=? bN c)%N && (bN c <=? 57)%N) || (hex && (97 <=? lower c)%N && (lower c <=? 102)%N).
Definition fits (hex : bool) (base : N) : Prop := if hex then base = 16%N else (base <= 10)%N.
Lemma loop_digit_text hex base c d : fits hex base -> digit_text base c d -> loop_digit hex c = true.
Proof.
  unfold fits, loop_digit. intros F [L [[D E]|[D E]]].
  - apply orb_true_iff. left. apply andb_true_iff. split; apply N.leb_le; lia.
  - destruct hex; [subst base|lia]. apply orb_true_iff. right.
    assert (LC : lower c = (87 + d)%N) by (apply lower_cases; lia). rewrite LC. cbn [andb]. apply andb_true_iff. split; apply N.leb_le; lia.
Qed.
Lemma fits_36 hex base : fits hex base -> (base <= 36)%N.
Proof. unfold fits. destruct hex; lia. Qed.
Lemma loop_under hex c : loop_digit hex c = true -> c <> Byte.x5f.
Proof. intros H ->. destruct hex; discriminate H. Qed.

Lemma under_stays base : forall s acc n u, uint_digits base acc true s = Some (n, u) -> u = true.
Proof.
  induction s as [|c s IH]; intros acc n u H; cbn [uint_digits] in H; [congruence|].
  destruct (beqb c Byte.x5f); [exact (IH _ _ _ H)|]. destruct (digit_val c) as [d|]; [|discriminate]. destruct (d <? base)%N; [exact (IH _ _ _ H)|discriminate].
Qed.
Lemma digits_sound hex base : fits hex base -> forall s acc u0 n u, uint_digits base acc u0 s = Some (n, u) ->
  (u = true -> underscore_loop hex 1 s = true) ->
  exists ds, digits_text base s ds /\ n = fold_left (fun a d => a * base + d)%N ds acc.
Proof.
  intros F. pose proof (fits_36 _ _ F) as B36. intros s. remember (length s) as k eqn:K. revert s K.
  induction k as [k IH] using lt_wf_ind. intros s -> acc u0 n u H U. destruct s as [|c s].
  { cbn [uint_digits] in H. apply Some_inj in H. apply pair_inj in H as [<- _]. exists []. split; [constructor|reflexivity]. }
  cbn [uint_digits] in H. destruct (beqb c Byte.x5f) eqn:E.
  - apply beqb_eq in E. subst c. pose proof (under_stays _ _ _ _ _ H) as ->. specialize (U eq_refl).
    cbn [underscore_loop] in U. change (((48 <=? bN Byte.x5f)%N && (bN Byte.x5f <=? 57)%N) || (hex && (97 <=? lower Byte.x5f)%N && (lower Byte.x5f <=? 102)%N)) with (loop_digit hex Byte.x5f) in U.
    replace (loop_digit hex Byte.x5f) with false in U by (destruct hex; reflexivity). cbn [Nat.eqb] in U. change (beqb Byte.x5f Byte.x5f) with true in U. cbv iota in U.
    destruct s as [|c s]; [discriminate U|]. cbn [uint_digits] in H. destruct (beqb c Byte.x5f) eqn:E2.
    { apply beqb_eq in E2. subst c. exfalso. destruct hex; discriminate U. }
    destruct (digit_val c) as [d|] eqn:D; [|discriminate]. destruct (N.ltb_spec d base) as [L|L]; [|discriminate].
    assert (DT : digit_text base c d) by (apply digit_val_text; auto).
    destruct (IH (length s) ltac:(cbn [length]; lia) s eq_refl _ _ _ _ H) as (ds & T & V).
    { intros _. cbn [underscore_loop] in U. fold (loop_digit hex c) in U. rewrite (loop_digit_text hex base c d F DT) in U. exact U. }
    exists (d :: ds). split; [apply (dt_under base c d s ds DT T)|exact V].
  - destruct (digit_val c) as [d|] eqn:D; [|discriminate]. destruct (N.ltb_spec d base) as [L|L]; [|discriminate].
    assert (DT : digit_text base c d) by (apply digit_val_text; auto).
    destruct (IH (length s) ltac:(cbn [length]; lia) s eq_refl _ _ _ _ H) as (ds & T & V).
    { intros Eu. specialize (U Eu). cbn [underscore_loop] in U. fold (loop_digit hex c) in U. rewrite (loop_digit_text hex base c d F DT) in U. exact U. }
    exists (d :: ds). split; [apply (dt_digit base c d s ds DT T)|exact V].
Qed.
Lemma digits_complete hex base s ds : fits hex base -> digits_text base s ds ->
  underscore_loop hex 1 s = true /\ forall acc u0, exists u, uint_digits base acc u0 s = Some (fold_left (fun a d => a * base + d)%N ds acc, u).
Proof.
  intros F. pose proof (fits_36 _ _ F) as B36. induction 1 as [|c d t ds D T [I1 I2]|c d t ds D T [I1 I2]].
  - split; [reflexivity|]. intros acc u0. exists u0. reflexivity.
  - pose proof (digit_not_under _ _ _ B36 D) as NU. pose proof (proj2 (digit_val_text _ _ _ B36) D) as [DV L]. split.
    + cbn [underscore_loop]. fold (loop_digit hex c). rewrite (loop_digit_text hex base c d F D). exact I1.
    + intros acc u0. cbn [uint_digits fold_left]. rewrite NU, DV. apply N.ltb_lt in L. rewrite L. apply I2.
  - pose proof (digit_not_under _ _ _ B36 D) as NU. pose proof (proj2 (digit_val_text _ _ _ B36) D) as [DV L]. change (str "_" ++ c :: t) with (Byte.x5f :: c :: t). split.
    + cbn [underscore_loop]. fold (loop_digit hex c). fold (loop_digit hex Byte.x5f). replace (loop_digit hex Byte.x5f) with false by (destruct hex; reflexivity).
      change (beqb Byte.x5f Byte.x5f) with true. cbn [Nat.eqb]. rewrite (loop_digit_text hex base c d F D). exact I1.
    + intros acc u0. cbn [uint_digits fold_left]. change (beqb Byte.x5f Byte.x5f) with true. cbv iota. rewrite NU, DV. apply N.ltb_lt in L. rewrite L. apply I2.
Qed.

Lemma digits_iff hex base t n : fits hex base ->
  (exists u, uint_digits base 0 false t = Some (n, u) /\ (u = true -> underscore_loop hex 1 t = true)) <->
  exists ds, digits_text base t ds /\ n = digits_value base ds.
Proof.
  intros F. split.
  - intros (u & H & U). exact (digits_sound hex base F t 0 false n u H U).
  - intros (ds & T & ->). destruct (digits_complete hex base t ds F T) as [U H]. destruct (H 0%N false) as (u & E). exists u. split; [exact E|auto].
Qed.
Lemma checked {A} (x : option (A * bool)) ok n :
  match x with None => None | Some (m, under) => if under && negb ok then None else Some m end = Some n <-> exists u, x = Some (n, u) /\ (u = true -> ok = true).
Proof.
  destruct x as [[m u]|]; [|split; [discriminate|intros (u & H & _); discriminate H]]. split.
  - destruct u, ok; cbn [andb negb]; intros H; try discriminate H; apply Some_inj in H; subst m; eexists; split; try reflexivity; congruence.
  - intros (u' & H & U). apply Some_inj in H. apply pair_inj in H as [-> ->]. destruct u'; [rewrite U by reflexivity|]; reflexivity.
Qed.
Lemma prefix_letter c n : (97 <= n <= 122)%N -> ((lower c =? n)%N = true <-> c = nB n \/ c = nB (n - 32)).
Proof.
  intros R. rewrite N.eqb_eq, lower_cases by exact R. split; (intros [H|H]; [left|right]).
  - rewrite <- H. symmetry. apply nB_bN.
  - rewrite <- H. symmetry. apply nB_bN.
  - rewrite H. apply bN_nB_small. lia.
  - rewrite H. apply bN_nB_small. lia.
Qed.
Lemma octal_start c t ds : digits_text 8 (c :: t) ds -> (lower c =? 98)%N = false /\ (lower c =? 111)%N = false /\ (lower c =? 120)%N = false.
Proof.
  assert (G : forall n, (97 <= n <= 122)%N -> bN c = 95%N \/ (48 <= bN c < 56)%N -> (lower c =? n)%N = false).
  { intros n R H. apply N.eqb_neq. rewrite lower_cases by exact R. lia. }
  intros H. assert (C : bN c = 95%N \/ (48 <= bN c < 56)%N).
  { inversion H as [|? d ? ? D _|c' d t' ? D _ E]; subst; [|left; reflexivity].
    destruct D as [L [[_ D]|[D _]]]; lia. }
  repeat split; apply G; auto; lia.
Qed.

Lemma parse_uint_text s n : ParseUint s = Some n <-> natural_text s n.
Proof.
  unfold ParseUint. destruct s as [|c0 r].
  { split; [discriminate|]. intros [(? & ? & ? & ? & H & _)|[(? & ? & H & _)|(? & ? & ? & ? & ? & _ & _ & H & _)]]; discriminate H. }
  destruct (beqb c0 Byte.x30) eqn:Z.
  - apply beqb_eq in Z. subst c0.
    assert (OCT : (base_of (Byte.x30 :: r) = (8%N, r) /\ underscore_ok (Byte.x30 :: r) = underscore_loop false 1 r) ->
      (match r with c1 :: _ => lower c1 <> 98%N /\ lower c1 <> 111%N /\ lower c1 <> 120%N | [] => True end) ->
      (match (let (base, digits) := base_of (Byte.x30 :: r) in uint_digits base 0 false digits) with None => None | Some (n, under) => if under && negb (underscore_ok (Byte.x30 :: r)) then None else Some n end = Some n
       <-> natural_text (Byte.x30 :: r) n)).
    { intros [-> ->] NP. rewrite checked, (digits_iff false 8) by (cbv; discriminate). split.
      - intros (ds & T & V). right. left. exists r, ds. auto.
      - intros [(c & d & t & ds & E & [_ D] & ND & _)|[(t & ds & E & T & V)|(base & letters & c & t & ds & I & C & E & _)]].
        + apply cons_eq2 in E as [<- _]. exfalso. change (bN Byte.x30) with 48%N in D. lia.
        + apply cons_eq2 in E as [_ ->]. exists ds. auto.
        + apply cons_eq2 in E as [_ ->]. exfalso. cbn [app] in NP. destruct NP as (N1 & N2 & N3). cbn [In] in I.
          destruct I as [I|[I|[I|[]]]]; apply pair_inj in I as [<- <-]; cbn [str] in C; cbn in C; destruct C as [<-|[<-|[]]];
            first [apply N1; reflexivity|apply N2; reflexivity|apply N3; reflexivity]. }
    assert (SHAPE : forall X : option N, (match (let (base, digits) := base_of (Byte.x30 :: r) in uint_digits base 0 false digits) with None => None | Some (n, under) => if under && negb (underscore_ok (Byte.x30 :: r)) then None else Some n end) =
      (let (base, digits) := base_of (Byte.x30 :: r) in match uint_digits base 0 false digits with None => None | Some (n, under) => if under && negb (underscore_ok (Byte.x30 :: r)) then None else Some n end)).
    { intros _. destruct (base_of (Byte.x30 :: r)). reflexivity. }
    rewrite <- (SHAPE None). clear SHAPE.
    destruct r as [|c1 r].
    { apply OCT; [split; reflexivity|exact Logic.I]. }
    assert (PF : forall base hex x, (97 <= x <= 122)%N -> (lower c1 =? x)%N = true -> In (base, hex, x) [(2, false, 98); (8, false, 111); (16, true, 120)]%N ->
      (match (let (base, digits) := base_of (Byte.x30 :: c1 :: r) in uint_digits base 0 false digits) with None => None | Some (n, under) => if under && negb (underscore_ok (Byte.x30 :: c1 :: r)) then None else Some n end = Some n
       <-> natural_text (Byte.x30 :: c1 :: r) n)).
    { intros base hex x R X I. pose proof (proj1 (N.eqb_eq _ _) X) as XE.
      assert (C : exists letters, In (base, letters) [(2, "bB"); (8, "oO"); (16, "xX")]%N%string /\ In c1 (str letters) /\
                  forall b' l', In (b', l') [(2, "bB"); (8, "oO"); (16, "xX")]%N%string -> In c1 (str l') -> b' = base).
      { pose proof (proj1 (prefix_letter c1 x R) X) as C. cbn [In] in I. destruct I as [I|[I|[I|[]]]]; apply pair_inj in I as [I <-]; apply pair_inj in I as [<- <-];
          [exists "bB"%string|exists "oO"%string|exists "xX"%string];
          (split; [cbn [In]; auto|]; split; [destruct C as [->| ->]; cbn; auto|]; intros b' l' J K; cbn [In] in J;
           destruct J as [J|[J|[J|[]]]]; apply pair_inj in J as [<- <-]; try reflexivity; exfalso; destruct C as [->| ->]; cbn in K; destruct K as [K|[K|[]]]; discriminate K). }
      destruct C as (letters & IL & CL & UB).
      assert (F : fits hex base).
      { cbn [In] in I. destruct I as [I|[I|[I|[]]]]; apply pair_inj in I as [I _]; apply pair_inj in I as [<- <-]; cbv; first [reflexivity|discriminate]. }
      assert (US : underscore_ok (Byte.x30 :: c1 :: r) = underscore_loop hex 1 r).
      { unfold underscore_ok. change (beqb Byte.x30 Byte.x30) with true. cbn [andb]. rewrite XE.
        cbn [In] in I. destruct I as [I|[I|[I|[]]]]; apply pair_inj in I as [I <-]; apply pair_inj in I as [_ <-]; reflexivity. }
      destruct r as [|c2 r].
      - (* two characters *)
        change (base_of [Byte.x30; c1]) with (8%N, [c1]). cbv iota. rewrite checked. split.
        + intros (u & H & _). exfalso. cbn [uint_digits] in H. destruct (beqb c1 Byte.x5f) eqn:E5.
          { apply beqb_eq in E5. subst c1. change (lower Byte.x5f) with 127%N in XE. lia. }
          destruct (digit_val c1) as [d|] eqn:D; [|discriminate]. destruct (N.ltb_spec d 8) as [L|L]; [|discriminate].
          assert (DT : digit_text 8 c1 d) by (apply digit_val_text; [lia|auto]). destruct DT as [_ [[_ DT]|[DT _]]]; [|lia].
          pose proof (proj1 (lower_cases c1 x R) XE) as LC. lia.
        + intros [(c & d & t & ds & E & [_ D] & ND & _)|[(t & ds & E & T & V)|(b' & l' & c & t & ds & I' & C & E & ND & T & _)]]; exfalso.
          * apply cons_eq2 in E as [<- _]. change (bN Byte.x30) with 48%N in D. lia.
          * apply cons_eq2 in E as [_ <-]. apply octal_start in T as (T1 & T2 & T3). cbn [In] in I.
            destruct I as [I|[I|[I|[]]]]; apply pair_inj in I as [I <-]; congruence.
          * change (str "0" ++ [c] ++ t) with (Byte.x30 :: c :: t) in E. apply cons_eq2 in E as [_ E]. apply cons_eq2 in E as [_ <-]. inversion T. subst ds. contradiction.
      - assert (BO : base_of (Byte.x30 :: c1 :: c2 :: r) = (base, c2 :: r)).
        { unfold base_of. change (beqb Byte.x30 Byte.x30) with true. cbv iota. rewrite XE.
          cbn [In] in I. destruct I as [I|[I|[I|[]]]]; apply pair_inj in I as [I <-]; apply pair_inj in I as [<- _]; reflexivity. }
        rewrite BO, US. cbv iota. rewrite checked, (digits_iff hex base) by exact F. split.
        + intros (ds & T & V). right. right. exists base, letters, c1, (c2 :: r), ds. split; [exact IL|]. split; [exact CL|]. split; [reflexivity|].
          split; [|auto]. intros ->. inversion T.
        + intros [(c & d & t & ds & E & [_ D] & ND & _)|[(t & ds & E & T & V)|(b' & l' & c & t & ds & I' & C & E & ND & T & V)]].
          * exfalso. apply cons_eq2 in E as [<- _]. change (bN Byte.x30) with 48%N in D. lia.
          * exfalso. apply cons_eq2 in E as [_ <-]. apply octal_start in T as (T1 & T2 & T3). cbn [In] in I.
            destruct I as [I|[I|[I|[]]]]; apply pair_inj in I as [I <-]; congruence.
          * change (str "0" ++ [c] ++ t) with (Byte.x30 :: c :: t) in E. apply cons_eq2 in E as [_ E]. apply cons_eq2 in E as [<- <-].
            rewrite (UB b' l' I' C) in *. exists ds. auto. }
    destruct (lower c1 =? 98)%N eqn:P1; [apply (PF 2%N false 98%N); [lia|exact P1|cbn [In]; auto]|].
    destruct (lower c1 =? 111)%N eqn:P2; [apply (PF 8%N false 111%N); [lia|exact P2|cbn [In]; auto]|].
    destruct (lower c1 =? 120)%N eqn:P3; [apply (PF 16%N true 120%N); [lia|exact P3|cbn [In]; auto]|].
    apply OCT; [|repeat split; apply N.eqb_neq; assumption]. split.
    + unfold base_of. destruct r as [|c2 r]; change (beqb Byte.x30 Byte.x30) with true; cbv iota; [reflexivity|]. rewrite P1, P2, P3. reflexivity.
    + unfold underscore_ok. rewrite P1, P2, P3. reflexivity.
  - assert (BO : base_of (c0 :: r) = (10%N, c0 :: r)) by (unfold base_of; destruct r as [|c1 [|c2 r]]; rewrite Z; reflexivity).
    assert (US : underscore_ok (c0 :: r) = underscore_loop false 0 (c0 :: r)) by (unfold underscore_ok; destruct r as [|c1 r]; [|rewrite Z]; reflexivity).
    rewrite BO, US, checked. split.
    + intros (u & H & U). cbn [uint_digits] in H. destruct (beqb c0 Byte.x5f) eqn:E5.
      { exfalso. apply beqb_eq in E5. subst c0. specialize (U (under_stays _ _ _ _ _ H)). discriminate U. }
      destruct (digit_val c0) as [d|] eqn:D; [|discriminate]. destruct (N.ltb_spec d 10) as [L|L]; [|discriminate].
      assert (DT : digit_text 10 c0 d) by (apply digit_val_text; [lia|auto]).
      assert (F : fits false 10) by (cbv; discriminate).
      destruct (digits_sound false 10 F r _ _ _ _ H) as (ds & T & V).
      { intros Eu. specialize (U Eu). cbn [underscore_loop] in U. fold (loop_digit false c0) in U. rewrite (loop_digit_text false 10 c0 d F DT) in U. exact U. }
      left. exists c0, d, r, ds. split; [reflexivity|]. split; [exact DT|]. split; [|split; [exact T|exact V]].
      intros ->. destruct DT as [_ [[_ DT]|[DT _]]]; [|lia]. change (48 + 0)%N with (bN Byte.x30) in DT. apply bN_inj in DT. subst c0. discriminate Z.
    + intros [(c & d & t & ds & E & DT & ND & T & ->)|[(t & ds & E & _)|(? & ? & ? & ? & ? & _ & _ & E & _)]].
      * apply cons_eq2 in E as [<- <-]. assert (F : fits false 10) by (cbv; discriminate). destruct (digits_complete false 10 r ds F T) as [LU H].
        pose proof (digit_not_under 10 c0 d ltac:(lia) DT) as NU. pose proof (proj2 (digit_val_text 10 c0 d ltac:(lia)) DT) as [DV L].
        destruct (H (0 * 10 + d)%N false) as (u & E). exists u. cbn [uint_digits]. rewrite NU, DV. apply N.ltb_lt in L. rewrite L, E. split; [reflexivity|].
        intros _. cbn [underscore_loop]. fold (loop_digit false c0). rewrite (loop_digit_text false 10 c0 d F DT). exact LU.
      * apply cons_eq2 in E as [-> _]. discriminate Z.
      * apply cons_eq2 in E as [-> _]. discriminate Z.
Qed.

Lemma natural_start t n : natural_text t n -> exists c r, t = c :: r /\ beqb c Byte.x2b = false /\ beqb c Byte.x2d = false.
Proof.
  intros [(c & d & t' & ds & -> & [_ D] & _)|[(t' & ds & -> & _)|(? & ? & c & t' & ? & _ & _ & -> & _)]]; eexists _, _; (split; [reflexivity|]); [|split; reflexivity..].
  split; (destruct (beqb c _) eqn:E; [|reflexivity]; apply beqb_eq in E; subst c; change (bN Byte.x2b) with 43%N in D; change (bN Byte.x2d) with 45%N in D; lia).
Qed.
Lemma parse_int_iff v z : ParseInt v = Some z <-> int_text v z.
Proof.
  assert (P : forall t n, natural_text t n <-> ParseUint t = Some n) by (intros; symmetry; apply parse_uint_text).
  unfold ParseInt, int_text. split.
  - assert (POS : forall t, match ParseUint t with None => None | Some n => if (2 ^ 63 <=? n)%N then None else Some (Z.of_N n) end = Some z ->
       (- 2 ^ 63 <= z < 2 ^ 63)%Z /\ exists n, natural_text t n /\ z = Z.of_N n).
    { intros t. destruct (ParseUint t) as [n|] eqn:U; [|discriminate]. destruct (N.leb_spec (2 ^ 63) n) as [L|L]; [discriminate|]. intros H. apply Some_inj in H. subst z.
      apply N2Z.inj_lt in L. change (Z.of_N (2 ^ 63)) with (2 ^ 63)%Z in L. split; [lia|]. exists n. split; [apply P, U|reflexivity]. }
    destruct v as [|c r].
    { intros H. discriminate H. }
    destruct (beqb c Byte.x2b) eqn:E1; [|destruct (beqb c Byte.x2d) eqn:E2]; intros H.
    + apply beqb_eq in E1. subst c. destruct (POS r H) as (R & n & N & Z). split; [exact R|]. exists n, r. split; [exact N|]. left. split; [right; reflexivity|exact Z].
    + apply beqb_eq in E2. subst c. destruct (ParseUint r) as [n|] eqn:U; [|discriminate]. destruct (N.ltb_spec (2 ^ 63) n) as [L|L]; [discriminate|].
      apply Some_inj in H. subst z. apply N2Z.inj_le in L. change (Z.of_N (2 ^ 63)) with (2 ^ 63)%Z in L. split; [lia|]. exists n, r. split; [apply P, U|]. right. split; reflexivity.
    + destruct (POS (c :: r) H) as (R & n & N & Z). split; [exact R|]. exists n, (c :: r). split; [exact N|]. left. split; [left; reflexivity|exact Z].
  - intros (R & n & t & N & H). destruct (natural_start t n N) as (c & r & T & C1 & C2). apply P in N.
    destruct H as [[[->| ->] ->]|[-> ->]].
    + rewrite T. cbv iota beta. rewrite C1, C2. cbv iota. rewrite <- T, N. destruct (N.leb_spec (2 ^ 63) n) as [L|L]; [|reflexivity]. apply N2Z.inj_le in L. change (Z.of_N (2 ^ 63)) with (2 ^ 63)%Z in L. lia.
    + change (str "+" ++ t) with (Byte.x2b :: t). cbv beta iota. change (beqb Byte.x2b Byte.x2b) with true. cbv iota. rewrite N.
      destruct (N.leb_spec (2 ^ 63) n) as [L|L]; [|reflexivity]. apply N2Z.inj_le in L. change (Z.of_N (2 ^ 63)) with (2 ^ 63)%Z in L. lia.
    + change (str "-" ++ t) with (Byte.x2d :: t). cbv beta iota. change (beqb Byte.x2d Byte.x2b) with false. change (beqb Byte.x2d Byte.x2d) with true. cbv iota. rewrite N.
      destruct (N.ltb_spec (2 ^ 63) n) as [L|L]; [|reflexivity]. apply N2Z.inj_lt in L. change (Z.of_N (2 ^ 63)) with (2 ^ 63)%Z in L. lia.
Qed.
Lemma parse_int_text v z : int_text v z -> ParseInt v = Some z.
Proof. apply parse_int_iff. Qed.

(** ** Options *)
Definition server_table (k : flag_kind) : bool := match k with BoolFlag => true | _ => false end.

(** What the parser needs to know of a set of options. *)
Record table_ok (O : Type) (opts : list (string * flag_kind)) (kind : bytes -> option bool) (set : bytes -> bytes -> O -> option O) : Prop := {
  t_kind : forall n k, In (n, k) opts -> kind (str n) = Some (server_table k);
  t_name : forall n k, In (n, k) opts -> exists c r, str n = c :: r /\ beqb c Byte.x2d || beqb c Byte.x3d = false /\ split_eq r = (r, None)
             /\ forall v, split_eq (r ++ str "=" ++ v) = (r, Some v);
  t_set : forall n k v o, In (n, k) opts -> value_ok k v -> set (str n) v o <> None }.

Lemma value_parsed k v : value_ok k v ->
  match k with TextFlag => True | BoolFlag => exists b, ParseBool v = Some b | IntFlag => exists z, ParseInt v = Some z end.
Proof.
  destruct k; cbn [value_ok]; [auto| |].
  - intros (b & H). exists b. apply parse_bool_text, H.
  - intros (z & H). exists z. apply parse_int_text, H.
Qed.

Lemma server_table_ok : table_ok server_opts server_options server_kind server_set.
Proof.
  split.
  - intros n k H. unfold server_options in H. cbn [In] in H.
    repeat (destruct H as [H|H]; [apply pair_inj in H as [<- <-]; reflexivity|]). contradiction.
  - intros n k H. unfold server_options in H. cbn [In] in H.
    repeat (destruct H as [H|H]; [apply pair_inj in H as [<- <-]; eexists _, _; split; [reflexivity|]; split; [reflexivity|]; split; [reflexivity|intros v; reflexivity]|]). contradiction.
  - intros n k v [c l d i m nv us] H V. apply value_parsed in V. unfold server_options in H. cbn [In] in H.
    repeat (destruct H as [H|H]; [apply pair_inj in H as [<- <-]; try (destruct V as (x & V)); cbn -[ParseBool ParseInt]; try rewrite V; discriminate|]). contradiction.
Qed.
Lemma client_table_ok : table_ok client_opts client_options client_kind client_set.
Proof.
  split.
  - intros n k H. unfold client_options in H. cbn [In] in H.
    repeat (destruct H as [H|H]; [apply pair_inj in H as [<- <-]; reflexivity|]). contradiction.
  - intros n k H. unfold client_options in H. cbn [In] in H.
    repeat (destruct H as [H|H]; [apply pair_inj in H as [<- <-]; eexists _, _; split; [reflexivity|]; split; [reflexivity|]; split; [reflexivity|intros v; reflexivity]|]). contradiction.
  - intros n k v [c d s i t] H V. apply value_parsed in V. unfold client_options in H. cbn [In] in H.
    repeat (destruct H as [H|H]; [apply pair_inj in H as [<- <-]; try (destruct V as (x & V)); cbn -[ParseBool ParseInt]; try rewrite V; discriminate|]). contradiction.
Qed.

Fixpoint sets {O} (set : bytes -> bytes -> O -> option O) (asg : list (string * bytes)) (o : O) : option O :=
  match asg with
  | [] => Some o
  | (n, v) :: asg' => match set (str n) v o with Some o' => sets set asg' o' | None => None end
  end.

Lemma dash_text dash t : In dash (map str ["-"; "--"]%string) -> (exists c r, t = c :: r /\ beqb c Byte.x2d || beqb c Byte.x3d = false) -> flag_text (dash ++ t) = Some t.
Proof.
  intros D (c & r & -> & C). apply orb_false_iff in C as [C _]. cbn [map In] in D. destruct D as [<-|[<-|[]]].
  - change (str "-") with [Byte.x2d]. cbn [app flag_text]. change (beqb Byte.x2d Byte.x2d) with true. rewrite C. reflexivity.
  - reflexivity.
Qed.

Lemma parse_writes O opts kind (set : bytes -> bytes -> O -> option O) : table_ok O opts kind set ->
  forall args asg rest, writes opts args asg rest -> forall o,
  exists o', sets set asg o = Some o' /\ parse_flags kind set o args = parse_flags kind set o' rest.
Proof.
  intros [TK TN TS]. induction 1 as [rest|n k v dash args asg rest I V D W IH|n k v dash args asg rest I K V D W IH|n dash args asg rest I D W IH]; intros o.
  - exists o. split; reflexivity.
  - cbn [sets]. destruct (set (str n) v o) as [o1|] eqn:S; [|contradiction (TS n k v o I V)].
    destruct (IH o1) as (o' & S' & P). exists o'. split; [exact S'|]. rewrite <- P.
    destruct (TN n k I) as (c & r & N & C & _ & SP). cbn [parse_flags].
    rewrite dash_text; [|exact D|exists c, (r ++ str "=" ++ v); rewrite N; auto].
    rewrite N in *. cbn [app]. rewrite C. unfold split_flag. rewrite SP. rewrite <- N. rewrite (TK n k I).
    rewrite N, S. destruct (server_table k); reflexivity.
  - cbn [sets]. destruct (set (str n) v o) as [o1|] eqn:S; [|contradiction (TS n k v o I V)].
    destruct (IH o1) as (o' & S' & P). exists o'. split; [exact S'|]. rewrite <- P.
    destruct (TN n k I) as (c & r & N & C & SN & _). cbn [parse_flags].
    rewrite dash_text; [|exact D|exists c, r; rewrite N; auto].
    rewrite N in *. rewrite C. unfold split_flag. rewrite SN. rewrite <- N. rewrite (TK n k I). rewrite N, S.
    destruct k; [|contradiction K|]; reflexivity.
  - cbn [sets]. destruct (set (str n) (str "true") o) as [o1|] eqn:S; [|contradiction (TS n BoolFlag (str "true") o I)].
    2:{ exists true. right. right. right. left. reflexivity. }
    destruct (IH o1) as (o' & S' & P). exists o'. split; [exact S'|]. rewrite <- P.
    destruct (TN n _ I) as (c & r & N & C & SN & _). cbn [parse_flags].
    rewrite dash_text; [|exact D|exists c, r; rewrite N; auto].
    rewrite N in *. rewrite C. unfold split_flag. rewrite SN. rewrite <- N. rewrite (TK n _ I). rewrite N. cbn [server_table]. rewrite S. reflexivity.
Qed.

Lemma ends_parsed O kind (set : bytes -> bytes -> O -> option O) o rest : ends_options rest -> parse_flags kind set o rest = FParsed o.
Proof.
  destruct rest as [|a rest]; [reflexivity|]. intros [->|[->|H]]; [reflexivity|reflexivity|]. cbn [parse_flags].
  replace (flag_text a) with (@None bytes); [reflexivity|]. destruct a as [|c [|c1 r]]; try reflexivity. unfold flag_text.
  destruct (beqb c Byte.x2d) eqn:E; [|reflexivity]. apply beqb_eq in E. subst c. exfalso. apply (H (c1 :: r)). reflexivity.
Qed.

Lemma writes_in opts args asg rest : writes opts args asg rest -> forall n v, In (n, v) asg -> exists k, In (n, k) opts /\ value_ok k v.
Proof.
  induction 1 as [rest|n k v dash args asg rest I V D W IH|n k v dash args asg rest I K V D W IH|n dash args asg rest I D W IH]; intros n' v'; [intros []|..];
    (intros [E|E]; [apply pair_inj in E as [<- <-]|apply IH, E]); eauto.
  exists BoolFlag. split; [exact I|]. exists true. right. right. right. left. reflexivity.
Qed.

Lemma sets_snoc {O} (set : bytes -> bytes -> O -> option O) asg n v : forall o, sets set (asg ++ [(n, v)]) o =
  match sets set asg o with Some o' => set (str n) v o' | None => None end.
Proof. induction asg as [|[m w] asg IH]; intros o; cbn [app sets]; [destruct (set _ _ _); reflexivity|]. destruct (set _ _ _); [apply IH|reflexivity]. Qed.
Lemma setting_snoc asg n v m d : setting (asg ++ [(n, v)]) m d = if String.eqb n m then v else setting asg m d.
Proof. unfold setting. rewrite fold_left_app. reflexivity. Qed.

Lemma false_text : bool_text (str "false") false.
Proof. right. right. right. left. reflexivity. Qed.
Lemma true_text : bool_text (str "true") true.
Proof. right. right. right. left. reflexivity. Qed.
Lemma nine_text : int_text (str "9") 9.
Proof. apply parse_int_iff. reflexivity. Qed.
Lemma server_sets asg : (forall n v, In (n, v) asg -> exists k, In (n, k) server_options /\ value_ok k v) ->
  forall o, sets server_set asg server_defaults = Some o -> server_reads asg o.
Proof.
  induction asg as [|[n v] asg IH] using rev_ind; intros H o S.
  - apply Some_inj in S. subst o. unfold server_reads. repeat split; first [apply (false_text)|apply (true_text)|apply nine_text].
  - rewrite sets_snoc in S. destruct (sets server_set asg server_defaults) as [o1|]; [|discriminate].
    assert (K : server_reads asg o1) by (apply IH; [|reflexivity]; intros n' v' I; apply H, in_or_app; left; exact I).
    destruct (H n v) as (k & I & V); [apply in_or_app; right; left; reflexivity|]. clear H IH. pose proof (value_parsed _ _ V) as V'.
    destruct o1 as [c l d i m nv us]. destruct K as (K1 & K2 & K3 & K4 & K5 & K6 & K7). cbn [so_config so_listen so_dump so_infile so_metadata so_num so_username] in *.
    unfold server_reads. rewrite !setting_snoc.
    unfold server_options in I. cbn [In] in I.
    repeat (destruct I as [I|I]; [apply pair_inj in I as [<- <-]; try (destruct V as (x & V); clear V'; pose proof V as V'; first [apply parse_bool_text in V'|apply parse_int_text in V']); cbn -[ParseBool ParseInt setting] in S; try rewrite V' in S; apply Some_inj in S; subst o;
      cbn [so_config so_listen so_dump so_infile so_metadata so_num so_username]; cbn -[ParseBool ParseInt setting bool_text int_text]; repeat (match goal with |- _ /\ _ => split end); first [exact V|assumption|reflexivity]|]). contradiction.
Qed.
Lemma client_sets asg : (forall n v, In (n, v) asg -> exists k, In (n, k) client_options /\ value_ok k v) ->
  forall o, sets client_set asg client_defaults = Some o -> client_reads asg o.
Proof.
  induction asg as [|[n v] asg IH] using rev_ind; intros H o S.
  - apply Some_inj in S. subst o. unfold client_reads. repeat split; apply false_text.
  - rewrite sets_snoc in S. destruct (sets client_set asg client_defaults) as [o1|]; [|discriminate].
    assert (K : client_reads asg o1) by (apply IH; [|reflexivity]; intros n' v' I; apply H, in_or_app; left; exact I).
    destruct (H n v) as (k & I & V); [apply in_or_app; right; left; reflexivity|]. clear H IH. pose proof (value_parsed _ _ V) as V'.
    destruct o1 as [c d s i t]. destruct K as (K1 & K2 & K3 & K4 & K5). cbn [co_config co_dump co_show co_infile co_target] in *.
    unfold client_reads. rewrite !setting_snoc.
    unfold client_options in I. cbn [In] in I.
    repeat (destruct I as [I|I]; [apply pair_inj in I as [<- <-]; try (destruct V as (x & V); clear V'; pose proof V as V'; first [apply parse_bool_text in V'|apply parse_int_text in V']); cbn -[ParseBool ParseInt setting] in S; try rewrite V' in S; apply Some_inj in S; subst o;
      cbn [co_config co_dump co_show co_infile co_target]; cbn -[ParseBool ParseInt setting bool_text int_text]; repeat (match goal with |- _ /\ _ => split end); first [exact V|assumption|reflexivity]|]). contradiction.
Qed.

Lemma server_command_line args asg rest : writes server_options args asg rest -> ends_options rest ->
  exists o, server_flags args = FParsed o /\ server_reads asg o.
Proof.
  intros W E. destruct (parse_writes _ _ _ _ server_table_ok args asg rest W server_defaults) as (o & S & P).
  exists o. split; [unfold server_flags; rewrite P; apply ends_parsed, E|]. apply server_sets; [|exact S]. exact (writes_in _ _ _ _ W).
Qed.
Lemma client_command_line args asg rest : writes client_options args asg rest -> ends_options rest ->
  exists o, client_flags args = FParsed o /\ client_reads asg o.
Proof.
  intros W E. destruct (parse_writes _ _ _ _ client_table_ok args asg rest W client_defaults) as (o & S & P).
  exists o. split; [unfold client_flags; rewrite P; apply ends_parsed, E|]. apply client_sets; [|exact S]. exact (writes_in _ _ _ _ W).
Qed.

(** ** Refusals *)
Lemma parse_bool_inv v b : ParseBool v = Some b -> bool_text v b.
Proof.
  unfold ParseBool, bool_text. destruct (existsb _ _) eqn:E.
  - intros H. apply Some_inj in H. subst b. apply existsb_exists in E as (x & I & E). apply bytes_eqb_eq in E. subst x. exact I.
  - destruct (existsb _ (map str ["0"; _; _; _; _; _]%string)) eqn:E'; [|discriminate]. intros H. apply Some_inj in H. subst b.
    apply existsb_exists in E' as (x & I & E'). apply bytes_eqb_eq in E'. subst x. exact I.
Qed.
Lemma split_eq_none r : ~ In Byte.x3d r -> split_eq r = (r, None) /\ forall v, split_eq (r ++ str "=" ++ v) = (r, Some v).
Proof.
  induction r as [|c r IH]; intros N; [split; reflexivity|]. destruct IH as [I1 I2]; [intros K; apply N; right; exact K|].
  cbn [split_eq app]. destruct (beqb c Byte.x3d) eqn:E; [apply beqb_eq in E; subst c; exfalso; apply N; left; reflexivity|].
  rewrite I1. split; [reflexivity|]. intros v. rewrite I2. reflexivity.
Qed.
Lemma str_inj' a b : str a = str b -> a = b.
Proof.
  unfold str. intros H. rewrite <- (string_of_list_byte_of_string a), <- (string_of_list_byte_of_string b). f_equal. exact H.
Qed.

Record table_exact (O : Type) (opts : list (string * flag_kind)) (kind : bytes -> option bool) (set : bytes -> bytes -> O -> option O) : Prop := {
  x_kind : forall n, kind n <> None -> exists m k, In (m, k) opts /\ n = str m;
  x_value : forall n k v o, In (n, k) opts -> ~ value_ok k v -> set (str n) v o = None }.
Lemma bad_value k v : ~ value_ok k v -> match k with TextFlag => False | BoolFlag => ParseBool v = None | IntFlag => ParseInt v = None end.
Proof.
  destruct k; cbn [value_ok]; intros H; [apply H; exact I| |].
  - destruct (ParseBool v) as [b|] eqn:P; [|reflexivity]. contradiction H. exists b. apply parse_bool_inv, P.
  - destruct (ParseInt v) as [z|] eqn:P; [|reflexivity]. contradiction H. exists z. apply parse_int_iff, P.
Qed.
Lemma server_table_exact : table_exact server_opts server_options server_kind server_set.
Proof.
  split.
  - intros n. unfold server_kind. destruct (existsb _ _) eqn:E.
    + intros _. apply existsb_exists in E as (x & I & E). apply bytes_eqb_eq in E. subst x. cbn [map In] in I.
      unfold server_options. repeat (destruct I as [<-|I]; [eexists _, _; split; [|reflexivity]; cbn [In]; eauto 12|]). contradiction.
    + destruct (existsb _ (map str ["dump-config"; _]%string)) eqn:E'; [|intros H; contradiction H; reflexivity].
      intros _. apply existsb_exists in E' as (x & I & E'). apply bytes_eqb_eq in E'. subst x. cbn [map In] in I.
      unfold server_options. repeat (destruct I as [<-|I]; [eexists _, _; split; [|reflexivity]; cbn [In]; eauto 12|]). contradiction.
  - intros n k v [c l d i m nv us] H V. apply bad_value in V. unfold server_options in H. cbn [In] in H.
    repeat (destruct H as [H|H]; [apply pair_inj in H as [<- <-]; first [contradiction V|cbn -[ParseBool ParseInt]; rewrite V; reflexivity]|]). contradiction.
Qed.
Lemma client_table_exact : table_exact client_opts client_options client_kind client_set.
Proof.
  split.
  - intros n. unfold client_kind. destruct (existsb _ _) eqn:E.
    + intros _. apply existsb_exists in E as (x & I & E). apply bytes_eqb_eq in E. subst x. cbn [map In] in I.
      unfold client_options. repeat (destruct I as [<-|I]; [eexists _, _; split; [|reflexivity]; cbn [In]; eauto 12|]). contradiction.
    + destruct (existsb _ (map str ["dump-config"; _]%string)) eqn:E'; [|intros H; contradiction H; reflexivity].
      intros _. apply existsb_exists in E' as (x & I & E'). apply bytes_eqb_eq in E'. subst x. cbn [map In] in I.
      unfold client_options. repeat (destruct I as [<-|I]; [eexists _, _; split; [|reflexivity]; cbn [In]; eauto 12|]). contradiction.
  - intros n k v [c d s i t] H V. apply bad_value in V. unfold client_options in H. cbn [In] in H.
    repeat (destruct H as [H|H]; [apply pair_inj in H as [<- <-]; first [contradiction V|cbn -[ParseBool ParseInt]; rewrite V; reflexivity]|]). contradiction.
Qed.

Lemma refused_bad O opts kind (set : bytes -> bytes -> O -> option O) : table_ok O opts kind set -> table_exact O opts kind set ->
  forall rest, refused opts rest -> forall o, parse_flags kind set o rest = FBad.
Proof.
  intros [TK TN TS] [XK XB] rest [n v dash rest' U NH NHE (c & r & N & C & E) D V|n k v dash rest' I V D|n k v dash rest' I K V D|n k dash I K D|dash v rest' D] o.
  - cbn [parse_flags].
    assert (C' : beqb c Byte.x2d || beqb c Byte.x3d = false).
    { apply orb_false_iff. split; destruct (beqb c _) eqn:B; try reflexivity; apply beqb_eq in B; subst c; [contradiction C; reflexivity|].
      exfalso. apply E. rewrite N. left. reflexivity. }
    rewrite dash_text; [|exact D|exists c, (r ++ v); rewrite N; auto].
    assert (NI : ~ In Byte.x3d r) by (intros I; apply E; rewrite N; right; exact I).
    assert (S : exists w, split_flag (str n ++ v) = (str n, w)).
    { rewrite N. cbn [app split_flag]. destruct (split_eq_none r NI) as [S1 S2].
      destruct V as [->|(w & ->)]; [rewrite app_nil_r, S1; eauto|rewrite S2; eauto]. }
    destruct S as (w & S). rewrite N in *. cbn [app] in *. rewrite C', S. rewrite <- N.
    assert (KN : kind (str n) = None).
    { destruct (kind (str n)) eqn:KE; [|reflexivity]. destruct (XK (str n)) as (m & k & I & M); [congruence|]. apply str_inj' in M. subst m. contradiction (U k I). }
    rewrite KN. destruct (bytes_eqb (str n) (str "help")) eqn:B1; [apply bytes_eqb_eq in B1; apply str_inj' in B1; contradiction|].
    destruct (bytes_eqb (str n) (str "h")) eqn:B2; [apply bytes_eqb_eq in B2; apply str_inj' in B2; contradiction|]. reflexivity.
  - cbn [parse_flags]. destruct (TN n _ I) as (c & r & N & C & _ & SP).
    rewrite dash_text; [|exact D|exists c, (r ++ str "=" ++ v); rewrite N; auto].
    rewrite N in *. cbn [app]. rewrite C. unfold split_flag. rewrite SP. rewrite <- N. rewrite (TK n _ I). rewrite (XB n k v o I V). destruct k; reflexivity.
  - cbn [parse_flags]. destruct (TN n _ I) as (c & r & N & C & SN & _).
    rewrite dash_text; [|exact D|exists c, r; rewrite N; auto].
    rewrite N in *. rewrite C. unfold split_flag. rewrite SN. rewrite <- N. rewrite (TK n _ I). rewrite N, <- N, (XB n k v o I V). destruct k; [|contradiction K|]; reflexivity.
  - cbn [parse_flags]. destruct (TN n _ I) as (c & r & N & C & SN & _).
    rewrite dash_text; [|exact D|exists c, r; rewrite N; auto].
    rewrite N in *. rewrite C. unfold split_flag. rewrite SN. rewrite <- N. rewrite (TK n _ I). destruct k; [|contradiction K|]; reflexivity.
  - cbn [map In] in D. destruct D as [<-|[<-|[<-|[]]]]; reflexivity.
Qed.
Lemma server_refuses args asg rest : writes server_options args asg rest -> refused server_options rest -> server_flags args = FBad.
Proof.
  intros W R. destruct (parse_writes _ _ _ _ server_table_ok args asg rest W server_defaults) as (o & _ & P).
  unfold server_flags. rewrite P. exact (refused_bad _ _ _ _ server_table_ok server_table_exact rest R o).
Qed.
Lemma client_refuses args asg rest : writes client_options args asg rest -> refused client_options rest -> client_flags args = FBad.
Proof.
  intros W R. destruct (parse_writes _ _ _ _ client_table_ok args asg rest W client_defaults) as (o & _ & P).
  unfold client_flags. rewrite P. exact (refused_bad _ _ _ _ client_table_ok client_table_exact rest R o).
Qed.
Lemma help_helps O opts kind (set : bytes -> bytes -> O -> option O) : table_exact O opts kind set -> (forall k, ~ In ("h"%string, k) opts /\ ~ In ("help"%string, k) opts) ->
  forall rest, asks_help rest -> forall o, parse_flags kind set o rest = FHelp.
Proof.
  intros [XK _] NO rest (dash & n & v & rest' & -> & D & H & V) o. cbn [parse_flags].
  assert (KN : kind n = None).
  { destruct (kind n) eqn:KE; [|reflexivity]. destruct (XK n) as (m & k & I & M); [congruence|]. exfalso. cbn [map In] in H.
    destruct H as [<-|[<-|[]]]; apply str_inj' in M; subst m; [exact (proj1 (NO k) I)|exact (proj2 (NO k) I)]. }
  assert (exists c r, n = c :: r /\ beqb c Byte.x2d || beqb c Byte.x3d = false /\ ~ In Byte.x3d r) as (c & r & N & C & NE).
  { cbn [map In] in H. destruct H as [<-|[<-|[]]]; eexists _, _; (split; [reflexivity|]); (split; [reflexivity|]); cbn; intros K; repeat (destruct K as [K|K]; [discriminate K|]); exact K. }
  rewrite dash_text; [|exact D|exists c, (r ++ v); rewrite N; auto].
  assert (S : exists w, split_flag (n ++ v) = (n, w)).
  { rewrite N. cbn [app split_flag]. destruct (split_eq_none r NE) as [S1 S2].
    destruct V as [->|(w & ->)]; [rewrite app_nil_r, S1; eauto|rewrite S2; eauto]. }
  destruct S as (w & S). rewrite N in *. cbn [app] in *. rewrite C, S, KN. rewrite <- N in *.
  cbn [map In] in H. destruct H as [<-|[<-|[]]]; reflexivity.
Qed.
Lemma server_no_help : forall k, ~ In ("h"%string, k) server_options /\ ~ In ("help"%string, k) server_options.
Proof. intros k. unfold server_options. cbn [In]. split; intros H; repeat (destruct H as [H|H]; [apply pair_inj in H as [H _]; discriminate H|]); exact H. Qed.
Lemma client_no_help : forall k, ~ In ("h"%string, k) client_options /\ ~ In ("help"%string, k) client_options.
Proof. intros k. unfold client_options. cbn [In]. split; intros H; repeat (destruct H as [H|H]; [apply pair_inj in H as [H _]; discriminate H|]); exact H. Qed.
Lemma server_helps args asg rest : writes server_options args asg rest -> asks_help rest -> server_flags args = FHelp.
Proof.
  intros W R. destruct (parse_writes _ _ _ _ server_table_ok args asg _ W server_defaults) as (o & _ & P).
  unfold server_flags. rewrite P. exact (help_helps _ _ _ _ server_table_exact server_no_help rest R o).
Qed.
Lemma client_helps args asg rest : writes client_options args asg rest -> asks_help rest -> client_flags args = FHelp.
Proof.
  intros W R. destruct (parse_writes _ _ _ _ client_table_ok args asg _ W client_defaults) as (o & _ & P).
  unfold client_flags. rewrite P. exact (help_helps _ _ _ _ client_table_exact client_no_help rest R o).
Qed.

(** ** Every command line is read, refused or a request for help *)
Lemma str_onto (b : bytes) : exists s, b = str s.
Proof. exists (string_of_list_byte b). unfold str. symmetry. apply list_byte_of_string_of_list_byte. Qed.
Lemma value_dec k v : value_ok k v \/ ~ value_ok k v.
Proof.
  destruct k; cbn [value_ok]; [auto| |].
  - destruct (ParseBool v) as [b|] eqn:P; [left; exists b; apply parse_bool_inv, P|]. right. intros (b & H). apply parse_bool_text in H. congruence.
  - destruct (ParseInt v) as [z|] eqn:P; [left; exists z; apply parse_int_iff, P|]. right. intros (z & H). apply parse_int_iff in H. congruence.
Qed.
Lemma split_eq_spec s : forall n v, split_eq s = (n, v) -> ~ In Byte.x3d n /\ s = n ++ match v with Some x => str "=" ++ x | None => [] end.
Proof.
  induction s as [|c s IH]; intros n v H; cbn [split_eq] in H.
  - apply pair_inj in H as [<- <-]. split; [intros []|reflexivity].
  - destruct (beqb c Byte.x3d) eqn:E.
    + apply pair_inj in H as [<- <-]. apply beqb_eq in E. subst c. split; [intros []|reflexivity].
    + destruct (split_eq s) as [n' v'] eqn:S. apply pair_inj in H as [<- <-]. destruct (IH n' v' eq_refl) as [I1 I2]. split.
      * intros [K|K]; [subst c; discriminate E|contradiction].
      * rewrite I2 at 1. reflexivity.
Qed.
Lemma every_line opts : forall args, exists asg rest, writes opts args asg rest /\ (ends_options rest \/ refused opts rest \/ asks_help rest).
Proof.
  intros args. remember (length args) as len eqn:L. revert args L. induction len as [len IH] using lt_wf_ind. intros args ->.
  assert (STOP : ends_options args \/ refused opts args \/ asks_help args -> exists asg rest, writes opts args asg rest /\ (ends_options rest \/ refused opts rest \/ asks_help rest)).
  { intros H. exists [], args. split; [constructor|exact H]. }
  destruct args as [|a args]; [apply STOP; left; exact I|].
  destruct (flag_text a) as [name|] eqn:F.
  2:{ apply STOP. left. cbn [ends_options]. destruct a as [|c [|c1 r]].
      - right. right. intros r H. discriminate H.
      - destruct (beqb c Byte.x2d) eqn:E; [apply beqb_eq in E; subst c; left; reflexivity|]. right. right. intros r H. apply cons_eq2 in H as [-> _]. discriminate E.
      - unfold flag_text in F. destruct (beqb c Byte.x2d) eqn:E.
        + apply beqb_eq in E. subst c. destruct (beqb c1 Byte.x2d) eqn:E1; [|discriminate]. apply beqb_eq in E1. subst c1. destruct r; [|discriminate]. right. left. reflexivity.
        + right. right. intros r' H. apply cons_eq2 in H as [-> _]. discriminate E. }
  assert (exists dash c name', In dash (map str ["-"; "--"]%string) /\ a = dash ++ c :: name' /\ name = c :: name' /\ (beqb c Byte.x2d = true -> dash = str "--")) as (dash & c & name' & D & -> & -> & DD).
  { destruct a as [|c [|c1 r]]; try discriminate F. unfold flag_text in F. destruct (beqb c Byte.x2d) eqn:E; [|discriminate]. apply beqb_eq in E. subst c.
    destruct (beqb c1 Byte.x2d) eqn:E1.
    - apply beqb_eq in E1. subst c1. destruct r as [|c2 r]; [discriminate|]. apply Some_inj in F. subst name. exists (str "--"), c2, r. split; [right; left; reflexivity|]. auto.
    - apply Some_inj in F. subst name. exists (str "-"), c1, r. split; [left; reflexivity|]. split; [reflexivity|]. split; [reflexivity|congruence]. }
  clear F. rename name' into name.
  destruct (beqb c Byte.x2d) eqn:E1.
  { apply beqb_eq in E1. subst c. apply STOP. right. left. rewrite (DD eq_refl). apply (r_dashes opts (str "---")). left. reflexivity. }
  destruct (beqb c Byte.x3d) eqn:E2.
  { apply beqb_eq in E2. subst c. apply STOP. right. left. cbn [map In] in D. destruct D as [<-|[<-|[]]].
    - apply (r_dashes opts (str "-=")). right. left. reflexivity.
    - apply (r_dashes opts (str "--=")). right. right. left. reflexivity. }
  destruct (split_eq name) as [n v] eqn:S. apply split_eq_spec in S as [NI ->].
  destruct (str_onto (c :: n)) as (m & M). 
  assert (TXT : c :: n ++ match v with Some x => str "=" ++ x | None => [] end = str m ++ match v with Some x => str "=" ++ x | None => [] end) by (rewrite <- M; reflexivity).
  rewrite TXT in *. clear TXT.
  assert (K : (exists k, In (m, k) opts) \/ forall k, ~ In (m, k) opts).
  { destruct (existsb (fun o => String.eqb (fst o) m) opts) eqn:X.
    - apply existsb_exists in X as ([m' k] & I & X). apply String.eqb_eq in X. cbn [fst] in X. subst m'. left. exists k. exact I.
    - right. intros k I. assert (existsb (fun o => String.eqb (fst o) m) opts = true) as T; [|congruence]. apply existsb_exists. exists (m, k). split; [exact I|apply String.eqb_refl]. }
  destruct K as [(k & I)|U].
  - assert (GO : forall rest' x, (length rest' < length ((dash ++ str m ++ match v with Some x => str "=" ++ x | None => [] end) :: args))%nat ->
       (forall asg rest, writes opts rest' asg rest -> writes opts ((dash ++ str m ++ match v with Some x => str "=" ++ x | None => [] end) :: args) ((m, x) :: asg) rest) ->
       exists asg rest, writes opts ((dash ++ str m ++ match v with Some x => str "=" ++ x | None => [] end) :: args) asg rest /\ (ends_options rest \/ refused opts rest \/ asks_help rest)).
    { intros rest' x LT W. destruct (IH (length rest') LT rest' eq_refl) as (asg & rest & W' & C). exists ((m, x) :: asg), rest. split; [apply W, W'|exact C]. }
    destruct v as [v|].
    + destruct (value_dec k v) as [V|V].
      * apply (GO args v); [apply le_n|]. intros asg rest W. exact (w_eq opts m k v dash args asg rest I V D W).
      * apply STOP. right. left. exact (r_value opts m k v dash args I V D).
    + destruct k.
      * destruct args as [|v args]; [apply STOP; right; left; rewrite app_nil_r; apply (r_missing opts m TextFlag dash I); [discriminate|exact D]|].
        apply (GO args v); [apply le_S, le_n|]. intros asg rest W. rewrite app_nil_r. apply (w_next opts m TextFlag v dash args asg rest I); [discriminate|exact Logic.I|exact D|exact W].
      * apply (GO args (str "true")); [apply le_n|]. intros asg rest W. rewrite app_nil_r. exact (w_bool opts m dash args asg rest I D W).
      * destruct args as [|v args]; [apply STOP; right; left; rewrite app_nil_r; apply (r_missing opts m IntFlag dash I); [discriminate|exact D]|].
        destruct (value_dec IntFlag v) as [V|V].
        -- apply (GO args v); [apply le_S, le_n|]. intros asg rest W. rewrite app_nil_r. apply (w_next opts m IntFlag v dash args asg rest I); [discriminate|exact V|exact D|exact W].
        -- apply STOP. right. left. rewrite app_nil_r. apply (r_next opts m IntFlag v dash args I); [discriminate|exact V|exact D].
  - apply STOP. right.
    assert (VF : match v with Some x => str "=" ++ x | None => [] end = [] \/ exists w, match v with Some x => str "=" ++ x | None => [] end = str "=" ++ w) by (destruct v as [x|]; [right; exists x; reflexivity|left; reflexivity]).
    destruct (String.eqb m "h" || String.eqb m "help") eqn:HH.
    + right. exists dash, (str m), (match v with Some x => str "=" ++ x | None => [] end), args. split; [reflexivity|]. split; [exact D|]. split; [|exact VF].
      apply orb_true_iff in HH as [HH|HH]; apply String.eqb_eq in HH; subst m; cbn [map In]; auto.
    + left. apply orb_false_iff in HH as [H1 H2]. apply String.eqb_neq in H1, H2. apply (r_unknown opts m _ dash args U H1 H2); [|exact D|exact VF].
      exists c, n. rewrite <- M. split; [reflexivity|]. split; [intros ->; discriminate E1|]. intros [K|K]; [subst c; discriminate E2|contradiction].
Qed.
(** ** On the programs *)
Lemma server_program_refuses (LIB : OPRF) args asg rest : writes server_options args asg rest -> refused server_options rest ->
  forall fs (gen : res (PrivateKey LIB)), server_program args fs gen = SExit 2 [].
Proof. intros W R fs gen. unfold server_program. rewrite (server_refuses args asg rest W R). reflexivity. Qed.
Lemma client_program_refuses (LIB : OPRF) args asg rest : writes client_options args asg rest -> refused client_options rest ->
  forall fs net (blinds : nat -> Blind LIB), client_program args fs net blinds = mkClientResult 2 [].
Proof. intros W R fs net blinds. unfold client_program. rewrite (client_refuses args asg rest W R). reflexivity. Qed.
Lemma programs_help (LIB : OPRF) args asg rest : asks_help rest ->
  (writes server_options args asg rest -> forall fs (gen : res (PrivateKey LIB)), server_program args fs gen = SExit 0 [])
  /\ (writes client_options args asg rest -> forall fs net (blinds : nat -> Blind LIB), client_program args fs net blinds = mkClientResult 0 []).
Proof.
  intros H. split; intros W; intros.
  - unfold server_program. rewrite (server_helps args asg rest W H). reflexivity.
  - unfold client_program. rewrite (client_helps args asg rest W H). reflexivity.
Qed.

Lemma outcome_written args :
  (forall o, server_flags args = FParsed o -> exists asg rest, writes server_options args asg rest /\ ends_options rest /\ server_reads asg o)
  /\ (server_flags args = FBad -> exists asg rest, writes server_options args asg rest /\ refused server_options rest)
  /\ (server_flags args = FHelp -> exists asg rest, writes server_options args asg rest /\ asks_help rest)
  /\ (forall o, client_flags args = FParsed o -> exists asg rest, writes client_options args asg rest /\ ends_options rest /\ client_reads asg o)
  /\ (client_flags args = FBad -> exists asg rest, writes client_options args asg rest /\ refused client_options rest)
  /\ (client_flags args = FHelp -> exists asg rest, writes client_options args asg rest /\ asks_help rest).
Proof.
  assert (PI : forall (O : Type) (a b : O), FParsed a = FParsed b -> a = b) by (intros O a b H; injection H; auto).
  destruct (every_line server_options args) as (asg & rest & W & C). destruct (every_line client_options args) as (asg' & rest' & W' & C').
  assert (S : (exists o, server_flags args = FParsed o /\ ends_options rest /\ server_reads asg o) \/ (server_flags args = FBad /\ refused server_options rest) \/ (server_flags args = FHelp /\ asks_help rest)).
  { destruct C as [C|[C|C]].
    - left. destruct (server_command_line _ _ _ W C) as (o & E & R). eauto.
    - right. left. split; [exact (server_refuses _ _ _ W C)|exact C].
    - right. right. split; [exact (server_helps _ _ _ W C)|exact C]. }
  assert (S' : (exists o, client_flags args = FParsed o /\ ends_options rest' /\ client_reads asg' o) \/ (client_flags args = FBad /\ refused client_options rest') \/ (client_flags args = FHelp /\ asks_help rest')).
  { destruct C' as [C'|[C'|C']].
    - left. destruct (client_command_line _ _ _ W' C') as (o & E & R). eauto.
    - right. left. split; [exact (client_refuses _ _ _ W' C')|exact C'].
    - right. right. split; [exact (client_helps _ _ _ W' C')|exact C']. }
  split; [|split; [|split; [|split; [|split]]]].
  - intros o E. destruct S as [(o' & E' & H)|[[E' _]|[E' _]]]; rewrite E' in E; try discriminate E. apply PI in E. subst o'. exists asg, rest. auto.
  - intros E. destruct S as [(o' & E' & _)|[[E' H]|[E' _]]]; rewrite E' in E; try discriminate E. exists asg, rest. auto.
  - intros E. destruct S as [(o' & E' & _)|[[E' _]|[E' H]]]; rewrite E' in E; try discriminate E. exists asg, rest. auto.
  - intros o E. destruct S' as [(o' & E' & H)|[[E' _]|[E' _]]]; rewrite E' in E; try discriminate E. apply PI in E. subst o'. exists asg', rest'. auto.
  - intros E. destruct S' as [(o' & E' & _)|[[E' H]|[E' _]]]; rewrite E' in E; try discriminate E. exists asg', rest'. auto.
  - intros E. destruct S' as [(o' & E' & _)|[[E' _]|[E' H]]]; rewrite E' in E; try discriminate E. exists asg', rest'. auto.
Qed.

(** ** Inputs *)
Lemma input_given fs name c : input_of fs name = Some c <-> given fs name c.
Proof.
  unfold input_of, given. destruct (bytes_eqb name (str "-")) eqn:E.
  - apply bytes_eqb_eq in E. subst name. split; [intros H; apply Some_inj in H; auto|]. intros [[_ ->]|[N _]]; [reflexivity|contradiction N; reflexivity].
  - assert (N : name <> str "-") by (intros ->; rewrite bytes_eqb_refl in E; discriminate E). split; [auto|]. intros [[H _]|[_ H]]; [contradiction|exact H].
Qed.
Ltac by_input L := intros; repeat match goal with H : given _ _ _ |- _ => apply input_given in H end; eapply L; eassumption.
