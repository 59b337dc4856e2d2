(** * Proofs about the coded scanner: it yields the lines of its input. *)
From Verif Require Import Base BaseProofs Common Oprf Server Client KV Scanner Demo ScanCode SpecDemo SpecScan IngestProofs.
From Coq Require Import Lia Arith.

(** ** Lines of an input, one at a time *)
Lemma scan_lines_step l r : no_lf l -> (length l < N.to_nat maxTokenSize)%nat ->
  scan_lines (l ++ Byte.x0a :: r) = drop_cr l :: scan_lines r.
Proof.
  intros N L. unfold scan_lines. rewrite split_lf_line by exact N. destruct (split_lf r) as [ls t]. cbn [fst snd scan_complete].
  assert (F : fits l = true) by (unfold fits; apply N.ltb_lt; lia). rewrite F. reflexivity.
Qed.

Lemma scan_lines_last l : no_lf l -> l <> [] -> (length l < N.to_nat maxTokenSize)%nat -> scan_lines l = [drop_cr l].
Proof.
  intros N E L. unfold scan_lines. rewrite split_lf_last by exact N. cbn [scan_complete].
  assert (F : fits l = true) by (unfold fits; apply N.ltb_lt; lia). rewrite F. destruct l; [contradiction|reflexivity].
Qed.

Lemma scan_lines_long l r : no_lf l -> (N.to_nat maxTokenSize <= length l)%nat -> scan_lines (l ++ r) = [].
Proof.
  intros N L. apply (scan_overlong [] l r); [constructor|constructor|exact N|]. unfold blen, maxTokenSize in *. lia.
Qed.

Lemma index_lf_some data i : index_lf data = Some i ->
  exists l r, data = l ++ Byte.x0a :: r /\ no_lf l /\ length l = i.
Proof.
  revert i. induction data as [|c r IH]; intros i H; [discriminate|]. cbn [index_lf] in H. destruct (beqb c Byte.x0a) eqn:B.
  - apply beqb_eq in B. subst c. exists [], r. apply Some_inj in H. subst i. split; [reflexivity|]. split; [intros []|reflexivity].
  - destruct (index_lf r) as [j|]; [|discriminate]. apply Some_inj in H. subst i.
    destruct (IH j eq_refl) as (l & r' & -> & N & <-). exists (c :: l), r'. split; [reflexivity|].
    split; [|reflexivity]. apply beqb_neq in B. intros [K|K]; [congruence|contradiction].
Qed.

Lemma index_lf_none data : index_lf data = None -> no_lf data.
Proof.
  induction data as [|c r IH]; intros H; [intros []|]. cbn [index_lf] in H. destruct (beqb c Byte.x0a) eqn:B; [discriminate|].
  destruct (index_lf r); [discriminate|]. apply beqb_neq in B. intros [K|K]; [congruence|]. exact (IH eq_refl K).
Qed.

(** ** The state of the scanner *)
Definition sc_ok (s : scanner) : Prop :=
  (sc_start s <= sc_end s)%nat /\ (sc_end s <= length (sc_buf s))%nat /\ (length (sc_buf s) <= N.to_nat maxTokenSize)%nat.

Lemma sc_data_length s : sc_ok s -> length (sc_data s) = (sc_end s - sc_start s)%nat.
Proof. intros (A & B & _). unfold sc_data. rewrite firstn_length, skipn_length. lia. Qed.

Lemma over_length dst src : (length src <= length dst)%nat -> length (over dst src) = length dst.
Proof. intros H. unfold over. rewrite app_length, skipn_length. lia. Qed.

Lemma over_firstn dst src : firstn (length src) (over dst src) = src.
Proof. unfold over. rewrite firstn_app, Nat.sub_diag, firstn_all. apply app_nil_r. Qed.

Lemma sc_shift_ok s : sc_ok s ->
  sc_ok (sc_shift s) /\ sc_data (sc_shift s) = sc_data s /\ sc_err (sc_shift s) = sc_err s /\ sc_reader (sc_shift s) = sc_reader s
  /\ length (sc_buf (sc_shift s)) = length (sc_buf s)
  /\ (sc_end (sc_shift s) = length (sc_buf (sc_shift s)) -> sc_start (sc_shift s) = 0%nat).
Proof.
  intros K. pose proof (sc_data_length s K) as D. destruct K as (A & B & C). unfold sc_shift.
  destruct (_ && _) eqn:E.
  - assert (L : length (over (sc_buf s) (sc_data s)) = length (sc_buf s)) by (apply over_length; lia).
    unfold sc_ok, sc_data. cbn [sc_start sc_end sc_buf sc_err sc_reader]. cbn [skipn]. rewrite Nat.sub_0_r.
    fold (sc_data s). split; [split; [lia|]; split; [eapply Nat.le_trans; [|rewrite L; reflexivity]; lia|rewrite L; exact C]|].
    split; [|split; [reflexivity|split; [reflexivity|split; [exact L|reflexivity]]]].
    rewrite <- D. exact (over_firstn (sc_buf s) (sc_data s)).
  - split; [unfold sc_ok; lia|]. do 4 (split; [reflexivity|]). intros F. rewrite F, Nat.eqb_refl in E. cbn [orb] in E.
    rewrite andb_true_r in E. apply Nat.ltb_ge in E. lia.
Qed.

Lemma sc_grow_ok s s' : sc_ok s -> sc_grow s = Some s' ->
  sc_ok s' /\ sc_data s' = sc_data s /\ sc_err s' = sc_err s /\ sc_reader s' = sc_reader s
  /\ (sc_end s' < length (sc_buf s'))%nat.
Proof.
  intros K H. pose proof (sc_data_length s K) as D. destruct K as (A & B & C). unfold sc_grow in H.
  destruct (sc_end s =? length (sc_buf s))%nat eqn:E.
  - destruct (_ <=? _)%nat eqn:M; [discriminate|]. apply Nat.leb_gt in M. apply Some_inj in H. apply Nat.eqb_eq in E.
    match type of H with context [zeros ?k] => set (n := k) in * end.
    assert (N1 : (length (sc_buf s) < n)%nat).
    { unfold n. destruct (length (sc_buf s) * 2)%nat eqn:Z; unfold startBufSize in *; lia. }
    assert (N2 : (n <= N.to_nat maxTokenSize)%nat) by (unfold n; lia).
    assert (L : length (over (zeros n) (sc_data s)) = n).
    { rewrite over_length; unfold zeros; rewrite repeat_length; lia. }
    subst s'. unfold sc_ok, sc_data. cbn [sc_start sc_end sc_buf sc_err sc_reader]. cbn [skipn]. rewrite Nat.sub_0_r.
    fold (sc_data s). split; [split; [lia|]; split; [rewrite L; lia|rewrite L; exact N2]|].
    split; [|split; [reflexivity|split; [reflexivity|rewrite L; lia]]].
    rewrite <- D. exact (over_firstn (zeros n) (sc_data s)).
  - apply Some_inj in H. subst s'. apply Nat.eqb_neq in E. split; [unfold sc_ok; lia|]. do 3 (split; [reflexivity|]). lia.
Qed.

Lemma sc_grow_none s : sc_ok s -> sc_grow s = None -> sc_end s = length (sc_buf s) /\ length (sc_buf s) = N.to_nat maxTokenSize.
Proof.
  intros (A & B & C) H. unfold sc_grow in H. destruct (sc_end s =? length (sc_buf s))%nat eqn:E; [|discriminate].
  destruct (_ <=? _)%nat eqn:M; [|discriminate]. apply Nat.leb_le in M. apply Nat.eqb_eq in E. lia.
Qed.

(** ** Reading *)
Lemma no_stall_suffix (a b : list nat) : no_stall (a ++ b) -> no_stall b.
Proof. intros N (x & y & ->). apply N. exists (a ++ x), y. rewrite app_assoc. reflexivity. Qed.

(** Appending [d] at the end of the data. *)
Lemma sc_fill (buf : bytes) (st en : nat) (d : bytes) : (st <= en)%nat -> (en + length d <= length buf)%nat ->
  length (firstn en buf ++ d ++ skipn (en + length d) buf) = length buf /\
  firstn (en + length d - st) (skipn st (firstn en buf ++ d ++ skipn (en + length d) buf))
  = firstn (en - st) (skipn st buf) ++ d.
Proof.
  intros A B. split.
  - rewrite !app_length, firstn_length, skipn_length. lia.
  - assert (L : length (firstn en buf) = en) by (rewrite firstn_length; lia).
    rewrite skipn_app, L. replace (st - en)%nat with 0%nat by lia. cbn [skipn].
    rewrite app_assoc. rewrite firstn_app_exact.
    + f_equal. rewrite skipn_firstn_comm. reflexivity.
    + rewrite app_length, skipn_length, L. lia.
Qed.

(** What a read does: some more bytes of the file, or an error. *)
Definition read_more (loop : nat) (s s' : scanner) : Prop :=
  sc_ok s' /\
  ((sc_err s' = None /\ exists d a, d <> [] /\ r_rest (sc_reader s) = d ++ r_rest (sc_reader s')
      /\ sc_data s' = sc_data s ++ d /\ r_sizes (sc_reader s) = a ++ r_sizes (sc_reader s'))
   \/ (sc_err s' <> None /\ sc_data s' = sc_data s /\
       (r_rest (sc_reader s) = [] \/ exists b, r_sizes (sc_reader s) = repeat 0%nat (S loop) ++ b))).

Lemma sc_read_ok loop s : sc_ok s -> sc_err s = None -> (sc_end s < length (sc_buf s))%nat ->
  read_more loop s (sc_read loop s).
Proof.
  revert s. induction loop as [|loop IH]; intros s K E L; pose proof K as K0; destruct K0 as (A & B & C).
  all: destruct s as [buf st en err [rest sizes rerr]]; cbn [sc_err] in E; subst err; cbn [sc_start sc_end sc_buf] in *.
  all: cbn [sc_read]; unfold file_read; cbn [sc_reader r_rest r_sizes r_err sc_start sc_end sc_buf sc_err].
  all: destruct rest as [|x rest].
  1,3: unfold read_more; destruct (sc_fill buf st en [] A ltac:(cbn [length]; lia)) as [F1 F2];
       split; [unfold sc_ok; cbn [sc_start sc_end sc_buf]; rewrite F1; cbn [length]; lia|];
       right; split; [cbn; discriminate|]; split; [|left; reflexivity];
       unfold sc_data; cbn [sc_start sc_end sc_buf]; rewrite F2; apply app_nil_r.
  all: set (R := x :: rest) in *.
  all: assert (G : forall n more d a, d = firstn n R -> d <> [] -> (n <= length buf - en)%nat -> sizes = a ++ more ->
    read_more 0 (mkScanner buf st en None (mkReader R sizes rerr))
     (mkScanner (firstn en buf ++ d ++ skipn (en + length d) buf) st (en + length d) None (mkReader (skipn n R) more rerr))).
  1,3: intros n more d a Hd Nd Hn Hs; assert (Ld : (length d <= n)%nat) by (rewrite Hd; apply firstn_le_length);
       destruct (sc_fill buf st en d A ltac:(lia)) as [F1 F2];
       split; [unfold sc_ok; cbn [sc_start sc_end sc_buf]; rewrite F1; lia|];
       left; split; [reflexivity|]; exists d, a; split; [exact Nd|]; cbn [sc_reader r_rest r_sizes];
       split; [rewrite Hd; symmetry; apply firstn_skipn|]; split; [|exact Hs]; unfold sc_data; cbn [sc_start sc_end sc_buf]; exact F2.
  all: assert (W : forall n s s', read_more 0 s s' -> sc_err s' = None -> read_more n s s')
    by (intros n s s' [W1 [W2|[W2 _]]] W3; [split; [exact W1|left; exact W2]|congruence]).
  - destruct sizes as [|n more].
    + destruct (firstn (length buf - en) R) as [|y d] eqn:D.
      { exfalso. unfold R in D. destruct (length buf - en)%nat eqn:Z; [lia|discriminate]. }
      apply (G (length buf - en)%nat [] (y :: d) []); [symmetry; exact D|discriminate|lia|reflexivity].
    + destruct (firstn (Nat.min n (length buf - en)) R) as [|y d] eqn:D.
      * unfold read_more. destruct (sc_fill buf st en [] A ltac:(cbn [length]; lia)) as [F1 F2].
        cbn [sc_start sc_end sc_buf]. split; [unfold sc_ok; cbn [sc_start sc_end sc_buf]; rewrite F1; cbn [length]; lia|].
        right. split; [cbn; discriminate|]. split; [unfold sc_data; cbn [sc_start sc_end sc_buf]; rewrite F2; apply app_nil_r|].
        right. exists more. cbn [sc_reader r_sizes repeat app]. f_equal. unfold R in D.
        destruct n; [reflexivity|]. destruct (length buf - en)%nat eqn:Z; [lia|discriminate].
      * apply (G (Nat.min n (length buf - en))%nat more (y :: d) [n]); [symmetry; exact D|discriminate|lia|reflexivity].
  - destruct sizes as [|n more].
    + destruct (firstn (length buf - en) R) as [|y d] eqn:D.
      { exfalso. unfold R in D. destruct (length buf - en)%nat eqn:Z; [lia|discriminate]. }
      apply W; [|reflexivity]. apply (G (length buf - en)%nat [] (y :: d) []); [symmetry; exact D|discriminate|lia|reflexivity].
    + destruct (firstn (Nat.min n (length buf - en)) R) as [|y d] eqn:D.
      * assert (n = 0%nat). { unfold R in D. destruct n; [reflexivity|]. destruct (length buf - en)%nat eqn:Z; [lia|discriminate]. }
        subst n. cbn [Nat.min skipn]. clear G D.
        destruct (sc_fill buf st en [] A ltac:(cbn [length]; lia)) as [F1 F2].
        set (buf' := firstn en buf ++ [] ++ skipn (en + length (@nil byte)) buf) in *.
        assert (Q : read_more loop (mkScanner buf' st (en + length (@nil byte)) None (mkReader R more rerr))
                      (sc_read loop (mkScanner buf' st (en + length (@nil byte)) None (mkReader R more rerr)))).
        { apply IH; [|reflexivity|]; unfold sc_ok; cbn [sc_start sc_end sc_buf length]; [rewrite F1|rewrite F1]; lia. }
        assert (DD : sc_data (mkScanner buf' st (en + length (@nil byte)) None (mkReader R more rerr))
                     = sc_data (mkScanner buf st en None (mkReader R (0%nat :: more) rerr))).
        { unfold sc_data. cbn [sc_start sc_end sc_buf]. rewrite F2. apply app_nil_r. }
        destruct Q as [Q1 [(Q2 & d & a & Q3 & Q4 & Q5 & Q6)|(Q2 & Q3 & Q4)]]; split; try exact Q1.
        -- left. split; [exact Q2|]. exists d, (0%nat :: a). split; [exact Q3|]. split; [exact Q4|].
           split; [rewrite Q5, DD; reflexivity|]. exact (f_equal (cons 0%nat) Q6).
        -- right. split; [exact Q2|]. split; [rewrite Q3; exact DD|]. destruct Q4 as [Q4|(b & Q4)]; [left; exact Q4|].
           right. exists b. exact (f_equal (cons 0%nat) Q4).
      * apply W; [|reflexivity].
        apply (G (Nat.min n (length buf - en))%nat more (y :: d) [n]); [symmetry; exact D|discriminate|lia|reflexivity].
Qed.

(** ** The loop *)
Lemma sc_data_skip s n : sc_ok s -> sc_data (mkScanner (sc_buf s) (sc_start s + n) (sc_end s) (sc_err s) (sc_reader s)) = skipn n (sc_data s).
Proof.
  intros (A & B & C). unfold sc_data. cbn [sc_start sc_end sc_buf].
  rewrite skipn_firstn_comm, skipn_skipn'. f_equal. lia.
Qed.

Lemma ScanLines_some data eof : data <> [] ->
  ScanLines data eof = match index_lf data with
                       | Some i => (S i, Some (drop_cr (firstn i data)))
                       | None => if eof then (length data, Some (drop_cr data)) else (0%nat, None)
                       end.
Proof. destruct data; [contradiction|reflexivity]. Qed.

(** After the last read: the lines of what is in the buffer. *)
Lemma scan_loop_end s m : sc_ok s -> sc_err s = Some m -> (length (sc_data s) < N.to_nat maxTokenSize)%nat ->
  forall f, (length (sc_data s) < f)%nat -> scan_loop f s = Some (scan_lines (sc_data s)).
Proof.
  intros K E L f. revert s m K E L. induction f as [|f IH]; intros s m K E L F; [lia|].
  cbn [scan_loop]. unfold sc_round. rewrite E, orb_true_r.
  destruct (sc_data s) as [|x d] eqn:D; [reflexivity|]. rewrite ScanLines_some by discriminate. rewrite <- D in *.
  pose proof (sc_data_length s K) as DL.
  destruct (index_lf (sc_data s)) as [i|] eqn:I.
  - apply index_lf_some in I as (l & r & Ed & N & Li).
    assert (LL : (length l + S (length r) = length (sc_data s))%nat) by (rewrite Ed, app_length; reflexivity).
    assert (SD := sc_data_skip s (S i) K). rewrite E in SD.
    assert (Er : skipn (S i) (sc_data s) = r).
    { rewrite Ed. change (l ++ Byte.x0a :: r) with (l ++ [Byte.x0a] ++ r). rewrite app_assoc. apply skipn_app_exact.
      rewrite app_length. cbn. lia. }
    assert (El : firstn i (sc_data s) = l) by (rewrite Ed; apply firstn_app_exact; exact Li).
    rewrite (IH _ m).
    + rewrite SD, Er, El, Ed, scan_lines_step; [reflexivity|exact N|lia].
    + destruct K as (A & B & C). unfold sc_ok. cbn [sc_start sc_end sc_buf]. lia.
    + reflexivity.
    + rewrite SD, Er. lia.
    + rewrite SD, Er. lia.
  - apply index_lf_none in I. assert (SD := sc_data_skip s (length (sc_data s)) K). rewrite skipn_all, E in SD.
    rewrite (IH _ m).
    + rewrite SD, (scan_lines_last (sc_data s)); [reflexivity|exact I|rewrite D; discriminate|exact L].
    + destruct K as (A & B & C). unfold sc_ok. cbn [sc_start sc_end sc_buf]. lia.
    + reflexivity.
    + rewrite SD. cbn. lia.
    + rewrite SD. rewrite D in F. cbn in *. lia.
Qed.

(** Before: the lines of what is in the buffer and of what will be read. *)
Lemma scan_loop_ok m : forall s, sc_ok s -> sc_err s = None ->
  (2 * length (r_rest (sc_reader s)) + length (sc_data s) <= m)%nat ->
  exists f0 d r, r_rest (sc_reader s) = d ++ r
    /\ (forall f, (f0 <= f)%nat -> scan_loop f s = Some (scan_lines (sc_data s ++ d)))
    /\ (no_stall (r_sizes (sc_reader s)) -> r = []).
Proof.
  induction m as [m IH] using lt_wf_ind. intros s K E M. pose proof (sc_data_length s K) as DL.
  destruct (index_lf (sc_data s)) as [i|] eqn:I.
  - (* a whole line is in the buffer *)
    apply index_lf_some in I as (l & r & Ed & N & Li).
    assert (LL : (length l + S (length r) = length (sc_data s))%nat) by (rewrite Ed, app_length; reflexivity).
    assert (SD := sc_data_skip s (S i) K).
    assert (Er : skipn (S i) (sc_data s) = r).
    { rewrite Ed. change (l ++ Byte.x0a :: r) with (l ++ [Byte.x0a] ++ r). rewrite app_assoc. apply skipn_app_exact.
      rewrite app_length. cbn. lia. }
    assert (El : firstn i (sc_data s) = l) by (rewrite Ed; apply firstn_app_exact; exact Li).
    set (s1 := mkScanner (sc_buf s) (sc_start s + S i) (sc_end s) (sc_err s) (sc_reader s)) in *.
    assert (K1 : sc_ok s1) by (destruct K as (A & B & C); unfold sc_ok; cbn [s1 sc_start sc_end sc_buf]; lia).
    destruct (IH (2 * length (r_rest (sc_reader s1)) + length (sc_data s1))%nat) with (s := s1) as (f0 & d & t & R1 & R2 & R3);
      [rewrite SD, Er; cbn [s1 sc_reader]; lia|exact K1|exact E|lia|].
    exists (S f0), d, t. split; [exact R1|]. split; [|exact R3]. intros f F. destruct f as [|f]; [lia|].
    cbn [scan_loop]. unfold sc_round. replace (sc_start s <? sc_end s)%nat with true by (symmetry; apply Nat.ltb_lt; lia).
    cbn [orb]. rewrite ScanLines_some by (rewrite Ed; destruct l; discriminate).
    assert (II : index_lf (sc_data s) = Some i).
    { rewrite Ed, <- Li. clear - N. induction l as [|c l IH]; cbn [app index_lf length].
      - rewrite beqb_refl. reflexivity.
      - rewrite (proj2 (beqb_neq c Byte.x0a)) by (intros ->; apply N; left; reflexivity).
        rewrite IH by (intros J; apply N; right; exact J). reflexivity. }
    rewrite II. fold s1. rewrite R2 by lia. rewrite El, SD, Er, Ed, <- app_assoc. cbn [app].
    rewrite scan_lines_step; [reflexivity|exact N|]. destruct K as (A & B & C). lia.
  - (* no line end: read more *)
    pose proof (index_lf_none _ I) as N.
    assert (RD : forall f, scan_loop (S f) s =
       match sc_grow (sc_shift s) with None => Some [] | Some s' => scan_loop f (sc_read 100 s') end).
    { intros f. cbn [scan_loop]. unfold sc_round. rewrite E.
      assert (T : (if (sc_start s <? sc_end s)%nat || false then ScanLines (sc_data s) false else (0%nat, None)) = (0%nat, None)).
      { rewrite orb_false_r. destruct (sc_start s <? sc_end s)%nat eqn:Z; [|reflexivity]. apply Nat.ltb_lt in Z.
        rewrite ScanLines_some by (intros J; rewrite J in DL; cbn in DL; lia). rewrite I. reflexivity. }
      rewrite T. cbn [sc_err]. rewrite Nat.add_0_r.
      replace (mkScanner (sc_buf s) (sc_start s) (sc_end s) None (sc_reader s)) with s by (destruct s; cbn in *; congruence).
      destruct (sc_grow (sc_shift s)); reflexivity. }
    destruct (sc_shift_ok s K) as (K1 & D1 & E1 & R1 & L1 & S1).
    destruct (sc_grow (sc_shift s)) as [s2|] eqn:G.
    + destruct (sc_grow_ok _ _ K1 G) as (K2 & D2 & E2 & R2 & L2).
      pose proof (sc_read_ok 100 s2 K2 ltac:(congruence) L2) as (K3 & Q).
      assert (R02 : sc_reader s2 = sc_reader s) by congruence. rewrite R02 in Q.
      assert (D02 : sc_data s2 = sc_data s) by congruence. rewrite D02 in Q.
      destruct Q as [(Q1 & d & a & Q2 & Q3 & Q4 & Q5)|(Q1 & Q2 & Q3)].
      * assert (QL : length (r_rest (sc_reader s)) = (length d + length (r_rest (sc_reader (sc_read 100 s2))))%nat)
          by (rewrite Q3, app_length; reflexivity).
        assert (QD : length (sc_data (sc_read 100 s2)) = (length (sc_data s) + length d)%nat) by (rewrite Q4, app_length; reflexivity).
        assert (Dp : (0 < length d)%nat) by (destruct d; [contradiction|cbn; lia]).
        destruct (IH (2 * length (r_rest (sc_reader (sc_read 100 s2))) + length (sc_data (sc_read 100 s2)))%nat)
          with (s := sc_read 100 s2) as (f0 & d' & t & T1 & T2 & T3); [lia|exact K3|exact Q1|lia|].
        exists (S f0), (d ++ d'), t. split; [rewrite Q3, T1, app_assoc; reflexivity|]. split.
        -- intros f F. destruct f as [|f]; [lia|]. rewrite RD, T2 by lia. rewrite Q4, app_assoc. reflexivity.
        -- intros NS. apply T3. rewrite Q5 in NS. exact (no_stall_suffix _ _ NS).
      * assert (LD : (length (sc_data s) < N.to_nat maxTokenSize)%nat).
        { rewrite <- D02, (sc_data_length s2 K2). destruct K2 as (A & B & C). lia. }
        exists (S (S (length (sc_data s)))), [], (r_rest (sc_reader s)). split; [reflexivity|]. split.
        -- intros f F. destruct f as [|f]; [lia|]. rewrite RD. destruct (sc_err (sc_read 100 s2)) as [e|] eqn:EE; [|contradiction].
           rewrite (scan_loop_end _ e K3 EE); rewrite Q2; [rewrite app_nil_r; reflexivity|exact LD|lia].
        -- intros NS. destruct Q3 as [Q3|(b & Q3)]; [exact Q3|]. exfalso. apply NS. exists [], b. exact Q3.
    + destruct (sc_grow_none _ K1 G) as [G1 G2].
      exists 1%nat, (r_rest (sc_reader s)), []. split; [symmetry; apply app_nil_r|]. split; [|reflexivity].
      intros f F. destruct f as [|f]; [lia|]. rewrite RD. rewrite scan_lines_long; [reflexivity|exact N|].
      rewrite <- D1, (sc_data_length _ K1), (S1 G1), G1, G2. lia.
Qed.

Lemma scanner_ok (r : reader) : exists f0 d t, r_rest r = d ++ t
  /\ (forall f, (f0 <= f)%nat -> scan_loop f (NewScanner r) = Some (scan_lines d))
  /\ (no_stall (r_sizes r) -> t = []).
Proof.
  destruct (scan_loop_ok (2 * length (r_rest r))%nat (NewScanner r)) as (f0 & d & t & H);
    [unfold sc_ok; cbn; lia|reflexivity|cbn; lia|]. exists f0, d, t. exact H.
Qed.

(** ** The programs' loops *)
Lemma ingest_loop_ok {LIB} (s : Server LIB) metadata n incl f : forall sc ts, scan_loop f sc = Some ts ->
  forall st, ingest_loop f s metadata n incl st sc = Some (ingest_lines s metadata n incl st ts).
Proof.
  induction f as [|f IH]; intros sc ts H st; [discriminate|]. cbn [scan_loop ingest_loop] in *.
  destruct (sc_round sc) as [t sc'| |sc'].
  - destruct (scan_loop f sc') as [ts'|] eqn:E; [|discriminate]. apply Some_inj in H. subst ts. cbn [ingest_lines bind].
    destruct (ingest_line s metadata n incl st t) as [st'|e|m]; cbn [bind]; [|reflexivity|reflexivity]. apply IH, E.
  - apply Some_inj in H. subst ts. reflexivity.
  - apply IH, H.
Qed.

Lemma client_loop_ok query show f : forall sc ts, scan_loop f sc = Some ts ->
  forall i, client_loop f query show i sc = Some (client_lines query show i ts).
Proof.
  induction f as [|f IH]; intros sc ts H i; [discriminate|]. cbn [scan_loop client_loop] in *.
  destruct (sc_round sc) as [t sc'| |sc'].
  - destruct (scan_loop f sc') as [ts'|] eqn:E; [|discriminate]. apply Some_inj in H. subst ts. cbn [client_lines].
    destruct (split_colon t) as [[u p]|]; [|apply IH, E].
    destruct (query i u p) as [[st m]|e|m]; [|reflexivity|reflexivity]. rewrite (IH _ _ E). reflexivity.
  - apply Some_inj in H. subst ts. reflexivity.
  - apply IH, H.
Qed.

(** ** No reading ahead *)
Lemma sc_round_token s t s' : sc_ok s -> sc_err s = None -> sc_round s = RToken t s' ->
  sc_ok s' /\ sc_err s' = None /\ sc_reader s' = sc_reader s
  /\ exists l, no_lf l /\ t = drop_cr l /\ sc_data s = l ++ Byte.x0a :: sc_data s'.
Proof.
  intros K E H. unfold sc_round in H. rewrite E, orb_false_r in H. pose proof (sc_data_length s K) as DL.
  destruct (sc_start s <? sc_end s)%nat eqn:Z; cycle 1.
  { cbn [sc_err] in H. destruct (sc_grow _) in H; discriminate. }
  apply Nat.ltb_lt in Z. rewrite ScanLines_some in H by (intros J; rewrite J in DL; cbn in DL; lia).
  destruct (index_lf (sc_data s)) as [i|] eqn:I; cycle 1.
  { cbn [sc_err] in H. destruct (sc_grow _) in H; discriminate. }
  injection H as <- <-. apply index_lf_some in I as (l & r & Ed & N & Li).
  assert (SD := sc_data_skip s (S i) K). rewrite E in SD.
  assert (LL : (length l + S (length r) = length (sc_data s))%nat) by (rewrite Ed, app_length; reflexivity).
  split; [destruct K as (A & B & C); unfold sc_ok; cbn [sc_start sc_end sc_buf]; lia|]. split; [reflexivity|]. split; [reflexivity|].
  exists l. split; [exact N|]. split; [rewrite Ed; f_equal; apply firstn_app_exact; exact Li|].
  rewrite SD. rewrite Ed at 2. change (l ++ Byte.x0a :: r) with (l ++ [Byte.x0a] ++ r).
  rewrite (app_assoc l), skipn_app_exact; [rewrite Ed; reflexivity|rewrite app_length; cbn; lia].
Qed.

Lemma RAgain_inj a b : RAgain a = RAgain b -> a = b.
Proof. intros H. exact (f_equal (fun r => match r with RAgain x => x | _ => a end) H). Qed.

Lemma sc_round_again s s' : sc_ok s -> sc_err s = None -> sc_round s = RAgain s' ->
  no_lf (sc_data s) /\ sc_ok s' /\
  (sc_err s' = None -> exists d, r_rest (sc_reader s) = d ++ r_rest (sc_reader s') /\ sc_data s' = sc_data s ++ d).
Proof.
  intros K E H. unfold sc_round in H. rewrite E, orb_false_r in H. pose proof (sc_data_length s K) as DL.
  assert (T : (if (sc_start s <? sc_end s)%nat then ScanLines (sc_data s) false else (0%nat, None)) = (0%nat, None) /\ no_lf (sc_data s)).
  { destruct (sc_start s <? sc_end s)%nat eqn:Z.
    - apply Nat.ltb_lt in Z. rewrite ScanLines_some in H |- * by (intros J; rewrite J in DL; cbn in DL; lia).
      destruct (index_lf (sc_data s)) as [i|] eqn:I; [discriminate|]. split; [reflexivity|]. exact (index_lf_none _ I).
    - split; [reflexivity|]. apply Nat.ltb_ge in Z. destruct (sc_data s); [intros []|cbn in DL; lia]. }
  destruct T as [T N]. rewrite T in H. cbn [sc_err] in H. rewrite Nat.add_0_r in H.
  assert (Es : mkScanner (sc_buf s) (sc_start s) (sc_end s) None (sc_reader s) = s) by (clear - E; destruct s; cbn in *; congruence).
  rewrite Es in H. clear Es. split; [exact N|].
  destruct (sc_shift_ok s K) as (K1 & D1 & E1 & R1 & L1 & S1). destruct (sc_grow (sc_shift s)) as [s2|] eqn:G; [|discriminate].
  destruct (sc_grow_ok _ _ K1 G) as (K2 & D2 & E2 & R2 & L2). apply RAgain_inj in H. subst s'.
  pose proof (sc_read_ok 100 s2 K2 ltac:(congruence) L2) as (K3 & Q).
  split; [exact K3|]. intros E3. destruct Q as [(Q1 & d & a & Q2 & Q3 & Q4 & Q5)|(Q1 & _)]; [|contradiction].
  exists d. rewrite <- R1, <- R2, <- D1, <- D2. split; assumption.
Qed.

Lemma sc_steps_reads s ts s' : sc_steps s ts s' -> sc_ok s -> sc_err s = None -> sc_err s' = None ->
  sc_ok s' /\ exists ls d, Forall no_lf ls /\ ts = map drop_cr ls
    /\ r_rest (sc_reader s) = d ++ r_rest (sc_reader s') /\ sc_data s ++ d = text ls (sc_data s').
Proof.
  intros H. induction H as [s|s s1 s' t ts H1 H IH|s s1 s' ts H1 H IH]; intros K E E'.
  - split; [exact K|]. exists [], []. split; [constructor|]. split; [reflexivity|]. split; [reflexivity|]. apply app_nil_r.
  - destruct (sc_round_token _ _ _ K E H1) as (K1 & E1 & R1 & l & N & -> & D).
    destruct (IH K1 E1 E') as (K' & ls & d & F & -> & R & T). split; [exact K'|]. exists (l :: ls), d.
    split; [constructor; assumption|]. split; [reflexivity|]. split; [rewrite <- R1; exact R|].
    rewrite D, <- app_assoc. cbn [app]. rewrite T. unfold text. cbn [flat_map]. rewrite <- !app_assoc. reflexivity.
  - destruct (sc_round_again _ _ K E H1) as (N & K1 & D).
    assert (E1 : sc_err s1 = None).
    { destruct (sc_err s1) as [e|] eqn:EE; [|reflexivity]. exfalso. clear - H EE E'.
      induction H as [s|s s1 s' t ts H1 H IH|s s1 s' ts H1 H IH]; [congruence| |].
      - apply IH; [|exact E']. unfold sc_round in H1. rewrite EE in H1.
        match type of H1 with context [if ?b then _ else _] => destruct (if b then ScanLines (sc_data s) true else (0%nat, None)) as [n [t'|]] end;
          [|discriminate]. injection H1 as _ <-. reflexivity.
      - unfold sc_round in H1. rewrite EE in H1.
        match type of H1 with context [if ?b then _ else _] => destruct (if b then ScanLines (sc_data s) true else (0%nat, None)) as [n [t'|]] end;
          discriminate. }
    destruct (D E1) as (d1 & R1 & D1). destruct (IH K1 E1 E') as (K' & ls & d & F & -> & R & T).
    split; [exact K'|]. exists ls, (d1 ++ d). split; [exact F|]. split; [reflexivity|]. split; [rewrite R1, R, app_assoc; reflexivity|].
    rewrite app_assoc, <- D1. exact T.
Qed.

Lemma no_reading_ahead r ts s s' : sc_steps (NewScanner r) ts s -> sc_err s = None -> sc_round s = RAgain s' ->
  exists ls last, Forall no_lf ls /\ no_lf last /\ r_rest r = text ls last ++ r_rest (sc_reader s) /\ ts = map drop_cr ls.
Proof.
  intros H E R. destruct (sc_steps_reads _ _ _ H) as (K & ls & d & F & -> & P & T); [unfold sc_ok; cbn; lia|reflexivity|exact E|].
  destruct (sc_round_again _ _ K E R) as (N & _). cbn [NewScanner sc_data] in T.
  exists ls, (sc_data s). split; [exact F|]. split; [exact N|]. split; [|reflexivity]. cbn [NewScanner sc_reader] in P.
  rewrite P. f_equal. exact T.
Qed.
