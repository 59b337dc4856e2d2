From Coq Require Import Lia.
From Verif Require Import Base BaseProofs Common Oprf Server Client KV Json ConfigJson Scanner Demo ReadBody SpecRead.

Lemma pieces_S s n : first_pieces s (S n) = first_pieces s n ++ a_data (s n).
Proof. unfold first_pieces. rewrite seq_S, map_app, concat_app. cbn. rewrite app_nil_r. reflexivity. Qed.

Section Grow.
Variable grow : nat -> nat.
Hypothesis G : grows grow.

(** All that has arrived in pieces 0 .. next-1 is in b or left over. *)
Definition rd_inv (s : stream) (st : reading) : Prop :=
  exists n, rd_next st = S n /\ rd_b st ++ a_data (rd_left st) = first_pieces s (S n) /\ a_end (rd_left st) = a_end (s n)
    /\ (forall i, i < n -> a_end (s i) = None) /\ length (rd_b st) <= rd_cap st.
Definition pr_inv (s : stream) (p : progress) : Prop :=
  match p with
  | Reading st => rd_inv s st
  | Done b err => exists n e, ends_at s n e /\ b = first_pieces s (S n) /\ err = read_error e
  end.

Lemma init_inv s : rd_inv s (mkReading 1 (s 0) [] 512).
Proof. exists 0. cbn. rewrite app_nil_r. repeat split; [intros i L; lia|lia]. Qed.

Definition room (st : reading) : nat := (if length (rd_b st) =? rd_cap st then grow (rd_cap st) else rd_cap st) - length (rd_b st).
Lemma room_pos s st : rd_inv s st -> 0 < room st.
Proof. intros (n & _ & _ & _ & _ & L). unfold room. destruct (Nat.eqb_spec (length (rd_b st)) (rd_cap st)) as [->|]; [pose proof (G (rd_cap st))|]; lia. Qed.

Lemma round_cases s st : rd_inv s st ->
  (* the piece is finished *)
  (length (a_data (rd_left st)) <= room st
    /\ match a_end (rd_left st) with
       | Some e => read_round grow s st = Done (first_pieces s (rd_next st)) (read_error e)
       | None => exists cap, read_round grow s st = Reading (mkReading (S (rd_next st)) (s (rd_next st)) (first_pieces s (rd_next st)) cap)
                   /\ length (first_pieces s (rd_next st)) <= cap
       end)
  \/ (room st < length (a_data (rd_left st)) /\ exists st', read_round grow s st = Reading st' /\ rd_inv s st' /\ rd_next st' = rd_next st
        /\ length (a_data (rd_left st')) = length (a_data (rd_left st)) - room st /\ length (rd_b st') = length (rd_b st) + room st).
Proof.
  intros I. pose proof (room_pos s st I) as R0. destruct I as (n & Hn & Hb & He & Hi & Hc). unfold read_round, body_read.
  fold (room st). rewrite Hn, <- Hb.
  assert (RC : room st + length (rd_b st) = (if length (rd_b st) =? rd_cap st then grow (rd_cap st) else rd_cap st)) by (unfold room in *; lia).
  destruct (Nat.leb_spec (length (a_data (rd_left st))) (room st)) as [L|L]; [left|right].
  - split; [exact L|]. destruct (a_end (rd_left st)) as [[|m]|]; [reflexivity..|]. eexists. split; [reflexivity|]. rewrite app_length. lia.
  - split; [exact L|]. eexists. split; [reflexivity|]. split.
    + exists n. cbn [rd_next rd_b rd_left rd_cap a_data a_end]. rewrite <- app_assoc, firstn_skipn. repeat split; try assumption.
      rewrite app_length, firstn_length. lia.
    + cbn [rd_next rd_b rd_left a_data]. rewrite skipn_length, app_length, firstn_length. split; [reflexivity|]. split; lia.
Qed.

Lemma round_inv s st : rd_inv s st -> pr_inv s (read_round grow s st).
Proof.
  intros I. destruct (round_cases s st I) as [[L C]|[L (st' & -> & I' & _)]]; [|exact I'].
  destruct I as (n & Hn & Hb & He & Hi & Hc). rewrite Hn, He in C. destruct (a_end (s n)) as [e|] eqn:E.
  - rewrite C. exists n, e. repeat split; assumption.
  - destruct C as (cap & -> & Lc). exists (S n). cbn [rd_next rd_b rd_left rd_cap]. repeat split; [symmetry; apply pieces_S| |exact Lc].
    intros i Li. destruct (Nat.eq_dec i n) as [->|N]; [exact E|apply Hi; lia].
Qed.
Lemma step_inv s p : pr_inv s p -> pr_inv s (read_step grow s p).
Proof. destruct p as [st|b e]; [apply round_inv|auto]. Qed.
Lemma rounds_inv s k : forall p, pr_inv s p -> pr_inv s (read_rounds grow k s p).
Proof. induction k as [|k IH]; intros p I; [exact I|apply IH, step_inv, I]. Qed.
Lemma after_inv s k : pr_inv s (read_after grow k s).
Proof. apply rounds_inv. exact (init_inv s). Qed.

Lemma rounds_done s k b e : read_rounds grow k s (Done b e) = Done b e.
Proof. induction k as [|k IH]; [reflexivity|exact IH]. Qed.
Lemma rounds_add s j k : forall p, read_rounds grow (j + k) s p = read_rounds grow k s (read_rounds grow j s p).
Proof. induction j as [|j IH]; intros p; [reflexivity|apply IH]. Qed.

(** From a state in the middle of a piece, the end of the piece is reached. *)
Lemma piece_done s : forall m st, rd_inv s st -> length (a_data (rd_left st)) <= m ->
  exists k, match a_end (rd_left st) with
            | Some e => read_rounds grow k s (Reading st) = Done (first_pieces s (rd_next st)) (read_error e)
            | None => exists cap, read_rounds grow k s (Reading st) = Reading (mkReading (S (rd_next st)) (s (rd_next st)) (first_pieces s (rd_next st)) cap)
                        /\ length (first_pieces s (rd_next st)) <= cap
            end.
Proof.
  induction m as [|m IH]; intros st I L.
  - pose proof (room_pos s st I). destruct (round_cases s st I) as [[_ C]|[X _]]; [|lia]. exists 1. exact C.
  - pose proof (room_pos s st I). destruct (round_cases s st I) as [[_ C]|[X (st' & E & I' & N & L' & _)]]; [exists 1; exact C|].
    destruct (IH st' I') as (k & K); [lia|]. exists (S k). cbn [read_rounds read_step]. rewrite E, <- N.
    assert (EE : a_end (rd_left st') = a_end (rd_left st)).
    { destruct I as (n & Hn & _ & He & _). destruct I' as (n' & Hn' & _ & He' & _). assert (n' = n) as -> by congruence. congruence. }
    rewrite <- EE. exact K.
Qed.

(** Piece [n] is reached unless the body ended before. *)
Lemma piece_reached s n : (forall i, i < n -> a_end (s i) = None) ->
  exists k st, read_after grow k s = Reading st /\ rd_inv s st /\ rd_next st = S n /\ rd_b st = first_pieces s n /\ rd_left st = s n.
Proof.
  induction n as [|n IH]; intros E.
  - exists 0, (mkReading 1 (s 0) [] 512). split; [reflexivity|]. split; [apply init_inv|]. repeat split.
  - destruct IH as (k & st & A & I & N & B & Lf); [intros i L; apply E; lia|].
    destruct (piece_done s _ st I (le_n _)) as (j & J). rewrite Lf, (E n) in J by lia. destruct J as (cap & J & Lc).
    rewrite N in J, Lc. exists (k + j). eexists. split; [|split; [|split; [|split]]].
    + unfold read_after in *. rewrite rounds_add, A. exact J.
    + exists (S n). cbn [rd_next rd_b rd_left rd_cap]. repeat split; [symmetry; apply pieces_S|exact E|exact Lc].
    + reflexivity.
    + reflexivity.
    + reflexivity.
Qed.

Lemma reads_whole s n e : ends_at s n e ->
  exists k0, forall k, k0 <= k -> ReadAll grow k s = Some (first_pieces s (S n), read_error e).
Proof.
  intros [E B]. destruct (piece_reached s n B) as (k & st & A & I & N & _ & Lf).
  destruct (piece_done s _ st I (le_n _)) as (j & J). rewrite Lf, E, N in J. exists (k + j). intros k' L.
  replace k' with (k + j + (k' - (k + j))) by lia. unfold ReadAll, read_after. rewrite !rounds_add. unfold read_after in A. rewrite A, J, rounds_done. reflexivity.
Qed.

Lemma returns_ended s k b err : ReadAll grow k s = Some (b, err) -> exists n e, ends_at s n e /\ b = first_pieces s (S n) /\ err = read_error e.
Proof. unfold ReadAll. pose proof (after_inv s k) as I. destruct (read_after grow k s) as [st|b' e']; [discriminate|]. intros E. injection E as -> ->. exact I. Qed.

Lemma endless_none s k : endless s -> ReadAll grow k s = None.
Proof.
  intros E. destruct (ReadAll grow k s) as [[b err]|] eqn:R; [|reflexivity]. destruct (returns_ended s k b err R) as (n & e & [X _] & _). rewrite E in X. discriminate.
Qed.

Lemma ends_unique s n e n' e' : ends_at s n e -> ends_at s n' e' -> n = n' /\ e = e'.
Proof.
  intros [E B] [E' B']. assert (n = n').
  { destruct (Nat.lt_trichotomy n n') as [L|[L|L]]; [rewrite (B' n L) in E; discriminate|exact L|rewrite (B n' L) in E'; discriminate]. }
  subst n'. split; [reflexivity|congruence].
Qed.
End Grow.

Section Lines.
Lemma lines_read_agree (q : nat -> bytes -> bytes -> res (BreachStatus * gslice)) q' show ls : forall i,
  (forall j u p, i <= j -> q' j u p = Some (q j u p)) ->
  client_lines_read q' show i ls = (cr_stdout (client_lines q show i ls), Some (cr_error (client_lines q show i ls), cr_panic (client_lines q show i ls))).
Proof.
  induction ls as [|l r IH]; intros i H; cbn [client_lines_read client_lines]; [reflexivity|].
  destruct (split_colon l) as [[u p]|]; [|apply IH; exact H]. rewrite (H i u p (le_n _)). destruct (q i u p) as [[st m]|e|m]; [|reflexivity..].
  rewrite (IH (S i)); [reflexivity|]. intros j u' p' L. apply H. lia.
Qed.
Lemma lines_stay (q : nat -> bytes -> bytes -> res (BreachStatus * gslice)) q' show l u p after : split_colon l = Some (u, p) ->
  forall before a, let i := a + length (filter (fun x => match split_colon x with Some _ => true | None => false end) before) in
  q' i u p = None -> (forall j u p, j < i -> q' j u p = Some (q j u p)) ->
  cr_error (client_lines q show a before) = None -> cr_panic (client_lines q show a before) = false ->
  client_lines_read q' show a (before ++ l :: after) = (cr_stdout (client_lines q show a before), None).
Proof.
  intros Sl. induction before as [|x before IH]; intros a i Q H E P; cbn [app client_lines_read client_lines].
  - rewrite Sl. unfold i in Q. cbn [filter length] in Q. rewrite Nat.add_0_r in Q. rewrite Q. reflexivity.
  - cbn [client_lines] in E, P. unfold i in Q, H. cbn [filter] in Q, H. destruct (split_colon x) as [[u' p']|]; [|apply IH; assumption].
    cbn [length] in Q, H. rewrite (H a u' p') by lia. destruct (q a u' p') as [[st m]|e|m]; cbn [cr_error cr_panic] in E, P; [|discriminate..].
    rewrite (IH (S a)); [reflexivity| | |exact E|exact P].
    + rewrite Nat.add_succ_r in Q. exact Q.
    + intros j u0 p0 L. apply H. lia.
Qed.
End Lines.
