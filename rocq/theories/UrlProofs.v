(** * Proofs about paths and URLs. *)
From Verif Require Import Base BaseProofs Url SpecHttp.

Lemma cons_eq {A} (x y : A) l l' : x :: l = y :: l' -> x = y /\ l = l'.
Proof. intros H. injection H. auto. Qed.

Lemma is_slash_true c : is_slash c = true <-> c = slash.
Proof. unfold is_slash. split; [apply Byte.byte_dec_bl|intros ->; reflexivity]. Qed.
Lemma is_slash_false c : is_slash c = false <-> c <> slash.
Proof. rewrite <- is_slash_true. destruct (is_slash c); split; congruence. Qed.
Lemma is_dot_true c : is_dot c = true <-> c = dot.
Proof. unfold is_dot. split; [apply Byte.byte_dec_bl|intros ->; reflexivity]. Qed.

(** The output buffer that holds a walk (innermost first). *)
Fixpoint out_of (stack : list bytes) : bytes :=
  match stack with
  | [] => [slash]
  | s :: st => rev s ++ slash :: match st with [] => [] | _ => out_of st end
  end.
Definition seg_ok (s : bytes) : Prop := s <> [] /\ ~ In slash s.

Lemma out_of_push stack : Forall seg_ok stack ->
  match out_of stack with [_] => out_of stack | _ => slash :: out_of stack end
  = slash :: match stack with [] => [] | _ => out_of stack end.
Proof.
  intros F. destruct stack as [|s st]; [reflexivity|]. pose proof (Forall_inv F) as [N _]. cbn [out_of].
  destruct (rev s) as [|a [|b l]] eqn:E; [|reflexivity..].
  apply (f_equal (@rev byte)) in E. rewrite rev_involutive in E. contradiction.
Qed.

Lemma backtrack_to r rest : ~ In slash r -> r <> [] -> backtrack (r ++ slash :: rest) = match rest with [] => [slash] | _ => rest end.
Proof.
  induction r as [|c r IH]; [congruence|]. intros NI _. cbn [app backtrack].
  destruct (r ++ slash :: rest) as [|x y] eqn:E; [destruct r; discriminate|].
  replace (is_slash c) with false by (symmetry; apply is_slash_false; intros ->; apply NI; now left).
  destruct r as [|d r].
  - cbn [app] in E. apply cons_eq in E as [<- <-]. destruct rest; reflexivity.
  - rewrite <- E in IH. rewrite <- IH; [|intros I; apply NI; now right|discriminate].
    destruct y as [|y1 y2]; [|rewrite E; reflexivity].
    destruct r; discriminate.
Qed.
Lemma backtrack_out stack : Forall seg_ok stack -> backtrack (out_of stack) = out_of (tl stack).
Proof.
  intros F. destruct stack as [|s st]; [reflexivity|]. pose proof (Forall_inv F) as [N NI]. cbn [out_of tl].
  rewrite backtrack_to.
  - destruct st as [|t st]; [reflexivity|]. pose proof (Forall_inv (Forall_inv_tail F)) as [N2 _]. cbn [out_of].
    destruct (rev t) as [|a l] eqn:E; [|reflexivity]. apply (f_equal (@rev byte)) in E. rewrite rev_involutive in E. contradiction.
  - rewrite <- in_rev. exact NI.
  - intros E. apply (f_equal (@rev byte)) in E. rewrite rev_involutive in E. contradiction.
Qed.

Lemma segments_cons p : exists s ss, segments p = s :: ss.
Proof. destruct p as [|c r]; cbn [segments]; [eauto|]. destruct (Byte.eqb c slash_); [eauto|]. destruct (segments r); eauto. Qed.
Lemma segments_slash r : segments (slash :: r) = [] :: segments r.
Proof. reflexivity. Qed.
Lemma segments_char c r s ss : c <> slash -> segments r = s :: ss -> segments (c :: r) = (c :: s) :: ss.
Proof. intros N E. cbn [segments]. replace (Byte.eqb c slash_) with false by (symmetry; apply (proj2 (is_slash_false c) N)). rewrite E. reflexivity. Qed.
Lemma segments_free p s : In s (segments p) -> ~ In slash s.
Proof.
  revert s. induction p as [|c r IH]; intros s I.
  - destruct I as [<-|[]]. intros [].
  - destruct (Byte.eqb c slash_) eqn:E.
    + apply Byte.byte_dec_bl in E. subst c. rewrite segments_slash in I. destruct I as [<-|I]; [intros []|auto].
    + destruct (segments_cons r) as (s0 & ss & E2). assert (N : c <> slash) by (intros ->; discriminate E).
      rewrite (segments_char c r s0 ss N E2) in I. rewrite E2 in IH. destruct I as [<-|I].
      * intros [->|K]; [congruence|]. exact (IH s0 (or_introl eq_refl) K).
      * apply IH. now right.
Qed.

Lemma walk_ok stack seg : Forall seg_ok stack -> ~ In slash seg -> Forall seg_ok (walk stack seg).
Proof.
  intros F N. unfold walk. destruct (bytes_eqb seg [] || _) eqn:E; [exact F|]. apply orb_false_iff in E as [E _].
  destruct (bytes_eqb seg (str "..")); [destruct F; [constructor|assumption]|].
  constructor; [|exact F]. split; [|exact N]. intros ->. discriminate.
Qed.
Lemma walk_all_ok segs stack : Forall seg_ok stack -> (forall s, In s segs -> ~ In slash s) -> Forall seg_ok (fold_left walk segs stack).
Proof.
  revert stack. induction segs as [|s segs IH]; intros stack F N; [exact F|]. cbn [fold_left]. apply IH.
  - apply walk_ok; [exact F|]. apply N. now left.
  - intros t I. apply N. now right.
Qed.

(** A segment that is neither empty nor dots, recognised by its start. *)
Lemma walk_push stack s : s <> [] -> s <> str "." -> s <> str ".." -> walk stack s = s :: stack.
Proof.
  intros A B C. unfold walk.
  destruct (bytes_eqb s []) eqn:E1; [apply bytes_eqb_eq in E1; contradiction|].
  destruct (bytes_eqb s (str ".")) eqn:E2; [apply bytes_eqb_eq in E2; contradiction|].
  destruct (bytes_eqb s (str "..")) eqn:E3; [apply bytes_eqb_eq in E3; contradiction|]. reflexivity.
Qed.

(** Copying the rest of an element. *)
Lemma copy_loop p : forall s ss, segments p = s :: ss -> forall out,
  clean_loop true p out = clean_loop false (match p with [] => [] | _ => skipn (length s) p end) (rev s ++ out).
Proof.
  induction p as [|c r IH]; intros s ss E out.
  - injection E as <- _. reflexivity.
  - destruct (is_slash c) eqn:Sc.
    + pose proof (proj1 (is_slash_true c) Sc) as ->. rewrite segments_slash in E. apply cons_eq in E as [<- _]. reflexivity.
    + destruct (segments_cons r) as (s0 & ss0 & E0).
      rewrite (segments_char c r s0 ss0 (proj1 (is_slash_false c) Sc) E0) in E. apply cons_eq in E as [<- _].
      cbn [clean_loop length skipn]. rewrite Sc. rewrite (IH s0 ss0 E0). cbn [rev]. rewrite <- app_assoc. cbn [app].
      destruct r; [|reflexivity]. injection E0 as <- _. reflexivity.
Qed.
Lemma skip_segment p : forall s ss, segments p = s :: ss -> p = s ++ match ss with [] => [] | _ => skipn (length s) p end
  /\ match ss with [] => skipn (length s) p = [] | _ => exists r, skipn (length s) p = slash :: r /\ segments r = ss end.
Proof.
  induction p as [|c r IH]; intros s ss E.
  - injection E as <- <-. split; reflexivity.
  - destruct (is_slash c) eqn:Sc.
    + pose proof (proj1 (is_slash_true c) Sc) as ->. rewrite segments_slash in E. apply cons_eq in E as [<- <-].
      destruct (segments_cons r) as (s0 & ss0 & E0). rewrite E0. cbn [length skipn app]. split; [reflexivity|]. exists r. auto.
    + destruct (segments_cons r) as (s0 & ss0 & E0).
      rewrite (segments_char c r s0 ss0 (proj1 (is_slash_false c) Sc) E0) in E. apply cons_eq in E as [<- <-].
      destruct (IH s0 ss0 E0) as [A B]. cbn [length skipn app]. split; [rewrite <- A; reflexivity|exact B].
Qed.

Lemma clean_walk n : forall p stack, (length p <= n)%nat -> Forall seg_ok stack ->
  clean_loop false p (out_of stack) = out_of (fold_left walk (segments p) stack).
Proof.
  induction n as [|n IH]; intros p stack Ln F.
  - destruct p; [reflexivity|cbn [length] in Ln; lia].
  - destruct (segments_cons p) as (s & ss & E). rewrite E. cbn [fold_left].
    destruct (skip_segment p s ss E) as [P1 P2].
    assert (NI : ~ In slash s) by (apply (segments_free p); rewrite E; now left).
    (* what remains after the first segment *)
    assert (REST : forall st, Forall seg_ok st -> (s <> [] \/ ss <> []) ->
      clean_loop false (skipn (length s) p) (out_of st) = out_of (fold_left walk ss st)).
    { intros st Fs _. destruct ss as [|s1 ss].
      - rewrite P2. reflexivity.
      - destruct P2 as (r & R1 & R2). rewrite R1. cbn [clean_loop]. change (is_slash slash) with true. cbv iota.
        rewrite <- R2. apply IH; [|exact Fs]. apply (f_equal (@length byte)) in R1. rewrite skipn_length in R1. cbn [length] in R1. lia. }
    destruct p as [|c r]; [injection E as <- <-; reflexivity|].
    destruct (is_slash c) eqn:Sc.
    { pose proof (proj1 (is_slash_true c) Sc) as ->. rewrite segments_slash in E. apply cons_eq in E as [<- <-].
      cbn [clean_loop]. rewrite Sc. change (walk stack []) with stack. apply IH; [cbn [length] in Ln; lia|exact F]. }
    pose proof (proj1 (is_slash_false c) Sc) as Nc.
    destruct (segments_cons r) as (s0 & ss0 & E0). rewrite (segments_char c r s0 ss0 Nc E0) in E. apply cons_eq in E as [Es Ess]. subst s ss0.
    (* the element is copied *)
    assert (COPY : c :: s0 <> str "." -> c :: s0 <> str ".." ->
      clean_loop true r (c :: match out_of stack with [_] => out_of stack | _ => slash :: out_of stack end)
      = out_of (fold_left walk ss (walk stack (c :: s0)))).
    { intros A B. rewrite walk_push; [|discriminate|assumption..]. rewrite out_of_push by exact F.
      rewrite (copy_loop r s0 ss E0).
      replace (rev s0 ++ c :: slash :: match stack with [] => [] | _ => out_of stack end) with (out_of ((c :: s0) :: stack))
        by (cbn [out_of rev]; rewrite <- app_assoc; reflexivity).
      rewrite <- (REST ((c :: s0) :: stack)); [|constructor; [split; [discriminate|exact NI]|exact F]|left; discriminate].
      cbn [length skipn]. destruct r; [destruct s0; reflexivity|reflexivity]. }
    cbn [clean_loop]. rewrite Sc.
    destruct (is_dot c) eqn:Dc.
    + pose proof (proj1 (is_dot_true c) Dc) as ->.
      destruct r as [|d r2].
      { injection E0 as <- <-. reflexivity. }
      destruct (is_slash d) eqn:Sd.
      { pose proof (proj1 (is_slash_true d) Sd) as ->. rewrite segments_slash in E0. apply cons_eq in E0 as [<- <-].
        change (walk stack [dot]) with stack. apply IH; [cbn [length] in Ln; lia|exact F]. }
      pose proof (proj1 (is_slash_false d) Sd) as Nd.
      destruct (segments_cons r2) as (s1 & ss1 & E1). rewrite (segments_char d r2 s1 ss1 Nd E1) in E0. apply cons_eq in E0 as [Es Ess]. subst s0 ss1.
      destruct (is_dot d) eqn:Dd.
      * pose proof (proj1 (is_dot_true d) Dd) as ->.
        destruct r2 as [|e r3].
        { injection E1 as <- <-. cbn [fold_left]. change (walk stack [dot; dot]) with (tl stack). apply backtrack_out. exact F. }
        destruct (is_slash e) eqn:Se.
        { pose proof (proj1 (is_slash_true e) Se) as ->. rewrite segments_slash in E1. apply cons_eq in E1 as [<- <-].
          change (walk stack [dot; dot]) with (tl stack). rewrite backtrack_out by exact F. apply IH; [cbn [length] in Ln; lia|].
          destruct F; [constructor|assumption]. }
        apply COPY; [discriminate|]. destruct (segments_cons r3) as (s2 & ss2 & E2).
        rewrite (segments_char e r3 s2 ss2 (proj1 (is_slash_false e) Se) E2) in E1. apply cons_eq in E1 as [<- _]. discriminate.
      * apply COPY; [discriminate|]. intros K. assert (d = dot) by (apply (f_equal (fun l => nth 1 l Byte.x00)) in K; exact K). subst d. discriminate.
    + assert (c <> dot) by (intros ->; discriminate).
      apply COPY; intros K; apply (f_equal (hd Byte.x00)) in K; cbn [hd] in K; apply H; exact K.
Qed.

Lemma out_of_rev stack : rev (out_of stack) = match rev stack with [] => [slash] | segs => absolute segs end.
Proof.
  destruct stack as [|s st]; [reflexivity|].
  assert (G : rev (out_of (s :: st)) = absolute (rev (s :: st))).
  { revert s. induction st as [|t st IH]; intros s.
    - cbn [out_of rev app]. unfold absolute. cbn [flat_map]. rewrite rev_app_distr, rev_involutive, app_nil_r. reflexivity.
    - change (out_of (s :: t :: st)) with (rev s ++ slash :: out_of (t :: st)). rewrite rev_app_distr, rev_involutive. cbn [rev].
      rewrite <- app_assoc. change (rev (out_of (t :: st)) ++ [slash] ++ s = absolute ((rev st ++ [t]) ++ [s])).
      rewrite IH. unfold absolute. rewrite flat_map_app. cbn [flat_map app rev]. rewrite app_nil_r. reflexivity. }
  rewrite G. cbn [rev]. destruct (rev st); reflexivity.
Qed.

Lemma path_Clean_spec r : path_Clean (slash :: r) = match resolve (slash :: r) with [] => [slash] | segs => absolute segs end.
Proof.
  unfold path_Clean. change (is_slash slash) with true. cbv iota. change [slash] with (out_of []) at 1.
  rewrite (clean_walk (length r)); [|lia|constructor]. rewrite out_of_rev. reflexivity.
Qed.

Lemma absolute_not_root s segs : s <> [] -> absolute (s :: segs) <> [slash].
Proof. intros N E. unfold absolute in E. cbn [flat_map app] in E. apply cons_eq in E as [_ E]. destruct s; [congruence|discriminate]. Qed.

Lemma resolve_ok p : Forall seg_ok (resolve p).
Proof. unfold resolve. apply Forall_rev. apply walk_all_ok; [constructor|]. intros s. apply segments_free. Qed.
Lemma resolve_slash p : resolve (slash :: p) = resolve p.
Proof. reflexivity. Qed.
Lemma last_change {A} (l : list A) d d' : l <> [] -> last l d = last l d'.
Proof. induction l as [|a [|b l] IH]; [congruence|reflexivity|]. intros _. apply IH. discriminate. Qed.

Lemma cleanPath_canonical p : cleanPath p = canonical p.
Proof.
  destruct p as [|c r]; [reflexivity|]. unfold cleanPath. cbv zeta.
  match goal with |- context [path_Clean ?x] => set (q := x) end.
  assert (Q : exists t, q = slash :: t /\ resolve q = resolve (c :: r) /\ last q slash = last (c :: r) Byte.x00).
  { unfold q. destruct (is_slash c) eqn:Sc.
    - pose proof (proj1 (is_slash_true c) Sc) as ->. exists r. split; [reflexivity|]. split; [reflexivity|]. apply last_change. discriminate.
    - exists (c :: r). split; [reflexivity|]. split; [reflexivity|]. change (last (slash :: c :: r) slash) with (last (c :: r) slash). apply last_change. discriminate. }
  clearbody q. destruct Q as (t & -> & Q2 & Q3). rewrite path_Clean_spec, Q2, Q3. unfold canonical, is_slash.
  pose proof (resolve_ok (c :: r)) as F. destruct (resolve (c :: r)) as [|s segs] eqn:R.
  - rewrite bytes_eqb_refl. rewrite andb_false_r. reflexivity.
  - replace (bytes_eqb (absolute (s :: segs)) [slash]) with false; cycle 1.
    { symmetry. destruct (bytes_eqb (absolute (s :: segs)) [slash]) eqn:B; [|reflexivity]. apply bytes_eqb_eq in B. exfalso.
      eapply absolute_not_root; [|exact B]. apply (Forall_inv F). }
    cbn [negb]. rewrite andb_true_r. destruct (Byte.eqb _ _); [reflexivity|]. rewrite app_nil_r. reflexivity.
Qed.

(** ** Canonical paths are tidy, and tidy paths canonical *)
Lemma ordinary_seg s : ordinary s -> seg_ok s.
Proof. intros (A & _ & _ & B). split; assumption. Qed.
Definition ord_ (s : bytes) : Prop := ordinary s.
Lemma walk_ordinary stack seg : Forall ordinary stack -> ~ In slash seg -> Forall ordinary (walk stack seg).
Proof.
  intros F N. unfold walk. destruct (bytes_eqb seg []) eqn:E1; [exact F|]. destruct (bytes_eqb seg (str ".")) eqn:E2; [exact F|]. cbn [orb].
  destruct (bytes_eqb seg (str "..")) eqn:E3; [destruct F; [constructor|assumption]|].
  constructor; [|exact F]. split; [intros ->; discriminate|]. split; [intros ->; discriminate|]. split; [intros ->; discriminate|exact N].
Qed.
Lemma resolve_ordinary p : Forall ordinary (resolve p).
Proof.
  unfold resolve. apply Forall_rev. 
  assert (G : forall segs stack, Forall ordinary stack -> (forall s, In s segs -> ~ In slash s) -> Forall ordinary (fold_left walk segs stack)).
  { induction segs as [|s segs IH]; intros stack F N; [exact F|]. cbn [fold_left]. apply IH.
    - apply walk_ordinary; [exact F|]. apply N. now left.
    - intros t I. apply N. now right. }
  apply G; [constructor|]. intros s. apply segments_free.
Qed.

Lemma canonical_tidy p : tidy (canonical p).
Proof.
  unfold canonical. pose proof (resolve_ordinary p) as F. destruct (resolve p) as [|s segs]; [left; reflexivity|]. right.
  exists (s :: segs). split; [discriminate|]. split; [intros x; apply (proj1 (Forall_forall _ _) F)|].
  destruct (Byte.eqb _ _); [right; reflexivity|left; apply app_nil_r].
Qed.

Lemma segments_app s r : ~ In slash s -> segments (s ++ slash :: r) = s :: segments r.
Proof.
  induction s as [|c s IH]; intros N; [reflexivity|]. cbn [app]. rewrite (segments_char c _ s (segments r)).
  - reflexivity.
  - intros ->. apply N. now left.
  - apply IH. intros I. apply N. now right.
Qed.
Lemma segments_one s : ~ In slash s -> segments s = [s].
Proof.
  induction s as [|c s IH]; intros N; [reflexivity|]. rewrite (segments_char c s s []); [reflexivity| |].
  - intros ->. apply N. now left.
  - apply IH. intros I. apply N. now right.
Qed.
Lemma segments_absolute s segs : (forall x, In x (s :: segs) -> ordinary x) -> segments (absolute (s :: segs)) = [] :: s :: segs.
Proof.
  revert s. induction segs as [|t segs IH]; intros s O.
  - unfold absolute. cbn [flat_map]. rewrite app_nil_r. cbn [app]. rewrite segments_slash, segments_one; [reflexivity|]. apply (O s (or_introl eq_refl)).
  - change (absolute (s :: t :: segs)) with (slash :: s ++ absolute (t :: segs)). rewrite segments_slash. f_equal.
    change (absolute (t :: segs)) with (slash :: t ++ absolute segs). rewrite segments_app by apply (O s (or_introl eq_refl)). f_equal.
    specialize (IH t (fun x I => O x (or_intror I))). change (absolute (t :: segs)) with (slash :: t ++ absolute segs) in IH.
    rewrite segments_slash in IH. apply cons_eq in IH as [_ IH]. exact IH.
Qed.
Lemma segments_trail p : segments (p ++ [slash]) = segments p ++ [[]].
Proof.
  induction p as [|c r IH]; [reflexivity|]. cbn [app]. destruct (is_slash c) eqn:Sc.
  - pose proof (proj1 (is_slash_true c) Sc) as ->. rewrite !segments_slash, IH. reflexivity.
  - destruct (segments_cons r) as (s & ss & E). pose proof (proj1 (is_slash_false c) Sc) as N. rewrite (segments_char c r s ss N E).
    rewrite (segments_char c (r ++ [slash]) s (ss ++ [[]]) N); [reflexivity|]. rewrite IH, E. reflexivity.
Qed.
Lemma walk_ordinary_all segs stack : (forall x, In x segs -> ordinary x) -> fold_left walk segs stack = rev segs ++ stack.
Proof.
  revert stack. induction segs as [|s segs IH]; intros stack O; [reflexivity|]. cbn [fold_left rev].
  destruct (O s (or_introl eq_refl)) as (A & B & C & _). rewrite walk_push by assumption. rewrite IH; [|intros x I; apply O; now right].
  rewrite <- app_assoc. reflexivity.
Qed.
Lemma last_absolute s segs d : (forall x, In x (s :: segs) -> ordinary x) -> Byte.eqb (last (absolute (s :: segs)) d) slash_ = false.
Proof.
  intros O. destruct (@exists_last _ (s :: segs)) as (l & t & E); [discriminate|]. rewrite E in O |- *.
  assert (Ot : ordinary t) by (apply O, in_app_iff; right; now left).
  unfold absolute. rewrite flat_map_app. cbn [flat_map]. rewrite app_nil_r. destruct Ot as (N & _ & _ & NI).
  destruct (@exists_last _ t) as (t' & c & ->); [exact N|]. 
  assert (EQ : forall a : bytes, last (a ++ slash_ :: t' ++ [c]) d = c).
  { intros a. change (a ++ slash_ :: t' ++ [c]) with (a ++ (slash_ :: t') ++ [c]). rewrite app_assoc. apply last_last. }
  match goal with |- Byte.eqb ?x _ = _ => replace x with c by (symmetry; apply EQ) end.
  apply (proj2 (is_slash_false c)). intros ->. apply NI, in_app_iff. right. now left.
Qed.
Lemma resolve_absolute segs : segs <> [] -> (forall x, In x segs -> ordinary x) -> resolve (absolute segs) = segs /\ resolve (absolute segs ++ [slash]) = segs.
Proof.
  destruct segs as [|s segs]; [congruence|]. intros _ O. unfold resolve. rewrite segments_trail, (segments_absolute s segs O).
  change (([] :: s :: segs) ++ [[]]) with ([] :: (s :: segs) ++ [[]]). cbn [fold_left]. change (walk [] []) with (@nil bytes).
  rewrite (fold_left_app walk (s :: segs) [[]]). change (fold_left walk segs (walk [] s)) with (fold_left walk (s :: segs) []).
  rewrite walk_ordinary_all by exact O. cbn [fold_left]. rewrite app_nil_r. change (walk (rev (s :: segs)) []) with (rev (s :: segs)). rewrite rev_involutive. split; reflexivity.
Qed.
Lemma tidy_canonical p : tidy p -> canonical p = p.
Proof.
  intros [->|(segs & NE & O & P)]; [reflexivity|]. destruct (resolve_absolute segs NE O) as [R1 R2]. unfold canonical.
  destruct segs as [|s segs]; [congruence|]. destruct P as [->| ->].
  - rewrite R1, last_absolute by exact O. apply app_nil_r.
  - change slash_ with slash in *. rewrite R2. rewrite last_last. reflexivity.
Qed.
Lemma clean_iff_tidy p : cleanPath p = p <-> tidy p.
Proof. rewrite cleanPath_canonical. split; [intros <-; apply canonical_tidy|apply tidy_canonical]. Qed.
Lemma clean_idem p : cleanPath (cleanPath p) = cleanPath p.
Proof. apply clean_iff_tidy. rewrite cleanPath_canonical. apply canonical_tidy. Qed.

(** ** URLs *)
Lemma strip_app a s : strip a (a ++ s) = Some s.
Proof. induction a as [|c a IH]; [reflexivity|]. cbn [app strip]. change (Byte.eqb c c) with (beqb c c). rewrite (proj2 (beqb_eq c c)) by reflexivity. exact IH. Qed.

Lemma byte_sweep (P : byte -> bool) : forallb (fun n => match Byte.of_N (N.of_nat n) with Some c => P c | None => true end) (seq 0 256) = true -> forall c, P c = true.
Proof.
  intros H c. rewrite forallb_forall in H. specialize (H (N.to_nat (Byte.to_N c))).
  rewrite N2Nat.id, Byte.of_to_N in H. apply H. apply in_seq. pose proof (Byte.to_N_bounded c). lia.
Qed.
Lemma in_str_b c l : In c l <-> existsb (Byte.eqb c) l = true.
Proof.
  rewrite existsb_exists. split.
  - intros I. exists c. split; [exact I|]. apply beqb_eq. reflexivity.
  - intros (x & I & E). apply beqb_eq in E. subst x. exact I.
Qed.
Lemma host_name_char c : In c (letters_digits ++ str ".-") -> name_char c = true /\ Byte.eqb c Byte.x3a = false.
Proof.
  intros I. apply in_str_b in I.
  pose proof (byte_sweep (fun c => implb (existsb (Byte.eqb c) (letters_digits ++ str ".-")) (name_char c && negb (Byte.eqb c Byte.x3a))) ltac:(vm_compute; reflexivity) c) as W.
  cbv beta in W. rewrite I in W. cbn [implb] in W. apply andb_true_iff in W as [A B]. apply negb_true_iff in B. auto.
Qed.
Lemma port_char c : In c (str "0123456789") -> digit c = true.
Proof.
  intros I. apply in_str_b in I.
  pose proof (byte_sweep (fun c => implb (existsb (Byte.eqb c) (str "0123456789")) (digit c)) ltac:(vm_compute; reflexivity) c) as W.
  cbv beta in W. rewrite I in W. exact W.
Qed.
Lemma tail_char_in c : In c (letters_digits ++ str "-._~/?#=&") -> tail_char c = true.
Proof.
  intros I. apply in_str_b in I.
  pose proof (byte_sweep (fun c => implb (existsb (Byte.eqb c) (letters_digits ++ str "-._~/?#=&")) (tail_char c)) ltac:(vm_compute; reflexivity) c) as W.
  cbv beta in W. rewrite I in W. exact W.
Qed.
Lemma host_ok_plain h : plain_host h -> host_ok h = true.
Proof.
  intros (name & NE & NC & H). unfold host_ok.
  assert (G : forall tl seen, (name <> [] \/ seen = true) -> host_ok_from true tl = true -> host_ok_from seen (name ++ tl) = true).
  { intros tl. clear NE H. induction name as [|c name IH]; intros seen S T.
    - destruct S as [S| ->]; [congruence|exact T].
    - cbn [app host_ok_from]. destruct (host_name_char c (NC c (or_introl eq_refl))) as [-> ->]. cbn [andb].
      apply IH; [intros x I; apply NC; now right|right; reflexivity|exact T]. }
  destruct H as [->|(port & PN & PC & ->)].
  - rewrite <- (app_nil_r name) at 1. apply G; [left; exact NE|reflexivity].
  - apply G; [left; exact NE|]. change (str ":" ++ port) with (Byte.x3a :: port). cbn [host_ok_from].
    change (Byte.eqb Byte.x3a Byte.x3a) with true. cbv iota. destruct port as [|d port]; [congruence|]. cbn [andb negb].
    apply forallb_forall. intros x I. apply port_char, PC, I.
Qed.
Lemma upto_query_path t : forall p0 q, t = p0 ++ q -> (forall c, In c p0 -> ~ In c (str "?#")) -> (q = [] \/ exists c r, q = c :: r /\ In c (str "?#")) -> upto_query t = p0.
Proof.
  intros p0 q -> N Q. induction p0 as [|c p0 IH].
  - destruct Q as [->|(c & r & -> & I)]; [reflexivity|]. cbn [app upto_query].
    destruct I as [<-|[<-|[]]]; reflexivity.
  - cbn [app upto_query]. destruct (Byte.eqb c Byte.x3f || Byte.eqb c Byte.x23) eqn:E.
    + exfalso. apply (N c (or_introl eq_refl)). apply orb_true_iff in E as [E|E]; apply beqb_eq in E; subst c; cbn; auto.
    + f_equal. apply IH. intros x I. apply N. now right.
Qed.
Lemma tail_path_ex t : exists p, tail_path t p.
Proof.
  assert (G : exists p0 q, t = p0 ++ q /\ (forall c, In c p0 -> ~ In c (str "?#")) /\ (q = [] \/ exists c r, q = c :: r /\ In c (str "?#"))).
  { induction t as [|c t (p0 & q & E & N & Q)].
    - exists [], []. split; [reflexivity|]. split; [intros c []|]. left. reflexivity.
    - destruct (in_dec Byte.byte_eq_dec c (str "?#")) as [I|I].
      + exists [], (c :: t). split; [reflexivity|]. split; [intros x []|]. right. eauto.
      + exists (c :: p0), q. split; [rewrite E; reflexivity|]. split; [|exact Q]. intros x [<-|J]; [exact I|apply N, J]. }
  destruct G as (p0 & q & E & N & Q). eexists. exists p0, q. auto.
Qed.
Lemma url_path_at host t p : plain_host host -> plain_tail t -> tail_path t p -> url_path host (str "http://" ++ host ++ t) = Some p.
Proof.
  intros H [T1 T2] (p0 & q & E & N & Q & P). unfold url_path. rewrite app_assoc, strip_app, (host_ok_plain host H).
  replace (forallb tail_char t) with true by (symmetry; apply forallb_forall; intros x I; apply tail_char_in, T1, I).
  rewrite (upto_query_path t p0 q E N Q). cbn [andb]. subst p.
  destruct T2 as [->|(c & r & -> & I)]; [|apply in_str_b in I; rewrite I]; destruct p0; reflexivity.
Qed.

Lemma plain_tail_const t c r : t = c :: r -> In c (str "/?#") -> forallb tail_char t = true -> plain_tail t.
Proof.
  intros E I F. split.
  - intros x Ix. rewrite forallb_forall in F. specialize (F x Ix).
    pose proof (byte_sweep (fun c => implb (tail_char c) (existsb (Byte.eqb c) (letters_digits ++ str "-._~/?#=&"))) ltac:(vm_compute; reflexivity) x) as W.
    cbv beta in W. rewrite F in W. apply in_str_b. exact W.
  - right. exists c, r. auto.
Qed.
Lemma no_query_path t c r : t = c :: r -> forallb (fun c => negb (existsb (Byte.eqb c) (str "?#"))) t = true -> tail_path t t.
Proof.
  intros E F. exists t, []. split; [symmetry; apply app_nil_r|]. split.
  - intros x I J. rewrite forallb_forall in F. specialize (F x I). apply in_str_b in J. rewrite J in F. discriminate.
  - split; [left; reflexivity|]. subst t. reflexivity.
Qed.
(** The two URLs of the client. *)
Lemma evaluate_url host : plain_host host -> url_path host (str "http://" ++ host ++ str "/evaluate") = Some (str "/evaluate").
Proof.
  intros H. apply url_path_at; [exact H| |].
  - eapply plain_tail_const; [reflexivity| |reflexivity]. left. reflexivity.
  - eapply no_query_path; reflexivity.
Qed.
Lemma config_url host : plain_host host -> url_path host (str "http://" ++ host ++ str "/config") = Some (str "/config").
Proof.
  intros H. apply url_path_at; [exact H| |].
  - eapply plain_tail_const; [reflexivity| |reflexivity]. left. reflexivity.
  - eapply no_query_path; reflexivity.
Qed.
