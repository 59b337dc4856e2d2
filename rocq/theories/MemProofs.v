(** * The code of [MemCode.v] computes what the functional model computes and
    writes only to memory it has allocated itself. *)
From Coq Require Import Lia.
From Verif Require Import Base Sha256 Hkdf Murmur3 Common Hasher Encryptor Oprf Server Client Mutator Hex KV SpecMem Mem MemCode BaseProofs EncryptorProofs.

(* ----- arrays, views ----- *)

Lemma array_app h e a : (a < length h)%nat -> array (h ++ e) a = array h a.
Proof. intros H. unfold array. now apply app_nth1. Qed.

Lemma array_last h x : array (h ++ [x]) (length h) = x.
Proof. unfold array. rewrite app_nth2 by lia. now rewrite Nat.sub_diag. Qed.

Lemma view_app h e s : valid h s -> view (h ++ e) s = view h s.
Proof.
  intros [Hl [Hc|[Ha Ho]]]; unfold view.
  - replace (m_len s) with 0%nat by lia. now rewrite !firstn_O.
  - now rewrite array_app.
Qed.

Lemma valid_app h e s : valid h s -> valid (h ++ e) s.
Proof.
  intros [Hl [Hc|[Ha Ho]]]; split; auto. right.
  rewrite app_length, array_app by lia. split; lia.
Qed.

Lemma view_length h s : valid h s -> length (view h s) = m_len s.
Proof.
  intros [Hl [Hc|[Ha Ho]]]; unfold view.
  - replace (m_len s) with 0%nat by lia. reflexivity.
  - rewrite firstn_length, skipn_length. lia.
Qed.

Lemma view_blen h s : valid h s -> mlen s = blen (view h s).
Proof. intros H. unfold mlen, blen. now rewrite view_length. Qed.

Lemma upd_nth_last h x y : upd_nth (length h) y (h ++ [x]) = h ++ [y].
Proof. induction h as [|z h IH]; simpl; [reflexivity|]. now rewrite IH. Qed.

Lemma write_last h x o d : write (h ++ [x]) (length h) o d = h ++ [splice x o d].
Proof. unfold write. now rewrite array_last, upd_nth_last. Qed.

Lemma zeros_app a b : zeros (a + b) = zeros a ++ zeros b.
Proof. unfold zeros. apply repeat_app. Qed.

Lemma zeros_length n : length (zeros n) = n.
Proof. apply repeat_length. Qed.

Lemma skipn_zeros k n : skipn k (zeros n) = zeros (n - k).
Proof.
  revert n. induction k as [|k IH]; intros [|n]; try reflexivity.
  simpl. apply IH.
Qed.

(** Filling a buffer from left to right. *)
Lemma splice_fill a k d : splice (a ++ zeros k) (length a) d = a ++ d ++ zeros (k - length d).
Proof.
  unfold splice. rewrite firstn_app, Nat.sub_diag, firstn_all, firstn_O, app_nil_r.
  rewrite skipn_app, (skipn_all2 a) by lia. simpl. do 2 f_equal.
  rewrite skipn_zeros. f_equal. lia.
Qed.

Lemma write_fill h a k d o : o = length a ->
  write (h ++ [a ++ zeros k]) (length h) o d = h ++ [a ++ d ++ zeros (k - length d)].
Proof. intros ->. now rewrite write_last, splice_fill. Qed.

Lemma write_nil h a o : (o <= length (array h a))%nat -> write h a o [] = h.
Proof.
  intros Ho. unfold write, splice. cbn [app length]. rewrite Nat.add_0_r, firstn_skipn.
  clear Ho. unfold array. revert a. induction h as [|x h IH]; intros [|a]; simpl; try reflexivity.
  now rewrite IH.
Qed.

Lemma view_new h x : view (h ++ [x]) (mkM (length h) 0 (length x) (length x)) = x.
Proof. unfold view. cbn [m_len m_off m_arr]. rewrite array_last. cbn [skipn]. apply firstn_all. Qed.

Lemma valid_new h x : valid (h ++ [x]) (mkM (length h) 0 (length x) (length x)).
Proof.
  split; cbn [m_len m_off m_arr m_cap]; [lia|]. right. rewrite app_length, array_last. simpl. lia.
Qed.

Lemma m_make_eq n h : (0 <= n)%Z ->
  m_make n h = (Ok (mkM (length h) 0 (Z.to_nat n) (Z.to_nat n)), h ++ [zeros (Z.to_nat n)]).
Proof.
  intros Hn. unfold m_make. destruct (Z.ltb_spec n 0); [lia|].
  unfold m_new. now rewrite zeros_length.
Qed.

(* ----- slices of slices ----- *)

Lemma m_slice_eq s lo hi h : valid h s -> (0 <= lo <= hi)%Z -> (hi <= mlen s)%Z ->
  exists t, m_slice s lo hi h = (Ok t, h) /\ valid h t /\ m_len t = Z.to_nat (hi - lo) /\
            view h t = firstn (Z.to_nat (hi - lo)) (skipn (Z.to_nat lo) (view h s)).
Proof.
  intros [Hl Hv] Hlo Hhi. unfold m_slice, mlen in *.
  destruct (Z.ltb_spec lo 0); [lia|]. destruct (Z.ltb_spec hi lo); [lia|].
  destruct (Z.ltb_spec (Z.of_nat (m_cap s)) hi); [lia|]. cbn [orb].
  eexists. split; [reflexivity|]. split; [|split; [reflexivity|]].
  - split; cbn [m_len m_off m_arr m_cap]; [lia|]. destruct Hv as [Hc|[Ha Ho]]; [left; lia|].
    right. split; lia.
  - unfold view. cbn [m_len m_off m_arr m_cap].
    rewrite skipn_firstn_comm, firstn_firstn, skipn_skipn'.
    rewrite Nat.min_l by lia. reflexivity.
Qed.

Lemma m_from_eq s lo h : valid h s -> (0 <= lo <= mlen s)%Z ->
  exists t, m_from s lo h = (Ok t, h) /\ valid h t /\ m_len t = (m_len s - Z.to_nat lo)%nat /\
            view h t = skipn (Z.to_nat lo) (view h s).
Proof.
  intros Hv Hlo. destruct (m_slice_eq s lo (mlen s) h Hv) as (t & E & Hvt & Hlt & Ev); try lia.
  exists t. split; [exact E|]. split; [exact Hvt|]. unfold mlen in *. split; [lia|].
  rewrite Ev. apply firstn_all2. rewrite skipn_length, view_length by assumption. lia.
Qed.

Lemma m_upto_eq s hi h : valid h s -> (0 <= hi <= mlen s)%Z ->
  exists t, m_upto s hi h = (Ok t, h) /\ valid h t /\ m_len t = Z.to_nat hi /\
            view h t = firstn (Z.to_nat hi) (view h s).
Proof.
  intros Hv Hlo. destruct (m_slice_eq s 0 hi h Hv) as (t & E & Hvt & Hlt & Ev); try lia.
  exists t. split; [exact E|]. split; [exact Hvt|]. rewrite Z.sub_0_r in *. split; [lia|exact Ev].
Qed.

Lemma m_get_eq s i h : valid h s -> (0 <= i < mlen s)%Z ->
  m_get s i h = (Ok (nth (Z.to_nat i) (view h s) Byte.x00), h).
Proof.
  intros Hv Hi. unfold m_get. destruct (Z.ltb_spec i 0); [lia|].
  destruct (Z.leb_spec (mlen s) i); [lia|]. reflexivity.
Qed.

(* ----- outcomes ----- *)

Lemma returns_new_intro h x : returns_new h (Ok (mkM (length h) 0 (length x) (length x)), h ++ [x]) (Ok x).
Proof.
  split; [now exists [x]|]. cbn [fst snd]. split; [apply view_new|]. split; [apply valid_new|].
  unfold new_in; rewrite app_length; simpl; lia.
Qed.

Lemma returns_new_panic h m : returns_new h (Panic m, h) (Panic m).
Proof. split; [exists []; now rewrite app_nil_r|reflexivity]. Qed.
Lemma returns_new_err h m : returns_new h (Err m, h) (Err m).
Proof. split; [exists []; now rewrite app_nil_r|reflexivity]. Qed.

Lemma rn_weaken h e o r : returns_new (h ++ e) o r -> returns_new h o r.
Proof.
  intros [[ext E] R]. split; [exists (e ++ ext); now rewrite E, app_assoc|].
  destruct (fst o), r; auto. destruct R as (A & B & C). split; [auto|]. split; [auto|].
  unfold new_in in *. rewrite app_length in C. lia.
Qed.

(** One call after another. *)
Lemma returns_new_bind h (f : mem mslice) r (k : mslice -> mem mslice) (rk : bytes -> res bytes) :
  returns_new h (f h) r ->
  (forall s ext, valid (h ++ ext) s -> new_in h (h ++ ext) s -> r = Ok (view (h ++ ext) s) ->
     returns_new (h ++ ext) (k s (h ++ ext)) (rk (view (h ++ ext) s))) ->
  returns_new h ((x <~ f ;; k x) h) (x <- r ;; rk x).
Proof.
  intros [[ext E] Hf] Hk. unfold mbind. destruct (f h) as [[s|e|m] h'] eqn:F; cbn [fst snd] in *; subst h'.
  - destruct r as [b| |]; try contradiction. destruct Hf as (Ev & Hv & Hn). cbn [bind].
    specialize (Hk s ext Hv Hn). rewrite Ev in Hk. destruct (Hk eq_refl) as [[ext' E'] Hk'].
    split; [exists (ext ++ ext'); now rewrite E', app_assoc|].
    destruct (fst (k s (h ++ ext))), (rk b); auto.
    destruct Hk' as (A & B & C). split; [auto|]. split; [auto|]. unfold new_in in *.
    rewrite app_length in C. lia.
  - destruct r; try contradiction. split; [now exists ext|exact Hf].
  - destruct r; try contradiction. split; [now exists ext|exact Hf].
Qed.

(* ----- copying ----- *)

Lemma copy_bytes_fill h a k o b c d : d = mkM (length h) o b c -> o = length a -> (b <= k)%nat -> forall x, (length x <= b)%nat ->
  m_copy_bytes d x (h ++ [a ++ zeros k]) = (Ok tt, h ++ [a ++ x ++ zeros (k - length x)]).
Proof.
  intros -> -> Hb x Hx. unfold m_copy_bytes. cbn [m_arr m_off m_len].
  rewrite firstn_all2 by lia. now rewrite write_fill.
Qed.

Lemma m_from_new a n lo h : (0 <= lo <= Z.of_nat n)%Z ->
  m_from (mkM a 0 n n) lo h = (Ok (mkM a (Z.to_nat lo) (n - Z.to_nat lo) (n - Z.to_nat lo)), h).
Proof.
  intros Hl. unfold m_from, m_slice, mlen. cbn [m_arr m_off m_len m_cap].
  destruct (Z.ltb_spec lo 0); [lia|]. destruct (Z.ltb_spec (Z.of_nat n) lo); [lia|].
  rewrite Z.ltb_irrefl. cbn [orb]. unfold ret. do 3 f_equal. lia.
Qed.

Lemma mbind_ok {A B} (f : mem A) (k : A -> mem B) h a h' : f h = (Ok a, h') -> mbind f k h = k a h'.
Proof. intros E. unfold mbind. now rewrite E. Qed.

Lemma go_ok {A B} (P : res B * heap -> Prop) (f : mem A) (k : A -> mem B) h a h' :
  f h = (Ok a, h') -> P (k a h') -> P (mbind f k h).
Proof. intros E. now rewrite (mbind_ok _ _ _ _ _ E). Qed.
Lemma rn_go {A} (f : mem A) k h0 h a h' r :
  f h = (Ok a, h') -> returns_new h0 (k a h') r -> returns_new h0 (mbind f k h) r.
Proof. apply (go_ok (fun o => returns_new h0 o r)). Qed.
Tactic Notation "go" uconstr(E) := eapply rn_go; [refine E|]; cbv beta.
Ltac side := unfold mlen, blen; first [eassumption | reflexivity | lia | (rewrite ?app_length, ?be16_length, ?be32_length, ?view_length by eassumption; lia)].
Tactic Notation "gol" uconstr(E) := eapply rn_go; [eapply E; side|]; cbv beta.

Lemma to_nat_mlen s : Z.to_nat (mlen s) = m_len s.
Proof. apply Nat2Z.id. Qed.
Lemma mlen_pos s : (0 <= mlen s)%Z.
Proof. unfold mlen. lia. Qed.

Lemma m_view_old h e s : valid h s -> m_view s (h ++ e) = (Ok (view h s), h ++ e).
Proof. intros Hv. unfold m_view. now rewrite view_app. Qed.

Lemma m_copy_fill h a k o b c s : o = length a -> (b <= k)%nat ->
  valid h s -> (m_len s <= b)%nat ->
  m_copy (mkM (length h) o b c) s (h ++ [a ++ zeros k]) = (Ok tt, h ++ [a ++ view h s ++ zeros (k - m_len s)]).
Proof.
  intros Ho Hb Hs Hl. unfold m_copy. rewrite (mbind_ok _ _ _ _ _ (m_view_old h _ s Hs)).
  rewrite (copy_bytes_fill h a k o b c _ eq_refl Ho Hb) by (rewrite view_length; assumption).
  now rewrite view_length.
Qed.

Lemma m_copy_fill0 h n s : valid h s -> m_len s = n ->
  m_copy (mkM (length h) 0 n n) s (h ++ [zeros n]) = (Ok tt, h ++ [view h s]).
Proof.
  intros Hv <-.
  etransitivity; [exact (m_copy_fill h [] (m_len s) 0 (m_len s) (m_len s) s eq_refl (le_n _) Hv (le_n _))|].
  now rewrite Nat.sub_diag, app_nil_r.
Qed.

Lemma m_put_fill h a k o b c d : o = length a -> (b <= k)%nat -> (length d <= b)%nat ->
  m_put (mkM (length h) o b c) d (h ++ [a ++ zeros k]) = (Ok tt, h ++ [a ++ d ++ zeros (k - length d)]).
Proof.
  intros Ho Hb Hd. unfold m_put. cbn [m_len]. destruct (Nat.ltb_spec b (length d)); [lia|].
  now rewrite (copy_bytes_fill h a k o b c _ eq_refl Ho Hb).
Qed.

Lemma splice_set_nth l i b : (i < length l)%nat -> splice l i [b] = set_nth i b l.
Proof.
  revert i. induction l as [|x l IH]; intros [|i] Hi; simpl in *; try lia; [reflexivity|].
  rewrite <- IH by lia. reflexivity.
Qed.

(** A copy of the whole buffer is a new slice that shows it. *)
Lemma copy_all h s : valid h s ->
  returns_new h ((newBuf <~ m_make (mlen s) ;; _ <~ m_copy newBuf s ;; ret newBuf) h) (Ok (view h s)).
Proof.
  intros Hv. go (m_make_eq (mlen s) h ltac:(unfold mlen; lia)).
  rewrite to_nat_mlen. go (m_copy_fill0 h _ s Hv eq_refl).
  unfold ret. rewrite <- (view_length h s Hv). apply returns_new_intro.
Qed.

(* ----- mutator ----- *)

Lemma changeCap_m_ok h s position : valid h s ->
  returns_new h (changeCap_m s position h) (Ok (changeCap (view h s) position)).
Proof.
  intros Hv. unfold changeCap_m, changeCap.
  go (m_make_eq (mlen s) h ltac:(unfold mlen; lia)).
  rewrite to_nat_mlen.
  go (m_copy_fill0 h _ s Hv eq_refl).
  rewrite <- (view_blen h s Hv).
  set (p := (if (position <? 0)%Z then (mlen s + position)%Z else position)).
  assert (Hl : m_len s = length (view h s)) by now rewrite view_length.
  destruct ((0 <=? p)%Z && (p <? mlen s)%Z) eqn:Hp.
  - apply andb_true_iff in Hp as [H0 H1]. apply Z.leb_le in H0. apply Z.ltb_lt in H1.
    go (m_get_eq s p _ (valid_app h _ s Hv) (conj H0 H1)).
    rewrite view_app by assumption.
    destruct (switchCase (nth (Z.to_nat p) (view h s) Byte.x00)) as [b| |].
    + unfold mbind, m_set. unfold mlen in *. cbn [m_len m_arr m_off].
      destruct (Z.ltb_spec p 0); [lia|]. destruct (Z.leb_spec (Z.of_nat (m_len s)) p); [lia|]. cbn [orb].
      rewrite write_last. unfold ret. rewrite splice_set_nth by lia.
      assert (Hs : m_len s = length (set_nth (Z.to_nat p) b (view h s))).
      { rewrite Hl. generalize (Z.to_nat p). generalize (view h s). clear.
        induction b0 as [|x l IH]; intros [|i]; simpl; auto. }
      rewrite Hs at 1 2. apply returns_new_intro.
    + unfold ret. rewrite Hl. apply returns_new_intro.
    + unfold ret. rewrite Hl. apply returns_new_intro.
  - unfold ret. rewrite Hl. apply returns_new_intro.
Qed.

Lemma copy_part h s (sub : mem mslice) (n : Z) x : (0 <= n)%Z ->
  (forall e, exists t, sub (h ++ e) = (Ok t, h ++ e) /\ valid h t /\ m_len t = Z.to_nat n /\ view h t = x) ->
  valid h s ->
  returns_new h ((newBuf <~ m_make n ;; src <~ sub ;; _ <~ m_copy newBuf src ;; ret newBuf) h) (Ok x).
Proof.
  intros Hn Hs Hv. go (m_make_eq n h Hn).
  destruct (Hs [zeros (Z.to_nat n)]) as (t & E & Ht & Hl & Ex).
  rewrite (mbind_ok _ _ _ _ _ E). go (m_copy_fill0 h _ t Ht Hl).
  unfold ret. rewrite <- Hl, <- (view_length h t Ht), Ex. apply returns_new_intro.
Qed.

Lemma m_slice_heap s lo hi h h' : m_slice s lo hi h = (fst (m_slice s lo hi h'), h).
Proof. unfold m_slice, panic, ret. now destruct (_ || _ || _). Qed.

Lemma m_from_any s lo h : valid h s -> (0 <= lo <= mlen s)%Z ->
  exists t, (forall h', m_from s lo h' = (Ok t, h')) /\ valid h t /\ m_len t = (m_len s - Z.to_nat lo)%nat /\
            view h t = skipn (Z.to_nat lo) (view h s).
Proof.
  intros Hv Hl. destruct (m_from_eq s lo h Hv Hl) as (t & E & R). exists t. split; [|exact R].
  intros h'. unfold m_from in *. rewrite (m_slice_heap s lo (mlen s) h' h). now rewrite E.
Qed.

Lemma m_upto_any s hi h : valid h s -> (0 <= hi <= mlen s)%Z ->
  exists t, (forall h', m_upto s hi h' = (Ok t, h')) /\ valid h t /\ m_len t = Z.to_nat hi /\
            view h t = firstn (Z.to_nat hi) (view h s).
Proof.
  intros Hv Hl. destruct (m_upto_eq s hi h Hv Hl) as (t & E & R). exists t. split; [|exact R].
  intros h'. unfold m_upto in *. rewrite (m_slice_heap s 0 hi h' h). now rewrite E.
Qed.

Lemma deletePortion_m_ok h s position : valid h s ->
  returns_new h (deletePortion_m s position h) (Ok (deletePortion (view h s) position)).
Proof.
  intros Hv. unfold deletePortion_m, deletePortion. rewrite <- (view_blen h s Hv).
  destruct ((0 <=? position)%Z && (position <=? mlen s)%Z) eqn:E1.
  { apply andb_true_iff in E1 as [H0 H1]. apply Z.leb_le in H0. apply Z.leb_le in H1.
    apply copy_part with (s := s); [lia| |assumption].
    intros e. destruct (m_from_any s position h Hv (conj H0 H1)) as (t & E & Ht & Hl & Ev).
    exists t. repeat split; auto; try apply Ht. rewrite Hl. unfold mlen. lia. }
  destruct ((position <? 0)%Z && (0 <=? mlen s + position)%Z) eqn:E2; [|now apply copy_all].
  apply andb_true_iff in E2 as [H0 H1]. apply Z.ltb_lt in H0. apply Z.leb_le in H1.
  apply copy_part with (s := s); [lia| |assumption].
  intros e. destruct (m_upto_any s (mlen s + position)%Z h Hv ltac:(lia)) as (t & E & Ht & Hl & Ev).
  exists t. repeat split; auto; apply Ht.
Qed.

Lemma insert_m_ok h s position x : valid h s ->
  returns_new h (insert_m s position x h) (Ok (insert (view h s) position x)).
Proof.
  intros Hv. unfold insert_m, insert. rewrite <- (view_blen h s Hv).
  destruct ((mlen s =? 0)%Z && ((position =? 0)%Z || (position =? -1)%Z)).
  { go (m_make_eq (blen x) h ltac:(unfold blen; lia)).
    unfold blen. rewrite Nat2Z.id.
    go (copy_bytes_fill h [] _ _ _ _ _ eq_refl eq_refl (le_n _) x (le_n _)).
    rewrite Nat.sub_diag, app_nil_r. apply returns_new_intro. }
  set (p := (if (position <? 0)%Z then (position + mlen s + 1)%Z else position)).
  destruct ((0 <=? p)%Z && (p <=? mlen s)%Z) eqn:Hp; [|now apply copy_all].
  apply andb_true_iff in Hp as [H0 H1]. apply Z.leb_le in H0. apply Z.leb_le in H1.
  go (m_make_eq (mlen s + blen x) h ltac:(unfold blen, mlen; lia)).
  destruct (m_upto_any s p h Hv (conj H0 H1)) as (t & E & Ht & Hl & Ev).
  go (E _).
  assert (HN : Z.to_nat (mlen s + blen x) = (m_len s + length x)%nat) by (unfold mlen, blen; lia).
  rewrite HN. unfold mlen, blen in *.
  gol (m_copy_fill h []).
  gol m_from_new.
  rewrite Ev. rewrite app_nil_l.
  assert (Lf : length (firstn (Z.to_nat p) (view h s)) = Z.to_nat p).
  { rewrite firstn_length, view_length by assumption. lia. }
  gol (copy_bytes_fill h (firstn (Z.to_nat p) (view h s))).
  gol m_from_new.
  destruct (m_from_any s p h Hv (conj H0 H1)) as (t' & E' & Ht' & Hl' & Ev').
  go (E' _).
  rewrite app_assoc.
  gol (m_copy_fill h).
  rewrite Ev'.
  match goal with |- context [zeros ?k] => replace k with 0%nat by lia end.
  unfold ret. cbn [zeros repeat]. rewrite app_nil_r, <- app_assoc.
  match goal with |- returns_new _ (_, _ ++ [?l]) _ => assert (Hl2 : (m_len s + length x)%nat = length l) end.
  { rewrite !app_length, skipn_length, view_length by assumption. lia. }
  rewrite Hl2. apply returns_new_intro.
Qed.

Lemma substitute_m_ok h s position x y : valid h s ->
  returns_new h (substitute_m s position x y h) (Ok (substitute (view h s) position x y)).
Proof. intros Hv. apply returns_new_intro. Qed.

Lemma apply_rule_m_ok h rule s : valid h s ->
  returns_new h (apply_rule_m rule s h) (apply_rule rule (view h s)).
Proof.
  intros Hv. unfold apply_rule_m, apply_rule.
  destruct (bytes_eqb _ _); [now apply changeCap_m_ok|].
  destruct (bytes_eqb _ _); [now apply deletePortion_m_ok|].
  destruct (bytes_eqb _ _); [now apply insert_m_ok|].
  destruct (bytes_eqb _ _); [now apply substitute_m_ok|].
  apply returns_new_panic.
Qed.

Lemma mutate_loop_m_ok rules : forall h ext s num j seen ms bs, valid h s ->
  map (view (h ++ ext)) ms = bs ->
  (forall m, In m ms -> valid (h ++ ext) m /\ new_in h (h ++ ext) m) -> NoDup (map m_arr ms) ->
  returns_new_list h (mutate_loop_m rules s num j seen ms (h ++ ext)) (mutate_loop rules (view h s) num j seen bs).
Proof.
  induction rules as [|rule rules IH]; intros h ext s num j seen ms bs Hv Hb Hm Hd; cbn [mutate_loop_m mutate_loop].
  { split; [now exists ext|]. now cbn [ret fst snd]. }
  destruct (j <? num)%Z; [|split; [now exists ext|]; now cbn [ret fst snd]].
  pose proof (apply_rule_m_ok (h ++ ext) rule s (valid_app h ext s Hv)) as [[e2 E] R].
  rewrite view_app in R by assumption. unfold mbind at 1.
  destruct (apply_rule_m rule s (h ++ ext)) as [[m|e|p] h'] eqn:F; cbn [fst snd] in *; subst h';
    destruct (apply_rule rule (view h s)) as [b| |]; try contradiction; cbn [bind];
    [|split; [exists (ext ++ e2); now rewrite app_assoc|exact R]..].
  destruct R as (Ev & Hvm & Hn).
  rewrite (mbind_ok (m_view m) _ _ b ((h ++ ext) ++ e2)); [|unfold m_view; now rewrite Ev].
  assert (Hm' : forall x, In x ms -> valid ((h ++ ext) ++ e2) x /\ new_in h ((h ++ ext) ++ e2) x).
  { intros x Hx. destruct (Hm x Hx) as [A B]. split; [now apply valid_app|].
    unfold new_in in *. rewrite (app_length (h ++ ext)). lia. }
  assert (Hb' : map (view ((h ++ ext) ++ e2)) ms = bs).
  { rewrite <- Hb. apply map_ext_in. intros x Hx. apply view_app. now apply Hm. }
  rewrite <- app_assoc in *.
  destruct (seenb (murmur3_sum32 b) seen); apply IH; auto.
  - rewrite map_app. simpl. now rewrite Hb', Ev.
  - intros x Hx. apply in_app_or in Hx as [Hx|[<-|[]]]; [now apply Hm'|].
    split; [assumption|]. unfold new_in in *. rewrite !app_length in *. lia.
  - rewrite map_app. simpl. apply NoDup_Add with (a := m_arr m) (l := map m_arr ms).
    { rewrite <- (app_nil_r (map m_arr ms)) at 1. apply Add_app. }
    split; [assumption|]. intros Hin. apply in_map_iff in Hin as (x & E & Hx).
    destruct (Hm x Hx) as [_ Hnx]. unfold new_in in *. lia.
Qed.

Lemma Mutate_m_ok h rules s num : valid h s ->
  returns_new_list h (Mutate_m rules s num h) (Mutate rules (view h s) num).
Proof.
  intros Hv. unfold Mutate_m, Mutate. destruct rules as [|r rules].
  { split; [exists []; now rewrite app_nil_r|reflexivity]. }
  destruct (_ || _). { split; [exists []; now rewrite app_nil_r|reflexivity]. }
  rewrite (mbind_ok (m_view s) _ h (view h s) h eq_refl).
  pose proof (mutate_loop_m_ok (r :: rules) h [] s num 0 [murmur3_sum32 (view h s)] [] []) as M.
  rewrite app_nil_r in M. apply M; auto; simpl; [tauto|constructor].
Qed.

(* ----- serialization and hashing ----- *)

Lemma fill_done h n l : n = length l -> returns_new h (ret (mkM (length h) 0 n n) (h ++ [l])) (Ok l).
Proof. intros ->. apply returns_new_intro. Qed.

Lemma serialize_m_ok h u p : valid h u -> valid h p ->
  returns_new h (serialize_m u p h) (serializeUsernamePassword (view h u) (view h p)).
Proof.
  intros Hu Hp. unfold serialize_m, serializeUsernamePassword.
  rewrite <- (view_blen h u Hu), <- (view_blen h p Hp).
  destruct (_ || _); [apply returns_new_panic|].
  gol m_make_eq.
  assert (HN : Z.to_nat (4 + mlen u + mlen p) = (4 + m_len u + m_len p)%nat) by (unfold mlen; lia).
  rewrite HN. remember ((4 + m_len u + m_len p))%nat as n eqn:En.
  unfold m_put16. gol (m_put_fill h []).
  unfold mlen in *. gol m_from_new. rewrite app_nil_l, be16_length.
  gol (m_copy_fill h). rewrite app_assoc. gol m_from_new.
  gol (m_put_fill h). rewrite app_assoc, be16_length. gol m_from_new.
  gol (m_copy_fill h).
  match goal with |- context [zeros ?k] => replace k with 0%nat by lia end.
  cbn [zeros repeat]. rewrite app_nil_r, <- !app_assoc.
  assert (E : forall s, valid h s -> u16 (Z.to_N (Z.of_nat (m_len s))) = len16 (view h s)).
  { intros s Hs. unfold len16. rewrite view_length by assumption. f_equal. lia. }
  rewrite (E u Hu), (E p Hp). apply fill_done. side.
Qed.

Lemma bucketHash_m_ok h bh s : valid h s ->
  returns_new h (bucketHash_m bh s h) (BucketHasher_Hash bh (view h s)).
Proof.
  intros Hs. destruct bh as [salt]. unfold bucketHash_m, BucketHasher_Hash.
  rewrite <- (view_blen h s Hs). destruct (_ || _); [apply returns_new_panic|].
  gol m_make_eq.
  assert (HN : Z.to_nat (2 + blen salt + 2 + mlen s) = (2 + length salt + 2 + m_len s)%nat) by (unfold mlen, blen; lia).
  rewrite HN. remember ((2 + length salt + 2 + m_len s))%nat as n eqn:En.
  unfold blen, mlen in *.
  eapply rn_go.
  { unfold m_upto, m_slice. cbn [m_cap]. destruct (Z.ltb_spec (Z.of_nat n) 2); [lia|]. reflexivity. }
  cbv beta. cbn [m_arr m_off m_len m_cap]. change (Z.to_nat (2 - 0)) with 2%nat. change (Z.to_nat 0) with 0%nat. cbn [Nat.add].
  unfold m_put16. gol (m_put_fill h []).
  gol m_from_new. rewrite app_nil_l, be16_length.
  gol (copy_bytes_fill h). rewrite app_assoc. gol m_from_new.
  gol (m_put_fill h). rewrite app_assoc, be16_length. gol m_from_new.
  gol (m_copy_fill h).
  match goal with |- context [zeros ?k] => replace k with 0%nat by lia end.
  cbn [zeros repeat]. rewrite app_nil_r, <- !app_assoc.
  assert (E : u16 (Z.to_N (Z.of_nat (length salt))) = len16 salt) by (unfold len16; f_equal; lia).
  assert (E2 : u16 (Z.to_N (Z.of_nat (m_len s))) = len16 (view h s)).
  { unfold len16. rewrite view_length by assumption. f_equal. lia. }
  rewrite E, E2. fold (bucket_preimage salt (view h s)).
  assert (Hl : n = length (bucket_preimage salt (view h s))).
  { unfold bucket_preimage. side. }
  rewrite Hl. go (eq_refl). rewrite view_new. eapply rn_weaken. apply returns_new_intro.
Qed.

Lemma slowHash_m_ok h sh s : valid h s -> sh <> nullSlowHasher ->
  returns_new h (slowHash_m sh s h) (SlowHasher_Hash sh (view h s)).
Proof.
  intros Hs Hn. unfold slowHash_m. destruct sh as [salt n r p L|]; [|congruence].
  go eq_refl. unfold mbind, lift.
  destruct (SlowHasher_Hash _ _); [apply returns_new_intro|apply returns_new_err|apply returns_new_panic].
Qed.

(* ----- encryption ----- *)

Lemma m_set_fill h a k b n : n = (length a + S k)%nat -> forall i, i = Z.of_nat (length a) ->
  m_set (mkM (length h) 0 n n) i b (h ++ [a ++ zeros (S k)]) = (Ok tt, h ++ [(a ++ [b]) ++ zeros k]).
Proof.
  intros -> i ->. unfold m_set, mlen. cbn [m_len m_arr m_off].
  destruct (Z.ltb_spec (Z.of_nat (length a)) 0); [lia|].
  destruct (Z.leb_spec (Z.of_nat (length a + S k)) (Z.of_nat (length a))); [lia|]. cbn [orb].
  rewrite write_fill by lia. cbn [length]. rewrite Nat.sub_succ, Nat.sub_0_r, app_assoc. reflexivity.
Qed.

Lemma nth_split_head {A} (a : list A) x r d : nth (length a) (a ++ x :: r) d = x.
Proof. rewrite app_nth2, Nat.sub_diag by lia. reflexivity. Qed.

Lemma xor_loop_ok h b1 b2 n : valid h b1 -> valid h b2 -> forall r1 r2 d1 d2,
  view h b1 = d1 ++ r1 -> view h b2 = d2 ++ r2 -> length d1 = length d2 -> length r1 = length r2 ->
  n = (length d1 + length r1)%nat ->
  xor_loop (length r1) (Z.of_nat (length d1)) b1 b2 (mkM (length h) 0 n n)
    (h ++ [map2 bxor d1 d2 ++ zeros (length r1)]) = (Ok tt, h ++ [map2 bxor (d1 ++ r1) (d2 ++ r2)]).
Proof.
  intros H1 H2. induction r1 as [|x r1 IH]; intros r2 d1 d2 E1 E2 Ld Lr Hn.
  { destruct r2; [|discriminate]. simpl. rewrite !app_nil_r. reflexivity. }
  destruct r2 as [|y r2]; [discriminate|]. cbn [length xor_loop].
  assert (L1 : m_len b1 = (length d1 + S (length r1))%nat).
  { rewrite <- (view_length h b1 H1), E1, app_length. reflexivity. }
  assert (L2 : m_len b2 = (length d1 + S (length r1))%nat).
  { rewrite <- (view_length h b2 H2), E2, app_length, <- Ld. cbn [length] in *. lia. }
  erewrite mbind_ok; [|apply m_get_eq; [now apply valid_app|unfold mlen; lia]].
  erewrite mbind_ok; [|apply m_get_eq; [now apply valid_app|unfold mlen; lia]].
  rewrite !view_app, Nat2Z.id by assumption.
  assert (N1 : nth (length d1) (view h b1) Byte.x00 = x) by (rewrite E1; apply nth_split_head).
  assert (N2 : nth (length d1) (view h b2) Byte.x00 = y) by (rewrite E2, Ld; apply nth_split_head).
  rewrite N1, N2.
  assert (Lm : length (map2 bxor d1 d2) = length d1).
  { rewrite map2_xor. clear -Ld. revert d2 Ld. induction d1; destruct d2; simpl; intros; try lia. now rewrite IHd1 by lia. }
  erewrite mbind_ok; [|apply m_set_fill; [rewrite Lm; cbn [length] in Hn; lia|now rewrite Lm]].
  replace (Z.of_nat (length d1) + 1)%Z with (Z.of_nat (length (d1 ++ [x]))) by (rewrite app_length; simpl; lia).
  assert (Em : map2 bxor d1 d2 ++ [bxor x y] = map2 bxor (d1 ++ [x]) (d2 ++ [y])).
  { clear -Ld. revert d2 Ld. induction d1; destruct d2; simpl; intros; try lia; [reflexivity|]. now rewrite IHd1 by lia. }
  rewrite Em. etransitivity; [apply (IH r2 (d1 ++ [x]) (d2 ++ [y]))|now rewrite <- !app_assoc].
  - now rewrite <- app_assoc.
  - now rewrite <- app_assoc.
  - rewrite !app_length. simpl. lia.
  - cbn [length] in *. lia.
  - rewrite app_length. cbn [length] in *. lia.
Qed.

Lemma xorBytes_m_ok h b1 b2 : valid h b1 -> valid h b2 ->
  returns_new h (xorBytes_m b1 b2 h) (xorBytes (view h b1) (view h b2)).
Proof.
  intros H1 H2. unfold xorBytes_m, xorBytes. rewrite !view_length by assumption.
  destruct (Nat.eqb_spec (m_len b1) (m_len b2)) as [E|E]; cbn [negb]; [|apply returns_new_panic].
  gol m_make_eq. rewrite to_nat_mlen.
  pose proof (xor_loop_ok h b1 b2 (m_len b1) H1 H2 (view h b1) (view h b2) [] []) as X.
  rewrite !view_length in X by assumption. specialize (X eq_refl eq_refl eq_refl E eq_refl).
  go X. apply fill_done. rewrite map2_xor.
  rewrite <- (view_length h b1 H1). assert (E' : length (view h b1) = length (view h b2)) by now rewrite !view_length.
  clear -E'. change ([] ++ view h b1) with (view h b1). change ([] ++ view h b2) with (view h b2).
  revert E'. generalize (view h b1) (view h b2). intros v1.
  induction v1 as [|x v1 IH]; intros [|y v2]; simpl; intros; try lia. now rewrite <- IH by lia.
Qed.

Lemma derivePad_length k salt n d : derivePad k salt n = Ok d -> length d = n.
Proof.
  unfold derivePad. destruct (hkdf_read k salt [] n) as [pad| |]; cbn [bind]; try discriminate.
  destruct (Nat.eqb_spec (length pad) n); [|discriminate]. intros E. apply Ok_inj in E. now subst.
Qed.

Lemma derivePad_m_ok h s salt n : valid h s -> (0 <= n)%Z ->
  returns_new h (derivePad_m s salt n h) (derivePad (view h s) salt (Z.to_nat n)).
Proof.
  intros Hs Hn. unfold derivePad_m. go eq_refl. gol m_make_eq. cbn [m_len]. unfold mbind, lift.
  destruct (derivePad (view h s) salt (Z.to_nat n)) as [d| |] eqn:E.
  - pose proof (derivePad_length _ _ _ _ E) as L.
    assert (X : m_copy_bytes (mkM (length h) 0 (Z.to_nat n) (Z.to_nat n)) d (h ++ [zeros (Z.to_nat n)]) = (Ok tt, h ++ [d])).
    { rewrite <- L. etransitivity; [refine (copy_bytes_fill h [] _ _ _ _ _ eq_refl eq_refl (le_n _) d (le_n _))|].
      now rewrite Nat.sub_diag, app_nil_r. }
    rewrite X. rewrite <- L. apply returns_new_intro.
  - eapply rn_weaken. apply returns_new_err.
  - eapply rn_weaken. apply returns_new_panic.
Qed.

Lemma Encrypt_m_ok h s flag body : valid h s -> valid h body ->
  returns_new h (Encrypt_m s flag body h) (Encrypt hkdfSHA256BucketEncryptor (view h s) flag (view h body)).
Proof.
  intros Hs Hb. unfold Encrypt_m, Encrypt.
  apply returns_new_bind; [apply derivePad_m_ok; [assumption|lia]|].
  intros hp ext Hhp Nhp _. pose proof (valid_app h ext s Hs) as Hs1. pose proof (valid_app h ext body Hb) as Hb1.
  rewrite <- (view_app h ext s Hs), <- (view_app h ext body Hb).
  clear Hs Hb. remember (h ++ ext) as h1 eqn:Eh1. clear ext Eh1 Nhp.
  eapply rn_go; [apply m_make_eq; lia|]. change (Z.to_nat 21) with 21%nat.
  eapply rn_go; [refine (m_set_fill h1 (zeros 20) 0 flag 21 eq_refl 20 eq_refl)|].
  change (zeros 0) with (@nil byte). rewrite app_nil_r.
  match goal with |- returns_new _ (mbind _ _ ?H) _ =>
    assert (Hh : valid H (mkM (length h1) 0 21 21)) by apply (valid_new h1 (zeros 20 ++ [flag]));
    assert (Vh : view H (mkM (length h1) 0 21 21) = zeros 20 ++ [flag]) by apply (view_new h1 (zeros 20 ++ [flag]));
    remember H as h2 eqn:Eh2
  end.
  assert (Q : forall t, valid h1 t -> valid h2 t /\ view h2 t = view h1 t).
  { intros t Ht. subst h2. split; [now apply valid_app|now apply view_app]. }
  destruct (Q hp Hhp) as [Hhp2 Ehp]. destruct (Q s Hs1) as [Hs2 Es]. destruct (Q body Hb1) as [Hb2 Eb].
  change (zeros CtxtKeyCheckSize ++ [flag]) with (zeros 20 ++ [flag]).
  rewrite <- Ehp, <- Es, <- Eb. rewrite <- Vh.
  eapply (rn_weaken h1 [zeros 20 ++ [flag]]). change (h1 ++ [zeros 20 ++ [flag]]) with (h1 ++ [zeros 20 ++ [flag]]) in Eh2.
  match type of Eh2 with _ = ?X => match goal with |- returns_new ?Y _ _ => change Y with X end end. rewrite <- Eh2.
  set (hd := mkM (length h1) 0 21 21) in *. clearbody hd. clear Q Eh2 Hs1 Hb1 Hhp Ehp Es Eb Vh.
  apply returns_new_bind; [now apply xorBytes_m_ok|].
  intros eh ext Heh _ _.
  rewrite <- (view_app h2 ext s Hs2), <- (view_app h2 ext body Hb2).
  apply (valid_app _ ext) in Hs2. apply (valid_app _ ext) in Hb2. match goal with |- returns_new ?H _ _ => remember H as h3 end.
  clear ext Heqh3 Hhp2 Hh h2 hd hp.
  rewrite (view_length h3 body Hb2). rewrite <- to_nat_mlen.
  apply returns_new_bind; [apply derivePad_m_ok; [assumption|apply mlen_pos]|].
  intros bp ext Hbp _ _. rewrite <- (view_app h3 ext eh Heh), <- (view_app h3 ext body Hb2).
  apply (valid_app _ ext) in Heh. apply (valid_app _ ext) in Hb2. match goal with |- returns_new ?H _ _ => remember H as h4 end. clear ext Heqh4 Hs2 h3.
  apply returns_new_bind; [now apply xorBytes_m_ok|].
  intros eb ext Heb _ _. rewrite <- (view_app h4 ext eh Heh).
  apply (valid_app _ ext) in Heh. match goal with |- returns_new ?H _ _ => remember H as h5 end. clear ext Heqh5 Hb2 Hbp h4.
  gol m_make_eq.
  assert (HN : Z.to_nat (mlen eh + 4 + mlen eb) = (m_len eh + 4 + m_len eb)%nat) by (unfold mlen; lia).
  rewrite HN. remember (m_len eh + 4 + m_len eb)%nat as n eqn:En.
  gol (m_copy_fill h5 []). unfold mlen in *. gol m_from_new. rewrite app_nil_l.
  unfold m_put32. gol (m_put_fill h5). rewrite app_assoc, be32_length.
  gol m_from_new. gol (m_copy_fill h5).
  match goal with |- context [zeros ?k] => replace k with 0%nat by lia end.
  cbn [zeros repeat]. rewrite app_nil_r, <- !app_assoc.
  replace (Z.to_N (Z.of_nat (m_len eb))) with (N.of_nat (length (view h5 eb))) by (rewrite view_length by assumption; lia).
  apply fill_done. side.
Qed.

Lemma DecryptBody_m_ok h s c : valid h s -> valid h c ->
  returns_new h (DecryptBody_m s c h) (DecryptBody hkdfSHA256BucketEncryptor (view h s) (view h c)).
Proof.
  intros Hs Hc. unfold DecryptBody_m, DecryptBody. rewrite (view_length h c Hc), <- to_nat_mlen.
  apply returns_new_bind; [apply derivePad_m_ok; [assumption|apply mlen_pos]|].
  intros bp ext Hbp _ _. rewrite <- (view_app h ext c Hc). apply xorBytes_m_ok; [now apply valid_app|assumption].
Qed.

(* ----- outcomes without memory ----- *)

Lemma ret_go {A B} (f : mem A) (k : A -> mem B) h0 h a h' r :
  f h = (Ok a, h') -> returns h0 (k a h') r -> returns h0 (mbind f k h) r.
Proof. apply (go_ok (fun o => returns h0 o r)). Qed.

Lemma returns_here {A} h (r : res A) : returns h (r, h) r.
Proof. split; [exists []; now rewrite app_nil_r|reflexivity]. Qed.
Lemma returns_ext {A} h e (r : res A) : returns h (r, h ++ e) r.
Proof. split; [now exists e|reflexivity]. Qed.

Lemma returns_bind_new {A} h (f : mem mslice) r (k : mslice -> mem A) (rk : bytes -> res A) :
  returns_new h (f h) r ->
  (forall s ext, valid (h ++ ext) s -> new_in h (h ++ ext) s -> r = Ok (view (h ++ ext) s) ->
     returns (h ++ ext) (k s (h ++ ext)) (rk (view (h ++ ext) s))) ->
  returns h ((x <~ f ;; k x) h) (x <- r ;; rk x).
Proof.
  intros [[ext E] Hf] Hk. unfold mbind. destruct (f h) as [[s|e|m] h'] eqn:F; cbn [fst snd] in *; subst h'.
  - destruct r as [b| |]; try contradiction. destruct Hf as (Ev & Hv & Hn). cbn [bind].
    specialize (Hk s ext Hv Hn). rewrite Ev in Hk. destruct (Hk eq_refl) as [[ext' E'] Hk'].
    split; [exists (ext ++ ext'); now rewrite E', app_assoc|exact Hk'].
  - destruct r; try contradiction. split; [now exists ext|now subst].
  - destruct r; try contradiction. split; [now exists ext|now subst].
Qed.

Lemma get_be32_firstn b : get_be32 (firstn 4 b) = get_be32 b.
Proof. destruct b as [|x [|y [|z [|w b]]]]; reflexivity. Qed.

Lemma lor_lt8 a b : (a < 256)%N -> (b < 256)%N -> (N.lor a b < 256)%N.
Proof.
  intros A B. assert (E : (N.lor a b = N.lor a b mod 2 ^ 8)%N); [|rewrite E; apply N.mod_lt; discriminate].
  apply N.bits_inj. intros i. destruct (N.lt_ge_cases i 8) as [H|H].
  - rewrite N.mod_pow2_bits_low by exact H. reflexivity.
  - rewrite N.mod_pow2_bits_high by exact H. rewrite N.lor_spec.
    rewrite <- (N.mod_small a (2 ^ 8)), <- (N.mod_small b (2 ^ 8)) by assumption. rewrite !N.mod_pow2_bits_high by exact H. reflexivity.
Qed.
Lemma bor_zero v a b : Byte.eqb (bor v (bxor a b)) Byte.x00 = Byte.eqb v Byte.x00 && Byte.eqb a b.
Proof.
  assert (B : bN (bor v (bxor a b)) = N.lor (bN v) (N.lxor (bN a) (bN b))).
  { unfold bor. rewrite bN_nB_small by (apply lor_lt8; apply bN_lt). rewrite bN_bxor. reflexivity. }
  destruct (Byte.eqb v Byte.x00) eqn:V; [apply Byte.byte_dec_bl in V; subst v|]; cbn [andb].
  - change (bN Byte.x00) with 0%N in B. rewrite N.lor_0_l in B. destruct (Byte.eqb a b) eqn:E.
    + apply Byte.byte_dec_bl in E. subst b. rewrite N.lxor_nilpotent in B. replace (bor Byte.x00 (bxor a a)) with Byte.x00 by (apply bN_inj; symmetry; exact B). reflexivity.
    + destruct (Byte.eqb (bor _ _) Byte.x00) eqn:Z; [|reflexivity]. apply Byte.byte_dec_bl in Z. rewrite Z in B. symmetry in B. apply N.lxor_eq in B.
      apply bN_inj in B. subst b. destruct a; discriminate E.
  - destruct (Byte.eqb (bor _ _) Byte.x00) eqn:Z; [|reflexivity]. apply Byte.byte_dec_bl in Z. rewrite Z in B. symmetry in B. apply N.lor_eq_0_iff in B as [B _].
    apply (bN_inj v Byte.x00) in B. subst v. discriminate.
Qed.
Lemma ct_loop_ok h x y : valid h x -> valid h y -> forall rx ry dx dy v,
  view h x = dx ++ rx -> view h y = dy ++ ry -> length dx = length dy -> length rx = length ry ->
  exists w, ct_loop_m (length rx) (Z.of_nat (length dx)) x y v h = (Ok w, h) /\ Byte.eqb w Byte.x00 = Byte.eqb v Byte.x00 && bytes_eqb rx ry.
Proof.
  intros Hx Hy. induction rx as [|a rx IH]; intros [|b ry] dx dy v E1 E2 Ld Lr; try discriminate.
  { exists v. split; [reflexivity|]. rewrite andb_true_r. reflexivity. }
  cbn [length ct_loop_m].
  assert (L1 : m_len x = (length dx + S (length rx))%nat) by (rewrite <- (view_length h x Hx), E1, app_length; reflexivity).
  assert (L2 : m_len y = (length dx + S (length rx))%nat) by (rewrite <- (view_length h y Hy), E2, app_length, <- Ld; cbn [length] in *; lia).
  erewrite mbind_ok; [|apply m_get_eq; [assumption|unfold mlen; lia]].
  erewrite mbind_ok; [|apply m_get_eq; [assumption|unfold mlen; lia]].
  rewrite !Nat2Z.id.
  assert (N1 : nth (length dx) (view h x) Byte.x00 = a) by (rewrite E1; apply nth_split_head).
  assert (N2 : nth (length dx) (view h y) Byte.x00 = b) by (rewrite E2, Ld; apply nth_split_head).
  rewrite N1, N2.
  replace (Z.of_nat (length dx) + 1)%Z with (Z.of_nat (length (dx ++ [a]))) by (rewrite app_length; simpl; lia).
  destruct (IH ry (dx ++ [a]) (dy ++ [b]) (bor v (bxor a b))) as (w & R & W).
  - now rewrite <- app_assoc.
  - now rewrite <- app_assoc.
  - rewrite !app_length. simpl. lia.
  - cbn [length] in Lr. lia.
  - exists w. split; [exact R|]. rewrite W, bor_zero. cbn [bytes_eqb]. rewrite andb_assoc. reflexivity.
Qed.
Lemma ct_compare_ok h x y : valid h x -> valid h y -> m_len x = m_len y -> ct_compare_m x y h = (Ok (bytes_eqb (view h x) (view h y)), h).
Proof.
  intros Hx Hy L. unfold ct_compare_m. rewrite L, Nat.eqb_refl. cbn [negb].
  destruct (ct_loop_ok h x y Hx Hy (view h x) (view h y) [] [] Byte.x00 eq_refl eq_refl eq_refl) as (w & R & W); [rewrite !view_length by assumption; exact L|].
  rewrite view_length, L in R by assumption. change (Z.of_nat (length [])) with 0%Z in R. erewrite mbind_ok; [|exact R]. rewrite W. reflexivity.
Qed.

Lemma DecryptHeader_m_ok iw h s c : valid h s -> valid h c ->
  returns h (DecryptHeader_m iw s c h) (DecryptHeader iw hkdfSHA256BucketEncryptor (view h s) (view h c)).
Proof.
  intros Hs Hc. unfold DecryptHeader_m, DecryptHeader. rewrite (view_length h c Hc).
  destruct (Nat.ltb_spec (m_len c) HeaderSize) as [Hl|Hl]; [apply returns_here|].
  change HeaderSize with 25%nat in Hl.
  apply returns_bind_new; [apply derivePad_m_ok; [assumption|lia]|].
  intros hp ext Hhp _ Ehp. symmetry in Ehp. rewrite <- (view_app h ext c Hc).
  apply (valid_app _ ext) in Hc. match goal with |- returns ?H _ _ => remember H as h1 end.
  pose proof (derivePad_length _ _ _ _ (eq_sym Ehp)) as Lp. rewrite view_length in Lp by assumption.
  change (m_len hp = 21%nat) in Lp. clear Ehp Heqh1 ext Hs h.
  destruct (m_upto_any hp 20 h1 Hhp ltac:(unfold mlen; lia)) as (p & E & Hp & Lpp & Vp).
  eapply ret_go; [apply E|].
  destruct (m_upto_any c 20 h1 Hc ltac:(unfold mlen; lia)) as (q & E2 & Hq & Lq & Vq).
  eapply ret_go; [apply E2|]. eapply ret_go; [apply ct_compare_ok; [assumption..|congruence]|].
  eapply ret_go; [apply m_get_eq; [assumption|unfold mlen; lia]|].
  eapply ret_go; [apply m_get_eq; [assumption|unfold mlen; lia]|].
  destruct (m_slice_eq c 21 25 h1 Hc ltac:(lia) ltac:(unfold mlen; lia)) as (l & E3 & Hl2 & Ll & Vl).
  eapply ret_go; [apply E3|]. eapply ret_go; [reflexivity|].
  rewrite Vl, Vp, Vq. change (Z.to_nat (25 - 21)) with 4%nat. rewrite get_be32_firstn.
  change (Z.to_nat 21) with (CtxtKeyCheckSize + 1)%nat. unfold mbind, lift.
  destruct (get_be32 (skipn (CtxtKeyCheckSize + 1) (view h1 c))); apply returns_here.
Qed.

(* ----- responses ----- *)

Lemma MarshalBinary_m_ok h r : returns_new h (MarshalBinary_m r h) (MarshalBinary (read_response h r)).
Proof.
  unfold MarshalBinary_m, MarshalBinary, read_response. cbn [rs_version rs_evaluatedElement rs_bucketContents].
  go eq_refl. go eq_refl. destruct (mr_bucket r); apply returns_new_intro.
Qed.

Lemma UnmarshalBinary_m_ok LIB h data : valid h data ->
  leaves_memory h (UnmarshalBinary_m LIB data h) /\
  match fst (UnmarshalBinary_m LIB data h) with
  | Ok r => UnmarshalBinary LIB (view h data) = Ok (read_response (snd (UnmarshalBinary_m LIB data h)) r) /\
            valid_response (snd (UnmarshalBinary_m LIB data h)) r /\
            new_in h (snd (UnmarshalBinary_m LIB data h)) (mr_element r) /\
            exists k, mr_bucket r = Some (mkM (m_arr data) (m_off data + k) (m_len data - k) (m_cap data - k)) /\ (k <= m_len data)%nat
  | Err e => UnmarshalBinary LIB (view h data) = Err e
  | Panic m => UnmarshalBinary LIB (view h data) = Panic m
  end.
Proof.
  intros Hd. unfold UnmarshalBinary_m, UnmarshalBinary.
  pose proof (view_length h data Hd) as Ld.
  destruct (Nat.eqb_spec (m_len data) 0) as [E0|E0].
  { destruct (view h data); [|simpl in Ld; lia]. split; [exists []; now rewrite app_nil_r|reflexivity]. }
  destruct (view h data) as [|x0 v0] eqn:Ev; [simpl in Ld; lia|]. rewrite <- Ev in *. clear x0 v0 Ev.
  rewrite Ld. destruct (Nat.ltb_spec (m_len data) 4) as [E4|E4].
  { split; [exists []; now rewrite app_nil_r|reflexivity]. }
  destruct (m_upto_any data 4 h Hd ltac:(unfold mlen; lia)) as (vb & E & Hvb & Lvb & Vvb).
  rewrite (mbind_ok _ _ _ _ _ (E h)). rewrite (mbind_ok _ _ _ _ _ (eq_refl : m_view vb h = (Ok (view h vb), h))).
  rewrite Vvb. change (Z.to_nat 4) with 4%nat. rewrite get_be32_firstn.
  destruct (get_be32_ok (view h data) ltac:(lia)) as (v & Gv & _). rewrite Gv. cbn [bind].
  rewrite (mbind_ok _ _ _ _ _ (eq_refl : lift (Ok v) h = (Ok v, h))).
  assert (EB : m_from data 4 h = (Ok (mkM (m_arr data) (m_off data + 4) (m_len data - 4) (m_cap data - 4)), h)).
  { destruct (m_from_any data 4 h Hd ltac:(unfold mlen; lia)) as (t & E' & _). rewrite E'.
    specialize (E' h). revert E'. unfold m_from, m_slice. destruct (_ || _ || _); [discriminate|].
    unfold ret. intros X. apply pair_inj in X as [X _]. apply Ok_inj in X. subst t.
    do 2 f_equal. f_equal. unfold mlen. lia. }
  rewrite (mbind_ok _ _ _ _ _ EB).
  destruct (m_from_any data 4 h Hd ltac:(unfold mlen; lia)) as (buf & E' & Hbuf & Lbuf & Vbuf).
  specialize (E' h). rewrite EB in E'. apply pair_inj in E' as [E' _]. apply Ok_inj in E'. rewrite E'.
  change (Z.to_nat 4) with 4%nat in *.
  assert (Lb : length (skipn 4 (view h data)) = m_len buf) by (rewrite skipn_length; lia). rewrite Lb.
  destruct (elt_size LIB DefaultOPRFSuite) as [n| |] eqn:En; cbn [bind];
    [|split; [exists []; now rewrite app_nil_r|reflexivity]..].
  rewrite (mbind_ok _ _ _ _ _ (eq_refl : lift (Ok n) h = (Ok n, h))).
  rewrite (mbind_ok _ _ _ _ _ (m_make_eq (Z.of_nat n) h ltac:(lia))). rewrite Nat2Z.id.
  destruct ((m_len buf =? 0)%nat && negb (n =? 0)%nat).
  { split; [now eexists|reflexivity]. }
  rewrite firstn_length, Lb.
  assert (EC : exists x, m_copy (mkM (length h) 0 n n) buf (h ++ [zeros n]) = (Ok tt, h ++ [x]) /\
    (n <= m_len buf -> x = firstn n (view h buf))%nat).
  { unfold m_copy. rewrite (mbind_ok _ _ _ _ _ (m_view_old h _ buf Hbuf)).
    unfold m_copy_bytes. cbn [m_arr m_off m_len]. rewrite write_last. eexists. split; [reflexivity|].
    intros Hn. unfold splice. cbn [firstn app Nat.add].
    rewrite skipn_zeros, firstn_length, view_length, Nat.min_l, Nat.sub_diag by assumption.
    apply app_nil_r. }
  destruct EC as (x & EC & Hx). rewrite (mbind_ok _ _ _ _ _ EC).
  destruct (Nat.ltb_spec (m_len buf) n) as [Hn|Hn].
  { rewrite Nat.min_r by lia. destruct (Nat.eqb_spec (m_len buf) n); [lia|]. split; [now eexists|reflexivity]. }
  rewrite Nat.min_l, Nat.eqb_refl by lia. cbn [negb]. specialize (Hx Hn).
  assert (EF : m_from buf (Z.of_nat n) (h ++ [x]) =
     (Ok (mkM (m_arr buf) (m_off buf + n) (m_len buf - n) (m_cap buf - n)), h ++ [x])).
  { unfold m_from, m_slice, mlen. destruct Hbuf as [Hc _].
    destruct (Z.ltb_spec (Z.of_nat n) 0); [lia|]. destruct (Z.ltb_spec (Z.of_nat (m_len buf)) (Z.of_nat n)); [lia|].
    destruct (Z.ltb_spec (Z.of_nat (m_cap buf)) (Z.of_nat (m_len buf))); [lia|]. cbn [orb]. unfold ret.
    do 3 f_equal; lia. }
  destruct (m_from_any buf (Z.of_nat n) h Hbuf ltac:(unfold mlen; lia)) as (rest & E'' & Hrest & Lrest & Vrest).
  rewrite (mbind_ok _ _ _ _ _ EF). specialize (E'' (h ++ [x])). rewrite EF in E''.
  apply pair_inj in E'' as [E'' _]. apply Ok_inj in E''. cbn [ret fst snd].
  assert (Lx : n = length x) by (rewrite Hx, firstn_length, view_length by assumption; lia).
  split; [now exists [x]|]. split; [|split; [|split]].
  - unfold read_response. cbn [mr_version mr_element mr_bucket option_map]. f_equal. f_equal.
    + rewrite Lx at 2 3. rewrite view_new, Hx, Vbuf. reflexivity.
    + f_equal. rewrite E'', view_app, Vrest, Vbuf, Nat2Z.id by assumption. reflexivity.
  - split; cbn [mr_element mr_bucket].
    + rewrite Lx at 1 2. apply valid_new.
    + intros b Hb. apply Some_inj in Hb. subst b. rewrite E''. now apply valid_app.
  - unfold new_in. cbn [mr_element m_arr]. rewrite app_length. simpl. lia.
  - exists (4 + n)%nat. cbn [mr_bucket]. rewrite <- E'. cbn [m_arr m_off m_len m_cap].
    split; [|rewrite <- E' in *; cbn [m_len] in *; lia]. do 2 f_equal; lia.
Qed.

(* ----- keys, entries, requests ----- *)

Lemma slowHash_any h sh s : valid h s ->
  exists e r, slowHash_m sh s h = (r, h ++ e) /\
    match r with
    | Ok t => SlowHasher_Hash sh (view h s) = Ok (view (h ++ e) t)
    | Err m => SlowHasher_Hash sh (view h s) = Err m
    | Panic m => SlowHasher_Hash sh (view h s) = Panic m
    end.
Proof.
  intros Hs. destruct sh as [salt n r p L|].
  - pose proof (slowHash_m_ok h (scryptSlowHasher salt n r p L) s Hs ltac:(discriminate)) as [[e E] R].
    destruct (slowHash_m _ s h) as [o h'] eqn:F. cbn [fst snd] in *. subst h'. exists e, o. split; [reflexivity|].
    destruct o, (SlowHasher_Hash _ _); try contradiction; [|now subst..]. destruct R as [R _]. now rewrite R.
  - exists [], (Ok s). rewrite app_nil_r. split; reflexivity.
Qed.

Lemma deriveKey_m_ok {LIB} h (s : Server LIB) u p : valid h u -> valid h p ->
  returns_new h (deriveKey_m s u p h) (deriveBucketEntryKey s (view h u) (view h p)).
Proof.
  intros Hu Hp. unfold deriveKey_m, deriveBucketEntryKey.
  apply returns_new_bind; [now apply serialize_m_ok|].
  intros ser ext Hser _ _. match goal with |- returns_new ?H _ _ => remember H as h1 end.
  destruct (slowHash_any h1 (s_slowHasher s) ser Hser) as (e & r & E & R).
  unfold mbind at 1. rewrite E. destruct r as [t| |]; rewrite R; cbn [bind];
    [|split; [now exists e|reflexivity]..].
  apply (rn_weaken h1 e). go eq_refl. unfold mbind, lift.
  destruct (full_evaluate _ _ _ _ _); [apply returns_new_intro|apply returns_new_err|apply returns_new_panic].
Qed.

Lemma EncryptEntry_m_ok {LIB} h (s : Server LIB) u p flag m : valid h u -> valid h p -> valid h m ->
  returns_new h (EncryptEntry_m s u p flag m h) (EncryptBucketEntry s (view h u) (view h p) flag (view h m)).
Proof.
  intros Hu Hp Hm. unfold EncryptEntry_m, EncryptBucketEntry.
  destruct (negb _); [apply returns_new_err|].
  apply returns_new_bind; [now apply deriveKey_m_ok|].
  intros k ext Hk _ _. destruct (s_bucketEncryptor s). rewrite <- (view_app h ext m Hm).
  apply Encrypt_m_ok; [assumption|now apply valid_app].
Qed.

Lemma returns_weaken {A} h e o (r : res A) : returns (h ++ e) o r -> returns h o r.
Proof. intros [[ext E] R]. split; [exists (e ++ ext); now rewrite E, app_assoc|exact R]. Qed.

Lemma Request_m_ok {LIB : OPRF} h c u p (r : Blind LIB) : valid h u -> valid h p ->
  returns h (Request_m c u p r h) (Request c (view h u) (view h p) r).
Proof.
  intros Hu Hp. unfold Request_m, Request.
  apply returns_bind_new; [now apply serialize_m_ok|].
  intros ser ext Hser _ _. rewrite <- (view_app h ext u Hu). apply (valid_app _ ext) in Hu.
  match goal with |- returns ?H _ _ => remember H as h1 end.
  destruct (slowHash_any h1 (c_slowHasher c) ser Hser) as (e & o & E & R).
  unfold mbind at 1. rewrite E. destruct o as [t| |]; rewrite R; cbn [bind]; [|apply returns_ext..].
  apply (returns_weaken h1 e). eapply ret_go; [reflexivity|]. cbv beta.
  rewrite <- (view_app h1 e u Hu). apply (valid_app _ e) in Hu.
  match goal with |- returns ?H _ _ => remember H as h2 end.
  unfold mbind at 1, lift at 1.
  destruct (blind LIB (c_oprfSuite c) [view h2 t] [r]) as [bs| |]; cbn [bind]; [|apply returns_here..].
  destruct bs as [|b bs]; [apply returns_here|]. unfold Client_BucketID.
  pose proof (bucketHash_m_ok h2 (c_bucketHasher c) u Hu) as B.
  assert (G : returns h2 ((bh <~ bucketHash_m (c_bucketHasher c) u ;; hash <~ m_view bh ;;
      id <~ lift (bucketHashToID hash (c_bits c)) ;;
      ret ({| rq_version := c_version c; rq_bucketID := BucketIDToHex id; rq_blindElement := Some b |},
           {| ctx_client := c; ctx_inputs := [view h2 t]; ctx_blinds := [r] |})) h2)
    (hash <- BucketHasher_Hash (c_bucketHasher c) (view h2 u) ;; 
     (id <- bucketHashToID hash (c_bits c) ;; Ok ({| rq_version := c_version c; rq_bucketID := BucketIDToHex id; rq_blindElement := Some b |},
           {| ctx_client := c; ctx_inputs := [view h2 t]; ctx_blinds := [r] |})))).
  { apply returns_bind_new; [assumption|]. intros bh ext2 _ _ _. eapply ret_go; [reflexivity|].
    unfold mbind, lift. destruct (bucketHashToID _ _); apply returns_here. }
  match type of G with returns _ _ ?x => match goal with |- returns _ _ ?y => replace y with x; [exact G|] end end.
  destruct (BucketHasher_Hash _ _) as [hs| |]; reflexivity.
Qed.

Lemma HandleRequest_m_ok {LIB} h (s : Server LIB) version id b kv : valid h b ->
  (forall k v, kv k = Ok (Some v) -> valid h v) ->
  let kv' k := match kv k with Ok v => Ok (option_map (view h) v) | Err e => Err e | Panic m => Panic m end in
  let o := HandleRequest_m s version id b kv h in
  let r := HandleRequest s {| rq_version := version; rq_bucketID := id; rq_blindElement := Some (view h b) |} kv' in
  leaves_memory h o /\
  match fst o with
  | Ok m => r = Ok (read_response (snd o) m) /\ valid_response (snd o) m /\
            new_in h (snd o) (mr_element m) /\ kv id = Ok (mr_bucket m)
  | Err e => r = Err e
  | Panic e => r = Panic e
  end.
Proof.
  intros Hb Hkv kv' o r. subst o r. unfold HandleRequest_m, HandleRequest. cbn [rq_version rq_bucketID rq_blindElement sl].
  destruct (negb _). { split; [exists []; now rewrite app_nil_r|reflexivity]. }
  rewrite (mbind_ok _ _ _ _ _ (eq_refl : m_view b h = (Ok (view h b), h))). unfold mbind at 1 3 5, lift at 1 3 5.
  destruct (evaluate LIB (s_oprfSuite s) (s_privateKey s) [view h b] OprfInfo) as [es| |]; cbn [bind];
    [|split; [exists []; now rewrite app_nil_r|reflexivity]..].
  destruct es as [|e es]. { split; [exists []; now rewrite app_nil_r|reflexivity]. }
  rewrite (mbind_ok _ _ _ _ _ (eq_refl : m_new e h = (Ok (mkM (length h) 0 (length e) (length e)), h ++ [e]))).
  destruct (hex_decode id). 2,3: (split; [now exists [e]|reflexivity]).
  unfold kv'. unfold mbind, lift. destruct (kv id) as [v| |] eqn:Ek; cbn [bind ret fst snd];
    [|split; [now exists [e]|reflexivity]..].
  split; [now exists [e]|]. split; [|split; [|split]].
  - unfold read_response. cbn [mr_version mr_element mr_bucket]. f_equal.
    f_equal; [symmetry; apply (view_new h e)|].
    destruct v as [v|]; [|reflexivity]. cbn [option_map]. f_equal. symmetry. apply view_app. eapply Hkv; eassumption.
  - split; cbn [mr_element mr_bucket]; [apply valid_new|]. intros v' E. subst v. apply valid_app. eapply Hkv; eassumption.
  - change (new_in h (h ++ [e]) (mkM (length h) 0 (length e) (length e))).
    unfold new_in. cbn [m_arr]. rewrite app_length. simpl. lia.
  - reflexivity.
Qed.

(* ----- Finalize ----- *)

Lemma slice_eq v lo hi : (0 <= lo <= hi)%Z -> (hi <= blen v)%Z ->
  slice v lo hi = Ok (firstn (Z.to_nat (hi - lo)) (skipn (Z.to_nat lo) v)).
Proof.
  intros A B. unfold slice. destruct (Z.ltb_spec lo 0); [lia|]. destruct (Z.ltb_spec hi lo); [lia|].
  destruct (Z.ltb_spec (blen v) hi); [lia|]. reflexivity.
Qed.

(** The loop, with the optional outcome of the functional model. *)
Definition loop_verdict (h : heap) (o : res (option (BreachStatus * option mslice)) * heap) (r : option (res (BreachStatus * gslice))) : Prop :=
  match fst o with
  | Ok None => leaves_memory h o /\ r = None
  | Ok (Some x) => exists r', r = Some r' /\ returns_verdict h (Ok x, snd o) r'
  | Err e => leaves_memory h o /\ r = Some (Err e)
  | Panic m => leaves_memory h o /\ r = Some (Panic m)
  end.

Lemma leaves_here {A} h (r : res A) : leaves_memory h (r, h).
Proof. exists []. now rewrite app_nil_r. Qed.

Lemma loop_verdict_weaken h e o r : loop_verdict (h ++ e) o r -> loop_verdict h o r.
Proof.
  unfold loop_verdict, returns_verdict, leaves_memory. destruct o as [o h']; cbn [fst snd].
  assert (X : (exists ext, h' = (h ++ e) ++ ext) -> exists ext, h' = h ++ ext).
  { intros [ext ->]. exists (e ++ ext). now rewrite app_assoc. }
  destruct o as [[[st [s|]]|]| |].
  - intros (r' & -> & L & R). exists r'. split; [reflexivity|]. split; [now apply X|].
    destruct r' as [[st' [b|]]| |]; try contradiction. destruct R as (A & B & C & D).
    repeat (split; [assumption|]). unfold new_in in *. rewrite app_length in D. lia.
  - intros (r' & -> & L & R). exists r'. split; [reflexivity|]. split; [now apply X|assumption].
  - intros [L R]. split; [now apply X|assumption].
  - intros [L R]. split; [now apply X|assumption].
  - intros [L R]. split; [now apply X|assumption].
Qed.

Lemma finalize_loop_m_ok iw fuel : forall h secret contents offset, valid h secret -> valid h contents ->
  loop_verdict h (finalize_loop_m iw fuel secret contents offset h)
    (finalize_loop iw fuel hkdfSHA256BucketEncryptor (view h secret) (view h contents) offset).
Proof.
  induction fuel as [|fuel IH]; intros h secret contents offset Hs Hc; cbn [finalize_loop_m finalize_loop].
  { split; [apply leaves_here|reflexivity]. }
  rewrite <- (view_blen h contents Hc).
  destruct (mlen contents <? int_wrap iw (offset + Z.of_nat HeaderSize))%Z eqn:E1.
  { eexists. split; [reflexivity|]. split; [apply leaves_here|reflexivity]. }
  assert (Hcap : (Z.of_nat (m_cap contents) <? mlen contents)%Z = false).
  { apply Z.ltb_ge. unfold mlen. destruct Hc as [Hc _]. lia. }
  destruct ((offset <? 0)%Z || (mlen contents <? offset)%Z) eqn:E2.
  { unfold slice_from. rewrite <- (view_blen h contents Hc), E2. cbn [bind].
    unfold mbind at 1, m_from, m_slice. rewrite Hcap, E2. cbn [orb]. split; [apply leaves_here|reflexivity]. }
  assert (Eo : (0 <= offset <= mlen contents)%Z).
  { apply orb_false_iff in E2 as [A B]. apply Z.ltb_ge in A. apply Z.ltb_ge in B. lia. }
  destruct (m_from_any contents offset h Hc Eo) as (t & E & Ht & Lt & Vt).
  rewrite (mbind_ok _ _ _ _ _ (E h)).
  unfold slice_from. rewrite <- (view_blen h contents Hc), E2. cbn [bind]. rewrite <- Vt.
  destruct (DecryptHeader_m_ok iw h secret t Hs Ht) as [[ext Ex] D].
  unfold mbind at 1. destruct (DecryptHeader_m iw secret t h) as [o h'] eqn:F. cbn [fst snd] in D, Ex. subst o h'.
  destruct (DecryptHeader iw hkdfSHA256BucketEncryptor (view h secret) (view h t)) as [[[vld flag] bodyLength]| |] eqn:EH;
    [|split; [now exists ext|reflexivity]..].
  set (off := int_wrap iw (offset + Z.of_nat HeaderSize)). cbv zeta.
  destruct (mlen contents <? int_wrap iw (off + bodyLength))%Z eqn:E3.
  { split; [now exists ext|reflexivity]. }
  apply Z.ltb_ge in E3.
  rewrite <- (view_app h ext secret Hs), <- (view_app h ext contents Hc).
  apply (valid_app _ ext) in Hs. apply (valid_app _ ext) in Hc.
  apply (loop_verdict_weaken h ext). match goal with |- loop_verdict ?H _ _ => remember H as h1 end.
  destruct vld; [|now apply IH].
  set (hi := int_wrap iw (off + bodyLength)) in *.
  destruct ((off <? 0)%Z || (hi <? off)%Z) eqn:E4.
  { unfold slice. rewrite E4. cbn [orb bind]. unfold mbind at 1, m_slice. rewrite E4. cbn [orb].
    split; [apply leaves_here|reflexivity]. }
  assert (Er : (0 <= off <= hi)%Z).
  { apply orb_false_iff in E4 as [A B]. apply Z.ltb_ge in A. apply Z.ltb_ge in B. lia. }
  destruct (m_slice_eq contents off hi h1 Hc Er E3) as (b & Eb & Hb & Lb & Vb).
  rewrite (mbind_ok _ _ _ _ _ Eb). rewrite slice_eq; [|assumption|now rewrite <- view_blen].
  cbn [bind]. rewrite <- Vb.
  destruct (DecryptBody_m_ok h1 secret b Hs Hb) as [[e2 Ee2] R].
  unfold mbind at 1. destruct (DecryptBody_m secret b h1) as [o h'] eqn:G. cbn [fst snd] in R, Ee2. subst h'.
  destruct o as [m| |], (DecryptBody hkdfSHA256BucketEncryptor (view h1 secret) (view h1 b)) as [mb| |]; try contradiction; cbn [bind].
  - destruct R as (A & B & C). eexists. split; [reflexivity|]. split; [now exists e2|].
    cbn [fst snd ret]. auto.
  - subst. split; [now exists e2|reflexivity].
  - subst. split; [now exists e2|reflexivity].
Qed.

Lemma finalize_secret_m_ok {LIB : OPRF} h (ctx : ClientRequestContext LIB) r :
  returns_new h (finalize_secret_m ctx r h) (finalize_secret ctx (read_response h r)).
Proof.
  unfold finalize_secret_m. go eq_refl. unfold mbind, lift.
  change (finalize_secret ctx {| rs_version := mr_version r; rs_evaluatedElement := view h (mr_element r); rs_bucketContents := None |})
    with (finalize_secret ctx (read_response h r)).
  destruct (finalize_secret ctx _); [apply returns_new_intro|apply returns_new_err|apply returns_new_panic].
Qed.

Lemma Finalize_m_ok {LIB : OPRF} h (ctx : ClientRequestContext LIB) r : valid_response h r ->
  returns_verdict h (Finalize_m ctx r h) (Finalize ctx (read_response h r)).
Proof.
  intros [He Hb]. unfold Finalize_m, Finalize, Finalize_fuel.
  set (contents := match mr_bucket r with Some b => b | None => m_nil end).
  assert (Hc : valid h contents).
  { unfold contents. destruct (mr_bucket r); [now apply Hb|]. split; [simpl; lia|]. left. reflexivity. }
  assert (Ec : sl (rs_bucketContents (read_response h r)) = view h contents).
  { unfold contents, read_response. cbn [rs_bucketContents]. destruct (mr_bucket r); reflexivity. }
  rewrite Ec. rewrite (view_length h contents Hc).
  destruct (finalize_secret_m_ok h ctx r) as [[ext E] R].
  unfold mbind at 1. destruct (finalize_secret_m ctx r h) as [o h']. cbn [fst snd] in E, R. subst h'.
  destruct o as [k| |], (finalize_secret ctx (read_response h r)) as [kb| |]; try contradiction;
    [|split; [now exists ext|exact R]..].
  destruct R as (Ek & Hk & _). destruct (c_bucketEncryptor (ctx_client ctx)).
  pose proof (finalize_loop_m_ok 64 (S (m_len contents)) (h ++ ext) k contents 0 Hk (valid_app _ _ _ Hc)) as L.
  apply loop_verdict_weaken in L. rewrite Ek, view_app in L by assumption.
  unfold mbind. unfold loop_verdict in L.
  destruct (finalize_loop_m 64 (S (m_len contents)) k contents 0 (h ++ ext)) as [o h']. cbn [fst snd] in L.
  destruct o as [[x|]| |].
  - destruct L as (r' & Er & L). rewrite Er. exact L.
  - destruct L as [L Er]. rewrite Er. split; [exact L|reflexivity].
  - destruct L as [L Er]. rewrite Er. split; [exact L|reflexivity].
  - destruct L as [L Er]. rewrite Er. split; [exact L|reflexivity].
Qed.
