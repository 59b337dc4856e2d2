(** Proofs for C71: the programs of MemProg.v agree with MemCode.v, and are
    confined to the slices they are given and to memory of their own. *)
From Coq Require Import Lia.
From Verif Require Import Base BaseProofs Murmur3 Common Hasher Encryptor Oprf Server Client Mutator Hex KV Mem MemCode MemProg.

(** ** Agreement *)
Definition same {A} (p : prog A) (m : mem A) : Prop := forall h, run p h = m h.

Lemma run_bind {A B} (x : prog A) (k : A -> prog B) : forall h,
  run (pbind x k) h = match run x h with
                      | (Ok a, h') => run (k a) h'
                      | (Err e, h') => (Err e, h')
                      | (Panic m, h') => (Panic m, h')
                      end.
Proof. induction x as [[a|e|m]|b c IH|a i c IH|a i b c IH]; intros h; cbn [pbind run]; auto. Qed.

Lemma same_bind {A B} (x : prog A) (y : mem A) (k : A -> prog B) (l : A -> mem B) :
  same x y -> (forall a, same (k a) (l a)) -> same (pbind x k) (mbind y l).
Proof. intros H K h. rewrite run_bind, H. unfold mbind. destruct (y h) as [[a|e|m] h']; auto. apply K. Qed.

Lemma same_ret {A} (a : A) : same (p_ret a) (ret a). Proof. intros h. reflexivity. Qed.
Lemma same_fail {A} e : same (@p_fail A e) (fail e). Proof. intros h. reflexivity. Qed.
Lemma same_panic {A} e : same (@p_panic A e) (panic e). Proof. intros h. reflexivity. Qed.
Lemma same_lift {A} (r : res A) : same (p_lift r) (lift r). Proof. intros h. reflexivity. Qed.
Lemma same_new b : same (p_new b) (m_new b). Proof. intros h. reflexivity. Qed.
Lemma same_make n : same (p_make n) (m_make n).
Proof. unfold p_make, m_make. destruct (n <? 0)%Z; [apply same_panic|apply same_new]. Qed.

Lemma run_load a : forall n i h, run (p_load a i n) h = (Ok (firstn n (skipn i (array h a))), h).
Proof.
  induction n as [|n IH]; intros i h; [reflexivity|]. cbn [p_load run].
  destruct (nth_error (array h a) i) as [b|] eqn:E.
  - rewrite run_bind, IH. cbn [run p_ret]. 
    assert (X : skipn i (array h a) = b :: skipn (S i) (array h a)).
    { revert E. generalize (array h a). clear. induction i as [|i IH]; intros [|x l] E; cbn in E |- *; try discriminate; [congruence|].
      rewrite (IH l E). reflexivity. }
    rewrite X. reflexivity.
  - apply nth_error_None in E. rewrite skipn_all2 by lia. reflexivity.
Qed.
Lemma same_view s : same (p_view s) (m_view s).
Proof. intros h. unfold p_view. rewrite run_load. reflexivity. Qed.

Lemma splice_cons_gen {A} (l : list A) o b d :
  firstn (S o) (firstn o l ++ [b] ++ skipn (o + 1) l) ++ d ++ skipn (S o + length d) (firstn o l ++ [b] ++ skipn (o + 1) l)
  = firstn o l ++ (b :: d) ++ skipn (o + S (length d)) l.
Proof.
  rewrite (app_assoc (firstn o l) [b]). destruct (Nat.le_gt_cases o (length l)) as [L|L].
  - assert (E2 : length (firstn o l ++ [b]) = S o) by (rewrite app_length, firstn_length; cbn [length]; lia).
    rewrite firstn_app, E2, Nat.sub_diag, firstn_O, app_nil_r, firstn_all2 by lia.
    rewrite skipn_app, E2, (skipn_all2 (firstn o l ++ [b])) by lia. cbn [app].
    rewrite skipn_skipn', <- app_assoc. cbn [app]. do 3 f_equal. f_equal. lia.
  - rewrite !(firstn_all2 (n := o) l), !(skipn_all2 l), app_nil_r by lia.
    rewrite (firstn_all2 (l ++ [b])), (skipn_all2 (l ++ [b])) by (rewrite app_length; cbn [length]; lia). rewrite <- app_assoc. reflexivity.
Qed.
Lemma splice_cons (l : bytes) o b (d : bytes) : splice (splice l o [b]) (S o) d = splice l o (b :: d).
Proof. exact (splice_cons_gen l o b d). Qed.
Lemma splice_nil l o : splice l o [] = l.
Proof. unfold splice. cbn [length app]. rewrite Nat.add_0_r. apply firstn_skipn. Qed.
Lemma upd_nth_same a (h : heap) : upd_nth a (array h a) h = h.
Proof. unfold array. revert h. induction a as [|a IH]; intros [|x h]; cbn; try reflexivity. rewrite IH. reflexivity. Qed.
Lemma upd_nth_twice a x y (h : heap) : upd_nth a x (upd_nth a y h) = upd_nth a x h.
Proof. revert h. induction a as [|a IH]; intros [|z h]; cbn; try reflexivity. rewrite IH. reflexivity. Qed.
Lemma array_upd a x (h : heap) : (a < length h)%nat -> array (upd_nth a x h) a = x.
Proof. unfold array. revert h. induction a as [|a IH]; intros [|z h] L; cbn in L |- *; try lia; [reflexivity|]. apply IH. lia. Qed.
Lemma upd_nth_out a x (h : heap) : (length h <= a)%nat -> upd_nth a x h = h.
Proof. revert h. induction a as [|a IH]; intros [|z h] L; cbn in L |- *; try reflexivity; [lia|]. rewrite IH by lia. reflexivity. Qed.
Lemma write_cons h a o b d : write (write h a o [b]) a (S o) d = write h a o (b :: d).
Proof.
  unfold write. destruct (Nat.le_gt_cases (length h) a) as [L|L].
  - rewrite !upd_nth_out; try reflexivity; try assumption; rewrite ?upd_nth_out; assumption.
  - rewrite array_upd by exact L. rewrite upd_nth_twice, splice_cons. reflexivity.
Qed.
Lemma write_nil h a o : write h a o [] = h.
Proof. unfold write. rewrite splice_nil. apply upd_nth_same. Qed.
Lemma run_store a : forall d i h, run (p_store a i d) h = (Ok tt, write h a i d).
Proof.
  induction d as [|b d IH]; intros i h; cbn [p_store run p_ret]; [rewrite write_nil; reflexivity|].
  rewrite IH, write_cons. reflexivity.
Qed.
Lemma same_copy_bytes d b : same (p_copy_bytes d b) (m_copy_bytes d b).
Proof. intros h. unfold p_copy_bytes. rewrite run_store. reflexivity. Qed.
Lemma same_copy d s : same (p_copy d s) (m_copy d s).
Proof.
  intros h. unfold p_copy, m_copy, mbind, m_view. rewrite run_bind, run_load. rewrite same_copy_bytes. unfold m_copy_bytes. do 2 f_equal.
  unfold view. rewrite !firstn_firstn. f_equal. lia.
Qed.
Lemma same_put s d : same (p_put s d) (m_put s d).
Proof. unfold p_put, m_put. destruct (_ <? _)%nat; [apply same_panic|apply same_copy_bytes]. Qed.
Lemma nth_skipn_opt {A} (l : list A) o i : nth_error (skipn o l) i = nth_error l (o + i).
Proof. revert l. induction o as [|o IH]; intros [|x l]; cbn; try reflexivity; [destruct i; reflexivity|apply IH]. Qed.
Lemma view_nth_gen {A} (d : A) l : forall o n i, (i < n)%nat ->
  nth i (firstn n (skipn o l)) d = match nth_error l (o + i) with Some b => b | None => d end.
Proof.
  intros o n i L. rewrite <- (nth_skipn_opt l o i). generalize (skipn o l). clear l. revert n L. induction i as [|i IH]; intros [|n] L [|x l]; try lia; cbn; try reflexivity.
  apply IH. lia.
Qed.
Lemma view_nth h s i : (i < m_len s)%nat ->
  nth i (view h s) Byte.x00 = match nth_error (array h (m_arr s)) (m_off s + i) with Some b => b | None => Byte.x00 end.
Proof. apply view_nth_gen. Qed.
Lemma same_get s i : same (p_get s i) (m_get s i).
Proof.
  intros h. unfold p_get, m_get. destruct (_ || _) eqn:E; [reflexivity|]. apply orb_false_iff in E as [E1 E2].
  apply Z.ltb_ge in E1. apply Z.leb_gt in E2. unfold mlen in E2. cbn [run p_ret]. f_equal. f_equal.
  symmetry. apply view_nth. lia.
Qed.
Lemma same_set s i b : same (p_set s i b) (m_set s i b).
Proof. intros h. unfold p_set, m_set. destruct (_ || _); reflexivity. Qed.
Lemma same_slice s lo hi : same (p_slice s lo hi) (m_slice s lo hi).
Proof. intros h. unfold p_slice, m_slice. destruct (_ || _ || _); reflexivity. Qed.

Create HintDb same.
#[global] Hint Resolve same_ret same_fail same_panic same_lift same_new same_make same_view same_copy_bytes same_copy same_put same_get same_set same_slice : same.
Ltac agree := repeat first
  [ progress intros
  | solve [auto 2 with same]
  | apply same_bind
  | match goal with |- same (if ?c then _ else _) _ => destruct c end
  | match goal with |- same (match ?c with _ => _ end) _ => destruct c end
  | match goal with |- same (let _ := ?c in _) _ => destruct c end
  | match goal with |- same (p_from _ _) _ => apply same_slice | |- same (p_upto _ _) _ => apply same_slice
                  | |- same (p_put16 _ _) _ => apply same_put | |- same (p_put32 _ _) _ => apply same_put end ].

Lemma same_changeCap o p : same (changeCap_p o p) (changeCap_m o p).
Proof. unfold changeCap_p, changeCap_m. agree. Qed.
Lemma same_deletePortion o p : same (deletePortion_p o p) (deletePortion_m o p).
Proof. unfold deletePortion_p, deletePortion_m. agree. Qed.
Lemma same_insert o p s : same (insert_p o p s) (insert_m o p s).
Proof. unfold insert_p, insert_m. agree. Qed.
Lemma same_substitute o p s t : same (substitute_p o p s t) (substitute_m o p s t).
Proof. unfold substitute_p, substitute_m. agree. Qed.
#[global] Hint Resolve same_changeCap same_deletePortion same_insert same_substitute : same.
Lemma same_apply_rule r s : same (apply_rule_p r s) (apply_rule_m r s).
Proof. unfold apply_rule_p, apply_rule_m. cbv zeta. agree. Qed.
#[global] Hint Resolve same_apply_rule : same.
Lemma same_mutate_loop pw num : forall rules j seen l, same (mutate_loop_p rules pw num j seen l) (mutate_loop_m rules pw num j seen l).
Proof. induction rules as [|r rules IH]; intros j seen l; cbn [mutate_loop_p mutate_loop_m]; cbv zeta; agree. Qed.
Lemma same_Mutate rules pw n : same (Mutate_p rules pw n) (Mutate_m rules pw n).
Proof. unfold Mutate_p, Mutate_m. destruct rules; agree. apply same_mutate_loop. Qed.
Lemma same_serialize u p : same (serialize_p u p) (serialize_m u p).
Proof. unfold serialize_p, serialize_m. agree. Qed.
Lemma same_bucketHash b s : same (bucketHash_p b s) (bucketHash_m b s).
Proof. unfold bucketHash_p, bucketHash_m. destruct b. agree. Qed.
Lemma same_slowHash b s : same (slowHash_p b s) (slowHash_m b s).
Proof. unfold slowHash_p, slowHash_m. destruct b; agree. Qed.
Lemma same_xor_loop b1 b2 b3 : forall n i, same (xor_loop_p n i b1 b2 b3) (xor_loop n i b1 b2 b3).
Proof. induction n as [|n IH]; intros i; cbn [xor_loop_p xor_loop]; agree. Qed.
#[global] Hint Resolve same_serialize same_bucketHash same_slowHash same_xor_loop : same.
Lemma same_xorBytes a b : same (xorBytes_p a b) (xorBytes_m a b).
Proof. unfold xorBytes_p, xorBytes_m. agree. Qed.
Lemma same_derivePad s t n : same (derivePad_p s t n) (derivePad_m s t n).
Proof. unfold derivePad_p, derivePad_m. agree. Qed.
#[global] Hint Resolve same_xorBytes same_derivePad : same.
Lemma same_Encrypt s f b : same (Encrypt_p s f b) (Encrypt_m s f b).
Proof. unfold Encrypt_p, Encrypt_m. agree. Qed.
Lemma same_DecryptBody s b : same (DecryptBody_p s b) (DecryptBody_m s b).
Proof. unfold DecryptBody_p, DecryptBody_m. agree. Qed.
Lemma same_ct_loop x y : forall n i v, same (ct_loop_p n i x y v) (ct_loop_m n i x y v).
Proof. induction n as [|n IH]; intros i v; cbn [ct_loop_p ct_loop_m]; agree. Qed.
Lemma same_ct_compare x y : same (ct_compare_p x y) (ct_compare_m x y).
Proof. unfold ct_compare_p, ct_compare_m. destruct (negb _); [agree|]. apply same_bind; [apply same_ct_loop|]. agree. Qed.
#[global] Hint Resolve same_ct_compare : same.
Lemma same_DecryptHeader iw s b : same (DecryptHeader_p iw s b) (DecryptHeader_m iw s b).
Proof. unfold DecryptHeader_p, DecryptHeader_m. cbv zeta. agree. Qed.
Lemma same_MarshalBinary r : same (MarshalBinary_p r) (MarshalBinary_m r).
Proof. unfold MarshalBinary_p, MarshalBinary_m. agree. Qed.
Lemma same_UnmarshalBinary LIB d : same (UnmarshalBinary_p LIB d) (UnmarshalBinary_m LIB d).
Proof. unfold UnmarshalBinary_p, UnmarshalBinary_m. agree. Qed.
#[global] Hint Resolve same_Encrypt same_DecryptBody same_DecryptHeader : same.
Lemma same_deriveKey {LIB} (s : Server LIB) u p : same (deriveKey_p s u p) (deriveKey_m s u p).
Proof. unfold deriveKey_p, deriveKey_m. agree. Qed.
#[global] Hint Resolve same_deriveKey : same.
Lemma same_EncryptEntry {LIB} (s : Server LIB) u p f m : same (EncryptEntry_p s u p f m) (EncryptEntry_m s u p f m).
Proof. unfold EncryptEntry_p, EncryptEntry_m. agree. Qed.
Lemma same_finalize_loop iw s c : forall fuel o, same (finalize_loop_p iw fuel s c o) (finalize_loop_m iw fuel s c o).
Proof. induction fuel as [|fuel IH]; intros o; cbn [finalize_loop_p finalize_loop_m]; cbv zeta; agree. Qed.
Lemma same_finalize_secret {LIB} (ctx : ClientRequestContext LIB) r : same (finalize_secret_p ctx r) (finalize_secret_m ctx r).
Proof. unfold finalize_secret_p, finalize_secret_m. agree. Qed.
#[global] Hint Resolve same_finalize_loop same_finalize_secret : same.
Lemma same_Finalize {LIB} (ctx : ClientRequestContext LIB) r : same (Finalize_p ctx r) (Finalize_m ctx r).
Proof. unfold Finalize_p, Finalize_m. cbv zeta. agree. Qed.
Lemma same_Request {LIB : OPRF} c u p (r : Blind LIB) : same (Request_p c u p r) (Request_m c u p r).
Proof. unfold Request_p, Request_m. agree. Qed.
Lemma same_HandleRequest {LIB} (s : Server LIB) v id b kv : same (HandleRequest_p s v id b kv) (HandleRequest_m s v id b kv).
Proof. unfold HandleRequest_p, HandleRequest_m. agree. Qed.
