(** Proofs for C75: bounds on the work of the library's calls. *)
From Coq Require Import Lia.
From Verif Require Import Base BaseProofs LibProofs Sha256 Hkdf Murmur3 Common CommonProofs Hasher Encryptor EncryptorProofs Oprf Server Client Mutator MutatorProofs Hex KV Mem MemCode MemProofs MemProg ProgProofs Shared SpecWork.

(** [within] with what is known of the result. *)
Inductive W {A} (Q : A -> Prop) : nat -> prog A -> Prop :=
| W_done n r : (forall a, r = Ok a -> Q a) -> W Q n (PDone r)
| W_new n m b k : (length b + 1 + m <= n)%nat -> (forall a, W Q m (k a)) -> W Q n (PNew b k)
| W_read n a i k : (forall o, W Q n (k o)) -> W Q (S n) (PRead a i k)
| W_write n a i b k : W Q n k -> W Q (S n) (PWrite a i b k).
Definition any {A} : A -> Prop := fun _ => True.

Lemma W_within {A} (Q : A -> Prop) n p : W Q n p -> within n p.
Proof. induction 1; econstructor; eauto. Qed.
Lemma W_mono {A} (Q R : A -> Prop) n p : W Q n p -> forall m, (n <= m)%nat -> (forall a, Q a -> R a) -> W R m p.
Proof.
  induction 1 as [n r H|n m b k L H IH|n a i k H IH|n a i b k H IH]; intros m' L' I.
  - constructor. auto.
  - apply (W_new R m' m); [lia|]. intros a. apply (IH a m); auto.
  - destruct m' as [|m']; [lia|]. constructor. intros o. apply IH; [lia|auto].
  - destruct m' as [|m']; [lia|]. constructor. apply IH; [lia|auto].
Qed.
Lemma W_bind {A B} (Q : A -> Prop) (R : B -> Prop) n m (x : prog A) (k : A -> prog B) :
  W Q n x -> (forall a, Q a -> W R m (k a)) -> W R (n + m) (pbind x k).
Proof.
  induction 1 as [n r H|n m' b c L H IH|n a i c H IH|n a i b c H IH]; intros K; cbn [pbind].
  - destruct r as [a|e|e]; [|constructor; discriminate..]. eapply W_mono; [apply K, H; reflexivity|lia|auto].
  - apply (W_new R _ (m' + m)); [lia|]. intros a. apply IH, K.
  - cbn [Nat.add]. constructor. intros o. apply IH, K.
  - cbn [Nat.add]. constructor. apply IH, K.
Qed.
(** The bound for the rest is what is left. *)
Lemma W_step {A B} (Q : A -> Prop) (R : B -> Prop) n t (x : prog A) (k : A -> prog B) :
  W Q n x -> (n <= t)%nat -> (forall m, t = (n + m)%nat -> forall a, Q a -> W R m (k a)) -> W R t (pbind x k).
Proof. intros H L K. replace t with (n + (t - n))%nat by lia. eapply W_bind; [exact H|]. intros a. apply K. lia. Qed.
Lemma W_ret {A} (Q : A -> Prop) n a : Q a -> W Q n (p_ret a).
Proof. intros H. constructor. intros b E. injection E as <-. exact H. Qed.
Lemma W_fail {A} (Q : A -> Prop) n e : W Q n (p_fail e). Proof. constructor. discriminate. Qed.
Lemma W_panic {A} (Q : A -> Prop) n e : W Q n (p_panic e). Proof. constructor. discriminate. Qed.
Lemma W_lift {A} (r : res A) : W (fun a => r = Ok a) 0 (p_lift r).
Proof. constructor. auto. Qed.
Lemma W_pnew b : W (fun s => m_len s = length b /\ m_cap s = length b) (length b + 1) (p_new b).
Proof. apply (W_new _ _ 0); [lia|]. intros a. constructor. intros s E. injection E as <-. split; reflexivity. Qed.
Lemma W_make n : W (fun s => mlen s = n) (Z.to_nat n + 1) (p_make n).
Proof.
  unfold p_make. destruct (Z.ltb_spec n 0); [apply W_panic|]. eapply W_mono; [apply W_pnew|rewrite zeros_length; lia|].
  intros s [E _]. rewrite zeros_length in E. unfold mlen. lia.
Qed.
Lemma W_load a : forall n i, W (fun b => (length b <= n)%nat) n (p_load a i n).
Proof.
  induction n as [|n IH]; intros i; [apply W_ret; cbn; lia|]. cbn [p_load]. constructor. intros [b|]; [|apply W_ret; cbn; lia].
  apply (W_step _ _ n n _ _ (IH (S i))); [lia|]. intros m E r L. apply W_ret. cbn. lia.
Qed.
Lemma W_view s : W (fun b => (length b <= m_len s)%nat) (m_len s) (p_view s).
Proof. apply W_load. Qed.
Lemma W_store a : forall d i, W any (length d) (p_store a i d).
Proof. induction d as [|b d IH]; intros i; [apply W_ret; exact I|]. cbn [p_store length]. constructor. apply IH. Qed.
Lemma W_get s i : W any 1 (p_get s i).
Proof. unfold p_get. destruct (_ || _); [apply W_panic|]. constructor. intros o. apply W_ret. exact I. Qed.
Lemma W_set s i b : W any 1 (p_set s i b).
Proof. unfold p_set. destruct (_ || _); [apply W_panic|]. constructor. apply W_ret. exact I. Qed.
Lemma W_slice s lo hi : W (fun t => (0 <= lo <= hi)%Z /\ mlen t = (hi - lo)%Z /\ m_len t = Z.to_nat (hi - lo)) 0 (p_slice s lo hi).
Proof.
  unfold p_slice. destruct (_ || _ || _) eqn:E; [apply W_panic|]. apply orb_false_iff in E as [E E3]. apply orb_false_iff in E as [E1 E2].
  apply Z.ltb_ge in E1, E2. apply W_ret. unfold mlen. cbn [m_len]. lia.
Qed.
Lemma W_copy_bytes d b : W any (Nat.min (m_len d) (length b)) (p_copy_bytes d b).
Proof. unfold p_copy_bytes. eapply W_mono; [apply W_store|rewrite firstn_length; lia|auto]. Qed.
Lemma W_copy d s : W any (2 * Nat.min (m_len d) (m_len s)) (p_copy d s).
Proof.
  unfold p_copy. eapply W_step; [apply W_load|lia|]. intros m E b L. cbn beta in L. eapply W_mono; [apply W_copy_bytes|lia|auto].
Qed.
Lemma W_put s d : W any (length d) (p_put s d).
Proof. unfold p_put. destruct (_ <? _)%nat; [apply W_panic|]. eapply W_mono; [apply W_copy_bytes|lia|auto]. Qed.
Lemma W_put16 s n : W any 2 (p_put16 s n). Proof. exact (W_put s (be16 n)). Qed.
Lemma W_put32 s n : W any 4 (p_put32 s n). Proof. exact (W_put s (be32 n)). Qed.

(** ** Encryptor *)
Lemma W_xor_loop : forall n i b1 b2 b3, W any (3 * n) (xor_loop_p n i b1 b2 b3).
Proof.
  induction n as [|n IH]; intros i b1 b2 b3; [apply W_ret; exact I|]. cbn [xor_loop_p].
  eapply W_step; [apply W_get|lia|intros t1 T1 x _]. eapply W_step; [apply W_get|lia|intros t2 T2 y _]. eapply W_step; [apply W_set|lia|intros t3 T3 z _].
  eapply W_mono; [apply IH|lia|auto].
Qed.
Lemma W_xorBytes b1 b2 : W (fun s => m_len s = m_len b1) (4 * m_len b1 + 1) (xorBytes_p b1 b2).
Proof.
  unfold xorBytes_p. destruct (negb _); [apply W_panic|]. unfold mlen.
  eapply W_step; [apply W_make|lia|intros t4 T4 b3 H]. unfold mlen in H.
  eapply W_step; [apply W_xor_loop|lia|intros t5 T5 x _]. apply W_ret. lia.
Qed.
Lemma W_derivePad secret salt n : (0 <= n)%Z ->
  W (fun s => mlen s = n) (m_len secret + 2 * Z.to_nat n + 1) (derivePad_p secret salt n).
Proof.
  intros Hn. unfold derivePad_p. eapply W_step; [apply W_view|lia|intros t6 T6 k _].
  eapply W_step; [apply W_make|lia|intros t7 T7 pad H]. eapply W_step; [apply W_lift|lia|intros t8 T8 d _]. unfold mlen in H.
  eapply W_step; [apply W_copy_bytes|lia|intros t9 T9 x _]. apply W_ret. exact H.
Qed.
Lemma W_Encrypt secret flag body : W any (2 * m_len secret + 9 * m_len body + 244) (Encrypt_p secret flag body).
Proof.
  unfold Encrypt_p. unfold mlen. eapply W_step; [apply W_derivePad; lia|lia|intros t10 T10 hp H1].
  eapply W_step; [apply W_make|lia|intros t11 T11 hd H2]. eapply W_step; [apply W_set|lia|intros t12 T12 x _]. unfold mlen in *.
  eapply W_step; [apply W_xorBytes|lia|intros t13 T13 eh H3]. cbn beta in H3.
  eapply W_step; [apply W_derivePad; lia|lia|intros t14 T14 bp H4]. eapply W_step; [apply W_xorBytes|lia|intros t15 T15 eb H5]. cbn beta in H5.
  eapply W_step; [apply W_make|lia|intros t16 T16 ct H6]. eapply W_step; [apply W_copy|lia|intros t17 T17 _ _].
  eapply W_step; [apply W_slice|lia|intros t18 T18 d1 _]. eapply W_step; [apply W_put32|lia|intros t19 T19 _ _].
  eapply W_step; [apply W_slice|lia|intros t20 T20 d2 _]. eapply W_step; [apply W_copy|lia|intros t21 T21 _ _]. apply W_ret. exact I.
Qed.
Lemma W_DecryptBody secret c : W any (m_len secret + 6 * m_len c + 2) (DecryptBody_p secret c).
Proof.
  unfold DecryptBody_p. unfold mlen. eapply W_step; [apply W_derivePad; lia|lia|intros t1 T1 bp H1]. eapply W_mono; [apply W_xorBytes|lia|]. intros; exact I.
Qed.
Lemma W_ct_loop x y : forall n i v, W any (2 * n) (ct_loop_p n i x y v).
Proof.
  induction n as [|n IH]; intros i v; [apply W_ret; exact I|]. cbn [ct_loop_p].
  eapply W_step; [apply W_get|lia|intros t1 T1 a _]. eapply W_step; [apply W_get|lia|intros t2 T2 b _]. eapply W_mono; [apply IH|lia|auto].
Qed.
Lemma W_ct_compare x y : W any (2 * m_len x) (ct_compare_p x y).
Proof.
  unfold ct_compare_p. destruct (negb _); [apply W_ret; exact I|]. eapply W_step; [apply W_ct_loop|lia|intros t1 T1 v _]. apply W_ret. exact I.
Qed.
Lemma W_DecryptHeader iw secret c : W (fun x => exists n, (n < 2 ^ 32)%N /\ snd x = int_wrap iw (Z.of_N n)) (m_len secret + 89) (DecryptHeader_p iw secret c).
Proof.
  unfold DecryptHeader_p. destruct (_ <? _)%nat; [apply W_fail|]. eapply W_step; [apply W_derivePad; lia|lia|intros t1 T1 hp H1].
  eapply W_step; [apply W_slice|lia|intros t2 T2 p (_ & _ & P)].
  eapply W_step; [apply W_slice|lia|intros t4 T4 cc (_ & _ & C)]. eapply W_step; [apply W_ct_compare|lia|intros t5 T5 kc _].
  eapply W_step; [apply W_get|lia|intros t6 T6 x _]. eapply W_step; [apply W_get|lia|intros t7 T7 y _].
  eapply W_step; [apply W_slice|lia|intros t8 T8 l (_ & _ & L)]. eapply W_step; [apply W_view|lia|intros t9 T9 lb _].
  eapply W_step; [apply W_lift|lia|intros t10 T10 n N]. apply W_ret. exists n. split; [exact (get_be32_lt _ _ N)|reflexivity].
Qed.

(** ** Finalize: at least 25 bytes of bucket per header *)
Lemma wrap_id z : (0 <= z < 2 ^ 63)%Z -> int_wrap 64 z = z.
Proof. intros H. apply int_wrap_small; [lia|]. change (64 - 1)%Z with 63%Z. lia. Qed.
Lemma W_finalize_loop : forall fuel secret contents offset, (0 <= offset <= mlen contents)%Z -> (mlen contents < 2 ^ 62)%Z ->
  W any ((m_len secret + 89) * (Z.to_nat (mlen contents - offset) / 25) + (m_len secret + 2 + 6 * Z.to_nat (mlen contents - offset)))
    (finalize_loop_p 64 fuel secret contents offset).
Proof.
  induction fuel as [|fuel IH]; intros secret contents offset Ho Hl; [apply W_ret; exact I|]. cbn [finalize_loop_p].
  change (Z.of_nat HeaderSize) with 25%Z. rewrite (wrap_id (offset + 25)) by lia.
  destruct (Z.ltb_spec (mlen contents) (offset + 25)) as [L|L]; [apply W_ret; exact I|].
  set (S := m_len secret). set (r := Z.to_nat (mlen contents - offset)).
  assert (R25 : (25 <= r)%nat) by (unfold r; lia).
  assert (D : (1 <= r / 25)%nat) by (apply Nat.div_le_lower_bound; lia).
  assert (M : ((S + 89) * (r / 25) = (S + 89) + (S + 89) * (r / 25 - 1))%nat).
  { replace (r / 25)%nat with (1 + (r / 25 - 1))%nat at 1 by lia. rewrite Nat.mul_add_distr_l. lia. }
  eapply W_step; [apply W_slice|lia|intros t1 T1 t _].
  eapply W_step; [apply W_DecryptHeader|fold S; lia|intros t2 T2 [[valid flag] n] (m & Hm & E)]. cbn [snd] in E. fold S in T2.
  rewrite wrap_id in E by lia. subst n.
  rewrite (wrap_id (offset + 25 + Z.of_N m)) by lia.
  destruct (Z.ltb_spec (mlen contents) (offset + 25 + Z.of_N m)) as [L2|L2]; [apply W_fail|].
  destruct valid.
  - eapply W_step; [apply W_slice|lia|intros t3 T3 b (_ & _ & B)].
    assert (Lb : (m_len b <= r)%nat) by (rewrite B; unfold r; lia). clear B.
    rewrite M in T1. set (q := ((S + 89) * (r / 25 - 1))%nat) in T1. clearbody q.
    eapply W_step; [apply W_DecryptBody|fold S; clear - Lb T1 T2 T3; lia|intros t4 T4 md _]. apply W_ret. exact I.
  - eapply W_mono; [apply (IH secret contents (offset + 25 + Z.of_N m)%Z); lia| |auto]. fold S.
    set (r' := Z.to_nat (mlen contents - (offset + 25 + Z.of_N m))).
    assert (L3 : (r' / 25 <= r / 25 - 1)%nat).
    { assert (r' + 25 <= r)%nat by (unfold r', r; lia). pose proof (Nat.div_le_mono (r' + 25) r 25 ltac:(lia) H) as Q.
      replace (r' + 25)%nat with (r' + 1 * 25)%nat in Q by lia. rewrite Nat.div_add in Q by lia. lia. }
    pose proof (Nat.mul_le_mono_l _ _ (S + 89) L3). assert (r' <= r)%nat by (unfold r', r; lia). lia.
Qed.
Lemma W_Finalize LIB (ctx : ClientRequestContext LIB) resp L :
  (mlen (bucket_of resp) < 2 ^ 62)%Z ->
  (forall xs b, unblind LIB (c_oprfSuite (ctx_client ctx)) (ctx_inputs ctx) (ctx_blinds ctx) xs OprfInfo = Ok b -> Forall (fun y => (length y <= L)%nat) b) ->
  let n := m_len (bucket_of resp) in
  W any (m_len (mr_element resp) + (L + 89) * (n / 25) + 2 * L + 3 + 6 * n) (Finalize_p ctx resp).
Proof.
  intros Hl HL n. unfold Finalize_p, finalize_secret_p. fold (bucket_of resp).
  apply (W_step (fun s => (m_len s <= L)%nat) _ (m_len (mr_element resp) + (L + 1))%nat).
  - eapply W_step; [apply W_view|lia|intros t1 T1 e _]. eapply W_step; [apply W_lift|lia|intros t2 T2 k K].
    assert (LK : (length k <= L)%nat).
    { unfold finalize_secret in K. destruct (negb _); [discriminate|]. apply bind_ok in K as (ys & U & K). apply HL in U.
      destruct ys as [|y ys]; [discriminate|]. apply Ok_inj in K. subst y. apply Forall_inv in U. exact U. }
    eapply W_mono; [apply W_pnew|lia|]. intros s [E _]. lia.
  - lia.
  - intros t1 T1 s Ls. cbn beta in Ls. cbv zeta.
    pose proof (W_finalize_loop (S (m_len (bucket_of resp))) s (bucket_of resp) 0 ltac:(unfold mlen in *; lia) Hl) as F.
    unfold mlen in F. rewrite Z.sub_0_r, Nat2Z.id in F. fold n in F.
    pose proof (Nat.mul_le_mono_r (m_len s + 89) (L + 89) (n / 25) ltac:(lia)) as Q.
    set (q1 := ((m_len s + 89) * (n / 25))%nat) in *. set (q2 := ((L + 89) * (n / 25))%nat) in *. clearbody q1 q2.
    eapply W_step; [exact F|lia|]. intros t2 T2 [x|] _; [apply W_ret; exact I|apply W_panic].
Qed.

(** ** Responses and requests *)
Lemma W_Marshal r : W any (2 * (m_len (mr_element r) + m_len (bucket_of r)) + 5) (MarshalBinary_p r).
Proof.
  unfold MarshalBinary_p. fold (bucket_of r). eapply W_step; [apply W_view|lia|intros t1 T1 e E]. eapply W_step; [apply W_view|lia|intros t2 T2 b B].
  eapply W_mono; [apply W_pnew| |intros; exact I]. rewrite !app_length. change (length (be32 (mr_version r))) with 4%nat. cbn beta in *. lia.
Qed.
Lemma W_Unmarshal LIB n d : elt_size LIB DefaultOPRFSuite = Ok n -> W any (3 * n + 5) (UnmarshalBinary_p LIB d).
Proof.
  intros Hn. unfold UnmarshalBinary_p. destruct (_ =? 0)%nat; [apply W_fail|]. destruct (_ <? 4)%nat; [apply W_fail|].
  eapply W_step; [apply W_slice|lia|intros t1 T1 vb (_ & _ & B)]. eapply W_step; [apply W_view|lia|intros t2 T2 v _].
  eapply W_step; [apply W_lift|lia|intros t3 T3 ver _]. eapply W_step; [apply W_slice|lia|intros t4 T4 buf _].
  eapply W_step; [apply W_lift|lia|intros t5 T5 n' N']. rewrite Hn in N'. apply Ok_inj in N'. subst n'.
  eapply W_step; [apply W_make|lia|intros t6 T6 el E]. unfold mlen in E. destruct (_ && _); [apply W_fail|].
  eapply W_step; [apply W_copy|lia|intros t7 T7 u _]. destruct (_ <? n)%nat; [apply W_fail|].
  eapply W_step; [apply W_slice|lia|intros t8 T8 r _]. apply W_ret. exact I.
Qed.
Lemma W_Handle LIB (s : Server LIB) v id b kv L :
  (forall xs es, evaluate LIB (s_oprfSuite s) (s_privateKey s) xs OprfInfo = Ok es -> Forall (fun y => (length y <= L)%nat) es) ->
  W any (m_len b + L + 1) (HandleRequest_p s v id b kv).
Proof.
  intros HL. unfold HandleRequest_p. destruct (negb _); [apply W_fail|]. eapply W_step; [apply W_view|lia|intros t1 T1 x _].
  eapply W_step; [apply W_lift|lia|intros t2 T2 es E]. apply HL in E. destruct es as [|e es]; [apply W_fail|]. apply Forall_inv in E.
  eapply W_step; [apply W_pnew|lia|intros t3 T3 el _]. destruct (hex_decode id); [|apply W_fail|apply W_panic].
  eapply W_step; [apply W_lift|lia|intros t4 T4 c _]. apply W_ret. exact I.
Qed.

Lemma W_serialize u p : W (fun s => m_len s = (4 + m_len u + m_len p)%nat) (3 * m_len u + 3 * m_len p + 9) (serialize_p u p).
Proof.
  unfold serialize_p. unfold mlen. destruct (_ || _); [apply W_panic|]. eapply W_step; [apply W_make|lia|intros t1 T1 buf B]. unfold mlen in B.
  eapply W_step; [apply W_put16|lia|intros t2 T2 x2 _]. eapply W_step; [apply W_slice|lia|intros t3 T3 d3 _]. eapply W_step; [apply W_copy|lia|intros t4 T4 x4 _].
  eapply W_step; [apply W_slice|lia|intros t5 T5 d5 _]. eapply W_step; [apply W_put16|lia|intros t6 T6 x6 _].
  eapply W_step; [apply W_slice|lia|intros t7 T7 d7 _]. eapply W_step; [apply W_copy|lia|intros t8 T8 x8 _]. apply W_ret. lia.
Qed.
Lemma scrypt_out b r : SlowHasher_Hash NewScryptSlowHasher b = Ok r -> length r = 32%nat.
Proof. destruct (scrypt_never_fails b) as [(d & E & Hd) _]. rewrite E. intros H. apply Ok_inj in H. subst d. exact Hd. Qed.
Lemma W_slowHash id h s : NewSlowHasher id = Ok h -> W (fun t => (m_len t <= m_len s + 32)%nat) (m_len s + 33) (slowHash_p h s).
Proof.
  unfold NewSlowHasher. destruct (_ =? _)%N; [intros E; apply Ok_inj in E; subst h; apply W_ret; lia|].
  destruct (_ =? _)%N; [|discriminate]. intros E. apply Ok_inj in E. subst h. unfold slowHash_p.
  change (W (fun t => (m_len t <= m_len s + 32)%nat) (m_len s + 33) (b <<- p_view s ;; r <<- p_lift (SlowHasher_Hash NewScryptSlowHasher b) ;; p_new r)).
  eapply W_step; [apply W_view|lia|intros t1 T1 b _]. eapply W_step; [apply W_lift|lia|intros t2 T2 r R]. apply scrypt_out in R.
  eapply W_mono; [apply W_pnew|lia|]. intros t [E _]. lia.
Qed.
Lemma W_deriveKey LIB (s : Server LIB) id u p L : NewSlowHasher id = Ok (s_slowHasher s) ->
  (forall x k, full_evaluate LIB (s_oprfSuite s) (s_privateKey s) x OprfInfo = Ok k -> (length k <= L)%nat) ->
  W (fun t => (m_len t <= L)%nat) (5 * m_len u + 5 * m_len p + L + 83) (deriveKey_p s u p).
Proof.
  intros Hs HL. unfold deriveKey_p. eapply W_step; [apply W_serialize|lia|intros t1 T1 ser S]. cbn beta in S.
  eapply W_step; [exact (W_slowHash id _ ser Hs)|lia|intros t2 T2 inp I]. cbn beta in I.
  eapply W_step; [apply W_view|lia|intros t3 T3 x _]. eapply W_step; [apply W_lift|lia|intros t4 T4 k K]. apply HL in K.
  eapply W_mono; [apply W_pnew|lia|]. intros t [E _]. lia.
Qed.
Lemma W_EncryptEntry LIB (s : Server LIB) id u p f m L : NewSlowHasher id = Ok (s_slowHasher s) ->
  (forall x k, full_evaluate LIB (s_oprfSuite s) (s_privateKey s) x OprfInfo = Ok k -> (length k <= L)%nat) ->
  W any (5 * m_len u + 5 * m_len p + 9 * m_len m + 3 * L + 327) (EncryptEntry_p s u p f m).
Proof.
  intros Hs HL. unfold EncryptEntry_p. destruct (negb _); [apply W_fail|]. eapply W_step; [exact (W_deriveKey LIB s id u p L Hs HL)|lia|intros t1 T1 k K].
  eapply W_mono; [apply W_Encrypt| |auto]. cbn beta in K. lia.
Qed.
Lemma W_bucketHash salt b : W (fun t => m_len t = 32%nat) (3 * length salt + 4 * m_len b + 46) (bucketHash_p (sha256BucketHasher salt) b).
Proof.
  unfold bucketHash_p. unfold mlen, blen. destruct (_ || _); [apply W_panic|]. eapply W_step; [apply W_make|lia|intros t1 T1 acc A]. unfold mlen in A.
  eapply W_step; [apply W_slice|lia|intros t2 T2 d2 _]. eapply W_step; [apply W_put16|lia|intros t3 T3 x3 _].
  eapply W_step; [apply W_slice|lia|intros t4 T4 d4 _]. eapply W_step; [apply W_copy_bytes|lia|intros t5 T5 x5 _].
  eapply W_step; [apply W_slice|lia|intros t6 T6 d6 _]. eapply W_step; [apply W_put16|lia|intros t7 T7 x7 _].
  eapply W_step; [apply W_slice|lia|intros t8 T8 d8 _]. eapply W_step; [apply W_copy|lia|intros t9 T9 x9 _].
  eapply W_step; [apply W_view|lia|intros t10 T10 bb _]. eapply W_mono; [apply W_pnew|rewrite sha256_length; lia|]. intros t [E _]. rewrite sha256_length in E. exact E.
Qed.

(** ** Requests and variants *)
Lemma W_Request LIB (c : Client) id u p (r : Blind LIB) salt : NewSlowHasher id = Ok (c_slowHasher c) -> c_bucketHasher c = sha256BucketHasher salt ->
  W any (9 * m_len u + 5 * m_len p + 3 * length salt + 164) (Request_p c u p r).
Proof.
  intros Hs Hb. unfold Request_p. eapply W_step; [apply W_serialize|lia|intros t1 T1 ser S1]. cbn beta in S1.
  eapply W_step; [exact (W_slowHash id _ ser Hs)|lia|intros t2 T2 inp I2]. cbn beta in I2.
  eapply W_step; [apply W_view|lia|intros t3 T3 x _]. eapply W_step; [apply W_lift|lia|intros t4 T4 bs _].
  destruct bs as [|b bs]; [apply W_fail|]. rewrite Hb.
  eapply W_step; [apply W_bucketHash|lia|intros t5 T5 bh H5]. cbn beta in H5. eapply W_step; [apply W_view|lia|intros t6 T6 h _].
  eapply W_step; [apply W_lift|lia|intros t7 T7 i _]. apply W_ret. exact I.
Qed.

Lemma replace_ne_len old new : forall s k, (length (replace_ne k old new s) <= length s * (1 + length new))%nat.
Proof.
  induction s as [|c s IH]; intros k; [cbn; lia|]. cbn [replace_ne length]. destruct k as [|k].
  - destruct (prefixb _ _); [rewrite app_length|cbn [length]]; [pose proof (IH (length old - 1)%nat)|pose proof (IH 0%nat)]; lia.
  - pose proof (IH k). lia.
Qed.
Lemma replace_empty_len new : forall s k, (length (replace_empty k new s) <= length s * (1 + length new) + length new)%nat.
Proof.
  induction s as [|c s IH]; intros k; [cbn; lia|]. cbn [replace_empty length]. destruct k as [|k].
  - rewrite app_length. cbn [length]. match goal with |- context [replace_empty ?j new s] => pose proof (IH j) end. lia.
  - cbn [length]. pose proof (IH k). lia.
Qed.
Lemma replace_all_len s old new : (length (replace_all s old new) <= (length s + 1) * (1 + length new))%nat.
Proof.
  unfold replace_all. destruct old; [pose proof (replace_empty_len new s 0)|pose proof (replace_ne_len (b :: old) new s 0)]; lia.
Qed.

Lemma W_changeCap s i : W (fun t => m_len t = m_len s) (3 * m_len s + 3) (changeCap_p s i).
Proof.
  unfold changeCap_p. unfold mlen. eapply W_step; [apply W_make|lia|intros t1 T1 b B]. unfold mlen in B.
  eapply W_step; [apply W_copy|lia|intros t2 T2 x _]. cbv zeta. destruct (_ && _); [|apply W_ret; lia].
  eapply W_step; [apply W_get|lia|intros t3 T3 o _]. destruct (switchCase o); try (apply W_ret; lia).
  eapply W_step; [apply W_set|lia|intros t4 T4 y _]. apply W_ret. lia.
Qed.
Lemma W_deletePortion s i : W (fun t => (m_len t <= m_len s)%nat) (3 * m_len s + 1) (deletePortion_p s i).
Proof.
  unfold deletePortion_p. unfold mlen. destruct (_ && _) eqn:E1; [|clear E1; destruct (_ && _) eqn:E2].
  - apply andb_true_iff in E1 as [A B]. apply Z.leb_le in A, B. eapply W_step; [apply W_make|lia|intros t1 T1 b Hb]. unfold mlen in Hb.
    eapply W_step; [apply W_slice|lia|intros t2 T2 d (_ & _ & D)]. eapply W_step; [apply W_copy|lia|intros t3 T3 x _]. apply W_ret. lia.
  - apply andb_true_iff in E2 as [A B]. apply Z.ltb_lt in A. apply Z.leb_le in B. eapply W_step; [apply W_make|lia|intros t1 T1 b Hb]. unfold mlen in Hb.
    eapply W_step; [apply W_slice|lia|intros t2 T2 d (_ & _ & D)]. eapply W_step; [apply W_copy|lia|intros t3 T3 x _]. apply W_ret. lia.
  - eapply W_step; [apply W_make|lia|intros t1 T1 b Hb]. unfold mlen in Hb. eapply W_step; [apply W_copy|lia|intros t3 T3 x _]. apply W_ret. lia.
Qed.
Lemma W_insert s i a : W (fun t => (m_len t <= m_len s + length a)%nat) (3 * m_len s + 2 * length a + 1) (insert_p s i a).
Proof.
  unfold insert_p. unfold mlen, blen. destruct (_ && _).
  - eapply W_step; [apply W_make|lia|intros t1 T1 b Hb]. unfold mlen in Hb. eapply W_step; [apply W_copy_bytes|lia|intros t2 T2 x _]. apply W_ret. lia.
  - cbv zeta. set (q := (if (i <? 0)%Z then _ else i)). destruct (_ && _) eqn:E.
    + apply andb_true_iff in E as [A B]. apply Z.leb_le in A, B. eapply W_step; [apply W_make|lia|intros t1 T1 b Hb]. unfold mlen in Hb.
      eapply W_step; [apply W_slice|lia|intros t2 T2 d2 (_ & _ & D2)]. eapply W_step; [apply W_copy|lia|intros t3 T3 x3 _].
      eapply W_step; [apply W_slice|lia|intros t4 T4 d4 (_ & _ & D4)]. eapply W_step; [apply W_copy_bytes|lia|intros t5 T5 x5 _].
      eapply W_step; [apply W_slice|lia|intros t6 T6 d6 (_ & _ & D6)]. unfold mlen in *.
      eapply W_step; [apply W_slice|lia|intros t7 T7 d7 (_ & _ & D7)]. eapply W_step; [apply W_copy|lia|intros t8 T8 x8 _]. apply W_ret. lia.
    + eapply W_step; [apply W_make|lia|intros t1 T1 b Hb]. unfold mlen in Hb. eapply W_step; [apply W_copy|lia|intros t3 T3 x _]. apply W_ret. lia.
Qed.
Lemma W_substitute s i a b : W (fun t => (m_len t <= (m_len s + 1) * (1 + length b))%nat) (m_len s + (m_len s + 1) * (1 + length b) + 1) (substitute_p s i a b).
Proof.
  unfold substitute_p. eapply W_step; [apply W_view|lia|intros t1 T1 x X]. cbn beta in X. pose proof (replace_all_len x a b) as R.
  pose proof (Nat.mul_le_mono_r (length x + 1) (m_len s + 1) (1 + length b) ltac:(lia)) as R2.
  eapply W_mono; [apply W_pnew|lia|]. intros t [E _]. lia.
Qed.
Lemma W_apply_rule M r s : small_rule M r -> let k := ((m_len s + 1) * (1 + M))%nat in W (fun t => (m_len t <= k)%nat) (3 * k) (apply_rule_p r s).
Proof.
  intros [H1 H2] k. assert (K : (k = m_len s + 1 + M + m_len s * M)%nat) by (unfold k; lia).
  assert (K2 : ((m_len s + 1) * (1 + length (String2 r)) <= k)%nat) by (apply Nat.mul_le_mono_l; lia).
  set (sM := (m_len s * M)%nat) in K. clearbody sM. clearbody k.
  unfold apply_rule_p. cbv zeta. destruct (bytes_eqb _ _); [|destruct (bytes_eqb _ _); [|destruct (bytes_eqb _ _); [|destruct (bytes_eqb _ _); [|apply W_panic]]]].
  - eapply W_mono; [apply W_changeCap|lia|]. cbn beta. intros; lia.
  - eapply W_mono; [apply W_deletePortion|lia|]. cbn beta. intros; lia.
  - eapply W_mono; [apply W_insert|lia|]. cbn beta. intros; lia.
  - eapply W_mono; [apply W_substitute|lia|]. cbn beta. intros; lia.
Qed.
Lemma W_mutate_loop M s : forall rules num j seen out, Forall (small_rule M) rules ->
  W any (length rules * (4 * ((m_len s + 1) * (1 + M)))) (mutate_loop_p rules s num j seen out).
Proof.
  induction rules as [|r rules IH]; intros num j seen out F; [apply W_ret; exact I|]. apply Forall_cons_iff in F as [Hr F]. cbn [mutate_loop_p length].
  destruct (_ <? _)%Z; [|apply W_ret; exact I]. pose proof (W_apply_rule M r s Hr) as H. cbv zeta in H. rewrite Nat.mul_succ_l.
  set (k := ((m_len s + 1) * (1 + M))%nat) in *. set (rk := (length rules * (4 * k))%nat) in *.
  eapply W_step; [exact H|lia|intros t1 T1 t L]. cbn beta in L. eapply W_step; [apply W_view|lia|intros t2 T2 b _]. cbv zeta.
  destruct (seenb _ _); (eapply W_mono; [apply IH, F|fold k; fold rk; lia|auto]).
Qed.
Lemma W_Mutate M rules s num : Forall (small_rule M) rules ->
  W any (m_len s + length rules * (4 * ((m_len s + 1) * (1 + M)))) (Mutate_p rules s num).
Proof.
  intros F. unfold Mutate_p. destruct rules as [|r rules]; [apply W_panic|]. destruct (_ || _); [apply W_panic|].
  set (q := (length _ * _)%nat). eapply W_step; [apply W_view|lia|intros t1 T1 b _]. eapply W_mono; [apply (W_mutate_loop M _ _ _ _ _ _ F)|fold q; lia|auto].
Qed.

(** The bound holds of a run alone. *)
Lemma within_work {A} n (p : prog A) : within n p -> forall h, (work p h <= n)%nat.
Proof.
  induction 1 as [n r|n m b k L H IH|n a i k H IH|n a i b k H IH]; intros h; cbn [work]; [lia| | |].
  - eapply Nat.le_trans; [apply Nat.add_le_mono_l, IH|exact L].
  - apply le_n_S, IH.
  - apply le_n_S, IH.
Qed.

(** ** Goroutines *)
Lemma within_mono {A} n (p : prog A) : within n p -> forall m, (n <= m)%nat -> within m p.
Proof.
  induction 1 as [n r|n m b k L H IH|n a i k H IH|n a i b k H IH]; intros m' L'; [constructor| | |].
  - apply (w_new m' m); [lia|exact H].
  - destruct m' as [|m']; [lia|]. constructor. intros o. apply IH. lia.
  - destruct m' as [|m']; [lia|]. constructor. apply IH. lia.
Qed.
Lemma within_step {A} n (p : prog A) h h' p' : within n p -> mstep h p h' p' -> exists m, (m < n)%nat /\ within m p'.
Proof.
  intros H S. destruct S as [h b k|h a i k|h a i b k]; inversion H; subst.
  - exists m. split; [lia|auto].
  - exists n0. split; [lia|auto].
  - exists n0. split; [lia|auto].
Qed.
Fixpoint sum (l : list nat) : nat := match l with [] => 0%nat | n :: l => (n + sum l)%nat end.
Lemma sum_app a b : sum (a ++ b) = (sum a + sum b)%nat.
Proof. induction a; cbn; lia. Qed.
Definition bounded {A} (g : list (heap * prog A)) (ns : list nat) : Prop := Forall2 (fun x n => within n (snd x)) g ns.
Lemma call_step_bounded {A} (m m' : machine A) ns : call_step m m' -> bounded (gor m) ns ->
  exists ns', bounded (gor m') ns' /\ (S (sum ns') <= sum ns)%nat.
Proof.
  intros [h before own p own' p' after h' S _] B. cbn [gor] in *. apply Forall2_app_inv_l in B as (n1 & n2 & B1 & B2 & ->).
  inversion B2 as [|x n g l Bx Bl]; subst. cbn [snd] in Bx. destruct (within_step n p _ _ _ Bx S) as (k & L & W).
  exists (n1 ++ k :: l). split.
  - apply Forall2_app; [exact B1|]. constructor; [exact W|exact Bl].
  - rewrite !sum_app. cbn [sum]. lia.
Qed.
Lemma reaches_in_bounded {A} F n (m m' : machine A) ns : reaches_in F n m m' -> bounded (gor m) ns ->
  exists ns', bounded (gor m') ns' /\ (n + sum ns' <= sum ns)%nat.
Proof.
  intros R B. induction R as [m|n m1 m2 m3 R IH S|n m h h' g R IH K].
  - exists ns. split; [exact B|lia].
  - destruct (IH B) as (ns' & B' & L). destruct (call_step_bounded _ _ _ S B') as (ns2 & B2 & L2). exists ns2. split; [exact B2|lia].
  - exact (IH B).
Qed.
