(** Proofs for C76: which accesses of memory the calls make. *)
From Coq Require Import Lia.
From Verif Require Import Base BaseProofs LibProofs Sha256 Hkdf Common CommonProofs Hasher Encryptor EncryptorProofs Oprf Server Client Mutator Hex KV
  Mem MemCode MemProofs MemProg ProgProofs SpecEntry SpecProtocol SpecMem SpecWork SpecTrace WorkProofs.

(** Two programs that make the same accesses in lockstep, whatever they read,
    as long as the same places exist. *)
Inductive alike {A B} (R : A -> B -> Prop) : prog A -> prog B -> Prop :=
| al_ok a b : R a b -> alike R (PDone (Ok a)) (PDone (Ok b))
| al_err e e' : alike R (PDone (Err e)) (PDone (Err e'))
| al_panic e e' : alike R (PDone (Panic e)) (PDone (Panic e'))
| al_new b b' k k' : length b = length b' -> (forall a, alike R (k a) (k' a)) -> alike R (PNew b k) (PNew b' k')
| al_read a i k k' : (forall o o', (o = None <-> o' = None) -> alike R (k o) (k' o')) -> alike R (PRead a i k) (PRead a i k')
| al_write a i b b' k k' : alike R k k' -> alike R (PWrite a i b k) (PWrite a i b' k').
Definition anyr {A B} : A -> B -> Prop := fun _ _ => True.

Lemma alike_bind {A B C D} (R : A -> B -> Prop) (Q : C -> D -> Prop) x x' k k' :
  alike R x x' -> (forall a a', R a a' -> alike Q (k a) (k' a')) -> alike Q (pbind x k) (pbind x' k').
Proof. induction 1; intros K; cbn [pbind]; try (constructor; auto; fail); auto. Qed.
Lemma alike_weaken {A B} (R Q : A -> B -> Prop) x x' : alike R x x' -> (forall a a', R a a' -> Q a a') -> alike Q x x'.
Proof. induction 1; intros K; constructor; auto. Qed.

Lemma shape_array (h h' : heap) a : same_shape h h' -> length (array h a) = length (array h' a).
Proof.
  unfold same_shape, array. revert h'. revert a. induction h as [|x h IH]; intros [|a] [|y h'] E; try discriminate; try reflexivity.
  - cbn in E. injection E as E _. exact E.
  - cbn in E. injection E as _ E. cbn. apply IH, E.
Qed.
Lemma shape_length (h h' : heap) : same_shape h h' -> length h = length h'.
Proof. unfold same_shape. intros E. apply (f_equal (@length nat)) in E. rewrite !map_length in E. exact E. Qed.
Lemma shape_app h h' e e' : same_shape h h' -> same_shape e e' -> same_shape (h ++ e) (h' ++ e').
Proof. unfold same_shape. intros A B. rewrite !map_app, A, B. reflexivity. Qed.
Lemma splice_len (l l' : bytes) o (d d' : bytes) : length l = length l' -> length d = length d' -> length (splice l o d) = length (splice l' o d').
Proof. intros A B. unfold splice. rewrite !app_length, !firstn_length, !skipn_length, A, B. reflexivity. Qed.
Lemma shape_upd (x x' : bytes) : length x = length x' -> forall a (h h' : heap), same_shape h h' -> same_shape (upd_nth a x h) (upd_nth a x' h').
Proof.
  intros L. induction a as [|a IH]; intros [|y h] [|y' h'] E; try discriminate; try reflexivity.
  - unfold same_shape in *. cbn [upd_nth map] in *. injection E as _ E. rewrite L, E. reflexivity.
  - unfold same_shape in *. cbn [upd_nth map] in *. injection E as E1 E. rewrite E1, (IH h h' E). reflexivity.
Qed.
Lemma shape_write h h' a o (d d' : bytes) : same_shape h h' -> length d = length d' -> same_shape (write h a o d) (write h' a o d').
Proof. intros S L. unfold write. apply shape_upd; [|exact S]. apply splice_len; [apply shape_array, S|exact L]. Qed.

Lemma alike_run {A B} (R : A -> B -> Prop) p p' : alike R p p' -> forall h h', same_shape h h' ->
  accesses p h = accesses p' h' /\ same_shape (snd (run p h)) (snd (run p' h')).
Proof.
  induction 1 as [a b H|e e'|e e'|b b' k k' L H IH|a i k k' H IH|a i b b' k k' H IH]; intros h h' S; cbn [accesses run]; auto.
  - rewrite (shape_length h h' S). destruct (IH (length h') (h ++ [b]) (h' ++ [b'])) as [T S'].
    + apply shape_app; [exact S|]. unfold same_shape. cbn [map]. f_equal. exact L.
    + split; [|exact S']. f_equal; [f_equal; exact L|exact T].
  - destruct (IH (nth_error (array h a) i) (nth_error (array h' a) i)) with (h := h) (h' := h') as [T S'].
    + rewrite !nth_error_None. rewrite (shape_array h h' a S). tauto.
    + exact S.
    + split; [f_equal; exact T|exact S'].
  - destruct (IH (write h a i [b]) (write h' a i [b'])) as [T S']; [apply shape_write; [exact S|reflexivity]|]. split; [f_equal; exact T|exact S'].
Qed.
Lemma alike_accesses {A B} (R : A -> B -> Prop) p p' h h' : alike R p p' -> same_shape h h' -> accesses p h = accesses p' h'.
Proof. intros H S. apply (alike_run R p p' H h h' S). Qed.

(** ** Primitives *)
Lemma al_ret {A B} (R : A -> B -> Prop) a b : R a b -> alike R (p_ret a) (p_ret b). Proof. constructor. assumption. Qed.
Lemma al_fail {A B} (R : A -> B -> Prop) e e' : alike R (p_fail e) (p_fail e'). Proof. constructor. Qed.
Lemma al_pan {A B} (R : A -> B -> Prop) e e' : alike R (p_panic e) (p_panic e'). Proof. constructor. Qed.
Definition same_kind {A B} (R : A -> B -> Prop) (r : res A) (r' : res B) : Prop :=
  match r, r' with Ok a, Ok b => R a b | Err _, Err _ => True | Panic _, Panic _ => True | _, _ => False end.
Lemma al_lift {A B} (R : A -> B -> Prop) r r' : same_kind R r r' -> alike R (p_lift r) (p_lift r').
Proof. unfold p_lift. destruct r, r'; cbn; intros H; try contradiction; constructor; assumption. Qed.
Definition samelen (b b' : bytes) : Prop := length b = length b'.
Lemma al_pnew (b b' : bytes) : samelen b b' -> alike eq (p_new b) (p_new b').
Proof. intros L. constructor; [exact L|]. intros a. constructor. unfold samelen in L. rewrite L. reflexivity. Qed.
Lemma al_make n : alike eq (p_make n) (p_make n).
Proof. unfold p_make. destruct (_ <? _)%Z; [constructor|]. apply al_pnew. reflexivity. Qed.
Lemma al_load a : forall n i, alike samelen (p_load a i n) (p_load a i n).
Proof.
  induction n as [|n IH]; intros i; [constructor; reflexivity|]. cbn [p_load]. constructor. intros [b|] [b'|] E.
  - eapply alike_bind; [apply IH|]. intros r r' L. apply al_ret. unfold samelen in *. cbn. rewrite L. reflexivity.
  - destruct E as [_ E]. discriminate (E eq_refl).
  - destruct E as [E _]. discriminate (E eq_refl).
  - constructor. reflexivity.
Qed.
Lemma al_view s : alike samelen (p_view s) (p_view s). Proof. apply al_load. Qed.
Lemma al_store a : forall (d d' : bytes) i, samelen d d' -> alike eq (p_store a i d) (p_store a i d').
Proof.
  induction d as [|b d IH]; intros [|b' d'] i L; try discriminate; cbn [p_store]; [constructor; reflexivity|]. constructor. apply IH. injection L as L. exact L.
Qed.
Lemma al_get s i : alike anyr (p_get s i) (p_get s i).
Proof. unfold p_get. destruct (_ || _); [constructor|]. constructor. intros o o' _. constructor. exact I. Qed.
Lemma al_set s i b b' : alike eq (p_set s i b) (p_set s i b').
Proof. unfold p_set. destruct (_ || _); [constructor|]. constructor. constructor. reflexivity. Qed.
Lemma al_slice s lo hi : alike eq (p_slice s lo hi) (p_slice s lo hi).
Proof. unfold p_slice. destruct (_ || _ || _); [constructor|]. constructor. reflexivity. Qed.
Lemma al_copy_bytes d (b b' : bytes) : samelen b b' -> alike eq (p_copy_bytes d b) (p_copy_bytes d b').
Proof. intros L. apply al_store. unfold samelen in *. rewrite !firstn_length, L. reflexivity. Qed.
Lemma al_copy d s : alike eq (p_copy d s) (p_copy d s).
Proof. unfold p_copy. eapply alike_bind; [apply al_load|]. intros b b' L. apply al_copy_bytes, L. Qed.
Lemma al_put s (d d' : bytes) : samelen d d' -> alike eq (p_put s d) (p_put s d').
Proof. intros L. unfold p_put. rewrite L. destruct (_ <? _)%nat; [constructor|]. apply al_copy_bytes, L. Qed.
Lemma al_put16 s n n' : alike eq (p_put16 s n) (p_put16 s n'). Proof. apply al_put. reflexivity. Qed.
Lemma al_put32 s n n' : alike eq (p_put32 s n) (p_put32 s n'). Proof. apply al_put. reflexivity. Qed.

(** ** The encryptor *)
Lemma al_xor_loop b1 b2 b3 : forall n i, alike eq (xor_loop_p n i b1 b2 b3) (xor_loop_p n i b1 b2 b3).
Proof.
  induction n as [|n IH]; intros i; [constructor; reflexivity|]. cbn [xor_loop_p].
  eapply alike_bind; [apply al_get|intros x x' _]. eapply alike_bind; [apply al_get|intros y y' _]. eapply alike_bind; [apply al_set|intros ? ? <-]. apply IH.
Qed.
Lemma al_xorBytes b1 b2 : alike eq (xorBytes_p b1 b2) (xorBytes_p b1 b2).
Proof.
  unfold xorBytes_p. destruct (negb _); [constructor|]. eapply alike_bind; [apply al_make|intros b3 ? <-].
  eapply alike_bind; [apply al_xor_loop|intros ? ? <-]. constructor. reflexivity.
Qed.
Lemma derivePad_kind k k' salt n : same_kind samelen (derivePad k salt n) (derivePad k' salt n).
Proof.
  unfold derivePad. destruct (N.le_gt_cases (N.of_nat n) 8160) as [H|H].
  - destruct (hkdf_read_ok k salt [] n H) as (p & -> & L). destruct (hkdf_read_ok k' salt [] n H) as (p' & -> & L'). cbn [bind].
    rewrite (proj2 (Nat.eqb_eq _ _) L), (proj2 (Nat.eqb_eq _ _) L'). cbn. unfold samelen. congruence.
  - rewrite !hkdf_read_err by exact H. exact I.
Qed.
Lemma al_derivePad secret salt n : alike eq (derivePad_p secret salt n) (derivePad_p secret salt n).
Proof.
  unfold derivePad_p. eapply alike_bind; [apply al_view|intros k k' _]. eapply alike_bind; [apply al_make|intros pad ? <-].
  eapply alike_bind; [apply al_lift, derivePad_kind|intros d d' L]. eapply alike_bind; [apply al_copy_bytes, L|intros ? ? <-]. constructor. reflexivity.
Qed.
Lemma al_Encrypt secret f f' body : alike eq (Encrypt_p secret f body) (Encrypt_p secret f' body).
Proof.
  unfold Encrypt_p. eapply alike_bind; [apply al_derivePad|intros hp ? <-]. eapply alike_bind; [apply al_make|intros hd ? <-].
  eapply alike_bind; [apply al_set|intros ? ? <-]. eapply alike_bind; [apply al_xorBytes|intros eh ? <-].
  eapply alike_bind; [apply al_derivePad|intros bp ? <-]. eapply alike_bind; [apply al_xorBytes|intros eb ? <-].
  eapply alike_bind; [apply al_make|intros ct ? <-]. eapply alike_bind; [apply al_copy|intros ? ? <-].
  eapply alike_bind; [apply al_slice|intros d ? <-]. eapply alike_bind; [apply al_put32|intros ? ? <-].
  eapply alike_bind; [apply al_slice|intros d2 ? <-]. eapply alike_bind; [apply al_copy|intros ? ? <-]. constructor. reflexivity.
Qed.
Lemma al_DecryptBody secret c : alike eq (DecryptBody_p secret c) (DecryptBody_p secret c).
Proof. unfold DecryptBody_p. eapply alike_bind; [apply al_derivePad|intros bp ? <-]. apply al_xorBytes. Qed.
Lemma al_ct_loop x y : forall n i v v', alike anyr (ct_loop_p n i x y v) (ct_loop_p n i x y v').
Proof.
  induction n as [|n IH]; intros i v v'; [constructor; exact I|]. cbn [ct_loop_p].
  eapply alike_bind; [apply al_get|intros a a' _]. eapply alike_bind; [apply al_get|intros b b' _]. apply IH.
Qed.
Lemma al_ct_compare x y : alike anyr (ct_compare_p x y) (ct_compare_p x y).
Proof.
  unfold ct_compare_p. destruct (negb _); [constructor; exact I|]. eapply alike_bind; [apply al_ct_loop|intros v v' _]. constructor. exact I.
Qed.
Lemma get_be32_kind (b b' : bytes) : samelen b b' -> same_kind anyr (get_be32 b) (get_be32 b').
Proof.
  intros L. destruct b as [|x1 [|x2 [|x3 [|x4 b]]]], b' as [|y1 [|y2 [|y3 [|y4 b']]]]; try discriminate L; exact I.
Qed.
Lemma al_DecryptHeader iw secret c : alike anyr (DecryptHeader_p iw secret c) (DecryptHeader_p iw secret c).
Proof.
  unfold DecryptHeader_p. destruct (_ <? _)%nat; [constructor|]. eapply alike_bind; [apply al_derivePad|intros hp ? <-].
  eapply alike_bind; [apply al_slice|intros p ? <-]. eapply alike_bind; [apply al_slice|intros q ? <-].
  eapply alike_bind; [apply al_ct_compare|intros kc kc' _]. eapply alike_bind; [apply al_get|intros x x' _]. eapply alike_bind; [apply al_get|intros y y' _].
  eapply alike_bind; [apply al_slice|intros l ? <-]. eapply alike_bind; [apply al_view|intros lb lb' L].
  eapply alike_bind; [apply al_lift, get_be32_kind, L|intros n n' _]. constructor. exact I.
Qed.

(** ** Requests, entries, responses *)
Lemma al_serialize u p : alike eq (serialize_p u p) (serialize_p u p).
Proof.
  unfold serialize_p. destruct (_ || _); [constructor|]. eapply alike_bind; [apply al_make|intros buf ? <-].
  eapply alike_bind; [apply al_put16|intros ? ? <-]. eapply alike_bind; [apply al_slice|intros d ? <-]. eapply alike_bind; [apply al_copy|intros ? ? <-].
  eapply alike_bind; [apply al_slice|intros d2 ? <-]. eapply alike_bind; [apply al_put16|intros ? ? <-].
  eapply alike_bind; [apply al_slice|intros d3 ? <-]. eapply alike_bind; [apply al_copy|intros ? ? <-]. constructor. reflexivity.
Qed.
Lemma al_slowHash id h s : NewSlowHasher id = Ok h -> alike eq (slowHash_p h s) (slowHash_p h s).
Proof.
  unfold NewSlowHasher. destruct (_ =? _)%N; [intros E; apply Ok_inj in E; subst h; constructor; reflexivity|].
  destruct (_ =? _)%N; [|discriminate]. intros E. apply Ok_inj in E. subst h.
  change (alike eq (b <<- p_view s ;; r <<- p_lift (SlowHasher_Hash NewScryptSlowHasher b) ;; p_new r) (b <<- p_view s ;; r <<- p_lift (SlowHasher_Hash NewScryptSlowHasher b) ;; p_new r)).
  eapply alike_bind; [apply al_view|intros b b' _]. eapply alike_bind; [apply (al_lift samelen)|intros r r' L; apply al_pnew, L].
  destruct (scrypt_never_fails b) as [(d & E & Hd) _]. destruct (scrypt_never_fails b') as [(d' & E' & Hd') _]. rewrite E, E'. cbn. unfold samelen. congruence.
Qed.
Lemma al_deriveKey LIB (s s' : Server LIB) id u p L : s_slowHasher s = s_slowHasher s' -> NewSlowHasher id = Ok (s_slowHasher s) ->
  (forall x, exists k, full_evaluate LIB (s_oprfSuite s) (s_privateKey s) x OprfInfo = Ok k /\ length k = L) ->
  (forall x, exists k, full_evaluate LIB (s_oprfSuite s') (s_privateKey s') x OprfInfo = Ok k /\ length k = L) ->
  alike eq (deriveKey_p s u p) (deriveKey_p s' u p).
Proof.
  intros Eh Hs H H'. unfold deriveKey_p. rewrite <- Eh. eapply alike_bind; [apply al_serialize|intros ser ? <-].
  eapply alike_bind; [exact (al_slowHash id _ ser Hs)|intros inp ? <-]. eapply alike_bind; [apply al_view|intros x x' _].
  eapply alike_bind; [apply (al_lift samelen)|intros k k' Lk; apply al_pnew, Lk].
  destruct (H x) as (k & E & Lk). destruct (H' x') as (k' & E' & Lk'). rewrite E, E'. cbn. unfold samelen. congruence.
Qed.
Lemma al_EncryptEntry LIB (s s' : Server LIB) id u p f f' m L : s_slowHasher s = s_slowHasher s' -> NewSlowHasher id = Ok (s_slowHasher s) ->
  MetadataType_Valid f = true -> MetadataType_Valid f' = true ->
  (forall x, exists k, full_evaluate LIB (s_oprfSuite s) (s_privateKey s) x OprfInfo = Ok k /\ length k = L) ->
  (forall x, exists k, full_evaluate LIB (s_oprfSuite s') (s_privateKey s') x OprfInfo = Ok k /\ length k = L) ->
  alike eq (EncryptEntry_p s u p f m) (EncryptEntry_p s' u p f' m).
Proof.
  intros Eh Hs F F' H H'. unfold EncryptEntry_p. rewrite F, F'. cbn [negb]. eapply alike_bind; [exact (al_deriveKey LIB s s' id u p L Eh Hs H H')|intros k ? <-].
  apply al_Encrypt.
Qed.
Lemma al_bucketHash h b : alike eq (bucketHash_p h b) (bucketHash_p h b).
Proof.
  unfold bucketHash_p. destruct h as [salt]. destruct (_ || _); [constructor|]. eapply alike_bind; [apply al_make|intros acc ? <-].
  eapply alike_bind; [apply al_slice|intros d ? <-]. eapply alike_bind; [apply al_put16|intros ? ? <-].
  eapply alike_bind; [apply al_slice|intros d2 ? <-]. eapply alike_bind; [apply al_copy_bytes; reflexivity|intros ? ? <-].
  eapply alike_bind; [apply al_slice|intros d3 ? <-]. eapply alike_bind; [apply al_put16|intros ? ? <-].
  eapply alike_bind; [apply al_slice|intros d4 ? <-]. eapply alike_bind; [apply al_copy|intros ? ? <-].
  eapply alike_bind; [apply al_view|intros x x' _]. apply al_pnew. unfold samelen. rewrite !sha256_length. reflexivity.
Qed.
Lemma bucketID_kind (b b' : bytes) bits : samelen b b' -> same_kind anyr (bucketHashToID b bits) (bucketHashToID b' bits).
Proof.
  intros L. unfold bucketHashToID. destruct (_ <? _)%Z; [exact I|]. pose proof (get_be32_kind b b' L) as K.
  destruct (get_be32 b), (get_be32 b'); cbn in K |- *; try contradiction; try exact I. destruct (bits <? 0)%Z; exact I.
Qed.
Lemma al_Request LIB (c : Client) id u p (r r' : Blind LIB) : NewSlowHasher id = Ok (c_slowHasher c) ->
  (forall x y, exists b, blind LIB (c_oprfSuite c) [x] [y] = Ok [b]) ->
  alike anyr (Request_p c u p r) (Request_p c u p r').
Proof.
  intros Hs HB. unfold Request_p. eapply alike_bind; [apply al_serialize|intros ser ? <-].
  eapply alike_bind; [exact (al_slowHash id _ ser Hs)|intros inp ? <-]. eapply alike_bind; [apply al_view|intros x x' _].
  eapply (alike_bind (fun a b => exists u v, a = [u] /\ b = [v])); [apply al_lift|].
  - destruct (HB x r) as (b & E). destruct (HB x' r') as (b' & E'). rewrite E, E'. cbn. eauto.
  - intros ? ? (b & b' & -> & ->). eapply alike_bind; [apply al_bucketHash|intros bh ? <-]. eapply alike_bind; [apply al_view|intros hs hs' L].
    eapply alike_bind; [apply al_lift, bucketID_kind, L|intros i i' _]. constructor. exact I.
Qed.
Lemma al_Marshal r v' : alike eq (MarshalBinary_p r) (MarshalBinary_p (mkMResponse v' (mr_element r) (mr_bucket r))).
Proof.
  unfold MarshalBinary_p. cbn [mr_element mr_bucket mr_version]. eapply alike_bind; [apply al_view|intros e e' L]. eapply alike_bind; [apply al_view|intros b b' L'].
  apply al_pnew. unfold samelen in *. rewrite !app_length, L, L'. reflexivity.
Qed.
Lemma al_Unmarshal LIB d : alike anyr (UnmarshalBinary_p LIB d) (UnmarshalBinary_p LIB d).
Proof.
  unfold UnmarshalBinary_p. destruct (_ =? _)%nat; [constructor|]. destruct (_ <? _)%nat; [constructor|].
  eapply alike_bind; [apply al_slice|intros vb ? <-]. eapply alike_bind; [apply al_view|intros v v' L].
  eapply alike_bind; [apply al_lift, get_be32_kind, L|intros n n' _]. eapply alike_bind; [apply al_slice|intros buf ? <-].
  eapply (alike_bind eq); [apply al_lift; destruct (elt_size LIB DefaultOPRFSuite); cbn; auto|intros k ? <-]. eapply alike_bind; [apply al_make|intros el ? <-].
  destruct (_ && _); [constructor|]. eapply alike_bind; [apply al_copy|intros ? ? <-]. destruct (_ <? _)%nat; [constructor|].
  eapply alike_bind; [apply al_slice|intros rest ? <-]. constructor. exact I.
Qed.

(** ** Calls whose accesses depend on what they read *)
Lemma accesses_bind {A B} (x : prog A) (k : A -> prog B) : forall h,
  accesses (pbind x k) h = accesses x h ++ match run x h with (Ok a, h1) => accesses (k a) h1 | _ => [] end.
Proof.
  induction x as [[a|e|m]|b c IH|a i c IH|a i b c IH]; intros h; cbn [pbind accesses run app]; try reflexivity; rewrite IH; reflexivity.
Qed.
Lemma accesses_map {A B} (x : prog A) (f : A -> B) h : accesses (a <<- x ;; p_ret (f a)) h = accesses x h.
Proof. rewrite accesses_bind. destruct (run x h) as [[a|e|m] h1]; cbn [accesses p_ret]; apply app_nil_r. Qed.
Lemma run_view s h : run (p_view s) h = (Ok (view h s), h).
Proof. rewrite same_view. reflexivity. Qed.

Lemma Handle_accesses LIB (s s' : Server LIB) v id b kv kv' h h' e e' : s_version s = s_version s' -> same_shape h h' ->
  evaluate LIB (s_oprfSuite s) (s_privateKey s) [view h b] OprfInfo = Ok [e] ->
  evaluate LIB (s_oprfSuite s') (s_privateKey s') [view h' b] OprfInfo = Ok [e'] -> length e = length e' ->
  accesses (HandleRequest_p s v id b kv) h = accesses (HandleRequest_p s' v id b kv') h'.
Proof.
  intros V S E E' L. unfold HandleRequest_p. rewrite V. destruct (negb _); [reflexivity|]. rewrite !accesses_bind, !run_view.
  f_equal; [apply (alike_accesses samelen); [apply al_view|exact S]|]. rewrite !accesses_bind. unfold p_lift. rewrite E, E'. cbn [run accesses app].
  rewrite !accesses_bind. unfold p_new. cbn [run accesses app]. rewrite (shape_length h h' S), L. f_equal.
  destruct (hex_decode id); [|reflexivity..]. rewrite !accesses_bind. unfold p_lift. cbn [accesses app]. destruct (kv id), (kv' id); reflexivity.
Qed.

Lemma valid_shape h h' s : same_shape h h' -> valid h s -> valid h' s.
Proof.
  intros S [L V]. split; [exact L|]. destruct V as [V|[A O]]; [left; exact V|right].
  rewrite <- (shape_length h h' S), <- (shape_array h h' (m_arr s) S). auto.
Qed.
Lemma run_slice_in s lo hi : (0 <= lo <= hi)%Z -> (hi <= mlen s)%Z -> (m_len s <= m_cap s)%nat ->
  exists t, (forall h, run (p_slice s lo hi) h = (Ok t, h)) /\ (forall h, accesses (p_slice s lo hi) h = []) /\
    forall h, valid h s -> valid h t /\ view h t = firstn (Z.to_nat (hi - lo)) (skipn (Z.to_nat lo) (view h s)).
Proof.
  intros A B C. set (t := mkM (m_arr s) (m_off s + Z.to_nat lo) (Z.to_nat (hi - lo)) (m_cap s - Z.to_nat lo)).
  assert (E : p_slice s lo hi = p_ret t).
  { unfold p_slice. unfold mlen in B. destruct (Z.ltb_spec lo 0); [lia|]. destruct (Z.ltb_spec hi lo); [lia|]. destruct (Z.ltb_spec (Z.of_nat (m_cap s)) hi); [lia|]. reflexivity. }
  exists t. rewrite E. split; [reflexivity|]. split; [reflexivity|]. intros h H. destruct (m_slice_eq s lo hi h H A B) as (t' & E' & V & _ & W).
  rewrite <- (same_slice s lo hi h), E in E'. cbn [run p_ret] in E'. injection E' as E'. rewrite E'. auto.
Qed.
Lemma hdr_run iw h s c : valid h s -> valid h c ->
  exists ext, run (DecryptHeader_p iw s c) h = (DecryptHeader iw hkdfSHA256BucketEncryptor (view h s) (view h c), h ++ ext).
Proof. intros Hs Hc. rewrite same_DecryptHeader. destruct (DecryptHeader_m_ok iw h s c Hs Hc) as [(ext & X) E]. exists ext. rewrite <- X, <- E. apply surjective_pairing. Qed.

Lemma entry_wrap e : entry_ok e -> int_wrap 64 (blen (e_body e)) = blen (e_body e).
Proof. intros [_ B]. apply wrap_id. unfold blen in *. lia. Qed.
Lemma entry_len e : entry_ok e -> blen (entry_bytes e) = (25 + blen (e_body e))%Z.
Proof. intros [E _]. unfold entry_bytes, blen. rewrite !app_length, be32_length, E. cbn [length]. lia. Qed.

(** One step of the loop. *)
Lemma loop_step fuel h h' secret contents (pre pre' b b' : bytes) v v' fl fl' n n' : same_shape h h' -> valid h secret -> valid h contents ->
  view h contents = pre ++ b -> view h' contents = pre' ++ b' -> length pre = length pre' -> (mlen contents < 2 ^ 62)%Z -> (0 <= n < 2 ^ 32)%Z -> (0 <= n' < 2 ^ 32)%Z ->
  DecryptHeader 64 hkdfSHA256BucketEncryptor (view h secret) b = Ok (v, fl, n) ->
  DecryptHeader 64 hkdfSHA256BucketEncryptor (view h' secret) b' = Ok (v', fl', n') ->
  (mlen contents < blen pre + 25 + n /\ mlen contents < blen pre + 25 + n')%Z \/ n = n' /\ v = v' ->
  (forall ext ext', same_shape (h ++ ext) (h' ++ ext') -> (blen pre + 25 + n <= mlen contents)%Z -> v = false ->
     accesses (finalize_loop_p 64 fuel secret contents (blen pre + 25 + n)) (h ++ ext) = accesses (finalize_loop_p 64 fuel secret contents (blen pre + 25 + n)) (h' ++ ext')) ->
  accesses (finalize_loop_p 64 (S fuel) secret contents (blen pre)) h = accesses (finalize_loop_p 64 (S fuel) secret contents (blen pre')) h'.
Proof.
  intros S Vs Vc C C' P H Hn Hn' D D' O K. pose proof (valid_shape h h' _ S Vs) as Vs'. pose proof (valid_shape h h' _ S Vc) as Vc'.
  pose proof (view_length h contents Vc) as N. rewrite C, app_length in N.
  assert (Eo : blen pre' = blen pre) by (unfold blen; rewrite P; reflexivity). rewrite Eo.
  assert (Ho : (0 <= blen pre <= mlen contents)%Z) by (unfold blen, mlen in *; lia).
  cbn [finalize_loop_p]. change (Z.of_nat HeaderSize) with 25%Z. rewrite (wrap_id (blen pre + 25)) by lia.
  destruct (Z.ltb_spec (mlen contents) (blen pre + 25)) as [Q|Q]; [reflexivity|].
  destruct (run_slice_in contents (blen pre) (mlen contents) Ho ltac:(lia) ltac:(apply Vc)) as (s & Rs & As & Vws).
  destruct (Vws h Vc) as [V1 W1]. destruct (Vws h' Vc') as [V1' W1'].
  assert (X : forall hh (p q : bytes), view hh contents = p ++ q -> length p = length pre -> valid hh contents -> firstn (Z.to_nat (mlen contents - blen pre)) (skipn (Z.to_nat (blen pre)) (view hh contents)) = q).
  { intros hh p q E Lp V. pose proof (view_length hh contents V) as N1. rewrite E in *. rewrite app_length in N1. unfold blen, mlen in *. rewrite Nat2Z.id, <- Lp, skipn_app, skipn_all, Nat.sub_diag. cbn [app skipn].
    apply firstn_all2. lia. }
  rewrite (X h pre b C eq_refl Vc) in W1. rewrite (X h' pre' b' C' (eq_sym P) Vc') in W1'. clear X.
  unfold p_from. rewrite !accesses_bind, !Rs, !As. cbn [app]. rewrite !accesses_bind.
  destruct (hdr_run 64 h secret s Vs V1) as (ext & E). destruct (hdr_run 64 h' secret s Vs' V1') as (ext' & E').
  rewrite W1, D in E. rewrite W1', D' in E'. rewrite E, E'.
  destruct (alike_run _ _ _ (al_DecryptHeader 64 secret s) h h' S) as [T S']. rewrite E, E' in S'. cbn [snd] in S'.
  f_equal; [exact T|]. cbv beta iota zeta. rewrite (wrap_id (blen pre + 25 + n)), (wrap_id (blen pre + 25 + n')) by lia.
  destruct O as [[O O']|[<- <-]].
  { rewrite (proj2 (Z.ltb_lt _ _) O), (proj2 (Z.ltb_lt _ _) O'). reflexivity. }
  destruct (Z.ltb_spec (mlen contents) (blen pre + 25 + n)) as [Q'|Q']; [reflexivity|]. destruct v; [|apply K; auto].
  eapply (alike_accesses anyr); [|exact S']. eapply alike_bind; [apply al_slice|intros bd ? <-]. eapply alike_bind; [apply al_DecryptBody|intros md ? <-].
  constructor. exact I.
Qed.

Lemma loop_accesses (k k' b b' : bytes) : reads_alike k k' b b' -> forall fuel h h' secret contents (pre pre' : bytes), same_shape h h' ->
  valid h secret -> valid h contents -> view h secret = k -> view h' secret = k' -> view h contents = pre ++ b -> view h' contents = pre' ++ b' ->
  length pre = length pre' -> (mlen contents < 2 ^ 62)%Z ->
  accesses (finalize_loop_p 64 fuel secret contents (blen pre)) h = accesses (finalize_loop_p 64 fuel secret contents (blen pre')) h'.
Proof.
  intros R. induction R as [t t' T T'|t t' T T'|e e' b b' O O' L M M' R IH|e e' b b' O O' L M M']; intros fuel h h' secret contents pre pre' S Vs Vc K K' C C' P H;
    (destruct fuel as [|fuel]; [reflexivity|]).
  - pose proof (view_length h contents Vc) as N. rewrite C, app_length in N.
    assert (Eo : blen pre' = blen pre) by (unfold blen; rewrite P; reflexivity). rewrite Eo.
    cbn [finalize_loop_p]. change (Z.of_nat HeaderSize) with 25%Z. unfold short_tail in T.
    assert (Ho : (0 <= blen pre <= mlen contents)%Z) by (unfold blen, mlen in *; lia). rewrite (wrap_id (blen pre + 25)) by lia.
    destruct (Z.ltb_spec (mlen contents) (blen pre + 25)) as [Q|Q]; [reflexivity|]. unfold mlen, blen in Q. lia.
  - destruct T as (ck & f & n & r & -> & Lc & Hn & Ov). destruct T' as (ck' & f' & n' & r' & -> & Lc' & Hn' & Ov').
    pose proof (valid_shape h h' _ S Vc) as Vc'. pose proof (view_length h contents Vc) as N. pose proof (view_length h' contents Vc') as N'.
    rewrite C in N. rewrite C' in N'. rewrite !app_length, be32_length in N, N'. cbn [length] in N, N'.
    apply (loop_step fuel h h' secret contents pre pre' _ _ (bytes_eqb (key_check k) ck) (bytes_eqb (key_check k') ck') (bxor f (flag_mask k)) (bxor f' (flag_mask k')) (Z.of_N n) (Z.of_N n') S Vs Vc C C' P H).
    + lia.
    + lia.
    + rewrite DecryptHeader_spec, K, wrap_id by (assumption || lia). reflexivity.
    + rewrite DecryptHeader_spec, K', wrap_id by (assumption || lia). reflexivity.
    + left. unfold blen, mlen in *. lia.
    + intros ext ext' _ Q. unfold blen, mlen in *. lia.
  - assert (Lb : blen (e_body e') = blen (e_body e)) by (unfold blen; rewrite L; reflexivity).
    assert (Bd : (0 <= blen (e_body e) < 2 ^ 32)%Z) by (destruct O as [_ B]; unfold blen in *; lia).
    apply (loop_step fuel h h' secret contents pre pre' _ _ false false (entry_open_flag k e) (entry_open_flag k' e') (blen (e_body e)) (blen (e_body e)) S Vs Vc C C' P H Bd Bd).
    + rewrite DecryptHeader_entry, (entry_wrap e O), K, M by exact O. reflexivity.
    + rewrite DecryptHeader_entry, (entry_wrap e' O'), K', M', Lb by exact O'. reflexivity.
    + auto.
    + intros ext ext' S' _ _. pose proof (valid_shape h h' _ S Vs) as Vs'. pose proof (valid_shape h h' _ S Vc) as Vc'.
      assert (E1 : (blen pre + 25 + blen (e_body e))%Z = blen (pre ++ entry_bytes e)) by (pose proof (entry_len e O) as Z1; unfold blen in *; rewrite app_length; lia).
      assert (E2 : (blen pre + 25 + blen (e_body e))%Z = blen (pre' ++ entry_bytes e')) by (pose proof (entry_len e' O') as Z1; unfold blen in *; rewrite app_length; lia).
      rewrite E1 at 1. rewrite E2. apply IH; auto.
      * apply valid_app, Vs.
      * apply valid_app, Vc.
      * rewrite view_app; assumption.
      * rewrite view_app; assumption.
      * rewrite view_app, C, app_assoc by assumption. reflexivity.
      * rewrite view_app, C', app_assoc by assumption. reflexivity.
      * unfold blen in E1, E2. lia.
  - assert (Lb : blen (e_body e') = blen (e_body e)) by (unfold blen; rewrite L; reflexivity).
    assert (Bd : (0 <= blen (e_body e) < 2 ^ 32)%Z) by (destruct O as [_ B]; unfold blen in *; lia).
    apply (loop_step fuel h h' secret contents pre pre' _ _ true true (entry_open_flag k e) (entry_open_flag k' e') (blen (e_body e)) (blen (e_body e)) S Vs Vc C C' P H Bd Bd).
    + rewrite DecryptHeader_entry, (entry_wrap e O), K, M by exact O. reflexivity.
    + rewrite DecryptHeader_entry, (entry_wrap e' O'), K', M', Lb by exact O'. reflexivity.
    + auto.
    + intros ext ext' _ _ Z. discriminate Z.
Qed.

(** Where the accesses differ. *)
Lemma loop_fork fuel h h' secret contents (b b' : bytes) fl fl' : same_shape h h' -> valid h secret -> valid h contents ->
  view h contents = b -> view h' contents = b' -> (mlen contents < 2 ^ 62)%Z -> (25 <= mlen contents)%Z ->
  DecryptHeader 64 hkdfSHA256BucketEncryptor (view h secret) b = Ok (true, fl, 0%Z) ->
  DecryptHeader 64 hkdfSHA256BucketEncryptor (view h' secret) b' = Ok (false, fl', 0%Z) ->
  accesses (finalize_loop_p 64 (S fuel) secret contents 0) h <> accesses (finalize_loop_p 64 (S fuel) secret contents 0) h'.
Proof.
  intros S Vs Vc C C' H H25 D D'. pose proof (valid_shape h h' _ S Vs) as Vs'. pose proof (valid_shape h h' _ S Vc) as Vc'.
  change (finalize_loop_p 64 (Datatypes.S fuel) secret contents 0) with (
      if (mlen contents <? int_wrap 64 (0 + Z.of_nat HeaderSize))%Z then p_ret (Some (NotInBreach, None))
      else
        t <<- p_from contents 0 ;;
        x <<- DecryptHeader_p 64 secret t ;;
        let '(valid, flag, bodyLength) := x in
        let offset := int_wrap 64 (0 + Z.of_nat HeaderSize) in
        if (mlen contents <? int_wrap 64 (offset + bodyLength))%Z then p_fail "parsing error in bucket"
        else if (valid : bool) then
          b <<- p_slice contents offset (int_wrap 64 (offset + bodyLength)) ;;
          metadata <<- DecryptBody_p secret b ;;
          p_ret (Some (ToBreachStatus flag, Some metadata))
        else finalize_loop_p 64 fuel secret contents (int_wrap 64 (offset + bodyLength))).
  change (int_wrap 64 (0 + Z.of_nat HeaderSize)) with 25%Z. rewrite (proj2 (Z.ltb_ge _ _) H25).
  destruct (run_slice_in contents 0 (mlen contents) ltac:(lia) ltac:(lia) ltac:(apply Vc)) as (s & Rs & As & Vws).
  destruct (Vws h Vc) as [V1 W1]. destruct (Vws h' Vc') as [V1' W1'].
  assert (X : forall hh, valid hh contents -> firstn (Z.to_nat (mlen contents - 0)) (skipn (Z.to_nat 0) (view hh contents)) = view hh contents).
  { intros hh V. pose proof (view_length hh contents V) as N1. cbn [Z.to_nat skipn]. apply firstn_all2. unfold mlen. lia. }
  rewrite (X h Vc), C in W1. rewrite (X h' Vc'), C' in W1'. clear X.
  unfold p_from. rewrite !accesses_bind, !Rs, !As. cbn [app]. rewrite !accesses_bind.
  destruct (hdr_run 64 h secret s Vs V1) as (ext & E). destruct (hdr_run 64 h' secret s Vs' V1') as (ext' & E').
  rewrite W1, D in E. rewrite W1', D' in E'. rewrite E, E'.
  destruct (alike_run _ _ _ (al_DecryptHeader 64 secret s) h h' S) as [T S']. rewrite E, E' in S'. cbn [snd] in S'. rewrite T.
  intros Q. apply app_inv_head in Q. revert Q. cbv beta iota zeta. change (int_wrap 64 (25 + 0)) with 25%Z. rewrite (proj2 (Z.ltb_ge _ _) H25).
  destruct (run_slice_in contents 25 25 ltac:(lia) H25 ltac:(apply Vc)) as (bd & Rb & Ab & _).
  assert (Lb : m_len bd = 0%nat).
  { pose proof (Rb h) as Y. unfold p_slice in Y. destruct (_ || _ || _); [discriminate|]. injection Y as <-. reflexivity. }
  rewrite accesses_bind, Rb, Ab, accesses_map. cbn [app].
  unfold DecryptBody_p, derivePad_p. rewrite accesses_bind. rewrite accesses_bind, run_view.
  rewrite (alike_accesses samelen (p_view secret) (p_view secret) (h ++ ext) (h' ++ ext') (al_view secret) S').
  rewrite <- app_assoc. rewrite accesses_bind. unfold mlen at 1. rewrite Lb. change (p_make (Z.of_nat 0)) with (p_new []).
  assert (Cons : forall (x y : list access), (accesses (p_new []) (h ++ ext) ++ x) ++ y = Allocate 0 :: (x ++ y)) by reflexivity.
  rewrite Cons. clear Cons. destruct fuel as [|fuel]; [intros Q; symmetry in Q; apply app_cons_not_nil in Q; exact Q|].
  cbn [finalize_loop_p]. change (int_wrap 64 (25 + Z.of_nat HeaderSize)) with 50%Z. destruct (mlen contents <? 50)%Z eqn:E50.
  { intros Q. symmetry in Q. apply app_cons_not_nil in Q. exact Q. }
  apply Z.ltb_ge in E50.
  destruct (run_slice_in contents 25 (mlen contents) ltac:(lia) ltac:(lia) ltac:(apply Vc)) as (s2 & Rs2 & As2 & _).
  assert (L2 : (25 <= m_len s2)%nat).
  { pose proof (Rs2 h) as Y. unfold p_slice in Y. destruct (_ || _ || _); [discriminate|]. injection Y as <-. cbn [m_len]. lia. }
  unfold p_from. rewrite accesses_bind, Rs2, As2. cbn [app]. rewrite accesses_bind. unfold DecryptHeader_p at 1. change HeaderSize with 25%nat. rewrite (proj2 (Nat.ltb_ge _ _) L2).
  rewrite accesses_bind. unfold derivePad_p at 1. rewrite accesses_bind, run_view. rewrite <- !app_assoc.
  intros Q. apply app_inv_head in Q. rewrite accesses_bind in Q. revert Q. 
  match goal with |- _ = (accesses (p_make 21) ?hh ++ ?y) ++ ?z -> _ => change (accesses (p_make 21) hh) with [Allocate 21] end. discriminate.
Qed.

(** Finalize: the key in a new array, then the loop. *)
Lemma Finalize_split LIB (ctx : ClientRequestContext LIB) r h k : finalize_secret ctx (read_response h r) = Ok k ->
  accesses (Finalize_p ctx r) h = (accesses (p_view (mr_element r)) h ++ [Allocate (length k)]) ++
    accesses (finalize_loop_p 64 (S (m_len (bucket_of r))) (mkM (length h) 0 (length k) (length k)) (bucket_of r) 0) (h ++ [k]).
Proof.
  intros E.
  assert (F : run (finalize_secret_p ctx r) h = (Ok (mkM (length h) 0 (length k) (length k)), h ++ [k]) /\
    accesses (finalize_secret_p ctx r) h = accesses (p_view (mr_element r)) h ++ [Allocate (length k)]).
  { unfold finalize_secret_p. rewrite accesses_bind, run_bind, run_view. unfold p_lift.
    change (finalize_secret ctx {| rs_version := mr_version r; rs_evaluatedElement := view h (mr_element r); rs_bucketContents := None |}) with (finalize_secret ctx (read_response h r)).
    rewrite E. split; reflexivity. }
  destruct F as [F1 F2]. unfold Finalize_p. fold (bucket_of r). rewrite accesses_bind, F1, F2. f_equal. rewrite accesses_bind.
  assert (Z : forall q : res (option (BreachStatus * option mslice)) * heap,
    match q with (Ok a, h1) => accesses (match a with Some x => p_ret x | None => p_panic "out of fuel" end) h1 | _ => [] end = []) by (intros [[[x|]|m|m] h1]; reflexivity).
  rewrite Z. apply app_nil_r.
Qed.
Lemma new_secret (h : heap) (k : bytes) : valid (h ++ [k]) (mkM (length h) 0 (length k) (length k)) /\ view (h ++ [k]) (mkM (length h) 0 (length k) (length k)) = k.
Proof. destruct (returns_new_intro h k) as [_ (A & B & _)]. cbn [fst snd] in A, B. auto. Qed.
Section Finalize2.
Variables (LIB : OPRF) (ctx ctx' : ClientRequestContext LIB) (r : mresponse) (h h' : heap) (k k' : bytes).
Hypotheses (S : same_shape h h') (Vb : valid h (bucket_of r)) (Hb : (mlen (bucket_of r) < 2 ^ 62)%Z).
Hypotheses (E : finalize_secret ctx (read_response h r) = Ok k) (E' : finalize_secret ctx' (read_response h' r) = Ok k') (L : length k = length k').
Let Vb' : valid h' (bucket_of r) := valid_shape h h' _ S Vb.
Lemma split_shape : same_shape (h ++ [k]) (h' ++ [k']).
Proof. apply shape_app; [exact S|unfold same_shape; cbn [map]; rewrite L; reflexivity]. Qed.
Lemma split_prefix : accesses (p_view (mr_element r)) h ++ [Allocate (length k)] = accesses (p_view (mr_element r)) h' ++ [Allocate (length k')].
Proof. rewrite <- L. f_equal. apply (alike_accesses samelen); [apply al_view|exact S]. Qed.

Lemma Finalize_accesses : reads_alike k k' (view h (bucket_of r)) (view h' (bucket_of r)) ->
  accesses (Finalize_p ctx r) h = accesses (Finalize_p ctx' r) h'.
Proof.
  intros R. rewrite (Finalize_split LIB ctx r h k E), (Finalize_split LIB ctx' r h' k' E'). f_equal; [apply split_prefix|].
  pose proof (new_secret h k) as [V W]. pose proof (new_secret h' k') as [V' W']. rewrite <- L, <- (shape_length h h' S) in V', W' |- *.
  exact (loop_accesses k k' (view h (bucket_of r)) (view h' (bucket_of r)) R _ (h ++ [k]) (h' ++ [k']) _ (bucket_of r) [] [] split_shape
    V (valid_app h [k] _ Vb) W W' (view_app h [k] _ Vb) (view_app h' [k'] _ Vb') eq_refl Hb).
Qed.

Lemma Finalize_fork e e' b b' : view h (bucket_of r) = entry_bytes e ++ b -> view h' (bucket_of r) = entry_bytes e' ++ b' ->
  entry_ok e -> entry_ok e' -> e_body e = [] -> e_body e' = [] -> entry_matches k e = true -> entry_matches k' e' = false ->
  accesses (Finalize_p ctx r) h <> accesses (Finalize_p ctx' r) h'.
Proof.
  intros B B' O O' N N' M M'. rewrite (Finalize_split LIB ctx r h k E), (Finalize_split LIB ctx' r h' k' E'), split_prefix.
  intros Q. apply app_inv_head in Q. revert Q.
  pose proof (new_secret h k) as [V W]. pose proof (new_secret h' k') as [V' W']. rewrite <- L, <- (shape_length h h' S) in V', W' |- *.
  apply (loop_fork _ (h ++ [k]) (h' ++ [k']) _ _ (entry_bytes e ++ b) (entry_bytes e' ++ b') (entry_open_flag k e) (entry_open_flag k' e') split_shape V (valid_app h [k] _ Vb)).
  - rewrite view_app; assumption.
  - rewrite view_app; assumption.
  - exact Hb.
  - pose proof (view_length h _ Vb) as Y. rewrite B, app_length in Y. pose proof (entry_len e O) as Z1. unfold mlen. unfold blen in Z1. lia.
  - rewrite W, DecryptHeader_entry, M, N by exact O. reflexivity.
  - rewrite W', DecryptHeader_entry, M', N' by exact O'. reflexivity.
Qed.
End Finalize2.
