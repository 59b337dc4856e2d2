(** Proofs for C71: calls that run at the same time. *)
From Coq Require Import Lia.
From Verif Require Import Base BaseProofs Murmur3 Common Hasher Encryptor Oprf Server Client Mutator Hex KV Mem MemCode MemProg Shared
  SpecMem SpecShared MemProofs ProgProofs.

(** ** Confinement: whatever is read and wherever new memory lies, the program
    reads only new memory and bytes of [F], and writes only new memory. *)
Section Confined.
Variable n0 : nat.
Variable F : nat -> nat -> Prop.

Fixpoint confined {A} (Q : A -> Prop) (p : prog A) : Prop :=
  match p with
  | PDone (Ok a) => Q a
  | PDone _ => True
  | PNew b k => forall a, (n0 <= a)%nat -> confined Q (k a)
  | PRead a i k => ((n0 <= a)%nat \/ F a i) /\ forall o, confined Q (k o)
  | PWrite a i b k => (n0 <= a)%nat /\ confined Q k
  end.

Lemma confined_bind {A B} (P : A -> Prop) (Q : B -> Prop) x k : confined P x -> (forall a, P a -> confined Q (k a)) -> confined Q (pbind x k).
Proof.
  intros C K. induction x as [[a|e|m]|b c IH|a i c IH|a i b c IH]; cbn [pbind confined] in *; auto.
  - destruct C as [C1 C2]. split; [exact C1|]. intros o. apply IH, C2.
  - destruct C as [C1 C2]. split; [exact C1|]. apply IH, C2.
Qed.
Lemma confined_weaken {A} (P Q : A -> Prop) x : confined P x -> (forall a, P a -> Q a) -> confined Q x.
Proof.
  intros C K. induction x as [[a|e|m]|b c IH|a i c IH|a i b c IH]; cbn [confined] in *; auto.
  - destruct C as [C1 C2]. split; [exact C1|]. intros o. apply IH, C2.
  - destruct C as [C1 C2]. split; [exact C1|]. apply IH, C2.
Qed.

Definition mine (s : mslice) : Prop := (n0 <= m_arr s)%nat.
Definition may_read (s : mslice) : Prop := mine s \/ forall i, (i < m_len s)%nat -> F (m_arr s) (m_off s + i).
Definition any {A} (_ : A) : Prop := True.
Lemma mine_may s : mine s -> may_read s. Proof. left. assumption. Qed.

Lemma c_ret {A} (Q : A -> Prop) a : Q a -> confined Q (p_ret a). Proof. exact (fun H => H). Qed.
Lemma c_fail {A} (Q : A -> Prop) e : confined Q (p_fail e). Proof. exact I. Qed.
Lemma c_panic {A} (Q : A -> Prop) e : confined Q (p_panic e). Proof. exact I. Qed.
Lemma c_lift {A} (r : res A) : confined any (p_lift r). Proof. destruct r; exact I. Qed.
Lemma c_new b : confined mine (p_new b). Proof. intros a H. exact H. Qed.
Lemma c_make n : confined (fun s => mine s /\ mlen s = n) (p_make n).
Proof.
  unfold p_make. destruct (Z.ltb_spec n 0); [exact I|]. intros a L. split; [exact L|]. unfold mlen, m_len. rewrite zeros_length. lia.
Qed.
Lemma c_load a : forall n i, ((n0 <= a)%nat \/ forall j, (j < n)%nat -> F a (i + j)) -> confined any (p_load a i n).
Proof.
  induction n as [|n IH]; intros i H; [exact I|]. cbn [p_load confined]. split.
  - destruct H as [H|H]; [left; exact H|right]. specialize (H 0%nat ltac:(lia)). rewrite Nat.add_0_r in H. exact H.
  - intros [b|]; [|exact I]. eapply confined_bind; [apply IH|intros; exact I].
    destruct H as [H|H]; [left; exact H|right]. intros j L. specialize (H (S j) ltac:(lia)). rewrite Nat.add_succ_r in H. exact H.
Qed.
Lemma c_view s : may_read s -> confined any (p_view s).
Proof. apply c_load. Qed.
Lemma c_store a : (n0 <= a)%nat -> forall d i, confined any (p_store a i d).
Proof. intros L. induction d as [|b d IH]; intros i; [exact I|]. split; [exact L|apply IH]. Qed.
Lemma c_get s i : may_read s -> confined any (p_get s i).
Proof.
  intros H. unfold p_get. destruct (_ || _) eqn:E; [exact I|]. apply orb_false_iff in E as [E1 E2].
  apply Z.ltb_ge in E1. apply Z.leb_gt in E2. unfold mlen in E2. split; [|intros; exact I].
  destruct H as [H|H]; [left; exact H|right; apply H; lia].
Qed.
Lemma c_set s i b : mine s -> confined any (p_set s i b).
Proof. intros H. unfold p_set. destruct (_ || _); [exact I|]. split; [exact H|exact I]. Qed.
Lemma c_slice s lo hi : confined (fun t => m_arr t = m_arr s /\ (may_read s -> (hi <= mlen s)%Z -> may_read t)) (p_slice s lo hi).
Proof.
  unfold p_slice. destruct (_ || _ || _) eqn:E; [exact I|]. apply orb_false_iff in E as [E E3]. apply orb_false_iff in E as [E1 E2].
  apply Z.ltb_ge in E1, E2, E3. split; [reflexivity|]. intros [H|H] L; [left; exact H|right]. cbn [m_arr m_off m_len] in *.
  intros i Hi. rewrite <- Nat.add_assoc. apply H. unfold mlen in *. lia.
Qed.
Lemma c_slice_mine s lo hi : mine s -> confined mine (p_slice s lo hi).
Proof. intros H. eapply confined_weaken; [apply c_slice|]. intros t [E _]. unfold mine. rewrite E. exact H. Qed.
Lemma c_slice_read s lo hi : may_read s -> (hi <= mlen s)%Z -> confined may_read (p_slice s lo hi).
Proof. intros H L. eapply confined_weaken; [apply c_slice|]. intros t [_ K]. auto. Qed.
Lemma c_copy_bytes d b : mine d -> confined any (p_copy_bytes d b).
Proof. intros H. apply c_store, H. Qed.
Lemma c_copy d s : mine d -> may_read s -> confined any (p_copy d s).
Proof.
  intros H K. eapply confined_bind; [apply c_load|intros; apply c_copy_bytes, H].
  destruct K as [K|K]; [left; exact K|right]. intros j L. apply K. lia.
Qed.
Lemma c_put s d : mine s -> confined any (p_put s d).
Proof. intros H. unfold p_put. destruct (_ <? _)%nat; [exact I|apply c_copy_bytes, H]. Qed.
Lemma c_make' n : confined mine (p_make n).
Proof. eapply confined_weaken; [apply c_make|]. intros s [H _]. exact H. Qed.

Ltac step := first
  [ eapply confined_bind; [apply c_make'|let s := fresh "s" in let H := fresh "M" in intros s H]
  | eapply confined_bind; [apply c_new|let s := fresh "s" in let H := fresh "M" in intros s H]
  | eapply confined_bind; [apply c_lift|let s := fresh "v" in intros s _]
  | eapply confined_bind; [apply c_view; solve [auto using mine_may]|let s := fresh "b" in intros s _]
  | eapply confined_bind; [apply c_copy; solve [auto using mine_may]|intros _ _]
  | eapply confined_bind; [apply c_copy_bytes; solve [auto using mine_may]|intros _ _]
  | eapply confined_bind; [apply c_set; solve [auto using mine_may]|intros _ _]
  | eapply confined_bind; [apply c_get; solve [auto using mine_may]|let s := fresh "b" in intros s _]
  | eapply confined_bind; [apply c_put; solve [auto using mine_may]|intros _ _]
  | eapply confined_bind; [apply c_slice_mine; solve [auto]|let s := fresh "s" in let H := fresh "M" in intros s H]
  | eapply confined_bind; [apply c_slice_read; [solve [auto using mine_may]|unfold mlen in *; lia]|let s := fresh "s" in let H := fresh "M" in intros s H]
  | apply c_fail | apply c_panic | apply c_ret; solve [auto using mine_may | exact I] | apply c_new ].

Ltac bools := repeat match goal with
  | H : _ && _ = true |- _ => apply andb_true_iff in H as [? ?]
  | H : (_ <=? _)%Z = true |- _ => apply Z.leb_le in H
  | H : (_ <? _)%Z = true |- _ => apply Z.ltb_lt in H
  | H : (_ <? _)%Z = false |- _ => apply Z.ltb_ge in H
  | H : (_ <? _)%nat = false |- _ => apply Nat.ltb_ge in H
  end.

Lemma c_changeCap o p : may_read o -> confined mine (changeCap_p o p).
Proof.
  intros R. unfold changeCap_p. do 2 step. cbv zeta. destruct (_ && _); [|step]. step. destruct (switchCase _); repeat step.
Qed.
Lemma c_deletePortion o p : may_read o -> confined mine (deletePortion_p o p).
Proof.
  intros R. unfold deletePortion_p. unfold p_from, p_upto. destruct (_ && _) eqn:E; [repeat step|]. destruct ((p <? 0)%Z && _) eqn:E2; bools; repeat step.
Qed.
Lemma c_insert o p s : may_read o -> confined mine (insert_p o p s).
Proof.
  intros R. unfold insert_p, p_from, p_upto. destruct (_ && _); [repeat step|]. cbv zeta. destruct ((0 <=? _)%Z && _) eqn:E; bools; repeat step.
Qed.
Lemma c_substitute o p s t : may_read o -> confined mine (substitute_p o p s t).
Proof. intros R. unfold substitute_p. repeat step. Qed.
Lemma c_apply_rule r s : may_read s -> confined mine (apply_rule_p r s).
Proof.
  intros R. unfold apply_rule_p. cbv zeta. repeat match goal with |- confined _ (if ?c then _ else _) => destruct c end;
    auto using c_changeCap, c_deletePortion, c_insert, c_substitute, c_panic.
Qed.
Lemma c_mutate_loop pw num : may_read pw -> forall rules j seen l, confined any (mutate_loop_p rules pw num j seen l).
Proof.
  intros R. induction rules as [|r rules IH]; intros j seen l; cbn [mutate_loop_p]; [step|]. destruct (_ <? _)%Z; [|step].
  eapply confined_bind; [apply c_apply_rule, R|]. intros s M. step. cbv zeta. destruct (seenb _ _); apply IH.
Qed.
Lemma c_Mutate rules pw n : may_read pw -> confined any (Mutate_p rules pw n).
Proof. intros R. unfold Mutate_p. destruct rules; [step|]. destruct (_ || _); [step|]. step. apply c_mutate_loop, R. Qed.

Lemma c_serialize u p : may_read u -> may_read p -> confined mine (serialize_p u p).
Proof. intros R1 R2. unfold serialize_p, p_from, p_put16. destruct (_ || _); repeat step. Qed.
Lemma c_bucketHash h s : may_read s -> confined mine (bucketHash_p h s).
Proof. intros R. unfold bucketHash_p, p_from, p_upto, p_put16. destruct h. destruct (_ || _); repeat step. Qed.
Lemma c_slowHash h s : may_read s -> confined may_read (slowHash_p h s).
Proof.
  intros R. unfold slowHash_p. destruct h; [|step]. do 2 step. eapply confined_weaken; [apply c_new|exact mine_may].
Qed.
Lemma c_xor_loop b1 b2 b3 : may_read b1 -> may_read b2 -> mine b3 -> forall n i, confined any (xor_loop_p n i b1 b2 b3).
Proof. intros R1 R2 M. induction n as [|n IH]; intros i; cbn [xor_loop_p]; [step|]. do 3 step. apply IH. Qed.
Lemma c_xorBytes a b : may_read a -> may_read b -> confined mine (xorBytes_p a b).
Proof.
  intros R1 R2. unfold xorBytes_p. destruct (negb _); [step|]. step. eapply confined_bind; [apply c_xor_loop; assumption|intros _ _]. step.
Qed.
Lemma c_derivePad s t n : may_read s -> confined mine (derivePad_p s t n).
Proof. intros R. unfold derivePad_p. repeat step. Qed.
Ltac sub L := eapply confined_bind; [apply L; auto using mine_may|let s := fresh "s" in let H := fresh "M" in intros s H].
Lemma c_Encrypt s f b : may_read s -> may_read b -> confined mine (Encrypt_p s f b).
Proof.
  intros R1 R2. unfold Encrypt_p, p_from, p_put32. sub c_derivePad. do 2 step. sub c_xorBytes. sub c_derivePad. sub c_xorBytes. repeat step.
Qed.
Lemma c_DecryptBody s b : may_read s -> may_read b -> confined mine (DecryptBody_p s b).
Proof. intros R1 R2. unfold DecryptBody_p. sub c_derivePad. apply c_xorBytes; auto using mine_may. Qed.
Lemma c_ct_loop x y : may_read x -> may_read y -> forall n i v, confined any (ct_loop_p n i x y v).
Proof. intros R1 R2. induction n as [|n IH]; intros i v; cbn [ct_loop_p]; [step|]. do 2 step. apply IH. Qed.
Lemma c_ct_compare x y : may_read x -> may_read y -> confined any (ct_compare_p x y).
Proof. intros R1 R2. unfold ct_compare_p. destruct (negb _); [step|]. eapply confined_bind; [apply c_ct_loop; assumption|intros v _]. step. Qed.
Lemma c_DecryptHeader iw s c : may_read s -> may_read c -> confined any (DecryptHeader_p iw s c).
Proof.
  intros R1 R2. unfold DecryptHeader_p, p_upto. destruct (_ <? _)%nat eqn:E; [step|]. bools. change HeaderSize with 25%nat in E.
  sub c_derivePad. do 2 step. sub c_ct_compare. repeat step.
Qed.
Lemma c_Marshal r : may_read (mr_element r) -> (forall b, mr_bucket r = Some b -> may_read b) -> confined mine (MarshalBinary_p r).
Proof.
  intros R1 R2. unfold MarshalBinary_p. step. assert (R : may_read (match mr_bucket r with Some b => b | None => m_nil end)).
  { destruct (mr_bucket r); [auto|]. right. cbn. lia. }
  repeat step.
Qed.
Lemma c_Unmarshal LIB d : may_read d -> confined any (UnmarshalBinary_p LIB d).
Proof.
  intros R. unfold UnmarshalBinary_p, p_upto, p_from. destruct (_ =? 0)%nat; [step|]. destruct (_ <? _)%nat eqn:E; [step|]. bools.
  do 5 step. step. destruct (_ && _); [step|]. step. destruct (_ <? _)%nat eqn:E2; [step|]. repeat step.
Qed.
Lemma c_deriveKey {LIB} (s : Server LIB) u p : may_read u -> may_read p -> confined mine (deriveKey_p s u p).
Proof. intros R1 R2. unfold deriveKey_p. sub c_serialize. sub c_slowHash. repeat step. Qed.
Lemma c_EncryptEntry {LIB} (s : Server LIB) u p f m : may_read u -> may_read p -> may_read m -> confined mine (EncryptEntry_p s u p f m).
Proof. intros R1 R2 R3. unfold EncryptEntry_p. destruct (negb _); [step|]. sub @c_deriveKey. apply c_Encrypt; auto using mine_may. Qed.
Lemma c_finalize_loop iw s c : may_read s -> may_read c -> forall fuel o, confined any (finalize_loop_p iw fuel s c o).
Proof.
  intros R1 R2. induction fuel as [|fuel IH]; intros o; cbn [finalize_loop_p]; [step|]. unfold p_from. destruct (_ <? _)%Z; [step|]. step.
  sub c_DecryptHeader. destruct s1 as [[valid flag] len]. cbv zeta. destruct (_ <? _)%Z eqn:E; [step|]. bools. destruct valid; [|apply IH].
  step. sub c_DecryptBody. step.
Qed.
Lemma c_Finalize {LIB} (ctx : ClientRequestContext LIB) r : may_read (mr_element r) -> (forall b, mr_bucket r = Some b -> may_read b) -> confined any (Finalize_p ctx r).
Proof.
  intros R1 R2. unfold Finalize_p, finalize_secret_p. eapply confined_bind with (P := mine); [repeat step|]. intros s M. cbv zeta.
  assert (R : may_read (match mr_bucket r with Some b => b | None => m_nil end)).
  { destruct (mr_bucket r); [auto|]. right. cbn. lia. }
  sub c_finalize_loop. destruct s0; step.
Qed.
Lemma c_Request {LIB : OPRF} c u p (r : Blind LIB) : may_read u -> may_read p -> confined any (Request_p c u p r).
Proof.
  intros R1 R2. unfold Request_p. sub c_serialize. sub c_slowHash. do 2 step. destruct v; [step|]. sub c_bucketHash. repeat step.
Qed.
Lemma c_Handle {LIB} (s : Server LIB) v id b kv : may_read b -> confined any (HandleRequest_p s v id b kv).
Proof.
  intros R. unfold HandleRequest_p. destruct (negb _); [step|]. do 2 step. destruct v0; [step|]. step. destruct (hex_decode id); repeat step.
Qed.
End Confined.

(** ** The code of the calls *)
Lemma shown_may n0 {LIB} (c : call LIB) s : In s (arguments c) -> may_read n0 (shown c) s.
Proof. intros H. right. intros i L. exists s. split; [exact H|]. split; [reflexivity|lia]. Qed.
Lemma code_confined n0 {LIB} (c : call LIB) : confined n0 (shown c) any (code c).
Proof.
  assert (A : forall s, In s (arguments c) -> may_read n0 (shown c) s) by (intros s; apply shown_may).
  destruct c; cbn [code]; (eapply confined_bind; [|intros; apply c_ret; exact I]);
    cbn [arguments response_slices In] in A.
  - apply c_Mutate. auto.
  - apply c_EncryptEntry; auto.
  - apply c_Request; auto.
  - apply c_Finalize; auto. intros b E. rewrite E in A. apply A. cbn. auto.
  - apply c_Handle; auto.
  - apply c_Marshal; auto. intros b E. rewrite E in A. apply A. cbn. auto.
  - apply c_Unmarshal; auto.
Qed.

(** ** The invariant *)
Definition sound {LIB} (h0 : heap) (c : call LIB) (own : heap) (p : prog (outcome LIB)) : Prop :=
  confined (length h0) (shown c) any p /\ run p (h0 ++ own) = run (code c) h0.

Lemma array_app2 (h e : heap) a : (length h <= a)%nat -> array (h ++ e) a = array e (a - length h).
Proof. intros L. unfold array. rewrite app_nth2 by exact L. reflexivity. Qed.
Lemma upd_nth_app2 (h e : heap) a x : (length h <= a)%nat -> upd_nth a x (h ++ e) = h ++ upd_nth (a - length h) x e.
Proof.
  revert a. induction h as [|y h IH]; intros a L; cbn [app length] in *; [rewrite Nat.sub_0_r; reflexivity|].
  destruct a as [|a]; [lia|]. cbn [upd_nth]. rewrite IH by lia. f_equal.
Qed.
Lemma write_app2 (h e : heap) a o d : (length h <= a)%nat -> write (h ++ e) a o d = h ++ write e (a - length h) o d.
Proof. intros L. unfold write. rewrite array_app2, upd_nth_app2 by exact L. reflexivity. Qed.
Lemma app_split {A} (a b c d : list A) : length a = length c -> a ++ b = c ++ d -> a = c /\ b = d.
Proof.
  revert c. induction a as [|x a IH]; intros [|y c] L E; cbn in *; try discriminate; [auto|].
  injection E as -> E. destruct (IH c ltac:(lia) E) as [-> ->]. auto.
Qed.

Lemma keeps_refl F h : keeps F h h. Proof. unfold keeps. auto. Qed.
Lemma keeps_trans F a b c : keeps F a b -> keeps F b c -> keeps F a c.
Proof. intros (A1 & A2 & A3) (B1 & B2 & B3). split; [congruence|]. split; [intros; rewrite B2; apply A2|]. intros x i H. rewrite B3 by exact H. apply A3, H. Qed.

Lemma keeps_read F h0 h own a i : keeps F h0 h -> (length h0 <= a)%nat \/ F a i ->
  nth_error (array (h ++ own) a) i = nth_error (array (h0 ++ own) a) i.
Proof.
  intros (K1 & K2 & K3) H. destruct (Nat.le_gt_cases (length h0) a) as [L|L].
  - rewrite !array_app2 by lia. rewrite K1. reflexivity.
  - rewrite !array_app by lia. destruct H as [H|H]; [lia|]. apply K3, H.
Qed.

Lemma sound_step {LIB} h0 F (c : call LIB) h own p h' own' p' :
  keeps F h0 h -> (forall a i, shown c a i -> F a i) -> sound h0 c own p -> mstep (h ++ own) p (h' ++ own') p' -> length h' = length h ->
  h' = h /\ sound h0 c own' p'.
Proof.
  intros K SF [C R] M L. pose proof K as (K1 & K2 & K3).
  inversion M as [h1 b k E1 E2 E3 E4|h1 a i k E1 E2 E3 E4|h1 a i b k E1 E2 E3 E4]; subst; cbn [confined run] in C, R.
  - assert (E : h ++ (own ++ [b]) = h' ++ own') by (rewrite <- E3; apply app_assoc). clear E3.
    apply app_split in E as [X Y]; [|congruence]. subst h' own'. split; [reflexivity|]. split.
    + apply C. rewrite app_length. lia.
    + rewrite app_length, K1. rewrite app_length in R. rewrite <- app_assoc in R. exact R.
  - apply app_split in E3 as [X Y]; [|congruence]. subst h' own'. split; [reflexivity|]. destruct C as [C1 C2]. split; [apply C2|].
    rewrite (keeps_read F h0 h own a i K); [exact R|]. destruct C1 as [C1|C1]; [left; exact C1|right; apply SF, C1].
  - destruct C as [C1 C2]. rewrite write_app2 in E3 by lia. apply app_split in E3 as [X Y]; [|congruence]. subst h' own'. split; [reflexivity|].
    split; [exact C2|]. rewrite <- R. rewrite write_app2 by exact C1. rewrite K1. reflexivity.
Qed.

Definition inv {LIB} (h0 : heap) (calls : list (call LIB)) (m : machine (outcome LIB)) : Prop :=
  keeps (shown_by_any calls) h0 (sh m) /\ Forall2 (fun c g => sound h0 c (fst g) (snd g)) calls (gor m).

Lemma inv_start {LIB} h0 (calls : list (call LIB)) : inv h0 calls (started h0 calls).
Proof.
  split; [apply keeps_refl|]. unfold started. cbn [gor]. induction calls as [|c calls IH]; constructor; [|exact IH].
  cbn [fst snd]. split; [apply code_confined|]. rewrite app_nil_r. reflexivity.
Qed.
Lemma call_step_inv {LIB} h0 (calls : list (call LIB)) m m' : inv h0 calls m -> call_step m m' -> inv h0 calls m' /\ sh m' = sh m.
Proof.
  intros [K V] S. inversion S as [h before own p own' p' after h' M L E1 E2]; subst. cbn [sh gor] in *.
  apply Forall2_app_inv_r in V as (c1 & c2 & V1 & V2 & E). inversion V2 as [|c g c3 g3 V3 V4]; subst. cbn [fst snd] in V3.
  destruct (sound_step h0 (shown_by_any (c1 ++ c :: c3)) c h own p h' own' p' K) as [-> V5]; try assumption.
  { intros a i Sh. exists c. split; [apply in_or_app; right; left; reflexivity|exact Sh]. }
  split; [|reflexivity]. split; [exact K|]. cbn [gor]. apply Forall2_app; [exact V1|]. constructor; assumption.
Qed.
Lemma step_inv {LIB} h0 (calls : list (call LIB)) m m' : inv h0 calls m -> machine_step (shown_by_any calls) m m' -> inv h0 calls m'.
Proof.
  intros V S. destruct S as [m m' S|h h' g K].
  - eapply call_step_inv; eauto.
  - destruct V as [V1 V2]. split; [|exact V2]. cbn [sh] in *. eapply keeps_trans; eauto.
Qed.
Lemma reaches_inv {LIB} h0 (calls : list (call LIB)) m m' : reaches (shown_by_any calls) m m' -> inv h0 calls m -> inv h0 calls m'.
Proof. induction 1 as [m|m1 m2 m3 R IH S]; [exact (fun V => V)|]. intros V. eapply step_inv; [apply IH; exact V|exact S]. Qed.

(** ** What a finished call returns *)
Lemma keeps_view F h0 h own s : keeps F h0 h -> (length h0 <= m_arr s)%nat \/ (forall i, (i < m_len s)%nat -> F (m_arr s) (m_off s + i)) ->
  view (h ++ own) s = view (h0 ++ own) s.
Proof.
  intros K H. unfold view. assert (E : forall i, (i < m_len s)%nat -> nth_error (array (h ++ own) (m_arr s)) (m_off s + i) = nth_error (array (h0 ++ own) (m_arr s)) (m_off s + i)).
  { intros i L. apply (keeps_read F); [exact K|]. destruct H as [H|H]; [left; exact H|right; apply H, L]. }
  revert E. generalize (m_off s) (array (h ++ own) (m_arr s)) (array (h0 ++ own) (m_arr s)). generalize (m_len s). clear.
  intros n o l l' E. assert (E' : forall i, (i < n)%nat -> nth_error (skipn o l) i = nth_error (skipn o l') i) by (intros i L; rewrite !nth_skipn_opt; apply E, L).
  revert E'. generalize (skipn o l) (skipn o l'). clear. induction n as [|n IH]; intros l l' E; [reflexivity|].
  pose proof (E 0%nat ltac:(lia)) as E0. destruct l as [|x l], l' as [|y l']; cbn in E0; try discriminate; [reflexivity|].
  injection E0 as ->. cbn [firstn]. f_equal. apply IH. intros i L. apply (E (S i)). lia.
Qed.
Lemma keeps_valid F h0 h own s : keeps F h0 h -> valid (h0 ++ own) s -> valid (h ++ own) s.
Proof.
  intros (K1 & K2 & _) [V1 V2]. split; [exact V1|]. destruct V2 as [V2|[V2 V3]]; [left; exact V2|right].
  rewrite app_length in *. split; [lia|]. destruct (Nat.le_gt_cases (length h0) (m_arr s)) as [L|L].
  - rewrite array_app2 in V3 |- * by lia. rewrite K1. exact V3.
  - rewrite array_app in V3 |- * by lia. rewrite K2. exact V3.
Qed.
Lemma keeps_shows F h0 h own s b : keeps F h0 h -> shows h0 (h0 ++ own) s b -> shows h0 (h ++ own) s b.
Proof.
  intros K [[V N] S]. split; [split; [eapply keeps_valid; eauto|exact N]|]. rewrite <- S. apply (keeps_view F); [exact K|left; exact N].
Qed.
Lemma like_impl {A B} (P Q : A -> B -> Prop) r r' : (forall a b, P a b -> Q a b) -> like P r r' -> like Q r r'.
Proof. intros H. destruct r, r'; cbn; auto. Qed.

Lemma answers_keeps {LIB} h0 h own (c : call LIB) r : keeps (shown c) h0 h -> answers h0 (h0 ++ own) c r -> answers h0 (h ++ own) c r.
Proof.
  intros K. destruct c; cbn [answers]; apply like_impl.
  - intros o bs (ss & E & S & N). exists ss. split; [exact E|]. split; [|exact N]. clear - K S. induction S as [|s b ss bs S1 S2 IH]; constructor; [|exact IH]. apply (keeps_shows _ _ _ _ _ _ K S1).
  - intros o b (e & E & S). exists e. split; [exact E|]. eapply keeps_shows; eauto.
  - intros o b E. exact E.
  - intros o [st m] (m' & E & S). exists m'. split; [exact E|]. cbn [snd] in *. destruct m' as [s|], m as [b|]; cbn [shows_opt] in *; auto. eapply keeps_shows; eauto.
  - intros o x (m & E & V & S & Kv). exists m. split; [exact E|]. split; [exact V|]. split; [eapply keeps_shows; eauto|exact Kv].
  - intros o b (e & E & S). exists e. split; [exact E|]. eapply keeps_shows; eauto.
  - intros o x (m & E & R & [V N] & k & L & B). exists m. split; [exact E|]. split.
    + rewrite R. unfold read_response. rewrite B. cbn [option_map]. f_equal.
      * symmetry. eapply keeps_view; [exact K|left; exact N].
      * f_equal. symmetry. eapply keeps_view; [exact K|right]. cbn [m_arr m_off m_len]. intros i Li. exists data. split; [left; reflexivity|]. split; [reflexivity|lia].
    + split; [split; [eapply keeps_valid; eauto|exact N]|]. exists k. auto.
Qed.

Lemma run_code {LIB} h0 (c : call LIB) : valid_call h0 c -> forall r h', run (code c) h0 = (r, h') -> answers h0 h' c r.
Proof.
  intros [VA VK] r h' R. destruct c; cbn [code] in R; rewrite run_bind in R; cbn [answers arguments In response_slices] in *.
  - rewrite same_Mutate in R. destruct (Mutate_m_ok h0 rules password num) as [_ O]; [apply VA; auto|].
    destruct (Mutate_m rules password num h0) as [[ss|e|e] h1]; cbn [fst snd run p_ret] in *; apply pair_inj in R as [<- <-];
      destruct (Mutate rules (view h0 password) num) as [bs|e'|e']; try contradiction; cbn [like]; auto.
    destruct O as (O1 & O2 & O3). exists ss. split; [reflexivity|]. split; [|exact O3].
    subst bs. clear O3 VA VK. induction ss as [|s ss IH]; constructor; [|apply IH; intros; apply O2; right; assumption].
    destruct (O2 s (or_introl eq_refl)) as [V [N _]]. split; [split; assumption|reflexivity].
  - rewrite same_EncryptEntry in R. destruct (EncryptEntry_m_ok h0 s username password flag metadata) as [_ O]; [apply VA; auto..|].
    destruct (EncryptEntry_m s username password flag metadata h0) as [[e|e|e] h1]; cbn [fst snd run p_ret] in *; apply pair_inj in R as [<- <-];
      destruct (EncryptBucketEntry _ _ _ _ _) as [b|e'|e']; try contradiction; cbn [like]; auto.
    destruct O as (O1 & O2 & O3 & _). exists e. split; [reflexivity|]. split; [split; assumption|exact O1].
  - rewrite same_Request in R. destruct (Request_m_ok h0 c username password r0) as [_ O]; [apply VA; auto..|].
    destruct (Request_m c username password r0 h0) as [[e|e|e] h1]; cbn [fst snd run p_ret] in *; apply pair_inj in R as [<- <-]; rewrite <- O; cbn [like]; auto.
  - rewrite same_Finalize in R. destruct (Finalize_m_ok h0 ctx response) as [_ O].
    { split; [apply VA; auto|]. intros b E. apply VA. right. rewrite E. left. reflexivity. }
    destruct (Finalize_m ctx response h0) as [[[st m]|e|e] h1]; cbn [fst snd run p_ret] in *; apply pair_inj in R as [<- <-];
      destruct (Finalize ctx (read_response h0 response)) as [[st' b]|e'|e']; try (destruct m; contradiction); try contradiction; cbn [like]; auto.
    exists m. cbn [fst snd]. destruct m as [m|], b as [b|]; try contradiction; cbn [shows_opt].
    + destruct O as (-> & O1 & O2 & O3 & _). split; [reflexivity|]. split; [split; assumption|exact O1].
    + subst st'. auto.
  - rewrite same_HandleRequest in R. destruct (HandleRequest_m_ok h0 s version bucketID blindElement kv) as [_ O]; [apply VA; auto|exact VK|].
    destruct (HandleRequest_m s version bucketID blindElement kv h0) as [[m|e|e] h1]; cbn [fst snd run p_ret] in *; apply pair_inj in R as [<- <-].
    + destruct O as (O1 & [O2 _] & [O3 _] & O4). match goal with |- like _ _ ?X => assert (E : X = Ok (read_response h1 m)) by exact O1; rewrite E end. cbn [like]. exists m. split; [reflexivity|]. split; [reflexivity|]. split; [|exact O4].
      split; [split; assumption|reflexivity].
    + match goal with |- like _ _ ?X => assert (E : X = Err e) by exact O; rewrite E end. reflexivity.
    + match goal with |- like _ _ ?X => assert (E : X = Panic e) by exact O; rewrite E end. reflexivity.
  - rewrite same_MarshalBinary in R. destruct (MarshalBinary_m_ok h0 response) as [_ O].
    destruct (MarshalBinary_m response h0) as [[e|e|e] h1]; cbn [fst snd run p_ret] in *; apply pair_inj in R as [<- <-];
      destruct (MarshalBinary _) as [b|e'|e']; try contradiction; cbn [like]; auto.
    destruct O as (O1 & O2 & O3 & _). exists e. split; [reflexivity|]. split; [split; assumption|exact O1].
  - rewrite same_UnmarshalBinary in R. destruct (UnmarshalBinary_m_ok LIB h0 data) as [_ O]; [apply VA; auto|].
    destruct (UnmarshalBinary_m LIB data h0) as [[m|e|e] h1]; cbn [fst snd run p_ret] in *; apply pair_inj in R as [<- <-].
    + destruct O as (O1 & [O2 _] & [O3 _] & k & O4 & O5). rewrite O1. cbn [like]. exists m. split; [reflexivity|]. split; [reflexivity|]. split; [split; assumption|]. eauto.
    + rewrite O. reflexivity.
    + rewrite O. reflexivity.
Qed.

(** ** Calls end *)
(** Each step leaves a part of the program. *)
Inductive part {A} : prog A -> prog A -> Prop :=
| pt_new b k a : part (k a) (PNew b k)
| pt_read a i k o : part (k o) (PRead a i k)
| pt_write a i b k : part k (PWrite a i b k).
Lemma part_acc {A} (p : prog A) : Acc part p.
Proof.
  induction p as [r|b k IH|a i k IH|a i b k IH]; constructor; intros q P; inversion P; subst; auto.
Qed.
Inductive part1 {A} : list (prog A) -> list (prog A) -> Prop :=
| p1 l p q r : part q p -> part1 (l ++ q :: r) (l ++ p :: r).
Lemma part1_acc {A} (l : list (prog A)) : Acc part1 l.
Proof.
  induction l as [|p l IH].
  - constructor. intros y P. inversion P as [b x y' r Q E1 E2]. destruct b; discriminate.
  - revert l IH. induction (part_acc p) as [p _ IHp]. intros l Al.
    induction Al as [l Al IHl]. constructor. intros y P. inversion P as [b x x' r Q E1 E2]. subst.
    destruct b as [|z b]; cbn [app] in E2; injection E2 as <- <-.
    + apply (IHp x' Q). constructor. exact Al.
    + apply IHl. constructor. exact Q.
Qed.
Lemma mstep_part {A} h (p : prog A) h' p' : mstep h p h' p' -> part p' p.
Proof. intros M. inversion M; subst; constructor. Qed.
Lemma always_runs_out {A} F (m : machine A) : runs_out F m.
Proof.
  remember (map snd (gor m)) as l eqn:E. revert m E. induction (part1_acc l) as [l _ IH]. intros m ->.
  constructor. intros h m' _ S. inversion S as [h1 b own p own' p' r h' M L E1 E2]; subst.
  eapply IH; [|reflexivity]. cbn [gor]. rewrite <- H, !map_app. cbn [map snd]. constructor. eapply mstep_part, M.
Qed.

Lemma write_length h a i d : length (write h a i d) = length h.
Proof. unfold write. match goal with |- context [upd_nth a ?y h] => generalize y as x end. revert a. induction h as [|y h IH]; intros [|a] x; cbn; auto. Qed.
Lemma can_step {A} (m : machine A) n own p : nth_error (gor m) n = Some (own, p) -> next_access p <> None -> exists m', call_step m m'.
Proof.
  intros E N. apply nth_error_split in E as (b & r & E & _). destruct m as [h g]. cbn [gor] in E. subst g.
  assert (S : exists h1 p1, mstep (h ++ own) p h1 p1 /\ (length h <= length h1)%nat).
  { destruct p as [x|x k|a i k|a i x k]; cbn in N; [congruence|..]; eexists; eexists; (split; [constructor|]).
    - rewrite !app_length. lia.
    - rewrite app_length. lia.
    - rewrite write_length, app_length. lia. }
  destruct S as (h1 & p1 & S & L). rewrite <- (firstn_skipn (length h) h1) in S.
  eexists. eapply cs; [exact S|]. rewrite firstn_length. lia.
Qed.
Lemma finished_or {A} (m : machine A) : finished m \/ exists n own p, nth_error (gor m) n = Some (own, p) /\ next_access p <> None.
Proof.
  unfold finished. induction (gor m) as [|[own p] g IH]; [left; constructor|].
  destruct (next_access p) eqn:E.
  - right. exists 0%nat, own, p. split; [reflexivity|congruence].
  - destruct IH as [IH|(n & o & q & E1 & E2)]; [left; constructor; [exact E|exact IH]|right; exists (S n), o, q; auto].
Qed.
Lemma reaches_trans {A} F (a b c : machine A) : reaches F a b -> reaches F b c -> reaches F a c.
Proof. intros R1 R2. revert R1. induction R2 as [m|m1 m2 m3 R IH S]; [auto|]. intros R1. econstructor; [apply IH, R1|exact S]. Qed.
Lemma can_finish {A} F (m : machine A) : exists m', reaches F m m' /\ finished m'.
Proof.
  induction (always_runs_out F m) as [m _ IH]. destruct (finished_or m) as [D|(n & own & p & E & N)].
  - exists m. split; [constructor|exact D].
  - destruct (can_step m n own p E N) as [m1 S]. destruct (IH (sh m) m1) as (m2 & R & D).
    + apply keeps_refl.
    + destruct m. exact S.
    + exists m2. split; [|exact D]. eapply reaches_trans; [|exact R]. econstructor; [constructor|]. apply ms_call, S.
Qed.
Lemma Forall2_nth {A B} (P : A -> B -> Prop) l l' n a : Forall2 P l l' -> nth_error l n = Some a -> exists b, nth_error l' n = Some b /\ P a b.
Proof.
  intros F. revert n. induction F as [|x y l l' H F IH]; intros [|n] E; cbn in *; try discriminate; [|auto].
  injection E as <-. eauto.
Qed.
