(** * Lemmas for C86: reads of one bucket one after the other. *)
From Coq Require Import Lia.
From Verif Require Import Base BaseProofs Common Oprf Server Client KV KVProofs SpecEntry SpecProtocol FinalizeProofs ProtocolProofs Mutator Demo SpecDemo DemoProofs OrderProofs SpecConc KVConc ConcProofs ConcHistory ConcRun ConcServer InsertCalls SpecParallel ParallelProofs.

(** ** Runs of the atomic store from a state on *)
Inductive spec_runs (a0 : spec) : list event -> spec -> Prop :=
| runs_start : spec_runs a0 [] a0
| runs_next tr a e a' : spec_runs a0 tr a -> spec_step a e a' -> spec_runs a0 (snoc tr e) a'.

Lemma spec_split x y a : spec_exec (x ++ y) a -> exists a0, spec_exec x a0 /\ spec_runs a0 y a.
Proof.
  intros H. remember (x ++ y) as T eqn:E. revert y E. induction H as [|T a e a' H IH S]; intros y E.
  - symmetry in E. apply app_eq_nil in E as [-> ->]. exists spec_init. split; constructor.
  - destruct e as [e|]; cbn [snoc] in E.
    + destruct y as [|z y] using rev_ind; [|clear IHy].
      * rewrite app_nil_r in E. subst x. exists a'. split; [|constructor]. exact (spec_next T a (Some e) a' H S).
      * rewrite app_assoc in E. apply app_inj_tail in E as [-> ->]. destruct (IH y eq_refl) as (a0 & A & R). exists a0. split; [exact A|].
        exact (runs_next a0 y a (Some z) a' R S).
    + destruct (IH y E) as (a0 & A & R). exists a0. split; [exact A|]. exact (runs_next a0 y a None a' R S).
Qed.
Lemma spec_join x a0 y a : spec_exec x a0 -> spec_runs a0 y a -> spec_exec (x ++ y) a.
Proof.
  intros A R. induction R as [|y a e a' R IH S]; [rewrite app_nil_r; exact A|]. destruct e as [e|]; cbn [snoc] in *.
  - rewrite app_assoc. exact (spec_next _ _ (Some e) _ IH S).
  - exact (spec_next _ _ None _ IH S).
Qed.
Lemma prefix_refl {A} (l : list A) : prefix_of l l.
Proof. exists []. rewrite app_nil_r. reflexivity. Qed.
Lemma prefix_trans {A} (a b c : list A) : prefix_of a b -> prefix_of b c -> prefix_of a c.
Proof. intros [x ->] [y ->]. exists (x ++ y). rewrite app_assoc. reflexivity. Qed.
Lemma runs_log a0 tr a : spec_runs a0 tr a -> prefix_of (sp_log a0) (sp_log a).
Proof. induction 1 as [|tr a e a' R IH S]; [apply prefix_refl|]. eapply prefix_trans; [exact IH|eapply log_grows; exact S]. Qed.

(** A Get that has been called after [a0]. *)
Lemma get_span x a0 y a : spec_exec x a0 -> spec_runs a0 y a ->
  forall t y1 id y2, y = y1 ++ EInvoke t (CGet id) :: y2 -> invoked_by t y2 = [] -> returned_by t y2 = 0 ->
  sp_status a t = SCalled (CGet id)
  \/ exists L, sp_status a t = SDone (RValue (kv_lookup (replay L) id)) /\ prefix_of (sp_log a0) L /\ prefix_of L (sp_log a).
Proof.
  intros A R. induction R as [|y a e a' R IH S]; intros t y1 id y2 EQ NI NR; [destruct y1; discriminate|].
  pose proof (spec_hist _ _ (spec_join _ _ _ _ A R)) as HH.
  assert (CASE : (exists z, e = Some z /\ y2 = [] /\ y1 = y /\ z = EInvoke t (CGet id)) \/
                 (exists y2', y = y1 ++ EInvoke t (CGet id) :: y2' /\ y2 = snoc y2' e)).
  { destruct e as [z|]; cbn [snoc] in EQ; [|right; exists y2; split; [exact EQ|reflexivity]].
    destruct y2 as [|w y2'] using rev_ind.
    - left. exists z. apply app_inj_tail in EQ as [-> ->]. auto.
    - right. exists y2'. change (EInvoke t (CGet id) :: y2' ++ [w]) with ((EInvoke t (CGet id) :: y2') ++ [w]) in EQ.
      rewrite app_assoc in EQ. apply app_inj_tail in EQ as [-> ->]. split; reflexivity. }
  destruct CASE as [(z & -> & -> & -> & ->)|(y2' & EQ' & ->)].
  - inversion S; subst. cbn [sp_status]. left. apply upd_same.
  - assert (NI' : invoked_by t y2' = [] /\ returned_by t y2' = 0).
    { destruct e as [z|]; cbn [snoc] in NI, NR; [|auto]. rewrite invoked_app in NI. rewrite returned_app in NR. apply app_eq_nil in NI. split; [apply NI|lia]. }
    destruct NI' as [NI' NR'].
    assert (ST : sp_status a t = SCalled (CGet id)
      \/ exists L, sp_status a t = SDone (RValue (kv_lookup (replay L) id)) /\ prefix_of (sp_log a0) L /\ prefix_of L (sp_log a'))
      by (destruct (IH t y1 id y2' EQ' NI' NR') as [X|(L & X & P & Q)]; [left; exact X|right; exists L; split; [exact X|]; split; [exact P|]; eapply prefix_trans; [exact Q|eapply log_grows; exact S]]).
    destruct S as [kv l st held u v Q|kv l st held u k v i b Q Hd NE|kv l st held u c Q|kv l st held u c Q|kv l st held u r Q]; cbn [sp_status sp_log] in *.
    + exact ST.
    + exact ST.
    + destruct (Nat.eq_dec t u) as [->|N]; [exfalso|rewrite upd_other by exact N; exact ST].
      cbn [snoc] in NI. rewrite invoked_app in NI. apply app_eq_nil in NI as [_ NI]. cbn [invoked_by flat_map] in NI. rewrite Nat.eqb_refl in NI. discriminate.
    + destruct (Nat.eq_dec t u) as [->|N]; [|rewrite upd_other by exact N; exact ST].
      rewrite upd_same. destruct ST as [ST|(L & ST & _)]; [|congruence]. assert (c = CGet id) as -> by congruence. right. exists l. split.
      * cbn [apply snd]. pose proof (h_kv _ _ HH) as HK. cbn [sp_kv sp_log] in HK. rewrite HK. reflexivity.
      * split; [exact (runs_log _ _ _ R)|eexists; reflexivity].
    + destruct (Nat.eq_dec t u) as [->|N]; [exfalso|rewrite upd_other by exact N; exact ST].
      cbn [snoc] in NR. rewrite returned_app in NR. unfold returned_by at 2 in NR. cbn [filter] in NR. rewrite Nat.eqb_refl in NR. cbn [length] in NR. lia.
Qed.

(** ** Without Put, what is stored under a key only grows. *)
Definition no_put (id : bytes) (l : list (nat * call)) : Prop := forall t v, ~ In (t, CPut id v) l.
Lemma grows id l : no_put id l -> forall kv, prefix_of (sl (kv_lookup kv id)) (sl (kv_lookup (fold_left (fun kv p => fst (apply kv (snd p))) l kv) id)).
Proof.
  induction l as [|[t c] l IH]; intros N kv; [apply prefix_refl|]. cbn [fold_left snd].
  assert (N' : no_put id l) by (intros t' v I; apply (N t' v); right; exact I).
  eapply prefix_trans; [|apply (IH N')]. destruct c as [i v|i v|i]; cbn [apply fst].
  - unfold kv_Put. rewrite lookup_set. destruct (bytes_eqb i id) eqn:E; [|apply prefix_refl]. exfalso. apply bytes_eqb_eq in E. subst i. apply (N t v). left. reflexivity.
  - rewrite lookup_append. destruct (bytes_eqb i id); [eexists; reflexivity|apply prefix_refl].
  - apply prefix_refl.
Qed.
Lemma replay_grows id L L' : no_put id L' -> prefix_of L L' -> prefix_of (sl (kv_lookup (replay L) id)) (sl (kv_lookup (replay L') id)).
Proof.
  intros N [r ->]. unfold replay. rewrite fold_left_app. apply grows. intros t v I. apply (N t v). apply in_or_app. right. exact I.
Qed.
Lemma in_of_thread t c L : In (t, c) L -> In c (of_thread t L).
Proof. intros I. unfold of_thread. apply in_flat_map. exists (t, c). split; [exact I|]. cbn [fst snd]. rewrite Nat.eqb_refl. left. reflexivity. Qed.
Lemma invoked_in t c tr : In c (invoked_by t tr) -> In (EInvoke t c) tr.
Proof.
  unfold invoked_by. intros I. apply in_flat_map in I as (e & E & I). destruct e as [| t' c' | |]; try contradiction. destruct (t' =? t)%nat eqn:Q; [|contradiction].
  apply Nat.eqb_eq in Q. subst t'. destruct I as [->|[]]. exact E.
Qed.

Lemma reads_grow id t1 t2 tr1 tr2 v1 tr3 tr4 v2 σ :
  exec true (tr1 ++ EInvoke t1 (CGet id) :: tr2 ++ EReturn t1 (RValue v1) :: tr3 ++ EInvoke t2 (CGet id) :: tr4 ++ [EReturn t2 (RValue v2)]) σ ->
  invoked_by t1 tr2 = [] -> returned_by t1 tr2 = 0 -> invoked_by t2 tr4 = [] -> returned_by t2 tr4 = 0 ->
  (forall t v, ~ In (EInvoke t (CPut id v)) (tr1 ++ tr2 ++ tr3 ++ tr4)) ->
  prefix_of (sl v1) (sl v2).
Proof.
  intros E NI1 NR1 NI2 NR2 NP. apply exec_spec in E as [a A].
  set (X := tr1 ++ EInvoke t1 (CGet id) :: tr2) in *. set (Y := tr3 ++ EInvoke t2 (CGet id) :: tr4).
  assert (EQ : tr1 ++ EInvoke t1 (CGet id) :: tr2 ++ EReturn t1 (RValue v1) :: tr3 ++ EInvoke t2 (CGet id) :: tr4 ++ [EReturn t2 (RValue v2)]
    = ((X ++ [EReturn t1 (RValue v1)]) ++ Y) ++ [EReturn t2 (RValue v2)]).
  { unfold X, Y. repeat (rewrite <- ?app_assoc; cbn [app]). reflexivity. }
  rewrite EQ in A. apply spec_last in A as (b0 & b1 & A & S2). pose proof A as Ab. apply spec_split in A as (a1 & A1 & R).
  assert (First : exists L, v1 = kv_lookup (replay L) id /\ prefix_of L (sp_log a1)).
  { destruct (spec_split _ _ _ A1) as (a0 & A0 & R1).
    assert (Z : forall y a', spec_runs a0 y a' -> (y = [] -> sp_status a' t1 = SCalled (CGet id) \/ exists L, sp_status a' t1 = SDone (RValue (kv_lookup (replay L) id)) /\ prefix_of L (sp_log a'))
      /\ (y = [EReturn t1 (RValue v1)] -> exists L, v1 = kv_lookup (replay L) id /\ prefix_of L (sp_log a'))).
    { intros y a' Ry. induction Ry as [|y a' e a'' Ry [IH1 IH2] S].
      - split; [|discriminate]. intros _. destruct (get_span [] spec_init X a0 spec_start) with (t := t1) (y1 := tr1) (id := id) (y2 := tr2) as [HH1|(L & HH1 & _ & P)]; auto.
        { clear - A0. induction A0; [constructor|econstructor; eassumption]. }
        right. exists L. auto.
      - destruct e as [e|]; cbn [snoc].
        + split; [destruct y; discriminate|]. intros Ey. destruct y as [|z y]; [|destruct y; discriminate]. injection Ey as ->. specialize (IH1 eq_refl).
          inversion S; subst. cbn [sp_status sp_log] in *. destruct IH1 as [HH1|(L & HH1 & P)]; [congruence|]. exists L. split; [congruence|exact P].
        + split; intros Ey.
          * specialize (IH1 Ey). inversion S; subst. cbn [sp_status sp_log] in *. destruct (Nat.eq_dec t1 t) as [->|Ne].
            -- rewrite upd_same. destruct IH1 as [HH1|(L & HH1 & P)]; [|congruence]. assert (c = CGet id) as -> by congruence. right. exists l. split; [|eexists; reflexivity].
               assert (HK : kv = replay l). { exact (h_kv _ _ (spec_hist _ _ (spec_join _ _ _ _ A0 Ry))). }
               cbn [apply snd]. rewrite HK. reflexivity.
            -- rewrite upd_other by exact Ne. destruct IH1 as [HH1|(L & HH1 & P)]; [left; exact HH1|right]. exists L. split; [exact HH1|]. eapply prefix_trans; [exact P|eexists; reflexivity].
          * destruct (IH2 Ey) as (L & HH1 & P). exists L. split; [exact HH1|]. eapply prefix_trans; [exact P|eapply log_grows; exact S]. }
    exact (proj2 (Z _ _ R1) eq_refl). }
  destruct First as (L1 & -> & P1).
  destruct (get_span _ a1 Y b0 A1 R t2 tr3 id tr4 eq_refl NI2 NR2) as [HH1|(L2 & HH1 & P2 & Q2)]; inversion S2; subst; cbn [sp_status] in HH1; [congruence|].
  assert (v2 = kv_lookup (replay L2) id) as -> by congruence. apply replay_grows; [|eapply prefix_trans; eassumption].
  intros t v I. cbn [sp_log] in Q2. destruct Q2 as [r Q2].
  pose proof (proj2 (hist_bounds _ _ (spec_hist _ _ Ab) t)) as [r' B]. cbn [sp_log] in B.
  assert (J : In (CPut id v) (invoked_by t ((X ++ [EReturn t1 (RValue (kv_lookup (replay L1) id))]) ++ Y))).
  { rewrite B. apply in_or_app. left. apply in_of_thread. rewrite Q2. apply in_or_app. left. exact I. }
  apply invoked_in in J. apply (NP t v). unfold X, Y in J. repeat (rewrite in_app_iff in J || cbn [In] in J). rewrite !in_app_iff.
  destruct J as [[[J|[J|J]]|[J|[]]]|[J|[J|J]]]; try discriminate; tauto.
Qed.

(** ** A found answer stays when the bucket grows. *)
Lemma found_stays (LIB : OPRF) (ctx ctx' : ClientRequestContext LIB) resp resp' k st m :
  client_secret ctx resp k -> client_secret ctx' resp' k -> prefix_of (sl (rs_bucketContents resp)) (sl (rs_bucketContents resp')) ->
  holdable (sl (rs_bucketContents resp')) -> Finalize ctx resp = Ok (st, Some m) -> Finalize ctx' resp' = Ok (st, Some m).
Proof.
  intros C C' [more P] H F.
  assert (Hr : holdable (sl (rs_bucketContents resp))).
  { unfold holdable, blen in *. rewrite P, app_length in H. lia. }
  destruct (decompose (sl (rs_bucketContents resp))) as (es & t & D & Ok_es & T).
  assert (Split : Forall (fun b => e_check b <> key_check k) es \/ exists bef e aft, es = bef ++ e :: aft /\ Forall (fun b => e_check b <> key_check k) bef /\ e_check e = key_check k).
  { clear. induction es as [|e es IH]; [left; constructor|]. destruct (bytes_eqb (e_check e) (key_check k)) eqn:Q.
    - apply bytes_eqb_eq in Q. right. exists [], e, es. auto.
    - apply bytes_eqb_neq in Q. destruct IH as [IH|(b & x & a & -> & Fb & X)]; [left; constructor; assumption|]. right. exists (e :: b), x, a. split; [reflexivity|]. split; [constructor; assumption|exact X]. }
  destruct Split as [N|(bef & e & aft & -> & N & Q)].
  - exfalso. destruct T as [T|T].
    + rewrite (finalize_short_tail LIB ctx resp k es t C D Hr Ok_es T N) in F. discriminate.
    + rewrite (finalize_overrun_tail LIB ctx resp k es t C D Hr Ok_es T N) in F. discriminate.
  - apply Forall_app in Ok_es as [Ob Oe]. inversion Oe as [|? ? Oe1 _]; subst.
    assert (D1 : sl (rs_bucketContents resp) = bucket_bytes bef ++ entry_bytes e ++ (bucket_bytes aft ++ t)).
    { rewrite D, bucket_bytes_app. cbn [bucket_bytes flat_map]. rewrite <- !app_assoc. reflexivity. }
    assert (D2 : sl (rs_bucketContents resp') = bucket_bytes bef ++ entry_bytes e ++ (bucket_bytes aft ++ t ++ more)).
    { rewrite P, D1, <- !app_assoc. reflexivity. }
    destruct (finalize_first_match LIB ctx resp k bef e _ C D1 Hr Ob Oe1 N Q) as [A B].
    destruct (finalize_first_match LIB ctx' resp' k bef e _ C' D2 H Ob Oe1 N Q) as [A' _].
    destruct (Z.le_gt_cases (blen (e_body e)) 8160) as [Le|Gt].
    + rewrite (A Le) in F. rewrite (A' Le). exact F.
    + destruct (B Gt) as (x & X). rewrite X in F. discriminate.
Qed.

(** ** A query while goroutines load *)
Section Loading.
Context {LIB : OPRF}.
Implicit Type s : Server LIB.

Lemma tagged_parts s : forall L (parts : nat -> list cred), (forall t, Forall2 (stored_as s) (parts t) (of_thread t L)) ->
  exists db : list (nat * cred), Forall2 (fun d c => fst d = fst c /\ stored_as s (snd d) (snd c)) db L
    /\ forall t, map snd (filter (fun x => (fst x =? t)%nat) db) = parts t.
Proof.
  induction L as [|[t c] L IH]; intros parts F.
  - exists []. split; [constructor|]. intros t. specialize (F t). inversion F. reflexivity.
  - pose proof (F t) as Ft. cbn [of_thread flat_map fst snd] in Ft. rewrite Nat.eqb_refl in Ft. cbn [app] in Ft.
    inversion Ft as [|d c' ds cs SA R E1 E2]; subst.
    destruct (IH (fun t' => if (t' =? t)%nat then ds else parts t')) as (db & FD & P).
    { intros t'. destruct (Nat.eqb_spec t' t) as [->|N]; [exact R|]. specialize (F t'). cbn [of_thread flat_map fst snd] in F.
      destruct (Nat.eqb_spec t t') as [->|N']; [contradiction|]. exact F. }
    exists ((t, d) :: db). split; [constructor; [split; [reflexivity|exact SA]|exact FD]|].
    intros x. cbn [filter fst]. specialize (P x). cbv beta in P. destruct (Nat.eq_dec x t) as [Q|N].
    + subst x. rewrite Nat.eqb_refl in P |- *. cbn [map snd]. rewrite P. congruence.
    + rewrite (proj2 (Nat.eqb_neq x t) N) in P. rewrite (proj2 (Nat.eqb_neq t x)) by congruence. exact P.
Qed.
Lemma Forall2_len {A B} {R : A -> B -> Prop} {a b} : Forall2 R a b -> length a = length b.
Proof. induction 1; cbn [length]; congruence. Qed.
Lemma Forall2_firstn {A B} (R : A -> B -> Prop) n : forall a b, Forall2 R a b -> Forall2 R (firstn n a) (firstn n b).
Proof. induction n as [|n IH]; intros a b F; [constructor|]. destruct F; [constructor|]. cbn [firstn]. constructor; auto. Qed.
Lemma prefix_firstn {A} (a b : list A) : prefix_of a b -> a = firstn (length a) b.
Proof. intros [r ->]. rewrite firstn_app, Nat.sub_diag, firstn_all, app_nil_r. reflexivity. Qed.
Lemma prefix_filter {A} (f : A -> bool) a b : prefix_of a b -> prefix_of (filter f a) (filter f b).
Proof. intros [r ->]. rewrite filter_app. eexists. reflexivity. Qed.
Lemma prefix_le {A} (a b : list A) : prefix_of a b -> length a <= length b.
Proof. intros [r ->]. rewrite app_length. lia. Qed.
Lemma firstn_prefix {A} n (l : list A) : prefix_of (firstn n l) l.
Proof. exists (skipn n l). symmetry. apply firstn_skipn. Qed.
Lemma prefix_both {A} (a b c : list A) : prefix_of a c -> prefix_of b c -> length a <= length b -> prefix_of a b.
Proof.
  intros P Q L. rewrite (prefix_firstn a c P), (prefix_firstn b c Q). exists (skipn (length a) (firstn (length b) c)).
  rewrite <- (firstn_skipn (length a) (firstn (length b) c)) at 1. rewrite firstn_firstn, Nat.min_l by exact L. reflexivity.
Qed.

Lemma log_of_loading s work early late L : loading s work late -> prefix_of early late -> between L early late ->
  exists parts db, (forall t, prefix_of (parts t) (stored_by s (work t)) /\ finished t early <= length (parts t) <= begun t late)
    /\ merge parts db /\ store_all s newKVStore db = Ok (replay L).
Proof.
  intros Ld [rest ->] B. set (late := early ++ rest) in *.
  assert (P : forall t, prefix_of (of_thread t (nonget L)) (calls_of s (work t))).
  { intros t. rewrite of_thread_nonget. eapply prefix_trans; [apply prefix_filter, (B t)|apply Ld]. }
  set (parts := fun t => firstn (length (of_thread t (nonget L))) (stored_by s (work t))).
  assert (F : forall t, Forall2 (stored_as s) (parts t) (of_thread t (nonget L))).
  { intros t. rewrite (prefix_firstn _ _ (P t)) at 1. apply Forall2_firstn, calls_of_stores. }
  destruct (tagged_parts s (nonget L) parts F) as (db & FD & T).
  exists parts, (map snd db). split; [|split; [exists db; auto|]].
  - intros t. split; [apply firstn_prefix|]. rewrite (Forall2_len (F t)), of_thread_nonget. split.
    + unfold finished. apply prefix_le, prefix_filter. apply prefix_both with (c := invoked_by t late).
      * unfold late. rewrite invoked_app. eapply prefix_trans; [apply firstn_prefix|eexists; reflexivity].
      * apply B.
      * etransitivity; [|apply (B t)]. apply firstn_le_length.
    + unfold begun. apply prefix_le, prefix_filter, B.
  - rewrite (log_stores s db _ FD), replay_nonget. reflexivity.
Qed.

(** A successful insert stores all its credentials. *)
Lemma store_all_prefix s db : forall kv kv', store_all s kv db = Ok kv' -> stored_prefix s db = db.
Proof.
  induction db as [|d db IH]; intros kv kv' H; [reflexivity|]. cbn [store_all] in H. apply bind_ok in H as (id & B & H). apply bind_ok in H as (e & E & H).
  cbn [stored_prefix]. rewrite B, E. f_equal. eapply IH. exact H.
Qed.
Lemma success_stores s o : snd (insert_calls s (o_user o) (o_pass o) (o_meta o) (o_num o) (o_incl o)) = Ok tt -> op_stores s o = op_creds o.
Proof.
  intros H. pose proof (insert_calls_insert s newKVStore o) as D. unfold do_insert in D.
  destruct (demo_insert s newKVStore (o_user o) (o_pass o) (o_meta o) (o_num o) (o_incl o)) as [kv r] eqn:E. apply (f_equal snd) in D. cbn [snd] in D. rewrite H in D. subst r.
  apply insert_shape in E as (vs & dn & rest & Q & S & _ & R). destruct (R eq_refl) as [-> V]. rewrite app_nil_r in Q. subst dn.
  unfold op_stores, op_creds. rewrite V. eapply store_all_prefix. exact S.
Qed.
Lemma insert_flag o d : In d (op_creds o) -> flag_status (d_flag d) <> NotInBreach.
Proof.
  unfold op_creds. destruct (ConfigJson.password_variants _ _) as [vs| |].
  - unfold insert_creds. intros [<-|I]; [discriminate|]. apply in_app_or in I as [I|I].
    + apply in_map_iff in I as (v & <- & _). discriminate.
    + destruct (o_incl o); [|destruct I]. destruct I as [<-|[]]. discriminate.
  - intros [<-|[]]. discriminate.
  - intros [<-|[]]. discriminate.
Qed.
Lemma stored_flag s ops d : In d (stored_by s ops) -> flag_status (d_flag d) <> NotInBreach.
Proof. intros I. apply stored_by_tried in I. unfold tried in I. apply in_flat_map in I as (o & _ & I). eapply insert_flag. exact I. Qed.
Lemma merge_has {A} (parts : nat -> list A) db t d : merge parts db -> In d (parts t) -> In d db.
Proof.
  intros (tg & <- & P) I. rewrite <- P in I. apply in_map_iff in I as (x & <- & I). apply filter_In in I as [I _]. apply in_map, I.
Qed.

Variables (laws : OPRF_laws LIB) (cfg : Config) (key : PrivateKey LIB) (s : Server LIB) (c : Client).
Hypotheses (Hs : NewServer {| sc_config := cfg; sc_privateKey := key |} = Ok s) (Hc : NewClient LIB cfg = Ok c) (Hv : (cfg_version cfg < 2 ^ 16)%N).

Lemma query_while_loading work t tr1 tr2 u id v σ :
  Server_BucketID s u = Ok id ->
  exec true (tr1 ++ EInvoke t (CGet (BucketIDToHex id)) :: tr2 ++ [EReturn t (RValue v)]) σ -> invoked_by t tr2 = [] -> returned_by t tr2 = 0 ->
  loading s work (tr1 ++ EInvoke t (CGet (BucketIDToHex id)) :: tr2) -> holdable (sl v) ->
  exists parts db,
    (forall t', prefix_of (parts t') (stored_by s (work t')) /\ finished t' tr1 <= length (parts t') <= begun t' (tr1 ++ tr2))
    /\ merge parts db
    /\ forall (p : bytes) (r : Blind LIB) (k : bytes) (kv : Getter), kv (BucketIDToHex id) = Ok v ->
      (forall t', no_collision s (tried (work t')) u p) -> deriveBucketEntryKey s u p = Ok k ->
      run_query c s kv u p r = Ok (expected db u p).
Proof.
  intros Hid E NI NR Ld Hh. destruct (get_instant _ _ _ _ _ _ E NI NR) as (L & V & B).
  destruct (log_of_loading s work tr1 _ L Ld (ex_intro _ _ eq_refl) B) as (parts & db & PT & M & SA).
  exists parts, db. split; [|split; [exact M|]].
  - intros t'. destruct (PT t') as [P1 P2]. split; [exact P1|].
    enough (begun t' (tr1 ++ EInvoke t (CGet (BucketIDToHex id)) :: tr2) = begun t' (tr1 ++ tr2)) as <- by exact P2.
    unfold begun. rewrite !invoked_app. cbn [invoked_by flat_map]. rewrite !filter_app. destruct (t =? t')%nat; reflexivity.
  - intros p r k kv Hkv N Hk.
    assert (SV : sl v = bucket_bytes (map (entry_of s) (filter (in_bucket s id) db))).
    { rewrite V. rewrite (store_all_bucket s _ db _ id SA) by (eapply Server_BucketID_lt; exact Hid). reflexivity. }
    eapply (run_query_bucket LIB laws cfg key s c Hs Hc Hv); eauto.
    + eapply store_all_storable. exact SA.
    + intros d k1 k2 I. apply (merge_in _ _ _ M) in I as (t' & I). destruct (PT t') as [[r' P1] _].
      apply (N t'). apply stored_by_tried with (s := s). rewrite P1. apply in_or_app. left. exact I.
Qed.

(** *** Two queries, one after the other *)
Lemma query_answer_stays kv1 kv2 u p r1 r2 id v1 v2 k st m :
  Server_BucketID s u = Ok id -> deriveBucketEntryKey s u p = Ok k ->
  kv1 (BucketIDToHex id) = Ok v1 -> kv2 (BucketIDToHex id) = Ok v2 -> prefix_of (sl v1) (sl v2) -> holdable (sl v2) ->
  run_query c s kv1 u p r1 = Ok (st, Some m) -> run_query c s kv2 u p r2 = Ok (st, Some m).
Proof.
  intros Hid Hk K1 K2 P H Q.
  destruct (request_answer LIB laws cfg key s c Hs Hc Hv u p r1 k id kv1 v1 Hk Hid K1) as (b1 & e1 & ctx1 & R1 & A1 & _ & S1 & _).
  destruct (request_answer LIB laws cfg key s c Hs Hc Hv u p r2 k id kv2 v2 Hk Hid K2) as (b2 & e2 & ctx2 & R2 & A2 & _ & S2 & _).
  unfold run_query in *. rewrite R1 in Q. rewrite R2. rewrite A1 in Q. rewrite A2. cbn [bind] in *.
  refine (found_stays LIB _ _ _ _ k st m S1 S2 _ _ Q); assumption.
Qed.
End Loading.

Lemma in_stored LIB (s : Server LIB) ds cs d : Forall2 (stored_as s) ds cs -> In d ds -> exists call, In call cs /\ stored_as s d call.
Proof. induction 1 as [|x y ds cs S F IH]; intros []; [subst; exists y; split; [left|]; auto|]. destruct (IH H) as (call & I & A). exists call. split; [right|]; auto. Qed.

(** A Get while nothing else goes on. *)
Lemma get_alone tr σ t id : exec true tr σ -> all_idle σ ->
  exists σ', exec true (tr ++ EInvoke t (CGet id) :: [] ++ [EReturn t (RValue (value_of (st_heap σ) (st_map σ id)))]) σ'
    /\ all_idle σ' /\ st_map σ' = st_map σ /\ st_heap σ' = st_heap σ.
Proof.
  intros E I. destruct (idle_free _ _ _ E I) as [W R].
  assert (A0 : alone σ t Idle) by (split; [apply I|intros; apply I]).
  pose proof (exec_next true _ _ _ _ E (st_get_call true σ t id (I t))) as E1. cbn [snoc] in E1.
  assert (A1 := go_alone σ t Idle (GetLock id) (st_map σ) (st_writer σ) (st_readers σ) (st_heap σ) A0).
  match type of E1 with exec _ ?T ?S => set (σ1 := S) in * end.
  pose proof (exec_next true _ _ _ _ E1 (st_get_lock true σ1 t id (proj1 A1) W)) as E2. cbn [snoc] in E2.
  match type of E2 with exec _ _ ?S => set (σ2 := S) in *; assert (A2 : alone σ2 t (GetLoad id)) by (eapply go_alone; exact A1) end.
  pose proof (exec_next true _ _ _ _ E2 (st_get_load true σ2 t id (proj1 A2))) as E3. cbn [snoc] in E3.
  match type of E3 with exec _ _ ?S => set (σ3 := S) in *; assert (A3 : alone σ3 t (GetUnlock (st_map σ2 id))) by (eapply go_alone; exact A2) end.
  pose proof (exec_next true _ _ _ _ E3 (st_get_unlock true σ3 t _ (proj1 A3))) as E4. cbn [snoc] in E4.
  match type of E4 with exec _ _ ?S => set (σ4 := S) in *; assert (A4 : alone σ4 t (RetValue (st_map σ2 id))) by (eapply go_alone; exact A3) end.
  pose proof (exec_next true _ _ _ _ E4 (st_ret_value true σ4 t _ (proj1 A4))) as E5. cbn [snoc] in E5. rewrite <- app_assoc in E5.
  eexists. split; [exact E5|]. split; [|split; reflexivity].
  intros t'. cbn [st_thr]. destruct (Nat.eq_dec t' t) as [->|N].
  - rewrite upd_same. reflexivity.
  - rewrite upd_other by congruence. apply A4, N.
Qed.
