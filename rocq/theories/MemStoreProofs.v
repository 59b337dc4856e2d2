(** * The demo server's store owns its memory. *)
From Coq Require Import Lia.
From Verif Require Import Base Common Hasher Encryptor Oprf Server Client Mutator Scanner ConfigJson KV Demo Mem MemCode MemStore SpecMem BaseProofs MemProofs.

(* ----- writes ----- *)

Lemma upd_nth_length n x h : length (upd_nth n x h) = length h.
Proof. revert n. induction h as [|y h IH]; intros [|n]; simpl; auto. Qed.
Lemma nth_upd_same n x h : (n < length h)%nat -> nth n (upd_nth n x h) [] = x.
Proof. revert n. induction h as [|y h IH]; intros [|n] Hn; simpl in *; try lia; auto. apply IH. lia. Qed.
Lemma nth_upd_other n m x h : n <> m -> nth m (upd_nth n x h) [] = nth m h [].
Proof. revert n m. induction h as [|y h IH]; intros [|n] [|m] Hn; simpl; auto; try lia. Qed.

Lemma write_length h a o d : length (write h a o d) = length h.
Proof. apply upd_nth_length. Qed.
Lemma array_write_other h a o d a' : a' <> a -> array (write h a o d) a' = array h a'.
Proof. intros H. unfold array, write. apply nth_upd_other. congruence. Qed.
Lemma array_write_same h a o d : (a < length h)%nat -> array (write h a o d) a = splice (array h a) o d.
Proof. intros H. unfold array at 1, write. now apply nth_upd_same. Qed.
Lemma splice_length l o d : (o + length d <= length l)%nat -> length (splice l o d) = length l.
Proof. intros H. unfold splice. rewrite !app_length, firstn_length, skipn_length. lia. Qed.

(** What lies before the write is as it was. *)
Lemma splice_before l o d i n : (i + n <= o)%nat -> (o <= length l)%nat ->
  firstn n (skipn i (splice l o d)) = firstn n (skipn i l).
Proof.
  intros H Ho. unfold splice. rewrite skipn_app, firstn_app.
  rewrite !skipn_length, firstn_length.
  replace (n - (Nat.min o (length l) - i))%nat with 0%nat by lia. rewrite firstn_O, app_nil_r.
  rewrite skipn_firstn_comm, firstn_firstn. f_equal. lia.
Qed.

(** What a bucket shows after something has been written behind it. *)
Lemma splice_extend l o n d : (o + n <= length l)%nat ->
  firstn (n + length d) (skipn o (splice l (o + n) d)) = firstn n (skipn o l) ++ d.
Proof.
  intros H. unfold splice. rewrite skipn_app, firstn_length.
  replace (o - Nat.min (o + n) (length l))%nat with 0%nat by lia. cbn [skipn].
  rewrite skipn_firstn_comm. replace (o + n - o)%nat with n by lia.
  rewrite firstn_app, firstn_length, skipn_length.
  replace (n + length d - Nat.min n (length l - o))%nat with (length d) by lia.
  rewrite firstn_firstn. replace (Nat.min (n + length d) n) with n by lia.
  f_equal. rewrite firstn_app, Nat.sub_diag, firstn_O, app_nil_r. apply firstn_all.
Qed.

Lemma valid_write h a o d s : (a < length h)%nat -> (o + length d <= length (array h a))%nat ->
  valid h s -> valid (write h a o d) s.
Proof.
  intros Ha Ho [Hl [Hc|[Hr Hb]]]; split; auto. right. rewrite write_length. split; [assumption|].
  destruct (Nat.eq_dec (m_arr s) a) as [E|N].
  - rewrite E in *. rewrite array_write_same, splice_length by assumption. assumption.
  - now rewrite array_write_other.
Qed.

(* ----- the map ----- *)

Lemma in_owned store a : In a (owned_arrays store) <-> exists k s, In (k, Some s) store /\ m_arr s = a.
Proof.
  unfold owned_arrays. rewrite in_flat_map. split.
  - intros ([k [s|]] & Hi & Ha); simpl in Ha; [|contradiction]. destruct Ha as [<-|[]]. eauto.
  - intros (k & s & Hi & <-). exists (k, Some s). split; [assumption|]. simpl. auto.
Qed.

Lemma owned_unique store : NoDup (owned_arrays store) -> forall k k' t t',
  In (k, Some t) store -> In (k', Some t') store -> m_arr t = m_arr t' -> t = t'.
Proof.
  induction store as [|[k0 [s|]] store IH]; intros Hn k k' t t' H1 H2 E; [destruct H1| |].
  - simpl in Hn. inversion Hn as [|? ? Hni Hnd]; subst. destruct H1 as [H1|H1], H2 as [H2|H2].
    + congruence.
    + exfalso. apply Hni. apply in_owned. exists k', t'. split; [assumption|]. congruence.
    + exfalso. apply Hni. apply in_owned. exists k, t. split; [assumption|]. congruence.
    + eapply IH; eassumption.
  - simpl in Hn. destruct H1 as [H1|H1], H2 as [H2|H2]; try congruence. eapply IH; eassumption.
Qed.

Lemma in_set store id v k t : In (k, Some t) (mkv_set store id v) -> In (k, Some t) store \/ v = Some t.
Proof.
  induction store as [|[k0 w] store IH]; simpl.
  - intros [E|[]]. right. congruence.
  - destruct (bytes_eqb k0 id); simpl; intros [E|H]; auto; [right; congruence|]. destruct (IH H); auto.
Qed.

Lemma lookup_in store id t : mkv_lookup store id = Some t -> exists k, In (k, Some t) store.
Proof.
  induction store as [|[k0 w] store IH]; simpl; [discriminate|].
  destruct (bytes_eqb k0 id); [intros ->; eauto|]. intros H. destruct (IH H) as [k Hk]. eauto.
Qed.

Lemma owned_set store id v a : In a (owned_arrays (mkv_set store id v)) ->
  In a (owned_arrays store) \/ exists t, v = Some t /\ m_arr t = a.
Proof.
  intros H. apply in_owned in H as (k & s & Hi & Ha). apply in_set in Hi as [Hi|Hi].
  - left. apply in_owned. eauto.
  - right. eauto.
Qed.

Lemma nodup_set store id t : NoDup (owned_arrays store) ->
  (~ In (m_arr t) (owned_arrays store) \/ exists s, mkv_lookup store id = Some s /\ m_arr s = m_arr t) ->
  NoDup (owned_arrays (mkv_set store id (Some t))).
Proof.
  induction store as [|[k0 w] store IH]; intros Hn Ht; simpl.
  - constructor; [simpl; tauto|constructor].
  - simpl in Ht. destruct (bytes_eqb k0 id) eqn:E.
    + simpl. assert (Hnd : NoDup (owned_arrays store)) by (destruct w; simpl in Hn; [now inversion Hn|assumption]).
      constructor; [|assumption]. destruct Ht as [Ht|(s & Es & Ea)].
      * intros Hin. apply Ht. fold (owned_arrays store). apply in_or_app. now right.
      * subst w. simpl in Hn. rewrite <- Ea. now inversion Hn.
    + simpl. fold (owned_arrays (mkv_set store id (Some t))).
      assert (Hnd : NoDup (owned_arrays store)) by (destruct w; simpl in Hn; [now inversion Hn|assumption]).
      assert (X : NoDup (owned_arrays (mkv_set store id (Some t)))).
      { apply IH; [assumption|]. destruct Ht as [Ht|Ht]; [left|now right].
        intros Hin. apply Ht. apply in_or_app. now right. }
      destruct w as [s|]; [|exact X]. simpl. constructor; [|exact X].
      simpl in Hn. inversion Hn as [|? ? Hni _]; subst. intros Hin.
      apply owned_set in Hin as [Hin|(t' & Et & Ea)]; [now apply Hni|]. injection Et as <-.
      destruct Ht as [Ht|(s' & Es' & Ea')].
      * apply Ht. simpl. left. congruence.
      * apply Hni. apply lookup_in in Es' as [k Hk]. apply in_owned. exists k, s'. split; [assumption|congruence].
Qed.

Lemma nodup_set_none store id : NoDup (owned_arrays store) -> NoDup (owned_arrays (mkv_set store id None)).
Proof.
  induction store as [|[k0 w] store IH]; intros Hn; simpl; [constructor|].
  assert (Hnd : NoDup (owned_arrays store)) by (destruct w; simpl in Hn; [now inversion Hn|assumption]).
  destruct (bytes_eqb k0 id); [exact Hnd|].
  destruct w as [s|]; [|now apply IH]. simpl. constructor; [|now apply IH].
  simpl in Hn. inversion Hn as [|? ? Hni _]; subst. intros Hin.
  apply owned_set in Hin as [Hin|(t' & Et & _)]; [now apply Hni|discriminate].
Qed.

Lemma read_lookup h store id : kv_lookup (read_store h store) id = option_map (view h) (mkv_lookup store id).
Proof.
  induction store as [|[k0 w] store IH]; [reflexivity|]. simpl. now destruct (bytes_eqb k0 id).
Qed.

Lemma read_set h h' store id v : (forall k t, In (k, Some t) store -> view h' t = view h t) ->
  read_store h' (mkv_set store id v) = kv_set (read_store h store) id (option_map (view h') v).
Proof.
  intros H. assert (R : forall st, (forall k t, In (k, Some t) st -> view h' t = view h t) -> read_store h' st = read_store h st).
  { intros st Hst. apply map_ext_in. intros [k [t|]] Hi; simpl; [|reflexivity]. now rewrite (Hst k t Hi). }
  induction store as [|[k0 w] store IH]; [reflexivity|]. simpl.
  destruct (bytes_eqb k0 id); simpl.
  - f_equal. apply (R store). intros k t Hi. apply (H k). now right.
  - fold (read_store h' (mkv_set store id v)). rewrite IH by (intros k t Hi; apply (H k); now right).
    f_equal. f_equal. destruct w as [t|]; [|reflexivity]. simpl. f_equal. apply (H k0). now left.
Qed.

Lemma store_safe h store k t : owns h store -> In (k, Some t) store -> safe h store t.
Proof.
  intros [Hv Hn] Hi. split; [now apply (Hv k)|]. right. intros k' t' Hi' E.
  rewrite (owned_unique store Hn k' k t' t Hi' Hi E). lia.
Qed.

(* ----- steps ----- *)

Lemma step_refl h store : owns h store -> store_step h store h store.
Proof. intros H. split; [assumption|]. split; [lia|]. split; [reflexivity|]. split; auto. Qed.

Lemma step_trans h1 s1 h2 s2 h3 s3 : store_step h1 s1 h2 s2 -> store_step h2 s2 h3 s3 -> store_step h1 s1 h3 s3.
Proof.
  intros (O1 & L1 & A1 & N1 & V1) (O2 & L2 & A2 & N2 & V2). split; [exact O2|]. split; [lia|]. split; [|split].
  - intros a Ha Hn. rewrite A2; [now apply A1|lia|]. intros Hin. destruct (N1 a Hin) as [X|X]; [contradiction|lia].
  - intros a Ha. destruct (N2 a Ha) as [X|X]; [|right; lia]. destruct (N1 a X) as [Y|Y]; auto.
  - intros s Hs. destruct (V1 s Hs) as [E1 S1]. destruct (V2 s S1) as [E2 S2]. split; [congruence|assumption].
Qed.

Lemma safe_app h e store s : safe h store s -> safe (h ++ e) store s.
Proof. intros [Hv H]. split; [now apply valid_app|assumption]. Qed.

Lemma owns_app h e store : owns h store -> owns (h ++ e) store.
Proof.
  intros [Hv Hn]. split; [|assumption]. intros k s Hi. destruct (Hv k s Hi) as [A B].
  split; [now apply valid_app|]. rewrite app_length. lia.
Qed.

(** Code that only allocates. *)
Lemma step_alloc h e store : owns h store -> store_step h store (h ++ e) store.
Proof.
  intros Ho. split; [now apply owns_app|]. split; [rewrite app_length; lia|]. split; [|split].
  - intros a Ha _. now apply array_app.
  - auto.
  - intros s Hs. split; [|now apply safe_app]. apply view_app. apply Hs.
Qed.

Lemma append_new h store id x n : owns h store -> (n <= length x)%nat ->
  let h' := h ++ [x] in let s' := mkM (length h) 0 n (length x) in
  store_step h store h' (mkv_set store id (Some s')) /\
  read_store h' (mkv_set store id (Some s')) = kv_set (read_store h store) id (Some (firstn n x)).
Proof.
  intros Ho Hn h' s'. pose proof Ho as [Hv Hd].
  assert (Hfresh : ~ In (length h) (owned_arrays store)).
  { intros Hin. apply in_owned in Hin as (k & t & Hi & E). destruct (Hv k t Hi). lia. }
  assert (Vs : valid h' s').
  { split; cbn [m_len m_cap]; [assumption|]. right. unfold h'. cbn [m_arr m_off m_cap].
    rewrite app_length, array_last. simpl. lia. }
  assert (Os : owns h' (mkv_set store id (Some s'))).
  { split.
    - intros k t Hi. apply in_set in Hi as [Hi|Hi].
      + destruct (Hv k t Hi) as [A B]. split; [now apply valid_app|]. unfold h'. rewrite app_length. lia.
      + injection Hi as <-. split; [assumption|]. unfold h'. cbn [m_arr]. rewrite app_length. simpl. lia.
    - apply nodup_set; [assumption|]. left. exact Hfresh. }
  split.
  - split; [exact Os|]. split; [unfold h'; rewrite app_length; lia|]. split; [|split].
    + intros a Ha _. now apply array_app.
    + intros a Hin. apply owned_set in Hin as [Hin|(t & Et & Ea)]; [now left|]. injection Et as <-. right.
      unfold s' in Ea. cbn [m_arr] in Ea. lia.
    + intros t [Ht Hts]. split; [now apply view_app|]. split; [now apply valid_app|].
      destruct (Nat.eq_dec (m_len t) 0) as [E0|N0]; [now left|]. destruct Hts as [Hts|Hts]; [now left|]. right.
      intros k t' Hi. apply in_set in Hi as [Hi|Hi]; [now apply (Hts k)|]. injection Hi as <-. unfold s'. cbn [m_arr].
      intros E. destruct Ht as [Hl [Hc|[Hr _]]]; lia.
  - rewrite (read_set h h').
    + cbn [option_map]. do 2 f_equal. unfold view. cbn [m_arr m_off m_len]. unfold h'. rewrite array_last. reflexivity.
    + intros k t Hi. apply view_app. now apply (Hv k).
Qed.

Lemma Append_m_ok grow h store id value : owns h store ->
  let (store', h') := Append_m grow store id value h in
  store_step h store h' store' /\
  read_store h' store' = kv_Append (read_store h store) id (view h value).
Proof.
  intros Ho. unfold Append_m, kv_Append. rewrite read_lookup.
  set (b := view h value).
  destruct (mkv_lookup store id) as [s|] eqn:El; [|destruct b as [|x b'] eqn:Eb].
  - (* an existing bucket *)
    assert (Es : (option_map (view h) (Some s)) = Some (view h s)) by reflexivity. rewrite Es. clear Es.
    cbn [go_append sl].
    destruct (lookup_in _ _ _ El) as [k0 Hk0]. pose proof Ho as [Hv Hn].
    destruct (Hv k0 s Hk0) as [Hs Ha].
    unfold m_append. destruct (Nat.leb_spec (m_len s + length b) (m_cap s)) as [Hc|Hc].
    + (* in place *)
      destruct Hs as [Hl [Hc0|[_ Hb]]].
      { (* nothing to write *)
        assert (b = []) by (destruct b; [reflexivity|simpl in *; lia]).
        assert (m_len s = 0)%nat by lia. rewrite H in *.
        assert (Ew : write h (m_arr s) (m_off s + m_len s) [] = h).
        { unfold write, splice. cbn [app length]. rewrite Nat.add_0_r, firstn_skipn. unfold array.
          clear. generalize (m_arr s). induction h as [|x h IH]; intros [|a]; simpl; try reflexivity. now rewrite IH. }
        cbn [length]. rewrite Ew. set (s' := mkM (m_arr s) (m_off s) (m_len s + 0) (m_cap s)).
        assert (Es' : s' = s) by (unfold s'; destruct s; simpl in *; f_equal; lia). rewrite Es'.
        assert (Os : owns h (mkv_set store id (Some s))).
        { split.
          - intros k t Hi. apply in_set in Hi as [Hi|Hi]; [now apply (Hv k)|]. injection Hi as <-. now apply (Hv k0).
          - apply nodup_set; [assumption|]. right. eauto. }
        split.
        - split; [exact Os|]. split; [lia|]. split; [reflexivity|]. split.
          + intros a Hin. left. apply owned_set in Hin as [Hin|(t & Et & Ea)]; [assumption|]. injection Et as <-.
            apply in_owned. eauto.
          + intros t [Ht Hts]. split; [reflexivity|]. split; [assumption|]. destruct Hts as [Hts|Hts]; [now left|]. right.
            intros k t' Hi. apply in_set in Hi as [Hi|Hi]; [now apply (Hts k)|]. injection Hi as <-. now apply (Hts k0).
        - rewrite (read_set h h) by reflexivity. cbn [option_map]. now rewrite app_nil_r. }
      set (h' := write h (m_arr s) (m_off s + m_len s) b).
      set (s' := mkM (m_arr s) (m_off s) (m_len s + length b) (m_cap s)).
      assert (Hfit : (m_off s + m_len s + length b <= length (array h (m_arr s)))%nat) by lia.
      assert (Hvs' : valid h' s').
      { split; cbn [m_len m_cap]; [assumption|]. right. cbn [m_arr m_off m_cap]. unfold h'.
        rewrite write_length, array_write_same, splice_length by assumption. split; assumption. }
      assert (Os : owns h' (mkv_set store id (Some s'))).
      { split.
        - intros k t Hi. apply in_set in Hi as [Hi|Hi].
          + destruct (Hv k t Hi) as [A B]. split; [now apply valid_write|]. unfold h'. now rewrite write_length.
          + injection Hi as <-. split; [assumption|]. unfold h'. now rewrite write_length.
        - apply nodup_set; [assumption|]. right. exists s. split; [assumption|reflexivity]. }
      assert (Vsafe : forall t, safe h store t -> view h' t = view h t).
      { intros t [Ht Hts]. unfold view. destruct Hts as [->|Hts]; [now rewrite !firstn_O|].
        destruct (Nat.eq_dec (m_arr t) (m_arr s)) as [E|N].
        - rewrite E. unfold h'. rewrite array_write_same by assumption.
          destruct (Hts k0 s Hk0 (eq_sym E)) as [A B]. apply splice_before; lia.
        - unfold h'. now rewrite array_write_other. }
      split.
      * split; [exact Os|]. split; [unfold h'; rewrite write_length; lia|]. split; [|split].
        -- intros a Ha' Hn'. unfold h'. apply array_write_other. intros ->. apply Hn'. apply in_owned. eauto.
        -- intros a Hin. left. apply owned_set in Hin as [Hin|(t & Et & Ea)]; [assumption|]. injection Et as <-.
           apply in_owned. exists k0, s. split; [assumption|]. exact Ea.
        -- intros t St. split; [now apply Vsafe|]. destruct St as [Ht Hts]. split; [now apply valid_write|].
           destruct Hts as [Hts|Hts]; [now left|]. right. intros k t' Hi.
           apply in_set in Hi as [Hi|Hi]; [now apply (Hts k)|]. injection Hi as <-. unfold s'. cbn [m_arr m_off m_len].
           intros E. destruct (Hts k0 s Hk0 E). lia.
      * rewrite (read_set h h') by (intros k t Hi; apply Vsafe; eapply store_safe; eassumption).
        f_equal. cbn [option_map]. f_equal. unfold view at 1. cbn [m_arr m_off m_len]. unfold h'.
        rewrite array_write_same by assumption. apply splice_extend. eapply Nat.le_trans; [|exact Hfit]. lia.
    + (* a new array *)
      set (x := view h s ++ b ++ zeros (grow h s b)).
      assert (Lx : length x = (m_len s + length b + grow h s b)%nat).
      { unfold x. rewrite !app_length, zeros_length, view_length by assumption. lia. }
      rewrite <- Lx. destruct (append_new h store id x (m_len s + length b) Ho ltac:(lia)) as [A B].
      split; [exact A|]. etransitivity; [exact B|]. do 2 f_equal. unfold x. rewrite app_assoc.
      apply firstn_app_exact. rewrite app_length, view_length by assumption. reflexivity.
  - (* nil stays nil *)
    cbn [go_append option_map sl]. pose proof Ho as [Hv Hn].
    assert (Hin : forall k t, In (k, Some t) (mkv_set store id None) -> In (k, Some t) store).
    { intros k t Hi. apply in_set in Hi as [Hi|Hi]; [assumption|discriminate]. }
    split.
    + split; [|split; [lia|split; [reflexivity|split]]].
      * split; [intros k t Hi; apply (Hv k); now apply Hin|now apply nodup_set_none].
      * intros a Ha. left. apply owned_set in Ha as [Ha|(t & Et & _)]; [assumption|discriminate].
      * intros t [Ht Hts]. split; [reflexivity|]. split; [assumption|]. destruct Hts as [Hts|Hts]; [now left|right].
        intros k t' Hi. apply (Hts k). now apply Hin.
    + rewrite (read_set h h) by reflexivity. reflexivity.
  - (* a new bucket *)
    cbn [option_map go_append sl app].
    unfold m_append. cbn [m_len m_cap m_nil length Nat.add Nat.leb].
    set (g := grow h m_nil (x :: b')).
    change (view h m_nil) with (@nil byte). rewrite app_nil_l.
    assert (Ly : length ((x :: b') ++ zeros g) = S (length b' + g)) by (rewrite app_length, zeros_length; reflexivity).
    rewrite <- Ly. destruct (append_new h store id ((x :: b') ++ zeros g) (S (length b')) Ho ltac:(lia)) as [A B].
    split; [exact A|]. etransitivity; [exact B|]. do 2 f_equal. apply (firstn_app_exact (x :: b')). reflexivity.
Qed.

Lemma read_alloc h e store : owns h store -> read_store (h ++ e) store = read_store h store.
Proof.
  intros [Hv _]. apply map_ext_in. intros [k [t|]] Hi; simpl; [|reflexivity]. rewrite view_app; [reflexivity|now apply (Hv k)].
Qed.

Lemma add_entry_m_ok grow {LIB} (s : Server LIB) store id u p flag md h : owns h store ->
  valid h u -> valid h p -> valid h md ->
  let '(store', r, h') := add_entry_m grow s store id u p flag md h in
  store_step h store h' store' /\
  (read_store h' store', r) = add_entry s (read_store h store) id (view h u) (view h p) flag (view h md).
Proof.
  intros Ho Hu Hp Hm. unfold add_entry_m, add_entry.
  destruct (EncryptEntry_m_ok h s u p flag md Hu Hp Hm) as [[ext E] R].
  destruct (EncryptEntry_m s u p flag md h) as [o h1]. cbn [fst snd] in E, R. subst h1.
  destruct o as [e| |], (EncryptBucketEntry s (view h u) (view h p) flag (view h md)) as [eb| |]; try contradiction.
  - destruct R as (Ev & He & _).
    pose proof (Append_m_ok grow (h ++ ext) store id e (owns_app h ext store Ho)) as A.
    destruct (Append_m grow store id e (h ++ ext)) as [store' h2]. destruct A as [A B].
    split; [eapply step_trans; [apply step_alloc; exact Ho|exact A]|].
    rewrite B, read_alloc, Ev by assumption. reflexivity.
  - split; [now apply step_alloc|]. rewrite read_alloc by assumption. now subst.
  - split; [now apply step_alloc|]. rewrite read_alloc by assumption. now subst.
Qed.

(** Entries for several passwords. *)
Lemma add_variants_m_ok grow {LIB} (s : Server LIB) id u md vs : forall store h, owns h store ->
  safe h store u -> safe h store md -> (forall v, In v vs -> safe h store v) ->
  let '(store', r, h') := add_variants_m grow s store id u vs md h in
  store_step h store h' store' /\
  (read_store h' store', r) = add_variants s (read_store h store) id (view h u) (map (view h) vs) (view h md).
Proof.
  induction vs as [|v vs IH]; intros store h Ho Hu Hm Hvs; cbn [add_variants_m add_variants map].
  { split; [now apply step_refl|reflexivity]. }
  assert (Hv : safe h store v) by (apply Hvs; now left).
  pose proof (add_entry_m_ok grow s store id u v MetadataSimilarPassword md h Ho (proj1 Hu) (proj1 Hv) (proj1 Hm)) as A.
  destruct (add_entry_m grow s store id u v MetadataSimilarPassword md h) as [[store1 r1] h1].
  destruct A as [A B]. rewrite <- B. destruct r1 as [[]| |]; [|split; [exact A|reflexivity]..].
  pose proof A as (O1 & _ & _ & _ & V1).
  destruct (V1 u Hu) as [Eu Su]. destruct (V1 md Hm) as [Em Sm].
  specialize (IH store1 h1 O1 Su Sm ltac:(intros w Hw; apply V1; apply Hvs; now right)).
  destruct (add_variants_m grow s store1 id u vs md h1) as [[store2 r2] h2]. destruct IH as [A2 B2].
  split; [eapply step_trans; eassumption|].
  rewrite B2, Eu, Em. f_equal. apply map_ext_in. intros w Hw. apply V1. apply Hvs. now right.
Qed.

Lemma BucketID_m_ok {LIB} h (s : Server LIB) u : valid h u ->
  returns h (BucketID_m s u h) (Server_BucketID s (view h u)).
Proof.
  intros Hu. unfold BucketID_m, Server_BucketID. apply returns_bind_new; [now apply bucketHash_m_ok|].
  intros hs ext _ _ _. eapply ret_go; [reflexivity|]. apply returns_here.
Qed.

Transparent password_variants.
Lemma password_variants_eq p n : password_variants p n = (rules <- NewRDasMutator ;; Mutate rules p n).
Proof. unfold password_variants. reflexivity. Qed.
Opaque password_variants.

Lemma password_variants_m_ok h p n : valid h p ->
  returns_new_list h (password_variants_m p n h) (password_variants (view h p) n).
Proof.
  intros Hp. rewrite password_variants_eq. unfold password_variants_m, mbind, lift.
  destruct NewRDasMutator as [rules| |]; cbn [bind]; [now apply Mutate_m_ok|..];
    (split; [exists []; now rewrite app_nil_r|reflexivity]).
Qed.

Lemma safe_nil h store : safe h store m_nil.
Proof. split; [split; [simpl; lia|now left]|now left]. Qed.

(** Memory that is not the store's is safe. *)
Lemma safe_new h e store t : owns h store -> valid (h ++ e) t -> new_in h (h ++ e) t -> safe (h ++ e) store t.
Proof.
  intros [Hv _] Ht Hn. split; [assumption|]. right. intros k t' Hi E. destruct (Hv k t' Hi). unfold new_in in Hn. lia.
Qed.

Lemma demo_insert_m_ok grow {LIB} (s : Server LIB) store u p md n incl h : owns h store ->
  safe h store u -> safe h store p -> safe h store md ->
  let '(store', r, h') := demo_insert_m grow s store u p md n incl h in
  store_step h store h' store' /\
  (read_store h' store', r) = demo_insert s (read_store h store) (view h u) (view h p) (view h md) n incl.
Proof.
  intros Ho Hu Hp Hm. unfold demo_insert_m, demo_insert, insert_with.
  destruct (BucketID_m_ok h s u (proj1 Hu)) as [[e0 E0] R0].
  destruct (BucketID_m s u h) as [o h0]. cbn [fst snd] in E0, R0. subst h0. rewrite <- R0. clear R0.
  destruct o as [id| |]; [|split; [now apply step_alloc|now rewrite read_alloc]..].
  assert (S0 : store_step h store (h ++ e0) store) by now apply step_alloc.
  rewrite <- (read_alloc h e0 store Ho), <- (view_app h e0 u (proj1 Hu)), <- (view_app h e0 p (proj1 Hp)), <- (view_app h e0 md (proj1 Hm)).
  apply (safe_app h e0) in Hu, Hp, Hm. apply (owns_app h e0) in Ho.
  match type of S0 with store_step _ _ ?H _ => set (h0 := H) in * end. clearbody h0.
  pose proof (add_entry_m_ok grow s store (BucketIDToHex id) u p MetadataBreachedPassword md h0 Ho (proj1 Hu) (proj1 Hp) (proj1 Hm)) as A.
  destruct (add_entry_m grow s store (BucketIDToHex id) u p MetadataBreachedPassword md h0) as [[store1 r1] h1].
  destruct A as [A B]. rewrite <- B. clear B.
  assert (S1 : store_step h store h1 store1) by (eapply step_trans; eassumption).
  destruct r1 as [[]| |]; [|split; [exact S1|reflexivity]..].
  pose proof A as (O1 & _ & _ & _ & V1). clear S0.
  destruct (V1 u Hu) as [Eu Su]. destruct (V1 p Hp) as [Ep Sp]. destruct (V1 md Hm) as [Em Sm]. clear V1 Hu Hp Hm A Ho.
  rewrite <- Eu, <- Ep, <- Em. clear Eu Ep Em h0.
  destruct (password_variants_m_ok h1 p n (proj1 Sp)) as [[e1 E1] R1].
  destruct (password_variants_m p n h1) as [o h2]. cbn [fst snd] in E1, R1. subst h2.
  assert (S2 : store_step h store (h1 ++ e1) store1) by (eapply step_trans; [exact S1|now apply step_alloc]).
  destruct o as [vs| |], (password_variants (view h1 p) n) as [vbs| |]; try contradiction;
    [|subst; split; [exact S2|now rewrite read_alloc]..].
  destruct R1 as (Evs & Hvs & _).
  rewrite <- (read_alloc h1 e1 store1 O1), <- (view_app h1 e1 u (proj1 Su)), <- (view_app h1 e1 md (proj1 Sm)), <- Evs.
  assert (Svs : forall v, In v vs -> safe (h1 ++ e1) store1 v).
  { intros v Hv. destruct (Hvs v Hv). now apply safe_new. }
  apply (safe_app h1 e1) in Su, Sm. apply (owns_app h1 e1) in O1. clear Evs Hvs Sp S1.
  match type of S2 with store_step _ _ ?H _ => set (h2 := H) in * end. clearbody h2.
  pose proof (add_variants_m_ok grow s (BucketIDToHex id) u md vs store1 h2 O1 Su Sm Svs) as A.
  destruct (add_variants_m grow s store1 (BucketIDToHex id) u vs md h2) as [[store2 r2] h3].
  destruct A as [A B]. rewrite <- B. clear B.
  assert (S3 : store_step h store h3 store2) by (eapply step_trans; eassumption).
  destruct r2 as [[]| |]; [|split; [exact S3|reflexivity]..].
  destruct incl; [|split; [exact S3|reflexivity]].
  pose proof A as (O3 & _ & _ & _ & V3). destruct (V3 u Su) as [Eu Su3]. destruct (V3 md Sm) as [Em Sm3].
  rewrite <- Eu, <- Em.
  pose proof (add_entry_m_ok grow s store2 (BucketIDToHex id) u m_nil MetadataBreachedUsername md h3 O3 (proj1 Su3) (proj1 (safe_nil h3 store2)) (proj1 Sm3)) as A4.
  destruct (add_entry_m grow s store2 (BucketIDToHex id) u m_nil MetadataBreachedUsername md h3) as [[store3 r3] h4].
  destruct A4 as [A4 B4]. split; [eapply step_trans; eassumption|exact B4].
Qed.

(* ----- ingestion ----- *)

Lemma colon_at_spec l : split_colon l = match colon_at l with
  | None => None
  | Some i => Some (firstn i l, skipn (i + 1) l)
  end /\ (forall i, colon_at l = Some i -> (i < length l)%nat).
Proof.
  induction l as [|c l [IH1 IH2]]; [split; [reflexivity|discriminate]|].
  cbn [split_colon colon_at]. destruct (beqb c Byte.x3a).
  { split; [reflexivity|]. intros i E. apply Some_inj in E. simpl. lia. }
  rewrite IH1. destruct (colon_at l) as [i|]; [|split; [reflexivity|discriminate]].
  split; [reflexivity|]. intros j E. apply Some_inj in E. specialize (IH2 i eq_refl). simpl. lia.
Qed.

Lemma split_colon_m_ok h line : valid h line ->
  match split_colon_m line h with
  | None => split_colon (view h line) = None
  | Some (u, p) => split_colon (view h line) = Some (view h u, view h p) /\ valid h u /\ valid h p /\
                   m_arr u = m_arr line /\ m_arr p = m_arr line
  end.
Proof.
  intros Hl. unfold split_colon_m. destruct (colon_at_spec (view h line)) as [E Hi]. rewrite E.
  destruct (colon_at (view h line)) as [i|]; [|reflexivity]. specialize (Hi i eq_refl).
  rewrite view_length in Hi by assumption. destruct Hl as [Hc Hv].
  destruct Hv as [Hz|[Ha Hb]]; [lia|].
  split; [|split; [|split; [|split; reflexivity]]].
  - f_equal. f_equal; unfold view; cbn [m_arr m_off m_len].
    + rewrite firstn_firstn. f_equal. lia.
    + rewrite skipn_firstn_comm, skipn_skipn'. reflexivity.
  - split; cbn [m_arr m_off m_len m_cap]; [lia|]. right. split; [assumption|lia].
  - split; cbn [m_arr m_off m_len m_cap]; [lia|]. right. split; [assumption|lia].
Qed.

Lemma safe_outside h store t : valid h t -> ~ In (m_arr t) (owned_arrays store) -> safe h store t.
Proof.
  intros Hv Hn. split; [assumption|]. right. intros k t' Hi E. exfalso. apply Hn. apply in_owned. eauto.
Qed.

Lemma owns_elsewhere store h h' : owns h store -> elsewhere store h h' ->
  owns h' store /\ read_store h' store = read_store h store.
Proof.
  intros [Hv Hn] [Hl Ha]. split.
  - split; [|assumption]. intros k t Hi. destruct (Hv k t Hi) as [[A B] C].
    assert (E : array h' (m_arr t) = array h (m_arr t)) by (apply Ha; apply in_owned; eauto).
    split; [|lia]. split; [assumption|]. rewrite E. destruct B as [B|[B1 B2]]; [now left|right]. split; lia.
  - apply map_ext_in. intros [k [t|]] Hi; simpl; [|reflexivity]. do 2 f_equal. unfold view.
    rewrite Ha; [reflexivity|]. apply in_owned. eauto.
Qed.

Lemma ingest_line_m_ok grow {LIB} (s : Server LIB) md n incl st line h : owns h (mi_store st) ->
  valid h line -> ~ In (m_arr line) (owned_arrays (mi_store st)) ->
  let (o, h') := ingest_line_m grow s md n incl st line h in
  match o with
  | Ok st' => ingest_line s md n incl (read_ingest h st) (view h line) = Ok (read_ingest h' st') /\
              store_step h (mi_store st) h' (mi_store st')
  | Err _ => False
  | Panic m => ingest_line s md n incl (read_ingest h st) (view h line) = Panic m
  end.
Proof.
  intros Ho Hl Hn. unfold ingest_line_m, ingest_line.
  pose proof (split_colon_m_ok h line Hl) as S. destruct (split_colon_m line h) as [[u p]|].
  2:{ rewrite S. split; [reflexivity|]. now apply step_refl. }
  destruct S as (E & Hu & Hp & Au & Ap). rewrite E.
  unfold m_new. set (h1 := h ++ [md]). set (mds := mkM (length h) 0 (length md) (length md)).
  assert (S1 : store_step h (mi_store st) h1 (mi_store st)) by now apply step_alloc.
  assert (O1 : owns h1 (mi_store st)) by now apply owns_app.
  assert (Su : safe h1 (mi_store st) u) by (apply safe_app, safe_outside; [assumption|congruence]).
  assert (Sp : safe h1 (mi_store st) p) by (apply safe_app, safe_outside; [assumption|congruence]).
  assert (Sm : safe h1 (mi_store st) mds).
  { apply safe_new; [assumption|apply valid_new|]. unfold new_in, mds. cbn [m_arr]. rewrite app_length. simpl. lia. }
  pose proof (demo_insert_m_ok grow s (mi_store st) u p mds n incl h1 O1 Su Sp Sm) as D.
  destruct (demo_insert_m grow s (mi_store st) u p mds n incl h1) as [[store' r] h2].
  destruct D as [D1 D2]. assert (S2 : store_step h (mi_store st) h2 store') by (eapply step_trans; eassumption).
  cbn [read_ingest in_store in_success in_failure].
  assert (V : demo_insert s (read_store h (mi_store st)) (view h u) (view h p) md n incl = (read_store h2 store', r)).
  { rewrite D2. unfold h1. rewrite read_alloc, !view_app by assumption. do 2 f_equal. symmetry. apply view_new. }
  rewrite V. destruct r as [[]| |]; [split; [reflexivity|exact S2]|split; [reflexivity|exact S2]|reflexivity].
Qed.

Lemma ingestion_ok grow {LIB} (s : Server LIB) md n incl st h ls r h' :
  ingestion grow s md n incl st h ls r h' -> owns h (mi_store st) ->
  match r with
  | Ok st' => ingest_lines s md n incl (read_ingest h st) ls = Ok (read_ingest h' st') /\ owns h' (mi_store st')
  | Err _ => False
  | Panic m => ingest_lines s md n incl (read_ingest h st) ls = Panic m
  end.
Proof.
  induction 1 as [st h|st h h1 line l st' h2 ls r h3 He Hv Hn El Ei Hi IH|st h h1 line l ls m h2 He Hv Hn El Ei]; intros Ho.
  - split; [reflexivity|assumption].
  - destruct (owns_elsewhere _ _ _ Ho He) as [O1 R1].
    pose proof (ingest_line_m_ok grow s md n incl st line h1 O1 Hv Hn) as L. rewrite Ei in L. destruct L as [L S].
    specialize (IH (proj1 S)). cbn [ingest_lines].
    assert (E : ingest_line s md n incl (read_ingest h st) l = Ok (read_ingest h2 st')).
    { rewrite <- L. f_equal; [|now symmetry]. unfold read_ingest. now rewrite R1. }
    rewrite E. cbn [bind]. exact IH.
  - destruct (owns_elsewhere _ _ _ Ho He) as [O1 R1].
    pose proof (ingest_line_m_ok grow s md n incl st line h1 O1 Hv Hn) as L. rewrite Ei in L.
    cbn [ingest_lines].
    assert (E : ingest_line s md n incl (read_ingest h st) l = Panic m).
    { rewrite <- L. f_equal; [|now symmetry]. unfold read_ingest. now rewrite R1. }
    now rewrite E.
Qed.

(** Whatever the lines are and however memory is re-used, the ingestion goes
    through or crashes. *)
Lemma ingestion_exists grow {LIB} (s : Server LIB) md n incl ls : forall st h, owns h (mi_store st) ->
  exists r h', ingestion grow s md n incl st h ls r h'.
Proof.
  induction ls as [|l ls IH]; intros st h Ho.
  { exists (Ok st), h. constructor. }
  set (h1 := h ++ [l]). set (line := mkM (length h) 0 (length l) (length l)).
  assert (He : elsewhere (mi_store st) h h1).
  { split; [unfold h1; rewrite app_length; lia|]. intros a Ha. apply array_app.
    apply in_owned in Ha as (k & t & Hi & <-). now apply (proj1 Ho k t). }
  assert (Hn : ~ In (m_arr line) (owned_arrays (mi_store st))).
  { intros Ha. apply in_owned in Ha as (k & t & Hi & E). destruct (proj1 Ho k t Hi) as [_ Hlt]. unfold line in E. cbn [m_arr] in E. lia. }
  assert (Hv : valid h1 line) by apply valid_new.
  assert (Ev : view h1 line = l) by apply view_new.
  destruct (owns_elsewhere _ _ _ Ho He) as [O1 _].
  pose proof (ingest_line_m_ok grow s md n incl st line h1 O1 Hv Hn) as L.
  destruct (ingest_line_m grow s md n incl st line h1) as [[st'|e|m] h2] eqn:Ei; [|contradiction|].
  - destruct L as [_ S]. destruct (IH st' h2 (proj1 S)) as (r & h3 & I). exists r, h3. eapply ingestion_line; eassumption.
  - exists (Panic m), h2. eapply ingestion_crash; eassumption.
Qed.
