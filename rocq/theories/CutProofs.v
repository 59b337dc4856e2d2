(** * Lemmas for C88: documents and responses that are cut off. *)
From Coq Require Import Lia.
From Verif Require Import Base BaseProofs Common Oprf Server Client KV Json ConfigJson Demo SpecEntry SpecProtocol SpecJson SpecDecode SpecDemo SpecConc JsonGrammar JsonProofs DecodeProofs SentProofs
  FinalizeProofs WireProofs StableProofs Scanner IngestProofs QuickProofs.

(** ** JSON *)
Definition not_number (j : json) : Prop := forall l, j <> JNum l.
Lemma non_number_head x j : json_text x j -> not_number j -> exists c r, x = c :: r /\ (bN c =? 45)%N || is_digit c = false.
Proof. intros J N. inversion J; subst; try (eexists; eexists; split; reflexivity). exfalso. eapply N. reflexivity. Qed.

Lemma first_text w x j t w' x' j' t' : w ++ x ++ t = w' ++ x' ++ t' -> json_space w -> json_space w' -> json_text x j -> json_text x' j' ->
  (nesting j <= 10000)%N -> (nesting j' <= 10000)%N -> not_number j -> w ++ x = w' ++ x' /\ t = t' /\ j = j'.
Proof.
  intros E W W' J J' D D' N.
  assert (N' : not_number j').
  { intros l ->. inversion J'; subst. destruct (number_head _ H1) as (c' & r' & -> & C'). destruct (non_number_head x j J N) as (c & r & -> & C).
    assert (S : skip_ws (w ++ (c :: r) ++ t) = (c :: r) ++ t) by (eapply skip_to_text; eassumption).
    assert (S' : skip_ws (w' ++ (c' :: r') ++ t') = (c' :: r') ++ t') by (eapply skip_to_text; [exact W'|apply jt_number; exact H1]).
    rewrite E in S. rewrite S in S'. injection S' as Hc _. subst c'. congruence. }
  destruct (proj1 parse_complete x j J 0%N w t) as (F & K); [exact D|exact W|intros l L; destruct (N l L)|].
  destruct (proj1 parse_complete x' j' J' 0%N w' t') as (F' & K'); [exact D'|exact W'|intros l L; destruct (N' l L)|].
  specialize (K (Nat.max F F') (Nat.le_max_l _ _)). specialize (K' (Nat.max F F') (Nat.le_max_r _ _)). rewrite E in K. rewrite K in K'.
  assert (j = j' /\ t = t') as [-> ->] by (inversion K'; auto). split; [|auto].
  rewrite !app_assoc in E. apply app_inv_tail in E. exact E.
Qed.

Lemma cut_document a b j k : json_accepted (a ++ b) j -> not_number j -> json_accepted a k -> json_space b.
Proof.
  intros [(w & x & w' & E & W & J & W') D] N [(v & y & v' & E' & V & Y & V') D']. subst a.
  rewrite <- !app_assoc in E. symmetry in E. destruct (first_text _ _ _ _ _ _ _ _ E W V J Y D D' N) as (_ & -> & _).
  intros c I. apply W'. apply in_or_app. right. exact I.
Qed.
Lemma cut_stream a b x j w y k t : a = w ++ y ++ t -> json_space w -> json_text y k -> (nesting k <= 10000)%N -> 
  a ++ b = x -> forall r, json_text r j -> (nesting j <= 10000)%N -> not_number j -> forall s, x = r ++ s -> prefix_of r a /\ j = k.
Proof.
  intros -> W Y D' E r J D N s ->. rewrite <- !app_assoc in E. symmetry in E.
  destruct (first_text [] r j s w y k (t ++ b)) as (P & _ & Q); [exact E|intros ? []|exact W|exact J|exact Y|exact D|exact D'|exact N|].
  cbn [app] in P. subst r. split; [exists t; apply app_assoc|exact Q].
Qed.

Lemma unaccepted_parse a : (forall k, ~ json_accepted a k) -> json_parse a = None.
Proof. intros H. destruct (json_parse a) as [j|] eqn:P; [|reflexivity]. apply json_parse_grammar in P. destruct (H j P). Qed.
Lemma ends_brace x a b : x ++ [Byte.x7d] = a ++ b -> b <> [] -> ~ json_space b.
Proof.
  intros E NE S. destruct (exists_last NE) as (b' & c & ->). rewrite app_assoc in E. apply app_inj_tail in E as [_ <-].
  assert (I : In Byte.x7d (b' ++ [Byte.x7d])) by (apply in_or_app; right; left; reflexivity). apply S in I. cbn in I. intuition discriminate.
Qed.
Lemma struct_ends fs : exists x, json_struct fs = x ++ [Byte.x7d].
Proof. unfold json_struct. exists (Byte.x7b :: json_fields fs). reflexivity. Qed.

Lemma config_accepted c : exists ms, json_accepted (Config_marshal c) (JObj ms).
Proof.
  destruct (config_document c [] eq_refl) as (ms & D & M). rewrite app_nil_r in D. exists ms. split; [exact D|].
  destruct M as (v & b & h & s & e & o & -> & _). cbn. lia.
Qed.
Lemma server_config_accepted LIB (c : ServerConfig LIB) d : ServerConfig_MarshalJSON c = Ok d -> exists ms, json_accepted d (JObj ms).
Proof.
  intros H. assert (K : exists k, key_bytes LIB (sc_privateKey c) = Ok k).
  { unfold ServerConfig_MarshalJSON in H. destruct (key_bytes LIB (sc_privateKey c)) as [k| |]; [eauto|discriminate..]. }
  destruct K as (k & K). destruct (server_config_document LIB c k K) as (d' & ms & e & H' & _ & M & _ & D). rewrite H in H'. apply Ok_inj in H'. subst d'.
  eexists. split; [exact D|]. destruct M as (v & b & h & s & e' & o & -> & _). cbn. lia.
Qed.
Lemma request_accepted v id el : forallb ascii id = true -> exists ms, json_accepted (ClientRequest_marshal (mkClientRequest v id (Some el))) (JObj ms).
Proof.
  intros A. destruct (request_document v id el A) as (j & D & (v' & e & el' & -> & _)). eexists. split; [exact D|]. cbn. lia.
Qed.
Lemma obj_not_number ms : not_number (JObj ms).
Proof. intros l. discriminate. Qed.

Lemma config_cut iw c a b : Config_marshal c = a ++ b -> b <> [] -> exists e, Config_unmarshal iw a = Err e.
Proof.
  intros E NE. destruct (config_accepted c) as (ms & D). rewrite E in D.
  assert (P : json_parse a = None).
  { apply unaccepted_parse. intros k K. pose proof (cut_document a b _ k D (obj_not_number _) K) as S.
    unfold Config_marshal in E. destruct (struct_ends (combine config_names (config_values c))) as (x & X). rewrite X in E. exact (ends_brace _ _ _ E NE S). }
  unfold Config_unmarshal, unmarshal_struct. rewrite P. eexists. reflexivity.
Qed.
Lemma server_config_cut LIB iw (c : ServerConfig LIB) a b : ServerConfig_MarshalJSON c = Ok (a ++ b) -> b <> [] ->
  (exists e, ServerConfig_UnmarshalJSON LIB iw a = Err e) /\ (exists e, Config_unmarshal iw a = Err e).
Proof.
  intros E NE. destruct (server_config_accepted LIB c _ E) as (ms & D).
  assert (P : json_parse a = None).
  { apply unaccepted_parse. intros k K. pose proof (cut_document a b _ k D (obj_not_number _) K) as S.
    unfold ServerConfig_MarshalJSON in E. destruct (key_bytes LIB (sc_privateKey c)) as [kb| |]; [|discriminate..]. apply Ok_inj in E.
    match type of E with json_struct ?f = _ => destruct (struct_ends f) as (x & X) end. rewrite X in E. exact (ends_brace _ _ _ E NE S). }
  split; [unfold ServerConfig_UnmarshalJSON|unfold Config_unmarshal]; unfold unmarshal_struct; rewrite P; eexists; reflexivity.
Qed.
Lemma request_cut v id el a b : forallb ascii id = true -> ClientRequest_marshal (mkClientRequest v id (Some el)) = a ++ b -> b <> [] -> forall k, ~ json_accepted a k.
Proof.
  intros A E NE k K. destruct (request_accepted v id el A) as (ms & D). rewrite E in D.
  pose proof (cut_document a b _ k D (obj_not_number _) K) as S. unfold ClientRequest_marshal in E.
  match type of E with json_struct ?f = _ => destruct (struct_ends f) as (x & X) end. rewrite X in E. exact (ends_brace _ _ _ E NE S).
Qed.
Lemma config_stream_cut c a b nl c' : Config_marshal c ++ nl = a ++ b -> Config_decode 64 a = Ok c' -> prefix_of (Config_marshal c) a.
Proof.
  intros E H. apply config_decode_spec in H as (w & y & t & k & EA & W & Y & D' & _).
  destruct (config_accepted c) as (ms & (w0 & x & w1 & X & W0 & J & W1) & D).
  assert (w0 = [] /\ w1 = []) as [-> ->].
  { unfold Config_marshal in X. split.
    - destruct w0 as [|q w0]; [reflexivity|]. unfold json_struct in X. injection X as Q _. specialize (W0 q (or_introl eq_refl)). subst q. cbn in W0. intuition discriminate.
    - destruct w1 as [|q w1]; [reflexivity|]. exfalso. destruct (struct_ends (combine config_names (config_values c))) as (z & Z). rewrite Z in X.
      rewrite app_assoc in X. eapply ends_brace; [exact X|discriminate|exact W1]. }
  cbn [app] in X. rewrite app_nil_r in X. subst x.
  eapply cut_stream; [exact EA|exact W|exact Y|exact D'|symmetry; exact E|exact J|exact D|apply obj_not_number|reflexivity].
Qed.

(** ** Responses *)
Section Response.
Variable LIB : OPRF.
Hypothesis EL : elt_size LIB 3 = Ok 33%nat.

Lemma response_cut a b r : UnmarshalBinary LIB (a ++ b) = Ok r -> (37 <= length a)%nat ->
  exists r', UnmarshalBinary LIB a = Ok r' /\ rs_version r' = rs_version r /\ rs_evaluatedElement r' = rs_evaluatedElement r
    /\ sl (rs_bucketContents r) = sl (rs_bucketContents r') ++ b.
Proof.
  intros U L. destruct (unmarshal_long LIB EL a L) as (r' & U' & M & V & E & _). exists r'. split; [exact U'|].
  unfold MarshalBinary in M. apply Ok_inj in M. subst a. rewrite <- !app_assoc in U.
  rewrite (unmarshal_parts LIB EL _ _ _ V E) in U. apply Ok_inj in U. subst r. auto.
Qed.
End Response.

Lemma secret_of_answer {LIB} (ctx : ClientRequestContext LIB) resp ans : Finalize ctx resp = Ok ans -> exists k, client_secret ctx resp k.
Proof.
  unfold Finalize, Finalize_fuel, finalize_secret, u16, client_secret. change OprfInfo with (str "MIGP oprf info").
  destruct (N.eqb_spec (rs_version resp mod 2 ^ 16) (c_version (ctx_client ctx))) as [V|V]; cbn [negb]; [|discriminate].
  destruct (unblind LIB _ _ _ _ _) as [[|y ys]|m|m]; cbn [bind]; [discriminate| |discriminate..]. intros _. exists y. split; [exact V|]. exists ys. reflexivity.
Qed.
Lemma same_secret {LIB} (ctx : ClientRequestContext LIB) r r' k : rs_version r' = rs_version r -> rs_evaluatedElement r' = rs_evaluatedElement r ->
  client_secret ctx r' k -> client_secret ctx r k.
Proof. unfold client_secret. intros -> ->. auto. Qed.

Lemma cut_answer {LIB} (ctx : ClientRequestContext LIB) r r' ans : rs_version r' = rs_version r -> rs_evaluatedElement r' = rs_evaluatedElement r ->
  prefix_of (sl (rs_bucketContents r')) (sl (rs_bucketContents r)) -> holdable (sl (rs_bucketContents r)) ->
  Finalize ctx r' = Ok ans -> ans = (NotInBreach, None) \/ Finalize ctx r = Ok ans.
Proof.
  intros V E P H F. destruct (secret_of_answer ctx r' ans F) as (k & K). pose proof (same_secret ctx r r' k V E K) as K'.
  destruct ans as [st [m|]]; [right; exact (found_stays LIB ctx ctx r' r k st m K K' P H F)|left].
  assert (H' : holdable (sl (rs_bucketContents r'))). { destruct P as [x P]. unfold holdable, blen in *. rewrite P, app_length in H. lia. }
  destruct (decompose (sl (rs_bucketContents r'))) as (es & t & D & Ok_es & T).
  assert (Split : Forall (fun b => e_check b <> key_check k) es \/ exists bef e aft, es = bef ++ e :: aft /\ Forall (fun b => e_check b <> key_check k) bef /\ e_check e = key_check k).
  { clear. induction es as [|e es IH]; [left; constructor|]. destruct (bytes_eqb (e_check e) (key_check k)) eqn:Q.
    - apply bytes_eqb_eq in Q. right. exists [], e, es. auto.
    - apply bytes_eqb_neq in Q. destruct IH as [IH|(b & x & a & -> & Fb & X)]; [left; constructor; assumption|]. right. exists (e :: b), x, a. split; [reflexivity|]. split; [constructor; assumption|exact X]. }
  destruct Split as [N|(bef & e & aft & -> & N & Q)].
  - destruct T as [T|T].
    + rewrite (finalize_short_tail LIB ctx r' k es t K D H' Ok_es T N) in F. apply Ok_inj in F. symmetry. exact F.
    + rewrite (finalize_overrun_tail LIB ctx r' k es t K D H' Ok_es T N) in F. discriminate.
  - exfalso. apply Forall_app in Ok_es as [Ob Oe]. inversion Oe as [|? ? Oe1 _]; subst.
    assert (D1 : sl (rs_bucketContents r') = bucket_bytes bef ++ entry_bytes e ++ (bucket_bytes aft ++ t)).
    { rewrite D, bucket_bytes_app. cbn [bucket_bytes flat_map]. rewrite <- !app_assoc. reflexivity. }
    destruct (finalize_first_match LIB ctx r' k bef e _ K D1 H' Ob Oe1 N Q) as [A B].
    destruct (Z.le_gt_cases (blen (e_body e)) 8160) as [Le|Gt]; [rewrite (A Le) in F; discriminate|]. destruct (B Gt) as (x & X). congruence.
Qed.

Lemma entry_cut e n : entry_ok e -> (25 <= n)%nat -> (n < length (entry_bytes e))%nat -> overrun_tail (firstn n (entry_bytes e)).
Proof.
  intros [Lc Lb] L1 L2. unfold entry_bytes in *. rewrite !app_length, Lc in L2. change (length [e_flag e]) with 1%nat in L2. rewrite be32_length in L2.
  exists (e_check e), (e_flag e), (N.of_nat (length (e_body e))), (firstn (n - 25) (e_body e)).
  split; [|split; [exact Lc|split; [unfold blen in Lb; lia|unfold blen; rewrite firstn_length; lia]]].
  rewrite !firstn_app, Lc. change (length [e_flag e]) with 1%nat. rewrite be32_length.
  rewrite (firstn_all2 (e_check e)) by lia. rewrite (firstn_all2 [e_flag e]) by (cbn [length]; lia). rewrite (firstn_all2 (be32 _)) by (rewrite be32_length; lia).
  replace (n - 20 - 1 - 4) with (n - 25) by lia. reflexivity.
Qed.

(** ** Lines *)
Lemma with_colon_app a b : with_colon (a ++ b) = with_colon a ++ with_colon b.
Proof. unfold with_colon. apply flat_map_app. Qed.
Lemma input_cut (ls : list bytes) (piece missing : bytes) (more : list bytes) (last : bytes) :
  Forall (fun l => no_lf l /\ (blen l < 65536)%Z) (ls ++ (piece ++ missing) :: more ++ [last]) ->
  (exists rest, text (ls ++ (piece ++ missing) :: more) last = text ls piece ++ missing ++ rest)
  /\ (exists others, with_colon (scan_lines (text (ls ++ (piece ++ missing) :: more) last)) = with_colon (scan_lines (text ls [])) ++ others)
  /\ (~ In Byte.x3a piece -> with_colon (scan_lines (text ls piece)) = with_colon (scan_lines (text ls [])))
  /\ (In Byte.x3a piece -> exists u p, with_colon (scan_lines (text ls piece)) = with_colon (scan_lines (text ls [])) ++ [(u, p)]
        /\ ~ In Byte.x3a u /\ (piece = u ++ [Byte.x3a] ++ p \/ piece = u ++ [Byte.x3a] ++ p ++ [Byte.x0d])).
Proof.
  intros F. apply Forall_app in F as [Fl F]. pose proof (Forall_inv F) as [Nm Lm]. apply Forall_inv_tail in F.
  assert (Fm : Forall (fun l => no_lf l /\ (blen l < 65536)%Z) (ls ++ (piece ++ missing) :: more)).
  { apply Forall_app. split; [exact Fl|]. constructor; [split; assumption|]. apply Forall_app in F. apply F. }
  assert (Nl : no_lf last /\ (blen last < 65536)%Z). { apply Forall_app in F as [_ F]. apply Forall_inv in F. exact F. }
  assert (Np : no_lf piece) by (intros I; apply Nm, in_or_app; left; exact I).
  assert (Lp : (blen piece < 65536)%Z) by (unfold blen in *; rewrite app_length in Lm; lia).
  assert (Two : forall l, Forall (fun l => no_lf l /\ (blen l < 65536)%Z) l -> Forall no_lf l /\ Forall (fun l => (blen l < 65536)%Z) l).
  { intros l H. split; eapply Forall_impl; [|exact H| |exact H]; cbn; tauto. }
  destruct (Two _ Fl) as [F1 F2]. destruct (Two _ Fm) as [F3 F4]. destruct Nl as [Nl Ll].
  assert (N0 : no_lf []) by (intros []). assert (L0 : (blen [] < 65536)%Z) by reflexivity.
  rewrite (scan_text ls [] F1 N0 F2 L0), (scan_text ls piece F1 Np F2 Lp), (scan_text _ last F3 Nl F4 Ll).
  unfold all_lines. rewrite !map_app, !with_colon_app. cbn [map]. change (with_colon []) with (@nil (bytes * bytes)). rewrite app_nil_r.
  split; [|split; [|split]].
  - exists ([Byte.x0a] ++ flat_map (fun l => l ++ [Byte.x0a]) more ++ last). unfold text. rewrite flat_map_app. cbn [flat_map]. rewrite <- !app_assoc. reflexivity.
  - rewrite <- !app_assoc. eexists. reflexivity.
  - intros NC. destruct piece as [|x l] eqn:P; [cbn; apply app_nil_r|]. rewrite <- P in *. cbn [map]. unfold with_colon at 2. cbn [flat_map].
    assert (S : split_colon (drop_cr piece) = None).
    { apply split_colon_none. destruct (drop_cr_spec piece) as [E|[E _]]; [|congruence]. intros I. apply NC. rewrite E. apply in_or_app. left. exact I. }
    rewrite S. apply app_nil_r.
  - intros HC. destruct piece as [|x l] eqn:P; [destruct HC|]. rewrite <- P in *. cbn [map]. unfold with_colon at 2. cbn [flat_map].
    destruct (split_colon (drop_cr piece)) as [[u p]|] eqn:S.
    + exists u, p. split; [reflexivity|]. apply split_colon_some in S as [S NU]. split; [exact NU|].
      destruct (drop_cr_spec piece) as [E|[E _]]; [right|left]; rewrite E, S; [rewrite <- app_assoc|]; reflexivity.
    + exfalso. apply split_colon_none in S. apply S. destruct (drop_cr_spec piece) as [E|[E _]]; [|congruence].
      rewrite E in HC. apply in_app_or in HC as [I|[I|[]]]; [exact I|discriminate].
Qed.
