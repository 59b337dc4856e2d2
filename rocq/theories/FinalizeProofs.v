(** * Lemmas about the bucket scan of Finalize (pkg/migp/client.go:109-154). *)
From Verif Require Import Base BaseProofs LibProofs Hkdf Common CommonProofs Hasher Encryptor EncryptorProofs
  Oprf Server Client SpecEntry SpecProtocol.

(** ** What an arbitrary byte string looks like *)

(** Every byte string is whole entries and a tail. *)
Lemma decompose s : exists es t, s = bucket_bytes es ++ t /\ Forall entry_ok es /\ (short_tail t \/ overrun_tail t).
Proof.
  assert (H : forall n s, (length s <= n)%nat ->
    exists es t, s = bucket_bytes es ++ t /\ Forall entry_ok es /\ (short_tail t \/ overrun_tail t)).
  { induction n as [|n IH]; intros u Hu.
    - destruct u; [|cbn in Hu; lia]. exists [], []. split; [reflexivity|]. split; [constructor|].
      left. unfold short_tail. cbn. lia.
    - destruct (Nat.lt_ge_cases (length u) 25) as [L|L].
      + exists [], u. split; [reflexivity|]. split; [constructor|]. left. exact L.
      + destruct (header_shape u L) as (c & f & m & r & E & Lc & Hm).
        destruct (Z.le_gt_cases (Z.of_N m) (blen r)) as [B|B].
        * set (k := N.to_nat m).
          assert (Hk : (k <= length r)%nat) by (unfold blen in B; unfold k; lia).
          destruct (IH (skipn k r)) as (es & t & Er & Fe & Ht).
          { rewrite skipn_length. rewrite E in Hu. rewrite !app_length, be32_length in Hu. cbn in Hu. lia. }
          exists ({| e_check := c; e_flag := f; e_body := firstn k r |} :: es), t.
          assert (Lk : length (firstn k r) = k) by (rewrite firstn_length; lia).
          split; [|split; [|exact Ht]].
          -- cbn [bucket_bytes flat_map]. fold (bucket_bytes es). unfold entry_bytes. cbn [e_check e_flag e_body].
             rewrite Lk. replace (N.of_nat k) with m by (unfold k; lia).
             rewrite <- !app_assoc. rewrite <- Er. rewrite firstn_skipn. exact E.
          -- constructor; [|exact Fe]. split; cbn [e_check e_body]; [exact Lc|].
             unfold blen. rewrite Lk. unfold k. change (2 ^ 32)%N with 4294967296%N in Hm. lia.
        * exists [], u. split; [reflexivity|]. split; [constructor|]. right.
          exists c, f, m, r. repeat split; auto. lia. }
  apply (H (length s)). lia.
Qed.

Lemma header_inj c f n r c' f' n' r' :
  length c = 20%nat -> length c' = 20%nat -> (n < 2 ^ 32)%N -> (n' < 2 ^ 32)%N ->
  c ++ [f] ++ be32 n ++ r = c' ++ [f'] ++ be32 n' ++ r' -> c = c' /\ f = f' /\ n = n' /\ r = r'.
Proof.
  intros L L' Hn Hn' E. apply app_inv_length in E as [Ec E]; [|congruence].
  apply app_inv_length in E as [Ef E]; [|reflexivity].
  apply app_inv_length in E as [En E]; [|reflexivity].
  apply be32_inj in En; auto. injection Ef as Ef. auto.
Qed.

Lemma entry_ok_len e : entry_ok e -> (N.of_nat (length (e_body e)) < 2 ^ 32)%N.
Proof. intros [_ B]. unfold blen in B. change (2 ^ 32)%N with 4294967296%N. change (2 ^ 32)%Z with 4294967296%Z in B. lia. Qed.

Lemma entry_not_short e r t : entry_ok e -> short_tail t -> entry_bytes e ++ r <> t.
Proof.
  intros [L _] H E. unfold short_tail in H. apply (f_equal (@length _)) in E.
  rewrite app_length, entry_bytes_length in E by exact L. lia.
Qed.

Lemma entry_not_overrun e r t : entry_ok e -> overrun_tail t -> entry_bytes e ++ r <> t.
Proof.
  intros O (c & f & n & q & -> & Lc & Hn & B) E. unfold entry_bytes in E. rewrite <- !app_assoc in E.
  apply header_inj in E as (_ & _ & En & Er); [|apply O|exact Lc|apply entry_ok_len, O|exact Hn].
  subst n q. unfold blen in B. rewrite app_length in B. lia.
Qed.

(** ... in exactly one way. *)
Lemma decompose_unique es t es' t' :
  Forall entry_ok es -> Forall entry_ok es' ->
  short_tail t \/ overrun_tail t -> short_tail t' \/ overrun_tail t' ->
  bucket_bytes es ++ t = bucket_bytes es' ++ t' -> es = es' /\ t = t'.
Proof.
  revert es'; induction es as [|e es IH]; intros es' F F' T T' E.
  - destruct es' as [|e' es']; [auto|]. exfalso. cbn [bucket_bytes flat_map app] in E.
    pose proof (Forall_inv F') as O. rewrite <- app_assoc in E. symmetry in E.
    destruct T as [T|T]; [eapply entry_not_short|eapply entry_not_overrun]; eauto.
  - destruct es' as [|e' es'].
    + exfalso. cbn [bucket_bytes flat_map app] in E. pose proof (Forall_inv F) as O.
      rewrite <- app_assoc in E.
      destruct T' as [T'|T']; [eapply entry_not_short|eapply entry_not_overrun]; eauto.
    + pose proof (Forall_inv F) as O. pose proof (Forall_inv F') as O'.
      pose proof (Forall_inv_tail F) as Fe. pose proof (Forall_inv_tail F') as Fe'.
      cbn [bucket_bytes flat_map] in E. fold (bucket_bytes es) in E. fold (bucket_bytes es') in E.
      unfold entry_bytes in E. rewrite <- !app_assoc in E.
      apply header_inj in E as (Ec & Ef & En & Er);
        [|apply O|apply O'|apply entry_ok_len, O|apply entry_ok_len, O'].
      apply app_inv_length in Er as [Eb Er]; [|lia].
      destruct (IH es' Fe Fe' T T' Er) as [-> ->]. split; [|reflexivity]. f_equal.
      destruct e, e'; cbn in *; congruence.
Qed.

Lemma bucket_bytes_app a b : bucket_bytes (a ++ b) = bucket_bytes a ++ bucket_bytes b.
Proof. apply flat_map_app. Qed.

Lemma bucket_bytes_count es : Forall entry_ok es -> (length es <= length (bucket_bytes es))%nat.
Proof.
  induction 1 as [|e es O F IH]; [cbn; lia|].
  cbn [bucket_bytes flat_map]. fold (bucket_bytes es). rewrite app_length, entry_bytes_length by apply O.
  cbn [length]. lia.
Qed.

(** ** The loop on a 64-bit platform *)

(** What one matching entry yields. *)
Definition opened (secret : bytes) (e : entry) : res (BreachStatus * gslice) :=
  if (blen (e_body e) <=? 8160)%Z
  then Ok (flag_status (entry_open_flag secret e), Some (entry_open_body secret e))
  else Err "hkdf: entropy limit reached".

Lemma ToBreachStatus_spec f : ToBreachStatus f = flag_status f.
Proof. destruct f; reflexivity. Qed.

Lemma wrap64 z : (- 2 ^ 63 <= z < 2 ^ 63)%Z -> int_wrap 64 z = z.
Proof. intros H. apply int_wrap_small; [lia|]. exact H. Qed.

Definition small (s : bytes) : Prop := (blen s <= 2 ^ 62)%Z.

Lemma blen_app a b : blen (a ++ b) = (blen a + blen b)%Z.
Proof. unfold blen. rewrite app_length. lia. Qed.

Lemma slice_from_app pre s : slice_from (pre ++ s) (blen pre) = Ok s.
Proof.
  unfold slice_from. rewrite blen_app. unfold blen.
  replace ((Z.of_nat (length pre) <? 0)%Z || (Z.of_nat (length pre) + Z.of_nat (length s) <? Z.of_nat (length pre))%Z)
    with false by lia.
  rewrite Nat2Z.id, skipn_app_exact by reflexivity. reflexivity.
Qed.

Lemma slice_mid a b c : slice (a ++ b ++ c) (blen a) (blen a + blen b) = Ok b.
Proof.
  unfold slice. rewrite !blen_app.
  replace (_ || _ || _) with false by (unfold blen; lia).
  replace (blen a + blen b - blen a)%Z with (blen b) by lia. unfold blen. rewrite !Nat2Z.id.
  rewrite skipn_app_exact, firstn_app_exact by reflexivity. reflexivity.
Qed.

Lemma loop_entry fuel e secret pre en rest :
  entry_ok en -> small (pre ++ entry_bytes en ++ rest) ->
  finalize_loop 64 (S fuel) e secret (pre ++ entry_bytes en ++ rest) (blen pre)
  = if entry_matches secret en then Some (opened secret en)
    else finalize_loop 64 fuel e secret (pre ++ entry_bytes en ++ rest) (blen (pre ++ entry_bytes en)).
Proof.
  intros O S. pose proof O as [L B]. unfold small in S. cbn [finalize_loop].
  assert (Len : blen (entry_bytes en) = (25 + blen (e_body en))%Z)
    by (unfold blen; rewrite entry_bytes_length by exact L; lia).
  rewrite !blen_app, Len in S.
  assert (0 <= blen pre)%Z by (unfold blen; lia).
  assert (0 <= blen rest)%Z by (unfold blen; lia).
  assert (0 <= blen (e_body en))%Z by (unfold blen; lia).
  change (Z.of_nat HeaderSize) with 25%Z.
  change (2 ^ 62)%Z with 4611686018427387904%Z in S. change (2 ^ 32)%Z with 4294967296%Z in B.
  assert (P63 : (2 ^ 63)%Z = 9223372036854775808%Z) by reflexivity.
  rewrite (wrap64 (blen pre + 25)) by lia.
  destruct (_ <? _)%Z eqn:E1; [rewrite !blen_app, Len in E1; lia|].
  rewrite slice_from_app. cbn [bind]. rewrite DecryptHeader_entry by exact O.
  rewrite (wrap64 (blen (e_body en))) by lia.
  rewrite (wrap64 (blen pre + 25 + blen (e_body en))) by lia.
  rewrite (proj2 (Z.ltb_ge (blen (pre ++ entry_bytes en ++ rest)) (blen pre + 25 + blen (e_body en))))
    by (rewrite !blen_app, Len; lia).
  destruct (entry_matches secret en).
  - f_equal.
    replace (pre ++ entry_bytes en ++ rest)
      with ((pre ++ (e_check en ++ [e_flag en] ++ be32 (N.of_nat (length (e_body en))))) ++ e_body en ++ rest)
      by (unfold entry_bytes; rewrite <- !app_assoc; reflexivity).
    replace (blen pre + 25)%Z
      with (blen (pre ++ (e_check en ++ [e_flag en] ++ be32 (N.of_nat (length (e_body en))))))
      by (rewrite !blen_app; unfold blen; rewrite L; cbn; lia).
    rewrite slice_mid. cbn [bind]. unfold opened.
    destruct (blen (e_body en) <=? 8160)%Z eqn:E3.
    + rewrite DecryptBody_ok by lia. cbn [bind]. rewrite ToBreachStatus_spec. reflexivity.
    + rewrite DecryptBody_err by lia. reflexivity.
  - f_equal. rewrite blen_app, Len. lia.
Qed.

Lemma loop_short fuel e secret pre t : short_tail t -> small (pre ++ t) ->
  finalize_loop 64 (S fuel) e secret (pre ++ t) (blen pre) = Some (Ok (NotInBreach, None)).
Proof.
  intros T S. unfold small in S. rewrite blen_app in S. unfold short_tail in T. cbn [finalize_loop].
  change (Z.of_nat HeaderSize) with 25%Z.
  change (2 ^ 62)%Z with 4611686018427387904%Z in S.
  assert (P63 : (2 ^ 63)%Z = 9223372036854775808%Z) by reflexivity.
  rewrite wrap64 by (unfold blen in *; lia).
  rewrite blen_app. destruct (_ <? _)%Z eqn:E; [reflexivity|]. unfold blen in E. lia.
Qed.

Lemma loop_overrun fuel e secret pre t : overrun_tail t -> small (pre ++ t) ->
  finalize_loop 64 (S fuel) e secret (pre ++ t) (blen pre) = Some (Err "parsing error in bucket").
Proof.
  intros (c & f & n & r & -> & L & Hn & B) S. unfold small in S. cbn [finalize_loop].
  change (Z.of_nat HeaderSize) with 25%Z.
  set (t := c ++ [f] ++ be32 n ++ r) in *.
  assert (Lt : blen t = (25 + blen r)%Z) by (unfold t; rewrite !blen_app; unfold blen; rewrite L, be32_length; cbn [length]; lia).
  rewrite blen_app, Lt in S.
  change (2 ^ 62)%Z with 4611686018427387904%Z in S. change (2 ^ 32)%N with 4294967296%N in Hn.
  assert (P63 : (2 ^ 63)%Z = 9223372036854775808%Z) by reflexivity.
  assert (0 <= blen pre)%Z by (unfold blen; lia). assert (0 <= blen r)%Z by (unfold blen; lia).
  rewrite (wrap64 (blen pre + 25)) by lia.
  destruct (_ <? _)%Z eqn:E1; [rewrite blen_app, Lt in E1; lia|].
  rewrite slice_from_app. cbn [bind]. unfold t at 1. rewrite DecryptHeader_spec by assumption.
  rewrite (wrap64 (Z.of_N n)) by lia.
  rewrite (wrap64 (blen pre + 25 + Z.of_N n)) by lia.
  rewrite (proj2 (Z.ltb_lt (blen (pre ++ t)) (blen pre + 25 + Z.of_N n))) by (rewrite blen_app, Lt; lia).
  reflexivity.
Qed.

(** What the whole scan yields. *)
Definition scan_result (secret : bytes) (es : list entry) (tail : res (BreachStatus * gslice))
  : res (BreachStatus * gslice) :=
  match find (entry_matches secret) es with
  | Some e => opened secret e
  | None => tail
  end.

Lemma loop_scan e secret t res es pre fuel :
  (forall fuel pre, small (pre ++ t) -> finalize_loop 64 (S fuel) e secret (pre ++ t) (blen pre) = Some res) ->
  Forall entry_ok es -> small (pre ++ bucket_bytes es ++ t) -> (length es < fuel)%nat ->
  finalize_loop 64 fuel e secret (pre ++ bucket_bytes es ++ t) (blen pre) = Some (scan_result secret es res).
Proof.
  intros HT. revert pre fuel; induction es as [|en es IH]; intros pre fuel F S Hf.
  - destruct fuel as [|fuel]; [lia|]. apply HT. exact S.
  - destruct fuel as [|fuel]; [cbn in Hf; lia|]. inversion F as [|? ? O Fe]; subst.
    cbn [bucket_bytes flat_map] in *. fold (bucket_bytes es) in *. rewrite <- app_assoc in *.
    rewrite loop_entry by assumption. unfold scan_result. cbn [find].
    destruct (entry_matches secret en) eqn:E; [reflexivity|].
    rewrite app_assoc in *. apply IH; [exact Fe|exact S|cbn in Hf; lia].
Qed.

Lemma loop_scan_short e secret es t fuel : Forall entry_ok es -> short_tail t ->
  small (bucket_bytes es ++ t) -> (length es < fuel)%nat ->
  finalize_loop 64 fuel e secret (bucket_bytes es ++ t) 0
  = Some (scan_result secret es (Ok (NotInBreach, None))).
Proof.
  intros F T S Hf. apply (loop_scan e secret t _ es []); auto.
  intros fu pre. apply loop_short. exact T.
Qed.

Lemma loop_scan_overrun e secret es t fuel : Forall entry_ok es -> overrun_tail t ->
  small (bucket_bytes es ++ t) -> (length es < fuel)%nat ->
  finalize_loop 64 fuel e secret (bucket_bytes es ++ t) 0
  = Some (scan_result secret es (Err "parsing error in bucket")).
Proof.
  intros F T S Hf. apply (loop_scan e secret t _ es []); auto.
  intros fu pre. apply loop_overrun. exact T.
Qed.

(** ** Finalize *)
Section Fin.
Variable LIB : OPRF.
Implicit Types (ctx : ClientRequestContext LIB).

Lemma Finalize_secret ctx resp secret :
  finalize_secret ctx resp = Ok secret ->
  Finalize_fuel 64 (S (length (sl (rs_bucketContents resp)))) ctx resp
  = finalize_loop 64 (S (length (sl (rs_bucketContents resp)))) (c_bucketEncryptor (ctx_client ctx)) secret
      (sl (rs_bucketContents resp)) 0.
Proof. intros H. unfold Finalize_fuel. rewrite H. reflexivity. Qed.

Lemma enough_fuel es t : Forall entry_ok es -> (length es < S (length (bucket_bytes es ++ t)))%nat.
Proof. intros F. rewrite app_length. pose proof (bucket_bytes_count es F). lia. Qed.

Lemma Finalize_short ctx resp secret es t :
  finalize_secret ctx resp = Ok secret -> sl (rs_bucketContents resp) = bucket_bytes es ++ t ->
  Forall entry_ok es -> short_tail t -> small (bucket_bytes es ++ t) ->
  Finalize ctx resp = scan_result secret es (Ok (NotInBreach, None)).
Proof.
  intros Hs Hc F T S. unfold Finalize. rewrite (Finalize_secret _ _ _ Hs), Hc.
  rewrite loop_scan_short by auto using enough_fuel. reflexivity.
Qed.

Lemma Finalize_overrun ctx resp secret es t :
  finalize_secret ctx resp = Ok secret -> sl (rs_bucketContents resp) = bucket_bytes es ++ t ->
  Forall entry_ok es -> overrun_tail t -> small (bucket_bytes es ++ t) ->
  Finalize ctx resp = scan_result secret es (Err "parsing error in bucket").
Proof.
  intros Hs Hc F T S. unfold Finalize. rewrite (Finalize_secret _ _ _ Hs), Hc.
  rewrite loop_scan_overrun by auto using enough_fuel. reflexivity.
Qed.

Lemma opened_np secret e m : opened secret e <> Panic m.
Proof. unfold opened. destruct (_ <=? _)%Z; discriminate. Qed.

Lemma Finalize_total ctx resp fuel :
  (forall s xs rs l i m, unblind LIB s xs rs l i <> Panic m) ->
  small (sl (rs_bucketContents resp)) -> (length (sl (rs_bucketContents resp)) < fuel)%nat ->
  exists r, Finalize_fuel 64 fuel ctx resp = Some r /\ forall m, r <> Panic m.
Proof.
  intros NP S Hf. unfold Finalize_fuel.
  destruct (finalize_secret ctx resp) as [secret|m|m] eqn:E.
  - destruct (decompose (sl (rs_bucketContents resp))) as (es & t & Ed & F & T).
    pose proof (bucket_bytes_count es F) as C.
    assert (L : (length es < fuel)%nat) by (rewrite Ed, app_length in Hf; lia).
    rewrite Ed in *.
    destruct T as [T|T];
      [rewrite loop_scan_short by assumption|rewrite loop_scan_overrun by assumption];
      (eexists; split; [reflexivity|]);
      intros m; unfold scan_result; destruct (find _ _); try discriminate; apply opened_np.
  - eexists; split; [reflexivity|]. discriminate.
  - exfalso. unfold finalize_secret in E. destruct (negb _); [discriminate|].
    destruct (unblind LIB _ _ _ _ _) as [[|? ?]|?|?] eqn:U; cbn [bind] in E; try discriminate.
    eapply NP. exact U.
Qed.

(** More iterations change nothing: the bound is not part of the result. *)
Lemma finalize_loop_mono iw fuel e secret c o r :
  finalize_loop iw fuel e secret c o = Some r ->
  forall fuel', (fuel <= fuel')%nat -> finalize_loop iw fuel' e secret c o = Some r.
Proof.
  revert o; induction fuel as [|fuel IH]; intros o H fuel' Hf; [discriminate|].
  destruct fuel' as [|fuel']; [lia|]. cbn [finalize_loop] in *.
  destruct (_ <? _)%Z; [exact H|].
  destruct (bind _ _) as [[[v fl] bl]|m|m]; try exact H.
  destruct (_ <? _)%Z; [exact H|]. destruct v; [exact H|].
  apply IH; [exact H|lia].
Qed.

Lemma Finalize_fuel_mono iw fuel ctx resp r :
  Finalize_fuel iw fuel ctx resp = Some r ->
  forall fuel', (fuel <= fuel')%nat -> Finalize_fuel iw fuel' ctx resp = Some r.
Proof.
  unfold Finalize_fuel. destruct (finalize_secret ctx resp); auto. apply finalize_loop_mono.
Qed.

(** ** 32-bit platforms *)

Definition evil_bucket : bytes := zeros 21 ++ be32 4294967271.   (* length field 0xFFFFFFE7 *)

Lemma evil_loop fuel e secret : key_check secret <> zeros 20 ->
  finalize_loop 32 fuel e secret evil_bucket 0 = None.
Proof.
  intros K. induction fuel as [|fuel IH]; [reflexivity|]. cbn [finalize_loop].
  change (blen evil_bucket <? int_wrap 32 (0 + Z.of_nat HeaderSize))%Z with false. cbv iota.
  change (slice_from evil_bucket 0) with (Ok evil_bucket). cbn [bind].
  change evil_bucket with (zeros 20 ++ [Byte.x00] ++ be32 4294967271 ++ []) at 1.
  rewrite DecryptHeader_spec by (reflexivity || (vm_compute; reflexivity)).
  rewrite (proj2 (bytes_eqb_neq _ _) K).
  change (int_wrap 32 (Z.of_N 4294967271)) with (-25)%Z.
  change (int_wrap 32 (0 + Z.of_nat HeaderSize)) with 25%Z.
  change (int_wrap 32 (25 + -25)) with 0%Z.
  change (blen evil_bucket <? 0)%Z with false. cbv iota. exact IH.
Qed.

Definition negative_bucket (secret : bytes) : bytes := key_check secret ++ [Byte.x00] ++ be32 (2 ^ 31).

Lemma negative_loop fuel e secret :
  exists m, finalize_loop 32 (S fuel) e secret (negative_bucket secret) 0 = Some (Panic m).
Proof.
  assert (L : blen (negative_bucket secret) = 25%Z)
    by (unfold blen, negative_bucket; rewrite !app_length, key_check_length; reflexivity).
  cbn [finalize_loop].
  change (int_wrap 32 (0 + Z.of_nat HeaderSize)) with 25%Z. rewrite L.
  change (25 <? 25)%Z with false. cbv iota.
  replace (slice_from (negative_bucket secret) 0) with (Ok (negative_bucket secret))
    by (unfold slice_from; rewrite L; reflexivity).
  cbn [bind]. unfold negative_bucket at 1. rewrite <- (app_nil_r (be32 (2 ^ 31))).
  rewrite DecryptHeader_spec by (apply key_check_length || (vm_compute; reflexivity)).
  rewrite bytes_eqb_refl.
  change (int_wrap 32 (Z.of_N (2 ^ 31))) with (-2147483648)%Z.
  change (int_wrap 32 (25 + -2147483648)) with (-2147483623)%Z.
  change (25 <? -2147483623)%Z with false. cbv iota.
  unfold slice. change (-2147483623 <? 25)%Z with true. rewrite orb_true_r. cbn [orb bind]. eauto.
Qed.

(** ** Statements used by the property file *)
Lemma client_secret_ok ctx resp secret : client_secret ctx resp secret -> finalize_secret ctx resp = Ok secret.
Proof.
  intros [V [rest U]]. unfold finalize_secret. unfold u16. rewrite V, N.eqb_refl. cbn [negb].
  change OprfInfo with (str "MIGP oprf info"). rewrite U. reflexivity.
Qed.

Lemma finalize_total ctx resp :
  (forall s xs rs l i m, unblind LIB s xs rs l i <> Panic m) ->
  holdable (sl (rs_bucketContents resp)) ->
  (forall fuel, (length (sl (rs_bucketContents resp)) < fuel)%nat ->
     Finalize_fuel 64 fuel ctx resp = Some (Finalize ctx resp))
  /\ forall m, Finalize ctx resp <> Panic m.
Proof.
  intros NP S.
  destruct (Finalize_total ctx resp (Datatypes.S (length (sl (rs_bucketContents resp)))) NP S ltac:(lia)) as (r & E & P).
  assert (F : Finalize ctx resp = r) by (unfold Finalize; rewrite E; reflexivity).
  rewrite F. split; [|exact P]. intros fuel Hf. eapply Finalize_fuel_mono; [exact E|lia].
Qed.

Lemma finalize_diverges_32 ctx resp secret :
  client_secret ctx resp secret -> key_check secret <> zeros 20 ->
  rs_bucketContents resp = Some (zeros 21 ++ [Byte.xff; Byte.xff; Byte.xff; Byte.xe7]) ->
  forall fuel, Finalize_fuel 32 fuel ctx resp = None.
Proof.
  intros H K B fuel. unfold Finalize_fuel. rewrite (client_secret_ok _ _ _ H), B.
  apply evil_loop. exact K.
Qed.

Lemma finalize_panics_32 ctx resp secret :
  client_secret ctx resp secret ->
  rs_bucketContents resp = Some (key_check secret ++ [Byte.x00; Byte.x80; Byte.x00; Byte.x00; Byte.x00]) ->
  forall fuel, exists m, Finalize_fuel 32 (S fuel) ctx resp = Some (Panic m).
Proof.
  intros H B fuel. unfold Finalize_fuel. rewrite (client_secret_ok _ _ _ H), B.
  apply negative_loop.
Qed.

Lemma find_none_check secret es : Forall (fun b => e_check b <> key_check secret) es ->
  find (entry_matches secret) es = None.
Proof.
  induction 1 as [|e es H F IH]; [reflexivity|]. cbn [find]. unfold entry_matches at 1.
  rewrite (proj2 (bytes_eqb_neq _ _) H). exact IH.
Qed.

Lemma scan_first secret before e after r :
  Forall (fun b => e_check b <> key_check secret) before -> e_check e = key_check secret ->
  scan_result secret (before ++ e :: after) r = opened secret e.
Proof.
  intros F M. unfold scan_result. replace (find (entry_matches secret) (before ++ e :: after)) with (Some e); [reflexivity|].
  induction F as [|b before H F IH]; cbn [app find]; unfold entry_matches at 1.
  - rewrite (proj2 (bytes_eqb_eq _ _) M). reflexivity.
  - rewrite (proj2 (bytes_eqb_neq _ _) H). exact IH.
Qed.

Lemma finalize_first_match ctx resp secret before e after :
  client_secret ctx resp secret ->
  sl (rs_bucketContents resp) = bucket_bytes before ++ entry_bytes e ++ after ->
  holdable (sl (rs_bucketContents resp)) ->
  Forall entry_ok before -> entry_ok e ->
  Forall (fun b => e_check b <> key_check secret) before -> e_check e = key_check secret ->
  ((blen (e_body e) <= 8160)%Z -> Finalize ctx resp = Ok (reported secret e))
  /\ ((8160 < blen (e_body e))%Z -> exists m, Finalize ctx resp = Err m).
Proof.
  intros H C S Fo Oe Fb Me. apply client_secret_ok in H.
  destruct (decompose after) as (es & t & Ea & Fa & T).
  assert (C' : sl (rs_bucketContents resp) = bucket_bytes (before ++ e :: es) ++ t).
  { rewrite C, Ea, bucket_bytes_app. cbn [bucket_bytes flat_map]. rewrite <- !app_assoc. reflexivity. }
  assert (F' : Forall entry_ok (before ++ e :: es)) by (apply Forall_app; auto).
  assert (R : Finalize ctx resp = opened secret e).
  { rewrite C' in S. destruct T as [T|T].
    - rewrite (Finalize_short _ _ _ _ _ H C' F' T S). apply scan_first; assumption.
    - rewrite (Finalize_overrun _ _ _ _ _ H C' F' T S). apply scan_first; assumption. }
  rewrite R. unfold opened, reported. split; intros L.
  - rewrite (proj2 (Z.leb_le _ _) L). reflexivity.
  - rewrite (proj2 (Z.leb_gt _ _) L). eauto.
Qed.

Lemma finalize_short_tail ctx resp secret es t :
  client_secret ctx resp secret ->
  sl (rs_bucketContents resp) = bucket_bytes es ++ t -> holdable (sl (rs_bucketContents resp)) ->
  Forall entry_ok es -> short_tail t -> Forall (fun b => e_check b <> key_check secret) es ->
  Finalize ctx resp = Ok (NotInBreach, None).
Proof.
  intros H C S F T N. apply client_secret_ok in H. pose proof C as C'. rewrite C in S.
  rewrite (Finalize_short _ _ _ _ _ H C' F T S). unfold scan_result. rewrite find_none_check by exact N. reflexivity.
Qed.

Lemma finalize_overrun_tail ctx resp secret es t :
  client_secret ctx resp secret ->
  sl (rs_bucketContents resp) = bucket_bytes es ++ t -> holdable (sl (rs_bucketContents resp)) ->
  Forall entry_ok es -> overrun_tail t -> Forall (fun b => e_check b <> key_check secret) es ->
  Finalize ctx resp = Err "parsing error in bucket".
Proof.
  intros H C S F T N. apply client_secret_ok in H. pose proof C as C'. rewrite C in S.
  rewrite (Finalize_overrun _ _ _ _ _ H C' F T S). unfold scan_result. rewrite find_none_check by exact N. reflexivity.
Qed.

Lemma finalize_no_match ctx resp secret es :
  client_secret ctx resp secret -> sl (rs_bucketContents resp) = bucket_bytes es ->
  holdable (sl (rs_bucketContents resp)) -> Forall entry_ok es ->
  Forall (fun b => e_check b <> key_check secret) es -> Finalize ctx resp = Ok (NotInBreach, None).
Proof.
  intros H C S F N. apply (finalize_short_tail ctx resp secret es []); auto.
  - rewrite app_nil_r. exact C.
  - unfold short_tail. cbn. lia.
Qed.

End Fin.

Lemma bucket_decomposition s :
  exists es t, s = bucket_bytes es ++ t /\ Forall entry_ok es /\ (short_tail t \/ overrun_tail t)
    /\ forall es' t', s = bucket_bytes es' ++ t' -> Forall entry_ok es' -> (short_tail t' \/ overrun_tail t') ->
         es' = es /\ t' = t.
Proof.
  destruct (decompose s) as (es & t & E & F & T). exists es, t. split; [exact E|]. split; [exact F|]. split; [exact T|].
  intros es' t' E' F' T'. eapply decompose_unique; eauto. congruence.
Qed.
