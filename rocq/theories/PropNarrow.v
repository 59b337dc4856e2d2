(** * C83: clients on 32-bit platforms (int has 32 bits).

    C08 shows that hostile buckets break Finalize there.  Here: exactly what
    can go wrong, and that honest servers are answered as on 64 bits. *)
From Coq Require Import Lia.
From Verif Require Import Base BaseProofs LibProofs Hex Common CommonProofs Encryptor Oprf OprfGroup Server Client KV
  SpecCommon SpecEntry SpecProtocol SpecStore EncryptorProofs FinalizeProofs ProtocolProofs StoreProofs WireProofs PropFinalize PropProtocol.

(** What a slice can hold there, but for the last 25 bytes. *)
Definition holdable32 (s : bytes) : Prop := (blen s <= 2 ^ 31 - 26)%Z.

(** After whole entries, a header whose length field leads to 2^31 or beyond. *)
Definition far_overrun (s : bytes) : Prop :=
  exists es check flag n rest, s = bucket_bytes es ++ check ++ [flag] ++ be32 n ++ rest
    /\ Forall entry_ok es /\ length check = 20%nat /\ (n < 2 ^ 32)%N
    /\ (2 ^ 31 <= blen (bucket_bytes es) + 25 + Z.of_N n)%Z.

Lemma wrap32 z : (- 2147483648 <= z < 2147483648)%Z -> int_wrap 32 z = z.
Proof. intros H. apply int_wrap_small; [lia|]. exact H. Qed.

Lemma loop_entry32 fuel e secret pre en rest :
  entry_ok en -> holdable32 (pre ++ entry_bytes en ++ rest) ->
  finalize_loop 32 (S fuel) e secret (pre ++ entry_bytes en ++ rest) (blen pre)
  = if entry_matches secret en then Some (opened secret en)
    else finalize_loop 32 fuel e secret (pre ++ entry_bytes en ++ rest) (blen (pre ++ entry_bytes en)).
Proof.
  intros O S. pose proof O as [L B]. unfold holdable32 in S. cbn [finalize_loop].
  assert (Len : blen (entry_bytes en) = (25 + blen (e_body en))%Z)
    by (unfold blen; rewrite entry_bytes_length by exact L; lia).
  rewrite !blen_app, Len in S.
  assert (0 <= blen pre)%Z by (unfold blen; lia).
  assert (0 <= blen rest)%Z by (unfold blen; lia).
  assert (0 <= blen (e_body en))%Z by (unfold blen; lia).
  change (Z.of_nat HeaderSize) with 25%Z.
  change (2 ^ 31 - 26)%Z with 2147483622%Z in S.
  rewrite (wrap32 (blen pre + 25)) by lia.
  destruct (_ <? _)%Z eqn:E1; [rewrite !blen_app, Len in E1; lia|].
  rewrite slice_from_app. cbn [bind]. rewrite DecryptHeader_entry by exact O.
  rewrite (wrap32 (blen (e_body en))) by lia.
  rewrite (wrap32 (blen pre + 25 + blen (e_body en))) by lia.
  rewrite (proj2 (Z.ltb_ge (blen (pre ++ entry_bytes en ++ rest)) (blen pre + 25 + blen (e_body en))))
    by (rewrite !blen_app, Len; lia).
  destruct (entry_matches secret en).
  - f_equal.
    replace (pre ++ entry_bytes en ++ rest)
      with ((pre ++ (e_check en ++ [e_flag en] ++ be32 (N.of_nat (length (e_body en))))) ++ e_body en ++ rest)
      by (unfold entry_bytes; rewrite <- !app_assoc; reflexivity).
    replace (blen pre + 25)%Z
      with (blen (pre ++ (e_check en ++ [e_flag en] ++ be32 (N.of_nat (length (e_body en))))))
      by (rewrite !blen_app; unfold blen; rewrite L; cbn; lia).
    rewrite slice_mid. cbn [bind]. unfold opened.
    destruct (blen (e_body en) <=? 8160)%Z eqn:E3.
    + rewrite DecryptBody_ok by lia. cbn [bind]. rewrite ToBreachStatus_spec. reflexivity.
    + rewrite DecryptBody_err by lia. reflexivity.
  - f_equal. rewrite blen_app, Len. lia.
Qed.

Lemma loop_short32 fuel e secret pre t : short_tail t -> holdable32 (pre ++ t) ->
  finalize_loop 32 (S fuel) e secret (pre ++ t) (blen pre) = Some (Ok (NotInBreach, None)).
Proof.
  intros T S. unfold holdable32 in S. rewrite blen_app in S. unfold short_tail in T. cbn [finalize_loop].
  change (Z.of_nat HeaderSize) with 25%Z. change (2 ^ 31 - 26)%Z with 2147483622%Z in S.
  rewrite wrap32 by (unfold blen in *; lia).
  rewrite blen_app. destruct (_ <? _)%Z eqn:E; [reflexivity|]. unfold blen in E. lia.
Qed.

(** A header that overruns the data: what happens next. *)
Lemma loop_overrun32 fuel e secret pre c f n r :
  length c = 20%nat -> (n < 2 ^ 32)%N -> (Z.of_N n > blen r)%Z -> holdable32 (pre ++ c ++ [f] ++ be32 n ++ r) ->
  (blen pre + 25 + Z.of_N n < 2 ^ 31)%Z ->
  finalize_loop 32 (S fuel) e secret (pre ++ c ++ [f] ++ be32 n ++ r) (blen pre) = Some (Err "parsing error in bucket").
Proof.
  intros L Hn B S X. unfold holdable32 in S. cbn [finalize_loop].
  change (Z.of_nat HeaderSize) with 25%Z.
  set (t := c ++ [f] ++ be32 n ++ r) in *.
  assert (Lt : blen t = (25 + blen r)%Z) by (unfold t; rewrite !blen_app; unfold blen; rewrite L, be32_length; cbn [length]; lia).
  rewrite blen_app, Lt in S. change (2 ^ 31 - 26)%Z with 2147483622%Z in S. change (2 ^ 31)%Z with 2147483648%Z in X.
  assert (0 <= blen pre)%Z by (unfold blen; lia). assert (0 <= blen r)%Z by (unfold blen; lia).
  rewrite (wrap32 (blen pre + 25)) by lia.
  destruct (_ <? _)%Z eqn:E1; [rewrite blen_app, Lt in E1; lia|].
  rewrite slice_from_app. cbn [bind]. unfold t at 1. rewrite DecryptHeader_spec by assumption.
  rewrite (wrap32 (Z.of_N n)) by lia.
  rewrite (wrap32 (blen pre + 25 + Z.of_N n)) by lia.
  rewrite (proj2 (Z.ltb_lt (blen (pre ++ t)) (blen pre + 25 + Z.of_N n))) by (rewrite blen_app, Lt; lia).
  reflexivity.
Qed.

Lemma loop_scan32 e secret rest es : forall pre fuel,
  Forall entry_ok es -> holdable32 (pre ++ bucket_bytes es ++ rest) ->
  finalize_loop 32 (length es + fuel) e secret (pre ++ bucket_bytes es ++ rest) (blen pre)
  = match find (entry_matches secret) es with
    | Some en => Some (opened secret en)
    | None => finalize_loop 32 fuel e secret (pre ++ bucket_bytes es ++ rest) (blen (pre ++ bucket_bytes es))
    end.
Proof.
  induction es as [|en es IH]; intros pre fuel F S.
  - cbn [length Nat.add bucket_bytes flat_map app find]. rewrite app_nil_r. reflexivity.
  - inversion F as [|? ? O Fe]; subst. cbn [length Nat.add bucket_bytes flat_map find] in *. fold (bucket_bytes es) in *. rewrite <- app_assoc in *.
    rewrite loop_entry32 by assumption. destruct (entry_matches secret en) eqn:E; [reflexivity|].
    rewrite (app_assoc pre (entry_bytes en)) in *. rewrite IH by assumption. rewrite (app_assoc pre (entry_bytes en)). reflexivity.
Qed.


(** ** Where 32 bits make no difference *)
Lemma bucket_of_entries32 es s : Forall entry_ok es -> s = bucket_bytes es -> holdable32 s -> ~ far_overrun s.
Proof.
  intros F -> H (es' & c & f & n & r & E & F' & L & Hn & X).
  assert (T : overrun_tail (c ++ [f] ++ be32 n ++ r)).
  { exists c, f, n, r. repeat split; auto. unfold holdable32 in H. rewrite E in H. rewrite !blen_app in H.
    unfold blen in *. rewrite L, be32_length in H. cbn [length] in H.
    change (2 ^ 31)%Z with 2147483648%Z in *. lia. }
  rewrite <- (app_nil_r (bucket_bytes es)) in E.
  apply decompose_unique in E as [_ E]; auto; [|left; unfold short_tail; cbn; lia].
  destruct c; [discriminate L|discriminate E].
Qed.

Lemma holdable32_small s : holdable32 s -> holdable s.
Proof. unfold holdable32, holdable. change (2 ^ 31 - 26)%Z with 2147483622%Z. change (2 ^ 62)%Z with 4611686018427387904%Z. lia. Qed.

Theorem C83_same_answers : forall (LIB : OPRF) (ctx : ClientRequestContext LIB) (resp : ServerResponse),
  holdable32 (sl (rs_bucketContents resp)) -> ~ far_overrun (sl (rs_bucketContents resp)) ->
  forall fuel, (length (sl (rs_bucketContents resp)) < fuel)%nat ->
  Finalize_fuel 32 fuel ctx resp = Some (Finalize ctx resp).
Proof.
  intros LIB ctx resp H NF fuel Hf.
  destruct (finalize_secret ctx resp) as [secret|m|m] eqn:E;
    [|unfold Finalize, Finalize_fuel; rewrite E; reflexivity..].
  destruct (decompose (sl (rs_bucketContents resp))) as (es & t & Ed & F & T).
  pose proof (bucket_bytes_count es F) as C.
  assert (L : (length es < fuel)%nat) by (rewrite Ed, app_length in Hf; lia).
  assert (exists f0, fuel = (length es + Datatypes.S f0)%nat) as [f0 ->] by (exists (fuel - length es - 1)%nat; lia).
  pose proof (holdable32_small _ H) as Sm. rewrite Ed in H, NF, Sm.
  unfold Finalize_fuel. rewrite E, Ed.
  rewrite (loop_scan32 _ secret t es [] (Datatypes.S f0) F H). cbn [app].
  destruct T as [T|T].
  - rewrite (Finalize_short LIB ctx resp secret es t E Ed F T Sm). unfold scan_result.
    destruct (find (entry_matches secret) es); [reflexivity|]. apply loop_short32; assumption.
  - rewrite (Finalize_overrun LIB ctx resp secret es t E Ed F T Sm). unfold scan_result.
    destruct (find (entry_matches secret) es); [reflexivity|].
    destruct T as (c & f & n & r & -> & Lc & Hn & B).
    apply loop_overrun32; auto.
    destruct (Z.lt_ge_cases (blen (bucket_bytes es) + 25 + Z.of_N n) (2 ^ 31)) as [X|X]; [exact X|].
    exfalso. apply NF. exists es, c, f, n, r. auto.
Qed.
Print Assumptions C83_same_answers.

(** Whatever follows an entry that is the client's own. *)
Theorem C83_found_before_the_damage : forall (LIB : OPRF) (ctx : ClientRequestContext LIB) (resp : ServerResponse)
    (secret : bytes) (es : list entry) (rest : bytes),
  client_secret ctx resp secret -> Forall entry_ok es -> Exists (fun e => e_check e = key_check secret) es ->
  sl (rs_bucketContents resp) = bucket_bytes es ++ rest -> holdable32 (bucket_bytes es ++ rest) ->
  forall fuel, (length (sl (rs_bucketContents resp)) < fuel)%nat ->
  Finalize_fuel 32 fuel ctx resp = Some (Finalize ctx resp).
Proof.
  intros LIB ctx resp secret es rest K F X B H fuel Hf. apply client_secret_ok in K as E.
  destruct (find (entry_matches secret) es) as [en|] eqn:Fi.
  2:{ exfalso. apply Exists_exists in X as (e & Hin & Ee). apply (find_none _ _ Fi) in Hin.
      unfold entry_matches in Hin. rewrite Ee, bytes_eqb_refl in Hin. discriminate. }
  pose proof (bucket_bytes_count es F) as C.
  assert (exists f0, fuel = (length es + f0)%nat) as [f0 ->].
  { exists (fuel - length es)%nat. rewrite B, app_length in Hf. lia. }
  unfold Finalize_fuel. rewrite E, B. rewrite (loop_scan32 _ secret rest es [] f0 F H), Fi.
  destruct (decompose rest) as (es' & t & Ed & F' & T).
  assert (B' : sl (rs_bucketContents resp) = bucket_bytes (es ++ es') ++ t)
    by (rewrite B, Ed, bucket_bytes_app, app_assoc; reflexivity).
  assert (Fi' : find (entry_matches secret) (es ++ es') = Some en).
  { clear - Fi. induction es as [|a es IH]; [discriminate|]. cbn [app find] in *. destruct (entry_matches secret a); auto. }
  assert (FF : Forall entry_ok (es ++ es')) by (apply Forall_app; auto).
  assert (Sm : holdable (bucket_bytes (es ++ es') ++ t)) by (rewrite <- B', B; apply holdable32_small, H).
  f_equal. destruct T as [T|T].
  - rewrite (Finalize_short LIB ctx resp secret (es ++ es') t E B' FF T Sm). unfold scan_result. rewrite Fi'. reflexivity.
  - rewrite (Finalize_overrun LIB ctx resp secret (es ++ es') t E B' FF T Sm). unfold scan_result. rewrite Fi'. reflexivity.
Qed.
Print Assumptions C83_found_before_the_damage.

(** ** Honest servers *)
Theorem C83_honest_server : forall (LIB : OPRF) (cfg : Config) (key : PrivateKey LIB) (s : Server LIB) (c : Client)
    (db : list cred) (kv : kvStore) (u p : bytes) (r : Blind LIB) request ctx response, OPRF_laws LIB ->
  NewServer {| sc_config := cfg; sc_privateKey := key |} = Ok s -> NewClient LIB cfg = Ok c -> (cfg_version cfg < 2 ^ 16)%N ->
  (0 <= cfg_bits cfg <= 32)%Z -> (blen u <= 65536)%Z -> (blen p <= 65536)%Z ->
  store_all s newKVStore db = Ok kv -> (forall id, holdable32 (sl (kv_lookup kv id))) -> no_collision s db u p ->
  Request c u p r = Ok (request, ctx) -> HandleRequest s request (kv_Get kv) = Ok response ->
  forall fuel, (length (sl (rs_bucketContents response)) < fuel)%nat ->
  Finalize_fuel 32 fuel ctx response = Some (Ok (expected db u p))
  \/ exists m m', Finalize_fuel 32 fuel ctx response = Some (Err m) /\ deriveBucketEntryKey s u p = Err m'.
Proof.
  intros LIB cfg key s c db kv u p r request ctx response laws Hs Hc Hv Hb Lu Lp Hst Hh Hn Hr Ha fuel Hf.
  assert (W : exists id, (id < 2 ^ 32)%N /\ rq_bucketID request = BucketIDToHex id).
  { destruct (request_inv LIB c u p r request ctx Hr) as (_ & _ & id & Hid & E). exists id. split; [|exact E].
    rewrite (same_bucket LIB cfg key s c Hs Hc u) in Hid. eapply Server_BucketID_lt. exact Hid. }
  destruct W as (id & Hid & Eid).
  assert (Bk : sl (rs_bucketContents response) = bucket_bytes (map (entry_of s) (filter (in_bucket s id) db))).
  { unfold HandleRequest in Ha. destruct (negb _); [discriminate|]. apply bind_ok in Ha as (els & _ & Ha).
    destruct els as [|el els]; [discriminate|]. destruct (hex_decode _); [|discriminate..].
    apply bind_ok in Ha as (v & Hg & Ha). apply Ok_inj in Ha. subst response. cbn [rs_bucketContents].
    unfold kv_Get in Hg. apply Ok_inj in Hg. subst v. rewrite Eid.
    rewrite (store_all_bucket s _ _ _ id Hst Hid). reflexivity. }
  assert (H32 : holdable32 (sl (rs_bucketContents response))).
  { rewrite Bk. pose proof (Hh (BucketIDToHex id)) as Q. rewrite (store_all_bucket s _ _ _ id Hst Hid) in Q. exact Q. }
  assert (Fo : Forall entry_ok (map (entry_of s) (filter (in_bucket s id) db))).
  { apply Forall_map. pose proof (store_all_storable s _ _ _ Hst) as F. rewrite Forall_forall in *. intros d Hd.
    apply filter_In in Hd as [Hd _]. apply storable_entry_ok. auto. }
  rewrite (C83_same_answers LIB ctx response H32 (bucket_of_entries32 _ _ Fo Bk H32) fuel Hf).
  destruct (query_total LIB cfg key s c db kv u p r laws Hs Hc Hv Hb Lu Lp Hst (fun i => holdable32_small _ (Hh i)) Hn) as [Q|(m & m' & Q & D)];
    unfold run_query in Q; rewrite Hr in Q; rewrite Ha in Q; cbn [bind] in Q; rewrite Q; eauto.
Qed.
Print Assumptions C83_honest_server.

(** ** Where they do: the crash *)
Lemma negative_offset fuel e secret s o : (- 2147483648 <= o < 0)%Z -> (25 <= blen s)%Z ->
  exists m, finalize_loop 32 (Datatypes.S fuel) e secret s o = Some (Panic m).
Proof.
  intros O L. cbn [finalize_loop]. change (Z.of_nat HeaderSize) with 25%Z. rewrite (wrap32 (o + 25)) by lia.
  destruct (_ <? _)%Z eqn:E; [lia|]. unfold slice_from. rewrite (proj2 (Z.ltb_lt o 0)) by lia. cbn [orb bind]. eauto.
Qed.

Lemma int_wrap_up z : (2147483648 <= z < 4294967296)%Z -> int_wrap 32 z = (z - 4294967296)%Z.
Proof.
  intros H. unfold int_wrap. change (2 ^ (32 - 1))%Z with 2147483648%Z. change (2 ^ 32)%Z with 4294967296%Z.
  replace (z + 2147483648)%Z with (z - 2147483648 + 1 * 4294967296)%Z by lia.
  rewrite Z.mod_add by lia. rewrite Z.mod_small by lia. lia.
Qed.

(** Any bucket whose whole entries, none of them the client's, are followed by
    a header that leads to between 2^31 and 2^32: the program is stopped. *)
Theorem C83_crash_refuted : forall (LIB : OPRF) (ctx : ClientRequestContext LIB) (resp : ServerResponse)
    (secret : bytes) (es : list entry) (check : bytes) (flag : byte) (n : N) (rest : bytes),
  client_secret ctx resp secret -> Forall entry_ok es -> Forall (fun e => e_check e <> key_check secret) es ->
  length check = 20%nat -> (n < 2 ^ 32)%N ->
  sl (rs_bucketContents resp) = bucket_bytes es ++ check ++ [flag] ++ be32 n ++ rest ->
  holdable32 (sl (rs_bucketContents resp)) ->
  (2 ^ 31 <= blen (bucket_bytes es) + 25 + Z.of_N n < 2 ^ 32)%Z ->
  forall fuel, (length es + 2 <= fuel)%nat -> exists m, Finalize_fuel 32 fuel ctx resp = Some (Panic m).
Proof.
  intros LIB ctx resp secret es check flag n rest K F N L Hn B H X fuel Hf.
  assert (exists f0, fuel = (length es + Datatypes.S (Datatypes.S f0))%nat) as [f0 ->] by (exists (fuel - length es - 2)%nat; lia).
  unfold Finalize_fuel. rewrite (client_secret_ok _ _ _ _ K), B. rewrite B in H.
  rewrite (loop_scan32 _ secret _ es [] (Datatypes.S (Datatypes.S f0)) F H), find_none_check by exact N.
  change ([] ++ bucket_bytes es) with (bucket_bytes es). change ([] ++ bucket_bytes es ++ check ++ [flag] ++ be32 n ++ rest) with (bucket_bytes es ++ check ++ [flag] ++ be32 n ++ rest).
  set (pre := bucket_bytes es) in *. set (t := check ++ [flag] ++ be32 n ++ rest) in *.
  assert (Lt : blen t = (25 + blen rest)%Z) by (unfold t; rewrite !blen_app; unfold blen; rewrite L, be32_length; cbn [length]; lia).
  unfold holdable32 in H. rewrite blen_app, Lt in H. change (2 ^ 31 - 26)%Z with 2147483622%Z in H.
  change (2 ^ 31)%Z with 2147483648%Z in X. change (2 ^ 32)%Z with 4294967296%Z in X.
  assert (0 <= blen pre)%Z by (unfold blen; lia). assert (0 <= blen rest)%Z by (unfold blen; lia).
  remember (Datatypes.S f0) as f1. cbn [finalize_loop]. change (Z.of_nat HeaderSize) with 25%Z.
  rewrite (wrap32 (blen pre + 25)) by lia.
  destruct (_ <? _)%Z eqn:E1; [rewrite blen_app, Lt in E1; lia|].
  rewrite slice_from_app. cbn [bind]. unfold t at 1. rewrite DecryptHeader_spec by assumption.
  assert (W : int_wrap 32 (blen pre + 25 + int_wrap 32 (Z.of_N n)) = (blen pre + 25 + Z.of_N n - 4294967296)%Z).
  { destruct (Z.lt_ge_cases (Z.of_N n) 2147483648) as [Y|Y].
    - rewrite (wrap32 (Z.of_N n)) by lia. rewrite int_wrap_up by lia. reflexivity.
    - rewrite (int_wrap_up (Z.of_N n)) by (change (2 ^ 32)%N with 4294967296%N in Hn; lia). rewrite wrap32 by lia. lia. }
  rewrite W.
  rewrite (proj2 (Z.ltb_ge (blen (pre ++ t)) (blen pre + 25 + Z.of_N n - 4294967296))) by (rewrite blen_app, Lt; lia).
  destruct (bytes_eqb (key_check secret) check).
  - unfold slice. rewrite (proj2 (Z.ltb_lt (blen pre + 25 + Z.of_N n - 4294967296) (blen pre + 25))) by lia.
    rewrite orb_true_r. cbn [orb bind]. eauto.
  - subst f1. apply negative_offset; [lia|]. rewrite blen_app, Lt. lia.
Qed.
Print Assumptions C83_crash_refuted.

(** 25 bytes that do not depend on the client, its query or the secret. *)
Theorem C83_crash_for_everyone_refuted : forall (LIB : OPRF) (ctx : ClientRequestContext LIB) (resp : ServerResponse) (secret : bytes),
  client_secret ctx resp secret ->
  rs_bucketContents resp = Some (zeros 21 ++ [Byte.x80; Byte.x00; Byte.x00; Byte.x00]) ->
  forall fuel, exists m, Finalize_fuel 32 (Datatypes.S (Datatypes.S fuel)) ctx resp = Some (Panic m).
Proof.
  intros LIB ctx resp secret K B fuel.
  apply (C83_crash_refuted LIB ctx resp secret [] (zeros 20) Byte.x00 (2 ^ 31) []); auto.
  - reflexivity.
  - rewrite B. reflexivity.
  - rewrite B. unfold holdable32, blen. cbn. lia.
  - cbn. lia.
  - cbn. lia.
Qed.
Print Assumptions C83_crash_for_everyone_refuted.

(** Neither case is empty: the buckets of [ex_db], however they are stored, and that bucket. *)
Lemma lookup_bytes (kv : kvStore) id : (length (sl (kv_lookup kv id)) <= store_bytes kv)%nat.
Proof.
  induction kv as [|[k v] kv IH]; cbn [kv_lookup store_bytes fold_right snd]; [cbn; lia|]. fold (store_bytes kv).
  destruct (bytes_eqb _ _); cbn [sl]; lia.
Qed.

Example C83_example :
  (forall kv id, store_all ex_server newKVStore ex_db = Ok kv -> holdable32 (sl (kv_lookup kv id)))
  /\ holdable32 (bucket_bytes [mkEntry (zeros 20) Byte.x01 (str "x")] ++ str "tail")
  /\ far_overrun (zeros 21 ++ [Byte.x80; Byte.x00; Byte.x00; Byte.x00])
  /\ ~ far_overrun (bucket_bytes [mkEntry (zeros 20) Byte.x01 (str "x")]).
Proof.
  assert (F : Forall entry_ok [mkEntry (zeros 20) Byte.x01 (str "x")]).
  { constructor; [|constructor]. split; [reflexivity|]. vm_compute. reflexivity. }
  split; [|split; [vm_compute; discriminate|split]].
  - intros kv id H. apply stored_size in H. pose proof (lookup_bytes kv id) as B. rewrite H in B.
    unfold holdable32, blen. change (store_bytes newKVStore) with 0%nat in B.
    change (entries_bytes ex_db) with 113%nat in B. change (2 ^ 31 - 26)%Z with 2147483622%Z. lia.
  - exists [], (zeros 20), Byte.x00, (2 ^ 31)%N, []. repeat split; auto; cbn; lia.
  - apply (bucket_of_entries32 _ _ F eq_refl). vm_compute. discriminate.
Qed.
