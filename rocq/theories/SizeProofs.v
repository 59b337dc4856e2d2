(** Proofs for C73: sizes of requests and responses. *)
From Coq Require Import Lia.
From Verif Require Import Base BaseProofs Common CommonProofs Hex Base64 Json ConfigJson Hasher Encryptor Oprf Server Client OprfGroup KV Scanner Demo Main.
Local Open Scope N_scope.

Lemma safe_quote s : forallb html_safe s = true -> length (json_quote s) = (2 + length s)%nat.
Proof.
  intros H. unfold json_quote. cbn [length]. rewrite app_length. cbn [length].
  assert (E : quote_body 0 s = s); [|rewrite E; lia].
  induction s as [|c s IH]; [reflexivity|]. cbn [forallb] in H. apply andb_true_iff in H as [A H]. cbn [quote_body].
  assert (B : (bN c <? 128) = true) by (unfold html_safe in A; rewrite !andb_true_iff in A; apply A).
  rewrite B, A. cbn [app]. f_equal. apply IH, H.
Qed.
Lemma b64_char_safe n : html_safe (b64_char n) = true.
Proof.
  unfold b64_char. destruct (N.ltb_spec n 26) as [L|L].
  - assert (K : forall i, (i < 26)%nat -> html_safe (nB (65 + N.of_nat i)) = true).
    { intros i Li. do 26 (destruct i as [|i]; [reflexivity|]). lia. }
    specialize (K (N.to_nat n)). rewrite N2Nat.id in K. apply K. lia.
  - destruct (N.ltb_spec n 52) as [L2|L2].
    + assert (K : forall i, (i < 26)%nat -> html_safe (nB (71 + N.of_nat (26 + i))) = true).
      { intros i Li. do 26 (destruct i as [|i]; [reflexivity|]). lia. }
      specialize (K (N.to_nat n - 26)%nat). replace (26 + (N.to_nat n - 26))%nat with (N.to_nat n) in K by lia. rewrite N2Nat.id in K. apply K. lia.
    + destruct (N.ltb_spec n 62) as [L3|L3].
      * assert (K : forall i, (i < 10)%nat -> html_safe (nB (N.of_nat (52 + i) - 4)) = true).
        { intros i Li. do 10 (destruct i as [|i]; [reflexivity|]). lia. }
        specialize (K (N.to_nat n - 52)%nat). replace (52 + (N.to_nat n - 52))%nat with (N.to_nat n) in K by lia. rewrite N2Nat.id in K. apply K. lia.
      * destruct (n =? 62); reflexivity.
Qed.
Lemma b64_safe : forall b, forallb html_safe (b64_encode b) = true.
Proof.
  fix IH 1. intros [|x [|y [|z r]]]; [reflexivity|..]; cbn [b64_encode forallb]; rewrite !b64_char_safe; [reflexivity..|]. exact (IH r).
Qed.
Lemma b64_length : forall b, length (b64_encode b) = (4 * ((length b + 2) / 3))%nat.
Proof.
  fix IH 1. intros [|x [|y [|z r]]]; [reflexivity..|]. cbn [b64_encode length]. rewrite (IH r).
  replace (S (S (S (length r))) + 2)%nat with (length r + 2 + 1 * 3)%nat by lia. rewrite Nat.div_add by lia. lia.
Qed.
Lemma hex_safe b : forallb html_safe (hex_encode b) = true.
Proof.
  apply forallb_forall. intros c K. pose proof (hex_encode_alphabet b) as A. rewrite Forall_forall in A. specialize (A c K).
  vm_compute in A. repeat (destruct A as [<-|A]; [reflexivity|]). contradiction.
Qed.
Lemma request_size v id b :
  length (ClientRequest_marshal (mkClientRequest v (BucketIDToHex id) (Some b))) = (52 + length (dec_N v) + 4 * ((length b + 2) / 3))%nat.
Proof.
  unfold ClientRequest_marshal, json_struct, request_names. cbn [map combine json_fields rq_version rq_bucketID rq_blindElement json_bytes].
  change (json_quote (str "version")) with (str """version"""). change (json_quote (str "bucketID")) with (str """bucketID""").
  change (json_quote (str "blindElement")) with (str """blindElement""").
  repeat (cbn [length]; rewrite ?app_length).
  rewrite !safe_quote by (apply b64_safe || (unfold BucketIDToHex; apply hex_safe)). rewrite b64_length.
  unfold BucketIDToHex. rewrite hex_encode_length. change (length (be32 id)) with 4%nat.
  change (length (str """version""")) with 9%nat. change (length (str """bucketID""")) with 10%nat. change (length (str """blindElement""")) with 14%nat. lia.
Qed.

Lemma request_shape LIB c u p (r : Blind LIB) rq ctx : Request c u p r = Ok (rq, ctx) ->
  exists x b bs id, blind LIB (c_oprfSuite c) [x] [r] = Ok (b :: bs) /\ rq = mkClientRequest (c_version c) (BucketIDToHex id) (Some b).
Proof.
  unfold Request. intros R. apply bind_ok in R as (ser & _ & R). apply bind_ok in R as (x & _ & R). apply bind_ok in R as (bs & B & R).
  destruct bs as [|b bs]; [discriminate R|]. apply bind_ok in R as (id & _ & R). apply Ok_inj, pair_inj in R as [<- _]. exists x, b, bs, id. auto.
Qed.
Lemma client_fields LIB cfg c : NewClient LIB cfg = Ok c -> client_suite LIB (cfg_oprfSuite cfg) = Ok tt /\ c_version c = cfg_version cfg /\ c_oprfSuite c = cfg_oprfSuite cfg.
Proof.
  unfold NewClient. intros N. apply bind_ok in N as (bh & _ & N). apply bind_ok in N as (sh & _ & N). apply bind_ok in N as (be & _ & N).
  apply bind_ok in N as ([] & S & N). apply Ok_inj in N. subst c. auto.
Qed.
Lemma posts_in LIB cfg c (blinds : nat -> Blind LIB) query : NewClient LIB cfg = Ok c -> forall lines i body,
  In body (posts_of (fun i u p => Query_posts cfg u p (blinds i)) query i lines) ->
  exists u p k rq ctx, Request c u p (blinds k) = Ok (rq, ctx) /\ body = ClientRequest_marshal rq.
Proof.
  intros N. induction lines as [|l lines IH]; intros i body I; cbn [posts_of] in I; [contradiction|].
  destruct (split_colon l) as [[u p]|]; [|eapply IH, I]. apply in_app_iff in I as [I|I].
  - unfold Query_posts in I. rewrite N in I. destruct (Request c u p (blinds i)) as [[rq ctx]| |] eqn:R; try contradiction. destruct I as [<-|[]].
    exists u, p, i, rq, ctx. auto.
  - destruct (query i u p); try contradiction. eapply IH, I.
Qed.

Lemma group_blind_size groups s g n xs : (forall s g, groups s = Some g -> group_laws g) -> groups s = Some g -> g_len g = n ->
  forall x r b, blind (group_OPRF groups) s [x] [r] = Ok (b :: xs) -> length b = n.
Proof.
  intros L E <- x r b B. cbn [group_OPRF blind] in B. unfold with_suite in B. rewrite E in B. cbn [combine mapM bind fst snd] in B.
  apply Ok_inj in B. injection B as <- _. apply (gl_len _ (L _ _ E)).
  apply (mul_nonid groups L s); [exact E|eapply scalar_nz; [exact L|exact E]|]. apply gl_hash, (L s), E.
Qed.
