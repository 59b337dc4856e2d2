(** * Properties C08, C09, C10: ClientRequestContext.Finalize
    (pkg/migp/client.go:109-154). *)
From Verif Require Import Base BaseProofs Common Encryptor Oprf OprfGroup Server Client SpecEntry SpecProtocol
  EncryptorProofs FinalizeProofs.

(** ** C08: Finalize is total on hostile responses (64-bit). *)

(** For every context and response there is one outcome, reached within one
    iteration per byte of bucket and unchanged by allowing more, and it is
    not a panic.  Assumed of the OPRF library: its Finalize does not panic. *)
Theorem C08_finalize_total_64bit : forall (LIB : OPRF) (ctx : ClientRequestContext LIB) (resp : ServerResponse),
  (forall s xs rs l i m, unblind LIB s xs rs l i <> Panic m) ->
  holdable (sl (rs_bucketContents resp)) ->
  (forall fuel, (length (sl (rs_bucketContents resp)) < fuel)%nat ->
     Finalize_fuel 64 fuel ctx resp = Some (Finalize ctx resp))
  /\ forall m, Finalize ctx resp <> Panic m.
Proof. exact finalize_total. Qed.
Print Assumptions C08_finalize_total_64bit.

(** On a 32-bit platform a 25-byte bucket makes the loop run forever: no
    number of iterations is enough, for every client whose key check is not
    twenty zero bytes. *)
Theorem C08_finalize_diverges_32bit_refuted : forall (LIB : OPRF) (ctx : ClientRequestContext LIB) (resp : ServerResponse) (secret : bytes),
  client_secret ctx resp secret -> key_check secret <> zeros 20 ->
  rs_bucketContents resp = Some (zeros 21 ++ [Byte.xff; Byte.xff; Byte.xff; Byte.xe7]) ->
  forall fuel, Finalize_fuel 32 fuel ctx resp = None.
Proof. exact finalize_diverges_32. Qed.
Print Assumptions C08_finalize_diverges_32bit_refuted.

(** ... and a header that matches and has a length of 2^31 makes it panic. *)
Theorem C08_finalize_panics_32bit_refuted : forall (LIB : OPRF) (ctx : ClientRequestContext LIB) (resp : ServerResponse) (secret : bytes),
  client_secret ctx resp secret ->
  rs_bucketContents resp = Some (key_check secret ++ [Byte.x00; Byte.x80; Byte.x00; Byte.x00; Byte.x00]) ->
  forall fuel, exists m, Finalize_fuel 32 (S fuel) ctx resp = Some (Panic m).
Proof. exact finalize_panics_32. Qed.
Print Assumptions C08_finalize_panics_32bit_refuted.

(** The hypotheses are met by a client of the toy OPRF and an honest answer. *)
Definition ex_client : Client :=
  match NewClient toy_OPRF {| cfg_version := 1; cfg_bits := 20; cfg_bucketHasher := 1; cfg_slowHasher := 0;
                              cfg_bucketEncryptor := 1; cfg_oprfSuite := 3 |} with
  | Ok c => c | _ => mkClient 0 0 (Hasher.sha256BucketHasher []) hkdfSHA256BucketEncryptor Hasher.nullSlowHasher 0 end.
Definition ex_ctx : ClientRequestContext toy_OPRF :=
  match @Request toy_OPRF ex_client (str "alice") (str "pw") 5%N with Ok (_, ctx) => ctx | _ => mkContext ex_client [] [] end.
Definition ex_element : bytes :=
  match @Request toy_OPRF ex_client (str "alice") (str "pw") 5%N with
  | Ok (rq, _) => match evaluate toy_OPRF 3 (toy_key 3) [sl (rq_blindElement rq)] OprfInfo with
                  | Ok (e :: _) => e | _ => [] end
  | _ => [] end.
Definition ex_secret : bytes :=
  match full_evaluate toy_OPRF 3 (toy_key 3)
    (match serializeUsernamePassword (str "alice") (str "pw") with Ok s => s | _ => [] end) OprfInfo with
  | Ok y => y | _ => [] end.
Definition ex_resp (bucket : bytes) : ServerResponse :=
  {| rs_version := 1; rs_evaluatedElement := ex_element; rs_bucketContents := Some bucket |}.

Example C08_example : forall bucket, client_secret ex_ctx (ex_resp bucket) ex_secret /\ key_check ex_secret <> zeros 20.
Proof.
  intros bucket. split; [split; [reflexivity|]|].
  - exists []. vm_compute. reflexivity.
  - vm_compute. discriminate.
Qed.

(** ** C09: Finalize reports the first matching entry. *)
Theorem C09_first_match : forall (LIB : OPRF) (ctx : ClientRequestContext LIB) (resp : ServerResponse)
    (secret : bytes) (before : list entry) (e : entry) (after : bytes),
  client_secret ctx resp secret ->
  sl (rs_bucketContents resp) = bucket_bytes before ++ entry_bytes e ++ after ->
  holdable (sl (rs_bucketContents resp)) ->
  Forall entry_ok before -> entry_ok e ->
  Forall (fun b => e_check b <> key_check secret) before -> e_check e = key_check secret ->
  ((blen (e_body e) <= 8160)%Z -> Finalize ctx resp = Ok (reported secret e))
  /\ ((8160 < blen (e_body e))%Z -> exists m, Finalize ctx resp = Err m).
Proof. exact finalize_first_match. Qed.
Print Assumptions C09_first_match.

Theorem C09_no_match : forall (LIB : OPRF) (ctx : ClientRequestContext LIB) (resp : ServerResponse)
    (secret : bytes) (es : list entry),
  client_secret ctx resp secret ->
  sl (rs_bucketContents resp) = bucket_bytes es ->
  holdable (sl (rs_bucketContents resp)) ->
  Forall entry_ok es -> Forall (fun b => e_check b <> key_check secret) es ->
  Finalize ctx resp = Ok (NotInBreach, None).
Proof. exact finalize_no_match. Qed.
Print Assumptions C09_no_match.

Example C09_example :
  let e1 := make_entry (str "other secret") Byte.x01 (str "x") in
  let e2 := make_entry ex_secret Byte.x01 (str "first") in
  let e3 := make_entry ex_secret Byte.x02 (str "second") in
  Finalize ex_ctx (ex_resp (bucket_bytes [e1; e2; e3] ++ str "junk")) = Ok (InBreach, Some (str "first"))
  /\ Forall entry_ok [e1; e2; e3] /\ e_check e1 <> key_check ex_secret.
Proof.
  cbv zeta. split; [vm_compute; reflexivity|]. split; [|vm_compute; discriminate].
  repeat constructor; apply make_entry_ok; vm_compute; discriminate.
Qed.

(** ** C10: truncated or corrupt buckets. *)

(** Every byte string is whole entries followed by a short tail or by a
    header that overruns the data, in exactly one way. *)
Theorem C10_decomposition : forall s : bytes,
  exists es t, s = bucket_bytes es ++ t /\ Forall entry_ok es /\ (short_tail t \/ overrun_tail t)
    /\ forall es' t', s = bucket_bytes es' ++ t' -> Forall entry_ok es' -> (short_tail t' \/ overrun_tail t') ->
         es' = es /\ t' = t.
Proof. exact bucket_decomposition. Qed.
Print Assumptions C10_decomposition.

Theorem C10_short_tail_ignored : forall (LIB : OPRF) (ctx : ClientRequestContext LIB) (resp : ServerResponse)
    (secret : bytes) (es : list entry) (t : bytes),
  client_secret ctx resp secret ->
  sl (rs_bucketContents resp) = bucket_bytes es ++ t -> holdable (sl (rs_bucketContents resp)) ->
  Forall entry_ok es -> short_tail t ->
  Forall (fun b => e_check b <> key_check secret) es ->
  Finalize ctx resp = Ok (NotInBreach, None).
Proof. exact finalize_short_tail. Qed.
Print Assumptions C10_short_tail_ignored.

Theorem C10_overrun_is_an_error : forall (LIB : OPRF) (ctx : ClientRequestContext LIB) (resp : ServerResponse)
    (secret : bytes) (es : list entry) (t : bytes),
  client_secret ctx resp secret ->
  sl (rs_bucketContents resp) = bucket_bytes es ++ t -> holdable (sl (rs_bucketContents resp)) ->
  Forall entry_ok es -> overrun_tail t ->
  Forall (fun b => e_check b <> key_check secret) es ->
  Finalize ctx resp = Err "parsing error in bucket".
Proof. exact finalize_overrun_tail. Qed.
Print Assumptions C10_overrun_is_an_error.

(** Both kinds of tail occur (an earlier match is reported by C09 whatever
    follows it). *)
Example C10_example : short_tail (zeros 24) /\ overrun_tail (zeros 21 ++ be32 1)
  /\ Finalize ex_ctx (ex_resp (zeros 21 ++ be32 1)) = Err "parsing error in bucket"
  /\ Finalize ex_ctx (ex_resp (zeros 24)) = Ok (NotInBreach, None).
Proof.
  split; [vm_compute; lia|]. split; [|split; vm_compute; reflexivity].
  exists (zeros 20), Byte.x00, 1%N, []. repeat split; vm_compute; congruence.
Qed.
