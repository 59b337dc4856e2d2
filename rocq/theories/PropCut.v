(** * Property C88: what was cut off is not taken for the whole.  A writer that
    is killed, a full disk or a broken connection leaves the first part of a
    document.  A cut configuration or request is refused, wherever it was cut;
    a cut response is refused or has a shorter bucket, and then the answer is
    that of the whole, an error, or 'not in breach': never another finding. *)
From Coq Require Import Lia.
From Verif Require Import Base BaseProofs Common Oprf OprfGroup Hasher Server Client KV Json ConfigJson Scanner Demo Flags Main SpecEntry SpecProtocol SpecJson SpecDecode SpecDemo SpecMain SpecConc
  JsonGrammar DecodeProofs SentProofs HttpProofs FinalizeProofs WireProofs StableProofs CutProofs PropFinalize PropProtocol PropWire PropMain.

(** ** The first part of a JSON document is a JSON document only if what is
    missing is white space (a number is the exception: 12 is a part of 123). *)
Theorem C88_cut_json : forall (a b : bytes) (j k : json),
  json_accepted (a ++ b) j -> (forall l, j <> JNum l) -> json_accepted a k -> json_space b.
Proof. exact cut_document. Qed.
Print Assumptions C88_cut_json.

(** ** Both programs refuse the first part of a dumped configuration. *)
Theorem C88_cut_client_configuration : forall (LIB : OPRF) (c : Config) (a b : bytes), Config_marshal c = a ++ b -> b <> [] ->
  forall (args : list bytes) (o : client_opts) (fs : files) (net : network) (blinds : nat -> Blind LIB),
  client_flags args = FParsed o -> co_config o <> [] -> f_open fs (co_config o) = Some a ->
  client_program args fs net blinds = mkClientResult 1 [].
Proof.
  intros LIB c a b E NE args o fs net blinds F NC O. destruct (config_cut 64 c a b E NE) as (e & X).
  unfold client_program, client_body, client_config. rewrite F. destruct (co_config o) as [|q l]; [congruence|]. rewrite O, X. reflexivity.
Qed.
Print Assumptions C88_cut_client_configuration.

Theorem C88_cut_server_configuration : forall (LIB : OPRF) (c : ServerConfig LIB) (a b : bytes), ServerConfig_MarshalJSON c = Ok (a ++ b) -> b <> [] ->
  (forall (args : list bytes) (o : server_opts) (fs : files) (gen : res (PrivateKey LIB)),
     server_flags args = FParsed o -> so_config o <> [] -> f_open fs (so_config o) = Some a -> server_program args fs gen = SExit 1 [])
  /\ (forall (args : list bytes) (o : client_opts) (fs : files) (net : network) (blinds : nat -> Blind LIB),
     client_flags args = FParsed o -> co_config o <> [] -> f_open fs (co_config o) = Some a -> client_program args fs net blinds = mkClientResult 1 []).
Proof.
  intros LIB c a b E NE. destruct (server_config_cut LIB 64 c a b E NE) as ((e & X) & (e' & X')). split.
  - intros args o fs gen F NC O. unfold server_program, server_body, server_config. rewrite F. destruct (so_config o) as [|q l]; [congruence|]. rewrite O, X. reflexivity.
  - intros args o fs net blinds F NC O. unfold client_program, client_body, client_config. rewrite F. destruct (co_config o) as [|q l]; [congruence|]. rewrite O, X'. reflexivity.
Qed.
Print Assumptions C88_cut_server_configuration.

(** ** From the network: a client that gets the first part [a] of the server's
    configuration page exits with status 1, unless only the line end is lost. *)
Theorem C88_cut_page : forall (LIB : OPRF) (c : Config) (a b : bytes), Config_marshal c ++ [Byte.x0a] = a ++ b -> (length a < length (Config_marshal c))%nat ->
  forall (args : list bytes) (o : client_opts) (fs : files) (net : network) (blinds : nat -> Blind LIB),
  client_flags args = FParsed o -> co_config o = [] -> n_get net (co_target o ++ str "/config") = Ok (200%N, a) ->
  client_program args fs net blinds = mkClientResult 1 [].
Proof.
  intros LIB c a b E L args o fs net blinds F NC O. unfold client_program, client_body, client_config. rewrite F, NC, O. cbn [bind].
  change (negb (200 =? 200)%N) with false. cbv iota. destruct (Config_decode 64 a) as [c'|e|e] eqn:D; [|reflexivity|].
  - exfalso. destruct (config_stream_cut c a b _ c' E D) as [r R]. rewrite R, app_length in L. lia.
  - exfalso. unfold Config_decode in D. destruct (parse_value _ _ _) as [[[] ?]|]; try discriminate. destruct (decode_members _ _ _ _ _) as [? []]; discriminate.
Qed.
Print Assumptions C88_cut_page.

(** ** The server answers the first part of a client's request with status 400. *)
Theorem C88_cut_request : forall (LIB : OPRF), OPRF_laws LIB ->
  forall (srv : server LIB) (c : Client) (u p : bytes) (r : Blind LIB) (rq : ClientRequest) (ctx : ClientRequestContext LIB) (a b : bytes),
  Request c u p r = Ok (rq, ctx) -> ClientRequest_marshal rq = a ++ b -> b <> [] ->
  exists w, handleEvaluate srv (Ok a) = Ok w /\ fst (response_of w) = 400%N.
Proof.
  intros LIB laws srv c u p r rq ctx a b R E NE. apply (bad_bodies LIB laws). intros (j & rq' & J & _). revert J.
  assert (I : exists id b, rq = mkClientRequest (c_version c) (BucketIDToHex id) (Some b)).
  { revert R. unfold Request. destruct (serializeUsernamePassword u p); cbn [bind]; [|discriminate..]. destruct (SlowHasher_Hash _ _); cbn [bind]; [|discriminate..].
    destruct (blind _ _ _ _) as [[|e es]| |]; cbn [bind]; [discriminate| |discriminate..]. destruct (Client_BucketID c u) as [id| |]; cbn [bind]; [|discriminate..].
    intros R. apply Ok_inj, pair_inj in R as [<- _]. eauto. }
  destruct I as (id & el & ->). eapply request_cut; [|exact E|exact NE]. unfold BucketIDToHex. apply hex_ascii.
Qed.
Print Assumptions C88_cut_request.

(** ** Responses (of the default suite, the only one that can be read): below 37
    bytes the cut response is refused; above, its bucket is a first part. *)
Theorem C88_cut_response : forall LIB : OPRF, elt_size LIB 3 = Ok 33%nat ->
  forall (a b : bytes) (r : ServerResponse), UnmarshalBinary LIB (a ++ b) = Ok r ->
  ((length a < 37)%nat -> exists e, UnmarshalBinary LIB a = Err e)
  /\ ((37 <= length a)%nat -> exists r', UnmarshalBinary LIB a = Ok r' /\ rs_version r' = rs_version r /\ rs_evaluatedElement r' = rs_evaluatedElement r
       /\ sl (rs_bucketContents r) = sl (rs_bucketContents r') ++ b).
Proof.
  intros LIB EL a b r U. split; [intros L; apply (C21_unmarshal_fails_exactly_below_37 LIB EL); exact L|apply (response_cut LIB EL a b r U)].
Qed.
Print Assumptions C88_cut_response.

(** The answer read from a cut response is that of the whole or 'not in breach'. *)
Theorem C88_cut_answer : forall (LIB : OPRF) (ctx : ClientRequestContext LIB) (r r' : ServerResponse) (answer : BreachStatus * gslice),
  rs_version r' = rs_version r -> rs_evaluatedElement r' = rs_evaluatedElement r ->
  prefix_of (sl (rs_bucketContents r')) (sl (rs_bucketContents r)) -> holdable (sl (rs_bucketContents r)) ->
  Finalize ctx r' = Ok answer -> answer = (NotInBreach, None) \/ Finalize ctx r = Ok answer.
Proof. exact @cut_answer. Qed.
Print Assumptions C88_cut_answer.

(** Which of the three it is depends on where the cut falls in relation to the
    client's own entry [e]: in or before its header of 25 bytes (right after a
    whole entry) the answer is silently 'not in breach'; in its body it is an
    error; behind it, it is that of the whole. *)
Theorem C88_where_the_cut_falls : forall (LIB : OPRF) (ctx : ClientRequestContext LIB) (r r' : ServerResponse) (secret : bytes) (before : list entry) (e : entry) (after : bytes) (n : nat),
  client_secret ctx r secret -> sl (rs_bucketContents r) = bucket_bytes before ++ entry_bytes e ++ after -> holdable (sl (rs_bucketContents r)) ->
  Forall entry_ok before -> entry_ok e -> Forall (fun x => e_check x <> key_check secret) before -> e_check e = key_check secret -> (blen (e_body e) <= 8160)%Z ->
  rs_version r' = rs_version r -> rs_evaluatedElement r' = rs_evaluatedElement r ->
  sl (rs_bucketContents r') = firstn (length (bucket_bytes before) + n) (sl (rs_bucketContents r)) ->
  Finalize ctx r = Ok (reported secret e)
  /\ Finalize ctx r' = (if (n <? 25)%nat then Ok (NotInBreach, None) else if (n <? length (entry_bytes e))%nat then Err "parsing error in bucket" else Ok (reported secret e)).
Proof.
  intros LIB ctx r r' secret before e after n K B H Ob Oe N Q Lb V E C.
  assert (K' : client_secret ctx r' secret) by (eapply same_secret; [symmetry; exact V|symmetry; exact E|exact K]).
  assert (H' : holdable (sl (rs_bucketContents r'))). { unfold holdable, blen in *. rewrite C, firstn_length. lia. }
  rewrite B, firstn_app_2 in C. split; [apply (finalize_first_match LIB ctx r secret before e after K B H Ob Oe N Q); exact Lb|].
  destruct (Nat.ltb_spec n 25) as [L|L].
  { apply (finalize_short_tail LIB ctx r' secret before _ K' C H' Ob); [|exact N]. unfold short_tail. rewrite firstn_length. lia. }
  destruct (Nat.ltb_spec n (length (entry_bytes e))) as [L2|L2].
  - apply (finalize_overrun_tail LIB ctx r' secret before _ K' C H' Ob); [|exact N].
    rewrite firstn_app. replace (n - length (entry_bytes e)) with 0 by lia. rewrite firstn_O, app_nil_r. apply entry_cut; assumption.
  - rewrite firstn_app, (firstn_all2 (entry_bytes e)) in C by exact L2.
    apply (finalize_first_match LIB ctx r' secret before e _ K' C H' Ob Oe N Q). exact Lb.
Qed.
Print Assumptions C88_where_the_cut_falls.

(** ** Input lines have no such protection: an input cut in the middle of a line
    gives the lines before it as the whole does, and then the piece of the cut
    line as if it were a line: with a colon in it, a credential with a cut
    password that the whole input need not have. *)
Theorem C88_cut_input : forall (ls : list bytes) (piece missing : bytes) (more : list bytes) (last : bytes),
  Forall (fun l => no_lf l /\ (blen l < 65536)%Z) (ls ++ (piece ++ missing) :: more ++ [last]) ->
  (exists rest, text (ls ++ (piece ++ missing) :: more) last = text ls piece ++ missing ++ rest)
  /\ (exists others, with_colon (scan_lines (text (ls ++ (piece ++ missing) :: more) last)) = with_colon (scan_lines (text ls [])) ++ others)
  /\ (~ In Byte.x3a piece -> with_colon (scan_lines (text ls piece)) = with_colon (scan_lines (text ls [])))
  /\ (In Byte.x3a piece -> exists u p, with_colon (scan_lines (text ls piece)) = with_colon (scan_lines (text ls [])) ++ [(u, p)]
        /\ ~ In Byte.x3a u /\ (piece = u ++ [Byte.x3a] ++ p \/ piece = u ++ [Byte.x3a] ++ p ++ [Byte.x0d])).
Proof. exact input_cut. Qed.
Print Assumptions C88_cut_input.

Example C88_example_input : with_colon (scan_lines (text [str "alice:secret"] (str "bob:pass")))
  = [(str "alice", str "secret"); (str "bob", str "pass")]
  /\ with_colon (scan_lines (text [str "alice:secret"; str "bob:password"] [])) = [(str "alice", str "secret"); (str "bob", str "password")].
Proof. split; vm_compute; reflexivity. Qed.

(** ** Cases.  A dumped configuration cut in the middle; a response with two
    entries of which the second is the client's: whole, cut in the second body,
    and cut after the first entry, which goes unnoticed. *)
Example C88_example :
  (exists a b ms, Config_marshal ex_cfg = a ++ b /\ length a = 60 /\ b <> [] /\ json_accepted (a ++ b) (JObj ms))
  /\ (exists a b, ex_conf = a ++ b /\ length a = 60 /\ b <> []
        /\ match @server_program toy_OPRF ex_sargs (mkFiles (fun _ => Some a) []) (Err "unused") with SExit 1 [] => True | _ => False end).
Proof.
  split.
  - destruct (config_accepted ex_cfg) as (ms & A). exists (firstn 60 (Config_marshal ex_cfg)), (skipn 60 (Config_marshal ex_cfg)), ms.
    split; [symmetry; apply firstn_skipn|]. split; [vm_compute; reflexivity|]. split; [vm_compute; discriminate|]. rewrite firstn_skipn. exact A.
  - exists (firstn 60 ex_conf), (skipn 60 ex_conf). split; [symmetry; apply firstn_skipn|]. split; [vm_compute; reflexivity|]. split; [vm_compute; discriminate|]. vm_compute. exact Logic.I.
Qed.
Example C88_example_response :
  let e1 := make_entry (str "other secret") Byte.x01 (str "x") in
  let e2 := make_entry ex_secret Byte.x01 (str "mine") in
  let bucket := bucket_bytes [e1; e2] in
  length (bucket_bytes [e1]) = 26 /\ length bucket = 55
  /\ Finalize ex_ctx (ex_resp bucket) = Ok (InBreach, Some (str "mine"))
  /\ Finalize ex_ctx (ex_resp (firstn (26 + 28) bucket)) = Err "parsing error in bucket"
  /\ Finalize ex_ctx (ex_resp (firstn (26 + 0) bucket)) = Ok (NotInBreach, None)
  /\ Forall entry_ok [e1; e2] /\ e_check e1 <> key_check ex_secret /\ e_check e2 = key_check ex_secret.
Proof.
  cbv zeta. do 5 (split; [vm_compute; reflexivity|]). split; [repeat constructor; apply make_entry_ok; vm_compute; discriminate|]. split; [vm_compute; discriminate|reflexivity].
Qed.
