(** * Properties C19, C20, C21, C22: HandleRequest and the binary response
    (pkg/migp/server.go:165-250, pkg/migp/client.go:109-124). *)
From Verif Require Import Base BaseProofs Common Oprf OprfGroup Server Client KV SpecEntry SpecProtocol
  ProtocolProofs WireProofs PropFinalize PropProtocol.

(** ** C19: the version check compares the low 16 bits. *)

(** A mismatch is an error whatever the element, the store and the library do
    (so nothing is evaluated or read). *)
Theorem C19_wrong_version_refused : forall (LIB : OPRF) (s : Server LIB) (rq : ClientRequest) (kv : Getter),
  (rq_version rq mod 2 ^ 16 <> s_version s)%N ->
  HandleRequest s rq kv = Err "requested version doesn't match server version".
Proof. exact handle_wrong_version. Qed.
Print Assumptions C19_wrong_version_refused.

(** Whatever is accepted matched in the low 16 bits, and the full version is
    echoed. *)
Theorem C19_accepted_version_matches_and_is_echoed : forall (LIB : OPRF) (s : Server LIB) (rq : ClientRequest) (kv : Getter) resp,
  HandleRequest s rq kv = Ok resp ->
  (rq_version rq mod 2 ^ 16 = s_version s)%N /\ rs_version resp = rq_version rq
  /\ well_formed_hex (rq_bucketID rq) /\ kv (rq_bucketID rq) = Ok (rs_bucketContents resp)
  /\ exists es, evaluate LIB (s_oprfSuite s) (s_privateKey s) [sl (rq_blindElement rq)] (str "MIGP oprf info")
                = Ok (rs_evaluatedElement resp :: es).
Proof. exact handle_inv. Qed.
Print Assumptions C19_accepted_version_matches_and_is_echoed.

(** The high 16 bits change nothing but the echo. *)
Theorem C19_high_bits_ignored : forall (LIB : OPRF) (s : Server LIB) (rq : ClientRequest) (kv : Getter) (v : N),
  (v mod 2 ^ 16 = rq_version rq mod 2 ^ 16)%N ->
  HandleRequest s {| rq_version := v; rq_bucketID := rq_bucketID rq; rq_blindElement := rq_blindElement rq |} kv
  = (resp <- HandleRequest s rq kv ;;
     Ok {| rs_version := v; rs_evaluatedElement := rs_evaluatedElement resp; rs_bucketContents := rs_bucketContents resp |}).
Proof. exact handle_version_low_bits. Qed.
Print Assumptions C19_high_bits_ignored.

Theorem C19_finalize_wrong_version_refused : forall (LIB : OPRF) (ctx : ClientRequestContext LIB) (resp : ServerResponse),
  (rs_version resp mod 2 ^ 16 <> c_version (ctx_client ctx))%N -> Finalize ctx resp = Err "wrong version in reply".
Proof. exact finalize_wrong_version. Qed.
Print Assumptions C19_finalize_wrong_version_refused.

Theorem C19_finalize_high_bits_ignored : forall (LIB : OPRF) (ctx : ClientRequestContext LIB) (resp : ServerResponse) (v : N),
  (v mod 2 ^ 16 = rs_version resp mod 2 ^ 16)%N ->
  Finalize ctx {| rs_version := v; rs_evaluatedElement := rs_evaluatedElement resp; rs_bucketContents := rs_bucketContents resp |}
  = Finalize ctx resp.
Proof. exact finalize_version_low_bits. Qed.
Print Assumptions C19_finalize_high_bits_ignored.

(** A version-1 server accepts version 65537 and refuses 2. *)
Definition ex_request : ClientRequest :=
  match request_of (str "alice") (str "pw") 5 with Some rq => rq | None => mkClientRequest 0 [] None end.
Definition with_version (v : N) (rq : ClientRequest) : ClientRequest :=
  {| rq_version := v; rq_bucketID := rq_bucketID rq; rq_blindElement := rq_blindElement rq |}.
Example C19_example :
  match HandleRequest ex_server (with_version 65537 ex_request) (kv_Get ex_kv) with
  | Ok resp => rs_version resp = 65537%N /\ Finalize ex_ctx resp = Ok (UsernameInBreach, Some (str "first"))
  | _ => False end
  /\ (exists m, HandleRequest ex_server (with_version 2 ex_request) (kv_Get ex_kv) = Err m).
Proof. split; [vm_compute; split; reflexivity|]. eexists. vm_compute. reflexivity. Qed.

(** ** C20: HandleRequest returns exactly the stored bucket. *)
Theorem C20_exact_bucket : forall (LIB : OPRF) (s : Server LIB) (rq : ClientRequest) (kv : Getter) e es v,
  (rq_version rq mod 2 ^ 16 = s_version s)%N ->
  evaluate LIB (s_oprfSuite s) (s_privateKey s) [sl (rq_blindElement rq)] (str "MIGP oprf info") = Ok (e :: es) ->
  well_formed_hex (rq_bucketID rq) -> kv (rq_bucketID rq) = Ok v ->
  HandleRequest s rq kv = Ok {| rs_version := rq_version rq; rs_evaluatedElement := e; rs_bucketContents := v |}.
Proof. exact handle_ok. Qed.
Print Assumptions C20_exact_bucket.

Theorem C20_bad_hex_refused : forall (LIB : OPRF) (s : Server LIB) (rq : ClientRequest) (kv : Getter),
  (forall l i m, evaluate LIB (s_oprfSuite s) (s_privateKey s) l i <> Panic m) ->
  ~ well_formed_hex (rq_bucketID rq) -> exists m, HandleRequest s rq kv = Err m.
Proof. exact handle_bad_hex. Qed.
Print Assumptions C20_bad_hex_refused.

(** Only the requested key is read. *)
Theorem C20_only_the_requested_bucket : forall (LIB : OPRF) (s : Server LIB) (rq : ClientRequest) (kv kv' : Getter),
  kv (rq_bucketID rq) = kv' (rq_bucketID rq) -> HandleRequest s rq kv = HandleRequest s rq kv'.
Proof. exact handle_one_key. Qed.
Print Assumptions C20_only_the_requested_bucket.

(** No request makes it panic. *)
Theorem C20_never_panics : forall (LIB : OPRF) (s : Server LIB) (rq : ClientRequest) (kv : Getter) m,
  (forall l i m, evaluate LIB (s_oprfSuite s) (s_privateKey s) l i <> Panic m) ->
  (forall id m, kv id <> Panic m) -> HandleRequest s rq kv <> Panic m.
Proof. exact handle_np. Qed.
Print Assumptions C20_never_panics.

(** An ID that is accepted as hex but is not 8 lower-case digits finds
    nothing in a store the server filled (e.g. an upper-case bucket ID). *)
Theorem C20_non_canonical_id_finds_nothing : forall (LIB : OPRF) (s : Server LIB) (db : list cred) (kv : kvStore) (id : bytes),
  store_all s newKVStore db = Ok kv ->
  (length id <> 8%nat \/ forallb (fun c => existsb (beqb c) (str "0123456789abcdef")) id = false) ->
  kv_lookup kv id = None.
Proof. exact lookup_not_canonical. Qed.
Print Assumptions C20_non_canonical_id_finds_nothing.

Definition with_bucket (id : bytes) (rq : ClientRequest) : ClientRequest :=
  {| rq_version := rq_version rq; rq_bucketID := id; rq_blindElement := rq_blindElement rq |}.
Definition contents (r : res ServerResponse) : option gslice :=
  match r with Ok resp => Some (rs_bucketContents resp) | _ => None end.
Example C20_example :
  let ask id kv := contents (HandleRequest ex_server (with_bucket (str id) ex_request) (kv_Get kv)) in
  let kv := kv_Append (kv_Append newKVStore (str "000abcde") [Byte.x01]) (str "000abcdf") [Byte.x02] in
  ask "000abcde"%string kv = Some (Some [Byte.x01]) /\ ask "000abcd0"%string kv = Some None
  /\ ask "000ABCDE"%string kv = Some None /\ ask "000abcd"%string kv = None /\ ask "000abcdg"%string kv = None.
Proof. vm_compute. repeat split; reflexivity. Qed.

(** ** C21: the binary response format round-trips. *)
Theorem C21_roundtrip : forall LIB : OPRF, elt_size LIB 3 = Ok 33%nat ->
  forall r : ServerResponse, (rs_version r < 2 ^ 32)%N -> length (rs_evaluatedElement r) = 33%nat ->
  exists d, MarshalBinary r = Ok d /\
    UnmarshalBinary LIB d = Ok {| rs_version := rs_version r; rs_evaluatedElement := rs_evaluatedElement r;
                                  rs_bucketContents := Some (sl (rs_bucketContents r)) |}.
Proof. exact wire_roundtrip. Qed.
Print Assumptions C21_roundtrip.

Theorem C21_unmarshal_fails_exactly_below_37 : forall LIB : OPRF, elt_size LIB 3 = Ok 33%nat ->
  forall d : bytes, (exists m, UnmarshalBinary LIB d = Err m) <-> (length d < 37)%nat.
Proof. exact unmarshal_fails_iff. Qed.
Print Assumptions C21_unmarshal_fails_exactly_below_37.

Theorem C21_remarshal : forall LIB : OPRF, elt_size LIB 3 = Ok 33%nat ->
  forall d : bytes, (37 <= length d)%nat ->
  exists r, UnmarshalBinary LIB d = Ok r /\ MarshalBinary r = Ok d /\ (rs_version r < 2 ^ 32)%N
    /\ length (rs_evaluatedElement r) = 33%nat /\ rs_bucketContents r <> None.
Proof. exact unmarshal_long. Qed.
Print Assumptions C21_remarshal.

Example C21_example : elt_size toy_OPRF 3 = Ok 33%nat
  /\ UnmarshalBinary toy_OPRF (be32 1 ++ repeat Byte.x05 33 ++ [Byte.x07])
     = Ok {| rs_version := 1; rs_evaluatedElement := repeat Byte.x05 33; rs_bucketContents := Some [Byte.x07] |}.
Proof. split; reflexivity. Qed.

(** ** C22: the format is tied to the default suite. *)
Theorem C22_other_suites_never_roundtrip : forall LIB : OPRF, elt_size LIB 3 = Ok 33%nat ->
  forall (r : ServerResponse) (d : bytes) (r' : ServerResponse), length (rs_evaluatedElement r) <> 33%nat ->
  MarshalBinary r = Ok d -> UnmarshalBinary LIB d = Ok r' ->
  rs_evaluatedElement r' <> rs_evaluatedElement r /\ sl (rs_bucketContents r') <> sl (rs_bucketContents r).
Proof. exact wire_other_length. Qed.
Print Assumptions C22_other_suites_never_roundtrip.

Theorem C22_cut_at_33 : forall LIB : OPRF, elt_size LIB 3 = Ok 33%nat ->
  forall r : ServerResponse, (rs_version r < 2 ^ 32)%N ->
  (33 <= length (rs_evaluatedElement r ++ sl (rs_bucketContents r)))%nat ->
  exists d, MarshalBinary r = Ok d /\
    UnmarshalBinary LIB d = Ok {| rs_version := rs_version r;
      rs_evaluatedElement := firstn 33 (rs_evaluatedElement r ++ sl (rs_bucketContents r));
      rs_bucketContents := Some (skipn 33 (rs_evaluatedElement r ++ sl (rs_bucketContents r))) |}.
Proof. exact wire_cut. Qed.
Print Assumptions C22_cut_at_33.

Example C22_example :
  UnmarshalBinary toy_OPRF (be32 1 ++ repeat Byte.x05 49 ++ [Byte.x07])
  = Ok {| rs_version := 1; rs_evaluatedElement := repeat Byte.x05 33;
          rs_bucketContents := Some (repeat Byte.x05 16 ++ [Byte.x07]) |}.
Proof. reflexivity. Qed.
