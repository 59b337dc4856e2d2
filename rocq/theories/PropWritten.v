(** * Property C90: the exact bytes that are written.  The client's output
    lines, its requests, the configuration page and both dumped configurations
    are determined to the byte: the members in this order, no white space,
    decimal numbers, base64 with padding, and text escaped as SpecWritten.v says
    ([written s t]: the bytes s are written as t).  So they can be compared,
    signed or searched as text. *)
From Coq Require Import Lia.
From Verif Require Import Base BaseProofs Common Oprf OprfGroup Hasher Server Client KV Json ConfigJson Demo Main SpecEntry SpecProtocol SpecJson SpecDecode SpecMain
  JsonProofs SentProofs SizeProofs Utf8Proofs SpecWritten WrittenProofs PropFinalize PropProtocol.
Local Open Scope N_scope.

(** The pieces of text between the values. *)
Lemma quoted_eq t : quoted t = Byte.x22 :: t ++ [Byte.x22].
Proof. reflexivity. Qed.
Lemma quote_eq s : json_quote s = Byte.x22 :: quote_body 0 s ++ [Byte.x22].
Proof. reflexivity. Qed.
Lemma name_eq k : forallb html_safe k = true -> json_quote k = Byte.x22 :: k ++ [Byte.x22].
Proof. intros H. rewrite quote_eq, (quote_safe k H). reflexivity. Qed.
Lemma first_eq k : str "{""" ++ k ++ str """:" = Byte.x7b :: Byte.x22 :: k ++ [Byte.x22; Byte.x3a].
Proof. reflexivity. Qed.
Lemma next_eq k : str ",""" ++ k ++ str """:" = Byte.x2c :: Byte.x22 :: k ++ [Byte.x22; Byte.x3a].
Proof. reflexivity. Qed.
Ltac names := repeat match goal with |- context [json_quote (str ?k)] => rewrite (name_eq (str k) eq_refl) end.
Ltac flat := repeat (rewrite <- ?app_assoc; cbn [app]).

(** ** Text: there is one way to write it, and UTF-8 text can be read back. *)
Theorem C90_text : forall s : bytes, exists t, written s t /\ (forall t', written s t' -> t' = t)
  /\ forall s', utf8 s -> utf8 s' -> written s' t -> s' = s.
Proof.
  intros s. exists (quote_body 0 s). split; [apply written_quote; reflexivity|]. split; [intros t'; apply written_quote|].
  intros s' U U' W. apply written_quote in W.
  assert (Q : json_quote s = json_quote s') by (unfold json_quote; rewrite W; reflexivity).
  destruct (prints_quote s) as [_ P]. destruct (prints_quote s') as [_ P']. specialize (P 0%nat 0 [] Logic.I). specialize (P' 0%nat 0 [] Logic.I).
  rewrite Q, P' in P. injection P as E. rewrite <- (proj1 (readable_sanitize s' s') (utf8_readable s' U')), <- (proj1 (readable_sanitize s s) (utf8_readable s U)) in E. exact E.
Qed.
Print Assumptions C90_text.

(** ** A line of the client's output (main.go:99-114). *)
Theorem C90_output_line : forall (show : bool) (u p : bytes) (st : BreachStatus) (m : gslice) (tu tp tm : bytes),
  written u tu -> written p tp -> written (sl m) tm ->
  client_output u (if show then p else []) st m
  = str "{""username"":" ++ quoted tu
    ++ (if show then match p with [] => [] | _ => str ",""password"":" ++ quoted tp end else [])
    ++ str ",""status"":" ++ quoted (status_text st)
    ++ match sl m with [] => [] | _ => str ",""metadata"":" ++ quoted tm end
    ++ str "}".
Proof.
  intros show u p st m tu tp tm Wu Wp Wm. apply written_quote in Wu, Wp, Wm. subst.
  assert (S : json_quote (str (BreachStatus_String st)) = quoted (status_text st)) by (destruct st; reflexivity).
  change (str "{""username"":") with (str "{""" ++ str "username" ++ str """:"). change (str ",""password"":") with (str ",""" ++ str "password" ++ str """:").
  change (str ",""status"":") with (str ",""" ++ str "status" ++ str """:"). change (str ",""metadata"":") with (str ",""" ++ str "metadata" ++ str """:"). change (str "}") with [Byte.x7d].
  rewrite first_eq, !next_eq, !quoted_eq. rewrite quoted_eq in S.
  unfold client_output. rewrite S. rewrite (quote_eq u).
  destruct show; [destruct p as [|c p]|]; (destruct (sl m) as [|d m']; unfold json_struct; cbn [app json_fields]; names; rewrite ?(quote_eq (c :: p)), ?(quote_eq (d :: m')); flat; reflexivity).
Qed.
Print Assumptions C90_output_line.

(** ** A request (client.go:168). *)
Theorem C90_request : forall (LIB : OPRF) (c : Client) (u p : bytes) (r : Blind LIB) (rq : ClientRequest) (ctx : ClientRequestContext LIB),
  Request c u p r = Ok (rq, ctx) ->
  exists v el e, plain_natural v (rq_version rq) /\ rq_blindElement rq = Some el /\ base64_exact e el
    /\ ClientRequest_marshal rq = str "{""version"":" ++ v ++ str ",""bucketID"":" ++ quoted (rq_bucketID rq) ++ str ",""blindElement"":" ++ quoted e ++ str "}".
Proof.
  intros LIB c u p r rq ctx R.
  assert (I : exists id b, rq = mkClientRequest (c_version c) (BucketIDToHex id) (Some b)).
  { revert R. unfold Request. destruct (serializeUsernamePassword u p); cbn [bind]; [|discriminate..]. destruct (SlowHasher_Hash _ _); cbn [bind]; [|discriminate..].
    destruct (blind _ _ _ _) as [[|b bs]| |]; cbn [bind]; [discriminate| |discriminate..]. destruct (Client_BucketID c u) as [id| |]; cbn [bind]; [|discriminate..].
    intros R. apply Ok_inj, pair_inj in R as [<- _]. eauto. }
  destruct I as (id & el & ->). exists (dec_N (c_version c)), el, (Base64.b64_encode el). cbn [rq_version rq_bucketID rq_blindElement].
  split; [apply plain_dec|]. split; [reflexivity|]. split; [apply encode_exact|].
  change (str "{""version"":") with (str "{""" ++ str "version" ++ str """:"). change (str ",""bucketID"":") with (str ",""" ++ str "bucketID" ++ str """:").
  change (str ",""blindElement"":") with (str ",""" ++ str "blindElement" ++ str """:"). change (str "}") with [Byte.x7d].
  rewrite first_eq, !next_eq, !quoted_eq.
  unfold ClientRequest_marshal. cbn [rq_version rq_bucketID rq_blindElement json_bytes]. unfold json_struct, request_names. cbn [map combine json_fields]. names.
  rewrite (name_eq (Base64.b64_encode el)) by apply b64_safe. rewrite (name_eq (BucketIDToHex id)) by (unfold BucketIDToHex; apply hex_safe).
  flat. reflexivity.
Qed.
Print Assumptions C90_request.

(** ** The configurations: the page at /config (with a line feed behind it), the
    dumped client configuration and the dumped server configuration. *)
Definition config_text (v b h s e o : bytes) : bytes :=
  str "{""version"":" ++ v ++ str ",""bucketIDBitSize"":" ++ b ++ str ",""bucketHasher"":" ++ h ++ str ",""slowHasher"":" ++ s
  ++ str ",""bucketEncryptor"":" ++ e ++ str ",""oprfSuite"":" ++ o.
Lemma config_text_eq v b h s e o : config_text v b h s e o
  = (Byte.x7b :: Byte.x22 :: str "version" ++ [Byte.x22; Byte.x3a]) ++ v ++ (Byte.x2c :: Byte.x22 :: str "bucketIDBitSize" ++ [Byte.x22; Byte.x3a]) ++ b
    ++ (Byte.x2c :: Byte.x22 :: str "bucketHasher" ++ [Byte.x22; Byte.x3a]) ++ h ++ (Byte.x2c :: Byte.x22 :: str "slowHasher" ++ [Byte.x22; Byte.x3a]) ++ s
    ++ (Byte.x2c :: Byte.x22 :: str "bucketEncryptor" ++ [Byte.x22; Byte.x3a]) ++ e ++ (Byte.x2c :: Byte.x22 :: str "oprfSuite" ++ [Byte.x22; Byte.x3a]) ++ o.
Proof. reflexivity. Qed.
Theorem C90_configurations : forall (LIB : OPRF) (cfg : Config), exists v b h s e o,
  plain_natural v (cfg_version cfg) /\ plain_integer b (cfg_bits cfg) /\ plain_natural h (cfg_bucketHasher cfg)
  /\ plain_natural s (cfg_slowHasher cfg) /\ plain_natural e (cfg_bucketEncryptor cfg) /\ plain_natural o (cfg_oprfSuite cfg)
  /\ Config_marshal cfg = config_text v b h s e o ++ str "}"
  /\ forall (key : PrivateKey LIB) (k : bytes), key_bytes LIB key = Ok k ->
     exists t, base64_exact t k /\ ServerConfig_MarshalJSON {| sc_config := cfg; sc_privateKey := key |} = Ok (config_text v b h s e o ++ str ",""privateKey"":" ++ quoted t ++ str "}").
Proof.
  intros LIB cfg. exists (dec_N (cfg_version cfg)), (dec_Z (cfg_bits cfg)), (dec_N (cfg_bucketHasher cfg)), (dec_N (cfg_slowHasher cfg)), (dec_N (cfg_bucketEncryptor cfg)), (dec_N (cfg_oprfSuite cfg)).
  split; [apply plain_dec|]. split; [apply plain_decZ|]. do 4 (split; [apply plain_dec|]). split.
  - unfold Config_marshal, config_names, config_values, json_struct. cbn [map combine json_fields]. names. rewrite config_text_eq. change (str "}") with [Byte.x7d]. flat. reflexivity.
  - intros key k K. exists (Base64.b64_encode k). split; [apply encode_exact|]. unfold ServerConfig_MarshalJSON. cbn [sc_config sc_privateKey]. rewrite K. f_equal.
    change (str ",""privateKey"":") with (str ",""" ++ str "privateKey" ++ str """:"). change (str "}") with [Byte.x7d]. rewrite config_text_eq, !next_eq, !quoted_eq.
    unfold server_config_names, config_names, config_values, json_struct. cbn [map app combine json_fields json_bytes]. names.
    rewrite (name_eq (Base64.b64_encode k)) by apply b64_safe. flat. reflexivity.
Qed.
Print Assumptions C90_configurations.

Theorem C90_config_page : forall (LIB : OPRF) (s : server LIB), exists w,
  handler s (str "/config") (Ok []) = Ok w /\ response_of w = (200, Config_marshal (sc_config (Server_Config (migpServer s))) ++ str "
").
Proof. intros LIB s. eexists. split; reflexivity. Qed.
Print Assumptions C90_config_page.

(** ** Cases: a text with a letter, a quote, a tab, the control character 1, a
    less-than, an e acute, U+2028 and a byte that is not UTF-8; and the line of
    a client. *)
Definition ex_text : bytes := [Byte.x61; Byte.x22; Byte.x09; Byte.x01; Byte.x3c; Byte.xc3; Byte.xa9; Byte.xe2; Byte.x80; Byte.xa8; Byte.xff].
Definition ex_written : bytes := str "a\""\t\u0001\u003c" ++ [Byte.xc3; Byte.xa9] ++ str "\u2028\ufffd".
Example C90_example : written ex_text ex_written
  /\ client_output ex_text (str "pw") InBreach (Some [Byte.x0a]) = str "{""username"":""" ++ ex_written ++ str """,""password"":""pw"",""status"":""password in breach"",""metadata"":""\n""}"
  /\ Config_marshal ex_cfg = str "{""version"":1,""bucketIDBitSize"":20,""bucketHasher"":1,""slowHasher"":0,""bucketEncryptor"":1,""oprfSuite"":3}".
Proof. split; [apply written_quote; vm_compute; reflexivity|]. split; vm_compute; reflexivity. Qed.
