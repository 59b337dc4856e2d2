(** * Lemmas: what is sent, as JSON documents. *)
From Verif Require Import Base BaseProofs Common Hasher Encryptor Oprf Server Client KV Mutator Utf8 Base64 Json ConfigJson Demo Flags Main
  JsonProofs SpecHttp SpecJson Utf8Proofs JsonGrammar HttpProofs SpecProtocol SpecDecode ProtocolProofs DecodeProofs.
Local Open Scope N_scope.

(** ** Base 64 *)
Lemma char_chr n : n < 64 -> b64_char n = chr n.
Proof.
  intros L. assert (K : forallb (fun i => beqb (b64_char (N.of_nat i)) (chr (N.of_nat i))) (seq 0 64) = true) by (vm_compute; reflexivity).
  rewrite forallb_forall in K. specialize (K (N.to_nat n)). rewrite N2Nat.id in K. apply beqb_eq, K, in_seq. lia.
Qed.
Lemma sweep_byte (n : nat) (f : byte -> N -> bool) : forallb (fun i => forallb (fun j => f (nB (N.of_nat i)) (N.of_nat j)) (seq 0 n)) (seq 0 256) = true ->
  forall a b, b < N.of_nat n -> f a b = true.
Proof.
  intros H a b B. rewrite forallb_forall in H. specialize (H (N.to_nat (bN a))). pose proof (bN_lt a) as A.
  rewrite in_seq, forallb_forall in H. specialize (H ltac:(lia) (N.to_nat b)). rewrite in_seq, !N2Nat.id, nB_bN in H. apply H. lia.
Qed.
Lemma enc1 x e : e < 16 -> low_bits 6 (bN x / 4) ++ low_bits 6 (bN x mod 4 * 16 + e) = low_bits 8 (bN x) ++ low_bits 4 e.
Proof. intros E. apply bl_eqb_eq. revert x e E. apply (sweep_byte 16). vm_compute. reflexivity. Qed.
Lemma enc2 y e : e < 4 -> low_bits 4 (bN y / 16) ++ low_bits 6 (bN y mod 16 * 4 + e) = low_bits 8 (bN y) ++ low_bits 2 e.
Proof. intros E. apply bl_eqb_eq. revert y e E. apply (sweep_byte 4). vm_compute. reflexivity. Qed.
Lemma enc3 z : low_bits 2 (bN z / 64) ++ low_bits 6 (bN z mod 64) = low_bits 8 (bN z).
Proof. apply bl_eqb_eq. revert z. apply byte_sweep. vm_compute. reflexivity. Qed.
Lemma enc_lt x y z : bN x / 4 < 64 /\ bN y / 16 < 16 /\ bN z / 64 < 4 /\ bN x mod 4 * 16 + bN y / 16 < 64 /\ bN y mod 16 * 4 + bN z / 64 < 64
  /\ bN z mod 64 < 64 /\ bN x mod 4 * 16 < 64 /\ bN y mod 16 * 4 < 64.
Proof.
  pose proof (bN_lt x). pose proof (bN_lt y). pose proof (bN_lt z).
  pose proof (N.mod_lt (bN x) 4 ltac:(discriminate)). pose proof (N.mod_lt (bN y) 16 ltac:(discriminate)). pose proof (N.mod_lt (bN z) 64 ltac:(discriminate)).
  assert (bN x / 4 < 64) by (apply N.div_lt_upper_bound; lia). assert (bN y / 16 < 16) by (apply N.div_lt_upper_bound; lia).
  assert (bN z / 64 < 4) by (apply N.div_lt_upper_bound; lia). lia.
Qed.

Lemma encode_exact b : base64_exact (b64_encode b) b.
Proof.
  unfold base64_exact. fold chr. change (flat_map (fun c : byte => low_bits 8 (bN c))) with bits8. change (flat_map (low_bits 6)) with bits6.
  enough (G : forall n b, (length b <= n)%nat -> exists ds pad, b64_encode b = map chr ds ++ repeat Byte.x3d pad /\ Forall (fun d => d < 64) ds /\ (pad <= 2)%nat
    /\ Nat.divide 4 (length ds + pad) /\ exists rest, bits6 ds = bits8 b ++ rest /\ (length rest < 8)%nat /\ Forall (fun x => x = false) rest)
    by exact (G (length b) b (Nat.le_refl _)).
  clear b. induction n as [|n IH]; intros b L.
  { destruct b; [|cbn in L; lia]. exists [], 0%nat. split; [reflexivity|]. split; [constructor|]. split; [lia|]. split; [exists 0%nat; reflexivity|].
    exists []. split; [reflexivity|]. split; [cbn; lia|constructor]. }
  destruct b as [|x [|y [|z r]]].
  - apply IH. cbn. lia.
  - destruct (enc_lt x x x) as (A & _ & _ & _ & _ & _ & C & _).
    exists [bN x / 4; bN x mod 4 * 16], 2%nat. cbn [b64_encode]. rewrite !char_chr by assumption. split; [reflexivity|].
    split; [repeat constructor; assumption|]. split; [lia|]. split; [exists 1%nat; reflexivity|].
    exists (low_bits 4 0). split; [|split; [rewrite low_bits_length; lia|repeat constructor]].
    change (bits6 [bN x / 4; bN x mod 4 * 16]) with (low_bits 6 (bN x / 4) ++ low_bits 6 (bN x mod 4 * 16) ++ []).
    change (bits8 [x]) with (low_bits 8 (bN x) ++ []). rewrite !app_nil_r.
    rewrite <- (N.add_0_r (bN x mod 4 * 16)). apply enc1. lia.
  - destruct (enc_lt x y y) as (A & B & _ & C & _ & _ & _ & D).
    exists [bN x / 4; bN x mod 4 * 16 + bN y / 16; bN y mod 16 * 4], 1%nat. cbn [b64_encode]. rewrite !char_chr by assumption. split; [reflexivity|].
    split; [repeat constructor; assumption|]. split; [lia|]. split; [exists 1%nat; reflexivity|].
    exists (low_bits 2 0). split; [|split; [rewrite low_bits_length; lia|repeat constructor]].
    change (bits6 [bN x / 4; bN x mod 4 * 16 + bN y / 16; bN y mod 16 * 4]) with (low_bits 6 (bN x / 4) ++ low_bits 6 (bN x mod 4 * 16 + bN y / 16) ++ low_bits 6 (bN y mod 16 * 4) ++ []).
    change (bits8 [x; y]) with (low_bits 8 (bN x) ++ low_bits 8 (bN y) ++ []). rewrite !app_nil_r.
    rewrite app_assoc, enc1 by assumption. rewrite <- !app_assoc. f_equal. rewrite <- (N.add_0_r (bN y mod 16 * 4)). apply enc2. lia.
  - destruct (enc_lt x y z) as (A & B & B' & C & D & E & _ & _). cbn [length] in L.
    destruct (IH r ltac:(lia)) as (ds & pad & H & F & P & (q & Q) & rest & G & R).
    exists (bN x / 4 :: bN x mod 4 * 16 + bN y / 16 :: bN y mod 16 * 4 + bN z / 64 :: bN z mod 64 :: ds), pad.
    change (b64_encode (x :: y :: z :: r)) with (b64_char (bN x / 4) :: b64_char (bN x mod 4 * 16 + bN y / 16) :: b64_char (bN y mod 16 * 4 + bN z / 64) :: b64_char (bN z mod 64) :: b64_encode r).
    rewrite !char_chr by assumption. rewrite H. split; [reflexivity|]. split; [repeat constructor; assumption|]. split; [exact P|].
    split; [exists (S q); cbn [length]; lia|]. exists rest. split; [|exact R].
    change (bits6 (bN x / 4 :: bN x mod 4 * 16 + bN y / 16 :: bN y mod 16 * 4 + bN z / 64 :: bN z mod 64 :: ds)) with
      (low_bits 6 (bN x / 4) ++ low_bits 6 (bN x mod 4 * 16 + bN y / 16) ++ low_bits 6 (bN y mod 16 * 4 + bN z / 64) ++ low_bits 6 (bN z mod 64) ++ bits6 ds).
    change (bits8 (x :: y :: z :: r)) with (low_bits 8 (bN x) ++ low_bits 8 (bN y) ++ low_bits 8 (bN z) ++ bits8 r).
    rewrite app_assoc, enc1 by assumption. rewrite <- !app_assoc. f_equal.
    rewrite app_assoc, enc2 by assumption. rewrite <- !app_assoc. f_equal.
    rewrite app_assoc, enc3, G. reflexivity.
Qed.

(** ** Numbers *)
Lemma plain_dec n : plain_natural (dec_N n) n.
Proof.
  split; [apply decimal_spec; split; [apply dec_all_digits|symmetry; apply digits_dec]|].
  intros r E. pose proof (dec_N_ok n) as K. rewrite E in K. change (str "0" ++ r) with (Byte.x30 :: r) in K. cbn [dec_ok] in K.
  destruct r; [reflexivity|discriminate K].
Qed.
Lemma plain_decZ z : plain_integer (dec_Z z) z.
Proof.
  unfold dec_Z. destruct (Z.ltb_spec z 0).
  - right. exists (dec_N (Z.to_N (- z))), (Z.to_N (- z)). split; [reflexivity|]. split; [apply plain_dec|]. split; lia.
  - left. exists (Z.to_N z). split; [apply plain_dec|lia].
Qed.

(** ** ASCII *)
Lemma forallb_app' {A} (f : A -> bool) a b : forallb f a = true -> forallb f b = true -> forallb f (a ++ b) = true.
Proof. intros H K. rewrite forallb_app, H, K. reflexivity. Qed.
Lemma quote_ascii s : forallb ascii s = true -> forallb ascii (json_quote s) = true.
Proof.
  assert (K : forall c : byte, implb (ascii c) (forallb ascii (if html_safe c then [c] else esc_ascii c)) = true) by (clear; intros []; reflexivity).
  intros H. unfold json_quote. cbn [forallb]. apply forallb_app'; [|reflexivity].
  induction s as [|c s IH]; [reflexivity|]. cbn [forallb] in H. apply andb_true_iff in H as [A H]. cbn [quote_body].
  pose proof A as A'. unfold ascii in A'. rewrite A'. apply forallb_app'; [specialize (K c); rewrite A in K; exact K|exact (IH H)].
Qed.
Lemma struct_ascii fs : Forall (fun f => forallb ascii (fst f) = true /\ forallb ascii (snd f) = true) fs -> forallb ascii (json_struct fs) = true.
Proof.
  intros F. unfold json_struct. cbn [forallb]. apply forallb_app'; [|reflexivity].
  induction F as [|[k v] fs [Hk Hv] F IH]; [reflexivity|]. cbn [fst snd] in *. destruct fs as [|f fs].
  - change (json_fields [(k, v)]) with (json_quote k ++ [Byte.x3a] ++ v). apply forallb_app'; [apply quote_ascii, Hk|exact Hv].
  - change (json_fields ((k, v) :: f :: fs)) with (json_quote k ++ [Byte.x3a] ++ v ++ [Byte.x2c] ++ json_fields (f :: fs)).
    apply forallb_app'; [apply quote_ascii, Hk|]. apply forallb_app'; [reflexivity|]. apply forallb_app'; [exact Hv|exact IH].
Qed.
Lemma dec_ascii n : forallb ascii (dec_N n) = true.
Proof. unfold dec_N. induction (N.to_uint n); [reflexivity|..]; exact IHu. Qed.
Lemma decZ_ascii z : forallb ascii (dec_Z z) = true.
Proof. unfold dec_Z. destruct (z <? 0)%Z; [cbn [forallb]|]; apply dec_ascii. Qed.
Lemma bytes_ascii s : forallb ascii (json_bytes s) = true.
Proof. destruct s; [apply quote_ascii, b64_ascii|reflexivity]. Qed.
Lemma ascii_b s : forallb ascii s = true -> ascii_only s.
Proof. intros H c I. rewrite forallb_forall in H. apply N.ltb_lt, H, I. Qed.

(** ** The documents *)
Lemma struct_document fs js ws : fs <> [] -> Forall2 (fun f j => prints (snd f) j) fs js -> forallb is_ws ws = true ->
  json_document (json_struct fs ++ ws) (JObj (combine (map (fun f => sanitize 0 (fst f)) fs) js)).
Proof. intros N F W. apply json_parse_document, json_parse_struct; assumption. Qed.

Lemma request_document v id el : forallb ascii id = true ->
  exists j, json_document (ClientRequest_marshal (mkClientRequest v id (Some el))) j /\ request_value (mkClientRequest v id (Some el)) j.
Proof.
  intros A. eexists. split.
  - unfold ClientRequest_marshal. rewrite <- (app_nil_r (json_struct _)). apply struct_document; [discriminate| |reflexivity].
    cbn [rq_version rq_bucketID rq_blindElement request_names map combine].
    constructor; [apply prints_dec|]. constructor; [apply prints_quote|]. constructor; [apply (prints_bytes (Some el))|constructor].
  - exists (dec_N v), (b64_encode el), el. split; [|split; [apply plain_dec|split; [reflexivity|apply encode_exact]]].
    cbn [rq_bucketID]. rewrite sanitize_ascii by exact A. reflexivity.
Qed.
Lemma request_ascii rq : forallb ascii (rq_bucketID rq) = true -> ascii_only (ClientRequest_marshal rq).
Proof.
  intros A. apply ascii_b, struct_ascii. cbn [request_names map combine].
  constructor; [split; [reflexivity|apply dec_ascii]|]. constructor; [split; [reflexivity|apply quote_ascii, A]|].
  constructor; [split; [reflexivity|apply bytes_ascii]|constructor].
Qed.

Lemma posted LIB cfg c u p (r : Blind LIB) rq ctx : NewClient LIB cfg = Ok c -> Request c u p r = Ok (rq, ctx) ->
  exists body j, Query_posts cfg u p r = [body] /\ ascii_only body /\ json_document body j /\ request_value rq j.
Proof.
  intros N R. unfold Query_posts. rewrite N, R. pose proof R as R'. unfold Request in R'.
  apply bind_ok in R' as (ser & _ & R'). apply bind_ok in R' as (x & _ & R'). apply bind_ok in R' as (bs & _ & R').
  destruct bs as [|b bs]; [discriminate R'|]. apply bind_ok in R' as (id & _ & R'). apply Ok_inj, pair_inj in R' as [<- _].
  assert (A : forallb ascii (BucketIDToHex id) = true) by (unfold BucketIDToHex; apply hex_ascii).
  destruct (request_document (c_version c) (BucketIDToHex id) b A) as (j & D & V). exists (ClientRequest_marshal {| rq_version := c_version c; rq_bucketID := BucketIDToHex id; rq_blindElement := Some b |}), j.
  split; [reflexivity|]. split; [apply request_ascii; exact A|]. split; [exact D|exact V].
Qed.

Lemma config_prints c : Forall2 (fun f j => prints (snd f) j) (combine config_names (config_values c))
  [JNum (dec_N (cfg_version c)); JNum (dec_Z (cfg_bits c)); JNum (dec_N (cfg_bucketHasher c)); JNum (dec_N (cfg_slowHasher c)); JNum (dec_N (cfg_bucketEncryptor c)); JNum (dec_N (cfg_oprfSuite c))].
Proof.
  cbn [config_names map combine config_values]. constructor; [apply prints_dec|]. constructor; [apply prints_decZ|].
  constructor; [apply prints_dec|]. constructor; [apply prints_dec|]. constructor; [apply prints_dec|]. constructor; [apply prints_dec|constructor].
Qed.
Lemma config_document c ws : forallb is_ws ws = true ->
  exists ms, json_document (Config_marshal c ++ ws) (JObj ms) /\ config_members c ms.
Proof.
  intros W. eexists. split; [unfold Config_marshal; apply struct_document; [discriminate|apply config_prints|exact W]|].
  do 6 eexists. split; [reflexivity|]. repeat (split; [try apply plain_dec; apply plain_decZ|]). apply plain_dec.
Qed.
Lemma config_ascii c : forallb ascii (Config_marshal c) = true.
Proof.
  apply struct_ascii. cbn [config_names map combine config_values].
  repeat (constructor; [split; [reflexivity|first [apply decZ_ascii|apply dec_ascii]]|]). constructor.
Qed.
Lemma config_sent LIB (s : server LIB) : exists w body, handler s (str "/config") (Ok []) = Ok w /\ response_of w = (200, body)
  /\ ascii_only body /\ exists ms, json_document body (JObj ms) /\ config_members (sc_config (Server_Config (migpServer s))) ms.
Proof.
  eexists. exists (Config_marshal (sc_config (Server_Config (migpServer s))) ++ [Byte.x0a]). split; [reflexivity|]. split; [reflexivity|].
  split; [apply ascii_b; apply forallb_app'; [apply config_ascii|reflexivity]|]. apply config_document. reflexivity.
Qed.

Lemma server_config_document LIB (cfg : ServerConfig LIB) k : key_bytes LIB (sc_privateKey cfg) = Ok k ->
  exists data ms e, ServerConfig_MarshalJSON cfg = Ok data /\ ascii_only data /\ config_members (sc_config cfg) ms /\ base64_exact e k
    /\ json_document data (JObj (ms ++ [(str "privateKey", JStr e)])).
Proof.
  intros K. unfold ServerConfig_MarshalJSON. rewrite K. eexists.
  exists [(str "version", JNum (dec_N (cfg_version (sc_config cfg)))); (str "bucketIDBitSize", JNum (dec_Z (cfg_bits (sc_config cfg))));
    (str "bucketHasher", JNum (dec_N (cfg_bucketHasher (sc_config cfg)))); (str "slowHasher", JNum (dec_N (cfg_slowHasher (sc_config cfg))));
    (str "bucketEncryptor", JNum (dec_N (cfg_bucketEncryptor (sc_config cfg)))); (str "oprfSuite", JNum (dec_N (cfg_oprfSuite (sc_config cfg))))], (b64_encode k).
  split; [reflexivity|]. split.
  { apply ascii_b, struct_ascii. cbn [server_config_names config_names map combine config_values app].
    repeat (constructor; [split; [reflexivity|first [apply decZ_ascii|apply dec_ascii|apply bytes_ascii]]|]). constructor. }
  split; [|split; [apply encode_exact|]].
  2:{ rewrite <- (app_nil_r (json_struct _)). match goal with |- json_document _ (JObj ?l) => assert (E : exists js, l = combine (map (fun f => sanitize 0 (fst f)) (combine server_config_names (config_values (sc_config cfg) ++ [json_bytes (Some k)]))) js
      /\ Forall2 (fun f j => prints (snd f) j) (combine server_config_names (config_values (sc_config cfg) ++ [json_bytes (Some k)])) js) end.
      { exists [JNum (dec_N (cfg_version (sc_config cfg))); JNum (dec_Z (cfg_bits (sc_config cfg))); JNum (dec_N (cfg_bucketHasher (sc_config cfg))); JNum (dec_N (cfg_slowHasher (sc_config cfg))); JNum (dec_N (cfg_bucketEncryptor (sc_config cfg))); JNum (dec_N (cfg_oprfSuite (sc_config cfg))); JStr (b64_encode k)].
        split; [reflexivity|]. cbn [server_config_names config_names map combine config_values app].
        constructor; [apply prints_dec|]. constructor; [apply prints_decZ|].
        constructor; [apply prints_dec|]. constructor; [apply prints_dec|]. constructor; [apply prints_dec|]. constructor; [apply prints_dec|].
        constructor; [apply (prints_bytes (Some k))|constructor]. }
      destruct E as (js & -> & F). apply struct_document; [discriminate|exact F|reflexivity]. }
  do 6 eexists. split; [reflexivity|]. repeat (split; [try apply plain_dec; apply plain_decZ|]). apply plain_dec.
Qed.

From Verif Require Import Scanner SpecDemo TrustProofs.
Lemma query_ok_requested LIB cfg c post url u p (r : Blind LIB) a : NewClient LIB cfg = Ok c -> Query cfg post url u p r = Ok a ->
  exists rq ctx, Request c u p r = Ok (rq, ctx).
Proof.
  intros N Q. unfold Query in Q. rewrite N in Q. cbn [bind] in Q. destruct (Request c u p r) as [[rq ctx]| |]; [eauto|discriminate..].
Qed.
Lemma posts_nth LIB cfg c post url (blinds : nat -> Blind LIB) creds : NewClient LIB cfg = Ok c -> forall i0 i body,
  nth_error (posts_by (fun i u p => Query_posts cfg u p (blinds i)) (fun i u p => Query cfg post url u p (blinds i)) i0 creds) i = Some body ->
  exists u p rq ctx j, nth_error creds i = Some (u, p) /\ Request c u p (blinds (i0 + i)%nat) = Ok (rq, ctx)
    /\ ascii_only body /\ json_document body j /\ request_value rq j.
Proof.
  intros N. induction creds as [|[u p] creds IH]; intros i0 i body H; cbn [posts_by] in H; [destruct i; discriminate|].
  destruct (Request c u p (blinds i0)) as [[rq ctx]|e|e] eqn:R.
  - destruct (posted LIB cfg c u p (blinds i0) rq ctx N R) as (b & j & E & A & D & V). rewrite E in H. cbn [app] in H. destruct i as [|i].
    + cbn [nth_error] in H. apply Some_inj in H. subst b. exists u, p, rq, ctx, j. rewrite Nat.add_0_r. auto 6.
    + cbn [nth_error] in H. destruct (Query cfg post url u p (blinds i0)); [|destruct i; discriminate..].
      destruct (IH _ _ _ H) as (u' & p' & rq' & ctx' & j' & X). exists u', p', rq', ctx', j'. rewrite Nat.add_succ_r. exact X.
  - unfold Query_posts in H at 1. rewrite N, R in H. cbn [app] in H. unfold Query in H at 1. rewrite N in H. cbn [bind] in H. rewrite R in H. destruct i; discriminate.
  - unfold Query_posts in H at 1. rewrite N, R in H. cbn [app] in H. unfold Query in H at 1. rewrite N in H. cbn [bind] in H. rewrite R in H. destruct i; discriminate.
Qed.
Lemma client_posts_nth LIB o fs net cfg c (blinds : nat -> Blind LIB) input i body : NewClient LIB cfg = Ok c -> input_of fs (co_infile o) = Some input ->
  nth_error (client_posts o fs net cfg blinds) i = Some body ->
  exists u p rq ctx j, nth_error (with_colon (scan_lines input)) i = Some (u, p) /\ Request c u p (blinds i) = Ok (rq, ctx)
    /\ ascii_only body /\ json_document body j /\ request_value rq j.
Proof.
  intros N I H. unfold client_posts in H. rewrite I, posts_of_creds in H. exact (posts_nth LIB cfg c _ _ blinds _ N 0%nat i body H).
Qed.
Lemma exact_inj s t b : base64_exact s b -> base64_exact t b -> s = t.
Proof.
  intros (ds & pad & -> & F & P & (q & D) & rest & E & L & Z) (ds' & pad' & -> & F' & P' & (q' & D') & rest' & E' & L' & Z').
  change (flat_map (low_bits 6)) with bits6 in *. change (flat_map (fun c => low_bits 8 (bN c))) with bits8 in *.
  assert (B6 : forall l, length (bits6 l) = (6 * length l)%nat).
  { induction l as [|x l IH]; [reflexivity|]. unfold bits6 in *. cbn [flat_map length]. rewrite app_length, low_bits_length, IH. lia. }
  assert (L1 : length (bits6 ds) = (8 * length b + length rest)%nat) by (rewrite E, app_length, bits8_length; reflexivity).
  assert (L2 : length (bits6 ds') = (8 * length b + length rest')%nat) by (rewrite E', app_length, bits8_length; reflexivity).
  rewrite B6 in L1, L2. assert (length ds = length ds') by lia. assert (pad = pad') by lia. subst pad'.
  assert (rest = rest').
  { assert (LR : length rest = length rest') by lia. clear -Z Z' LR. revert rest' Z' LR. induction Z as [|x l X Z IH]; intros [|y r] Z' LR; try discriminate; [reflexivity|].
    inversion Z'; subst. f_equal. apply IH; [assumption|]. cbn in LR. lia. }
  subst rest'. rewrite <- E in E'.
  assert (W : ds = ds'); [|rewrite W; reflexivity].
  assert (E6 : forall a b, a < 64 -> b < 64 -> low_bits 6 a = low_bits 6 b -> a = b).
  { intros x y X Y. assert (K : forall a b, a < 64 -> b < 64 -> implb (bl_eqb (low_bits 6 a) (low_bits 6 b)) (a =? b) = true) by (apply sweep64; vm_compute; reflexivity).
    intros W. specialize (K x y X Y). unfold bl_eqb in K. destruct (list_eq_dec bool_dec (low_bits 6 x) (low_bits 6 y)); [apply N.eqb_eq, K|contradiction]. }
  clear -F F' E' H E6 B6. revert ds' F' E' H. induction F as [|x l X F IH]; intros [|y l'] F' E' H; try discriminate; [reflexivity|].
  inversion F' as [|? ? Y F'']; subst. cbn [length] in H.
  change (bits6 (y :: l')) with (low_bits 6 y ++ bits6 l') in E'. change (bits6 (x :: l)) with (low_bits 6 x ++ bits6 l) in E'.
  assert (E1 : low_bits 6 x = low_bits 6 y).
  { apply (f_equal (firstn 6)) in E'. rewrite !firstn_app, !low_bits_length, !Nat.sub_diag, !firstn_O, !app_nil_r in E'.
    rewrite !firstn_all2 in E' by (rewrite low_bits_length; lia). symmetry. exact E'. }
  f_equal; [apply E6; assumption|]. apply IH; [assumption| |lia]. rewrite E1 in E'. apply app_inv_head in E'. exact E'.
Qed.
