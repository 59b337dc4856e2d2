(** * C62: decoding into a value that is in use, and encoding by value. *)
From Coq Require Import Lia.
From Verif Require Import Base BaseProofs Common Oprf OprfGroup Server Client Json ConfigJson Receiver HttpProofs PropProtocol SpecJson JsonProofs JsonGrammar SpecDecode DecodeProofs SentProofs WireProofs.
Local Open Scope N_scope.

Lemma cfields_over iw old ms c : cfields iw old ms = (c, false) <-> overrides_config iw old ms c.
Proof.
  unfold cfields, overrides_config.
  rewrite <- field_int, <- !field_uint by reflexivity. rewrite !pair_false. destruct c as [v b h s e o]. cbn [fst snd cfg_version cfg_bits cfg_bucketHasher cfg_slowHasher cfg_bucketEncryptor cfg_oprfSuite].
  rewrite !orb_false_iff. split.
  - intros [H1 (A1 & A2 & A3 & A4 & A5 & A6)].
    exact (conj (conj (f_equal cfg_version H1) A1) (conj (conj (f_equal cfg_bits H1) A2) (conj (conj (f_equal cfg_bucketHasher H1) A3)
          (conj (conj (f_equal cfg_slowHasher H1) A4) (conj (conj (f_equal cfg_bucketEncryptor H1) A5) (conj (f_equal cfg_oprfSuite H1) A6)))))).
  - intros ((-> & A1) & (-> & A2) & (-> & A3) & (-> & A4) & (-> & A5) & (-> & A6)). split; [reflexivity|].
    exact (conj A1 (conj A2 (conj A3 (conj A4 (conj A5 A6))))).
Qed.

(** Members that the document mentions replace the values, the others stay:
    so a document can be decoded over DefaultConfig(). *)
Theorem C62_config_over_a_config : forall (iw : Z) (old : Config) (data : bytes) (c : Config),
  Config_unmarshal_into iw old data = (c, None) <->
  exists j, json_accepted data j /\ record_of (overrides_config iw old) old j c.
Proof.
  intros iw old data c. unfold Config_unmarshal_into. apply unmarshal_spec. intros ms a.
  rewrite decode_config, orb_false_l, <- cfields_over, !pair_false. cbn [fst snd]. reflexivity.
Qed.

(** A text that is not JSON leaves the configuration as it was. *)
Theorem C62_syntax_error_changes_nothing : forall (iw : Z) (old : Config) (data : bytes),
  (forall j, ~ json_accepted data j) -> exists e, Config_unmarshal_into iw old data = (old, Some e).
Proof.
  intros iw old data N. unfold Config_unmarshal_into, unmarshal_struct.
  destruct (json_parse data) as [j|] eqn:J; [|eexists; reflexivity]. apply json_parse_grammar in J. destruct (N j J).
Qed.

(** Finding: one of wrong types is an error too, but the members before and
    after the wrong one have been stored. *)
Theorem C62_type_error_changes_the_config_refuted :
  Config_unmarshal_into 64 DefaultConfig (str "{""version"":2,""bucketHasher"":""x"",""oprfSuite"":7}")
  = (mkConfig 2 20 1 1 1 7, Some "json: cannot unmarshal"%string).
Proof. vm_compute. reflexivity. Qed.

(** The binary decoder does not depend on what was in the response; when it
    fails, the bucket contents stay, and the version and the element may be
    overwritten. *)
Theorem C62_response_over_a_response : forall LIB : OPRF, elt_size LIB 3 = Ok 33%nat ->
  forall (old r : ServerResponse) (data : bytes),
  UnmarshalBinary_into LIB old data = (r, None) <-> UnmarshalBinary LIB data = Ok r.
Proof.
  intros LIB E old r data. unfold UnmarshalBinary_into, UnmarshalBinary. change DefaultOPRFSuite with 3. rewrite E.
  destruct data as [|b0 data]; [split; discriminate|].
  destruct (length (b0 :: data) <? 4)%nat; [split; discriminate|].
  destruct (get_be32 (b0 :: data)) as [v|e|e]; cbn [bind]; [|split; discriminate..].
  destruct (_ && _); [split; discriminate|].
  destruct (length (firstn 33 (skipn 4 (b0 :: data))) =? 33)%nat eqn:L; cbn [negb]; [|split; discriminate].
  apply Nat.eqb_eq in L. rewrite L. change (zeros (33 - 33)) with (@nil byte). rewrite app_nil_r. cbn [rs_version rs_evaluatedElement].
  split; intros H; [apply pair_inj in H as [-> _]; reflexivity|apply Ok_inj in H; subst r; reflexivity].
Qed.

(** The errors, by the number of bytes: io.EOF, io.ErrUnexpectedEOF or the
    decoder's own. *)
Theorem C62_errors_of_a_response : forall LIB : OPRF, elt_size LIB 3 = Ok 33%nat ->
  forall (old : ServerResponse) (data : bytes),
  snd (UnmarshalBinary_into LIB old data)
  = if ((length data =? 0) || (length data =? 4))%nat then Some "EOF"%string
    else if (length data <? 4)%nat then Some "unexpected EOF"%string
    else if (length data <? 37)%nat then Some "too few bytes to deserialize EvaluatedElement"%string
    else None.
Proof.
  intros LIB E old data. unfold UnmarshalBinary_into. change DefaultOPRFSuite with 3. rewrite E.
  destruct data as [|b0 data]; [reflexivity|]. set (d := b0 :: data). assert (L0 : (length d =? 0)%nat = false) by reflexivity. rewrite L0.
  destruct (length d <? 4)%nat eqn:L4.
  { apply Nat.ltb_lt in L4. rewrite (proj2 (Nat.eqb_neq (length d) 4)) by lia. reflexivity. }
  apply Nat.ltb_ge in L4.
  assert (B : exists v, get_be32 d = Ok v).
  { unfold d in *. destruct data as [|b1 [|b2 [|b3 data]]]; try (cbn in L4; lia). eexists. reflexivity. }
  destruct B as (v & B). rewrite B. rewrite skipn_length. cbn [orb negb andb Nat.eqb]. rewrite andb_true_r.
  destruct (Nat.eq_dec (length d) 4) as [E4|E4].
  - rewrite E4. reflexivity.
  - rewrite (proj2 (Nat.eqb_neq _ 0)), (proj2 (Nat.eqb_neq (length d) 4)) by lia. rewrite firstn_length, skipn_length.
    destruct (length d <? 37)%nat eqn:L37; [apply Nat.ltb_lt in L37|apply Nat.ltb_ge in L37].
    + rewrite (proj2 (Nat.eqb_neq _ 33)) by lia. reflexivity.
    + rewrite (proj2 (Nat.eqb_eq _ 33)) by lia. reflexivity.
Qed.

Theorem C62_failed_response : forall LIB : OPRF, elt_size LIB 3 = Ok 33%nat ->
  forall (old r : ServerResponse) (data : bytes) (e : string),
  UnmarshalBinary_into LIB old data = (r, Some e) ->
  rs_bucketContents r = rs_bucketContents old /\
  ((length data < 4)%nat -> r = old) /\
  ((4 <= length data)%nat ->
     get_be32 data = Ok (rs_version r)
     /\ exists rest, data = firstn 4 data ++ rest /\ rs_evaluatedElement r = rest ++ zeros (33 - length rest)).
Proof.
  intros LIB E old r data e. unfold UnmarshalBinary_into. change DefaultOPRFSuite with 3. rewrite E.
  destruct data as [|b0 data].
  { intros H. apply pair_inj in H as [<- _]. split; [reflexivity|]. split; [reflexivity|]. cbn. lia. }
  destruct (length (b0 :: data) <? 4)%nat eqn:L4.
  { apply Nat.ltb_lt in L4. intros H. apply pair_inj in H as [<- _]. split; [reflexivity|]. split; [reflexivity|]. intros; lia. }
  apply Nat.ltb_ge in L4. set (d := b0 :: data) in *.
  assert (B : exists v, get_be32 d = Ok v).
  { unfold d in *. destruct data as [|b1 [|b2 [|b3 data]]]; try (cbn in L4; lia). eexists. reflexivity. }
  destruct B as (v & B). rewrite B.
  assert (S4 : skipn 4 d = d -> False).
  { intros K. apply (f_equal (@length byte)) in K. rewrite skipn_length in K. lia. }
  clear S4.
  destruct (_ && _) eqn:Z.
  - intros H. apply pair_inj in H as [<- _]. cbn [rs_bucketContents rs_version rs_evaluatedElement]. split; [reflexivity|].
    split; [intros; lia|]. intros _. split; [reflexivity|]. apply andb_true_iff in Z as [Z _]. apply Nat.eqb_eq in Z.
    destruct (skipn 4 d) as [|x t] eqn:S; [|discriminate Z]. exists []. split; [rewrite app_nil_r|reflexivity].
    rewrite <- (firstn_skipn 4 d) at 1. rewrite S. apply app_nil_r.
  - destruct (length (firstn 33 (skipn 4 d)) =? 33)%nat eqn:L; cbn [negb]; [discriminate|].
    intros H. apply pair_inj in H as [<- _]. cbn [rs_bucketContents rs_version rs_evaluatedElement]. split; [reflexivity|].
    split; [intros; lia|]. intros _. split; [reflexivity|]. apply Nat.eqb_neq in L.
    assert (F : firstn 33 (skipn 4 d) = skipn 4 d).
    { apply firstn_all2. rewrite firstn_length in L. lia. }
    exists (skipn 4 d). split; [symmetry; apply firstn_skipn|]. rewrite F. reflexivity.
Qed.

(** Nor does the decoder of server configurations; when it fails, the key may
    be lost and the public part may be overwritten, but only together. *)
Theorem C62_server_config_over_a_config : forall (LIB : OPRF) (iw : Z) (old c : ServerConfig LIB) (data : bytes),
  ServerConfig_UnmarshalJSON_into iw old data = (sc_config c, Some (sc_privateKey c), None) <->
  ServerConfig_UnmarshalJSON LIB iw data = Ok c.
Proof.
  intros LIB iw old c data. unfold ServerConfig_UnmarshalJSON_into, ServerConfig_UnmarshalJSON.
  destruct (unmarshal_struct server_config_names (aux_set iw) (zeroConfig, (None, [])) data) as [[aux [k sp]] [e|]].
  - split; intros H; [apply pair_inj in H as [_ H]|]; discriminate H.
  - destruct (key_parse LIB (cfg_oprfSuite aux) (sl k)) as [key|e|e]; cbn [bind].
    + split; intros H.
      * apply pair_inj in H as [H _]. apply pair_inj in H as [-> H]. apply Some_inj in H. subst key. destruct c. reflexivity.
      * apply Ok_inj in H. subst c. reflexivity.
    + split; intros H; [apply pair_inj in H as [_ H]|]; discriminate H.
    + split; intros H; [apply pair_inj in H as [_ H]|]; discriminate H.
Qed.

Theorem C62_failed_server_config : forall (LIB : OPRF) (iw : Z) (old : ServerConfig LIB) (data : bytes) c k e,
  ServerConfig_UnmarshalJSON_into iw old data = (c, k, Some e) ->
  (c = sc_config old /\ k = Some (sc_privateKey old)) \/ (k = None /\ Config_unmarshal iw data = Ok c).
Proof.
  intros LIB iw old data c k e. unfold ServerConfig_UnmarshalJSON_into.
  destruct (unmarshal_struct server_config_names (aux_set iw) (zeroConfig, (None, [])) data) as [[aux [kb sp]] [e'|]] eqn:U.
  - intros H. apply pair_inj in H as [H _]. apply pair_inj in H as [<- <-]. left. split; reflexivity.
  - assert (C : Config_unmarshal iw data = Ok aux).
    { apply config_unmarshal_spec.
      pose (pack := fun (ck : Config * gslice) (sp : bytes) => (fst ck, (snd ck, sp))).
      assert (M : forall ms a, (exists sp, decode_members server_config_names (aux_set iw) (pack (zeroConfig, None) []) false ms = (pack a sp, false)) <->
        (fun ms ck => describes_config iw ms (fst ck) /\ describes_key ms (snd ck)) ms a) by (intros ms [c' k']; apply server_members_spec).
      assert (INJ : forall a a' b b', pack a b = pack a' b' -> a = a').
      { intros [a1 a2] [a1' a2'] b b' H. unfold pack in H. cbn [fst snd] in H. apply pair_inj in H as [-> H]. apply pair_inj in H as [-> _]. reflexivity. }
      destruct (proj1 (unmarshal_spec' server_config_names (aux_set iw) _ pack (zeroConfig, None) [] data (aux, kb) INJ M)) as (j & A & R).
      { exists sp. exact U. }
      exists j. split; [exact A|]. destruct R as [[-> R]|(ms & -> & R & _)]; [left|right; exists ms; auto].
      apply pair_inj in R as [-> _]. auto. }
    destruct (key_parse LIB (cfg_oprfSuite aux) (sl kb)) as [key|m|m]; intros H; [discriminate H|..];
      apply pair_inj in H as [H _]; apply pair_inj in H as [<- <-]; right; auto.
Qed.

(** Finding: MarshalJSON has a pointer receiver, so a ServerConfig passed to
    json.Marshal by value gives a text without the key, and no error; the text
    is a client configuration but not a server configuration. *)
Lemma members_snoc r l x name j : json_members r l -> json_members x [(name, j)] -> json_members (r ++ str "," ++ x) (l ++ [(name, j)]).
Proof.
  intros H X. induction H as [w k n w1 w2 s w' j' W B W1 W2 T W'|w k n w1 w2 s w' j' r l W B W1 W2 T W' R IH].
  - cbn [app]. replace ((w ++ (str """" ++ k ++ str """") ++ w1 ++ str ":" ++ w2 ++ s ++ w') ++ str "," ++ x)
      with (w ++ (str """" ++ k ++ str """") ++ w1 ++ str ":" ++ w2 ++ s ++ w' ++ str "," ++ x) by (rewrite <- !app_assoc; reflexivity).
    apply jm_more; assumption.
  - cbn [app]. replace ((w ++ (str """" ++ k ++ str """") ++ w1 ++ str ":" ++ w2 ++ s ++ w' ++ str "," ++ r) ++ str "," ++ x)
      with (w ++ (str """" ++ k ++ str """") ++ w1 ++ str ":" ++ w2 ++ s ++ w' ++ str "," ++ (r ++ str "," ++ x)) by (rewrite <- !app_assoc; reflexivity).
    apply jm_more; assumption.
Qed.

Lemma fields_snoc fs k v : fs <> [] -> json_fields (fs ++ [(k, v)]) = json_fields fs ++ str "," ++ json_quote k ++ Byte.x3a :: v.
Proof.
  induction fs as [|[k0 v0] fs IH]; [contradiction|]. intros _. destruct fs as [|f fs].
  - cbn [app json_fields]. rewrite <- app_assoc. reflexivity.
  - change (((k0, v0) :: f :: fs) ++ [(k, v)]) with ((k0, v0) :: f :: (fs ++ [(k, v)])).
    change (json_fields ((k0, v0) :: f :: (fs ++ [(k, v)]))) with (json_quote k0 ++ Byte.x3a :: v0 ++ Byte.x2c :: json_fields ((f :: fs) ++ [(k, v)])).
    rewrite IH by discriminate. change (json_fields ((k0, v0) :: f :: fs)) with (json_quote k0 ++ Byte.x3a :: v0 ++ Byte.x2c :: json_fields (f :: fs)).
    rewrite <- !app_assoc. cbn [app]. rewrite <- !app_assoc. reflexivity.
Qed.

Lemma plain_body (s : bytes) : forallb (fun c => (32 <=? bN c) && (bN c <? 128) && negb (bN c =? 34) && negb (bN c =? 92)) s = true -> string_body s s.
Proof.
  induction s as [|c s IH]; intros H; [constructor|]. cbn [forallb] in H. apply andb_true_iff in H as [H T].
  apply andb_true_iff in H as [H H4]. apply andb_true_iff in H as [H H3]. apply andb_true_iff in H as [H1 H2].
  apply N.leb_le in H1. apply N.ltb_lt in H2. apply negb_true_iff, N.eqb_neq in H3. apply negb_true_iff, N.eqb_neq in H4.
  assert (U : utf8_char (bN c) = [c]).
  { unfold utf8_char. destruct (N.ltb_spec (bN c) 128); [|lia]. cbn [map]. rewrite nB_bN. reflexivity. }
  change (c :: s) with ([c] ++ s). rewrite <- U. apply sb_char; [|lia|exact H3|exact H4|apply IH, T].
  unfold scalar. lia.
Qed.

Lemma value_document LIB (c : ServerConfig LIB) : exists ms,
  json_document (ServerConfig_marshal_value c) (JObj (ms ++ [(str "PrivateKey", JObj [])])) /\ config_members (sc_config c) ms
  /\ json_document (Config_marshal (sc_config c)) (JObj ms).
Proof.
  destruct (config_document (sc_config c) [] eq_refl) as (ms & D & M). rewrite app_nil_r in D. exists ms. split; [|exact (conj M D)].
  destruct D as (w & t & w' & E & W & T & W').
  unfold Config_marshal, json_struct in E. set (fs := combine config_names (config_values (sc_config c))) in *.
  assert (w = []).
  { destruct w as [|x w]; [reflexivity|]. cbn [app] in E. apply cons_eq in E as [<- _].
    specialize (W _ (or_introl eq_refl)). cbn in W. destruct W as [W|[W|[W|[W|[]]]]]; discriminate W. }
  subst w. cbn [app] in E.
  assert (w' = []).
  { destruct w' as [|x w'] using rev_ind; [reflexivity|]. clear IHw'. rewrite app_assoc in E. rewrite app_comm_cons in E.
    apply app_inj_tail in E as [_ <-]. specialize (W' Byte.x7d). cbn in W'.
    destruct W' as [K|[K|[K|[K|[]]]]]; [apply in_or_app; right; left; reflexivity|discriminate K..]. }
  subst w'. rewrite app_nil_r in E. destruct M as (v & b & h & s & e & o & -> & _).
  inversion T as [| | | | | | | |s0 l MM H]; subst. clear T. rename H into E. symmetry in E.
  assert (E2 : json_fields fs = s0).
  { rewrite app_comm_cons in E. change (str "{" ++ s0 ++ str "}") with (Byte.x7b :: s0 ++ [Byte.x7d]) in E.
    rewrite app_comm_cons in E. apply app_inj_tail in E as [E _]. apply cons_eq in E as [_ E]. exact E. }
  assert (E3 : ServerConfig_marshal_value c = str "{" ++ (s0 ++ str "," ++ json_quote (str "PrivateKey") ++ Byte.x3a :: str "{}") ++ str "}").
  { unfold ServerConfig_marshal_value, json_struct. rewrite <- E2.
    change (combine (config_names ++ [str "PrivateKey"]) (config_values (sc_config c) ++ [str "{}"])) with (fs ++ [(str "PrivateKey", str "{}")]).
    rewrite fields_snoc by discriminate. reflexivity. }
  exists [], (ServerConfig_marshal_value c), []. split; [rewrite app_nil_r; reflexivity|]. split; [intros x []|]. split; [|intros x []].
  rewrite E3. apply jt_object. apply members_snoc; [exact MM|].
  change (json_quote (str "PrivateKey") ++ Byte.x3a :: str "{}")
    with ([] ++ (str """" ++ str "PrivateKey" ++ str """") ++ [] ++ str ":" ++ [] ++ (str "{" ++ [] ++ str "}") ++ []).
  apply jm_one; try (intros x []). - apply plain_body. reflexivity. - apply jt_object0. intros x [].
Qed.

Theorem C62_marshalled_by_value_refuted : forall (LIB : OPRF) (iw : Z) (c : ServerConfig LIB),
  wf_config iw (sc_config c) ->
  (forall c' : ServerConfig LIB, sc_config c' = sc_config c -> ServerConfig_marshal_value c' = ServerConfig_marshal_value c)
  /\ Config_unmarshal iw (ServerConfig_marshal_value c) = Ok (sc_config c)
  /\ forall c' : ServerConfig LIB, ServerConfig_UnmarshalJSON LIB iw (ServerConfig_marshal_value c) <> Ok c'.
Proof.
  intros LIB iw c W. split; [|split].
  - intros c' E. unfold ServerConfig_marshal_value. rewrite E. reflexivity.
  - destruct (value_document LIB c) as (ms & D & M & D0).
    pose proof (proj1 (config_unmarshal_spec iw _ _) (config_roundtrip iw (sc_config c) W)) as (j & J & R).
    assert (j = JObj ms) as ->.
    { eapply accepted_unique; [exact J|]. split; [exact D0|]. destruct M as (v & b & h & s & e & o & -> & _). cbn. lia. }
    apply config_unmarshal_spec. exists (JObj (ms ++ [(str "PrivateKey", JObj [])])). split.
    { split; [exact D|]. destruct M as (v & b & h & s & e & o & -> & _). cbn. lia. }
    right. eexists. split; [reflexivity|]. apply config_members_spec. rewrite decode_members_app.
    destruct R as [[R _]|(ms' & R & K)]; [discriminate R|]. assert (ms' = ms) as -> by congruence.
    apply config_members_spec in K. rewrite K. reflexivity.
  - intros c' H. apply server_config_unmarshal_spec in H as (j & k & J & R & _).
    destruct (value_document LIB c) as (ms & D & M & _).
    assert (j = JObj (ms ++ [(str "PrivateKey", JObj [])])) as ->.
    { eapply accepted_unique; [exact J|]. split; [exact D|]. destruct M as (v & b & h & s & e & o & -> & _). cbn. lia. }
    destruct R as [[R _]|(ms' & R & _ & K)]; [discriminate R|].
    assert (ms' = ms ++ [(str "PrivateKey", JObj [])]) as -> by congruence. clear R J D. cbn [snd] in K. destruct K as (m & K).
    assert (NF : names_field (str "privateKey") (str "PrivateKey")) by (apply fold_eq_names; [apply ascii_name; reflexivity|reflexivity]).
    remember (ms ++ [(str "PrivateKey", JObj [])]) as l eqn:L. destruct K as [|? ? ? ? ? ? NN|? ? ? ? ? ?|? ? ? ? ? ? ? ?|? ? ? ? ? ?|? ? ? ? ? ? ? ?];
      try (apply app_inj_tail in L as [_ L]; apply pair_inj in L as [-> L]; try discriminate L).
    + destruct ms; discriminate L.
    + exact (NN NF).
Qed.

Example C62_example :
  Config_unmarshal_into 64 DefaultConfig (str "{""bucketIDBitSize"":16}") = (mkConfig 1 16 1 1 1 3, None)
  /\ ServerConfig_marshal_value (LIB := toy_OPRF) {| sc_config := ex_cfg; sc_privateKey := toy_key 3 |}
     = str "{""version"":1,""bucketIDBitSize"":20,""bucketHasher"":1,""slowHasher"":0,""bucketEncryptor"":1,""oprfSuite"":3,""PrivateKey"":{}}"
  /\ wf_config 64 ex_cfg
  /\ UnmarshalBinary_into toy_OPRF {| rs_version := 9; rs_evaluatedElement := [Byte.x09]; rs_bucketContents := Some [Byte.x07] |} (map nB [0;0;0;1;5])
     = ({| rs_version := 1; rs_evaluatedElement := Byte.x05 :: zeros 32; rs_bucketContents := Some [Byte.x07] |}, Some "too few bytes to deserialize EvaluatedElement"%string)
  /\ ServerConfig_UnmarshalJSON_into (LIB := toy_OPRF) 64 {| sc_config := ex_cfg; sc_privateKey := toy_key 3 |} (str "{""version"":7}")
     = (mkConfig 7 0 0 0 0 0, None, Some "oprf: unsupported suite"%string).
Proof. split; [vm_compute; reflexivity|]. split; [vm_compute; reflexivity|]. split; [vm_compute; repeat split; try reflexivity; discriminate|]. split; vm_compute; reflexivity. Qed.

Print Assumptions C62_config_over_a_config.
Print Assumptions C62_syntax_error_changes_nothing.
Print Assumptions C62_type_error_changes_the_config_refuted.
Print Assumptions C62_response_over_a_response.
Print Assumptions C62_errors_of_a_response.
Print Assumptions C62_failed_response.
Print Assumptions C62_server_config_over_a_config.
Print Assumptions C62_failed_server_config.
Print Assumptions C62_marshalled_by_value_refuted.
