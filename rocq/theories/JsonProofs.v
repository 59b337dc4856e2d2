(** * encoding/json round trips for what the repository prints and reads. *)
From Coq Require Import Lia DecimalN DecimalFacts.
From Verif Require Import Base BaseProofs Utf8 Base64 Json.
Local Open Scope N_scope.

(** ** Base64 *)
Lemma b64_char_val n : n < 64 -> b64_val (b64_char n) = Some n.
Proof.
  intros H. assert (K : forallb (fun i => match b64_val (b64_char i) with Some v => v =? i | None => false end)
    (map N.of_nat (seq 0 64)) = true) by (vm_compute; reflexivity).
  rewrite forallb_forall in K. specialize (K n).
  assert (I : In n (map N.of_nat (seq 0 64))).
  { apply in_map_iff. exists (N.to_nat n). split; [apply N2Nat.id|]. apply in_seq. lia. }
  specialize (K I). destruct (b64_val (b64_char n)); [|discriminate]. apply N.eqb_eq in K. congruence.
Qed.

Lemma b64_char_not_crlf n : beqb (b64_char n) Byte.x0a || beqb (b64_char n) Byte.x0d = false.
Proof.
  unfold b64_char. repeat match goal with |- context [if ?b then _ else _] => destruct b eqn:? end; try reflexivity.
  all: rewrite ?N.ltb_lt, ?N.ltb_ge in *; apply orb_false_iff; split; apply beqb_neq; intros K;
       apply (f_equal bN) in K; rewrite bN_nB_small in K by lia; vm_compute (bN _) in K; lia.
Qed.

Definition is_crlf (c : byte) : bool := beqb c Byte.x0a || beqb c Byte.x0d.
Lemma b64_encode_no_crlf b : filter (fun c => negb (is_crlf c)) (b64_encode b) = b64_encode b.
Proof.
  assert (K : forall b, Forall (fun c => is_crlf c = false) (b64_encode b)).
  { fix IH 1. intros [|x [|y [|z r]]]; cbn [b64_encode].
    - constructor.
    - repeat constructor; apply b64_char_not_crlf.
    - repeat constructor; apply b64_char_not_crlf.
    - do 4 (constructor; [apply b64_char_not_crlf|]). apply IH. }
  specialize (K b). induction K as [|c l Hc F IH]; [reflexivity|]. cbn [filter]. rewrite Hc. cbn [negb]. rewrite IH. reflexivity.
Qed.

Lemma nB_mod_eq n y : n mod 256 = bN y -> nB n = y.
Proof. intros H. rewrite <- nB_mod, H. apply nB_bN. Qed.

Lemma nB_eq n y : n = bN y -> nB n = y.
Proof. intros ->. apply nB_bN. Qed.

Lemma b64_strict_roundtrip : forall b, b64_decode_strict (b64_encode b) = Some b.
Proof.
  assert (P : b64_val b64_pad = None) by reflexivity.
  fix IH 1. intros [|x [|y [|z r]]]; [reflexivity| | |]; cbn [b64_encode b64_decode_strict].
  - pose proof (bN_lt x).
    rewrite !b64_char_val by (try (apply N.div_lt_upper_bound; lia); pose proof (N.mod_lt (bN x) 4); lia).
    rewrite P, beqb_refl. cbn [andb]. f_equal. f_equal.
    apply nB_eq. pose proof (N.div_mod (bN x) 4). rewrite N.div_mul by lia. lia.
  - pose proof (bN_lt x). pose proof (bN_lt y). pose proof (N.mod_lt (bN x) 4). pose proof (N.mod_lt (bN y) 16).
    assert (bN y / 16 < 16) by (apply N.div_lt_upper_bound; lia).
    rewrite !b64_char_val by (try (apply N.div_lt_upper_bound; lia); lia).
    rewrite P, beqb_refl. f_equal. f_equal; [|f_equal].
    + apply nB_eq. rewrite N.div_add_l by lia. rewrite (N.div_small (bN y / 16)) by lia.
      pose proof (N.div_mod (bN x) 4). lia.
    + apply nB_mod_eq.
      rewrite (N.div_mul (bN y mod 16) 4) by lia.
      replace (((bN x mod 4) * 16 + bN y / 16) * 16 + bN y mod 16) with (bN y + bN x mod 4 * 256)
        by (pose proof (N.div_mod (bN y) 16); lia).
      rewrite N.mod_add by lia. apply N.mod_small. apply bN_lt.
  - pose proof (bN_lt x). pose proof (bN_lt y). pose proof (bN_lt z).
    pose proof (N.mod_lt (bN x) 4). pose proof (N.mod_lt (bN y) 16). pose proof (N.mod_lt (bN z) 64).
    assert (bN y / 16 < 16) by (apply N.div_lt_upper_bound; lia).
    assert (bN z / 64 < 4) by (apply N.div_lt_upper_bound; lia).
    rewrite !b64_char_val by (try (apply N.div_lt_upper_bound; lia); lia).
    rewrite IH. f_equal. f_equal; [|f_equal; [|f_equal]].
    + apply nB_eq. rewrite N.div_add_l by lia. rewrite (N.div_small (bN y / 16)) by lia.
      pose proof (N.div_mod (bN x) 4). lia.
    + apply nB_mod_eq.
      rewrite (N.div_add_l (bN y mod 16) 4) by lia. rewrite (N.div_small (bN z / 64)) by lia. rewrite N.add_0_r.
      replace (((bN x mod 4) * 16 + bN y / 16) * 16 + bN y mod 16) with (bN y + bN x mod 4 * 256)
        by (pose proof (N.div_mod (bN y) 16); lia).
      rewrite N.mod_add by lia. apply N.mod_small. apply bN_lt.
    + apply nB_mod_eq.
      replace (((bN y mod 16) * 4 + bN z / 64) * 64 + bN z mod 64) with (bN z + bN y mod 16 * 256)
        by (pose proof (N.div_mod (bN z) 64); lia).
      rewrite N.mod_add by lia. apply N.mod_small. apply bN_lt.
Qed.

Lemma b64_roundtrip b : b64_decode (b64_encode b) = Some b.
Proof. unfold b64_decode. pose proof (b64_encode_no_crlf b) as K. unfold is_crlf in K. rewrite K. apply b64_strict_roundtrip. Qed.

(** ** Strings *)

(** What a reader of a quoted string gets: every byte that is not part of a
    valid UTF-8 sequence becomes U+FFFD. *)
Fixpoint sanitize (skip : nat) (s : bytes) : bytes :=
  match s with
  | [] => []
  | c :: r =>
      match skip with
      | S k => c :: sanitize k r
      | O => match decode_rune s with
             | Some (_, w) => c :: sanitize (w - 1) r
             | None => replacement ++ sanitize 0 r
             end
      end
  end.

Definition ascii (c : byte) : bool := bN c <? 128.

Lemma quote_unit c : ascii c = true -> forall r,
  exists w, str_unit ((if html_safe c then [c] else esc_ascii c) ++ r) = Some ([c], w)
    /\ length (if html_safe c then [c] else esc_ascii c) = w /\ (1 <= w)%nat
    /\ match (if html_safe c then [c] else esc_ascii c) with x :: _ => (bN x =? 34) = false | [] => False end.
Proof. destruct c; intros H; try discriminate H; clear H; intros r; eexists; (split; [reflexivity|]); (split; [reflexivity|]); (split; [|reflexivity]); cbn; lia. Qed.

Lemma quote_body_skip k : forall s, quote_body k s = quote_body 0 (skipn k s).
Proof. induction k as [|k IH]; [reflexivity|]. intros [|c s]; [reflexivity|]. cbn [quote_body skipn]. apply IH. Qed.
Lemma parse_str_skip k : forall s, parse_str k s = parse_str 0 (skipn k s).
Proof. induction k as [|k IH]; [reflexivity|]. intros [|c s]; [reflexivity|]. cbn [parse_str skipn]. apply IH. Qed.
Lemma sanitize_skip k : forall s, sanitize k s = firstn k s ++ sanitize 0 (skipn k s).
Proof. induction k as [|k IH]; [reflexivity|]. intros [|c s]; [reflexivity|]. cbn [sanitize skipn firstn app]. rewrite IH. reflexivity. Qed.

Lemma decode_rune_facts s u w : decode_rune s = Some (u, w) ->
  (1 <= w <= length s)%nat /\ (forall r, decode_rune (firstn w s ++ r) = Some (u, w)).
Proof.
  destruct s as [|b0 s]; [discriminate|]. cbn [decode_rune].
  destruct (in_range 0 127 b0) eqn:E0.
  { intros H. apply Some_inj in H. apply pair_inj in H as [<- <-]. split; [cbn; lia|]. intros r. cbn [firstn app decode_rune]. rewrite E0. reflexivity. }
  destruct (in_range 194 223 b0) eqn:E1.
  { destruct s as [|b1 s]; [discriminate|]. destruct (cont b1) eqn:C1; [|discriminate].
    intros H. apply Some_inj in H. apply pair_inj in H as [<- <-]. split; [cbn; lia|]. intros r. cbn [firstn app decode_rune]. rewrite E0, E1, C1. reflexivity. }
  destruct (in_range 224 239 b0) eqn:E2.
  { destruct s as [|b1 [|b2 s]]; [discriminate..|]. cbv zeta. destruct (_ && _) eqn:C1; [|discriminate].
    intros H. apply Some_inj in H. apply pair_inj in H as [<- <-]. split; [cbn; lia|]. intros r. cbn [firstn app decode_rune]. rewrite E0, E1, E2. cbv zeta. rewrite C1. reflexivity. }
  destruct (in_range 240 244 b0) eqn:E3; [|discriminate].
  destruct s as [|b1 [|b2 [|b3 s]]]; [discriminate..|]. cbv zeta. destruct (_ && _) eqn:C1; [|discriminate].
  intros H. apply Some_inj in H. apply pair_inj in H as [<- <-]. split; [cbn; lia|]. intros r. cbn [firstn app decode_rune]. rewrite E0, E1, E2, E3. cbv zeta. rewrite C1. reflexivity.
Qed.

Lemma decode_rune_2028 s u w : decode_rune s = Some (u, w) -> (u =? 8232) || (u =? 8233) = true ->
  forall r, str_unit ((str "\u202" ++ [hexlow (u mod 16)]) ++ r) = Some (firstn w s, 6%nat).
Proof.
  intros H K r. assert (D : encode_rune u = firstn w s).
  { revert H. destruct s as [|b0 s]; [discriminate|]. cbn [decode_rune].
    assert (U : u = 8232 \/ u = 8233) by (apply orb_true_iff in K as [K|K]; apply N.eqb_eq in K; auto). clear K.
    unfold cont. destruct (in_range 0 127 b0) eqn:E; [|destruct (in_range 194 223 b0) eqn:E1; [|destruct (in_range 224 239 b0) eqn:E2; [|destruct (in_range 240 244 b0) eqn:E3; [|discriminate]]]].
    all: cbv zeta; unfold in_range in *.
    - intros H. apply Some_inj in H. apply pair_inj in H as [<- <-]. apply andb_true_iff in E. rewrite !N.leb_le in E. lia.
    - destruct s as [|b1 s]; [discriminate|]. destruct ((128 <=? bN b1) && (bN b1 <=? 191)) eqn:C; [|discriminate].
      intros H. apply Some_inj in H. apply pair_inj in H as [<- <-].
      pose proof (bN_lt b1). rewrite ?andb_true_iff, ?N.leb_le in *. lia.
    - destruct s as [|b1 [|b2 s]]; [discriminate..|].
      match goal with |- context [if (?b && ?c)%bool then Some _ else _] => destruct (b && c)%bool eqn:C end; [|discriminate]. intros H. apply Some_inj in H. apply pair_inj in H as [H <-].
      assert (L : (128 <= bN b1 <= 191) /\ 128 <= bN b2 <= 191).
      { destruct (bN b0 =? 224), (bN b0 =? 237); rewrite ?andb_true_iff, ?N.leb_le in C; lia. }
      rewrite ?andb_true_iff, ?N.leb_le in *.
      assert (bN b0 = bN Byte.xe2 /\ bN b1 = bN Byte.x80 /\ (bN b2 = bN Byte.xa8 /\ u = 8232 \/ bN b2 = bN Byte.xa9 /\ u = 8233)) as (A & B & C').
      { vm_compute (bN Byte.xe2). vm_compute (bN Byte.x80). vm_compute (bN Byte.xa8). vm_compute (bN Byte.xa9). lia. }
      apply bN_inj in A, B. destruct C' as [[C' V]|[C' V]]; apply bN_inj in C'; subst b0 b1 b2; rewrite V; reflexivity.
    - destruct s as [|b1 [|b2 [|b3 s]]]; [discriminate..|].
      match goal with |- context [if (?b && ?c)%bool then Some _ else _] => destruct (b && c)%bool eqn:C end; [|discriminate]. intros H. apply Some_inj in H. apply pair_inj in H as [H <-].
      assert (L : (bN b0 = 240 -> 144 <= bN b1) /\ (128 <= bN b1 <= 191)).
      { destruct (bN b0 =? 240) eqn:Z, (bN b0 =? 244); rewrite ?N.eqb_eq, ?N.eqb_neq in Z; rewrite ?andb_true_iff, ?N.leb_le in C; lia. }
      rewrite ?andb_true_iff, ?N.leb_le in *. lia. }
  rewrite <- D. apply orb_true_iff in K as [K|K]; apply N.eqb_eq in K; rewrite K; reflexivity.
Qed.

Lemma parse_quote_aux : forall n s rest, (length s <= n)%nat ->
  parse_str 0 (quote_body 0 s ++ Byte.x22 :: rest) = Some (sanitize 0 s, rest).
Proof.
  induction n as [|n IH]; intros s rest L.
  { destruct s; [reflexivity|cbn [length] in L; lia]. }
  destruct s as [|c s]; [reflexivity|]. cbn [length] in L.
  assert (step : forall e out w tl, (1 <= w)%nat -> length e = w -> str_unit (e ++ tl) = Some (out, w) ->
    match e with x :: _ => (bN x =? 34) = false | [] => False end ->
    parse_str 0 (e ++ tl) = match parse_str 0 tl with Some (o, rest) => Some (out ++ o, rest) | None => None end).
  { intros e out w tl Hw Le U F. destruct e as [|x e]; [contradiction|]. cbn [app parse_str]. rewrite F.
    cbn [app] in U. rewrite U. rewrite parse_str_skip, skipn_app_exact; [reflexivity|]. cbn [length] in Le. lia. }
  cbn [quote_body sanitize]. destruct (bN c <? 128) eqn:A.
  - destruct (quote_unit c A (quote_body 0 s ++ Byte.x22 :: rest)) as (w & U & Lw & Hw & F).
    rewrite <- app_assoc, (step _ _ _ _ Hw Lw U F), IH by lia.
    assert (D : decode_rune (c :: s) = Some (bN c, 1%nat)).
    { cbn [decode_rune]. unfold in_range. apply N.ltb_lt in A. replace (bN c <=? 127) with true by (symmetry; apply N.leb_le; lia).
      replace (0 <=? bN c) with true by (symmetry; apply N.leb_le; lia). reflexivity. }
    rewrite D. reflexivity.
  - destruct (decode_rune (c :: s)) as [[u w]|] eqn:D.
    + destruct (decode_rune_facts _ _ _ D) as [W DR]. cbn [length] in W.
      assert (Q : quote_body (w - 1) s = quote_body 0 (skipn w (c :: s))).
      { rewrite quote_body_skip. destruct w; [lia|]. cbn [skipn]. replace (S w - 1)%nat with w by lia. reflexivity. }
      assert (S' : c :: sanitize (w - 1) s = firstn w (c :: s) ++ sanitize 0 (skipn w (c :: s))).
      { rewrite sanitize_skip. destruct w; [lia|]. cbn [skipn firstn app]. replace (S w - 1)%nat with w by lia. reflexivity. }
      rewrite Q, S', <- app_assoc.
      assert (L' : (length (skipn w (c :: s)) <= n)%nat) by (rewrite skipn_length; cbn [length]; lia).
      destruct (_ || _) eqn:K.
      * rewrite (step _ (firstn w (c :: s)) 6%nat); [rewrite IH by exact L'; reflexivity|lia|reflexivity| |reflexivity].
        apply (decode_rune_2028 _ _ _ D K).
      * rewrite (step _ (firstn w (c :: s)) w); [rewrite IH by exact L'; reflexivity|lia| | |].
        -- rewrite firstn_length. cbn [length]. lia.
        -- specialize (DR (quote_body 0 (skipn w (c :: s)) ++ Byte.x22 :: rest)).
           destruct w as [|w]; [lia|]. cbn [firstn app] in *. cbn [str_unit]. apply N.ltb_ge in A.
           replace (bN c <? 32) with false by (symmetry; apply N.ltb_ge; lia).
           replace (bN c =? 92) with false by (symmetry; apply N.eqb_neq; lia).
           replace (bN c <? 128) with false by (symmetry; apply N.ltb_ge; lia).
           rewrite DR. do 2 f_equal. cbn [firstn]. f_equal. apply firstn_app_exact. rewrite firstn_length. lia.
        -- destruct w as [|w]; [lia|]. cbn [firstn]. apply N.ltb_ge in A. apply N.eqb_neq. lia.
    + rewrite <- app_assoc. rewrite (step _ replacement 6%nat); [rewrite IH by lia; reflexivity|lia|reflexivity|reflexivity|reflexivity].
Qed.

Lemma parse_quote s rest : parse_str 0 (quote_body 0 s ++ Byte.x22 :: rest) = Some (sanitize 0 s, rest).
Proof. apply (parse_quote_aux (length s)). apply Nat.le_refl. Qed.

Lemma sanitize_ascii s : forallb ascii s = true -> sanitize 0 s = s.
Proof.
  induction s as [|c s IH]; [reflexivity|]. cbn [forallb]. intros H. apply andb_true_iff in H as [A H].
  unfold ascii in A. apply N.ltb_lt in A. cbn [sanitize decode_rune]. unfold in_range.
  replace (bN c <=? 127) with true by (symmetry; apply N.leb_le; lia).
  replace (0 <=? bN c) with true by (symmetry; apply N.leb_le; lia). cbn [andb Nat.sub]. rewrite IH by exact H. reflexivity.
Qed.

(** ** Numbers *)
Definition not_digit (s : bytes) : Prop := match s with [] => True | c :: _ => is_digit c = false end.

Lemma span_uint d rest : not_digit rest -> span_digits (uint_bytes d ++ rest) = (uint_bytes d, rest).
Proof.
  intros H. induction d; cbn [uint_bytes app]; try (cbn [span_digits is_digit]; change (is_digit _) with true; rewrite IHd; reflexivity).
  destruct rest as [|c rest]; [reflexivity|]. cbn [span_digits]. cbn in H. rewrite H. reflexivity.
Qed.

Lemma uint_digits d : forallb is_digit (uint_bytes d) = true.
Proof. induction d; [reflexivity|..]; exact IHd. Qed.

Lemma digits_acc d : forall p, fold_left (fun acc c => acc * 10 + (bN c - 48)) (uint_bytes d) (Npos p) = Npos (Pos.of_uint_acc d p).
Proof. induction d; intros p; [reflexivity|..]; cbn [uint_bytes fold_left Pos.of_uint_acc]; rewrite <- IHd; f_equal; vm_compute (bN _ - 48); lia. Qed.
Lemma digits_of_uint d : digits_val (uint_bytes d) = N.of_uint d.
Proof.
  unfold digits_val. induction d; [reflexivity|exact IHd|..]; cbn [uint_bytes fold_left]; vm_compute (0 * 10 + (bN _ - 48)); apply digits_acc.
Qed.
Lemma digits_dec n : digits_val (dec_N n) = n.
Proof. unfold dec_N. rewrite digits_of_uint. apply DecimalN.Unsigned.of_to. Qed.

Definition dec_ok (s : bytes) : bool :=
  match s with [] => false | [_] => true | c :: _ => negb (bN c =? 48) end.
Lemma dec_N_ok n : dec_ok (dec_N n) = true.
Proof.
  unfold dec_N. rewrite <- (DecimalN.Unsigned.of_to n), DecimalN.Unsigned.to_of. unfold Decimal.unorm.
  assert (K : forall d, match Decimal.nzhead d with Decimal.D0 _ => False | _ => True end) by (induction d; [exact I|exact IHd|exact I..]).
  specialize (K (N.to_uint n)). destruct (Decimal.nzhead (N.to_uint n)) as [|d|d|d|d|d|d|d|d|d|d]; [reflexivity|contradiction|..];
  cbn [uint_bytes]; destruct d; reflexivity.
Qed.

(** What may follow a printed value. *)
Definition delim (s : bytes) : Prop :=
  match s with [] => True | c :: _ => c = Byte.x2c \/ c = Byte.x7d \/ c = Byte.x5d \/ c = Byte.x0a end.
Lemma delim_not_digit s : delim s -> not_digit s.
Proof. destruct s as [|c s]; [exact (fun _ => I)|]. intros [->|[->|[->| ->]]]; reflexivity. Qed.

Lemma parse_num_dec n rest : delim rest -> parse_num (dec_N n ++ rest) = Some (dec_N n, rest).
Proof.
  intros D. pose proof (dec_N_ok n) as K. pose proof (delim_not_digit _ D) as ND.
  unfold parse_num. unfold dec_N in *. pose proof (span_uint (N.to_uint n) rest ND) as S'. pose proof (uint_digits (N.to_uint n)) as AD.
  destruct (uint_bytes (N.to_uint n)) as [|c u] eqn:E; [discriminate|]. cbn [app] in *.
  cbn [forallb] in AD. apply andb_true_iff in AD as [AD _].
  assert (M : (bN c =? 45) = false). { unfold is_digit in AD. apply andb_true_iff in AD as [AD _]. apply N.leb_le in AD. apply N.eqb_neq. lia. }
  rewrite M. rewrite S'. unfold dec_ok in K. rewrite K. cbn [negb].
  destruct rest as [|d rest].
  - rewrite !app_nil_r. reflexivity.
  - assert (X : (bN d =? 46) = false /\ (bN d =? 101) || (bN d =? 69) = false) by (destruct D as [->|[->|[->| ->]]]; split; reflexivity).
    destruct X as [X1 X2]. rewrite X1, X2. cbn [app]. rewrite app_nil_r. reflexivity.
Qed.

Lemma parse_num_neg n rest : delim rest -> parse_num (Byte.x2d :: dec_N n ++ rest) = Some (Byte.x2d :: dec_N n, rest).
Proof.
  intros D. pose proof (dec_N_ok n) as K. pose proof (delim_not_digit _ D) as ND.
  unfold parse_num. unfold dec_N in *. change (bN Byte.x2d =? 45) with true. cbv iota beta.
  rewrite (span_uint (N.to_uint n) rest ND). unfold dec_ok in K. rewrite K. cbn [negb].
  destruct rest as [|d rest].
  - rewrite !app_nil_r. reflexivity.
  - assert (X : (bN d =? 46) = false /\ (bN d =? 101) || (bN d =? 69) = false) by (destruct D as [->|[->|[->| ->]]]; split; reflexivity).
    destruct X as [X1 X2]. rewrite X1, X2. cbn [app]. rewrite app_nil_r. reflexivity.
Qed.

(** ** Printed values are read back *)
Definition prints (v : bytes) (j : json) : Prop :=
  (match v with c :: _ => is_ws c = false | [] => False end) /\
  forall fuel depth rest, delim rest -> parse_value (S fuel) depth (v ++ rest) = Some (j, rest).

Lemma dec_head n : match dec_N n with c :: _ => is_digit c = true | [] => False end.
Proof.
  pose proof (dec_N_ok n) as K. pose proof (uint_digits (N.to_uint n)) as AD. unfold dec_N in *.
  destruct (uint_bytes (N.to_uint n)); [discriminate|]. cbn [forallb] in AD. apply andb_true_iff in AD. apply AD.
Qed.
Lemma digit_facts c : is_digit c = true -> is_ws c = false /\ (bN c =? 123) = false /\ (bN c =? 91) = false /\ (bN c =? 34) = false /\ (bN c =? 45) = false.
Proof. destruct c; intros H; try discriminate H; repeat split. Qed.

Lemma prints_dec n : prints (dec_N n) (JNum (dec_N n)).
Proof.
  pose proof (dec_head n) as K. split.
  - destruct (dec_N n) as [|c u]; [exact K|]. apply digit_facts, K.
  - intros fuel depth rest D. pose proof (parse_num_dec n rest D) as P.
    destruct (dec_N n) as [|c u]; [contradiction|]. cbn [app] in *. destruct (digit_facts c K) as (A1 & A2 & A3 & A4 & A5).
    cbn [parse_value skip_ws]. rewrite A1, A2, A3, A4, A5, K. cbn [orb]. rewrite P. reflexivity.
Qed.
Lemma prints_decZ z : prints (dec_Z z) (JNum (dec_Z z)).
Proof.
  unfold dec_Z. destruct (z <? 0)%Z; [|apply prints_dec]. split; [reflexivity|].
  intros fuel depth rest D. cbn [app parse_value skip_ws]. change (is_ws Byte.x2d) with false. cbv iota.
  change (bN Byte.x2d =? 123) with false. change (bN Byte.x2d =? 91) with false. change (bN Byte.x2d =? 34) with false.
  change (bN Byte.x2d =? 45) with true. cbn [orb]. cbv iota. rewrite parse_num_neg by exact D. reflexivity.
Qed.
Lemma prints_quote s : prints (json_quote s) (JStr (sanitize 0 s)).
Proof.
  split; [reflexivity|]. intros fuel depth rest D. unfold json_quote. cbn [app]. rewrite <- app_assoc. cbn [app].
  cbn [parse_value skip_ws]. change (is_ws Byte.x22) with false. cbv iota.
  change (bN Byte.x22 =? 123) with false. change (bN Byte.x22 =? 91) with false. change (bN Byte.x22 =? 34) with true. cbv iota.
  rewrite parse_quote. reflexivity.
Qed.
Lemma prints_null : prints (str "null") JNull.
Proof. split; [reflexivity|]. intros fuel depth rest D. reflexivity. Qed.

Lemma b64_char_ascii n : ascii (b64_char n) = true.
Proof.
  unfold b64_char. repeat match goal with |- context [if ?b then _ else _] => destruct b eqn:? end; try reflexivity.
  all: rewrite ?N.ltb_lt, ?N.ltb_ge in *; unfold ascii; rewrite bN_nB_small by lia; apply N.ltb_lt; lia.
Qed.
Lemma b64_ascii : forall b, forallb ascii (b64_encode b) = true.
Proof.
  fix IH 1. intros [|x [|y [|z r]]]; [reflexivity|..]; cbn [b64_encode forallb]; rewrite !b64_char_ascii; [reflexivity..|]. exact (IH r).
Qed.
Definition jbytes (s : gslice) : json := match s with None => JNull | Some b => JStr (b64_encode b) end.
Lemma prints_bytes s : prints (json_bytes s) (jbytes s).
Proof.
  destruct s as [b|]; [|apply prints_null]. cbn [json_bytes jbytes].
  rewrite <- (sanitize_ascii (b64_encode b)) at 2 by apply b64_ascii. apply prints_quote.
Qed.
Lemma set_bytes_jbytes old s : set_bytes old (jbytes s) = ((s, []), false).
Proof. destruct s as [b|]; [|reflexivity]. cbn [jbytes set_bytes]. rewrite b64_roundtrip. reflexivity. Qed.
Lemma dec_all_digits n : all_digits (dec_N n) = true.
Proof. pose proof (dec_head n) as K. pose proof (uint_digits (N.to_uint n)) as D. unfold all_digits, dec_N in *. destruct (uint_bytes (N.to_uint n)); [contradiction|]. exact D. Qed.
Lemma set_uint_dec bits old n : n < 2 ^ bits -> set_uint bits old (JNum (dec_N n)) = (n, false).
Proof.
  intros H. unfold set_uint, parse_uint. rewrite dec_all_digits, digits_dec. apply N.ltb_lt in H. rewrite H. reflexivity.
Qed.
Lemma set_int_dec iw old z : (- 2 ^ (iw - 1) <= z < 2 ^ (iw - 1))%Z -> set_int iw old (JNum (dec_Z z)) = (z, false).
Proof.
  intros H. unfold set_int, parse_int, dec_Z.
  assert (R : ((- 2 ^ (iw - 1) <=? z)%Z && (z <? 2 ^ (iw - 1))%Z) = true) by (apply andb_true_iff; rewrite Z.leb_le, Z.ltb_lt; exact H).
  pose proof dec_all_digits as AD.
  destruct (z <? 0)%Z eqn:S'.
  - apply Z.ltb_lt in S'. change (bN Byte.x2d =? 45) with true. cbv iota. rewrite AD, digits_dec, Z2N.id by lia.
    replace (- - z)%Z with z by lia. rewrite R. reflexivity.
  - apply Z.ltb_ge in S'. pose proof (dec_head (Z.to_N z)) as K. pose proof (AD (Z.to_N z)) as AD'. pose proof (digits_dec (Z.to_N z)) as V.
    destruct (dec_N (Z.to_N z)) as [|c u]; [contradiction|]. destruct (digit_facts c K) as (_ & _ & _ & _ & X). rewrite X.
    rewrite AD', V, Z2N.id by lia. rewrite R. reflexivity.
Qed.

(** ** Structs *)
Lemma parse_fields : forall fs js fuel depth rest, fs <> [] -> Forall2 (fun f j => prints (snd f) j) fs js ->
  (length fs < fuel)%nat ->
  parse_members fuel depth (json_fields fs ++ Byte.x7d :: rest) = Some (combine (map (fun f => sanitize 0 (fst f)) fs) js, rest).
Proof.
  induction fs as [|[k v] fs IH]; [contradiction|]. intros js fuel depth rest _ F L.
  inversion F as [|? j ? js' [Hh P] F']; subst. cbn [snd] in *. cbn [length] in L.
  destruct fuel as [|fuel]; [lia|]. destruct fuel as [|fuel]; [lia|].
  assert (step : forall tl, delim tl -> forall X, X = tl ->
    parse_members (S (S fuel)) depth (json_quote k ++ Byte.x3a :: v ++ X) =
      match skip_ws tl with
      | c :: r => if bN c =? 44 then match parse_members (S fuel) depth r with
                                     | Some (ms, t') => Some ((sanitize 0 k, j) :: ms, t') | None => None end
                  else if bN c =? 125 then Some ([(sanitize 0 k, j)], r) else None
      | [] => None end).
  { intros tl D X ->. unfold json_quote. cbn [app]. rewrite <- app_assoc. cbn [app].
    remember (S fuel) as f1. cbn [parse_members skip_ws]. change (is_ws Byte.x22) with false. cbv iota.
    change (bN Byte.x22 =? 34) with true. cbv iota. rewrite parse_quote. cbn [skip_ws]. change (is_ws Byte.x3a) with false. cbv iota.
    change (bN Byte.x3a =? 58) with true. cbv iota. subst f1. rewrite (P fuel depth tl D). reflexivity. }
  destruct fs as [|f fs].
  - cbn [json_fields]. inversion F'; subst. rewrite <- app_assoc. cbn [app]. rewrite (step (Byte.x7d :: rest)); [reflexivity| |reflexivity]. right; left; reflexivity.
  - change (json_fields ((k, v) :: f :: fs)) with (json_quote k ++ Byte.x3a :: v ++ Byte.x2c :: json_fields (f :: fs)).
    rewrite <- app_assoc. cbn [app]. rewrite <- app_assoc. cbn [app].
    rewrite (step (Byte.x2c :: json_fields (f :: fs) ++ Byte.x7d :: rest)); [|left; reflexivity|reflexivity].
    cbn [skip_ws]. change (is_ws Byte.x2c) with false. cbv iota. change (bN Byte.x2c =? 44) with true. cbv iota.
    rewrite (IH js' (S fuel) depth rest) by (try discriminate; try exact F'; cbn [length] in *; lia). reflexivity.
Qed.

Lemma json_fields_length fs : (length fs <= length (json_fields fs))%nat.
Proof.
  induction fs as [|[k v] [|f fs] IH]; [apply Nat.le_refl| |].
  - cbn [json_fields]. unfold json_quote. cbn [length app]. rewrite !app_length. cbn [length]. lia.
  - change (json_fields ((k, v) :: f :: fs)) with (json_quote k ++ Byte.x3a :: v ++ Byte.x2c :: json_fields (f :: fs)).
    rewrite app_length. cbn [length]. rewrite app_length. cbn [length] in *. lia.
Qed.

Lemma parse_struct fs js fuel depth rest : fs <> [] -> Forall2 (fun f j => prints (snd f) j) fs js ->
  (length fs < fuel)%nat -> depth < maxNestingDepth ->
  parse_value (S fuel) depth (json_struct fs ++ rest) = Some (JObj (combine (map (fun f => sanitize 0 (fst f)) fs) js), rest).
Proof.
  intros NE F L D. unfold json_struct. cbn [app]. rewrite <- app_assoc. cbn [app parse_value skip_ws].
  change (is_ws Byte.x7b) with false. cbv iota. change (bN Byte.x7b =? 123) with true. cbv iota.
  replace (maxNestingDepth <=? depth) with false by (symmetry; apply N.leb_gt; exact D).
  pose proof (parse_fields fs js fuel (depth + 1) rest NE F L) as P.
  destruct fs as [|[k v] fs]; [contradiction|].
  assert (H : exists tl, json_fields ((k, v) :: fs) ++ Byte.x7d :: rest = Byte.x22 :: tl).
  { destruct fs as [|f fs]; [cbn [json_fields]|change (json_fields ((k, v) :: f :: fs)) with (json_quote k ++ Byte.x3a :: v ++ Byte.x2c :: json_fields (f :: fs))];
    unfold json_quote; cbn [app]; eexists; reflexivity. }
  destruct H as [tl H]. rewrite H in *. cbn [skip_ws]. change (is_ws Byte.x22) with false. cbv iota.
  change (bN Byte.x22 =? 125) with false. cbv iota. rewrite P. reflexivity.
Qed.

(** The reader of a whole document, with trailing white space. *)
Lemma json_parse_struct fs js ws : fs <> [] -> Forall2 (fun f j => prints (snd f) j) fs js -> forallb is_ws ws = true ->
  json_parse (json_struct fs ++ ws) = Some (JObj (combine (map (fun f => sanitize 0 (fst f)) fs) js)).
Proof.
  intros NE F W. unfold json_parse. rewrite parse_struct with (js := js); [|exact NE|exact F| |reflexivity].
  - replace (skip_ws ws) with (@nil byte); [reflexivity|]. symmetry. induction ws as [|c ws IH]; [reflexivity|].
    cbn [forallb] in W. apply andb_true_iff in W as [W1 W2]. cbn [skip_ws]. rewrite W1. apply IH, W2.
  - unfold json_struct. rewrite app_length. cbn [length]. rewrite app_length. pose proof (json_fields_length fs). cbn [length]. lia.
Qed.

(** ** Adequacy of the fuel: a document that parses with any fuel parses with
    the fuel [json_parse] gives it. *)
Lemma skip_ws_length s : (length (skip_ws s) <= length s)%nat.
Proof. induction s as [|c s IH]; [apply Nat.le_refl|]. cbn [skip_ws]. destruct (is_ws c); cbn [length]; lia. Qed.
Lemma span_digits_length s d t : span_digits s = (d, t) -> length s = (length d + length t)%nat.
Proof.
  revert d t. induction s as [|c s IH]; intros d t; cbn [span_digits].
  - intros H. apply pair_inj in H as [<- <-]. reflexivity.
  - destruct (is_digit c).
    + destruct (span_digits s) as [d' t'] eqn:E. intros H. apply pair_inj in H as [<- <-]. cbn [length]. rewrite (IH _ _ eq_refl). reflexivity.
    + intros H. apply pair_inj in H as [<- <-]. reflexivity.
Qed.
Lemma parse_str_length : forall s k x t, parse_str k s = Some (x, t) -> (length t < length s)%nat.
Proof.
  induction s as [|c s IH]; intros k x t; cbn [parse_str]; [discriminate|]. destruct k as [|k].
  - destruct (bN c =? 34).
    + intros H. apply Some_inj in H. apply pair_inj in H as [<- <-]. cbn [length]. lia.
    + destruct (str_unit (c :: s)) as [[o w]|]; [|discriminate]. destruct (parse_str (w - 1) s) as [[o' r]|] eqn:E; [|discriminate].
      intros H. apply Some_inj in H. apply pair_inj in H as [<- <-]. apply IH in E. cbn [length]. lia.
  - intros H. apply IH in H. cbn [length]. lia.
Qed.
Lemma strip_length p : forall s t, strip p s = Some t -> (length p + length t = length s)%nat.
Proof.
  induction p as [|x p IH]; intros s t; unfold strip; fold strip.
  - intros H. apply Some_inj in H as <-. reflexivity.
  - destruct s as [|y s]; [discriminate|]. destruct (beqb x y); [|discriminate]. intros H. apply IH in H. cbn [length]. lia.
Qed.
Lemma parse_num_length s l t : parse_num s = Some (l, t) -> (length t < length s)%nat.
Proof.
  unfold parse_num.
  set (p := match s with c :: r => if bN c =? 45 then ([c], r) else ([], s) | [] => ([], []) end).
  assert (L1 : (length (snd p) <= length s)%nat).
  { subst p. destruct s as [|c s]; [cbn; lia|]. destruct (bN c =? 45); cbn [snd length]; lia. }
  destruct p as [sg s1]. cbn [snd] in L1. destruct (span_digits s1) as [i s2] eqn:E. apply span_digits_length in E.
  destruct (negb _) eqn:I; [discriminate|]. assert (length i <> 0)%nat by (destruct i; [discriminate|discriminate]).
  set (q := match s2 with c :: r => if bN c =? 46 then let '(d, t) := span_digits r in match d with [] => None | _ => Some (c :: d, t) end else Some ([], s2) | [] => Some ([], []) end).
  assert (L2 : forall f s3, q = Some (f, s3) -> (length s3 <= length s2)%nat).
  { intros f s3. subst q. destruct s2 as [|c s2].
    - intros H'. apply Some_inj in H'. apply pair_inj in H' as [<- <-]. lia.
    - destruct (bN c =? 46).
      + destruct (span_digits s2) as [d t'] eqn:E'. apply span_digits_length in E'. destruct d; [discriminate|].
        intros H'. apply Some_inj in H'. apply pair_inj in H' as [<- <-]. cbn [length] in *. lia.
      + intros H'. apply Some_inj in H'. apply pair_inj in H' as [<- <-]. lia. }
  destruct q as [[f s3]|]; [|discriminate]. specialize (L2 _ _ eq_refl).
  destruct s3 as [|c s3].
  - intros H'. apply Some_inj in H'. apply pair_inj in H' as [<- <-]. cbn [length]. lia.
  - destruct (_ || _).
    + set (y := match s3 with x :: r' => if (bN x =? 43) || (bN x =? 45) then ([x], r') else ([], s3) | [] => ([], []) end).
      assert (L3 : (length (snd y) <= length s3)%nat).
      { subst y. destruct s3 as [|x s3]; [cbn; lia|]. destruct (_ || _); cbn [snd length]; lia. }
      destruct y as [sg' r1]. cbn [snd] in L3. destruct (span_digits r1) as [d t'] eqn:E'. apply span_digits_length in E'.
      destruct d; [discriminate|]. intros H'. apply Some_inj in H'. apply pair_inj in H' as [<- <-]. cbn [length] in *. lia.
    + intros H'. apply Some_inj in H'. apply pair_inj in H' as [<- <-]. cbn [length] in *. lia.
Qed.

Lemma parse_fuel_aux : forall f d,
  (forall s v t, parse_value f d s = Some (v, t) -> (length t < length s)%nat /\
     forall f', (length s - length t <= f')%nat -> parse_value f' d s = Some (v, t)) /\
  (forall s v t, parse_elems f d s = Some (v, t) -> (length t < length s)%nat /\
     forall f', (length s - length t <= f')%nat -> parse_elems f' d s = Some (v, t)) /\
  (forall s v t, parse_members f d s = Some (v, t) -> (length t < length s)%nat /\
     forall f', (length s - length t <= f')%nat -> parse_members f' d s = Some (v, t)).
Proof.
  induction f as [|f IH]; intros d; [repeat split; discriminate|].
  split; [|split].
  - intros s v t. cbn [parse_value]. pose proof (skip_ws_length s) as LS.
    destruct (skip_ws s) as [|c r] eqn:ES; [discriminate|]. cbn [length] in LS.
    assert (G : forall (P : option (json * bytes)), (length t < length s)%nat -> P = Some (v, t) -> (forall f', (length s - length t <= S f')%nat -> parse_value (S f') d s = P) ->
      (length t < length s)%nat /\ forall f', (length s - length t <= f')%nat -> parse_value f' d s = Some (v, t)).
    { intros P L HP H. split; [exact L|]. intros [|f'] Hf; [lia|]. rewrite H by exact Hf. exact HP. }
    destruct (bN c =? 123) eqn:C1.
    { destruct (maxNestingDepth <=? d) eqn:DD; [discriminate|]. destruct (skip_ws r) as [|c' r'] eqn:ER; [discriminate|].
      pose proof (skip_ws_length r) as LR. rewrite ER in LR. cbn [length] in LR.
      destruct (bN c' =? 125) eqn:C2.
      - intros H. apply (G (Some (JObj [], r'))); [|exact H|].
        + apply Some_inj in H. apply pair_inj in H as [_ <-]. lia.
        + intros f' _. cbn [parse_value]. rewrite ES, C1, DD, ER, C2. reflexivity.
      - destruct (parse_members f (d + 1) r) as [[ms t']|] eqn:EM; [|discriminate]. intros H.
        destruct (proj2 (proj2 (IH (d + 1))) _ _ _ EM) as [L M].
        assert (t' = t) by (apply Some_inj in H; apply pair_inj in H as [_ H]; exact H). subst t'.
        apply (G (Some (JObj ms, t))); [lia|exact H|].
        intros f' Hf. cbn [parse_value]. rewrite ES, C1, DD, ER, C2, M by lia. reflexivity. }
    destruct (bN c =? 91) eqn:C3.
    { destruct (maxNestingDepth <=? d) eqn:DD; [discriminate|]. destruct (skip_ws r) as [|c' r'] eqn:ER; [discriminate|].
      pose proof (skip_ws_length r) as LR. rewrite ER in LR. cbn [length] in LR.
      destruct (bN c' =? 93) eqn:C2.
      - intros H. apply (G (Some (JArr [], r'))); [|exact H|].
        + apply Some_inj in H. apply pair_inj in H as [_ <-]. lia.
        + intros f' _. cbn [parse_value]. rewrite ES, C1, C3, DD, ER, C2. reflexivity.
      - destruct (parse_elems f (d + 1) r) as [[ms t']|] eqn:EM; [|discriminate]. intros H.
        destruct (proj1 (proj2 (IH (d + 1))) _ _ _ EM) as [L M].
        assert (t' = t) by (apply Some_inj in H; apply pair_inj in H as [_ H]; exact H). subst t'.
        apply (G (Some (JArr ms, t))); [lia|exact H|].
        intros f' Hf. cbn [parse_value]. rewrite ES, C1, C3, DD, ER, C2, M by lia. reflexivity. }
    intros H. eapply G; [|exact H|].
    + destruct (bN c =? 34).
      { destruct (parse_str 0 r) as [[x t']|] eqn:E; [|discriminate]. apply Some_inj in H. apply pair_inj in H as [_ <-]. apply parse_str_length in E. lia. }
      destruct (_ || _).
      { destruct (parse_num (c :: r)) as [[x t']|] eqn:E; [|discriminate]. apply Some_inj in H. apply pair_inj in H as [_ <-]. apply parse_num_length in E. cbn [length] in E. lia. }
      destruct (strip (str "true") (c :: r)) as [x|] eqn:E1; [|destruct (strip (str "false") (c :: r)) as [x|] eqn:E2; [|destruct (strip (str "null") (c :: r)) as [x|] eqn:E3; [|discriminate]]].
      all: apply Some_inj in H; apply pair_inj in H as [_ <-].
      * apply strip_length in E1. cbn [length] in E1. change (length (str "true")) with 4%nat in E1. lia.
      * apply strip_length in E2. cbn [length] in E2. change (length (str "false")) with 5%nat in E2. lia.
      * apply strip_length in E3. cbn [length] in E3. change (length (str "null")) with 4%nat in E3. lia.
    + intros f' _. cbn [parse_value]. rewrite ES, C1, C3. reflexivity.
  - intros s v t. cbn [parse_elems]. destruct (parse_value f d s) as [[v1 t1]|] eqn:EV; [|discriminate].
    destruct (proj1 (IH d) _ _ _ EV) as [L1 M1]. pose proof (skip_ws_length t1) as LT.
    destruct (skip_ws t1) as [|c r] eqn:ES; [discriminate|]. cbn [length] in LT. destruct (bN c =? 44) eqn:C.
    + destruct (parse_elems f d r) as [[vs t']|] eqn:EE; [|discriminate]. destruct (proj1 (proj2 (IH d)) _ _ _ EE) as [L2 M2].
      intros H. apply Some_inj in H. apply pair_inj in H as [<- <-]. split; [lia|]. intros [|f'] Hf; [lia|].
      cbn [parse_elems]. rewrite M1 by lia. rewrite ES, C, M2 by lia. reflexivity.
    + destruct (bN c =? 93) eqn:C'; [|discriminate]. intros H. apply Some_inj in H. apply pair_inj in H as [<- <-]. split; [lia|].
      intros [|f'] Hf; [lia|]. cbn [parse_elems]. rewrite M1 by lia. rewrite ES, C, C'. reflexivity.
  - intros s v t. cbn [parse_members]. pose proof (skip_ws_length s) as LS.
    destruct (skip_ws s) as [|q r0] eqn:ES; [discriminate|]. cbn [length] in LS. destruct (bN q =? 34) eqn:CQ; [|discriminate].
    destruct (parse_str 0 r0) as [[k t0]|] eqn:EK; [|discriminate]. pose proof (parse_str_length _ _ _ _ EK) as LK.
    pose proof (skip_ws_length t0) as L0. destruct (skip_ws t0) as [|c0 r1] eqn:E0; [discriminate|]. cbn [length] in L0.
    destruct (bN c0 =? 58) eqn:CC; [|discriminate]. destruct (parse_value f d r1) as [[v1 t1]|] eqn:EV; [|discriminate].
    destruct (proj1 (IH d) _ _ _ EV) as [L1 M1]. pose proof (skip_ws_length t1) as LT.
    destruct (skip_ws t1) as [|c r] eqn:ET; [discriminate|]. cbn [length] in LT. destruct (bN c =? 44) eqn:C.
    + destruct (parse_members f d r) as [[vs t']|] eqn:EE; [|discriminate]. destruct (proj2 (proj2 (IH d)) _ _ _ EE) as [L2 M2].
      intros H. apply Some_inj in H. apply pair_inj in H as [<- <-]. split; [lia|]. intros [|f'] Hf; [lia|].
      cbn [parse_members]. rewrite ES, CQ, EK, E0, CC. rewrite M1 by lia. rewrite ET, C, M2 by lia. reflexivity.
    + destruct (bN c =? 125) eqn:C'; [|discriminate]. intros H. apply Some_inj in H. apply pair_inj in H as [<- <-]. split; [lia|].
      intros [|f'] Hf; [lia|]. cbn [parse_members]. rewrite ES, CQ, EK, E0, CC. rewrite M1 by lia. rewrite ET, C, C'. reflexivity.
Qed.

Lemma parse_fuel f d s v t : parse_value f d s = Some (v, t) -> parse_value (S (length s)) d s = Some (v, t).
Proof. intros H. destruct (proj1 (parse_fuel_aux f d) _ _ _ H) as [_ M]. apply M. lia. Qed.
Lemma json_parse_fuel s v : json_parse s = Some v <-> exists f t, parse_value f 0 s = Some (v, t) /\ skip_ws t = [].
Proof.
  split.
  - unfold json_parse. destruct (parse_value (S (length s)) 0 s) as [[v' t]|] eqn:E; [|discriminate].
    destruct (skip_ws t) eqn:W; [|discriminate]. intros H. apply Some_inj in H as <-. eexists; eexists; split; eassumption.
  - intros (f & t & P & W). unfold json_parse. rewrite (parse_fuel _ _ _ _ _ P), W. reflexivity.
Qed.
