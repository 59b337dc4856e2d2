(** * Properties C29-C33: pkg/mutator. *)
From Verif Require Import Base BaseProofs Murmur3 Mutator ConfigJson SpecMutator MutatorProofs.

(** ** C29: distinct variants, none the password, at most n, in rule order. *)
Theorem C29_mutate_sound : forall (rules : list RDasRule) (pw : bytes) (n : Z) (vs : list bytes),
  Mutate rules pw n = Ok vs ->
  (Z.of_nat (length vs) <= n)%Z /\ NoDup vs /\ ~ In pw vs
  /\ (forall imgs, Forall2 (fun rule s => apply_rule rule pw = Ok s) rules imgs -> subseq vs imgs)
  /\ (forall v, In v vs -> exists rule, In rule rules /\ apply_rule rule pw = Ok v).
Proof. exact mutate_sound. Qed.
Print Assumptions C29_mutate_sound.

Theorem C29_negative_count_panics : forall (rules : list RDasRule) (pw : bytes) (n : Z),
  (n < 0)%Z -> exists m, Mutate rules pw n = Panic m.
Proof. exact mutate_negative. Qed.
Print Assumptions C29_negative_count_panics.

(** With known rule types every n >= 0 gives a result (2^48 bytes is the
    largest allocation). *)
Theorem C29_mutate_total : forall (rules : list RDasRule) (pw : bytes) (n : Z),
  rules <> [] -> Forall (fun r => In (RuleType r) [str "c"; str "d"; str "i"; str "s"]) rules ->
  (0 <= n)%Z -> (n * 24 <= 2 ^ 48)%Z -> exists vs, Mutate rules pw n = Ok vs.
Proof. exact Mutate_total. Qed.
Print Assumptions C29_mutate_total.

Example C29_example : password_variants (str "abc") 4 = Ok (map str ["Abc"; "ab"; "a"; ""])%string.
Proof. rewrite variants_shipped. vm_compute. reflexivity. Qed.

(** ** C30: what can be missing. *)
Theorem C30_missing_only_on_collision : forall (rules : list RDasRule) (pw : bytes) (n : Z) (vs : list bytes),
  Mutate rules pw n = Ok vs -> (Z.of_nat (length vs) < n)%Z ->
  forall rule s, In rule rules -> apply_rule rule pw = Ok s ->
  In s vs \/ s = pw \/ exists s', (s' = pw \/ In s' vs) /\ s' <> s /\ murmur3_sum32 s' = murmur3_sum32 s.
Proof. exact mutate_complete. Qed.
Print Assumptions C30_missing_only_on_collision.

(** A password and a shipped rule whose image is neither the password nor
    returned, although 1000 variants are asked for and fewer than 323 come. *)
Theorem C30_variant_dropped_refuted : exists rule vs,
  In rule shipped /\ apply_rule rule (str "lw4ewp") = Ok (str "lw4ewp06") /\ str "lw4ewp06" <> str "lw4ewp"
  /\ password_variants (str "lw4ewp") 1000 = Ok vs /\ (length vs < 323)%nat /\ ~ In (str "lw4ewp06") vs.
Proof. exact mutate_drops_variant. Qed.
Print Assumptions C30_variant_dropped_refuted.

(** ** C31: monotone in the requested number. *)
Theorem C31_first_n_of_more : forall (rules : list RDasRule) (pw : bytes) (n m : Z) (ws : list bytes),
  (0 <= n <= m)%Z -> Mutate rules pw m = Ok ws -> Mutate rules pw n = Ok (firstn (Z.to_nat n) ws).
Proof. exact mutate_firstn. Qed.
Print Assumptions C31_first_n_of_more.

Theorem C31_prefix : forall (rules : list RDasRule) (pw : bytes) (n m : Z) (vs ws : list bytes),
  (n <= m)%Z -> Mutate rules pw n = Ok vs -> Mutate rules pw m = Ok ws -> exists t, ws = vs ++ t.
Proof. exact mutate_prefix. Qed.
Print Assumptions C31_prefix.

Example C31_example : password_variants (str "abc") 2 = Ok (map str ["Abc"; "ab"])%string.
Proof. rewrite variants_shipped. vm_compute. reflexivity. Qed.

(** ** C32: the shipped rule list. *)
Theorem C32_shipped_rules : NewRDasMutator = Ok shipped /\ length shipped = 323%nat
  /\ Forall (fun r => In (RuleType r) [str "c"; str "d"; str "i"; str "s"]) shipped
  /\ (forall r, In r shipped -> RuleType r = str "s" -> String1 r <> []).
Proof. exact (conj shipped_ok (conj shipped_length (conj shipped_known shipped_patterns))). Qed.
Print Assumptions C32_shipped_rules.

Theorem C32_shipped_never_panics : forall (pw : bytes) (n : Z),
  (0 <= n)%Z -> (n * 24 <= 2 ^ 48)%Z -> exists vs, password_variants pw n = Ok vs.
Proof. exact variants_total. Qed.
Print Assumptions C32_shipped_never_panics.

Example C32_example : nth_error shipped 0 = Some (mkRule (str "c") 0 [] [])
  /\ nth_error shipped 312 = Some (mkRule (str "s") 0 (str "wsx") (str "2wsx")).
Proof. split; vm_compute; reflexivity. Qed.

(** ** C33: each rule does what it says. *)
Theorem C33_capitalisation : forall (pos : Z) (a b s : bytes),
  exists out, apply_rule (mkRule (str "c") pos a b) s = Ok out /\
  let i := resolve (blen s) pos in
  ((0 <= i < blen s)%Z -> cap_at (Z.to_nat i) s out) /\ ((i < 0 \/ blen s <= i)%Z -> out = s).
Proof. exact (fun pos a b s => ex_intro _ _ (conj (apply_c pos a b s) (conj (changeCap_in s pos) (changeCap_out s pos)))). Qed.
Print Assumptions C33_capitalisation.

Theorem C33_deletion : forall (pos : Z) (a b s : bytes),
  exists out, apply_rule (mkRule (str "d") pos a b) s = Ok out
  /\ ((0 <= pos <= blen s)%Z -> exists x, s = x ++ out /\ blen x = pos)
  /\ ((pos < 0)%Z -> (- pos <= blen s)%Z -> exists x, s = out ++ x /\ blen x = (- pos)%Z)
  /\ ((blen s < Z.abs pos)%Z -> out = s).
Proof. exact (fun pos a b s => ex_intro _ _ (conj (apply_d pos a b s) (conj (delete_front s pos) (conj (delete_back s pos) (delete_none s pos))))). Qed.
Print Assumptions C33_deletion.

Theorem C33_insertion : forall (pos : Z) (a b s : bytes),
  exists out, apply_rule (mkRule (str "i") pos a b) s = Ok out /\
  let q := resolve_gap (blen s) pos in
  ((0 <= q <= blen s)%Z -> exists x y, s = x ++ y /\ blen x = q /\ out = x ++ a ++ y)
  /\ ((q < 0 \/ blen s < q)%Z -> out = s).
Proof. exact (fun pos a b s => ex_intro _ _ (conj (apply_i pos a b s) (conj (insert_in s pos a) (insert_out s pos a)))). Qed.
Print Assumptions C33_insertion.

(** [replaced] determines the outcome. *)
Theorem C33_substitution : forall (pos : Z) (a b s out : bytes), a <> [] ->
  (apply_rule (mkRule (str "s") pos a b) s = Ok out <-> replaced a b s out).
Proof. exact apply_s_exact. Qed.
Print Assumptions C33_substitution.

(** Any other rule type panics. *)
Theorem C33_unknown_type_panics : forall (r : RDasRule) (s : bytes),
  ~ In (RuleType r) [str "c"; str "d"; str "i"; str "s"] -> exists m, apply_rule r s = Panic m.
Proof. exact apply_unknown. Qed.
Print Assumptions C33_unknown_type_panics.

Example C33_example :
  apply_rule (mkRule (str "c") (-1) [] []) (str "abC") = Ok (str "abc")
  /\ apply_rule (mkRule (str "d") (-2) [] []) (str "abc") = Ok (str "a")
  /\ apply_rule (mkRule (str "d") 4 [] []) (str "abc") = Ok (str "abc")
  /\ apply_rule (mkRule (str "i") (-2) (str "XY") []) (str "abc") = Ok (str "abXYc")
  /\ apply_rule (mkRule (str "s") 0 (str "aa") (str "b")) (str "aaaxaa") = Ok (str "baxb")
  /\ apply_rule (mkRule (str "c") 0 [] []) [Byte.xff] = Ok [Byte.x78].
Proof. vm_compute. repeat split; reflexivity. Qed.
