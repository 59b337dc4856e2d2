(** * Lemmas for C91: what encoding/json's scanner accepts. *)
From Coq Require Import Lia.
From Verif Require Import Base BaseProofs Utf8 Common Oprf Client Json ConfigJson Demo Main ReadBody ReadConfig SpecJson SpecRead SpecFetch Utf8Proofs JsonProofs JsonGrammar SpecDecode DecodeProofs CutProofs.
Local Open Scope N_scope.

Lemma bN_eq c n : (bN c =? n) = true -> c = nB n.
Proof. apply bN_is. Qed.

(** ** Strings: what the scanner looks at *)
Definition hexbyte (c : byte) : Prop := exists n, hexd c = Some n.
Inductive lex_body : bytes -> Prop :=
| lx_nil : lex_body []
| lx_plain c s : 32 <= bN c -> bN c <> 34 -> bN c <> 92 -> lex_body s -> lex_body (c :: s)
| lx_esc e c s : In (e, c) escapes -> lex_body s -> lex_body (Byte.x5c :: e :: s)
| lx_u a b c d s : hexbyte a -> hexbyte b -> hexbyte c -> hexbyte d -> lex_body s -> lex_body (Byte.x5c :: Byte.x75 :: a :: b :: c :: d :: s).

Lemma hexbyte_u4 a b c d : hexbyte a -> hexbyte b -> hexbyte c -> hexbyte d -> exists u, hex4 [a; b; c; d] u.
Proof.
  intros (x & A) (y & B) (z & C) (w & D). apply hexd_iff in A, B, C, D. eexists. exists a, b, c, d, x, y, z, w. repeat split; auto.
Qed.
Lemma hex4_hexbyte h u : hex4 h u -> exists a b c d, h = [a; b; c; d] /\ hexbyte a /\ hexbyte b /\ hexbyte c /\ hexbyte d.
Proof.
  intros (a & b & c & d & x & y & z & w & -> & A & B & C & D & _). apply hexd_iff in A, B, C, D. exists a, b, c, d. repeat split; eexists; eassumption.
Qed.

Lemma utf8_char_high u : scalar u -> 128 <= u -> Forall (fun c => 128 <= bN c) (utf8_char u).
Proof.
  intros S H. unfold scalar in S. unfold utf8_char. rewrite (proj2 (N.ltb_ge _ _) H).
  assert (M : u mod 64 < 64) by (apply N.mod_lt; lia). assert (M' : (u / 64) mod 64 < 64) by (apply N.mod_lt; lia). assert (M'' : (u / 4096) mod 64 < 64) by (apply N.mod_lt; lia).
  assert (K : forall n, 128 <= n < 256 -> 128 <= bN (nB n)) by (intros n L; rewrite bN_nB_small; lia).
  destruct (N.ltb_spec u 2048); [|destruct (N.ltb_spec u 65536)]; cbn [map].
  - assert (u / 64 < 32) by (apply N.div_lt_upper_bound; lia). repeat constructor; apply K; lia.
  - assert (u / 4096 < 16) by (apply N.div_lt_upper_bound; lia). repeat constructor; apply K; lia.
  - assert (u / 262144 < 8) by (apply N.div_lt_upper_bound; lia). repeat constructor; apply K; lia.
Qed.

Lemma lex_high p s : Forall (fun c => 128 <= bN c) p -> lex_body s -> lex_body (p ++ s).
Proof. intros F L. induction F as [|c p H F IH]; [exact L|]. cbn [app]. apply lx_plain; [lia..|exact IH]. Qed.
Lemma lex_high_inv p s : Forall (fun c => 128 <= bN c) p -> lex_body (p ++ s) -> lex_body s.
Proof.
  intros F. induction F as [|c p H F IH]; [auto|]. cbn [app]. intros L. inversion L; subst; [auto|exfalso..]; cbn in H; lia.
Qed.

Lemma string_lex b x : string_body b x -> lex_body b.
Proof.
  induction 1 as [|u s t S L N1 N2 _ IH|e c s t E _ IH|h u s t H _ _ IH|h u h' v s t H H' _ _ _ IH|h u s t H _ _ _ IH|c s t N _ IH].
  - constructor.
  - destruct (N.lt_ge_cases u 128) as [A|A].
    + rewrite utf8_char_ascii by exact A. cbn [app]. apply lx_plain; rewrite ?bN_nB_small by lia; auto.
    + apply lex_high; [apply utf8_char_high; assumption|exact IH].
  - change (str "\" ++ e :: s) with (Byte.x5c :: e :: s). eapply lx_esc; eassumption.
  - destruct (hex4_hexbyte _ _ H) as (a & b & c & d & -> & A & B & C & D). cbn. apply lx_u; assumption.
  - destruct (hex4_hexbyte _ _ H) as (a & b & c & d & -> & A & B & C & D). destruct (hex4_hexbyte _ _ H') as (a' & b' & c' & d' & -> & A' & B' & C' & D').
    cbn. apply lx_u; try assumption. apply lx_u; assumption.
  - destruct (hex4_hexbyte _ _ H) as (a & b & c & d & -> & A & B & C & D). cbn. apply lx_u; assumption.
  - assert (G : 128 <= bN c).
    { destruct (N.lt_ge_cases (bN c) 128) as [A|A]; [|exact A]. exfalso. apply (N (bN c) s); [left; lia|]. rewrite utf8_char_ascii by exact A. rewrite nB_bN. reflexivity. }
    apply lx_plain; [lia..|exact IH].
Qed.

Lemma lex_string_aux : forall n b, (length b <= n)%nat -> lex_body b -> exists x, string_body b x.
Proof.
  induction n as [|n IH]; intros b L X.
  { destruct b; [exists []; constructor|cbn in L; lia]. }
  inversion X as [|c s A B C Y|e c s I Y|a b' c d s A B C D Y]; subst.
  - exists []. constructor.
  - destruct (N.lt_ge_cases (bN c) 128) as [H|H].
    + destruct (IH s) as (x & K); [cbn in L; lia|exact Y|]. eexists.
      replace (c :: s) with (utf8_char (bN c) ++ s) by (rewrite utf8_char_ascii by exact H; rewrite nB_bN; reflexivity).
      apply sb_char; [left; lia|lia..|exact K].
    + destruct (decode_rune (c :: s)) as [[u w]|] eqn:R.
      * destruct (decode_inv _ _ _ R) as (S & F). pose proof (firstn_skipn w (c :: s)) as E. rewrite F in E.
        assert (U : 128 <= u).
        { destruct (N.lt_ge_cases u 128) as [G|G]; [|exact G]. exfalso. rewrite utf8_char_ascii in E by exact G. injection E as E _. subst c. rewrite bN_nB_small in H; lia. }
        assert (Y' : lex_body (skipn w (c :: s))) by (apply (lex_high_inv (utf8_char u)); [apply utf8_char_high; assumption|rewrite E; exact X]).
        destruct (IH (skipn w (c :: s))) as (x & K); [|exact Y'|].
        { pose proof (utf8_char_length u). apply (f_equal (@length _)) in E. rewrite app_length in E. cbn [length] in *. lia. }
        exists (utf8_char u ++ x). rewrite <- E. apply sb_char; [exact S|lia..|exact K].
      * destruct (IH s) as (x & K); [cbn in L; lia|exact Y|]. eexists. apply sb_bad; [|exact K].
        intros u r S E. pose proof (decode_char u r S) as Q. rewrite <- E, R in Q. discriminate.
  - destruct (IH s) as (x & K); [cbn in L; lia|exact Y|]. eexists. exact (sb_escape e c s x I K).
  - destruct (hexbyte_u4 a b' c d A B C D) as (u & H).
    change (Byte.x5c :: Byte.x75 :: a :: b' :: c :: d :: s) with (str "\u" ++ [a; b'; c; d] ++ s).
    destruct (IH s) as (x & K); [cbn in L; lia|exact Y|]. pose proof (hex4_lt _ _ H) as U.
    destruct (is_surrogate u) eqn:Su.
    2:{ eexists. eapply sb_unicode; [exact H| |exact K]. pose proof (surrogate_iff u U) as Q. unfold scalar in *. unfold is_surrogate in Su.
        apply andb_false_iff in Su. rewrite !N.leb_gt in Su. lia. }
    apply surrogate_iff in Su; [|exact U].
    assert (Case : (exists h' v r, high_surrogate u /\ hex4 h' v /\ low_surrogate v /\ s = str "\u" ++ h' ++ r) \/
                   (forall h' v r, high_surrogate u -> hex4 h' v -> low_surrogate v -> s <> str "\u" ++ h' ++ r)).
    { destruct (N.lt_ge_cases u 56320) as [Hu|Hu]; [|right; intros h' v r [_ W]; lia].
      inversion Y as [|c0 s0 A0 B0 C0 Y0|e0 c0 s0 I0 Y0|a0 b0 c0 d0 s0 A0 B0 C0 D0 Y0]; subst.
      - right. intros h' v r _ _ _ E. discriminate.
      - right. intros h' v r _ _ _ E. change (str "\u" ++ h' ++ r) with (Byte.x5c :: Byte.x75 :: h' ++ r) in E. injection E as E _. subst c0. apply C0. reflexivity.
      - right. intros h' v r _ _ _ E. change (str "\u" ++ h' ++ r) with (Byte.x5c :: Byte.x75 :: h' ++ r) in E. injection E as E _. subst e0. cbn in I0.
        repeat (destruct I0 as [I0|I0]; [discriminate|]). exact I0.
      - destruct (hexbyte_u4 a0 b0 c0 d0 A0 B0 C0 D0) as (v & H0). destruct (N.lt_ge_cases v 56320) as [G1|G1].
        + right. intros h' v' r _ H' [Lv _] E. change (str "\u" ++ h' ++ r) with (Byte.x5c :: Byte.x75 :: h' ++ r) in E. injection E as E.
          pose proof (hex4_length _ _ H') as Lh. destruct h' as [|q1 [|q2 [|q3 [|q4 [|? ?]]]]]; try discriminate. cbn in E. injection E as -> -> -> -> _.
          rewrite (hex4_fun _ _ _ H' H0) in Lv. lia.
        + destruct (N.lt_ge_cases v 57344) as [G2|G2].
          * left. exists [a0; b0; c0; d0], v, s0. split; [|split; [exact H0|split; [split; assumption|reflexivity]]]. unfold scalar in Su. split; lia.
          * right. intros h' v' r _ H' [_ Lv] E. change (str "\u" ++ h' ++ r) with (Byte.x5c :: Byte.x75 :: h' ++ r) in E. injection E as E.
            pose proof (hex4_length _ _ H') as Lh. destruct h' as [|q1 [|q2 [|q3 [|q4 [|? ?]]]]]; try discriminate. cbn in E. injection E as -> -> -> -> _.
            rewrite (hex4_fun _ _ _ H' H0) in Lv. lia. }
    destruct Case as [(h' & v & r & Hi & H' & Lo & ->)|N].
    + destruct (hex4_hexbyte _ _ H') as (a0 & b0 & c0 & d0 & -> & _). cbn in Y. 
      assert (Y2 : lex_body r). { inversion Y; subst; [exfalso; match goal with Q : bN Byte.x5c <> 92 |- _ => apply Q; reflexivity end| |assumption].
        exfalso. match goal with Q : In (Byte.x75, _) _ |- _ => cbn in Q; repeat (destruct Q as [Q|Q]; [discriminate|]); exact Q end. }
      destruct (IH r) as (x' & K'); [cbn in L; lia|exact Y2|]. eexists. eapply sb_pair; eassumption.
    + eexists. eapply sb_lone; eassumption.
Qed.
Lemma lex_string b : lex_body b -> exists x, string_body b x.
Proof. apply (lex_string_aux (length b)). lia. Qed.

(** ** The scan of a concatenation *)
Lemma scan_app a : forall s b, scan s (a ++ b) = match scan s a with
  | Partial s' => match scan s' b with Value n => Value (length a + n) | x => x end | r => r end.
Proof.
  induction a as [|c a IH]; intros s b; cbn [app scan length]; [destruct (scan s b); reflexivity|].
  destruct (step s c) as [s'|[f [|p st]]| |]; try reflexivity; rewrite IH; destruct (scan _ a) as [n|s''|]; try reflexivity; destruct (scan s'' b); reflexivity.
Qed.
Definition goes (s : scanner) (b : bytes) (s' : scanner) : Prop := scan s b = Partial s'.
Lemma goes_nil s : goes s [] s.
Proof. reflexivity. Qed.
Lemma goes_app s a s1 b s2 : goes s a s1 -> goes s1 b s2 -> goes s (a ++ b) s2.
Proof. unfold goes. intros A B. rewrite scan_app, A, B. reflexivity. Qed.
Lemma goes_go s c s1 r s2 : step s c = Go s1 -> goes s1 r s2 -> goes s (c :: r) s2.
Proof. unfold goes. intros A B. cbn [scan]. rewrite A, B. reflexivity. Qed.
Lemma goes_close s c f p st r s2 : step s c = Close (f, p :: st) -> goes (f, p :: st) r s2 -> goes s (c :: r) s2.
Proof. unfold goes. intros A B. cbn [scan]. rewrite A, B. reflexivity. Qed.

Lemma goes_space f st w : json_space w -> (forall c, is_ws c = true -> step (f, st) c = Go (f, st)) -> goes (f, st) w (f, st).
Proof.
  intros W H. induction w as [|c w IH]; [reflexivity|]. eapply goes_go; [apply H, ws_iff, W; left; reflexivity|].
  apply IH. intros x I. apply W. right. exact I.
Qed.
Lemma space_value st w : json_space w -> goes (BeginValue, st) w (BeginValue, st).
Proof. intros W. apply goes_space; [exact W|]. intros c C. cbn [step]. unfold step_value. rewrite C. reflexivity. Qed.
Lemma space_value_or st w : json_space w -> goes (BeginValueOrEmpty, st) w (BeginValueOrEmpty, st).
Proof. intros W. apply goes_space; [exact W|]. intros c C. cbn [step]. rewrite C. reflexivity. Qed.
Lemma space_string_or st w : json_space w -> goes (BeginStringOrEmpty, st) w (BeginStringOrEmpty, st).
Proof. intros W. apply goes_space; [exact W|]. intros c C. cbn [step]. rewrite C. reflexivity. Qed.
Lemma space_string st w : json_space w -> goes (BeginString, st) w (BeginString, st).
Proof. intros W. apply goes_space; [exact W|]. intros c C. cbn [step]. unfold step_string. rewrite C. reflexivity. Qed.
Lemma space_end p st w : json_space w -> goes (EndValue, p :: st) w (EndValue, p :: st).
Proof. intros W. apply goes_space; [exact W|]. intros c C. cbn [step step_end]. rewrite C. reflexivity. Qed.

Lemma value_or_empty st s c r : skip_ws s = c :: r -> (bN c =? 93) = false -> scan (BeginValueOrEmpty, st) s = scan (BeginValue, st) s.
Proof.
  intros K C. induction s as [|x s IH]; [discriminate|]. cbn [skip_ws] in K. cbn [scan step]. unfold step_value at 2. destruct (is_ws x) eqn:W.
  - rewrite IH by exact K. reflexivity.
  - injection K as -> ->. rewrite C. unfold step_value. rewrite W. reflexivity.
Qed.
Lemma string_or_empty st s r : skip_ws s = Byte.x22 :: r -> scan (BeginStringOrEmpty, st) s = scan (BeginString, st) s.
Proof.
  intros K. induction s as [|x s IH]; [discriminate|]. cbn [skip_ws] in K. cbn [scan step]. unfold step_string at 2. destruct (is_ws x) eqn:W.
  - rewrite IH by exact K. reflexivity.
  - injection K as -> ->. reflexivity.
Qed.

(** ** Numbers *)
Definition ended (f : sstate) : bool := match f with EndValue | One | Zero | Dot0 | E0 => true | _ => false end.
Lemma digit_facts2 c : In c (str "0123456789") -> is_digit c = true /\ is_ws c = false /\ (bN c =? 123) = false /\ (bN c =? 91) = false /\ (bN c =? 34) = false /\ (bN c =? 45) = false
  /\ (bN c =? 46) = false /\ (bN c =? 101) = false /\ (bN c =? 69) = false /\ (bN c =? 43) = false /\ (bN c =? 116) = false /\ (bN c =? 102) = false /\ (bN c =? 110) = false.
Proof. intros H. cbn in H. repeat (destruct H as [<-|H]; [repeat split; reflexivity|]). contradiction. Qed.
Lemma digit_loop f st d : Forall (fun c => In c (str "0123456789")) d -> (forall c, is_digit c = true -> step (f, st) c = Go (f, st)) -> goes (f, st) d (f, st).
Proof. intros F H. induction F as [|c d C F IH]; [reflexivity|]. eapply goes_go; [apply H, digit_iff, C|exact IH]. Qed.
Lemma goes_digits f g st d : digits d -> (forall c, is_digit c = true -> step (f, st) c = Go (g, st)) -> (forall c, is_digit c = true -> step (g, st) c = Go (g, st)) -> goes (f, st) d (g, st).
Proof.
  intros [NE F] H1 H2. destruct F as [|c d C F]; [destruct (NE eq_refl)|]. eapply goes_go; [apply H1, digit_iff, C|]. apply digit_loop; [exact F|exact H2].
Qed.
Ltac by_digit c C := cbn [step]; rewrite C; reflexivity.
Lemma goes_int f st int : (f = BeginValue \/ f = Neg) -> digits int -> (forall r, int = str "0" ++ r -> r = []) ->
  exists g, (g = Zero \/ g = One) /\ goes (f, st) int (g, st).
Proof.
  intros Hf [NE F] Z. destruct F as [|c d C F]; [destruct (NE eq_refl)|]. destruct (digit_facts2 c C) as (D & W & A1 & A2 & A3 & A4 & A5 & A6 & A7 & A8 & A9 & A10 & A11).
  destruct (bN c =? 48) eqn:E.
  - pose proof (bN_eq _ _ E) as ->. rewrite (Z d eq_refl). exists Zero. split; [auto|]. destruct Hf as [-> | ->]; reflexivity.
  - exists One. split; [auto|]. eapply goes_go.
    + destruct Hf as [-> | ->]; cbn [step]; unfold step_value; rewrite ?W, ?A1, ?A2, ?A3, ?A4, ?E, ?A9, ?A10, ?A11, D; reflexivity.
    + apply digit_loop; [exact F|]. intros x X. by_digit x X.
Qed.
Lemma goes_number st l : number l -> exists f, ended f = true /\ goes (BeginValue, st) l (f, st).
Proof.
  intros (sign & int & frac & exp & -> & Hs & Hi & Hz & Hf & He).
  assert (S : exists f, (f = BeginValue \/ f = Neg) /\ goes (BeginValue, st) sign (f, st)).
  { destruct Hs as [<-|[<-|[]]]; eexists; (split; [|reflexivity]); auto. }
  destruct S as (f & F & S). destruct (goes_int f st int F Hi Hz) as (g & G & I).
  assert (Fr : exists h, (h = Zero \/ h = One \/ h = Dot0) /\ goes (g, st) frac (h, st)).
  { destruct Hf as [->|(d & D & ->)]; [exists g; split; [tauto|reflexivity]|]. exists Dot0. split; [auto|].
    apply goes_app with (s1 := (Dot, st)); [destruct G as [-> | ->]; reflexivity|].
    apply goes_digits; [exact D|intros c C; by_digit c C|intros c C; by_digit c C]. }
  destruct Fr as (h & Hh & Fr).
  assert (Ep : exists k, ended k = true /\ goes (h, st) exp (k, st)).
  { destruct He as [->|(e & sg & d & Ie & Is & D & ->)]; [exists h; split; [destruct Hh as [-> |[-> | ->]]; reflexivity|reflexivity]|].
    exists E0. split; [reflexivity|]. apply goes_app with (s1 := (Ex, st)).
    { destruct Ie as [<-|[<-|[]]]; destruct Hh as [-> |[-> | ->]]; reflexivity. }
    destruct Is as [<-|[<-|[<-|[]]]].
    - cbn [app]. apply goes_digits; [exact D| |intros c C; by_digit c C]. intros c C. cbn [step]. apply digit_iff in C as C'. destruct (digit_facts2 c C') as (_ & _ & _ & _ & _ & A & _ & _ & _ & B & _). rewrite A, B, C. reflexivity.
    - apply goes_app with (s1 := (ESign, st)); [reflexivity|]. apply goes_digits; [exact D|intros c C; by_digit c C|intros c C; by_digit c C].
    - apply goes_app with (s1 := (ESign, st)); [reflexivity|]. apply goes_digits; [exact D|intros c C; by_digit c C|intros c C; by_digit c C]. }
  destruct Ep as (k & Hk & Ep). exists k. split; [exact Hk|]. eapply goes_app; [exact S|]. eapply goes_app; [exact I|]. eapply goes_app; [exact Fr|exact Ep].
Qed.

(** Behind a value, a byte that can follow it is taken as after its end. *)
Lemma ended_stop f st c : ended f = true -> In c [Byte.x20; Byte.x09; Byte.x0a; Byte.x0d; Byte.x2c; Byte.x5d; Byte.x7d] -> step (f, st) c = step_end st c.
Proof. intros F I. cbn in I. repeat (destruct I as [<-|I]; [destruct f; try discriminate F; reflexivity|]). contradiction. Qed.
Lemma ended_space f p st w : ended f = true -> json_space w -> exists g, ended g = true /\ goes (f, p :: st) w (g, p :: st).
Proof.
  intros F W. destruct w as [|c w]; [exists f; split; [exact F|reflexivity]|]. exists EndValue. split; [reflexivity|].
  assert (C : In c [Byte.x20; Byte.x09; Byte.x0a; Byte.x0d]) by (apply W; left; reflexivity).
  eapply goes_go.
  - rewrite ended_stop; [|exact F|cbn in C; cbn; tauto]. cbn [step_end]. rewrite (proj2 (ws_iff c) C). reflexivity.
  - apply space_end. intros x I. apply W. right. exact I.
Qed.

(** ** Strings *)
Lemma goes_lex st b : lex_body b -> goes (InString, st) b (InString, st).
Proof.
  induction 1 as [|c s A B C _ IH|e c s I _ IH|a b c d s (x & A) (y & B) (z & C) (w & D) _ IH]; [reflexivity| | |].
  - eapply goes_go; [|exact IH]. cbn [step]. rewrite (proj2 (N.eqb_neq _ _) B), (proj2 (N.eqb_neq _ _) C). rewrite (proj2 (N.ltb_ge _ _) A). reflexivity.
  - eapply goes_go; [reflexivity|]. eapply goes_go; [|exact IH]. cbn in I. repeat (destruct I as [I|I]; [injection I as <- _; reflexivity|]). contradiction.
  - eapply goes_go; [reflexivity|]. eapply goes_go; [reflexivity|].
    do 4 (eapply goes_go; [cbn [step]; unfold step_hex; rewrite ?A, ?B, ?C, ?D; reflexivity|]). exact IH.
Qed.
Lemma goes_string st b x : string_body b x -> goes (InString, st) (b ++ str """") (EndValue, st).
Proof. intros H. eapply goes_app; [apply goes_lex; eapply string_lex; exact H|reflexivity]. Qed.

(** ** Values *)
Definition deep (st : list pstate) (n : N) : Prop := N.of_nat (length st) + n <= maxNestingDepth.
Lemma push_ok st ps f n : deep st (1 + n) -> push st ps f = Go (f, ps :: st).
Proof. unfold deep, push. intros D. rewrite (proj2 (N.leb_le _ _)) by lia. reflexivity. Qed.
Lemma deep_push st ps n : deep st (1 + n) -> deep (ps :: st) n.
Proof. unfold deep. cbn [length]. lia. Qed.
Lemma deep_le st n m : deep st n -> m <= n -> deep st m.
Proof. unfold deep. lia. Qed.

(** A literal, a string or a number, with anything open. *)
Lemma goes_simple st x j : json_text x j -> ~ bracketed j -> exists f, ended f = true /\ goes (BeginValue, st) x (f, st).
Proof.
  intros J B. inversion J; subst; try (exists EndValue; split; reflexivity).
  - apply goes_number. assumption.
  - exists EndValue. split; [reflexivity|]. eapply goes_go; [reflexivity|]. eapply goes_string. eassumption.
  - destruct B. left. eauto.
  - destruct B. left. eauto.
  - destruct B. right. eauto.
  - destruct B. right. eauto.
Qed.
(** Up to the closing bracket. *)
Definition closes (st : list pstate) (x : bytes) : Prop :=
  exists y c s, x = y ++ [c] /\ goes (BeginValue, st) y s /\ step s c = Close (EndValue, st).
Lemma closes_goes p st x : closes (p :: st) x -> goes (BeginValue, p :: st) x (EndValue, p :: st).
Proof. intros (y & c & s & -> & G & C). eapply goes_app; [exact G|]. eapply goes_close; [exact C|reflexivity]. Qed.
Lemma closes_array st s f : deep st 1 -> goes (BeginValueOrEmpty, ArrVal :: st) s (f, ArrVal :: st) -> (f = BeginValueOrEmpty \/ ended f = true) -> closes st (str "[" ++ s ++ str "]").
Proof.
  intros D G F. exists (str "[" ++ s), Byte.x5d, (f, ArrVal :: st). split; [rewrite <- app_assoc; reflexivity|]. split.
  - eapply goes_go; [|exact G]. cbn [step]. unfold step_value. cbn. rewrite (push_ok st ArrVal BeginValueOrEmpty 0 D). reflexivity.
  - destruct F as [->|F]; [reflexivity|]. rewrite ended_stop by (exact F || (cbn; auto 10)). reflexivity.
Qed.
Lemma closes_object st s f : deep st 1 -> goes (BeginStringOrEmpty, ObjKey :: st) s f ->
  (f = (BeginStringOrEmpty, ObjKey :: st) \/ exists g, f = (g, ObjVal :: st) /\ ended g = true) -> closes st (str "{" ++ s ++ str "}").
Proof.
  intros D G F. exists (str "{" ++ s), Byte.x7d, f. split; [rewrite <- app_assoc; reflexivity|]. split.
  - eapply goes_go; [|exact G]. cbn [step]. unfold step_value. cbn. rewrite (push_ok st ObjKey BeginStringOrEmpty 0 D). reflexivity.
  - destruct F as [->|(g & -> & F)]; [reflexivity|]. rewrite ended_stop by (exact F || (cbn; auto 10)). reflexivity.
Qed.

Lemma goes_grammar :
  (forall x v, json_text x v -> forall p st, deep (p :: st) (nesting v) -> exists f, ended f = true /\ goes (BeginValue, p :: st) x (f, p :: st)) /\
  (forall x l, json_elements x l -> forall st, deep (ArrVal :: st) (fold_right (fun x m => N.max (nesting x) m) 0 l) ->
     exists f, ended f = true /\ goes (BeginValue, ArrVal :: st) x (f, ArrVal :: st)) /\
  (forall x l, json_members x l -> forall st, deep (ObjVal :: st) (fold_right (fun x m => N.max (nesting (snd x)) m) 0 l) ->
     exists f, ended f = true /\ goes (BeginString, ObjKey :: st) x (f, ObjVal :: st)).
Proof.
  apply json_mind.
  - intros p st _. exists EndValue. split; reflexivity.
  - intros p st _. exists EndValue. split; reflexivity.
  - intros p st _. exists EndValue. split; reflexivity.
  - intros l H p st _. apply goes_number. exact H.
  - intros s t H p st _. eapply goes_simple; [exact (jt_string s t H)|intros [(l & E)|(l & E)]; discriminate].
  - intros w W p st D. exists EndValue. split; [reflexivity|]. apply closes_goes. apply (closes_array _ w BeginValueOrEmpty); [exact D|apply space_value_or, W|auto].
  - intros s l J IH p st D. exists EndValue. split; [reflexivity|]. apply closes_goes. cbn [nesting] in D. destruct (IH (p :: st)) as (f & F & G); [eapply deep_push; exact D|].
    apply (closes_array _ s f); [eapply deep_le; [exact D|lia]| |auto]. unfold goes. destruct (elements_head s l [] J) as (c & r & E & O). rewrite app_nil_r in E.
    rewrite (value_or_empty _ s c r E); [exact G|]. unfold opens in O. destruct (bN c =? 93); [rewrite andb_false_r in O; discriminate|reflexivity].
  - intros w W p st D. exists EndValue. split; [reflexivity|]. apply closes_goes. apply (closes_object _ w (BeginStringOrEmpty, ObjKey :: p :: st)); [exact D|apply space_string_or, W|auto].
  - intros s l J IH p st D. exists EndValue. split; [reflexivity|]. apply closes_goes. cbn [nesting] in D. destruct (IH (p :: st)) as (f & F & G); [eapply deep_push; exact D|].
    apply (closes_object _ s (f, ObjVal :: p :: st)); [eapply deep_le; [exact D|lia]| |eauto]. unfold goes. destruct (members_head s l [] J) as (r & E). rewrite app_nil_r in E.
    rewrite (string_or_empty _ s r E). exact G.
  - intros w s w' j W J IH W' st D. cbn [fold_right] in D. destruct (IH ArrVal st) as (f & F & G); [eapply deep_le; [exact D|lia]|].
    destruct (ended_space f ArrVal st w' F W') as (g & Fg & Gg). exists g. split; [exact Fg|]. eapply goes_app; [apply space_value, W|]. eapply goes_app; [exact G|exact Gg].
  - intros w s w' j r l W J IH W' JE IHE st D. cbn [fold_right] in D. destruct (IH ArrVal st) as (f & F & G); [eapply deep_le; [exact D|lia]|].
    destruct (ended_space f ArrVal st w' F W') as (g & Fg & Gg). destruct (IHE st) as (h & Fh & Gh); [eapply deep_le; [exact D|lia]|].
    exists h. split; [exact Fh|]. eapply goes_app; [apply space_value, W|]. eapply goes_app; [exact G|]. eapply goes_app; [exact Gg|].
    eapply goes_go; [rewrite ended_stop by (exact Fg || (cbn; auto 10)); reflexivity|exact Gh].
  - intros w k name w1 w2 s w' j W B W1 W2 J IH W' st D. cbn [fold_right snd] in D. destruct (IH ObjVal st) as (f & F & G); [eapply deep_le; [exact D|lia]|].
    destruct (ended_space f ObjVal st w' F W') as (g & Fg & Gg). exists g. split; [exact Fg|]. eapply goes_app; [apply space_string, W|].
    eapply goes_app; [eapply goes_go; [reflexivity|]; eapply goes_string; exact B|]. eapply goes_app; [apply space_end, W1|]. eapply goes_go; [reflexivity|].
    eapply goes_app; [apply space_value, W2|]. eapply goes_app; [exact G|exact Gg].
  - intros w k name w1 w2 s w' j r l W B W1 W2 J IH W' JM IHM st D. cbn [fold_right snd] in D. destruct (IH ObjVal st) as (f & F & G); [eapply deep_le; [exact D|lia]|].
    destruct (ended_space f ObjVal st w' F W') as (g & Fg & Gg). destruct (IHM st) as (h & Fh & Gh); [eapply deep_le; [exact D|lia]|].
    exists h. split; [exact Fh|]. eapply goes_app; [apply space_string, W|].
    eapply goes_app; [eapply goes_go; [reflexivity|]; eapply goes_string; exact B|]. eapply goes_app; [apply space_end, W1|]. eapply goes_go; [reflexivity|].
    eapply goes_app; [apply space_value, W2|]. eapply goes_app; [exact G|]. eapply goes_app; [exact Gg|].
    eapply goes_go; [rewrite ended_stop by (exact Fg || (cbn; auto 10)); reflexivity|exact Gh].
Qed.

(** A text at the top. *)
Lemma top_brackets x j : json_text x j -> nesting j <= maxNestingDepth -> bracketed j -> closes [] x.
Proof.
  intros J D B. inversion J; subst; try (destruct B as [(? & E)|(? & E)]; discriminate).
  - apply (closes_array _ w BeginValueOrEmpty); [exact D|apply space_value_or; assumption|auto].
  - cbn [nesting] in D. destruct (proj1 (proj2 goes_grammar) s l) with (st := @nil pstate) as (f & F & G); [assumption|exact (deep_push [] ArrVal _ D)|].
    apply (closes_array _ s f); [eapply (deep_le [] _ _ D); lia| |auto]. unfold goes. match goal with H : json_elements s l |- _ => destruct (elements_head s l [] H) as (c & r & E & O) end. rewrite app_nil_r in E.
    rewrite (value_or_empty _ s c r E); [exact G|]. unfold opens in O. destruct (bN c =? 93); [rewrite andb_false_r in O; discriminate|reflexivity].
  - apply (closes_object _ w (BeginStringOrEmpty, [ObjKey])); [exact D|apply space_string_or; assumption|auto].
  - cbn [nesting] in D. destruct (proj2 (proj2 goes_grammar) s l) with (st := @nil pstate) as (f & F & G); [assumption|exact (deep_push [] ObjVal _ D)|].
    apply (closes_object _ s (f, [ObjVal])); [eapply (deep_le [] _ _ D); lia| |eauto]. unfold goes. match goal with H : json_members s l |- _ => destruct (members_head s l [] H) as (r & E) end. rewrite app_nil_r in E.
    rewrite (string_or_empty _ s r E). exact G.
Qed.

(** ** What can still complete the text, in each state of the scanner *)
Definition text_at (st : list pstate) (x : bytes) : Prop := exists j, json_text x j /\ deep st (nesting j).
Definition elems_at (st : list pstate) (s : bytes) : Prop := exists l, json_elements s l /\ deep st (fold_right (fun x m => N.max (nesting x) m) 0 l).
Definition membs_at (st : list pstate) (s : bytes) : Prop := exists l, json_members s l /\ deep st (fold_right (fun x m => N.max (nesting (snd x)) m) 0 l).
Definition tail_arr (st : list pstate) (z : bytes) : Prop :=
  (exists w, json_space w /\ z = w ++ str "]") \/ (exists w s, json_space w /\ elems_at st s /\ z = w ++ str "," ++ s ++ str "]").
Definition tail_obj (st : list pstate) (z : bytes) : Prop :=
  (exists w, json_space w /\ z = w ++ str "}") \/ (exists w s, json_space w /\ membs_at st s /\ z = w ++ str "," ++ s ++ str "}").
Fixpoint comp_end (st : list pstate) (q : bytes) : Prop :=
  match st with
  | [] => q = []
  | ArrVal :: b => exists z r, q = z ++ r /\ tail_arr st z /\ comp_end b r
  | ObjVal :: b => exists z r, q = z ++ r /\ tail_obj st z /\ comp_end b r
  | ObjKey :: b => exists w w2 x z r, q = w ++ str ":" ++ w2 ++ x ++ z ++ r /\ json_space w /\ json_space w2 /\ text_at (ObjVal :: b) x /\ tail_obj (ObjVal :: b) z /\ comp_end b r
  end.
Definition comp_tok (st : list pstate) (q : bytes) : Prop := exists x r, q = x ++ r /\ text_at st x /\ comp_end st r.
Definition comp_val (st : list pstate) (q : bytes) : Prop := exists w t, q = w ++ t /\ json_space w /\ comp_tok st t.
Definition comp_str (st : list pstate) (q : bytes) : Prop := exists k r, q = k ++ str """" ++ r /\ lex_body k /\ comp_end st r.
Definition comp_key (st : list pstate) (q : bytes) : Prop := exists w t, q = w ++ str """" ++ t /\ json_space w /\ comp_str st t.

Definition sgn (p : bytes) : Prop := p = [] \/ p = str "-".
Definition intp (p : bytes) : Prop := exists s i, p = s ++ i /\ sgn s /\ digits i /\ (forall r, i = str "0" ++ r -> r = []).
Definition fracp (p : bytes) : Prop := p = [] \/ exists d, digits d /\ p = str "." ++ d.
Definition expe (p : bytes) : Prop := p = str "e" \/ p = str "E".
Definition tok (f : sstate) (p : bytes) : Prop :=
  match f with
  | Neg => p = str "-"
  | Zero => exists s, sgn s /\ p = s ++ str "0"
  | One => exists s c d, sgn s /\ In c (str "0123456789") /\ (bN c =? 48) = false /\ Forall (fun c => In c (str "0123456789")) d /\ p = s ++ c :: d
  | Dot => exists i, intp i /\ p = i ++ str "."
  | Dot0 => exists i d, intp i /\ digits d /\ p = i ++ str "." ++ d
  | Ex => exists i fr e, intp i /\ fracp fr /\ expe e /\ p = i ++ fr ++ e
  | ESign => exists i fr e sg, intp i /\ fracp fr /\ expe e /\ (sg = str "+" \/ sg = str "-") /\ p = i ++ fr ++ e ++ sg
  | E0 => exists i fr e sg d, intp i /\ fracp fr /\ expe e /\ (sg = [] \/ sg = str "+" \/ sg = str "-") /\ digits d /\ p = i ++ fr ++ e ++ sg ++ d
  | Lit r => r <> [] /\ In (p ++ r) [str "true"; str "false"; str "null"]
  | _ => False
  end.
Definition comp (s : scanner) (q : bytes) : Prop :=
  let (f, st) := s in
  match f with
  | BeginValue => comp_val st q
  | BeginValueOrEmpty => comp_val st q \/ exists b w r, st = ArrVal :: b /\ q = w ++ str "]" ++ r /\ json_space w /\ comp_end b r
  | BeginString => comp_key st q
  | BeginStringOrEmpty => comp_key st q \/ exists p b w r, st = p :: b /\ q = w ++ str "}" ++ r /\ json_space w /\ comp_end b r
  | EndValue => comp_end st q
  | InString => comp_str st q
  | InStringEsc => comp_str st (Byte.x5c :: q)
  | EscU => comp_str st (Byte.x5c :: Byte.x75 :: q)
  | EscU1 => forall a, hexbyte a -> comp_str st (Byte.x5c :: Byte.x75 :: a :: q)
  | EscU12 => forall a b, hexbyte a -> hexbyte b -> comp_str st (Byte.x5c :: Byte.x75 :: a :: b :: q)
  | EscU123 => forall a b c, hexbyte a -> hexbyte b -> hexbyte c -> comp_str st (Byte.x5c :: Byte.x75 :: a :: b :: c :: q)
  | _ => forall p, tok f p -> comp_tok st (p ++ q)
  end.
Definition ok (s : scanner) : Prop := deep (snd s) 0 /\ (fst s = BeginValueOrEmpty \/ fst s = BeginStringOrEmpty -> snd s <> []).

Lemma deep_max st a b : deep st a -> deep st b -> deep st (N.max a b).
Proof. unfold deep. lia. Qed.
Lemma deep_pop st p n : deep (p :: st) n -> deep st (1 + n).
Proof. unfold deep. cbn [length]. lia. Qed.
Lemma deep_pop0 st p : deep (p :: st) 0 -> deep st 0.
Proof. unfold deep. cbn [length]. lia. Qed.
Lemma deep_swap st p q n : deep (p :: st) n -> deep (q :: st) n.
Proof. unfold deep. cbn [length]. lia. Qed.
Lemma space_cons c w : is_ws c = true -> json_space w -> json_space (c :: w).
Proof. intros C W x [<-|I]; [apply ws_iff, C|apply W, I]. Qed.
Lemma space_nil : json_space [].
Proof. intros c []. Qed.

Lemma elems_cons st w x z : json_space w -> text_at st x -> tail_arr st z -> exists s, elems_at st s /\ w ++ x ++ z = s ++ str "]".
Proof.
  intros W (j & J & D) [(w' & W' & ->)|(w' & s & W' & (l & L & Dl) & ->)].
  - exists (w ++ x ++ w'). split; [exists [j]; split; [apply je_one; assumption|cbn [fold_right]; apply deep_max; [exact D|eapply deep_le; [exact D|lia]]]|].
    rewrite <- !app_assoc. reflexivity.
  - exists (w ++ x ++ w' ++ str "," ++ s). split; [exists (j :: l); split; [apply je_more; assumption|cbn [fold_right]; apply deep_max; assumption]|].
    rewrite <- !app_assoc. reflexivity.
Qed.
Lemma membs_cons st w k w1 w2 x z : json_space w -> lex_body k -> json_space w1 -> json_space w2 -> text_at st x -> tail_obj st z ->
  exists s, membs_at st s /\ w ++ str """" ++ k ++ str """" ++ w1 ++ str ":" ++ w2 ++ x ++ z = s ++ str "}".
Proof.
  intros W K W1 W2 (j & J & D) T. destruct (lex_string k K) as (name & B). destruct T as [(w' & W' & ->)|(w' & s & W' & (l & L & Dl) & ->)].
  - exists (w ++ (str """" ++ k ++ str """") ++ w1 ++ str ":" ++ w2 ++ x ++ w').
    split; [exists [(name, j)]; split; [apply jm_one; assumption|cbn [fold_right snd]; apply deep_max; [exact D|eapply deep_le; [exact D|lia]]]|].
    rewrite <- !app_assoc. reflexivity.
  - exists (w ++ (str """" ++ k ++ str """") ++ w1 ++ str ":" ++ w2 ++ x ++ w' ++ str "," ++ s).
    split; [exists ((name, j) :: l); split; [apply jm_more; assumption|cbn [fold_right snd]; apply deep_max; assumption]|].
    rewrite <- !app_assoc. reflexivity.
Qed.

Definition next (o : stepped) (s : scanner) : Prop := o = Go s \/ o = Close s.
Ltac nx H := destruct H as [H|H]; try discriminate H.

Lemma comp_end_space st c q : is_ws c = true -> st <> [] -> comp_end st q -> comp_end st (c :: q).
Proof.
  intros C NE. destruct st as [|[| |] b]; [destruct (NE eq_refl)|..]; cbn [comp_end].
  - intros (w & w2 & x & z & r & -> & W & K). exists (c :: w), w2, x, z, r. split; [reflexivity|]. split; [apply space_cons; assumption|exact K].
  - intros (z & r & -> & T & K). exists (c :: z), r. split; [reflexivity|]. split; [|exact K].
    destruct T as [(w & W & ->)|(w & s & W & M & ->)]; [left; exists (c :: w)|right; exists (c :: w), s]; repeat split; auto; apply space_cons; assumption.
  - intros (z & r & -> & T & K). exists (c :: z), r. split; [reflexivity|]. split; [|exact K].
    destruct T as [(w & W & ->)|(w & s & W & M & ->)]; [left; exists (c :: w)|right; exists (c :: w), s]; repeat split; auto; apply space_cons; assumption.
Qed.
Lemma step_end_sound st c s q : next (step_end st c) s -> comp s q -> comp_end st (c :: q).
Proof.
  intros H K. destruct st as [|ps b]; [nx H|]. cbn [step_end] in H. destruct (is_ws c) eqn:C.
  { nx H. injection H as <-. apply comp_end_space; [exact C|discriminate|exact K]. }
  destruct ps.
  - destruct (bN c =? 58) eqn:E; [|nx H]. apply bN_eq in E. subst c. nx H. injection H as <-.
    destruct K as (w & t & -> & W & x & r & -> & T & z & r' & -> & Z & Q). exists [], w, x, z, r'. repeat split; auto using space_nil.
  - destruct (bN c =? 44) eqn:E.
    + apply bN_eq in E. subst c. nx H. injection H as <-.
      destruct K as (w & t & -> & W & k & r & -> & L & w1 & w2 & x & z & r' & -> & W1 & W2 & T & Z & Q).
      destruct (membs_cons (ObjVal :: b) w k w1 w2 x z W L W1 W2 T Z) as (s & M & E).
      exists (str "," ++ s ++ str "}"), r'. split; [|split; [right; exists [], s; auto using space_nil|exact Q]].
      rewrite <- E, <- !app_assoc. reflexivity.
    + destruct (bN c =? 125) eqn:E'; [|nx H]. apply bN_eq in E'. subst c. nx H. injection H as <-. exists (str "}"), q.
      split; [reflexivity|]. split; [left; exists []; auto using space_nil|exact K].
  - destruct (bN c =? 44) eqn:E.
    + apply bN_eq in E. subst c. nx H. injection H as <-.
      destruct K as (w & t & -> & W & x & r & -> & T & z & r' & -> & Z & Q).
      destruct (elems_cons (ArrVal :: b) w x z W T Z) as (s & M & E).
      exists (str "," ++ s ++ str "]"), r'. split; [|split; [right; exists [], s; auto using space_nil|exact Q]].
      rewrite <- E, <- !app_assoc. reflexivity.
    + destruct (bN c =? 93) eqn:E'; [|nx H]. apply bN_eq in E'. subst c. nx H. injection H as <-. exists (str "]"), q.
      split; [reflexivity|]. split; [left; exists []; auto using space_nil|exact K].
Qed.

Lemma push_inv st ps f o : next (push st ps f) o -> o = (f, ps :: st) /\ deep st 1.
Proof.
  unfold push, deep. intros H. destruct (N.leb_spec (N.of_nat (S (length st))) maxNestingDepth) as [L|L]; nx H.
  injection H as <-. split; [reflexivity|lia].
Qed.

Lemma comp_array st q : comp (BeginValueOrEmpty, ArrVal :: st) q -> deep st 1 -> comp_tok st (Byte.x5b :: q).
Proof.
  intros [(w & t & -> & W & x & r & -> & T & z & r' & -> & Z & Q)|(b & w & r & E & -> & W & Q)] D.
  - destruct (elems_cons _ w x z W T Z) as (s & (l & L & Dl) & E). exists (str "[" ++ s ++ str "]"), r'.
    split; [rewrite <- E, <- !app_assoc; reflexivity|]. split; [|exact Q]. exists (JArr l). split; [apply jt_array, L|]. cbn [nesting]. eapply deep_pop. exact Dl.
  - injection E as <-. exists (str "[" ++ w ++ str "]"), r. split; [rewrite <- !app_assoc; reflexivity|]. split; [|exact Q].
    exists (JArr []). split; [apply jt_array0, W|]. exact D.
Qed.
Lemma comp_object st q : comp (BeginStringOrEmpty, ObjKey :: st) q -> deep st 1 -> comp_tok st (Byte.x7b :: q).
Proof.
  intros [(w & t & -> & W & k & r & -> & L & w1 & w2 & x & z & r' & -> & W1 & W2 & T & Z & Q)|(p & b & w & r & E & -> & W & Q)] D.
  - destruct (membs_cons _ w k w1 w2 x z W L W1 W2 T Z) as (s & (l & J & Dl) & E). exists (str "{" ++ s ++ str "}"), r'.
    split; [rewrite <- !app_assoc; change (str "{" ++ s ++ str "}" ++ r') with (Byte.x7b :: (s ++ str "}" ++ r')); rewrite (app_assoc s), <- E, <- !app_assoc; reflexivity|]. split; [|exact Q].
    exists (JObj l). split; [apply jt_object, J|]. cbn [nesting]. eapply deep_pop. exact Dl.
  - injection E as _ <-. exists (str "{" ++ w ++ str "}"), r. split; [rewrite <- !app_assoc; reflexivity|]. split; [|exact Q].
    exists (JObj []). split; [apply jt_object0, W|]. exact D.
Qed.
Lemma comp_string st q : comp_str st q -> deep st 0 -> comp_tok st (Byte.x22 :: q).
Proof.
  intros (k & r & -> & L & Q) D. destruct (lex_string k L) as (name & B). exists (str """" ++ k ++ str """"), r.
  split; [rewrite <- !app_assoc; reflexivity|]. split; [|exact Q]. exists (JStr name). split; [apply jt_string, B|exact D].
Qed.
Lemma tok_val st q : comp_tok st q -> comp_val st q.
Proof. intros H. exists [], q. auto using space_nil. Qed.
Lemma step_value_sound st c s q : deep st 0 -> next (step_value st c) s -> comp s q -> comp_val st (c :: q).
Proof.
  intros D H K. unfold step_value in H. destruct (is_ws c) eqn:W.
  { nx H. injection H as <-. destruct K as (w & t & -> & Wt & T). exists (c :: w), t. split; [reflexivity|]. split; [apply space_cons; assumption|exact T]. }
  apply tok_val.
  destruct (bN c =? 123) eqn:E1. { apply bN_eq in E1. subst c. apply push_inv in H as [-> D1]. apply comp_object; assumption. }
  destruct (bN c =? 91) eqn:E2. { apply bN_eq in E2. subst c. apply push_inv in H as [-> D1]. apply comp_array; assumption. }
  destruct (bN c =? 34) eqn:E3. { apply bN_eq in E3. subst c. nx H. injection H as <-. apply comp_string; assumption. }
  destruct (bN c =? 45) eqn:E4. { apply bN_eq in E4. subst c. nx H. injection H as <-. exact (K (str "-") eq_refl). }
  destruct (bN c =? 48) eqn:E5. { apply bN_eq in E5. subst c. nx H. injection H as <-. apply (K (str "0")). exists []. split; [left|]; reflexivity. }
  destruct (bN c =? 116) eqn:E6. { apply bN_eq in E6. subst c. nx H. injection H as <-. apply (K (str "t")). split; [discriminate|left; reflexivity]. }
  destruct (bN c =? 102) eqn:E7. { apply bN_eq in E7. subst c. nx H. injection H as <-. apply (K (str "f")). split; [discriminate|right; left; reflexivity]. }
  destruct (bN c =? 110) eqn:E8. { apply bN_eq in E8. subst c. nx H. injection H as <-. apply (K (str "n")). split; [discriminate|right; right; left; reflexivity]. }
  destruct (is_digit c) eqn:E9; [|nx H]. nx H. injection H as <-. apply (K [c]). exists [], c, []. repeat split; auto; [left; reflexivity|apply digit_iff, E9].
Qed.
Lemma step_string_sound st c s q : next (step_string st c) s -> comp s q -> comp_key st (c :: q).
Proof.
  intros H K. unfold step_string in H. destruct (is_ws c) eqn:W.
  { nx H. injection H as <-. destruct K as (w & t & -> & Wt & T). exists (c :: w), t. split; [reflexivity|]. split; [apply space_cons; assumption|exact T]. }
  destruct (bN c =? 34) eqn:E; [|nx H]. apply bN_eq in E. subst c. nx H. injection H as <-. exists [], q. split; [reflexivity|]. split; [apply space_nil|exact K].
Qed.

(** Numbers *)
Lemma digits_snoc d c : Forall (fun c => In c (str "0123456789")) d -> is_digit c = true -> Forall (fun c => In c (str "0123456789")) (d ++ [c]).
Proof. intros F D. apply Forall_app. split; [exact F|]. constructor; [apply digit_iff, D|constructor]. Qed.
Lemma digits_one c : is_digit c = true -> digits [c].
Proof. intros D. split; [discriminate|]. constructor; [apply digit_iff, D|constructor]. Qed.
Lemma digits_more d c : digits d -> is_digit c = true -> digits (d ++ [c]).
Proof. intros [N F] D. split; [destruct d; discriminate|apply digits_snoc; assumption]. Qed.
Lemma tok_int f p : (f = Zero \/ f = One) -> tok f p -> intp p.
Proof.
  intros [-> | ->] T; cbn [tok] in T.
  - destruct T as (s & S & ->). exists s, (str "0"). split; [reflexivity|]. split; [exact S|]. split; [split; [discriminate|repeat constructor]|]. intros r E. cbn in E. injection E as E. symmetry. exact E.
  - destruct T as (s & c & d & S & C & NZ & F & ->). exists s, (c :: d). split; [reflexivity|]. split; [exact S|]. split; [split; [discriminate|constructor; assumption]|].
    intros r E. injection E as -> _. discriminate NZ.
Qed.
Lemma number_parts i fr e : intp i -> fracp fr -> (e = [] \/ exists x sg d, expe x /\ (sg = [] \/ sg = str "+" \/ sg = str "-") /\ digits d /\ e = x ++ sg ++ d) -> number (i ++ fr ++ e).
Proof.
  intros (s & n & -> & S & D & Z) F E. exists s, n, fr, e. split; [rewrite <- app_assoc; reflexivity|]. split; [destruct S as [-> | ->]; cbn; auto|]. split; [exact D|]. split; [exact Z|].
  split; [destruct F as [->|(d & Dd & ->)]; [left; reflexivity|right; eauto]|]. destruct E as [->|(x & sg & d & X & G & Dd & ->)]; [left; reflexivity|right].
  exists x, sg, d. split; [destruct X as [-> | ->]; cbn; auto|]. split; [destruct G as [->|[-> | ->]]; cbn; auto|]. split; [exact Dd|reflexivity].
Qed.
Lemma tok_number f p : ended f = true -> tok f p -> number p.
Proof.
  intros F T. destruct f; try discriminate F; try contradiction T.
  - rewrite <- (app_nil_r p). change (@nil byte) with (@nil byte ++ []). apply number_parts; [eapply tok_int; [|exact T]; auto|left; reflexivity|left; reflexivity].
  - rewrite <- (app_nil_r p). change (@nil byte) with (@nil byte ++ []). apply number_parts; [eapply tok_int; [|exact T]; auto|left; reflexivity|left; reflexivity].
  - destruct T as (i & d & I & D & ->). rewrite <- (app_nil_r (str "." ++ d)). apply number_parts; [exact I|right; eauto|left; reflexivity].
  - destruct T as (i & fr & e & sg & d & I & Fr & E & G & D & ->). apply number_parts; [exact I|exact Fr|right; exists e, sg, d; auto].
Qed.
(** A step inside a token: what was read so far grows. *)
Lemma comp_grow st c q (P P' : bytes -> Prop) : (forall p, P p -> P' (p ++ [c])) -> (forall p, P' p -> comp_tok st (p ++ q)) -> forall p, P p -> comp_tok st (p ++ c :: q).
Proof. intros G K p T. specialize (K _ (G p T)). rewrite <- app_assoc in K. exact K. Qed.
(** A step behind a number. *)
Lemma comp_past f st c s q : deep st 0 -> ended f = true -> next (step_end st c) s -> comp s q -> forall p, tok f p -> comp_tok st (p ++ c :: q).
Proof.
  intros D F H K p T. exists p, (c :: q). split; [reflexivity|]. split; [|eapply step_end_sound; eassumption].
  exists (JNum p). split; [apply jt_number; eapply tok_number; eassumption|exact D].
Qed.
Lemma step_zero_sound f st c s q : (f = Zero \/ f = One) -> deep st 0 -> next (step_zero st c) s -> comp s q -> forall p, tok f p -> comp_tok st (p ++ c :: q).
Proof.
  intros F D H K. unfold step_zero in H. destruct (bN c =? 46) eqn:E1.
  { apply bN_eq in E1. subst c. nx H. injection H as <-. eapply (comp_grow st _ q (tok f) (tok Dot)); [|exact K]. intros p T. exists p. split; [eapply tok_int; eassumption|reflexivity]. }
  destruct ((bN c =? 101) || (bN c =? 69)) eqn:E2.
  { nx H. injection H as <-. eapply (comp_grow st _ q (tok f) (tok Ex)); [|exact K]. intros p T. exists p, [], [c]. split; [eapply tok_int; eassumption|]. split; [left; reflexivity|]. split; [|reflexivity].
    apply orb_true_iff in E2 as [E|E]; apply bN_eq in E; subst c; [left|right]; reflexivity. }
  eapply comp_past; [exact D|destruct F as [-> | ->]; reflexivity|exact H|exact K].
Qed.

Lemma step_hex_inv f st c s : next (step_hex f st c) s -> s = (f, st) /\ hexbyte c.
Proof. unfold step_hex, hexbyte. intros H. destruct (hexd c) as [n|]; nx H. injection H as <-. split; [reflexivity|eauto]. Qed.
Lemma letters_escape c : existsb (fun x => bN c =? bN x) (str "bfnrt\/""") = true -> exists v, In (c, v) escapes.
Proof.
  intros H. apply existsb_exists in H as (x & I & E). apply bN_eq in E. rewrite nB_bN in E. subst c. cbn in I.
  repeat (destruct I as [<-|I]; [eexists; cbn; eauto 12|]). contradiction.
Qed.
Lemma comp_str_app st k q : (forall s, lex_body s -> lex_body (k ++ s)) -> comp_str st q -> comp_str st (k ++ q).
Proof. intros H (s & r & -> & L & Q). exists (k ++ s), r. split; [rewrite <- app_assoc; reflexivity|]. split; [apply H, L|exact Q]. Qed.

Lemma step_sound s c s' q : ok s -> next (step s c) s' -> comp s' q -> comp s (c :: q).
Proof.
  destruct s as [f st]. intros [D NE] H K. cbn [fst snd] in *. destruct f; cbn [step] in H.
  - destruct (is_ws c) eqn:W.
    { nx H. injection H as <-. cbn [comp] in *. destruct K as [(w & t & -> & Wt & T)|(b & w & r & E & -> & Wt & Q)].
      - left. exists (c :: w), t. split; [reflexivity|]. split; [apply space_cons; assumption|exact T].
      - right. exists b, (c :: w), r. split; [exact E|]. split; [reflexivity|]. split; [apply space_cons; assumption|exact Q]. }
    destruct (bN c =? 93) eqn:E.
    { apply bN_eq in E. subst c. right. destruct st as [|[| |] b]; [destruct (NE (or_introl eq_refl) eq_refl)|nx H|nx H|]. cbn in H. nx H. injection H as <-.
      exists b, [], q. auto using space_nil. }
    left. eapply step_value_sound; eassumption.
  - eapply step_value_sound; eassumption.
  - destruct (is_ws c) eqn:W.
    { nx H. injection H as <-. cbn [comp] in *. destruct K as [(w & t & -> & Wt & T)|(p & b & w & r & E & -> & Wt & Q)].
      - left. exists (c :: w), t. split; [reflexivity|]. split; [apply space_cons; assumption|exact T].
      - right. exists p, b, (c :: w), r. split; [exact E|]. split; [reflexivity|]. split; [apply space_cons; assumption|exact Q]. }
    destruct (bN c =? 125) eqn:E.
    { apply bN_eq in E. subst c. right. destruct st as [|p b]; [destruct (NE (or_intror eq_refl) eq_refl)|]. cbn in H. nx H. injection H as <-.
      exists p, b, [], q. auto using space_nil. }
    left. eapply step_string_sound; eassumption.
  - eapply step_string_sound; eassumption.
  - eapply step_end_sound; eassumption.
  - cbn [comp]. destruct (bN c =? 34) eqn:E1. { apply bN_eq in E1. subst c. nx H. injection H as <-. exists [], q. split; [reflexivity|]. split; [constructor|exact K]. }
    destruct (bN c =? 92) eqn:E2. { apply bN_eq in E2. subst c. nx H. injection H as <-. exact K. }
    destruct (N.ltb_spec (bN c) 32) as [L|L]; nx H. injection H as <-. apply (comp_str_app st [c]); [|exact K].
    intros s S. apply lx_plain; [exact L|apply N.eqb_neq, E1|apply N.eqb_neq, E2|exact S].
  - cbn [comp]. destruct (existsb _ _) eqn:E1.
    { nx H. injection H as <-. destruct (letters_escape c E1) as (v & I). apply (comp_str_app st [Byte.x5c; c]); [|exact K]. intros s S. eapply lx_esc; eassumption. }
    destruct (bN c =? 117) eqn:E2; nx H. apply bN_eq in E2. subst c. injection H as <-. exact K.
  - apply step_hex_inv in H as [-> X]. exact (K c X).
  - apply step_hex_inv in H as [-> X]. intros a A. exact (K a c A X).
  - apply step_hex_inv in H as [-> X]. intros a b A B. exact (K a b c A B X).
  - apply step_hex_inv in H as [-> X]. intros a b c' A B C. apply (comp_str_app st [Byte.x5c; Byte.x75; a; b; c'; c]); [|exact K]. intros s S. apply lx_u; assumption.
  - destruct (bN c =? 48) eqn:E1.
    { apply bN_eq in E1. subst c. nx H. injection H as <-. cbn [comp]; apply (comp_grow st _ q (tok Neg) (tok Zero)); [|exact K]. intros p ->. exists (str "-"). split; [right|]; reflexivity. }
    destruct (is_digit c) eqn:E2; nx H. injection H as <-. cbn [comp]; apply (comp_grow st _ q (tok Neg) (tok One)); [|exact K]. intros p ->.
    exists (str "-"), c, []. split; [right; reflexivity|]. split; [apply digit_iff, E2|]. auto.
  - destruct (is_digit c) eqn:E.
    + nx H. injection H as <-. cbn [comp]; apply (comp_grow st _ q (tok One) (tok One)); [|exact K]. intros p (s & x & d & S & X & NZ & F & ->).
      exists s, x, (d ++ [c]). split; [exact S|]. split; [exact X|]. split; [exact NZ|]. split; [apply digits_snoc; assumption|]. rewrite <- app_assoc. reflexivity.
    + exact (step_zero_sound One st c s' q (or_intror eq_refl) D H K).
  - exact (step_zero_sound Zero st c s' q (or_introl eq_refl) D H K).
  - destruct (is_digit c) eqn:E; nx H. injection H as <-. cbn [comp]; apply (comp_grow st _ q (tok Dot) (tok Dot0)); [|exact K]. intros p (i & I & ->).
    exists i, [c]. split; [exact I|]. split; [apply digits_one, E|]. rewrite <- app_assoc. reflexivity.
  - destruct (is_digit c) eqn:E.
    + nx H. injection H as <-. cbn [comp]; apply (comp_grow st _ q (tok Dot0) (tok Dot0)); [|exact K]. intros p (i & d & I & Dd & ->).
      exists i, (d ++ [c]). split; [exact I|]. split; [apply digits_more; assumption|]. rewrite <- !app_assoc. reflexivity.
    + destruct ((bN c =? 101) || (bN c =? 69)) eqn:E2.
      * nx H. injection H as <-. cbn [comp]; apply (comp_grow st _ q (tok Dot0) (tok Ex)); [|exact K]. intros p (i & d & I & Dd & ->).
        exists i, (str "." ++ d), [c]. split; [exact I|]. split; [right; eauto|]. split; [|rewrite <- !app_assoc; reflexivity].
        apply orb_true_iff in E2 as [X|X]; apply bN_eq in X; subst c; [left|right]; reflexivity.
      * exact (comp_past Dot0 st c s' q D eq_refl H K).
  - destruct ((bN c =? 43) || (bN c =? 45)) eqn:E1.
    + nx H. injection H as <-. cbn [comp]; apply (comp_grow st _ q (tok Ex) (tok ESign)); [|exact K]. intros p (i & fr & e & I & F & X & ->).
      exists i, fr, e, [c]. split; [exact I|]. split; [exact F|]. split; [exact X|]. split; [|rewrite <- !app_assoc; reflexivity].
      apply orb_true_iff in E1 as [Y|Y]; apply bN_eq in Y; subst c; [left|right]; reflexivity.
    + destruct (is_digit c) eqn:E; nx H. injection H as <-. cbn [comp]; apply (comp_grow st _ q (tok Ex) (tok E0)); [|exact K]. intros p (i & fr & e & I & F & X & ->).
      exists i, fr, e, [], [c]. split; [exact I|]. split; [exact F|]. split; [exact X|]. split; [auto|]. split; [apply digits_one, E|]. rewrite <- !app_assoc. reflexivity.
  - destruct (is_digit c) eqn:E; nx H. injection H as <-. cbn [comp]; apply (comp_grow st _ q (tok ESign) (tok E0)); [|exact K]. intros p (i & fr & e & sg & I & F & X & G & ->).
    exists i, fr, e, sg, [c]. split; [exact I|]. split; [exact F|]. split; [exact X|]. split; [auto|]. split; [apply digits_one, E|]. rewrite <- !app_assoc. reflexivity.
  - destruct (is_digit c) eqn:E.
    + nx H. injection H as <-. cbn [comp]; apply (comp_grow st _ q (tok E0) (tok E0)); [|exact K]. intros p (i & fr & e & sg & d & I & F & X & G & Dd & ->).
      exists i, fr, e, sg, (d ++ [c]). split; [exact I|]. split; [exact F|]. split; [exact X|]. split; [exact G|]. split; [apply digits_more; assumption|]. rewrite <- !app_assoc. reflexivity.
    + exact (comp_past E0 st c s' q D eq_refl H K).
  - destruct r as [|x r]; [nx H|]. destruct (bN c =? bN x) eqn:E; nx H. apply bN_eq in E. rewrite nB_bN in E. subst x. injection H as <-. cbn [comp]. intros p [_ I].
    destruct r as [|y r].
    + exists (p ++ [c]), q. split; [rewrite <- app_assoc; reflexivity|]. split; [|exact K]. cbn [In] in I.
      destruct I as [I|[I|[I|[]]]]; rewrite <- I; [exists (JBool true)|exists (JBool false)|exists JNull]; (split; [constructor|exact D]).
    + apply (comp_grow st c q (tok (Lit (c :: y :: r))) (tok (Lit (y :: r)))); [|exact K|split; [discriminate|exact I]].
      intros p' [_ I']. split; [discriminate|]. rewrite <- app_assoc. exact I'.
Qed.

(** ** Invariants along a scan *)
Lemma ok_le st st' : (length st' <= length st)%nat -> deep st 0 -> deep st' 0.
Proof. unfold deep. lia. Qed.
Lemma step_end_ok st c s : deep st 0 -> next (step_end st c) s -> ok s.
Proof.
  intros D H. destruct st as [|ps b]; [nx H|]. cbn [step_end] in H.
  destruct (is_ws c); [nx H; injection H as <-; split; [exact D|intros [E|E]; discriminate]|].
  destruct ps; repeat (match type of H with context [if ?t then _ else _] => destruct t end); nx H; injection H as <-;
    (split; [eapply ok_le; [|exact D]; cbn [snd length]; lia|intros [E|E]; discriminate]).
Qed.
Lemma push_ok_ok st ps f s : next (push st ps f) s -> ok s.
Proof. intros H. apply push_inv in H as [-> D]. split; [cbn [snd]; unfold deep in *; cbn [length]; lia|intros _; discriminate]. Qed.
Lemma step_value_ok st c s : deep st 0 -> next (step_value st c) s -> ok s.
Proof.
  intros D H. unfold step_value in H. repeat (match type of H with next (if ?t then _ else _) _ => destruct t end); try (eapply push_ok_ok; exact H); nx H; injection H as <-;
    (split; [exact D|intros [E|E]; discriminate]).
Qed.
Lemma step_string_ok st c s : deep st 0 -> next (step_string st c) s -> ok s.
Proof.
  intros D H. unfold step_string in H. repeat (match type of H with next (if ?t then _ else _) _ => destruct t end); nx H; injection H as <-;
    (split; [exact D|intros [E|E]; discriminate]).
Qed.
Lemma step_ok s c s' : ok s -> next (step s c) s' -> ok s'.
Proof.
  destruct s as [f st]. intros [D NE] H. cbn [fst snd] in *.
  assert (Z : forall f', f' <> BeginValueOrEmpty -> f' <> BeginStringOrEmpty -> ok (f', st)). { intros f' A B. split; [exact D|]. intros [E|E]; contradiction. }
  assert (SE : next (step_end st c) s' -> ok s') by (apply step_end_ok, D).
  assert (SZ : next (step_zero st c) s' -> ok s').
  { unfold step_zero. intros K. repeat (match type of K with next (if ?t then _ else _) _ => destruct t end); [nx K; injection K as <-; apply Z; discriminate..|apply SE, K]. }
  assert (SH : forall f', f' <> BeginValueOrEmpty -> f' <> BeginStringOrEmpty -> next (step_hex f' st c) s' -> ok s') by (intros f' A B K; apply step_hex_inv in K as [-> _]; apply Z; assumption).
  destruct f; cbn [step] in H;
    lazymatch type of H with
    | next (step_end _ _) _ => exact (SE H)
    | next (step_zero _ _) _ => exact (SZ H)
    | next (step_value _ _) _ => eapply step_value_ok; [exact D|exact H]
    | next (step_string _ _) _ => eapply step_string_ok; [exact D|exact H]
    | next (step_hex ?g _ _) _ => apply (SH g); [discriminate|discriminate|exact H]
    | _ => idtac
    end.
  - destruct (is_ws c); [nx H; injection H as <-; split; assumption|]. destruct (bN c =? 93); [apply SE, H|eapply step_value_ok; [exact D|exact H]].
  - destruct (is_ws c); [nx H; injection H as <-; split; assumption|]. destruct (bN c =? 125); [|eapply step_string_ok; [exact D|exact H]].
    eapply step_end_ok; [|exact H]. destruct st as [|p b]; [exact D|]. exact D.
  - repeat (match type of H with next (if ?t then _ else _) _ => destruct t end); nx H; injection H as <-; apply Z; discriminate.
  - repeat (match type of H with next (if ?t then _ else _) _ => destruct t end); nx H; injection H as <-; apply Z; discriminate.
  - repeat (match type of H with next (if ?t then _ else _) _ => destruct t end); nx H; injection H as <-; apply Z; discriminate.
  - destruct (is_digit c); [nx H; injection H as <-; apply Z; discriminate|apply SZ, H].
  - repeat (match type of H with next (if ?t then _ else _) _ => destruct t end); nx H; injection H as <-; apply Z; discriminate.
  - repeat (match type of H with next (if ?t then _ else _) _ => destruct t end); try (apply SE, H); nx H; injection H as <-; apply Z; discriminate.
  - repeat (match type of H with next (if ?t then _ else _) _ => destruct t end); nx H; injection H as <-; apply Z; discriminate.
  - repeat (match type of H with next (if ?t then _ else _) _ => destruct t end); nx H; injection H as <-; apply Z; discriminate.
  - repeat (match type of H with next (if ?t then _ else _) _ => destruct t end); try (apply SE, H); nx H; injection H as <-; apply Z; discriminate.
  - destruct r as [|x r]; [nx H|]. destruct (bN c =? bN x); nx H; injection H as <-. destruct r; apply Z; discriminate.
Qed.
Lemma step_end_End st c : step_end st c = End -> st = [].
Proof.
  destruct st as [|ps b]; [reflexivity|]. cbn [step_end]. destruct (is_ws c); [discriminate|].
  destruct ps; repeat (match goal with |- context [if ?t then _ else _] => destruct t end); discriminate.
Qed.
Lemma step_End s c : ok s -> step s c = End -> snd s = [] /\ ended (fst s) = true.
Proof.
  destruct s as [f st]. intros [D NE] H. cbn [fst snd] in *.
  assert (V : step_value st c <> End). { unfold step_value, push. repeat (match goal with |- context [if ?t then _ else _] => destruct t end); discriminate. }
  assert (St : step_string st c <> End). { unfold step_string. repeat (match goal with |- context [if ?t then _ else _] => destruct t end); discriminate. }
  assert (X : forall f', step_hex f' st c <> End). { intros f'. unfold step_hex. destruct (hexd c); discriminate. }
  destruct f; cbn [step] in H;
    lazymatch type of H with
    | step_end _ _ = _ => split; [eapply step_end_End; exact H|reflexivity]
    | step_value _ _ = _ => destruct (V H)
    | step_string _ _ = _ => destruct (St H)
    | step_hex ?g _ _ = _ => destruct (X g H)
    | _ => idtac
    end;
    try (repeat (lazymatch type of H with (if ?t then _ else _) = _ => destruct t end); discriminate H);
    try (split; [|reflexivity]; unfold step_zero in H; repeat (lazymatch type of H with (if ?t then _ else _) = _ => destruct t; [discriminate H|] end);
         lazymatch type of H with step_end _ _ = _ => eapply step_end_End; exact H end).
  - destruct (is_ws c); [discriminate|]. destruct (bN c =? 93); [|destruct (V H)]. apply step_end_End in H. destruct (NE (or_introl eq_refl) H).
  - destruct (is_ws c); [discriminate|]. destruct (bN c =? 125); [|destruct (St H)]. apply step_end_End in H. destruct st; [destruct (NE (or_intror eq_refl) eq_refl)|discriminate].
  - destruct r as [|x r]; [discriminate|]. destruct (bN c =? bN x); discriminate.
Qed.
Lemma ended_comp f : ended f = true -> comp (f, []) [].
Proof.
  intros E. destruct f; try discriminate E; [reflexivity|..]; cbn [comp]; intros p T; exists p, []; (split; [reflexivity|split; [exists (JNum p); split; [apply jt_number; eapply tok_number; [exact E|exact T]|unfold deep; cbn; lia]|reflexivity]]).
Qed.

Lemma goes_sound b : forall s s' q, ok s -> goes s b s' -> ok s' /\ (comp s' q -> comp s (b ++ q)).
Proof.
  induction b as [|c b IH]; intros s s' q O G; [injection G as <-; auto|]. unfold goes in G. cbn [scan] in G.
  assert (K : forall s1, next (step s c) s1 -> match scan s1 b with Value n => Value (S n) | x => x end = Partial s' -> ok s' /\ (comp s' q -> comp s ((c :: b) ++ q))).
  { intros s1 N E. destruct (IH s1 s' q) as [O' C]; [eapply step_ok; [exact O|exact N]|unfold goes; destruct (scan s1 b); [discriminate|exact E|discriminate]|].
    split; [exact O'|]. intros Q. cbn [app]. eapply step_sound; [exact O|exact N|apply C, Q]. }
  destruct (step s c) as [s1|[f [|p st]]| |] eqn:S; try discriminate; (eapply K; [|exact G]); [left|right]; reflexivity.
Qed.
Lemma value_sound b : forall s n, ok s -> scan s b = Value n -> (n <= length b)%nat /\ comp s (firstn n b).
Proof.
  induction b as [|c b IH]; intros s n O G; [discriminate|]. cbn [scan] in G.
  assert (K : forall s1, next (step s c) s1 -> match scan s1 b with Value n => Value (S n) | x => x end = Value n -> (n <= length (c :: b))%nat /\ comp s (firstn n (c :: b))).
  { intros s1 N E. destruct (scan s1 b) as [m|s2|] eqn:R; [|discriminate..]. injection E as <-. destruct (IH s1 m) as [L C]; [eapply step_ok; [exact O|exact N]|exact R|].
    split; [cbn [length]; lia|]. cbn [firstn]. eapply step_sound; [exact O|exact N|exact C]. }
  destruct (step s c) as [s1|[f [|p st]]| |] eqn:S; try discriminate.
  - apply (K s1); [left; reflexivity|exact G].
  - injection G as <-. split; [cbn; lia|]. cbn [firstn]. eapply step_sound; [exact O|right; exact S|].
    assert (O' : ok (f, [])) by (eapply step_ok; [exact O|right; exact S]).
    assert (F : f = EndValue); [|subst f; reflexivity]. clear - S. destruct s as [g st].
    assert (E : forall st', step_end st' c = Close (f, []) -> f = EndValue).
    { intros [|ps b]; cbn [step_end]; [discriminate|]. destruct (is_ws c); [discriminate|]. destruct ps; repeat (match goal with |- context [if ?t then _ else _] => destruct t end); congruence. }
    assert (V : step_value st c <> Close (f, [])). { unfold step_value, push. repeat (match goal with |- context [if ?t then _ else _] => destruct t end); discriminate. }
    assert (St : step_string st c <> Close (f, [])). { unfold step_string. repeat (match goal with |- context [if ?t then _ else _] => destruct t end); discriminate. }
    assert (X : forall f', step_hex f' st c <> Close (f, [])). { intros f'. unfold step_hex. destruct (hexd c); discriminate. }
    destruct g; cbn [step] in S; unfold step_zero in S;
      repeat (lazymatch type of S with (if ?t then _ else _) = _ => destruct t end);
      lazymatch type of S with
      | step_end ?st' _ = _ => exact (E st' S)
      | step_value _ _ = _ => destruct (V S)
      | step_string _ _ = _ => destruct (St S)
      | step_hex ?g _ _ = _ => destruct (X g S)
      | match _ with _ => _ end = _ => idtac
      | _ => discriminate S
      end.
    destruct r as [|x r]; [discriminate|]. destruct (bN c =? bN x); discriminate.
  - apply (K (f, p :: st)); [right; reflexivity|exact G].
  - injection G as <-. split; [cbn; lia|]. cbn [firstn]. destruct (step_End s c O S) as [E1 E2]. destruct s as [g st]. cbn [fst snd] in *. subst st. apply ended_comp, E2.
Qed.

(** Something completes every state. *)
Lemma comp_end_some st : deep st 0 -> exists q, comp_end st q.
Proof.
  induction st as [|ps b IH]; intros D; [exists []; reflexivity|]. destruct (IH (deep_pop0 _ _ D)) as (r & R). destruct ps; cbn [comp_end].
  - exists (str ":0}" ++ r), [], [], (str "0"), (str "}"), r. split; [reflexivity|]. split; [apply space_nil|]. split; [apply space_nil|]. split; [|split; [left; exists []; auto using space_nil|exact R]].
    exists (JNum (str "0")). split; [|exact D]. apply jt_number. apply (tok_number Zero); [reflexivity|]. exists []. split; [left|]; reflexivity.
  - exists (str "}" ++ r), (str "}"), r. split; [reflexivity|]. split; [left; exists []; auto using space_nil|exact R].
  - exists (str "]" ++ r), (str "]"), r. split; [reflexivity|]. split; [left; exists []; auto using space_nil|exact R].
Qed.
Lemma comp_str_some st : deep st 0 -> exists q, comp_str st q.
Proof. intros D. destruct (comp_end_some st D) as (r & R). exists (str """" ++ r), [], r. split; [reflexivity|]. split; [constructor|exact R]. Qed.
Lemma str_text_zero : number (str "0").
Proof. apply (tok_number Zero); [reflexivity|]. exists []. split; [left|]; reflexivity. Qed.
Lemma comp_tok_some st : deep st 0 -> exists q, comp_tok st q.
Proof. intros D. destruct (comp_end_some st D) as (r & R). exists (str "0" ++ r), (str "0"), r. split; [reflexivity|]. split; [|exact R]. exists (JNum (str "0")). split; [apply jt_number, str_text_zero|exact D]. Qed.
Lemma zero_digits : digits (str "0").
Proof. split; [discriminate|repeat constructor]. Qed.
Lemma comp_some s : ok s -> exists q, comp s q.
Proof.
  destruct s as [f st]. intros [D _]. cbn [snd] in D.
  destruct (comp_end_some st D) as (r & R). destruct (comp_tok_some st D) as (t & T). destruct (comp_str_some st D) as (u & U).
  assert (Num : forall p, number p -> comp_tok st (p ++ r)).
  { intros p P. exists p, r. split; [reflexivity|]. split; [|exact R]. exists (JNum p). split; [apply jt_number, P|exact D]. }
  assert (Key : comp_key st (str """" ++ u)) by (exists [], u; auto using space_nil).
  assert (Hx : hexbyte Byte.x30) by (exists 0%N; reflexivity).
  destruct f; cbn [comp].
  - exists t. left. apply tok_val, T.
  - exists t. apply tok_val, T.
  - eexists. left. exact Key.
  - eexists. exact Key.
  - exists r. exact R.
  - exists u. exact U.
  - exists (Byte.x6e :: u). apply (comp_str_app st (str "\n")); [|exact U]. intros s S. apply (lx_esc Byte.x6e Byte.x0a); [cbn; auto 10|exact S].
  - exists (str "0000" ++ u). apply (comp_str_app st (str "\u0000")); [|exact U]. intros s S. apply lx_u; assumption.
  - exists (str "000" ++ u). intros a A. apply (comp_str_app st (str "\u" ++ a :: str "000")); [|exact U]. intros s S. apply lx_u; assumption.
  - exists (str "00" ++ u). intros a b A B. apply (comp_str_app st (str "\u" ++ a :: b :: str "00")); [|exact U]. intros s S. apply lx_u; assumption.
  - exists (str "0" ++ u). intros a b c A B C. apply (comp_str_app st (str "\u" ++ a :: b :: c :: str "0")); [|exact U]. intros s S. apply lx_u; assumption.
  - exists (str "0" ++ r). intros p ->. apply (Num (str "-0")). apply (tok_number Zero); [reflexivity|]. exists (str "-"). split; [right|]; reflexivity.
  - exists r. intros p P. apply Num, (tok_number One); [reflexivity|exact P].
  - exists r. intros p P. apply Num, (tok_number Zero); [reflexivity|exact P].
  - exists (str "0" ++ r). intros p (i & I & ->). rewrite app_assoc. apply Num. apply (tok_number Dot0); [reflexivity|]. exists i, (str "0"). split; [exact I|]. split; [apply zero_digits|]. rewrite <- app_assoc. reflexivity.
  - exists r. intros p P. apply Num, (tok_number Dot0); [reflexivity|exact P].
  - exists (str "0" ++ r). intros p (i & fr & e & I & F & E & ->). rewrite app_assoc. apply Num. apply (tok_number E0); [reflexivity|].
    exists i, fr, e, [], (str "0"). split; [exact I|]. split; [exact F|]. split; [exact E|]. split; [auto|]. split; [apply zero_digits|]. rewrite <- !app_assoc. reflexivity.
  - exists (str "0" ++ r). intros p (i & fr & e & sg & I & F & E & G & ->). rewrite app_assoc. apply Num. apply (tok_number E0); [reflexivity|].
    exists i, fr, e, sg, (str "0"). split; [exact I|]. split; [exact F|]. split; [exact E|]. split; [auto|]. split; [apply zero_digits|]. rewrite <- !app_assoc. reflexivity.
  - exists r. intros p P. apply Num, (tok_number E0); [reflexivity|exact P].
  - exists (r0 ++ r). intros p [_ I]. exists (p ++ r0), r. split; [rewrite <- app_assoc; reflexivity|]. split; [|exact R]. cbn [In] in I.
    destruct I as [I|[I|[I|[]]]]; rewrite <- I; [exists (JBool true)|exists (JBool false)|exists JNull]; (split; [constructor|exact D]).
Qed.

(** ** A scan from the start *)
Definition top : scanner := (BeginValue, []).
Lemma ok_top : ok top.
Proof. split; [unfold deep; cbn; lia|intros [E|E]; discriminate]. Qed.
Lemma comp_top q : comp top q -> exists j, begins_with q j [].
Proof.
  intros (w & t & -> & W & x & r & -> & (j & J & D) & ->). exists j, w, x. split; [reflexivity|]. split; [exact W|]. split; [exact J|]. exact D.
Qed.
Lemma begins_nesting j : nesting j <= 10000 -> deep [] (nesting j).
Proof. intros H. exact H. Qed.

Lemma prefix_goes s a b s' : goes s (a ++ b) s' -> exists s1, goes s a s1 /\ goes s1 b s'.
Proof.
  unfold goes. rewrite scan_app. destruct (scan s a) as [n|s1|]; try discriminate. intros H. exists s1. split; [reflexivity|]. destruct (scan s1 b); [discriminate|exact H|discriminate].
Qed.
Lemma bracketed_dec j : bracketed j \/ ~ bracketed j.
Proof. destruct j; try (right; intros [(l & E)|(l & E)]; discriminate); [left; left; eauto|left; right; eauto]. Qed.
Lemma bracketed_value w x j rest : json_space w -> json_text x j -> nesting j <= 10000 -> bracketed j -> scan top (w ++ x ++ rest) = Value (length (w ++ x)).
Proof.
  intros W J D B. destruct (top_brackets x j J D B) as (y & c & s & -> & G & C). rewrite scan_app, (space_value [] w W : scan top w = _).
  rewrite <- app_assoc, scan_app, G. cbn [app scan]. rewrite C. rewrite !app_length. cbn [length]. reflexivity.
Qed.
Lemma simple_goes w x j : json_space w -> json_text x j -> ~ bracketed j -> exists f, ended f = true /\ goes top (w ++ x) (f, []).
Proof. intros W J B. destruct (goes_simple [] x j J B) as (f & F & G). exists f. split; [exact F|]. eapply goes_app; [apply space_value, W|exact G]. Qed.

Lemma app_cut {A} (a b c d : list A) : a ++ b = c ++ d -> (length a <= length c)%nat -> exists e, c = a ++ e /\ b = e ++ d.
Proof.
  revert c. induction a as [|x a IH]; intros c E L; cbn [app] in *; [exists c; auto|]. destruct c as [|y c]; [cbn in L; lia|]. cbn [app] in E. injection E as -> E.
  destruct (IH c E) as (e & -> & ->); [cbn in L; lia|]. exists e. auto.
Qed.

(** The buffer is used up exactly while it is unfinished. *)
Lemma partial_unfinished b : (exists s, scan top b = Partial s) <-> unfinished b.
Proof.
  split.
  - intros (s & G). destruct (goes_sound b top s [] ok_top G) as [O _]. destruct (comp_some s O) as (q & Q). destruct (goes_sound b top s q ok_top G) as [_ C].
    destruct (comp_top _ (C Q)) as (j & w & x & E & W & J & D). exists q, j. split; [exists w, x; auto|].
    destruct q as [|c q]; [right|left; discriminate]. intros B. rewrite app_nil_r in E. rewrite E, (bracketed_value w x j [] W J D B) in G. discriminate.
  - intros (more & j & (w & x & E & W & J & D) & H). rewrite app_nil_r in E. destruct (bracketed_dec j) as [B|B].
    + destruct H as [NE|NB]; [|contradiction]. destruct (top_brackets x j J D B) as (y & c & s & -> & G & _).
      assert (Gw : goes top (w ++ y) s) by (eapply goes_app; [apply space_value, W|exact G]).
      rewrite app_assoc in E. destruct (app_cut b more (w ++ y) [c] E) as (e & E1 & _).
      { apply (f_equal (@length _)) in E. rewrite !app_length in E. destruct more; [contradiction|]. cbn [length] in E. rewrite app_length. lia. }
      rewrite E1 in Gw. apply prefix_goes in Gw as (s1 & G1 & _). exists s1. exact G1.
    + destruct (simple_goes w x j W J B) as (f & _ & G). rewrite <- E in G. apply prefix_goes in G as (s1 & G1 & _). exists s1. exact G1.
Qed.

(** ** What the configuration is decoded from *)
Lemma decode_ok_text b c : Config_decode 64 b = Ok c -> exists w x rest j, b = w ++ x ++ rest /\ json_space w /\ json_text x j /\ nesting j <= 10000 /\ (bracketed j \/ j = JNull).
Proof.
  intros H. apply config_decode_spec in H as (w & x & rest & j & E & W & J & D & R). exists w, x, rest, j. repeat split; auto.
  destruct R as [[-> _]|(ms & -> & _)]; [right; reflexivity|left; right; eauto].
Qed.
Lemma decode_not_panic b m : Config_decode 64 b <> Panic m.
Proof.
  unfold Config_decode. destruct (parse_value _ _ _) as [[[| | | | |ms] t]|]; try discriminate. destruct (decode_members _ _ _ _ ms) as [c []]; discriminate.
Qed.
Lemma decode_err b : (forall c, Config_decode 64 b <> Ok c) -> exists e, Config_decode 64 b = Err e.
Proof. intros H. destruct (Config_decode 64 b) as [c|e|m] eqn:E; [destruct (H c eq_refl)|eauto|destruct (decode_not_panic b m E)]. Qed.
Lemma same_err {A} e (r : res A) : (exists e', r = Err e') -> same_outcome (Err e) r.
Proof. intros (e' & ->). exact I. Qed.
Lemma same_iff (a b : bytes) : (forall c, Config_decode 64 a = Ok c <-> Config_decode 64 b = Ok c) -> same_outcome (Config_decode 64 a) (Config_decode 64 b).
Proof.
  intros H. destruct (Config_decode 64 a) as [c|e|m] eqn:A; [|apply same_err, decode_err|destruct (decode_not_panic a m A)].
  - rewrite (proj1 (H c) eq_refl). reflexivity.
  - intros c B. apply H in B. discriminate.
Qed.
Lemma nonnumber j : bracketed j \/ j = JNull -> not_number j.
Proof. intros [[(l & ->)|(l & ->)]| ->] k; discriminate. Qed.

(** The text that ends a scan is what is decoded, whatever follows. *)
Lemma value_decode b n rest : scan top b = Value n -> same_outcome (Config_decode 64 (firstn n b)) (Config_decode 64 (b ++ rest)).
Proof.
  intros S. destruct (value_sound b top n ok_top S) as [L C]. destruct (comp_top _ C) as (j & w & x & E & W & J & D). rewrite app_nil_r in E.
  assert (Eb : b ++ rest = w ++ x ++ (skipn n b ++ rest)) by (rewrite <- (firstn_skipn n b) at 1; rewrite E, <- !app_assoc; reflexivity).
  apply same_iff. intros c. rewrite !config_decode_spec. split.
  - intros (w' & x' & t' & j' & E' & W' & J' & D' & R).
    assert (N : not_number j') by (apply nonnumber; destruct R as [[-> _]|(ms & -> & _)]; [right; reflexivity|left; right; eauto]).
    assert (E2 : w' ++ x' ++ t' = w ++ x ++ []) by (rewrite app_nil_r; congruence).
    destruct (first_text _ _ _ _ _ _ _ _ E2 W' W J' J D' D N) as (_ & _ & ->). exists w, x, (skipn n b ++ rest), j. auto.
  - intros (w' & x' & t' & j' & E' & W' & J' & D' & R).
    assert (N : not_number j') by (apply nonnumber; destruct R as [[-> _]|(ms & -> & _)]; [right; reflexivity|left; right; eauto]).
    rewrite Eb in E'. symmetry in E'. destruct (first_text _ _ _ _ _ _ _ _ E' W' W J' J D' D N) as (_ & _ & ->). exists w, x, [], j. rewrite app_nil_r. auto.
Qed.
Lemma wrong_decode b rest : scan top b = Wrong -> exists e, Config_decode 64 (b ++ rest) = Err e.
Proof.
  intros S. apply decode_err. intros c H. destruct (decode_ok_text _ _ H) as (w & x & t & j & E & W & J & D & B).
  assert (K : scan top (b ++ rest) = Wrong) by (rewrite scan_app, S; reflexivity). rewrite E in K. destruct B as [B| ->].
  - rewrite (bracketed_value w x j t W J D B) in K. discriminate.
  - inversion J; subst. rewrite app_assoc, scan_app in K.
    destruct (simple_goes w _ _ W jt_null) as (f & F & G); [intros [(l & X)|(l & X)]; discriminate|]. 
    assert (Gn : goes top (w ++ str "null") (EndValue, [])) by (eapply goes_app; [apply space_value, W|reflexivity]).
    rewrite Gn in K. destruct t; discriminate.
Qed.
Lemma partial_decode b s : scan top b = Partial s -> step s Byte.x20 <> End -> exists e, Config_decode 64 b = Err e.
Proof.
  intros S N. apply decode_err. intros c H. destruct (decode_ok_text _ _ H) as (w & x & t & j & E & W & J & D & B). rewrite E in S. destruct B as [B| ->].
  - rewrite (bracketed_value w x j t W J D B) in S. discriminate.
  - inversion J; subst. rewrite app_assoc, scan_app in S.
    assert (Gn : goes top (w ++ str "null") (EndValue, [])) by (eapply goes_app; [apply space_value, W|reflexivity]).
    rewrite Gn in S. destruct t; [|discriminate]. injection S as <-. apply N. reflexivity.
Qed.
Lemma hopeless_wrong b : hopeless b -> scan top b = Wrong.
Proof.
  intros H. destruct (scan top b) as [n|s|] eqn:S; [exfalso..|reflexivity].
  - destruct (value_sound b top n ok_top S) as [L C]. destruct (comp_top _ C) as (j & w & x & E & W & J & D). rewrite app_nil_r in E.
    apply (H [] j (skipn n b)). exists w, x. split; [|auto]. rewrite app_nil_r. rewrite <- (firstn_skipn n b) at 1. rewrite E, <- app_assoc. reflexivity.
  - destruct (proj1 (partial_unfinished b) (ex_intro _ s S)) as (more & j & K & _). exact (H more j [] K).
Qed.

(** ** Decode *)
Lemma first_pieces_S s n : first_pieces s (S n) = first_pieces s n ++ a_data (s n).
Proof. unfold first_pieces. rewrite seq_S, map_app, concat_app. cbn [map concat Nat.add]. rewrite app_nil_r. reflexivity. Qed.

(** What the round of piece [i] gives. *)
Definition outcome (s : stream) (i : nat) (buf : bytes) (sc : scanner) : option (res Config) :=
  match scan sc (a_data (s i)) with
  | Wrong => Some (Err "invalid character")
  | Value m => Some (Config_decode 64 (firstn (length buf + m) (buf ++ a_data (s i))))
  | Partial sc' =>
      match a_end (s i) with
      | None => None
      | Some (Failed e) => Some (Err e)
      | Some EOF => match step sc' Byte.x20 with
                    | End => Some (Config_decode 64 (buf ++ a_data (s i)))
                    | _ => Some (Err (if forallb is_ws (buf ++ a_data (s i)) then "EOF" else "unexpected EOF")) end
      end
  end.
Lemma loop_outcome k i s buf sc : decode_loop (S k) i s buf sc =
  match outcome s i buf sc with
  | Some r => Some r
  | None => match scan sc (a_data (s i)) with Partial sc' => decode_loop k (S i) s (buf ++ a_data (s i)) sc' | _ => None end
  end.
Proof.
  cbn [decode_loop]. unfold outcome. destruct (scan sc (a_data (s i))) as [m|sc'|]; [reflexivity| |reflexivity].
  destruct (a_end (s i)) as [[|e]|]; [|reflexivity..]. destruct (step sc' Byte.x20); reflexivity.
Qed.
Lemma outcome_none s i sc b : scan top b = Partial sc -> (outcome s i b sc = None <-> a_end (s i) = None /\ exists sc', scan top (b ++ a_data (s i)) = Partial sc').
Proof.
  intros S. rewrite scan_app, S. unfold outcome. destruct (scan sc (a_data (s i))) as [m|sc'|].
  - split; [discriminate|intros [_ (x & E)]; discriminate].
  - destruct (a_end (s i)) as [[|e]|].
    + split; [destruct (step sc' Byte.x20); discriminate|intros [E _]; discriminate].
    + split; [discriminate|intros [E _]; discriminate].
    + split; [intros _; split; [reflexivity|eauto]|reflexivity].
  - split; [discriminate|intros [_ (x & E)]; discriminate].
Qed.

(** The rounds before the loop returns. *)
Definition waits (s : stream) (n : nat) : Prop := (forall i, (i < n)%nat -> a_end (s i) = None) /\ unfinished (first_pieces s n).
Lemma unfinished_prefix a b : unfinished (a ++ b) -> unfinished a.
Proof.
  intros U. apply partial_unfinished in U as (s & S). apply prefix_goes in S as (s1 & S1 & _). apply partial_unfinished. exists s1. exact S1.
Qed.
Lemma loop_none k : forall i s sc, scan top (first_pieces s i) = Partial sc ->
  (decode_loop k i s (first_pieces s i) sc = None <->
   (forall j, (i <= j < i + k)%nat -> a_end (s j) = None) /\ unfinished (first_pieces s (i + k))).
Proof.
  induction k as [|k IH]; intros i s sc S.
  { rewrite Nat.add_0_r. cbn [decode_loop]. split; [intros _; split; [intros j L; lia|apply partial_unfinished; eauto]|reflexivity]. }
  rewrite loop_outcome. pose proof (outcome_none s i sc (first_pieces s i) S) as O. rewrite <- first_pieces_S in O.
  destruct (outcome s i (first_pieces s i) sc) as [r|] eqn:Q.
  - split; [discriminate|]. intros [A U]. exfalso. assert (X : Some r = None); [|discriminate]. apply O. split; [apply A; lia|].
    apply partial_unfinished. replace (i + Datatypes.S k)%nat with (Datatypes.S i + k)%nat in U by lia. clear - U. induction k as [|k IH]; [rewrite Nat.add_0_r in U; exact U|].
    apply IH. rewrite Nat.add_succ_r in U. rewrite (first_pieces_S s (Datatypes.S i + k)) in U. eapply unfinished_prefix. exact U.
  - destruct (proj1 O eq_refl) as [E (sc' & S')]. assert (Sp : scan sc (a_data (s i)) = Partial sc').
    { rewrite first_pieces_S, scan_app, S in S'. destruct (scan sc (a_data (s i))); [discriminate|exact S'|discriminate]. }
    rewrite Sp, <- first_pieces_S, (IH (Datatypes.S i) s sc' S'). replace (i + Datatypes.S k)%nat with (Datatypes.S i + k)%nat by lia. split.
    + intros [A U]. split; [|exact U]. intros j L. destruct (Nat.eq_dec j i) as [->|NE]; [exact E|apply A; lia].
    + intros [A U]. split; [|exact U]. intros j L. apply A. lia.
Qed.
Lemma decode_none n s : Decode n s = None <-> waits s n.
Proof.
  unfold Decode, waits. change (decode_loop n 0 s [] (BeginValue, [])) with (decode_loop n 0 s (first_pieces s 0) top). rewrite (loop_none n 0 s top eq_refl). cbn [Nat.add].
  split; (intros [A U]; split; [intros j L; apply A; lia|exact U]).
Qed.

(** The round in which the loop returns. *)
Lemma loop_some k : forall i s sc r, scan top (first_pieces s i) = Partial sc -> decode_loop k i s (first_pieces s i) sc = Some r ->
  exists m sc', (m < i + k)%nat /\ (forall j, (i <= j < m)%nat -> a_end (s j) = None) /\ scan top (first_pieces s m) = Partial sc' /\ outcome s m (first_pieces s m) sc' = Some r.
Proof.
  induction k as [|k IH]; intros i s sc r S H; [discriminate|]. rewrite loop_outcome in H. destruct (outcome s i (first_pieces s i) sc) as [r'|] eqn:Q.
  - injection H as ->. exists i, sc. split; [lia|]. split; [intros j L; lia|]. auto.
  - apply (outcome_none s i sc (first_pieces s i) S) in Q as [E (sc' & S')]. rewrite <- first_pieces_S in S'.
    assert (Sp : scan sc (a_data (s i)) = Partial sc').
    { rewrite first_pieces_S, scan_app, S in S'. destruct (scan sc (a_data (s i))); [discriminate|exact S'|discriminate]. }
    rewrite Sp, <- first_pieces_S in H. destruct (IH (Datatypes.S i) s sc' r S' H) as (m & sc2 & L & A & S2 & O).
    exists m, sc2. split; [lia|]. split; [|auto]. intros j Lj. destruct (Nat.eq_dec j i) as [->|NE]; [exact E|apply A; lia].
Qed.
Lemma loop_more k : forall i s buf sc r, decode_loop k i s buf sc = Some r -> forall k', (k <= k')%nat -> decode_loop k' i s buf sc = Some r.
Proof.
  induction k as [|k IH]; intros i s buf sc r H k' L; [discriminate|]. destruct k' as [|k']; [lia|]. rewrite loop_outcome in *.
  destruct (outcome s i buf sc); [exact H|]. destruct (scan sc (a_data (s i))); [discriminate| |discriminate]. eapply IH; [exact H|lia].
Qed.
Lemma decode_more n n' s r : Decode n s = Some r -> (n <= n')%nat -> Decode n' s = Some r.
Proof. intros H L. eapply loop_more; eassumption. Qed.

Lemma outcome_cases s m sc r : scan top (first_pieces s m) = Partial sc -> outcome s m (first_pieces s m) sc = Some r ->
  (exists e, a_end (s m) = Some (Failed e) /\ r = Err e /\ unfinished (first_pieces s (S m)))
  \/ (a_end (s m) = Some EOF /\ unfinished (first_pieces s (S m)) /\ same_outcome r (Config_decode 64 (first_pieces s (S m))))
  \/ (~ unfinished (first_pieces s (S m)) /\ forall rest, same_outcome r (Config_decode 64 (first_pieces s (S m) ++ rest))).
Proof.
  intros S H. pose proof (scan_app (first_pieces s m) top (a_data (s m))) as A. rewrite S, <- first_pieces_S in A. unfold outcome in H. rewrite <- first_pieces_S in H.
  destruct (scan sc (a_data (s m))) as [n|sc'|].
  - injection H as <-. right. right. split; [intros U; apply partial_unfinished in U as (x & X); congruence|]. intros rest. apply value_decode. exact A.
  - assert (U : unfinished (first_pieces s (Datatypes.S m))) by (apply partial_unfinished; eauto).
    destruct (a_end (s m)) as [[|e]|]; [|injection H as <-; left; eauto|discriminate].
    right. left. split; [reflexivity|]. split; [exact U|]. destruct (step sc' Byte.x20) eqn:E; injection H as <-.
    1,2,4: apply same_err, (partial_decode _ sc' A); congruence.
    destruct (Config_decode 64 (first_pieces s (Datatypes.S m))) as [c|e|p] eqn:F; [reflexivity|exact I|destruct (decode_not_panic _ _ F)].
  - injection H as <-. right. right. split; [intros U; apply partial_unfinished in U as (x & X); congruence|]. intros rest. apply same_err, wrong_decode. exact A.
Qed.
