(** * The JSON reader accepts exactly the grammar. *)
From Verif Require Import Base BaseProofs Utf8 Json JsonProofs SpecJson Utf8Proofs.
Local Open Scope N_scope.

Lemma byte_sweep (f : byte -> bool) : forallb f (map (fun n => nB (N.of_nat n)) (seq 0 256)) = true -> forall c, f c = true.
Proof.
  intros H c. rewrite forallb_forall in H. apply H. apply in_map_iff. exists (N.to_nat (bN c)). rewrite N2Nat.id. split.
  - apply nB_bN.
  - apply in_seq. pose proof (bN_lt c). lia.
Qed.

(** ** White space *)
Lemma ws_iff c : is_ws c = true <-> In c [Byte.x20; Byte.x09; Byte.x0a; Byte.x0d].
Proof.
  split.
  - assert (K : forall c, implb (is_ws c) (existsb (beqb c) [Byte.x20; Byte.x09; Byte.x0a; Byte.x0d]) = true) by (apply byte_sweep; vm_compute; reflexivity).
    intros H. specialize (K c). rewrite H in K. cbn [implb] in K. apply existsb_exists in K as (x & I & E). apply beqb_eq in E. subst. exact I.
  - intros [<-|[<-|[<-|[<-|[]]]]]; reflexivity.
Qed.
Lemma skip_ws_app w s : json_space w -> skip_ws (w ++ s) = skip_ws s.
Proof.
  induction w as [|c w IH]; [reflexivity|]. intros H. cbn [app skip_ws]. rewrite (proj2 (ws_iff c)) by (apply H; left; reflexivity).
  apply IH. intros x I. apply H. right. exact I.
Qed.
Lemma skip_ws_split s : exists w, s = w ++ skip_ws s /\ json_space w /\ match skip_ws s with [] => True | c :: _ => is_ws c = false end.
Proof.
  induction s as [|c s (w & E & S & H)]; [exists []; repeat split; intros c []|]. cbn [skip_ws]. destruct (is_ws c) eqn:W.
  - exists (c :: w). split; [cbn [app]; rewrite <- E; reflexivity|]. split; [|exact H]. intros x [<-|I]; [apply ws_iff, W|apply S, I].
  - exists []. split; [reflexivity|]. split; [intros x []|exact W].
Qed.
Lemma skip_ws_all w : json_space w -> skip_ws w = [].
Proof. intros H. rewrite <- (app_nil_r w), skip_ws_app by exact H. reflexivity. Qed.
Lemma skip_ws_nil s : skip_ws s = [] -> json_space s.
Proof. intros H. destruct (skip_ws_split s) as (w & E & S & _). rewrite H, app_nil_r in E. subst. exact S. Qed.

(** ** Numbers *)
Lemma digit_iff c : is_digit c = true <-> In c (str "0123456789").
Proof.
  split.
  - assert (K : forall c, implb (is_digit c) (existsb (beqb c) (str "0123456789")) = true) by (apply byte_sweep; vm_compute; reflexivity).
    intros H. specialize (K c). rewrite H in K. cbn [implb] in K. apply existsb_exists in K as (x & I & E). apply beqb_eq in E. subst. exact I.
  - intros H. cbn in H. repeat (destruct H as [<-|H]; [reflexivity|]). contradiction.
Qed.
Lemma span_digits_split s d t : span_digits s = (d, t) -> s = d ++ t /\ Forall (fun c => In c (str "0123456789")) d /\ not_digit t.
Proof.
  revert d t; induction s as [|c s IH]; intros d t; cbn [span_digits].
  - intros H. apply pair_inj in H as [<- <-]. repeat split. constructor.
  - destruct (is_digit c) eqn:D.
    + destruct (span_digits s) as [d' t'] eqn:E. intros H. apply pair_inj in H as [<- <-]. destruct (IH _ _ eq_refl) as (-> & F & N).
      repeat split; [|exact N]. constructor; [apply digit_iff, D|exact F].
    + intros H. apply pair_inj in H as [<- <-]. repeat split; [constructor|exact D].
Qed.
Lemma span_digits_app d t : Forall (fun c => In c (str "0123456789")) d -> not_digit t -> span_digits (d ++ t) = (d, t).
Proof.
  intros F N. induction F as [|c d H F IH]; cbn [app].
  - destruct t as [|c t]; [reflexivity|]. cbn [span_digits]. cbn in N. rewrite N. reflexivity.
  - cbn [span_digits]. rewrite (proj2 (digit_iff c) H), IH. reflexivity.
Qed.

(** What may follow a value in a document. *)
Definition stop (s : bytes) : Prop :=
  match s with [] => True | c :: _ => In c [Byte.x20; Byte.x09; Byte.x0a; Byte.x0d; Byte.x2c; Byte.x5d; Byte.x7d] end.

Definition num_sign (s : bytes) := match s with c :: r => if bN c =? 45 then ([c], r) else ([], s) | [] => ([], []) end.
Definition num_frac (s2 : bytes) := match s2 with
  | c :: r => if bN c =? 46 then let '(d, t) := span_digits r in match d with [] => None | _ => Some (c :: d, t) end else Some ([], s2)
  | [] => Some ([], []) end.
Definition num_esign (r : bytes) := match r with x :: r' => if (bN x =? 43) || (bN x =? 45) then ([x], r') else ([], r) | [] => ([], []) end.
Definition num_exp (s3 : bytes) := match s3 with
  | c :: r => if (bN c =? 101) || (bN c =? 69) then
       let '(sg, r1) := num_esign r in
       let '(d, t) := span_digits r1 in match d with [] => None | _ => Some (c :: sg ++ d, t) end
     else Some ([], s3)
  | [] => Some ([], []) end.
Lemma parse_num_eq s : parse_num s =
  let '(sign, s1) := num_sign s in let '(int, s2) := span_digits s1 in
  if negb match int with [] => false | [_] => true | c :: _ => negb (bN c =? 48) end then None
  else match num_frac s2 with None => None | Some (f, s3) => match num_exp s3 with None => None | Some (e, s4) => Some (sign ++ int ++ f ++ e, s4) end end.
Proof. reflexivity. Qed.

Lemma bN_is c n : (bN c =? n) = true -> c = nB n.
Proof. intros H. apply N.eqb_eq in H. subst n. symmetry. apply nB_bN. Qed.

Lemma parse_num_sound s l t : parse_num s = Some (l, t) -> s = l ++ t /\ number l.
Proof.
  rewrite parse_num_eq. destruct (num_sign s) as [sign s1] eqn:E1. destruct (span_digits s1) as [int s2] eqn:E2.
  destruct (negb _) eqn:E3; [discriminate|]. destruct (num_frac s2) as [[f s3]|] eqn:E4; [|discriminate].
  destruct (num_exp s3) as [[e s4]|] eqn:E5; [|discriminate]. intros H. apply Some_inj, pair_inj in H as [<- <-].
  apply span_digits_split in E2 as (-> & F2 & _).
  assert (A1 : s = sign ++ int ++ s2 /\ In sign [[]; str "-"]).
  { unfold num_sign in E1. destruct s as [|c r].
    - apply pair_inj in E1 as [<- <-]. split; [reflexivity|left; reflexivity].
    - destruct (bN c =? 45) eqn:C; apply pair_inj in E1 as [<- <-]; (split; [reflexivity|]).
      + apply bN_is in C. subst c. right. left. reflexivity.
      + left. reflexivity. }
  assert (A4 : s2 = f ++ s3 /\ (f = [] \/ exists d, digits d /\ f = str "." ++ d)).
  { unfold num_frac in E4. destruct s2 as [|c r].
    - apply Some_inj, pair_inj in E4 as [<- <-]. auto.
    - destruct (bN c =? 46) eqn:C.
      + destruct (span_digits r) as [d t] eqn:E. destruct d as [|d0 d]; [discriminate|]. apply Some_inj, pair_inj in E4 as [<- <-].
        apply span_digits_split in E as (-> & F & _). split; [reflexivity|]. right. exists (d0 :: d). split; [split; [discriminate|exact F]|].
        apply bN_is in C. subst c. reflexivity.
      + apply Some_inj, pair_inj in E4 as [<- <-]. auto. }
  assert (A5 : s3 = e ++ s4 /\ (e = [] \/ exists x sg d, In x [str "e"; str "E"] /\ In sg [[]; str "+"; str "-"] /\ digits d /\ e = x ++ sg ++ d)).
  { unfold num_exp in E5. destruct s3 as [|c r].
    - apply Some_inj, pair_inj in E5 as [<- <-]. auto.
    - destruct ((bN c =? 101) || (bN c =? 69)) eqn:C.
      + set (y := num_esign r) in E5.
        assert (Y : r = fst y ++ snd y /\ In (fst y) [[]; str "+"; str "-"]).
        { subst y. unfold num_esign. destruct r as [|x r]; [split; [reflexivity|left; reflexivity]|]. destruct ((bN x =? 43) || (bN x =? 45)) eqn:X; (split; [reflexivity|]); [|left; reflexivity].
          apply orb_true_iff in X as [X|X]; apply bN_is in X; subst x; cbn; auto. }
        destruct y as [sg r1]. cbn [fst snd] in Y. destruct Y as [-> Y]. destruct (span_digits r1) as [d t] eqn:E. destruct d as [|d0 d]; [discriminate|].
        apply Some_inj, pair_inj in E5 as [<- <-]. apply span_digits_split in E as (-> & F & _). split; [cbn [app]; rewrite <- app_assoc; reflexivity|].
        right. exists [c], sg, (d0 :: d). split; [|split; [exact Y|split; [split; [discriminate|exact F]|reflexivity]]].
        apply orb_true_iff in C as [C|C]; apply bN_is in C; subst c; cbn; auto.
      + apply Some_inj, pair_inj in E5 as [<- <-]. auto. }
  destruct A1 as [-> A1], A4 as [-> A4], A5 as [-> A5]. split; [rewrite <- !app_assoc; reflexivity|].
  exists sign, int, f, e. split; [reflexivity|]. split; [exact A1|]. split; [split; [destruct int; [discriminate E3|discriminate]|exact F2]|]. split; [|auto].
  intros r ->. cbn [str app] in E3. destruct r; [reflexivity|discriminate E3].
Qed.

Definition no_num (s : bytes) : Prop := match s with [] => True | c :: _ => is_digit c = false /\ (bN c =? 46) = false /\ ((bN c =? 101) || (bN c =? 69)) = false end.
Lemma stop_no_num t : stop t -> no_num t.
Proof. destruct t as [|c t]; [exact (fun x => x)|]. cbn. intros H. repeat (destruct H as [<-|H]; [repeat split|]). contradiction. Qed.

Lemma parse_num_complete l t : number l -> stop t -> parse_num (l ++ t) = Some (l, t).
Proof.
  intros (sign & int & frac & exp & -> & Hs & (Hi & Fi) & Hz & Hf & He) T. apply stop_no_num in T.
  assert (X : num_exp (exp ++ t) = Some (exp, t)).
  { destruct He as [->|(e & sg & d & Ie & Isg & (Hd & Fd) & ->)].
    - cbn [app]. unfold num_exp. destruct t as [|c t]; [reflexivity|]. destruct T as (_ & _ & ->). reflexivity.
    - assert (SD : span_digits (d ++ t) = (d, t)) by (apply span_digits_app; [exact Fd|destruct t as [|c t]; [exact I|apply T]]).
      assert (M : num_esign (sg ++ d ++ t) = (sg, d ++ t)).
      { cbn [In] in Isg. destruct Isg as [<-|[<-|[<-|[]]]]; [|reflexivity..]. destruct d as [|d0 d]; [contradiction|]. cbn [app num_esign].
        apply Forall_inv in Fd. cbn in Fd. repeat (destruct Fd as [<-|Fd]; [reflexivity|]). contradiction. }
      assert (X : exists c, e = [c] /\ (bN c =? 101) || (bN c =? 69) = true) by (cbn in Ie; destruct Ie as [<-|[<-|[]]]; eexists; split; reflexivity).
      destruct X as (c & -> & C). rewrite <- !app_assoc. cbn [app num_exp]. rewrite C, M, SD. destruct d; [contradiction|reflexivity]. }
  assert (NE : no_num (exp ++ t) \/ exists e r, exp ++ t = e :: r /\ (bN e =? 46) = false /\ is_digit e = false).
  { destruct He as [->|(e & sg & d & Ie & _ & _ & ->)]; [left; exact T|]. right. cbn in Ie. destruct Ie as [<-|[<-|[]]]; cbn [str app]; eexists; eexists; (split; [reflexivity|split; reflexivity]). }
  assert (N2 : not_digit (exp ++ t)) by (destruct NE as [NE|(e & r & -> & _ & K)]; [destruct (exp ++ t); [exact I|apply NE]|exact K]).
  assert (Y : num_frac (frac ++ exp ++ t) = Some (frac, exp ++ t)).
  { destruct Hf as [->|(d & (Hd & Fd) & ->)].
    - cbn [app]. unfold num_frac. destruct NE as [NE|(e & r & -> & -> & _)]; [|reflexivity]. destruct (exp ++ t) as [|c r]; [reflexivity|]. destruct NE as (_ & -> & _). reflexivity.
    - change (str "." ++ d) with (Byte.x2e :: d). cbn [app num_frac]. change (bN Byte.x2e =? 46) with true. cbv iota. rewrite (span_digits_app d (exp ++ t) Fd N2). destruct d; [contradiction|reflexivity]. }
  assert (N3 : not_digit (frac ++ exp ++ t)) by (destruct Hf as [->|(d & _ & ->)]; [exact N2|reflexivity]).
  rewrite parse_num_eq.
  assert (S : num_sign ((sign ++ int ++ frac ++ exp) ++ t) = (sign, int ++ frac ++ exp ++ t)).
  { rewrite <- !app_assoc. cbn in Hs. destruct Hs as [<-|[<-|[]]]; [|reflexivity]. cbn [app]. destruct int as [|c int]; [contradiction|]. cbn [app num_sign].
    apply Forall_inv in Fi. cbn in Fi. repeat (destruct Fi as [<-|Fi]; [reflexivity|]). contradiction. }
  rewrite S, (span_digits_app int _ Fi N3).
  assert (O : match int with [] => false | [_] => true | c :: _ => negb (bN c =? 48) end = true).
  { destruct int as [|c [|c' int]]; [contradiction|reflexivity|]. destruct (bN c =? 48) eqn:C; [|reflexivity]. apply bN_is in C. subst c.
    specialize (Hz (c' :: int) eq_refl). discriminate. }
  rewrite O. cbn [negb]. rewrite Y, X. reflexivity.
Qed.

(** ** Strings *)
Lemma hexd_iff c n : hexd c = Some n <-> In (c, n) hex_digits.
Proof.
  split.
  - assert (K : forall c, match hexd c with Some n => existsb (fun x => beqb c (fst x) && (n =? snd x)) hex_digits | None => true end = true)
      by (apply byte_sweep; vm_compute; reflexivity).
    intros H. specialize (K c). rewrite H in K. apply existsb_exists in K as ([x y] & I & E). cbn [fst snd] in E.
    apply andb_true_iff in E as [E1 E2]. apply beqb_eq in E1. apply N.eqb_eq in E2. subst. exact I.
  - intros H. cbn in H. repeat (destruct H as [H|H]; [apply pair_inj in H as [<- <-]; reflexivity|]). contradiction.
Qed.
Lemma u4_hex4 h u r : hex4 h u -> u4 (h ++ r) = Some u.
Proof.
  intros (a & b & c & d & x & y & z & w & -> & A & B & C & D & ->). cbn [app u4].
  apply hexd_iff in A, B, C, D. rewrite A, B, C, D. f_equal. lia.
Qed.
Lemma u4_inv s u : u4 s = Some u -> exists h r, s = h ++ r /\ hex4 h u.
Proof.
  unfold u4. destruct s as [|a [|b [|c [|d r]]]]; try discriminate.
  destruct (hexd a) as [x|] eqn:A; [|discriminate]. destruct (hexd b) as [y|] eqn:B; [|discriminate].
  destruct (hexd c) as [z|] eqn:C; [|discriminate]. destruct (hexd d) as [w|] eqn:D; [|discriminate].
  intros H. apply Some_inj in H. subst u. apply hexd_iff in A, B, C, D. exists [a; b; c; d], r. split; [reflexivity|].
  exists a, b, c, d, x, y, z, w. repeat split; auto. lia.
Qed.
Lemma hex4_fun h u v : hex4 h u -> hex4 h v -> u = v.
Proof. intros A B. apply (u4_hex4 _ _ []) in A, B. congruence. Qed.
Lemma hex4_length h u : hex4 h u -> length h = 4%nat.
Proof. intros (a & b & c & d & x & y & z & w & -> & _). reflexivity. Qed.
Lemma hex4_lt h u : hex4 h u -> u < 65536.
Proof.
  intros (a & b & c & d & x & y & z & w & -> & A & B & C & D & ->).
  assert (K : forall c n, In (c, n) hex_digits -> n < 16).
  { intros c0 n H. cbn in H. repeat (destruct H as [H|H]; [apply pair_inj in H as [_ <-]; lia|]). contradiction. }
  apply K in A, B, C, D. lia.
Qed.
Lemma hex4_no_quote h u : hex4 h u -> ~ In Byte.x22 h.
Proof.
  intros (a & b & c & d & x & y & z & w & -> & A & B & C & D & _) H. apply hexd_iff in A, B, C, D.
  cbn in H. destruct H as [->|[->|[->|[->|[]]]]]; discriminate.
Qed.

Lemma surrogate_iff u : u < 65536 -> (is_surrogate u = true <-> ~ scalar u).
Proof. intros B. unfold is_surrogate, scalar. rewrite andb_true_iff, !N.leb_le. lia. Qed.

Lemma encode_scalar u : scalar u -> encode_rune u = utf8_char u.
Proof.
  intros S. unfold encode_rune, utf8_char. unfold scalar in S. destruct (N.ltb_spec u 128); [reflexivity|]. destruct (N.ltb_spec u 2048); [reflexivity|].
  replace (((55296 <=? u) && (u <=? 57343)) || (1114111 <? u)) with false; [destruct (u <? 65536); reflexivity|].
  symmetry. apply orb_false_iff. split; [apply andb_false_iff; rewrite !N.leb_gt; lia|apply N.ltb_ge; lia].
Qed.

(** Text without a quote at the front of a quoted string is in the string. *)
Lemma before_quote p : forall s r t, p ++ r = s ++ Byte.x22 :: t -> ~ In Byte.x22 p -> exists r', s = p ++ r'.
Proof.
  induction p as [|c p IH]; intros s r t E N; [exists s; reflexivity|]. cbn [app] in E. destruct s as [|d s]; cbn [app] in E.
  - exfalso. apply N. left. congruence.
  - assert (c = d) by congruence. subst d. destruct (IH s r t) as (r' & ->); [congruence|intros I; apply N; right; exact I|]. exists r'. reflexivity.
Qed.
Lemma utf8_char_no_quote u : scalar u -> u <> 34 -> ~ In Byte.x22 (utf8_char u).
Proof.
  intros S N. unfold utf8_char. unfold scalar in S. intros H. apply in_map_iff in H as (x & E & I).
  assert (X : x mod 256 = 34).
  { apply (f_equal bN) in E. rewrite bN_nB in E. exact E. }
  destruct (N.ltb_spec u 128).
  { destruct I as [<-|[]]. rewrite N.mod_small in X by lia. contradiction. }
  assert (M : u mod 64 < 64) by (apply N.mod_lt; lia). assert (M' : (u / 64) mod 64 < 64) by (apply N.mod_lt; lia). assert (M'' : (u / 4096) mod 64 < 64) by (apply N.mod_lt; lia).
  destruct (N.ltb_spec u 2048).
  { assert (u / 64 < 32) by (apply N.div_lt_upper_bound; lia). destruct I as [<-|[<-|[]]]; rewrite N.mod_small in X by lia; lia. }
  destruct (N.ltb_spec u 65536).
  { assert (u / 4096 < 16) by (apply N.div_lt_upper_bound; lia). destruct I as [<-|[<-|[<-|[]]]]; rewrite N.mod_small in X by lia; lia. }
  assert (u / 262144 < 8) by (apply N.div_lt_upper_bound; lia). destruct I as [<-|[<-|[<-|[<-|[]]]]]; rewrite N.mod_small in X by lia; lia.
Qed.

(** The first byte of a character, and whether it is ASCII. *)
Lemma utf8_char_ascii u : u < 128 -> utf8_char u = [nB u].
Proof. intros H. unfold utf8_char. rewrite (proj2 (N.ltb_lt _ _) H). reflexivity. Qed.
Lemma utf8_char_head u : scalar u -> 128 <= u -> exists c r, utf8_char u = c :: r /\ 128 <= bN c.
Proof.
  intros S H. unfold scalar in S. unfold utf8_char. rewrite (proj2 (N.ltb_ge _ _) H).
  destruct (N.ltb_spec u 2048); [|destruct (N.ltb_spec u 65536)]; cbn [map]; eexists; eexists; (split; [reflexivity|]).
  - assert (u / 64 < 32) by (apply N.div_lt_upper_bound; lia). rewrite bN_nB_small; lia.
  - assert (u / 4096 < 16) by (apply N.div_lt_upper_bound; lia). rewrite bN_nB_small; lia.
  - assert (u / 262144 < 8) by (apply N.div_lt_upper_bound; lia). rewrite bN_nB_small; lia.
Qed.

Lemma escape_in e c r : In (e, c) escapes -> str_unit (Byte.x5c :: e :: r) = Some ([c], 2%nat).
Proof. intros H. cbn in H. repeat (destruct H as [H|H]; [apply pair_inj in H as [<- <-]; reflexivity|]). contradiction. Qed.

Lemma unit_sound s out w : str_unit s = Some (out, w) -> match s with c :: _ => (bN c =? 34) = false | [] => True end ->
  (1 <= w <= length s)%nat /\
  forall b t o, skipn w s = b ++ Byte.x22 :: t -> string_body b o -> string_body (firstn w s ++ b) (out ++ o).
Proof.
  unfold str_unit. destruct s as [|c r]; [discriminate|]. intros H Q. destruct (N.ltb_spec (bN c) 32) as [|GE]; [discriminate|].
  destruct (bN c =? 92) eqn:C.
  { apply bN_is in C. subst c. destruct r as [|e r]; [discriminate|].
    assert (E1 : forall v, In (e, v) escapes -> Some ([v], 2%nat) = Some (out, w) -> (1 <= w <= length (nB 92 :: e :: r))%nat /\
      (forall b t o, skipn w (nB 92 :: e :: r) = b ++ Byte.x22 :: t -> string_body b o -> string_body (firstn w (nB 92 :: e :: r) ++ b) (out ++ o))).
    { intros v I K. apply Some_inj, pair_inj in K as [<- <-]. split; [cbn [length]; lia|]. intros b t o _ B. cbn [firstn app]. exact (sb_escape e v b o I B). }
    destruct (bN e =? 34) eqn:X1; [apply bN_is in X1; subst e; cbn [orb] in H; apply (E1 Byte.x22); [cbn; auto 12|exact H]|].
    destruct (bN e =? 92) eqn:X2; [apply bN_is in X2; subst e; cbn [orb] in H; apply (E1 Byte.x5c); [cbn; auto 12|exact H]|].
    destruct (bN e =? 47) eqn:X3; [apply bN_is in X3; subst e; cbn [orb] in H; apply (E1 Byte.x2f); [cbn; auto 12|exact H]|]. cbn [orb] in H.
    destruct (bN e =? 98) eqn:X4; [apply bN_is in X4; subst e; apply (E1 Byte.x08); [cbn; auto 12|exact H]|].
    destruct (bN e =? 102) eqn:X5; [apply bN_is in X5; subst e; apply (E1 Byte.x0c); [cbn; auto 12|exact H]|].
    destruct (bN e =? 110) eqn:X6; [apply bN_is in X6; subst e; apply (E1 Byte.x0a); [cbn; auto 12|exact H]|].
    destruct (bN e =? 114) eqn:X7; [apply bN_is in X7; subst e; apply (E1 Byte.x0d); [cbn; auto 12|exact H]|].
    destruct (bN e =? 116) eqn:X8; [apply bN_is in X8; subst e; apply (E1 Byte.x09); [cbn; auto 12|exact H]|]. clear E1.
    destruct (bN e =? 117) eqn:X9; [|discriminate]. apply bN_is in X9. subst e. clear X1 X2 X3 X4 X5 X6 X7 X8.
    destruct (u4 r) as [u|] eqn:U; [|discriminate]. apply u4_inv in U as (h & r1 & -> & U). pose proof (hex4_length _ _ U) as HL. pose proof (hex4_lt _ _ U) as HB.
    assert (F6 : forall x : bytes, firstn 6 (nB 92 :: nB 117 :: h ++ x) = str "\u" ++ h /\ skipn 6 (nB 92 :: nB 117 :: h ++ x) = x).
    { intros x. destruct h as [|h0 [|h1 [|h2 [|h3 [|]]]]]; try discriminate HL. split; reflexivity. }
    assert (S4 : skipn 4 (h ++ r1) = r1) by (rewrite <- HL, skipn_app, Nat.sub_diag, skipn_all; reflexivity).
    destruct (is_surrogate u) eqn:SU.
    - rewrite S4 in H. apply surrogate_iff in SU; [|exact HB].
      assert (L : Some (replacement, 6%nat) = Some (out, w) ->
        (forall h' v x, high_surrogate u -> hex4 h' v -> low_surrogate v -> r1 <> str "\u" ++ h' ++ x) ->
        (1 <= w <= length (nB 92 :: nB 117 :: h ++ r1))%nat /\
        (forall b t o, skipn w (nB 92 :: nB 117 :: h ++ r1) = b ++ Byte.x22 :: t -> string_body b o -> string_body (firstn w (nB 92 :: nB 117 :: h ++ r1) ++ b) (out ++ o))).
      { intros K NP. apply Some_inj, pair_inj in K as [<- <-]. split; [cbn [length]; rewrite app_length; lia|]. intros b t o E B.
        destruct (F6 r1) as [F S]. rewrite F. rewrite S in E. rewrite <- app_assoc. apply (sb_lone h u b o U SU); [|exact B].
        intros h' v x Hu Hv Lv K. subst b. apply (NP h' v (x ++ Byte.x22 :: t) Hu Hv Lv). rewrite E, <- !app_assoc. reflexivity. }
      destruct r1 as [|b1 [|b2 r2]]; [apply L; [exact H|discriminate]|apply L; [exact H|discriminate]|].
      destruct ((bN b1 =? 92) && (bN b2 =? 117)) eqn:BB.
      + apply andb_true_iff in BB as [B1 B2]. apply bN_is in B1, B2. subst b1 b2. destruct (u4 r2) as [v|] eqn:V.
        * apply u4_inv in V as (h' & r3 & -> & V). pose proof (hex4_length _ _ V) as HL'.
          destruct ((u <? 56320) && (56320 <=? v) && (v <? 57344)) eqn:P.
          -- apply andb_true_iff in P as [P P3]. apply andb_true_iff in P as [P1 P2]. apply N.ltb_lt in P1, P3. apply N.leb_le in P2.
             apply Some_inj, pair_inj in H as [<- <-]. split; [cbn [length]; rewrite app_length; cbn [length]; rewrite app_length; lia|].
             assert (HU : high_surrogate u) by (unfold high_surrogate, scalar in *; lia). assert (LV : low_surrogate v) by (unfold low_surrogate; lia).
             intros b t o E B. rewrite encode_scalar by (unfold scalar, high_surrogate, low_surrogate in *; lia).
             replace ((u - 55296) * 1024 + (v - 56320) + 65536) with (65536 + (u - 55296) * 1024 + (v - 56320)) by lia.
             pose proof (sb_pair h u h' v b o U V HU LV B) as Z.
             assert (FF : firstn 12 (nB 92 :: nB 117 :: h ++ nB 92 :: nB 117 :: h' ++ r3) = str "\u" ++ h ++ str "\u" ++ h').
             { destruct h as [|h0 [|h1 [|h2 [|h3 [|]]]]]; try discriminate HL. destruct h' as [|h0' [|h1' [|h2' [|h3' [|]]]]]; try discriminate HL'. reflexivity. }
             rewrite FF. rewrite <- !app_assoc. exact Z.
          -- apply L; [exact H|]. intros h2 v2 x Hu Hv Lv K. change (str "\u" ++ h2 ++ x) with (nB 92 :: nB 117 :: h2 ++ x) in K. injection K as K.
             apply (u4_hex4 _ _ x) in Hv. rewrite <- K, (u4_hex4 h' v r3 V) in Hv. apply Some_inj in Hv. subst v2.
             apply not_true_iff_false in P. apply P. unfold high_surrogate, low_surrogate in *. rewrite !andb_true_iff, !N.ltb_lt, N.leb_le. lia.
        * apply L; [exact H|]. intros h2 v2 x Hu Hv Lv K. change (str "\u" ++ h2 ++ x) with (nB 92 :: nB 117 :: h2 ++ x) in K. injection K as K.
          apply (u4_hex4 _ _ x) in Hv. rewrite <- K, V in Hv. discriminate.
      + apply L; [exact H|]. intros h2 v2 x Hu Hv Lv K. change (str "\u" ++ h2 ++ x) with (nB 92 :: nB 117 :: h2 ++ x) in K. injection K as K1 K2 _. subst b1 b2. discriminate BB.
    - apply Some_inj, pair_inj in H as [<- <-]. split; [cbn [length]; rewrite app_length; lia|]. intros b t o E B.
      destruct (F6 r1) as [F S]. rewrite F, <- app_assoc.
      assert (SC : scalar u). { destruct (N.lt_ge_cases u 55296); [left; lia|right]. apply not_true_iff_false in SU. unfold is_surrogate in SU. rewrite andb_true_iff, !N.leb_le in SU. lia. }
      rewrite encode_scalar by exact SC. apply sb_unicode; assumption. }
  destruct (N.ltb_spec (bN c) 128) as [LT|GE'].
  { apply Some_inj, pair_inj in H as [<- <-]. split; [cbn [length]; lia|]. intros b t o _ B. cbn [firstn].
    pose proof (sb_char (bN c) b o) as Z. rewrite utf8_char_ascii, nB_bN in Z by exact LT. apply Z; auto; [left; lia|apply N.eqb_neq, Q|apply N.eqb_neq, C]. }
  destruct (decode_rune (c :: r)) as [[u w']|] eqn:D.
  - apply Some_inj, pair_inj in H as [<- <-]. pose proof (decode_rune_facts _ _ _ D) as FA. apply decode_inv in D as [SC FI].
    assert (W : (w' = length (utf8_char u))%nat).
    { rewrite <- FI, firstn_length. destruct FA as (FA1 & _). lia. }
    pose proof (utf8_char_length u) as UL.
    split; [rewrite W; split; [lia|]; rewrite <- FI, firstn_length; lia|]. intros b t o _ B. rewrite FI.
    assert (U128 : 128 <= u).
    { destruct (N.lt_ge_cases u 128) as [L|L]; [|exact L]. exfalso. rewrite utf8_char_ascii in FI by exact L. destruct w' as [|w']; [discriminate|]. cbn [firstn] in FI.
      assert (c = nB u) by congruence. subst c. rewrite bN_nB_small in GE' by lia. lia. }
    apply sb_char; auto; lia.
  - apply Some_inj, pair_inj in H as [<- <-]. split; [cbn [length]; lia|]. intros b t o E B. cbn [skipn] in E. cbn [firstn].
    apply sb_bad; [|exact B]. intros u x SC K. rewrite E in D. change (c :: b ++ Byte.x22 :: t) with ((c :: b) ++ Byte.x22 :: t) in D.
    cbn [app] in K. rewrite K, <- app_assoc, decode_char in D by exact SC. discriminate.
Qed.

Lemma parse_str_sound : forall n s x t, (length s <= n)%nat -> parse_str 0 s = Some (x, t) -> exists b, s = b ++ Byte.x22 :: t /\ string_body b x.
Proof.
  induction n as [|n IH]; intros s x t L H; (destruct s as [|c r]; [discriminate|]); [cbn in L; lia|]. cbn [parse_str] in H.
  destruct (bN c =? 34) eqn:Q.
  - apply Some_inj, pair_inj in H as [<- <-]. apply bN_is in Q. subst c. exists []. split; [reflexivity|constructor].
  - destruct (str_unit (c :: r)) as [[out w]|] eqn:U; [|discriminate]. destruct (unit_sound _ _ _ U Q) as [W K].
    destruct (parse_str (w - 1) r) as [[o rest]|] eqn:P; [|discriminate]. apply Some_inj, pair_inj in H as [<- <-].
    rewrite parse_str_skip in P. assert (SK : skipn (w - 1) r = skipn w (c :: r)) by (destruct w; [lia|]; rewrite Nat.sub_succ, Nat.sub_0_r; reflexivity).
    rewrite SK in P. apply IH in P as (b & E & B); [|rewrite skipn_length; cbn [length] in *; lia].
    exists (firstn w (c :: r) ++ b). split; [|eapply K; eassumption]. rewrite <- app_assoc, <- E, firstn_skipn. reflexivity.
Qed.

Lemma parse_step c r out w : (bN c =? 34) = false -> str_unit (c :: r) = Some (out, w) -> (1 <= w)%nat ->
  parse_str 0 (c :: r) = match parse_str 0 (skipn w (c :: r)) with Some (o, rest) => Some (out ++ o, rest) | None => None end.
Proof.
  intros Q U W. cbn [parse_str]. rewrite Q, U, parse_str_skip. destruct w as [|w]; [lia|]. rewrite Nat.sub_succ, Nat.sub_0_r. reflexivity.
Qed.
Lemma u4_prefix s u : u4 s = Some u -> exists h r, s = h ++ r /\ hex4 h u /\ length h = 4%nat.
Proof. intros H. destruct (u4_inv s u H) as (h & r & E & K). exists h, r. repeat split; auto. eapply hex4_length; eauto. Qed.

Lemma bs_u h r : str "\u" ++ h ++ r = Byte.x5c :: Byte.x75 :: (h ++ r).
Proof. reflexivity. Qed.

Lemma unit_u h u r : hex4 h u -> str_unit (Byte.x5c :: Byte.x75 :: h ++ r) =
  (if is_surrogate u then
     match r with
     | b1 :: b2 :: r'' => if (bN b1 =? 92) && (bN b2 =? 117) then
         match u4 r'' with
         | Some v => if (u <? 56320) && (56320 <=? v) && (v <? 57344) then Some (encode_rune ((u - 55296) * 1024 + (v - 56320) + 65536), 12%nat) else Some (replacement, 6%nat)
         | None => Some (replacement, 6%nat) end else Some (replacement, 6%nat)
     | _ => Some (replacement, 6%nat) end
   else Some (encode_rune u, 6%nat)).
Proof.
  intros H. pose proof (hex4_length _ _ H) as L. unfold str_unit.
  change (bN Byte.x5c <? 32) with false. change (bN Byte.x5c =? 92) with true. cbv iota.
  change ((bN Byte.x75 =? 34) || (bN Byte.x75 =? 92) || (bN Byte.x75 =? 47)) with false. change (bN Byte.x75 =? 98) with false. change (bN Byte.x75 =? 102) with false.
  change (bN Byte.x75 =? 110) with false. change (bN Byte.x75 =? 114) with false. change (bN Byte.x75 =? 116) with false. change (bN Byte.x75 =? 117) with true. cbv iota.
  rewrite (u4_hex4 h u r H). assert (S4 : skipn 4 (h ++ r) = r) by (rewrite <- L, skipn_app, Nat.sub_diag, skipn_all; reflexivity). rewrite S4. reflexivity.
Qed.

Lemma parse_str_complete b x : string_body b x -> forall t, parse_str 0 (b ++ Byte.x22 :: t) = Some (x, t).
Proof.
  induction 1 as [|u s x S U32 U34 U92 B IH|e c s x I B IH|h u s x U S B IH|h u h' v s x U V HU LV B IH|h u s x U S NP B IH|c s x N B IH]; intros t.
  - reflexivity.
  - destruct (N.lt_ge_cases u 128) as [L|L].
    + rewrite utf8_char_ascii by exact L. cbn [app].
      assert (BU : bN (nB u) = u) by (apply bN_nB_small; lia).
      rewrite (parse_step (nB u) _ [nB u] 1).
      * cbn [skipn]. rewrite IH. reflexivity.
      * rewrite BU. apply N.eqb_neq, U34.
      * unfold str_unit. rewrite BU. replace (u <? 32) with false by (symmetry; apply N.ltb_ge; lia).
        replace (u =? 92) with false by (symmetry; apply N.eqb_neq; lia). replace (u <? 128) with true by (symmetry; apply N.ltb_lt; lia). reflexivity.
      * lia.
    + destruct (utf8_char_head u S L) as (c & r & E & C). pose proof (decode_char u (s ++ Byte.x22 :: t) S) as D. rewrite <- app_assoc. rewrite E in *. cbn [app] in *.
      rewrite (parse_step c _ (c :: r) (length (c :: r))).
      * cbn [length skipn]. rewrite skipn_app, skipn_all, Nat.sub_diag. cbn [app skipn]. rewrite IH. reflexivity.
      * apply N.eqb_neq. lia.
      * unfold str_unit. replace (bN c <? 32) with false by (symmetry; apply N.ltb_ge; lia). replace (bN c =? 92) with false by (symmetry; apply N.eqb_neq; lia).
        replace (bN c <? 128) with false by (symmetry; apply N.ltb_ge; lia). rewrite D. f_equal. f_equal. cbn [length firstn].
        rewrite firstn_app, Nat.sub_diag, firstn_all. cbn [firstn]. rewrite app_nil_r. reflexivity.
      * cbn [length]. lia.
  - change (str "\" ++ e :: s) with (Byte.x5c :: e :: s). cbn [app]. rewrite (parse_step Byte.x5c _ [c] 2); [|reflexivity|apply escape_in, I|lia].
    cbn [skipn]. rewrite IH. reflexivity.
  - rewrite bs_u. cbn [app]. rewrite <- app_assoc. pose proof (hex4_length _ _ U) as L.
    rewrite (parse_step Byte.x5c _ (utf8_char u) 6); [|reflexivity| |lia].
    + change (skipn 6 (Byte.x5c :: Byte.x75 :: h ++ s ++ Byte.x22 :: t)) with (skipn 4 (h ++ s ++ Byte.x22 :: t)).
      rewrite <- L, skipn_app, Nat.sub_diag, skipn_all. cbn [app skipn]. rewrite IH. reflexivity.
    + rewrite (unit_u h u _ U). destruct (is_surrogate u) eqn:SU; [apply surrogate_iff in SU; [contradiction|eapply hex4_lt; eauto]|].
      rewrite encode_scalar by exact S. reflexivity.
  - rewrite bs_u. rewrite bs_u. cbn [app]. rewrite <- !app_assoc. cbn [app]. rewrite <- app_assoc. pose proof (hex4_length _ _ U) as L. pose proof (hex4_length _ _ V) as L'.
    rewrite (parse_step Byte.x5c _ (utf8_char (65536 + (u - 55296) * 1024 + (v - 56320))) 12); [|reflexivity| |lia].
    + assert (K : skipn 12 (Byte.x5c :: Byte.x75 :: h ++ Byte.x5c :: Byte.x75 :: h' ++ s ++ Byte.x22 :: t) = s ++ Byte.x22 :: t).
      { destruct h as [|h0 [|h1 [|h2 [|h3 [|]]]]]; try discriminate L. destruct h' as [|h0' [|h1' [|h2' [|h3' [|]]]]]; try discriminate L'. reflexivity. }
      rewrite K, IH. reflexivity.
    + rewrite (unit_u h u _ U). unfold high_surrogate, low_surrogate in *.
      replace (is_surrogate u) with true by (symmetry; unfold is_surrogate; rewrite andb_true_iff, !N.leb_le; lia).
      change ((bN Byte.x5c =? 92) && (bN Byte.x75 =? 117)) with true. cbv iota. rewrite (u4_hex4 h' v _ V).
      replace ((u <? 56320) && (56320 <=? v) && (v <? 57344)) with true by (symmetry; rewrite !andb_true_iff, !N.ltb_lt, N.leb_le; lia).
      rewrite encode_scalar by (unfold scalar; lia). f_equal. f_equal. f_equal. lia.
  - rewrite bs_u. cbn [app]. rewrite <- app_assoc. pose proof (hex4_length _ _ U) as L.
    rewrite (parse_step Byte.x5c _ replacement 6); [|reflexivity| |lia].
    + change (skipn 6 (Byte.x5c :: Byte.x75 :: h ++ s ++ Byte.x22 :: t)) with (skipn 4 (h ++ s ++ Byte.x22 :: t)).
      rewrite <- L, skipn_app, Nat.sub_diag, skipn_all. cbn [app skipn]. rewrite IH. reflexivity.
    + rewrite (unit_u h u _ U). rewrite (proj2 (surrogate_iff u (hex4_lt _ _ U)) S).
      destruct (s ++ Byte.x22 :: t) as [|b1 [|b2 r2]] eqn:E; [reflexivity..|]. destruct ((bN b1 =? 92) && (bN b2 =? 117)) eqn:BB; [|reflexivity].
      apply andb_true_iff in BB as [B1 B2]. apply bN_is in B1, B2. subst b1 b2. destruct (u4 r2) as [v|] eqn:V; [|reflexivity].
      destruct ((u <? 56320) && (56320 <=? v) && (v <? 57344)) eqn:P; [|reflexivity]. exfalso.
      apply andb_true_iff in P as [P P3]. apply andb_true_iff in P as [P1 P2]. apply N.ltb_lt in P1, P3. apply N.leb_le in P2.
      apply u4_inv in V as (h' & r3 & -> & V).
      destruct (before_quote (nB 92 :: nB 117 :: h') s r3 t) as (r' & K); [symmetry; exact E| |].
      { intros I. destruct I as [I|[I|I]]; [discriminate|discriminate|]. apply (hex4_no_quote _ _ V I). }
      apply (NP h' v r'); [unfold high_surrogate, scalar in *; pose proof (hex4_lt _ _ U); lia|exact V|unfold low_surrogate; lia|exact K].
  - assert (C128 : 128 <= bN c).
    { destruct (N.lt_ge_cases (bN c) 128) as [L|L]; [|exact L]. exfalso. apply (N (bN c) s); [left; lia|]. rewrite utf8_char_ascii, nB_bN by exact L. reflexivity. }
    cbn [app]. rewrite (parse_step c _ replacement 1); [|apply N.eqb_neq; lia| |lia].
    + cbn [skipn]. rewrite IH. reflexivity.
    + unfold str_unit. replace (bN c <? 32) with false by (symmetry; apply N.ltb_ge; lia). replace (bN c =? 92) with false by (symmetry; apply N.eqb_neq; lia).
      replace (bN c <? 128) with false by (symmetry; apply N.ltb_ge; lia).
      destruct (decode_rune (c :: s ++ Byte.x22 :: t)) as [[u w]|] eqn:D; [|reflexivity]. exfalso.
      apply decode_inv in D as [SC FI].
      destruct (before_quote (utf8_char u) (c :: s) (skipn w (c :: s ++ Byte.x22 :: t)) t) as (r' & K).
      { rewrite <- FI, firstn_skipn. reflexivity. }
      { apply utf8_char_no_quote; [exact SC|]. intros ->. rewrite utf8_char_ascii in FI by lia. destruct w as [|w]; [discriminate|]. cbn [firstn] in FI.
        assert (c = nB 34) by congruence. subst c. vm_compute in C128. apply C128. reflexivity. }
      exact (N u r' SC K).
Qed.

(** ** Values *)
Definition room (d : N) : N := 10000 - d.

Lemma strip_split p : forall s t, strip p s = Some t -> s = p ++ t.
Proof.
  induction p as [|x p IH]; intros s t; unfold strip; fold strip.
  - intros H. apply Some_inj in H as <-. reflexivity.
  - destruct s as [|y s]; [discriminate|]. destruct (beqb x y) eqn:E; [|discriminate]. apply beqb_eq in E. subst y. intros H. apply IH in H. subst s. reflexivity.
Qed.
Lemma strip_app p t : strip p (p ++ t) = Some t.
Proof. induction p as [|x p IH]; [reflexivity|]. cbn [app]. unfold strip; fold strip. rewrite (proj2 (beqb_eq x x) eq_refl). exact IH. Qed.

Lemma parse_sound : forall f d,
  (forall s v t, parse_value f d s = Some (v, t) -> exists w x, s = w ++ x ++ t /\ json_space w /\ json_text x v /\ nesting v <= room d) /\
  (forall s l t, parse_elems f d s = Some (l, t) -> exists x, s = x ++ str "]" ++ t /\ json_elements x l /\ fold_right (fun x m => N.max (nesting x) m) 0 l <= room d) /\
  (forall s l t, parse_members f d s = Some (l, t) -> exists x, s = x ++ str "}" ++ t /\ json_members x l /\ fold_right (fun x m => N.max (nesting (snd x)) m) 0 l <= room d).
Proof.
  induction f as [|f IH]; intros d; [repeat split; discriminate|]. split; [|split].
  - intros s v t. cbn [parse_value]. destruct (skip_ws_split s) as (w & E & W & _). destruct (skip_ws s) as [|c r] eqn:ES; [discriminate|].
    destruct (bN c =? 123) eqn:C1.
    { apply bN_is in C1. subst c. destruct (N.leb_spec maxNestingDepth d) as [|DD]; [discriminate|]. unfold maxNestingDepth in DD.
      destruct (skip_ws_split r) as (w2 & E2 & W2 & _). destruct (skip_ws r) as [|c' r'] eqn:ER; [discriminate|]. destruct (bN c' =? 125) eqn:C2.
      - intros H. apply Some_inj, pair_inj in H as [<- <-]. apply bN_is in C2. subst c'. exists w, (str "{" ++ w2 ++ str "}").
        split; [rewrite E, E2, <- !app_assoc; reflexivity|]. split; [exact W|]. split; [constructor; exact W2|]. cbn [nesting fold_right]. unfold room. lia.
      - destruct (parse_members f (d + 1) r) as [[ms t']|] eqn:EM; [|discriminate]. intros H. apply Some_inj, pair_inj in H as [<- <-].
        apply (proj2 (proj2 (IH (d + 1)))) in EM as (x & -> & J & D). exists w, (str "{" ++ x ++ str "}").
        split; [rewrite E, <- !app_assoc; reflexivity|]. split; [exact W|]. split; [constructor; exact J|]. cbn [nesting]. unfold room in *. lia. }
    destruct (bN c =? 91) eqn:C3.
    { apply bN_is in C3. subst c. destruct (N.leb_spec maxNestingDepth d) as [|DD]; [discriminate|]. unfold maxNestingDepth in DD.
      destruct (skip_ws_split r) as (w2 & E2 & W2 & _). destruct (skip_ws r) as [|c' r'] eqn:ER; [discriminate|]. destruct (bN c' =? 93) eqn:C2.
      - intros H. apply Some_inj, pair_inj in H as [<- <-]. apply bN_is in C2. subst c'. exists w, (str "[" ++ w2 ++ str "]").
        split; [rewrite E, E2, <- !app_assoc; reflexivity|]. split; [exact W|]. split; [constructor; exact W2|]. cbn [nesting fold_right]. unfold room. lia.
      - destruct (parse_elems f (d + 1) r) as [[ms t']|] eqn:EM; [|discriminate]. intros H. apply Some_inj, pair_inj in H as [<- <-].
        apply (proj1 (proj2 (IH (d + 1)))) in EM as (x & -> & J & D). exists w, (str "[" ++ x ++ str "]").
        split; [rewrite E, <- !app_assoc; reflexivity|]. split; [exact W|]. split; [constructor; exact J|]. cbn [nesting]. unfold room in *. lia. }
    destruct (bN c =? 34) eqn:C4.
    { apply bN_is in C4. subst c. destruct (parse_str 0 r) as [[x t']|] eqn:P; [|discriminate]. intros H. apply Some_inj, pair_inj in H as [<- <-].
      apply (parse_str_sound (length r)) in P as (b & -> & B); [|lia]. exists w, (str """" ++ b ++ str """").
      split; [rewrite E, <- !app_assoc; reflexivity|]. split; [exact W|]. split; [constructor; exact B|]. apply N.le_0_l. }
    destruct ((bN c =? 45) || is_digit c).
    { destruct (parse_num (c :: r)) as [[l t']|] eqn:P; [|discriminate]. intros H. apply Some_inj, pair_inj in H as [<- <-].
      apply parse_num_sound in P as [P N]. exists w, l. split; [rewrite E, P; reflexivity|]. split; [exact W|]. split; [constructor; exact N|]. apply N.le_0_l. }
    destruct (strip (str "true") (c :: r)) as [x|] eqn:E1; [|destruct (strip (str "false") (c :: r)) as [x|] eqn:E2; [|destruct (strip (str "null") (c :: r)) as [x|] eqn:E3; [|discriminate]]].
    all: intros H; apply Some_inj, pair_inj in H as [<- <-].
    + apply strip_split in E1. exists w, (str "true"). split; [rewrite E, E1; reflexivity|]. split; [exact W|]. split; [constructor|apply N.le_0_l].
    + apply strip_split in E2. exists w, (str "false"). split; [rewrite E, E2; reflexivity|]. split; [exact W|]. split; [constructor|apply N.le_0_l].
    + apply strip_split in E3. exists w, (str "null"). split; [rewrite E, E3; reflexivity|]. split; [exact W|]. split; [constructor|apply N.le_0_l].
  - intros s l t. cbn [parse_elems]. destruct (parse_value f d s) as [[v t1]|] eqn:EV; [|discriminate].
    apply (proj1 (IH d)) in EV as (w & x & -> & W & J & D). destruct (skip_ws_split t1) as (w2 & E2 & W2 & _). destruct (skip_ws t1) as [|c r]; [discriminate|].
    destruct (bN c =? 44) eqn:C.
    + destruct (parse_elems f d r) as [[vs t']|] eqn:EE; [|discriminate]. intros H. apply Some_inj, pair_inj in H as [<- <-]. apply bN_is in C. subst c.
      apply (proj1 (proj2 (IH d))) in EE as (y & -> & JE & DE). exists (w ++ x ++ w2 ++ str "," ++ y). split; [rewrite E2, <- !app_assoc; reflexivity|].
      split; [constructor; assumption|]. cbn [fold_right]. lia.
    + destruct (bN c =? 93) eqn:C'; [|discriminate]. intros H. apply Some_inj, pair_inj in H as [<- <-]. apply bN_is in C'. subst c.
      exists (w ++ x ++ w2). split; [rewrite E2, <- !app_assoc; reflexivity|]. split; [constructor; assumption|]. cbn [fold_right]. lia.
  - intros s l t. cbn [parse_members]. destruct (skip_ws_split s) as (w & E & W & _). destruct (skip_ws s) as [|q r0]; [discriminate|].
    destruct (bN q =? 34) eqn:Q; [|discriminate]. apply bN_is in Q. subst q. destruct (parse_str 0 r0) as [[k t0]|] eqn:P; [|discriminate].
    apply (parse_str_sound (length r0)) in P as (b & -> & B); [|lia].
    destruct (skip_ws_split t0) as (w1 & E1 & W1 & _). destruct (skip_ws t0) as [|c0 r1]; [discriminate|]. destruct (bN c0 =? 58) eqn:C0; [|discriminate]. apply bN_is in C0. subst c0.
    destruct (parse_value f d r1) as [[v t1]|] eqn:EV; [|discriminate].
    apply (proj1 (IH d)) in EV as (w3 & x & -> & W3 & J & D). destruct (skip_ws_split t1) as (w2 & E2 & W2 & _). destruct (skip_ws t1) as [|c r]; [discriminate|].
    destruct (bN c =? 44) eqn:C.
    + destruct (parse_members f d r) as [[vs t']|] eqn:EE; [|discriminate]. intros H. apply Some_inj, pair_inj in H as [<- <-]. apply bN_is in C. subst c.
      apply (proj2 (proj2 (IH d))) in EE as (y & -> & JE & DE). exists (w ++ (str """" ++ b ++ str """") ++ w1 ++ str ":" ++ w3 ++ x ++ w2 ++ str "," ++ y).
      split; [rewrite E, E1, E2, <- !app_assoc; reflexivity|]. split; [constructor; assumption|]. cbn [fold_right snd]. lia.
    + destruct (bN c =? 125) eqn:C'; [|discriminate]. intros H. apply Some_inj, pair_inj in H as [<- <-]. apply bN_is in C'. subst c.
      exists (w ++ (str """" ++ b ++ str """") ++ w1 ++ str ":" ++ w3 ++ x ++ w2). split; [rewrite E, E1, E2, <- !app_assoc; reflexivity|]. split; [constructor; assumption|]. cbn [fold_right snd]. lia.
Qed.

Scheme json_text_mind := Induction for json_text Sort Prop
  with json_elements_mind := Induction for json_elements Sort Prop
  with json_members_mind := Induction for json_members Sort Prop.
Combined Scheme json_mind from json_text_mind, json_elements_mind, json_members_mind.

Lemma number_head l : number l -> exists c r, l = c :: r /\ (bN c =? 45) || is_digit c = true.
Proof.
  intros (sign & int & frac & exp & -> & Hs & (Hi & Fi) & _). cbn in Hs. destruct Hs as [<-|[<-|[]]].
  - destruct int as [|c int]; [contradiction|]. cbn [app]. exists c. eexists. split; [reflexivity|]. apply Forall_inv in Fi. rewrite (proj2 (digit_iff c) Fi). apply orb_true_r.
  - cbn [app]. eexists; eexists. split; reflexivity.
Qed.
(** The first byte of a value. *)
Definition opens (c : byte) : bool :=
  negb (is_ws c) && negb (bN c =? 93) && negb (bN c =? 125).
Lemma text_head x v : json_text x v -> exists c r, x = c :: r /\ opens c = true.
Proof.
  intros J. inversion J; subst; try (eexists; eexists; split; reflexivity).
  match goal with H : number _ |- _ => destruct (number_head _ H) as (c & r & -> & C) end. exists c, r. split; [reflexivity|].
  assert (K : forall c, implb ((bN c =? 45) || is_digit c) (opens c) = true) by (apply byte_sweep; vm_compute; reflexivity).
  specialize (K c). rewrite C in K. exact K.
Qed.
Lemma skip_to_text w x v t : json_space w -> json_text x v -> skip_ws (w ++ x ++ t) = x ++ t.
Proof.
  intros W J. rewrite skip_ws_app by exact W. destruct (text_head _ _ J) as (c & r & -> & O). cbn [app skip_ws].
  unfold opens in O. destruct (is_ws c); [discriminate O|reflexivity].
Qed.
Lemma stop_space w t : json_space w -> stop t -> stop (w ++ t).
Proof.
  intros W T. destruct w as [|c w]; [exact T|]. cbn [app stop]. specialize (W c (or_introl eq_refl)). cbn in W. cbn. tauto.
Qed.
Lemma skip_stop w c t : json_space w -> is_ws c = false -> skip_ws (w ++ c :: t) = c :: t.
Proof. intros W C. rewrite skip_ws_app by exact W. cbn [skip_ws]. rewrite C. reflexivity. Qed.

Lemma elements_head x l t : json_elements x l -> exists c r, skip_ws (x ++ t) = c :: r /\ opens c = true.
Proof.
  intros J. inversion J; subst.
  - rewrite <- !app_assoc. erewrite skip_to_text by eassumption. destruct (text_head s j) as (c & r & -> & O); [assumption|]. cbn [app]. eauto.
  - rewrite <- !app_assoc. erewrite skip_to_text by eassumption. destruct (text_head s j) as (c & r0 & -> & O); [assumption|]. cbn [app]. eauto.
Qed.
Lemma members_head x l t : json_members x l -> exists r, skip_ws (x ++ t) = Byte.x22 :: r.
Proof.
  intros J. inversion J; subst.
  - rewrite <- !app_assoc. change (str """" ++ ?y) with (Byte.x22 :: y). rewrite skip_stop by (assumption || reflexivity). eauto.
  - rewrite <- !app_assoc. change (str """" ++ ?y) with (Byte.x22 :: y). rewrite skip_stop by (assumption || reflexivity). eauto.
Qed.

Lemma parse_complete :
  (forall x v, json_text x v -> forall d w t, nesting v <= room d -> json_space w -> (forall l, v = JNum l -> stop t) ->
     exists F, forall f, (F <= f)%nat -> parse_value f d (w ++ x ++ t) = Some (v, t)) /\
  (forall x l, json_elements x l -> forall d t, fold_right (fun x m => N.max (nesting x) m) 0 l <= room d ->
     exists F, forall f, (F <= f)%nat -> parse_elems f d (x ++ str "]" ++ t) = Some (l, t)) /\
  (forall x l, json_members x l -> forall d t, fold_right (fun x m => N.max (nesting (snd x)) m) 0 l <= room d ->
     exists F, forall f, (F <= f)%nat -> parse_members f d (x ++ str "}" ++ t) = Some (l, t)).
Proof.
  apply json_mind.
  - intros d w t _ W _. exists 1%nat. intros [|f] L; [lia|]. cbn [parse_value]. rewrite (skip_to_text w _ _ t W jt_null). reflexivity.
  - intros d w t _ W _. exists 1%nat. intros [|f] L; [lia|]. cbn [parse_value]. rewrite (skip_to_text w _ _ t W jt_true). reflexivity.
  - intros d w t _ W _. exists 1%nat. intros [|f] L; [lia|]. cbn [parse_value]. rewrite (skip_to_text w _ _ t W jt_false). reflexivity.
  - intros l H d w t _ W T. exists 1%nat. intros [|f] L; [lia|]. cbn [parse_value]. rewrite (skip_to_text w _ _ t W (jt_number l H)).
    pose proof (parse_num_complete l t H (T l eq_refl)) as P. destruct (number_head l H) as (c & r & -> & C). cbn [app] in *.
    assert (K : forall c, implb ((bN c =? 45) || is_digit c) (negb (bN c =? 123) && negb (bN c =? 91) && negb (bN c =? 34)) = true) by (apply byte_sweep; vm_compute; reflexivity).
    specialize (K c). rewrite C in K. cbn [implb] in K. apply andb_true_iff in K as [K K3]. apply andb_true_iff in K as [K1 K2]. apply negb_true_iff in K1, K2, K3.
    rewrite K1, K2, K3, C, P. reflexivity.
  - intros s v H d w t _ W _. exists 1%nat. intros [|f] L; [lia|]. cbn [parse_value]. rewrite (skip_to_text w _ _ t W (jt_string s v H)).
    rewrite <- !app_assoc. change (str """" ++ s ++ str """" ++ t) with (Byte.x22 :: s ++ Byte.x22 :: t).
    change (bN Byte.x22 =? 123) with false. change (bN Byte.x22 =? 91) with false. change (bN Byte.x22 =? 34) with true. cbv iota.
    rewrite (parse_str_complete s v H t). reflexivity.
  - intros w0 H d w t D W _. exists 1%nat. intros [|f] L; [lia|]. cbn [parse_value]. rewrite (skip_to_text w _ _ t W (jt_array0 w0 H)).
    rewrite <- !app_assoc. change (str "[" ++ w0 ++ str "]" ++ t) with (Byte.x5b :: w0 ++ Byte.x5d :: t).
    change (bN Byte.x5b =? 123) with false. change (bN Byte.x5b =? 91) with true. cbv iota.
    cbn [nesting fold_right] in D. unfold room in D. replace (maxNestingDepth <=? d) with false by (symmetry; apply N.leb_gt; unfold maxNestingDepth; lia).
    rewrite skip_stop by (exact H || reflexivity). reflexivity.
  - intros s l J IH d w t D W _. cbn [nesting] in D. unfold room in D.
    destruct (IH (d + 1) t) as (F & K); [unfold room; lia|]. exists (S F). intros [|f] L; [lia|]. apply le_S_n in L. cbn [parse_value].
    rewrite (skip_to_text w _ _ t W (jt_array s l J)). rewrite <- !app_assoc. change (str "[" ++ s ++ str "]" ++ t) with (Byte.x5b :: s ++ str "]" ++ t).
    change (bN Byte.x5b =? 123) with false. change (bN Byte.x5b =? 91) with true. cbv iota.
    replace (maxNestingDepth <=? d) with false by (symmetry; apply N.leb_gt; unfold maxNestingDepth; lia).
    destruct (elements_head s l (str "]" ++ t) J) as (c & r & E & O). rewrite E. unfold opens in O. destruct (bN c =? 93); [destruct (is_ws c); discriminate O|].
    rewrite (K f L). reflexivity.
  - intros w0 H d w t D W _. exists 1%nat. intros [|f] L; [lia|]. cbn [parse_value]. rewrite (skip_to_text w _ _ t W (jt_object0 w0 H)).
    rewrite <- !app_assoc. change (str "{" ++ w0 ++ str "}" ++ t) with (Byte.x7b :: w0 ++ Byte.x7d :: t).
    change (bN Byte.x7b =? 123) with true. cbv iota.
    cbn [nesting fold_right] in D. unfold room in D. replace (maxNestingDepth <=? d) with false by (symmetry; apply N.leb_gt; unfold maxNestingDepth; lia).
    rewrite skip_stop by (exact H || reflexivity). reflexivity.
  - intros s l J IH d w t D W _. cbn [nesting] in D. unfold room in D.
    destruct (IH (d + 1) t) as (F & K); [unfold room; lia|]. exists (S F). intros [|f] L; [lia|]. apply le_S_n in L. cbn [parse_value].
    rewrite (skip_to_text w _ _ t W (jt_object s l J)). rewrite <- !app_assoc. change (str "{" ++ s ++ str "}" ++ t) with (Byte.x7b :: s ++ str "}" ++ t).
    change (bN Byte.x7b =? 123) with true. cbv iota.
    replace (maxNestingDepth <=? d) with false by (symmetry; apply N.leb_gt; unfold maxNestingDepth; lia).
    destruct (members_head s l (str "}" ++ t) J) as (r & E). rewrite E. change (bN Byte.x22 =? 125) with false. cbv iota.
    rewrite (K f L). reflexivity.
  - intros w s w' j W J IH W' d t D. cbn [fold_right] in D.
    destruct (IH d w (w' ++ str "]" ++ t)) as (F & K); [lia|exact W|intros _ _; apply stop_space; [exact W'|cbn; auto 10]|].
    exists (S F). intros [|f] L; [lia|]. apply le_S_n in L. cbn [parse_elems]. rewrite <- !app_assoc. rewrite (K f L).
    change (str "]" ++ t) with (Byte.x5d :: t). rewrite skip_stop by (exact W' || reflexivity). reflexivity.
  - intros w s w' j r l W J IH W' JE IHE d t D. cbn [fold_right] in D.
    destruct (IH d w (w' ++ str "," ++ r ++ str "]" ++ t)) as (F & K); [lia|exact W|intros _ _; apply stop_space; [exact W'|cbn; auto 10]|].
    destruct (IHE d t) as (F' & K'); [lia|].
    exists (S (F + F')). intros [|f] L; [lia|]. apply le_S_n in L. cbn [parse_elems]. rewrite <- !app_assoc. rewrite (K f) by lia.
    change (str "," ++ r ++ str "]" ++ t) with (Byte.x2c :: r ++ str "]" ++ t). rewrite skip_stop by (exact W' || reflexivity).
    change (bN Byte.x2c =? 44) with true. cbv iota. rewrite (K' f) by lia. reflexivity.
  - intros w k name w1 w2 s w' j W B W1 W2 J IH W' d t D. cbn [fold_right snd] in D.
    destruct (IH d w2 (w' ++ str "}" ++ t)) as (F & K); [lia|exact W2|intros _ _; apply stop_space; [exact W'|cbn; auto 10]|].
    exists (S F). intros [|f] L; [lia|]. apply le_S_n in L. cbn [parse_members]. rewrite <- !app_assoc.
    change (str """" ++ k ++ str """" ++ w1 ++ str ":" ++ w2 ++ s ++ w' ++ str "}" ++ t) with (Byte.x22 :: k ++ Byte.x22 :: w1 ++ Byte.x3a :: w2 ++ s ++ w' ++ str "}" ++ t).
    rewrite skip_stop by (exact W || reflexivity). change (bN Byte.x22 =? 34) with true. cbv iota. rewrite (parse_str_complete k name B).
    rewrite skip_stop by (exact W1 || reflexivity). change (bN Byte.x3a =? 58) with true. cbv iota. rewrite (K f L).
    change (str "}" ++ t) with (Byte.x7d :: t). rewrite skip_stop by (exact W' || reflexivity). reflexivity.
  - intros w k name w1 w2 s w' j r l W B W1 W2 J IH W' JM IHM d t D. cbn [fold_right snd] in D.
    destruct (IH d w2 (w' ++ str "," ++ r ++ str "}" ++ t)) as (F & K); [lia|exact W2|intros _ _; apply stop_space; [exact W'|cbn; auto 10]|].
    destruct (IHM d t) as (F' & K'); [lia|].
    exists (S (F + F')). intros [|f] L; [lia|]. apply le_S_n in L. cbn [parse_members]. rewrite <- !app_assoc.
    change (str """" ++ k ++ str """" ++ w1 ++ str ":" ++ w2 ++ s ++ w' ++ str "," ++ r ++ str "}" ++ t) with (Byte.x22 :: k ++ Byte.x22 :: w1 ++ Byte.x3a :: w2 ++ s ++ w' ++ str "," ++ r ++ str "}" ++ t).
    rewrite skip_stop by (exact W || reflexivity). change (bN Byte.x22 =? 34) with true. cbv iota. rewrite (parse_str_complete k name B).
    rewrite skip_stop by (exact W1 || reflexivity). change (bN Byte.x3a =? 58) with true. cbv iota. rewrite (K f) by lia.
    change (str "," ++ r ++ str "}" ++ t) with (Byte.x2c :: r ++ str "}" ++ t). rewrite skip_stop by (exact W' || reflexivity).
    change (bN Byte.x2c =? 44) with true. cbv iota. rewrite (K' f) by lia. reflexivity.
Qed.

Theorem json_parse_grammar s j : json_parse s = Some j <-> json_document s j /\ nesting j <= 10000.
Proof.
  rewrite json_parse_fuel. split.
  - intros (f & t & P & W). apply (proj1 (parse_sound f 0)) in P as (w & x & -> & W0 & J & D). split; [|exact D].
    exists w, x, t. repeat split; auto. apply skip_ws_nil, W.
  - intros ((w & x & w' & -> & W & J & W') & D). destruct (proj1 parse_complete x j J 0 w w') as (F & K); [exact D|exact W| |].
    + intros _ _. rewrite <- (app_nil_r w'). apply stop_space; [exact W'|exact I].
    + exists F, w'. split; [apply K; lia|apply skip_ws_all, W'].
Qed.

Lemma json_parse_document s j : json_parse s = Some j -> json_document s j.
Proof. intros H. apply json_parse_grammar in H. apply H. Qed.
Lemma document_parse s j : json_document s j -> nesting j <= 10000 -> json_parse s = Some j.
Proof. intros D N. apply json_parse_grammar. split; assumption. Qed.

(** The first value of a stream, when it is not a number. *)
Lemma parse_first s j : (forall l, j <> JNum l) ->
  ((exists t, parse_value (S (length s)) 0 s = Some (j, t)) <-> exists w x rest, s = w ++ x ++ rest /\ json_space w /\ json_text x j /\ nesting j <= 10000).
Proof.
  intros N. split.
  - intros (t & P). apply (proj1 (parse_sound _ 0)) in P as (w & x & E & W & J & D). exists w, x, t. split; [exact E|]. split; [exact W|]. split; [exact J|exact D].
  - intros (w & x & rest & -> & W & J & D). destruct (proj1 parse_complete x j J 0 w rest) as (F & K); [exact D|exact W|intros l L; destruct (N l L)|].
    exists rest. eapply parse_fuel. apply (K F). lia.
Qed.
Lemma no_document s : (forall j, json_document s j -> 10000 < nesting j) -> json_parse s = None.
Proof.
  intros N. destruct (json_parse s) as [j|] eqn:J; [|reflexivity]. apply json_parse_grammar in J as [D L]. specialize (N j D). lia.
Qed.
Lemma parse_none_document s : json_parse s = None -> forall j, json_document s j -> 10000 < nesting j.
Proof.
  intros N j D. destruct (N.lt_ge_cases 10000 (nesting j)) as [L|L]; [exact L|]. rewrite (document_parse s j D L) in N. discriminate N.
Qed.
