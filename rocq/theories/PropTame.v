(** * Property C93: what can get into the client's output.  Whatever is in the
    input and whatever the server sends (the metadata of a bucket are its
    bytes), standard output is UTF-8 text in which the only control character below 32
    is the line feed behind each line, and in which nothing is HTML markup or ends a
    JavaScript line: nobody can forge a line, and a line may be put into a page.
    But DEL and the control characters U+0080 to U+009F, which terminals obey (U+009B
    starts a control sequence), pass as they are.

    [client_program], [client_program_read]: the client with whole bodies and
    with bodies that arrive piece by piece (Main.v, ClientRead.v); [lines_of]: the
    lines, each with a line feed behind it; [tame_text]: SpecTame.v. *)
From Coq Require Import Lia.
From Verif Require Import Base BaseProofs Common Hasher Oprf OprfGroup Server Client KV Mutator Json ConfigJson Scanner Demo Flags Main ReadBody ReadConfig ClientRead
  SpecJson SpecWritten SpecMain SpecDemo SpecProtocol SpecTame JsonProofs JsonGrammar WrittenProofs Utf8Proofs PropWritten PropMain PropClientRead.
Local Open Scope N_scope.

Lemma tame_nil : tame_text []. Proof. exists []. repeat split; constructor. Qed.
Lemma tame_app a b : tame_text a -> tame_text b -> tame_text (a ++ b).
Proof.
  intros (ua & Sa & Ta & ->) (ub & Sb & Tb & ->). exists (ua ++ ub). split; [apply Forall_app; auto|]. split; [apply Forall_app; auto|]. symmetry. apply flat_map_app.
Qed.
Lemma tame_char u : scalar u -> tame u -> tame_text (utf8_char u).
Proof. intros S T. exists [u]. split; [auto|]. split; [auto|]. cbn. rewrite app_nil_r. reflexivity. Qed.
(** Printable ASCII without markup. *)
Definition plain_ascii (c : byte) : bool := (32 <=? bN c) && (bN c <? 127) && negb (existsb (N.eqb (bN c)) [60; 62; 38]).
Lemma tame_plain t : forallb plain_ascii t = true -> tame_text t.
Proof.
  induction t as [|c t IH]; intros H; [apply tame_nil|]. cbn [forallb] in H. apply andb_true_iff in H as [Hc Ht]. change (c :: t) with ([c] ++ t). apply tame_app; [|auto].
  unfold plain_ascii in Hc. apply andb_true_iff in Hc as [Hc Hm]. apply andb_true_iff in Hc as [Hl Hh]. apply N.leb_le in Hl. apply N.ltb_lt in Hh. apply negb_true_iff in Hm.
  assert (Ec : [c] = utf8_char (bN c)) by (rewrite (utf8_char_ascii (bN c)) by lia; rewrite nB_bN; reflexivity). rewrite Ec.
  apply tame_char; [left; lia|]. split; [exact Hl|]. intros I. cbn [existsb In] in *. rewrite !orb_false_iff, !N.eqb_neq in Hm. lia.
Qed.
Lemma tame_written u : scalar u -> tame_text (as_written u).
Proof.
  intros S. assert (K : forallb (fun v => forallb plain_ascii (u_escape v)) (8232 :: 8233 :: 60 :: 62 :: 38 :: map N.of_nat (seq 0 32)) = true) by (vm_compute; reflexivity).
  unfold as_written. destruct (find _ _) as [[k t]|] eqn:F.
  { apply find_some in F as [I _]. apply tame_plain. cbn [In] in I. repeat (destruct I as [I|I]; [injection I as <- <-; reflexivity|]). destruct I. }
  destruct ((u <? 32) || existsb (N.eqb u) [60; 62; 38; 8232; 8233]) eqn:E.
  - apply tame_plain. rewrite forallb_forall in K. apply (K u). apply orb_true_iff in E as [E|E].
    + apply N.ltb_lt in E. do 5 right. rewrite <- (N2Nat.id u). apply in_map, in_seq. lia.
    + cbn [existsb] in E. rewrite !orb_true_iff, !N.eqb_eq in E. destruct E as [E|[E|[E|[E|[E|E]]]]]; [rewrite E; cbn [In]; auto 10..|discriminate].
  - apply tame_char; [exact S|]. apply orb_false_iff in E as [E E']. apply N.ltb_ge in E. split; [exact E|]. intros I.
    assert (X : existsb (N.eqb u) [60; 62; 38; 8232; 8233] = true) by (apply existsb_exists; exists u; split; [exact I|apply N.eqb_refl]). congruence.
Qed.
Lemma tame_quoted s t : written s t -> tame_text (quoted t).
Proof.
  intros W. unfold quoted. apply tame_app; [apply tame_plain; reflexivity|]. apply tame_app; [|apply tame_plain; reflexivity].
  induction W as [|u s t S W IH|c s t B W IH]; [apply tame_nil| |]; (apply tame_app; [|exact IH]); [apply tame_written; exact S|apply tame_plain; reflexivity].
Qed.
Lemma written_exists s : exists t, written s t.
Proof. destruct (C90_text s) as (t & W & _). eauto. Qed.

(** ** One line, whatever the username, password and metadata are. *)
Theorem C93_line : forall (show : bool) (u p : bytes) (st : BreachStatus) (m : gslice), tame_text (client_output u (if show then p else []) st m).
Proof.
  intros show u p st m. destruct (written_exists u) as (tu & Wu), (written_exists p) as (tp & Wp), (written_exists (sl m)) as (tm & Wm).
  rewrite (C90_output_line show u p st m tu tp tm Wu Wp Wm).
  assert (S : tame_text (quoted (status_text st))) by (apply tame_plain; destruct st; reflexivity).
  apply tame_app; [apply tame_plain; reflexivity|]. apply tame_app; [exact (tame_quoted u tu Wu)|]. apply tame_app.
  { destruct show, p; try apply tame_nil. apply tame_app; [apply tame_plain; reflexivity|exact (tame_quoted _ tp Wp)]. }
  apply tame_app; [apply tame_plain; reflexivity|]. apply tame_app; [exact S|]. apply tame_app; [|apply tame_plain; reflexivity].
  destruct (sl m) eqn:M; [apply tame_nil|]. apply tame_app; [apply tame_plain; reflexivity|exact (tame_quoted _ tm Wm)].
Qed.
Print Assumptions C93_line.

Lemma lines_read_tame q show ls : forall i, Forall tame_text (fst (client_lines_read q show i ls)).
Proof.
  induction ls as [|l r IH]; intros i; cbn [client_lines_read]; [constructor|]. destruct (split_colon l) as [[u p]|]; [|apply IH].
  destruct (q i u p) as [[[st m]|e|m]|]; [|constructor..]. specialize (IH (S i)). destruct (client_lines_read q show (S i) r). cbn [fst] in *. constructor; [apply C93_line|exact IH].
Qed.
Lemma lines_tame q show ls : forall i, Forall tame_text (cr_stdout (client_lines q show i ls)).
Proof.
  induction ls as [|l r IH]; intros i; cbn [client_lines]; [constructor|]. destruct (split_colon l) as [[u p]|]; [|apply IH].
  destruct (q i u p) as [[st m]|e|m]; [|constructor..]. cbn [cr_stdout]. constructor; [apply C93_line|apply IH].
Qed.
Lemma tame_digits t : all_digits t = true -> tame_text t.
Proof.
  intros H. apply tame_plain. apply forallb_forall. intros c I. assert (D : is_digit c = true).
  { unfold all_digits in H. destruct t; [discriminate|]. rewrite forallb_forall in H. exact (H c I). }
  unfold is_digit in D. apply andb_true_iff in D as [A B]. apply N.leb_le in A, B. unfold plain_ascii. cbn [existsb].
  rewrite (proj2 (N.leb_le 32 (bN c))), (proj2 (N.ltb_lt (bN c) 127)) by lia. repeat (rewrite (proj2 (N.eqb_neq (bN c) _)) by lia). reflexivity.
Qed.
Lemma tame_config (c : Config) : tame_text (Config_marshal c).
Proof.
  assert (Z : forall z, tame_text (dec_Z z)).
  { intros z. unfold dec_Z. destruct (z <? 0)%Z; [change (Byte.x2d :: dec_N (Z.to_N (- z))) with ([Byte.x2d] ++ dec_N (Z.to_N (- z))); apply tame_app; [apply tame_plain; reflexivity|]|]; apply tame_digits, dec_all_digits. }
  assert (N_ : forall n, tame_text (dec_N n)) by (intros n; apply tame_digits, dec_all_digits).
  assert (F : forall fs, Forall (fun kv => tame_text (snd kv)) fs -> tame_text (json_fields fs)).
  { assert (Q : forall k, tame_text (json_quote k)) by (intros k; rewrite quote_eq; apply (tame_quoted k); apply written_quote; reflexivity).
    induction fs as [|[k v] r IH]; intros H; [apply tame_nil|]. inversion H as [|? ? Hv Hr]; subst. cbn [snd] in Hv. specialize (IH Hr). cbn [json_fields].
    destruct r as [|y r]; (apply tame_app; [apply Q|]); change (Byte.x3a :: ?x) with ([Byte.x3a] ++ x).
    - apply (tame_app [Byte.x3a] v); [apply tame_plain; reflexivity|exact Hv].
    - apply (tame_app [Byte.x3a] (v ++ Byte.x2c :: json_fields (y :: r))); [apply tame_plain; reflexivity|]. apply tame_app; [exact Hv|].
      apply (tame_app [Byte.x2c] (json_fields (y :: r))); [apply tame_plain; reflexivity|exact IH]. }
  unfold Config_marshal, json_struct. apply (tame_app [Byte.x7b] (json_fields (combine config_names (config_values c)) ++ [Byte.x7d])); [apply tame_plain; reflexivity|].
  apply tame_app; [|apply tame_plain; reflexivity]. apply F. unfold config_names, config_values. cbn [map combine]. repeat (constructor; [cbn [snd]; auto|]). constructor.
Qed.

(** ** All of standard output: lines of such text, or (with -dump-config) the
    configuration, also such text, without a line feed. *)
Theorem C93_output : forall (LIB : OPRF) (args : list bytes) (fs : files) (net : network) (blinds : nat -> Blind LIB),
  exists lines, Forall tame_text lines
    /\ (x_stdout (client_program args fs net blinds) = lines_of lines \/ [x_stdout (client_program args fs net blinds)] = lines).
Proof.
  intros LIB args fs net blinds. unfold client_program. destruct (client_flags args) as [o| |]; [|exists []; split; [constructor|left; reflexivity]..].
  unfold client_body. destruct (client_config o fs net) as [cfg|e|m]; [|exists []; split; [constructor|left; reflexivity]..].
  destruct (co_dump o); [exists [Config_marshal cfg]; split; [constructor; [apply tame_config|constructor]|right; reflexivity]|].
  unfold client_query. destruct (input_of fs (co_infile o)) as [input|]; [|exists []; split; [constructor|left; reflexivity]].
  eexists. split; [apply lines_tame|left; reflexivity].
Qed.
Print Assumptions C93_output.

(** The same at every moment, on a network that sends piece by piece. *)
Theorem C93_output_so_far : forall (grow : nat -> nat) (LIB : OPRF) (k : nat) (args : list bytes) (fs : files) (net : network_s) (blinds : nat -> Blind LIB),
  exists lines, Forall tame_text lines
    /\ (now_stdout (client_program_read grow k args fs net blinds) = lines_of lines \/ [now_stdout (client_program_read grow k args fs net blinds)] = lines).
Proof.
  intros grow LIB k args fs net blinds. unfold client_program_read. destruct (client_flags args) as [o| |]; [|exists []; split; [constructor|left; reflexivity]..].
  unfold client_body_read. destruct (client_config_read k o fs (ns_get net)) as [[cfg|e|m]|]; [|exists []; split; [constructor|left; reflexivity]..].
  destruct (co_dump o); [exists [Config_marshal cfg]; split; [constructor; [apply tame_config|constructor]|right; reflexivity]|].
  unfold client_query_read. destruct (input_of fs (co_infile o)) as [input|]; [|exists []; split; [constructor|left; reflexivity]].
  pose proof (lines_read_tame (fun i u p => Query_read grow k cfg (ns_post net) (co_target o ++ str "/evaluate") u p (blinds i)) (co_show o) (scan_lines input) 0%nat) as T.
  destruct (client_lines_read _ _ _ _) as [out last]. cbn [fst] in T. exists out. split; [exact T|left; reflexivity].
Qed.
Print Assumptions C93_output_so_far.

(** So nobody forges a line: there are as many line feeds as lines. *)
Lemma scalar_bytes u c : scalar u -> 32 <= u -> In c (utf8_char u) -> 32 <= bN c.
Proof.
  intros S L I. destruct (N.ltb_spec u 128) as [A|A].
  - rewrite utf8_char_ascii in I by exact A. destruct I as [<-|[]]. rewrite bN_nB_small by lia. exact L.
  - unfold utf8_char in I. rewrite (proj2 (N.ltb_ge u 128) A) in I.
    assert (M : forall x k, k <> 0 -> x mod k < k) by (intros; apply N.mod_lt; assumption).
    assert (R : forall x, 128 <= x -> x < 256 -> 32 <= bN (nB x)) by (intros x X1 X2; rewrite bN_nB_small by exact X2; lia).
    unfold scalar in S.
    assert (D1 : u / 64 < 32 \/ 2048 <= u) by (destruct (N.ltb_spec u 2048); [left; apply N.div_lt_upper_bound; lia|right; lia]).
    assert (D2 : u / 4096 < 16 \/ 65536 <= u) by (destruct (N.ltb_spec u 65536); [left; apply N.div_lt_upper_bound; lia|right; lia]).
    assert (D3 : u / 262144 < 8) by (apply N.div_lt_upper_bound; lia).
    pose proof (M u 64 ltac:(lia)). pose proof (M (u / 64) 64 ltac:(lia)). pose proof (M (u / 4096) 64 ltac:(lia)).
    destruct (N.ltb_spec u 2048); [|destruct (N.ltb_spec u 65536)]; cbn [map In] in I; repeat (destruct I as [<-|I]; [apply R; lia|]); destruct I.
Qed.
Theorem C93_no_forged_lines : forall (t : bytes), tame_text t -> forall c, In c t -> (32 <= bN c)%N.
Proof.
  intros t (us & S & T & ->) c I. apply in_flat_map in I as (u & Iu & Ic). rewrite Forall_forall in S, T. eapply scalar_bytes; [exact (S u Iu)|apply (T u Iu)|exact Ic].
Qed.
Print Assumptions C93_no_forged_lines.

(** ** Finding: the other control characters are not escaped.  Metadata (chosen by
    whoever fills the buckets) of text without quotes and backslashes is printed
    as it is, with DEL and U+0080 to U+009F in it. *)
Theorem C93_terminal_controls_refuted : forall (show : bool) (u p t : bytes) (st : BreachStatus), shown_as_is t -> t <> [] ->
  exists before, client_output u (if show then p else []) st (Some t) = before ++ str ",""metadata"":""" ++ t ++ str """}".
Proof.
  intros show u p t st (us & S & T & E) NE. destruct (written_exists u) as (tu & Wu), (written_exists p) as (tp & Wp).
  assert (W : written t t).
  { subst t. clear NE. induction us as [|v us IH]; [constructor|]. inversion S; subst. inversion T as [|? ? [[T1 T2] [T3 T4]] Tr]; subst. cbn [flat_map].
    assert (A : as_written v = utf8_char v).
    { unfold as_written. cbn [find fst]. rewrite (proj2 (N.eqb_neq 34 v)), (proj2 (N.eqb_neq 92 v)), (proj2 (N.eqb_neq 10 v)), (proj2 (N.eqb_neq 13 v)), (proj2 (N.eqb_neq 9 v)) by lia.
      rewrite (proj2 (N.ltb_ge v 32) T1). cbn [orb]. destruct (existsb (N.eqb v) _) eqn:X; [|reflexivity].
      exfalso. apply existsb_exists in X as (x & Ix & Q). apply N.eqb_eq in Q. subst x. exact (T2 Ix). }
    rewrite <- A at 2. constructor; [assumption|]. apply IH; assumption. }
  rewrite (C90_output_line show u p st (Some t) tu tp t Wu Wp W). cbn [sl]. destruct t as [|c r]; [contradiction|].
  assert (E0 : (str ",""metadata"":" ++ quoted (c :: r)) ++ str "}" = str ",""metadata"":""" ++ (c :: r) ++ str """}").
  { unfold quoted. rewrite <- !app_assoc. reflexivity. }
  rewrite E0. remember (str ",""metadata"":""" ++ (c :: r) ++ str """}") as tail eqn:Et. clear Et E0.
  remember (str "{""username"":" ++ quoted tu ++ (if show then match p with [] => [] | _ => str ",""password"":" ++ quoted tp end else []) ++ str ",""status"":" ++ quoted (status_text st)) as front eqn:Ef.
  exists front. rewrite Ef. rewrite <- !app_assoc. reflexivity.
Qed.
Print Assumptions C93_terminal_controls_refuted.

(** ** Cases.  Metadata that try to end the line and begin another, and
    metadata that a terminal obeys (CSI 2 J clears the screen), from a server that
    was started with them. *)
Definition evil_run (metadata : bytes) : bytes :=
  match @server_program toy_OPRF (map str ["-config=c.json"; "-metadata"]%string ++ [metadata]) ex_sfs (Err "unused") with
  | SServing _ srv _ _ => x_stdout (@client_program toy_OPRF ex_cargs (mkFiles (fun _ => Some (str "alice:hello")) []) (behind srv (str "localhost:8080")) (fun _ => 5%N))
  | SExit _ _ => []
  end.
Example C93_example :
  evil_run (str "x""}" ++ [Byte.x0d; Byte.x0a] ++ str "{""username"":""<b>")
  = str "{""username"":""alice"",""password"":""hello"",""status"":""password in breach"",""metadata"":""x\""}\r\n{\""username\"":\""\u003cb\u003e""}" ++ [Byte.x0a]
  /\ evil_run [Byte.xc2; Byte.x9b; Byte.x32; Byte.x4a; Byte.x7f]
     = str "{""username"":""alice"",""password"":""hello"",""status"":""password in breach"",""metadata"":""" ++ [Byte.xc2; Byte.x9b; Byte.x32; Byte.x4a; Byte.x7f] ++ str """}" ++ [Byte.x0a]
  /\ shown_as_is [Byte.xc2; Byte.x9b; Byte.x32; Byte.x4a; Byte.x7f].
Proof.
  split; [vm_compute; reflexivity|]. split; [vm_compute; reflexivity|]. exists [155; 50; 74; 127]. split; [repeat constructor|].
  split; [|reflexivity]. repeat (constructor; [split; [split; [lia|intros I; cbn [In] in I; lia]|lia]|]). constructor.
Qed.
