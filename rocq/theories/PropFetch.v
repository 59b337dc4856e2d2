(** * Property C91: the configuration page piece by piece.  The client reads
    /config with a json.Decoder, which looks at each piece as it arrives and
    returns as soon as the first JSON value is complete: what comes later is
    never read, and the server need not end the body.  How the page is cut into
    pieces does not matter, a page that cannot become JSON is refused with the
    piece that shows it, and a connection that breaks before the value is
    complete gives an error.  But a server that goes on sending white space,
    or anything unfinished, keeps the client waiting for ever.

    [s : stream]: what the server sends, piece after piece, [first_pieces s n]
    the bytes of the first n; [Decode n s]: what Decode has returned after n
    reads, [None] while it waits; [unfinished b]: b needs more to be JSON (or
    it is a text whose end only shows in what follows); [begins_with b j rest]: b
    begins with the JSON text of j.  See SpecFetch.v, SpecRead.v, ReadConfig.v. *)
From Coq Require Import Lia.
From Verif Require Import Base BaseProofs Common Hasher Oprf OprfGroup Server Client Json JsonGrammar ConfigJson Demo Main ReadBody ReadConfig SpecJson SpecRead SpecFetch CutProofs FetchProofs.

(** ** When it waits: exactly while the body goes on and is unfinished. *)
Theorem C91_waits : forall (s : stream) (n : nat),
  Decode n s = None <-> (forall i, (i < n)%nat -> a_end (s i) = None) /\ unfinished (first_pieces s n).
Proof. intros s n. apply decode_none. Qed.
Print Assumptions C91_waits.

(** ** What it returns, with the first piece that ends the wait: the error of
    the connection, or what the bytes so far decode to ([Config_decode], of
    which the other properties speak).  In the second case the body ended with them;
    in the third they decode to the same whatever follows. *)
Theorem C91_returns : forall (s : stream) (n : nat) (r : res Config), Decode n s = Some r ->
  exists m, (m < n)%nat /\ Decode m s = None
    /\ ((exists e, a_end (s m) = Some (Failed e) /\ r = Err e /\ unfinished (first_pieces s (S m)))
        \/ (a_end (s m) = Some EOF /\ same_outcome r (Config_decode 64 (first_pieces s (S m))))
        \/ (~ unfinished (first_pieces s (S m)) /\ forall rest, same_outcome r (Config_decode 64 (first_pieces s (S m) ++ rest)))).
Proof.
  intros s n r H. destruct (loop_some n 0 s top r eq_refl H) as (m & sc & L & A & S & O). exists m. split; [exact L|]. split.
  - apply decode_none. split; [intros i Li; apply A; lia|]. apply partial_unfinished. eauto.
  - destruct (outcome_cases s m sc r S O) as [X|[(E & _ & X)|X]]; auto.
Qed.
Print Assumptions C91_returns.

(** It has read no piece behind that one, and later pieces change nothing. *)
Theorem C91_reads_no_further : forall (s s' : stream) (n n' : nat) (r : res Config),
  (forall i, (i < n)%nat -> s' i = s i) -> (n <= n')%nat -> Decode n s = Some r -> Decode n' s' = Some r.
Proof.
  intros s s' n n' r E L H. eapply decode_more; [|exact L]. rewrite <- H. unfold Decode.
  assert (K : forall k i buf sc, (i + k <= n)%nat -> decode_loop k i s' buf sc = decode_loop k i s buf sc).
  { induction k as [|k IH]; intros i buf sc Li; [reflexivity|]. cbn [decode_loop]. rewrite E by lia.
    destruct (scan sc (a_data (s i))); [reflexivity| |reflexivity]. destruct (a_end (s i)) as [[|e]|]; [reflexivity..|]. apply IH. lia. }
  apply K. lia.
Qed.
Print Assumptions C91_reads_no_further.

(** ** An object (or array) is enough: whether the body goes on, ends or
    breaks behind it, and wherever it was cut. *)
Theorem C91_object_is_enough : forall (s : stream) (m : nat) (j : json) (rest : bytes),
  (forall i, (i < m)%nat -> a_end (s i) = None) -> begins_with (first_pieces s (S m)) j rest -> bracketed j ->
  forall n, (m < n)%nat -> exists r, Decode n s = Some r /\ same_outcome r (Config_decode 64 (first_pieces s (S m))).
Proof.
  intros s m j rest A (w & x & E & W & J & D) B n L.
  assert (V : scan top (first_pieces s (S m)) = Value (length (w ++ x))) by (rewrite E; apply bracketed_value with (j := j); assumption).
  destruct (Decode (S m) s) as [r|] eqn:Q.
  2:{ exfalso. apply decode_none in Q as [_ U]. apply partial_unfinished in U as (x' & X). congruence. }
  exists r. split; [eapply decode_more; [exact Q|lia]|].
  destruct (loop_some (S m) 0 s top r eq_refl Q) as (i & sc & Li & Ai & Si & O).
  assert (P : exists t, first_pieces s (S m) = first_pieces s (S i) ++ t).
  { clear - Li. assert (G : forall d, exists t, first_pieces s (S i + d) = first_pieces s (S i) ++ t).
    { induction d as [|d (t & T)]; [exists []; rewrite Nat.add_0_r, app_nil_r; reflexivity|]. exists (t ++ a_data (s (S i + d)%nat)). rewrite Nat.add_succ_r, first_pieces_S, T, <- app_assoc. reflexivity. }
    destruct (G (m - i)%nat) as (t & T). exists t. rewrite <- T. f_equal. lia. }
  destruct P as (t & P). destruct (outcome_cases s i sc r Si O) as [(e & F & _ & U)|[(F & U & X)|(_ & X)]].
  - assert (i = m) as -> by (destruct (Nat.eq_dec i m); [assumption|]; rewrite A in F by lia; discriminate).
    exfalso. apply partial_unfinished in U as (x' & U). congruence.
  - assert (i = m) as -> by (destruct (Nat.eq_dec i m); [assumption|]; rewrite A in F by lia; discriminate). exact X.
  - rewrite P. apply X.
Qed.
Print Assumptions C91_object_is_enough.

(** So the client can start before the server has ended the body, with the
    very configuration that was sent. *)
Theorem C91_configuration_arrives : forall (s : stream) (m : nat) (c c' : Config) (rest : bytes),
  (forall i, (i < m)%nat -> a_end (s i) = None) -> first_pieces s (S m) = Config_marshal c ++ rest ->
  Config_decode 64 (Config_marshal c) = Ok c' -> forall n, (m < n)%nat -> Decode n s = Some (Ok c').
Proof.
  intros s m c c' rest A E H n L. destruct (config_accepted c) as (ms & (w & x & w' & Eq & W & J & W') & D).
  assert (Bw : begins_with (first_pieces s (S m)) (JObj ms) (w' ++ rest)) by (exists w, x; rewrite E, Eq, <- !app_assoc; auto).
  destruct (C91_object_is_enough s m _ _ A Bw) with (n := n) as (r & Q & R); [right; eauto|exact L|]. rewrite Q. f_equal.
  assert (K : scan top (Config_marshal c) = Value (length (w ++ x))).
  { rewrite Eq. eapply bracketed_value; [exact W|exact J|exact D|right; eauto]. }
  pose proof (value_decode _ _ rest K) as V. pose proof (value_decode _ _ [] K) as V0. rewrite app_nil_r, H in V0.
  destruct (Config_decode 64 (firstn (length (w ++ x)) (Config_marshal c))) as [c2|e|p]; [|contradiction..]. cbn in V0. subst c2.
  rewrite E in R. destruct (Config_decode 64 (Config_marshal c ++ rest)) as [c3|e|p]; [|contradiction..]. cbn in V. subst c3.
  destruct r as [c4|e|p]; cbn in R; [congruence|contradiction..].
Qed.
Print Assumptions C91_configuration_arrives.

(** ** A body that ends: what the whole of it decodes to, in whatever pieces
    it came. *)
Theorem C91_whole_body : forall (s : stream) (m : nat), ends_at s m EOF ->
  forall n, (m < n)%nat -> exists r, Decode n s = Some r /\ same_outcome r (Config_decode 64 (first_pieces s (S m))).
Proof.
  intros s m [F A] n L. destruct (Decode (S m) s) as [r|] eqn:Q.
  2:{ exfalso. apply decode_none in Q as [Q _]. rewrite Q in F by lia. discriminate. }
  exists r. split; [eapply decode_more; [exact Q|lia]|].
  destruct (loop_some (S m) 0 s top r eq_refl Q) as (i & sc & Li & Ai & Si & O).
  destruct (outcome_cases s i sc r Si O) as [(e & F' & _ & U)|[(F' & U & X)|(_ & X)]].
  - destruct (Nat.eq_dec i m) as [->|NE]; [rewrite F in F'; discriminate|rewrite A in F' by lia; discriminate].
  - destruct (Nat.eq_dec i m) as [->|NE]; [exact X|rewrite A in F' by lia; discriminate].
  - assert (G : forall d, exists t, first_pieces s (S i + d) = first_pieces s (S i) ++ t).
    { induction d as [|d (t & T)]; [exists []; rewrite Nat.add_0_r, app_nil_r; reflexivity|]. exists (t ++ a_data (s (S i + d)%nat)). rewrite Nat.add_succ_r, first_pieces_S, T, <- app_assoc. reflexivity. }
    destruct (G (m - i)%nat) as (t & T). replace (S i + (m - i))%nat with (S m) in T by lia. rewrite T. apply X.
Qed.
Print Assumptions C91_whole_body.

(** The client program, up to its configuration, with bodies that end. *)
Theorem C91_client : forall (o : client_opts) (fs : files) (net : network) (get : bytes -> res (N * stream)),
  (forall url, match get url with
               | Ok (code, s) => exists m, ends_at s m EOF /\ n_get net url = Ok (code, first_pieces s (S m))
               | Err e => n_get net url = Err e
               | Panic p => n_get net url = Panic p
               end) ->
  exists k0, forall k, (k0 <= k)%nat -> exists r, client_config_read k o fs get = Some r /\ same_outcome r (client_config o fs net).
Proof.
  intros o fs net get H. unfold client_config_read, client_config. destruct (co_config o) as [|x name].
  2:{ exists 0%nat. intros k _. destruct (f_open fs (x :: name)) as [data|]; (eexists; split; [reflexivity|]); [|exact I]. destruct (Config_unmarshal 64 data); cbn; auto. }
  specialize (H (co_target o ++ str "/config")). destruct (get (co_target o ++ str "/config")) as [[code s]|e|p].
  2,3: exists 0%nat; intros k _; eexists; split; [reflexivity|]; rewrite H; cbn; auto.
  destruct H as (m & E & ->). cbn [bind]. destruct (negb (code =? 200)%N); [exists 0%nat; intros k _; eexists; split; [reflexivity|exact I]|].
  exists (S m). intros k L. destruct (C91_whole_body s m E k) as (r & Q & R); [lia|]. exists r. auto.
Qed.
Print Assumptions C91_client.

(** ** A body that cannot become JSON is refused with the piece that shows it. *)
Theorem C91_hopeless : forall (s : stream) (m : nat), (forall i, (i < m)%nat -> a_end (s i) = None) -> hopeless (first_pieces s (S m)) ->
  forall n, (m < n)%nat -> exists e, Decode n s = Some (Err e).
Proof.
  intros s m A Ho n L. pose proof (hopeless_wrong _ Ho) as Wr. destruct (Decode (S m) s) as [r|] eqn:Q.
  2:{ exfalso. apply decode_none in Q as [_ U]. apply partial_unfinished in U as (x' & X). congruence. }
  rewrite (decode_more _ n _ _ Q) by lia. destruct (loop_some (S m) 0 s top r eq_refl Q) as (i & sc & Li & Ai & Si & O).
  destruct (outcome_cases s i sc r Si O) as [(e & F' & -> & U)|[(F' & U & X)|(NU & X)]]; [eauto|exfalso|].
  - assert (i = m) as -> by (destruct (Nat.eq_dec i m); [assumption|]; rewrite A in F' by lia; discriminate).
    apply partial_unfinished in U as (x' & U). congruence.
  - assert (G : forall d, exists t, first_pieces s (S i + d) = first_pieces s (S i) ++ t).
    { induction d as [|d (t & T)]; [exists []; rewrite Nat.add_0_r, app_nil_r; reflexivity|]. exists (t ++ a_data (s (S i + d)%nat)). rewrite Nat.add_succ_r, first_pieces_S, T, <- app_assoc. reflexivity. }
    destruct (G (m - i)%nat) as (t & T). replace (S i + (m - i))%nat with (S m) in T by lia. specialize (X t). rewrite <- T in X.
    destruct (wrong_decode _ [] Wr) as (e & We). rewrite app_nil_r in We. rewrite We in X. destruct r as [c|e'|p]; [contradiction|eauto|contradiction].
Qed.
Print Assumptions C91_hopeless.

(** ** A connection that breaks before the value is complete. *)
Theorem C91_broken_connection : forall (s : stream) (m : nat) (e : string), ends_at s m (Failed e) -> unfinished (first_pieces s (S m)) ->
  forall n, (m < n)%nat -> Decode n s = Some (Err e).
Proof.
  intros s m e [F A] U n L. destruct (Decode (S m) s) as [r|] eqn:Q.
  2:{ exfalso. apply decode_none in Q as [Q _]. rewrite Q in F by lia. discriminate. }
  rewrite (decode_more _ n _ _ Q) by lia. destruct (loop_some (S m) 0 s top r eq_refl Q) as (i & sc & Li & Ai & Si & O).
  destruct (outcome_cases s i sc r Si O) as [(e' & F' & -> & _)|[(F' & _ & X)|(NU & X)]].
  - destruct (Nat.eq_dec i m) as [->|NE]; [congruence|rewrite A in F' by lia; discriminate].
  - destruct (Nat.eq_dec i m) as [->|NE]; [rewrite F in F'; discriminate|rewrite A in F' by lia; discriminate].
  - exfalso. apply NU. assert (G : forall d, exists t, first_pieces s (S i + d) = first_pieces s (S i) ++ t).
    { induction d as [|d (t & T)]; [exists []; rewrite Nat.add_0_r, app_nil_r; reflexivity|]. exists (t ++ a_data (s (S i + d)%nat)). rewrite Nat.add_succ_r, first_pieces_S, T, <- app_assoc. reflexivity. }
    destruct (G (m - i)%nat) as (t & T). replace (S i + (m - i))%nat with (S m) in T by lia. rewrite T in U. eapply unfinished_prefix. exact U.
Qed.
Print Assumptions C91_broken_connection.

(** ** Finding: nothing bounds the wait.  White space for ever is enough. *)
Theorem C91_no_timeout_refuted : forall (s : stream), endless s -> (forall i, json_space (a_data (s i))) ->
  (forall n, Decode n s = None)
  /\ forall (o : client_opts) (fs : files) (get : bytes -> res (N * stream)),
       co_config o = [] -> get (co_target o ++ str "/config") = Ok (200%N, s) -> forall n, client_config_read n o fs get = None.
Proof.
  intros s E Sp. assert (D : forall n, Decode n s = None).
  { intros n. apply decode_none. split; [intros i _; apply E|]. exists (str "null"), JNull. split.
    - exists (first_pieces s n), (str "null"). split; [rewrite app_nil_r; reflexivity|]. split; [|split; [constructor|cbn; lia]].
      unfold first_pieces. intros c I. apply in_concat in I as (p & Ip & Ic). apply in_map_iff in Ip as (i & <- & _). exact (Sp i c Ic).
    - left. discriminate. }
  split; [exact D|]. intros o fs get C G n. unfold client_config_read. rewrite C, G. cbn [negb N.eqb Pos.eqb]. apply D.
Qed.
Print Assumptions C91_no_timeout_refuted.

(** So is a string without end. *)
Theorem C91_endless_string_refuted : forall (s : stream), endless s ->
  a_data (s 0%nat) = str "{""" -> (forall i c, (0 < i)%nat -> In c (a_data (s i)) -> (32 <= bN c)%N /\ c <> Byte.x22 /\ c <> Byte.x5c) ->
  forall n, Decode n s = None.
Proof.
  intros s E E0 C n. apply decode_none. split; [intros i _; apply E|]. apply partial_unfinished. destruct n as [|n]; [eexists; reflexivity|].
  exists (InString, [ObjKey]). induction n as [|n IH]; [unfold first_pieces; cbn [seq map concat]; rewrite E0; reflexivity|].
  rewrite first_pieces_S, scan_app, IH.
  assert (G : goes (InString, [ObjKey]) (a_data (s (S n))) (InString, [ObjKey])); [|unfold goes in G; rewrite G; reflexivity].
  apply goes_lex. pose proof (fun c => C (S n) c ltac:(lia)) as K. clear - K. induction (a_data (s (S n))) as [|c l IHl]; [constructor|].
  destruct (K c (or_introl eq_refl)) as (A & B & D). apply lx_plain; [exact A| | |apply IHl; intros x I; apply K; right; exact I].
  - intros Q. apply B. rewrite <- (nB_bN c), Q. reflexivity.
  - intros Q. apply D. rewrite <- (nB_bN c), Q. reflexivity.
Qed.
Print Assumptions C91_endless_string_refuted.

(** ** Cases.  The default configuration cut in the middle of a name, then
    half of something else, then silence: Decode waits after two pieces and has
    returned after three. *)
Definition page : bytes := Config_marshal DefaultConfig.
Definition slow (i : nat) : arrival :=
  match i with
  | 0 => mkArrival (firstn 7 page) None
  | 1 => mkArrival (firstn 20 (skipn 7 page)) None
  | 2 => mkArrival (skipn 27 page ++ str "  {""ver") None
  | _ => mkArrival [] None
  end.
Example slow_page : Decode 2 slow = None /\ Decode 3 slow = Some (Ok DefaultConfig) /\ Decode 9 slow = Some (Ok DefaultConfig).
Proof. repeat split; vm_compute; reflexivity. Qed.
Example slow_page_by_theorem : forall n, (2 < n)%nat -> Decode n slow = Some (Ok DefaultConfig).
Proof.
  apply (C91_configuration_arrives slow 2 DefaultConfig DefaultConfig (str "  {""ver")); [|vm_compute; reflexivity|vm_compute; reflexivity].
  intros [|[|i]] L; [reflexivity|reflexivity|lia].
Qed.
(** Garbage is refused with its first byte; half an object and a broken line;
    half an object and the end. *)
Definition once (b : bytes) (e : option ending) (i : nat) : arrival := match i with 0 => mkArrival b e | _ => mkArrival [] None end.
Example refusals :
  Decode 1 (once (str "<html>") None) = Some (Err "invalid character")
  /\ Decode 1 (once (str "{""version"":1,") (Some (Failed "connection reset"))) = Some (Err "connection reset")
  /\ Decode 1 (once (str "{""version"":1,") (Some EOF)) = Some (Err "unexpected EOF")
  /\ Decode 1 (once (str " ") (Some EOF)) = Some (Err "EOF")
  /\ Decode 1 (once (str "{} trailing") (Some (Failed "connection reset"))) = Some (Ok zeroConfig)
  /\ Decode 1 (once (str "null") None) = None /\ Decode 1 (once (str "null ") None) = Some (Ok zeroConfig).
Proof. repeat split; vm_compute; reflexivity. Qed.
Example hopeless_case : hopeless (str "<html>").
Proof.
  intros more j rest (w & x & E & W & J & _). apply (f_equal skip_ws) in E. rewrite (skip_to_text w x j rest W J) in E.
  destruct (text_head x j J) as (c & r & -> & O). cbn in E. injection E as <- _.
  remember (Byte.x3c :: r) as t eqn:T. destruct J; try discriminate T.
  destruct (number_head _ H) as (c' & r' & -> & C). injection T as -> _. discriminate C.
Qed.
Example hopeless_refused : exists e, Decode 5 (once (str "<html>") None) = Some (Err e).
Proof. apply (C91_hopeless (once (str "<html>") None) 0); [intros i L; lia|exact hopeless_case|lia]. Qed.
Example endless_space : forall n, Decode n (fun _ => mkArrival (str " ") None) = None.
Proof.
  apply C91_no_timeout_refuted; [intros i; reflexivity|]. intros i c [<-|[]]. left. reflexivity.
Qed.
(** Half an object is unfinished, so a connection that breaks behind it gives its error. *)
Example half_object : unfinished (str "{""version"":1,").
Proof. apply partial_unfinished. eexists. vm_compute. reflexivity. Qed.
Example half_object_broken : forall n, (0 < n)%nat -> Decode n (once (str "{""version"":1,") (Some (Failed "connection reset"))) = Some (Err "connection reset"%string).
Proof. apply (C91_broken_connection (once (str "{""version"":1,") (Some (Failed "connection reset"))) 0); [split; [reflexivity|intros i L; lia]|exact half_object]. Qed.
