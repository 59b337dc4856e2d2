(** * Property C92: the client program whose server sends piece by piece.  What
    the other properties say of the client (with whole pages and answers) holds of the
    client whose network delivers pieces: once everything it reads has arrived it
    has done the same; if it has ended, it has done what it would have done with
    what arrived; what it has written it never takes back.  But a server decides
    when the client ends: one answer that does not end, to any of the
    queries, keeps it for ever, with the earlier lines written.

    [client_program_read grow k args fs net blinds]: the client on the network
    [net] after k rounds of reading for each body: what it has written, and its
    exit status if it has ended.  [client_program]: the same with whole bodies (Main.v).
    [whole_get], [whole_post]: what a body comes to (SpecClientRead.v). *)
From Coq Require Import Lia.
From Verif Require Import Base BaseProofs Common Hasher Oprf OprfGroup Server Client KV Mutator Json ConfigJson Scanner Url Demo Flags Main ReadBody ReadConfig ClientRead
  SpecEntry SpecProtocol SpecDemo SpecHttp SpecMain SpecJson SpecRead SpecFetch SpecClientRead ReadProofs FetchProofs ClientReadProofs DemoProofs FlagsProofs MainProofs PropFinalize PropProtocol PropMain.

(** ** Once what it reads has arrived, it has done what Main.v says. *)
Theorem C92_arrived : forall (grow : nat -> nat), grows grow ->
  forall (LIB : OPRF) (args : list bytes) (fs : files) (net : network_s) (net' : network) (blinds : nat -> Blind LIB),
  (forall url, whole_get (ns_get net url) (n_get net' url)) ->
  (forall url payload, whole_post (ns_post net url payload) (n_post net' url payload)) ->
  exists k0, forall k, (k0 <= k)%nat -> client_program_read grow k args fs net blinds = over_with (client_program args fs net' blinds).
Proof.
  intros grow G LIB args fs net net' blinds Hg Hp. unfold client_program_read, client_program. destruct (client_flags args) as [o| |]; [|exists 0%nat; reflexivity..].
  unfold client_body_read, client_body.
  assert (C : exists k0, forall k, (k0 <= k)%nat -> exists r, client_config_read k o fs (ns_get net) = Some r /\ same_outcome r (client_config o fs net')).
  { unfold client_config_read, client_config. destruct (co_config o) as [|x name].
    2:{ exists 0%nat. intros k _. destruct (f_open fs (x :: name)) as [data|]; (eexists; split; [reflexivity|]); [|exact I]. destruct (Config_unmarshal 64 data); cbn; auto. }
    specialize (Hg (co_target o ++ str "/config")). destruct (ns_get net (co_target o ++ str "/config")) as [[code s]|e|p]; destruct (n_get net' (co_target o ++ str "/config")) as [[code' b]|e'|p']; cbn in Hg; try contradiction; cbn [bind].
    - destruct Hg as [<- Hg]. destruct (N.eqb_spec code 200) as [->|NE]; cbn [negb]; [|exists 0%nat; intros k _; eexists; split; [reflexivity|exact I]].
      exact (decode_page s b (Hg eq_refl)).
    - destruct Hg as [-> Hg]. cbn [N.eqb Pos.eqb negb]. destruct (decode_broken s Hg) as (n & e & D). exists n. intros k L. exists (Err e). split; [apply D; exact L|exact I].
    - exists 0%nat. intros k _. eexists. split; [reflexivity|exact I].
    - exists 0%nat. intros k _. eexists. split; [reflexivity|exact Hg]. }
  destruct C as (k0 & C). destruct (client_config o fs net') as [cfg|e|p].
  2,3: exists k0; intros k L; destruct (C k L) as (r & -> & R); destruct r; cbn in R; try contradiction; reflexivity.
  destruct (co_dump o) eqn:D.
  { exists k0. intros k L. destruct (C k L) as (r & -> & R). destruct r; cbn in R; try contradiction. subst. reflexivity. }
  unfold client_query_read, client_query. destruct (input_of fs (co_infile o)) as [input|].
  2:{ exists k0. intros k L. destruct (C k L) as (r & -> & R). destruct r; cbn in R; try contradiction. reflexivity. }
  set (q := fun i u p => Query cfg (n_post net') (co_target o ++ str "/evaluate") u p (blinds i)).
  set (q' := fun k i u p => Query_read grow k cfg (ns_post net) (co_target o ++ str "/evaluate") u p (blinds i)).
  destruct (lines_exist q q' (fun _ _ _ => []) (fun _ => True) (co_show o) (scan_lines input)) with (i := 0%nat) as (k1 & K1).
  { intros i u p _. apply query_whole; [exact G|]. intros payload _. apply Hp. }
  { intros; exact I. }
  exists (Nat.max k0 k1). intros k L. destruct (C k) as (r & -> & R); [lia|]. destruct r as [c0|e0|p0]; cbn in R; try contradiction. subst c0.
  specialize (K1 k ltac:(lia)). unfold q' in K1. unfold client_main. change (fun i u p => Query cfg (n_post net') (co_target o ++ str "/evaluate") u p (blinds i)) with q.
  rewrite K1. unfold over_with. cbn [x_status x_stdout]. destruct (cr_panic (client_lines q (co_show o) 0 (scan_lines input))), (cr_error (client_lines q (co_show o) 0 (scan_lines input))); reflexivity.
Qed.
Print Assumptions C92_arrived.

(** ** So the client reports what the breach file contains (C44) in whatever
    pieces the pages and answers of the server come. *)
Theorem C92_end_to_end : forall (grow : nat -> nat), grows grow ->
  forall (LIB : OPRF), OPRF_laws LIB ->
  forall (sargs : list bytes) (sfs : files) (gen : res (PrivateKey LIB)) (addr : bytes) (srv : server LIB) (ok bad : N) (so : server_opts) (breach : bytes),
  server_program sargs sfs gen = SServing addr srv ok bad ->
  server_flags sargs = FParsed so -> given sfs (so_infile so) breach ->
  let cfg := sc_config (Server_Config (migpServer srv)) in
  let ops := breach_ops (so_metadata so) (so_num so) (so_username so) (with_colon (scan_lines breach)) in
  let db := stored_by (migpServer srv) ops in
  client_suite LIB 3 = Ok tt -> cfg_oprfSuite cfg = 3%N -> (0 <= cfg_bits cfg <= 32)%Z -> kv_holdable (kv srv) ->
  forall (cargs : list bytes) (cfs : files) (co : client_opts) (host queries : bytes) (blinds : nat -> Blind LIB),
  client_flags cargs = FParsed co -> plain_host host -> co_target co = str "http://" ++ host -> co_config co = [] -> co_dump co = false -> given cfs (co_infile co) queries ->
  (forall u p, In (u, p) (with_colon (scan_lines queries)) ->
     (exists k, deriveBucketEntryKey (migpServer srv) u p = Ok k) /\ no_collision (migpServer srv) (tried ops) u p) ->
  forall (net : network_s),
  (forall url, whole_get (ns_get net url) (n_get (behind srv host) url)) ->
  (forall url payload, whole_post (ns_post net url payload) (n_post (behind srv host) url payload)) ->
  exists k0 lines, (forall k, (k0 <= k)%nat -> client_program_read grow k cargs cfs net blinds = mkClientState (Some 0%N) (lines_of lines))
    /\ Forall2 (fun c line => reports (co_show co) (fst c) (snd c) (expected db (fst c) (snd c)) line) (with_colon (scan_lines queries)) lines.
Proof.
  intros grow G LIB laws sargs sfs gen addr srv ok bad so breach P F I cfg ops db S O B K cargs cfs co host queries blinds Fc Ph T Cc D Gq A net Hg Hp.
  destruct (C44_end_to_end_with_refused_lines LIB laws sargs sfs gen addr srv ok bad so breach P F I S O B K cargs cfs co host queries blinds Fc Ph T Cc D Gq A) as (lines & E & R).
  destruct (C92_arrived grow G LIB cargs cfs net (behind srv host) blinds Hg Hp) as (k0 & H). exists k0, lines. split; [|exact R].
  intros k L. rewrite (H k L), E. reflexivity.
Qed.
Print Assumptions C92_end_to_end.

(** ** If it has ended, it has done what Main.v says of what arrived: of the
    page of the configuration and of the answers to what was posted. *)
Theorem C92_ended : forall (grow : nat -> nat), grows grow ->
  forall (LIB : OPRF) (k : nat) (args : list bytes) (o : client_opts) (fs : files) (net : network_s) (blinds : nat -> Blind LIB) (status : N) (out : bytes),
  client_flags args = FParsed o -> client_program_read grow k args fs net blinds = mkClientState (Some status) out ->
  exists net' : network, client_program args fs net' blinds = mkClientResult status out
    /\ (forall r, client_config_read k o fs (ns_get net) = Some r -> same_outcome r (client_config o fs net'))
    /\ (co_config o = [] -> let url := co_target o ++ str "/config" in whole_get (ns_get net url) (n_get net' url))
    /\ (forall cfg payload, client_config o fs net' = Ok cfg -> co_dump o = false -> In payload (client_posts o fs net' cfg blinds) ->
          let url := co_target o ++ str "/evaluate" in whole_post (ns_post net url payload) (n_post net' url payload)).
Proof.
  intros grow G LIB k args o fs net blinds status out F H. unfold client_program_read in H. unfold client_program. rewrite F in *. unfold client_body_read in H.
  destruct (client_config_read k o fs (ns_get net)) as [r|] eqn:C; [|discriminate].
  assert (K : exists get', (co_config o = [] -> let url := co_target o ++ str "/config" in whole_get (ns_get net url) (get' url))
                /\ forall post', same_outcome r (client_config o fs (mkNetwork get' post'))).
  { unfold client_config_read in C. unfold client_config. destruct (co_config o) as [|x name].
    2:{ exists (fun _ => Err ""). split; [discriminate|]. intros _. destruct (f_open fs (x :: name)) as [data|]; injection C as <-; [|exact I]. destruct (Config_unmarshal 64 data); cbn; auto. }
    destruct (ns_get net (co_target o ++ str "/config")) as [[code s]|e|p].
    2: injection C as <-; exists (fun _ => Err e); split; [intros _; reflexivity|intros post'; exact I].
    2: injection C as <-; exists (fun _ => Panic p); split; [intros _; reflexivity|intros post'; reflexivity].
    destruct (N.eqb_spec code 200) as [->|NE]; cbn [negb] in C.
    - destruct (decode_arrived k s r C) as [(b & P & R)|(P & e & ->)].
      + exists (fun _ => Ok (200%N, b)). split; [intros _; cbn; auto|]. intros post'. exact R.
      + exists (fun _ => Err ""). split; [intros _; cbn; auto|]. intros post'. exact I.
    - injection C as <-. exists (fun _ => Ok (code, [])). split; [intros _; cbn; split; [reflexivity|contradiction]|]. intros post'. cbn. rewrite (proj2 (N.eqb_neq code 200) NE). exact I. }
  destruct K as (get' & Kg & Kc). set (net' := mkNetwork get' (came_to grow k (ns_post net))). exists net'. specialize (Kc (n_post net')).
  change (mkNetwork get' (n_post net')) with net' in Kc.
  enough (B : client_body o fs net' blinds = mkClientResult status out /\ forall cfg payload, client_config o fs net' = Ok cfg -> co_dump o = false -> In payload (client_posts o fs net' cfg blinds) ->
          let url := co_target o ++ str "/evaluate" in whole_post (ns_post net url payload) (n_post net' url payload)).
  { destruct B. split; [assumption|]. split; [intros r' E; injection E as <-; exact Kc|]. auto. }
  unfold client_body. destruct r as [cfg|e|p]; destruct (client_config o fs net') as [cfg'|e'|p'] eqn:Cc; cbn in Kc; try contradiction.
  2,3: injection H as <- <-; split; [reflexivity|intros; discriminate].
  subst cfg'. destruct (co_dump o); [injection H as <- <-; split; [reflexivity|intros; discriminate]|].
  unfold client_query_read, client_query, client_posts in *. destruct (input_of fs (co_infile o)) as [input|]; [|injection H as <- <-; split; [reflexivity|intros ? ? ? ? []]].
  set (q := fun i u p => Query cfg (n_post net') (co_target o ++ str "/evaluate") u p (blinds i)).
  destruct (client_lines_read _ (co_show o) 0 (scan_lines input)) as [lines last] eqn:R. destruct last as [[e pn]|]; [|discriminate].
  set (posts := fun i u p => Query_posts cfg u p (blinds i)).
  set (P := fun payload => whole_post (ns_post net (co_target o ++ str "/evaluate") payload) (n_post net' (co_target o ++ str "/evaluate") payload)).
  assert (Hq : forall i u p x, Query_read grow k cfg (ns_post net) (co_target o ++ str "/evaluate") u p (blinds i) = Some x -> q i u p = x /\ forall y, In y (posts i u p) -> P y).
  { intros i u p x Q. exact (query_came grow G k cfg (ns_post net) (co_target o ++ str "/evaluate") u p (blinds i) x Q). }
  destruct (lines_came q _ posts P (co_show o) (scan_lines input) Hq 0%nat lines e pn R) as (Lq & Lp).
  split.
  - unfold client_main. rewrite Lq. cbn [cr_panic cr_error cr_stdout]. destruct e, pn; cbn [now_exit] in H; injection H as H1 H2; rewrite <- H1, <- H2; reflexivity.
  - intros cfg' payload E _ I. injection E as <-. exact (Lp payload I).
Qed.
Print Assumptions C92_ended.

(** ** What it has written stays, and when it has ended nothing changes. *)
Theorem C92_only_grows : forall (grow : nat -> nat) (LIB : OPRF) (args : list bytes) (fs : files) (net : network_s) (blinds : nat -> Blind LIB) (k k' : nat), (k <= k')%nat ->
  let now := client_program_read grow k args fs net blinds in let later := client_program_read grow k' args fs net blinds in
  (exists more, now_stdout later = now_stdout now ++ more) /\ (now_exit now <> None -> later = now).
Proof.
  intros grow LIB args fs net blinds k k' L now later. unfold now, later, client_program_read.
  destruct (client_flags args) as [o| |]; [|split; [exists []; reflexivity|reflexivity]..].
  unfold client_body_read. destruct (client_config_read k o fs (ns_get net)) as [r|] eqn:C.
  2:{ split; [eexists; reflexivity|]. intros X. destruct (X eq_refl). }
  assert (C' : client_config_read k' o fs (ns_get net) = Some r).
  { unfold client_config_read in *. destruct (co_config o); [|exact C]. destruct (ns_get net (co_target o ++ str "/config")) as [[code s]|e|p]; [|exact C..].
    destruct (negb (code =? 200)%N); [exact C|]. eapply decode_more; eassumption. }
  rewrite C'. destruct r as [cfg|e|p]; [|split; [exists []; reflexivity|reflexivity]..].
  destruct (co_dump o); [split; [exists []; rewrite app_nil_r; reflexivity|reflexivity]|].
  unfold client_query_read. destruct (input_of fs (co_infile o)) as [input|]; [|split; [exists []; reflexivity|reflexivity]].
  destruct (lines_grow (fun i u p => Query_read grow k cfg (ns_post net) (co_target o ++ str "/evaluate") u p (blinds i))
              (fun i u p => Query_read grow k' cfg (ns_post net) (co_target o ++ str "/evaluate") u p (blinds i)) (co_show o) (scan_lines input)) with (i := 0%nat) as (more & M & E).
  { intros i u p x Q. eapply query_more; eassumption. }
  destruct (client_lines_read (fun i u p => Query_read grow k cfg _ _ u p (blinds i)) _ 0 _) as [o1 l1]. destruct (client_lines_read (fun i u p => Query_read grow k' cfg _ _ u p (blinds i)) _ 0 _) as [o2 l2].
  cbn [fst snd now_stdout now_exit] in *. split.
  - exists (println more). rewrite M. unfold println. apply flat_map_app.
  - intros X. destruct l1 as [x|]; [|destruct (X eq_refl)]. destruct (E x eq_refl) as [-> ->]. rewrite M, app_nil_r. reflexivity.
Qed.
Print Assumptions C92_only_grows.

(** ** Exit status 0: every credential of the input was answered, from an answer of
    status 200 that had arrived to its end, and has its line. *)
Theorem C92_status_zero : forall (grow : nat -> nat), grows grow ->
  forall (LIB : OPRF) (k : nat) (args : list bytes) (o : client_opts) (fs : files) (net : network_s) (blinds : nat -> Blind LIB) (input out : bytes),
  client_flags args = FParsed o -> co_dump o = false -> given fs (co_infile o) input ->
  client_program_read grow k args fs net blinds = mkClientState (Some 0%N) out ->
  exists cfg answers lines, client_config_read k o fs (ns_get net) = Some (Ok cfg)
    /\ out = lines_of lines /\ length answers = length (with_colon (scan_lines input))
    /\ (forall i c a, nth_error (with_colon (scan_lines input)) i = Some c -> nth_error answers i = Some a ->
          exists payload s n, Query_posts cfg (fst c) (snd c) (blinds i) = [payload]
            /\ ns_post net (co_target o ++ str "/evaluate") payload = Ok (200%N, s) /\ ends_at s n EOF
            /\ Query cfg (fun _ _ => Ok (200%N, Ok (first_pieces s (S n)))) (co_target o ++ str "/evaluate") (fst c) (snd c) (blinds i) = Ok a)
    /\ Forall2 (fun ca line => reports (co_show o) (fst (fst ca)) (snd (fst ca)) (snd ca) line) (combine (with_colon (scan_lines input)) answers) lines.
Proof.
  intros grow G LIB k args o fs net blinds input out F D I H.
  destruct (C92_ended grow G LIB k args o fs net blinds 0%N out F H) as (net' & P & Rc & _ & Hp).
  assert (Cc : exists cfg, client_config o fs net' = Ok cfg).
  { unfold client_program in P. rewrite F in P. unfold client_body in P. destruct (client_config o fs net'); [eauto|discriminate..]. }
  destruct Cc as (cfg & Cc).
  destruct (C49_status_zero_means_complete LIB args fs net' blinds o cfg input F Cc D I) as (answered & rest & answers & lines & W & O & Ln & Q & R & Z).
  rewrite P in O, Z. cbn [x_stdout x_status] in O, Z. destruct Z as [Z _]. rewrite (Z eq_refl), app_nil_r in W. subst answered.
  assert (Cr : client_config_read k o fs (ns_get net) = Some (Ok cfg)).
  { unfold client_program_read, client_body_read in H. rewrite F in H. destruct (client_config_read k o fs (ns_get net)) as [[c|e|m]|]; [|discriminate..].
    specialize (Rc _ eq_refl). rewrite Cc in Rc. cbn in Rc. congruence. }
  exists cfg, answers, lines. split; [exact Cr|]. split; [exact O|]. split; [exact Ln|]. split; [|exact R].
  intros i c a Nc Na. pose proof (Q i c a Nc Na) as Qi.
  assert (In_ : forall payload, Query_posts cfg (fst c) (snd c) (blinds i) = [payload] -> In payload (client_posts o fs net' cfg blinds)).
  { intros payload E. unfold client_posts. rewrite (proj2 (input_given fs (co_infile o) input) I).
    assert (A : forall j c, nth_error (with_colon (scan_lines input)) j = Some c -> exists a, Query cfg (n_post net') (co_target o ++ str "/evaluate") (fst c) (snd c) (blinds j) = Ok a).
    { intros j cj Nj. destruct (nth_error answers j) as [aj|] eqn:Naj; [exists aj; exact (Q j cj aj Nj Naj)|].
      apply nth_error_None in Naj. assert (j < length (with_colon (scan_lines input)))%nat by (apply nth_error_Some; congruence). lia. }
    clear - A Nc E.
    enough (W : forall ls s, (forall j c, nth_error (with_colon ls) j = Some c -> exists a, Query cfg (n_post net') (co_target o ++ str "/evaluate") (fst c) (snd c) (blinds (s + j)%nat) = Ok a) ->
      forall j c, nth_error (with_colon ls) j = Some c -> Query_posts cfg (fst c) (snd c) (blinds (s + j)%nat) = [payload] ->
      In payload (posts_of (fun i u p => Query_posts cfg u p (blinds i)) (fun i u p => Query cfg (n_post net') (co_target o ++ str "/evaluate") u p (blinds i)) s ls)).
    { exact (W (scan_lines input) 0%nat A i c Nc E). }
    clear. induction ls as [|l r IH]; intros s A j c Nj E; [destruct j; discriminate|].
    unfold with_colon in *. cbn [flat_map posts_of] in *. destruct (split_colon l) as [[u p]|].
    2:{ eapply IH; [|exact Nj|exact E]. exact A. }
    cbn [app] in *. destruct j as [|j].
    - injection Nj as <-. rewrite Nat.add_0_r in E. cbn [fst snd] in E. rewrite E. left. reflexivity.
    - destruct (A 0%nat _ eq_refl) as (a & Qa). rewrite Nat.add_0_r in Qa. cbn [fst snd] in Qa. rewrite Qa. apply in_or_app. right.
      rewrite Nat.add_succ_r in E. eapply (IH (S s)); [|exact Nj|exact E]. intros j' c' Nj'. specialize (A (S j') c' Nj'). rewrite Nat.add_succ_r in A. exact A. }
  unfold Query, Query_posts in *. destruct (NewClient LIB cfg) as [cl|e|m]; cbn [bind] in *; [|discriminate..].
  destruct (Request cl (fst c) (snd c) (blinds i)) as [[rq ctx]|e|m]; cbn [bind] in *; [|discriminate..].
  specialize (Hp cfg _ Cc D (In_ _ eq_refl)). cbn zeta in Hp.
  destruct (ns_post net (co_target o ++ str "/evaluate") (ClientRequest_marshal rq)) as [[code s]|e|m] eqn:Pn; destruct (n_post net' (co_target o ++ str "/evaluate") (ClientRequest_marshal rq)) as [[code' b]|e'|m']; cbn [whole_post bind] in *; try contradiction; try discriminate.
  destruct Hp as [<- Hp]. destruct (N.eqb_spec code 200) as [->|NE]; cbn [negb] in Qi; [|discriminate].
  destruct (Hp eq_refl) as (n & e & En & ->). destruct e as [|m]; cbn [whole bind] in Qi; [|discriminate].
  exists (ClientRequest_marshal rq), s, n. split; [reflexivity|]. split; [exact Pn|]. split; [exact En|]. exact Qi.
Qed.
Print Assumptions C92_status_zero.

(** ** Finding: the server decides when the client ends.  At any query it may
    send an answer that does not end: the client then never ends, and what it
    writes is the lines of the queries before. *)
Theorem C92_server_keeps_client_refuted : forall (grow : nat -> nat), grows grow ->
  forall (LIB : OPRF) (k : nat) (args : list bytes) (o : client_opts) (fs : files) (net : network_s) (blinds : nat -> Blind LIB) (cfg : Config)
    (input : bytes) (before after : list bytes) (l u p payload : bytes) (out : list bytes) (s : stream),
  client_flags args = FParsed o -> client_config_read k o fs (ns_get net) = Some (Ok cfg) -> co_dump o = false -> given fs (co_infile o) input ->
  let url := co_target o ++ str "/evaluate" in
  scan_lines input = before ++ l :: after -> split_colon l = Some (u, p) ->
  client_lines_read (fun i u p => Query_read grow k cfg (ns_post net) url u p (blinds i)) (co_show o) 0 before = (out, Some (None, false)) ->
  Query_posts cfg u p (blinds (length (with_colon before))) = [payload] -> ns_post net url payload = Ok (200%N, s) -> endless s ->
  (forall k', now_exit (client_program_read grow k' args fs net blinds) = None)
  /\ forall k', (k <= k')%nat -> now_stdout (client_program_read grow k' args fs net blinds) = lines_of out.
Proof.
  intros grow G LIB k args o fs net blinds cfg input before after l u p payload out s F C D I url Li Sl B Po Ps E.
  subst url. set (url := co_target o ++ str "/evaluate") in *.
  assert (Q : forall k', Query_read grow k' cfg (ns_post net) url u p (blinds (length (with_colon before))) = None).
  { intros k'. unfold Query_posts in Po. unfold Query_read. destruct (NewClient LIB cfg) as [c|e|x]; [|discriminate..].
    destruct (Request c u p _) as [[rq ctx]|e|x]; [|discriminate..]. injection Po as <-. rewrite Ps, (endless_none grow G s k' E). reflexivity. }
  assert (Len : forall ls, length (filter (fun x => match split_colon x with Some _ => true | None => false end) ls) = length (with_colon ls)).
  { unfold with_colon. induction ls as [|x ls IH]; [reflexivity|]. cbn [filter flat_map]. destruct (split_colon x) as [[? ?]|]; cbn [length app]; rewrite <- ?IH; reflexivity. }
  assert (At : forall k', (k <= k')%nat -> client_program_read grow k' args fs net blinds = mkClientState None (lines_of out)).
  { intros k' L. unfold client_program_read, client_body_read. rewrite F.
    assert (C' : client_config_read k' o fs (ns_get net) = Some (Ok cfg)).
    { unfold client_config_read in *. destruct (co_config o); [|exact C]. destruct (ns_get net (co_target o ++ str "/config")) as [[code s']|e|q]; [|exact C..].
      destruct (negb (code =? 200)%N); [exact C|]. eapply decode_more; eassumption. }
    rewrite C', D. unfold client_query_read. change (co_target o ++ str "/evaluate") with url. rewrite (proj2 (input_given fs (co_infile o) input) I), Li.
    assert (B' : client_lines_read (fun i u p => Query_read grow k' cfg (ns_post net) url u p (blinds i)) (co_show o) 0 before = (out, Some (None, false))).
    { destruct (lines_grow (fun i u p => Query_read grow k cfg (ns_post net) url u p (blinds i)) (fun i u p => Query_read grow k' cfg (ns_post net) url u p (blinds i)) (co_show o) before) with (i := 0%nat) as (more & M & N).
      { intros i u' p' x Qx. eapply query_more; eassumption. }
      rewrite B in M, N. destruct (N _ eq_refl) as [N1 ->]. rewrite app_nil_r in M. cbn [fst] in M. rewrite (surjective_pairing (client_lines_read _ _ _ _)), M, N1. reflexivity. }
    rewrite (lines_stuck (fun i u p => Query_read grow k' cfg (ns_post net) url u p (blinds i)) (co_show o) l u p after Sl before 0 out B'); [reflexivity|].
    rewrite Len. apply Q. }
  split; [|intros k' L; rewrite At by exact L; reflexivity].
  intros k'. destruct (now_exit (client_program_read grow k' args fs net blinds)) as [st|] eqn:X; [|reflexivity]. exfalso.
  destruct (C92_only_grows grow LIB args fs net blinds k' (Nat.max k k') (Nat.le_max_r k k')) as [_ S]. rewrite (At (Nat.max k k')) in S by lia.
  rewrite <- S in X by congruence. discriminate.
Qed.
Print Assumptions C92_server_keeps_client_refuted.

(** ** Cases.  The demo server of PropMain.v behind a network that cuts every body
    in two; the second answer is held back at its last byte, for ever. *)
Definition two_pieces (e : option ending) (b : bytes) : stream := fun i => match i with
  | 0 => mkArrival (firstn (length b - 1) b) None | 1 => mkArrival (skipn (length b - 1) b) e | _ => mkArrival [] e end.
Definition held_back (b : bytes) : stream := fun i => match i with 0 => mkArrival (firstn (length b - 1) b) None | _ => mkArrival [] None end.
Definition ex_whole : network := behind ex_srv (str "localhost:8080").
Definition ex_pieces (hold : bytes -> bool) : network_s :=
  mkNetworkS
    (fun url => match n_get ex_whole url with Ok (code, b) => Ok (code, two_pieces (Some EOF) b) | Err e => Err e | Panic m => Panic m end)
    (fun url d => match n_post ex_whole url d with
                  | Ok (code, Ok b) => Ok (code, if hold b then held_back b else two_pieces (Some EOF) b)
                  | Ok (code, Err e) => Ok (code, two_pieces (Some (Failed e)) [])
                  | Ok (_, Panic m) => Panic m | Panic m => Panic m
                  | Err e => Err e
                  end).
Definition ex_grow (c : nat) : nat := 2 * c + 1.
Lemma two_pieces_whole e b : ends_at (two_pieces (Some e) b) 1 e /\ first_pieces (two_pieces (Some e) b) 2 = b.
Proof.
  split; [split; [reflexivity|intros [|i] L; [reflexivity|lia]]|]. unfold first_pieces, two_pieces. cbn [seq map concat a_data]. rewrite app_nil_r. apply firstn_skipn.
Qed.
Example C92_hypotheses : grows ex_grow
  /\ (forall url, whole_get (ns_get (ex_pieces (fun _ => false)) url) (n_get ex_whole url))
  /\ (forall url payload, whole_post (ns_post (ex_pieces (fun _ => false)) url payload) (n_post ex_whole url payload)).
Proof.
  split; [intros c; unfold ex_grow; lia|]. split.
  - intros url. unfold ex_pieces. cbn [ns_get]. destruct (n_get ex_whole url) as [[code b]|e|m]; cbn; auto. split; [reflexivity|]. intros _.
    destruct (two_pieces_whole EOF b) as [[E A] W]. exists 1%nat. auto.
  - intros url payload. unfold ex_pieces, ex_whole. cbn [ns_post]. unfold behind. cbn [n_post]. unfold to_server.
    destruct (url_path _ url) as [path|]; [|reflexivity]. destruct (http_post ex_srv path payload) as [[code b]|e|m]; cbn [bind]; [|reflexivity..].
    cbn [whole_post]. split; [reflexivity|]. intros _. destruct (two_pieces_whole EOF b) as [E W]. exists 1%nat, EOF. split; [exact E|]. cbn [whole]. rewrite W. reflexivity.
Qed.
Definition ex_two : list bytes := map str
  ["{""username"":""alice"",""password"":""hello"",""status"":""password in breach"",""metadata"":""leak""}";
   "{""username"":""alice"",""password"":""Hello"",""status"":""similar password in breach"",""metadata"":""leak""}"]%string.
Example C92_example :
  let run hold k := @client_program_read ex_grow toy_OPRF k ex_cargs ex_cfs (ex_pieces hold) (fun i => N.of_nat (i + 5)) in
  run (fun _ => false) 1%nat = mkClientState None []
  /\ run (fun _ => false) 4%nat = over_with (@client_program toy_OPRF ex_cargs ex_cfs ex_whole (fun i => N.of_nat (i + 5)))
  /\ now_exit (run (fun _ => false) 4%nat) = Some 0%N
  /\ run (fun b => (length b <? 50)%nat) 9%nat = mkClientState None (lines_of ex_two).
Proof. vm_compute. repeat split; reflexivity. Qed.
(** The held-back answer meets the hypotheses of the finding: the client stays
    for ever after the second line. *)
Example C92_example_kept :
  let hold (b : bytes) := (length b <? 50)%nat in
  (forall k, now_exit (@client_program_read ex_grow toy_OPRF k ex_cargs ex_cfs (ex_pieces hold) (fun i => N.of_nat (i + 5))) = None)
  /\ forall k, (4 <= k)%nat -> now_stdout (@client_program_read ex_grow toy_OPRF k ex_cargs ex_cfs (ex_pieces hold) (fun i => N.of_nat (i + 5))) = lines_of ex_two.
Proof.
  cbv zeta. set (hold := fun b : bytes => (length b <? 50)%nat).
  assert (Po : exists payload, Query_posts ex_cfg (str "carol") (str """") ((7%N : Blind toy_OPRF)) = [payload]
    /\ exists b, n_post ex_whole (str "http://localhost:8080" ++ str "/evaluate") payload = Ok (200%N, Ok b) /\ hold b = true).
  { eexists. split; [vm_compute; reflexivity|]. eexists. split; vm_compute; reflexivity. }
  destruct Po as (payload & Po & b & Pb & H).
  apply (C92_server_keeps_client_refuted ex_grow (proj1 C92_hypotheses) toy_OPRF 4 ex_cargs (mkClientOpts [] false true (str "q.txt") (str "http://localhost:8080")) ex_cfs
           (ex_pieces hold) (fun i => N.of_nat (i + 5)) ex_cfg ex_queries [str "alice:hello"; str "alice:Hello"; []] [str "bob:x:y"] (str "carol:""") (str "carol") (str """") payload ex_two (held_back b)).
  - vm_compute. reflexivity.
  - vm_compute. reflexivity.
  - reflexivity.
  - apply input_given. vm_compute. reflexivity.
  - vm_compute. reflexivity.
  - reflexivity.
  - vm_compute. reflexivity.
  - exact Po.
  - cbn [co_target]. unfold ex_pieces. cbn [ns_post]. rewrite Pb, H. reflexivity.
  - intros [|i]; reflexivity.
Qed.
