(** Proofs for C70: the two programs as the README starts them. *)
From Verif Require Import Base BaseProofs CommonProofs Common Oprf Server Client KV Mutator MutatorProofs Json ConfigJson Scanner Demo Flags Url Main
  SpecEntry SpecProtocol SpecDemo SpecHttp SpecMain SpecVariants SpecQuick ProtocolProofs DemoProofs IngestProofs VariantProofs MainProofs.

Lemma cut_lines ls last : Forall no_lf ls -> no_lf last -> forall B, (B < 65536)%Z ->
  Forall (fun l => (blen l <= B)%Z) (all_lines ls last) -> Forall (fun l => (blen l <= B)%Z) (scan_lines (text ls last)).
Proof.
  intros F N B HB L0. pose proof L0 as L. unfold all_lines in L. apply Forall_app in L as [L1 L2].
  rewrite scan_text; [|assumption|assumption|eapply Forall_impl; [|exact L1]; cbn; intros; lia|].
  - apply Forall_map. eapply Forall_impl; [|exact L0]. intros l Hl. cbn in *. pose proof (drop_cr_length l). unfold blen in *. lia.
  - destruct last as [|x last]; [cbn; lia|]. inversion L2; subst. lia.
Qed.

Section All.
Variable LIB : OPRF.
Variable s : Server LIB.
Variable cfg : ServerConfig LIB.
Hypothesis Hs : NewServer cfg = Ok s.
Hypothesis Hb : (0 <= cfg_bits (sc_config cfg) <= 32)%Z.
Hypothesis full_ok : forall x, exists k, full_evaluate LIB (s_oprfSuite s) (s_privateKey s) x (str "MIGP oprf info") = Ok k.

Lemma keys_ok u p : (blen u <= 65536)%Z -> (blen p <= 65536)%Z -> exists k, deriveBucketEntryKey s u p = Ok k.
Proof. intros Hu Hp. eapply derive_ok; eauto. Qed.

Lemma insert_all_ok store u p m n incl : (blen u <= 65536)%Z -> (blen p <= 49152)%Z -> (blen m <= 8160)%Z -> (0 <= n)%Z -> (n * 24 <= 2 ^ 48)%Z ->
  snd (demo_insert s store u p m n incl) = Ok tt.
Proof.
  intros Hu Hp Hm Hn Hn'. destruct (bucket_ok LIB s cfg Hs Hb u Hu) as (id & Hid). destruct (variants_total p n Hn Hn') as (vs & V).
  assert (L : forall v, In v vs -> (blen v <= 65536)%Z).
  { intros v I. pose proof V as V'. rewrite variants_shipped in V'. apply mutate_sound in V' as (_ & _ & _ & _ & V').
    destruct (V' v I) as (rule & Ir & Hr). pose proof (shipped_image_length rule p v Ir Hr). unfold blen in *. lia. }
  destruct (insert_ok LIB s store u p m n incl vs id Hid V Hm) as (st & ->); [|reflexivity].
  intros d I. apply keys_ok; [exact Hu|]. unfold insert_creds in I. cbn [In] in I. rewrite in_app_iff, in_map_iff in I.
  destruct I as [<-|[(v & <- & I)|I]]; cbn [d_pass]; [lia|apply L, I|]. destruct incl; [|contradiction].
  destruct I as [<-|[]]. unfold blen. cbn. lia.
Qed.

Lemma outcomes_all_ok metadata n incl lines store : (blen metadata <= 8160)%Z -> (0 <= n)%Z -> (n * 24 <= 2 ^ 48)%Z ->
  Forall (fun l => (blen l <= 49153)%Z) lines ->
  Forall (fun r => r = Ok tt) (outcomes s store (ops_of metadata n incl lines)).
Proof.
  intros Hm Hn Hn' F. unfold ops_of. revert store; induction F as [|l lines Hl F IH]; intros store; [constructor|].
  rewrite with_colon_cons. destruct (split_colon l) as [[u p]|] eqn:E; [|apply IH].
  cbn [map outcomes]. constructor; [|apply IH]. rewrite do_insert_op.
  assert (EL : blen l = (blen u + 1 + blen p)%Z) by (apply split_colon_some in E as [-> _]; unfold blen; rewrite app_length; cbn [length]; lia).
  assert (blen u >= 0)%Z by (unfold blen; lia). assert (blen p >= 0)%Z by (unfold blen; lia).
  apply insert_all_ok; lia.
Qed.

Lemma ingest_all metadata n incl input : (blen metadata <= 8160)%Z -> (0 <= n)%Z -> (n * 24 <= 2 ^ 48)%Z ->
  Forall (fun l => (blen l <= 49153)%Z) (scan_lines input) ->
  exists st, server_ingest s metadata n incl newKVStore input = Ok st
    /\ in_success st = N.of_nat (length (with_colon (scan_lines input)))
    /\ (in_success st + in_failure st = N.of_nat (length (scan_lines input)))%N
    /\ in_store st = run_inserts s newKVStore (breach_ops metadata n incl (with_colon (scan_lines input))).
Proof.
  intros Hm Hn Hn' F. pose proof (outcomes_all_ok metadata n incl (scan_lines input) newKVStore Hm Hn Hn' F) as O.
  assert (NP : existsb is_panic (outcomes s newKVStore (ops_of metadata n incl (scan_lines input))) = false).
  { revert O. generalize (outcomes s newKVStore (ops_of metadata n incl (scan_lines input))). intros l O.
    induction O as [|r l -> O IH]; [reflexivity|exact IH]. }
  destruct (ingest_lines_total LIB metadata n incl s (scan_lines input) {| in_store := newKVStore; in_success := 0; in_failure := 0 |} NP) as (st & St).
  exists st. split; [exact St|]. apply (server_ingest_spec LIB metadata n incl s newKVStore input st) in St as (A & B & C & _).
  split; [|split; [exact C|exact A]]. rewrite B. f_equal.
  assert (E : forall l : list (res unit), Forall (fun r => r = Ok tt) l -> length (filter is_ok l) = length l).
  { intros l G. induction G as [|r l -> G IH]; [reflexivity|]. cbn [filter is_ok length]. rewrite IH. reflexivity. }
  rewrite (E _ O), outcomes_length. unfold ops_of. apply map_length.
Qed.
End All.

(** The server, with any options and configuration. *)
Lemma server_stores_all LIB (laws : OPRF_laws LIB) args fs gen so (cfg : ServerConfig LIB) (s : Server LIB) breach :
  server_flags args = FParsed so -> so_dump so = false -> server_config so fs gen = Ok cfg -> NewServer cfg = Ok s ->
  input_of fs (so_infile so) = Some breach -> (0 <= cfg_bits (sc_config cfg) <= 32)%Z ->
  (forall x, exists k, full_evaluate LIB (cfg_oprfSuite (sc_config cfg)) (sc_privateKey cfg) x (str "MIGP oprf info") = Ok k) ->
  (blen (so_metadata so) <= 8160)%Z -> (0 <= so_num so)%Z -> (so_num so * 24 <= 2 ^ 48)%Z ->
  Forall (fun l => (blen l <= 49153)%Z) (scan_lines breach) ->
  exists srv bad, server_program args fs gen = SServing (so_listen so) srv (N.of_nat (length (with_colon (scan_lines breach)))) bad
    /\ migpServer srv = s
    /\ (N.of_nat (length (with_colon (scan_lines breach))) + bad = N.of_nat (length (scan_lines breach)))%N
    /\ kv srv = run_inserts s newKVStore (breach_ops (so_metadata so) (so_num so) (so_username so) (with_colon (scan_lines breach)))
    /\ Forall (fun r => r = Ok tt) (outcomes s newKVStore (breach_ops (so_metadata so) (so_num so) (so_username so) (with_colon (scan_lines breach)))).
Proof.
  intros SF D SC NS I B FO Hm Hn Hn' L.
  assert (FO' : forall x, exists k, full_evaluate LIB (s_oprfSuite s) (s_privateKey s) x (str "MIGP oprf info") = Ok k).
  { pose proof (NewServer_Config LIB cfg s NS) as NC. intros x. destruct (FO x) as (k & K). exists k. rewrite <- K, <- NC. reflexivity. }
  destruct (ingest_all LIB s cfg NS B FO' (so_metadata so) (so_num so) (so_username so) breach Hm Hn Hn' L) as (st & St & S1 & S2 & S3).
  exists {| migpServer := s; kv := in_store st |}, (in_failure st).
  unfold server_program. rewrite SF. unfold server_body. rewrite SC, D. unfold server_serve, newServer. rewrite NS. cbn [bind migpServer kv].
  rewrite I, St. rewrite <- S1. repeat split; try assumption.
  apply (outcomes_all_ok LIB s cfg NS B FO' (so_metadata so) (so_num so) (so_username so) (scan_lines breach) newKVStore Hm Hn Hn' L).
Qed.

Lemma small_counts {LIB} (s : Server LIB) m n incl creds : (0 <= n <= 98)%Z -> (blen m <= 8160)%Z -> (Z.of_nat (length creds) <= 2 ^ 40)%Z ->
  Forall (fun r => r = Ok tt) (outcomes s newKVStore (breach_ops m n incl creds)) ->
  kv_holdable (run_inserts s newKVStore (breach_ops m n incl creds)).
Proof.
  intros Hn Hm L O key. unfold holdable, blen.
  rewrite (inserts_size s key n incl m Hn (breach_ops m n incl creds) newKVStore); [|apply Forall_map, Forall_forall; intros; cbn; auto|exact O].
  cbn [kv_lookup newKVStore sl length].
  assert (F : (length (filter (in_bucketb s key) (breach_ops m n incl creds)) <= length creds)%nat).
  { transitivity (length (breach_ops m n incl creds)); [apply filter_le|unfold breach_ops; rewrite map_length; lia]. }
  set (c := length (filter _ _)) in *. unfold blen in Hm.
  assert (K : (1 + Z.to_nat n + (if incl then 1 else 0) <= 100)%nat) by (destruct incl; lia).
  set (k := (1 + Z.to_nat n + (if incl then 1 else 0))%nat) in *.
  rewrite Nat2Z.inj_add, !Nat2Z.inj_mul, Nat2Z.inj_add. change (Z.of_nat 0) with 0%Z.
  assert (Z.of_nat c * (Z.of_nat k * (25 + Z.of_nat (length m))) <= 2 ^ 40 * (100 * 8185))%Z; [|change (Z.of_nat 25) with 25%Z; lia].
  apply Z.mul_le_mono_nonneg; [lia|lia|nia|]. apply Z.mul_le_mono_nonneg; lia.
Qed.

Lemma creds_count lines : (length (with_colon lines) <= length lines)%nat.
Proof. induction lines as [|l lines IH]; [cbn; lia|]. rewrite with_colon_cons. destruct (split_colon l) as [[u p]|]; cbn [length]; lia. Qed.
Lemma with_colon_short B lines u p : Forall (fun l => (blen l <= B)%Z) lines -> In (u, p) (with_colon lines) -> (blen u <= B /\ blen p <= B)%Z.
Proof.
  induction 1 as [|l lines Hl F IH]; [contradiction|]. rewrite with_colon_cons. destruct (split_colon l) as [[u' p']|] eqn:E; [|exact IH].
  intros [I|I]; [|exact (IH I)]. apply pair_inj in I as [-> ->]. apply split_colon_some in E as [-> _].
  unfold blen in *. rewrite app_length in Hl. cbn [length] in Hl. lia.
Qed.

(** Both programs, with any options that use suite 3. *)
Lemma both_programs LIB (laws : OPRF_laws LIB) args fs gen so (cfg : ServerConfig LIB) (s : Server LIB) breach :
  server_flags args = FParsed so -> so_dump so = false -> server_config so fs gen = Ok cfg -> NewServer cfg = Ok s ->
  input_of fs (so_infile so) = Some breach -> (0 <= cfg_bits (sc_config cfg) <= 32)%Z ->
  (forall x, exists k, full_evaluate LIB (cfg_oprfSuite (sc_config cfg)) (sc_privateKey cfg) x (str "MIGP oprf info") = Ok k) ->
  (blen (so_metadata so) <= 8160)%Z -> (0 <= so_num so <= 98)%Z -> (Z.of_nat (length (scan_lines breach)) <= 2 ^ 40)%Z ->
  Forall (fun l => (blen l <= 49153)%Z) (scan_lines breach) ->
  client_suite LIB 3 = Ok tt -> cfg_oprfSuite (sc_config cfg) = 3%N ->
  let creds := with_colon (scan_lines breach) in
  let db := breach_db (so_metadata so) (so_num so) (so_username so) creds in
  exists srv bad, server_program args fs gen = SServing (so_listen so) srv (N.of_nat (length creds)) bad
    /\ migpServer srv = s /\ (N.of_nat (length creds) + bad = N.of_nat (length (scan_lines breach)))%N
    /\ forall cargs cfs co host queries (blinds : nat -> Blind LIB),
       client_flags cargs = FParsed co -> plain_host host -> co_target co = str "http://" ++ host -> co_config co = [] -> co_dump co = false ->
       input_of cfs (co_infile co) = Some queries -> Forall (fun l => (blen l <= 65536)%Z) (scan_lines queries) ->
       (forall u p, In (u, p) (with_colon (scan_lines queries)) -> no_collision s db u p) ->
       client_program cargs cfs (behind srv host) blinds = mkClientResult 0 (lines_of
         (map (fun c => client_output (fst c) (if co_show co then snd c else []) (fst (expected db (fst c) (snd c))) (snd (expected db (fst c) (snd c)))) (with_colon (scan_lines queries)))).
Proof.
  intros SF D SC NS I B FO Hm Hn Hc L CS S3 creds db.
  destruct (server_stores_all LIB laws args fs gen so cfg s breach SF D SC NS I B FO Hm ltac:(lia) ltac:(lia) L) as (srv & bad & SP & MS & CN & KV & O).
  exists srv, bad. split; [exact SP|]. split; [exact MS|]. split; [exact CN|].
  intros cargs cfs co host queries blinds CF PH CT CC CD CI QL NCol. fold creds in KV, O.
  apply (end_to_end_store LIB laws cfg srv db); try assumption.
  - rewrite MS. exact NS.
  - eapply main_config_wf, SC.
  - rewrite KV, MS. unfold db. apply run_inserts_db.
    change (map (op_of (so_metadata so) (so_num so) (so_username so)) creds) with (breach_ops (so_metadata so) (so_num so) (so_username so) creds).
    revert O. generalize (outcomes s newKVStore (breach_ops (so_metadata so) (so_num so) (so_username so) creds)). intros l O. induction O as [|r l -> O IH]; [reflexivity|exact IH].
  - rewrite KV. apply small_counts; [exact Hn|exact Hm| |exact O]. pose proof (creds_count (scan_lines breach)). unfold creds. lia.
  - intros u p IN. rewrite MS. split; [|exact (NCol u p IN)].
    destruct (with_colon_short _ _ u p QL IN). eapply keys_ok; eauto.
    pose proof (NewServer_Config LIB cfg s NS) as NC. intros x. destruct (FO x) as (k & K). exists k. rewrite <- K, <- NC. reflexivity.
Qed.

(** ** The statements of C70 *)
Lemma given_input fs name c : given fs name c -> input_of fs name = Some c.
Proof.
  unfold input_of. intros [[-> ->]|[N H]]; [rewrite bytes_eqb_refl; reflexivity|].
  destruct (bytes_eqb name (str "-")) eqn:E; [apply bytes_eqb_eq in E; contradiction|exact H].
Qed.

Lemma colon_dec l : existsb (beqb Byte.x3a) l = match split_colon l with Some _ => true | None => false end.
Proof.
  destruct (split_colon l) as [[u p]|] eqn:E.
  - apply split_colon_some in E as [-> _]. apply existsb_exists. exists Byte.x3a. split; [apply in_or_app; right; left; reflexivity|reflexivity].
  - apply split_colon_none in E. destruct (existsb (beqb Byte.x3a) l) eqn:X; [|reflexivity]. exfalso. apply E.
    apply existsb_exists in X as (c & I & C). apply beqb_eq in C. subst c. exact I.
Qed.

Lemma drop_cr_colon l : existsb (beqb Byte.x3a) (drop_cr l) = existsb (beqb Byte.x3a) l.
Proof.
  destruct (drop_cr_spec l) as [H|[H _]]; [|rewrite <- H; reflexivity].
  rewrite H at 2. rewrite existsb_app. cbn [existsb]. change (beqb Byte.x3a Byte.x0d) with false. cbn [orb]. rewrite orb_false_r. reflexivity.
Qed.

Lemma colon_counts ls : length (with_colon (map drop_cr ls)) = length (filter (existsb (beqb Byte.x3a)) ls)
  /\ (length (with_colon (map drop_cr ls)) + length (filter (fun l => negb (existsb (beqb Byte.x3a) l)) ls) = length ls)%nat.
Proof.
  induction ls as [|l ls [IH1 IH2]]; [split; reflexivity|]. cbn [map filter]. rewrite with_colon_cons.
  rewrite <- (drop_cr_colon l), colon_dec. destruct (split_colon (drop_cr l)) as [[u p]|]; cbn [negb length]; lia.
Qed.

Lemma scan_text_short ls last : Forall no_lf ls -> no_lf last -> forall B, (B < 65536)%Z ->
  Forall (fun l => (blen l <= B)%Z) (all_lines ls last) -> scan_lines (text ls last) = map drop_cr (all_lines ls last).
Proof.
  intros F N B HB L. unfold all_lines in L. apply Forall_app in L as [L1 L2].
  apply scan_text; [assumption|assumption|eapply Forall_impl; [|exact L1]; cbn; intros; lia|].
  destruct last as [|x last]; [cbn; lia|]. inversion L2; subst. lia.
Qed.

Lemma lines_stored LIB (laws : OPRF_laws LIB) args fs gen so (cfg : ServerConfig LIB) (s : Server LIB) ls last :
  server_flags args = FParsed so -> so_dump so = false -> server_config so fs gen = Ok cfg -> NewServer cfg = Ok s ->
  given fs (so_infile so) (text ls last) -> Forall no_lf ls -> no_lf last ->
  Forall (fun l => (blen l <= 49153)%Z) (all_lines ls last) ->
  (0 <= cfg_bits (sc_config cfg) <= 32)%Z ->
  (forall x, exists k, full_evaluate LIB (cfg_oprfSuite (sc_config cfg)) (sc_privateKey cfg) x (str "MIGP oprf info") = Ok k) ->
  (blen (so_metadata so) <= 8160)%Z -> (0 <= so_num so)%Z -> (so_num so * 24 <= 2 ^ 48)%Z ->
  exists srv,
    server_program args fs gen = SServing (so_listen so) srv
      (N.of_nat (length (filter (existsb (beqb Byte.x3a)) (all_lines ls last))))
      (N.of_nat (length (filter (fun l => negb (existsb (beqb Byte.x3a) l)) (all_lines ls last)))).
Proof.
  intros SF D SC NS G F N L B FO Hm Hn Hn'. apply given_input in G.
  destruct (server_stores_all LIB laws args fs gen so cfg s _ SF D SC NS G B FO Hm Hn Hn' (cut_lines ls last F N 49153 eq_refl L)) as (srv & bad & SP & _ & C & _).
  exists srv. rewrite SP. rewrite (scan_text_short ls last F N 49153 eq_refl L) in C |- *.
  destruct (colon_counts (all_lines ls last)) as [C1 C2]. rewrite map_length in C. rewrite <- C1.
  assert (bad = N.of_nat (length (filter (fun l => negb (existsb (beqb Byte.x3a) l)) (all_lines ls last)))) by lia. congruence.
Qed.

Lemma files_answered LIB (laws : OPRF_laws LIB) args fs gen so (cfg : ServerConfig LIB) (s : Server LIB) ls last :
  server_flags args = FParsed so -> so_dump so = false -> server_config so fs gen = Ok cfg -> NewServer cfg = Ok s ->
  given fs (so_infile so) (text ls last) -> Forall no_lf ls -> no_lf last ->
  Forall (fun l => (blen l <= 49153)%Z) (all_lines ls last) -> (Z.of_nat (length ls) < 2 ^ 40)%Z ->
  (0 <= cfg_bits (sc_config cfg) <= 32)%Z ->
  (forall x, exists k, full_evaluate LIB (cfg_oprfSuite (sc_config cfg)) (sc_privateKey cfg) x (str "MIGP oprf info") = Ok k) ->
  (blen (so_metadata so) <= 8160)%Z -> (0 <= so_num so <= 98)%Z ->
  client_suite LIB 3 = Ok tt -> cfg_oprfSuite (sc_config cfg) = 3%N ->
  let db := breach_db (so_metadata so) (so_num so) (so_username so) (with_colon (scan_lines (text ls last))) in
  exists srv ok bad,
    server_program args fs gen = SServing (so_listen so) srv ok bad /\ migpServer srv = s /\
    forall (cargs : list bytes) (cfs : files) (co : client_opts) (host : bytes) (qs : list bytes) (qlast : bytes) (blinds : nat -> Blind LIB),
    client_flags cargs = FParsed co -> plain_host host -> co_target co = str "http://" ++ host -> co_config co = [] -> co_dump co = false ->
    given cfs (co_infile co) (text qs qlast) -> Forall no_lf qs -> no_lf qlast -> Forall (fun l => (blen l < 65536)%Z) (all_lines qs qlast) ->
    let asked := with_colon (scan_lines (text qs qlast)) in
    (forall u p, In (u, p) asked -> no_collision s db u p) ->
    exists lines,
      client_program cargs cfs (behind srv host) blinds = mkClientResult 0 (lines_of lines) /\
      Forall2 (fun c line => reports (co_show co) (fst c) (snd c) (expected db (fst c) (snd c)) line) asked lines.
Proof.
  intros SF D SC NS G F N L Lc B FO Hm Hn CS S3 db. apply given_input in G.
  assert (Hc : (Z.of_nat (length (scan_lines (text ls last))) <= 2 ^ 40)%Z).
  { rewrite (scan_text_short ls last F N 49153 eq_refl L), map_length. unfold all_lines. rewrite app_length. destruct last; cbn [length]; lia. }
  destruct (both_programs LIB laws args fs gen so cfg s _ SF D SC NS G B FO Hm Hn Hc (cut_lines ls last F N 49153 eq_refl L) CS S3) as (srv & bad & SP & MS & _ & Q).
  exists srv, (N.of_nat (length (with_colon (scan_lines (text ls last))))), bad. split; [exact SP|]. split; [exact MS|].
  intros cargs cfs co host qs qlast blinds CF PH CT CC CD CI QF QN QL asked NCol. apply given_input in CI.
  assert (QL' : Forall (fun l => (blen l <= 65535)%Z) (all_lines qs qlast)) by (eapply Forall_impl; [|exact QL]; cbn; intros; lia).
  pose proof (cut_lines qs qlast QF QN 65535 eq_refl QL') as QC.
  eexists. split; [apply (Q cargs cfs co host _ blinds CF PH CT CC CD CI)|apply outputs_report].
  - eapply Forall_impl; [|exact QC]. cbn; intros; lia.
  - exact NCol.
Qed.

Lemma default_server LIB (key : PrivateKey LIB) : server_suite LIB 3 key = Ok tt ->
  exists s, NewServer {| sc_config := DefaultConfig; sc_privateKey := key |} = Ok s.
Proof. intros S. apply NewServer_iff. repeat split; try reflexivity; [right; reflexivity|exact S]. Qed.

Lemma localhost_plain : plain_host (str "localhost:8080").
Proof.
  exists (str "localhost"). split; [discriminate|]. split; [intros c I; cbn in I |- *; intuition (subst; auto 80)|].
  right. exists (str "8080"). split; [discriminate|]. split; [intros c I; cbn in I |- *; intuition (subst; auto 20)|reflexivity].
Qed.

Lemma quick_start LIB (laws : OPRF_laws LIB) (key : PrivateKey LIB) : server_suite LIB 3 key = Ok tt -> client_suite LIB 3 = Ok tt ->
  (forall x, exists k, full_evaluate LIB 3 key x (str "MIGP oprf info") = Ok k) ->
  forall sfs cfs : files, f_stdin sfs = test_breach -> f_stdin cfs = test_queries ->
  exists srv, server_program [] sfs (Ok key) = SServing (str "localhost:8080") srv 10 0 /\
  forall blinds : nat -> Blind LIB,
  (forall u p, In (u, p) queried -> no_collision (migpServer srv) (breach_db [] 9 true breached) u p) ->
  client_program [] cfs (behind srv (str "localhost:8080")) blinds = mkClientResult 0 quick_start_output.
Proof.
  intros SS CS FO sfs cfs Hs Hq. destruct (default_server LIB key SS) as (s & NS).
  assert (W : with_colon (scan_lines test_breach) = breached) by (vm_compute; reflexivity).
  assert (WL : length (scan_lines test_breach) = 10%nat) by (vm_compute; reflexivity).
  assert (WQ : with_colon (scan_lines test_queries) = queried) by (vm_compute; reflexivity).
  assert (SB : forall input : bytes, forallb (fun l : bytes => (blen l <=? 49153)%Z) (scan_lines input) = true -> Forall (fun l => (blen l <= 49153)%Z) (scan_lines input)).
  { intros input H. apply Forall_forall. intros l I. rewrite forallb_forall in H. apply Z.leb_le, (H l I). }
  destruct (both_programs LIB laws [] sfs (Ok key) server_defaults {| sc_config := DefaultConfig; sc_privateKey := key |} s test_breach) as (srv & bad & SP & MS & CN & Q).
  - reflexivity.
  - reflexivity.
  - reflexivity.
  - exact NS.
  - rewrite <- Hs. reflexivity.
  - split; vm_compute; discriminate.
  - exact FO.
  - cbn. lia.
  - cbn. lia.
  - rewrite WL. cbn. lia.
  - apply SB. vm_compute. reflexivity.
  - exact CS.
  - reflexivity.
  - rewrite W in *. rewrite WL in CN. exists srv. split.
    + rewrite SP. change (N.of_nat (length breached)) with 10%N in *. f_equal. lia.
    + intros blinds NC.
      rewrite (Q [] cfs client_defaults (str "localhost:8080") test_queries blinds).
      * rewrite WQ. apply f_equal. vm_compute. reflexivity.
      * reflexivity.
      * exact localhost_plain.
      * reflexivity.
      * reflexivity.
      * reflexivity.
      * rewrite <- Hq. reflexivity.
      * eapply Forall_impl; [|apply SB; vm_compute; reflexivity]. cbn. intros; lia.
      * intros u p I. rewrite WQ in I. rewrite <- MS. exact (NC u p I).
Qed.
