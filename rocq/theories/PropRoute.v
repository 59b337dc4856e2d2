(** * Property C58: which URLs reach which page of the demo server
    (cmd/server/server.go:42-48, cmd/client/main.go:30,47,91).

    [n_get (behind s host) url] and [n_post (behind s host) url d] are what a
    Go HTTP client gets from the server [s] that listens at [host], redirects
    followed. *)
From Verif Require Import Base BaseProofs Common Oprf OprfGroup Server Client KV Mutator Json ConfigJson Scanner Url Demo Flags Main
  SpecEntry SpecProtocol SpecDemo SpecHttp SpecMain FlagsProofs UrlProofs HttpProofs MainProofs RouteProofs PropFinalize PropProtocol PropMain.

(** The server puts a path into canonical form: "." and empty segments go, ".."
    removes the segment before it, a trailing slash stays.  Exactly the tidy
    paths are left as they are. *)
Theorem C58_paths_are_resolved : forall p : bytes,
  cleanPath p = canonical p /\ tidy (cleanPath p) /\ (cleanPath p = p <-> tidy p).
Proof. exact (fun p => conj (cleanPath_canonical p) (conj (eq_ind_r tidy (canonical_tidy p) (cleanPath_canonical p)) (clean_iff_tidy p))). Qed.
Print Assumptions C58_paths_are_resolved.

(** A GET is answered by the page of the canonical path: the configuration, the
    evaluation (which refuses an empty body) or, for any other path, the
    welcome page. *)
Theorem C58_get : forall (LIB : OPRF) (s : server LIB) (host t p : bytes),
  OPRF_laws LIB -> plain_host host -> plain_tail t -> tail_path t p ->
  let answer := n_get (behind s host) (str "http://" ++ host ++ t) in
  (canonical p = str "/config" -> answer = Ok (200%N, Config_marshal (sc_config (Server_Config (migpServer s))) ++ [Byte.x0a])) /\
  (canonical p = str "/evaluate" -> exists page, answer = Ok (400%N, page)) /\
  (canonical p <> str "/config" -> canonical p <> str "/evaluate" ->
   answer = Ok (200%N, str "Welcome to the MIGP demo server" ++ [Byte.x0a])).
Proof. exact get_answers. Qed.
Print Assumptions C58_get.

(** A POST is evaluated if its path is /evaluate to the letter; any other path
    answers a POST like a GET, without looking at what was posted. *)
Theorem C58_post : forall (LIB : OPRF) (s : server LIB) (host t p d : bytes),
  OPRF_laws LIB -> plain_host host -> plain_tail t -> tail_path t p ->
  let url := str "http://" ++ host ++ t in
  (p = str "/evaluate" -> exists w, handleEvaluate s (Ok d) = Ok w /\
     n_post (behind s host) url d = Ok (fst (response_of w), Ok (snd (response_of w)))) /\
  (p <> str "/evaluate" -> exists code page, n_get (behind s host) url = Ok (code, page) /\
     n_post (behind s host) url d = Ok (code, Ok page)).
Proof. exact post_answers. Qed.
Print Assumptions C58_post.

(** So Query works at exactly those URLs whose path is /evaluate. *)
Theorem C58_query_at_evaluate : forall (LIB : OPRF) (scfg : ServerConfig LIB) (s : Server LIB) (cfg : Config) (c : Client)
    (store : kvStore) (host t u p : bytes) (r : Blind LIB),
  plain_host host -> plain_tail t -> tail_path t (str "/evaluate") -> OPRF_laws LIB -> NewServer scfg = Ok s -> NewClient LIB cfg = Ok c ->
  cfg_oprfSuite (sc_config scfg) = 3%N -> cfg_oprfSuite cfg = 3%N -> (cfg_version cfg < 2 ^ 16)%N ->
  same_outcome (Query cfg (n_post (behind (mkDemoServer s store) host)) (str "http://" ++ host ++ t) u p r)
               (run_query c s (kv_Get store) u p r).
Proof. exact query_at. Qed.
Print Assumptions C58_query_at_evaluate.
Theorem C58_query_elsewhere : forall (LIB : OPRF) (s : server LIB) (cfg : Config) (host t path u p : bytes) (r : Blind LIB),
  OPRF_laws LIB -> plain_host host -> plain_tail t -> tail_path t path ->
  path <> str "/evaluate" -> canonical path <> str "/config" ->
  forall answer, Query cfg (n_post (behind s host)) (str "http://" ++ host ++ t) u p r <> Ok answer.
Proof. exact query_elsewhere. Qed.
Print Assumptions C58_query_elsewhere.
(** At /config the text of the configuration is taken for a response: its first
    four bytes (a brace, a quote, v, e) are a version whose low 16 bits are 30309. *)
Theorem C58_query_at_config : forall (LIB : OPRF) (s : server LIB) (cfg : Config) (host t path u p : bytes) (r : Blind LIB),
  OPRF_laws LIB -> plain_host host -> plain_tail t -> tail_path t path ->
  canonical path = str "/config" -> cfg_version cfg <> 30309%N ->
  forall answer, Query cfg (n_post (behind s host)) (str "http://" ++ host ++ t) u p r <> Ok answer.
Proof. exact query_at_config. Qed.
Print Assumptions C58_query_at_config.

(** A URL reaches the server at [host] only if nothing, or a slash, a question
    mark or a number sign, follows the host's name: one whose host is longer
    ("http://localhost:8080.evil/") tells nothing about this server. *)
Theorem C58_other_hosts : forall (LIB : OPRF) (s s' : server LIB) (host url d : bytes),
  (forall t, url = str "http://" ++ host ++ t -> exists c r, t = c :: r /\ ~ In c (str "/?#")) ->
  n_get (behind s host) url = n_get (behind s' host) url /\ n_post (behind s host) url d = n_post (behind s' host) url d.
Proof.
  intros LIB s s' host url d H. assert (N : url_path host url = None).
  { unfold url_path. destruct (strip (str "http://" ++ host) url) as [t|] eqn:E; [|reflexivity].
    assert (X : url = (str "http://" ++ host) ++ t).
    { revert E. generalize (str "http://" ++ host). clear. intros p. revert url. induction p as [|x p IH]; intros url E; [cbn [strip] in E; injection E as ->; reflexivity|].
      destruct url as [|y url]; cbn [strip] in E; [discriminate|]. destruct (Byte.eqb x y) eqn:B; [|discriminate]. apply Byte.byte_dec_bl in B as ->. cbn [app]. f_equal. apply IH, E. }
    rewrite <- app_assoc in X. destruct (H t X) as (c & r & -> & I).
    destruct (existsb (Byte.eqb c) (str "/?#")) eqn:B; [|rewrite andb_false_r; reflexivity].
    exfalso. apply I. apply existsb_exists in B as (y & Y & B). apply Byte.byte_dec_bl in B as ->. exact Y. }
  cbn [behind n_get n_post]. unfold to_server. rewrite N. auto.
Qed.
Print Assumptions C58_other_hosts.
Example C58_example_other_host : forall t, str "http://localhost:8080.evil/config" = str "http://" ++ str "localhost:8080" ++ t ->
  exists c r, t = c :: r /\ ~ In c (str "/?#").
Proof.
  intros t E. change (str "http://localhost:8080.evil/config") with (str "http://" ++ str "localhost:8080" ++ str ".evil/config") in E.
  apply app_inv_head, app_inv_head in E. subst t. eexists _, _. split; [reflexivity|]. cbn. intros [X|[X|[X|[]]]]; discriminate.
Qed.

(** The client program with a target that has anything after the host, be it
    only a final slash: it prints nothing and fails, although with "/" it gets
    the configuration. *)
Theorem C58_target_with_a_path_refuted : forall (LIB : OPRF) (args : list bytes) (fs : files) (srv : server LIB) (blinds : nat -> Blind LIB)
    (o : client_opts) (host x input : bytes) (c : bytes * bytes) (more : list (bytes * bytes)),
  OPRF_laws LIB -> client_flags args = FParsed o -> plain_host host -> co_target o = str "http://" ++ host ++ x ->
  plain_tail x -> ~ In Byte.x3f x -> ~ In Byte.x23 x -> x <> [] ->
  co_dump o = false -> given fs (co_infile o) input -> with_colon (scan_lines input) = c :: more ->
  x_stdout (client_program args fs (behind srv host) blinds) = [] /\ x_status (client_program args fs (behind srv host) blinds) <> 0%N.
Proof. by_input client_with_tail. Qed.
Print Assumptions C58_target_with_a_path_refuted.

Lemma localhost_plain : plain_host (str "localhost:8080").
Proof.
  exists (str "localhost"). split; [discriminate|]. split.
  - intros c I. apply in_str_b. revert c I. apply Forall_forall. repeat constructor.
  - right. exists (str "8080"). split; [discriminate|]. split; [|reflexivity]. intros c I. apply in_str_b. revert c I. apply Forall_forall. repeat constructor.
Qed.
(** Paths and what they resolve to; the defaults of the two programs fit. *)
Example C58_example_paths :
  map (fun p => cleanPath (str p)) ["/evaluate"; "//evaluate"; "/x/../evaluate"; "/./config/"; "/../.."; ""; "/a/b/../c/./d//"; "/..."]%string
  = map str ["/evaluate"; "/evaluate"; "/evaluate"; "/config/"; "/"; "/"; "/a/c/d/"; "/..."]%string
  /\ tidy (str "/evaluate") /\ tidy (str "/config/") /\ ~ tidy (str "//evaluate").
Proof.
  split; [vm_compute; reflexivity|]. split; [apply clean_iff_tidy; reflexivity|]. split; [apply clean_iff_tidy; reflexivity|].
  intros T. apply clean_iff_tidy in T. discriminate.
Qed.
Example C58_example_config : canonical (str "/x/../config") = str "/config" /\ cfg_version DefaultConfig <> 30309%N.
Proof. split; [vm_compute; reflexivity|discriminate]. Qed.
Example C58_example_defaults : forall so co, server_flags [] = FParsed so -> client_flags [] = FParsed co ->
  plain_host (so_listen so) /\ co_target co = str "http://" ++ so_listen so.
Proof.
  intros so co S C. vm_compute in S, C. injection S as <-. injection C as <-. split; [exact localhost_plain|reflexivity].
Qed.
Example C58_example_slash :
  let net := behind ex_srv (str "localhost:8080") in
  let run target := @client_program toy_OPRF (map str ["-infile"; "q.txt"; "-target"; target]%string) ex_cfs net (fun i => N.of_nat (i + 5)) in
  (x_status (run "http://localhost:8080"%string), (0 <? length (x_stdout (run "http://localhost:8080"%string)))%nat) = (0%N, true)
  /\ (x_status (run "http://localhost:8080/"%string), x_stdout (run "http://localhost:8080/"%string)) = (1%N, [])
  /\ x_stdout (@client_program toy_OPRF (map str ["-dump-config"; "-target"; "http://localhost:8080/"]%string) ex_cfs net (fun _ => 5%N))
     = str "{""version"":1,""bucketIDBitSize"":20,""bucketHasher"":1,""slowHasher"":0,""bucketEncryptor"":1,""oprfSuite"":3}"
  /\ n_post net (str "http://localhost:8080/evaluate?x") [] = Ok (400%N, Ok (bad_request ++ internal_error)).
Proof. split; [vm_compute; reflexivity|]. split; [vm_compute; reflexivity|].
  split; [vm_compute; reflexivity|].
  vm_compute. reflexivity. Qed.
