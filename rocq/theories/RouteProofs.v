(** * Proofs about routing: which handler a URL reaches. *)
From Verif Require Import Base BaseProofs Common Oprf Server Client KV Mutator Json ConfigJson Scanner Url Demo Flags Main.
From Verif Require Import SpecProtocol SpecDemo SpecHttp SpecMain ProtocolProofs UrlProofs HttpProofs MainProofs IngestProofs.

Definition welcome_page : bytes := str "Welcome to the MIGP demo server" ++ [Byte.x0a].

Section Route.
Variable LIB : OPRF.

Definition page_of (w : res writer) : res (N * bytes) := match w with Ok w => Ok (response_of w) | _ => Err "EOF" end.

Lemma mux_tidy (s : server LIB) p body : tidy p -> mux s p body = Page (handler s p body).
Proof. intros T. unfold mux. rewrite (proj2 (clean_iff_tidy p) T), bytes_eqb_refl. reflexivity. Qed.
Lemma mux_untidy (s : server LIB) p body : ~ tidy p -> mux s p body = MovedTo (canonical p).
Proof.
  intros T. unfold mux. rewrite cleanPath_canonical. destruct (bytes_eqb (canonical p) p) eqn:E; [|reflexivity].
  apply bytes_eqb_eq in E. exfalso. apply T. rewrite <- E. apply canonical_tidy.
Qed.
Lemma tidy_dec p : tidy p \/ ~ tidy p.
Proof.
  destruct (bytes_eqb (cleanPath p) p) eqn:E.
  - left. apply clean_iff_tidy, bytes_eqb_eq, E.
  - right. intros T. apply clean_iff_tidy in T. rewrite T, bytes_eqb_refl in E. discriminate.
Qed.

Lemma follow_tidy n (s : server LIB) p : tidy p -> follow_get (S n) s p = page_of (handler s p (Ok [])).
Proof. intros T. cbn [follow_get]. rewrite mux_tidy by exact T. destruct (handler s p (Ok [])); reflexivity. Qed.
Lemma get_at (s : server LIB) p : http_get s p = page_of (handler s (canonical p) (Ok [])).
Proof.
  unfold http_get. destruct (tidy_dec p) as [T|T].
  - rewrite follow_tidy by exact T. rewrite (tidy_canonical p T). reflexivity.
  - change (follow_get 10 s p) with (match mux s p (Ok []) with Page (Ok w) => Ok (response_of w) | Page _ => Err "EOF"%string | MovedTo p => follow_get 9 s p end).
    rewrite mux_untidy by exact T. apply follow_tidy, canonical_tidy.
Qed.
Lemma post_tidy (s : server LIB) p d : tidy p -> http_post s p d = page_of (handler s p (Ok d)).
Proof. intros T. unfold http_post. rewrite mux_tidy by exact T. destruct (handler s p (Ok d)); reflexivity. Qed.
Lemma post_untidy (s : server LIB) p d : ~ tidy p -> http_post s p d = http_get s p.
Proof. intros T. rewrite get_at. unfold http_post. rewrite mux_untidy by exact T. apply follow_tidy, canonical_tidy. Qed.

Lemma empty_body_unmarshal : exists rq e, ClientRequest_unmarshal [] = (rq, Some e).
Proof. eexists _, _. vm_compute. reflexivity. Qed.
Lemma evaluate_without_body (s : server LIB) : OPRF_laws LIB -> exists w, handleEvaluate s (Ok []) = Ok w /\ fst (response_of w) = 400%N.
Proof.
  intros L. destruct empty_body_unmarshal as (rq & e & U).
  destruct (evaluate_bad_json LIB s [] rq e U (fun m => handle_panic_free LIB s rq m L)) as (w & E & R). exists w. rewrite R. auto.
Qed.

Lemma handler_evaluate (s : server LIB) body : handler s (str "/evaluate") body = handleEvaluate s body.
Proof. reflexivity. Qed.
Lemma handler_config (s : server LIB) body : handler s (str "/config") body = handleConfig s.
Proof. reflexivity. Qed.
Lemma handler_other (s : server LIB) p body : p <> str "/evaluate" -> p <> str "/config" -> handler s p body = handleIndex.
Proof.
  intros A B. unfold handler. destruct (bytes_eqb p (str "/evaluate")) eqn:E1; [apply bytes_eqb_eq in E1; contradiction|].
  destruct (bytes_eqb p (str "/config")) eqn:E2; [apply bytes_eqb_eq in E2; contradiction|]. reflexivity.
Qed.

Lemma get_answers (s : server LIB) host t p : OPRF_laws LIB -> plain_host host -> plain_tail t -> tail_path t p ->
  let answer := n_get (behind s host) (str "http://" ++ host ++ t) in
  (canonical p = str "/config" -> answer = Ok (200%N, Config_marshal (sc_config (Server_Config (migpServer s))) ++ [Byte.x0a])) /\
  (canonical p = str "/evaluate" -> exists page, answer = Ok (400%N, page)) /\
  (canonical p <> str "/config" -> canonical p <> str "/evaluate" -> answer = Ok (200%N, welcome_page)).
Proof.
  intros L H T P answer. assert (A : answer = page_of (handler s (canonical p) (Ok []))).
  { unfold answer. cbn [behind n_get]. rewrite (url_path_at host t p H T P). apply get_at. }
  rewrite A. split; [intros ->; reflexivity|]. split.
  - intros ->. rewrite handler_evaluate. destruct (evaluate_without_body s L) as (w & -> & C). cbn [page_of].
    destruct (response_of w) as [code page]. cbn [fst] in C. subst code. eauto.
  - intros B C. rewrite handler_other by assumption. reflexivity.
Qed.

Lemma to_server_at (s : server LIB) host t p d : plain_host host -> plain_tail t -> tail_path t p ->
  n_post (behind s host) (str "http://" ++ host ++ t) d = match http_post s p d with Ok (code, page) => Ok (code, Ok page) | Err m => Err m | Panic m => Panic m end.
Proof.
  intros H T P. cbn [behind n_post]. unfold to_server. rewrite (url_path_at host t p H T P). destruct (http_post s p d) as [[code page]| |]; reflexivity.
Qed.

Lemma post_answers (s : server LIB) host t p d : OPRF_laws LIB -> plain_host host -> plain_tail t -> tail_path t p ->
  let url := str "http://" ++ host ++ t in
  (p = str "/evaluate" -> exists w, handleEvaluate s (Ok d) = Ok w /\ n_post (behind s host) url d = Ok (fst (response_of w), Ok (snd (response_of w)))) /\
  (p <> str "/evaluate" -> exists code page, n_get (behind s host) url = Ok (code, page) /\ n_post (behind s host) url d = Ok (code, Ok page)).
Proof.
  intros L H T P url. unfold url. rewrite (to_server_at s host t p d H T P). split.
  - intros ->. destruct (evaluate_total LIB s (Ok d) L ltac:(discriminate)) as (w & E). exists w. split; [exact E|].
    rewrite post_tidy; [|apply clean_iff_tidy; reflexivity]. rewrite handler_evaluate, E. cbn [page_of]. destruct (response_of w); reflexivity.
  - intros N. assert (G : http_post s p d = http_get s p).
    { destruct (tidy_dec p) as [Tp|Tp]; [|apply post_untidy; exact Tp]. rewrite (post_tidy s p d Tp), get_at, (tidy_canonical p Tp).
      unfold handler. destruct (bytes_eqb p (str "/evaluate")) eqn:E; [apply bytes_eqb_eq in E; contradiction|]. reflexivity. }
    rewrite G. cbn [behind n_get]. rewrite (url_path_at host t p H T P).
    destruct (get_answers s host t p L H T P) as (A & B & C). cbn [behind n_get] in A, B, C. rewrite (url_path_at host t p H T P) in A, B, C.
    destruct (list_eq_dec Byte.byte_eq_dec (canonical p) (str "/config")) as [E1|E1]; [rewrite (A E1); eauto|].
    destruct (list_eq_dec Byte.byte_eq_dec (canonical p) (str "/evaluate")) as [E2|E2]; [destruct (B E2) as (page & ->); eauto|].
    rewrite (C E1 E2). eauto.
Qed.

Lemma query_elsewhere (s : server LIB) cfg host t p u pw (r : Blind LIB) : OPRF_laws LIB -> plain_host host -> plain_tail t -> tail_path t p ->
  p <> str "/evaluate" -> canonical p <> str "/config" ->
  forall a, Query cfg (n_post (behind s host)) (str "http://" ++ host ++ t) u pw r <> Ok a.
Proof.
  intros L H T P N C a Q. unfold Query in Q.
  destruct (NewClient LIB cfg) as [c|m|m]; [|discriminate..]. cbn [bind] in Q.
  destruct (Request c u pw r) as [[rq ctx]|m|m]; [|discriminate..]. cbn [bind] in Q.
  destruct (proj2 (post_answers s host t p (ClientRequest_marshal rq) L H T P) N) as (code & page & G & E). rewrite E in Q. cbn [bind] in Q.
  destruct (get_answers s host t p L H T P) as (_ & B & D).
  destruct (list_eq_dec Byte.byte_eq_dec (canonical p) (str "/evaluate")) as [E2|E2].
  - destruct (B E2) as (page' & G'). rewrite G in G'. apply Ok_inj, pair_inj in G' as [-> ->]. discriminate.
  - specialize (D C E2). rewrite G in D. apply Ok_inj, pair_inj in D as [-> ->].
    change (negb (200 =? 200)%N) with false in Q. cbv iota in Q. cbn [bind] in Q.
    unfold UnmarshalBinary, DefaultOPRFSuite in Q. rewrite (law_default_size _ L) in Q. discriminate.
Qed.

(** POST to the page of the configuration: its text starts with the bytes that
    are read as version 30309. *)
Lemma config_starts c : exists rest, Config_marshal c = Byte.x7b :: Byte.x22 :: Byte.x76 :: Byte.x65 :: rest.
Proof. unfold Config_marshal. eexists. cbn [config_names combine config_values json_struct app str]. reflexivity. Qed.
Lemma request_client c u p (r : Blind LIB) rq ctx : Request c u p r = Ok (rq, ctx) -> ctx_client ctx = c.
Proof.
  unfold Request. intros H. repeat (apply bind_ok in H as (? & _ & H) || (destruct (existsb _ _) in H; try discriminate)).
  match type of H with context[match ?e with _ => _ end] => destruct e; try discriminate end.
  repeat (apply bind_ok in H as (? & _ & H)). apply Ok_inj, pair_inj in H as [_ <-]. reflexivity.
Qed.
Lemma query_at_config (s : server LIB) cfg host t p u pw (r : Blind LIB) : OPRF_laws LIB -> plain_host host -> plain_tail t -> tail_path t p ->
  canonical p = str "/config" -> cfg_version cfg <> 30309%N ->
  forall a, Query cfg (n_post (behind s host)) (str "http://" ++ host ++ t) u pw r <> Ok a.
Proof.
  intros L H T P C V a Q. unfold Query in Q.
  destruct (NewClient LIB cfg) as [c|m|m] eqn:Nc; [|discriminate..]. cbn [bind] in Q.
  destruct (Request c u pw r) as [[rq ctx]|m|m] eqn:Rq; [|discriminate..]. cbn [bind] in Q.
  assert (N : p <> str "/evaluate"). { intros ->. vm_compute in C. discriminate. }
  destruct (proj2 (post_answers s host t p (ClientRequest_marshal rq) L H T P) N) as (code & page & G & E). rewrite E in Q. cbn [bind] in Q.
  destruct (get_answers s host t p L H T P) as (A & _ & _). rewrite (A C) in G. apply Ok_inj, pair_inj in G as [<- <-].
  change (negb (200 =? 200)%N) with false in Q. cbv iota in Q. cbn [bind] in Q.
  apply bind_ok in Q as (resp & U & Q).
  assert (RV : rs_version resp = 2065856101%N).
  { destruct (config_starts (sc_config (Server_Config (migpServer s)))) as (rest & CS). rewrite CS in U. unfold UnmarshalBinary in U. cbn [app length Nat.ltb Nat.leb get_be32 bind skipn] in U.
    apply bind_ok in U as (n & _ & U). destruct (_ && _); [discriminate|]. destruct (negb _); [discriminate|]. apply Ok_inj in U. subst resp. reflexivity. }
  assert (F : Finalize ctx resp = Err "wrong version in reply").
  { unfold Finalize, Finalize_fuel, finalize_secret. rewrite RV, (request_client _ _ _ _ _ _ Rq). apply NewClient_inv in Nc as (_ & _ & _ & _ & -> & _).
    change (u16 2065856101) with 30309%N. destruct (N.eqb_spec 30309 (cfg_version cfg)) as [X|X]; [congruence|reflexivity]. }
  rewrite F in Q. discriminate.
Qed.

(** ** The client program with something behind the host in its target. *)
Lemma two_segments x s : (2 <= length (segments (x ++ slash :: s)))%nat.
Proof.
  induction x as [|d x IHx]; cbn [app].
  - rewrite segments_slash. destruct (segments_cons s) as (? & ? & ->). cbn [length]. lia.
  - destruct (is_slash d) eqn:Sd.
    + pose proof (proj1 (is_slash_true d) Sd) as ->. rewrite segments_slash. cbn [length]. lia.
    + destruct (segments_cons (x ++ slash :: s)) as (s0 & ss0 & E). rewrite (segments_char d _ s0 ss0 (proj1 (is_slash_false d) Sd) E).
      rewrite E in IHx. exact IHx.
Qed.
Lemma last_segment x s : ~ In slash s -> s <> [] -> exists ss, segments (x ++ slash :: s) = ss ++ [s].
Proof.
  intros N NE. induction x as [|c x (ss & IH)].
  - exists [[]]. cbn [app]. rewrite segments_slash, segments_one by exact N. reflexivity.
  - cbn [app]. destruct (is_slash c) eqn:Sc.
    + pose proof (proj1 (is_slash_true c) Sc) as ->. rewrite segments_slash, IH. exists ([] :: ss). reflexivity.
    + pose proof (proj1 (is_slash_false c) Sc) as Nc. destruct (segments_cons (x ++ slash :: s)) as (s0 & ss0 & E). rewrite (segments_char c _ s0 ss0 Nc E).
      rewrite IH in E. destruct ss as [|a ss].
      * exfalso. pose proof (two_segments x s) as G2. rewrite IH in G2. cbn in G2. lia.
      * apply cons_eq in E as [-> <-]. exists ((c :: s0) :: ss). reflexivity.
Qed.
Lemma canonical_last x s : ordinary s -> forall q, canonical (x ++ slash :: s) = slash :: q -> ~ In slash q -> q = s.
Proof.
  intros O q C NQ. pose proof O as (NE & _ & _ & NI). destruct (last_segment x s NI NE) as (ss & E).
  assert (R : exists st, resolve (x ++ slash :: s) = st ++ [s]).
  { unfold resolve. rewrite E, fold_left_app. cbn [fold_left]. destruct O as (A & B & D & _). rewrite walk_push by assumption. cbn [rev]. eauto. }
  destruct R as (st & R). unfold canonical in C. rewrite R in C.
  assert (LS : Byte.eqb (last (x ++ slash :: s) Byte.x00) slash_ = false).
  { destruct (@exists_last _ s NE) as (s' & c & ->).
    assert (EQ : last (x ++ slash :: s' ++ [c]) Byte.x00 = c).
    { change (x ++ slash :: s' ++ [c]) with (x ++ (slash :: s') ++ [c]). rewrite app_assoc. apply last_last. }
    rewrite EQ. apply (proj2 (is_slash_false c)). intros ->. apply NI, in_app_iff. right. now left. }
  rewrite LS in C. destruct st as [|a st].
  - cbn [app] in C. unfold absolute in C. cbn [flat_map] in C. rewrite !app_nil_r in C. apply cons_eq in C as [_ C]. symmetry. exact C.
  - exfalso. apply NQ. cbn [app] in C. unfold absolute in C. cbn [flat_map] in C. rewrite app_nil_r in C. cbn [app] in C. apply cons_eq in C as [_ C].
    rewrite <- C. rewrite flat_map_app. cbn [flat_map]. apply in_app_iff. right. apply in_app_iff. right. now left.
Qed.

Lemma tail_evaluate x : plain_tail x -> ~ In Byte.x3f x -> ~ In Byte.x23 x -> forall e, e = str "/evaluate" \/ e = str "/config" ->
  plain_tail (x ++ e) /\ tail_path (x ++ e) (x ++ e).
Proof.
  intros [P1 P2] NQ NF e E. assert (Ec : exists r, e = slash :: r) by (destruct E as [->| ->]; eexists; reflexivity).
  assert (Ee : forall c, In c e -> In c (letters_digits ++ str "-._~/?#=&")).
  { intros c I. apply in_str_b. assert (F : forallb (fun c => existsb (Byte.eqb c) (letters_digits ++ str "-._~/?#=&")) e = true) by (destruct E as [->| ->]; vm_compute; reflexivity).
    rewrite forallb_forall in F. apply F. exact I. }
  assert (Eq : forall c, In c e -> ~ In c (str "?#")).
  { intros c I K. assert (F : forallb (fun c => negb (existsb (Byte.eqb c) (str "?#"))) e = true) by (destruct E as [->| ->]; vm_compute; reflexivity).
    rewrite forallb_forall in F. specialize (F c I). apply in_str_b in K. rewrite K in F. discriminate. }
  split.
  - split; [intros c I; apply in_app_iff in I as [I|I]; auto|]. right. destruct Ec as (r & ->).
    destruct P2 as [->|(c & r' & -> & I)]; [exists slash, r; split; [reflexivity|left; reflexivity]|]. exists c, (r' ++ slash :: r). auto.
  - exists (x ++ e), []. split; [symmetry; apply app_nil_r|]. split.
    + intros c I K. apply in_app_iff in I as [I|I]; [|eapply Eq; eassumption]. destruct K as [<-|[<-|[]]]; [apply NQ|apply NF]; exact I.
    + split; [left; reflexivity|]. destruct Ec as (r & ->). destruct x; reflexivity.
Qed.

Lemma client_with_tail args fs (srv : server LIB) (blinds : nat -> Blind LIB) o host x input c more :
  OPRF_laws LIB -> client_flags args = FParsed o -> plain_host host -> co_target o = str "http://" ++ host ++ x ->
  plain_tail x -> ~ In Byte.x3f x -> ~ In Byte.x23 x -> x <> [] ->
  co_dump o = false -> input_of fs (co_infile o) = Some input -> with_colon (scan_lines input) = c :: more ->
  x_stdout (client_program args fs (behind srv host) blinds) = [] /\ x_status (client_program args fs (behind srv host) blinds) <> 0%N.
Proof.
  intros L F H T P NQ NF NE D I W. unfold client_program. rewrite F. unfold client_body.
  destruct (client_config o fs (behind srv host)) as [cfg|m|m]; [|cbn; split; [reflexivity|discriminate]..]. rewrite D.
  unfold client_query. rewrite I. unfold client_main.
  assert (Q : forall u p (r : Blind LIB) a, Query cfg (n_post (behind srv host)) (co_target o ++ str "/evaluate") u p r <> Ok a).
  { intros u p r a. rewrite T, <- !app_assoc. destruct (tail_evaluate x P NQ NF (str "/evaluate") (or_introl eq_refl)) as [P' TP].
    apply (query_elsewhere srv cfg host (x ++ str "/evaluate") (x ++ str "/evaluate") u p r L H P' TP).
    - intros E. apply NE. apply (f_equal (@length byte)) in E. rewrite app_length in E. destruct x; [reflexivity|cbn [length] in E; lia].
    - intros E. pose proof (canonical_last x (str "evaluate")) as K. change (str "/evaluate") with (slash :: str "evaluate") in E.
      specialize (K ltac:(split; [discriminate|split; [discriminate|split; [discriminate|cbn; intuition discriminate]]]) (str "config") E ltac:(cbn; intuition discriminate)).
      discriminate. }
  clear D I. revert W. generalize 0%nat. induction (scan_lines input) as [|l ls IH]; intros i W; [discriminate|].
  cbn [with_colon flat_map] in W. cbn [client_lines]. destruct (split_colon l) as [[u p]|] eqn:S; [|apply IH; exact W].
  destruct (Query cfg _ _ u p (blinds i)) as [a|m|m] eqn:E; [exfalso; eapply Q; exact E|..]; cbn; (split; [reflexivity|discriminate]).
Qed.

(** The query works whenever the path is exactly /evaluate. *)
Lemma query_at (scfg : ServerConfig LIB) (s : Server LIB) (cfg : Config) (c : Client) (store : kvStore) host t u p (r : Blind LIB) :
  plain_host host -> plain_tail t -> tail_path t (str "/evaluate") -> OPRF_laws LIB -> NewServer scfg = Ok s -> NewClient LIB cfg = Ok c ->
  cfg_oprfSuite (sc_config scfg) = 3%N -> cfg_oprfSuite cfg = 3%N -> (cfg_version cfg < 2 ^ 16)%N ->
  same_outcome (Query cfg (n_post (behind (mkDemoServer s store) host)) (str "http://" ++ host ++ t) u p r) (run_query c s (kv_Get store) u p r).
Proof. intros H T P. apply query_http_at. apply url_path_at; assumption. Qed.
End Route.
