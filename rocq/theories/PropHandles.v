(** * C84: what migp.Query and the two programs leave open.

    - A call of migp.Query closes the body of the response exactly when the
      status is 200; on every other status the body stays open
      ([C84_query], [C84_left_open], [C84_refused_leak_refuted]).
    - No handle is used before it is opened or after it is closed, and none is
      closed twice ([C84_calls], [C84_client_program], [C84_server_program]).
    - The client program never has more than three things open; after a run
      with status 0 only the body of the answer to GET /config can be open, and
      it is whenever the configuration comes from the server.
    - The server program has at most one file open at a time, and while it
      serves it still holds the breach file unless the input was standard
      input. *)
From Coq Require Import Lia.
From Verif Require Import Base BaseProofs Common Oprf Server Client KV Mutator Json ConfigJson Scanner Demo Flags Url Main
  Handles SpecHandles HandleProofs OprfGroup WireProofs HttpProofs PropFinalize PropProtocol.

Section C84.
Variable LIB : OPRF.

(** One call: the result is that of Query, the events are determined by the
    status of the response. *)
Theorem C84_query : forall (c : call LIB) n,
  let '(_, t, r) := call_h c n in
  r = Query (q_cfg c) (q_post c) (q_url c) (q_user c) (q_pass c) (q_blind c)
  /\ t = match replied c with
         | None => []
         | Some status => if (status =? 200)%N then [Opened n Response; ReadFrom n; Closed n] else [Opened n Response]
         end.
Proof. intros c n. rewrite call_events. split; reflexivity. Qed.

(** Any calls one after the other: events are in order, and what stays open is
    one body for each call that was answered with another status than 200; at
    any moment at most one more is open. *)
Theorem C84_calls : forall cs : list (call LIB),
  in_order (calls_h 0 cs)
  /\ length (still_open (calls_h 0 cs)) = length (filter refused cs)
  /\ at_most_open (length (filter refused cs) + 1) (calls_h 0 cs).
Proof.
  intros cs. pose proof (calls_in_order LIB cs) as O. repeat split; [exact O| |].
  - pose proof (open_count _ O). pose proof (calls_count LIB cs 0). lia.
  - intros a b E. pose proof (calls_prefix LIB cs 0 a b E). rewrite E in O. apply in_order_prefix in O.
    pose proof (open_count _ O). lia.
Qed.

(** "Query releases the connection" is false: against a server that answers
    with an error status, k calls leave k bodies open. *)
Theorem C84_refused_leak_refuted : forall cs : list (call LIB),
  Forall (fun c => exists status, replied c = Some status /\ status <> 200%N) cs ->
  length (still_open (calls_h 0 cs)) = length cs.
Proof.
  intros cs H. destruct (C84_calls cs) as (_ & -> & _). induction H as [|c cs (s & R & N) H IH]; [reflexivity|].
  cbn [filter]. unfold refused at 1. rewrite R. apply N.eqb_neq in N. rewrite N. cbn [negb length]. rewrite IH. reflexivity.
Qed.

Lemma count_le t k : in_order t -> (length (opened t) <= length (closed t) + k)%nat -> (length (still_open t) <= k)%nat.
Proof. intros O H. pose proof (open_count _ O). lia. Qed.

Lemma config_ok o fs net cfg : client_config o fs net = Ok cfg ->
  client_config_h o fs net 0
  = (1%nat, match co_config o with [] => [Opened 0 Response; ReadFrom 0] | _ => [Opened 0 File; ReadFrom 0; Closed 0] end, Ok cfg).
Proof.
  unfold client_config_h, client_config. destruct (co_config o) as [|x name].
  - unfold hbind at 1, hret at 1. destruct (n_get net _) as [[code body]|e|e]; cbn [bind]; [|discriminate..].
    unfold hbind, hopen. destruct (negb (code =? 200)%N); unfold hret, hread; cbn [app]; [discriminate|]. intros ->. reflexivity.
  - destruct (f_open fs (x :: name)) as [data|]; [|discriminate].
    intros E. unfold hbind, hopen, hdefer, hread, hret. cbn [app]. rewrite E. reflexivity.
Qed.

(** The client program. *)
Theorem C84_client_program : forall args fs net (blinds : nat -> Blind LIB),
  let (t, r) := client_program_h args fs net blinds in
  r = client_program args fs net blinds
  /\ in_order t
  /\ at_most_open 3 t.
Proof.
  intros args fs net blinds. unfold client_program_h, client_program.
  destruct (client_flags args) as [o| |].
  2,3: split; [reflexivity|]; split; [intros [|? ?] e a E; discriminate|intros [|? ?] b E; [cbn; lia|discriminate]].
  unfold client_body_h, client_body.
  destruct (config_events o fs net) as (n & t & -> & Ot & Bo & Bc & L1 & _).
  pose proof (ok_in_order t Ot) as It.
  assert (P : at_most_open 3 t).
  { intros a b ->. apply in_order_prefix in It. apply count_le; [exact It|]. rewrite opened_app, app_length in L1. lia. }
  destruct (client_config o fs net) as [cfg|e|e]; [|auto..].
  destruct (co_dump o); [auto|].
  pose proof (query_events LIB o fs net cfg blinds n (opened t) (closed t) Bo Bc) as Q.
  destruct (client_query_h o fs net cfg blinds n) as [t' r]. destruct Q as (-> & Ok' & Pre & _ & _).
  split; [reflexivity|]. assert (O : in_order (t ++ t')) by (apply ok_in_order, ok_app; assumption).
  split; [exact O|]. intros a b E. rewrite E in O. apply in_order_prefix in O.
  apply app_split in E as [(x & E)|(x & -> & E)].
  - apply (P a x E).
  - apply count_le; [exact O|]. apply Pre in E. rewrite opened_app, closed_app, !app_length. lia.
Qed.

(** After a run with status 0 everything is closed but the body of the answer
    to GET /config, which stays open whenever the configuration comes from the
    server. *)
Theorem C84_client_success : forall args fs net (blinds : nat -> Blind LIB) o,
  client_flags args = FParsed o ->
  let (t, r) := client_program_h args fs net blinds in
  x_status r = 0%N ->
  still_open t = match co_config o with [] => [0%nat] | _ => [] end
  /\ (co_config o = [] -> exists t', t = Opened 0 Response :: t').
Proof.
  intros args fs net blinds o F. unfold client_program_h. rewrite F. unfold client_body_h.
  destruct (client_config o fs net) as [cfg|e|e] eqn:CC.
  2,3: destruct (config_events o fs net) as (n & t & -> & _); rewrite CC; cbn [x_status]; discriminate.
  rewrite (config_ok _ _ _ _ CC).
  set (t := match co_config o with [] => [Opened 0 Response; ReadFrom 0] | _ => [Opened 0 File; ReadFrom 0; Closed 0] end).
  assert (T : still_open t = match co_config o with [] => [0%nat] | _ => [] end) by (unfold t; destruct (co_config o); reflexivity).
  assert (H0 : forall t'', co_config o = [] -> exists t', t ++ t'' = Opened 0 Response :: t').
  { intros t'' E. unfold t. rewrite E. cbn [app]. eauto. }
  destruct (co_dump o).
  { cbn [x_status]. intros _. split; [exact T|]. intros E. destruct (H0 [] E) as (t' & X). rewrite app_nil_r in X. eauto. }
  assert (Ot : ok_from [] [] t) by (unfold t; destruct (co_config o); cbn; tauto).
  assert (Bo : forall h, In h (opened t) -> (h < 1)%nat) by (unfold t; destruct (co_config o); cbn; intros h [<-|[]]; lia).
  assert (Bc : forall h, In h (closed t) -> (h < 1)%nat) by (unfold t; destruct (co_config o); cbn; [intros h []|intros h [<-|[]]; lia]).
  pose proof (query_events LIB o fs net cfg blinds 1 (opened t) (closed t) Bo Bc) as Q.
  destruct (client_query_h o fs net cfg blinds 1) as [t' r]. destruct Q as (-> & Ok' & _ & Z & Ab).
  assert (O : in_order (t ++ t')) by (apply ok_in_order, ok_app; assumption).
  intros X0. apply Z in X0. split; [|apply H0].
  assert (Len : length (still_open (t ++ t')) = length (still_open t)).
  { pose proof (open_count _ O) as A. rewrite opened_app, closed_app, !app_length in A.
    pose proof (open_count _ (ok_in_order _ Ot)). lia. }
  rewrite T in *. destruct (co_config o) as [|x l] eqn:Co.
  - assert (I : In 0%nat (still_open (t ++ t'))).
    { apply still_in. rewrite opened_app, closed_app. unfold t at 1 2. split; [left; reflexivity|].
      cbn [closed flat_map app]. intros H. apply Ab in H. lia. }
    destruct (still_open (t ++ t')) as [|h [|? ?]]; cbn [length] in Len; try lia. destruct I as [<-|[]]. reflexivity.
  - destruct (still_open (t ++ t')); [reflexivity|discriminate].
Qed.

(** The server program. *)
Theorem C84_server_program : forall args fs (gen : res (PrivateKey LIB)),
  let (t, r) := server_program_h args fs gen in
  r = server_program args fs gen
  /\ in_order t
  /\ at_most_open 1 t
  /\ forall o addr s a b, server_flags args = FParsed o -> r = SServing addr s a b ->
     (length (still_open t) = 1%nat <-> so_infile o <> str "-")
     /\ (still_open t = [] <-> so_infile o = str "-").
Proof.
  assert (OkLe : forall t, ok_from [] [] t -> (forall a b, t = a ++ b -> (length (opened a) <= length (closed a) + 1)%nat) ->
    in_order t /\ at_most_open 1 t).
  { intros t A B. pose proof (ok_in_order _ A) as O. split; [exact O|]. intros a b E. pose proof (B a b E). rewrite E in O.
    apply in_order_prefix in O. apply count_le; assumption. }
  assert (PreN : forall (t : list hevent) k, forallb (fun i => length (opened (firstn i t)) <=? length (closed (firstn i t)) + k)%nat (seq 0 (length t + 1)) = true ->
    forall a b, t = a ++ b -> (length (opened a) <= length (closed a) + k)%nat).
  { intros t k H a b ->. rewrite forallb_forall in H. specialize (H (length a)). rewrite firstn_app, Nat.sub_diag, firstn_all, firstn_O, app_nil_r in H.
    apply Nat.leb_le, H. apply in_seq. rewrite app_length. lia. }
  intros args fs gen. unfold server_program_h, server_program.
  destruct (server_flags args) as [o| |].
  2,3: split; [reflexivity|]; split; [intros [|? ?] e a E; discriminate|]; split; [intros [|? ?] b E; [cbn; lia|discriminate]|intros; discriminate].
  unfold server_body.
  assert (C : exists n t, server_config_h o fs gen 0 = (n, t, server_config o fs gen)
     /\ (n = 0%nat /\ t = [] \/ n = 1%nat /\ t = [Opened 0 File; ReadFrom 0; Closed 0])).
  { unfold server_config_h, server_config. destruct (so_config o) as [|x name]; [exists 0%nat, []; auto|].
    destruct (f_open fs (x :: name)) as [data|]; [|exists 0%nat, []; auto].
    exists 1%nat, [Opened 0 File; ReadFrom 0; Closed 0]. split; [|auto].
    unfold hbind, hopen, hdefer, hread, hret. cbn [app]. destruct (ServerConfig_UnmarshalJSON LIB 64 data); reflexivity. }
  destruct C as (n & t & -> & C).
  assert (Q0 : in_order t /\ at_most_open 1 t).
  { destruct C as [[-> ->]|[-> ->]]; apply OkLe; try (cbn; tauto); apply PreN; reflexivity. }
  destruct (server_config o fs gen) as [cfg|e|e].
  2,3: repeat split; [apply Q0|apply Q0|intros; discriminate..].
  destruct (so_dump o).
  { split; [reflexivity|]. split; [apply Q0|]. split; [apply Q0|]. intros o' addr s a b _ E.
    destruct (ServerConfig_MarshalJSON cfg); discriminate. }
  unfold server_serve_h, server_serve, input_of.
  destruct (newServer cfg) as [srv|e|e].
  2,3: rewrite app_nil_r; repeat split; [apply Q0|apply Q0|intros; discriminate..].
  destruct (bytes_eqb (so_infile o) (str "-")) eqn:D; cbn [negb].
  - apply bytes_eqb_eq in D.
    destruct (server_ingest _ _ _ _ _ _) as [st|e|e]; cbn [app]; rewrite app_nil_r; (split; [reflexivity|]; split; [apply Q0|]; split; [apply Q0|]).
    2,3: intros; discriminate.
    intros o' addr s a b Eo _. injection Eo as <-.
    assert (Z : still_open t = []) by (destruct C as [[-> ->]|[-> ->]]; reflexivity). rewrite Z.
    split; split; intros; congruence || discriminate.
  - assert (D' : so_infile o <> str "-") by (intros X; apply bytes_eqb_eq in X; congruence).
    destruct (f_open fs (so_infile o)) as [input|].
    2: rewrite app_nil_r; repeat split; [apply Q0|apply Q0|intros; discriminate..].
    destruct (server_ingest _ _ _ _ _ _) as [st|e|e]; (split; [reflexivity|]).
    + assert (OO : in_order (t ++ [Opened n File; ReadFrom n]) /\ at_most_open 1 (t ++ [Opened n File; ReadFrom n])).
      { destruct C as [[-> ->]|[-> ->]]; apply OkLe; try (cbn; intuition lia); apply PreN; reflexivity. }
      split; [apply OO|]. split; [apply OO|]. intros o' addr s a b Eo _. injection Eo as <-.
      assert (Z : still_open (t ++ [Opened n File; ReadFrom n]) = [n]) by (destruct C as [[-> ->]|[-> ->]]; reflexivity). rewrite Z.
      split; split; intros; congruence || discriminate || reflexivity.
    + assert (OO : in_order (t ++ [Opened n File; ReadFrom n] ++ [Closed n]) /\ at_most_open 1 (t ++ [Opened n File; ReadFrom n] ++ [Closed n])).
      { destruct C as [[-> ->]|[-> ->]]; apply OkLe; try (cbn; intuition lia); apply PreN; reflexivity. }
      split; [apply OO|]. split; [apply OO|]. intros; discriminate.
    + assert (OO : in_order (t ++ [Opened n File; ReadFrom n] ++ [Closed n]) /\ at_most_open 1 (t ++ [Opened n File; ReadFrom n] ++ [Closed n])).
      { destruct C as [[-> ->]|[-> ->]]; apply OkLe; try (cbn; intuition lia); apply PreN; reflexivity. }
      split; [apply OO|]. split; [apply OO|]. intros; discriminate.
Qed.
End C84.
Print Assumptions C84_query.
Print Assumptions C84_calls.
Print Assumptions C84_refused_leak_refuted.
Print Assumptions C84_client_program.
Print Assumptions C84_client_success.
Print Assumptions C84_server_program.

(** A server that is overloaded, and a client that tries as often as it
    likes: one body stays open for each attempt. *)
Definition ex_busy : transport := fun _ _ => Ok (503%N, Ok (str "busy")).
Definition ex_call (r : N) : call toy_OPRF := @mkCall toy_OPRF ex_cfg ex_busy (str "http://localhost:8080/evaluate") (str "alice") (str "pw") r.
Example C84_example_replied : forall r, replied (ex_call r) = Some 503%N.
Proof.
  intros r. unfold replied, ex_call, Query_posts. cbn [q_cfg q_post q_url q_user q_pass q_blind].
  destruct (request_total toy_OPRF ex_cfg ex_client (str "alice") (str "pw") r toy_OPRF_laws) as (rq & ctx & R);
    [reflexivity|cbn; lia|cbn; lia|cbn; lia|].
  replace (NewClient toy_OPRF ex_cfg) with (Ok ex_client) by reflexivity. rewrite R. reflexivity.
Qed.
Example C84_example : forall k, length (still_open (calls_h 0 (map (fun i => ex_call (N.of_nat i)) (seq 0 k)))) = k.
Proof.
  intros k. rewrite C84_refused_leak_refuted; [rewrite map_length; apply seq_length|].
  apply Forall_forall. intros c H. apply in_map_iff in H as (i & <- & _). exists 503%N. split; [apply C84_example_replied|discriminate].
Qed.

(** The client program without arguments, against a server that gives a
    configuration, and with nothing to ask: status 0, and one body is open. *)
Definition ex_net84 : network := mkNetwork (fun _ => Ok (200%N, Config_marshal ex_cfg)) ex_busy.
Example C84_example_program : exists t r,
  @client_program_h toy_OPRF [] (mkFiles (fun _ => None) []) ex_net84 (fun _ => 5%N) = (t, r)
  /\ x_status r = 0%N /\ still_open t = [0%nat].
Proof.
  pose proof (C84_client_success toy_OPRF [] (mkFiles (fun _ => None) []) ex_net84 (fun _ => 5%N) client_defaults eq_refl) as H.
  pose proof (C84_client_program toy_OPRF [] (mkFiles (fun _ => None) []) ex_net84 (fun _ => 5%N)) as P.
  destruct (client_program_h [] _ _ _) as [t r]. destruct P as (R & _). exists t, r. split; [reflexivity|].
  assert (X : x_status r = 0%N).
  { rewrite R. unfold client_program. replace (client_flags []) with (FParsed client_defaults) by reflexivity.
    unfold client_body, client_config. cbn [co_config client_defaults]. cbn [n_get ex_net84 bind N.eqb Pos.eqb negb].
    pose proof (config_decode 64 ex_cfg []) as D. rewrite app_nil_r in D. rewrite D by (split; [repeat split|split; [discriminate|reflexivity]]). reflexivity. }
  split; [exact X|]. apply H. exact X.
Qed.
