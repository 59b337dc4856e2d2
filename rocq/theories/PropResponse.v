(** * Property C68: what the handlers send and log, also when writes fail
    (cmd/server/server.go:89-137).

    [hruns (h_handler s path body) t b]: the handler for [path], given the
    request body [body], can make the calls [t] of http.ResponseWriter and of
    the log, and returned ([b = true]) or panicked.  What a sequence of calls
    sends is in SpecResponse.v. *)
From Verif Require Import Base BaseProofs Common Oprf OprfGroup Server Client KV Json ConfigJson Scanner Demo
  SpecEntry SpecProtocol SpecHttp Effects HttpEffects SpecResponse ResponseProofs DecodeProofs PropFinalize PropProtocol PropHttp.

(** If all writes work, the response is the one that C26 and C27 are about. *)
Theorem C68_working : forall (LIB : OPRF) (s : server LIB) (path : bytes) (body : res bytes) (t : list call) (b : bool),
  hruns (h_handler s path body) t b -> writes_work t ->
  match handler s path body with
  | Ok w => b = true /\ (status_of t, body_of t) = response_of w
  | _ => b = false
  end.
Proof.
  intros LIB s path body t b H W. pose proof (handler_working _ _ _ _ _ _ H W) as R. destruct b.
  - destruct R as (w & -> & R). auto.
  - destruct R as (m & ->). reflexivity.
Qed.
Print Assumptions C68_working.

(** Whatever becomes of the writes ([dev]), there is such a run: nothing below
    is about no run at all. *)
Theorem C68_runs_exist : forall (LIB : OPRF) (s : server LIB) (path : bytes) (body : res bytes) (dev : nat -> bytes -> nat * bool),
  (forall j d, written d (fst (dev j d)) (snd (dev j d))) ->
  exists t b, hruns (h_handler s path body) t b
    /\ forall j d n ok, nth_error (flat_map (fun c => match c with CWrite d n ok => [(d, n, ok)] | _ => [] end) t) j = Some (d, n, ok) ->
       (n, ok) = dev j d.
Proof. intros LIB s path body dev W. destruct (hruns_exist dev W (h_handler s path body) 0%nat) as (t & b & H & D). exists t, b. split; [exact H|exact D]. Qed.
Print Assumptions C68_runs_exist.

(** Failing writes change neither whether the handler returns nor the status nor
    any header field; if the connection is broken for good, what got out is the
    beginning of what would have got out. *)
Theorem C68_failing_writes : forall (LIB : OPRF) (s : server LIB) (path : bytes) (body : res bytes) (w : writer) (t : list call) (b : bool),
  handler s path body = Ok w -> hruns (h_handler s path body) t b ->
  b = true /\ status_of t = fst (response_of w) /\ (broken_for_good t -> exists rest, snd (response_of w) = body_of t ++ rest).
Proof. exact handler_any. Qed.
Print Assumptions C68_failing_writes.

Theorem C68_headers_do_not_depend_on_writes : forall (LIB : OPRF) (s : server LIB) (path : bytes) (body : res bytes) (t t' : list call) (b b' : bool),
  hruns (h_handler s path body) t b -> hruns (h_handler s path body) t' b' ->
  b = b' /\ status_of t = status_of t' /\ forall name, header_of t name = header_of t' name.
Proof.
  intros LIB s path body t t' b b' H H'. split; [exact (returns_same _ _ _ _ _ _ _ _ H H')|]. destruct (head_same _ _ _ _ _ H H') as [A B].
  split; [exact A|]. intros name. unfold header_of. rewrite B. reflexivity.
Qed.
Print Assumptions C68_headers_do_not_depend_on_writes.

(** Answers to /evaluate are 200 with application/octet-stream, or 400 or 500
    with plain text; the other pages leave the content type to net/http. *)
Theorem C68_content_type : forall (LIB : OPRF) (s : server LIB) (body : res bytes) (t : list call),
  hruns (h_handler s (str "/evaluate") body) t true ->
  (status_of t = 200%N /\ header_of t (str "Content-Type") = Some (str "application/octet-stream") /\ header_of t (str "X-Content-Type-Options") = None)
  \/ (In (status_of t) [400; 500]%N /\ header_of t (str "Content-Type") = Some (str "text/plain; charset=utf-8")
      /\ header_of t (str "X-Content-Type-Options") = Some (str "nosniff")).
Proof. intros LIB s body t. exact (octet_stream_status LIB s body t). Qed.
Print Assumptions C68_content_type.

Theorem C68_other_pages : forall (LIB : OPRF) (s : server LIB) (path : bytes) (body : res bytes) (t : list call) (b : bool),
  path <> str "/evaluate" -> hruns (h_handler s path body) t b -> b = true /\ status_of t = 200%N /\ forall name, header_of t name = None.
Proof.
  intros LIB s path body t b NE H. split; [|split; [|intros name; exact (other_headers _ _ _ _ _ _ _ NE H)]];
    unfold h_handler in H; (destruct (bytes_eqb path (str "/evaluate")) eqn:E; [apply bytes_eqb_eq in E; contradiction|]);
    (destruct (bytes_eqb path (str "/config")); [apply checked_inv in H as [-> H]|apply index_inv in H as (-> & n & ok & _ & ->)]); try reflexivity.
  inversion H; reflexivity.
Qed.
Print Assumptions C68_other_pages.

(** The log: /evaluate logs something exactly when the answer is an error or a
    write failed; /config exactly when a write failed; the welcome page never. *)
Theorem C68_log : forall (LIB : OPRF) (s : server LIB) (body : res bytes) (t : list call),
  (hruns (h_handler s (str "/evaluate") body) t true -> (log_lines t = [] <-> status_of t = 200%N /\ writes_work t))
  /\ (hruns (h_handler s (str "/config") body) t true -> (log_lines t = [] <-> writes_work t))
  /\ (forall path, path <> str "/evaluate" -> path <> str "/config" -> hruns (h_handler s path body) t true -> log_lines t = []).
Proof.
  intros LIB s body t. split; [exact (evaluate_log LIB s body t)|]. split.
  - intros H. apply checked_inv in H as [_ H]. exact (checked_log _ _ H).
  - intros path N1 N2 H. unfold h_handler in H. destruct (bytes_eqb path (str "/evaluate")) eqn:E1; [apply bytes_eqb_eq in E1; contradiction|].
    destruct (bytes_eqb path (str "/config")) eqn:E2; [apply bytes_eqb_eq in E2; contradiction|].
    apply index_inv in H as (_ & n & ok & _ & ->). reflexivity.
Qed.
Print Assumptions C68_log.

(** What gets out of a page: a beginning of it and then, only if a write failed,
    a beginning of the text of the error, under the status that was already
    sent. *)
Theorem C68_body : forall (LIB : OPRF) (s : server LIB) (path : bytes) (body : res bytes) (w : writer) (t : list call) (b : bool),
  handler s path body = Ok w -> fst (response_of w) = 200%N -> hruns (h_handler s path body) t b ->
  status_of t = 200%N
  /\ exists n m, body_of t = firstn n (snd (response_of w)) ++ firstn m internal_error
       /\ ((n < length (snd (response_of w)))%nat \/ m <> 0%nat -> ~ writes_work t).
Proof. exact body_200. Qed.
Print Assumptions C68_body.

(** "A response with status 200 has only bytes of the page in it" is false when
    a write fails and a later one works. *)
Theorem C68_error_text_after_200_refuted :
  ~ (forall (LIB : OPRF) (s : server LIB) (body : res bytes) (t : list call),
       hruns (h_handler s (str "/config") body) t true -> status_of t = 200%N ->
       exists n, body_of t = firstn n (Config_marshal (sc_config (Server_Config (migpServer s))) ++ [Byte.x0a])).
Proof.
  intros H.
  assert (R : hruns (h_handler (mkDemoServer ex_server ex_kv) (str "/config") (Ok []))
    (CWrite (Config_marshal (sc_config (Server_Config ex_server)) ++ [Byte.x0a]) 3 false :: CLog (Error (str "Writing response failed:"))
       :: error_calls (str "Internal Server Error") 500 22 true) true).
  { unfold h_handler. cbn [bytes_eqb]. constructor; [split; [apply Nat.leb_le; vm_compute; reflexivity|discriminate]|]. constructor. constructor. constructor. constructor.
    constructor; [split; [apply Nat.leb_le; vm_compute; reflexivity|intros _; vm_compute; reflexivity]|]. constructor. }
  apply H in R; [|reflexivity]. destruct R as [n R].
  apply (f_equal (fun l => nth_error l 3)) in R. vm_compute in R.
  do 4 (destruct n as [|n]; [discriminate|]). discriminate.
Qed.
Print Assumptions C68_error_text_after_200_refuted.

(** The request "hello" of C27 and a connection that breaks inside the first
    text: status 400, plain text, both errors logged, "Bad" is what gets out. *)
Example C68_example : exists t,
  hruns (h_handler (mkDemoServer ex_server ex_kv) (str "/evaluate") (Ok (str "hello"))) t true
  /\ status_of t = 400%N /\ header_of t (str "Content-Type") = Some (str "text/plain; charset=utf-8")
  /\ body_of t = str "Bad" /\ broken_for_good t /\ ~ writes_work t
  /\ log_lines t = [Error (str "Request body unmarshal failed:"); Error (str "HandleRequest failed:")].
Proof.
  assert (E : h_handler (mkDemoServer ex_server ex_kv) (str "/evaluate") (Ok (str "hello"))
    = HLog (Error (str "Request body unmarshal failed:")) (error_400 (HLog (Error (str "HandleRequest failed:")) (error_500 HDone)))) by (vm_compute; reflexivity).
  rewrite E. exists (CLog (Error (str "Request body unmarshal failed:")) :: error_calls (str "Bad Request") 400 3 false
    ++ CLog (Error (str "HandleRequest failed:")) :: error_calls (str "Internal Server Error") 500 0 false). split.
  { repeat constructor; try discriminate; apply Nat.leb_le; reflexivity. }
  split; [reflexivity|]. split; [reflexivity|]. split; [reflexivity|]. split; [|split; [|reflexivity]].
  - intros a b n r E0 b' n' ok' I0.
    do 4 (destruct a as [|? a]; [discriminate|]; apply cons_eq in E0 as [_ E0]).
    destruct a as [|? a].
    + apply cons_eq in E0 as [_ E0]. subst r. repeat (destruct I0 as [I0|I0]; [first [discriminate I0|inversion I0; reflexivity]|]). contradiction.
    + apply cons_eq in E0 as [_ E0]. do 4 (destruct a as [|? a]; [discriminate|]; apply cons_eq in E0 as [_ E0]).
      destruct a as [|? a]; [apply cons_eq in E0 as [_ E0]; subst r; contradiction|]. apply cons_eq in E0 as [_ E0]. destruct a; discriminate.
  - intros W. specialize (W _ 3%nat false (or_intror (or_intror (or_intror (or_intror (or_introl eq_refl)))))). discriminate.
Qed.
