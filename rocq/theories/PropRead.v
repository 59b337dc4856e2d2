(** * Property C89: bodies that arrive piece by piece.  migp.Query and the
    handler of /evaluate read the body of their peer to its end before they look
    at it.  So how it is cut into pieces does not matter, a connection that
    breaks gives an error and never an answer from a part of the body; but there
    is no limit of time or size: a peer that goes on sending keeps the program
    waiting for ever, with all that was sent in memory.

    [s : stream]: what the peer sends, piece after piece; [ends_at s n e]: the
    body ends in the way e with piece n; [endless s]: it never ends;
    [Query_read grow k]: migp.Query when the read loop has made k rounds, [None]
    while it is still reading; [grow]: how append enlarges a slice.  See
    ReadBody.v, SpecRead.v. *)
From Coq Require Import Lia.
From Verif Require Import Base BaseProofs Common Hasher Oprf OprfGroup Server Client KV Json ConfigJson Scanner Demo Main SpecEntry SpecProtocol ReadBody SpecRead ReadProofs PropFinalize PropProtocol.

(** ** ReadAll returns the bytes of all pieces, once the body has ended, and
    not before. *)
Theorem C89_whole_body : forall (grow : nat -> nat), grows grow -> forall (s : stream) (n : nat) (e : ending), ends_at s n e ->
  exists k0, forall k, (k0 <= k)%nat -> ReadAll grow k s = Some (first_pieces s (S n), read_error e).
Proof. exact reads_whole. Qed.
Print Assumptions C89_whole_body.

Theorem C89_not_before_the_end : forall (grow : nat -> nat), grows grow -> forall (s : stream) (k : nat) (b : bytes) (err : option string),
  ReadAll grow k s = Some (b, err) -> exists n e, ends_at s n e /\ b = first_pieces s (S n) /\ err = read_error e.
Proof. exact returns_ended. Qed.
Print Assumptions C89_not_before_the_end.

(** ** migp.Query: with bodies that end, it is the function of the whole bodies
    (Query of Demo.v, of which the other properties speak). *)
Theorem C89_query : forall (grow : nat -> nat), grows grow ->
  forall (LIB : OPRF) (cfg : Config) (post : transport_s) (post' : transport) (url u p : bytes) (r : Blind LIB),
  (forall payload, match post url payload with
                   | Ok (code, s) => exists n e, ends_at s n e /\ post' url payload = Ok (code, whole s n e)
                   | Err m => post' url payload = Err m
                   | Panic m => post' url payload = Panic m
                   end) ->
  exists k0, forall k, (k0 <= k)%nat -> Query_read grow k cfg post url u p r = Some (Query cfg post' url u p r).
Proof.
  intros grow G LIB cfg post post' url u p r H. unfold Query_read, Query.
  destruct (NewClient LIB cfg) as [c|e|m]; cbn [bind]; [|exists 0; reflexivity..].
  destruct (Request c u p r) as [[rq ctx]|e|m]; cbn [bind]; [|exists 0; reflexivity..].
  specialize (H (ClientRequest_marshal rq)). destruct (post url (ClientRequest_marshal rq)) as [[code s]|e|m]; [|rewrite H; exists 0; reflexivity..].
  destruct H as (n & e & En & ->). cbn [bind]. destruct (negb (code =? 200)%N); [exists 0; reflexivity|].
  destruct (reads_whole grow G s n e En) as (k0 & K). exists k0. intros k L. rewrite (K k L). destruct e; reflexivity.
Qed.
Print Assumptions C89_query.

(** A status other than 200 is reported without reading the body. *)
Theorem C89_refusal_is_not_read : forall (grow : nat -> nat) (LIB : OPRF) (cfg : Config) (post : transport_s) (url u p payload : bytes) (r : Blind LIB) (code : N) (s : stream),
  Query_posts cfg u p r = [payload] -> post url payload = Ok (code, s) -> code <> 200%N ->
  forall k, Query_read grow k cfg post url u p r = Some (Err (status_error code)).
Proof.
  intros grow LIB cfg post url u p payload r code s P Q C k. unfold Query_posts in P. unfold Query_read.
  destruct (NewClient LIB cfg) as [c|e|m]; [|discriminate..]. destruct (Request c u p r) as [[rq ctx]|e|m]; [|discriminate..].
  injection P as <-. rewrite Q. rewrite (proj2 (N.eqb_neq code 200) C). reflexivity.
Qed.
Print Assumptions C89_refusal_is_not_read.

(** An answer is only given from a body that was read to its end; a connection
    that breaks gives its error, whatever had arrived. *)
Theorem C89_answers_are_from_whole_bodies : forall (grow : nat -> nat), grows grow ->
  forall (LIB : OPRF) (cfg : Config) (post : transport_s) (url u p : bytes) (r : Blind LIB) (k : nat) (answer : BreachStatus * gslice),
  Query_read grow k cfg post url u p r = Some (Ok answer) ->
  exists payload s n, Query_posts cfg u p r = [payload] /\ post url payload = Ok (200%N, s) /\ ends_at s n EOF
    /\ Query cfg (fun _ _ => Ok (200%N, Ok (first_pieces s (S n)))) url u p r = Ok answer.
Proof.
  intros grow G LIB cfg post url u p r k answer. unfold Query_read, Query, Query_posts.
  destruct (NewClient LIB cfg) as [c|e|m]; [|discriminate..]. cbn [bind]. destruct (Request c u p r) as [[rq ctx]|e|m]; [|discriminate..]. cbn [bind].
  destruct (post url (ClientRequest_marshal rq)) as [[code s]|e|m] eqn:Po; [|discriminate..].
  destruct (N.eqb_spec code 200) as [->|NE]; cbn [negb]; [|discriminate].
  destruct (ReadAll grow k s) as [[b [err|]]|] eqn:R; [discriminate| |discriminate]. intros E. injection E as E.
  destruct (returns_ended grow G s k b None R) as (n & e & En & -> & Ee). destruct e as [|m]; [|discriminate].
  eexists _, s, n. split; [reflexivity|]. split; [exact Po|]. split; [exact En|]. exact E.
Qed.
Print Assumptions C89_answers_are_from_whole_bodies.

Theorem C89_broken_connection : forall (grow : nat -> nat), grows grow ->
  forall (LIB : OPRF) (cfg : Config) (post : transport_s) (url u p payload : bytes) (r : Blind LIB) (s : stream) (n : nat) (m : string),
  Query_posts cfg u p r = [payload] -> post url payload = Ok (200%N, s) -> ends_at s n (Failed m) ->
  exists k0, forall k, (k0 <= k)%nat -> Query_read grow k cfg post url u p r = Some (Err m).
Proof.
  intros grow G LIB cfg post url u p payload r s n m P Q E. destruct (reads_whole grow G s n _ E) as (k0 & K). exists k0. intros k L.
  unfold Query_posts in P. unfold Query_read. destruct (NewClient LIB cfg) as [c|e|x]; [|discriminate..]. destruct (Request c u p r) as [[rq ctx]|e|x]; [|discriminate..].
  injection P as <-. rewrite Q, (K k L). reflexivity.
Qed.
Print Assumptions C89_broken_connection.

(** ** The handler of /evaluate, in the same way; a broken request is answered
    with the page of status 400 and nothing else. *)
Theorem C89_handler : forall (grow : nat -> nat), grows grow -> forall (LIB : OPRF) (srv : server LIB) (s : stream) (n : nat) (e : ending), ends_at s n e ->
  exists k0, forall k, (k0 <= k)%nat -> handleEvaluate_read grow k srv s = Some (handleEvaluate srv (whole s n e)).
Proof.
  intros grow G LIB srv s n e En. destruct (reads_whole grow G s n e En) as (k0 & K). exists k0. intros k L. unfold handleEvaluate_read. rewrite (K k L). destruct e; reflexivity.
Qed.
Print Assumptions C89_handler.
Theorem C89_handler_waits_for_the_end : forall (grow : nat -> nat), grows grow -> forall (LIB : OPRF) (srv : server LIB) (s : stream) (k : nat) (w : res writer),
  handleEvaluate_read grow k srv s = Some w -> exists n e, ends_at s n e /\ w = handleEvaluate srv (whole s n e).
Proof.
  intros grow G LIB srv s k w. unfold handleEvaluate_read. destruct (ReadAll grow k s) as [[b err]|] eqn:R; [|discriminate].
  destruct (returns_ended grow G s k b err R) as (n & e & En & -> & ->). intros E. exists n, e. split; [exact En|]. destruct e; cbn [read_error whole handleEvaluate] in *; injection E as <-; reflexivity.
Qed.
Print Assumptions C89_handler_waits_for_the_end.

(** ** Finding: nothing bounds the wait.  A peer that goes on keeps Query, and a
    handler, reading after any number of rounds ... *)
Theorem C89_no_timeout_refuted : forall (grow : nat -> nat), grows grow ->
  forall (LIB : OPRF) (s : stream), endless s ->
  (forall (cfg : Config) (post : transport_s) (url u p payload : bytes) (r : Blind LIB),
     Query_posts cfg u p r = [payload] -> post url payload = Ok (200%N, s) -> forall k, Query_read grow k cfg post url u p r = None)
  /\ (forall (srv : server LIB) (k : nat), handleEvaluate_read grow k srv s = None).
Proof.
  intros grow G LIB s E. split.
  - intros cfg post url u p payload r P Q k. unfold Query_posts in P. unfold Query_read. destruct (NewClient LIB cfg) as [c|e|x]; [|discriminate..]. destruct (Request c u p r) as [[rq ctx]|e|x]; [|discriminate..].
    injection P as <-. rewrite Q, (endless_none grow G s k E). reflexivity.
  - intros srv k. unfold handleEvaluate_read. rewrite (endless_none grow G s k E). reflexivity.
Qed.
Print Assumptions C89_no_timeout_refuted.

(** ... and everything that has arrived is in its buffer: any n first pieces. *)
Theorem C89_no_size_limit_refuted : forall (grow : nat -> nat), grows grow -> forall (s : stream), endless s ->
  forall n, exists k st, read_after grow k s = Reading st /\ rd_b st = first_pieces s n.
Proof.
  intros grow G s E n. destruct (piece_reached grow G s n) as (k & st & A & _ & _ & B & _); [intros i _; apply E|]. exists k, st. split; assumption.
Qed.
Print Assumptions C89_no_size_limit_refuted.

(** ** The client program: with answers that end it does what Demo.v says; at a
    query that does not return it stays, with the lines before it printed and
    the lines behind it never asked. *)
Theorem C89_client_lines : forall (q : nat -> bytes -> bytes -> res (BreachStatus * gslice)) (q' : nat -> bytes -> bytes -> option (res (BreachStatus * gslice)))
    (show : bool) (lines : list bytes),
  (forall i u p, q' i u p = Some (q i u p)) ->
  client_lines_read q' show 0 lines = (cr_stdout (client_lines q show 0 lines), Some (cr_error (client_lines q show 0 lines), cr_panic (client_lines q show 0 lines))).
Proof. intros q q' show lines H. apply lines_read_agree. intros j u p _. apply H. Qed.
Print Assumptions C89_client_lines.

Theorem C89_client_stays : forall (q : nat -> bytes -> bytes -> res (BreachStatus * gslice)) (q' : nat -> bytes -> bytes -> option (res (BreachStatus * gslice)))
    (show : bool) (before after : list bytes) (l u p : bytes),
  let i := length (filter (fun x => match split_colon x with Some _ => true | None => false end) before) in
  split_colon l = Some (u, p) -> q' i u p = None ->
  (forall j u p, (j < i)%nat -> q' j u p = Some (q j u p)) ->
  cr_error (client_lines q show 0 before) = None -> cr_panic (client_lines q show 0 before) = false ->
  client_lines_read q' show 0 (before ++ l :: after) = (cr_stdout (client_lines q show 0 before), None).
Proof.
  intros q q' show before after l u p i Sl Q H E P.
  apply (lines_stay q q' show l u p after Sl before 0); [exact Q|exact H|exact E|exact P].
Qed.
Print Assumptions C89_client_stays.

(** ** Cases.  A body of three pieces, the second empty and the third longer than
    the first buffer; one that breaks after 700 bytes; one that never ends.  The
    slice doubles. *)
Definition ex_stream (e : option ending) : stream := fun i => match i with
  | 0 => mkArrival (str "abc") None | 1 => mkArrival [] None | 2 => mkArrival (zeros 700) e | _ => mkArrival (str "more") None end.
Example C89_example : let grow := fun c => 2 * c + 1 in
  grows grow /\ ends_at (ex_stream (Some EOF)) 2 EOF /\ ends_at (ex_stream (Some (Failed "unexpected EOF"))) 2 (Failed "unexpected EOF") /\ endless (ex_stream None)
  /\ ReadAll grow 4 (ex_stream (Some EOF)) = Some (str "abc" ++ zeros 700, None) /\ ReadAll grow 3 (ex_stream (Some EOF)) = None
  /\ ReadAll grow 9 (ex_stream (Some (Failed "unexpected EOF"))) = Some (str "abc" ++ zeros 700, Some "unexpected EOF"%string)
  /\ (exists payload, Query_posts ex_cfg (str "alice") (str "pw") (9%N : Blind toy_OPRF) = [payload]).
Proof.
  cbv zeta. split; [intros c; lia|].
  assert (B : forall e i, i < 2 -> a_end (ex_stream e i) = None) by (intros e [|[|i]] L; [reflexivity..|lia]).
  split; [split; [reflexivity|apply B]|]. split; [split; [reflexivity|apply B]|]. split; [intros [|[|[|i]]]; reflexivity|].
  split; [vm_compute; reflexivity|]. split; [vm_compute; reflexivity|]. split; [vm_compute; reflexivity|].
  unfold Query_posts. destruct (NewClient toy_OPRF ex_cfg) as [c| |] eqn:C; [|discriminate C..].
  vm_compute in C. injection C as <-. eexists. vm_compute. reflexivity.
Qed.
(** The client program at a line whose answer does not end. *)
Example C89_example_stays :
  client_lines_read (fun i u p => if (i <? 1)%nat then Some (Ok (NotInBreach, None)) else None) false 0 [str "a:b"; str "no colon"; str "c:d"; str "e:f"]
  = (cr_stdout (client_lines (fun i u p => Ok (NotInBreach, None)) false 0 [str "a:b"]), None).
Proof. reflexivity. Qed.
