(** * C61: input lines do not depend on how the file is read. *)
From Coq Require Import Lia.
From Verif Require Import Base BaseProofs Common Oprf Server Client KV Scanner Demo ScanCode SpecDemo SpecScan IngestProofs ScanProofs.

(** Whatever sizes the reads have, the loop ends and its tokens are the lines of
    the file ([scan_lines], see C35), up to the end or the read error. *)
Theorem C61_lines_do_not_depend_on_the_reads : forall r : reader, no_stall (r_sizes r) ->
  exists rounds, forall f, (rounds <= f)%nat -> scan_loop f (NewScanner r) = Some (scan_lines (r_rest r)).
Proof.
  intros r N. destruct (scanner_ok r) as (f0 & d & t & E & H & T). specialize (T N). subst t. rewrite app_nil_r in E.
  exists f0. rewrite E. exact H.
Qed.

(** Even a reader that stalls yields the lines of what it gave. *)
Theorem C61_stalled_reader : forall r : reader, exists rounds given rest, r_rest r = given ++ rest
  /\ forall f, (rounds <= f)%nat -> scan_loop f (NewScanner r) = Some (scan_lines given).
Proof. intros r. destruct (scanner_ok r) as (f0 & d & t & E & H & _). exists f0, d, t. split; assumption. Qed.

Theorem C61_server_loop : forall (LIB : OPRF) (s : Server LIB) (metadata : bytes) (n : Z) (incl : bool) (store : kvStore) (r : reader),
  no_stall (r_sizes r) ->
  exists rounds, forall f, (rounds <= f)%nat ->
    ingest_loop f s metadata n incl (mkIngest store 0 0) (NewScanner r) = Some (server_ingest s metadata n incl store (r_rest r)).
Proof.
  intros LIB s metadata n incl store r N. destruct (C61_lines_do_not_depend_on_the_reads r N) as (f0 & H). exists f0. intros f F.
  exact (ingest_loop_ok s metadata n incl f _ _ (H f F) _).
Qed.

Theorem C61_client_loop : forall (query : nat -> bytes -> bytes -> res (BreachStatus * gslice)) (show : bool) (r : reader),
  no_stall (r_sizes r) ->
  exists rounds, forall f, (rounds <= f)%nat ->
    client_loop f query show 0 (NewScanner r) = Some (client_main query show (r_rest r)).
Proof.
  intros query show r N. destruct (C61_lines_do_not_depend_on_the_reads r N) as (f0 & H). exists f0. intros f F.
  exact (client_loop_ok query show f _ _ (H f F) _).
Qed.

(** When the scanner reads, all complete lines read so far have been handed out:
    a line typed at a terminal is processed before the next one is awaited. *)
Theorem C61_no_reading_ahead : forall (r : reader) (ts : list bytes) (s s' : scanner),
  sc_steps (NewScanner r) ts s -> sc_err s = None -> sc_round s = RAgain s' ->
  exists ls last, Forall no_lf ls /\ no_lf last /\ r_rest r = text ls last ++ r_rest (sc_reader s)
    /\ Forall2 strip_cr ls ts.
Proof.
  intros r ts s s' H E R. destruct (no_reading_ahead r ts s s' H E R) as (ls & last & F & N & T & ->).
  exists ls, last. split; [exact F|]. split; [exact N|]. split; [exact T|]. clear.
  induction ls as [|l ls IH]; [constructor|]. constructor; [apply drop_cr_spec|exact IH].
Qed.

(** Finding: neither program asks the scanner for its error, so a file that
    cannot be read further is not told apart from one that ends there, and the
    line that was cut by the error is processed like a whole one. *)
Theorem C61_read_error_is_silent_refuted : forall (LIB : OPRF) (s : Server LIB) (metadata : bytes) (n : Z) (incl : bool) (store : kvStore)
    (query : nat -> bytes -> bytes -> res (BreachStatus * gslice)) (show : bool) (got : bytes) (sizes sizes' : list nat) (error : string),
  no_stall sizes -> no_stall sizes' ->
  exists rounds, forall f, (rounds <= f)%nat ->
    ingest_loop f s metadata n incl (mkIngest store 0 0) (NewScanner (mkReader got sizes error))
    = ingest_loop f s metadata n incl (mkIngest store 0 0) (NewScanner (mkReader got sizes' "EOF"))
    /\ client_loop f query show 0 (NewScanner (mkReader got sizes error))
       = client_loop f query show 0 (NewScanner (mkReader got sizes' "EOF")).
Proof.
  intros LIB s metadata n incl store query show got sizes sizes' error N N'.
  destruct (C61_server_loop LIB s metadata n incl store (mkReader got sizes error) N) as (f1 & H1).
  destruct (C61_server_loop LIB s metadata n incl store (mkReader got sizes' "EOF") N') as (f2 & H2).
  destruct (C61_client_loop query show (mkReader got sizes error) N) as (f3 & H3).
  destruct (C61_client_loop query show (mkReader got sizes' "EOF") N') as (f4 & H4).
  exists (f1 + f2 + f3 + f4)%nat. intros f F. rewrite H1, H2, H3, H4 by lia. split; reflexivity.
Qed.

(** The hypotheses are met by every file: its reads are not empty. *)
Theorem C61_positive_reads_do_not_stall : forall sizes : list nat, Forall (fun n => n <> 0%nat) sizes -> no_stall sizes.
Proof.
  intros sizes F (a & b & ->). apply Forall_app in F as [_ F]. change (repeat 0%nat 101) with (0%nat :: repeat 0%nat 100) in F.
  inversion F. contradiction.
Qed.
Example C61_example :
  let got := str "alice:secret" ++ [Byte.x0d; Byte.x0a] ++ str "bob:hun" in
  scan_loop 100 (NewScanner (mkReader got [1; 2; 0; 3; 0; 0; 9]%nat "input/output error")) = Some [str "alice:secret"; str "bob:hun"]
  /\ scan_loop 100 (NewScanner (mkReader got [] "EOF")) = Some [str "alice:secret"; str "bob:hun"].
Proof. vm_compute. split; reflexivity. Qed.
Example C61_ahead_example : exists s s', sc_steps (NewScanner (mkReader (str "a:b" ++ [Byte.x0a] ++ str "c:d" ++ [Byte.x0a]) [5]%nat "EOF")) [str "a:b"] s
  /\ sc_err s = None /\ sc_round s = RAgain s'.
Proof.
  eexists _, _. split; [|split].
  - eapply steps_read; [vm_compute; reflexivity|]. eapply steps_token; [vm_compute; reflexivity|]. apply steps_none.
  - reflexivity.
  - vm_compute. reflexivity.
Qed.

Print Assumptions C61_lines_do_not_depend_on_the_reads.
Print Assumptions C61_stalled_reader.
Print Assumptions C61_server_loop.
Print Assumptions C61_client_loop.
Print Assumptions C61_no_reading_ahead.
Print Assumptions C61_read_error_is_silent_refuted.
Print Assumptions C61_positive_reads_do_not_stall.
