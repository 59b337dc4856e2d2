(** * Proofs about the handlers with failing writes (HttpEffects.v). *)
From Coq Require Import Lia.
From Verif Require Import Base BaseProofs Common Oprf Server Client KV Mutator Json ConfigJson Scanner Demo SpecHttp Effects HttpEffects SpecResponse.

(** ** The calls of each handler *)
Lemma i_set n v k t b : hruns (HSet n v k) t b -> exists t', t = CSet n v :: t' /\ hruns k t' b.
Proof. inversion 1; subst; eauto. Qed.
Lemma i_header c k t b : hruns (HHeader c k) t b -> exists t', t = CHeader c :: t' /\ hruns k t' b.
Proof. inversion 1; subst; eauto. Qed.
Lemma i_log m k t b : hruns (HLog m k) t b -> exists t', t = CLog m :: t' /\ hruns k t' b.
Proof. inversion 1; subst; eauto. Qed.
Lemma i_write d k t b : hruns (HWrite d k) t b -> exists n ok t', t = CWrite d n ok :: t' /\ written d n ok /\ hruns (k ok) t' b.
Proof. inversion 1; subst; eauto 8. Qed.
Lemma i_done t b : hruns HDone t b -> t = [] /\ b = true.
Proof. inversion 1; auto. Qed.
Lemma i_panic t b : hruns HPanic t b -> t = [] /\ b = false.
Proof. inversion 1; auto. Qed.
Definition error_calls (text : bytes) (code : N) (n : nat) (ok : bool) : list call :=
  [CSet (str "Content-Type") (str "text/plain; charset=utf-8"); CSet (str "X-Content-Type-Options") (str "nosniff"); CHeader code;
   CWrite (text ++ [Byte.x0a]) n ok].
Lemma error_inv text code k t b : hruns (http_Error text code k) t b ->
  exists n ok t', written (text ++ [Byte.x0a]) n ok /\ t = error_calls text code n ok ++ t' /\ hruns k t' b.
Proof.
  unfold http_Error. intros H. apply i_set in H as (t1 & -> & H). apply i_set in H as (t2 & -> & H). apply i_header in H as (t3 & -> & H).
  apply i_write in H as (n & ok & t' & -> & W & H). exists n, ok, t'. split; [exact W|]. split; [reflexivity|exact H].
Qed.
Notation e400 := (error_calls (str "Bad Request") 400).
Notation e500 := (error_calls (str "Internal Server Error") 500).
(** A write that is followed by the error page when it fails. *)
Inductive checked_write (d : bytes) : list call -> Prop :=
| cw_ok n : n = length d -> checked_write d [CWrite d n true]
| cw_failed n m ok : (n <= length d)%nat -> written (str "Internal Server Error" ++ [Byte.x0a]) m ok ->
    checked_write d (CWrite d n false :: CLog (Error (str "Writing response failed:")) :: e500 m ok).
Lemma checked_inv d t b :
  hruns (HWrite d (fun ok => if ok then HDone else HLog (Error (str "Writing response failed:")) (error_500 HDone))) t b -> b = true /\ checked_write d t.
Proof.
  intros H. apply i_write in H as (n & ok & t' & -> & W & H'). destruct ok.
  - apply i_done in H' as [-> ->]. split; [reflexivity|]. apply cw_ok. apply W. reflexivity.
  - apply i_log in H' as (t1 & -> & H1). apply error_inv in H1 as (n1 & ok1 & t2 & W1 & -> & H2). apply i_done in H2 as [-> ->].
    split; [reflexivity|]. rewrite app_nil_r. apply cw_failed; [apply W|exact W1].
Qed.
Lemma answer_inv LIB (s : server LIB) rq t b : hruns (h_answer s rq) t b ->
  match HandleRequest (migpServer s) rq (kv_Get (kv s)) with
  | Panic _ => t = [] /\ b = false
  | Err _ => b = true /\ exists n ok, written (str "Internal Server Error" ++ [Byte.x0a]) n ok /\ t = CLog (Error (str "HandleRequest failed:")) :: e500 n ok
  | Ok resp => exists t', t = CSet (str "Content-Type") (str "application/octet-stream") :: t' /\
      match MarshalBinary resp with
      | Panic _ => t' = [] /\ b = false
      | Err _ => b = true /\ exists n ok t1, written (str "Internal Server Error" ++ [Byte.x0a]) n ok
          /\ t' = CLog (Error (str "Response serialization failed:")) :: e500 n ok ++ t1 /\ checked_write [] t1
      | Ok d => b = true /\ checked_write d t'
      end
  end.
Proof.
  unfold h_answer. intros H. destruct (HandleRequest (migpServer s) rq (kv_Get (kv s))) as [resp|e|m].
  - cbv zeta in H. apply i_set in H as (t' & -> & H'). exists t'. split; [reflexivity|].
    destruct (MarshalBinary resp) as [d|e|m].
    + apply checked_inv in H'. exact H'.
    + apply i_log in H' as (t1 & -> & H1). apply error_inv in H1 as (n1 & ok1 & t2 & W1 & -> & H2). apply checked_inv in H2 as [-> H2].
      split; [reflexivity|]. eauto 8.
    + apply i_panic in H'. exact H'.
  - apply i_log in H as (t1 & -> & H1). apply error_inv in H1 as (n1 & ok1 & t2 & W1 & -> & H2). apply i_done in H2 as [-> ->].
    split; [reflexivity|]. exists n1, ok1. split; [exact W1|]. rewrite app_nil_r. reflexivity.
  - apply i_panic in H. exact H.
Qed.
Lemma evaluate_inv LIB (s : server LIB) body t b : hruns (h_evaluate s body) t b ->
  match body with
  | Panic _ => t = [] /\ b = false
  | Err _ => b = true /\ exists n ok, written (str "Bad Request" ++ [Byte.x0a]) n ok /\ t = CLog (Error (str "Request body reading failed:")) :: e400 n ok
  | Ok data =>
      match ClientRequest_unmarshal data with
      | (rq, Some _) => exists n ok t', written (str "Bad Request" ++ [Byte.x0a]) n ok
          /\ t = CLog (Error (str "Request body unmarshal failed:")) :: e400 n ok ++ t' /\ hruns (h_answer s rq) t' b
      | (rq, None) => hruns (h_answer s rq) t b
      end
  end.
Proof.
  unfold h_evaluate. destruct body as [data|e|m]; intros H.
  - destruct (ClientRequest_unmarshal data) as [rq [e|]]; [|exact H].
    apply i_log in H as (t1 & -> & H1). apply error_inv in H1 as (n1 & ok1 & t2 & W1 & -> & H2). eauto 8.
  - apply i_log in H as (t1 & -> & H1). apply error_inv in H1 as (n1 & ok1 & t2 & W1 & -> & H2). apply i_done in H2 as [-> ->].
    split; [reflexivity|]. exists n1, ok1. split; [exact W1|]. rewrite app_nil_r. reflexivity.
  - apply i_panic in H. exact H.
Qed.
Lemma index_inv t b : hruns h_index t b -> b = true /\ exists n ok, written (str "Welcome to the MIGP demo server" ++ [Byte.x0a]) n ok
  /\ t = [CWrite (str "Welcome to the MIGP demo server" ++ [Byte.x0a]) n ok].
Proof.
  unfold h_index. intros H. apply i_write in H as (n & ok & t' & -> & W & H'). apply i_done in H' as [-> ->]. eauto 8.
Qed.

(** ** Existence, for any outcome of the writes *)
Definition dev_ok (dev : nat -> bytes -> nat * bool) : Prop := forall j b, written b (fst (dev j b)) (snd (dev j b)).
Definition call_writes (t : list call) : list (bytes * nat * bool) := flat_map (fun c => match c with CWrite b n ok => [(b, n, ok)] | _ => [] end) t.
Lemma hruns_exist dev : dev_ok dev -> forall h i, exists t b, hruns h t b
  /\ forall j d n ok, nth_error (call_writes t) j = Some (d, n, ok) -> (n, ok) = dev (i + j)%nat d.
Proof.
  intros W. induction h as [| |nm v k IH|c k IH|d k IH|m k IH]; intros i.
  - exists [], true. split; [constructor|]. intros [|j]; discriminate.
  - exists [], false. split; [constructor|]. intros [|j]; discriminate.
  - destruct (IH i) as (t & b & H & D). eexists (_ :: t), b. split; [constructor; exact H|exact D].
  - destruct (IH i) as (t & b & H & D). eexists (_ :: t), b. split; [constructor; exact H|exact D].
  - pose (w := dev i d). destruct (IH (snd w) (S i)) as (t & b & H & D). exists (CWrite d (fst w) (snd w) :: t), b. split; [constructor; [apply W|exact H]|].
    intros [|j] d' n ok E.
    + cbn [call_writes flat_map app nth_error] in E. apply Some_inj in E. apply pair_inj in E as [E <-]. apply pair_inj in E as [<- <-].
      rewrite Nat.add_0_r. symmetry. apply surjective_pairing.
    + replace (i + S j)%nat with (S i + j)%nat by lia. apply D. exact E.
  - destruct (IH i) as (t & b & H & D). eexists (_ :: t), b. split; [constructor; exact H|exact D].
Qed.

(** ** The response *)
Lemma full (n : nat) (d : bytes) : n = length d -> firstn n d = d.
Proof. intros ->. apply firstn_all. Qed.
Lemma works_app a b : writes_work (a ++ b) -> writes_work a /\ writes_work b.
Proof. intros H. split; intros d n ok I0; apply (H d n ok), in_or_app; auto. Qed.
Lemma works_cons c t : writes_work (c :: t) -> writes_work t.
Proof. intros H d n ok I0. apply (H d n ok). right. exact I0. Qed.
Lemma works_write d n ok t : writes_work (CWrite d n ok :: t) -> ok = true.
Proof. intros H. apply (H d n ok). left. reflexivity. Qed.
Lemma body_app a b : body_of (a ++ b) = body_of a ++ body_of b.
Proof. apply flat_map_app. Qed.
Lemma e_body text code n ok : body_of (error_calls text code n ok) = firstn n (text ++ [Byte.x0a]).
Proof. unfold error_calls, body_of. cbn [flat_map app]. apply app_nil_r. Qed.
Lemma e_works text code n ok : writes_work (error_calls text code n ok) -> ok = true.
Proof. intros H. eapply H. unfold error_calls. do 3 right. left. reflexivity. Qed.
Lemma checked_works d t : checked_write d t -> writes_work t -> t = [CWrite d (length d) true].
Proof. intros H W. inversion H; subst; [reflexivity|]. apply works_write in W. discriminate. Qed.
Lemma e_status text code n ok t : status_of (error_calls text code n ok ++ t) = code.
Proof. reflexivity. Qed.

(** The writer of Demo.v after the handler, given what was written before. *)
Lemma answer_working LIB (s : server LIB) rq t b (w : writer) : hruns (h_answer s rq) t b -> writes_work t ->
  match HandleRequest (migpServer s) rq (kv_Get (kv s)) with
  | Panic m => b = false
  | Err _ => b = true /\ http_error w "Internal Server Error" 500 = mkWriter (match w_status w with Some c => Some c | None => Some (status_of t) end) (w_body w ++ body_of t)
  | Ok resp =>
      match MarshalBinary resp with
      | Panic m => b = false
      | Err _ => b = true /\ write_body (http_error w "Internal Server Error" 500) [] = mkWriter (match w_status w with Some c => Some c | None => Some (status_of t) end) (w_body w ++ body_of t)
      | Ok d => b = true /\ write_body w d = mkWriter (match w_status w with Some c => Some c | None => Some (status_of t) end) (w_body w ++ body_of t)
      end
  end.
Proof.
  intros H W. apply answer_inv in H. destruct (HandleRequest (migpServer s) rq (kv_Get (kv s))) as [resp|e|m].
  - destruct H as (t' & -> & H). apply works_cons in W. destruct (MarshalBinary resp) as [d|e|m].
    + destruct H as [-> H]. apply checked_works in H; [|exact W]. subst t'. split; [reflexivity|].
      cbn [status_of body_of flat_map app]. rewrite (full _ d eq_refl), app_nil_r. unfold write_body, write_header. destruct w as [[c|] bd]; reflexivity.
    + destruct H as (-> & n & ok & t1 & Wr & -> & H). split; [reflexivity|]. apply works_cons in W. apply works_app in W as [W1 W2].
      apply checked_works in H; [|exact W2]. subst t1. apply e_works in W1. subst ok.
      cbn [status_of]. change (status_of (e500 n true ++ [CWrite [] (length []) true])) with 500%N.
      match goal with |- context [body_of (_ :: _ :: ?x)] => change (body_of (_ :: _ :: x)) with (body_of x) end.
      rewrite body_app, e_body. change (body_of [CWrite [] (length (@nil byte)) true]) with (@nil byte). rewrite app_nil_r.
      rewrite (full n) by (apply Wr; reflexivity). unfold write_body, http_error, write_header.
      destruct w as [[c|] bd]; cbn [w_status w_body]; rewrite ?app_nil_r; reflexivity.
    + apply H.
  - destruct H as (-> & n & ok & Wr & ->). split; [reflexivity|]. apply works_cons in W. apply e_works in W. subst ok.
    unfold body_of. cbn [status_of flat_map app error_calls]. rewrite app_nil_r. rewrite (full n) by (apply Wr; reflexivity).
    unfold http_error, write_header. destruct w as [[c|] bd]; reflexivity.
  - apply H.
Qed.

Lemma evaluate_working LIB (s : server LIB) body t b : hruns (h_evaluate s body) t b -> writes_work t ->
  if b then exists w, handleEvaluate s body = Ok w /\ response_of w = (status_of t, body_of t) else exists m, handleEvaluate s body = Panic m.
Proof.
  intros H W. apply evaluate_inv in H. unfold handleEvaluate. destruct body as [data|e|m].
  - destruct (ClientRequest_unmarshal data) as [rq [e|]].
    + destruct H as (n & ok & t' & Wr & -> & H). apply works_cons in W. apply works_app in W as [W1 W2]. apply e_works in W1. subst ok.
      pose (w := http_error fresh_writer "Bad Request" 400). pose proof (answer_working LIB s rq t' b w H W2) as A.
      assert (B : body_of (CLog (Error (str "Request body unmarshal failed:")) :: e400 n true ++ t') = w_body w ++ body_of t').
      { change (body_of (CLog (Error (str "Request body unmarshal failed:")) :: e400 n true ++ t')) with (body_of (e400 n true ++ t')).
        rewrite body_app, e_body. rewrite (full n) by (apply Wr; reflexivity). reflexivity. }
      rewrite B. change (status_of (CLog (Error (str "Request body unmarshal failed:")) :: e400 n true ++ t')) with 400%N. fold w.
      change (w_status w) with (Some 400%N) in A. cbv iota in A.
      destruct (HandleRequest (migpServer s) rq (kv_Get (kv s))) as [resp|e'|m].
      * destruct (MarshalBinary resp) as [d|e'|m].
        -- destruct A as [-> A]. eexists. split; [reflexivity|]. rewrite A. reflexivity.
        -- destruct A as [-> A]. eexists. split; [reflexivity|]. rewrite A. reflexivity.
        -- rewrite A. eexists. reflexivity.
      * destruct A as [-> A]. eexists. split; [reflexivity|]. rewrite A. reflexivity.
      * rewrite A. eexists. reflexivity.
    + pose proof (answer_working LIB s rq t b fresh_writer H W) as A. cbn [w_status w_body fresh_writer app] in A.
      destruct (HandleRequest (migpServer s) rq (kv_Get (kv s))) as [resp|e'|m].
      * destruct (MarshalBinary resp) as [d|e'|m].
        -- destruct A as [-> A]. eexists. split; [reflexivity|]. rewrite A. reflexivity.
        -- destruct A as [-> A]. eexists. split; [reflexivity|]. rewrite A. reflexivity.
        -- rewrite A. eexists. reflexivity.
      * destruct A as [-> A]. eexists. split; [reflexivity|]. rewrite A. reflexivity.
      * rewrite A. eexists. reflexivity.
  - destruct H as (-> & n & ok & Wr & ->). apply works_cons in W. apply e_works in W. subst ok. eexists. split; [reflexivity|].
    unfold body_of. cbn [status_of flat_map app error_calls]. rewrite app_nil_r. rewrite (full n) by (apply Wr; reflexivity). reflexivity.
  - destruct H as [_ ->]. eexists. reflexivity.
Qed.

Lemma handler_working LIB (s : server LIB) path body t b : hruns (h_handler s path body) t b -> writes_work t ->
  if b then exists w, handler s path body = Ok w /\ response_of w = (status_of t, body_of t) else exists m, handler s path body = Panic m.
Proof.
  unfold h_handler, handler. destruct (bytes_eqb path (str "/evaluate")); [apply evaluate_working|].
  destruct (bytes_eqb path (str "/config")); intros H W.
  - unfold h_config in H. apply checked_inv in H as [-> H]. apply checked_works in H; [|exact W]. subst t. eexists. split; [reflexivity|].
    unfold body_of. cbn [status_of flat_map]. rewrite app_nil_r, full; reflexivity.
  - apply index_inv in H as (-> & n & ok & Wr & ->). apply works_write in W. subst ok. eexists. split; [reflexivity|].
    unfold body_of. cbn [status_of flat_map]. rewrite app_nil_r, (full n) by (apply Wr; reflexivity). reflexivity.
Qed.

(** ** Failing writes *)
Lemma head_same h : forall t t' b b', hruns h t b -> hruns h t' b' -> status_of t = status_of t' /\ before_header t = before_header t'.
Proof.
  induction h as [| |nm v k IH|c k IH|d k IH|m k IH]; intros t t' b b' H H'.
  - apply i_done in H as [-> _]. apply i_done in H' as [-> _]. auto.
  - apply i_panic in H as [-> _]. apply i_panic in H' as [-> _]. auto.
  - apply i_set in H as (t1 & -> & H). apply i_set in H' as (t1' & -> & H'). destruct (IH _ _ _ _ H H') as [A B]. cbn [status_of before_header]. rewrite A, B. auto.
  - apply i_header in H as (t1 & -> & H). apply i_header in H' as (t1' & -> & H'). auto.
  - apply i_write in H as (n & ok & t1 & -> & _ & H). apply i_write in H' as (n' & ok' & t1' & -> & _ & H'). auto.
  - apply i_log in H as (t1 & -> & H). apply i_log in H' as (t1' & -> & H'). destruct (IH _ _ _ _ H H') as [A B]. cbn [status_of before_header]. rewrite A, B. auto.
Qed.

Lemma nothing_out t : (forall b n ok, In (CWrite b n ok) t -> n = 0%nat) -> body_of t = [].
Proof.
  induction t as [|c t IH]; intros H; [reflexivity|]. assert (IH' : body_of t = []) by (apply IH; intros b n ok I0; apply (H b n ok); right; exact I0).
  destruct c; unfold body_of; cbn [flat_map app]; fold (body_of t); try exact IH'. rewrite IH', (H b n ok); [reflexivity|left; reflexivity].
Qed.
Lemma broken_cons c t : broken_for_good (c :: t) -> broken_for_good t.
Proof. intros H a b n r -> . apply (H (c :: a) b n r eq_refl). Qed.
Lemma prefix_out h : forall t t' b b', hruns h t b -> hruns h t' b' -> broken_for_good t -> writes_work t' -> exists rest, body_of t' = body_of t ++ rest.
Proof.
  induction h as [| |nm v k IH|c k IH|d k IH|m k IH]; intros t t' b b' H H' B W.
  - apply i_done in H as [-> _]. apply i_done in H' as [-> _]. exists []. reflexivity.
  - apply i_panic in H as [-> _]. apply i_panic in H' as [-> _]. exists []. reflexivity.
  - apply i_set in H as (t1 & -> & H). apply i_set in H' as (t1' & -> & H'). apply works_cons in W. apply broken_cons in B. exact (IH _ _ _ _ H H' B W).
  - apply i_header in H as (t1 & -> & H). apply i_header in H' as (t1' & -> & H'). apply works_cons in W. apply broken_cons in B. exact (IH _ _ _ _ H H' B W).
  - apply i_write in H as (n & ok & t1 & -> & Wr & H). apply i_write in H' as (n' & ok' & t1' & -> & Wr' & H').
    pose proof (works_write _ _ _ _ W) as ->. apply works_cons in W.
    change (body_of (CWrite d n' true :: t1')) with (firstn n' d ++ body_of t1'). change (body_of (CWrite d n ok :: t1)) with (firstn n d ++ body_of t1).
    rewrite (full n' d) by (apply Wr'; reflexivity). destruct ok.
    + rewrite (full n d) by (apply Wr; reflexivity). apply broken_cons in B. destruct (IH true _ _ _ _ H H' B W) as [rest R]. exists rest. rewrite R. apply app_assoc.
    + rewrite (nothing_out t1) by (intros b0 n0 ok0 I0; exact (B [] d n t1 eq_refl b0 n0 ok0 I0)).
      exists (skipn n d ++ body_of t1'). rewrite app_nil_r, app_assoc, firstn_skipn. reflexivity.
  - apply i_log in H as (t1 & -> & H). apply i_log in H' as (t1' & -> & H'). apply works_cons in W. apply broken_cons in B. exact (IH _ _ _ _ H H' B W).
Qed.

Lemma working_run h : exists t b, hruns h t b /\ writes_work t.
Proof.
  destruct (hruns_exist (fun _ d => (length d, true))) with (h := h) (i := 0%nat) as (t & b & H & D).
  { intros j d. split; [apply le_n|reflexivity]. }
  exists t, b. split; [exact H|]. intros d n ok I0.
  assert (I1 : In (d, n, ok) (call_writes t)) by (apply in_flat_map; exists (CWrite d n ok); split; [exact I0|left; reflexivity]).
  apply In_nth_error in I1 as [j I1]. apply D in I1. inversion I1. reflexivity.
Qed.

(** Whether a handler returns does not depend on the writes. *)
Lemma returns_same LIB (s : server LIB) path body t t' b b' : hruns (h_handler s path body) t b -> hruns (h_handler s path body) t' b' -> b = b'.
Proof.
  unfold h_handler. destruct (bytes_eqb path (str "/evaluate")).
  - intros H H'. apply evaluate_inv in H, H'. destruct body as [data|e|m].
    + assert (A : forall rq t t' b b', hruns (h_answer s rq) t b -> hruns (h_answer s rq) t' b' -> b = b').
      { clear. intros rq t t' b b' H H'. apply answer_inv in H, H'. destruct (HandleRequest (migpServer s) rq (kv_Get (kv s))) as [resp|e|m].
        - destruct H as (t1 & _ & H), H' as (t1' & _ & H'). destruct (MarshalBinary resp) as [d|e|m];
            [destruct H as [-> _], H' as [-> _]; reflexivity|destruct H as [-> _], H' as [-> _]; reflexivity|destruct H as [_ ->], H' as [_ ->]; reflexivity].
        - destruct H as [-> _], H' as [-> _]. reflexivity.
        - destruct H as [_ ->], H' as [_ ->]. reflexivity. }
      destruct (ClientRequest_unmarshal data) as [rq [e|]].
      * destruct H as (n & ok & t1 & _ & _ & H), H' as (n' & ok' & t1' & _ & _ & H'). exact (A _ _ _ _ _ H H').
      * exact (A _ _ _ _ _ H H').
    + destruct H as [-> _], H' as [-> _]. reflexivity.
    + destruct H as [_ ->], H' as [_ ->]. reflexivity.
  - destruct (bytes_eqb path (str "/config")); intros H H'.
    + apply checked_inv in H as [-> _]. apply checked_inv in H' as [-> _]. reflexivity.
    + apply index_inv in H as [-> _]. apply index_inv in H' as [-> _]. reflexivity.
Qed.

Lemma handler_any LIB (s : server LIB) path body w t b : handler s path body = Ok w -> hruns (h_handler s path body) t b ->
  b = true /\ status_of t = fst (response_of w) /\ (broken_for_good t -> exists rest, snd (response_of w) = body_of t ++ rest).
Proof.
  intros E H. destruct (working_run (h_handler s path body)) as (t' & b' & H' & W).
  pose proof (returns_same _ _ _ _ _ _ _ _ H H') as <-. pose proof (handler_working _ _ _ _ _ _ H' W) as R. destruct b.
  - destruct R as (w' & E' & R). rewrite E in E'. apply Ok_inj in E'. subst w'. rewrite R. cbn [fst snd]. split; [reflexivity|].
    split; [apply (head_same _ _ _ _ _ H H')|]. intros B. exact (prefix_out _ _ _ _ _ H H' B W).
  - destruct R as [m R]. rewrite E in R. discriminate.
Qed.

(** ** Header fields *)
Lemma octet_stream_status LIB (s : server LIB) body t : hruns (h_evaluate s body) t true ->
  (status_of t = 200%N /\ header_of t (str "Content-Type") = Some (str "application/octet-stream") /\ header_of t (str "X-Content-Type-Options") = None)
  \/ (In (status_of t) [400; 500]%N /\ header_of t (str "Content-Type") = Some (str "text/plain; charset=utf-8")
      /\ header_of t (str "X-Content-Type-Options") = Some (str "nosniff")).
Proof.
  intros H. apply evaluate_inv in H. destruct body as [data|e|m].
  - destruct (ClientRequest_unmarshal data) as [rq [e|]].
    + destruct H as (n & ok & t1 & _ & -> & _). right. vm_compute. auto.
    + apply answer_inv in H. destruct (HandleRequest (migpServer s) rq (kv_Get (kv s))) as [resp|e|m].
      * destruct H as (t1 & -> & H). destruct (MarshalBinary resp) as [d|e|m].
        -- left. destruct H as [_ H]. inversion H; subst; vm_compute; auto.
        -- right. destruct H as (_ & n & ok & t2 & _ & -> & _). vm_compute. auto.
        -- destruct H; discriminate.
      * destruct H as (_ & n & ok & _ & ->). right. vm_compute. auto.
      * destruct H; discriminate.
  - destruct H as (_ & n & ok & _ & ->). right. vm_compute. auto.
  - destruct H; discriminate.
Qed.
Lemma other_headers LIB (s : server LIB) path body t b name : path <> str "/evaluate" -> hruns (h_handler s path body) t b -> header_of t name = None.
Proof.
  intros NE H. unfold h_handler in H. destruct (bytes_eqb path (str "/evaluate")) eqn:E; [apply bytes_eqb_eq in E; contradiction|].
  destruct (bytes_eqb path (str "/config")).
  - apply checked_inv in H as [_ H]. inversion H; subst; reflexivity.
  - apply index_inv in H as (_ & n & ok & _ & ->). reflexivity.
Qed.

(** ** The log *)
Lemma checked_log d t : checked_write d t -> (log_lines t = [] <-> writes_work t).
Proof.
  intros H. inversion H; subst.
  - split; [|reflexivity]. intros _ b n ok [E|[]]. inversion E; reflexivity.
  - split; [discriminate|]. intros W. apply works_write in W. discriminate.
Qed.
Lemma evaluate_log LIB (s : server LIB) body t : hruns (h_evaluate s body) t true -> (log_lines t = [] <-> status_of t = 200%N /\ writes_work t).
Proof.
  intros H. apply evaluate_inv in H. destruct body as [data|e|m].
  - destruct (ClientRequest_unmarshal data) as [rq [e|]].
    + destruct H as (n & ok & t1 & _ & -> & _). split; [discriminate|]. intros [S0 _]. discriminate.
    + apply answer_inv in H. destruct (HandleRequest (migpServer s) rq (kv_Get (kv s))) as [resp|e|m].
      * destruct H as (t1 & -> & H). destruct (MarshalBinary resp) as [d|e|m].
        -- destruct H as [_ H]. pose proof (checked_log _ _ H) as L.
           change (log_lines (CSet (str "Content-Type") (str "application/octet-stream") :: t1)) with (log_lines t1). rewrite L. split.
           ++ intros W. split; [inversion H; reflexivity|]. intros b n ok [E|E]; [discriminate|]. exact (W b n ok E).
           ++ intros [_ W]. apply works_cons in W. exact W.
        -- destruct H as (_ & n & ok & t2 & _ & -> & _). split; [discriminate|]. intros [S0 _]. discriminate.
        -- destruct H; discriminate.
      * destruct H as (_ & n & ok & _ & ->). split; [discriminate|]. intros [S0 _]. discriminate.
      * destruct H; discriminate.
  - destruct H as (_ & n & ok & _ & ->). split; [discriminate|]. intros [S0 _]. discriminate.
  - destruct H; discriminate.
Qed.

(** ** The body, whatever happens to the writes *)
Lemma checked_body d t : checked_write d t -> exists n m, body_of t = firstn n d ++ firstn m (str "Internal Server Error" ++ [Byte.x0a])
  /\ ((n < length d)%nat \/ m <> 0%nat -> ~ writes_work t).
Proof.
  intros H. inversion H; subst.
  - exists (length d), 0%nat. split; [unfold body_of; cbn [flat_map firstn]; reflexivity|]. intros [L|L]; [lia|contradiction].
  - exists n, m. split.
    + change (body_of (CWrite d n false :: CLog (Error (str "Writing response failed:")) :: e500 m ok)) with (firstn n d ++ body_of (e500 m ok)). rewrite e_body. reflexivity.
    + intros _ W. apply works_write in W. discriminate.
Qed.
Lemma checked_full d t t' : checked_write d t -> writes_work t -> checked_write d t' ->
  exists n m, body_of t' = firstn n (body_of t) ++ firstn m (str "Internal Server Error" ++ [Byte.x0a]) /\ ((n < length (body_of t))%nat \/ m <> 0%nat -> ~ writes_work t').
Proof.
  intros H W H'. apply checked_works in H; [|exact W]. subst t. replace (body_of [CWrite d (length d) true]) with d; [apply checked_body; exact H'|].
  unfold body_of. cbn [flat_map]. rewrite app_nil_r, firstn_all. reflexivity.
Qed.
Lemma body_200 LIB (s : server LIB) path body w t b : handler s path body = Ok w -> fst (response_of w) = 200%N -> hruns (h_handler s path body) t b ->
  status_of t = 200%N /\ exists n m, body_of t = firstn n (snd (response_of w)) ++ firstn m internal_error
    /\ ((n < length (snd (response_of w)))%nat \/ m <> 0%nat -> ~ writes_work t).
Proof.
  intros E S0 H. destruct (working_run (h_handler s path body)) as (t' & b' & H' & W).
  pose proof (handler_any _ _ _ _ _ _ _ E H) as (-> & S1 & _). pose proof (handler_any _ _ _ _ _ _ _ E H') as (-> & S1' & _).
  pose proof (handler_working _ _ _ _ _ _ H' W) as (w' & E' & R). rewrite E in E'. apply Ok_inj in E'. subst w'. rewrite S0 in S1, S1'. split; [exact S1|].
  rewrite R. cbn [snd]. clear R E S0 w. unfold h_handler in H, H'. destruct (bytes_eqb path (str "/evaluate")).
  - apply evaluate_inv in H, H'. destruct body as [data|e|m].
    + destruct (ClientRequest_unmarshal data) as [rq [e|]].
      * destruct H as (n & ok & t1 & _ & -> & _). discriminate.
      * apply answer_inv in H, H'. destruct (HandleRequest (migpServer s) rq (kv_Get (kv s))) as [resp|e|m].
        -- destruct H as (t1 & -> & H), H' as (t1' & -> & H'). destruct (MarshalBinary resp) as [d|e|m].
           ++ destruct H as [_ H], H' as [_ H']. apply works_cons in W. destruct (checked_full _ _ _ H' W H) as (n & m & A & B). exists n, m.
              split; [exact A|]. intros C W'. apply works_cons in W'. exact (B C W').
           ++ destruct H as (_ & n & ok & t2 & _ & -> & _). discriminate.
           ++ destruct H; discriminate.
        -- destruct H as (_ & n & ok & _ & ->). discriminate.
        -- destruct H; discriminate.
    + destruct H as (_ & n & ok & _ & ->). discriminate.
    + destruct H; discriminate.
  - destruct (bytes_eqb path (str "/config")).
    + apply checked_inv in H as [_ H], H' as [_ H']. exact (checked_full _ _ _ H' W H).
    + apply index_inv in H as (_ & n & ok & Wr & ->), H' as (_ & n' & ok' & Wr' & ->). apply works_write in W. subst ok'.
      destruct Wr' as [_ Wr']. rewrite (Wr' eq_refl). exists n, 0%nat. split.
      * unfold body_of. cbn [flat_map firstn]. rewrite !app_nil_r, firstn_all. reflexivity.
      * intros [L|L]; [|contradiction]. intros W. apply works_write in W. subst ok. destruct Wr as [_ Wr]. rewrite (Wr eq_refl) in L.
        unfold body_of in L. cbn [flat_map] in L. rewrite app_nil_r, firstn_all in L. lia.
Qed.
