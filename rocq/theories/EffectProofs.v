(** * Proofs about the programs as sequences of effects (Effects.v). *)
From Coq Require Import Lia.
From Verif Require Import Base BaseProofs Common Oprf Server Client KV Mutator Json ConfigJson Scanner Demo Flags Main
  SpecDemo SpecMain IngestProofs MainProofs TrustProofs UrlProofs SentProofs Effects SpecEffects.

Definition frob {F} (p : proc F) : proc F :=
  match p with
  | Done f => Done f | Print b k => Print b k | Log m k => Log m k | Read n k => Read n k
  | Input n f k => Input n f k | Scan k => Scan k | Get u k => Get u k | Post u d k => Post u d k
  | Listen a f s => Listen a f s
  end.
Lemma frob_eq {F} (p : proc F) : p = frob p.
Proof. destruct p; reflexivity. Qed.

(** ** Inversion of [exec], one constructor at a time. *)
Section Inv.
Context {F : Type} (fs : files).
Implicit Types (t : list event) (r : option F).
Lemma inv_done ls f t r : exec fs ls (Done f) t r -> t = [] /\ (r = Some f \/ r = None).
Proof. inversion 1; subst; auto. Qed.
Lemma inv_print ls b k t r : exec fs ls (Print b k) t r ->
  t = [] /\ r = None \/ exists n ok t', t = EPrint b n ok :: t' /\ written b n ok /\ exec fs ls (k ok) t' r.
Proof. inversion 1; subst; [auto|right; eauto 8]. Qed.
Lemma inv_log ls m k t r : exec fs ls (Log m k) t r ->
  t = [] /\ r = None \/ exists t', t = ELog m :: t' /\ exec fs ls k t' r.
Proof. inversion 1; subst; [auto|right; eauto 8]. Qed.
Lemma inv_read ls n k t r : exec fs ls (Read n k) t r -> t = [] /\ r = None \/ exec fs ls (k (f_open fs n)) t r.
Proof. inversion 1; subst; auto. Qed.
Lemma inv_input ls n fl k t r : exec fs ls (Input n fl k) t r -> t = [] /\ r = None \/
  match input_of fs n with Some i => exec fs (scan_lines i) k t r | None => exec fs ls fl t r end.
Proof.
  inversion 1; subst; [auto| |]; right.
  - match goal with E : input_of _ _ = _ |- _ => rewrite E end. assumption.
  - match goal with E : input_of _ _ = _ |- _ => rewrite E end. assumption.
Qed.
Lemma inv_scan ls k t r : exec fs ls (Scan k) t r -> t = [] /\ r = None \/
  match ls with
  | [] => exists t', t = EEnd :: t' /\ exec fs [] (k None) t' r
  | l :: ls' => exists t', t = ELine l :: t' /\ exec fs ls' (k (Some l)) t' r
  end.
Proof. inversion 1; subst; [auto|right; eauto..]. Qed.
Lemma inv_get ls u k t r : exec fs ls (Get u k) t r ->
  t = [] /\ r = None \/ exists a t', t = EGet u a :: t' /\ exec fs ls (k a) t' r.
Proof. inversion 1; subst; [auto|right; eauto 8]. Qed.
Lemma inv_post ls u d k t r : exec fs ls (Post u d k) t r ->
  t = [] /\ r = None \/ exists a t', t = EPost u d a :: t' /\ exec fs ls (k a) t' r.
Proof. inversion 1; subst; [auto|right; eauto 8]. Qed.
Lemma inv_listen ls a fl s t r : exec fs ls (Listen a fl s) t r ->
  t = [] /\ r = None \/ t = [EListen a true] /\ r = Some s \/ exists t', t = EListen a false :: t' /\ exec fs ls fl t' r.
Proof. inversion 1; subst; [auto|auto|right; right; eauto 8]. Qed.
Lemma inv_fatal ls f t r : exec fs ls (fatal f) t r ->
  t = [] /\ r = None \/ t = [ELog (Error [])] /\ (r = Some f \/ r = None).
Proof.
  intros H. apply inv_log in H as [H|(t' & -> & H)]; [auto|]. apply inv_done in H as [-> H]. auto.
Qed.
End Inv.

(** ** Query in two halves *)
Lemma Query_halves LIB cfg (post : transport) url u p (r : Blind LIB) :
  Query cfg post url u p r =
  match Query_start cfg u p r with
  | Ok (payload, ctx) => Query_finish ctx (post url payload)
  | Err e => Err e | Panic m => Panic m
  end.
Proof.
  unfold Query, Query_start, Query_finish. destruct (NewClient LIB cfg) as [c| |]; cbn [bind]; [|reflexivity..].
  destruct (Request c u p r) as [[rq ctx]| |]; cbn [bind fst snd]; reflexivity.
Qed.
Lemma Query_posts_start LIB cfg u p (r : Blind LIB) :
  Query_posts cfg u p r = match Query_start cfg u p r with Ok (payload, _) => [payload] | _ => [] end.
Proof.
  unfold Query_posts, Query_start. destruct (NewClient LIB cfg) as [c| |]; cbn [bind]; [|reflexivity..].
  destruct (Request c u p r) as [[rq ctx]| |]; reflexivity.
Qed.

(** ** The client *)
Section ClientLoop.
Variable LIB : OPRF.
Variables (o : client_opts) (cfg : Config) (blinds : nat -> Blind LIB).
Notation url := (co_target o ++ str "/evaluate").
Notation loop := (client_loop o cfg blinds).

(** The line printed for a credential. *)
Definition out_line (u p : bytes) (a : BreachStatus * gslice) : bytes :=
  client_output u (if co_show o then p else []) (fst a) (snd a) ++ [Byte.x0a].

(** One round of the loop. *)
Lemma loop_inv fs ls i t r : exec fs ls (loop i) t r ->
  t = [] /\ r = None
  \/ ls = [] /\ t = [EEnd] /\ (r = Some 0%N \/ r = None)
  \/ exists l ls' t', ls = l :: ls' /\ t = ELine l :: t' /\
     match split_colon l with
     | None => exec fs ls' (loop i) t' r
     | Some (u, p) =>
         match Query_start cfg u p (blinds i) with
         | Err _ => t' = [] /\ r = None \/ t' = [ELog (Error [])] /\ (r = Some 1%N \/ r = None)
         | Panic _ => t' = [] /\ (r = Some 2%N \/ r = None)
         | Ok (d, ctx) =>
             t' = [] /\ r = None \/ exists a t1, t' = EPost url d a :: t1 /\
             match Query_finish ctx a with
             | Err _ => t1 = [] /\ r = None \/ t1 = [ELog (Error [])] /\ (r = Some 1%N \/ r = None)
             | Panic _ => t1 = [] /\ (r = Some 2%N \/ r = None)
             | Ok ans =>
                 t1 = [] /\ r = None
                 \/ exists n ok t2, t1 = EPrint (out_line u p ans) n ok :: t2 /\ written (out_line u p ans) n ok
                    /\ exec fs ls' (loop (S i)) t2 r
             end
         end
     end.
Proof.
  intros H. rewrite (frob_eq (loop i)) in H. cbn [frob client_loop] in H.
  apply inv_scan in H as [H|H]; [auto|]. destruct ls as [|l ls'].
  - right; left. destruct H as (t' & -> & H). apply inv_done in H as [-> H]. auto.
  - right; right. destruct H as (t' & -> & H). exists l, ls', t'. split; [reflexivity|]. split; [reflexivity|].
    destruct (split_colon l) as [[u p]|]; [|exact H].
    destruct (Query_start cfg u p (blinds i)) as [[d ctx]| |]; [|exact (inv_fatal _ _ _ _ _ H)|exact (inv_done _ _ _ _ _ H)].
    apply inv_post in H as [H|(a & t1 & -> & H)]; [auto|]. right. exists a, t1. split; [reflexivity|].
    destruct (Query_finish ctx a) as [[st md]| |]; [|exact (inv_fatal _ _ _ _ _ H)|exact (inv_done _ _ _ _ _ H)].
    apply inv_print in H as [H|(n & ok & t2 & -> & W & H)]; [auto|]. right. exists n, ok, t2. auto.
Qed.
Lemma loop_step_end fs i : exec fs [] (loop i) [EEnd] (Some 0%N).
Proof. rewrite (frob_eq (loop i)). cbn [frob client_loop]. constructor. constructor. Qed.
Lemma loop_step fs l ls i t r :
  match split_colon l with
  | None => exec fs ls (loop i) t r
  | Some (u, p) =>
      match Query_start cfg u p (blinds i) with
      | Err _ => t = [ELog (Error [])] /\ r = Some 1%N
      | Panic _ => t = [] /\ r = Some 2%N
      | Ok (d, ctx) =>
          exists a t1, t = EPost url d a :: t1 /\
          match Query_finish ctx a with
          | Err _ => t1 = [ELog (Error [])] /\ r = Some 1%N
          | Panic _ => t1 = [] /\ r = Some 2%N
          | Ok ans => exists n ok t2, t1 = EPrint (out_line u p ans) n ok :: t2 /\ written (out_line u p ans) n ok
                      /\ exec fs ls (loop (S i)) t2 r
          end
      end
  end -> exec fs (l :: ls) (loop i) (ELine l :: t) r.
Proof.
  intros H. rewrite (frob_eq (loop i)). cbn [frob client_loop]. constructor.
  destruct (split_colon l) as [[u p]|]; [|exact H].
  destruct (Query_start cfg u p (blinds i)) as [[d ctx]| |]; [|destruct H as [-> ->]; repeat constructor..].
  destruct H as (a & t1 & -> & H). constructor.
  destruct (Query_finish ctx a) as [[st md]| |]; [|destruct H as [-> ->]; repeat constructor..].
  destruct H as (n & ok & t2 & -> & W & H). constructor; assumption.
Qed.

Definition run_status (run : client_run) : N := if cr_panic run then 2%N else match cr_error run with Some _ => 1%N | None => 0%N end.
Notation query net := (fun i u p => Query cfg (n_post net) url u p (blinds i)).
Notation qposts := (fun i u p => Query_posts cfg u p (blinds i)).

Lemma answered_cons net e t : answered_by net (e :: t) -> answered_by net t
  /\ match e with EGet u a => a = n_get net u | EPost u d a => a = n_post net u d | _ => True end.
Proof.
  intros [G P]. split.
  - split; intros; [apply G|apply P]; right; assumption.
  - destruct e; try exact I; [apply G|apply P]; left; reflexivity.
Qed.
Lemma answered_cons_in net e t : answered_by net t ->
  match e with EGet u a => a = n_get net u | EPost u d a => a = n_post net u d | _ => True end -> answered_by net (e :: t).
Proof.
  intros [G P] E. split; intros.
  - destruct H as [->|H]; [exact E|apply G, H].
  - destruct H as [->|H]; [exact E|apply P, H].
Qed.
Lemma answered_nil net : answered_by net [].
Proof. split; intros; contradiction. Qed.

Lemma loop_full net fs : forall ls i t st, exec fs ls (loop i) t (Some st) -> answered_by net t ->
  let run := client_lines (query net) (co_show o) i ls in
  prints t = map (fun l => l ++ [Byte.x0a]) (cr_stdout run) /\ st = run_status run
  /\ map fst (posted t) = posts_of qposts (query net) i ls /\ taken t = firstn (length (taken t)) ls.
Proof.
  induction ls as [|l ls IH]; intros i t st H A; apply loop_inv in H.
  - destruct H as [[_ H]|[(_ & -> & H)|(l & ls' & t' & E & _)]]; [discriminate| |discriminate].
    destruct H as [H|H]; [apply Some_inj in H; subst st|discriminate]. cbv zeta. cbn [client_lines posts_of]. auto.
  - destruct H as [[_ H]|[(E & _)|(l' & ls' & t' & E & -> & H)]]; [discriminate|discriminate|]. inversion E; subst l' ls'; clear E.
    apply answered_cons in A as [A _]. cbn [client_lines posts_of]. cbv zeta.
    destruct (split_colon l) as [[u p]|].
    2:{ destruct (IH i t' st H A) as (P1 & P2 & P3 & P4). split; [exact P1|]. split; [exact P2|]. split; [exact P3|]. cbn. f_equal. exact P4. }
    rewrite Query_halves, Query_posts_start.
    destruct (Query_start cfg u p (blinds i)) as [[d ctx]|e|m].
    + destruct H as [[_ H]|(a & t1 & -> & H)]; [discriminate|]. apply answered_cons in A as [A ->].
      destruct (Query_finish ctx (n_post net url d)) as [[s md]|e|m].
      * destruct H as [[_ H]|(n & ok & t2 & -> & W & H)]; [discriminate|]. apply answered_cons in A as [A _].
        destruct (IH (S i) t2 st H A) as (P1 & P2 & P3 & P4). cbn [prints posted flat_map cr_stdout map app fst taken].
        split; [|split; [|split]].
        -- f_equal. exact P1.
        -- rewrite P2. reflexivity.
        -- f_equal. exact P3.
        -- cbn [length firstn]. f_equal. exact P4.
      * destruct H as [[_ H]|[-> H]]; [discriminate|]. destruct H as [H|H]; [apply Some_inj in H; subst st|discriminate]. cbn. auto.
      * destruct H as [-> H]. destruct H as [H|H]; [apply Some_inj in H; subst st|discriminate]. cbn. auto.
    + destruct H as [[_ H]|[-> H]]; [discriminate|]. destruct H as [H|H]; [apply Some_inj in H; subst st|discriminate]. cbn. auto.
    + destruct H as [-> H]. destruct H as [H|H]; [apply Some_inj in H; subst st|discriminate]. cbn. auto.
Qed.

(** The outcome of a write does not matter to the loop. *)
Lemma loop_same net fs : forall ls i t t' st st', exec fs ls (loop i) t (Some st) -> exec fs ls (loop i) t' (Some st') ->
  answered_by net t -> answered_by net t' -> st = st' /\ same_but_output t t'.
Proof.
  assert (nil2 : same_but_output [] []) by constructor.
  induction ls as [|l ls IH]; intros i t t' st st' H H' A A'; apply loop_inv in H; apply loop_inv in H'.
  - destruct H as [[_ H]|[(_ & -> & H)|(l & ls' & u & E & _)]]; [discriminate| |discriminate].
    destruct H' as [[_ H']|[(_ & -> & H')|(l & ls' & u & E & _)]]; [discriminate| |discriminate].
    destruct H as [H|H]; [apply Some_inj in H; subst st|discriminate]. destruct H' as [H|H]; [apply Some_inj in H; subst st'|discriminate].
    split; [reflexivity|]. repeat constructor.
  - destruct H as [[_ H]|[(E & _)|(l0 & ls0 & t0 & E & -> & H)]]; [discriminate|discriminate|]. inversion E; subst l0 ls0; clear E.
    destruct H' as [[_ H']|[(E & _)|(l0 & ls0 & t0' & E & -> & H')]]; [discriminate|discriminate|]. inversion E; subst l0 ls0; clear E.
    apply answered_cons in A as [A _]. apply answered_cons in A' as [A' _].
    assert (C : st = st' /\ same_but_output t0 t0' -> st = st' /\ same_but_output (ELine l :: t0) (ELine l :: t0')).
    { intros [X Y]. split; [exact X|]. constructor; [left; reflexivity|exact Y]. }
    apply C; clear C. destruct (split_colon l) as [[u p]|]; [|eapply IH; eassumption].
    assert (D : forall x, (t0 = [] /\ Some st = None \/ t0 = [ELog (Error [])] /\ (Some st = Some x \/ Some st = None)) ->
                (t0' = [] /\ Some st' = None \/ t0' = [ELog (Error [])] /\ (Some st' = Some x \/ Some st' = None)) -> st = st' /\ same_but_output t0 t0').
    { intros x [[_ X]|[-> [X|X]]] [[_ Y]|[-> [Y|Y]]]; try discriminate. apply Some_inj in X, Y. subst. split; [reflexivity|].
      constructor; [left; reflexivity|exact nil2]. }
    assert (P : forall x, (t0 = [] /\ (Some st = Some x \/ Some st = None)) -> (t0' = [] /\ (Some st' = Some x \/ Some st' = None)) ->
                st = st' /\ same_but_output t0 t0').
    { intros x [-> [X|X]] [-> [Y|Y]]; try discriminate. apply Some_inj in X, Y. subst. auto. }
    destruct (Query_start cfg u p (blinds i)) as [[d ctx]|e|m]; [|eapply D; eassumption|eapply P; eassumption]. clear D P.
    destruct H as [[_ H]|(a & t1 & -> & H)]; [discriminate|]. apply answered_cons in A as [A ->].
    destruct H' as [[_ H']|(a' & t1' & -> & H')]; [discriminate|]. apply answered_cons in A' as [A' ->].
    assert (C : st = st' /\ same_but_output t1 t1' ->
      st = st' /\ same_but_output (EPost url d (n_post net url d) :: t1) (EPost url d (n_post net url d) :: t1')).
    { intros [X Y]. split; [exact X|]. constructor; [left; reflexivity|exact Y]. }
    apply C; clear C.
    destruct (Query_finish ctx (n_post net url d)) as [ans|e|m].
    + destruct H as [[_ H]|(n & ok & t2 & -> & _ & H)]; [discriminate|]. apply answered_cons in A as [A _].
      destruct H' as [[_ H']|(n' & ok' & t2' & -> & _ & H')]; [discriminate|]. apply answered_cons in A' as [A' _].
      destruct (IH _ _ _ _ _ H H' A A') as [X Y]. split; [exact X|]. constructor; [|exact Y]. right. do 5 eexists. split; reflexivity.
    + destruct H as [[_ X]|[-> [X|X]]], H' as [[_ Y]|[-> [Y|Y]]]; try discriminate. apply Some_inj in X, Y. subst. split; [reflexivity|].
      constructor; [left; reflexivity|exact nil2].
    + destruct H as [-> [X|X]], H' as [-> [Y|Y]]; try discriminate. apply Some_inj in X, Y. subst. auto.
Qed.

(** The loop can be run with any network and any standard output. *)
Lemma loop_runs net fs (dev : nat -> bytes -> nat * bool) : (forall j b, written b (fst (dev j b)) (snd (dev j b))) ->
  forall ls i, exists t st, exec fs ls (loop i) t (Some st) /\ answered_by net t
    /\ forall j b n ok, nth_error (flat_map (fun e => match e with EPrint b n ok => [(b, n, ok)] | _ => [] end) t) j = Some (b, n, ok) ->
         (n, ok) = dev (i + j)%nat b.
Proof.
  intros W. induction ls as [|l ls IH]; intros i.
  - exists [EEnd], 0%N. split; [apply loop_step_end|]. split; [apply answered_cons_in; [apply answered_nil|exact I]|].
    intros [|j] b n ok H; discriminate.
  - assert (G : exists t st, answered_by net t /\ (forall j b n ok,
       nth_error (flat_map (fun e => match e with EPrint b n ok => [(b, n, ok)] | _ => [] end) t) j = Some (b, n, ok) ->
         (n, ok) = dev (i + j)%nat b) /\ exec fs (l :: ls) (loop i) (ELine l :: t) (Some st)).
    { destruct (split_colon l) as [[u p]|] eqn:S0.
      2:{ destruct (IH i) as (t & st & X & A & B). exists t, st. split; [exact A|]. split; [exact B|]. apply loop_step. rewrite S0. exact X. }
      destruct (Query_start cfg u p (blinds i)) as [[d ctx]|e|m] eqn:Q.
      - destruct (Query_finish ctx (n_post net url d)) as [ans|e|m] eqn:Q2.
        + destruct (IH (S i)) as (t & st & X & A & B). pose (w := dev i (out_line u p ans)).
          exists (EPost url d (n_post net url d) :: EPrint (out_line u p ans) (fst w) (snd w) :: t), st. split; [|split].
          * do 2 (apply answered_cons_in; [|first [exact I|reflexivity]]). exact A.
          * intros [|j] b n ok H.
            -- cbn [flat_map app nth_error] in H. apply Some_inj in H. apply pair_inj in H as [H <-]. apply pair_inj in H as [<- <-].
               rewrite PeanoNat.Nat.add_0_r. fold w. symmetry. apply surjective_pairing.
            -- replace (i + S j)%nat with (S i + j)%nat by lia. apply B. exact H.
          * apply loop_step. rewrite S0, Q. do 2 eexists. split; [reflexivity|]. rewrite Q2. do 3 eexists. split; [reflexivity|].
            split; [apply W|exact X].
        + exists [EPost url d (n_post net url d); ELog (Error [])], 1%N. split; [|split].
          * apply answered_cons_in; [|reflexivity]. apply answered_cons_in; [apply answered_nil|exact I].
          * intros [|j] b n ok H; discriminate.
          * apply loop_step. rewrite S0, Q. do 2 eexists. split; [reflexivity|]. rewrite Q2. auto.
        + exists [EPost url d (n_post net url d)], 2%N. split; [|split].
          * apply answered_cons_in; [|reflexivity]. apply answered_nil.
          * intros [|j] b n ok H; discriminate.
          * apply loop_step. rewrite S0, Q. do 2 eexists. split; [reflexivity|]. rewrite Q2. auto.
      - exists [ELog (Error [])], 1%N. split; [|split].
        + apply answered_cons_in; [apply answered_nil|exact I].
        + intros [|j] b n ok H; discriminate.
        + apply loop_step. rewrite S0, Q. auto.
      - exists [], 2%N. split; [apply answered_nil|]. split; [intros [|j] b n ok H; discriminate|]. apply loop_step. rewrite S0, Q. auto. }
    destruct G as (t & st & A & B & X). exists (ELine l :: t), st. split; [exact X|]. split; [apply answered_cons_in; [exact A|exact I]|exact B].
Qed.

(** When the scanner is asked for the next line, every credential taken before
    has been reported. *)
Lemma loop_order fs : forall ls i t r, exec fs ls (loop i) t r ->
  (exists rest, ls = taken t ++ rest)
  /\ forall pre e post, t = pre ++ e :: post -> (e = EEnd \/ exists l, e = ELine l) ->
  length (prints pre) = length (with_colon (taken pre)) /\ length (posted pre) = length (prints pre)
  /\ forall j u p, nth_error (with_colon (taken pre)) j = Some (u, p) ->
       exists d ctx a ans, nth_error (posted pre) j = Some (d, a) /\ Query_start cfg u p (blinds (i + j)) = Ok (d, ctx)
         /\ Query_finish ctx a = Ok ans /\ nth_error (prints pre) j = Some (out_line u p ans).
Proof.
  assert (Z : forall i j u p, nth_error (with_colon (taken [])) j = Some (u, p) ->
       exists d ctx a ans, nth_error (posted []) j = Some (d, a) /\ Query_start cfg u p (blinds (i + j)) = Ok (d, ctx)
         /\ Query_finish ctx a = Ok ans /\ nth_error (prints []) j = Some (out_line u p ans)).
  { intros i [|j] u p H; discriminate. }
  induction ls as [|l ls IH]; intros i t r H; apply loop_inv in H.
  - destruct H as [[-> _]|[(_ & -> & _)|(l & ls' & t' & E & _)]]; [| |discriminate].
    + split; [exists []; reflexivity|]. intros [|x0 pre] e post E; discriminate.
    + split; [exists []; reflexivity|]. intros [|x pre] e post E _; [|destruct pre; discriminate].
      split; [reflexivity|]. split; [reflexivity|]. apply Z.
  - destruct H as [[-> _]|[(E & _)|(l0 & ls0 & t' & E & -> & H)]]; [|discriminate|].
    { split; [exists (l :: ls); reflexivity|]. intros [|x0 pre] e post E; discriminate. }
    inversion E; subst l0 ls0; clear E.
    assert (S0 : forall s, (forall x, In x s -> x <> EEnd /\ forall l, x <> ELine l) -> t' = s -> 
      (exists rest, l :: ls = taken (ELine l :: t') ++ rest)
      /\ forall pre e post, ELine l :: t' = pre ++ e :: post -> (e = EEnd \/ exists l0, e = ELine l0) -> pre = []).
    { intros s N ->. split.
      - exists ls. cbn [taken flat_map app]. fold (taken s). f_equal. assert (Y : taken s = []); [|rewrite Y; reflexivity]. clear -N. induction s as [|x s IH]; [reflexivity|].
        cbn. destruct x; try (apply IH; intros; apply N; right; assumption). exfalso. apply (proj2 (N (ELine l) (or_introl eq_refl)) l). reflexivity.
      - intros [|x pre] e post E X; [reflexivity|]. exfalso. cbn [app] in E. apply cons_eq in E as [_ E]. assert (I0 : In e s).
        { rewrite E. apply in_or_app. right. left. reflexivity. }
        destruct (N _ I0) as [N1 N2]. destruct X as [X|[l0 X]]; [exact (N1 X)|exact (N2 _ X)]. }
    assert (S1 : forall s, (forall x, In x s -> x <> EEnd /\ forall l, x <> ELine l) -> t' = s -> 
      (exists rest, l :: ls = taken (ELine l :: t') ++ rest)
      /\ forall pre e post, ELine l :: t' = pre ++ e :: post -> (e = EEnd \/ exists l0, e = ELine l0) ->
        length (prints pre) = length (with_colon (taken pre)) /\ length (posted pre) = length (prints pre)
        /\ forall j u p, nth_error (with_colon (taken pre)) j = Some (u, p) ->
          exists d ctx a ans, nth_error (posted pre) j = Some (d, a) /\ Query_start cfg u p (blinds (i + j)) = Ok (d, ctx)
         /\ Query_finish ctx a = Ok ans /\ nth_error (prints pre) j = Some (out_line u p ans)).
    { intros s N E. destruct (S0 s N E) as [X Y]. split; [exact X|]. intros pre e post E1 E2. rewrite (Y _ _ _ E1 E2). 
      split; [reflexivity|]. split; [reflexivity|]. apply Z. }
    clear S0.
    assert (quiet : forall s, s = [] \/ s = [ELog (Error [])] -> forall x, In x s -> x <> EEnd /\ forall l, x <> ELine l).
    { intros s [->| ->] x Hx; [contradiction|]. destruct Hx as [<-|[]]. split; discriminate. }
    assert (quiet1 : forall d a s, s = [] \/ s = [ELog (Error [])] -> forall x, In x (EPost url d a :: s) -> x <> EEnd /\ forall l, x <> ELine l).
    { intros d a s Hs x [<-|Hx]; [split; discriminate|]. exact (quiet s Hs x Hx). }
    destruct (split_colon l) as [[u p]|] eqn:Sp.
    + destruct (Query_start cfg u p (blinds i)) as [[d ctx]|e|m] eqn:Q.
      * destruct H as [[-> _]|(a & t1 & -> & H)]; [eapply S1; [apply quiet|reflexivity]; auto|].
        destruct (Query_finish ctx a) as [ans|e|m] eqn:Q2.
        -- destruct H as [[-> _]|(n & ok & t2 & -> & W & H)]; [eapply S1; [apply quiet1|reflexivity]; auto|].
           clear S1. destruct (IH _ _ _ H) as [[rest R] O]. split; [exists rest; cbn [taken flat_map app]; f_equal; exact R|].
           intros pre e post E X. destruct pre as [|x pre]; [split; [reflexivity|]; split; [reflexivity|apply Z]|].
           cbn [app] in E. apply cons_eq in E as [<- E]. destruct pre as [|x pre].
           { cbn [app] in E. apply cons_eq in E as [<- E]. destruct X as [X|[? X]]; discriminate. }
           cbn [app] in E. apply cons_eq in E as [<- E]. destruct pre as [|x pre].
           { cbn [app] in E. apply cons_eq in E as [<- E]. destruct X as [X|[? X]]; discriminate. }
           cbn [app] in E. apply cons_eq in E as [<- E]. destruct (O pre e post E X) as (L1 & L2 & L3).
           cbn [prints posted taken flat_map app]. fold (prints pre) (posted pre) (taken pre). rewrite with_colon_cons, Sp. cbn [length].
           split; [f_equal; exact L1|]. split; [f_equal; exact L2|]. intros [|j] u' p' Hj.
           ++ cbn [nth_error] in Hj. apply Some_inj in Hj. apply pair_inj in Hj as [<- <-]. exists d, ctx, a, ans. rewrite PeanoNat.Nat.add_0_r. auto.
           ++ cbn [nth_error] in *. destruct (L3 j u' p' Hj) as (d' & ctx' & a' & ans' & K1 & K2 & K3 & K4).
              exists d', ctx', a', ans'. replace (i + S j)%nat with (S i + j)%nat by lia. auto.
        -- destruct H as [[-> _]|[-> _]]; (eapply S1; [apply quiet1|reflexivity]); auto.
        -- destruct H as [-> _]; (eapply S1; [apply quiet1|reflexivity]); auto.
      * destruct H as [[-> _]|[-> _]]; (eapply S1; [apply quiet|reflexivity]); auto.
      * destruct H as [-> _]; (eapply S1; [apply quiet|reflexivity]); auto.
    + clear S1. destruct (IH _ _ _ H) as [[rest R] O]. split; [exists rest; cbn [taken flat_map app]; f_equal; exact R|].
      intros pre e post E X. destruct pre as [|x pre]; [split; [reflexivity|]; split; [reflexivity|apply Z]|].
      cbn [app] in E. apply cons_eq in E as [<- E]. destruct (O pre e post E X) as (L1 & L2 & L3).
      cbn [prints posted taken flat_map app]. fold (prints pre) (posted pre) (taken pre). rewrite with_colon_cons, Sp. auto.
Qed.
End ClientLoop.

(** ** The whole client *)
Section Client.
Variable LIB : OPRF.
Variable blinds : nat -> Blind LIB.

Lemma no_get_post_answered net ms : answered_by net (map ELog ms).
Proof. induction ms as [|m ms IH]; [apply answered_nil|]. cbn [map]. apply answered_cons_in; [exact IH|exact I]. Qed.

Lemma run_body net fs (o : client_opts) : client_query o fs net = fun cfg (blinds : nat -> Blind LIB) =>
  match input_of fs (co_infile o) with
  | None => mkClientResult 1 []
  | Some input =>
      let run := client_lines (fun i u p => Query cfg (n_post net) (co_target o ++ str "/evaluate") u p (blinds i)) (co_show o) 0 (scan_lines input) in
      mkClientResult (run_status run) (println (cr_stdout run))
  end.
Proof. reflexivity. Qed.

Lemma concat_lines ls : concat (map (fun l => l ++ [Byte.x0a]) ls) = println ls.
Proof. unfold println. symmetry. apply flat_map_concat_map. Qed.

Lemma arrived_works t : (forall b n ok, In (EPrint b n ok) t -> written b n ok) -> output_works t -> arrived t = concat (prints t).
Proof.
  intros W O. induction t as [|e t IH]; [reflexivity|].
  assert (IH' : arrived t = concat (prints t)).
  { apply IH; [intros; apply W; right; assumption|]. intros b n ok H. apply (O b n ok). right; exact H. }
  destruct e; cbn [arrived prints flat_map app concat]; try exact IH'. fold (arrived t) (prints t). rewrite <- IH'. f_equal.
  destruct (W b n ok (or_introl eq_refl)) as [_ X]. rewrite X; [|exact (O b n ok (or_introl eq_refl))]. apply firstn_all.
Qed.
Lemma exec_written {F} fs ls (p : proc F) t r : exec fs ls p t r -> forall b n ok, In (EPrint b n ok) t -> written b n ok.
Proof.
  induction 1; intros b' n' ok' I0; try contradiction; try (apply IHexec; exact I0);
    (destruct I0 as [E|I0]; [try discriminate|try contradiction; apply IHexec, I0]).
  inversion E; subst. assumption.
Qed.

(** The queries, after a warning or not. *)
Lemma queries_inv fs ls o cfg t r : exec fs ls (client_queries o cfg blinds) t r -> exists w t', (w = [] \/ exists b, w = [ELog (Text b)])
  /\ t = w ++ t' /\ exec fs ls (Input (co_infile o) (fatal 1%N) (client_loop o cfg blinds 0)) t' r.
Proof.
  unfold client_queries. cbv zeta. destruct (negb (cfg_version cfg =? DefaultMIGPVersion)%N); intros H.
  - apply inv_log in H as [[-> ->]|(t' & -> & H)].
    + exists [], []. split; [auto|]. split; [reflexivity|]. constructor.
    + eexists [_], t'. split; [right; eexists; reflexivity|]. split; [reflexivity|exact H].
  - exists [], t. auto.
Qed.

Lemma app_w {A} (f : event -> list A) w t : (forall b, f (ELog (Text b)) = []) -> (w = [] \/ exists b, w = [ELog (Text b)]) -> flat_map f (w ++ t) = flat_map f t.
Proof. intros H [->|[b ->]]; [reflexivity|]. cbn [app flat_map]. rewrite H. reflexivity. Qed.
Lemma answered_app_r net w t : answered_by net (w ++ t) -> answered_by net t.
Proof. intros [G P]. split; intros; [apply G|apply P]; apply in_or_app; right; assumption. Qed.

Definition q_spec net fs o cfg (t : list event) (st : N) : Prop :=
  concat (prints t) = x_stdout (client_query o fs net cfg blinds)
  /\ (exists lines, prints t = map (fun l => l ++ [Byte.x0a]) lines)
  /\ st = x_status (client_query o fs net cfg blinds)
  /\ map fst (posted t) = client_posts o fs net cfg blinds.

Lemma queries_full net fs ls o cfg t st : exec fs ls (client_queries o cfg blinds) t (Some st) -> answered_by net t -> q_spec net fs o cfg t st.
Proof.
  intros H A. apply queries_inv in H as (w & t' & Hw & -> & H). apply answered_app_r in A.
  assert (Ep : prints (w ++ t') = prints t') by (apply app_w; [reflexivity|exact Hw]).
  assert (Eq : posted (w ++ t') = posted t') by (apply app_w; [reflexivity|exact Hw]).
  unfold q_spec. rewrite Ep, Eq, run_body. unfold client_posts. apply inv_input in H as [[_ H]|H]; [discriminate|].
  destruct (input_of fs (co_infile o)) as [input|].
  - destruct (loop_full LIB o cfg blinds net fs _ _ _ _ H A) as (P1 & P2 & P3 & _). cbv zeta. cbn [x_stdout x_status].
    rewrite P1, P2, P3. split; [apply concat_lines|]. split; [eexists; reflexivity|]. auto.
  - apply inv_fatal in H as [[_ H]|[-> [H|H]]]; [discriminate| |discriminate]. apply Some_inj in H. subst st.
    split; [reflexivity|]. split; [exists []; reflexivity|]. auto.
Qed.

Lemma queries_same net fs ls ls' o cfg t t' st st' : exec fs ls (client_queries o cfg blinds) t (Some st) -> exec fs ls' (client_queries o cfg blinds) t' (Some st') ->
  answered_by net t -> answered_by net t' -> st = st' /\ same_but_output t t'.
Proof.
  unfold client_queries. cbv zeta.
  assert (C : forall t t' st st', exec fs ls (Input (co_infile o) (fatal 1%N) (client_loop o cfg blinds 0)) t (Some st) ->
                        exec fs ls' (Input (co_infile o) (fatal 1%N) (client_loop o cfg blinds 0)) t' (Some st') ->
                        answered_by net t -> answered_by net t' -> st = st' /\ same_but_output t t').
  { clear. intros t t' st st' H H' A A'. apply inv_input in H as [[_ H]|H]; [discriminate|]. apply inv_input in H' as [[_ H']|H']; [discriminate|].
    destruct (input_of fs (co_infile o)) as [input|]; [eapply loop_same; eassumption|].
    apply inv_fatal in H as [[_ H]|[-> [H|H]]]; [discriminate| |discriminate].
    apply inv_fatal in H' as [[_ H']|[-> [H'|H']]]; [discriminate| |discriminate]. apply Some_inj in H, H'. subst. split; [reflexivity|].
    constructor; [left; reflexivity|constructor]. }
  destruct (negb (cfg_version cfg =? DefaultMIGPVersion)%N); intros H H' A A'; [|eapply C; eassumption].
  apply inv_log in H as [[_ H]|(t1 & -> & H)]; [discriminate|]. apply inv_log in H' as [[_ H']|(t1' & -> & H')]; [discriminate|].
  apply answered_cons in A as [A _]. apply answered_cons in A' as [A' _].
  destruct (C _ _ _ _ H H' A A') as [X Y]. split; [exact X|]. constructor; [left; reflexivity|exact Y].
Qed.

(** The configuration: a GET or nothing to be seen. *)
Lemma body_inv net fs ls o t r : exec fs ls (client_proc_body o blinds) t r -> answered_by net t ->
  t = [] /\ r = None \/ exists w t', (w = [] \/ exists url a, w = [EGet url a]) /\ t = w ++ t' /\ answered_by net t'
    /\ exec fs ls (client_with o blinds (client_config o fs net)) t' r.
Proof.
  unfold client_proc_body, client_config. destruct (co_config o) as [|x name]; intros H A.
  - apply inv_get in H as [H|(a & t' & -> & H)]; [auto|]. right. apply answered_cons in A as [A ->].
    eexists [_], t'. split; [right; do 2 eexists; reflexivity|]. split; [reflexivity|]. split; [exact A|exact H].
  - apply inv_read in H as [H|H]; [auto|]. right. exists [], t. split; [auto|]. split; [reflexivity|]. split; [exact A|exact H].
Qed.
Lemma app_g {A} (f : event -> list A) w t : (forall u a, f (EGet u a) = []) -> (w = [] \/ exists u a, w = [EGet u a]) -> flat_map f (w ++ t) = flat_map f t.
Proof. intros H [->|(u & a & ->)]; [reflexivity|]. cbn [app flat_map]. rewrite H. reflexivity. Qed.

Lemma client_attempts net fs ls args t st : exec fs ls (client_proc args blinds) t (Some st) -> answered_by net t ->
  concat (prints t) = x_stdout (client_program args fs net blinds)
  /\ ((forall o, client_flags args = FParsed o -> co_dump o = true -> output_works t) -> st = x_status (client_program args fs net blinds)).
Proof.
  unfold client_proc, client_program. destruct (client_flags args) as [o| |]; intros H A.
  - apply (body_inv net) in H as [[_ H]|(w & t' & Hw & -> & A' & H)]; [discriminate| |exact A]. clear A.
    assert (Ep : prints (w ++ t') = prints t') by (apply app_g; [reflexivity|exact Hw]). rewrite Ep. unfold client_body.
    assert (O : (forall o0, @FParsed client_opts o = FParsed o0 -> co_dump o0 = true -> output_works (w ++ t')) -> co_dump o = true -> output_works t').
    { intros X Y b n ok I0. eapply (X o eq_refl Y). apply in_or_app. right. exact I0. }
    unfold client_with in H. destruct (client_config o fs net) as [cfg|e|m].
    + destruct (co_dump o).
      * apply inv_print in H as [[_ H]|(n & ok & t1 & -> & W & H)]; [discriminate|]. cbn [x_stdout x_status].
        assert (E1 : prints t1 = []) by (destruct ok; [apply inv_done in H as [-> _]|apply inv_fatal in H as [[-> _]|[-> _]]]; reflexivity).
        cbn [prints flat_map app concat]. fold (prints t1). rewrite E1. split; [apply app_nil_r|].
        intros X. specialize (O X eq_refl _ _ _ (or_introl eq_refl)). subst ok. apply inv_done in H as [_ [H|H]]; [|discriminate].
        apply Some_inj in H. exact H.
      * destruct (queries_full net _ _ _ _ _ _ H A') as (P1 & _ & P2 & _). split; [exact P1|]. intros _. exact P2.
    + apply inv_fatal in H as [[_ H]|[-> [H|H]]]; [discriminate| |discriminate]. apply Some_inj in H. subst st. split; reflexivity.
    + apply inv_done in H as [-> [H|H]]; [|discriminate]. apply Some_inj in H. subst st. split; reflexivity.
  - apply inv_log in H as [[_ H]|(t' & -> & H)]; [discriminate|]. apply inv_done in H as [-> [H|H]]; [|discriminate].
    apply Some_inj in H. subst st. split; reflexivity.
  - apply inv_log in H as [[_ H]|(t' & -> & H)]; [discriminate|]. apply inv_done in H as [-> [H|H]]; [|discriminate].
    apply Some_inj in H. subst st. split; reflexivity.
Qed.

Lemma client_working net fs ls args t st : exec fs ls (client_proc args blinds) t (Some st) -> answered_by net t -> output_works t ->
  client_program args fs net blinds = mkClientResult st (arrived t).
Proof.
  intros H A O. destruct (client_attempts net _ _ _ _ _ H A) as [P1 P2]. rewrite (arrived_works t (exec_written _ _ _ _ _ H) O), P1, P2; [|auto].
  destruct (client_program args fs net blinds); reflexivity.
Qed.

Lemma client_same net fs ls ls' args t t' st st' : (forall o, client_flags args = FParsed o -> co_dump o = false) ->
  exec fs ls (client_proc args blinds) t (Some st) -> exec fs ls' (client_proc args blinds) t' (Some st') ->
  answered_by net t -> answered_by net t' -> st = st' /\ same_but_output t t'.
Proof.
  assert (L : forall e, same_but_output [ELog e] [ELog e]). { intros. constructor; [left; reflexivity|constructor]. }
  intros D. unfold client_proc. destruct (client_flags args) as [o| |]; intros H H' A A'.
  - specialize (D o eq_refl). unfold client_proc_body in H, H'.
    assert (C : forall cfg ls ls' t t' st st', exec fs ls (client_with o blinds cfg) t (Some st) -> exec fs ls' (client_with o blinds cfg) t' (Some st') ->
       answered_by net t -> answered_by net t' -> st = st' /\ same_but_output t t').
    { clear -D L. intros cfg ls ls' t t' st st' H H' A A'. unfold client_with in H, H'. destruct cfg as [cfg|e|m].
      - rewrite D in H, H'. eapply queries_same; eassumption.
      - apply inv_fatal in H as [[_ H]|[-> [H|H]]]; [discriminate| |discriminate].
        apply inv_fatal in H' as [[_ H']|[-> [H'|H']]]; [discriminate| |discriminate]. apply Some_inj in H, H'. subst. split; [reflexivity|apply L].
      - apply inv_done in H as [-> [H|H]]; [|discriminate]. apply inv_done in H' as [-> [H'|H']]; [|discriminate]. apply Some_inj in H, H'. subst.
        split; [reflexivity|constructor]. }
    destruct (co_config o) as [|x name].
    + apply inv_get in H as [[_ H]|(a & t1 & -> & H)]; [discriminate|]. apply inv_get in H' as [[_ H']|(a' & t1' & -> & H')]; [discriminate|].
      apply answered_cons in A as [A ->]. apply answered_cons in A' as [A' ->].
      destruct (C _ _ _ _ _ _ _ H H' A A') as [X Y]. split; [exact X|]. constructor; [left; reflexivity|exact Y].
    + apply inv_read in H as [[_ H]|H]; [discriminate|]. apply inv_read in H' as [[_ H']|H']; [discriminate|]. eapply C; eassumption.
  - apply inv_log in H as [[_ H]|(t1 & -> & H)]; [discriminate|]. apply inv_done in H as [-> [H|H]]; [|discriminate].
    apply inv_log in H' as [[_ H']|(t1 & -> & H')]; [discriminate|]. apply inv_done in H' as [-> [H'|H']]; [|discriminate].
    apply Some_inj in H, H'. subst. split; [reflexivity|apply L].
  - apply inv_log in H as [[_ H]|(t1 & -> & H)]; [discriminate|]. apply inv_done in H as [-> [H|H]]; [|discriminate].
    apply inv_log in H' as [[_ H']|(t1 & -> & H')]; [discriminate|]. apply inv_done in H' as [-> [H'|H']]; [|discriminate].
    apply Some_inj in H, H'. subst. split; [reflexivity|apply L].
Qed.

Lemma client_dump net fs ls args o cfg t st : client_flags args = FParsed o -> co_dump o = true -> client_config o fs net = Ok cfg ->
  exec fs ls (client_proc args blinds) t (Some st) -> answered_by net t ->
  prints t = [Config_marshal cfg] /\ (st = 0%N /\ output_works t /\ arrived t = Config_marshal cfg \/ st = 1%N /\ ~ output_works t)
  /\ posted t = [].
Proof.
  intros F D C H A. pose proof (exec_written _ _ _ _ _ H) as WR. unfold client_proc in H. rewrite F in H. apply (body_inv net) in H as [[_ H]|(w & t' & Hw & -> & A' & H)]; [discriminate| |exact A].
  rewrite C in H. unfold client_with in H. rewrite D in H. apply inv_print in H as [[_ H]|(n & ok & t1 & -> & W & H)]; [discriminate|].
  assert (Ep : prints (w ++ EPrint (Config_marshal cfg) n ok :: t1) = Config_marshal cfg :: prints t1) by (unfold prints; rewrite (app_g _ w); [reflexivity|reflexivity|exact Hw]).
  assert (Eq : posted (w ++ EPrint (Config_marshal cfg) n ok :: t1) = posted t1) by (unfold posted; rewrite (app_g _ w); [reflexivity|reflexivity|exact Hw]).
  rewrite Ep, Eq. destruct ok.
  - apply inv_done in H as [-> [H|H]]; [|discriminate]. apply Some_inj in H. subst st. split; [reflexivity|]. split; [|reflexivity]. left.
    assert (O : output_works (w ++ [EPrint (Config_marshal cfg) n true])).
    { intros b n' ok' I0. apply in_app_or in I0 as [I0|I0].
      - destruct Hw as [->|(u & a & ->)]; [contradiction|]. destruct I0 as [I0|[]]. discriminate.
      - destruct I0 as [I0|[]]. inversion I0. reflexivity. }
    split; [reflexivity|]. split; [exact O|]. rewrite (arrived_works _ WR O), Ep. cbn [prints flat_map concat]. apply app_nil_r.
  - apply inv_fatal in H as [[_ H]|[-> [H|H]]]; [discriminate| |discriminate]. apply Some_inj in H. subst st. split; [reflexivity|]. split; [|reflexivity].
    right. split; [reflexivity|]. intros O. specialize (O (Config_marshal cfg) n false). discriminate O. apply in_or_app. right. left. reflexivity.
Qed.

Lemma client_traffic net fs ls args o cfg t st : client_flags args = FParsed o -> co_dump o = false -> client_config o fs net = Ok cfg ->
  exec fs ls (client_proc args blinds) t (Some st) -> answered_by net t ->
  map fst (posted t) = client_posts o fs net cfg blinds /\ exists lines, prints t = map (fun l => l ++ [Byte.x0a]) lines.
Proof.
  intros F D C H A. unfold client_proc in H. rewrite F in H. apply (body_inv net) in H as [[_ H]|(w & t' & Hw & -> & A' & H)]; [discriminate| |exact A].
  rewrite C in H. unfold client_with in H. rewrite D in H. destruct (queries_full net _ _ _ _ _ _ H A') as (_ & P1 & _ & P2).
  assert (Ep : prints (w ++ t') = prints t') by (apply app_g; [reflexivity|exact Hw]).
  assert (Eq : posted (w ++ t') = posted t') by (apply app_g; [reflexivity|exact Hw]). rewrite Ep, Eq. auto.
Qed.

(** Running with any network and any standard output. *)
Definition writes_of (t : list event) : list (bytes * nat * bool) :=
  flat_map (fun e => match e with EPrint b n ok => [(b, n, ok)] | _ => [] end) t.
Lemma client_runs net fs args (dev : nat -> bytes -> nat * bool) : (forall j b, written b (fst (dev j b)) (snd (dev j b))) ->
  exists t st, exec fs [] (client_proc args blinds) t (Some st) /\ answered_by net t
    /\ forall j b n ok, nth_error (writes_of t) j = Some (b, n, ok) -> (n, ok) = dev j b.
Proof.
  intros W. assert (nodev : forall j b n ok, nth_error (@nil (bytes * nat * bool)) j = Some (b, n, ok) -> (n, ok) = dev j b).
  { intros [|j]; discriminate. }
  unfold client_proc. destruct (client_flags args) as [o| |].
  2,3: eexists [_]; eexists; split; [constructor; constructor|]; split; [apply (no_get_post_answered net [_])|exact nodev].
  assert (G : exists t st, exec fs [] (client_with o blinds (client_config o fs net)) t (Some st) /\ answered_by net t
    /\ forall j b n ok, nth_error (writes_of t) j = Some (b, n, ok) -> (n, ok) = dev j b).
  { destruct (client_config o fs net) as [cfg|e|m].
    - cbn [client_with]. destruct (co_dump o).
      + pose (w := dev 0%nat (Config_marshal cfg)). pose proof (W 0%nat (Config_marshal cfg)) as Wr. fold w in Wr.
        assert (DV : forall j b n ok, nth_error [(Config_marshal cfg, fst w, snd w)] j = Some (b, n, ok) -> (n, ok) = dev j b).
        { intros [|[|j]] b n ok E; [|discriminate..]. cbn [nth_error] in E. apply Some_inj in E. apply pair_inj in E as [E <-]. apply pair_inj in E as [<- <-].
          symmetry. apply surjective_pairing. }
        destruct (snd w) eqn:Ew.
        * exists [EPrint (Config_marshal cfg) (fst w) true], 0%N. split; [|split].
          -- constructor; [exact Wr|constructor].
          -- apply answered_cons_in; [apply answered_nil|exact I].
          -- exact DV.
        * exists [EPrint (Config_marshal cfg) (fst w) false; ELog (Error [])], 1%N. split; [|split].
          -- constructor; [exact Wr|]. constructor. constructor.
          -- apply answered_cons_in; [apply (no_get_post_answered net [_])|exact I].
          -- exact DV.
      + unfold client_queries. cbv zeta.
        assert (G : exists t st, exec fs [] (Input (co_infile o) (fatal 1%N) (client_loop o cfg blinds 0)) t (Some st) /\ answered_by net t
           /\ forall j b n ok, nth_error (writes_of t) j = Some (b, n, ok) -> (n, ok) = dev j b).
        { destruct (input_of fs (co_infile o)) as [input|] eqn:I0.
          - destruct (loop_runs LIB o cfg blinds net fs dev W (scan_lines input) 0%nat) as (t & st & X & A & B). exists t, st.
            split; [eapply ex_input; eassumption|]. split; [exact A|exact B].
          - exists [ELog (Error [])], 1%N. split; [apply ex_input_failed; [exact I0|]; constructor; constructor|].
            split; [apply (no_get_post_answered net [_])|exact nodev]. }
        destruct G as (t & st & X & A & B). destruct (negb (cfg_version cfg =? DefaultMIGPVersion)%N); [|eauto].
        eexists (_ :: t), st. split; [constructor; exact X|]. split; [apply answered_cons_in; [exact A|exact I]|exact B].
    - exists [ELog (Error [])], 1%N. split; [constructor; constructor|]. split; [apply (no_get_post_answered net [_])|exact nodev].
    - exists [], 2%N. split; [constructor|]. split; [apply answered_nil|exact nodev]. }
  destruct G as (t & st & X & A & B). unfold client_proc_body, client_config in *. destruct (co_config o) as [|x name].
  - eexists (EGet _ _ :: t), st. split; [constructor; exact X|]. split; [apply answered_cons_in; [exact A|reflexivity]|exact B].
  - exists t, st. split; [constructor; exact X|]. auto.
Qed.

End Client.

(** ** The server *)
Section ServerLoop.
Variable LIB : OPRF.
Variables (o : server_opts) (s : Server LIB).
Notation loop := (server_loop o s).
Notation ins store u p := (demo_insert s store u p (so_metadata o) (so_num o) (so_username o)).
Notation starting := (ELog (Text (Byte.x0a :: str "Starting MIGP server"))).

Lemma sloop_inv fs ls store a b t r : exec fs ls (loop store a b) t r ->
  t = [] /\ r = None
  \/ ls = [] /\ (exists t', t = EEnd :: t' /\ (t' = [] /\ r = None \/ exists t1, t' = starting :: t1 /\
       (t1 = [] /\ r = None \/ t1 = [EListen (so_listen o) true] /\ r = Some (SServing (so_listen o) {| migpServer := s; kv := store |} a b)
        \/ exists t2, t1 = EListen (so_listen o) false :: t2 /\ (t2 = [] /\ r = None \/ t2 = [ELog (Error [])] /\ (r = Some (SExit 1 []) \/ r = None)))))
  \/ exists l ls' t', ls = l :: ls' /\ t = ELine l :: t' /\
     match split_colon l with
     | None => exec fs ls' (loop store a (b + 1)) t' r
     | Some (u, p) =>
         match ins store u p with
         | (_, Panic _) => t' = [] /\ (r = Some (SExit 2 []) \/ r = None)
         | (store', Err _) => exec fs ls' (loop store' a (b + 1)) t' r
         | (store', Ok _) => t' = [] /\ r = None \/ exists t1, t' = ELog (Text (Byte.x0d :: counts (a + 1) b)) :: t1 /\ exec fs ls' (loop store' (a + 1)%N b) t1 r
         end
     end.
Proof.
  intros H. rewrite (frob_eq (loop store a b)) in H. cbn [frob server_loop] in H.
  apply inv_scan in H as [H|H]; [auto|]. destruct ls as [|l ls'].
  - right; left. split; [reflexivity|]. destruct H as (t' & -> & H). exists t'. split; [reflexivity|].
    apply inv_log in H as [H|(t1 & -> & H)]; [auto|]. right. exists t1. split; [reflexivity|].
    apply inv_listen in H as [H|[H|(t2 & -> & H)]]; [auto|auto|]. right; right. exists t2. split; [reflexivity|].
    exact (inv_fatal _ _ _ _ _ H).
  - right; right. destruct H as (t' & -> & H). exists l, ls', t'. split; [reflexivity|]. split; [reflexivity|].
    destruct (split_colon l) as [[u p]|]; [|exact H]. destruct (ins store u p) as [store' [x|e|m]].
    + exact (inv_log _ _ _ _ _ _ H).
    + exact H.
    + exact (inv_done _ _ _ _ _ H).
Qed.

Notation outs store ls := (outcomes s store (ops_of (so_metadata o) (so_num o) (so_username o) ls)).

Fixpoint log_of (a b : N) (results : list bool) : list message :=
  match results with
  | [] => []
  | true :: r => Text (Byte.x0d :: counts (a + 1) b) :: log_of (a + 1) b r
  | false :: r => log_of a (b + 1) r
  end.
Lemma outs_cons store l ls : outs store (l :: ls) =
  match split_colon l with None => outs store ls | Some (u, p) => snd (ins store u p) :: outs (fst (ins store u p)) ls end.
Proof. unfold ops_of. rewrite with_colon_cons. destruct (split_colon l) as [[u p]|]; reflexivity. Qed.

(** What a run shows, from the beginning up to any point. *)
Lemma sloop_shows fs : forall ls store a b t r, exec fs ls (loop store a b) t r ->
  prints t = [] /\ (exists rest, ls = taken t ++ rest)
  /\ (exists later, log_of a b (line_results ls (outs store ls)) ++ [Text (Byte.x0a :: str "Starting MIGP server")] = messages t ++ later
      \/ messages t = log_of a b (line_results ls (outs store ls)) ++ [Text (Byte.x0a :: str "Starting MIGP server"); Error []])
  /\ (forall addr ok pre post, t = pre ++ EListen addr ok :: post -> addr = so_listen o /\ taken pre = ls
       /\ messages pre = log_of a b (line_results ls (outs store ls)) ++ [Text (Byte.x0a :: str "Starting MIGP server")])
  /\ (forall st, r = Some st -> match ingest_lines s (so_metadata o) (so_num o) (so_username o) (mkIngest store a b) ls with
       | Ok i => st = SServing (so_listen o) {| migpServer := s; kv := in_store i |} (in_success i) (in_failure i) /\ In (EListen (so_listen o) true) t
                 /\ messages t = log_of a b (line_results ls (outs store ls)) ++ [Text (Byte.x0a :: str "Starting MIGP server")]
            \/ st = SExit 1 [] /\ In (EListen (so_listen o) false) t /\ ~ In (EListen (so_listen o) true) t
       | _ => st = SExit 2 [] /\ (exists later, log_of a b (line_results ls (outs store ls)) = messages t ++ later)
       end).
Proof.
  induction ls as [|l ls IH]; intros store a b t r H; apply sloop_inv in H.
  - destruct H as [[-> ->]|[[_ (t' & -> & H)]|(l & ls' & t' & E & _)]]; [| |discriminate].
    + split; [reflexivity|]. split; [exists []; reflexivity|]. split; [eexists; left; reflexivity|]. split; [intros ? ? [|? ?] ? E; discriminate|discriminate].
    + destruct H as [[-> ->]|(t1 & -> & H)].
      { split; [reflexivity|]. split; [exists []; reflexivity|]. split; [eexists; left; reflexivity|]. split; [|discriminate].
        intros ? ? [|? [|? ?]] ? E; discriminate. }
      destruct H as [[-> ->]|[[-> ->]|(t2 & -> & H)]].
      * split; [reflexivity|]. split; [exists []; reflexivity|]. split; [exists []; left; reflexivity|]. split; [|discriminate].
        intros ? ? [|? [|? [|? ?]]] ? E; discriminate.
      * split; [reflexivity|]. split; [exists []; reflexivity|]. split; [exists []; left; reflexivity|]. split.
        -- intros addr ok [|? [|? [|? [|? ?]]]] ? E; try discriminate. cbn [app] in E. repeat apply cons_eq in E as [? E]. inversion H1. subst. auto.
        -- intros st E. apply Some_inj in E. subst st. cbn [ingest_lines]. left. split; [reflexivity|]. split; [cbn; auto|reflexivity].
      * split; [destruct H as [[-> _]|[-> _]]; reflexivity|]. split; [exists []; destruct H as [[-> _]|[-> _]]; reflexivity|].
        split; [exists []; destruct H as [[-> _]|[-> _]]; [left|right]; reflexivity|]. split.
        -- intros addr ok pre post E. assert (E' : pre = [EEnd; starting] /\ addr = so_listen o).
           { destruct pre as [|e1 [|e2 [|e3 [|e4 pre]]]]; try discriminate; cbn [app] in E; repeat apply cons_eq in E as [? E].
             - inversion H2. subst. auto.
             - exfalso. destruct H as [[-> _]|[-> _]]; [discriminate|]. inversion E.
             - exfalso. destruct H as [[-> _]|[-> _]]; [discriminate|]. apply cons_eq in E as [_ E]. destruct pre; discriminate. }
           destruct E' as [-> ->]. auto.
        -- intros st E. destruct H as [[_ X]|[-> [X|X]]]; [congruence| |congruence]. rewrite X in E. apply Some_inj in E. subst st. cbn [ingest_lines].
           right. split; [reflexivity|]. split; [cbn; auto|]. cbn. intros [Y|[Y|[Y|[Y|[]]]]]; inversion Y.
  - destruct H as [[-> ->]|[(E & _)|(l0 & ls0 & t' & E & -> & H)]]; [|discriminate|].
    { split; [reflexivity|]. split; [exists (l :: ls); reflexivity|]. split; [eexists; left; reflexivity|]. split; [intros ? ? [|? ?] ? E; discriminate|discriminate]. }
    apply cons_eq in E as [<- <-]. rewrite outs_cons. cbn [line_results].
    destruct (split_colon l) as [[u p]|] eqn:Sp.
    + cbn [ingest_lines]. unfold ingest_line. rewrite Sp. cbn [in_store in_success in_failure].
      destruct (ins store u p) as [store' [x|e|m]] eqn:Ei; cbn [fst snd is_ok log_of bind].
      * destruct H as [[-> ->]|(t1 & -> & H)].
        { split; [reflexivity|]. split; [exists ls; reflexivity|]. split; [eexists; left; reflexivity|]. split; [intros ? ? [|? [|? ?]] ? E; discriminate|discriminate]. }
        destruct (IH _ _ _ _ _ H) as (P1 & (rest & P2) & (later & P3) & P4 & P5). cbn [prints taken messages flat_map app].
        fold (prints t1) (taken t1) (messages t1). split; [exact P1|]. split; [exists rest; cbn [app]; f_equal; exact P2|]. split; [|split].
        -- exists later. destruct P3 as [P3|P3]; [left; cbn [app]; f_equal; exact P3|right; f_equal; exact P3].
        -- intros addr ok [|y [|z pre]] post E; [discriminate| |].
           ++ cbn [app] in E. apply cons_eq in E as [_ E]. discriminate.
           ++ cbn [app] in E. apply cons_eq in E as [<- E]. apply cons_eq in E as [<- E]. destruct (P4 _ _ _ _ E) as (Q1 & Q2 & Q3).
              split; [exact Q1|]. cbn [taken messages flat_map app]. fold (taken pre) (messages pre). rewrite Q2, Q3. auto.
        -- intros st E. specialize (P5 st E). destruct (ingest_lines _ _ _ _ _ _) as [i|er|mm].
           ++ destruct P5 as [(Q1 & Q2 & Q3)|(Q1 & Q2 & Q3)]; [left|right].
              ** split; [exact Q1|]. split; [right; right; exact Q2|]. f_equal. exact Q3.
              ** split; [exact Q1|]. split; [right; right; exact Q2|]. intros [Y|[Y|Y]]; [discriminate|discriminate|exact (Q3 Y)].
           ++ destruct P5 as [Q1 [later' Q2]]. split; [exact Q1|]. exists later'. f_equal. exact Q2.
           ++ destruct P5 as [Q1 [later' Q2]]. split; [exact Q1|]. exists later'. f_equal. exact Q2.
      * destruct (IH _ _ _ _ _ H) as (P1 & (rest & P2) & P3 & P4 & P5). cbn [prints taken messages flat_map app].
        fold (prints t') (taken t') (messages t'). split; [exact P1|]. split; [exists rest; cbn [app]; f_equal; exact P2|]. split; [exact P3|]. split.
        -- intros addr ok [|y pre] post E; [discriminate|]. cbn [app] in E. apply cons_eq in E as [<- E]. destruct (P4 _ _ _ _ E) as (Q1 & Q2 & Q3).
           split; [exact Q1|]. cbn [taken messages flat_map app]. fold (taken pre) (messages pre). rewrite Q2, Q3. auto.
        -- intros st E. specialize (P5 st E). destruct (ingest_lines _ _ _ _ _ _) as [i|er|mm]; [|exact P5..].
           destruct P5 as [(Q1 & Q2 & Q3)|(Q1 & Q2 & Q3)]; [left|right].
           ++ split; [exact Q1|]. split; [right; exact Q2|exact Q3].
           ++ split; [exact Q1|]. split; [right; exact Q2|]. intros [Y|Y]; [discriminate|exact (Q3 Y)].
      * destruct H as [-> H]. split; [reflexivity|]. split; [exists ls; reflexivity|]. split; [eexists; left; reflexivity|].
        split; [intros ? ? [|? [|? ?]] ? E; discriminate|]. intros st E. destruct H as [H|H]; [|congruence]. rewrite H in E. apply Some_inj in E. subst st.
        split; [reflexivity|]. eexists. reflexivity.
    + cbn [ingest_lines]. unfold ingest_line. rewrite Sp. cbn [in_store in_success in_failure bind log_of].
      destruct (IH _ _ _ _ _ H) as (P1 & (rest & P2) & P3 & P4 & P5). cbn [prints taken messages flat_map app].
      fold (prints t') (taken t') (messages t'). split; [exact P1|]. split; [exists rest; cbn [app]; f_equal; exact P2|]. split; [exact P3|]. split.
      * intros addr ok [|y pre] post E; [discriminate|]. cbn [app] in E. apply cons_eq in E as [<- E]. destruct (P4 _ _ _ _ E) as (Q1 & Q2 & Q3).
        split; [exact Q1|]. cbn [taken messages flat_map app]. fold (taken pre) (messages pre). rewrite Q2, Q3. auto.
      * intros st E. specialize (P5 st E). destruct (ingest_lines _ _ _ _ _ _) as [i|er|mm]; [|exact P5..].
        destruct P5 as [(Q1 & Q2 & Q3)|(Q1 & Q2 & Q3)]; [left|right].
        -- split; [exact Q1|]. split; [right; exact Q2|exact Q3].
        -- split; [exact Q1|]. split; [right; exact Q2|]. intros [Y|Y]; [discriminate|exact (Q3 Y)].
Qed.
End ServerLoop.

(** ** The counts in the log *)
Lemma log_progress : forall results a b,
  log_of a b results = map (fun c => Text (Byte.x0d :: counts (a + fst c) (b + snd c))) (progress results).
Proof.
  assert (C : forall (x : bool) r, progress (x :: r) =
    (if x then [(1%N, 0%N)] else []) ++ map (fun c => if x then (1 + fst c, snd c)%N else (fst c, 1 + snd c)%N) (progress r)).
  { intros x r. unfold progress. cbn [length seq filter]. change (nth 0 (x :: r) false) with x. rewrite <- seq_shift.
    assert (F : filter (fun i => nth i (x :: r) false) (map S (seq 0 (length r))) = map S (filter (fun i => nth i r false) (seq 0 (length r)))).
    { generalize (seq 0 (length r)). induction l as [|i l IH]; [reflexivity|]. cbn [map filter nth]. destruct (nth i r false); cbn [map]; f_equal; exact IH. }
    assert (G : forall l, map (fun i => (count true (firstn (S i) (x :: r)), count false (firstn i (x :: r)))) (map S l)
      = map (fun c => if x then (1 + fst c, snd c)%N else (fst c, 1 + snd c)%N) (map (fun i => (count true (firstn (S i) r), count false (firstn i r))) l)).
    { intros l. rewrite !map_map. apply map_ext. intros i. cbn [firstn fst snd]. unfold count. cbn [filter]. destruct x; cbn [Bool.eqb length]; f_equal; lia. }
    rewrite F. destruct x; cbn [map app]; rewrite G; reflexivity. }
  induction results as [|x r IH]; intros a b; [reflexivity|]. rewrite C. destruct x; cbn [log_of app map]; rewrite IH, map_map.
  - f_equal; [cbn [fst snd]; rewrite N.add_0_r; reflexivity|]. apply map_ext. intros c. cbn [fst snd]. do 3 f_equal. lia.
  - apply map_ext. intros c. cbn [fst snd]. do 3 f_equal. lia.
Qed.

(** ** The whole server *)
Section ServerAll.
Variable LIB : OPRF.
Variable gen : res (PrivateKey LIB).
Notation sp := (server_proc).

Lemma sbody_inv fs ls o t (r : option (server_run LIB)) : exec fs ls (server_proc_body o gen) t r ->
  t = [] /\ r = None \/ exec fs ls (server_with o (server_config o fs gen)) t r.
Proof.
  unfold server_proc_body, server_config. destruct (so_config o) as [|x name]; intros H; [auto|]. apply inv_read in H as [H|H]; auto.
Qed.

Definition with_output (r : server_run LIB) (out : bytes) : server_run LIB :=
  match r with SExit st _ => SExit st out | _ => r end.

Lemma prints_arrived t : prints t = [] -> arrived t = [].
Proof.
  induction t as [|e t IH]; [reflexivity|]. destruct e; cbn [prints arrived flat_map app]; fold (prints t) (arrived t); intros H; try (apply IH, H). discriminate.
Qed.

Lemma server_working fs ls args t r : exec fs ls (server_proc args gen) t (Some r) -> output_works t ->
  (forall addr, ~ In (EListen addr false) t) ->
  server_program args fs gen = with_output r (arrived t).
Proof.
  intros H O L. unfold server_proc in H. unfold server_program. destruct (server_flags args) as [o| |].
  - apply sbody_inv in H as [[_ H]|H]; [discriminate|]. unfold server_with in H. unfold server_body.
    destruct (server_config o fs gen) as [cfg|e|m].
    + destruct (so_dump o).
      * destruct (ServerConfig_MarshalJSON cfg) as [data|e|m].
        -- pose proof (exec_written _ _ _ _ _ H) as WR. rewrite (arrived_works t WR O).
           apply inv_print in H as [[_ H]|(n & ok & t1 & -> & W & H)]; [discriminate|].
           assert (ok = true) by (eapply O; left; reflexivity). subst ok.
           apply inv_done in H as [-> [H|H]]; [|discriminate]. apply Some_inj in H. subst r. cbn [with_output prints flat_map app concat]. rewrite app_nil_r. reflexivity.
        -- apply inv_fatal in H as [[_ H]|[-> [H|H]]]; [discriminate| |discriminate]. apply Some_inj in H. subst r. reflexivity.
        -- apply inv_done in H as [-> [H|H]]; [|discriminate]. apply Some_inj in H. subst r. reflexivity.
      * unfold server_serving in H. unfold server_serve. destruct (newServer cfg) as [s|e|m].
        -- apply inv_input in H as [[_ H]|H]; [discriminate|]. destruct (input_of fs (so_infile o)) as [input|].
           ++ apply inv_log in H as [[_ H]|(t1 & -> & H)]; [discriminate|]. destruct (sloop_shows LIB o (migpServer s) fs _ _ _ _ _ _ H) as (P1 & _ & _ & _ & P5).
              specialize (P5 _ eq_refl). unfold server_ingest.
              assert (A : arrived (ELog (Text (counts 0 0)) :: t1) = []) by (apply prints_arrived in P1; exact P1). rewrite A.
              destruct (ingest_lines _ _ _ _ _ _) as [i|e|m].
              ** destruct P5 as [(-> & _)|(_ & P & _)]; [reflexivity|]. exfalso. eapply L. right. exact P.
              ** destruct P5 as [-> _]. reflexivity.
              ** destruct P5 as [-> _]. reflexivity.
           ++ apply inv_fatal in H as [[_ H]|[-> [H|H]]]; [discriminate| |discriminate]. apply Some_inj in H. subst r. reflexivity.
        -- apply inv_fatal in H as [[_ H]|[-> [H|H]]]; [discriminate| |discriminate]. apply Some_inj in H. subst r. reflexivity.
        -- apply inv_done in H as [-> [H|H]]; [|discriminate]. apply Some_inj in H. subst r. reflexivity.
    + apply inv_fatal in H as [[_ H]|[-> [H|H]]]; [discriminate| |discriminate]. apply Some_inj in H. subst r. reflexivity.
    + apply inv_done in H as [-> [H|H]]; [|discriminate]. apply Some_inj in H. subst r. reflexivity.
  - apply inv_log in H as [[_ H]|(t1 & -> & H)]; [discriminate|]. apply inv_done in H as [-> [H|H]]; [|discriminate]. apply Some_inj in H. subst r. reflexivity.
  - apply inv_log in H as [[_ H]|(t1 & -> & H)]; [discriminate|]. apply inv_done in H as [-> [H|H]]; [|discriminate]. apply Some_inj in H. subst r. reflexivity.
Qed.

Lemma server_dump fs ls args o cfg data t r : server_flags args = FParsed o -> so_dump o = true -> server_config o fs gen = Ok cfg ->
  ServerConfig_MarshalJSON cfg = Ok data -> exec fs ls (server_proc args gen) t (Some r) ->
  prints t = [data] /\ (r = SExit 0 [] /\ output_works t /\ arrived t = data \/ r = SExit 1 [] /\ ~ output_works t).
Proof.
  intros F D C M H. pose proof (exec_written _ _ _ _ _ H) as WR. unfold server_proc in H. rewrite F in H.
  apply sbody_inv in H as [[_ H]|H]; [discriminate|]. unfold server_with in H. rewrite C, D, M in H.
  apply inv_print in H as [[_ H]|(n & ok & t1 & -> & W & H)]; [discriminate|]. destruct ok.
  - apply inv_done in H as [-> [H|H]]; [|discriminate]. apply Some_inj in H. subst r. split; [reflexivity|]. left. split; [reflexivity|].
    assert (O : output_works [EPrint data n true]) by (intros b n' ok' [E|[]]; inversion E; reflexivity).
    split; [exact O|]. rewrite (arrived_works _ WR O). apply app_nil_r.
  - apply inv_fatal in H as [[_ H]|[-> [H|H]]]; [discriminate| |discriminate]. apply Some_inj in H. subst r. split; [reflexivity|]. right. split; [reflexivity|].
    intros O. specialize (O _ _ _ (or_introl eq_refl)). discriminate.
Qed.

(** A server that has an input to read. *)
Lemma server_input fs ls args o cfg s input t r : server_flags args = FParsed o -> so_dump o = false -> server_config o fs gen = Ok cfg ->
  newServer cfg = Ok s -> input_of fs (so_infile o) = Some input -> exec fs ls (server_proc args gen) t r ->
  t = [] /\ r = None \/ exists t1, t = ELog (Text (counts 0 0)) :: t1 /\ exec fs (scan_lines input) (server_loop o (migpServer s) (kv s) 0 0) t1 r.
Proof.
  intros F D C N I0 H. unfold server_proc in H. rewrite F in H. apply sbody_inv in H as [H|H]; [auto|]. unfold server_with in H. rewrite C, D in H.
  unfold server_serving in H. rewrite N in H. apply inv_input in H as [H|H]; [auto|]. rewrite I0 in H. apply inv_log in H as [H|H]; auto.
Qed.

End ServerAll.

Lemma counts_says a b : says a b (counts a b).
Proof. exists (dec_N a), (dec_N b). split; [apply SentProofs.plain_dec|]. split; [apply SentProofs.plain_dec|reflexivity]. Qed.
Lemma log_says results : Forall2 (fun c m => exists b, m = Text (Byte.x0d :: b) /\ says (fst c) (snd c) b) (progress results) (log_of 0 0 results).
Proof.
  rewrite log_progress. induction (progress results) as [|c r IH]; cbn [map]; constructor; [|exact IH].
  eexists. split; [reflexivity|]. rewrite !N.add_0_l. apply counts_says.
Qed.

(** ** Runs can be seen up to any point *)
Lemma exec_prefix {F} fs ls (p : proc F) t r : exec fs ls p t r -> forall t1 e2 t2, t = t1 ++ e2 :: t2 -> exec fs ls p t1 None.
Proof.
  induction 1; intros t1 e2 t2 E; (destruct t1 as [|e t1]; [constructor|]); try discriminate; cbn [app] in E.
  - apply cons_eq in E as [<- E]. constructor; [assumption|]. eapply IHexec; exact E.
  - apply cons_eq in E as [<- E]. constructor. eapply IHexec; exact E.
  - constructor. eapply IHexec; exact E.
  - eapply ex_input; [eassumption|]. eapply IHexec; exact E.
  - eapply ex_input_failed; [eassumption|]. eapply IHexec; exact E.
  - apply cons_eq in E as [<- E]. constructor. eapply IHexec; exact E.
  - apply cons_eq in E as [<- E]. constructor. eapply IHexec; exact E.
  - apply cons_eq in E as [<- E]. constructor. eapply IHexec; exact E.
  - apply cons_eq in E as [<- E]. constructor. eapply IHexec; exact E.
  - apply cons_eq in E as [<- E]. destruct t1; discriminate.
  - apply cons_eq in E as [<- E]. constructor. eapply IHexec; exact E.
Qed.

Section ClientOrder.
Variable LIB : OPRF.
Variables (o : client_opts) (cfg : Config) (blinds : nat -> Blind LIB).

Lemma loop_counts fs : forall ls i t r, exec fs ls (client_loop o cfg blinds i) t r ->
  (length (prints t) <= length (posted t) <= length (with_colon (taken t)))%nat /\ (length (with_colon (taken t)) <= S (length (prints t)))%nat.
Proof.
  assert (Z : (length (prints []) <= length (posted []) <= length (with_colon (taken [])))%nat /\ (length (with_colon (taken [])) <= S (length (prints [])))%nat) by (cbn; lia).
  induction ls as [|l ls IH]; intros i t r H; apply loop_inv in H.
  - destruct H as [[-> _]|[(_ & -> & _)|(l & ls' & t' & E & _)]]; [exact Z|exact Z|discriminate].
  - destruct H as [[-> _]|[(E & _)|(l0 & ls0 & t' & E & -> & H)]]; [exact Z|discriminate|]. apply cons_eq in E as [<- <-].
    cbn [prints posted taken flat_map app]. fold (prints t') (posted t') (taken t'). rewrite with_colon_cons.
    destruct (split_colon l) as [[u p]|]; [|eapply IH; eassumption].
    destruct (Query_start cfg u p (blinds i)) as [[d ctx]|e|m].
    + destruct H as [[-> _]|(a & t1 & -> & H)]; [cbn; lia|]. cbn [prints posted taken flat_map app]. fold (prints t1) (posted t1) (taken t1).
      destruct (Query_finish ctx a) as [ans|e|m].
      * destruct H as [[-> _]|(n & ok & t2 & -> & _ & H)]; [cbn; lia|]. cbn [prints posted taken flat_map app]. fold (prints t2) (posted t2) (taken t2).
        apply IH in H. cbn [length]. lia.
      * destruct H as [[-> _]|[-> _]]; cbn; lia.
      * destruct H as [-> _]; cbn; lia.
    + destruct H as [[-> _]|[-> _]]; cbn; lia.
    + destruct H as [-> _]; cbn; lia.
Qed.

Definition quiet (w : list event) : Prop := w = [] \/ (exists m, w = [ELog m]) \/ (exists u a, w = [EGet u a]) \/ exists u a m, w = [EGet u a; ELog m].
(** The loop is all there is to see, after the configuration and the warning. *)
Lemma client_to_loop net fs args input t r : client_flags args = FParsed o -> co_dump o = false -> client_config o fs net = Ok cfg ->
  input_of fs (co_infile o) = Some input -> exec fs [] (client_proc args blinds) t r -> answered_by net t ->
  exists w t', quiet w /\ t = w ++ t' /\ answered_by net t' /\ exec fs (scan_lines input) (client_loop o cfg blinds 0) t' r \/ quiet t /\ r = None.
Proof.
  intros Fl D C I0 H A. unfold client_proc in H. rewrite Fl in H. apply (body_inv LIB blinds net) in H as [[-> ->]|(w & t' & Hw & -> & A' & H)]; [| |exact A].
  { exists [], []. right. split; [left; reflexivity|reflexivity]. }
  rewrite C in H. unfold client_with in H. rewrite D in H. apply queries_inv in H as (v & t1 & Hv & -> & H).
  assert (Q : quiet (w ++ v)).
  { destruct Hw as [->|(u & a & ->)], Hv as [->|[b ->]]; unfold quiet; cbn [app]; eauto 10. }
  apply inv_input in H as [[-> ->]|H].
  - exists [], []. right. rewrite app_nil_r. auto.
  - rewrite I0 in H. exists (w ++ v), t1. left. split; [exact Q|]. split; [apply app_assoc|]. split; [apply answered_app_r in A'; exact A'|exact H].
Qed.
Lemma quiet_app {A} (f : event -> list A) w t : (forall m, f (ELog m) = []) -> (forall u a, f (EGet u a) = []) -> quiet w -> flat_map f (w ++ t) = flat_map f t.
Proof. intros L G [->|[[m ->]|[(u & a & ->)|(u & a & m & ->)]]]; cbn [app flat_map]; rewrite ?L, ?G; reflexivity. Qed.
Lemma quiet_split w t pre e post : quiet w -> w ++ t = pre ++ e :: post -> (e = EEnd \/ exists l, e = ELine l) ->
  exists pre', pre = w ++ pre' /\ t = pre' ++ e :: post.
Proof.
  intros [->|[[m ->]|[(u & a & ->)|(u & a & m & ->)]]] E X.
  - exists pre. auto.
  - destruct pre as [|x pre]; cbn [app] in E; apply cons_eq in E as [<- E]; [destruct X as [X|[l X]]; discriminate|]. exists pre. auto.
  - destruct pre as [|x pre]; cbn [app] in E; apply cons_eq in E as [<- E]; [destruct X as [X|[l X]]; discriminate|]. exists pre. auto.
  - destruct pre as [|x pre]; cbn [app] in E; apply cons_eq in E as [<- E]; [destruct X as [X|[l X]]; discriminate|].
    destruct pre as [|x pre]; cbn [app] in E; apply cons_eq in E as [<- E]; [destruct X as [X|[l X]]; discriminate|]. exists pre. auto.
Qed.

Lemma client_order net fs args input t r : client_flags args = FParsed o -> co_dump o = false -> client_config o fs net = Ok cfg ->
  input_of fs (co_infile o) = Some input -> exec fs [] (client_proc args blinds) t r -> answered_by net t ->
  (exists rest, scan_lines input = taken t ++ rest)
  /\ ((length (prints t) <= length (posted t) <= length (with_colon (taken t)))%nat /\ (length (with_colon (taken t)) <= S (length (prints t)))%nat)
  /\ forall pre e post, t = pre ++ e :: post -> (e = EEnd \/ exists l, e = ELine l) ->
       length (prints pre) = length (with_colon (taken pre)) /\
       forall j u p, nth_error (with_colon (taken pre)) j = Some (u, p) ->
         exists ans, Query cfg (n_post net) (co_target o ++ str "/evaluate") u p (blinds j) = Ok ans
           /\ nth_error (prints pre) j = Some (out_line o u p ans).
Proof.
  intros Fl D C I0 H A. destruct (client_to_loop net _ _ _ _ _ Fl D C I0 H A) as (w & t' & [(Q & -> & A' & H')|[Q ->]]).
  - assert (E1 : prints (w ++ t') = prints t') by (apply quiet_app; [reflexivity|reflexivity|exact Q]).
    assert (E2 : posted (w ++ t') = posted t') by (apply quiet_app; [reflexivity|reflexivity|exact Q]).
    assert (E3 : taken (w ++ t') = taken t') by (apply quiet_app; [reflexivity|reflexivity|exact Q]). rewrite E1, E2, E3.
    destruct (loop_order LIB o cfg blinds fs _ _ _ _ H') as [R O]. split; [exact R|]. split; [exact (loop_counts _ _ _ _ _ H')|].
    intros pre e post E X. destruct (quiet_split _ _ _ _ _ Q E X) as (pre' & -> & E'). destruct (O _ _ _ E' X) as (L1 & L2 & L3).
    assert (F1 : prints (w ++ pre') = prints pre') by (apply quiet_app; [reflexivity|reflexivity|exact Q]).
    assert (F3 : taken (w ++ pre') = taken pre') by (apply quiet_app; [reflexivity|reflexivity|exact Q]). rewrite F1, F3.
    split; [exact L1|]. intros j u p Hj. destruct (L3 j u p Hj) as (d & ctx & a & ans & K1 & K2 & K3 & K4). exists ans. split; [|exact K4].
    rewrite Query_halves. cbn [Nat.add] in K2. rewrite K2. replace (n_post net (co_target o ++ str "/evaluate") d) with a; [exact K3|].
    assert (Hin : In (d, a) (posted pre')) by (eapply nth_error_In; exact K1). unfold posted in Hin. apply in_flat_map in Hin as (x & Hx & Hd).
    assert (Hx' : exists ls i r', exec fs ls (client_loop o cfg blinds i) pre' r') by (do 3 eexists; eapply exec_prefix; [exact H'|exact E']).
    destruct x; cbn in Hd; try contradiction. destruct Hd as [Hd|[]]. apply pair_inj in Hd as [-> ->].
    assert (Ux : forall ls i r', exec fs ls (client_loop o cfg blinds i) pre' r' -> url = co_target o ++ str "/evaluate").
    { clear -Hx LIB. intros ls. revert pre' Hx. induction ls as [|l ls IH]; intros pre Hx i r H; apply loop_inv in H.
      - destruct H as [[-> _]|[(_ & -> & _)|(l & ls' & t' & E & _)]]; [contradiction| |discriminate]. destruct Hx as [Hx|[]]. discriminate.
      - destruct H as [[-> _]|[(E & _)|(l0 & ls0 & t' & E & -> & H)]]; [contradiction|discriminate|]. apply cons_eq in E as [<- <-].
        destruct Hx as [Hx|Hx]; [discriminate|]. destruct (split_colon l) as [[u p]|]; [|eapply IH; eassumption].
        destruct (Query_start cfg u p (blinds i)) as [[d' ctx]|e|m].
        + destruct H as [[-> _]|(a' & t1 & -> & H)]; [contradiction|]. destruct Hx as [Hx|Hx]; [inversion Hx; reflexivity|].
          destruct (Query_finish ctx a') as [ans|e|m].
          * destruct H as [[-> _]|(n & ok & t2 & -> & _ & H)]; [contradiction|]. destruct Hx as [Hx|Hx]; [discriminate|]. eapply IH; eassumption.
          * destruct H as [[-> _]|[-> _]]; [contradiction|]. destruct Hx as [Hx|[]]. discriminate.
          * destruct H as [-> _]. contradiction.
        + destruct H as [[-> _]|[-> _]]; [contradiction|]. destruct Hx as [Hx|[]]. discriminate.
        + destruct H as [-> _]. contradiction. }
    destruct Hx' as (ls & i & r' & Hx'). specialize (Ux _ _ _ Hx'). subst url.
    apply (proj2 A' (co_target o ++ str "/evaluate") d a). rewrite E'. apply in_or_app. left. exact Hx.
  - assert (N1 : prints t = []) by (destruct Q as [->|[[m ->]|[(u & a & ->)|(u & a & m & ->)]]]; reflexivity).
    assert (N2 : posted t = []) by (destruct Q as [->|[[m ->]|[(u & a & ->)|(u & a & m & ->)]]]; reflexivity).
    assert (N3 : taken t = []) by (destruct Q as [->|[[m ->]|[(u & a & ->)|(u & a & m & ->)]]]; reflexivity).
    rewrite N1, N2, N3. split; [exists (scan_lines input); reflexivity|]. split; [cbn; lia|].
    intros pre e post E X. exfalso. rewrite <- (app_nil_r t) in E. destruct (quiet_split _ _ _ _ _ Q E X) as (pre' & _ & E'). destruct pre'; discriminate.
Qed.
End ClientOrder.

Lemma count_cons x y r : count x (y :: r) = ((if Bool.eqb x y then 1 else 0) + count x r)%N.
Proof. unfold count. cbn [filter]. destruct (Bool.eqb x y); cbn [length]; lia. Qed.
Lemma ingest_counts LIB (s : Server LIB) (md : bytes) n incl : forall ls store a b i,
  ingest_lines s md n incl (mkIngest store a b) ls = Ok i ->
  let results := line_results ls (outcomes s store (ops_of md n incl ls)) in
  in_success i = (a + count true results)%N /\ in_failure i = (b + count false results)%N /\ length results = length ls.
Proof.
  induction ls as [|l ls IH]; intros store a b i H; cbn [ingest_lines] in H.
  - apply Ok_inj in H. subst i. cbn. lia.
  - unfold ops_of. rewrite with_colon_cons. cbn [line_results]. unfold ingest_line in H. cbn [in_store in_success in_failure] in H.
    destruct (split_colon l) as [[u p]|].
    + cbn [map outcomes]. rewrite do_insert_op. destruct (demo_insert s store u p md n incl) as [store' [x|e|m]]; cbn [bind] in H; [| |discriminate].
      * apply IH in H. cbv zeta in *. cbn [fst snd is_ok]. rewrite !count_cons. cbn [Bool.eqb length]. unfold ops_of in H. lia.
      * apply IH in H. cbv zeta in *. cbn [fst snd is_ok]. rewrite !count_cons. cbn [Bool.eqb length]. unfold ops_of in H. lia.
    + cbn [bind] in H. apply IH in H. cbv zeta in *. rewrite !count_cons. cbn [Bool.eqb length]. unfold ops_of in H. lia.
Qed.

Section ServerLog.
Variable LIB : OPRF.
Variable gen : res (PrivateKey LIB).
Variables (fs : files) (args : list bytes) (o : server_opts) (cfg : ServerConfig LIB) (s : server LIB) (input : bytes).
Hypothesis F : server_flags args = FParsed o.
Hypothesis D : so_dump o = false.
Hypothesis C : server_config o fs gen = Ok cfg.
Hypothesis N : newServer cfg = Ok s.
Hypothesis I0 : input_of fs (so_infile o) = Some input.
Definition results_of : list bool :=
  line_results (scan_lines input) (outcomes (migpServer s) (kv s) (breach_ops (so_metadata o) (so_num o) (so_username o) (with_colon (scan_lines input)))).
Definition full_log : list message := Text (counts 0 0) :: log_of 0 0 results_of ++ [Text (Byte.x0a :: str "Starting MIGP server")].

Lemma server_at_any_point t r : exec fs [] (server_proc args gen) t r ->
  prints t = [] /\ (exists rest, scan_lines input = taken t ++ rest)
  /\ ((exists later, full_log = messages t ++ later) \/ messages t = full_log ++ [Error []])
  /\ (forall addr ok pre post, t = pre ++ EListen addr ok :: post -> addr = so_listen o /\ taken pre = scan_lines input /\ messages pre = full_log).
Proof.
  intros H. destruct (server_input LIB gen _ _ _ _ _ _ _ _ _ F D C N I0 H) as [[-> ->]|(t1 & -> & H1)].
  - split; [reflexivity|]. split; [exists (scan_lines input); reflexivity|]. split; [left; eexists; reflexivity|]. intros ? ? [|? ?] ? E; discriminate.
  - destruct (sloop_shows LIB o (migpServer s) fs _ _ _ _ _ _ H1) as (P1 & P2 & (later & P3) & P4 & _). split; [exact P1|]. split; [exact P2|].
    cbn [messages flat_map app]. fold (messages t1). split.
    + destruct P3 as [P3|P3]; [left; exists later; unfold full_log; cbn [app]; f_equal; exact P3|right]. rewrite P3. unfold full_log. cbn [app]. f_equal.
      rewrite <- app_assoc. reflexivity.
    + intros addr ok [|x pre] post E; [discriminate|]. cbn [app] in E. apply cons_eq in E as [<- E]. destruct (P4 _ _ _ _ E) as (Q1 & Q2 & Q3).
      split; [exact Q1|]. cbn [messages taken flat_map app]. fold (taken pre) (messages pre). split; [exact Q2|]. rewrite Q3. reflexivity.
Qed.
Lemma server_log t addr srv a b : exec fs [] (server_proc args gen) t (Some (SServing addr srv a b)) ->
  messages t = full_log /\ a = count true results_of /\ b = count false results_of /\ length results_of = length (scan_lines input).
Proof.
  intros H. destruct (server_input LIB gen _ _ _ _ _ _ _ _ _ F D C N I0 H) as [[_ H1]|(t1 & -> & H1)]; [discriminate|].
  destruct (sloop_shows LIB o (migpServer s) fs _ _ _ _ _ _ H1) as (_ & _ & _ & _ & P5). specialize (P5 _ eq_refl).
  destruct (ingest_lines _ _ _ _ _ _) as [i|e|m] eqn:Ei; [|destruct P5; discriminate..].
  destruct P5 as [(Q1 & _ & Q3)|[Q1 _]]; [|discriminate]. injection Q1 as -> -> -> ->.
  apply ingest_counts in Ei. cbv zeta in Ei. rewrite !N.add_0_l in Ei. cbn [messages flat_map app]. fold (messages t1). rewrite Q3.
  split; [reflexivity|]. exact Ei.
Qed.
End ServerLog.

Lemma loop_zero LIB o cfg (blinds : nat -> Blind LIB) fs : forall ls i t, exec fs ls (client_loop o cfg blinds i) t (Some 0%N) -> taken t = ls.
Proof.
  induction ls as [|l ls IH]; intros i t H; apply loop_inv in H.
  - destruct H as [[_ H]|[(_ & -> & _)|(l & ls' & t' & E & _)]]; [discriminate|reflexivity|discriminate].
  - destruct H as [[_ H]|[(E & _)|(l0 & ls0 & t' & E & -> & H)]]; [discriminate|discriminate|]. apply cons_eq in E as [<- <-].
    cbn [taken flat_map app]. fold (taken t'). f_equal.
    destruct (split_colon l) as [[u p]|]; [|eapply IH; eassumption].
    destruct (Query_start cfg u p (blinds i)) as [[d ctx]|e|m].
    + destruct H as [[_ H]|(a & t1 & -> & H)]; [discriminate|]. destruct (Query_finish ctx a) as [ans|e|m].
      * destruct H as [[_ H]|(n & ok & t2 & -> & _ & H)]; [discriminate|]. exact (IH (S i) t2 H).
      * destruct H as [[_ H]|[_ [H|H]]]; discriminate.
      * destruct H as [_ [H|H]]; discriminate.
    + destruct H as [[_ H]|[_ [H|H]]]; discriminate.
    + destruct H as [_ [H|H]]; discriminate.
Qed.
Lemma client_zero LIB o cfg (blinds : nat -> Blind LIB) net fs args input t : client_flags args = FParsed o -> co_dump o = false -> client_config o fs net = Ok cfg ->
  input_of fs (co_infile o) = Some input -> exec fs [] (client_proc args blinds) t (Some 0%N) -> answered_by net t -> taken t = scan_lines input.
Proof.
  intros Fl D C I0 H A. destruct (client_to_loop LIB o cfg blinds net _ _ _ _ _ Fl D C I0 H A) as (w & t' & [(Q & -> & _ & H')|[_ H']]); [|discriminate].
  assert (E3 : taken (w ++ t') = taken t') by (apply quiet_app; [reflexivity|reflexivity|exact Q]). rewrite E3. eapply loop_zero; exact H'.
Qed.

Lemma count_app x a b : count x (a ++ b) = (count x a + count x b)%N.
Proof. unfold count. rewrite filter_app, app_length. lia. Qed.
Lemma progress_behind results c : In c (progress (results ++ [false])) -> (snd c < count false (results ++ [false]))%N.
Proof.
  unfold progress. intros H. apply in_map_iff in H as (i & <- & H). apply filter_In in H as [H1 H2]. cbn [snd].
  assert (Hi : (i < length results)%nat).
  { apply in_seq in H1. rewrite app_length in H1. cbn [length] in H1. destruct (Nat.eq_dec i (length results)) as [->|]; [|lia].
    rewrite app_nth2, Nat.sub_diag in H2; [discriminate|lia]. }
  rewrite firstn_app. replace (i - length results)%nat with 0%nat by lia. cbn [firstn]. rewrite app_nil_r, count_app.
  assert (count false results = count false (firstn i results) + count false (skipn i results))%N by (rewrite <- count_app, firstn_skipn; reflexivity).
  change (count false [false]) with 1%N. lia.
Qed.

(** ** Runs of the server exist *)
Lemma sloop_runs LIB o (s : Server LIB) fs : forall ls store a b, exists t r, exec fs ls (server_loop o s store a b) t (Some r)
  /\ output_works t /\ forall addr, ~ In (EListen addr false) t.
Proof.
  induction ls as [|l ls IH]; intros store a b.
  - exists [EEnd; ELog (Text (Byte.x0a :: str "Starting MIGP server")); EListen (so_listen o) true]. eexists. split; [|split].
    + rewrite (frob_eq (server_loop o s store a b)). cbn [frob server_loop]. apply ex_end. apply ex_log. apply ex_listen.
    + intros ? ? ? [E|[E|[E|[]]]]; discriminate.
    + intros addr [E|[E|[E|[]]]]; discriminate.
  - assert (G : exists t r, exec fs (l :: ls) (server_loop o s store a b) (ELine l :: t) (Some r) /\ output_works t /\ forall addr, ~ In (EListen addr false) t).
    { rewrite (frob_eq (server_loop o s store a b)). cbn [frob server_loop].
      destruct (split_colon l) as [[u p]|] eqn:Sp.
      - destruct (demo_insert s store u p (so_metadata o) (so_num o) (so_username o)) as [store' [x|e|m]] eqn:Ei.
        + destruct (IH store' (a + 1)%N b) as (t & r & H & O & L). eexists (_ :: t), r. split; [apply ex_line; cbv beta iota; rewrite Sp, Ei; apply ex_log; exact H|].
          split; [intros ? ? ? [E|E]; [discriminate|eapply O; exact E]|]. intros addr [E|E]; [discriminate|exact (L addr E)].
        + destruct (IH store' a (b + 1)%N) as (t & r & H & O & L). exists t, r. split; [apply ex_line; cbv beta iota; rewrite Sp, Ei; exact H|]. auto.
        + exists [], (SExit 2 []). split; [apply ex_line; cbv beta iota; rewrite Sp, Ei; apply ex_done|]. split; [intros ? ? ? []|intros ? []].
      - destruct (IH store a (b + 1)%N) as (t & r & H & O & L). exists t, r. split; [apply ex_line; cbv beta iota; rewrite Sp; exact H|]. auto. }
    destruct G as (t & r & H & O & L). exists (ELine l :: t), r. split; [exact H|].
    split; [intros ? ? ? [E|E]; [discriminate|eapply O; exact E]|]. intros addr [E|E]; [discriminate|exact (L addr E)].
Qed.
Lemma server_runs LIB (gen : res (PrivateKey LIB)) fs args : exists t r, exec fs [] (server_proc args gen) t (Some r)
  /\ output_works t /\ forall addr, ~ In (EListen addr false) t.
Proof.
  assert (Q : forall m, output_works [ELog m] /\ forall addr, ~ In (EListen addr false) [ELog m]).
  { intros m. split; [intros ? ? ? [E|[]]; discriminate|intros addr [E|[]]; discriminate]. }
  assert (Q0 : output_works [] /\ forall addr, ~ In (EListen addr false) []). { split; [intros ? ? ? []|intros ? []]. }
  unfold server_proc. destruct (server_flags args) as [o| |].
  2,3: eexists [_]; eexists; split; [apply ex_log; apply ex_done|apply Q].
  assert (G : exists t r, exec fs [] (server_with o (server_config o fs gen)) t (Some r) /\ output_works t /\ forall addr, ~ In (EListen addr false) t).
  { unfold server_with. destruct (server_config o fs gen) as [cfg|e|m].
    - destruct (so_dump o).
      + destruct (ServerConfig_MarshalJSON cfg) as [data|e|m].
        * exists [EPrint data (length data) true]. eexists. split; [apply ex_print; [split; [apply le_n|reflexivity]|apply ex_done]|].
          split; [intros ? ? ? [E|[]]; inversion E; reflexivity|intros addr [E|[]]; discriminate].
        * eexists [_], _. split; [apply ex_log; apply ex_done|apply Q].
        * eexists [], _. split; [apply ex_done|exact Q0].
      + unfold server_serving. destruct (newServer cfg) as [s|e|m].
        * destruct (input_of fs (so_infile o)) as [input|] eqn:I0.
          -- destruct (sloop_runs LIB o (migpServer s) fs (scan_lines input) (kv s) 0 0) as (t & r & H & O & L).
             eexists (_ :: t), r. split; [eapply ex_input; [exact I0|]; apply ex_log; exact H|].
             split; [intros ? ? ? [E|E]; [discriminate|eapply O; exact E]|]. intros addr [E|E]; [discriminate|exact (L addr E)].
          -- eexists [_], _. split; [apply ex_input_failed; [exact I0|]; apply ex_log; apply ex_done|apply Q].
        * eexists [_], _. split; [apply ex_log; apply ex_done|apply Q].
        * eexists [], _. split; [apply ex_done|exact Q0].
    - eexists [_], _. split; [apply ex_log; apply ex_done|apply Q].
    - eexists [], _. split; [apply ex_done|exact Q0]. }
  destruct G as (t & r & H & O). exists t, r. split; [|exact O]. unfold server_proc_body, server_config in *.
  destruct (so_config o) as [|x name]; [exact H|]. apply ex_read. exact H.
Qed.
