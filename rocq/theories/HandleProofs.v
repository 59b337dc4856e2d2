(** * Lemmas for C84. *)
From Coq Require Import Lia.
From Verif Require Import Base BaseProofs Common Oprf Server Client KV Mutator Json ConfigJson Scanner Demo Flags Url Main Handles SpecHandles.

Lemma opened_app a b : opened (a ++ b) = opened a ++ opened b.
Proof. apply flat_map_app. Qed.
Lemma closed_app a b : closed (a ++ b) = closed a ++ closed b.
Proof. apply flat_map_app. Qed.

Lemma still_in t h : In h (still_open t) <-> In h (opened t) /\ ~ In h (closed t).
Proof.
  unfold still_open. rewrite filter_In. split; intros [A B]; (split; [exact A|]).
  - intros C. apply negb_true_iff in B. assert (X : existsb (Nat.eqb h) (closed t) = true); [|congruence].
    apply existsb_exists. exists h. split; [exact C|apply Nat.eqb_refl].
  - apply negb_true_iff. destruct (existsb (Nat.eqb h) (closed t)) eqn:E; [|reflexivity]. exfalso. apply B.
    apply existsb_exists in E as (x & X & Y). apply Nat.eqb_eq in Y. subst x. exact X.
Qed.

(** Events in order after [op] have been opened and [cl] closed. *)
Fixpoint ok_from (op cl : list nat) (t : list hevent) : Prop :=
  match t with
  | [] => True
  | Opened h _ :: r => ~ In h op /\ ok_from (op ++ [h]) cl r
  | ReadFrom h :: r => (In h op /\ ~ In h cl) /\ ok_from op cl r
  | Closed h :: r => (In h op /\ ~ In h cl) /\ ok_from op (cl ++ [h]) r
  end.

Lemma ok_app t t' : forall op cl, ok_from op cl t -> ok_from (op ++ opened t) (cl ++ closed t) t' -> ok_from op cl (t ++ t').
Proof.
  induction t as [|e t IH]; intros op cl A B.
  - cbn [app opened closed flat_map] in *. rewrite !app_nil_r in B. exact B.
  - destruct e as [h w|h|h]; cbn [ok_from app] in *; destruct A as [A A']; (split; [exact A|]); apply IH; auto;
      unfold opened, closed in *; cbn [flat_map app] in B; rewrite <- ?app_assoc; exact B.
Qed.

Lemma ok_in_order t : ok_from [] [] t -> in_order t.
Proof.
  intros H before e after ->.
  assert (G : forall b op cl, ok_from op cl (b ++ e :: after) -> ok_from (op ++ opened b) (cl ++ closed b) (e :: after)).
  { clear. induction b as [|x b IH]; intros op cl H.
    - cbn [opened closed flat_map]. rewrite !app_nil_r. exact H.
    - destruct x as [h w|h|h]; cbn [app] in H; destruct H as [_ H]; apply IH in H;
        unfold opened, closed in *; cbn [flat_map app]; rewrite <- ?app_assoc in H; exact H. }
  apply G in H. cbn [app] in H. destruct e as [h w|h|h]; destruct H as [H _]; [exact H|apply still_in; exact H..].
Qed.

Lemma in_order_prefix a b : in_order (a ++ b) -> in_order a.
Proof. intros H before e after ->. apply (H before e (after ++ b)). rewrite <- app_assoc. reflexivity. Qed.

Lemma in_order_nodup t : in_order t -> NoDup (opened t) /\ NoDup (closed t) /\ incl (closed t) (opened t).
Proof.
  induction t as [|e t IH] using rev_ind; intros H.
  - repeat split; [constructor..|intros x []].
  - destruct (IH (in_order_prefix _ _ H)) as (A & B & C). specialize (H t e [] eq_refl).
    rewrite opened_app, closed_app. destruct e as [h w|h|h]; cbn [opened closed flat_map app]; rewrite ?app_nil_r.
    + repeat split; auto; [|apply incl_appl; exact C]. apply NoDup_rev in A. rewrite <- (rev_involutive (opened t ++ [h])).
      apply NoDup_rev. rewrite rev_app_distr. cbn [rev app]. constructor; [rewrite <- in_rev; exact H|exact A].
    + auto.
    + apply still_in in H as [H1 H2]. repeat split; auto.
      * apply NoDup_rev in B. rewrite <- (rev_involutive (closed t ++ [h])). apply NoDup_rev. rewrite rev_app_distr. cbn [rev app].
        constructor; [rewrite <- in_rev; exact H2|exact B].
      * intros x X. apply in_app_or in X as [X|[<-|[]]]; [exact (C x X)|exact H1].
Qed.

Lemma filter_split {A} (f : A -> bool) l : (length (filter f l) + length (filter (fun x => negb (f x)) l) = length l)%nat.
Proof. induction l as [|x l IH]; [reflexivity|]. cbn [filter]. destruct (f x); cbn [negb length]; lia. Qed.

Lemma open_count t : in_order t -> (length (still_open t) + length (closed t) = length (opened t))%nat.
Proof.
  intros H. destruct (in_order_nodup t H) as (A & B & C).
  pose proof (filter_split (fun h => existsb (Nat.eqb h) (closed t)) (opened t)) as F.
  assert (E : length (filter (fun h => existsb (Nat.eqb h) (closed t)) (opened t)) = length (closed t)).
  { assert (M : forall x, existsb (Nat.eqb x) (closed t) = true <-> In x (closed t)).
    { intros x. rewrite existsb_exists. split; [intros (y & Y & Q); apply Nat.eqb_eq in Q; subst; exact Y|].
      intros X. exists x. split; [exact X|apply Nat.eqb_refl]. }
    apply Nat.le_antisymm; apply NoDup_incl_length.
    - apply NoDup_filter. exact A.
    - intros x X. apply filter_In in X as [_ X]. apply M. exact X.
    - exact B.
    - intros x X. apply filter_In. split; [apply C; exact X|apply M; exact X]. }
  unfold still_open. lia.
Qed.

(** ** One call *)
Section Calls.
Variable LIB : OPRF.

Definition reply_events (n : nat) (status : option N) : list hevent :=
  match status with
  | None => []
  | Some s => if (s =? 200)%N then [Opened n Response; ReadFrom n; Closed n] else [Opened n Response]
  end.
Definition reply_next (n : nat) (status : option N) : nat := match status with None => n | Some _ => S n end.

Lemma call_events (c : call LIB) n :
  call_h c n = (reply_next n (replied c), reply_events n (replied c),
                Query (q_cfg c) (q_post c) (q_url c) (q_user c) (q_pass c) (q_blind c)).
Proof.
  unfold call_h, Query_h, replied, Query, Query_posts. destruct c as [cfg post url u p r]. cbn [q_cfg q_post q_url q_user q_pass q_blind].
  unfold hbind at 1, hret at 1. destruct (NewClient LIB cfg) as [cl|e|e]; [|reflexivity..]. cbn [bind].
  unfold hbind at 1, hret at 1. destruct (Request cl u p r) as [[rq ctx]|e|e]; [|reflexivity..]. cbn [bind].
  unfold hbind at 1, do_post. unfold hbind at 1, hret at 1. destruct (post url (ClientRequest_marshal rq)) as [[code rbody]|e|e]; [|reflexivity..].
  unfold hbind at 1, hopen, hret. cbn [app bind]. destruct (code =? 200)%N eqn:E; cbn [negb reply_next reply_events]; rewrite E.
  - unfold hdefer, hbind, hread. destruct rbody as [d|e|e]; [|reflexivity..]. cbn [app bind].
    destruct (UnmarshalBinary LIB d) as [x|e|e]; [|reflexivity..]. cbn [app bind]. reflexivity.
  - reflexivity.
Qed.

Lemma reply_ok n st op cl : (forall h, In h op -> (h < n)%nat) -> (forall h, In h cl -> (h < n)%nat) -> ok_from op cl (reply_events n st).
Proof.
  intros A B. destruct st as [s|]; [|exact I]. unfold reply_events.
  assert (N1 : ~ In n op) by (intros X; apply A in X; lia). assert (N2 : ~ In n cl) by (intros X; apply B in X; lia).
  destruct (s =? 200)%N; cbn [ok_from]; repeat split; auto; apply in_or_app; right; left; reflexivity.
Qed.
Lemma reply_handles n st h : In h (opened (reply_events n st)) \/ In h (closed (reply_events n st)) -> h = n /\ reply_next n st = S n.
Proof. destruct st as [s|]; [|intros [[]|[]]]. unfold reply_events. destruct (s =? 200)%N; cbn; intuition. Qed.
Lemma reply_mono n st : (n <= reply_next n st)%nat.
Proof. destruct st; cbn; lia. Qed.
Lemma reply_below n st op : (forall h, In h op -> (h < n)%nat) ->
  (forall h, In h (op ++ opened (reply_events n st)) -> (h < reply_next n st)%nat)
  /\ (forall h, In h (op ++ closed (reply_events n st)) -> (h < reply_next n st)%nat).
Proof.
  intros A. pose proof (reply_mono n st) as M.
  split; intros h H; apply in_app_or in H as [H|H]; try (apply A in H; lia);
    destruct (reply_handles n st h) as [-> ->]; auto.
Qed.

Lemma calls_ok (cs : list (call LIB)) : forall n op cl,
  (forall h, In h op -> (h < n)%nat) -> (forall h, In h cl -> (h < n)%nat) -> ok_from op cl (calls_h n cs).
Proof.
  induction cs as [|c cs IH]; intros n op cl A B; [exact I|]. cbn [calls_h]. rewrite call_events.
  apply ok_app; [apply reply_ok; assumption|]. apply IH; [apply reply_below; exact A|apply reply_below; exact B].
Qed.

Lemma calls_in_order (cs : list (call LIB)) : in_order (calls_h 0 cs).
Proof. apply ok_in_order, calls_ok; intros h []. Qed.

Lemma calls_count (cs : list (call LIB)) : forall n, 
  (length (opened (calls_h n cs)) = length (closed (calls_h n cs)) + length (filter refused cs))%nat.
Proof.
  induction cs as [|c cs IH]; intros n; [reflexivity|]. cbn [calls_h]. rewrite call_events, opened_app, closed_app, !app_length, IH.
  cbn [filter]. unfold refused at 2. destruct (replied c) as [s|]; [|cbn; lia]. unfold reply_events.
  destruct (s =? 200)%N; cbn [opened closed flat_map app length negb]; lia.
Qed.

Lemma app_split {A} (a b c d : list A) : a ++ b = c ++ d ->
  (exists x, a = c ++ x) \/ exists x, c = a ++ x /\ b = x ++ d.
Proof.
  revert c; induction a as [|y a IH]; intros c H.
  - right. exists c. auto.
  - destruct c as [|z c]; [left; exists (y :: a); reflexivity|]. cbn [app] in H. injection H as -> H.
    destruct (IH c H) as [(x & ->)|(x & -> & ->)]; [left; exists x; reflexivity|right; exists x; auto].
Qed.

Lemma reply_prefix n st a b : reply_events n st = a ++ b ->
  (length (opened a) <= length (closed a) + 1)%nat.
Proof.
  destruct st as [s|]; unfold reply_events; [destruct (s =? 200)%N|]; intros E;
    repeat (destruct a as [|? a]; [cbn; lia|cbn [app] in E; try discriminate; injection E as <- E]);
    try (destruct a; [cbn; lia|discriminate]).
Qed.

Lemma calls_prefix (cs : list (call LIB)) : forall n a b, calls_h n cs = a ++ b ->
  (length (opened a) <= length (closed a) + length (filter refused cs) + 1)%nat.
Proof.
  induction cs as [|c cs IH]; intros n a b E; cbn [calls_h] in E.
  - destruct a; [cbn; lia|discriminate].
  - rewrite call_events in E. apply app_split in E as [(x & E)|(x & -> & E)].
    + apply reply_prefix in E. cbn [filter]. destruct (refused c); cbn [length]; lia.
    + apply IH in E. rewrite opened_app, closed_app, !app_length. cbn [filter]. unfold refused at 1.
      destruct (replied c) as [s|]; [|cbn; lia]. unfold reply_events.
      destruct (s =? 200)%N; cbn [opened closed flat_map app length negb]; lia.
Qed.
End Calls.

(** ** The client program *)
Section Program.
Variable LIB : OPRF.

Lemma good_prefix (good last : list (call LIB)) : forall n a b,
  Forall (fun c => refused c = false) good -> (length last <= 1)%nat -> calls_h n (good ++ last) = a ++ b ->
  (length (opened a) <= length (closed a) + 1)%nat.
Proof.
  induction good as [|c good IH]; intros n a b G L E.
  - destruct last as [|c [|? ?]]; [destruct a; [cbn; lia|discriminate]| |cbn in L; lia].
    cbn [app calls_h] in E. rewrite call_events in E. cbn [calls_h] in E. rewrite app_nil_r in E. eapply reply_prefix. exact E.
  - inversion G as [|? ? Gc G']; subst. cbn [app calls_h] in E. rewrite call_events in E. apply app_split in E as [(x & E)|(x & -> & E)].
    + eapply reply_prefix. exact E.
    + apply IH in E; [|assumption..]. rewrite opened_app, closed_app, !app_length. unfold refused in Gc.
      destruct (replied c) as [s|]; [|cbn; lia]. unfold reply_events. apply negb_false_iff in Gc. rewrite Gc. cbn [opened closed flat_map app length]. lia.
Qed.

Lemma refused_error (c : call LIB) : refused c = true ->
  exists e, Query (q_cfg c) (q_post c) (q_url c) (q_user c) (q_pass c) (q_blind c) = Err e.
Proof.
  unfold refused, replied, Query_posts, Query. destruct c as [cfg post url u p r]. cbn [q_cfg q_post q_url q_user q_pass q_blind].
  destruct (NewClient LIB cfg) as [cl|e|e]; [|discriminate..]. cbn [bind].
  destruct (Request cl u p r) as [[rq ctx]|e|e]; [|discriminate..]. cbn [bind].
  destruct (post url (ClientRequest_marshal rq)) as [[code rbody]|e|e]; [|discriminate..]. cbn [bind]. intros ->. eauto.
Qed.

Lemma lines_calls cfg post url (blinds : nat -> Blind LIB) show lines : forall i n,
  exists good last,
    client_lines_h (fun i u p => Query_h cfg post url u p (blinds i)) show i n lines
    = (calls_h n (good ++ last), client_lines (fun i u p => Query cfg post url u p (blinds i)) show i lines)
    /\ Forall (fun c : call LIB => refused c = false) good /\ (length last <= 1)%nat
    /\ (cr_error (client_lines (fun i u p => Query cfg post url u p (blinds i)) show i lines) = None -> Forall (fun c => refused c = false) last).
Proof.
  induction lines as [|l r IH]; intros i n; cbn [client_lines_h client_lines].
  - exists [], []. repeat split; auto.
  - destruct (split_colon l) as [[u p]|]; [|apply IH].
    pose proof (call_events LIB (mkCall cfg post url u p (blinds i)) n) as E. set (c := mkCall cfg post url u p (blinds i)) in *.
    unfold call_h in E. cbn [q_cfg q_post q_url q_user q_pass q_blind c] in E. rewrite E.
    assert (R : refused c = true -> exists e, Query cfg post url u p (blinds i) = Err e) by exact (refused_error c).
    destruct (Query cfg post url u p (blinds i)) as [[st md]|e|e] eqn:Q.
    + destruct (IH (S i) (reply_next n (replied c))) as (good & last & T & G & L & N). rewrite T.
      exists (c :: good), last. cbn [app calls_h]. rewrite call_events. split; [reflexivity|]. repeat split; auto.
      constructor; [|exact G]. destruct (refused c); [|reflexivity]. destruct (R eq_refl). discriminate.
    + exists [], [c]. cbn [app calls_h]. rewrite call_events. rewrite app_nil_r. repeat split; auto. cbn. discriminate.
    + exists [], [c]. cbn [app calls_h]. rewrite call_events. rewrite app_nil_r. repeat split; auto.
      intros _. constructor; [|constructor]. destruct (refused c); [|reflexivity]. destruct (R eq_refl). discriminate.
Qed.

Lemma calls_above (cs : list (call LIB)) : forall n h, In h (opened (calls_h n cs)) \/ In h (closed (calls_h n cs)) -> (n <= h)%nat.
Proof.
  induction cs as [|c cs IH]; intros n h; cbn [calls_h]; [intros [[]|[]]|]. rewrite call_events, opened_app, closed_app, !in_app_iff.
  intros H. assert (C : (In h (opened (reply_events n (replied c))) \/ In h (closed (reply_events n (replied c))))
    \/ (In h (opened (calls_h (reply_next n (replied c)) cs)) \/ In h (closed (calls_h (reply_next n (replied c)) cs)))) by tauto.
  destruct C as [C|C]; [apply reply_handles in C as [-> _]; lia|]. apply IH in C. pose proof (reply_mono n (replied c)). lia.
Qed.

(** The configuration. *)
Lemma config_events o fs net : exists n t, client_config_h o fs net 0 = (n, t, client_config o fs net)
  /\ ok_from [] [] t /\ (forall h, In h (opened t) -> (h < n)%nat) /\ (forall h, In h (closed t) -> (h < n)%nat)
  /\ (length (opened t) <= 1)%nat
  /\ (co_config o = [] -> closed t = [] /\ (forall a, n_get net (co_target o ++ str "/config") = Ok a -> opened t = [0%nat]))
  /\ (co_config o <> [] -> opened t = closed t).
Proof.
  unfold client_config_h, client_config. destruct (co_config o) as [|x name] eqn:C.
  - unfold hbind at 1, hret at 1. destruct (n_get net _) as [[code body]|e|e]; cbn [bind].
    + unfold hbind, hopen. destruct (negb (code =? 200)%N); unfold hret, hread; cbn [app].
      * exists 1%nat, [Opened 0 Response]. split; [reflexivity|]. cbn. repeat split; auto; try lia; try tauto; try (intros; intuition lia); congruence.
      * exists 1%nat, [Opened 0 Response; ReadFrom 0]. split; [destruct (Config_decode 64 body); reflexivity|].
        cbn. repeat split; auto; try lia; try tauto; try (intros; intuition lia); congruence.
    + exists 0%nat, []. split; [reflexivity|]. cbn. repeat split; auto; try lia; try tauto; try congruence.
    + exists 0%nat, []. split; [reflexivity|]. cbn. repeat split; auto; try lia; try tauto; try congruence.
  - destruct (f_open fs (x :: name)) as [data|].
    + exists 1%nat, [Opened 0 File; ReadFrom 0; Closed 0].
      split; [unfold hbind, hopen, hdefer, hread, hret; cbn [app]; destruct (Config_unmarshal 64 data); reflexivity|].
      cbn. repeat split; auto; try lia; try tauto; try (intros; intuition lia); congruence.
    + exists 0%nat, []. split; [reflexivity|]. cbn. repeat split; auto; try lia; try tauto; congruence.
Qed.

Lemma query_events o fs net cfg (blinds : nat -> Blind LIB) n op cl :
  (forall h, In h op -> (h < n)%nat) -> (forall h, In h cl -> (h < n)%nat) ->
  let (t, r) := client_query_h o fs net cfg blinds n in
  r = client_query o fs net cfg blinds /\ ok_from op cl t
  /\ (forall a b, t = a ++ b -> (length (opened a) <= length (closed a) + 2)%nat)
  /\ (x_status r = 0%N -> length (opened t) = length (closed t))
  /\ (forall h, In h (closed t) -> (n <= h)%nat).
Proof.
  intros A B. unfold client_query_h, client_query, input_of, client_main.
  destruct (bytes_eqb (co_infile o) (str "-")) eqn:Std.
  - destruct (lines_calls cfg (n_post net) (co_target o ++ str "/evaluate") blinds (co_show o) (scan_lines (f_stdin fs)) 0 n)
      as (good & last & T & G & L & N). rewrite T.
    set (run := client_lines _ _ _ _) in *. split; [reflexivity|]. split; [apply calls_ok; assumption|]. split; [|split].
    + intros a b E. apply good_prefix in E; [lia|assumption..].
    + cbn [x_status]. destruct (cr_panic run); [discriminate|]. destruct (cr_error run) eqn:Er; [discriminate|]. intros _.
      rewrite calls_count. replace (filter refused (good ++ last)) with (@nil (call LIB)); [cbn; lia|].
      symmetry. assert (F : Forall (fun c => refused c = false) (good ++ last)) by (apply Forall_app; auto).
      clear - F. induction F as [|c l H F IH]; [reflexivity|]. cbn [filter]. rewrite H. exact IH.
    + intros h H. apply (calls_above (good ++ last)). auto.
  - destruct (f_open fs (co_infile o)) as [input|].
    2:{ split; [reflexivity|]. split; [exact I|]. split; [intros a b E; destruct a; [cbn; lia|discriminate]|]. split; [discriminate|intros h []]. }
    destruct (lines_calls cfg (n_post net) (co_target o ++ str "/evaluate") blinds (co_show o) (scan_lines input) 0 (S n))
      as (good & last & T & G & L & N). rewrite T.
    set (run := client_lines _ _ _ _) in *. split; [reflexivity|].
    assert (A' : forall h, In h (op ++ [n]) -> (h < S n)%nat) by (intros h H; apply in_app_or in H as [H|[<-|[]]]; [apply A in H|]; lia).
    assert (B' : forall h, In h cl -> (h < S n)%nat) by (intros h H; apply B in H; lia).
    split; [|split; [|split]].
    + cbn [ok_from]. split; [intros H; apply A in H; lia|]. apply ok_app; [apply calls_ok; assumption|].
      destruct (cr_error run); [exact I|]. cbn [ok_from]. split; [|exact I]. split.
      * apply in_or_app. left. apply in_or_app. right. left. reflexivity.
      * intros H. apply in_app_or in H as [H|H]; [apply B in H; lia|].
        assert (X : (S n <= n)%nat) by (apply (calls_above (good ++ last)); auto). lia.
    + intros a b E. destruct a as [|x a]; [cbn; lia|]. cbn [app] in E. injection E as <- E.
      apply app_split in E as [(x & E)|(x & -> & E)].
      * apply good_prefix in E; [|assumption..]. cbn [opened closed flat_map app length] in *. fold (opened a) (closed a). lia.
      * assert (P := good_prefix good last (S n) (calls_h (S n) (good ++ last)) [] G L ltac:(rewrite app_nil_r; reflexivity)).
        change (opened (Opened n File :: ?z)) with (n :: opened z). 
        unfold opened, closed in *. cbn [flat_map app length]. rewrite !flat_map_app, !app_length.
        assert (Q : length (flat_map (fun e => match e with Opened h _ => [h] | _ => [] end) x) = 0%nat).
        { destruct (cr_error run); [destruct x; [reflexivity|discriminate]|].
          destruct x as [|y x]; [reflexivity|]. cbn [app] in E. injection E as <- E. destruct x; [reflexivity|discriminate]. }
        lia.
    + cbn [x_status]. destruct (cr_panic run); [discriminate|]. destruct (cr_error run) eqn:Er; [discriminate|]. intros _.
      unfold opened, closed. cbn [flat_map app length]. rewrite !flat_map_app, !app_length. cbn [flat_map app length].
      pose proof (calls_count LIB (good ++ last) (S n)) as CC. replace (filter refused (good ++ last)) with (@nil (call LIB)) in CC.
      * unfold opened, closed in CC. cbn [length] in CC. lia.
      * symmetry. assert (F : Forall (fun c => refused c = false) (good ++ last)) by (apply Forall_app; auto).
        clear - F. induction F as [|c l H F IH]; [reflexivity|]. cbn [filter]. rewrite H. exact IH.
    + intros h H. unfold closed in H. cbn [flat_map app] in H. rewrite flat_map_app in H. apply in_app_or in H as [H|H].
      * assert (X : (S n <= h)%nat) by (apply (calls_above (good ++ last)); auto). lia.
      * destruct (cr_error run); [destruct H|]. destruct H as [<-|[]]. lia.
Qed.
End Program.
