From Coq Require Import Lia.
From Verif Require Import Base BaseProofs Common Oprf Client KV Json ConfigJson Scanner Demo Flags Main ReadBody ReadConfig ClientRead
  SpecJson SpecRead SpecFetch SpecClientRead ReadProofs FetchProofs.

(** ** Decode gives what the page decodes to. *)
Lemma first_pieces_le s d : forall i, exists t, first_pieces s (i + d) = first_pieces s i ++ t.
Proof.
  induction d as [|d IH]; intros i; [exists []; rewrite Nat.add_0_r, app_nil_r; reflexivity|].
  destruct (IH i) as (t & T). exists (t ++ a_data (s (i + d)%nat)). rewrite Nat.add_succ_r, first_pieces_S, T, <- app_assoc. reflexivity.
Qed.
Lemma decode_page s b : page s b -> exists n, forall k, (n <= k)%nat -> exists r, Decode k s = Some r /\ same_outcome r (Config_decode 64 b).
Proof.
  intros (m & A & -> & E). exists (S m). intros k L. destruct (Decode (S m) s) as [r|] eqn:Q.
  2:{ exfalso. apply decode_none in Q as [Q U]. destruct E as [E|E]; [rewrite Q in E by lia; discriminate|contradiction]. }
  exists r. split; [eapply decode_more; [exact Q|lia]|]. destruct (loop_some (S m) 0 s top r eq_refl Q) as (i & sc & Li & Ai & Si & O).
  destruct (first_pieces_le s (m - i) (S i)) as (t & T). replace (S i + (m - i))%nat with (S m) in T by lia.
  destruct (outcome_cases s i sc r Si O) as [(e & F & _ & U)|[(F & U & X)|(_ & X)]].
  - assert (i = m) as -> by (destruct (Nat.eq_dec i m); [assumption|]; rewrite A in F by lia; discriminate).
    destruct E as [E|E]; [congruence|contradiction].
  - assert (i = m) as -> by (destruct (Nat.eq_dec i m); [assumption|]; rewrite A in F by lia; discriminate). exact X.
  - rewrite T. apply X.
Qed.
Lemma decode_broken s : broken_page s -> exists n e, forall k, (n <= k)%nat -> Decode k s = Some (Err e).
Proof.
  intros (m & e & [F A] & U). exists (S m). destruct (Decode (S m) s) as [r|] eqn:Q.
  2:{ exfalso. apply decode_none in Q as [Q _]. rewrite Q in F by lia. discriminate. }
  destruct (loop_some (S m) 0 s top r eq_refl Q) as (i & sc & Li & Ai & Si & O).
  assert (r = Err e) as ->.
  { destruct (outcome_cases s i sc r Si O) as [(e' & F' & -> & _)|[(F' & _ & X)|(NU & X)]].
    - assert (i = m) as -> by (destruct (Nat.eq_dec i m); [assumption|]; rewrite A in F' by lia; discriminate). congruence.
    - assert (i = m) as -> by (destruct (Nat.eq_dec i m); [assumption|]; rewrite A in F' by lia; discriminate). congruence.
    - exfalso. apply NU. destruct (first_pieces_le s (m - i) (S i)) as (t & T). replace (S i + (m - i))%nat with (S m) in T by lia.
      rewrite T in U. eapply unfinished_prefix. exact U. }
  exists e. intros k L. eapply decode_more; [exact Q|lia].
Qed.
(** And when it has returned, the page has arrived or the line is broken. *)
Lemma decode_arrived k s r : Decode k s = Some r ->
  (exists b, page s b /\ same_outcome r (Config_decode 64 b)) \/ (broken_page s /\ exists e, r = Err e).
Proof.
  intros Q. destruct (loop_some k 0 s top r eq_refl Q) as (i & sc & Li & Ai & Si & O).
  destruct (outcome_cases s i sc r Si O) as [(e & F & -> & U)|[(F & U & X)|(NU & X)]].
  - right. split; [|eauto]. exists i, e. split; [|exact U]. split; [exact F|intros j L; apply Ai; lia].
  - left. eexists. split; [|exact X]. exists i. split; [intros j L; apply Ai; lia|]. auto.
  - left. eexists. split; [|specialize (X []); rewrite app_nil_r in X; exact X]. exists i. split; [intros j L; apply Ai; lia|]. auto.
Qed.

Section Grow.
Variable grow : nat -> nat.
Hypothesis G : grows grow.
Context {LIB : OPRF}.

Lemma readall_more k k' s x : ReadAll grow k s = Some x -> (k <= k')%nat -> ReadAll grow k' s = Some x.
Proof.
  intros H L. unfold ReadAll, read_after in *. replace k' with (k + (k' - k))%nat by lia. rewrite rounds_add.
  destruct (read_rounds grow k s _); [discriminate|]. rewrite rounds_done. exact H.
Qed.
Lemma query_more k k' cfg post url u p (r : Blind LIB) x :
  Query_read grow k cfg post url u p r = Some x -> (k <= k')%nat -> Query_read grow k' cfg post url u p r = Some x.
Proof.
  intros H L. unfold Query_read in *. destruct (NewClient LIB cfg) as [c|e|m]; [|exact H..]. destruct (Request c u p r) as [[rq ctx]|e|m]; [|exact H..].
  destruct (post url (ClientRequest_marshal rq)) as [[code s]|e|m]; [|exact H..]. destruct (negb (code =? 200)%N); [exact H|].
  destruct (ReadAll grow k s) as [y|] eqn:R; [|discriminate]. rewrite (readall_more k k' s y R L). exact H.
Qed.

(** One query on whole bodies. *)
Lemma query_whole cfg post post' url u p (r : Blind LIB) :
  (forall payload, In payload (Query_posts cfg u p r) -> whole_post (post url payload) (post' url payload)) ->
  exists k0, forall k, (k0 <= k)%nat -> Query_read grow k cfg post url u p r = Some (Query cfg post' url u p r).
Proof.
  intros H. unfold Query_read, Query, Query_posts in *. destruct (NewClient LIB cfg) as [c|e|m]; cbn [bind]; [|exists 0%nat; reflexivity..].
  destruct (Request c u p r) as [[rq ctx]|e|m]; cbn [bind]; [|exists 0%nat; reflexivity..]. specialize (H _ (or_introl eq_refl)).
  destruct (post url (ClientRequest_marshal rq)) as [[code s]|e|m]; destruct (post' url (ClientRequest_marshal rq)) as [[code' b]|e'|m']; cbn in H; try contradiction.
  2,3: subst; exists 0%nat; reflexivity.
  destruct H as [<- H]. cbn [bind]. destruct (N.eqb_spec code 200) as [->|NE]; cbn [negb]; [|exists 0%nat; reflexivity].
  destruct (H eq_refl) as (n & e & En & ->). destruct (reads_whole grow G s n e En) as (k0 & K). exists k0. intros k L. rewrite (K k L). destruct e; reflexivity.
Qed.
(** What the post of a finished query came to. *)
Definition came_to (k : nat) (post : transport_s) : transport := fun url payload =>
  match post url payload with
  | Err e => Err e | Panic m => Panic m
  | Ok (code, s) => Ok (code, match ReadAll grow k s with Some (b, None) => Ok b | Some (_, Some e) => Err e | None => Err "" end)
  end.
Lemma query_came k cfg post url u p (r : Blind LIB) x : Query_read grow k cfg post url u p r = Some x ->
  Query cfg (came_to k post) url u p r = x
  /\ forall payload, In payload (Query_posts cfg u p r) -> whole_post (post url payload) (came_to k post url payload).
Proof.
  unfold Query_read, Query, Query_posts, came_to. intros H. destruct (NewClient LIB cfg) as [c|e|m]; cbn [bind]; [|injection H as <-; split; [reflexivity|intros ? []]..].
  destruct (Request c u p r) as [[rq ctx]|e|m]; cbn [bind]; [|injection H as <-; split; [reflexivity|intros ? []]..].
  destruct (post url (ClientRequest_marshal rq)) as [[code s]|e|m] eqn:P; cbn [bind].
  2,3: injection H as <-; split; [reflexivity|]; intros ? [<-|[]]; rewrite P; reflexivity.
  destruct (N.eqb_spec code 200) as [->|NE]; cbn [negb] in *.
  - destruct (ReadAll grow k s) as [[b err]|] eqn:R; [|discriminate]. destruct (returns_ended grow G s k b err R) as (n & e & En & Eb & Ee).
    split.
    + destruct e; cbn in Ee; subst err; injection H as <-; reflexivity.
    + intros ? [<-|[]]. rewrite P, R. split; [reflexivity|]. intros _. exists n, e. split; [exact En|]. destruct e; cbn in Ee; subst err; [rewrite Eb|]; reflexivity.
  - injection H as <-. split; [reflexivity|]. intros ? [<-|[]]. rewrite P. split; [reflexivity|]. intros X. contradiction.
Qed.
End Grow.

(** ** The lines. *)
Section Lines.
Let query := nat -> bytes -> bytes -> res (BreachStatus * gslice).
Let query' := nat -> bytes -> bytes -> option (res (BreachStatus * gslice)).
Lemma lines_exist (q : query) (q' : nat -> query') (posts : nat -> bytes -> bytes -> list bytes) (P : bytes -> Prop) show ls :
  (forall i u p, (forall x, In x (posts i u p) -> P x) -> exists k0, forall k, (k0 <= k)%nat -> q' k i u p = Some (q i u p)) ->
  forall i, (forall x, In x (posts_of posts q i ls) -> P x) ->
  exists k0, forall k, (k0 <= k)%nat -> client_lines_read (q' k) show i ls
    = (cr_stdout (client_lines q show i ls), Some (cr_error (client_lines q show i ls), cr_panic (client_lines q show i ls))).
Proof.
  intros H. induction ls as [|l r IH]; intros i A; cbn [client_lines_read client_lines posts_of] in *; [exists 0%nat; reflexivity|].
  destruct (split_colon l) as [[u p]|]; [|apply IH; exact A].
  destruct (H i u p) as (k0 & K); [intros x I; apply A; apply in_or_app; left; exact I|].
  destruct (q i u p) as [[st m]|e|m] eqn:Q.
  2,3: exists k0; intros k L; rewrite (K k L); reflexivity.
  destruct (IH (S i)) as (k1 & K1); [intros x I; apply A; apply in_or_app; right; exact I|].
  exists (Nat.max k0 k1). intros k L. rewrite (K k) by lia. rewrite (K1 k) by lia. reflexivity.
Qed.
Lemma lines_came (q : query) (q' : query') (posts : nat -> bytes -> bytes -> list bytes) (P : bytes -> Prop) show ls :
  (forall i u p x, q' i u p = Some x -> q i u p = x /\ forall y, In y (posts i u p) -> P y) ->
  forall i out e pn, client_lines_read q' show i ls = (out, Some (e, pn)) ->
  client_lines q show i ls = mkClientRun out e pn /\ forall x, In x (posts_of posts q i ls) -> P x.
Proof.
  intros H. induction ls as [|l r IH]; intros i out e pn E; cbn [client_lines_read client_lines posts_of] in *.
  { injection E as <- <- <-. split; [reflexivity|intros x []]. }
  destruct (split_colon l) as [[u p]|]; [|apply IH; exact E].
  destruct (q' i u p) as [x|] eqn:Q; [|discriminate]. destruct (H i u p x Q) as [-> Hp]. destruct x as [[st m]|e'|m].
  - destruct (client_lines_read q' show (S i) r) as [out' last] eqn:R. injection E as <- ->. destruct (IH (S i) out' e pn R) as [-> Hr].
    split; [reflexivity|]. intros x I. apply in_app_or in I as [I|I]; [apply Hp|apply Hr]; exact I.
  - injection E as <- <- <-. split; [reflexivity|]. intros x I. rewrite app_nil_r in I. apply Hp. exact I.
  - injection E as <- <- <-. split; [reflexivity|]. intros x I. rewrite app_nil_r in I. apply Hp. exact I.
Qed.
Lemma lines_grow (q q' : query') show ls : (forall i u p x, q i u p = Some x -> q' i u p = Some x) ->
  forall i, exists more, fst (client_lines_read q' show i ls) = fst (client_lines_read q show i ls) ++ more
    /\ forall x, snd (client_lines_read q show i ls) = Some x -> snd (client_lines_read q' show i ls) = Some x /\ more = [].
Proof.
  intros H. induction ls as [|l r IH]; intros i; cbn [client_lines_read].
  { exists []. split; [reflexivity|]. intros x E. auto. }
  destruct (split_colon l) as [[u p]|]; [|apply IH]. destruct (q i u p) as [x|] eqn:Q.
  2:{ eexists. cbn [fst snd]. split; [reflexivity|discriminate]. }
  rewrite (H i u p x Q). destruct x as [[st m]|e|m].
  2,3: exists []; split; [reflexivity|intros x E; auto].
  destruct (IH (S i)) as (more & M & L). destruct (client_lines_read q show (S i) r) as [o1 l1]. destruct (client_lines_read q' show (S i) r) as [o2 l2].
  cbn [fst snd] in *. exists more. split; [rewrite M; reflexivity|exact L].
Qed.
(** It is still asking: all lines that came before are answered. *)
Lemma lines_stuck (q' : query') show l u p after : split_colon l = Some (u, p) -> forall before i out,
  client_lines_read q' show i before = (out, Some (None, false)) ->
  q' (i + length (filter (fun x => match split_colon x with Some _ => true | None => false end) before))%nat u p = None ->
  client_lines_read q' show i (before ++ l :: after) = (out, None).
Proof.
  intros Sl. induction before as [|x before IH]; intros i out E Q; cbn [app client_lines_read filter length] in *.
  - injection E as <-. rewrite Sl. rewrite Nat.add_0_r in Q. rewrite Q. reflexivity.
  - destruct (split_colon x) as [[u' p']|]; [|apply IH; assumption]. destruct (q' i u' p') as [[[st m]|e|m]|]; [|discriminate..].
    destruct (client_lines_read q' show (S i) before) as [o last] eqn:R. injection E as <- ->. rewrite (IH (S i) o R); [reflexivity|].
    cbn [length] in Q. rewrite Nat.add_succ_r in Q. exact Q.
Qed.
End Lines.
