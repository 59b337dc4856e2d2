(** * C80: what the client says on standard error.

    [exec] and the events are those of C65-C67. *)
From Coq Require Import Lia.
From Verif Require Import Base BaseProofs Common Oprf OprfGroup Server Client KV Json ConfigJson Scanner Demo Flags Main
  SpecEntry SpecProtocol SpecDemo SpecHttp SpecMain FlagsProofs SpecDecode SentProofs MainProofs Effects SpecEffects SpecStderr EffectProofs PropFinalize PropProtocol PropMain.

Lemma failure_nil : says_only_failure [] None.
Proof. left. split; [reflexivity|discriminate]. Qed.
Lemma failure_ends r : r = Some 0%N \/ r = Some 2%N \/ r = None -> says_only_failure [] r.
Proof. intros [->|[->| ->]]; left; (split; [reflexivity|discriminate]). Qed.
Lemma failure_fatal r : r = Some 1%N \/ r = None -> says_only_failure [ELog (Error [])] r.
Proof. intros H. right. exists []. auto. Qed.
Lemma failure_cons e t r : messages [e] = [] -> says_only_failure t r -> says_only_failure (e :: t) r.
Proof.
  intros E H.
  assert (M : forall x, messages (e :: x) = messages x).
  { intros x. unfold messages in *. cbn [flat_map] in *. apply app_eq_nil in E as [-> _]. reflexivity. }
  destruct H as [[A B]|(b & -> & A & B)]; [left|right].
  - rewrite M. auto.
  - exists (e :: b). rewrite M. auto.
Qed.

Lemma loop_says LIB o cfg (blinds : nat -> Blind LIB) fs : forall ls i t r, exec fs ls (client_loop o cfg blinds i) t r -> says_only_failure t r.
Proof.
  assert (X : forall t r, t = [] /\ r = None \/ t = [ELog (Error [])] /\ (r = Some 1%N \/ r = None) -> says_only_failure t r).
  { intros t r [[-> ->]|[-> H]]; [apply failure_nil|apply failure_fatal; exact H]. }
  assert (Y : forall t r, t = [] /\ (r = Some 2%N \/ r = None) -> says_only_failure t r).
  { intros t r [-> H]. apply failure_ends. tauto. }
  induction ls as [|l ls IH]; intros i t r H; apply loop_inv in H;
    (destruct H as [[-> ->]|[(E & -> & H)|(l' & ls' & t' & E & -> & H)]]; [apply failure_nil|try discriminate|try discriminate]).
  - apply failure_cons; [reflexivity|]. apply failure_ends. tauto.
  - injection E as <- <-. apply failure_cons; [reflexivity|]. destruct (split_colon l) as [[u p]|]; [|eapply IH; exact H].
    destruct (Query_start cfg u p (blinds i)) as [[d ctx]| |]; [|apply X; exact H|apply Y; exact H].
    destruct H as [[-> ->]|(a & t1 & -> & H)]; [apply failure_nil|]. apply failure_cons; [reflexivity|].
    destruct (Query_finish ctx a) as [ans| |]; [|apply X; exact H|apply Y; exact H].
    destruct H as [[-> ->]|(n & ok & t2 & -> & _ & H)]; [apply failure_nil|]. apply failure_cons; [reflexivity|]. eapply IH; exact H.
Qed.
Lemma input_says LIB o cfg (blinds : nat -> Blind LIB) fs ls t r :
  exec fs ls (Input (co_infile o) (fatal 1%N) (client_loop o cfg blinds 0)) t r -> says_only_failure t r.
Proof.
  intros H. apply inv_input in H as [[-> ->]|H]; [apply failure_nil|]. destruct (input_of fs (co_infile o)); [eapply loop_says; exact H|].
  apply inv_fatal in H as [[-> ->]|[-> H]]; [apply failure_nil|apply failure_fatal; exact H].
Qed.

(** A client that dumps its configuration, gets none, or gets one of version 1:
    nothing but the error it may fail with. *)
Theorem C80_no_warning : forall (LIB : OPRF) (args : list bytes) (o : client_opts) (fs : files) (net : network)
    (blinds : nat -> Blind LIB) (t : list event) (r : option N),
  client_flags args = FParsed o ->
  (co_dump o = true \/ forall cfg, client_config o fs net = Ok cfg -> cfg_version cfg = 1%N) ->
  exec fs [] (client_proc args blinds) t r -> answered_by net t ->
  says_only_failure t r.
Proof.
  intros LIB args o fs net blinds t r F V H A. unfold client_proc in H. rewrite F in H.
  apply (body_inv LIB blinds net) in H as [[-> ->]|(w & t' & W & -> & _ & H)]; [apply failure_nil| |exact A].
  assert (G : says_only_failure t' r -> says_only_failure (w ++ t') r).
  { intros G. destruct W as [->|(u & a & ->)]; [exact G|]. apply failure_cons; [reflexivity|exact G]. }
  apply G. clear G W A w. unfold client_with in H. destruct (client_config o fs net) as [cfg| |].
  - destruct (co_dump o) eqn:D.
    + apply inv_print in H as [[-> ->]|(n & ok & t1 & -> & _ & H)]; [apply failure_nil|]. apply failure_cons; [reflexivity|]. destruct ok.
      * apply inv_done in H as [-> H]. apply failure_ends. tauto.
      * apply inv_fatal in H as [[-> ->]|[-> H]]; [apply failure_nil|apply failure_fatal; exact H].
    + destruct V as [V|V]; [discriminate|]. specialize (V cfg eq_refl). unfold client_queries in H. cbv zeta in H. rewrite V in H. cbn [negb] in H. change (1 =? DefaultMIGPVersion)%N with true in H. cbn [negb] in H.
      eapply input_says; exact H.
  - apply inv_fatal in H as [[-> ->]|[-> H]]; [apply failure_nil|apply failure_fatal; exact H].
  - apply inv_done in H as [-> H]. apply failure_ends. tauto.
Qed.
Print Assumptions C80_no_warning.

(** Otherwise it warns, once and first: before it opens its input, sends a
    query or prints anything. *)
Theorem C80_warning : forall (LIB : OPRF) (args : list bytes) (o : client_opts) (cfg : Config) (fs : files) (net : network)
    (blinds : nat -> Blind LIB) (t : list event) (r : option N),
  client_flags args = FParsed o -> co_dump o = false -> client_config o fs net = Ok cfg -> cfg_version cfg <> 1%N ->
  exec fs [] (client_proc args blinds) t r -> answered_by net t ->
  only_config t /\ r = None
  \/ exists before w after, t = before ++ ELog (Text w) :: after /\ only_config before /\ warns (cfg_version cfg) w /\ says_only_failure after r.
Proof.
  intros LIB args o cfg fs net blinds t r F D C V H A. unfold client_proc in H. rewrite F in H.
  apply (body_inv LIB blinds net) in H as [[-> ->]|(w & t' & W & -> & _ & H)]; [left; split; [intros e []|reflexivity]| |exact A].
  assert (OW : only_config w).
  { destruct W as [->|(u & a & ->)]; intros e I; [destruct I|]. destruct I as [<-|[]]. eauto. }
  rewrite C in H. unfold client_with in H. rewrite D in H. unfold client_queries in H. cbv zeta in H.
  replace (cfg_version cfg =? DefaultMIGPVersion)%N with false in H by (symmetry; apply N.eqb_neq; exact V). cbn [negb] in H.
  apply inv_log in H as [[-> ->]|(t1 & -> & H)].
  - left. rewrite app_nil_r. auto.
  - right. exists w, (version_warning (cfg_version cfg)), t1. split; [reflexivity|]. split; [exact OW|]. split; [|eapply input_says; exact H].
    exists (dec_N (cfg_version cfg)). split; [apply plain_dec|]. unfold version_warning. change (dec_N DefaultMIGPVersion) with (str "1").
    change (str "WARN: Your MIGP library version (1) does not match the version specified in the config (") with (str "WARN: Your MIGP library version (" ++ str "1" ++ str ") does not match the version specified in the config (").
    rewrite <- !app_assoc. reflexivity.
Qed.
Print Assumptions C80_warning.

(** So leaving with status 0 without a word on standard error means: version 1,
    a dump, or help was asked for and given. *)
Theorem C80_silence : forall (LIB : OPRF) (args : list bytes) (o : client_opts) (cfg : Config) (fs : files) (net : network)
    (blinds : nat -> Blind LIB) (t : list event),
  client_flags args = FParsed o -> co_dump o = false -> client_config o fs net = Ok cfg ->
  exec fs [] (client_proc args blinds) t (Some 0%N) -> answered_by net t ->
  (messages t = [] <-> cfg_version cfg = 1%N).
Proof.
  intros LIB args o cfg fs net blinds t F D C H A. split; intros X.
  - destruct (N.eq_dec (cfg_version cfg) 1) as [E|E]; [exact E|exfalso].
    destruct (C80_warning LIB args o cfg fs net blinds t _ F D C E H A) as [[_ Y]|(b & w & a & -> & _)]; [discriminate|].
    unfold messages in X. rewrite flat_map_app in X. apply app_eq_nil in X as [_ X]. discriminate.
  - destruct (C80_no_warning LIB args o fs net blinds t (Some 0%N) F) as [[Y _]|(b & _ & _ & [Y|Y])]; try assumption; try discriminate.
    right. intros c E. rewrite C in E. apply Ok_inj in E. subst c. exact X.
Qed.
Print Assumptions C80_silence.

(** A configuration of version 7 from the server, and an empty input. *)
Definition ex80_cfg : Config := mkConfig 7 20 1 0 1 3.
Definition ex80_fs : files := {| f_open := fun _ => None; f_stdin := [] |}.
Definition ex80_net : network := mkNetwork (fun _ => Ok (200%N, Config_marshal ex80_cfg)) (fun _ _ => Err "refused").
Example C80_example :
  exists o t, client_flags [] = FParsed o /\ co_dump o = false /\ client_config o ex80_fs ex80_net = Ok ex80_cfg
  /\ cfg_version ex80_cfg <> 1%N
  /\ exec ex80_fs [] (@client_proc toy_OPRF [] (fun _ => 5%N)) t (Some 0%N) /\ answered_by ex80_net t
  /\ messages t = [Text (str "WARN: Your MIGP library version (1) does not match the version specified in the config (7) and may not be compatible.")].
Proof.
  assert (F : exists o, client_flags [] = FParsed o /\ co_dump o = false /\ co_config o = [] /\ co_infile o = str "-")
    by (eexists; split; [vm_compute; reflexivity|]; repeat split; reflexivity).
  destruct F as (o & F & D & D2 & D3). exists o.
  exists [EGet (co_target o ++ str "/config") (Ok (200%N, Config_marshal ex80_cfg)); ELog (Text (version_warning 7)); EEnd].
  split; [exact F|]. split; [exact D|]. split; [unfold client_config; rewrite D2; vm_compute; reflexivity|]. split; [discriminate|].
  split; [|split].
  - unfold client_proc. rewrite F. unfold client_proc_body. rewrite D2. apply ex_get. cbn [bind]. change (negb (200 =? 200)%N) with false. cbv iota.
    replace (Config_decode 64 (Config_marshal ex80_cfg)) with (Ok ex80_cfg) by (vm_compute; reflexivity). unfold client_with. rewrite D. apply ex_log.
    apply ex_input with (input := []); [rewrite D3; reflexivity|]. apply loop_step_end.
  - split; intros; cbn in *; intuition congruence.
  - vm_compute. reflexivity.
Qed.
