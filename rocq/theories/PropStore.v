(** * C77: how much the store holds.

    Between what a server was given and the memory of its store there is a
    constant factor: a password costs at most 1 + 323 + 1 entries of 25 bytes and
    the metadata each, failed inserts included, however long it is. *)
From Coq Require Import Lia.
From Verif Require Import Base BaseProofs Common Oprf Server KV ConfigJson Scanner Demo Flags Main
  SpecProtocol SpecDemo SpecMain SpecStore IngestProofs MainProofs QuickProofs StoreProofs PropProtocol.

(** A store has no two buckets of one name, so its bytes are those of the
    buckets that can be asked for. *)
Theorem C77_buckets_are_distinct : forall (LIB : OPRF) (s : Server LIB) (ops : list op),
  let store := run_inserts s newKVStore ops in
  NoDup (buckets store)
  /\ store_bytes store = fold_right (fun id n => length (sl (kv_lookup store id)) + n)%nat 0%nat (buckets store)
  /\ forall id, ~ In id (buckets store) -> kv_lookup store id = None.
Proof.
  intros LIB s ops store. pose proof (history_nodup s ops) as N. split; [exact N|]. split; [exact (bytes_by_lookup _ N)|].
  intros id. apply lookup_none.
Qed.
Print Assumptions C77_buckets_are_distinct.

(** At most one bucket per insert and at most 2^bits, each named by the bucket
    id of a username that was inserted. *)
Theorem C77_number_of_buckets : forall (LIB : OPRF) (s : Server LIB) (ops : list op),
  let names := buckets (run_inserts s newKVStore ops) in
  (length names <= length ops)%nat
  /\ (N.of_nat (length names) <= 2 ^ Z.to_N (s_bits s))%N
  /\ forall name, In name names -> exists o id, In o ops /\ Server_BucketID s (o_user o) = Ok id /\ name = BucketIDToHex id.
Proof. intros LIB s ops. split; [apply history_buckets_ops|]. split; [apply history_buckets_bits|apply history_keys]. Qed.
Print Assumptions C77_number_of_buckets.

(** Whatever is inserted, and whatever of it fails. *)
Theorem C77_store_is_bounded : forall (LIB : OPRF) (s : Server LIB) (ops : list op),
  (store_bytes (run_inserts s newKVStore ops)
   <= fold_right (fun o n => (1 + Z.to_nat (Z.min (o_num o) 323) + if o_incl o then 1 else 0) * (25 + length (o_meta o)) + n) 0 ops)%nat.
Proof. intros LIB s ops. apply history_bound. Qed.
Print Assumptions C77_store_is_bounded.

(** Exactly, when all inserts succeed and at most 98 variants are asked for. *)
Theorem C77_store_is_exact : forall (LIB : OPRF) (s : Server LIB) (m : bytes) (num : Z) (incl : bool) (ops : list op),
  (0 <= num <= 98)%Z -> Forall (fun o => o_num o = num /\ o_incl o = incl /\ o_meta o = m) ops ->
  Forall (fun r => r = Ok tt) (outcomes s newKVStore ops) ->
  store_bytes (run_inserts s newKVStore ops) = (length ops * ((1 + Z.to_nat num + if incl then 1 else 0) * (25 + length m)))%nat.
Proof. intros LIB s m num incl ops H F O. apply (history_exact s m num incl ops H F newKVStore O). Qed.
Print Assumptions C77_store_is_exact.

Lemma scan_colon ls last : (length (with_colon (scan_complete ls last)) <= length (filter (existsb (beqb Byte.x3a)) (all_lines ls last)))%nat.
Proof.
  unfold all_lines. induction ls as [|l ls IH]; cbn [scan_complete].
  - destruct last as [|x last]; [reflexivity|]. destruct (fits (x :: last)); [|cbn; lia].
    rewrite with_colon_cons. pose proof (drop_cr_colon (x :: last)) as D. rewrite colon_dec in D. cbn [app filter].
    rewrite <- D. destruct (split_colon (drop_cr (x :: last))); cbn; lia.
  - destruct (fits l); [|cbn; lia]. rewrite with_colon_cons. pose proof (drop_cr_colon l) as D. rewrite colon_dec in D. cbn [app filter].
    rewrite <- D. destruct (split_colon (drop_cr l)); cbn [length]; lia.
Qed.
Lemma bound_const n incl (m : bytes) creds k : (length creds <= k)%nat ->
  (fold_right (fun o r => (1 + Z.to_nat (Z.min (o_num o) 323) + if o_incl o then 1 else 0) * (25 + length (o_meta o)) + r) 0 (breach_ops m n incl creds)
   <= k * ((1 + Z.to_nat (Z.min n 323) + if incl then 1 else 0) * (25 + length m)))%nat.
Proof.
  intros H. eapply Nat.le_trans; [|apply Nat.mul_le_mono_r; exact H]. clear H. unfold breach_ops.
  induction creds as [|c creds IH]; [reflexivity|]. cbn [map fold_right o_num o_incl o_meta length Nat.mul]. apply Nat.add_le_mono_l. exact IH.
Qed.

(** The server program with a breach file of any lines. *)
Theorem C77_breach_file : forall (LIB : OPRF) (args : list bytes) (fs : files) (gen : res (PrivateKey LIB)) (so : server_opts)
    (addr : bytes) (srv : server LIB) (ok bad : N) (ls : list bytes) (last : bytes),
  server_program args fs gen = SServing addr srv ok bad -> server_flags args = FParsed so ->
  given fs (so_infile so) (text ls last) -> Forall no_lf ls -> no_lf last ->
  (store_bytes (kv srv)
   <= length (filter (existsb (beqb Byte.x3a)) (all_lines ls last))
      * ((1 + Z.to_nat (Z.min (so_num so) 323) + if so_username so then 1 else 0) * (25 + length (so_metadata so))))%nat.
Proof.
  intros LIB args fs gen so addr srv ok bad ls last H SF G F N. apply given_input in G.
  destruct (served_store _ _ _ _ _ _ _ _ _ _ H SF G) as (_ & _ & _ & _ & KV & _). rewrite KV.
  eapply Nat.le_trans; [apply history_bound|]. apply bound_const. unfold scan_lines. rewrite (split_lf_text ls last F N). apply scan_colon.
Qed.
Print Assumptions C77_breach_file.

(** One insert with 1 variant and the username: 3 entries of 25 + 4 bytes. *)
Definition ex77_ops : list op := [mkOp (str "alice") (str "pw") (str "leak") 1 true].
Example C77_example : outcomes ex_server newKVStore ex77_ops = [Ok tt] /\ store_bytes (run_inserts ex_server newKVStore ex77_ops) = 87%nat
  /\ length (buckets (run_inserts ex_server newKVStore ex77_ops)) = 1%nat.
Proof.
  assert (O : outcomes ex_server newKVStore ex77_ops = [Ok tt]) by (vm_compute; reflexivity).
  split; [exact O|]. split.
  - rewrite (C77_store_is_exact _ ex_server (str "leak") 1 true); [reflexivity|lia|repeat constructor|]. rewrite O. repeat constructor.
  - vm_compute. reflexivity.
Qed.
