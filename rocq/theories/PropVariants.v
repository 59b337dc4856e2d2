(** * Property C69: how many variants a password gets, and so how large buckets
    are (pkg/mutator/rdasmutator.go:70-110, cmd/server/server.go:51-87).

    Mutate drops a variant whose 32-bit hash it has seen (C30), so the number
    of variants depends on collisions.  Still every password gets 98. *)
From Verif Require Import Base BaseProofs Murmur3 Common Oprf OprfGroup Server Client KV Mutator ConfigJson Demo SpecEntry SpecProtocol SpecDemo SpecMutator
  SpecVariants MutatorProofs MurmurProofs VariantProofs PropFinalize PropProtocol.

(** Strings of one length that differ inside one of the groups of four bytes
    (counted from the front) have different hashes. *)
Theorem C69_no_collision_in_one_block : forall p x y s : bytes,
  (length p mod 4 = 0)%nat -> length x = length y -> (length x <= 4)%nat ->
  murmur3_sum32 (p ++ x ++ s) = murmur3_sum32 (p ++ y ++ s) -> x = y.
Proof. exact one_block. Qed.
Print Assumptions C69_no_collision_in_one_block.

(** Every password, of any bytes and length, gets at least as many variants as
    were asked for or 98, whichever is less; and at most 323. *)
Theorem C69_number_of_variants : forall (pw : bytes) (n : Z), (0 <= n)%Z -> (n * 24 <= 2 ^ 48)%Z ->
  exists vs, password_variants pw n = Ok vs /\ (Z.min n 98 <= Z.of_nat (length vs) <= Z.min n 323)%Z.
Proof. exact variants_count. Qed.
Print Assumptions C69_number_of_variants.

Theorem C69_exactly_as_many_as_asked_for : forall (pw : bytes) (n : Z), (0 <= n <= 98)%Z ->
  exists vs, password_variants pw n = Ok vs /\ Z.of_nat (length vs) = n.
Proof. exact variants_exact. Qed.
Print Assumptions C69_exactly_as_many_as_asked_for.

(** An insert that succeeds makes the bucket larger by an amount that does not
    depend on the username and password. *)
Theorem C69_size_of_an_insert : forall (LIB : OPRF) (s : Server LIB) (store store' : kvStore) (u p m : bytes) (n : Z) (incl : bool) (id : N),
  demo_insert s store u p m n incl = (store', Ok tt) -> Server_BucketID s u = Ok id -> (0 <= n <= 98)%Z ->
  length (sl (kv_lookup store' (BucketIDToHex id)))
  = (length (sl (kv_lookup store (BucketIDToHex id))) + (1 + Z.to_nat n + if incl then 1 else 0) * (25 + length m))%nat.
Proof. intros. eapply insert_size; eassumption. Qed.
Print Assumptions C69_size_of_an_insert.

(** So the size of a bucket shows the number of lines of the breach whose
    usernames are in it, and nothing else. *)
Theorem C69_size_of_a_bucket : forall (LIB : OPRF) (s : Server LIB) (key m : bytes) (n : Z) (incl : bool) (ops : list op),
  (0 <= n <= 98)%Z -> Forall (fun o => o_num o = n /\ o_incl o = incl /\ o_meta o = m) ops ->
  Forall (fun r => r = Ok tt) (outcomes s newKVStore ops) ->
  length (sl (kv_lookup (run_inserts s newKVStore ops) key))
  = (length (filter (in_bucketb s key) ops) * ((1 + Z.to_nat n + if incl then 1 else 0) * (25 + length m)))%nat.
Proof. intros LIB s key m n incl ops Hn F O. rewrite (inserts_size s key n incl m Hn ops newKVStore F O). reflexivity. Qed.
Print Assumptions C69_size_of_a_bucket.

(** The cases of the repository's own test (pkg/mutator/rdasmutator_test.go:
    11-44): asked for 1000, at least 100 come, with these among them. *)
Definition ex_variants (pw : bytes) (some : list bytes) : bool :=
  match Mutate shipped pw 1000 with
  | Ok vs => Nat.leb 100 (length vs) && forallb (fun v => existsb (bytes_eqb v) vs) some
  | _ => false
  end.
Example C69_example_repo_test :
  ex_variants (str "hello") (map str ["Hello"; "13hello"; "hello1"; "777hello"; "helloN"])%string
  && ex_variants (str "asdf1234asdf") (map str ["zxcv1234zxcv"; "asdf1234asdf1"; "asdf1234a"; "asdf1234as"; "Asdf1234asdf"; "asdf1234asdfN"])%string
  && ex_variants [] (map str ["1"; "13"; "777"; "N"])%string = true.
Proof. vm_compute. reflexivity. Qed.

(** Two users and three lines with two variants each. *)
Definition ex_ops69 : list op :=
  [mkOp (str "alice") (str "pw") (str "m") 2 true; mkOp (str "bob") (str "x") (str "m") 2 true; mkOp (str "alice") [] (str "m") 2 true].
Example C69_example : exists id, Server_BucketID ex_server (str "alice") = Ok id
  /\ forallb is_ok (outcomes ex_server newKVStore ex_ops69) = true
  /\ length (filter (in_bucketb ex_server (BucketIDToHex id)) ex_ops69) = 2%nat
  /\ length (sl (kv_lookup (run_inserts ex_server newKVStore ex_ops69) (BucketIDToHex id))) = (2 * (4 * 26))%nat.
Proof. eexists. split; [vm_compute; reflexivity|]. split; [vm_compute; reflexivity|]. split; vm_compute; reflexivity. Qed.
