(** * Specification: how the members of a JSON object fill the fields of a
    record, as encoding/json documents it: names match up to letter case, a
    later member replaces an earlier one, null leaves numbers and strings
    alone (also the numbers in an array of bytes), unknown members are ignored; byte strings travel in base 64. *)
From Verif Require Import Base Common Server Mutator Json SpecJson.
Local Open Scope N_scope.

(** ** Base 64 (RFC 4648 section 4); line ends in the text do not count, and
    neither do the bits left over at the end. *)
Definition base64_alphabet : bytes := str "ABCDEFGHIJKLMNOPQRSTUVWXYZabcdefghijklmnopqrstuvwxyz0123456789+/".
(** The [n] lowest bits of [x], highest first. *)
Fixpoint low_bits (n : nat) (x : N) : list bool :=
  match n with O => [] | S m => N.testbit x (N.of_nat m) :: low_bits m x end.
Definition base64 (s b : bytes) : Prop :=
  exists ds pad,
    filter (fun c => negb (existsb (beqb c) [Byte.x0a; Byte.x0d])) s = map (fun d => nth (N.to_nat d) base64_alphabet Byte.x00) ds ++ repeat Byte.x3d pad
    /\ Forall (fun d => d < 64) ds /\ (pad <= 2)%nat
    /\ Nat.divide 4 (length ds + pad)
    /\ exists rest, flat_map (low_bits 6) ds = flat_map (fun c => low_bits 8 (bN c)) b ++ rest /\ (length rest < 8)%nat.

(** The one encoding that RFC 4648 prescribes: no line ends, and the bits left
    over are zero. *)
Definition base64_exact (s b : bytes) : Prop :=
  exists ds pad,
    s = map (fun d => nth (N.to_nat d) base64_alphabet Byte.x00) ds ++ repeat Byte.x3d pad
    /\ Forall (fun d => d < 64) ds /\ (pad <= 2)%nat
    /\ Nat.divide 4 (length ds + pad)
    /\ exists rest, flat_map (low_bits 6) ds = flat_map (fun c => low_bits 8 (bN c)) b ++ rest /\ (length rest < 8)%nat
         /\ Forall (fun x => x = false) rest.

(** ** Names of fields.  The long s and the Kelvin sign are lower and upper
    case forms of s and k. *)
Definition same_letter (c : byte) (u : N) : Prop :=
  u = bN c
  \/ (97 <= bN c <= 122 /\ u = bN c - 32) \/ (65 <= bN c <= 90 /\ u = bN c + 32)
  \/ (In c (str "sS") /\ u = 383) \/ (In c (str "kK") /\ u = 8490).
Definition names_field (name key : bytes) : Prop :=
  exists us, key = flat_map utf8_char us /\ Forall2 same_letter name us.

(** ** Values of fields *)
Definition decimal (l : bytes) (n : N) : Prop :=
  digits l /\ n = fold_left (fun a c => a * 10 + (bN c - 48)) l 0.
Definition integer (l : bytes) (z : Z) : Prop :=
  (exists n, decimal l n /\ z = Z.of_N n) \/ (exists r n, l = str "-" ++ r /\ decimal r n /\ z = (- Z.of_N n)%Z).
Definition reads_natural (bits : N) (j : json) (n : N) : Prop := exists l, j = JNum l /\ decimal l n /\ n < 2 ^ bits.
Definition reads_integer (bits : Z) (j : json) (z : Z) : Prop :=
  exists l, j = JNum l /\ integer l z /\ (- 2 ^ (bits - 1) <= z < 2 ^ (bits - 1))%Z.
Definition reads_text (j : json) (s : bytes) : Prop := j = JStr s.
(** A byte string: base 64 text, an array of numbers, or null for the nil
    slice. *)
Definition reads_bytes (j : json) (b : gslice) : Prop :=
  (j = JNull /\ b = None)
  \/ (exists s t, j = JStr s /\ base64 s t /\ b = Some t)
  \/ (exists l ns, j = JArr l /\ Forall2 (reads_natural 8) l ns /\ b = Some (map nB ns)).
Definition is_null (j : json) : Prop := j = JNull.
Definition never (j : json) : Prop := False.

(** The field [name] has the value [v] after the members [ms]: every member
    of that name is well typed, and the last one that is not skipped gives the
    value; without one the value is [initial]. *)
Definition field {V} (name : bytes) (skips : json -> Prop) (reads : json -> V -> Prop) (initial : V) (ms : list (bytes * json)) (v : V) : Prop :=
  (forall k x, In (k, x) ms -> names_field name k -> skips x \/ exists w, reads x w)
  /\ ((v = initial /\ forall k x, In (k, x) ms -> names_field name k -> skips x)
      \/ exists l k x r, ms = l ++ (k, x) :: r /\ names_field name k /\ reads x v
           /\ forall k' x', In (k', x') r -> names_field name k' -> skips x').

(** A byte string field after the members: its value, and the memory behind
    it.  An array may contain nulls: they leave the byte in memory, which is 0
    unless an earlier member of the same name has put something there. *)
Inductive fills (name : bytes) : list (bytes * json) -> gslice -> (nat -> byte) -> Prop :=
| fills_start : fills name [] None (fun _ => Byte.x00)
| fills_other ms k x b m : fills name ms b m -> ~ names_field name k -> fills name (ms ++ [(k, x)]) b m
| fills_null ms k b m : fills name ms b m -> names_field name k -> fills name (ms ++ [(k, JNull)]) None (fun _ => Byte.x00)
| fills_text ms k b m s t : fills name ms b m -> names_field name k -> base64 s t ->
    fills name (ms ++ [(k, JStr s)]) (Some t) (fun i => nth i t Byte.x00)
| fills_empty ms k b m : fills name ms b m -> names_field name k -> fills name (ms ++ [(k, JArr [])]) (Some []) (fun _ => Byte.x00)
| fills_array ms k b m l t : fills name ms b m -> names_field name k -> l <> [] -> length t = length l ->
    (forall i x, nth_error l i = Some x ->
       (x = JNull /\ nth_error t i = Some (m i)) \/ exists n, reads_natural 8 x n /\ nth_error t i = Some (nB n)) ->
    fills name (ms ++ [(k, JArr l)]) (Some t) (fun i => nth i t (m i)).
Definition bytes_field (name : bytes) (ms : list (bytes * json)) (b : gslice) : Prop := exists m, fills name ms b m.

(** ** The records *)
Definition describes_request (ms : list (bytes * json)) (rq : ClientRequest) : Prop :=
  field (str "version") is_null (reads_natural 32) 0 ms (rq_version rq)
  /\ field (str "bucketID") is_null reads_text [] ms (rq_bucketID rq)
  /\ bytes_field (str "blindElement") ms (rq_blindElement rq).
Definition describes_config (bits : Z) (ms : list (bytes * json)) (c : Config) : Prop :=
  field (str "version") is_null (reads_natural 16) 0 ms (cfg_version c)
  /\ field (str "bucketIDBitSize") is_null (reads_integer bits) 0%Z ms (cfg_bits c)
  /\ field (str "bucketHasher") is_null (reads_natural 16) 0 ms (cfg_bucketHasher c)
  /\ field (str "slowHasher") is_null (reads_natural 16) 0 ms (cfg_slowHasher c)
  /\ field (str "bucketEncryptor") is_null (reads_natural 16) 0 ms (cfg_bucketEncryptor c)
  /\ field (str "oprfSuite") is_null (reads_natural 16) 0 ms (cfg_oprfSuite c).
Definition describes_key (ms : list (bytes * json)) (k : gslice) : Prop := bytes_field (str "privateKey") ms k.
Definition describes_rule (ms : list (bytes * json)) (r : RDasRule) : Prop :=
  field (str "ruletype") is_null reads_text [] ms (RuleType r)
  /\ field (str "position") is_null (reads_integer 64) 0%Z ms (Position r)
  /\ field (str "string1") is_null reads_text [] ms (String1 r)
  /\ field (str "string2") is_null reads_text [] ms (String2 r).

(** A text that a JSON reader with a limit on nesting accepts. *)
Definition json_accepted (s : bytes) (j : json) : Prop := json_document s j /\ nesting j <= 10000.
(** A record described by an object, or left at its initial value by null. *)
Definition record_of {A} (members : list (bytes * json) -> A -> Prop) (initial : A) (j : json) (a : A) : Prop :=
  (j = JNull /\ a = initial) \/ exists ms, j = JObj ms /\ members ms a.

(** ** What is sent: the documents of the repository's records. *)

(** Plain decimal: no sign (a minus for negative numbers), no leading zero. *)
Definition plain_natural (l : bytes) (n : N) : Prop := decimal l n /\ (forall r, l = str "0" ++ r -> r = []).
Definition plain_integer (l : bytes) (z : Z) : Prop :=
  (exists n, plain_natural l n /\ z = Z.of_N n)
  \/ (exists r n, l = str "-" ++ r /\ plain_natural r n /\ n <> 0 /\ z = (- Z.of_N n)%Z).
Definition request_value (rq : ClientRequest) (j : json) : Prop :=
  exists v e el, j = JObj [(str "version", JNum v); (str "bucketID", JStr (rq_bucketID rq)); (str "blindElement", JStr e)]
    /\ plain_natural v (rq_version rq) /\ rq_blindElement rq = Some el /\ base64_exact e el.
Definition config_members (c : Config) (ms : list (bytes * json)) : Prop :=
  exists v b h s e o, ms = [(str "version", JNum v); (str "bucketIDBitSize", JNum b); (str "bucketHasher", JNum h); (str "slowHasher", JNum s);
                            (str "bucketEncryptor", JNum e); (str "oprfSuite", JNum o)]
    /\ plain_natural v (cfg_version c) /\ plain_integer b (cfg_bits c) /\ plain_natural h (cfg_bucketHasher c)
    /\ plain_natural s (cfg_slowHasher c) /\ plain_natural e (cfg_bucketEncryptor c) /\ plain_natural o (cfg_oprfSuite c).

(** ** Decoding over a configuration that has values already: members that are
    not mentioned, or null, keep them. *)
Definition overrides_config (bits : Z) (old : Config) (ms : list (bytes * json)) (c : Config) : Prop :=
  field (str "version") is_null (reads_natural 16) (cfg_version old) ms (cfg_version c)
  /\ field (str "bucketIDBitSize") is_null (reads_integer bits) (cfg_bits old) ms (cfg_bits c)
  /\ field (str "bucketHasher") is_null (reads_natural 16) (cfg_bucketHasher old) ms (cfg_bucketHasher c)
  /\ field (str "slowHasher") is_null (reads_natural 16) (cfg_slowHasher old) ms (cfg_slowHasher c)
  /\ field (str "bucketEncryptor") is_null (reads_natural 16) (cfg_bucketEncryptor old) ms (cfg_bucketEncryptor c)
  /\ field (str "oprfSuite") is_null (reads_natural 16) (cfg_oprfSuite old) ms (cfg_oprfSuite c).
