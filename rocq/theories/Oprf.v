(** * Interface of the OPRF library (github.com/cloudflare/circl/oprf).

    The library is not part of /repo.  The calls pkg/migp makes are the fields
    of this record; what the library is assumed to guarantee is [OPRF_laws],
    which theorems take as an explicit hypothesis.  [OprfGroup.v] builds an
    implementation over an arbitrary prime-order group and proves the laws. *)
From Verif Require Import Base.

Record OPRF := mkOPRF {
  (** *oprf.PrivateKey *)
  PrivateKey : Type;
  (** the random scalar Client.Request draws for one input *)
  Blind : Type;
  (** oprf.NewClient(suite): nil error? (client.go:67) *)
  client_suite : N -> res unit;
  (** oprf.NewServer(suite, key): nil error? (server.go:130) *)
  server_suite : N -> PrivateKey -> res unit;
  (** oprf.GetSizes(suite).SerializedElementLength (server.go:194) *)
  elt_size : N -> res nat;
  (** (Client).Request(inputs) with the drawn scalars: BlindedElements() (client.go:84,88) *)
  blind : N -> list bytes -> list Blind -> res (list bytes);
  (** (Server).Evaluate(blinded, info).Elements (server.go:227) *)
  evaluate : N -> PrivateKey -> list bytes -> bytes -> res (list bytes);
  (** (Client).Finalize(request, evaluation, info) (client.go:114) *)
  unblind : N -> list bytes -> list Blind -> list bytes -> bytes -> res (list bytes);
  (** (Server).FullEvaluate(input, info) (server.go:140) *)
  full_evaluate : N -> PrivateKey -> bytes -> bytes -> res bytes;
  (** (PrivateKey).Serialize / Deserialize(suite, data) (server.go:48,66) *)
  key_bytes : PrivateKey -> res bytes;
  key_parse : N -> bytes -> res PrivateKey }.

(** What pkg/migp relies on.  "For a suite the library accepts" is the
    hypothesis of each law. *)
Record OPRF_laws (LIB : OPRF) : Prop := {
  (** the library never panics on these calls *)
  law_blind_total : forall s x r, client_suite LIB s = Ok tt ->
    exists b, blind LIB s [x] [r] = Ok [b];
  (** a blinded element is evaluated, or evaluation and direct evaluation both
      fail with an error (only when the tweaked key is not invertible) *)
  law_correct : forall s k x r b info,
    client_suite LIB s = Ok tt -> server_suite LIB s k = Ok tt ->
    blind LIB s [x] [r] = Ok [b] ->
    (exists e y, evaluate LIB s k [b] info = Ok [e] /\ full_evaluate LIB s k x info = Ok y /\
       unblind LIB s [x] [r] [e] info = Ok [y])
    \/ (exists m m', evaluate LIB s k [b] info = Err m /\ full_evaluate LIB s k x info = Err m');
  (** the answer to an honestly blinded element has the advertised size (the
      identity, which only a forged request can provoke, is shorter) *)
  law_size : forall s k x r b info e n, client_suite LIB s = Ok tt -> server_suite LIB s k = Ok tt ->
    elt_size LIB s = Ok n -> blind LIB s [x] [r] = Ok [b] ->
    evaluate LIB s k [b] info = Ok [e] -> length e = n;
  (** the default suite (P-256) has 33-byte elements *)
  law_default_size : elt_size LIB 3 = Ok 33%nat;
  (** private keys of a suite survive serialization *)
  law_key : forall s k, server_suite LIB s k = Ok tt ->
    exists d, key_bytes LIB k = Ok d /\ key_parse LIB s d = Ok k;
  (** no call panics, whatever suite or bytes arrive *)
  law_client_np : forall s m, client_suite LIB s <> Panic m;
  law_evaluate_np : forall s k l i m, evaluate LIB s k l i <> Panic m;
  law_unblind_np : forall s xs rs l i m, unblind LIB s xs rs l i <> Panic m;
  (** Finalize returns as many outputs as inputs *)
  law_unblind_len : forall s xs rs l i ys, unblind LIB s xs rs l i = Ok ys -> length ys = length xs;
  law_evaluate_len : forall s k l i es, evaluate LIB s k l i = Ok es -> length es = length l }.
