(** * Specification: vocabulary of the protocol-level properties. *)
From Verif Require Import Base Common Hasher Oprf Server Client KV SpecEntry.

(** The response carries the client's protocol version (in the low 16 bits)
    and the OPRF library unblinds its element to [secret]. *)
Definition client_secret {LIB} (ctx : ClientRequestContext LIB) (resp : ServerResponse) (secret : bytes) : Prop :=
  (rs_version resp mod 2 ^ 16 = c_version (ctx_client ctx))%N /\
  exists rest,
    unblind LIB (c_oprfSuite (ctx_client ctx)) (ctx_inputs ctx) (ctx_blinds ctx)
      [rs_evaluatedElement resp] (str "MIGP oprf info") = Ok (secret :: rest).

(** Largest bucket considered: 2^62 bytes, far above what a 64-bit machine can
    hold in one slice (Go limits a slice to 2^63 - 1 bytes). *)
Definition holdable (s : bytes) : Prop := (blen s <= 2 ^ 62)%Z.

(** What the client reports for an entry that is its own. *)
Definition reported (secret : bytes) (e : entry) : BreachStatus * gslice :=
  (flag_status (entry_open_flag secret e), Some (entry_open_body secret e)).

(** ** Stored credentials and queries, in terms of the API calls only. *)

(** One credential to be stored: username, password, metadata flag, metadata. *)
Record cred := mkCred { d_user : bytes; d_pass : bytes; d_flag : byte; d_meta : bytes }.

(** Encrypt each credential and append it to the bucket of its username. *)
Fixpoint store_all {LIB} (s : Server LIB) (kv : kvStore) (db : list cred) : res kvStore :=
  match db with
  | [] => Ok kv
  | d :: r =>
      id <- Server_BucketID s (d_user d) ;;
      entry <- EncryptBucketEntry s (d_user d) (d_pass d) (d_flag d) (d_meta d) ;;
      store_all s (kv_Append kv (BucketIDToHex id) entry) r
  end.

(** Request, HandleRequest, Finalize; [r] is the client's blinding randomness. *)
Definition run_query {LIB} (c : Client) (s : Server LIB) (kv : Getter) (u p : bytes) (r : Blind LIB)
  : res (BreachStatus * gslice) :=
  match Request c u p r with
  | Ok (request, ctx) => response <- HandleRequest s request kv ;; Finalize ctx response
  | Err m => Err m
  | Panic m => Panic m
  end.

(** What the query should report: the first stored entry for that pair. *)
Definition same_cred (u p : bytes) (d : cred) : bool := bytes_eqb (d_user d) u && bytes_eqb (d_pass d) p.
Definition expected (db : list cred) (u p : bytes) : BreachStatus * gslice :=
  match find (same_cred u p) db with
  | Some d => (flag_status (d_flag d), Some (d_meta d))
  | None => (NotInBreach, None)
  end.

(** No stored pair other than (u, p) has the 20 key-check bytes of (u, p). *)
Definition no_collision {LIB} (s : Server LIB) (db : list cred) (u p : bytes) : Prop :=
  forall d k k', In d db -> (d_user d, d_pass d) <> (u, p) ->
    deriveBucketEntryKey s u p = Ok k -> deriveBucketEntryKey s (d_user d) (d_pass d) = Ok k' ->
    key_check k' <> key_check k.

(** Every bucket can be held in memory. *)
Definition kv_holdable (kv : kvStore) : Prop := forall id, holdable (sl (kv_lookup kv id)).

(** Well-formed hex: an even number of digits of either case. *)
Definition hex_char (c : byte) : bool :=
  existsb (beqb c) (str "0123456789abcdefABCDEF").
Definition well_formed_hex (s : bytes) : Prop := Nat.even (length s) = true /\ forallb hex_char s = true.
