(** * Specification: vocabulary of the demo server's and client's properties. *)
From Verif Require Import Base Common Oprf Server Client KV SpecProtocol Scanner Demo.

(** What one insert stores, in order: the password as breached, its variants
    as similar, and the empty password as username-only. *)
Definition insert_creds (u p m : bytes) (variants : list bytes) (incl : bool) : list cred :=
  mkCred u p Byte.x01 m :: map (fun v => mkCred u v Byte.x02 m) variants
  ++ (if incl then [mkCred u [] Byte.x03 m] else []).

(** [e] is the entry that stores the credential [d] on server [s]. *)
Definition stores {LIB} (s : Server LIB) (d : cred) (e : SpecEntry.entry) : Prop :=
  exists k, deriveBucketEntryKey s (d_user d) (d_pass d) = Ok k /\ e = SpecEntry.make_entry k (d_flag d) (d_meta d).

(** The arguments of one call of insert, a history of such calls, and the
    outcomes of the calls.  A failing call may leave a part of its entries. *)
Record op := mkOp { o_user : bytes; o_pass : bytes; o_meta : bytes; o_num : Z; o_incl : bool }.
Definition do_insert {LIB} (s : Server LIB) (store : kvStore) (o : op) : kvStore * res unit :=
  demo_insert s store (o_user o) (o_pass o) (o_meta o) (o_num o) (o_incl o).
Fixpoint run_inserts {LIB} (s : Server LIB) (store : kvStore) (ops : list op) : kvStore :=
  match ops with
  | [] => store
  | o :: r => run_inserts s (fst (do_insert s store o)) r
  end.
Fixpoint outcomes {LIB} (s : Server LIB) (store : kvStore) (ops : list op) : list (res unit) :=
  match ops with
  | [] => []
  | o :: r => snd (do_insert s store o) :: outcomes s (fst (do_insert s store o)) r
  end.
Definition is_ok {A} (r : res A) : bool := match r with Ok _ => true | _ => false end.
Definition is_panic {A} (r : res A) : bool := match r with Panic _ => true | _ => false end.

(** A text file: lines ended by LF, and what follows the last LF. *)
Definition no_lf (l : bytes) : Prop := ~ In Byte.x0a l.
Definition text (ls : list bytes) (last : bytes) : bytes := flat_map (fun l => l ++ [Byte.x0a]) ls ++ last.
(** All lines, with the unterminated last one if there is one. *)
Definition all_lines (ls : list bytes) (last : bytes) : list bytes :=
  ls ++ match last with [] => [] | _ => [last] end.
(** A line without the CR it may end with. *)
Definition strip_cr (l l' : bytes) : Prop := l = l' ++ [Byte.x0d] \/ (l = l' /\ forall a, l <> a ++ [Byte.x0d]).

(** The credentials of the lines that have a colon. *)
Definition with_colon (lines : list bytes) : list (bytes * bytes) :=
  flat_map (fun l => match split_colon l with Some c => [c] | None => [] end) lines.

(** 65534 digits "1"; and 49153 bytes "awsxwsx...wsx". *)
Definition crash_pw : bytes := repeat Byte.x31 (N.to_nat 65534).
Definition wsx_pw : bytes := Byte.x61 :: concat (repeat (str "wsx") (N.to_nat 16384)).

(** The credentials that one insert tries to store, in order; the first that
    cannot be encrypted ends the insert. *)
Definition op_creds (o : op) : list cred :=
  match ConfigJson.password_variants (o_pass o) (o_num o) with
  | Ok variants => insert_creds (o_user o) (o_pass o) (o_meta o) variants (o_incl o)
  | _ => [mkCred (o_user o) (o_pass o) Byte.x01 (o_meta o)]
  end.
Definition tried (ops : list op) : list cred := flat_map op_creds ops.
(** The inserts for one username, in order. *)
Definition for_user (u : bytes) (ops : list op) : list op := filter (fun o => bytes_eqb (o_user o) u) ops.
(** What a history stores: of each insert the credentials before the first that
    cannot be encrypted. *)
Fixpoint stored_prefix {LIB} (s : Server LIB) (db : list cred) : list cred :=
  match db with
  | [] => []
  | d :: r =>
      match Server_BucketID s (d_user d), EncryptBucketEntry s (d_user d) (d_pass d) (d_flag d) (d_meta d) with
      | Ok _, Ok _ => d :: stored_prefix s r
      | _, _ => []
      end
  end.
Definition op_stores {LIB} (s : Server LIB) (o : op) : list cred := stored_prefix s (op_creds o).
Definition stored_by {LIB} (s : Server LIB) (ops : list op) : list cred := flat_map (op_stores s) ops.
(** The inserts that the lines of a breach file ask for. *)
Definition breach_ops (metadata : bytes) (numVariants : Z) (incl : bool) (creds : list (bytes * bytes)) : list op :=
  map (fun c => mkOp (fst c) (snd c) metadata numVariants incl) creds.
