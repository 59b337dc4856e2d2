(** * The demo server's store and ingestion on the memory of [Mem.v]:
    cmd/server/kv.go, cmd/server/server.go:51-87, cmd/server/main.go:79-93. *)
From Verif Require Import Base Common Hasher Oprf Server Mutator Scanner ConfigJson KV Mem MemCode.

(** kv.go:11-14: map[string][]byte; the first binding of a key counts *)
Definition mstore := list (bytes * option mslice).

(** kv.store[id] and kv.store[id] = v *)
Fixpoint mkv_lookup (kv : mstore) (id : bytes) : option mslice :=
  match kv with
  | [] => None
  | (k, v) :: r => if bytes_eqb k id then v else mkv_lookup r id
  end.
Fixpoint mkv_set (kv : mstore) (id : bytes) (v : option mslice) : mstore :=
  match kv with
  | [] => [(id, v)]
  | (k, w) :: r => if bytes_eqb k id then (k, v) :: r else (k, w) :: mkv_set r id v
  end.

Section MemStore.
(** How much spare capacity append allocates when it must allocate: the Go
    specification leaves it open. *)
Variable grow : heap -> mslice -> bytes -> nat.

(** kv.go:32-37: the store and the memory afterwards.  append(nil, nothing) is
    nil. *)
Definition Append_m (store : mstore) (id : bytes) (value : mslice) (h : heap) : mstore * heap :=
  let b := view h value in
  match mkv_lookup store id, b with
  | None, [] => (mkv_set store id None, h)
  | old, _ =>
      let s := match old with Some s => s | None => m_nil end in
      match m_append (grow h s b) s b h with
      | (Ok s', h') => (mkv_set store id (Some s'), h')
      | (_, h') => (store, h')
      end
  end.

Context {LIB : OPRF}.

(** server.go:54-61, 65-72, 76-83 *)
Definition add_entry_m (s : Server LIB) (store : mstore) (bucketIDHex : bytes) (username password : mslice)
    (flag : MetadataType) (metadata : mslice) (h : heap) : mstore * res unit * heap :=
  match EncryptEntry_m s username password flag metadata h with
  | (Ok newEntry, h1) => let (store', h2) := Append_m store bucketIDHex newEntry h1 in (store', Ok tt, h2)
  | (Err e, h1) => (store, Err e, h1)
  | (Panic m, h1) => (store, Panic m, h1)
  end.

(** server.go:64-73 *)
Fixpoint add_variants_m (s : Server LIB) (store : mstore) (bucketIDHex : bytes) (username : mslice)
    (variants : list mslice) (metadata : mslice) (h : heap) : mstore * res unit * heap :=
  match variants with
  | [] => (store, Ok tt, h)
  | v :: r =>
      match add_entry_m s store bucketIDHex username v MetadataSimilarPassword metadata h with
      | (store', Ok _, h') => add_variants_m s store' bucketIDHex username r metadata h'
      | other => other
      end
  end.

(** server.go:144-146 *)
Definition BucketID_m (s : Server LIB) (username : mslice) : mem N :=
  hs <~ bucketHash_m (s_bucketHasher s) username ;; b <~ m_view hs ;; lift (bucketHashToID b (s_bits s)).

(** server.go:63 *)
Definition password_variants_m (password : mslice) (n : Z) : mem (list mslice) :=
  rules <~ lift NewRDasMutator ;; Mutate_m rules password n.

(** server.go:51-87 *)
Definition demo_insert_m (s : Server LIB) (store : mstore) (username password metadata : mslice)
    (numVariants : Z) (includeUsernameVariant : bool) (h : heap) : mstore * res unit * heap :=
  match BucketID_m s username h with
  | (Err e, h0) => (store, Err e, h0)
  | (Panic m, h0) => (store, Panic m, h0)
  | (Ok id, h0) =>
      let bucketIDHex := BucketIDToHex id in
      match add_entry_m s store bucketIDHex username password MetadataBreachedPassword metadata h0 with
      | (store1, Ok _, h1) =>
          match password_variants_m password numVariants h1 with
          | (Err e, h2) => (store1, Err e, h2)
          | (Panic m, h2) => (store1, Panic m, h2)
          | (Ok passwordVariants, h2) =>
              match add_variants_m s store1 bucketIDHex username passwordVariants metadata h2 with
              | (store2, Ok _, h3) =>
                  if includeUsernameVariant
                  then add_entry_m s store2 bucketIDHex username m_nil MetadataBreachedUsername metadata h3
                  else (store2, Ok tt, h3)
              | other => other
              end
          end
      | other => other
      end
  end.

(** The index of the first colon. *)
Fixpoint colon_at (line : bytes) : option nat :=
  match line with
  | [] => None
  | c :: r => if beqb c Byte.x3a then Some O else option_map S (colon_at r)
  end.
(** bytes.SplitN(line, ":", 2): line[:i:i] and line[i+1:], which share the
    line's memory *)
Definition split_colon_m (line : mslice) (h : heap) : option (mslice * mslice) :=
  match colon_at (view h line) with
  | None => None
  | Some i => Some (mkM (m_arr line) (m_off line) i i,
                    mkM (m_arr line) (m_off line + (i + 1)) (m_len line - (i + 1)) (m_cap line - (i + 1)))
  end.

(** main.go:80-93, one line: the store, the two counters, the memory, and the
    message of the panic that ends the process, if any.  []byte(metadata) is a
    new slice on every line. *)
Record mingest := mkMIngest { mi_store : mstore; mi_success : N; mi_failure : N }.
Definition ingest_line_m (s : Server LIB) (metadata : bytes) (numVariants : Z) (incl : bool)
    (st : mingest) (line : mslice) : mem mingest :=
  fun h =>
  match split_colon_m line h with
  | None => (Ok (mkMIngest (mi_store st) (mi_success st) (mi_failure st + 1)), h)
  | Some (username, password) =>
      match m_new metadata h with
      | (Ok md, h1) =>
          match demo_insert_m s (mi_store st) username password md numVariants incl h1 with
          | (_, Panic m, h2) => (Panic m, h2)
          | (store', Err _, h2) => (Ok (mkMIngest store' (mi_success st) (mi_failure st + 1)), h2)
          | (store', Ok _, h2) => (Ok (mkMIngest store' (mi_success st + 1) (mi_failure st)), h2)
          end
      | (Err e, h1) => (Err e, h1)
      | (Panic m, h1) => (Panic m, h1)
      end
  end.

End MemStore.
