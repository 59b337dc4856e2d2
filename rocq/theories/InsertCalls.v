(** * Model of insert of the demo server as the calls of the store that it makes
    (cmd/server/server.go:51-87), for goroutines that insert at the same time.
    [Demo.v] has the same function on a store of its own. *)
From Verif Require Import Base Common Oprf Server Client KV Mutator ConfigJson SpecConc.

Section Insert.
Context {LIB : OPRF}.

(** server.go:54-61, 65-72, 76-83: encrypt an entry and append it. *)
Definition entry_calls (s : Server LIB) (bucketIDHex username password : bytes) (flag : MetadataType) (metadata : bytes)
  : list call * res unit :=
  match EncryptBucketEntry s username password flag metadata with
  | Ok newEntry => ([CAppend bucketIDHex newEntry], Ok tt)
  | Err e => ([], Err e)
  | Panic m => ([], Panic m)
  end.

(** Goes on with [rest] unless there was an error (or a panic). *)
Definition then_calls (a : list call * res unit) (rest : list call * res unit) : list call * res unit :=
  match a with
  | (l, Ok _) => match rest with (l', r) => (l ++ l', r) end
  | (l, e) => (l, e)
  end.

(** server.go:64-73 *)
Fixpoint variants_calls (s : Server LIB) (bucketIDHex username : bytes) (variants : list bytes) (metadata : bytes) : list call * res unit :=
  match variants with
  | [] => ([], Ok tt)
  | v :: r => then_calls (entry_calls s bucketIDHex username v MetadataSimilarPassword metadata) (variants_calls s bucketIDHex username r metadata)
  end.

(** server.go:51-87, with the mutator as a parameter. *)
Definition insert_calls_with (mutate : bytes -> Z -> res (list bytes)) (s : Server LIB) (username password metadata : bytes) (numVariants : Z) (includeUsernameVariant : bool)
  : list call * res unit :=
  match Server_BucketID s username with
  | Err e => ([], Err e)
  | Panic m => ([], Panic m)
  | Ok id =>
      let bucketIDHex := BucketIDToHex id in
      then_calls (entry_calls s bucketIDHex username password MetadataBreachedPassword metadata)
        match mutate password numVariants with
        | Err e => ([], Err e)
        | Panic m => ([], Panic m)
        | Ok passwordVariants =>
            then_calls (variants_calls s bucketIDHex username passwordVariants metadata)
              (if includeUsernameVariant then entry_calls s bucketIDHex username [] MetadataBreachedUsername metadata else ([], Ok tt))
        end
  end.

(** server.go:51-87 with the mutator of line 63. *)
Definition insert_calls := insert_calls_with password_variants.
End Insert.
