(** Specification for C72: what it means that data "look the same" when the pad
    streams are random. *)
From Verif Require Import Base Common Oprf Server Client KV SpecProtocol SpecDemo Ideal.

(** A re-choice of the streams: the streams of secrets are permuted and fixed
    bytes are xored to them.  Such a map is a bijection and takes uniformly
    random streams to uniformly random streams.  So if for every [O] the data
    made with the streams [O] are the other data made with the streams [T O],
    then with random streams both have the same distribution. *)
Definition rechoice (T : streams -> streams) : Prop :=
  exists (to from : bytes -> bytes) (mask : bytes -> bytes -> nat -> byte),
    (forall x, from (to x) = x) /\ (forall x, to (from x) = x) /\
    forall O x salt i, T O x salt i = bxor (O (to x) salt i) (mask x salt i).
(** It leaves the streams of secret [x] alone. *)
Definition leaves (T : streams -> streams) (x : bytes) : Prop := forall O salt i, T O x salt i = O x salt i.

(** What is to be encrypted: key, flag, metadata. *)
Record item := mkItem { i_key : bytes; i_flag : MetadataType; i_body : bytes }.
Definition seal (O : streams) (i : item) : res bytes := Encrypt_o O (i_key i) (i_flag i) (i_body i).
(** [x] is not the key of anything in which the two lists differ. *)
Definition not_involved (x : bytes) (l l' : list item) : Prop :=
  forall a b, In (a, b) (combine l l') -> i_key a = x \/ i_key b = x -> a = b.

(** Credentials of server [s] as items. *)
Definition item_of {LIB} (s : Server LIB) (d : cred) (i : item) : Prop :=
  deriveBucketEntryKey s (d_user d) (d_pass d) = Ok (i_key i) /\ d_flag d = i_flag i /\ d_meta d = i_body i.
(** They go to the same bucket and have metadata of the same length. *)
Definition looks_like {LIB LIB'} (s : Server LIB) (s' : Server LIB') (d d' : cred) : Prop :=
  Server_BucketID s (d_user d) = Server_BucketID s' (d_user d') /\
  length (d_meta d) = length (d_meta d') /\
  MetadataType_Valid (d_flag d) = true /\ MetadataType_Valid (d_flag d') = true.

(** Two lines whose usernames are in the same bucket, stored with the same
    options and with metadata of the same length. *)
Definition lines_alike {LIB LIB'} (s : Server LIB) (s' : Server LIB') (o o' : op) : Prop :=
  Server_BucketID s (o_user o) = Server_BucketID s' (o_user o') /\ length (o_meta o) = length (o_meta o') /\ o_num o = o_num o' /\ o_incl o = o_incl o' /\ (0 <= o_num o <= 98)%Z.
