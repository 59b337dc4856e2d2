(** * Model of pkg/migp/client.go (Query, which goes over HTTP, is in [Http.v]). *)
From Verif Require Import Base Hex Common Hasher Encryptor Oprf Server.

(** client.go:18-26.  oprfClient is determined by oprfSuite. *)
Record Client := mkClient {
  c_version : N;
  c_bits : Z;
  c_bucketHasher : BucketHasher;
  c_bucketEncryptor : BucketEncryptor;
  c_slowHasher : SlowHasher;
  c_oprfSuite : N }.

Section Client.
Variable LIB : OPRF.

(** client.go:39-42: the client and the OPRF request (inputs and blinds). *)
Record ClientRequestContext := mkContext {
  ctx_client : Client;
  ctx_inputs : list bytes;
  ctx_blinds : list (Blind LIB) }.

(** client.go:44-72 *)
Definition NewClient (cfg : Config) : res Client :=
  bh <- NewBucketHasher (cfg_bucketHasher cfg) ;;
  sh <- NewSlowHasher (cfg_slowHasher cfg) ;;
  be <- NewBucketEncryptor (cfg_bucketEncryptor cfg) ;;
  _ <- client_suite LIB (cfg_oprfSuite cfg) ;;
  Ok {| c_version := cfg_version cfg;
        c_bits := cfg_bits cfg;
        c_bucketHasher := bh;
        c_bucketEncryptor := be;
        c_slowHasher := sh;
        c_oprfSuite := cfg_oprfSuite cfg |}.

(** client.go:75-77 *)
Definition Client_BucketID (c : Client) (username : bytes) : res N :=
  h <- BucketHasher_Hash (c_bucketHasher c) username ;;
  bucketHashToID h (c_bits c).

(** client.go:81-104; [r] is the scalar the OPRF library draws at random. *)
Definition Request (c : Client) (username password : bytes) (r : Blind LIB)
  : res (ClientRequest * ClientRequestContext) :=
  ser <- serializeUsernamePassword username password ;;
  input <- SlowHasher_Hash (c_slowHasher c) ser ;;
  blindedElements <- blind LIB (c_oprfSuite c) [input] [r] ;;
  match blindedElements with
  | [] => Err "invalid BlindedElements response"
  | b :: _ =>
      id <- Client_BucketID c username ;;
      Ok ({| rq_version := c_version c;
             rq_bucketID := BucketIDToHex id;
             rq_blindElement := Some b |},
          {| ctx_client := c; ctx_inputs := [input]; ctx_blinds := [r] |})
  end.

(** client.go:125-153, the loop over the bucket.  [iw] is the width of Go's
    int; [None] means that [fuel] iterations were not enough. *)
Fixpoint finalize_loop (iw : Z) (fuel : nat) (e : BucketEncryptor) (secret contents : bytes)
    (offset : Z) : option (res (BreachStatus * gslice)) :=
  match fuel with
  | O => None
  | S fuel' =>
      if (blen contents <? int_wrap iw (offset + Z.of_nat HeaderSize))%Z
      then Some (Ok (NotInBreach, None))
      else
        match (tl <- slice_from contents offset ;; DecryptHeader iw e secret tl) with
        | Err m => Some (Err m)
        | Panic m => Some (Panic m)
        | Ok (valid, flag, bodyLength) =>
            let offset := int_wrap iw (offset + Z.of_nat HeaderSize) in
            if (blen contents <? int_wrap iw (offset + bodyLength))%Z
            then Some (Err "parsing error in bucket")
            else if valid
            then Some (body <- slice contents offset (int_wrap iw (offset + bodyLength)) ;;
                       metadata <- DecryptBody e secret body ;;
                       Ok (ToBreachStatus flag, Some metadata))
            else finalize_loop iw fuel' e secret contents (int_wrap iw (offset + bodyLength))
        end
  end.

(** client.go:109-124, the part before the loop: the OPRF output. *)
Definition finalize_secret (ctx : ClientRequestContext) (response : ServerResponse) : res bytes :=
  if negb (u16 (rs_version response) =? c_version (ctx_client ctx))%N
  then Err "wrong version in reply"
  else
    oprfOutput <- unblind LIB (c_oprfSuite (ctx_client ctx)) (ctx_inputs ctx) (ctx_blinds ctx)
                          [rs_evaluatedElement response] OprfInfo ;;
    match oprfOutput with
    | [] => Err "invalid Finalize response"
    | secret :: _ => Ok secret
    end.

(** client.go:109-154 with a bound on the number of iterations. *)
Definition Finalize_fuel (iw : Z) (fuel : nat) (ctx : ClientRequestContext) (response : ServerResponse)
  : option (res (BreachStatus * gslice)) :=
  match finalize_secret ctx response with
  | Err m => Some (Err m)
  | Panic m => Some (Panic m)
  | Ok secret =>
      finalize_loop iw fuel (c_bucketEncryptor (ctx_client ctx)) secret (sl (rs_bucketContents response)) 0
  end.

(** client.go:109-154 on a 64-bit platform.  One iteration per 25 bytes of
    bucket is enough ([Finalize_terminates]), so the [None] branch is
    unreachable; it is a panic here so that it cannot pass for a result. *)
Definition Finalize (ctx : ClientRequestContext) (response : ServerResponse)
  : res (BreachStatus * gslice) :=
  match Finalize_fuel 64 (S (length (sl (rs_bucketContents response)))) ctx response with
  | Some r => r
  | None => Panic "out of fuel"
  end.

End Client.
Arguments mkContext {LIB}. Arguments ctx_client {LIB} _. Arguments ctx_inputs {LIB} _. Arguments ctx_blinds {LIB} _.
Arguments Request {LIB} _ _ _ _. Arguments finalize_secret {LIB} _ _.
Arguments Finalize_fuel {LIB} _ _ _ _. Arguments Finalize {LIB} _ _.
