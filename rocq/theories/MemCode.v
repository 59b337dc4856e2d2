(** * The code that handles byte slices, statement by statement on the memory
    of [Mem.v]: pkg/mutator/rdasmutator.go, pkg/migp/common.go, hasher.go,
    slowhasher.go, encryptor.go, server.go, client.go, cmd/server/kv.go,
    server.go, main.go.

    The library functions (SHA-256, scrypt, HKDF, the OPRF, murmur3, hex,
    bytes.ReplaceAll, bytes.Buffer) read their arguments and return new arrays;
    their values are those of the functional model. *)
From Verif Require Import Base Sha256 Hkdf Murmur3 Common Hasher Encryptor Oprf Server Client Mutator Hex KV Mem.

(** rdasmutator.go:116-128 *)
Definition changeCap_m (oldBuf : mslice) (position : Z) : mem mslice :=
  newBuf <~ m_make (mlen oldBuf) ;;
  _ <~ m_copy newBuf oldBuf ;;
  let position := (if position <? 0 then mlen oldBuf + position else position)%Z in
  if (0 <=? position)%Z && (position <? mlen oldBuf)%Z then
    old <~ m_get oldBuf position ;;
    match switchCase old with
    | Ok b => _ <~ m_set newBuf position b ;; ret newBuf
    | _ => ret newBuf
    end
  else ret newBuf.

(** rdasmutator.go:131-144 *)
Definition deletePortion_m (oldBuf : mslice) (position : Z) : mem mslice :=
  if (0 <=? position)%Z && (position <=? mlen oldBuf)%Z then
    newBuf <~ m_make (mlen oldBuf - position) ;;
    src <~ m_from oldBuf position ;;
    _ <~ m_copy newBuf src ;; ret newBuf
  else if (position <? 0)%Z && (0 <=? mlen oldBuf + position)%Z then
    newBuf <~ m_make (mlen oldBuf + position) ;;
    src <~ m_upto oldBuf (mlen oldBuf + position) ;;
    _ <~ m_copy newBuf src ;; ret newBuf
  else
    newBuf <~ m_make (mlen oldBuf) ;;
    _ <~ m_copy newBuf oldBuf ;; ret newBuf.

(** rdasmutator.go:148-168 *)
Definition insert_m (oldBuf : mslice) (position : Z) (string1 : bytes) : mem mslice :=
  if (mlen oldBuf =? 0)%Z && ((position =? 0)%Z || (position =? -1)%Z) then
    newBuf <~ m_make (blen string1) ;;
    _ <~ m_copy_bytes newBuf string1 ;; ret newBuf
  else
    let position := (if position <? 0 then position + mlen oldBuf + 1 else position)%Z in
    if (0 <=? position)%Z && (position <=? mlen oldBuf)%Z then
      newBuf <~ m_make (mlen oldBuf + blen string1) ;;
      src <~ m_upto oldBuf position ;;
      _ <~ m_copy newBuf src ;;
      dst <~ m_from newBuf position ;;
      _ <~ m_copy_bytes dst string1 ;;
      dst <~ m_from newBuf (position + blen string1) ;;
      src <~ m_from oldBuf position ;;
      _ <~ m_copy dst src ;; ret newBuf
    else
      newBuf <~ m_make (mlen oldBuf) ;;
      _ <~ m_copy newBuf oldBuf ;; ret newBuf.

(** rdasmutator.go:172-174 *)
Definition substitute_m (buf : mslice) (_ : Z) (string1 string2 : bytes) : mem mslice :=
  b <~ m_view buf ;; m_new (replace_all b string1 string2).

(** rdasmutator.go:81,91-102 *)
Definition apply_rule_m (rule : RDasRule) (s : mslice) : mem mslice :=
  let position := Position rule in
  if bytes_eqb (RuleType rule) (str "c") then changeCap_m s position
  else if bytes_eqb (RuleType rule) (str "d") then deletePortion_m s position
  else if bytes_eqb (RuleType rule) (str "i") then insert_m s position (String1 rule)
  else if bytes_eqb (RuleType rule) (str "s") then substitute_m s position (String1 rule) (String2 rule)
  else panic "One of the dasRules unrecognized".

(** rdasmutator.go:79-110 *)
Fixpoint mutate_loop_m (rules : list RDasRule) (password : mslice) (num j : Z) (seen : list N) (mutations : list mslice) : mem (list mslice) :=
  match rules with
  | [] => ret mutations
  | rule :: rest =>
      if (j <? num)%Z then
        s <~ apply_rule_m rule password ;;
        b <~ m_view s ;;
        let key := murmur3_sum32 b in
        if seenb key seen
        then mutate_loop_m rest password num j seen mutations
        else mutate_loop_m rest password num (j + 1) (key :: seen) (mutations ++ [s])
      else ret mutations
  end.

(** rdasmutator.go:70-112 *)
Definition Mutate_m (dasRules : list RDasRule) (password : mslice) (num : Z) : mem (list mslice) :=
  match dasRules with
  | [] => panic "RDasMutator used without being initialized"
  | _ =>
      if (num <? 0)%Z || (2 ^ 48 <? num * 24)%Z then panic "makeslice: cap out of range"
      else b <~ m_view password ;; mutate_loop_m dasRules password num 0 [murmur3_sum32 b] []
  end.

(** common.go:156-166 *)
Definition serialize_m (username password : mslice) : mem mslice :=
  if (65536 <? mlen username)%Z || (65536 <? mlen password)%Z then panic "Length overflow"
  else
    buf <~ m_make (4 + mlen username + mlen password) ;;
    _ <~ m_put16 buf (u16 (Z.to_N (mlen username))) ;;
    d <~ m_from buf 2 ;; _ <~ m_copy d username ;;
    d <~ m_from buf (2 + mlen username) ;; _ <~ m_put16 d (u16 (Z.to_N (mlen password))) ;;
    d <~ m_from buf (4 + mlen username) ;; _ <~ m_copy d password ;;
    ret buf.

(** hasher.go:42-54 *)
Definition bucketHash_m (h : BucketHasher) (buf : mslice) : mem mslice :=
  match h with
  | sha256BucketHasher salt =>
      if (65536 <? blen salt)%Z || (65536 <? mlen buf)%Z then panic "Invalid input"
      else
        acc <~ m_make (2 + blen salt + 2 + mlen buf) ;;
        d <~ m_upto acc 2 ;; _ <~ m_put16 d (u16 (Z.to_N (blen salt))) ;;
        d <~ m_from acc 2 ;; _ <~ m_copy_bytes d salt ;;
        d <~ m_from acc (2 + blen salt) ;; _ <~ m_put16 d (u16 (Z.to_N (mlen buf))) ;;
        d <~ m_from acc (2 + blen salt + 2) ;; _ <~ m_copy d buf ;;
        b <~ m_view acc ;; m_new (sha256 b)
  end.

(** slowhasher.go:62-71,87-89: the null hasher returns its argument itself *)
Definition slowHash_m (h : SlowHasher) (buf : mslice) : mem mslice :=
  match h with
  | nullSlowHasher => ret buf
  | _ => b <~ m_view buf ;; r <~ lift (SlowHasher_Hash h b) ;; m_new r
  end.

(** encryptor.go:116-125: the loop over [i]. *)
Fixpoint xor_loop (n : nat) (i : Z) (b1 b2 b3 : mslice) : mem unit :=
  match n with
  | O => ret tt
  | S n' =>
      x <~ m_get b1 i ;; y <~ m_get b2 i ;; _ <~ m_set b3 i (bxor x y) ;;
      xor_loop n' (i + 1) b1 b2 b3
  end.
Definition xorBytes_m (b1 b2 : mslice) : mem mslice :=
  if negb (m_len b1 =? m_len b2)%nat then panic "bytes are of mismatched length"
  else b3 <~ m_make (mlen b1) ;; _ <~ xor_loop (m_len b1) 0 b1 b2 b3 ;; ret b3.

(** encryptor.go:129-140: the HKDF reader fills [pad] *)
Definition derivePad_m (secret : mslice) (salt : bytes) (length : Z) : mem mslice :=
  k <~ m_view secret ;;
  pad <~ m_make length ;;
  d <~ lift (derivePad k salt (m_len pad)) ;;
  _ <~ m_copy_bytes pad d ;; ret pad.

(** encryptor.go:50-74 *)
Definition Encrypt_m (secret : mslice) (flag : MetadataType) (body : mslice) : mem mslice :=
  headerPad <~ derivePad_m secret DerivePadHeaderSalt 21 ;;
  header <~ m_make 21 ;;
  _ <~ m_set header 20 flag ;;
  encryptedHeader <~ xorBytes_m header headerPad ;;
  bodyPad <~ derivePad_m secret DerivePadBodySalt (mlen body) ;;
  encryptedBody <~ xorBytes_m body bodyPad ;;
  ciphertext <~ m_make (mlen encryptedHeader + 4 + mlen encryptedBody) ;;
  _ <~ m_copy ciphertext encryptedHeader ;;
  d <~ m_from ciphertext (mlen encryptedHeader) ;; _ <~ m_put32 d (u32 (Z.to_N (mlen encryptedBody))) ;;
  d <~ m_from ciphertext (mlen encryptedHeader + 4) ;; _ <~ m_copy d encryptedBody ;;
  ret ciphertext.

(** encryptor.go:102-112 *)
Definition DecryptBody_m (secret ciphertext : mslice) : mem mslice :=
  bodyPad <~ derivePad_m secret DerivePadBodySalt (mlen ciphertext) ;;
  xorBytes_m ciphertext bodyPad.

(** [|] on bytes *)
Definition bor (a b : byte) : byte := nB (N.lor (bN a) (bN b)).
(** crypto/subtle, ConstantTimeCompare: the bytes that differ are collected in
    [v]; there is no exit before the end. *)
Fixpoint ct_loop_m (n : nat) (i : Z) (x y : mslice) (v : byte) : mem byte :=
  match n with
  | O => ret v
  | S n' => a <~ m_get x i ;; b <~ m_get y i ;; ct_loop_m n' (i + 1) x y (bor v (bxor a b))
  end.
Definition ct_compare_m (x y : mslice) : mem bool :=
  if negb (m_len x =? m_len y)%nat then ret false
  else v <~ ct_loop_m (m_len x) 0 x y Byte.x00 ;; ret (Byte.eqb v Byte.x00).

(** encryptor.go:78-97 *)
Definition DecryptHeader_m (iw : Z) (secret ciphertext : mslice) : mem (bool * MetadataType * Z) :=
  if (m_len ciphertext <? HeaderSize)%nat then fail "ciphertext of insufficient length to parse header"
  else
    headerPad <~ derivePad_m secret DerivePadHeaderSalt 21 ;;
    p <~ m_upto headerPad 20 ;; c <~ m_upto ciphertext 20 ;;
    keyCheck <~ ct_compare_m p c ;;
    x <~ m_get headerPad 20 ;; y <~ m_get ciphertext 20 ;;
    let flag := bxor x y in
    l <~ m_slice ciphertext 21 25 ;; lb <~ m_view l ;;
    n <~ lift (get_be32 lb) ;;
    ret (keyCheck, flag, int_wrap iw (Z.of_N n)).

(** server.go:165-169 *)
Record mresponse := mkMResponse { mr_version : N; mr_element : mslice; mr_bucket : option mslice }.

(** server.go:173-185: the bytes.Buffer; appending a nil slice appends nothing *)
Definition MarshalBinary_m (r : mresponse) : mem mslice :=
  e <~ m_view (mr_element r) ;;
  b <~ m_view (match mr_bucket r with Some b => b | None => m_nil end) ;;
  m_new (be32 (mr_version r) ++ e ++ b).

(** server.go:189-206.  [bytes.NewBuffer(data)] reads from [data] itself:
    [buffer.Bytes()] is what is left of it. *)
Definition UnmarshalBinary_m (LIB : OPRF) (data : mslice) : mem mresponse :=
  if (m_len data =? 0)%nat then fail "EOF"
  else if (m_len data <? 4)%nat then fail "unexpected EOF"
  else
    vb <~ m_upto data 4 ;; v <~ m_view vb ;;
    version <~ lift (get_be32 v) ;;
    buffer <~ m_from data 4 ;;
    n <~ lift (elt_size LIB DefaultOPRFSuite) ;;
    element <~ m_make (Z.of_nat n) ;;
    if (m_len buffer =? 0)%nat && negb (n =? 0)%nat then fail "EOF"
    else
      _ <~ m_copy element buffer ;;
      if (m_len buffer <? n)%nat then fail "too few bytes to deserialize EvaluatedElement"
      else
        rest <~ m_from buffer (Z.of_nat n) ;;
        ret (mkMResponse version element (Some rest)).

Section MemServer.
Variable LIB : OPRF.

(** server.go:138-141 *)
Definition deriveKey_m (s : Server LIB) (username password : mslice) : mem mslice :=
  ser <~ serialize_m username password ;;
  input <~ slowHash_m (s_slowHasher s) ser ;;
  x <~ m_view input ;;
  k <~ lift (full_evaluate LIB (s_oprfSuite s) (s_privateKey s) x OprfInfo) ;;
  m_new k.

(** server.go:152-162 *)
Definition EncryptEntry_m (s : Server LIB) (username password : mslice) (flag : MetadataType) (metadata : mslice) : mem mslice :=
  if negb (MetadataType_Valid flag) then fail (flag_error flag)
  else
    key <~ deriveKey_m s username password ;;
    Encrypt_m key flag metadata.

(** client.go:125-153 *)
Fixpoint finalize_loop_m (iw : Z) (fuel : nat) (secret contents : mslice) (offset : Z) : mem (option (BreachStatus * option mslice)) :=
  match fuel with
  | O => ret None
  | S fuel' =>
      if (mlen contents <? int_wrap iw (offset + Z.of_nat HeaderSize))%Z then ret (Some (NotInBreach, None))
      else
        t <~ m_from contents offset ;;
        x <~ DecryptHeader_m iw secret t ;;
        let '(valid, flag, bodyLength) := x in
        let offset := int_wrap iw (offset + Z.of_nat HeaderSize) in
        if (mlen contents <? int_wrap iw (offset + bodyLength))%Z then fail "parsing error in bucket"
        else if (valid : bool) then
          b <~ m_slice contents offset (int_wrap iw (offset + bodyLength)) ;;
          metadata <~ DecryptBody_m secret b ;;
          ret (Some (ToBreachStatus flag, Some metadata))
        else finalize_loop_m iw fuel' secret contents (int_wrap iw (offset + bodyLength))
  end.

(** client.go:109-124: the answer's version and the OPRF output *)
Definition finalize_secret_m (ctx : ClientRequestContext LIB) (response : mresponse) : mem mslice :=
  e <~ m_view (mr_element response) ;;
  k <~ lift (finalize_secret ctx {| rs_version := mr_version response; rs_evaluatedElement := e; rs_bucketContents := None |}) ;;
  m_new k.

(** client.go:109-154, on a 64-bit platform *)
Definition Finalize_m (ctx : ClientRequestContext LIB) (response : mresponse) : mem (BreachStatus * option mslice) :=
  secret <~ finalize_secret_m ctx response ;;
  let contents := match mr_bucket response with Some b => b | None => m_nil end in
  r <~ finalize_loop_m 64 (S (m_len contents)) secret contents 0 ;;
  match r with Some x => ret x | None => panic "out of fuel" end.

(** client.go:81-104; the bucket ID is a string, the blinded element a new
    array of the library, [input] is kept in the context *)
Definition Request_m (c : Client) (username password : mslice) (r : Blind LIB) : mem (ClientRequest * ClientRequestContext LIB) :=
  ser <~ serialize_m username password ;;
  input <~ slowHash_m (c_slowHasher c) ser ;;
  x <~ m_view input ;;
  blindedElements <~ lift (blind LIB (c_oprfSuite c) [x] [r]) ;;
  match blindedElements with
  | [] => fail "invalid BlindedElements response"
  | b :: _ =>
      bh <~ bucketHash_m (c_bucketHasher c) username ;;
      hash <~ m_view bh ;;
      id <~ lift (bucketHashToID hash (c_bits c)) ;;
      ret ({| rq_version := c_version c; rq_bucketID := BucketIDToHex id; rq_blindElement := Some b |},
           {| ctx_client := c; ctx_inputs := [x]; ctx_blinds := [r] |})
  end.

(** server.go:222-250; [kv] returns the slices of the store themselves *)
Definition HandleRequest_m (s : Server LIB) (version : N) (bucketID : bytes) (blindElement : mslice)
    (kv : bytes -> res (option mslice)) : mem mresponse :=
  if negb (u16 version =? s_version s)%N then fail "requested version doesn't match server version"
  else
    x <~ m_view blindElement ;;
    elements <~ lift (evaluate LIB (s_oprfSuite s) (s_privateKey s) [x] OprfInfo) ;;
    match elements with
    | [] => fail "invalid Evaluation response"
    | e :: _ =>
        element <~ m_new e ;;
        match hex_decode bucketID with
        | Panic m => panic m
        | Err _ => fail "bucket ID not valid hex"
        | Ok _ =>
            bucketContents <~ lift (kv bucketID) ;;
            ret (mkMResponse version element bucketContents)
        end
    end.

End MemServer.
Arguments deriveKey_m {LIB} _ _ _. Arguments EncryptEntry_m {LIB} _ _ _ _ _.
Arguments finalize_secret_m {LIB} _ _. Arguments Finalize_m {LIB} _ _. Arguments Request_m {LIB} _ _ _ _.
Arguments HandleRequest_m {LIB} _ _ _ _ _.
