(** * The library's byte-slice code as programs whose single steps can be
    interleaved: every read or write of one byte of memory and every
    allocation is a step.

    The code is that of [MemCode.v], line for line, with the operations of this
    file in place of those of [Mem.v]; [run_*] in ProgProofs.v says that the
    two agree when nothing else runs. *)
From Verif Require Import Base Sha256 Hkdf Murmur3 Common Hasher Encryptor Oprf Server Client Mutator Hex KV Mem MemCode.

(** What is left of a computation: its outcome, or the next access to memory
    and what follows.  A read outside of the array gives [None] (it does not
    happen for slices that Go can have made). *)
Inductive prog (A : Type) : Type :=
| PDone (r : res A)
| PNew (b : bytes) (k : nat -> prog A)
| PRead (a i : nat) (k : option byte -> prog A)
| PWrite (a i : nat) (b : byte) (k : prog A).
Arguments PDone {A} _. Arguments PNew {A} _ _. Arguments PRead {A} _ _ _. Arguments PWrite {A} _ _ _ _.

(** The computation alone. *)
Fixpoint run {A} (p : prog A) (h : heap) : res A * heap :=
  match p with
  | PDone r => (r, h)
  | PNew b k => run (k (length h)) (h ++ [b])
  | PRead a i k => run (k (nth_error (array h a) i)) h
  | PWrite a i b k => run k (write h a i [b])
  end.

Definition p_ret {A} (a : A) : prog A := PDone (Ok a).
Definition p_fail {A} (e : string) : prog A := PDone (Err e).
Definition p_panic {A} (m : string) : prog A := PDone (Panic m).
Definition p_lift {A} (r : res A) : prog A := PDone r.
Fixpoint pbind {A B} (x : prog A) (k : A -> prog B) : prog B :=
  match x with
  | PDone (Ok a) => k a
  | PDone (Err e) => PDone (Err e)
  | PDone (Panic m) => PDone (Panic m)
  | PNew b c => PNew b (fun a => pbind (c a) k)
  | PRead a i c => PRead a i (fun b => pbind (c b) k)
  | PWrite a i b c => PWrite a i b (pbind c k)
  end.
Notation "x <<- e ;; k" := (pbind e (fun x => k)) (at level 60, e at next level, right associativity).

(** A new array that holds [b]; make([]byte, n) *)
Definition p_new (b : bytes) : prog mslice := PNew b (fun a => PDone (Ok (mkM a 0 (length b) (length b)))).
Definition p_make (n : Z) : prog mslice :=
  if (n <? 0)%Z then p_panic "makeslice: len out of range" else p_new (zeros (Z.to_nat n)).
(** Reading [n] bytes from index [i] of array [a], one after the other. *)
Fixpoint p_load (a i n : nat) : prog bytes :=
  match n with
  | O => p_ret []
  | S n' => PRead a i (fun o => match o with
                                | None => p_ret []
                                | Some b => r <<- p_load a (S i) n' ;; p_ret (b :: r)
                                end)
  end.
Definition p_view (s : mslice) : prog bytes := p_load (m_arr s) (m_off s) (m_len s).
(** Writing [d] from index [i] of array [a], one byte after the other. *)
Fixpoint p_store (a i : nat) (d : bytes) : prog unit :=
  match d with
  | [] => p_ret tt
  | b :: r => PWrite a i b (p_store a (S i) r)
  end.
(** s[i] and s[i] = b *)
Definition p_get (s : mslice) (i : Z) : prog byte :=
  if (i <? 0)%Z || (mlen s <=? i)%Z then p_panic "index out of range"
  else PRead (m_arr s) (m_off s + Z.to_nat i) (fun o => p_ret (match o with Some b => b | None => Byte.x00 end)).
Definition p_set (s : mslice) (i : Z) (b : byte) : prog unit :=
  if (i <? 0)%Z || (mlen s <=? i)%Z then p_panic "index out of range"
  else PWrite (m_arr s) (m_off s + Z.to_nat i) b (p_ret tt).
(** s[lo:hi], s[lo:], s[:hi]: no access to memory *)
Definition p_slice (s : mslice) (lo hi : Z) : prog mslice :=
  if (lo <? 0)%Z || (hi <? lo)%Z || (Z.of_nat (m_cap s) <? hi)%Z then p_panic "slice bounds out of range"
  else p_ret (mkM (m_arr s) (m_off s + Z.to_nat lo) (Z.to_nat (hi - lo)) (m_cap s - Z.to_nat lo)).
Definition p_from (s : mslice) (lo : Z) : prog mslice := p_slice s lo (mlen s).
Definition p_upto (s : mslice) (hi : Z) : prog mslice := p_slice s 0 hi.
(** copy(dst, string) and copy(dst, src): as many bytes as both have *)
Definition p_copy_bytes (dst : mslice) (b : bytes) : prog unit := p_store (m_arr dst) (m_off dst) (firstn (m_len dst) b).
Definition p_copy (dst src : mslice) : prog unit :=
  b <<- p_load (m_arr src) (m_off src) (Nat.min (m_len dst) (m_len src)) ;; p_copy_bytes dst b.
(** binary.BigEndian.PutUint16 and PutUint32 *)
Definition p_put (s : mslice) (d : bytes) : prog unit :=
  if (m_len s <? length d)%nat then p_panic "index out of range" else p_copy_bytes s d.
Definition p_put16 (s : mslice) (n : N) : prog unit := p_put s (be16 n).
Definition p_put32 (s : mslice) (n : N) : prog unit := p_put s (be32 n).

(** rdasmutator.go:116-128 *)
Definition changeCap_p (oldBuf : mslice) (position : Z) : prog mslice :=
  newBuf <<- p_make (mlen oldBuf) ;;
  _ <<- p_copy newBuf oldBuf ;;
  let position := (if position <? 0 then mlen oldBuf + position else position)%Z in
  if (0 <=? position)%Z && (position <? mlen oldBuf)%Z then
    old <<- p_get oldBuf position ;;
    match switchCase old with
    | Ok b => _ <<- p_set newBuf position b ;; p_ret newBuf
    | _ => p_ret newBuf
    end
  else p_ret newBuf.

(** rdasmutator.go:131-144 *)
Definition deletePortion_p (oldBuf : mslice) (position : Z) : prog mslice :=
  if (0 <=? position)%Z && (position <=? mlen oldBuf)%Z then
    newBuf <<- p_make (mlen oldBuf - position) ;;
    src <<- p_from oldBuf position ;;
    _ <<- p_copy newBuf src ;; p_ret newBuf
  else if (position <? 0)%Z && (0 <=? mlen oldBuf + position)%Z then
    newBuf <<- p_make (mlen oldBuf + position) ;;
    src <<- p_upto oldBuf (mlen oldBuf + position) ;;
    _ <<- p_copy newBuf src ;; p_ret newBuf
  else
    newBuf <<- p_make (mlen oldBuf) ;;
    _ <<- p_copy newBuf oldBuf ;; p_ret newBuf.

(** rdasmutator.go:148-168 *)
Definition insert_p (oldBuf : mslice) (position : Z) (string1 : bytes) : prog mslice :=
  if (mlen oldBuf =? 0)%Z && ((position =? 0)%Z || (position =? -1)%Z) then
    newBuf <<- p_make (blen string1) ;;
    _ <<- p_copy_bytes newBuf string1 ;; p_ret newBuf
  else
    let position := (if position <? 0 then position + mlen oldBuf + 1 else position)%Z in
    if (0 <=? position)%Z && (position <=? mlen oldBuf)%Z then
      newBuf <<- p_make (mlen oldBuf + blen string1) ;;
      src <<- p_upto oldBuf position ;;
      _ <<- p_copy newBuf src ;;
      dst <<- p_from newBuf position ;;
      _ <<- p_copy_bytes dst string1 ;;
      dst <<- p_from newBuf (position + blen string1) ;;
      src <<- p_from oldBuf position ;;
      _ <<- p_copy dst src ;; p_ret newBuf
    else
      newBuf <<- p_make (mlen oldBuf) ;;
      _ <<- p_copy newBuf oldBuf ;; p_ret newBuf.

(** rdasmutator.go:172-174 *)
Definition substitute_p (buf : mslice) (_ : Z) (string1 string2 : bytes) : prog mslice :=
  b <<- p_view buf ;; p_new (replace_all b string1 string2).

(** rdasmutator.go:81,91-102 *)
Definition apply_rule_p (rule : RDasRule) (s : mslice) : prog mslice :=
  let position := Position rule in
  if bytes_eqb (RuleType rule) (str "c") then changeCap_p s position
  else if bytes_eqb (RuleType rule) (str "d") then deletePortion_p s position
  else if bytes_eqb (RuleType rule) (str "i") then insert_p s position (String1 rule)
  else if bytes_eqb (RuleType rule) (str "s") then substitute_p s position (String1 rule) (String2 rule)
  else p_panic "One of the dasRules unrecognized".

(** rdasmutator.go:79-110 *)
Fixpoint mutate_loop_p (rules : list RDasRule) (password : mslice) (num j : Z) (seen : list N) (mutations : list mslice) : prog (list mslice) :=
  match rules with
  | [] => p_ret mutations
  | rule :: rest =>
      if (j <? num)%Z then
        s <<- apply_rule_p rule password ;;
        b <<- p_view s ;;
        let key := murmur3_sum32 b in
        if seenb key seen
        then mutate_loop_p rest password num j seen mutations
        else mutate_loop_p rest password num (j + 1) (key :: seen) (mutations ++ [s])
      else p_ret mutations
  end.

(** rdasmutator.go:70-112 *)
Definition Mutate_p (dasRules : list RDasRule) (password : mslice) (num : Z) : prog (list mslice) :=
  match dasRules with
  | [] => p_panic "RDasMutator used without being initialized"
  | _ =>
      if (num <? 0)%Z || (2 ^ 48 <? num * 24)%Z then p_panic "makeslice: cap out of range"
      else b <<- p_view password ;; mutate_loop_p dasRules password num 0 [murmur3_sum32 b] []
  end.

(** common.go:156-166 *)
Definition serialize_p (username password : mslice) : prog mslice :=
  if (65536 <? mlen username)%Z || (65536 <? mlen password)%Z then p_panic "Length overflow"
  else
    buf <<- p_make (4 + mlen username + mlen password) ;;
    _ <<- p_put16 buf (u16 (Z.to_N (mlen username))) ;;
    d <<- p_from buf 2 ;; _ <<- p_copy d username ;;
    d <<- p_from buf (2 + mlen username) ;; _ <<- p_put16 d (u16 (Z.to_N (mlen password))) ;;
    d <<- p_from buf (4 + mlen username) ;; _ <<- p_copy d password ;;
    p_ret buf.

(** hasher.go:42-54 *)
Definition bucketHash_p (h : BucketHasher) (buf : mslice) : prog mslice :=
  match h with
  | sha256BucketHasher salt =>
      if (65536 <? blen salt)%Z || (65536 <? mlen buf)%Z then p_panic "Invalid input"
      else
        acc <<- p_make (2 + blen salt + 2 + mlen buf) ;;
        d <<- p_upto acc 2 ;; _ <<- p_put16 d (u16 (Z.to_N (blen salt))) ;;
        d <<- p_from acc 2 ;; _ <<- p_copy_bytes d salt ;;
        d <<- p_from acc (2 + blen salt) ;; _ <<- p_put16 d (u16 (Z.to_N (mlen buf))) ;;
        d <<- p_from acc (2 + blen salt + 2) ;; _ <<- p_copy d buf ;;
        b <<- p_view acc ;; p_new (sha256 b)
  end.

(** slowhasher.go:62-71,87-89: the null hasher returns its argument itself *)
Definition slowHash_p (h : SlowHasher) (buf : mslice) : prog mslice :=
  match h with
  | nullSlowHasher => p_ret buf
  | _ => b <<- p_view buf ;; r <<- p_lift (SlowHasher_Hash h b) ;; p_new r
  end.

(** encryptor.go:116-125: the loop over [i]. *)
Fixpoint xor_loop_p (n : nat) (i : Z) (b1 b2 b3 : mslice) : prog unit :=
  match n with
  | O => p_ret tt
  | S n' =>
      x <<- p_get b1 i ;; y <<- p_get b2 i ;; _ <<- p_set b3 i (bxor x y) ;;
      xor_loop_p n' (i + 1) b1 b2 b3
  end.
Definition xorBytes_p (b1 b2 : mslice) : prog mslice :=
  if negb (m_len b1 =? m_len b2)%nat then p_panic "bytes are of mismatched length"
  else b3 <<- p_make (mlen b1) ;; _ <<- xor_loop_p (m_len b1) 0 b1 b2 b3 ;; p_ret b3.

(** encryptor.go:129-140: the HKDF reader fills [pad] *)
Definition derivePad_p (secret : mslice) (salt : bytes) (length : Z) : prog mslice :=
  k <<- p_view secret ;;
  pad <<- p_make length ;;
  d <<- p_lift (derivePad k salt (m_len pad)) ;;
  _ <<- p_copy_bytes pad d ;; p_ret pad.

(** encryptor.go:50-74 *)
Definition Encrypt_p (secret : mslice) (flag : MetadataType) (body : mslice) : prog mslice :=
  headerPad <<- derivePad_p secret DerivePadHeaderSalt 21 ;;
  header <<- p_make 21 ;;
  _ <<- p_set header 20 flag ;;
  encryptedHeader <<- xorBytes_p header headerPad ;;
  bodyPad <<- derivePad_p secret DerivePadBodySalt (mlen body) ;;
  encryptedBody <<- xorBytes_p body bodyPad ;;
  ciphertext <<- p_make (mlen encryptedHeader + 4 + mlen encryptedBody) ;;
  _ <<- p_copy ciphertext encryptedHeader ;;
  d <<- p_from ciphertext (mlen encryptedHeader) ;; _ <<- p_put32 d (u32 (Z.to_N (mlen encryptedBody))) ;;
  d <<- p_from ciphertext (mlen encryptedHeader + 4) ;; _ <<- p_copy d encryptedBody ;;
  p_ret ciphertext.

(** encryptor.go:102-112 *)
Definition DecryptBody_p (secret ciphertext : mslice) : prog mslice :=
  bodyPad <<- derivePad_p secret DerivePadBodySalt (mlen ciphertext) ;;
  xorBytes_p ciphertext bodyPad.

(** crypto/subtle, ConstantTimeCompare *)
Fixpoint ct_loop_p (n : nat) (i : Z) (x y : mslice) (v : byte) : prog byte :=
  match n with
  | O => p_ret v
  | S n' => a <<- p_get x i ;; b <<- p_get y i ;; ct_loop_p n' (i + 1) x y (bor v (bxor a b))
  end.
Definition ct_compare_p (x y : mslice) : prog bool :=
  if negb (m_len x =? m_len y)%nat then p_ret false
  else v <<- ct_loop_p (m_len x) 0 x y Byte.x00 ;; p_ret (Byte.eqb v Byte.x00).

(** encryptor.go:78-97 *)
Definition DecryptHeader_p (iw : Z) (secret ciphertext : mslice) : prog (bool * MetadataType * Z) :=
  if (m_len ciphertext <? HeaderSize)%nat then p_fail "ciphertext of insufficient length to parse header"
  else
    headerPad <<- derivePad_p secret DerivePadHeaderSalt 21 ;;
    p <<- p_upto headerPad 20 ;; c <<- p_upto ciphertext 20 ;;
    keyCheck <<- ct_compare_p p c ;;
    x <<- p_get headerPad 20 ;; y <<- p_get ciphertext 20 ;;
    let flag := bxor x y in
    l <<- p_slice ciphertext 21 25 ;; lb <<- p_view l ;;
    n <<- p_lift (get_be32 lb) ;;
    p_ret (keyCheck, flag, int_wrap iw (Z.of_N n)).

(** server.go:173-185: the bytes.Buffer; appending a nil slice appends nothing *)
Definition MarshalBinary_p (r : mresponse) : prog mslice :=
  e <<- p_view (mr_element r) ;;
  b <<- p_view (match mr_bucket r with Some b => b | None => m_nil end) ;;
  p_new (be32 (mr_version r) ++ e ++ b).

(** server.go:189-206.  [bytes.NewBuffer(data)] reads from [data] itself:
    [buffer.Bytes()] is what is left of it. *)
Definition UnmarshalBinary_p (LIB : OPRF) (data : mslice) : prog mresponse :=
  if (m_len data =? 0)%nat then p_fail "EOF"
  else if (m_len data <? 4)%nat then p_fail "unexpected EOF"
  else
    vb <<- p_upto data 4 ;; v <<- p_view vb ;;
    version <<- p_lift (get_be32 v) ;;
    buffer <<- p_from data 4 ;;
    n <<- p_lift (elt_size LIB DefaultOPRFSuite) ;;
    element <<- p_make (Z.of_nat n) ;;
    if (m_len buffer =? 0)%nat && negb (n =? 0)%nat then p_fail "EOF"
    else
      _ <<- p_copy element buffer ;;
      if (m_len buffer <? n)%nat then p_fail "too few bytes to deserialize EvaluatedElement"
      else
        rest <<- p_from buffer (Z.of_nat n) ;;
        p_ret (mkMResponse version element (Some rest)).

Section ProgServer.
Variable LIB : OPRF.

(** server.go:138-141 *)
Definition deriveKey_p (s : Server LIB) (username password : mslice) : prog mslice :=
  ser <<- serialize_p username password ;;
  input <<- slowHash_p (s_slowHasher s) ser ;;
  x <<- p_view input ;;
  k <<- p_lift (full_evaluate LIB (s_oprfSuite s) (s_privateKey s) x OprfInfo) ;;
  p_new k.

(** server.go:152-162 *)
Definition EncryptEntry_p (s : Server LIB) (username password : mslice) (flag : MetadataType) (metadata : mslice) : prog mslice :=
  if negb (MetadataType_Valid flag) then p_fail (flag_error flag)
  else
    key <<- deriveKey_p s username password ;;
    Encrypt_p key flag metadata.

(** client.go:125-153 *)
Fixpoint finalize_loop_p (iw : Z) (fuel : nat) (secret contents : mslice) (offset : Z) : prog (option (BreachStatus * option mslice)) :=
  match fuel with
  | O => p_ret None
  | S fuel' =>
      if (mlen contents <? int_wrap iw (offset + Z.of_nat HeaderSize))%Z then p_ret (Some (NotInBreach, None))
      else
        t <<- p_from contents offset ;;
        x <<- DecryptHeader_p iw secret t ;;
        let '(valid, flag, bodyLength) := x in
        let offset := int_wrap iw (offset + Z.of_nat HeaderSize) in
        if (mlen contents <? int_wrap iw (offset + bodyLength))%Z then p_fail "parsing error in bucket"
        else if (valid : bool) then
          b <<- p_slice contents offset (int_wrap iw (offset + bodyLength)) ;;
          metadata <<- DecryptBody_p secret b ;;
          p_ret (Some (ToBreachStatus flag, Some metadata))
        else finalize_loop_p iw fuel' secret contents (int_wrap iw (offset + bodyLength))
  end.

(** client.go:109-124: the answer's version and the OPRF output *)
Definition finalize_secret_p (ctx : ClientRequestContext LIB) (response : mresponse) : prog mslice :=
  e <<- p_view (mr_element response) ;;
  k <<- p_lift (finalize_secret ctx {| rs_version := mr_version response; rs_evaluatedElement := e; rs_bucketContents := None |}) ;;
  p_new k.

(** client.go:109-154, on a 64-bit platform *)
Definition Finalize_p (ctx : ClientRequestContext LIB) (response : mresponse) : prog (BreachStatus * option mslice) :=
  secret <<- finalize_secret_p ctx response ;;
  let contents := match mr_bucket response with Some b => b | None => m_nil end in
  r <<- finalize_loop_p 64 (S (m_len contents)) secret contents 0 ;;
  match r with Some x => p_ret x | None => p_panic "out of fuel" end.

(** client.go:81-104; the bucket ID is a string, the blinded element a new
    array of the library, [input] is kept in the context *)
Definition Request_p (c : Client) (username password : mslice) (r : Blind LIB) : prog (ClientRequest * ClientRequestContext LIB) :=
  ser <<- serialize_p username password ;;
  input <<- slowHash_p (c_slowHasher c) ser ;;
  x <<- p_view input ;;
  blindedElements <<- p_lift (blind LIB (c_oprfSuite c) [x] [r]) ;;
  match blindedElements with
  | [] => p_fail "invalid BlindedElements response"
  | b :: _ =>
      bh <<- bucketHash_p (c_bucketHasher c) username ;;
      hash <<- p_view bh ;;
      id <<- p_lift (bucketHashToID hash (c_bits c)) ;;
      p_ret ({| rq_version := c_version c; rq_bucketID := BucketIDToHex id; rq_blindElement := Some b |},
           {| ctx_client := c; ctx_inputs := [x]; ctx_blinds := [r] |})
  end.

(** server.go:222-250; [kv] returns the slices of the store themselves *)
Definition HandleRequest_p (s : Server LIB) (version : N) (bucketID : bytes) (blindElement : mslice)
    (kv : bytes -> res (option mslice)) : prog mresponse :=
  if negb (u16 version =? s_version s)%N then p_fail "requested version doesn't match server version"
  else
    x <<- p_view blindElement ;;
    elements <<- p_lift (evaluate LIB (s_oprfSuite s) (s_privateKey s) [x] OprfInfo) ;;
    match elements with
    | [] => p_fail "invalid Evaluation response"
    | e :: _ =>
        element <<- p_new e ;;
        match hex_decode bucketID with
        | Panic m => p_panic m
        | Err _ => p_fail "bucket ID not valid hex"
        | Ok _ =>
            bucketContents <<- p_lift (kv bucketID) ;;
            p_ret (mkMResponse version element bucketContents)
        end
    end.

End ProgServer.
Arguments deriveKey_p {LIB} _ _ _. Arguments EncryptEntry_p {LIB} _ _ _ _ _.
Arguments finalize_secret_p {LIB} _ _. Arguments Finalize_p {LIB} _ _. Arguments Request_p {LIB} _ _ _ _.
Arguments HandleRequest_p {LIB} _ _ _ _ _.
