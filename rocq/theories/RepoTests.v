(** * The repository's own tests, run on the model.

    These are tests, not properties: they show that the model computes what the
    *_test.go files in /repo expect of the code.  Where a test uses scrypt, the
    model's run uses the configuration without slow hashing, and the OPRF is
    the small one of OprfGroup.v.  TestRdasMutate is in PropVariants.v. *)
From Verif Require Import Base Common Hasher Encryptor Oprf OprfGroup Server Client KV Mutator Json ConfigJson Scanner Demo Main
  SpecEntry SpecProtocol SpecDemo PropFinalize PropProtocol.

Definition bs (l : list N) : bytes := map nB l.

(** pkg/migp/common_test.go:11-26 *)
Example TestSerializeUsernamePassword :
  serializeUsernamePassword [] [] = Ok (bs [0; 0; 0; 0]%N)
  /\ serializeUsernamePassword (bs [1; 2; 3]%N) (bs [4; 5; 6; 7]%N) = Ok (bs [0; 3; 1; 2; 3; 0; 4; 4; 5; 6; 7]%N).
Proof. split; vm_compute; reflexivity. Qed.

(** pkg/migp/common_test.go:28-44 *)
Example TestBucketHashToID :
  map (bucketHashToID (bs [1; 2; 3; 4; 5; 6]%N)) [0; 15; 16; 32]%Z = map Ok [0; 0x81; 0x102; 0x1020304]%N.
Proof. vm_compute. reflexivity. Qed.

(** pkg/migp/common_test.go:46-60 *)
Example TestBucketIDToHex : map BucketIDToHex [0x01020304; 0xff; 0xffffffff]%N = map str ["01020304"; "000000ff"; "ffffffff"]%string.
Proof. vm_compute. reflexivity. Qed.

(** pkg/migp/encryptor_test.go:14-104, with the secret itself as the OPRF's
    output. *)
Definition encrypt_decrypt (secret : bytes) (flag : byte) (metadata : bytes) : bool :=
  match Encrypt hkdfSHA256BucketEncryptor secret flag metadata with
  | Ok ct =>
      match DecryptHeader 64 hkdfSHA256BucketEncryptor secret (firstn 25 ct) with
      | Ok (valid, flag', n) =>
          valid && Byte.eqb flag flag' && (n =? blen metadata)%Z &&
          match DecryptBody hkdfSHA256BucketEncryptor secret (firstn (Z.to_nat n) (skipn 25 ct)) with Ok b => bytes_eqb b metadata | _ => false end
      | _ => false
      end
  | _ => false
  end.
Example TestEncryptDecrypt :
  encrypt_decrypt (str "test") Byte.x00 (str "helloworld") && encrypt_decrypt (str "124jbZC") Byte.x02 []
  && encrypt_decrypt (str "1ujkbjkfdb09fjdzvzjkdfA!#") Byte.x64 (str "12") && encrypt_decrypt (str "abc345fds!#") Byte.x03 (str "abc") = true.
Proof. vm_compute. reflexivity. Qed.

(** pkg/migp/client_test.go:21-112 *)
Definition query_cases : list (cred * BreachStatus) :=
  [ (mkCred (str "test@mail.com") (str "password1234") Byte.x01 (str "my favorite breach"), InBreach);
    (mkCred (str "TESTt@mail.com") (str "password1234") Byte.x01 (str "my favorite breach"), InBreach);
    (mkCred (str "test@mail.com") (str "password3214") Byte.x01 (str "my favorite breach, flipped"), InBreach);
    (mkCred [] [] Byte.x02 (str "my favorite breach"), SimilarInBreach);
    (mkCred (str "!!#%test") (str "Password1231") Byte.x02 [], SimilarInBreach);
    (mkCred (str "test2") (str "!!&*F(DSbjklzd") Byte.x01 (str "$#!!%BVAF"), InBreach);
    (mkCred (str "username") (str "password5678") Byte.x03 (str "my favorite breach"), UsernameInBreach) ].
Definition query_kv : kvStore := match store_all ex_server newKVStore (map fst query_cases) with Ok kv => kv | _ => [] end.
Definition ask (u p : bytes) : res (BreachStatus * gslice) := @run_query toy_OPRF ex_client ex_server (kv_Get query_kv) u p 9%N.
Example TestQuery :
  map (fun c => ask (d_user (fst c)) (d_pass (fst c))) query_cases = map (fun c => Ok (snd c, Some (d_meta (fst c)))) query_cases
  /\ ask (str "username") (str "password") = Ok (NotInBreach, None).
Proof. split; vm_compute; reflexivity. Qed.

(** pkg/migp/server_test.go:17-58 *)
Example TestSerialization :
  match ServerConfig_MarshalJSON (Server_Config ex_server) with
  | Ok buf =>
      match ServerConfig_UnmarshalJSON toy_OPRF 64 buf with
      | Ok cfg =>
          match NewServer cfg with
          | Ok server2 =>
              let enc s := EncryptBucketEntry s (str "username1") (str "password1") Byte.x02 (str "test metadata") in
              (s_version ex_server =? s_version server2)%N &&
              match enc ex_server, enc server2 with Ok a, Ok b => bytes_eqb a b | _, _ => false end
          | _ => false
          end
      | _ => false
      end
  | _ => false
  end = true.
Proof. vm_compute. reflexivity. Qed.

(** pkg/migp/server_test.go:61-94 *)
Example TestServerResponseSerialization :
  match elt_size toy_OPRF DefaultOPRFSuite with
  | Ok n =>
      let r1 := {| rs_version := 123; rs_evaluatedElement := bs (map (fun i => N.of_nat i * 37 + 5)%N (seq 0 n)); rs_bucketContents := Some (bs [1; 2; 3; 4; 5; 6; 7; 8; 9]%N) |} in
      match MarshalBinary r1 with
      | Ok data =>
          Nat.eqb (length data) (4 + n + 9) &&
          match UnmarshalBinary toy_OPRF data with
          | Ok r2 => (rs_version r1 =? rs_version r2)%N && bytes_eqb (rs_evaluatedElement r1) (rs_evaluatedElement r2)
                     && bytes_eqb (sl (rs_bucketContents r1)) (sl (rs_bucketContents r2))
          | _ => false
          end
      | _ => false
      end
  | _ => false
  end = true.
Proof. vm_compute. reflexivity. Qed.

(** cmd/server/server_test.go:14-59, over HTTP *)
Definition over_http (store : kvStore) : res (BreachStatus * gslice) :=
  @Query toy_OPRF ex_cfg (to_server (mkDemoServer ex_server store) (str "localhost:8080")) (str "http://localhost:8080/evaluate")
    (str "username1") (str "password1") 9%N.
Example TestServer :
  over_http newKVStore = Ok (NotInBreach, None)
  /\ match demo_insert ex_server newKVStore (str "username1") (str "password1") (str "test metadata") 9 true with
     | (store, Ok _) => over_http store = Ok (InBreach, Some (str "test metadata"))
     | _ => False
     end.
Proof. split; vm_compute; reflexivity. Qed.
