(** * Known-answer tests of the executable library functions.  These are
    tests, not properties: they tie the Gallina SHA-256, HMAC, HKDF, scrypt
    and murmur3 to published vectors. *)
From Verif Require Import Base Sha256 Hkdf Murmur3 Scrypt.

Fixpoint hexv (s : string) : bytes :=
  match s with
  | String a (String b r) =>
      let d c := let n := Ascii.N_of_ascii c in
                 if (n <? 58)%N then (n - 48)%N else (n - 87)%N in
      nB (16 * d a + d b) :: hexv r
  | _ => []
  end.

Example sha256_empty : sha256 [] =
  hexv "e3b0c44298fc1c149afbf4c8996fb92427ae41e4649b934ca495991b7852b855".
Proof. vm_compute. reflexivity. Qed.
Example sha256_abc : sha256 (str "abc") =
  hexv "ba7816bf8f01cfea414140de5dae2223b00361a396177a9cb410ff61f20015ad".
Proof. vm_compute. reflexivity. Qed.
Example sha256_two_blocks : sha256 (str "abcdbcdecdefdefgefghfghighijhijkijkljklmklmnlmnomnopnopq") =
  hexv "248d6a61d20638b8e5c026930c3e6039a33ce45964ff2167f6ecedd419db06c1".
Proof. vm_compute. reflexivity. Qed.
(* RFC 4231 test case 2 *)
Example hmac_rfc4231_2 : hmac_sha256 (str "Jefe") (str "what do ya want for nothing?") =
  hexv "5bdcc146bf60754e6a042426089575c75a003f089d2739839dec58b964ec3843".
Proof. vm_compute. reflexivity. Qed.
(* RFC 5869 test cases 1 and 3 *)
Example hkdf_rfc5869_1 :
  hkdf_read (hexv "0b0b0b0b0b0b0b0b0b0b0b0b0b0b0b0b0b0b0b0b0b0b") (hexv "000102030405060708090a0b0c")
            (hexv "f0f1f2f3f4f5f6f7f8f9") 42 =
  Ok (hexv "3cb25f25faacd57a90434f64d0362f2a2d2d0a90cf1a5a4c5db02d56ecc4c5bf34007208d5b887185865").
Proof. vm_compute. reflexivity. Qed.
Example hkdf_rfc5869_3 :
  hkdf_read (hexv "0b0b0b0b0b0b0b0b0b0b0b0b0b0b0b0b0b0b0b0b0b0b") [] [] 42 =
  Ok (hexv "8da4e775a563c18f715f802a063c5a31b8a11f5c5ee1879ec3454e5f3c738d2d9d201395faa4b61a96c8").
Proof. vm_compute. reflexivity. Qed.
(* vectors of spaolacci/murmur3's own test *)
Example murmur_empty : murmur3_sum32 [] = 0%N.
Proof. vm_compute. reflexivity. Qed.
Example murmur_hello : murmur3_sum32 (str "hello") = 0x248bfa47%N.
Proof. vm_compute. reflexivity. Qed.
Example murmur_hello_world : murmur3_sum32 (str "hello, world") = 0x149bbb7f%N.
Proof. vm_compute. reflexivity. Qed.
Example murmur_date : murmur3_sum32 (str "19 Jan 2038 at 3:14:07 AM") = 0xe31e8a70%N.
Proof. vm_compute. reflexivity. Qed.
Example murmur_fox : murmur3_sum32 (str "The quick brown fox jumps over the lazy dog.") = 0xd5c48bfc%N.
Proof. vm_compute. reflexivity. Qed.
(* RFC 7914: P="", S="", N=16, r=1, p=1, dkLen=64 *)
Example scrypt_rfc7914_1 : scrypt_key 64 [] [] 16 1 1 64 =
  Ok (hexv "77d6576238657b203b19ca42c18a0497f16b4844e3074ae8dfdffa3fede21442fcd0069ded0948f8326a753a0fc81f17e8d3e0fb2e0d3628cf35e20c38d18906").
Proof. vm_compute. reflexivity. Qed.
