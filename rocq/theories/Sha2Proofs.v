(** Lengths of hash values and MACs; Sha2.v against the test vectors of FIPS 180-4, RFC 4231 and /repo. *)
From Verif Require Import Base Base64 Crypto Digest Sha2 SpecSfv SpecMsg SpecDigest.

Lemma be_bytes_length n x : List.length (be_bytes n x) = n.
Proof. revert x. induction n as [|n IH]; intro x; cbn [be_bytes]; [reflexivity|]. rewrite app_length, IH. cbn. lia. Qed.
Lemma be_bytes_octet n x : Forall octet (be_bytes n x).
Proof.
  revert x. induction n as [|n IH]; intro x; cbn [be_bytes]; [constructor|]. apply Forall_app. split; [apply IH|]. constructor; [|constructor].
  apply N.mod_lt. discriminate.
Qed.
Lemma sha_with_length p i b : List.length (sha_with p i b) = (8 * N.to_nat (s_w p / 8))%nat.
Proof. unfold sha_with. cbv zeta. cbn [flat_map]. rewrite !app_length, !be_bytes_length. cbn [List.length]. lia. Qed.
Lemma sha_with_octet p i b : Forall octet (sha_with p i b).
Proof. unfold sha_with. cbv zeta. cbn [flat_map]. repeat (apply Forall_app; split; [apply be_bytes_octet|]). constructor. Qed.

Lemma sha256_length b : List.length (sha256 b) = 32%nat.
Proof. unfold sha256. rewrite sha_with_length. reflexivity. Qed.
Lemma sha512_length b : List.length (sha512 b) = 64%nat.
Proof. unfold sha512. rewrite sha_with_length. reflexivity. Qed.
Lemma sha256_octet b : Forall octet (sha256 b).
Proof. apply sha_with_octet. Qed.
Lemma sha512_octet b : Forall octet (sha512 b).
Proof. apply sha_with_octet. Qed.
Lemma hmac256_length k d : List.length (hmac256 k d) = 32%nat.
Proof. apply sha256_length. Qed.
Lemma hmac256_octet k d : Forall octet (hmac256 k d).
Proof. apply sha256_octet. Qed.

Definition sha2 : hashes := mkHashes sha256 sha512.
Lemma sha2_octet : octet_hashes sha2.
Proof. intro x. split; [apply sha256_octet|apply sha512_octet]. Qed.

Lemma b64_group a b c r : b64_encode (a :: b :: c :: r) =
  b64_char (a / 4) :: b64_char ((a mod 4) * 16 + b / 16) :: b64_char ((b mod 16) * 4 + c / 64) :: b64_char (c mod 64) :: b64_encode r.
Proof. reflexivity. Qed.
Lemma b64_length b : List.length (b64_encode b) = (4 * ((List.length b + 2) / 3))%nat.
Proof.
  assert (H : forall n b, (List.length b <= n)%nat -> List.length (b64_encode b) = (4 * ((List.length b + 2) / 3))%nat).
  { clear. induction n as [n IH] using (well_founded_induction lt_wf). intros b Hb.
    destruct b as [|x [|y [|z r]]]; try reflexivity. rewrite b64_group. cbn [List.length] in *.
    rewrite (IH (List.length r)) by lia. replace (S (S (S (List.length r))) + 2)%nat with (List.length r + 2 + 1 * 3)%nat by lia.
    rewrite Nat.div_add by lia. lia. }
  apply (H (List.length b)). lia.
Qed.

(** FIPS 180-4 examples and RFC 4231 *)
Definition hex (s : str) : bytes :=
  (fix go (s : str) : bytes :=
     match s with
     | a :: b :: r =>
         let v c := if c <? 58 then c - 48 else c - 87 in 16 * v a + v b :: go r
     | _ => []
     end) s.
Example sha256_abc : sha256 (lit "abc") = hex (lit "ba7816bf8f01cfea414140de5dae2223b00361a396177a9cb410ff61f20015ad").
Proof. vm_compute. reflexivity. Qed.
Example sha256_two_blocks : sha256 (lit "abcdbcdecdefdefgefghfghighijhijkijkljklmklmnlmnomnopnopq") = hex (lit "248d6a61d20638b8e5c026930c3e6039a33ce45964ff2167f6ecedd419db06c1").
Proof. vm_compute. reflexivity. Qed.
Example sha256_empty : sha256 [] = hex (lit "e3b0c44298fc1c149afbf4c8996fb92427ae41e4649b934ca495991b7852b855").
Proof. vm_compute. reflexivity. Qed.
Example sha512_abc : sha512 (lit "abc") =
  hex (lit "ddaf35a193617abacc417349ae20413112e6fa4e89a97ea20a9eeee64b55d39a2192992a274fc1a836ba3c23a3feebbd454d4423643ce80e2a9ac94fa54ca49f").
Proof. vm_compute. reflexivity. Qed.
(** RFC 4231, test cases 1, 2 and 6 (a key longer than a block) *)
Example hmac_1 : hmac256 (repeat 11 20) (lit "Hi There") = hex (lit "b0344c61d8db38535ca8afceaf0bf12b881dc200c9833da726e9376c2e32cff7").
Proof. vm_compute. reflexivity. Qed.
Example hmac_2 : hmac256 (lit "Jefe") (lit "what do ya want for nothing?") = hex (lit "5bdcc146bf60754e6a042426089575c75a003f089d2739839dec58b964ec3843").
Proof. vm_compute. reflexivity. Qed.
Example hmac_6 : hmac256 (repeat 170 131) (lit "Test Using Larger Than Block-Size Key - Hash Key First") =
  hex (lit "60e431591ee0b67f0d8a26aacbf5b77f8e0bc6213728c5140546040f0ee37f54").
Proof. vm_compute. reflexivity. Qed.
