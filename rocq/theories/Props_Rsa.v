(** C114 which RSA public key files are read, and their key ids; C115 RSA private key files and the two halves of a key pair. *)
From Verif Require Import Base Base64 Component Crypto Toy Sha2 Sha2Proofs SpecSfv SpecCrypto SpecSha SpecDigest SpecErrors CryptoProofs ErrorProofs CollisionProofs Der SpecDer DerProofs Rsa SpecRsa RsaProofs
  Props_Crypto Props_Errors Props_Sha Props_Collision Props_Der.
From Coq Require Import Lia.

(** modulus and exponent of an RSA public key; the numbers of an RSA private key *)
Definition public_numbers {R P} (k : public_key (with_der (with_rsa R P))) (ne : N * N) : Prop :=
  match k with PkRsa15 x => x = ne | PkPss x => x = ne | _ => False end.
Definition private_numbers {R P} (k : secret_key (with_der (with_rsa R P))) (l : list N) : Prop :=
  match k with SkRsa15 x => x = l | SkPss x => x = l | _ => False end.

Lemma spki_key_octets doc ai key : Forall octet doc -> spki_file doc ai key -> Forall octet key /\ small key.
Proof.
  intros Ho [-> Hs]. apply octets_elem in Ho. apply octets_app in Ho as [_ Ho]. apply octets_elem in Ho. inversion Ho; subst. split; [assumption|].
  apply small_elem in Hs. apply small_app in Hs as [_ Hs]. apply small_elem in Hs. unfold small in *. cbn [length] in Hs. lia.
Qed.
Lemma pki_key_octets b ai key : Forall octet b -> pki_file b ai key -> Forall octet key.
Proof.
  intros Ho (v & t & _ & -> & _). apply octets_elem in Ho. do 2 apply octets_app in Ho as [_ Ho]. apply octets_app in Ho as [Ho _]. exact (octets_elem _ _ Ho).
Qed.

(** ** C114 *)
Theorem C114_read : forall P R rsa a pem k, rsa_algorithm a -> (forall l d, d_pem P pem = Some (l, d) -> Forall octet d) ->
  (public_from_pem (with_der (with_rsa R P)) rsa a pem = Ok k <->
   rsa = true /\ exists doc ai key n e, d_pem P pem = Some (lit "PUBLIC KEY", doc) /\ algorithm a ai /\ spki_file doc ai key /\ rsa_public_octets key n e
     /\ R_public R (n, e) = true /\ public_kind k = a /\ public_numbers k (n, e)).
Proof.
  intros P R rsa a pem k Ha Hd. rewrite (C113_read (with_rsa R P) rsa a pem k Hd). cbn [d_pem with_rsa].
  assert (Hen : enabled rsa a <-> rsa = true) by (destruct Ha as [-> | ->]; reflexivity).
  assert (Hk : forall key, Forall octet key -> public_kind k = a -> (public_octets (with_der (with_rsa R P)) k key <-> exists n e, rsa_public_octets key n e /\ R_public R (n, e) = true /\ public_numbers k (n, e))).
  { intros key Ho Hk. assert (Hx : forall x, only_if (R_public R) (pkcs1_public key) = Some x <-> exists n e, rsa_public_octets key n e /\ R_public R (n, e) = true /\ x = (n, e)).
    { intro x. split.
      - destruct (pkcs1_public key) as [[n e]|] eqn:E; [|discriminate]. cbn [only_if]. destruct (R_public R (n, e)) eqn:ER; [|discriminate]. intro H. injection H as <-. exists n, e. split; [apply pkcs1_public_iff; assumption|]. auto.
      - intros (n & e & H & ER & ->). apply (pkcs1_public_iff _ _ _ Ho) in H. rewrite H. cbn [only_if]. rewrite ER. reflexivity. }
    destruct k; cbn [public_kind] in Hk; destruct Ha as [-> | ->]; try discriminate Hk; cbn [public_octets public_numbers]; apply Hx. }
  split.
  - intros (doc & ai & key & H1 & H2 & H3 & H4 & H5 & H6). split; [apply Hen; exact H4|]. apply Hk in H6 as (n & e & H6 & H7 & H8); [|exact (proj1 (spki_key_octets _ _ _ (Hd _ _ H1) H3))|exact H5]. exists doc, ai, key, n, e. auto 10.
  - intros (H4 & doc & ai & key & n & e & H1 & H2 & H3 & H6 & H7 & H5 & H8). apply Hen in H4. exists doc, ai, key. repeat (split; [assumption|]). apply Hk; [exact (proj1 (spki_key_octets _ _ _ (Hd _ _ H1) H3))|exact H5|eauto].
Qed.
Print Assumptions C114_read.
(** a key has one form, and a form has one key *)
Theorem C114_unique : forall b b' n e n' e', rsa_public_octets b n e -> rsa_public_octets b' n' e' -> (b = b' <-> n = n' /\ e = e').
Proof.
  intros b b' n e n' e' H H'. split.
  - intros <-. pose proof H as (cn & ce & Hn & He & E & Hs). destruct H' as (cn' & ce' & Hn' & He' & E' & _).
    assert (Ho : Forall octet b). { pose proof (small_elem tSequence (elem tInteger cn ++ elem tInteger ce)) as S1. rewrite E in Hs |- *. specialize (S1 Hs). apply octets_elem_small; [reflexivity| |exact S1].
      destruct (small_app _ _ S1) as [S2 S3]. apply Forall_app. split; (apply octets_elem_small; [reflexivity|first [apply Hn|apply He]|first [exact (small_elem _ _ S2)|exact (small_elem _ _ S3)]]). }
    apply (pkcs1_public_iff _ _ _ Ho) in H. assert (H2 : pkcs1_public b = Some (n', e')) by (apply pkcs1_public_iff; [exact Ho|]; exists cn', ce'; auto). rewrite H in H2. injection H2 as -> ->. auto.
  - intros [<- <-]. destruct H as (cn & ce & Hn & He & -> & _), H' as (cn' & ce' & Hn' & He' & -> & _). rewrite (number_inj _ _ _ Hn Hn'), (number_inj _ _ _ He He'). reflexivity.
Qed.
Print Assumptions C114_unique.
(** the key id is the hash of the key octets of the file *)
Theorem C114_key_id : forall P R a pem k doc ai key, standard_hashes P -> rsa_algorithm a -> (forall l d, d_pem P pem = Some (l, d) -> Forall octet d) ->
  public_from_pem (with_der (with_rsa R P)) true a pem = Ok k -> d_pem P pem = Some (lit "PUBLIC KEY", doc) -> algorithm a ai -> spki_file doc ai key ->
  vk_key_id (public_verifying k) = b64_text (sha256 key).
Proof.
  intros P R a pem k doc ai key [Hs _] Ha Hd H H1 Hai Hf. apply (C114_read P R true a pem k Ha Hd) in H as (_ & doc' & ai' & key' & n & e & H1' & Hai' & Hf' & Hk & _ & Hkind & Hn).
  assert (doc' = doc) by congruence. subst doc'. destruct (C113_unique doc doc a a ai ai' key key' (Hd _ _ H1) Hai Hai' Hf) as [Hu _]. destruct (Hu Hf') as (_ & _ & E). subst key'.
  rewrite (C30_key_id _ k key).
  - cbn [p_sha256 with_der with_rsa]. rewrite Hs. reflexivity.
  - destruct k; cbn [public_numbers] in Hn; try contradiction; subst; cbn [identity_bytes rsa_der with_der with_rsa]; apply write_public_iff; exact Hk.
  - cbn [p_sha256 with_der with_rsa]. rewrite Hs. apply sha256_octet.
Qed.
Print Assumptions C114_key_id.

(** a crate that accepts all odd moduli *)
Definition odd_crate : rsa_crate := {| R_public := fun k => N.odd (fst k); R_private := fun l => N.odd (nth 0 l 0);
  R_sign := fun _ _ l d => nth 0 l 0 mod 256 :: d; R_sig_ok := fun _ s => negb (is_empty s); R_verify := fun _ k d s => bytes_eqb (fst k mod 256 :: d) s |}.
Definition rsa_prims : prims := with_der (with_rsa odd_crate toy_sha).
(** algorithm, numbers and key id of a public key *)
Definition rsa_outcome (r : result err (public_key rsa_prims)) : result err (alg * (N * N) * str) :=
  match r with
  | Ok (PkRsa15 x as k) => Ok (RsaV1_5Sha256, x, vk_key_id (public_verifying k))
  | Ok (PkPss x as k) => Ok (RsaPssSha512, x, vk_key_id (public_verifying k))
  | Ok _ => Err ParsePublicKeyError
  | Err e => Err e
  | Panic q => Panic q
  end.
(** the public key of asymmetric.rs:519-527 and its key id (asymmetric.rs, test_kid_rsa); 61 * 53 = 3233 *)
Definition rsa_file : bytes := octets_of (lit "MIIBIjANBgkqhkiG9w0BAQEFAAOCAQ8AMIIBCgKCAQEAq47XSMXpppi/VcH6e6qsMrX0Q2akDOlzVnAIt8fo+XRxRSCilkJLSe3gk0WEKwcI0LObG9InjVGMEL0yB+d8/T6ipdWwiJP+j2oKNiTQUAFD/Q0rPs3GGAtU2MDzNdpsSKs+rR1QWmwbhuPTqKlhoFOCeWJF748jRT1StfnXjy2pZuP41CW+FaW6aTeTUPamqkUwd70D1vYtw7stoXn8YexRnysfQcK7SnFeCZozfSIz6XY2U3sf/Bhd3iInj5ByCUvPMPJZAuBdN9OhLmjEbOislqY9WqH/i7zBuoiEQIoHNCv/+LU8HygC0ZMuLVvSQGHt3BQAg7pbtlVyhmratQIDAQAB").
Definition ai_rsa : bytes := elem tSequence (elem tOid id_rsa ++ [5; 0]).
Definition rsa_pem (n e : bytes) : str := lit "PUBLIC KEY:" ++ elem tSequence (ai_rsa ++ elem tBits (0 :: elem tSequence (elem tInteger n ++ elem tInteger e))).
Definition read_rsa (pem : str) : result err (alg * (N * N) * str) := rsa_outcome (public_from_pem rsa_prims true RsaPssSha512 pem).
Example C114_example : rmap snd (read_rsa (lit "PUBLIC KEY:" ++ rsa_file)) = Ok (lit "NoJFUyf2XUdhrTK66RlrGEemIlr1tOScYVeNVCv+5Ns=")
  /\ rmap (fun x => snd (snd (fst x))) (read_rsa (lit "PUBLIC KEY:" ++ rsa_file)) = Ok 65537
  /\ rmap fst (read_rsa (rsa_pem [12; 161] [17])) = Ok (RsaPssSha512, (3233, 17)) /\ rmap fst (read_rsa (rsa_pem [0; 129] [17])) = Ok (RsaPssSha512, (129, 17))
  /\ read_rsa (rsa_pem [0; 12; 161] [17]) = Err ParsePublicKeyError /\ read_rsa (rsa_pem [129] [17]) = Err ParsePublicKeyError
  /\ read_rsa (rsa_pem [12; 160] [17]) = Err ParsePublicKeyError /\ read_rsa (rsa_pem [] [17]) = Err ParsePublicKeyError
  /\ read_rsa (lit "PUBLIC KEY:" ++ elem tSequence (ai_rsa ++ elem tBits (0 :: elem tSequence (elem tInteger [12; 161] ++ elem tInteger [17] ++ elem tInteger [1])))) = Err ParsePublicKeyError.
Proof. split; [vm_compute; reflexivity|].
 split; [vm_compute; reflexivity|].
 repeat split; vm_compute; reflexivity. Qed.

(** ** C115 *)
Lemma private_key_octets R P k b : public_kind (secret_public k) = secret_kind k -> rsa_algorithm (secret_kind k) -> Forall octet b ->
  (secret_octets (with_der (with_rsa R P)) k b <-> exists l, rsa_private_octets b l /\ R_private R l = true /\ private_numbers k l).
Proof.
  intros _ Ha Ho. assert (Hx : forall x, only_if (R_private R) (pkcs1_private b) = Some x <-> exists l, rsa_private_octets b l /\ R_private R l = true /\ x = l).
  { intro x. split.
    - destruct (pkcs1_private b) as [l|] eqn:E; [|discriminate]. cbn [only_if]. destruct (R_private R l) eqn:ER; [|discriminate]. intro H. injection H as <-. exists l. split; [apply pkcs1_private_iff; assumption|]. auto.
    - intros (l & H & ER & ->). apply (pkcs1_private_iff _ _ Ho) in H. rewrite H. cbn [only_if]. rewrite ER. reflexivity. }
  destruct k; cbn [secret_kind] in Ha; destruct Ha as [Ha|Ha]; try discriminate Ha; cbn [secret_octets private_numbers]; apply Hx.
Qed.
Theorem C115_read : forall P R rsa a b k, rsa_algorithm a -> Forall octet b ->
  (secret_from_der (with_der (with_rsa R P)) rsa a b = Ok k <->
   rsa = true /\ exists ai key l, algorithm a ai /\ pki_file b ai key /\ rsa_private_octets key l /\ R_private R l = true /\ secret_kind k = a /\ private_numbers k l).
Proof.
  intros P R rsa a b k Ha Ho. rewrite (C110_read (with_rsa R P) rsa a b k Ho).
  assert (Hen : enabled rsa a <-> rsa = true) by (destruct Ha as [-> | ->]; reflexivity).
  assert (Hi : forall key s, inner_octets a key s <-> key = s) by (intros; destruct Ha as [-> | ->]; reflexivity). split.
  - intros (ai & key & s & H1 & H2 & H3 & H4 & H5 & H6). apply Hi in H3. subst s. split; [apply Hen; exact H4|]. apply private_key_octets in H6 as (l & H6 & H7 & H8); [|destruct k; reflexivity|rewrite H5; exact Ha|exact (pki_key_octets _ _ _ Ho H2)].
    exists ai, key, l. auto 10.
  - intros (H4 & ai & key & l & H1 & H2 & H6 & H7 & H5 & H8). apply Hen in H4. exists ai, key, key. repeat (split; [assumption|]). split; [apply Hi; reflexivity|]. repeat (split; [assumption|]).
    apply private_key_octets; [destruct k; reflexivity|rewrite H5; exact Ha|exact (pki_key_octets _ _ _ Ho H2)|eauto].
Qed.
Print Assumptions C115_read.
Theorem C115_never_panics : forall P R rsa a b q, rsa_algorithm a -> Forall octet b -> secret_from_der (with_der (with_rsa R P)) rsa a b <> Panic q.
Proof.
  intros P R rsa a b q Ha Ho H. destruct (proj1 (C110_panics (with_rsa R P) rsa a b Ho)) as (ai & key & _ & _ & Hw); [eauto|]. destruct Ha as [-> | ->]; exact Hw.
Qed.
Print Assumptions C115_never_panics.
(** the numbers of a file are determined *)
Theorem C115_unique : forall b l l', rsa_private_octets b l -> rsa_private_octets b l' -> l = l'.
Proof.
  intros b l l' H H'. assert (Ho : Forall octet b).
  { destruct H as (cs & Hc & _ & -> & Hs). apply octets_elem_small; [reflexivity| |exact (small_elem _ _ Hs)]. apply small_elem in Hs. apply small_app in Hs as [_ Hs]. apply Forall_app. split; [repeat constructor|].
    clear H' l'. induction Hc as [|c n cs l Hn _ IH]; [constructor|]. cbn [map concat] in *. apply small_app in Hs as [H1 H2]. apply Forall_app. split; [|apply IH; exact H2]. apply octets_elem_small; [reflexivity|apply Hn|exact (small_elem _ _ H1)]. }
  apply (pkcs1_private_iff _ _ Ho) in H, H'. congruence.
Qed.
Print Assumptions C115_unique.
(** the public half of a private key is the public key with the same modulus and exponent *)
Theorem C115_halves : forall P R a b pem k k' l n e, rsa_algorithm a -> secret_from_der (with_der (with_rsa R P)) true a b = Ok k -> private_numbers k l ->
  public_from_pem (with_der (with_rsa R P)) true a pem = Ok k' -> public_numbers k' (n, e) -> (secret_public k = k' <-> nth 0 l 0 = n /\ nth 1 l 0 = e).
Proof.
  intros P R a b pem k k' l n e Ha H Hl H' Hn. assert (Hk : secret_kind k = a) by (apply C29_secret_der in H as (? & ? & _ & _ & _ & _ & Hk & _); exact Hk).
  assert (Hk' : public_kind k' = a) by (apply C29_public_pem in H' as (? & _ & ? & ? & _ & _ & _ & _ & Hk' & _); exact Hk'). clear H H'.
  destruct k; cbn [private_numbers] in Hl; try contradiction; destruct k'; cbn [public_numbers] in Hn; try contradiction; subst; try discriminate Hk'; cbn [secret_public rsa_pub with_der with_rsa];
    (split; [intro E; injection E as -> ->; auto|intros [-> ->]; reflexivity]).
Qed.
Print Assumptions C115_halves.
Lemma private_has_public key l : rsa_private_octets key l -> exists x, rsa_public_octets x (nth 0 l 0) (nth 1 l 0).
Proof.
  intros (cs & Hc & Hl & -> & Hs). destruct l as [|n [|e l]]; try discriminate Hl. inversion Hc as [|cn ? ? ? Hn Hc']; subst. inversion Hc' as [|ce ? ? ? He Hc'']; subst. cbn [nth].
  exists (elem tSequence (elem tInteger cn ++ elem tInteger ce)), cn, ce. split; [exact Hn|]. split; [exact He|]. split; [reflexivity|]. apply small_elem in Hs. unfold small in *. cbn [map concat] in Hs.
  destruct l as [|d [|d' l]]; try discriminate Hl. inversion Hc'' as [|c3 ? ? ? _ H3]; subst. inversion H3 as [|c4 ? ? ? _ H4]; subst. cbn [map concat] in Hs. unfold elem at 1. cbn [length]. rewrite !app_length in Hs |- *.
  assert (L : (length (len_octets (N.of_nat (length (elem tInteger cn) + length (elem tInteger ce)))) <= 5)%nat) by (unfold len_octets; repeat match goal with |- context [if ?c then _ else _] => destruct c end; cbn [length]; lia).
  assert (G : forall c, (2 <= length (elem tInteger c))%nat) by (intro c; unfold elem; cbn [length]; rewrite app_length; assert (1 <= length (len_octets (N.of_nat (length c))))%nat by (unfold len_octets; repeat match goal with |- context [if ?c then _ else _] => destruct c end; cbn [length]; lia); lia).
  match goal with H : N.of_nat ?x < _ |- _ => assert (Hx : (6 + length (elem tInteger cn) + length (elem tInteger ce) <= x)%nat) end.
  { pose proof (G [0]). pose proof (G c3). pose proof (G c4). rewrite !app_length. lia. }
  lia.
Qed.
(** private and public keys with the same key id belong together, or two keys with the same hash are known *)
Theorem C115_key_id : forall P R a b pem k k' l n e, standard_hashes P -> rsa_algorithm a -> Forall octet b -> (forall l d, d_pem P pem = Some (l, d) -> Forall octet d) ->
  secret_from_der (with_der (with_rsa R P)) true a b = Ok k -> private_numbers k l -> public_from_pem (with_der (with_rsa R P)) true a pem = Ok k' -> public_numbers k' (n, e) ->
  exists x y, rsa_public_octets x (nth 0 l 0) (nth 1 l 0) /\ rsa_public_octets y n e
  /\ sk_key_id (secret_signing k) = b64_text (sha256 x) /\ vk_key_id (public_verifying k') = b64_text (sha256 y)
  /\ (sk_key_id (secret_signing k) = vk_key_id (public_verifying k') -> secret_public k = k' \/ collide256 x y).
Proof.
  intros P R a b pem k k' l n e Hst Ha Ho Hd H Hl H' Hn. pose proof (C115_halves P R a b pem k k' l n e Ha H Hl H' Hn) as Hh.
  assert (Hst' : standard_hashes (with_der (with_rsa R P))) by exact Hst. destruct Hst as [Hs _].
  apply (C115_read P R true a b k Ha Ho) in H as (_ & ai & key & l' & _ & _ & Hp & _ & Hk & Hl').
  apply (C114_read P R true a pem k' Ha Hd) in H' as (_ & doc & ai' & key' & n' & e' & _ & _ & _ & Hq & _ & Hk' & Hn').
  assert (l' = l) by (destruct k; cbn [private_numbers] in Hl, Hl'; try contradiction; congruence). subst l'.
  assert (E : (n', e') = (n, e)) by (destruct k'; cbn [public_numbers] in Hn, Hn'; try contradiction; congruence). injection E as -> ->.
  destruct (private_has_public key l Hp) as (x & Hx). exists x, key'. split; [exact Hx|]. split; [exact Hq|].
  assert (Ix : identity_bytes (secret_public k) x) by (destruct k; cbn [private_numbers] in Hl; try contradiction; subst; cbn [secret_public identity_bytes rsa_der rsa_pub with_der with_rsa]; apply write_public_iff; exact Hx).
  assert (Iy : identity_bytes k' key') by (destruct k'; cbn [public_numbers] in Hn; try contradiction; subst; cbn [identity_bytes rsa_der with_der with_rsa]; apply write_public_iff; exact Hq).
  assert (Hm : forall z p q, rsa_public_octets z p q -> in_memory z).
  { intros z p q (cn & ce & Hcn & Hce & -> & Hz). split; [|eapply N.lt_trans; [exact Hz|reflexivity]]. pose proof (small_elem _ _ Hz) as S1. destruct (small_app _ _ S1) as [S2 S3]. apply octets_elem_small; [reflexivity| |exact S1].
    apply Forall_app. split; (apply octets_elem_small; [reflexivity|first [apply Hcn|apply Hce]|first [exact (small_elem _ _ S2)|exact (small_elem _ _ S3)]]). }
  destruct (C30_halves_agree _ k) as (E1 & _). rewrite E1. split; [|split].
  - rewrite (C30_key_id _ _ x Ix); cbn [p_sha256 with_der with_rsa]; rewrite Hs; [reflexivity|apply sha256_octet].
  - rewrite (C30_key_id _ _ key' Iy); cbn [p_sha256 with_der with_rsa]; rewrite Hs; [reflexivity|apply sha256_octet].
  - intro Heq. destruct (C93_public _ (secret_public k) k' x key' Hst' Ix Iy (Hm _ _ _ Hx) (Hm _ _ _ Hq) Heq) as [->|Hc]; [left|right; exact Hc]. apply Hh. apply (C114_unique _ _ _ _ _ _ Hx Hq). reflexivity.
Qed.
Print Assumptions C115_key_id.
(** 61 * 53 = 3233, exponents 17 and 2753 *)
Definition small_private (v : N) (last : bytes) : bytes := elem tSequence (elem tInteger [v] ++ concat (map (elem tInteger) [[12; 161]; [17]; [10; 193]; [61]; [53]; [53]; [49]; [38]]) ++ last).
Definition private_outcome (r : result err (secret_key rsa_prims)) : result err (alg * list N * str) :=
  match r with
  | Ok (SkRsa15 x as k) => Ok (RsaV1_5Sha256, x, sk_key_id (secret_signing k))
  | Ok (SkPss x as k) => Ok (RsaPssSha512, x, sk_key_id (secret_signing k))
  | Ok _ => Err ParsePrivateKeyError
  | Err e => Err e
  | Panic q => Panic q
  end.
Definition read_private (key : bytes) : result err (alg * list N * str) := private_outcome (secret_from_der rsa_prims true RsaPssSha512 (pki ai_rsa key)).
Example C115_example : rmap fst (read_private (small_private 0 [])) = Ok (RsaPssSha512, [3233; 17; 2753; 61; 53; 53; 49; 38])
  /\ rmap snd (read_private (small_private 0 [])) = rmap snd (read_rsa (rsa_pem [12; 161] [17]))
  /\ rmap snd (read_private (small_private 0 [])) = Ok (b64_text (sha256 (elem tSequence (elem tInteger [12; 161] ++ elem tInteger [17]))))
  /\ read_private (small_private 1 []) = Err ParsePrivateKeyError /\ read_private (small_private 0 [48; 0]) = Err ParsePrivateKeyError
  /\ private_outcome (secret_from_der rsa_prims false RsaPssSha512 (pki ai_rsa (small_private 0 []))) = Err ParsePrivateKeyError.
Proof. split; [vm_compute; reflexivity|].
 split; [vm_compute; reflexivity|].
 repeat split; vm_compute; reflexivity. Qed.
