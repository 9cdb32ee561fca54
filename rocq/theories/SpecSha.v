(** What SHA-2 is made of (FIPS 180-4): its constants, and what a collision of its compression function is. *)
From Verif Require Import Base Sha2 SpecSfv.

(** prime numbers by trial division, in increasing order *)
Definition prime (n : N) : Prop := 2 <= n /\ forall d, 2 <= d -> d < n -> n mod d <> 0.
Definition first_primes (l : list N) : Prop :=
  Forall prime l /\ (forall i p q, nth_error l i = Some p -> nth_error l (S i) = Some q -> p < q)
  /\ forall n, prime n -> (exists p, In p l /\ n <= p) -> In n l.
(** the first [w] bits of the fractional part of the cube root and the square root of [p] *)
Definition cube_root_bits (w p k : N) : Prop := k < 2 ^ w /\ exists q, (q * 2 ^ w + k) ^ 3 <= p * 2 ^ (3 * w) < (q * 2 ^ w + k + 1) ^ 3.
Definition square_root_bits (w p k : N) : Prop := k < 2 ^ w /\ exists q, (q * 2 ^ w + k) ^ 2 <= p * 2 ^ (2 * w) < (q * 2 ^ w + k + 1) ^ 2.

(** states and blocks of words *)
Definition state_words (s : st) : list N := [s_a s; s_b s; s_c s; s_d s; s_e s; s_f s; s_g s; s_h s].
Definition words (w : N) (l : list N) : Prop := Forall (fun x => x < 2 ^ w) l.
(** the number with these bytes, the most significant first *)
Fixpoint big_endian (b : bytes) : N := match b with [] => 0 | x :: r => x * 256 ^ N.of_nat (List.length r) + big_endian r end.
(** the word of [w] bits with these bits *)
Definition word_bits (w : N) (f : N -> bool) (y : N) : Prop := y < 2 ^ w /\ forall b, b < w -> N.testbit y b = f b.
(** bit [b] of [x] rotated right by [n] *)
Definition turned (w n x b : N) : bool := N.testbit x ((b + n) mod w).
(** FIPS 180-4, 4.1.2 and 4.1.3: the functions of a word, with their rotations and shifts, and of three words *)
Definition big_sigma (w : N) (r : N * N * N) (x : N) : N -> Prop :=
  let '(i, j, k) := r in word_bits w (fun b => xorb (turned w i x b) (xorb (turned w j x b) (turned w k x b))).
Definition small_sigma (w : N) (r : N * N * N) (x : N) : N -> Prop :=
  let '(i, j, k) := r in word_bits w (fun b => xorb (turned w i x b) (xorb (turned w j x b) (N.testbit x (b + k)))).
Definition choice (w x y z : N) : N -> Prop := word_bits w (fun b => if N.testbit x b then N.testbit y b else N.testbit z b).
Definition majority (w x y z : N) : N -> Prop :=
  word_bits w (fun b => N.testbit x b && N.testbit y b || N.testbit x b && N.testbit z b || N.testbit y b && N.testbit z b).
(** 6.2.2 and 6.4.2: the message schedule, one round, and all rounds on a block *)
Definition schedule (w : N) (r0 r1 : N * N * N) (n : nat) (ws : list N) (W : nat -> N) : Prop :=
  (forall t x, nth_error ws t = Some x -> W t = x)
  /\ forall t, (16 <= t < n)%nat -> exists x y, small_sigma w r1 (W (t - 2)%nat) x /\ small_sigma w r0 (W (t - 15)%nat) y
     /\ W t = (x + W (t - 7)%nat + y + W (t - 16)%nat) mod 2 ^ w.
Definition round (w : N) (r0 r1 : N * N * N) (s : st) (k x : N) (s' : st) : Prop := exists u c v m,
  big_sigma w r1 (s_e s) u /\ choice w (s_e s) (s_f s) (s_g s) c /\ big_sigma w r0 (s_a s) v /\ majority w (s_a s) (s_b s) (s_c s) m
  /\ let t1 := s_h s + u + c + k + x in let t2 := v + m in
     s' = mkSt ((t1 + t2) mod 2 ^ w) (s_a s) (s_b s) (s_c s) ((s_d s + t1) mod 2 ^ w) (s_e s) (s_f s) (s_g s).
Definition compression (w : N) (S0 S1 s0 s1 : N * N * N) (ks : list N) (s : st) (ws : list N) (r : st) : Prop := exists (W : nat -> N) (v : nat -> st),
  schedule w s0 s1 (List.length ks) ws W /\ v O = s
  /\ (forall t k, nth_error ks t = Some k -> round w S0 S1 (v t) k (W t) (v (S t)))
  /\ Forall2 (fun x yz => x = (fst yz + snd yz) mod 2 ^ w) (state_words r) (combine (state_words s) (state_words (v (List.length ks)))).
Definition compression256 : list N -> st -> list N -> st -> Prop := compression 32 (2, 13, 22) (6, 11, 25) (7, 18, 3) (17, 19, 10).
Definition compression512 : list N -> st -> list N -> st -> Prop := compression 64 (28, 34, 39) (14, 18, 41) (1, 8, 7) (19, 61, 6).
(** the blocks of a byte string (FIPS 180-4, 5.1 and 5.2): the bytes, a one bit, zeros up to a full block, and the number of bits in two words *)
Definition blocks_of (w : N) (m : bytes) (bs : list (list N)) : Prop :=
  let wb := N.to_nat (w / 8) in
  Forall (fun b => words w b /\ List.length b = 16%nat) bs
  /\ exists z, (z < 16 * wb)%nat /\ flat_map (flat_map (be_bytes wb)) bs = m ++ [128] ++ repeat 0 z ++ be_bytes (2 * wb) (8 * N.of_nat (List.length m)).
(** what the compression function is applied to on the way *)
Fixpoint inputs (p : sha) (s : st) (bs : list (list N)) : list (st * list N) :=
  match bs with [] => [] | b :: r => (s, b) :: inputs p (sha_block p s b) r end.
(** two different inputs of the compression function with the same result, one on the way to the hash of [m], the other on the way to the hash of [m'].
    That there is any collision is clear for reasons of number; this says that computing the two hashes shows one. *)
Definition collide (p : sha) (init : st) (m m' : bytes) : Prop := exists bs bs' x y,
  blocks_of (s_w p) m bs /\ blocks_of (s_w p) m' bs' /\ In x (inputs p init bs) /\ In y (inputs p init bs')
  /\ x <> y /\ sha_block p (fst x) (snd x) = sha_block p (fst y) (snd y).
Definition collide256 : bytes -> bytes -> Prop := collide sha256_params sha256_init.
Definition collide512 : bytes -> bytes -> Prop := collide sha512_params sha512_init.
(** HMAC (RFC 2104): longer keys are replaced by their hash, then zeros up to a block; what is hashed for the MAC *)
Definition effective (k : bytes) : bytes := if le_lt_dec (List.length k) 64 then k else sha256 k.
Definition key_block (k b : bytes) : Prop := List.length b = 64%nat /\ exists n, b = effective k ++ repeat 0 n.
Definition inner_text (k d t : bytes) : Prop := exists b, key_block k b /\ t = map (N.lxor 54) b ++ d.
Definition outer_text (k d t : bytes) : Prop := exists b i, key_block k b /\ inner_text k d i /\ t = map (N.lxor 92) b ++ sha256 i.
(** the computations of two MACs show a collision *)
Definition outer_collide (k d k' d' : bytes) : Prop := exists t t', outer_text k d t /\ outer_text k' d' t' /\ collide256 t t'.
Definition mac_collide (k d k' d' : bytes) : Prop :=
  outer_collide k d k' d' \/ exists t t', inner_text k d t /\ inner_text k' d' t' /\ collide256 t t'.
(** byte strings that fit into memory *)
Definition in_memory (b : bytes) : Prop := Forall octet b /\ N.of_nat (List.length b) < 2 ^ 60.
