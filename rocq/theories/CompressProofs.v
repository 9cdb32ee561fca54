(** The compression function of Sha2.v is that of FIPS 180-4 (SpecSha.v). *)
From Coq Require Import ZifyBool ZifyNat ZifyN.
From Verif Require Import Base BaseFacts SpecSfv Sha2 SpecSha.

Lemma high_bit w x b : x < 2 ^ w -> w <= b -> N.testbit x b = false.
Proof.
  intros H Hb. destruct (N.eq_dec x 0) as [->|Hx]; [apply N.bits_0|]. apply N.bits_above_log2.
  apply N.log2_lt_pow2 in H; lia.
Qed.
Lemma low_word w y : (forall b, w <= b -> N.testbit y b = false) -> y < 2 ^ w.
Proof.
  intro H. assert (E : y = y mod 2 ^ w).
  { apply N.bits_inj. intro b. destruct (N.lt_ge_cases b w) as [Hb|Hb]; [rewrite N.mod_pow2_bits_low by assumption; reflexivity|].
    rewrite N.mod_pow2_bits_high by assumption. auto. }
  rewrite E. apply N.mod_lt. apply N.pow_nonzero. discriminate.
Qed.
Lemma word_bits_fun w f y y' : word_bits w f y -> word_bits w f y' -> y = y'.
Proof.
  intros [H1 H2] [H1' H2']. apply N.bits_inj. intro b. destruct (N.lt_ge_cases b w) as [Hb|Hb]; [rewrite H2, H2' by assumption; reflexivity|].
  rewrite !(high_bit w) by assumption. reflexivity.
Qed.
Lemma rotr_high w n x b : x < 2 ^ w -> w <= b -> N.testbit (rotr w n x) b = false.
Proof.
  intros Hx Hb. unfold rotr. rewrite N.lor_spec, N.shiftr_spec', N.mod_pow2_bits_high by assumption. rewrite (high_bit w) by (assumption || lia). reflexivity.
Qed.
Lemma rotr_bit w n x b : x < 2 ^ w -> n < w -> b < w -> N.testbit (rotr w n x) b = turned w n x b.
Proof.
  intros Hx Hn Hb. unfold rotr, turned. rewrite N.lor_spec, N.shiftr_spec', N.mod_pow2_bits_low by assumption.
  destruct (N.lt_ge_cases (b + n) w) as [H|H].
  - rewrite N.shiftl_spec_low by lia. rewrite N.mod_small by assumption. apply orb_false_r.
  - rewrite N.shiftl_spec_high' by lia. rewrite (high_bit w x (b + n)) by assumption. cbn [orb].
    replace ((b + n) mod w) with (b - (w - n)); [reflexivity|]. symmetry. rewrite <- (N.mod_small (b - (w - n)) w) by lia.
    replace (b + n) with (b - (w - n) + 1 * w) by lia. apply N.mod_add. lia.
Qed.
Definition small3 (w : N) (r : N * N * N) : Prop := let '(i, j, k) := r in i < w /\ j < w /\ k < w.
Lemma big_ok w r x : small3 w r -> x < 2 ^ w -> big_sigma w r x (sha_big w r x).
Proof.
  destruct r as [[i j] k]. intros (Hi & Hj & Hk) Hx. cbn [big_sigma sha_big]. split.
  - apply low_word. intros b Hb. rewrite !N.lxor_spec, !rotr_high by assumption. reflexivity.
  - intros b Hb. rewrite !N.lxor_spec, !rotr_bit by assumption. reflexivity.
Qed.
Lemma small_ok w r x : small3 w r -> x < 2 ^ w -> small_sigma w r x (sha_small w r x).
Proof.
  destruct r as [[i j] k]. intros (Hi & Hj & Hk) Hx. cbn [small_sigma sha_small]. split.
  - apply low_word. intros b Hb. rewrite !N.lxor_spec, !rotr_high, N.shiftr_spec', (high_bit w x) by (assumption || lia). reflexivity.
  - intros b Hb. rewrite !N.lxor_spec, !rotr_bit, N.shiftr_spec' by assumption. reflexivity.
Qed.
Lemma choice_ok w x y z : x < 2 ^ w -> y < 2 ^ w -> z < 2 ^ w -> choice w x y z (sha_ch w x y z).
Proof.
  intros Hx Hy Hz. unfold sha_ch, wnot. replace (2 ^ w - 1) with (N.ones w) by (rewrite N.ones_equiv; lia). split.
  - apply low_word. intros b Hb. rewrite !N.lxor_spec, !N.land_spec, N.lxor_spec, (high_bit w x b), (high_bit w z b) by assumption. rewrite andb_false_r. reflexivity.
  - intros b Hb. rewrite !N.lxor_spec, !N.land_spec, N.lxor_spec, N.ones_spec_low by assumption. destruct (N.testbit x b), (N.testbit y b), (N.testbit z b); reflexivity.
Qed.
Lemma majority_ok w x y z : x < 2 ^ w -> y < 2 ^ w -> z < 2 ^ w -> majority w x y z (sha_maj x y z).
Proof.
  intros Hx Hy Hz. unfold sha_maj. split.
  - apply low_word. intros b Hb. rewrite !N.lxor_spec, !N.land_spec, (high_bit w x b), (high_bit w y b) by assumption. reflexivity.
  - intros b Hb. rewrite !N.lxor_spec, !N.land_spec. destruct (N.testbit x b), (N.testbit y b), (N.testbit z b); reflexivity.
Qed.

Lemma wadd_lt w a b : wadd w a b < 2 ^ w.
Proof. apply N.mod_lt, N.pow_nonzero. discriminate. Qed.
Lemma pow_ne w : 2 ^ w <> 0.
Proof. apply N.pow_nonzero. discriminate. Qed.
Lemma wadd_r w a b : wadd w a (b mod 2 ^ w) = (a + b) mod 2 ^ w.
Proof. unfold wadd. apply N.add_mod_idemp_r, pow_ne. Qed.

Lemma state_lt w s : words w (state_words s) -> s_a s < 2 ^ w /\ s_b s < 2 ^ w /\ s_c s < 2 ^ w /\ s_d s < 2 ^ w /\ s_e s < 2 ^ w /\ s_f s < 2 ^ w /\ s_g s < 2 ^ w /\ s_h s < 2 ^ w.
Proof. unfold words, state_words. rewrite !Forall_cons_iff. tauto. Qed.
Lemma round_words p s kw : words (s_w p) (state_words s) -> words (s_w p) (state_words (sha_round p s kw)).
Proof. intro H. apply state_lt in H as (A & B & C & D & E & F & G & _). unfold sha_round, words, state_words. cbn [s_a s_b s_c s_d s_e s_f s_g s_h]. repeat (constructor; [assumption || apply wadd_lt|]). constructor. Qed.
Lemma round_ok p s k x : small3 (s_w p) (s_S0 p) -> small3 (s_w p) (s_S1 p) -> words (s_w p) (state_words s) -> round (s_w p) (s_S0 p) (s_S1 p) s k x (sha_round p s (k, x)).
Proof.
  intros H0 H1 H. apply state_lt in H as (A & B & C & D & E & F & G & I). do 4 eexists. split; [apply big_ok; assumption|]. split; [apply choice_ok; assumption|].
  split; [apply big_ok; assumption|]. split; [apply majority_ok; assumption|]. cbv zeta. unfold sha_round. cbv zeta. cbn [fst snd].
  generalize (sha_big (s_w p) (s_S1 p) (s_e s)) as u, (sha_ch (s_w p) (s_e s) (s_f s) (s_g s)) as c, (sha_big (s_w p) (s_S0 p) (s_a s)) as v, (sha_maj (s_a s) (s_b s) (s_c s)) as m. intros.
  assert (T : wadd (s_w p) (s_h s) (wadd (s_w p) u (wadd (s_w p) c (wadd (s_w p) k x))) = (s_h s + u + c + k + x) mod 2 ^ s_w p).
  { change (wadd (s_w p) k x) with ((k + x) mod 2 ^ s_w p). rewrite !wadd_r. f_equal. lia. }
  rewrite T. f_equal.
  - unfold wadd. rewrite <- N.add_mod by apply pow_ne. reflexivity.
  - rewrite wadd_r. reflexivity.
Qed.
Lemma round_fun w r0 r1 s k x a b : round w r0 r1 s k x a -> round w r0 r1 s k x b -> a = b.
Proof.
  destruct r0 as [[i0 j0] k0], r1 as [[i1 j1] k1]. intros (u & c & v & m & A & B & C & D & ->) (u' & c' & v' & m' & A' & B' & C' & D' & ->).
  rewrite (word_bits_fun _ _ _ _ A A'), (word_bits_fun _ _ _ _ B B'), (word_bits_fun _ _ _ _ C C'), (word_bits_fun _ _ _ _ D D'). reflexivity.
Qed.

(** the schedule *)
Lemma schedule_length p : forall n l, List.length (sha_schedule p n l) = n.
Proof. induction n as [|n IH]; intro l; [reflexivity|]. cbn [sha_schedule List.length]. rewrite IH. reflexivity. Qed.
Lemma schedule_words p : forall n l, words (s_w p) (sha_schedule p n l).
Proof. induction n as [|n IH]; intro l; cbn [sha_schedule]; constructor; [apply wadd_lt|apply IH]. Qed.
Definition next (p : sha) (L : list N) (t : nat) : N :=
  (sha_small (s_w p) (s_s1 p) (nth (t - 2) L 0) + nth (t - 7) L 0 + sha_small (s_w p) (s_s0 p) (nth (t - 15) L 0) + nth (t - 16) L 0) mod 2 ^ s_w p.
Lemma schedule_nth p : forall n pre last t, List.length last = 16%nat -> (List.length pre + 16 <= t < List.length pre + 16 + n)%nat ->
  let L := pre ++ last ++ sha_schedule p n last in nth t L 0 = next p L t.
Proof.
  induction n as [|n IH]; intros pre last t Hl Ht L; [lia|]. subst L. cbn [sha_schedule].
  set (x := wadd _ _ _). destruct last as [|h r]; [discriminate|]. cbn [tl].
  destruct (Nat.eq_dec t (List.length pre + 16)) as [->|Hne].
  - unfold next. rewrite !(app_nth2 pre) by lia. replace (List.length pre + 16 - List.length pre)%nat with 16%nat by lia.
    replace (List.length pre + 16 - 2 - List.length pre)%nat with 14%nat by lia. replace (List.length pre + 16 - 7 - List.length pre)%nat with 9%nat by lia.
    replace (List.length pre + 16 - 15 - List.length pre)%nat with 1%nat by lia. replace (List.length pre + 16 - 16 - List.length pre)%nat with 0%nat by lia.
    rewrite (app_nth2 (h :: r)) by lia. rewrite !(app_nth1 (h :: r)) by lia. rewrite Hl. cbn [Nat.sub nth]. subst x.
    change (wadd (s_w p) (sha_small (s_w p) (s_s0 p) (nth 1 (h :: r) 0)) (nth 0 (h :: r) 0)) with ((sha_small (s_w p) (s_s0 p) (nth 1 (h :: r) 0) + nth 0 (h :: r) 0) mod 2 ^ s_w p).
    rewrite !wadd_r. f_equal. cbn [nth]. lia.
  - replace (pre ++ (h :: r) ++ x :: sha_schedule p n (r ++ [x])) with ((pre ++ [h]) ++ (r ++ [x]) ++ sha_schedule p n (r ++ [x])) by (rewrite <- !app_assoc; reflexivity).
    apply IH; rewrite app_length in *; cbn [List.length] in *; lia.
Qed.
Definition good (p : sha) : Prop :=
  small3 (s_w p) (s_S0 p) /\ small3 (s_w p) (s_S1 p) /\ small3 (s_w p) (s_s0 p) /\ small3 (s_w p) (s_s1 p) /\ (16 <= List.length (s_k p))%nat.
Definition all_words (p : sha) (ws : list N) : list N := ws ++ sha_schedule p (List.length (s_k p) - 16) ws.
Lemma all_words_lt p ws t : words (s_w p) ws -> nth t (all_words p ws) 0 < 2 ^ s_w p.
Proof.
  intro H. destruct (nth_in_or_default t (all_words p ws) 0) as [Hi| ->]; [|pose proof (pow_ne (s_w p)); lia].
  assert (Ha : words (s_w p) (all_words p ws)) by (apply Forall_app; split; [exact H|apply schedule_words]). unfold words in Ha. rewrite Forall_forall in Ha. auto.
Qed.
Lemma schedule_ok p ws : good p -> words (s_w p) ws -> List.length ws = 16%nat ->
  schedule (s_w p) (s_s0 p) (s_s1 p) (List.length (s_k p)) ws (fun t => nth t (all_words p ws) 0).
Proof.
  intros (_ & _ & G0 & G1 & Gk) Hw Hl. split.
  - intros t x H. unfold all_words. rewrite app_nth1 by (apply nth_error_Some; congruence). apply nth_error_nth. exact H.
  - intros t Ht. do 2 eexists. split; [apply small_ok; [exact G1|apply all_words_lt; exact Hw]|]. split; [apply small_ok; [exact G0|apply all_words_lt; exact Hw]|].
    exact (schedule_nth p (List.length (s_k p) - 16) [] ws t Hl ltac:(cbn [List.length]; lia)).
Qed.
Lemma schedule_fun w r0 r1 n ws W V : List.length ws = 16%nat -> schedule w r0 r1 n ws W -> schedule w r0 r1 n ws V -> forall t, (t < n)%nat -> W t = V t.
Proof.
  destruct r0 as [[i0 j0] k0], r1 as [[i1 j1] k1]. intros Hl [A B] [A' B'] t. induction t as [t IH] using (well_founded_induction lt_wf). intro Ht.
  destruct (Nat.lt_ge_cases t 16) as [H|H].
  - destruct (nth_error ws t) as [x|] eqn:E; [rewrite (A t x E), (A' t x E); reflexivity|]. apply nth_error_None in E. lia.
  - destruct (B t (conj H Ht)) as (x & y & H1 & H2 & ->), (B' t (conj H Ht)) as (x' & y' & H1' & H2' & ->).
    rewrite <- (IH (t - 2)%nat), <- (IH (t - 15)%nat) in * by lia. rewrite (IH (t - 7)%nat), (IH (t - 16)%nat) by lia.
    rewrite (word_bits_fun _ _ _ _ H1 H1'), (word_bits_fun _ _ _ _ H2 H2'). reflexivity.
Qed.

(** the rounds *)
Definition after (p : sha) (s : st) (ws : list N) (t : nat) : st := fold_left (sha_round p) (firstn t (combine (s_k p) (all_words p ws))) s.
Lemma after_words p s ws t : words (s_w p) (state_words s) -> words (s_w p) (state_words (after p s ws t)).
Proof. unfold after. generalize (firstn t (combine (s_k p) (all_words p ws))) as l. intro l. revert s. induction l as [|x l IH]; intros s H; [exact H|]. cbn [fold_left]. apply IH, round_words, H. Qed.
Lemma firstn_next {A} (l : list A) : forall t x, nth_error l t = Some x -> firstn (S t) l = firstn t l ++ [x].
Proof. induction l as [|y l IH]; intros [|t] x H; try discriminate; [cbn in H; injection H as ->; reflexivity|]. cbn [nth_error] in H. change (firstn (S (S t)) (y :: l)) with (y :: firstn (S t) l). rewrite (IH t x H). reflexivity. Qed.
Lemma combine_nth_error {A B} (l : list A) : forall (r : list B) t x y, nth_error l t = Some x -> nth_error r t = Some y -> nth_error (combine l r) t = Some (x, y).
Proof. induction l as [|a l IH]; intros [|b r] [|t] x y H H'; try discriminate; [cbn in *; congruence|]. cbn [nth_error combine] in *. apply IH; assumption. Qed.
Lemma all_words_length p ws : good p -> List.length ws = 16%nat -> List.length (all_words p ws) = List.length (s_k p).
Proof. intros (_ & _ & _ & _ & G) H. unfold all_words. rewrite app_length, schedule_length, H. lia. Qed.
Lemma after_next p s ws t k : good p -> List.length ws = 16%nat -> nth_error (s_k p) t = Some k -> after p s ws (S t) = sha_round p (after p s ws t) (k, nth t (all_words p ws) 0).
Proof.
  intros G Hl H. unfold after. rewrite (firstn_next _ t (k, nth t (all_words p ws) 0)).
  - rewrite fold_left_app. reflexivity.
  - apply combine_nth_error; [exact H|]. apply nth_error_nth'. rewrite (all_words_length p ws G Hl). apply nth_error_Some. congruence.
Qed.
Lemma after_all p s ws : good p -> List.length ws = 16%nat -> after p s ws (List.length (s_k p)) = fold_left (sha_round p) (combine (s_k p) (all_words p ws)) s.
Proof. intros G Hl. unfold after. rewrite firstn_all2; [reflexivity|]. rewrite combine_length. lia. Qed.
Theorem compression_spec p s ws r : good p -> words (s_w p) (state_words s) -> words (s_w p) ws -> List.length ws = 16%nat ->
  (compression (s_w p) (s_S0 p) (s_S1 p) (s_s0 p) (s_s1 p) (s_k p) s ws r <-> r = sha_block p s ws).
Proof.
  intros G Hs Hw Hl. assert (Hb : forall q, Forall2 (fun x yz => x = (fst yz + snd yz) mod 2 ^ s_w p) (state_words q) (combine (state_words s) (state_words (after p s ws (List.length (s_k p))))) <-> q = sha_block p s ws).
  { intro q. rewrite (after_all p s ws G Hl). unfold sha_block. cbv zeta. fold (all_words p ws). set (v := fold_left _ _ _). destruct q as [qa qb qc qd qe qf qg qh]. unfold state_words. cbn [combine s_a s_b s_c s_d s_e s_f s_g s_h]. split.
    - intro H. repeat match goal with H : Forall2 _ (_ :: _) (_ :: _) |- _ => inversion H; clear H; subst end. cbn [fst snd]. reflexivity.
    - intro H. injection H as -> -> -> -> -> -> -> ->. repeat (constructor; [reflexivity|]). constructor. }
  split.
  - intros (W & v & HW & H0 & Hr & Hf). apply Hb. pose proof (schedule_fun _ _ _ _ _ _ _ Hl HW (schedule_ok p ws G Hw Hl)) as E.
    assert (Ev : forall t, (t <= List.length (s_k p))%nat -> v t = after p s ws t).
    { induction t as [|t IH]; intro Ht; [exact H0|]. destruct (nth_error (s_k p) t) as [k|] eqn:Ek; [|apply nth_error_None in Ek; lia].
      pose proof (Hr t k Ek) as R. rewrite (IH ltac:(lia)), (E t ltac:(lia)) in R. rewrite (after_next p s ws t k G Hl Ek).
      destruct G as (G0 & G1 & _). exact (round_fun _ _ _ _ _ _ _ _ R (round_ok p _ k _ G0 G1 (after_words p s ws t Hs))). }
    rewrite <- (Ev _ (le_n _)). exact Hf.
  - intro E. exists (fun t => nth t (all_words p ws) 0), (after p s ws). split; [apply schedule_ok; assumption|]. split; [reflexivity|]. split; [|apply Hb, E].
    intros t k Ek. rewrite (after_next p s ws t k G Hl Ek). destruct G as (G0 & G1 & _). apply round_ok; [exact G0|exact G1|apply after_words, Hs].
Qed.

(** numbers as bytes *)
Lemma big_endian_last b y : big_endian (b ++ [y]) = 256 * big_endian b + y.
Proof.
  induction b as [|x b IH]; [cbn; lia|]. cbn [app big_endian]. rewrite IH, app_length. cbn [List.length]. rewrite Nat.add_1_r, Nat2N.inj_succ, N.pow_succ_r'. lia.
Qed.
Lemma be_bytes_spec n : forall x, x < 256 ^ N.of_nat n -> List.length (be_bytes n x) = n /\ Forall octet (be_bytes n x) /\ big_endian (be_bytes n x) = x.
Proof.
  induction n as [|n IH]; intros x H.
  - cbn in H. split; [reflexivity|]. split; [constructor|]. cbn. lia.
  - rewrite Nat2N.inj_succ, N.pow_succ_r' in H. destruct (IH (x / 256)) as (A & B & C); [apply N.div_lt_upper_bound; lia|]. cbn [be_bytes].
    rewrite app_length, A, big_endian_last, C. split; [cbn [List.length]; lia|]. pose proof (N.mod_lt x 256 ltac:(discriminate)) as Hm. split.
    + apply Forall_app. split; [exact B|]. constructor; [unfold octet; exact Hm|constructor].
    + symmetry. apply N.div_mod. discriminate.
Qed.
Lemma big_endian_inj a : forall b, List.length a = List.length b -> Forall octet a -> Forall octet b -> big_endian a = big_endian b -> a = b.
Proof.
  induction a as [|y a IH] using rev_ind; intros b Hl Ha Hb E; [destruct b; [reflexivity|discriminate]|].
  destruct b as [|z b _] using rev_ind; [rewrite app_length in Hl; cbn in Hl; lia|]. rewrite !app_length in Hl. cbn [List.length] in Hl. rewrite !big_endian_last in E.
  apply Forall_app in Ha as [Ha Hy], Hb as [Hb Hz]. apply Forall_inv in Hy, Hz. unfold octet in Hy, Hz.
  assert (big_endian a = big_endian b /\ y = z) as [E1 ->] by lia. rewrite (IH b); [reflexivity|lia|assumption..].
Qed.
Lemma be_bytes_exact n x b : x < 256 ^ N.of_nat n -> (b = be_bytes n x <-> List.length b = n /\ Forall octet b /\ big_endian b = x).
Proof.
  intro H. destruct (be_bytes_spec n x H) as (A & B & C). split; [intros ->; auto|]. intros (A' & B' & C'). apply big_endian_inj; congruence || assumption.
Qed.
