(** Merkle-Damgard: computing the hashes of different messages with the same hash shows two different inputs of the compression function with the same result. *)
From Coq Require Import ZifyNat ZifyN.
From Verif Require Import Base BaseFacts Sha2 Sha2Proofs SpecSfv SpecSha.

Lemma app_eq_len {A} (a b c d : list A) : a ++ b = c ++ d -> List.length a = List.length c -> a = c /\ b = d.
Proof.
  revert c. induction a as [|x a IH]; intros [|y c] H Hl; try discriminate; [auto|]. injection H as -> H. injection Hl as Hl. destruct (IH c H Hl) as [-> ->]. auto.
Qed.
(** ** big-endian numbers *)
Lemma pow_S n : 256 ^ N.of_nat (S n) = 256 * 256 ^ N.of_nat n.
Proof. rewrite Nat2N.inj_succ. apply N.pow_succ_r'. Qed.
Lemma be_bytes_inj n : forall x y, x < 256 ^ N.of_nat n -> y < 256 ^ N.of_nat n -> be_bytes n x = be_bytes n y -> x = y.
Proof.
  induction n as [|n IH]; intros x y Hx Hy H; [change (256 ^ N.of_nat 0) with 1 in *; lia|]. cbn [be_bytes] in H. rewrite pow_S in *.
  apply app_inj_tail in H as [H Hm]. apply IH in H; [|apply N.div_lt_upper_bound; [discriminate|assumption]..].
  rewrite (N.div_mod x 256), (N.div_mod y 256), H, Hm by discriminate. reflexivity.
Qed.
Lemma be_val_app b c : be_val (b ++ [c]) = 256 * be_val b + c.
Proof. unfold be_val. rewrite fold_left_app. reflexivity. Qed.
Lemma be_val_bytes b : Forall octet b -> be_bytes (List.length b) (be_val b) = b.
Proof.
  induction b as [|c b IH] using rev_ind; intro H; [reflexivity|]. apply Forall_app in H as [Hb Hc]. apply Forall_inv in Hc. unfold octet in Hc.
  rewrite app_length, Nat.add_comm. cbn [List.length Nat.add be_bytes]. rewrite be_val_app.
  rewrite (N.mul_comm 256), N.div_add_l, N.div_small, N.add_0_r, IH by first [assumption|discriminate]. f_equal. f_equal.
  rewrite N.add_comm, N.mod_add by discriminate. apply N.mod_small. assumption.
Qed.
Lemma be_val_lt b : Forall octet b -> be_val b < 256 ^ N.of_nat (List.length b).
Proof.
  induction b as [|c b IH] using rev_ind; intro H; [reflexivity|]. apply Forall_app in H as [Hb Hc]. apply Forall_inv in Hc. unfold octet in Hc.
  rewrite app_length, Nat.add_comm. cbn [List.length Nat.add]. rewrite be_val_app, pow_S. specialize (IH Hb). lia.
Qed.
Lemma be_val_inj b c : Forall octet b -> Forall octet c -> List.length b = List.length c -> be_val b = be_val c -> b = c.
Proof. intros Hb Hc Hl H. rewrite <- (be_val_bytes b Hb), <- (be_val_bytes c Hc), Hl, H. reflexivity. Qed.

(** ** groups *)
Lemma chunks_f_concat n : n <> 0%nat -> forall f b, (List.length b <= f)%nat -> concat (sha_chunks_f f n b) = b.
Proof.
  intro Hn. induction f as [|f IH]; intros b Hb; [destruct b; [reflexivity|cbn in Hb; lia]|]. destruct b as [|c b]; [reflexivity|].
  cbn [sha_chunks_f concat]. rewrite IH; [apply firstn_skipn|]. rewrite skipn_length. cbn [List.length] in *. lia.
Qed.
Lemma chunks_f_length n : n <> 0%nat -> forall k f b, List.length b = (k * n)%nat -> (List.length b <= f)%nat ->
  List.length (sha_chunks_f f n b) = k /\ Forall (fun x => List.length x = n) (sha_chunks_f f n b).
Proof.
  intro Hn. induction k as [|k IH]; intros f b Hl Hb.
  - destruct b; [|discriminate]. destruct f; split; try reflexivity; constructor.
  - cbn [Nat.mul] in Hl. destruct f as [|f]; [lia|]. destruct b as [|c b]; [cbn in Hl; lia|]. cbn [sha_chunks_f].
    destruct (IH f (skipn n (c :: b))) as [H1 H2]; [rewrite skipn_length; lia|rewrite skipn_length; cbn [List.length] in *; lia|].
    cbn [List.length]. split; [lia|]. constructor; [|assumption]. rewrite firstn_length. lia.
Qed.
Lemma chunks_concat n b : n <> 0%nat -> concat (sha_chunks n b) = b.
Proof. intro Hn. apply chunks_f_concat; [assumption|lia]. Qed.
Lemma chunks_length n k b : n <> 0%nat -> List.length b = (k * n)%nat -> List.length (sha_chunks n b) = k /\ Forall (fun x => List.length x = n) (sha_chunks n b).
Proof. intros Hn H. apply chunks_f_length; [assumption..|lia]. Qed.
Lemma chunks_octet n b : n <> 0%nat -> Forall octet b -> Forall (Forall octet) (sha_chunks n b).
Proof.
  intros Hn H. rewrite <- (chunks_concat n b Hn) in H. revert H. induction (sha_chunks n b) as [|x l IH]; intro H; constructor; cbn [concat] in H; apply Forall_app in H; tauto.
Qed.
Definition block_words (wb : nat) (blk : bytes) : list N := map be_val (sha_chunks wb blk).
Lemma map_val_inj a : forall b, Forall (Forall octet) a -> Forall (Forall octet) b -> (exists n, Forall (fun x => List.length x = n) a /\ Forall (fun x => List.length x = n) b) ->
  map be_val a = map be_val b -> a = b.
Proof.
  induction a as [|x a IH]; intros [|y b] Ha Hb (n & La & Lb) H; try discriminate; [reflexivity|]. cbn [map] in H. injection H as Hx H.
  inversion Ha; inversion Hb; inversion La; inversion Lb; subst. f_equal; [apply be_val_inj; try assumption; congruence|]. apply IH; eauto.
Qed.
Lemma block_words_inj wb k a b : wb <> 0%nat -> Forall octet a -> Forall octet b -> List.length a = (k * wb)%nat -> List.length b = (k * wb)%nat ->
  block_words wb a = block_words wb b -> a = b.
Proof.
  intros Hw Ha Hb La Lb H. rewrite <- (chunks_concat wb a Hw), <- (chunks_concat wb b Hw). f_equal. apply map_val_inj; [apply chunks_octet; assumption..| |exact H].
  exists wb. split; [apply (chunks_length wb k a Hw La)|apply (chunks_length wb k b Hw Lb)].
Qed.
Lemma block_words_ok w wb k a : wb <> 0%nat -> w = 8 * N.of_nat wb -> Forall octet a -> List.length a = (k * wb)%nat ->
  words w (block_words wb a) /\ List.length (block_words wb a) = k.
Proof.
  intros Hw -> Ha La. unfold block_words, words. rewrite map_length. destruct (chunks_length wb k a Hw La) as [Hk Hl]. split; [|exact Hk].
  rewrite Forall_map. pose proof (chunks_octet wb a Hw Ha) as Ho. rewrite Forall_forall in *. intros x Hx. rewrite N.pow_mul_r. change (2 ^ 8) with 256.
  rewrite <- (Hl x Hx). apply be_val_lt, Ho, Hx.
Qed.

(** ** states *)
Lemma st_eq_dec (s t : st) : {s = t} + {s <> t}.
Proof. decide equality; apply N.eq_dec. Qed.
Lemma block_state p s b : words (s_w p) (state_words (sha_block p s b)).
Proof.
  unfold words, sha_block, state_words, wadd. cbv zeta. cbn [s_a s_b s_c s_d s_e s_f s_g s_h].
  repeat (constructor; [apply N.mod_lt, N.pow_nonzero; discriminate|]). constructor.
Qed.
Lemma state_out wb s t : words (8 * N.of_nat wb) (state_words s) -> words (8 * N.of_nat wb) (state_words t) ->
  flat_map (be_bytes wb) (state_words s) = flat_map (be_bytes wb) (state_words t) -> s = t.
Proof.
  assert (H : forall a b, List.length a = List.length b -> words (8 * N.of_nat wb) a -> words (8 * N.of_nat wb) b -> flat_map (be_bytes wb) a = flat_map (be_bytes wb) b -> a = b).
  { unfold words. rewrite N.pow_mul_r. change (2 ^ 8) with 256. induction a as [|x a IH]; intros [|y b] Hl Ha Hb H; try discriminate; [reflexivity|]. cbn [flat_map] in H. inversion Ha; inversion Hb; subst.
    apply app_eq_len in H as [E1 E2]; [|rewrite !be_bytes_length; reflexivity]. f_equal; [apply (be_bytes_inj wb); assumption|]. apply IH; try assumption. injection Hl as Hl. exact Hl. }
  intros Hs Ht E. apply H in E; [|reflexivity|assumption|assumption]. destruct s, t. unfold state_words in E. cbn in E. congruence.
Qed.

(** ** the iteration *)
Lemma inputs_app p a : forall s x, inputs p s (a ++ [x]) = inputs p s a ++ [(fold_left (sha_block p) a s, x)].
Proof. induction a as [|y a IH]; intros s x; [reflexivity|]. cbn [app inputs fold_left]. rewrite IH. reflexivity. Qed.
Lemma fold_collision p init : forall a b, List.length a = List.length b -> a <> b ->
  fold_left (sha_block p) a init = fold_left (sha_block p) b init ->
  exists x y, In x (inputs p init a) /\ In y (inputs p init b) /\ x <> y /\ sha_block p (fst x) (snd x) = sha_block p (fst y) (snd y).
Proof.
  induction a as [|x a IH] using rev_ind; intros b Hl Hn H; [destruct b; [congruence|discriminate]|].
  destruct b as [|y b _] using rev_ind; [rewrite app_length in Hl; cbn in Hl; lia|]. rewrite !app_length in Hl. cbn [List.length] in Hl.
  rewrite !fold_left_app in H. cbn [fold_left] in H. rewrite !inputs_app.
  assert (Hlast : (fold_left (sha_block p) a init, x) <> (fold_left (sha_block p) b init, y) ->
    exists x0 y0, In x0 (inputs p init a ++ [(fold_left (sha_block p) a init, x)]) /\ In y0 (inputs p init b ++ [(fold_left (sha_block p) b init, y)])
    /\ x0 <> y0 /\ sha_block p (fst x0) (snd x0) = sha_block p (fst y0) (snd y0)).
  { intro Hd. do 2 eexists. split; [apply in_or_app; right; left; reflexivity|]. split; [apply in_or_app; right; left; reflexivity|]. split; [exact Hd|exact H]. }
  destruct (list_eq_dec N.eq_dec x y) as [E|E]; [|apply Hlast; congruence].
  destruct (st_eq_dec (fold_left (sha_block p) a init) (fold_left (sha_block p) b init)) as [Es|Es]; [|apply Hlast; congruence].
  destruct (IH b) as (u & v & Hu & Hv & Hd & He); [lia|congruence|exact Es|].
  exists u, v. split; [apply in_or_app; left; exact Hu|]. split; [apply in_or_app; left; exact Hv|]. split; assumption.
Qed.

(** ** padding *)
Section Padding.
Variables (p : sha) (wb : nat).
Hypothesis Hwb : wb <> 0%nat.
Hypothesis Hw : s_w p = 8 * N.of_nat wb.
Lemma wb_val : N.to_nat (s_w p / 8) = wb.
Proof. rewrite Hw, N.mul_comm, N.div_mul by discriminate. lia. Qed.
Lemma pad_length b : exists k, List.length (sha_pad p b) = (S k * (16 * wb))%nat.
Proof.
  unfold sha_pad. cbv zeta. rewrite wb_val. rewrite !app_length, repeat_length, be_bytes_length. cbn [List.length]. set (blk := (16 * wb)%nat). set (n := (List.length b + 1 + 2 * wb)%nat).
  assert (Hb : blk <> 0%nat) by (unfold blk; lia). 
  assert (E : exists k, (n + (blk - n mod blk) mod blk = S k * blk)%nat).
  { pose proof (Nat.div_mod n blk Hb) as D. pose proof (Nat.mod_upper_bound n blk Hb) as U. destruct (Nat.eq_dec (n mod blk) 0) as [Z|Z].
    - rewrite Z, Nat.sub_0_r, Nat.mod_same by assumption. destruct (n / blk)%nat as [|k] eqn:Ek; [exfalso; unfold n in *; lia|]. exists k. lia.
    - rewrite Nat.mod_small by lia. exists (n / blk)%nat. lia. }
  destruct E as [k E]. exists k. unfold n in E at 1. lia.
Qed.
Lemma pad_octet b : Forall octet b -> Forall octet (sha_pad p b).
Proof.
  intro H. unfold sha_pad. cbv zeta. repeat (apply Forall_app; split); [exact H|constructor; [reflexivity|constructor]| |apply be_bytes_octet].
  apply Forall_forall. intros x Hx. apply repeat_spec in Hx. subst. reflexivity.
Qed.
Lemma pad_same_length a b : List.length a = List.length b -> sha_pad p a = sha_pad p b -> a = b.
Proof. intros Hl H. unfold sha_pad in H. cbv zeta in H. apply app_eq_len in H as [H _]; assumption. Qed.
Lemma pad_tail b : exists u, sha_pad p b = u ++ be_bytes (2 * wb) (8 * N.of_nat (List.length b)).
Proof. unfold sha_pad. cbv zeta. rewrite wb_val. rewrite !app_assoc. eexists. reflexivity. Qed.
Definition pad_blocks (b : bytes) : list (list N) := map (block_words wb) (sha_chunks (16 * wb) (sha_pad p b)).
Lemma pad_blocks_ok b : Forall octet b -> Forall (fun x => words (s_w p) x /\ List.length x = 16%nat) (pad_blocks b) /\ pad_blocks b <> []
  /\ forall k, List.length (sha_pad p b) = (k * (16 * wb))%nat -> List.length (pad_blocks b) = k.
Proof.
  intro H. unfold pad_blocks. destruct (pad_length b) as [k Hk]. assert (Hn : (16 * wb)%nat <> 0%nat) by lia. destruct (chunks_length _ _ _ Hn Hk) as [H1 H2].
  pose proof (chunks_octet _ _ Hn (pad_octet b H)) as Ho. split; [|split].
  - rewrite Forall_map. rewrite Forall_forall in *. intros x Hx. apply (block_words_ok (s_w p) wb 16); auto.
  - intro E. apply map_eq_nil in E. rewrite E in H1. discriminate.
  - intros k' Hk'. rewrite map_length. destruct (chunks_length _ _ _ Hn Hk') as [H3 _]. exact H3.
Qed.
Lemma blocks_same_length a b : Forall octet a -> Forall octet b -> List.length a = List.length b -> a <> b ->
  List.length (pad_blocks a) = List.length (pad_blocks b) /\ pad_blocks a <> pad_blocks b.
Proof.
  intros Ha Hb Hl Hn. assert (Hp : List.length (sha_pad p a) = List.length (sha_pad p b)) by (unfold sha_pad; cbv zeta; rewrite !app_length, !repeat_length, !be_bytes_length, Hl; reflexivity).
  destruct (pad_length b) as [k Hk]. pose proof Hk as Hk'. rewrite <- Hp in Hk'. assert (H16 : (16 * wb)%nat <> 0%nat) by lia.
  split; [rewrite (proj2 (proj2 (pad_blocks_ok a Ha)) _ Hk'), (proj2 (proj2 (pad_blocks_ok b Hb)) _ Hk); reflexivity|].
  intro E. apply Hn, pad_same_length; [assumption|]. rewrite <- (chunks_concat _ (sha_pad p a) H16), <- (chunks_concat _ (sha_pad p b) H16). f_equal.
  pose proof (chunks_octet _ _ H16 (pad_octet a Ha)) as Oa. pose proof (chunks_octet _ _ H16 (pad_octet b Hb)) as Ob.
  destruct (chunks_length _ _ _ H16 Hk) as [_ Lb]. destruct (chunks_length _ _ _ H16 Hk') as [_ La]. unfold pad_blocks in E.
  revert E La Lb Oa Ob. generalize (sha_chunks (16 * wb) (sha_pad p a)) as x, (sha_chunks (16 * wb) (sha_pad p b)) as y. induction x as [|u x IH]; intros [|v y] E La Lb Oa Ob; try discriminate; [reflexivity|].
  cbn [map] in E. injection E as Eu E. inversion La; inversion Lb; inversion Oa; inversion Ob; subst. f_equal; [apply (block_words_inj wb 16); assumption|]. apply IH; assumption.
Qed.
(** the last block ends with the length *)
Lemma last_block a b x y u v : Forall octet a -> Forall octet b -> 8 * N.of_nat (List.length a) < 2 ^ (2 * s_w p) -> 8 * N.of_nat (List.length b) < 2 ^ (2 * s_w p) ->
  pad_blocks a = u ++ [x] -> pad_blocks b = v ++ [y] -> x = y -> List.length a = List.length b.
Proof.
  intros Ha Hb Sa Sb Ea Eb Exy. assert (H16 : (16 * wb)%nat <> 0%nat) by lia.
  assert (Hlast : forall c z w, Forall octet c -> pad_blocks c = w ++ [z] -> exists blk, z = block_words wb blk /\ List.length blk = (16 * wb)%nat /\ Forall octet blk
    /\ skipn (14 * wb) blk = be_bytes (2 * wb) (8 * N.of_nat (List.length c))).
  { intros c z w Hc E. unfold pad_blocks in E. destruct (pad_length c) as [k Hk]. destruct (chunks_length _ _ _ H16 Hk) as [_ L]. pose proof (chunks_octet _ _ H16 (pad_octet c Hc)) as O.
    pose proof (chunks_concat _ (sha_pad p c) H16) as C. destruct (sha_chunks (16 * wb) (sha_pad p c)) as [|blk l _] eqn:El using rev_ind; [destruct w; discriminate|]. clear El.
    rewrite map_app in E. cbn [map] in E. apply app_inj_tail in E as [_ E]. apply Forall_app in L as [_ L]. apply Forall_app in O as [_ O]. apply Forall_inv in L. apply Forall_inv in O.
    exists blk. split; [congruence|]. split; [assumption|]. split; [assumption|]. rewrite concat_app in C. cbn [concat] in C. rewrite app_nil_r in C.
    destruct (pad_tail c) as [t Ht]. rewrite Ht in C. rewrite <- (firstn_skipn (14 * wb) blk), app_assoc in C.
    assert (Hr : List.length (skipn (14 * wb) blk) = List.length (be_bytes (2 * wb) (8 * N.of_nat (List.length c)))) by (rewrite skipn_length, be_bytes_length, L; lia).
    apply (f_equal (@rev N)) in C. rewrite !rev_app_distr in C. apply app_eq_len in C as [C _]; [|rewrite !rev_length; exact Hr].
    apply (f_equal (@rev N)) in C. rewrite !rev_involutive in C. exact C. }
  destruct (Hlast a x u Ha Ea) as (ba & Xa & La & Oa & Ta). destruct (Hlast b y v Hb Eb) as (bb & Xb & Lb & Ob & Tb).
  assert (E : ba = bb) by (apply (block_words_inj wb 16); try assumption; congruence). subst bb. rewrite Ta in Tb.
  assert (Hp : 256 ^ N.of_nat (2 * wb) = 2 ^ (2 * s_w p)) by (change 256 with (2 ^ 8); rewrite <- N.pow_mul_r; f_equal; lia).
  apply be_bytes_inj in Tb; [lia|rewrite Hp; assumption..].
Qed.
Lemma block_words_bytes k a : Forall octet a -> List.length a = (k * wb)%nat -> flat_map (be_bytes wb) (block_words wb a) = a.
Proof.
  intros Ha La. transitivity (concat (sha_chunks wb a)); [|apply chunks_concat, Hwb]. unfold block_words. destruct (chunks_length wb k a Hwb La) as [_ Hl]. pose proof (chunks_octet wb a Hwb Ha) as Ho.
  induction (sha_chunks wb a) as [|x l IH]; [reflexivity|]. inversion Hl; inversion Ho; subst. cbn [map flat_map concat]. rewrite be_val_bytes by assumption. f_equal. auto.
Qed.
Lemma pad_blocks_of b : Forall octet b -> blocks_of (s_w p) b (pad_blocks b).
Proof.
  intro Hb. unfold blocks_of. cbv zeta. rewrite wb_val. split; [apply (pad_blocks_ok b Hb)|]. eexists. split; [|transitivity (sha_pad p b); [|unfold sha_pad; cbv zeta; rewrite wb_val; reflexivity]].
  - apply Nat.mod_upper_bound. lia.
  - assert (H16 : (16 * wb)%nat <> 0%nat) by lia. transitivity (concat (sha_chunks (16 * wb) (sha_pad p b))); [|apply chunks_concat, H16]. unfold pad_blocks.
    destruct (pad_length b) as [k Hk]. destruct (chunks_length _ _ _ H16 Hk) as [_ Hl]. pose proof (chunks_octet _ _ H16 (pad_octet b Hb)) as Ho.
    induction (sha_chunks (16 * wb) (sha_pad p b)) as [|x l IH]; [reflexivity|]. inversion Hl; inversion Ho; subst. cbn [map flat_map concat]. rewrite (block_words_bytes 16) by assumption. f_equal. auto.
Qed.
Lemma words_bytes_inj a : forall b, words (s_w p) a -> words (s_w p) b -> List.length a = List.length b -> flat_map (be_bytes wb) a = flat_map (be_bytes wb) b -> a = b.
Proof.
  unfold words. rewrite Hw, N.pow_mul_r. change (2 ^ 8) with 256. induction a as [|x a IH]; intros [|y b] Ha Hb Hl H; try discriminate; [reflexivity|]. cbn [flat_map] in H. inversion Ha; inversion Hb; subst.
  apply app_eq_len in H as [E1 E2]; [|rewrite !be_bytes_length; reflexivity]. f_equal; [apply (be_bytes_inj wb); assumption|]. apply IH; try assumption. injection Hl as Hl. exact Hl.
Qed.
Lemma bytes_of_length l : List.length (flat_map (be_bytes wb) l) = (List.length l * wb)%nat.
Proof. induction l as [|x l IH]; [reflexivity|]. cbn [flat_map List.length Nat.mul]. rewrite app_length, be_bytes_length, IH. reflexivity. Qed.
Lemma blocks_length bs : Forall (fun b => words (s_w p) b /\ List.length b = 16%nat) bs -> List.length (flat_map (flat_map (be_bytes wb)) bs) = (List.length bs * (16 * wb))%nat.
Proof.
  intro H. induction H as [|x l [_ Hx] _ IH]; [reflexivity|]. cbn [flat_map List.length]. rewrite app_length, bytes_of_length, Hx, IH. cbn [Nat.mul]. reflexivity.
Qed.
Lemma blocks_bytes_inj a : forall b, Forall (fun b => words (s_w p) b /\ List.length b = 16%nat) a -> Forall (fun b => words (s_w p) b /\ List.length b = 16%nat) b ->
  flat_map (flat_map (be_bytes wb)) a = flat_map (flat_map (be_bytes wb)) b -> a = b.
Proof.
  assert (H0 : forall b, Forall (fun b => words (s_w p) b /\ List.length b = 16%nat) b -> [] = flat_map (flat_map (be_bytes wb)) b -> [] = b).
  { intros b Hb H. apply (f_equal (@List.length N)) in H. rewrite (blocks_length b Hb) in H. destruct b; [reflexivity|]. cbn [List.length Nat.mul] in H. lia. }
  induction a as [|x a IH]; intros [|y b] Ha Hb H; [reflexivity|apply (H0 _ Hb H)|symmetry; apply (H0 _ Ha); symmetry; exact H|].
  inversion Ha as [|? ? [Wx Lx] Ha']; inversion Hb as [|? ? [Wy Ly] Hb']; subst. cbn [flat_map] in H.
  apply app_eq_len in H as [E1 E2]; [|rewrite !bytes_of_length, Lx, Ly; reflexivity]. f_equal; [apply words_bytes_inj; congruence|apply IH; assumption].
Qed.
Lemma blocks_unique m bs : Forall octet m -> blocks_of (s_w p) m bs -> bs = pad_blocks m.
Proof.
  intros Hm H. pose proof (pad_blocks_of m Hm) as H'. unfold blocks_of in H, H'. cbv zeta in H, H'. rewrite wb_val in H, H'. destruct H as (Fb & z & Hz & E), H' as (Fb' & z' & Hz' & E').
  apply blocks_bytes_inj; [assumption..|]. rewrite E, E'. assert (Ez : z = z'); [|rewrite Ez; reflexivity].
  apply (f_equal (@List.length N)) in E, E'. rewrite blocks_length in E by assumption. rewrite blocks_length in E' by assumption. rewrite !app_length, !repeat_length, !be_bytes_length in E, E'. cbn [List.length] in E, E'.
  set (k := (16 * wb)%nat) in *. set (c := (List.length m + (1 + (2 * wb)))%nat). assert (Ea : (List.length bs * k = c + z)%nat) by lia. assert (Eb : (List.length (pad_blocks m) * k = c + z')%nat) by lia.
  clear - Ea Eb Hz Hz'. destruct (Nat.lt_trichotomy (List.length bs) (List.length (pad_blocks m))) as [L|[L|L]]; [|rewrite L in Ea; lia|]; nia.
Qed.
Lemma sha_fold init c : sha_with p init c = flat_map (be_bytes wb) (state_words (fold_left (sha_block p) (pad_blocks c) init)).
Proof.
  unfold sha_with, pad_blocks, state_words. cbv zeta. rewrite wb_val. 
  assert (Hg : forall l s, fold_left (fun s blk => sha_block p s (map be_val (sha_chunks wb blk))) l s = fold_left (sha_block p) (map (block_words wb) l) s) by (induction l as [|x l IH]; intro s; [reflexivity|apply IH]).
  rewrite Hg. reflexivity.
Qed.
Lemma md_collision init a b : words (s_w p) (state_words init) -> Forall octet a -> Forall octet b ->
  8 * N.of_nat (List.length a) < 2 ^ (2 * s_w p) -> 8 * N.of_nat (List.length b) < 2 ^ (2 * s_w p) ->
  a <> b -> sha_with p init a = sha_with p init b -> collide p init a b.
Proof.
  intros Hi Ha Hb Sa Sb Hn H.
  assert (Hst : forall l, words (s_w p) (state_words (fold_left (sha_block p) l init))).
  { intro l. induction l as [|x l _] using rev_ind; [exact Hi|]. rewrite fold_left_app. apply block_state. }
  rewrite !sha_fold in H. apply state_out in H; [|rewrite <- Hw; apply Hst..].
  destruct (pad_blocks_ok a Ha) as (_ & Na & _). destruct (pad_blocks_ok b Hb) as (_ & Nb & _).
  exists (pad_blocks a), (pad_blocks b). cut (exists x y, In x (inputs p init (pad_blocks a)) /\ In y (inputs p init (pad_blocks b)) /\ x <> y /\ sha_block p (fst x) (snd x) = sha_block p (fst y) (snd y)).
  { intros (x & y & H'). exists x, y. split; [apply pad_blocks_of, Ha|]. split; [apply pad_blocks_of, Hb|exact H']. }
  destruct (Nat.eq_dec (List.length a) (List.length b)) as [E|E].
  - destruct (blocks_same_length a b Ha Hb E Hn) as [E1 E2]. apply fold_collision; assumption.
  - destruct (exists_last Na) as (u & x & Ea). destruct (exists_last Nb) as (v & y & Eb). rewrite Ea, Eb, !fold_left_app in H. cbn [fold_left] in H.
    exists (fold_left (sha_block p) u init, x), (fold_left (sha_block p) v init, y). rewrite Ea, Eb, !inputs_app. split; [apply in_or_app; right; left; reflexivity|]. split; [apply in_or_app; right; left; reflexivity|].
    split; [|assumption]. intro Ec. apply E. apply (last_block a b x y u v); congruence.
Qed.
End Padding.

(** ** the two hash functions *)
Lemma words_dec w l : forallb (fun x => x <? 2 ^ w) l = true -> words w l.
Proof. intro H. apply Forall_forall. intros x Hx. rewrite forallb_forall in H. apply N.ltb_lt, H, Hx. Qed.
Lemma sha256_collide a b : Forall octet a -> Forall octet b -> N.of_nat (List.length a) < 2 ^ 61 -> N.of_nat (List.length b) < 2 ^ 61 ->
  a <> b -> sha256 a = sha256 b -> collide256 a b.
Proof.
  intros Ha Hb La Lb. apply (md_collision sha256_params 4); try assumption; [discriminate|reflexivity|apply words_dec; reflexivity| |];
    change (s_w sha256_params) with 32; change (2 ^ (2 * 32)) with (8 * 2 ^ 61); lia.
Qed.
Lemma sha512_collide a b : Forall octet a -> Forall octet b -> N.of_nat (List.length a) < 2 ^ 61 -> N.of_nat (List.length b) < 2 ^ 61 ->
  a <> b -> sha512 a = sha512 b -> collide512 a b.
Proof.
  intros Ha Hb La Lb. apply (md_collision sha512_params 8); try assumption; [discriminate|reflexivity|apply words_dec; reflexivity| |];
    change (s_w sha512_params) with 64; change (2 ^ (2 * 64)) with (8 * (2 ^ 64 * 2 ^ 61)); nia.
Qed.

Lemma sha256_blocks m bs : Forall octet m -> blocks_of 32 m bs -> sha256 m = flat_map (be_bytes 4) (state_words (fold_left (sha_block sha256_params) bs sha256_init)).
Proof. intros Hm Hb. rewrite (blocks_unique sha256_params 4 (Nat.neq_succ_0 3) eq_refl m bs Hm Hb). apply sha_fold; first [discriminate|reflexivity]. Qed.
Lemma sha512_blocks m bs : Forall octet m -> blocks_of 64 m bs -> sha512 m = flat_map (be_bytes 8) (state_words (fold_left (sha_block sha512_params) bs sha512_init)).
Proof. intros Hm Hb. rewrite (blocks_unique sha512_params 8 (Nat.neq_succ_0 7) eq_refl m bs Hm Hb). apply sha_fold; first [discriminate|reflexivity]. Qed.
Lemma no_collision256 a b : Forall octet a -> Forall octet b -> let l := inputs sha256_params sha256_init (pad_blocks sha256_params 4 a) in let l' := inputs sha256_params sha256_init (pad_blocks sha256_params 4 b) in
  forallb (fun x => forallb (fun y => if list_eq_dec N.eq_dec (state_words (sha_block sha256_params (fst x) (snd x))) (state_words (sha_block sha256_params (fst y) (snd y))) then false else true) l') l = true -> ~ collide256 a b.
Proof.
  intros Ha Hb l l' H (bs & bs' & x & y & Hs & Hs' & Hx & Hy & Hn & He).
  rewrite (blocks_unique sha256_params 4 (Nat.neq_succ_0 3) eq_refl a bs Ha Hs) in Hx. rewrite (blocks_unique sha256_params 4 (Nat.neq_succ_0 3) eq_refl b bs' Hb Hs') in Hy.
  rewrite forallb_forall in H. specialize (H x Hx). rewrite forallb_forall in H. specialize (H y Hy). cbv beta in H. destruct (list_eq_dec _ _ _) as [_|E]; [discriminate|]. apply E. rewrite He. reflexivity.
Qed.

(** ** HMAC *)
Definition hmac_key (key : bytes) : bytes :=
  let k0 := if Nat.ltb 64 (List.length key) then sha256 key else key in k0 ++ repeat 0 (64 - List.length k0).
Lemma hmac_unfold key d : hmac256 key d = sha256 (map (N.lxor 92) (hmac_key key) ++ sha256 (map (N.lxor 54) (hmac_key key) ++ d)).
Proof. reflexivity. Qed.
Lemma hmac_key_length key : List.length (hmac_key key) = 64%nat.
Proof.
  unfold hmac_key. cbv zeta. rewrite app_length, repeat_length. destruct (Nat.ltb 64 (List.length key)) eqn:E; [rewrite sha256_length; reflexivity|].
  apply Nat.ltb_ge in E. lia.
Qed.
Lemma hmac_key_octet key : Forall octet key -> Forall octet (hmac_key key).
Proof.
  intro H. unfold hmac_key. cbv zeta. apply Forall_app. split; [destruct (Nat.ltb _ _); [apply sha256_octet|assumption]|].
  apply Forall_forall. intros x Hx. apply repeat_spec in Hx. subst. reflexivity.
Qed.
Lemma xor_octet c l : octet c -> Forall octet l -> Forall octet (map (N.lxor c) l).
Proof.
  unfold octet. intros Hc H. rewrite Forall_map. eapply Forall_impl; [|exact H]. intros x Hx. cbv beta in *. destruct (N.eq_dec (N.lxor c x) 0) as [->|E]; [reflexivity|].
  change 256 with (2 ^ 8) in *. apply N.log2_lt_pow2; [lia|]. eapply N.le_lt_trans; [apply N.log2_lxor|].
  assert (Hl : forall y, y < 2 ^ 8 -> N.log2 y < 8) by (intros y Hy; destruct (N.eq_dec y 0) as [->|]; [reflexivity|apply N.log2_lt_pow2; [lia|assumption]]).
  apply N.max_lub_lt; apply Hl; assumption.
Qed.
Lemma xor_inj c a : forall b, map (N.lxor c) a = map (N.lxor c) b -> a = b.
Proof.
  induction a as [|x a IH]; intros [|y b] H; try discriminate; [reflexivity|]. cbn [map] in H. injection H as Hx H. f_equal; [|apply IH, H].
  apply (f_equal (N.lxor c)) in Hx. rewrite <- !N.lxor_assoc, N.lxor_nilpotent, !N.lxor_0_l in Hx. exact Hx.
Qed.
Lemma effective_spec x : effective x = if Nat.ltb 64 (List.length x) then sha256 x else x.
Proof. unfold effective. destruct (le_lt_dec (List.length x) 64) as [L|L]; [apply Nat.ltb_ge in L|apply Nat.ltb_lt in L]; rewrite L; reflexivity. Qed.
Lemma hmac_key_block key : key_block key (hmac_key key).
Proof. split; [apply hmac_key_length|]. unfold hmac_key. cbv zeta. rewrite <- effective_spec. eexists. reflexivity. Qed.
Lemma hmac_inner key d : inner_text key d (map (N.lxor 54) (hmac_key key) ++ d).
Proof. eexists. split; [apply hmac_key_block|reflexivity]. Qed.
Lemma hmac_outer key d : outer_text key d (map (N.lxor 92) (hmac_key key) ++ sha256 (map (N.lxor 54) (hmac_key key) ++ d)).
Proof. do 2 eexists. split; [apply hmac_key_block|]. split; [apply hmac_inner|reflexivity]. Qed.
Lemma key_block_unique k b b' : key_block k b -> key_block k b' -> b = b'.
Proof. intros [L [n ->]] [L' [n' ->]]. rewrite app_length, repeat_length in L, L'. replace n' with n by lia. reflexivity. Qed.
Lemma outer_unique k d t t' : outer_text k d t -> outer_text k d t' -> t = t'.
Proof.
  intros (b & i & Hb & (c & Hc & ->) & ->) (b' & i' & Hb' & (c' & Hc' & ->) & ->). rewrite (key_block_unique _ _ _ Hb Hb'), (key_block_unique _ _ _ Hc Hc'). reflexivity.
Qed.
Lemma hmac_collide key d d' : Forall octet key -> in_memory d -> in_memory d' -> d <> d' -> hmac256 key d = hmac256 key d' -> mac_collide key d key d'.
Proof.
  intros Hk [Hd Ld] [Hd' Ld'] Hn H. rewrite !hmac_unfold in H. pose proof (hmac_key_octet _ Hk) as Ho. pose proof (hmac_key_length key) as Hl.
  destruct (list_eq_dec N.eq_dec (sha256 (map (N.lxor 54) (hmac_key key) ++ d)) (sha256 (map (N.lxor 54) (hmac_key key) ++ d'))) as [E|E].
  - right. do 2 eexists. split; [apply hmac_inner|]. split; [apply hmac_inner|].
    apply sha256_collide in E; [exact E|apply Forall_app; split; [apply xor_octet; [reflexivity|assumption]|assumption]..| | |intro E2; apply app_inv_head in E2; auto];
      rewrite app_length, map_length, Hl; change (2 ^ 61) with (2 ^ 60 + 2 ^ 60); change (2 ^ 60) with 1152921504606846976 in *; lia.
  - left. do 2 eexists. split; [apply hmac_outer|]. split; [apply hmac_outer|].
    apply sha256_collide in H; [exact H|apply Forall_app; split; [apply xor_octet; [reflexivity|assumption]|apply sha256_octet]..| | |intro E2; apply app_inv_head in E2; auto];
      rewrite app_length, map_length, Hl, sha256_length; reflexivity.
Qed.
Lemma hmac_keys_collide k k' d : Forall octet k -> Forall octet k' -> hmac256 k d = hmac256 k' d -> hmac_key k <> hmac_key k' -> outer_collide k d k' d.
Proof.
  intros Hk Hk' H Hn. rewrite !hmac_unfold in H. do 2 eexists. split; [apply hmac_outer|]. split; [apply hmac_outer|].
  apply sha256_collide in H; [exact H|apply Forall_app; split; [apply xor_octet; [reflexivity|apply hmac_key_octet; assumption]|apply sha256_octet]..| | |].
  - rewrite app_length, map_length, hmac_key_length, sha256_length. reflexivity.
  - rewrite app_length, map_length, hmac_key_length, sha256_length. reflexivity.
  - intro E. apply Hn. apply app_eq_len in E as [E _]; [|rewrite !map_length, !hmac_key_length; reflexivity]. exact (xor_inj _ _ _ E).
Qed.
Lemma padded_eq (a : bytes) : forall b n m, a ++ repeat 0 n = b ++ repeat 0 m -> (exists i, b = a ++ repeat 0 i) \/ (exists i, a = b ++ repeat 0 i).
Proof.
  induction a as [|x a IH]; intros b n m H.
  - left. exists (List.length b). cbn [app] in *. apply (f_equal (firstn (List.length b))) in H. rewrite firstn_app, firstn_all, Nat.sub_diag in H. cbn [firstn] in H. rewrite app_nil_r in H.
    rewrite <- H at 1. assert (Hr : forall i j, (i <= j)%nat -> firstn i (repeat 0 j) = repeat 0 i) by (induction i as [|i IHi]; intros [|j] Hj; try reflexivity; [lia|]; cbn [repeat firstn]; f_equal; apply IHi; lia).
    apply (f_equal (@List.length N)) in H. rewrite firstn_length, repeat_length in H. apply Hr. lia.
  - destruct b as [|y b].
    + right. exists (List.length (x :: a)). cbn [app] in H |- *. symmetry in H. apply (f_equal (firstn (S (List.length a)))) in H. 
      assert (Hr : forall i j, (i <= j)%nat -> firstn i (repeat 0 j) = repeat 0 i) by (induction i as [|i IHi]; intros [|j] Hj; try reflexivity; [lia|]; cbn [repeat firstn]; f_equal; apply IHi; lia).
      pose proof (f_equal (@List.length N) H) as Hl. rewrite !firstn_length, repeat_length in Hl. cbn [List.length] in Hl. rewrite app_length in Hl.
      rewrite Hr in H by lia. cbn [firstn] in H. rewrite firstn_app, firstn_all, Nat.sub_diag in H. cbn [firstn] in H. rewrite app_nil_r in H. symmetry. exact H.
    + cbn [app] in H. injection H as -> H. destruct (IH b n m H) as [[i ->]|[i ->]]; [left|right]; exists i; reflexivity.
Qed.

(** ** constants *)
Definition below (n : N) : list N := map N.of_nat (seq 0 (N.to_nat n)).
Lemma below_in n x : In x (below n) <-> x < n.
Proof.
  unfold below. rewrite in_map_iff. split; [intros (i & <- & H); apply in_seq in H; lia|]. intro H. exists (N.to_nat x). split; [lia|]. apply in_seq. lia.
Qed.
Definition primeb (n : N) : bool := (2 <=? n) && forallb (fun d => (d <? 2) || negb (n mod d =? 0)) (below n).
Lemma primeb_spec n : primeb n = true <-> prime n.
Proof.
  unfold primeb, prime. rewrite andb_true_iff, N.leb_le, forallb_forall. split; intros [H1 H2]; (split; [exact H1|]).
  - intros d Hd Hn. specialize (H2 d (proj2 (below_in _ _) Hn)). apply orb_true_iff in H2 as [H2|H2]; [apply N.ltb_lt in H2; lia|]. apply negb_true_iff, N.eqb_neq in H2. exact H2.
  - intros d Hd. apply below_in in Hd. apply orb_true_iff. destruct (N.ltb_spec d 2) as [|Hl]; [left; reflexivity|right]. apply negb_true_iff, N.eqb_neq. auto.
Qed.
Definition primes : list N := filter primeb (below 410).
Lemma filter_map_seq (f : nat -> bool) : forall n a i p q, nth_error (filter f (seq a n)) i = Some p -> nth_error (filter f (seq a n)) (S i) = Some q -> (a <= p < q)%nat.
Proof.
  induction n as [|n IH]; intros a i p q Hp Hq; cbn [seq filter] in *; [destruct i; discriminate|]. destruct (f a).
  - destruct i as [|i]; cbn [nth_error] in Hp, Hq.
    + injection Hp as <-. assert (Hi : In q (filter f (seq (S a) n))) by (apply (nth_error_In _ 0%nat); exact Hq). apply filter_In in Hi as [Hi _]. apply in_seq in Hi. lia.
    + specialize (IH _ _ _ _ Hp Hq). lia.
  - specialize (IH _ _ _ _ Hp Hq). lia.
Qed.
Lemma filter_map_comm {A B} (f : A -> B) (g : B -> bool) l : filter g (map f l) = map f (filter (fun x => g (f x)) l).
Proof. induction l as [|x l IH]; [reflexivity|]. cbn [map filter]. rewrite IH. destruct (g (f x)); reflexivity. Qed.
Lemma primes_first : first_primes primes.
Proof.
  unfold first_primes, primes. split; [|split].
  - apply Forall_forall. intros p Hp. apply filter_In in Hp as [_ Hp]. apply primeb_spec, Hp.
  - intros i p q Hp Hq. unfold below in *. rewrite filter_map_comm in *. rewrite nth_error_map in *.
    destruct (nth_error (filter _ _) i) as [a|] eqn:Ea in Hp; [|discriminate]. destruct (nth_error (filter _ _) (S i)) as [b|] eqn:Eb in Hq; [|discriminate]. injection Hp as <-. injection Hq as <-.
    pose proof (filter_map_seq _ _ _ _ _ _ Ea Eb). lia.
  - intros n Hn (p & Hp & Hle). apply filter_In. apply filter_In in Hp as [Hp _]. apply below_in in Hp. split; [apply below_in; lia|apply primeb_spec, Hn].
Qed.
Definition rootb (e w p k : N) : bool :=
  (k <? 2 ^ w) && existsb (fun q => ((q * 2 ^ w + k) ^ e <=? p * 2 ^ (e * w)) && (p * 2 ^ (e * w) <? (q * 2 ^ w + k + 1) ^ e)) (below 8).
Lemma rootb_ok e w p k : rootb e w p k = true -> k < 2 ^ w /\ exists q, (q * 2 ^ w + k) ^ e <= p * 2 ^ (e * w) < (q * 2 ^ w + k + 1) ^ e.
Proof.
  unfold rootb. rewrite andb_true_iff, N.ltb_lt, existsb_exists. intros [H (q & _ & Hq)]. split; [exact H|]. exists q. apply andb_true_iff in Hq as [H1 H2]. split; [apply N.leb_le, H1|apply N.ltb_lt, H2].
Qed.
Fixpoint all2 (f : N -> N -> bool) (a b : list N) : bool :=
  match a, b with [], [] => true | x :: a, y :: b => f x y && all2 f a b | _, _ => false end.
Lemma all2_ok f (P : N -> N -> Prop) : (forall x y, f x y = true -> P x y) -> forall a b, all2 f a b = true -> Forall2 P a b.
Proof.
  intro Hf. induction a as [|x a IH]; intros [|y b] H; try discriminate; constructor; cbn [all2] in H; apply andb_true_iff in H as [H1 H2]; auto.
Qed.
Lemma constants : List.length primes = 80%nat
  /\ Forall2 (cube_root_bits 32) (firstn 64 primes) (s_k sha256_params) /\ Forall2 (cube_root_bits 64) primes (s_k sha512_params)
  /\ Forall2 (square_root_bits 32) (firstn 8 primes) (state_words sha256_init) /\ Forall2 (square_root_bits 64) (firstn 8 primes) (state_words sha512_init).
Proof.
  split; [vm_compute; reflexivity|]. split; [|split; [|split]].
  - apply (all2_ok (rootb 3 32)); [intros; apply rootb_ok; assumption|vm_compute; reflexivity].
  - apply (all2_ok (rootb 3 64)); [intros; apply rootb_ok; assumption|vm_compute; reflexivity].
  - apply (all2_ok (rootb 2 32)); [intros; apply rootb_ok; assumption|vm_compute; reflexivity].
  - apply (all2_ok (rootb 2 64)); [intros; apply rootb_ok; assumption|vm_compute; reflexivity].
Qed.
