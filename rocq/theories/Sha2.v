(** SHA-256, SHA-512 and HMAC-SHA-256 (crates sha2 and hmac, FIPS 180-4 and RFC 2104), written out so that the hash parameters of Crypto.v
    and Digest.v have a concrete instance and the test vectors of /repo can be run. The crates are not in /repo. *)
From Verif Require Import Base.

(** words of [w] bits *)
Definition wadd (w a b : N) : N := (a + b) mod 2 ^ w.
Definition rotr (w n x : N) : N := N.lor (N.shiftr x n) (N.shiftl x (w - n) mod 2 ^ w).
Definition wnot (w x : N) : N := N.lxor x (2 ^ w - 1).

(** the parameters that differ between SHA-256 and SHA-512 (FIPS 180-4, section 4): word size, rotations, constants *)
Record sha := mkSha {
  s_w : N;
  s_S0 : N * N * N; s_S1 : N * N * N;       (* the rotations of the functions Sigma *)
  s_s0 : N * N * N; s_s1 : N * N * N;       (* two rotations and a shift of the functions sigma *)
  s_k : list N }.

Record st := mkSt { s_a : N; s_b : N; s_c : N; s_d : N; s_e : N; s_f : N; s_g : N; s_h : N }.

Definition sha_big (w : N) (r : N * N * N) (x : N) : N :=
  let '(i, j, k) := r in N.lxor (rotr w i x) (N.lxor (rotr w j x) (rotr w k x)).
Definition sha_small (w : N) (r : N * N * N) (x : N) : N :=
  let '(i, j, k) := r in N.lxor (rotr w i x) (N.lxor (rotr w j x) (N.shiftr x k)).
Definition sha_ch (w x y z : N) : N := N.lxor (N.land x y) (N.land (wnot w x) z).
Definition sha_maj (x y z : N) : N := N.lxor (N.land x y) (N.lxor (N.land x z) (N.land y z)).

(** FIPS 180-4, 6.2.2 step 3 *)
Definition sha_round (p : sha) (s : st) (kw : N * N) : st :=
  let w := s_w p in
  let t1 := wadd w (s_h s) (wadd w (sha_big w (s_S1 p) (s_e s)) (wadd w (sha_ch w (s_e s) (s_f s) (s_g s)) (wadd w (fst kw) (snd kw)))) in
  let t2 := wadd w (sha_big w (s_S0 p) (s_a s)) (sha_maj (s_a s) (s_b s) (s_c s)) in
  mkSt (wadd w t1 t2) (s_a s) (s_b s) (s_c s) (wadd w (s_d s) t1) (s_e s) (s_f s) (s_g s).

(** 6.2.2 step 1, the message schedule: [last] are the sixteen words before, oldest first *)
Fixpoint sha_schedule (p : sha) (n : nat) (last : list N) : list N :=
  match n with
  | O => []
  | S n =>
      let w := s_w p in
      let x := wadd w (sha_small w (s_s1 p) (nth 14 last 0)) (wadd w (nth 9 last 0) (wadd w (sha_small w (s_s0 p) (nth 1 last 0)) (nth 0 last 0))) in
      x :: sha_schedule p n (tl last ++ [x])
  end.

(** 6.2.2, one block *)
Definition sha_block (p : sha) (s : st) (ws : list N) : st :=
  let w := s_w p in
  let r := fold_left (sha_round p) (combine (s_k p) (ws ++ sha_schedule p (List.length (s_k p) - 16) ws)) s in
  mkSt (wadd w (s_a s) (s_a r)) (wadd w (s_b s) (s_b r)) (wadd w (s_c s) (s_c r)) (wadd w (s_d s) (s_d r))
       (wadd w (s_e s) (s_e r)) (wadd w (s_f s) (s_f r)) (wadd w (s_g s) (s_g r)) (wadd w (s_h s) (s_h r)).

(** big-endian numbers of [n] bytes *)
Fixpoint be_bytes (n : nat) (x : N) : bytes :=
  match n with O => [] | S n => be_bytes n (x / 256) ++ [x mod 256] end.
Definition be_val (b : bytes) : N := fold_left (fun a x => 256 * a + x) b 0.

(** groups of [n] bytes *)
Fixpoint sha_chunks_f (fuel n : nat) (b : bytes) : list bytes :=
  match fuel, b with
  | S f, _ :: _ => firstn n b :: sha_chunks_f f n (skipn n b)
  | _, _ => []
  end.
Definition sha_chunks (n : nat) (b : bytes) : list bytes := sha_chunks_f (List.length b) n b.

(** 5.1, padding: a one bit, zeros, the length in bits as a number of two words *)
Definition sha_pad (p : sha) (b : bytes) : bytes :=
  let wb := N.to_nat (s_w p / 8) in
  let blk := (16 * wb)%nat in
  let used := ((List.length b + 1 + 2 * wb) mod blk)%nat in
  b ++ [128] ++ repeat 0 ((blk - used) mod blk)%nat ++ be_bytes (2 * wb) (8 * N.of_nat (List.length b)).

(** the hash: the eight words of the final state *)
Definition sha_with (p : sha) (init : st) (b : bytes) : bytes :=
  let wb := N.to_nat (s_w p / 8) in
  let s := fold_left (fun s blk => sha_block p s (map be_val (sha_chunks wb blk))) (sha_chunks (16 * wb) (sha_pad p b)) init in
  flat_map (be_bytes wb) [s_a s; s_b s; s_c s; s_d s; s_e s; s_f s; s_g s; s_h s].

(** 4.1.2, 4.2.2, 5.3.3 *)
Definition sha256_params : sha := mkSha 32 (2, 13, 22) (6, 11, 25) (7, 18, 3) (17, 19, 10)
  [1116352408; 1899447441; 3049323471; 3921009573; 961987163; 1508970993; 2453635748; 2870763221;
   3624381080; 310598401; 607225278; 1426881987; 1925078388; 2162078206; 2614888103; 3248222580;
   3835390401; 4022224774; 264347078; 604807628; 770255983; 1249150122; 1555081692; 1996064986;
   2554220882; 2821834349; 2952996808; 3210313671; 3336571891; 3584528711; 113926993; 338241895;
   666307205; 773529912; 1294757372; 1396182291; 1695183700; 1986661051; 2177026350; 2456956037;
   2730485921; 2820302411; 3259730800; 3345764771; 3516065817; 3600352804; 4094571909; 275423344;
   430227734; 506948616; 659060556; 883997877; 958139571; 1322822218; 1537002063; 1747873779;
   1955562222; 2024104815; 2227730452; 2361852424; 2428436474; 2756734187; 3204031479; 3329325298].
Definition sha256_init : st :=
  mkSt 1779033703 3144134277 1013904242 2773480762 1359893119 2600822924 528734635 1541459225.
(** 4.1.3, 4.2.3, 5.3.5 *)
Definition sha512_params : sha := mkSha 64 (28, 34, 39) (14, 18, 41) (1, 8, 7) (19, 61, 6)
  [4794697086780616226; 8158064640168781261; 13096744586834688815; 16840607885511220156;
   4131703408338449720; 6480981068601479193; 10538285296894168987; 12329834152419229976;
   15566598209576043074; 1334009975649890238; 2608012711638119052; 6128411473006802146;
   8268148722764581231; 9286055187155687089; 11230858885718282805; 13951009754708518548;
   16472876342353939154; 17275323862435702243; 1135362057144423861; 2597628984639134821;
   3308224258029322869; 5365058923640841347; 6679025012923562964; 8573033837759648693;
   10970295158949994411; 12119686244451234320; 12683024718118986047; 13788192230050041572;
   14330467153632333762; 15395433587784984357; 489312712824947311; 1452737877330783856;
   2861767655752347644; 3322285676063803686; 5560940570517711597; 5996557281743188959;
   7280758554555802590; 8532644243296465576; 9350256976987008742; 10552545826968843579;
   11727347734174303076; 12113106623233404929; 14000437183269869457; 14369950271660146224;
   15101387698204529176; 15463397548674623760; 17586052441742319658; 1182934255886127544;
   1847814050463011016; 2177327727835720531; 2830643537854262169; 3796741975233480872;
   4115178125766777443; 5681478168544905931; 6601373596472566643; 7507060721942968483;
   8399075790359081724; 8693463985226723168; 9568029438360202098; 10144078919501101548;
   10430055236837252648; 11840083180663258601; 13761210420658862357; 14299343276471374635;
   14566680578165727644; 15097957966210449927; 16922976911328602910; 17689382322260857208;
   500013540394364858; 748580250866718886; 1242879168328830382; 1977374033974150939;
   2944078676154940804; 3659926193048069267; 4368137639120453308; 4836135668995329356;
   5532061633213252278; 6448918945643986474; 6902733635092675308; 7801388544844847127].
Definition sha512_init : st :=
  mkSt 7640891576956012808 13503953896175478587 4354685564936845355 11912009170470909681
       5840696475078001361 11170449401992604703 2270897969802886507 6620516959819538809.

Definition sha256 : bytes -> bytes := sha_with sha256_params sha256_init.
Definition sha512 : bytes -> bytes := sha_with sha512_params sha512_init.

(** RFC 2104 with SHA-256: blocks of 64 bytes *)
Definition hmac256 (key data : bytes) : bytes :=
  let k0 := if Nat.ltb 64 (List.length key) then sha256 key else key in
  let k := k0 ++ repeat 0 (64 - List.length k0) in
  sha256 (map (N.lxor 92) k ++ sha256 (map (N.lxor 54) k ++ data)).

