(** Ed25519 (RFC 8032, section 5.1), written out for the test vectors in Conformance.v: crate ed25519-compact 2.2. *)
From Verif Require Import Base Sha2.

Definition p25519 : N := 2 ^ 255 - 19.
(** reduction by 2^255 = 19 *)
Definition fold25519 (x : N) : N := N.shiftr x 255 * 19 + N.land x (N.ones 255).
Definition red (x : N) : N := let y := fold25519 (fold25519 (fold25519 x)) in if p25519 <=? y then y - p25519 else y.
Definition fmul (x y : N) : N := red (x * y).
Definition fadd (x y : N) : N := red (x + y).
Definition fsub (x y : N) : N := red (x + (p25519 - y)).
Fixpoint fpow_pos (x : N) (e : positive) : N :=
  match e with
  | xH => x
  | xO e => let y := fpow_pos x e in fmul y y
  | xI e => let y := fpow_pos x e in fmul x (fmul y y)
  end.
Definition fpow (x e : N) : N := match e with 0 => 1 | Npos e => fpow_pos x e end.
Definition finv (x : N) : N := fpow x (p25519 - 2).

Definition d25519 : N := 37095705934669439343138083508754565189542113879843219016388785533085940283555.
Definition order25519 : N := 2 ^ 252 + 27742317777372353535851937790883648493.
(** points in extended coordinates *)
Record pt := mkPt { px : N; py : N; pz : N; pt_t : N }.
Definition pt_zero : pt := mkPt 0 1 1 0.
Definition pt_add (a b : pt) : pt :=
  let A := fmul (fsub (py a) (px a)) (fsub (py b) (px b)) in
  let B := fmul (fadd (py a) (px a)) (fadd (py b) (px b)) in
  let C := fmul (fmul (pt_t a) (2 * d25519)) (pt_t b) in
  let D := fmul (2 * pz a) (pz b) in
  let E := fsub B A in let F := fsub D C in let G := fadd D C in let H := fadd B A in
  mkPt (fmul E F) (fmul G H) (fmul F G) (fmul E H).
Fixpoint pt_mul_pos (n : positive) (a : pt) : pt :=
  match n with
  | xH => a
  | xO n => let r := pt_mul_pos n a in pt_add r r
  | xI n => let r := pt_mul_pos n a in pt_add a (pt_add r r)
  end.
Definition pt_mul (n : N) (a : pt) : pt := match n with 0 => pt_zero | Npos n => pt_mul_pos n a end.
Definition pt_neg (a : pt) : pt := mkPt (fsub 0 (px a)) (py a) (pz a) (fsub 0 (pt_t a)).

Definition le_val (b : bytes) : N := fold_right (fun x a => x + 256 * a) 0 b.
Fixpoint le_bytes (n : nat) (x : N) : bytes := match n with O => [] | S n => x mod 256 :: le_bytes n (x / 256) end.
Definition pt_encode (a : pt) : bytes :=
  let zi := finv (pz a) in let x := fmul (px a) zi in let y := fmul (py a) zi in
  le_bytes 32 (y + N.shiftl (x mod 2) 255).
(** section 5.1.3 *)
Definition pt_decode (b : bytes) : option pt :=
  if negb (Nat.eqb (List.length b) 32) then None
  else let n := le_val b in let s := N.shiftr n 255 in let y := N.land n (N.ones 255) in
  if p25519 <=? y then None
  else let u := fsub (fmul y y) 1 in let v := fadd (fmul d25519 (fmul y y)) 1 in
  let v3 := fmul v (fmul v v) in
  let x := fmul (fmul u v3) (fpow (fmul u (fmul v3 (fmul v3 v))) ((p25519 - 5) / 8)) in
  let vxx := fmul v (fmul x x) in
  let root := if vxx =? u then Some x else if vxx =? fsub 0 u then Some (fmul x (fpow 2 ((p25519 - 1) / 4))) else None in
  match root with
  | None => None
  | Some x => if (x =? 0) && (s =? 1) then None
              else let x := if x mod 2 =? s then x else fsub 0 x in Some (mkPt x y 1 (fmul x y))
  end.
Definition base25519 : pt :=
  let x := 15112221349535400772501151409588531511454012693041857206046113283949847762202 in
  let y := 46316835694926478169428394003475163141307993866256225615783033603165251855960 in mkPt x y 1 (fmul x y).

(** section 5.1.5: the scalar and the prefix of a seed; [ed_public] is the public key *)
Definition ed_scalar (seed : bytes) : N :=
  let n := le_val (firstn 32 (sha512 seed)) in N.land n (N.ones 254 - 7) + 2 ^ 254.
Definition ed_public_key (seed : bytes) : bytes := pt_encode (pt_mul (ed_scalar seed) base25519).
(** section 5.1.6 *)
Definition ed_signature (seed data : bytes) : bytes :=
  let s := ed_scalar seed in let A := ed_public_key seed in
  let r := le_val (sha512 (skipn 32 (sha512 seed) ++ data)) mod order25519 in
  let R := pt_encode (pt_mul r base25519) in
  let k := le_val (sha512 (R ++ A ++ data)) mod order25519 in
  R ++ le_bytes 32 ((r + k * s) mod order25519).
(** section 5.1.7, comparing encodings *)
Definition ed_valid (pub data sig : bytes) : bool :=
  if negb (Nat.eqb (List.length sig) 64) then false
  else let R := firstn 32 sig in let s := le_val (skipn 32 sig) in
  match pt_decode pub with
  | None => false
  | Some A => if order25519 <=? s then false
              else let k := le_val (sha512 (R ++ pub ++ data)) mod order25519 in
                   str_eqb (pt_encode (pt_add (pt_mul s base25519) (pt_neg (pt_mul k A)))) R
  end.
