(** Base64 (crates [base64], engine STANDARD, and the decoder that [sfv] configures). *)
From Verif Require Import Base.

(** Alphabet A-Z a-z 0-9 + /. *)
Definition b64_char (v : N) : char :=
  if v <? 26 then 65 + v
  else if v <? 52 then 71 + v
  else if v <? 62 then v - 4
  else if v =? 62 then 43 else 47.

Definition b64_val (c : char) : option N :=
  if (65 <=? c) && (c <=? 90) then Some (c - 65)
  else if (97 <=? c) && (c <=? 122) then Some (c - 71)
  else if (48 <=? c) && (c <=? 57) then Some (c + 4)
  else if c =? 43 then Some 62
  else if c =? 47 then Some 63
  else None.

(** [general_purpose::STANDARD.encode]: padded. Used at signature_base.rs:132, signature_params.rs:100,
    hyper_content_digest.rs:39, symmetric.rs:81, asymmetric.rs:431. *)
Fixpoint b64_encode (s : bytes) : str :=
  match s with
  | [] => []
  | [a] => [b64_char (a / 4); b64_char ((a mod 4) * 16); cEq; cEq]
  | [a; b] => [b64_char (a / 4); b64_char ((a mod 4) * 16 + b / 16); b64_char ((b mod 16) * 4); cEq]
  | a :: b :: c :: r =>
      b64_char (a / 4) :: b64_char ((a mod 4) * 16 + b / 16)
      :: b64_char ((b mod 16) * 4 + c / 64) :: b64_char (c mod 64) :: b64_encode r
  end.

(** Bytes of a final group of 2 or 3 alphabet characters. [lax] = trailing bits allowed. *)
Definition b64_fin2 (lax : bool) (a b : char) : option bytes :=
  match b64_val a, b64_val b with
  | Some x, Some y => if lax || (y mod 16 =? 0) then Some [x * 4 + y / 16] else None
  | _, _ => None
  end.
Definition b64_fin3 (lax : bool) (a b c : char) : option bytes :=
  match b64_val a, b64_val b, b64_val c with
  | Some x, Some y, Some z =>
      if lax || (z mod 4 =? 0) then Some [x * 4 + y / 16; (y mod 16) * 16 + z / 4] else None
  | _, _, _ => None
  end.

(** Decoder. [lax = false]: STANDARD (canonical padding required, trailing bits must be zero;
    symmetric.rs:25). [lax = true]: the engine that [sfv] uses for byte sequences
    (trailing bits allowed, padding "indifferent": final group with or without [=]). *)
Fixpoint b64_decode (lax : bool) (s : str) : option bytes :=
  match s with
  | [] => Some []
  | [a; b] => if lax then b64_fin2 lax a b else None
  | [a; b; c] =>
      if lax then (if c =? cEq then b64_fin2 lax a b else b64_fin3 lax a b c) else None
  | a :: b :: c :: d :: r =>
      if d =? cEq then
        match r with
        | [] => if c =? cEq then b64_fin2 lax a b else b64_fin3 lax a b c
        | _ => None
        end
      else
        match b64_val a, b64_val b, b64_val c, b64_val d with
        | Some x, Some y, Some z, Some w =>
            match b64_decode lax r with
            | Some t => Some (x * 4 + y / 16 :: (y mod 16) * 16 + z / 4 :: (z mod 4) * 64 + w :: t)
            | None => None
            end
        | _, _, _, _ => None
        end
  | _ => None
  end.
