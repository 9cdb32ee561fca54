(** UTF-8 (Rust [str::as_bytes], [String::from_utf8]). *)
From Verif Require Import Base.

(** A Unicode scalar value: what a Rust [char] can hold. *)
Definition is_scalar (c : char) : bool :=
  (c <? 55296) || ((57344 <=? c) && (c <? 1114112)).

(** UTF-8 encoding of one scalar value. *)
Definition utf8_enc1 (c : char) : bytes :=
  if c <? 128 then [c]
  else if c <? 2048 then [192 + c / 64; 128 + c mod 64]
  else if c <? 65536 then [224 + c / 4096; 128 + (c / 64) mod 64; 128 + c mod 64]
  else [240 + c / 262144; 128 + (c / 4096) mod 64; 128 + (c / 64) mod 64; 128 + c mod 64].

(** [str::as_bytes]. *)
Definition utf8 (s : str) : bytes := flat_map utf8_enc1 s.

Definition is_cont (b : byte) : bool := (128 <=? b) && (b <? 192).

(** Validity of a byte string as UTF-8 (Unicode table 3-7), as checked by [String::from_utf8]. *)
Fixpoint utf8_valid (s : bytes) : bool :=
  match s with
  | [] => true
  | a :: r =>
      if a <? 128 then utf8_valid r
      else if (194 <=? a) && (a <? 224) then
        match r with b :: r1 => is_cont b && utf8_valid r1 | _ => false end
      else if (224 <=? a) && (a <? 240) then
        match r with
        | b :: c :: r1 =>
            (if a =? 224 then (160 <=? b) && (b <? 192)
             else if a =? 237 then (128 <=? b) && (b <? 160) else is_cont b)
            && is_cont c && utf8_valid r1
        | _ => false
        end
      else if (240 <=? a) && (a <? 245) then
        match r with
        | b :: c :: d :: r1 =>
            (if a =? 240 then (144 <=? b) && (b <? 192)
             else if a =? 244 then (128 <=? b) && (b <? 144) else is_cont b)
            && is_cont c && is_cont d && utf8_valid r1
        | _ => false
        end
      else false
  end.
