(** Specification: the one canonical text of a structured field value (RFC 9651 section 4.1). Only data types of the model are used. *)
From Verif Require Import Base Sfv SpecSfv SpecGrammar.

(** ** numbers *)
(** no needless zeros in front, or behind the point *)
Definition no_zeros_in_front (ds : str) : Prop := ds = lit "0" \/ forall r, ds <> lit "0" ++ r.
Definition no_zeros_behind (fs : str) : Prop := length fs = 1%nat \/ forall r, fs <> r ++ lit "0".
(** a sign exactly for negative numbers *)
Inductive canon_sign (n : N) (s : str) : Z -> str -> Prop :=
| cs_plus : canon_sign n s (Z.of_N n) s
| cs_minus : n <> 0 -> canon_sign n s (- Z.of_N n)%Z (lit "-" ++ s).
Definition canon_integer (z : Z) (t : str) : Prop := exists ds, digits 1 15 ds /\ no_zeros_in_front ds /\ canon_sign (number ds) ds z t.
Definition canon_decimal (z : Z) (t : str) : Prop :=
  exists ds fs, digits 1 12 ds /\ no_zeros_in_front ds /\ digits 1 3 fs /\ no_zeros_behind fs
    /\ canon_sign (number ds * 1000 + number fs * 10 ^ N.of_nat (3 - length fs)) (ds ++ lit "." ++ fs) z t.

(** ** display strings: only what has to be is written in hexadecimal *)
Inductive canon_disp : list N -> str -> Prop :=
| cd_nil : canon_disp [] []
| cd_plain c s t : printable c -> c <> 34 -> c <> 37 -> canon_disp s t -> canon_disp (c :: s) (c :: t)
| cd_hex x y a b s t : nth_error hex_digits (N.to_nat x) = Some a -> nth_error hex_digits (N.to_nat y) = Some b ->
    ~ printable (16 * x + y) \/ 16 * x + y = 34 \/ 16 * x + y = 37 -> canon_disp s t -> canon_disp (16 * x + y :: s) (37 :: a :: b :: t).

(** ** bare items; strings have one text only; base64 with padding *)
Inductive canon_bare : bare -> str -> Prop :=
| cb_int z t : canon_integer z t -> canon_bare (BInt z) t
| cb_dec z t : canon_decimal z t -> canon_bare (BDec z) t
| cb_str s t : chars_text s t -> canon_bare (BStr s) (lit """" ++ t ++ lit """")
| cb_tok t : canon_bare (BTok t) t
| cb_bytes b : canon_bare (BBytes b) (lit ":" ++ b64_text b ++ lit ":")
| cb_true : canon_bare (BBool true) (lit "?1")
| cb_false : canon_bare (BBool false) (lit "?0")
| cb_date z t : canon_integer z t -> canon_bare (BDate z) (lit "@" ++ t)
| cb_disp b t : canon_disp b t -> canon_bare (BDisp b) (lit "%""" ++ t ++ lit """").

(** ** the value true is not written in parameters and members *)
Inductive canon_param : str * bare -> str -> Prop :=
| cp_flag k : canon_param (k, BBool true) (lit ";" ++ k)
| cp_value k v t : v <> BBool true -> canon_bare v t -> canon_param (k, v) (lit ";" ++ k ++ lit "=" ++ t).
Definition canon_params (ps : params) (t : str) : Prop := exists ts, Forall2 canon_param ps ts /\ t = concat ts.
Definition canon_item (i : item) (t : str) : Prop := exists t1 t2, t = t1 ++ t2 /\ canon_bare (it_bare i) t1 /\ canon_params (it_params i) t2.
Definition canon_inner (l : inner) (t : str) : Prop :=
  exists ts body pt, t = lit "(" ++ body ++ lit ")" ++ pt /\ Forall2 canon_item (in_items l) ts
    /\ (ts = [] /\ body = [] \/ separated (eq (lit " ")) ts body) /\ canon_params (in_params l) pt.
Inductive canon_entry : entry -> str -> Prop :=
| ce_item i t : canon_item i t -> canon_entry (EItem i) t
| ce_inner l t : canon_inner l t -> canon_entry (EInner l) t.
Inductive canon_member : str * entry -> str -> Prop :=
| cm_flag k ps t : canon_params ps t -> canon_member (k, EItem (mkItem (BBool true) ps)) (k ++ t)
| cm_value k e t : (forall ps, e <> EItem (mkItem (BBool true) ps)) -> canon_entry e t -> canon_member (k, e) (k ++ lit "=" ++ t).
(** ** whole fields; there is no text for the empty list and the empty dictionary *)
Definition canon_list (l : slist) (t : str) : Prop := exists ts, Forall2 canon_entry l ts /\ separated (eq (lit ", ")) ts t.
Definition canon_dict (d : sdict) (t : str) : Prop := exists ts, Forall2 canon_member d ts /\ separated (eq (lit ", ")) ts t.
