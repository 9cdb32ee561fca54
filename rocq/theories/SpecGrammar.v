(** Specification: the grammar of structured fields (RFC 9651 sections 3 and 4.2), that is, which texts denote which values. Only the data types
    of Sfv.v are used. *)
From Verif Require Import Base Sfv SpecSfv.

(** ** numbers *)
Definition digits (lo hi : nat) (s : str) : Prop := (lo <= length s <= hi)%nat /\ Forall digit s.
Fixpoint number (s : str) : N :=
  match s with [] => 0 | c :: r => (c - 48) * 10 ^ N.of_nat (length r) + number r end.
Inductive with_sign (n : N) (s : str) : Z -> str -> Prop :=
| ws_plus : with_sign n s (Z.of_N n) s
| ws_minus : with_sign n s (- Z.of_N n)%Z (lit "-" ++ s).
(** sf-integer = ["-"] 1*15DIGIT *)
Definition integer_text (z : Z) (t : str) : Prop := exists ds, digits 1 15 ds /\ with_sign (number ds) ds z t.
(** sf-decimal = ["-"] 1*12DIGIT "." 1*3DIGIT; the value in thousandths *)
Definition decimal_text (z : Z) (t : str) : Prop :=
  exists ds fs, digits 1 12 ds /\ digits 1 3 fs
    /\ with_sign (number ds * 1000 + number fs * 10 ^ N.of_nat (3 - length fs)) (ds ++ lit "." ++ fs) z t.

(** ** strings *)
(** printable characters; double quote (34) and backslash (92) only after a backslash *)
Inductive chars_text : str -> str -> Prop :=
| ct_nil : chars_text [] []
| ct_plain c s t : printable c -> c <> 34 -> c <> 92 -> chars_text s t -> chars_text (c :: s) (c :: t)
| ct_escaped c s t : c = 34 \/ c = 92 -> chars_text s t -> chars_text (c :: s) (92 :: c :: t).

(** ** byte sequences: base64, padded or not, unused bits are ignored *)
Definition b64_digit (v c : N) : Prop := nth_error b64_alphabet (N.to_nat v) = Some c.
Inductive bytes_text : list N -> str -> Prop :=
| by_nil : bytes_text [] []
| by_one u v a b pad : b64_digit u a -> b64_digit v b -> In pad [[]; lit "="; lit "=="] ->
    bytes_text [(64 * u + v) / 16] (a :: b :: pad)
| by_two u v w a b c pad : b64_digit u a -> b64_digit v b -> b64_digit w c -> In pad [[]; lit "="] ->
    bytes_text [(4096 * u + 64 * v + w) / 1024; (4096 * u + 64 * v + w) / 4 mod 256] (a :: b :: c :: pad)
| by_three x y z u v w q a b c d r t : b64_digit u a -> b64_digit v b -> b64_digit w c -> b64_digit q d ->
    262144 * u + 4096 * v + 64 * w + q = 65536 * x + 256 * y + z -> octet y -> octet z -> bytes_text r t ->
    bytes_text (x :: y :: z :: r) (a :: b :: c :: d :: t).

(** ** display strings: printable characters; percent sign (37), double quote and all other bytes as two lower-case hexadecimal digits *)
Definition hex_digits : str := lit "0123456789abcdef".
Inductive disp_text : list N -> str -> Prop :=
| di_nil : disp_text [] []
| di_plain c s t : printable c -> c <> 34 -> c <> 37 -> disp_text s t -> disp_text (c :: s) (c :: t)
| di_hex x y a b s t : nth_error hex_digits (N.to_nat x) = Some a -> nth_error hex_digits (N.to_nat y) = Some b -> disp_text s t ->
    disp_text (16 * x + y :: s) (37 :: a :: b :: t).

(** ** bare items *)
Inductive bare_text : bare -> str -> Prop :=
| ba_int z t : integer_text z t -> bare_text (BInt z) t
| ba_dec z t : decimal_text z t -> bare_text (BDec z) t
| ba_str s t : chars_text s t -> bare_text (BStr s) (lit """" ++ t ++ lit """")
| ba_tok t : token_text t -> bare_text (BTok t) t
| ba_bytes b t : bytes_text b t -> bare_text (BBytes b) (lit ":" ++ t ++ lit ":")
| ba_true : bare_text (BBool true) (lit "?1")
| ba_false : bare_text (BBool false) (lit "?0")
| ba_date z t : integer_text z t -> bare_text (BDate z) (lit "@" ++ t)
| ba_disp b t : disp_text b t -> utf8_text b -> bare_text (BDisp b) (lit "%""" ++ t ++ lit """").

(** ** parameters *)
Definition spaces (w : str) : Prop := Forall (fun c => c = 32) w.
(** optional white space: spaces and tabs *)
Definition blanks (w : str) : Prop := Forall (fun c => c = 32 \/ c = 9) w.
Inductive param_text : str * bare -> str -> Prop :=
| pa_flag w k : spaces w -> key_text k -> param_text (k, BBool true) (lit ";" ++ w ++ k)
| pa_value w k v t : spaces w -> key_text k -> bare_text v t -> param_text (k, v) (lit ";" ++ w ++ k ++ lit "=" ++ t).
(** the map written as the list [l]: a key keeps its first place and its last value *)
Definition map_of {V} (l m : list (str * V)) : Prop :=
  map fst m = distinct [] (map fst l) /\ forall k v, In (k, v) m <-> last_value k l = Some v.
Definition parameters_text (ps : params) (t : str) : Prop := exists l ts, Forall2 param_text l ts /\ t = concat ts /\ map_of l ps.

(** ** items, inner lists, members *)
Definition item_text (i : item) (t : str) : Prop :=
  exists t1 t2, t = t1 ++ t2 /\ bare_text (it_bare i) t1 /\ parameters_text (it_params i) t2.
(** texts with separators between them *)
Inductive separated (sep : str -> Prop) : list str -> str -> Prop :=
| se_one t : separated sep [t] t
| se_more t w ts u : sep w -> separated sep ts u -> separated sep (t :: ts) (t ++ w ++ u).
Definition inner_text (l : inner) (t : str) : Prop :=
  exists w1 ts body w2 pt, t = lit "(" ++ w1 ++ body ++ w2 ++ lit ")" ++ pt /\ spaces w1 /\ spaces w2
    /\ Forall2 item_text (in_items l) ts /\ (ts = [] /\ body = [] \/ separated (fun w => spaces w /\ w <> []) ts body)
    /\ parameters_text (in_params l) pt.
Inductive entry_text : entry -> str -> Prop :=
| en_item i t : item_text i t -> entry_text (EItem i) t
| en_inner l t : inner_text l t -> entry_text (EInner l) t.
Inductive member_text : str * entry -> str -> Prop :=
| me_flag k ps t : key_text k -> parameters_text ps t -> member_text (k, EItem (mkItem (BBool true) ps)) (k ++ t)
| me_value k e t : key_text k -> entry_text e t -> member_text (k, e) (k ++ lit "=" ++ t).

(** ** whole fields *)
Definition comma (w : str) : Prop := exists w1 w2, w = w1 ++ lit "," ++ w2 /\ blanks w1 /\ blanks w2.
(** members with commas between them; spaces before, blanks behind *)
Definition commas {A} (text : A -> str -> Prop) (l : list A) (s : str) : Prop :=
  l = [] /\ spaces s
  \/ exists w1 ts t w2, s = w1 ++ t ++ w2 /\ spaces w1 /\ blanks w2 /\ Forall2 text l ts /\ separated comma ts t.
Definition item_field (i : item) (s : str) : Prop := exists w1 t w2, s = w1 ++ t ++ w2 /\ spaces w1 /\ spaces w2 /\ item_text i t.
Definition list_field (l : slist) (s : str) : Prop := commas entry_text l s.
Definition dict_field (d : sdict) (s : str) : Prop := exists l, commas member_text l s /\ map_of l d.
