(** Specification of @query-param as in RFC 9421 section 2.2.8, which uses the URL standard (application/x-www-form-urlencoded). *)
From Verif Require Import Base Sfv Component SpecSfv SpecGrammar SpecId SpecValue.

Definition hex_value (c : N) : option N :=
  if (48 <=? c) && (c <=? 57) then Some (c - 48) else if (65 <=? c) && (c <=? 70) then Some (c - 55) else if (97 <=? c) && (c <=? 102) then Some (c - 87) else None.
Definition upper_hex (n : N) : N := if n <? 10 then n + 48 else n + 55.
(** plus is a space, percent with two hexadecimal digits is a byte *)
Fixpoint form_decode (s : str) : list N :=
  match s with
  | [] => []
  | c :: r =>
      if c =? 43 then 32 :: form_decode r
      else if c =? 37 then
        match r with
        | a :: b :: r' => match hex_value a, hex_value b with Some x, Some y => 16 * x + y :: form_decode r' | _, _ => 37 :: form_decode r end
        | _ => 37 :: form_decode r
        end
      else c :: form_decode r
  end.
(** all but letters, digits and * - . _ as percent with two upper-case hexadecimal digits *)
Definition plain (c : N) : bool :=
  ((48 <=? c) && (c <=? 57)) || ((65 <=? c) && (c <=? 90)) || ((97 <=? c) && (c <=? 122)) || (c =? 42) || (c =? 45) || (c =? 46) || (c =? 95).
Definition form_encode (b : list N) : str := flat_map (fun c => if plain c then [c] else [37; upper_hex (c / 16); upper_hex (c mod 16)]) b.
Definition encoded (s : str) : str := form_encode (form_decode s).

(** name and value of a piece of the query; empty pieces do not count *)
Definition piece_pair (p x w : str) : Prop := p <> [] /\ (p = x ++ lit "=" ++ w /\ ~ In 61 x \/ p = x /\ w = [] /\ ~ In 61 p).
Definition has_name (n p : str) : Prop := exists x w, piece_pair p x w /\ encoded x = n.
(** among the pieces [ps] exactly one has the (encoded) name [n]; it is written with the name [x] and the value [w] *)
Definition only_pair (n : str) (ps : list str) (x w : str) : Prop :=
  exists a p b, ps = a ++ p :: b /\ piece_pair p x w /\ encoded x = n /\ Forall (fun q => ~ has_name n q) (a ++ b).
(** the value is encoded again. Bytes that are no UTF-8 are left out here; the URL standard puts replacement characters in their place. *)
Definition rfc_query_param (n : str) (ps : list str) (v : str) : Prop :=
  exists x w, only_pair n ps x w /\ utf8_text (form_decode x) /\ utf8_text (form_decode w) /\ v = encoded w.
