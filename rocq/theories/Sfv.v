(** Structured field values: the behaviour of crate [sfv] 0.14 (RFC 9651 sections 4.1 and 4.2),
    as used in /repo at component_id.rs:40-47, component_param.rs:109-111,132,143,
    signature_params.rs:170,215, signature_base.rs:33-36 and hyper_content_digest.rs:225.
    The crate itself is not in /repo; this file follows the algorithms of the RFC that it implements.
    Simplifications: the parser works on characters instead of bytes (every non-ASCII character is
    refused everywhere, like every non-ASCII byte), error values carry no message. *)
From Verif Require Import Base Utf8 Base64.

(** sfv::BareItem. Decimals in thousandths; display strings as their UTF-8 bytes. *)
Inductive bare :=
| BInt (z : Z)
| BDec (z : Z)
| BStr (s : str)
| BTok (s : str)
| BBytes (b : bytes)
| BBool (b : bool)
| BDate (z : Z)
| BDisp (b : bytes).

(** sfv::Parameters, sfv::Item, sfv::InnerList, sfv::ListEntry, sfv::List, sfv::Dictionary. *)
Definition params := list (str * bare).
Record item := mkItem { it_bare : bare; it_params : params }.
Record inner := mkInner { in_items : list item; in_params : params }.
Inductive entry := EItem (i : item) | EInner (l : inner).
Definition slist := list entry.
Definition sdict := list (str * entry).

(** ** Characters *)
Definition is_digit (c : char) : bool := (48 <=? c) && (c <=? 57).
Definition is_lcalpha (c : char) : bool := (97 <=? c) && (c <=? 122).
Definition is_alpha (c : char) : bool := is_lcalpha c || ((65 <=? c) && (c <=? 90)).
Definition is_key_start (c : char) : bool := is_lcalpha c || (c =? cStar).
Definition is_key_char (c : char) : bool :=
  is_lcalpha c || is_digit c || (c =? cUnder) || (c =? cMinus) || (c =? cDot) || (c =? cStar).
(** tchar of RFC 9110: ! # $ % & ' * + - . ^ _ ` | ~ DIGIT ALPHA. *)
Definition is_tchar (c : char) : bool :=
  is_alpha c || is_digit c || (c =? 33) || ((35 <=? c) && (c <=? 39)) || (c =? 42) || (c =? 43)
  || (c =? 45) || (c =? 46) || ((94 <=? c) && (c <=? 96)) || (c =? 124) || (c =? 126).
Definition is_tok_start (c : char) : bool := is_alpha c || (c =? cStar).
Definition is_tok_char (c : char) : bool := is_tchar c || (c =? cColon) || (c =? cSlash).
(** printable ASCII, the characters of a string *)
Definition is_print (c : char) : bool := (32 <=? c) && (c <=? 126).
Definition is_sp (c : char) : bool := c =? cSP.
Definition is_ows (c : char) : bool := (c =? cSP) || (c =? cTab).

(** longest prefix of characters satisfying [f] *)
Fixpoint span (f : char -> bool) (s : str) : str * str :=
  match s with
  | c :: r => if f c then let (a, b) := span f r in (c :: a, b) else ([], s)
  | [] => ([], [])
  end.
Definition skip (f : char -> bool) (s : str) : str := snd (span f s).

(** ** Parsing (RFC 9651 section 4.2); [None] = parse error *)

(** 4.2.3.3 key *)
Definition p_key (s : str) : option (str * str) :=
  match s with
  | c :: _ => if is_key_start c then Some (span is_key_char s) else None
  | [] => None
  end.

(** value of a string of digits *)
Fixpoint dval (acc : N) (s : str) : N :=
  match s with
  | [] => acc
  | c :: r => dval (10 * acc + (c - 48)) r
  end.

Definition signed (neg : bool) (n : N) : Z := if neg then Z.opp (Z.of_N n) else Z.of_N n.

(** 4.2.4 integer or decimal, after the optional sign *)
Definition p_num_abs (neg : bool) (s : str) : option (bare * str) :=
  let (ds, r) := span is_digit s in
  let n := List.length ds in
  if Nat.eqb n 0 || Nat.ltb 15 n then None
  else
    match r with
    | c :: r' =>
        if c =? cDot then
          if Nat.ltb 12 n then None
          else
            let (fs, r2) := span is_digit r' in
            match fs with
            | [a] => Some (BDec (signed neg (dval 0 ds * 1000 + 100 * (a - 48))), r2)
            | [a; b] => Some (BDec (signed neg (dval 0 ds * 1000 + 100 * (a - 48) + 10 * (b - 48))), r2)
            | [a; b; c3] => Some (BDec (signed neg (dval 0 ds * 1000 + 100 * (a - 48) + 10 * (b - 48) + (c3 - 48))), r2)
            | _ => None
            end
        else Some (BInt (signed neg (dval 0 ds)), r)
    | [] => Some (BInt (signed neg (dval 0 ds)), r)
    end.
Definition p_num (s : str) : option (bare * str) :=
  match s with
  | c :: r => if c =? cMinus then p_num_abs true r else p_num_abs false s
  | [] => None
  end.

(** 4.2.5 string, after the opening quote *)
Fixpoint p_str (s : str) : option (str * str) :=
  match s with
  | [] => None
  | c :: r =>
      if c =? cBack then
        match r with
        | d :: r' =>
            if (d =? cQuote) || (d =? cBack) then
              match p_str r' with Some (a, b) => Some (d :: a, b) | None => None end
            else None
        | [] => None
        end
      else if c =? cQuote then Some ([], r)
      else if is_print c then
        match p_str r with Some (a, b) => Some (c :: a, b) | None => None end
      else None
  end.

(** 4.2.7 byte sequence, after the opening colon *)
Definition p_bytes (s : str) : option (bare * str) :=
  match split_once cColon s with
  | Some (a, r) => match b64_decode true a with Some b => Some (BBytes b, r) | None => None end
  | None => None
  end.

(** 4.2.10 display string, after the opening percent sign and double quote *)
Definition hex_val (c : char) : option N :=
  if is_digit c then Some (c - 48) else if (97 <=? c) && (c <=? 102) then Some (c - 87) else None.
Fixpoint p_disp (s : str) : option (bytes * str) :=
  match s with
  | [] => None
  | c :: r =>
      if c =? cPct then
        match r with
        | h :: l :: r' =>
            match hex_val h, hex_val l with
            | Some x, Some y =>
                match p_disp r' with Some (a, b) => Some (16 * x + y :: a, b) | None => None end
            | _, _ => None
            end
        | _ => None
        end
      else if c =? cQuote then Some ([], r)
      else if is_print c then
        match p_disp r with Some (a, b) => Some (c :: a, b) | None => None end
      else None
  end.

(** 4.2.3.1 bare item *)
Definition p_bare (s : str) : option (bare * str) :=
  match s with
  | [] => None
  | c :: r =>
      if (c =? cMinus) || is_digit c then p_num s
      else if c =? cQuote then
        match p_str r with Some (a, b) => Some (BStr a, b) | None => None end
      else if is_tok_start c then let (a, b) := span is_tok_char s in Some (BTok a, b)
      else if c =? cColon then p_bytes r
      else if c =? cQM then
        match r with
        | d :: r' => if d =? 49 then Some (BBool true, r') else if d =? 48 then Some (BBool false, r') else None
        | [] => None
        end
      else if c =? cAt then
        match p_num r with Some (BInt z, r') => Some (BDate z, r') | _ => None end
      else if c =? cPct then
        match r with
        | d :: r' =>
            if d =? cQuote then
              match p_disp r' with
              | Some (a, b) => if utf8_valid a then Some (BDisp a, b) else None
              | None => None
              end
            else None
        | [] => None
        end
      else None
  end.

(** 4.2.3.2 parameters. [fuel]: one unit per parameter; [S (length s)] is always enough
    (SfvProofs.v, [p_params_fuel]). *)
Fixpoint p_params_f (fuel : nat) (acc : params) (s : str) : option (params * str) :=
  match fuel with
  | O => None
  | S f =>
      match s with
      | c :: r =>
          if c =? cSemi then
            match p_key (skip is_sp r) with
            | Some (k, r1) =>
                match r1 with
                | d :: r2 =>
                    if d =? cEq then
                      match p_bare r2 with
                      | Some (v, r3) => p_params_f f (im_insert acc k v) r3
                      | None => None
                      end
                    else p_params_f f (im_insert acc k (BBool true)) r1
                | [] => p_params_f f (im_insert acc k (BBool true)) r1
                end
            | None => None
            end
          else Some (acc, s)
      | [] => Some (acc, s)
      end
  end.
Definition p_params (s : str) : option (params * str) := p_params_f (S (List.length s)) [] s.

(** 4.2.3 item *)
Definition p_item (s : str) : option (item * str) :=
  match p_bare s with
  | Some (b, r) => match p_params r with Some (ps, r') => Some (mkItem b ps, r') | None => None end
  | None => None
  end.

(** 4.2.1.2 inner list, after the opening parenthesis *)
Fixpoint p_inner_f (fuel : nat) (s : str) : option (list item * str) :=
  match fuel with
  | O => None
  | S f =>
      let s1 := skip is_sp s in
      match s1 with
      | [] => None
      | c :: r =>
          if c =? cRPar then Some ([], r)
          else
            match p_item s1 with
            | Some (i, r1) =>
                match r1 with
                | d :: _ =>
                    if (d =? cSP) || (d =? cRPar) then
                      match p_inner_f f r1 with Some (is, r2) => Some (i :: is, r2) | None => None end
                    else None
                | [] => None
                end
            | None => None
            end
      end
  end.
Definition p_inner (s : str) : option (inner * str) :=
  match p_inner_f (S (List.length s)) s with
  | Some (is, r) => match p_params r with Some (ps, r') => Some (mkInner is ps, r') | None => None end
  | None => None
  end.

(** 4.2.1.1 item or inner list *)
Definition p_entry (s : str) : option (entry * str) :=
  match s with
  | c :: r =>
      if c =? cLPar then match p_inner r with Some (l, r') => Some (EInner l, r') | None => None end
      else match p_item s with Some (i, r') => Some (EItem i, r') | None => None end
  | [] => None
  end.

(** 4.2.2 dictionary member *)
Definition p_member (s : str) : option ((str * entry) * str) :=
  match p_key s with
  | Some (k, r) =>
      match r with
      | c :: r1 =>
          if c =? cEq then match p_entry r1 with Some (e, r2) => Some ((k, e), r2) | None => None end
          else match p_params r with Some (ps, r2) => Some ((k, EItem (mkItem (BBool true) ps)), r2) | None => None end
      | [] => Some ((k, EItem (mkItem (BBool true) [])), [])
      end
  | None => None
  end.

(** The comma separated loop of lists (4.2.1) and dictionaries (4.2.2): all members in order. *)
Fixpoint p_sep_f {A} (p : str -> option (A * str)) (fuel : nat) (s : str) : option (list A) :=
  match fuel with
  | O => None
  | S f =>
      match s with
      | [] => Some []
      | _ =>
          match p s with
          | Some (a, r) =>
              match skip is_ows r with
              | [] => Some [a]
              | c :: r1 =>
                  if c =? cComma then
                    match skip is_ows r1 with
                    | [] => None
                    | r2 => match p_sep_f p f r2 with Some l => Some (a :: l) | None => None end
                    end
                  else None
              end
          | None => None
          end
      end
  end.
Definition p_sep {A} (p : str -> option (A * str)) (s : str) : option (list A) :=
  p_sep_f p (S (List.length s)) s.

(** [Parser::new(s).parse::<T>()]: leading and trailing spaces are skipped, everything must be consumed. *)
Definition parse_item (s : str) : option item :=
  match p_item (skip is_sp s) with
  | Some (i, r) => match skip is_sp r with [] => Some i | _ => None end
  | None => None
  end.
Definition parse_list (s : str) : option slist := p_sep p_entry (skip is_sp s).
(** Repeated keys: the last value at the first position. *)
Definition parse_dict (s : str) : option sdict :=
  match p_sep p_member (skip is_sp s) with
  | Some l => Some (im_of_list l)
  | None => None
  end.

(** ** Serializing (RFC 9651 section 4.1) *)

(** 4.1.4 integer *)
Definition ser_int (z : Z) : str :=
  if (z <? 0)%Z then cMinus :: dec (Z.abs_N z) else dec (Z.abs_N z).

(** 4.1.5 decimal: no trailing zeros in the fraction, at least one digit *)
Definition ser_frac (f : N) : str :=
  let a := f / 100 in let b := (f / 10) mod 10 in let c := f mod 10 in
  if negb (c =? 0) then [48 + a; 48 + b; 48 + c]
  else if negb (b =? 0) then [48 + a; 48 + b]
  else [48 + a].
Definition ser_dec (z : Z) : str :=
  let n := Z.abs_N z in
  (if (z <? 0)%Z then [cMinus] else []) ++ dec (n / 1000) ++ cDot :: ser_frac (n mod 1000).

(** 4.1.6 string *)
Definition esc (c : char) : str := if (c =? cQuote) || (c =? cBack) then [cBack; c] else [c].
Definition ser_str (s : str) : str := cQuote :: flat_map esc s ++ [cQuote].

(** 4.1.11 display string *)
Definition hex_digit (n : N) : char := if n <? 10 then 48 + n else 87 + n.
Definition disp_esc (b : byte) : str :=
  if (b =? cPct) || (b =? cQuote) || negb (is_print b) then [cPct; hex_digit (b / 16); hex_digit (b mod 16)] else [b].
Definition ser_disp (s : bytes) : str := cPct :: cQuote :: flat_map disp_esc s ++ [cQuote].

(** 4.1.3.1 bare item *)
Definition ser_bare (b : bare) : str :=
  match b with
  | BInt z => ser_int z
  | BDec z => ser_dec z
  | BStr s => ser_str s
  | BTok s => s
  | BBytes b => cColon :: b64_encode b ++ [cColon]
  | BBool true => [cQM; 49]
  | BBool false => [cQM; 48]
  | BDate z => cAt :: ser_int z
  | BDisp b => ser_disp b
  end.

(** 4.1.1.2 parameters *)
Definition ser_param (kv : str * bare) : str :=
  match snd kv with
  | BBool true => cSemi :: fst kv
  | v => cSemi :: fst kv ++ cEq :: ser_bare v
  end.
Definition ser_params (ps : params) : str := flat_map ser_param ps.

(** [Item::serialize]. *)
Definition ser_item (i : item) : str := ser_bare (it_bare i) ++ ser_params (it_params i).
Definition ser_inner (l : inner) : str :=
  cLPar :: join [cSP] (map ser_item (in_items l)) ++ cRPar :: ser_params (in_params l).
Definition ser_entry (e : entry) : str :=
  match e with EItem i => ser_item i | EInner l => ser_inner l end.
Definition ser_member (kv : str * entry) : str :=
  match snd kv with
  | EItem (mkItem (BBool true) ps) => fst kv ++ ser_params ps
  | e => fst kv ++ cEq :: ser_entry e
  end.
(** [List::serialize], [Dictionary::serialize]: [None] when empty. *)
Definition ser_list (l : slist) : option str :=
  match l with [] => None | _ => Some (join [cComma; cSP] (map ser_entry l)) end.
Definition ser_dict (d : sdict) : option str :=
  match d with [] => None | _ => Some (join [cComma; cSP] (map ser_member d)) end.

(** [BareItem::as_string], [BareItem::as_integer]. *)
Definition as_string (b : bare) : option str := match b with BStr s => Some s | _ => None end.
Definition as_integer (b : bare) : option Z := match b with BInt z => Some z | _ => None end.
