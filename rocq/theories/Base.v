(** Strings, results and the Rust standard library functions used by the code.

    A [char] is a Unicode scalar value, a [str] (Rust [String]/[&str]) a list of them,
    [bytes] (Rust [Vec<u8>]) a list of numbers below 256. *)
From Coq Require Export List NArith ZArith Bool Lia.
From Coq Require Import String Ascii.
Export ListNotations.
Export Coq.Strings.String.StringSyntax.
Open Scope N_scope.
Open Scope list_scope.

Notation char := N (only parsing).
Notation str := (list N) (only parsing).
Notation byte := N (only parsing).
Notation bytes := (list N) (only parsing).

(** String literals. *)
Definition lit (s : string) : str := map N_of_ascii (list_ascii_of_string s).
Arguments lit s%string_scope.

Fixpoint list_eqb {A} (eqb : A -> A -> bool) (a b : list A) : bool :=
  match a, b with
  | [], [] => true
  | x :: a', y :: b' => eqb x y && list_eqb eqb a' b'
  | _, _ => false
  end.

(** [str == str]. *)
Definition str_eqb : str -> str -> bool := list_eqb N.eqb.

Definition option_eqb {A} (eqb : A -> A -> bool) (a b : option A) : bool :=
  match a, b with
  | Some x, Some y => eqb x y
  | None, None => true
  | _, _ => false
  end.

(** Where a call can panic (each constructor is one kind of panicking expression of /repo). *)
Inductive panic :=
| PDerivedName   (* component_name.rs:91, [panic!("Invalid derived component")] *)
| PNegative      (* signature_params.rs:197-198, [try_into().unwrap()] i64 -> u64 *)
| PAssertCreated (* signature_params.rs:106, [assert!] *)
| POverflow      (* signature_params.rs:108, u64 addition, overflow checks on *)
| PArrayLen      (* asymmetric.rs:69,74,81,362,372, slice to array conversions *)
| PSlice         (* asymmetric.rs:133, [private_key[2..]] *)
| PUnwrap        (* an [unwrap()] *)
| PUnreachable   (* signature_base.rs:85, [unreachable!()] *)
| PNested        (* futures::executor::block_on inside another executor of the futures crate *).

(** Result of a call: [Ok], [Err] or the call panics. *)
Inductive result (E A : Type) :=
| Ok (a : A)
| Err (e : E)
| Panic (p : panic).
Arguments Ok {E A} a.
Arguments Err {E A} e.
Arguments Panic {E A} p.

(** The [?] operator. *)
Definition bind {E A B} (r : result E A) (f : A -> result E B) : result E B :=
  match r with Ok a => f a | Err e => Err e | Panic p => Panic p end.
Notation "'let*' x ':=' r 'in' k" := (bind r (fun x => k))
  (at level 200, x pattern, r at level 100, k at level 200, right associativity).

(** [Result::map]. *)
Definition rmap {E A B} (f : A -> B) (r : result E A) : result E B :=
  match r with Ok a => Ok (f a) | Err e => Err e | Panic p => Panic p end.
(** [Result::map_err]. *)
Definition map_err {E F A} (f : E -> F) (r : result E A) : result F A :=
  match r with Ok a => Ok a | Err e => Err (f e) | Panic p => Panic p end.
(** [Option::ok_or]. *)
Definition ok_or {E A} (o : option A) (e : E) : result E A :=
  match o with Some a => Ok a | None => Err e end.

(** [iter().map(f).collect::<Result<Vec<_>, _>>()]: left to right, stops at the first error. *)
Fixpoint collect {E A B} (f : A -> result E B) (l : list A) : result E (list B) :=
  match l with
  | [] => Ok []
  | x :: r =>
      match f x with
      | Ok y => match collect f r with Ok ys => Ok (y :: ys) | Err e => Err e | Panic p => Panic p end
      | Err e => Err e
      | Panic p => Panic p
      end
  end.

(** Same for [Option]. *)
Fixpoint ocollect {A B} (f : A -> option B) (l : list A) : option (list B) :=
  match l with
  | [] => Some []
  | x :: r => match f x with Some y => match ocollect f r with Some ys => Some (y :: ys) | None => None end | None => None end
  end.

(** [Iterator::filter_map]. *)
Fixpoint filter_map {A B} (f : A -> option B) (l : list A) : list B :=
  match l with
  | [] => []
  | x :: r => match f x with Some y => y :: filter_map f r | None => filter_map f r end
  end.

(** [Iterator::find_map]. *)
Fixpoint find_map {A B} (f : A -> option B) (l : list A) : option B :=
  match l with
  | [] => None
  | x :: r => match f x with Some y => Some y | None => find_map f r end
  end.

(** [char::is_whitespace] (Unicode White_Space), used by [str::trim]. *)
Definition is_ws (c : char) : bool :=
  ((9 <=? c) && (c <=? 13)) || (c =? 32) || (c =? 133) || (c =? 160) || (c =? 5760)
  || ((8192 <=? c) && (c <=? 8202)) || (c =? 8232) || (c =? 8233) || (c =? 8239)
  || (c =? 8287) || (c =? 12288).

Fixpoint trim_start (s : str) : str :=
  match s with
  | c :: r => if is_ws c then trim_start r else s
  | [] => []
  end.
(** [str::trim]. *)
Definition trim (s : str) : str := rev (trim_start (rev (trim_start s))).

(** [str::split_once(char)]: at the first occurrence. *)
Fixpoint split_once (c : char) (s : str) : option (str * str) :=
  match s with
  | [] => None
  | x :: r => if x =? c then Some ([], r)
              else match split_once c r with Some (a, b) => Some (x :: a, b) | None => None end
  end.

(** [str::split(char)]: always at least one piece. *)
Fixpoint split_on (c : char) (s : str) : list str :=
  match s with
  | [] => [[]]
  | x :: r => if x =? c then [] :: split_on c r
              else match split_on c r with p :: ps => (x :: p) :: ps | [] => [[x]] end
  end.

(** [[String]::join(&str)]. *)
Fixpoint join (sep : str) (l : list str) : str :=
  match l with
  | [] => []
  | [x] => x
  | x :: r => x ++ sep ++ join sep r
  end.

(** [str::contains(char)]. *)
Definition contains (c : char) (s : str) : bool := existsb (N.eqb c) s.
(** [str::starts_with(char)], [str::ends_with(char)]. *)
Definition starts_with (c : char) (s : str) : bool :=
  match s with x :: _ => x =? c | [] => false end.
Definition ends_with (c : char) (s : str) : bool := starts_with c (rev s).
(** [str::is_empty]. *)
Definition is_empty {A} (s : list A) : bool := match s with [] => true | _ => false end.
(** [str::starts_with(&str)] and [str::contains(&str)]. *)
Fixpoint prefix_of (p s : str) : bool :=
  match p, s with
  | [], _ => true
  | a :: p', b :: s' => (a =? b) && prefix_of p' s'
  | _, _ => false
  end.
Fixpoint contains_str (p s : str) : bool :=
  prefix_of p s || match s with [] => false | _ :: r => contains_str p r end.

(** [to_ascii_lowercase], [to_ascii_uppercase]. *)
Definition lower_c (c : char) : char := if (65 <=? c) && (c <=? 90) then c + 32 else c.
Definition upper_c (c : char) : char := if (97 <=? c) && (c <=? 122) then c - 32 else c.
Definition to_lower (s : str) : str := map lower_c s.
Definition to_upper (s : str) : str := map upper_c s.

(** Decimal printing of an unsigned integer ([Display for u64]). *)
Fixpoint dec_fuel (fuel : nat) (n : N) : str :=
  match fuel with
  | O => []
  | S f => if n <? 10 then [48 + n] else dec_fuel f (n / 10) ++ [48 + n mod 10]
  end.
Definition dec (n : N) : str := dec_fuel (S (N.size_nat n)) n.

(** [IndexMap]: association list in insertion order; inserting an existing key keeps its
    place and replaces its value. *)
Fixpoint im_insert {V} (m : list (str * V)) (k : str) (v : V) : list (str * V) :=
  match m with
  | [] => [(k, v)]
  | (k', v') :: r => if str_eqb k k' then (k', v) :: r else (k', v') :: im_insert r k v
  end.
Fixpoint im_get {V} (m : list (str * V)) (k : str) : option V :=
  match m with
  | [] => None
  | (k', v) :: r => if str_eqb k k' then Some v else im_get r k
  end.
(** [collect::<IndexMap>()]. *)
Definition im_of_list {V} (l : list (str * V)) : list (str * V) :=
  fold_left (fun m kv => im_insert m (fst kv) (snd kv)) l [].
Definition im_contains {V} (m : list (str * V)) (k : str) : bool :=
  match im_get m k with Some _ => true | None => false end.

Definition is_some {A} (o : option A) : bool := match o with Some _ => true | None => false end.

(** Characters used in literals below. *)
Definition cQuote : char := 34.   (* double quote *)
Definition cBack : char := 92.    (* backslash *)
Definition cNL : char := 10.
Definition cSP : char := 32.
Definition cTab : char := 9.
Definition cComma : char := 44.
Definition cSemi : char := 59.
Definition cColon : char := 58.
Definition cEq : char := 61.
Definition cLPar : char := 40.
Definition cRPar : char := 41.
Definition cAt : char := 64.
Definition cStar : char := 42.
Definition cDot : char := 46.
Definition cMinus : char := 45.
Definition cUnder : char := 95.
Definition cQM : char := 63.
Definition cPct : char := 37.
Definition cSlash : char := 47.
Definition cAmp : char := 38.
