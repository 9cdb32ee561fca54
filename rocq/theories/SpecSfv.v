(** Specification vocabulary for structured fields, base64 and maps; independent of the model's functions
    (only the data types of Sfv.v are used). *)
From Verif Require Import Base Sfv.

(** ** association lists read as maps *)
(** value of the last occurrence of a key *)
Fixpoint last_value {V} (k : str) (l : list (str * V)) : option V :=
  match l with
  | [] => None
  | (k', v) :: r =>
      match last_value k r with
      | Some w => Some w
      | None => if list_eq_dec N.eq_dec k k' then Some v else None
      end
  end.
(** the different keys in order of first appearance *)
Fixpoint distinct (seen : list str) (l : list str) : list str :=
  match l with
  | [] => []
  | k :: r => if in_dec (list_eq_dec N.eq_dec) k seen then distinct seen r else k :: distinct (k :: seen) r
  end.

(** ** well-formed structured field values (RFC 9651 section 3) *)
Definition digit (c : N) : Prop := 48 <= c <= 57.
Definition lcalpha (c : N) : Prop := 97 <= c <= 122.
Definition alpha (c : N) : Prop := lcalpha c \/ 65 <= c <= 90.
(** tchar of RFC 9110 *)
Definition tchar (c : N) : Prop := alpha c \/ digit c \/ In c (lit "!#$%&'*+-.^_`|~").
Definition printable (c : N) : Prop := 32 <= c <= 126.
Definition octet (c : N) : Prop := c < 256.
(** key = ( lcalpha / "*" ) *( lcalpha / DIGIT / "_" / "-" / "." / "*" ) *)
Definition key_text (k : str) : Prop :=
  exists c r, k = c :: r /\ (lcalpha c \/ In c (lit "*")) /\ Forall (fun c => lcalpha c \/ digit c \/ In c (lit "_-.*")) r.
(** sf-token = ( ALPHA / "*" ) *( tchar / ":" / "/" ) *)
Definition token_text (k : str) : Prop :=
  exists c r, k = c :: r /\ (alpha c \/ In c (lit "*")) /\ Forall (fun c => tchar c \/ In c (lit ":/")) r.
(** well-formed UTF-8 (Unicode, table 3-7) *)
Inductive utf8_text : list N -> Prop :=
| U0 : utf8_text []
| U1 a r : a <= 127 -> utf8_text r -> utf8_text (a :: r)
| U2 a b r : 194 <= a <= 223 -> 128 <= b <= 191 -> utf8_text r -> utf8_text (a :: b :: r)
| U3 a b c r : (a = 224 /\ 160 <= b <= 191 \/ 225 <= a <= 236 /\ 128 <= b <= 191 \/ a = 237 /\ 128 <= b <= 159
                \/ 238 <= a <= 239 /\ 128 <= b <= 191) -> 128 <= c <= 191 -> utf8_text r -> utf8_text (a :: b :: c :: r)
| U4 a b c d r : (a = 240 /\ 144 <= b <= 191 \/ 241 <= a <= 243 /\ 128 <= b <= 191 \/ a = 244 /\ 128 <= b <= 143) ->
                 128 <= c <= 191 -> 128 <= d <= 191 -> utf8_text r -> utf8_text (a :: b :: c :: d :: r).
(** at most fifteen digits; decimals at most twelve before and three behind the point (values in thousandths) *)
Definition number15 (z : Z) : Prop := (-999999999999999 <= z <= 999999999999999)%Z.
Definition bare_value (b : bare) : Prop :=
  match b with
  | BInt z | BDec z | BDate z => number15 z
  | BStr s => Forall printable s
  | BTok s => token_text s
  | BBytes b => Forall octet b
  | BBool _ => True
  | BDisp b => utf8_text b
  end.
Definition params_value (ps : params) : Prop :=
  Forall (fun kv => key_text (fst kv) /\ bare_value (snd kv)) ps /\ NoDup (map fst ps).
Definition item_value (i : item) : Prop := bare_value (it_bare i) /\ params_value (it_params i).
Definition entry_value (e : entry) : Prop :=
  match e with
  | EItem i => item_value i
  | EInner l => Forall item_value (in_items l) /\ params_value (in_params l)
  end.
Definition list_value (l : slist) : Prop := Forall entry_value l.
Definition dict_value (d : sdict) : Prop := Forall (fun kv => key_text (fst kv) /\ entry_value (snd kv)) d /\ NoDup (map fst d).

(** ** base64 (RFC 4648 section 4): 24-bit groups, 6 bits per character, padding at the end *)
Definition b64_alphabet : str := lit "ABCDEFGHIJKLMNOPQRSTUVWXYZabcdefghijklmnopqrstuvwxyz0123456789+/".
Definition sextet (group i : N) : N := nth (N.to_nat ((group / 64 ^ (3 - i)) mod 64)) b64_alphabet 0.
Fixpoint b64_text (b : list N) : str :=
  match b with
  | [] => []
  | [x] => let g := x * 65536 in [sextet g 0; sextet g 1] ++ lit "=="
  | [x; y] => let g := x * 65536 + y * 256 in [sextet g 0; sextet g 1; sextet g 2] ++ lit "="
  | x :: y :: z :: r => let g := x * 65536 + y * 256 + z in [sextet g 0; sextet g 1; sextet g 2; sextet g 3] ++ b64_text r
  end.

(** ** UTF-8 (RFC 3629 section 3): the bytes of a text, character by character, from their value *)
Definition tail_byte (b : N) : Prop := 128 <= b <= 191.
Inductive utf8_bytes_of : list N -> list N -> Prop :=
| E0 : utf8_bytes_of [] []
| E1 a s r : a <= 127 -> utf8_bytes_of s r -> utf8_bytes_of (a :: s) (a :: r)
| E2 a b s r : 128 <= (a - 192) * 64 + (b - 128) -> 192 <= a <= 223 -> tail_byte b -> utf8_bytes_of s r ->
    utf8_bytes_of ((a - 192) * 64 + (b - 128) :: s) (a :: b :: r)
| E3 a b c s r : 2048 <= (a - 224) * 4096 + (b - 128) * 64 + (c - 128) -> 224 <= a <= 239 -> tail_byte b -> tail_byte c ->
    utf8_bytes_of s r -> utf8_bytes_of ((a - 224) * 4096 + (b - 128) * 64 + (c - 128) :: s) (a :: b :: c :: r)
| E4 a b c d s r : 65536 <= (a - 240) * 262144 + (b - 128) * 4096 + (c - 128) * 64 + (d - 128) -> 240 <= a <= 247 ->
    tail_byte b -> tail_byte c -> tail_byte d -> utf8_bytes_of s r ->
    utf8_bytes_of ((a - 240) * 262144 + (b - 128) * 4096 + (c - 128) * 64 + (d - 128) :: s) (a :: b :: c :: d :: r).
(** what a Rust [String] can hold: Unicode scalar values *)
Definition rust_text (s : str) : Prop := Forall (fun c => c < 55296 \/ 57344 <= c < 1114112) s.
