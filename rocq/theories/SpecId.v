(** Specification vocabulary for component identifiers. *)
From Verif Require Import Base Component SpecSfv.

(** two parameters of the same kind cannot occur together *)
Inductive pkind := KSf | KKey | KBs | KTr | KReq | KName.
Definition kind (p : cparam) : pkind :=
  match p with Sf => KSf | Key _ => KKey | Bs => KBs | Tr => KTr | Req => KReq | Name _ => KName end.

(** parameters that make sense on a component name: RFC 9421 sections 2.1, 2.2.8 and 2.4 *)
Definition allowed (n : cname) (p : cparam) : Prop :=
  match p with
  | Req => True
  | Name v => n = Derived QueryParam /\ Forall printable v
  | Key v => (exists s, n = HttpField s) /\ Forall printable v
  | Sf | Bs | Tr => exists s, n = HttpField s
  end.
Definition valid_name (n : cname) : Prop :=
  match n with
  | HttpField s => Forall printable s /\ (forall r, s <> 64 :: r)   (* not starting with an at sign *)
  | Derived _ => True
  end.
Definition valid_id (i : cid) : Prop :=
  valid_name (id_name i) /\ Forall (allowed (id_name i)) (id_params i) /\ NoDup (map kind (id_params i)).

(** neither double quote nor backslash, which are the characters that structured field strings escape *)
Definition clean (s : str) : Prop := ~ In 34 s /\ ~ In 92 s.
Definition clean_id (i : cid) : Prop :=
  (forall s, id_name i = HttpField s -> clean s)
  /\ (forall v, In (Key v) (id_params i) -> clean v) /\ (forall v, In (Name v) (id_params i) -> clean v).
(** no character [c] in any text of the identifier *)
Definition lacks (c : N) (i : cid) : Prop :=
  (forall s, id_name i = HttpField s -> ~ In c s)
  /\ (forall v, In (Key v) (id_params i) -> ~ In c v) /\ (forall v, In (Name v) (id_params i) -> ~ In c v).

(** equality of identifiers: the parameters are a set *)
Definition same_id (a b : cid) : Prop :=
  id_name a = id_name b /\ forall p, In p (id_params a) <-> In p (id_params b).
(** no two positions hold the same identifier *)
Definition no_duplicate (l : list cid) : Prop :=
  forall i j a b, nth_error l i = Some a -> nth_error l j = Some b -> same_id a b -> i = j.

(** ** white space *)
(** the characters with the Unicode property White_Space *)
Definition unicode_space (c : char) : Prop :=
  In c [9; 10; 11; 12; 13; 32; 133; 160; 5760; 8192; 8193; 8194; 8195; 8196; 8197; 8198; 8199; 8200; 8201; 8202; 8232; 8233; 8239; 8287; 12288].
Definition no_space_at_ends (t : str) : Prop :=
  (forall c r, t = c :: r -> ~ unicode_space c) /\ (forall c r, t = r ++ [c] -> ~ unicode_space c).
(** [t] is what remains of [s] without the white space at both ends *)
Definition stripped (s t : str) : Prop :=
  exists w1 w2, s = w1 ++ t ++ w2 /\ Forall unicode_space w1 /\ Forall unicode_space w2 /\ no_space_at_ends t.

(** texts joined by a comma and a space *)
Definition comma_join (l : list str) : str :=
  match l with [] => [] | x :: r => x ++ flat_map (fun y => lit ", " ++ y) r end.
