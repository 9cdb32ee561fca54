(** Specification vocabulary for component values. *)
From Verif Require Import Base Sfv Component Http SpecSfv SpecGrammar SpecCanon SpecId.

(** ** structured fields (RFC 9421 sections 2.1.1, 2.1.2) *)
(** [v'] is the canonical text of the list, or else of the dictionary, denoted by the field line [v] *)
Definition canonical (v v' : str) : Prop :=
  (exists l, list_field l v /\ canon_list l v') \/ ((forall l, ~ list_field l v) /\ exists d, dict_field d v /\ canon_dict d v').
(** the canonical texts of the members [k] of the dictionaries denoted by some lines; lines without such a member contribute nothing *)
Inductive member_texts (k : str) : list str -> list str -> Prop :=
| mt_nil : member_texts k [] []
| mt_take v d e t vs ts : dict_field d v -> In (k, e) d -> canon_entry e t -> member_texts k vs ts -> member_texts k (v :: vs) (t :: ts)
| mt_skip v d vs ts : dict_field d v -> ~ In k (map fst d) -> member_texts k vs ts -> member_texts k (v :: vs) ts.

(** ** derived components (RFC 9421 section 2.2) *)
Definition lower (s : str) : str := map (fun c => if (65 <=? c) && (c <=? 90) then c + 32 else c) s.
Definition upper (s : str) : str := map (fun c => if (97 <=? c) && (c <=? 122) then c - 32 else c) s.
(** text of the query part with its question mark *)
Definition query_part (q : option str) : str := match q with Some x => lit "?" ++ x | None => [] end.
(** value of a derived component of a request with method [m] (other than CONNECT and OPTIONS) and URI scheme://authority path ?query, path starting with a slash *)
Definition derived_value (m s a p : str) (q : option str) (d : derived) : option str :=
  match d with
  | Method => Some (upper m)
  | TargetUri => Some (s ++ lit "://" ++ a ++ p ++ query_part q)
  | Authority => Some (lower a)
  | Scheme => Some (lower s)
  | RequestTarget => Some (p ++ query_part q)
  | Path => Some p
  | Query => Some (lit "?" ++ match q with Some x => x | None => [] end)
  | QueryParam | Status | SignatureParams => None
  end.
(** pieces of a query of the form name=value with this name (the text before the first equal sign) *)
Inductive qvalues (n : str) : list str -> list str -> Prop :=
| qv_nil : qvalues n [] []
| qv_take v ps out : ~ In 61 n -> qvalues n ps out -> qvalues n ((n ++ 61 :: v) :: ps) (v :: out)
| qv_skip x ps out : (forall v, ~ (x = n ++ 61 :: v /\ ~ In 61 n)) -> qvalues n ps out -> qvalues n (x :: ps) out.
(** a query made of pieces joined by ampersands *)
Definition query_text (ps : list str) : str := match ps with [] => [] | x :: r => x ++ flat_map (fun y => 38 :: y) r end.
(** an absolute URI as kept by the HTTP library: the path is empty or starts with a slash *)
Definition absolute (s a p : str) (q : option str) : uri := mkUri (Some s) (Some a) p q.
(** the origin form: no scheme and no authority *)
Definition origin (p : str) (q : option str) : uri := mkUri None None p q.
Definition slash_path (p : str) : Prop := exists r, p = 47 :: r.
(** an empty path is written as a slash *)
Definition nonempty_path (p : str) : str := match p with [] => lit "/" | _ => p end.
(** methods are written in upper case *)
Definition upper_case (m : str) : Prop := Forall (fun c => ~ (97 <= c <= 122)) m.
