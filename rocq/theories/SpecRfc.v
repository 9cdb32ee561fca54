(** Specification of component values as RFC 9421 section 2.1 wants them. *)
From Verif Require Import Base Sfv Component SpecSfv SpecGrammar SpecCanon SpecId SpecValue.

(** ** section 2.1: white space around each line is removed *)
Definition no_blank (o : option N) : Prop := o <> Some 32 /\ o <> Some 9.
(** neither the first nor the last character is blank *)
Definition no_blanks_around (y : str) : Prop := no_blank (hd_error y) /\ no_blank (hd_error (rev y)).
Definition stripped (x y : str) : Prop := exists a b, x = a ++ y ++ b /\ blanks a /\ blanks b /\ no_blanks_around y.
(** there must be a line *)
Definition rfc_field (lines : list str) (v : str) : Prop := lines <> [] /\ exists ys, Forall2 stripped lines ys /\ v = comma_join ys.

(** ** sections 2.1.1 and 2.1.2: all lines together are one structured field *)
Definition rfc_list (lines : list str) (v : str) : Prop := exists l, list_field l (comma_join lines) /\ canon_list l v.
Definition rfc_dict (lines : list str) (v : str) : Prop := exists d, dict_field d (comma_join lines) /\ canon_dict d v.
Definition rfc_member (k : str) (lines : list str) (v : str) : Prop :=
  exists d e, dict_field d (comma_join lines) /\ In (k, e) d /\ canon_entry e v.
(** exactly one of the lines *)
Definition once (P : str -> Prop) (lines : list str) : Prop := exists a v b, lines = a ++ v :: b /\ P v /\ Forall (fun x => ~ P x) (a ++ b).
Definition has_member (k : str) (v : str) : Prop := exists d e, dict_field d v /\ In (k, e) d.
(** a dictionary that is not empty *)
Definition some_dict (v : str) : Prop := exists kv d, dict_field (kv :: d) v.
(** the members that are signed for a line: for one that could be a list as well, all that are written; for others, those of the dictionary *)
Definition signed_members (v : str) (m : list (str * entry)) : Prop :=
  (exists l, list_field l v) /\ commas member_text m v \/ (forall l, ~ list_field l v) /\ dict_field m v.

(** ** section 2.2: derived components of a request for scheme://authority path ?query, whose path is not empty *)
(** the port that is not written, with the colon *)
Definition default_port (s p : str) : Prop := lower s = lit "https" /\ p = lit ":443" \/ lower s = lit "http" /\ p = lit ":80".
Inductive rfc_derived (m s a p : str) (q : option str) : derived -> str -> Prop :=
| rd_method : rfc_derived m s a p q Method m
| rd_target : rfc_derived m s a p q TargetUri (s ++ lit "://" ++ a ++ p ++ query_part q)
| rd_port v port : default_port s port -> lower a = v ++ port -> rfc_derived m s a p q Authority v
| rd_authority : (forall v port, default_port s port -> lower a <> v ++ port) -> rfc_derived m s a p q Authority (lower a)
| rd_scheme : rfc_derived m s a p q Scheme (lower s)
| rd_connect : m = lit "CONNECT" -> rfc_derived m s a p q RequestTarget a
| rd_origin : m <> lit "CONNECT" -> rfc_derived m s a p q RequestTarget (p ++ query_part q)
| rd_path : rfc_derived m s a p q Path p
| rd_query : rfc_derived m s a p q Query (lit "?" ++ match q with Some x => x | None => [] end).
