(** Specification vocabulary for the dictionaries in the signature headers. *)
From Verif Require Import Base Utf8 Sfv Component Crypto Params SigBase Http Hyper SpecSfv SpecGrammar SpecId SpecParams SpecMsg.

(** the header [n] of [m] is there, is text, and is the structured dictionary [d] *)
Definition dictionary (m : msg) (n : str) (d : sdict) : Prop :=
  field_lines (msg_headers m) n <> [] /\ Forall legible (field_lines (msg_headers m) n) /\ dict_field d (comma_join (field_lines (msg_headers m) n)).
Definition rename {V} (f : str -> str) (kv : str * V) : str * V := (f (fst kv), snd kv).
(** the member of that name taken out *)
Definition without {V} (n : str) (d : list (str * V)) : list (str * V) :=
  filter (fun kv => if list_eq_dec N.eq_dec (fst kv) n then false else true) d.
(** a member without its parameters; inner lists are not told apart *)
Definition bare_member (kv : str * entry) : str * option bare :=
  (fst kv, match snd kv with EItem i => Some (it_bare i) | EInner _ => None end).
(** members that are byte sequences, and inner lists *)
Definition is_bytes (kv : str * entry) : Prop := exists b ps, snd kv = EItem (mkItem (BBytes b) ps).
Definition is_list (kv : str * entry) : Prop := exists il, snd kv = EInner il.
(** different names stay different *)
Definition inj_on (f : str -> str) (l : list str) : Prop := forall a b, In a l -> In b l -> f a = f b -> a = b.
(** two outcomes that differ at most in the name of the accepted signature *)
Definition same_verdict (r r' : result herr str) : Prop :=
  match r, r' with
  | Ok _, Ok _ => True
  | Err e, Err e' => e = e'
  | Panic _, Panic _ => True
  | _, _ => False
  end.
