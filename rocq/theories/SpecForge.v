(** Specification vocabulary for signature parameters that have the same text. *)
From Verif Require Import Base Sfv Component Crypto Params SigBase Http Hyper SpecSfv SpecId SpecParams SpecBase SpecMsg.

(** the parameters that are texts, in the order in which they are written *)
Definition text_params (p : sparams) : list (str * option str) :=
  [(lit "nonce", sp_nonce p); (lit "alg", sp_alg p); (lit "keyid", sp_keyid p); (lit "tag", sp_tag p)].
Definition given_texts (p : sparams) : list (str * str) :=
  flat_map (fun no : str * option str => match snd no with Some v => [(fst no, v)] | None => [] end) (text_params p).
(** [k] is written after [n] *)
Definition written_after (n k : str) : Prop := exists a b c, [lit "nonce"; lit "alg"; lit "keyid"; lit "tag"] = a ++ n :: b ++ k :: c.
(** the parameters can be taken for other ones: there are two texts, or the only one contains the beginning of one that could follow *)
Definition mistakable (p : sparams) : Prop :=
  (exists a b l, given_texts p = a :: b :: l)
  \/ (exists n k w u, given_texts p = [(n, w ++ lit """;" ++ k ++ lit "=""" ++ u)] /\ written_after n k).
(** the same covered components and times *)
Definition same_but_texts (p q : sparams) : Prop :=
  sp_covered p = sp_covered q /\ sp_created p = sp_created q /\ sp_expires p = sp_expires q.
Definition printable_texts (p : sparams) : Prop := Forall (fun nv => Forall printable (snd nv)) (given_texts p).

(** the message with another Signature-Input line *)
Definition with_input (m : msg) (t : bytes) : msg :=
  msg_set_headers m (filter (fun kv : str * bytes => if list_eq_dec N.eq_dec (fst kv) (lit "signature-input") then false else true) (msg_headers m)
                     ++ [(lit "signature-input", t)]).
(** the signatures, the one called [n] with the parameters [q] *)
Definition with_params (n : str) (q : sparams) (l : list (str * sigheaders)) : list (str * sigheaders) :=
  map (fun kh : str * sigheaders => if list_eq_dec N.eq_dec (fst kh) n then (fst kh, mkSh (sh_name (snd kh)) (sh_sig (snd kh)) q) else kh) l.
(** [r] and [r']: signatures with the same value, covered components, time of expiry, text and key id *)
Definition seen_alike (kid : option str) (r r' : str * sigheaders) : Prop :=
  fst r = fst r' /\ sh_sig (snd r) = sh_sig (snd r') /\ sp_covered (sh_params (snd r)) = sp_covered (sh_params (snd r'))
  /\ sp_expires (sh_params (snd r)) = sp_expires (sh_params (snd r')) /\ params_text (sh_params (snd r)) = params_text (sh_params (snd r'))
  /\ (kid = None \/ sp_keyid (sh_params (snd r)) = sp_keyid (sh_params (snd r'))).
