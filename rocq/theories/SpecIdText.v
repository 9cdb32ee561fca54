(** Specification: which texts denote which component identifiers and signature parameters. *)
From Verif Require Import Base Sfv Component Crypto Params SigBase SpecSfv SpecGrammar SpecCanon SpecId SpecParams.

(** ** component identifiers (RFC 9421 sections 2.1, 2.2, 2.4) *)
Inductive name_meaning : str -> cname -> Prop :=
| nm_field s : (forall r, s <> lit "@" ++ r) -> name_meaning s (HttpField s)
| nm_derived s d : In (s, d) [(lit "@method", Method); (lit "@target-uri", TargetUri); (lit "@authority", Authority); (lit "@scheme", Scheme);
    (lit "@request-target", RequestTarget); (lit "@path", Path); (lit "@query", Query); (lit "@query-param", QueryParam); (lit "@status", Status);
    (lit "@signature-params", SignatureParams)] -> name_meaning s (Derived d).
(** the value of the four flags is ignored *)
Inductive param_meaning : str * bare -> cparam -> Prop :=
| pm_sf v : param_meaning (lit "sf", v) Sf
| pm_bs v : param_meaning (lit "bs", v) Bs
| pm_tr v : param_meaning (lit "tr", v) Tr
| pm_req v : param_meaning (lit "req", v) Req
| pm_key s : param_meaning (lit "key", BStr s) (Key s)
| pm_name s : param_meaning (lit "name", BStr s) (Name s).
Definition item_meaning (it : item) (i : cid) : Prop :=
  exists s, it_bare it = BStr s /\ name_meaning s (id_name i) /\ Forall2 param_meaning (it_params it) (id_params i)
    /\ Forall (allowed (id_name i)) (id_params i).
(** the item, or its name without the double quotes; white space around it *)
Definition id_spelling (i : cid) (s : str) : Prop :=
  exists w1 t w2 it, s = w1 ++ t ++ w2 /\ Forall unicode_space w1 /\ Forall unicode_space w2 /\ no_space_at_ends t /\ item_meaning it i
    /\ (item_field it t \/ t <> [] /\ ~ In 34 t /\ item_field it (lit """" ++ t ++ lit """")).

(** the identifier that a covered item stands for: the one that its canonical text spells *)
Definition item_denotes (it : item) (i : cid) : Prop := exists t, canon_item it t /\ id_spelling i t.

(** ** signature parameters (RFC 9421 section 2.3) *)
Definition params_meaning (l : inner) (p : sparams) : Prop :=
  Forall2 item_denotes (in_items l) (sp_covered p) /\ no_duplicate (sp_covered p) /\ ~ negative (in_params l)
  /\ sp_created p = reads int_of (lit "created") (in_params l) /\ sp_expires p = reads int_of (lit "expires") (in_params l)
  /\ sp_nonce p = reads text_of (lit "nonce") (in_params l) /\ sp_alg p = reads text_of (lit "alg") (in_params l)
  /\ sp_keyid p = reads text_of (lit "keyid") (in_params l) /\ sp_tag p = reads text_of (lit "tag") (in_params l).
(** ** the two header fields (RFC 9421 section 4) *)
(** [r] is made of the member [kv] of Signature-Input and the byte sequence of that name among the members [ds] of Signature *)
Definition joins (ds : sdict) (kv : str * entry) (r : str * sigheaders) : Prop :=
  exists l ps, snd kv = EInner l /\ params_meaning l (sh_params (snd r)) /\ fst r = fst kv /\ sh_name (snd r) = fst kv
    /\ In (fst kv, EItem (mkItem (BBytes (sh_sig (snd r))) ps)) ds.
Definition header_texts (sig input : str) (l : list (str * sigheaders)) : Prop :=
  exists ds di, dict_field ds sig /\ dict_field di input /\ (forall k, In k (map fst ds) <-> In k (map fst di)) /\ Forall2 (joins ds) di l.

(** ** texts that make the library panic *)
(** an identifier whose name starts with an at sign and is none of the ten derived names; the parameters do not matter *)
Definition id_panics (s : str) : Prop :=
  exists t it n, stripped s t /\ it_bare it = BStr n /\ (exists r, n = lit "@" ++ r) /\ ~ In n derived_names
    /\ (item_field it t \/ t <> [] /\ ~ In 34 t /\ item_field it (lit """" ++ t ++ lit """")).
Definition item_panics (it : item) : Prop := exists t, canon_item it t /\ id_panics t.
(** such an identifier behind readable ones, or a negative time behind readable identifiers without duplicate *)
Definition params_panic (l : inner) : Prop :=
  (exists a it b ids, in_items l = a ++ it :: b /\ Forall2 item_denotes a ids /\ item_panics it)
  \/ (exists ids, Forall2 item_denotes (in_items l) ids /\ no_duplicate ids /\ negative (in_params l)).
(** two dictionaries with the same names, one of byte sequences and one of inner lists, and the first unreadable inner list is of that kind *)
Definition headers_panic (sig input : str) : Prop :=
  exists ds di a k l b, dict_field ds sig /\ dict_field di input /\ (forall k, In k (map fst ds) <-> In k (map fst di))
  /\ (forall k e, In (k, e) ds -> exists x ps, e = EItem (mkItem (BBytes x) ps)) /\ (forall k e, In (k, e) di -> exists x, e = EInner x)
  /\ di = a ++ (k, EInner l) :: b /\ (forall k' x, In (k', EInner x) a -> exists p, params_meaning x p) /\ params_panic l.

(** ** how signature parameters are written (RFC 9421 section 2.3) *)
Inductive param_written : cparam -> str * bare -> Prop :=
| pw_sf : param_written Sf (lit "sf", BBool true)
| pw_bs : param_written Bs (lit "bs", BBool true)
| pw_tr : param_written Tr (lit "tr", BBool true)
| pw_req : param_written Req (lit "req", BBool true)
| pw_key s : param_written (Key s) (lit "key", BStr s)
| pw_name s : param_written (Name s) (lit "name", BStr s).
Definition id_written (i : cid) (it : item) : Prop :=
  exists s, it_bare it = BStr s /\ name_meaning s (id_name i) /\ Forall2 param_written (id_params i) (it_params it).
Definition given {A} (k : str) (f : A -> bare) (o : option A) : params := match o with Some a => [(k, f a)] | None => [] end.
(** the six parameters in a fixed order, those that are not set left out *)
Definition params_written (p : sparams) (l : inner) : Prop :=
  Forall2 id_written (sp_covered p) (in_items l)
  /\ in_params l = given (lit "created") (fun n => BInt (Z.of_N n)) (sp_created p) ++ given (lit "expires") (fun n => BInt (Z.of_N n)) (sp_expires p)
       ++ given (lit "nonce") BStr (sp_nonce p) ++ given (lit "alg") BStr (sp_alg p) ++ given (lit "keyid") BStr (sp_keyid p) ++ given (lit "tag") BStr (sp_tag p).
