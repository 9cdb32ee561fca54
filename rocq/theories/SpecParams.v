(** Specification vocabulary for signature parameters. *)
From Verif Require Import Base Sfv Component Crypto Params SpecSfv SpecId.

(** ** reading (RFC 9421 section 2.3): the parameters are a map *)
Definition int_of (b : bare) : option N := match b with BInt z => Some (Z.to_N z) | _ => None end.
Definition text_of (b : bare) : option str := match b with BStr s => Some s | _ => None end.
Definition reads {A} (f : bare -> option A) (k : str) (ps : params) : option A :=
  match last_value k ps with Some b => f b | None => None end.
(** a negative creation or expiration time *)
Definition negative (ps : params) : Prop :=
  exists k z, (k = lit "created" \/ k = lit "expires") /\ last_value k ps = Some (BInt z) /\ (z < 0)%Z.
(** the six parameter names that mean something *)
Definition known : list str := [lit "created"; lit "expires"; lit "nonce"; lit "alg"; lit "keyid"; lit "tag"].

(** RFC 9421 sections 2.2 and 2.3 *)
Definition derived_names : list str :=
  [lit "@method"; lit "@target-uri"; lit "@authority"; lit "@scheme"; lit "@request-target"; lit "@path"; lit "@query";
   lit "@query-param"; lit "@status"; lit "@signature-params"].

(** ** parameters that can be written as they are *)
Definition plain (o : option str) : Prop := match o with Some s => Forall printable s /\ clean s | None => True end.
Definition short (o : option N) : Prop := match o with Some n => n <= 999999999999999 | None => True end.
Definition writable (p : sparams) : Prop :=
  short (sp_created p) /\ short (sp_expires p)
  /\ plain (sp_nonce p) /\ plain (sp_alg p) /\ plain (sp_keyid p) /\ plain (sp_tag p)
  /\ Forall valid_id (sp_covered p) /\ Forall clean_id (sp_covered p) /\ no_duplicate (sp_covered p).
(** no double quotes and backslashes in any text *)
Definition unescaped (p : sparams) : Prop :=
  (forall s, In (Some s) [sp_nonce p; sp_alg p; sp_keyid p; sp_tag p] -> clean s) /\ Forall clean_id (sp_covered p).

(** no double quote in any text *)
Definition unquoted (p : sparams) : Prop :=
  (forall s, In (Some s) [sp_nonce p; sp_alg p; sp_keyid p; sp_tag p] -> ~ In 34 s) /\ Forall (lacks 34) (sp_covered p).
(** what parameters look like that were received *)
Definition wellformed (p : sparams) : Prop :=
  short (sp_created p) /\ short (sp_expires p) /\ Forall valid_id (sp_covered p) /\ no_duplicate (sp_covered p).

(** ** setters *)
Inductive setter :=
| SetCreated (n : N) | SetExpires (n : N) | SetNonce (s : str) | SetAlg (a : alg) | SetKeyid (s : str) | SetTag (s : str)
| SetKeyInfo (k : signing_key) | SetRandomNonce (rnd : bytes).
Definition call (p : sparams) (s : setter) : sparams :=
  match s with
  | SetCreated n => set_created p n
  | SetExpires n => set_expires p n
  | SetNonce s => set_nonce p s
  | SetAlg a => set_alg p a
  | SetKeyid s => set_keyid p s
  | SetTag s => set_tag p s
  | SetKeyInfo k => set_key_info p k
  | SetRandomNonce r => set_random_nonce p r
  end.
(** the argument of the last call that has one for a field *)
Fixpoint last_arg {A} (f : setter -> option A) (l : list setter) : option A :=
  match l with
  | [] => None
  | s :: r => match last_arg f r with Some a => Some a | None => f s end
  end.
Definition or_initial {A} (o i : option A) : option A := match o with Some a => Some a | None => i end.
