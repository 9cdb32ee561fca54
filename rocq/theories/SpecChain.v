(** Specification vocabulary for signatures that cover other signatures of the message (RFC 9421 section 4.3). *)
From Verif Require Import Base Sfv Component Http Hyper SpecSfv SpecId Params Crypto SpecParams SpecValue SpecMsg SpecExtract SpecSign.

(** a field that holds signatures *)
Definition signature_field (n : str) : Prop := lower n = lit "signature" \/ lower n = lit "signature-input".
(** a component that is not changed by adding signatures with these names: it has nothing to do with the signature headers, or is a member of
    them with another name (sf may stand before key), or is what the first line of Signature-Input says *)
Definition steady (names : list str) (i : cid) : Prop :=
  not_signature i \/ id_name i = Derived SignatureParams
  \/ exists n s k ps, i = mkCid (HttpField n) (repeat Sf s ++ Key k :: ps) /\ ~ In k names.
(** what is asked of the jobs: like [proper_job], but members of the signature headers can be covered too *)
Definition chain_job (names : list str) (j : job) : Prop :=
  octets (j_key j) /\ writable (j_params j) /\ key_text (job_name j) /\ Forall (steady names) (sp_covered (j_params j)).
