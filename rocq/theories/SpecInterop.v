(** Specification of the text that RFC 9421 section 3.2 wants to be verified. *)
From Verif Require Import Base Sfv Component Crypto Params SigBase Http Hyper SpecSfv SpecGrammar SpecCanon SpecId SpecParams SpecIdText SpecValue SpecBase SpecMsg SpecExtract.

(** the lines of the covered components, then the member of Signature-Input as it was received: all parameters in their order, in canonical form *)
Definition rfc_text (m : msg) (rfp : option request) (l : inner) (t : str) : Prop :=
  exists p vs s, params_meaning l p /\ Forall2 (message_value m rfp) (sp_covered p) vs /\ canon_inner l s
    /\ t = base_text (combine (map id_text (sp_covered p)) vs) s.
