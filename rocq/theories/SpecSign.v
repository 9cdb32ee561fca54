(** Specification vocabulary for signing messages. *)
From Verif Require Import Base Utf8 Sfv Component Crypto Params SigBase Http Hyper SpecSfv SpecId SpecParams SpecBase SpecMsg SpecExtract.

(** [h] is the signature that the job makes on the message *)
Definition made (m : msg) (rfp : option request) (j : job) (h : sigheaders) : Prop :=
  exists t, signed_text m rfp (j_params j) t /\ sk_sign (j_key j) (j_seed j) (utf8 t) = Ok (sh_sig h)
  /\ sh_name h = job_name j /\ sh_params h = j_params j.
(** the two header lines of a signature (RFC 9421 sections 4.1 and 4.2) *)
Definition input_line (h : sigheaders) : bytes := utf8 (sh_name h ++ lit "=" ++ params_text (sh_params h)).
Definition signature_line (h : sigheaders) : bytes := utf8 (sh_name h ++ lit "=:" ++ b64_text (sh_sig h) ++ lit ":").
Definition pair_lines (h : sigheaders) : headers := [(lit "signature-input", input_line h); (lit "signature", signature_line h)].
(** what may stand in a header value: no control bytes except tabs *)
Definition header_bytes (b : bytes) : Prop := Forall (fun c => 32 <= c /\ c <> 127 \/ c = 9) b.
(** keys return octets *)
Definition octets (sk : signing_key) : Prop := forall seed d s, sk_sign sk seed d = Ok s -> Forall octet s.

(** the message has these signatures, and further ones can be added behind them *)
Definition carries (m : msg) (l : list (str * sigheaders)) : Prop :=
  (l = [] /\ field_lines (msg_headers m) (lit "signature") = [] /\ field_lines (msg_headers m) (lit "signature-input") = [])
  \/ (l <> [] /\ received m l).
(** calls of set_message_signatures, one after the other, that all succeed *)
Inductive history (rfp : option request) : msg -> list (list job) -> msg -> Prop :=
| hist_nil m : history rfp m [] m
| hist_call m jobs m1 calls m2 : set_message_signatures m rfp jobs = (m1, Ok tt) -> history rfp m1 calls m2 -> history rfp m (jobs :: calls) m2.
(** the same, with the signatures made: each call signs the message that the call before left *)
Inductive signing (rfp : option request) : msg -> list (list job) -> list sigheaders -> msg -> Prop :=
| sign_nil m : signing rfp m [] [] m
| sign_call m jobs l m1 calls r m2 : set_message_signatures m rfp jobs = (m1, Ok tt) -> Forall2 (made m rfp) jobs l ->
    signing rfp m1 calls r m2 -> signing rfp m (jobs :: calls) (l ++ r) m2.
(** a job whose signature can be written, read back and checked *)
Definition proper_job (j : job) : Prop :=
  octets (j_key j) /\ writable (j_params j) /\ key_text (job_name j) /\ Forall not_signature (sp_covered (j_params j)).
Definition with_name (h : sigheaders) : str * sigheaders := (sh_name h, h).
