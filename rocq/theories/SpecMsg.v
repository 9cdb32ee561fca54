(** Specification vocabulary for signatures in messages. *)
From Verif Require Import Base Utf8 Sfv Component Crypto Params SigBase Http Hyper SpecSfv SpecGrammar SpecId SpecParams SpecIdText SpecValue.

(** ** header lines *)
Definition field_lines (h : headers) (n : str) : list bytes :=
  map snd (filter (fun kv : str * bytes => if list_eq_dec N.eq_dec (fst kv) n then true else false) h).
(** visible ASCII characters, spaces and tabs *)
Definition legible (v : bytes) : Prop := Forall (fun b => 32 <= b <= 126 \/ b = 9) v.

(** ** the signatures of a message *)
Definition signed (m : msg) : Prop :=
  field_lines (msg_headers m) (lit "signature") <> [] /\ field_lines (msg_headers m) (lit "signature-input") <> [].
Definition received (m : msg) (l : list (str * sigheaders)) : Prop :=
  let sig := field_lines (msg_headers m) (lit "signature") in
  let input := field_lines (msg_headers m) (lit "signature-input") in
  signed m /\ Forall legible sig /\ Forall legible input /\ header_texts (comma_join sig) (comma_join input) l.

(** a signature that can be written into headers *)
Definition sendable (h : sigheaders) : Prop := key_text (sh_name h) /\ Forall octet (sh_sig h) /\ writable (sh_params h).

(** a message whose signature headers make the library panic *)
Definition panic_message (m : msg) : Prop :=
  field_lines (msg_headers m) (lit "signature") <> [] /\ field_lines (msg_headers m) (lit "signature-input") <> []
  /\ Forall legible (field_lines (msg_headers m) (lit "signature")) /\ Forall legible (field_lines (msg_headers m) (lit "signature-input"))
  /\ headers_panic (comma_join (field_lines (msg_headers m) (lit "signature"))) (comma_join (field_lines (msg_headers m) (lit "signature-input"))).

(** ** verification *)
Definition expired (now : N) (h : sigheaders) : Prop := exists e, sp_expires (sh_params h) = Some e /\ e < now.
(** a key that verifies without panicking *)
Definition total_key (k : verifying_key) : Prop := forall d s q, vk_verify k d s <> Panic q.

(** ** signing *)
(** the verifying key accepts what the signing key signs *)
Definition matching (sk : signing_key) (vk : verifying_key) : Prop :=
  forall seed d s, sk_sign sk seed d = Ok s -> Forall octet s /\ vk_verify vk d s = Ok tt.
Definition job_name (j : job) : str := match j_name j with Some n => n | None => lit "sig" end.
(** the component is not taken from the signature headers *)
Definition not_signature (i : cid) : Prop :=
  In Req (id_params i) \/ match id_name i with
                         | HttpField n => lower n <> lit "signature" /\ lower n <> lit "signature-input"
                         | Derived d => d <> SignatureParams
                         end.
