(** Specification vocabulary for content digests (RFC 9530). *)
From Verif Require Import Base Sfv Component Http Hyper Digest SpecSfv SpecGrammar SpecId SpecMsg.

(** the data of a body, and whether it can be read to the end *)
Definition data_of (b : body) : bytes := flat_map (fun f => match f with FData d => d | _ => [] end) b.
Definition readable (b : body) : Prop := ~ In FError b.
(** the body sent on: one data frame with the same data, or nothing *)
Definition sent_on (b b' : body) : Prop := (data_of b = [] /\ b' = []) \/ (data_of b <> [] /\ b' = [FData (data_of b)]).
(** [d] is the digest of [x] for the algorithm named [n] in the registry *)
Definition digest_of (H : hashes) (n : str) (x d : bytes) : Prop := (n = lit "sha-256" /\ d = h256 H x) \/ (n = lit "sha-512" /\ d = h512 H x).
(** a header line with exactly one digest *)
Definition digest_line (v : bytes) (n : str) (d : bytes) : Prop :=
  legible v /\ exists ps, dict_field [(n, EItem (mkItem (BBytes d) ps))] v.
(** hash values are octets *)
Definition octet_hashes (H : hashes) : Prop := forall x, Forall octet (h256 H x) /\ Forall octet (h512 H x).
Definition type_name (t : cdtype) : str := match t with Sha256 => lit "sha-256" | Sha512 => lit "sha-512" end.
Definition hash (H : hashes) (t : cdtype) (x : bytes) : bytes := match t with Sha256 => h256 H x | Sha512 => h512 H x end.

(** the two methods, on any message *)
Definition msg_body (m : msg) : body := match m with MReq r => rq_body r | MRes x => rs_body x end.
Definition with_content (m : msg) (h : headers) (b : body) : msg :=
  match m with MReq r => MReq (mkReq (rq_method r) (rq_uri r) h b) | MRes x => MRes (mkRes (rs_status x) h b) end.
Definition set_content_digest (H : hashes) (m : msg) (t : cdtype) : result derr msg :=
  match m with MReq r => rmap MReq (req_set_digest H r t) | MRes x => rmap MRes (res_set_digest H x t) end.
Definition verify_content_digest (H : hashes) (m : msg) : result derr msg :=
  match m with MReq r => rmap MReq (req_verify_digest H r) | MRes x => rmap MRes (res_verify_digest H x) end.
(** the header line that RFC 9530 prescribes *)
Definition digest_value (H : hashes) (t : cdtype) (x : bytes) : str := type_name t ++ lit "=:" ++ b64_text (hash H t x) ++ lit ":".
(** calls of set_content_digest one after the other, all successful *)
Inductive digest_history (H : hashes) : msg -> list cdtype -> msg -> Prop :=
| dh_nil m : digest_history H m [] m
| dh_call m t m1 ts m2 : set_content_digest H m t = Ok m1 -> digest_history H m1 ts m2 -> digest_history H m (t :: ts) m2.
(** the identifier of the content-digest field *)
Definition digest_id : cid := mkCid (HttpField (lit "content-digest")) [].
