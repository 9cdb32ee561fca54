(** Specification vocabulary for requests that travel from a client to a server. *)
From Verif Require Import Base Sfv Component Crypto Params SigBase Http Hyper SpecSfv SpecId SpecParams SpecValue SpecMsg.

(** [r] as its client made it, with an absolute URI, and [r'] as it arrives over HTTP/1.1 (RFC 9112 sections 3.2.1 and 3.2): the request line has
    path and query only, there is a host field with the authority (without user information); the other fields and the body stay *)
Inductive transit : request -> request -> Prop :=
| tr_origin m s a p q h h' b : m <> lit "CONNECT" -> s <> [] -> a <> [] -> p = [] \/ slash_path p ->
    field_lines h' (lit "host") <> [] -> (forall n, n <> lit "host" -> field_lines h' n = field_lines h n) ->
    transit (mkReq m (absolute s a p q) h b) (mkReq m (origin (nonempty_path p) q) h' b).
(** the part of the URI that does not arrive as such is not needed *)
Definition in_request_line (d : derived) : Prop := d <> Authority /\ d <> Scheme /\ d <> TargetUri.
Definition transportable (i : cid) : Prop :=
  match id_name i with HttpField x => lower x <> lit "host" | Derived d => in_request_line d end.
