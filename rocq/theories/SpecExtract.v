(** Specification of the value that a message has for a component identifier, and of the text that gets signed (RFC 9421 sections 2.1-2.5). *)
From Verif Require Import Base Utf8 Sfv Component Crypto Params SigBase Http Hyper SpecSfv SpecId SpecValue SpecBase SpecMsg.

(** ** HTTP fields *)
(** field names are nonempty tokens *)
Definition field_name (n : str) : Prop := n <> [] /\ Forall tchar n /\ N.of_nat (length n) <= 65535.
(** the lines of the field called [n], in any case; there are none if [n] is no field name *)
Definition has_lines (h : headers) (n : str) (ls : list bytes) : Prop :=
  (field_name n /\ ls = field_lines h (lower n)) \/ (~ field_name n /\ ls = []).
(** effect of the parameters on the lines, from left to right: sf replaces each line by its canonical text, key selects
    dictionary members, req has no effect; there is no case for bs, tr and name *)
Inductive processed : list cparam -> list str -> list str -> Prop :=
| pr_nil vs : processed [] vs vs
| pr_req ps vs out : processed ps vs out -> processed (Req :: ps) vs out
| pr_sf ps vs vs' out : Forall2 canonical vs vs' -> processed ps vs' out -> processed (Sf :: ps) vs out
| pr_key k ps vs vs' out : member_texts k vs vs' -> processed ps vs' out -> processed (Key k :: ps) vs out.

(** ** derived components *)
(** the first signature-input line has the form label=value *)
Definition own_params (h : headers) (v : str) : Prop :=
  exists w ws k, field_lines h (lit "signature-input") = w :: ws /\ legible w /\ stripped w (k ++ lit "=" ++ v) /\ ~ In 61 k.
Definition maybe (o : option str) : str := match o with Some s => s | None => [] end.
(** RFC 9421 section 2.2 for requests; [uri_str], [uri_path] and [uri_path_and_query] are the accessors of the URI type (C10 says what they
    return for absolute URIs and for the origin form) *)
Definition request_value (r : request) (d : derived) (ps : list cparam) (v : str) : Prop :=
  (forall p, In p ps -> p = Req \/ d = QueryParam /\ exists n, p = Name n)
  /\ match d with
     | Method => v = upper (rq_method r)
     | TargetUri => v = uri_str (rq_uri r)
     | Authority => v = lower (maybe (u_auth (rq_uri r)))
     | Scheme => v = lower (maybe (u_scheme (rq_uri r)))
     | RequestTarget =>
         (rq_method r = lit "CONNECT" /\ v = maybe (u_auth (rq_uri r)))
         \/ (rq_method r = lit "OPTIONS" /\ v = lit "*")
         \/ (rq_method r <> lit "CONNECT" /\ rq_method r <> lit "OPTIONS" /\ v = maybe (uri_path_and_query (rq_uri r)))
     | Path => v = nonempty_path (uri_path (rq_uri r))
     | Query => v = lit "?" ++ maybe (u_query (rq_uri r))
     | QueryParam => exists n a b pieces out, ps = a ++ Name n :: b /\ (forall p, In p a -> p = Req)
         /\ u_query (rq_uri r) = Some (query_text pieces) /\ Forall (fun x => ~ In 38 x) pieces /\ (exists x, In x pieces /\ x <> [])
         /\ qvalues n pieces out /\ v = comma_join out
     | SignatureParams => own_params (rq_headers r) v
     | Status => False
     end.

(** ** components of messages *)
Definition own_value (m : msg) (i : cid) (v : str) : Prop :=
  match id_name i with
  | HttpField n => exists ls out, has_lines (msg_headers m) n ls /\ Forall legible ls /\ processed (id_params i) ls out /\ v = comma_join out
  | Derived d => match m with
                 | MReq r => request_value r d (id_params i) v
                 | MRes x => id_params i = [] /\ (d = Status /\ v = dec (rs_status x) \/ d = SignatureParams /\ own_params (rs_headers x) v)
                 end
  end.
(** components with req are those of the request that a response belongs to *)
Definition message_value (m : msg) (rfp : option request) (i : cid) (v : str) : Prop :=
  (~ In Req (id_params i) /\ own_value m i v)
  \/ (In Req (id_params i) /\ exists x r, m = MRes x /\ rfp = Some r /\ own_value (MReq r) i v).

(** ** the text that gets signed *)
Definition signed_text (m : msg) (rfp : option request) (p : sparams) (t : str) : Prop :=
  exists vs, Forall2 (message_value m rfp) (sp_covered p) vs /\ t = base_text (combine (map id_text (sp_covered p)) vs) (params_text p).

(** ** verification *)
(** the signatures that are checked, with the texts: those with the requested key id for which the message has a text *)
Inductive checked (m : msg) (rfp : option request) (kid : option str) : list (str * sigheaders) -> list (str * (str * sigheaders)) -> Prop :=
| ch_nil : checked m rfp kid [] []
| ch_take n h t l cs : signed_text m rfp (sh_params h) t -> (forall k, kid = Some k -> sp_keyid (sh_params h) = Some k) ->
    checked m rfp kid l cs -> checked m rfp kid ((n, h) :: l) ((n, (t, h)) :: cs)
| ch_skip n h l cs : (forall t, ~ signed_text m rfp (sh_params h) t) \/ (exists k, kid = Some k /\ sp_keyid (sh_params h) <> Some k) ->
    checked m rfp kid l cs -> checked m rfp kid ((n, h) :: l) cs.
(** the key, with the clock at [now], accepts the signature for the text [t], or panics *)
Definition accepts (now : N) (key : verifying_key) (t : str) (h : sigheaders) : Prop := ~ expired now h /\ vk_verify key (utf8 t) (sh_sig h) = Ok tt.
Definition panics (now : N) (key : verifying_key) (t : str) (h : sigheaders) : Prop := ~ expired now h /\ exists q, vk_verify key (utf8 t) (sh_sig h) = Panic q.

(** ** texts on one line *)
Definition line_text (s : str) : Prop := rust_text s /\ one_line s.
(** requests as the HTTP library makes them: no newline in the method and in the parts of the URI *)
Definition proper_request (r : request) : Prop :=
  line_text (rq_method r) /\ line_text (maybe (u_scheme (rq_uri r))) /\ line_text (maybe (u_auth (rq_uri r)))
  /\ line_text (u_path (rq_uri r)) /\ line_text (maybe (u_query (rq_uri r))).
Definition proper (m : msg) (rfp : option request) : Prop :=
  match m with MReq r => proper_request r | MRes _ => True end /\ match rfp with Some r => proper_request r | None => True end.

(** ** what a component is taken from *)
(** field [n] reads the same in both, even if it is split into lines in another way *)
Definition same_joined (h h' : headers) (n : str) : Prop :=
  comma_join (field_lines h n) = comma_join (field_lines h' n) /\ (field_lines h n = [] <-> field_lines h' n = []).
Definition request_of (m : msg) : option request := match m with MReq r => Some r | MRes _ => None end.
Definition status_of (m : msg) : option N := match m with MRes x => Some (rs_status x) | MReq _ => None end.
(** the two messages agree on what the component [i] (without req) is taken from *)
Definition agree_on (i : cid) (m m' : msg) : Prop :=
  is_request m = is_request m'
  /\ match id_name i with
     | HttpField x => field_name x ->
         field_lines (msg_headers m) (lower x) = field_lines (msg_headers m') (lower x)
         \/ (forall p, In p (id_params i) -> p = Req) /\ comma_join (field_lines (msg_headers m) (lower x)) = comma_join (field_lines (msg_headers m') (lower x))
     | Derived SignatureParams => field_lines (msg_headers m) (lit "signature-input") = field_lines (msg_headers m') (lit "signature-input")
     | Derived Status => status_of m = status_of m'
     | Derived Method => option_map rq_method (request_of m) = option_map rq_method (request_of m')
     | Derived RequestTarget => option_map rq_method (request_of m) = option_map rq_method (request_of m') /\ option_map rq_uri (request_of m) = option_map rq_uri (request_of m')
     | Derived _ => option_map rq_uri (request_of m) = option_map rq_uri (request_of m')
     end.
(** the same for any component; [rfp] is the request that a response belongs to *)
Definition agree (i : cid) (m : msg) (rfp : option request) (m' : msg) (rfp' : option request) : Prop :=
  is_request m = is_request m' /\ (~ In Req (id_params i) -> agree_on i m m')
  /\ (In Req (id_params i) -> match rfp, rfp' with
                              | Some r, Some r' => agree_on i (MReq r) (MReq r')
                              | None, None => True
                              | _, _ => False
                              end).
