(** The parts of the crates [http] and [http-body] that /repo uses (not in /repo; see DESIGN.md, trusted base). *)
From Verif Require Import Base Utf8 Sfv.

(** HeaderMap: the header lines (lower-case name, value bytes) in insertion order.
    Simplification: the limit of 32768 entries, at which [append] panics, is not modelled. *)
Definition headers := list (str * bytes).

(** HeaderName from text: nonempty, token characters, at most 65535 bytes; stored in lower case. *)
Definition header_name (s : str) : option str :=
  if negb (is_empty s) && forallb is_tchar s && (N.of_nat (List.length s) <=? 65535)
  then Some (to_lower s) else None.

(** [HeaderMap::get_all]: a text that is not a header name finds nothing *)
Definition hm_get_all (h : headers) (name : str) : list bytes :=
  match header_name name with
  | Some n => map snd (filter (fun kv => str_eqb (fst kv) n) h)
  | None => []
  end.
(** [HeaderMap::get]: the first value *)
Definition hm_get (h : headers) (name : str) : option bytes := hd_error (hm_get_all h name).
(** [HeaderMap::contains_key] *)
Definition hm_contains (h : headers) (name : str) : bool := negb (is_empty (hm_get_all h name)).
(** [HeaderMap::append] with a static lower-case name *)
Definition hm_append (h : headers) (name : str) (v : bytes) : headers := h ++ [(name, v)].
(** [HeaderMap::insert] with a static lower-case name: all earlier values are replaced *)
Fixpoint hm_insert (h : headers) (name : str) (v : bytes) : headers :=
  match h with
  | [] => [(name, v)]
  | (n, w) :: r => if str_eqb n name then (n, v) :: filter (fun kv => negb (str_eqb (fst kv) name)) r
                   else (n, w) :: hm_insert r name v
  end.

(** [HeaderValue::from_str]: bytes 32-255 except 127, and tab *)
Definition hv_byte (b : byte) : bool := ((32 <=? b) && negb (b =? 127)) || (b =? 9).
Definition header_value (s : str) : option bytes :=
  let b := utf8 s in if forallb hv_byte b then Some b else None.
(** [HeaderValue::to_str]: visible ASCII and tab only *)
Definition hv_visible (b : byte) : bool := ((32 <=? b) && (b <=? 126)) || (b =? 9).
Definition hv_to_str (v : bytes) : option str := if forallb hv_visible v then Some v else None.

(** Uri: scheme, authority ([None] when absent), raw path (may be empty), query (text after the question mark).
    The fragment is dropped by the parser. *)
Record uri := mkUri { u_scheme : option str; u_auth : option str; u_path : str; u_query : option str }.

(** The text kept by PathAndQuery. *)
Definition pq_data (u : uri) : str :=
  u_path u ++ match u_query u with Some q => cQM :: q | None => [] end.
(** [Uri::path]: empty only for a bare authority, otherwise an empty path reads "/" *)
Definition uri_path (u : uri) : str :=
  if negb (is_empty (pq_data u)) || is_some (u_scheme u)
  then (if is_empty (u_path u) then lit "/" else u_path u) else [].
(** [Uri::path_and_query] and its [Display] *)
Definition uri_path_and_query (u : uri) : option str :=
  if is_some (u_scheme u) || negb (is_some (u_auth u)) then
    Some (match pq_data u with
          | [] => lit "/"
          | c :: _ => if (c =? cSlash) || (c =? cStar) then pq_data u else cSlash :: pq_data u
          end)
  else None.
(** [Display for Uri] *)
Definition uri_str (u : uri) : str :=
  match u_scheme u with Some s => s ++ lit "://" | None => [] end
  ++ match u_auth u with Some a => a | None => [] end
  ++ uri_path u
  ++ match u_query u with Some q => cQM :: q | None => [] end.

(** Body frames as produced by [Body::poll_frame]. *)
Inductive frame := FData (b : bytes) | FTrailers (t : headers) | FError.
Definition body := list frame.

(** http::Request and http::Response (version and extensions are never read or changed). *)
Record request := mkReq { rq_method : str; rq_uri : uri; rq_headers : headers; rq_body : body }.
Record response := mkRes { rs_status : N; rs_headers : headers; rs_body : body }.
