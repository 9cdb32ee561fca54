(** httpsig-hyper/src/hyper_content_digest.rs and lib.rs. The hash functions are parameters. *)
From Verif Require Import Base Utf8 Base64 Sfv Crypto Http.

(** httpsig-hyper/src/error.rs:44-68, HyperDigestError without the messages *)
Inductive derr :=
| HttpBodyError | NoDigestHeader | DInvalidHeaderValue | FailedToStrDigestHeader | InvalidContentDigest
| InvalidContentDigestType.

(** lib.rs:33-36 *)
Inductive cdtype := Sha256 | Sha512.

(** crate sha2 *)
Record hashes := mkHashes { h256 : bytes -> bytes; h512 : bytes -> bytes }.

(** lib.rs:30 *)
Definition h_digest : str := lit "content-digest".

(** lib.rs:38-45, [Display] *)
Definition cdtype_str (t : cdtype) : str := match t with Sha256 => lit "sha-256" | Sha512 => lit "sha-512" end.
(** lib.rs:47-56, [FromStr] *)
Definition cdtype_of_str (s : str) : result derr cdtype :=
  if str_eqb s (lit "sha-256") then Ok Sha256
  else if str_eqb s (lit "sha-512") then Ok Sha512
  else Err InvalidContentDigestType.

(** hyper_content_digest.rs:18-24: [BodyExt::collect] then [to_bytes]; the data frames concatenated, trailers
    dropped, the first error stops *)
Fixpoint into_bytes (b : body) : option bytes :=
  match b with
  | [] => Some []
  | FData d :: r => match into_bytes r with Some x => Some (d ++ x) | None => None end
  | FTrailers _ :: r => into_bytes r
  | FError :: _ => None
  end.

(** hyper_content_digest.rs:45-59 *)
Definition derive_digest (H : hashes) (b : bytes) (t : cdtype) : bytes :=
  match t with Sha256 => h256 H b | Sha512 => h512 H b end.

(** hyper_content_digest.rs:27-41 *)
Definition into_bytes_with_digest (H : hashes) (b : body) (t : cdtype) : option (bytes * str) :=
  match into_bytes b with
  | Some x => Some (x, b64_encode (derive_digest H x t))
  | None => None
  end.

(** [Full::new(bytes)]: one data frame, or none when empty *)
Definition full (b : bytes) : body := match b with [] => [] | _ => [FData b] end.

(** The common part of hyper_content_digest.rs:111-128 and 166-183: new headers and body.
    [format!(..).parse().unwrap()] panics if the text is not a header value (it always is: C49). *)
Definition set_digest (H : hashes) (h : headers) (b : body) (t : cdtype) : result derr (headers * body) :=
  match into_bytes_with_digest H b t with
  | None => Err HttpBodyError
  | Some (bs, d) =>
      match header_value (cdtype_str t ++ lit "=:" ++ d ++ lit ":") with
      | Some v => Ok (hm_insert h h_digest v, full bs)
      | None => Panic PUnwrap
      end
  end.

(** hyper_content_digest.rs:211-218 *)
Definition is_equal_digest (a b : bytes) : bool :=
  if negb (Nat.eqb (List.length a) (List.length b)) then false else list_eqb N.eqb a b.

(** hyper_content_digest.rs:220-256, [extract_content_digest]: only the first header line is read *)
Definition extract_content_digest (h : headers) : result derr (cdtype * bytes) :=
  let* v := ok_or (hm_get h h_digest) NoDigestHeader in
  let* s := ok_or (hv_to_str v) FailedToStrDigestHeader in
  let* m := ok_or (parse_dict s) DInvalidHeaderValue in
  match m with
  | [(k, e)] =>
      let* t := map_err (fun _ => DInvalidHeaderValue) (cdtype_of_str k) in
      match e with
      | EItem (mkItem (BBytes d) _) => Ok (t, d)
      | _ => Err DInvalidHeaderValue
      end
  | _ => Err DInvalidHeaderValue
  end.

(** The common part of hyper_content_digest.rs:132-155 and 184-207 *)
Definition verify_digest (H : hashes) (h : headers) (b : body) : result derr (headers * body) :=
  let* (t, expected) := extract_content_digest h in
  match into_bytes b with
  | None => Err HttpBodyError
  | Some bs =>
      if is_equal_digest (derive_digest H bs t) expected then Ok (h, full bs) else Err InvalidContentDigest
  end.

(** hyper_content_digest.rs:111-128, 132-155, 166-183, 184-207: on requests and responses *)
Definition req_set_digest (H : hashes) (r : request) (t : cdtype) : result derr request :=
  let* (h, b) := set_digest H (rq_headers r) (rq_body r) t in Ok (mkReq (rq_method r) (rq_uri r) h b).
Definition req_verify_digest (H : hashes) (r : request) : result derr request :=
  let* (h, b) := verify_digest H (rq_headers r) (rq_body r) in Ok (mkReq (rq_method r) (rq_uri r) h b).
Definition res_set_digest (H : hashes) (r : response) (t : cdtype) : result derr response :=
  let* (h, b) := set_digest H (rs_headers r) (rs_body r) t in Ok (mkRes (rs_status r) h b).
Definition res_verify_digest (H : hashes) (r : response) : result derr response :=
  let* (h, b) := verify_digest H (rs_headers r) (rs_body r) in Ok (mkRes (rs_status r) h b).
