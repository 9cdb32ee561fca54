(** httpsig/src/signature_base.rs *)
From Verif Require Import Base Utf8 Base64 Sfv Component Crypto Params.

(** signature_base.rs:21-28 *)
Record sigheaders := mkSh { sh_name : str; sh_sig : bytes; sh_params : sparams }.

(** signature_base.rs:17 *)
Definition default_signature_name : str := lit "sig".

Definition is_byteseq (e : entry) : bool :=
  match e with EItem (mkItem (BBytes _) _) => true | _ => false end.
Definition is_inner (e : entry) : bool := match e with EInner _ => true | _ => false end.

(** signature_base.rs:32-100, [HttpSignatureHeaders::try_parse] *)
Definition try_parse (signature_header signature_input_header : str) : result err (list (str * sigheaders)) :=
  let* signature_input := ok_or (parse_dict signature_input_header) ParseSFVError in
  let* signature := ok_or (parse_dict signature_header) ParseSFVError in
  if negb (Nat.eqb (List.length signature) (List.length signature_input)) then Err BuildSignatureHeaderError
  else if negb (forallb (fun kv => im_contains signature_input (fst kv)) signature) then Err BuildSignatureHeaderError
  else if negb (forallb (fun kv => is_byteseq (snd kv)) signature) then Err BuildSignatureHeaderError
  else if negb (forallb (fun kv => is_inner (snd kv)) signature_input) then Err BuildSignatureHeaderError
  else
    let* l := collect (fun kv : str * entry =>
                let (k, v) := kv in
                let* p := sparams_of_entry v in
                match im_get signature k with
                | Some (EItem (mkItem (BBytes b) _)) => Ok (k, mkSh k b p)
                | _ => Panic PUnreachable
                end) signature_input in
    Ok (im_of_list l).

(** signature_base.rs:118-124,127-135 *)
Definition signature_header_value (h : sigheaders) : str :=
  sh_name h ++ lit "=:" ++ b64_encode (sh_sig h) ++ lit ":".
Definition signature_input_header_value (h : sigheaders) : str :=
  sh_name h ++ lit "=" ++ sparams_str (sh_params h).

(** signature_base.rs:139-144 *)
Record sigbase := mkBase { sb_lines : list comp; sb_params : sparams }.

(** signature_base.rs:151-173, [HttpSignatureBase::try_new] *)
Definition base_try_new (lines : list comp) (p : sparams) : result err sigbase :=
  if negb (Nat.eqb (List.length lines) (List.length (sp_covered p))) then Err BuildSignatureBaseError
  else if negb (forallb (fun ab : comp * cid => cid_eqb (co_id (fst ab)) (snd ab)) (combine lines (sp_covered p)))
  then Err BuildSignatureBaseError
  else Ok (mkBase lines p).

(** signature_base.rs:237-247, [Display] *)
Definition base_str (b : sigbase) : str :=
  flat_map (fun c => comp_str c ++ [cNL]) (sb_lines b)
  ++ cQuote :: lit "@signature-params" ++ cQuote :: lit ": " ++ sparams_str (sb_params b).

(** signature_base.rs:176-179, [as_bytes] *)
Definition base_bytes (b : sigbase) : bytes := utf8 (base_str b).

(** signature_base.rs:182-185, [build_raw_signature] *)
Definition build_raw_signature (b : sigbase) (k : signing_key) (seed : N) : result err bytes :=
  sk_sign k seed (base_bytes b).

(** signature_base.rs:188-199, [build_signature_headers] *)
Definition build_signature_headers (b : sigbase) (k : signing_key) (name : option str) (seed : N)
  : result err sigheaders :=
  let* s := build_raw_signature b k seed in
  Ok (mkSh (match name with Some n => n | None => default_signature_name end) s (sb_params b)).

(** signature_base.rs:202-214, [verify_signature_headers] *)
Definition verify_signature_headers (now : N) (b : sigbase) (k : verifying_key) (h : sigheaders) : result err unit :=
  if is_expired now (sh_params h) then Err ExpiredSignatureParams
  else vk_verify k (base_bytes b) (sh_sig h).

(** signature_base.rs:217-234 *)
Definition base_keyid (b : sigbase) : option str := sp_keyid (sb_params b).
Definition base_alg (b : sigbase) : option str := sp_alg (sb_params b).
Definition base_nonce (b : sigbase) : option str := sp_nonce (sb_params b).
Definition base_covered (b : sigbase) : list cid := sp_covered (sb_params b).
