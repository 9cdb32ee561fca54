(** httpsig/src/signature_params.rs and util.rs *)
From Verif Require Import Base Base64 Sfv Component Crypto.

(** util.rs:2-9, [has_unique_elements]; a hash set finds an equal element since equal ids hash equally (C04) *)
Fixpoint uniq_from (seen : list cid) (l : list cid) : bool :=
  match l with
  | [] => true
  | x :: r => if existsb (cid_eqb x) seen then false else uniq_from (x :: seen) r
  end.
Definition has_unique_elements (l : list cid) : bool := uniq_from [] l.

(** signature_params.rs:19-34 *)
Record sparams := mkSparams {
  sp_created : option N;
  sp_expires : option N;
  sp_nonce : option str;
  sp_alg : option str;
  sp_keyid : option str;
  sp_tag : option str;
  sp_covered : list cid }.

(** signature_params.rs:38-51, [try_new]; [now] is the clock *)
Definition sp_try_new (now : N) (ids : list cid) : result err sparams :=
  if negb (has_unique_elements ids) then Err InvalidSignatureParams
  else Ok (mkSparams (Some now) None None None None None ids).

(** signature_params.rs:54-102, setters *)
Definition set_created (p : sparams) (v : N) : sparams :=
  mkSparams (Some v) (sp_expires p) (sp_nonce p) (sp_alg p) (sp_keyid p) (sp_tag p) (sp_covered p).
Definition set_expires (p : sparams) (v : N) : sparams :=
  mkSparams (sp_created p) (Some v) (sp_nonce p) (sp_alg p) (sp_keyid p) (sp_tag p) (sp_covered p).
Definition set_nonce (p : sparams) (v : str) : sparams :=
  mkSparams (sp_created p) (sp_expires p) (Some v) (sp_alg p) (sp_keyid p) (sp_tag p) (sp_covered p).
Definition set_alg (p : sparams) (a : alg) : sparams :=
  mkSparams (sp_created p) (sp_expires p) (sp_nonce p) (Some (alg_str a)) (sp_keyid p) (sp_tag p) (sp_covered p).
Definition set_keyid (p : sparams) (v : str) : sparams :=
  mkSparams (sp_created p) (sp_expires p) (sp_nonce p) (sp_alg p) (Some v) (sp_tag p) (sp_covered p).
Definition set_tag (p : sparams) (v : str) : sparams :=
  mkSparams (sp_created p) (sp_expires p) (sp_nonce p) (sp_alg p) (sp_keyid p) (Some v) (sp_covered p).
Definition set_key_info (p : sparams) (k : signing_key) : sparams :=
  mkSparams (sp_created p) (sp_expires p) (sp_nonce p) (Some (alg_str (sk_alg k))) (Some (sk_key_id k)) (sp_tag p)
    (sp_covered p).
(** [rnd]: the 32 random bytes *)
Definition set_random_nonce (p : sparams) (rnd : bytes) : sparams :=
  mkSparams (sp_created p) (sp_expires p) (Some (b64_encode rnd)) (sp_alg p) (sp_keyid p) (sp_tag p) (sp_covered p).

(** signature_params.rs:13 *)
Definition default_duration : N := 300.
Definition u64_max : N := 18446744073709551615.

(** signature_params.rs:105-110, [set_expires_with_duration]; u64 addition panics on overflow in a debug build
    ([checked = true]) and wraps in a release build *)
Definition set_expires_with_duration (checked : bool) (p : sparams) (d : option N) : result err sparams :=
  match sp_created p with
  | None => Panic PAssertCreated
  | Some c =>
      let d := match d with Some d => d | None => default_duration end in
      if c + d <=? u64_max then Ok (set_expires p (c + d))
      else if checked then Panic POverflow
      else Ok (set_expires p ((c + d) mod (u64_max + 1)))
  end.

(** signature_params.rs:114-120, [is_expired]; [now] is the clock *)
Definition is_expired (now : N) (p : sparams) : bool :=
  match sp_expires p with Some e => e <? now | None => false end.

(** signature_params.rs:123-153, [Display]: strings are not escaped *)
Definition opt_str {A} (o : option A) (f : A -> str) : str := match o with Some a => f a | None => [] end.
Definition quoted (s : str) : str := cQuote :: s ++ [cQuote].
Definition sparams_str (p : sparams) : str :=
  let joined := fold_left (fun acc v => if is_empty acc then cid_str v else acc ++ lit " " ++ cid_str v)
                  (sp_covered p) [] in
  lit "(" ++ joined ++ lit ")"
  ++ opt_str (sp_created p) (fun v => lit ";created=" ++ dec v)
  ++ opt_str (sp_expires p) (fun v => lit ";expires=" ++ dec v)
  ++ opt_str (sp_nonce p) (fun v => lit ";nonce=" ++ quoted v)
  ++ opt_str (sp_alg p) (fun v => lit ";alg=" ++ quoted v)
  ++ opt_str (sp_keyid p) (fun v => lit ";keyid=" ++ quoted v)
  ++ opt_str (sp_tag p) (fun v => lit ";tag=" ++ quoted v).

(** [as_integer().map(|v| v.try_into().unwrap())]: panics on a negative integer *)
Definition as_u64 (b : bare) : result err (option N) :=
  match as_integer b with
  | Some z => if (z <? 0)%Z then Panic PNegative else Ok (Some (Z.to_N z))
  | None => Ok None
  end.

(** signature_params.rs:193-206, the loop over the parameters *)
Definition sp_set_param (p : sparams) (kv : str * bare) : result err sparams :=
  let (k, v) := kv in
  if str_eqb k (lit "created") then
    let* n := as_u64 v in
    Ok (mkSparams n (sp_expires p) (sp_nonce p) (sp_alg p) (sp_keyid p) (sp_tag p) (sp_covered p))
  else if str_eqb k (lit "expires") then
    let* n := as_u64 v in
    Ok (mkSparams (sp_created p) n (sp_nonce p) (sp_alg p) (sp_keyid p) (sp_tag p) (sp_covered p))
  else if str_eqb k (lit "nonce") then
    Ok (mkSparams (sp_created p) (sp_expires p) (as_string v) (sp_alg p) (sp_keyid p) (sp_tag p) (sp_covered p))
  else if str_eqb k (lit "alg") then
    Ok (mkSparams (sp_created p) (sp_expires p) (sp_nonce p) (as_string v) (sp_keyid p) (sp_tag p) (sp_covered p))
  else if str_eqb k (lit "keyid") then
    Ok (mkSparams (sp_created p) (sp_expires p) (sp_nonce p) (sp_alg p) (as_string v) (sp_tag p) (sp_covered p))
  else if str_eqb k (lit "tag") then
    Ok (mkSparams (sp_created p) (sp_expires p) (sp_nonce p) (sp_alg p) (sp_keyid p) (as_string v) (sp_covered p))
  else Ok p.
Fixpoint sp_set_params (p : sparams) (l : params) : result err sparams :=
  match l with
  | [] => Ok p
  | kv :: r => let* p' := sp_set_param p kv in sp_set_params p' r
  end.

(** signature_params.rs:155-209, [TryFrom<&ListEntry>]: items are serialized and parsed again as identifiers *)
Definition sparams_of_entry (e : entry) : result err sparams :=
  match e with
  | EItem _ => Err InvalidSignatureParams
  | EInner l =>
      let* ids := collect (fun i => cid_of_str (ser_item i)) (in_items l) in
      if negb (has_unique_elements ids) then Err InvalidSignatureParams
      else sp_set_params (mkSparams None None None None None None ids) (in_params l)
  end.

(** signature_params.rs:211-224, [TryFrom<&str>] *)
Definition sparams_of_str (s : str) : result err sparams :=
  let* l := ok_or (parse_list s) ParseSFVError in
  match l with
  | [EInner x] => sparams_of_entry (EInner x)
  | _ => Err InvalidSignatureParams
  end.
