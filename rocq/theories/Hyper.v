(** httpsig-hyper/src/hyper_http.rs *)
From Verif Require Import Base Utf8 Base64 Sfv Component Crypto Params SigBase Http.

(** httpsig-hyper/src/error.rs:9-37, HyperSigError without the messages *)
Inductive herr :=
| NoSignatureHeaders | FailedToStrSignatureHeaders | InvalidHeaderValue | HInvalidComponentName
| HInvalidComponentParam | HInvalidSignature | HttpSigError (e : err).

(** hyper_http.rs:706-709 *)
Inductive msg := MReq (r : request) | MRes (r : response).

(** hyper_http.rs:712-742 *)
Definition msg_method (m : msg) : result herr str :=
  match m with MReq r => Ok (rq_method r) | MRes _ => Err HInvalidComponentName end.
Definition msg_uri (m : msg) : result herr uri :=
  match m with MReq r => Ok (rq_uri r) | MRes _ => Err HInvalidComponentName end.
Definition msg_headers (m : msg) : headers :=
  match m with MReq r => rq_headers r | MRes r => rs_headers r end.
Definition msg_status (m : msg) : result herr N :=
  match m with MRes r => Ok (rs_status r) | MReq _ => Err HInvalidComponentName end.
Definition msg_set_headers (m : msg) (h : headers) : msg :=
  match m with
  | MReq r => MReq (mkReq (rq_method r) (rq_uri r) h (rq_body r))
  | MRes r => MRes (mkRes (rs_status r) h (rs_body r))
  end.
Definition is_request (m : msg) : bool := match m with MReq _ => true | MRes _ => false end.

Definition h_sig : str := lit "signature".
Definition h_input : str := lit "signature-input".

(** hyper_http.rs:602-604 *)
Definition has_message_signature (m : msg) : bool :=
  hm_contains (msg_headers m) h_sig && hm_contains (msg_headers m) h_input.

(** hyper_http.rs:746-769, [extract_signature_headers_with_name] *)
Definition header_strings (h : headers) (name : str) : result herr (list str) :=
  collect (fun v => ok_or (hv_to_str v) FailedToStrSignatureHeaders) (hm_get_all h name).
Definition extract_signature_headers_with_name (m : msg) : result herr (list (str * sigheaders)) :=
  let h := msg_headers m in
  if negb (hm_contains h h_input && hm_contains h h_sig) then Err NoSignatureHeaders
  else
    let* input_strings := header_strings h h_input in
    let* signature_strings := header_strings h h_sig in
    map_err HttpSigError (try_parse (join (lit ", ") signature_strings) (join (lit ", ") input_strings)).

(** hyper_http.rs:807-825, [extract_http_field] *)
Definition extract_http_field (m : msg) (i : cid) : result herr comp :=
  match id_name i with
  | Derived _ => Err HInvalidComponentName
  | HttpField n =>
      let* vs := header_strings (msg_headers m) n in
      map_err HttpSigError (comp_of_values i vs)
  end.

(** hyper_http.rs:841-858, the parameters allowed on a derived component *)
Definition check_derived_param (m : msg) (d : derived) (p : cparam) : result herr unit :=
  match p with
  | Name _ => match d with QueryParam => Ok tt | _ => Err HInvalidComponentParam end
  | Req => if is_request m then Ok tt else Err HInvalidComponentParam
  | _ => Err HInvalidComponentParam
  end.

(** hyper_http.rs:860-887 *)
Definition check_derived_name (m : msg) (i : cid) (d : derived) : result herr unit :=
  match m with
  | MReq _ => match d with Status => Err HInvalidComponentName | _ => Ok tt end
  | MRes _ =>
      let has_req := set_contains (id_params i) Req in
      if negb (derived_eqb d Status) && negb (derived_eqb d SignatureParams) && negb has_req
      then Err HInvalidComponentName
      else if derived_eqb d Status && has_req then Err HInvalidComponentParam
      else Ok tt
  end.

Definition or_empty (o : option str) : str := match o with Some s => s | None => [] end.

(** hyper_http.rs:889-927 *)
Definition derived_values (m : msg) (d : derived) : result herr (list str) :=
  match d with
  | Method => let* x := msg_method m in Ok [x]
  | TargetUri => let* u := msg_uri m in Ok [uri_str u]
  | Authority => let* u := msg_uri m in Ok [or_empty (u_auth u)]
  | Scheme => let* u := msg_uri m in Ok [or_empty (u_scheme u)]
  | RequestTarget =>
      let* x := msg_method m in
      if str_eqb x (lit "CONNECT") then let* u := msg_uri m in Ok [or_empty (u_auth u)]
      else if str_eqb x (lit "OPTIONS") then Ok [lit "*"]
      else let* u := msg_uri m in Ok [or_empty (uri_path_and_query u)]
  | Path => let* u := msg_uri m in Ok [if is_empty (uri_path u) then lit "/" else uri_path u]
  | Query => let* u := msg_uri m in Ok [match u_query u with Some q => cQM :: q | None => lit "?" end]
  | QueryParam =>
      let* u := msg_uri m in
      Ok (filter (fun s => negb (is_empty s)) (split_on cAmp (or_empty (u_query u))))
  | Status => let* s := msg_status m in Ok [dec s]
  | SignatureParams =>
      Ok (map (fun v => or_empty (hv_to_str v)) (hm_get_all (msg_headers m) h_input))
  end.

Fixpoint try_for_each {E A} (f : A -> result E unit) (l : list A) : result E unit :=
  match l with
  | [] => Ok tt
  | x :: r => let* _ := f x in try_for_each f r
  end.

(** hyper_http.rs:828-930, [extract_derived_component] *)
Definition extract_derived_component (m : msg) (i : cid) : result herr comp :=
  match id_name i with
  | HttpField _ => Err HInvalidComponentName
  | Derived d =>
      let* _ := try_for_each (check_derived_param m d) (id_params i) in
      let* _ := check_derived_name m i d in
      let* vs := derived_values m d in
      map_err HttpSigError (comp_of_values i vs)
  end.

(** hyper_http.rs:934-942 *)
Definition extract_http_message_component (m : msg) (i : cid) : result herr comp :=
  match id_name i with
  | HttpField _ => extract_http_field m i
  | Derived _ => extract_derived_component m i
  end.

(** hyper_http.rs:783-800, one covered component; [rfp] is [req_for_param] *)
Definition component_line (m : msg) (rfp : option request) (i : cid) : result herr comp :=
  if set_contains (id_params i) Req then
    if is_request m then Err HInvalidComponentParam
    else match rfp with
         | None => Err HInvalidComponentParam
         | Some r => extract_http_message_component (MReq r) i
         end
  else extract_http_message_component m i.

(** hyper_http.rs:775-804, [build_signature_base] *)
Definition build_signature_base (m : msg) (p : sparams) (rfp : option request) : result herr sigbase :=
  let* lines := collect (component_line m rfp) (sp_covered p) in
  map_err HttpSigError (base_try_new lines p).

(** A signing job: params, key, name, randomness. *)
Record job := mkJob { j_params : sparams; j_key : signing_key; j_name : option str; j_seed : N }.

(** futures::future::join_all of futures that complete at the first poll: all are run, the results come in
    order; a panic of one of them is the panic of the whole (Async.v treats arbitrary schedules). *)
Fixpoint first_panic {E A} (l : list (result E A)) : option panic :=
  match l with
  | [] => None
  | Panic p :: _ => Some p
  | _ :: r => first_panic r
  end.
Definition join_all {F E A} (l : list (result E A)) : result F (list (result E A)) :=
  match first_panic l with Some p => Panic p | None => Ok l end.

(** hyper_http.rs:303-311, 427-435: the headers are appended one by one *)
Fixpoint append_signatures (h : headers) (l : list sigheaders) : headers * result herr unit :=
  match l with
  | [] => (h, Ok tt)
  | s :: r =>
      match header_value (signature_input_header_value s) with
      | None => (h, Err InvalidHeaderValue)
      | Some v =>
          let h1 := hm_append h h_input v in
          match header_value (signature_header_value s) with
          | None => (h1, Err InvalidHeaderValue)
          | Some w => append_signatures (hm_append h1 h_sig w) r
          end
      end
  end.

(** hyper_http.rs:280-302, 403-425: the signatures to be appended *)
Definition make_signatures (m : msg) (rfp : option request) (jobs : list job) : result herr (list sigheaders) :=
  let* bases := collect (fun j => rmap (fun b => (b, j)) (build_signature_base m (j_params j) rfp)) jobs in
  let* rs := join_all (map (fun bj : sigbase * job =>
               build_signature_headers (fst bj) (j_key (snd bj)) (j_name (snd bj)) (j_seed (snd bj))) bases) in
  map_err HttpSigError (collect (fun r => r) rs).

(** hyper_http.rs:280-312 (request, [rfp = None]) and 403-436 (response), [set_message_signatures]:
    the message afterwards and the result *)
Definition set_message_signatures (m : msg) (rfp : option request) (jobs : list job) : msg * result herr unit :=
  match make_signatures m rfp jobs with
  | Ok l => let (h, r) := append_signatures (msg_headers m) l in (msg_set_headers m h, r)
  | Err e => (m, Err e)
  | Panic p => (m, Panic p)
  end.

(** hyper_http.rs:265-278, 386-401 *)
Definition set_message_signature (m : msg) (rfp : option request) (j : job) : msg * result herr unit :=
  set_message_signatures m rfp [j].

(** hyper_http.rs:643-657, [extract_signatures_inner]: signatures whose base cannot be built are left out *)
Definition extract_signatures (m : msg) (rfp : option request)
  : result herr (list (str * (sigbase * sigheaders))) :=
  let* l := extract_signature_headers_with_name m in
  match first_panic (map (fun nh : str * sigheaders => build_signature_base m (sh_params (snd nh)) rfp) l) with
  | Some p => Panic p
  | None =>
      Ok (im_of_list
            (filter_map (fun nh : str * sigheaders =>
               match build_signature_base m (sh_params (snd nh)) rfp with
               | Ok b => Some (fst nh, (b, snd nh))
               | _ => None
               end) l))
  end.

Fixpoint mapi {A B} (f : nat -> A -> B) (i : nat) (l : list A) : list B :=
  match l with [] => [] | x :: r => f i x :: mapi f (S i) r end.

(** hyper_http.rs:668-698: verification with one key. [clk j] is the time read when the j-th candidate
    is checked. *)
Definition verify_one (clk : nat -> N) (l : list (str * (sigbase * sigheaders)))
    (key : verifying_key) (key_id : option str) : result herr str :=
  let filtered := match key_id with
                  | Some k => filter (fun x => option_eqb str_eqb (base_keyid (fst (snd x))) (Some k)) l
                  | None => l
                  end in
  if is_empty filtered then Err NoSignatureHeaders
  else
    let rs := mapi (fun j (x : str * (sigbase * sigheaders)) =>
                (fst x, verify_signature_headers (clk j) (fst (snd x)) key (snd (snd x)))) 0 filtered in
    match first_panic (map snd rs) with
    | Some p => Panic p
    | None =>
        match filter_map (fun nr : str * result err unit => match snd nr with Ok _ => Some (fst nr) | _ => None end) rs with
        | n :: _ => Ok n
        | [] => Err HInvalidSignature
        end
    end.

(** hyper_http.rs:660-701; [clk i j]: time of the check of candidate j for key i *)
Definition verify_message_signatures_inner (clk : nat -> nat -> N) (l : list (str * (sigbase * sigheaders)))
    (keys : list (verifying_key * option str)) : result herr (list (result herr str)) :=
  join_all (mapi (fun i (k : verifying_key * option str) => verify_one (clk i) l (fst k) (snd k)) 0 keys).

(** hyper_http.rs:330-345, 460-476 *)
Definition verify_message_signatures (clk : nat -> nat -> N) (m : msg) (rfp : option request)
    (keys : list (verifying_key * option str)) : result herr (list (result herr str)) :=
  if negb (has_message_signature m) then Err NoSignatureHeaders
  else let* l := extract_signatures m rfp in verify_message_signatures_inner clk l keys.

(** hyper_http.rs:318-328, 442-458: [.await?.pop().unwrap()] *)
Definition verify_message_signature (clk : nat -> nat -> N) (m : msg) (rfp : option request)
    (key : verifying_key) (key_id : option str) : result herr str :=
  let* rs := verify_message_signatures clk m rfp [(key, key_id)] in
  match rev rs with
  | r :: _ => r
  | [] => Panic PUnwrap
  end.

(** hyper_http.rs:607-628, [get_alg_key_ids_inner] *)
Definition get_alg_key_ids (rsa : bool) (m : msg) : result herr (list (str * (option alg * option str))) :=
  let* l := extract_signature_headers_with_name m in
  Ok (im_of_list
        (map (fun nh : str * sigheaders =>
           (fst nh, (match sp_alg (sh_params (snd nh)) with
                     | Some a => match alg_of_str rsa a with Ok x => Some x | _ => None end
                     | None => None
                     end, sp_keyid (sh_params (snd nh))))) l)).

(** hyper_http.rs:631-640, [get_signature_params_inner] *)
Definition get_signature_params (m : msg) : result herr (list (str * sparams)) :=
  let* l := extract_signature_headers_with_name m in
  Ok (im_of_list (map (fun nh : str * sigheaders => (fst nh, sh_params (snd nh))) l)).

(** ** The public methods on requests and responses *)
(** impl MessageSignatureReq for Request (hyper_http.rs:258-352): no associated request *)
Definition req_set (r : request) (jobs : list job) := set_message_signatures (MReq r) None jobs.
Definition req_verify clk (r : request) key key_id := verify_message_signature clk (MReq r) None key key_id.
(** impl MessageSignatureRes for Response (hyper_http.rs:379-486) *)
Definition res_set (r : response) rfp (jobs : list job) := set_message_signatures (MRes r) rfp jobs.
Definition res_verify clk (r : response) rfp key key_id := verify_message_signature clk (MRes r) rfp key key_id.
