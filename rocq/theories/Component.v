(** httpsig/src/message_component/*.rs and error.rs *)
From Verif Require Import Base Sfv.

(** error.rs:8-68, HttpSigError without the messages. *)
Inductive err :=
| Base64DecodeError | ParsePrivateKeyError | ParsePublicKeyError | ParseSignatureError | InvalidSignature
| ParseSFVError | InvalidComponentName | InvalidComponentParam | InvalidComponentId | InvalidComponent
| InvalidSignatureParams | BuildSignatureHeaderError | BuildSignatureBaseError | ExpiredSignatureParams
| InvalidAlgorithmName | NotYetImplemented.

(** ** component_name.rs *)

(** component_name.rs:45-56 *)
Inductive derived :=
| Method | TargetUri | Authority | Scheme | RequestTarget | Path | Query | QueryParam | Status | SignatureParams.

(** component_name.rs:7-12 *)
Inductive cname := HttpField (s : str) | Derived (d : derived).

(** component_name.rs:57-72, [as_ref] *)
Definition derived_str (d : derived) : str :=
  match d with
  | Method => lit "@method"
  | TargetUri => lit "@target-uri"
  | Authority => lit "@authority"
  | Scheme => lit "@scheme"
  | RequestTarget => lit "@request-target"
  | Path => lit "@path"
  | Query => lit "@query"
  | QueryParam => lit "@query-param"
  | Status => lit "@status"
  | SignatureParams => lit "@signature-params"
  end.

(** component_name.rs:78-94, [From<&str>]: panics on an unknown name *)
Definition derived_of_str (s : str) : result err derived :=
  if str_eqb s (lit "@method") then Ok Method
  else if str_eqb s (lit "@target-uri") then Ok TargetUri
  else if str_eqb s (lit "@authority") then Ok Authority
  else if str_eqb s (lit "@scheme") then Ok Scheme
  else if str_eqb s (lit "@request-target") then Ok RequestTarget
  else if str_eqb s (lit "@path") then Ok Path
  else if str_eqb s (lit "@query") then Ok Query
  else if str_eqb s (lit "@query-param") then Ok QueryParam
  else if str_eqb s (lit "@status") then Ok Status
  else if str_eqb s (lit "@signature-params") then Ok SignatureParams
  else Panic PDerivedName.

(** component_name.rs:14-30, [TryFrom<&BareItem>] *)
Definition name_of_bare (b : bare) : result err cname :=
  match b with
  | BStr s => if starts_with cAt s then rmap Derived (derived_of_str s) else Ok (HttpField s)
  | _ => Err InvalidComponentName
  end.

(** component_name.rs:32-39,96-100, [Display]: quoted, nothing is escaped *)
Definition name_str (n : cname) : str :=
  match n with
  | HttpField s => cQuote :: s ++ [cQuote]
  | Derived d => cQuote :: derived_str d ++ [cQuote]
  end.

(** ** component_param.rs *)

(** component_param.rs:10-25 *)
Inductive cparam := Sf | Key (s : str) | Bs | Tr | Req | Name (s : str).

(** component_param.rs:27-38, [From<HttpMessageComponentParam> for String]: nothing is escaped *)
Definition cparam_str (p : cparam) : str :=
  match p with
  | Sf => lit "sf"
  | Key v => lit "key=" ++ cQuote :: v ++ [cQuote]
  | Bs => lit "bs"
  | Tr => lit "tr"
  | Req => lit "req"
  | Name v => lit "name=" ++ cQuote :: v ++ [cQuote]
  end.

(** component_param.rs:40-65: the value of sf, bs, tr and req is ignored *)
Definition cparam_of (kv : str * bare) : result err cparam :=
  let (k, v) := kv in
  if str_eqb k (lit "sf") then Ok Sf
  else if str_eqb k (lit "bs") then Ok Bs
  else if str_eqb k (lit "tr") then Ok Tr
  else if str_eqb k (lit "req") then Ok Req
  else if str_eqb k (lit "name") then let* n := ok_or (as_string v) InvalidComponentParam in Ok (Name n)
  else if str_eqb k (lit "key") then let* n := ok_or (as_string v) InvalidComponentParam in Ok (Key n)
  else Err InvalidComponentParam.

(** derive(PartialEq) of component_param.rs:7 *)
Definition cparam_eqb (a b : cparam) : bool :=
  match a, b with
  | Sf, Sf | Bs, Bs | Tr, Tr | Req, Req => true
  | Key x, Key y => str_eqb x y
  | Name x, Name y => str_eqb x y
  | _, _ => false
  end.

(** component_param.rs:69, IndexSet of parameters: a list without repetition in insertion order *)
Definition cparams := list cparam.
(** [IndexSet::contains], [IndexSet::insert] *)
Definition set_contains (s : cparams) (p : cparam) : bool := existsb (cparam_eqb p) s.
Definition set_insert (s : cparams) (p : cparam) : cparams := if set_contains s p then s else s ++ [p].
(** [IndexSet::eq]: same size and every element of one is in the other *)
Definition cparams_eqb (a b : cparams) : bool :=
  Nat.eqb (List.length a) (List.length b) && forallb (set_contains b) a.

(** component_param.rs:79-88, [TryFrom<&Parameters>] *)
Definition cparams_of (ps : params) : result err cparams :=
  let* l := collect cparam_of ps in Ok (fold_left set_insert l []).

(** component_param.rs:89-101, [Display] *)
Definition cparams_str (ps : cparams) : str :=
  if negb (is_empty ps) then cSemi :: join [cSemi] (map cparam_str ps) else [].

(** component_param.rs:71-77, [Hash]: the strings that are fed to the hasher, sorted.
    Rust orders strings by bytes, which for UTF-8 is the order of the code points. *)
Fixpoint str_leb (a b : str) : bool :=
  match a, b with
  | [], _ => true
  | _ :: _, [] => false
  | x :: a', y :: b' => if x <? y then true else if y <? x then false else str_leb a' b'
  end.
Fixpoint sort_insert (x : str) (l : list str) : list str :=
  match l with
  | [] => [x]
  | y :: r => if str_leb x y then x :: l else y :: sort_insert x r
  end.
Definition str_sort (l : list str) : list str := fold_right sort_insert [] l.
Definition cparams_hash (ps : cparams) : list str := str_sort (map cparam_str ps).

(** component_param.rs:105-125, [handle_params_sf]: each line separately, list before dictionary *)
Definition sf_line (v : str) : result err str :=
  match parse_list v with
  | Some l => ok_or (ser_list l) InvalidComponentParam
  | None =>
      match parse_dict v with
      | Some d => ok_or (ser_dict d) InvalidComponentParam
      | None => Err InvalidComponentParam
      end
  end.
Definition handle_params_sf (vs : list str) : result err (list str) := collect sf_line vs.

(** component_param.rs:129-150, [handle_params_key_into]: lines without the key are left out *)
Definition handle_params_key_into (vs : list str) (key : str) : result err (list str) :=
  let* dicts := collect (fun v => ok_or (parse_dict v) InvalidComponentParam) vs in
  ok_or (ocollect (fun o => o)
           (filter_map (fun d => match im_get d key with
                                 | Some e => Some (ser_list [e])
                                 | None => None
                                 end) dicts)) InvalidComponentParam.

(** ** component_id.rs *)

(** component_id.rs:11-16 *)
Record cid := mkCid { id_name : cname; id_params : cparams }.

(** derive(PartialEq, Eq) *)
Definition derived_eqb (a b : derived) : bool := str_eqb (derived_str a) (derived_str b).
Definition cname_eqb (a b : cname) : bool :=
  match a, b with
  | HttpField x, HttpField y => str_eqb x y
  | Derived x, Derived y => derived_eqb x y
  | _, _ => false
  end.
Definition cid_eqb (a b : cid) : bool :=
  cname_eqb (id_name a) (id_name b) && cparams_eqb (id_params a) (id_params b).

(** derive(Hash) of component_id.rs:9 and component_name.rs:5,42: discriminant and name, then the sorted parameters *)
Definition cid_hash (i : cid) : N * str * list str :=
  match id_name i with
  | HttpField s => (0, s, cparams_hash (id_params i))
  | Derived d => (1, derived_str d, cparams_hash (id_params i))
  end.

(** component_id.rs:20-22 *)
Definition add_req_param (i : cid) : cid := mkCid (id_name i) (set_insert (id_params i) Req).

(** component_id.rs:25-29, [Display] *)
Definition cid_str (i : cid) : str := name_str (id_name i) ++ cparams_str (id_params i).

Definition is_name_param (p : cparam) : bool := match p with Name _ => true | _ => false end.
Definition is_field_param (p : cparam) : bool := match p with Bs | Sf | Tr | Key _ => true | _ => false end.

(** component_id.rs:31-81, [TryFrom<&str>] *)
Definition cid_of_str (s : str) : result err cid :=
  let v := trim s in
  let* it :=
    if negb (starts_with cQuote v) && negb (ends_with cQuote v) && negb (is_empty v) && negb (contains cQuote v)
    then ok_or (parse_item (cQuote :: v ++ [cQuote])) ParseSFVError
    else ok_or (parse_item v) ParseSFVError in
  let* nm := name_of_bare (it_bare it) in
  let* ps := cparams_of (it_params it) in
  if existsb is_name_param ps && negb (match nm with Derived QueryParam => true | _ => false end)
  then Err InvalidComponentId
  else if existsb is_field_param ps && negb (match nm with HttpField _ => true | _ => false end)
  then Err InvalidComponentId
  else Ok (mkCid nm ps).

(** ** component_value.rs *)

(** component_value.rs:33-38 *)
Inductive cvalue := VString (s : str) | VKeyValue (k v : str).
(** component_value.rs:25-47, [Display]: the value only *)
Definition cvalue_str (v : cvalue) : str := match v with VString s => s | VKeyValue _ s => s end.
(** component_value.rs:51-56 *)
Definition cvalue_key (v : cvalue) : option str := match v with VString _ => None | VKeyValue k _ => Some k end.
(** component_value.rs:58-63 *)
Definition as_field_value (v : cvalue) : str := match v with VString s => s | VKeyValue k s => k ++ cEq :: s end.
(** component_value.rs:65-70 *)
Definition as_component_value (v : cvalue) : str := match v with VString s => s | VKeyValue _ s => s end.

(** ** component.rs *)

(** component.rs:15-20 *)
Record comp := mkComp { co_id : cid; co_value : cvalue }.

(** component.rs:60-66, [Display] *)
Definition comp_str (c : comp) : str := cid_str (co_id c) ++ lit ": " ++ cvalue_str (co_value c).

(** component.rs:22-46, [TryFrom<&str>] *)
Definition comp_of_str (s : str) : result err comp :=
  match split_once cColon s with
  | None => Err InvalidComponent
  | Some (i, v) =>
      let i := trim i in
      if negb (starts_with cQuote i && (ends_with cQuote i || contains_str [cQuote; cSemi] (tl i)))
      then Err InvalidComponentId
      else let* d := cid_of_str i in Ok (mkComp d (VString (trim v)))
  end.

(** component.rs:70-139, [build_derived_component] *)
Definition build_derived_component (i : cid) (vs : list str) : result err comp :=
  match id_name i with
  | HttpField _ => Err InvalidComponent
  | Derived d =>
      match vs with
      | [] => Err InvalidComponent
      | v0 :: _ =>
          if negb (forallb (fun p => match p with Req | Name _ => true | _ => false end) (id_params i))
          then Err InvalidComponent
          else
            let* value :=
              match d with
              | Method => Ok (VString (to_upper v0))
              | TargetUri => Ok (VString v0)
              | Authority => Ok (VString (to_lower v0))
              | Scheme => Ok (VString (to_lower v0))
              | RequestTarget => Ok (VString v0)
              | Path => Ok (VString v0)
              | Query => Ok (VString v0)
              | Status => Ok (VString v0)
              | QueryParam =>
                  match find_map (fun p => match p with Name n => Some n | _ => None end) (id_params i) with
                  | None => Err InvalidComponent
                  | Some n =>
                      let kvs :=
                        map snd
                          (filter (fun kv => str_eqb (fst kv) n)
                             (filter_map (split_once cEq) (filter (contains cEq) vs))) in
                      Ok (VString (join (lit ", ") kvs))
                  end
              | SignatureParams =>
                  match split_once cEq (trim v0) with
                  | None => Err InvalidComponent
                  | Some (k, v) => Ok (VKeyValue k v)
                  end
              end in
            Ok (mkComp i value)
      end
  end.

(** component.rs:151-172, the loop over the parameters *)
Fixpoint field_params (ps : cparams) (vs : list str) : result err (list str) :=
  match ps with
  | [] => Ok vs
  | Sf :: r => let* vs' := handle_params_sf vs in field_params r vs'
  | Key k :: r => let* vs' := handle_params_key_into vs k in field_params r vs'
  | Bs :: _ => Err NotYetImplemented
  | Req :: r => field_params r vs
  | Tr :: _ => Err NotYetImplemented
  | Name _ :: _ => Err NotYetImplemented
  end.

(** component.rs:144-183, [build_http_field_component] *)
Definition build_http_field_component (i : cid) (vs : list str) : result err comp :=
  let* vs' := field_params (id_params i) vs in
  Ok (mkComp i (VString (join (lit ", ") vs'))).

(** component.rs:48-58, [TryFrom<(&HttpMessageComponentId, &[String])>] *)
Definition comp_of_values (i : cid) (vs : list str) : result err comp :=
  match id_name i with
  | HttpField _ => build_http_field_component i vs
  | Derived _ => build_derived_component i vs
  end.
