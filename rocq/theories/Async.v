(** The async methods of httpsig-hyper/src/hyper_http.rs and hyper_content_digest.rs as state machines that are polled, and their
    blocking counterparts. *)
From Verif Require Import Base Utf8 Base64 Sfv Component Crypto Params SigBase Http Hyper Digest.

(** std::future::Future: finished, or waiting to be polled. [W] is what a poll sees of the world. *)
Inductive fut (W A : Type) := Ready (a : A) | Pend (next : W -> fut W A).
Arguments Ready {W A}. Arguments Pend {W A}.
Definition poll {W A} (f : fut W A) (w : W) : fut W A := match f with Ready a => Ready a | Pend next => next w end.
(** an async block without await: runs when it is polled for the first time, and then to its end *)
Definition async_block {W A} (body : W -> A) : fut W A := Pend (fun w => Ready (body w)).

Fixpoint replace {A} (l : list A) (i : nat) (x : A) : list A :=
  match l, i with
  | [], _ => []
  | _ :: r, O => x :: r
  | y :: r, S i => y :: replace r i x
  end.

(** futures::future::join_all: the futures are polled in any order ([polls]: index and world of each poll; up to 30 futures are polled in turn,
    more of them in the order in which they are woken). The output of a future is kept at its index; a finished future is not polled again.
    A panic of a future unwinds through the whole. *)
Fixpoint poll_children {W E A F} (slots : list (fut W (result E A))) (polls : list (nat * W)) : result F (list (fut W (result E A))) :=
  match polls with
  | [] => Ok slots
  | (i, w) :: rest =>
      match nth_error slots i with
      | Some (Pend next) =>
          match next w with
          | Ready (Panic p) => Panic p
          | f => poll_children (replace slots i f) rest
          end
      | _ => poll_children slots rest
      end
  end.
Fixpoint outputs {W A} (slots : list (fut W A)) : option (list A) :=
  match slots with
  | [] => Some []
  | Ready a :: r => match outputs r with Some l => Some (a :: l) | None => None end
  | Pend _ :: _ => None
  end.

(** What one poll of a child sees: the clock (read for candidate after candidate) and the random number generator. *)
Record penv := mkEnv { e_clock : nat -> N; e_seed : N }.

(** ** hyper_http.rs:330-345, 460-476, 660-701: verify_message_signatures *)
Inductive vstate :=
| VNew | VJoin (slots : list (fut penv (result herr str))) | VDone (r : result herr (list (result herr str))).
(** hyper_http.rs:668-698 *)
Definition verify_children (l : list (str * (sigbase * sigheaders))) (keys : list (verifying_key * option str)) : list (fut penv (result herr str)) :=
  map (fun k : verifying_key * option str => async_block (fun e => verify_one (e_clock e) l (fst k) (snd k))) keys.
Definition join_verify (slots : list (fut penv (result herr str))) (polls : list (nat * penv)) : vstate :=
  match poll_children slots polls with
  | Ok s => match outputs s with Some rs => VDone (Ok rs) | None => VJoin s end
  | Err e => VDone (Err e)
  | Panic p => VDone (Panic p)
  end.
(** one poll of the future; [polls] are the polls that join_all makes meanwhile *)
Definition verify_poll (m : msg) (rfp : option request) (keys : list (verifying_key * option str)) (s : vstate) (polls : list (nat * penv)) : vstate :=
  match s with
  | VNew =>
      if negb (has_message_signature m) then VDone (Err NoSignatureHeaders)
      else match extract_signatures m rfp with
           | Ok l => join_verify (verify_children l keys) polls
           | Err e => VDone (Err e)
           | Panic p => VDone (Panic p)
           end
  | VJoin slots => join_verify slots polls
  | VDone r => VDone r
  end.
Definition verify_out (s : vstate) : option (result herr (list (result herr str))) := match s with VDone r => Some r | _ => None end.
(** hyper_http.rs:318-328, 442-458: [.await?.pop().unwrap()] on the future for a single key *)
Definition verify_single_out (s : vstate) : option (result herr str) :=
  match s with
  | VDone r => Some (let* rs := r in match rev rs with x :: _ => x | [] => Panic PUnwrap end)
  | _ => None
  end.

(** ** hyper_http.rs:280-312, 403-436: set_message_signatures; the state contains the message (&mut self) *)
Inductive sstate := SNew | SJoin (slots : list (fut penv (result err sigheaders))) | SDone (r : result herr unit).
(** hyper_http.rs:295-299, 418-422; the seed of the job is drawn when it is polled *)
Definition sign_children (bases : list (sigbase * job)) : list (fut penv (result err sigheaders)) :=
  map (fun bj : sigbase * job => async_block (fun e => build_signature_headers (fst bj) (j_key (snd bj)) (j_name (snd bj)) (e_seed e))) bases.
Definition join_sign (m : msg) (slots : list (fut penv (result err sigheaders))) (polls : list (nat * penv)) : msg * sstate :=
  match poll_children slots polls with
  | Ok s =>
      match outputs s with
      | Some rs =>
          match map_err HttpSigError (collect (fun r => r) rs) with
          | Ok l => let (h, r) := append_signatures (msg_headers m) l in (msg_set_headers m h, SDone r)
          | Err e => (m, SDone (Err e))
          | Panic p => (m, SDone (Panic p))
          end
      | None => (m, SJoin s)
      end
  | Err e => (m, SDone (Err e))
  | Panic p => (m, SDone (Panic p))
  end.
Definition sign_poll (rfp : option request) (jobs : list job) (ms : msg * sstate) (polls : list (nat * penv)) : msg * sstate :=
  let (m, s) := ms in
  match s with
  | SNew =>
      match collect (fun j => rmap (fun b => (b, j)) (build_signature_base m (j_params j) rfp)) jobs with
      | Ok bases => join_sign m (sign_children bases) polls
      | Err e => (m, SDone (Err e))
      | Panic p => (m, SDone (Panic p))
      end
  | SJoin slots => join_sign m slots polls
  | SDone r => (m, SDone r)
  end.
Definition sign_out (ms : msg * sstate) : option (msg * result herr unit) := match ms with (m, SDone r) => Some (m, r) | _ => None end.

(** ** futures::executor::block_on: polls until the future is finished. [entered]: the thread already runs such an executor, then it panics. *)
Fixpoint run_until {S P R} (step : S -> P -> S) (out : S -> option R) (s : S) (polls : list P) : option R :=
  match out s with
  | Some r => Some r
  | None => match polls with [] => None | p :: rest => run_until step out (step s p) rest end
  end.
Definition block_on {S P R} (entered : bool) (nested : R) (step : S -> P -> S) (out : S -> option R) (s : S) (polls : list P) : option R :=
  if entered then Some nested else run_until step out s polls.

(** impl MessageSignatureReqSync for Request (hyper_http.rs:490-536): no associated request *)
Definition req_set_signature_sync entered r j polls := block_on entered (MReq r, Panic PNested) (sign_poll None [j]) sign_out (MReq r, SNew) polls.
Definition req_set_signatures_sync entered r jobs polls := block_on entered (MReq r, Panic PNested) (sign_poll None jobs) sign_out (MReq r, SNew) polls.
Definition req_verify_signature_sync entered r key kid polls := block_on entered (Panic PNested) (verify_poll (MReq r) None [(key, kid)]) verify_single_out VNew polls.
Definition req_verify_signatures_sync entered r keys polls := block_on entered (Panic PNested) (verify_poll (MReq r) None keys) verify_out VNew polls.
(** impl MessageSignatureResSync for Response (hyper_http.rs:539-597) *)
Definition res_set_signature_sync entered x rfp j polls := block_on entered (MRes x, Panic PNested) (sign_poll rfp [j]) sign_out (MRes x, SNew) polls.
Definition res_set_signatures_sync entered x rfp jobs polls := block_on entered (MRes x, Panic PNested) (sign_poll rfp jobs) sign_out (MRes x, SNew) polls.
Definition res_verify_signature_sync entered x rfp key kid polls := block_on entered (Panic PNested) (verify_poll (MRes x) rfp [(key, kid)]) verify_single_out VNew polls.
Definition res_verify_signatures_sync entered x rfp keys polls := block_on entered (Panic PNested) (verify_poll (MRes x) rfp keys) verify_out VNew polls.

(** ** hyper_content_digest.rs: bodies that arrive over time *)
(** http_body::Body::poll_frame: each poll of a body gives a frame, or is pending ([None]); at the end of the list the body ends *)
Definition source := list (option frame).
(** BodyExt::collect (hyper_content_digest.rs:23): takes frames until the body is pending, ends or fails *)
Inductive cstate := CRun (acc : bytes) (s : source) | CDone (r : option bytes).
Fixpoint collect_poll (acc : bytes) (s : source) : cstate :=
  match s with
  | [] => CDone (Some acc)
  | None :: r => CRun acc r
  | Some (FData d) :: r => collect_poll (acc ++ d) r
  | Some (FTrailers _) :: r => collect_poll acc r
  | Some FError :: _ => CDone None
  end.
Definition collect_step (c : cstate) (_ : unit) : cstate := match c with CRun acc s => collect_poll acc s | CDone r => CDone r end.
Definition collect_out (c : cstate) : option (option bytes) := match c with CDone r => Some r | _ => None end.

(** hyper_content_digest.rs:111-128, 166-183: set_content_digest after the body has been read; headers and body of the new message *)
Definition set_digest_rest (H : hashes) (h : headers) (t : cdtype) (r : option bytes) : result derr (headers * body) :=
  match r with
  | None => Err HttpBodyError
  | Some bs =>
      match header_value (cdtype_str t ++ lit "=:" ++ b64_encode (derive_digest H bs t) ++ lit ":") with
      | Some v => Ok (hm_insert h h_digest v, full bs)
      | None => Panic PUnwrap
      end
  end.
Definition set_digest_out H h t (c : cstate) : option (result derr (headers * body)) := option_map (set_digest_rest H h t) (collect_out c).
(** hyper_content_digest.rs:132-155, 184-207: the headers are read before the body *)
Inductive dstate := DNew (s : source) | DRead (t : cdtype) (expected : bytes) (c : cstate) | DDone (r : result derr (headers * body)).
Definition verify_digest_read (H : hashes) (h : headers) (t : cdtype) (expected : bytes) (c : cstate) : dstate :=
  match c with
  | CRun _ _ => DRead t expected c
  | CDone None => DDone (Err HttpBodyError)
  | CDone (Some bs) => DDone (if is_equal_digest (derive_digest H bs t) expected then Ok (h, full bs) else Err InvalidContentDigest)
  end.
Definition verify_digest_poll (H : hashes) (h : headers) (d : dstate) (_ : unit) : dstate :=
  match d with
  | DNew s =>
      match extract_content_digest h with
      | Ok (t, expected) => verify_digest_read H h t expected (collect_poll [] s)
      | Err e => DDone (Err e)
      | Panic p => DDone (Panic p)
      end
  | DRead t expected c => verify_digest_read H h t expected (collect_step c tt)
  | DDone r => DDone r
  end.
Definition verify_digest_out (d : dstate) : option (result derr (headers * body)) := match d with DDone r => Some r | _ => None end.
