(** Specification vocabulary for the functions of signature bases and components that can be called directly. *)
From Verif Require Import Base Component Params SpecBase.

(** the text of a component value *)
Definition value_text (v : cvalue) : str := match v with VString s => s | VKeyValue _ s => s end.
(** the text of a base made of these lines and params (RFC 9421 section 2.5) *)
Definition lines_text (lines : list comp) (p : sparams) : str :=
  base_text (map (fun c => (id_text (co_id c), value_text (co_value c))) lines) (params_text p).
(** the params have expired *)
Definition past (now : N) (p : sparams) : Prop := exists e, sp_expires p = Some e /\ e < now.
