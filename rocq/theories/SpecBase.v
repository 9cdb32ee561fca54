(** Specification vocabulary for signature bases (RFC 9421 sections 2.3 and 2.5). *)
From Verif Require Import Base Component Params SpecSfv SpecId.

Definition quote (s : str) : str := lit """" ++ s ++ lit """".
(** component identifiers: the name between double quotes, then the parameters *)
Definition id_text (i : cid) : str :=
  quote (match id_name i with HttpField s => s | Derived d => derived_str d end)
  ++ flat_map (fun p => lit ";" ++ match p with
                                  | Sf => lit "sf" | Bs => lit "bs" | Tr => lit "tr" | Req => lit "req"
                                  | Key v => lit "key=" ++ quote v | Name v => lit "name=" ++ quote v
                                  end) (id_params i).
Definition space_join (l : list str) : str := match l with [] => [] | x :: r => x ++ flat_map (fun y => lit " " ++ y) r end.
(** the value of @signature-params *)
Definition params_text (p : sparams) : str :=
  lit "(" ++ space_join (map id_text (sp_covered p)) ++ lit ")"
  ++ flat_map (fun kt : str * option str => match snd kt with Some t => lit ";" ++ fst kt ++ lit "=" ++ t | None => [] end)
       [ (lit "created", option_map dec (sp_created p)); (lit "expires", option_map dec (sp_expires p));
         (lit "nonce", option_map quote (sp_nonce p)); (lit "alg", option_map quote (sp_alg p));
         (lit "keyid", option_map quote (sp_keyid p)); (lit "tag", option_map quote (sp_tag p)) ].
(** component lines, then the line of the parameters without newline *)
Definition base_text (lines : list (str * str)) (params : str) : str :=
  flat_map (fun iv : str * str => fst iv ++ lit ": " ++ snd iv ++ [10]) lines ++ lit """@signature-params"": " ++ params.
Definition one_line (s : str) : Prop := ~ In 10 s.
