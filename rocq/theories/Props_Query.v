(** C106: @query-param compared with RFC 9421 section 2.2.8. *)
From Verif Require Import Base BaseFacts Sfv Component Http Hyper SpecSfv SpecGrammar SpecId SpecValue ValueProofs SpecQuery QueryProofs Props_Value.

(** for a parameter that is there once, the value is that of the RFC if and only if it is empty, or name and value are written as they are encoded *)
Theorem C106_exactly_partial : forall m u h b rfp n ps x w, u_query u = Some (query_text ps) -> Forall (fun p => ~ In 38 p) ps ->
  only_pair n ps x w -> utf8_text (form_decode x) -> utf8_text (form_decode w) ->
  exists v, component_line (MReq (mkReq m u h b)) rfp (mkCid (Derived QueryParam) [Name n]) = Ok (mkComp (mkCid (Derived QueryParam) [Name n]) (VString v))
    /\ (rfc_query_param n ps v <-> w = [] \/ (x = n /\ encoded w = w)).
Proof.
  intros m u h b rfp n ps x w Hu Hp Ho Ux Uw. destruct (only_values n ps x w Ho Ux) as (out & Hq & Hout). exists (comma_join out). split.
  - apply (C11_values m u h b rfp n ps out); try assumption. destruct Ho as (a & p & c & -> & (Hn & _) & _). exists p. split; [apply in_or_app; right; left; reflexivity|assumption].
  - assert (Hr : forall v, rfc_query_param n ps v <-> v = encoded w).
    { intro v. split; [|intros ->; exists x, w; auto]. intros (y & z & Hy & _ & _ & ->). destruct (only_pair_fun _ _ _ _ _ _ Ho Hy) as [_ ->]. reflexivity. }
    rewrite Hr. destruct Hout as [(-> & [->| ->])|(Hw & [(-> & ->)|(Hx & ->)])].
    + split; [auto|reflexivity].
    + split; [auto|reflexivity].
    + cbn [comma_join flat_map]. rewrite app_nil_r. split; [auto|]. intros [E|(_ & E)]; congruence.
    + split; [|intros [E|(E & _)]; congruence]. intro E. symmetry in E. apply (proj1 (encoded_nil w)) in E. auto.
Qed.
Print Assumptions C106_exactly_partial.
(** the queries of RFC 9421 section 2.2.8: a plus sign is kept, an encoded name is not found if it is written in lower case; a parameter that is there twice
    or not at all is an error in the RFC *)
Definition query_req (q : str) : msg := MReq (mkReq (lit "GET") (absolute (lit "https") (lit "www.example.com") (lit "/parameters") (Some q)) [] []).
Definition query_id (n : str) : cid := mkCid (Derived QueryParam) [Name n].
Theorem C106_refuted : 
  let q1 := lit "var=this%20is%20a%20big%0Amultiline%20value&bar=with+plus+whitespace&fa%c3%a7ade%22%3A%20=something" in
  let p1 := [lit "var=this%20is%20a%20big%0Amultiline%20value"; lit "bar=with+plus+whitespace"; lit "fa%c3%a7ade%22%3A%20=something"] in
  let p2 := [lit "a=1"; lit "a=2"] in
  q1 = query_text p1
  /\ (component_line (query_req q1) None (query_id (lit "bar")) = Ok (mkComp (query_id (lit "bar")) (VString (lit "with+plus+whitespace")))
      /\ rfc_query_param (lit "bar") p1 (lit "with%20plus%20whitespace"))
  /\ (component_line (query_req q1) None (query_id (lit "fa%C3%A7ade%22%3A%20")) = Ok (mkComp (query_id (lit "fa%C3%A7ade%22%3A%20")) (VString []))
      /\ rfc_query_param (lit "fa%C3%A7ade%22%3A%20") p1 (lit "something"))
  /\ (component_line (query_req (query_text p2)) None (query_id (lit "a")) = Ok (mkComp (query_id (lit "a")) (VString (lit "1, 2"))) /\ forall v, ~ rfc_query_param (lit "a") p2 v)
  /\ (component_line (query_req (query_text p2)) None (query_id (lit "b")) = Ok (mkComp (query_id (lit "b")) (VString [])) /\ forall v, ~ rfc_query_param (lit "b") p2 v).
Proof.
  cbv zeta.
  assert (Hs : forall p x w n, piece_pair p x w -> encoded x <> n -> ~ has_name n p).
  { intros p x w n Hp Hn (y & v & Hy & E). destruct (piece_fun _ _ _ _ _ Hp Hy) as [<- _]. contradiction. }
  assert (P1 : piece_pair (lit "var=this%20is%20a%20big%0Amultiline%20value") (lit "var") (lit "this%20is%20a%20big%0Amultiline%20value")) by (split; [discriminate|left; split; [reflexivity|intros [H|[H|[H|[]]]]; discriminate]]).
  assert (P2 : piece_pair (lit "bar=with+plus+whitespace") (lit "bar") (lit "with+plus+whitespace")) by (split; [discriminate|left; split; [reflexivity|intros [H|[H|[H|[]]]]; discriminate]]).
  assert (P3 : piece_pair (lit "fa%c3%a7ade%22%3A%20=something") (lit "fa%c3%a7ade%22%3A%20") (lit "something")).
  { split; [discriminate|left; split; [reflexivity|]]. intro H. apply contains_In in H. vm_compute in H. discriminate. }
  assert (A1 : piece_pair (lit "a=1") (lit "a") (lit "1")) by (split; [discriminate|left; split; [reflexivity|intros [H|[]]; discriminate]]).
  assert (A2 : piece_pair (lit "a=2") (lit "a") (lit "2")) by (split; [discriminate|left; split; [reflexivity|intros [H|[]]; discriminate]]).
  split; [reflexivity|]. split; [|split; [|split]].
  - split; [vm_compute; reflexivity|]. exists (lit "bar"), (lit "with+plus+whitespace"). split; [|split; [|split]].
    + eexists [_], _, [_]. split; [reflexivity|]. split; [exact P2|]. split; [reflexivity|]. constructor; [eapply Hs; [exact P1|vm_compute; discriminate]|]. constructor; [eapply Hs; [exact P3|vm_compute; discriminate]|constructor].
    + vm_compute. repeat (apply U1; [lia|]). apply U0.
    + vm_compute. repeat (apply U1; [lia|]). apply U0.
    + vm_compute. reflexivity.
  - split; [vm_compute; reflexivity|]. exists (lit "fa%c3%a7ade%22%3A%20"), (lit "something"). split; [|split; [|split]].
    + eexists [_; _], _, []. split; [reflexivity|]. split; [exact P3|]. split; [vm_compute; reflexivity|]. constructor; [eapply Hs; [exact P1|vm_compute; discriminate]|]. constructor; [eapply Hs; [exact P2|vm_compute; discriminate]|constructor].
    + vm_compute. do 2 (apply U1; [lia|]). apply U2; [lia|lia|]. repeat (apply U1; [lia|]). apply U0.
    + vm_compute. repeat (apply U1; [lia|]). apply U0.
    + vm_compute. reflexivity.
  - split; [vm_compute; reflexivity|]. intros v (x & w & (a & p & b & E & Hp & Hn & Hf) & _).
    assert (M1 : has_name (lit "a") (lit "a=1")) by (do 2 eexists; split; [exact A1|reflexivity]). assert (M2 : has_name (lit "a") (lit "a=2")) by (do 2 eexists; split; [exact A2|reflexivity]).
    destruct a as [|y [|z a]].
    + injection E as <- <-. inversion Hf; contradiction.
    + injection E as <- <- <-. inversion Hf; contradiction.
    + injection E as <- <- E. destruct a; discriminate E.
  - split; [vm_compute; reflexivity|]. intros v (x & w & (a & p & b & E & Hp & Hn & Hf) & _).
    assert (Hi : In p [lit "a=1"; lit "a=2"]) by (rewrite E; apply in_or_app; right; left; reflexivity).
    destruct Hi as [<-|[<-|[]]]; [apply (Hs _ _ _ (lit "b") A1 ltac:(vm_compute; discriminate))|apply (Hs _ _ _ (lit "b") A2 ltac:(vm_compute; discriminate))]; do 2 eexists; eauto.
Qed.
Print Assumptions C106_refuted.
Example C106_example : only_pair (lit "b") [lit "a=1+1"; lit "b=x%20y"] (lit "b") (lit "x%20y") /\ encoded (lit "x%20y") = lit "x%20y" /\ encoded (lit "x+y%7e%c3%BC") = lit "x%20y%7E%C3%BC"
  /\ rfc_query_param (lit "b") [lit "a=1+1"; lit "b=x%20y"] (lit "x%20y").
Proof.
  assert (Ho : only_pair (lit "b") [lit "a=1+1"; lit "b=x%20y"] (lit "b") (lit "x%20y")).
  { exists [lit "a=1+1"], (lit "b=x%20y"), []. split; [reflexivity|]. split; [split; [discriminate|left; split; [reflexivity|intros [H|[]]; discriminate]]|]. split; [reflexivity|]. constructor; [|constructor].
    intros (x & w & Hp & E). assert (A : piece_pair (lit "a=1+1") (lit "a") (lit "1+1")) by (split; [discriminate|left; split; [reflexivity|intros [H|[]]; discriminate]]).
    destruct (piece_fun _ _ _ _ _ A Hp) as [<- _]. vm_compute in E. discriminate. }
  split; [exact Ho|]. split; [reflexivity|]. split; [reflexivity|]. exists (lit "b"), (lit "x%20y"). split; [exact Ho|]. split; [vm_compute; repeat (apply U1; [lia|]); apply U0|]. split; [vm_compute; repeat (apply U1; [lia|]); apply U0|reflexivity].
Qed.
