(** Facts about UTF-8 *)
From Coq Require Import ZifyBool ZifyNat ZifyN.
From Verif Require Import Base BaseFacts Utf8.
Ltac Zify.zify_post_hook ::= Z.div_mod_to_equations.

(** decoder of one character, used only in proofs *)
Definition dec1 (s : bytes) : option (char * bytes) :=
  match s with
  | a :: r =>
      if a <? 128 then Some (a, r)
      else if a <? 224 then match r with b :: r1 => Some ((a - 192) * 64 + (b - 128), r1) | _ => None end
      else if a <? 240 then
        match r with b :: c :: r1 => Some ((a - 224) * 4096 + (b - 128) * 64 + (c - 128), r1) | _ => None end
      else
        match r with
        | b :: c :: d :: r1 => Some ((a - 240) * 262144 + (b - 128) * 4096 + (c - 128) * 64 + (d - 128), r1)
        | _ => None
        end
  | [] => None
  end.

Lemma dec1_enc1 c r : c < 1114112 -> dec1 (utf8_enc1 c ++ r) = Some (c, r).
Proof.
  intro H. unfold utf8_enc1.
  destruct (c <? 128) eqn:E1; [|destruct (c <? 2048) eqn:E2; [|destruct (c <? 65536) eqn:E3]];
    cbn [app dec1].
  - rewrite E1. reflexivity.
  - destruct (192 + c / 64 <? 128) eqn:F1; [lia|]. destruct (192 + c / 64 <? 224) eqn:F2; [|lia].
    do 2 f_equal. lia.
  - destruct (224 + c / 4096 <? 128) eqn:F1; [lia|]. destruct (224 + c / 4096 <? 224) eqn:F2; [lia|].
    destruct (224 + c / 4096 <? 240) eqn:F3; [|lia]. do 2 f_equal.
    assert (c / 64 / 64 = c / 4096) by (rewrite N.div_div by lia; reflexivity). lia.
  - destruct (240 + c / 262144 <? 128) eqn:F1; [lia|]. destruct (240 + c / 262144 <? 224) eqn:F2; [lia|].
    destruct (240 + c / 262144 <? 240) eqn:F3; [lia|]. do 2 f_equal.
    assert (c / 64 / 64 = c / 4096) by (rewrite N.div_div by lia; reflexivity).
    assert (c / 4096 / 64 = c / 262144) by (rewrite N.div_div by lia; reflexivity). lia.
Qed.

Definition scalars (s : str) : Prop := Forall (fun c => is_scalar c = true) s.

Lemma scalar_lt c : is_scalar c = true -> c < 1114112.
Proof. unfold is_scalar. lia. Qed.

Lemma enc1_nonempty c : utf8_enc1 c <> [].
Proof. unfold utf8_enc1. repeat destr; discriminate. Qed.

Lemma utf8_inj s t : scalars s -> scalars t -> utf8 s = utf8 t -> s = t.
Proof.
  revert t; induction s as [|c s IH]; intros t Hs Ht H; destruct t as [|d t]; cbn [utf8 flat_map] in H.
  - reflexivity.
  - exfalso. symmetry in H. apply app_eq_nil in H as [H _]. apply (enc1_nonempty _ H).
  - exfalso. apply app_eq_nil in H as [H _]. apply (enc1_nonempty _ H).
  - inv Hs. inv Ht. apply (f_equal dec1) in H.
    rewrite !dec1_enc1 in H by (apply scalar_lt; assumption). inv H.
    f_equal. apply IH; assumption.
Qed.

Lemma utf8_ascii s : Forall (fun c => c < 128) s -> utf8 s = s.
Proof.
  induction 1 as [|c s Hc Hs IH]; cbn [utf8 flat_map]; [reflexivity|].
  fold (utf8 s). rewrite IH. unfold utf8_enc1. destruct (c <? 128) eqn:E; [reflexivity|lia].
Qed.

Lemma utf8_app a b : utf8 (a ++ b) = utf8 a ++ utf8 b.
Proof. apply flat_map_app. Qed.

Lemma enc1_bytes c : c < 1114112 -> Forall (fun b => b < 256) (utf8_enc1 c).
Proof. intro H. unfold utf8_enc1. repeat destr; repeat constructor; lia. Qed.

Lemma utf8_bytes s : scalars s -> Forall (fun b => b < 256) (utf8 s).
Proof.
  induction 1 as [|c s Hc Hs IH]; cbn [utf8 flat_map]; [constructor|].
  apply Forall_app. split; [apply enc1_bytes, scalar_lt; assumption | assumption].
Qed.

(** an ASCII byte occurs in the encoding exactly when the character occurs in the text *)
Lemma enc1_ascii_in b c : b < 128 -> In b (utf8_enc1 c) -> c = b.
Proof. intros Hb. unfold utf8_enc1. repeat destr; cbn [In]; lia. Qed.
Lemma utf8_ascii_in b s : b < 128 -> In b (utf8 s) <-> In b s.
Proof.
  intro Hb. unfold utf8. rewrite in_flat_map. split.
  - intros (c & Hc & H). apply enc1_ascii_in in H; [subst; assumption | assumption].
  - intro H. exists b. split; [assumption|]. unfold utf8_enc1.
    destruct (b <? 128) eqn:E; [left; reflexivity | lia].
Qed.
(** the encoding is valid UTF-8 *)
Lemma utf8_valid_enc s : scalars s -> utf8_valid (utf8 s) = true.
Proof.
  induction 1 as [|c s Hc Hs IH]; cbn [utf8 flat_map]; [reflexivity|]. fold (utf8 s).
  unfold is_scalar in Hc. unfold utf8_enc1.
  destruct (c <? 128) eqn:E1; [|destruct (c <? 2048) eqn:E2; [|destruct (c <? 65536) eqn:E3]];
    cbn [app utf8_valid]; unfold is_cont; rewrite IH.
  - rewrite E1; reflexivity.
  - destruct (192 + c / 64 <? 128) eqn:F1; [lia|].
    destruct ((194 <=? 192 + c / 64) && (192 + c / 64 <? 224)) eqn:F2; lia.
  - assert (c / 64 / 64 = c / 4096) by (rewrite N.div_div by lia; reflexivity).
    destruct (224 + c / 4096 <? 128) eqn:F1; [lia|].
    destruct ((194 <=? 224 + c / 4096) && (224 + c / 4096 <? 224)) eqn:F2; [lia|].
    destruct ((224 <=? 224 + c / 4096) && (224 + c / 4096 <? 240)) eqn:F3; [|lia].
    destruct (224 + c / 4096 =? 224) eqn:F4; [lia|]. destruct (224 + c / 4096 =? 237) eqn:F5; lia.
  - assert (c / 64 / 64 = c / 4096) by (rewrite N.div_div by lia; reflexivity).
    assert (c / 4096 / 64 = c / 262144) by (rewrite N.div_div by lia; reflexivity).
    destruct (240 + c / 262144 <? 128) eqn:F1; [lia|].
    destruct ((194 <=? 240 + c / 262144) && (240 + c / 262144 <? 224)) eqn:F2; [lia|].
    destruct ((224 <=? 240 + c / 262144) && (240 + c / 262144 <? 240)) eqn:F3; [lia|].
    destruct ((240 <=? 240 + c / 262144) && (240 + c / 262144 <? 245)) eqn:F4; [|lia].
    destruct (240 + c / 262144 =? 240) eqn:F5; [lia|]. destruct (240 + c / 262144 =? 244) eqn:F6; lia.
Qed.
