(** * UTF-8 as std::str::from_utf8 accepts it (not in /repo; the Unicode standard,
    table 3-7).  The models of the text protocols use it where the bytes of a
    stream become a Rust String. *)
From Verif Require Import Base.
Open Scope list_scope. Open Scope nat_scope.

(** the ranges of the bytes that must follow the first byte of a character *)
Definition follow (b : N) : option (list (N * N)) :=
  let c := (128, 191)%N in
  if (b <? 128)%N then Some []
  else if (b <? 194)%N then None
  else if (b <? 224)%N then Some [c]
  else if (b =? 224)%N then Some [(160, 191)%N; c]
  else if (b =? 237)%N then Some [(128, 159)%N; c]
  else if (b <? 240)%N then Some [c; c]
  else if (b =? 240)%N then Some [(144, 191)%N; c; c]
  else if (b <? 244)%N then Some [c; c; c]
  else if (b =? 244)%N then Some [(128, 143)%N; c; c]
  else None.
(** reads on from the middle of a character: [p] are the ranges still expected *)
Fixpoint uscan (p : list (N * N)) (bs : list N) : option (list (N * N)) :=
  match bs with
  | [] => Some p
  | b :: r =>
      match p with
      | [] => match follow b with Some p' => uscan p' r | None => None end
      | (lo, hi) :: p' => if (andb (lo <=? b) (b <=? hi))%N then uscan p' r else None
      end
  end.
(** str::from_utf8(bs).is_ok() *)
Definition utf8 (bs : list N) : bool := match uscan [] bs with Some [] => true | _ => false end.

Lemma uscan_app : forall a b p, uscan p (a ++ b) = match uscan p a with Some p' => uscan p' b | None => None end.
Proof.
  induction a as [|x a IH]; intros b p; [reflexivity|]. cbn [app uscan]. destruct p as [|[lo hi] p].
  - destruct (follow x); [apply IH|reflexivity].
  - destruct (_ && _)%bool; [apply IH|reflexivity].
Qed.
Lemma utf8_iff : forall bs, utf8 bs = true <-> uscan [] bs = Some [].
Proof. intros bs. unfold utf8. destruct (uscan [] bs) as [[|x p]|]; split; intros H; congruence. Qed.
Lemma utf8_nil : utf8 [] = true.
Proof. reflexivity. Qed.
Lemma utf8_app : forall a b, utf8 a = true -> utf8 (a ++ b) = utf8 b.
Proof. intros a b H. apply utf8_iff in H. unfold utf8. rewrite uscan_app, H. reflexivity. Qed.
Lemma utf8_app_true : forall a b, utf8 a = true -> utf8 b = true -> utf8 (a ++ b) = true.
Proof. intros a b Ha Hb. now rewrite utf8_app. Qed.
Lemma ascii_utf8 : forall bs, Forall (fun b => (b < 128)%N) bs -> utf8 bs = true.
Proof.
  intros bs H. apply utf8_iff. induction H as [|b r Hb _ IH]; [reflexivity|].
  cbn [uscan]. unfold follow. replace (b <? 128)%N with true by (symmetry; apply N.ltb_lt; exact Hb). exact IH.
Qed.
(** the parts of a text that is cut inside a character: neither is a text *)
Lemma cut_left : forall a b, utf8 (a ++ b) = true -> utf8 b = false -> utf8 a = false.
Proof. intros a b H Hb. destruct (utf8 a) eqn:E; [|reflexivity]. rewrite (utf8_app _ _ E) in H. congruence. Qed.
Lemma follow_high : forall b p lo hi, follow b = Some p -> In (lo, hi) p -> (128 <= lo)%N /\ (hi < 192)%N.
Proof.
  intros b p lo hi H Hin. unfold follow in H.
  repeat match type of H with (if ?c then _ else _) = _ => destruct c end; inversion H; subst p; cbn in Hin;
    repeat (destruct Hin as [Hin|Hin]; [injection Hin as <- <-; lia|]); destruct Hin.
Qed.
Lemma uscan_high : forall bs p p', uscan p bs = Some p' -> (forall lo hi, In (lo, hi) p -> (128 <= lo /\ hi < 192)%N) ->
  forall lo hi, In (lo, hi) p' -> (128 <= lo /\ hi < 192)%N.
Proof.
  induction bs as [|b r IH]; intros p p' H Hp.
  - injection H as <-. exact Hp.
  - cbn [uscan] in H. destruct p as [|[l h] p].
    + destruct (follow b) eqn:E; [|discriminate]. eapply IH; [exact H|]. intros lo hi. apply (follow_high b l lo hi E).
    + destruct (_ && _)%bool; [|discriminate]. eapply IH; [exact H|]. intros lo hi Hin. apply Hp. now right.
Qed.
(** a text begins with a first byte of a character; what is left of a cut character does not *)
Lemma cut_right : forall a b, utf8 (a ++ b) = true -> utf8 a = false -> utf8 b = false.
Proof.
  intros a b H Ha. apply utf8_iff in H. rewrite uscan_app in H. destruct (uscan [] a) as [p|] eqn:E; [|discriminate].
  destruct p as [|[lo hi] p]; [unfold utf8 in Ha; rewrite E in Ha; discriminate|].
  assert (Hr : (128 <= lo /\ hi < 192)%N) by (eapply (uscan_high _ _ _ E); [intros ? ? []|now left]).
  destruct b as [|x b]; [discriminate|]. cbn [uscan] in H. destruct (_ && _)%bool eqn:R; [|discriminate].
  unfold utf8. cbn [uscan]. unfold follow. replace (x <? 128)%N with false by lia. replace (x <? 194)%N with true by lia. reflexivity.
Qed.
(** and a text has a text before every ASCII byte *)
Lemma utf8_before_ascii : forall a x b, utf8 (a ++ x :: b) = true -> (x < 128)%N -> utf8 a = true.
Proof.
  intros a x b H Hx. apply utf8_iff in H. rewrite uscan_app in H. destruct (uscan [] a) as [p|] eqn:E; [|discriminate].
  destruct p as [|[lo hi] p]; [unfold utf8; now rewrite E|].
  assert (Hr : (128 <= lo /\ hi < 192)%N) by (eapply (uscan_high _ _ _ E); [intros ? ? []|now left]).
  cbn [uscan] in H. replace (lo <=? x)%N with false in H by lia. discriminate.
Qed.
