From Verif Require Import Base TelemetryModel WavefrontModel WavefrontSpec WavefrontProofs WavefrontProps PadCheckSpec.
From Coq Require Import Lia.
Open Scope list_scope. Open Scope nat_scope.

Section Proofs.
Context `{Q : QLib}.
Variable hkind : list string -> method -> N.
Notation hash := (t_hash hkind).

Lemma adj_nil : forall p q : pad, ~ adjacent [] p q.
Proof. intros p q (o1 & o2 & E). destruct o1; discriminate. Qed.
Lemma adj_cons : forall x out (p q : pad), adjacent (x :: out) p q -> (p = x /\ exists o, out = q :: o) \/ adjacent out p q.
Proof.
  intros x out p q (o1 & o2 & E). destruct o1 as [|y o1]; cbn in E; injection E as -> E; [left; eauto|right; exists o1, o2; exact E].
Qed.

(** ** runs of zeros *)
Lemma woven_runs R l out : woven R l out -> forall o1 a b c o2, out = o1 ++ a :: b :: c :: o2 -> inserted a -> inserted b -> inserted c -> False.
Proof.
  induction 1 as [|zs x l out Hl Hz Hw IH]; intros o1 a b c o2 E A B C; [destruct o1; discriminate|].
  destruct zs as [|z1 [|z2 [|z3 zs]]]; cbn in Hl; [| | |lia]; cbn in E.
  - destruct o1 as [|y o1]; cbn in E; injection E as Ex E; [subst a; exact A|]. eapply IH; eauto.
  - destruct o1 as [|y [|y2 o1]]; cbn in E; [injection E as _ Ex _; subst b; exact B|injection E as _ Ex _; subst a; exact A|]. injection E as _ _ E. eapply IH; eauto.
  - destruct o1 as [|y [|y2 [|y3 o1]]]; cbn in E; [injection E as _ _ Ex _; subst c; exact C|injection E as _ _ Ex _; subst b; exact B|injection E as _ _ Ex _; subst a; exact A|].
    injection E as _ _ _ E. eapply IH; eauto.
Qed.
(** ** points that are not zero *)
Lemma nonzero_originals out : filter (fun p => negb (reads_zero p)) out = map PTelem (filter (fun t => negb (t_is_zeroed t)) (originals out)).
Proof.
  induction out as [|[t ts|t] out IH]; [reflexivity|exact IH|]. cbn. rewrite IH. destruct (t_is_zeroed t); reflexivity.
Qed.

(** ** gaps, when nothing was seen before *)
Section Gaps.
Variables (span : Z) (control : pad_control).
Hypothesis span_pos : (0 < span)%Z.
Lemma status_unseen fp x : status hkind span [] fp x = Unseen.
Proof. unfold status. destruct (existsb _ fp); reflexivity. Qed.
Lemma padded_head fp x r : exists o, padded hkind span [] control fp x r = PTelem x :: o.
Proof.
  destruct r as [|y r]; cbn [padded]; rewrite ?status_unseen; cbn [lead app].
  - destruct (p_skip control (PTelem x)); eauto.
  - destruct (N.eqb (hash x) (hash y)); [|eauto]. destruct (p_skip control (PTelem x)); eauto.
Qed.
Definition inside (t : telemetry) : Prop := (i64_min < t_timestamp t < i64_max)%Z.
Lemma padded_gaps : forall r x fp, (forall t, In t (x :: r) -> wants_padding control (t_kind t) = true) -> (forall t, In t (x :: r) -> inside t) ->
  (forall a b, In a (x :: r) -> In b (x :: r) -> (i64_min < t_timestamp a - t_timestamp b <= i64_max)%Z) ->
  forall p q, adjacent (padded hkind span [] control fp x r) p q -> p_hash hkind p = p_hash hkind q -> (2 * span <= Z.abs (p_time p - p_time q))%Z -> inserted p /\ inserted q.
Proof.
  induction r as [|y r IH]; intros x fp W I D p q A Eh G.
  - cbn [padded] in A. rewrite status_unseen in A. cbn [lead app] in A. destruct (p_skip _ _); apply adj_cons in A as [(_ & o & E)|A]; try discriminate; now apply adj_nil in A.
  - assert (IH' : forall fp, adjacent (padded hkind span [] control fp y r) p q -> inserted p /\ inserted q).
    { intros fp0 A0. apply (IH y fp0); auto; intros; [apply W|apply I|apply D]; now right. }
    cbn [padded] in A. destruct (N.eqb_spec (hash x) (hash y)) as [E|E].
    + rewrite wants_skip in A by (apply W; now left). rewrite status_unseen in A. cbn [lead app fp'] in A. unfold bridge in A.
      rewrite near_iff in A; [|assumption|apply D; [now left|right; now left]].
      destruct (Z.ltb_spec (Z.abs (t_timestamp x - t_timestamp y)) (2 * span)) as [L|L].
      * cbn [app] in A. apply adj_cons in A as [(-> & o & Eo)|A]; [|now apply IH' in A]. destruct (padded_head fp y r) as [o' Eo']. rewrite Eo' in Eo. injection Eo as <- <-. cbn in G. lia.
      * cbn [app] in A. assert (Ix : inside x) by (apply I; now left). assert (Iy : inside y) by (apply I; right; now left). unfold inside in *.
        apply adj_cons in A as [(-> & o & Eo)|A]; [injection Eo as <- <-; cbn in G; rewrite sat_add1_id in G by lia; lia|].
        apply adj_cons in A as [(-> & o & Eo)|A]; [injection Eo as <- <-; split; exact Logic.I|].
        apply adj_cons in A as [(-> & o & Eo)|A]; [|now apply IH' in A]. destruct (padded_head fp y r) as [o' Eo']. rewrite Eo' in Eo. injection Eo as <- <-.
        cbn in G. rewrite sat_sub1_id in G by lia. lia.
    + apply adj_cons in A as [(-> & o & Eo)|A]; [|now apply IH' in A]. destruct (padded_head fp y r) as [o' Eo']. rewrite Eo' in Eo. injection Eo as <- <-. cbn in Eh. contradiction.
Qed.
End Gaps.
End Proofs.
