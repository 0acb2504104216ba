From Verif Require Import Base TelemetryModel TelemetrySpec TelemetryProofs BuilderSpec.
From Coq Require Import Lia.
Open Scope list_scope. Open Scope nat_scope.

Section Proofs.
Context `{Q : QLib}.
Definition orelse {A} (o : option A) (d : option A) : option A := match o with Some _ => o | None => d end.
(** the builder after a chain of calls, field by field *)
Definition told (cs : list call) (s : soft) : soft :=
  mkSoft (orelse (latest says_name cs) (s_name s)) (orelse (latest says_value cs) (s_initial s))
    (match latest says_value cs with Some _ => None | None => s_thawed s end) (orelse (latest says_kind cs) (s_kind s))
    (match latest says_error cs with Some e => e | None => s_error s end) (orelse (option_map fsort (latest says_bounds cs)) (s_bounds s))
    (orelse (latest says_timestamp cs) (s_timestamp s)) (orelse (latest says_tags cs) (s_tags s)) (orelse (latest says_persist cs) (s_persist s))
    (orelse (latest says_count cs) (s_count s)) (orelse (latest says_sum cs) (s_sum s)).
Lemma chain_told : forall cs s s', chain cs s = Some s' -> s' = told cs s.
Proof.
  induction cs as [|c cs IH]; intros s s' H; [injection H as <-; destruct s; reflexivity|].
  cbn [chain] in H. destruct (do c s) as [s1|] eqn:E; [|discriminate]. rewrite (IH _ _ H). clear H IH.
  unfold told. destruct c; cbn [do latest says_name says_value says_kind says_error says_bounds says_timestamp says_tags says_persist says_count says_sum] in *;
    try (unfold b_bounds in E; destruct (andb _ _); [discriminate|]);
    injection E as <-; cbn; f_equal;
    repeat match goal with |- context [match latest ?f cs with _ => _ end] => destruct (latest f cs) | |- context [orelse (latest ?f cs)] => destruct (latest f cs)
                         | |- context [option_map fsort (latest ?f cs)] => destruct (latest f cs) end; reflexivity.
Qed.
Lemma is_nan_iff : forall bs, existsb is_nan bs = true <-> In S754_nan bs.
Proof.
  intros bs. rewrite existsb_exists. split; [intros (x & I & E); destruct x; try discriminate; exact I|intros I; exists S754_nan; split; [exact I|reflexivity]].
Qed.
Lemma do_none : forall c s, do c s = None <-> exists bs, c = Bounds bs /\ unordered bs.
Proof.
  intros c s. split.
  - destruct c; try discriminate. cbn. unfold b_bounds. destruct (existsb is_nan bs) eqn:E; [|discriminate]. cbn [andb]. destruct (Nat.leb_spec 2 (List.length bs)); [|discriminate].
    intros _. exists bs. split; [reflexivity|]. split; [assumption|now apply is_nan_iff].
  - intros (bs & -> & L & I). cbn. unfold b_bounds. apply is_nan_iff in I. rewrite I. apply Nat.leb_le in L. now rewrite L.
Qed.
Lemma chain_none : forall cs s, chain cs s = None <-> exists bs, In (Bounds bs) cs /\ unordered bs.
Proof.
  induction cs as [|c cs IH]; intros s; cbn [chain]; [split; [discriminate|intros (? & [] & _)]|].
  destruct (do c s) as [s1|] eqn:E.
  - rewrite IH. split; [intros (bs & I & U); exists bs; split; [now right|assumption]|intros (bs & [->|I] & U); [|now exists bs]].
    exfalso. assert (do (Bounds bs) s = None) by (apply do_none; now exists bs). congruence.
  - split; [|reflexivity]. intros _. apply do_none in E as (bs & -> & U). exists bs. split; [now left|exact U].
Qed.
End Proofs.
