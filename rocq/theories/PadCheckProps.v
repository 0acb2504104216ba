(** * C148: what the randomized tests of the padding sample, for every list of points *)
From Verif Require Import Base TelemetryModel WavefrontModel WavefrontSpec WavefrontProofs WavefrontProps PadCheckSpec PadCheckProofs QExample TelemetryProps.
From Coq Require Import Lia.
Open Scope string_scope. Open Scope list_scope. Open Scope nat_scope.

(** test_pad_is_identity_with_no_pads: without padding the points come out as they are, whatever was seen before *)
Theorem C148_identity : forall (Q : QLib) (hkind : list string -> method -> N) (span : Z) (last_seen : list (N * Z)) (l : list telemetry) (n : nat) (out : list pad),
  span <> 0%Z -> ps_drain hkind span last_seen (mkPC false false false false) n (padding l) = Some out -> out = map PTelem l.
Proof. intros Q hkind span last l n out Hs E. eapply C40_unpadded_kinds; [exact Hs| |exact E]. intros t _. unfold wants_padding. destruct (t_kind t); reflexivity. Qed.
(** test_no_unpadded_gaps: of two neighbours of a series two spans or more apart both are inserted zeros, when no series was
    seen before. *)
Theorem C148_no_gaps : forall (Q : QLib) (hkind : list string -> method -> N) (span : Z) (control : pad_control) (l : list telemetry) (n : nat) (out : list pad),
  (0 < span)%Z -> (forall t, In t l -> wants_padding control (t_kind t) = true) ->
  (forall t, In t l -> - 2 ^ 62 < t_timestamp t < 2 ^ 62)%Z ->
  ps_drain hkind span [] control n (padding l) = Some out ->
  forall p q, adjacent out p q -> p_hash hkind p = p_hash hkind q -> (2 * span <= Z.abs (p_time p - p_time q))%Z -> inserted p /\ inserted q.
Proof.
  intros Q hkind span control l n out Hs W T E. apply drain_stream_eq in E; [|lia]. subst out. destruct l as [|x r]; [intros p q A; now apply adj_nil in A|]. cbn [padded_stream].
  apply padded_gaps; [exact Hs|exact W| |].
  - intros t I. specialize (T t I). unfold inside, i64_min, i64_max. lia.
  - intros a b Ia Ib. pose proof (T a Ia). pose proof (T b Ib). unfold i64_min, i64_max. lia.
Qed.
(** The times have to be small: a difference that overflows counts as none. *)
Theorem C148_no_gaps_refuted : exists (hkind : list string -> method -> N) (l : list telemetry) (n : nat) (out : list pad) p q,
  (forall t, In t l -> i64_min <= t_timestamp t <= i64_max)%Z /\ ps_drain hkind 1 [] (mkPC true true true true) n (padding l) = Some out /\
  adjacent out p q /\ p_hash hkind p = p_hash hkind q /\ (2 * 1 <= Z.abs (p_time p - p_time q))%Z /\ reads_zero p = false /\ reads_zero q = false.
Proof.
  exists xhk, [xp "a" i64_min; xp "a" i64_max], 5. do 3 eexists. split; [intros t [<-|[<-|[]]]; split; vm_compute; discriminate|]. split; [reflexivity|]. split; [exists [], []; reflexivity|].
  split; [reflexivity|]. split; [vm_compute; discriminate|]. split; reflexivity.
Qed.
(** test_no_zero_runs: no three inserted zeros in a row, whatever was seen before and whatever is padded *)
Theorem C148_no_zero_runs : forall (Q : QLib) (hkind : list string -> method -> N) (span : Z) (last_seen : list (N * Z)) (control : pad_control) (l : list telemetry) (n : nat) (out : list pad),
  span <> 0%Z -> ps_drain hkind span last_seen control n (padding l) = Some out ->
  forall o1 a b c o2, out = o1 ++ a :: b :: c :: o2 -> ~ (inserted a /\ inserted b /\ inserted c).
Proof.
  intros Q hkind span last control l n out Hs E o1 a b c o2 Eo (A & B & C). destruct (C39_padding_only_inserts _ _ _ _ _ _ _ _ Hs E) as [_ W]. exact (woven_runs _ _ _ W o1 a b c o2 Eo A B C).
Qed.
(** test_never_fewer_non_zero: what does not read as zero is the points that do not, the same and in order *)
Theorem C148_non_zero : forall (Q : QLib) (hkind : list string -> method -> N) (span : Z) (last_seen : list (N * Z)) (control : pad_control) (l : list telemetry) (n : nat) (out : list pad),
  span <> 0%Z -> ps_drain hkind span last_seen control n (padding l) = Some out ->
  filter (fun p => negb (reads_zero p)) out = map PTelem (filter (fun t => negb (t_is_zeroed t)) l).
Proof.
  intros Q hkind span last control l n out Hs E. destruct (C39_padding_only_inserts _ _ _ _ _ _ _ _ Hs E) as [O _]. rewrite nonzero_originals, O. reflexivity.
Qed.

Example C148_ex : let l := [xp "a" 5; xp "a" 6; xp "a" 9; xp "bb" 100] in
  ps_drain xhk 1 [] (mkPC true true true true) 9 (padding l) = Some [PTelem (xp "a" 5); PTelem (xp "a" 6); PZero (xp "a" 6) 7; PZero (xp "a" 9) 8; PTelem (xp "a" 9); PTelem (xp "bb" 100)] /\
  ps_drain xhk 1 [] (mkPC false false false false) 9 (padding l) = Some (map PTelem l) /\ map t_is_zeroed l = [false; false; false; false].
Proof. repeat split; reflexivity. Qed.
Print Assumptions C148_identity. Print Assumptions C148_no_gaps. Print Assumptions C148_no_gaps_refuted. Print Assumptions C148_no_zero_runs. Print Assumptions C148_non_zero.
