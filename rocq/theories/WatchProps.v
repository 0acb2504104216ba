(** * C143: the project's experiments with the file watcher, for every sequence of actions. *)
From Verif Require Import Base FileModel FileSpec WatchSpec WatchProofs.
From Coq Require Import Lia.
Open Scope string_scope. Open Scope list_scope. Open Scope nat_scope.

(** file_watcher_no_truncation, mod.rs:380-390: whatever lines are written, rotations made and reads done, in whatever order, the
    watcher returns the lines the reference returns, and nothing when it returns nothing. *)
Theorem C143_exact : forall cap utf8_ok acts, 0 < cap -> ascii_ok utf8_ok -> plain_lines acts ->
  exists b, experiment_no_truncations cap utf8_ok acts bench_init = Some b.
Proof. intros cap u acts Hc Hu Hp. apply (no_truncations_ok cap u Hc Hu acts Hp). exact (init_level cap Hc). Qed.

(** file_watcher_with_truncation, mod.rs:392-402: with truncations anywhere, even blank lines, the watcher never returns more
    lines than were written, nor fewer than the reference; neither panics. *)
Theorem C143_bounds : forall cap utf8_ok acts, 0 < cap -> ascii_ok utf8_ok -> (forall s, In (WriteLine s) acts -> ascii_line s) ->
  exists b, experiment cap utf8_ok acts bench_init = Some b /\ be_model b <= be_sut b <= be_writes b.
Proof.
  intros cap u acts Hc Hu Hp. destruct (experiment_ok cap u Hc Hu acts Hp bench_init (sound_init cap Hc)) as (b & E & S). exists b. split; [exact E|]. apply (sound_bound cap Hc b S).
Qed.

Definition u8 (bs : bytes) : bool := forallb (fun c => (c <? 128)%N) bs.
Lemma u8_ok : ascii_ok u8.
Proof. intros bs H. apply forallb_forall. rewrite Forall_forall in H. intros c Hc. apply N.ltb_lt. exact (H c Hc). Qed.
(** a blank line is outside the lines the tests generate: with one in a file rotated away, the test would fail though the watcher
    returns the line after it as it should *)
Definition blank : list fw_action := [WriteLine []; WriteLine [97%N]; RotateFile; ReadLine].
Theorem C143_outside_generator : exists cap utf8_ok acts, 0 < cap /\ ascii_ok utf8_ok /\ (forall s, In (WriteLine s) acts -> ascii_line s) /\
  experiment_no_truncations cap utf8_ok acts bench_init = None.
Proof.
  exists 8, u8, blank. split; [lia|]. split; [exact u8_ok|]. split.
  - intros s [E|[E|[E|[E|[]]]]]; try discriminate; injection E as <-; repeat constructor; cbn; lia.
  - vm_compute. reflexivity.
Qed.
Example C143_blank : let b := rotate (write_line [97%N] (write_line [] bench_init)) in
  fst (fst (reads 8 u8 4 (be_f b) (be_w b))) = [Text []; Text [97%N]; Text []; Text []].
Proof. vm_compute. reflexivity. Qed.

(** Examples *)
Definition demo : list fw_action := [WriteLine [97%N; 98%N]; ReadLine; WriteLine [99%N]; RotateFile; WriteLine [100%N]; ReadLine; ReadLine; ReadLine].
Example C143_demo : plain_lines demo /\ exists b, experiment_no_truncations 2 u8 demo bench_init = Some b /\ be_index b = 0 /\ unread (be_f b) (be_w b) = [].
Proof.
  split; [intros s Hs; unfold demo in Hs; cbn [In] in Hs; intuition (try discriminate); match goal with E : WriteLine _ = _ |- _ => injection E as <- end; (split; [discriminate|repeat constructor; cbn; lia])|].
  eexists. split; [vm_compute; reflexivity|]. split; vm_compute; reflexivity.
Qed.
(** a truncation filled up again unnoticed: the watcher returns the end of a line it never saw the start of *)
Definition demo2 : list fw_action := [WriteLine [97%N]; ReadLine; ReadLine; TruncateFile; WriteLine [98%N; 99%N; 100%N]; ReadLine; WriteLine [101%N]; ReadLine].
Example C143_demo2 : exists b, experiment 8 u8 demo2 bench_init = Some b /\ be_writes b = 3 /\ be_sut b = 3 /\ be_model b = 3.
Proof. eexists. split; [vm_compute; reflexivity|]. repeat split. Qed.

Print Assumptions C143_exact.
Print Assumptions C143_bounds.
Print Assumptions C143_outside_generator.
