(** * C150: the clock of cernan follows the wall clock. *)
From Verif Require Import Base BaseFacts WavefrontModel ClockModel ClockSpec ClockProofs.
From Coq Require Import Lia Sorted.
Open Scope list_scope. Open Scope Z_scope.

(** Every reading is what the wall clock said at some instant, not after the reading; and not more than [d] before it, if the
    updater never takes longer than [d] from one thing that happens to its next store. *)
Theorem C150_follows : forall (wall : Z -> Z) (tr : list tick) (i : Z) (c : clock) (l : list Z) (v : Z), tells wall (tr ++ [Reads i]) -> in_time (tr ++ [Reads i]) ->
  ck_run wall (tr ++ [Reads i]) ck_start = Some (c, l ++ [v]) ->
  exists e, In e (tr ++ [Reads i]) /\ v = wall (instant e) /\ instant e <= i /\ forall d, 0 <= d -> updates d (tr ++ [Reads i]) -> i <= instant e + d.
Proof.
  intros wall tr i c l v T Ti E. destruct (reading wall _ _ _ _ _ T E) as (a & e & b & Et & -> & Np). exists e.
  split; [rewrite Et; apply in_or_app; right; left; reflexivity|]. split; [reflexivity|].
  destruct b as [|f b] using rev_ind.
  - apply app_inj_tail in Et as [_ <-]. cbn. split; [lia|]. intros; lia.
  - clear IHb. replace (a ++ e :: b ++ [f]) with ((a ++ e :: b) ++ [f]) in Et by (rewrite <- app_assoc; reflexivity). pose proof Et as Et'. apply app_inj_tail in Et as [Et <-].
    split; [apply (Ti a e b (Reads i) []); rewrite Et, <- app_assoc; reflexivity|].
    intros d Hd U. destruct (Z.le_gt_cases i (instant e + d)) as [|G]; [assumption|]. exfalso. apply Np.
    destruct (U a e b (Reads i) []) as (b1 & k & b2 & j & b3 & ->); [rewrite Et, <- app_assoc; reflexivity|cbn; lia|].
    exists b1, k, b2, j, (b3 ++ [Reads i]). rewrite <- app_assoc. cbn. rewrite <- app_assoc. reflexivity.
Qed.
(** With an updater that stores every second or more often the clock is the second of the wall clock or the one before. *)
Theorem C150_second : forall (off : Z) (tr : list tick) (i : Z) (c : clock) (l : list Z) (v d : Z), tells (seconds off) (tr ++ [Reads i]) -> in_time (tr ++ [Reads i]) ->
  0 <= d <= 1000 -> updates d (tr ++ [Reads i]) -> ck_run (seconds off) (tr ++ [Reads i]) ck_start = Some (c, l ++ [v]) -> v = seconds off i \/ v = seconds off i - 1.
Proof.
  intros off tr i c l v d T Ti Hd U E. destruct (C150_follows _ _ _ _ _ _ T Ti E) as (e & _ & -> & H1 & H2). specialize (H2 d ltac:(lia) U).
  unfold seconds. assert ((instant e + off) / 1000 <= (i + off) / 1000) by (apply Z.div_le_mono; lia).
  assert ((i + off) / 1000 <= (instant e + off) / 1000 + 1). { rewrite <- Z.div_add by lia. apply Z.div_le_mono; lia. } lia.
Qed.
(** When something reads the clock before the updater first asks for the time, and the wall clock is not set back, the readings
    never fall.  Missing: both are needed. *)
Theorem C150_rises_partial : forall (wall : Z -> Z) (i : Z) (tr : list tick) (c : clock) (l : list Z), steady wall -> tells wall (Reads i :: tr) -> in_time (Reads i :: tr) ->
  ck_run wall (Reads i :: tr) ck_start = Some (c, l) -> StronglySorted Z.le l.
Proof. intros wall i tr c l St T Ti E. exact (r_sorted _ _ _ _ (rising_run wall i tr St T Ti c l E)). Qed.
(** The static is filled in at its first use: when that comes between the updater's asking and its storing, an older
    second is stored over a newer one, with a wall clock that is never set back. *)
Theorem C150_refuted_first : exists (tr : list tick) (c : clock) (l : list Z), tells (seconds 0) tr /\ in_time tr /\ steady (seconds 0) /\ updates 1 tr /\
  ck_run (seconds 0) tr ck_start = Some (c, l) /\ l = [1; 0].
Proof.
  exists [Samples 999; Reads 1000; Stores 1000; Reads 1000]. do 2 eexists. split; [|split; [|split; [|split; [|split; [reflexivity|reflexivity]]]]].
  - intros e H. repeat (destruct H as [<-|H]; [split; vm_compute; congruence|]); destruct H.
  - intros a d b e c E. repeat (destruct a as [|? a]; cbn in E; [injection E as <- E; repeat (destruct b as [|? b]; cbn in E; [injection E as <- E; cbn; lia|injection E as <- E]); destruct b; discriminate|injection E as <- E]). destruct a; discriminate.
  - intros i j H. unfold seconds. apply Z.div_le_mono; lia.
  - intros a d b e c E G. exfalso. repeat (destruct a as [|? a]; cbn in E; [injection E as <- E; repeat (destruct b as [|? b]; cbn in E; [injection E as <- E; cbn in G; lia|injection E as <- E]); destruct b; discriminate|injection E as <- E]). destruct a; discriminate.
Qed.
(** And it falls when the wall clock is set back. *)
Theorem C150_refuted_set_back : exists (wall : Z -> Z) (tr : list tick) (c : clock) (l : list Z), tells wall tr /\ in_time tr /\
  ck_run wall tr ck_start = Some (c, l) /\ l = [9; 5].
Proof.
  exists (fun i => if i <? 500 then 9 else 5), [Reads 0; Samples 500; Stores 501; Reads 502]. do 2 eexists. split; [|split; [|split; [reflexivity|reflexivity]]].
  - intros e H. repeat (destruct H as [<-|H]; [split; vm_compute; congruence|]); destruct H.
  - intros a d b e c E. repeat (destruct a as [|? a]; cbn in E; [injection E as <- E; repeat (destruct b as [|? b]; cbn in E; [injection E as <- E; cbn; lia|injection E as <- E]); destruct b; discriminate|injection E as <- E]). destruct a; discriminate.
Qed.
(** three readings over two rounds of the updater *)
Definition xtr : list tick := [Reads 100; Samples 600; Stores 600; Reads 1100; Samples 1101; Stores 1102; Reads 1500].
Example C150_ex : tells (seconds 0) xtr /\ in_time xtr /\ steady (seconds 0) /\ updates 502 xtr /\
  option_map snd (ck_run (seconds 0) xtr ck_start) = Some [0; 0; 1] /\ seconds 0 1100 = 1.
Proof.
  split; [|split; [|split; [|split; [|split; [reflexivity|reflexivity]]]]].
  - intros e H. repeat (destruct H as [<-|H]; [split; vm_compute; congruence|]); destruct H.
  - intros a d b e c E. unfold xtr in E. repeat (destruct a as [|? a]; cbn in E; [injection E as <- E; repeat (destruct b as [|? b]; cbn in E; [injection E as <- E; cbn; lia|injection E as <- E]); destruct b; discriminate|injection E as <- E]). destruct a; discriminate.
  - intros i j H. unfold seconds. apply Z.div_le_mono; lia.
  - intros a d b e c E G. unfold xtr in E.
    repeat (destruct a as [|? a]; cbn in E; [injection E as <- E; repeat (destruct b as [|? b]; cbn in E; [injection E as <- E; cbn in G; first [lia
      |match goal with |- exists b1 i b2 j b3, ?l = _ => match l with context [?x :: ?y :: _] => idtac end end;
       first [exists [], 600, [], 600, (@nil tick); reflexivity|exists [], 600, [], 600; eexists; reflexivity|exists [Reads 1100], 1101, [], 1102; eexists; reflexivity|exists [Stores 600; Reads 1100], 1101, [], 1102; eexists; reflexivity|exists [], 1101, [], 1102; eexists; reflexivity|exists [Samples 600; Stores 600; Reads 1100], 1101, [], 1102; eexists; reflexivity]]|injection E as <- E]); destruct b; discriminate|injection E as <- E]). destruct a; discriminate.
Qed.
Print Assumptions C150_follows.
Print Assumptions C150_second.
Print Assumptions C150_rises_partial.
Print Assumptions C150_refuted_first.
Print Assumptions C150_refuted_set_back.
