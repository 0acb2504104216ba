(** * Properties C114-C116: the accept loop of the TCP sources. *)
From Verif Require Import Base BaseFacts TelemetryModel FlowModel RuntimeModel RuntimeProps AcceptModel AcceptSpec AcceptProofs.
Open Scope list_scope. Open Scope nat_scope.

(** ** C114: every connection made to a TCP source gets one handler. *)
(** Nothing is invented, skipped or reordered: what a listener gave, and then what is
    queued on it, is what was made to it. *)
Theorem C114_in_order : forall queues ms s i, acc_run ms (acc_start queues) = Some s -> i < List.length queues ->
  taken_from i (ac_taken s) ++ queued i s = made i queues ms.
Proof.
  intros queues ms s i E Hi. destruct (run_history i ms _ s E) as (_ & H); [cbn; rewrite map_length; exact Hi|]. unfold history in H. rewrite H. unfold made. f_equal.
  cbn [ac_taken acc_start taken_from flat_map List.app]. unfold queued. cbn [acc_start ac_socks]. rewrite nth_error_map. destruct (nth_error queues i) as [q|] eqn:Eq; [|apply nth_error_None in Eq; lia].
  cbn. symmetry. apply nth_error_nth. exact Eq.
Qed.
(** Each accepted connection has its own handler, and there are no others: the [j]th
    connection accepted is that of the thread with id [j]. *)
Theorem C114_one_handler_each : forall queues ms s, acc_run ms (acc_start queues) = Some s ->
  ac_handlers s = combine (seq 0 (List.length (accepted (ac_taken s)))) (accepted (ac_taken s)).
Proof.
  intros queues ms s E. assert (H : handlers_inv s) by (apply (run_inv handlers_inv step_handlers ms _ s (start_handlers queues) E)). rewrite (hi_log s H) at 1. rewrite (hi_next s H). reflexivity.
Qed.
(** Edge triggering leaves nothing behind: when the loop waits and poll has nothing
    to report, no connection waits.  Missing: listeners one of whose accepts failed. *)
Theorem C114_none_left_waiting_partial : forall queues ms s i, acc_run ms (acc_start queues) = Some s -> (N.of_nat (List.length queues) < 2048)%N -> i < List.length queues ->
  no_failure ms -> idle s -> taken_from i (ac_taken s) = made i queues ms.
Proof.
  intros queues ms s i E Hn Hi Nf [Hp Hw]. rewrite <- (C114_in_order queues ms s i E Hi).
  destruct (run_both _ ms _ s Hn (start_both queues) E) as [HI EI]. unfold queued. destruct (nth_error (ac_socks s) i) as [k|] eqn:Ek; [|rewrite app_nil_r; reflexivity].
  assert (Hr : so_reg k = true).
  { apply (run_registered ms (acc_start queues) s) with (i := i); [|exact Nf|exact E|exact Ek]. intros j k0 Hk. cbn in Hk. rewrite nth_error_map in Hk. destruct (nth_error queues j); [|discriminate]. injection Hk as <-. reflexivity. }
  destruct (so_queue k) as [|c q] eqn:Eq; [rewrite app_nil_r; reflexivity|]. exfalso.
  destruct (ei_queue _ s EI i k Ek Hr) as [He|[He|[rest He]]]; [congruence|rewrite Hp; reflexivity| |rewrite Hp in He; destruct He|congruence].
  specialize (Hw (FromListener i)). cbn in Hw. rewrite Ek in Hw. congruence.
Qed.
(** And the loop gets there on its own, whatever state it is in, unless it was told
    to stop. *)
Theorem C114_gets_idle : forall queues ms s, acc_run ms (acc_start queues) = Some s -> (N.of_nat (List.length queues) < 2048)%N -> ~ In Signalled ms -> ac_phase s <> AtPanic ->
  exists ms' s', Forall of_loop ms' /\ acc_run ms' s = Some s' /\ idle s'.
Proof.
  intros queues ms s E Hn Hs Hp. pose proof (run_both _ ms _ s Hn (start_both queues) E) as B.
  destruct (run_quiet _ Hn ms _ s (start_both queues)) as (Q1 & Q2 & Q3); [split; [reflexivity|split; [intros []|discriminate]]|exact Hs|exact E|].
  apply (to_idle _ s Hn B); [split; assumption|exact Q1|exact Q2].
Qed.
(** The full claim is false: after one accept that fails for a reason the loop does not
    retry (too many open files, say) nothing is ever accepted from that listener again,
    whatever happens later. *)
Theorem C114_listener_lost : forall queues ms s i rest s1 ms' s', (N.of_nat (List.length queues) < 2048)%N ->
  acc_run ms (acc_start queues) = Some s -> ac_phase s = AtAccept i rest -> acc_step s (Accepts Failed) = Some s1 ->
  acc_run ms' s1 = Some s' -> taken_from i (ac_taken s') = taken_from i (ac_taken s).
Proof.
  intros queues ms s i rest s1 ms' s' Hn E Ep Ef E'. pose proof (run_both _ ms _ s Hn (start_both queues) E) as B.
  rewrite (run_dead _ i Hn ms' s1 s' (step_both _ _ _ _ Hn B Ef) (fail_dead _ i rest s s1 Hn B Ep Ef) E').
  cbn [acc_step] in Ef. rewrite Ep in Ef. unfold on_accept in Ef. destruct (nth_error (ac_socks s) i) as [k|]; [|discriminate].
  assert (E1 : Some (with_phase (with_socks s (update i sock_dereg (ac_socks s))) (AtEvents rest)) = Some s1) by (destruct (so_queue k); exact Ef). injection E1 as <-. reflexivity.
Qed.
Definition all_end : nat -> bool := fun _ => true.
Theorem C114_refuted : exists queues ms s c, acc_run ms (acc_start queues) = Some s /\ idle s /\ In c (made 0 queues ms) /\
  forall ms' s', acc_run ms' s = Some s' -> ~ In c (taken_from 0 (ac_taken s')).
Proof.
  set (ms0 := [Arrives 0 7; Polls [FromListener 0]; Next all_end]). set (ms1 := [Next all_end; Arrives 0 8]).
  destruct (acc_run ms0 (acc_start [[]])) as [s|] eqn:E; [|discriminate]. destruct (acc_step s (Accepts Failed)) as [s1|] eqn:E1; [|vm_compute in E; injection E as <-; discriminate].
  destruct (acc_run ms1 s1) as [s2|] eqn:E2; [|vm_compute in E; injection E as <-; vm_compute in E1; injection E1 as <-; discriminate].
  exists [[]], (ms0 ++ Accepts Failed :: ms1), s2, 8. split; [rewrite run_app, E; cbn [acc_run]; rewrite E1; exact E2|].
  assert (Ep : exists rest, ac_phase s = AtAccept 0 rest) by (vm_compute in E; injection E as <-; eexists; reflexivity). destruct Ep as [rest Ep].
  assert (Et : ac_taken s = []) by (vm_compute in E; injection E as <-; reflexivity). split; [|split].
  - vm_compute in E. injection E as <-. vm_compute in E1. injection E1 as <-. vm_compute in E2. injection E2 as <-. split; [reflexivity|]. intros [| |[|[|i]]]; reflexivity.
  - right. left. reflexivity.
  - intros ms' s' E'. assert (H := C114_listener_lost [[]] ms0 s 0 rest s1 (ms1 ++ ms') s'). rewrite H; [rewrite Et; intros []| |exact E|exact Ep|exact E1|rewrite run_app, E2; exact E']. reflexivity.
Qed.
Example C114_ex :
  let ms := [Arrives 1 5; Polls [FromListener 0; FromListener 1]; Next all_end; Accepts Accepted; Arrives 0 6; Accepts (Again true); Accepts Accepted; Accepts Blocked; Ends 0;
             Next all_end; Accepts (Again false); Accepts Accepted; Accepts Blocked; Next all_end; Polls [FromPool; FromListener 0]; Next all_end; Next all_end; Accepts Blocked; Next all_end] in
  option_map (fun s => (ac_taken s, ac_handlers s, map so_queue (ac_socks s), ac_phase s, p_joined (ac_pool s))) (acc_run ms (acc_start [[3; 4]; []])) =
    Some ([(0, 3, true); (0, 4, false); (0, 6, true); (1, 5, true)], [(0, 3); (1, 6); (2, 5)], [[]; []], AtPoll, [0]) /\
  made 0 [[3; 4]; []] ms = [3; 4; 6] /\ made 1 [[3; 4]; []] ms = [5].
Proof. split; [|split]; lazy; reflexivity. Qed.
Print Assumptions C114_in_order. Print Assumptions C114_one_handler_each. Print Assumptions C114_none_left_waiting_partial. Print Assumptions C114_gets_idle.
Print Assumptions C114_listener_lost. Print Assumptions C114_refuted.

(** ** C115: the thread of a connection that ended is joined while the source runs.
    When the loop waits and poll has nothing to report, every handler that returned has
    been joined, and the pool holds just the threads that still run or panicked. *)
Theorem C115_finished_are_joined : forall queues ms s, acc_run ms (acc_start queues) = Some s -> (N.of_nat (List.length queues) < 2048)%N -> idle s -> forall id,
  (stat (ac_pool s) id = Some TDone <-> In id (p_joined (ac_pool s))) /\
  (held (ac_pool s) id <-> stat (ac_pool s) id = Some TRunning \/ stat (ac_pool s) id = Some TCrashed).
Proof.
  intros queues ms s E Hn [Hp Hw] id. destruct (run_both _ ms _ s Hn (start_both queues) E) as [HI EI]. destruct (hi_pool s HI) as [PI PR].
  assert (J : p_joinable (ac_pool s) = []). { destruct (p_joinable (ac_pool s)) as [|x l] eqn:Ej; [reflexivity|]. exfalso. destruct (ei_pool _ s EI) as [He|He]; [congruence|rewrite Hp; reflexivity| |rewrite Hp in He; destruct He]. specialize (Hw FromPool). cbn in Hw. congruence. }
  assert (D : stat (ac_pool s) id = Some TDone <-> In id (p_joined (ac_pool s))).
  { split; [|apply (pi_joined_done _ PI)]. intros Hd. apply (pi_done _ PI) in Hd. rewrite J in Hd. apply PR, Hd. }
  split; [exact D|]. split.
  - intros Hh. pose proof (held_lt _ id PI Hh) as Hlt. apply (pi_stat _ PI) in Hlt. destruct (stat (ac_pool s) id) as [[]|] eqn:Es; auto; [|congruence]. exfalso. apply (pi_apart _ PI id Hh), D. reflexivity.
  - intros Hs. assert (Hlt : id < p_next (ac_pool s)) by (apply (pi_stat _ PI); destruct Hs as [Hs|Hs]; rewrite Hs; discriminate). apply (pi_split _ PI) in Hlt as [Hh|Hj]; [exact Hh|]. apply D in Hj. destruct Hs; congruence.
Qed.
Example C115_ex :
  option_map (fun s => (ac_phase s, map (waiting s) [FromSystem; FromPool; FromListener 0], p_joined (ac_pool s), map fst (p_threads (ac_pool s))))
   (acc_run [Polls [FromListener 0]; Next all_end; Accepts Accepted; Ends 0; Accepts Accepted; Accepts Accepted; Accepts Blocked; Next all_end; Crashes 1; Polls [FromPool]; Next all_end; Next all_end] (acc_start [[3; 4; 5]])) =
  Some (AtPoll, [false; false; false], [0], [1; 2]).
Proof. lazy. reflexivity. Qed.
Print Assumptions C115_finished_are_joined.

(** ** C116: a TCP source announces its shutdown once, after its handlers are gone. *)
Theorem C116_announced_last : forall queues ms s, acc_run ms (acc_start queues) = Some s ->
  (ac_phase s <> AtEnd -> ac_shutdowns s = 0) /\
  (ac_phase s = AtEnd -> ac_shutdowns s = 1 /\ forall j c, In (j, c) (ac_handlers s) -> stat (ac_pool s) j = Some TDone /\ In j (p_joined (ac_pool s))).
Proof.
  intros queues ms s E. assert (H : handlers_inv s) by (apply (run_inv handlers_inv step_handlers ms _ s (start_handlers queues) E)). pose proof (hi_sent s H) as Hs. split.
  - intros Hp. rewrite Hs. destruct (ac_phase s); congruence.
  - intros Hp. rewrite Hp in Hs. split; [exact Hs|]. intros j c Hin. rewrite (hi_log s H) in Hin. apply in_combine_l in Hin. apply in_seq in Hin. destruct (hi_end s H Hp) as (_ & Hd). destruct (Hd j) as [A B]; [lia|auto].
Qed.
(** It returns only when told to ... *)
Theorem C116_only_when_told : forall queues ms s, acc_run ms (acc_start queues) = Some s -> (N.of_nat (List.length queues) < 2048)%N -> ac_phase s = AtEnd -> In Signalled ms.
Proof.
  intros queues ms s E Hn Hp. assert (D : In Signalled ms \/ ~ In Signalled ms).
  { clear. induction ms as [|m ms IH]; [right; intros []|]. destruct IH as [IH|IH]; [left; right; exact IH|]. destruct m; try (right; intros [H|H]; [discriminate|contradiction]). left. left. reflexivity. }
  destruct D as [D|D]; [exact D|]. exfalso. destruct (run_quiet _ Hn ms _ s (start_both queues)) as (_ & _ & Q3); [split; [reflexivity|split; [intros []|discriminate]]|exact D|exact E|]. contradiction.
Qed.
(** ... and then gets there on its own, the handlers stopping when asked to.
    Missing: handlers that panic, C74. *)
Theorem C116_stops_partial : forall queues ms s, acc_run ms (acc_start queues) = Some s -> (N.of_nat (List.length queues) < 2048)%N -> no_crash ms -> 
  ac_phase s <> AtPanic /\ (In Signalled ms -> exists ms' s', Forall of_loop ms' /\ acc_run ms' s = Some s' /\ ac_phase s' = AtEnd).
Proof.
  intros queues ms s E Hn Nc. pose proof (run_both _ ms _ s Hn (start_both queues) E) as B.
  destruct (run_sane _ Hn ms _ s (start_both queues)) as [Hc Hp]; [split; [intros id Hid; discriminate|discriminate]|exact Nc|exact E|]. split; [exact Hp|]. intros Hs.
  destruct (run_told ms _ s Hs E) as [T|[T|T]]; [| |exists [], s; destruct (ac_phase s); try discriminate; [repeat split; constructor|congruence]].
  - assert (R : ac_phase s = AtEnd \/ ac_phase s <> AtEnd) by (destruct (ac_phase s); try (right; discriminate); left; reflexivity). destruct R as [R|R]; [exists [], s; repeat split; [constructor|exact R]|].
    apply (to_end _ s Hn B); [split; assumption|exact Hc|auto].
  - apply (to_end _ s Hn B); [|exact Hc|auto]. split; [|exact Hp]. intros R. rewrite R in T. destruct T.
Qed.
(** The full claim is false: one handler that panicked, and the source panics instead. *)
Theorem C116_refuted : exists queues ms s, acc_run ms (acc_start queues) = Some s /\ In Signalled ms /\
  forall ms' s', acc_run ms' s = Some s' -> ac_shutdowns s' = 0.
Proof.
  set (ms := [Polls [FromListener 0]; Next all_end; Accepts Accepted; Accepts Blocked; Next all_end; Crashes 0; Signalled; Polls [FromSystem]; Next all_end]).
  destruct (acc_run ms (acc_start [[3]])) as [s|] eqn:E; [|discriminate]. exists [[3]], ms, s. split; [exact E|]. split; [right; right; right; right; right; right; left; reflexivity|].
  assert (Ep : ac_phase s = AtPanic) by (vm_compute in E; injection E as <-; reflexivity). intros ms' s' E'.
  assert (P : ac_phase s' = AtPanic). { apply (run_inv (fun s => ac_phase s = AtPanic)) with (ms := ms') (s := s); [|exact Ep|exact E']. intros a m b Ha Hs.
    destruct (step_pend a m b Hs) as [Hp|[(xs & -> & Hp & Hp' & W)|[(ends & -> & Hp & Hp')|[(ends & t & rest & -> & Hp & Hp')|(x & i & rest & -> & Hp & Hp')]]]]; congruence. }
  apply (C116_announced_last [[3]] (ms ++ ms') s'); [rewrite run_app, E; exact E'|]. congruence.
Qed.
Example C116_ex :
  option_map (fun s => (ac_phase s, ac_shutdowns s, p_joined (ac_pool s)))
   (acc_run [Polls [FromListener 0]; Signalled; Next all_end; Accepts Accepted; Accepts Accepted; Accepts Blocked; Next all_end; Polls [FromSystem]; Next all_end; Arrives 0 9] (acc_start [[3; 4]])) =
  Some (AtEnd, 1, [0; 1]).
Proof. lazy. reflexivity. Qed.
Print Assumptions C116_announced_last. Print Assumptions C116_only_when_told. Print Assumptions C116_stops_partial. Print Assumptions C116_refuted.
