(** * Properties of self-telemetry. *)
From Verif Require Import Base BaseFacts TelemetryModel QExample InternalModel InternalSpec InternalProofs.
From Coq Require Import Permutation.
Open Scope string_scope. Open Scope list_scope. Open Scope nat_scope.

(** ** C57 *)
(** the points of a counter that is only added to carry non-zero counts; with what is still held they make up all
    increments, in every interleaving *)
Theorem C57_conserved_partial : forall (Q : QLib) (l : list iact) (i : nat) (name : string) (kind : method),
  nth_error counters i = Some (name, kind) -> only_added i l -> (added i l < 2 ^ 64)%N ->
  exists vs, named name (points (is_out (irun true istate_init l))) = map (count_point name kind) vs
    /\ (total (map fst vs) + is_cells (irun true istate_init l) i)%N = added i l
    /\ Forall (fun v => fst v <> 0%N) vs.
Proof. intros Q l i name kind Hi Ho Ha. apply conserved; auto. Qed.
(** a sweep leaves nothing behind: from a poll, without interference, all counters are zero and Q is empty at the next poll *)
Theorem C57_swept : forall (Q : QLib) (l : list iact) (now : Z),
  is_phase (irun true istate_init l) = PPoll ->
  exists n, let s := irun true istate_init (l ++ repeat (ATick now) n) in
    is_phase s = PPoll /\ is_q s = [] /\ forall i, i < List.length counters -> is_cells s i = 0%N.
Proof.
  intros Q l now Hph. destruct (swept true (irun true istate_init l) now eq_refl (run_no_panic true l istate_init eq_refl) Hph) as (n & s' & E & H).
  exists n. cbv zeta. rewrite run_app, E. exact H.
Qed.
(** nothing panics *)
Theorem C57_no_panic : forall (Q : QLib) (fwd : bool) (l : list iact), is_panic (irun fwd istate_init l) = false.
Proof. intros Q fwd l. apply run_no_panic. reflexivity. Qed.
(** without forwards nothing but Q is taken and no point is sent *)
Theorem C57_no_forwards : forall (Q : QLib) (l : list iact), is_out (irun false istate_init l) = [].
Proof.
  intros Q l. induction l as [|a l IH] using rev_ind; [reflexivity|]. rewrite run_snoc. pose proof (C57_no_panic Q false l) as Hp. set (s := irun false istate_init l) in *.
  unfold istep. rewrite Hp. destruct a; try exact IH.
  - destruct (is_phase s); try exact IH; [|destruct (is_q s); exact IH].
    destruct (nth_error counters i) as [[n k]|] eqn:E; [|exact IH]. destruct (_ =? 0)%N; [exact IH|]. rewrite (atom_point_is _ _ _ _ (counters_kind _ _ _ E)). exact IH.
  - destruct (is_phase s); exact IH.
Qed.
(** a counter that is stored to loses what was not reported: of 5 and 3 purged points 3 are reported, and none if the last
    flush purged nothing *)
Transparent counters.
Theorem C57_refuted : forall (Q : QLib),
  (exists i, In i stored /\ nth_error counters i = Some ("cernan.sinks.prometheus.aggregation.inside_baseball.windowed.purged", MSum)
    /\ points (is_out (irun true istate_init (AStore i 5 :: AStore i 3 :: repeat (ATick 9) (i + 2)))) = [count_point "cernan.sinks.prometheus.aggregation.inside_baseball.windowed.purged" MSum (3%N, 9%Z)]
    /\ points (is_out (irun true istate_init (AStore i 5 :: AStore i 0 :: repeat (ATick 9) (i + 2)))) = []).
Proof. intros Q. exists 40. split; [cbn; tauto|]. split; [reflexivity|]. split; reflexivity. Qed.
(** the exceptions are four: every other counter is added to by the code *)
Theorem C57_stored_names : map (fun i => option_map fst (nth_error counters i)) stored
  = [Some "cernan.sinks.elasticsearch.internal.buffer_len"; Some "cernan.sinks.wavefront.aggregations.total_stored";
     Some "cernan.sinks.prometheus.aggregation.inside_baseball.windowed.purged"; Some "cernan.sinks.prometheus.aggregation.reportable"].
Proof. reflexivity. Qed.

(** ** C81 *)
(** every point the file source reports is sent once or still queued *)
Theorem C81_once : forall (Q : QLib) (l : list iact),
  Permutation (uncounted (points (is_out (irun true istate_init l))) ++ is_q (irun true istate_init l)) (pushed l).
Proof. intros Q l. apply q_perm. reflexivity. Qed.
(** but later reports overtake earlier ones *)
Theorem C81_refuted : forall (Q : QLib) (t1 t2 : Z) (r1 r2 : file_report) (x1 x2 : f64) (p1 p2 : string),
  exists l, pushed l = pushed [AReport t1 r1 x1 p1] ++ pushed [AReport t2 r2 x2 p2]
    /\ points (is_out (irun true istate_init l)) = pushed [AReport t2 r2 x2 p2] ++ pushed [AReport t1 r1 x1 p1].
Proof.
  intros Q t1 t2 r1 r2 x1 x2 p1 p2. exists ([AReport t1 r1 x1 p1; AReport t2 r2 x2 p2] ++ repeat (ATick 0) 63). split; reflexivity.
Qed.

(** the points are sums named after what happened, which differ from one another and from every counter's *)
Theorem C81_names : forall (Q : QLib) (t : Z) (r : file_report) (x : f64) (path : string),
  exists p, pushed [AReport t r x path] = [p]
    /\ t_name p = match r with
                  | BytesRead => "cernan.sources.file.bytes_read"
                  | Switched => "cernan.sources.file.switch"
                  | Truncated => "cernan.sources.file.truncation"
                  end
    /\ t_value p = VSum x /\ t_timestamp p = t /\ t_tags p = Some [("file_path", path)] /\ ~ In (t_name p) (map fst counters).
Proof.
  intros Q t r x path. eexists. split; [reflexivity|]. split; [destruct r; reflexivity|]. do 3 (split; [reflexivity|]). cbn [t_name].
  intros H. assert (E : existsb (String.eqb (report_name r)) (map fst counters) = true) by (apply existsb_exists; eexists; split; [exact H|apply String.eqb_refl]).
  destruct r; vm_compute in E; discriminate E.
Qed.

(** ** C82 *)
(** once the thread saw the event of a shutdown it has sent one Shutdown, last, and sends nothing more *)
Theorem C82_stops : forall (Q : QLib) (l l' : list iact),
  is_phase (irun true istate_init l) = PPoll ->
  is_out (irun true istate_init (l ++ AEvent :: l')) = is_out (irun true istate_init l) ++ [EShutdown]
  /\ ~ In EShutdown (is_out (irun true istate_init l)).
Proof.
  intros Q l l' Hph. split.
  - rewrite run_app. pose proof (C57_no_panic Q true l) as Hp. set (s := irun true istate_init l) in *.
    cbn [irun fold_left]. set (s1 := istep true s AEvent). assert (H1 : is_phase s1 = PGone /\ is_out s1 = is_out s ++ [EShutdown]) by (unfold s1, istep; rewrite Hp, Hph; auto).
    destruct H1 as [H1 H2]. change (fold_left (istep true) l' s1) with (irun true s1 l'). rewrite <- H2. assert (Hp1 : is_panic s1 = false) by (apply step_no_panic; exact Hp). clearbody s1. clear - H1 Hp1.
    revert s1 H1 Hp1. induction l' as [|a l' IH]; intros s H1 Hp; [reflexivity|]. cbn [irun fold_left]. change (fold_left (istep true) l' ?x) with (irun true x l').
    rewrite IH.
    + unfold istep. rewrite Hp. destruct a; try reflexivity; rewrite H1; reflexivity.
    + unfold istep. rewrite Hp. destruct a; try exact H1; rewrite H1; first [exact H1|reflexivity].
    + apply step_no_panic. exact Hp.
  - assert (G : is_phase (irun true istate_init l) <> PGone -> ~ In EShutdown (is_out (irun true istate_init l))); [|apply G; rewrite Hph; discriminate]. clear.
    induction l as [|a l IH] using rev_ind; [intros _ []|]. rewrite run_snoc. pose proof (C57_no_panic Q true l) as Hp. set (s := irun true istate_init l) in *.
    unfold istep. rewrite Hp. destruct a; try exact IH.
    + destruct (is_phase s) eqn:E; cbn [is_phase is_out]; try (intros _; apply IH; discriminate); try (intros H; apply IH; congruence).
      * destruct (nth_error counters i) as [[n k]|] eqn:En; [|intros _; apply IH; discriminate]. destruct (_ =? 0)%N; [intros _; apply IH; discriminate|].
        rewrite (atom_point_is _ _ _ _ (counters_kind _ _ _ En)). intros _ H. cbn [is_out isend] in H. apply in_app_or in H as [H|[H|[]]]; [revert H; apply IH; discriminate|discriminate].
      * destruct (is_q s); intros _; [apply IH; discriminate|]. intros H. cbn [is_out isend] in H. apply in_app_or in H as [H|[H|[]]]; [revert H; apply IH; discriminate|discriminate].
    + destruct (is_phase s) eqn:E; try (intros H; apply IH; congruence). intros H. cbn in H. congruence.
Qed.
(** what was counted or reported since the last sweep is lost with it *)
Theorem C82_refuted : forall (Q : QLib) (i : nat) (n : N) (l' : list iact), n <> 0%N ->
  points (is_out (irun true istate_init (AAdd i n :: AReport 0 BytesRead fone "f" :: AEvent :: l'))) = [].
Proof.
  intros Q i n l' Hn. destruct (C82_stops Q [AAdd i n; AReport 0 BytesRead fone "f"] l' eq_refl) as [H _]. cbn [app] in H. rewrite H. reflexivity.
Qed.

(** ** Examples *)
(** two increments before, one during, one after the sweep reads the first counter *)
Definition xil : list iact := [AAdd 0 1; AAdd 0 2; ATick 5; AAdd 0 4; ATick 6; AAdd 0 8; AReport 7 Switched fone "f"] ++ repeat (ATick 7) 60 ++ [ATick 8; ATick 9; ATick 10].
Example C57_example : named "cernan.util.hopper.error.full" (points (is_out (irun (Q:=xQ) true istate_init xil)))
  = [count_point "cernan.util.hopper.error.full" MSum (7%N, 6%Z); count_point "cernan.util.hopper.error.full" MSum (8%N, 10%Z)].
Proof. reflexivity. Qed.
Example C57_example_hyp : only_added 0 xil /\ added 0 xil = 15%N.
Proof. split; [|reflexivity]. intros n H. cbn in H. repeat (destruct H as [H|H]; [discriminate|]). contradiction. Qed.
Example C57_example_poll : is_phase (irun (Q:=xQ) true istate_init [AAdd 3 4]) = PPoll.
Proof. reflexivity. Qed.
Example C81_example : uncounted (points (is_out (irun (Q:=xQ) true istate_init xil))) = pushed (Q:=xQ) xil.
Proof. reflexivity. Qed.

Print Assumptions C57_conserved_partial.
Print Assumptions C57_swept.
Print Assumptions C57_no_panic.
Print Assumptions C57_no_forwards.
Print Assumptions C57_refuted.
Print Assumptions C57_stored_names.
Print Assumptions C81_once.
Print Assumptions C81_refuted.
Print Assumptions C81_names.
Print Assumptions C82_stops.
Print Assumptions C82_refuted.
