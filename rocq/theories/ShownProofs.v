(** * Lemmas about the console behind the process. *)
From Verif Require Import Base BaseFacts TelemetryModel TelemetrySpec BucketsModel BucketsSpec ConsoleModel ConsoleSpec ConsoleProofs FlowModel FlowSpec FlowProofs
  TopologyModel TopologySpec TopologyProofs NetworkModel NetworkSpec NetworkProofs LiveSpec LiveProofs PulseSpec PulseProofs ShownSpec.
From Coq Require Import Lia.
Open Scope string_scope. Open Scope list_scope. Open Scope nat_scope.

Section Console.
Context {Q : QLib} {S : Show}.
Variable hfun : list string -> N.

Lemma lines_app a b : lines_of (a ++ b) = lines_of a ++ lines_of b.
Proof. apply flat_map_app. Qed.
Lemma ops_app cs1 cs2 os : console_ops (cs1 ++ cs2) os -> exists os1 os2, console_ops cs1 os1 /\ console_ops cs2 os2 /\ os = os1 ++ os2.
Proof.
  intros (ps & F & ->). apply Forall2_app_inv_l in F as (p1 & p2 & F1 & F2 & ->). exists (List.concat p1), (List.concat p2).
  rewrite concat_app. split; [|split]; [exists p1|exists p2|]; auto.
Qed.
Lemma ops_lines cs os : console_ops cs os -> lines_of os = loglines (delivered cs).
Proof.
  intros (ps & F & ->). induction F as [|c p cs ps H F IH]; [reflexivity|]. cbn [List.concat]. rewrite lines_app, IH.
  destruct c as [e|idx| |]; [destruct e|..]; cbn in H |- *; try (destruct H as (? & ? & ? & ->)); try subst p; reflexivity.
Qed.
(** what has been shown, and what waits in the buffer *)
Lemma shown_so_far w tags os : w <> 0%Z -> tm_ok tags -> printable os -> Forall (fun l => otm_ok (l_tags l)) (lines_of os) ->
  exists outs c ls, c_run hfun (c_init w tags) os = (outs, Some c) /\ lines_of os = ls ++ cs_buffer c /\ shows_all tags ls outs /\ cs_tags c = tags.
Proof.
  intros Hw Ht. induction os as [|o os IH] using rev_ind; intros Hp Ho.
  - exists [], (c_init w tags), []. split; [reflexivity|]. split; [reflexivity|]. split; [exists []; split; constructor|]. reflexivity.
  - unfold printable in *. rewrite lines_app in Hp, Ho. apply Forall_app in Hp as [Hp Hp1]. apply Forall_app in Ho as [Ho Ho1].
    destruct (IH Hp Ho) as (outs & c & ls & E & El & (secs & Sh1 & Sh2) & Et). clear IH.
    assert (Hall : printable (os ++ [o])) by (unfold printable; rewrite lines_app; apply Forall_app; auto).
    destruct (run_survives hfun w tags (os ++ [o]) Hw Hall) as (outs' & c' & E' & _). exists outs', c'.
    destruct (run_buckets hfun _ _ _ _ E') as [_ Et']. cbn in Et'.
    rewrite c_run_app, E in E'. rewrite lines_app, El. destruct o as [t|l|d1 d2 now]; cbn in E'.
    + exists ls. destruct (c_deliver hfun t c) as [c2|] eqn:Ed; [|discriminate E']. injection E' as <- <-.
      unfold c_deliver in Ed. destruct (b_add hfun (cs_aggrs c) t) eqn:Ea; [|discriminate Ed]. injection Ed as <-. rewrite !app_nil_r. cbn [cs_buffer] in *.
      split; [rewrite c_run_app, E; cbn; unfold c_deliver; rewrite Ea, app_nil_r; reflexivity|]. split; [reflexivity|]. split; [exists secs; auto|]. exact Et.
    + exists ls. injection E' as <- <-. rewrite !app_nil_r. cbn [cs_buffer c_deliver_line] in *.
      split; [rewrite c_run_app, E; cbn; rewrite app_nil_r; reflexivity|]. split; [cbn; rewrite app_assoc; reflexivity|]. split; [exists secs; auto|]. exact Et.
    + exists (ls ++ cs_buffer c). cbn [lines_of flat_map]. rewrite El in Hp, Ho. apply Forall_app in Hp as [_ Hp]. apply Forall_app in Ho as [_ Ho].
      unfold c_flush in E'. destruct (line_rows (cs_tags c) (cs_buffer c)) as [rows ok] eqn:Er. destruct ok; [|discriminate E'].
      injection E' as Eo Ec. rewrite Et in Er.
      destruct (line_rows_shows tags (cs_buffer c) Hp Ho Ht) as (rows' & Er' & Fr). rewrite Er in Er'. injection Er' as <-.
      split; [rewrite c_run_app, E; cbn; unfold c_flush; rewrite Et, Er; cbn; rewrite <- Eo, <- Ec, Et; reflexivity|].
      split; [rewrite <- Ec; reflexivity|]. split; [|exact Et'].
      exists (secs ++ [rows]). split.
      * rewrite <- Eo. apply Forall2_app; [exact Sh1|]. constructor; [|constructor]. exists d1, d2, (b_iter (cs_aggrs c)). rewrite report_sections. reflexivity.
      * rewrite concat_app. cbn. rewrite app_nil_r. apply Forall2_app; assumption.
Qed.
(** after a flush everything before it has been shown *)
Lemma shown_flushed w tags cs1 f cs2 : w <> 0%Z -> tm_ok tags -> flushing f = true -> console_shows hfun w tags (cs1 ++ f :: cs2) (loglines (delivered cs1)).
Proof.
  intros Hw Ht Hf os Ops Hp Ho. destruct (ops_app cs1 (f :: cs2) os Ops) as (os1 & os2 & O1 & O2 & ->).
  destruct (shown_so_far w tags _ Hw Ht Hp Ho) as (outs & c & ls & E & El & Sh & _). exists outs, c.
  enough (exists more, ls = lines_of os1 ++ more) as (more & ->).
  { exists more. rewrite <- (ops_lines _ _ O1). auto. }
  destruct O2 as (ps & F & ->). inversion F as [|? p ? ps' Hd F']; subst. cbn [List.concat] in *.
  assert (Ep : exists d1 d2 now, p = [CFlush d1 d2 now]) by (destruct f; [discriminate Hf|exact Hd..]). destruct Ep as (d1 & d2 & now & ->). clear Hd Hf F.
  assert (P1 : printable (os1 ++ [CFlush d1 d2 now])).
  { unfold printable in *. rewrite lines_app in *. cbn in *. rewrite app_nil_r. apply Forall_app in Hp as [Hp _]. exact Hp. }
  destruct (run_survives hfun w tags _ Hw P1) as (o1 & c1 & E1 & _).
  assert (B1 : cs_buffer c1 = []) by (eapply flushed_buffer; [right; do 4 eexists; reflexivity|exact E1]).
  cbn [app] in E. replace (os1 ++ CFlush d1 d2 now :: List.concat ps') with ((os1 ++ [CFlush d1 d2 now]) ++ List.concat ps') in E by (rewrite <- app_assoc; reflexivity).
  rewrite c_run_app, E1 in E. destruct (c_run hfun c1 (List.concat ps')) as [o2 c2] eqn:E2. injection E as <- ->.
  (* the buffer at the end is made of later lines *)
  assert (Buf : forall os' c0 o c9, c_run hfun c0 os' = (o, Some c9) -> exists a b, cs_buffer c0 ++ lines_of os' = a ++ b /\ cs_buffer c9 = b).
  { induction os' as [|o' os' IH]; intros c0 o c9 H; cbn in H.
    - injection H as _ <-. exists [], (cs_buffer c0). split; [apply app_nil_r|reflexivity].
    - destruct o' as [t|l|e1 e2 n]; cbn in H.
      + destruct (c_deliver hfun t c0) as [c0'|] eqn:Ed; [|discriminate H]. unfold c_deliver in Ed. destruct (b_add hfun (cs_aggrs c0) t) as [b0|]; [|discriminate Ed]. injection Ed as <-.
        destruct (c_run hfun _ os') as [o3 c3] eqn:E3 in H. injection H as _ ->. destruct (IH _ _ _ E3) as (a & b & H1 & H2). exists a, b. auto.
      + destruct (c_run hfun _ os') as [o3 c3] eqn:E3 in H. injection H as _ ->. destruct (IH _ _ _ E3) as (a & b & H1 & H2). exists a, b. split; [|exact H2].
        cbn [cs_buffer c_deliver_line] in H1. rewrite <- app_assoc in H1. exact H1.
      + unfold c_flush in H. destruct (line_rows (cs_tags c0) (cs_buffer c0)) as [rows ok]. destruct ok; [|discriminate H].
        destruct (c_run hfun _ os') as [o3 c3] eqn:E3 in H. injection H as _ ->. destruct (IH _ _ _ E3) as (a & b & H1 & H2). exists (cs_buffer c0 ++ a), b. split; [|exact H2].
        cbn [cs_buffer app] in H1. change (lines_of (CFlush e1 e2 n :: os')) with (lines_of os'). rewrite H1. apply app_assoc. }
  destruct (Buf _ _ _ _ E2) as (a & b & H1 & H2). rewrite B1 in H1. cbn in H1. subst b.
  rewrite lines_app in El. cbn [app] in El. change (lines_of (CFlush d1 d2 now :: List.concat ps')) with (lines_of (List.concat ps')) in El. exists a. rewrite H1, app_assoc in El. apply app_inv_tail in El. auto.
Qed.
End Console.

Section Calls.
Context {Q : QLib} {S : Type}.
Variable proc : string -> S -> event -> S * list event * option event.
Variable st0 : string -> S.
Variable fint : string -> option N.

Lemma calls_grow n fi s m : exists more, sr_calls (sink_step n fi s m) = sr_calls s ++ more.
Proof.
  destruct m as [e| |o]; cbn [sink_step].
  - exists []. symmetry. apply app_nil_r.
  - exists []. rewrite app_nil_r. destruct (sr_stopped s); [reflexivity|]. destruct (sr_hand s); [reflexivity|]. destruct (sr_queue s); reflexivity.
  - destruct (sr_stopped s); [exists []; symmetry; apply app_nil_r|]. destruct (sr_hand s) as [e|]; [|exists []; symmetry; apply app_nil_r].
    destruct (inner_cases n fi s e o) as (cs & hand & last & shut & stop & -> & _). exists cs. reflexivity.
Qed.
Lemma calls_step t s a s' d : nstep proc fint t s a s' -> exists more, sr_calls (n_sink s' d) = sr_calls (n_sink s d) ++ more.
Proof.
  assert (N : exists more, sr_calls (n_sink s d) = sr_calls (n_sink s d) ++ more) by (exists []; symmetry; apply app_nil_r).
  intros St. destruct St as [i sends k' e' H1 H2 H3 H4|i sends H1 H2 H3|H1|u dd e' r ok H1|dd sources sends e' q H1 H2 H3 H4|dd sources e' q H1 H2 H3 H4|dd sources o e' H1 H2 H3]; cbn [n_sink set_out set_sink set_queue set_done set_idx set_filter].
  1-3: exact N.
  - destruct ok; exact N.
  - exact N.
  - unfold upd. destruct (seqb dd d) eqn:E; [|exact N]. apply seqb_eq in E. subst dd.
    destruct (calls_grow (List.length sources) (fint d) (n_sink s d) (Arrive e')) as (m1 & E1).
    destruct (calls_grow (List.length sources) (fint d) (sink_step (List.length sources) (fint d) (n_sink s d) (Arrive e')) FlowModel.Poll) as (m2 & E2).
    rewrite E2, E1, <- app_assoc. eauto.
  - unfold upd. destruct (seqb dd d) eqn:E; [|exact N]. apply seqb_eq in E. subst dd. apply calls_grow.
Qed.

Variable g : config.
Variable t : started.
Hypothesis Hd : distinct_ids g.
Hypothesis Hw : wire g = Going t.
(** a stopped sink has made its last call, shutdown *)
Lemma stopped_calls tr s d : nrun proc st0 fint t tr s -> In d (g_sinks g) -> sr_stopped (n_sink s d) = true ->
  exists cs, sr_calls (n_sink s d) = cs ++ [CShutdown].
Proof.
  intros R Hk Hs. destruct (sink_found g t Hd Hw d Hk) as (sources & El).
  destruct (i_sink _ _ _ _ _ _ (inv_run _ _ _ _ _ _ (wired_wf g t Hd Hw) R) d sources El) as [_ (ms & Km & _)].
  assert (H : handled_shutdown (n_sink s d)).
  { rewrite Km. clear. unfold sink_exec. assert (H0 : @handled_shutdown Q sink_start) by (split; [discriminate|intros _ []]).
    revert H0. generalize (@sink_start Q). induction ms as [|m ms IH]; intros s0 H0; [exact H0|]. cbn [fold_left]. apply IH, sink_step_handled, H0. }
  destruct (proj1 H Hs) as (_ & cs & E & _). eauto.
Qed.

Variable x : nat -> @net Q S.
Variable l : nat -> option (@label Q).
Hypothesis Hx : execution proc st0 fint t x l.
Lemma calls_later d i j : i <= j -> exists more, sr_calls (n_sink (x j) d) = sr_calls (n_sink (x i) d) ++ more.
Proof.
  induction 1 as [|j _ (m & E)]; [exists []; symmetry; apply app_nil_r|]. destruct Hx as [_ Hs]. specialize (Hs j). replace (Datatypes.S j) with (j + 1) by lia.
  destruct (l j) as [a|]; [|rewrite Hs; eauto]. destruct (calls_step _ _ _ _ d Hs) as (m2 & ->). rewrite E, <- app_assoc. eauto.
Qed.
Hypothesis F : fair g x l.
(** after any time a sink that is due flushes again *)
Lemma flush_again u via d k i : In u (map fst (g_natives g ++ g_sources g)) -> way g u via d -> In d (g_sinks g) -> handed proc st0 g d -> pulses_kept g l d ->
  timer_goes l -> fint d = Some k -> (N.max 1 k * (N.of_nat (pulses (before l i)) + 1) < 2 ^ 64)%N ->
  exists j, i <= j /\ ((exists v, In v (via ++ [d]) /\ halted g (x j) v) \/ exists n m1 m2, sr_calls (n_sink (x j) d) = sr_calls (n_sink (x i) d) ++ m1 ++ CFlushTimer n :: m2).
Proof.
  intros Hu Hwy Hk Hh K T Hfi Hb. set (n := (N.max 1 k * (N.of_nat (pulses (before l i)) + 1))%N) in *.
  destruct (flushed_way proc st0 fint g t Hd Hw d Hh x l Hx F K k n u via Hu Hwy Hk T Hfi) with (i := i) as (j & Hj & H).
  - apply orb_true_iff. destruct (N.eq_dec k 0) as [->|K0]; [left; reflexivity|right]. apply N.eqb_eq. unfold n. replace (N.max 1 k) with k by lia.
    rewrite N.mul_comm. apply N.mod_mul. exact K0.
  - split; [unfold n; lia|exact Hb].
  - exists j. split; [exact Hj|]. destruct H as [H|H]; [auto|right].
    destruct (calls_later d i j Hj) as (more & E). rewrite E in H. unfold timer_flushes in H. rewrite flat_map_app in H. apply in_app_or in H as [H|H].
    + exfalso. assert (B := flush_ahead proc st0 fint g t Hd Hw d Hh x l Hx K i n Hk H). unfold n in B. nia.
    + apply in_flat_map in H as (c & Hc & Hn). destruct c; try contradiction. destruct Hn as [->|[]]. apply in_split in Hc as (m1 & m2 & ->). exists n, m1, m2. exact E.
Qed.
End Calls.
