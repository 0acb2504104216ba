(** * C132: the process from start to exit *)
From Verif Require Import Base BaseFacts TelemetryModel FlowModel FlowSpec FlowProofs QExample TelemetryProps FlowProps TopologyModel TopologySpec TopologyProofs TopologyProps NetworkModel NetworkSpec NetworkProofs NetworkProps LiveSpec LiveProofs MainModel MainSpec MainProofs.
From Coq Require Import Lia.
Open Scope string_scope. Open Scope list_scope. Open Scope nat_scope.

Lemma threads_work g so ko fo th : main_holds g so ko fo -> In th (threads g) <-> In (Await th) (chores so ko fo).
Proof.
  intros ((_ & M1) & (_ & M2) & (_ & M3)). rewrite await_in. unfold threads. rewrite !in_app_iff, !in_map_iff. split.
  - intros [(i & <- & H)|[(i & <- & H)|(i & <- & H)]]; [apply M1|apply M2|apply M3]; exact H.
  - destruct th as [i|i|i]; intros H; [apply M1 in H|apply M2 in H|apply M3 in H]; eauto.
Qed.
(** C132.  When main returns, every source, filter and sink has ended and none of them has panicked. *)
Theorem C132_exit : forall (Q : QLib) (S : Type) proc (st0 : string -> S) fint g t so ko fo tr p,
  main_holds g so ko fo -> prun proc st0 fint t (chores so ko fo) tr p -> returned p ->
  forall th, In th (threads g) -> ended (p_net p) th /\ ~ In (PCrash th) tr.
Proof.
  intros Q S proc st0 fint g t so ko fo tr p M R E th H. apply (threads_work _ _ _ _ _ M) in H.
  destruct (returned_all _ _ _ _ _ _ _ R E th H) as [A B]. split; [exact A|]. intros Hc.
  enough (p_crashed p th = true) by congruence. clear - R Hc.
  induction R as [|tr p l p' R IH St]; [contradiction|]. apply in_app_or in Hc as [Hc|[Hc|[]]].
  - specialize (IH Hc). destruct St; try exact IH. cbn. destruct (teqb th0 th); [reflexivity|exact IH].
  - subst l. inversion St; subst. cbn. rewrite (proj2 (teqb_eq th th) Logic.eq_refl). reflexivity.
Qed.
(** And if nothing has two upstreams, no filter makes shutdown markers and no queue was ever full, every sink has then
    delivered all the data its upstream had for it. *)
Theorem C132_exit_delivered_partial : forall (Q : QLib) (S : Type) proc (st0 : string -> S) fint g t so ko fo tr p,
  distinct_ids g -> wire g = Going t -> main_holds g so ko fo -> prun proc st0 fint t (chores so ko fo) tr p -> returned p ->
  quiet proc st0 -> single_upstreams g -> no_drops (net_trace tr) ->
  forall u d, upstream g u d -> In d (g_sinks g) ->
    delivered (sr_calls (n_sink (p_net p) d)) = filter is_data (arrived d (net_trace tr)) /\
    (In u (map fst (g_natives g ++ g_sources g)) -> forall k, arrived_from (Src u k) d (net_trace tr) = emitted u k (net_trace tr)) /\
    (In u (map fst (g_filters g)) -> delivered (sr_calls (n_sink (p_net p) d)) =
      filter is_data (fr_sent (f_run (mkFilt S (proc u)) 1 (map Some (polled u (net_trace tr))) (st0 u) [] 0))).
Proof.
  intros Q S proc st0 fint g t so ko fo tr p Hd Hw M R E Hq Hs Hn u d Hu Hk.
  assert (N := pi_net _ _ _ _ _ _ _ (run_inv _ _ _ _ _ _ _ R)).
  assert (St : sr_stopped (n_sink (p_net p) d) = true).
  { apply (C132_exit Q S proc st0 fint g t so ko fo tr p M R E (TSink d)). unfold threads. apply in_or_app. right. apply in_or_app. left. apply in_map. exact Hk. }
  destruct (C86_delivered_partial Q S proc st0 fint g t (net_trace tr) (p_net p) Hd Hw N Hq Hs u d Hu Hk St) as [A B]. split; [exact A|]. exact (B Hn).
Qed.
(** Sources are stopped one after the other: none is told, let alone stops, before those main takes first have ended. *)
Theorem C132_in_turn : forall (Q : QLib) (S : Type) proc (st0 : string -> S) fint g t l1 a l2 ko fo tr p,
  main_holds g (l1 ++ a :: l2) ko fo -> prun proc st0 fint t (chores (l1 ++ a :: l2) ko fo) tr p ->
  forall b, In b l2 -> p_told p b = true \/ n_done (p_net p) b = true -> ended (p_net p) (TSource a).
Proof.
  intros Q S proc st0 fint g t l1 a l2 ko fo tr p M R b Hb T. assert (I := run_inv _ _ _ _ _ _ _ R).
  assert (T' : p_told p b = true) by (destruct T as [T|T]; [exact T|exact (pi_done _ _ _ _ _ _ _ I b T)]). clear T.
  assert (Nd : NoDup (l1 ++ a :: l2)) by apply M. assert (J := pi_main _ _ _ _ _ _ _ I).
  destruct (p_main p) as [|rest|].
  - destruct J as (_ & P & _). destruct (P b T').
  - destruct J as (done & W & P1 & P2 & _). apply (P1 (TSource a)). exact (told_after l1 a l2 ko fo done rest b Nd Hb W (P2 b T')).
  - destruct J as (done & th & rest & W & (P1 & P2 & _) & _). apply (P1 (TSource a)). exact (told_after l1 a l2 ko fo done _ b Nd Hb W (P2 b T')).
Qed.
(** main panics only over a thread it knows that has panicked. *)
Theorem C132_panic_why : forall (Q : QLib) (S : Type) proc (st0 : string -> S) fint g t so ko fo tr p,
  main_holds g so ko fo -> prun proc st0 fint t (chores so ko fo) tr p -> p_main p = Panicked ->
  exists th, In th (threads g) /\ In (PCrash th) tr.
Proof.
  intros Q S proc st0 fint g t so ko fo tr p M R E. assert (I := run_inv _ _ _ _ _ _ _ R). assert (J := pi_main _ _ _ _ _ _ _ I). rewrite E in J.
  destruct J as (done & th & rest & W & _ & C). exists th. split.
  - apply (threads_work _ _ _ _ _ M). rewrite W. apply in_or_app. right. left. reflexivity.
  - apply (pi_crash _ _ _ _ _ _ _ I th C).
Qed.
(** Full statement: after the signal the process comes to its end, and when it ends every source was told to stop and what
    is on the queues has been delivered.  The first half: in every fair execution in which no thread panics, main returns.
    Missing: nodes that are not fed, below, and threads that panic, C132_refuted. *)
Theorem C132_returns_partial : forall (Q : QLib) (S : Type) proc (st0 : string -> S) fint g t so ko fo x l,
  distinct_ids g -> wire g = Going t -> main_holds g so ko fo -> pexecution proc st0 fint t (chores so ko fo) x l ->
  pfair g x l -> no_crash l -> pmarkers_kept l -> told_stops x -> signal_comes l ->
  (forall id, In id (g_sinks g) \/ In id (map fst (g_filters g)) -> fed g id) ->
  exists i, returned (x i).
Proof.
  intros Q S proc st0 fint g t so ko fo x l Hd Hw M X F Nc K T Sg Fd.
  exact (main_returns proc st0 fint g t Hd Hw so ko fo M x l X F Nc K T Sg Fd).
Qed.
(** A filter or sink that nobody forwards to keeps main from ever returning. *)
Theorem C132_never : forall (Q : QLib) (S : Type) proc (st0 : string -> S) fint g t so ko fo tr p d,
  distinct_ids g -> wire g = Going t -> main_holds g so ko fo -> prun proc st0 fint t (chores so ko fo) tr p ->
  In d (g_sinks g) \/ In d (map fst (g_filters g)) -> (forall u, ~ upstream g u d) -> ~ returned p.
Proof.
  intros Q S proc st0 fint g t so ko fo tr p d Hd Hw M R Hin Hno E.
  assert (N := pi_net _ _ _ _ _ _ _ (run_inv _ _ _ _ _ _ _ R)).
  apply (C85_never Q S proc st0 fint g t (net_trace tr) (p_net p) Hd Hw N d Hno). assert (A := C132_exit Q S proc st0 fint g t so ko fo tr p M R E).
  destruct Hin as [Hin|Hin]; [right|left]; (split; [exact Hin|]).
  - apply (A (TSink d)). unfold threads. apply in_or_app. right. apply in_or_app. left. apply in_map. exact Hin.
  - apply (A (TFilter d)). unfold threads. apply in_or_app. right. apply in_or_app. right. apply in_map. exact Hin.
Qed.

(** ** Refutation: two sources and a sink.  One source has panicked; at the signal main panics over it, and the other is
    never told and what it sent is never delivered. *)
Lemma xtwo_holds : main_holds xtwo ["sources.a"; "sources.b"] ["sinks.null"] [].
Proof.
  unfold main_holds, lists. cbn. split; [|split]; (split; [repeat (constructor; [cbn; intuition discriminate|]); constructor|tauto]).
Qed.
Notation xtwo_work := (chores ["sources.a"; "sources.b"] ["sinks.null"] []).
Notation xone := (fun _ : string => tt).
Theorem C132_refuted : exists (Q : QLib) (S : Type) proc (st0 : string -> S) fint g t so ko fo tr p b e d,
  distinct_ids g /\ wire g = Going t /\ main_holds g so ko fo /\ prun proc st0 fint t (chores so ko fo) tr p /\
  In PSignal tr /\ p_main p = Panicked /\ (forall a p', ~ pstep proc fint t (chores so ko fo) p a p') /\
  In b (map fst (g_sources g)) /\ p_told p b = false /\ ~ In (PCrash (TSource b)) tr /\
  In d (g_sinks g) /\ In e (arrived d (net_trace tr)) /\ is_data e = true /\ delivered (sr_calls (n_sink (p_net p) d)) = [].
Proof.
  set (st1 := @mkProcess xQ unit (net0 xone) Serving (fun _ => false) (fun y => if teqb (TSource "sources.a") y then true else false)).
  set (n1 := set_out (Src "sources.b" 0) (copies ["sinks.null"] (xdata "lost")) (net0 xone)).
  set (n2 := set_out (Src "sources.b" 0) [] (set_queue "sinks.null" ([] ++ [xdata "lost"]) n1)).
  set (tl := fun y => if seqb "sources.a" y then true else false).
  assert (R0 : prun xpass_proc xone (fun _ => None) xtwo_started xtwo_work ([] ++ [PCrash (TSource "sources.a")]) st1).
  { eapply prun_step; [apply prun_start|]. apply (p_crash _ _ _ _ (process0 xone)); [split; discriminate|intros [H _]; discriminate H]. }
  assert (R1 : prun xpass_proc xone (fun _ => None) xtwo_started xtwo_work (([] ++ [PCrash (TSource "sources.a")]) ++ [PNet (LEmit "sources.b" 0 (xdata "lost"))]) (set_net n1 st1)).
  { eapply prun_step; [exact R0|]. apply p_step; [split; discriminate|apply step_emit; reflexivity|discriminate|]. intros [j|j|j] H; cbn in H; try contradiction. subst. reflexivity. }
  assert (R2 : prun xpass_proc xone (fun _ => None) xtwo_started xtwo_work
    ((([] ++ [PCrash (TSource "sources.a")]) ++ [PNet (LEmit "sources.b" 0 (xdata "lost"))]) ++ [PNet (LCopy (Src "sources.b" 0) "sinks.null" (xdata "lost") true)]) (set_net n2 (set_net n1 st1))).
  { eapply prun_step; [exact R1|]. apply p_step; [split; discriminate|apply (step_copy _ _ xtwo_started n1 (Src "sources.b" 0) "sinks.null" (xdata "lost") [] true); reflexivity|discriminate|].
    intros [j|j|j] H; cbn in H; try contradiction. subst. reflexivity. }
  eapply prun_step in R2; [|apply p_signal; reflexivity]. eapply prun_step in R2; [|apply p_tell; reflexivity]. eapply prun_step in R2; [|eapply p_fail; reflexivity].
  cbn [app] in R2.
  match type of R2 with MainModel.prun _ _ _ _ _ ?tr ?p => exists xQ, unit, xpass_proc, xone, (fun _ => None), xtwo, xtwo_started, ["sources.a"; "sources.b"], ["sinks.null"], [], tr, p end.
  exists "sources.b", (xdata "lost"), "sinks.null".
  split; [unfold distinct_ids; cbn; repeat (constructor; [cbn; intuition discriminate|]); constructor|]. split; [reflexivity|]. split; [exact xtwo_holds|]. split; [exact R2|].
  split; [cbn; tauto|]. split; [reflexivity|]. split.
  { intros a p' St. inversion St as [b s' L N T C Eb Ep|th L N Eb Ep|M Eb Ep|id r' M Eb Ep|th r' M X C Eb Ep|th r' M C Eb Ep]; try discriminate M; destruct L as [_ L]; apply L; reflexivity. }
  split; [cbn; tauto|]. split; [reflexivity|]. split; [intros H; repeat (destruct H as [H|H]; [discriminate H|]); exact H|].
  split; [left; reflexivity|]. split; [left; reflexivity|]. split; reflexivity.
Qed.

(** ** Example: the run of C85_ex with main beside it, to the exit *)
Lemma returned_fair {Q : QLib} {S : Type} g (x : nat -> @process Q S) l n p : (forall i, n <= i -> x i = p) -> returned p -> pfair g x l.
Proof. intros E R. split; intros; intros i; exists (n + i); (split; [lia|]); left; rewrite E by lia; exact R. Qed.
Section Lift.
Context {Q : QLib} {S : Type}.
Variable proc : string -> S -> event -> S * list event * option event.
Variable st0 : string -> S.
Variable fint : string -> option N.
Lemma lift t work tr0 p0 : prun proc st0 fint t work tr0 p0 -> p_net p0 = net0 st0 -> living p0 -> (forall th, p_crashed p0 th = false) ->
  forall tr s, nrun proc st0 fint t tr s -> (forall id, In (LStop id) tr -> p_told p0 id = true) ->
  prun proc st0 fint t work (tr0 ++ map PNet tr) (set_net s p0).
Proof.
  intros R0 E L C. induction 1 as [|tr s a s' R IH St]; intros T.
  - rewrite app_nil_r, <- E. destruct p0. exact R0.
  - rewrite map_app, app_assoc. cbn [map]. eapply prun_step; [apply IH; intros id H; apply T, in_or_app; auto|].
    apply (p_step proc fint t work (set_net s p0) a s'); [exact L|exact St| |intros th _; apply C].
    intros id ->. apply T, in_or_app. right. left. reflexivity.
Qed.
Lemma pstay t work tr p : prun proc st0 fint t work tr p -> exists x, pexecution proc st0 fint t work x (nth_error tr) /\ forall i, List.length tr <= i -> x i = p.
Proof.
  induction 1 as [|tr s a s' R (x & [X0 Xs] & Xe) St].
  - exists (fun _ => process0 st0). split; [split; [reflexivity|intros i; destruct i; reflexivity]|reflexivity].
  - exists (fun i => if i <=? List.length tr then x i else s'). split; [split|].
    + exact X0.
    + intros i. destruct (lt_eq_lt_dec i (List.length tr)) as [[H|H]|H].
      * rewrite nth_error_app1 by exact H. specialize (Xs i). rewrite (leb_correct i), (leb_correct (i + 1)) by lia. exact Xs.
      * subst i. rewrite nth_error_app2, Nat.sub_diag by lia. cbn [nth_error]. rewrite leb_correct, leb_correct_conv by lia. rewrite Xe by lia. exact St.
      * replace (nth_error (tr ++ [a]) i) with (@None (@plabel Q)) by (symmetry; apply nth_error_None; rewrite app_length; cbn; lia). rewrite !leb_correct_conv by lia. reflexivity.
    + intros i Hi. rewrite app_length in Hi. cbn in Hi. rewrite leb_correct_conv by lia. reflexivity.
Qed.
End Lift.
Lemma xrow_holds : main_holds xrow ["sources.a"] ["sinks.null"] ["filters.f"].
Proof.
  unfold main_holds, lists. cbn. split; [|split]; (split; [repeat (constructor; [cbn; intuition discriminate|]); constructor|tauto]).
Qed.
Notation xrow_work := (chores ["sources.a"] ["sinks.null"] ["filters.f"]).
Definition xrow_main : list (@plabel xQ) :=
  [PSignal; PTell "sources.a"] ++ map PNet xrow_trace ++ [PJoin (TSource "sources.a"); PJoin (TSink "sinks.null"); PJoin (TFilter "filters.f")].
Example C132_run : exists p, prun xpass_proc xone (fun _ => Some 1%N) xrow_started xrow_work xrow_main p /\ returned p /\ no_drops (net_trace xrow_main) /\
  (forall id, p_told p id = true -> n_done (p_net p) id = true).
Proof.
  destruct C85_ex as (s & R & _ & Hr & _). destruct C86_ex as (s2 & R2 & Nd & Ov & _).
  assert (R0 := prun_start xpass_proc xone (fun _ => Some 1%N) xrow_started xrow_work).
  eapply prun_step in R0; [|apply p_signal; reflexivity]. eapply prun_step in R0; [|apply p_tell; reflexivity]. cbn [app] in R0.
  assert (O : forall u, n_out s u = []) by (intros u; destruct (n_out s u) as [|[d e] r] eqn:E; [reflexivity|]; discriminate (Hr _ _ (step_copy xpass_proc (fun _ => Some 1%N) xrow_started s u d e r true E))).
  assert (Ov1 : Forall (over xrow s) ["sources.a"; "filters.f"; "sinks.null"]).
  { apply Forall_forall. intros id Hin. apply (C85_at_rest_partial xQ unit xpass_proc xone (fun _ => Some 1%N) xrow xrow_started xrow_trace s xrow_ids xrow_wired R); [intros u d H; exact (Nd u d _ H)|exact Hr|].
    assert (Hf := xrow_fed). rewrite Forall_forall in Hf. exact (Hf id Hin). }
  inversion Ov1 as [|? ? (A & _ & _) T1]; subst. inversion T1 as [|? ? (_ & B & _) T2]; subst. inversion T2 as [|? ? (_ & _ & C) _]; subst.
  apply (lift xpass_proc xone (fun _ => Some 1%N) xrow_started xrow_work _ _ R0 Logic.eq_refl) with (tr := xrow_trace) (s := s) in R; [|split; discriminate|reflexivity|].
  2:{ intros id Hin. repeat (destruct Hin as [Hin|Hin]; [first [discriminate Hin|injection Hin as <-; reflexivity]|]). destruct Hin. }
  eapply prun_step in R; [|eapply p_join; [reflexivity|split; [apply A; left; reflexivity|apply O]|reflexivity]].
  eapply prun_step in R; [|eapply p_join; [reflexivity|apply C; left; reflexivity|reflexivity]].
  eapply prun_step in R; [|eapply p_join; [reflexivity|split; [apply B; left; reflexivity|apply O]|reflexivity]].
  rewrite <- !app_assoc in R. cbn [app] in R.
  match type of R with MainModel.prun _ _ _ _ _ _ ?p => exists p end. split; [exact R|]. split; [reflexivity|].
  split; [|intros id H; cbn [p_told set_main set_net process0] in H; destruct (seqb "sources.a" id) eqn:E; [apply seqb_eq in E; subst; apply A; left; reflexivity|discriminate H]].
  intros u d e H. unfold net_trace, xrow_main in H. rewrite !flat_map_app in H. cbn [flat_map app] in H. rewrite app_nil_r in H.
  apply (Nd u d e). clear - H. induction xrow_trace as [|a r IH]; [exact H|]. cbn in H |- *. destruct H as [H|H]; [left; exact H|right; exact (IH H)].
Qed.
(** which is an execution as C132_returns_partial wants it *)
Example C132_ex : exists x, pexecution xpass_proc xone (fun _ => Some 1%N) xrow_started xrow_work x (nth_error xrow_main) /\ pfair xrow x (nth_error xrow_main) /\
  no_crash (nth_error xrow_main) /\ pmarkers_kept (nth_error xrow_main) /\ told_stops x /\ signal_comes (nth_error xrow_main) /\
  (forall id, In id (g_sinks xrow) \/ In id (map fst (g_filters xrow)) -> fed xrow id) /\
  quiet xpass_proc xone /\ single_upstreams xrow.
Proof.
  destruct C132_run as (p & R & E & Nd & T). destruct (pstay _ _ _ _ _ _ _ R) as (x & X & Xe). exists x. split; [exact X|]. split; [exact (returned_fair _ _ _ _ p Xe E)|].
  split; [intros i th H; apply nth_error_In in H; repeat (destruct H as [H|H]; [discriminate H|]); exact H|].
  split; [intros i u d H; apply nth_error_In in H; repeat (destruct H as [H|H]; [discriminate H|]); exact H|].
  split.
  { intros i id H. exists (List.length xrow_main). rewrite (Xe _ (le_n _)). apply T. rewrite <- (Xe (i + List.length xrow_main) ltac:(lia)).
    clear - X H. induction (List.length xrow_main) as [|n IH]; [rewrite Nat.add_0_r; exact H|]. replace (i + Datatypes.S n) with (i + n + 1) by lia.
    destruct X as [_ Xs]. specialize (Xs (i + n)). destruct (nth_error xrow_main (i + n)) as [a|]; [|rewrite Xs; exact IH].
    inversion Xs; subst; try exact IH. cbn. destruct (seqb id0 id); [reflexivity|exact IH]. }
  split; [exists 0; reflexivity|]. split.
  { assert (Hf := xrow_fed). rewrite Forall_forall in Hf. intros id [[<-|[]]|[<-|[]]]; apply Hf; cbn; tauto. }
  split; [exact xpass_quiet|exact xrow_single].
Qed.

Print Assumptions C132_exit.
Print Assumptions C132_exit_delivered_partial.
Print Assumptions C132_in_turn.
Print Assumptions C132_panic_why.
Print Assumptions C132_returns_partial.
Print Assumptions C132_never.
Print Assumptions C132_refuted.
