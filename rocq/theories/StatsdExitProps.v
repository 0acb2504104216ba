(** * C161: when the process has ended, wavefront was told of every count clients wrote to a statsd source. *)
From Verif Require Import Base BaseFacts FloatFacts TelemetryModel TelemetrySpec QExample TelemetryProps BucketsModel BucketsSpec ConsoleModel ConsoleSpec ConsoleProofs FlowModel FlowSpec FlowProofs FlowProps
  TopologyModel TopologySpec TopologyProofs TopologyProps NetworkModel NetworkSpec NetworkProofs NetworkProps MainModel MainSpec MainProofs MainProps ShownSpec ShownProofs
  ParseModel ParseSpec ParseProofs ParseProps NumberModel NumberSpec NumberProps AcceptModel DatagramModel DatagramSpec DatagramProofs DatagramProps
  WavefrontModel WavefrontSpec WavefrontProofs WavefrontProps ArriveSpec ArriveProofs ArriveProps RoundSpec CountSpec CountProps ConserveSpec ConserveProofs ConserveProps WholeProps.
From Coq Require Import Lia Permutation.
Open Scope string_scope. Open Scope list_scope. Open Scope nat_scope.

(** The line [y] is a count of the name, [Some] of what it holds, or a good line of another name. *)
Definition not_of (pf : string -> option f64) (name y : string) : Prop := forall st, says pf y st -> st_name st <> name.
Definition line_as (pf : string -> option f64) (name y : string) (o : option count_line) : Prop :=
  match o with
  | Some l => y = count_text l /\ well_written l /\ cl_name l = name
  | None => (exists st, says pf y st) /\ not_of pf name y
  end.
(** The datagram [x] is of good lines, or none of its lines, be they good or bad, is of the name. *)
Definition heard_as (pf : string -> option f64) (name x : string) (os : list (option count_line)) : Prop :=
  (ParseModel.lines x <> [] /\ Forall2 (line_as pf name) (ParseModel.lines x) os) \/ (os = [] /\ Forall (not_of pf name) (ParseModel.lines x)).
Definition those {A} (os : list (option A)) : list A := flat_map (fun o => match o with Some l => [l] | None => [] end) os.

Section Lemmas.
Context `{Q : QLib}.
Variable named : string -> option f64.
Variable cfg : statsd_cfg.
Variable now : Z.
Variable base : telemetry.
Variable name : string.
Notation parse := (parse_statsd (parse_f64 named) cfg now base).
Notation ser := (name :: flat_tags (t_tags base)).
Notation counted := (fun l t => t_persist t = false /\ counts_as t (cl_count l)).

Lemma none_of s (l : list telemetry) : (forall t, In t l -> series_key t <> s) -> filter (of_series s) l = [].
Proof. intros H. destruct (filter (of_series s) l) as [|t r] eqn:E; [reflexivity|exfalso]. assert (X : In t (filter (of_series s) l)) by (rewrite E; left; reflexivity). apply filter_In in X as [X1 X2]. apply of_series_iff in X2. exact (H t X1 X2). Qed.
Lemma parse_res x res ok r : parse x [] = PReturn ok r -> exists ok', parse x res = PReturn ok' (res ++ r) /\ (ParseModel.lines x <> [] -> ok' = ok).
Proof. unfold parse_statsd. intros H. rewrite statsd_loop_res, H. eexists. split; [reflexivity|]. destruct (ParseModel.lines x); [contradiction|reflexivity]. Qed.
Lemma count_heard l : cfg_ok cfg -> well_written l -> cl_name l = name -> exists t, parse (count_text l) [] = PReturn true [t] /\ series_key t = ser /\ counted l t.
Proof.
  intros Hcf (W1 & W2 & W3 & W4 & W5 & W6 & W7) En.
  assert (Pf : parse_f64 named (cl_text l) = Some (fofZ (cl_count l))) by (rewrite (C151_whole named (cl_text l) (cl_count l) W4 ltac:(lia)), opp_whole by lia; reflexivity).
  destruct (C28_gauge_and_counter Q (parse_f64 named) cfg now base (cl_name l) (cl_text l) _ false (cl_text l) _ Hcf W1 W2 W3 Pf Pf) as (_ & G & _).
  destruct (G W7) as (t & E & H1 & H2 & H3 & H4 & H5). exists t. split; [exact E|]. split; [|split; assumption]. unfold series_key. congruence.
Qed.
Lemma count_point l t : cfg_ok cfg -> well_written l -> cl_name l = name -> line_point (parse_f64 named) cfg now base (count_text l) t -> series_key t = ser /\ counted l t.
Proof.
  intros Hcf Hw Hn (s & S1 & S2). destruct (count_heard l Hcf Hw Hn) as (t' & E & Hk & Hc). unfold parse_statsd in E. apply statsd_loop_iff in E as [_ E]; [|exact Hcf].
  destruct Hw as (_ & _ & _ & _ & _ & _ & El). rewrite El in E. inversion E as [|? ? ? ? (s' & S3 & S4) _]; subst. assert (t' = t) by exact (C27_unambiguous Q (parse_f64 named) cfg now base _ _ _ _ _ Hcf S3 S4 S1 S2). subst t'. split; assumption.
Qed.
Lemma other_point y t : not_of (parse_f64 named) name y -> line_point (parse_f64 named) cfg now base y t -> series_key t <> ser.
Proof. intros H (s & S1 & S2) E. apply (H s S1). destruct S2 as (<- & _). unfold series_key in E. injection E as E _. exact E. Qed.
Lemma good_packet x os : cfg_ok cfg -> ParseModel.lines x <> [] -> Forall2 (line_as (parse_f64 named) name) (ParseModel.lines x) os ->
  exists ts, parse x [] = PReturn true ts /\ Forall2 counted (those os) (filter (of_series ser) ts).
Proof.
  intros Hcf Hl H. destruct (C27_statsd_grammar Q (parse_f64 named) cfg now base x Hcf) as (G1 & G2 & _).
  assert (Hs : Forall (fun src => exists s, says (parse_f64 named) src s) (ParseModel.lines x)).
  { clear - H Hcf now base. induction H as [|y o ys os Hy _ IH]; constructor; [|exact IH]. destruct o as [l|]; [|exact (proj1 Hy)]. destruct Hy as (-> & Hw & Hn). destruct (count_heard l Hcf Hw Hn) as (t & E & _).
    unfold parse_statsd in E. apply statsd_loop_iff in E as [_ E]; [|exact Hcf]. destruct Hw as (_ & _ & _ & _ & _ & _ & El). rewrite El in E. inversion E as [|? ? ? ? (s & S1 & _) _]; subst. eauto. }
  destruct (proj2 G2 (conj Hl Hs)) as (ts & E). exists ts. split; [exact E|]. apply G1 in E as [_ E]. clear - H E Hcf now base.
  revert ts E. induction H as [|y o ys os Hy _ IH]; intros ts E; inversion E as [|? t ? ts' P E']; subst; [constructor|]. specialize (IH _ E'). cbn [filter those flat_map]. destruct o as [l|].
  - destruct Hy as (-> & Hw & Hn). destruct (count_point l t Hcf Hw Hn P) as [Hk Hc]. rewrite (proj2 (of_series_iff ser t) Hk). constructor; assumption.
  - destruct Hy as [_ Hy]. assert (X := other_point y t Hy P). destruct (of_series ser t) eqn:Eo; [apply of_series_iff in Eo; contradiction|exact IH].
Qed.
Lemma points_from ys : cfg_ok cfg -> forall ok ts, statsd_loop (parse_f64 named) cfg now base ys [] = PReturn ok ts -> forall t, In t ts -> exists y, In y ys /\ line_point (parse_f64 named) cfg now base y t.
Proof.
  intros Hcf. induction ys as [|y ys IH]; intros ok ts E t Ht; cbn [statsd_loop] in E; [injection E as _ <-; destruct Ht|].
  destruct (statsd_line (parse_f64 named) cfg now base y) as [t0| |] eqn:El; [|injection E as _ <-; destruct Ht|discriminate].
  rewrite statsd_loop_res in E. destruct (statsd_loop (parse_f64 named) cfg now base ys []) as [b r|] eqn:Er; [|discriminate]. injection E as _ <-. destruct Ht as [<-|Ht].
  - exists y. split; [left; reflexivity|]. apply line_iff in El; [exact El|exact Hcf].
  - destruct (IH _ _ eq_refl t Ht) as (y' & Hy & P). exists y'. split; [right; exact Hy|exact P].
Qed.
Lemma loop_counts : cfg_ok cfg -> forall ps os, Forall2 (heard_as (parse_f64 named) name) ps os -> forall res, filter (of_series ser) res = [] ->
  exists sent kept g b, source_loop parse ps res = Some (sent, kept, g, b) /\ filter (of_series ser) kept = [] /\ Forall2 counted (those (List.concat os)) (filter (of_series ser) sent).
Proof.
  intros Hcf. induction 1 as [|x o ps os H _ IH]; intros res Hr; cbn [source_loop].
  - exists [], res, 0%N, 0%N. split; [reflexivity|]. split; [exact Hr|constructor].
  - cbn [List.concat]. unfold those. rewrite flat_map_app. fold (those o) (those (List.concat os)). destruct H as [[Hl H]|[-> H]].
    + destruct (good_packet x o Hcf Hl H) as (ts & Ep & F0). destruct (parse_res _ res _ _ Ep) as (ok & -> & Eo). rewrite Eo by exact Hl. destruct (IH [] eq_refl) as (sent & kept & g & b & -> & K & F).
      exists ((res ++ ts) ++ sent), kept, (g + 1)%N, b. split; [reflexivity|]. split; [exact K|]. rewrite !filter_app, Hr. apply Forall2_app; assumption.
    + destruct (parse x []) as [ok ts|] eqn:Ep; [|exfalso; exact (statsd_total (parse_f64 named) cfg now base Hcf x [] Ep)].
      assert (Hts : filter (of_series ser) (res ++ ts) = []).
      { rewrite filter_app, Hr. apply none_of. intros t Ht. destruct (points_from _ Hcf _ _ Ep t Ht) as (y & Hy & P). apply (other_point y t); [|exact P]. exact (proj1 (Forall_forall _ _) H y Hy). }
      destruct (parse_res _ res _ _ Ep) as (ok' & -> & _). cbn [those flat_map app]. destruct ok'; [destruct (IH [] eq_refl) as (sent & kept & g & b & -> & K & F)|destruct (IH _ Hts) as (sent & kept & g & b & -> & K & F)].
      * exists ((res ++ ts) ++ sent), kept, (g + 1)%N, b. split; [reflexivity|]. split; [exact K|]. rewrite filter_app, Hts. exact F.
      * exists sent, kept, g, (b + 1)%N. auto.
Qed.
Lemma calls_counts : cfg_ok cfg -> forall calls os, Forall2 (heard_as (parse_f64 named) name) (DatagramSpec.texts (List.concat calls)) os ->
  forall sent g b, calls_send (parse_f64 named) cfg now base calls = Some (sent, g, b) -> Forall2 counted (those (List.concat os)) (filter (of_series ser) sent).
Proof.
  intros Hcf. induction calls as [|c calls IH]; intros os H sent g b E; cbn [calls_send List.concat] in *; [inversion H; injection E as <- _ _; constructor|].
  assert (Et : DatagramSpec.texts (c ++ List.concat calls) = DatagramSpec.texts c ++ DatagramSpec.texts (List.concat calls)) by apply flat_map_app. rewrite Et in H. apply Forall2_app_inv_l in H as (o1 & o2 & H1 & H2 & ->).
  destruct (loop_counts Hcf _ _ H1 [] eq_refl) as (s1 & k1 & g1 & b1 & L & _ & F). unfold call_sends in E. rewrite L in E. destruct (calls_send (parse_f64 named) cfg now base calls) as [[[s2 g2] b2]|]; [|discriminate]. injection E as <- _ _.
  rewrite concat_app. unfold those. rewrite flat_map_app, filter_app. apply Forall2_app; [exact F|exact (IH _ H2 _ _ _ eq_refl)].
Qed.
End Lemmas.

(** Whatever else came to the source, good or bad, and whatever the other series are: the sums
    that wavefront was told under the name make the total of the counts. *)
Theorem C161_statsd_exit : forall (Q : QLib) (S : Type) proc (st0 : string -> S) fint g t so ko fo tr p,
  distinct_ids g -> wire g = Going t -> main_holds g so ko fo -> prun proc st0 fint t (chores so ko fo) tr p -> returned p ->
  quiet proc st0 -> single_upstreams g -> no_drops (net_trace tr) ->
  forall named cfg now base queues ms us, (N.of_nat (List.length queues) < 2048)%N -> cfg_ok cfg -> udp_run (parse_f64 named) cfg now base ms (udp_start queues) = Some us ->
  forall u d, upstream g u d -> In d (g_sinks g) -> In u (map fst (g_natives g ++ g_sources g)) ->
  emitted u 0 (net_trace tr) = ud_sent us -> (forall k, 1 <= k -> emitted u k (net_trace tr) = []) ->
  forall name os, Forall2 (heard_as (parse_f64 named) name) (DatagramSpec.texts (List.concat (ud_calls us))) os ->
  countable (map cl_count (those (List.concat os))) ->
  forall hkind hfun show_f show_n show_z c, (forall a b, feqb a b = true -> show_f a = show_f b) -> (0 < wc_span c)%Z -> wc_age c = None ->
  wave_totals hkind hfun show_f show_n show_z c (sr_calls (n_sink (p_net p) d)) (name :: flat_tags (t_tags base)) (CountSpec.total (map cl_count (those (List.concat os)))).
Proof.
  intros Q S proc st0 fint g t so ko fo tr p Hd Hw M R E Hq Hs Hn named cfg now base queues ms us Hql Hcf Eu u d Hu Hk Hi Hem H0 name os Hh Hroom hkind hfun show_f show_n show_z c Hsame Hspan Hage.
  set (ser := name :: flat_tags (t_tags base)) in *. set (n := fun t : telemetry => match t_value t with VSum x => whole_of x | _ => 0%Z end).
  destruct (C117_sends_what_it_parses Q (parse_f64 named) cfg now base queues ms us Hql Hcf Eu) as (sent & g1 & b1 & H1 & H2 & _).
  assert (F := calls_counts named cfg now base name Hcf _ _ Hh _ _ _ H1). fold ser in F.
  assert (Ps : points_among (flat_map (fun k => emitted u k (net_trace tr)) (seq 0 1)) = sent).
  { cbn [seq flat_map]. rewrite app_nil_r, Hem, H2. unfold points_among. rewrite flat_map_app. clear. replace (flat_map _ (match ud_phase us with UEnd => [EShutdown] | _ => [] end)) with (@nil telemetry) by (destruct (ud_phase us); reflexivity).
    rewrite app_nil_r. induction sent as [|a l IH]; [reflexivity|]. cbn. f_equal. exact IH. }
  assert (Hz : Forall (fun l => (Z.abs (cl_count l) <= 2 ^ 53)%Z) (those (List.concat os))).
  { clear - Hroom. unfold countable in Hroom. revert Hroom. generalize (2 ^ 53)%Z. intros Z53. induction (those (List.concat os)) as [|l ls IH]; intros H; [constructor|]. cbn in H. pose proof (tot_abs_pos (map cl_count ls)). unfold CountSpec.total in *. constructor; [lia|apply IH; lia]. }
  assert (G : Forall2 (fun l t => t_persist t = false /\ counts_as t (cl_count l) /\ n t = cl_count l) (those (List.concat os)) (filter (of_series ser) sent)).
  { clear - F Hz. induction F as [|l t ls ts [H1 H2] _ IH]; constructor; inversion Hz; subst; [|auto]. split; [exact H1|]. split; [exact H2|]. unfold n. rewrite H2. apply whole_back. assumption. }
  assert (En : map n (filter (of_series ser) sent) = map cl_count (those (List.concat os))) by (clear - G; induction G as [|? ? ? ? (_ & _ & H) _ IH]; cbn; [reflexivity|rewrite H, IH; reflexivity]).
  assert (W : whole_counts n ser (flat_map (fun k => emitted u k (net_trace tr)) (seq 0 1))).
  { unfold whole_counts. rewrite Ps, En. split; [|exact Hroom]. intros x Hx Hsx. assert (Hf : In x (filter (of_series ser) sent)) by (apply filter_In; split; [exact Hx|apply of_series_iff; exact Hsx]).
    clear - G Hf. induction G as [|? ? ? ? (X1 & X2 & X3) _ IH]; [destruct Hf|]. destruct Hf as [<-|Hf]; [rewrite X3; auto|exact (IH Hf)]. }
  assert (X := C160_exit Q S proc st0 fint g t so ko fo tr p Hd Hw M R E Hq Hs Hn u d 1 Hu Hk Hi H0 hkind hfun show_f show_n show_z c n ser Hsame Hspan Hage). cbv zeta in X. specialize (X W).
  unfold sent_in_all in X. rewrite Ps, En in X. exact X.
Qed.

(** "a:3|c", a line that is none, a count of another name, "a:-1|c", to a source before a sink; then the signal *)
Definition c161_p (n : string) (z : Z) : @event xQ := ETelemetry (pt n (VSum (fofZ z)) false None 7).
Definition c161_moves : list umove := [UPolls [USocket 0]; UNext; UReceives UData; UReceives UData; USignalled; UReceives UData; UReceives UBlocked; UNext; UPolls [USystem]; UNext].
Definition c161_came : list datagram := [bytes_of "a:3|c"; bytes_of "oops"; bytes_of ("b:7|c" ++ nl ++ "a:-1|c")%string].
Definition c161_us : @udp xQ := Eval vm_compute in match udp_run (parse_f64 names_1_55) ParseProps.xcfg 7 xbase c161_moves (udp_start [c161_came]) with Some us => us | None => udp_start [] end.
Lemma c161_heard : udp_run (parse_f64 names_1_55) ParseProps.xcfg 7 xbase c161_moves (udp_start [c161_came]) = Some c161_us.
Proof. vm_cast_no_check (Logic.eq_refl (Some c161_us)). Qed.
Definition c161_trace : list (@label xQ) :=
  [LEmit "sources.a" 0 (c161_p "a" 3); LCopy (Src "sources.a" 0) "sinks.w" (c161_p "a" 3) true; LEmit "sources.a" 0 (c161_p "b" 7); LCopy (Src "sources.a" 0) "sinks.w" (c161_p "b" 7) true;
   LEmit "sources.a" 0 (c161_p "a" (-1)); LCopy (Src "sources.a" 0) "sinks.w" (c161_p "a" (-1)) true; LPoll "sinks.w" (c161_p "a" 3); LValve "sinks.w" true; LPoll "sinks.w" (c161_p "b" 7); LValve "sinks.w" true;
   LPoll "sinks.w" (c161_p "a" (-1)); LValve "sinks.w" true; LStop "sources.a"; LCopy (Src "sources.a" 0) "sinks.w" EShutdown true; LPoll "sinks.w" EShutdown; LValve "sinks.w" true].
Example C161_ex : distinct_ids c160_g /\ wire c160_g = Going c160_t /\ main_holds c160_g ["sources.a"] ["sinks.w"] [] /\ single_upstreams c160_g /\
  exists tr p us l1 l2, prun xpass_proc xone (fun _ => Some 1%N) c160_t (chores ["sources.a"] ["sinks.w"] []) tr p /\ returned p /\ no_drops (net_trace tr) /\
    udp_run (parse_f64 names_1_55) ParseProps.xcfg 7 xbase c161_moves (udp_start [c161_came]) = Some us /\ ud_phase us = UEnd /\
    emitted "sources.a" 0 (net_trace tr) = ud_sent us /\ (forall k, 1 <= k -> emitted "sources.a" k (net_trace tr) = []) /\
    Forall2 (heard_as (parse_f64 names_1_55) "a") (DatagramSpec.texts (List.concat (ud_calls us))) [[Some l1]; []; [None; Some l2]] /\
    map cl_count (those (List.concat [[Some l1]; []; [None; Some l2]])) = [3; -1]%Z.
Proof.
  destruct C160_ex as (X1 & X2 & X3 & X4 & _). do 4 (split; [assumption|]). clear X1 X2 X3 X4.
  assert (R := NetworkModel.run_start xpass_proc xone (fun _ => Some 1%N) c160_t).
  let ls := eval unfold c161_trace in c161_trace in net_all ls. cbn [app] in R. fold c161_trace in R.
  assert (R0 := prun_start xpass_proc xone (fun _ => Some 1%N) c160_t (chores ["sources.a"] ["sinks.w"] [])).
  eapply prun_step in R0; [|apply p_signal; reflexivity]. eapply prun_step in R0; [|apply p_tell; reflexivity]. cbn [app] in R0.
  eapply (lift xpass_proc xone (fun _ => Some 1%N) c160_t (chores ["sources.a"] ["sinks.w"] []) _ _ R0 Logic.eq_refl) with (tr := c161_trace) in R; [|split; discriminate|reflexivity|].
  2:{ intros id Hin. unfold c161_trace in Hin. repeat (destruct Hin as [Hin|Hin]; [first [discriminate Hin|injection Hin as <-; reflexivity]|]). destruct Hin. }
  eapply prun_step in R; [|eapply p_join; [reflexivity|split; reflexivity|reflexivity]].
  eapply prun_step in R; [|eapply p_join; [reflexivity|reflexivity|reflexivity]].
  rewrite <- !app_assoc in R. cbn [app] in R.
  match type of R with MainModel.prun _ _ _ _ _ ?tr ?p => exists tr, p end.
  assert (N : net_trace ([PSignal; PTell "sources.a"] ++ map PNet c161_trace ++ [PJoin (TSource "sources.a"); PJoin (TSink "sinks.w")]) = c161_trace) by reflexivity. cbn [app] in N.
  exists c161_us, (mkCount 20 "a" "3" 3), (mkCount 22 "a" "-1" (-1)). split; [exact R|]. clear R R0. split; [reflexivity|]. rewrite N.
  split; [intros u d e H; unfold c161_trace in H; repeat (destruct H as [H|H]; [discriminate H|]); exact H|].
  split; [exact c161_heard|]. split; [reflexivity|]. split; [reflexivity|]. split; [intros k Hk; destruct k as [|k]; [lia|reflexivity]|]. split; [|reflexivity].
  destruct C153_ex as (W & _). pose proof (proj1 (Forall_forall _ _) W) as W'.
  replace (DatagramSpec.texts _) with ["a:3|c"; "oops"; ("b:7|c" ++ nl ++ "a:-1|c")%string] by reflexivity.
  assert (W1 : well_written (mkCount 20 "a" "3" 3)) by (apply W'; left; reflexivity). assert (W2 : well_written (mkCount 22 "a" "-1" (-1))) by (apply W'; right; right; left; reflexivity).
  constructor; [left; split; [discriminate|constructor; [split; [reflexivity|split; [exact W1|reflexivity]]|constructor]]|].
  constructor; [right; split; [reflexivity|constructor; [|constructor]]|].
  { intros st S Hn. inversion S; subst st; cbn [st_name] in Hn; subst name; discriminate. }
  constructor; [|constructor]. left. split; [discriminate|]. constructor; [|constructor; [split; [reflexivity|split; [exact W2|reflexivity]]|constructor]].
  split; [|intros st S Hn; inversion S; subst st; cbn [st_name] in Hn; subst name; discriminate].
  exists (mkStat "b" (fofZ 7) false TCounter None). apply (says_plain _ _ "b" "7" (fofZ 7) TCounter); [discriminate|cbn; repeat split; discriminate|cbn; repeat split; discriminate|vm_compute; reflexivity|reflexivity].
Qed.
Print Assumptions C161_statsd_exit.
