(** * C165: when the process has ended, InfluxDB has taken a point for every line graphite clients wrote over their connections, each exactly once. *)
From Verif Require Import Base BaseFacts FloatFacts TelemetryModel TelemetrySpec QExample TelemetryProps BucketsModel BucketsSpec ConsoleModel ConsoleSpec ConsoleProofs FlowModel FlowSpec FlowProofs FlowProps
  TopologyModel TopologySpec TopologyProofs TopologyProps NetworkModel NetworkSpec NetworkProofs NetworkProps MainModel MainSpec MainProofs MainProps ShownSpec ShownProofs
  ParseModel ParseSpec ParseProofs ParseProps Utf8 GraphiteModel GraphiteSpec GraphiteProofs HearSpec HearProofs HearProps UnicodeSpec NumberModel NumberSpec NumberProofs NumberProps TextProps
  WavefrontModel WavefrontSpec ArriveSpec ArriveProofs ArriveProps RoundSpec WholeProps StatsdExitProps InfluxModel InfluxSpec InfluxProofs InfluxProps InfluxExitProps.
From Coq Require Import Lia Permutation.
Open Scope string_scope. Open Scope list_scope. Open Scope nat_scope.

(** what a line says: a name, a decimal number (sign, digits, exponent) and a time *)
Record said_line := mkSaid { sl_name : string; sl_neg : bool; sl_digits : Z; sl_exp : Z; sl_time : Z }.
(** [line_says l os]: the line [l] is Unicode text; it has three words, a name, a decimal number and a time, and says that; or it says nothing, having fewer words,
    or a second word that is neither a decimal number nor one of the names [named] of floats, or a third that is no integer of 64 bits. *)
Inductive line_says (named : string -> option f64) : list N -> list said_line -> Prop :=
| says_point cs name vtext ttext neg r n e z : Forall scalar cs -> splits cs [name; vtext; ttext] -> signed (str_of (encoded vtext)) neg r -> decimal r n e ->
    integer (str_of (encoded ttext)) z -> (- 2 ^ 63 <= z < 2 ^ 63)%Z -> line_says named (encoded cs) [mkSaid (str_of (encoded name)) neg n e z]
| says_nothing cs ws : Forall scalar cs -> splits cs ws -> List.length ws < 3 -> line_says named (encoded cs) []
| says_no_number cs name vtext ttext more : Forall scalar cs -> splits cs (name :: vtext :: ttext :: more) ->
    (forall neg r, signed (str_of (encoded vtext)) neg r -> named r = None /\ forall n e, ~ decimal r n e) -> line_says named (encoded cs) []
| says_no_time cs name vtext ttext more : Forall scalar cs -> splits cs (name :: vtext :: ttext :: more) ->
    (forall z, integer (str_of (encoded ttext)) z -> ~ (- 2 ^ 63 <= z < 2 ^ 63)%Z) -> line_says named (encoded cs) [].
(** the point is what was said, with the tags of the source and the float nearest to the number *)
Definition point_says `{Q : QLib} (base : telemetry) (o : said_line) (p : telemetry) : Prop :=
  t_name p = sl_name o /\ t_timestamp p = sl_time o /\ t_tags p = t_tags base /\ exists x, float_for (sl_neg o) (sl_digits o) (sl_exp o) x /\ t_value p = VSet x.

Section Lemmas.
Context `{Q : QLib}.
Lemma line_parses named (base : telemetry) l os : line_says named l os -> exists ok ps, gparse (parse_f64 named) parse_i64 str_words base l [] = PReturn ok ps /\ Forall2 (point_says base) os ps /\ (ok = false -> ps = []).
Proof.
  intros [cs name vtext ttext neg r n e z Sc Sp Sg D I R|cs ws Sc Sp L|cs name vtext ttext more Sc Sp Hv|cs name vtext ttext more Sc Sp Ht].
  - destruct (C151_graphite Q named base cs name vtext ttext neg r n e z Sc Sp Sg D I R) as (p & x & E & P1 & P2 & P3 & P4 & Hx). exists true, [p]. split; [exact E|]. split; [|discriminate].
    constructor; [|constructor]. repeat (split; [assumption|]). exists x. auto.
  - exists false, []. split; [|split; [constructor|reflexivity]]. unfold gparse. rewrite (splits_words _ _ Sp Sc). destruct ws as [|a [|b [|c ws]]]; cbn in L; [reflexivity|reflexivity|reflexivity|lia].
  - exists false, []. split; [|split; [constructor|reflexivity]]. unfold gparse. rewrite (splits_words _ _ Sp Sc). cbn [map graphite_words]. destruct (parse_f64 named _) as [x|] eqn:E; [|reflexivity]. exfalso.
    destruct (C151_only named _ x E) as (neg & r & Sg & [(n & e & D & _)|(_ & y & Y & _)]); destruct (Hv neg r Sg) as [V1 V2]; [exact (V2 n e D)|congruence].
  - exists false, []. split; [|split; [constructor|reflexivity]]. unfold gparse. rewrite (splits_words _ _ Sp Sc). cbn [map graphite_words]. destruct (parse_f64 named _) as [x|]; [|reflexivity]. destruct (parse_i64 _) as [z|] eqn:E; [|reflexivity]. exfalso.
    apply C151_integers in E as [I R]. exact (Ht z I R).
Qed.
(** what a connection sends is what the lines heard say *)
Lemma lines_parse named (base : telemetry) ls oss : Forall2 (line_says named) ls oss -> forall sent kept g b, source_loop (gparse (parse_f64 named) parse_i64 str_words base) ls [] = Some (sent, kept, g, b) ->
  Forall2 (point_says base) (List.concat oss) sent.
Proof.
  induction 1 as [|l os ls oss H _ IH]; intros sent kept g b E; cbn [source_loop List.concat] in *; [injection E as <- _ _ _; constructor|].
  destruct (line_parses named base l os H) as (ok & ps & Ep & F & Hk). rewrite Ep in E. destruct ok.
  - destruct (source_loop _ ls []) as [[[[s k] g'] b']|] eqn:E1; [|discriminate]. injection E as <- _ _ _. apply Forall2_app; [exact F|]. eapply IH. reflexivity.
  - rewrite (Hk Logic.eq_refl) in *. inversion F; subst. destruct (source_loop _ ls []) as [[[[s k] g'] b']|] eqn:E1; [|discriminate]. injection E as <- _ _ _. eapply IH. reflexivity.
Qed.
Lemma points_flat {A} (f : A -> list event) l : points_among (flat_map f l) = flat_map (fun a => points_among (f a)) l.
Proof. induction l as [|a l IH]; [reflexivity|]. cbn. unfold points_among in *. rewrite flat_map_app, IH. reflexivity. Qed.
End Lemmas.

(** A connection over which the lines [ls] are heard sends exactly what they say, in their order. *)
Theorem C165_connection : forall (Q : QLib) named (base : telemetry) ws ls part left oss, hearing false [] [] ws ls part left -> Forall2 (line_says named) ls oss ->
  Forall2 (point_says base) (List.concat oss) (g_sent (graphite_run (parse_f64 named) parse_i64 str_words base ws)).
Proof.
  intros Q named base ws ls part left oss H F. destruct (C88_exact Q (parse_f64 named) parse_i64 str_words base ws ls part left H) as (sent & kept & g & b & L & Es & _). rewrite Es. exact (lines_parse named base ls oss F _ _ _ _ L).
Qed.
(** When main has returned, no queue having been full, the InfluxDB server has taken exactly what the lines of all connections say, each once. *)
Theorem C165_exit : forall (Q : QLib) (S : Type) proc (st0 : string -> S) fint g t so ko fo tr p,
  distinct_ids g -> wire g = Going t -> main_holds g so ko fo -> prun proc st0 fint t (chores so ko fo) tr p -> returned p ->
  quiet proc st0 -> single_upstreams g -> no_drops (net_trace tr) ->
  forall u d K, upstream g u d -> In d (g_sinks g) -> In u (map fst (g_natives g ++ g_sources g)) -> (forall k, K <= k -> emitted u k (net_trace tr) = []) ->
  forall named base (came : nat -> list gwake) (heard : nat -> list (list N)) (said : nat -> list (list said_line)),
  (forall k, k < K -> points_among (emitted u k (net_trace tr)) = g_sent (graphite_run (parse_f64 named) parse_i64 str_words base (came k))) ->
  (forall k, k < K -> (exists part left, hearing false [] [] (came k) (heard k) part left) /\ Forall2 (line_says named) (heard k) (said k)) ->
  forall show_f show_n tags, shows show_f ->
  exists ts ps, influx_gave show_f show_n tags (sr_calls (n_sink (p_net p) d)) ts /\ Permutation ts ps /\
    Forall2 (point_says base) (flat_map (fun k => List.concat (said k)) (seq 0 K)) ps.
Proof.
  intros Q S proc st0 fint g t so ko fo tr p Hd Hw M R E Hq Hs Hn u d K Hu Hk Hi H0 named base came heard said He Hh show_f show_n tags Hsh.
  destruct (C163_threads Q S proc st0 fint g t so ko fo tr p Hd Hw M R E Hq Hs Hn u d K Hu Hk Hi H0 show_f show_n tags Hsh) as (ts & P & G).
  rewrite points_flat in P. eexists ts, _. split; [exact G|]. split; [exact P|].
  assert (X : forall l, (forall k, In k l -> k < K) -> Forall2 (point_says base) (flat_map (fun k => List.concat (said k)) l) (flat_map (fun k => points_among (emitted u k (net_trace tr))) l)).
  { induction l as [|k l IH]; intros Hl; cbn [flat_map]; [constructor|]. apply Forall2_app; [|apply IH; intros j Hj; apply Hl; right; exact Hj].
    assert (Kk : k < K) by (apply Hl; left; reflexivity). rewrite (He k Kk). destruct (Hh k Kk) as ((part & left & Hr) & F). exact (C165_connection Q named base _ _ part left _ Hr F). }
  apply X. intros k Hin. apply in_seq in Hin. lia.
Qed.
(** Two clients: one writes a line, and a word cut in two; the other a line.  Both are taken once main has returned. *)
Definition c165_p (n : string) (z : Z) : @event xQ := ETelemetry (pt n (VSet (fofZ z)) false None 7).
Definition c165_k : list N := [107; 32; 51; 32; 55; 10]%N.
Definition c165_j : list N := [106; 32; 45; 52; 32; 55; 10]%N.
Definition c165_o : list N := [111; 111; 112; 115; 10]%N.
Definition c165_came (k : nat) : list gwake := match k with 0 => [GData (c165_k ++ [111; 111]%N); GData [112; 115; 10]%N] | 1 => [GData c165_j] | _ => [] end.
Definition c165_heard (k : nat) : list (list N) := match k with 0 => [c165_k; c165_o] | 1 => [c165_j] | _ => [] end.
Definition c165_said (k : nat) : list (list said_line) := match k with 0 => [[mkSaid "k" false 3 0 7]; []] | 1 => [[mkSaid "j" true 4 0 7]] | _ => [] end.
Definition c165_trace : list (@label xQ) :=
  [LEmit "sources.a" 1 (c165_p "j" (-4)); LEmit "sources.a" 0 (c165_p "k" 3); LCopy (Src "sources.a" 0) "sinks.w" (c165_p "k" 3) true; LCopy (Src "sources.a" 1) "sinks.w" (c165_p "j" (-4)) true;
   LPoll "sinks.w" (c165_p "k" 3); LValve "sinks.w" true; LPoll "sinks.w" (c165_p "j" (-4)); LValve "sinks.w" true;
   LStop "sources.a"; LCopy (Src "sources.a" 0) "sinks.w" EShutdown true; LPoll "sinks.w" EShutdown; LValve "sinks.w" true].
Lemma c165_says k : Forall2 (line_says names_1_55) (c165_heard k) (c165_said k).
Proof.
  assert (N : forall c, (45 <= c <= 120)%N -> ~ white c) by (intros c Hc [X|[X|X]]; [lia|lia|cbn in X; lia]).
  assert (W : forall d, (0 <= d <= 9)%Z -> written (String (ascii_of_N (Z.to_N (48 + d))) "") (d * 1 + 0)) by (intros d Hd; apply (wr_digit d "" 0 Hd); constructor).
  assert (Sp : Forall white [32]%N) by (constructor; [right; right; cbn; tauto|constructor]).
  assert (T : integer "7" 7) by (exists false, "7", 7%Z; split; [constructor; split; discriminate|]; split; [discriminate|]; split; [apply (W 7%Z); lia|reflexivity]).
  destruct k as [|[|k]]; [| |constructor].
  - constructor; [|constructor; [|constructor]].
    + apply (says_point names_1_55 c165_k [107]%N [51]%N [55]%N false "3" 3 0 7); [repeat constructor; unfold scalar; lia| |constructor; split; discriminate|apply (dec_whole "3" "" 3 0); [discriminate|apply (W 3%Z); lia|constructor]|exact T|lia].
      apply (sp_word [] [107]%N [32; 51; 32; 55; 10]%N); [constructor|discriminate|repeat constructor; apply N; lia|right; eexists _, _; split; [reflexivity|right; right; cbn; tauto]|].
      apply (sp_word [32]%N [51]%N [32; 55; 10]%N); [exact Sp|discriminate|repeat constructor; apply N; lia|right; eexists _, _; split; [reflexivity|right; right; cbn; tauto]|].
      apply (sp_word [32]%N [55]%N [10]%N); [exact Sp|discriminate|repeat constructor; apply N; lia|right; eexists _, _; split; [reflexivity|left; lia]|]. constructor. constructor; [left; lia|constructor].
    + apply (says_nothing names_1_55 c165_o [[111; 111; 112; 115]%N]); [repeat constructor; unfold scalar; lia| |cbn; lia].
      apply (sp_word [] [111; 111; 112; 115]%N [10]%N); [constructor|discriminate|repeat constructor; apply N; lia|right; eexists _, _; split; [reflexivity|left; lia]|]. constructor. constructor; [left; lia|constructor].
  - constructor; [|constructor].
    apply (says_point names_1_55 c165_j [106]%N [45; 52]%N [55]%N true "4" 4 0 7); [repeat constructor; unfold scalar; lia| |constructor|apply (dec_whole "4" "" 4 0); [discriminate|apply (W 4%Z); lia|constructor]|exact T|lia].
    apply (sp_word [] [106]%N [32; 45; 52; 32; 55; 10]%N); [constructor|discriminate|repeat constructor; apply N; lia|right; eexists _, _; split; [reflexivity|right; right; cbn; tauto]|].
    apply (sp_word [32]%N [45; 52]%N [32; 55; 10]%N); [exact Sp|discriminate|repeat constructor; apply N; lia|right; eexists _, _; split; [reflexivity|right; right; cbn; tauto]|].
    apply (sp_word [32]%N [55]%N [10]%N); [exact Sp|discriminate|repeat constructor; apply N; lia|right; eexists _, _; split; [reflexivity|left; lia]|]. constructor. constructor; [left; lia|constructor].
Qed.
Lemma c165_hears k : exists part left, hearing false [] [] (c165_came k) (c165_heard k) part left.
Proof.
  assert (G : forall a, (forall c, In c a -> c <> 10%N) -> gline (a ++ [10]%N)) by (intros a Ha; exists a; split; [reflexivity|intros X; exact (Ha _ X Logic.eq_refl)]).
  destruct k as [|[|k]]; exists [], []; [| |constructor].
  - apply (hg_data false [] [] _ _ [c165_k] [c165_o] [111; 111]%N []).
    + apply (h_line false [] c165_k [111; 111]%N); [apply (G [107; 32; 51; 32; 55]%N); cbn; intros c Hc; lia|reflexivity|]. apply (h_part false [] [111; 111]%N); [discriminate|cbn; intuition discriminate|reflexivity|reflexivity].
    + apply (hg_data false [111; 111]%N [] _ _ [c165_o] [] [] []); [|constructor]. apply (h_line false [111; 111]%N [112; 115; 10]%N []); [apply (G [112; 115]%N); cbn; intros c Hc; lia|reflexivity|constructor].
  - apply (hg_data false [] [] _ _ [c165_j] [] [] []); [|constructor]. apply (h_line false [] c165_j []); [apply (G [106; 32; 45; 52; 32; 55]%N); cbn; intros c Hc; lia|reflexivity|constructor].
Qed.
Lemma c165_sends : points_among [c165_p "k" 3] = g_sent (graphite_run (parse_f64 names_1_55) parse_i64 str_words xbase (c165_came 0)) /\
  points_among [c165_p "j" (-4)] = g_sent (graphite_run (parse_f64 names_1_55) parse_i64 str_words xbase (c165_came 1)).
Proof. split; [vm_cast_no_check (Logic.eq_refl (points_among [c165_p "k" 3]))|vm_cast_no_check (Logic.eq_refl (points_among [c165_p "j" (-4)]))]. Qed.
Example C165_ex : distinct_ids c160_g /\ wire c160_g = Going c160_t /\ main_holds c160_g ["sources.a"] ["sinks.w"] [] /\ single_upstreams c160_g /\
  exists tr p, prun xpass_proc xone (fun _ => Some 1%N) c160_t (chores ["sources.a"] ["sinks.w"] []) tr p /\ returned p /\ no_drops (net_trace tr) /\
    (forall k, 2 <= k -> emitted "sources.a" k (net_trace tr) = []) /\
    (forall k, k < 2 -> points_among (emitted "sources.a" k (net_trace tr)) = g_sent (graphite_run (parse_f64 names_1_55) parse_i64 str_words xbase (c165_came k))) /\
    (forall k, k < 2 -> (exists part left, hearing false [] [] (c165_came k) (c165_heard k) part left) /\ Forall2 (line_says names_1_55) (c165_heard k) (c165_said k)).
Proof.
  destruct C160_ex as (X1 & X2 & X3 & X4 & _). do 4 (split; [assumption|]). clear X1 X2 X3 X4.
  assert (R := NetworkModel.run_start xpass_proc xone (fun _ => Some 1%N) c160_t).
  let ls := eval unfold c165_trace in c165_trace in net_all ls. cbn [app] in R. fold c165_trace in R.
  assert (R0 := prun_start xpass_proc xone (fun _ => Some 1%N) c160_t (chores ["sources.a"] ["sinks.w"] [])).
  eapply prun_step in R0; [|apply p_signal; reflexivity]. eapply prun_step in R0; [|apply p_tell; reflexivity]. cbn [app] in R0.
  eapply (lift xpass_proc xone (fun _ => Some 1%N) c160_t (chores ["sources.a"] ["sinks.w"] []) _ _ R0 Logic.eq_refl) with (tr := c165_trace) in R; [|split; discriminate|reflexivity|].
  2:{ intros id Hin. unfold c165_trace in Hin. repeat (destruct Hin as [Hin|Hin]; [first [discriminate Hin|injection Hin as <-; reflexivity]|]). destruct Hin. }
  eapply prun_step in R; [|eapply p_join; [reflexivity|split; reflexivity|reflexivity]].
  eapply prun_step in R; [|eapply p_join; [reflexivity|reflexivity|reflexivity]].
  rewrite <- !app_assoc in R. cbn [app] in R.
  match type of R with MainModel.prun _ _ _ _ _ ?tr ?p => exists tr, p end.
  assert (N : net_trace ([PSignal; PTell "sources.a"] ++ map PNet c165_trace ++ [PJoin (TSource "sources.a"); PJoin (TSink "sinks.w")]) = c165_trace) by reflexivity. cbn [app] in N.
  split; [exact R|]. clear R R0. split; [reflexivity|]. rewrite N.
  split; [intros u d e H; unfold c165_trace in H; repeat (destruct H as [H|H]; [discriminate H|]); exact H|].
  split; [intros k Hk; destruct k as [|[|k]]; [lia|lia|reflexivity]|].
  split; [intros k Hk; destruct k as [|[|k]]; [exact (proj1 c165_sends)|exact (proj2 c165_sends)|lia]|].
  intros k _. split; [apply c165_hears|apply c165_says].
Qed.
(** "k 3 +" and "k + 7" say nothing *)
Example C165_ex_nothing : line_says names_1_55 [107; 32; 51; 32; 43; 10]%N [] /\ line_says names_1_55 [107; 32; 43; 32; 55; 10]%N [].
Proof.
  assert (N : forall c, (43 <= c <= 120)%N -> ~ white c) by (intros c Hc [X|[X|X]]; [lia|lia|cbn in X; lia]).
  assert (Sp : Forall white [32]%N) by (constructor; [right; right; cbn; tauto|constructor]).
  assert (W : forall v t, (43 <= v <= 120)%N -> (43 <= t <= 120)%N -> splits [107; 32; v; 32; t; 10]%N [[107]; [v]; [t]]%N).
  { intros v t Hv Ht. apply (sp_word [] [107]%N [32; v; 32; t; 10]%N); [constructor|discriminate|repeat constructor; apply N; lia|right; eexists _, _; split; [reflexivity|right; right; cbn; tauto]|].
    apply (sp_word [32]%N [v]%N [32; t; 10]%N); [exact Sp|discriminate|repeat constructor; apply N; lia|right; eexists _, _; split; [reflexivity|right; right; cbn; tauto]|].
    apply (sp_word [32]%N [t]%N [10]%N); [exact Sp|discriminate|repeat constructor; apply N; lia|right; eexists _, _; split; [reflexivity|left; lia]|]. constructor. constructor; [left; lia|constructor]. }
  assert (P : forall neg r, signed "+" neg r -> r = "") by (intros neg r H; inversion H as [| |r0 Hr]; subst; [reflexivity|destruct (Hr "") as [X _]; congruence]).
  split.
  - apply (says_no_time names_1_55 [107; 32; 51; 32; 43; 10]%N [107]%N [51]%N [43]%N []); [repeat constructor; unfold scalar; lia|apply W; lia|]. intros z (neg & a & n & Sg & Ha & _). exfalso. apply Ha. exact (P neg a Sg).
  - apply (says_no_number names_1_55 [107; 32; 43; 32; 55; 10]%N [107]%N [43]%N [55]%N []); [repeat constructor; unfold scalar; lia|apply W; lia|]. intros neg r Sg. rewrite (P neg r Sg). split; [reflexivity|].
    intros n e D. apply decimal_spec in D. discriminate D.
Qed.
Print Assumptions C165_connection.
Print Assumptions C165_exit.
