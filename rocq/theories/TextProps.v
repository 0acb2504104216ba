(** * C154: what a client writes is what a server gets. *)
From Verif Require Import Base BaseFacts Utf8 UnicodeSpec TelemetryModel TelemetrySpec QExample TelemetryProps ParseModel ParseSpec ParseProofs ParseProps RoundSpec NumberModel NumberSpec NumberProofs NumberProps
  AcceptModel DatagramModel DatagramSpec DatagramProofs DatagramProps GraphiteModel GraphiteSpec GraphiteProofs HearSpec HearProofs HearProps FileModel FileSpec FileProps
  FlowModel FlowSpec TopologyModel TopologySpec NetworkModel NetworkSpec LiveSpec PulseSpec PulseProps
  ElasticModel ElasticSpec WavefrontModel WavefrontSpec WavefrontProofs CacheModel CacheProofs InfluxModel InfluxSpec InfluxProofs InfluxProps ArriveSpec ArriveProofs ArriveProps TextSpec.
From Coq Require Import Lia.
Open Scope string_scope. Open Scope list_scope. Open Scope nat_scope.

(** ** What the sources send *)
Lemma loop_sends {Q : QLib} {A} (parse : A -> list telemetry -> pout) src pts : (forall res, parse src res = PReturn true (res ++ pts)) ->
  forall ps res sent kept g b, In src ps -> source_loop parse ps res = Some (sent, kept, g, b) -> incl pts sent.
Proof.
  intros H. induction ps as [|x ps IH]; intros res sent kept g b Hin E; [destruct Hin|]. cbn [source_loop] in E. destruct Hin as [->|Hin].
  - rewrite H in E. destruct (source_loop parse ps []) as [[[[s k] gg] bb]|]; [|discriminate]. injection E as <- <- <- <-. intros t Ht. apply in_or_app. left. apply in_or_app. auto.
  - destruct (parse x res) as [[|] r|]; [| |discriminate].
    + destruct (source_loop parse ps []) as [[[[s k] gg] bb]|] eqn:E1; [|discriminate]. injection E as <- <- <- <-. intros t Ht. apply in_or_app. right. eapply IH; eauto.
    + destruct (source_loop parse ps r) as [[[[s k] gg] bb]|] eqn:E1; [|discriminate]. injection E as <- <- <- <-. eapply IH; eauto.
Qed.
Lemma statsd_any {Q : QLib} pf cfg now base src t : parse_statsd pf cfg now base src [] = PReturn true [t] -> forall res, parse_statsd pf cfg now base src res = PReturn true (res ++ [t]).
Proof.
  unfold parse_statsd. intros E res. rewrite statsd_loop_res, E. destruct (ParseModel.lines src) eqn:L; [|reflexivity]. cbn in E. discriminate.
Qed.
Lemma graphite_any {Q : QLib} pf pi words base l t : gparse pf pi words base l [] = PReturn true [t] -> forall res, gparse pf pi words base l res = PReturn true (res ++ [t]).
Proof.
  unfold gparse. intros E res. rewrite graphite_res, E. destruct (words l) eqn:L; [|reflexivity]. cbn in E. discriminate.
Qed.
(** a counter or gauge in a datagram the statsd source has read is sent as the point it says, whatever other datagrams are *)
Theorem C154_statsd_sends : forall (Q : QLib) named cfg now base queues ms s, (N.of_nat (List.length queues) < 2048)%N -> cfg_ok cfg ->
  udp_run (parse_f64 named) cfg now base ms (udp_start queues) = Some s ->
  forall j dg name vtext neg r n e (counter : bool), name <> "" -> free_of ":" name -> free_of "|" vtext -> signed vtext neg r -> decimal r n e ->
  let src := ParseSpec.line_text name vtext (if counter then TCounter else TGauge) None in
  ParseModel.lines src = [src] -> In (j, dg) (List.concat (ud_calls s)) -> utf8 (DatagramModel.received dg) = true -> text (DatagramModel.received dg) = src ->
  exists x p, float_for neg n e x /\ In (ETelemetry p) (ud_sent s) /\ t_name p = name /\ t_timestamp p = now /\ t_tags p = t_tags base /\
    t_value p = if counter then VSum x else if explicitly_signed vtext then VSum x else VSet x.
Proof.
  intros Q named cfg now base queues ms s Hn Hc E j dg name vtext neg r n e counter N1 N2 N3 Sg D src El Hin Hu Ht.
  destruct (C151_statsd Q named cfg now base name vtext neg r n e Hc N1 N2 N3 Sg D) as (x & Hx & G). destruct (G counter El) as (p & Ep & P1 & P2 & P3 & P4). fold src in Ep.
  exists x, p. split; [exact Hx|]. split; [|auto]. destruct (C117_sends_what_it_parses Q (parse_f64 named) cfg now base queues ms s Hn Hc E) as (sent & g & b & H1 & H2 & _). rewrite H2. apply in_or_app. left. apply in_map.
  assert (In src (DatagramSpec.texts (List.concat (ud_calls s)))) as Hs. { apply in_flat_map. exists (j, dg). split; [exact Hin|]. cbn [snd]. rewrite Hu, Ht. left. reflexivity. }
  clear - Hs H1 Ep. revert sent g b H1 Hs. generalize (ud_calls s). induction l as [|c l IH]; intros sent g b H1 Hs; [destruct Hs|]. cbn [calls_send] in H1. cbn [List.concat] in Hs.
  unfold DatagramSpec.texts in Hs. rewrite flat_map_app in Hs. destruct (call_sends (parse_f64 named) cfg now base c) as [[[[s1 k1] g1] b1]|] eqn:E1; [|discriminate]. destruct (calls_send (parse_f64 named) cfg now base l) as [[[s2 g2] b2]|] eqn:E2; [|discriminate].
  injection H1 as <- <- <-. apply in_or_app. apply in_app_or in Hs as [Hs|Hs].
  - left. eapply (loop_sends _ src [p] (statsd_any _ _ _ _ _ _ Ep)); [|exact E1|left; reflexivity]. exact Hs.
  - right. eapply IH; [reflexivity|exact Hs].
Qed.
(** a line heard over a graphite connection is sent as the point it says, whatever other lines are *)
Theorem C154_graphite_sends : forall (Q : QLib) named (base : telemetry) ws ls part left, hearing false [] [] ws ls part left ->
  forall cs name vtext ttext neg r n e z, In (encoded cs) ls -> Forall scalar cs -> splits cs [name; vtext; ttext] ->
  signed (str_of (encoded vtext)) neg r -> decimal r n e -> integer (str_of (encoded ttext)) z -> (- 2 ^ 63 <= z < 2 ^ 63)%Z ->
  exists x p, float_for neg n e x /\ In p (g_sent (graphite_run (parse_f64 named) parse_i64 str_words base ws)) /\
    t_name p = str_of (encoded name) /\ t_timestamp p = z /\ t_tags p = t_tags base /\ t_value p = VSet x.
Proof.
  intros Q named base ws ls part left H cs name vtext ttext neg r n e z Hin Sc Sp Sg D I R.
  destruct (C151_graphite Q named base cs name vtext ttext neg r n e z Sc Sp Sg D I R) as (p & x & Ep & P1 & P2 & P3 & P4 & Hx). exists x, p. split; [exact Hx|]. split; [|auto].
  destruct (C88_exact Q (parse_f64 named) parse_i64 str_words base ws ls part left H) as (sent & kept & g & b & L & Es & _). rewrite Es.
  eapply (loop_sends _ (encoded cs) [p] (graphite_any _ _ _ _ _ _ Ep)); [exact Hin|exact L|left; reflexivity].
Qed.

(** ** What InfluxDB takes *)
Definition ends (l : string) : Prop := exists l', l = (l' ++ nl)%string.
Lemma texts_ends L : Forall ends L -> WavefrontSpec.texts L = "" \/ ends (WavefrontSpec.texts L).
Proof.
  induction 1 as [|x L (x' & ->) _ IH]; [left; reflexivity|right]. rewrite texts_cons. destruct IH as [->|(l' & ->)].
  - exists x'. apply sapp_nil.
  - exists ((x' ++ nl) ++ l')%string. symmetry. apply sapp_assoc.
Qed.
Lemma texts_line L line : Forall ends L -> In line L -> has_line (WavefrontSpec.texts L) line.
Proof.
  intros F Hin. apply in_split in Hin as (a & b & ->). apply Forall_app in F as [Fa _]. exists (WavefrontSpec.texts a), (WavefrontSpec.texts b).
  rewrite texts_app, texts_cons. split; [reflexivity|]. apply texts_ends. exact Fa.
Qed.
Lemma all3_in {A B C} (P : A -> B -> C -> Prop) la lb lc : all3 P la lb lc -> forall a, In a la -> exists k b c, nth_error lb k = Some b /\ nth_error lc k = Some c /\ P a b c.
Proof.
  induction 1 as [|a b c la lb lc H _ IH]; intros x Hx; [destruct Hx|]. destruct Hx as [<-|Hx]; [exists 0, b, c; auto|]. destruct (IH x Hx) as (k & b' & c' & H1 & H2 & H3). exists (Datatypes.S k), b', c'. auto.
Qed.
(** the lines of the points given are taken *)
Lemma gives_takes {Q : QLib} show_f show_n tags cs ts p m : influx_gives show_f show_n tags cs ts -> In p ts -> In m (measurements show_f p) ->
  influx_takes show_f show_n tags cs (influx_line show_f show_n (tag_iter (t_tags p) tags) (i_time (t_timestamp p)) m).
Proof.
  intros G Hp Hm os c s c' posts D R. destruct (G os c s c' posts D R) as (batches & more & A & E).
  assert (Hb : In p (List.concat batches)) by (rewrite E; apply in_or_app; auto). apply in_concat in Hb as (b & Hb & Hpb).
  destruct (all3_in _ _ _ _ A b Hb) as (k & ps & ans & H1 & H2 & Fp & before & code & after & -> & Hc & _ & Hl).
  destruct (nth_error ps (List.length before)) as [[body pause]|] eqn:En; [|apply nth_error_None in En; lia].
  exists k, ps, before, code, after, body, pause. do 4 (split; [assumption|]). rewrite Forall_forall in Fp. specialize (Fp _ (nth_error_In _ _ En)). cbn [fst] in Fp. subst body. unfold influx_text. apply texts_line.
  - apply Forall_forall. intros l Hl2. apply in_flat_map in Hl2 as (t & _ & Ht). apply in_map_iff in Ht as (mm & <- & _). unfold influx_line, ends. exists (head_text (fst mm) (tag_iter (t_tags t) tags) ++ " value=" ++ show_f (snd mm) ++ " " ++ show_n (i_time (t_timestamp t)))%string. rewrite !sapp_assoc. reflexivity.
  - apply in_flat_map. exists p. split; [exact Hpb|]. apply in_map. exact Hm.
Qed.
Lemma asked {Q : QLib} render uuid_str limit prefix ty tags cs time path payload : tm_get "path" tags = None -> tm_get "payload" tags = None ->
  elastic_offers render uuid_str limit prefix ty tags cs (mkLog time path payload [] None) -> elastic_asks render uuid_str limit prefix ty tags cs path payload.
Proof.
  intros T1 T2 O os e log D R. destruct (O os e log D R) as (u & req & ans & a & day & full & _ & H1 & H2 & _ & _ & _ & _ & H). exists req, ans, a. do 2 (split; [assumption|]).
  rewrite !H. unfold es_doc_value. cbn [l_fields l_tags tm_get alookup otag]. split.
  - cbn. rewrite T1. reflexivity.
  - cbn. rewrite T2. reflexivity.
Qed.

(** ** From end to end *)
(** A counter or gauge in a datagram of a statsd source is taken by the InfluxDB server of a sink it leads to, as a line with its name and the float
    nearest to its number; unless a thread on the way stopped or the pulses overflow. *)
Theorem C154_statsd_influx : forall (Q : QLib) (S : Type) proc (st0 : string -> S) fint g t x l, distinct_ids g -> wire g = Going t -> execution proc st0 fint t x l -> fair g x l -> timer_goes l -> all_kept l ->
  forall named cfg now base queues ms s, (N.of_nat (List.length queues) < 2048)%N -> cfg_ok cfg -> udp_run (parse_f64 named) cfg now base ms (udp_start queues) = Some s ->
  forall show_f show_n tags id th i via d k, shows show_f -> In id (map fst (g_natives g ++ g_sources g)) -> emitted id th (before l i) = ud_sent s ->
  way g id via d -> In d (g_sinks g) -> (forall p, Forall (passes proc (ETelemetry p)) via) -> handed proc st0 g d -> fint d = Some k ->
  forall j dg name vtext neg r n e (counter : bool), name <> "" -> free_of ":" name -> free_of "|" vtext -> signed vtext neg r -> decimal r n e ->
  let src := ParseSpec.line_text name vtext (if counter then TCounter else TGauge) None in
  ParseModel.lines src = [src] -> In (j, dg) (List.concat (ud_calls s)) -> utf8 (DatagramModel.received dg) = true -> text (DatagramModel.received dg) = src ->
  exists y, float_for neg n e y /\ exists m, i <= m /\ ((exists v, In v (via ++ [d]) /\ halted g (x m) v) \/ (2 ^ 64 <= N.max 1 k * (N.of_nat (pulses (before l m)) + 1))%N \/
    influx_takes show_f show_n tags (sr_calls (n_sink (x m) d)) (influx_line show_f show_n (tag_iter (t_tags base) tags) (i_time now) (name, y))).
Proof.
  intros Q S proc st0 fint g t x l Hd Hw Hx F T K named cfg now base queues ms s Hn Hc E show_f show_n tags id th i via d k Hsh Hid Hem Hwy Hk Hp Hh Hfi j dg name vtext neg r n e counter N1 N2 N3 Sg D src El Hin Hu Ht.
  destruct (C154_statsd_sends Q named cfg now base queues ms s Hn Hc E j dg name vtext neg r n e counter N1 N2 N3 Sg D El Hin Hu Ht) as (y & p & Hy & Hs & P1 & P2 & P3 & P4).
  exists y. split; [exact Hy|]. rewrite <- Hem in Hs. destruct (C139_end_to_end Q S proc st0 fint g t x l Hd Hw Hx F T K show_f show_n tags id th i p via d k Hsh Hid Hs Hwy Hk (Hp p) Hh Hfi) as (m & Hm & [H|[H|(ts & H1 & H2)]]); exists m; (split; [exact Hm|]); auto.
  right. right. rewrite <- P2, <- P3. eapply gives_takes; [exact H2|exact H1|]. unfold measurements. rewrite P4, <- P1. destruct counter; [|destruct (explicitly_signed vtext)]; left; reflexivity.
Qed.
(** and so is a line over a connection of a graphite source, with its own time *)
Theorem C154_graphite_influx : forall (Q : QLib) (S : Type) proc (st0 : string -> S) fint g t x l, distinct_ids g -> wire g = Going t -> execution proc st0 fint t x l -> fair g x l -> timer_goes l -> all_kept l ->
  forall named (base : telemetry) ws ls part left, hearing false [] [] ws ls part left ->
  forall show_f show_n tags id th i via d k, shows show_f -> In id (map fst (g_natives g ++ g_sources g)) ->
  emitted id th (before l i) = map ETelemetry (g_sent (graphite_run (parse_f64 named) parse_i64 str_words base ws)) ->
  way g id via d -> In d (g_sinks g) -> (forall p, Forall (passes proc (ETelemetry p)) via) -> handed proc st0 g d -> fint d = Some k ->
  forall cs name vtext ttext neg r n e z, In (encoded cs) ls -> Forall scalar cs -> splits cs [name; vtext; ttext] ->
  signed (str_of (encoded vtext)) neg r -> decimal r n e -> integer (str_of (encoded ttext)) z -> (- 2 ^ 63 <= z < 2 ^ 63)%Z ->
  exists y, float_for neg n e y /\ exists m, i <= m /\ ((exists v, In v (via ++ [d]) /\ halted g (x m) v) \/ (2 ^ 64 <= N.max 1 k * (N.of_nat (pulses (before l m)) + 1))%N \/
    influx_takes show_f show_n tags (sr_calls (n_sink (x m) d)) (influx_line show_f show_n (tag_iter (t_tags base) tags) (i_time z) (str_of (encoded name), y))).
Proof.
  intros Q S proc st0 fint g t x l Hd Hw Hx F T K named base ws ls part left H show_f show_n tags id th i via d k Hsh Hid Hem Hwy Hk Hp Hh Hfi cs name vtext ttext neg r n e z Hin Sc Sp Sg D I R.
  destruct (C154_graphite_sends Q named base ws ls part left H cs name vtext ttext neg r n e z Hin Sc Sp Sg D I R) as (y & p & Hy & Hs & P1 & P2 & P3 & P4).
  exists y. split; [exact Hy|]. apply (in_map ETelemetry) in Hs. rewrite <- Hem in Hs. destruct (C139_end_to_end Q S proc st0 fint g t x l Hd Hw Hx F T K show_f show_n tags id th i p via d k Hsh Hid Hs Hwy Hk (Hp p) Hh Hfi) as (m & Hm & [H0|[H0|(ts & H1 & H2)]]); exists m; (split; [exact Hm|]); auto.
  right. right. rewrite <- P1, <- P2, <- P3. eapply gives_takes; [exact H2|exact H1|]. unfold measurements. rewrite P4. left. reflexivity.
Qed.
(** Of a file that is watched from the start and only appended complete lines to: every line that the rounds of the file source took, is not empty and is UTF-8
    is asked to be stored by the elasticsearch sink it leads to, with the path of the file and its text. *)
Theorem C154_file_elastic : forall (Q : QLib) (S : Type) proc (st0 : string -> S) fint g t x l, distinct_ids g -> wire g = Going t -> execution proc st0 fint t x l -> fair g x l -> timer_goes l -> all_kept l ->
  forall cap max found order rs w p f ls s' w', 0 < cap -> some_order order -> Forall (fun fo => some_order (snd fo)) rs -> In p found -> stays p f w -> lines_only f w ->
  rounds cap utf8 max ((found, order) :: rs) server_init w = (ls, s', w') ->
  forall render uuid_str limit prefix ty tags id th i via d k, tm_ok tags -> tm_get "path" tags = None -> tm_get "payload" tags = None ->
  In id (map fst (g_natives g ++ g_sources g)) -> file_events (emitted id th (before l i)) ls ->
  way g id via d -> In d (g_sinks g) -> (forall ln, Forall (passes proc (ELog ln)) via) -> handed proc st0 g d -> fint d = Some k ->
  exists missed taken left, files w' f = files w f ++ unlines (missed ++ taken ++ left) /\ (exists v, alookup seqb p (s_map s') = Some v /\ unread v w' = unlines left) /\
  forall ln, In ln taken -> ln <> [] -> utf8 (ln ++ [10%N]) = true ->
  exists m, i <= m /\ ((exists v, In v (via ++ [d]) /\ halted g (x m) v) \/ (2 ^ 64 <= N.max 1 k * (N.of_nat (pulses (before l m)) + 1))%N \/
    elastic_asks render uuid_str limit prefix ty tags (sr_calls (n_sink (x m) d)) p (text ln)).
Proof.
  intros Q S proc st0 fint g t x l Hd Hw Hx F T K cap max found order rs w p f ls s' w' H1 H2 H3 H4 H5 H6 E render uuid_str limit prefix ty tags id th i via d k Ht T1 T2 Hid Hem Hwy Hk Hp Hh Hfi.
  destruct (C55_from_start cap utf8 max found order rs w p f ls s' w' H1 H2 H3 H4 H5 H6 E) as (missed & taken & left & G1 & G2 & G3). exists missed, taken, left. split; [exact G1|]. split; [exact G3|].
  intros ln Hin Hne Hu. assert (Hg : In ln (good utf8 taken)) by (apply filter_In; split; [exact Hin|]; destruct ln; [congruence|exact Hu]).
  rewrite <- G2 in Hg. unfold sent_for in Hg. apply in_map_iff in Hg as ([p' ln'] & E1 & Hf). cbn in E1. subst ln'. apply filter_In in Hf as [Hf E2]. cbn in E2. apply seqb_eq in E2. subst p'.
  assert (He : exists time, In (ELog (mkLog time p (text ln) [] None)) (emitted id th (before l i))).
  { clear - Hem Hf. induction Hem as [|e pl es ls (time & ->) _ IH]; [destruct Hf|]. destruct Hf as [->|Hf]; [exists time; left; reflexivity|]. destruct (IH Hf) as (t0 & ?). exists t0. right. assumption. }
  destruct He as (time & He).
  destruct (C140_end_to_end Q S proc st0 fint g t x l Hd Hw Hx F T K render uuid_str limit prefix ty tags id th i (mkLog time p (text ln) [] None) via d k Ht) as (m & Hm & [H|[H|H]]); auto; [split; [constructor|exact Logic.I]|..]; exists m; (split; [exact Hm|]); auto.
  right. right. eapply asked; eassumption.
Qed.

(** ** Examples *)
Example C154_ex_statsd :
  option_map (fun s => (List.concat (ud_calls s), map (fun e => match e with ETelemetry t => Some (t_name t, t_sum t) | _ => None end) (ud_sent s)))
    (udp_run (parse_f64 names_1_55) xcfg 7 xbase [UPolls [USocket 0]; UNext; UReceives UData; UReceives UData; UReceives UBlocked; UNext] (udp_start [[bytes_of "x:15e-1|c"; bytes_of "oops"]])) =
  Some ([(0, bytes_of "x:15e-1|c"); (0, bytes_of "oops")], [Some ("x", Some (S754_finite false 6755399441055744 (-52)))]) /\
  (let src := ParseSpec.line_text "x" "15e-1" TCounter None in ParseModel.lines src = [src] /\ text (DatagramModel.received (bytes_of "x:15e-1|c")) = src /\ utf8 (DatagramModel.received (bytes_of "x:15e-1|c")) = true) /\
  signed "15e-1" false "15e-1" /\ decimal "15e-1" 15 (-1).
Proof.
  split; [vm_compute; reflexivity|]. split; [cbn zeta; repeat split|]. split; [constructor; split; discriminate|].
  apply (dec_whole "15" "e-1" 15 (-1)); [discriminate| |].
  - apply (wr_digit 1 "5" 5); [lia|]. apply (wr_digit 5 "" 0); [lia|]. constructor.
  - apply (ex_some "e" "-1" (-1)%Z); [auto|]. exists true, "1", 1%Z. split; [constructor|]. split; [discriminate|]. split; [|reflexivity]. apply (wr_digit 1 "" 0); [lia|]. constructor.
Qed.
Example C154_ex_influx : @influx_takes xQ (fun _ => "1") (fun _ => "7") [] (xcs (ETelemetry (pt "a" (VSet fone) false None 7))) ("a value=1 7" ++ nl)%string.
Proof.
  assert (H : shows (fun _ : f64 => "1")) by (intros x y _; reflexivity).
  exact (gives_takes (fun _ => "1") (fun _ => "7") [] _ _ (pt "a" (VSet fone) false None 7) ("a", fone) (C139_posted xQ (fun _ => "1") (fun _ => "7") [] [CDeliver (ETelemetry (pt "a" (VSet fone) false None 7))] (CFlushTimer 2) _ H Logic.eq_refl)
    (or_introl Logic.eq_refl) (or_introl Logic.eq_refl)).
Qed.
(** the line "v" of the file "p", sent by the process of the example of C138 *)
Definition w_text : world := mkWorld [("p", 0)] (fun _ => []) [[]; []; [Append 0 (unlines [[118]]%N)]].
Example C154_ex_file : stays "p" 0 w_text /\ lines_only 0 w_text /\
  (let '(ls, _, w') := rounds 4 utf8 100 (repeat (["p"], as_found) 3) server_init w_text in ls = [("p", [118%N])] /\ sched w' = []) /\
  file_events (emitted "sources.a" 1 (before PulseProps.xl 1)) [("p", [118%N])].
Proof.
  split; [split; [reflexivity|repeat constructor]|]. split.
  { unfold lines_only, coming. cbn. repeat constructor. intros _. exists [[118]]%N. split; [|reflexivity]. repeat constructor; unfold line; cbn; intuition discriminate. }
  split; [lazy; auto|]. cbn. constructor; [|constructor]. exists 7%Z. reflexivity.
Qed.
Print Assumptions C154_statsd_sends.
Print Assumptions C154_graphite_sends.
Print Assumptions C154_statsd_influx.
Print Assumptions C154_graphite_influx.
Print Assumptions C154_file_elastic.
