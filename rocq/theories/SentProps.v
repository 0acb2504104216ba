(** * C154, further: what a client writes is written to wavefront, shown to scrapers, and shown on the console. *)
From Verif Require Import Base BaseFacts Utf8 UnicodeSpec TelemetryModel TelemetrySpec QExample TelemetryProps ParseModel ParseSpec ParseProofs ParseProps RoundSpec NumberModel NumberSpec NumberProofs NumberProps
  AcceptModel DatagramModel DatagramSpec DatagramProofs DatagramProps GraphiteModel GraphiteSpec GraphiteProofs HearSpec HearProofs HearProps FileModel FileSpec FileProps
  FlowModel FlowSpec TopologyModel TopologySpec NetworkModel NetworkSpec LiveSpec PulseSpec PulseProps
  WavefrontModel WavefrontSpec ArriveSpec ArriveProofs ArriveProps PrometheusModel ScrapeModel ScrapeSpec CollectSpec CollectProps ShownSpec ConsoleModel ShownProps TextSpec TextProps.
From Coq Require Import Lia Permutation.
Open Scope string_scope. Open Scope list_scope. Open Scope nat_scope.

(** A counter or gauge in a datagram of a statsd source is written to wavefront: a point of its name, tags and bin goes out, merged - unless points
    persist - from those of its name, tags and bin, it among them. *)
Theorem C154_statsd_wavefront : forall (Q : QLib) (S : Type) proc (st0 : string -> S) fint g t x l, distinct_ids g -> wire g = Going t -> execution proc st0 fint t x l -> fair g x l -> timer_goes l -> all_kept l ->
  forall named cfg now base queues ms s, (N.of_nat (List.length queues) < 2048)%N -> cfg_ok cfg -> udp_run (parse_f64 named) cfg now base ms (udp_start queues) = Some s ->
  forall hkind hfun show_f show_n show_z c id th i via d k, (forall a b, feqb a b = true -> show_f a = show_f b) -> (0 < wc_span c)%Z -> wc_age c = None ->
  In id (map fst (g_natives g ++ g_sources g)) -> emitted id th (before l i) = ud_sent s ->
  way g id via d -> In d (g_sinks g) -> (forall p, Forall (passes proc (ETelemetry p)) via) -> handed proc st0 g d -> fint d = Some k ->
  forall j dg name vtext neg r n e (counter : bool), name <> "" -> free_of ":" name -> free_of "|" vtext -> signed vtext neg r -> decimal r n e ->
  let src := ParseSpec.line_text name vtext (if counter then TCounter else TGauge) None in
  ParseModel.lines src = [src] -> In (j, dg) (List.concat (ud_calls s)) -> utf8 (DatagramModel.received dg) = true -> text (DatagramModel.received dg) = src ->
  exists y p, float_for neg n e y /\ t_name p = name /\ t_timestamp p = now /\ t_tags p = t_tags base /\ t_value p = (if counter then VSum y else if explicitly_signed vtext then VSum y else VSet y) /\
    exists m, i <= m /\ ((exists v, In v (via ++ [d]) /\ halted g (x m) v) \/ (2 ^ 64 <= N.max 1 k * (N.of_nat (pulses (before l m)) + 1))%N \/
      wave_writes hkind hfun show_f show_n show_z c (sr_calls (n_sink (x m) d)) p).
Proof.
  intros Q S proc st0 fint g t x l Hd Hw Hx F T K named cfg now base queues ms s Hn Hc E hkind hfun show_f show_n show_z c id th i via d k Hsh Hsp Ha Hid Hem Hwy Hk Hp Hh Hfi j dg name vtext neg r n e counter N1 N2 N3 Sg D src El Hin Hu Ht.
  destruct (C154_statsd_sends Q named cfg now base queues ms s Hn Hc E j dg name vtext neg r n e counter N1 N2 N3 Sg D El Hin Hu Ht) as (y & p & Hy & Hs & P1 & P2 & P3 & P4).
  exists y, p. do 5 (split; [assumption|]). rewrite <- Hem in Hs. exact (C141_end_to_end Q S proc st0 fint g t x l Hd Hw Hx F T K hkind hfun show_f show_n show_z c id th i p via d k Hsh Hsp Ha Hid Hs Hwy Hk (Hp p) Hh Hfi).
Qed.
Theorem C154_graphite_wavefront : forall (Q : QLib) (S : Type) proc (st0 : string -> S) fint g t x l, distinct_ids g -> wire g = Going t -> execution proc st0 fint t x l -> fair g x l -> timer_goes l -> all_kept l ->
  forall named (base : telemetry) ws ls part left, hearing false [] [] ws ls part left ->
  forall hkind hfun show_f show_n show_z c id th i via d k, (forall a b, feqb a b = true -> show_f a = show_f b) -> (0 < wc_span c)%Z -> wc_age c = None ->
  In id (map fst (g_natives g ++ g_sources g)) ->
  emitted id th (before l i) = map ETelemetry (g_sent (graphite_run (parse_f64 named) parse_i64 str_words base ws)) ->
  way g id via d -> In d (g_sinks g) -> (forall p, Forall (passes proc (ETelemetry p)) via) -> handed proc st0 g d -> fint d = Some k ->
  forall cs name vtext ttext neg r n e z, In (encoded cs) ls -> Forall scalar cs -> splits cs [name; vtext; ttext] ->
  signed (str_of (encoded vtext)) neg r -> decimal r n e -> integer (str_of (encoded ttext)) z -> (- 2 ^ 63 <= z < 2 ^ 63)%Z ->
  exists y p, float_for neg n e y /\ t_name p = str_of (encoded name) /\ t_timestamp p = z /\ t_tags p = t_tags base /\ t_value p = VSet y /\
    exists m, i <= m /\ ((exists v, In v (via ++ [d]) /\ halted g (x m) v) \/ (2 ^ 64 <= N.max 1 k * (N.of_nat (pulses (before l m)) + 1))%N \/
      wave_writes hkind hfun show_f show_n show_z c (sr_calls (n_sink (x m) d)) p).
Proof.
  intros Q S proc st0 fint g t x l Hd Hw Hx F T K named base ws ls part left H hkind hfun show_f show_n show_z c id th i via d k Hsh Hsp Ha Hid Hem Hwy Hk Hp Hh Hfi cs name vtext ttext neg r n e z Hin Sc Sp Sg D I R.
  destruct (C154_graphite_sends Q named base ws ls part left H cs name vtext ttext neg r n e z Hin Sc Sp Sg D I R) as (y & p & Hy & Hs & P1 & P2 & P3 & P4).
  exists y, p. do 5 (split; [assumption|]). apply (in_map ETelemetry) in Hs. rewrite <- Hem in Hs. exact (C141_end_to_end Q S proc st0 fint g t x l Hd Hw Hx F T K hkind hfun show_f show_n show_z c id th i p via d k Hsh Hsp Ha Hid Hs Hwy Hk (Hp p) Hh Hfi).
Qed.
(** It is shown in the later answers of a prometheus sink. *)
Theorem C154_statsd_prometheus : forall (Q : QLib) (S : Type) proc (st0 : string -> S) fint g t x l, distinct_ids g -> wire g = Going t -> execution proc st0 fint t x l -> fair g x l -> all_kept l ->
  forall named cfg now base queues ms s, (N.of_nat (List.length queues) < 2048)%N -> cfg_ok cfg -> udp_run (parse_f64 named) cfg now base ms (udp_start queues) = Some s ->
  forall cap show_f show_n default age gzip shuffle id th i via d, (forall n l, Permutation l (shuffle n l)) ->
  In id (map fst (g_natives g ++ g_sources g)) -> emitted id th (before l i) = ud_sent s ->
  way g id via d -> In d (g_sinks g) -> (forall p, Forall (passes proc (ETelemetry p)) via) ->
  forall j dg name vtext neg r n e (counter : bool), name <> "" -> free_of ":" name -> free_of "|" vtext -> signed vtext neg r -> decimal r n e ->
  let src := ParseSpec.line_text name vtext (if counter then TCounter else TGauge) None in
  ParseModel.lines src = [src] -> In (j, dg) (List.concat (ud_calls s)) -> utf8 (DatagramModel.received dg) = true -> text (DatagramModel.received dg) = src ->
  exists y p, float_for neg n e y /\ t_name p = name /\ t_timestamp p = now /\ t_tags p = t_tags base /\ t_value p = (if counter then VSum y else if explicitly_signed vtext then VSum y else VSet y) /\
    exists m, i <= m /\ ((exists v, In v (via ++ [d]) /\ halted g (x m) v) \/ prom_exposes cap show_f show_n default age gzip shuffle (sr_calls (n_sink (x m) d)) p).
Proof.
  intros Q S proc st0 fint g t x l Hd Hw Hx F K named cfg now base queues ms s Hn Hc E cap show_f show_n default age gzip shuffle id th i via d Hsh Hid Hem Hwy Hk Hp j dg name vtext neg r n e counter N1 N2 N3 Sg D src El Hin Hu Ht.
  destruct (C154_statsd_sends Q named cfg now base queues ms s Hn Hc E j dg name vtext neg r n e counter N1 N2 N3 Sg D El Hin Hu Ht) as (y & p & Hy & Hs & P1 & P2 & P3 & P4).
  exists y, p. do 5 (split; [assumption|]). rewrite <- Hem in Hs.
  destruct (C149_end_to_end Q S proc st0 fint g t x l Hd Hw Hx F K cap show_f show_n default age gzip shuffle id th i p via d Hsh Hid Hs Hwy Hk (Hp p)) as (m & Hm & [H|[H _]]); exists m; (split; [exact Hm|]); [left; exact H|right].
  apply H. unfold t_kind. rewrite P4. destruct counter; [|destruct (explicitly_signed vtext)]; discriminate.
Qed.
Theorem C154_graphite_prometheus : forall (Q : QLib) (S : Type) proc (st0 : string -> S) fint g t x l, distinct_ids g -> wire g = Going t -> execution proc st0 fint t x l -> fair g x l -> all_kept l ->
  forall named (base : telemetry) ws ls part left, hearing false [] [] ws ls part left ->
  forall cap show_f show_n default age gzip shuffle id th i via d, (forall n l, Permutation l (shuffle n l)) ->
  In id (map fst (g_natives g ++ g_sources g)) ->
  emitted id th (before l i) = map ETelemetry (g_sent (graphite_run (parse_f64 named) parse_i64 str_words base ws)) ->
  way g id via d -> In d (g_sinks g) -> (forall p, Forall (passes proc (ETelemetry p)) via) ->
  forall cs name vtext ttext neg r n e z, In (encoded cs) ls -> Forall scalar cs -> splits cs [name; vtext; ttext] ->
  signed (str_of (encoded vtext)) neg r -> decimal r n e -> integer (str_of (encoded ttext)) z -> (- 2 ^ 63 <= z < 2 ^ 63)%Z ->
  exists y p, float_for neg n e y /\ t_name p = str_of (encoded name) /\ t_timestamp p = z /\ t_tags p = t_tags base /\ t_value p = VSet y /\
    exists m, i <= m /\ ((exists v, In v (via ++ [d]) /\ halted g (x m) v) \/ prom_exposes cap show_f show_n default age gzip shuffle (sr_calls (n_sink (x m) d)) p).
Proof.
  intros Q S proc st0 fint g t x l Hd Hw Hx F K named base ws ls part left H cap show_f show_n default age gzip shuffle id th i via d Hsh Hid Hem Hwy Hk Hp cs name vtext ttext neg r n e z Hin Sc Sp Sg D I R.
  destruct (C154_graphite_sends Q named base ws ls part left H cs name vtext ttext neg r n e z Hin Sc Sp Sg D I R) as (y & p & Hy & Hs & P1 & P2 & P3 & P4).
  exists y, p. do 5 (split; [assumption|]). apply (in_map ETelemetry) in Hs. rewrite <- Hem in Hs.
  destruct (C149_end_to_end Q S proc st0 fint g t x l Hd Hw Hx F K cap show_f show_n default age gzip shuffle id th i p via d Hsh Hid Hs Hwy Hk (Hp p)) as (m & Hm & [H0|[H0 _]]); exists m; (split; [exact Hm|]); [left; exact H0|right].
  apply H0. unfold t_kind. rewrite P4. discriminate.
Qed.
(** A line of a watched file is shown on the console. *)
Theorem C154_file_console : forall (Q : QLib) (Sh : Show) (S : Type) proc (st0 : string -> S) fint g t x l, distinct_ids g -> wire g = Going t -> execution proc st0 fint t x l -> fair g x l -> timer_goes l -> all_kept l ->
  forall cap max found order rs w p f ls s' w', 0 < cap -> some_order order -> Forall (fun fo => some_order (snd fo)) rs -> In p found -> stays p f w -> lines_only f w ->
  rounds cap utf8 max ((found, order) :: rs) server_init w = (ls, s', w') ->
  forall hfun width tags id th i via d k, width <> 0%Z -> tm_ok tags ->
  In id (map fst (g_natives g ++ g_sources g)) -> file_events (emitted id th (before l i)) ls ->
  way g id via d -> In d (g_sinks g) -> (forall ln, Forall (passes proc (ELog ln)) via) -> handed proc st0 g d -> fint d = Some k ->
  exists missed taken left, files w' f = files w f ++ unlines (missed ++ taken ++ left) /\ (exists v, alookup seqb p (s_map s') = Some v /\ unread v w' = unlines left) /\
  forall ln, In ln taken -> ln <> [] -> utf8 (ln ++ [10%N]) = true ->
  exists m, i <= m /\ ((exists v, In v (via ++ [d]) /\ halted g (x m) v) \/ (2 ^ 64 <= N.max 1 k * (N.of_nat (pulses (before l m)) + 1))%N \/
    exists time shown, In (mkLog time p (text ln) [] None) shown /\ console_shows hfun width tags (sr_calls (n_sink (x m) d)) shown).
Proof.
  intros Q Sh S proc st0 fint g t x l Hd Hw Hx F T K cap max found order rs w p f ls s' w' H1 H2 H3 H4 H5 H6 E hfun width tags id th i via d k Hwd Ht Hid Hem Hwy Hk Hp Hh Hfi.
  destruct (C55_from_start cap utf8 max found order rs w p f ls s' w' H1 H2 H3 H4 H5 H6 E) as (missed & taken & left & G1 & G2 & G3). exists missed, taken, left. split; [exact G1|]. split; [exact G3|].
  intros ln Hin Hne Hu. assert (Hg : In ln (good utf8 taken)) by (apply filter_In; split; [exact Hin|]; destruct ln; [congruence|exact Hu]).
  rewrite <- G2 in Hg. unfold sent_for in Hg. apply in_map_iff in Hg as ([p' ln'] & E1 & Hf). cbn in E1. subst ln'. apply filter_In in Hf as [Hf E2]. cbn in E2. apply seqb_eq in E2. subst p'.
  assert (He : exists time, In (ELog (mkLog time p (text ln) [] None)) (emitted id th (before l i))).
  { clear - Hem Hf. induction Hem as [|e pl es ls (time & ->) _ IH]; [destruct Hf|]. destruct Hf as [->|Hf]; [exists time; left; reflexivity|]. destruct (IH Hf) as (t0 & ?). exists t0. right. assumption. }
  destruct He as (time & He).
  destruct (C133_end_to_end Q Sh S proc st0 fint g t x l Hd Hw Hx F T K hfun width tags id th i (mkLog time p (text ln) [] None) via d k Hid He Hwy Hk (Hp _) Hh Hfi Hwd Ht) as (m & Hm & [H|[H|(sh & I1 & I2)]]); exists m; (split; [exact Hm|]); auto.
  right. right. exists time, sh. auto.
Qed.
(** the point of "a:1|g", heard at 7, in the sinks of the examples of C141 and C149 *)
Example C154_ex_sinks : let p := pt "a" (VSet fone) false None 7 in
  t_name p = "a" /\ t_timestamp p = 7%Z /\ t_value p = VSet fone /\
  wave_writes (fun _ _ => 0%N) (fun _ => 0%N) (fun _ => "1") (fun _ => "1") (fun _ => "7") xwc (xcs (ETelemetry p)) p /\
  prom_exposes 10 (fun _ => "1") (fun _ => "n") [] None None (fun _ l => l) (xcs (ETelemetry p)) p.
Proof.
  cbv zeta. do 3 (split; [reflexivity|]). split; [apply C141_written; [intros; reflexivity|reflexivity|reflexivity|]|apply C149_exposed; [intros; apply Permutation_refl|left; reflexivity|discriminate]].
  exists [], [], (CFlushTimer 2). eexists. split; reflexivity.
Qed.
Print Assumptions C154_statsd_wavefront.
Print Assumptions C154_graphite_wavefront.
Print Assumptions C154_statsd_prometheus.
Print Assumptions C154_graphite_prometheus.
Print Assumptions C154_file_console.
