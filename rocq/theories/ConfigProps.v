(** * Properties C99-C107: reading the configuration file. *)
From Verif Require Import Base BaseFacts FloatFacts TelemetryModel ParseModel TopologyModel TopologySpec TopologyProps ConfigModel ConfigSpec ConfigProofs QExample.
Open Scope string_scope. Open Scope list_scope. Open Scope nat_scope.

(** a host for the examples *)
#[export] Instance xH : Host := {
  env_var s := if seqb s "HOSTNAME" then Some "web1" else None;
  show_str s := ("'" ++ s ++ "'")%string;
  show_int z := if (z =? 5)%Z then "5" else "?"; show_float _ := "0.5"; path_join d p := (d ++ "/" ++ p)%string; regex_ok _ := true }.
Definition fwd (l : list string) : string * toml := ("forwards", TArr (map TStr l)).
Definition x_tags : string * toml :=
  ("tags", TTab [("host", TTab [("environment", TBool true); ("value", TStr "HOSTNAME")]); ("source", TStr "cernan")]).
Definition x_sources : string * toml := ("sources", TTab [
  ("files", TTab [("a", TTab [fwd ["sinks.null"]; ("path", TStr "/log/a")]); ("b", TTab [fwd ["sinks.null"]; ("path", TStr "/log/b")])]);
  ("internal", TTab [fwd ["sinks.console"]]);
  ("native", TTab [("primary", TTab [fwd ["filters.delay.two"]; ("port", TInt 1973)])]);
  ("statsd", TTab [
    ("off", TTab [("enabled", TBool false)]);
    ("primary", TTab [fwd ["filters.delay.two"; "sinks.console"];
      ("mapping", TTab [("m1", TTab [("bounds", TArr [TFloat fone]); ("mask", TStr "a")]); ("m2", TTab [("bounds", TArr [TFloat fzero; TFloat fone]); ("mask", TStr "b")])])])])]).
Definition x_filters : string * toml := ("filters", TTab [
  ("delay", TTab [("none", TTab [fwd ["sinks.null"]]); ("two", TTab [fwd ["filters.json_encode.j"]; ("tolerance", TInt 2)])]);
  ("json_encode", TTab [("j", TTab [fwd ["sinks.kafka.k"]])])]).
Definition x_sinks : string * toml := ("sinks", TTab [
  ("console", TTab [("bin_width", TInt 2)]);
  ("influxdb", TTab [("flush_interval", TFloat (fofZ 3)); ("port", TInt 8087)]);
  ("kafka", TTab [("k", TTab [("brokers", TStr "b:9092"); ("flush_interval", TInt 2); ("topic", TStr "t")]); ("no_topic", TTab [("brokers", TStr "b:9092")])]);
  ("null", TTab []);
  ("prometheus", TTab [("flush_interval", TInt 5)])]).
Definition xcfg : toml := TTab [x_filters; ("flush-interval", TInt 5); x_sinks; x_sources; x_tags].
Definition xgt : tags := [("host", "web1"); ("source", "cernan")].
Definition xargs : args := mkArgs 1048576 100 104857600 "/tmp/cernan-data" "/tmp/cernan-scripts" 500
  [] [("filters.delay.two", mkDelay 2 ["filters.json_encode.j"])] [("filters.json_encode.j", mkJson false ["sinks.kafka.k"] xgt)] []
  (Some (mkConsole "sinks.console" 2 500 xgt)) (Some "sinks.null") None (Some (mkInflux "sinks.influxdb" 8087 true "localhost" "cernan" 300 xgt)) None
  (Some (mkPrometheus "sinks.prometheus" None 8086 "localhost" 600 xgt)) None [mkKafka "sinks.kafka.k" "t" "b:9092" None 200 10485760]
  [mkFile "sources.files.'/log/a'" "/log/a" ["sinks.null"] 2048; mkFile "sources.files.'/log/b'" "/log/b" ["sinks.null"] 2048]
  (mkInternal "sources.internal" ["sinks.console"]) [] []
  [("sources.native.primary", mkTcp "sources.native.primary" 1973 "0.0.0.0" ["filters.delay.two"])]
  [("sources.statsd.primary", mkStatsd "primary" 8125 "localhost" ["filters.delay.two"; "sinks.console"] [("b", [fzero; fone]); ("a", [fone])] (fratio 1 100))].
Example xparse : parse_config xcfg = Going xargs.
Proof. reflexivity. Qed.
Ltac toml_ok := repeat first [apply ok_str|apply ok_int|apply ok_float|apply ok_bool|apply ok_date|apply ok_arr|apply ok_tab|apply Forall_cons|apply Forall_nil|
  apply NoDup_nil|apply NoDup_cons; [cbn; intuition discriminate|]].
Example xok : toml_ok xcfg.
Proof. toml_ok. Qed.
Lemma xshow : forall p q, @show_str xH p = show_str q -> p = q.
Proof.
  intros p q [= E]. revert q E. induction p as [|c p IH]; intros [|d q]; cbn; intros E; try reflexivity.
  - injection E as _ E. destruct q; discriminate.
  - injection E as _ E. destruct p; discriminate.
  - injection E as -> E. f_equal. auto.
Qed.
Example xpaths : paths_differ xcfg.
Proof.
  intros n n' s s' p (l & El & Hi) (l' & El' & Hi') E E'. rewrite El in El'. injection El' as <-. vm_compute in El. injection El as <-.
  cbn in Hi, Hi'. destruct Hi as [[= <- <-]|[[= <- <-]|[]]], Hi' as [[= <- <-]|[[= <- <-]|[]]]; try reflexivity; cbn in E, E'; congruence.
Qed.

(** ** C99: no two components share an id.  False: a file source is named after its
    path, and two sections may name the same path. *)
Theorem C99_refuted : exists (H : Host) (t : toml) (a : args),
  toml_ok t /\ parse_config t = Going a /\ ~ NoDup (map fst (components a)) /\ (forall g, wires a g -> ~ distinct_ids g).
Proof.
  set (t := TTab [("sources", TTab [("files", TTab [("a", TTab [("path", TStr "/log/a")]); ("b", TTab [("path", TStr "/log/a")])])])]).
  set (a := mkArgs 1048576 100 104857600 "/tmp/cernan-data" "/tmp/cernan-scripts" 6000 [] [] [] [] None None None None None None None []
    [mkFile "sources.files.'/log/a'" "/log/a" [] 2048; mkFile "sources.files.'/log/a'" "/log/a" [] 2048] (mkInternal "sources.internal" []) [] [] [] []).
  assert (Hn : ~ NoDup (map fst (components a))).
  { cbn. intros Hn. inversion Hn as [|x l _ Hn']. inversion Hn' as [|x' l' Hx _]. apply Hx. cbn. auto. }
  exists xH, t, a. split; [subst t; toml_ok|]. split; [reflexivity|]. split; [exact Hn|].
  intros g W Hd. apply Hn. eapply Permutation_NoDup; [apply (wires_ids _ _ W)|exact Hd].
Qed.
(** What holds: all ids of an accepted file differ when no two file sources have the
    same path and the Display of texts tells them apart; main then wires distinct
    ids in whatever order it visits its maps.  Missing: file sources with the same
    path. *)
Theorem C99_ids_distinct_partial : forall (H : Host) t a,
  toml_ok t -> (forall p q, show_str p = show_str q -> p = q) -> paths_differ t -> parse_config t = Going a ->
  NoDup (map fst (components a)) /\ forall g, wires a g -> distinct_ids g.
Proof.
  intros H t a Hk Hs Hp E. destruct (parse_inv _ _ E) as (gt & P). pose proof (ids_nodup _ _ _ Hk P Hs Hp) as Hn. split; [exact Hn|].
  intros g W. eapply Permutation_NoDup; [apply Permutation_sym, (wires_ids _ _ W)|exact Hn].
Qed.
Example C99_ex : toml_ok xcfg /\ paths_differ xcfg /\ parse_config xcfg = Going xargs /\
  map fst (components xargs) = ["sinks.null"; "sinks.console"; "sinks.prometheus"; "sinks.influxdb"; "sinks.kafka.k"; "filters.delay.two"; "filters.json_encode.j";
    "sources.native.primary"; "sources.internal"; "sources.statsd.primary"; "sources.files.'/log/a'"; "sources.files.'/log/b'"].
Proof. exact (conj xok (conj xpaths (conj xparse Logic.eq_refl))). Qed.
Print Assumptions C99_refuted.
Print Assumptions C99_ids_distinct_partial.

(** ** C100: a sink flushes after its own interval, else after the global one, else
    after 60 seconds; a second is 100 pulses of the timer.  False of the prometheus
    sink, which reads no interval, of some fractions (0.29 seconds are 28 pulses),
    and of negative intervals, which are taken for ages instead of being refused. *)
Definition one_sink (k : string) (o : list (string * toml)) : toml := TTab [("sinks", TTab [(k, TTab o)])].
Theorem C100_refuted_prometheus : exists (H : Host) t a s c,
  toml_ok t /\ parse_config t = Going a /\ section_of t "sinks.prometheus" s /\ In ("sinks.prometheus", c) (components a) /\
  interval t s = TInt 5 /\ flush_pulses c = Some 10%Z.
Proof.
  exists xH, (one_sink "prometheus" [("flush_interval", TInt 5)]), (mkArgs 1048576 100 104857600 "/tmp/cernan-data" "/tmp/cernan-scripts" 6000 [] [] [] [] None None None None None
    (Some (mkPrometheus "sinks.prometheus" None 8086 "localhost" 600 [])) None [] [] (mkInternal "sources.internal" []) [] [] [] []),
    (TTab [("flush_interval", TInt 5)]), (CPrometheus (mkPrometheus "sinks.prometheus" None 8086 "localhost" 600 [])).
  split; [unfold one_sink; toml_ok|]. split; [reflexivity|]. split; [apply (SO_single _ "prometheus"); [cbn; tauto|reflexivity]|]. split; [cbn; auto|]. split; reflexivity.
Qed.
Theorem C100_refuted_fraction : exists (H : Host) t a s c,
  toml_ok t /\ parse_config t = Going a /\ section_of t "sinks.console" s /\ In ("sinks.console", c) (components a) /\
  interval t s = TFloat (fratio 29 100) /\ flush_pulses c = Some 28%Z.
Proof.
  exists xH, (one_sink "console" [("flush_interval", TFloat (fratio 29 100))]), (mkArgs 1048576 100 104857600 "/tmp/cernan-data" "/tmp/cernan-scripts" 6000 [] [] [] []
    (Some (mkConsole "sinks.console" 1 28 [])) None None None None None None [] [] (mkInternal "sources.internal" []) [] [] [] []),
    (TTab [("flush_interval", TFloat (fratio 29 100))]), (CConsole (mkConsole "sinks.console" 1 28 [])).
  split; [unfold one_sink; toml_ok|]. split; [reflexivity|]. split; [apply (SO_single _ "console"); [cbn; tauto|reflexivity]|]. split; [cbn; auto|]. split; reflexivity.
Qed.
Theorem C100_refuted_negative : exists (H : Host) t a s c p,
  toml_ok t /\ parse_config t = Going a /\ section_of t "sinks.console" s /\ In ("sinks.console", c) (components a) /\
  interval t s = TInt (-1) /\ flush_pulses c = Some p /\ (p > 100 * 60 * 60 * 24 * 365 * 1000000000)%Z.
Proof.
  exists xH, (one_sink "console" [("flush_interval", TInt (-1))]), (mkArgs 1048576 100 104857600 "/tmp/cernan-data" "/tmp/cernan-scripts" 6000 [] [] [] []
    (Some (mkConsole "sinks.console" 1 18446744073709551516 [])) None None None None None None [] [] (mkInternal "sources.internal" []) [] [] [] []),
    (TTab [("flush_interval", TInt (-1))]), (CConsole (mkConsole "sinks.console" 1 18446744073709551516 [])), 18446744073709551516%Z.
  split; [unfold one_sink; toml_ok|]. split; [reflexivity|]. split; [apply (SO_single _ "console"); [cbn; tauto|reflexivity]|]. split; [cbn; auto|]. split; [reflexivity|]. split; [reflexivity|lia].
Qed.
(** What holds: whole numbers of seconds, written as integers or as floats, are
    100 pulses each.  Missing: fractions, negative and excessive numbers, the
    prometheus and null sinks. *)
Theorem C100_interval_partial : forall (H : Host) t a id s c p z,
  toml_ok t -> parse_config t = Going a -> section_of t id s -> In (id, c) (components a) ->
  flush_pulses c = Some p -> c <> CNull -> (forall x, c <> CPrometheus x) ->
  (interval t s = TInt z /\ 0 <= z /\ 100 * z < 2 ^ 64 \/ interval t s = TFloat (fofZ z) /\ 0 <= z /\ 100 * z < 2 ^ 53)%Z ->
  p = (100 * z)%Z.
Proof.
  intros H t a id s c p z Hk E S Hin Ep Hn Hp Hz. destruct (parse_inv _ _ E) as (gt & P). apply (built_iff _ _ _ Hk P) in Hin.
  pose proof (built_made _ _ _ _ _ _ Hk Hin S) as M. pose proof (made_flush _ _ _ _ _ P M p Ep Hn Hp) as Ef.
  destruct (flush_own _ _ _ _ _ P Ef) as [F1 F2]. destruct Hz as [(H1 & H2 & H3)|(H1 & H2 & H3)]; auto.
Qed.
(** and of any float: a hundred times the number, as a float, without its fraction; what is negative or no number is no time
    at all, and what is too large is the largest number of pulses there is *)
Theorem C100_float_partial : forall (H : Host) t a id s c p f,
  toml_ok t -> parse_config t = Going a -> section_of t id s -> In (id, c) (components a) ->
  flush_pulses c = Some p -> c <> CNull -> (forall x, c <> CPrometheus x) -> interval t s = TFloat f ->
  match fmul f (fofZ 100) with
  | S754_finite false m e => (p <= 2 ^ 64 - 1 /\ (p = 2 ^ 64 - 1 /\ 0 <= e /\ p <= Z.pos m * 2 ^ e \/ 0 <= e /\ p = Z.pos m * 2 ^ e \/
                                             e < 0 /\ p * 2 ^ (- e) <= Z.pos m /\ (Z.pos m < (p + 1) * 2 ^ (- e) \/ p = 2 ^ 64 - 1)))%Z
  | S754_infinity false => p = (2 ^ 64 - 1)%Z
  | _ => p = 0%Z
  end.
Proof.
  intros H t a id s c p f Hk E S Hin Ep Hn Hp Hf. destruct (parse_inv _ _ E) as (gt & P). apply (built_iff _ _ _ Hk P) in Hin.
  pose proof (built_made _ _ _ _ _ _ Hk Hin S) as M. pose proof (made_flush _ _ _ _ _ P M p Ep Hn Hp) as Ef.
  assert (G : forall t k d, flush_of t k d = Going p -> tget t k = Some (TFloat f) -> p = f_to_u64 (fmul f (fofZ flushes_per_second))).
  { intros t' k d E1 E2. unfold flush_of, parse_flush_interval in E1. rewrite E2 in E1. cbn in E1. now injection E1 as <-. }
  assert (Ev : p = f_to_u64 (fmul f (fofZ 100))).
  { unfold interval in Hf. destruct (tget s "flush_interval") as [v|] eqn:Es; [subst v; eapply G; eauto|]. rewrite (flush_none _ _ _ _ Ef Es) in *. pose proof (p_flush _ _ _ P) as Eg.
    destruct (tget t "flush-interval") as [v|] eqn:Et; [subst v; eapply G; eauto|discriminate]. }
  rewrite Ev. clear. destruct (fmul f (fofZ 100)) as [b|b| |b m e]; try reflexivity; destruct b; try reflexivity.
  unfold f_to_u64. split; [apply Z.le_min_r|]. destruct (Z.leb_spec 0 e).
  - destruct (Z.min_spec (Z.pos m * 2 ^ e) (2 ^ 64 - 1)) as [[A ->]|[A ->]]; [right; left; auto|left; repeat split; auto; lia].
  - assert (D : (0 < 2 ^ (- e))%Z) by (apply Z.pow_pos_nonneg; lia). generalize dependent (2 ^ (- e))%Z. intros d D. right. right. split; [assumption|].
    pose proof (Z.mul_div_le (Z.pos m) d D). pose proof (Z.mul_succ_div_gt (Z.pos m) d D). split.
    + destruct (Z.min_spec (Z.pos m / d) (2 ^ 64 - 1)) as [[A ->]|[A ->]]; nia.
    + destruct (Z.min_spec (Z.pos m / d) (2 ^ 64 - 1)) as [[A ->]|[A ->]]; [left; nia|right; reflexivity].
Qed.
Example C100_float_ex : map (fun f => f_to_u64 (fmul f (fofZ 100))) [fratio 5 2; fofZ (10 ^ 300); S754_infinity false; fofZ (-1); S754_nan] = [250; 2 ^ 64 - 1; 2 ^ 64 - 1; 0; 0]%Z /\
  (exists s, section_of xcfg "sinks.influxdb" s /\ interval xcfg s = TFloat (fofZ 3)).
Proof. split; [vm_compute; reflexivity|]. eexists; split; [apply (SO_single _ "influxdb"); [cbn; tauto|reflexivity]|reflexivity]. Qed.
Print Assumptions C100_float_partial.
(** and no sink is without an interval *)
Example C100_ex :
  (exists s, section_of xcfg "sinks.console" s /\ interval xcfg s = TInt 5) /\ In ("sinks.console", CConsole (mkConsole "sinks.console" 2 500 xgt)) (components xargs) /\
  (exists s, section_of xcfg "sinks.influxdb" s /\ interval xcfg s = TFloat (fofZ 3)) /\
  In ("sinks.influxdb", CInflux (mkInflux "sinks.influxdb" 8087 true "localhost" "cernan" 300 xgt)) (components xargs) /\
  (exists s, section_of xcfg "sinks.kafka.k" s /\ interval xcfg s = TInt 2) /\
  In ("sinks.kafka.k", CKafka (mkKafka "sinks.kafka.k" "t" "b:9092" None 200 10485760)) (components xargs).
Proof.
  split; [eexists; split; [apply (SO_single _ "console"); [cbn; tauto|reflexivity]|reflexivity]|]. split; [cbn; tauto|].
  split; [eexists; split; [apply (SO_single _ "influxdb"); [cbn; tauto|reflexivity]|reflexivity]|]. split; [cbn; tauto|].
  split; [|cbn; tauto]. eexists. split; [apply (SO_kafka _ "k"); eexists; split; [reflexivity|cbn; left; reflexivity]|reflexivity].
Qed.
Print Assumptions C100_refuted_prometheus.
Print Assumptions C100_refuted_fraction.
Print Assumptions C100_refuted_negative.
Print Assumptions C100_interval_partial.

(** ** C101: a number that does not fit its setting is refused.  False: it is cut to
    the width of the setting. *)
Theorem C101_refuted : exists (H : Host) t a,
  toml_ok t /\ parse_config t = Going a /\
  section_of t "sinks.wavefront" (TTab [("port", TInt 65616)]) /\ (exists c, In ("sinks.wavefront", c) (components a) /\ port_of c = Some 80%Z) /\
  section_of t "sinks.elasticsearch" (TTab [("delivery_attempt_limit", TInt 256)]) /\
  (exists c, In ("sinks.elasticsearch", CElastic c) (components a) /\ ec_limit c = 0%Z) /\
  section_of t "filters.flush_boundary.b" (TTab [("tolerance", TInt (-1))]) /\
  (exists c, In ("filters.flush_boundary.b", CBoundary c) (components a) /\ bc_tolerance c = (2 ^ 64 - 1)%Z).
Proof.
  set (t := TTab [("filters", TTab [("flush_boundary", TTab [("b", TTab [("tolerance", TInt (-1))])])]);
    ("sinks", TTab [("elasticsearch", TTab [("delivery_attempt_limit", TInt 256)]); ("wavefront", TTab [("port", TInt 65616)])])]).
  set (we := mkWavefront "sinks.wavefront" (mkPad false false false false) default_percentiles 80 None "localhost" 1 6000 []).
  set (ce := mkElastic "sinks.elasticsearch" 0 9200 "127.0.0.1" None false "payload" 6000 []).
  exists xH, t, (mkArgs 1048576 100 104857600 "/tmp/cernan-data" "/tmp/cernan-scripts" 6000 [] [] [] [("filters.flush_boundary.b", mkBoundary 18446744073709551615 [])]
    None None (Some we) None None None (Some ce) [] [] (mkInternal "sources.internal" []) [] [] [] []).
  split; [subst t; toml_ok|]. split; [reflexivity|]. split; [apply (SO_single _ "wavefront"); [cbn; tauto|reflexivity]|].
  split; [exists (CWavefront we); split; [cbn; tauto|reflexivity]|]. split; [apply (SO_single _ "elasticsearch"); [cbn; tauto|reflexivity]|].
  split; [exists ce; split; [cbn; tauto|reflexivity]|].
  split; [apply (SO_filter _ "flush_boundary" "b"); [cbn; tauto|]; eexists; split; [reflexivity|cbn; auto]|].
  exists (mkBoundary 18446744073709551615 []). split; [cbn; tauto|reflexivity].
Qed.
(** What holds: a port of 16 bits is the port used, whatever the component.
    Missing: everything outside. *)
Theorem C101_port_partial : forall (H : Host) t a id s c p z,
  toml_ok t -> parse_config t = Going a -> section_of t id s -> In (id, c) (components a) ->
  port_of c = Some p -> tget s "port" = Some (TInt z) -> (0 <= z < 2 ^ 16)%Z -> p = z.
Proof.
  intros H t a id s c p z Hk E S Hin Ep Ez Hz. destruct (parse_inv _ _ E) as (gt & P). apply (built_iff _ _ _ Hk P) in Hin.
  exact (made_port _ _ _ _ _ _ _ (built_made _ _ _ _ _ _ Hk Hin S) Ep Ez Hz).
Qed.
Example C101_ex : (exists s, section_of xcfg "sources.native.primary" s /\ tget s "port" = Some (TInt 1973)) /\
  In ("sources.native.primary", CNsource (mkTcp "sources.native.primary" 1973 "0.0.0.0" ["filters.delay.two"])) (components xargs).
Proof. split; [|cbn; tauto]. eexists. split; [apply (SO_source _ "native" "primary"); [cbn; tauto|]; eexists; split; [reflexivity|cbn; left; reflexivity]|reflexivity]. Qed.
Print Assumptions C101_refuted.
Print Assumptions C101_port_partial.

(** ** C102: a section concerns its own components only: files that differ in one
    section [sec.kind] give all other components the same settings. *)
Theorem C102_section_frame : forall (H : Host) sec kind t t' a a',
  toml_ok t -> toml_ok t' -> In sec ["sinks"; "filters"; "sources"] -> same_but sec kind t t' ->
  parse_config t = Going a -> parse_config t' = Going a' ->
  forall id c, ~ belongs sec kind id -> (In (id, c) (components a) <-> In (id, c) (components a')).
Proof.
  intros H sec kind t t' a a' Hk Hk' Hin Hs E E' id c Hb. destruct (parse_inv _ _ E) as (gt & P). destruct (parse_inv _ _ E') as (gt' & P').
  destruct (same_globals _ _ _ _ _ _ _ _ Hin Hs P P') as (-> & Ef & Es). rewrite (built_iff _ _ _ Hk P), (built_iff _ _ _ Hk' P'). split; intros B.
  - eapply built_same; eauto.
  - eapply (built_same _ _ t' t); [apply same_sym; exact Hs|symmetry; exact Ef|symmetry; exact Es|exact Hb|exact B].
Qed.
Example C102_ex :
  let t' := TTab [x_filters; ("flush-interval", TInt 5); ("sinks", TTab [("console", TTab [("bin_width", TInt 2)]); ("null", TTab [])]); x_sources; x_tags] in
  let t := TTab [x_filters; ("flush-interval", TInt 5); ("sinks", TTab [("null", TTab [])]); x_sources; x_tags] in
  same_but "sinks" "console" t t' /\ parse_config t <> Panicked /\ exists a', parse_config t' = Going a' /\ In ("sinks.null", CNull) (components a').
Proof.
  cbv zeta. split; [|split; [discriminate|]].
  - split.
    + intros k Hk. cbn [tget alookup x_filters x_sources x_tags]. destruct (seqb k "filters"); [reflexivity|]. destruct (seqb k "flush-interval"); [reflexivity|].
      destruct (seqb k "sinks") eqn:E; [apply seqb_eq in E; contradiction|reflexivity].
    + intros k Hk. unfold at2. cbn. destruct (seqb k "console") eqn:E; [apply seqb_eq in E; contradiction|reflexivity].
  - eexists. split; [reflexivity|]. cbn. auto.
Qed.
Print Assumptions C102_section_frame.

(** ** C103: the components of an accepted file are those it declares: the sections
    that are not switched off and have the options their kind requires. *)
Theorem C103_declared : forall (H : Host) t a, toml_ok t -> parse_config t = Going a ->
  forall id, In id (map fst (components a)) <-> declared t id.
Proof.
  intros H t a Hk E id. destruct (parse_inv _ _ E) as (gt & P). rewrite in_map_iff. split.
  - intros ([id' c] & <- & Hin). apply (built_iff _ _ _ Hk P) in Hin. eapply built_declared; eauto.
  - intros D. destruct (declared_built _ _ _ _ P D) as (c & B). exists (id, c). split; [reflexivity|]. apply (built_iff _ _ _ Hk P). exact B.
Qed.
Example C103_ex : declared xcfg "sinks.kafka.k" /\ declared xcfg "filters.delay.two" /\
  ~ In "sinks.kafka.no_topic" (map fst (components xargs)) /\ ~ In "filters.delay.none" (map fst (components xargs)) /\ ~ In "sources.statsd.off" (map fst (components xargs)).
Proof.
  split; [apply (D_kafka _ "k" (TTab [("brokers", TStr "b:9092"); ("flush_interval", TInt 2); ("topic", TStr "t")])); [eexists; split; [reflexivity|cbn; tauto]|discriminate|discriminate|discriminate]|].
  split; [apply (D_delay _ "two" (TTab [fwd ["filters.json_encode.j"]; ("tolerance", TInt 2)])); [eexists; split; [reflexivity|cbn; tauto]|discriminate]|].
  split; [|split]; cbn; intuition discriminate.
Qed.
Print Assumptions C103_declared.

(** ** C104: nothing in the file is ignored without notice: a section starts its
    component or stops the start.  False: a delay filter without tolerance, a
    programmable filter without script and a file source without path are left out
    in silence; keys that nobody asks for change nothing, at the top of the file,
    among the sinks, or among the options of a sink. *)
Theorem C104_refuted : exists (H : Host) t a, toml_ok t /\ parse_config t = Going a /\
  named t "filters" "delay" "d" (TTab []) /\ named t "filters" "programmable" "p" (TTab []) /\ named t "sources" "files" "f" (TTab []) /\
  components a = [("sources.internal", CInternal (mkInternal "sources.internal" []))].
Proof.
  exists xH, (TTab [("filters", TTab [("delay", TTab [("d", TTab [])]); ("programmable", TTab [("p", TTab [])])]); ("sources", TTab [("files", TTab [("f", TTab [])])])]),
    (mkArgs 1048576 100 104857600 "/tmp/cernan-data" "/tmp/cernan-scripts" 6000 [] [] [] [] None None None None None None None [] [] (mkInternal "sources.internal" []) [] [] [] []).
  split; [toml_ok|]. split; [reflexivity|]. split; [eexists; split; [reflexivity|cbn; auto]|]. split; [eexists; split; [reflexivity|cbn; auto]|].
  split; [eexists; split; [reflexivity|cbn; auto]|reflexivity].
Qed.
Theorem C104_unknown_keys_ignored : forall (H : Host) l x v,
  (~ In x top_keys -> parse_config (TTab (ainsert seqb x v l)) = parse_config (TTab l)) /\
  (forall ss, alookup seqb "sinks" l = Some (TTab ss) -> ~ In x (kinds "sinks") ->
    parse_config (TTab (ainsert seqb "sinks" (TTab (ainsert seqb x v ss)) l)) = parse_config (TTab l)) /\
  (forall ss kind o, alookup seqb "sinks" l = Some (TTab ss) -> In kind single_sinks -> alookup seqb kind ss = Some (TTab o) -> ~ In x (sink_options kind) ->
    parse_config (TTab (ainsert seqb "sinks" (TTab (ainsert seqb kind (TTab (ainsert seqb x v o)) ss)) l)) = parse_config (TTab l)).
Proof.
  intros H l x v. split; [apply unknown_top|]. split; [intros; apply unknown_kind; assumption|intros; eapply unknown_option; eauto].
Qed.
(** misspelt as at the top of the file: with a hyphen *)
Example C104_ex : ~ In "flush-interval" (sink_options "console") /\ ~ In "flush_interval" top_keys /\ ~ In "firehose" (kinds "sinks") /\ ~ In "bin_width" (sink_options "influxdb") /\
  parse_config (one_sink "console" [("flush-interval", TInt 1)]) = parse_config (one_sink "console" []).
Proof. do 4 (split; [cbn; intuition discriminate|]). reflexivity. Qed.
(** examples/configs/basic.toml of the repository forwards to a sink of a kind that
    nobody asks for: the process exits *)
Definition x_basic : toml := TTab [
  ("data-directory", TStr "data/");
  ("filters", TTab [("delay", TTab [("two_seconds", TTab [fwd ["filters.flush_boundary.two_seconds"]; ("tolerance", TInt 2)])]);
    ("flush_boundary", TTab [("two_seconds", TTab [fwd ["sinks.console"; "sinks.null"; "sinks.influxdb"; "sinks.prometheus"]; ("tolerance", TInt 2)])]);
    ("programmable", TTab [("collectd_scrub", TTab [fwd ["filters.delay.two_seconds"]; ("script", TStr "collectd_scrub.lua")])])]);
  ("flush-interval", TInt 5); ("scripts-directory", TStr "examples/scripts/");
  ("sinks", TTab [("console", TTab [("bin_width", TInt 1)]);
    ("firehose", TTab [("stream_two", TTab [("batch_size", TInt 800); ("delivery_stream", TStr "stream_two"); ("region", TStr "us-east-1")])]);
    ("influxdb", TTab [("bin_width", TInt 1); ("host", TStr "127.0.0.1"); ("port", TInt 8086)]); ("null", TTab []);
    ("prometheus", TTab [("bin_width", TInt 1); ("host", TStr "127.0.0.1"); ("port", TInt 8080)])]);
  ("sources", TTab [("files", TTab [("example_log", TTab [fwd ["sinks.firehose.stream_two"]; ("path", TStr "example.log")]);
      ("foo_log", TTab [fwd ["sinks.firehose.stream_two"]; ("path", TStr "foo.log")])]);
    ("graphite", TTab [("primary", TTab [("enabled", TBool true); fwd ["filters.programmable.collectd_scrub"]; ("port", TInt 2004)])]);
    ("internal", TTab [fwd ["sinks.console"; "sinks.null"]]);
    ("native", TTab [("primary", TTab [fwd ["filters.delay.two_seconds"]; ("ip", TStr "127.0.0.1"); ("port", TInt 1972)])]);
    ("statsd", TTab [("primary", TTab [("enabled", TBool true); fwd ["sinks.console"; "filters.delay.two_seconds"]; ("port", TInt 8125)])])]);
  ("tags", TTab [("source", TStr "cernan")])].
Example C104_ex_basic : exists a, parse_config x_basic = Going a /\ wire (main_config a) = Exit 1.
Proof. eexists. split; [reflexivity|]. reflexivity. Qed.
Print Assumptions C104_refuted.
Print Assumptions C104_unknown_keys_ignored.

(** ** C105: every component that carries tags carries exactly the global tags of the
    file, those taken from the environment with the values they have there; no tag
    is left out. *)
Theorem C105_global_tags : forall (H : Host) t a id c g, toml_ok t -> parse_config t = Going a -> In (id, c) (components a) -> tags_of c = Some g ->
  (forall k v, alookup seqb k g = Some v <-> tag_value t k v) /\ (forall k, at2 t "tags" k <> None -> exists v, tag_value t k v).
Proof.
  intros H t a id c g Hk E Hin Eg. destruct (parse_inv _ _ E) as (gt & P). apply (built_iff _ _ _ Hk P) in Hin.
  rewrite (built_tags _ _ _ _ _ _ Hin Eg). apply (parse_tags_spec _ _ Hk (p_tags _ _ _ P)).
Qed.
Example C105_ex : In ("filters.json_encode.j", CJson (mkJson false ["sinks.kafka.k"] xgt)) (components xargs) /\ alookup seqb "host" xgt = Some "web1" /\
  tag_value xcfg "host" "web1" /\ tag_value xcfg "source" "cernan".
Proof.
  split; [cbn; tauto|]. split; [reflexivity|]. split; [right|left; reflexivity].
  exists [("environment", TBool true); ("value", TStr "HOSTNAME")], "HOSTNAME". repeat split; reflexivity.
Qed.
Print Assumptions C105_global_tags.

(** ** C106: of the mappings of a statsd source that match a name, the last one of the
    table gives the bounds; when none matches the timer stays a summary. *)
Theorem C106_last_mapping_wins : forall (H : Host) (Q : QLib) (matches : string -> string -> bool) t a id c s l1 k e l2 re bs name m,
  toml_ok t -> parse_config t = Going a -> section_of t id s -> In (id, CStatsd c) (components a) ->
  tget s "mapping" = Some (TTab (l1 ++ (k, e) :: l2)) -> tget e "mask" = Some (TStr re) -> tget e "bounds" = Some (TArr (map TFloat bs)) ->
  matches re name = true -> (forall k' e' re', In (k', e') l2 -> tget e' "mask" = Some (TStr re') -> matches re' name = false) ->
  mask_loop (map (fun x => (matches (fst x), snd x)) (sd_masks c)) name m = b_bounds bs (b_clear_error (b_kind MHistogram m)).
Proof.
  intros H Q matches t a id c s l1 k e l2 re bs name m Hk E S Hin Em Hre Hbs Hmat Hno. destruct (parse_inv _ _ E) as (gt & P). apply (built_iff _ _ _ Hk P) in Hin.
  destruct (made_masks _ _ _ _ _ _ (built_made _ _ _ _ _ _ Hk Hin S) Em) as (ms & F & ->).
  apply Forall2_app_inv_l in F as (m1 & m2' & F1 & F2 & ->). inversion F2 as [|x [re' bs'] x' m2 [Hr Hb] F3]; subst. cbn [fst snd] in *.
  rewrite Hre in Hr. injection Hr as <-. rewrite Hbs in Hb. injection Hb as Hb.
  assert (bs' = bs). { clear -Hb. revert bs' Hb. induction bs as [|b bs IH]; intros [|b' bs']; cbn; intros E; try discriminate; [reflexivity|]. injection E as -> E. f_equal. auto. } subst bs'.
  rewrite rev_app_distr. cbn [rev]. rewrite <- app_assoc. rewrite map_app. rewrite mask_loop_app.
  - cbn [app map mask_loop fst snd]. rewrite Hmat. reflexivity.
  - intros f bs' Hi. apply in_map_iff in Hi as ([re' bs''] & [= <- <-] & Hi). cbn [fst]. apply in_rev in Hi.
    clear -F3 Hi Hno. induction F3 as [|[k' e'] x l r [Hm _] F IH]; [destruct Hi|]. destruct Hi as [->|Hi]; [eapply Hno; [left; reflexivity|exact Hm]|].
    apply IH; [|exact Hi]. intros. eapply Hno; [right|]; eauto.
Qed.
Theorem C106_no_mapping : forall (H : Host) (Q : QLib) (matches : string -> string -> bool) t a id c s l name m,
  toml_ok t -> parse_config t = Going a -> section_of t id s -> In (id, CStatsd c) (components a) ->
  tget s "mapping" = Some (TTab l) -> (forall k e re, In (k, e) l -> tget e "mask" = Some (TStr re) -> matches re name = false) ->
  mask_loop (map (fun x => (matches (fst x), snd x)) (sd_masks c)) name m = Some m.
Proof.
  intros H Q matches t a id c s l name m Hk E S Hin Em Hno. destruct (parse_inv _ _ E) as (gt & P). apply (built_iff _ _ _ Hk P) in Hin.
  destruct (made_masks _ _ _ _ _ _ (built_made _ _ _ _ _ _ Hk Hin S) Em) as (ms & F & ->).
  rewrite <- (app_nil_r (map _ (rev ms))). rewrite mask_loop_app; [reflexivity|].
  intros f bs' Hi. apply in_map_iff in Hi as ([re' bs''] & [= <- <-] & Hi). cbn [fst]. apply in_rev in Hi.
  clear -F Hi Hno. induction F as [|[k' e'] x l r [Hm _] F IH]; [destruct Hi|]. destruct Hi as [->|Hi]; [eapply Hno; [left; reflexivity|exact Hm]|].
  apply IH; [|exact Hi]. intros. eapply Hno; [right|]; eauto.
Qed.
Example C106_ex : exists s l, section_of xcfg "sources.statsd.primary" s /\ tget s "mapping" = Some (TTab l) /\ map fst l = ["m1"; "m2"] /\
  exists c, In ("sources.statsd.primary", CStatsd c) (components xargs) /\ sd_masks c = [("b", [fzero; fone]); ("a", [fone])].
Proof.
  do 2 eexists. split; [apply (SO_source _ "statsd" "primary"); [cbn; tauto|]; eexists; split; [reflexivity|cbn; right; left; reflexivity]|]. split; [reflexivity|]. split; [reflexivity|].
  eexists. split; [cbn; do 9 right; left; reflexivity|reflexivity].
Qed.
Print Assumptions C106_last_mapping_wins.
Print Assumptions C106_no_mapping.

(** ** C107: from the file to the running process: once everything runs, each source
    and each filter that has a section sends to the components listed under
    "forwards" there, each of them once.  (Two file sources with the same path
    excluded: C99.) *)
Lemma forall2_in {A B} (R : A -> B -> Prop) l r x : Forall2 R l r -> In x l -> exists y, In y r /\ R x y.
Proof. induction 1 as [|a b l r Hr F IH]; [intros []|]. intros [->|Hi]; [exists b; split; [left; reflexivity|exact Hr]|]. destruct (IH Hi) as (y & Hy & Hr'). exists y. split; [right|]; assumption. Qed.
Theorem C107_forwards : forall (H : Host) t a g st id s c,
  toml_ok t -> (forall p q, show_str p = show_str q -> p = q) -> paths_differ t ->
  parse_config t = Going a -> wires a g -> wire g = Going st ->
  section_of t id s -> In (id, c) (components a) -> is_sender c = true ->
  exists sends, (In (id, sends) (t_sources st) \/ exists sources, In (id, (sources, sends)) (t_filters st)) /\
    lists sends (fun v => exists l, tget s "forwards" = Some (TArr l) /\ In (TStr v) l).
Proof.
  intros H t a g st id s c Hk Hs Hp E W Hw S Hin Hc. destruct (C99_ids_distinct_partial _ _ _ Hk Hs Hp E) as [_ Hd]. specialize (Hd g W).
  destruct (C51_one_sender_per_forward g st Hd Hw) as [F1 F2]. pose proof (sender_in _ _ _ Hin Hc) as Hs'.
  destruct (parse_inv _ _ E) as (gt & P). apply (built_iff _ _ _ Hk P) in Hin. pose proof (made_forwards _ _ _ _ _ (built_made _ _ _ _ _ _ Hk Hin S) Hc) as Hf.
  destruct W as (P1 & P2 & P3 & P4). destruct (is_filter c).
  - apply (Permutation_in _ (Permutation_sym P2)) in Hs'. destruct (forall2_in _ _ _ _ F2 Hs') as ([id' [so se]] & Hi & Ei & Hn & Hl). cbn [fst snd] in *. subst id'.
    exists se. split; [right; exists so; exact Hi|]. split; [exact Hn|]. intros v. rewrite Hl. apply (forwards_of_spec _ _ Hf).
  - assert (Hs'' : In (id, forwards_to c) (g_natives g ++ g_sources g)) by (eapply Permutation_in; [apply Permutation_sym, Permutation_app; eassumption|exact Hs']).
    destruct (forall2_in _ _ _ _ F1 Hs'') as ([id' se] & Hi & Ei & Hn & Hl). cbn [fst snd] in *. subst id'.
    exists se. split; [left; exact Hi|]. split; [exact Hn|]. intros v. rewrite Hl. apply (forwards_of_spec _ _ Hf).
Qed.
Definition xstarted : started := mkStarted
  [("sinks.null", ["sources.files.'/log/a'"; "sources.files.'/log/b'"]); ("sinks.console", ["sources.internal"; "sources.statsd.primary"]);
   ("sinks.prometheus", []); ("sinks.influxdb", []); ("sinks.kafka.k", ["filters.json_encode.j"])]
  [("filters.delay.two", (["sources.native.primary"; "sources.statsd.primary"], ["filters.json_encode.j"])); ("filters.json_encode.j", (["filters.delay.two"], ["sinks.kafka.k"]))]
  [("sources.native.primary", ["filters.delay.two"]); ("sources.internal", ["sinks.console"]); ("sources.statsd.primary", ["filters.delay.two"; "sinks.console"]);
   ("sources.files.'/log/a'", ["sinks.null"]); ("sources.files.'/log/b'", ["sinks.null"])]
  ["filters.delay.two"; "sinks.console"; "sinks.null"].
Example C107_ex : wires xargs (main_config xargs) /\ wire (main_config xargs) = Going xstarted.
Proof. split; [split; [|split; [|split]]; apply Permutation_refl|lazy; reflexivity]. Qed.
Print Assumptions C107_forwards.
