(** * C134: a component's settings are those of its section, or the defaults. *)
From Verif Require Import Base BaseFacts FloatFacts TelemetryModel ParseModel TopologyModel TopologySpec TopologyProps ConfigModel ConfigSpec ConfigProofs ConfigProps SettingsSpec.
From Coq Require Import Lia.
Open Scope string_scope. Open Scope list_scope. Open Scope nat_scope.

Lemma field_text s k d v : field s k as_str d = Going v -> given TStr (tget s k) v (Some d).
Proof. unfold field, given. destruct (tget s k) as [x|]; [|intros [= ->]; reflexivity]. intros E. apply expect_going in E. destruct x; try discriminate. injection E as ->. reflexivity. Qed.
Lemma field_must s k v : field s k (fun v => option_map Some (as_str v)) None = Going (Some v) -> given TStr (tget s k) v None.
Proof. unfold field, given. destruct (tget s k) as [x|]; [|discriminate]. intros E. apply expect_going in E. destruct x; try discriminate. injection E as ->. reflexivity. Qed.
Lemma field_bool s k d v : field s k as_bool d = Going v -> given TBool (tget s k) v (Some d).
Proof. unfold field, given. destruct (tget s k) as [x|]; [|intros [= ->]; reflexivity]. intros E. apply expect_going in E. destruct x; try discriminate. injection E as ->. reflexivity. Qed.
Lemma field_num s k cast d v lo hi : (forall z, (lo <= z < hi)%Z -> cast z = z) -> field s k (num cast) d = Going v -> given_num (tget s k) v (Some d) lo hi.
Proof.
  intros Hc. unfold field, given_num. destruct (tget s k) as [x|]; [|intros [= ->]; reflexivity]. intros E. apply expect_going in E. unfold num in E.
  destruct x; try discriminate. injection E as <-. eauto.
Qed.
Lemma field_int' s k d v lo hi : field s k as_integer d = Going v -> given_num (tget s k) v (Some d) lo hi.
Proof.
  unfold field, given_num. destruct (tget s k) as [x|]; [|intros [= ->]; reflexivity]. intros E. apply expect_going in E.
  destruct x; try discriminate. injection E as ->. eauto.
Qed.
Lemma u8_fits z : (0 <= z < 2 ^ 8)%Z -> to_u8 z = z. Proof. apply Z.mod_small. Qed.
Lemma u16_fits z : (0 <= z < 2 ^ 16)%Z -> to_u16 z = z. Proof. apply Z.mod_small. Qed.
Lemma u64_fits z : (0 <= z < 2 ^ 63)%Z -> to_u64 z = z. Proof. intros H. apply Z.mod_small. lia. Qed.

Ltac opened E := unbind E; try match type of E with match ?o with _ => _ end = _ => destruct o eqn:?; try discriminate E; opened E end.
Ltac open_made M :=
  destruct M as [| s c E| s c E| s c E| s c E| s c E| s c E|n s c E|n s x E|n s x E|n s x E|n s x E|n s x E|n s x E|n s x E|n s x E|s c E];
  [|unfold parse_console in E|unfold parse_wavefront in E|unfold parse_influx in E|unfold parse_prometheus in E|unfold parse_elastic in E|unfold parse_nsink in E
   |cbn [parse_kafka] in E|cbn [parse_delay] in E|cbn [parse_json] in E|cbn [parse_boundary] in E|cbn [parse_prog] in E|cbn [parse_statsd] in E|cbn [parse_tcp] in E
   |cbn [parse_tcp] in E|cbn [parse_nsource] in E|cbn [parse_internal] in E]; [|opened E..].

Section Made.
Context {H : Host}.
Lemma made_texts fi dir gt s c k v d : made fi dir gt s c -> In (k, v, d) (texts c) -> given TStr (tget s k) v d.
Proof.
  intros M. open_made M; subst; cbn; intros Hin; repeat (destruct Hin as [[= <- <- <-]|Hin]); try contradiction; try (apply field_text; assumption).
  all: apply field_must; assumption.
Qed.
Lemma made_switches fi dir gt s c k v d : made fi dir gt s c -> In (k, v, d) (switches c) -> given TBool (tget s k) v d.
Proof. intros M. open_made M; subst; cbn; intros Hin; repeat (destruct Hin as [[= <- <- <-]|Hin]); try contradiction; apply field_bool; assumption. Qed.
Lemma made_numbers fi dir gt s c k v d lo hi : made fi dir gt s c -> In ((k, v, d), (lo, hi)) (numbers c) -> given_num (tget s k) v d lo hi.
Proof.
  intros M. open_made M; subst; cbn [texts numbers In]; intros Hin; repeat (destruct Hin as [Hin|Hin]; [injection Hin as <- <- <- <- <-|]); try contradiction; cbn.
  all: try (apply field_int'; assumption).
  all: try (eapply field_num; [|eassumption]; first [exact u16_fits|exact u64_fits|exact u8_fits]).
  all: match goal with E : expect (as_integer ?x) = Going _ |- _ => apply expect_going in E; destruct x; try discriminate E; injection E as -> end; rewrite Heqo; cbn.
  - eauto.
  - eexists. split; [reflexivity|]. intros Hz. apply u64_fits. exact Hz.
Qed.
End Made.

(** ** The theorems *)
Lemma section_ok t id s : toml_ok t -> section_of t id s -> toml_ok s.
Proof.
  intros Hk S. assert (N : forall sec kind n, named t sec kind n s -> toml_ok s).
  { intros sec kind n (l & E & Hi). pose proof (at2_ok _ _ _ _ Hk E) as Hl. inversion Hl as [| | | | | |l' _ Hf]; subst. rewrite Forall_forall in Hf. exact (Hf _ Hi). }
  destruct S; eauto using at2_ok.
Qed.
Section Common.
Context (H : Host) (t : toml) (a : args) (id : string) (s : toml) (c : comp).
Lemma made_of : toml_ok t -> parse_config t = Going a -> section_of t id s -> In (id, c) (components a) -> exists gt, made (a_flush a) (a_scripts a) gt s c.
Proof. intros Hk E S Hin. destruct (parse_inv _ _ E) as (gt & P). apply (built_iff _ _ _ Hk P) in Hin. exists gt. exact (built_made _ _ _ _ _ _ Hk Hin S). Qed.
End Common.
(** The name a source is configured with is the last part of its id, for native sources it is the id. *)
Theorem C134_source_names : forall (H : Host) t a id c, toml_ok t -> parse_config t = Going a -> In (id, c) (components a) ->
  match c with
  | CStatsd x => id = ("sources.statsd." ++ sd_name x)%string
  | CGraphite x => id = ("sources.graphite." ++ tc_name x)%string
  | CAvro x => id = ("sources.avro." ++ tc_name x)%string
  | CNsource x => id = tc_name x
  | _ => True
  end.
Proof.
  intros H t a id c Hk E Hin. destruct (parse_inv _ _ E) as (gt & P). apply (built_iff _ _ _ Hk P) in Hin.
  destruct Hin as [| | | | | | | | | | | | |n s x E1 E2|n s x E1 E2|n s x E1 E2|n s x E1 E2|]; auto; [cbn [parse_statsd] in E2|cbn [parse_tcp] in E2|cbn [parse_tcp] in E2|cbn [parse_nsource] in E2];
    opened E2; subst; reflexivity.
Qed.
Example C134_source_names_ex : parse_config xcfg = Going xargs /\
  In ("sources.native.primary", CNsource (mkTcp "sources.native.primary" 1973 "0.0.0.0" ["filters.delay.two"])) (components xargs) /\
  In ("sources.statsd.primary", CStatsd (mkStatsd "primary" 8125 "localhost" ["filters.delay.two"; "sinks.console"] [("b", [fzero; fone]); ("a", [fone])] (fratio 1 100))) (components xargs).
Proof. split; [reflexivity|]. split; cbn; tauto. Qed.
Print Assumptions C134_source_names.
(** Texts, switches and numbers of every component. *)
Theorem C134_texts : forall (H : Host) t a id s c, toml_ok t -> parse_config t = Going a -> section_of t id s -> In (id, c) (components a) ->
  forall k v d, In (k, v, d) (texts c) -> given TStr (tget s k) v d.
Proof. intros H t a id s c Hk E S Hin k v d Hv. destruct (made_of H t a id s c Hk E S Hin) as (gt & M). exact (made_texts _ _ _ _ _ _ _ _ M Hv). Qed.
Theorem C134_switches : forall (H : Host) t a id s c, toml_ok t -> parse_config t = Going a -> section_of t id s -> In (id, c) (components a) ->
  forall k v d, In (k, v, d) (switches c) -> given TBool (tget s k) v d.
Proof. intros H t a id s c Hk E S Hin k v d Hv. destruct (made_of H t a id s c Hk E S Hin) as (gt & M). exact (made_switches _ _ _ _ _ _ _ _ M Hv). Qed.
Theorem C134_numbers : forall (H : Host) t a id s c, toml_ok t -> parse_config t = Going a -> section_of t id s -> In (id, c) (components a) ->
  forall k v d lo hi, In ((k, v, d), (lo, hi)) (numbers c) -> given_num (tget s k) v d lo hi.
Proof. intros H t a id s c Hk E S Hin k v d lo hi Hv. destruct (made_of H t a id s c Hk E S Hin) as (gt & M). exact (made_numbers _ _ _ _ _ _ _ _ _ _ M Hv). Qed.
(** Settings that may be left open: nothing is used that is not written. *)
Theorem C134_open : forall (H : Host) t a id s c, toml_ok t -> parse_config t = Going a -> section_of t id s -> In (id, c) (components a) ->
  (forall k o, In (k, o) (open_numbers c) -> match tget s k with Some x => exists z, x = TInt z /\ ((0 <= z < 2 ^ 63)%Z -> o = Some z) | None => o = None end) /\
  (forall k o, In (k, o) (open_texts c) -> match tget s k with Some x => exists v, x = TStr v /\ o = Some v | None => o = None end).
Proof.
  intros H t a id s c Hk E S Hin. destruct (made_of H t a id s c Hk E S Hin) as (gt & M). clear E S Hin. split.
  - intros k o. open_made M; subst; cbn [open_numbers In]; intros Hin; repeat (destruct Hin as [Hin|Hin]; [injection Hin as <- <-|]); try contradiction; cbn [wc_age pc_age].
    all: match goal with E : field ?u "age_threshold" _ _ = Going _ |- _ => unfold field in E; destruct (tget u "age_threshold") as [w|]; [|injection E as <-; reflexivity]; apply expect_going in E; destruct w; try discriminate E; injection E as <- end;
      eexists; (split; [reflexivity|]); intros Hz; rewrite u64_fits by exact Hz; reflexivity.
  - intros k o. open_made M; subst; cbn [open_texts In]; intros Hin; repeat (destruct Hin as [Hin|Hin]; [injection Hin as <- <-|]); try contradiction; cbn [ec_prefix].
    match goal with E : field ?u "index-prefix" _ _ = Going _ |- _ => unfold field in E; destruct (tget u "index-prefix") as [w|]; [|injection E as <-; reflexivity]; apply expect_going in E; destruct w; try discriminate E; injection E as <- end.
    eauto.
Qed.
(** The wavefront sink pads what the section says, and nothing else; it reports the percentiles named in the section, or the standard ones. *)
Theorem C134_padding : forall (H : Host) t a s c, toml_ok t -> parse_config t = Going a -> section_of t "sinks.wavefront" s -> In ("sinks.wavefront", CWavefront c) (components a) ->
  forall k b, In (k, b) (paddings (wc_pad c)) -> match tget s "padding" with Some (TTab l) => given TBool (tget (TTab l) k) b (Some false) | _ => b = false end.
Proof.
  intros H t a s c Hk E S Hin k b Hb. destruct (made_of H t a _ s _ Hk E S Hin) as (gt & M). inversion M as [| |s0 c0 Ec| | | | | | | | | | | | | | ]; subst. clear M. unfold parse_wavefront in Ec. unbind Ec. subst c. cbn [wc_pad] in Hb.
  unfold parse_pad in E0. destruct (tget s "padding") as [w|]; [|injection E0 as <-; repeat (destruct Hb as [Hb|Hb]; [injection Hb as <- <-; reflexivity|]); contradiction].
  destruct w as [ | | | | | |l]; cbn [as_table] in E0; try (injection E0 as <-; repeat (destruct Hb as [Hb|Hb]; [injection Hb as <- <-; reflexivity|]); contradiction).
  unbind E0. subst v. cbn [paddings pd_set pd_sum pd_summarize pd_histogram In] in Hb. repeat (destruct Hb as [Hb|Hb]; [injection Hb as <- <-; apply field_bool; assumption|]). contradiction.
Qed.
Theorem C134_percentiles : forall (H : Host) t a s c, toml_ok t -> parse_config t = Going a -> section_of t "sinks.wavefront" s -> In ("sinks.wavefront", CWavefront c) (components a) ->
  match tget s "percentiles" with
  | Some (TTab l) => l = map (fun kv => (fst kv, TFloat (snd kv))) (wc_percentiles c)
  | _ => wc_percentiles c = map (fun kv => (fst kv, fratio (snd kv) 1000)) standard_percentiles
  end.
Proof.
  intros H t a s c Hk E S Hin. destruct (made_of H t a _ s _ Hk E S Hin) as (gt & M). inversion M as [| |s0 c0 Ec| | | | | | | | | | | | | | ]; subst. clear M. unfold parse_wavefront in Ec. unbind Ec. subst c. cbn [wc_percentiles].
  unfold parse_percentiles in E1. destruct (tget s "percentiles") as [w|]; [|injection E1 as <-; vm_compute; reflexivity].
  destruct w as [ | | | | | |l]; cbn [as_table] in E1; try (injection E1 as <-; vm_compute; reflexivity).
  clear - E1. apply each_of_going in E1. induction E1 as [|[k x] [k' f] l r E1 _ IH]; [reflexivity|]. cbn [map fst snd]. rewrite IH. cbn [fst snd] in E1. apply bind_going in E1 as (f0 & Ex & E1). injection E1 as -> ->. apply expect_going in Ex. destruct x; try discriminate Ex. injection Ex as ->. reflexivity.
Qed.

(** The error bound of a statsd source's summaries is a hundredth unless the section says otherwise, and a kafka sink hands
    librdkafka its texts, numbers and switches, a key's last; a programmable filter's script is sought in the directory. *)
Theorem C134_statsd_error : forall (H : Host) t a id s c, toml_ok t -> parse_config t = Going a -> section_of t id s -> In (id, CStatsd c) (components a) ->
  given TFloat (tget s "summarize_error_bound") (sd_error c) (Some (fratio 1 100)).
Proof.
  intros H t a id s c Hk E S Hin. destruct (made_of H t a _ s _ Hk E S Hin) as (gt & M). inversion M as [| | | | | | | | | | | |n s0 x Ec Es Ex| | | | ]; subst. clear M. cbn [parse_statsd] in Ec. opened Ec. subst x. cbn [snd sd_error].
  unfold given. unfold field in E5. destruct (tget s "summarize_error_bound") as [w|]; [|injection E5 as <-; reflexivity]. apply expect_going in E5. destruct w; try discriminate E5. injection E5 as ->. reflexivity.
Qed.
Theorem C134_script : forall (H : Host) t a id s c, toml_ok t -> parse_config t = Going a -> section_of t id s -> In (id, CProg c) (components a) ->
  exists p, tget s "script" = Some (TStr p) /\ gc_script c = path_join (a_scripts a) p /\ gc_directory c = a_scripts a.
Proof.
  intros H t a id s c Hk E S Hin. destruct (made_of H t a _ s _ Hk E S Hin) as (gt & M). inversion M as [| | | | | | | | | | |n s0 x Ec Es Ex| | | | | ]; subst. clear M. cbn [parse_prog] in Ec. opened Ec. subst x. cbn [snd gc_script gc_directory].
  apply expect_going in E0. destruct t0; try discriminate E0. injection E0 as ->. eauto.
Qed.
Theorem C134_rdkafka : forall (H : Host) t a id s c, toml_ok t -> parse_config t = Going a -> section_of t id s -> In (id, CKafka c) (components a) ->
  match tget s "librdkafka" with
  | Some x => exists l m, x = TTab l /\ kc_rdkafka c = Some m /\ forall k v, alookup seqb k m = Some v <->
      exists w, alookup seqb k l = Some w /\ match w with TInt i => v = show_int i | TStr s => v = s | TFloat f => v = show_float f | TBool b => v = (if b then "true" else "false") | _ => False end
  | None => kc_rdkafka c = None
  end.
Proof.
  intros H t a id s c Hk E S Hin. destruct (made_of H t a _ s _ Hk E S Hin) as (gt & M).
  pose proof (section_ok _ _ _ Hk S) as Hs. inversion M as [| | | | | | |n s0 x Ec Es Ex| | | | | | | | | ]; subst. clear M E S Hin Hk. cbn [parse_kafka] in Ec. opened Ec. subst c. cbn [kc_rdkafka].
  unfold parse_rdkafka in E2. destruct (tget s "librdkafka") as [w|] eqn:Ew; [|injection E2 as <-; reflexivity]. apply bind_going in E2 as (l0 & Ex & E2). apply expect_going in Ex. destruct w as [ | | | | | |l]; try discriminate Ex. injection Ex as <-. injection E2 as <-.
  exists l. eexists. split; [reflexivity|]. split; [reflexivity|]. pose proof (get_ok _ _ _ Hs Ew) as Hl. inversion Hl as [| | | | | |l' Hn _]; subst. clear Hs Ew Hl. rewrite as_map_id.
  2:{ clear - Hn. induction l as [|[k w] l IH]; [constructor|]. cbn [flat_map map fst snd] in *. apply NoDup_cons_iff in Hn as [Hx Hn]. specialize (IH Hn). destruct (rdkafka_value w); [|exact IH]. cbn. constructor; [|exact IH].
      intros Hi. apply Hx. apply in_map_iff in Hi as ([k' v'] & Ek & Hi). cbn in Ek. subst k'. apply in_flat_map in Hi as ([k2 w2] & Hi & Hv). cbn in Hv. destruct (rdkafka_value w2); [|contradiction]. destruct Hv as [[= -> _]|[]]. exact (in_map fst _ _ Hi). }
  intros k v. rewrite alookup_in.
  2:{ clear - Hn. induction l as [|[k w] l IH]; [constructor|]. cbn [flat_map map fst snd] in *. apply NoDup_cons_iff in Hn as [Hx Hn]. specialize (IH Hn). destruct (rdkafka_value w); [|exact IH]. cbn. constructor; [|exact IH].
      intros Hi. apply Hx. apply in_map_iff in Hi as ([k' v'] & Ek & Hi). cbn in Ek. subst k'. apply in_flat_map in Hi as ([k2 w2] & Hi & Hv). cbn in Hv. destruct (rdkafka_value w2); [|contradiction]. destruct Hv as [[= -> _]|[]]. exact (in_map fst _ _ Hi). }
  rewrite in_flat_map. split.
  - intros ([k' w] & Hi & Hv). cbn in Hv. exists w. destruct w; cbn in Hv; try contradiction; destruct Hv as [[= <- <-]|[]]; (split; [apply alookup_in; assumption|reflexivity]).
  - intros (w & Hi & Hv). apply (alookup_in _ _ _ Hn) in Hi. exists (k, w). split; [exact Hi|]. cbn. destruct w; try contradiction; subst v; left; reflexivity.
Qed.
(** A statsd, graphite or avro source forwards somewhere. *)
Theorem C134_forwards : forall (H : Host) t a id s c, toml_ok t -> parse_config t = Going a -> section_of t id s -> In (id, c) (components a) ->
  match c with CStatsd _ | CGraphite _ | CAvro _ => forwards_to c <> [] | _ => True end.
Proof.
  intros H t a id s c Hk E S Hin. destruct (made_of H t a _ s _ Hk E S Hin) as (gt & M). clear E S Hin. open_made M; try exact Logic.I; subst; cbn [snd forwards_to sd_forwards tc_forwards].
  all: match goal with E : assert_forwards ?l = Going _ |- _ => destruct l; [discriminate E|discriminate] end.
Qed.
(** File sources: each reads the path of its section, and so many bytes a round. *)
Theorem C134_files : forall (H : Host) t a id c, toml_ok t -> parse_config t = Going a -> In (id, CFile c) (components a) ->
  exists n s, named t "sources" "files" n s /\ tget s "path" = Some (TStr (fc_path c)) /\ given_num (tget s "max_read_bytes") (fc_max_read c) (Some 2048%Z) 0 (2 ^ 63) /\
    forall v, In v (fc_forwards c) <-> exists l, tget s "forwards" = Some (TArr l) /\ In (TStr v) l.
Proof.
  intros H t a id c Hk E Hin. destruct (parse_inv _ _ E) as (gt & P). apply (built_iff _ _ _ Hk P) in Hin.
  inversion Hin as [| | | | | | | | | | | |n s c0 Hn Ec| | | | | ]; subst. exists n, s. split; [exact Hn|]. cbn [parse_file] in Ec. destruct (tget s "path") as [w|]; [|discriminate Ec]. unbind Ec. subst c. cbn [fc_path fc_max_read fc_forwards].
  apply expect_going in E0. destruct w; try discriminate E0. injection E0 as ->. split; [reflexivity|]. split; [exact (field_num _ _ _ _ _ _ _ u64_fits E2)|exact (forwards_of_spec _ _ E1)].
Qed.
(** What is set for the process as a whole. *)
Theorem C134_globals : forall (H : Host) t a, parse_config t = Going a ->
  given_num (tget t "max-hopper-queue-bytes") (a_queue a) (Some 104857600)%Z 0 (2 ^ 63) /\
  given_num (tget t "max-hopper-queue-files") (a_files_max a) (Some 100)%Z 0 (2 ^ 63) /\
  given_num (tget t "max-hopper-in-memory-bytes") (a_memory a) (Some 1048576)%Z 0 (2 ^ 63) /\
  given TStr (tget t "data-directory") (a_data a) (Some "/tmp/cernan-data") /\
  given TStr (tget t "scripts-directory") (a_scripts a) (Some "/tmp/cernan-scripts").
Proof.
  intros H t a E. unfold parse_config in E. unbind E. subst a. cbn [a_queue a_files_max a_memory a_data a_scripts].
  split; [exact (field_num _ _ _ _ _ _ _ u64_fits E0)|]. split; [exact (field_num _ _ _ _ _ _ _ u64_fits E1)|]. split; [exact (field_num _ _ _ _ _ _ _ u64_fits E2)|].
  split; apply field_text; assumption.
Qed.

(** ** Example: the file of C99: what it says of its components, and what it leaves to the defaults *)
Example C134_ex : toml_ok xcfg /\ parse_config xcfg = Going xargs /\
  (exists s, section_of xcfg "sinks.influxdb" s /\ tget s "port" = Some (TInt 8087) /\ tget s "host" = None /\ tget s "secure" = None) /\
  In ("sinks.influxdb", CInflux (mkInflux "sinks.influxdb" 8087 true "localhost" "cernan" 300 xgt)) (components xargs) /\
  (exists s, section_of xcfg "sinks.kafka.k" s /\ tget s "topic" = Some (TStr "t") /\ tget s "brokers" = Some (TStr "b:9092") /\ tget s "max_message_bytes" = None) /\
  In ("sinks.kafka.k", CKafka (mkKafka "sinks.kafka.k" "t" "b:9092" None 200 10485760)) (components xargs).
Proof.
  split; [exact xok|]. split; [exact xparse|]. split; [|split; [cbn; tauto|split; [|cbn; tauto]]].
  - eexists. split; [apply (SO_single _ "influxdb"); [cbn; tauto|reflexivity]|]. repeat split.
  - eexists. split; [apply (SO_kafka _ "k"); eexists; split; [reflexivity|cbn; left; reflexivity]|]. repeat split.
Qed.
(** and a wavefront sink with padding and percentiles *)
Example C134_ex_wavefront : exists a c, let s := TTab [("padding", TTab [("sum", TBool true)]); ("percentiles", TTab [("half", TFloat (fratio 1 2))])] in
  parse_config (TTab [("sinks", TTab [("wavefront", s)])]) = Going a /\ section_of (TTab [("sinks", TTab [("wavefront", s)])]) "sinks.wavefront" s /\
  In ("sinks.wavefront", CWavefront c) (components a) /\ paddings (wc_pad c) = [("set", false); ("sum", true); ("summarize", false); ("histogram", false)] /\ wc_percentiles c = [("half", fratio 1 2)].
Proof.
  set (w := mkWavefront "sinks.wavefront" (mkPad false true false false) [("half", fratio 1 2)] 2878 None "localhost" 1 6000 []).
  exists (mkArgs 1048576 100 104857600 "/tmp/cernan-data" "/tmp/cernan-scripts" 6000 [] [] [] [] None None (Some w) None None None None [] [] (mkInternal "sources.internal" []) [] [] [] []), w.
  cbv zeta. split; [reflexivity|]. split; [apply (SO_single _ "wavefront"); [cbn; tauto|reflexivity]|]. split; [cbn; tauto|split; reflexivity].
Qed.
Print Assumptions C134_texts.
Print Assumptions C134_switches.
Print Assumptions C134_numbers.
Print Assumptions C134_open.
Print Assumptions C134_padding.
Print Assumptions C134_percentiles.
Print Assumptions C134_statsd_error.
Print Assumptions C134_script.
Print Assumptions C134_rdkafka.
Print Assumptions C134_forwards.
Print Assumptions C134_files.
Print Assumptions C134_globals.
