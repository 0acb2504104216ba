(** * Proofs about reading the configuration file. *)
From Verif Require Import Base BaseFacts FloatFacts TelemetryModel ParseModel TopologyModel TopologySpec ConfigModel ConfigSpec.
Open Scope string_scope. Open Scope list_scope. Open Scope nat_scope.

Lemma bind_going {A B} (o : outcome A) (f : A -> outcome B) b : bind o f = Going b -> exists a, o = Going a /\ f a = Going b.
Proof. destruct o; cbn; try discriminate. eauto. Qed.
Ltac unbind H :=
  match type of H with
  | bind _ _ = Going _ => let a := fresh "v" in let E := fresh "E" in apply bind_going in H as (a & E & H); unbind H
  | Going _ = Going _ => injection H as H
  | _ => idtac
  end.
Lemma expect_going {A} (o : option A) a : expect o = Going a -> o = Some a.
Proof. destruct o; cbn; congruence. Qed.

(** ** lists *)
Lemma each_of_going {A B} (f : A -> outcome B) l r : each_of f l = Going r -> Forall2 (fun x y => f x = Going y) l r.
Proof.
  revert r. induction l as [|x l IH]; cbn [each_of]; intros r E; [injection E as <-; constructor|].
  unbind E. subst. constructor; auto.
Qed.
Lemma keep_of_in {A B} (f : A -> outcome (option B)) l r : keep_of f l = Going r ->
  forall b, In b r <-> exists x, In x l /\ f x = Going (Some b).
Proof.
  revert r. induction l as [|x l IH]; cbn [keep_of]; intros r E b.
  - injection E as <-. split; [intros []|intros (x & [] & _)].
  - unbind E. subst. specialize (IH _ E1 b). destruct v as [y|].
    + cbn [In]. rewrite IH. split.
      * intros [<-|(z & Hz & Hf)]; [exists x; auto|exists z; auto].
      * intros (z & [->|Hz] & Hf); [left; congruence|right; eauto].
    + rewrite IH. split; [intros (z & Hz & Hf); exists z; cbn; auto|]. intros (z & [->|Hz] & Hf); [congruence|eauto].
Qed.
Lemma keep_of_all {A B} (f : A -> outcome (option B)) l r : keep_of f l = Going r -> forall x, In x l -> exists o, f x = Going o.
Proof.
  revert r. induction l as [|x l IH]; cbn [keep_of]; intros r E y Hy; [destruct Hy|]. unbind E.
  destruct Hy as [->|Hy]; eauto.
Qed.
(** the kept values in order, when their ids are those of their sections *)
Lemma keep_of_nodup {A B K} (f : A -> outcome (option B)) (ka : A -> K) (kb : B -> K) l r :
  keep_of f l = Going r -> (forall x b, In x l -> f x = Going (Some b) -> kb b = ka x) -> NoDup (map ka l) -> NoDup (map kb r).
Proof.
  revert r. induction l as [|x l IH]; cbn [keep_of map]; intros r E Hk Hn; [injection E as <-; constructor|].
  unbind E. subst. apply NoDup_cons_iff in Hn as [Hx Hn].
  assert (Hr : NoDup (map kb v0)) by (eapply IH; eauto; intros; apply Hk; cbn; auto).
  destruct v as [y|]; [|exact Hr]. cbn [map]. constructor; [|exact Hr].
  intros Hin. apply in_map_iff in Hin as (b & Hb & Hib). apply (keep_of_in _ _ _ E1) in Hib as (z & Hz & Hf).
  apply Hx. apply in_map_iff. exists z. split; [|exact Hz].
  rewrite <- (Hk z b); [|cbn; auto|exact Hf]. rewrite Hb. apply Hk; cbn; auto.
Qed.

Lemma as_map_nodup {A} (l : list (string * A)) : NoDup (map fst (as_map l)).
Proof.
  unfold as_map. assert (G : forall m, NoDup (map fst m) -> NoDup (map fst (fold_left (fun m kv => ainsert seqb (fst kv) (snd kv) m) l m))).
  { induction l as [|[k v] l IH]; cbn [fold_left]; intros m Hm; [exact Hm|]. apply IH. apply (ainsert_NoDup seqb seqb_eq). exact Hm. }
  apply G. constructor.
Qed.
Lemma ainsert_fresh {A} k (v : A) m : ~ In k (map fst m) -> ainsert seqb k v m = m ++ [(k, v)].
Proof.
  induction m as [|[k' v'] m IH]; cbn; intros Hk; [reflexivity|].
  destruct (seqb k k') eqn:E; [apply seqb_eq in E; subst; tauto|]. rewrite IH by tauto. reflexivity.
Qed.
Lemma as_map_id {A} (l : list (string * A)) : NoDup (map fst l) -> as_map l = l.
Proof.
  unfold as_map. change l with ([] ++ l) at 1 3. generalize (@nil (string * A)) as m. induction l as [|[k v] l IH]; intros m Hn.
  - rewrite app_nil_r. reflexivity.
  - cbn [fold_left fst snd]. rewrite ainsert_fresh.
    + specialize (IH (m ++ [(k, v)])). rewrite <- app_assoc in IH. cbn in IH. apply IH. exact Hn.
    + rewrite map_app in Hn. cbn in Hn. apply NoDup_remove_2 in Hn. intros Hin. apply Hn. apply in_or_app. auto.
Qed.
Lemma alookup_in {A} k (v : A) l : NoDup (map fst l) -> (alookup seqb k l = Some v <-> In (k, v) l).
Proof.
  induction l as [|[k' v'] l IH]; cbn [alookup map fst In]; intros Hn; [split; [discriminate|intros []]|].
  apply NoDup_cons_iff in Hn as [Hx Hn]. destruct (seqb k k') eqn:E.
  - apply seqb_eq in E. subst. split; [intros [= ->]; auto|]. intros [[= ->]|Hin]; [reflexivity|]. destruct Hx. apply in_map_iff. exists (k', v). auto.
  - rewrite IH by exact Hn. split; [auto|]. intros [[= -> ->]|Hin]; [|exact Hin]. unfold seqb in E. rewrite String.eqb_refl in E. discriminate.
Qed.

Lemma append_inj p a b : (p ++ a = p ++ b)%string -> a = b.
Proof. induction p as [|c p IH]; cbn; [auto|]. intros [= E]. auto. Qed.

Lemma tab_ok t l : toml_ok t -> as_table t = Some l -> NoDup (map fst l) /\ Forall (fun kv => toml_ok (snd kv)) l.
Proof. intros Hk E. destruct t; try discriminate. injection E as ->. inversion Hk. auto. Qed.
Lemma get_ok t k v : toml_ok t -> tget t k = Some v -> toml_ok v.
Proof.
  intros Hk E. destruct t as [| | | | | |l]; try discriminate. cbn in E. inversion Hk as [| | | | | |l' Hn Hf]; subst.
  apply (alookup_in _ _ _ Hn) in E. apply (proj1 (Forall_forall _ _) Hf _ E).
Qed.
Lemma at2_ok t a b v : toml_ok t -> at2 t a b = Some v -> toml_ok v.
Proof. unfold at2. intros Hk. destruct (tget t a) eqn:E; [|discriminate]. intros E'. eapply get_ok; [|exact E']. eapply get_ok; eauto. Qed.

(** ** one inversion of the whole *)
Section Parse.
Context `{H : Host}.

Lemma top_table_get t k r x : top_table t k = Going r -> tget r x = at2 t k x.
Proof.
  unfold top_table, at2. destruct (tget t k) as [s|]; intros E; [|injection E as <-; reflexivity].
  unbind E. apply expect_going in E0. destruct s; try discriminate. injection E0 as ->. subst. reflexivity.
Qed.
Lemma top_value_get t k x : tget (top_value t k) x = at2 t k x.
Proof. unfold top_value, at2. destruct (tget t k); reflexivity. Qed.

Record parsed (t : toml) (a : args) (gt : tags) : Prop := mkParsed {
  p_tags : parse_tags t = Going gt;
  p_scripts : field t "scripts-directory" as_str "/tmp/cernan-scripts" = Going (a_scripts a);
  p_flush : flush_of t "flush-interval" (60 * flushes_per_second)%Z = Going (a_flush a);
  p_delay : exists l, sections (at2 t "filters" "delay") parse_delay = Going l /\ a_delay a = as_map l;
  p_json : exists l, sections (at2 t "filters" "json_encode") (parse_json gt) = Going l /\ a_json a = as_map l;
  p_boundary : exists l, sections (at2 t "filters" "flush_boundary") parse_boundary = Going l /\ a_boundary a = as_map l;
  p_prog : exists l, sections (at2 t "filters" "programmable") (parse_prog (a_scripts a) gt) = Going l /\ a_programmable a = as_map l;
  p_null : a_null a = option_map (fun _ => "sinks.null") (at2 t "sinks" "null");
  p_console : section (at2 t "sinks" "console") (parse_console (a_flush a) gt) = Going (a_console a);
  p_wavefront : section (at2 t "sinks" "wavefront") (parse_wavefront (a_flush a) gt) = Going (a_wavefront a);
  p_influx : section (at2 t "sinks" "influxdb") (parse_influx (a_flush a) gt) = Going (a_influx a);
  p_prometheus : section (at2 t "sinks" "prometheus") (parse_prometheus gt) = Going (a_prometheus a);
  p_elastic : section (at2 t "sinks" "elasticsearch") (parse_elastic (a_flush a) gt) = Going (a_elastic a);
  p_nsink : section (at2 t "sinks" "native") (parse_nsink (a_flush a) gt) = Going (a_nsink a);
  p_kafkas : sections (at2 t "sinks" "kafka") (parse_kafka (a_flush a)) = Going (a_kafkas a);
  p_files : sections (at2 t "sources" "files") parse_file = Going (a_files a);
  p_statsds : exists l, sections (at2 t "sources" "statsd") parse_statsd = Going l /\ a_statsds a = as_map l;
  p_graphites : exists l, sections (at2 t "sources" "graphite") (parse_tcp "sources.graphite." 2003) = Going l /\ a_graphites a = as_map l;
  p_avros : exists l, sections (at2 t "sources" "avro") (parse_tcp "sources.avro." 2002) = Going l /\ a_avros a = as_map l;
  p_natives : exists l, sections (at2 t "sources" "native") parse_nsource = Going l /\ a_natives a = as_map l;
  p_internal : parse_internal (at2 t "sources" "internal") = Going (a_internal a);
}.
Lemma parse_inv t a : parse_config t = Going a -> exists gt, parsed t a gt.
Proof.
  intros E. unfold parse_config in E. unbind E. subst a. exists v5.
  rewrite !top_value_get in *. rewrite !(top_table_get _ _ _ _ E11) in *. rewrite !(top_table_get _ _ _ _ E19) in *.
  constructor; cbn [a_scripts a_flush a_delay a_json a_boundary a_programmable a_null a_console a_wavefront a_influx a_prometheus
    a_elastic a_nsink a_kafkas a_files a_statsds a_graphites a_avros a_natives a_internal]; eauto.
Qed.

(** ** which components there are, one by one *)
Inductive built (t : toml) (a : args) (gt : tags) : string -> comp -> Prop :=
| B_null s : at2 t "sinks" "null" = Some s -> built t a gt "sinks.null" CNull
| B_console s c : at2 t "sinks" "console" = Some s -> parse_console (a_flush a) gt s = Going c -> built t a gt (cc_path c) (CConsole c)
| B_wavefront s c : at2 t "sinks" "wavefront" = Some s -> parse_wavefront (a_flush a) gt s = Going c -> built t a gt (wc_path c) (CWavefront c)
| B_influx s c : at2 t "sinks" "influxdb" = Some s -> parse_influx (a_flush a) gt s = Going c -> built t a gt (ic_path c) (CInflux c)
| B_prometheus s c : at2 t "sinks" "prometheus" = Some s -> parse_prometheus gt s = Going c -> built t a gt (pc_path c) (CPrometheus c)
| B_elastic s c : at2 t "sinks" "elasticsearch" = Some s -> parse_elastic (a_flush a) gt s = Going c -> built t a gt (ec_path c) (CElastic c)
| B_nsink s c : at2 t "sinks" "native" = Some s -> parse_nsink (a_flush a) gt s = Going c -> built t a gt (nc_path c) (CNsink c)
| B_kafka n s c : named t "sinks" "kafka" n s -> parse_kafka (a_flush a) (n, s) = Going (Some c) -> built t a gt (kc_path c) (CKafka c)
| B_delay n s x : named t "filters" "delay" n s -> parse_delay (n, s) = Going (Some x) -> built t a gt (fst x) (CDelay (snd x))
| B_json n s x : named t "filters" "json_encode" n s -> parse_json gt (n, s) = Going (Some x) -> built t a gt (fst x) (CJson (snd x))
| B_boundary n s x : named t "filters" "flush_boundary" n s -> parse_boundary (n, s) = Going (Some x) -> built t a gt (fst x) (CBoundary (snd x))
| B_prog n s x : named t "filters" "programmable" n s -> parse_prog (a_scripts a) gt (n, s) = Going (Some x) -> built t a gt (fst x) (CProg (snd x))
| B_file n s c : named t "sources" "files" n s -> parse_file (n, s) = Going (Some c) -> built t a gt (fc_id c) (CFile c)
| B_statsd n s x : named t "sources" "statsd" n s -> parse_statsd (n, s) = Going (Some x) -> built t a gt (fst x) (CStatsd (snd x))
| B_graphite n s x : named t "sources" "graphite" n s -> parse_tcp "sources.graphite." 2003 (n, s) = Going (Some x) -> built t a gt (fst x) (CGraphite (snd x))
| B_avro n s x : named t "sources" "avro" n s -> parse_tcp "sources.avro." 2002 (n, s) = Going (Some x) -> built t a gt (fst x) (CAvro (snd x))
| B_nsource n s x : named t "sources" "native" n s -> parse_nsource (n, s) = Going (Some x) -> built t a gt (fst x) (CNsource (snd x))
| B_internal c : parse_internal (at2 t "sources" "internal") = Going c -> built t a gt (nt_path c) (CInternal c).

Lemma sections_in {B} t sec kind (f : string * toml -> outcome (option B)) r : sections (at2 t sec kind) f = Going r ->
  forall b, In b r <-> exists n s, named t sec kind n s /\ f (n, s) = Going (Some b).
Proof.
  intros E b. unfold sections in E. unfold named. destruct (at2 t sec kind) as [v|].
  - unbind E. apply expect_going in E0. destruct v; try discriminate. injection E0 as ->. rewrite (keep_of_in _ _ _ E b). split.
    + intros ([n s] & Hin & Hf). exists n, s. split; [exists v0; auto|exact Hf].
    + intros (n & s & (l & [= <-] & Hin) & Hf). eauto.
  - injection E as <-. split; [intros []|]. intros (n & s & (l & [=] & _) & _).
Qed.
Lemma sections_all {B} t sec kind (f : string * toml -> outcome (option B)) r : sections (at2 t sec kind) f = Going r ->
  forall n s, named t sec kind n s -> exists o, f (n, s) = Going o.
Proof.
  intros E n s (l & El & Hin). rewrite El in E. cbn in E. eapply keep_of_all; eauto.
Qed.
Lemma sections_nodup {B} t sec kind (f : string * toml -> outcome (option B)) (kb : B -> string) pre r : toml_ok t ->
  sections (at2 t sec kind) f = Going r -> (forall n s b, f (n, s) = Going (Some b) -> kb b = (pre ++ n)%string) -> NoDup (map kb r).
Proof.
  intros Hk E Hf. unfold sections in E. destruct (at2 t sec kind) as [v|] eqn:Ea; [|injection E as <-; constructor].
  unbind E. apply expect_going in E0. pose proof (tab_ok _ _ (at2_ok _ _ _ _ Hk Ea) E0) as [Hn _].
  eapply (keep_of_nodup f (fun e => (pre ++ fst e)%string) kb); [exact E| |].
  - intros [n s] b _ Hb. apply (Hf n s b Hb).
  - clear -Hn. induction v0 as [|[k w] l IH]; cbn [map fst] in *; [constructor|]. apply NoDup_cons_iff in Hn as [Hx Hn]. constructor; [|auto].
    intros Hin. apply in_map_iff in Hin as ([k' w'] & Ek & Hi). apply append_inj in Ek. cbn in Ek. subst. apply Hx. apply in_map_iff. exists (k, w'). auto.
Qed.
Lemma section_in {B} (o : option toml) (f : toml -> outcome B) r : section o f = Going r ->
  forall b, In b (olist r) <-> exists s, o = Some s /\ f s = Going b.
Proof.
  intros E b. destruct o as [s|]; cbn in E.
  - unbind E. subst. cbn. split; [intros [<-|[]]; eauto|]. intros (s' & [= <-] & Hf). left. congruence.
  - injection E as <-. cbn. split; [intros []|]. intros (s & [=] & _).
Qed.

(** the id of a named component is its section's *)
Lemma id_delay n s x : parse_delay (n, s) = Going (Some x) -> fst x = ("filters.delay." ++ n)%string.
Proof. cbn. destruct (tget s "tolerance"); [|discriminate]. intros E. unbind E. subst. reflexivity. Qed.
Lemma id_json gt n s x : parse_json gt (n, s) = Going (Some x) -> fst x = ("filters.json_encode." ++ n)%string.
Proof. cbn. intros E. unbind E. subst. reflexivity. Qed.
Lemma id_boundary n s x : parse_boundary (n, s) = Going (Some x) -> fst x = ("filters.flush_boundary." ++ n)%string.
Proof. cbn. destruct (tget s "tolerance"); [|discriminate]. intros E. unbind E. subst. reflexivity. Qed.
Lemma id_prog d gt n s x : parse_prog d gt (n, s) = Going (Some x) -> fst x = ("filters.programmable." ++ n)%string.
Proof. cbn. destruct (tget s "script"); [|discriminate]. intros E. unbind E. subst. reflexivity. Qed.
Lemma id_kafka fi n s c : parse_kafka fi (n, s) = Going (Some c) -> kc_path c = ("sinks.kafka." ++ n)%string.
Proof.
  cbn. intros E. unbind E. destruct v; [|discriminate]. unbind E. destruct v; [|discriminate]. unbind E. destruct v; [|discriminate].
  unbind E. subst. reflexivity.
Qed.
Lemma id_statsd n s x : parse_statsd (n, s) = Going (Some x) -> fst x = ("sources.statsd." ++ n)%string.
Proof. cbn. intros E. unbind E. destruct v; [|discriminate]. unbind E. subst. reflexivity. Qed.
Lemma id_tcp pre d n s x : parse_tcp pre d (n, s) = Going (Some x) -> fst x = (pre ++ n)%string.
Proof. cbn. intros E. unbind E. destruct v; [|discriminate]. unbind E. subst. reflexivity. Qed.
Lemma id_nsource n s x : parse_nsource (n, s) = Going (Some x) -> fst x = ("sources.native." ++ n)%string.
Proof. cbn. intros E. unbind E. destruct v; [|discriminate]. unbind E. subst. reflexivity. Qed.
Lemma id_file n s c : parse_file (n, s) = Going (Some c) -> exists p, tget s "path" = Some (TStr p) /\ fc_id c = ("sources.files." ++ show_str p)%string /\ fc_path c = p.
Proof.
  cbn. destruct (tget s "path"); [|discriminate]. intros E. unbind E. apply expect_going in E0. destruct t; try discriminate. injection E0 as ->.
  subst. eauto.
Qed.

Lemma in_map_pair {A} (f : A -> string) (g : A -> comp) l id c : In (id, c) (map (fun x => (f x, g x)) l) <-> exists x, In x l /\ id = f x /\ c = g x.
Proof. rewrite in_map_iff. split; intros (x & H1 & H2); [injection H1 as <- <-; eauto|]. destruct H2 as [-> ->]. eauto. Qed.

Lemma built_iff t a gt : toml_ok t -> parsed t a gt -> forall id c, In (id, c) (components a) <-> built t a gt id c.
Proof.
  intros Hk P id c.
  destruct (p_delay _ _ _ P) as (ld & Ed & Ad). destruct (p_json _ _ _ P) as (lj & Ej & Aj). destruct (p_boundary _ _ _ P) as (lb & Eb & Ab).
  destruct (p_prog _ _ _ P) as (lp & Ep & Ap). destruct (p_statsds _ _ _ P) as (ls & Es & As). destruct (p_graphites _ _ _ P) as (lg & Eg & Ag).
  destruct (p_avros _ _ _ P) as (la & Ea & Aa). destruct (p_natives _ _ _ P) as (ln & En & An).
  rewrite as_map_id in Ad by (apply (sections_nodup _ _ _ _ fst _ _ Hk Ed id_delay)).
  rewrite as_map_id in Aj by (apply (sections_nodup _ _ _ _ fst _ _ Hk Ej (id_json gt))).
  rewrite as_map_id in Ab by (apply (sections_nodup _ _ _ _ fst _ _ Hk Eb id_boundary)).
  rewrite as_map_id in Ap by (apply (sections_nodup _ _ _ _ fst _ _ Hk Ep (id_prog _ gt))).
  rewrite as_map_id in As by (apply (sections_nodup _ _ _ _ fst _ _ Hk Es id_statsd)).
  rewrite as_map_id in Ag by (apply (sections_nodup _ _ _ _ fst _ _ Hk Eg (id_tcp _ _))).
  rewrite as_map_id in Aa by (apply (sections_nodup _ _ _ _ fst _ _ Hk Ea (id_tcp _ _))).
  rewrite as_map_id in An by (apply (sections_nodup _ _ _ _ fst _ _ Hk En id_nsource)).
  unfold components. rewrite Ad, Aj, Ab, Ap, As, Ag, Aa, An. rewrite !in_app_iff, !in_map_pair.
  split.
  - intros Hin. repeat (destruct Hin as [Hin|Hin]); destruct Hin as (x & Hin & -> & ->).
    + rewrite (p_null _ _ _ P) in Hin. destruct (at2 t "sinks" "null") eqn:E; cbn in Hin; [|destruct Hin]. destruct Hin as [<-|[]]. econstructor. exact E.
    + apply (section_in _ _ _ (p_console _ _ _ P)) in Hin as (s & E1 & E2). econstructor; eauto.
    + apply (section_in _ _ _ (p_wavefront _ _ _ P)) in Hin as (s & E1 & E2). econstructor; eauto.
    + apply (section_in _ _ _ (p_prometheus _ _ _ P)) in Hin as (s & E1 & E2). econstructor; eauto.
    + apply (section_in _ _ _ (p_influx _ _ _ P)) in Hin as (s & E1 & E2). econstructor; eauto.
    + apply (section_in _ _ _ (p_nsink _ _ _ P)) in Hin as (s & E1 & E2). econstructor; eauto.
    + apply (section_in _ _ _ (p_elastic _ _ _ P)) in Hin as (s & E1 & E2). econstructor; eauto.
    + apply (sections_in _ _ _ _ _ (p_kafkas _ _ _ P)) in Hin as (n & s & E1 & E2). econstructor; eauto.
    + apply (sections_in _ _ _ _ _ Ep) in Hin as (n & s & E1 & E2). econstructor; eauto.
    + apply (sections_in _ _ _ _ _ Ed) in Hin as (n & s & E1 & E2). econstructor; eauto.
    + apply (sections_in _ _ _ _ _ Ej) in Hin as (n & s & E1 & E2). econstructor; eauto.
    + apply (sections_in _ _ _ _ _ Eb) in Hin as (n & s & E1 & E2). econstructor; eauto.
    + apply (sections_in _ _ _ _ _ En) in Hin as (n & s & E1 & E2). econstructor; eauto.
    + destruct Hin as [<-|[]]. constructor. apply (p_internal _ _ _ P).
    + apply (sections_in _ _ _ _ _ Es) in Hin as (n & s & E1 & E2). econstructor; eauto.
    + apply (sections_in _ _ _ _ _ Eg) in Hin as (n & s & E1 & E2). econstructor; eauto.
    + apply (sections_in _ _ _ _ _ Ea) in Hin as (n & s & E1 & E2). econstructor; eauto.
    + apply (sections_in _ _ _ _ _ (p_files _ _ _ P)) in Hin as (n & s & E1 & E2). econstructor; eauto.
  - intros B. destruct B as [s E1|s c E1 E2|s c E1 E2|s c E1 E2|s c E1 E2|s c E1 E2|s c E1 E2|n s c E1 E2|n s x E1 E2|n s x E1 E2|n s x E1 E2|n s x E1 E2
      |n s c E1 E2|n s x E1 E2|n s x E1 E2|n s x E1 E2|n s x E1 E2|c E1].
    + left. exists "sinks.null". rewrite (p_null _ _ _ P), E1. cbn. auto.
    + right; left. exists c. split; [apply (section_in _ _ _ (p_console _ _ _ P)); eauto|auto].
    + do 2 right; left. exists c. split; [apply (section_in _ _ _ (p_wavefront _ _ _ P)); eauto|auto].
    + do 4 right; left. exists c. split; [apply (section_in _ _ _ (p_influx _ _ _ P)); eauto|auto].
    + do 3 right; left. exists c. split; [apply (section_in _ _ _ (p_prometheus _ _ _ P)); eauto|auto].
    + do 6 right; left. exists c. split; [apply (section_in _ _ _ (p_elastic _ _ _ P)); eauto|auto].
    + do 5 right; left. exists c. split; [apply (section_in _ _ _ (p_nsink _ _ _ P)); eauto|auto].
    + do 7 right; left. exists c. split; [apply (sections_in _ _ _ _ _ (p_kafkas _ _ _ P)); eauto|auto].
    + do 9 right; left. exists x. split; [apply (sections_in _ _ _ _ _ Ed); eauto|auto].
    + do 10 right; left. exists x. split; [apply (sections_in _ _ _ _ _ Ej); eauto|auto].
    + do 11 right; left. exists x. split; [apply (sections_in _ _ _ _ _ Eb); eauto|auto].
    + do 8 right; left. exists x. split; [apply (sections_in _ _ _ _ _ Ep); eauto|auto].
    + do 17 right. exists c. split; [apply (sections_in _ _ _ _ _ (p_files _ _ _ P)); eauto|auto].
    + do 14 right; left. exists x. split; [apply (sections_in _ _ _ _ _ Es); eauto|auto].
    + do 15 right; left. exists x. split; [apply (sections_in _ _ _ _ _ Eg); eauto|auto].
    + do 16 right; left. exists x. split; [apply (sections_in _ _ _ _ _ Ea); eauto|auto].
    + do 12 right; left. exists x. split; [apply (sections_in _ _ _ _ _ En); eauto|auto].
    + do 13 right; left. exists c. rewrite (p_internal _ _ _ P) in E1. injection E1 as <-. cbn. auto.
Qed.

(** ** the components are those declared *)
Lemma id_console fi gt s c : parse_console fi gt s = Going c -> cc_path c = "sinks.console".
Proof. intros E. unfold parse_console in E. unbind E. subst. reflexivity. Qed.
Lemma id_wavefront fi gt s c : parse_wavefront fi gt s = Going c -> wc_path c = "sinks.wavefront".
Proof. intros E. unfold parse_wavefront in E. unbind E. subst. reflexivity. Qed.
Lemma id_influx fi gt s c : parse_influx fi gt s = Going c -> ic_path c = "sinks.influxdb".
Proof. intros E. unfold parse_influx in E. unbind E. subst. reflexivity. Qed.
Lemma id_prometheus gt s c : parse_prometheus gt s = Going c -> pc_path c = "sinks.prometheus".
Proof. intros E. unfold parse_prometheus in E. unbind E. subst. reflexivity. Qed.
Lemma id_elastic fi gt s c : parse_elastic fi gt s = Going c -> ec_path c = "sinks.elasticsearch".
Proof. intros E. unfold parse_elastic in E. unbind E. subst. reflexivity. Qed.
Lemma id_nsink fi gt s c : parse_nsink fi gt s = Going c -> nc_path c = "sinks.native".
Proof. intros E. unfold parse_nsink in E. unbind E. subst. reflexivity. Qed.
Lemma id_internal o c : parse_internal o = Going c -> nt_path c = "sources.internal".
Proof. destruct o; cbn; intros E; [unbind E|injection E as E]; subst; reflexivity. Qed.

Lemma enabled_true s : enabled s = Going true -> on s.
Proof. unfold enabled, field, on. intros E E'. rewrite E' in E. discriminate. Qed.
Lemma enabled_on s b : on s -> enabled s = Going b -> b = true.
Proof.
  unfold enabled, field, on. destruct (tget s "enabled") as [v|]; [|congruence]. intros Hon E. apply expect_going in E.
  destruct v; try discriminate. injection E as ->. destruct b; congruence.
Qed.
Lemma field_some s k (o : option string) : field s k (fun v => option_map Some (as_str v)) None = Going o -> (has s k <-> o <> None).
Proof.
  unfold field, has. destruct (tget s k) as [v|]; intros E.
  - apply expect_going in E. destruct (as_str v); [|discriminate]. injection E as <-. split; discriminate.
  - injection E as <-. tauto.
Qed.
Lemma keys_kafka fi n s o : parse_kafka fi (n, s) = Going o -> (o <> None <-> on s /\ has s "topic" /\ has s "brokers").
Proof.
  cbn. intros E. unbind E. destruct v.
  - unbind E. pose proof (field_some _ _ _ E1) as Ht. destruct v.
    + unbind E. pose proof (field_some _ _ _ E2) as Hb. destruct v.
      * unbind E. subst o. split; [intros _|discriminate]. split; [apply enabled_true; auto|]. split; [apply Ht|apply Hb]; discriminate.
      * injection E as <-. split; [congruence|]. intros (_ & _ & H3). apply Hb in H3. congruence.
    + injection E as <-. split; [congruence|]. intros (_ & H2 & _). apply Ht in H2. congruence.
  - injection E as <-. split; [congruence|]. intros (Hon & _). apply (enabled_on _ _ Hon) in E0. discriminate.
Qed.
Lemma keys_delay n s o : parse_delay (n, s) = Going o -> (o <> None <-> has s "tolerance").
Proof. cbn. unfold has. destruct (tget s "tolerance"); intros E; unbind E; subst; split; congruence. Qed.
Lemma keys_boundary n s o : parse_boundary (n, s) = Going o -> (o <> None <-> has s "tolerance").
Proof. cbn. unfold has. destruct (tget s "tolerance"); intros E; unbind E; subst; split; congruence. Qed.
Lemma keys_prog d gt n s o : parse_prog d gt (n, s) = Going o -> (o <> None <-> has s "script").
Proof. cbn. unfold has. destruct (tget s "script"); intros E; unbind E; subst; split; congruence. Qed.
Lemma keys_statsd n s o : parse_statsd (n, s) = Going o -> (o <> None <-> on s).
Proof.
  cbn. intros E. unbind E. destruct v; [unbind E; subst; split; [intros _; apply enabled_true; auto|discriminate]|].
  injection E as <-. split; [congruence|]. intros Hon. apply (enabled_on _ _ Hon) in E0. discriminate.
Qed.
Lemma keys_tcp p d n s o : parse_tcp p d (n, s) = Going o -> (o <> None <-> on s).
Proof.
  cbn. intros E. unbind E. destruct v; [unbind E; subst; split; [intros _; apply enabled_true; auto|discriminate]|].
  injection E as <-. split; [congruence|]. intros Hon. apply (enabled_on _ _ Hon) in E0. discriminate.
Qed.
Lemma keys_nsource n s o : parse_nsource (n, s) = Going o -> (o <> None <-> on s).
Proof.
  cbn. intros E. unbind E. destruct v; [unbind E; subst; split; [intros _; apply enabled_true; auto|discriminate]|].
  injection E as <-. split; [congruence|]. intros Hon. apply (enabled_on _ _ Hon) in E0. discriminate.
Qed.

Lemma section_all {B} (o : option toml) (f : toml -> outcome B) r s : section o f = Going r -> o = Some s -> exists b, f s = Going b.
Proof. intros E ->. cbn in E. unbind E. eauto. Qed.
Lemma declared_built t a gt id : parsed t a gt -> declared t id -> exists c, built t a gt id c.
Proof.
  intros P D. destruct D as [k Hin Hs|n s Hn H1 H2 H3|n s Hn H1|n s Hn H1|n s Hn|n s Hn H1|kind n s Hin Hn H1|n s p Hn H1|].
  - destruct (at2 t "sinks" k) as [s|] eqn:E; [|congruence].
    repeat (destruct Hin as [<-|Hin]; [|]); [..|destruct Hin].
    + eexists. econstructor. exact E.
    + destruct (section_all _ _ _ _ (p_console _ _ _ P) E) as (c & Ec). pose proof (id_console _ _ _ _ Ec) as Hid. cbn [append]. rewrite <- Hid. eexists. econstructor; eauto.
    + destruct (section_all _ _ _ _ (p_wavefront _ _ _ P) E) as (c & Ec). pose proof (id_wavefront _ _ _ _ Ec) as Hid. cbn [append]. rewrite <- Hid. eexists. econstructor; eauto.
    + destruct (section_all _ _ _ _ (p_influx _ _ _ P) E) as (c & Ec). pose proof (id_influx _ _ _ _ Ec) as Hid. cbn [append]. rewrite <- Hid. eexists. econstructor; eauto.
    + destruct (section_all _ _ _ _ (p_prometheus _ _ _ P) E) as (c & Ec). pose proof (id_prometheus _ _ _ Ec) as Hid. cbn [append]. rewrite <- Hid. eexists. econstructor; eauto.
    + destruct (section_all _ _ _ _ (p_elastic _ _ _ P) E) as (c & Ec). pose proof (id_elastic _ _ _ _ Ec) as Hid. cbn [append]. rewrite <- Hid. eexists. econstructor; eauto.
    + destruct (section_all _ _ _ _ (p_nsink _ _ _ P) E) as (c & Ec). pose proof (id_nsink _ _ _ _ Ec) as Hid. cbn [append]. rewrite <- Hid. eexists. econstructor; eauto.
  - destruct (sections_all _ _ _ _ _ (p_kafkas _ _ _ P) _ _ Hn) as (o & Eo). pose proof (proj2 (keys_kafka _ _ _ _ Eo) (conj H1 (conj H2 H3))) as Hs.
    destruct o as [c|]; [|tauto]. rewrite <- (id_kafka _ _ _ _ Eo). eexists. econstructor; eauto.
  - destruct (p_delay _ _ _ P) as (l & E & _). destruct (sections_all _ _ _ _ _ E _ _ Hn) as (o & Eo). pose proof (proj2 (keys_delay _ _ _ Eo) H1) as Hs.
    destruct o as [c|]; [|tauto]. rewrite <- (id_delay _ _ _ Eo). eexists. econstructor; eauto.
  - destruct (p_boundary _ _ _ P) as (l & E & _). destruct (sections_all _ _ _ _ _ E _ _ Hn) as (o & Eo). pose proof (proj2 (keys_boundary _ _ _ Eo) H1) as Hs.
    destruct o as [c|]; [|tauto]. rewrite <- (id_boundary _ _ _ Eo). eexists. econstructor; eauto.
  - destruct (p_json _ _ _ P) as (l & E & _). destruct (sections_all _ _ _ _ _ E _ _ Hn) as (o & Eo).
    destruct o as [c|]; [rewrite <- (id_json _ _ _ _ Eo); eexists; eapply B_json; eauto|]. cbn in Eo. unbind Eo. discriminate.
  - destruct (p_prog _ _ _ P) as (l & E & _). destruct (sections_all _ _ _ _ _ E _ _ Hn) as (o & Eo). pose proof (proj2 (keys_prog _ _ _ _ _ Eo) H1) as Hs.
    destruct o as [c|]; [|tauto]. rewrite <- (id_prog _ _ _ _ _ Eo). eexists. eapply B_prog; eauto.
  - repeat (destruct Hin as [<-|Hin]; [|]); [..|destruct Hin]; cbn [append].
    + destruct (p_statsds _ _ _ P) as (l & E & _). destruct (sections_all _ _ _ _ _ E _ _ Hn) as (o & Eo). pose proof (proj2 (keys_statsd _ _ _ Eo) H1) as Hs.
      destruct o as [c|]; [|tauto]. change (exists c0, built t a gt ("sources.statsd." ++ n)%string c0). rewrite <- (id_statsd _ _ _ Eo). eexists. eapply B_statsd; eauto.
    + destruct (p_graphites _ _ _ P) as (l & E & _). destruct (sections_all _ _ _ _ _ E _ _ Hn) as (o & Eo). pose proof (proj2 (keys_tcp _ _ _ _ _ Eo) H1) as Hs.
      destruct o as [c|]; [|tauto]. change (exists c0, built t a gt ("sources.graphite." ++ n)%string c0). rewrite <- (id_tcp _ _ _ _ _ Eo). eexists. eapply B_graphite; eauto.
    + destruct (p_avros _ _ _ P) as (l & E & _). destruct (sections_all _ _ _ _ _ E _ _ Hn) as (o & Eo). pose proof (proj2 (keys_tcp _ _ _ _ _ Eo) H1) as Hs.
      destruct o as [c|]; [|tauto]. change (exists c0, built t a gt ("sources.avro." ++ n)%string c0). rewrite <- (id_tcp _ _ _ _ _ Eo). eexists. eapply B_avro; eauto.
    + destruct (p_natives _ _ _ P) as (l & E & _). destruct (sections_all _ _ _ _ _ E _ _ Hn) as (o & Eo). pose proof (proj2 (keys_nsource _ _ _ Eo) H1) as Hs.
      destruct o as [c|]; [|tauto]. change (exists c0, built t a gt ("sources.native." ++ n)%string c0). rewrite <- (id_nsource _ _ _ Eo). eexists. eapply B_nsource; eauto.
  - destruct (sections_all _ _ _ _ _ (p_files _ _ _ P) _ _ Hn) as (o & Eo). destruct o as [c|].
    + destruct (id_file _ _ _ Eo) as (p' & E1 & E2 & _). rewrite H1 in E1. injection E1 as <-. rewrite <- E2. eexists. eapply B_file; eauto.
    + cbn in Eo. rewrite H1 in Eo. unbind Eo. discriminate.
  - pose proof (p_internal _ _ _ P) as Hi. rewrite <- (id_internal _ _ Hi). eexists. eapply B_internal; eauto.
Qed.
Lemma built_declared t a gt id c : built t a gt id c -> declared t id.
Proof.
  intros B. destruct B as [s E1|s c E1 E2|s c E1 E2|s c E1 E2|s c E1 E2|s c E1 E2|s c E1 E2|n s c E1 E2|n s x E1 E2|n s x E1 E2|n s x E1 E2|n s x E1 E2
      |n s c E1 E2|n s x E1 E2|n s x E1 E2|n s x E1 E2|n s x E1 E2|c E1].
  - apply (D_single t "null"); [cbn; tauto|congruence].
  - rewrite (id_console _ _ _ _ E2). apply (D_single t "console"); [cbn; tauto|congruence].
  - rewrite (id_wavefront _ _ _ _ E2). apply (D_single t "wavefront"); [cbn; tauto|congruence].
  - rewrite (id_influx _ _ _ _ E2). apply (D_single t "influxdb"); [cbn; tauto|congruence].
  - rewrite (id_prometheus _ _ _ E2). apply (D_single t "prometheus"); [cbn; tauto|congruence].
  - rewrite (id_elastic _ _ _ _ E2). apply (D_single t "elasticsearch"); [cbn; tauto|congruence].
  - rewrite (id_nsink _ _ _ _ E2). apply (D_single t "native"); [cbn; tauto|congruence].
  - rewrite (id_kafka _ _ _ _ E2). destruct (proj1 (keys_kafka _ _ _ _ E2)) as (H1 & H2 & H3); [discriminate|]. eapply D_kafka; eauto.
  - rewrite (id_delay _ _ _ E2). eapply D_delay; eauto. apply (keys_delay _ _ _ E2). discriminate.
  - rewrite (id_json _ _ _ _ E2). eapply D_json; eauto.
  - rewrite (id_boundary _ _ _ E2). eapply D_boundary; eauto. apply (keys_boundary _ _ _ E2). discriminate.
  - rewrite (id_prog _ _ _ _ _ E2). eapply D_prog; eauto. apply (keys_prog _ _ _ _ _ E2). discriminate.
  - destruct (id_file _ _ _ E2) as (p & H1 & H2 & _). rewrite H2. eapply D_file; eauto.
  - rewrite (id_statsd _ _ _ E2). eapply (D_source t "statsd"); eauto; [cbn; tauto|]. apply (keys_statsd _ _ _ E2). discriminate.
  - rewrite (id_tcp _ _ _ _ _ E2). eapply (D_source t "graphite"); eauto; [cbn; tauto|]. apply (keys_tcp _ _ _ _ _ E2). discriminate.
  - rewrite (id_tcp _ _ _ _ _ E2). eapply (D_source t "avro"); eauto; [cbn; tauto|]. apply (keys_tcp _ _ _ _ _ E2). discriminate.
  - rewrite (id_nsource _ _ _ E2). eapply (D_source t "native"); eauto; [cbn; tauto|]. apply (keys_nsource _ _ _ E2). discriminate.
  - rewrite (id_internal _ _ E1). apply D_internal.
Qed.

(** ** ids *)
Definition under (p x : string) : Prop := exists n, x = (p ++ n)%string.
Definition apart (p q : string) : Prop := forall x y, (p ++ x)%string <> (q ++ y)%string.
Lemma nodup_app {A} (l1 l2 : list A) : NoDup l1 -> NoDup l2 -> (forall x, In x l1 -> In x l2 -> False) -> NoDup (l1 ++ l2).
Proof.
  induction l1 as [|x l IH]; cbn; intros H1 H2 Hd; [exact H2|]. apply NoDup_cons_iff in H1 as [Hx Hl]. constructor.
  - rewrite in_app_iff. intros [Hi|Hi]; [tauto|]. eapply Hd; eauto.
  - apply IH; auto. intros y Hy1 Hy2. eapply Hd; eauto.
Qed.
Lemma nodup_join (L : list (string * list string)) :
  Forall (fun pl => NoDup (snd pl) /\ Forall (under (fst pl)) (snd pl)) L -> ForallOrdPairs apart (map fst L) -> NoDup (List.concat (map snd L)).
Proof.
  induction L as [|[p l] L IH]; cbn [map fst snd List.concat]; intros F O; [constructor|].
  inversion F as [|x y [Hn Hu] F']; subst. inversion O as [|x y Oa O']; subst. cbn [fst snd] in *. apply nodup_app; [exact Hn|auto|].
  intros x Hx Hc. apply in_concat in Hc as (l' & Hl' & Hxl). apply in_map_iff in Hl' as ([q l''] & <- & Hq). cbn [snd] in Hxl.
  destruct (proj1 (Forall_forall _ _) Hu x Hx) as (n & ->). pose proof (proj1 (Forall_forall _ _) F' _ Hq) as [_ Hu']. cbn [fst snd] in Hu'.
  destruct (proj1 (Forall_forall _ _) Hu' _ Hxl) as (m & Em). cbn [fst] in Em.
  eapply (proj1 (Forall_forall _ _) Oa q); [|exact Em]. apply in_map_iff. exists (q, l''). auto.
Qed.
Lemma sections_under {B} t sec kind (f : string * toml -> outcome (option B)) (kb : B -> string) pre r :
  sections (at2 t sec kind) f = Going r -> (forall n s b, f (n, s) = Going (Some b) -> kb b = (pre ++ n)%string) -> Forall (under pre) (map kb r).
Proof.
  intros E Hf. apply Forall_forall. intros x Hx. apply in_map_iff in Hx as (b & <- & Hb). apply (sections_in _ _ _ _ _ E) in Hb as (n & s & _ & Hb).
  exists n. eapply Hf; eauto.
Qed.
Lemma section_id {B} (o : option toml) (f : toml -> outcome B) (kb : B -> string) p r :
  section o f = Going r -> (forall s b, f s = Going b -> kb b = p) -> NoDup (map kb (olist r)) /\ Forall (under p) (map kb (olist r)).
Proof.
  intros E Hf. destruct o as [s|]; cbn in E; [|injection E as <-; cbn; split; constructor].
  unbind E. subst. cbn. rewrite (Hf _ _ E0). split; [constructor; [intros []|constructor]|]. constructor; [|constructor].
  exists "". clear. induction p; cbn; [reflexivity|f_equal; exact IHp].
Qed.

Lemma components_ids a : map fst (components a) = g_sinks (main_config a) ++ map fst (senders_of (main_config a)).
Proof.
  unfold components, main_config, senders_of. cbn [g_sinks g_filters g_natives g_sources]. rewrite !map_app, !map_map. cbn [fst].
  rewrite (map_id (olist (a_null a))). rewrite <- !app_assoc. reflexivity.
Qed.
Lemma components_ids_concat a : map fst (components a) = List.concat [
  olist (a_null a); map cc_path (olist (a_console a)); map wc_path (olist (a_wavefront a)); map pc_path (olist (a_prometheus a));
  map ic_path (olist (a_influx a)); map nc_path (olist (a_nsink a)); map ec_path (olist (a_elastic a)); map kc_path (a_kafkas a);
  map fst (a_programmable a); map fst (a_delay a); map fst (a_json a); map fst (a_boundary a); map fst (a_natives a); [nt_path (a_internal a)];
  map fst (a_statsds a); map fst (a_graphites a); map fst (a_avros a); map fc_id (a_files a)].
Proof.
  unfold components. rewrite !map_app, !map_map. cbn [fst List.concat]. rewrite (map_id (olist (a_null a))). rewrite app_nil_r. reflexivity.
Qed.

Lemma keep_of_nodup_inj {A B} (f : A -> outcome (option B)) (kb : B -> string) l r :
  keep_of f l = Going r -> NoDup l -> (forall x x' b b', In x l -> In x' l -> f x = Going (Some b) -> f x' = Going (Some b') -> kb b = kb b' -> x = x') ->
  NoDup (map kb r).
Proof.
  revert r. induction l as [|x l IH]; cbn [keep_of]; intros r E Hn Hi; [injection E as <-; constructor|].
  unbind E. subst. apply NoDup_cons_iff in Hn as [Hx Hn].
  assert (Hr : NoDup (map kb v0)). { eapply IH; eauto. intros. eapply Hi; cbn; eauto. }
  destruct v as [y|]; [|exact Hr]. cbn [map]. constructor; [|exact Hr]. intros Hin. apply in_map_iff in Hin as (b & Hb & Hib).
  apply (keep_of_in _ _ _ E1) in Hib as (z & Hz & Hf). assert (z = x) by (eapply Hi; cbn; eauto). congruence.
Qed.
Lemma ids_nodup t a gt : toml_ok t -> parsed t a gt -> (forall p q, show_str p = show_str q -> p = q) -> paths_differ t -> NoDup (map fst (components a)).
Proof.
  intros Hk P Hshow Hp. rewrite components_ids_concat.
  destruct (p_delay _ _ _ P) as (ld & Ed & Ad). destruct (p_json _ _ _ P) as (lj & Ej & Aj). destruct (p_boundary _ _ _ P) as (lb & Eb & Ab).
  destruct (p_prog _ _ _ P) as (lp & Ep & Ap). destruct (p_statsds _ _ _ P) as (ls & Es & As). destruct (p_graphites _ _ _ P) as (lg & Eg & Ag).
  destruct (p_avros _ _ _ P) as (la & Ea & Aa). destruct (p_natives _ _ _ P) as (ln & En & An).
  pose proof (sections_nodup _ _ _ _ fst _ _ Hk Ed id_delay) as Nd. rewrite as_map_id in Ad by exact Nd.
  pose proof (sections_nodup _ _ _ _ fst _ _ Hk Ej (id_json gt)) as Nj. rewrite as_map_id in Aj by exact Nj.
  pose proof (sections_nodup _ _ _ _ fst _ _ Hk Eb id_boundary) as Nb. rewrite as_map_id in Ab by exact Nb.
  pose proof (sections_nodup _ _ _ _ fst _ _ Hk Ep (id_prog _ gt)) as Np. rewrite as_map_id in Ap by exact Np.
  pose proof (sections_nodup _ _ _ _ fst _ _ Hk Es id_statsd) as Ns. rewrite as_map_id in As by exact Ns.
  pose proof (sections_nodup _ _ _ _ fst _ _ Hk Eg (id_tcp _ _)) as Ng. rewrite as_map_id in Ag by exact Ng.
  pose proof (sections_nodup _ _ _ _ fst _ _ Hk Ea (id_tcp _ _)) as Na. rewrite as_map_id in Aa by exact Na.
  pose proof (sections_nodup _ _ _ _ fst _ _ Hk En id_nsource) as Nn. rewrite as_map_id in An by exact Nn.
  rewrite Ad, Aj, Ab, Ap, As, Ag, Aa, An.
  apply (nodup_join [("sinks.null", _); ("sinks.console", _); ("sinks.wavefront", _); ("sinks.prometheus", _); ("sinks.influxdb", _); ("sinks.native", _);
    ("sinks.elasticsearch", _); ("sinks.kafka.", _); ("filters.programmable.", _); ("filters.delay.", _); ("filters.json_encode.", _);
    ("filters.flush_boundary.", _); ("sources.native.", _); ("sources.internal", _); ("sources.statsd.", _); ("sources.graphite.", _);
    ("sources.avro.", _); ("sources.files.", _)]).
  - repeat apply Forall_cons; cbn [fst snd]; [..|apply Forall_nil].
    + rewrite (p_null _ _ _ P). destruct (at2 t "sinks" "null"); cbn; split; repeat constructor; try (intros []). exists "". reflexivity.
    + apply (section_id _ _ _ _ _ (p_console _ _ _ P)). intros; eapply id_console; eauto.
    + apply (section_id _ _ _ _ _ (p_wavefront _ _ _ P)). intros; eapply id_wavefront; eauto.
    + apply (section_id _ _ _ _ _ (p_prometheus _ _ _ P)). intros; eapply id_prometheus; eauto.
    + apply (section_id _ _ _ _ _ (p_influx _ _ _ P)). intros; eapply id_influx; eauto.
    + apply (section_id _ _ _ _ _ (p_nsink _ _ _ P)). intros; eapply id_nsink; eauto.
    + apply (section_id _ _ _ _ _ (p_elastic _ _ _ P)). intros; eapply id_elastic; eauto.
    + split; [apply (sections_nodup _ _ _ _ kc_path _ _ Hk (p_kafkas _ _ _ P) (id_kafka _))|apply (sections_under _ _ _ _ kc_path _ _ (p_kafkas _ _ _ P) (id_kafka _))].
    + split; [exact Np|apply (sections_under _ _ _ _ fst _ _ Ep (id_prog _ gt))].
    + split; [exact Nd|apply (sections_under _ _ _ _ fst _ _ Ed id_delay)].
    + split; [exact Nj|apply (sections_under _ _ _ _ fst _ _ Ej (id_json gt))].
    + split; [exact Nb|apply (sections_under _ _ _ _ fst _ _ Eb id_boundary)].
    + split; [exact Nn|apply (sections_under _ _ _ _ fst _ _ En id_nsource)].
    + rewrite (id_internal _ _ (p_internal _ _ _ P)). split; repeat constructor; [intros []|]. exists "". reflexivity.
    + split; [exact Ns|apply (sections_under _ _ _ _ fst _ _ Es id_statsd)].
    + split; [exact Ng|apply (sections_under _ _ _ _ fst _ _ Eg (id_tcp _ _))].
    + split; [exact Na|apply (sections_under _ _ _ _ fst _ _ Ea (id_tcp _ _))].
    + split.
      * pose proof (p_files _ _ _ P) as E. unfold sections in E. destruct (at2 t "sources" "files") as [v|] eqn:Ev; [|injection E as <-; constructor].
        unbind E. apply expect_going in E0. pose proof (tab_ok _ _ (at2_ok _ _ _ _ Hk Ev) E0) as [Hn _]. destruct v; try discriminate. injection E0 as ->.
        eapply keep_of_nodup_inj; [exact E|apply (NoDup_map_inv _ _ Hn)|].
        intros [n s] [n' s'] b b' Hi Hi' Hf Hf' Hid.
        destruct (id_file _ _ _ Hf) as (p & E1 & E2 & _). destruct (id_file _ _ _ Hf') as (p' & E1' & E2' & _).
        rewrite E2, E2' in Hid. apply append_inj in Hid. apply Hshow in Hid. subst p'.
        assert (n = n') by (apply (Hp n n' s s' p); auto; exists v0; auto). subst n'.
        apply (alookup_in _ _ _ Hn) in Hi, Hi'. congruence.
      * apply Forall_forall. intros x Hx. apply in_map_iff in Hx as (c & <- & Hc). apply (sections_in _ _ _ _ _ (p_files _ _ _ P)) in Hc as (n & s & _ & Hf).
        destruct (id_file _ _ _ Hf) as (p & _ & E2 & _). exists (show_str p). exact E2.
  - cbn [map fst]. repeat apply FOP_cons; [..|apply FOP_nil]; repeat apply Forall_cons; try apply Forall_nil; intros x y E; discriminate E.
Qed.

(** ** a component is made of its section *)
Inductive made (fi : Z) (dir : string) (gt : tags) : toml -> comp -> Prop :=
| M_null s : made fi dir gt s CNull
| M_console s c : parse_console fi gt s = Going c -> made fi dir gt s (CConsole c)
| M_wavefront s c : parse_wavefront fi gt s = Going c -> made fi dir gt s (CWavefront c)
| M_influx s c : parse_influx fi gt s = Going c -> made fi dir gt s (CInflux c)
| M_prometheus s c : parse_prometheus gt s = Going c -> made fi dir gt s (CPrometheus c)
| M_elastic s c : parse_elastic fi gt s = Going c -> made fi dir gt s (CElastic c)
| M_nsink s c : parse_nsink fi gt s = Going c -> made fi dir gt s (CNsink c)
| M_kafka n s c : parse_kafka fi (n, s) = Going (Some c) -> made fi dir gt s (CKafka c)
| M_delay n s x : parse_delay (n, s) = Going (Some x) -> made fi dir gt s (CDelay (snd x))
| M_json n s x : parse_json gt (n, s) = Going (Some x) -> made fi dir gt s (CJson (snd x))
| M_boundary n s x : parse_boundary (n, s) = Going (Some x) -> made fi dir gt s (CBoundary (snd x))
| M_prog n s x : parse_prog dir gt (n, s) = Going (Some x) -> made fi dir gt s (CProg (snd x))
| M_statsd n s x : parse_statsd (n, s) = Going (Some x) -> made fi dir gt s (CStatsd (snd x))
| M_graphite n s x : parse_tcp "sources.graphite." 2003 (n, s) = Going (Some x) -> made fi dir gt s (CGraphite (snd x))
| M_avro n s x : parse_tcp "sources.avro." 2002 (n, s) = Going (Some x) -> made fi dir gt s (CAvro (snd x))
| M_nsource n s x : parse_nsource (n, s) = Going (Some x) -> made fi dir gt s (CNsource (snd x))
| M_internal s c : parse_internal (Some s) = Going c -> made fi dir gt s (CInternal c).

Lemma named_fun t sec kind n s s' : toml_ok t -> named t sec kind n s -> named t sec kind n s' -> s = s'.
Proof.
  intros Hk (l & E & Hi) (l' & E' & Hi'). rewrite E in E'. injection E' as <-.
  pose proof (tab_ok _ l (at2_ok _ _ _ _ Hk E) eq_refl) as [Hn _]. apply (alookup_in _ _ _ Hn) in Hi, Hi'. congruence.
Qed.
Ltac cases_in Hin := repeat (destruct Hin as [<-|Hin]; [|]); [..|destruct Hin].
Lemma section_cases t id s : section_of t id s ->
  (exists k, In k single_sinks /\ at2 t "sinks" k = Some s /\ id = ("sinks." ++ k)%string) \/
  (exists n, named t "sinks" "kafka" n s /\ id = ("sinks.kafka." ++ n)%string) \/
  (exists kind n, In kind filter_kinds /\ named t "filters" kind n s /\ id = ("filters." ++ kind ++ "." ++ n)%string) \/
  (exists kind n, In kind source_kinds /\ named t "sources" kind n s /\ id = ("sources." ++ kind ++ "." ++ n)%string) \/
  (at2 t "sources" "internal" = Some s /\ id = "sources.internal").
Proof. intros S. destruct S; eauto 10. Qed.
Ltac section_cases S := apply section_cases in S as [(k' & Hin' & E & Eq)|[(n' & Hn & Eq)|[(kind' & n' & Hin' & Hn & Eq)|[(kind' & n' & Hin' & Hn & Eq)|(E & Eq)]]]].
Lemma section_single t k s : In k single_sinks -> section_of t ("sinks." ++ k)%string s -> at2 t "sinks" k = Some s.
Proof.
  intros Hin S. section_cases S; try discriminate Eq.
  - apply (append_inj "sinks.") in Eq. subst k'. exact E.
  - exfalso. cases_in Hin; discriminate Eq.
Qed.
Lemma section_kafka t n s : section_of t ("sinks.kafka." ++ n)%string s -> named t "sinks" "kafka" n s.
Proof.
  intros S. section_cases S; try discriminate Eq.
  - exfalso. cases_in Hin'; discriminate Eq.
  - apply (append_inj "sinks.kafka.") in Eq. subst n'. exact Hn.
Qed.
Lemma section_filter t kind n s : In kind filter_kinds -> section_of t ("filters." ++ kind ++ "." ++ n)%string s -> named t "filters" kind n s.
Proof.
  intros Hin S. section_cases S; try discriminate Eq.
  cases_in Hin; cases_in Hin'; try discriminate Eq; injection Eq as ->; exact Hn.
Qed.
Lemma section_source t kind n s : In kind source_kinds -> section_of t ("sources." ++ kind ++ "." ++ n)%string s -> named t "sources" kind n s.
Proof.
  intros Hin S. section_cases S; try discriminate Eq.
  - cases_in Hin; cases_in Hin'; try discriminate Eq; injection Eq as ->; exact Hn.
  - exfalso. cases_in Hin; discriminate Eq.
Qed.
Lemma section_internal t s : section_of t "sources.internal" s -> at2 t "sources" "internal" = Some s.
Proof. intros S. section_cases S; try discriminate Eq; [|exact E]. exfalso. cases_in Hin'; discriminate Eq. Qed.
Lemma section_not_file t p s : ~ section_of t ("sources.files." ++ p)%string s.
Proof. intros S. section_cases S; try discriminate Eq. cases_in Hin'; discriminate Eq. Qed.
Lemma built_made t a gt id c s : toml_ok t -> built t a gt id c -> section_of t id s -> made (a_flush a) (a_scripts a) gt s c.
Proof.
  intros Hk B. destruct B as [s0 E1|s0 c E1 E2|s0 c E1 E2|s0 c E1 E2|s0 c E1 E2|s0 c E1 E2|s0 c E1 E2|n s0 c E1 E2|n s0 x E1 E2|n s0 x E1 E2|n s0 x E1 E2|n s0 x E1 E2
      |n s0 c E1 E2|n s0 x E1 E2|n s0 x E1 E2|n s0 x E1 E2|n s0 x E1 E2|c E1]; intros S.
  - constructor.
  - rewrite (id_console _ _ _ _ E2) in S. apply (section_single t "console") in S; [|cbn; tauto]. rewrite E1 in S. injection S as <-. econstructor; eauto.
  - rewrite (id_wavefront _ _ _ _ E2) in S. apply (section_single t "wavefront") in S; [|cbn; tauto]. rewrite E1 in S. injection S as <-. econstructor; eauto.
  - rewrite (id_influx _ _ _ _ E2) in S. apply (section_single t "influxdb") in S; [|cbn; tauto]. rewrite E1 in S. injection S as <-. econstructor; eauto.
  - rewrite (id_prometheus _ _ _ E2) in S. apply (section_single t "prometheus") in S; [|cbn; tauto]. rewrite E1 in S. injection S as <-. econstructor; eauto.
  - rewrite (id_elastic _ _ _ _ E2) in S. apply (section_single t "elasticsearch") in S; [|cbn; tauto]. rewrite E1 in S. injection S as <-. econstructor; eauto.
  - rewrite (id_nsink _ _ _ _ E2) in S. apply (section_single t "native") in S; [|cbn; tauto]. rewrite E1 in S. injection S as <-. econstructor; eauto.
  - rewrite (id_kafka _ _ _ _ E2) in S. apply section_kafka in S. rewrite (named_fun _ _ _ _ _ _ Hk S E1). econstructor; eauto.
  - rewrite (id_delay _ _ _ E2) in S. apply (section_filter t "delay") in S; [|cbn; tauto]. rewrite (named_fun _ _ _ _ _ _ Hk S E1). econstructor; eauto.
  - rewrite (id_json _ _ _ _ E2) in S. apply (section_filter t "json_encode") in S; [|cbn; tauto]. rewrite (named_fun _ _ _ _ _ _ Hk S E1). econstructor; eauto.
  - rewrite (id_boundary _ _ _ E2) in S. apply (section_filter t "flush_boundary") in S; [|cbn; tauto]. rewrite (named_fun _ _ _ _ _ _ Hk S E1). econstructor; eauto.
  - rewrite (id_prog _ _ _ _ _ E2) in S. apply (section_filter t "programmable") in S; [|cbn; tauto]. rewrite (named_fun _ _ _ _ _ _ Hk S E1). econstructor; eauto.
  - destruct (id_file _ _ _ E2) as (p & _ & Ei & _). rewrite Ei in S. destruct (section_not_file _ _ _ S).
  - rewrite (id_statsd _ _ _ E2) in S. apply (section_source t "statsd") in S; [|cbn; tauto]. rewrite (named_fun _ _ _ _ _ _ Hk S E1). econstructor; eauto.
  - rewrite (id_tcp _ _ _ _ _ E2) in S. apply (section_source t "graphite") in S; [|cbn; tauto]. rewrite (named_fun _ _ _ _ _ _ Hk S E1). econstructor; eauto.
  - rewrite (id_tcp _ _ _ _ _ E2) in S. apply (section_source t "avro") in S; [|cbn; tauto]. rewrite (named_fun _ _ _ _ _ _ Hk S E1). econstructor; eauto.
  - rewrite (id_nsource _ _ _ E2) in S. apply (section_source t "native") in S; [|cbn; tauto]. rewrite (named_fun _ _ _ _ _ _ Hk S E1). econstructor; eauto.
  - rewrite (id_internal _ _ E1) in S. apply section_internal in S. rewrite S in E1. constructor; exact E1.
Qed.

(** ** flush intervals *)
Lemma flush_int t k d p z : flush_of t k d = Going p -> tget t k = Some (TInt z) -> (0 <= z -> 100 * z < 2 ^ 64 -> p = 100 * z)%Z.
Proof.
  unfold flush_of, parse_flush_interval. intros E Ek. rewrite Ek in E. cbn in E. injection E as <-. intros H1 H2.
  unfold to_u64, flushes_per_second. rewrite (Z.mod_small z) by lia. rewrite Z.mod_small by lia. lia.
Qed.
Lemma flush_float t k d p z : flush_of t k d = Going p -> tget t k = Some (TFloat (fofZ z)) -> (0 <= z -> 100 * z < 2 ^ 53 -> p = 100 * z)%Z.
Proof.
  unfold flush_of, parse_flush_interval. intros E Ek. rewrite Ek in E. cbn [bind] in E. injection E as <-. intros H1 H2.
  destruct z as [|z|z]; [reflexivity| |lia]. unfold flushes_per_second. rewrite fmul_small by lia.
  replace (Z.pos z * 100)%Z with (Z.pos (z * 100)) by lia. destruct (fofZ_floor (z * 100)) as (m & e & Ef & Ev); [lia|].
  rewrite Ef. unfold f_to_u64. rewrite Ev. lia.
Qed.
Lemma flush_none t k d p : flush_of t k d = Going p -> tget t k = None -> p = d.
Proof. unfold flush_of, parse_flush_interval. intros E Ek. rewrite Ek in E. cbn in E. congruence. Qed.
Lemma flush_own t gt a s p : parsed t a gt -> flush_of s "flush_interval" (a_flush a) = Going p ->
  (forall z, interval t s = TInt z -> 0 <= z -> 100 * z < 2 ^ 64 -> p = 100 * z)%Z /\
  (forall z, interval t s = TFloat (fofZ z) -> 0 <= z -> 100 * z < 2 ^ 53 -> p = 100 * z)%Z.
Proof.
  intros P E. unfold interval. destruct (tget s "flush_interval") as [v|] eqn:Es.
  - split; intros z ->; [apply (flush_int _ _ _ _ _ E Es)|apply (flush_float _ _ _ _ _ E Es)].
  - rewrite (flush_none _ _ _ _ E Es). pose proof (p_flush _ _ _ P) as Ef. destruct (tget t "flush-interval") as [v|] eqn:Et.
    + split; intros z ->; [apply (flush_int _ _ _ _ _ Ef Et)|apply (flush_float _ _ _ _ _ Ef Et)].
    + rewrite (flush_none _ _ _ _ Ef Et). split; intros z; [intros [= <-] _ _; reflexivity|discriminate].
Qed.
Lemma made_flush t gt a s c : parsed t a gt -> made (a_flush a) (a_scripts a) gt s c ->
  forall p, flush_pulses c = Some p -> c <> CNull -> (forall x, c <> CPrometheus x) -> flush_of s "flush_interval" (a_flush a) = Going p.
Proof.
  intros P M p Ep Hn Hp. destruct M as [| s c E| s c E| s c E| s c E| s c E| s c E|n s c E| | | | | | | | |]; cbn in Ep; try discriminate; try congruence.
  - unfold parse_console in E. unbind E. subst c. cbn in Ep. injection Ep as <-. assumption.
  - unfold parse_wavefront in E. unbind E. subst c. cbn in Ep. injection Ep as <-. assumption.
  - unfold parse_influx in E. unbind E. subst c. cbn in Ep. injection Ep as <-. assumption.
  - unfold parse_elastic in E. unbind E. subst c. cbn in Ep. injection Ep as <-. assumption.
  - unfold parse_nsink in E. unbind E. subst c. cbn in Ep. injection Ep as <-. assumption.
  - cbn [parse_kafka] in E. unbind E. destruct v; [|discriminate]. unbind E. destruct v; [|discriminate]. unbind E. destruct v; [|discriminate]. unbind E. subst c. cbn in Ep. injection Ep as <-. assumption.
Qed.

(** ** ports *)
Lemma field_int cast s k d p z : field s k (num cast) d = Going p -> tget s k = Some (TInt z) -> p = cast z.
Proof. unfold field. intros E Ek. rewrite Ek in E. cbn in E. congruence. Qed.
Lemma made_port fi dir gt s c p z : made fi dir gt s c -> port_of c = Some p -> tget s "port" = Some (TInt z) -> (0 <= z < 2 ^ 16 -> p = z)%Z.
Proof.
  intros M Ep Ez Hz.
  assert (S16 : to_u16 z = z) by (unfold to_u16; apply Z.mod_small; lia). assert (S64 : to_u64 z = z) by (unfold to_u64; apply Z.mod_small; lia).
  destruct M as [| s c E| s c E| s c E| s c E| s c E| s c E|n s c E|n s x E|n s x E|n s x E|n s x E|n s x E|n s x E|n s x E|n s x E|s c E]; cbn [port_of] in Ep; try discriminate.
  - unfold parse_wavefront in E. unbind E. subst c. cbn in Ep. injection Ep as <-. rewrite (field_int _ _ _ _ _ _ E2 Ez). exact S16.
  - unfold parse_influx in E. unbind E. subst c. cbn in Ep. injection Ep as <-. rewrite (field_int _ _ _ _ _ _ E0 Ez). exact S16.
  - unfold parse_prometheus in E. unbind E. subst c. cbn in Ep. injection Ep as <-. rewrite (field_int _ _ _ _ _ _ E1 Ez). exact S16.
  - unfold parse_elastic in E. unbind E. subst c. cbn in Ep. injection Ep as <-. rewrite (field_int _ _ _ _ _ _ E1 Ez). exact S64.
  - unfold parse_nsink in E. unbind E. subst c. cbn in Ep. injection Ep as <-. rewrite (field_int _ _ _ _ _ _ E0 Ez). exact S16.
  - cbn [parse_statsd] in E. unbind E. destruct v; [|discriminate]. unbind E. subst x. cbn in Ep. injection Ep as <-. rewrite (field_int _ _ _ _ _ _ E1 Ez). exact S16.
  - cbn [parse_tcp] in E. unbind E. destruct v; [|discriminate]. unbind E. subst x. cbn in Ep. injection Ep as <-. rewrite (field_int _ _ _ _ _ _ E1 Ez). exact S16.
  - cbn [parse_tcp] in E. unbind E. destruct v; [|discriminate]. unbind E. subst x. cbn in Ep. injection Ep as <-. rewrite (field_int _ _ _ _ _ _ E1 Ez). exact S16.
  - cbn [parse_nsource] in E. unbind E. destruct v; [|discriminate]. unbind E. subst x. cbn in Ep. injection Ep as <-. rewrite (field_int _ _ _ _ _ _ E1 Ez). exact S16.
Qed.

(** ** tags *)
Lemma built_tags t a gt id c g : built t a gt id c -> tags_of c = Some g -> g = gt.
Proof.
  intros B Eg. destruct B as [s0 E1|s0 c E1 E|s0 c E1 E|s0 c E1 E|s0 c E1 E|s0 c E1 E|s0 c E1 E|n s0 c E1 E|n s0 x E1 E|n s0 x E1 E|n s0 x E1 E|n s0 x E1 E
      |n s0 c E1 E|n s0 x E1 E|n s0 x E1 E|n s0 x E1 E|n s0 x E1 E|c E1]; cbn [tags_of] in Eg; try discriminate.
  - unfold parse_console in E. unbind E. subst c. cbn in Eg. congruence.
  - unfold parse_wavefront in E. unbind E. subst c. cbn in Eg. congruence.
  - unfold parse_influx in E. unbind E. subst c. cbn in Eg. congruence.
  - unfold parse_prometheus in E. unbind E. subst c. cbn in Eg. congruence.
  - unfold parse_elastic in E. unbind E. subst c. cbn in Eg. congruence.
  - unfold parse_nsink in E. unbind E. subst c. cbn in Eg. congruence.
  - cbn [parse_json] in E. unbind E. subst x. cbn in Eg. congruence.
  - cbn [parse_prog] in E. destruct (tget s0 "script"); [|discriminate]. unbind E. subst x. cbn in Eg. congruence.
Qed.
Lemma parse_tag_spec t k v r : at2 t "tags" k = Some v -> parse_tag (k, v) = Going r -> fst r = k /\ tag_value t k (snd r).
Proof.
  intros Ea E. unfold parse_tag in E. unfold tag_value. rewrite Ea. destruct (as_str v) as [s|] eqn:Es.
  - injection E as <-. destruct v; try discriminate. injection Es as ->. cbn. auto.
  - unbind E. apply expect_going in E0. destruct v; try discriminate. injection E0 as ->.
    destruct (alookup seqb "environment" v0) as [ev|] eqn:Ee; [|discriminate]. destruct ev; cbn [as_bool] in E; try discriminate. destruct b; [|discriminate].
    unbind E. subst r. apply expect_going in E0, E1, E2. destruct v; try discriminate. injection E1 as ->. cbn. split; [reflexivity|]. right. exists v0, v1. auto.
Qed.
Lemma tag_value_parse t k v x : at2 t "tags" k = Some v -> tag_value t k x -> parse_tag (k, v) = Going (k, x).
Proof.
  intros Ea [E|(l & n & E & E1 & E2 & E3)]; rewrite Ea in E; injection E as ->; cbn; [reflexivity|]. rewrite E1. cbn. rewrite E2. cbn. rewrite E3. reflexivity.
Qed.
Lemma at2_in t l k v : toml_ok t -> tget t "tags" = Some (TTab l) -> (at2 t "tags" k = Some v <-> In (k, v) l).
Proof.
  intros Hk E. unfold at2. rewrite E. cbn [tget]. apply alookup_in. pose proof (get_ok _ _ _ Hk E) as Hl. inversion Hl. assumption.
Qed.
Lemma parse_tags_spec t gt : toml_ok t -> parse_tags t = Going gt ->
  (forall k v, alookup seqb k gt = Some v <-> tag_value t k v) /\ (forall k, at2 t "tags" k <> None -> exists v, tag_value t k v).
Proof.
  intros Hk E. unfold parse_tags in E. destruct (tget t "tags") as [tb|] eqn:Et.
  - unbind E. apply expect_going in E0. destruct tb; try discriminate. injection E0 as ->. subst gt. apply each_of_going in E1. rename v into l.
    pose proof (get_ok _ _ _ Hk Et) as Hl. inversion Hl as [| | | | | |l' Hn _]; subst l'. clear Hl.
    assert (F : forall k x, In (k, x) v0 <-> exists v, In (k, v) l /\ parse_tag (k, v) = Going (k, x)).
    { intros k x. assert (G : forall e, In e l -> at2 t "tags" (fst e) = Some (snd e)) by (intros [k' v'] Hi; apply (at2_in _ _ _ _ Hk Et); exact Hi).
      clear Et Hn. induction E1 as [|[k' v'] [k'' x''] l r Hp F2 IH]; [split; [intros []|intros (v & [] & _)]|].
      pose proof (parse_tag_spec t k' v' _ (G (k', v') (or_introl Logic.eq_refl)) Hp) as [Ek Hv]. cbn in Ek. subst k''. cbn [In]. rewrite IH by (intros; apply G; cbn; auto). split.
      - intros [[= -> ->]|(v & Hi & Hv')]; [exists v'; auto|exists v; auto].
      - intros (v & [[= -> ->]|Hi] & Hv'); [rewrite Hp in Hv'; injection Hv' as ->; auto|right; eauto]. }
    assert (Ek : map fst v0 = map fst l).
    { assert (G : forall e, In e l -> at2 t "tags" (fst e) = Some (snd e)) by (intros [k' v'] Hi; apply (at2_in _ _ _ _ Hk Et); exact Hi).
      clear -E1 G. induction E1 as [|[k' v'] r' l r Hp F2 IH]; [reflexivity|]. cbn [map]. rewrite IH by (intros; apply G; cbn; auto).
      pose proof (parse_tag_spec t k' v' _ (G (k', v') (or_introl Logic.eq_refl)) Hp) as [-> _]. reflexivity. }
    assert (Hn' : NoDup (map fst v0)) by (rewrite Ek; exact Hn). rewrite as_map_id by exact Hn'. split.
    + intros k x. rewrite (alookup_in _ _ _ Hn'). rewrite F. split.
      * intros (v & Hi & Hp). apply (at2_in _ _ _ _ Hk Et) in Hi. apply (parse_tag_spec _ _ _ _ Hi Hp).
      * intros Hv. destruct (at2 t "tags" k) as [v|] eqn:Ea.
        -- exists v. split; [apply (at2_in _ _ _ _ Hk Et); exact Ea|apply (tag_value_parse _ _ _ _ Ea Hv)].
        -- destruct Hv as [Hv|(? & ? & Hv & _)]; congruence.
    + intros k Hne. destruct (at2 t "tags" k) as [v|] eqn:Ea; [|congruence]. apply (at2_in _ _ _ _ Hk Et) in Ea.
      assert (Hin : In k (map fst v0)) by (rewrite Ek; apply in_map_iff; exists (k, v); auto). apply in_map_iff in Hin as ([k' x] & Ek' & Hx). cbn in Ek'. subst k'. exists x.
      apply F in Hx as (v' & Hi & Hp). apply (at2_in _ _ _ _ Hk Et) in Hi. apply (parse_tag_spec _ _ _ _ Hi Hp).
  - injection E as <-. assert (Ha : forall k, at2 t "tags" k = None) by (intros; unfold at2; rewrite Et; reflexivity). split.
    + intros k v. cbn. split; [discriminate|]. intros [Hv|(? & ? & Hv & _)]; rewrite Ha in Hv; discriminate.
    + intros k Hne. rewrite Ha in Hne. congruence.
Qed.

(** ** a section concerns its own components only *)
Lemma same_sym sec kind t t' : same_but sec kind t t' -> same_but sec kind t' t.
Proof. intros [H1 H2]. split; intros k Hk; symmetry; auto. Qed.
Lemma same_at2 sec kind t t' sec' kind' : same_but sec kind t t' -> (sec' <> sec \/ kind' <> kind) -> at2 t' sec' kind' = at2 t sec' kind'.
Proof.
  intros [H1 H2] Hd. destruct (string_dec sec' sec) as [->|Hs]; [apply H2; tauto|]. unfold at2. rewrite (H1 sec' Hs). reflexivity.
Qed.
Lemma same_named sec kind t t' sec' kind' n s : same_but sec kind t t' -> (sec' <> sec \/ kind' <> kind) -> named t sec' kind' n s -> named t' sec' kind' n s.
Proof. intros Hs Hd (l & E & Hi). exists l. rewrite (same_at2 _ _ _ _ _ _ Hs Hd). auto. Qed.
Lemma pair_dec (a b a' b' : string) : (a = a' /\ b = b') \/ (a <> a' \/ b <> b').
Proof. destruct (string_dec a a'), (string_dec b b'); auto. Qed.
Lemma built_same sec kind t t' a a' gt id c : same_but sec kind t t' -> a_flush a' = a_flush a -> a_scripts a' = a_scripts a ->
  ~ belongs sec kind id -> built t a gt id c -> built t' a' gt id c.
Proof.
  intros Hs Ef Es Hb B. unfold belongs in Hb.
  destruct B as [s0 E1|s0 c E1 E|s0 c E1 E|s0 c E1 E|s0 c E1 E|s0 c E1 E|s0 c E1 E|n s0 c E1 E|n s0 x E1 E|n s0 x E1 E|n s0 x E1 E|n s0 x E1 E
      |n s0 c E1 E|n s0 x E1 E|n s0 x E1 E|n s0 x E1 E|n s0 x E1 E|c E1].
  - destruct (pair_dec sec kind "sinks" "null") as [[-> ->]|Hd]; [exfalso; apply Hb; auto|]. econstructor. rewrite (same_at2 _ _ _ _ _ _ Hs); [eassumption|intuition].
  - destruct (pair_dec sec kind "sinks" "console") as [[-> ->]|Hd]; [exfalso; apply Hb; left; apply (id_console _ _ _ _ E)|]. econstructor; [rewrite (same_at2 _ _ _ _ _ _ Hs); [eassumption|intuition]|rewrite Ef; exact E].
  - destruct (pair_dec sec kind "sinks" "wavefront") as [[-> ->]|Hd]; [exfalso; apply Hb; left; apply (id_wavefront _ _ _ _ E)|]. econstructor; [rewrite (same_at2 _ _ _ _ _ _ Hs); [eassumption|intuition]|rewrite Ef; exact E].
  - destruct (pair_dec sec kind "sinks" "influxdb") as [[-> ->]|Hd]; [exfalso; apply Hb; left; apply (id_influx _ _ _ _ E)|]. econstructor; [rewrite (same_at2 _ _ _ _ _ _ Hs); [eassumption|intuition]|rewrite Ef; exact E].
  - destruct (pair_dec sec kind "sinks" "prometheus") as [[-> ->]|Hd]; [exfalso; apply Hb; left; apply (id_prometheus _ _ _ E)|]. econstructor; [rewrite (same_at2 _ _ _ _ _ _ Hs); [eassumption|intuition]|exact E].
  - destruct (pair_dec sec kind "sinks" "elasticsearch") as [[-> ->]|Hd]; [exfalso; apply Hb; left; apply (id_elastic _ _ _ _ E)|]. econstructor; [rewrite (same_at2 _ _ _ _ _ _ Hs); [eassumption|intuition]|rewrite Ef; exact E].
  - destruct (pair_dec sec kind "sinks" "native") as [[-> ->]|Hd]; [exfalso; apply Hb; left; apply (id_nsink _ _ _ _ E)|]. econstructor; [rewrite (same_at2 _ _ _ _ _ _ Hs); [eassumption|intuition]|rewrite Ef; exact E].
  - destruct (pair_dec sec kind "sinks" "kafka") as [[-> ->]|Hd]; [exfalso; apply Hb; right; exists n; apply (id_kafka _ _ _ _ E)|]. eapply B_kafka; [eapply same_named; eauto; intuition|rewrite Ef; exact E].
  - destruct (pair_dec sec kind "filters" "delay") as [[-> ->]|Hd]; [exfalso; apply Hb; right; exists n; apply (id_delay _ _ _ E)|]. eapply B_delay; [eapply same_named; eauto; intuition|exact E].
  - destruct (pair_dec sec kind "filters" "json_encode") as [[-> ->]|Hd]; [exfalso; apply Hb; right; exists n; apply (id_json _ _ _ _ E)|]. eapply B_json; [eapply same_named; eauto; intuition|exact E].
  - destruct (pair_dec sec kind "filters" "flush_boundary") as [[-> ->]|Hd]; [exfalso; apply Hb; right; exists n; apply (id_boundary _ _ _ E)|]. eapply B_boundary; [eapply same_named; eauto; intuition|exact E].
  - destruct (pair_dec sec kind "filters" "programmable") as [[-> ->]|Hd]; [exfalso; apply Hb; right; exists n; apply (id_prog _ _ _ _ _ E)|]. eapply B_prog; [eapply same_named; eauto; intuition|rewrite Es; exact E].
  - destruct (pair_dec sec kind "sources" "files") as [[-> ->]|Hd].
    + exfalso. apply Hb. right. destruct (id_file _ _ _ E) as (p & _ & Ei & _). exists (show_str p). exact Ei.
    + eapply B_file; [eapply same_named; eauto; intuition|exact E].
  - destruct (pair_dec sec kind "sources" "statsd") as [[-> ->]|Hd]; [exfalso; apply Hb; right; exists n; apply (id_statsd _ _ _ E)|]. eapply B_statsd; [eapply same_named; eauto; intuition|exact E].
  - destruct (pair_dec sec kind "sources" "graphite") as [[-> ->]|Hd]; [exfalso; apply Hb; right; exists n; apply (id_tcp _ _ _ _ _ E)|]. eapply B_graphite; [eapply same_named; eauto; intuition|exact E].
  - destruct (pair_dec sec kind "sources" "avro") as [[-> ->]|Hd]; [exfalso; apply Hb; right; exists n; apply (id_tcp _ _ _ _ _ E)|]. eapply B_avro; [eapply same_named; eauto; intuition|exact E].
  - destruct (pair_dec sec kind "sources" "native") as [[-> ->]|Hd]; [exfalso; apply Hb; right; exists n; apply (id_nsource _ _ _ E)|]. eapply B_nsource; [eapply same_named; eauto; intuition|exact E].
  - destruct (pair_dec sec kind "sources" "internal") as [[-> ->]|Hd]; [exfalso; apply Hb; left; apply (id_internal _ _ E1)|]. apply B_internal. rewrite (same_at2 _ _ _ _ _ _ Hs); [exact E1|intuition].
Qed.
Lemma same_globals sec kind t t' a a' gt gt' : In sec ["sinks"; "filters"; "sources"] -> same_but sec kind t t' -> parsed t a gt -> parsed t' a' gt' ->
  gt' = gt /\ a_flush a' = a_flush a /\ a_scripts a' = a_scripts a.
Proof.
  intros Hin [H1 _] P P'. assert (Hk : forall k, In k ["tags"; "flush-interval"; "scripts-directory"] -> tget t' k = tget t k).
  { intros k Hk. apply H1. intros ->. cbn in Hin, Hk. intuition congruence. }
  split; [|split].
  - pose proof (p_tags _ _ _ P) as E. pose proof (p_tags _ _ _ P') as E'. unfold parse_tags in *. rewrite (Hk "tags") in E' by (cbn; tauto). congruence.
  - pose proof (p_flush _ _ _ P) as E. pose proof (p_flush _ _ _ P') as E'. unfold flush_of, parse_flush_interval in *. rewrite (Hk "flush-interval") in E' by (cbn; tauto). congruence.
  - pose proof (p_scripts _ _ _ P) as E. pose proof (p_scripts _ _ _ P') as E'. unfold field in *. rewrite (Hk "scripts-directory") in E' by (cbn; tauto). congruence.
Qed.

(** ** keys nobody asks for *)
Lemma tget_other k x v l : k <> x -> tget (TTab (ainsert seqb x v l)) k = tget (TTab l) k.
Proof. intros Hk. cbn [tget]. apply (alookup_ainsert_ne seqb seqb_eq). auto. Qed.
Ltac others Hk := rewrite ?(tget_other _ _ _ _ Hk).
Lemma not_in_cons (x y : string) l : ~ In x (y :: l) -> y <> x /\ ~ In x l.
Proof. cbn. intuition. Qed.
Ltac each_key H := repeat (apply not_in_cons in H as [?N H]).
Ltac drop_key := repeat match goal with N : ?k <> ?x |- context [tget (TTab (ainsert seqb ?x ?v ?l)) ?k] => rewrite (tget_other k x v l N) end.
Lemma unknown_top x v l : ~ In x top_keys -> parse_config (TTab (ainsert seqb x v l)) = parse_config (TTab l).
Proof.
  intros Hx. unfold top_keys in Hx. each_key Hx. unfold parse_config, field, flush_of, parse_flush_interval, parse_tags, top_table, top_value.
  drop_key. reflexivity.
Qed.
Ltac same_bind := match goal with |- bind ?o _ = bind ?o _ => destruct o; cbn [bind]; [|reflexivity|reflexivity] end.
Lemma sinks_ext l ss ss' : alookup seqb "sinks" l = Some (TTab ss) ->
  option_map (fun _ => tt) (tget (TTab ss') "null") = option_map (fun _ => tt) (tget (TTab ss) "null") ->
  (forall fi gt, section (tget (TTab ss') "console") (parse_console fi gt) = section (tget (TTab ss) "console") (parse_console fi gt)) ->
  (forall fi gt, section (tget (TTab ss') "wavefront") (parse_wavefront fi gt) = section (tget (TTab ss) "wavefront") (parse_wavefront fi gt)) ->
  (forall fi gt, section (tget (TTab ss') "influxdb") (parse_influx fi gt) = section (tget (TTab ss) "influxdb") (parse_influx fi gt)) ->
  (forall gt, section (tget (TTab ss') "prometheus") (parse_prometheus gt) = section (tget (TTab ss) "prometheus") (parse_prometheus gt)) ->
  (forall fi gt, section (tget (TTab ss') "elasticsearch") (parse_elastic fi gt) = section (tget (TTab ss) "elasticsearch") (parse_elastic fi gt)) ->
  (forall fi gt, section (tget (TTab ss') "native") (parse_nsink fi gt) = section (tget (TTab ss) "native") (parse_nsink fi gt)) ->
  (forall fi, sections (tget (TTab ss') "kafka") (parse_kafka fi) = sections (tget (TTab ss) "kafka") (parse_kafka fi)) ->
  parse_config (TTab (ainsert seqb "sinks" (TTab ss') l)) = parse_config (TTab l).
Proof.
  intros Hl Hnull Hc Hw Hi Hp He Hn Hk.
  unfold parse_config, field, flush_of, parse_flush_interval, parse_tags, top_table, top_value.
  rewrite !(tget_other "max-hopper-queue-bytes"), !(tget_other "max-hopper-queue-files"), !(tget_other "max-hopper-in-memory-bytes"), !(tget_other "data-directory"),
    !(tget_other "scripts-directory"), !(tget_other "flush-interval"), !(tget_other "tags"), !(tget_other "filters"), !(tget_other "sources") by discriminate.
  replace (tget (TTab (ainsert seqb "sinks" (TTab ss') l)) "sinks") with (Some (TTab ss')) by (symmetry; apply (alookup_ainsert_eq seqb seqb_eq)).
  replace (tget (TTab l) "sinks") with (Some (TTab ss)) by (symmetry; exact Hl). cbn [as_table expect].
  do 11 same_bind. cbn [bind]. rewrite Hc. same_bind. rewrite Hw. same_bind. rewrite Hi. same_bind. rewrite Hp. same_bind. rewrite He. same_bind. rewrite Hn. same_bind.
  rewrite Hk. do 8 same_bind. do 2 f_equal.
  destruct (tget (TTab ss') "null"), (tget (TTab ss) "null"); cbn in *; congruence.
Qed.
Lemma unknown_kind x v l ss : alookup seqb "sinks" l = Some (TTab ss) -> ~ In x (kinds "sinks") ->
  parse_config (TTab (ainsert seqb "sinks" (TTab (ainsert seqb x v ss)) l)) = parse_config (TTab l).
Proof.
  intros Hl Hx. cbn in Hx. apply sinks_ext with (ss := ss); [exact Hl|..]; intros; rewrite tget_other by (intros <-; apply Hx; tauto); reflexivity.
Qed.
Lemma ins_get k v l : tget (TTab (ainsert seqb k v l)) k = Some v.
Proof. apply (alookup_ainsert_eq seqb seqb_eq). Qed.
Lemma unknown_option kind x v l ss o : alookup seqb "sinks" l = Some (TTab ss) -> In kind single_sinks -> alookup seqb kind ss = Some (TTab o) ->
  ~ In x (sink_options kind) ->
  parse_config (TTab (ainsert seqb "sinks" (TTab (ainsert seqb kind (TTab (ainsert seqb x v o)) ss)) l)) = parse_config (TTab l).
Proof.
  intros Hl Hin Ho Hx. assert (Ho' : tget (TTab ss) kind = Some (TTab o)) by exact Ho.
  apply sinks_ext with (ss := ss); [exact Hl|..]; cases_in Hin; intros;
    try (rewrite tget_other by discriminate; reflexivity); rewrite ins_get, Ho'; cbn [section option_map]; try reflexivity; f_equal;
    cbn [sink_options seqb String.eqb Ascii.eqb Bool.eqb] in Hx; each_key Hx.
  - unfold parse_console, field, flush_of, parse_flush_interval. drop_key. reflexivity.
  - unfold parse_wavefront, parse_pad, parse_percentiles, field, flush_of, parse_flush_interval. drop_key. reflexivity.
  - unfold parse_influx, field, flush_of, parse_flush_interval. drop_key. reflexivity.
  - unfold parse_prometheus, field, flush_of, parse_flush_interval. drop_key. reflexivity.
  - unfold parse_elastic, field, flush_of, parse_flush_interval. drop_key. reflexivity.
  - unfold parse_nsink, field, flush_of, parse_flush_interval. drop_key. reflexivity.
Qed.

(** ** mappings of a statsd source *)
Lemma fold_rev {A} (l acc : list A) : fold_left (fun acc m => m :: acc) l acc = rev l ++ acc.
Proof. revert acc. induction l as [|x l IH]; cbn; intros acc; [reflexivity|]. rewrite IH, <- app_assoc. reflexivity. Qed.
Lemma made_masks fi dir gt s c l : made fi dir gt s (CStatsd c) -> tget s "mapping" = Some (TTab l) ->
  exists ms, Forall2 (fun e m => tget (snd e) "mask" = Some (TStr (fst m)) /\ tget (snd e) "bounds" = Some (TArr (map TFloat (snd m)))) l ms /\ sd_masks c = rev ms.
Proof.
  intros M Em. inversion M as [| | | | | | | | | | | |n s0 x E| | | |]; subst. clear M. cbn [parse_statsd] in E. unbind E. destruct v; [|discriminate]. unbind E. subst x. cbn [snd sd_masks].
  clear E0 E1 E2 E3 E5 E6. unfold parse_mapping in E4. rewrite Em in E4. cbn [as_table expect bind] in E4. apply bind_going in E4 as (ms & E7 & E4). injection E4 as <-. rewrite fold_rev, app_nil_r.
  apply each_of_going in E7. clear -E7. exists ms. split; [|reflexivity].
  induction E7 as [|e m l r Hp F IH]; [constructor|]. constructor; [|exact IH]. clear F IH. unfold parse_mask in Hp. unbind Hp. subst m.
  apply expect_going in E, E0, E1, E2, E3. destruct v; try discriminate. injection E0 as ->. destruct v2; try discriminate. injection E3 as ->. cbn [fst snd].
  split; [exact E|]. rewrite E2. do 2 f_equal. apply each_of_going in E4. clear -E4.
  induction E4 as [|y z l r Hp F IH]; [reflexivity|]. apply expect_going in Hp. destruct y; try discriminate. injection Hp as ->. cbn. f_equal. exact IH.
Qed.
Lemma mask_loop_app {Q : QLib} m1 m2 name m : (forall re bs, In (re, bs) m1 -> re name = false) -> mask_loop (m1 ++ m2) name m = mask_loop m2 name m.
Proof.
  induction m1 as [|[re bs] r IH]; cbn [app mask_loop]; intros Hf; [reflexivity|]. rewrite (Hf re bs) by (cbn; auto). apply IH. intros. eapply Hf. right. eauto.
Qed.

(** ** what is forwarded where *)
Lemma forwards_of_spec s l : forwards_of s = Going l -> forall v, In v l <-> exists a, tget s "forwards" = Some (TArr a) /\ In (TStr v) a.
Proof.
  unfold forwards_of, strings. intros E v. destruct (tget s "forwards") as [w|].
  - unbind E. apply expect_going in E0. destruct w; try discriminate. injection E0 as ->. apply each_of_going in E.
    assert (G : In v l <-> In (TStr v) v0).
    { clear -E. induction E as [|x y l r Hp F IH]; [tauto|]. apply expect_going in Hp. destruct x; try discriminate. injection Hp as ->. cbn [In]. rewrite IH.
      split; intros [Hx|Hx]; auto; [left; congruence|left; injection Hx; auto]. }
    rewrite G. split; [eauto|]. intros (a & [= <-] & Hi). exact Hi.
  - injection E as <-. split; [intros []|intros (a & [=] & _)].
Qed.
Lemma made_forwards fi dir gt s c : made fi dir gt s c -> is_sender c = true -> forwards_of s = Going (forwards_to c).
Proof.
  intros M Hs. destruct M as [| s c E| s c E| s c E| s c E| s c E| s c E|n s c E|n s x E|n s x E|n s x E|n s x E|n s x E|n s x E|n s x E|n s x E|s c E]; try discriminate Hs; clear Hs.
  - cbn [parse_delay] in E. destruct (tget s "tolerance"); [|discriminate]. unbind E. subst x. exact E1.
  - cbn [parse_json] in E. unbind E. subst x. exact E1.
  - cbn [parse_boundary] in E. destruct (tget s "tolerance"); [|discriminate]. unbind E. subst x. exact E1.
  - cbn [parse_prog] in E. destruct (tget s "script"); [|discriminate]. unbind E. subst x. exact E1.
  - cbn [parse_statsd] in E. unbind E. destruct v; [|discriminate]. unbind E. subst x. exact E3.
  - cbn [parse_tcp] in E. unbind E. destruct v; [|discriminate]. unbind E. subst x. exact E3.
  - cbn [parse_tcp] in E. unbind E. destruct v; [|discriminate]. unbind E. subst x. exact E3.
  - cbn [parse_nsource] in E. unbind E. destruct v; [|discriminate]. unbind E. subst x. exact E3.
  - cbn [parse_internal] in E. unbind E. subst c. exact E0.
Qed.
Definition is_filter (c : comp) : bool := match c with CDelay _ | CBoundary _ | CJson _ | CProg _ => true | _ => false end.
Lemma sender_in a id c : In (id, c) (components a) -> is_sender c = true ->
  if is_filter c then In (id, forwards_to c) (g_filters (main_config a))
  else In (id, forwards_to c) (g_natives (main_config a) ++ g_sources (main_config a)).
Proof.
  unfold components, main_config. rewrite !in_app_iff, !in_map_pair. cbn [g_filters g_natives g_sources].
  intros Hin Hs. repeat (destruct Hin as [Hin|Hin]); destruct Hin as (x & Hin & -> & ->); try discriminate Hs; cbn [is_filter forwards_to];
    rewrite ?in_app_iff, ?in_map_iff.
  - left. eauto.
  - right; left. eauto.
  - do 2 right; left. eauto.
  - do 3 right. eauto.
  - left. eauto.
  - right; left. destruct Hin as [<-|[]]. cbn. auto.
  - do 2 right; left. eauto.
  - do 3 right; left. eauto.
  - do 4 right; left. eauto.
  - do 5 right. eauto.
Qed.
Lemma wires_ids a g : wires a g -> Permutation (g_sinks g ++ map fst (senders_of g)) (map fst (components a)).
Proof.
  intros (P1 & P2 & P3 & P4). rewrite components_ids. apply Permutation_app; [exact P1|]. apply Permutation_map. unfold senders_of.
  apply Permutation_app; [exact P2|]. apply Permutation_app; assumption.
Qed.
End Parse.
