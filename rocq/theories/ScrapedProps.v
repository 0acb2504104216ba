(** * Property C145: a scraper reads the exposition. *)
From Verif Require Import Base BaseFacts TelemetryModel TelemetrySpec TelemetryProofs FiltersModel FiltersProofs WavefrontModel BucketsSpec PrometheusModel PrometheusSpec PrometheusProofs QExample TelemetryProps PrometheusProps ScrapeModel ScrapeSpec ScrapeProofs ScrapeProps ScrapedSpec ScrapedProofs.
From Coq Require Import Lia Permutation.
Open Scope string_scope. Open Scope list_scope. Open Scope nat_scope.

(** ** Where names and tags come from *)
Section From.
Context `{Q : QLib}.
(** [t] has name and tags of a point of [us] *)
Definition from (us : list telemetry) (t : telemetry) : Prop := exists u, In u us /\ t_name t = t_name u /\ t_tags t = t_tags u.
Definition acc_from (us : list telemetry) (a : acc) : Prop := match a with APerp p => from us p | AWin _ _ _ l => Forall (from us) l end.
Lemma from_add us p t : from us p -> from us (t_add p t).
Proof. intros (u & H1 & H2 & H3). exists u. auto. Qed.
Lemma from_fold us r : forall p, from us p -> from us (fold_left t_add r p).
Proof. induction r as [|t r IH]; intros p H; [exact H|]. cbn. apply IH, from_add, H. Qed.
Lemma In_update_at {A} (f : A -> A) l : forall i x, In x (update_at i f l) -> In x l \/ exists y, In y l /\ x = f y.
Proof. induction l as [|a l IH]; intros [|i] x H; cbn in H; [destruct H|destruct H|destruct H as [<-|H]; [right; exists a; cbn; auto|left; right; exact H]|]. destruct H as [<-|H]; [left; left; reflexivity|]. destruct (IH i x H) as [H'|(y & H1 & H2)]; [left; right; exact H'|right; exists y; cbn; auto]. Qed.
Lemma In_insert_at {A} (a : A) : forall i l x, In x (insert_at i a l) -> x = a \/ In x l.
Proof. induction i as [|i IH]; intros l x H; cbn in H; [destruct H as [<-|H]; auto|]. destruct l as [|y l]; [destruct H as [<-|[]]; auto|]. destruct H as [<-|H]; [right; left; reflexivity|]. destruct (IH l x H) as [->|H']; [auto|right; right; exact H']. Qed.
Lemma In_skipn {A} (l : list A) : forall n x, In x (skipn n l) -> In x l.
Proof. induction l as [|a l IH]; intros [|n] x H; cbn in H; auto. right. eapply IH. exact H. Qed.
Lemma Forall_ainsert {V} (P : string * V -> Prop) k v m : Forall P m -> P (k, v) -> Forall P (ainsert seqb k v m).
Proof. intros H Hk. induction H as [|(k', v') m Hp H IH]; cbn; [constructor; [exact Hk|constructor]|]. destruct (seqb k k') eqn:E; [apply seqb_eq in E; subst k'|]; constructor; assumption. Qed.
Lemma window_from us cap l t : from us t -> Forall (from us) l -> Forall (from us) (window_add cap l t).
Proof.
  intros Ht Hl. rewrite Forall_forall in *. unfold window_add. intros x Hx. destruct (bsearch (ts_cmp (t_timestamp t)) l) as [i|i].
  - apply In_update_at in Hx as [Hx|(y & Hy & ->)]; [auto|apply from_add; auto].
  - cbv zeta in Hx. destruct (_ <? _)%N; [apply In_skipn in Hx|]; apply In_insert_at in Hx as [->|Hx]; auto.
Qed.
Definition agg_from (us : list telemetry) (a : aggr) : Prop := Forall (fun kv => acc_from us (snd kv)) (pa_data a).
Lemma insert_from us a t a' b : In t us -> agg_from us a -> pa_insert a t = Some (a', b) -> agg_from us a'.
Proof.
  intros Ht Ha E. assert (Ft : from us t) by (exists t; auto). unfold pa_insert in E. destruct (alookup seqb (t_name t) (pa_data a)) as [prev|] eqn:El.
  - destruct (meth_eqb _ _); [|injection E as <- <-; exact Ha]. destruct (a_insert prev t) as [x|] eqn:Ei; [|discriminate]. injection E as <- <-. unfold agg_from in *. cbn [pa_data]. apply Forall_ainsert; [exact Ha|]. cbn [snd].
    assert (Hp : acc_from us prev) by (apply (alookup_In seqb seqb_eq) in El; rewrite Forall_forall in Ha; exact (Ha _ El)).
    destruct prev as [p|c s k l]; cbn in Ei.
    + injection Ei as <-. apply from_add. exact Hp.
    + destruct (t_kind t); try discriminate. destruct (t_query t fone); [|discriminate]. destruct (_ <=? _)%N; [|discriminate]. injection Ei as <-. apply window_from; assumption.
  - unfold agg_from in *. destruct (t_kind t); try (injection E as <- <-; cbn [pa_data]; apply Forall_ainsert; [exact Ha|exact Ft]).
    destruct (t_query t fone); [|discriminate]. injection E as <- <-. cbn [pa_data]. apply Forall_ainsert; [exact Ha|]. cbn. constructor; [exact Ft|constructor].
Qed.
Lemma run_from us ops : forall a a' bs, (forall t, In t (inserted ops) -> In t us) -> agg_from us a -> pa_run ops a = Some (a', bs) -> agg_from us a'.
Proof.
  induction ops as [|[t|now] ops IH]; intros a a' bs Hu Ha E; cbn [pa_run] in E.
  - injection E as <- <-. exact Ha.
  - destruct (pa_insert a t) as [(a1, b)|] eqn:E1; [|discriminate]. destruct (pa_run ops a1) as [(a2, bs2)|] eqn:E2; [|discriminate]. injection E as <- <-.
    eapply IH; [intros u Hin; apply Hu; right; exact Hin| |exact E2]. eapply insert_from; [|exact Ha|exact E1]. apply Hu. left. reflexivity.
  - eapply IH; [exact Hu| |exact E]. unfold agg_from, pa_purge in *. cbn [pa_data]. apply Forall_map. cbn [snd]. eapply Forall_impl; [|exact Ha]. intros (n, [p|c s k l]) H; cbn in *; [exact H|].
    rewrite Forall_forall in *. intros x Hx. apply filter_In in Hx as [Hx _]. auto.
Qed.
Lemma reported_from us accs : Forall (acc_from us) accs -> forall l, reported accs = Some l -> Forall (from us) l.
Proof.
  induction 1 as [|a accs Ha H IH]; intros l E; cbn in E; [injection E as <-; constructor|]. destruct (a_report a) as [[t|]|] eqn:Er; [| |discriminate]; (destruct (reported accs) as [ts|]; [|discriminate]); injection E as <-; [|apply IH; reflexivity].
  constructor; [|apply IH; reflexivity]. destruct a as [p|c s k [|s0 r]]; cbn in Er; [injection Er as <-; exact Ha|discriminate|]. cbn in Ha. inversion Ha as [|? ? H0 _]; subst. destruct (from_fold us r s0 H0) as (u & Hu & E1 & E2).
  unfold harden, b_count, b_sample_sum, thaw in Er. cbn [s_initial s_thawed s_name s_kind s_timestamp s_persist s_bounds s_error s_count s_sum s_tags] in Er.
  exists u. split; [exact Hu|]. rewrite <- E1, <- E2. clear -Er. destruct (t_kind (fold_left t_add r s0)), (t_value (fold_left t_add r s0)); repeat (match type of Er with context [match ?x with _ => _ end] => destruct x end; try discriminate); injection Er as <-; split; reflexivity.
Qed.
Lemma reportable_from cap ops a bs l : pa_run ops (pa_new cap) = Some (a, bs) -> pa_reportable a = Some l -> Forall (from (inserted ops)) l.
Proof.
  intros E R. apply (reported_from (inserted ops)) in R; [exact R|]. apply Forall_map. eapply (run_from (inserted ops) ops (pa_new cap)); [auto|constructor|exact E].
Qed.
End From.

(** ** Readable points *)
(** the points whose name and tags the text format can hold as they are *)
Definition point_fit `{Q : QLib} (t : telemetry) : Prop :=
  name_fit (t_name t) /\ match t_tags t with Some m => NoDup (map fst m) /\ Forall tag_fit m | None => True end.
Section Lines.
Context `{Q : QLib}.
Variables (show_f : f64 -> string) (default : tagmap).
Hypothesis Hf : forall x, token (show_f x).
Hypothesis Hd : NoDup (map fst default) /\ Forall tag_fit default.
Lemma iter_fit t : point_fit t -> NoDup (map fst (tag_iter (t_tags t) default)) /\ Forall tag_fit (tag_iter (t_tags t) default).
Proof.
  intros [_ Ht]. destruct Hd as [D1 D2]. assert (O : otm_ok (t_tags t)) by (destruct (t_tags t); [apply Ht|exact Logic.I]). split; [apply tag_iter_NoDup; assumption|].
  apply Forall_forall. intros (k, v) H. apply tag_iter_layered in H; [|exact O|exact D1]. unfold layered in H. rewrite Forall_forall in D2. destruct (t_tags t) as [m|]; [|apply D2; exact H].
  destruct Ht as [_ Ht]. rewrite Forall_forall in Ht. destruct H as [H|[_ H]]; auto.
Qed.
Lemma fit_of kv : tag_fit kv -> fit kv. Proof. intros (H1 & _ & _ & H2). split; assumption. Qed.
Lemma exposed_fit t b : point_fit t -> exposed show_f default t b -> Forall pline_fit b.
Proof.
  intros Hp H. destruct (iter_fit t Hp) as [I1 I2]. destruct Hp as [Hn _]. unfold name_fit in Hn.
  assert (F : Forall fit (tag_iter (t_tags t) default)) by (eapply Forall_impl; [intros kv; apply fit_of|exact I2]).
  assert (S0 : forall n v, metric_name n = true -> pline_fit (PSample n None (tag_iter (t_tags t) default) v)) by (intros n v H0; cbn; auto).
  assert (S1 : forall k x v, k = "le" \/ k = "quantile" -> quotable x -> pline_fit (PSample (sanitize (t_name t)) (Some (k, x)) (tag_iter (t_tags t) default) v)).
  { intros k x v Hk Hx. cbn. split; [exact Hn|]. split.
    - constructor; [|exact F]. split; [|exact Hx]. destruct Hk as [-> | ->]; reflexivity.
    - constructor; [|exact I1]. intros Hin. apply in_map_iff in Hin as ((k', v') & E & Hin). cbn in E. subst k'. rewrite Forall_forall in I2. destruct (I2 _ Hin) as (_ & N1 & N2 & _). cbn in N1, N2. tauto. }
  assert (St : forall sum, Forall pline_fit (shown_totals (sanitize (t_name t)) (tag_iter (t_tags t) default) t sum)).
  { intros sum. unfold shown_totals. constructor; [|constructor; [|constructor]]; apply S0; apply metric_name_suffix; auto. }
  assert (Sq : forall x, quotable (show_f x)) by (intros x; apply (token_visible _ (Hf x))).
  destruct H as [v _ _|v _ _|bins lines sum _ _ _ ->|vs sum _ _ _].
  - constructor; [split; [exact Hn|cbn; auto]|]. constructor; [apply S0; exact Hn|constructor].
  - constructor; [split; [exact Hn|cbn; auto]|]. constructor; [apply S0; exact Hn|constructor].
  - constructor; [split; [exact Hn|cbn; auto]|]. apply Forall_app. split; [|apply St]. apply Forall_map. apply Forall_forall. intros i _. apply S1; [auto|]. destruct (nth i (map fst bins) BPosInf); [apply Sq|reflexivity].
  - constructor; [split; [exact Hn|cbn; auto]|]. apply Forall_app. split; [|apply St]. apply Forall_map. apply Forall_forall. intros (q, v) _. apply S1; [auto|]. apply Sq.
Qed.
Lemma typed_exposed show_n t b : exposed show_f default t b -> typed (map (seen_line show_f show_n) b) = [sanitize (t_name t)].
Proof.
  assert (X : forall l, Forall (fun l => is_type l = false) l -> typed (map (seen_line show_f show_n) l) = []).
  { induction 1 as [|x l Hx H IH]; [reflexivity|]. unfold typed in *. cbn. rewrite IH. destruct x; [discriminate|reflexivity]. }
  intros H. destruct H as [v _ _|v _ _|bins lines sum _ _ _ ->|vs sum _ _ _]; unfold typed; cbn [map flat_map List.app seen_line]; f_equal; apply X; repeat constructor; apply Forall_app; (split; [|repeat constructor]); apply Forall_map; apply Forall_forall; intros; reflexivity.
Qed.
End Lines.

(** ** C145 *)
(** Points that the text format can hold, of names that remain different: the
    scraper accepts the text and reads, point by point, its TYPE line and its samples
    with all labels. *)
Theorem C145_scraped_partial : forall (Q : QLib) (show_f : f64 -> string) (show_n : N -> string) (default : tagmap) (cap : N) (ops : list pop)
    (a : aggr) (bs : list bool) (l l' : list telemetry) (text : string),
  (forall x, token (show_f x)) -> (forall n, token (show_n n)) ->
  NoDup (map fst default) -> Forall tag_fit default -> Forall point_fit (inserted ops) ->
  (forall t u, In t (inserted ops) -> In u (inserted ops) -> sanitize (t_name t) = sanitize (t_name u) -> t_name t = t_name u) ->
  pa_run ops (pa_new cap) = Some (a, bs) -> pa_reportable a = Some l -> Permutation l l' -> write_text show_f show_n default l' = Some text ->
  exists blocks, Forall2 (exposed show_f default) l' blocks /\ scrape_text text = Some (map (seen_line show_f show_n) (List.concat blocks)).
Proof.
  intros Q show_f show_n default cap ops a bs l l' text Hf Hn Hd1 Hd2 Hi Hs Hr Hl Hp Hw. unfold write_text in Hw. destruct (write_lines show_f default [] l') as [ls|] eqn:El; [|discriminate]. injection Hw as <-.
  destruct (C49_content Q show_f cap ops a bs l l' default ls Hr Hl Hp El) as (blocks & -> & Hb). exists blocks. split; [exact Hb|].
  assert (Fr : Forall (from (inserted ops)) l') by (eapply Permutation_Forall; [exact Hp|]; eapply reportable_from; eassumption).
  assert (Fp : Forall point_fit l').
  { eapply Forall_impl; [|exact Fr]. intros t (u & Hu & E1 & E2). rewrite Forall_forall in Hi. specialize (Hi u Hu). unfold point_fit in *. rewrite E1, E2. exact Hi. }
  assert (Fl : Forall pline_fit (List.concat blocks)).
  { clear -Hf Hd1 Hd2 Hb Fp. induction Hb as [|t b l' blocks H Hb IH]; [constructor|]. inversion Fp; subst. cbn. apply Forall_app. split; [|apply IH; assumption]. eapply exposed_fit; eauto. }
  unfold scrape_text. rewrite scrape_lines by assumption.
  assert (T : typed (map (seen_line show_f show_n) (List.concat blocks)) = map (fun t => sanitize (t_name t)) l').
  { clear -Hb. induction Hb as [|t b l' blocks H Hb IH]; [reflexivity|]. cbn [List.concat map]. rewrite map_app. unfold typed in *. rewrite flat_map_app, IH. fold (typed (map (seen_line show_f show_n) b)). rewrite (typed_exposed _ _ _ _ _ H). reflexivity. }
  rewrite T, distinct_iff; [reflexivity|].
  assert (N : NoDup (map t_name l')) by (eapply Permutation_NoDup; [apply Permutation_map; exact Hp|eapply reportable_nodup; eassumption]).
  clear -N Fr Hs. induction l' as [|t l' IH]; [constructor|]. inversion N as [|? ? N1 N2]; subst. inversion Fr as [|? ? F1 F2]; subst. cbn. constructor; [|apply IH; assumption].
  intros Hin. apply in_map_iff in Hin as (u & E & Hu). apply N1. rewrite Forall_forall in F2. destruct (F2 u Hu) as (u' & U1 & U2 & _). destruct F1 as (t' & T1 & T2 & _).
  assert (X : t_name u' = t_name t') by (apply Hs; auto; congruence). apply in_map_iff. exists u. split; [congruence|exact Hu].
Qed.
(** The same of what the HTTP server answers. *)
Theorem C145_answer_partial : forall (Q : QLib) (show_f : f64 -> string) (show_n : N -> string) (cap : N) (default : tagmap) (age : option N) shuffle (ms : list smove) (s : scrape)
    (log log' : list happening) (r : nat) (h : list (string * string)) (body : string) (sent : bool),
  (forall x, token (show_f x)) -> (forall n, token (show_n n)) -> (forall n l, Permutation l (shuffle n l)) ->
  NoDup (map fst default) -> Forall tag_fit default ->
  (forall t, In t (inserted (ops_of (sc_log s))) -> point_fit t) ->
  (forall t u, In t (inserted (ops_of (sc_log s))) -> In u (inserted (ops_of (sc_log s))) -> sanitize (t_name t) = sanitize (t_name u) -> t_name t = t_name u) ->
  sc_run show_f show_n default age None shuffle ms (sc_start cap) = Some s ->
  sc_log s = log ++ EvAnswer r (A200 h body sent) :: log' ->
  exists ts blocks, ts <> [] /\ Forall2 (exposed show_f default) ts blocks /\ scrape_text body = Some (map (seen_line show_f show_n) (List.concat blocks)).
Proof.
  intros Q show_f show_n cap default age shuffle ms s log log' r h body sent Hf Hn Hsh Hd1 Hd2 Hi Hs E El.
  destruct (C121_snapshot Q show_f show_n cap default age None shuffle ms s log r h body sent log' E El) as (l1 & l2 & l3 & a & bs & ts & text & H1 & _ & _ & H2 & H3 & H4 & H5 & H6 & _). cbn in H5. subst text.
  assert (Sub : forall t, In t (inserted (ops_of (l1 ++ l2))) -> In t (inserted (ops_of (sc_log s)))).
  { intros t. rewrite El, H1. unfold ops_of. rewrite !flat_map_app. cbn. rewrite !flat_map_app. unfold inserted. rewrite !flat_map_app, !in_app_iff. tauto. }
  destruct (C145_scraped_partial Q show_f show_n default cap (ops_of (l1 ++ l2)) a bs ts (shuffle r ts) body Hf Hn Hd1 Hd2) as (blocks & B1 & B2); auto.
  - apply Forall_forall. auto.
  - exists (shuffle r ts), blocks. split; [|split; assumption]. intros E0. rewrite E0 in H4. cbn in H4. congruence.
Qed.
(** Missing: everything else.  One point that does not fit takes all others with
    it: a key that is no label name, a value with a quotation mark, a name that starts
    with a digit, an empty name, a name that is taken once characters are replaced, a
    tag called as the sink's own label: the scraper rejects the whole text. *)
Definition c145_good : @telemetry xQ := pt "a_b" (VSum fone) false (Some [("host", "h1")]) 1.
Definition c145_bad : list (@telemetry xQ) :=
  [ pt "x" (VSum fone) false (Some [("http-code", "200")]) 1
  ; pt "x" (VSum fone) false (Some [("path", ("say " ++ quote ++ "hi" ++ quote)%string)]) 1
  ; pt "9lives" (VSum fone) false (Some []) 1
  ; pt "" (VSum fone) false (Some []) 1
  ; pt "a.b" (VSum fone) false (Some []) 1
  ; pt "h" (VHist (mkXHist [fofZ 1; fofZ 10] [1; 2; 4]%N (Some (fofZ 9)))) false (Some [("le", "x")]) 1 ].
Definition c145_text (ops : list pop) : option string :=
  match pa_run ops (pa_new 10) with
  | Some (a, _) => match pa_reportable a with Some l => write_text (fun _ => "1") (fun _ => "2") [] l | None => None end
  | None => None
  end.
Theorem C145_refuted : point_fit c145_good /\
  Forall (fun bad => exists text, c145_text [PInsert c145_good; PInsert bad] = Some text /\ scrape_text text = None) c145_bad.
Proof.
  split; [split; [reflexivity|]; split; [constructor; [intros []|constructor]|constructor; [repeat split; try reflexivity; discriminate|constructor]]|].
  repeat (apply Forall_cons; [eexists; split; [vm_compute; reflexivity|vm_compute; reflexivity]|]). apply Forall_nil.
Qed.
(** beside points that fit, the same point is read *)
Definition c145_other : @telemetry xQ := pt "lat.ms" (VHist (mkXHist [fofZ 1; fofZ 10] [1; 2; 4]%N (Some (fofZ 9)))) false (Some [("dc", "x, y}")]) 1.
Example C145_ex : Forall point_fit [c145_good; c145_other] /\
  match c145_text [PInsert c145_good; PInsert c145_other] with Some text => scrape_text text | None => None end =
  Some [ SType "a_b" "counter"; SSample "a_b" [("host", "h1")] "1"
       ; SType "lat_ms" "histogram"; SSample "lat_ms" [("le", "1"); ("dc", "x, y}")] "2"; SSample "lat_ms" [("le", "1"); ("dc", "x, y}")] "2"; SSample "lat_ms" [("le", "+Inf"); ("dc", "x, y}")] "2"
       ; SSample "lat_ms_sum" [("dc", "x, y}")] "1"; SSample "lat_ms_count" [("dc", "x, y}")] "1" ].
Proof.
  split; [|vm_compute; reflexivity].
  repeat (apply Forall_cons; [split; [reflexivity|split; [constructor; [intros []|constructor]|constructor; [repeat split; try reflexivity; discriminate|constructor]]]|]). constructor.
Qed.
Print Assumptions C145_scraped_partial.
Print Assumptions C145_answer_partial.
Print Assumptions C145_refuted.
